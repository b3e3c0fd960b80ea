(** Hierarchical hidden Markov models: saved and loaded. *)
From Coq Require Import String List Bool Arith ZArith Lia QArith Sorted.
From Verif Require Import Base BaseFacts Arith Model_Json Model_Map Model_Ring Model_Phrase Model_Gaussian Model_Shared Model_Config Model_GMM Model_HMM Model_HHMM Model_Reload
  Spec_Gaussian Spec_Shared Spec_Config Spec_Reload
  Proofs_Map Proofs_Json Proofs_Gaussian4 Proofs_Shared Proofs_Config Proofs_Rel Proofs_Reload1 Proofs_Reload2 Proofs_Reload3 Proofs_Reload4 Proofs_Reload6 Proofs_Reload7 Proofs_Reload8.
Import ListNotations.
Local Open Scope nat_scope.
Local Open Scope list_scope.

Section HModelTrip.
  Context {A : arith}.
  Local Notation T := (num A).
  Local Notation J := (json A).

  Definition hloaded (h k : hclass A) : Prop :=
    stat h k /\ h_prior (hc_net h) = h_prior (hc_net k) /\ h_trans (hc_net h) = h_trans (hc_net k) /\ h_exit (hc_net h) = h_exit (hc_net k) /\
    Forall2 (fun g g' => gsim0 g g' /\ ring_one (gc_buf g')) (h_states (hc_net h)) (h_states (hc_net k)) /\ hc_hier k = true /\ one_channel (h_buf (hc_run k)).

  Definition top_json (m : hmodel A) (sp : J) (gs : list J) : J :=
    JObj [("shared_parameters", sp); ("configuration", cf_toJson hmmP_toJson (hq_cf m)); ("models", JArr gs);
      ("prior", JArr (map JReal (hq_prior m))); ("transition", JArr (map (fun row => JArr (map JReal row)) (hq_trans m))); ("exit_transition", JArr (map JReal (hq_exit m)))]%string.

  Lemma rows_save : forall m : hmodel A, length (hq_trans m) = length (hq_cls m) ->
    array2json (fun j => j) (fun i => let* row := rd (hq_trans m) i in vector2json JReal row) (length (hq_cls m)) = Ok (JArr (map (fun row => JArr (map JReal row)) (hq_trans m))).
  Proof.
    intros m L. rewrite <- L. apply (array_ok (vector2json JReal)). clear. induction (hq_trans m); cbn; constructor; auto. apply vector2json_ok.
  Qed.
  Lemma tabM_ok : forall {X} n (f : nat -> res X) (l : list X), length l = n -> (forall i x, nth_error l i = Some x -> f i = Ok x) -> tabM n f = Ok l.
  Proof.
    induction n; intros f l L H; cbn; [destruct l; [reflexivity|discriminate]|].
    destruct (exists_last (l := l)) as (l' & x & ->); [intro; subst; discriminate|]. rewrite app_length in L. cbn in L.
    rewrite (IHn f l'); [|lia|]. 2:{ intros i y Hy. apply H. rewrite nth_error_app1; auto. apply nth_error_Some. congruence. }
    cbn. rewrite (H n x); [reflexivity|]. rewrite nth_error_app2 by lia. replace (n - length l') with 0 by lia. reflexivity.
  Qed.

  (** Everything but the classes. *)
  Lemma hq_read : forall u (cv : conv A) (m : hmodel A), trained_hhmm cv m -> exists sp, sp_toJson (hq_sp m) = Ok sp /\ forall gs,
    hq_ofJson u cv (top_json m sp gs) =
      (let* ms := load_models cv (hc_ofJson u cv (sp_bim (hq_sp m)) (sp_dim (hq_sp m)) (sp_din (hq_sp m)) (sp_win (hq_sp m))) gs [] in
       let* (pr, tr, ex) := (if length ms =? length (hq_cls m) then Ok (hq_prior m, hq_trans m, hq_exit m) else
         let* j := jmember (top_json m sp gs) "prior" in
         let* pr := Model_Gaussian.outcome (json2vector true as_double j (repeat n0 (length ms)) (length ms)) in
         let* jt := jmember (top_json m sp gs) "transition" in
         let* tr := tabM (length ms) (fun i => let* j := jindex jt i JNull in Model_Gaussian.outcome (json2vector true as_double j (repeat n0 (length ms)) (length ms))) in
         let* j := jmember (top_json m sp gs) "exit_transition" in
         let* ex := Model_Gaussian.outcome (json2vector true as_double j (repeat n0 (length ms)) (length ms)) in Ok (pr, tr, ex)) in
       Ok (mkHM (sp_reloaded cv 0 (hq_sp m)) (mkConfig (hmmP_round cv true (cf_def (hq_cf m))) (cf_mt (hq_cf m)) (cf_est (hq_cf m))
          (map (fun e => (fst e, hmmP_round cv true (snd e))) (cf_class (hq_cf m)))) ms pr tr ex [] [] false empty_results)).
  Proof.
    intros u cv m (ST & PC & CO & SO & FT & LP & LT & FR & LX). destruct (sp_trip cv 0 (hq_sp m) (sp_new 0) ST PC) as (js & J1 & J2).
    exists js. split; [exact J1|]. intro gs. unfold hq_ofJson.
    change (jmember (top_json m js gs) "shared_parameters") with (Ok js). cbn [bind]. rewrite J2. cbn [run_load snd fst bind].
    change (jmember (top_json m js gs) "configuration") with (Ok (cf_toJson hmmP_toJson (hq_cf m))). cbn [bind]. rewrite hmm_config_trip by exact CO. cbn [run_load snd fst bind].
    change (jmember (top_json m js gs) "models") with (Ok (JArr gs)). cbn [bind jitems]. cbn [sp_bim sp_dim sp_din sp_win sp_reloaded].
    destruct (load_models cv _ gs []) as [ms| |]; cbn [bind]; auto. destruct (length ms =? length (hq_cls m)) eqn:E.
    - apply Nat.eqb_eq in E. rewrite E. change (jmember (top_json m js gs) "prior") with (Ok (JArr (map JReal (hq_prior m)))). cbn [bind]. rewrite outcome_trip by (auto; apply repeat_length). cbn [bind].
      change (jmember (top_json m js gs) "transition") with (Ok (JArr (map (fun row => JArr (map JReal row)) (hq_trans m)))). cbn [bind].
      rewrite (tabM_ok _ _ (hq_trans m)); auto.
      + cbn [bind]. change (jmember (top_json m js gs) "exit_transition") with (Ok (JArr (map JReal (hq_exit m)))). cbn [bind]. rewrite outcome_trip by (auto; apply repeat_length). reflexivity.
      + intros i row Hr. cbn [jindex]. rewrite nth_error_map, Hr. cbn [option_map bind]. apply outcome_trip; [|apply repeat_length]. rewrite Forall_forall in FR. apply FR. eapply nth_error_In. exact Hr.
    - destruct (jmember (top_json m js gs) "prior"); cbn [bind]; auto. destruct (Model_Gaussian.outcome _); cbn [bind]; auto.
      destruct (jmember (top_json m js gs) "transition"); cbn [bind]; auto. destruct (tabM _ _); cbn [bind]; auto. destruct (jmember _ _); cbn [bind]; auto. destruct (Model_Gaussian.outcome _); cbn [bind]; auto.
  Qed.

  Lemma hq_save : forall (m : hmodel A) sp gs, length (hq_trans m) = length (hq_cls m) -> sp_toJson (hq_sp m) = Ok sp -> Forall2 (fun e j => hc_toJson (fst e) (snd e) = Ok j) (hq_cls m) gs ->
    hq_toJson m = Ok (top_json m sp gs).
  Proof.
    intros m sp gs LT J1 G1. unfold hq_toJson, models_toJson. rewrite J1. cbn [bind]. rewrite (array_ok (fun e => hc_toJson (fst e) (snd e)) _ _ G1). cbn [bind].
    rewrite !vector2json_ok. cbn [bind]. rewrite rows_save by exact LT. reflexivity.
  Qed.

  Lemma hq_trip : forall u (cv : conv A) (m : hmodel A), trained_hhmm cv m -> Forall (fun e => hloadable (snd e)) (hq_cls m) ->
    exists j t, hq_toJson m = Ok j /\ hq_ofJson u cv j = Ok t /\ hq_res t = empty_results /\
      sp_bim (hq_sp t) = sp_bim (hq_sp m) /\ sp_dim (hq_sp t) = sp_dim (hq_sp m) /\ sp_din (hq_sp t) = sp_din (hq_sp m) /\
      cf_est (hq_cf t) = cf_est (hq_cf m) /\ hp_mode (cf_def (hq_cf t)) = hp_mode (cf_def (hq_cf m)) /\ hp_hier (cf_def (hq_cf t)) = true /\
      hq_prior t = hq_prior m /\ hq_trans t = hq_trans m /\ hq_exit t = hq_exit m /\
      Forall2 (entry hloaded) (hq_cls m) (hq_cls t).
  Proof.
    intros u cv m TR FL. destruct (hq_read u cv m TR) as (sp & J1 & RD). pose proof TR as (ST & PC & CO & SO & FT & LP & LT & FR & LX).
    assert (FG : Forall (fun e => exists j k, hc_toJson (fst e) (snd e) = Ok j /\ jmember j "label" = Ok (JStr (fst e)) /\
      hc_ofJson u cv (sp_bim (hq_sp m)) (sp_dim (hq_sp m)) (sp_din (hq_sp m)) (sp_win (hq_sp m)) j = Ok (fst e, k) /\ hloaded (snd e) k) (hq_cls m)).
    { apply Forall_forall. intros e He. rewrite Forall_forall in FT, FL. destruct (FT e He) as (TC & <- & <- & <- & <-).
      destruct (hc_trip u cv (fst e) (snd e) TC (FL e He)) as (j & k & G1 & G2 & G3 & G4). exists j, k. auto. }
    assert (GG : exists gs es, Forall2 (fun e j => hc_toJson (fst e) (snd e) = Ok j) (hq_cls m) gs /\
      Forall2 (fun e j => jmember j "label" = Ok (JStr (fst e)) /\ hc_ofJson u cv (sp_bim (hq_sp m)) (sp_dim (hq_sp m)) (sp_din (hq_sp m)) (sp_win (hq_sp m)) j = Ok e) es gs /\
      Forall2 (entry hloaded) (hq_cls m) es).
    { clear - FG. induction FG as [|e ms (j & h & G1 & G2 & G3 & G4) _ (gs & es & I1 & I2 & I3)]; [exists [], []; auto|].
      exists (j :: gs), ((fst e, h) :: es). repeat split; constructor; cbn; auto. split; auto. }
    destruct GG as (gs & es & G1 & G2 & G3). exists (top_json m sp gs). eexists. split; [apply hq_save; auto|].
    rewrite RD. rewrite (load_models_ok cv _ _ _ [] G2) by (unfold label_sorted in *; cbn; rewrite <- (entry_labels _ _ _ G3); exact SO).
    cbn [bind app]. rewrite <- (forall2_length _ _ _ G3), Nat.eqb_refl. cbn [bind]. split; [reflexivity|]. cbn. auto 20.
  Qed.

  Lemma hloadable_dec : forall h : hclass A, hloadable h \/ ~ hloadable h.
  Proof. intro h. unfold hloadable. destruct (hp_mode (hc_par h)); [auto|]. destruct (Nat.eq_dec (hc_dim h) 1); [auto|]. right. intros [Z|Z]; [discriminate|auto]. Qed.

  Lemma hq_fails : forall u (cv : conv A) (m : hmodel A), trained_hhmm cv m -> Exists (fun e => ~ hloadable (snd e)) (hq_cls m) ->
    exists j, hq_toJson m = Ok j /\ hq_ofJson u cv j = Throw JsonValueError.
  Proof.
    intros u cv m TR EX. destruct (hq_read u cv m TR) as (sp & J1 & RD). pose proof TR as (ST & PC & CO & SO & FT & LP & LT & FR & LX).
    set (load := hc_ofJson u cv (sp_bim (hq_sp m)) (sp_dim (hq_sp m)) (sp_din (hq_sp m)) (sp_win (hq_sp m))) in *.
    assert (FG : Forall (fun e => exists j, hc_toJson (fst e) (snd e) = Ok j /\ jmember j "label" = Ok (JStr (fst e)) /\
      ((exists e, load j = Ok e) \/ load j = Throw JsonValueError) /\ (~ hloadable (snd e) -> load j = Throw JsonValueError)) (hq_cls m)).
    { apply Forall_forall. intros e He. rewrite Forall_forall in FT. destruct (FT e He) as (TC & E1 & E2 & E3 & E4). unfold load. rewrite <- E1, <- E2, <- E3, <- E4.
      destruct (hloadable_dec (snd e)) as [DL|DL].
      - destruct (hc_trip u cv (fst e) (snd e) TC DL) as (j & h & G1 & G2 & G3 & _). exists j. repeat split; eauto. tauto.
      - destruct (hc_fails u cv (fst e) (snd e) TC DL) as (j & G1 & G2 & G3). exists j. repeat split; eauto. }
    assert (GG : exists gs, Forall2 (fun e j => hc_toJson (fst e) (snd e) = Ok j) (hq_cls m) gs /\
      Forall2 (fun l j => jmember j "label" = Ok (JStr l) /\ ((exists e, load j = Ok e) \/ load j = Throw JsonValueError)) (map fst (hq_cls m)) gs /\
      Exists (fun j => load j = Throw JsonValueError) gs).
    { revert EX. clear - FG. induction FG as [|e ms (j & G1 & G2 & G3 & G4) FG IH]; intros EX; [inversion EX|].
      destruct (forall_exists2 _ _ FG) as (gs & FF).
      inversion EX as [? ? X1|? ? X1]; subst.
      - exists (j :: gs). repeat split; [constructor; auto; eapply forall2_impl; [exact FF|]; cbn; tauto| |left; auto].
        cbn. constructor; auto. clear - FF. induction FF; cbn; constructor; auto. tauto.
      - destruct (IH X1) as (gs' & I1 & I2 & I3). exists (j :: gs'). repeat split; [constructor; auto|cbn; constructor; auto|right; auto]. }
    destruct GG as (gs & G1 & G2 & G3). exists (top_json m sp gs). split; [apply hq_save; auto|]. rewrite RD. rewrite (load_models_fails cv load _ _ _ [] G2 G3). reflexivity.
  Qed.

  Lemma loaded_sim : forall h k : hclass A, hloaded h k -> Forall ready_state (h_states (hc_net h)) -> hsim0 h k.
  Proof.
    intros h k (ST & E1 & E2 & E3 & FS & _) R. split; [exact ST|]. unfold net_sim. repeat split; auto. clear - FS R. induction FS as [|g g' gs gs' [S O] _ IH]; inversion R; subst; constructor; auto.
    split; [exact S|]. apply one_eqv; [|exact O]. apply ready_one in H1. apply H1.
  Qed.
  Lemma loaded_trans : forall h k : hclass A, hloaded h k -> tr_len h -> tr_len k.
  Proof. intros h k ((_ & _ & _ & _ & E1 & E2 & _) & _ & E & _) L. unfold tr_len in *. rewrite <- E, L, E1, E2. reflexivity. Qed.

  (** A left-right model read back, in a model with the same [hierarchical] flag. *)
  Lemma hq_loaded_same : forall u (cv : conv A) (m : hmodel A), trained_hhmm cv m -> ready_hhmm m -> Forall (fun e => hloadable (snd e) /\ hc_mode (snd e) = LeftRight) (hq_cls m) ->
    exists j t, hq_toJson m = Ok j /\ hq_ofJson u cv j = Ok t /\ hp_hier (cf_def (hq_cf t)) = true /\
      (hp_hier (cf_def (hq_cf m)) = true -> same_hrecognition (hq_view m) (hq_view t)) /\
      forall m0, exists t0, hq_fromJson u cv j m0 = (t0, Ok tt) /\ hp_hier (cf_def (hq_cf t0)) = hp_hier (cf_def (hq_cf m0)) /\
        (hp_hier (cf_def (hq_cf m0)) = hp_hier (cf_def (hq_cf m)) -> same_hrecognition (hq_view m) (hq_view t0)).
  Proof.
    intros u cv m TR (NE & FR) FL.
    assert (FL1 : Forall (fun e => hloadable (snd e)) (hq_cls m)) by (eapply Forall_impl; [|exact FL]; cbn; tauto).
    destruct (hq_trip u cv m TR FL1) as (j & t & J1 & J2 & ER & E1 & E2 & E3 & E4 & E5 & E6 & E7 & E8 & E9 & FE). exists j, t.
    assert (FM : forall b, b = hp_hier (cf_def (hq_cf m)) -> Forall (fun e => fits b (snd e) /\ hc_bim (snd e) = sp_bim (hq_sp m)) (hq_cls m)).
    { intros b ->. eapply Forall_impl; [|exact FR]. cbn. intros e [H1 H2]. split; [apply fits_ready; exact H2|exact H1]. }
    assert (LT : Forall2 (entry (fun h k => hloaded h k /\ tr_len k /\ hc_mode k = LeftRight /\ Forall ready_state (h_states (hc_net h)))) (hq_cls m) (hq_cls t)).
    { clear - FE FR FL. revert FR FL. induction FE as [|[l h] [l' k] ms ks [EL HL] _ IH]; intros FR FL; inversion FR as [|? ? [_ R1] R2]; inversion FL as [|? ? [_ L1] L2]; subst; constructor; auto.
      split; [exact EL|]. cbn [snd] in *. split; [exact HL|]. destruct R1 as (RS & _ & TL & _). split; [eapply loaded_trans; [exact HL|exact TL]|]. split; [|exact RS].
      destruct HL as ((_ & _ & _ & _ & _ & EM & _) & _). congruence. }
    split; [exact J1|]. split; [exact J2|]. split; [exact E6|]. split.
    - intro HT. apply same_hmodels. unfold hmsim0, same_top. cbn. rewrite E1, E2, E3, E4, E5, E6, E7, E8, E9. repeat split; auto.
      + eapply entry_impl; [exact LT|]. intros a b (HL & _ & _ & RS). apply loaded_sim; auto.
      + rewrite HT. clear - LT. induction LT as [|[l h] [l' k] ms ks [_ (HL & TL & LR & _)] _ IH]; constructor; auto. cbn [snd] in *. destruct HL as (_ & _ & _ & _ & _ & HK & OC). split; [exact TL|]. split; [exact OC|]. auto.
    - intro m0. unfold hq_fromJson. rewrite J2. eexists. split; [reflexivity|]. split; [reflexivity|]. intro EH. apply same_hmodels. unfold hmsim0, same_top. cbn. rewrite E1, E2, E3, E4, E5, E7, E8, E9, EH. repeat split; auto.
      + clear - LT. induction LT as [|[l h] [l' k] ms ks [EL (HL & TL & LR & RS)] _ IH]; cbn; constructor; auto. split; [exact EL|]. cbn [snd] in *. destruct HL as (ST & P1 & P2 & P3 & FS & _).
        apply hcopy_sim; auto. clear - FS RS. induction FS as [|g g' gs gs' [S _] _ IH]; inversion RS; subst; constructor; auto. split; [exact S|]. apply ready_one in H1. apply H1.
      + clear - LT. generalize (hp_hier (cf_def (hq_cf m))). intro b. induction LT as [|[l h] [l' k] ms ks [EL (HL & TL & LR & RS)] _ IH]; cbn; constructor; auto. cbn [snd] in *. destruct HL as (_ & _ & _ & _ & _ & HK & _).
        apply fits_copy; [exact TL|]. destruct b; [auto|]. intro M. congruence.
  Qed.

  (** Without a reset. *)
  Lemma update_empty : forall labels insts logs p, labels <> [] -> update_results (A := A) labels insts logs empty_results <> Ok p.
  Proof.
    intros labels insts logs p NE H. unfold update_results in H. apply bind_ok_inv in H. destruct H as (v & H & _). cbn [rs_inst empty_results] in H.
    destruct labels as [|l labels]; [congruence|]. cbn [length iterM] in H. clear NE.
    assert (G : forall n f v, iterM (S n) (fun i (d : list T) => let* x := f i in wr d i x) [] <> Ok v).
    { intros n f. induction n; intros w; cbn [iterM bind]; intro Z.
      - destruct (f 0); cbn in Z; discriminate.
      - apply bind_ok_inv in Z. destruct Z as (q & Z & _). exact (IHn _ Z). }
    exact (G _ _ _ H).
  Qed.
  Lemma hh_forward_res : forall x (m a : hhmm A), hh_forward x m = Ok a -> hh_hier m = true -> hh_res a = hh_res m /\ length (hh_cls a) = length (hh_cls m).
  Proof.
    intros x m a H HT. unfold hh_forward in H. rewrite HT in H. destruct (hh_started m).
    - unfold hh_forward_update in H. apply bind_ok_inv in H. destruct H as (v1 & _ & H). apply bind_ok_inv in H. destruct H as (v2 & _ & H). apply bind_ok_inv in H. destruct H as ([ms n] & H1 & H).
      apply bind_ok_inv in H. destruct H as (ms' & H2 & H). injection H as <-. apply sweep_len in H1. apply mapM_length in H2. cbn in *. split; [reflexivity|congruence].
    - unfold hh_forward_init in H. apply bind_ok_inv in H. destruct H as ([ms n] & H1 & H).
      apply bind_ok_inv in H. destruct H as (ms' & H2 & H). injection H as <-. apply sweep_len in H1. apply mapM_length in H2. cbn in *. split; [reflexivity|congruence].
  Qed.
  Lemma hh_unready : forall x (m : hhmm A) p, hh_hier m = true -> hh_res m = empty_results -> hh_cls m <> [] -> hh_filter x m <> Ok p.
  Proof.
    intros x m p HT ER NE H. unfold hh_filter in H. apply bind_ok_inv in H. destruct H as (a & H1 & H). destruct (hh_forward_res _ _ _ H1 HT) as [RA LA].
    apply bind_ok_inv in H. destruct H as (ms & H2 & H). apply bind_ok_inv in H. destruct H as (r & H3 & _). rewrite RA, ER in H3. eapply update_empty; [|exact H3].
    apply mapM_length in H2. intro Z. apply map_eq_nil in Z. subst ms. cbn in H2. destruct (hh_cls m); [congruence|]. cbn in LA. congruence.
  Qed.
End HModelTrip.
