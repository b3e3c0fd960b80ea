(** Hierarchical hidden Markov models: two models with the same parameters recognise alike. *)
From Coq Require Import String List Bool Arith ZArith Lia QArith.
From Verif Require Import Base BaseFacts Arith Model_Json Model_Map Model_Ring Model_Phrase Model_Gaussian Model_Shared Model_Config Model_GMM Model_HMM Model_HHMM Model_Reload
  Spec_Gaussian Spec_Reload Proofs_Map Proofs_Rel Proofs_Reload1 Proofs_Reload2 Proofs_Reload4 Proofs_Reload6.
Import ListNotations.
Local Open Scope nat_scope.
Local Open Scope list_scope.

Section HModel.
  Context {A : arith}.
  Local Notation T := (num A).

  (** The same values at the level of the model. *)
  Definition same_top (m k : hhmm A) : Prop :=
    hh_bim m = hh_bim k /\ hh_dim m = hh_dim k /\ hh_din m = hh_din k /\ hh_est m = hh_est k /\ hh_cmode m = hh_cmode k /\ hh_hier m = hh_hier k /\
    hh_prior m = hh_prior k /\ hh_trans m = hh_trans k /\ hh_exit m = hh_exit k.
  Definition flags (hier bim : bool) (h : hclass A) : Prop := hc_hier h = hier /\ hc_bim h = bim.
  Definition crel (R : hclass A -> hclass A -> Prop) (hier bim : bool) (h k : hclass A) : Prop := R h k /\ flags hier bim h.

  Definition hmsim (w : bool) (m k : hhmm A) : Prop :=
    same_top m k /\ hh_cls m <> [] /\
    length (hh_v1 m) = hh_size m /\ length (hh_v1 k) = hh_size m /\ length (hh_v2 m) = hh_size m /\ length (hh_v2 k) = hh_size m /\
    Forall2 (entry (crel (ready w) (hh_hier m) (hh_bim m))) (hh_cls m) (hh_cls k) /\
    res_len (hh_size m) (hh_res m) /\ res_len (hh_size m) (hh_res k) /\
    (hh_hier m = true -> hh_started m = w /\ hh_started k = w).

  Lemma entry_impl : forall {X Y} (P Q : X -> Y -> Prop) ms ms', Forall2 (entry P) ms ms' -> (forall a b, P a b -> Q a b) -> Forall2 (entry Q) ms ms'.
  Proof. intros X Y P Q ms ms' H F. eapply forall2_impl; [exact H|]. intros [l a] [l' b] [E HP]. split; auto. Qed.

  Lemma map_sim : forall (P Q : hclass A -> hclass A -> Prop) hier bim f f' ms ms', Forall2 (entry (crel P hier bim)) ms ms' ->
    (forall h k, P h k -> flags hier bim h -> res_rel Q (f h) (f' k)) -> (forall h a, f h = Ok a -> kept h a) ->
    res_rel (Forall2 (entry (crel Q hier bim))) (mapM (fun e => let* h := f (snd e) in Ok (fst e, h)) ms) (mapM (fun e : string * hclass A => let* h := f' (snd e) in Ok (fst e, h)) ms').
  Proof.
    intros P Q hier bim f f' ms ms' H F K. eapply rr_map; [exact H|]. intros [l h] [l' k] [E [HP HF]]. cbn [fst snd] in *. subst l'.
    eapply rr_bind; [apply rr_know; apply F; eassumption|]. intros a b (HQ & Ha & _). constructor. split; [reflexivity|]. split; [exact HQ|].
    apply K in Ha. destruct Ha as [K1 K2], HF as [F1 F2]. split; cbn; congruence.
  Qed.

  Lemma masses_sim : forall lev (P : hclass A -> hclass A -> Prop) ms ms' v v', Forall2 (entry P) ms ms' ->
    (forall h k, P h k -> hc_n h = hc_n k /\ lev (hc_run h) = lev (hc_run k)) -> length v = length ms -> length v' = length ms ->
    level_masses lev ms v = level_masses lev ms' v'.
  Proof.
    intros lev P ms ms' v v' F H L1 L2. unfold level_masses. rewrite <- (forall2_length _ _ _ F).
    assert (G : forall (ms0 : list (string * hclass A)) v0, iterM (length ms) (fun c v => let* e := rd ms0 c in let* s := accM (hc_n (snd e)) (rd (lev (hc_run (snd e)))) n0 in wr v c s) v0 =
      iterM (length ms) (fun c v => let* s := (let* e := rd ms0 c in accM (hc_n (snd e)) (rd (lev (hc_run (snd e)))) n0) in wr v c s) v0).
    { intros ms0 v0. apply iterM_ext. intros i s _. destruct (rd ms0 i); reflexivity. }
    rewrite !G. rewrite (fill_eq _ _ v v') by lia. apply iterM_ext. intros i s _. f_equal. apply rr_eq. eapply rr_bind; [apply forall2_rd; exact F|].
    intros [l h] [l' k] [_ HP]. cbn [snd] in *. destruct (H h k HP) as [-> ->]. apply rr_same.
  Qed.

  Lemma sweep_len : forall f (ms : list (string * hclass A)) i norm p, sweep f i ms norm = Ok p -> length (fst p) = length ms.
  Proof.
    intros f. induction ms as [|[l h] ms IH]; intros i norm p H; cbn [sweep] in H; [injection H as <-; reflexivity|].
    apply bind_ok_inv in H. destruct H as ([h' n'] & _ & H). apply bind_ok_inv in H. destruct H as ([ms' n''] & H1 & H). injection H as <-. apply IH in H1. cbn in *. congruence.
  Qed.

  Lemma init_sim : forall x m k, hh_hier m = true -> hmsim false m k ->
    res_rel (fun a b => exists ms ms', a = hh_set_front (hh_v1 m) (hh_v2 m) true (hh_set_cls ms m) /\ b = hh_set_front (hh_v1 k) (hh_v2 k) true (hh_set_cls ms' k) /\
      length ms = hh_size m /\ Forall2 (entry (crel L1 true (hh_bim m))) ms ms') (hh_forward_init x m) (hh_forward_init x k).
  Proof.
    intros x m k HT (ST & NE & _ & _ & _ & _ & F & _). unfold hh_forward_init. pose proof ST as (_ & _ & _ & _ & _ & _ & EP & _ & _). rewrite EP. rewrite HT in F.
    eapply rr_bind.
    { apply rr_know. apply (sweep_sim (crel (ready false) true (hh_bim m)) (crel L1 true (hh_bim m))); [exact F|].
      intros i h q norm [R [F1 F2]]. eapply rr_impl; [apply init_class_sim; [exact F1|exact R]|]. intros [a n] [b n'] (HL & [K1 K2] & EN). cbn [fst snd] in *. split; [|exact EN].
      split; [exact HL|]. split; congruence. }
    intros [ms n] [ms' n'] [[FM EN] [HL _]]. apply sweep_len in HL. cbn [fst snd] in *. subst n'. eapply rr_bind.
    { apply rr_know. apply scale_sim with (hier := hh_bim m). eapply entry_impl; [exact FM|]. intros a b [H [F1 F2]]. auto. }
    intros s s' (FS & HS & _). apply mapM_length in HS. constructor. exists s, s'. split; [reflexivity|]. split; [reflexivity|]. split; [unfold hh_size; congruence|]. eapply entry_impl; [exact FS|]. intros a b [H [F1 F2]]. split; [exact H|split; auto].
  Qed.

  Lemma forwards_sim : forall x m k, hh_hier m = true -> hmsim true m k ->
    res_rel (fun a b => exists v1 v2 ms ms', a = hh_set_front v1 v2 true (hh_set_cls ms m) /\ b = hh_set_front v1 v2 true (hh_set_cls ms' k) /\
      length v1 = hh_size m /\ length v2 = hh_size m /\
      length ms = hh_size m /\ Forall2 (entry (crel L1 true (hh_bim m))) ms ms') (hh_forward_update x m) (hh_forward_update x k).
  Proof.
    intros x m k HT (ST & NE & V1 & V1' & V2 & V2' & F & _ & _ & SD). unfold hh_forward_update. destruct (SD HT) as [-> ->]. rewrite HT in F.
    assert (WN : forall h q, crel (ready true) true (hh_bim m) h q -> hc_n h = hc_n q /\ (h_a1 (hc_run h) = h_a1 (hc_run q) /\ h_a2 (hc_run h) = h_a2 (hc_run q))).
    { intros h q [[HS WR] [F1 F2]]. split; [apply HS|]. unfold warm_run in WR. rewrite F1 in WR. tauto. }
    rewrite (masses_sim h_a1 _ _ _ _ (hh_v1 k) F) by (try exact V1; try exact V1'; intros h q R; destruct (WN h q R) as (? & ? & ?); auto).
    apply rr_step. intros v1 Hv1.
    rewrite (masses_sim h_a2 _ _ _ _ (hh_v2 k) F) by (try exact V2; try exact V2'; intros h q R; destruct (WN h q R) as (? & ? & ?); auto).
    apply rr_step. intros v2 Hv2.
    assert (LEN : forall lev v w, level_masses lev (hh_cls k) v = Ok w -> length w = length v).
    { intros lev v w H. unfold level_masses in H. refine (iterM_inv_ok (fun _ d => length d = length v) _ _ v w eq_refl _ H).
      intros i a b _ LA G. apply bind_ok_inv in G. destruct G as (e & _ & G). apply bind_ok_inv in G. destruct G as (s & _ & G). rewrite (wr_length _ _ _ _ G). exact LA. }
    apply LEN in Hv1. apply LEN in Hv2.
    assert (TS : top_sim m k).
    { destruct ST as (_ & _ & _ & _ & _ & _ & E1 & E2 & E3). unfold top_sim. repeat split; auto. unfold hh_size. exact (forall2_length _ _ _ F). }
    eapply rr_bind.
    { apply rr_know. apply (sweep_sim (crel (ready true) true (hh_bim m)) (crel L1 true (hh_bim m))); [exact F|].
      intros i h q norm [R [F1 F2]]. eapply rr_impl; [apply update_class_sim; [exact F1|exact R|exact TS]|]. intros [a n] [b n'] (HL & [K1 K2] & EN). cbn [fst snd] in *. split; [|exact EN].
      split; [exact HL|]. split; congruence. }
    intros [ms n] [ms' n'] [[FM EN] [HL _]]. apply sweep_len in HL. cbn [fst snd] in *. subst n'. eapply rr_bind.
    { apply rr_know. apply scale_sim with (hier := hh_bim m). eapply entry_impl; [exact FM|]. intros a b [H [F1 F2]]. auto. }
    intros s s' (FS & HS & _). apply mapM_length in HS. constructor. exists v1, v2, s, s'. split; [reflexivity|]. split; [reflexivity|]. split; [congruence|]. split; [congruence|]. split; [unfold hh_size; congruence|].
    eapply entry_impl; [exact FS|]. intros a b [H [F1 F2]]. split; [exact H|split; auto].
  Qed.

  (** The state after the first part of [filter]. *)
  Definition mid (m k : hhmm A) : Prop :=
    same_top m k /\ hh_cls m <> [] /\
    length (hh_v1 m) = hh_size m /\ length (hh_v1 k) = hh_size m /\ length (hh_v2 m) = hh_size m /\ length (hh_v2 k) = hh_size m /\
    Forall2 (entry (crel L1 (hh_hier m) (hh_bim m))) (hh_cls m) (hh_cls k) /\
    res_len (hh_size m) (hh_res m) /\ res_len (hh_size m) (hh_res k) /\
    (hh_hier m = true -> hh_started m = true /\ hh_started k = true).

  Lemma nonempty : forall {X Y} (P : X -> Y -> Prop) l l', Forall2 P l l' -> l <> [] -> l' <> [].
  Proof. intros X Y P l l' H NE. destruct H; [congruence|discriminate]. Qed.

  Lemma L3_L1 : forall h k : hclass A, L3 h k -> L1 h k.
  Proof. intros h k H. apply H. Qed.

  Lemma hforward_sim : forall w x m k, hmsim w m k -> res_rel mid (hh_forward x m) (hh_forward x k).
  Proof.
    intros w x m k H. pose proof H as (ST & NE & V1 & V1' & V2 & V2' & F & R1 & R2 & SD). pose proof ST as (_ & _ & _ & _ & _ & EH & _ & _ & _).
    assert (NIL : forall ms : list (string * hclass A), length ms = hh_size m -> ms <> []).
    { intros ms L Z. subst ms. unfold hh_size in L. destruct (hh_cls m); [congruence|discriminate]. }
    unfold hh_forward. rewrite <- EH. destruct (hh_hier m) eqn:HT.
    - destruct (SD eq_refl) as [S1 S2]. rewrite S1, S2. destruct w.
      + eapply rr_impl; [apply forwards_sim; [exact HT|exact H]|]. intros a b (v1 & v2 & ms & ms' & -> & -> & L1' & L2' & LM & FM).
        specialize (NIL ms LM). unfold mid, hh_size, same_top in *. cbn. rewrite HT, LM. repeat split; try tauto; apply R1 || apply R2.
      + eapply rr_impl; [apply init_sim; [exact HT|exact H]|]. intros a b (ms & ms' & -> & -> & LM & FM).
        specialize (NIL ms LM). unfold mid, hh_size, same_top in *. cbn. rewrite HT, LM. repeat split; try tauto; apply R1 || apply R2.
    - eapply rr_bind.
      { apply rr_know. apply (map_sim (ready w) L3 false (hh_bim m) (hm_filter x) (hm_filter x) (hh_cls m) (hh_cls k) F); [|apply hfilter_kept].
        intros h q R [F1 F2]. eapply hfilter_sim; [exact F1|exact R]. }
      intros ms ms' (FM & HM & _). apply mapM_length in HM. specialize (NIL ms HM).
      assert (SZ : hh_size m = hh_size k) by exact (forall2_length _ _ _ F). rewrite <- SZ.
      assert (EQ : iterM (hh_size m) (fun i v => let* e := rd ms i in wr v i (h_inst (hc_run (snd e)))) (rs_inst (hh_res m)) =
                   iterM (hh_size m) (fun i v => let* e := rd ms' i in wr v i (h_inst (hc_run (snd e)))) (rs_inst (hh_res k))).
      { rewrite (fillx_eq (hh_size m) (rd ms) (fun e => h_inst (hc_run (snd e))) (rs_inst (hh_res m)) (rs_inst (hh_res k))) by (destruct R1, R2; lia).
        apply iterM_ext. intros i s _. apply rr_eq. eapply rr_bind; [apply forall2_rd; exact FM|]. intros [l a] [l' b] [_ [HL _]]. cbn [snd] in *.
        replace (h_inst (hc_run a)) with (h_inst (hc_run b)) by (symmetry; apply HL). apply rr_same. }
      rewrite EQ. apply rr_step. intros inst Hi. apply (fillx_length (hh_size m) (rd ms') (fun e => h_inst (hc_run (snd e)))) in Hi. constructor.
      assert (FM1 : Forall2 (entry (crel L1 (hh_hier m) (hh_bim m))) ms ms') by (rewrite HT; eapply entry_impl; [exact FM|]; intros a b [HL HF]; split; [apply L3_L1; exact HL|exact HF]).
      unfold mid, hh_size, same_top, res_len in *. cbn. rewrite HM. repeat split; try tauto; try congruence; try apply R1; try apply R2; destruct R1, R2; congruence.
  Qed.

  Lemma seen_L3 : forall (h k : hclass A), L3 h k -> hc_bim h = false -> hclass_seen h = hclass_seen k.
  Proof.
    intros h k (((W & I) & EL & _) & EG & EP) B. assert (B' : hc_bim k = false) by (rewrite <- B; symmetry; apply W). unfold hclass_seen. rewrite I, EL, EG, EP, B, B'. reflexivity.
  Qed.
  Lemma seen_L4 : forall (h k : hclass A), L4 h k -> hclass_seen h = hclass_seen k.
  Proof.
    intros h k ((((W & I) & EL & _) & EG & EP) & EO & EC). assert (B' : hc_bim h = hc_bim k) by apply W. unfold hclass_seen. rewrite I, EL, EG, EP, EO, EC, B'. reflexivity.
  Qed.

  Lemma hfilter_msim : forall w x m k, hmsim w m k -> res_rel (fun a b => hmsim true a b /\ hhmm_seen a = hhmm_seen b) (hh_filter x m) (hh_filter x k).
  Proof.
    intros w x m0 k0 H0. unfold hh_filter. eapply rr_bind; [eapply hforward_sim; exact H0|]. clear w m0 k0 H0.
    intros m k (ST & NE & V1 & V1' & V2 & V2' & F & R1 & R2 & SD). pose proof ST as (B & D & DI & ES & CM & EH & _).
    eapply rr_bind.
    { apply rr_know. apply (map_sim L1 L3 (hh_hier m) (hh_bim m) hm_post hm_post _ _ F); [|apply post_kept]. intros h q R _. apply post_sim. exact R. }
    intros ms ms' (FM & HM & _). apply mapM_length in HM.
    assert (EL : map fst ms = map fst ms') by (eapply entry_labels; exact FM).
    assert (EI : map (fun e => h_inst (hc_run (snd e))) ms = map (fun e => h_inst (hc_run (snd e))) ms') by (apply (entry_map _ (fun h => h_inst (hc_run h)) (fun h => h_inst (hc_run h)) _ _ FM); intros a b [R _]; apply R).
    assert (EG : map (fun e => h_log (hc_run (snd e))) ms = map (fun e => h_log (hc_run (snd e))) ms') by (apply (entry_map _ (fun h => h_log (hc_run h)) (fun h => h_log (hc_run h)) _ _ FM); intros a b [R _]; apply R).
    rewrite EL, EI, EG. clear EI EG.
    assert (LMS : length (map fst ms') = hh_size m) by (rewrite <- EL, map_length; exact HM).
    eapply rr_bind.
    { apply update_sim; try (rewrite LMS; assumption). intro Z. rewrite Z in LMS. cbn in LMS. unfold hh_size in LMS. destruct (hh_cls m); [congruence|discriminate]. }
    rewrite LMS. intros r s (LR & LS & ER & _). cbn beta zeta. rewrite B, D, DI, ES, CM. injection ER as Q1 Q2 Q3 Q4 Q5 Q6.
    assert (FIN : forall (mm mm' : list (string * hclass A)) o v, length mm = hh_size m -> Forall2 (entry (crel L1 (hh_hier m) (hh_bim m))) mm mm' ->
      map (fun e => hclass_seen (snd e)) mm = map (fun e => hclass_seen (snd e)) mm' ->
      res_rel (fun a b => hmsim true a b /\ hhmm_seen a = hhmm_seen b)
      (Ok (hh_set_res (mkRes (rs_inst r) (rs_instn r) (rs_sm r) (rs_smn r) (rs_log r) (rs_likeliest r) o v) (hh_set_cls mm m)))
      (Ok (hh_set_res (mkRes (rs_inst s) (rs_instn s) (rs_sm s) (rs_smn s) (rs_log s) (rs_likeliest s) o v) (hh_set_cls mm' k)))).
    { intros mm mm' o v LM FF CS. constructor. split.
      - assert (NN : mm <> []) by (intro Z; subst mm; unfold hh_size in LM; destruct (hh_cls m); [congruence|discriminate]).
        assert (F2 : Forall2 (entry (crel (ready true) (hh_hier m) (hh_bim m))) mm mm') by (eapply entry_impl; [exact FF|]; intros a b [HL HF]; split; [apply HL|exact HF]).
        unfold hmsim, same_top, res_len, hh_size in *. cbn -[ready]. rewrite LM. tauto.
      - unfold hhmm_seen, results_seen. cbn. rewrite (entry_labels _ _ _ FF), CS, Q1, Q2, Q3, Q4, Q5, Q6, B. reflexivity. }
    destruct (hh_bim k) eqn:BK; cbn [negb].
    - apply rr_step. intros no _. eapply rr_bind.
      { apply rr_know. apply (map_sim L3 L4 (hh_hier m) (hh_bim m) (hm_regression x) (hm_regression x) _ _ FM); [|apply hregression_kept]. intros h q R _. apply regression_hsim. exact R. }
      intros mm mm' (FF & HM' & _). apply mapM_length in HM'.
      assert (LM : length mm = hh_size m) by (unfold hh_size in *; congruence).
      assert (F1 : Forall2 (entry (crel L1 (hh_hier m) (hh_bim m))) mm mm') by (eapply entry_impl; [exact FF|]; intros a b [HL HF]; split; [apply HL|exact HF]).
      assert (CS : map (fun e => hclass_seen (snd e)) mm = map (fun e => hclass_seen (snd e)) mm') by (eapply entry_map; [exact FF|]; intros a b [HL _]; apply seen_L4; exact HL).
      destruct (hh_est k).
      + pose proof (entry_get _ mm mm' (rs_likeliest s) FF) as G. rewrite Q6. specialize (FIN mm mm'). rewrite Q6 in FIN.
        destruct (mget String.eqb mm (rs_likeliest s)) as [a|], (mget String.eqb mm' (rs_likeliest s)) as [b|]; try tauto; try solve [constructor].
        destruct G as [(_ & EO & EC) _]. cbn [bind]. rewrite EO, EC. apply FIN; auto.
      + assert (EO : map (fun e => (h_out (hc_run (snd e)), h_ocov (hc_run (snd e)))) mm = map (fun e => (h_out (hc_run (snd e)), h_ocov (hc_run (snd e)))) mm').
        { apply (entry_map _ (fun h => (h_out (hc_run h), h_ocov (hc_run h))) (fun h => (h_out (hc_run h), h_ocov (hc_run h))) _ _ FF). intros a b [(_ & -> & ->) _]. reflexivity. }
        rewrite EO, Q4. apply rr_step. intros [o c] _. specialize (FIN mm mm' o c). rewrite Q4 in FIN. apply FIN; auto.
    - constructor. split.
      + assert (NN : ms <> []) by (intro Z; subst ms; cbn in HM; destruct (hh_cls m); [congruence|discriminate]).
        assert (F2 : Forall2 (entry (crel (ready true) (hh_hier m) (hh_bim m))) ms ms') by (eapply entry_impl; [exact FM|]; intros a b [HL HF]; split; [apply HL|exact HF]).
        unfold hmsim, same_top, res_len, hh_size in *. cbn -[ready]. rewrite HM. rewrite B, BK in *. tauto.
      + assert (CS : map (fun e => hclass_seen (snd e)) ms = map (fun e => hclass_seen (snd e)) ms').
        { eapply entry_map; [exact FM|]. intros a b [HL [_ HB]]. apply seen_L3; [exact HL|]. rewrite HB. exact B. }
        unfold hhmm_seen, results_seen. cbn. rewrite EL, CS, Q1, Q2, Q3, Q4, Q5, Q6, B, BK. reflexivity.
  Qed.

  Lemma hfilters_msim : forall xs w m k, hmsim w m k ->
    res_rel (fun a b => xs <> [] -> hhmm_seen a = hhmm_seen b) (hh_filters xs m) (hh_filters xs k).
  Proof.
    induction xs as [|x xs IH]; intros w m k S; cbn.
    - constructor. congruence.
    - eapply rr_bind; [eapply hfilter_msim; exact S|]. intros a b [S1 E]. destruct xs as [|x' xs].
      + cbn. constructor. auto.
      + eapply rr_impl; [eapply IH; exact S1|]. intros p q G _. apply G. discriminate.
  Qed.

  (** ** Resetting *)
  Definition tr_len (h : hclass A) : Prop := length (h_trans (hc_net h)) = match hc_mode h with Ergodic => hc_n h * hc_n h | LeftRight => 2 * hc_n h end.
  (** Classes that a reset makes ready: the flag of the class may be out of date if it is [true]. *)
  Definition fits (hier : bool) (h : hclass A) : Prop :=
    tr_len h /\ one_channel (h_buf (hc_run h)) /\
    if hier then hc_hier h = true /\ hc_mode h = LeftRight
    else hc_mode h = Ergodic -> hc_hier h = false /\ length (h_alpha (hc_run h)) = hc_n h.

  Definition cyc (h : hclass A) : list T :=
    if 1 <? hc_n h then upd (h_trans (hc_net h)) (match hc_mode h with Ergodic => (hc_n h - 1) * hc_n h | LeftRight => (hc_n h - 1) * 2 + 1 end) (nofQ (1 # 20)) else h_trans (hc_net h).
  Lemma cyc_ok : forall N mode p (tr : list T), length tr = (match mode with Ergodic => N * N | LeftRight => 2 * N end) ->
    cyclic N mode p tr = Ok (if 1 <? N then upd tr (match mode with Ergodic => (N - 1) * N | LeftRight => (N - 1) * 2 + 1 end) p else tr).
  Proof.
    intros N mode p tr L. unfold cyclic. destruct (1 <? N) eqn:E; [|reflexivity]. apply Nat.ltb_lt in E. unfold wr.
    replace (_ <? length tr) with true; [reflexivity|]. symmetry. apply Nat.ltb_lt. rewrite L. destruct mode; nia.
  Qed.
  Lemma upd_twice : forall {X} (v : list X) i x, upd (upd v i x) i x = upd v i x.
  Proof. induction v; intros [|i] x; cbn; auto. f_equal. apply IHv. Qed.

  Lemma channel_reset : forall (r : ring T) n, one_channel r -> one_channel (ring_clear (ring_resize n0 r n)).
  Proof.
    intros q n (c & D & L). unfold ring_resize. destruct (n =? r_length q) eqn:E.
    - apply Nat.eqb_eq in E. subst n. exists c. cbn. auto.
    - exists (vresize n n0 c). unfold ring_clear. rewrite D. destruct (r_length q <? n); [|destruct (n <=? r_index q)]; cbn [r_data r_length map]; rewrite vresize_length; auto.
  Qed.

  Lemma double_reset : forall hier (h : hclass A), fits hier h -> exists h1 h2, hm_reset h = Ok h1 /\ hm_reset (hc_set_hier hier h1) = Ok h2 /\
    hc_bim h2 = hc_bim h /\ hc_dim h2 = hc_dim h /\ hc_din h2 = hc_din h /\ hc_win h2 = hc_win h /\ hc_par h2 = hc_par h /\ hc_hier h2 = hier /\
    hc_net h2 = (if hier then hc_net h else nt_trans (cyc h) (hc_net h)) /\
    h_buf (hc_run h2) = ring_clear (ring_resize n0 (ring_clear (ring_resize n0 (h_buf (hc_run h)) (hc_win h))) (hc_win h)) /\ h_started (hc_run h2) = false /\
    (hier = false -> hc_mode h = Ergodic -> length (h_alpha (hc_run h2)) = hc_n h).
  Proof.
    intros hier h (TL & OC & FT). unfold tr_len in TL. unfold hm_reset at 1. destruct hier.
    - destruct FT as [FT LR]. rewrite FT. eexists. eexists. split; [reflexivity|]. unfold hm_reset. cbn. split; [reflexivity|]. cbn. repeat split; auto. discriminate.
    - assert (C : cyclic (hc_n h) (hc_mode h) (nofQ (1 # 20)) (h_trans (hc_net h)) = Ok (cyc h)) by (rewrite (cyc_ok _ _ _ _ TL); reflexivity).
      destruct (hc_hier h) eqn:HH.
      + eexists. eexists. split; [reflexivity|]. unfold hm_reset. cbn -[cyclic cyc ring_clear ring_resize]. unfold hc_n, hc_mode in *. cbn -[cyclic cyc ring_clear ring_resize]. rewrite C.
        cbn [bind]. split; [reflexivity|]. cbn -[cyc ring_clear ring_resize]. repeat split; auto. intros _ M. destruct (FT M). congruence.
      + rewrite C. cbn [bind]. eexists. eexists. split; [reflexivity|]. unfold hm_reset. cbn -[cyclic cyc ring_clear ring_resize]. unfold hc_n, hc_mode in *. cbn -[cyclic cyc ring_clear ring_resize].
        assert (C2 : cyclic (hp_states (hc_par h)) (hp_trans (hc_par h)) (nofQ (1 # 20)) (cyc h) = Ok (cyc h)).
        { rewrite cyc_ok; unfold cyc, hc_n, hc_mode; destruct (1 <? hp_states (hc_par h)); auto; rewrite ?upd_twice; auto. rewrite upd_len. exact TL. }
        rewrite C2. cbn [bind]. split; [reflexivity|]. cbn -[cyc ring_clear ring_resize]. repeat split; auto. intros _ M. apply FT. exact M.
  Qed.

  Definition hmsim0 (m k : hhmm A) : Prop :=
    same_top m k /\ hh_cls m <> [] /\ Forall2 (entry hsim0) (hh_cls m) (hh_cls k) /\
    Forall (fun e => fits (hh_hier m) (snd e) /\ hc_bim (snd e) = hh_bim m) (hh_cls m) /\ Forall (fun e => fits (hh_hier m) (snd e)) (hh_cls k).

  Lemma two_resets : forall hier (ms : list (string * hclass A)), Forall (fun e => fits hier (snd e)) ms -> exists ms1 ms2,
    reset_all ms = Ok ms1 /\ mapM (fun e => let* h := hm_reset (hc_set_hier hier (snd e)) in Ok (fst e, h)) ms1 = Ok ms2 /\ length ms1 = length ms /\ length ms2 = length ms /\
    Forall2 (entry (fun h h2 => exists h1, hm_reset h = Ok h1 /\ hm_reset (hc_set_hier hier h1) = Ok h2)) ms ms2.
  Proof.
    intros hier ms H. induction H as [|[l h] ms FT _ (ms1 & ms2 & E1 & E2 & L1' & L2' & F)].
    - exists [], []. cbn. auto.
    - cbn [snd] in FT. destruct (double_reset hier h FT) as (h1 & h2 & R1 & R2 & _). exists ((l, h1) :: ms1), ((l, h2) :: ms2). unfold reset_all in *. cbn. rewrite R1. cbn. rewrite E1. cbn. rewrite R2. cbn. rewrite E2.
      repeat split; auto. constructor; [|exact F]. split; [reflexivity|]. cbn. eauto.
  Qed.

  Lemma resets_cold : forall hier (h k h1 h2 k1 k2 : hclass A), hsim0 h k -> fits hier h -> fits hier k ->
    hm_reset h = Ok h1 -> hm_reset (hc_set_hier hier h1) = Ok h2 -> hm_reset k = Ok k1 -> hm_reset (hc_set_hier hier k1) = Ok k2 -> cold h2 k2 /\ hc_hier h2 = hier /\ hc_bim h2 = hc_bim h.
  Proof.
    intros hier h k h1 h2 k1 k2 (S & NS) FH FK A1 A2 B1 B2.
    destruct (double_reset hier h FH) as (h1' & h2' & A1' & A2' & P). rewrite A1 in A1'. injection A1' as <-. rewrite A2 in A2'. injection A2' as <-.
    destruct (double_reset hier k FK) as (k1' & k2' & B1' & B2' & Q). rewrite B1 in B1'. injection B1' as <-. rewrite B2 in B2'. injection B2' as <-.
    destruct P as (P1 & P2 & P3 & P4 & P5 & P6 & P7 & P8 & P9 & P10). destruct Q as (Q1 & Q2 & Q3 & Q4 & Q5 & Q6 & Q7 & Q8 & Q9 & Q10).
    pose proof S as (S1 & S2 & S3 & S4 & EN & S6 & S7 & S8). pose proof NS as (FS & N1 & N2 & N3).
    split; [|split; [exact P6|exact P1]]. unfold cold, hsim, hsim0, stat, net_sim. unfold hc_n, hc_mode in *. rewrite P1, P2, P3, P4, P5, P6, P7, P8, P9, Q1, Q2, Q3, Q4, Q5, Q6, Q7, Q8, Q9.
    assert (EC : cyc h = cyc k) by (unfold cyc, hc_n, hc_mode; rewrite EN, S6, N2; reflexivity).
    assert (RB : ring_eqv (ring_clear (ring_resize n0 (ring_clear (ring_resize n0 (h_buf (hc_run h)) (hc_win h))) (hc_win h))) (ring_clear (ring_resize n0 (ring_clear (ring_resize n0 (h_buf (hc_run k)) (hc_win k))) (hc_win k)))).
    { rewrite S4. apply reset_ring; apply channel_reset; [apply FH|apply FK]. }
    split; [split; [split; [tauto|]|split; [reflexivity|exact RB]]|].
    - destruct hier; cbn; rewrite ?EC; tauto.
    - destruct hier.
      + destruct FH as (_ & _ & _ & FH). exact FH.
      + split; [reflexivity|]. split; [reflexivity|]. intro M. split; [apply P10; auto|]. rewrite EN. apply Q10; auto. unfold hc_mode. congruence.
  Qed.

  Lemma hreset_sim : forall m k, hmsim0 m k -> res_rel (hmsim false) (hh_reset m) (hh_reset k).
  Proof.
    intros m k (ST & NE & F & FM & FK). pose proof ST as (B & D & DI & ES & CM & EH & _). unfold hh_reset.
    assert (FM' : Forall (fun e => fits (hh_hier m) (snd e)) (hh_cls m)) by (eapply Forall_impl; [|exact FM]; cbn; tauto).
    destruct (two_resets _ _ FM') as (ms1 & ms2 & E1 & E2 & L1' & L2' & G). destruct (two_resets _ _ FK) as (ks1 & ks2 & E1' & E2' & K1 & K2 & G').
    rewrite E1, E1'. cbn [bind]. rewrite B, D, DI, CM, <- EH, E2, E2'.
    assert (SZ : hh_size m = hh_size k) by exact (forall2_length _ _ _ F).
    assert (CC : Forall2 (entry (crel cold (hh_hier m) (hh_bim m))) ms2 ks2).
    { clear - F FM FK G G'. revert ms2 ks2 G G' FM FK. induction F as [|[l h] [l' k'] ms ks [EL HS] _ IH]; intros ms2 ks2 G G' FM FK; inversion G as [|? [la h2] ? ? [EA (h1 & A1 & A2)] G1]; inversion G' as [|? [lb k2] ? ? [EB (k1 & B1 & B2)] G1']; subst; constructor.
      - cbn [fst snd] in *. subst la lb l'. inversion FM as [|? ? [FA FB] _]; inversion FK as [|? ? FC _]; subst. cbn [snd] in *.
        destruct (resets_cold _ _ _ _ _ _ _ HS FA FC A1 A2 B1 B2) as (C & C1 & C2). split; [reflexivity|]. cbn. split; [exact C|]. split; [exact C1|]. congruence.
      - inversion FM; inversion FK; subst. apply IH; auto. }
    assert (NN : ms2 <> []) by (intro Z; subst ms2; destruct (hh_cls m); [congruence|discriminate]).
    assert (FIN : forall p q : list T * list T, res_rel (hmsim false)
      (let (o, c) := p in let* ms := Ok ms2 in Ok (hh_set_res (mkRes (vresize (hh_size m) n0 (rs_inst (hh_res m))) (vresize (hh_size m) n0 (rs_instn (hh_res m))) (vresize (hh_size m) n0 (rs_sm (hh_res m))) (vresize (hh_size m) n0 (rs_smn (hh_res m)))
        (vresize (hh_size m) n0 (rs_log (hh_res m))) (rs_likeliest (hh_res m)) o c) (hh_set_front (vresize (hh_size m) n0 (hh_v1 m)) (vresize (hh_size m) n0 (hh_v2 m)) false (hh_set_cls ms m))))
      (let (o, c) := q in let* ms := Ok ks2 in Ok (hh_set_res (mkRes (vresize (hh_size k) n0 (rs_inst (hh_res k))) (vresize (hh_size k) n0 (rs_instn (hh_res k))) (vresize (hh_size k) n0 (rs_sm (hh_res k))) (vresize (hh_size k) n0 (rs_smn (hh_res k)))
        (vresize (hh_size k) n0 (rs_log (hh_res k))) (rs_likeliest (hh_res k)) o c) (hh_set_front (vresize (hh_size k) n0 (hh_v1 k)) (vresize (hh_size k) n0 (hh_v2 k)) false (hh_set_cls ms k))))).
    { intros [o c] [o' c']. cbn [bind]. constructor. rewrite <- SZ. unfold hmsim, res_len. unfold hh_size in *. cbn -[vresize ready]. rewrite !vresize_length, L2'. unfold same_top in *. cbn. tauto. }
    destruct (hh_bim k).
    - destruct (usub (hh_dim k) (hh_din k)) as [no| |]; cbn [bind]; [apply (FIN (_, _) (_, _))|constructor|constructor].
    - apply (FIN (_, _) (_, _)).
  Qed.

  Lemma same_hmodels : forall m k, hmsim0 m k -> same_hrecognition m k.
  Proof.
    intros m k H xs NE. eapply (shown_rel (fun a b => hhmm_seen a = hhmm_seen b)); [|auto]. unfold hhmm_recognise. eapply rr_bind; [apply hreset_sim; exact H|].
    intros a b S. eapply rr_impl; [eapply hfilters_msim; exact S|]. intros p q G. apply G. exact NE.
  Qed.
End HModel.
