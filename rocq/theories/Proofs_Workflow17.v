(** Training a hierarchical hidden Markov model class by class recognises like training it at once. *)
From Coq Require Import String List Bool Arith ZArith Reals Lia Lra Sorting.Sorted.
From Verif Require Import Base BaseFacts Arith RFacts Model_Map Model_Ring Model_Phrase Model_TrainingSet Model_Gaussian Model_Config Model_KMeans Model_GMM Model_HMM Model_HHMM Model_Shared
  Model_Train Model_Reload Model_Workflow Model_Workflow2 Model_Workflow3 Model_Workflow4 Spec_Common Spec_Phrase Spec_TrainingSet Spec_Train Spec_Shared Spec_Matrix Spec_Gaussian Spec_GMM Spec_HMM Spec_HMMInit
  Spec_EM2 Spec_HHMM Spec_Reload Spec_Workflow Spec_Workflow2 Spec_Workflow3 Spec_Workflow4
  Proofs_Map Proofs_Ring Proofs_Rel Proofs_Reload2 Proofs_Reload4 Proofs_Reload6 Proofs_Reload7 Proofs_Reload8 Proofs_Workflow Proofs_Workflow2 Proofs_Workflow3 Proofs_Workflow6 Proofs_Workflow7 Proofs_Workflow8
  Proofs_Workflow9 Proofs_Workflow10 Proofs_Workflow11 Proofs_Workflow13 Proofs_Workflow14 Proofs_Workflow15 Proofs_Workflow16.
Import ListNotations.
Local Open Scope list_scope.
Local Open Scope nat_scope.

Local Notation world := (world RA).

Lemma window_eqv : forall r : ring (num RA), has_window r -> ring_eqv r r.
Proof.
  intros r (L & vs & HL & r0 & W0 & RL & E0).
  destruct (ring_pushes_state 0%R 1 L r0 (map (fun v => [v]) vs) W0 RL HL) as (r1 & E1 & W & _); [apply Forall_forall; intros x Hx; apply in_map_iff in Hx; destruct Hx as (v & <- & _); cbn; lia|].
  rewrite E0 in E1. injection E1 as <-. destruct (wf_channel r W) as (a & E & La). exists a, a. rewrite La. repeat split; auto.
Qed.

Section Same.
  Variable u : junk RA.

  Lemma like_frame : forall s cf recs l h, hclass_like u s cf recs l h -> shares s (hc_bim h) (hc_dim h) (hc_din h) (hc_win h) /\ hc_par h = hmmP_assign hmmP_new (cf_params cf l).
  Proof.
    intros s cf recs l h (_ & h' & (_ & _ & _ & _ & _ & (F1 & F2 & F3 & F4 & F5 & _) & _) & (E1 & E2 & E3 & E4 & E5 & _)).
    unfold shares. rewrite E1, E2, E3, E4, E5, F1, F2, F3, F4, F5. repeat split.
  Qed.

  Lemma hlike_alike : forall s cf recs l h k, hclass_like u s cf recs l h -> hclass_like u s cf recs l k -> h_exit (hc_net h) = h_exit (hc_net k) -> hsim0 h k.
  Proof.
    intros s cf recs l h k (U1 & h' & (L1 & _) & S1) (U2 & k' & (L2 & _) & S2) EX.
    pose proof (hlearned_fun _ _ _ _ _ L1 L2) as Q. subst k'. pose proof (hsame_trans _ _ _ S1 (hsame_sym _ _ S2)) as (E1 & E2 & E3 & E4 & E5 & E6 & E7 & E8).
    split; [unfold stat, hc_n, hc_mode; rewrite E5; repeat (split; [congruence|]); congruence|].
    unfold net_sim. rewrite E6. split; [|repeat split; assumption]. destruct U2 as (_ & _ & SU & _). clear - SU.
    induction SU as [|g gs (R & _ & _ & _ & _ & _ & W) _ IH]; constructor; [|exact IH]. split; [apply gsim0_refl; apply R|]. apply window_eqv, W.
  Qed.

  Lemma hsame_trained : forall recs (m k : hmodel RA), recs <> [] -> hat_rest m -> hat_rest k -> htrained_as u recs m -> htrained_as u recs k -> hall_left_right (hq_cf m) recs ->
    hq_cf m = hq_cf k -> sp_bim (hq_sp m) = sp_bim (hq_sp k) -> sp_dim (hq_sp m) = sp_dim (hq_sp k) -> sp_din (hq_sp m) = sp_din (hq_sp k) -> sp_win (hq_sp m) = sp_win (hq_sp k) ->
    settings (hq_sp m) = settings (hq_sp k) -> map fst (hq_cls m) = map fst (hq_cls k) /\ same_hrecognition (hq_view m) (hq_view k).
  Proof.
    intros recs m k NE (HH & _ & _ & AR1) (_ & _ & _ & AR2) (S1 & L1 & F1 & T1) (S2 & L2 & F2 & T2) LR CF B D DI W ST.
    assert (LL : map fst (hq_cls m) = map fst (hq_cls k)).
    { apply sorted_same; [exact S1|exact S2|]. intro l. rewrite L1, L2. reflexivity. }
    split; [exact LL|].
    assert (LN : length (hq_cls m) = length (hq_cls k)) by (rewrite <- (map_length fst), LL; apply map_length).
    assert (F2' : Forall (fun e => hclass_like u (hq_sp m) (hq_cf m) recs (fst e) (snd e) /\ h_exit (hc_net (snd e)) = last_exit (hp_states (cf_params (hq_cf m) (fst e)))) (hq_cls k)).
    { apply Forall_forall. intros e He. destruct (proj1 (Forall_forall _ _) F2 e He) as (Q1 & Q2). rewrite CF. split; [|exact Q2]. eapply (hlike_ext u (hq_sp k) (hq_sp m)); try (symmetry; assumption); [reflexivity|exact Q1]. }
    assert (FIT : forall ms : list (string * hclass RA), (forall l, In l (map fst ms) -> In l (map fst recs)) ->
      Forall (fun e => hclass_like u (hq_sp m) (hq_cf m) recs (fst e) (snd e) /\ h_exit (hc_net (snd e)) = last_exit (hp_states (cf_params (hq_cf m) (fst e)))) ms ->
      Forall (fun e => hc_hier (snd e) = true /\ ring_wf 1 (h_buf (hc_run (snd e)))) ms -> Forall (fun e => fits true (snd e) /\ hc_bim (snd e) = sp_bim (hq_sp m)) ms).
    { intros ms HI G1 G2. apply Forall_forall. intros e He. destruct (proj1 (Forall_forall _ _) G1 e He) as (Q1 & _). destruct (proj1 (Forall_forall _ _) G2 e He) as (Q2 & Q3).
      pose proof (like_frame _ _ _ _ _ Q1) as ((P1 & _) & P5). split; [|exact P1].
      assert (MD : hc_mode (snd e) = LeftRight). { unfold hc_mode. rewrite P5. apply LR. apply HI. apply in_map. exact He. }
      split; [|split; [apply wf_channel, Q3|split; assumption]]. destruct Q1 as ((_ & _ & _ & (TL & _) & _) & _). unfold tr_len. change (num RA) with R in *. rewrite TL. unfold trans_size. destruct (hc_mode (snd e)); [reflexivity|lia]. }
    apply same_hmodels. unfold hmsim0. cbn [hq_view hh_cls hh_hier hh_bim]. rewrite HH. split; [|split; [|split; [|split]]].
    - unfold same_top, hq_view. cbn [hh_bim hh_dim hh_din hh_est hh_cmode hh_hier hh_prior hh_trans hh_exit]. rewrite CF. destruct T1 as (T1 & T1' & T1''), T2 as (T2 & T2' & T2''). rewrite <- LN in *. change (num RA) with R in *. rewrite T1, T1', T1'', T2, T2', T2''. repeat split; assumption.
    - intro Q. destruct recs as [|[l x] recs]; [congruence|]. pose proof (proj2 (L1 l) (or_introl eq_refl)) as I. rewrite Q in I. destruct I.
    - set (P := fun (l : string) (h : hclass RA) => hclass_like u (hq_sp m) (hq_cf m) recs l h /\ h_exit (hc_net h) = last_exit (hp_states (cf_params (hq_cf m) l))).
      apply (zip_entries P P hsim0); [|exact LL|exact F1|exact F2']. unfold P. intros l x y (Q1 & Q2) (Q3 & Q4). eapply hlike_alike; [exact Q1|exact Q3|congruence].
    - apply FIT; [intros l; apply L1|exact F1|]. eapply Forall_impl; [|exact AR1]. intros e (_ & Q1 & _ & _ & Q2). auto.
    - assert (Q : Forall (fun e => fits true (snd e) /\ hc_bim (snd e) = sp_bim (hq_sp m)) (hq_cls k)).
      { apply FIT; [intros l; apply L2|exact F2'|]. eapply Forall_impl; [|exact AR2]. intros e (_ & Q1 & _ & _ & Q2). auto. }
      eapply Forall_impl; [|exact Q]. intros e (Q1 & _). exact Q1.
  Qed.

  (** ** Training at once *)
  Lemma htrained_at_once : forall (w : world) k t recs (m : hmodel RA), recorded w k t recs -> recs <> [] -> set_up (t_bim t) (hq_sp m) -> hp_hier (cf_def (hq_cf m)) = true -> hall_learnable u t m recs ->
    exists m', hq_train u w k m = Ok m' /\ hq_cf m' = hq_cf m /\ fetched t (hq_sp m) (hq_sp m') /\ htrained_as u recs m' /\ hat_rest m'.
  Proof.
    intros w k t recs m H NE SU HH LE. destruct (htrain u w k t recs m H NE SU LE) as (s & hs & r & (C1 & C2 & C3 & C4 & C5 & C6 & C7 & C8 & C9) & ND & NH & E).
    set (m0 := unreset s m hs r) in *.
    assert (LK : Forall (fun e => hclass_like u s (hq_cf m) recs (fst e) (snd e) /\ h_exit (hc_net (snd e)) = last_exit (hp_states (cf_params (hq_cf m) (fst e)))) hs).
    { eapply Forall_impl; [|exact C6]. intros e M. split; [split; [apply M|exists (snd e); split; [exact M|apply hsame_refl]]|].
      destruct M as (_ & _ & _ & _ & M5 & M6 & _). rewrite M5. f_equal. unfold hc_n. destruct M6 as (_ & _ & _ & _ & -> & _). reflexivity. }
    assert (AR : Forall (fun e => shares s (hc_bim (snd e)) (hc_dim (snd e)) (hc_din (snd e)) (hc_win (snd e)) /\ hc_hier (snd e) = true /\ hp_hier (hc_par (snd e)) = true /\ 1 <= hc_n (snd e) /\
      ring_wf 1 (h_buf (hc_run (snd e)))) hs).
    { eapply Forall_impl; [|exact C6]. intros e (_ & U & _ & _ & _ & (F1 & F2 & F3 & F4 & F5 & F6 & F7 & _) & _). unfold shares. rewrite F1, F2, F3, F4, F5, F6, F7. split; [repeat split|]. split; [reflexivity|]. split; [reflexivity|]. split; [apply U|apply ring_new_wf]. }
    assert (LP : length (hq_prior m0) = length (hq_cls m0)) by (destruct C7 as (Q & _); change (num RA) with R in *; rewrite Q; apply repeat_length).
    destruct (cf_mt (hq_cf m) =? 0)%Z.
    - exists m0. split; [exact E|]. split; [exact C1|]. split; [exact C2|]. split.
      + split; [exact C4|]. split; [exact C5|]. split; [exact LK|exact C7].
      + split; [exact HH|]. split; [exact C4|]. split; [exact LP|exact AR].
    - unfold hq_reset in E. destruct (hreset_hier (hq_view m0)) as (r' & ER).
      { exact HH. }
      { cbn [hq_view hh_bim hh_din hh_dim]. intro B. destruct C2 as ((_ & M' & _) & _). unfold modal_ok in M'. rewrite B in M'. lia. }
      { cbn [hq_view hh_cls]. eapply Forall_impl; [|exact AR]. intros e (_ & Q & _). exact Q. }
      rewrite ER in E. cbn [bind] in E. eexists. split; [exact E|].
      assert (LMR : map fst (rest_all hs) = map fst hs) by (unfold rest_all; rewrite map_map; reflexivity).
      assert (LNR : length (rest_all hs) = length hs) by apply map_length.
      cbn [hq_put hq_cf hq_sp]. split; [reflexivity|]. split; [exact C2|]. split.
      + unfold htrained_as, even_top. cbn [hq_put hq_cls hq_cf hq_sp hq_prior hq_trans hq_exit hh_set_res hh_set_front hh_set_cls hh_cls hh_prior hh_trans hh_exit hq_view].
        change (hq_cls m0) with hs. unfold label_sorted. rewrite LMR, LNR. split; [exact C4|]. split; [exact C5|]. split; [|exact C7].
        apply Forall_forall. intros e He. unfold rest_all in He. apply in_map_iff in He. destruct He as (e' & <- & He). cbn [fst snd].
        destruct (proj1 (Forall_forall _ _) LK e' He) as (Q1 & Q2). destruct (proj1 (Forall_forall _ _) AR e' He) as (_ & Q3 & _). destruct (hrest_net (snd e') Q3) as (_ & W2 & _ & W4 & _).
        split; [eapply hlike_same; [exact W4|exact Q1]|]. rewrite W2. exact Q2.
      + unfold hat_rest. cbn [hq_put hq_cls hq_cf hq_sp hq_prior hh_set_res hh_set_front hh_set_cls hh_cls hh_prior hq_view]. change (hq_cls m0) with hs. unfold label_sorted. rewrite LMR, LNR.
        split; [exact HH|]. split; [exact C4|]. split; [exact LP|]. apply Forall_forall. intros e He. unfold rest_all in He. apply in_map_iff in He. destruct He as (e' & <- & He). cbn [snd].
        destruct (proj1 (Forall_forall _ _) AR e' He) as ((S1 & S2 & S3 & S4) & S5 & S6 & S7 & S8). destruct (hrest_net (snd e') S5) as (W1 & _ & W3 & (W4 & W5 & W6 & W7 & _) & _ & W9).
        unfold shares, hc_n in *. rewrite W3, W4, W5, W6, W7. split; [repeat split; assumption|]. split; [assumption|]. split; [assumption|]. split; [assumption|]. apply W9, S8.
  Qed.

  Lemma trained_plain : forall recs (m : hmodel RA), htrained_as u recs m -> plain_exits m.
  Proof.
    intros recs m (_ & _ & F & _) l h Q. unfold hclass_named in Q. apply mget_in in Q; [|apply String.eqb_eq]. destruct (proj1 (Forall_forall _ _) F _ Q) as (Q1 & Q2). cbn [fst snd] in *.
    split; [|exact Q2]. destruct (like_frame _ _ _ _ _ Q1) as (_ & P). unfold hc_n. rewrite P. reflexivity.
  Qed.

  Lemma hfetched_dims : forall t s (m : hmodel RA), fetched t s (hq_sp m) -> hsame_dims t m.
  Proof. intros t s m (_ & A2 & A3 & _) _. split; [exact A2|]. intro B. rewrite A3, B. reflexivity. Qed.

  (** ** One call keeps the plain exits and the even top level *)
  Lemma rested_net : forall th h h', hc_hier h = true -> rested th h h' -> hc_net h' = hc_net h /\ hc_par h' = hc_par h /\ same_hclass h' h.
  Proof.
    intros [] h h' HH R; cbn [rested] in R; [|subst; repeat split]. rewrite (hrest_ok h HH) in R. injection R as <-. destruct (hrest_net h HH) as (_ & W2 & W3 & W4 & _). auto.
  Qed.
  Lemma renewed_hier : forall h, hc_hier (exit_renewed h) = hc_hier h.
  Proof. reflexivity. Qed.

  Lemma one_plain : forall t recs (m m' : hmodel RA) l, hat_rest m -> hone_trained u t recs m l m' -> plain_exits m -> even_top (length (hq_cls m)) m -> plain_exits m' /\ even_top (length (hq_cls m')) m'.
  Proof.
    intros t recs m m' l (_ & SO & _ & AR) (C1 & F1 & N1 & (_ & SO' & _) & L1 & (h & G1 & G2 & G3) & O1 & T1) PE ET. split.
    - intros l' h' Q. rewrite C1. destruct (string_dec l' l) as [->|NL].
      + assert (h' = h) by congruence. subst h'. split.
        * destruct (like_frame _ _ _ _ _ G2) as (_ & P). unfold hc_n. rewrite P. reflexivity.
        * rewrite G3. unfold exits_named. destruct (hclass_named m l) as [g|] eqn:CN; [|apply renewed_last]. destruct (PE l g CN) as (_ & ->). apply renewed_plain.
      + specialize (O1 l' NL). destruct (hclass_named m l') as [g|] eqn:CN; [|congruence]. destruct O1 as (h2 & Q2 & R2). assert (h2 = h') by congruence. subst h2.
        destruct (PE l' g CN) as (P1 & P2). unfold hclass_named in CN. apply mget_in in CN; [|apply String.eqb_eq]. destruct (proj1 (Forall_forall _ _) AR _ CN) as (_ & Y & _). cbn [snd] in Y.
        assert (Y' : hc_hier (match hclass_named m l with None => exit_renewed g | Some _ => g end) = true) by (destruct (hclass_named m l); exact Y).
        destruct (rested_net _ _ _ Y' R2) as (W1 & W2 & _).
        unfold hc_n in *. rewrite W1, W2. destruct (hclass_named m l); [auto|]. split; [exact P1|]. cbn [exit_renewed hc_set_net hc_net nt_exit h_exit]. unfold hc_n. rewrite P1, P2. apply renewed_plain.
    - destruct (hclass_named m l) as [g|] eqn:CN; [|exact T1].
      assert (LL : length (hq_cls m') = length (hq_cls m)).
      { rewrite <- (map_length fst), <- (map_length fst (hq_cls m)). f_equal. apply sorted_same; [exact SO'|exact SO|]. intro l'. rewrite L1. split; [intros [->|Q]; [|exact Q]|auto]. apply mget_label. unfold hclass_named in CN. congruence. }
      unfold even_top in *. destruct T1 as (-> & -> & ->). rewrite LL. exact ET.
  Qed.

  (** ** Class by class *)
  Lemma hlearnable_ext : forall (s s' : shared RA) cf recs l, sp_bim s = sp_bim s' -> sp_dim s = sp_dim s' -> sp_din s = sp_din s' -> sp_win s = sp_win s' -> settings s = settings s' ->
    hlearnable u s cf recs l -> hlearnable u s' cf recs l.
  Proof. intros s s' cf recs l E1 E2 E3 E4 E5 H. unfold hlearnable in *. rewrite <- (hnew_ext u s s' cf l E1 E2 E3 E4), <- E5. exact H. Qed.

  Lemma htrain_each : forall (w : world) k t recs ls (m : hmodel RA), recorded w k t recs -> (forall l, In l ls -> In l (map fst recs)) -> hall_learnable u t m recs ->
    set_up (t_bim t) (hq_sp m) -> hat_rest m -> hsame_dims t m -> plain_exits m -> even_top (length (hq_cls m)) m ->
    exists m', hq_train_each u w k ls (m, false) = ((m', false), Ok tt) /\ hq_cf m' = hq_cf m /\ (ls = [] /\ m' = m \/ fetched t (hq_sp m) (hq_sp m')) /\ hat_rest m' /\ plain_exits m' /\ even_top (length (hq_cls m')) m' /\
      (forall l, In l (map fst (hq_cls m')) <-> In l ls \/ In l (map fst (hq_cls m))) /\
      (forall l, In l ls -> exists h, hclass_named m' l = Some h /\ hclass_like u (hq_sp m') (hq_cf m) recs l h) /\
      (forall l, ~ In l ls -> match hclass_named m l with None => hclass_named m' l = None | Some h => exists h', hclass_named m' l = Some h' /\ same_hclass h' h end).
  Proof.
    intros w k t recs. induction ls as [|l ls IH]; intros m H HL LE SU AR SD PE ET.
    - exists m. split; [reflexivity|]. split; [reflexivity|]. split; [left; split; reflexivity|]. split; [exact AR|]. split; [exact PE|]. split; [exact ET|]. split; [intro l; cbn; tauto|]. split; [intros l []|].
      intros l _. destruct (hclass_named m l) as [h|]; [exists h; split; [reflexivity|apply hsame_refl]|reflexivity].
    - pose proof (HL l (or_introl eq_refl)) as Hl.
      destruct (htrain_one u w k t recs m l H Hl SU AR SD) as (m1 & E1 & OT & _); [intros s FS; apply LE; assumption|].
      destruct (one_plain t recs m m1 l AR OT PE ET) as (PE1 & ET1). destruct OT as (C1 & F1 & N1 & A1 & L1 & (g & G1 & G1' & G1'') & O1 & _).
      destruct (IH m1 H) as (m2 & E2 & C2 & F2 & A2 & PE2 & ET2 & L2 & G2 & O2); try assumption.
      { intros l' Hl'. apply HL. right. exact Hl'. }
      { intros s FS l' Hl'. rewrite C1. apply LE; [|exact Hl']. eapply fetched_trans; eassumption. }
      { apply F1. }
      { eapply hfetched_dims, F1. }
      exists m2. unfold hq_train_each, sforeach. unfold sbind. rewrite E1. split; [exact E2|]. split; [congruence|].
      assert (SP : fetched t (hq_sp m) (hq_sp m2) /\ sp_bim (hq_sp m1) = sp_bim (hq_sp m2) /\ sp_dim (hq_sp m1) = sp_dim (hq_sp m2) /\ sp_din (hq_sp m1) = sp_din (hq_sp m2) /\
        sp_win (hq_sp m1) = sp_win (hq_sp m2) /\ settings (hq_sp m1) = settings (hq_sp m2)).
      { destruct F2 as [(_ & ->)|F2]; [auto 10|]. eapply fetched_trans; eassumption. }
      destruct SP as (SP & X1 & X2 & X3 & X4 & X5). split; [right; exact SP|]. split; [exact A2|]. split; [exact PE2|]. split; [exact ET2|]. split; [|split].
      + intro l'. rewrite L2, L1. cbn. intuition congruence.
      + intros l' Hl'. destruct (in_dec string_dec l' ls) as [I|I]; [rewrite <- C1; apply G2, I|]. destruct Hl' as [<-|Hl']; [|contradiction].
        specialize (O2 l I). rewrite G1 in O2. destruct O2 as (h' & Q1 & Q2). exists h'. split; [exact Q1|]. eapply hlike_same; [exact Q2|].
        eapply (hlike_ext u (hq_sp m1) (hq_sp m2)); try eassumption; reflexivity.
      + intros l' NI. assert (NL : l' <> l) by (intro; subst; apply NI; left; reflexivity). assert (NI' : ~ In l' ls) by (intro; apply NI; right; assumption).
        specialize (O1 l' NL). specialize (O2 l' NI'). destruct (hclass_named m l') as [h|] eqn:CN; [|rewrite O1 in O2; exact O2].
        destruct O1 as (h1 & Q1 & R1). rewrite Q1 in O2. destruct O2 as (h2 & Q2 & S2). exists h2. split; [exact Q2|]. eapply hsame_trans; [exact S2|].
        unfold hclass_named in CN. apply mget_in in CN; [|apply String.eqb_eq]. destruct AR as (_ & _ & _ & AR). destruct (proj1 (Forall_forall _ _) AR _ CN) as (_ & Y & _). cbn [snd] in Y.
        destruct (hclass_named m l); [apply (rested_net _ h h1 Y R1)|]. destruct (rested_net _ (exit_renewed h) h1 Y R1) as (_ & _ & W). exact W.
  Qed.

  Lemma heach_at_once : forall (w : world) k t recs (m : hmodel RA) ls, recorded w k t recs -> recs <> [] -> set_up (t_bim t) (hq_sp m) -> hat_rest m -> hsame_dims t m -> plain_exits m ->
    even_top (length (hq_cls m)) m -> hall_learnable u t m recs -> hall_left_right (hq_cf m) recs ->
    (forall l, In l ls <-> In l (map fst recs)) -> (forall l, In l (map fst (hq_cls m)) -> In l (map fst recs)) ->
    exists m1 m2, hq_train u w k m = Ok m1 /\ hq_train_each u w k ls (m, false) = ((m2, false), Ok tt) /\ map fst (hq_cls m1) = map fst (hq_cls m2) /\ same_hrecognition (hq_view m1) (hq_view m2).
  Proof.
    intros w k t recs m ls H NE SU AR SD PE ET LE LR HL OLD.
    destruct (htrained_at_once w k t recs m H NE SU) as (m1 & E1 & C1 & F1 & T1 & A1); [apply AR|exact LE|].
    destruct (htrain_each w k t recs ls m H) as (m2 & E2 & C2 & F2 & A2 & PE2 & ET2 & L2 & G2 & O2); try assumption; [intros l; apply HL|].
    assert (F2' : fetched t (hq_sp m) (hq_sp m2)).
    { destruct F2 as [(-> & _)|F2]; [|exact F2]. exfalso. destruct recs as [|[a b] recs]; [congruence|]. destruct (proj2 (HL a) (or_introl eq_refl)). }
    exists m1, m2. split; [exact E1|]. split; [exact E2|].
    assert (TR : htrained_as u recs m2).
    { split; [apply A2|]. split; [|split; [|exact ET2]].
      - intro l. rewrite L2, HL. split; [intros [Q|Q]; [exact Q|apply OLD, Q]|auto].
      - apply Forall_forall. intros [l h] He. cbn [fst snd].
        assert (GM : hclass_named m2 l = Some h) by (eapply in_mget; eauto using String.eqb_eq, str_ltb_irrefl; apply A2).
        assert (I : In l ls). { apply HL. assert (Q : In l (map fst (hq_cls m2))) by (apply in_map_iff; exists (l, h); auto). apply L2 in Q. destruct Q as [Q|Q]; [apply HL, Q|apply OLD, Q]. }
        destruct (G2 l I) as (g & Q1 & Q2). assert (h = g) by congruence. subst h. rewrite C2. split; [exact Q2|]. rewrite <- C2. apply (PE2 l g Q1). }
    destruct F1 as ((P0 & _) & P1 & P2 & P3 & P4), F2' as ((Q0 & _) & Q1 & Q2 & Q3 & Q4). apply (hsame_trained recs); try assumption; try congruence. rewrite C1. exact LR.
  Qed.

  (** ** One class again *)
  Lemma hretrained : forall (w1 w2 : world) k1 k2 t1 t2 recs1 recs2 (m : hmodel RA) l, recorded w1 k1 t1 recs1 -> recorded w2 k2 t2 recs2 -> recs1 <> [] ->
    set_up (t_bim t1) (hq_sp m) -> t_bim t1 = t_bim t2 -> t_dim t1 = t_dim t2 -> t_din t1 = t_din t2 -> hp_hier (cf_def (hq_cf m)) = true ->
    hall_learnable u t1 m recs1 -> hall_learnable u t2 m recs2 -> hall_left_right (hq_cf m) recs2 ->
    In l (map fst recs2) -> (forall l', l' <> l -> of_class l' recs1 = of_class l' recs2) ->
    exists m1 m2 m3, hq_train u w1 k1 m = Ok m1 /\ hq_train_one u w2 k2 l (m1, false) = ((m2, false), Ok tt) /\ hq_train u w2 k2 m = Ok m3 /\
      map fst (hq_cls m2) = map fst (hq_cls m3) /\ same_hrecognition (hq_view m2) (hq_view m3).
  Proof.
    intros w1 w2 k1 k2 t1 t2 recs1 recs2 m l H1 H2 NE SU B D DI HH LE1 LE2 LR Hl OC.
    destruct (htrained_at_once w1 k1 t1 recs1 m H1 NE SU HH LE1) as (m1 & E1 & C1 & F1 & T1 & A1). pose proof T1 as (S1 & L1 & T1' & ET1).
    assert (SU2 : set_up (t_bim t2) (hq_sp m)) by (rewrite <- B; exact SU). assert (NE2 : recs2 <> []) by (intro Q; rewrite Q in Hl; destruct Hl).
    destruct (htrained_at_once w2 k2 t2 recs2 m H2 NE2 SU2 HH LE2) as (m3 & E3 & C3 & F3 & T3 & A3).
    assert (FT12 : forall s, fetched t1 (hq_sp m) s -> fetched t2 (hq_sp m) s).
    { intros s. unfold fetched. rewrite B, D, DI. auto. }
    destruct (htrain_one u w2 k2 t2 recs2 m1 l H2 Hl) as (m2 & E2 & OT & _).
    { rewrite <- B. apply F1. }
    { exact A1. }
    { pose proof (hfetched_dims t1 (hq_sp m) m1 F1) as Q. intro NC. destruct (Q NC) as (Q1 & Q2). split; [congruence|]. rewrite <- B, <- DI. exact Q2. }
    { intros s FS. rewrite C1. apply LE2; [|exact Hl]. eapply fetched_trans; [apply FT12, F1|exact FS]. }
    destruct (one_plain t2 recs2 m1 m2 l A1 OT (trained_plain _ _ T1) ET1) as (PE2 & ET2). destruct OT as (C2 & F2 & N2 & A2 & L2 & (g & G1 & G2 & G3) & O2 & _).
    exists m1, m2, m3. split; [exact E1|]. split; [exact E2|]. split; [exact E3|].
    destruct (fetched_trans t2 (hq_sp m) (hq_sp m1) (hq_sp m2) (FT12 _ F1) F2) as (F12 & X1 & X2 & X3 & X4 & X5).
    assert (TR : htrained_as u recs2 m2).
    { split; [apply A2|]. split; [|split; [|exact ET2]].
      - intro l'. rewrite L2, L1. destruct (string_dec l' l) as [->|NL]; [tauto|]. rewrite <- !class_empty, (OC l' NL). tauto.
      - apply Forall_forall. intros [l' h] He. cbn [fst snd].
        assert (GM : hclass_named m2 l' = Some h).
        { eapply in_mget; eauto using String.eqb_eq, str_ltb_irrefl. apply A2. }
        split; [|apply (PE2 l' h GM)]. rewrite C2. destruct (string_dec l' l) as [->|NL].
        + assert (h = g) by congruence. subst h. exact G2.
        + specialize (O2 l' NL). destruct (hclass_named m1 l') as [g'|] eqn:CN; [|congruence]. destruct O2 as (h2 & Q & R). assert (h2 = h) by congruence. subst h2.
          unfold hclass_named in CN. apply mget_in in CN; [|apply String.eqb_eq]. destruct (proj1 (Forall_forall _ _) T1' _ CN) as (Y1 & _). destruct A1 as (_ & _ & _ & A1). destruct (proj1 (Forall_forall _ _) A1 _ CN) as (_ & Y & _). cbn [fst snd] in *.
          assert (SM : same_hclass h g'). { destruct (hclass_named m1 l); [apply (rested_net _ g' h Y R)|]. destruct (rested_net _ (exit_renewed g') h Y R) as (_ & _ & W). exact W. }
          eapply hlike_same; [exact SM|]. eapply (hlike_ext u (hq_sp m1) (hq_sp m2) (hq_cf m1) recs1 recs2); try assumption. apply OC, NL. }
    destruct F3 as ((P0 & _) & P1 & P2 & P3 & P4), F12 as ((Q0 & _) & Q1 & Q2 & Q3 & Q4). apply (hsame_trained recs2); try assumption; try congruence. rewrite C2, C1. exact LR.
  Qed.
End Same.
