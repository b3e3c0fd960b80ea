(** Recognition with a hierarchical model that has just been trained. *)
From Coq Require Import String List Bool Arith Lia ZArith Reals Lra Sorting.Sorted.
From Verif Require Import Base BaseFacts Arith RFacts Model_Map Model_Ring Model_Phrase Model_TrainingSet Model_Gaussian Model_Config Model_KMeans Model_GMM
  Model_HMM Model_HHMM Model_Shared Model_Train Model_Reload Model_Workflow Model_Workflow2 Spec_Common Spec_Phrase Spec_TrainingSet Spec_Train Spec_Shared Spec_Matrix Spec_Gaussian Spec_GMM
  Spec_HMM Spec_HMMInit Spec_EM2 Spec_HHMM Spec_HHMM3 Spec_Workflow Spec_Workflow2
  Proofs_Map Proofs_KMeans Proofs_HMM2 Proofs_HHMM Proofs_HHMM2 Proofs_HHMM4 Proofs_HHMM5 Proofs_HHMM6 Proofs_HHMM7 Proofs_HHMM9 Proofs_HHMM10 Proofs_HHMM12 Proofs_HHMM15 Proofs_HMM8 Proofs_Workflow3 Proofs_Workflow4 Proofs_Workflow6 Proofs_Workflow8 Proofs_Workflow9.
Import ListNotations.
Local Open Scope list_scope.
Local Open Scope nat_scope.

(** ** Filtering through the view *)

Definition static (v v' : hhmm RA) : Prop :=
  hh_bim v' = hh_bim v /\ hh_dim v' = hh_dim v /\ hh_din v' = hh_din v /\ hh_win v' = hh_win v /\ hh_est v' = hh_est v /\ hh_cmode v' = hh_cmode v /\ hh_hier v' = hh_hier v /\ hh_cfg v' = hh_cfg v.

Lemma put_view : forall (m : hmodel RA) v, static (hq_view m) v -> hq_view (hq_put (hq_sp m) v m) = v.
Proof. intros m v (S1 & S2 & S3 & S4 & S5 & S6 & S7 & S8). destruct v. unfold hq_view, hq_put in *. cbn in *. congruence. Qed.

Lemma reset_static : forall v v' : hhmm RA, hh_reset (A := RA) v = Ok v' -> static v v'.
Proof.
  intros v v' H. unfold hh_reset in H. destruct (reset_all (hh_cls v)) as [ms| |] eqn:E1; cbn [bind] in H; try discriminate.
  destruct (if hh_bim v then _ else _) as [[o c]| |]; cbn [bind] in H; try discriminate.
  destruct (mapM _ ms) as [ms'| |] eqn:E2; cbn [bind] in H; try discriminate. injection H as <-. repeat split.
Qed.

Lemma forward_static : forall (x : list (num RA)) (v v' : hhmm RA), hh_forward (A := RA) x v = Ok v' -> static v v'.
Proof.
  intros x v v' H. unfold hh_forward in H. destruct (hh_hier v) eqn:EH.
  - destruct (hh_started v).
    + unfold hh_forward_update in H. destruct (level_masses _ _ (hh_v1 v)) as [v1| |]; cbn [bind] in H; try discriminate. destruct (level_masses _ _ (hh_v2 v)) as [v2| |]; cbn [bind] in H; try discriminate.
      destruct (sweep _ _ _ _) as [[ms nm]| |]; cbn [bind] in H; try discriminate. destruct (scale_all _ _) as [ms'| |]; cbn [bind] in H; try discriminate. injection H as <-. repeat split; exact EH.
    + unfold hh_forward_init in H. destruct (sweep _ _ _ _) as [[ms nm]| |]; cbn [bind] in H; try discriminate. destruct (scale_all _ _) as [ms'| |]; cbn [bind] in H; try discriminate. injection H as <-. repeat split; exact EH.
  - destruct (mapM _ (hh_cls v)) as [ms| |]; cbn [bind] in H; try discriminate. destruct (iterM _ _ _) as [inst| |]; cbn [bind] in H; try discriminate. injection H as <-. repeat split; exact EH.
Qed.

Lemma filter_static : forall (x : list (num RA)) (v v' : hhmm RA), hh_filter (A := RA) x v = Ok v' -> static v v'.
Proof.
  intros x v v' H. unfold hh_filter in H. destruct (hh_forward x v) as [w| |] eqn:EF; cbn [bind] in H; try discriminate. pose proof (forward_static _ _ _ EF) as S.
  destruct (mapM _ (hh_cls w)) as [ms| |]; cbn [bind] in H; try discriminate. destruct (update_results _ _ _ _) as [r| |]; cbn [bind] in H; try discriminate.
  destruct (negb (hh_bim w)); [injection H as <-; exact S|]. destruct (usub _ _) as [no| |]; cbn [bind] in H; try discriminate.
  destruct (mapM _ ms) as [ms'| |]; cbn [bind] in H; try discriminate. destruct (match hh_est w with Likeliest => _ | Mixture => _ end) as [[o c]| |]; cbn [bind] in H; try discriminate. injection H as <-. exact S.
Qed.

Lemma hfilters_view : forall xs (m : hmodel RA) v, hh_filters (A := RA) xs (hq_view m) = Ok v ->
  hq_filters xs m = Ok (hq_put (hq_sp m) v m) /\ hq_view (hq_put (hq_sp m) v m) = v.
Proof.
  unfold hq_filters. induction xs as [|x xs IH]; intros m v H; cbn [foldM hh_filters] in *.
  - injection H as <-. split; destruct m; reflexivity.
  - destruct (hh_filter x (hq_view m)) as [v1| |] eqn:E; cbn [bind] in H; try discriminate. unfold hq_filter at 1. rewrite E. cbn [bind].
    pose proof (put_view m v1 (filter_static _ _ _ E)) as PV. rewrite <- PV in H. destruct (IH _ _ H) as (I1 & I2). rewrite I1. split; [reflexivity|exact I2].
Qed.

(** ** No room for the results *)

Lemma first_no_room : forall (v : hhmm RA) (x : list R), hh_usable v -> hh_hier v = true -> hh_started v = false -> rs_inst (hh_res v) = [] ->
  (forall c, c < hh_size v -> hc_hier (hcl v c) = true /\ h_buf (hc_run (hcl v c)) = ring_new n0 1 1) -> length x = hh_obs_dim v -> hh_filter (A := RA) x v = UB.
Proof.
  intros v x HU HH HS HR HC Lx. pose proof HU as (HN & _). unfold hh_filter, hh_forward. rewrite HH, HS. unfold hh_forward_init.
  destruct (sweep_at (fun c h1 => exists a0 i, h1 = hc_set_run (rn_inst (A := RA) i (rn_alpha_h (A := RA) a0 (repeat 0%R (hc_n (hcl v c))) (repeat 0%R (hc_n (hcl v c))) (hc_run (hcl v c)))) (hcl v c) /\ length a0 = hc_n (hcl v c))
    (fun c => left_over v (fun _ => h_inst (hc_run (hcl v c))) c + Rsum (hc_n (hcl v c)) (fun k => start_at v c k * mix_lik (state_at (hcl v c) k) x))%R
    (init_class (A := RA) (hh_prior v) x) (hh_cls v) 0 (n0 (A := RA))) as (ms1 & E1 & L1 & V1).
  { intros c nm Hc. destruct (init_class_ok v HU (hcl v c) c x nm Hc (hmm_same_refl _ (cls_use v HU c Hc)) Lx) as (a0 & i & E & L & _ & EI). eexists. split; [rewrite <- EI; exact E|]. exists a0, i. split; [reflexivity|exact L]. }
  change (num RA) with R in *. rewrite E1. cbn [bind]. change (length (hh_cls v)) with (hh_size v) in *.
  destruct (scale_all_ok (n0 (A := RA) + Rsum (hh_size v) (fun c => left_over v (fun _ => h_inst (hc_run (hcl v c))) c + Rsum (hc_n (hcl v c)) (fun k => start_at v c k * mix_lik (state_at (hcl v c) k) x)))%R ms1) as (ms2 & E2 & L2 & V2).
  { intros c Hc. cbv zeta. rewrite L1 in Hc. destruct (V1 c Hc) as (_ & a0 & i & -> & L). cbn [hc_run hc_set_run h_a0 h_a1 h_a2 rn_inst rn_alpha_h]. rewrite !repeat_length. repeat split; exact L. }
  change (num RA) with R in *. rewrite E2. cbn [bind hh_cls hh_set_front hh_set_cls].
  destruct (mapM_at (fun _ (_ : string * hclass RA) => True) (fun e : string * hclass RA => let* h := hm_post (A := RA) (snd e) in Ok (fst e, h)) ms2 no_hclass no_hclass) as (ms & E3 & L3 & _).
  { intros c Hc. rewrite L2, L1 in Hc. assert (Hc1 : c < length ms1) by (rewrite L1; exact Hc). rewrite (V2 c Hc1). destruct (V1 c Hc) as (_ & a0 & i & -> & La). cbn [fst snd].
    destruct (HC c Hc) as (C1 & C2).
    match goal with |- exists y, bind (hm_post ?h) _ = _ /\ _ => set (h1 := h) end.
    assert (SMh : hmm_same (hcl v c) h1) by (exact (hmm_same_refl _ (cls_use v HU c Hc))).
    assert (A0 : length (h_a0 (hc_run h1)) = hc_n (hcl v c)) by apply tab_length. assert (A1 : length (h_a1 (hc_run h1)) = hc_n (hcl v c)) by apply tab_length. assert (A2 : length (h_a2 (hc_run h1)) = hc_n (hcl v c)) by apply tab_length.
    destruct (post_ok (hcl v c) (cls_use v HU c Hc) h1 (fun k => nth k (h_a0 (hc_run h1)) 0%R + nth k (h_a1 (hc_run h1)) 0%R)%R (fun k => nth k (h_a2 (hc_run h1)) 0%R) 1 [] SMh) as (l & buf & _ & _ & E).
    - intros k Hk. unfold hm_weight. change (hc_hier h1) with (hc_hier (hcl v c)). rewrite C1. change (num RA) with R in *. rewrite !(rd_nth _ _ 0%R) by (rewrite ?A0, ?A1; exact Hk). reflexivity.
    - intros _ k Hk. apply rd_nth. change (num RA) with R in *. rewrite A2. exact Hk.
    - lia.
    - change (h_buf (hc_run h1)) with (h_buf (hc_run (hcl v c))). rewrite C2, n0_RA. exact empty_window.
    - rewrite E. cbn [bind]. eexists. split; [reflexivity|exact I]. }
  rewrite E3. cbn [bind hh_res hh_set_front hh_set_cls]. unfold update_results. rewrite HR.
  assert (NM : ms <> []) by (intros ->; cbn in L3; lia). destruct ms as [|e ms]; [contradiction|]. cbn [map length].
  assert (U : forall (a : R) insts n, iterM (S n) (fun i w => let* x := rd (a :: insts) i in wr w i x) ([] : list R) = UB).
  { intros a insts. induction n as [|n IH]; [reflexivity|]. cbn [iterM] in IH |- *. rewrite IH. reflexivity. }
  change (num RA) with R in *. rewrite U. reflexivity.
Qed.

(** ** The trained model *)

Section Trained.
  Variable u : junk RA.
  Variables (s : shared RA) (m : hmodel RA) (recs : list recording) (hs : list (string * hclass RA)) (r : results RA) (bim : bool).
  Hypothesis SU : set_up bim s.
  Hypothesis NE : hs <> [].
  Hypothesis ND : NoDup (map fst hs).
  Hypothesis CM : Forall (fun e => hclass_made u s (hq_cf m) recs (fst e) (snd e)) hs.
  Hypothesis LB : forall l, In l (map fst hs) -> In l (map fst recs).
  Hypothesis OM : est_of (cf_est (hq_cf m)) = Mixture -> hone_mode (hq_cf m) recs.
  Local Notation v0 := (hq_view (unreset s m hs r)).

  Lemma one_size : 1 <= length hs.
  Proof. destruct hs; [contradiction|cbn; lia]. Qed.

  Lemma last_exit_at : forall N k, k < N -> nth k (last_exit N) 0%R = if k =? N - 1 then (/ 10)%R else 0%R.
  Proof. intros N k Hk. unfold last_exit. rewrite nth_tab by exact Hk. reflexivity. Qed.

  Lemma made_mode : forall e, In e hs -> hp_mode (hc_par (snd e)) = hp_mode (cf_params (hq_cf m) (fst e)) /\ hc_mode (snd e) = hp_trans (cf_params (hq_cf m) (fst e)).
  Proof. intros e He. destruct (proj1 (Forall_forall _ _) CM e He) as (_ & _ & _ & _ & _ & FK & _). destruct FK as (_ & _ & _ & _ & P & _). unfold hc_mode. rewrite P. split; reflexivity. Qed.

  Lemma made_in : forall e, In e hs -> hclass_in v0 (snd e).
  Proof.
    intros e He. destruct (proj1 (Forall_forall _ _) CM e He) as (_ & U & ST & NJ & EX & FK & _). pose proof FK as (F1 & F2 & F3 & F4 & F5 & _). pose proof U as (N1 & _).
    split; [exact U|]. split; [rewrite F1; reflexivity|]. split; [rewrite F2; reflexivity|]. split; [rewrite F3; reflexivity|]. split; [rewrite F4; reflexivity|].
    split; [rewrite EX; apply tab_length|]. split; [|split].
    - intros k Hk. unfold exit_at. rewrite EX, last_exit_at by exact Hk. destruct (k =? hc_n (snd e) - 1); lra.
    - intro M. specialize (NJ M). rewrite M in ST. destruct ST as (_ & NN & ST). specialize (ST (hc_n (snd e) - 1) ltac:(lia)).
      rewrite lr_row_sum in ST by lia. unfold no_jump in NJ. replace (2 * hc_n (snd e) - 1) with (2 * (hc_n (snd e) - 1) + 1) in NJ by lia. change (num RA) with R in *. lra.
    - intro E. rewrite (proj1 (made_mode e He)). apply OM; [exact E|]. apply LB, in_map, He.
  Qed.

  Lemma made_top : hh_top_ok v0.
  Proof.
    unfold hh_top_ok, hh_size, top_prior, top_trans, hq_view, unreset. cbn [hh_cls hh_prior hh_trans hh_exit hq_cls hq_prior hq_trans hq_exit]. pose proof one_size as O.
    assert (P : (0 < / INR (length hs))%R) by (apply Rinv_0_lt_compat, lt_0_INR; lia).
    assert (NR : forall X c n (a d : X), c < n -> nth c (repeat a n) d = a) by (intros X c n a d; revert c; induction n as [|n IH]; intros [|c] Hc; cbn; try lia; auto; apply IH; lia).
    split; [apply repeat_length|]. split; [intros c Hc; rewrite NR by exact Hc; exact P|]. split; [apply repeat_length|]. split.
    - intros c Hc. rewrite NR by exact Hc. split; [apply repeat_length|]. intros d Hd. rewrite NR by exact Hd. lra.
    - split; [apply repeat_length|]. intros c Hc. rewrite NR by exact Hc. lra.
  Qed.

  Lemma din_ok : hh_bim v0 = true -> hh_din v0 <= hh_dim v0.
  Proof. intro B. destruct SU as (_ & M & _). unfold modal_ok in M. change (hh_bim v0) with (sp_bim s) in B. rewrite B in M. cbn. lia. Qed.

  Lemma made_ring : forall e, In e hs -> hc_hier (snd e) = true /\ ring_wf 1 (h_buf (hc_run (snd e))).
  Proof.
    intros e He. destruct (proj1 (Forall_forall _ _) CM e He) as (_ & _ & _ & _ & _ & FK & _). destruct FK as (_ & _ & _ & _ & _ & F6 & F7 & _). split; [rewrite F6; reflexivity|].
    rewrite F7. cbn. unfold ring_new, ring_wf. cbn. repeat split; auto. intros c Hc. destruct c; [reflexivity|lia].
  Qed.

  Lemma made_resettable : hp_hier (cf_def (hq_cf m)) = true -> hh_resettable v0.
  Proof.
    intro HH. split; [|split; [exact HH|]].
    - split; [apply one_size|]. split; [exact ND|]. split; [apply Forall_forall; intros e He; apply made_in; exact He|]. split; [exact made_top|exact din_ok].
    - apply Forall_forall. intros e He. apply made_ring, He.
  Qed.

  Lemma made_left : (forall l, In l (map fst hs) -> hp_trans (cf_params (hq_cf m) l) = LeftRight) \/ (0 <= jk_num u)%R ->
    forall c, c < hh_size v0 -> (0 <= left_over v0 (hh_left v0) c)%R.
  Proof.
    intros H c Hc. set (e := nth c hs no_hclass). assert (He : In e hs) by (apply nth_In; exact Hc). unfold left_over, hh_left. change (hcl v0 c) with (snd e).
    destruct (hc_mode (snd e)) eqn:M; [|lra]. destruct H as [H|H].
    - rewrite (proj2 (made_mode e He)), H in M; [discriminate|apply in_map; exact He].
    - destruct (proj1 (Forall_forall _ _) CM e He) as (_ & _ & _ & _ & _ & _ & I). rewrite I. exact H.
  Qed.

  Lemma made_inst : forall c, c < hh_size v0 -> hh_left v0 c = jk_num u.
  Proof. intros c Hc. set (e := nth c hs no_hclass). assert (He : In e hs) by (apply nth_In; exact Hc). destruct (proj1 (Forall_forall _ _) CM e He) as (_ & _ & _ & _ & _ & _ & I). exact I. Qed.

  Lemma made_left_right : (forall l, In l (map fst hs) -> hp_trans (cf_params (hq_cf m) l) = LeftRight) -> forall c, c < hh_size v0 -> hc_mode (hcl v0 c) = LeftRight.
  Proof. intros H c Hc. set (e := nth c hs no_hclass). assert (He : In e hs) by (apply nth_In; exact Hc). change (hcl v0 c) with (snd e). rewrite (proj2 (made_mode e He)). apply H, in_map, He. Qed.

  (** Recognition in hierarchical mode. *)
  Lemma hrecognise : hp_hier (cf_def (hq_cf m)) = true ->
    (forall l, In l (map fst hs) -> hp_trans (cf_params (hq_cf m) l) = LeftRight) \/ (0 <= jk_num u)%R ->
    forall xs x, Forall (fun x => length x = input_dim s) (xs ++ [x]) ->
    exists m1 m2, hq_reset (unreset s m hs r) = Ok m1 /\ hq_filters (xs ++ [x]) m1 = Ok m2 /\ hq_sp m2 = s /\ hq_cf m2 = hq_cf m /\ map fst (hq_cls m2) = map fst hs /\
      hq_report u (hq_view (unreset s m hs r)) xs x m2.
  Proof.
    intros HH HL xs x HX. pose proof (made_resettable HH) as RS. pose proof RS as (HU & _).
    destruct (hh_reset_ok v0 RS) as (v1 & E1 & SM & FR & KL). unfold hq_reset. rewrite E1. cbn [bind].
    pose proof (put_view (unreset s m hs r) v1 (reset_static _ _ E1)) as PV. set (m1 := hq_put _ v1 _) in *.
    assert (LO : forall c, c < hh_size v0 -> (0 <= left_over v0 (hh_left v1) c)%R).
    { intros c Hc. rewrite (left_of v0 (hh_left v1) (hh_left v0) c (proj1 (KL c Hc))). apply made_left; assumption. }
    destruct (hh_filters_report v0 v1 HU SM FR LO xs x HX) as (v2 & E2 & AT & CR & _ & TR). rewrite <- PV in E2. destruct (hfilters_view _ m1 v2 E2) as (E3 & V2).
    exists m1, (hq_put (hq_sp m1) v2 m1). split; [reflexivity|]. split; [exact E3|]. split; [reflexivity|]. split; [reflexivity|]. split.
    - destruct AT as (SA & _). destruct SA as (_ & _ & _ & _ & _ & _ & _ & _ & _ & _ & SA). change (hq_cls (hq_put (hq_sp m1) v2 m1)) with (hh_cls v2). change hs with (hh_cls v0).
      clear -SA. induction SA as [|e e' l l' (H & _) T IH]; [reflexivity|]. cbn [map]. rewrite H, IH. reflexivity.
    - exists (hh_left v1). split; [intros c Hc; rewrite (proj1 (KL c Hc)); apply made_inst; exact Hc|]. rewrite V2. change (hq_res (hq_put (hq_sp m1) v2 m1)) with (hh_res v2). split; [exact CR|]. split; [exact TR|].
      assert (Hne : xs ++ [x] <> []) by (destruct xs; discriminate). split.
      + intro Q. destruct TR as (b & _ & _ & _ & _ & _ & RN & _). rewrite RN. apply tab_ext. intros c Hc. apply class_posterior; auto.
        destruct Q as [Q|Q]; [left; destruct xs; [contradiction|cbn; rewrite app_length; cbn; lia]|right; exact Q].
      + apply hh_total; assumption.
  Qed.

  (** Recognition in the other mode, with left-right classes only. *)
  Lemma made_flat : hp_hier (cf_def (hq_cf m)) = false -> hn_usable v0.
  Proof.
    intro HH. split; [apply one_size|]. split; [exact ND|]. split; [apply Forall_forall; intros e He; destruct (made_in e He) as (M1 & M2 & M3 & M4 & M5 & _ & _ & _ & M6); repeat (split; [assumption|]); exact M6|].
    split; [exact HH|exact din_ok].
  Qed.

  Lemma hrecognise_flat : hp_hier (cf_def (hq_cf m)) = false -> (forall l, In l (map fst hs) -> hp_trans (cf_params (hq_cf m) l) = LeftRight) ->
    forall xs x, Forall (fun x => length x = input_dim s) (xs ++ [x]) ->
    exists m1 m2, hq_reset (unreset s m hs r) = Ok m1 /\ hn_reset_spec (hq_view (unreset s m hs r)) (hq_view m1) /\ hq_filters (xs ++ [x]) m1 = Ok m2 /\ hq_sp m2 = s /\ hq_cf m2 = hq_cf m /\ map fst (hq_cls m2) = map fst hs /\
      hn_report (hq_view m1) twice (xs ++ [x]) x (hq_view m2).
  Proof.
    intros HH HL xs x HX. pose proof (made_flat HH) as HU.
    destruct (hn_reset_lr v0) as (v1 & E1 & SP & U1 & F1).
    { split; [exact HU|]. apply Forall_forall. intros e He. split; [rewrite (proj2 (made_mode e He)); apply HL, in_map, He|apply made_ring, He]. }
    unfold hq_reset. rewrite E1. cbn [bind]. pose proof (put_view (unreset s m hs r) v1 (reset_static _ _ E1)) as PV. set (m1 := hq_put _ v1 _) in *.
    pose proof SP as (SL & _ & _ & OD & _).
    destruct (hn_filters_report v1 U1 F1 (xs ++ [x])) as (v2 & E2 & AT & RP); [rewrite OD; exact HX|]. specialize (RP xs x eq_refl).
    rewrite <- PV in E2. destruct (hfilters_view _ m1 v2 E2) as (E3 & V2). exists m1, (hq_put (hq_sp m1) v2 m1). split; [reflexivity|]. split; [rewrite PV; exact SP|]. split; [exact E3|]. split; [reflexivity|]. split; [reflexivity|].
    split; [|rewrite PV, V2; exact RP]. destruct AT as (SA & _). destruct SA as (_ & _ & _ & _ & _ & _ & _ & _ & _ & _ & SA). change (hq_cls (hq_put (hq_sp m1) v2 m1)) with (hh_cls v2). change hs with (hh_cls v0). rewrite <- SL.
    clear -SA. induction SA as [|e e' l l' (H & _) T IH]; [reflexivity|]. cbn [map]. rewrite H, IH. reflexivity.
  Qed.

  (** With an Ergodic class, that mode has no defined behaviour. *)
  Lemma hflat_ergodic : hp_hier (cf_def (hq_cf m)) = false -> (exists l, In l (map fst hs) /\ hp_trans (cf_params (hq_cf m) l) = Ergodic) ->
    exists m1, hq_reset (unreset s m hs r) = Ok m1 /\ forall x, length x = input_dim s -> hq_filter x m1 = UB.
  Proof.
    intros HH (l & Hl & ML). pose proof (made_flat HH) as HU. destruct (hn_ergodic_ub v0 HU) as (v1 & E1 & UBx).
    - apply Forall_forall. intros e He. apply made_ring, He.
    - apply in_map_iff in Hl. destruct Hl as (e & <- & He). apply Exists_exists. exists e. split; [exact He|]. rewrite (proj2 (made_mode e He)). exact ML.
    - unfold hq_reset. rewrite E1. cbn [bind]. eexists. split; [reflexivity|]. intros x Hx. unfold hq_filter. rewrite (put_view _ _ (reset_static _ _ E1)). rewrite (UBx x Hx). reflexivity.
  Qed.

  (** Without a reset there is no room for the results. *)
  Lemma hno_room : hp_hier (cf_def (hq_cf m)) = true -> results_sized 0 r -> forall x, length x = input_dim s -> hq_filter x (unreset s m hs r) = UB.
  Proof.
    intros HH RS x Hx. unfold hq_filter. rewrite first_no_room; [reflexivity| |exact HH|reflexivity| | |exact Hx].
    - apply (made_resettable HH).
    - destruct RS as (RS & _). change (hh_res v0) with r. destruct (rs_inst r); [reflexivity|discriminate].
    - intros c Hc. set (e := nth c hs no_hclass). assert (He : In e hs) by (apply nth_In; exact Hc). destruct (proj1 (Forall_forall _ _) CM e He) as (_ & _ & _ & _ & _ & FK & _).
      destruct FK as (_ & _ & _ & _ & _ & F6 & F7 & _). split; [exact F6|exact F7].
  Qed.
End Trained.
