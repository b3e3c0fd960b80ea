(** Properties of hierarchical hidden Markov models: C61 (hierarchical mode), C63-C66, C76-C79. *)
From Coq Require Import String List Bool Arith ZArith QArith Reals Lra Lia.
From Verif Require Import Base BaseFacts Arith RFacts Model_Map Model_Ring Model_Gaussian Model_Config Model_KMeans Model_GMM Model_HMM Model_HHMM
  Spec_Common Spec_Matrix Spec_Gaussian Spec_GMM Spec_HMM Spec_HHMM Spec_HHMM2 Spec_HHMM3 Spec_HHMM4 Spec_HHMM5
  Proofs_Ring Proofs_GMM Proofs_HMM4 Proofs_HMM5 Proofs_HHMM Proofs_HHMM2 Proofs_HHMM4 Proofs_HHMM6 Proofs_HHMM7 Proofs_HHMM8 Proofs_HHMM9 Proofs_HHMM10 Proofs_HHMM11 Proofs_HHMM12 Proofs_HHMM13
  Ex_HHMM Proofs_HHMM14 Proofs_HHMM15.
Import ListNotations.
Local Open Scope list_scope.
Local Open Scope R_scope.

(** ** The model of the examples: two classes of two states. *)
Definition kx_cls (bim : bool) (t : tmode) (flag : bool) : list (string * hclass RA) := [("a"%string, kx_class bim t RFull flag 0 0 4); ("b"%string, kx_class bim t RWindowed flag 1 6 7)].
Definition kx_two (bim : bool) (t : tmode) (est : restimator) (hier flag : bool) : hhmm RA := kx_model bim est hier (kx_cls bim t flag).
Lemma kx_two_ok : forall bim t flag, Forall (fun e : string * hclass RA => kx_ok bim (fun t' f => t' = t /\ f = flag) (snd e)) (kx_cls bim t flag).
Proof.
  intros. constructor; [|constructor; [|constructor]].
  - exists t, RFull, flag, 0, 0, 4. split; [reflexivity|]. split; [lra|auto].
  - exists t, RWindowed, flag, 1, 6, 7. split; [reflexivity|]. split; [lra|auto].
Qed.
Lemma kx_weaken : forall bim (P Q : tmode -> bool -> Prop) cls, (forall t f, P t f -> Q t f) -> Forall (fun e : string * hclass RA => kx_ok bim P (snd e)) cls -> Forall (fun e : string * hclass RA => kx_ok bim Q (snd e)) cls.
Proof. intros bim P Q cls H F. eapply Forall_impl; [|exact F]. intros e (t & x & f & u & y0 & y1 & E & Hu & HP). exists t, x, f, u, y0, y1. auto. Qed.
Lemma kx_nodup : forall bim t flag, NoDup (map fst (kx_cls bim t flag)).
Proof. intros. cbn. constructor; [intros [E|[]]; discriminate|]. constructor; [intros []|constructor]. Qed.
Lemma two_usable : forall bim t est hier flag, hh_usable (kx_two bim t est hier flag).
Proof. intros. eapply kx_usable; [discriminate|apply kx_nodup|apply kx_two_ok]. Qed.
Lemma two_fresh : forall bim t est, hh_fresh (kx_two bim t est true true).
Proof. intros. apply kx_fresh. eapply kx_weaken; [|apply kx_two_ok]. intros ? ? (_ & ->). reflexivity. Qed.
Lemma two_resettable : forall bim t est, hh_resettable (kx_two bim t est true true).
Proof. intros. apply kx_resettable; [discriminate|apply kx_nodup|]. eapply kx_weaken; [|apply kx_two_ok]. intros ? ? (_ & ->). reflexivity. Qed.
Lemma two_left : forall bim t est hier flag c, (c < 2)%nat -> 0 <= left_over (kx_two bim t est hier flag) (hh_left (kx_two bim t est hier flag)) c.
Proof. intros. eapply kx_left; [apply kx_two_ok|]. assumption. Qed.
Lemma two_mode : forall bim t est hier flag c, (c < 2)%nat -> hc_mode (hcl (kx_two bim t est hier flag) c) = t.
Proof. intros bim t est hier flag c Hc. assert (c = 0%nat \/ c = 1%nat) as [|] by lia; subst c; reflexivity. Qed.
Lemma two_frames : forall bim t est hier flag, Forall (fun x => length x = hh_obs_dim (kx_two bim t est hier flag)) [[0]; [1]; [5]].
Proof. intros. destruct bim; repeat constructor. Qed.

(** C61: the progress in hierarchical mode.  [X] bounds the exit probabilities of the states. *)
Theorem C61_hierarchical : forall m, hh_usable m -> hh_fresh m -> (forall c, (c < hh_size m)%nat -> 0 <= left_over m (hh_left m) c) ->
  forall xs x, Forall (fun x => length x = hh_obs_dim m) (xs ++ [x]) -> exists m', hh_filters (A := RA) (xs ++ [x]) m = Ok m' /\ forall c, (c < hh_size m)%nat ->
    let r := hc_run (hcl m' c) in
    first_max (hc_n (hcl m c)) (fun i => nth i (h_a0 r) 0 + nth i (h_a1 r) 0) (h_like r) /\
    forall X, (forall k, (k < hc_n (hcl m c))%nat -> exit_at (hcl m c) k <= X) -> nth c (hh_exit m) 0 * X < 1 -> 0 <= h_prog r <= 1 / (1 - nth c (hh_exit m) 0 * X).
Proof. intros m HU HF HL xs x HX. exact (progress_ok m m xs x HU (hh_same_refl m HU) HF HL HX). Qed.
Print Assumptions C61_hierarchical.
Example C61_hierarchical_meets : forall bim t est, let m := kx_two bim t est true true in hh_usable m /\ hh_fresh m /\ (forall c, (c < hh_size m)%nat -> 0 <= left_over m (hh_left m) c) /\
  Forall (fun x => length x = hh_obs_dim m) ([[0]; [1]] ++ [[5]]) /\ forall c, (c < hh_size m)%nat -> (forall k, (k < hc_n (hcl m c))%nat -> exit_at (hcl m c) k <= / 10) /\ nth c (hh_exit m) 0 * / 10 < 1.
Proof.
  intros bim t est m. split; [apply two_usable|]. split; [apply two_fresh|]. split; [apply two_left|]. split; [apply two_frames|]. intros c Hc. change (hh_size m) with 2%nat in Hc.
  assert (c = 0%nat \/ c = 1%nat) as [|] by lia; subst c; (split; [intros k Hk; assert (k = 0%nat \/ k = 1%nat) as [|] by (cbn in Hk; lia); subst k; cbn; lra|cbn; lra]).
Qed.
(** Two states, two observations: the progress is above 1. *)
Theorem C61_hierarchical_refuted : exists m m', hh_usable m /\ hh_fresh m /\ Forall (fun x => length x = hh_obs_dim m) [[0]; [4]] /\ hh_filters (A := RA) [[0]; [4]] m = Ok m' /\ (0 < hh_size m)%nat /\ 1 < h_prog (hc_run (hcl m' 0)).
Proof. destruct progress_above as (m' & E & P). exists (kx_one 0 4), m'. split; [apply kx_one_usable|]. split; [apply kx_one_fresh|]. split; [repeat constructor|]. split; [exact E|]. split; [cbn; lia|exact P]. Qed.
Print Assumptions C61_hierarchical_refuted.

(** C63 *)
Theorem C63_normalised : forall m, hh_usable m -> hh_fresh m -> (forall c, (c < hh_size m)%nat -> 0 <= left_over m (hh_left m) c) ->
  forall xs x, Forall (fun x => length x = hh_obs_dim m) (xs ++ [x]) -> exists m', hh_filters (A := RA) (xs ++ [x]) m = Ok m' /\
    ((xs <> [] \/ forall c, (c < hh_size m)%nat -> hc_mode (hcl m c) = LeftRight) -> hh_mass m' = 1) /\ 0 < hh_mass m' <= 1 /\
    (forall c k, (c < hh_size m)%nat -> (k < hc_n (hcl m c))%nat -> 0 <= nth k (h_a0 (hc_run (hcl m' c))) 0 /\ 0 <= nth k (h_a1 (hc_run (hcl m' c))) 0 /\ 0 <= nth k (h_a2 (hc_run (hcl m' c))) 0) /\
    (xs <> [] -> forall c, (c < hh_size m)%nat -> 0 <= h_exratio (hc_run (hcl m' c)) <= 1).
Proof.
  intros m HU HF HL xs x HX. destruct (hh_filters_report m m HU (hh_same_refl m HU) HF HL xs x HX) as (m' & E & AT & CR & _ & _). exists m'. split; [exact E|].
  assert (Hne : xs ++ [x] <> []) by (destruct xs; discriminate). pose proof (mass_ok m (hh_left m) (xs ++ [x]) m' HU Hne AT) as MS. split; [|split; [|split]].
  - intro H. rewrite MS. destruct xs as [|y xs]; [|destruct xs; reflexivity]. cbn [app hh_scale]. pose proof (hh_lik_pos m HU [x] ltac:(discriminate)). rewrite (Rsum_zero _ (left_over m (hh_left m))); [rewrite Rplus_0_r; apply Rinv_r; lra|].
    intros c Hc. apply left_lr. destruct H as [H|H]; [contradiction|]. apply H, Hc.
  - rewrite MS. apply scale_le; assumption.
  - intros c k Hc Hk. exact (mass_parts m (hh_left m) (xs ++ [x]) m' HU Hne HL AT c k Hc Hk).
  - intros H c Hc. destruct (CR c Hc) as (_ & _ & _ & _ & XR & _). destruct XR as (_ & XR); [destruct xs; [contradiction|cbn; rewrite app_length; cbn; lia]|]. rewrite XR. apply exit_ratio_ok; assumption.
Qed.
Print Assumptions C63_normalised.
Example C63_meets : forall bim t est, let m := kx_two bim t est true true in hh_usable m /\ hh_fresh m /\ (forall c, (c < hh_size m)%nat -> 0 <= left_over m (hh_left m) c) /\
  Forall (fun x => length x = hh_obs_dim m) ([[0]; [1]] ++ [[5]]) /\ hh_size m = 2%nat.
Proof. intros bim t est m. split; [apply two_usable|]. split; [apply two_fresh|]. split; [apply two_left|]. split; [apply two_frames|reflexivity]. Qed.
(** The first observation after a second reset: with an Ergodic class the sum is below 1. *)
Theorem C63_first_refuted : forall m x, hh_resettable m -> (forall c, (c < hh_size m)%nat -> 0 <= left_over m (hh_left m) c) -> length x = hh_obs_dim m -> (exists c, (c < hh_size m)%nat /\ hc_mode (hcl m c) = Ergodic) ->
  exists m', hh_plays [[x]; [x]] m = Ok m' /\ hh_mass m' < 1.
Proof. exact mass_below. Qed.
Print Assumptions C63_first_refuted.
Example C63_first_meets : forall bim est, let m := kx_two bim Ergodic est true true in hh_resettable m /\ (forall c, (c < hh_size m)%nat -> 0 <= left_over m (hh_left m) c) /\ length [1] = hh_obs_dim m /\ (exists c, (c < hh_size m)%nat /\ hc_mode (hcl m c) = Ergodic).
Proof. intros bim est m. split; [apply two_resettable|]. split; [apply two_left|]. split; [destruct bim; reflexivity|]. exists 1%nat. split; [cbn; lia|reflexivity]. Qed.

(** C64 *)
Theorem C64_history : forall m, hh_resettable m -> (forall c, (c < hh_size m)%nat -> hc_mode (hcl m c) = LeftRight) -> forall p1 p2 xs, Forall (Forall (fun x => length x = hh_obs_dim m)) p1 -> Forall (Forall (fun x => length x = hh_obs_dim m)) p2 ->
  xs <> [] -> Forall (fun x => length x = hh_obs_dim m) xs -> exists m1 m2, hh_plays (p1 ++ [xs]) m = Ok m1 /\ hh_plays (p2 ++ [xs]) m = Ok m2 /\ hh_agree (2 <= length xs)%nat m1 m2.
Proof. exact plays_agree. Qed.
Print Assumptions C64_history.
Example C64_meets : forall bim est, let m := kx_two bim LeftRight est true true in hh_resettable m /\ (forall c, (c < hh_size m)%nat -> hc_mode (hcl m c) = LeftRight) /\
  Forall (Forall (fun x => length x = hh_obs_dim m)) [[[0]; [1]; [5]]; [[0]; [1]; [5]]] /\ Forall (fun x => length x = hh_obs_dim m) [[0]; [1]; [5]].
Proof. intros bim est m. split; [apply two_resettable|]. split; [apply two_mode|]. split; [constructor; [apply two_frames|constructor; [apply two_frames|constructor]]|apply two_frames]. Qed.
(** Ergodic classes: the first likelihood is added to the one left from before; the same observation after a
    reset gives a larger value each time. *)
Theorem C64_ergodic_refuted : forall m x c, hh_resettable m -> (forall c, (c < hh_size m)%nat -> 0 <= left_over m (hh_left m) c) -> length x = hh_obs_dim m -> (c < hh_size m)%nat -> hc_mode (hcl m c) = Ergodic ->
  exists m1 m2, hh_plays [[x]] m = Ok m1 /\ hh_plays [[x]; [x]] m = Ok m2 /\ h_inst (hc_run (hcl m1 c)) = hh_left m c + hh_lik m [x] * hh_class m [x] c /\
    h_inst (hc_run (hcl m2 c)) = h_inst (hc_run (hcl m1 c)) + hh_lik m [x] * hh_class m [x] c /\ h_inst (hc_run (hcl m1 c)) < h_inst (hc_run (hcl m2 c)).
Proof. exact ergodic_accumulates. Qed.
Print Assumptions C64_ergodic_refuted.
Example C64_ergodic_meets : forall bim est, let m := kx_two bim Ergodic est true true in hh_resettable m /\ (forall c, (c < hh_size m)%nat -> 0 <= left_over m (hh_left m) c) /\ length [1] = hh_obs_dim m /\ (1 < hh_size m)%nat /\ hc_mode (hcl m 1) = Ergodic.
Proof. intros bim est m. split; [apply two_resettable|]. split; [apply two_left|]. split; [destruct bim; reflexivity|]. split; [cbn; lia|reflexivity]. Qed.
(** Any classes: after the first observation, the exit likelihood and ratio are the ones from before the reset. *)
Theorem C64_exit_refuted : forall m x, hh_resettable m -> (forall c, (c < hh_size m)%nat -> 0 <= left_over m (hh_left m) c) -> length x = hh_obs_dim m ->
  exists m', hh_plays [[x]] m = Ok m' /\ forall c, (c < hh_size m)%nat -> h_exlik (hc_run (hcl m' c)) = h_exlik (hc_run (hcl m c)) /\ h_exratio (hc_run (hcl m' c)) = h_exratio (hc_run (hcl m c)).
Proof. exact exits_stale. Qed.
Print Assumptions C64_exit_refuted.
(** Such a model, with different values: before any observation and after two. *)
Example C64_exit_meets : forall y, exists m, hh_plays [[[y]; [y]]] (kx_one y y) = Ok m /\ hh_resettable m /\ hh_resettable (kx_one y y) /\ (forall c, (c < hh_size m)%nat -> 0 <= left_over m (hh_left m) c) /\ length [y] = hh_obs_dim m /\
  h_exratio (hc_run (hcl (kx_one y y) 0)) = 0 /\ 0 < h_exratio (hc_run (hcl m 0)).
Proof.
  intro y. set (m0 := kx_one y y). pose proof (kx_one_usable y y) as HU. fold m0 in HU.
  assert (HR : hh_resettable m0) by (apply kx_resettable; [discriminate|constructor; [intros []|constructor]|apply kx_one_ok]).
  assert (HL : forall u c, 0 <= left_over m0 u c) by (intros; unfold m0; rewrite kx_one_left; lra).
  destruct (play_ok m0 m0 [[y]; [y]] HR (hh_same_refl m0 HU) HR ltac:(intros; apply HL) ltac:(repeat constructor)) as (m1 & m2 & E1 & E2 & S1 & F1 & L1 & A2 & R2 & L2).
  destruct (hh_filters_report m0 m1 HU S1 F1 ltac:(intros; apply HL) [[y]] [y] ltac:(repeat constructor)) as (m2' & E2' & _ & CR & _ & _). assert (EQ : Ok m2' = Ok m2) by (transitivity (hh_filters (A := RA) [[y]; [y]] m1); [symmetry; exact E2'|exact E2]). inversion EQ; subst m2'.
  exists m2. split; [unfold hh_plays; cbn [foldM]; rewrite E1; cbn [bind]; rewrite E2; reflexivity|]. split; [exact R2|]. split; [exact HR|].
  pose proof (proj1 A2) as S2. assert (SZ : hh_size m2 = 1%nat) by (apply (same_size m0 m2 S2)).
  split; [intros c Hc; rewrite (same_left m0 m2 _ c S2) by (rewrite SZ in Hc; exact Hc); apply HL|]. split; [rewrite (same_obs_dim m0 m2 S2); reflexivity|]. split; [reflexivity|].
  destruct (CR 0%nat ltac:(cbn; lia)) as (_ & _ & _ & _ & XR & _). destruct XR as (_ & XR); [cbn; lia|]. rewrite XR. cbn [app]. change (hc_n (hcl m0 0)) with 2%nat.
  pose proof (hh_class_pos m0 HU [[y]; [y]] 0 ltac:(discriminate) ltac:(cbn; lia)) as CP. pose proof (hh_lik_pos m0 HU [[y]; [y]] ltac:(discriminate)) as LP.
  assert (G : forall k e, (k < 2)%nat -> (e < 3)%nat -> 0 <= hh_filtering m0 [[y]; [y]] 0 k e) by (intros k e Hk He; apply hh_filtering_ge; [exact HU|discriminate|cbn; lia|exact Hk|exact He]).
  pose proof (one_second y y [y] [y] 1 2 ltac:(lia) ltac:(lia)) as F. fold m0 in F. change (state_at (hcl m0 0) 1) with (kx_state false y) in F.
  assert (BP : 0 < mix_lik (kx_state false y) [y]) by (apply (lik_ge m0 HU 0 0); cbn; lia).
  assert (SV : split_at m0 0 1 2 = / 100) by (unfold split_at, exit_at, hcl; cbn; field). rewrite SV in F.
  assert (0 < hh_filtering m0 [[y]; [y]] 0 1 2) by (apply Rmult_lt_reg_l with (hh_lik m0 [[y]; [y]]); [exact LP|rewrite Rmult_0_r, F; apply Rmult_lt_0_compat; lra]).
  unfold Rdiv. apply Rmult_lt_0_compat; [|apply Rinv_0_lt_compat; exact CP]. cbn [Rsum]. pose proof (G 0%nat 1%nat ltac:(lia) ltac:(lia)). pose proof (G 0%nat 2%nat ltac:(lia) ltac:(lia)). pose proof (G 1%nat 1%nat ltac:(lia) ltac:(lia)). change (num RA) with R in *. lra.
Qed.

(** C65: any arithmetic, any history of operations other than [normalizeTransitions], exceptions included. *)
Theorem C65_uniform : forall (A : arith) bim dim din win est cm hier cfg os m', forallb (fun o => negb (is_normalize o)) os = true -> hh_run (A := A) os (hh_new bim dim din win est cm hier cfg) = Ok m' -> top_uniform m'.
Proof. intros A bim dim din win est cm hier cfg os m' HN E. exact (run_top os _ m' HN (new_top bim dim din win est cm hier cfg) E). Qed.
Print Assumptions C65_uniform.
(** Exact arithmetic, all the operations. *)
Theorem C65_distributions : forall bim dim din win est cm hier cfg os m', hh_run (A := RA) os (hh_new bim dim din win est cm hier cfg) = Ok m' ->
  length (hh_prior m') = hh_size m' /\ length (hh_trans m') = hh_size m' /\ length (hh_exit m') = hh_size m' /\
  forall c, (c < hh_size m')%nat -> distribution (hh_size m') (top_prior m') /\ distribution (hh_size m') (top_trans m' c) /\ top_prior m' c = / INR (hh_size m') /\ (forall d, (d < hh_size m')%nat -> top_trans m' c d = / INR (hh_size m')) /\ nth c (hh_exit m') 0 = / 10.
Proof.
  intros bim dim din win est cm hier cfg os m' E. pose proof (run_top_R os _ m' (new_top bim dim din win est cm hier cfg) E) as (P & T & X). change (num RA) with R in *.
  split; [rewrite P; apply repeat_length|]. split; [rewrite T; apply repeat_length|]. split; [rewrite X; apply repeat_length|]. intros c Hc. set (n := hh_size m') in *.
  assert (HN : 0 < INR n) by (apply lt_0_INR; lia). assert (V : ndiv (a := RA) n1 (nN n) = / INR n) by (rewrite n1_RA, nN_RA; cbn; unfold Rdiv; ring).
  assert (HP : forall d, (d < n)%nat -> top_prior m' d = / INR n) by (intros d Hd; unfold top_prior; rewrite P, nth_repeat_lt by exact Hd; exact V).
  assert (HT : forall d, (d < n)%nat -> top_trans m' c d = / INR n) by (intros d Hd; unfold top_trans; rewrite T, nth_repeat_lt by exact Hc; rewrite nth_repeat_lt by exact Hd; exact V).
  pose proof (Rinv_0_lt_compat _ HN) as HI.
  assert (D : forall f, (forall d, (d < n)%nat -> f d = / INR n) -> distribution n f).
  { intros f Hf. split; [intros d Hd; rewrite Hf by exact Hd; lra|]. rewrite (Rsum_ext n f (fun _ => / INR n) Hf), Rsum_const. apply Rinv_r. lra. }
  split; [exact (D _ HP)|]. split; [exact (D _ HT)|]. split; [exact (HP c Hc)|]. split; [exact HT|]. rewrite X, nth_repeat_lt by exact Hc. cbn. unfold Q2R. cbn. lra.
Qed.
Print Assumptions C65_distributions.
(** Histories that end: any class operations in hierarchical mode. *)
Example C65_meets : forall (A : arith) (u : num A) f dim win est cm (cfg : string -> hmmP A), (forall l, (1 <= hp_states (cfg l))%nat) ->
  let os := [OAdd u f "a"%string; OAdd u f "b"%string; OReset; OAdd u f "c"%string; ORemove "a"%string; ORemove "z"%string; OJoin (String.eqb "b"%string)] in
  forallb (fun o => negb (is_normalize o)) os = true /\ exists m', hh_run (A := A) os (hh_new false dim 0 win est cm true cfg) = Ok m' /\ forall l, In l (hh_labels m') <-> l = "c"%string.
Proof.
  intros A u f dim win est cm cfg HC os. split; [reflexivity|].
  assert (S0 : settled (hh_new false dim 0 win est cm true cfg)) by (split; [reflexivity|]; split; [constructor|]; split; [discriminate|exact HC]).
  assert (G : forall (l : list (hh_op A)) m, Forall class_op l -> settled m -> exists m', hh_run l m = Ok m' /\ forall k, In k (hh_labels m') <-> fold_left (fun b o => label_after o b) l (fun k => In k (hh_labels m)) k).
  { induction l as [|o l IH]; intros m F S; [exists m; split; [reflexivity|intro; reflexivity]|]. inversion F; subst. destruct (apply_labels o m) as (m1 & e & E & S1 & _ & L); [assumption..|]. destruct (IH m1) as (m' & E' & L'); [assumption..|].
    exists m'. split; [unfold hh_run in *; cbn [foldM]; rewrite E; cbn [bind]; exact E'|]. intro k. rewrite L'.
    assert (M : forall l2 (P Q : string -> Prop), (forall k, P k <-> Q k) -> forall k, fold_left (fun b (o : hh_op A) => label_after o b) l2 P k <-> fold_left (fun b o => label_after o b) l2 Q k).
    { clear. induction l2 as [|o' l2 IH]; intros P Q H k'; [apply H|]. cbn. apply IH. intro k2. destruct o'; cbn; rewrite ?H; reflexivity. }
    cbn. apply M, L. }
  destruct (G os _ ltac:(repeat constructor) S0) as (m' & E & L). exists m'. split; [exact E|]. intro l. rewrite L. cbn. split.
  - intros (((H & H2) & H3) & H4). destruct H as [H|[H|[H|H]]]; subst; try discriminate; try contradiction; auto.
  - intros ->. repeat split; auto; discriminate.
Qed.

(** C66: what is averaged is the sequence in which each value comes twice. *)
Theorem C66_twice : forall m, hn_usable m -> hn_fresh m -> forall xs x, Forall (fun x => length x = hh_obs_dim m) (xs ++ [x]) ->
  exists m', hh_filters (A := RA) (xs ++ [x]) m = Ok m' /\ hn_report m twice (xs ++ [x]) x m' /\
    forall k, (1 <= k)%nat -> hh_win m = (2 * k)%nat -> forall c, (c < hh_size m)%nat -> h_log (hc_run (hcl m' c)) = window_mean k (hmm_logs (hcl m c) (xs ++ [x])).
Proof.
  intros m HU HF xs x D. destruct (hn_filters_report m HU HF (xs ++ [x]) D) as (m' & E & _ & R). specialize (R xs x eq_refl). exists m'. split; [exact E|]. split; [exact R|].
  intros k Hk HW c Hc. destruct R as (R & _). destruct (R c Hc) as (_ & R2 & _). rewrite R2, HW. apply twice_even; [|exact Hk].
  intro Z. apply (f_equal (fun l => length l)) in Z. unfold hmm_logs, inst_logs, hmm_liks in Z. cbn beta in Z. rewrite ?map_length, ?seq_length, ?map_length, app_length in Z. cbn in Z. lia.
Qed.
Print Assumptions C66_twice.
(** After a reset, a model of LeftRight classes is such a model. *)
Theorem C66_reset : forall m, hn_resettable m -> exists m', hh_reset (A := RA) m = Ok m' /\ hn_usable m' /\ hn_fresh m' /\ hn_reset_spec m m'.
Proof. intros m H. destruct (hn_reset_lr m H) as (m' & E & A & B & C). exists m'. auto. Qed.
Print Assumptions C66_reset.
Example C66_meets : forall bim est, let m := kx_two bim LeftRight est false false in hn_usable m /\ hn_fresh m /\ hn_resettable m /\ Forall (fun x => length x = hh_obs_dim m) ([[0]; [1]] ++ [[5]]) /\ hh_win m = (2 * 1)%nat.
Proof.
  intros bim est m. split; [eapply kx_hn; [discriminate|apply kx_nodup|apply kx_two_ok]|]. split; [apply kx_hn_fresh; eapply kx_weaken; [|apply kx_two_ok]; intros ? ? (_ & ->); reflexivity|].
  split; [apply kx_hn_resettable; [discriminate|apply kx_nodup|eapply kx_weaken; [|apply kx_two_ok]; intros ? ? (-> & _); reflexivity]|]. split; [apply two_frames|reflexivity].
Qed.
(** A window of two observations only holds the last one. *)
Theorem C66_refuted : exists m m', hn_usable m /\ hn_fresh m /\ hh_win m = 2%nat /\ (0 < hh_size m)%nat /\ hh_filters (A := RA) [[0]; [4]] m = Ok m' /\
  h_log (hc_run (hcl m' 0)) <> window_mean (hh_win m) (hmm_logs (hcl m 0) [[0]; [4]]).
Proof.
  destruct (C66_twice (kx_flat 0) (kx_flat_usable 0) (kx_flat_fresh 0) [[0]] [4]) as (m' & E & _ & W); [repeat constructor|]. exists (kx_flat 0), m'. split; [apply kx_flat_usable|]. split; [apply kx_flat_fresh|]. split; [reflexivity|]. split; [cbn; lia|]. split; [exact E|].
  rewrite (W 1%nat) by (cbn; lia). intro Q. apply liks_differ. assert (Q' : forall l, l = hmm_logs (hcl (kx_flat 0) 0) [[0]; [4]] -> window_mean 1 l = window_mean 2 l) by (intros l ->; exact Q). specialize (Q' _ (eq_sym (flat_logs 0 [0] [4]))). unfold window_mean, Rlsum, last_n in Q'. cbn -[mix_lik] in Q'.
  assert (P : forall x, 0 < mix_lik (kx_state false 0) x) by (intro x; apply (lik_ge (kx_one 0 0) (kx_one_usable 0 0) 0 0); cbn; lia). apply ln_inv; [apply P..|]. lra.
Qed.
Print Assumptions C66_refuted.

(** C76 *)
Theorem C76_classes : forall (A : arith) (o : hh_op A) m, class_op o -> settled m -> exists m' e, hh_apply o m = Ok (m', e) /\ settled m' /\
  (e = None \/ exists l, o = ORemove l /\ ~ In l (hh_labels m) /\ e = Some OutOfRange) /\ forall l, In l (hh_labels m') <-> label_after o (fun l => In l (hh_labels m)) l.
Proof. intros. apply apply_labels; assumption. Qed.
Print Assumptions C76_classes.
Example C76_meets : forall bim t est, settled (kx_two bim t est true true) /\ class_op (A := RA) (ORemove "a"%string) /\ class_op (A := RA) (OContents "b"%string (kx_class bim t RFull true 0 1 2)) /\ In "a"%string (hh_labels (kx_two bim t est true true)).
Proof.
  intros bim t est. split; [|split; [exact I|split; [split; [reflexivity|cbn; lia]|left; reflexivity]]]. split; [reflexivity|]. split; [repeat (constructor; [split; [reflexivity|cbn; lia]|]); constructor|]. split; [destruct bim; cbn; [lia|discriminate]|intro; cbn; lia].
Qed.
(** Without the hierarchy, a class that is added or removed is added or removed, but an exception is thrown. *)
Theorem C76_add_refuted : forall (A : arith) u f l (m : hhmm A), hh_cls m <> [] -> Forall (fun e : string * hclass A => hc_hier (snd e) = false) (hh_cls m) -> ~ In l (hh_labels m) -> length (hh_prior m) = hh_size m -> (1 <= hp_states (hh_cfg m l))%nat ->
  exists m', hh_apply (OAdd u f l) m = Ok (m', Some RuntimeError) /\ In l (hh_labels m') /\ hh_size m' = S (hh_size m).
Proof. intros A u f l m. apply add_throws. Qed.
Print Assumptions C76_add_refuted.
Theorem C76_remove_refuted : forall l m, hn_usable m -> Forall (fun e : string * hclass RA => ring_wf 1 (h_buf (hc_run (snd e)))) (hh_cls m) -> In l (hh_labels m) -> (2 <= hh_size m)%nat -> length (hh_prior m) = hh_size m ->
  exists m', hh_apply (ORemove l) m = Ok (m', Some RuntimeError) /\ forall k, In k (hh_labels m') <-> In k (hh_labels m) /\ k <> l.
Proof.
  intros l m HU HR HI HS HP. cbn [hh_apply]. unfold hh_remove. destruct HU as (U1 & ND & U3).
  assert (FK : forall k, In k (map fst (filter (fun p : string * hclass RA => negb (String.eqb l (fst p))) (hh_cls m))) <-> In k (hh_labels m) /\ k <> l).
  { intro k. rewrite (in_filter_keys _ (fun k => negb (String.eqb l k))). unfold hh_labels. destruct (String.eqb_spec l k); cbn; split; intros (H1 & H2); split; auto; try congruence; try discriminate. }
  destruct (mget String.eqb (hh_cls m) l) eqn:G.
  2:{ exfalso. clear - HI G. unfold hh_labels in HI. induction (hh_cls m) as [|[k v] t IH]; [exact HI|]. cbn in *. destruct (String.eqb_spec l k); [discriminate|]. destruct HI as [HI|HI]; [congruence|]. apply IH; assumption. }
  assert (LT : forall ms : list (string * hclass RA), NoDup (map fst ms) -> In l (map fst ms) -> S (length (filter (fun p : string * hclass RA => negb (String.eqb l (fst p))) ms)) = length ms).
  { clear. induction ms as [|[k v] t IH]; intros ND HI; [destruct HI|]. cbn in *. inversion ND as [|? ? NI ND']; subst. destruct (String.eqb_spec l k) as [->|NE]; cbn.
    - f_equal. clear - NI. induction t as [|[k' v'] t IH]; [reflexivity|]. cbn in *. destruct (String.eqb_spec k k') as [->|]; [exfalso; apply NI; left; reflexivity|]. cbn. f_equal. apply IH. intro. apply NI. right. assumption.
    - f_equal. apply IH; [assumption|]. destruct HI as [HI|HI]; [congruence|exact HI]. }
  specialize (LT (hh_cls m) ND HI). fold (hh_size m) in LT.
  destruct (shrink_throws (fun p : string * hclass RA => negb (String.eqb l (fst p))) m) as (m' & E & EL); [split; [exact U1|split; [exact ND|exact U3]]|exact HR|intro Z; rewrite Z in LT; cbn in LT; unfold hh_size in *; lia|unfold hh_size in *; lia|exact HP|].
  exists m'. split; [exact E|]. intro k. unfold hh_labels at 1. rewrite EL. apply FK.
Qed.
Print Assumptions C76_remove_refuted.
(** A training in which the class [l] fails. *)
Theorem C76_join_refuted : forall failed m, hn_usable m -> Forall (fun e : string * hclass RA => ring_wf 1 (h_buf (hc_run (snd e)))) (hh_cls m) -> length (hh_prior m) = hh_size m ->
  (exists l, In l (hh_labels m) /\ failed l = true) -> (exists l, In l (hh_labels m) /\ failed l = false) -> exists m', hh_apply (OJoin failed) m = Ok (m', Some RuntimeError) /\ forall k, In k (hh_labels m') <-> In k (hh_labels m) /\ failed k = false.
Proof.
  intros failed m HU HR HP (l & L1 & L2) (l' & L3 & L4). cbn [hh_apply]. unfold hh_join.
  assert (FK : forall k, In k (map fst (filter (fun p : string * hclass RA => negb (failed (fst p))) (hh_cls m))) <-> In k (hh_labels m) /\ failed k = false).
  { intro k. rewrite (in_filter_keys _ (fun k => negb (failed k))). unfold hh_labels. destruct (failed k); cbn; split; intros (H1 & H2); split; auto; discriminate. }
  destruct (shrink_throws (fun p : string * hclass RA => negb (failed (fst p))) m) as (m' & E & EL); [exact HU|exact HR| | |exact HP|].
  - intro Z. apply (proj2 (FK l')) in L4 || (assert (In l' (map fst (filter (fun p : string * hclass RA => negb (failed (fst p))) (hh_cls m)))) as I by (apply FK; auto); rewrite Z in I; exact I).
  - unfold hh_size, hh_labels in *. clear - L1 L2. apply Nat.lt_neq. induction (hh_cls m) as [|[k v] t IH]; [destruct L1|]. cbn in *. assert (FL : (length (filter (fun p : string * hclass RA => negb (failed (fst p))) t) <= length t)%nat) by (clear; induction t as [|a t IH]; [cbn; lia|]; cbn; destruct (failed (fst a)); cbn; lia).
    destruct L1 as [<-|L1]; [rewrite L2; cbn; lia|]. specialize (IH L1). destruct (failed k); cbn; lia.
  - exists m'. split; [exact E|]. intro k. unfold hh_labels at 1. rewrite EL. apply FK.
Qed.
Print Assumptions C76_join_refuted.
Example C76_refuted_meets : forall bim est, let m := kx_two bim LeftRight est false false in hn_usable m /\ Forall (fun e : string * hclass RA => ring_wf 1 (h_buf (hc_run (snd e)))) (hh_cls m) /\ length (hh_prior m) = hh_size m /\ hh_size m = 2%nat /\
  Forall (fun e : string * hclass RA => hc_hier (snd e) = false) (hh_cls m) /\ ~ In "c"%string (hh_labels m) /\ In "a"%string (hh_labels m) /\ (1 <= hp_states (hh_cfg m "c"%string))%nat.
Proof.
  intros bim est m. split; [eapply kx_hn; [discriminate|apply kx_nodup|apply kx_two_ok]|]. split; [repeat (constructor; [apply ring_new_wf; cbn; lia|]); constructor|]. split; [reflexivity|]. split; [reflexivity|]. split; [repeat constructor|].
  split; [intros [E|[E|[]]]; discriminate|]. split; [left; reflexivity|cbn; lia].
Qed.

(** C77 *)
Theorem C77_filtering : forall m, hh_usable m -> hh_fresh m -> (forall c, (c < hh_size m)%nat -> 0 <= left_over m (hh_left m) c) ->
  forall xs x, Forall (fun x => length x = hh_obs_dim m) (xs ++ [x]) -> exists m', hh_filters (A := RA) (xs ++ [x]) m = Ok m' /\ hh_at m (hh_left m) (xs ++ [x]) m' /\
    (forall c, (c < hh_size m)%nat -> hh_class_report m (hh_left m) (xs ++ [x]) x c (hcl m' c)) /\
    hh_top_report m (hh_inst m (hh_left m) (xs ++ [x])) (fun c => window_mean (hh_win m) (hh_logs m (hh_left m) (xs ++ [x]) c))
      (fun c d => hmm_output (hcl m c) (hh_weight m (hh_left m) (xs ++ [x]) c) (h_like (hc_run (hcl m' c))) x d) (hh_res m').
Proof. intros m HU HF HL xs x HX. destruct (hh_filters_report m m HU (hh_same_refl m HU) HF HL xs x HX) as (m' & E & AT & CR & _ & TR). exists m'. auto. Qed.
Print Assumptions C77_filtering.
(** The normalised likelihoods are the posterior probabilities of the classes. *)
Theorem C77_posterior : forall m, hh_usable m -> hh_fresh m -> (forall c, (c < hh_size m)%nat -> 0 <= left_over m (hh_left m) c) ->
  forall xs x, Forall (fun x => length x = hh_obs_dim m) (xs ++ [x]) -> (xs <> [] \/ forall c, (c < hh_size m)%nat -> hc_mode (hcl m c) = LeftRight) ->
  exists m', hh_filters (A := RA) (xs ++ [x]) m = Ok m' /\ rs_instn (hh_res m') = tab (hh_size m) (hh_class m (xs ++ [x])) /\
    ((forall c, (c < hh_size m)%nat -> hc_mode (hcl m c) = LeftRight) -> Rlsum (rs_inst (hh_res m')) = hh_lik m (xs ++ [x])).
Proof.
  intros m HU HF HL xs x HX HE. destruct (C77_filtering m HU HF HL xs x HX) as (m' & E & _ & _ & TR). exists m'. split; [exact E|]. destruct TR as (b & _ & _ & RI & _ & _ & RN & _). assert (Hne : xs ++ [x] <> []) by (destruct xs; discriminate). split.
  - rewrite RN. apply tab_ext. intros c Hc. apply class_posterior; auto. destruct HE as [HE|HE]; [left|right; exact HE]. destruct xs; [contradiction|cbn; rewrite app_length; cbn; lia].
  - intro LR. rewrite RI, Rlsum_tab. apply inst_total; assumption.
Qed.
Print Assumptions C77_posterior.
Example C77_meets : forall bim t est, let m := kx_two bim t est true true in hh_usable m /\ hh_fresh m /\ (forall c, (c < hh_size m)%nat -> 0 <= left_over m (hh_left m) c) /\
  Forall (fun x => length x = hh_obs_dim m) ([[0]; [1]] ++ [[5]]) /\ [[0]; [1]] <> [] /\ (t = LeftRight -> forall c, (c < hh_size m)%nat -> hc_mode (hcl m c) = LeftRight).
Proof. intros bim t est m. split; [apply two_usable|]. split; [apply two_fresh|]. split; [apply two_left|]. split; [apply two_frames|]. split; [discriminate|]. intros <-. apply two_mode. Qed.

(** C78 *)
Theorem C78_bounded : forall m B, hh_usable m -> hh_top_proper m -> (forall c, (c < hh_size m)%nat -> hc_mode (hcl m c) = LeftRight) -> (forall c j, (c < hh_size m)%nat -> (j < hc_n (hcl m c))%nat -> outflow (hcl m c) j <= 1) ->
  forall xs x, (forall c k, (c < hh_size m)%nat -> (k < hc_n (hcl m c))%nat -> mix_lik (state_at (hcl m c) k) x <= B) -> hh_lik m (xs ++ [x]) <= B.
Proof. intros m B HU. apply lik_bounded, HU. Qed.
Print Assumptions C78_bounded.
(** Classes whose transitions and exit probability sum to one in each state. *)
Definition kx_even (e : restim) (y0 y1 : R) : hclass RA := hc_set_net (nt_trans (A := RA) [/ 2; / 2; 9 / 10; 0] (hc_net (kx_class false LeftRight e true 0 y0 y1))) (kx_class false LeftRight e true 0 y0 y1).
Example C78_meets : forall est, let m := kx_model false est true [("a"%string, kx_even RFull 0 4); ("b"%string, kx_even RWindowed 6 7)] in hh_usable m /\ hh_top_proper m /\ (forall c, (c < hh_size m)%nat -> hc_mode (hcl m c) = LeftRight) /\
  (forall c j, (c < hh_size m)%nat -> (j < hc_n (hcl m c))%nat -> outflow (hcl m c) j <= 1) /\ (forall c k, (c < hh_size m)%nat -> (k < hc_n (hcl m c))%nat -> mix_lik (state_at (hcl m c) k) [1] <= 1).
Proof.
  intros est m. set (cls := kx_cls false LeftRight true). assert (TP : hh_top_ok m /\ hh_top_proper m).
  { split; [exact (kx_top false est cls _ ltac:(discriminate) (kx_nodup _ _ _) (kx_two_ok _ _ _) true)|exact (kx_proper false est cls _ ltac:(discriminate) (kx_nodup _ _ _) (kx_two_ok _ _ _) true)]. }
  assert (C2 : forall c, (c < hh_size m)%nat -> c = 0%nat \/ c = 1%nat) by (intros c Hc; cbn in Hc; lia).
  assert (IN : forall e y0 y1, hclass_in m (kx_even e y0 y1)).
  { intros e y0 y1. destruct (kx_hmm false LeftRight e true 0 y0 y1) as (U1 & U2 & U3 & U4 & U5 & U6). split.
    - split; [exact U1|]. split; [exact U2|]. split; [exact U3|]. split; [|split; [discriminate|exact U6]]. split; [reflexivity|]. pose proof min_row_small.
      split; [intros q; cbn; do 5 (destruct q; cbn; [lra|]); destruct q; cbn; lra|]. intros i Hi. assert (min_row <= 9 / 10).
      { unfold min_row. apply Rmult_le_reg_l with (10 ^ 100); [apply pow_lt; lra|]. rewrite Rinv_r by (apply pow_nonzero; lra). assert (10 <= 10 ^ 100) by (change 100%nat with (S 99); cbn [pow]; assert (1 <= 10 ^ 99) by (apply pow_R1_Rle; lra); lra). lra. }
      assert (i = 0%nat \/ i = 1%nat) as [|] by (cbn in Hi; lia); subst i; cbn; lra.
    - do 4 (split; [reflexivity|]). split; [reflexivity|]. split; [intros k Hk; assert (k = 0%nat \/ k = 1%nat) as [|] by (cbn in Hk; lia); subst k; unfold exit_at; cbn; lra|]. split; [intros _; cbn; lra|reflexivity]. }
  split; [|split; [exact (proj2 TP)|split; [|split]]].
  - split; [cbn; lia|]. split; [exact (kx_nodup false LeftRight true)|]. split; [constructor; [apply IN|constructor; [apply IN|constructor]]|]. split; [exact (proj1 TP)|discriminate].
  - intros c Hc. destruct (C2 c Hc); subst c; reflexivity.
  - intros c j Hc Hj. destruct (C2 c Hc); subst c; (assert (j = 0%nat \/ j = 1%nat) as [|] by (cbn in Hj; lia); subst j; unfold outflow, inner, exit_at; cbn; lra).
  - intros c k Hc Hk. assert (G : forall y, mix_lik (kx_state false y) [1] <= 1).
    { intro y. rewrite kx_lik. pose proof sqrt_2pi as (Q & _). pose proof min_lik_small. apply Rmax_lub; [lra|]. assert (exp (- / 2 * ((1 - y) * (1 - y))) <= 1) by (pose proof (Rle_0_sqr (1 - y)) as SQ; unfold Rsqr in SQ; destruct (Rle_lt_or_eq_dec _ _ SQ) as [L|L]; [apply Rle_trans with (exp 0); [left; apply exp_increasing; lra|rewrite exp_0; lra]|rewrite <- L, Rmult_0_r, exp_0; lra]).
      apply Rmult_le_reg_r with (sqrt (2 * PI)); [lra|]. unfold Rdiv. rewrite Rmult_assoc, Rinv_l by lra. lra. }
    destruct (C2 c Hc); subst c; (assert (k = 0%nat \/ k = 1%nat) as [|] by (cbn in Hk; lia); subst k; apply G).
Qed.
(** As training leaves the classes, the rows sum to one and the exit probability of the last state comes on
    top of them: with equal densities, the likelihood is above the density. *)
Theorem C78_gain : forall m B xs x, hh_usable m -> xs <> [] -> hh_top_proper m -> (forall c, (c < hh_size m)%nat -> trained_lr (hcl m c) /\ (2 <= hc_n (hcl m c))%nat) ->
  (forall c k, (c < hh_size m)%nat -> (k < hc_n (hcl m c))%nat -> mix_lik (state_at (hcl m c) k) x = B) ->
  hh_lik m (xs ++ [x]) = B * (1 + / 9 * Rsum (hh_size m) (fun c => hh_filtering m xs c (hc_n (hcl m c) - 1) 0)).
Proof. exact lik_gain. Qed.
Print Assumptions C78_gain.
Example C78_gain_meets : forall y, let m := kx_one y y in hh_usable m /\ hh_top_proper m /\ (forall c, (c < hh_size m)%nat -> trained_lr (hcl m c) /\ (2 <= hc_n (hcl m c))%nat) /\
  (forall c k, (c < hh_size m)%nat -> (k < hc_n (hcl m c))%nat -> mix_lik (state_at (hcl m c) k) [y] = mix_lik (kx_state false y) [y]).
Proof.
  intros y m. split; [apply kx_one_usable|]. split; [eapply kx_proper; [discriminate|constructor; [intros []|constructor]|apply kx_one_ok]|]. assert (C1 : forall c, (c < hh_size m)%nat -> c = 0%nat) by (intros c Hc; cbn in Hc; lia).
  split; [intros c Hc; rewrite (C1 c Hc); split; [apply kx_trained|cbn; lia]|]. intros c k Hc Hk. rewrite (C1 c Hc) in *. assert (k = 0%nat \/ k = 1%nat) as [|] by (cbn in Hk; lia); subst k; reflexivity.
Qed.
(** The whole weight of going on from a state. *)
Theorem C78_weights : forall (h : hclass RA) j, (1 <= hc_n h)%nat -> (j < hc_n h)%nat ->
  (trained_lr h -> outflow h j = if Nat.eqb j (hc_n h - 1) && (1 <? hc_n h)%nat then 10 / 9 else 1) /\
  (stochastic (hc_n h) (hc_mode h) (h_trans (hc_net h)) -> hc_mode h = Ergodic -> outflow h j = 1 / (1 - exit_at h j)).
Proof. intros h j HN Hj. split; [intro H; apply outflow_lr; assumption|intros HS HM; apply (outflow_ergodic h j _ HS HM Hj eq_refl)]. Qed.
Print Assumptions C78_weights.
Example C78_weights_meets : trained_lr (kx_class true LeftRight RFull true 0 0 4) /\ let h := kx_class true Ergodic RFull true 0 0 4 in stochastic (hc_n h) (hc_mode h) (h_trans (hc_net h)) /\ 1 / (1 - exit_at h 1) = 10 / 9.
Proof. split; [apply kx_trained|]. split; [apply kx_stochastic|]. unfold exit_at. cbn. lra. Qed.
Theorem C78_refuted : forall y, let m := kx_one y y in let B := mix_lik (kx_state false y) [y] in hh_usable m /\ (forall c, (c < hh_size m)%nat -> trained_lr (hcl m c)) /\
  (forall c k, (c < hh_size m)%nat -> (k < hc_n (hcl m c))%nat -> mix_lik (state_at (hcl m c) k) [y] = B) /\ B < hh_lik m [[y]; [y]; [y]].
Proof. intros y m B. destruct (C78_gain_meets y) as (A & _ & T & L). split; [exact A|]. split; [intros c Hc; apply (T c Hc)|]. split; [exact L|apply lik_above]. Qed.
Print Assumptions C78_refuted.

(** C79 *)
Theorem C79_refuted : forall m, hn_usable m -> Forall (fun e : string * hclass RA => hc_hier (snd e) = true /\ ring_wf 1 (h_buf (hc_run (snd e)))) (hh_cls m) -> Exists (fun e : string * hclass RA => hc_mode (snd e) = Ergodic) (hh_cls m) ->
  exists m', hh_reset (A := RA) m = Ok m' /\ forall x, length x = hh_obs_dim m -> hh_filter (A := RA) x m' = UB.
Proof. exact hn_ergodic_ub. Qed.
Print Assumptions C79_refuted.
Example C79_meets : forall bim est, let m := kx_two bim Ergodic est false true in hn_usable m /\ Forall (fun e : string * hclass RA => hc_hier (snd e) = true /\ ring_wf 1 (h_buf (hc_run (snd e)))) (hh_cls m) /\ Exists (fun e : string * hclass RA => hc_mode (snd e) = Ergodic) (hh_cls m).
Proof. intros bim est m. split; [eapply kx_hn; [discriminate|apply kx_nodup|apply kx_two_ok]|]. split; [repeat (constructor; [split; [reflexivity|apply ring_new_wf; cbn; lia]|]); constructor|]. constructor. reflexivity. Qed.
(** LeftRight classes: the same steps give a filter that goes on for any observations. *)
Theorem C79_leftright : forall m, hn_resettable m -> forall xs, Forall (fun x => length x = hh_obs_dim m) xs -> exists m' m'', hh_reset (A := RA) m = Ok m' /\ hh_filters (A := RA) xs m' = Ok m''.
Proof.
  intros m H xs D. destruct (hn_reset_lr m H) as (m' & E & SP & U & F). destruct SP as (_ & _ & _ & OD & _). destruct (hn_filters_report m' U F xs) as (m'' & E2 & _); [rewrite OD; exact D|]. exists m', m''. auto.
Qed.
Print Assumptions C79_leftright.
Example C79_leftright_meets : forall bim est flag, let m := kx_two bim LeftRight est false flag in hn_resettable m /\ Forall (fun x => length x = hh_obs_dim m) [[0]; [1]; [5]].
Proof. intros bim est flag m. split; [apply kx_hn_resettable; [discriminate|apply kx_nodup|eapply kx_weaken; [|apply kx_two_ok]; intros ? ? (-> & _); reflexivity]|apply two_frames]. Qed.
