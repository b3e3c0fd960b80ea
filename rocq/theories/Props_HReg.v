(** Properties of regression in hierarchical mode: C101. *)
From Coq Require Import String List Bool Arith ZArith QArith Reals Lra Lia.
From Verif Require Import Base BaseFacts Arith RFacts Model_Map Model_Ring Model_Gaussian Model_Config Model_KMeans Model_GMM Model_HMM Model_HHMM
  Spec_Common Spec_Matrix Spec_Gaussian Spec_GMM Spec_HMM Spec_HHMM Spec_HHMM2 Spec_HReg
  Proofs_GMM Proofs_GMM3 Proofs_HHMM Proofs_HHMM4 Proofs_HHMM5 Proofs_HHMM6 Proofs_HHMM7 Proofs_HReg Ex_HHMM Props_HHMM.
Import ListNotations.
Local Open Scope list_scope.
Local Open Scope R_scope.

(** C101 *)
(** With the Windowed estimator (two states or more) and the Likeliest estimator, the outputs are between the
    learned ones. *)
Theorem C101_hull : forall m, hh_usable m -> hh_fresh m -> (forall c, (c < hh_size m)%nat -> 0 <= left_over m (hh_left m) c) -> hh_bim m = true ->
  (forall c, (c < hh_size m)%nat -> hcl_est m c <> RFull /\ (hcl_est m c = RWindowed -> (2 <= hc_n (hcl m c))%nat)) ->
  forall xs x, Forall (fun x => length x = hh_obs_dim m) (xs ++ [x]) -> exists m', hh_filters (A := RA) (xs ++ [x]) m = Ok m' /\
    forall d lo hi, (d < hh_dim m - hh_din m)%nat -> learned_in m x d lo hi ->
      (forall c, (c < hh_size m)%nat -> lo <= class_value m' c d <= hi) /\ lo <= model_value m' d <= hi.
Proof.
  intros m HU HF HL HB HE xs x HX. destruct (C77_filtering m HU HF HL xs x HX) as (m' & E & _ & CR & b & FM & _ & _ & _ & _ & _ & _ & RO). exists m'. split; [exact E|]. intros d lo hi Hd LI.
  assert (Hne : xs ++ [x] <> []) by (destruct xs; discriminate).
  assert (O : forall c, (c < hh_size m)%nat -> lo <= hmm_output (hcl m c) (hh_weight m (hh_left m) (xs ++ [x]) c) (h_like (hc_run (hcl m' c))) x d <= hi).
  { intros c Hc. destruct (CR c Hc) as (_ & _ & F & _). destruct (HE c Hc). apply (output_hull m HU (hh_left m) HL (xs ++ [x]) Hne); assumption. }
  split.
  - intros c Hc. destruct (CR c Hc) as (_ & _ & _ & _ & _ & V). destruct (V HB) as (_ & VO). unfold class_value. rewrite (VO d Hd). apply O. exact Hc.
  - destruct (RO HB) as (_ & VO). unfold model_value. rewrite (VO d Hd). destruct (hh_est m); [apply O; apply FM|]. apply convex_bounds; [|exact O].
    apply (smooth_dist (hh_size m) (fun c => exp (window_mean (hh_win m) (hh_logs m (hh_left m) (xs ++ [x]) c)))); [apply HU|intros; apply exp_pos].
Qed.
Print Assumptions C101_hull.

(** With the Full estimator, which is the default, a class gives its output multiplied by a factor [W c]; the
    factors of all the classes sum to at most 1, so each is less than 1 if there are several classes.  The
    output of the model is multiplied by such a factor too. *)
Theorem C101_full : forall m, hh_usable m -> hh_fresh m -> (forall c, (c < hh_size m)%nat -> 0 <= left_over m (hh_left m) c) -> hh_bim m = true ->
  (forall c, (c < hh_size m)%nat -> hcl_est m c = RFull) ->
  forall xs x, Forall (fun x => length x = hh_obs_dim m) (xs ++ [x]) -> exists m' W V, hh_filters (A := RA) (xs ++ [x]) m = Ok m' /\
    (forall c, (c < hh_size m)%nat -> 0 < W c) /\ Rsum (hh_size m) W <= 1 /\ 0 < V /\ ((2 <= hh_size m)%nat -> (forall c, (c < hh_size m)%nat -> W c < 1) /\ V < 1) /\
    forall d lo hi, (d < hh_dim m - hh_din m)%nat -> learned_in m x d lo hi ->
      (forall c, (c < hh_size m)%nat -> W c * lo <= class_value m' c d <= W c * hi) /\ V * lo <= model_value m' d <= V * hi.
Proof.
  intros m HU HF HL HB HE xs x HX. destruct (C77_filtering m HU HF HL xs x HX) as (m' & E & _ & CR & b & FM & _ & _ & _ & _ & _ & _ & RO). set (ys := xs ++ [x]) in *.
  assert (Hne : ys <> []) by (unfold ys; destruct xs; discriminate). assert (Hn : (1 <= hh_size m)%nat) by apply HU.
  set (W := fun c => Rsum (hc_n (hcl m c)) (hh_weight m (hh_left m) ys c)).
  set (e := fun c => exp (window_mean (hh_win m) (hh_logs m (hh_left m) ys c))).
  destruct (smooth_dist (hh_size m) e Hn ltac:(intros; apply exp_pos)) as (DP & PP).
  assert (WP : forall c, (c < hh_size m)%nat -> 0 < W c) by (intros c Hc; apply (kept_pos m HU (hh_left m) HL ys Hne c Hc)).
  assert (WL : (2 <= hh_size m)%nat -> forall c, (c < hh_size m)%nat -> W c < 1) by (intros H2 c Hc; apply (kept_lt m HU (hh_left m) HL ys Hne H2 c Hc)).
  set (V := match hh_est m with Likeliest => W b | Mixture => Rsum (hh_size m) (fun c => e c / Rsum (hh_size m) e * W c) end).
  destruct (mean_open (hh_size m) _ W Hn DP PP WP) as (MP & ML).
  assert (Hb : (b < hh_size m)%nat) by apply FM.
  exists m', W, V. split; [exact E|]. split; [exact WP|]. split; [apply (kept_total m HU (hh_left m) HL ys Hne)|].
  split; [unfold V; destruct (hh_est m); [apply WP; exact Hb|exact MP]|].
  split; [intro H2; split; [apply WL; exact H2|]; unfold V; destruct (hh_est m); [apply WL; assumption|apply ML; apply WL; exact H2]|].
  intros d lo hi Hd LI.
  assert (O : forall c, (c < hh_size m)%nat -> W c * lo <= hmm_output (hcl m c) (hh_weight m (hh_left m) ys c) (h_like (hc_run (hcl m' c))) x d <= W c * hi).
  { intros c Hc. apply (output_full m HU (hh_left m) HL ys Hne); auto. }
  split.
  - intros c Hc. destruct (CR c Hc) as (_ & _ & _ & _ & _ & VV). destruct (VV HB) as (_ & VO). unfold class_value. rewrite (VO d Hd). apply O. exact Hc.
  - destruct (RO HB) as (_ & VO). unfold model_value. rewrite (VO d Hd). unfold V. destruct (hh_est m); [apply O; exact Hb|]. fold e.
    change (fun d0 => exp (window_mean (hh_win m) (hh_logs m (hh_left m) ys d0))) with e.
    rewrite <- !Rsum_scal_r. split; apply Rsum_le; intros c Hc; destruct (O c Hc) as (O1 & O2); rewrite Rmult_assoc; (apply Rmult_le_compat_l; [left; apply PP; exact Hc|assumption]).
Qed.
Print Assumptions C101_full.

(** So when all the classes learned the same value [v] for an output, no class and not even the model gives it:
    the outputs are strictly between 0 and [v], and those of the classes sum to at most [v]. *)
Theorem C101_full_refuted : forall m, hh_usable m -> hh_fresh m -> (forall c, (c < hh_size m)%nat -> 0 <= left_over m (hh_left m) c) -> hh_bim m = true ->
  (forall c, (c < hh_size m)%nat -> hcl_est m c = RFull) -> (2 <= hh_size m)%nat ->
  forall xs x, Forall (fun x => length x = hh_obs_dim m) (xs ++ [x]) -> exists m', hh_filters (A := RA) (xs ++ [x]) m = Ok m' /\
    forall d v, (d < hh_dim m - hh_din m)%nat -> learned_in m x d v v -> 0 < v ->
      (forall c, (c < hh_size m)%nat -> 0 < class_value m' c d < v) /\ Rsum (hh_size m) (fun c => class_value m' c d) <= v /\ 0 < model_value m' d < v.
Proof.
  intros m HU HF HL HB HE H2 xs x HX. destruct (C101_full m HU HF HL HB HE xs x HX) as (m' & W & V & E & WP & WS & VP & LT & H). exists m'. split; [exact E|]. destruct (LT H2) as (WL & VL). intros d v Hd LI Pv.
  destruct (H d v v Hd LI) as (HC & HM).
  assert (EC : forall c, (c < hh_size m)%nat -> class_value m' c d = W c * v) by (intros c Hc; specialize (HC c Hc); lra).
  assert (B : forall z, 0 < z -> z < 1 -> 0 < z * v < v) by (intros z Z0 Z1; split; [apply Rmult_lt_0_compat; assumption|rewrite <- (Rmult_1_l v) at 2; apply Rmult_lt_compat_r; assumption]).
  split; [intros c Hc; rewrite (EC c Hc); auto|]. split.
  - rewrite (Rsum_ext _ _ (fun c => W c * v)) by exact EC. rewrite Rsum_scal_r. rewrite <- (Rmult_1_l v) at 2. apply Rmult_le_compat_r; lra.
  - replace (model_value m' d) with (V * v) by lra. auto.
Qed.
Print Assumptions C101_full_refuted.

(** With the Windowed estimator, a class of one state always gives 0. *)
Theorem C101_one_state_refuted : forall m, hh_usable m -> hh_fresh m -> (forall c, (c < hh_size m)%nat -> 0 <= left_over m (hh_left m) c) -> hh_bim m = true ->
  forall xs x, Forall (fun x => length x = hh_obs_dim m) (xs ++ [x]) -> exists m', hh_filters (A := RA) (xs ++ [x]) m = Ok m' /\
    forall c d, (c < hh_size m)%nat -> (d < hh_dim m - hh_din m)%nat -> hcl_est m c = RWindowed -> hc_n (hcl m c) = 1%nat -> class_value m' c d = 0.
Proof.
  intros m HU HF HL HB xs x HX. destruct (C77_filtering m HU HF HL xs x HX) as (m' & E & _ & CR & _). exists m'. split; [exact E|]. intros c d Hc Hd HE H1.
  destruct (CR c Hc) as (_ & _ & _ & _ & _ & V). destruct (V HB) as (_ & VO). unfold class_value. rewrite (VO d Hd). unfold hmm_output. unfold hcl_est in HE. rewrite HE, H1. apply Rsum_zero.
  intros i Hi. unfold in_window. change (1 / 2)%nat with 0%nat. destruct (Nat.leb_spec (h_like (hc_run (hcl m' c))) (i + 0)), (Nat.ltb_spec i (h_like (hc_run (hcl m' c)) + 0)); cbn [andb]; try reflexivity; lia.
Qed.
Print Assumptions C101_one_state_refuted.

(** Two classes of two states that learned the same output. *)
Definition kr_cls (t : tmode) (e1 e2 : restim) (y0 y1 : R) : list (string * hclass RA) := [("a"%string, kx_class true t e1 true 0 y0 y1); ("b"%string, kx_class true t e2 true 1 y1 y0)].
Definition kr_two (t : tmode) (est : restimator) (e1 e2 : restim) (y0 y1 : R) : hhmm RA := kx_model true est true (kr_cls t e1 e2 y0 y1).
Lemma kr_ok : forall t e1 e2 y0 y1, Forall (fun e : string * hclass RA => kx_ok true (fun t' f => t' = t /\ f = true) (snd e)) (kr_cls t e1 e2 y0 y1).
Proof.
  intros. constructor; [|constructor; [|constructor]].
  - exists t, e1, true, 0, y0, y1. split; [reflexivity|]. split; [lra|auto].
  - exists t, e2, true, 1, y1, y0. split; [reflexivity|]. split; [lra|auto].
Qed.
Lemma kr_nodup : forall t e1 e2 y0 y1, NoDup (map fst (kr_cls t e1 e2 y0 y1)).
Proof. intros. cbn. constructor; [intros [E|[]]; discriminate|]. constructor; [intros []|constructor]. Qed.
Lemma kr_facts : forall t est e1 e2 y0 y1, let m := kr_two t est e1 e2 y0 y1 in hh_usable m /\ hh_fresh m /\ (forall c, (c < hh_size m)%nat -> 0 <= left_over m (hh_left m) c) /\ hh_bim m = true /\
  hh_size m = 2%nat /\ Forall (fun x => length x = hh_obs_dim m) ([[0]; [1]] ++ [[5]]) /\ (0 < hh_dim m - hh_din m)%nat.
Proof.
  intros t est e1 e2 y0 y1 m. split; [eapply kx_usable; [discriminate|apply kr_nodup|apply kr_ok]|].
  split; [apply kx_fresh; eapply kx_weaken; [|apply kr_ok]; intros ? ? (_ & ->); reflexivity|]. split; [intros c Hc; eapply kx_left; [apply kr_ok|exact Hc]|].
  split; [reflexivity|]. split; [reflexivity|]. split; [repeat constructor|cbn; lia].
Qed.
Lemma kr_learned : forall t est e1 e2 y0 y1 x, y0 <= y1 -> learned_in (kr_two t est e1 e2 y0 y1) x 0 (10 + y0) (10 + y1).
Proof.
  intros t est e1 e2 y0 y1 x H c k i Hc Hk Hi. change (hh_size (kr_two t est e1 e2 y0 y1)) with 2%nat in Hc.
  assert (c = 0%nat \/ c = 1%nat) as [|] by lia; subst c; cbn in Hk; assert (k = 0%nat \/ k = 1%nat) as [|] by lia; subst k; cbn in Hi; assert (i = 0%nat) by lia; subst i;
    unfold comp_out, cond_mean, comp_at, gmean; cbn; unfold gcov, stored; cbn; lra.
Qed.
Example C101_hull_meets : forall t est, let m := kr_two t est RWindowed RLikeliest 0 4 in hh_usable m /\ hh_fresh m /\ (forall c, (c < hh_size m)%nat -> 0 <= left_over m (hh_left m) c) /\ hh_bim m = true /\
  (forall c, (c < hh_size m)%nat -> hcl_est m c <> RFull /\ (hcl_est m c = RWindowed -> (2 <= hc_n (hcl m c))%nat)) /\ Forall (fun x => length x = hh_obs_dim m) ([[0]; [1]] ++ [[5]]) /\
  (0 < hh_dim m - hh_din m)%nat /\ learned_in m [5] 0 10 14.
Proof.
  intros t est m. destruct (kr_facts t est RWindowed RLikeliest 0 4) as (H1 & H2 & H3 & H4 & H5 & H6 & H7). repeat (split; [assumption|]).
  split; [intros c Hc; assert (c = 0%nat \/ c = 1%nat) as [|] by (fold m in H5; lia); subst c; cbn; split; try discriminate; lia|]. split; [exact H6|]. split; [exact H7|].
  pose proof (kr_learned t est RWindowed RLikeliest 0 4 [5] ltac:(lra)) as L. replace 10 with (10 + 0) by ring. replace 14 with (10 + 4) by ring. exact L.
Qed.
Example C101_full_meets : forall t est, let m := kr_two t est RFull RFull 2 2 in hh_usable m /\ hh_fresh m /\ (forall c, (c < hh_size m)%nat -> 0 <= left_over m (hh_left m) c) /\ hh_bim m = true /\
  (forall c, (c < hh_size m)%nat -> hcl_est m c = RFull) /\ (2 <= hh_size m)%nat /\ Forall (fun x => length x = hh_obs_dim m) ([[0]; [1]] ++ [[5]]) /\
  (0 < hh_dim m - hh_din m)%nat /\ learned_in m [5] 0 12 12.
Proof.
  intros t est m. destruct (kr_facts t est RFull RFull 2 2) as (H1 & H2 & H3 & H4 & H5 & H6 & H7). repeat (split; [assumption|]).
  split; [intros c Hc; assert (c = 0%nat \/ c = 1%nat) as [|] by (fold m in H5; lia); subst c; reflexivity|]. split; [fold m in H5; lia|]. split; [exact H6|]. split; [exact H7|].
  pose proof (kr_learned t est RFull RFull 2 2 [5] ltac:(lra)) as L. replace 12 with (10 + 2) by ring. exact L.
Qed.
(** A class of one state beside one of two. *)
Definition ko_class (y : R) : hclass RA :=
  mkHC (A := RA) true 2 1 2 (mkHmmP (A := RA) 1 1 0 1 Diagonal LeftRight RWindowed true) true (mkNet (A := RA) [kx_state true y] [] [1; 0] [/ 10])
    (mkRun (A := RA) [0] [] [] [] false (ring_new (0 : num RA) 1 2) 0 0 0 0 0 0 0 0 0 [] []).
Definition ko_model (est : restimator) : hhmm RA := kx_model true est true [("a"%string, ko_class 3); ("b"%string, kx_class true LeftRight RFull true 0 0 4)].
Example C101_one_state_meets : forall est, let m := ko_model est in hh_usable m /\ hh_fresh m /\ (forall c, (c < hh_size m)%nat -> 0 <= left_over m (hh_left m) c) /\ hh_bim m = true /\
  Forall (fun x => length x = hh_obs_dim m) ([[0]; [1]] ++ [[5]]) /\ (0 < hh_size m)%nat /\ (0 < hh_dim m - hh_din m)%nat /\ hcl_est m 0 = RWindowed /\ hc_n (hcl m 0) = 1%nat /\
  comp_out (comp_at (state_at (hcl m 0) 0) 0) [5] 0 = 13.
Proof.
  intros est m.
  assert (Z : forall i, (i < 2)%nat -> i = 0%nat \/ i = 1%nat) by (intros; lia).
  assert (KO : hmm_usable (ko_class 3)).
  { unfold hmm_usable. split; [cbn; lia|]. split; [reflexivity|].
    split; [constructor; [|constructor]; split; [apply kx_ready|]; do 5 (split; [reflexivity|]); exists 1%nat, []; split; [lia|]; exists (ring_new (0 : num RA) 1 1); split; [apply Proofs_Ring.ring_new_wf|split; reflexivity]|].
    split; [|split; [discriminate|cbn; lia]]. split; [reflexivity|]. split; [intros q; do 3 (destruct q; cbn; [lra|]); destruct q; cbn; lra|].
    intros i Hi. cbn in Hi. assert (i = 0%nat) by lia. subst i. cbn. pose proof min_row_small. lra. }
  split.
  { split; [cbn; lia|]. split; [cbn; constructor; [intros [E|[]]; discriminate|]; constructor; [intros []|constructor]|]. split; [|split; [|cbn; lia]].
    - constructor; [|constructor; [|constructor]]; cbn [snd]; unfold hclass_in.
      + split; [exact KO|]. do 5 (split; [reflexivity|]). split; [intros k Hk; cbn in Hk; assert (k = 0%nat) by lia; subst k; cbn; lra|]. split; [cbn; lra|reflexivity].
      + split; [apply kx_hmm|]. do 5 (split; [reflexivity|]). split; [intros k Hk; destruct (Z k Hk); subst k; cbn; lra|]. split; [cbn; lra|reflexivity].
    - unfold hh_top_ok. cbv zeta. change (hh_size m) with 2%nat. split; [reflexivity|]. split; [intros c Hc; destruct (Z c Hc); subst c; cbn; lra|]. split; [reflexivity|].
      split; [intros c Hc; destruct (Z c Hc); subst c; (split; [reflexivity|]); intros d Hd; destruct (Z d Hd); subst d; cbn; lra|]. split; [reflexivity|]. intros c Hc. destruct (Z c Hc); subst c; cbn; lra. }
  split.
  { do 2 (split; [reflexivity|]). split; [unfold results_sized; repeat split|]. do 2 (split; [reflexivity|]). constructor; [|constructor; [|constructor]]; (split; [reflexivity|apply kx_window]). }
  split; [intros c Hc; destruct (Z c Hc); subst c; unfold left_over; cbn; lra|]. split; [reflexivity|]. split; [repeat constructor|]. split; [cbn; lia|]. split; [cbn; lia|]. do 2 (split; [reflexivity|]).
  unfold comp_out, cond_mean, comp_at, gmean; cbn; unfold gcov, stored; cbn; lra.
Qed.
