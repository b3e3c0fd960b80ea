(** C107: the output covariances of mixtures. *)
From Coq Require Import String List Bool Arith ZArith Reals Lra Lia.
From Verif Require Import Base Arith BaseFacts RFacts Model_Map Model_Ring Model_Gaussian Model_Config Model_GMM
  Proofs_GMM Proofs_GMM3 Proofs_GMM4 Spec_Common Spec_Matrix Spec_Gaussian Spec_GMM Spec_OCov Proofs_OCov Proofs_OCov2 Props_GMM.
Import ListNotations.
Local Open Scope list_scope.
Local Open Scope R_scope.

(** The covariances of each class are those of its output. *)
Theorem C107_classes : forall (m : gmm RA) xs x, model_usable m -> gm_bim m = true -> Forall (fun x => length x = gm_din m) (xs ++ [x]) ->
  exists m0 m', gm_reset m = Ok m0 /\ foldM (fun m x => gm_filter (A := RA) x m) (xs ++ [x]) m0 = Ok m' /\
    forall i, (i < length (gm_models m))%nat -> label_at m' i = label_at m i /\
      forall j, (j < csize (gc_mode (class_at m i)) (gm_dim m - gm_din m))%nat -> nth j (gc_ocov (class_at m' i)) 0 = class_ocov (class_at m i) x j.
Proof. intros m xs x U B F. destruct (filters_gcov m xs x U B F) as (m0 & m' & E0 & E & _ & C & _). exists m0, m'. split; [exact E0|]. split; [exact E|exact C]. Qed.
Print Assumptions C107_classes.

(** With the Likeliest estimator, the model reports those of the class whose output it reports. *)
Theorem C107_likeliest : forall (m : gmm RA) xs x, model_usable m -> gm_bim m = true -> gm_est m = Likeliest -> Forall (fun x => length x = gm_din m) (xs ++ [x]) ->
  exists m0 m', gm_reset m = Ok m0 /\ foldM (fun m x => gm_filter (A := RA) x m) (xs ++ [x]) m0 = Ok m' /\
    exists b, first_max (length (gm_models m)) (fun i => nth i (rs_log (gm_res m')) 0) b /\
      (forall d, (d < gm_dim m - gm_din m)%nat -> nth d (rs_out (gm_res m')) 0 = class_out (class_at m b) x d) /\
      length (rs_ocov (gm_res m')) = csize (gc_mode (class_at m b)) (gm_dim m - gm_din m) /\
      forall j, (j < csize (gc_mode (class_at m b)) (gm_dim m - gm_din m))%nat -> nth j (rs_ocov (gm_res m')) 0 = class_ocov (class_at m b) x j.
Proof.
  intros m xs x U B HE F. destruct (filters_gcov m xs x U B F) as (m0 & m' & E0 & E & RP & C & M). rewrite HE in M. exists m0, m'. split; [exact E0|]. split; [exact E|].
  destruct RP as (_ & _ & _ & _ & _ & b & FM & LK & RO). destruct (RO B) as (_ & VO). pose proof (proj1 FM) as Hb. destruct (M b Hb LK) as (M1 & M2). exists b. split; [exact FM|].
  split; [intros d Hd; rewrite (VO d Hd), HE; reflexivity|]. split; [exact M2|]. intros j Hj. rewrite M1. apply (C b Hb). exact Hj.
Qed.
Print Assumptions C107_likeliest.

(** With the Mixture estimator, the covariances are weighted like the outputs, without squaring the weights:
    with two classes or more, the reported variances are always larger than those of the output. *)
Theorem C107_mixture_refuted : forall (m : gmm RA) xs x, model_usable m -> gm_bim m = true -> gm_est m = Mixture -> Forall (fun x => length x = gm_din m) (xs ++ [x]) ->
  exists m0 m', gm_reset m = Ok m0 /\ foldM (fun m x => gm_filter (A := RA) x m) (xs ++ [x]) m0 = Ok m' /\
    let n := length (gm_models m) in let p := fun i => nth i (rs_smn (gm_res m')) 0 in distribution n p /\
    (forall d, (d < gm_dim m - gm_din m)%nat -> nth d (rs_out (gm_res m')) 0 = Rsum n (fun i => p i * class_out (class_at m i) x d)) /\
    length (rs_ocov (gm_res m')) = csize (gm_cmode m) (gm_dim m - gm_din m) /\
    forall j, (j < csize (gm_cmode m) (gm_dim m - gm_din m))%nat -> nth j (rs_ocov (gm_res m')) 0 = Rsum n (fun i => p i * class_ocov (class_at m i) x j) /\
      ((2 <= n)%nat -> (forall i, (i < n)%nat -> 0 < class_ocov (class_at m i) x j) -> comb_var n p (fun i => class_ocov (class_at m i) x j) < nth j (rs_ocov (gm_res m')) 0).
Proof.
  intros m xs x U B HE F. destruct (filters_gcov m xs x U B F) as (m0 & m' & E0 & E & RP & C & M). rewrite HE in M. exists m0, m'. split; [exact E0|]. split; [exact E|]. cbv zeta.
  destruct (report_dist m xs x (gm_res m') U RP) as (_ & D2). pose proof RP as (_ & _ & R3 & _ & R5 & b & FM & _ & RO). destruct (RO B) as (_ & VO). split; [exact D2|].
  split; [intros d Hd; rewrite (VO d Hd), HE; reflexivity|]. destruct M as (M1 & M2). split; [exact M1|]. intros j Hj. split; [exact (M2 j Hj)|]. intros Hn HP. rewrite (M2 j Hj). set (n := length (gm_models m)) in *.
  assert (PP : forall i, (i < n)%nat -> 0 < nth i (rs_smn (gm_res m')) 0).
  { intros i Hi. rewrite (R5 i Hi). apply Rdiv_lt_0_compat; [rewrite (R3 i Hi); apply exp_pos|]. apply Rsum_pos; [lia|]. intros k Hk. rewrite (R3 k Hk). apply exp_pos. }
  unfold comb_var. apply Rminus_gt_0_lt. rewrite <- Rsum_minus. apply Rsum_pos; [lia|]. intros i Hi.
  assert (P1 : nth i (rs_smn (gm_res m')) 0 < 1).
  { destruct D2 as (D2 & D3). set (k := if (i =? 0)%nat then 1%nat else 0%nat). assert (Hk : (k < n)%nat /\ k <> i) by (unfold k; destruct (Nat.eqb_spec i 0); lia). destruct Hk as (Hk & Nk).
    assert (X : Rsum n (fun c => nth c (rs_smn (gm_res m')) 0 - (if (c =? i)%nat then 1 else 0) * nth c (rs_smn (gm_res m')) 0) = 1 - nth i (rs_smn (gm_res m')) 0).
    { rewrite Rsum_minus, D3. f_equal. apply (Rsum_delta n i (fun c => nth c (rs_smn (gm_res m')) 0) Hi). }
    assert (Y : nth k (rs_smn (gm_res m')) 0 <= 1 - nth i (rs_smn (gm_res m')) 0).
    { rewrite <- X. eapply Rle_trans; [|apply (Rsum_term_le n _ k); [|exact Hk]].
      - cbv beta. apply Nat.eqb_neq in Nk. rewrite Nk. lra.
      - intros c Hc. specialize (D2 c Hc). cbv beta. destruct (c =? i)%nat; lra. }
    specialize (PP k Hk). lra. }
  specialize (PP i Hi). specialize (HP i Hi). replace (nth i (rs_smn (gm_res m')) 0 * class_ocov (class_at m i) x j - nth i (rs_smn (gm_res m')) 0 * nth i (rs_smn (gm_res m')) 0 * class_ocov (class_at m i) x j) with (nth i (rs_smn (gm_res m')) 0 * (1 - nth i (rs_smn (gm_res m')) 0) * class_ocov (class_at m i) x j) by ring.
  apply Rmult_lt_0_compat; [apply Rmult_lt_0_compat; lra|exact HP].
Qed.
Print Assumptions C107_mixture_refuted.

(** The variances of a class are positive if those of its components are. *)
Lemma class_ocov_pos : forall g x j, gm_shape g -> distribution (gc_n g) (posterior g x) -> (forall c, (c < gc_n g)%nat -> 0 < nth j (g_out (comp_at g c)) 0) -> 0 < class_ocov g x j.
Proof.
  intros g x j (H1 & _) (D1 & D2) P. unfold class_ocov, comb_var.
  set (T := fun c => posterior g x c * posterior g x c * nth j (g_out (comp_at g c)) 0).
  assert (T0 : forall c, (c < gc_n g)%nat -> 0 <= T c) by (intros c Hc; unfold T; specialize (P c Hc); apply Rmult_le_pos; [apply Rle_0_sqr|lra]).
  destruct (Rle_lt_dec (Rsum (gc_n g) T) 0) as [Z|Z]; [|exact Z]. exfalso.
  assert (Z0 : Rsum (gc_n g) (posterior g x) = Rsum (gc_n g) (fun _ => 0)).
  { apply Rsum_ext. intros c Hc. pose proof (Rsum_term_le (gc_n g) T c T0 Hc) as Q. assert (QT : T c <= 0) by lra. unfold T in QT. specialize (P c Hc). specialize (D1 c Hc).
    destruct (Rle_lt_or_eq_dec _ _ D1) as [G|G]; [|symmetry; exact G]. exfalso. assert (0 < posterior g x c * posterior g x c * nth j (g_out (comp_at g c)) 0) by (apply Rmult_lt_0_compat; [apply Rmult_lt_0_compat; exact G|exact P]). lra. }
  rewrite D2 in Z0. assert (Rsum (gc_n g) (fun _ => 0) = 0) by (clear; induction (gc_n g) as [|n IH]; cbn [Rsum]; [reflexivity|rewrite IH; lra]). lra.
Qed.

Example C107_meets : forall est, model_usable (ex_model true est) /\ gm_bim (ex_model true est) = true /\ Forall (fun x => length x = gm_din (ex_model true est)) ([[1]; [2]] ++ [[3]]) /\
  length (gm_models (ex_model true est)) = 2%nat /\ csize (gm_cmode (ex_model true est)) (gm_dim (ex_model true est) - gm_din (ex_model true est)) = 1%nat /\
  forall i, (i < 2)%nat -> 0 < class_ocov (class_at (ex_model true est) i) [3] 0.
Proof.
  intro est. pose proof (ex_model_usable true est) as U. split; [exact U|]. split; [reflexivity|]. split; [repeat constructor|]. split; [reflexivity|]. split; [reflexivity|]. intros i Hi.
  pose proof U as (_ & _ & FU). rewrite Forall_forall in FU. destruct (FU (nth i (gm_models (ex_model true est)) no_class)) as (((Hs & _ & D) & _) & _); [apply nth_In; exact Hi|].
  apply class_ocov_pos; [exact Hs|apply posterior_dist; [exact (proj1 Hs)|exact D]|].
  intros c Hc. destruct i as [|[|i]]; [| |lia]; (destruct c as [|[|c]]; [| |cbn in Hc; lia]); cbn; lra.
Qed.
