(** C107: the output covariances of models of several hidden Markov models. *)
From Coq Require Import String List Bool Arith ZArith QArith Reals Lra Lia.
From Verif Require Import Base Arith BaseFacts RFacts Model_Map Model_Ring Model_Gaussian Model_Config Model_KMeans Model_GMM Model_HMM Model_HHMM
  Proofs_GMM Proofs_GMM3 Proofs_GMM4 Spec_Common Spec_Matrix Spec_Gaussian Spec_GMM Spec_HMM Spec_HHMM Spec_HHMM2 Spec_HHMM3 Spec_HHMM4 Spec_OCov
  Proofs_HHMM6 Proofs_HHMM9 Proofs_OCov Proofs_OCov2 Proofs_OCov3 Ex_HHMM Props_HHMM.
Import ListNotations.
Local Open Scope list_scope.
Local Open Scope R_scope.

(** [m'] reports the output and the covariances of its likeliest class, or the average of those of the
    classes with the same weights for both; the latter are not the covariances of the average. *)
Definition hh_cov_report (m' : hhmm RA) : Prop :=
  let n := hh_size m' in let r := hh_res m' in let k := csize (hh_cmode m') (hh_dim m' - hh_din m') in
  let p := fun c => nth c (rs_smn r) 0 in let cov := fun c j => nth j (h_ocov (hc_run (hcl m' c))) 0 in
  match hh_est m' with
  | Likeliest => exists b, (b < n)%nat /\ hlabel m' b = rs_likeliest r /\ rs_out r = h_out (hc_run (hcl m' b)) /\ rs_ocov r = h_ocov (hc_run (hcl m' b))
  | Mixture => distribution n p /\ (forall d, (d < hh_dim m' - hh_din m')%nat -> nth d (rs_out r) 0 = Rsum n (fun c => p c * nth d (h_out (hc_run (hcl m' c))) 0)) /\
      length (rs_ocov r) = k /\ forall j, (j < k)%nat -> nth j (rs_ocov r) 0 = Rsum n (fun c => p c * cov c j) /\
        ((forall c, (c < n)%nat -> 0 <= cov c j) -> comb_var n p (fun c => cov c j) <= nth j (rs_ocov r) 0 /\
          ((2 <= n)%nat -> (exists c, (c < n)%nat /\ 0 < cov c j) -> comb_var n p (fun c => cov c j) < nth j (rs_ocov r) 0))
  end.

Lemma mget_at : forall (l : list (string * hclass RA)) k h, mget String.eqb l k = Some h -> exists b, (b < length l)%nat /\ fst (nth b l no_hclass) = k /\ snd (nth b l no_hclass) = h.
Proof.
  induction l as [|(k0, h0) l IH]; intros k h H; [discriminate|]. cbn [mget] in H. destruct (String.eqb_spec k k0) as [->|N].
  - injection H as ->. exists 0%nat. split; [cbn; lia|split; reflexivity].
  - destruct (IH k h H) as (b & Hb & E1 & E2). exists (S b). split; [cbn; lia|split; assumption].
Qed.

(** A positive distribution on two classes or more has no weight equal to one. *)
Lemma weight_lt1 : forall n p, distribution n p -> (forall c, (c < n)%nat -> 0 < p c) -> (2 <= n)%nat -> forall c, (c < n)%nat -> p c < 1.
Proof.
  intros n p (D1 & D2) PP Hn i Hi. set (k := if (i =? 0)%nat then 1%nat else 0%nat). assert (Hk : (k < n)%nat /\ k <> i) by (unfold k; destruct (Nat.eqb_spec i 0); lia). destruct Hk as (Hk & Nk).
  assert (X : Rsum n (fun c => p c - (if (c =? i)%nat then 1 else 0) * p c) = 1 - p i).
  { rewrite Rsum_minus, D2. f_equal. apply (Rsum_delta n i p Hi). }
  assert (Y : p k <= 1 - p i).
  { rewrite <- X. eapply Rle_trans; [|apply (Rsum_term_le n _ k); [|exact Hk]].
    - cbv beta. apply Nat.eqb_neq in Nk. rewrite Nk. lra.
    - intros c Hc. specialize (D1 c Hc). cbv beta. destruct (c =? i)%nat; lra. }
  specialize (PP k Hk). lra.
Qed.

Lemma cov_report : forall (m m' : hhmm RA) x (e : nat -> R), hh_filter (A := RA) x m = Ok m' -> hh_bim m' = true -> (1 <= hh_size m')%nat ->
  rs_smn (hh_res m') = tab (hh_size m') (fun c => exp (e c) / Rsum (hh_size m') (fun d => exp (e d))) -> hh_cov_report m'.
Proof.
  intros m m' x e E B Hn SM. pose proof (hh_filter_inv m m' x E B) as H. unfold hh_cov_report. cbv zeta. destruct (hh_est m').
  - destruct H as (h & G & H1 & H2). destruct (mget_at _ _ _ G) as (b & Hb & E1 & E2). exists b. split; [exact Hb|]. split; [exact E1|]. unfold hcl. rewrite E2. split; [exact H1|exact H2].
  - set (n := hh_size m') in *. set (p := (fun c => nth c (rs_smn (hh_res m')) 0) : nat -> R).
    assert (SP : 0 < Rsum n (fun d => exp (e d))) by (apply Rsum_pos; [lia|]; intros; apply exp_pos).
    assert (PV : forall c, (c < n)%nat -> p c = exp (e c) / Rsum n (fun d => exp (e d))) by (intros c Hc; unfold p; rewrite SM; rewrite nth_tab by exact Hc; reflexivity).
    assert (PP : forall c, (c < n)%nat -> 0 < p c) by (intros c Hc; rewrite (PV c Hc); apply Rdiv_lt_0_compat; [apply exp_pos|exact SP]).
    assert (PD : distribution n p).
    { split; [intros c Hc; specialize (PP c Hc); lra|]. rewrite (Rsum_ext n p (fun c => / Rsum n (fun d => exp (e d)) * exp (e c))) by (intros c Hc; rewrite (PV c Hc); unfold Rdiv; ring). rewrite Rsum_scal_l. field. lra. }
    split; [exact PD|]. destruct (mix_outputs_cov_ok _ _ _ _ _ _ H) as (LO & LV & VO & VV). rewrite map_length in VO, VV. change (length (hh_cls m')) with n in VO, VV.
    split. { intros d Hd. rewrite (VO d Hd). apply Rsum_ext. intros c Hc. rewrite (nth_map_in _ _ c _ no_hclass) by exact Hc. reflexivity. }
    split; [exact LV|]. intros j Hj.
    assert (V : nth j (rs_ocov (hh_res m')) 0 = Rsum n (fun c => p c * nth j (h_ocov (hc_run (hcl m' c))) 0)).
    { rewrite (VV j Hj). apply Rsum_ext. intros c Hc. rewrite (nth_map_in _ _ c _ no_hclass) by exact Hc. reflexivity. }
    split; [exact V|]. intros NN. rewrite V. unfold comb_var.
    assert (T : forall c, (c < n)%nat -> 0 <= p c * nth j (h_ocov (hc_run (hcl m' c))) 0 - p c * p c * nth j (h_ocov (hc_run (hcl m' c))) 0).
    { intros c Hc. replace (p c * nth j (h_ocov (hc_run (hcl m' c))) 0 - p c * p c * nth j (h_ocov (hc_run (hcl m' c))) 0) with (p c * (1 - p c) * nth j (h_ocov (hc_run (hcl m' c))) 0) by ring.
      assert (p c <= 1) by (destruct PD as (D1 & D2); rewrite <- D2; apply (Rsum_term_le n p c D1 Hc)). specialize (PP c Hc). apply Rmult_le_pos; [apply Rmult_le_pos; lra|apply NN; exact Hc]. }
    split.
    + pose proof (Rsum_nonneg n _ T) as Q. rewrite Rsum_minus in Q. cbv beta in Q. lra.
    + intros H2 (c & Hc & PC). apply Rminus_gt_0_lt. rewrite <- Rsum_minus. apply (Rsum_pos_one n _ c); [exact T|exact Hc|]. cbv beta.
      replace (p c * nth j (h_ocov (hc_run (hcl m' c))) 0 - p c * p c * nth j (h_ocov (hc_run (hcl m' c))) 0) with (p c * (1 - p c) * nth j (h_ocov (hc_run (hcl m' c))) 0) by ring.
      pose proof (weight_lt1 n p PD PP H2 c Hc). specialize (PP c Hc). apply Rmult_lt_0_compat; [apply Rmult_lt_0_compat; lra|exact PC].
Qed.

(** In hierarchical mode. *)
Theorem C107_hierarchical : forall m, hh_usable m -> hh_fresh m -> (forall c, (c < hh_size m)%nat -> 0 <= left_over m (hh_left m) c) -> hh_bim m = true ->
  forall xs x, Forall (fun x => length x = hh_obs_dim m) (xs ++ [x]) -> exists m', hh_filters (A := RA) (xs ++ [x]) m = Ok m' /\ hh_est m' = hh_est m /\ hh_size m' = hh_size m /\ hh_dim m' = hh_dim m /\ hh_din m' = hh_din m /\ hh_cmode m' = hh_cmode m /\ hh_cov_report m'.
Proof.
  intros m HU HF HL HB xs x HX. destruct (C77_filtering m HU HF HL xs x HX) as (m' & E & (HS & _) & _ & TR). exists m'. split; [exact E|].
  pose proof HS as (S1 & S2 & S3 & _ & S5 & S6 & _ & _ & _ & _ & SF). assert (SZ : hh_size m' = hh_size m) by (symmetry; apply (Proofs_KMeans.Forall2_len _ _ _ SF)).
  split; [exact S5|]. split; [exact SZ|]. split; [exact S2|]. split; [exact S3|]. split; [exact S6|]. destruct TR as (b & _ & _ & _ & _ & _ & _ & SM & _). rewrite hh_filters_snoc in E. apply bind_inv in E. destruct E as (m1 & _ & E).
  eapply (cov_report m1 m' x); [exact E|congruence|rewrite SZ; apply HU|]. rewrite SZ. exact SM.
Qed.
Print Assumptions C107_hierarchical.

(** Without hierarchical mode. *)
Theorem C107_independent : forall m, hn_usable m -> hn_fresh m -> hh_bim m = true ->
  forall xs x, Forall (fun x => length x = hh_obs_dim m) (xs ++ [x]) -> exists m', hh_filters (A := RA) (xs ++ [x]) m = Ok m' /\ hh_est m' = hh_est m /\ hh_size m' = hh_size m /\ hh_dim m' = hh_dim m /\ hh_din m' = hh_din m /\ hh_cmode m' = hh_cmode m /\ hh_cov_report m'.
Proof.
  intros m HU HF HB xs x HX. destruct (hn_filters_report m HU HF (xs ++ [x]) HX) as (m' & E & (HS & _) & RP). destruct (RP xs x eq_refl) as (_ & TR). exists m'. split; [exact E|].
  pose proof HS as (S1 & S2 & S3 & _ & S5 & S6 & _ & _ & _ & _ & SF). assert (SZ : hh_size m' = hh_size m) by (symmetry; apply (Proofs_KMeans.Forall2_len _ _ _ SF)).
  split; [exact S5|]. split; [exact SZ|]. split; [exact S2|]. split; [exact S3|]. split; [exact S6|]. destruct TR as (b & FM & _ & _ & _ & _ & _ & SM & _). rewrite hh_filters_snoc in E. apply bind_inv in E. destruct E as (m1 & _ & E).
  eapply (cov_report m1 m' x); [exact E|congruence|rewrite SZ; destruct FM; lia|]. rewrite SZ. exact SM.
Qed.
Print Assumptions C107_independent.

Example C107_hierarchical_meets : forall t est, let m := kx_two true t est true true in hh_usable m /\ hh_fresh m /\ (forall c, (c < hh_size m)%nat -> 0 <= left_over m (hh_left m) c) /\ hh_bim m = true /\
  Forall (fun x => length x = hh_obs_dim m) ([[0]; [1]] ++ [[5]]) /\ hh_size m = 2%nat.
Proof. intros t est m. destruct (C77_meets true t est) as (H1 & H2 & H3 & H4 & _). repeat (split; [first [assumption|reflexivity]|]). reflexivity. Qed.
Example C107_independent_meets : forall est, let m := kx_two true LeftRight est false false in hn_usable m /\ hn_fresh m /\ hh_bim m = true /\ Forall (fun x => length x = hh_obs_dim m) ([[0]; [1]] ++ [[5]]) /\ hh_size m = 2%nat.
Proof. intros est m. destruct (C66_meets true est) as (H1 & H2 & _ & H4 & _). repeat (split; [first [assumption|reflexivity]|]). reflexivity. Qed.
