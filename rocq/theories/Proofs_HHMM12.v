(** The hierarchical model as a probability model. *)
From Coq Require Import String List Bool Arith ZArith Reals Lra Lia.
From Verif Require Import Base Arith BaseFacts RFacts Model_Map Model_Ring Model_Phrase Model_Gaussian Model_Config Model_GMM Model_HMM Model_HHMM
  Proofs_Gaussian Proofs_KMeans Proofs_GMM Spec_Common Spec_Matrix Spec_Gaussian Spec_GMM Spec_HMM Spec_HHMM Spec_HHMM4 Proofs_HMM Proofs_HMM2 Proofs_HMM3 Proofs_HMM4 Proofs_HMM5
  Proofs_HHMM Proofs_HHMM2 Proofs_HHMM3 Proofs_HHMM4.
Import ListNotations.
Local Open Scope list_scope.
Local Open Scope R_scope.

Section Flow.
  Variable m : hhmm RA.
  Hypothesis HU : hh_usable m.
  Local Notation n := (hh_size m).
  Local Notation Nc c := (hc_n (hcl m c)).
  Local Notation b c k x := (mix_lik (state_at (hcl m c) k) x).

  Lemma split_one : forall c k, split_at m c k 0 + split_at m c k 1 + split_at m c k 2 = 1.
  Proof. intros c k. unfold split_at. ring. Qed.
  Lemma entry_sum : forall c, (c < n)%nat -> Rsum (Nc c) (entry (hcl m c)) = 1.
  Proof. intros c Hc. apply (usable_pi (hcl m c) (cls_use m HU c Hc)). Qed.
  Lemma entry_ge : forall c k, (c < n)%nat -> (k < Nc c)%nat -> 0 <= entry (hcl m c) k.
  Proof. intros c k Hc Hk. apply (usable_pi (hcl m c) (cls_use m HU c Hc)). exact Hk. Qed.

  Lemma lik_next : forall xs x, xs <> [] -> hh_lik m (xs ++ [x]) = Rsum n (fun d => Rsum (Nc d) (fun k => front m (hh_filtering m xs) d k * b d k x)).
  Proof.
    intros xs x Hx. rewrite <- (Rmult_1_r (hh_lik m (xs ++ [x]))). rewrite <- (hh_total m HU (xs ++ [x])) by (destruct xs; discriminate). rewrite <- Rsum_scal_l. apply Rsum_ext. intros d Hd. unfold hh_class. rewrite <- Rsum_scal_l. apply Rsum_ext. intros k Hk.
    pose proof (fun f Hf => filt_next m HU xs x 1 (hh_filtering m xs) Hx (fun c k e _ _ _ => eq_sym (Rmult_1_l _)) d k f Hd Hk Hf) as F.
    pose proof (F 0%nat ltac:(lia)) as F0. pose proof (F 1%nat ltac:(lia)) as F1. pose proof (F 2%nat ltac:(lia)) as F2. rewrite !Rmult_plus_distr_l. rewrite Rmult_1_l in F0, F1, F2. rewrite <- F0, <- F1, <- F2.
    transitivity (front m (hh_filtering m xs) d k * (split_at m d k 0 + split_at m d k 1 + split_at m d k 2) * b d k x); [ring|]. rewrite split_one. ring.
  Qed.

  (** The total weight of the states that follow. *)
  Lemma front_total : forall xs, xs <> [] -> hh_top_proper m ->
    Rsum n (fun d => Rsum (Nc d) (fun k => front m (hh_filtering m xs) d k)) = 1 + Rsum n (fun c => Rsum (Nc c) (fun j => hh_filtering m xs c j 0 * (outflow (hcl m c) j - 1))).
  Proof.
    intros xs Hx (TP & TT). set (F := hh_filtering m xs).
    assert (A1 : Rsum n (fun d => Rsum (Nc d) (fun k => front m F d k)) =
      Rsum n (fun d => Rsum (Nc d) (fun j => F d j 0%nat * outflow (hcl m d) j)) + Rsum n (fun c => Rsum (Nc c) (fun j => F c j 1%nat)) + Rsum n (fun c => Rsum (Nc c) (fun j => F c j 2%nat))).
    { rewrite (Rsum_ext n _ (fun d => Rsum (Nc d) (fun j => F d j 0%nat * outflow (hcl m d) j) + Rsum n (fun c => Rsum (Nc c) (fun j => F c j 1%nat) * top_trans m c d + Rsum (Nc c) (fun j => F c j 2%nat) * top_prior m d))).
      - rewrite Rsum_plus. rewrite Rplus_assoc. f_equal. rewrite Rsum_swap. rewrite <- Rsum_plus. apply Rsum_ext. intros c Hc. rewrite Rsum_plus, !Rsum_scal_l. rewrite TT by exact Hc. rewrite TP. ring.
      - intros d Hd. unfold front. rewrite Rsum_plus. f_equal.
        + rewrite Rsum_swap. apply Rsum_ext. intros j Hj. rewrite Rsum_scal_l. reflexivity.
        + rewrite Rsum_scal_l. rewrite entry_sum by exact Hd. apply Rmult_1_r. }
    rewrite A1. pose proof (hh_total m HU xs Hx) as T. transitivity (Rsum n (hh_class m xs) + Rsum n (fun c => Rsum (Nc c) (fun j => F c j 0%nat * (outflow (hcl m c) j - 1)))); [|rewrite T; reflexivity]. unfold hh_class. fold F. rewrite <- !Rsum_plus. apply Rsum_ext. intros c Hc. rewrite <- !Rsum_plus. apply Rsum_ext. intros j Hj. fold F. ring.
  Qed.

  Lemma front_ge : forall xs d k, xs <> [] -> (d < n)%nat -> (k < Nc d)%nat -> 0 <= front m (hh_filtering m xs) d k.
  Proof.
    intros xs d k Hx Hd Hk. pose proof (fun c k e Hc Hk He => hh_filtering_ge m HU xs c k e Hx Hc Hk He) as G. destruct (top_ok m HU) as (_ & T2 & _ & T4 & _). unfold front. apply Rplus_le_le_0_compat.
    - apply Rsum_nonneg. intros j Hj. apply Rmult_le_pos; [apply G; (assumption || lia)|]. apply (inner_ge m HU); assumption.
    - apply Rmult_le_pos; [|apply entry_ge; assumption]. apply Rsum_nonneg. intros c Hc. apply Rplus_le_le_0_compat; apply Rmult_le_pos; try (apply Rsum_nonneg; intros j Hj; apply G; (assumption || lia)).
      + apply (T4 c Hc). exact Hd.
      + left. apply T2. exact Hd.
  Qed.

  (** Proper rows: likelihoods do not exceed the densities of the states. *)
  Lemma lik_bounded : forall B, hh_top_proper m -> (forall c, (c < n)%nat -> hc_mode (hcl m c) = LeftRight) -> (forall c j, (c < n)%nat -> (j < Nc c)%nat -> outflow (hcl m c) j <= 1) ->
    forall xs x, (forall c k, (c < n)%nat -> (k < Nc c)%nat -> b c k x <= B) -> hh_lik m (xs ++ [x]) <= B.
  Proof.
    intros B TP LR OUT xs x HB. assert (BP : 0 <= B).
    { pose proof HU as (H1 & _). pose proof (Nc_pos m HU 0%nat ltac:(lia)) as HN. apply Rle_trans with (b 0%nat 0%nat x); [|apply HB; lia]. apply Rle_trans with min_likelihood; [left; exact min_lik_pos|]. apply usable_lik; [exact (cls_use m HU 0%nat ltac:(lia))|exact HN]. }
    destruct xs as [|x0 xs].
    - cbn [app]. rewrite lik_first by exact HU. apply Rle_trans with (Rsum n (fun c => top_prior m c * B)); [|rewrite Rsum_scal_r, (proj1 TP); lra].
      apply Rsum_le. intros c Hc. apply Rle_trans with (Rsum (Nc c) (fun k => top_prior m c * B * entry (hcl m c) k)); [|rewrite Rsum_scal_l, entry_sum by exact Hc; lra].
      apply Rsum_le. intros k Hk. unfold start_at. rewrite (LR c Hc). destruct (top_ok m HU) as (_ & T2 & _). pose proof (T2 c Hc) as P. pose proof (entry_ge c k Hc Hk) as E. pose proof (HB c k Hc Hk) as Q.
      assert (0 <= top_prior m c * entry (hcl m c) k) by (apply Rmult_le_pos; lra). apply Rle_trans with (top_prior m c * entry (hcl m c) k * B); [apply Rmult_le_compat_l; assumption|lra].
    - assert (Hx : x0 :: xs <> []) by discriminate. rewrite lik_next by exact Hx.
      apply Rle_trans with (Rsum n (fun d => Rsum (Nc d) (fun k => front m (hh_filtering m (x0 :: xs)) d k)) * B).
      + rewrite <- Rsum_scal_r. apply Rsum_le. intros d Hd. rewrite <- Rsum_scal_r. apply Rsum_le. intros k Hk. apply Rmult_le_compat_l; [apply front_ge; assumption|apply HB; assumption].
      + rewrite front_total by assumption. rewrite <- (Rmult_1_l B) at 2. apply Rmult_le_compat_r; [exact BP|].
        assert (Rsum n (fun c => Rsum (Nc c) (fun j => hh_filtering m (x0 :: xs) c j 0 * (outflow (hcl m c) j - 1))) <= Rsum n (fun _ => 0)); [|rewrite Rsum_const in *; lra].
        apply Rsum_le. intros c Hc. apply Rle_trans with (Rsum (Nc c) (fun _ => 0)); [|rewrite Rsum_const; lra]. apply Rsum_le. intros j Hj.
        pose proof (hh_filtering_ge m HU (x0 :: xs) c j 0 Hx Hc Hj ltac:(lia)) as G. pose proof (OUT c j Hc Hj). rewrite <- (Rmult_0_r (hh_filtering m (x0 :: xs) c j 0)). apply Rmult_le_compat_l; [exact G|lra].
  Qed.

  (** States with the same density. *)
  Lemma lik_equal : forall B xs x, xs <> [] -> hh_top_proper m -> (forall c k, (c < n)%nat -> (k < Nc c)%nat -> b c k x = B) ->
    hh_lik m (xs ++ [x]) = B * (1 + Rsum n (fun c => Rsum (Nc c) (fun j => hh_filtering m xs c j 0 * (outflow (hcl m c) j - 1)))).
  Proof.
    intros B xs x Hx TP HB. rewrite lik_next by exact Hx. rewrite <- front_total by assumption. rewrite <- Rsum_scal_l. apply Rsum_ext. intros d Hd. rewrite <- Rsum_scal_l. apply Rsum_ext. intros k Hk. rewrite HB by assumption. apply Rmult_comm.
  Qed.
End Flow.

(** ** Trained classes *)
Lemma outflow_ergodic : forall (h : hclass RA) j x, stochastic (hc_n h) (hc_mode h) (h_trans (hc_net h)) -> hc_mode h = Ergodic -> (j < hc_n h)%nat -> exit_at h j = x -> outflow h j = 1 / (1 - x).
Proof.
  intros h j x (_ & _ & S) HM Hj HX. unfold outflow, inner. rewrite HM in *. rewrite HX. rewrite Rsum_div. rewrite <- (S j Hj). f_equal.
Qed.
Lemma outflow_lr : forall h j, (1 <= hc_n h)%nat -> trained_lr h -> (j < hc_n h)%nat -> outflow h j = if Nat.eqb j (hc_n h - 1) && (1 <? hc_n h)%nat then 10 / 9 else 1.
Proof.
  intros h j HN (HM & (L & P & S) & NJ & EX) Hj. unfold outflow, inner. rewrite HM. rewrite Rsum_plus.
  set (N := hc_n h) in *. set (t := h_trans (hc_net h)) in *.
  assert (E1 : Rsum N (fun k => if Nat.eqb k j then nth (2 * j) t 0 / (if Nat.eqb j 0 then 1 else 1 - exit_at h j) else 0) = nth (2 * j) t 0 / (if Nat.eqb j 0 then 1 else 1 - exit_at h j)).
  { rewrite (Rsum_single N j); [rewrite Nat.eqb_refl; reflexivity|exact Hj|]. intros k Hk Ne. apply Nat.eqb_neq in Ne. rewrite Ne. reflexivity. }
  rewrite E1. specialize (S j Hj). rewrite EX by exact Hj. destruct (Nat.eqb_spec j (N - 1)) as [->|Ne].
  - rewrite (Rsum_zero N (fun k => if Nat.eqb k (Datatypes.S (N - 1)) then _ else 0)) by (intros k Hk; destruct (Nat.eqb_spec k (Datatypes.S (N - 1))); [lia|reflexivity]).
    rewrite lr_row_sum in S by exact Hj. unfold no_jump in NJ. fold N t in NJ. replace (2 * N - 1)%nat with (2 * (N - 1) + 1)%nat in NJ by lia. rewrite NJ, Rplus_0_r in S. change (num RA) with R in *. rewrite S. cbn [andb].
    destruct (Nat.ltb_spec 1 N); destruct (Nat.eqb_spec (N - 1) 0); try lia; field.
  - cbn [andb]. rewrite (Rsum_single N (Datatypes.S j)) by (lia || (intros k Hk Nk; apply Nat.eqb_neq in Nk; rewrite Nk; reflexivity)). rewrite Nat.eqb_refl. rewrite lr_row_sum in S by exact Hj. change (num RA) with R in *. rewrite Rminus_0_r. unfold Rdiv.
    destruct (Nat.eqb j 0); rewrite Rinv_1; lra.
Qed.
