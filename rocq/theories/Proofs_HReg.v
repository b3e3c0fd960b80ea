(** The outputs of a hierarchical model against what it learned. *)
From Coq Require Import String List Bool Arith ZArith QArith Reals Lra Lia.
From Verif Require Import Base BaseFacts Arith RFacts Model_Map Model_Ring Model_Gaussian Model_Config Model_KMeans Model_GMM Model_HMM Model_HHMM
  Spec_Common Spec_Matrix Spec_Gaussian Spec_GMM Spec_HMM Spec_HHMM Spec_HReg
  Proofs_GMM Proofs_GMM3 Proofs_HMM4 Proofs_HMM5 Proofs_HMM13 Proofs_HHMM Proofs_HHMM4 Proofs_HHMM5 Proofs_HHMM6 Proofs_HHMM7 Proofs_HHMM12 Proofs_HHMM13.
Import ListNotations.
Local Open Scope list_scope.
Local Open Scope R_scope.

(** Weighted sums. *)
Lemma weighted_bounds : forall n (w y : nat -> R) lo hi, (forall i, (i < n)%nat -> 0 <= w i) -> (forall i, (i < n)%nat -> lo <= y i <= hi) ->
  Rsum n w * lo <= Rsum n (fun i => w i * y i) <= Rsum n w * hi.
Proof.
  intros n w y lo hi Hw Hy. rewrite <- !Rsum_scal_r. split; apply Rsum_le; intros i Hi; (apply Rmult_le_compat_l; [apply Hw; exact Hi|apply Hy; exact Hi]).
Qed.
(** A convex combination of numbers in ]0, 1[. *)
Lemma mean_open : forall n (p W : nat -> R), (1 <= n)%nat -> distribution n p -> (forall c, (c < n)%nat -> 0 < p c) -> (forall c, (c < n)%nat -> 0 < W c) ->
  0 < Rsum n (fun c => p c * W c) /\ ((forall c, (c < n)%nat -> W c < 1) -> Rsum n (fun c => p c * W c) < 1).
Proof.
  intros n p W Hn (P0 & P1) PP HW. split.
  - apply Rsum_pos; [lia|]. intros c Hc. apply Rmult_lt_0_compat; auto.
  - intros H1. assert (0 < Rsum n (fun c => p c * (1 - W c))).
    { apply Rsum_pos; [lia|]. intros c Hc. apply Rmult_lt_0_compat; [auto|]. specialize (H1 c Hc). lra. }
    rewrite (Rsum_ext _ _ (fun c => p c - p c * W c)) in H by (intros; ring). rewrite Rsum_minus in H. lra.
Qed.

Section Reg.
  Context (m : hhmm RA) (HU : hh_usable m).
  Local Notation n := (hh_size m).

  Lemma state_hull : forall x d lo hi, learned_in m x d lo hi -> forall c k, (c < n)%nat -> (k < hc_n (hcl m c))%nat -> lo <= class_out (state_at (hcl m c) k) x d <= hi.
  Proof.
    intros x d lo hi H c k Hc Hk. destruct (cls_use m HU c Hc) as (_ & L & F & _). rewrite Forall_forall in F.
    assert (I : In (state_at (hcl m c) k) (h_states (hc_net (hcl m c)))) by (apply nth_In; lia). destruct (F _ I) as ((SH & _ & D) & _).
    assert (1 <= gc_n (state_at (hcl m c) k))%nat by apply SH.
    unfold class_out. apply convex_bounds; [apply posterior_dist; assumption|]. intros i Hi. apply H; assumption.
  Qed.

  Context (u : nat -> R) (HL : forall c, (c < n)%nat -> 0 <= left_over m u c) (xs : list (list R)) (Hx : xs <> []).
  Local Notation w c := (hh_weight m u xs c).
  Local Notation W := (fun c => Rsum (hc_n (hcl m c)) (w c)).

  Lemma kept_ge : forall c k, (c < n)%nat -> (k < hc_n (hcl m c))%nat -> 0 <= w c k.
  Proof.
    intros c k Hc Hk. unfold hh_weight. apply Rmult_le_pos; [left; apply scale_pos; assumption|]. pose proof (hh_filtering_ge m HU xs c k 0 Hx Hc Hk ltac:(lia)). pose proof (hh_filtering_ge m HU xs c k 1 Hx Hc Hk ltac:(lia)). lra.
  Qed.
  Lemma kept_pos : forall c, (c < n)%nat -> 0 < W c.
  Proof.
    intros c Hc. destruct (hh_filtering_some m HU xs c Hx Hc) as (k & Hk & P). apply (Rsum_pos_one _ _ k); [intros; apply kept_ge; assumption|exact Hk|].
    unfold hh_weight. apply Rmult_lt_0_compat; [apply scale_pos; assumption|]. pose proof (hh_filtering_ge m HU xs c k 1 Hx Hc Hk ltac:(lia)). lra.
  Qed.
  Lemma kept_total : Rsum n W <= 1.
  Proof.
    pose proof (scale_le m u xs HU HL) as (S0 & S1). rewrite <- (hh_total m HU xs Hx). apply Rsum_le. intros c Hc. unfold hh_class. apply Rsum_le. intros k Hk. unfold hh_weight.
    pose proof (fun e He => hh_filtering_ge m HU xs c k e Hx Hc Hk He) as G. pose proof (G 0%nat ltac:(lia)). pose proof (G 1%nat ltac:(lia)). pose proof (G 2%nat ltac:(lia)).
    apply Rle_trans with (1 * (hh_filtering m xs c k 0 + hh_filtering m xs c k 1)); [apply Rmult_le_compat_r; lra|lra].
  Qed.
  Lemma kept_lt : (2 <= n)%nat -> forall c, (c < n)%nat -> W c < 1.
  Proof.
    intros H2 c Hc. pose proof kept_total as T. set (c' := if Nat.eqb c 0 then 1%nat else 0%nat). assert (Hc' : (c' < n)%nat /\ c' <> c) by (unfold c'; destruct (Nat.eqb_spec c 0); lia). destruct Hc' as (Hc' & NE).
    assert (Rsum n (fun i => if Nat.eqb i c then W i else 0) + Rsum n (fun i => if Nat.eqb i c' then W i else 0) <= Rsum n W).
    { rewrite <- Rsum_plus. apply Rsum_le. intros i Hi. pose proof (kept_pos i Hi). destruct (Nat.eqb_spec i c), (Nat.eqb_spec i c'); try lia; lra. }
    rewrite !(Proofs_HMM2.Rsum_if n) in H by assumption. pose proof (kept_pos c' Hc'). cbv beta in *. lra.
  Qed.

  (** The weights of the window. *)
  Lemma window_hull : forall N l (v y : nat -> R) lo hi, (2 <= N)%nat -> (forall i, (i < N)%nat -> 0 <= v i) -> 0 < Rsum N v -> first_max N v l -> (forall i, (i < N)%nat -> lo <= y i <= hi) ->
    lo <= Rsum N (fun i => if in_window N l i then v i / window_mass N l v * y i else 0) <= hi.
  Proof.
    intros N l v y lo hi HN Hv HS FM Hy. assert (D : distribution N (fun i => v i / Rsum N v)).
    { split; [intros i Hi; apply div_ge; [apply Hv; exact Hi|exact HS]|]. unfold Rdiv. rewrite Rsum_scal_r. apply Rinv_r. lra. }
    assert (FM' : first_max N (fun i => v i / Rsum N v) l).
    { destruct FM as (F1 & F2 & F3). pose proof (Rinv_0_lt_compat _ HS). split; [exact F1|]. split; intros i Hi; [apply Rmult_le_compat_r; [lra|apply F2; exact Hi]|apply Rmult_lt_compat_r; [lra|apply F3; exact Hi]]. }
    pose proof (window_pos N l _ HN D FM') as WP. destruct (window_weights N l _ HN D FM') as (DW & _).
    assert (EM : window_mass N l v = window_mass N l (fun i => v i / Rsum N v) * Rsum N v).
    { unfold window_mass. rewrite <- Rsum_scal_r. apply Rsum_ext. intros i Hi. destruct (in_window N l i); [field; lra|ring]. }
    pose proof (convex_bounds N _ y lo hi DW Hy) as B. cbv beta in B.
    rewrite (Rsum_ext N _ (fun c => (if in_window N l c then v c / Rsum N v / window_mass N l (fun i => v i / Rsum N v) else 0) * y c)); [exact B|].
    intros i Hi. destruct (in_window N l i); [|ring]. rewrite EM. field. split; lra.
  Qed.

  Lemma output_hull : forall c l x d lo hi, (c < n)%nat -> hcl_est m c <> RFull -> (hcl_est m c = RWindowed -> (2 <= hc_n (hcl m c))%nat) -> first_max (hc_n (hcl m c)) (w c) l -> learned_in m x d lo hi ->
    lo <= hmm_output (hcl m c) (w c) l x d <= hi.
  Proof.
    intros c l x d lo hi Hc NF HN FM LI. unfold hmm_output. unfold hcl_est in *. destruct (hp_est (hc_par (hcl m c))); [contradiction| |].
    - apply (window_hull (hc_n (hcl m c)) l (w c) (fun i => class_out (state_at (hcl m c) i) x d)); [auto|intros; apply kept_ge; assumption|apply (kept_pos c Hc)|exact FM|]. intros i Hi. apply state_hull; assumption.
    - destruct FM as (Hl & _). apply state_hull; assumption.
  Qed.
  Lemma output_full : forall c l x d lo hi, (c < n)%nat -> hcl_est m c = RFull -> learned_in m x d lo hi -> W c * lo <= hmm_output (hcl m c) (w c) l x d <= W c * hi.
  Proof.
    intros c l x d lo hi Hc HE LI. unfold hmm_output. unfold hcl_est in HE. rewrite HE. apply (weighted_bounds (hc_n (hcl m c)) (w c) (fun i => class_out (state_at (hcl m c) i) x d)); [intros; apply kept_ge; assumption|]. intros i Hi. apply state_hull; assumption.
  Qed.
End Reg.

Lemma smooth_dist : forall n (e : nat -> R), (1 <= n)%nat -> (forall c, (c < n)%nat -> 0 < e c) -> distribution n (fun c => e c / Rsum n e) /\ forall c, (c < n)%nat -> 0 < e c / Rsum n e.
Proof.
  intros n e Hn He. assert (P : 0 < Rsum n e) by (apply Rsum_pos; [lia|exact He]). assert (Q : forall c, (c < n)%nat -> 0 < e c / Rsum n e) by (intros c Hc; apply Rdiv_lt_0_compat; auto).
  split; [split|exact Q]; [intros c Hc; left; auto|]. rewrite Rsum_div. field. lra.
Qed.
