(** Rows of transition occupancies, range of the progress, windowed weights. *)
From Coq Require Import String List Bool Arith ZArith Reals Lra Lia.
From Verif Require Import Base Arith BaseFacts RFacts Model_Ring Proofs_Ring Model_Gaussian Model_Config Model_KMeans Model_GMM Model_HMM
  Proofs_Gaussian Proofs_KMeans Proofs_GMM Spec_Common Spec_Matrix Spec_Gaussian Spec_GMM Spec_HMM
  Proofs_HMM Proofs_HMM2 Proofs_HMM3 Proofs_HMM4 Proofs_HMM5 Proofs_HMM6 Proofs_HMM7 Proofs_HMM9.
Import ListNotations.
Local Open Scope list_scope.
Local Open Scope R_scope.

Lemma at_lik2_zero : forall N pi a bs t j k, (j < N)%nat -> (k < N)%nat -> (S t < length bs)%nat -> a j k = 0 -> at_lik2 N pi a bs t j k = 0.
Proof.
  intros N pi a bs t j k Hj Hk Ht Z. destruct bs as [|b bs]; [cbn in Ht; lia|]. cbn [length] in Ht.
  assert (E : bs = firstn t bs ++ nth t bs (fun _ => 0) :: skipn (S t) bs) by (rewrite <- (skipn_cons_nth _ bs t (fun _ => 0)) by lia; rewrite firstn_skipn; reflexivity).
  rewrite E. replace t with (length (firstn t bs)) at 4 by (rewrite firstn_length; lia). rewrite at_split2 by assumption. rewrite Z. ring.
Qed.

Lemma lr_occ2 : forall h ph t i, hmm_ready h -> hc_mode h = LeftRight -> (S t < length ph)%nat -> (i < hc_n h)%nat ->
  Rsum (hc_n h) (occupancy2 h ph t i) = occupancy2 h ph t i i + (if (i <? hc_n h - 1)%nat then occupancy2 h ph t i (i + 1) else 0).
Proof.
  intros h ph t i HR HM Ht Hi. pose proof HR as (_ & _ & NJ & _). specialize (NJ HM).
  assert (Z : forall j, (j < hc_n h)%nat -> j <> i -> ((i <? hc_n h - 1)%nat = true -> j <> (i + 1)%nat) -> occupancy2 h ph t i j = 0).
  { intros j Hj D1 D2. unfold occupancy2. rewrite at_lik2_zero; try assumption; [unfold Rdiv; ring|unfold frame_liks; rewrite map_length; exact Ht|]. unfold hc_trans, trans_at. rewrite HM.
    destruct (Nat.eqb_spec j i); [contradiction|]. destruct (Nat.eqb_spec j (S i mod hc_n h)) as [E|E]; [|lra]. destruct (Nat.ltb_spec i (hc_n h - 1)) as [L|L].
    - exfalso. apply D2; [reflexivity|]. rewrite Nat.mod_small in E by lia. lia.
    - replace i with (hc_n h - 1)%nat by lia. replace (2 * (hc_n h - 1) + 1)%nat with (2 * hc_n h - 1)%nat by lia. unfold no_jump in NJ. change (num RA) with R in *. rewrite NJ. lra. }
  destruct (Nat.ltb_spec i (hc_n h - 1)) as [L|L].
  - rewrite (Rsum_ext _ _ (fun j => (if Nat.eqb j i then occupancy2 h ph t i j else 0) + (if Nat.eqb j (i + 1) then occupancy2 h ph t i j else 0))).
    + rewrite Rsum_plus, !Rsum_if by lia. reflexivity.
    + intros j Hj. destruct (Nat.eqb_spec j i), (Nat.eqb_spec j (i + 1)); try lia; try lra. rewrite Z by auto. lra.
  - rewrite (Rsum_ext _ _ (fun j => if Nat.eqb j i then occupancy2 h ph t i j else 0)).
    + rewrite Rsum_if by lia. lra.
    + intros j Hj. destruct (Nat.eqb_spec j i); [reflexivity|]. apply Z; [exact Hj|assumption|discriminate].
Qed.

Lemma position_range : forall N l w, distribution N w -> (1 <= N)%nat -> first_max N w l -> 0 <= mean_position N l w <= 1.
Proof.
  intros N l w (Hw & Hs) HN FM. unfold mean_position. assert (DP : 0 < INR (Nat.max 1 (N - 1))) by (apply lt_0_INR; lia).
  assert (HI : forall i, (i < N)%nat -> 0 <= INR i <= INR (Nat.max 1 (N - 1))) by (intros; split; [apply pos_INR|apply le_INR; lia]).
  destruct (Nat.eq_dec N 1) as [->|N2].
  - rewrite (Rsum_zero 1 (fun i => if in_window 1 l i then w i * INR i else 0)); [unfold Rdiv; rewrite !Rmult_0_l; lra|]. intros i Hi. replace i with 0%nat by lia. destruct (in_window 1 l 0); cbn; lra.
  - pose proof (window_pos N l w ltac:(lia) (conj Hw Hs) FM) as WP.
    assert (B : 0 <= Rsum N (fun i => if in_window N l i then w i * INR i else 0) <= window_mass N l w * INR (Nat.max 1 (N - 1))).
    { split.
      - apply Rsum_nonneg. intros i Hi. destruct (in_window N l i); [|lra]. apply Rmult_le_pos; [apply Hw; exact Hi|apply pos_INR].
      - unfold window_mass. rewrite <- Rsum_scal_r. apply Rsum_le. intros i Hi. destruct (in_window N l i); [|lra]. apply Rmult_le_compat_l; [apply Hw; exact Hi|apply HI; exact Hi]. }
    pose proof (Rinv_0_lt_compat _ WP) as IW. pose proof (Rinv_0_lt_compat _ DP) as ID. unfold Rdiv. split.
    + apply Rmult_le_pos; [apply Rmult_le_pos; lra|lra].
    + apply Rle_trans with (window_mass N l w * INR (Nat.max 1 (N - 1)) * / window_mass N l w * / INR (Nat.max 1 (N - 1))); [|right; field; lra].
      apply Rmult_le_compat_r; [lra|]. apply Rmult_le_compat_r; lra.
Qed.

Lemma window_weights : forall N l w, (2 <= N)%nat -> distribution N w -> first_max N w l ->
  let v := fun i => if in_window N l i then w i / window_mass N l w else 0 in
  distribution N v /\ 0 < v l /\ (forall i, (i + N / 2 < l \/ l + N / 2 <= i)%nat -> v i = 0).
Proof.
  intros N l w HN D FM v. pose proof (window_pos N l w HN D FM) as WP. pose proof (Rinv_0_lt_compat _ WP) as IW. pose proof D as (Hw & Hs). pose proof FM as (Hl & HM & _).
  assert (P : 0 < w l).
  { destruct (Rle_lt_dec (w l) 0) as [L|L]; [|exact L]. exfalso. assert (Rsum N w = 0); [|lra]. apply Rsum_zero. intros i Hi. specialize (HM i Hi). specialize (Hw i Hi). lra. }
  split; [split|split].
  - intros i Hi. unfold v. destruct (in_window N l i); [|lra]. apply Rmult_le_pos; [apply Hw; exact Hi|lra].
  - unfold v. rewrite (Rsum_ext _ _ (fun i => (if in_window N l i then w i else 0) / window_mass N l w)) by (intros; destruct (in_window N l i); [reflexivity|unfold Rdiv; ring]). rewrite Rsum_div. fold (window_mass N l w). field. lra.
  - unfold v. rewrite in_window_self by exact HN. apply Rmult_lt_0_compat; assumption.
  - intros i Hi. unfold v, in_window. destruct (Nat.leb_spec l (i + N / 2)), (Nat.ltb_spec i (l + N / 2)); try lia; reflexivity.
Qed.
