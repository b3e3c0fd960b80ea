(** Outputs of a class of a hierarchical model, in binary64. *)
From Coq Require Import String ZArith QArith Reals Lra Lia Bool List Arith.
From Coq Require Import Floats.SpecFloat.
From Flocq Require Import Core.Core.
From Flocq Require Import IEEE754.BinarySingleNaN.
From Flocq Require Mult_error.
From Verif Require Import Base BaseFacts Arith Spec_Float Spec_Float2 Spec_Float3 Spec_Float4 Spec_Float6 Spec_Float7 Proofs_Float1 Proofs_Float2 Proofs_Float3 Proofs_Float4 Proofs_Float5 Proofs_Float6 Proofs_Float7 Proofs_Float8 Proofs_Float9 Proofs_Float12 Proofs_Float13 Proofs_Float14 Proofs_Float15 Proofs_Float16 Proofs_Float21 Proofs_Float22 Proofs_Float24 Proofs_Float26 Proofs_Float27 Proofs_Float30 Proofs_Float31 Proofs_Float32 Proofs_Float33 Proofs_Float35.
From Verif Require Import Model_Map Model_Ring Model_Phrase Model_Gaussian Model_Config Model_KMeans Model_GMM Model_HMM Model_HHMM Model_Single Model_Single2 Model_Single3 Model_Single4.
Import ListNotations.
Local Open Scope R_scope.
#[local] Existing Instance Proofs_Float1.Hprec.
#[local] Existing Instance Proofs_Float1.Hmax.

Local Notation fadd := (SFadd fprec femax).
Local Notation fmul := (SFmul fprec femax).
Local Notation fdiv := (SFdiv fprec femax).

Lemma rnd_abs x B : generic_format radix2 fexp64 B -> Rabs x <= B -> Rabs (rnd x) <= B.
Proof. intros G H. unfold rnd. apply abs_round_le_generic; [typeclasses eauto | typeclasses eauto | exact G | exact H]. Qed.
Lemma fmt_fval x : is_f64 x -> generic_format radix2 fexp64 (fval x).
Proof. intros H. destruct (as_bin x H) as (b & -> & E & _). rewrite E. apply generic_format_B2R. Qed.
Lemma fmt_bpow e : (-1074 <= e)%Z -> generic_format radix2 fexp64 (bpow radix2 e).
Proof. intros H. apply generic_format_bpow. unfold SpecFloat.fexp, SpecFloat.emin, fprec, femax. lia. Qed.
Lemma fmt_scaled x b : is_f64 x -> (0 <= b)%Z -> generic_format radix2 fexp64 (fval x * bpow radix2 b).
Proof. intros H Hb. exact (Mult_error.mult_bpow_pos_exact_FLT radix2 (-1074) 53 (fval x) b (fmt_fval x H) Hb). Qed.

Lemma term_bound b (w y c : f64) : (0 <= b <= 99)%Z -> num_in 0 2 w -> num_in (- bpow radix2 b) (bpow radix2 b) y -> is_f64 c -> is_num c = true -> 0 < fval c -> fval w <= 2 * fval c ->
  num_in (- bpow radix2 (b + 1)) (bpow radix2 (b + 1)) (fdiv (fmul w y) c) /\ (fval w = 0 -> fval (fdiv (fmul w y) c) = 0).
Proof.
  intros Hb (Vw & Nw & Bw) (Vy & Ny & By) Vc Nc Pc Hw. assert (P := bpow_gt_0 radix2 b).
  assert (B1 : bpow radix2 (b + 1) = 2 * bpow radix2 b) by (rewrite bpow_plus; change (bpow radix2 1) with 2; ring).
  assert (M : Rabs (rnd (fval w * fval y)) <= fval w * bpow radix2 b).
  { apply rnd_abs; [apply fmt_scaled; [exact Vw | lia] |]. rewrite Rabs_mult, (Rabs_pos_eq (fval w)) by lra. apply Rmult_le_compat_l; [lra |]. apply Rabs_le. lra. }
  assert (L : fval w * bpow radix2 b <= bpow radix2 (b + 1)) by (rewrite B1; apply Rmult_le_compat_r; lra).
  assert (T : bpow radix2 (b + 1) < bpow radix2 1024) by (apply bpow_lt; lia).
  destruct (f_mul_num w y Vw Vy Nw Ny ltac:(lra)) as (N1 & E1). assert (V1 := f_mul_valid w y Vw Vy). set (p := fmul w y) in *.
  assert (D : Rabs (fval p / fval c) <= bpow radix2 (b + 1)).
  { unfold Rdiv. rewrite Rabs_mult, (Rabs_pos_eq (/ fval c)) by (left; apply Rinv_0_lt_compat; exact Pc). apply Rmult_le_reg_r with (fval c); [exact Pc |]. rewrite Rmult_assoc, Rinv_l, Rmult_1_r by lra. rewrite E1, B1. nra. }
  assert (D2 := rnd_abs _ _ (fmt_bpow (b + 1) ltac:(lia)) D). destruct (f_div_num p c V1 Vc N1 ltac:(lra) ltac:(lra)) as (N2 & E2).
  split; [split; [now apply f_div_valid |]; split; [exact N2 |]; rewrite E2; apply Rabs_le_inv; exact D2 |].
  intros Z. rewrite E2, E1, Z, Rmult_0_l, rnd_0. unfold Rdiv. rewrite Rmult_0_l. apply rnd_0.
Qed.

(** A sum of [n] bounded terms accumulated in a [float]. *)
Lemma acc_bound b n (t o : nat -> f64) : (0 <= b <= 79)%Z -> (Z.of_nat n <= 2 ^ 20)%Z -> (forall i, (i < n)%nat -> num_in (- bpow radix2 b) (bpow radix2 b) (t i)) -> o 0%nat = S754_zero false ->
  (forall i, (i < n)%nat -> o (S i) = as_single (fadd (o i) (t i))) -> num_in (- (2 * INR n * bpow radix2 b)) (2 * INR n * bpow radix2 b) (o n) /\
  ((forall i, (i < n)%nat -> fval (t i) = 0) -> fval (o n) = 0).
Proof.
  intros Hb Hn Ht H0 Ho. destruct (Nat.eq_dec n 0) as [-> | Nz]; [rewrite H0; split; [split; [reflexivity |]; split; [reflexivity | cbn; lra] | reflexivity] |].
  assert (Pn : 1 <= INR n) by (apply (le_INR 1); lia). assert (Pb := bpow_gt_0 radix2 b).
  assert (Un : INR n <= bpow radix2 20) by (rewrite INR_IZR_INZ; change (bpow radix2 20) with (IZR (2 ^ 20)); apply IZR_le; exact Hn).
  assert (B21 : bpow radix2 (b + 21) = bpow radix2 b * 2 * bpow radix2 20) by (rewrite (bpow_plus radix2 b 21); change (bpow radix2 21) with (2 * 1048576); change (bpow radix2 20) with 1048576; ring).
  assert (Rs : forall k, rs k (fun i => / INR n * (INR n * fval (t i))) = rs k (fun i => fval (t i))).
  { induction k as [| k IH]; [reflexivity |]. cbn [rs]. rewrite IH. f_equal. field. lra. }
  assert (Rc : forall k, rs k (fun _ => / INR n) = INR k * / INR n) by (induction k as [| k IH]; [cbn; ring | cbn [rs]; rewrite IH, S_INR; ring]).
  assert (Hx : forall c, (forall i, (i < n)%nat -> Rabs (fval (t i)) <= c) -> Rabs (rs n (fun i => fval (t i))) <= INR n * c).
  { intros c Hc. assert (G : forall k, (k <= n)%nat -> Rabs (rs k (fun i => fval (t i))) <= INR k * c); [| apply G; lia].
    induction k as [| k IH]; intros Hk; [cbn; rewrite Rabs_R0; lra |]. cbn [rs]. rewrite S_INR. eapply Rle_trans; [apply Rabs_triang |]. assert (X := IH ltac:(lia)). assert (Y := Hc k ltac:(lia)). lra. }
  assert (Q : forall b0, (-100 <= b0 <= 100)%Z -> (forall i, (i < n)%nat -> - bpow radix2 b0 <= INR n * fval (t i) <= bpow radix2 b0) -> is_f64 (o n) /\ is_num (o n) = true /\ Rabs (fval (o n) - rs n (fun i => fval (t i))) <= INR n * bpow radix2 (b0 - 21)).
  { intros b0 Hb0 Hx0. destruct (acct_err b0 n (fun _ => / INR n) (fun i => INR n * fval (t i)) t o Hb0 Hn) with (k := n) as (A1 & A2 & A3 & _); auto.
    - intros i _. left. apply Rinv_0_lt_compat. lra.
    - rewrite Rc, Rinv_r; lra.
    - intros i Hi. destruct (Ht i Hi) as (V & N & B). split; [exact V |]. split; [exact N |]. split.
      + replace (fval (t i) - / INR n * (INR n * fval (t i))) with 0 by (field; lra). rewrite Rabs_R0. assert (X := bpow_gt_0 radix2 b0). lra.
      + intros X. apply Rmult_le_reg_l with (INR n); [lra |]. rewrite Rmult_0_r. exact X.
    - rewrite H0. repeat split.
    - rewrite Rs in A3. auto. }
  split.
  - destruct (Q (b + 21)%Z ltac:(lia)) as (A1 & A2 & A3).
    + intros i Hi. destruct (Ht i Hi) as (_ & _ & B). rewrite B21. assert (X : INR n * bpow radix2 b <= bpow radix2 b * bpow radix2 20) by (rewrite Rmult_comm; apply Rmult_le_compat_l; lra).
      assert (Y : Rabs (INR n * fval (t i)) <= bpow radix2 b * 2 * bpow radix2 20); [| apply Rabs_le_inv in Y; exact Y]. rewrite Rabs_mult, (Rabs_pos_eq (INR n)) by lra. assert (Z : Rabs (fval (t i)) <= bpow radix2 b) by (apply Rabs_le; exact B).
      assert (INR n * Rabs (fval (t i)) <= INR n * bpow radix2 b) by (apply Rmult_le_compat_l; lra). assert (0 < bpow radix2 b * bpow radix2 20) by (apply Rmult_lt_0_compat; apply bpow_gt_0). lra.
    + replace (b + 21 - 21)%Z with b in A3 by lia. split; [exact A1 |]. split; [exact A2 |]. assert (X := Hx (bpow radix2 b) ltac:(intros i Hi; destruct (Ht i Hi) as (_ & _ & B); apply Rabs_le; exact B)).
      apply Rabs_le_inv in A3. apply Rabs_le_inv in X. lra.
  - intros Z.
    assert (G : forall k, (k <= n)%nat -> is_f64 (o k) /\ is_num (o k) = true /\ fval (o k) = 0).
    { induction k as [| k IH]; intros Hk; [rewrite H0; repeat split |]. destruct (IH ltac:(lia)) as (V & N & E). rewrite Ho by lia. destruct (Ht k ltac:(lia)) as (Vt & Nt & _). assert (Et := Z k ltac:(lia)).
      assert (Za : forall x, is_f64 x -> is_num x = true -> fval x = 0 -> exists s, x = S754_zero s).
      { intros [s | s | | s m e] _ Nx Ex; try discriminate; [now exists s |]. exfalso. revert Ex. unfold fval. cbn. unfold F2R. cbn. intros Ex. apply Rmult_integral in Ex. destruct Ex as [Ex | Ex]; [| assert (X := bpow_gt_0 radix2 e); lra]. apply eq_IZR in Ex. destruct s; discriminate. }
      destruct (Za _ V N E) as (s1 & ->). destruct (Za _ Vt Nt Et) as (s2 & ->). destruct s1, s2; repeat split. }
    apply G. lia.
Qed.
