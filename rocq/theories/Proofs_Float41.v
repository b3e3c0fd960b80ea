(** Output variances of a class of a hierarchical model, in binary64. *)
From Coq Require Import String ZArith QArith Reals Lra Lia Bool List Arith.
From Coq Require Import Floats.SpecFloat.
From Flocq Require Import Core.Core.
From Flocq Require Import IEEE754.BinarySingleNaN.
From Verif Require Import Base BaseFacts Arith Spec_Float Spec_Float2 Spec_Float3 Spec_Float4 Spec_Float6 Spec_Float7 Spec_Float9 Proofs_Float1 Proofs_Float2 Proofs_Float3 Proofs_Float4 Proofs_Float5 Proofs_Float6 Proofs_Float7 Proofs_Float8 Proofs_Float9 Proofs_Float12 Proofs_Float13 Proofs_Float14 Proofs_Float15 Proofs_Float16 Proofs_Float21 Proofs_Float22 Proofs_Float24 Proofs_Float26 Proofs_Float27 Proofs_Float30 Proofs_Float31 Proofs_Float32 Proofs_Float33 Proofs_Float35 Proofs_Float36 Proofs_Float37 Proofs_Float40.
From Verif Require Import Model_Map Model_Ring Model_Phrase Model_Gaussian Model_Config Model_KMeans Model_GMM Model_HMM Model_HHMM Model_Single Model_Single2 Model_Single3 Model_Single4.
Import ListNotations.
Local Open Scope R_scope.
#[local] Existing Instance Proofs_Float1.Hprec.
#[local] Existing Instance Proofs_Float1.Hmax.

Local Notation fadd := (SFadd fprec femax).
Local Notation fmul := (SFmul fprec femax).
Local Notation fdiv := (SFdiv fprec femax).

Lemma term_bound4 b (w y c : f64) : (0 <= b <= 99)%Z -> num_in 0 4 w -> num_in (- bpow radix2 b) (bpow radix2 b) y -> is_f64 c -> is_num c = true -> 0 < fval c -> fval w <= 4 * fval c ->
  num_in (- bpow radix2 (b + 2)) (bpow radix2 (b + 2)) (fdiv (fmul w y) c) /\ (0 <= fval y -> 0 <= fval (fdiv (fmul w y) c)).
Proof.
  intros Hb (Vw & Nw & Bw) (Vy & Ny & By) Vc Nc Pc Hw. assert (P := bpow_gt_0 radix2 b).
  assert (B1 : bpow radix2 (b + 2) = 4 * bpow radix2 b) by (rewrite bpow_plus; change (bpow radix2 2) with 4; ring).
  assert (M : Rabs (rnd (fval w * fval y)) <= fval w * bpow radix2 b).
  { apply rnd_abs; [apply fmt_scaled; [exact Vw | lia] |]. rewrite Rabs_mult, (Rabs_pos_eq (fval w)) by lra. apply Rmult_le_compat_l; [lra |]. apply Rabs_le. lra. }
  assert (L : fval w * bpow radix2 b <= bpow radix2 (b + 2)) by (rewrite B1; apply Rmult_le_compat_r; lra).
  assert (T : bpow radix2 (b + 2) < bpow radix2 1024) by (apply bpow_lt; lia).
  destruct (f_mul_num w y Vw Vy Nw Ny ltac:(lra)) as (N1 & E1). assert (V1 := f_mul_valid w y Vw Vy). set (p := fmul w y) in *.
  assert (D : Rabs (fval p / fval c) <= bpow radix2 (b + 2)).
  { unfold Rdiv. rewrite Rabs_mult, (Rabs_pos_eq (/ fval c)) by (left; apply Rinv_0_lt_compat; exact Pc). apply Rmult_le_reg_r with (fval c); [exact Pc |]. rewrite Rmult_assoc, Rinv_l, Rmult_1_r by lra. rewrite E1, B1. nra. }
  assert (D2 := rnd_abs _ _ (fmt_bpow (b + 2) ltac:(lia)) D). destruct (f_div_num p c V1 Vc N1 ltac:(lra) ltac:(lra)) as (N2 & E2).
  split; [split; [now apply f_div_valid |]; split; [exact N2 |]; rewrite E2; apply Rabs_le_inv; exact D2 |].
  intros PY. rewrite E2. apply rnd_nonneg. apply Rmult_le_pos; [rewrite E1; apply rnd_nonneg; apply Rmult_le_pos; lra | left; now apply Rinv_0_lt_compat].
Qed.

(** A sum of [n] terms that are not negative, accumulated in a [float]. *)
Lemma acc_nonneg b n (t o : nat -> f64) : (0 <= b <= 79)%Z -> (Z.of_nat n <= 2 ^ 20)%Z -> (forall i, (i < n)%nat -> num_in 0 (bpow radix2 b) (t i)) -> o 0%nat = S754_zero false ->
  (forall i, (i < n)%nat -> o (S i) = as_single (fadd (o i) (t i))) -> num_in 0 (2 * INR n * bpow radix2 b) (o n).
Proof.
  intros Hb Hn Ht H0 Ho. assert (Pb := bpow_gt_0 radix2 b).
  destruct (acc_bound b n t o Hb Hn) as ((V & N & B) & _); [intros i Hi; eapply num_in_weaken; [apply Ht, Hi | lra | lra] | exact H0 | exact Ho |]. split; [exact V |]. split; [exact N |]. split; [| lra].
  destruct (Nat.eq_dec n 0) as [-> | Nz]; [rewrite H0; apply Rle_refl |]. assert (Pn : 1 <= INR n) by (apply (le_INR 1); lia).
  assert (Un : INR n <= bpow radix2 20) by (rewrite INR_IZR_INZ; change (bpow radix2 20) with (IZR (2 ^ 20)); apply IZR_le; exact Hn).
  assert (B21 : bpow radix2 (b + 21) = 2 * (bpow radix2 20 * bpow radix2 b)) by (rewrite (bpow_plus radix2 b 21); change (bpow radix2 21) with (2 * 1048576); change (bpow radix2 20) with 1048576; ring).
  assert (Rc : forall k, rs k (fun _ => / INR n) = INR k * / INR n) by (induction k as [| k IH]; [cbn; ring | cbn [rs]; rewrite IH, S_INR; ring]).
  destruct (acct_err (b + 21) n (fun _ => / INR n) (fun i => INR n * fval (t i)) t o ltac:(lia) Hn) with (k := n) as (_ & _ & _ & A); auto.
  - intros i _. left. apply Rinv_0_lt_compat. lra.
  - rewrite Rc, Rinv_r; lra.
  - intros i Hi. destruct (Ht i Hi) as (_ & _ & X). assert (INR n * fval (t i) <= bpow radix2 20 * bpow radix2 b) by (apply Rmult_le_compat; lra). assert (0 <= INR n * fval (t i)) by (apply Rmult_le_pos; lra). rewrite B21. lra.
  - intros i Hi. destruct (Ht i Hi) as (V1 & N1 & X). split; [exact V1 |]. split; [exact N1 |]. split; [| intros _; apply X].
    replace (fval (t i) - / INR n * (INR n * fval (t i))) with 0 by (field; lra). rewrite Rabs_R0. assert (Y := bpow_gt_0 radix2 (b + 21)). lra.
  - rewrite H0. repeat split.
  - apply A. intros i Hi. destruct (Ht i Hi) as (_ & _ & X). apply Rmult_le_pos; lra.
Qed.
(** The square of a weight. *)
Lemma square2 (w : f64) : num_in 0 2 w -> num_in 0 4 (fmul w w) /\ fval (fmul w w) <= 2 * fval w.
Proof.
  intros (V & N & B).
  assert (L : Rabs (rnd (fval w * fval w)) <= fval w * bpow radix2 1).
  { apply rnd_abs; [apply fmt_scaled; [exact V | lia] |]. rewrite Rabs_pos_eq by (apply Rmult_le_pos; lra). change (bpow radix2 1) with 2. apply Rmult_le_compat_l; lra. }
  change (bpow radix2 1) with 2 in L. assert (T : bpow radix2 2 < bpow radix2 1024) by (apply bpow_lt; lia). change (bpow radix2 2) with 4 in T.
  destruct (f_mul_num w w V V N N ltac:(lra)) as (N1 & E1). assert (P : 0 <= rnd (fval w * fval w)) by (apply rnd_nonneg; apply Rmult_le_pos; lra). apply Rabs_le_inv in L.
  split; [split; [now apply f_mul_valid |]; split; [exact N1 |] |]; rewrite E1; lra.
Qed.

(** The error of a sum accumulated in a [float]. *)
Lemma acc_close b n (t o : nat -> f64) : (0 <= b <= 79)%Z -> (Z.of_nat n <= 2 ^ 20)%Z -> (1 <= n)%nat -> (forall i, (i < n)%nat -> num_in 0 (bpow radix2 b) (t i)) -> o 0%nat = S754_zero false ->
  (forall i, (i < n)%nat -> o (S i) = as_single (fadd (o i) (t i))) -> Rabs (fval (o n) - rs n (fun i => fval (t i))) <= INR n * INR n * bpow radix2 (b - 20).
Proof.
  intros Hb Hn H1 Ht H0 Ho. assert (Pb := bpow_gt_0 radix2 b). assert (Pn : 1 <= INR n) by (apply (le_INR 1); lia).
  assert (Un : INR n <= bpow radix2 20) by (rewrite INR_IZR_INZ; change (bpow radix2 20) with (IZR (2 ^ 20)); apply IZR_le; exact Hn).
  assert (B0 : exists b0, (-100 <= b0 <= 100)%Z /\ INR n * bpow radix2 b <= bpow radix2 b0 <= 2 * (INR n * bpow radix2 b)).
  { assert (Px : 1 <= INR n * bpow radix2 b). { assert (X : 1 <= bpow radix2 b) by (change 1 with (bpow radix2 0); apply bpow_le; lia). nra. }
    set (z := INR n * bpow radix2 b) in *. destruct (mag radix2 z) as (e & He). specialize (He ltac:(lra)). rewrite Rabs_pos_eq in He by lra. exists e.
    assert (X1 : (e - 1 < 100)%Z). { apply (lt_bpow radix2). apply Rle_lt_trans with (1 := proj1 He). apply Rle_lt_trans with (bpow radix2 20 * bpow radix2 b); [apply Rmult_le_compat_r; [apply bpow_ge_0 | exact Un] |]. rewrite <- bpow_plus. apply bpow_lt. lia. }
    assert (X2 : (0 < e)%Z). { apply (lt_bpow radix2). apply Rle_lt_trans with (2 := proj2 He). exact Px. }
    split; [lia |]. split; [lra |]. replace (bpow radix2 e) with (2 * bpow radix2 (e - 1)) by (replace e with (e - 1 + 1)%Z at 2 by lia; rewrite bpow_plus; change (bpow radix2 1) with 2; ring). lra. }
  destruct B0 as (b0 & Hb0 & B1 & B2).
  assert (Rc : forall k, rs k (fun _ => / INR n) = INR k * / INR n) by (induction k as [| k IH]; [cbn; ring | cbn [rs]; rewrite IH, S_INR; ring]).
  destruct (acct_err b0 n (fun _ => / INR n) (fun i => INR n * fval (t i)) t o ltac:(lia) Hn) with (k := n) as (_ & _ & A & _); auto.
  - intros i _. left. apply Rinv_0_lt_compat. lra.
  - rewrite Rc, Rinv_r; lra.
  - intros i Hi. destruct (Ht i Hi) as (_ & _ & X). assert (INR n * fval (t i) <= INR n * bpow radix2 b) by (apply Rmult_le_compat_l; lra). assert (0 <= INR n * fval (t i)) by (apply Rmult_le_pos; lra). lra.
  - intros i Hi. destruct (Ht i Hi) as (V1 & N1 & X). split; [exact V1 |]. split; [exact N1 |]. split; [| intros _; apply X].
    replace (fval (t i) - / INR n * (INR n * fval (t i))) with 0 by (field; lra). rewrite Rabs_R0. assert (Y := bpow_gt_0 radix2 b0). lra.
  - rewrite H0. repeat split.
  - rewrite (rs_ext n _ (fun i => fval (t i))) in A by (intros i Hi; field; lra). apply Rle_trans with (1 := A). rewrite Rmult_assoc. apply Rmult_le_compat_l; [lra |].
    replace (bpow radix2 (b0 - 21)) with (bpow radix2 b0 * bpow radix2 (-21)) by (rewrite <- bpow_plus; f_equal; lia). apply Rle_trans with (2 * (INR n * bpow radix2 b) * bpow radix2 (-21)); [apply Rmult_le_compat_r; [apply bpow_ge_0 | exact B2] |].
    replace (bpow radix2 (b - 20)) with (bpow radix2 b * bpow radix2 (-20)) by (rewrite <- bpow_plus; f_equal; lia).
    assert (E : bpow radix2 (-20) = 2 * bpow radix2 (-21)) by (change 2 with (bpow radix2 1); rewrite <- bpow_plus; reflexivity). rewrite E. right. ring.
Qed.
(** A weighted variance, from the forward variables that make the weight. *)
Lemma term_up b (w y c : f64) s z : (0 <= b <= 99)%Z -> num_in 0 2 w -> num_in 0 (bpow radix2 b) y -> fval y <= z -> is_f64 c -> is_num c = true -> fval c = 1 -> 0 <= s <= 2 -> Rabs (fval w - s) <= / 1125899906842624 ->
  fval (fdiv (fmul (fmul w w) y) c) <= s * s * z + bpow radix2 (b - 20).
Proof.
  intros Hb Wi (Vy & Ny & By) Lz Vc Nc C1 Bs Ws. destruct (square2 w Wi) as ((V2 & N2 & B2) & _). destruct Wi as (Vw & Nw & Bw). assert (P0 := bpow_gt_0 radix2 b). set (B := bpow radix2 b) in *.
  assert (U0 := uround_pos). assert (U : uround <= / 1125899906842624) by (unfold uround; change (/ 1125899906842624) with (/ bpow radix2 50); rewrite <- bpow_opp; apply bpow_le; lia).
  assert (F0 : 0 <= ufloor) by apply bpow_ge_0. assert (F1 : ufloor <= / 1125899906842624) by (unfold ufloor; change (/ 1125899906842624) with (/ bpow radix2 50); rewrite <- bpow_opp; apply bpow_le; lia).
  assert (B1 : 1 <= B) by (change 1 with (bpow radix2 0); apply bpow_le; lia).
  assert (Bg : 64 * B < bpow radix2 1024) by (unfold B; change 64 with (bpow radix2 6); rewrite <- bpow_plus; apply bpow_lt; lia).
  assert (Up : forall a m, 0 <= a <= m -> 0 <= rnd a <= a + m * / 1125899906842624 + / 1125899906842624).
  { intros a m Ha. split; [apply rnd_nonneg, Ha |]. assert (e := rnd_err a). rewrite (Rabs_pos_eq a) in e by apply Ha. apply Rabs_le_inv in e. assert (a * uround <= m * / 1125899906842624) by (apply Rmult_le_compat; lra). lra. }
  set (W := fval w) in *. set (Y := fval y) in *. apply Rabs_le_inv in Ws.
  assert (W2 : 0 <= W * W <= 4) by nra. destruct (f_mul_num w w Vw Vw Nw Nw) as (_ & E2). { fold W. destruct (Up (W * W) 4 W2). rewrite Rabs_pos_eq by lra. lra. } fold W in E2.
  destruct (Up (W * W) 4 W2) as (X1 & X2). rewrite <- E2 in X1, X2. set (q := fmul w w) in *. set (Q := fval q) in *.
  assert (QY : 0 <= Q * Y <= 4 * B) by (split; [apply Rmult_le_pos; lra | apply Rmult_le_compat; lra]).
  destruct (Up (Q * Y) (4 * B) QY) as (X3 & X4).
  destruct (f_mul_num q y V2 Vy N2 Ny) as (N3 & E3); [fold Q Y; rewrite Rabs_pos_eq by lra; lra |]. fold Q Y in E3. assert (V3 := f_mul_valid q y V2 Vy). set (p := fmul q y) in *. rewrite <- E3 in X3, X4.
  destruct (Up (fval p / fval c) (5 * B)) as (X5 & X6); [rewrite C1; lra |].
  destruct (f_div_num p c V3 Vc N3) as (_ & E4); [lra | rewrite Rabs_pos_eq by lra; rewrite C1 in *; lra |]. rewrite E4, C1 in *. replace (fval p / 1) with (fval p) in * by field.
  assert (WS : W * W <= s * s + 5 * / 1125899906842624).
  { assert (W <= s + / 1125899906842624) by lra. assert (W * W <= (s + / 1125899906842624) * (s + / 1125899906842624)) by (apply Rmult_le_compat; lra). assert (s * / 1125899906842624 <= 2 * / 1125899906842624) by (apply Rmult_le_compat_r; lra). lra. }
  assert (Qs : Q * Y <= (s * s + 10 * / 1125899906842624) * Y) by (apply Rmult_le_compat_r; lra).
  assert (Qz : s * s * Y <= s * s * z) by (apply Rmult_le_compat_l; [nra | exact Lz]).
  assert (E20 : bpow radix2 (b - 20) = B * / 1048576) by (unfold B; change (/ 1048576) with (bpow radix2 (-20)); rewrite <- bpow_plus; reflexivity). rewrite E20. lra.
Qed.
Lemma sum_squares n (s : nat -> R) : (forall i, (i < n)%nat -> 0 <= s i) -> 0 <= rs n s /\ rs n (fun i => s i * s i) <= rs n s * rs n s.
Proof.
  induction n as [| n IH]; intros H; [cbn; lra |]. destruct IH as (I1 & I2); [intros i Hi; apply H; lia |]. assert (X := H n ltac:(lia)). cbn [rs]. split; [lra |].
  assert (0 <= rs n s * s n) by (apply Rmult_le_pos; lra). nra.
Qed.

Lemma term_err4 b (w y c : f64) : (-100 <= b <= 101)%Z -> num_in 0 4 w -> num_in (- bpow radix2 b) (bpow radix2 b) y -> num_in (bpow radix2 (-33)) (bpow radix2 33) c -> fval w <= 2 * fval c ->
  is_f64 (fdiv (fmul w y) c) /\ is_num (fdiv (fmul w y) c) = true /\ Rabs (fval (fdiv (fmul w y) c) - fval w / fval c * fval y) <= bpow radix2 b * / 1099511627776 /\
  (0 <= fval y -> 0 <= fval (fdiv (fmul w y) c)).
Proof.
  intros Hb (Vw & Nw & Bw) (Vy & Ny & By) (Vc & Nc & Bc) Lw. assert (B0 := bpow_gt_0 radix2 b). set (B := bpow radix2 b) in *.
  assert (C0 : 0 < fval c) by (eapply Rlt_le_trans; [apply bpow_gt_0 | apply Bc]).
  assert (U0 := uround_pos). assert (U : uround <= / 1125899906842624) by (unfold uround; change (/ 1125899906842624) with (/ bpow radix2 50); rewrite <- bpow_opp; apply bpow_le; lia).
  assert (F0 : 0 <= ufloor) by apply bpow_ge_0.
  assert (F : ufloor * bpow radix2 33 <= B * / 1125899906842624). { unfold ufloor, B. change (/ 1125899906842624) with (/ bpow radix2 50). rewrite <- bpow_opp, <- !bpow_plus. apply bpow_le. lia. }
  assert (F1 : ufloor <= B * / 1125899906842624). { unfold ufloor, B. change (/ 1125899906842624) with (/ bpow radix2 50). rewrite <- bpow_opp, <- !bpow_plus. apply bpow_le. lia. }
  set (W := fval w) in *. set (Y := fval y) in *. set (C := fval c) in *.
  assert (HY : Rabs Y <= B) by now apply Rabs_le.
  assert (WY : Rabs (W * Y) <= W * B). { rewrite Rabs_mult, (Rabs_pos_eq W) by apply Bw. apply Rmult_le_compat_l; [apply Bw | exact HY]. }
  assert (WB : W * B <= 4 * B) by nra.
  assert (B101 : B <= bpow radix2 101) by (apply bpow_le; lia). assert (Big : 8 * bpow radix2 101 < bpow radix2 1024) by (change 8 with (bpow radix2 3); rewrite <- bpow_plus; apply bpow_lt; lia).
  assert (e1 := rnd_err (W * Y)).
  assert (R1 : Rabs (rnd (W * Y)) <= 5 * B).
  { replace (rnd (W * Y)) with (rnd (W * Y) - W * Y + W * Y) by ring. eapply Rle_trans; [apply Rabs_triang |]. pose proof (Rabs_pos (W * Y)). nra. }
  destruct (f_mul_num w y Vw Vy Nw Ny) as (Np & Ep); [fold W Y; lra |]. fold W Y in Ep. assert (Vp := f_mul_valid w y Vw Vy). set (p := fmul w y) in *.
  (* the quotient *)
  assert (I0 : 0 < / C) by now apply Rinv_0_lt_compat.
  assert (IC : / C <= bpow radix2 33). { change 33%Z with (- (-33))%Z. rewrite bpow_opp. apply Rinv_le; [apply bpow_gt_0 | apply Bc]. }
  assert (WC : W * / C <= 2). { apply (Rmult_le_reg_r C); [exact C0 |]. rewrite Rmult_assoc, Rinv_l by lra. lra. }
  assert (WC0 : 0 <= W * / C) by (apply Rmult_le_pos; lra).
  assert (e2 : Rabs (fval p / C - W / C * Y) <= 2 * B * / 1125899906842624 + B * / 1125899906842624).
  { rewrite Ep. replace (rnd (W * Y) / C - W / C * Y) with ((rnd (W * Y) - W * Y) * / C) by (field; lra). rewrite Rabs_mult, (Rabs_pos_eq (/ C)) by lra.
    apply Rle_trans with ((W * B * uround + ufloor) * / C). { apply Rmult_le_compat_r; [lra |]. apply Rle_trans with (1 := e1). apply Rplus_le_compat_r. apply Rmult_le_compat_r; lra. }
    rewrite Rmult_plus_distr_r. apply Rplus_le_compat; [| apply Rle_trans with (2 := F); apply Rmult_le_compat_l; lra].
    replace (W * B * uround * / C) with (W * / C * B * uround) by ring. apply Rmult_le_compat; [nra | lra | nra | exact U]. }
  assert (Q0 : Rabs (W / C * Y) <= 2 * B). { unfold Rdiv. rewrite Rabs_mult, Rabs_pos_eq by exact WC0. pose proof (Rabs_pos Y). nra. }
  assert (Q1 : Rabs (fval p / C) <= 3 * B). { replace (fval p / C) with ((fval p / C - W / C * Y) + W / C * Y) by ring. eapply Rle_trans; [apply Rabs_triang |]. lra. }
  assert (e3 := rnd_err (fval p / C)).
  assert (R2 : Rabs (rnd (fval p / C)) <= 4 * B).
  { replace (rnd (fval p / C)) with (rnd (fval p / C) - fval p / C + fval p / C) by ring. eapply Rle_trans; [apply Rabs_triang |]. pose proof (Rabs_pos (fval p / C)). nra. }
  destruct (f_div_num p c Vp Vc Np) as (Nq & Eq); [fold C; lra | fold C; lra |]. fold C in Eq. assert (Vq := f_div_valid p c Vp Vc).
  split; [exact Vq |]. split; [exact Nq |]. rewrite Eq. split.
  - replace (rnd (fval p / C) - W / C * Y) with ((rnd (fval p / C) - fval p / C) + (fval p / C - W / C * Y)) by ring. eapply Rle_trans; [apply Rabs_triang |].
    assert (Rabs (fval p / C) * uround <= 3 * B * / 1125899906842624) by (apply Rmult_le_compat; [apply Rabs_pos | lra | lra | exact U]). lra.
  - intros PY. apply rnd_nonneg. apply Rmult_le_pos; [rewrite Ep; apply rnd_nonneg; apply Rmult_le_pos; lra | lra].
Qed.

Section Cov.
  Variables fexp fln : f64 -> f64.
  Hypothesis LM : libm_f64 fexp fln.
  Local Notation A := (FA fexp fln).
  Local Notation fire x g := (let* g := gm_likelihood (A := A) x [] g in gm_regression_with (A := A) as_single x g).
  Local Notation rlo := (rlo fexp fln).
  Local Notation rhi := (rhi fexp fln).
  Local Notation rnc := (rnc fexp fln).

  (** The loop of the regression over [n] states from [lo]. *)
  Lemma wcov_loop (P : gclass A -> Prop) x (wf : nat -> res f64) mode no lo n (nc : f64) (ss0 ss : list (gclass A)) (o0 v0 o v : list f64) : (forall g g', kept fexp fln g g' -> P g -> P g') -> Forall P ss0 ->
    iterM n (fun k s =>
          let '(ss, o, v) := s in
          let* g := rd ss (lo + k) in
          let* g := fire x g in
          let* ss := wr ss (lo + k) g in
          let* w := wf (lo + k)%nat in
          let* (o, v) := iterM no (fun d s =>
            let '(o, v) := s in
            let* a := rd o d in
            let* y := rd (gc_out g) d in
            let* o := wr o d (as_single (nadd (a := A) a (ndiv (a := A) (nmul (a := A) w y) nc))) in
            let* v := match mode with
              | Full => iterM no (fun d2 v =>
                  let* a := rd v (d * no + d2) in
                  let* c := rd (gc_ocov g) (d * no + d2) in
                  wr v (d * no + d2) (as_single (nadd (a := A) a (ndiv (a := A) (nmul (a := A) (nmul (a := A) w w) c) nc)))) v
              | Diagonal =>
                  let* a := rd v d in
                  let* c := rd (gc_ocov g) d in
                  wr v d (as_single (nadd (a := A) a (ndiv (a := A) (nmul (a := A) (nmul (a := A) w w) c) nc)))
              end in
            Ok (o, v)) (o, v) in
          Ok (ss, o, v)) (ss0, o0, v0) = Ok (ss, o, v) ->
    mode = Diagonal -> forall d, (d < no)%nat -> exists q y : nat -> f64, q 0%nat = ent v0 d /\ q n = ent v d /\
      forall k, (k < n)%nat -> (exists w, wf (lo + k)%nat = Ok w /\ q (S k) = as_single (fadd (q k) (fdiv (fmul (fmul w w) (y k)) nc))) /\ exists g g2, P g /\ fire x g = Ok g2 /\ y k = ent (gc_ocov g2) d.
  Proof.
    intros PK F E Dm. assert (FP : forall g g2, fire x g = Ok g2 -> P g -> P g2) by (intros g g2 Q; destruct (fire_kept fexp fln x g g2 Q) as (_ & _ & _ & _ & K); exact (PK _ _ K)).
    apply iterM_seq in E. destruct E as (st & E0 & En & Es).
    assert (Ex : forall k, (k < n)%nat -> Forall P (fst (fst (st k))) -> Forall P (fst (fst (st (S k)))) /\ exists g g2, P g /\ fire x g = Ok g2 /\
      (forall d, (d < no)%nat -> exists w, wf (lo + k)%nat = Ok w /\ ent (snd (st (S k))) d = as_single (fadd (ent (snd (st k)) d) (fdiv (fmul (fmul w w) (ent (gc_ocov g2) d)) nc)))).
    { intros k Hk Fk. specialize (Es k Hk). cbv beta in Es. destruct (st k) as ((s1 & o1) & v1). destruct (st (S k)) as ((s2 & o2) & v2). cbn [fst snd] in *.
      apply bind_ok_inv in Es. destruct Es as (g & Eg & Es). apply bind_ok_inv in Es. destruct Es as (g2 & Eg2 & Es). apply bind_ok_inv in Es. destruct Es as (s3 & Es3 & Es). apply bind_ok_inv in Es. destruct Es as (w & Ew & Es). apply bind_ok_inv in Es. destruct Es as ((o3 & v3) & Ei & Es).
      assert (X1 : o3 = o2) by exact (f_equal (fun r => match r with Ok p => snd (fst p) | _ => o3 end) Es). assert (X2 : v3 = v2) by exact (f_equal (fun r => match r with Ok p => snd p | _ => v3 end) Es). assert (X3 : s3 = s2) by exact (f_equal (fun r => match r with Ok p => fst (fst p) | _ => s3 end) Es). subst o3 v3 s3.
      assert (Pg : P g) by (eapply rd_Forall; eauto). split; [eapply Forall_wr; [exact Fk | eapply FP; eauto | exact Es3] |]. exists g, g2. split; [exact Pg |]. split; [exact Eg2 |].
      apply (pair_loop no (gc_out g2) (fun a yd => as_single (nadd (a := A) a (ndiv (a := A) (nmul (a := A) w yd) nc))) _ (S754_zero false)) in Ei. destruct Ei as (_ & I & V).
      intros d Hd. rewrite Dm in V.
      apply (vec_loop no (gc_ocov g2) (fun a c => as_single (nadd (a := A) a (ndiv (a := A) (nmul (a := A) (nmul (a := A) w w) c) nc))) (S754_zero false)) in V. destruct V as (_ & V). destruct (V d Hd) as (Q & _). exists w. split; [exact Ew | exact Q]. }
    assert (St : forall k, (k <= n)%nat -> Forall P (fst (fst (st k)))).
    { induction k as [| k IH]; intros Hk; [rewrite E0; exact F |]. apply (Ex k ltac:(lia)). apply IH. lia. }
    intros d Hd. destruct (finite_choice (S754_zero false) (fun k y => (exists w, wf (lo + k)%nat = Ok w /\ ent (snd (st (S k))) d = as_single (fadd (ent (snd (st k)) d) (fdiv (fmul (fmul w w) y) nc))) /\ exists g g2, P g /\ fire x g = Ok g2 /\ y = ent (gc_ocov g2) d) n) as (y & Y).
      { intros k Hk. destruct (Ex k Hk (St k ltac:(lia))) as (_ & g & g2 & Pg & Eg & Q). exists (ent (gc_ocov g2) d). split; [exact (Q d Hd) | exists g, g2; auto]. }
      exists (fun k => ent (snd (st k)) d), y. split; [rewrite E0; reflexivity |]. split; [rewrite En; reflexivity | exact Y].
  Qed.

  Lemma wcov_inv (P : gclass A -> Prop) x (h h' : hclass A) : (forall g g', kept fexp fln g g' -> P g -> P g') -> Forall P (h_states (hc_net h)) -> hp_mode (hc_par h) = Diagonal -> hm_regression_with (A := A) as_single x h = Ok h' ->
    exists no, usub (hc_dim h) (hc_din h) = Ok no /\
    match hp_est (hc_par h) with
    | RLikeliest => h_ocov (hc_run h') = repeat (S754_zero false) no
    | _ =>
        (forall d, (d < no)%nat -> exists o y : nat -> f64, o 0%nat = S754_zero false /\ o (rhi h - rlo h)%nat = ent (h_ocov (hc_run h')) d /\
          forall k, (k < rhi h - rlo h)%nat -> (exists w, hm_weight (A := A) h (rlo h + k) = Ok w /\ o (S k) = as_single (fadd (o k) (fdiv (fmul (fmul w w) (y k)) (rnc h)))) /\ exists g g2, P g /\ fire x g = Ok g2 /\ y k = ent (gc_ocov g2) d)
    end.
  Proof.
    intros PK F Dm H. unfold hm_regression_with in H. cbv zeta in H. apply bind_ok_inv in H. destruct H as (no & Eno & H). exists no. split; [exact Eno |].
    unfold Proofs_Float32.rlo, Proofs_Float32.rhi, Proofs_Float32.rnc.
    destruct (hp_est (hc_par h)) eqn:Est.
    - apply bind_ok_inv in H. destruct H as (((ss & o) & v) & E & H). injection H as <-. cbn [hc_run hc_set_run hc_net hc_set_net nt_states h_states h_out h_ocov rn_out].
      assert (L2 := wcov_loop P x (hm_weight (A := A) h) _ no 0 _ _ _ ss _ _ o v PK F E Dm).
      intros d Hd. destruct (L2 d Hd) as (q & y & Q0 & Q). exists q, y. split; [rewrite Q0; unfold ent; apply nth_repeat | exact Q].
    - apply bind_ok_inv in H. destruct H as (((ss & o) & v) & E & H). injection H as <-. cbn [hc_run hc_set_run hc_net hc_set_net nt_states h_states h_out h_ocov rn_out].
      assert (L2 := wcov_loop P x (hm_weight (A := A) h) _ no _ _ _ _ ss _ _ o v PK F E Dm).
      intros d Hd. destruct (L2 d Hd) as (q & y & Q0 & Q). exists q, y. split; [rewrite Q0; unfold ent; apply nth_repeat | exact Q].
    - apply bind_ok_inv in H. destruct H as (g & Eg & H). apply bind_ok_inv in H. destruct H as (g2 & Eg2 & H). apply bind_ok_inv in H. destruct H as (ss & Es & H). injection H as <-. rewrite Dm. reflexivity.
  Qed.

  Lemma class_var G d b hi x (h h' : hclass A) : (0 <= b <= 76)%Z -> (Z.of_nat G <= 2 ^ 20)%Z -> hc_hier h = true -> (Z.of_nat (hc_n h) <= 2 ^ 20)%Z -> unit_alpha fexp fln h -> hwindow fexp fln h -> frame_f64 x ->
    Forall (fun g => state_reg fexp fln G (hc_dim h) (hc_din h) g /\ variances_in d hi g) (h_states (hc_net h)) -> 0 <= hi <= bpow radix2 b -> (hc_din h + d < hc_dim h)%nat -> hp_mode (hc_par h) = Diagonal -> hm_regression_with (A := A) as_single x h = Ok h' ->
    num_in 0 (INR (hc_n h) * bpow radix2 (b + 4)) (ent (h_ocov (hc_run h')) d) /\ (hp_est (hc_par h) = RLikeliest -> ent (h_ocov (hc_run h')) d = S754_zero false).
  Proof.
    intros Hb HG Hh Hn U W Fx Fs Rg Hd Dm H. set (P := fun g => state_reg fexp fln G (hc_dim h) (hc_din h) g /\ variances_in d hi g) in *.
    assert (PK : forall g g', kept fexp fln g g' -> P g -> P g') by (intros g g' K (P1 & P2); split; [eapply state_reg_kept; eauto | eapply vars_kept; eauto]).
    destruct (wcov_inv P x h h' PK Fs Dm H) as (no & Eno & M). unfold usub in Eno. destruct (Nat.leb_spec (hc_din h) (hc_dim h)) as [L | L]; [| discriminate]. injection Eno as <-.
    assert (Pb := bpow_gt_0 radix2 b). assert (Z0 : num_in 0 (INR (hc_n h) * bpow radix2 (b + 4)) (S754_zero false)).
    { split; [reflexivity |]. split; [reflexivity |]. change (fval (S754_zero false)) with 0. split; [lra |]. apply Rmult_le_pos; [apply pos_INR | apply bpow_ge_0]. }
    assert (B1 : bpow radix2 (b + 1) = 2 * bpow radix2 b) by (rewrite bpow_plus; change (bpow radix2 1) with 2; ring). assert (B4 : bpow radix2 (b + 4) = 2 * bpow radix2 (b + 1 + 2)) by (rewrite !bpow_plus; change (bpow radix2 4) with 16; change (bpow radix2 1) with 2; change (bpow radix2 2) with 4; ring).
    assert (CG : INR G * bpow radix2 (b - 20) <= bpow radix2 b).
    { replace (bpow radix2 b) with (bpow radix2 20 * bpow radix2 (b - 20)) by (rewrite <- bpow_plus; f_equal; lia). apply Rmult_le_compat_r; [apply bpow_ge_0 |]. rewrite INR_IZR_INZ. change (bpow radix2 20) with (IZR (2 ^ 20)). now apply IZR_le. }
    assert (Y : forall g g2, P g -> fire x g = Ok g2 -> num_in 0 (bpow radix2 (b + 1)) (ent (gc_ocov g2) d)).
    { intros g g2 (P1 & P2) E. eapply num_in_weaken; [apply (fire_var fexp fln LM G (hc_dim h) (hc_din h) d b x g g2) with (hi := hi); auto; [lia | lra] | lra | lra]. }
    assert (Main : hp_est (hc_par h) <> RLikeliest -> (forall d0, (d0 < hc_dim h - hc_din h)%nat -> exists o y : nat -> f64, o 0%nat = S754_zero false /\ o (rhi h - rlo h)%nat = ent (h_ocov (hc_run h')) d0 /\
          forall k, (k < rhi h - rlo h)%nat -> (exists w, hm_weight (A := A) h (rlo h + k) = Ok w /\ o (S k) = as_single (fadd (o k) (fdiv (fmul (fmul w w) (y k)) (rnc h)))) /\ exists g g2, P g /\ fire x g = Ok g2 /\ y k = ent (gc_ocov g2) d0) ->
        num_in 0 (INR (hc_n h) * bpow radix2 (b + 4)) (ent (h_ocov (hc_run h')) d)).
    { intros Ne MM. destruct (MM d ltac:(lia)) as (o & y & O0 & On & Os). destruct (const_ok fexp fln h Hh Hn U W Ne) as (C0 & C1 & C2 & C3 & C4). set (n := (rhi h - rlo h)%nat) in *.
      destruct (finite_choice (S754_zero false) (fun k w => hm_weight (A := A) h (rlo h + k) = Ok w /\ o (S k) = as_single (fadd (o k) (fdiv (fmul (fmul w w) (y k)) (rnc h)))) n) as (w & Hw); [intros k Hk; apply (proj1 (Os k Hk)) |].
      assert (T : forall k, (k < n)%nat -> num_in 0 (bpow radix2 (b + 1 + 2)) (fdiv (fmul (fmul (w k) (w k)) (y k)) (rnc h))).
      { intros k Hk. destruct (Hw k Hk) as (E1 & _). destruct (Os k Hk) as (_ & g & g2 & Pg & Eg & Ey). destruct (Y g g2 Pg Eg) as (Y1 & Y2 & Y3). rewrite <- Ey in Y1, Y2, Y3.
        destruct (weight_in fexp fln h (rlo h + k) (w k) Hh U ltac:(lia) E1) as (Wi & _). destruct (square2 _ Wi) as (S1 & S2). assert (C5 := C4 k (w k) Hk E1).
        destruct (term_bound4 (b + 1) (fmul (w k) (w k)) (y k) (rnc h) ltac:(lia) S1) as ((T1 & T2 & T3) & T4); [split; [exact Y1 |]; split; [exact Y2 | lra] | exact C1 | exact C2 | exact C3 | lra |].
        split; [exact T1 |]. split; [exact T2 |]. split; [apply T4; apply Y3 | apply T3]. }
      destruct (acc_nonneg (b + 1 + 2) n (fun k => fdiv (fmul (fmul (w k) (w k)) (y k)) (rnc h)) o ltac:(lia) ltac:(lia) T O0) as (A1 & A2 & A3); [intros k Hk; apply (Hw k Hk) |].
      rewrite <- On. split; [exact A1 |]. split; [exact A2 |]. assert (Z : INR n * bpow radix2 (b + 4) <= INR (hc_n h) * bpow radix2 (b + 4)) by (apply Rmult_le_compat_r; [apply bpow_ge_0 | apply le_INR; lia]). rewrite B4 in *. lra. }
    destruct (hp_est (hc_par h)) eqn:Est; [split; [apply Main; [discriminate | exact M] | discriminate] | split; [apply Main; [discriminate | exact M] | discriminate] |].
    rewrite M. unfold ent. rewrite nth_repeat. split; [exact Z0 | reflexivity].
  Qed.
  Lemma class_var_full G d b hi x (h h' : hclass A) : (0 <= b <= 75)%Z -> (Z.of_nat G <= 2 ^ 20)%Z -> hc_hier h = true -> (Z.of_nat (hc_n h) <= 2 ^ 20)%Z -> (1 <= hc_n h)%nat -> unit_alpha fexp fln h -> frame_f64 x ->
    Forall (fun g => state_reg fexp fln G (hc_dim h) (hc_din h) g /\ variances_in d hi g) (h_states (hc_net h)) -> 0 <= hi <= bpow radix2 b -> (hc_din h + d < hc_dim h)%nat -> hp_mode (hc_par h) = Diagonal -> hm_regression_with (A := A) as_single x h = Ok h' ->
    hp_est (hc_par h) = RFull -> let S := rs (hc_n h) (fun k => fval (ent (h_a0 (hc_run h)) k)) + rs (hc_n h) (fun k => fval (ent (h_a1 (hc_run h)) k)) in
    fval (ent (h_ocov (hc_run h')) d) <= S * S * hi + INR (hc_n h) * (4 * INR G + 10 * INR (hc_n h)) * bpow radix2 (b - 20).
  Proof.
    intros Hb HG Hh Hn N1 U Fx Fs Rg Hd Dm H Est. set (P := fun g => state_reg fexp fln G (hc_dim h) (hc_din h) g /\ variances_in d hi g) in *.
    assert (PK : forall g g', kept fexp fln g g' -> P g -> P g') by (intros g g' K (P1 & P2); split; [eapply state_reg_kept; eauto | eapply vars_kept; eauto]).
    destruct (wcov_inv P x h h' PK Fs Dm H) as (no & Eno & M). unfold usub in Eno. destruct (Nat.leb_spec (hc_din h) (hc_dim h)) as [L | L]; [| discriminate]. injection Eno as <-. rewrite Est in M.
    assert (Pb := bpow_gt_0 radix2 b). assert (B1 : bpow radix2 (b + 1) = 2 * bpow radix2 b) by (rewrite bpow_plus; change (bpow radix2 1) with 2; ring).
    assert (P20 := bpow_gt_0 radix2 (b - 20)). assert (GG : 0 <= INR G * bpow radix2 (b - 20)) by (apply Rmult_le_pos; [apply pos_INR | lra]).
    assert (CG : INR G * bpow radix2 (b - 20) <= bpow radix2 b).
    { replace (bpow radix2 b) with (bpow radix2 20 * bpow radix2 (b - 20)) by (rewrite <- bpow_plus; f_equal; lia). apply Rmult_le_compat_r; [apply bpow_ge_0 |]. rewrite INR_IZR_INZ. change (bpow radix2 20) with (IZR (2 ^ 20)). now apply IZR_le. }
    set (gg := INR G * bpow radix2 (b - 20)) in *.
    assert (Y : forall g g2, P g -> fire x g = Ok g2 -> num_in 0 (hi + gg) (ent (gc_ocov g2) d)) by (intros g g2 (P1 & P2) E; apply (fire_var fexp fln LM G (hc_dim h) (hc_din h) d b x g g2) with (hi := hi); auto; [lia | lra]).
    destruct (M d ltac:(lia)) as (o & y & O0 & On & Os).
    assert (Rn : rnc h = n1 (A := A)) by (unfold Proofs_Float32.rnc; rewrite Est; vm_compute; reflexivity). rewrite Rn in Os. destruct (FA_n1 fexp fln) as (O1 & O2 & O3).
    unfold Proofs_Float32.rlo, Proofs_Float32.rhi in *. rewrite Est in On, Os. replace (hc_n h - 0)%nat with (hc_n h) in * by lia. set (n := hc_n h) in *.
    destruct (finite_choice (S754_zero false) (fun k w => hm_weight (A := A) h k = Ok w /\ o (S k) = as_single (fadd (o k) (fdiv (fmul (fmul w w) (y k)) (n1 (A := A))))) n) as (w & Hw); [intros k Hk; apply (proj1 (Os k Hk)) |].
    set (s := fun i => fval (ent (h_a0 (hc_run h)) i) + fval (ent (h_a1 (hc_run h)) i)).
    assert (Ws : forall i, (i < n)%nat -> 0 <= s i <= 2 /\ Rabs (fval (w i) - s i) <= / 1125899906842624).
    { intros i Hi. destruct (Hw i Hi) as (E0 & _). unfold hm_weight in E0. rewrite Hh in E0. apply bind_ok_inv in E0. destruct E0 as (p & Ep & E0). apply bind_ok_inv in E0. destruct E0 as (q & Eq & E0). injection E0 as E0. apply ent_rd in Ep. apply ent_rd in Eq.
      destruct (U i Hi) as (Up & Uq). unfold s. rewrite Ep in *. rewrite Eq in *. rewrite <- E0. exact (add_close p q Up Uq). }
    assert (Yk : forall k, (k < n)%nat -> num_in 0 (bpow radix2 (b + 1)) (y k) /\ fval (y k) <= hi + gg).
    { intros k Hk. destruct (Os k Hk) as (_ & g & g2 & Pg & Eg & Ey). rewrite Ey. split; [eapply num_in_weaken; [exact (Y g g2 Pg Eg) | lra | lra] | apply (Y g g2 Pg Eg)]. }
    assert (Wk : forall k, (k < n)%nat -> num_in 0 2 (w k)) by (intros k Hk; apply (weight_in fexp fln h k (w k) Hh U Hk (proj1 (Hw k Hk)))).
    set (t := fun k => fdiv (fmul (fmul (w k) (w k)) (y k)) (n1 (A := A))).
    assert (T : forall k, (k < n)%nat -> num_in 0 (bpow radix2 (b + 1 + 2)) (t k)).
    { intros k Hk. destruct (Yk k Hk) as ((Y1 & Y2 & Y3) & _). destruct (square2 _ (Wk k Hk)) as (S1 & _).
      destruct (term_bound4 (b + 1) (fmul (w k) (w k)) (y k) (n1 (A := A)) ltac:(lia) S1) as ((T1 & T2 & T3) & T4); [split; [exact Y1 |]; split; [exact Y2 | lra] | exact O1 | exact O2 | rewrite O3; lra | rewrite O3; destruct S1 as (_ & _ & S1); lra |].
      split; [exact T1 |]. split; [exact T2 |]. split; [apply T4; apply Y3 | apply T3]. }
    assert (C := acc_close (b + 1 + 2) n t o ltac:(lia) Hn N1 T O0 (fun k Hk => proj2 (Hw k Hk))). rewrite On in C.
    assert (E8 : bpow radix2 (b + 1 + 2 - 20) = 8 * bpow radix2 (b - 20)) by (change 8 with (bpow radix2 3); rewrite <- bpow_plus; f_equal; lia). rewrite E8 in C.
    assert (E1 : bpow radix2 (b + 1 - 20) = 2 * bpow radix2 (b - 20)) by (change 2 with (bpow radix2 1); rewrite <- bpow_plus; f_equal; lia).
    assert (Sum : forall k, (k <= n)%nat -> rs k (fun i => fval (t i)) <= rs k (fun i => s i * s i) * hi + INR k * (4 * gg + 2 * bpow radix2 (b - 20))).
    { induction k as [| k IH]; intros Hk; [cbn; lra |]. specialize (IH ltac:(lia)). cbn [rs]. rewrite S_INR. destruct (Yk k ltac:(lia)) as (Y1 & Y2). destruct (Ws k ltac:(lia)) as (W1 & W2).
      assert (X := term_up (b + 1) (w k) (y k) (n1 (A := A)) (s k) (hi + gg) ltac:(lia) (Wk k ltac:(lia)) Y1 Y2 O1 O2 O3 W1 W2). rewrite E1 in X.
      assert (Z : s k * s k <= 4) by nra. assert (Zg : s k * s k * gg <= 4 * gg) by (apply Rmult_le_compat_r; lra). unfold t at 2. lra. }
    specialize (Sum n (le_n n)). destruct (sum_squares n s) as (Q1 & Q2); [intros i Hi; apply (Ws i Hi) |].
    assert (Es : rs n s = rs n (fun k => fval (ent (h_a0 (hc_run h)) k)) + rs n (fun k => fval (ent (h_a1 (hc_run h)) k))). { generalize n. induction n0 as [| k IH]; [cbn; lra |]. cbn [rs]. rewrite IH. unfold s. ring. }
    cbv zeta. rewrite <- Es. apply Rabs_le_inv in C. assert (Q3 : rs n (fun i => s i * s i) * hi <= rs n s * rs n s * hi) by (apply Rmult_le_compat_r; lra).
    assert (In1 : 1 <= INR n) by (apply (le_INR 1); exact N1). assert (X : INR n * bpow radix2 (b - 20) <= INR n * INR n * bpow radix2 (b - 20)) by (apply Rmult_le_compat_r; [lra | nra]).
    replace (INR n * (4 * INR G + 10 * INR n) * bpow radix2 (b - 20)) with (4 * (INR n * gg) + 10 * (INR n * INR n * bpow radix2 (b - 20))) by (unfold gg; ring). lra.
  Qed.
  Lemma class_var_windowed G d b hi x (h h' : hclass A) : (0 <= b <= 75)%Z -> (Z.of_nat G <= 2 ^ 20)%Z -> hc_hier h = true -> (Z.of_nat (hc_n h) <= 2 ^ 20)%Z -> unit_alpha fexp fln h -> hwindow fexp fln h -> frame_f64 x ->
    Forall (fun g => state_reg fexp fln G (hc_dim h) (hc_din h) g /\ variances_in d hi g) (h_states (hc_net h)) -> 0 <= hi <= bpow radix2 b -> (hc_din h + d < hc_dim h)%nat -> hp_mode (hc_par h) = Diagonal -> hm_regression_with (A := A) as_single x h = Ok h' ->
    hp_est (hc_par h) = RWindowed -> (2 <= hc_n h)%nat -> (exists k, (k < hc_n h)%nat /\ bpow radix2 (-33) <= fval (ent (h_a0 (hc_run h)) k) + fval (ent (h_a1 (hc_run h)) k)) ->
    let S := rs (hc_n h) (fun k => fval (ent (h_a0 (hc_run h)) k)) + rs (hc_n h) (fun k => fval (ent (h_a1 (hc_run h)) k)) in
    fval (ent (h_ocov (hc_run h')) d) <= S * hi + INR (hc_n h) * (4 * INR G + 10 * INR (hc_n h)) * bpow radix2 (b - 20).
  Proof.
    intros Hb HG Hh Hn U W Fx Fs Rg Hd Dm H Est H2 (k0 & Hk0 & Bk0). assert (Ne : hp_est (hc_par h) <> RLikeliest) by (rewrite Est; discriminate). set (P := fun g => state_reg fexp fln G (hc_dim h) (hc_din h) g /\ variances_in d hi g) in *.
    assert (PK : forall g g', kept fexp fln g g' -> P g -> P g') by (intros g g' K (P1 & P2); split; [eapply state_reg_kept; eauto | eapply vars_kept; eauto]).
    destruct (wcov_inv P x h h' PK Fs Dm H) as (no & Eno & M). unfold usub in Eno. destruct (Nat.leb_spec (hc_din h) (hc_dim h)) as [L | L]; [| discriminate]. injection Eno as <-. rewrite Est in M.
    assert (Pb := bpow_gt_0 radix2 b). assert (B1 : bpow radix2 (b + 1) = 2 * bpow radix2 b) by (rewrite bpow_plus; change (bpow radix2 1) with 2; ring).
    assert (P20 := bpow_gt_0 radix2 (b - 20)). assert (GG : 0 <= INR G * bpow radix2 (b - 20)) by (apply Rmult_le_pos; [apply pos_INR | lra]).
    assert (CG : INR G * bpow radix2 (b - 20) <= bpow radix2 b).
    { replace (bpow radix2 b) with (bpow radix2 20 * bpow radix2 (b - 20)) by (rewrite <- bpow_plus; f_equal; lia). apply Rmult_le_compat_r; [apply bpow_ge_0 |]. rewrite INR_IZR_INZ. change (bpow radix2 20) with (IZR (2 ^ 20)). now apply IZR_le. }
    set (gg := INR G * bpow radix2 (b - 20)) in *.
    assert (Y : forall g g2, P g -> fire x g = Ok g2 -> num_in 0 (hi + gg) (ent (gc_ocov g2) d)) by (intros g g2 (P1 & P2) E; apply (fire_var fexp fln LM G (hc_dim h) (hc_din h) d b x g g2) with (hi := hi); auto; [lia | lra]).
    destruct (M d ltac:(lia)) as (o & y & O0 & On & Os).
    destruct (const_ok fexp fln h Hh Hn U W Ne) as (C0 & _). destruct W as (W1 & g & G1 & G2 & G3). destruct (G3 Hh U H2) as (lk & L1 & L2).
    unfold Proofs_Float32.rlo, Proofs_Float32.rhi in *. rewrite Est in C0, On, Os. set (wl := h_wmin (hc_run h)) in *. set (wh := h_wmax (hc_run h)) in *. set (nc := h_wnorm (hc_run h)) in *. set (n := (wh - wl)%nat) in *.
    assert (Gw : forall i, (i < n)%nat -> num_in 0 2 (g i)) by (intros i Hi; apply (weight_in fexp fln h (wl + i) (g i) Hh U); [lia | now apply G1]).
    assert (Na : num_in (- sum_bound 2 n) (sum_bound 2 n) (nsum (A := A) n g)).
    { apply (nsum_abs fexp fln); [lia | lra | change 2 with (bpow radix2 1) at 1; apply bpow_le; lia | intros i Hi; eapply num_in_weaken; [apply Gw, Hi | lra | lra]]. }
    rewrite <- G2 in Na. destruct Na as (Vc & Nc & Bc).
    assert (Nn : forall i, (i < n)%nat -> nn (g i)) by (intros i Hi; apply nonneg_nn; eapply num_in_nonneg; [| apply Gw, Hi]; apply Rle_refl).
    destruct (nsum_nn fexp fln n g Nn) as (_ & Q). rewrite <- G2 in Q. destruct (Q Nc) as (Q1 & _).
    (* the likeliest state *)
    destruct (L2 k0 Hk0) as (v0 & v1 & E0 & E1 & Le).
    assert (B0 : bpow radix2 (-33) <= fval v0).
    { unfold hm_weight in E0. rewrite Hh in E0. apply bind_ok_inv in E0. destruct E0 as (p & Ep & E0). apply bind_ok_inv in E0. destruct E0 as (q & Eq & E0). injection E0 as <-. apply ent_rd in Ep. apply ent_rd in Eq. rewrite Ep, Eq in Bk0.
      destruct (U k0 Hk0) as (Up & Uq). rewrite Ep in Up. rewrite Eq in Uq. change (bpow radix2 (-33) <= fval (fadd p q)). exact (add_least p q (-33) ltac:(lia) Up Uq Bk0). }
    assert (Bl : fval v1 <= fval nc). { assert (X := G1 (lk - wl)%nat ltac:(lia)). replace (wl + (lk - wl))%nat with lk in X by lia. rewrite E1 in X. injection X as ->. apply (Q1 (lk - wl)%nat). lia. }
    assert (Bn : num_in (bpow radix2 (-33)) (bpow radix2 33) nc).
    { split; [exact Vc |]. split; [exact Nc |]. split; [lra |]. apply Rle_trans with (1 := proj2 Bc). unfold sum_bound. destruct (growth n ltac:(lia)) as ((X0 & _) & X1). assert (X2 : INR n <= bpow radix2 20) by (rewrite INR_IZR_INZ; change (bpow radix2 20) with (IZR (2 ^ 20)); apply IZR_le; lia).
      assert (X3 : bpow radix2 (-20) <= 1) by (change 1 with (bpow radix2 0); apply bpow_le; lia). assert (X4 := pos_INR n). change (bpow radix2 33) with (8589934592). change (bpow radix2 20) with 1048576 in X2. nra. }
    assert (Rn : rnc h = nc) by (unfold Proofs_Float32.rnc; rewrite Est; exact (rnc_pos fexp fln nc Bn)). rewrite Rn in Os.
    assert (P0 : 0 < fval nc) by (eapply Rlt_le_trans; [apply (bpow_gt_0 radix2 (-33)) | apply Bn]).
    destruct (shares_sum fexp fln g n nc ltac:(lia) Gw G2 Nc P0) as (S1 & S2).
    assert (Hw : forall k, (k < n)%nat -> o (S k) = as_single (fadd (o k) (fdiv (fmul (fmul (g k) (g k)) (y k)) nc))). { intros k Hk. destruct (Os k Hk) as ((w & E & X) & _). rewrite (G1 k Hk) in E. injection E as <-. exact X. }
    assert (Yk : forall k, (k < n)%nat -> num_in 0 (bpow radix2 (b + 1)) (y k) /\ fval (y k) <= hi + gg).
    { intros k Hk. destruct (Os k Hk) as (_ & e & e2 & Pg & Eg & Ey). rewrite Ey. split; [eapply num_in_weaken; [exact (Y e e2 Pg Eg) | lra | lra] | apply (Y e e2 Pg Eg)]. }
    set (t := fun k => fdiv (fmul (fmul (g k) (g k)) (y k)) nc).
    assert (T : forall k, (k < n)%nat -> num_in 0 (bpow radix2 (b + 1 + 2)) (t k)).
    { intros k Hk. destruct (Yk k Hk) as ((Y1 & Y2 & Y3) & _). destruct (square2 _ (Gw k Hk)) as (X1 & X2). assert (X3 := S1 k Hk).
      destruct (term_bound4 (b + 1) (fmul (g k) (g k)) (y k) nc ltac:(lia) X1) as ((T1 & T2 & T3) & T4); [split; [exact Y1 |]; split; [exact Y2 | lra] | exact Vc | exact Nc | exact P0 | lra |].
      split; [exact T1 |]. split; [exact T2 |]. split; [apply T4; apply Y3 | apply T3]. }
    assert (Hn1 : (1 <= n)%nat) by lia.
    assert (C := acc_close (b + 1 + 2) n t o ltac:(lia) ltac:(lia) Hn1 T O0 Hw). rewrite On in C.
    assert (E8 : bpow radix2 (b + 1 + 2 - 20) = 8 * bpow radix2 (b - 20)) by (change 8 with (bpow radix2 3); rewrite <- bpow_plus; f_equal; lia). rewrite E8 in C.
    (* the part of the mass *)
    set (s := fun i => fval (ent (h_a0 (hc_run h)) i) + fval (ent (h_a1 (hc_run h)) i)).
    assert (Sp : forall i, (i < hc_n h)%nat -> 0 <= s i <= 2) by (intros i Hi; destruct (U i Hi) as (Up & Uq); apply (add_close _ _ Up Uq)).
    assert (Sle : forall m, (m <= hc_n h)%nat -> 0 <= rs m s <= 2 * INR m /\ forall i, (i < m)%nat -> s i <= rs m s).
    { induction m as [| m IH]; intros Hm; [cbn; split; [lra | intros i Hi; lia] |]. destruct (IH ltac:(lia)) as (I1 & I2). assert (X := Sp m ltac:(lia)). cbn [rs]. rewrite S_INR. split; [lra |]. intros i Hi. destruct (Nat.eq_dec i m) as [-> | Nm]; [lra |]. specialize (I2 i ltac:(lia)). lra. }
    destruct (Sle (hc_n h) (le_n _)) as (M1 & M2). set (SS := rs (hc_n h) s) in *.
    assert (Wg : forall i, (i < n)%nat -> fval (g i) <= SS + / 1125899906842624).
    { intros i Hi. assert (E := G1 i Hi). unfold hm_weight in E. rewrite Hh in E. apply bind_ok_inv in E. destruct E as (p & Ep & E). apply bind_ok_inv in E. destruct E as (q & Eq & E). injection E as E. apply ent_rd in Ep. apply ent_rd in Eq.
      destruct (U (wl + i)%nat ltac:(lia)) as (Up & Uq). destruct (add_close _ _ Up Uq) as (_ & X). apply Rabs_le_inv in X. assert (X2 := M2 (wl + i)%nat ltac:(lia)). unfold s in X2. rewrite Ep, Eq in X, X2. change (fadd p q = g i) in E. rewrite E in X. lra. }
    assert (U0 := uround_pos). assert (Uu : uround <= / 1125899906842624) by (unfold uround; change (/ 1125899906842624) with (/ bpow radix2 50); rewrite <- bpow_opp; apply bpow_le; lia).
    assert (F0 : 0 <= ufloor) by apply bpow_ge_0. assert (F : ufloor * bpow radix2 33 <= / 1125899906842624) by (unfold ufloor; change (/ 1125899906842624) with (/ bpow radix2 50); rewrite <- bpow_opp, <- bpow_plus; apply bpow_le; lia).
    assert (IC : / fval nc <= bpow radix2 33) by (change 33%Z with (- (-33))%Z; rewrite bpow_opp; apply Rinv_le; [apply bpow_gt_0 | apply Bn]). assert (I0 : 0 < / fval nc) by now apply Rinv_0_lt_compat.
    assert (Tk : forall k, (k < n)%nat -> fval (t k) <= (fval (g k) / fval nc * (SS + 3 * / 1125899906842624) + / 1125899906842624) * (hi + gg) + bpow radix2 (b + 1) * / 1099511627776).
    { intros k Hk. destruct (Yk k Hk) as ((Y1 & Y2 & Y3) & Y4). destruct (square2 _ (Gw k Hk)) as (X1 & X2). assert (X3 := S1 k Hk). assert (X4 := Wg k Hk). destruct (Gw k Hk) as (V & Nk & Bk).
      destruct (term_err4 (b + 1) (fmul (g k) (g k)) (y k) nc ltac:(lia) X1) as (_ & _ & T3 & _); [split; [exact Y1 |]; split; [exact Y2 | lra] | exact Bn | lra |]. fold (t k) in T3. apply Rabs_le_inv in T3.
      assert (Sq : fval (fmul (g k) (g k)) <= fval (g k) * (SS + 3 * / 1125899906842624) + ufloor).
      { destruct (f_mul_num (g k) (g k) V V Nk Nk) as (_ & E). { assert (L3 : Rabs (rnd (fval (g k) * fval (g k))) <= fval (g k) * bpow radix2 1) by (apply rnd_abs; [apply fmt_scaled; [exact V | lia] |]; rewrite Rabs_pos_eq by (apply Rmult_le_pos; lra); change (bpow radix2 1) with 2; apply Rmult_le_compat_l; lra).
          apply Rle_lt_trans with (1 := L3). apply Rle_lt_trans with (bpow radix2 2); [change (bpow radix2 2) with 4; change (bpow radix2 1) with 2; lra | apply bpow_lt; lia]. }
        rewrite E. assert (e := rnd_err (fval (g k) * fval (g k))). rewrite (Rabs_pos_eq (fval (g k) * fval (g k))) in e by (apply Rmult_le_pos; lra). apply Rabs_le_inv in e.
        assert (fval (g k) * fval (g k) * uround <= fval (g k) * (2 * / 1125899906842624)) by (rewrite Rmult_assoc; apply Rmult_le_compat_l; [lra |]; apply Rmult_le_compat; lra).
        assert (fval (g k) * fval (g k) <= fval (g k) * (SS + / 1125899906842624)) by (apply Rmult_le_compat_l; lra). lra. }
      assert (Qc : fval (fmul (g k) (g k)) / fval nc <= fval (g k) / fval nc * (SS + 3 * / 1125899906842624) + / 1125899906842624).
      { apply Rle_trans with ((fval (g k) * (SS + 3 * / 1125899906842624) + ufloor) * / fval nc); [apply Rmult_le_compat_r; lra |]. assert (ufloor * / fval nc <= ufloor * bpow radix2 33) by (apply Rmult_le_compat_l; lra). unfold Rdiv. lra. }
      assert (Q0 : 0 <= fval (fmul (g k) (g k)) / fval nc) by (destruct X1 as (_ & _ & X1); apply Rmult_le_pos; lra).
      assert (Z : fval (fmul (g k) (g k)) / fval nc * fval (y k) <= (fval (g k) / fval nc * (SS + 3 * / 1125899906842624) + / 1125899906842624) * (hi + gg)) by (apply Rmult_le_compat; lra). lra. }
    assert (Sum : forall k, (k <= n)%nat -> rs k (fun i => fval (t i)) <= (rs k (fun i => fval (g i) / fval nc) * (SS + 3 * / 1125899906842624) + INR k * / 1125899906842624) * (hi + gg) + INR k * (bpow radix2 (b + 1) * / 1099511627776)).
    { induction k as [| k IH]; intros Hk; [cbn; lra |]. specialize (IH ltac:(lia)). cbn [rs]. rewrite S_INR. assert (X := Tk k ltac:(lia)). lra. }
    specialize (Sum n (le_n n)). set (sh := rs n (fun i => fval (g i) / fval nc)) in *.
    assert (Es : SS = rs (hc_n h) (fun k => fval (ent (h_a0 (hc_run h)) k)) + rs (hc_n h) (fun k => fval (ent (h_a1 (hc_run h)) k))). { unfold SS. generalize (hc_n h). induction n0 as [| k IH]; [cbn; lra |]. cbn [rs]. rewrite IH. unfold s. ring. }
    cbv zeta. rewrite <- Es. apply Rabs_le_inv in C. set (nn := INR (hc_n h)) in *.
    assert (Nh : INR n <= nn) by (apply le_INR; lia). assert (In1 : 1 <= INR n) by (apply (le_INR 1); exact Hn1).
    assert (E40 : bpow radix2 (-40) = / 1099511627776) by reflexivity. rewrite E40 in S2.
    assert (Bb : bpow radix2 b = 1048576 * bpow radix2 (b - 20)) by (change 1048576 with (bpow radix2 20); rewrite <- bpow_plus; f_equal; lia). rewrite B1 in Sum. set (u := bpow radix2 (b - 20)) in *. rewrite Bb in *.
    (* the shares *)
    assert (K1 : sh * (SS + 3 * / 1125899906842624) + INR n * / 1125899906842624 <= SS + 4 * (nn * nn) * / 1099511627776).
    { assert (J1 : sh * (SS + 3 * / 1125899906842624) <= (1 + INR n * / 1099511627776) * (SS + 3 * / 1125899906842624)) by (apply Rmult_le_compat_r; lra).
      assert (J2 : INR n * SS <= nn * (2 * nn)) by (apply Rmult_le_compat; lra). assert (J3 : INR n <= nn * nn) by nra. assert (J4 : 1 <= nn * nn) by nra. lra. }
    assert (K2 : (sh * (SS + 3 * / 1125899906842624) + INR n * / 1125899906842624) * (hi + gg) <= (SS + 4 * (nn * nn) * / 1099511627776) * (hi + gg)) by (apply Rmult_le_compat_r; lra).
    assert (K3 : SS * gg <= 2 * nn * gg) by (apply Rmult_le_compat_r; lra).
    assert (Nq : 0 <= nn * nn) by (apply Rmult_le_pos; lra).
    assert (K4 : nn * nn * (hi + gg) <= nn * nn * (2097152 * u)) by (apply Rmult_le_compat_l; lra).
    assert (K5 : INR n * u <= nn * nn * u) by (apply Rmult_le_compat_r; [lra | nra]). assert (K6 : INR n * INR n * u <= nn * nn * u) by (apply Rmult_le_compat_r; [lra | apply Rmult_le_compat; lra]).
    replace (nn * (4 * INR G + 10 * nn) * u) with (4 * nn * gg + 10 * (nn * nn * u)) by (unfold gg; ring). assert (0 <= nn * gg) by (apply Rmult_le_pos; lra).
    assert (Nu : 0 <= nn * nn * u) by (apply Rmult_le_pos; lra). lra.
  Qed.
End Cov.
