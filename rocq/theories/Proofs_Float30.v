(** Weighted sums divided by a constant, into a [float]. *)
From Coq Require Import String ZArith QArith Reals Lra Lia Bool List Arith.
From Coq Require Import Floats.SpecFloat.
From Flocq Require Import Core.Core IEEE754.BinarySingleNaN Relative.
From Verif Require Import Base BaseFacts Arith Spec_Float Spec_Float2 Proofs_Float1 Proofs_Float2 Proofs_Float4 Proofs_Float6 Proofs_Single1 Proofs_Float26.
From Verif Require Import Model_Single Model_Single2.
Import ListNotations.
Local Open Scope R_scope.

#[local] Existing Instance Proofs_Float1.Hprec.
#[local] Existing Instance Proofs_Float1.Hmax.
#[local] Existing Instance Proofs_Single1.Sprec.
#[local] Existing Instance Proofs_Single1.Smax.

Local Notation fadd := (SFadd fprec femax).
Local Notation fmul := (SFmul fprec femax).
Local Notation fdiv := (SFdiv fprec femax).

(** The product of a weight and a value, divided by a constant. *)
Lemma term_err b (w y c : f64) : (-100 <= b <= 101)%Z -> num_in 0 1 w -> num_in (- bpow radix2 b) (bpow radix2 b) y -> num_in (bpow radix2 (-33)) (bpow radix2 33) c -> fval w <= 2 * fval c ->
  is_f64 (fdiv (fmul w y) c) /\ is_num (fdiv (fmul w y) c) = true /\ Rabs (fval (fdiv (fmul w y) c) - fval w / fval c * fval y) <= bpow radix2 b * / 1099511627776 /\
  (0 <= fval y -> 0 <= fval (fdiv (fmul w y) c)).
Proof.
  intros Hb (Vw & Nw & Bw) (Vy & Ny & By) (Vc & Nc & Bc) Lw. assert (B0 := bpow_gt_0 radix2 b). set (B := bpow radix2 b) in *.
  assert (C0 : 0 < fval c) by (eapply Rlt_le_trans; [apply bpow_gt_0 | apply Bc]).
  assert (U0 := uround_pos). assert (U : uround <= / 1125899906842624) by (unfold uround; change (/ 1125899906842624) with (/ bpow radix2 50); rewrite <- bpow_opp; apply bpow_le; lia).
  assert (F0 : 0 <= ufloor) by apply bpow_ge_0.
  assert (F : ufloor * bpow radix2 33 <= B * / 1125899906842624). { unfold ufloor, B. change (/ 1125899906842624) with (/ bpow radix2 50). rewrite <- bpow_opp, <- !bpow_plus. apply bpow_le. lia. }
  assert (F1 : ufloor <= B * / 1125899906842624). { unfold ufloor, B. change (/ 1125899906842624) with (/ bpow radix2 50). rewrite <- bpow_opp, <- !bpow_plus. apply bpow_le. lia. }
  set (W := fval w) in *. set (Y := fval y) in *. set (C := fval c) in *.
  assert (HY : Rabs Y <= B) by now apply Rabs_le.
  assert (WY : Rabs (W * Y) <= W * B). { rewrite Rabs_mult, (Rabs_pos_eq W) by apply Bw. apply Rmult_le_compat_l; [apply Bw | exact HY]. }
  assert (WB : W * B <= B) by nra.
  assert (B101 : B <= bpow radix2 101) by (apply bpow_le; lia). assert (Big : 8 * bpow radix2 101 < bpow radix2 1024) by (change 8 with (bpow radix2 3); rewrite <- bpow_plus; apply bpow_lt; lia).
  assert (e1 := rnd_err (W * Y)).
  assert (R1 : Rabs (rnd (W * Y)) <= 2 * B).
  { replace (rnd (W * Y)) with (rnd (W * Y) - W * Y + W * Y) by ring. eapply Rle_trans; [apply Rabs_triang |]. pose proof (Rabs_pos (W * Y)). nra. }
  destruct (f_mul_num w y Vw Vy Nw Ny) as (Np & Ep); [fold W Y; lra |]. fold W Y in Ep. assert (Vp := f_mul_valid w y Vw Vy). set (p := fmul w y) in *.
  (* the quotient *)
  assert (I0 : 0 < / C) by now apply Rinv_0_lt_compat.
  assert (IC : / C <= bpow radix2 33). { change 33%Z with (- (-33))%Z. rewrite bpow_opp. apply Rinv_le; [apply bpow_gt_0 | apply Bc]. }
  assert (WC : W * / C <= 2). { apply (Rmult_le_reg_r C); [exact C0 |]. rewrite Rmult_assoc, Rinv_l by lra. lra. }
  assert (WC0 : 0 <= W * / C) by (apply Rmult_le_pos; lra).
  assert (e2 : Rabs (fval p / C - W / C * Y) <= 2 * B * / 1125899906842624 + B * / 1125899906842624).
  { rewrite Ep. replace (rnd (W * Y) / C - W / C * Y) with ((rnd (W * Y) - W * Y) * / C) by (field; lra). rewrite Rabs_mult, (Rabs_pos_eq (/ C)) by lra.
    apply Rle_trans with ((W * B * uround + ufloor) * / C). { apply Rmult_le_compat_r; [lra |]. apply Rle_trans with (1 := e1). apply Rplus_le_compat_r. apply Rmult_le_compat_r; lra. }
    rewrite Rmult_plus_distr_r. apply Rplus_le_compat; [| apply Rle_trans with (2 := F); apply Rmult_le_compat_l; lra].
    replace (W * B * uround * / C) with (W * / C * B * uround) by ring. apply Rmult_le_compat; [nra | lra | nra | exact U]. }
  assert (Q0 : Rabs (W / C * Y) <= 2 * B). { unfold Rdiv. rewrite Rabs_mult, Rabs_pos_eq by exact WC0. pose proof (Rabs_pos Y). nra. }
  assert (Q1 : Rabs (fval p / C) <= 3 * B). { replace (fval p / C) with ((fval p / C - W / C * Y) + W / C * Y) by ring. eapply Rle_trans; [apply Rabs_triang |]. lra. }
  assert (e3 := rnd_err (fval p / C)).
  assert (R2 : Rabs (rnd (fval p / C)) <= 4 * B).
  { replace (rnd (fval p / C)) with (rnd (fval p / C) - fval p / C + fval p / C) by ring. eapply Rle_trans; [apply Rabs_triang |]. pose proof (Rabs_pos (fval p / C)). nra. }
  destruct (f_div_num p c Vp Vc Np) as (Nq & Eq); [fold C; lra | fold C; lra |]. fold C in Eq. assert (Vq := f_div_valid p c Vp Vc).
  split; [exact Vq |]. split; [exact Nq |]. rewrite Eq. split.
  - replace (rnd (fval p / C) - W / C * Y) with ((rnd (fval p / C) - fval p / C) + (fval p / C - W / C * Y)) by ring. eapply Rle_trans; [apply Rabs_triang |].
    assert (Rabs (fval p / C) * uround <= 3 * B * / 1125899906842624) by (apply Rmult_le_compat; [apply Rabs_pos | lra | lra | exact U]). lra.
  - intros PY. apply rnd_nonneg. apply Rmult_le_pos; [rewrite Ep; apply rnd_nonneg; apply Rmult_le_pos; lra | lra].
Qed.

Section AccT.
  Variables (b : Z) (n : nat) (v x : nat -> R) (t o : nat -> f64).
  Hypothesis Hb : (-100 <= b <= 100)%Z.
  Hypothesis Hn : (Z.of_nat n <= 2 ^ 20)%Z.
  Hypothesis Hv : forall i, (i < n)%nat -> 0 <= v i.
  Hypothesis Hv1 : rs n v <= 2.
  Hypothesis Hx : forall i, (i < n)%nat -> - bpow radix2 b <= x i <= bpow radix2 b.
  Hypothesis Ht : forall i, (i < n)%nat -> is_f64 (t i) /\ is_num (t i) = true /\ Rabs (fval (t i) - v i * x i) <= bpow radix2 b * / 1099511627776 /\ (0 <= x i -> 0 <= fval (t i)).
  Hypothesis H0 : is_f64 (o 0%nat) /\ is_num (o 0%nat) = true /\ fval (o 0%nat) = 0.
  Hypothesis Ho : forall i, (i < n)%nat -> o (S i) = as_single (fadd (o i) (t i)).

  Lemma acct_err : forall k, (k <= n)%nat -> is_f64 (o k) /\ is_num (o k) = true /\
    Rabs (fval (o k) - rs k (fun i => v i * x i)) <= INR k * bpow radix2 (b - 21) /\
    ((forall i, (i < n)%nat -> 0 <= x i) -> 0 <= fval (o k)).
  Proof.
    assert (BP := bpow_gt_0 radix2 b). set (B := bpow radix2 b) in *. assert (E21 : bpow radix2 (b - 21) = B * / 2097152) by (unfold Zminus; rewrite bpow_plus; reflexivity). rewrite E21.
    induction k as [| k IH]; intros Hk.
    { destruct H0 as (V & N & E). split; [exact V |]. split; [exact N |]. cbn [rs INR]. rewrite E. replace (0 - 0) with 0 by ring. rewrite Rabs_R0. split; [lra | intros; lra]. }
    destruct (IH ltac:(lia)) as (V & N & D & Z). clear IH. rewrite (Ho k) by lia. destruct (Ht k ltac:(lia)) as (Vp & Np & Bt & Zt). cbn [rs]. rewrite S_INR.
    set (P := rs k _) in *. set (W := v k) in *. set (X := x k) in *. set (O := fval (o k)) in *. set (p := t k) in *.
    assert (HP : Rabs P <= 2 * B).
    { eapply Rle_trans; [apply rs_abs |]. apply Rle_trans with (rs k (fun i => v i * B)).
      - apply rs_le. intros i Hi. assert (C := Hv i ltac:(lia)). assert (C' := Hx i ltac:(lia)). rewrite Rabs_mult, Rabs_pos_eq by exact C. apply Rmult_le_compat_l; [exact C |]. now apply Rabs_le.
      - rewrite rs_mul. apply Rmult_le_compat_r; [lra |]. apply Rle_trans with (2 := Hv1). apply rs_prefix; [lia |]. intros i Hi. apply (Hv i Hi). }
    assert (HW : 0 <= W <= 2).
    { split; [apply Hv; lia |]. apply Rle_trans with (2 := Hv1). apply Rle_trans with (rs (S k) v); [| apply rs_prefix; [lia | exact Hv]]. cbn [rs]. assert (0 <= rs k v) by (change 0 with (rs 0 v); apply rs_prefix; [lia | intros; apply Hv; lia]). fold W. lra. }
    assert (Kn : INR k * (B * / 2097152) <= B * / 2).
    { assert (INR k <= 1048576) by (rewrite INR_IZR_INZ; apply IZR_le; lia). nra. }
    assert (HX : Rabs X <= B) by (apply Rabs_le, Hx; lia).
    assert (WX : Rabs (W * X) <= 2 * B). { rewrite Rabs_mult, (Rabs_pos_eq W) by apply HW. pose proof (Rabs_pos X). nra. }
    assert (U : uround <= / 1125899906842624) by (unfold uround; change (/ 1125899906842624) with (/ bpow radix2 50); rewrite <- bpow_opp; apply bpow_le; lia).
    assert (U0 := uround_pos).
    assert (F : ufloor <= B * / 1099511627776). { unfold ufloor, B. change (/ 1099511627776) with (/ bpow radix2 40). rewrite <- bpow_opp, <- bpow_plus. apply bpow_le. lia. }
    assert (F150 : bpow radix2 (-150) <= B * / 1099511627776). { unfold B. change (/ 1099511627776) with (/ bpow radix2 40). rewrite <- bpow_opp, <- bpow_plus. apply bpow_le. lia. }
    assert (B100 : B <= bpow radix2 100) by (apply bpow_le; lia).
    assert (Big : 8 * bpow radix2 100 <= bpow radix2 126) by (change 8 with (bpow radix2 3); rewrite <- bpow_plus; apply bpow_le; lia).
    assert (Big2 : bpow radix2 126 < bpow radix2 1024) by (apply bpow_lt; lia).
    assert (R1 : Rabs (fval p) <= 2 * B + B * / 1099511627776). { replace (fval p) with (fval p - W * X + W * X) by ring. eapply Rle_trans; [apply Rabs_triang |]. lra. }
    (* the sum *)
    assert (HO : Rabs O <= 5 / 2 * B). { replace O with (O - P + P) by ring. eapply Rle_trans; [apply Rabs_triang |]. lra. }
    assert (HOp : Rabs (O + fval p) <= 19 / 4 * B). { eapply Rle_trans; [apply Rabs_triang |]. lra. }
    assert (e2 := rnd_err (O + fval p)).
    assert (R2 : Rabs (rnd (O + fval p)) <= 5 * B).
    { replace (rnd (O + fval p)) with (rnd (O + fval p) - (O + fval p) + (O + fval p)) by ring. eapply Rle_trans; [apply Rabs_triang |]. pose proof (Rabs_pos (O + fval p)). nra. }
    assert (Vt := f_add_valid (o k) p V Vp). destruct (f_add_num (o k) p V Vp N Np) as [(Nt & Et) | (sn & _ & I & _)]; [| fold O in I; lra]. fold O in Et. set (q := fadd (o k) p) in *.
    destruct (as_single_err q Vt Nt) as (Vf & Nf & e3 & Zf); [rewrite Et; lra |]. split; [exact Vf |]. split; [exact Nf |]. split.
    2: { intros Pos. apply Zf. rewrite Et. apply rnd_nonneg. specialize (Z Pos). specialize (Zt (Pos k ltac:(lia))). fold O in Z. lra. }
    replace (fval (as_single q) - (P + W * X)) with ((fval (as_single q) - fval q) + (rnd (O + fval p) - (O + fval p)) + (fval p - W * X) + (O - P)) by (rewrite Et; ring).
    eapply Rle_trans; [apply Rabs_triang |]. eapply Rle_trans; [apply Rplus_le_compat_r, Rabs_triang |]. eapply Rle_trans; [apply Rplus_le_compat_r, Rplus_le_compat_r, Rabs_triang |].
    rewrite Et in e3 at 2. change (bpow radix2 (-24)) with (/ 16777216) in e3.
    assert (Rabs (rnd (O + fval p)) * / 16777216 <= 5 * B * / 16777216) by (apply Rmult_le_compat_r; lra).
    assert (Rabs (O + fval p) * uround <= 19 / 4 * B * / 1125899906842624) by (apply Rmult_le_compat; [apply Rabs_pos | lra | lra | exact U]).
    rewrite Et in *. lra.
  Qed.

  Lemma acct_hull lo hi : (1 <= n)%nat -> 1 - INR n * bpow radix2 (-40) <= rs n v <= 1 + INR n * bpow radix2 (-40) ->
    - (2 * bpow radix2 b) <= lo -> hi <= 2 * bpow radix2 b -> (forall i, (i < n)%nat -> lo <= x i <= hi) ->
    num_in (lo - INR n * (3 / 4 * bpow radix2 (b - 20))) (hi + INR n * (3 / 4 * bpow radix2 (b - 20))) (o n).
  Proof.
    intros H1 Tw L H C. destruct (acct_err n (le_n n)) as (V & N & D & _). split; [exact V |]. split; [exact N |].
    assert (BP := bpow_gt_0 radix2 b). set (B := bpow radix2 b) in *. assert (E21 : bpow radix2 (b - 21) = B * / 2097152) by (unfold Zminus; rewrite bpow_plus; reflexivity). assert (E20 : bpow radix2 (b - 20) = B * / 1048576) by (unfold Zminus; rewrite bpow_plus; reflexivity).
    rewrite E20. rewrite E21 in D. change (bpow radix2 (-40)) with (/ 1099511627776) in Tw. assert (N1 : 1 <= INR n) by (apply (le_INR 1); exact H1).
    set (W := rs n v) in *. apply Rabs_le_inv in D. set (P := rs n (fun i => v i * x i)) in *.
    assert (LH : lo <= hi) by (specialize (C 0%nat ltac:(lia)); lra).
    assert (P1 : W * lo <= P) by (unfold W, P; rewrite <- rs_mul; apply rs_le; intros i Hi; apply Rmult_le_compat_l; [apply (Hv i Hi) | apply (C i Hi)]).
    assert (P2 : P <= W * hi) by (unfold W, P; rewrite <- rs_mul; apply rs_le; intros i Hi; apply Rmult_le_compat_l; [apply (Hv i Hi) | apply (C i Hi)]).
    assert (- (INR n * (2 * B * / 1099511627776)) <= (W - 1) * lo) by (assert (Q : Rabs ((W - 1) * lo) <= INR n * / 1099511627776 * (2 * B)) by (rewrite Rabs_mult; apply Rmult_le_compat; [apply Rabs_pos | apply Rabs_pos | apply Rabs_le; lra | apply Rabs_le; lra]); apply Rabs_le_inv in Q; lra).
    assert ((W - 1) * hi <= INR n * (2 * B * / 1099511627776)) by (assert (Q : Rabs ((W - 1) * hi) <= INR n * / 1099511627776 * (2 * B)) by (rewrite Rabs_mult; apply Rmult_le_compat; [apply Rabs_pos | apply Rabs_pos | apply Rabs_le; lra | apply Rabs_le; lra]); apply Rabs_le_inv in Q; lra).
    assert (0 < INR n * B) by nra. split; nra.
  Qed.

  Lemma acct_nonneg hi : rs n v <= 1 + INR n * bpow radix2 (-40) -> 0 <= hi ->
    hi <= 2 * bpow radix2 b -> (forall i, (i < n)%nat -> 0 <= x i <= hi) ->
    num_in 0 (hi + INR n * (3 / 4 * bpow radix2 (b - 20))) (o n).
  Proof.
    intros Tw H1 H C. destruct (acct_err n (le_n n)) as (V & N & D & Z). split; [exact V |]. split; [exact N |]. split; [apply Z; intros i Hi; apply (C i Hi) |].
    assert (BP := bpow_gt_0 radix2 b). set (B := bpow radix2 b) in *. assert (E21 : bpow radix2 (b - 21) = B * / 2097152) by (unfold Zminus; rewrite bpow_plus; reflexivity). assert (E20 : bpow radix2 (b - 20) = B * / 1048576) by (unfold Zminus; rewrite bpow_plus; reflexivity).
    rewrite E20. rewrite E21 in D. change (bpow radix2 (-40)) with (/ 1099511627776) in Tw. assert (N1 := pos_INR n).
    set (W := rs n v) in *. apply Rabs_le_inv in D. set (P := rs n (fun i => v i * x i)) in *.
    assert (P2 : P <= W * hi) by (unfold W, P; rewrite <- rs_mul; apply rs_le; intros i Hi; apply Rmult_le_compat_l; [apply (Hv i Hi) | apply (C i Hi)]).
    assert ((W - 1) * hi <= INR n * (2 * B * / 1099511627776)). { apply Rle_trans with (INR n * / 1099511627776 * (2 * B)); [| lra]. apply Rle_trans with (INR n * / 1099511627776 * hi); [apply Rmult_le_compat_r; lra |]. apply Rmult_le_compat_l; [| lra]. lra. }
    assert (0 <= INR n * B) by nra. nra.
  Qed.
End AccT.
