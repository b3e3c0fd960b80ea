(** Weighted sums into a [float]. *)
From Coq Require Import String ZArith QArith Reals Lra Lia Bool List Arith.
From Coq Require Import Floats.SpecFloat.
From Flocq Require Import Core.Core IEEE754.BinarySingleNaN Relative.
From Verif Require Import Base BaseFacts Arith Spec_Float Spec_Float2 Proofs_Float1 Proofs_Float2 Proofs_Float4 Proofs_Float6 Proofs_Single1.
From Verif Require Import Model_Single Model_Single2.
Import ListNotations.
Local Open Scope R_scope.

#[local] Existing Instance Proofs_Float1.Hprec.
#[local] Existing Instance Proofs_Float1.Hmax.
#[local] Existing Instance Proofs_Single1.Sprec.
#[local] Existing Instance Proofs_Single1.Smax.

(** ** Rounding errors *)
Lemma rnd_err x : Rabs (rnd x - x) <= Rabs x * uround + ufloor.
Proof.
  destruct (relative_error_N_FLT'_ex radix2 (-1074) 53 eq_refl (fun z => negb (Z.even z)) x) as (e & t & B & C & _ & E).
  change (rnd x = x * (1 + e) + t) in E. rewrite E. rewrite u_ro_uround in B. assert (U := uround_pos).
  assert (W : / 2 * bpow radix2 (-1074) = ufloor).
  { unfold ufloor. change (-1074)%Z with (-1075 + 1)%Z. rewrite bpow_plus. change (bpow radix2 1) with 2. field. }
  rewrite W in C. replace (x * (1 + e) + t - x) with (x * e + t) by ring.
  eapply Rle_trans; [apply Rabs_triang |]. apply Rplus_le_compat; [| exact C]. rewrite Rabs_mult. apply Rmult_le_compat_l; [apply Rabs_pos |].
  apply Rle_trans with (1 := B). apply (Rmult_le_reg_r (1 + uround)); [lra |]. unfold Rdiv. rewrite Rmult_assoc, Rinv_l by lra. nra.
Qed.

Lemma as_single_err x : is_f64 x -> is_num x = true -> Rabs (fval x) <= bpow radix2 126 ->
  is_f64 (as_single x) /\ is_num (as_single x) = true /\ Rabs (fval (as_single x) - fval x) <= Rabs (fval x) * bpow radix2 (-24) + bpow radix2 (-150) /\ (0 <= fval x -> 0 <= fval (as_single x)).
Proof.
  intros V N L. assert (B24 := bpow_gt_0 radix2 (-24)). assert (B150 := bpow_gt_0 radix2 (-150)).
  unfold as_single. destruct x as [s | s | | s m k]; try discriminate.
  { cbn [to_single of_single]. split; [reflexivity |]. split; [reflexivity |]. rewrite Rminus_diag_eq by reflexivity. rewrite Rabs_R0. pose proof (Rabs_pos (fval (S754_zero s))). split; [nra | intros; cbn; lra]. }
  cbn [to_single]. rewrite bn_equiv32. set (v := fval (S754_finite s m k)) in *.
  assert (C := binary_normalize_correct sprec semax _ _ mode_NE (cond_Zopp s (Z.pos m)) k s). cbv zeta in C.
  change (F2R {| Fnum := cond_Zopp s (Z.pos m); Fexp := k |}) with v in C.
  assert (R : Rabs (round radix2 fexp32 (round_mode mode_NE) v) <= bpow radix2 126).
  { apply abs_round_le_generic; [apply fexp_correct; reflexivity | apply valid_rnd_N | | exact L]. apply generic_format_bpow. rewrite fexp32_FLT. unfold FLT_exp. lia. }
  rewrite Rlt_bool_true in C by (apply Rle_lt_trans with (1 := R); apply bpow_lt; change semax with 128%Z; lia). destruct C as (E & F & _).
  destruct (of_single_val _ F) as (V1 & N1 & E1). split; [exact V1 |]. split; [exact N1 |]. rewrite E1, E. split; [| intros Pv; rewrite <- (round_0 radix2 fexp32 (round_mode mode_NE)); apply round_le; [apply fexp_correct; reflexivity | apply valid_rnd_N | exact Pv]].
  assert (G : round radix2 fexp32 (round_mode mode_NE) v = round radix2 (FLT_exp (-149) 24) (Znearest (fun z => negb (Z.even z))) v) by (apply round_ext; reflexivity).
  destruct (relative_error_N_FLT'_ex radix2 (-149) 24 eq_refl (fun z => negb (Z.even z)) v) as (e & t & B & D & _ & Q).
  rewrite G, Q. replace (v * (1 + e) + t - v) with (v * e + t) by ring.
  assert (U : u_ro radix2 24 = bpow radix2 (-24)) by (unfold u_ro; change (/ 2) with (bpow radix2 (-1)); rewrite <- bpow_plus; reflexivity). rewrite U in B.
  eapply Rle_trans; [apply Rabs_triang |]. apply Rplus_le_compat.
  - rewrite Rabs_mult. apply Rmult_le_compat_l; [apply Rabs_pos |]. apply Rle_trans with (1 := B). apply (Rmult_le_reg_r (1 + bpow radix2 (-24))); [lra |]. unfold Rdiv. rewrite Rmult_assoc, Rinv_l by lra. nra.
  - apply Rle_trans with (1 := D). change (-150)%Z with (-1 + -149)%Z. rewrite bpow_plus. apply Rle_refl.
Qed.

(** ** Sums of reals *)
Fixpoint rs (n : nat) (f : nat -> R) : R := match n with O => 0 | S n => rs n f + f n end.
Lemma rs_rsum n (q : nat -> f64) : rsum (tab n q) = rs n (fun i => fval (q i)).
Proof. induction n as [| n IH]; [reflexivity |]. unfold tab in *. rewrite seq_S, map_app. cbn [map rs]. rewrite rsum_app, IH. reflexivity. Qed.
Lemma rs_le n (f g : nat -> R) : (forall i, (i < n)%nat -> f i <= g i) -> rs n f <= rs n g.
Proof. induction n as [| n IH]; intros H; cbn [rs]; [lra |]. specialize (IH ltac:(intros; apply H; lia)). specialize (H n ltac:(lia)). lra. Qed.
Lemma rs_ext n (f g : nat -> R) : (forall i, (i < n)%nat -> f i = g i) -> rs n f = rs n g.
Proof. induction n as [| n IH]; intros H; cbn [rs]; [reflexivity |]. rewrite IH by (intros; apply H; lia). now rewrite H by lia. Qed.
Lemma rs_mul n a (f : nat -> R) : rs n (fun i => f i * a) = rs n f * a.
Proof. induction n as [| n IH]; cbn [rs]; [ring |]. rewrite IH. ring. Qed.
Lemma rs_add n a (f : nat -> R) : rs n (fun i => f i + a) = rs n f + INR n * a.
Proof. induction n as [| n IH]; cbn [rs]; [cbn; ring |]. rewrite IH, S_INR. ring. Qed.
Lemma rs_abs n (f : nat -> R) : Rabs (rs n f) <= rs n (fun i => Rabs (f i)).
Proof. induction n as [| n IH]; cbn [rs]; [rewrite Rabs_R0; lra |]. eapply Rle_trans; [apply Rabs_triang |]. lra. Qed.
Lemma rs_prefix n k (f : nat -> R) : (k <= n)%nat -> (forall i, (i < n)%nat -> 0 <= f i) -> rs k f <= rs n f.
Proof.
  intros Hk. induction n as [| n IH]; intros H; [replace k with 0%nat by lia; cbn; lra |]. destruct (Nat.eq_dec k (S n)) as [-> | D]; [lra |]. cbn [rs].
  specialize (IH ltac:(lia) ltac:(intros; apply H; lia)). specialize (H n ltac:(lia)). lra.
Qed.

(** Parts sum to 1, up to rounding. *)
Lemma parts_total n (l q : nat -> f64) : (1 <= n)%nat -> (Z.of_nat n <= 2 ^ 32 - 1)%Z -> parts_f64 n l q ->
  1 - INR n * bpow radix2 (-50) <= rs n (fun i => fval (q i)) <= 1 + INR n * bpow radix2 (-50).
Proof.
  intros H1 H2 (Sp & P). cbv zeta in P. rewrite rs_rsum in Sp, P. set (S := rs n (fun i => fval (l i))) in *.
  destruct (growth (n + 1) ltac:(lia)) as ((G1 & G2) & _). set (g := (1 + uround) ^ (n + 1)) in *. rewrite plus_INR in G2. change (INR 1) with 1 in G2.
  assert (N1 : 1 <= INR n) by (apply (le_INR 1); exact H1). assert (U := uround_pos). assert (I : rs n (fun i => fval (l i) * / S) = 1) by (rewrite rs_mul; unfold S; apply Rinv_r; unfold S in Sp; lra).
  assert (Uf : ufloor <= uround) by (apply bpow_le; lia). assert (U8 : bpow radix2 (-50) = 8 * uround) by (unfold uround; change (-50)%Z with (3 + -53)%Z; rewrite bpow_plus; reflexivity).
  assert (Ug : 1 - 2 * (INR n + 1) * uround <= / g).
  { apply (Rmult_le_reg_r g); [lra |]. rewrite Rinv_l by lra. assert (0 <= 2 * (INR n + 1) * uround) by nra. nra. }
  assert (Fp : 0 <= ufloor) by apply bpow_ge_0.
  split.
  - apply Rle_trans with (rs n (fun i => fval (l i) * / S * / g + - ufloor)).
    + rewrite rs_add, rs_mul, I. nra.
    + apply rs_le. intros i Hi. destruct (P i Hi) as (_ & B & _). unfold Rdiv in B. lra.
  - apply Rle_trans with (rs n (fun i => fval (l i) * / S * g + ufloor)).
    + apply rs_le. intros i Hi. destruct (P i Hi) as (_ & _ & B). unfold Rdiv in B. lra.
    + rewrite rs_add, rs_mul, I. nra.
Qed.

(** ** A weighted sum accumulated in a [float] *)
Definition fma1 (a w s : f64) : f64 := as_single (SFadd fprec femax a (SFmul fprec femax w s)).

Section Acc.
  Variables (b : Z) (n : nat) (w s o : nat -> f64).
  Hypothesis Hb : (-100 <= b <= 100)%Z.
  Hypothesis Hn : (Z.of_nat n <= 2 ^ 20)%Z.
  Hypothesis Hw : forall i, (i < n)%nat -> num_in 0 1 (w i).
  Hypothesis Hw1 : rs n (fun i => fval (w i)) <= 2.
  Hypothesis Hs : forall i, (i < n)%nat -> num_in (- bpow radix2 b) (bpow radix2 b) (s i).
  Hypothesis H0 : is_f64 (o 0%nat) /\ is_num (o 0%nat) = true /\ fval (o 0%nat) = 0.
  Hypothesis Ho : forall i, (i < n)%nat -> o (S i) = fma1 (o i) (w i) (s i).

  Lemma acc_err : forall k, (k <= n)%nat -> is_f64 (o k) /\ is_num (o k) = true /\
    Rabs (fval (o k) - rs k (fun i => fval (w i) * fval (s i))) <= INR k * bpow radix2 (b - 21) /\
    ((forall i, (i < n)%nat -> 0 <= fval (s i)) -> 0 <= fval (o k)).
  Proof.
    assert (BP := bpow_gt_0 radix2 b). set (B := bpow radix2 b) in *. assert (E21 : bpow radix2 (b - 21) = B * / 2097152) by (unfold Zminus; rewrite bpow_plus; reflexivity). rewrite E21.
    induction k as [| k IH]; intros Hk.
    { destruct H0 as (V & N & E). split; [exact V |]. split; [exact N |]. cbn [rs INR]. rewrite E. replace (0 - 0) with 0 by ring. rewrite Rabs_R0. split; [lra | intros; lra]. }
    destruct (IH ltac:(lia)) as (V & N & D & Z). clear IH. rewrite (Ho k) by lia. destruct (Hw k ltac:(lia)) as (Vw & Nw & Bw). destruct (Hs k ltac:(lia)) as (Vs & Ns & Bs). cbn [rs]. rewrite S_INR.
    set (P := rs k _) in *. set (W := fval (w k)) in *. set (X := fval (s k)) in *. set (O := fval (o k)) in *.
    assert (HP : Rabs P <= 2 * B).
    { eapply Rle_trans; [apply rs_abs |]. apply Rle_trans with (rs k (fun i => fval (w i) * B)).
      - apply rs_le. intros i Hi. destruct (Hw i ltac:(lia)) as (_ & _ & C). destruct (Hs i ltac:(lia)) as (_ & _ & C'). rewrite Rabs_mult, Rabs_pos_eq by apply C. apply Rmult_le_compat_l; [apply C |]. now apply Rabs_le.
      - rewrite rs_mul. apply Rmult_le_compat_r; [lra |]. apply Rle_trans with (2 := Hw1). apply rs_prefix; [lia |]. intros i Hi. apply (Hw i Hi). }
    assert (Kn : INR k * (B * / 2097152) <= B * / 2).
    { assert (INR k <= 1048576) by (rewrite INR_IZR_INZ; apply IZR_le; lia). nra. }
    assert (HX : Rabs X <= B) by now apply Rabs_le.
    assert (WX : Rabs (W * X) <= B). { rewrite Rabs_mult, (Rabs_pos_eq W) by apply Bw. pose proof (Rabs_pos X). nra. }
    assert (U : uround <= / 1125899906842624) by (unfold uround; change (/ 1125899906842624) with (/ bpow radix2 50); rewrite <- bpow_opp; apply bpow_le; lia).
    assert (U0 := uround_pos).
    assert (F : ufloor <= B * / 1099511627776). { unfold ufloor, B. change (/ 1099511627776) with (/ bpow radix2 40). rewrite <- bpow_opp, <- bpow_plus. apply bpow_le. lia. }
    assert (F150 : bpow radix2 (-150) <= B * / 1099511627776). { unfold B. change (/ 1099511627776) with (/ bpow radix2 40). rewrite <- bpow_opp, <- bpow_plus. apply bpow_le. lia. }
    assert (B100 : B <= bpow radix2 100) by (apply bpow_le; lia).
    assert (Big : 8 * bpow radix2 100 <= bpow radix2 126) by (change 8 with (bpow radix2 3); rewrite <- bpow_plus; apply bpow_le; lia).
    assert (Big2 : bpow radix2 126 < bpow radix2 1024) by (apply bpow_lt; lia).
    (* the product *)
    assert (e1 := rnd_err (W * X)).
    assert (R1 : Rabs (rnd (W * X)) <= 2 * B).
    { replace (rnd (W * X)) with (rnd (W * X) - W * X + W * X) by ring. eapply Rle_trans; [apply Rabs_triang |]. pose proof (Rabs_pos (W * X)). nra. }
    destruct (f_mul_num (w k) (s k) Vw Vs Nw Ns) as (Np & Ep); [fold W X; lra |]. fold W X in Ep.
    assert (Vp := f_mul_valid (w k) (s k) Vw Vs). unfold fma1. set (p := SFmul fprec femax (w k) (s k)) in *.
    (* the sum *)
    assert (HO : Rabs O <= 5 / 2 * B). { replace O with (O - P + P) by ring. eapply Rle_trans; [apply Rabs_triang |]. lra. }
    assert (HOp : Rabs (O + fval p) <= 9 / 2 * B). { eapply Rle_trans; [apply Rabs_triang |]. rewrite Ep. lra. }
    assert (e2 := rnd_err (O + fval p)).
    assert (R2 : Rabs (rnd (O + fval p)) <= 5 * B).
    { replace (rnd (O + fval p)) with (rnd (O + fval p) - (O + fval p) + (O + fval p)) by ring. eapply Rle_trans; [apply Rabs_triang |]. pose proof (Rabs_pos (O + fval p)). nra. }
    assert (Vt := f_add_valid (o k) p V Vp). destruct (f_add_num (o k) p V Vp N Np) as [(Nt & Et) | (sn & _ & I & _)]; [| fold O in I; lra]. fold O in Et. set (t := SFadd fprec femax (o k) p) in *.
    destruct (as_single_err t Vt Nt) as (Vf & Nf & e3 & Zf); [rewrite Et; lra |]. split; [exact Vf |]. split; [exact Nf |]. split.
    2: { intros Pos. apply Zf. rewrite Et. apply rnd_nonneg. specialize (Z Pos). rewrite Ep. assert (0 <= rnd (W * X)) by (apply rnd_nonneg, Rmult_le_pos; [apply Bw | apply Pos; lia]). fold O in Z. lra. }
    replace (fval (as_single t) - (P + W * X)) with ((fval (as_single t) - fval t) + (rnd (O + fval p) - (O + fval p)) + (rnd (W * X) - W * X) + (O - P)) by (rewrite Et, Ep; ring).
    eapply Rle_trans; [apply Rabs_triang |]. eapply Rle_trans; [apply Rplus_le_compat_r, Rabs_triang |]. eapply Rle_trans; [apply Rplus_le_compat_r, Rplus_le_compat_r, Rabs_triang |].
    rewrite Et in e3 at 2. change (bpow radix2 (-24)) with (/ 16777216) in e3.
    assert (Rabs (rnd (O + fval p)) * / 16777216 <= 5 * B * / 16777216) by (apply Rmult_le_compat_r; lra).
    assert (Rabs (O + fval p) * uround <= 9 / 2 * B * / 1125899906842624) by (apply Rmult_le_compat; [apply Rabs_pos | lra | lra | exact U]).
    assert (Rabs (W * X) * uround <= B * / 1125899906842624) by (apply Rmult_le_compat; [apply Rabs_pos | lra | lra | exact U]).
    rewrite Et in *. lra.
  Qed.

  (** The sum is between the bounds of the values, when the weights sum to 1. *)
  Lemma acc_hull lo hi : (1 <= n)%nat -> 1 - INR n * bpow radix2 (-50) <= rs n (fun i => fval (w i)) <= 1 + INR n * bpow radix2 (-50) ->
    - (2 * bpow radix2 b) <= lo -> hi <= 2 * bpow radix2 b -> (forall i, (i < n)%nat -> lo <= fval (s i) <= hi) ->
    num_in (lo - INR n * (3 / 4 * bpow radix2 (b - 20))) (hi + INR n * (3 / 4 * bpow radix2 (b - 20))) (o n).
  Proof.
    intros H1 Tw L H C. destruct (acc_err n (le_n n)) as (V & N & D & _). split; [exact V |]. split; [exact N |].
    assert (BP := bpow_gt_0 radix2 b). set (B := bpow radix2 b) in *. assert (E21 : bpow radix2 (b - 21) = B * / 2097152) by (unfold Zminus; rewrite bpow_plus; reflexivity). assert (E20 : bpow radix2 (b - 20) = B * / 1048576) by (unfold Zminus; rewrite bpow_plus; reflexivity).
    rewrite E20. rewrite E21 in D. change (bpow radix2 (-50)) with (/ 1125899906842624) in Tw. assert (N1 : 1 <= INR n) by (apply (le_INR 1); exact H1).
    set (W := rs n (fun i => fval (w i))) in *. apply Rabs_le_inv in D. set (P := rs n (fun i => fval (w i) * fval (s i))) in *.
    assert (LH : lo <= hi) by (specialize (C 0%nat ltac:(lia)); lra).
    assert (P1 : W * lo <= P) by (unfold W, P; rewrite <- rs_mul; apply rs_le; intros i Hi; apply Rmult_le_compat_l; [apply (Hw i Hi) | apply (C i Hi)]).
    assert (P2 : P <= W * hi) by (unfold W, P; rewrite <- rs_mul; apply rs_le; intros i Hi; apply Rmult_le_compat_l; [apply (Hw i Hi) | apply (C i Hi)]).
    assert (- (INR n * (2 * B * / 1125899906842624)) <= (W - 1) * lo) by (assert (Q : Rabs ((W - 1) * lo) <= INR n * / 1125899906842624 * (2 * B)) by (rewrite Rabs_mult; apply Rmult_le_compat; [apply Rabs_pos | apply Rabs_pos | apply Rabs_le; lra | apply Rabs_le; lra]); apply Rabs_le_inv in Q; lra).
    assert ((W - 1) * hi <= INR n * (2 * B * / 1125899906842624)) by (assert (Q : Rabs ((W - 1) * hi) <= INR n * / 1125899906842624 * (2 * B)) by (rewrite Rabs_mult; apply Rmult_le_compat; [apply Rabs_pos | apply Rabs_pos | apply Rabs_le; lra | apply Rabs_le; lra]); apply Rabs_le_inv in Q; lra).
    assert (0 < INR n * B) by nra. split; nra.
  Qed.

  (** Nonnegative values: the sum is not negative, and not above their bound if the weights do not sum to more than 1. *)
  Lemma acc_nonneg hi : (1 <= n)%nat -> rs n (fun i => fval (w i)) <= 1 + INR n * bpow radix2 (-50) ->
    hi <= 2 * bpow radix2 b -> (forall i, (i < n)%nat -> 0 <= fval (s i) <= hi) ->
    num_in 0 (hi + INR n * (3 / 4 * bpow radix2 (b - 20))) (o n).
  Proof.
    intros H1 Tw H C. destruct (acc_err n (le_n n)) as (V & N & D & Z). split; [exact V |]. split; [exact N |]. split; [apply Z; intros i Hi; apply (C i Hi) |].
    assert (BP := bpow_gt_0 radix2 b). set (B := bpow radix2 b) in *. assert (E21 : bpow radix2 (b - 21) = B * / 2097152) by (unfold Zminus; rewrite bpow_plus; reflexivity). assert (E20 : bpow radix2 (b - 20) = B * / 1048576) by (unfold Zminus; rewrite bpow_plus; reflexivity).
    rewrite E20. rewrite E21 in D. change (bpow radix2 (-50)) with (/ 1125899906842624) in Tw. assert (N1 : 1 <= INR n) by (apply (le_INR 1); exact H1).
    set (W := rs n (fun i => fval (w i))) in *. apply Rabs_le_inv in D. set (P := rs n (fun i => fval (w i) * fval (s i))) in *.
    assert (P2 : P <= W * hi) by (unfold W, P; rewrite <- rs_mul; apply rs_le; intros i Hi; apply Rmult_le_compat_l; [apply (Hw i Hi) | apply (C i Hi)]).
    assert (0 <= hi) by (specialize (C 0%nat ltac:(lia)); lra).
    assert ((W - 1) * hi <= INR n * (2 * B * / 1125899906842624)). { apply Rle_trans with (INR n * / 1125899906842624 * (2 * B)); [| lra]. apply Rle_trans with (INR n * / 1125899906842624 * hi); [apply Rmult_le_compat_r; lra |]. apply Rmult_le_compat_l; [| lra]. lra. }
    assert (0 < INR n * B) by nra. nra.
  Qed.
End Acc.
