(** Weighted sums of bounded doubles. *)
From Coq Require Import String ZArith QArith Reals Lra Lia Bool List Arith.
From Coq Require Import Floats.SpecFloat.
From Flocq Require Import Core.Core IEEE754.BinarySingleNaN Plus_error.
From Verif Require Import Base BaseFacts Arith RFacts Spec_Float Spec_Float2 Spec_Float3 Spec_Float5 Spec_Single Proofs_Float1 Proofs_Float2 Proofs_Float3 Proofs_Float4 Proofs_Float5 Proofs_Float6 Proofs_Float7 Proofs_Float8 Proofs_Float18 Proofs_Float19 Proofs_Single1.
From Verif Require Import Model_Single Model_Single2.
Import ListNotations.
Local Open Scope R_scope.

#[local] Existing Instance Proofs_Float1.Hprec.
#[local] Existing Instance Proofs_Float1.Hmax.
#[local] Existing Instance Proofs_Single1.Sprec.
#[local] Existing Instance Proofs_Single1.Smax.

(** Powers of two go through the rounding of a sum. *)
Lemma round_scale e z : (0 <= e)%Z -> bpow radix2 (-1021) < Rabs z -> rnd (bpow radix2 e * z) = bpow radix2 e * rnd z.
Proof.
  intros He Hz. assert (Z0 : z <> 0) by (intros ->; rewrite Rabs_R0 in Hz; pose proof (bpow_gt_0 radix2 (-1021)); lra).
  assert (Mz : (-1021 < mag radix2 z)%Z) by (apply mag_gt_bpow; lra).
  unfold rnd. unfold round, scaled_mantissa, cexp. rewrite (Rmult_comm (bpow radix2 e) z), mag_mult_bpow by exact Z0. rewrite !fexp_FLT.
  replace (FLT_exp (-1074) 53 (mag radix2 z + e)) with (FLT_exp (-1074) 53 (mag radix2 z) + e)%Z by (unfold FLT_exp; lia).
  set (c := FLT_exp (-1074) 53 (mag radix2 z)). unfold F2R. cbn [Fnum Fexp].
  replace (z * bpow radix2 e * bpow radix2 (- (c + e))) with (z * bpow radix2 (- c)) by (rewrite Rmult_assoc, <- bpow_plus; f_equal; f_equal; lia).
  rewrite bpow_plus. ring.
Qed.
Lemma fmt_scale e z : (0 <= e)%Z -> fmt z -> rnd (bpow radix2 e * z) = bpow radix2 e * z.
Proof.
  intros He F. apply rnd_fmt. destruct (Req_dec z 0) as [-> | N]; [rewrite Rmult_0_r; apply generic_format_0 |].
  unfold fmt in *. rewrite Rmult_comm. apply generic_format_F2R' with (f := {| Fnum := Ztrunc (scaled_mantissa radix2 (FLT_exp (-1074) 53) z); Fexp := cexp radix2 (FLT_exp (-1074) 53) z + e |}).
  - unfold F2R. cbn [Fnum Fexp]. rewrite bpow_plus, <- Rmult_assoc. f_equal. symmetry. exact F.
  - intros _. unfold cexp. cbn [Fexp]. rewrite mag_mult_bpow by exact N. unfold FLT_exp. lia.
Qed.
Lemma fmt_fval x : is_f64 x -> fmt (fval x).
Proof.
  intros V. destruct (as_bin x V) as (b & -> & E & _). rewrite E. assert (G := generic_format_B2R fprec femax b). revert G. apply generic_inclusion_mag. intros _. rewrite <- fexp_FLT. lia.
Qed.
Lemma add_scale e x y : (0 <= e)%Z -> is_f64 x -> is_f64 y -> rnd (bpow radix2 e * (fval x + fval y)) = bpow radix2 e * rnd (fval x + fval y).
Proof.
  intros He Vx Vy. destruct (Rle_lt_dec (Rabs (fval x + fval y)) (bpow radix2 (-1021))) as [L | L]; [| now apply round_scale].
  assert (F : fmt (fval x + fval y)) by (apply (FLT_format_plus_small radix2 (-1074) 53); [apply fmt_fval, Vx | apply fmt_fval, Vy | exact L]).
  rewrite (rnd_fmt _ F). now apply fmt_scale.
Qed.
Lemma rnd_opp x : rnd (- x) = - rnd x.
Proof. apply round_NE_opp. Qed.
Lemma rnd_abs x : Rabs (rnd x) = rnd (Rabs x).
Proof. symmetry. unfold rnd. apply (round_NE_abs radix2 fexp64). Qed.

(** The product of a weight and a value. *)
Lemma mul_in w a e : (0 <= e <= 900)%Z -> num_in 0 1 w -> is_f64 a -> is_num a = true -> Rabs (fval a) <= bpow radix2 e ->
  let p := SFmul fprec femax w a in is_f64 p /\ is_num p = true /\ fval p = rnd (fval w * fval a) /\ Rabs (fval p) <= bpow radix2 e * fval w.
Proof.
  intros He (Vw & Nw & W0 & W1) Va Na La p. subst p.
  assert (B : Rabs (rnd (fval w * fval a)) <= bpow radix2 e * fval w).
  { rewrite rnd_abs, Rabs_mult, (Rabs_pos_eq (fval w)) by exact W0. rewrite <- (fmt_scale e (fval w)) by (try lia; apply fmt_fval, Vw). apply rnd_le. rewrite Rmult_comm. apply Rmult_le_compat_r; assumption. }
  assert (L : Rabs (rnd (fval w * fval a)) < bpow radix2 1024).
  { apply Rle_lt_trans with (1 := B). apply Rle_lt_trans with (bpow radix2 e * 1); [apply Rmult_le_compat_l; [apply bpow_ge_0 | exact W1] |]. rewrite Rmult_1_r. apply bpow_lt. lia. }
  destruct (f_mul_num w a Vw Va Nw Na L) as (N & V). split; [apply f_mul_valid; assumption |]. split; [exact N |]. split; [exact V |]. rewrite V. exact B.
Qed.
Lemma square_in w a e : (0 <= e <= 400)%Z -> num_in 0 1 w -> is_f64 a -> is_num a = true -> Rabs (fval a) <= bpow radix2 e ->
  let p := SFmul fprec femax (SFmul fprec femax w a) a in num_in 0 (bpow radix2 (e + e) * fval w) p.
Proof.
  intros He Hw Va Na La. destruct (mul_in w a e ltac:(lia) Hw Va Na La) as (V1 & N1 & E1 & B1). set (q := SFmul fprec femax w a) in *. destruct Hw as (Vw & Nw & W0 & W1).
  assert (S : 0 <= fval q * fval a).
  { rewrite E1. destruct (Rle_lt_dec 0 (fval a)) as [P | P].
    - apply Rmult_le_pos; [apply rnd_nonneg, Rmult_le_pos; assumption | exact P].
    - replace (fval w * fval a) with (- (fval w * - fval a)) by ring. rewrite rnd_opp. assert (0 <= rnd (fval w * - fval a)) by (apply rnd_nonneg, Rmult_le_pos; lra). nra. }
  assert (B : rnd (fval q * fval a) <= bpow radix2 (e + e) * fval w).
  { rewrite <- (fmt_scale (e + e) (fval w)) by (try lia; apply fmt_fval, Vw). apply rnd_le. rewrite <- (Rabs_pos_eq _ S), Rabs_mult, bpow_plus.
    replace (bpow radix2 e * bpow radix2 e * fval w) with (bpow radix2 e * fval w * bpow radix2 e) by ring. apply Rmult_le_compat; [apply Rabs_pos.. | exact B1 | exact La]. }
  assert (P : 0 <= rnd (fval q * fval a)) by now apply rnd_nonneg.
  assert (L : Rabs (rnd (fval q * fval a)) < bpow radix2 1024).
  { rewrite Rabs_pos_eq by exact P. apply Rle_lt_trans with (1 := B). apply Rle_lt_trans with (bpow radix2 (e + e) * 1); [apply Rmult_le_compat_l; [apply bpow_ge_0 | exact W1] |]. rewrite Rmult_1_r. apply bpow_lt. lia. }
  destruct (f_mul_num q a V1 Va N1 Na L) as (N & V). cbv zeta. split; [apply f_mul_valid; assumption |]. split; [exact N |]. rewrite V. split; assumption.
Qed.

(** A deviation in single precision. *)
Lemma as_single_in e x : (-149 <= e <= 126)%Z -> is_f64 x -> is_num x = true -> Rabs (fval x) <= bpow radix2 e ->
  is_f64 (as_single x) /\ is_num (as_single x) = true /\ Rabs (fval (as_single x)) <= bpow radix2 e.
Proof.
  intros He V N L. unfold as_single. destruct x as [s | s | | s m k]; try discriminate; [cbn; repeat split; rewrite Rabs_R0; apply bpow_ge_0 |].
  cbn [to_single]. rewrite bn_equiv32.
  assert (C := binary_normalize_correct sprec semax _ _ mode_NE (cond_Zopp s (Z.pos m)) k s). cbv zeta in C.
  change (F2R {| Fnum := cond_Zopp s (Z.pos m); Fexp := k |}) with (fval (S754_finite s m k)) in C.
  assert (R : Rabs (round radix2 fexp32 (round_mode mode_NE) (fval (S754_finite s m k))) <= bpow radix2 e).
  { apply abs_round_le_generic; [apply fexp_correct; reflexivity | apply valid_rnd_N | | exact L]. apply generic_format_bpow. rewrite fexp32_FLT. unfold FLT_exp. lia. }
  rewrite Rlt_bool_true in C by (apply Rle_lt_trans with (1 := R); apply bpow_lt; change semax with 128%Z; lia). destruct C as (E & F & _).
  destruct (of_single_val _ F) as (V1 & N1 & E1). split; [exact V1 |]. split; [exact N1 |]. rewrite E1, E. exact R.
Qed.

Section Dom.
  Variables fexp fln : f64 -> f64.
  Local Notation A := (FA fexp fln).

  (** A sum of values that are at most [2^e] times weights is at most [2^e] times the sum of the weights. *)
  Lemma sum_dom e T (w f : nat -> f64) : (0 <= e <= 900)%Z -> (Z.of_nat T <= 2 ^ 32)%Z -> (forall t, (t < T)%nat -> num_in 0 1 (w t)) ->
    (forall t, (t < T)%nat -> is_f64 (f t) /\ is_num (f t) = true /\ Rabs (fval (f t)) <= bpow radix2 e * fval (w t)) ->
    let s := nsum (A := A) T f in is_f64 s /\ is_num s = true /\ Rabs (fval s) <= bpow radix2 e * fval (nsum (A := A) T w) /\ ((forall t, (t < T)%nat -> 0 <= fval (f t)) -> 0 <= fval s).
  Proof.
    intros He. induction T as [| T IH]; intros HT Hw Hf s; subst s.
    - cbn [nsum]. rewrite FA_n0. cbn. rewrite Rabs_R0, Rmult_0_r. repeat split; lra.
    - destruct IH as (V & N & B & P); [lia | intros t Ht; apply Hw; lia | intros t Ht; apply Hf; lia |].
      destruct (sum_unit fexp fln T w ltac:(lia) ltac:(intros t Ht; apply Hw; lia)) as (U & _). destruct (sum_unit fexp fln (S T) w HT Hw) as (U' & _).
      cbn [nsum] in *. set (s := nsum (A := A) T f) in *. set (E := nsum (A := A) T w) in *. destruct (Hf T ltac:(lia)) as (V2 & N2 & B2). destruct (Hw T ltac:(lia)) as (V3 & N3 & W0 & W1). destruct U as (V4 & N4 & U0 & U1).
      change (nadd s (f T)) with (SFadd fprec femax s (f T)). change (nadd E (w T)) with (SFadd fprec femax E (w T)) in *.
      assert (FE : fval (SFadd fprec femax E (w T)) = rnd (fval E + fval (w T))).
      { destruct U' as (V5 & N5 & _). destruct (f_add_num E (w T) V4 V3 N4 N3) as [(_ & X) | (i & X & _)]; [exact X | rewrite X in N5; discriminate]. }
      assert (B' : Rabs (rnd (fval s + fval (f T))) <= bpow radix2 e * fval (SFadd fprec femax E (w T))).
      { rewrite FE, <- add_scale by (try lia; assumption). rewrite rnd_abs. apply rnd_le. eapply Rle_trans; [apply Rabs_triang |]. rewrite Rmult_plus_distr_l. apply Rplus_le_compat; assumption. }
      split; [apply f_add_valid; assumption |].
      destruct (f_add_num s (f T) V V2 N N2) as [(X & Y) | (i & X & Y & _)].
      + split; [exact X |]. rewrite Y. split; [exact B' |]. intros Hp. apply rnd_nonneg, Rplus_le_le_0_compat; [apply P; intros t Ht; apply Hp; lia | apply Hp; lia].
      + exfalso. destruct U' as (_ & _ & U2 & U3). apply (Rlt_irrefl (bpow radix2 1024)). apply Rle_lt_trans with (1 := Y). apply Rle_lt_trans with (1 := B').
        apply Rle_lt_trans with (bpow radix2 900 * bpow radix2 32); [| rewrite <- bpow_plus; apply bpow_lt; lia].
        apply Rmult_le_compat; [apply bpow_ge_0 | exact U2 | apply bpow_le; lia |]. apply Rle_trans with (1 := U3). rewrite INR_IZR_INZ. change (bpow radix2 32) with (IZR (2 ^ 32)). now apply IZR_le.
  Qed.

  Lemma div_in s E e : (0 <= e <= 900)%Z -> is_f64 s -> is_num s = true -> is_f64 E -> 0 < fval E -> Rabs (fval s) <= bpow radix2 e * fval E ->
    let q := SFdiv fprec femax s E in num_in (- bpow radix2 e) (bpow radix2 e) q /\ (0 <= fval s -> 0 <= fval q).
  Proof.
    intros He Vs Ns Ve P B. cbv zeta.
    assert (Q : Rabs (rnd (fval s / fval E)) <= bpow radix2 e).
    { rewrite rnd_abs. rewrite <- (rnd_bpow e) by lia. apply rnd_le. unfold Rdiv. rewrite Rabs_mult, Rabs_inv, (Rabs_pos_eq (fval E)) by lra.
      apply Rmult_le_reg_r with (fval E); [exact P |]. rewrite Rmult_assoc, Rinv_l by lra. lra. }
    destruct (f_div_num s E Vs Ve Ns ltac:(lra)) as (N & V); [apply Rle_lt_trans with (1 := Q); apply bpow_lt; lia |].
    split; [split; [apply f_div_valid; assumption |]; split; [exact N |]; rewrite V; apply Rabs_le_inv, Q |].
    intros S. rewrite V. apply rnd_nonneg. apply Rmult_le_pos; [exact S |]. left. now apply Rinv_0_lt_compat.
  Qed.
  Lemma sub_in x y e : (0 <= e <= 900)%Z -> num_in (- bpow radix2 e) (bpow radix2 e) x -> num_in (- bpow radix2 e) (bpow radix2 e) y ->
    let d := SFsub fprec femax x y in is_f64 d /\ is_num d = true /\ Rabs (fval d) <= bpow radix2 (e + 1).
  Proof.
    intros He (Vx & Nx & Bx) (Vy & Ny & By). cbv zeta. destruct (as_bin x Vx) as (bx & -> & Ex & Fx). destruct (as_bin y Vy) as (b & -> & Ey & Fy). rewrite sub_equiv.
    assert (C := Bminus_correct fprec femax _ _ mode_NE bx b ltac:(congruence) ltac:(congruence)).
    assert (Q : Rabs (rnd (B2R bx - B2R b)) <= bpow radix2 (e + 1)).
    { rewrite rnd_abs. rewrite <- (rnd_bpow (e + 1)) by lia. apply rnd_le. rewrite bpow_plus. change (bpow radix2 1) with 2. rewrite <- Ex, <- Ey. apply Rabs_le. lra. }
    change (round radix2 fexp64 (round_mode mode_NE) (B2R bx - B2R b)) with (rnd (B2R bx - B2R b)) in C.
    rewrite Rlt_bool_true in C by (apply Rle_lt_trans with (1 := Q); apply bpow_lt; change femax with 1024%Z; lia). destruct C as (E & F & _).
    destruct (bin_f64 (Bminus mode_NE bx b)) as (V & E2 & N). split; [exact V |]. split; [congruence |]. rewrite E2, E. exact Q.
  Qed.
End Dom.
