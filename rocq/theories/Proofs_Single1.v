(** Products in binary32. *)
From Coq Require Import ZArith Reals Lra Lia Bool List.
From Coq Require Import Floats.SpecFloat.
From Flocq Require Import Core.Core IEEE754.BinarySingleNaN Relative Sterbenz.
From Verif Require Import Base Arith Spec_Float Spec_Single Proofs_Float1 Model_Single.
Import ListNotations.
Local Open Scope R_scope.

#[local] Existing Instance Proofs_Float1.Hprec.
#[local] Existing Instance Proofs_Float1.Hmax.
#[local] Instance Sprec : FLX.Prec_gt_0 sprec := eq_refl _.
#[local] Instance Smax : Prec_lt_emax sprec semax := eq_refl _.

Notation bin32 := (binary_float sprec semax).
Notation fexp32 := (SpecFloat.fexp sprec semax).

(** ** The two definitions of the operations, in binary32 *)
Lemma bra_equiv32 sx mx ex lx : SpecFloat.binary_round_aux sprec semax sx mx ex lx = binary_round_aux sprec semax mode_NE sx mx ex lx.
Proof.
  unfold SpecFloat.binary_round_aux, binary_round_aux.
  set (z := shr_fexp _ _ _). case z; intros m e; simpl. now rewrite (rne_equiv sx).
Qed.
Lemma br_equiv32 s m e : SpecFloat.binary_round sprec semax s m e = binary_round sprec semax mode_NE s m e.
Proof. unfold SpecFloat.binary_round, binary_round, shl_align_fexp. set (z := shl_align _ _ _); case z as [mz ez]. apply bra_equiv32. Qed.
Lemma bn_equiv32 m e sz : SpecFloat.binary_normalize sprec semax m e sz = B2SF (binary_normalize sprec semax _ _ mode_NE m e sz).
Proof.
  case m as [ | p | p].
  - now simpl.
  - simpl; rewrite B2SF_SF2B; apply br_equiv32.
  - simpl; rewrite B2SF_SF2B; apply br_equiv32.
Qed.
Lemma mul_equiv32 (x y : bin32) : SFmul sprec semax (B2SF x) (B2SF y) = B2SF (Bmult mode_NE x y).
Proof.
  case x as [sx|sx| |sx mx ex Bx]; case y as [sy|sy| |sy my ey By]; [now trivial.. | ].
  simpl. rewrite B2SF_SF2B. apply bra_equiv32.
Qed.

Lemma fexp32_FLT : forall e, fexp32 e = FLT_exp (-149) 24 e.
Proof. intros e. unfold SpecFloat.fexp, emin, FLT_exp. change sprec with 24%Z. change semax with 128%Z. reflexivity. Qed.

Lemma format_small (prec emin : Z) (H : FLX.Prec_gt_0 prec) k e : (Z.abs k < 2 ^ prec)%Z -> (emin <= e)%Z -> generic_format radix2 (FLT_exp emin prec) (IZR k * bpow radix2 e).
Proof. intros Hk He. apply generic_format_FLT. apply (FLT_spec _ _ _ _ {| Fnum := k; Fexp := e |}); [reflexivity | exact Hk | exact He]. Qed.

Lemma to_single_val v : single v -> exists b : bin32, to_single v = B2SF b /\ B2R b = fval v /\ is_finite b = true.
Proof.
  intros (V & N & k & e & E & Hk & He).
  assert (F : generic_format radix2 fexp32 (fval v)) by (rewrite E; apply (format_small 24 (-149) Sprec); [exact Hk | lia]).
  assert (L : Rabs (fval v) < bpow radix2 128).
  { rewrite E, Rabs_mult, (Rabs_pos_eq (bpow radix2 e)) by apply bpow_ge_0. rewrite <- abs_IZR. apply Rle_lt_trans with (bpow radix2 24 * bpow radix2 35).
    - apply Rmult_le_compat; [apply IZR_le; lia | apply bpow_ge_0 | change (bpow radix2 24) with (IZR (2 ^ 24)); apply IZR_le; lia | apply bpow_le; lia].
    - rewrite <- bpow_plus. apply bpow_lt. lia. }
  destruct v as [s | s | | s m x]; try discriminate.
  - exists (B754_zero s). split; [reflexivity |]. split; reflexivity.
  - cbn [to_single]. rewrite bn_equiv32. eexists. split; [reflexivity |].
    assert (C := binary_normalize_correct sprec semax _ _ mode_NE (cond_Zopp s (Z.pos m)) x s). cbv zeta in C.
    change (F2R {| Fnum := cond_Zopp s (Z.pos m); Fexp := x |}) with (fval (S754_finite s m x)) in C.
    assert (R : round radix2 fexp32 (round_mode mode_NE) (fval (S754_finite s m x)) = fval (S754_finite s m x)) by (apply round_generic; [apply valid_rnd_N | exact F]).
    rewrite R in C. rewrite Rlt_bool_true in C by exact L. tauto.
Qed.

Lemma of_single_val (b : bin32) : is_finite b = true -> is_f64 (of_single (B2SF b)) /\ is_num (of_single (B2SF b)) = true /\ fval (of_single (B2SF b)) = B2R b.
Proof.
  intros F. destruct b as [s | s | | s m x B]; try discriminate; [repeat split |]. cbn [of_single B2SF]. rewrite bn_equiv.
  destruct (bin_f64 (binary_normalize fprec femax Proofs_Float1.Hprec Proofs_Float1.Hmax mode_NE (cond_Zopp s (Z.pos m)) x s)) as (V & E & N). split; [exact V |]. rewrite E, N.
  assert (C := binary_normalize_correct fprec femax _ _ mode_NE (cond_Zopp s (Z.pos m)) x s). cbv zeta in C.
  change (F2R {| Fnum := cond_Zopp s (Z.pos m); Fexp := x |}) with (B2R (B754_finite s m x B)) in C.
  assert (G : generic_format radix2 fexp64 (B2R (B754_finite s m x B))).
  { assert (G := generic_format_B2R sprec semax (B754_finite s m x B)). revert G. apply generic_inclusion_mag. intros _.
    unfold SpecFloat.fexp, emin. change sprec with 24%Z. change semax with 128%Z. change fprec with 53%Z. change femax with 1024%Z. lia. }
  assert (R : round radix2 fexp64 (round_mode mode_NE) (B2R (B754_finite s m x B)) = B2R (B754_finite s m x B)) by (apply round_generic; [apply valid_rnd_N | exact G]).
  rewrite R in C. rewrite Rlt_bool_true in C; [tauto |].
  apply Rlt_trans with (bpow radix2 semax); [apply abs_B2R_lt_emax | apply bpow_lt; reflexivity].
Qed.

Lemma single_square v : single v -> exists k e, fval v * fval v = IZR k * bpow radix2 e /\ (0 <= k < 2 ^ 48)%Z /\ (-100 <= e <= 70)%Z.
Proof.
  intros (_ & _ & k & e & E & Hk & He). exists (k * k)%Z, (e + e)%Z. rewrite E, mult_IZR, bpow_plus. split; [ring |]. split; [| lia].
  split; [nia |]. change (2 ^ 48)%Z with (2 ^ 24 * 2 ^ 24)%Z. assert (k * k = Z.abs k * Z.abs k)%Z by lia. nia.
Qed.

(** The product of two equal values. *)
Lemma mul_single_val v : single v -> is_f64 (mul_single v v) /\ is_num (mul_single v v) = true /\ fval (mul_single v v) = round_single (fval v * fval v).
Proof.
  intros S. destruct (to_single_val v S) as (b & E & Eb & Fb). unfold mul_single. rewrite E, (mul_equiv32 b b).
  assert (C := Bmult_correct sprec semax _ _ mode_NE b b). rewrite Eb in C.
  change (round radix2 fexp32 (round_mode mode_NE) (fval v * fval v)) with (round_single (fval v * fval v)) in C.
  assert (L : Rabs (round_single (fval v * fval v)) < bpow radix2 semax).
  { destruct (single_square v S) as (k & e & -> & Hk & He). apply Rle_lt_trans with (bpow radix2 120); [| apply bpow_lt; reflexivity].
    apply abs_round_le_generic; [apply FLT_exp_valid; reflexivity | apply valid_rnd_N | apply generic_format_bpow; unfold FLT_exp; lia |].
    rewrite Rabs_mult, (Rabs_pos_eq (bpow radix2 e)) by apply bpow_ge_0. rewrite <- abs_IZR. apply Rle_trans with (bpow radix2 48 * bpow radix2 70).
    - apply Rmult_le_compat; [apply IZR_le; lia | apply bpow_ge_0 | change (bpow radix2 48) with (IZR (2 ^ 48)); apply IZR_le; lia | apply bpow_le; lia].
    - rewrite <- bpow_plus. apply bpow_le. lia. }
  rewrite Rlt_bool_true in C by exact L. destruct C as (R & F & _). rewrite Fb in F. destruct (of_single_val _ F) as (V & N & O). rewrite O, R. auto.
Qed.

(** ** Exact operations in binary64 *)
Definition fmt (x : R) : Prop := generic_format radix2 (FLT_exp (-1074) 53) x.
Lemma rnd_fmt x : fmt x -> rnd x = x.
Proof. intros F. apply round_generic; [apply valid_rnd_N | exact F]. Qed.

Lemma single_fmt v : single v -> exists k e, fval v = IZR k * bpow radix2 e /\ (Z.abs k < 2 ^ 24)%Z /\ (-200 <= e)%Z /\ Rabs (fval v) <= bpow radix2 120.
Proof.
  intros (_ & _ & k & e & E & Hk & He). exists k, e. split; [exact E |]. split; [exact Hk |]. split; [lia |]. rewrite E, Rabs_mult, (Rabs_pos_eq (bpow radix2 e)) by apply bpow_ge_0. rewrite <- abs_IZR.
  apply Rle_trans with (bpow radix2 24 * bpow radix2 35); [apply Rmult_le_compat; [apply IZR_le; lia | apply bpow_ge_0 | change (bpow radix2 24) with (IZR (2 ^ 24)); apply IZR_le; lia | apply bpow_le; lia] |].
  rewrite <- bpow_plus. apply bpow_le. lia.
Qed.
Lemma square_fmt v : single v -> exists k e, fval (mul_single v v) = IZR k * bpow radix2 e /\ (Z.abs k < 2 ^ 24)%Z /\ (-200 <= e)%Z /\ Rabs (fval (mul_single v v)) <= bpow radix2 120.
Proof.
  intros S. destruct (mul_single_val v S) as (_ & _ & E). rewrite E.
  assert (F : generic_format radix2 (FLT_exp (-149) 24) (round_single (fval v * fval v))) by (apply generic_format_round; [apply FLT_exp_valid; reflexivity | apply valid_rnd_N]).
  apply FLT_format_generic in F; [| reflexivity]. destruct F as [[k e] Ek Hk He]. exists k, e. cbn in Hk, He. split; [exact Ek |]. split; [exact Hk |]. split; [lia |].
  destruct (single_square v S) as (k' & e' & -> & Hk' & He').
  apply abs_round_le_generic; [apply FLT_exp_valid; reflexivity | apply valid_rnd_N | apply generic_format_bpow; unfold FLT_exp; lia |].
  rewrite Rabs_mult, (Rabs_pos_eq (bpow radix2 e')) by apply bpow_ge_0. rewrite <- abs_IZR. apply Rle_trans with (bpow radix2 48 * bpow radix2 70).
  - apply Rmult_le_compat; [apply IZR_le; lia | apply bpow_ge_0 | change (bpow radix2 48) with (IZR (2 ^ 48)); apply IZR_le; lia | apply bpow_le; lia].
  - rewrite <- bpow_plus. apply bpow_le. lia.
Qed.

(** Multiples of a value with 24 bits. *)
Lemma add_multiple p s k e i : is_f64 p -> is_num p = true -> fval p = IZR k * bpow radix2 e -> (Z.abs k < 2 ^ 24)%Z -> (-200 <= e)%Z -> Rabs (fval p) <= bpow radix2 120 -> (Z.of_nat (S i) < 2 ^ 29)%Z ->
  is_f64 s -> is_num s = true -> fval s = INR i * fval p ->
  is_f64 (SFadd fprec femax s p) /\ is_num (SFadd fprec femax s p) = true /\ fval (SFadd fprec femax s p) = INR (S i) * fval p.
Proof.
  intros Vp Np Ep Hk He Lp Hi Vs Ns Es. split; [now apply f_add_valid |].
  assert (E : fval s + fval p = INR (S i) * fval p) by (rewrite Es, S_INR; ring).
  assert (R : rnd (fval s + fval p) = INR (S i) * fval p).
  { rewrite E. apply rnd_fmt. rewrite Ep, <- Rmult_assoc, INR_IZR_INZ, <- mult_IZR. apply format_small; [exact Proofs_Float1.Hprec | | lia].
    rewrite Z.abs_mul, (Z.abs_eq (Z.of_nat (S i))) by lia. change (2 ^ 53)%Z with (2 ^ 29 * 2 ^ 24)%Z. nia. }
  destruct (f_add_num s p Vs Vp Ns Np) as [(N & F) | (t & _ & O & _)]; [rewrite F, R; auto |]. exfalso. rewrite R in O.
  rewrite Rabs_mult, (Rabs_pos_eq (INR (S i))) in O by apply pos_INR.
  assert (INR (S i) * Rabs (fval p) <= bpow radix2 29 * bpow radix2 120).
  { apply Rmult_le_compat; [apply pos_INR | apply Rabs_pos | | exact Lp]. rewrite INR_IZR_INZ. change (bpow radix2 29) with (IZR (2 ^ 29)). apply IZR_le. lia. }
  assert (bpow radix2 29 * bpow radix2 120 < bpow radix2 1024) by (rewrite <- bpow_plus; apply bpow_lt; lia). lra.
Qed.

(** ** The rounded square against the exact one *)
Lemma square_close v : single v -> fval v <> 0 -> round_single (fval v * fval v) / 2 <= fval v * fval v <= 2 * round_single (fval v * fval v).
Proof.
  intros S NZ. set (x := fval v * fval v). assert (P : 0 < x) by (unfold x; nra). destruct (single_square v S) as (k & e & E & Hk & He). fold x in E.
  set (m := mag radix2 x). assert (M := bpow_mag_le radix2 x ltac:(lra)). assert (M2 := bpow_mag_gt radix2 x). rewrite Rabs_pos_eq in M, M2 by lra. fold m in M, M2.
  assert (Hm : (-101 <= m)%Z).
  { apply bpow_lt_bpow in M2 || idtac. assert (bpow radix2 (-101) <= x). { rewrite E. assert (1 <= k)%Z. { destruct (Z.eq_dec k 0) as [-> |]; [rewrite E in P; lra | lia]. }
      apply Rle_trans with (1 * bpow radix2 e); [rewrite Rmult_1_l; apply bpow_le; lia | apply Rmult_le_compat_r; [apply bpow_ge_0 | now apply IZR_le]]. }
    assert (bpow radix2 (-101) < bpow radix2 m) by lra. apply lt_bpow in H0. lia. }
  assert (G : forall z, (-149 <= z)%Z -> generic_format radix2 (FLT_exp (-149) 24) (bpow radix2 z)) by (intros z Hz; apply generic_format_bpow; unfold FLT_exp; lia).
  assert (L1 : bpow radix2 (m - 1) <= round_single x) by (apply round_ge_generic; [apply FLT_exp_valid; reflexivity | apply valid_rnd_N | apply G; lia | exact M]).
  assert (L2 : round_single x <= bpow radix2 m) by (apply round_le_generic; [apply FLT_exp_valid; reflexivity | apply valid_rnd_N | apply G; lia | lra]).
  assert (D : bpow radix2 m = 2 * bpow radix2 (m - 1)) by (replace (m : Z) with (1 + (m - 1))%Z at 1 by lia; rewrite bpow_plus; reflexivity). lra.
Qed.

(** The variance that remains. *)
Lemma rest_exact v p m : single v -> is_f64 p -> is_num p = true -> fval p = round_single (fval v * fval v) -> is_f64 m -> is_num m = true -> fval m = fval v ->
  let q := SFmul fprec femax m m in let r := SFsub fprec femax p q in
  is_f64 r /\ is_num r = true /\ fval r = round_single (fval v * fval v) - fval v * fval v.
Proof.
  intros S Vp Np Ep Vv Nv Em. cbv zeta. destruct (single_square v S) as (k & e & E & Hk & He).
  assert (Fx : fmt (fval v * fval v)) by (rewrite E; apply (format_small 53 (-1074) Proofs_Float1.Hprec); lia).
  assert (Lx : Rabs (fval v * fval v) < bpow radix2 1024).
  { rewrite E, Rabs_mult, (Rabs_pos_eq (bpow radix2 e)) by apply bpow_ge_0. rewrite <- abs_IZR. apply Rle_lt_trans with (bpow radix2 48 * bpow radix2 70).
    - apply Rmult_le_compat; [apply IZR_le; lia | apply bpow_ge_0 | change (bpow radix2 48) with (IZR (2 ^ 48)); apply IZR_le; lia | apply bpow_le; lia].
    - rewrite <- bpow_plus. apply bpow_lt. lia. }
  destruct (f_mul_num m m Vv Vv Nv Nv) as (Nq & Eq); [rewrite Em, rnd_fmt by exact Fx; exact Lx |]. rewrite Em, rnd_fmt in Eq by exact Fx.
  assert (Vq := f_mul_valid m m Vv Vv). set (q := SFmul fprec femax m m) in *.
  destruct (square_fmt v S) as (k1 & e1 & E1 & Hk1 & He1 & L1). destruct (mul_single_val v S) as (_ & _ & E2). rewrite E2, <- Ep in E1, L1.
  assert (Fp : fmt (fval p)) by (rewrite E1; apply (format_small 53 (-1074) Proofs_Float1.Hprec); lia).
  assert (Fr : fmt (fval p - fval q)).
  { rewrite Eq. destruct (Req_dec (fval v) 0) as [Z | NZ].
    - rewrite Ep, Z. replace (round_single (0 * 0)) with 0 by (rewrite Rmult_0_l; symmetry; apply round_0, valid_rnd_N). replace (0 - 0 * 0) with 0 by ring. apply generic_format_0.
    - apply sterbenz; [apply FLT_exp_valid; exact Proofs_Float1.Hprec | apply FLT_exp_monotone | exact Fp | exact Fx |]. destruct (square_close v S NZ) as (C1 & C2). rewrite Ep. lra. }
  split; [now apply f_sub_valid |]. rewrite <- Ep, <- Eq.
  destruct (as_bin p Vp) as (a & Ea & Ra & Fa), (as_bin q Vq) as (b & Eb & Rb & Fb). rewrite Ea, Eb in *. rewrite (sub_equiv a b). rewrite Ra, Rb in *.
  assert (C := Bminus_correct fprec femax _ _ mode_NE a b ltac:(congruence) ltac:(congruence)).
  change (round radix2 fexp64 (round_mode mode_NE) (B2R a - B2R b)) with (rnd (B2R a - B2R b)) in C. rewrite rnd_fmt in C by exact Fr.
  rewrite Rlt_bool_true in C.
  - destruct (bin_f64 (Bminus mode_NE a b)) as (_ & X & Y). rewrite X, Y. tauto.
  - rewrite Eq. assert (0 <= fval v * fval v) by nra. rewrite Rabs_pos_eq in Lx by assumption. apply Rabs_le_inv in L1. assert (B : bpow radix2 120 < bpow radix2 1024) by (apply bpow_lt; lia).
    rewrite Ep in *. assert (0 <= round_single (fval v * fval v)) by (apply round_ge_generic; [apply FLT_exp_valid; reflexivity | apply valid_rnd_N | apply generic_format_0 | assumption]).
    change (bpow radix2 femax) with (bpow radix2 1024). apply Rabs_def1; lra.
Qed.
