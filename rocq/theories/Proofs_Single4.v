(** Lemmas about binary32: the operations are correctly rounded. *)
From Coq Require Import ZArith QArith Reals Lra Lia Bool List.
From Coq Require Import Floats.SpecFloat.
From Flocq Require Import Core.Core IEEE754.BinarySingleNaN Relative Plus_error.
From Verif Require Import Base Arith Spec_Float Spec_Single Spec_Float8 Model_Single Model_Single5 Proofs_Float1 Proofs_Single1.
Import ListNotations.
Local Open Scope R_scope.

#[local] Existing Instance Proofs_Single1.Sprec.
#[local] Existing Instance Proofs_Single1.Smax.

Lemma add_equiv32 (x y : bin32) : SFadd sprec semax (B2SF x) (B2SF y) = B2SF (Bplus mode_NE x y).
Proof.
  case x as [sx|sx| |sx mx ex Bx]; case y as [sy|sy| |sy my ey By]; [now (trivial || simpl; case Bool.eqb).. | ].
  apply bn_equiv32.
Qed.
Lemma sub_equiv32 (x y : bin32) : SFsub sprec semax (B2SF x) (B2SF y) = B2SF (Bminus mode_NE x y).
Proof.
  case x as [sx|sx| |sx mx ex Bx]; case y as [sy|sy| |sy my ey By]; [now (trivial || simpl; case Bool.eqb).. | ].
  simpl. unfold Zminus. rewrite <- cond_Zopp_negb. apply bn_equiv32.
Qed.
Lemma div_equiv32 (x y : bin32) : SFdiv sprec semax (B2SF x) (B2SF y) = B2SF (Bdiv mode_NE x y).
Proof.
  case x as [sx|sx| |sx mx ex Bx]; case y as [sy|sy| |sy my ey By]; [now (trivial || simpl; case Bool.eqb).. | ].
  simpl. rewrite B2SF_SF2B. set (z := SFdiv_core_binary _ _ _ _ _ _). case z as [[mz ez] lz]. apply bra_equiv32.
Qed.
Lemma sqrt_equiv32 (x : bin32) : SFsqrt sprec semax (B2SF x) = B2SF (Bsqrt mode_NE x).
Proof.
  case x as [sx|sx| |sx mx ex Bx]; [now (trivial || case sx).. | ].
  case sx; [reflexivity | ]. simpl. rewrite B2SF_SF2B. set (z := SFsqrt_core_binary _ _ _ _). case z as [[mz ez] lz]. apply bra_equiv32.
Qed.
Lemma as_bin32 (x : f32) : is_f32 x -> exists b : bin32, x = B2SF b /\ fval x = B2R b /\ is_num x = is_finite b.
Proof. intros H. exists (SF2B x H). unfold fval. rewrite <- SF2R_B2SF, !B2SF_SF2B. repeat split. now destruct x. Qed.
Lemma bin_f32 (b : bin32) : is_f32 (B2SF b) /\ fval (B2SF b) = B2R b /\ is_num (B2SF b) = is_finite b.
Proof. unfold is_f32, fval. rewrite valid_binary_B2SF, SF2R_B2SF. repeat split. now destruct b. Qed.

Notation rs := round_single.
Lemma rs_0 : rs 0 = 0.
Proof. apply round_0. apply valid_rnd_N. Qed.
Lemma rs_le x y : x <= y -> rs x <= rs y.
Proof. intro H. unfold round_single. apply round_le; [apply FLT_exp_valid; reflexivity|apply valid_rnd_N|exact H]. Qed.
Lemma rs_fval x : is_f32 x -> rs (fval x) = fval x.
Proof. intros H. destruct (as_bin32 x H) as (b & -> & E & _). rewrite E. unfold round_single. apply round_generic; [apply valid_rnd_N|]. apply (generic_format_B2R sprec semax b). Qed.
Lemma rs_nonneg x : 0 <= x -> 0 <= rs x.
Proof. intros H. rewrite <- rs_0. now apply rs_le. Qed.
Lemma rs_bpow e : (-149 <= e)%Z -> rs (bpow radix2 e) = bpow radix2 e.
Proof. intros H. unfold round_single. apply round_generic; [apply valid_rnd_N|]. apply generic_format_bpow. unfold FLT_exp. lia. Qed.
Lemma rs_opp x : rs (- x) = - rs x.
Proof. apply round_NE_opp. Qed.
Lemma rs_abs_le x e : (-149 <= e)%Z -> Rabs x <= bpow radix2 e -> Rabs (rs x) <= bpow radix2 e.
Proof.
  intros He H. apply Rabs_le_inv in H. apply Rabs_le. rewrite <- (rs_bpow e He), <- rs_opp. split; apply rs_le; lra.
Qed.

Lemma s_add_valid x y : is_f32 x -> is_f32 y -> is_f32 (SFadd sprec semax x y).
Proof. intros Hx Hy. destruct (as_bin32 x Hx) as (a & -> & _ & _), (as_bin32 y Hy) as (b & -> & _ & _). rewrite add_equiv32. apply bin_f32. Qed.
Lemma s_sub_valid x y : is_f32 x -> is_f32 y -> is_f32 (SFsub sprec semax x y).
Proof. intros Hx Hy. destruct (as_bin32 x Hx) as (a & -> & _ & _), (as_bin32 y Hy) as (b & -> & _ & _). rewrite sub_equiv32. apply bin_f32. Qed.
Lemma s_mul_valid x y : is_f32 x -> is_f32 y -> is_f32 (SFmul sprec semax x y).
Proof. intros Hx Hy. destruct (as_bin32 x Hx) as (a & -> & _ & _), (as_bin32 y Hy) as (b & -> & _ & _). rewrite mul_equiv32. apply bin_f32. Qed.
Lemma s_div_valid x y : is_f32 x -> is_f32 y -> is_f32 (SFdiv sprec semax x y).
Proof. intros Hx Hy. destruct (as_bin32 x Hx) as (a & -> & _ & _), (as_bin32 y Hy) as (b & -> & _ & _). rewrite div_equiv32. apply bin_f32. Qed.
Lemma s_sqrt_valid x : is_f32 x -> is_f32 (SFsqrt sprec semax x).
Proof. intros Hx. destruct (as_bin32 x Hx) as (a & -> & _ & _). rewrite sqrt_equiv32. apply bin_f32. Qed.

Lemma s_add_num x y : is_f32 x -> is_f32 y -> is_num x = true -> is_num y = true -> Rabs (rs (fval x + fval y)) < bpow radix2 128 ->
  is_num (SFadd sprec semax x y) = true /\ fval (SFadd sprec semax x y) = rs (fval x + fval y).
Proof.
  intros Hx Hy. destruct (as_bin32 x Hx) as (a & -> & -> & ->), (as_bin32 y Hy) as (b & -> & -> & ->). intros Fa Fb L. rewrite add_equiv32.
  assert (C := Bplus_correct sprec semax _ _ mode_NE a b Fa Fb). cbv zeta in C.
  change (round radix2 fexp32 (round_mode mode_NE) (B2R a + B2R b)) with (rs (B2R a + B2R b)) in C.
  rewrite Rlt_bool_true in C by exact L. destruct C as (E & F & _). destruct (bin_f32 (Bplus mode_NE a b)) as (_ & -> & ->). auto.
Qed.
Lemma s_sub_num x y : is_f32 x -> is_f32 y -> is_num x = true -> is_num y = true -> Rabs (rs (fval x - fval y)) < bpow radix2 128 ->
  is_num (SFsub sprec semax x y) = true /\ fval (SFsub sprec semax x y) = rs (fval x - fval y).
Proof.
  intros Hx Hy. destruct (as_bin32 x Hx) as (a & -> & -> & ->), (as_bin32 y Hy) as (b & -> & -> & ->). intros Fa Fb L. rewrite sub_equiv32.
  assert (C := Bminus_correct sprec semax _ _ mode_NE a b Fa Fb). cbv zeta in C.
  change (round radix2 fexp32 (round_mode mode_NE) (B2R a - B2R b)) with (rs (B2R a - B2R b)) in C.
  rewrite Rlt_bool_true in C by exact L. destruct C as (E & F & _). destruct (bin_f32 (Bminus mode_NE a b)) as (_ & -> & ->). auto.
Qed.
Lemma s_mul_num x y : is_f32 x -> is_f32 y -> is_num x = true -> is_num y = true -> Rabs (rs (fval x * fval y)) < bpow radix2 128 ->
  is_num (SFmul sprec semax x y) = true /\ fval (SFmul sprec semax x y) = rs (fval x * fval y).
Proof.
  intros Hx Hy. destruct (as_bin32 x Hx) as (a & -> & -> & ->), (as_bin32 y Hy) as (b & -> & -> & ->). intros Fa Fb L. rewrite mul_equiv32.
  assert (C := Bmult_correct sprec semax _ _ mode_NE a b).
  change (round radix2 fexp32 (round_mode mode_NE) (B2R a * B2R b)) with (rs (B2R a * B2R b)) in C.
  rewrite Rlt_bool_true in C by exact L. destruct C as (E & F & _). destruct (bin_f32 (Bmult mode_NE a b)) as (_ & -> & ->). rewrite F, Fa, Fb. auto.
Qed.
Lemma s_div_num x y : is_f32 x -> is_f32 y -> is_num x = true -> fval y <> 0 -> Rabs (rs (fval x / fval y)) < bpow radix2 128 ->
  is_num (SFdiv sprec semax x y) = true /\ fval (SFdiv sprec semax x y) = rs (fval x / fval y).
Proof.
  intros Hx Hy. destruct (as_bin32 x Hx) as (a & -> & -> & ->), (as_bin32 y Hy) as (b & -> & -> & _). intros Fa Fb L. rewrite div_equiv32.
  assert (C := Bdiv_correct sprec semax _ _ mode_NE a b Fb).
  change (round radix2 fexp32 (round_mode mode_NE) (B2R a / B2R b)) with (rs (B2R a / B2R b)) in C.
  rewrite Rlt_bool_true in C by exact L. destruct C as (E & F & _). destruct (bin_f32 (Bdiv mode_NE a b)) as (_ & -> & ->). rewrite F. auto.
Qed.
Lemma s_sqrt_num x : is_f32 x -> is_num x = true -> 0 <= fval x -> is_num (SFsqrt sprec semax x) = true /\ fval (SFsqrt sprec semax x) = rs (sqrt (fval x)).
Proof.
  intros Hx. destruct (as_bin32 x Hx) as (a & -> & -> & ->). intros Fa P. rewrite sqrt_equiv32. destruct (Bsqrt_correct sprec semax _ _ mode_NE a) as (E & F & _).
  destruct (bin_f32 (Bsqrt mode_NE a)) as (_ & -> & ->). split; [|exact E]. rewrite F.
  destruct a as [s|s| |s m e B]; try reflexivity; try discriminate. destruct s; [|reflexivity]. exfalso. cbn in P. assert (F2R (Float radix2 (cond_Zopp true (Zpos m)) e) < 0) by now apply F2R_lt_0. cbn in H. lra.
Qed.

(** ** Errors *)
Lemma sone_gt : 1 < sone.
Proof. unfold sone. pose proof (bpow_gt_0 radix2 (-24)). lra. Qed.
Lemma stiny_pos : 0 < stiny.
Proof. apply bpow_gt_0. Qed.
Lemma u_ro24 : u_ro radix2 24 = sone - 1.
Proof. unfold u_ro, sone. rewrite bpow_plus. change (bpow radix2 1) with 2. change (bpow radix2 (Z.opp 24)) with (bpow radix2 (-24)). set (b := bpow radix2 (-24)). field. Qed.
Lemma part_le : (sone - 1) / (1 + (sone - 1)) <= sone - 1.
Proof. pose proof sone_gt. apply (Rmult_le_reg_r sone); [lra |]. replace (1 + (sone - 1)) with sone by ring. unfold Rdiv. rewrite Rmult_assoc, Rinv_l by lra. nra. Qed.
Lemma f32_format x : is_f32 x -> generic_format radix2 (FLT_exp (-149) 24) (fval x).
Proof. intros Vx. destruct (as_bin32 x Vx) as (b & -> & -> & _); apply (generic_format_B2R sprec semax b). Qed.
(** Sums and differences have no absolute error. *)
Lemma rs_add x y : is_f32 x -> is_f32 y -> Rabs (rs (fval x + fval y) - (fval x + fval y)) <= (sone - 1) * Rabs (fval x + fval y).
Proof.
  intros Vx Vy. destruct (FLT_plus_error_N_ex radix2 (-149) 24 (fun z => negb (Z.even z)) (fval x) (fval y) (f32_format x Vx) (f32_format y Vy)) as (e & B & E).
  change (rs (fval x + fval y) = (fval x + fval y) * (1 + e)) in E. rewrite E. replace ((fval x + fval y) * (1 + e) - (fval x + fval y)) with ((fval x + fval y) * e) by ring.
  rewrite Rabs_mult, Rmult_comm. apply Rmult_le_compat_r; [apply Rabs_pos|]. rewrite u_ro24 in B. pose proof part_le. lra.
Qed.
Lemma rs_sub x y : is_f32 x -> is_f32 y -> Rabs (rs (fval x - fval y) - (fval x - fval y)) <= (sone - 1) * Rabs (fval x - fval y).
Proof.
  intros Vx Vy. destruct (FLT_plus_error_N_ex radix2 (-149) 24 (fun z => negb (Z.even z)) (fval x) (- fval y) (f32_format x Vx) (generic_format_opp _ _ _ (f32_format y Vy))) as (e & B & E).
  change (rs (fval x - fval y) = (fval x - fval y) * (1 + e)) in E. rewrite E. replace ((fval x - fval y) * (1 + e) - (fval x - fval y)) with ((fval x - fval y) * e) by ring.
  rewrite Rabs_mult, Rmult_comm. apply Rmult_le_compat_r; [apply Rabs_pos|]. rewrite u_ro24 in B. pose proof part_le. lra.
Qed.
Lemma rs_any x : Rabs (rs x - x) <= (sone - 1) * Rabs x + stiny.
Proof.
  destruct (relative_error_N_FLT'_ex radix2 (-149) 24 eq_refl (fun z => negb (Z.even z)) x) as (e & t & B & C & _ & E).
  change (rs x = x * (1 + e) + t) in E. rewrite E. rewrite u_ro24 in B. pose proof part_le as PL.
  assert (W : / 2 * bpow radix2 (-149) = stiny).
  { unfold stiny. change (-149)%Z with (-150 + 1)%Z. rewrite bpow_plus. change (bpow radix2 1) with 2. field. }
  rewrite W in C. replace (x * (1 + e) + t - x) with (x * e + t) by ring. eapply Rle_trans; [apply Rabs_triang|]. apply Rplus_le_compat; [|exact C]. rewrite Rabs_mult, Rmult_comm. apply Rmult_le_compat_r; [apply Rabs_pos|]. lra.
Qed.
(** No absolute error above the smallest normal number. *)
Lemma rs_normal x : bpow radix2 (-126) <= Rabs x -> Rabs (rs x - x) <= (sone - 1) * Rabs x.
Proof.
  intro H. destruct (relative_error_N_FLT'_ex radix2 (-149) 24 eq_refl (fun z => negb (Z.even z)) x) as (e & t & B & C & Z & E).
  pose proof (relative_error_N_FLT radix2 (-149) 24 eq_refl (fun z => negb (Z.even z)) x H) as R. change (Rabs (rs x - x) <= / 2 * bpow radix2 (-24 + 1) * Rabs x) in R.
  eapply Rle_trans; [exact R|]. apply Rmult_le_compat_r; [apply Rabs_pos|]. unfold sone. rewrite bpow_plus. change (bpow radix2 1) with 2. lra.
Qed.

(** Integers converted to float. *)
Lemma nN_val32 n : (1 <= n)%nat -> (Z.of_nat n <= 2 ^ 32)%Z -> is_f32 (nN (A := SA) n) /\ is_num (nN (A := SA) n) = true /\ fval (nN (A := SA) n) = rs (INR n).
Proof.
  intros H1 H2. destruct n as [| w]; [lia |]. set (p := Pos.of_succ_nat w).
  assert (E : nN (A := SA) (S w) = SFdiv sprec semax (S754_finite false p 0) (S754_finite false 1 0)) by reflexivity. rewrite E. clear E.
  assert (C := Bdiv_correct_aux sprec semax _ _ mode_NE false p 0 false 1 0). cbv zeta in C. cbn [cond_Zopp xorb] in C.
  assert (X : F2R (beta := radix2) {| Fnum := Z.pos p; Fexp := 0 |} / F2R (beta := radix2) {| Fnum := 1; Fexp := 0 |} = INR (S w)).
  { unfold F2R. cbn [Fnum Fexp bpow]. unfold Rdiv. rewrite !Rmult_1_r, Rinv_1, Rmult_1_r. rewrite INR_IZR_INZ. f_equal. }
  rewrite X in C.
  assert (L : Rlt_bool (Rabs (rs (INR (S w)))) (bpow radix2 semax) = true).
  { apply Rlt_bool_true. apply Rle_lt_trans with (bpow radix2 32); [| apply bpow_lt; reflexivity]. apply rs_abs_le; [lia|]. rewrite Rabs_pos_eq by apply pos_INR.
    rewrite INR_IZR_INZ. change (bpow radix2 32) with (IZR (2 ^ 32)). now apply IZR_le. }
  change (round radix2 fexp32 (round_mode mode_NE) (INR (S w))) with (rs (INR (S w))) in C. rewrite L in C.
  assert (E : SFdiv sprec semax (S754_finite false p 0) (S754_finite false 1 0) = let '(mz, ez, lz) := SFdiv_core_binary sprec semax (Z.pos p) 0 1 0 in binary_round_aux sprec semax mode_NE false mz ez lz).
  { unfold SFdiv. cbn [xorb]. destruct (SFdiv_core_binary sprec semax (Z.pos p) 0 1 0) as ((mz, ez), lz). apply bra_equiv32. }
  rewrite E. destruct C as (V & F & N & _). split; [exact V |]. split; [| exact F]. revert N. clear. destruct (let '(mz, ez, lz) := _ in _); cbn; congruence.
Qed.
Lemma nN_valid32 n : is_f32 (nN (A := SA) n).
Proof.
  destruct n as [| w]; [reflexivity |]. set (p := Pos.of_succ_nat w).
  assert (E : nN (A := SA) (S w) = SFdiv sprec semax (S754_finite false p 0) (S754_finite false 1 0)) by reflexivity. rewrite E. clear E.
  assert (C := Bdiv_correct_aux sprec semax _ _ mode_NE false p 0 false 1 0). cbv zeta in C. cbn [cond_Zopp xorb] in C.
  assert (E : SFdiv sprec semax (S754_finite false p 0) (S754_finite false 1 0) = let '(mz, ez, lz) := SFdiv_core_binary sprec semax (Z.pos p) 0 1 0 in binary_round_aux sprec semax mode_NE false mz ez lz).
  { unfold SFdiv. cbn [xorb]. destruct (SFdiv_core_binary sprec semax (Z.pos p) 0 1 0) as ((mz, ez), lz). apply bra_equiv32. }
  rewrite E. apply C.
Qed.
