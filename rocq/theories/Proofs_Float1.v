(** Lemmas about binary64: the operations of [SpecFloat] are those of the Flocq library, hence correctly
    rounded. *)
From Coq Require Import ZArith Reals Lra Lia Bool List.
From Coq Require Import Floats.SpecFloat.
From Flocq Require Import Core.Core IEEE754.BinarySingleNaN Relative Plus_error.
From Verif Require Import Base Arith Spec_Float.
Import ListNotations.
Local Open Scope R_scope.

#[local] Instance Hprec : FLX.Prec_gt_0 fprec := eq_refl _.
#[local] Instance Hmax : Prec_lt_emax fprec femax := eq_refl _.

Notation fexp64 := (SpecFloat.fexp fprec femax).
Notation bin64 := (binary_float fprec femax).
Definition rnd (x : R) : R := round radix2 fexp64 ZnearestE x.

(** ** The two definitions of the operations *)
Lemma rne_equiv s m l : round_nearest_even m l = choice_mode mode_NE s m l.
Proof.
  case l; [reflexivity | intro c]. case c; [ | reflexivity ..].
  simpl; unfold Round.cond_incr; now case Z.even.
Qed.
Lemma bra_equiv sx mx ex lx : SpecFloat.binary_round_aux fprec femax sx mx ex lx = binary_round_aux fprec femax mode_NE sx mx ex lx.
Proof.
  unfold SpecFloat.binary_round_aux, binary_round_aux.
  set (z := shr_fexp _ _ _). case z; intros m e; simpl. now rewrite (rne_equiv sx).
Qed.
Lemma br_equiv s m e : SpecFloat.binary_round fprec femax s m e = binary_round fprec femax mode_NE s m e.
Proof. unfold SpecFloat.binary_round, binary_round, shl_align_fexp. set (z := shl_align _ _ _); case z as [mz ez]. apply bra_equiv. Qed.
Lemma bn_equiv m e sz : SpecFloat.binary_normalize fprec femax m e sz = B2SF (binary_normalize fprec femax _ _ mode_NE m e sz).
Proof.
  case m as [ | p | p].
  - now simpl.
  - simpl; rewrite B2SF_SF2B; apply br_equiv.
  - simpl; rewrite B2SF_SF2B; apply br_equiv.
Qed.
Lemma add_equiv (x y : bin64) : SFadd fprec femax (B2SF x) (B2SF y) = B2SF (Bplus mode_NE x y).
Proof.
  case x as [sx|sx| |sx mx ex Bx]; case y as [sy|sy| |sy my ey By]; [now (trivial || simpl; case Bool.eqb).. | ].
  apply bn_equiv.
Qed.
Lemma sub_equiv (x y : bin64) : SFsub fprec femax (B2SF x) (B2SF y) = B2SF (Bminus mode_NE x y).
Proof.
  case x as [sx|sx| |sx mx ex Bx]; case y as [sy|sy| |sy my ey By]; [now (trivial || simpl; case Bool.eqb).. | ].
  simpl. unfold Zminus. rewrite <- cond_Zopp_negb. apply bn_equiv.
Qed.
Lemma mul_equiv (x y : bin64) : SFmul fprec femax (B2SF x) (B2SF y) = B2SF (Bmult mode_NE x y).
Proof.
  case x as [sx|sx| |sx mx ex Bx]; case y as [sy|sy| |sy my ey By]; [now trivial.. | ].
  simpl. rewrite B2SF_SF2B. apply bra_equiv.
Qed.
Lemma div_equiv (x y : bin64) : SFdiv fprec femax (B2SF x) (B2SF y) = B2SF (Bdiv mode_NE x y).
Proof.
  case x as [sx|sx| |sx mx ex Bx]; case y as [sy|sy| |sy my ey By]; [now (trivial || simpl; case Bool.eqb).. | ].
  simpl. rewrite B2SF_SF2B. set (z := SFdiv_core_binary _ _ _ _ _ _). case z as [[mz ez] lz]. apply bra_equiv.
Qed.
Lemma sqrt_equiv (x : bin64) : SFsqrt fprec femax (B2SF x) = B2SF (Bsqrt mode_NE x).
Proof.
  case x as [sx|sx| |sx mx ex Bx]; [now (trivial || case sx).. | ].
  case sx; [reflexivity | ]. simpl. rewrite B2SF_SF2B. set (z := SFsqrt_core_binary _ _ _ _). case z as [[mz ez] lz]. apply bra_equiv.
Qed.

Lemma as_bin (x : f64) : is_f64 x -> exists b : bin64, x = B2SF b /\ fval x = B2R b /\ is_num x = is_finite b.
Proof.
  intros H. exists (SF2B x H). unfold fval. rewrite <- SF2R_B2SF, !B2SF_SF2B. repeat split. now destruct x.
Qed.
Lemma bin_f64 (b : bin64) : is_f64 (B2SF b) /\ fval (B2SF b) = B2R b /\ is_num (B2SF b) = is_finite b.
Proof. unfold is_f64, fval. rewrite valid_binary_B2SF, SF2R_B2SF. repeat split. now destruct b. Qed.

(** ** Rounding *)
Lemma rnd_0 : rnd 0 = 0.
Proof. apply round_0; typeclasses eauto. Qed.
Lemma rnd_le x y : x <= y -> rnd x <= rnd y.
Proof. apply round_le; typeclasses eauto. Qed.
Lemma rnd_fval x : is_f64 x -> rnd (fval x) = fval x.
Proof.
  intros H. destruct (as_bin x H) as (b & -> & E & _). rewrite E. apply round_generic; [typeclasses eauto | apply generic_format_B2R].
Qed.
Lemma rnd_nonneg x : 0 <= x -> 0 <= rnd x.
Proof. intros H. rewrite <- rnd_0. now apply rnd_le. Qed.
Lemma rnd_bpow e : (-1074 <= e)%Z -> rnd (bpow radix2 e) = bpow radix2 e.
Proof.
  intros H. apply round_generic; [typeclasses eauto |]. apply generic_format_bpow. unfold SpecFloat.fexp, SpecFloat.emin, fprec, femax. lia.
Qed.
Lemma rnd_1 : rnd 1 = 1.
Proof. change 1 with (bpow radix2 0). now apply rnd_bpow. Qed.

(** ** Numbers, and numbers or plus infinity *)
Lemma fval_lt x : is_f64 x -> Rabs (fval x) < bpow radix2 1024.
Proof. intros H. destruct (as_bin x H) as (b & -> & E & _). rewrite E. apply (abs_B2R_lt_emax fprec femax). Qed.

Definition nn (x : f64) : Prop := is_f64 x /\ (x = S754_infinity false \/ (is_num x = true /\ 0 <= fval x)).
Lemma nn_num x : nn x -> is_num x = true -> num_nonneg x.
Proof. intros (V & [-> | (F & P)]) N; [discriminate | now repeat split]. Qed.
Lemma nonneg_nn x : num_nonneg x -> nn x.
Proof. intros (V & N & P). split; auto. Qed.
Lemma nn_inf x : nn x -> is_num x = false -> x = S754_infinity false.
Proof. intros (V & [-> | (F & P)]) N; congruence. Qed.

Lemma pos_sign (b : bin64) : 0 < B2R b -> Bsign b = false.
Proof.
  destruct b as [s|s| |s m e H]; simpl; try lra. destruct s; [| reflexivity].
  intros P. exfalso. assert (F2R (Float radix2 (cond_Zopp true (Zpos m)) e) < 0) by now apply F2R_lt_0. lra.
Qed.

Lemma f_add_valid x y : is_f64 x -> is_f64 y -> is_f64 (SFadd fprec femax x y).
Proof. intros Hx Hy. destruct (as_bin x Hx) as (a & -> & _ & _), (as_bin y Hy) as (b & -> & _ & _). rewrite add_equiv. apply bin_f64. Qed.
Lemma f_sub_valid x y : is_f64 x -> is_f64 y -> is_f64 (SFsub fprec femax x y).
Proof. intros Hx Hy. destruct (as_bin x Hx) as (a & -> & _ & _), (as_bin y Hy) as (b & -> & _ & _). rewrite sub_equiv. apply bin_f64. Qed.
Lemma f_mul_valid x y : is_f64 x -> is_f64 y -> is_f64 (SFmul fprec femax x y).
Proof. intros Hx Hy. destruct (as_bin x Hx) as (a & -> & _ & _), (as_bin y Hy) as (b & -> & _ & _). rewrite mul_equiv. apply bin_f64. Qed.
Lemma f_div_valid x y : is_f64 x -> is_f64 y -> is_f64 (SFdiv fprec femax x y).
Proof. intros Hx Hy. destruct (as_bin x Hx) as (a & -> & _ & _), (as_bin y Hy) as (b & -> & _ & _). rewrite div_equiv. apply bin_f64. Qed.
Lemma f_sqrt_valid x : is_f64 x -> is_f64 (SFsqrt fprec femax x).
Proof. intros Hx. destruct (as_bin x Hx) as (a & -> & _ & _). rewrite sqrt_equiv. apply bin_f64. Qed.

Lemma f_add_num x y : is_f64 x -> is_f64 y -> is_num x = true -> is_num y = true ->
  (is_num (SFadd fprec femax x y) = true /\ fval (SFadd fprec femax x y) = rnd (fval x + fval y)) \/
  (exists s, SFadd fprec femax x y = S754_infinity s /\ bpow radix2 1024 <= Rabs (rnd (fval x + fval y)) /\
     ((0 < fval x \/ 0 < fval y) -> s = false)).
Proof.
  intros Hx Hy. destruct (as_bin x Hx) as (a & -> & -> & ->), (as_bin y Hy) as (b & -> & -> & ->). intros Fa Fb. rewrite add_equiv.
  assert (C := Bplus_correct fprec femax _ _ mode_NE a b Fa Fb). cbv zeta in C.
  change (round radix2 fexp64 (round_mode mode_NE) (B2R a + B2R b)) with (rnd (B2R a + B2R b)) in C.
  destruct (Rlt_bool_spec (Rabs (rnd (B2R a + B2R b))) (bpow radix2 femax)) as [L | L].
  - left. destruct C as (E & F & _). destruct (bin_f64 (Bplus mode_NE a b)) as (_ & -> & ->). auto.
  - right. destruct C as (E & S). exists (Bsign a). split; [exact E |]. split; [exact L |].
    intros [P | P]; [| rewrite S]; now apply pos_sign.
Qed.

Lemma rnd_le_x x y : is_f64 x -> 0 <= y -> fval x <= rnd (fval x + y).
Proof. intros V P. rewrite <- (rnd_fval x V) at 1. apply rnd_le. lra. Qed.

(** Adding numbers that are not negative: no NaN, and not below either term. *)
Lemma add_nn x y : nn x -> nn y -> nn (SFadd fprec femax x y) /\
  (is_num (SFadd fprec femax x y) = true ->
    num_nonneg x /\ num_nonneg y /\ fval (SFadd fprec femax x y) = rnd (fval x + fval y) /\ fval x <= fval (SFadd fprec femax x y) /\ fval y <= fval (SFadd fprec femax x y)).
Proof.
  intros (Vx & Cx) (Vy & Cy). assert (V := f_add_valid x y Vx Vy).
  destruct Cx as [-> | (Nx & Px)].
  { destruct Cy as [-> | (Ny & Py)]; [split; [split; [exact V | now left] | discriminate] |].
    assert (SFadd fprec femax (S754_infinity false) y = S754_infinity false) as -> by (destruct y; [reflexivity | discriminate | discriminate | reflexivity]).
    split; [split; [reflexivity | now left] | discriminate]. }
  destruct Cy as [-> | (Ny & Py)].
  { assert (SFadd fprec femax x (S754_infinity false) = S754_infinity false) as -> by (destruct x; [reflexivity | discriminate | discriminate | reflexivity]).
    split; [split; [reflexivity | now left] | discriminate]. }
  destruct (f_add_num x y Vx Vy Nx Ny) as [(N & E) | (s & E & L & S)].
  - split.
    + split; [exact V |]. right. split; [exact N |]. rewrite E. apply rnd_nonneg. lra.
    + intros _. repeat split; auto; rewrite E; [now apply rnd_le_x | rewrite Rplus_comm; now apply rnd_le_x].
  - rewrite E. split; [| discriminate]. split; [rewrite <- E; exact V |]. left. f_equal. apply S.
    destruct (Rle_lt_or_eq_dec 0 (fval x) Px) as [P | P]; [now left |]. right.
    destruct (Rle_lt_or_eq_dec 0 (fval y) Py) as [Q | Q]; [exact Q |]. exfalso. rewrite <- P, <- Q, Rplus_0_l, rnd_0, Rabs_R0 in L.
    assert (0 < bpow radix2 1024) by apply bpow_gt_0. lra.
Qed.

Lemma f_mul_num x y : is_f64 x -> is_f64 y -> is_num x = true -> is_num y = true ->
  Rabs (rnd (fval x * fval y)) < bpow radix2 1024 -> is_num (SFmul fprec femax x y) = true /\ fval (SFmul fprec femax x y) = rnd (fval x * fval y).
Proof.
  intros Hx Hy. destruct (as_bin x Hx) as (a & -> & -> & ->), (as_bin y Hy) as (b & -> & -> & ->). intros Fa Fb L. rewrite mul_equiv.
  assert (C := Bmult_correct fprec femax _ _ mode_NE a b).
  change (round radix2 fexp64 (round_mode mode_NE) (B2R a * B2R b)) with (rnd (B2R a * B2R b)) in C.
  rewrite Rlt_bool_true in C by exact L. destruct C as (E & F & _). destruct (bin_f64 (Bmult mode_NE a b)) as (_ & -> & ->). rewrite F, Fa, Fb. auto.
Qed.
Lemma f_div_num x y : is_f64 x -> is_f64 y -> is_num x = true -> fval y <> 0 ->
  Rabs (rnd (fval x / fval y)) < bpow radix2 1024 -> is_num (SFdiv fprec femax x y) = true /\ fval (SFdiv fprec femax x y) = rnd (fval x / fval y).
Proof.
  intros Hx Hy. destruct (as_bin x Hx) as (a & -> & -> & ->), (as_bin y Hy) as (b & -> & -> & _). intros Fa Fb L. rewrite div_equiv.
  assert (C := Bdiv_correct fprec femax _ _ mode_NE a b Fb).
  change (round radix2 fexp64 (round_mode mode_NE) (B2R a / B2R b)) with (rnd (B2R a / B2R b)) in C.
  rewrite Rlt_bool_true in C by exact L. destruct C as (E & F & _). destruct (bin_f64 (Bdiv mode_NE a b)) as (_ & -> & ->). rewrite F. auto.
Qed.

(** A part of a total. *)
Lemma div_part x y : num_nonneg x -> num_nonneg y -> 0 < fval y -> fval x <= fval y ->
  num_in 0 1 (SFdiv fprec femax x y) /\ fval (SFdiv fprec femax x y) = rnd (fval x / fval y).
Proof.
  intros (Vx & Nx & Px) (Vy & Ny & _) Py L.
  assert (B : 0 <= fval x / fval y <= 1).
  { split; [apply Rmult_le_pos; [lra | left; now apply Rinv_0_lt_compat] |]. apply (Rmult_le_reg_r (fval y)); [lra |]. unfold Rdiv. rewrite Rmult_assoc, Rinv_l by lra. lra. }
  assert (Q : 0 <= rnd (fval x / fval y) <= 1) by (split; [now apply rnd_nonneg | rewrite <- rnd_1; now apply rnd_le]).
  destruct (f_div_num x y Vx Vy Nx) as (N & E); [lra | | split; [split; [now apply f_div_valid | split; [exact N | rewrite E; exact Q]] | exact E]].
  rewrite Rabs_pos_eq by lra. apply Rle_lt_trans with 1; [lra |]. change 1 with (bpow radix2 0). now apply bpow_lt.
Qed.

(** A number scaled by a weight. *)
Lemma mul_weight w p : num_in 0 1 w -> num_nonneg p ->
  num_nonneg (SFmul fprec femax w p) /\ fval (SFmul fprec femax w p) = rnd (fval w * fval p) /\ fval (SFmul fprec femax w p) <= fval p.
Proof.
  intros (Vw & Nw & Pw) (Vp & Np & Pp).
  assert (B : 0 <= fval w * fval p <= fval p) by (split; [apply Rmult_le_pos; lra | rewrite <- (Rmult_1_l (fval p)) at 2; apply Rmult_le_compat_r; lra]).
  assert (Q : 0 <= rnd (fval w * fval p) <= fval p) by (split; [now apply rnd_nonneg | rewrite <- (rnd_fval p Vp) at 2; now apply rnd_le]).
  assert (Lp := fval_lt p Vp). rewrite Rabs_pos_eq in Lp by lra.
  destruct (f_mul_num w p Vw Vp Nw Np) as (N & E); [rewrite Rabs_pos_eq; lra |].
  split; [| split; [exact E | rewrite E; lra]]. split; [now apply f_mul_valid | split; [exact N | rewrite E; lra]].
Qed.

(** ** Error of one operation *)
Lemma uround_pos : 0 < uround < 1.
Proof. unfold uround. split; [apply bpow_gt_0 |]. change 1 with (bpow radix2 0). now apply bpow_lt. Qed.
Lemma fexp_FLT : forall e, fexp64 e = FLT_exp (-1074) 53 e.
Proof. reflexivity. Qed.
Lemma u_ro_uround : u_ro radix2 53 = uround.
Proof. unfold u_ro, uround. rewrite bpow_plus. change (bpow radix2 1) with 2. change (bpow radix2 (Z.opp 53)) with (bpow radix2 (-53)). set (b := bpow radix2 (-53)). field. Qed.

Lemma rnd_add x y : is_f64 x -> is_f64 y -> 0 <= fval x + fval y ->
  (fval x + fval y) / (1 + uround) <= rnd (fval x + fval y) <= (fval x + fval y) * (1 + uround).
Proof.
  intros Vx Vy P. assert (U := uround_pos).
  assert (Fx : generic_format radix2 (FLT_exp (-1074) 53) (fval x)) by (destruct (as_bin x Vx) as (b & -> & -> & _); apply (generic_format_B2R fprec femax)).
  assert (Fy : generic_format radix2 (FLT_exp (-1074) 53) (fval y)) by (destruct (as_bin y Vy) as (b & -> & -> & _); apply (generic_format_B2R fprec femax)).
  destruct (FLT_plus_error_N_ex radix2 (-1074) 53 (fun z => negb (Z.even z)) (fval x) (fval y) Fx Fy) as (e & B & E).
  change (rnd (fval x + fval y) = (fval x + fval y) * (1 + e)) in E. rewrite E. rewrite u_ro_uround in B. apply Rabs_le_inv in B.
  assert (G : 1 - uround / (1 + uround) = / (1 + uround)) by (field; lra).
  assert (H : uround / (1 + uround) <= uround).
  { apply (Rmult_le_reg_r (1 + uround)); [lra |]. unfold Rdiv. rewrite Rmult_assoc, Rinv_l by lra. nra. }
  split; unfold Rdiv; apply Rmult_le_compat_l; lra.
Qed.

Lemma rnd_any x : 0 <= x -> x / (1 + uround) - ufloor <= rnd x <= x * (1 + uround) + ufloor.
Proof.
  intros P. assert (U := uround_pos).
  destruct (relative_error_N_FLT'_ex radix2 (-1074) 53 eq_refl (fun z => negb (Z.even z)) x) as (e & t & B & C & _ & E).
  change (rnd x = x * (1 + e) + t) in E. rewrite E. rewrite u_ro_uround in B. apply Rabs_le_inv in B. apply Rabs_le_inv in C.
  assert (W : / 2 * bpow radix2 (-1074) = ufloor).
  { unfold ufloor. change (-1074)%Z with (-1075 + 1)%Z. rewrite bpow_plus. change (bpow radix2 1) with 2. field. }
  rewrite W in C. assert (G : 1 - uround / (1 + uround) = / (1 + uround)) by (field; lra).
  assert (K : uround / (1 + uround) <= uround). { apply (Rmult_le_reg_r (1 + uround)); [lra |]. unfold Rdiv. rewrite Rmult_assoc, Rinv_l by lra. nra. }
  assert (x * / (1 + uround) <= x * (1 + e)) by (apply Rmult_le_compat_l; lra).
  assert (x * (1 + e) <= x * (1 + uround)) by (apply Rmult_le_compat_l; lra). unfold Rdiv. lra.
Qed.
