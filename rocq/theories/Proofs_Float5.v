(** Upper bounds in binary64: sums that cannot overflow, densities of Diagonal components. *)
From Coq Require Import String ZArith QArith Reals Lra Lia Bool List Arith.
From Coq Require Import Floats.SpecFloat.
From Flocq Require Import Core.Core IEEE754.BinarySingleNaN.
From Verif Require Import Base BaseFacts Arith Spec_Float Spec_Float2 Proofs_Float1 Proofs_Float2 Proofs_Float3 Model_Gaussian.
Import ListNotations.
Local Open Scope R_scope.

#[local] Existing Instance Proofs_Float1.Hprec.
#[local] Existing Instance Proofs_Float1.Hmax.

(** ** Signs *)
Definition sgn (x : f64) : bool := sign_SF x.
Lemma mul_sgn x y : is_f64 x -> is_f64 y -> SFmul fprec femax x y = S754_nan \/ sgn (SFmul fprec femax x y) = xorb (sgn x) (sgn y).
Proof.
  intros Hx Hy. destruct (as_bin x Hx) as (a & -> & _ & _), (as_bin y Hy) as (b & -> & _ & _). rewrite mul_equiv.
  assert (S : forall b : bin64, sgn (B2SF b) = Bsign b) by (intros []; reflexivity). rewrite !S.
  assert (C := Bmult_correct fprec femax _ _ mode_NE a b). match type of C with context [if ?c then _ else _] => destruct c end.
  - destruct C as (_ & _ & C). destruct (Bmult mode_NE a b) eqn:E; [right; now apply C.. | now left | right; now apply C].
  - right. rewrite <- S. etransitivity; [apply (f_equal sgn C) |]. unfold binary_overflow. simpl. reflexivity.
Qed.
Lemma sgn_nn x : is_f64 x -> x <> S754_nan -> sgn x = false -> nn x.
Proof.
  intros V N S. split; [exact V |]. destruct x as [s | s | | s m e]; cbn in S; try (subst s); try congruence.
  - right. split; [reflexivity | cbn; lra].
  - now left.
  - right. split; [reflexivity |]. unfold fval. cbn. unfold F2R. cbn. apply Rmult_le_pos; [apply IZR_le; lia | apply bpow_ge_0].
Qed.
(** NaN, or greater than or equal to 0. *)
Definition qn (x : f64) : Prop := x = S754_nan \/ nn x.
Lemma nan_add_l y : SFadd fprec femax S754_nan y = S754_nan. Proof. reflexivity. Qed.
Lemma nan_add_r y : SFadd fprec femax y S754_nan = S754_nan. Proof. destruct y; reflexivity. Qed.
Lemma qn_add x y : qn x -> qn y -> qn (SFadd fprec femax x y).
Proof.
  intros [-> | X] Y; [left; apply nan_add_l |]. destruct Y as [-> | Y]; [left; apply nan_add_r |]. right. now apply add_nn.
Qed.
Lemma nn_sgn c : nn c -> (exists s, c = S754_zero s) \/ sgn c = false.
Proof.
  intros (V & [-> | (N & P)]); [now right |]. destruct c as [s | s | | s m e]; try discriminate; [left; eauto |]. right. destruct s; [| reflexivity]. exfalso.
  revert P. unfold fval. cbn. unfold F2R. cbn. assert (B := bpow_gt_0 radix2 e). assert (IZR (Z.neg m) < 0) by (apply IZR_lt; lia). nra.
Qed.
Lemma qn_square c e : qn c -> is_f64 e -> qn (SFmul fprec femax (SFmul fprec femax c e) e).
Proof.
  intros [-> | C] He; [now left |]. pose proof C as (Vc & _). destruct (nn_sgn c C) as [(s & ->) | S].
  - destruct e as [t | t | | t m ex]; cbn; try (now left); right; (split; [reflexivity | right; split; [reflexivity | cbn; lra]]).
  - assert (V1 := f_mul_valid c e Vc He). assert (V2 := f_mul_valid _ e V1 He).
    destruct (mul_sgn c e Vc He) as [E | E]; [left; rewrite E; reflexivity |].
    destruct (mul_sgn _ e V1 He) as [E2 | E2]; [now left |]. rewrite E, S in E2. rewrite xorb_false_l, xorb_nilpotent in E2.
    destruct (SFmul fprec femax (SFmul fprec femax c e) e) eqn:Q; [right; apply sgn_nn; congruence.. | now left | right; apply sgn_nn; congruence].
Qed.

(** ** [- 0.5 * q] *)
Definition mhalf : f64 := f64_ofQ (- 1 # 2).
Lemma mhalf_val : is_f64 mhalf /\ is_num mhalf = true /\ fval mhalf = - / 2.
Proof.
  split; [vm_compute; reflexivity |]. split; [vm_compute; reflexivity |].
  replace mhalf with (S754_finite true 4503599627370496 (-53)) by (vm_compute; reflexivity). unfold fval. cbn. unfold F2R. cbn. lra.
Qed.
Lemma mhalf_qn q : qn q -> let y := SFmul fprec femax mhalf q in y = S754_nan \/ y = S754_infinity true \/ (is_num y = true /\ fval y <= 0).
Proof.
  cbv zeta. destruct mhalf_val as (V & N & E). intros [-> | (Vq & [-> | (Nq & P)])].
  - left. vm_compute. reflexivity.
  - right. left. vm_compute. reflexivity.
  - right. right. assert (B := fval_lt q Vq). rewrite Rabs_pos_eq in B by exact P.
    assert (L : - fval q <= rnd (- / 2 * fval q) <= 0).
    { split.
      - assert (E2 : - fval q = fval (SFopp q)) by (destruct q as [s | s | | s m e]; try discriminate; unfold fval; cbn; [ring | rewrite <- F2R_Zopp; now destruct s]).
        rewrite E2. rewrite <- rnd_fval at 1.
        + apply rnd_le. rewrite <- E2. lra.
        + destruct (as_bin q Vq) as (b & -> & _ & _). clear. destruct b; try reflexivity. exact e0.
      - rewrite <- rnd_0. apply rnd_le. nra. }
    destruct (f_mul_num mhalf q V Vq N Nq) as (N2 & ->).
    + rewrite E. apply Rabs_def1; lra.
    + split; [exact N2 |]. rewrite E. lra.
Qed.

(** ** The square root *)
Lemma sqrt_cases y : is_f64 y -> let s := SFsqrt fprec femax y in
  s = S754_nan \/ s = S754_infinity false \/ (exists b, s = S754_zero b) \/ (is_num s = true /\ bpow radix2 (-537) <= fval s).
Proof.
  cbv zeta. intros V. destruct y as [b | [|] | | [|] m e]; try (cbn; auto; fail).
  - right. right. left. exists b. reflexivity.
  - right. right. right. destruct (as_bin _ V) as (a & Ea & Fa & _). rewrite Ea. rewrite (sqrt_equiv a). destruct (bin_f64 (Bsqrt mode_NE a)) as (_ & Q1 & Q2). rewrite Q1, Q2.
    destruct (Bsqrt_correct fprec femax _ _ mode_NE a) as (R & F & _). destruct a as [s0 | s0 | | s0 m0 e1 B0]; try discriminate. cbn in Ea. injection Ea as <- <- <-. split; [rewrite F; reflexivity |].
    rewrite R. change (bpow radix2 (-537) <= rnd (sqrt (B2R (B754_finite false m e B0)))). rewrite <- rnd_bpow by lia. apply rnd_le.
    replace (bpow radix2 (-537)) with (sqrt (bpow radix2 (-1074))).
    + apply sqrt_le_1_alt. rewrite <- Fa. unfold fval, SF2R, cond_Zopp. assert (E : (-1074 <= e)%Z).
      { clear - B0. unfold bounded, canonical_mantissa in B0. apply andb_prop in B0. destruct B0 as (C & _). apply Zeq_bool_eq in C. unfold SpecFloat.fexp, emin in C. change fprec with 53%Z in C. change femax with 1024%Z in C. lia. }
      unfold F2R, Fnum, Fexp. apply Rle_trans with (1 * bpow radix2 e); [rewrite Rmult_1_l; now apply bpow_le | apply Rmult_le_compat_r; [apply bpow_ge_0 | apply IZR_le; lia]].
    + replace (bpow radix2 (-1074)) with (Rsqr (bpow radix2 (-537))) by (unfold Rsqr; rewrite <- bpow_plus; reflexivity). apply sqrt_Rsqr, bpow_ge_0.
Qed.

Lemma floor_le1 : fval floor_f64 <= 1.
Proof.
  unfold floor_f64, fval. cbn [SF2R cond_Zopp]. unfold F2R. cbn [Fnum Fexp]. apply Rle_trans with (bpow radix2 53 * bpow radix2 (-650)).
  - apply Rmult_le_compat_r; [apply bpow_ge_0 |]. change (bpow radix2 53) with (IZR 9007199254740992). apply IZR_le. lia.
  - rewrite <- bpow_plus. change 1 with (bpow radix2 0). apply bpow_le. lia.
Qed.

Section Dens.
  Variables fexp fln : f64 -> f64.
  Hypothesis LM : libm_f64 fexp fln.
  Local Notation A := (FA fexp fln).

  Lemma density_le q det n : qn q -> is_f64 det -> fval (g_density (A := A) q det n) <= bpow radix2 537.
  Proof.
    intros Hq Hd. unfold g_density. rewrite floor_is. set (p := ndiv (a := A) _ _).
    assert (Ff : fval floor_f64 <= bpow radix2 537) by (apply Rle_trans with 1; [apply floor_le1 | change 1 with (bpow radix2 0); apply bpow_le; lia]).
    destruct (nltb p floor_f64); cbn [orb]; [exact Ff |]. destruct (nisnan p) eqn:E2; cbn [orb]; [exact Ff |]. destruct (nisinf (nabs p)) eqn:E3; [exact Ff |].
    assert (Vq : is_f64 q) by (destruct Hq as [-> | (V & _)]; [reflexivity | exact V]). assert (0 < bpow radix2 537) by apply bpow_gt_0.
    assert (V : is_f64 (SFmul fprec femax mhalf q)) by (apply f_mul_valid; [vm_compute; reflexivity | exact Vq]).
    set (s := SFsqrt fprec femax (SFmul fprec femax det (npow (A := A) (nmul (a := A) (nZ 2) npi) n))) in p.
    assert (Sq : s = S754_nan \/ s = S754_infinity false \/ (exists b, s = S754_zero b) \/ (is_num s = true /\ bpow radix2 (-537) <= fval s)).
    { apply sqrt_cases. apply f_mul_valid; [exact Hd | apply npow_f64; vm_compute; reflexivity]. }
    assert (Vs : is_f64 s) by (apply f_sqrt_valid, f_mul_valid; [exact Hd | apply npow_f64; vm_compute; reflexivity]).
    assert (Ep : p = SFdiv fprec femax (fexp (SFmul fprec femax mhalf q)) s) by reflexivity. clearbody p s.
    destruct (mhalf_qn q Hq) as [En | Ex].
    { rewrite En, (exp_nan _ _ LM) in Ep. cbn in Ep. subst p. discriminate. }
    destruct (exp_neg _ _ LM _ V Ex) as (Ve & Ne & Pe). set (E := fexp (SFmul fprec femax mhalf q)) in *. clearbody E.
    destruct Sq as [-> | [-> | [(b & ->) | (Ns & Ps)]]].
    - replace p with S754_nan in E2 by (rewrite Ep; destruct E; reflexivity). discriminate.
    - destruct E; try discriminate; subst p; cbn; lra.
    - destruct E; try discriminate; cbn in Ep; subst p; discriminate.
    - assert (0 < bpow radix2 (-537)) by apply bpow_gt_0.
      assert (B : 0 <= fval E / fval s <= bpow radix2 537).
      { split; [apply Rmult_le_pos; [lra | left; apply Rinv_0_lt_compat; lra] |]. apply (Rmult_le_reg_r (fval s)); [lra |]. unfold Rdiv. rewrite Rmult_assoc, Rinv_l, Rmult_1_r by lra.
        apply Rle_trans with (bpow radix2 537 * bpow radix2 (-537)); [rewrite <- bpow_plus; cbn; lra | apply Rmult_le_compat_l; lra]. }
      assert (B2 : 0 <= rnd (fval E / fval s) <= bpow radix2 537) by (split; [now apply rnd_nonneg | rewrite <- (rnd_bpow 537) by lia; apply rnd_le, B]).
      destruct (f_div_num E s Ve Vs Ne) as (_ & F).
      + lra.
      + rewrite Rabs_pos_eq by apply B2. eapply Rle_lt_trans; [apply B2 | apply bpow_lt; lia].
      + subst p. rewrite F. apply B2.
  Qed.

  Lemma accM_qn n (f : nat -> res f64) : forall a s, qn a -> (forall i v, (i < n)%nat -> f i = Ok v -> qn v) -> accM (A := A) n f a = Ok s -> qn s.
  Proof.
    intros a s Ha Hf H. unfold accM in H. apply (iterM_inv_ok (fun _ => qn)) in H; [exact H | exact Ha |].
    intros i x y Hi Hx E. apply bind_ok_inv in E. destruct E as (v & Ev & E). injection E as <-. apply qn_add; [exact Hx | eapply Hf; eauto].
  Qed.
  Lemma qn_0 : qn (n0 (A := A)).
  Proof. right. apply nonneg_nn, zero_nonneg. Qed.

  Lemma term_qn k x i v : gauss_f64 (fexp := fexp) (fln := fln) k -> gauss_diag k -> frame_f64 x ->
    (let* c := rd (g_inv k) i in let* e := (let* a := rd x i in let* b := rd (g_mean k) i in Ok (nsub (a := A) a b)) in Ok (nmul (a := A) (nmul (a := A) c e) e)) = Ok v -> qn v.
  Proof.
    intros (F1 & _) (_ & D) Fx H. apply bind_ok_inv in H. destruct H as (c & Ec & H). apply bind_ok_inv in H. destruct H as (e & Ee & H).
    apply bind_ok_inv in Ee. destruct Ee as (a & Ea & Ee). apply bind_ok_inv in Ee. destruct Ee as (b & Eb & Ee). injection Ee as <-. injection H as <-.
    apply qn_square.
    - unfold rd in Ec. destruct (nth_error (g_inv k) i) eqn:E; [| discriminate]. injection Ec as <-. rewrite Forall_forall in D. apply D. eapply nth_error_In, E.
    - apply f_sub_valid; [eapply (rd_f64 x); eauto | eapply (rd_f64 (g_mean k)); eauto].
  Qed.

  Lemma lik_le k x p : gauss_f64 (fexp := fexp) (fln := fln) k -> gauss_diag k -> frame_f64 x -> g_likelihood (A := A) k x = Ok p \/ g_likelihood_input (A := A) k x = Ok p -> fval p <= bpow radix2 537.
  Proof.
    intros G D Fx. pose proof D as (M & _). pose proof G as (_ & _ & _ & D1 & D2). intros [H | H].
    - unfold g_likelihood in H. destruct (neqb _ _); [discriminate |]. cbv zeta in H. rewrite M in H. apply bind_ok_inv in H. destruct H as (q & Eq & H). injection H as <-.
      apply density_le; [| exact D1]. eapply accM_qn; [apply qn_0 | | exact Eq]. intros i v _ E. cbv beta in E. eapply term_qn; eauto.
    - unfold g_likelihood_input in H. destruct (negb _); [discriminate |]. destruct (neqb _ _); [discriminate |]. cbv zeta in H. rewrite M in H. apply bind_ok_inv in H. destruct H as (q & Eq & H). injection H as <-.
      apply density_le; [| exact D2]. eapply accM_qn; [apply qn_0 | | exact Eq]. intros i v _ E. cbv beta in E. eapply term_qn; eauto.
  Qed.
End Dens.
