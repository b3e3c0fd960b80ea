(** Results of one class in binary64. *)
From Coq Require Import String ZArith QArith Reals Lra Lia Bool List Arith.
From Coq Require Import Floats.SpecFloat.
From Flocq Require Import Core.Core IEEE754.BinarySingleNaN.
From Verif Require Import Base BaseFacts Arith Spec_Float Spec_Float2 Spec_Float3 Spec_Float4 Proofs_Float1 Proofs_Float2 Proofs_Float3 Proofs_Float4 Proofs_Float5 Proofs_Float6 Proofs_Float7 Proofs_Float8 Proofs_Float9 Proofs_Float12 Proofs_Float14.
From Verif Require Import Model_Map Model_Ring Model_Gaussian Model_Config Model_KMeans Model_GMM Model_HMM Model_HHMM.
Import ListNotations.
Local Open Scope R_scope.

#[local] Existing Instance Proofs_Float1.Hprec.
#[local] Existing Instance Proofs_Float1.Hmax.
Local Notation fadd := (SFadd fprec femax).
Local Notation fmul := (SFmul fprec femax).
Local Notation fdiv := (SFdiv fprec femax).

Lemma tab_snoc {X} n (f : nat -> X) : tab (S n) f = tab n f ++ [f n].
Proof. unfold tab. rewrite seq_S, map_app. reflexivity. Qed.
Lemma rsum_linear n (t w : nat -> f64) c e : (forall i, (i < n)%nat -> fval (t i) <= c * fval (w i) + e) -> rsum (tab n t) <= c * rsum (tab n w) + INR n * e.
Proof.
  induction n as [| n IH]; intros H; [cbn; lra |]. rewrite !tab_snoc, !rsum_app, S_INR. assert (X := IH (fun i Hi => H i (Nat.lt_lt_succ_r _ _ Hi))). assert (Y := H n (Nat.lt_succ_diag_r n)). lra.
Qed.

Section Progress.
  Variables fexp fln : f64 -> f64.
  Local Notation A := (FA fexp fln).

  Lemma accM_nsum n (f : nat -> res f64) s : accM (A := A) n f n0 = Ok s -> exists g : nat -> f64, (forall i, (i < n)%nat -> f i = Ok (g i)) /\ s = nsum (A := A) n g.
  Proof.
    intros H. exists (fun i => match f i with Ok v => v | _ => S754_zero false end).
    assert (G : (forall i, (i < n)%nat -> exists v, f i = Ok v) /\ s = nsum (A := A) n (fun i => match f i with Ok v => v | _ => S754_zero false end)).
    { unfold accM in H. refine (iterM_inv_ok (fun k s => (forall i, (i < k)%nat -> exists v, f i = Ok v) /\ s = nsum (A := A) k (fun i => match f i with Ok v => v | _ => S754_zero false end)) n _ _ s _ _ H).
      - split; [lia | reflexivity].
      - intros k b c Hk (I1 & I2) E. apply bind_ok_inv in E. destruct E as (v & Ev & E). injection E as E. split.
        + intros i Hi. destruct (Nat.eq_dec i k) as [-> | D]; [eauto | apply I1; lia].
        + cbn [nsum]. rewrite Ev. rewrite <- I2. symmetry. exact E. }
    destruct G as (G1 & G2). split; [| exact G2]. intros i Hi. destruct (G1 i Hi) as (v & Ev). now rewrite Ev.
  Qed.

  Lemma nN_in i : (Z.of_nat i < 2 ^ 32)%Z -> num_in 0 (bpow radix2 32) (nN (A := A) i) /\ fval (nN (A := A) i) = INR i.
  Proof.
    intros Hi. assert (B : INR i <= bpow radix2 32). { rewrite INR_IZR_INZ. change (bpow radix2 32) with (IZR (2 ^ 32)). apply IZR_le. lia. }
    destruct i as [| i].
    - split; [split; [reflexivity |]; split; [reflexivity |]; split; [apply Rle_refl | apply bp0] | reflexivity].
    - destruct (nN_val fexp fln (S i) ltac:(lia) ltac:(lia)) as (V & N & E). split; [| exact E]. split; [exact V |]. split; [exact N |]. rewrite E. split; [apply pos_INR | exact B].
  Qed.

  (** One term of the progress. *)
  Lemma prog_term w i wn : num_in 0 1 w -> (Z.of_nat i < 2 ^ 32)%Z -> num_in (bpow radix2 (-33)) (bpow radix2 33) wn ->
    num_in 0 (bpow radix2 70) (fdiv (fmul w (nN (A := A) i)) wn) /\
    fval (fdiv (fmul w (nN (A := A) i)) wn) <= (1 + uround) ^ 2 * INR i / fval wn * fval w + bpow radix2 (-1000).
  Proof.
    intros Iw Hi (Vn & Nn & Bn). destruct (nN_in i Hi) as (Ii & Ei). destruct (mul_in w (nN (A := A) i) 0 32 Iw Ii ltac:(lia)) as ((V1 & N1 & B1) & E1).
    assert (Pn : 0 < fval wn) by (eapply Rlt_le_trans; [apply bpow_gt_0 | apply Bn]). destruct Iw as (Vw & Nw & Bw).
    set (p := fmul w (nN (A := A) i)) in *.
    assert (Q0 : / fval wn <= bpow radix2 33 /\ 0 < / fval wn). { split; [| now apply Rinv_0_lt_compat]. destruct (inv_bpow (fval wn) (-33) 33 Bn) as (_ & Q). exact Q. }
    assert (Q : 0 <= fval p / fval wn <= bpow radix2 65).
    { unfold Rdiv. split; [apply Rmult_le_pos; lra |]. change 65%Z with (32 + 33)%Z. rewrite bpow_plus. apply Rmult_le_compat; try lra; apply B1. }
    assert (RR : 0 <= rnd (fval p / fval wn) <= bpow radix2 65) by (split; [now apply rnd_nonneg | rewrite <- (rnd_bpow 65) by lia; apply rnd_le; lra]).
    destruct (f_div_num p wn V1 Vn N1 ltac:(lra)) as (D1 & D2). { rewrite Rabs_pos_eq by lra. apply Rle_lt_trans with (1 := proj2 RR). apply bpow_lt. lia. }
    split. { split; [now apply f_div_valid |]. split; [exact D1 |]. rewrite D2. split; [lra |]. apply Rle_trans with (1 := proj2 RR). apply bpow_le. lia. }
    rewrite D2. destruct (rnd_any (fval p / fval wn) (proj1 Q)) as (_ & U1). apply Rle_trans with (1 := U1).
    rewrite Ei in E1. assert (P1 : 0 <= fval w * INR i) by (apply Rmult_le_pos; [apply Bw | apply pos_INR]). destruct (rnd_any _ P1) as (_ & U2). rewrite <- E1 in U2.
    assert (UR := uround_pos).
    assert (U3 : fval p / fval wn <= (fval w * INR i * (1 + uround) + ufloor) * / fval wn) by (unfold Rdiv; apply Rmult_le_compat_r; lra).
    assert (F0 : 0 < ufloor) by apply bpow_gt_0.
    assert (F1 : ufloor * / fval wn <= bpow radix2 (-1042)). { unfold ufloor. change (-1042)%Z with (-1075 + 33)%Z. rewrite bpow_plus. apply Rmult_le_compat_l; [apply bp0 | lra]. }
    assert (F2 : 2 * bpow radix2 (-1042) + ufloor <= bpow radix2 (-1000)).
    { assert (G1 : ufloor <= bpow radix2 (-1042)) by (apply bpow_le; lia). assert (G2 : 4 * bpow radix2 (-1042) <= bpow radix2 (-1000)); [| assert (G3 := bpow_gt_0 radix2 (-1042)); lra].
      change 4 with (bpow radix2 2). rewrite <- bpow_plus. apply bpow_le. lia. }
    assert (T : fval p / fval wn * (1 + uround) <= (1 + uround) ^ 2 * INR i / fval wn * fval w + 2 * bpow radix2 (-1042)).
    { apply Rle_trans with ((fval w * INR i * (1 + uround) + ufloor) * / fval wn * (1 + uround)); [apply Rmult_le_compat_r; lra |].
      replace ((fval w * INR i * (1 + uround) + ufloor) * / fval wn * (1 + uround)) with ((1 + uround) ^ 2 * INR i / fval wn * fval w + ufloor * / fval wn * (1 + uround)) by (unfold Rdiv; ring).
      apply Rplus_le_compat_l. apply Rle_trans with (bpow radix2 (-1042) * 2); [| lra]. apply Rmult_le_compat; try lra. apply Rmult_le_pos; lra. }
    lra.
  Qed.

  (** The progress: a weighted mean of the indices, up to rounding. *)
  Lemma progress_in n d lo (w t : nat -> f64) : (Z.of_nat n < 2 ^ 32)%Z -> (1 <= d)%nat -> (Z.of_nat d < 2 ^ 32)%Z ->
    (forall k, (k < n)%nat -> (lo + k <= d)%nat /\ num_in 0 1 (w k)) ->
    num_in (bpow radix2 (-33)) (bpow radix2 33) (nsum (A := A) n w) ->
    (forall k, (k < n)%nat -> t k = fdiv (fmul (w k) (nN (A := A) (lo + k))) (nsum (A := A) n w)) ->
    num_in 0 (1 + bpow radix2 (-18)) (fdiv (nsum (A := A) n t) (nN (A := A) d)).
  Proof.
    intros Zn Hd Zd Hw Hn Ht. set (wn := nsum (A := A) n w) in *. assert (Pn : 0 < fval wn) by (eapply Rlt_le_trans; [apply bpow_gt_0 | apply Hn]).
    assert (UR := uround_pos).
    assert (T : forall k, (k < n)%nat -> num_in 0 (bpow radix2 70) (t k) /\ fval (t k) <= (1 + uround) ^ 2 * INR d / fval wn * fval (w k) + bpow radix2 (-1000)).
    { intros k Hk. rewrite Ht by exact Hk. destruct (Hw k Hk) as (B & I). destruct (prog_term (w k) (lo + k) wn I ltac:(lia) Hn) as (P1 & P2). split; [exact P1 |]. apply Rle_trans with (1 := P2).
      apply Rplus_le_compat_r, Rmult_le_compat_r; [apply I |]. unfold Rdiv. apply Rmult_le_compat_r; [left; now apply Rinv_0_lt_compat |]. apply Rmult_le_compat_l; [nra |]. now apply le_INR. }
    assert (W1 : rsum (tab n w) / (1 + uround) ^ n <= fval wn).
    { destruct (nsum_nn fexp fln n w) as (_ & Q). { intros k Hk. apply nonneg_nn. eapply num_in_nonneg; [apply Rle_refl | apply Hw, Hk]. } apply Q. apply Hn. }
    assert (Zn' : (Z.of_nat n <= 2 ^ 32)%Z) by lia. destruct (growth n Zn') as ((G1 & _) & G2).
    assert (SB := nsum_abs fexp fln (bpow radix2 70) n t Zn' (bp0 70) ltac:(apply bpow_le; lia)).
    assert (SB' : num_in (- sum_bound (bpow radix2 70) n) (sum_bound (bpow radix2 70) n) (nsum (A := A) n t)).
    { apply SB. intros k Hk. eapply num_in_weaken; [apply T, Hk | assert (Q := bp0 70); lra | lra]. } clear SB.
    destruct SB' as (Vs & Ns & _). destruct (nsum_nn fexp fln n t) as (NN & Q). { intros k Hk. apply nonneg_nn. eapply num_in_nonneg; [apply Rle_refl | apply T, Hk]. }
    destruct (Q Ns) as (_ & (_ & S2)). clear Q. assert (S0 := nn_num _ NN Ns). destruct S0 as (_ & _ & S0).
    assert (L := rsum_linear n t w _ _ (fun k Hk => proj2 (T k Hk))).
    set (s := nsum (A := A) n t) in *. set (g := (1 + uround) ^ n) in *. set (W := rsum (tab n w)) in *.
    assert (WW : W <= fval wn * g). { apply Rmult_le_reg_r with (/ g); [apply Rinv_0_lt_compat; lra |]. rewrite Rmult_assoc, Rinv_r, Rmult_1_r by lra. exact W1. }
    destruct (nN_val fexp fln d Hd ltac:(lia)) as (Vd & Nd & Ed). assert (D1 : 1 <= INR d) by (change 1 with (INR 1); now apply le_INR).
    assert (UU : (1 + uround) ^ 2 <= 1 + bpow radix2 (-50)). { replace (bpow radix2 (-50)) with (8 * uround) by (unfold uround; cbn; lra). cbn [pow]. nra. }
    assert (E : INR n * bpow radix2 (-1000) <= bpow radix2 (-900)).
    { assert (B : INR n <= bpow radix2 32) by (rewrite INR_IZR_INZ; change (bpow radix2 32) with (IZR (2 ^ 32)); apply IZR_le; lia).
      apply Rle_trans with (bpow radix2 32 * bpow radix2 (-1000)); [apply Rmult_le_compat_r; [apply bp0 | exact B] |]. rewrite <- bpow_plus. apply bpow_le. lia. }
    assert (E9 : bpow radix2 (-900) <= bpow radix2 (-50)) by (apply bpow_le; lia).
    assert (B50 : bpow radix2 (-50) = / 1125899906842624) by reflexivity. assert (B20 : bpow radix2 (-20) = / 1048576) by reflexivity. assert (B18 : bpow radix2 (-18) = / 262144) by reflexivity.
    assert (R1 : rsum (tab n t) <= INR d * (1 + 2 * bpow radix2 (-20))).
    { apply Rle_trans with (1 := L). apply Rle_trans with ((1 + uround) ^ 2 * INR d * g + bpow radix2 (-900)).
      - apply Rplus_le_compat; [| exact E]. unfold Rdiv. replace ((1 + uround) ^ 2 * INR d * / fval wn * W) with ((1 + uround) ^ 2 * INR d * (/ fval wn * W)) by ring.
        apply Rmult_le_compat_l; [apply Rmult_le_pos; [nra | lra] |]. apply Rmult_le_reg_l with (fval wn); [exact Pn |]. rewrite <- Rmult_assoc, Rinv_r, Rmult_1_l by lra. exact WW.
      - apply Rle_trans with ((1 + bpow radix2 (-50)) * INR d * (1 + bpow radix2 (-20)) + INR d * bpow radix2 (-50)).
        + apply Rplus_le_compat; [| nra]. apply Rmult_le_compat; [apply Rmult_le_pos; [nra | lra] | lra | apply Rmult_le_compat_r; lra | exact G2].
        + rewrite B50, B20. lra. }
    assert (R2 : fval s <= INR d * (1 + 4 * bpow radix2 (-20))).
    { apply Rle_trans with (1 := S2). apply Rle_trans with (INR d * (1 + 2 * bpow radix2 (-20)) * (1 + bpow radix2 (-20))); [| rewrite B20; lra].
      apply Rle_trans with (INR d * (1 + 2 * bpow radix2 (-20)) * g); [apply Rmult_le_compat_r; lra |]. apply Rmult_le_compat_l; [rewrite B20; lra | exact G2]. }
    assert (R3 : 0 <= fval s / INR d <= 1 + bpow radix2 (-18)).
    { split; [unfold Rdiv; apply Rmult_le_pos; [exact S0 | left; apply Rinv_0_lt_compat; lra] |]. apply Rmult_le_reg_r with (INR d); [lra |]. unfold Rdiv. rewrite Rmult_assoc, Rinv_l, Rmult_1_r by lra.
      apply Rle_trans with (1 := R2). rewrite B18, B20. lra. }
    assert (K : rnd (1 + bpow radix2 (-18)) = 1 + bpow radix2 (-18)).
    { unfold rnd. apply round_generic; [apply valid_rnd_N |]. replace (1 + bpow radix2 (-18)) with (F2R (Float radix2 262145 (-18))) by (unfold F2R; cbn; lra).
      apply generic_format_F2R. intros _. unfold cexp. rewrite fexp_FLT. rewrite (mag_F2R_Zdigits radix2 262145 (-18)) by lia. cbn. unfold FLT_exp. lia. }
    assert (R4 : 0 <= rnd (fval s / INR d) <= 1 + bpow radix2 (-18)) by (split; [apply rnd_nonneg; lra | rewrite <- K; apply rnd_le; lra]).
    destruct (f_div_num s (nN (A := A) d) Vs Vd Ns) as (F1 & F2).
    - rewrite Ed. lra.
    - rewrite Ed. rewrite Rabs_pos_eq by lra. apply Rle_lt_trans with (1 := proj2 R4). apply Rle_lt_trans with (bpow radix2 1); [rewrite B18; cbn; lra | apply bpow_lt; lia].
    - split; [now apply f_div_valid |]. split; [exact F1 |]. rewrite F2, Ed. exact R4.
  Qed.
End Progress.
