(** Sums, likelihoods and posteriors in binary64. *)
From Coq Require Import String ZArith QArith Reals Lra Lia Bool List Arith.
From Coq Require Import Floats.SpecFloat.
From Flocq Require Import Core.Core IEEE754.BinarySingleNaN.
From Verif Require Import Base BaseFacts Arith Spec_Float Proofs_Float1.
Import ListNotations.
Local Open Scope R_scope.

#[local] Instance Hprec : FLX.Prec_gt_0 fprec := eq_refl _.
#[local] Instance Hmax : Prec_lt_emax fprec femax := eq_refl _.

(** ** Constants *)
Lemma FA_n0 fexp fln : n0 (A := FA fexp fln) = S754_zero false.
Proof. reflexivity. Qed.
Lemma zero_nonneg : num_nonneg (S754_zero false).
Proof. repeat split; simpl; try reflexivity. apply Rle_refl. Qed.

(** ** Comparisons *)
Lemma ltb_num x y : is_f64 x -> is_f64 y -> is_num x = true -> is_num y = true -> SFltb x y = Rlt_bool (fval x) (fval y).
Proof. intros Vx Vy. destruct (as_bin x Vx) as (a & -> & -> & ->), (as_bin y Vy) as (b & -> & -> & ->). apply Bltb_correct. Qed.
Lemma leb_num x y : is_f64 x -> is_f64 y -> is_num x = true -> is_num y = true -> SFleb x y = Rle_bool (fval x) (fval y).
Proof. intros Vx Vy. destruct (as_bin x Vx) as (a & -> & -> & ->), (as_bin y Vy) as (b & -> & -> & ->). apply Bleb_correct. Qed.

(** ** Sums *)
Lemma rsum_app l x : rsum (l ++ [x]) = rsum l + fval x.
Proof. unfold rsum. now rewrite fold_left_app. Qed.
Lemma rsum_nonneg l : (forall x, In x l -> 0 <= fval x) -> 0 <= rsum l.
Proof.
  induction l using rev_ind; intros H; [apply Rle_refl |]. rewrite rsum_app.
  assert (0 <= rsum l) by (apply IHl; intros; apply H, in_or_app; auto). assert (0 <= fval x) by (apply H, in_or_app; right; now left). lra.
Qed.
Lemma rsum_ge l x : (forall x, In x l -> 0 <= fval x) -> In x l -> fval x <= rsum l.
Proof.
  induction l using rev_ind; intros H I; [contradiction |]. rewrite rsum_app.
  assert (0 <= rsum l) by (apply rsum_nonneg; intros; apply H, in_or_app; auto). assert (0 <= fval x0) by (apply H, in_or_app; right; now left).
  apply in_app_or in I. destruct I as [I | [-> | []]]; [| lra]. assert (fval x <= rsum l) by (apply IHl; auto; intros; apply H, in_or_app; auto). lra.
Qed.

Section Sums.
  Variables fexp fln : f64 -> f64.
  Let A := FA fexp fln.
  Local Notation sum := (nsum (A := A)).

  (** Adding numbers that are not negative, one after the other. *)
  Lemma nsum_nn n (f : nat -> f64) : (forall i, (i < n)%nat -> nn (f i)) -> nn (sum n f) /\
    (is_num (sum n f) = true ->
      (forall i, (i < n)%nat -> num_nonneg (f i) /\ fval (f i) <= fval (sum n f)) /\
      rsum (tab n f) / (1 + uround) ^ n <= fval (sum n f) <= rsum (tab n f) * (1 + uround) ^ n).
  Proof.
    assert (U := uround_pos).
    induction n as [| n IH]; intros H.
    - split; [apply nonneg_nn, zero_nonneg |]. intros _. split; [intros; lia |]. change (fval (sum 0 f)) with 0. change (rsum (tab 0 f)) with 0. cbn [pow]. lra.
    - destruct IH as (P & Q); [intros; apply H; lia |]. cbn [nsum]. change (nadd (sum n f) (f n)) with (SFadd fprec femax (sum n f) (f n)).
      destruct (add_nn (sum n f) (f n) P (H n ltac:(lia))) as (B & C). split; [exact B |]. intros N.
      destruct (C N) as (S1 & S2 & E & L1 & L2). destruct S1 as (V1 & N1 & P1). destruct S2 as (V2 & N2 & P2). destruct (Q N1) as (Q1 & Q2 & Q3).
      split.
      + intros i Hi. destruct (Nat.eq_dec i n) as [-> | D]; [split; [now repeat split | exact L2] |].
        destruct (Q1 i ltac:(lia)) as (R1 & R2). split; [exact R1 | eapply Rle_trans; [exact R2 | exact L1]].
      + rewrite E, tab_S, rsum_app.
        destruct (rnd_add (sum n f) (f n) V1 V2 ltac:(lra)) as (R1 & R2).
        assert (G : 1 <= (1 + uround) ^ n) by (apply pow_R1_Rle; lra). assert (Z : 0 <= rsum (tab n f)).
        { apply rsum_nonneg. intros x Hx. apply in_map_iff in Hx. destruct Hx as (i & <- & Hi). apply in_seq in Hi. apply Q1. lia. }
        set (g := (1 + uround) ^ n) in *. set (s := rsum (tab n f)) in *. set (a := fval (sum n f)) in *. set (b := fval (f n)) in *.
        cbn [pow]. fold g. assert (0 < g) by lra. assert (0 < 1 + uround) by lra.
        split.
        * apply Rle_trans with ((a + b) / (1 + uround)); [| exact R1]. unfold Rdiv. rewrite Rinv_mult.
          rewrite <- Rmult_assoc, (Rmult_comm _ (/ g)), <- Rmult_assoc. apply Rmult_le_compat_r; [left; now apply Rinv_0_lt_compat |].
          rewrite Rmult_plus_distr_l, (Rmult_comm (/ g) s). assert (/ g * b <= b).
          { rewrite <- (Rmult_1_l b) at 2. apply Rmult_le_compat_r; [exact P2 |]. rewrite <- Rinv_1. apply Rinv_le_contravar; lra. }
          unfold Rdiv in Q2. lra.
        * eapply Rle_trans; [exact R2 |]. rewrite (Rmult_comm (1 + uround) g), <- Rmult_assoc. apply Rmult_le_compat_r; [lra |].
          assert (b <= b * g) by (rewrite <- (Rmult_1_r b) at 1; apply Rmult_le_compat_l; lra). lra.
  Qed.

  (** Parts of a total, and how far they are from the exact parts. *)
  Lemma parts n (f : nat -> f64) : (forall i, (i < n)%nat -> nn (f i)) -> is_num (sum n f) = true -> 0 < fval (sum n f) ->
    let S := rsum (tab n f) in 0 < S /\
    forall i, (i < n)%nat -> num_in 0 1 (SFdiv fprec femax (f i) (sum n f)) /\
      fval (f i) / S / (1 + uround) ^ (n + 1) - ufloor <= fval (SFdiv fprec femax (f i) (sum n f)) <= fval (f i) / S * (1 + uround) ^ (n + 1) + ufloor.
  Proof.
    intros H N P. cbv zeta. assert (U := uround_pos). destruct (nsum_nn n f H) as (W & C). destruct (C N) as (Q & R1 & R2).
    set (g := (1 + uround) ^ n) in *. assert (G : 1 <= g) by (apply pow_R1_Rle; lra). set (s := rsum (tab n f)) in *.
    assert (Ps : 0 < s). { apply Rnot_le_lt. intro L. assert (s * g <= 0 * g) by (apply Rmult_le_compat_r; lra). lra. }
    split; [exact Ps |]. intros i Hi. destruct (Q i Hi) as (Ni & Li).
    destruct (div_part (f i) (sum n f) Ni (nn_num _ W N) P Li) as (I & E). split; [exact I |]. rewrite E.
    destruct Ni as (Vi & Fi & Pi). set (a := fval (sum n f)) in *. set (x := fval (f i)) in *.
    assert (D : 0 <= x / a) by (apply Rmult_le_pos; [exact Pi | left; now apply Rinv_0_lt_compat]).
    destruct (rnd_any (x / a) D) as (T1 & T2). rewrite pow_add, pow_1. fold g.
    assert (B1 : x / s / g <= x / a).
    { unfold Rdiv. rewrite Rmult_assoc. apply Rmult_le_compat_l; [exact Pi |]. rewrite <- Rinv_mult. apply Rinv_le_contravar; lra. }
    assert (B2 : x / a <= x / s * g).
    { unfold Rdiv. rewrite Rmult_assoc. apply Rmult_le_compat_l; [exact Pi |]. apply (Rmult_le_reg_l a); [lra |]. rewrite Rinv_r by lra.
      apply (Rmult_le_reg_r s); [lra |]. replace (a * (/ s * g) * s) with (a * g * (/ s * s)) by ring. rewrite Rinv_l by lra. unfold Rdiv in R1.
      assert (s * / g * g <= a * g) by (apply Rmult_le_compat_r; lra). rewrite Rmult_assoc, Rinv_l in H0 by lra. lra. }
    split.
    - eapply Rle_trans; [| exact T1]. apply Rplus_le_compat_r. unfold Rdiv. rewrite Rinv_mult, <- Rmult_assoc.
      apply Rmult_le_compat_r; [left; apply Rinv_0_lt_compat; lra | exact B1].
    - eapply Rle_trans; [exact T2 |]. apply Rplus_le_compat_r. rewrite <- Rmult_assoc. apply Rmult_le_compat_r; [lra | exact B2].
  Qed.
End Sums.
