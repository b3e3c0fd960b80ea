(** Regularisation and inversion of the covariances of Diagonal components in binary64. *)
From Coq Require Import String ZArith QArith Reals Lra Lia Bool List Arith.
From Coq Require Import Floats.SpecFloat.
From Flocq Require Import Core.Core IEEE754.BinarySingleNaN.
From Verif Require Import Base BaseFacts Arith RFacts Spec_Float Spec_Float2 Spec_Float3 Spec_Float5 Proofs_Float1 Proofs_Float2 Proofs_Float3 Proofs_Float4 Proofs_Float5 Proofs_Float6 Proofs_Float7 Proofs_Float8 Proofs_Float18 Proofs_Float19.
From Verif Require Import Model_Map Model_Ring Model_Phrase Model_Gaussian Model_Config Model_KMeans Model_GMM Model_Single Model_Single2.
Import ListNotations.
Local Open Scope R_scope.

#[local] Existing Instance Proofs_Float1.Hprec.
#[local] Existing Instance Proofs_Float1.Hmax.

Lemma wr_Forall {X} (P : X -> Prop) v i x w : Forall P v -> P x -> wr v i x = Ok w -> Forall P w.
Proof.
  intros F Hx H. unfold wr in H. destruct (i <? length v)%nat eqn:L; [| discriminate]. injection H as <-. apply Nat.ltb_lt in L.
  apply Forall_forall. intros y Iy. destruct (In_nth _ _ x Iy) as (j & Hj & <-). rewrite upd_length in Hj.
  destruct (Nat.eq_dec i j) as [-> | N]; [rewrite nth_upd_eq by exact Hj; exact Hx |]. rewrite nth_upd_neq by exact N. rewrite Forall_forall in F. apply F, nth_In, Hj.
Qed.
Lemma rd_Forall {X} (P : X -> Prop) v i x : Forall P v -> rd v i = Ok x -> P x.
Proof. intros F H. unfold rd in H. destruct (nth_error v i) eqn:E; [| discriminate]. injection H as <-. rewrite Forall_forall in F. eapply F, nth_error_In, E. Qed.
Lemma foreach_inv {S} (I : nat -> S -> Prop) (f : nat -> stm S unit) : forall n a s s' u, I a s ->
  (forall i s s' u, (a <= i < a + n)%nat -> I i s -> f i s = (s', Ok u) -> I (Datatypes.S i) s') -> sforeach (seq a n) f s = (s', Ok u) -> I (a + n)%nat s'.
Proof.
  induction n as [| n IH]; intros a s s' u H0 Hs H; cbn [seq sforeach] in H.
  - injection H as <- _. now rewrite Nat.add_0_r.
  - unfold sbind in H. destruct (f a s) as [s1 r] eqn:E. destruct r as [u1 | |]; try discriminate.
    replace (a + Datatypes.S n)%nat with (Datatypes.S a + n)%nat by lia. eapply IH; [| | exact H].
    + eapply (Hs a s s1 u1); [lia | exact H0 | exact E].
    + intros i t t' v Hi. apply Hs. lia.
Qed.

(** [1 / c] where [c <= 0] is false. *)
Lemma div_not_neg o c : num_in 1 1 o -> is_f64 c -> SFleb c (S754_zero false) = false -> not_negative (SFdiv fprec femax o c).
Proof.
  intros O V L. assert (Vd := f_div_valid o c (proj1 O) V). destruct O as (Vo & No & Bo).
  destruct c as [s | s | | s m e]; try discriminate L.
  - destruct s; [discriminate L |]. right. split; [exact Vd |]. right. destruct o as [t | t | | t m e]; try discriminate No; [cbn in Bo; lra |]. split; [reflexivity | cbn; lra].
  - left. destruct o; reflexivity.
  - destruct s; [discriminate L |]. assert (P : 0 < fval (S754_finite false m e)).
    { unfold fval. cbn. apply F2R_gt_0. reflexivity. }
    right. split; [exact Vd |]. set (c := S754_finite false m e) in *. clearbody c. revert Vd P Bo. destruct (as_bin o Vo) as (a & -> & -> & Fa), (as_bin c V) as (b & -> & -> & Fb). rewrite div_equiv. intros Vd P Bo.
    assert (C := Bdiv_correct fprec femax _ _ mode_NE a b ltac:(lra)). assert (Sg : xorb (Bsign a) (Bsign b) = false) by (rewrite (pos_sign a), (pos_sign b) by lra; reflexivity).
    change (round radix2 (SpecFloat.fexp fprec femax) (round_mode mode_NE) (B2R a / B2R b)) with (rnd (B2R a / B2R b)) in C.
    destruct (Rlt_bool _ _).
    + right. destruct C as (E & F & _). destruct (bin_f64 (Bdiv mode_NE a b)) as (_ & -> & ->). rewrite F, <- Fa. split; [exact No |]. rewrite E. apply rnd_nonneg. apply Rmult_le_pos; [lra | left; apply Rinv_0_lt_compat; lra].
    + left. rewrite C, Sg. reflexivity.
Qed.

Section Inverse.
  Variables fexp fln : f64 -> f64.
  Local Notation A := (FA fexp fln).

  (** The members that the inversion does not change, and what it computes for the first [i] dimensions. *)
  Definition inv_upto (k : gauss A) (i : nat) (s : gauss A) : Prop :=
    g_mode s = Diagonal /\ g_dim s = g_dim k /\ g_mean s = g_mean k /\ g_cov s = g_cov k /\ length (A := f64) (g_inv s) = length (A := f64) (g_inv k) /\
    (forall d, (d < i)%nat -> (d < length (A := f64) (g_inv k))%nat /\ SFleb (ent (g_cov k) d) (S754_zero false) = false /\ ent (g_inv s) d = SFdiv fprec femax (n1 (A := A)) (ent (g_cov k) d)) /\
    Forall is_f64 (g_inv s) /\ Forall not_negative (g_inv s) /\ Forall is_f64 (g_inv_in s) /\ is_f64 (g_det s) /\ is_f64 (g_det_in s).

  Lemma inverse_result (k k' : gauss A) : gauss_f64 k -> gauss_diag k -> Forall is_f64 (g_cov k) -> runm (g_update_inv (A := A)) k = Ok k' -> inv_upto k (g_dim k) k'.
  Proof.
    intros (F1 & F2 & F3 & F4 & F5) (M & D) Fc H. unfold runm in H. destruct (g_update_inv k) as [s r] eqn:E. destruct r as [u | |]; try discriminate. injection H as <-.
    unfold g_update_inv in E. unfold sbind at 1, sget at 1 in E. rewrite M in E. unfold sbind at 1 in E.
    match type of E with (let (_, _) := ?m k in _) = _ => destruct (m k) as [s1 r] eqn:E1 end. destruct r as [u1 | |]; try discriminate.
    assert (I : inv_upto k (g_dim k) s1).
    { clear E. unfold sbind at 1, smod at 1 in E1. unfold sbind at 1, smod at 1 in E1. cbv beta in E1.
      refine (foreach_inv (inv_upto k) _ (g_dim k) 0 _ s1 u1 _ _ E1).
      - destruct (FA_n1 fexp fln) as (V1 & _). split; [exact M |]. split; [reflexivity |]. split; [reflexivity |]. split; [reflexivity |]. split; [reflexivity |]. split; [intros; lia |].
        split; [exact F2 |]. split; [exact D |]. split; [exact F3 |]. split; exact V1.
      - intros i t t' v _ (I1 & I2 & I3 & I4 & I5 & I6 & I7 & I8 & I9 & I10 & I11) Q. unfold sbind at 1, sget in Q. unfold sbind at 1, slift at 1 in Q.
        destruct (rd (g_cov t) i) as [c | |] eqn:Ec; try discriminate. change (nleb (a := A) c n0) with (SFleb c (S754_zero false)) in Q. destruct (SFleb c (S754_zero false)) eqn:Lc; [discriminate |].
        unfold sbind at 1, slift at 1 in Q. destruct (wr (g_inv t) i _) as [w | |] eqn:Ew; try discriminate. unfold sbind at 1, smod at 1 in Q. unfold sbind at 1, smod at 1 in Q.
        assert (Ek : ent (g_cov k) i = c) by (rewrite <- I4; apply (rd_nth (X := f64) _ _ _ (S754_zero false) Ec)).
        assert (Vc : is_f64 c) by (rewrite I4 in Ec; exact (rd_Forall is_f64 _ _ _ Fc Ec)).
        destruct (FA_n1 fexp fln) as (V1 & N1 & B1). assert (Vd : is_f64 (SFdiv fprec femax (n1 (A := A)) c)) by (apply f_div_valid; assumption).
        assert (Nd : not_negative (SFdiv fprec femax (n1 (A := A)) c)) by (apply div_not_neg; [split; [exact V1 |]; split; [exact N1 | rewrite B1; lra] | exact Vc | exact Lc]).
        destruct (wr_nth (X := f64) _ _ _ _ (S754_zero false) Ew) as (W1 & W2 & W3).
        assert (Hi : (i < length (A := f64) (g_inv k))%nat). { rewrite <- I5. unfold wr in Ew. destruct (i <? length (g_inv t))%nat eqn:L; [now apply Nat.ltb_lt in L | discriminate]. }
        assert (J : forall t2 : gauss A, g_mode t2 = Diagonal -> g_dim t2 = g_dim k -> g_mean t2 = g_mean k -> g_cov t2 = g_cov k -> g_inv t2 = w -> Forall is_f64 (g_inv_in t2) -> is_f64 (g_det t2) -> is_f64 (g_det_in t2) -> inv_upto k (S i) t2).
        { intros t2 J1 J2 J3 J4 J5 J6 J7 J8. unfold inv_upto. rewrite J5. split; [exact J1 |]. split; [exact J2 |]. split; [exact J3 |]. split; [exact J4 |]. split; [exact (eq_trans W1 I5) |]. split.
          - intros d Hd. destruct (Nat.eq_dec d i) as [-> | Ne].
            + split; [exact Hi |]. rewrite Ek. split; [exact Lc | exact W2].
            + destruct (I6 d ltac:(lia)) as (X1 & X2 & X3). split; [exact X1 |]. split; [exact X2 |]. rewrite <- X3. apply (W3 d Ne).
          - split; [exact (wr_Forall is_f64 _ _ _ _ I7 Vd Ew) |]. split; [exact (wr_Forall not_negative _ _ _ _ I8 Nd Ew) |]. auto. }
        destruct (g_bim _ && _)%bool eqn:B.
        + cbn [swhen] in Q. unfold sbind at 1, slift at 1 in Q. destruct (wr (g_inv_in t) i _) as [w2 | |] eqn:Ew2; try discriminate. unfold sbind at 1, smod in Q. injection Q as <- _.
          apply J; cbn; auto; [exact (wr_Forall is_f64 _ _ _ _ I9 Vd Ew2) | apply f_mul_valid; assumption | apply f_mul_valid; assumption].
        + cbn [swhen] in Q. injection Q as <- _. apply J; cbn; auto. apply f_mul_valid; assumption. }
    assert (G : g_mode s = g_mode s1 /\ g_dim s = g_dim s1 /\ g_mean s = g_mean s1 /\ g_cov s = g_cov s1 /\ g_inv s = g_inv s1 /\ g_inv_in s = g_inv_in s1 /\ g_det s = g_det s1 /\ g_det_in s = g_det_in s1).
    { destruct (g_bim k) eqn:B; cbn [swhen] in E; [| injection E as <- _; repeat split].
      unfold g_update_out in E. unfold sbind at 1, sget at 1 in E. destruct (negb (g_bim s1)); [discriminate |]. unfold sbind at 1, slift at 1 in E. destruct (Model_Phrase.usub _ _) as [no | |]; try discriminate.
      destruct I as (Ms & _). rewrite Ms in E. unfold sbind at 1, slift at 1 in E. destruct (iterM _ _ _) as [o | |]; try discriminate. injection E as <- _. repeat split; cbn; congruence. }
    destruct G as (G1 & G2 & G3 & G4 & G5 & G6 & G7 & G8). unfold inv_upto in *. rewrite G1, G2, G3, G4, G5, G6, G7, G8. exact I.
  Qed.

  Lemma regularize_result (r : list f64) (k k' : gauss A) : g_mode k = Diagonal -> Forall is_f64 r -> Forall is_f64 (g_cov k) -> runm (g_regularize (A := A) r) k = Ok k' ->
    exists c, k' = g_set_cov (A := A) c k /\ Forall is_f64 c /\ forall d, (d < g_dim k)%nat -> ent c d = SFadd fprec femax (ent (g_cov k) d) (ent r d) /\ (d < length (A := f64) r)%nat.
  Proof.
    intros M Fr Fc H. unfold runm, g_regularize, sbind, sget, slift, smod in H.
    destruct (iterM _ _ (g_cov k)) as [c | |] eqn:E; try discriminate. injection H as <-. exists c. split; [reflexivity |]. rewrite M in E.
    change (num A) with f64 in *.
    assert (I : Forall is_f64 c /\ forall d, (d < g_dim k)%nat -> ent c d = SFadd fprec femax (ent (g_cov k) d) (ent r d) /\ (d < length (A := f64) r)%nat /\ True).
    { refine (match _ : (Forall is_f64 c /\ (forall d, (d < g_dim k)%nat -> ent c d = SFadd fprec femax (ent (g_cov k) d) (ent r d) /\ (d < length (A := f64) r)%nat) /\ (forall d, (g_dim k <= d)%nat -> ent c d = ent (g_cov k) d)) with conj X (conj Y _) => conj X (fun d Hd => match Y d Hd with conj a b => conj a (conj b Logic.I) end) end).
      refine (iterM_inv_ok (fun j c => Forall is_f64 c /\ (forall d, (d < j)%nat -> ent c d = SFadd fprec femax (ent (g_cov k) d) (ent r d) /\ (d < length (A := f64) r)%nat) /\ (forall d, (j <= d)%nat -> ent c d = ent (g_cov k) d)) _ _ _ _ _ _ E).
      - split; [exact Fc |]. split; [intros; lia | reflexivity].
      - intros i s s' Hi (Hs & Hd & Hu) Es. apply bind_ok_inv in Es. destruct Es as (a & Ea & Es). apply bind_ok_inv in Es. destruct Es as (b & Eb & Es).
        destruct (wr_nth (X := f64) _ _ _ _ (S754_zero false) Es) as (W1 & W2 & W3). destruct (rd_nth (X := f64) _ _ _ (S754_zero false) Ea) as (R1 & _). destruct (rd_nth (X := f64) _ _ _ (S754_zero false) Eb) as (R2 & Rl).
        split; [| split].
        + refine (wr_Forall is_f64 _ _ _ _ Hs _ Es). apply f_add_valid; [exact (rd_Forall is_f64 _ _ _ Hs Ea) | exact (rd_Forall is_f64 _ _ _ Fr Eb)].
        + intros d Hdi. destruct (Nat.eq_dec d i) as [-> | N]; [| destruct (Hd d ltac:(lia)) as (X & Y); split; [rewrite <- X; apply (W3 d N) | exact Y]].
          split; [| exact Rl]. rewrite <- (Hu i ltac:(lia)). unfold ent. rewrite R1, R2. exact W2.
        + intros d Hdi. rewrite <- (Hu d ltac:(lia)). apply (W3 d). lia. }
    destruct I as (I1 & I2). split; [exact I1 |]. intros d Hd. destruct (I2 d Hd) as (X & Y & _). auto.
  Qed.
End Inverse.
