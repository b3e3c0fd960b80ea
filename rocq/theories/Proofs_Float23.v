(** The components after an EM update in binary64. *)
From Coq Require Import String ZArith QArith Reals Lra Lia Bool List Arith.
From Coq Require Import Floats.SpecFloat.
From Flocq Require Import Core.Core IEEE754.BinarySingleNaN.
From Verif Require Import Base BaseFacts Arith RFacts Spec_Float Spec_Float2 Spec_Float3 Spec_Float5 Proofs_Float1 Proofs_Float2 Proofs_Float3 Proofs_Float4 Proofs_Float5 Proofs_Float6 Proofs_Float7 Proofs_Float8 Proofs_Float15 Proofs_Float18 Proofs_Float19 Proofs_Float20 Proofs_Float21 Proofs_Float22.
From Verif Require Import Model_Map Model_Ring Model_Phrase Model_Gaussian Model_Config Model_KMeans Model_GMM Model_Single Model_Single2.
Import ListNotations.
Local Open Scope R_scope.

#[local] Existing Instance Proofs_Float1.Hprec.
#[local] Existing Instance Proofs_Float1.Hmax.

Section Comp.
  Variables fexp fln : f64 -> f64.
  Local Notation A := (FA fexp fln).

  Lemma wsum_is ps frames c f s : gm_wsum (A := A) ps frames c f = Ok s ->
    exists h : nat -> f64, s = nsum (A := A) (length frames) h /\ forall t, (t < length frames)%nat -> exists x, In x frames /\ f (resp ps c t) x = Ok (h t).
  Proof.
    intros H. unfold gm_wsum in H. destruct (accM_nsum fexp fln _ _ _ H) as (h & Hh & ->). exists h. split; [reflexivity |]. intros t Ht. specialize (Hh t Ht). cbv beta in Hh.
    apply bind_ok_inv in Hh. destruct Hh as (p & Ep & Hh). apply bind_ok_inv in Hh. destruct Hh as (w & Ew & Hh). apply bind_ok_inv in Hh. destruct Hh as (x & Ex & Hh). exists x.
    split; [unfold rd in Ex; destruct (nth_error frames t) eqn:N; [injection Ex as ->; exact (nth_error_In _ _ N) | discriminate] |].
    destruct (rd_nth (X := list f64) _ _ _ [] Ep) as (E1 & _). destruct (rd_nth (X := f64) _ _ _ (S754_zero false) Ew) as (E2 & _). unfold resp, ent. rewrite E1, E2. exact Hh.
  Qed.

  Lemma one_in : num_in 1 1 (n1 (A := A)).
  Proof. assert (E : n1 (A := A) = S754_finite false 4503599627370496 (-52)) by (vm_compute; reflexivity). rewrite E. split; [reflexivity |]. split; [reflexivity |]. unfold fval, SF2R, F2R. cbn -[bpow]. change (bpow radix2 (-52)) with (/ 4503599627370496). lra. Qed.

  Lemma nsum_nan T (f : nat -> f64) : (1 <= T)%nat -> (forall t, (t < T)%nat -> f t = S754_nan) -> nsum (A := A) T f = S754_nan.
  Proof. intros H1 Hf. destruct T as [| T]; [lia |]. cbn [nsum]. rewrite (Hf T) by lia. apply nan_add_r. Qed.
  Lemma zero_of x : is_f64 x -> is_num x = true -> fval x = 0 -> exists s, x = S754_zero s.
  Proof. intros V N E. destruct x as [s | s | | s m e]; try discriminate; [now exists s |]. exfalso. unfold fval, SF2R in E. destruct s; [now apply eq_0_F2R in E | now apply eq_0_F2R in E]. Qed.

  Variables (b : Z) (n : nat) (reg : list f64) (ps frames : list (list f64)) (E : list f64) (c : nat) (k : gauss A).
  Hypothesis Hb : (0 <= b <= 100)%Z.
  Hypothesis HT : (Z.of_nat (length frames) <= 2 ^ 32)%Z.
  Hypothesis Hp : forall t, (t < length frames)%nat -> num_in 0 1 (resp ps c t).
  Hypothesis HE : ent E c = nsum (A := A) (length frames) (resp ps c).
  Hypothesis Hf : frames_in b frames.
  Hypothesis Hk : next_comp fexp fln n reg ps frames E c k.

  Lemma in_abs e x : num_in (- bpow radix2 e) (bpow radix2 e) x -> is_f64 x /\ is_num x = true /\ Rabs (fval x) <= bpow radix2 e.
  Proof. intros (V & N & B). split; [exact V |]. split; [exact N |]. now apply Rabs_le. Qed.
  Lemma frame_value x d v : In x frames -> rd x d = Ok v -> num_in (- bpow radix2 b) (bpow radix2 b) v.
  Proof. intros I R. exact (rd_Forall _ _ _ _ (proj1 (Forall_forall _ _) Hf x I) R). Qed.

  (** The sum of the weighted values. *)
  Lemma mean_sum_in d s : mean_sum fexp fln ps frames c d = Ok s -> is_f64 s /\ is_num s = true /\ Rabs (fval s) <= bpow radix2 b * fval (ent E c).
  Proof.
    intros H. destruct (wsum_is _ _ _ _ _ H) as (h & -> & Hh). rewrite HE.
    destruct (sum_dom fexp fln b (length frames) (resp ps c) h ltac:(lia) HT Hp) as (V & N & B & _); [| auto].
    intros t Ht. destruct (Hh t Ht) as (x & Ix & Ex). apply bind_ok_inv in Ex. destruct Ex as (v & Ev & Ex). injection Ex as Ex. rewrite <- Ex.
    destruct (in_abs b v (frame_value x d v Ix Ev)) as (Vv & Nv & Bv). destruct (mul_in (resp ps c t) v b ltac:(lia) (Hp t Ht) Vv Nv Bv) as (V & N & _ & B). auto.
  Qed.
  Lemma dev_sum_in d s : num_in (- bpow radix2 b) (bpow radix2 b) (ent (g_mean k) d) -> dev_sum fexp fln ps frames c d (g_mean k) = Ok s ->
    is_f64 s /\ is_num s = true /\ 0 <= fval s /\ Rabs (fval s) <= bpow radix2 (2 * b + 2) * fval (ent E c).
  Proof.
    intros Hm H. destruct (wsum_is _ _ _ _ _ H) as (h & -> & Hh). rewrite HE.
    assert (G : forall t, (t < length frames)%nat -> num_in 0 (bpow radix2 (2 * b + 2) * fval (resp ps c t)) (h t)).
    { intros t Ht. destruct (Hh t Ht) as (x & Ix & Ex). apply bind_ok_inv in Ex. destruct Ex as (a & Ea & Ex). rewrite Ea in Ex. cbn [bind] in Ex. injection Ex as Ex. rewrite <- Ex. clear Ex.
      apply bind_ok_inv in Ea. destruct Ea as (v & Ev & Ea). apply bind_ok_inv in Ea. destruct Ea as (m & Em & Ea). injection Ea as Ea.
      destruct (rd_nth (X := f64) _ _ _ (S754_zero false) Em) as (Nm & _). fold (ent (g_mean k) d) in Nm. rewrite Nm in Hm.
      destruct (sub_in v m b ltac:(lia) (frame_value x d v Ix Ev) Hm) as (V1 & N1 & B1). change (nsub (a := A) v m) with (SFsub fprec femax v m) in Ea. rewrite Ea in V1, N1, B1.
      destruct (as_single_in (b + 1) a ltac:(lia) V1 N1 B1) as (V2 & N2 & B2).
      assert (Q := square_in (resp ps c t) (as_single a) (b + 1) ltac:(lia) (Hp t Ht) V2 N2 B2). cbv zeta in Q. replace (2 * b + 2)%Z with (b + 1 + (b + 1))%Z by lia. exact Q. }
    destruct (sum_dom fexp fln (2 * b + 2) (length frames) (resp ps c) h ltac:(lia) HT Hp) as (V & N & B & P).
    - intros t Ht. destruct (G t Ht) as (V & N & L & U). split; [exact V |]. split; [exact N |]. rewrite Rabs_pos_eq by exact L. exact U.
    - split; [exact V |]. split; [exact N |]. split; [apply P; intros t Ht; apply (G t Ht) | exact B].
  Qed.

  Lemma comp_sound : reg_in b n reg -> 0 < fval (ent E c) -> sound b n reg k.
  Proof.
    intros Hr PE d Hd. assert (VE : is_f64 (ent E c)) by (rewrite HE; apply (sum_unit fexp fln _ _ HT Hp)). destruct (Hk d Hd) as (s & s2 & S1 & S2 & S3 & S4 & _ & S6).
    destruct (mean_sum_in d s S1) as (V1 & N1 & B1). destruct (div_in s (ent E c) b ltac:(lia) V1 N1 VE PE B1) as (M & _). rewrite <- S2 in M.
    destruct (dev_sum_in d s2 M S3) as (V2 & N2 & P2 & B2). destruct (div_in s2 (ent E c) (2 * b + 2) ltac:(lia) V2 N2 VE PE B2) as ((V3 & N3 & _ & U3) & P3). specialize (P3 P2).
    destruct (Hr d Hd) as (V4 & N4 & L4 & U4). set (q := SFdiv fprec femax s2 (ent E c)) in *.
    assert (R4 : 0 < fval (ent reg d)) by (pose proof (bpow_gt_0 radix2 (-1000)); lra).
    assert (Ub : rnd (fval q + fval (ent reg d)) <= bpow radix2 (2 * b + 3)).
    { rewrite <- (rnd_bpow (2 * b + 3)) by lia. apply rnd_le. replace (2 * b + 3)%Z with (2 * b + 2 + 1)%Z by lia. rewrite bpow_plus. change (bpow radix2 1) with 2. lra. }
    assert (Lb : fval (ent reg d) <= rnd (fval q + fval (ent reg d))) by (rewrite Rplus_comm; now apply rnd_le_x).
    assert (C : num_in (fval (ent reg d)) (bpow radix2 (2 * b + 3)) (ent (g_cov k) d)).
    { rewrite S4. split; [apply f_add_valid; assumption |]. destruct (f_add_num q (ent reg d) V3 V4 N3 N4) as [(X & Y) | (i & X & Y & _)]; [rewrite X, Y; split; [reflexivity | split; assumption] |].
      exfalso. apply (Rlt_irrefl (bpow radix2 1024)). apply Rle_lt_trans with (1 := Y). rewrite Rabs_pos_eq by lra. apply Rle_lt_trans with (1 := Ub). apply bpow_lt. lia. }
    split; [exact M |]. split; [exact C |]. rewrite S6. destruct C as (V5 & N5 & L5 & U5). destruct one_in as (V6 & N6 & E6). assert (E7 : fval (n1 (A := A)) = 1) by lra.
    assert (P5 : 0 < fval (ent (g_cov k) d)) by lra.
    assert (X1 : bpow radix2 (- (2 * b + 3)) <= rnd (fval (n1 (A := A)) / fval (ent (g_cov k) d))).
    { rewrite <- (rnd_bpow (- (2 * b + 3))) by lia. apply rnd_le. rewrite E7. unfold Rdiv. rewrite Rmult_1_l, bpow_opp. apply Rinv_le_contravar; assumption. }
    assert (X2 : rnd (fval (n1 (A := A)) / fval (ent (g_cov k) d)) <= bpow radix2 1000).
    { rewrite <- (rnd_bpow 1000) by lia. apply rnd_le. rewrite E7. unfold Rdiv. rewrite Rmult_1_l. change 1000%Z with (- (-1000))%Z. rewrite bpow_opp. apply Rinv_le_contravar; [apply bpow_gt_0 | lra]. }
    destruct (f_div_num (n1 (A := A)) (ent (g_cov k) d) V6 V5 N6 ltac:(lra)) as (X & Y).
    - rewrite Rabs_pos_eq by (pose proof (bpow_gt_0 radix2 (- (2 * b + 3))); lra). apply Rle_lt_trans with (1 := X2). apply bpow_lt. lia.
    - split; [apply f_div_valid; assumption |]. split; [exact X |]. rewrite Y. split; assumption.
  Qed.

  Lemma comp_dead : (1 <= length frames)%nat -> fval (ent E c) = 0 -> dead n k.
  Proof.
    intros H1 E0 d Hd. destruct (sum_unit fexp fln _ _ HT Hp) as ((VE & NE & _) & _). rewrite <- HE in VE, NE. destruct (zero_of _ VE NE E0) as (z & Ez).
    destruct (Hk d Hd) as (s & s2 & S1 & S2 & S3 & S4 & _ & S6). destruct (mean_sum_in d s S1) as (V1 & N1 & B1). rewrite E0, Rmult_0_r in B1.
    assert (Z1 : fval s = 0) by (apply Rabs_eq_R0; pose proof (Rabs_pos (fval s)); lra). destruct (zero_of s V1 N1 Z1) as (z1 & ->).
    assert (M : ent (g_mean k) d = S754_nan) by (rewrite S2, Ez; reflexivity).
    assert (D : s2 = S754_nan).
    { destruct (wsum_is _ _ _ _ _ S3) as (h & -> & Hh). apply nsum_nan; [exact H1 |]. intros t Ht. destruct (Hh t Ht) as (x & Ix & Ex). apply bind_ok_inv in Ex. destruct Ex as (a & Ea & Ex). rewrite Ea in Ex. cbn [bind] in Ex. injection Ex as Ex. rewrite <- Ex. clear Ex.
      apply bind_ok_inv in Ea. destruct Ea as (v & Ev & Ea). apply bind_ok_inv in Ea. destruct Ea as (m & Em & Ea). injection Ea as Ea. rewrite <- Ea.
      destruct (rd_nth (X := f64) _ _ _ (S754_zero false) Em) as (Nm & _). fold (ent (g_mean k) d) in Nm. rewrite <- Nm, M.
      replace (SFsub fprec femax v S754_nan) with S754_nan by (destruct v; reflexivity). change (as_single S754_nan) with S754_nan. destruct (resp ps c t); reflexivity. }
    assert (C : ent (g_cov k) d = S754_nan) by (rewrite S4, D; reflexivity). split; [exact M |]. split; [exact C |]. rewrite S6, C. vm_compute. reflexivity.
  Qed.
End Comp.
