(** Any number of EM updates in binary64. *)
From Coq Require Import String ZArith QArith Reals Lra Lia Bool List Arith.
From Coq Require Import Floats.SpecFloat.
From Flocq Require Import Core.Core IEEE754.BinarySingleNaN.
From Verif Require Import Base BaseFacts Arith RFacts Spec_Float Spec_Float2 Spec_Float3 Spec_Float5 Proofs_Float1 Proofs_Float2 Proofs_Float3 Proofs_Float4 Proofs_Float5 Proofs_Float6 Proofs_Float7 Proofs_Float8 Proofs_Float18 Proofs_Float19 Proofs_Float20 Proofs_Float21 Proofs_Float22 Proofs_Float23 Proofs_Float24.
From Verif Require Import Model_Map Model_Ring Model_Phrase Model_Gaussian Model_Config Model_KMeans Model_GMM Model_Single Model_Single2.
Import ListNotations.
Local Open Scope R_scope.

Section Seq.
  Variables fexp fln : f64 -> f64.
  Hypothesis LM : libm_f64 fexp fln.
  Local Notation A := (FA fexp fln).

  Lemma bound_600 T : (Z.of_nat T <= 2 ^ 32)%Z -> sum_bound 560 T <= 600 * INR T.
  Proof.
    intros H. unfold sum_bound. destruct (growth T H) as ((G0 & _) & G). assert (bpow radix2 (-20) <= / 16) by (change (/ 16) with (bpow radix2 (-4)); apply bpow_le; lia).
    pose proof (pos_INR T). apply Rle_trans with (INR T * 560 * (1 + / 16)); [apply Rmult_le_compat_l; lra | lra].
  Qed.

  Lemma update_class (g g' : gclass A) frames lp : class_em g -> Forall frame_f64 frames -> (1 <= length frames)%nat -> (Z.of_nat (length frames) <= 2 ^ 32)%Z ->
    gm_update_with (A := A) as_single frames g = Ok (g', lp) ->
    class_em g' /\ weights_total g' /\ num_in (- (600 * INR (length frames))) (600 * INR (length frames)) lp /\
    gc_par g' = gc_par g /\ gc_dim g' = gc_dim g /\ gc_reg g' = gc_reg g /\ gc_buf g' = gc_buf g.
  Proof.
    intros Hg Hf H1 H2 H. destruct (update_result fexp fln LM g g' frames lp Hg Hf H1 H2 H) as (C & W & (V & N & B) & E1 & E2 & E3 & E4 & _).
    split; [exact C |]. split; [exact W |]. split; [split; [exact V |]; split; [exact N |]; pose proof (bound_600 _ H2); lra | auto].
  Qed.

  Lemma updates_class frames : Forall frame_f64 frames -> (1 <= length frames)%nat -> (Z.of_nat (length frames) <= 2 ^ 32)%Z ->
    forall k (g g' : gclass A), class_em g -> gm_updates_with (A := A) as_single k frames g = Ok g' ->
    class_em g' /\ ((1 <= k)%nat \/ weights_total g -> weights_total g') /\ gc_par g' = gc_par g /\ gc_dim g' = gc_dim g /\ gc_reg g' = gc_reg g /\ gc_buf g' = gc_buf g.
  Proof.
    intros Hf H1 H2. induction k as [| k IH]; intros g g' Hg H; cbn [gm_updates_with] in H.
    - injection H as <-. split; [exact Hg |]. split; [intros [X | X]; [lia | exact X] | auto].
    - apply bind_ok_inv in H. destruct H as ((g1 & lp) & E & H). destruct (update_class _ _ _ _ Hg Hf H1 H2 E) as (C & W & _ & E1 & E2 & E3 & E4).
      destruct (IH _ _ C H) as (C' & W' & F1 & F2 & F3 & F4). split; [exact C' |]. split; [intros _; apply W'; now right |]. repeat split; congruence.
  Qed.
  Lemma updates_last frames : forall k (g g' : gclass A), gm_updates_with (A := A) as_single (S k) frames g = Ok g' ->
    exists g1 lp, gm_updates_with (A := A) as_single k frames g = Ok g1 /\ gm_update_with (A := A) as_single frames g1 = Ok (g', lp).
  Proof.
    induction k as [| k IH]; intros g g' H.
    - cbn [gm_updates_with] in H. apply bind_ok_inv in H. destruct H as ((g1 & lp) & E & H). injection H as <-. exists g, lp. split; [reflexivity | exact E].
    - change (bind (gm_update_with (A := A) as_single frames g) (fun '(g, _) => gm_updates_with (A := A) as_single (S k) frames g) = Ok g') in H.
      apply bind_ok_inv in H. destruct H as ((g1 & lp) & E & H). destruct (IH _ _ H) as (g2 & lp2 & E2 & E3). exists g2, lp2. split; [| exact E3]. cbn [gm_updates_with]. rewrite E. exact E2.
  Qed.

  Lemma frames_f64 b frames : frames_in b frames -> Forall frame_f64 frames.
  Proof. intros H. eapply Forall_impl; [| exact H]. intros x Hx. eapply Forall_impl; [| exact Hx]. intros v (V & _). exact V. Qed.

  Lemma update_comps b (g g' : gclass A) frames lp : (0 <= b <= 100)%Z -> class_em g -> frames_in b frames -> reg_in b (gc_dim g) (gc_reg g) -> (1 <= length frames)%nat -> (Z.of_nat (length frames) <= 2 ^ 32)%Z ->
    gm_update_with (A := A) as_single frames g = Ok (g', lp) ->
    length (gc_comp g') = gc_n g /\
    forall c k, nth_error (gc_comp g') c = Some k ->
      (sound b (gc_dim g) (gc_reg g) k \/ (dead (gc_dim g) k /\ fval (ent (gc_coef g') c) = 0)) /\
      (fval (ent (gc_coef g) c) = 0 -> sound b (gc_dim g) (gc_reg g) k /\ bpow radix2 (-936) <= fval (ent (gc_coef g') c)).
  Proof.
    intros Hb Hg Hf Hr H1 H2 H. destruct (update_result fexp fln LM g g' frames lp Hg (frames_f64 b _ Hf) H1 H2 H) as (_ & _ & _ & _ & _ & _ & _ & ps & E & I & W & L & C).
    split; [exact L |]. intros c k Nc. assert (Hc : (c < gc_n g)%nat) by (rewrite <- L; apply nth_error_Some; congruence). specialize (C c k Nc). specialize (W c Hc).
    destruct I as (I1 & I2 & I3 & I4 & _ & I6). specialize (I4 c Hc).
    assert (Hp : forall t, (t < length frames)%nat -> num_in 0 1 (resp ps c t)) by (intros t Ht; apply (I2 t Ht), Hc).
    destruct (sum_unit fexp fln (length frames) (resp ps c) H2 Hp) as (U & _ & Ug). rewrite <- I4 in U, Ug.
    destruct (new_weight fexp fln (length frames) (ent E c) H1 H2 U) as (_ & _ & Z & P). rewrite <- W in Z, P.
    assert (S : 0 < fval (ent E c) -> sound b (gc_dim g) (gc_reg g) k) by (intros X; exact (comp_sound fexp fln b (gc_dim g) (gc_reg g) ps frames E c k Hb H2 Hp I4 Hf C Hr X)).
    split.
    - destruct (Rle_lt_or_eq_dec 0 (fval (ent E c)) (proj1 (proj2 (proj2 U)))) as [X | X]; [left; exact (S X) |]. right. symmetry in X. split; [| exact (Z X)].
      exact (comp_dead fexp fln b (gc_dim g) (gc_reg g) ps frames E c k Hb H2 Hp I4 Hf C H1 X).
    - intros Wz. assert (X := I6 c Hc Wz 0%nat ltac:(lia)). specialize (Ug 0%nat ltac:(lia)). assert (Y : bpow radix2 (-904) <= fval (ent E c)) by lra.
      split; [apply S; pose proof (bpow_gt_0 radix2 (-904)); lra | exact (P Y)].
  Qed.

  Lemma em_diag (g : gclass A) : class_em g -> window_empty (gc_buf g) -> class_diag g.
  Proof.
    intros ((C & D & N) & _) (W1 & W2 & W3 & W4 & W5). split; [exact C |]. split; [exact D |]. split; [exact N |]. split; [exact W1 |]. split; [exact W2 |]. split; [exact W3 |]. split; [exact W4 |]. intros i Hi. exfalso. exact (Nat.nlt_0_r i (eq_ind _ (fun n => (i < n)%nat) Hi _ W5)).
  Qed.
End Seq.
