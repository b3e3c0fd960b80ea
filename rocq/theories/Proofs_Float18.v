(** Responsibilities in binary64. *)
From Coq Require Import String ZArith QArith Reals Lra Lia Bool List Arith.
From Coq Require Import Floats.SpecFloat.
From Flocq Require Import Core.Core IEEE754.BinarySingleNaN.
From Verif Require Import Base BaseFacts Arith RFacts Spec_Float Spec_Float2 Spec_Float3 Spec_Float5 Proofs_Float1 Proofs_Float2 Proofs_Float3 Proofs_Float4 Proofs_Float5 Proofs_Float6 Proofs_Float7 Proofs_Float8.
From Verif Require Import Model_Map Model_Ring Model_Gaussian Model_Config Model_KMeans Model_GMM Model_Single Model_Single2.
Import ListNotations.
Local Open Scope R_scope.

#[local] Existing Instance Proofs_Float1.Hprec.
#[local] Existing Instance Proofs_Float1.Hmax.

Lemma rsum_tab n (f : nat -> f64) : rsum (tab n f) = Rsum n (fun i => fval (f i)).
Proof. induction n as [| n IH]; [reflexivity |]. rewrite tab_S, rsum_app, IH. reflexivity. Qed.
Lemma tab_ent (l : list f64) : l = tab (length l) (ent l).
Proof. apply (nth_ext_len _ _ (S754_zero false)); [now rewrite tab_length |]. intros i Hi. now rewrite nth_tab. Qed.
Lemma rsum_list (l : list f64) : rsum l = Rsum (length l) (fun i => fval (ent l i)).
Proof. rewrite (tab_ent l) at 1. apply rsum_tab. Qed.

Lemma count_floor n : (Z.of_nat n <= 2 ^ 32)%Z -> 0 <= INR n * ufloor <= bpow radix2 (-1000).
Proof.
  intros Hn. assert (0 <= INR n) by apply pos_INR. assert (0 <= ufloor) by apply bpow_ge_0. split; [nra |].
  apply Rle_trans with (bpow radix2 32 * ufloor).
  - apply Rmult_le_compat_r; [assumption |]. rewrite INR_IZR_INZ. change (bpow radix2 32) with (IZR (2 ^ 32)). now apply IZR_le.
  - unfold ufloor. rewrite <- bpow_plus. apply bpow_le. lia.
Qed.

Lemma inv_growth G e : 0 < e < 1 -> 1 <= G <= 1 + e -> 1 - e <= / G <= 1.
Proof.
  intros He HG. split.
  - apply (Rmult_le_reg_l G); [lra |]. rewrite Rinv_r by lra. nra.
  - rewrite <- Rinv_1. apply Rinv_le_contravar; lra.
Qed.

Lemma sum_parts n (l q : nat -> f64) : (Z.of_nat n < 2 ^ 32)%Z -> parts_f64 n l q ->
  1 - bpow radix2 (-19) <= Rsum n (fun i => fval (q i)) <= 1 + bpow radix2 (-19).
Proof.
  intros Hn (S0 & P). rewrite rsum_tab in S0, P. set (S := Rsum n (fun i => fval (l i))) in *.
  destruct (growth (n + 1) ltac:(lia)) as ((G1 & _) & G2). set (G := (1 + uround) ^ (n + 1)) in *.
  assert (F := count_floor n ltac:(lia)).
  assert (N : bpow radix2 (-1000) <= bpow radix2 (-20)) by (apply bpow_le; lia).
  assert (D : bpow radix2 (-19) = 2 * bpow radix2 (-20)) by (change (-19)%Z with (1 + -20)%Z; rewrite bpow_plus; reflexivity).
  assert (B : 0 < bpow radix2 (-20) < 1) by (split; [apply bpow_gt_0 | change 1 with (bpow radix2 0); apply bpow_lt; lia]).
  destruct (inv_growth G _ B (conj G1 G2)) as (I1 & I2).
  assert (T : forall c, Rsum n (fun i => fval (l i) / S * c) = c).
  { intros c. rewrite (Rsum_ext n _ (fun i => fval (l i) * (/ S * c))) by (intros; unfold Rdiv; ring). rewrite Rsum_scal_r. fold S. field. lra. }
  split.
  - apply Rle_trans with (Rsum n (fun i => fval (l i) / S * / G - ufloor)).
    + rewrite Rsum_minus, T, Rsum_const. lra.
    + apply Rsum_le. intros i Hi. destruct (P i Hi) as (_ & L & _). exact L.
  - apply Rle_trans with (Rsum n (fun i => fval (l i) / S * G + ufloor)).
    + apply Rsum_le. intros i Hi. destruct (P i Hi) as (_ & _ & L). exact L.
    + rewrite Rsum_plus, T, Rsum_const. lra.
Qed.

(** ** The replacement of probabilities that are 0 *)
Definition tiny100 : f64 := f64_ofQ (1 # 10 ^ 100).
Lemma tiny100_in : num_in (bpow radix2 (-333)) (bpow radix2 (-332)) tiny100.
Proof.
  split; [vm_compute; reflexivity |]. split; [vm_compute; reflexivity |].
  replace tiny100 with (S754_finite false 7880401239278896 (-385)) by (vm_compute; reflexivity). unfold fval. cbn [SF2R cond_Zopp]. unfold F2R. cbn [Fnum Fexp].
  replace (bpow radix2 (-333)) with (IZR 4503599627370496 * bpow radix2 (-385)) by (change (-333)%Z with (52 + -385)%Z; rewrite bpow_plus; reflexivity).
  replace (bpow radix2 (-332)) with (IZR 9007199254740992 * bpow radix2 (-385)) by (change (-332)%Z with (53 + -385)%Z; rewrite bpow_plus; reflexivity).
  split; (apply Rmult_le_compat_r; [apply bpow_ge_0 | apply IZR_le; lia]).
Qed.

Section EStep.
  Variables fexp fln : f64 -> f64.
  Hypothesis LM : libm_f64 fexp fln.
  Local Notation A := (FA fexp fln).

  Lemma fix_pos v b : num_in 0 b v -> bpow radix2 (-332) <= b -> let q := gm_fix (A := A) v in
    num_in 0 b q /\ 0 < fval q /\ fval v <= fval q /\ (fval v = 0 -> bpow radix2 (-333) <= fval q).
  Proof.
    intros (V & N & B) Hb q. unfold q, gm_fix. clear q. change (nofQ (a := A) (1 # 10 ^ 100)) with tiny100. generalize tiny100_in. generalize tiny100. intros t (V1 & N1 & B1).
    assert (0 < bpow radix2 (-333)) by apply bpow_gt_0.
    destruct v as [s | s | | s m e]; try discriminate N.
    - change (neqb (a := A) (S754_zero s) n0) with true. cbn [orb]. change (fval (S754_zero s)) with 0. split; [split; [exact V1 |]; split; [exact N1 |]; lra |]. lra.
    - assert (P : 0 < fval (S754_finite s m e)).
      { destruct (Rle_lt_or_eq_dec _ _ (proj1 B)) as [L | L]; [exact L |]. exfalso. symmetry in L. unfold fval in L. cbn in L. apply eq_0_F2R in L. destruct s; discriminate. }
      replace (neqb (a := A) (S754_finite s m e) n0) with false by (destruct s; reflexivity). cbn [nisnan nisinf A FA f64_isnan f64_isinf orb].
      split; [split; [exact V |]; split; [exact N |]; lra |]. lra.
  Qed.

  Lemma lik_bim_le k x y p : gauss_f64 (fexp := fexp) (fln := fln) k -> gauss_diag k -> frame_f64 x -> frame_f64 y -> g_likelihood_bimodal (A := A) k x y = Ok p -> fval p <= bpow radix2 537.
  Proof.
    intros G D Fx Fy H. pose proof D as (M & Dk). pose proof G as (Fm & _ & _ & D1 & D2).
    unfold g_likelihood_bimodal in H. destruct (negb _); [discriminate |]. destruct (neqb _ _); [discriminate |]. cbv zeta in H. apply bind_ok_inv in H. destruct H as (no & Eno & H).
    rewrite M in H. apply bind_ok_inv in H. destruct H as (q & Eq & H). injection H as <-.
    apply (density_le fexp fln LM); [| exact D1]. apply bind_ok_inv in Eq. destruct Eq as (q1 & E1 & Eq).
    assert (Q1 : qn q1). { eapply (accM_qn fexp fln); [apply (qn_0 fexp fln) | | exact E1]. intros i v _ E. cbv beta in E. eapply (term_qn fexp fln k x); eauto. }
    eapply (accM_qn fexp fln); [exact Q1 | | exact Eq]. intros i v _ E. cbv beta in E.
    apply bind_ok_inv in E. destruct E as (c & Ec & E). apply bind_ok_inv in E. destruct E as (e & Ee & E).
    apply bind_ok_inv in Ee. destruct Ee as (a & Ea & Ee). apply bind_ok_inv in Ee. destruct Ee as (b & Eb & Ee). injection Ee as <-. injection E as <-.
    apply qn_square.
    - unfold rd in Ec. destruct (nth_error (g_inv k) _) eqn:E2; [| discriminate]. injection Ec as <-. rewrite Forall_forall in Dk. apply Dk. eapply nth_error_In, E2.
    - apply f_sub_valid; [eapply (rd_f64 y); eauto | eapply (rd_f64 (g_mean k)); eauto].
  Qed.

  Lemma em_obs (g : gclass A) x c v : state_diag g -> frame_f64 x -> gm_frame_obs (A := A) g x c = Ok v ->
    num_in 0 (bpow radix2 537) v /\ exists w, nth_error (gc_coef g) c = Some w /\ (bpow radix2 (-200) <= fval w -> bpow radix2 (-798) <= fval v) /\ (fval w = 0 -> fval v = 0).
  Proof.
    intros (((Lw & Fw & _) & Fk) & K & _) Fx H. assert (He := exp_doubles _ _ LM).
    assert (G : forall w k p, rd (gc_coef g) c = Ok w -> rd (gc_comp g) c = Ok k -> (gauss_f64 k -> num_nonneg p /\ bpow radix2 (-598) <= fval p) -> (gauss_f64 k -> gauss_diag k -> fval p <= bpow radix2 537) -> v = SFmul fprec femax w p ->
      num_in 0 (bpow radix2 537) v /\ exists w, nth_error (gc_coef g) c = Some w /\ (bpow radix2 (-200) <= fval w -> bpow radix2 (-798) <= fval v) /\ (fval w = 0 -> fval v = 0)).
    { intros w k p Ew Ek Ep Eu ->. unfold rd in Ew, Ek. destruct (nth_error (gc_comp g) c) eqn:E1; [| discriminate]. destruct (nth_error (gc_coef g) c) as [t |] eqn:E2; [| discriminate].
      injection Ek as <-. injection Ew as <-. rewrite Forall_forall in Fw, Fk, K. apply nth_error_In in E1.
      destruct (Ep (Fk _ E1)) as (P & Lp). assert (W := Fw _ (nth_error_In _ _ E2)). destruct (mul_weight _ p W P) as ((V1 & N1 & P1) & E & M).
      split.
      - split; [exact V1 |]. split; [exact N1 |]. split; [exact P1 |]. apply Rle_trans with (1 := M). auto.
      - exists t. split; [reflexivity |]. split; [intros L; eapply (scored_pos t _ W L); exists p; auto |]. intros Z. rewrite E, Z, Rmult_0_l. apply rnd_0. }
    unfold gm_frame_obs in H. destruct (gc_bim g).
    - unfold gm_obs_bim in H. destruct (negb (gc_bim g)); [discriminate |].
      apply bind_ok_inv in H. destruct H as (w & Ew & H). apply bind_ok_inv in H. destruct H as (k & Ek & H). apply bind_ok_inv in H. destruct H as (p & Ep & H).
      injection H as H. assert (F1 : frame_f64 (firstn (gc_din g) x)) by (rewrite <- (firstn_skipn (gc_din g) x) in Fx; apply Forall_app in Fx; apply Fx).
      assert (F2 : frame_f64 (skipn (gc_din g) x)) by (rewrite <- (firstn_skipn (gc_din g) x) in Fx; apply Forall_app in Fx; apply Fx).
      apply (G w k p Ew Ek); [intros Gk; exact (lik_bim_num fexp fln He k _ _ p Gk F1 F2 Ep) | intros Gk Dk; exact (lik_bim_le k _ _ p Gk Dk F1 F2 Ep) | now symmetry].
    - unfold gm_obs in H. destruct (gc_n g <=? c)%nat; [discriminate |].
      apply bind_ok_inv in H. destruct H as (w & Ew & H). apply bind_ok_inv in H. destruct H as (k & Ek & H). apply bind_ok_inv in H. destruct H as (p & Ep & H).
      injection H as H. apply (G w k p Ew Ek); [intros Gk; exact (lik_num fexp fln He k _ p Gk Fx Ep) | intros Gk Dk; exact (lik_le fexp fln LM k _ p Gk Dk Fx (or_introl Ep)) | now symmetry].
  Qed.
End EStep.

Section Frame.
  Variables fexp fln : f64 -> f64.
  Hypothesis LM : libm_f64 fexp fln.
  Local Notation A := (FA fexp fln).

  (** The responsibilities of a frame. *)
  Definition shares (n : nat) (r : list f64) : Prop :=
    length r = n /\ (forall c, (c < n)%nat -> num_in 0 1 (ent r c)) /\ 1 - bpow radix2 (-19) <= Rsum n (fun c => fval (ent r c)) <= 1 + bpow radix2 (-19).

  Lemma frame_shares (g : gclass A) x ps E lp s' : state_diag g -> frame_f64 x -> gm_estep_frame (A := A) g (ps, E, lp) x = Ok s' ->
    exists r norm, s' = (ps ++ [r], tab (gc_n g) (fun c => SFadd fprec femax (ent E c) (ent r c)), SFadd fprec femax lp (fln norm)) /\
      shares (gc_n g) r /\ num_in (bpow radix2 (-798)) (bpow radix2 570) norm /\
      forall c, (c < gc_n g)%nat -> fval (ent (gc_coef g) c) = 0 -> bpow radix2 (-904) <= fval (ent r c).
  Proof.
    intros Sg Fx H. pose proof Sg as (((Lw & Fw & (w0 & Iw & Bw)) & _) & _ & Hn). set (n := gc_n g) in *.
    unfold gm_estep_frame in H. apply bind_ok_inv in H. destruct H as (p & Ep & H). injection H as <-. assert (Lp := tabM_length _ _ _ Ep). assert (Vp := tabM_inv _ _ _ Ep). cbv beta in Vp. fold n in Lp, Vp.
    set (f := fun c => nth c p (n0 (A := A))). set (norm := nsum (A := A) n f).
    assert (P : forall c, (c < n)%nat -> num_in 0 (bpow radix2 537) (f c) /\ 0 < fval (f c) /\
      exists w, nth_error (gc_coef g) c = Some w /\ (bpow radix2 (-200) <= fval w -> bpow radix2 (-798) <= fval (f c)) /\ (fval w = 0 -> bpow radix2 (-333) <= fval (f c))).
    { intros c Hc. assert (V := Vp c n0 Hc). apply bind_ok_inv in V. destruct V as (v & Ev & V). injection V as V.
      destruct (em_obs fexp fln LM g x c v Sg Fx Ev) as (Iv & w & Ew & L1 & L2). assert (Ef : f c = gm_fix (A := A) v) by (symmetry; exact V). rewrite Ef.
      destruct (fix_pos fexp fln v _ Iv ltac:(apply bpow_le; lia)) as (I2 & P2 & G2 & Z2). split; [exact I2 |]. split; [exact P2 |]. exists w. split; [exact Ew |]. split.
      - intros B. eapply Rle_trans; [now apply L1 | exact G2].
      - intros Z. apply Z2, L2, Z. }
    assert (Nn : forall c, (c < n)%nat -> nn (f c)) by (intros c Hc; destruct (P c Hc) as ((V & N & B) & _); split; [exact V | right; split; [exact N | lra]]).
    assert (Na : is_num norm = true /\ is_f64 norm /\ fval norm <= bpow radix2 570).
    { assert (Q := nsum_abs fexp fln (bpow radix2 537) n f ltac:(lia) ltac:(apply bpow_ge_0) ltac:(apply bpow_le; lia)).
      destruct Q as (V & N & B). { intros c Hc. destruct (P c Hc) as (I & _). eapply num_in_weaken; [exact I | assert (Q := bp0 537); lra | lra]. }
      split; [exact N |]. split; [exact V |]. eapply Rle_trans; [apply B |]. eapply Rle_trans; [apply sum_bound_le; [lia | apply bpow_ge_0] |]. rewrite <- bpow_plus. apply bpow_le. lia. }
    destruct Na as (Nn1 & Nn2 & Nn3).
    destruct (nsum_nn fexp fln n f Nn) as (_ & Q). destruct (Q Nn1) as (Q1 & Q2). clear Q. fold norm in Q1.
    assert (Lo : bpow radix2 (-798) <= fval norm).
    { destruct (In_nth_error _ _ Iw) as (c & Ec). assert (Hc : (c < n)%nat) by (rewrite <- Lw; apply nth_error_Some; congruence).
      destruct (P c Hc) as (_ & _ & w & Ew & L1 & _). assert (Eq : Some w = Some w0) by exact (eq_trans (eq_sym Ew) Ec). injection Eq as ->. eapply Rle_trans; [now apply L1 | apply Q1, Hc]. }
    assert (P0 : 0 < fval norm) by (eapply Rlt_le_trans; [apply bpow_gt_0 | exact Lo]).
    set (r := map (fun v => SFdiv fprec femax v norm) p).
    assert (Er : forall c, (c < n)%nat -> ent r c = SFdiv fprec femax (f c) norm).
    { intros c Hc. unfold ent, r, f. change (num A) with f64 in *. rewrite (nth_indep _ _ (SFdiv fprec femax (n0 (A := A)) norm)) by (rewrite map_length; exact (eq_ind_r (fun k => (c < k)%nat) Hc Lp)).
      exact (map_nth (fun v => SFdiv fprec femax v norm) p (n0 (A := A)) c). }
    exists r, norm. split; [reflexivity |]. split.
    - assert (Pa : parts_f64 n f (ent r)) by (apply (parts_of fexp fln n f (ent r) Nn Nn1 P0 Er)).
      split; [unfold r; rewrite map_length; exact Lp |]. split; [intros c Hc; apply (proj2 Pa c Hc) |]. exact (sum_parts n f (ent r) Hn Pa).
    - split; [split; [exact Nn2 |]; split; [exact Nn1 |]; split; assumption |]. intros c Hc Z. destruct (P c Hc) as (Ic & _ & w & Ew & _ & L2).
      assert (Zw : fval w = 0). { unfold ent in Z. rewrite (nth_error_nth (A := f64) _ _ _ Ew) in Z. exact Z. }
      rewrite (Er c Hc). destruct Ic as (Vc & Nc & Bc).
      destruct (div_part (f c) norm) as (_ & ->); [split; [exact Vc |]; split; [exact Nc | apply Bc] | split; [exact Nn2 |]; split; [exact Nn1 | lra] | exact P0 | apply Q1, Hc |].
      rewrite <- (rnd_bpow (-904)) by lia. apply rnd_le. apply Rle_trans with (bpow radix2 (-333) / bpow radix2 570).
      + unfold Rdiv. rewrite <- bpow_opp, <- bpow_plus. apply bpow_le. lia.
      + unfold Rdiv. apply Rmult_le_compat; [apply bpow_ge_0 | left; apply Rinv_0_lt_compat, bpow_gt_0 | apply L2, Zw |]. apply Rinv_le_contravar; [exact P0 | exact Nn3].
  Qed.
End Frame.
