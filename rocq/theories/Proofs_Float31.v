(** Regression with the states of a class, in binary64. *)
From Coq Require Import String ZArith QArith Reals Lra Lia Bool List Arith.
From Coq Require Import Floats.SpecFloat.
From Flocq Require Import Core.Core.
From Verif Require Import Base BaseFacts Arith Spec_Float Spec_Float2 Spec_Float3 Spec_Float4 Spec_Float6 Spec_Float7 Proofs_Float1 Proofs_Float2 Proofs_Float3 Proofs_Float4 Proofs_Float6 Proofs_Float7 Proofs_Float8 Proofs_Float14 Proofs_Float15 Proofs_Float16 Proofs_Float21 Proofs_Float22 Proofs_Float24 Proofs_Float26 Proofs_Float27 Proofs_Float30.
From Verif Require Import Model_Map Model_Ring Model_Phrase Model_Gaussian Model_Config Model_KMeans Model_GMM Model_HMM Model_HHMM Model_Single Model_Single2 Model_Single3 Model_Single4.
Import ListNotations.
Local Open Scope R_scope.

Local Notation fadd := (SFadd fprec femax).
Local Notation fmul := (SFmul fprec femax).
Local Notation fdiv := (SFdiv fprec femax).

(** Weights that sum to 1 up to rounding. *)
Definition total (n : nat) (w : nat -> f64) : Prop := 1 - INR n * bpow radix2 (-50) <= rs n (fun i => fval (w i)) <= 1 + INR n * bpow radix2 (-50).

Section States.
  Variables fexp fln : f64 -> f64.
  Hypothesis LM : libm_f64 fexp fln.
  Local Notation A := (FA fexp fln).

  (** ** A state *)
  Lemma state_lik (g h : gclass A) x : state_diag g -> frame_f64 x -> gm_likelihood (A := A) x [] g = Ok h -> exists l, parts_f64 (gc_n g) l (ent (gc_beta h)).
  Proof.
    intros D Fx Hh. pose proof D as (C & K & Ln). assert (He := exp_doubles _ _ LM).
    destruct (class_lik fexp fln He g x h C Fx Hh) as (P & Q).
    assert (C' : class_diag (gc_set_buf (A := A) (mkRing [[S754_zero false]] 1 0 false) (S754_zero false) (S754_zero false) g)).
    { split; [exact C |]. split; [exact K |]. split; [exact Ln |]. split; [reflexivity |]. split; [cbn; lia |]. cbn. split; [lia |]. split; [reflexivity |]. cbn. intros; lia. }
    unfold gm_likelihood in Hh. apply bind_ok_inv in Hh. destruct Hh as (b & Eb & Hh). cbv zeta in Hh. set (lik := nsum (gc_n g) _) in Hh.
    apply bind_ok_inv in Hh. destruct Hh as (b' & Eb' & Hh). apply bind_ok_inv in Hh. destruct Hh as ((buf & l) & Es & Hh). injection Hh as <-. cbn [gc_inst gc_beta gc_set_buf gc_set_beta gc_buf gc_log] in *.
    destruct (fill_spec (gc_n g) (fun c => if gc_bim g then gm_obs_input g x c else gm_obs g x c) (fun p => p) (gc_beta g) b (S754_zero false) Eb) as (Lb & Nb).
    assert (Hs : forall c, (c < gc_n g)%nat -> num_in (- bpow radix2 537) (bpow radix2 537) (nth c b (S754_zero false)) /\ nn (nth c b (S754_zero false))).
    { intros c Hc. destruct (Nb c Hc) as (v & Ev & ->). destruct (obs_scored fexp fln He g x c v C Fx Ev) as (w & Ew & Sw).
      pose proof C as ((_ & Fw & _) & _). rewrite Forall_forall in Fw. assert (S := scored_nn w v (Fw _ (nth_error_In _ _ Ew)) Sw). split; [| now apply nonneg_nn]. destruct S as (Vv & Nv & Pv).
      split; [exact Vv |]. split; [exact Nv |]. assert (0 <= bpow radix2 537) by apply bpow_ge_0. split; [lra |]. exact (obs_le fexp fln LM _ x c v C' Fx Ev). }
    assert (B : bpow radix2 537 <= bpow radix2 950) by (apply bpow_le; lia).
    destruct (nsum_abs fexp fln (bpow radix2 537) (gc_n g) (fun c => nth c b (S754_zero false)) ltac:(lia) (bpow_ge_0 _ _) B ltac:(intros c Hc; apply (Hs c Hc))) as (V & N & _ & U). change (nsum (gc_n g) _) with lik in V, N, U.
    destruct (each_spec (gc_n g) (fun v => (v / lik)%num) b b' (S754_zero false) Eb') as (_ & Nb'). exists (fun c => nth c b (S754_zero false)).
    apply (parts_of fexp fln); [intros c Hc; apply (Hs c Hc) | exact N | exact (Rlt_le_trans _ _ _ (bpow_gt_0 _ _) (proj1 (Q N))) | exact Nb'].
  Qed.

  Lemma kept_trans (g1 g2 g3 : gclass A) : kept fexp fln g1 g2 -> kept fexp fln g2 g3 -> kept fexp fln g1 g3.
  Proof. intros (A1 & A2 & A3 & A4 & A5 & A6) (B1 & B2 & B3 & B4 & B5 & B6). unfold kept. rewrite B1, B2, B3, B4, B5, B6. auto 10. Qed.

  Lemma fire_kept x (g g2 : gclass A) : (let* g := gm_likelihood (A := A) x [] g in gm_regression_with (A := A) as_single x g) = Ok g2 ->
    exists h, gm_likelihood (A := A) x [] g = Ok h /\ gm_regression_with (A := A) as_single x h = Ok g2 /\ kept fexp fln g h /\ kept fexp fln g g2.
  Proof.
    intros H. apply bind_ok_inv in H. destruct H as (h & Eh & H). exists h. split; [exact Eh |]. split; [exact H |].
    assert (Kh : kept fexp fln g h) by (destruct (lik_shape fexp fln x [] g h Eh) as (bt & bf & i & l & ->); repeat split). split; [exact Kh |]. apply (kept_trans _ _ _ Kh).
    unfold gm_regression_with in H. apply bind_ok_inv in H. destruct H as (no & _ & H). apply bind_ok_inv in H. destruct H as ((o & v) & _ & H). injection H as <-. repeat split.
  Qed.

  (** What is asked of the states, kept by every frame. *)
  Definition state_reg (G dim din : nat) (g : gclass A) : Prop := state_flat g /\ gc_dim g = dim /\ gc_din g = din /\ (gc_n g <= G)%nat.
  Lemma state_reg_kept G dim din g g' : kept fexp fln g g' -> state_reg G dim din g -> state_reg G dim din g'.
  Proof.
    intros (K1 & K2 & K3 & K4 & K5 & K6) (S & D1 & D2 & D3). unfold state_reg, state_flat, state_diag, class_f64, gc_n in *. rewrite K2, K3, K4, K5, K6. auto.
  Qed.
  Lemma means_kept d lo hi (g g' : gclass A) : kept fexp fln g g' -> means_in d lo hi g -> means_in d lo hi g'.
  Proof. intros (_ & _ & K3 & _ & _ & K6) H. unfold means_in. rewrite K3, K6. exact H. Qed.
  Lemma vars_kept d hi (g g' : gclass A) : kept fexp fln g g' -> variances_in d hi g -> variances_in d hi g'.
  Proof. intros (_ & _ & _ & K4 & _ & K6) (M & H). split; [unfold gc_mode; rewrite K4; exact M | rewrite K6; exact H]. Qed.

  Section Fire.
    Variables (G dim din d : nat) (b : Z) (x : list f64) (g g2 : gclass A).
    Hypothesis Hb : (-100 <= b <= 100)%Z.
    Hypothesis HG : (Z.of_nat G <= 2 ^ 20)%Z.
    Hypothesis Hd : (din + d < dim)%nat.
    Hypothesis Fx : frame_f64 x.
    Hypothesis Sg : state_reg G dim din g.
    Hypothesis Hf : (let* g := gm_likelihood (A := A) x [] g in gm_regression_with (A := A) as_single x g) = Ok g2.

    Lemma fire_facts : exists h l, (1 <= gc_n h <= G)%nat /\ Forall (fun k : gauss A => g_mode k = Diagonal) (gc_comp h) /\ parts_f64 (gc_n h) l (ent (gc_beta h)) /\ gm_regression_with (A := A) as_single x h = Ok g2 /\
      (gc_din h + d < gc_dim h)%nat /\ kept fexp fln g h.
    Proof.
      destruct (fire_kept x g g2 Hf) as (h & Eh & Er & Kh & _). destruct Sg as ((Sd & (w & Iw & _)) & E1 & E2 & E3). destruct (state_lik g h x Sd Fx Eh) as (l & P). assert (Kh' := Kh). destruct Kh as (_ & K2 & K3 & K4 & _ & K6).
      assert (Nh : gc_n h = gc_n g) by (unfold gc_n; now rewrite K4). exists h, l. rewrite Nh.
      destruct Sd as (((L & _) & _) & K & _). split; [split; [destruct (gc_coef g); [destruct Iw | cbn in L; lia] | exact E3] |].
      split; [rewrite K6; eapply Forall_impl; [| exact K]; intros k Hk; apply Hk |]. split; [exact P |]. split; [exact Er |]. split; [rewrite K2, K3, E1, E2; exact Hd | exact Kh'].
    Qed.
    Lemma fire_bound n : (n <= G)%nat -> INR n * bpow radix2 (b - 20) <= INR G * bpow radix2 (b - 20).
    Proof. intros L. apply Rmult_le_compat_r; [apply bpow_ge_0 | now apply le_INR]. Qed.

    Lemma fire_near lo hi : means_in d lo hi g -> range_in b lo hi -> near lo hi (INR G * bpow radix2 (b - 20)) (ent (gc_out g2) d).
    Proof.
      intros Hm R. destruct fire_facts as (h & l & (N1 & N2) & M & P & Er & Hd' & K). destruct (reg_near fexp fln b lo hi d x h g2 l Hb N1 ltac:(lia) M P Er Hd' (means_kept _ _ _ _ _ K Hm) R) as (V & N & C).
      split; [exact V |]. split; [exact N |]. assert (Q := fire_bound _ N2). lra.
    Qed.
    Lemma fire_var hi : variances_in d hi g -> hi <= bpow radix2 b -> num_in 0 (hi + INR G * bpow radix2 (b - 20)) (ent (gc_ocov g2) d).
    Proof.
      intros Hm R. destruct fire_facts as (h & l & (N1 & N2) & M & P & Er & Hd' & K). destruct (reg_var fexp fln b hi d x h g2 l Hb N1 ltac:(lia) P Er Hd' (vars_kept _ _ _ _ K Hm) R) as (V & N & C).
      split; [exact V |]. split; [exact N |]. assert (Q := fire_bound _ N2). lra.
    Qed.
  End Fire.

  (** ** A class *)
  (** What [updateAlphaWindow] leaves. *)
  Definition windowed (h : hclass A) : Prop :=
    let r := hc_run h in (h_wmax r <= hc_n h)%nat /\ h_wnorm r = nsum (A := A) (h_wmax r - h_wmin r) (fun k => ent (h_alpha r) (h_wmin r + k)) /\
    ((h_wmin r < h_wmax r)%nat -> num_in (bpow radix2 (-33)) (bpow radix2 33) (h_wnorm r)) /\ (hc_n h = 1 -> h_wmax r = 0)%nat /\ (2 <= hc_n h -> h_wmin r < h_wmax r)%nat.

  (** The weights of the states between [lo] and [hi], divided by [nc]. *)
  Definition shares (al : list f64) (lo n : nat) (nc : f64) : Prop :=
    num_in (bpow radix2 (-33)) (bpow radix2 33) nc /\ (forall i, (i < n)%nat -> num_in 0 1 (ent al (lo + i)) /\ fval (ent al (lo + i)) <= 2 * fval nc) /\
    1 - INR n * bpow radix2 (-40) <= rs n (fun i => fval (ent al (lo + i)) / fval nc) <= 1 + INR n * bpow radix2 (-40).

  Lemma shares_full n al : (1 <= n)%nat -> (forall k, (k < n)%nat -> num_in 0 1 (ent al k)) -> total n (ent al) -> shares al 0 n (n1 (A := A)).
  Proof.
    intros H1 AL T. destruct (FA_n1 fexp fln) as (V & N & E). assert (B33 : 1 <= bpow radix2 33) by (change 1 with (bpow radix2 0); apply bpow_le; lia). assert (B33' : bpow radix2 (-33) <= 1) by (change 1 with (bpow radix2 0); apply bpow_le; lia).
    split; [split; [exact V |]; split; [exact N |]; rewrite E; lra |]. split.
    - intros i Hi. split; [now apply AL |]. cbn [Nat.add]. rewrite E. destruct (AL i Hi) as (_ & _ & B). lra.
    - rewrite E. rewrite (rs_ext n _ (fun i => fval (ent al i))) by (intros i Hi; cbn [Nat.add]; field). unfold total in T. assert (Q : bpow radix2 (-50) <= bpow radix2 (-40)) by (apply bpow_le; lia). assert (P := pos_INR n). nra.
  Qed.

  Lemma shares_window al lo n nc : (1 <= n)%nat -> (Z.of_nat n < 2 ^ 32)%Z -> (forall k, (k < n)%nat -> num_in 0 1 (ent al (lo + k))) -> nc = nsum (A := A) n (fun k => ent al (lo + k)) -> num_in (bpow radix2 (-33)) (bpow radix2 33) nc ->
    shares al lo n nc.
  Proof.
    intros H1 H2 AL E R. assert (R0 := R). destruct R0 as (V & N & B). assert (P0 : 0 < fval nc) by (eapply Rlt_le_trans; [apply bpow_gt_0 | apply B]).
    destruct (nsum_nn fexp fln n (fun k => ent al (lo + k))) as (_ & Q). { intros i Hi. destruct (AL i Hi) as (V1 & N1 & B1). split; [exact V1 | right; split; [exact N1 | apply B1]]. }
    rewrite <- E in Q. destruct (Q N) as (Q1 & Q2 & Q3). rewrite rs_rsum in Q2, Q3.
    split; [exact R |]. split; [intros i Hi; split; [now apply AL |]; destruct (Q1 i Hi) as (_ & L); lra |].
    unfold Rdiv. rewrite rs_mul. set (S := rs n _) in *. destruct (growth n ltac:(lia)) as ((G1 & G2) & _). set (g := (1 + uround) ^ n) in *. assert (U0 := uround_pos). assert (Pn := pos_INR n).
    assert (U : 2 * uround <= bpow radix2 (-40)). { unfold uround. change 2 with (bpow radix2 1). rewrite <- bpow_plus. apply bpow_le. lia. }
    assert (Gn : g <= 1 + INR n * bpow radix2 (-40)) by nra.
    split.
    - apply (Rmult_le_reg_r (fval nc)); [exact P0 |]. rewrite Rmult_assoc, Rinv_l, Rmult_1_r by lra.
      apply Rle_trans with (fval nc * / g).
      + rewrite Rmult_comm. apply Rmult_le_compat_l; [lra |]. apply (Rmult_le_reg_r g); [lra |]. rewrite Rinv_l by lra. assert (0 <= INR n * bpow radix2 (-40)) by (apply Rmult_le_pos; [lra | apply bpow_ge_0]). nra.
      + apply (Rmult_le_reg_r g); [lra |]. rewrite Rmult_assoc, Rinv_l, Rmult_1_r by lra. exact Q3.
    - apply (Rmult_le_reg_r (fval nc)); [exact P0 |]. rewrite Rmult_assoc, Rinv_l, Rmult_1_r by lra.
      apply Rle_trans with (fval nc * g); [| nra]. apply (Rmult_le_reg_r (/ g)); [apply Rinv_0_lt_compat; lra |]. rewrite Rmult_assoc, Rinv_r, Rmult_1_r by lra. exact Q2.
  Qed.
End States.
