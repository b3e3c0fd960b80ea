(** Outputs of a class of a hierarchical model, from what it learned. *)
From Coq Require Import String ZArith QArith Reals Lra Lia Bool List Arith.
From Coq Require Import Floats.SpecFloat.
From Flocq Require Import Core.Core.
From Flocq Require Import IEEE754.BinarySingleNaN.
From Verif Require Import Base BaseFacts Arith Spec_Float Spec_Float2 Spec_Float3 Spec_Float4 Spec_Float6 Spec_Float7 Spec_Float9 Proofs_Float1 Proofs_Float2 Proofs_Float3 Proofs_Float4 Proofs_Float5 Proofs_Float6 Proofs_Float7 Proofs_Float8 Proofs_Float9 Proofs_Float12 Proofs_Float13 Proofs_Float14 Proofs_Float15 Proofs_Float16 Proofs_Float21 Proofs_Float22 Proofs_Float24 Proofs_Float26 Proofs_Float27 Proofs_Float30 Proofs_Float31 Proofs_Float32 Proofs_Float33 Proofs_Float35 Proofs_Float36 Proofs_Float37.
From Verif Require Import Model_Map Model_Ring Model_Phrase Model_Gaussian Model_Config Model_KMeans Model_GMM Model_HMM Model_HHMM Model_Single Model_Single2 Model_Single3 Model_Single4.
Import ListNotations.
Local Open Scope R_scope.
#[local] Existing Instance Proofs_Float1.Hprec.
#[local] Existing Instance Proofs_Float1.Hmax.

Local Notation fadd := (SFadd fprec femax).
Local Notation fmul := (SFmul fprec femax).
Local Notation fdiv := (SFdiv fprec femax).

Lemma term_err2 b (w y c : f64) : (-100 <= b <= 101)%Z -> num_in 0 2 w -> num_in (- bpow radix2 b) (bpow radix2 b) y -> num_in (bpow radix2 (-33)) (bpow radix2 33) c -> fval w <= 2 * fval c ->
  is_f64 (fdiv (fmul w y) c) /\ is_num (fdiv (fmul w y) c) = true /\ Rabs (fval (fdiv (fmul w y) c) - fval w / fval c * fval y) <= bpow radix2 b * / 1099511627776 /\
  (0 <= fval y -> 0 <= fval (fdiv (fmul w y) c)).
Proof.
  intros Hb (Vw & Nw & Bw) (Vy & Ny & By) (Vc & Nc & Bc) Lw. assert (B0 := bpow_gt_0 radix2 b). set (B := bpow radix2 b) in *.
  assert (C0 : 0 < fval c) by (eapply Rlt_le_trans; [apply bpow_gt_0 | apply Bc]).
  assert (U0 := uround_pos). assert (U : uround <= / 1125899906842624) by (unfold uround; change (/ 1125899906842624) with (/ bpow radix2 50); rewrite <- bpow_opp; apply bpow_le; lia).
  assert (F0 : 0 <= ufloor) by apply bpow_ge_0.
  assert (F : ufloor * bpow radix2 33 <= B * / 1125899906842624). { unfold ufloor, B. change (/ 1125899906842624) with (/ bpow radix2 50). rewrite <- bpow_opp, <- !bpow_plus. apply bpow_le. lia. }
  assert (F1 : ufloor <= B * / 1125899906842624). { unfold ufloor, B. change (/ 1125899906842624) with (/ bpow radix2 50). rewrite <- bpow_opp, <- !bpow_plus. apply bpow_le. lia. }
  set (W := fval w) in *. set (Y := fval y) in *. set (C := fval c) in *.
  assert (HY : Rabs Y <= B) by now apply Rabs_le.
  assert (WY : Rabs (W * Y) <= W * B). { rewrite Rabs_mult, (Rabs_pos_eq W) by apply Bw. apply Rmult_le_compat_l; [apply Bw | exact HY]. }
  assert (WB : W * B <= 2 * B) by nra.
  assert (B101 : B <= bpow radix2 101) by (apply bpow_le; lia). assert (Big : 8 * bpow radix2 101 < bpow radix2 1024) by (change 8 with (bpow radix2 3); rewrite <- bpow_plus; apply bpow_lt; lia).
  assert (e1 := rnd_err (W * Y)).
  assert (R1 : Rabs (rnd (W * Y)) <= 3 * B).
  { replace (rnd (W * Y)) with (rnd (W * Y) - W * Y + W * Y) by ring. eapply Rle_trans; [apply Rabs_triang |]. pose proof (Rabs_pos (W * Y)). nra. }
  destruct (f_mul_num w y Vw Vy Nw Ny) as (Np & Ep); [fold W Y; lra |]. fold W Y in Ep. assert (Vp := f_mul_valid w y Vw Vy). set (p := fmul w y) in *.
  (* the quotient *)
  assert (I0 : 0 < / C) by now apply Rinv_0_lt_compat.
  assert (IC : / C <= bpow radix2 33). { change 33%Z with (- (-33))%Z. rewrite bpow_opp. apply Rinv_le; [apply bpow_gt_0 | apply Bc]. }
  assert (WC : W * / C <= 2). { apply (Rmult_le_reg_r C); [exact C0 |]. rewrite Rmult_assoc, Rinv_l by lra. lra. }
  assert (WC0 : 0 <= W * / C) by (apply Rmult_le_pos; lra).
  assert (e2 : Rabs (fval p / C - W / C * Y) <= 2 * B * / 1125899906842624 + B * / 1125899906842624).
  { rewrite Ep. replace (rnd (W * Y) / C - W / C * Y) with ((rnd (W * Y) - W * Y) * / C) by (field; lra). rewrite Rabs_mult, (Rabs_pos_eq (/ C)) by lra.
    apply Rle_trans with ((W * B * uround + ufloor) * / C). { apply Rmult_le_compat_r; [lra |]. apply Rle_trans with (1 := e1). apply Rplus_le_compat_r. apply Rmult_le_compat_r; lra. }
    rewrite Rmult_plus_distr_r. apply Rplus_le_compat; [| apply Rle_trans with (2 := F); apply Rmult_le_compat_l; lra].
    replace (W * B * uround * / C) with (W * / C * B * uround) by ring. apply Rmult_le_compat; [nra | lra | nra | exact U]. }
  assert (Q0 : Rabs (W / C * Y) <= 2 * B). { unfold Rdiv. rewrite Rabs_mult, Rabs_pos_eq by exact WC0. pose proof (Rabs_pos Y). nra. }
  assert (Q1 : Rabs (fval p / C) <= 3 * B). { replace (fval p / C) with ((fval p / C - W / C * Y) + W / C * Y) by ring. eapply Rle_trans; [apply Rabs_triang |]. lra. }
  assert (e3 := rnd_err (fval p / C)).
  assert (R2 : Rabs (rnd (fval p / C)) <= 4 * B).
  { replace (rnd (fval p / C)) with (rnd (fval p / C) - fval p / C + fval p / C) by ring. eapply Rle_trans; [apply Rabs_triang |]. pose proof (Rabs_pos (fval p / C)). nra. }
  destruct (f_div_num p c Vp Vc Np) as (Nq & Eq); [fold C; lra | fold C; lra |]. fold C in Eq. assert (Vq := f_div_valid p c Vp Vc).
  split; [exact Vq |]. split; [exact Nq |]. rewrite Eq. split.
  - replace (rnd (fval p / C) - W / C * Y) with ((rnd (fval p / C) - fval p / C) + (fval p / C - W / C * Y)) by ring. eapply Rle_trans; [apply Rabs_triang |].
    assert (Rabs (fval p / C) * uround <= 3 * B * / 1125899906842624) by (apply Rmult_le_compat; [apply Rabs_pos | lra | lra | exact U]). lra.
  - intros PY. apply rnd_nonneg. apply Rmult_le_pos; [rewrite Ep; apply rnd_nonneg; apply Rmult_le_pos; lra | lra].
Qed.

Lemma add_least (a b : f64) e : (-1074 <= e)%Z -> num_in 0 1 a -> num_in 0 1 b -> bpow radix2 e <= fval a + fval b -> bpow radix2 e <= fval (fadd a b).
Proof.
  intros He Ha Hb B. assert (Q := add_unit a b Ha Hb). destruct Ha as (Va & Na & Ba), Hb as (Vb & Nb & Bb). destruct (f_add_num a b Va Vb Na Nb) as [(N & E) | (s & X & _)].
  - rewrite E. replace (bpow radix2 e) with (rnd (bpow radix2 e)) by (apply round_generic; [typeclasses eauto | now apply fmt_bpow]). now apply rnd_le.
  - destruct Q as ((_ & N & _) & _). rewrite X in N. discriminate.
Qed.

Lemma add_close (a b : f64) : num_in 0 1 a -> num_in 0 1 b -> 0 <= fval a + fval b <= 2 /\ Rabs (fval (fadd a b) - (fval a + fval b)) <= / 1125899906842624.
Proof.
  intros Ha Hb. assert (Q := add_unit a b Ha Hb). destruct Ha as (Va & Na & Ba), Hb as (Vb & Nb & Bb). split; [lra |]. destruct (f_add_num a b Va Vb Na Nb) as [(N & E) | (s & X & _)].
  - rewrite E. apply Rle_trans with (1 := rnd_err _). rewrite Rabs_pos_eq by lra.
    assert (U : uround <= bpow radix2 (-52)) by (unfold uround; apply bpow_le; lia). assert (F : ufloor <= bpow radix2 (-52)) by (unfold ufloor; apply bpow_le; lia). assert (U0 := uround_pos).
    change (/ 1125899906842624) with (/ bpow radix2 50). rewrite <- bpow_opp. replace (bpow radix2 (- (50))) with (4 * bpow radix2 (-52)) by (change 4 with (bpow radix2 2); rewrite <- bpow_plus; reflexivity). nra.
  - destruct Q as ((_ & N & _) & _). rewrite X in N. discriminate.
Qed.

Section Class.
  Variables fexp fln : f64 -> f64.
  Hypothesis LM : libm_f64 fexp fln.
  Local Notation A := (FA fexp fln).
  Local Notation fire x g := (let* g := gm_likelihood (A := A) x [] g in gm_regression_with (A := A) as_single x g).
  Local Notation rlo := (rlo fexp fln).
  Local Notation rhi := (rhi fexp fln).
  Local Notation rnc := (rnc fexp fln).

  Lemma shares_sum (g : nat -> f64) n nc : (Z.of_nat n < 2 ^ 32)%Z -> (forall k, (k < n)%nat -> num_in 0 2 (g k)) -> nc = nsum (A := A) n g -> is_num nc = true -> 0 < fval nc ->
    (forall i, (i < n)%nat -> fval (g i) <= fval nc) /\ 1 - INR n * bpow radix2 (-40) <= rs n (fun i => fval (g i) / fval nc) <= 1 + INR n * bpow radix2 (-40).
  Proof.
    intros H2 AL E N P0. destruct (nsum_nn fexp fln n g) as (_ & Q). { intros i Hi. destruct (AL i Hi) as (V1 & N1 & B1). split; [exact V1 | right; split; [exact N1 | apply B1]]. }
    rewrite <- E in Q. destruct (Q N) as (Q1 & Q2 & Q3). rewrite rs_rsum in Q2, Q3. split; [intros i Hi; apply (Q1 i Hi) |].
    unfold Rdiv. rewrite rs_mul. set (S := rs n _) in *. destruct (growth n ltac:(lia)) as ((G1 & G2) & _). set (u := (1 + uround) ^ n) in *. assert (U0 := uround_pos). assert (Pn := pos_INR n).
    assert (U : 2 * uround <= bpow radix2 (-40)). { unfold uround. change 2 with (bpow radix2 1). rewrite <- bpow_plus. apply bpow_le. lia. }
    assert (Gn : u <= 1 + INR n * bpow radix2 (-40)) by nra.
    split.
    - apply (Rmult_le_reg_r (fval nc)); [exact P0 |]. rewrite Rmult_assoc, Rinv_l, Rmult_1_r by lra.
      apply Rle_trans with (fval nc * / u).
      + rewrite Rmult_comm. apply Rmult_le_compat_l; [lra |]. apply (Rmult_le_reg_r u); [lra |]. rewrite Rinv_l by lra. assert (0 <= INR n * bpow radix2 (-40)) by (apply Rmult_le_pos; [lra | apply bpow_ge_0]). nra.
      + apply (Rmult_le_reg_r u); [lra |]. rewrite Rmult_assoc, Rinv_l, Rmult_1_r by lra. exact Q3.
    - apply (Rmult_le_reg_r (fval nc)); [exact P0 |]. rewrite Rmult_assoc, Rinv_l, Rmult_1_r by lra.
      apply Rle_trans with (fval nc * u); [| nra]. apply (Rmult_le_reg_r (/ u)); [apply Rinv_0_lt_compat; lra |]. rewrite Rmult_assoc, Rinv_r, Rmult_1_r by lra. exact Q2.
  Qed.

  Variables (G d : nat) (b : Z) (lo hi : R) (x : list f64) (h h' : hclass A).
  Hypothesis Hb : (0 <= b <= 77)%Z.
  Hypothesis HG : (Z.of_nat G <= 2 ^ 20)%Z.
  Hypothesis Hh : hc_hier h = true.
  Hypothesis Hn : (Z.of_nat (hc_n h) <= 2 ^ 20)%Z.
  Hypothesis HN : (1 <= hc_n h)%nat.
  Hypothesis U : unit_alpha fexp fln h.
  Hypothesis W : hwindow fexp fln h.
  Hypothesis Fx : frame_f64 x.
  Hypothesis Fs : Forall (fun g => state_reg fexp fln G (hc_dim h) (hc_din h) g /\ means_in d lo hi g) (h_states (hc_net h)).
  Hypothesis Rg : range_in b lo hi.
  Hypothesis Hd : (hc_din h + d < hc_dim h)%nat.
  Hypothesis H : hm_regression_with (A := A) as_single x h = Ok h'.
  Hypothesis Ne : hp_est (hc_par h) <> RLikeliest.

  Lemma Gsmall : 0 <= INR G * bpow radix2 (b - 20) <= bpow radix2 b.
  Proof.
    split; [apply Rmult_le_pos; [apply pos_INR | apply bpow_ge_0] |].
    replace (bpow radix2 b) with (bpow radix2 20 * bpow radix2 (b - 20)) by (rewrite <- bpow_plus; f_equal; lia). apply Rmult_le_compat_r; [apply bpow_ge_0 |]. rewrite INR_IZR_INZ. change (bpow radix2 20) with (IZR (2 ^ 20)). now apply IZR_le.
  Qed.
  (** The outputs of the states, summed with their weights. *)
  Lemma class_terms : exists o y w : nat -> f64, o 0%nat = S754_zero false /\ o (rhi h - rlo h)%nat = ent (h_out (hc_run h')) d /\
    forall k, (k < rhi h - rlo h)%nat -> hm_weight (A := A) h (rlo h + k) = Ok (w k) /\ o (S k) = as_single (fadd (o k) (fdiv (fmul (w k) (y k)) (rnc h))) /\ num_in 0 2 (w k) /\ fval (w k) <= 2 * fval (rnc h) /\
      near lo hi (INR G * bpow radix2 (b - 20)) (y k).
  Proof.
    set (P := fun g => state_reg fexp fln G (hc_dim h) (hc_din h) g /\ means_in d lo hi g) in *.
    assert (PK : forall g g', kept fexp fln g g' -> P g -> P g') by (intros g g' K (P1 & P2); split; [eapply state_reg_kept; eauto | eapply means_kept; eauto]).
    destruct (wreg_inv fexp fln P x h h' PK Fs H) as (no & Eno & _ & _ & _ & M). unfold usub in Eno. destruct (Nat.leb_spec (hc_din h) (hc_dim h)) as [L | L]; [| discriminate]. injection Eno as <-.
    assert (FN : forall g g2, P g -> fire x g = Ok g2 -> near lo hi (INR G * bpow radix2 (b - 20)) (ent (gc_out g2) d)).
    { intros g g2 (P1 & P2) E. eapply (fire_near fexp fln LM G (hc_dim h) (hc_din h) d b x g g2); eauto. lia. }
    destruct (const_ok fexp fln h Hh Hn U W Ne) as (C0 & C1 & C2 & C3 & C4).
    assert (MM : exists o y : nat -> f64, o 0%nat = S754_zero false /\ o (rhi h - rlo h)%nat = ent (h_out (hc_run h')) d /\
          forall k, (k < rhi h - rlo h)%nat -> (exists w, hm_weight (A := A) h (rlo h + k) = Ok w /\ o (S k) = as_single (fadd (o k) (fdiv (fmul w (y k)) (rnc h)))) /\ exists g g2, P g /\ fire x g = Ok g2 /\ y k = ent (gc_out g2) d).
    { destruct (hp_est (hc_par h)); [apply M; lia | apply M; lia | congruence]. }
    destruct MM as (o & y & O0 & On & Os). set (n := (rhi h - rlo h)%nat) in *.
    destruct (finite_choice (S754_zero false) (fun k w => hm_weight (A := A) h (rlo h + k) = Ok w /\ o (S k) = as_single (fadd (o k) (fdiv (fmul w (y k)) (rnc h)))) n) as (w & Hw); [intros k Hk; apply (proj1 (Os k Hk)) |].
    exists o, y, w. split; [exact O0 |]. split; [exact On |]. intros k Hk. destruct (Hw k Hk) as (E1 & E2). split; [exact E1 |]. split; [exact E2 |].
    split; [apply (weight_in fexp fln h (rlo h + k) (w k) Hh U); [lia | exact E1] |]. split; [eapply C4; eauto |]. destruct (Os k Hk) as (_ & g & g2 & Pg & Eg & ->). exact (FN g g2 Pg Eg).
  Qed.
  Lemma b1 : bpow radix2 (b + 1) = 2 * bpow radix2 b /\ bpow radix2 (b + 1 - 20) = 2 * bpow radix2 (b - 20).
  Proof. split; [rewrite bpow_plus | replace (b + 1 - 20)%Z with (b - 20 + 1)%Z by lia; rewrite bpow_plus]; change (bpow radix2 1) with 2; ring. Qed.

  (** With the window: within rounding of what was learned, if some state has a part of the mass that is not small. *)
  Lemma class_windowed : hp_est (hc_par h) = RWindowed -> (2 <= hc_n h)%nat -> (exists k, (k < hc_n h)%nat /\ bpow radix2 (-33) <= fval (ent (h_a0 (hc_run h)) k) + fval (ent (h_a1 (hc_run h)) k)) ->
    near lo hi ((INR G + 2 * INR (hc_n h)) * bpow radix2 (b - 20)) (ent (h_out (hc_run h')) d).
  Proof.
    intros Est H2 (k0 & Hk0 & Bk0). destruct class_terms as (o & y & w & O0 & On & T). destruct (const_ok fexp fln h Hh Hn U W Ne) as (C0 & _). destruct W as (W1 & g & G1 & G2 & G3). destruct (G3 Hh U H2) as (lk & L1 & L2).
    unfold Proofs_Float32.rlo, Proofs_Float32.rhi in *. rewrite Est in C0, On, T. set (wl := h_wmin (hc_run h)) in *. set (wh := h_wmax (hc_run h)) in *. set (nc := h_wnorm (hc_run h)) in *. set (n := (wh - wl)%nat) in *.
    assert (Gw : forall i, (i < n)%nat -> num_in 0 2 (g i)) by (intros i Hi; apply (weight_in fexp fln h (wl + i) (g i) Hh U); [lia | now apply G1]).
    assert (Na : num_in (- sum_bound 2 n) (sum_bound 2 n) (nsum (A := A) n g)).
    { apply (nsum_abs fexp fln); [lia | lra | change 2 with (bpow radix2 1) at 1; apply bpow_le; lia | intros i Hi; eapply num_in_weaken; [apply Gw, Hi | lra | lra]]. }
    rewrite <- G2 in Na. destruct Na as (Vc & Nc & Bc).
    assert (Nn : forall i, (i < n)%nat -> nn (g i)) by (intros i Hi; apply nonneg_nn; eapply num_in_nonneg; [| apply Gw, Hi]; apply Rle_refl).
    destruct (nsum_nn fexp fln n g Nn) as (_ & Q). rewrite <- G2 in Q. destruct (Q Nc) as (Q1 & _).
    (* the likeliest state *)
    destruct (L2 k0 Hk0) as (v0 & v1 & E0 & E1 & Le).
    assert (B0 : bpow radix2 (-33) <= fval v0).
    { unfold hm_weight in E0. rewrite Hh in E0. apply bind_ok_inv in E0. destruct E0 as (p & Ep & E0). apply bind_ok_inv in E0. destruct E0 as (q & Eq & E0). injection E0 as <-. apply ent_rd in Ep. apply ent_rd in Eq. rewrite Ep, Eq in Bk0.
      destruct (U k0 Hk0) as (Up & Uq). rewrite Ep in Up. rewrite Eq in Uq. change (bpow radix2 (-33) <= fval (fadd p q)). exact (add_least p q (-33) ltac:(lia) Up Uq Bk0). }
    assert (Bl : fval v1 <= fval nc). { assert (X := G1 (lk - wl)%nat ltac:(lia)). replace (wl + (lk - wl))%nat with lk in X by lia. rewrite E1 in X. injection X as ->. apply (Q1 (lk - wl)%nat). lia. }
    assert (Bn : num_in (bpow radix2 (-33)) (bpow radix2 33) nc).
    { split; [exact Vc |]. split; [exact Nc |]. split; [lra |]. apply Rle_trans with (1 := proj2 Bc). unfold sum_bound. destruct (growth n ltac:(lia)) as ((X0 & _) & X1). assert (X2 : INR n <= bpow radix2 20) by (rewrite INR_IZR_INZ; change (bpow radix2 20) with (IZR (2 ^ 20)); apply IZR_le; lia).
      assert (X3 : bpow radix2 (-20) <= 1) by (change 1 with (bpow radix2 0); apply bpow_le; lia). assert (X4 := pos_INR n). change (bpow radix2 33) with (8589934592). change (bpow radix2 20) with 1048576 in X2. nra. }
    assert (Rn : rnc h = nc) by (unfold Proofs_Float32.rnc; rewrite Est; exact (rnc_pos fexp fln nc Bn)). rewrite Rn in T.
    assert (P0 : 0 < fval nc) by (eapply Rlt_le_trans; [apply (bpow_gt_0 radix2 (-33)) | lra]).
    destruct (shares_sum g n nc ltac:(lia) Gw G2 Nc P0) as (S1 & S2).
    assert (Tg : forall k, (k < n)%nat -> g k = w k). { intros k Hk. destruct (T k Hk) as (E & _). rewrite (G1 k Hk) in E. now injection E. }
    assert (S3 : 1 - INR n * bpow radix2 (-40) <= rs n (fun i => fval (w i) / fval nc) <= 1 + INR n * bpow radix2 (-40)). { rewrite <- (rs_ext n (fun i => fval (g i) / fval nc)); [exact S2 | intros i Hi; now rewrite Tg]. }
    destruct b1 as (E2 & E3). destruct Rg as (R1 & R2). assert (PB := bpow_gt_0 radix2 b). assert (PB1 := bpow_gt_0 radix2 (b - 20)). destruct Gsmall as (CG0 & CG).
    assert (Nn2 : INR n <= bpow radix2 20) by (rewrite INR_IZR_INZ; change (bpow radix2 20) with (IZR (2 ^ 20)); apply IZR_le; lia).
    assert (N40 : INR n * bpow radix2 (-40) <= 1). { apply Rle_trans with (bpow radix2 20 * bpow radix2 (-40)); [apply Rmult_le_compat_r; [apply bpow_ge_0 | exact Nn2] |]. rewrite <- bpow_plus. change 1 with (bpow radix2 0). apply bpow_le. lia. }
    rewrite <- On.
    destruct (acct_hull (b + 1) n (fun i => fval (w i) / fval nc) (fun i => fval (y i)) (fun k => fdiv (fmul (w k) (y k)) nc) o) with (lo := lo - INR G * bpow radix2 (b - 20)) (hi := hi + INR G * bpow radix2 (b - 20)) as (V & N & C).
    - lia.
    - lia.
    - intros i Hi. destruct (T i Hi) as (_ & _ & (_ & _ & X) & _). apply Rmult_le_pos; [lra | left; apply Rinv_0_lt_compat; exact P0].
    - lra.
    - intros i Hi. destruct (T i Hi) as (_ & _ & _ & _ & _ & _ & X). rewrite E2. lra.
    - intros i Hi. destruct (T i Hi) as (_ & _ & X1 & X2 & (X3 & X4 & X5)). apply (term_err2 (b + 1)); auto; [lia |]. split; [exact X3 |]. split; [exact X4 |]. rewrite E2. lra.
    - rewrite O0. repeat split.
    - intros i Hi. apply (T i Hi).
    - lia.
    - exact S3.
    - rewrite E2. lra.
    - rewrite E2. lra.
    - intros i Hi. apply (T i Hi).
    - split; [exact V |]. split; [exact N |]. rewrite E3 in C. assert (Nh : INR n <= INR (hc_n h)) by (apply le_INR; lia). assert (0 <= INR n) by apply pos_INR. nra.
  Qed.

  (** With all the states: the part of the mass that the class has, of what was learned. *)
  Lemma class_full : hp_est (hc_par h) = RFull -> let S := rs (hc_n h) (fun k => fval (ent (h_a0 (hc_run h)) k)) + rs (hc_n h) (fun k => fval (ent (h_a1 (hc_run h)) k)) in
    near (S * lo) (S * hi) (INR (hc_n h) * (2 * INR G + 3 * INR (hc_n h)) * bpow radix2 (b - 20)) (ent (h_out (hc_run h')) d).
  Proof.
    intros Est. destruct class_terms as (o & y & w & O0 & On & T). unfold Proofs_Float32.rlo, Proofs_Float32.rhi in *. rewrite Est in On, T. replace (hc_n h - 0)%nat with (hc_n h) in * by lia. set (n := hc_n h) in *.
    assert (Rn : rnc h = n1 (A := A)) by (unfold Proofs_Float32.rnc; rewrite Est; vm_compute; reflexivity). rewrite Rn in T. destruct (FA_n1 fexp fln) as (O1 & O2 & O3).
    assert (Bo : num_in (bpow radix2 (-33)) (bpow radix2 33) (n1 (A := A))). { split; [exact O1 |]. split; [exact O2 |]. rewrite O3. split; [change 1 with (bpow radix2 0); apply bpow_le; lia | change 1 with (bpow radix2 0); apply bpow_le; lia]. }
    destruct b1 as (E2 & E3). destruct Rg as (R1 & R2). assert (PB := bpow_gt_0 radix2 b). assert (PB1 := bpow_gt_0 radix2 (b - 20)). destruct Gsmall as (CG0 & CG). set (gg := INR G * bpow radix2 (b - 20)) in *.
    assert (Nn2 : INR n <= bpow radix2 20) by (rewrite INR_IZR_INZ; change (bpow radix2 20) with (IZR (2 ^ 20)); apply IZR_le; lia). assert (N1 : 1 <= INR n) by (apply (le_INR 1); lia).
    (* a power of two above n times the magnitude *)
    assert (B0 : exists b0, (-100 <= b0 <= 100)%Z /\ INR n * bpow radix2 (b + 1) <= bpow radix2 b0 <= 2 * (INR n * bpow radix2 (b + 1))).
    { assert (Px : 1 <= INR n * bpow radix2 (b + 1)). { assert (X : 1 <= bpow radix2 (b + 1)) by (change 1 with (bpow radix2 0); apply bpow_le; lia). nra. }
      set (z := INR n * bpow radix2 (b + 1)) in *. destruct (mag radix2 z) as (e & He). specialize (He ltac:(lra)). rewrite Rabs_pos_eq in He by lra. exists e.
      assert (X1 : (e - 1 < 99)%Z). { apply (lt_bpow radix2). apply Rle_lt_trans with (1 := proj1 He). apply Rle_lt_trans with (bpow radix2 20 * bpow radix2 (b + 1)); [apply Rmult_le_compat_r; [apply bpow_ge_0 | exact Nn2] |]. rewrite <- bpow_plus. apply bpow_lt. lia. }
      assert (X2 : (0 < e)%Z). { apply (lt_bpow radix2). apply Rle_lt_trans with (2 := proj2 He). exact Px. }
      split; [lia |]. split; [lra |]. replace (bpow radix2 e) with (2 * bpow radix2 (e - 1)) by (replace e with (e - 1 + 1)%Z at 2 by lia; rewrite bpow_plus; change (bpow radix2 1) with 2; ring). lra. }
    destruct B0 as (b0 & Hb0 & B1 & B2).
    assert (Yb : forall i, (i < n)%nat -> Rabs (fval (y i)) <= bpow radix2 (b + 1)). { intros i Hi. destruct (T i Hi) as (_ & _ & _ & _ & (_ & _ & X)). rewrite E2. apply Rabs_le. lra. }
    assert (I0 : 0 < / INR n) by (apply Rinv_0_lt_compat; lra).
    assert (Rw : forall k, (k <= n)%nat -> rs k (fun i => fval (w i) * / INR n) <= 2 * (INR k * / INR n)).
    { induction k as [| k IH]; intros Hk; [cbn; lra |]. cbn [rs]. rewrite S_INR. specialize (IH ltac:(lia)). destruct (T k ltac:(lia)) as (_ & _ & (_ & _ & X) & _). nra. }
    assert (Ac : is_f64 (o n) /\ is_num (o n) = true /\ Rabs (fval (o n) - rs n (fun i => fval (w i) * fval (y i))) <= INR n * bpow radix2 (b0 - 21)).
    { destruct (acct_err b0 n (fun i => fval (w i) * / INR n) (fun i => INR n * fval (y i)) (fun k => fdiv (fmul (w k) (y k)) (n1 (A := A))) o) with (k := n) as (A1 & A2 & A3 & _); auto; try lia.
      - intros i Hi. destruct (T i Hi) as (_ & _ & (_ & _ & X) & _). nra.
      - eapply Rle_trans; [apply Rw; lia |]. rewrite Rinv_r by lra. lra.
      - intros i Hi. apply Rabs_le_inv. rewrite Rabs_mult, (Rabs_pos_eq (INR n)) by lra. apply Rle_trans with (2 := B1). apply Rmult_le_compat_l; [lra | now apply Yb].
      - intros i Hi. destruct (T i Hi) as (_ & _ & X1 & X2 & (X3 & X4 & X5)).
        destruct (term_err2 (b + 1) (w i) (y i) (n1 (A := A)) ltac:(lia) X1) as (Y1 & Y2 & Y3 & Y4); auto. { split; [exact X3 |]. split; [exact X4 |]. apply Rabs_le_inv. now apply Yb. }
        split; [exact Y1 |]. split; [exact Y2 |]. split.
        + rewrite O3 in Y3. replace (fval (w i) / 1 * fval (y i)) with (fval (w i) * / INR n * (INR n * fval (y i))) in Y3 by (field; lra). apply Rle_trans with (1 := Y3). apply Rmult_le_compat_r; [lra |]. assert (X := bpow_gt_0 radix2 (b + 1)). nra.
        + intros X. apply Y4. apply Rmult_le_reg_l with (INR n); [lra |]. rewrite Rmult_0_r. exact X.
      - rewrite O0. repeat split.
      - intros i Hi. apply (T i Hi).
      - rewrite (rs_ext n _ (fun i => fval (w i) * fval (y i))) in A3 by (intros i Hi; field; lra). auto. }
    destruct Ac as (V & N & C).
    assert (E21 : bpow radix2 (b0 - 21) <= 2 * INR n * bpow radix2 (b - 20)).
    { replace (bpow radix2 (b0 - 21)) with (bpow radix2 b0 * bpow radix2 (-21)) by (rewrite <- bpow_plus; f_equal; lia). apply Rle_trans with (2 * (INR n * bpow radix2 (b + 1)) * bpow radix2 (-21)); [apply Rmult_le_compat_r; [apply bpow_ge_0 | exact B2] |].
      replace (2 * (INR n * bpow radix2 (b + 1)) * bpow radix2 (-21)) with (2 * INR n * (bpow radix2 (b + 1) * bpow radix2 (-21))) by ring. rewrite <- bpow_plus. replace (b + 1 + -21)%Z with (b - 20)%Z by lia. lra. }
    (* the weights *)
    set (s := fun i => fval (ent (h_a0 (hc_run h)) i) + fval (ent (h_a1 (hc_run h)) i)).
    assert (Ws : forall i, (i < n)%nat -> 0 <= s i <= 2 /\ Rabs (fval (w i) - s i) <= / 1125899906842624).
    { intros i Hi. destruct (T i Hi) as (E0 & _). cbn [Nat.add] in E0. unfold hm_weight in E0. rewrite Hh in E0. apply bind_ok_inv in E0. destruct E0 as (p & Ep & E0). apply bind_ok_inv in E0. destruct E0 as (q & Eq & E0). injection E0 as E0. apply ent_rd in Ep. apply ent_rd in Eq.
      destruct (U i Hi) as (Up & Uq). unfold s. rewrite Ep in *. rewrite Eq in *. rewrite <- E0. exact (add_close p q Up Uq). }
    assert (Sum : forall k, (k <= n)%nat -> rs k s * (lo - gg) - INR k * (/ 2 * bpow radix2 (b - 20)) <= rs k (fun i => fval (w i) * fval (y i)) <= rs k s * (hi + gg) + INR k * (/ 2 * bpow radix2 (b - 20)) /\ 0 <= rs k s <= 2 * INR k).
    { assert (Sm : / 1125899906842624 * bpow radix2 (b + 1) <= / 2 * bpow radix2 (b - 20)).
      { replace (bpow radix2 (b + 1)) with (bpow radix2 (b - 20) * 2097152) by (change 2097152 with (bpow radix2 21); rewrite <- bpow_plus; f_equal; lia). lra. }
      induction k as [| k IH]; intros Hk; [cbn; lra |]. destruct (IH ltac:(lia)) as (I1 & I2). cbn [rs]. rewrite S_INR. destruct (Ws k ltac:(lia)) as (W1 & W2). destruct (T k ltac:(lia)) as (_ & _ & _ & _ & (_ & _ & X)).
      assert (Z : Rabs (fval (w k) * fval (y k) - s k * fval (y k)) <= / 2 * bpow radix2 (b - 20)).
      { replace (fval (w k) * fval (y k) - s k * fval (y k)) with ((fval (w k) - s k) * fval (y k)) by ring. rewrite Rabs_mult. apply Rle_trans with (2 := Sm). apply Rmult_le_compat; [apply Rabs_pos | apply Rabs_pos | exact W2 | apply Yb; lia]. }
      apply Rabs_le_inv in Z. assert (s k * (lo - gg) <= s k * fval (y k) <= s k * (hi + gg)) by (split; apply Rmult_le_compat_l; lra). split; [| lra]. lra. }
    destruct (Sum n ltac:(lia)) as (S1 & S2).
    assert (Es : rs n s = rs n (fun k => fval (ent (h_a0 (hc_run h)) k)) + rs n (fun k => fval (ent (h_a1 (hc_run h)) k))). { generalize n. induction n0 as [| k IH]; [cbn; lra |]. cbn [rs]. rewrite IH. unfold s. ring. }
    cbv zeta. rewrite <- Es, <- On. set (Z := rs n s) in *. split; [exact V |]. split; [exact N |]. apply Rabs_le_inv in C.
    assert (X1 : INR n * bpow radix2 (b0 - 21) <= 2 * INR n * INR n * bpow radix2 (b - 20)) by (replace (2 * INR n * INR n * bpow radix2 (b - 20)) with (INR n * (2 * INR n * bpow radix2 (b - 20))) by ring; apply Rmult_le_compat_l; lra).
    assert (X2 : Z * gg <= 2 * INR n * gg) by (apply Rmult_le_compat_r; lra).
    assert (X3 : INR n * (/ 2 * bpow radix2 (b - 20)) <= INR n * INR n * bpow radix2 (b - 20)) by nra.
    replace (INR n * (2 * INR G + 3 * INR n) * bpow radix2 (b - 20)) with (2 * INR n * gg + 3 * (INR n * INR n * bpow radix2 (b - 20))) by (unfold gg; ring). split; lra.
  Qed.
End Class.
