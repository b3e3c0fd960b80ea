(** A class of a hierarchical model after its filter, in binary64. *)
From Coq Require Import String ZArith QArith Reals Lra Lia Bool List Arith.
From Coq Require Import Floats.SpecFloat.
From Flocq Require Import Core.Core.
From Flocq Require Import IEEE754.BinarySingleNaN.
From Verif Require Import Base BaseFacts Arith Spec_Float Spec_Float2 Spec_Float3 Spec_Float4 Spec_Float6 Spec_Float7 Proofs_Float1 Proofs_Float2 Proofs_Float3 Proofs_Float4 Proofs_Float5 Proofs_Float6 Proofs_Float7 Proofs_Float8 Proofs_Float9 Proofs_Float12 Proofs_Float13 Proofs_Float14 Proofs_Float15 Proofs_Float16 Proofs_Float21 Proofs_Float22 Proofs_Float24 Proofs_Float26 Proofs_Float27 Proofs_Float30 Proofs_Float31 Proofs_Float32 Proofs_Float33 Proofs_Float35 Proofs_Float36.
From Verif Require Import Model_Map Model_Ring Model_Phrase Model_Gaussian Model_Config Model_KMeans Model_GMM Model_HMM Model_HHMM Model_Single Model_Single2 Model_Single3 Model_Single4.
Import ListNotations.
Local Open Scope R_scope.
#[local] Existing Instance Proofs_Float1.Hprec.
#[local] Existing Instance Proofs_Float1.Hmax.

Local Notation fadd := (SFadd fprec femax).
Local Notation fmul := (SFmul fprec femax).
Local Notation fdiv := (SFdiv fprec femax).

Lemma add_unit (a b : f64) : num_in 0 1 a -> num_in 0 1 b -> num_in 0 2 (fadd a b) /\ (fval a = 0 -> fval b = 0 -> fval (fadd a b) = 0).
Proof.
  intros (Va & Na & Ba) (Vb & Nb & Bb). assert (F2 : generic_format radix2 fexp64 2) by (change 2 with (bpow radix2 1); apply fmt_bpow; lia).
  assert (R : Rabs (rnd (fval a + fval b)) <= 2) by (apply rnd_abs; [exact F2 | rewrite Rabs_pos_eq; lra]).
  assert (R0 : 0 <= rnd (fval a + fval b)) by (rewrite <- rnd_0; apply rnd_le; lra).
  destruct (f_add_num a b Va Vb Na Nb) as [(N & E) | (s & _ & X & _)].
  - split; [split; [now apply f_add_valid |]; split; [exact N |]; rewrite E; apply Rabs_le_inv in R; lra |]. intros E1 E2. rewrite E, E1, E2, Rplus_0_r. apply rnd_0.
  - exfalso. assert (T : bpow radix2 1 < bpow radix2 1024) by (apply bpow_lt; lia). change (bpow radix2 1) with 2 in T. lra.
Qed.

Section Class.
  Variables fexp fln : f64 -> f64.
  Hypothesis LM : libm_f64 fexp fln.
  Local Notation A := (FA fexp fln).
  Local Notation fire x g := (let* g := gm_likelihood (A := A) x [] g in gm_regression_with (A := A) as_single x g).
  Local Notation rlo := (rlo fexp fln).
  Local Notation rhi := (rhi fexp fln).
  Local Notation rnc := (rnc fexp fln).

  (** The forward variables that the regression reads. *)
  Definition unit_alpha (h : hclass A) : Prop := forall k, (k < hc_n h)%nat -> num_in 0 1 (ent (h_a0 (hc_run h)) k) /\ num_in 0 1 (ent (h_a1 (hc_run h)) k).
  Lemma weight_in (h : hclass A) i w : hc_hier h = true -> unit_alpha h -> (i < hc_n h)%nat -> hm_weight (A := A) h i = Ok w ->
    num_in 0 2 w /\ (fval (ent (h_a0 (hc_run h)) i) = 0 -> fval (ent (h_a1 (hc_run h)) i) = 0 -> fval w = 0).
  Proof.
    intros Hh U Hi E. unfold hm_weight in E. rewrite Hh in E. apply bind_ok_inv in E. destruct E as (a & Ea & E). apply bind_ok_inv in E. destruct E as (b & Eb & E). injection E as <-.
    apply ent_rd in Ea. apply ent_rd in Eb. destruct (U i Hi) as (Xa & Xb). rewrite Ea in *. rewrite Eb in *. exact (add_unit a b Xa Xb).
  Qed.

  (** The window of the likeliest state. *)
  Definition hwindow (h : hclass A) : Prop := let r := hc_run h in (h_wmax r <= hc_n h)%nat /\
    exists g : nat -> f64, (forall i, (i < h_wmax r - h_wmin r)%nat -> hm_weight (A := A) h (h_wmin r + i) = Ok (g i)) /\ h_wnorm r = nsum (A := A) (h_wmax r - h_wmin r) g /\
      (hc_hier h = true -> unit_alpha h -> (2 <= hc_n h)%nat -> exists lk, (h_wmin r <= lk < h_wmax r)%nat /\ forall k, (k < hc_n h)%nat -> exists w v, hm_weight (A := A) h k = Ok w /\ hm_weight (A := A) h lk = Ok v /\ fval w <= fval v).
  (** The likeliest state. *)
  Lemma likeliest_weight (h : hclass A) w0 lk y : hc_hier h = true -> unit_alpha h -> (1 <= hc_n h)%nat -> hm_weight (A := A) h 0 = Ok w0 ->
    iterM (hc_n h - 1) (fun k s => let* w := hm_weight (A := A) h (k + 1) in Ok (if nltb (a := A) (snd s) w then ((k + 1)%nat, w) else s)) (0%nat, w0) = Ok (lk, y) ->
    (lk < hc_n h)%nat /\ forall k, (k < hc_n h)%nat -> exists w v, hm_weight (A := A) h k = Ok w /\ hm_weight (A := A) h lk = Ok v /\ fval w <= fval v.
  Proof.
    intros Hh U HN E0 El.
    assert (I : (lk < 1 + (hc_n h - 1))%nat /\ hm_weight (A := A) h lk = Ok y /\ forall i, (i < 1 + (hc_n h - 1))%nat -> exists w, hm_weight (A := A) h i = Ok w /\ fval w <= fval y).
    { refine (iterM_inv_ok (fun k s => (fst s < 1 + k)%nat /\ hm_weight (A := A) h (fst s) = Ok (snd s) /\ forall i, (i < 1 + k)%nat -> exists w, hm_weight (A := A) h i = Ok w /\ fval w <= fval (snd s)) _ _ _ (lk, y) _ _ El).
      - cbn [fst snd]. split; [lia |]. split; [exact E0 |]. intros i Hi. exists w0. replace i with 0%nat by lia. split; [exact E0 | apply Rle_refl].
      - intros k (c, v) s' Hk (J1 & J2 & J3) E. cbn [fst snd] in *. apply bind_ok_inv in E. destruct E as (w & Ew & E). rewrite Nat.add_comm in Ew, E. cbn [Nat.add] in Ew, E.
        destruct (weight_in h c v Hh U ltac:(lia) J2) as ((Vc & Nc & _) & _). destruct (weight_in h (S k) w Hh U ltac:(lia) Ew) as ((Vk & Nk & _) & _).
        assert (Q : nltb (a := A) v w = Rlt_bool (fval v) (fval w)) by exact (ltb_num _ _ Vc Vk Nc Nk).
        rewrite Q in E. destruct (Rlt_bool_spec (fval v) (fval w)) as [X | X]; injection E as <-; cbn [fst snd].
        + split; [lia |]. split; [exact Ew |]. intros i Hi. destruct (Nat.eq_dec i (S k)) as [-> | D]; [exists w; split; [exact Ew | apply Rle_refl] |]. destruct (J3 i ltac:(lia)) as (u & Eu & Bu). exists u. split; [exact Eu | lra].
        + split; [lia |]. split; [exact J2 |]. intros i Hi. destruct (Nat.eq_dec i (S k)) as [-> | D]; [exists w; split; [exact Ew | exact X] | apply J3; lia]. }
    destruct I as (I1 & I2 & I3). split; [lia |]. intros k Hk. destruct (I3 k ltac:(lia)) as (w & Ew & B). exists w, y. auto.
  Qed.
  Lemma post_hier (h h' : hclass A) : hm_post (A := A) h = Ok h' -> hwindow h' /\ exists r, h' = hc_set_run r h /\ h_a0 r = h_a0 (hc_run h) /\ h_a1 r = h_a1 (hc_run h).
  Proof.
    intros H. unfold hm_post in H. apply bind_ok_inv in H. destruct H as (h1 & E1 & H). unfold hm_window in E1. cbv zeta in E1.
    apply bind_ok_inv in E1. destruct E1 as (w0 & E0 & E1). apply bind_ok_inv in E1. destruct E1 as ((lk & w1) & El & E1). apply bind_ok_inv in E1. destruct E1 as (nm & En & E1). injection E1 as <-.
    unfold hm_results in H. cbv zeta in H. apply bind_ok_inv in H. destruct H as ((b & l) & _ & H). apply bind_ok_inv in H. destruct H as (p & _ & H). injection H as <-.
    split; [| eexists; split; [reflexivity |]; split; reflexivity]. destruct (accM_nsum fexp fln _ _ _ En) as (g & G1 & G2). split; [apply Nat.le_min_r |]. exists g. split; [exact G1 |]. split; [exact G2 |].
    intros Hh U H2. exists lk. change (2 <= hc_n h)%nat in H2. destruct (likeliest_weight h w0 lk w1 Hh U ltac:(lia) E0 El) as (L1 & L2). split; [| exact L2].
    assert (D : (1 <= hc_n h / 2)%nat) by (apply Nat.div_le_lower_bound; lia). change (lk - hc_n h / 2 <= lk < Nat.min (lk + hc_n h / 2) (hc_n h))%nat. lia.
  Qed.

  (** The normalization constant: no weight of the window exceeds it by more than a factor 2. *)
  Lemma const_ok (h : hclass A) : hc_hier h = true -> (Z.of_nat (hc_n h) <= 2 ^ 20)%Z -> unit_alpha h -> hwindow h -> hp_est (hc_par h) <> RLikeliest ->
    (rhi h <= hc_n h)%nat /\ is_f64 (rnc h) /\ is_num (rnc h) = true /\ 0 < fval (rnc h) /\ forall k w, (k < rhi h - rlo h)%nat -> hm_weight (A := A) h (rlo h + k) = Ok w -> fval w <= 2 * fval (rnc h).
  Proof.
    intros Hh Hn U (W1 & g & G1 & G2 & _) Ne. set (lo := h_wmin (hc_run h)) in *. set (hi := h_wmax (hc_run h)) in *. set (nc := h_wnorm (hc_run h)) in *.
    assert (One := FA_n1 fexp fln).
    destruct One as (O1 & O2 & O3).
    assert (Gw : forall i, (i < hi - lo)%nat -> num_in 0 2 (g i)) by (intros i Hi; apply (weight_in h (lo + i) (g i) Hh U); [lia | now apply G1]).
    assert (Nn : forall i, (i < hi - lo)%nat -> nn (g i)) by (intros i Hi; apply nonneg_nn; eapply num_in_nonneg; [| apply Gw, Hi]; apply Rle_refl).
    assert (Na : num_in (- sum_bound 2 (hi - lo)) (sum_bound 2 (hi - lo)) (nsum (A := A) (hi - lo) g)).
    { apply (nsum_abs fexp fln); [lia | lra | change 2 with (bpow radix2 1) at 1; apply bpow_le; lia | intros i Hi; eapply num_in_weaken; [apply Gw, Hi | lra | lra]]. }
    rewrite <- G2 in Na. destruct Na as (Vc & Nc & _). destruct (nsum_nn fexp fln (hi - lo) g Nn) as (_ & Q). rewrite <- G2 in Q. destruct (Q Nc) as (Q1 & _).
    unfold Proofs_Float32.rlo, Proofs_Float32.rhi, Proofs_Float32.rnc. destruct (hp_est (hc_par h)) eqn:Est; [| | congruence].
    - assert (L : nleb (a := A) (n1 (A := A)) (n0 (A := A)) = false) by (vm_compute; reflexivity). cbv zeta. rewrite L. split; [lia |]. split; [exact O1 |]. split; [exact O2 |]. split; [rewrite O3; lra |].
      intros k w Hk Ew. destruct (weight_in h (0 + k) w Hh U ltac:(lia) Ew) as ((_ & _ & B) & _). rewrite O3. lra.
    - fold lo hi nc. cbv zeta. split; [exact W1 |].
      assert (Wk : forall k w, (k < hi - lo)%nat -> hm_weight (A := A) h (lo + k) = Ok w -> num_in 0 2 w /\ fval w <= fval nc).
      { intros k w Hk Ew. rewrite (G1 k Hk) in Ew. injection Ew as <-. split; [now apply Gw | apply (Q1 k Hk)]. }
      destruct (nleb (a := A) nc (n0 (A := A))) eqn:L.
      + split; [exact O1 |]. split; [exact O2 |]. split; [rewrite O3; lra |]. intros k w Hk Ew. destruct (Wk k w Hk Ew) as ((_ & _ & B) & _). rewrite O3. lra.
      + split; [exact Vc |]. split; [exact Nc |]. assert (P : 0 < fval nc).
        { cbn [nleb FA] in L. rewrite leb_num in L; [| exact Vc | reflexivity | exact Nc | reflexivity]. apply Rnot_le_lt. intros C. rewrite Rle_bool_true in L; [discriminate | cbn; exact C]. }
        split; [exact P |]. intros k w Hk Ew. destruct (Wk k w Hk Ew) as (_ & B). lra.
  Qed.

  (** The outputs of the class. *)
  Lemma class_out G d b lo hi x (h h' : hclass A) : (0 <= b <= 77)%Z -> (Z.of_nat G <= 2 ^ 20)%Z -> hc_hier h = true -> (Z.of_nat (hc_n h) <= 2 ^ 20)%Z -> unit_alpha h -> hwindow h -> frame_f64 x ->
    Forall (fun g => state_reg fexp fln G (hc_dim h) (hc_din h) g /\ means_in d lo hi g) (h_states (hc_net h)) -> range_in b lo hi -> (hc_din h + d < hc_dim h)%nat -> hm_regression_with (A := A) as_single x h = Ok h' ->
    match hp_est (hc_par h) with
    | RLikeliest => near lo hi (INR G * bpow radix2 (b - 20)) (ent (h_out (hc_run h')) d)
    | _ => num_in (- (INR (hc_n h) * bpow radix2 (b + 3))) (INR (hc_n h) * bpow radix2 (b + 3)) (ent (h_out (hc_run h')) d) /\
        ((forall k, (k < hc_n h)%nat -> fval (ent (h_a0 (hc_run h)) k) = 0 /\ fval (ent (h_a1 (hc_run h)) k) = 0) -> fval (ent (h_out (hc_run h')) d) = 0)
    end.
  Proof.
    intros Hb HG Hh Hn U W Fx Fs Rg Hd H. set (P := fun g => state_reg fexp fln G (hc_dim h) (hc_din h) g /\ means_in d lo hi g) in *.
    assert (PK : forall g g', kept fexp fln g g' -> P g -> P g') by (intros g g' K (P1 & P2); split; [eapply state_reg_kept; eauto | eapply means_kept; eauto]).
    destruct (wreg_inv fexp fln P x h h' PK Fs H) as (no & Eno & _ & _ & _ & M). unfold usub in Eno. destruct (Nat.leb_spec (hc_din h) (hc_dim h)) as [L | L]; [| discriminate]. injection Eno as <-.
    assert (FN : forall g g2, P g -> fire x g = Ok g2 -> near lo hi (INR G * bpow radix2 (b - 20)) (ent (gc_out g2) d)).
    { intros g g2 (P1 & P2) E. eapply (fire_near fexp fln LM G (hc_dim h) (hc_din h) d b x g g2); eauto. lia. }
    assert (Pb := bpow_gt_0 radix2 b). assert (B3 : bpow radix2 (b + 3) = 2 * bpow radix2 (b + 2)) by (rewrite !bpow_plus; change (bpow radix2 3) with 8; change (bpow radix2 2) with 4; ring).
    assert (Y : forall g g2, P g -> fire x g = Ok g2 -> num_in (- bpow radix2 (b + 1)) (bpow radix2 (b + 1)) (ent (gc_out g2) d)).
    { intros g g2 Pg E. destruct (FN g g2 Pg E) as (V & N & B). split; [exact V |]. split; [exact N |]. destruct Rg as (R1 & R2).
      assert (Z : INR G * bpow radix2 (b - 20) <= bpow radix2 b).
      { replace (bpow radix2 b) with (bpow radix2 20 * bpow radix2 (b - 20)) by (rewrite <- bpow_plus; f_equal; lia). apply Rmult_le_compat_r; [apply bpow_ge_0 |]. rewrite INR_IZR_INZ. change (bpow radix2 20) with (IZR (2 ^ 20)). now apply IZR_le. }
      replace (bpow radix2 (b + 1)) with (2 * bpow radix2 b) by (rewrite bpow_plus; change (bpow radix2 1) with 2; ring). lra. }
    assert (Main : hp_est (hc_par h) <> RLikeliest -> (forall d0, (d0 < hc_dim h - hc_din h)%nat -> exists o y : nat -> f64, o 0%nat = S754_zero false /\ o (rhi h - rlo h)%nat = ent (h_out (hc_run h')) d0 /\
          forall k, (k < rhi h - rlo h)%nat -> (exists w, hm_weight (A := A) h (rlo h + k) = Ok w /\ o (S k) = as_single (fadd (o k) (fdiv (fmul w (y k)) (rnc h)))) /\ exists g g2, P g /\ fire x g = Ok g2 /\ y k = ent (gc_out g2) d0) ->
        num_in (- (INR (hc_n h) * bpow radix2 (b + 3))) (INR (hc_n h) * bpow radix2 (b + 3)) (ent (h_out (hc_run h')) d) /\
        ((forall k, (k < hc_n h)%nat -> fval (ent (h_a0 (hc_run h)) k) = 0 /\ fval (ent (h_a1 (hc_run h)) k) = 0) -> fval (ent (h_out (hc_run h')) d) = 0)).
    { intros Ne MM. destruct (MM d ltac:(lia)) as (o & y & O0 & On & Os). destruct (const_ok h Hh Hn U W Ne) as (C0 & C1 & C2 & C3 & C4). set (n := (rhi h - rlo h)%nat) in *.
      destruct (finite_choice (S754_zero false) (fun k w => hm_weight (A := A) h (rlo h + k) = Ok w /\ o (S k) = as_single (fadd (o k) (fdiv (fmul w (y k)) (rnc h)))) n) as (w & Hw); [intros k Hk; apply (proj1 (Os k Hk)) |].
      assert (T : forall k, (k < n)%nat -> num_in (- bpow radix2 (b + 2)) (bpow radix2 (b + 2)) (fdiv (fmul (w k) (y k)) (rnc h)) /\ (fval (w k) = 0 -> fval (fdiv (fmul (w k) (y k)) (rnc h)) = 0)).
      { intros k Hk. destruct (Hw k Hk) as (E1 & _). destruct (Os k Hk) as (_ & g & g2 & Pg & Eg & ->). replace (b + 2)%Z with (b + 1 + 1)%Z by lia. apply term_bound; [lia | apply (weight_in h (rlo h + k) (w k) Hh U); [lia | exact E1] | eapply Y; eauto | exact C1 | exact C2 | exact C3 | eapply C4; eauto]. }
      destruct (acc_bound (b + 2) n (fun k => fdiv (fmul (w k) (y k)) (rnc h)) o ltac:(lia) ltac:(lia)) as ((A1 & A2 & A3) & A4); [intros k Hk; apply (T k Hk) | exact O0 | intros k Hk; apply (Hw k Hk) |].
      rewrite <- On. split.
      - split; [exact A1 |]. split; [exact A2 |]. assert (Z : INR n * bpow radix2 (b + 3) <= INR (hc_n h) * bpow radix2 (b + 3)) by (apply Rmult_le_compat_r; [apply bpow_ge_0 | apply le_INR; lia]). rewrite B3 in *. lra.
      - intros Zr. apply A4. intros k Hk. apply (T k Hk). destruct (Hw k Hk) as (E1 & _). assert (Hk' : (rlo h + k < hc_n h)%nat) by lia. destruct (Zr _ Hk') as (Z1 & Z2). now apply (weight_in h (rlo h + k) (w k) Hh U). }
    destruct (hp_est (hc_par h)) eqn:Est; [apply Main; [discriminate | exact M] | apply Main; [discriminate | exact M] |].
    destruct M as (g & g2 & Pg & Eg & ->). exact (FN g g2 Pg Eg).
  Qed.
End Class.
