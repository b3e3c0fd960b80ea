(** Counterexamples for the hierarchical mode, computed on concrete models. *)
From Coq Require Import String List Bool Arith ZArith QArith Reals Lra Lia.
From Verif Require Import Base BaseFacts Arith RFacts Model_Map Model_Ring Model_Gaussian Model_Config Model_KMeans Model_GMM Model_HMM Model_HHMM
  Spec_Common Spec_Matrix Spec_Gaussian Spec_GMM Spec_HMM Spec_HHMM Spec_HHMM3 Spec_HHMM4
  Proofs_GMM Proofs_HMM Proofs_HMM2 Proofs_HMM3 Proofs_HMM4 Proofs_HMM5 Proofs_HMM13 Proofs_HHMM Proofs_HHMM4 Proofs_HHMM6 Proofs_HHMM7 Proofs_HHMM8 Proofs_HHMM12 Proofs_HHMM13 Ex_HHMM.
Import ListNotations.
Local Open Scope list_scope.
Local Open Scope R_scope.

(** One left-right class with means [y0] and [y1]. *)
Definition kx_one (y0 y1 : R) : hhmm RA := kx_model false Likeliest true [("a"%string, kx_class false LeftRight RFull true 0 y0 y1)].
Lemma kx_one_ok : forall y0 y1, Forall (fun e : string * hclass RA => kx_ok false (fun _ flag => flag = true) (snd e)) [("a"%string, kx_class false LeftRight RFull true 0 y0 y1)].
Proof. intros. constructor; [|constructor]. exists LeftRight, RFull, true, 0, y0, y1. split; [reflexivity|]. split; [lra|reflexivity]. Qed.
Lemma kx_one_usable : forall y0 y1, hh_usable (kx_one y0 y1).
Proof. intros. eapply kx_usable; [discriminate| |apply kx_one_ok]. cbn. constructor; [intros []|constructor]. Qed.
Lemma kx_one_fresh : forall y0 y1, hh_fresh (kx_one y0 y1).
Proof. intros. apply kx_fresh, kx_one_ok. Qed.
Lemma kx_one_left : forall y0 y1 u c, left_over (kx_one y0 y1) u c = 0.
Proof. intros. unfold left_over, hcl. cbn [kx_one kx_model hh_cls]. destruct c as [|[|c]]; reflexivity. Qed.

Section One.
  Variables y0 y1 : R.
  Local Notation m := (kx_one y0 y1).
  Local Notation b0 x := (mix_lik (kx_state false y0) x).
  Local Notation b1 x := (mix_lik (kx_state false y1) x).

  Lemma one_first : forall x, hh_lik m [x] = b0 x /\ hh_filtering m [x] 0 0 0 = 1 /\ forall k e, (k < 2)%nat -> (e < 3)%nat -> (k <> 0 \/ e <> 0)%nat -> hh_filtering m [x] 0 k e = 0.
  Proof.
    intro x. pose proof (kx_one_usable y0 y1) as HU. pose proof (hh_lik_pos m HU [x] ltac:(discriminate)) as LP.
    assert (S0 : start_at m 0 0 = 1) by (unfold start_at, top_prior, entry, hc_prior, prior_at, hcl; cbn; field).
    assert (S1 : start_at m 0 1 = 0) by (unfold start_at, top_prior, entry, hc_prior, prior_at, hcl; cbn; ring).
    assert (L : hh_lik m [x] = b0 x). { rewrite (lik_first m). change (hh_size m) with 1%nat. cbn [Rsum]. change (hc_n (hcl m 0)) with 2%nat. cbn [Rsum]. rewrite S0, S1. change (state_at (hcl m 0) 0) with (kx_state false y0). ring. }
    split; [exact L|]. assert (F : forall k e, (k < 2)%nat -> (e < 3)%nat -> hh_lik m [x] * hh_filtering m [x] 0 k e = (if Nat.eqb e 0 then start_at m 0 k else 0) * mix_lik (state_at (hcl m 0) k) x) by (intros k e Hk He; apply (filt_first m HU); [cbn; lia|exact Hk|exact He]).
    split.
    - apply Rmult_eq_reg_l with (hh_lik m [x]); [|lra]. rewrite F by lia. cbn [Nat.eqb]. rewrite S0, L. change (state_at (hcl m 0) 0) with (kx_state false y0). ring.
    - intros k e Hk He D. specialize (F k e Hk He). assert (Z : hh_lik m [x] * hh_filtering m [x] 0 k e = 0).
      { rewrite F. destruct (Nat.eqb_spec e 0); [|ring]. assert (k = 1%nat) by lia. subst k. rewrite S1. ring. }
      apply Rmult_integral in Z. destruct Z; [lra|assumption].
  Qed.

  Lemma one_second : forall x y k e, (k < 2)%nat -> (e < 3)%nat -> hh_lik m [x; y] * hh_filtering m [x; y] 0 k e = / 2 * split_at m 0 k e * mix_lik (state_at (hcl m 0) k) y.
  Proof.
    intros x y k e Hk He. pose proof (kx_one_usable y0 y1) as HU. destruct (one_first x) as (_ & F1 & F0).
    pose proof (filt_next m HU [x] y 1 (hh_filtering m [x]) ltac:(discriminate) ltac:(intros; ring) 0%nat k e ltac:(cbn; lia) Hk He) as F. cbn [app] in F. rewrite Rmult_1_l in F. rewrite <- F. f_equal. f_equal.
    unfold front. change (hh_size m) with 1%nat. change (hc_n (hcl m 0)) with 2%nat. cbn [Rsum]. change (hc_n (hcl m 0)) with 2%nat. cbn [Rsum]. rewrite F1, !F0 by lia.
    assert (I : inner (hcl m 0) 0 k = / 2) by (assert (k = 0 \/ k = 1)%nat as [-> | ->] by lia; unfold inner, hcl, exit_at; cbn; field). rewrite I. ring.
  Qed.
End One.

Lemma e8 : exp (- / 2 * ((4 - 0) * (4 - 0))) < / 256.
Proof.
  replace (- / 2 * ((4 - 0) * (4 - 0))) with (- (8)) by field. rewrite exp_Ropp. apply Rinv_lt_contravar; [apply Rmult_lt_0_compat; [lra|apply exp_pos]|].
  pose proof (exp_ineq1 1 ltac:(lra)) as E. assert (E2 : exp 2 = exp 1 * exp 1) by (rewrite <- exp_plus; f_equal; lra). assert (E4 : exp 4 = exp 2 * exp 2) by (rewrite <- exp_plus; f_equal; lra). assert (E8 : exp 8 = exp 4 * exp 4) by (rewrite <- exp_plus; f_equal; lra).
  assert (4 < exp 2) by (rewrite E2; apply Rlt_trans with (2 * exp 1); [lra|apply Rmult_lt_compat_r; lra]). assert (16 < exp 4) by (rewrite E4; apply Rlt_trans with (4 * exp 2); [lra|apply Rmult_lt_compat_r; lra]).
  rewrite E8. apply Rlt_trans with (16 * exp 4); [lra|apply Rmult_lt_compat_r; lra].
Qed.
Lemma sqrt_2pi : 1 < sqrt (2 * PI) < 3.
Proof.
  pose proof PI_4. pose proof PI2_1 as P. unfold PI2 in P. assert (2 <= 2 * PI < 9) by lra. split.
  - rewrite <- sqrt_1. apply sqrt_lt_1; lra.
  - replace 3 with (sqrt 9) at 1 by (replace 9 with (3 * 3) by ring; apply sqrt_square; lra). apply sqrt_lt_1; lra.
Qed.
Lemma min_lik_small : min_likelihood < / 1000.
Proof.
  unfold min_likelihood. apply Rinv_lt_contravar; [apply Rmult_lt_0_compat; [lra|apply pow_lt; lra]|]. apply Rlt_le_trans with (10 ^ 4); [lra|]. apply Rle_pow; [lra|lia].
Qed.
Lemma liks_04 : mix_lik (kx_state false 0) [4] < mix_lik (kx_state false 4) [4] / 100.
Proof.
  rewrite !kx_lik. pose proof e8 as E. pose proof sqrt_2pi as S. pose proof min_lik_small as ML. pose proof (Rinv_0_lt_compat (sqrt (2 * PI)) ltac:(lra)) as I.
  assert (I3 : / 3 < / sqrt (2 * PI)) by (apply Rinv_lt_contravar; [apply Rmult_lt_0_compat; lra|lra]).
  replace (exp (- / 2 * ((4 - 4) * (4 - 4)))) with 1 by (rewrite <- exp_0; f_equal; ring).
  apply Rlt_le_trans with (1 / sqrt (2 * PI) / 100).
  - apply Rmax_lub_lt; [unfold Rdiv; lra|]. unfold Rdiv. apply Rlt_le_trans with (/ 256 * / sqrt (2 * PI)); [apply Rmult_lt_compat_r; assumption|lra].
  - unfold Rdiv at 1 3. apply Rmult_le_compat_r; [lra|]. apply Rmax_r.
Qed.

Lemma progress_above : exists m', hh_filters (A := RA) [[0]; [4]] (kx_one 0 4) = Ok m' /\ 1 < h_prog (hc_run (hcl m' 0)).
Proof.
  set (m := kx_one 0 4). pose proof (kx_one_usable 0 4) as HU. fold m in HU.
  destruct (hh_filters_report m m HU (hh_same_refl m HU) (kx_one_fresh 0 4) ltac:(intros c _; unfold m; rewrite kx_one_left; lra) [[0]] [4] ltac:(repeat constructor)) as (m' & E & _ & CR & _). exists m'. split; [exact E|].
  destruct (CR 0%nat ltac:(cbn; lia)) as (_ & _ & FM & PR & _). rewrite PR. clear PR CR E. cbn [app] in *.
  assert (SC : hh_scale m (hh_left m) [[0]; [4]] = 1) by reflexivity. change (hc_n (hcl m 0)) with 2%nat in *. unfold hh_weight in FM |- *. change (num RA) with R in *. rewrite SC in FM |- *.
  pose proof (hh_lik_pos m HU [[0]; [4]] ltac:(discriminate)) as LP. set (L := hh_lik m [[0]; [4]]) in *.
  pose proof (fun k e H1 H2 => one_second 0 4 [0] [4] k e H1 H2) as F. fold m in F. fold L in F.
  assert (B0 : state_at (hcl m 0) 0 = kx_state false 0) by reflexivity. assert (B1 : state_at (hcl m 0) 1 = kx_state false 4) by reflexivity.
  pose proof (F 0%nat 0%nat ltac:(lia) ltac:(lia)) as F00. pose proof (F 0%nat 1%nat ltac:(lia) ltac:(lia)) as F01. pose proof (F 0%nat 2%nat ltac:(lia) ltac:(lia)) as F02.
  pose proof (F 1%nat 0%nat ltac:(lia) ltac:(lia)) as F10. pose proof (F 1%nat 1%nat ltac:(lia) ltac:(lia)) as F11. pose proof (F 1%nat 2%nat ltac:(lia) ltac:(lia)) as F12. clear F.
  rewrite B0 in F00, F01, F02. rewrite B1 in F10, F11, F12. pose proof liks_04 as LK. set (p0 := mix_lik (kx_state false 0) [4]) in *. set (p1 := mix_lik (kx_state false 4) [4]) in *.
  assert (P0 : 0 < p0) by (apply (lik_ge m HU 0 0); cbn; lia).
  unfold split_at, exit_at, hcl in F00, F01, F02, F10, F11, F12. cbn [m kx_one kx_model hh_exit hh_cls nth snd repeat length kx_class hc_net h_exit] in F00, F01, F02, F10, F11, F12.
  set (f00 := hh_filtering m [[0]; [4]] 0 0 0) in *. set (f01 := hh_filtering m [[0]; [4]] 0 0 1) in *. set (f02 := hh_filtering m [[0]; [4]] 0 0 2) in *.
  set (f10 := hh_filtering m [[0]; [4]] 0 1 0) in *. set (f11 := hh_filtering m [[0]; [4]] 0 1 1) in *. set (f12 := hh_filtering m [[0]; [4]] 0 1 2) in *.
  set (w := fun i => 1 * (hh_filtering m [[0]; [4]] 0 i 0 + hh_filtering m [[0]; [4]] 0 i 1)) in *.
  assert (W0 : L * w 0%nat = / 2 * p0) by (unfold w; fold f00 f01; rewrite Rmult_1_l, Rmult_plus_distr_l, F00, F01; field).
  assert (W1 : L * w 1%nat = / 2 * (99 / 100) * p1) by (unfold w; fold f10 f11; rewrite Rmult_1_l, Rmult_plus_distr_l, F10, F11; field).
  assert (X1 : L * (w 1%nat + 1 * f12) = / 2 * p1) by (rewrite Rmult_plus_distr_l, W1, Rmult_1_l, F12; field).
  assert (LT : w 0%nat < w 1%nat) by (apply Rmult_lt_reg_l with L; [exact LP|]; rewrite W0, W1; lra).
  assert (EL : h_like (hc_run (hcl m' 0)) = 1%nat).
  { destruct FM as (H1 & H2 & _). change (hc_n (hcl m 0)) with 2%nat in *. destruct (h_like (hc_run (hcl m' 0))) as [|[|k]]; [|reflexivity|lia]. specialize (H2 1%nat ltac:(lia)). subst w. cbv beta in *. change (num RA) with R in *. lra. }
  rewrite EL. unfold window_mass. cbn [Rsum]. unfold in_window. cbn [Nat.div Nat.divmod fst Nat.leb Nat.ltb Nat.add andb Nat.max Nat.sub INR]. fold f12.
  change (fun i => hh_filtering m [[0]; [4]] 0 i 0) with (fun i => hh_filtering m [[0]; [4]] 0 i 0).
  set (W := 0 + w 0%nat + w 1%nat). assert (WL : L * W = / 2 * (p0 + 99 / 100 * p1)) by (unfold W; rewrite !Rmult_plus_distr_l, W0, W1; ring).
  assert (WP : 0 < W) by (apply Rmult_lt_reg_l with L; [exact LP|]; rewrite WL; lra).
  apply Rmult_lt_reg_r with W; [exact WP|]. match goal with |- _ < ?a => replace a with (w 1%nat + 1 * f12) by (unfold w; field; lra) end.
  apply Rmult_lt_reg_l with L; [exact LP|]. rewrite X1, Rmult_1_l, WL. lra.
Qed.

(** States with the same likelihood: trained left-right classes gain a ninth of the last states. *)
Lemma lik_gain : forall m B xs x, hh_usable m -> xs <> [] -> hh_top_proper m -> (forall c, (c < hh_size m)%nat -> trained_lr (hcl m c) /\ (2 <= hc_n (hcl m c))%nat) ->
  (forall c k, (c < hh_size m)%nat -> (k < hc_n (hcl m c))%nat -> mix_lik (state_at (hcl m c) k) x = B) ->
  hh_lik m (xs ++ [x]) = B * (1 + / 9 * Rsum (hh_size m) (fun c => hh_filtering m xs c (hc_n (hcl m c) - 1) 0)).
Proof.
  intros m B xs x HU Hne TP HT HB. rewrite (lik_equal m HU B xs x Hne TP HB). f_equal. f_equal. rewrite <- Rsum_scal_l. apply Rsum_ext. intros c Hc. destruct (HT c Hc) as (T & N2).
  rewrite (Rsum_ext _ _ (fun j => if Nat.eqb j (hc_n (hcl m c) - 1) then / 9 * hh_filtering m xs c j 0 else 0)).
  - rewrite Rsum_if by lia. reflexivity.
  - intros j Hj. rewrite (outflow_lr (hcl m c) j ltac:(lia) T Hj). destruct (Nat.ltb_spec 1 (hc_n (hcl m c))); [|lia]. rewrite andb_true_r. destruct (Nat.eqb j (hc_n (hcl m c) - 1)); field.
Qed.

Lemma lik_above : forall y, mix_lik (kx_state false y) [y] < hh_lik (kx_one y y) [[y]; [y]; [y]].
Proof.
  intro y. pose proof (kx_one_usable y y) as HU. set (m := kx_one y y) in *. set (B := mix_lik (kx_state false y) [y]).
  assert (BP : 0 < B) by (apply (lik_ge m HU 0 0); cbn; lia).
  assert (E : hh_lik m ([[y]; [y]] ++ [[y]]) = B * (1 + / 9 * Rsum (hh_size m) (fun c => hh_filtering m [[y]; [y]] c (hc_n (hcl m c) - 1) 0))).
  { apply lik_gain; [exact HU|discriminate| | |].
    - eapply kx_proper; [discriminate| |apply kx_one_ok]. cbn. constructor; [intros []|constructor].
    - intros c Hc. change (hh_size m) with 1%nat in Hc. assert (c = 0%nat) by lia. subst c. split; [apply (kx_trained false RFull true 0 y y)|cbn; lia].
    - intros c k Hc Hk. change (hh_size m) with 1%nat in Hc. assert (c = 0%nat) by lia. subst c. assert (k = 0%nat \/ k = 1%nat) as [|] by (cbn in Hk; lia); subst k; reflexivity. }
  cbn [app] in E. change (num RA) with R in *. rewrite E. change (hh_size m) with 1%nat. cbn [Rsum]. change (hc_n (hcl m 0) - 1)%nat with 1%nat.
  pose proof (one_second y y [y] [y] 1 0 ltac:(lia) ltac:(lia)) as F. fold m in F. pose proof (hh_lik_pos m HU [[y]; [y]] ltac:(discriminate)) as LP.
  assert (F' : 0 < hh_lik m [[y]; [y]] * hh_filtering m [[y]; [y]] 0 1 0).
  { rewrite F. change (state_at (hcl m 0) 1) with (kx_state false y). fold B. replace (split_at m 0 1 0) with (9 / 10); [apply Rmult_lt_0_compat; lra|]. unfold split_at, exit_at, hcl. cbn. field. }
  assert (0 < hh_filtering m [[y]; [y]] 0 1 0). { apply Rmult_lt_reg_l with (hh_lik m [[y]; [y]]); [exact LP|]. rewrite Rmult_0_r. exact F'. }
  rewrite <- (Rmult_1_r B) at 1. apply Rmult_lt_compat_l; lra.
Qed.

(** Non-hierarchical mode: one left-right class whose states are the same. *)
Definition kx_flat (y : R) : hhmm RA := kx_model false Likeliest false [("a"%string, kx_class false LeftRight RFull false 0 y y)].
Lemma kx_flat_ok : forall y, Forall (fun e : string * hclass RA => kx_ok false (fun _ flag => flag = false) (snd e)) [("a"%string, kx_class false LeftRight RFull false 0 y y)].
Proof. intros. constructor; [|constructor]. exists LeftRight, RFull, false, 0, y, y. split; [reflexivity|]. split; [lra|reflexivity]. Qed.
Lemma kx_flat_usable : forall y, hn_usable (kx_flat y).
Proof. intros. eapply kx_hn; [discriminate| |apply kx_flat_ok]. cbn. constructor; [intros []|constructor]. Qed.
Lemma kx_flat_fresh : forall y, hn_fresh (kx_flat y).
Proof. intros. apply kx_hn_fresh, kx_flat_ok. Qed.
Lemma flat_logs : forall y x z, hmm_logs (hcl (kx_flat y) 0) [x; z] = [ln (mix_lik (kx_state false y) x); ln (mix_lik (kx_state false y) z)].
Proof.
  intros y x z. pose proof (kx_one_usable y y) as HU. assert (P : 0 < mix_lik (kx_state false y) x) by (apply (lik_ge (kx_one y y) HU 0 0); cbn; lia).
  unfold hmm_logs, inst_logs, hmm_liks. cbn [map length seq firstn]. change (hc_n (hcl (kx_flat y) 0)) with 2%nat. unfold inst_lik. cbn [removelast]. unfold seq_lik. cbn [length paths seq flat_map map app].
  unfold path_weight, walk, Rlsum. cbn [fold_right]. unfold hc_prior, hc_trans, prior_at, trans_at, hcl. cbn [kx_flat kx_model hh_cls nth snd hc_mode kx_class hc_par kx_par hp_trans h_trans hc_net Nat.eqb Nat.mul Nat.add hc_n hp_states Nat.modulo Nat.divmod fst snd Nat.sub state_at h_states].
  unfold state_at. cbn [hc_net h_states nth kx_class]. set (a := mix_lik (kx_state false y) x) in *. set (b := mix_lik (kx_state false y) z). f_equal; [f_equal; ring|]. f_equal. f_equal. field. lra.
Qed.
Lemma liks_differ : mix_lik (kx_state false 0) [0] <> mix_lik (kx_state false 0) [4].
Proof.
  assert (mix_lik (kx_state false 0) [0] = mix_lik (kx_state false 4) [4]) as -> by (rewrite !kx_lik; f_equal; f_equal; f_equal; ring). pose proof liks_04. assert (0 < mix_lik (kx_state false 4) [4]) by (apply (lik_ge (kx_one 4 4) (kx_one_usable 4 4) 0 0); cbn; lia). lra.
Qed.
