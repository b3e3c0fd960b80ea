(** C105: regression with hierarchical models in double precision. *)
From Coq Require Import String ZArith QArith Reals Lra Lia Bool List Arith.
From Coq Require Import Floats.SpecFloat.
From Flocq Require Import Core.Core.
From Verif Require Import Base BaseFacts Arith Model_Ring Model_Gaussian Model_Config Model_KMeans Model_GMM Model_HMM Model_HHMM Model_Single Model_Single2 Model_Single3 Model_Single4 Spec_Float Spec_Float2 Spec_Float3 Spec_Float4 Spec_Float6 Spec_Float7 Spec_Float9.
From Verif Require Import Proofs_Float2 Proofs_Float26 Proofs_Float27 Proofs_Float31 Proofs_Float32 Proofs_Float33 Proofs_Float35 Proofs_Float36 Proofs_Float37 Proofs_Float38 Proofs_Float39 Proofs_Float40 Proofs_Float41.
From Verif Require Props_Float2.
Import ListNotations.
Local Open Scope R_scope.

(** The last frame of a sequence. *)
Lemma last_frame fexp fln N G (R : gclass (FA fexp fln) -> Prop) (Q : hmmP (FA fexp fln) -> Prop) (m m' : hhmm (FA fexp fln)) xs x : libm_f64 fexp fln -> hpredicts N G m -> (forall g g', kept fexp fln g g' -> R g -> R g') ->
  Forall (fun e => Q (hc_par (snd e)) /\ Forall R (h_states (hc_net (snd e)))) (hh_cls m) -> Forall frame_f64 (xs ++ [x]) -> hh_filters_with (A := FA fexp fln) as_single (xs ++ [x]) m = Ok m' ->
  (forall l h, In (l, h) (hh_cls m') -> exists h0, able fexp fln N (hh_dim m) (hh_din m) (fun g => state_reg fexp fln G (hh_dim m) (hh_din m) g /\ R g) Q h0 /\
    hm_regression_with (A := FA fexp fln) as_single x h0 = Ok h /\ hc_par h = hc_par h0 /\ h_a0 (hc_run h) = h_a0 (hc_run h0) /\ h_a1 (hc_run h) = h_a1 (hc_run h0)) /\
  (hh_est m = Likeliest -> exists h, In (rs_likeliest (hh_res m'), h) (hh_cls m') /\ rs_out (hh_res m') = h_out (hc_run h) /\ rs_ocov (hh_res m') = h_ocov (hc_run h)) /\ model_left_right m' /\ forward_f64 m' /\
  exists m1, hh_filter_with (A := FA fexp fln) as_single x m1 = Ok m' /\ hh_hier m1 = true /\ hh_bim m1 = true /\ hh_est m1 = hh_est m /\ hh_dim m1 = hh_dim m /\ hh_din m1 = hh_din m.
Proof.
  intros LM (HN & HG & M & St & Bi & F) RK Fm Fx H. set (P := fun g => state_reg fexp fln G (hh_dim m) (hh_din m) g /\ R g).
  assert (PK : forall g g', kept fexp fln g g' -> P g -> P g') by (intros g g' K (P1 & P2); split; [eapply state_reg_kept; eauto | eapply RK; eauto]).
  assert (I0 : hier_inv fexp fln N (hh_dim m) (hh_din m) P Q m).
  { split; [exact M |]. split; [congruence |]. split; [exact Bi |]. apply Forall_forall. intros e I. destruct (proj1 (Forall_forall _ _) F e I) as (F1 & F2 & _ & F3 & F4 & F5 & F6). destruct (proj1 (Forall_forall _ _) Fm e I) as (F8 & F7).
    split; [exact F1 |]. split; [exact F3 |]. split; [exact F4 |]. split; [exact F5 |]. split; [| exact F8]. apply Forall_forall. intros g Ig. destruct (proj1 (Forall_forall _ _) F6 g Ig) as (Q1 & Q2 & Q3).
    split; [split; [exact (proj1 (Forall_forall _ _) F2 g Ig) | auto] | exact (proj1 (Forall_forall _ _) F7 g Ig)]. }
  apply Forall_app in Fx. destruct Fx as (Fxs & Fx). inversion Fx as [| ? ? Fx1 _]; subst. destruct (filters_app fexp fln xs x m m' H) as (m1 & E1 & E2).
  destruct (hier_seq fexp fln LM N (hh_dim m) (hh_din m) P Q PK xs m m1 I0 Fxs E1) as (I1 & D1 & D2 & D3 & D4).
  destruct (hier_step fexp fln LM N (hh_dim m) (hh_din m) P Q PK m1 m' x I1 Fx1 E2) as (I2 & _ & _ & _ & _ & Fw & C & O).
  split; [intros l h I; destruct (C (l, h) I) as (h0 & C1 & C2); exists h0; split; [exact C1 | exact C2] |].
  split; [intros Es; exact (O (eq_trans D3 Es)) |]. split; [apply I2 |]. split; [exact Fw |].
  exists m1. split; [exact E2 |]. split; [apply I1 |]. split; [apply I1 |]. auto.
Qed.
Lemma last_means fexp fln N G d lo hi (m m' : hhmm (FA fexp fln)) xs x : libm_f64 fexp fln -> hpredicts N G m -> Forall (fun e => state_means_in d lo hi (snd e)) (hh_cls m) ->
  Forall frame_f64 (xs ++ [x]) -> hh_filters_with (A := FA fexp fln) as_single (xs ++ [x]) m = Ok m' ->
  (forall l h, In (l, h) (hh_cls m') -> exists h0, able fexp fln N (hh_dim m) (hh_din m) (fun g => state_reg fexp fln G (hh_dim m) (hh_din m) g /\ means_in d lo hi g) (fun _ => True) h0 /\
    hm_regression_with (A := FA fexp fln) as_single x h0 = Ok h /\ hc_par h = hc_par h0 /\ h_a0 (hc_run h) = h_a0 (hc_run h0) /\ h_a1 (hc_run h) = h_a1 (hc_run h0)) /\
  (hh_est m = Likeliest -> exists h, In (rs_likeliest (hh_res m'), h) (hh_cls m') /\ rs_out (hh_res m') = h_out (hc_run h) /\ rs_ocov (hh_res m') = h_ocov (hc_run h)) /\ model_left_right m' /\ forward_f64 m' /\
  exists m1, hh_filter_with (A := FA fexp fln) as_single x m1 = Ok m' /\ hh_hier m1 = true /\ hh_bim m1 = true /\ hh_est m1 = hh_est m /\ hh_dim m1 = hh_dim m /\ hh_din m1 = hh_din m.
Proof.
  intros LM Pr Fm Fx H. apply (last_frame fexp fln N G (fun g => means_in d lo hi g) (fun _ => True) m m' xs x LM Pr); [intros g g' K; now apply means_kept | | exact Fx | exact H].
  eapply Forall_impl; [| exact Fm]. intros e Q. split; [exact I | exact Q].
Qed.

(** After any frames of any doubles, the outputs of every class are numbers of bounded magnitude.  The
    output of the likeliest state is within rounding of what the states learned; that of the window too,
    unless the class has almost no forward mass; and that of all the states is within rounding of the same
    part of what the states learned as the class has of the forward mass.  The output of a class that has no
    part of the forward mass is 0. *)
Theorem C105_classes : forall fexp fln N G d b lo hi (m m' : hhmm (FA fexp fln)) xs x, libm_f64 fexp fln -> hpredicts N G m -> (hh_din m + d < hh_dim m)%nat ->
  (0 <= b <= 77)%Z -> range_in b lo hi -> Forall (fun e => state_means_in d lo hi (snd e)) (hh_cls m) -> Forall frame_f64 (xs ++ [x]) ->
  hh_filters_with (A := FA fexp fln) as_single (xs ++ [x]) m = Ok m' ->
  forall l h, In (l, h) (hh_cls m') -> class_output N G d b lo hi h.
Proof.
  intros fexp fln N G d b lo hi m m' xs x LM Pr Hd Hb Rg Fm Fx H l h I. destruct (last_means fexp fln N G d lo hi m m' xs x LM Pr Fm Fx H) as (C & _ & M' & _).
  destruct (C l h I) as (h0 & ((B1 & B2 & B3 & B4 & B5 & _) & U & W) & E & Ep & A0 & A1). destruct Pr as (HN & HG & _). apply Forall_app in Fx. destruct Fx as (_ & Fx). inversion Fx as [| ? ? Fx1 _]; subst.
  assert (N1 : (1 <= hc_n h0)%nat). { destruct M' as (_ & _ & _ & Cl & _). destruct (proj1 (Forall_forall _ _) Cl _ I) as (_ & X & _). cbn [snd] in X. unfold hc_n in *. rewrite Ep in X. lia. }
  assert (Fs : Forall (fun g => state_reg fexp fln G (hc_dim h0) (hc_din h0) g /\ means_in d lo hi g) (h_states (hc_net h0))) by (rewrite B2, B3; exact B5).
  assert (Hn : (Z.of_nat (hc_n h0) <= 2 ^ 20)%Z) by lia. assert (Hd0 : (hc_din h0 + d < hc_dim h0)%nat) by lia.
  assert (Q := class_out fexp fln LM G d b lo hi x h0 h Hb HG B1 Hn U W Fx1 Fs Rg Hd0 E).
  assert (Qw := class_windowed fexp fln LM G d b lo hi x h0 h Hb HG B1 Hn N1 U W Fx1 Fs Rg Hd0 E).
  assert (Qf := class_full fexp fln LM G d b lo hi x h0 h Hb HG B1 Hn N1 U W Fx1 Fs Rg Hd0 E).
  assert (Nl : INR (hc_n h0) <= INR N) by (apply le_INR; exact B4). assert (P0 := bpow_gt_0 radix2 (b - 20)). assert (PG := pos_INR G). assert (Pn := pos_INR (hc_n h0)).
  assert (Z : INR (hc_n h0) * bpow radix2 (b + 3) <= INR N * bpow radix2 (b + 3)) by (apply Rmult_le_compat_r; [apply bpow_ge_0 | exact Nl]).
  assert (Zw : (INR G + 2 * INR (hc_n h0)) * bpow radix2 (b - 20) <= (INR G + 2 * INR N) * bpow radix2 (b - 20)) by (apply Rmult_le_compat_r; lra).
  assert (Zf : INR (hc_n h0) * (2 * INR G + 3 * INR (hc_n h0)) * bpow radix2 (b - 20) <= INR N * (2 * INR G + 3 * INR N) * bpow radix2 (b - 20)) by (apply Rmult_le_compat_r; [lra |]; apply Rmult_le_compat; lra).
  unfold class_output, silent, heard, mass. rewrite Ep. unfold hc_n in *. rewrite Ep, A0, A1. rewrite !rs_rsum. cbv zeta.
  destruct (hp_est (hc_par h0)) eqn:Est; [| | exact Q]; destruct Q as ((Q1 & Q2 & Q3) & Q4); (split; [split; [exact Q1 |]; split; [exact Q2 | lra] |]); (split; [exact Q4 |]).
  - destruct (Qf ltac:(discriminate) eq_refl) as (X1 & X2 & X3). split; [exact X1 |]. split; [exact X2 | lra].
  - intros H2 Hd2. destruct (Qw ltac:(discriminate) eq_refl H2 Hd2) as (X1 & X2 & X3). split; [exact X1 |]. split; [exact X2 | lra].
Qed.
Print Assumptions C105_classes.

(** The outputs of the model are those of its likeliest class: numbers of bounded magnitude, which are within
    rounding of what was learned if the class uses its likeliest state. *)
Theorem C105_likeliest : forall fexp fln N G d b lo hi (m m' : hhmm (FA fexp fln)) xs x, libm_f64 fexp fln -> hpredicts N G m -> (hh_din m + d < hh_dim m)%nat ->
  (0 <= b <= 77)%Z -> range_in b lo hi -> Forall (fun e => state_means_in d lo hi (snd e)) (hh_cls m) -> Forall frame_f64 (xs ++ [x]) -> hh_est m = Likeliest ->
  hh_filters_with (A := FA fexp fln) as_single (xs ++ [x]) m = Ok m' ->
  exists h, In (rs_likeliest (hh_res m'), h) (hh_cls m') /\ rs_out (hh_res m') = h_out (hc_run h) /\ class_output N G d b lo hi h /\
    num_in (- (INR N * bpow radix2 (b + 3))) (INR N * bpow radix2 (b + 3)) (ent (rs_out (hh_res m')) d) /\
    (hp_est (hc_par h) = RLikeliest -> near lo hi (INR G * bpow radix2 (b - 20)) (ent (rs_out (hh_res m')) d)).
Proof.
  intros fexp fln N G d b lo hi m m' xs x LM Pr Hd Hb Rg Fm Fx Es H. destruct (last_means fexp fln N G d lo hi m m' xs x LM Pr Fm Fx H) as (C & O & M' & _).
  destruct (O Es) as (h & I & Eo & _). assert (Q := C105_classes fexp fln N G d b lo hi m m' xs x LM Pr Hd Hb Rg Fm Fx H _ h I). exists h. split; [exact I |]. split; [exact Eo |]. split; [exact Q |]. rewrite Eo. unfold class_output in Q. cbv zeta in Q.
  assert (P1 : 1 <= INR N).
  { apply (le_INR 1). destruct (C _ h I) as (h0 & ((_ & _ & _ & B4 & _) & _) & _ & Ep & _). destruct M' as (_ & _ & _ & Cl & _). destruct (proj1 (Forall_forall _ _) Cl _ I) as (_ & X & _). cbn [snd] in X. unfold hc_n in *. rewrite Ep in X. lia. }
  assert (Pb := bpow_gt_0 radix2 b). assert (B3 : bpow radix2 (b + 3) = 8 * bpow radix2 b) by (rewrite bpow_plus; change (bpow radix2 3) with 8; ring).
  split.
  - destruct (hp_est (hc_par h)); [apply Q | apply Q |]. destruct Q as (V & Nn & B). split; [exact V |]. split; [exact Nn |]. destruct Rg as (R1 & R2). destruct Pr as (_ & HG & _).
    assert (Z : INR G * bpow radix2 (b - 20) <= bpow radix2 b).
    { replace (bpow radix2 b) with (bpow radix2 20 * bpow radix2 (b - 20)) by (rewrite <- bpow_plus; f_equal; lia). apply Rmult_le_compat_r; [apply bpow_ge_0 |]. rewrite INR_IZR_INZ. change (bpow radix2 20) with (IZR (2 ^ 20)). now apply IZR_le. }
    assert (Y : 1 * bpow radix2 (b + 3) <= INR N * bpow radix2 (b + 3)) by (apply Rmult_le_compat_r; [apply bpow_ge_0 | exact P1]). lra.
  - intros X. rewrite X in Q. exact Q.
Qed.
Print Assumptions C105_likeliest.

(** Mixed outputs need not be numbers: when the likelihood window of every class has a likelihood of 0, every
    output of the model is NaN, whatever was learned. *)
Theorem C105_mixture_refuted : forall fexp fln N G d lo hi (m m' : hhmm (FA fexp fln)) xs x, libm_f64 fexp fln -> fexp (S754_infinity true) = S754_zero false -> hpredicts N G m -> (hh_din m + d < hh_dim m)%nat ->
  Forall (fun e => state_means_in d lo hi (snd e)) (hh_cls m) -> Forall frame_f64 (xs ++ [x]) -> hh_est m = Mixture -> hh_filters_with (A := FA fexp fln) as_single (xs ++ [x]) m = Ok m' ->
  Forall (fun e : string * hclass (FA fexp fln) => null_window (h_buf (hc_run (snd e)))) (hh_cls m') -> ent (rs_out (hh_res m')) d = S754_nan.
Proof.
  intros fexp fln N G d lo hi m m' xs x LM Ex Pr Hd Fm Fx Es H Nw. destruct (last_means fexp fln N G d lo hi m m' xs x LM Pr Fm Fx H) as (_ & _ & M' & _ & m1 & E & H1 & H2 & H3 & H4 & H5).
  apply (mixture_null fexp fln m1 m' x d H1 H2 (eq_trans H3 Es) E Ex); [rewrite H4, H5; exact Hd | apply M' | exact Nw].
Qed.
Print Assumptions C105_mixture_refuted.

(** The output variances of every class with diagonal covariances are numbers that are not negative, of
    bounded magnitude, and 0 if the class uses its likeliest state.  Up to rounding they are at most the
    learned ones times the part of the forward mass that the class has with the window, unless that part is
    almost nothing, and times its square with all the states.  Those of the model are those of its likeliest
    class. *)
Theorem C105_variances : forall fexp fln N G d b hi (m m' : hhmm (FA fexp fln)) xs x, libm_f64 fexp fln -> hpredicts N G m -> (hh_din m + d < hh_dim m)%nat ->
  (0 <= b <= 75)%Z -> 0 <= hi <= bpow radix2 b -> Forall (fun e => state_variances_in d hi (snd e)) (hh_cls m) -> Forall frame_f64 (xs ++ [x]) ->
  hh_filters_with (A := FA fexp fln) as_single (xs ++ [x]) m = Ok m' ->
  (forall l h, In (l, h) (hh_cls m') -> class_variance N G d b hi h) /\
  (hh_est m = Likeliest -> exists h, In (rs_likeliest (hh_res m'), h) (hh_cls m') /\ rs_ocov (hh_res m') = h_ocov (hc_run h) /\ class_variance N G d b hi h /\ num_in 0 (INR N * bpow radix2 (b + 4)) (ent (rs_ocov (hh_res m')) d)).
Proof.
  intros fexp fln N G d b hi m m' xs x LM Pr Hd Hb Rg Fm Fx H.
  destruct (last_frame fexp fln N G (fun g => variances_in d hi g) (fun p => hp_mode p = Diagonal) m m' xs x LM Pr) as (C & O & M' & _); [intros g g' K; now apply vars_kept | exact Fm | exact Fx | exact H |].
  destruct Pr as (HN & HG & _). apply Forall_app in Fx. destruct Fx as (_ & Fx). inversion Fx as [| ? ? Fx1 _]; subst.
  assert (Main : forall l h, In (l, h) (hh_cls m') -> class_variance N G d b hi h).
  { intros l h I. destruct (C l h I) as (h0 & ((B1 & B2 & B3 & B4 & B5 & B6) & U & W) & E & Ep & A0 & A1).
    assert (Fs : Forall (fun g => state_reg fexp fln G (hc_dim h0) (hc_din h0) g /\ variances_in d hi g) (h_states (hc_net h0))) by (rewrite B2, B3; exact B5).
    assert (N1 : (1 <= hc_n h0)%nat). { destruct M' as (_ & _ & _ & Cl & _). destruct (proj1 (Forall_forall _ _) Cl _ I) as (_ & X & _). cbn [snd] in X. unfold hc_n in *. rewrite Ep in X. lia. }
    destruct (class_var fexp fln LM G d b hi x h0 h ltac:(lia) HG B1 ltac:(lia) U W Fx1 Fs Rg ltac:(lia) B6 E) as (V & Z). unfold class_variance. cbv zeta. rewrite Ep.
    assert (Nl : INR (hc_n h0) <= INR N) by (apply le_INR; exact B4). split; [eapply Proofs_Float8.num_in_weaken; [exact V | lra | apply Rmult_le_compat_r; [apply bpow_ge_0 | exact Nl]] |].
    assert (P0 := bpow_gt_0 radix2 (b - 20)). assert (PG := pos_INR G). assert (Pn := pos_INR (hc_n h0)).
    assert (Zf : INR (hc_n h0) * (4 * INR G + 10 * INR (hc_n h0)) * bpow radix2 (b - 20) <= INR N * (4 * INR G + 10 * INR N) * bpow radix2 (b - 20)) by (apply Rmult_le_compat_r; [lra |]; apply Rmult_le_compat; lra).
    assert (F := class_var_full fexp fln LM G d b hi x h0 h ltac:(lia) HG B1 ltac:(lia) N1 U Fx1 Fs Rg ltac:(lia) B6 E). assert (Fw := class_var_windowed fexp fln LM G d b hi x h0 h ltac:(lia) HG B1 ltac:(lia) U W Fx1 Fs Rg ltac:(lia) B6 E).
    cbv zeta in F, Fw. unfold mass, heard, hc_n in *. rewrite Ep, A0, A1, !rs_rsum.
    destruct (hp_est (hc_par h0)) eqn:Est; [specialize (F eq_refl); lra | intros H2 Hh; specialize (Fw eq_refl H2 Hh); lra | exact (Z eq_refl)]. }
  split; [exact Main |]. intros Es. destruct (O Es) as (h & I & _ & Ev). exists h. split; [exact I |]. split; [exact Ev |]. split; [exact (Main _ h I) |]. rewrite Ev. exact (proj1 (Main _ h I)).
Qed.
Print Assumptions C105_variances.

(** *** A concrete case: two classes of two states, with one input and one output. *)
Module HH.
  Import Props_Float2.Ex.
  Local Open Scope Q_scope.
  Definition k (mean out : Q) : gauss A := mkGauss (A := A) true 2 1 1 None Diagonal [d mean; d out] [d 1; d 1] [d 1; d 1] (d 1) [d 1] (d 1) [d 1] None.
  Definition st (a o : Q) : gclass A := mkGC (A := A) true 2 1 1 (mkGmmP (A := A) 1 (d (1 # 100)) (d (1 # 100)) Diagonal) [d 1] [k a o] [d 0] [d 0; d 0]
    (mkRing [[d 0]] 1 0 false) (d 0) (d 0) [] [].
  Definition cl (est : restim) (a o b p : Q) : hclass A := mkHC (A := A) true 2 1 8 (mkHmmP (A := A) 2 1 (d (1 # 100)) (d (1 # 100)) Diagonal LeftRight est true) true
    (mkNet (A := A) [st a o; st b p] [] [d (1 # 2); d (1 # 2); d 1; d 0] [d 0; d (1 # 10)])
    (mkRun (A := A) [] z2 z2 z2 false (mkRing [repeat (d 0) 8] 8 0 false) (d 0) (d 0) (d 0) (d 0) (d 0) 0 0 0 (d 0) [] []).
  Definition m (re : restimator) (est : restim) : hhmm A := mkHH (A := A) true 2 1 8 re Diagonal true (fun _ => hmmP_new) h2 [h2; h2] [d (1 # 10); d (1 # 10)]
    [("a"%string, cl est 100 (1 # 4) 200 (1 # 2)); ("b"%string, cl est (-100) (1 # 2) (-200) (1 # 2))] z2 z2 false (mkRes (A := A) z2 z2 z2 z2 z2 ""%string [] []).
  Definition shown (n : nat) (m : hhmm A) : option (list (list f64) * list f64) :=
    match hh_filters_with (A := A) as_single (firstn n frames) m with Ok m' => Some (map (fun e : string * hclass A => h_out (hc_run (snd e))) (hh_cls m'), rs_out (hh_res m')) | _ => None end.
  Definition varied (n : nat) (m : hhmm A) : option (list (list f64) * list f64) :=
    match hh_filters_with (A := A) as_single (firstn n frames) m with Ok m' => Some (map (fun e : string * hclass A => h_ocov (hc_run (snd e))) (hh_cls m'), rs_ocov (hh_res m')) | _ => None end.
  (** The likelihood windows of the two classes after all the frames. *)
  Definition wa : list f64 := [d (- 80); S754_infinity true; S754_infinity true; d (- 80); d 0; d 0].
  Definition wb : list f64 := [d 0; d 0; d 0; d 0; d (- 80); S754_infinity true].
  Local Open Scope R_scope.

  Lemma dq : num_in (/ 4) (/ 4) (d (1 # 4)).
  Proof. split; [vm_compute; reflexivity |]. split; [vm_compute; reflexivity |]. rewrite (val _ false 4503599627370496 (-54)) by (vm_compute; reflexivity). cbn. lra. Qed.
  Lemma w_ok : (Forall log_f64 wa /\ In (S754_infinity true) wa) /\ (Forall log_f64 wb /\ In (S754_infinity true) wb).
  Proof.
    assert (P : 80 <= bpow radix2 900) by (apply Rle_trans with (bpow radix2 7); [cbn; lra | apply bpow_le; lia]).
    assert (X0 : log_f64 (d 0)) by (left; eapply weak; [apply d0 | lra | lra]). assert (X8 : log_f64 (d (- 80))) by (left; eapply weak; [apply d80 | lra | lra]). assert (Xi : log_f64 (S754_infinity true)) by (right; reflexivity).
    split; (split; [repeat (constructor; [assumption |]); constructor | unfold wa, wb; cbn [In]; auto 10]).
  Qed.
  Lemma st_ok a o : is_f64 (d a) -> is_f64 (d o) -> state_flat (st a o).
  Proof.
    intros Ha Ho. assert (W : num_in 0 1 (d 1)) by (eapply weak; [apply d1 | lra | lra]). assert (I : not_negative (d 1)) by (destruct d1 as (V & N & B); right; split; [exact V | right; split; [exact N | lra]]).
    assert (B1 : forall e, (e <= 0)%Z -> bpow radix2 e <= fval (d 1)) by (intros e He; destruct d1 as (_ & _ & B); apply Rle_trans with (bpow radix2 0); [apply bpow_le; exact He | apply B]).
    split; [split; [split; [split; [reflexivity | split; [constructor; [exact W | constructor] |]] |] |] |].
    - exists (d 1). split; [now left | apply B1; lia].
    - constructor; [| constructor]. repeat split; repeat constructor; auto; vm_compute; reflexivity.
    - split; [constructor; [split; [reflexivity | constructor; [exact I | constructor; [exact I | constructor]]] | constructor] | cbn; lia].
    - exists (d 1). split; [now left | apply B1; lia].
  Qed.
  Lemma cl_ok est a o b p : is_f64 (d a) -> is_f64 (d o) -> is_f64 (d b) -> is_f64 (d p) -> class_left_right (cl est a o b p) /\ Forall state_flat (h_states (hc_net (cl est a o b p))).
  Proof.
    intros Ha Ho Hb Hp. assert (F : Forall state_flat (h_states (hc_net (cl est a o b p)))) by (constructor; [now apply st_ok | constructor; [now apply st_ok | constructor]]). split; [| exact F].
    split; [reflexivity |]. split; [cbn; lia |]. split; [eapply Forall_impl; [| exact F]; intros g G; apply G |].
    assert (X1 : num_in 0 1 (d 1)) by (eapply weak; [apply d1 | lra | lra]). assert (Xh : num_in 0 1 (d (1 # 2))) by (eapply weak; [apply dh | lra | lra]). assert (X0 : num_in 0 1 (d 0)) by (eapply weak; [apply d0 | lra | lra]).
    split; [intros [| [| [| [| i]]]] Hi; [exact Xh | exact Xh | exact X1 | exact X0 | cbn in Hi; lia] |].
    assert (S : bpow radix2 (-20) <= / 2) by (change (/ 2) with (bpow radix2 (-1)); apply bpow_le; lia).
    split; [intros [| [| i]] Hi; [eapply weak; [apply d0 | lra | lra] | eapply weak; [apply dt | lra | lra] | cbn in Hi; lia] |].
    intros [| [| i]] Hi; [left; apply big; eapply weak; [apply dh | lra | lra] | left; apply big; eapply weak; [apply d1 | lra | lra] | cbn in Hi; lia].
  Qed.
  Lemma m_ok re est : hpredicts 2 1 (m re est) /\ Forall (fun e => state_means_in 0 (/ 4) (/ 2) (snd e)) (hh_cls (m re est)).
  Proof.
    assert (Xh : num_in 0 1 (d (1 # 2))) by (eapply weak; [apply dh | lra | lra]). assert (Xt : num_in 0 1 (d (1 # 10))) by (eapply weak; [apply dt | lra | lra]).
    assert (Ph : num_in (bpow radix2 (-100)) 1 (d (1 # 2))). { destruct dh as (V & N & B). split; [exact V |]. split; [exact N |]. split; [apply big; eapply weak; [apply dh | lra | lra] | lra]. }
    destruct (cl_ok est 100 (1 # 4) 200 (1 # 2)) as (C1 & S1); [vm_compute; reflexivity .. |]. destruct (cl_ok est (-100) (1 # 2) (-200) (1 # 2)) as (C2 & S2); [vm_compute; reflexivity .. |].
    assert (Q1 : num_in (/ 4) (/ 2) (d (1 # 4))) by (eapply weak; [apply dq | lra | lra]). assert (Q2 : num_in (/ 4) (/ 2) (d (1 # 2))) by (eapply weak; [apply dh | lra | lra]).
    split.
    - split; [cbn; lia |]. split; [cbn; lia |]. split; [| split; [reflexivity |]; split; [reflexivity |]].
      + split; [reflexivity |]. split; [discriminate |]. split; [cbn; lia |]. split; [constructor; [exact C1 | constructor; [exact C2 | constructor]] |].
        split; [intros [| [| i]] Hi; [split; [exact Ph | exact Xt] | split; [exact Ph | exact Xt] | cbn in Hi; lia] |].
        intros [| [| i]] [| [| j]] Hi Hj; try (cbn in Hi, Hj; lia); exact Xh.
      + constructor; [| constructor; [| constructor]]; (split; [reflexivity |]; split; [assumption |]; split; [reflexivity |]; split; [reflexivity |]; split; [reflexivity |]; split; [cbn; lia |]); (constructor; [| constructor; [| constructor]]); (split; [reflexivity |]; split; [reflexivity | cbn; lia]).
    - constructor; [| constructor; [| constructor]]; (constructor; [| constructor; [| constructor]]); (constructor; [split; [reflexivity |] | constructor]); assumption.
  Qed.
End HH.

Example C105_classes_meets : libm_f64 Props_Float2.Ex.exp0 Props_Float2.Ex.ln0 /\ Forall frame_f64 Props_Float2.Ex.frames /\ range_in 0 (/ 4) (/ 2) /\
  (forall re est, hpredicts 2 1 (HH.m re est) /\ Forall (fun e => state_means_in 0 (/ 4) (/ 2) (snd e)) (hh_cls (HH.m re est))) /\
  HH.shown 2 (HH.m Mixture RFull) = Some ([[Props_Float2.Ex.d 0]; [Props_Float2.Ex.d (1 # 2)]], [Props_Float2.Ex.d (1 # 2)]) /\
  HH.shown 4 (HH.m Mixture RWindowed) = Some ([[Props_Float2.Ex.d (1 # 4)]; [Props_Float2.Ex.d (1 # 2)]], [Props_Float2.Ex.d (1 # 2)]).
Proof.
  split; [exact Props_Float2.Ex.libm |]. split; [repeat constructor; vm_compute; reflexivity |]. split; [split; cbn; lra |]. split; [exact HH.m_ok |]. split; vm_compute; reflexivity.
Qed.
(** The second class is heard after four frames. *)
Example C105_classes_heard : exists m' h, hh_filters_with (A := Props_Float2.Ex.A) as_single (firstn 4 Props_Float2.Ex.frames) (HH.m Mixture RWindowed) = Ok m' /\ In ("b"%string, h) (hh_cls m') /\ hc_n h = 2%nat /\ heard h.
Proof.
  set (chk := fun x y : f64 => valid_binary fprec femax x && is_num x && SFleb (Props_Float2.Ex.d (1 # 2)) x && valid_binary fprec femax y && is_num y && SFleb (S754_zero false) y).
  assert (Q : match hh_filters_with (A := Props_Float2.Ex.A) as_single (firstn 4 Props_Float2.Ex.frames) (HH.m Mixture RWindowed) with
    | Ok m' => map (fun e : string * hclass Props_Float2.Ex.A => (fst e, hc_n (snd e), chk (ent (h_a0 (hc_run (snd e))) 1) (ent (h_a1 (hc_run (snd e))) 1))) (hh_cls m')
    | _ => [] end = [("a"%string, 2%nat, false); ("b"%string, 2%nat, true)]) by (vm_compute; reflexivity).
  revert Q. generalize (hh_filters_with (A := Props_Float2.Ex.A) as_single (firstn 4 Props_Float2.Ex.frames) (HH.m Mixture RWindowed)). intros [m' | |] Q; [| discriminate ..].
  assert (I : In ("b"%string, 2%nat, true) (map (fun e : string * hclass Props_Float2.Ex.A => (fst e, hc_n (snd e), chk (ent (h_a0 (hc_run (snd e))) 1) (ent (h_a1 (hc_run (snd e))) 1))) (hh_cls m'))) by (rewrite Q; cbn; auto).
  apply in_map_iff in I. destruct I as ((l & h) & E & I). cbn [fst snd] in E. injection E as -> En Ec. exists m', h. split; [reflexivity |]. split; [exact I |]. split; [exact En |]. exists 1%nat. split; [exact (eq_ind_r (fun n => (1 < n)%nat) (le_n 2) En) |].
  unfold chk in Ec. repeat (apply andb_true_iff in Ec; destruct Ec as (Ec & ?)).
  assert (B : bpow radix2 (-33) <= / 2) by (change (/ 2) with (bpow radix2 (-1)); apply bpow_le; lia). destruct Props_Float2.Ex.dh as (Vd & Nd & Bd).
  rewrite leb_num in * by (assumption || reflexivity). destruct (Rle_bool_spec (fval (Props_Float2.Ex.d (1 # 2))) (fval (ent (h_a0 (hc_run h)) 1))) as [X1 | X1]; [| discriminate].
  destruct (Rle_bool_spec (fval (S754_zero false)) (fval (ent (h_a1 (hc_run h)) 1))) as [X2 | X2]; [| discriminate]. change (fval (S754_zero false)) with 0 in X2. change (Arith.num Props_Float2.Ex.A) with f64 in *.
  apply Rle_trans with (fval (ent (h_a0 (hc_run h)) 1) + 0); [lra | exact (Rplus_le_compat_l _ _ _ X2)].
Qed.
(** The class that was not heard has a variance of 0. *)
Example C105_variances_meets : (forall re est, Forall (fun e => state_variances_in 0 1 (snd e)) (hh_cls (HH.m re est))) /\
  HH.varied 2 (HH.m Likeliest RFull) = Some ([[Props_Float2.Ex.d 0]; [Props_Float2.Ex.d 1]], [Props_Float2.Ex.d 1]) /\
  HH.varied 2 (HH.m Likeliest RLikeliest) = Some ([[Props_Float2.Ex.d 0]; [Props_Float2.Ex.d 0]], [Props_Float2.Ex.d 0]).
Proof.
  split; [| split; vm_compute; reflexivity]. intros re est. assert (Q : num_in 0 1 (Props_Float2.Ex.d 1)) by (eapply Props_Float2.Ex.weak; [apply Props_Float2.Ex.d1 | lra | lra]).
  constructor; [| constructor; [| constructor]]; (split; [reflexivity |]); (constructor; [| constructor; [| constructor]]); (split; [reflexivity |]); (constructor; [exact Q | constructor]).
Qed.
Example C105_likeliest_meets : hh_est (HH.m Likeliest RLikeliest) = Likeliest /\
  HH.shown 5 (HH.m Likeliest RLikeliest) = Some ([[Props_Float2.Ex.d (1 # 4)]; [Props_Float2.Ex.d (1 # 2)]], [Props_Float2.Ex.d (1 # 2)]).
Proof. split; [reflexivity | vm_compute; reflexivity]. Qed.
(** Both classes have had a frame of likelihood 0. *)
Example C105_mixture_refuted_meets : Props_Float2.Ex.exp0 (S754_infinity true) = S754_zero false /\ (forall est, hpredicts 2 1 (HH.m Mixture est)) /\
  exists m', hh_filters_with (A := Props_Float2.Ex.A) as_single Props_Float2.Ex.frames (HH.m Mixture RWindowed) = Ok m' /\
    Forall (fun e : string * hclass Props_Float2.Ex.A => null_window (h_buf (hc_run (snd e)))) (hh_cls m') /\ rs_out (hh_res m') = [S754_nan].
Proof.
  split; [reflexivity |]. split; [intros est; apply HH.m_ok |].
  assert (Q : match hh_filters_with (A := Props_Float2.Ex.A) as_single Props_Float2.Ex.frames (HH.m Mixture RWindowed) with
    | Ok m' => Some (map (fun e : string * hclass Props_Float2.Ex.A => (ring_size_t (h_buf (hc_run (snd e))), window_entries (h_buf (hc_run (snd e))))) (hh_cls m'), rs_out (hh_res m'))
    | _ => None end = Some ([(6%nat, HH.wa); (6%nat, HH.wb)], [S754_nan])) by (vm_compute; reflexivity).
  revert Q. generalize (hh_filters_with (A := Props_Float2.Ex.A) as_single Props_Float2.Ex.frames (HH.m Mixture RWindowed)). intros [m' | |] Q; [| discriminate ..]. injection Q as Q1 Q2.
  exists m'. split; [reflexivity |]. split; [| exact Q2]. apply Forall_forall. intros e I0.
  assert (I : In (ring_size_t (h_buf (hc_run (snd e))), window_entries (h_buf (hc_run (snd e)))) [(6%nat, HH.wa); (6%nat, HH.wb)]) by (rewrite <- Q1; exact (in_map (fun e : string * hclass Props_Float2.Ex.A => (ring_size_t (h_buf (hc_run (snd e))), window_entries (h_buf (hc_run (snd e))))) _ _ I0)).
  destruct HH.w_ok as (W1 & W2). destruct I as [I | [I | []]]; injection I as I1 I2; unfold null_window; rewrite <- I1, <- I2; (split; [cbn; lia |]); assumption.
Qed.

(** The output of the model need not be near what was learned: the class that is the likeliest over the last
    frames may have no part of the forward mass at the last one, and then its output is 0. *)
Theorem C105_learned_refuted : ~ (forall fexp fln N G d b lo hi (m m' : hhmm (FA fexp fln)) xs x, libm_f64 fexp fln -> hpredicts N G m -> (hh_din m + d < hh_dim m)%nat ->
  (0 <= b <= 77)%Z -> range_in b lo hi -> Forall (fun e => state_means_in d lo hi (snd e)) (hh_cls m) -> Forall frame_f64 (xs ++ [x]) -> hh_est m = Likeliest ->
  hh_filters_with (A := FA fexp fln) as_single (xs ++ [x]) m = Ok m' -> near lo hi (INR G * bpow radix2 (b - 20)) (ent (rs_out (hh_res m')) d)).
Proof.
  intros H. destruct (HH.m_ok Likeliest RFull) as (M1 & M2).
  assert (E : match hh_filters_with (A := Props_Float2.Ex.A) as_single (firstn 5 Props_Float2.Ex.frames) (HH.m Likeliest RFull) with Ok m' => Some (rs_out (hh_res m')) | _ => None end = Some [S754_zero false]) by (vm_compute; reflexivity).
  assert (R : exists m', hh_filters_with (A := Props_Float2.Ex.A) as_single (firstn 5 Props_Float2.Ex.frames) (HH.m Likeliest RFull) = Ok m' /\ rs_out (hh_res m') = [S754_zero false]).
  { revert E. generalize (hh_filters_with (A := Props_Float2.Ex.A) as_single (firstn 5 Props_Float2.Ex.frames) (HH.m Likeliest RFull)). intros [m' | |] E; [| discriminate ..]. injection E as E. exists m'. auto. }
  clear E. destruct R as (m' & R & E). change (firstn 5 Props_Float2.Ex.frames) with (firstn 4 Props_Float2.Ex.frames ++ [[Props_Float2.Ex.d 100]]) in R.
  destruct (H _ _ 2%nat 1%nat 0%nat 0%Z (/ 4) (/ 2) (HH.m Likeliest RFull) m' (firstn 4 Props_Float2.Ex.frames) [Props_Float2.Ex.d 100] Props_Float2.Ex.libm M1 ltac:(cbn; lia) ltac:(lia) ltac:(split; cbn; lra) M2 ltac:(repeat constructor; vm_compute; reflexivity) eq_refl R) as (_ & _ & B & _).
  assert (B' : / 4 - INR 1 * bpow radix2 (0 - 20) <= fval (ent [S754_zero false] 0)) by (rewrite <- E; exact B).
  assert (X : bpow radix2 (0 - 20) <= / 8) by (change (/ 8) with (bpow radix2 (-3)); apply bpow_le; lia). change (fval (ent [S754_zero false] 0)) with 0 in B'. cbn [INR] in B'. lra.
Qed.
Print Assumptions C105_learned_refuted.
