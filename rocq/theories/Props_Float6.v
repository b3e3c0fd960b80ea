(** C100: regression with hidden Markov models, without the hierarchical mode, in double precision. *)
From Coq Require Import String ZArith QArith Reals Lra Lia Bool List Arith.
From Coq Require Import Floats.SpecFloat.
From Flocq Require Import Core.Core.
From Verif Require Import Base BaseFacts Arith Model_Ring Model_Gaussian Model_Config Model_KMeans Model_GMM Model_HMM Model_HHMM Model_Single Model_Single2 Model_Single3 Model_Single4 Spec_Float Spec_Float2 Spec_Float3 Spec_Float4 Spec_Float6 Spec_Float7.
From Verif Require Import Proofs_Float4 Proofs_Float16 Proofs_Float17 Proofs_Float27 Proofs_Float31 Proofs_Float32 Proofs_Float33 Proofs_Float34 Props_Float Props_Float4 Props_Float5.
From Verif Require Props_Float2 Props_Float3.
Import ListNotations.
Local Open Scope R_scope.

Lemma predicts_set fexp fln N G (m : hhmm (FA fexp fln)) (Q : gclass (FA fexp fln) -> Prop) : predicts N G m -> Forall (fun e => Forall Q (h_states (hc_net (snd e)))) (hh_cls m) ->
  Forall (fun e => set fexp fln (fun g => state_reg fexp fln G (hh_dim m) (hh_din m) g /\ Q g) (snd e) /\ shape fexp fln N m (snd e)) (hh_cls m).
Proof.
  intros (_ & _ & _ & (_ & _ & _ & F) & _ & R) FQ. apply Forall_forall. intros e I. destruct (proj1 (Forall_forall _ _) R e I) as (St & _ & R2 & R3 & R4 & R5). assert (C := proj1 (Forall_forall _ _) F e I). assert (HQ := proj1 (Forall_forall _ _) FQ e I). cbv beta in C, HQ.
  split; [split; [split; [exact C | intros S; exfalso; exact (Bool.diff_true_false (eq_trans (eq_sym S) St))] |] |].
  - apply Forall_forall. intros g Ig. destruct C as (_ & _ & _ & Fs & _). destruct (proj1 (Forall_forall _ _) R5 g Ig) as (D1 & D2 & D3). split; [split; [exact (proj1 (Forall_forall _ _) Fs g Ig) | auto] | exact (proj1 (Forall_forall _ _) HQ g Ig)].
  - split; [exact R2 |]. split; [exact R3 | exact R4].
Qed.

(** After any frames of any doubles (NaN and infinities included), with Diagonal covariances: each output of the
    model and of every class is between the means of the components, up to the rounding to single precision. *)
Theorem C100_outputs : forall fexp fln b lo hi N G d (m m' : hhmm (FA fexp fln)) xs x, libm_f64 fexp fln -> (-100 <= b <= 98)%Z -> predicts N G m -> (hh_din m + d < hh_dim m)%nat ->
  Forall (fun e => window_some (snd e) /\ state_means_in d lo hi (snd e)) (hh_cls m) -> range_in b lo hi -> Forall frame_f64 (xs ++ [x]) -> hh_filters_with (A := FA fexp fln) as_single (xs ++ [x]) m = Ok m' ->
  let u := bpow radix2 (b - 20) in
  (forall l h, In (l, h) (hh_cls m') -> near lo hi ((INR G + 2 * INR N) * u) (ent (h_out (hc_run h)) d)) /\
  near lo hi ((INR G + 2 * INR N + 3 * INR (hh_size m)) * u) (ent (rs_out (hh_res m')) d).
Proof.
  intros fexp fln b lo hi N G d m m' xs x LM Hb Pr Hd HW Hr Fx H. cbv zeta.
  assert (S := predicts_set fexp fln N G m (fun g => means_in d lo hi g) Pr ltac:(eapply Forall_impl; [| exact HW]; intros e (_ & Q); exact Q)). destruct Pr as (HN & HG & Hs & (M1 & M2 & M3 & M4) & Bi & R).
  set (P := fun g => state_reg fexp fln G (hh_dim m) (hh_din m) g /\ means_in d lo hi g) in *.
  assert (PK : forall g g', kept fexp fln g g' -> P g -> P g') by (intros g g' K (P1 & P2); split; [eapply state_reg_kept; eauto | eapply (Proofs_Float31.means_kept fexp fln); eauto]).
  destruct (hwith_seq fexp fln LM P xs x PK (fun g p => proj1 (proj1 p)) m m' M1 M2 M3 ltac:(eapply Forall_impl; [| exact S]; intros e (Q & _); exact Q) Fx H) as (m0 & Q1 & Q2 & Q3 & Q4 & Q5 & (Q6 & Q7 & Q8 & Q9) & Q10 & Q11).
  assert (S0 : Forall (fun e => set fexp fln P (snd e) /\ shape fexp fln N m0 (snd e)) (hh_cls m0)).
  { apply Forall_forall. intros e0 I0. split; [exact (proj1 (Forall_forall _ _) Q4 e0 I0) |]. destruct (Q10 e0 I0) as (e & I & K). eapply shape_kept; [exact Q7 | exact Q8 | exact K |]. apply (proj1 (Forall_forall _ _) S e I). }
  assert (W0 : Forall (fun e => window_some (snd e)) (hh_cls m0)) by (apply Forall_forall; intros e0 I0; destruct (Q10 e0 I0) as (e & I & K); eapply some_kept; [exact K |]; apply (proj1 (Forall_forall _ _) HW e I)).
  assert (PS : forall g, P g -> state_reg fexp fln G (hh_dim m0) (hh_din m0) g) by (rewrite Q7, Q8; intros g p; exact (proj1 p)).
  assert (Hs0 : (Z.of_nat (hh_size m0) <= 2 ^ 20)%Z) by (rewrite Q3; exact Hs). assert (Bi0 := eq_trans Q6 Bi). assert (Hd0 : (hh_din m0 + d < hh_dim m0)%nat) by (rewrite Q7, Q8; exact Hd).
  split.
  - intros l h I. exact (class_near fexp fln LM P N G d m0 m' x PK PS Q1 Q2 Hs0 HN HG S0 Q5 Bi0 Hd0 Q11 b lo hi Hb (fun g p => proj2 p) W0 Hr (l, h) I).
  - rewrite <- Q3. exact (hmodel_out fexp fln LM P N G d m0 m' x PK PS Q1 Q2 Hs0 HN HG S0 Q5 Bi0 Hd0 Q11 b lo hi Hb (fun g p => proj2 p) W0 Hr).
Qed.
Print Assumptions C100_outputs.

(** Each output variance is a number between 0 and the largest one of the components, up to the same rounding. *)
Theorem C100_variances : forall fexp fln b hi N G d (m m' : hhmm (FA fexp fln)) xs x, libm_f64 fexp fln -> (-100 <= b <= 98)%Z -> predicts N G m -> (hh_din m + d < hh_dim m)%nat ->
  hh_cmode m = Diagonal -> Forall (fun e => state_variances_in d hi (snd e)) (hh_cls m) -> 0 <= hi <= bpow radix2 b -> Forall frame_f64 (xs ++ [x]) -> hh_filters_with (A := FA fexp fln) as_single (xs ++ [x]) m = Ok m' ->
  let u := bpow radix2 (b - 20) in
  (forall l h, In (l, h) (hh_cls m') -> num_in 0 (hi + (INR G + 2 * INR N) * u) (ent (h_ocov (hc_run h)) d)) /\
  num_in 0 (hi + (INR G + 2 * INR N + 3 * INR (hh_size m)) * u) (ent (rs_ocov (hh_res m')) d).
Proof.
  intros fexp fln b hi N G d m m' xs x LM Hb Pr Hd Hc HW Hr Fx H. cbv zeta.
  assert (S := predicts_set fexp fln N G m (fun g => variances_in d hi g) Pr ltac:(eapply Forall_impl; [| exact HW]; intros e (_ & Q); exact Q)). destruct Pr as (HN & HG & Hs & (M1 & M2 & M3 & M4) & Bi & R).
  set (P := fun g => state_reg fexp fln G (hh_dim m) (hh_din m) g /\ variances_in d hi g) in *.
  assert (PK : forall g g', kept fexp fln g g' -> P g -> P g') by (intros g g' K (P1 & P2); split; [eapply state_reg_kept; eauto | eapply (vars_kept fexp fln); eauto]).
  destruct (hwith_seq fexp fln LM P xs x PK (fun g p => proj1 (proj1 p)) m m' M1 M2 M3 ltac:(eapply Forall_impl; [| exact S]; intros e (Q & _); exact Q) Fx H) as (m0 & Q1 & Q2 & Q3 & Q4 & Q5 & (Q6 & Q7 & Q8 & Q9) & Q10 & Q11).
  assert (S0 : Forall (fun e => set fexp fln P (snd e) /\ shape fexp fln N m0 (snd e)) (hh_cls m0)).
  { apply Forall_forall. intros e0 I0. split; [exact (proj1 (Forall_forall _ _) Q4 e0 I0) |]. destruct (Q10 e0 I0) as (e & I & K). eapply shape_kept; [exact Q7 | exact Q8 | exact K |]. apply (proj1 (Forall_forall _ _) S e I). }
  assert (W0 : Forall (fun e => hp_mode (hc_par (snd e)) = Diagonal) (hh_cls m0)).
  { apply Forall_forall; intros e0 I0; destruct (Q10 e0 I0) as (e & I & K). destruct K as (_ & _ & _ & _ & K5 & _). rewrite K5. apply (proj1 (Forall_forall _ _) HW e I). }
  assert (PS : forall g, P g -> state_reg fexp fln G (hh_dim m0) (hh_din m0) g) by (rewrite Q7, Q8; intros g p; exact (proj1 p)).
  assert (Hs0 : (Z.of_nat (hh_size m0) <= 2 ^ 20)%Z) by (rewrite Q3; exact Hs). assert (Bi0 := eq_trans Q6 Bi). assert (Hd0 : (hh_din m0 + d < hh_dim m0)%nat) by (rewrite Q7, Q8; exact Hd).
  split.
  - intros l h I. exact (class_var fexp fln LM P N G d m0 m' x PK PS Q1 Q2 Hs0 HN HG S0 Q5 Bi0 Hd0 Q11 b hi Hb (fun g p => proj2 p) W0 Hr (l, h) I).
  - rewrite <- Q3. exact (hmodel_cov fexp fln LM P N G d m0 m' x PK PS Q1 Q2 Hs0 HN HG S0 Q5 Bi0 Hd0 Q11 b hi Hb (eq_trans Q9 Hc) (fun g p => proj2 p) W0 Hr).
Qed.
Print Assumptions C100_variances.

(** With the windowed estimator and classes of one state, the outputs are 0 whatever was learned: the window is
    the [states / 2] states on each side of the likeliest one, and excludes its upper bound. *)
Theorem C100_one_state_refuted : forall fexp fln N G d (m m' : hhmm (FA fexp fln)) xs x, libm_f64 fexp fln -> predicts N G m -> (hh_din m + d < hh_dim m)%nat ->
  Forall (fun e => window_none (snd e)) (hh_cls m) -> Forall frame_f64 (xs ++ [x]) -> hh_filters_with (A := FA fexp fln) as_single (xs ++ [x]) m = Ok m' ->
  (forall l h, In (l, h) (hh_cls m') -> ent (h_out (hc_run h)) d = S754_zero false) /\ ent (rs_out (hh_res m')) d = S754_zero false.
Proof.
  intros fexp fln N G d m m' xs x LM Pr Hd HW Fx H.
  assert (S := predicts_set fexp fln N G m (fun g => True) Pr ltac:(apply Forall_forall; intros e _; apply Forall_forall; auto)). destruct Pr as (HN & HG & Hs & (M1 & M2 & M3 & M4) & Bi & R).
  set (P := fun g => state_reg fexp fln G (hh_dim m) (hh_din m) g /\ True) in *.
  assert (PK : forall g g', kept fexp fln g g' -> P g -> P g') by (intros g g' K (P1 & P2); split; [eapply state_reg_kept; eauto | exact P2]).
  destruct (hwith_seq fexp fln LM P xs x PK (fun g p => proj1 (proj1 p)) m m' M1 M2 M3 ltac:(eapply Forall_impl; [| exact S]; intros e (Q & _); exact Q) Fx H) as (m0 & Q1 & Q2 & Q3 & Q4 & Q5 & (Q6 & Q7 & Q8 & Q9) & Q10 & Q11).
  assert (S0 : Forall (fun e => set fexp fln P (snd e) /\ shape fexp fln N m0 (snd e)) (hh_cls m0)).
  { apply Forall_forall. intros e0 I0. split; [exact (proj1 (Forall_forall _ _) Q4 e0 I0) |]. destruct (Q10 e0 I0) as (e & I & K). eapply shape_kept; [exact Q7 | exact Q8 | exact K |]. apply (proj1 (Forall_forall _ _) S e I). }
  assert (W0 : Forall (fun e => window_none (snd e)) (hh_cls m0)) by (apply Forall_forall; intros e0 I0; destruct (Q10 e0 I0) as (e & I & K); eapply none_kept; [exact K |]; apply (proj1 (Forall_forall _ _) HW e I)).
  assert (PS : forall g, P g -> state_reg fexp fln G (hh_dim m0) (hh_din m0) g) by (rewrite Q7, Q8; intros g p; exact (proj1 p)).
  assert (Hs0 : (Z.of_nat (hh_size m0) <= 2 ^ 20)%Z) by (rewrite Q3; exact Hs). assert (Bi0 := eq_trans Q6 Bi). assert (Hd0 : (hh_din m0 + d < hh_dim m0)%nat) by (rewrite Q7, Q8; exact Hd).
  split.
  - intros l h I. change h with (snd (l, h)). eapply (class_zero fexp fln LM P N G d m0 m' x); eassumption.
  - eapply (hmodel_zero fexp fln LM P N G d m0 m' x); eassumption.
Qed.
Print Assumptions C100_one_state_refuted.

(** *** Concrete cases: a left-right class and an ergodic one, of two states of two components, or of one state. *)
Module HReg.
  Import Props_Float.Ex.
  Import Props_Float4.Train.
  Import Props_Float5.Reg.
  Local Open Scope Q_scope.
  Definition hc (est : restim) (mode : tmode) (ss : list (gclass A)) (pr tr : list Q) : hclass A :=
    mkHC (A := A) true 2 1 8 (mkHmmP (A := A) (length ss) 2 (d (1 # 100)) (d (1 # 100)) Diagonal mode est true) false
      (mkNet (A := A) ss (map d pr) (map d tr) []) (mkRun (A := A) (map (fun _ => d 0) ss) [] [] [] false (mkRing [repeat (d 0) 8] 8 0 false) (d 0) (d 0) (d 0) (d 0) (d 0) 0 0 0 (d 0) [] []).
  Definition s1 : gclass A := c (1 # 2) (1 # 2) 0 (1 # 4) 4 (3 # 4).
  Definition s2 : gclass A := c (1 # 4) (3 # 4) 20 (3 # 4) 24 (1 # 2).
  Definition hm (re : restimator) (est : restim) : hhmm A := mkHH (A := A) true 2 1 8 re Diagonal false (fun _ => hmmP_new) z2 [z2; z2] z2
    [("a"%string, hc est LeftRight [s1; s2] [] [1 # 2; 1 # 2; 1; 0]); ("b"%string, hc est Ergodic [s2; s1] [1; 0] [1 # 2; 1 # 2; 0; 1])] z2 z2 false (mkRes (A := A) z2 z2 z2 z2 z2 ""%string [] []).
  Definition one (re : restimator) : hhmm A := mkHH (A := A) true 2 1 8 re Diagonal false (fun _ => hmmP_new) z2 [z2; z2] z2
    [("a"%string, hc RWindowed LeftRight [s1] [] [1; 0]); ("b"%string, hc RWindowed Ergodic [s2] [1] [1])] z2 z2 false (mkRes (A := A) z2 z2 z2 z2 z2 ""%string [] []).
  (** The outputs of the classes and of the model after some frames. *)
  Definition shown (xs : list (list f64)) (m : hhmm A) : option (list (list f64) * list f64) :=
    match hh_filters_with (A := A) as_single xs m with Ok m' => Some (map (fun e : string * hclass A => h_out (hc_run (snd e))) (hh_cls m'), rs_out (hh_res m')) | _ => None end.
  Definition far : list (list f64) := [[S754_nan]; [d 1000]; [d 1000]].
  Local Open Scope R_scope.

  Lemma s_ok : state_flat s1 /\ state_flat s2 /\ means_in 0 (/ 4) (3 / 4) s1 /\ means_in 0 (/ 4) (3 / 4) s2 /\ variances_in 0 (3 / 4) s1 /\ variances_in 0 (3 / 4) s2.
  Proof.
    destruct (m_ok Likeliest) as ((_ & D) & M & V). assert (I1 : In ("a"%string, s1) (gm_models (m Likeliest))) by now left. assert (I2 : In ("b"%string, s2) (gm_models (m Likeliest))) by (right; now left).
    assert (C : forall l g, In (l, g) (gm_models (m Likeliest)) -> state_diag g) by (intros l g I; destruct (proj1 (Forall_forall _ _) D _ I) as (E1 & E2 & E3 & _); split; [exact E1 | split; [exact E2 | exact E3]]).
    split; [split; [exact (C _ _ I1) |]; exists (d (1 # 2)); split; [now left |]; apply Rle_trans with (bpow radix2 (-1)); [apply bpow_le; lia | change (bpow radix2 (-1)) with (/ 2); apply dh] |].
    split; [split; [exact (C _ _ I2) |]; exists (d (1 # 4)); split; [now left |]; apply Rle_trans with (bpow radix2 (-2)); [apply bpow_le; lia | change (bpow radix2 (-2)) with (/ 4); apply dq] |].
    split; [exact (proj1 (Forall_forall _ _) M _ I1) |]. split; [exact (proj1 (Forall_forall _ _) M _ I2) |]. split; [exact (proj1 (Forall_forall _ _) V _ I1) | exact (proj1 (Forall_forall _ _) V _ I2)].
  Qed.
  Lemma flat_ok est mode ss pr tr : (1 <= length ss)%nat -> (Z.of_nat (length ss) < 2 ^ 32)%Z -> Forall state_flat ss -> transitions_f64 mode (length ss) (map d pr) (map d tr) -> class_flat (hc est mode ss pr tr).
  Proof. intros H1 H2 S T. split; [reflexivity |]. split; [exact H1 |]. split; [exact H2 |]. split; [exact S |]. split; [exact T |]. cbn. repeat split; lia. Qed.
  Lemma hm_ok re est : predicts 2 2 (hm re est).
  Proof.
    destruct s_ok as (F1 & F2 & _). split; [cbn; lia |]. split; [cbn; lia |]. split; [cbn; lia |]. split; [split; [reflexivity |]; split; [discriminate |]; split; [cbn; lia |] |].
    - constructor; [| constructor; [| constructor]]; apply flat_ok; try (cbn; lia); try (constructor; [assumption | constructor; [assumption | constructor]]).
      + split; [intros [| [| [| [| k]]]] Hk; [exact Props_Float3.Ex.nh | exact Props_Float3.Ex.nh | exact Props_Float3.Ex.n1' | exact Props_Float3.Ex.n0' | cbn in Hk; lia] |].
        intros [| [| k]] Hk; [left; exact Props_Float3.Ex.bh | left; exact Props_Float3.Ex.b1 | cbn in Hk; lia].
      + split; [intros [| [| k]] Hk; [exact Props_Float3.Ex.n1' | exact Props_Float3.Ex.n0' | cbn in Hk; lia] |]. split; [exists 0%nat; split; [cbn; lia | exact Props_Float3.Ex.b1] |]. split.
        * intros [| [| k]] [| [| j]] Hk Hj; cbn in Hk, Hj; try lia; [exact Props_Float3.Ex.nh | exact Props_Float3.Ex.nh | exact Props_Float3.Ex.n0' | exact Props_Float3.Ex.n1'].
        * intros [| [| k]] Hk; [exists 0%nat; split; [cbn; lia | exact Props_Float3.Ex.bh] | exists 1%nat; split; [cbn; lia | exact Props_Float3.Ex.b1] | cbn in Hk; lia].
    - split; [reflexivity |]. constructor; [| constructor; [| constructor]]; (split; [reflexivity |]; split; [reflexivity |]; split; [reflexivity |]; split; [reflexivity |]; split; [cbn; lia |]);
        (constructor; [| constructor; [| constructor]]); (split; [reflexivity |]; split; [reflexivity | cbn; lia]).
  Qed.
  Lemma one_ok re : predicts 1 2 (one re).
  Proof.
    destruct s_ok as (F1 & F2 & _). split; [cbn; lia |]. split; [cbn; lia |]. split; [cbn; lia |]. split; [split; [reflexivity |]; split; [discriminate |]; split; [cbn; lia |] |].
    - constructor; [| constructor; [| constructor]]; apply flat_ok; try (cbn; lia); try (constructor; [assumption | constructor]).
      + split; [intros [| [| k]] Hk; [exact Props_Float3.Ex.n1' | exact Props_Float3.Ex.n0' | cbn in Hk; lia] |]. intros [| k] Hk; [left; exact Props_Float3.Ex.b1 | cbn in Hk; lia].
      + split; [intros [| k] Hk; [exact Props_Float3.Ex.n1' | cbn in Hk; lia] |]. split; [exists 0%nat; split; [cbn; lia | exact Props_Float3.Ex.b1] |]. split.
        * intros [| k] [| j] Hk Hj; cbn in Hk, Hj; try lia; exact Props_Float3.Ex.n1'.
        * intros [| k] Hk; [exists 0%nat; split; [cbn; lia | exact Props_Float3.Ex.b1] | cbn in Hk; lia].
    - split; [reflexivity |]. constructor; [| constructor; [| constructor]]; (split; [reflexivity |]; split; [reflexivity |]; split; [reflexivity |]; split; [reflexivity |]; split; [cbn; lia |]);
        (constructor; [| constructor]); (split; [reflexivity |]; split; [reflexivity | cbn; lia]).
  Qed.
End HReg.

(** Frames with a NaN and an infinity, with every estimator of the classes and of the model. *)
Example C100_outputs_meets : libm_f64 Train.exp1 Ex.ln0 /\ Forall frame_f64 Reg.inputs /\ range_in 0 (/ 4) (3 / 4) /\
  (forall re est, predicts 2 2 (HReg.hm re est) /\ Forall (fun e => window_some (snd e) /\ state_means_in 0 (/ 4) (3 / 4) (snd e)) (hh_cls (HReg.hm re est))) /\
  (exists m', hh_filters_with (A := Train.A) as_single Reg.inputs (HReg.hm Mixture RWindowed) = Ok m') /\
  HReg.shown Reg.inputs (HReg.hm Mixture RFull) = Some ([[Ex.d (3 # 4)]; [Ex.d (3 # 4)]], [Ex.d (3 # 4)]) /\
  HReg.shown HReg.far (HReg.hm Mixture RFull) = Some ([[Ex.d (35 # 64)]; [Ex.d (33 # 64)]], [Ex.d (17 # 32)]) /\
  HReg.shown HReg.far (HReg.hm Likeliest RWindowed) = Some ([[Ex.d (35 # 64)]; [Ex.d (33 # 64)]], [Ex.d (35 # 64)]) /\
  HReg.shown HReg.far (HReg.hm Likeliest RLikeliest) = Some ([[Ex.d (9 # 16)]; [Ex.d (1 # 2)]], [Ex.d (9 # 16)]).
Proof.
  split; [exact Train.libm1 |]. split; [repeat constructor; vm_compute; reflexivity |]. split; [split; cbn; lra |].
  split; [intros re est; split; [apply HReg.hm_ok |]; destruct HReg.s_ok as (_ & _ & M1 & M2 & _); constructor; [| constructor; [| constructor]]; (split; [intros _; cbn; lia |]); (constructor; [assumption | constructor; [assumption | constructor]]) |].
  split; [| split; [vm_compute; reflexivity | split; [vm_compute; reflexivity | split; vm_compute; reflexivity]]].
  assert (Q : match hh_filters_with (A := Train.A) as_single Reg.inputs (HReg.hm Mixture RWindowed) with Ok _ => true | _ => false end = true) by (vm_compute; reflexivity).
  match type of Q with match ?t with _ => _ end = _ => destruct t as [m' | |] end; [now exists m' | discriminate Q | discriminate Q].
Qed.

Example C100_variances_meets : forall re est, predicts 2 2 (HReg.hm re est) /\ hh_cmode (HReg.hm re est) = Diagonal /\ Forall (fun e => state_variances_in 0 (3 / 4) (snd e)) (hh_cls (HReg.hm re est)).
Proof.
  intros re est. split; [apply HReg.hm_ok |]. split; [reflexivity |]. destruct HReg.s_ok as (_ & _ & _ & _ & V1 & V2). constructor; [| constructor; [| constructor]]; (split; [reflexivity |]); (constructor; [assumption | constructor; [assumption | constructor]]).
Qed.

(** All the learned outputs are at least 1/4, and the predicted ones are 0. *)
Example C100_one_state_refuted_meets : forall re, predicts 1 2 (HReg.one re) /\ Forall (fun e => window_none (snd e)) (hh_cls (HReg.one re)) /\ Forall (fun e => state_means_in 0 (/ 4) (3 / 4) (snd e)) (hh_cls (HReg.one re)) /\
  match hh_filters_with (A := Train.A) as_single Reg.inputs (HReg.one re) with Ok m' => Some (rs_out (hh_res m')) | _ => None end = Some [S754_zero false].
Proof.
  intros re. split; [apply HReg.one_ok |]. split; [constructor; [| constructor; [| constructor]]; split; reflexivity |]. destruct HReg.s_ok as (_ & _ & M1 & M2 & _).
  split; [constructor; [| constructor; [| constructor]]; (constructor; [assumption | constructor]) | destruct re; vm_compute; reflexivity].
Qed.
