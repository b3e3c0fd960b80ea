(** Concrete hierarchical models for the examples and counterexamples of Props_HHMM. *)
From Coq Require Import String List Bool Arith ZArith QArith Reals Lra Lia.
From Verif Require Import Base BaseFacts Arith RFacts Model_Map Model_Ring Model_Gaussian Model_Config Model_KMeans Model_GMM Model_HMM Model_HHMM
  Spec_Common Spec_Matrix Spec_Det Spec_Gaussian Spec_GMM Spec_HMM Spec_HHMM Spec_HHMM3 Spec_HHMM4
  Proofs_Ring Proofs_Gaussian Proofs_KMeans Proofs_GMM Proofs_HMM2 Proofs_HMM4 Proofs_HMM5 Proofs_HMM11 Proofs_HHMM Proofs_HHMM8.
Import ListNotations.
Local Open Scope list_scope.
Local Open Scope R_scope.

(** A normal distribution of variance 1 with mean [y]; if bimodal, one input with mean [y] and one output
    with mean [10 + y]. *)
Definition kx_gauss (bim : bool) (y : R) : gauss RA :=
  if bim then mkGauss (A := RA) true 2 2 1 (Some 1%nat) Diagonal [y; 10 + y] [1; 1] [1; 1] 1 [1] 1 [1] (Some 0%nat)
  else mkGauss (A := RA) false 1 1 0 (Some 0%nat) Full [y] [1] [1] 1 [] 1 [] (Some 0%nat).
Definition kx_dim (bim : bool) : nat := if bim then 2 else 1.
Definition kx_din (bim : bool) : nat := if bim then 1 else 0.
Definition kx_cm (bim : bool) : cmode := if bim then Diagonal else Full.
Definition kx_state (bim : bool) (y : R) : gclass RA :=
  mkGC (A := RA) bim (kx_dim bim) (kx_din bim) 2 (mkGmmP (A := RA) 1 0 1 (kx_cm bim)) [1] [kx_gauss bim y] [0] (if bim then [1; 1] else [1])
    (ring_new (0 : num RA) 1 1) 0 0 (if bim then [0] else []) (if bim then [0] else []).
Definition kx_par (bim : bool) (t : tmode) (e : restim) : hmmP RA := mkHmmP (A := RA) 2 1 0 1 (kx_cm bim) t e true.
(** Two states with means [y0] and [y1]; [u] is the instantaneous likelihood it holds. *)
Definition kx_class (bim : bool) (t : tmode) (e : restim) (flag : bool) (u y0 y1 : R) : hclass RA :=
  mkHC (A := RA) bim (kx_dim bim) (kx_din bim) 2 (kx_par bim t e) flag
    (mkNet (A := RA) [kx_state bim y0; kx_state bim y1] (match t with Ergodic => [/ 2; / 2] | LeftRight => [] end) (match t with Ergodic => [/ 2; / 2; / 2; / 2] | LeftRight => [/ 2; / 2; 1; 0] end) [0; / 10])
    (mkRun (A := RA) [0; 0] [] [] [] false (ring_new (0 : num RA) 1 2) u 0 0 0 0 0 0 0 0 [] []).
Definition kx_model (bim : bool) (est : restimator) (hier : bool) (cls : list (string * hclass RA)) : hhmm RA :=
  let n := length cls in
  mkHH (A := RA) bim (kx_dim bim) (kx_din bim) 2 est (kx_cm bim) hier (fun _ => kx_par bim LeftRight RFull)
    (repeat (/ INR n) n) (repeat (repeat (/ INR n) n) n) (repeat (/ 10) n) cls (repeat 0 n) (repeat 0 n) false
    (mkRes (A := RA) (repeat 0 n) (repeat 0 n) (repeat 0 n) (repeat 0 n) (repeat 0 n) EmptyString [] []).
(** A class of this kind. *)
Definition kx_ok (bim : bool) (P : tmode -> bool -> Prop) (h : hclass RA) : Prop := exists t e flag u y0 y1, h = kx_class bim t e flag u y0 y1 /\ 0 <= u /\ P t flag.

Lemma kx_ready : forall bim y, gm_ready (kx_state bim y).
Proof.
  intros bim y. split; [|split].
  - unfold gm_shape. split; [cbn; lia|]. do 3 (split; [reflexivity|]). destruct bim; repeat constructor; discriminate.
  - constructor; [|constructor]. destruct bim; unfold inverted.
    + assert (Z : forall i, (i < 2)%nat -> i = 0%nat \/ i = 1%nat) by (intros; lia).
      split; [intros i j Hi Hj; destruct (Z i Hi), (Z j Hj); subst; unfold mmul, gcov, ginv, stored, rcell, delta; cbn; split; lra|].
      split; [unfold gcov, stored, rcell; cbn; lra|]. split; [cbn; lra|]. intros _. split; [intros i j Hi Hj; cbn in Hi, Hj; assert (i = 0%nat) by lia; assert (j = 0%nat) by lia; subst; unfold mmul, gcov, ginv_in, stored, rcell, delta; cbn; split; lra|].
      split; [unfold gcov, stored, rcell; cbn; lra|]. split; [cbn; lra|]. split; [reflexivity|]. intros i j Hi Hj. cbn in Hi, Hj. assert (i = 0%nat) by lia. assert (j = 0%nat) by lia. subst. unfold gout, gcov, ginv_in, stored. cbn. lra.
    + split; [intros i j Hi Hj; cbn in Hi, Hj; assert (i = 0%nat) by lia; assert (j = 0%nat) by lia; subst; unfold mmul, gcov, ginv, stored, rcell, delta; cbn; split; lra|].
      split; [unfold gcov, stored, rcell; cbn; lra|]. split; [cbn; lra|]. discriminate.
  - split; [intros c Hc; assert (c = 0%nat) by (cbn in Hc; lia); subst; unfold weight; cbn; lra|]. unfold weight. cbn. lra.
Qed.

Lemma min_row_small : min_row <= 1.
Proof.
  unfold min_row. assert (1 <= 10 ^ 100) by (apply pow_R1_Rle; lra). apply Rmult_le_reg_l with (10 ^ 100); [lra|]. rewrite Rinv_r by lra. lra.
Qed.
Lemma kx_stochastic : forall bim t e flag u y0 y1, let h := kx_class bim t e flag u y0 y1 in stochastic (hc_n h) (hc_mode h) (h_trans (hc_net h)).
Proof.
  intros bim t e flag u y0 y1 h. unfold stochastic. destruct t; (split; [reflexivity|]); split;
    try (intros q; cbn; do 5 (destruct q; cbn; [lra|]); destruct q; cbn; lra); intros i Hi; assert (i = 0%nat \/ i = 1%nat) as [|] by (cbn in Hi; lia); subst i; cbn; lra.
Qed.
Lemma kx_hmm : forall bim t e flag u y0 y1, hmm_usable (kx_class bim t e flag u y0 y1).
Proof.
  intros bim t e flag u y0 y1. pose proof (kx_stochastic bim t e flag u y0 y1) as (S1 & S2 & S3). unfold hmm_usable. split; [cbn; lia|]. split; [reflexivity|].
  assert (SU : forall y, state_usable (kx_class bim t e flag u y0 y1) (kx_state bim y)).
  { intro y. split; [apply kx_ready|]. do 3 (split; [reflexivity|]). split; [reflexivity|]. split; [reflexivity|]. exists 1%nat, []. split; [lia|]. exists (ring_new (0 : num RA) 1 1). split; [apply ring_new_wf|]. split; reflexivity. }
  split; [constructor; [apply SU|constructor; [apply SU|constructor]]|].
  split. { split; [exact S1|]. split; [exact S2|]. intros i Hi. rewrite S3 by exact Hi. apply min_row_small. }
  split; [|cbn; lia]. intro HE. cbn in HE. subst t. split; [reflexivity|]. split; [|cbn; lra]. intros c Hc. assert (c = 0%nat \/ c = 1%nat) as [|] by (cbn in Hc; lia); subst c; cbn; lra.
Qed.

Section Model.
  Variables (bim : bool) (est : restimator) (cls : list (string * hclass RA)) (P : tmode -> bool -> Prop).
  Hypothesis Hne : cls <> [].
  Hypothesis ND : NoDup (map fst cls).
  Hypothesis HC : Forall (fun e => kx_ok bim P (snd e)) cls.
  Local Notation n := (length cls).
  Local Notation m hier := (kx_model bim est hier cls).

  Lemma kx_n : (1 <= n)%nat.
  Proof. destruct cls; [contradiction|cbn; lia]. Qed.
  Lemma kx_inv : 0 < / INR n.
  Proof. apply Rinv_0_lt_compat, lt_0_INR. pose proof kx_n. lia. Qed.
  Lemma kx_in : forall hier, Forall (fun e => hclass_in (m hier) (snd e)) cls.
  Proof.
    intro hier. eapply Forall_impl; [|exact HC]. intros (l & h) (t & e & flag & u & y0 & y1 & -> & _). cbn [snd].
    unfold hclass_in. split; [apply kx_hmm|]. do 4 (split; [reflexivity|]). split; [reflexivity|]. split; [intros k Hk; assert (k = 0%nat \/ k = 1%nat) as [|] by (cbn in Hk; lia); subst k; cbn; lra|].
    split; [intro HM; cbn in HM; subst t; cbn; lra|]. intros _. reflexivity.
  Qed.
  Lemma kx_top : forall hier, hh_top_ok (m hier).
  Proof.
    intro hier. pose proof kx_inv as HI. unfold hh_top_ok, hh_size, top_prior, top_trans. cbn [kx_model hh_cls hh_prior hh_trans hh_exit]. rewrite !repeat_length.
    split; [reflexivity|]. split; [intros c Hc; rewrite nth_repeat_lt by exact Hc; exact HI|]. split; [reflexivity|]. split.
    - intros c Hc. rewrite nth_repeat_lt by exact Hc. rewrite repeat_length. split; [reflexivity|]. intros d Hd. rewrite nth_repeat_lt by exact Hd. lra.
    - split; [reflexivity|]. intros c Hc. rewrite nth_repeat_lt by exact Hc. lra.
  Qed.
  Lemma kx_usable : forall hier, hh_usable (m hier).
  Proof. intro hier. split; [exact kx_n|]. split; [exact ND|]. split; [apply kx_in|]. split; [apply kx_top|]. cbn. destruct bim; cbn; lia. Qed.
  Lemma kx_proper : forall hier, hh_top_proper (m hier).
  Proof.
    intro hier. pose proof kx_n. assert (INR n <> 0) by (apply not_0_INR; lia). assert (E : Rsum n (fun _ => / INR n) = 1) by (rewrite Rsum_const; field; assumption).
    unfold hh_top_proper, hh_size, top_prior, top_trans. cbn [kx_model hh_cls hh_prior hh_trans]. split.
    - transitivity (Rsum n (fun _ => / INR n)); [|exact E]. apply Rsum_ext. intros i Hi. apply nth_repeat_lt, Hi.
    - intros c Hc. transitivity (Rsum n (fun _ => / INR n)); [|exact E]. apply Rsum_ext. intros i Hi. rewrite (nth_repeat_lt (repeat (/ INR n) n)) by exact Hc. apply nth_repeat_lt, Hi.
  Qed.
  Lemma kx_hn : hn_usable (m false).
  Proof.
    split; [exact kx_n|]. split; [exact ND|]. split; [|split; [reflexivity|cbn; destruct bim; cbn; lia]]. eapply Forall_impl; [|apply (kx_in false)]. intros e (H1 & H2 & H3 & H4 & H5 & _ & _ & _ & H6). unfold hn_class. auto 10.
  Qed.
  Lemma kx_left : forall hier c, (c < n)%nat -> 0 <= left_over (m hier) (hh_left (m hier)) c.
  Proof.
    intros hier c Hc. unfold left_over, hh_left. destruct (hc_mode (hcl (m hier) c)); [|lra]. rewrite Forall_forall in HC. unfold hcl. cbn [kx_model hh_cls].
    destruct (HC (nth c cls no_hclass) (nth_In _ _ Hc)) as (t & e & flag & u & y0 & y1 & -> & Hu & _). exact Hu.
  Qed.
  Lemma kx_sized : forall hier, results_sized (hh_size (m hier)) (hh_res (m hier)).
  Proof. intro hier. unfold results_sized, hh_size. cbn. rewrite repeat_length. auto 10. Qed.
  Lemma kx_window : forall L, window_of L [] (ring_new (0 : num RA) 1 L).
  Proof. intro L. exists (ring_new (0 : num RA) 1 L). split; [apply ring_new_wf|]. split; reflexivity. Qed.
End Model.

Lemma kx_fresh : forall bim est cls, Forall (fun e => kx_ok bim (fun _ flag => flag = true) (snd e)) cls -> hh_fresh (kx_model bim est true cls).
Proof.
  intros bim est cls HC. split; [reflexivity|]. split; [reflexivity|]. split; [apply kx_sized|]. split; [apply repeat_length|]. split; [apply repeat_length|].
  eapply Forall_impl; [|exact HC]. intros (l & h) (t & e & flag & u & y0 & y1 & -> & _ & ->). split; [reflexivity|apply kx_window].
Qed.
Lemma kx_resettable : forall bim est cls, cls <> [] -> NoDup (map fst cls) -> Forall (fun e => kx_ok bim (fun _ flag => flag = true) (snd e)) cls -> hh_resettable (kx_model bim est true cls).
Proof.
  intros bim est cls Hne ND HC. split; [apply (kx_usable bim est cls _ Hne ND HC)|]. split; [reflexivity|].
  eapply Forall_impl; [|exact HC]. intros (l & h) (t & e & flag & u & y0 & y1 & -> & _ & ->). split; [reflexivity|apply ring_new_wf].
Qed.
Lemma kx_hn_fresh : forall bim est cls, Forall (fun e => kx_ok bim (fun _ flag => flag = false) (snd e)) cls -> hn_fresh (kx_model bim est false cls).
Proof.
  intros bim est cls HC. split; [apply kx_sized|]. eapply Forall_impl; [|exact HC]. intros (l & h) (t & e & flag & u & y0 & y1 & -> & _ & ->).
  split; [reflexivity|]. split; [reflexivity|]. split; [apply ring_new_wf|]. split; reflexivity.
Qed.
Lemma kx_hn_resettable : forall bim est cls, cls <> [] -> NoDup (map fst cls) -> Forall (fun e => kx_ok bim (fun t _ => t = LeftRight) (snd e)) cls -> hn_resettable (kx_model bim est false cls).
Proof.
  intros bim est cls Hne ND HC. split; [apply (kx_hn bim est cls _ Hne ND HC)|]. eapply Forall_impl; [|exact HC]. intros (l & h) (t & e & flag & u & y0 & y1 & -> & _ & ->). split; [reflexivity|apply ring_new_wf].
Qed.
Lemma kx_trained : forall bim e flag u y0 y1, trained_lr (kx_class bim LeftRight e flag u y0 y1).
Proof.
  intros. split; [reflexivity|]. split; [apply (kx_stochastic bim LeftRight e flag u y0 y1)|]. split; [reflexivity|]. intros k Hk. assert (k = 0%nat \/ k = 1%nat) as [|] by (cbn in Hk; lia); subst k; reflexivity.
Qed.

(** The density of a state. *)
Lemma kx_lik : forall bim y x, mix_lik (kx_state bim y) [x] = Rmax min_likelihood (exp (- / 2 * ((x - y) * (x - y))) / sqrt (2 * PI)).
Proof.
  intros bim y x. unfold mix_lik, obs_lik, comp_lik. cbn [gc_n kx_state gc_par gp_gauss Rsum]. unfold weight, comp_at. cbn [kx_state gc_coef gc_comp nth].
  assert (E : forall (C B : nat -> nat -> R) (mu : nat -> R), C 0%nat 0%nat = 1 -> B 0%nat 0%nat = 1 -> mu 0%nat = y -> normal_pdf 1 C B mu (fun i => nth i [x] 0) = exp (- / 2 * ((x - y) * (x - y))) / sqrt (2 * PI)).
  { intros C B mu HC HB HM. unfold normal_pdf, qform. cbn [Rsum Rdet nth]. rewrite HB, HM. cbn. rewrite HC. f_equal; [f_equal; ring|f_equal; ring]. }
  destruct bim; cbn [g_bim kx_gauss g_din g_dim]; rewrite E; try lra; unfold gcov, ginv, ginv_in, gmean, stored; cbn; lra.
Qed.
