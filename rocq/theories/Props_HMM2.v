(** Initialisation of hidden Markov models (one class): C84. *)
From Coq Require Import String List Bool Arith ZArith Reals Lra Lia.
From Verif Require Import Base Arith BaseFacts RFacts RComp Model_Ring Proofs_Ring Model_Gaussian Model_Config Model_KMeans Model_GMM Model_HMM
  Spec_Common Spec_Matrix Spec_Gaussian Spec_GMM Spec_HMM Spec_HMMInit Proofs_HMM14 Props_HMM.
Import ListNotations.
Local Open Scope list_scope.
Local Open Scope R_scope.

(** C84 *)
(** Topology, prior, and for every state the mixture learnt from its piece of every phrase. *)
Theorem C84_initialisation : forall iters devs dev data h, hmm_trainable h devs dev data -> exists h1 h2, hm_allocate (A := RA) h = Ok h1 /\ hm_init (A := RA) iters devs dev data h1 = Ok h2 /\
  (forall i j, (i < hc_n h)%nat -> (j < hc_n h)%nat -> hc_trans h2 i j = first_trans (hc_n h) (hc_mode h) i j) /\ (forall i, (i < hc_n h)%nat -> hc_prior h2 i = first_prior (hc_n h) (hc_mode h) i) /\
  (forall s, (s < hc_n h)%nat -> state_value iters devs dev data h s (state_at h2 s)).
Proof. intros iters devs dev data h H. destruct (init_values iters devs dev data h H) as (h1 & h2 & E1 & E2 & _ & _ & T & P & V). exists h1, h2. auto. Qed.
Print Assumptions C84_initialisation.
(** One Gaussian per state: its mean and covariance are those of the frames of its pieces. *)
Theorem C84_one_gaussian : forall iters devs dev data h, hmm_trainable h devs dev data -> hp_gauss (hc_par h) = 1%nat -> (forall s, (s < hc_n h)%nat -> (1 <= iters s)%nat) ->
  exists h1 h2, hm_allocate (A := RA) h = Ok h1 /\ hm_init (A := RA) iters devs dev data h1 = Ok h2 /\
    forall s, (s < hc_n h)%nat -> weight (state_at h2 s) 0 = 1 /\
      (forall d, (d < hc_dim h)%nat -> gmean (comp_at (state_at h2 s) 0) d = avg (fun x => nth d x 0) (concat (pieces (hc_n h) s data))) /\
      (forall i j, (i < hc_dim h)%nat -> (j < hc_dim h)%nat -> gcov (comp_at (state_at h2 s) 0) i j = regular_cov h (concat (pieces (hc_n h) s data)) (devs s) i j).
Proof.
  intros iters devs dev data h H G1 HI. destruct (init_values iters devs dev data h H) as (h1 & h2 & E1 & E2 & R2 & K & T & P & V). exists h1, h2. split; [exact E1|]. split; [exact E2|].
  intros s Hs. specialize (V s Hs). split.
  - destruct V as (f & _ & W & _). rewrite W by lia. rewrite G1. cbn. lra.
  - apply (state_one iters devs dev data h s (state_at h2 s) H G1 Hs (HI s Hs)); [|exact V].
    destruct R2 as ((_ & L & F & _) & _). destruct K as (K1 & K2 & K3 & K4 & K5 & _). unfold hc_n in L. rewrite K5 in L. rewrite Forall_forall in F. specialize (F (state_at h2 s)).
    assert (U : state_usable h2 (state_at h2 s)) by (apply F; apply nth_In; change (num RA) with R in *; unfold hc_n in Hs; lia). unfold state_usable in *. rewrite K1, K2, K3, K5 in U. exact U.
Qed.
Print Assumptions C84_one_gaussian.
(** Two states: the first gets the frames 0 1, 1 2 of the first phrase and 0 1 of the second. *)
Example C84_meets : forall t m e n, (1 <= n <= 4)%nat -> hmm_trainable (hx_new t m e n) hx_devs [1; 1] hx_data /\ hp_gauss (hc_par (hx_new t m e n)) = 1%nat /\
  concat (pieces 2 0 hx_data) = [[0; 1]; [1; 2]; [0; 1]] /\ avg (fun x => nth 0 x 0) (concat (pieces 2 0 hx_data)) = / 3.
Proof. intros t m e n Hn. split; [apply hx_trainable; exact Hn|]. split; [reflexivity|]. split; [reflexivity|]. unfold avg. cbn. lra. Qed.
(** Every phrase shorter than the number of states: the states keep a determinant of 0 and the first update throws. *)
Theorem C84_short_refuted : forall iters devs dev data k h, (1 <= hc_n h)%nat -> (1 <= hp_gauss (hc_par h))%nat -> hmm_dims h -> length dev = hc_dim h ->
  Forall (fun ph => length ph < hc_n h)%nat data -> Exists (fun ph => ph <> []) data ->
  (exists h1 h2, hm_allocate (A := RA) h = Ok h1 /\ hm_init (A := RA) iters devs dev data h1 = Ok h2 /\ hm_update (A := RA) data h2 = Throw RuntimeError) /\
  hm_train (A := RA) iters devs dev (S k) data h = Throw RuntimeError.
Proof. exact short_throws. Qed.
Print Assumptions C84_short_refuted.
Example C84_short_meets : forall t m e, let h := hx_new t m e 10 in (1 <= hc_n h)%nat /\ (1 <= hp_gauss (hc_par h))%nat /\ hmm_dims h /\ length [1; 1] = hc_dim h /\ Forall (fun ph => length ph < hc_n h)%nat hx_data /\ Exists (fun ph => ph <> []) hx_data.
Proof. intros t m e h. unfold h, hc_n, hmm_dims. cbn. repeat split; try lia. - repeat (constructor; [cbn; lia|]). constructor. - apply Exists_cons_hd. discriminate. Qed.
