(** Specification vocabulary: the hierarchical model as a probability model. *)
From Coq Require Import String List Bool Arith Reals.
From Verif Require Import Base Arith RFacts Model_Gaussian Model_Config Model_Ring Model_KMeans Model_GMM Model_HMM Model_HHMM
  Spec_Common Spec_Matrix Spec_Gaussian Spec_GMM Spec_HMM Spec_HHMM.
Import ListNotations.
Local Open Scope R_scope.

(** The weight of going on in the class, from a state [j] that is not left. *)
Definition outflow (h : hclass RA) (j : nat) : R := Rsum (hc_n h) (inner h j).
(** The class-level parameters are probabilities. *)
Definition hh_top_proper (m : hhmm RA) : Prop :=
  Rsum (hh_size m) (top_prior m) = 1 /\ forall c, (c < hh_size m)%nat -> Rsum (hh_size m) (top_trans m c) = 1.
(** A left-right class as training leaves it: rows that sum to one, and the default exit probabilities. *)
Definition trained_lr (h : hclass RA) : Prop :=
  hc_mode h = LeftRight /\ stochastic (hc_n h) LeftRight (h_trans (hc_net h)) /\ no_jump (hc_n h) (h_trans (hc_net h)) /\
  forall k, (k < hc_n h)%nat -> exit_at h k = if Nat.eqb k (hc_n h - 1) then / 10 else 0.
