(** Specification vocabulary: the outputs that a hierarchical model learned. *)
From Coq Require Import List Arith Reals.
From Verif Require Import Base Arith Model_Gaussian Model_Config Model_GMM Model_HMM Model_HHMM Spec_GMM Spec_HMM Spec_HHMM.
Local Open Scope R_scope.

(** For the input [x], output [d] of every component of every state of every class is between [lo] and [hi].
    With Diagonal covariances this is a bound on the learned means, whatever [x] is. *)
Definition learned_in (m : hhmm RA) (x : list R) (d : nat) (lo hi : R) : Prop :=
  forall c k i, (c < hh_size m)%nat -> (k < hc_n (hcl m c))%nat -> (i < gc_n (state_at (hcl m c) k))%nat ->
    lo <= comp_out (comp_at (state_at (hcl m c) k) i) x d <= hi.
(** The regression estimator of a class. *)
Definition hcl_est (m : hhmm RA) (c : nat) : restim := hp_est (hc_par (hcl m c)).
(** Output [d] of a class, and of the model. *)
Definition class_value (m : hhmm RA) (c d : nat) : R := nth d (h_out (hc_run (hcl m c))) 0.
Definition model_value (m : hhmm RA) (d : nat) : R := nth d (rs_out (hh_res m)) 0.
