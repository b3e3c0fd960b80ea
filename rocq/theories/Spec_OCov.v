(** What the output covariances of a class should be. *)
From Coq Require Import List Arith Reals.
From Verif Require Import Base Arith RFacts Model_Gaussian Model_Config Model_GMM Model_HMM Spec_Common Spec_Matrix Spec_Gaussian Spec_GMM Spec_HMM.
Import ListNotations.
Local Open Scope R_scope.

(** The variance of a combination, with coefficients [p], of [n] independent variables of variances [s]. *)
Definition comb_var (n : nat) (p s : nat -> R) : R := Rsum n (fun i => p i * p i * s i).
(** Entry [j] of the covariance of the output of a mixture: a combination of the outputs of the components. *)
Definition class_ocov (g : gclass RA) (x : list R) (j : nat) : R := comb_var (gc_n g) (posterior g x) (fun c => nth j (g_out (comp_at g c)) 0).
(** The coefficients of the states in the output of a class, from the state probabilities [w]. *)
Definition out_coef (h : hclass RA) (w : nat -> R) (l i : nat) : R :=
  match hp_est (hc_par h) with
  | RFull => w i
  | RWindowed => if in_window (hc_n h) l i then w i / window_mass (hc_n h) l w else 0
  | RLikeliest => if (i =? l)%nat then 1 else 0
  end.
(** Entry [j] of the covariance of that output. *)
Definition hmm_ocov (h : hclass RA) (w : nat -> R) (l : nat) (x : list R) (j : nat) : R := comb_var (hc_n h) (out_coef h w l) (fun i => class_ocov (state_at h i) x j).
