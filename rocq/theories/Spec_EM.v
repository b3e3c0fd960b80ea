(** Specification vocabulary for the progress of training: the likelihood of the training data, the part of
    the covariance regularisation in it, and symmetric positive definite matrices. *)
From Coq Require Import List Bool Arith Reals.
From Verif Require Import Base Arith RFacts Model_Gaussian Model_GMM Spec_Common Spec_Matrix Spec_Det Spec_Gaussian Spec_GMM.
Import ListNotations.
Local Open Scope R_scope.

Definition posdef (n : nat) (A : nat -> nat -> R) : Prop := forall x, (exists i, (i < n)%nat /\ x i <> 0) -> 0 < qform n A x.
Definition symm (n : nat) (A : nat -> nat -> R) : Prop := forall i j, (i < n)%nat -> (j < n)%nat -> A i j = A j i.
(** The trace of the product of [A] and the transpose of [B]. *)
Definition trace (n : nat) (A B : nat -> nat -> R) : R := Rsum n (fun i => Rsum n (fun j => A i j * B i j)).

(** A mixture of Gaussians in the usual sense: positive weights, symmetric positive definite covariances. *)
Definition proper (g : gclass RA) : Prop :=
  forall c, (c < gc_n g)%nat -> 0 < weight g c /\ symm (gc_dim g) (gcov (comp_at g c)) /\ posdef (gc_dim g) (gcov (comp_at g c)).

(** The density of a component without its floor. *)
Definition comp_pdf (k : gauss RA) (x : list R) : R := normal_pdf (g_dim k) (gcov k) (ginv k) (gmean k) (fun i => nth i x 0).

(** The logarithm of the likelihood of some frames: weighted sums of the floored densities. *)
Definition frames_ll (g : gclass RA) (frames : list (list R)) : R :=
  Rlsum (map (fun x => ln (Rsum (gc_n g) (fun c => weight g c * comp_lik (comp_at g c) x))) frames).

(** The part of the regularisation: half the sum of the regularisation terms times the diagonal of the
    inverse covariances of [h], each component counting for the responsibilities that [g] gives it. *)
Definition reg_part (g : gclass RA) (frames : list (list R)) (h : gclass RA) : R :=
  / 2 * Rsum (gc_n g) (fun c => mass g frames c * Rsum (gc_dim g) (fun d => nth d (gc_reg g) 0 * ginv (comp_at h c) d d)).

(** What the floor of the densities adds to the expected logarithms; 0 if no density is below 1e-180. *)
Definition floor_part (g : gclass RA) (frames : list (list R)) : R :=
  Rlsum (map (fun x => Rsum (gc_n g) (fun c => resp g x c * (ln (comp_lik (comp_at g c) x) - ln (comp_pdf (comp_at g c) x)))) frames).
Definition above_floor (g : gclass RA) (frames : list (list R)) : Prop :=
  forall x c, In x frames -> (c < gc_n g)%nat -> min_likelihood <= comp_pdf (comp_at g c) x.

(** Covariances as left by the initialisation and by the updates: those of some data plus the regularisation;
    only the diagonal in Diagonal mode. *)
Definition regularised (g : gclass RA) : Prop :=
  forall c, (c < gc_n g)%nat -> 0 < weight g c /\ exists V, symm (gc_dim g) V /\ (forall x, 0 <= qform (gc_dim g) V x) /\
    forall i j, (i < gc_dim g)%nat -> (j < gc_dim g)%nat -> gcov (comp_at g c) i j =
      if Nat.eqb i j then V i i + nth i (gc_reg g) 0 else match gc_mode g with Full => V i j | Diagonal => 0 end.
