(** Specification of matrix operations, on functions of two indices. *)
From Coq Require Import Arith List Reals.
From Verif Require Import Arith RFacts Model_Matrix.
Local Open Scope R_scope.

(** The storage has exactly rows * columns entries. *)
Definition wf_mat {A : arith} (m : @matrix A) : Prop :=
  length (m_data m) = (m_rows m * m_cols m)%nat.

(** Entries of real matrices: row-major storage. *)
Notation rmat := (@matrix RA).
Definition rcell (w : nat) (d : list R) (i j : nat) : R := nth (i * w + j)%nat d 0.
Definition rent (m : rmat) (i j : nat) : R := rcell (m_cols m) (m_data m) i j.

(** The pivot threshold. *)
Definition eps9 : R := / 1000000000.

Definition delta (i j : nat) : R := if Nat.eqb i j then 1 else 0.

(** Product of an n*k matrix by a k*m matrix. *)
Definition mmul (k : nat) (A B : nat -> nat -> R) (i j : nat) : R :=
  Rsum k (fun l => A i l * B l j).

(** [B] is the two-sided inverse of the n*n matrix [A]. *)
Definition is_inverse (n : nat) (A B : nat -> nat -> R) : Prop :=
  forall i j, (i < n)%nat -> (j < n)%nat ->
    mmul n A B i j = delta i j /\ mmul n B A i j = delta i j.

(** [A] has a non-zero kernel vector. *)
Definition singular (n : nat) (A : nat -> nat -> R) : Prop :=
  exists v : nat -> R, (exists i, (i < n)%nat /\ v i <> 0) /\
    forall i, (i < n)%nat -> Rsum n (fun j => A i j * v j) = 0.

(** The quadratic form of [A], and "positive definite with margin rho". *)
Definition qform (n : nat) (A : nat -> nat -> R) (x : nat -> R) : R :=
  Rsum n (fun i => Rsum n (fun j => x i * A i j * x j)).
Definition pd_margin (n : nat) (A : nat -> nat -> R) (rho : R) : Prop :=
  forall x, rho * Rsum n (fun i => x i * x i) <= qform n A x.
