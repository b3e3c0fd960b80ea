(** The determinant of a real matrix, by expansion along the first row. *)
From Coq Require Import Arith Reals.
From Verif Require Import RFacts.
Local Open Scope R_scope.

(** The k-th index once [j] is left out. *)
Definition skip (j k : nat) : nat := if Nat.ltb k j then k else S k.
Definition sg (j : nat) : R := if Nat.even j then 1 else -1.

Fixpoint Rdet (n : nat) (A : nat -> nat -> R) : R :=
  match n with
  | O => 1
  | S n' => Rsum (S n') (fun j => sg j * A O j * Rdet n' (fun i k => A (S i) (skip j k)))
  end.

(** Every leading principal minor is at least [e] times the previous one, in absolute value. *)
Definition leading_minors_ok (e : R) (n : nat) (A : nat -> nat -> R) : Prop :=
  forall k, (k < n)%nat -> e * Rabs (Rdet k A) <= Rabs (Rdet (S k) A).
