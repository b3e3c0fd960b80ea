(** Specification vocabulary: the labels of a hierarchical model. *)
From Coq Require Import String List.
From Verif Require Import Base Arith Model_HMM Model_HHMM Spec_HHMM2.
Import ListNotations.

Definition hh_labels {A : arith} (m : hhmm A) : list string := map fst (hh_cls m).
(** The labels expected after an operation on the classes. *)
Definition label_after {A : arith} (o : hh_op A) (before : string -> Prop) (l : string) : Prop :=
  match o with
  | OAdd _ _ k => l = k \/ before l
  | ORemove k => before l /\ l <> k
  | OClear => False
  | OJoin failed => before l /\ failed l = false
  | _ => before l
  end.
