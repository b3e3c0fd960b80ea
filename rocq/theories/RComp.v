(** Symbolic evaluation of the model on real literals, for examples and refutations. *)
From Coq Require Import Reals Lra QArith Qreals.
From Verif Require Import Base Arith.

Ltac rside := unfold Q2R in *; cbn [QArith_base.Qnum QArith_base.Qden] in *; unfold Rabs in *;
  repeat (match goal with
          | H : context [Rcase_abs ?a] |- _ => destruct (Rcase_abs a)
          | |- context [Rcase_abs ?a] => destruct (Rcase_abs a)
          end); lra.
Ltac rred := cbv -[Rplus Rmult Rminus Rdiv Rinv Ropp Rabs Rlt_dec Rle_dec Req_EM_T IZR Q2R exp ln sqrt PI].
Ltac rcase :=
  match goal with
  | |- context [Rlt_dec ?a ?b] => destruct (Rlt_dec a b); [try (exfalso; rside)|try (exfalso; rside)]
  | |- context [Rle_dec ?a ?b] => destruct (Rle_dec a b); [try (exfalso; rside)|try (exfalso; rside)]
  | |- context [Req_EM_T ?a ?b] => destruct (Req_EM_T a b); [try (exfalso; rside)|try (exfalso; rside)]
  end.
Ltac rcomp := rred; repeat (rcase; rred).
