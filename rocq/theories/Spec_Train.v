(** Specification vocabulary for the training driver. *)
From Coq Require Import List Bool Arith ZArith QArith.
From Verif Require Import Base Arith Model_Train.
Import ListNotations.
Local Open Scope nat_scope.

Section SpecTrain.
  Context {A : arith} {M : Type}.
  Local Notation T := (num A).

  (** Learning code whose exceptions, if any, are all in the initialisation and in the updates. *)
  Definition caught (h : hooks A M) : Prop :=
    forall m, snd (h_allocate h m) = Ok tt /\ snd (h_init h m) <> UB /\ snd (h_update h m) <> UB /\ snd (h_finish h m) = Ok tt.

  (** Learning code that never fails at all. *)
  Definition smooth (h : hooks A M) : Prop :=
    forall m, snd (h_allocate h m) = Ok tt /\ snd (h_init h m) = Ok tt /\ (exists x, snd (h_update h m) = Ok x) /\ snd (h_finish h m) = Ok tt.

  (** The stopping rule: training stops after [n] updates that gave the last log-likelihoods [prev]
      and [ll]. *)
  Definition stop_rule (p : em_settings A) (n : nat) (prev ll : T) : Prop :=
    1000 <= n \/
    (em_min p <= em_max p /\ em_max p <= n) \/
    (em_max p < em_min p /\ em_min p <= n /\ nleb (nmul (nofQ (QArith_base.Qmake 100%Z 1%positive)) (nabs (ndiv (nsub ll prev) ll))) (em_pct p) = true).

  (** The i-th Run event of a training that notifies [n] of them. *)
  Definition is_run (p : em_settings A) (i : nat) (e : tevent A) : Prop :=
    e_status e = Run /\ e_it e = S i /\
    e_prog e = ndiv (nN (S i)) (nN (if em_min p <? em_max p then em_max p else em_min p)).
End SpecTrain.

(** Example learning code: a counter; the k-th update gives [f k]. *)
Definition counting {A : arith} (f : nat -> num A) : hooks A nat :=
  mkHooks (fun m => (m, Ok tt)) (fun m => (0, Ok tt)) (fun m => (S m, Ok (f (S m)))) (fun m => (m, Ok tt)).

(** Example learning code that fails in [allocate]. *)
Definition no_memory {A : arith} : hooks A nat :=
  mkHooks (fun m => (m, Throw RuntimeError)) (fun m => (0, Ok tt)) (fun m => (m, Ok n0)) (fun m => (m, Ok tt)).

(** A class about to be trained. *)
Definition tstart {A : arith} : tstate A nat := mkT 0 Run 0 n0 n0 true false [] 0 0.

(** The default settings: 10 iterations at least, no maximum, threshold 0.01 percent. *)
Definition em_default {A : arith} : em_settings A := mkEm 10 0 (nofQ (1 # 100)).
