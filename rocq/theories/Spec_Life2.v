(** Specification vocabulary for calls made during a training. *)
From Coq Require Import List Bool Arith ZArith.
From Verif Require Import Base Model_Train Model_Life Model_Life2 Spec_Life.
Import ListNotations.
Local Open Scope nat_scope.

(** Class [j] has not announced its end. *)
Definition still_training (j : nat) (s : sys) : Prop := j < length (s_cls s) /\ forall st, st <> Run -> ~ In (EvClass j st) (s_log s).

(** A class other than [i] has not announced its end. *)
Definition others_training (i : nat) (s : sys) : Prop := exists j, j <> i /\ still_training j s.

(** [train(set)] has returned in Background mode, after an execution in which no class ended before all were
    started. *)
Definition in_background (plan : list (nat * bool)) (s : sys) : Prop :=
  plan <> [] /\ exists sch, strong sch /\ throughout true false launched_first sch (life_init 0 plan) /\ s = run true false sch (life_init 0 plan) /\ s_main s = MRet.

(** The calling thread is still inside the call. *)
Definition in_call (z : csys) : Prop := match cs_pc z with LRet | LThrow _ | LAbort | LGone => False | _ => True end.

(** Class [i] was cancelled by itself: the training is over and properly reported; every other class has
    announced its updates and its outcome and is in the model if it succeeded; class [i] has announced
    its outcome as well, or some of its updates and then that it was cancelled, and it is not in the model. *)
Definition reported_but (i : nat) (plan : list (nat * bool)) (s : sys) : Prop :=
  s_training s = false /\ length (s_cls s) = length plan /\
  (exists l, s_log s = l ++ [EvAll] /\ ~ In EvAll l) /\
  forall k c p, nth_error (s_cls s) k = Some c -> nth_error plan k = Some p ->
    ended c /\ (events_of k (s_log s) = announced p /\ k_alive c = snd p \/
                k = i /\ k_alive c = false /\ exists n, n <= fst p /\ events_of k (s_log s) = repeat Run n ++ [Cancel]).
