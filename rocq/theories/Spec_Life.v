(** Specification vocabulary for the training protocol. *)
From Coq Require Import List Bool Arith ZArith.
From Verif Require Import Base Model_Train Model_Life.
Import ListNotations.
Local Open Scope nat_scope.

(** The events of class [i], in order. *)
Definition events_of (i : nat) (l : list mevent) : list status :=
  flat_map (fun e => match e with EvClass j st => if j =? i then [st] else [] | EvAll => [] end) l.

(** What a class announces when nobody cancels. *)
Definition announced (p : nat * bool) : list status := repeat Run (fst p) ++ [if snd p then Done else Error].

(** A schedule in which no atomic operation fails spuriously. *)
Definition strong (sch : schedule) : Prop := Forall (fun e => snd e = false) sch.

(** Nobody can take a step any more. *)
Definition quiet (background cancels : bool) (s : sys) : Prop := forall t, step background cancels t false s = None.

(** The thread of the class has ended. *)
Definition ended (c : cls) : Prop := exists st, k_pc c = CEnd st.

(** The calling thread is still starting the classes. *)
Definition launching (m : mpc) : Prop :=
  match m with MFlag _ | MCanc _ | MCnt _ | MCntW _ _ | MSpawn _ => True | _ => False end.

(** The event announces the end of a class. *)
Definition is_final (e : mevent) : Prop := match e with EvClass _ Run => False | EvClass _ _ => True | EvAll => False end.

(** No class announces its end while the others are still being started. *)
Definition launched_first (s : sys) : Prop := launching (s_main s) -> forall e, In e (s_log s) -> ~ is_final e.

(** Something holds in every state of an execution. *)
Definition throughout (background cancels : bool) (P : sys -> Prop) (sch : schedule) (s : sys) : Prop :=
  forall k, P (run background cancels (firstn k sch) s).

(** Every thread of a model with [n] classes is given a turn in the round. *)
Definition fair_round (n : nat) (l : schedule) : Prop :=
  strong l /\ In (TMain, false) l /\ forall i, i < n -> In (TClass i, false) l /\ In (TJoin i, false) l.

(** No class thread starts a thread that joins. *)
Definition no_detached (s : sys) : Prop :=
  s_join s = [] /\ forall i c st, nth_error (s_cls s) i = Some c -> k_pc c <> CSpawn st.

(** The cancellation is requested before any class announces its end. *)
Definition cancelled_in_time (s : sys) : Prop :=
  s_creq s = false -> s_main s <> MEnd -> forall e, In e (s_log s) -> ~ is_final e.

(** What the listeners hear of a list of classes trained one after the other. *)
Definition one_by_one (plan : list (nat * bool)) : list mevent :=
  concat (map (fun ip => map (EvClass (fst ip)) (announced (snd ip))) (combine (seq 0 (length plan)) plan)).

(** The training of the classes of [plan] is over and properly reported: the model is not training,
    the last event and no other is Alldone, every thread has ended, every class has announced its
    updates and its outcome, and the classes of the model are those whose outcome is Done. *)
Definition all_reported (plan : list (nat * bool)) (s : sys) : Prop :=
  s_training s = false /\ length (s_cls s) = length plan /\
  (exists l, s_log s = l ++ [EvAll] /\ ~ In EvAll l) /\
  forall i c p, nth_error (s_cls s) i = Some c -> nth_error plan i = Some p ->
    ended c /\ events_of i (s_log s) = announced p /\ k_alive c = snd p.

(** The cancellation is over: the model is not training, Alldone is the last event and no other, every
    thread has ended and the classes of the model are those whose outcome is Done. *)
Definition all_stopped (s : sys) : Prop :=
  s_training s = false /\ (exists l, s_log s = l ++ [EvAll] /\ ~ In EvAll l) /\
  forall i c, nth_error (s_cls s) i = Some c -> ended c /\ k_flag c = false /\ (k_alive c = true <-> k_pc c = CEnd Done).

(** [n] turns of the same thread; rounds in which every thread has a turn. *)
Definition turns (n : nat) (t : tid) : schedule := repeat (t, false) n.
Definition everyone (n : nat) : schedule :=
  (TMain, false) :: map (fun i => (TClass i, false)) (seq 0 n) ++ map (fun i => (TJoin i, false)) (seq 0 n).
