(** Model of the training driver of src/core/model/xmmModelSingleClass.cpp.
    The learning algorithm ([allocate], [emAlgorithmInit], [emAlgorithmUpdate] and the part of
    [emAlgorithmTerminate] that HMM adds) is arbitrary code on an arbitrary state. *)
From Coq Require Import List Bool Arith ZArith QArith.
From Verif Require Import Base Arith Model_Gaussian.
Import ListNotations.
Local Open Scope nat_scope.

(** xmmModelSingleClass.hpp 52-79: [TrainingEvent::Status]. *)
Inductive status := Run | Error | Cancel | Done | Alldone.

Section Train.
  Context {A : arith} {M : Type}.
  Local Notation T := (num A).

  (** The learning algorithm.  [h_update] gives the new log-likelihood; a [Throw] is any
      [std::exception]. *)
  Record hooks := mkHooks {
    h_allocate : M -> M * res unit;
    h_init : M -> M * res unit;
    h_update : M -> M * res T;
    h_finish : M -> M * res unit
  }.

  (** The settings read from the shared parameters. *)
  Record em_settings := mkEm { em_min : nat; em_max : nat; em_pct : T }.

  (** xmmModelSingleClass.hpp 81-125: what an event reports. *)
  Record tevent := mkEvent { e_status : status; e_it : nat; e_ll : T; e_prog : T }.

  (** The members used by [train]; [t_locked] is the training mutex, [t_events] the notifications so
      far (oldest first), [t_updates] counts the calls of [emAlgorithmUpdate] and [t_checks] the
      cancellation checks. *)
  Record tstate := mkT {
    t_m : M;
    t_status : status;
    t_it : nat;
    t_ll : T;
    t_prog : T;
    t_training : bool;
    t_locked : bool;
    t_events : list tevent;
    t_updates : nat;
    t_checks : nat
  }.

  Definition tset_m (m : M) (s : tstate) := mkT m (t_status s) (t_it s) (t_ll s) (t_prog s) (t_training s) (t_locked s) (t_events s) (t_updates s) (t_checks s).
  Definition tset_status (x : status) (s : tstate) := mkT (t_m s) x (t_it s) (t_ll s) (t_prog s) (t_training s) (t_locked s) (t_events s) (t_updates s) (t_checks s).
  Definition tset_it (n : nat) (x : T) (s : tstate) := mkT (t_m s) (t_status s) n (t_ll s) x (t_training s) (t_locked s) (t_events s) (t_updates s) (t_checks s).
  Definition tset_ll (x : T) (s : tstate) := mkT (t_m s) (t_status s) (t_it s) x (t_prog s) (t_training s) (t_locked s) (t_events s) (t_updates s) (t_checks s).
  Definition tset_training (b : bool) (s : tstate) := mkT (t_m s) (t_status s) (t_it s) (t_ll s) (t_prog s) b (t_locked s) (t_events s) (t_updates s) (t_checks s).
  Definition tset_locked (b : bool) (s : tstate) := mkT (t_m s) (t_status s) (t_it s) (t_ll s) (t_prog s) (t_training s) b (t_events s) (t_updates s) (t_checks s).
  Definition tnotify (s : tstate) := mkT (t_m s) (t_status s) (t_it s) (t_ll s) (t_prog s) (t_training s) (t_locked s)
    (t_events s ++ [mkEvent (t_status s) (t_it s) (t_ll s) (t_prog s)]) (t_updates s) (t_checks s).
  Definition tcount (s : tstate) := mkT (t_m s) (t_status s) (t_it s) (t_ll s) (t_prog s) (t_training s) (t_locked s) (t_events s) (S (t_updates s)) (t_checks s).
  Definition tchecked (s : tstate) := mkT (t_m s) (t_status s) (t_it s) (t_ll s) (t_prog s) (t_training s) (t_locked s) (t_events s) (t_updates s) (S (t_checks s)).

  Variables (h : hooks) (p : em_settings).
  (** Whether another thread has requested cancellation by the time of the n-th check. *)
  Variable cancel : nat -> bool.

  (** How [train] ends: it returns, an exception escapes, undefined behaviour, or the loop was not
      finished after the given number of rounds. *)
  Inductive tend := Returned | Escaped (e : exn) | Undefined | Unfinished.

  (** [-std::numeric_limits<double>::max()]: - (2^53 - 1) * 2^971. *)
  Definition lowest : T := nopp (nmul (nofQ (9007199254740991 # 1)) (npow (nofQ (2 # 1)) 971)).

  (** 100 * |(a - b) / c|. *)
  Definition pct_change (a b c : T) : T := nmul (nofQ (100 # 1)) (nabs (ndiv (nsub a b) c)).

  (** xmmModelSingleClass.cpp 189-199: [emAlgorithmHasConverged(step, log_prob, old_log_prob)]. *)
  Definition has_converged (step : nat) (ll old : T) : bool :=
    if 1000 <=? step then true
    else if em_min p <=? em_max p then em_max p <=? step
    else (em_min p <=? step) && nleb (pct_change ll old ll) (em_pct p).

  (** xmmModelSingleClass.cpp 213-221: [cancelTrainingIfRequested()]. *)
  Definition check_cancel (s : tstate) : tstate * bool :=
    if cancel (t_checks s) then
      (tset_training false (tnotify (tset_status Cancel (tset_locked false (tchecked s)))), true)
    else (tchecked s, false).

  (** xmmModelSingleClass.cpp 201-205 (and the override of HMM): [emAlgorithmTerminate()]. *)
  Definition terminate (s : tstate) : tstate * tend :=
    let '(m, r) := h_finish h (t_m s) in
    let s := tset_m m s in
    match r with
    | Throw e => (s, Escaped e)
    | UB => (s, Undefined)
    | Ok _ => (tset_training false (tnotify (tset_status Done s)), Returned)
    end.

  (** 176-183: the progression; [float] divisions are taken in the arithmetic of the model. *)
  Definition progression (it : nat) : T :=
    if em_min p <? em_max p then ndiv (nN it) (nN (em_max p)) else ndiv (nN it) (nN (em_min p)).

  (** xmmModelSingleClass.cpp 140-186: the loop and the end of [train]; [err] is [trainingError] and
      [old] is [old_log_prob]. *)
  Fixpoint em_loop (fuel : nat) (err : bool) (old : T) (s : tstate) : tstate * tend :=
    if has_converged (t_it s) (t_ll s) old then
      let '(s, stop) := check_cancel s in
      if stop then (s, Returned)
      else let '(s, r) := terminate s in
           match r with Returned => (tset_locked false s, Returned) | _ => (s, r) end
    else
      match fuel with
      | O => (s, Unfinished)
      | S fuel =>
          let '(s, stop) := check_cancel s in
          if stop then (s, Returned) else
          let old := t_ll s in
          let '(s, r) :=
            if err then (s, Throw RuntimeError)
            else let '(m, r) := h_update h (t_m s) in (tcount (tset_m m s), r) in
          match r with
          | UB => (s, Undefined)
          | _ =>
              let err := match r with Ok _ => false | _ => true end in
              let s := match r with Ok x => tset_ll x s | _ => s end in
              let err := err || (nisnan (pct_change (t_ll s) old old) && (1 <? t_it s)) in
              if err then
                (tnotify (tset_status Error (tset_locked false (tset_training false s))), Returned)
              else
                let n := S (t_it s) in
                em_loop fuel false old (tnotify (tset_it n (progression n) s))
          end
      end.

  (** xmmModelSingleClass.cpp 114-187: [train(trainingSet)]; [empty]: no training set, or one
      without phrases.  An exception of [allocate] is not caught (it is outside the [try]). *)
  Definition em_train (fuel : nat) (empty : bool) (s : tstate) : tstate * tend :=
    let s := tset_status Run (tset_locked true s) in
    let '(s, r) := if empty then (s, Ok tt) else let '(m, r) := h_allocate h (t_m s) in (tset_m m s, r) in
    match r with
    | Throw e => (s, Escaped e)
    | UB => (s, Undefined)
    | Ok _ =>
        let '(s, stop) := check_cancel s in
        if stop then (s, Returned) else
        let '(s, r) := if empty then (s, Throw RuntimeError) else let '(m, r) := h_init h (t_m s) in (tset_m m s, r) in
        match r with
        | UB => (s, Undefined)
        | _ =>
            let err := match r with Ok _ => false | _ => true end in
            let s := tset_ll lowest (tset_it 0 (t_prog s) s) in
            em_loop fuel err lowest s
        end
    end.
End Train.
Arguments hooks : clear implicits.
Arguments em_settings : clear implicits.
Arguments tstate : clear implicits.
Arguments tevent : clear implicits.
