(** Model of src/core/common/xmmEvents.hpp: [EventGenerator]. *)
From Coq Require Import List Bool Arith.
Import ListNotations.

(** xmmEvents.hpp 107: [std::map<void*, EventCallBack>].  Pointers are natural numbers; the map
    is the list of its entries in key order.  [C] is the type of bound callbacks. *)
Definition listeners (C : Type) : Type := list (nat * C).

Section Events.
  Context {C : Type}.

  (** xmmEvents.hpp 72-77: [addListener], i.e. [std::map::insert], which does nothing when the
      key is present. *)
  Fixpoint ev_add (m : listeners C) (owner : nat) (cb : C) : listeners C :=
    match m with
    | [] => [(owner, cb)]
    | (o, c) :: m' =>
        if owner <? o then (owner, cb) :: m
        else if owner =? o then m
        else (o, c) :: ev_add m' owner cb
    end.

  (** xmmEvents.hpp 87-90: [removeListener], i.e. [std::map::erase(key)]. *)
  Definition ev_remove (m : listeners C) (owner : nat) : listeners C :=
    filter (fun p => negb (fst p =? owner)) m.

  (** xmmEvents.hpp 101-105: [notifyListeners]: every callback in key order, with the event. *)
  Definition ev_notify {E : Type} (m : listeners C) (e : E) : list (C * E) :=
    map (fun p => (snd p, e)) m.

  Inductive lop := LAdd (owner : nat) (cb : C) | LRemove (owner : nat) | LClear.

  (** One public operation; [removeListeners] is xmmEvents.hpp 95. *)
  Definition ev_step (m : listeners C) (o : lop) : listeners C :=
    match o with
    | LAdd w cb => ev_add m w cb
    | LRemove w => ev_remove m w
    | LClear => []
    end.

  Definition ev_run (ops : list lop) : listeners C := fold_left ev_step ops [].
End Events.
