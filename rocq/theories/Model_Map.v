(** [std::map] and [std::set] as lists of entries in key order. *)
From Coq Require Import List Bool.
Import ListNotations.

Section Map.
  Context {K V : Type}.
  Variables (eqb ltb : K -> K -> bool).

  (** [find(k)] / [at(k)] / [count(k)]. *)
  Fixpoint mget (m : list (K * V)) (k : K) : option V :=
    match m with
    | [] => None
    | (k', v) :: m => if eqb k k' then Some v else mget m k
    end.

  (** [m\[k\] = v]. *)
  Fixpoint mput (m : list (K * V)) (k : K) (v : V) : list (K * V) :=
    match m with
    | [] => [(k, v)]
    | (k', v') :: m' =>
        if eqb k k' then (k, v) :: m'
        else if ltb k k' then (k, v) :: m
        else (k', v') :: mput m' k v
    end.

  (** [insert({k, v})]: does nothing when the key is present. *)
  Definition minsert (m : list (K * V)) (k : K) (v : V) : list (K * V) :=
    match mget m k with Some _ => m | None => mput m k v end.

  (** [erase(k)]. *)
  Definition mdel (m : list (K * V)) (k : K) : list (K * V) :=
    filter (fun p => negb (eqb k (fst p))) m.

  (** [std::set::insert(k)]. *)
  Fixpoint sinsert (s : list K) (k : K) : list K :=
    match s with
    | [] => [k]
    | k' :: s' =>
        if eqb k k' then s
        else if ltb k k' then k :: s
        else k' :: sinsert s' k
    end.
End Map.
