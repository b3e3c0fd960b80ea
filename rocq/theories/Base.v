(** Outcomes of C++ operations and checked accesses to contiguous storage. *)
From Coq Require Import List Arith Lia Bool.
Import ListNotations.

(** The exception classes thrown by the modelled code. *)
Inductive exn :=
| DomainError | OutOfRange | InvalidArgument | RuntimeError
| JsonTypeError | JsonValueError | JsonCppError.

(** Outcome of a C++ call: a value, an exception, or undefined behaviour. *)
Inductive res (A : Type) : Type :=
| Ok (a : A)
| Throw (e : exn)
| UB.
Arguments Ok {A} a.
Arguments Throw {A} e.
Arguments UB {A}.

Definition bind {A B} (m : res A) (f : A -> res B) : res B :=
  match m with
  | Ok a => f a
  | Throw e => Throw e
  | UB => UB
  end.

Notation "'let*' x ':=' m 'in' k" := (bind m (fun x => k))
  (at level 200, x pattern, m at level 100, k at level 200).

Definition is_ok {A} (m : res A) : bool :=
  match m with Ok _ => true | _ => false end.

(** Unchecked C++ indexing [v\[i\]]: out-of-bounds is undefined behaviour. *)
Definition rd {A} (v : list A) (i : nat) : res A :=
  match nth_error v i with
  | Some x => Ok x
  | None => UB
  end.

(** Functional update of one slot; out of range leaves the list as it is. *)
Fixpoint upd {A} (v : list A) (i : nat) (x : A) : list A :=
  match v, i with
  | [], _ => []
  | _ :: t, 0 => x :: t
  | h :: t, S i => h :: upd t i x
  end.

(** Unchecked C++ store [v\[i\] = x]. *)
Definition wr {A} (v : list A) (i : nat) (x : A) : res (list A) :=
  if i <? length v then Ok (upd v i x) else UB.

(** [std::vector::resize(n, d)]. *)
Definition vresize {A} (n : nat) (d : A) (v : list A) : list A :=
  firstn n v ++ repeat d (n - length v).

(** [for (i = 0; i < n; i++) s = f(i, s)]. *)
Fixpoint iterM {S} (n : nat) (f : nat -> S -> res S) (s : S) : res S :=
  match n with
  | 0 => Ok s
  | Datatypes.S n => let* s := iterM n f s in f n s
  end.

(** A freshly filled vector: [for (i = 0; i < n; i++) v\[i\] = f(i)]. *)
Fixpoint tabM {A} (n : nat) (f : nat -> res A) : res (list A) :=
  match n with
  | 0 => Ok []
  | S n => let* v := tabM n f in let* x := f n in Ok (v ++ [x])
  end.

(** Pure counterpart of [tabM]. *)
Definition tab {A} (n : nat) (f : nat -> A) : list A := map f (seq 0 n).

(** Visit the elements of a list in order, threading a state. *)
Fixpoint foldM {A S} (f : S -> A -> res S) (l : list A) (s : S) : res S :=
  match l with
  | [] => Ok s
  | x :: l => let* s := f s x in foldM f l s
  end.

Fixpoint mapM {A B} (f : A -> res B) (l : list A) : res (list B) :=
  match l with
  | [] => Ok []
  | x :: l => let* y := f x in let* ys := mapM f l in Ok (y :: ys)
  end.

(** ** Code with a state: the object as it is left, and the outcome of the call.  An exception
    leaves the object as modified so far. *)
Definition stm (S A : Type) : Type := S -> S * res A.

Definition sret {S A} (a : A) : stm S A := fun s => (s, Ok a).
Definition sthrow {S A} (e : exn) : stm S A := fun s => (s, Throw e).
Definition sub {S A} : stm S A := fun s => (s, UB).
Definition slift {S A} (r : res A) : stm S A := fun s => (s, r).
Definition sget {S} : stm S S := fun s => (s, Ok s).
Definition sput {S} (s : S) : stm S unit := fun _ => (s, Ok tt).
Definition smod {S} (f : S -> S) : stm S unit := fun s => (f s, Ok tt).
Definition sbind {S A B} (m : stm S A) (f : A -> stm S B) : stm S B := fun s =>
  match m s with
  | (s, Ok a) => f a s
  | (s, Throw e) => (s, Throw e)
  | (s, UB) => (s, UB)
  end.
Definition swhen {S} (b : bool) (m : stm S unit) : stm S unit := if b then m else sret tt.

Notation "'do*' x ':=' m 'in' k" := (sbind m (fun x => k))
  (at level 200, x pattern, m at level 100, k at level 200).

(** [for (auto x : l) f(x)]. *)
Fixpoint sforeach {S X} (l : list X) (f : X -> stm S unit) : stm S unit :=
  match l with
  | [] => sret tt
  | x :: l => do* _ := f x in sforeach l f
  end.
