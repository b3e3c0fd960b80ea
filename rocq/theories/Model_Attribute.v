(** Model of src/core/common/xmmAttribute.hpp and xmmAttribute.cpp. *)
From Coq Require Import List Bool Arith.
From Verif Require Import Base.
Import ListNotations.

(** xmmAttribute.cpp 41-102: [checkLimits<T>] for the arithmetic types
    ([unsigned char, char, unsigned, int, long, float, double]).  [ltb] is the C++ [<] of the
    type; [value > limit_max] is [limit_max < value]. *)
Definition checkLimits {T} (ltb : T -> T -> bool) (value limit_min limit_max : T) : res unit :=
  if ltb value limit_min || ltb limit_max value then Throw DomainError else Ok tt.

(** xmmAttribute.cpp 36-38 and 104-107: no check for [bool] and [std::string]. *)
Definition checkLimits_none {T} (value limit_min limit_max : T) : res unit := Ok tt.

(** xmmAttribute.hpp 118-262: [Attribute<T>].  A callback is represented by the identity of
    the listener it was bound to ([std::bind(listenerMethod, owner, _1)], 122-132). *)
Record attr (T : Type) := mkAttr {
  a_val : T;
  a_min : T;
  a_max : T;
  a_changed : bool;
  a_cb : option nat
}.
Arguments mkAttr {T}. Arguments a_val {T}. Arguments a_min {T}. Arguments a_max {T}.
Arguments a_changed {T}. Arguments a_cb {T}.

(** A listener invocation: who is called, and the value it reads through [get()]. *)
Definition call (T : Type) : Type := (nat * T)%type.

Section Attr.
  Context {T : Type}.
  (** The [checkLimits] specialisation of [T]. *)
  Variable check : T -> T -> T -> res unit.

  (** xmmAttribute.hpp 192-197: [set(value, silently)].  Returns the new state, the outcome and
      the listener calls.  A throwing listener is not modelled here (see Model_Shared). *)
  Definition attr_set (a : attr T) (v : T) (silently : bool)
    : attr T * res unit * list (call T) :=
    match check v (a_min a) (a_max a) with
    | Ok _ =>
        (mkAttr v (a_min a) (a_max a) true (a_cb a), Ok tt,
         match silently, a_cb a with
         | false, Some l => [(l, v)]
         | _, _ => []
         end)
    | Throw e => (a, Throw e, [])
    | UB => (a, UB, [])
    end.

  (** xmmAttribute.hpp 148-153: constructor; throws if [value] is outside the limits. *)
  Definition attr_ctor (v lo hi : T) : res (attr T) :=
    let* _ := check v lo hi in Ok (mkAttr v lo hi false None).

  (** xmmAttribute.hpp 160-165: copy constructor; the listener is not copied. *)
  Definition attr_copy (src : attr T) : attr T :=
    mkAttr (a_val src) (a_min src) (a_max src) false None.

  (** Assignment between attributes of the same type.  The member template [operator=]
      (xmmAttribute.hpp 173-182) is not a copy-assignment operator, so the implicitly declared one
      is chosen: it copies every member, including [changed] and [callback_]. *)
  Definition attr_assign (dst src : attr T) : attr T := src.

  (** xmmAttribute.hpp 209-231: limit setters; the current value is not checked again. *)
  Definition attr_setMin (a : attr T) (lo : T) : attr T :=
    mkAttr (a_val a) lo (a_max a) (a_changed a) (a_cb a).
  Definition attr_setMax (a : attr T) (hi : T) : attr T :=
    mkAttr (a_val a) (a_min a) hi (a_changed a) (a_cb a).
  Definition attr_setLimits (a : attr T) (lo hi : T) : attr T :=
    attr_setMax (attr_setMin a lo) hi.

  (** xmmAttribute.hpp 122-132: [onAttributeChange(owner, method)]; a null owner unregisters. *)
  Definition attr_listen (a : attr T) (owner : option nat) : attr T :=
    mkAttr (a_val a) (a_min a) (a_max a) (a_changed a) owner.

  (** The public operations on an attribute. *)
  Inductive aop :=
  | ASet (v : T) (silently : bool)
  | ASetMin (lo : T)
  | ASetMax (hi : T)
  | ASetLimits (lo hi : T)
  | AListen (owner : option nat).

  Definition attr_step (a : attr T) (o : aop) : attr T * res unit * list (call T) :=
    match o with
    | ASet v s => attr_set a v s
    | ASetMin lo => (attr_setMin a lo, Ok tt, [])
    | ASetMax hi => (attr_setMax a hi, Ok tt, [])
    | ASetLimits lo hi => (attr_setLimits a lo hi, Ok tt, [])
    | AListen o => (attr_listen a o, Ok tt, [])
    end.

  (** Run a history; a thrown exception is caught by the caller, who goes on. *)
  Fixpoint attr_run (a : attr T) (ops : list aop) : attr T * list (call T) :=
    match ops with
    | [] => (a, [])
    | o :: ops =>
        let '(a1, _, c) := attr_step a o in
        let '(a2, cs) := attr_run a1 ops in
        (a2, c ++ cs)
    end.

  (** ** [Attribute<std::vector<T>>], xmmAttribute.hpp 271-451 *)
  Record vattr := mkVattr {
    va_val : list T;
    va_min : T;
    va_max : T;
    va_size : nat;
    va_changed : bool;
    va_cb : option nat
  }.

  (** xmmAttribute.hpp 341-344: limits are checked element by element. *)
  Fixpoint check_all (lo hi : T) (v : list T) : res unit :=
    match v with
    | [] => Ok tt
    | x :: v => let* _ := check x lo hi in check_all lo hi v
    end.

  (** xmmAttribute.hpp 337-349: [set]. *)
  Definition vattr_set (a : vattr) (v : list T) (silently : bool)
    : vattr * res unit * list (nat * list T) :=
    if (0 <? va_size a) && negb (length v =? va_size a) then (a, Throw DomainError, [])
    else
      match check_all (va_min a) (va_max a) v with
      | Ok _ =>
          (mkVattr v (va_min a) (va_max a) (va_size a) true (va_cb a), Ok tt,
           match silently, va_cb a with
           | false, Some l => [(l, v)]
           | _, _ => []
           end)
      | Throw e => (a, Throw e, [])
      | UB => (a, UB, [])
      end.

  (** xmmAttribute.hpp 362-368: [at(index)]; inside the size check the access is unchecked. *)
  Definition vattr_at (a : vattr) (i : nat) : res T :=
    if i <? va_size a then rd (va_val a) i else Throw OutOfRange.

  (** xmmAttribute.hpp 402-405: [resize]; [d] is [T()]. *)
  Definition vattr_resize (d : T) (a : vattr) (n : nat) : vattr :=
    mkVattr (vresize n d (va_val a)) (va_min a) (va_max a) n (va_changed a) (va_cb a).

  (** xmmAttribute.hpp 411: [size()]. *)
  Definition vattr_sizeof (a : vattr) : nat := length (va_val a).

  Inductive vop := VSet (v : list T) (silently : bool) | VResize (n : nat).

  Definition vattr_step (d : T) (a : vattr) (o : vop) : vattr :=
    match o with
    | VSet v s => fst (fst (vattr_set a v s))
    | VResize n => vattr_resize d a n
    end.
End Attr.
