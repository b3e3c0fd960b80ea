(** Specifications for attributes, event generators and circular buffers.  They are stated on
    histories of public operations and do not use the functions of the model. *)
From Coq Require Import List Bool Arith.
From Verif Require Import Base Model_Attribute Model_Events Model_Ring.
Import ListNotations.

(** ** Attributes: what a history of operations means *)
Section AttrSpec.
  Context {T : Type}.
  Variable ltb : T -> T -> bool.

  (** The limits in force after a history: those set last. *)
  Fixpoint limits_after (lo hi : T) (ops : list (@aop T)) : T * T :=
    match ops with
    | [] => (lo, hi)
    | ASetMin lo' :: ops => limits_after lo' hi ops
    | ASetMax hi' :: ops => limits_after lo hi' ops
    | ASetLimits lo' hi' :: ops => limits_after lo' hi' ops
    | _ :: ops => limits_after lo hi ops
    end.

  (** The listener in force after a history: the one registered last. *)
  Fixpoint listener_after (l : option nat) (ops : list (@aop T)) : option nat :=
    match ops with
    | [] => l
    | AListen o :: ops => listener_after o ops
    | _ :: ops => listener_after l ops
    end.

  Definition in_range (lo hi v : T) : bool := negb (ltb v lo) && negb (ltb hi v).

  (** Operation number [i] is a [set] whose value is inside the limits in force at that time. *)
  Definition accepted_at (lo hi : T) (ops : list (@aop T)) (i : nat) : option (T * bool) :=
    match nth_error ops i with
    | Some (ASet v s) =>
        let '(lo', hi') := limits_after lo hi (firstn i ops) in
        if in_range lo' hi' v then Some (v, s) else None
    | _ => None
    end.

  (** The listener calls a history must produce, in order: one per accepted, non-silent set, to
      the listener registered at that time. *)
  Definition expected_calls (lo hi : T) (l : option nat) (ops : list (@aop T)) : list (nat * T) :=
    flat_map (fun i =>
      match accepted_at lo hi ops i, listener_after l (firstn i ops) with
      | Some (v, false), Some o => [(o, v)]
      | _, _ => []
      end) (seq 0 (length ops)).

  (** [v] is the value a history must leave: that of the last accepted set, or the initial one. *)
  Definition expected_value (lo hi v0 : T) (ops : list (@aop T)) (v : T) : Prop :=
    (exists i s, accepted_at lo hi ops i = Some (v, s) /\
                 forall j, i < j -> accepted_at lo hi ops j = None)
    \/ (v = v0 /\ forall j, accepted_at lo hi ops j = None).

  (** A limit operation that keeps [v] inside; other operations are unconstrained. *)
  Definition no_tightening_below (v lo hi : T) (o : @aop T) : Prop :=
    match o with
    | ASetMin lo' => ltb v lo' = false
    | ASetMax hi' => ltb hi' v = false
    | ASetLimits lo' hi' => ltb v lo' = false /\ ltb hi' v = false
    | _ => True
    end.

  (** Invariant: no limit operation of the history excludes the value current at that point. *)
  Fixpoint never_tightened (a : attr T) (ops : list aop) : Prop :=
    match ops with
    | [] => True
    | o :: ops => no_tightening_below (a_val a) (a_min a) (a_max a) o /\
                  never_tightened (fst (fst (attr_step (checkLimits ltb) a o))) ops
    end.
End AttrSpec.

(** ** Event generators *)
Section EventSpec.
  Context {C : Type}.

  (** The part of a history after the last removal of [o]. *)
  Fixpoint since_removal (o : nat) (ops : list (@lop C)) : list lop :=
    match ops with
    | [] => []
    | op :: ops' =>
        let removes op := match op with LRemove o' => o' =? o | LClear => true | _ => false end in
        if existsb removes ops' then since_removal o ops'
        else if removes op then ops' else op :: ops'
    end.

  (** The first callback added for [o] in a history. *)
  Fixpoint first_added (o : nat) (ops : list (@lop C)) : option C :=
    match ops with
    | [] => None
    | LAdd o' cb :: ops => if o' =? o then Some cb else first_added o ops
    | _ :: ops => first_added o ops
    end.

  (** The callback that owner [o] must have after a history. *)
  Definition registered (ops : list (@lop C)) (o : nat) : option C :=
    first_added o (since_removal o ops).
End EventSpec.

(** ** Circular buffers: the values a window of length [L] must hold after pushing [vs] *)
Definition last_n {A} (L : nat) (vs : list A) : list A := skipn (length vs - L) vs.

Section RingSpec.
  Context {T : Type}.
  (** Well-formed buffers: as built by the constructor and kept by every operation. *)
  Definition ring_wf (ch : nat) (r : ring T) : Prop :=
    length (r_data r) = ch /\
    (forall c, c < ch -> length (nth c (r_data r) []) = r_length r) /\
    r_index r <= r_length r /\ (0 < r_length r -> r_index r < r_length r).
End RingSpec.
