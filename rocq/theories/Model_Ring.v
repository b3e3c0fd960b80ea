(** Model of src/core/common/xmmCircularbuffer.hpp: [CircularBuffer<T, channels>]. *)
From Coq Require Import List Bool Arith.
From Verif Require Import Base Arith.
Import ListNotations.

(** xmmCircularbuffer.hpp 172-190: members.  [r_data] holds one vector per channel. *)
Record ring (T : Type) := mkRing {
  r_data : list (list T);
  r_length : nat;
  r_index : nat;
  r_full : bool
}.
Arguments mkRing {T}. Arguments r_data {T}. Arguments r_length {T}.
Arguments r_index {T}. Arguments r_full {T}.

Section Ring.
  Context {T : Type}.
  (** [T()], the value of slots created by [std::vector::resize]. *)
  Variable d : T.

  (** xmmCircularbuffer.hpp 54-61: constructor; [channels] is the template parameter. *)
  Definition ring_new (channels length : nat) : ring T :=
    mkRing (repeat (repeat d length) channels) length 0 false.

  (** xmmCircularbuffer.hpp 128: [size_t()]. *)
  Definition ring_size_t (r : ring T) : nat := if r_full r then r_length r else r_index r.

  (** xmmCircularbuffer.hpp 67-74: [operator()(channel, index)]. *)
  Definition ring_get (r : ring T) (channel index : nat) : res T :=
    if length (r_data r) <=? channel then Throw OutOfRange
    else if ring_size_t r <=? index then Throw OutOfRange
    else let* ch := rd (r_data r) channel in rd ch index.

  (** xmmCircularbuffer.hpp 79-82: [clear()]. *)
  Definition ring_clear (r : ring T) : ring T :=
    mkRing (r_data r) (r_length r) 0 false.

  (** xmmCircularbuffer.hpp 93-95 / 105-107 / 117-119: the index update after a store.
      [% length_] with length 0 is undefined. *)
  Definition ring_advance (r : ring T) (data : list (list T)) : res (ring T) :=
    let i := S (r_index r) in
    let full := if i =? r_length r then true else r_full r in
    if r_length r =? 0 then UB
    else Ok (mkRing data (r_length r) (i mod r_length r) full).

  (** xmmCircularbuffer.hpp 89-96: single-channel [push]. *)
  Definition ring_push1 (r : ring T) (v : T) : res (ring T) :=
    if 1 <? length (r_data r) then Throw InvalidArgument
    else
      let* ch := rd (r_data r) 0 in
      let* ch := wr ch (r_index r) v in
      let* data := wr (r_data r) 0 ch in
      ring_advance r data.

  (** xmmCircularbuffer.hpp 102-108 and 114-120: multi-channel [push]. *)
  Definition ring_push (r : ring T) (v : list T) : res (ring T) :=
    let* data := iterM (length (r_data r)) (fun c data =>
                   let* x := rd v c in
                   let* ch := rd data c in
                   let* ch := wr ch (r_index r) x in
                   wr data c ch) (r_data r) in
    ring_advance r data.

  (** xmmCircularbuffer.hpp 142-154: [resize]. *)
  Definition ring_resize (r : ring T) (len : nat) : ring T :=
    if len =? r_length r then r
    else
      let '(full, index) :=
        if r_length r <? len then (false, r_index r)
        else if len <=? r_index r then (true, 0)
        else (r_full r, r_index r) in
      mkRing (map (vresize len d) (r_data r)) len index full.

  (** A sequence of pushes. *)
  Fixpoint ring_pushes (r : ring T) (vs : list (list T)) : res (ring T) :=
    match vs with
    | [] => Ok r
    | v :: vs => let* r := ring_push r v in ring_pushes r vs
    end.
End Ring.

Section RingMean.
  Context {A : arith}.
  (** xmmCircularbuffer.hpp 160-170: [mean()]: sum of the visible slots of each channel, divided
      by their number (0/0 when there is none). *)
  Definition ring_mean (r : ring (num A)) : res (list (num A)) :=
    tabM (length (r_data r)) (fun c =>
      let* ch := rd (r_data r) c in
      let* s := sumM (ring_size_t r) (fun i => rd ch i) in
      Ok (s / nN (ring_size_t r))%num).
End RingMean.
