(** Model of src/core/trainingset/xmmPhrase.hpp and xmmPhrase.cpp.
    Unsigned arithmetic is modelled without wrap-around: lengths and sizes are naturals, and a
    subtraction of unsigned values that would be negative is undefined behaviour (the code would
    use the wrapped value as a size). *)
From Coq Require Import String List Bool Arith ZArith QArith.
From Verif Require Import Base Arith Model_Attribute Model_Events Model_Json.
Import ListNotations.
Local Open Scope nat_scope.

Section Phrase.
  Context {A : arith}.
  Local Notation T := (num A).
  Local Notation J := (json A).

  (** What a [float*] points to: an indeterminate pointer, null, or an array whose cells may be
      uninitialised. *)
  Inductive block := Wild | Null | Blk (cells : list (option T)).

  Definition rdb (b : block) (i : nat) : res T :=
    match b with
    | Blk c => let* o := rd c i in match o with Some x => Ok x | None => UB end
    | _ => UB
    end.
  Definition wrb (b : block) (i : nat) (x : T) : res block :=
    match b with
    | Blk c => let* c := wr c i (Some x) in Ok (Blk c)
    | _ => UB
    end.

  (** [std::copy(l.begin(), l.end(), b + off)]. *)
  Fixpoint copy_to (b : block) (off : nat) (l : list T) : res block :=
    match l with
    | [] => Ok b
    | x :: l => let* b := wrb b off x in copy_to b (S off) l
    end.

  (** The elements [begin() + a .. begin() + b] of a vector. *)
  Definition slice (l : list T) (a b : nat) : res (list T) :=
    if (a <=? b) && (b <=? length l) then Ok (firstn (b - a) (skipn a l)) else UB.

  (** [new float\[n\]]: uninitialised. *)
  Definition new_block (n : nat) : block := Blk (repeat None n).

  (** The first [n] cells, copied by [std::copy] (copying an uninitialised float is taken to be
      harmless). *)
  Definition cells_of (b : block) (n : nat) : res (list (option T)) :=
    match b with
    | Blk c => if n <=? length c then Ok (firstn n c) else UB
    | Null | Wild => if n =? 0 then Ok [] else UB
    end.

  (** xmmPhrase.hpp 526-539: [reallocate(src, dim_src, dim_dst)]. *)
  Definition reallocate (src : block) (dim_src dim_dst : nat) : res block :=
    match src with
    | Null => Ok (new_block dim_dst)
    | Wild => UB
    | Blk c =>
        let n := if dim_src <? dim_dst then dim_src else dim_dst in
        let* l := cells_of src n in
        Ok (Blk (l ++ repeat None (dim_dst - n)))
    end.

  (** [delete\[\] p]. *)
  Definition delete_array (b : block) : res unit :=
    match b with Wild => UB | _ => Ok tt end.

  (** [delete p] on a pointer that came from [new float\[n\]].  The standard makes this undefined;
      common allocators treat it as [delete\[\]].  [strict] selects the reading. *)
  Definition delete_scalar (strict : bool) (b : block) : res unit :=
    match b with
    | Wild => UB
    | Null => Ok tt
    | Blk _ => if strict then UB else Ok tt
    end.

  (** Subtraction of [unsigned int]s. *)
  Definition usub (a b : nat) : res nat := if b <=? a then Ok (a - b) else UB.

  (** xmmPhrase.hpp 437-518: members.  For [dimension] only the lower limit is kept (the upper
      one is the largest unsigned value, never exceeded); [dimension_input] has both.  The
      listener of the attributes is the phrase itself, registered by every constructor and by
      [operator=].  [p_d1] stands for [data_\[1\]], which exists only when bimodal.  In shared
      mode the blocks are the user's arrays as they were when connected. *)
  Record phrase := mkPhrase {
    p_own : bool;
    p_bim : bool;
    p_empty : bool;
    p_len : nat;
    p_ilen : nat;
    p_olen : nat;
    p_max : nat;
    p_dim : nat;
    p_dim_min : nat;
    p_din : nat;
    p_din_min : nat;
    p_din_max : nat;
    p_label : string;
    p_cols : list string;
    p_d0 : block;
    p_d1 : block;
    p_events : listeners nat
  }.

  Definition set_lens (e : bool) (l i o : nat) (p : phrase) : phrase :=
    mkPhrase (p_own p) (p_bim p) e l i o (p_max p) (p_dim p) (p_dim_min p) (p_din p) (p_din_min p)
      (p_din_max p) (p_label p) (p_cols p) (p_d0 p) (p_d1 p) (p_events p).
  Definition set_len l p := set_lens (p_empty p) l (p_ilen p) (p_olen p) p.
  Definition set_ilen i p := set_lens (p_empty p) (p_len p) i (p_olen p) p.
  Definition set_olen o p := set_lens (p_empty p) (p_len p) (p_ilen p) o p.
  Definition set_empty e p := set_lens e (p_len p) (p_ilen p) (p_olen p) p.
  Definition set_mem (m : nat) (d0 d1 : block) (p : phrase) : phrase :=
    mkPhrase (p_own p) (p_bim p) (p_empty p) (p_len p) (p_ilen p) (p_olen p) m (p_dim p)
      (p_dim_min p) (p_din p) (p_din_min p) (p_din_max p) (p_label p) (p_cols p) d0 d1 (p_events p).
  Definition set_max m p := set_mem m (p_d0 p) (p_d1 p) p.
  Definition set_d0 d p := set_mem (p_max p) d (p_d1 p) p.
  Definition set_d1 d p := set_mem (p_max p) (p_d0 p) d p.
  Definition set_dims (dim din din_min din_max : nat) (p : phrase) : phrase :=
    mkPhrase (p_own p) (p_bim p) (p_empty p) (p_len p) (p_ilen p) (p_olen p) (p_max p) dim
      (p_dim_min p) din din_min din_max (p_label p) (p_cols p) (p_d0 p) (p_d1 p) (p_events p).
  Definition set_cols (c : list string) (p : phrase) : phrase :=
    mkPhrase (p_own p) (p_bim p) (p_empty p) (p_len p) (p_ilen p) (p_olen p) (p_max p) (p_dim p)
      (p_dim_min p) (p_din p) (p_din_min p) (p_din_max p) (p_label p) c (p_d0 p) (p_d1 p) (p_events p).
  Definition set_label (l : string) (p : phrase) : phrase :=
    mkPhrase (p_own p) (p_bim p) (p_empty p) (p_len p) (p_ilen p) (p_olen p) (p_max p) (p_dim p)
      (p_dim_min p) (p_din p) (p_din_min p) (p_din_max p) l (p_cols p) (p_d0 p) (p_d1 p) (p_events p).
  Definition set_events (e : listeners nat) (p : phrase) : phrase :=
    mkPhrase (p_own p) (p_bim p) (p_empty p) (p_len p) (p_ilen p) (p_olen p) (p_max p) (p_dim p)
      (p_dim_min p) (p_din p) (p_din_min p) (p_din_max p) (p_label p) (p_cols p) (p_d0 p) (p_d1 p) e.

  (** xmmPhrase.cpp 36-55: constructor. *)
  Definition phrase_new (own bim : bool) : phrase :=
    mkPhrase own bim true 0 0 0 0
      (if bim then 2 else 1) (if bim then 2 else 1)
      (if bim then 1 else 0) (if bim then 1 else 0) (if bim then 2 else 0)
      EmptyString [] Null Null [].

  (** xmmPhrase.cpp 537-542: [trim()]. *)
  Definition trim : stm phrase unit :=
    do* p := sget in
    if p_bim p then
      smod (fun p => set_empty (Nat.max (p_ilen p) (p_olen p) =? 0)
                       (set_len (Nat.min (p_ilen p) (p_olen p)) p))
    else sret tt.

  Definition block_size : nat := 256.

  (** xmmPhrase.cpp 544-557: [reallocateLength()]. *)
  Definition reallocateLength : stm phrase unit :=
    do* p := sget in
    let md := if p_bim p then p_din p else p_dim p in
    do* d0 := slift (reallocate (p_d0 p) (p_max p * md) ((p_max p + block_size) * md)) in
    do* _ := smod (set_d0 d0) in
    do* _ := swhen (p_bim p)
      (do* od := slift (usub (p_dim p) (p_din p)) in
       do* d1 := slift (reallocate (p_d1 p) (p_max p * od) ((p_max p + block_size) * od)) in
       smod (set_d1 d1)) in
    smod (fun p => set_max (p_max p + block_size) p).

  (** xmmPhrase.cpp 346-377: [record]. *)
  Definition record (obs : list T) : stm phrase unit :=
    do* p := sget in
    if negb (p_own p) then sthrow RuntimeError
    else if p_bim p && negb (p_ilen p =? p_olen p) then sthrow RuntimeError
    else if negb (length obs =? p_dim p) then sthrow InvalidArgument
    else
      do* _ := swhen ((p_max p <=? p_len p) || (p_max p =? 0)) reallocateLength in
      do* _ :=
        (if p_bim p then
           do* xs := slift (slice obs 0 (p_din p)) in
           do* p := sget in
           do* d0 := slift (copy_to (p_d0 p) (p_ilen p * p_din p) xs) in
           do* _ := smod (set_d0 d0) in
           do* ys := slift (slice obs (p_din p) (p_dim p)) in
           do* od := slift (usub (p_dim p) (p_din p)) in
           do* p := sget in
           do* d1 := slift (copy_to (p_d1 p) (p_olen p * od) ys) in
           do* _ := smod (set_d1 d1) in
           do* _ := smod (fun p => set_ilen (S (p_ilen p)) p) in
           smod (fun p => set_olen (S (p_olen p)) p)
         else
           do* p := sget in
           do* d0 := slift (copy_to (p_d0 p) (p_len p * p_dim p) obs) in
           do* _ := smod (set_d0 d0) in
           smod (fun p => set_ilen (S (p_ilen p)) p)) in
      do* _ := smod (fun p => set_len (S (p_len p)) p) in
      smod (set_empty false).

  (** xmmPhrase.cpp 379-396: [record_input]. *)
  Definition record_input (obs : list T) : stm phrase unit :=
    do* p := sget in
    if negb (p_own p) then sthrow RuntimeError
    else if negb (p_bim p) then sthrow RuntimeError
    else if negb (length obs =? p_din p) then sthrow InvalidArgument
    else
      do* _ := swhen ((p_max p <=? p_ilen p) || (p_max p =? 0)) reallocateLength in
      do* p := sget in
      do* d0 := slift (copy_to (p_d0 p) (p_ilen p * p_din p) obs) in
      do* _ := smod (set_d0 d0) in
      do* _ := smod (fun p => set_ilen (S (p_ilen p)) p) in
      do* _ := trim in
      smod (set_empty false).

  (** xmmPhrase.cpp 398-416: [record_output]. *)
  Definition record_output (obs : list T) : stm phrase unit :=
    do* p := sget in
    if negb (p_own p) then sthrow RuntimeError
    else if negb (p_bim p) then sthrow RuntimeError
    else
      do* od := slift (usub (p_dim p) (p_din p)) in
      if negb (length obs =? od) then sthrow InvalidArgument
      else
        do* _ := swhen ((p_max p <=? p_olen p) || (p_max p =? 0)) reallocateLength in
        do* p := sget in
        do* d1 := slift (copy_to (p_d1 p) (p_olen p * od) obs) in
        do* _ := smod (set_d1 d1) in
        do* _ := smod (fun p => set_olen (S (p_olen p)) p) in
        do* _ := trim in
        smod (set_empty false).

  (** xmmPhrase.cpp 418-426: [clear]. *)
  Definition clear : stm phrase unit :=
    do* p := sget in
    if negb (p_own p) then sthrow RuntimeError
    else smod (set_lens true 0 0 0).

  (** xmmPhrase.cpp 428-434: [clearInput]. *)
  Definition clearInput : stm phrase unit :=
    do* p := sget in
    if negb (p_own p) then sthrow RuntimeError
    else
      do* _ := swhen (negb (p_bim p)) (smod (set_len 0)) in
      do* _ := smod (set_ilen 0) in
      trim.

  (** xmmPhrase.cpp 436-442: [clearOutput]. *)
  Definition clearOutput : stm phrase unit :=
    do* p := sget in
    if negb (p_own p) then sthrow RuntimeError
    else
      do* _ := swhen (negb (p_bim p)) (smod (set_len 0)) in
      do* _ := smod (set_olen 0) in
      trim.

  (** xmmPhrase.cpp 233-252: [getValue(index, dim)]. *)
  Definition getValue (p : phrase) (index dim : nat) : res T :=
    if p_dim p <=? dim then Throw OutOfRange
    else if p_bim p then
      if dim <? p_din p then
        if p_ilen p <=? index then Throw OutOfRange
        else rdb (p_d0 p) (index * p_din p + dim)
      else
        if p_olen p <=? index then Throw OutOfRange
        else
          let* od := usub (p_dim p) (p_din p) in
          rdb (p_d1 p) (index * od + dim - p_din p)
    else
      if p_len p <=? index then Throw OutOfRange
      else rdb (p_d0 p) (index * p_dim p + dim).

  (** xmmPhrase.cpp 559-585: [onAttributeChange] for [dimension] ([isdim]) or
      [dimension_input]. *)
  Definition on_dim_change (strict isdim : bool) : stm phrase unit :=
    do* _ := smod (set_lens true 0 0 0) in
    do* _ := smod (set_max 0) in
    do* p := sget in
    do* _ := swhen (p_own p) (slift (delete_scalar strict (p_d0 p))) in
    do* _ := smod (set_d0 Null) in
    do* _ := swhen (p_bim p)
      (do* _ := swhen (p_own p) (smod (set_d1 Null)) in
       do* p := sget in
       (* in shared mode this deletes the user's array *)
       slift (match p_d1 p with Null => Ok tt | _ => UB end)) in
    do* _ := smod (fun p => set_cols (vresize (p_dim p) EmptyString (p_cols p)) p) in
    swhen isdim (smod (fun p => set_dims (p_dim p) (p_din p) (p_din_min p) (p_dim p - 1) p)).

  (** [dimension.set(n)] and [dimension_input.set(n)] (xmmAttribute.hpp 192-197), not silent. *)
  Definition set_dimension (strict : bool) (n : nat) : stm phrase unit :=
    do* p := sget in
    do* _ := slift (checkLimits Nat.ltb n (p_dim_min p) (Nat.max n (p_dim_min p))) in
    do* _ := smod (fun p => set_dims n (p_din p) (p_din_min p) (p_din_max p) p) in
    on_dim_change strict true.
  Definition set_dimension_input (strict : bool) (n : nat) : stm phrase unit :=
    do* p := sget in
    do* _ := slift (checkLimits Nat.ltb n (p_din_min p) (p_din_max p)) in
    do* _ := smod (fun p => set_dims (p_dim p) n (p_din_min p) (p_din_max p) p) in
    on_dim_change strict false.

  (** [label.set(s)]: the listener notifies the phrase's own listeners (xmmPhrase.cpp 580-583);
      the second component is the list of callbacks called. *)
  Definition set_label_notify (s : string) (p : phrase) : phrase * list (nat * unit) :=
    (set_label s p, ev_notify (p_events p) tt).

  (** The part of the copy constructor (xmmPhrase.cpp 69-85) and of [operator=] (184-201) that
      builds [data_] for an own-memory source. *)
  Definition copy_blocks (src : phrase) : res (block * block) :=
    if 0 <? p_max src then
      let md := if p_bim src then p_din src else p_dim src in
      let* l0 := cells_of (p_d0 src) (p_max src * md) in
      if p_bim src then
        let* od := usub (p_dim src) (p_din src) in
        let* l1 := cells_of (p_d1 src) (p_max src * od) in
        Ok (Blk l0, Blk l1)
      else Ok (Blk l0, Wild)
    else Ok (Wild, Wild).

  (** xmmPhrase.cpp 57-91: copy constructor.  In shared mode [data_] itself is never allocated
      before [data_\[0\]] is written. *)
  Definition phrase_copy (src : phrase) : res phrase :=
    if p_own src then
      let* (b0, b1) := copy_blocks src in
      Ok (set_events [] (set_mem (p_max src) b0 b1 src))
    else UB.

  (** xmmPhrase.cpp 152-209: [operator=] (for [this != &src]).  The old arrays are released
      first; for a shared source [data_] is null or of the wrong kind when it is written. *)
  Definition phrase_assign (dst src : phrase) : res phrase :=
    let* _ := (if p_own dst then
                 let* _ := (if p_bim dst then delete_array (p_d1 dst) else Ok tt) in
                 delete_array (p_d0 dst)
               else Ok tt) in
    if p_own src then
      let* (b0, b1) := copy_blocks src in
      Ok (set_events (p_events dst) (set_mem (p_max src) b0 b1 src))
    else if p_own dst then UB (* data_ == NULL *)
    else Ok (set_events (p_events dst) src).

  (** xmmPhrase.cpp 211-219: destructor. *)
  Definition phrase_destroy (p : phrase) : res unit :=
    if p_own p then
      let* _ := (if p_bim p then delete_array (p_d1 p) else Ok tt) in
      delete_array (p_d0 p)
    else Ok tt.

  (** xmmPhrase.cpp 444-462: [toJson]. *)
  Definition phrase_toJson (p : phrase) : res J :=
    let base := [("bimodal", JBool (p_bim p));
                 ("dimension", JInt (Z.of_nat (p_dim p)));
                 ("dimension_input", JInt (Z.of_nat (p_din p)));
                 ("length", JInt (Z.of_nat (p_len p)));
                 ("label", JStr (p_label p))]%string
                ++ match p_cols p with
                   | [] => []
                   | c => [("column_names"%string, JArr (map JStr c))]
                   end in
    if p_bim p then
      let* di := array2json JReal (rdb (p_d0 p)) (p_len p * p_din p) in
      let* od := usub (p_dim p) (p_din p) in
      let* dout := array2json JReal (rdb (p_d1 p)) (p_len p * od) in
      Ok (JObj (base ++ [("data_input", di); ("data_output", dout)]%string))
    else
      let* d := array2json JReal (rdb (p_d0 p)) (p_len p * p_dim p) in
      Ok (JObj (base ++ [("data"%string, d)])).

  (** Conversion of an [int] to [unsigned int]. *)
  Definition to_unsigned (z : Z) : nat := Z.to_nat (z mod 2 ^ 32).

  (** [json2array] into a block: the cells of a fresh array. *)
  Definition load_block (cv : conv A) (root : J) (n : nat) : res block :=
    let '(cells, out) := json2array (fun j => let* x := as_float cv j in Ok (Some x))
                           root (repeat None n) n in
    let* _ := out in Ok (Blk cells).

  (** xmmPhrase.cpp 93-150: construction from JSON. *)
  Definition phrase_ofJson (cv : conv A) (root : J) : res phrase :=
    let* b := jget root "bimodal" (JBool false) in
    let* bim := as_bool b in
    let dmin := if bim then 2 else 1 in
    let* d := jget root "dimension" (JInt (if bim then 2 else 1)) in
    let* d := as_int cv d in
    let dim := to_unsigned d in
    let* _ := checkLimits Nat.ltb dim dmin (Nat.max dim dmin) in
    let '(imin, imax) := if bim then (1, dim - 1) else (0, 0) in
    let* di := jget root "dimension_input" (JInt (if bim then 1 else 0)) in
    let* di := as_int cv di in
    let din := to_unsigned di in
    let* _ := checkLimits Nat.ltb din imin imax in
    let* names := jmember root "column_names" in
    let* cols := iterM (jsize names) (fun i cols =>
                   let* n := jindex names i (JStr "") in
                   let* s := as_string cv n in
                   wr cols i s) (repeat EmptyString dim) in
    let* lab := jmember root "label" in
    let* lab := as_string cv lab in
    let* len := jget root "length" (JInt 0) in
    let* len := as_int cv len in
    let len := to_unsigned len in
    let e := len =? 0 in
    if bim then
      let* ji := jmember root "data_input" in
      let* b0 := load_block cv ji (len * din) in
      let* od := usub dim din in
      let* jo := jmember root "data_output" in
      let* b1 := load_block cv jo (len * od) in
      Ok (mkPhrase true true e len len len len dim dmin din imin imax lab cols b0 b1 [])
    else
      let* jd := jmember root "data" in
      let* b0 := load_block cv jd (len * dim) in
      Ok (mkPhrase true false e len len len len dim dmin din imin imax lab cols b0 Wild []).

  (** xmmPhrase.cpp 464-471: [fromJson]: a temporary, then [operator=]. *)
  Definition phrase_fromJson (cv : conv A) (p : phrase) (root : J) : res phrase :=
    let* tmp := phrase_ofJson cv root in
    let* p := phrase_assign p tmp in
    let* _ := phrase_destroy tmp in
    Ok p.

  (** xmmPhrase.cpp 282-344: [connect] (unimodal and bimodal), [connect_input],
      [connect_output], [disconnect]. *)
  Definition connect (arr : list T) (length : nat) : stm phrase unit :=
    do* p := sget in
    if p_own p then sthrow RuntimeError
    else if p_bim p then sthrow RuntimeError
    else
      do* _ := smod (set_d0 (Blk (map Some arr))) in
      do* _ := smod (set_ilen length) in
      do* _ := smod (set_len length) in
      smod (set_empty false).
  Definition connect2 (arr_in arr_out : list T) (length : nat) : stm phrase unit :=
    do* p := sget in
    if p_own p then sthrow RuntimeError
    else if negb (p_bim p) then sthrow RuntimeError
    else
      do* _ := smod (set_d0 (Blk (map Some arr_in))) in
      do* _ := smod (set_d1 (Blk (map Some arr_out))) in
      do* _ := smod (set_ilen length) in
      do* _ := smod (set_olen length) in
      do* _ := trim in
      smod (set_empty false).
  Definition connect_input (arr : list T) (length : nat) : stm phrase unit :=
    do* p := sget in
    if p_own p then sthrow RuntimeError
    else if negb (p_bim p) then sthrow RuntimeError
    else
      do* _ := smod (set_d0 (Blk (map Some arr))) in
      do* _ := smod (set_ilen length) in
      do* _ := trim in
      smod (set_empty false).
  Definition connect_output (arr : list T) (length : nat) : stm phrase unit :=
    do* p := sget in
    if p_own p then sthrow RuntimeError
    else if negb (p_bim p) then sthrow RuntimeError
    else
      do* _ := smod (set_d1 (Blk (map Some arr))) in
      do* _ := smod (set_olen length) in
      do* _ := trim in
      smod (set_empty false).
  Definition disconnect : stm phrase unit :=
    do* p := sget in
    if p_own p then sthrow RuntimeError
    else
      do* _ := smod (set_d0 Null) in
      do* _ := swhen (p_bim p) (smod (set_d1 Null)) in
      smod (set_lens true 0 0 0).

  (** xmmPhrase.cpp 473-483: [mean()]. *)
  Definition phrase_mean (p : phrase) : res (list T) :=
    tabM (p_dim p) (fun d =>
      let* s := sumM (p_len p) (fun t => getValue p t d) in
      Ok (s / nN (p_len p))%num).

  (** xmmPhrase.cpp 485-499: [standardDeviation()]. *)
  Definition phrase_stddev (p : phrase) : res (list T) :=
    let* m := phrase_mean p in
    tabM (p_dim p) (fun d =>
      let* s := sumM (p_len p) (fun t =>
                  let* x := getValue p t d in
                  let* md := rd m d in
                  Ok ((x - md) * (x - md))%num) in
      Ok (nsqrt (s / nN (p_len p)))%num).

  (** The largest finite float, and [std::min]/[std::max]. *)
  Definition flt_max : T := nofQ (340282346638528859811704183484516925440 # 1)%Q.
  Definition std_min (a b : T) : T := if (b <? a)%num then b else a.
  Definition std_max (a b : T) : T := if (a <? b)%num then b else a.

  (** xmmPhrase.cpp 501-511: [minmax()]. *)
  Definition phrase_minmax (p : phrase) : res (list (T * T)) :=
    tabM (p_dim p) (fun d =>
      iterM (p_len p) (fun t mm =>
        let* x := getValue p t d in
        Ok (std_min x (fst mm), std_max x (snd mm))) (flt_max, nopp flt_max)).

  (** xmmPhrase.cpp 519-521, 525-527, 532-534: [p\[d\] -= offset\[d\]; p\[d\] *= gain\[d\]] for [d]
      from [lo] to [lo + n], [p] pointing to cell [base]. *)
  Definition rescale_loop (b : block) (base lo n : nat) (offset gain : list T) : res block :=
    iterM n (fun k b =>
      let d := lo + k in
      let* x := rdb b (base + d) in
      let* o := rd offset d in
      let* g := rd gain d in
      wrb b (base + d) ((x - o) * g)%num) b.

  (** xmmPhrase.cpp 513-535: [rescale]. *)
  Definition rescale (offset gain : list T) (p : phrase) : res phrase :=
    iterM (p_len p) (fun t p =>
      if p_bim p then
        let* b0 := rescale_loop (p_d0 p) (t * p_din p) 0 (p_din p) offset gain in
        let p := set_d0 b0 p in
        let* od := usub (p_dim p) (p_din p) in
        let* b1 := rescale_loop (p_d1 p) (t * od) (p_din p) (p_dim p - p_din p) offset gain in
        Ok (set_d1 b1 p)
      else
        let* b0 := rescale_loop (p_d0 p) (t * p_dim p) 0 (p_dim p) offset gain in
        Ok (set_d0 b0 p)) p.

  (** The recording interface of an own-memory phrase. *)
  Inductive pop :=
  | PRecord (x : list T)
  | PRecordIn (x : list T)
  | PRecordOut (x : list T)
  | PClear
  | PClearIn
  | PClearOut
  | PSetDim (n : nat)
  | PSetDimIn (n : nat).

  Definition phrase_step (strict : bool) (o : pop) : stm phrase unit :=
    match o with
    | PRecord x => record x
    | PRecordIn x => record_input x
    | PRecordOut x => record_output x
    | PClear => clear
    | PClearIn => clearInput
    | PClearOut => clearOutput
    | PSetDim n => set_dimension strict n
    | PSetDimIn n => set_dimension_input strict n
    end.

  (** A history: exceptions are caught by the caller, undefined behaviour ends it. *)
  Fixpoint phrase_run (strict : bool) (p : phrase) (ops : list pop) : res (phrase * list (res unit)) :=
    match ops with
    | [] => Ok (p, [])
    | o :: ops =>
        match phrase_step strict o p with
        | (_, UB) => UB
        | (p1, out) =>
            let* (p2, outs) := phrase_run strict p1 ops in
            Ok (p2, out :: outs)
        end
    end.
End Phrase.
