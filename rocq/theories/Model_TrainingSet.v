(** Model of src/core/trainingset/xmmTrainingSet.hpp and xmmTrainingSet.cpp.
    Phrases live in a heap and are referred to by number ([std::shared_ptr]).  Phrases are never
    freed in the model: the client is taken to keep a reference to each of them.  Exceptions of
    type [std::bad_alloc] are not modelled. *)
From Coq Require Import String List Bool Arith ZArith.
From Verif Require Import Base Arith Model_Map Model_Attribute Model_Events Model_Json Model_Phrase.
Import ListNotations.
Local Open Scope nat_scope.

Section TrainingSet.
  Context {A : arith}.
  Local Notation T := (num A).
  Local Notation J := (json A).
  Local Notation phrase := (phrase (A:=A)).

  (** One element of [sub_training_sets_] (xmmTrainingSet.hpp 361).  Its own [labels_] and
      [sub_training_sets_] are empty: nothing in the library calls [update] on it.  Its memory
      mode and modality are those of its parent.  [u_cols] has exactly its attribute's size. *)
  Record subset := mkSub {
    u_dim : nat;
    u_din : nat;
    u_din_max : nat;
    u_cols : list string;
    u_phrases : list (Z * nat)
  }.

  (** xmmTrainingSet.hpp 288-361: members.  Phrases are keyed by [int]; [t_phrases] maps the
      index to the phrase's place in the heap.  The size of [column_names] is the length of
      [t_cols].  The listener of the three attributes is the set itself. *)
  Record tset := mkTset {
    t_own : bool;
    t_bim : bool;
    t_dim : nat;
    t_din : nat;
    t_din_max : nat;
    t_cols : list string;
    t_labels : list string;
    t_phrases : list (Z * nat);
    t_subs : list (string * subset)
  }.

  Definition t_dim_min (bim : bool) : nat := if bim then 2 else 1.
  Definition t_din_min (bim : bool) : nat := if bim then 1 else 0.

  (** A client's memory: phrases, and training sets ([None] once destroyed). *)
  Record world := mkWorld {
    w_heap : list phrase;
    w_sets : list (option tset)
  }.

  Local Notation W := (stm world).

  Definition pget (m : list (Z * nat)) (i : Z) : option nat := mget Z.eqb m i.
  Definition pput (m : list (Z * nat)) (i : Z) (id : nat) : list (Z * nat) := mput Z.eqb Z.ltb m i id.

  (** Access to an object through its pointer. *)
  Definition get_set (k : nat) : W tset :=
    do* w := sget in
    do* o := slift (rd (w_sets w) k) in
    match o with Some t => sret t | None => sub end.
  Definition put_set (k : nat) (t : tset) : W unit :=
    do* w := sget in
    do* l := slift (wr (w_sets w) k (Some t)) in
    sput (mkWorld (w_heap w) l).
  Definition mod_set (k : nat) (f : tset -> tset) : W unit :=
    do* t := get_set k in put_set k (f t).
  Definition get_phrase (id : nat) : W phrase :=
    do* w := sget in slift (rd (w_heap w) id).
  Definition put_phrase (id : nat) (p : phrase) : W unit :=
    do* w := sget in
    do* l := slift (wr (w_heap w) id p) in
    sput (mkWorld l (w_sets w)).
  (** A call on a phrase: its state is stored even when it throws. *)
  Definition on_phrase (id : nat) (m : stm phrase unit) : W unit :=
    do* p := get_phrase id in
    let '(p', out) := m p in
    do* _ := put_phrase id p' in
    slift out.
  (** [std::make_shared<Phrase>]. *)
  Definition new_phrase (p : phrase) : W nat :=
    do* w := sget in
    do* _ := sput (mkWorld (w_heap w ++ [p]) (w_sets w)) in
    sret (length (w_heap w)).

  Definition with_labels (labs : list string) (subs : list (string * subset)) (t : tset) : tset :=
    mkTset (t_own t) (t_bim t) (t_dim t) (t_din t) (t_din_max t) (t_cols t) labs (t_phrases t) subs.
  Definition with_phrases (m : list (Z * nat)) (t : tset) : tset :=
    mkTset (t_own t) (t_bim t) (t_dim t) (t_din t) (t_din_max t) (t_cols t) (t_labels t) m (t_subs t).
  Definition with_dims (dim din din_max : nat) (cols : list string) (t : tset) : tset :=
    mkTset (t_own t) (t_bim t) dim din din_max cols (t_labels t) (t_phrases t) (t_subs t).
  Definition with_subs (subs : list (string * subset)) (t : tset) : tset :=
    mkTset (t_own t) (t_bim t) (t_dim t) (t_din t) (t_din_max t) (t_cols t) (t_labels t) (t_phrases t) subs.

  (** xmmTrainingSet.cpp 36-50: constructor. *)
  Definition tset_new (own bim : bool) : tset :=
    mkTset own bim (t_dim_min bim) (t_din_min bim) (if bim then 2 else 0)
      (repeat EmptyString (t_dim_min bim)) [] [] [].

  Definition sub_put (l : string) (u : subset) (t : tset) : tset :=
    with_subs (mput String.eqb String.ltb (t_subs t) l u) t.

  (** The labels of the phrases, in map order (xmmTrainingSet.cpp 292-295). *)
  Definition collect_labels (h : list phrase) (m : list (Z * nat)) : res (list string) :=
    foldM (fun acc e => let* p := rd h (snd e) in Ok (sinsert String.eqb String.ltb acc (p_label p)))
      m [].

  (** The entries labelled [l] (xmmTrainingSet.cpp 306-312). *)
  Definition select (h : list phrase) (l : string) (m : list (Z * nat)) : res (list (Z * nat)) :=
    foldM (fun acc e => let* p := rd h (snd e) in
                        Ok (if String.eqb (p_label p) l then pput acc (fst e) (snd e) else acc)) m [].

  (** xmmTrainingSet.cpp 298-313: one iteration over [labels_].  The new set is inserted, its
      [dimension] set (which also resizes its names and sets the limit of its
      [dimension_input]), then its [dimension_input], which may throw. *)
  Definition update_label (k : nat) (l : string) : W unit :=
    do* t := get_set k in
    let u := mkSub (t_dim t) (t_din_min (t_bim t)) (t_dim t - 1)
               (vresize (t_dim t) EmptyString (repeat EmptyString (t_dim_min (t_bim t)))) [] in
    do* _ := put_set k (sub_put l u t) in
    do* _ := slift (checkLimits Nat.ltb (t_din t) (t_din_min (t_bim t)) (t_dim t - 1)) in
    do* w := sget in
    do* ps := slift (select (w_heap w) l (t_phrases t)) in
    put_set k (sub_put l (mkSub (t_dim t) (t_din t) (t_dim t - 1) (t_cols t) ps) t).

  (** xmmTrainingSet.cpp 291-314: [update]. *)
  Definition update (k : nat) : W unit :=
    do* t := get_set k in
    do* w := sget in
    do* labs := slift (collect_labels (w_heap w) (t_phrases t)) in
    do* _ := put_set k (with_labels labs [] t) in
    sforeach labs (update_label k).

  (** xmmTrainingSet.cpp 285-289: [onPhraseEvent], called for each listener of the phrase. *)
  Definition notify (p : phrase) : W unit :=
    sforeach (ev_notify (p_events p) tt) (fun c => update (fst c)).

  Definition add_listener (k id : nat) : W unit :=
    on_phrase id (smod (fun p => set_events (ev_add (p_events p) k k) p)).

  (** xmmTrainingSet.cpp 222-233: [addPhrase(index, label)]. *)
  Definition add_new (k : nat) (i : Z) (lab : string) : W unit :=
    do* t := get_set k in
    do* id := new_phrase (phrase_new (t_own t) (t_bim t)) in
    do* _ := put_set k (with_phrases (pput (t_phrases t) i id) t) in
    do* _ := add_listener k id in
    do* _ := on_phrase id (set_dimension false (t_dim t)) in
    do* _ := on_phrase id (set_dimension_input false (t_din t)) in
    do* _ := on_phrase id (smod (set_cols (t_cols t))) in
    do* _ := on_phrase id (smod (set_label lab)) in
    update k.

  (** xmmTrainingSet.cpp 235-241: [addPhrase(index, Phrase const&)].  [src] is the phrase given;
      the copy has no listener. *)
  Definition add_copy (k : nat) (i : Z) (src : nat) : W unit :=
    do* p := get_phrase src in
    do* q := slift (phrase_copy p) in
    do* id := new_phrase q in
    do* _ := mod_set k (fun t => with_phrases (pput (t_phrases t) i id) t) in
    do* _ := on_phrase id (smod (set_events [])) in
    do* _ := add_listener k id in
    update k.

  (** xmmTrainingSet.cpp 243-249: [addPhrase(index, std::shared_ptr<Phrase>)]. *)
  Definition add_ptr (k : nat) (i : Z) (id : nat) : W unit :=
    do* _ := mod_set k (fun t => with_phrases (pput (t_phrases t) i id) t) in
    do* _ := add_listener k id in
    update k.

  (** xmmTrainingSet.cpp 251-254: [removePhrase].  The listener stays registered. *)
  Definition remove (k : nat) (i : Z) : W unit :=
    do* _ := mod_set k (fun t => with_phrases (mdel Z.eqb (t_phrases t) i) t) in
    update k.

  (** The first phrase labelled [l]. *)
  Fixpoint find_label (h : list phrase) (l : string) (m : list (Z * nat)) : res (option Z) :=
    match m with
    | [] => Ok None
    | (i, id) :: m =>
        let* p := rd h id in
        if String.eqb (p_label p) l then Ok (Some i) else find_label h l m
    end.

  (** xmmTrainingSet.cpp 257-268: the loop of [removePhrasesOfClass]; it removes one phrase per
      turn, so [fuel] is enough when it exceeds the number of phrases. *)
  Fixpoint remove_loop (fuel : nat) (k : nat) (l : string) : W unit :=
    match fuel with
    | 0 => sub
    | S fuel =>
        do* t := get_set k in
        do* w := sget in
        do* o := slift (find_label (w_heap w) l (t_phrases t)) in
        match o with
        | Some i => do* _ := remove k i in remove_loop fuel k l
        | None => sret tt
        end
    end.
  Definition remove_class (k : nat) (l : string) : W unit :=
    do* t := get_set k in
    do* _ := remove_loop (S (length (t_phrases t))) k l in
    update k.

  (** xmmTrainingSet.cpp 271-275: [clear]. *)
  Definition tclear (k : nat) : W unit :=
    mod_set k (fun t => mkTset (t_own t) (t_bim t) (t_dim t) (t_din t) (t_din_max t) (t_cols t) [] [] []).

  (** [dimension.set(n)]: the attribute, then xmmTrainingSet.cpp 144-156.  The sub-sets are set
      silently: their names and limits stay as they were. *)
  Definition tset_dimension (k n : nat) : W unit :=
    do* t := get_set k in
    do* _ := slift (checkLimits Nat.ltb n (t_dim_min (t_bim t)) (Nat.max n (t_dim_min (t_bim t)))) in
    do* _ := put_set k (with_dims n (t_din t) (t_din_max t) (t_cols t) t) in
    do* _ := sforeach (t_phrases t) (fun e => on_phrase (snd e) (set_dimension false n)) in
    mod_set k (fun t =>
      with_dims n (t_din t) (n - 1) (vresize n EmptyString (t_cols t))
        (with_subs (map (fun e => (fst e, mkSub n (u_din (snd e)) (u_din_max (snd e)) (u_cols (snd e))
                                            (u_phrases (snd e)))) (t_subs t)) t)).

  (** [dimension_input.set(n)]: the attribute, then xmmTrainingSet.cpp 157-165. *)
  Definition tset_dimension_input (k n : nat) : W unit :=
    do* t := get_set k in
    do* _ := slift (checkLimits Nat.ltb n (t_din_min (t_bim t)) (t_din_max t)) in
    do* _ := put_set k (with_dims (t_dim t) n (t_din_max t) (t_cols t) t) in
    do* _ := sforeach (t_phrases t) (fun e => on_phrase (snd e) (set_dimension_input false n)) in
    sforeach (t_subs t) (fun e =>
      do* _ := slift (checkLimits Nat.ltb n (t_din_min (t_bim t)) (u_din_max (snd e))) in
      mod_set k (sub_put (fst e) (mkSub (u_dim (snd e)) n (u_din_max (snd e)) (u_cols (snd e))
                                    (u_phrases (snd e))))).

  (** [column_names.set(v)]: the attribute (xmmAttribute.hpp 337-349), then xmmTrainingSet.cpp
      166-175. *)
  Definition tset_columns (k : nat) (v : list string) : W unit :=
    do* t := get_set k in
    if negb (length v =? length (t_cols t)) then sthrow DomainError
    else
      do* _ := put_set k (with_dims (t_dim t) (t_din t) (t_din_max t) v t) in
      do* _ := sforeach (t_phrases t) (fun e => on_phrase (snd e) (smod (set_cols v))) in
      sforeach (t_subs t) (fun e =>
        if negb (length v =? length (u_cols (snd e))) then sthrow DomainError
        else mod_set k (sub_put (fst e) (mkSub (u_dim (snd e)) (u_din (snd e)) (u_din_max (snd e)) v
                                           (u_phrases (snd e))))).

  (** The common end of the copy operations: each phrase of the source is copied (xmmTrainingSet.cpp
      120-125). *)
  Definition copy_phrases (k : nat) (m : list (Z * nat)) : W unit :=
    sforeach m (fun e =>
      do* p := get_phrase (snd e) in
      do* q := slift (phrase_copy p) in
      do* id := new_phrase q in
      do* _ := mod_set k (fun t => with_phrases (minsert Z.eqb Z.ltb (t_phrases t) (fst e) id) t) in
      add_listener k id).

  (** xmmTrainingSet.cpp 106-129: [operator=], for [this != &src]. *)
  Definition tset_assign (k src : nat) : W unit :=
    if k =? src then sret tt
    else
      do* _ := tclear k in
      do* s := get_set src in
      do* _ := put_set k (mkTset (t_own s) (t_bim s) (t_dim s) (t_din s) (t_din_max s) (t_cols s)
                            (t_labels s) [] []) in
      do* _ := copy_phrases k (t_phrases s) in
      update k.

  (** xmmTrainingSet.cpp 52-71: copy constructor, into a new set.  The pointers are copied first,
      so the insertions do nothing; the copied phrases are destroyed at once. *)
  Definition tset_copy (src : nat) : W unit :=
    do* s := get_set src in
    do* w := sget in
    let k := length (w_sets w) in
    do* _ := sput (mkWorld (w_heap w) (w_sets w ++ [Some (with_subs [] s)])) in
    do* _ := sforeach (t_phrases s) (fun e =>
      do* p := get_phrase (snd e) in
      do* q := slift (phrase_copy p) in
      do* _ := slift (phrase_destroy q) in
      add_listener k (snd e)) in
    update k.

  (** xmmTrainingSet.cpp 131: destructor.  The phrases keep the listener. *)
  Definition tset_destroy (k : nat) : W unit :=
    do* _ := get_set k in
    do* w := sget in
    do* l := slift (wr (w_sets w) k None) in
    sput (mkWorld (w_heap w) l).

  (** xmmTrainingSet.cpp 217-220, 277-283: [getPhrase], [getPhrasesOfClass]. *)
  Definition getPhrase (t : tset) (i : Z) : option nat := pget (t_phrases t) i.
  Definition getPhrasesOfClass (t : tset) (l : string) : option subset :=
    mget String.eqb (t_subs t) l.

  (** What a client can do. *)
  Inductive wop :=
  | WNewSet (own bim : bool)
  | WNewPhrase (own bim : bool)
  | WAdd (k : nat) (i : Z) (lab : string)
  | WAddCopy (k : nat) (i : Z) (id : nat)
  | WAddPtr (k : nat) (i : Z) (id : nat)
  | WRemove (k : nat) (i : Z)
  | WRemoveClass (k : nat) (lab : string)
  | WClear (k : nat)
  | WSetDim (k n : nat)
  | WSetDimIn (k n : nat)
  | WSetCols (k : nat) (v : list string)
  | WAssign (k src : nat)
  | WCopy (src : nat)
  | WDestroy (k : nat)
  | WLabel (id : nat) (lab : string)
  | WPhrase (id : nat) (o : pop (A:=A)).

  (** [WLabel] is [label.set(lab)] on a phrase (xmmPhrase.cpp 580-583). *)
  Definition world_step (o : wop) : W unit :=
    match o with
    | WNewSet own bim => smod (fun w => mkWorld (w_heap w) (w_sets w ++ [Some (tset_new own bim)]))
    | WNewPhrase own bim => do* _ := new_phrase (phrase_new own bim) in sret tt
    | WAdd k i lab => add_new k i lab
    | WAddCopy k i id => add_copy k i id
    | WAddPtr k i id => add_ptr k i id
    | WRemove k i => remove k i
    | WRemoveClass k lab => remove_class k lab
    | WClear k => tclear k
    | WSetDim k n => tset_dimension k n
    | WSetDimIn k n => tset_dimension_input k n
    | WSetCols k v => tset_columns k v
    | WAssign k src => tset_assign k src
    | WCopy src => tset_copy src
    | WDestroy k => tset_destroy k
    | WLabel id lab =>
        do* _ := on_phrase id (smod (set_label lab)) in
        do* p := get_phrase id in
        notify p
    | WPhrase id o => on_phrase id (phrase_step false o)
    end.

  (** A history: exceptions are caught by the client, undefined behaviour ends it. *)
  Fixpoint world_run (w : world) (ops : list wop) : res (world * list (res unit)) :=
    match ops with
    | [] => Ok (w, [])
    | o :: ops =>
        match world_step o w with
        | (_, UB) => UB
        | (w1, out) =>
            let* (w2, outs) := world_run w1 ops in
            Ok (w2, out :: outs)
        end
    end.
  Definition world_new : world := mkWorld [] [].

  (** The phrases of a set, in map order. *)
  Definition phrases_of (w : world) (t : tset) : res (list phrase) :=
    mapM (fun e => rd (w_heap w) (snd e)) (t_phrases t).

  (** xmmTrainingSet.cpp 316-354: [mean], [standardDeviation].  The loops over dimensions and
      phrases are exchanged: each cell is accumulated in the same order. *)
  Definition ts_total (ps : list phrase) : nat := fold_left (fun n p => n + p_len p) ps 0.
  Definition ts_sum (ps : list phrase) (f : phrase -> nat -> res T) : res T :=
    foldM (fun s p => iterM (p_len p) (fun t s => let* x := f p t in Ok (s + x)%num) s) ps n0.
  Definition ts_mean (dim : nat) (ps : list phrase) : res (list T) :=
    tabM dim (fun d =>
      let* s := ts_sum ps (fun p t => getValue p t d) in
      Ok (s / nN (ts_total ps))%num).
  Definition ts_stddev (dim : nat) (ps : list phrase) : res (list T) :=
    let* m := ts_mean dim ps in
    tabM dim (fun d =>
      let* s := ts_sum ps (fun p t =>
                  let* x := getValue p t d in
                  let* md := rd m d in
                  Ok ((x - md) * (x - md))%num) in
      Ok (nsqrt (s / nN (ts_total ps)))%num).

  (** xmmTrainingSet.cpp 356-393: [minmax]. *)
  Definition ts_minmax (bim : bool) (dim din : nat) (ps : list phrase) : res (list (T * T)) :=
    tabM dim (fun d =>
      foldM (fun mm p =>
        iterM (if bim then if d <? din then p_ilen p else p_olen p else p_len p) (fun t mm =>
          let* x := getValue p t d in
          Ok (std_min x (fst mm), std_max x (snd mm))) mm) ps (flt_max, nopp flt_max)).

  (** xmmTrainingSet.cpp 395-407: [rescale], [normalize] (the value of each phrase after the
      call; a phrase that appears under two indices would be rescaled twice, which [mapM] does
      not show: indices are taken to refer to distinct phrases). *)
  Definition ts_rescale (offset gain : list T) (ps : list phrase) : res (list phrase) :=
    mapM (rescale offset gain) ps.
  Definition ts_normalize (dim : nat) (ps : list phrase) : res (list phrase) :=
    let* offset := ts_mean dim ps in
    let* gain := ts_stddev dim ps in
    ts_rescale offset (map (fun v => (n1 / v)%num) gain) ps.

  (** xmmTrainingSet.cpp 409-427: [toJson].  [root["phrases"]\[i\]["index"] = phrase.first] adds a
      member to the phrase's object. *)
  Definition add_index (i : Z) (j : J) : res J :=
    match j with
    | JObj o => Ok (JObj (o ++ [("index"%string, JInt i)]))
    | _ => Throw JsonCppError
    end.
  Definition ts_toJson (w : world) (t : tset) : res J :=
    let* names := tabM (t_dim t) (fun i => if i <? length (t_cols t) then rd (t_cols t) i
                                           else Throw OutOfRange) in
    let* ps := mapM (fun e => let* p := rd (w_heap w) (snd e) in
                              let* j := phrase_toJson p in
                              add_index (fst e) j) (t_phrases t) in
    Ok (JObj [("bimodal", JBool (t_bim t));
              ("dimension", JInt (Z.of_nat (t_dim t)));
              ("dimension_input", JInt (Z.of_nat (t_din t)));
              ("column_names", JArr (map JStr names));
              ("phrases", JArr ps)]%string).

  (** The elements visited by [for (auto p : root)]: none unless it is an array (or an object,
      which the callers do not pass). *)
  Definition elements (j : J) : list J := match j with JArr l => l | JObj o => map snd o | _ => [] end.

  (** xmmTrainingSet.cpp 73-104: construction from JSON, as set number [k] of the world (the last
      one). *)
  Definition tset_ofJson (cv : conv A) (root : J) : W unit :=
    do* b := slift (jget root "bimodal" (JBool false)) in
    do* bim := slift (as_bool b) in
    do* d := slift (jget root "dimension" (JInt (if bim then 2 else 1))) in
    do* d := slift (as_int cv d) in
    let dim := to_unsigned d in
    do* _ := slift (checkLimits Nat.ltb dim (t_dim_min bim) (Nat.max dim (t_dim_min bim))) in
    do* di := slift (jget root "dimension_input" (JInt (if bim then 1 else 0))) in
    do* di := slift (as_int cv di) in
    let din := to_unsigned di in
    do* _ := slift (checkLimits Nat.ltb din (t_din_min bim) (dim - 1)) in
    do* names := slift (jmember root "column_names") in
    do* cols := slift (iterM (jsize names) (fun i cols =>
                   let* n := jindex names i (JStr "") in
                   let* s := as_string cv n in
                   wr cols i s) (repeat EmptyString dim)) in
    do* w := sget in
    let k := length (w_sets w) in
    do* _ := sput (mkWorld (w_heap w)
               (w_sets w ++ [Some (mkTset true bim dim din (dim - 1) cols [] [] [])])) in
    do* ps := slift (jmember root "phrases") in
    do* _ := sforeach (elements ps) (fun j =>
      do* i := slift (jmember j "index") in
      do* i := slift (as_int cv i) in
      do* p := slift (phrase_ofJson cv j) in
      do* id := new_phrase p in
      do* _ := mod_set k (fun t => with_phrases (minsert Z.eqb Z.ltb (t_phrases t) i id) t) in
      do* t := get_set k in
      match pget (t_phrases t) i with
      | Some id => add_listener k id
      | None => sub
      end) in
    update k.

  (** xmmTrainingSet.cpp 429-436: [fromJson]: a temporary set, then [operator=].  The temporary is
      destroyed at the end. *)
  Definition tset_fromJson (cv : conv A) (k : nat) (root : J) : W unit :=
    do* w := sget in
    let tmp := length (w_sets w) in
    do* _ := tset_ofJson cv root in
    do* _ := tset_assign k tmp in
    tset_destroy tmp.
End TrainingSet.
Arguments wop : clear implicits.
Arguments world : clear implicits.
