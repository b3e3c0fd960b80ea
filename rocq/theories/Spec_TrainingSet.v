(** What a training set is meant to show to its user. *)
From Coq Require Import String List Bool Arith ZArith Reals.
From Verif Require Import Base Arith Model_Json Model_Phrase Model_TrainingSet Spec_Phrase RFacts.
Import ListNotations.
Local Open Scope nat_scope.

Section SpecTrainingSet.
  Context {A : arith}.
  Local Notation phrase := (phrase (A:=A)).
  Local Notation world := (world A).

  (** The training set number [k], if it is alive. *)
  Definition set_at (w : world) (k : nat) : option tset :=
    match nth_error (w_sets w) k with Some o => o | None => None end.

  (** The phrase object [id] carries the label [l]. *)
  Definition has_label (w : world) (l : string) (id : nat) : Prop :=
    exists p, nth_error (w_heap w) id = Some p /\ p_label p = l.

  (** The labels are those of the phrases, each once; the class [l] holds exactly the phrases
      labelled [l], the same objects under the same indices, and there is no class for a label
      that no phrase has. *)
  Definition mirrors (w : world) (t : tset) : Prop :=
    (forall l, In l (t_labels t) <-> exists i id, getPhrase t i = Some id /\ has_label w l id) /\
    NoDup (t_labels t) /\
    forall l,
      match getPhrasesOfClass t l with
      | None => forall i id, getPhrase t i = Some id -> ~ has_label w l id
      | Some u =>
          In l (t_labels t) /\
          forall i id, pget (u_phrases u) i = Some id <-> getPhrase t i = Some id /\ has_label w l id
      end.

  (** The operations that end with [update]. *)
  Definition updates (o : wop A) : Prop :=
    match o with
    | WAdd _ _ _ | WAddCopy _ _ _ | WAddPtr _ _ _ | WRemove _ _ | WRemoveClass _ _
    | WAssign _ _ | WCopy _ | WLabel _ _ => True
    | _ => False
    end.

  (** A client's memory after a history in which every such call returned normally (calls that
      only fail their own checks, like attribute changes, may have thrown). *)
  Definition reachable (w : world) : Prop :=
    exists ops outs, world_run world_new ops = Ok (w, outs) /\
      forall n o, nth_error ops n = Some o -> updates o -> nth_error outs n = Some (Ok tt).

  (** The input dimension is within the limits that go with the dimension. *)
  Definition in_range (t : tset) : Prop :=
    (if t_bim t then 2 else 1) <= t_dim t /\
    (if t_bim t then 1 else 0) <= t_din t /\ t_din t <= t_dim t - 1.

  (** What the user sees of set [k]: its members and its phrases. *)
  Definition view (w : world) (k : nat) : option (tset * list (option phrase)) :=
    match set_at w k with
    | None => None
    | Some t => Some (t, map (fun e => nth_error (w_heap w) (snd e)) (t_phrases t))
    end.

  Definition ids_of (w : world) (k : nat) : list nat :=
    match set_at w k with None => [] | Some t => map snd (t_phrases t) end.

  (** Rebuilding the classes of set [k] would change nothing. *)
  Definition up_to_date (w : world) (k : nat) : Prop := update k w = (w, Ok tt).

  (** Set [t] of world [w'] is a deep copy of set [s] of world [w]: the same attributes and, under
      the same indices, new phrase objects, pairwise distinct, that differ from copies of the
      source's phrases in their listeners only. *)
  Definition deep_copy (w : world) (s : tset) (w' : world) (t : tset) : Prop :=
    t_own t = t_own s /\ t_bim t = t_bim s /\ t_dim t = t_dim s /\ t_din t = t_din s /\
    t_cols t = t_cols s /\
    (forall i,
      match getPhrase s i with
      | None => getPhrase t i = None
      | Some id =>
          exists id' p q ev, getPhrase t i = Some id' /\ length (w_heap w) <= id' /\
            nth_error (w_heap w) id = Some p /\ phrase_copy p = Ok q /\
            nth_error (w_heap w') id' = Some (set_events ev q)
      end) /\
    (forall i j id, getPhrase t i = Some id -> getPhrase t j = Some id -> i = j).

  (** A phrase the library has made, with the contents it should have: constructed in own-memory
      mode, recorded into, cleared, given other attributes, or copied while it holds data. *)
  Inductive made : phrase -> contents A -> Prop :=
  | made_new : forall bim, made (phrase_new true bim) (contents_new bim)
  | made_op : forall p s o, made p s -> op_fits s o ->
      made (fst (phrase_step false o p)) (fst (spec_step s o))
  | made_label : forall p s lab, made p s -> made (set_label lab p) s
  | made_cols : forall p s names, made p s -> made (set_cols names p) s
  | made_events : forall p s ev, made p s -> made (set_events ev p) s
  | made_copy : forall p s q, made p s -> spec_empty s = false -> phrase_copy p = Ok q -> made q s.

  (** A phrase and its contents can be written to JSON without loss. *)
  Definition storable_phrase (cv : conv A) (p : phrase) (s : contents A) : Prop :=
    made p s /\ storable s /\ floats cv s /\ (if s_bim s then 1 <= s_din s else 1 <= s_dim s) /\
    length (p_cols p) <= s_dim s.

  (** [p] is an empty phrase with the attributes of set [t] and the label [lab]. *)
  Definition fresh_in (t : tset) (lab : string) (p : phrase) : Prop :=
    p_own p = t_own t /\ p_bim p = t_bim t /\ p_dim p = t_dim t /\ p_din p = t_din t /\
    p_cols p = t_cols t /\ p_label p = lab /\ p_empty p = true /\ p_len p = 0.

  Definition same_attributes (t t' : tset) : Prop :=
    t_own t' = t_own t /\ t_bim t' = t_bim t /\ t_dim t' = t_dim t /\ t_din t' = t_din t /\
    t_cols t' = t_cols t.

  (** The set an operation is applied to, and the phrases it is applied to (the phrases of the
      set for attribute changes and for the copy constructor). *)
  Definition op_set (w : world) (o : wop A) : option nat :=
    match o with
    | WNewSet _ _ | WNewPhrase _ _ | WLabel _ _ | WPhrase _ _ | WCopy _ => None
    | WAdd k _ _ | WAddCopy k _ _ | WAddPtr k _ _ | WRemove k _ | WRemoveClass k _ | WClear k
    | WSetDim k _ | WSetDimIn k _ | WSetCols k _ | WAssign k _ | WDestroy k => Some k
    end.
  Definition op_phrases (w : world) (o : wop A) : list nat :=
    match o with
    | WAddPtr _ _ id | WLabel id _ | WPhrase id _ => [id]
    | WSetDim k _ | WSetDimIn k _ | WSetCols k _ => ids_of w k
    | WCopy src => ids_of w src
    | _ => []
    end.

  (** The operation is applied neither to set [k] nor to one of its phrases. *)
  Definition spares (k : nat) (w : world) (o : wop A) : Prop :=
    op_set w o <> Some k /\ (forall id, In id (op_phrases w o) -> ~ In id (ids_of w k)).

  (** Changing the label of a phrase informs the sets listening to it. *)
  Definition silent_for (k : nat) (w : world) (o : wop A) : Prop :=
    match o with
    | WLabel id _ => forall p, nth_error (w_heap w) id = Some p -> ~ In k (map snd (p_events p))
    | _ => True
    end.

  Fixpoint spares_all (P : world -> wop A -> Prop) (w : world) (ops : list (wop A)) : Prop :=
    match ops with
    | [] => True
    | o :: ops => P w o /\ spares_all P (fst (world_step o w)) ops
    end.
End SpecTrainingSet.

(** All the complete frames of several phrases, one after the other; all the values recorded for
    dimension [d]. *)
Definition all_frames (ss : list (contents RA)) : list (list R) := @flat_map (contents RA) (list R) (@frames_of RA) ss.
Definition all_values (ss : list (contents RA)) (d : nat) : list R :=
  flat_map (fun s : contents RA => if s_bim s
                     then if d <? s_din s then column (s_in s) d else column (s_out s) (d - s_din s)
                     else column (s_in s) d) ss.
