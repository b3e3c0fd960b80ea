(** What a phrase is meant to be: one list of frames per modality. *)
From Coq Require Import String List Bool Arith ZArith Reals.
From Verif Require Import Base Arith Model_Json Model_Phrase RFacts.
Import ListNotations.
Local Open Scope nat_scope.

Section SpecPhrase.
  Context {A : arith}.
  Local Notation T := (num A).

  (** The contents of a phrase.  A unimodal phrase uses [s_in] only.  [s_in_max] is the largest
      input dimension that may be chosen. *)
  Record contents := mkContents {
    s_bim : bool;
    s_dim : nat;
    s_din : nat;
    s_in_max : nat;
    s_in : list (list T);
    s_out : list (list T)
  }.

  Definition contents_new (bim : bool) : contents :=
    mkContents bim (if bim then 2 else 1) (if bim then 1 else 0) (if bim then 2 else 0) [] [].

  Definition with_frames (s : contents) (fi fo : list (list T)) : contents :=
    mkContents (s_bim s) (s_dim s) (s_din s) (s_in_max s) fi fo.

  (** What each operation should do. *)
  Definition spec_step (s : contents) (o : pop (A:=A)) : contents * res unit :=
    match o with
    | PRecord x =>
        if s_bim s then
          if negb (length (s_in s) =? length (s_out s)) then (s, Throw RuntimeError)
          else if negb (length x =? s_dim s) then (s, Throw InvalidArgument)
          else (with_frames s (s_in s ++ [firstn (s_din s) x]) (s_out s ++ [skipn (s_din s) x]), Ok tt)
        else
          if negb (length x =? s_dim s) then (s, Throw InvalidArgument)
          else (with_frames s (s_in s ++ [x]) (s_out s), Ok tt)
    | PRecordIn x =>
        if negb (s_bim s) then (s, Throw RuntimeError)
        else if negb (length x =? s_din s) then (s, Throw InvalidArgument)
        else (with_frames s (s_in s ++ [x]) (s_out s), Ok tt)
    | PRecordOut x =>
        if negb (s_bim s) then (s, Throw RuntimeError)
        else if negb (length x =? s_dim s - s_din s) then (s, Throw InvalidArgument)
        else (with_frames s (s_in s) (s_out s ++ [x]), Ok tt)
    | PClear => (with_frames s [] [], Ok tt)
    | PClearIn => (with_frames s [] (s_out s), Ok tt)
    | PClearOut => (with_frames s (if s_bim s then s_in s else []) [], Ok tt)
    | PSetDim n =>
        if n <? (if s_bim s then 2 else 1) then (s, Throw DomainError)
        else (mkContents (s_bim s) n (s_din s) (n - 1) [] [], Ok tt)
    | PSetDimIn n =>
        if (n <? (if s_bim s then 1 else 0)) || (s_in_max s <? n) then (s, Throw DomainError)
        else (mkContents (s_bim s) (s_dim s) n (s_in_max s) [] [], Ok tt)
    end.

  Fixpoint spec_run (s : contents) (ops : list (pop (A:=A))) : contents * list (res unit) :=
    match ops with
    | [] => (s, [])
    | o :: ops =>
        let '(s1, out) := spec_step s o in
        let '(s2, outs) := spec_run s1 ops in
        (s2, out :: outs)
    end.

  (** The dimension of a bimodal phrase is not made smaller than its input dimension. *)
  Definition op_fits (s : contents) (o : pop (A:=A)) : Prop :=
    match o with PSetDim n => s_bim s = true -> s_din s <= n | _ => True end.

  Fixpoint dims_fit (s : contents) (ops : list (pop (A:=A))) : Prop :=
    match ops with
    | [] => True
    | o :: ops => op_fits s o /\ dims_fit (fst (spec_step s o)) ops
    end.

  (** The value at frame [i] and dimension [d]. *)
  Definition spec_value (s : contents) (i d : nat) : option T :=
    if s_dim s <=? d then None
    else if s_bim s then
      if d <? s_din s
      then match nth_error (s_in s) i with Some x => nth_error x d | None => None end
      else match nth_error (s_out s) i with Some x => nth_error x (d - s_din s) | None => None end
    else match nth_error (s_in s) i with Some x => nth_error x d | None => None end.

  (** The number of complete frames. *)
  Definition spec_size (s : contents) : nat :=
    if s_bim s then Nat.min (length (s_in s)) (length (s_out s)) else length (s_in s).

  Definition spec_empty (s : contents) : bool :=
    match s_in s, s_out s with [], [] => true | _, _ => false end.

  (** [p] shows exactly the contents [s] to its user. *)
  Definition shows (p : phrase (A:=A)) (s : contents) : Prop :=
    p_own p = true /\ p_bim p = s_bim s /\ p_dim p = s_dim s /\ p_din p = s_din s /\
    p_len p = spec_size s /\
    (s_bim s = true -> p_ilen p = length (s_in s) /\ p_olen p = length (s_out s)) /\
    forall i d, getValue p i d = match spec_value s i d with
                                 | Some x => Ok x
                                 | None => Throw OutOfRange
                                 end.

  Definition no_partial_clear (ops : list (pop (A:=A))) : Prop :=
    forall o, In o ops -> match o with PClearIn | PClearOut => False | _ => True end.

  (** Frame [i] of dimension [d], when the model returns one. *)
  Definition frames_of (s : contents) : list (list T) :=
    if s_bim s then map (fun xy => fst xy ++ snd xy) (combine (s_in s) (s_out s)) else s_in s.

  (** The complete frames only. *)
  Definition complete (s : contents) : contents :=
    mkContents (s_bim s) (s_dim s) (s_din s) (if s_bim s then s_dim s - 1 else 0)
      (firstn (spec_size s) (s_in s)) (firstn (spec_size s) (s_out s)).

  (** Input dimensions that a JSON file can express. *)
  Definition storable (s : contents) : Prop :=
    (if s_bim s then s_din s < s_dim s else s_din s = 0) /\
    (Z.of_nat (s_dim s) < 2 ^ 31)%Z /\ (Z.of_nat (spec_size s) < 2 ^ 31)%Z.

  (** Every stored value is a float (rounding to float does not change it). *)
  Definition floats (cv : conv A) (s : contents) : Prop :=
    forall x v, In x (s_in s ++ s_out s) -> In v x -> c_float cv v = v.
End SpecPhrase.
Arguments contents : clear implicits.

(** The affine map [rescale] is meant to apply to a frame. *)
Definition affine {A : arith} (offset gain x : list (num A)) : list (num A) :=
  tab (length x) (fun d => ((nth d x n0 - nth d offset n0) * nth d gain n0)%num).

(** Column [d] of a list of frames, and the usual statistics of a column over the reals. *)
Definition column (frames : list (list R)) (d : nat) : list R := map (fun x => nth d x 0%R) frames.
Definition Rmean (l : list R) : R := (Rlsum l / INR (length l))%R.
Definition Rvar (l : list R) : R :=
  (Rlsum (map (fun x => (x - Rmean l) * (x - Rmean l)) l) / INR (length l))%R.
Definition is_min (l : list R) (m : R) : Prop := In m l /\ forall x, In x l -> (m <= x)%R.
Definition is_max (l : list R) (m : R) : Prop := In m l /\ forall x, In x l -> (x <= m)%R.
