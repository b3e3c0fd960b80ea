(** Properties C15-C23: JSON arrays and phrases. *)
From Coq Require Import String List Bool Arith Lia ZArith Reals.
From Verif Require Import Base Arith Model_Json Model_Phrase Spec_Phrase RFacts.
From Verif Require Import Proofs_Json Proofs_Phrase Proofs_Phrase2 Proofs_Phrase3 Proofs_Phrase4 Proofs_PhraseStats.
Import ListNotations.
Local Open Scope nat_scope.

(** C15: writing a vector to JSON and reading it back gives the vector, for every element type
    (for [float]: when the values are floats; for [int]: in range). *)
Theorem C15_round_trip : forall (A : arith) (cv : conv A),
  (forall v w, length w = length v ->
     exists j, vector2json JReal v = Ok j /\ json2vector true (as_double (A:=A)) j w (length v) = (v, Ok tt)) /\
  (forall v w, (forall x, In x v -> c_float cv x = x) -> length w = length v ->
     exists j, vector2json JReal v = Ok j /\ json2vector true (as_float cv) j w (length v) = (v, Ok tt)) /\
  (forall v w, length w = length v ->
     exists j, vector2json JBool v = Ok j /\ json2vector true (as_bool (A:=A)) j w (length v) = (v, Ok tt)) /\
  (forall v w, length w = length v ->
     exists j, vector2json JStr v = Ok j /\ json2vector true (as_string cv) j w (length v) = (v, Ok tt)) /\
  (forall v w, (forall z, In z v -> (- 2 ^ 31 <= z < 2 ^ 31)%Z) -> length w = length v ->
     exists j, vector2json JInt v = Ok j /\ json2vector false (as_int cv) j w (length v) = (v, Ok tt)).
Proof. exact (@json_round_trip_types). Qed.
Print Assumptions C15_round_trip.

(** C15: a value that is not an array is refused and nothing is written. *)
Theorem C15_rejects_non_array : forall (A : arith) (X : Type) early (asX : json A -> res X) root (w : list X) n,
  early = false \/ 0 < n ->
  (forall l, root <> JArr l) -> json2vector early asX root w n = (w, Throw JsonTypeError).
Proof. exact (@json_rejects). Qed.
Print Assumptions C15_rejects_non_array.

(** C15: an array of another size is refused and nothing is written. *)
Theorem C15_rejects_size : forall (A : arith) (X : Type) early (asX : json A -> res X) l (w : list X) n,
  early = false \/ 0 < n ->
  length l <> n -> json2vector early asX (JArr l) w n = (w, Throw JsonValueError).
Proof. exact (@json_rejects_size). Qed.
Print Assumptions C15_rejects_size.

(** C15: reading into a large enough vector never writes outside it. *)
Theorem C15_no_overrun : forall (A : arith) (X : Type) early (asX : json A -> res X) root (w : list X) n,
  (forall j, asX j <> UB) -> n <= length w ->
  snd (json2vector early asX root w n) <> UB /\
  length (fst (json2vector early asX root w n)) = length w.
Proof. exact (@json_no_overrun). Qed.
Print Assumptions C15_no_overrun.

(** C15, refuted for the size 0: the float, double, bool and string readers accept anything. *)
Theorem C15_size_zero_refuted : exists (root : json RA),
  (forall l, root <> JArr l) /\ json2vector true (as_double (A:=RA)) root [] 0 = ([], Ok tt).
Proof. exists (JStr "x"). split; [discriminate|reflexivity]. Qed.
Print Assumptions C15_size_zero_refuted.

Definition cv_id {A} : conv A := mkConv (fun x => x) (fun _ => None) (fun _ => EmptyString).

Example C15_meets :
  json2vector true (as_double (A:=RA)) (JArr [JReal (A:=RA) 1%R; JReal (A:=RA) 2%R]) [0%R; 0%R] 2 = ([1%R; 2%R], Ok tt) /\
  json2vector true (as_double (A:=RA)) (JArr [JReal (A:=RA) 1%R]) [7%R; 8%R] 2 = ([7%R; 8%R], Throw JsonValueError) /\
  json2vector true (as_double (A:=RA)) (JBool true) [7%R; 8%R] 2 = ([7%R; 8%R], Throw JsonTypeError) /\
  (forall j : json RA, as_double j <> UB).
Proof. repeat split. destruct j; discriminate. Qed.

(** C16: a phrase returns exactly what was recorded, for every history. *)
Theorem C16_recorded_frames : forall (A : arith) bim ops (s : contents A) outs,
  dims_fit (contents_new bim) ops -> spec_run (contents_new bim) ops = (s, outs) ->
  exists p, phrase_run false (phrase_new true bim) ops = Ok (p, outs) /\ shows p s.
Proof. exact (@phrase_history). Qed.
Print Assumptions C16_recorded_frames.

Definition C16_ops : list (pop (A:=RA)) :=
  [PSetDim 3; PRecord (A:=RA) [1; 2; 3]%R; PRecordIn (A:=RA) [4%R]; PRecord (A:=RA) [0; 0; 0]%R; PRecordOut (A:=RA) [5; 6]%R;
   PRecordOut (A:=RA) [9%R]; PClearOut; PRecordOut (A:=RA) [7; 8]%R].

Example C16_meets : dims_fit (contents_new true) C16_ops /\
  spec_run (contents_new true) C16_ops =
    (mkContents (A:=RA) true 3 1 2 [[1]; [4]]%R [[7; 8]]%R,
     [Ok tt; Ok tt; Ok tt; Throw RuntimeError; Ok tt; Throw InvalidArgument; Ok tt; Ok tt]).
Proof. split; [simpl; intuition|reflexivity]. Qed.

(** C17: whenever an operation throws, the phrase is exactly what it was. *)
Theorem C17_throw_changes_nothing : forall (A : arith) strict o (p p' : phrase (A:=A)) e,
  phrase_step strict o p = (p', Throw e) -> p' = p.
Proof. exact (@phrase_throw_unchanged). Qed.
Print Assumptions C17_throw_changes_nothing.

(** C17: what is rejected, and with which exception. *)
Theorem C17_rejections : forall (A : arith) strict (p : phrase (A:=A)) x,
  (p_own p = false ->
     phrase_step strict (PRecord x) p = (p, Throw RuntimeError) /\
     phrase_step strict (PRecordIn x) p = (p, Throw RuntimeError) /\
     phrase_step strict (PRecordOut x) p = (p, Throw RuntimeError) /\
     phrase_step strict PClear p = (p, Throw RuntimeError)) /\
  (p_own p = true -> p_bim p = false ->
     phrase_step strict (PRecordIn x) p = (p, Throw RuntimeError) /\
     phrase_step strict (PRecordOut x) p = (p, Throw RuntimeError) /\
     (length x <> p_dim p -> phrase_step strict (PRecord x) p = (p, Throw InvalidArgument))) /\
  (p_own p = true -> p_bim p = true ->
     (p_ilen p <> p_olen p -> phrase_step strict (PRecord x) p = (p, Throw RuntimeError)) /\
     (p_ilen p = p_olen p -> length x <> p_dim p ->
        phrase_step strict (PRecord x) p = (p, Throw InvalidArgument)) /\
     (length x <> p_din p -> phrase_step strict (PRecordIn x) p = (p, Throw InvalidArgument)) /\
     (p_din p <= p_dim p -> length x <> p_dim p - p_din p ->
        phrase_step strict (PRecordOut x) p = (p, Throw InvalidArgument))).
Proof. exact (@phrase_rejects). Qed.
Print Assumptions C17_rejections.

Example C17_meets :
  phrase_step true (PRecord (A:=RA) [1; 2]%R) (phrase_new (A:=RA) true false)
    = (phrase_new true false, Throw InvalidArgument) /\
  phrase_step true (PRecordIn (A:=RA) [1; 2]%R) (phrase_new (A:=RA) true false)
    = (phrase_new true false, Throw RuntimeError) /\
  phrase_step true (PRecord (A:=RA) [1]%R) (phrase_new (A:=RA) false false)
    = (phrase_new false false, Throw RuntimeError).
Proof. repeat split. Qed.

(** C18: [empty()] says whether anything is stored, unless a unimodal phrase is partially
    cleared. *)
Theorem C18_empty : forall (A : arith) bim ops (s : contents A) outs,
  bim = true \/ no_partial_clear ops ->
  dims_fit (contents_new bim) ops -> spec_run (contents_new bim) ops = (s, outs) ->
  exists p, phrase_run false (phrase_new true bim) ops = Ok (p, outs) /\ p_empty p = spec_empty s.
Proof. exact (@phrase_empty_history). Qed.
Print Assumptions C18_empty.

(** C18, refuted otherwise: a unimodal phrase cleared with [clearInput] has size 0 and is not
    empty. *)
Theorem C18_clear_input_refuted : forall (A : arith) (x : num A),
  exists (ops : list (pop (A:=A))) p outs,
  phrase_run false (phrase_new true false) ops = Ok (p, outs) /\
  p_len p = 0 /\ p_empty p = false.
Proof.
  intros A x. exists [PRecord [x]; PClearIn]. eexists _, _. split; [vm_compute; reflexivity|]. split; [vm_compute; reflexivity|vm_compute; reflexivity].
Qed.
Print Assumptions C18_clear_input_refuted.

Example C18_meets :
  no_partial_clear [PRecord (A:=RA) [1%R]; PClear; PRecord (A:=RA) [2%R]] /\
  fst (spec_run (contents_new false) [PRecord (A:=RA) [1%R]; PClear]) = (contents_new (A:=RA) false) /\
  (forall (A : arith) (x : num A), exists p outs,
     phrase_run false (phrase_new true true) [PRecordOut [x]; PClearIn] = Ok (p, outs)
     /\ p_empty p = false /\ p_len p = 0).
Proof.
  split; [|split].
  - intros o H. simpl in H. intuition; subst; exact I.
  - reflexivity.
  - intros. eexists _, _. split; [vm_compute; reflexivity|]. split; [vm_compute; reflexivity|vm_compute; reflexivity].
Qed.

(** C19: writing a phrase to JSON and loading it into any phrase restores label, names (padded
    to the dimension) and the complete frames; a non-empty result can be recorded into. *)
Theorem C19_json_round_trip : forall (A : arith) cv bim ops (p0 : phrase (A:=A)) outs
    bim2 ops2 (d : phrase (A:=A)) outs2 names lab,
  dims_fit (contents_new bim) ops ->
  phrase_run false (phrase_new true bim) ops = Ok (p0, outs) ->
  dims_fit (contents_new bim2) ops2 ->
  phrase_run false (phrase_new true bim2) ops2 = Ok (d, outs2) ->
  let s := fst (spec_run (contents_new bim) ops) in
  let p := set_label lab (set_cols names p0) in
  storable s -> floats cv s -> length names <= s_dim s ->
  exists j q, phrase_toJson p = Ok j /\ phrase_fromJson cv d j = Ok q /\
    shows q (complete s) /\ p_label q = lab /\ p_cols q = vresize (s_dim s) EmptyString names /\
    p_empty q = (spec_size s =? 0) /\
    (0 < spec_size s -> forall ops' s' outs',
       dims_fit (complete s) ops' -> spec_run (complete s) ops' = (s', outs') ->
       exists q', phrase_run false q ops' = Ok (q', outs') /\ shows q' s').
Proof. exact (@phrase_json_round_trip). Qed.
Print Assumptions C19_json_round_trip.

Example C19_meets :
  let s := fst (spec_run (contents_new true) C16_ops) in
  storable s /\ floats cv_id s /\ complete s = mkContents (A:=RA) true 3 1 2 [[1]]%R [[7; 8]]%R.
Proof. cbv zeta. split; [|split]; [repeat split; simpl; lia|intros x v _ _; reflexivity|reflexivity]. Qed.

(** C19, refuted for phrases without frames: the loaded phrase has indeterminate data pointers
    and recording into it is undefined. *)
Theorem C19_empty_phrase_refuted : forall (A : arith) (x : num A), exists j q,
  phrase_toJson (phrase_new (A:=A) true false) = Ok j /\
  phrase_fromJson cv_id (phrase_new true false) j = Ok q /\
  snd (record [x] q) = UB /\ phrase_destroy q = UB.
Proof. intros. eexists _, _. split; [reflexivity|]. split; [reflexivity|]. split; reflexivity. Qed.
Print Assumptions C19_empty_phrase_refuted.

(** C19, refuted for dimensions accepted by the attributes but not by the reader. *)
Theorem C19_dimensions_refuted : forall A : arith, exists (ops : list (pop (A:=A))) p outs j,
  dims_fit (contents_new true) ops /\
  phrase_run false (phrase_new true true) ops = Ok (p, outs) /\
  phrase_toJson p = Ok j /\ phrase_fromJson cv_id (phrase_new true true) j = Throw DomainError.
Proof.
  intro A. exists [PSetDimIn 2]. eexists _, _, _. split; [simpl; auto|].
  split; [vm_compute; reflexivity|]. split; [vm_compute; reflexivity|vm_compute; reflexivity].
Qed.
Print Assumptions C19_dimensions_refuted.

(** C20: changing a dimension erases the data and the phrase behaves like a new one of that
    dimension.  Two hypotheses the code needs: [delete] of an array is harmless (the model's
    lenient reading), and the total dimension does not fall below the input dimension. *)
Theorem C20_dimension_change : forall (A : arith) bim ops (p : phrase (A:=A)) outs o s',
  dims_fit (contents_new bim) ops ->
  phrase_run false (phrase_new true bim) ops = Ok (p, outs) ->
  (exists n, o = PSetDim n \/ o = PSetDimIn n) ->
  op_fits (fst (spec_run (contents_new bim) ops)) o ->
  spec_step (fst (spec_run (contents_new bim) ops)) o = (s', Ok tt) ->
  exists p', phrase_step false o p = (p', Ok tt) /\
    p_len p' = 0 /\ p_ilen p' = 0 /\ p_olen p' = 0 /\ p_empty p' = true /\
    p_dim p' = s_dim s' /\ p_din p' = s_din s' /\
    (forall i d, getValue p' i d = Throw OutOfRange) /\
    forall ops' s'' outs', dims_fit s' ops' -> spec_run s' ops' = (s'', outs') ->
      exists p'', phrase_run false p' ops' = Ok (p'', outs') /\ shows p'' s''.
Proof. exact (@phrase_dimension_change). Qed.
Print Assumptions C20_dimension_change.

Example C20_meets :
  op_fits (fst (spec_run (contents_new (A:=RA) true) C16_ops)) (PSetDim 5) /\
  spec_step (fst (spec_run (contents_new true) C16_ops)) (PSetDim 5)
    = (mkContents (A:=RA) true 5 1 4 [] [], Ok tt).
Proof. split; [simpl; lia|reflexivity]. Qed.

(** C20, refuted under the standard's reading of [delete] on an array. *)
Theorem C20_mismatched_delete_refuted : forall (A : arith) (x : num A), exists (p : phrase (A:=A)) outs,
  phrase_run false (phrase_new true false) [PRecord [x]] = Ok (p, outs) /\
  snd (phrase_step true (PSetDim 3) p) = UB.
Proof. intros. eexists _, _. split; [vm_compute; reflexivity|]. reflexivity. Qed.
Print Assumptions C20_mismatched_delete_refuted.

(** C20, refuted when the dimension falls below the input dimension: the next recording reads
    past the end of the observation. *)
Theorem C20_smaller_than_input_refuted : forall (A : arith) (x y : num A), exists ops,
  phrase_run false (phrase_new true true) ops = UB /\
  ops = [PSetDim 4; PSetDimIn 3; PSetDim 2; PRecord [x; y]].
Proof. intros. eexists. split; [|reflexivity]. vm_compute. reflexivity. Qed.
Print Assumptions C20_smaller_than_input_refuted.

(** C21: the copy of a phrase that allocated memory (it holds data, or held some since its dimensions were
    last set) shows the same contents and behaves as if it had been
    recorded itself. *)
Theorem C21_copy : forall (A : arith) bim ops (p : phrase (A:=A)) outs,
  dims_fit (contents_new bim) ops ->
  phrase_run false (phrase_new true bim) ops = Ok (p, outs) ->
  let s := fst (spec_run (contents_new bim) ops) in
  spec_empty s = false \/ 0 < p_max p ->
  exists q, phrase_copy p = Ok q /\ shows q s /\ p_empty q = p_empty p /\
    p_label q = p_label p /\ p_cols q = p_cols p /\ phrase_destroy q = Ok tt /\
    forall ops' s' outs', dims_fit s ops' -> spec_run s ops' = (s', outs') ->
      exists q', phrase_run false q ops' = Ok (q', outs') /\ shows q' s'.
Proof. exact (@phrase_copy_equal). Qed.
Print Assumptions C21_copy.

Theorem C21_assign : forall (A : arith) bim ops (p : phrase (A:=A)) outs bim2 ops2 (d : phrase (A:=A)) outs2,
  dims_fit (contents_new bim) ops ->
  phrase_run false (phrase_new true bim) ops = Ok (p, outs) ->
  dims_fit (contents_new bim2) ops2 ->
  phrase_run false (phrase_new true bim2) ops2 = Ok (d, outs2) ->
  let s := fst (spec_run (contents_new bim) ops) in
  spec_empty s = false \/ 0 < p_max p ->
  exists q, phrase_assign d p = Ok q /\ shows q s /\ p_empty q = p_empty p /\
    p_label q = p_label p /\ p_cols q = p_cols p /\ phrase_destroy q = Ok tt /\
    forall ops' s' outs', dims_fit s ops' -> spec_run s ops' = (s', outs') ->
      exists q', phrase_run false q ops' = Ok (q', outs') /\ shows q' s'.
Proof. exact (@phrase_assign_equal). Qed.
Print Assumptions C21_assign.

Example C21_meets :
  spec_empty (fst (spec_run (contents_new true) C16_ops)) = false /\
  dims_fit (fst (spec_run (contents_new true) C16_ops)) [PRecordOut (A:=RA) [1; 2]%R; PRecord (A:=RA) [1; 2; 3]%R].
Proof. split; [reflexivity|]. simpl. intuition. Qed.

(** Allocated and cleared: the second disjunct. *)
Example C21_meets_cleared : exists p outs, phrase_run (A:=RA) false (phrase_new true true) [PRecord (A:=RA) [1; 2]%R; PClear] = Ok (p, outs) /\ 0 < p_max p /\
  dims_fit (contents_new true) [PRecord (A:=RA) [1; 2]%R; PClear] /\ spec_empty (fst (spec_run (contents_new true) [PRecord (A:=RA) [1; 2]%R; PClear])) = true.
Proof. eexists _, _. split; [cbv; reflexivity|]. split; [cbn; lia|]. split; [simpl; intuition|reflexivity]. Qed.

(** C21, refuted for all phrases that have no memory. *)
Theorem C21_unallocated_refuted : forall (A : arith) bim ops (p : phrase (A:=A)) outs,
  dims_fit (contents_new bim) ops ->
  phrase_run false (phrase_new true bim) ops = Ok (p, outs) -> p_max p = 0 ->
  exists q, phrase_copy p = Ok q /\ phrase_destroy q = UB /\
  forall x, length x = p_dim q -> snd (record x q) = UB.
Proof. exact (@phrase_copy_unallocated). Qed.
Print Assumptions C21_unallocated_refuted.

Example C21_unallocated_meets : exists p outs, phrase_run (A:=RA) false (phrase_new true true) [PSetDim 4; PSetDimIn 3] = Ok (p, outs) /\ p_max p = 0 /\ dims_fit (contents_new true) [PSetDim (A:=RA) 4; PSetDimIn 3].
Proof. eexists _, _. split; [cbv; reflexivity|]. split; [reflexivity|simpl; intuition]. Qed.

(** C22: mean, standard deviation, minimum and maximum of the recorded frames. *)
Theorem C22_statistics : forall bim ops (p : phrase (A:=RA)) outs,
  dims_fit (contents_new bim) ops ->
  phrase_run false (phrase_new true bim) ops = Ok (p, outs) ->
  let s := fst (spec_run (contents_new bim) ops) in
  0 < spec_size s ->
  phrase_mean p = Ok (tab (s_dim s) (fun d => Rmean (column (frames_of s) d))) /\
  phrase_stddev p = Ok (tab (s_dim s) (fun d => sqrt (Rvar (column (frames_of s) d)))) /\
  ((forall x, In x (frames_of s) -> forall d, d < s_dim s -> (- @flt_max RA <= nth d x 0 <= @flt_max RA)%R) ->
   exists mm, phrase_minmax p = Ok mm /\ length mm = s_dim s /\
    forall d, d < s_dim s ->
      is_min (column (frames_of s) d) (fst (nth d mm (0%R, 0%R))) /\
      is_max (column (frames_of s) d) (snd (nth d mm (0%R, 0%R)))).
Proof. exact phrase_statistics. Qed.
Print Assumptions C22_statistics.

Example C22_meets :
  let s := fst (spec_run (contents_new true) C16_ops) in
  0 < spec_size s /\ frames_of s = [[1; 7; 8]]%R /\
  let s' := fst (spec_run (contents_new false) [PRecord (A:=RA) [1%R]; PRecord (A:=RA) [3%R]]) in
  spec_size s' = 2 /\ column (frames_of s') 0 = [1; 3]%R.
Proof. cbv zeta. split; [apply Nat.lt_0_succ|]. repeat split. Qed.

(** C23: rescaling a unimodal phrase applies the affine map to every value and changes nothing
    else. *)
Theorem C23_rescale : forall (A : arith) ops (p : phrase (A:=A)) outs offset gain,
  dims_fit (contents_new false) ops ->
  phrase_run false (phrase_new true false) ops = Ok (p, outs) ->
  let s := fst (spec_run (contents_new false) ops) in
  s_dim s <= length offset -> s_dim s <= length gain ->
  exists p', rescale offset gain p = Ok p' /\
    shows p' (with_frames s (map (affine offset gain) (s_in s)) (s_out s)) /\
    p_label p' = p_label p /\ p_cols p' = p_cols p /\ p_empty p' = p_empty p /\
    p_len p' = p_len p /\ p_dim p' = p_dim p.
Proof. exact (@phrase_rescale). Qed.
Print Assumptions C23_rescale.

Example C23_meets :
  let s := fst (spec_run (contents_new false) [PSetDim 2; PRecord (A:=RA) [1; 2]%R; PRecord (A:=RA) [3; 4]%R]) in
  s_in s = [[1; 2]; [3; 4]]%R /\ s_dim s = length [5; 6]%R /\
  dims_fit (contents_new false) [PSetDim 2; PRecord (A:=RA) [1; 2]%R; PRecord (A:=RA) [3; 4]%R].
Proof. simpl. intuition. Qed.

(** C23, refuted for bimodal phrases: the output value keeps its old value while a stale cell is
    changed (first part); with a single recorded frame an uninitialised cell is read (second part:
    undefined behaviour). *)
Theorem C23_bimodal_refuted : forall (A : arith) (x y o1 o2 g1 g2 : num A),
  (exists p p' outs,
     phrase_run false (phrase_new true true) [PRecord [x; y]; PRecord [x; y]; PClear; PRecord [x; y]]
       = Ok (p, outs) /\
     rescale [o1; o2] [g1; g2] p = Ok p' /\ getValue p' 0 1 = Ok y) /\
  (exists p outs, phrase_run false (phrase_new true true) [PRecord [x; y]] = Ok (p, outs) /\
     rescale [o1; o2] [g1; g2] p = UB).
Proof.
  intros. split.
  - eexists _, _, _. split; [vm_compute; reflexivity|]. split; [vm_compute; reflexivity|]. reflexivity.
  - eexists _, _. split; [vm_compute; reflexivity|]. vm_compute. reflexivity.
Qed.
Print Assumptions C23_bimodal_refuted.
