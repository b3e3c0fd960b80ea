(** Properties C24-C28: training sets. *)
From Coq Require Import String List Bool Arith Lia ZArith Reals Lra.
From Verif Require Import Base Arith Model_Map Model_Json Model_Phrase Model_TrainingSet Spec_Phrase Spec_TrainingSet.
From Verif Require Import RFacts Proofs_PhraseStats Proofs_TrainingSet6 Proofs_TrainingSet8 Proofs_TrainingStats.
Import ListNotations.
Local Open Scope nat_scope.

(** C24: after every history, labels and classes are those of the phrases. *)
Theorem C24_mirrors : forall (A : arith) (w : world A) k t,
  reachable w -> set_at w k = Some t -> mirrors w t.
Proof. exact (@reachable_mirrors). Qed.
Print Assumptions C24_mirrors.

(** C24: [addPhrase(index, label)] puts an empty phrase with the attributes of the set at this
    index, and changes nothing else. *)
Theorem C24_add : forall (A : arith) (w : world A) k t i lab,
  reachable w -> set_at w k = Some t -> in_range t ->
  exists w' t' id p, world_step (WAdd k i lab) w = (w', Ok tt) /\
    set_at w' k = Some t' /\ same_attributes t t' /\
    getPhrase t' i = Some id /\ length (w_heap w) <= id /\
    nth_error (w_heap w') id = Some p /\ fresh_in t lab p /\
    (forall j, j <> i -> getPhrase t' j = getPhrase t j) /\
    (forall d, d < length (w_heap w) -> nth_error (w_heap w') d = nth_error (w_heap w) d) /\
    (forall j, j <> k -> set_at w' j = set_at w j).
Proof. exact (@reachable_add). Qed.
Print Assumptions C24_add.

(** C24: [removePhrase(index)] removes this index only. *)
Theorem C24_remove : forall (A : arith) (w : world A) k t i,
  reachable w -> set_at w k = Some t -> in_range t ->
  exists w' t', world_step (WRemove k i) w = (w', Ok tt) /\ w_heap w' = w_heap w /\
    set_at w' k = Some t' /\ same_attributes t t' /\
    (forall j, getPhrase t' j = if Z.eqb j i then None else getPhrase t j) /\
    (forall j, j <> k -> set_at w' j = set_at w j).
Proof. exact (@reachable_remove). Qed.
Print Assumptions C24_remove.

(** C24: [removePhrasesOfClass(label)] removes the phrases with this label, and only them. *)
Theorem C24_remove_class : forall (A : arith) (w : world A) k t l,
  reachable w -> set_at w k = Some t -> in_range t ->
  exists w' t', world_step (WRemoveClass k l) w = (w', Ok tt) /\ w_heap w' = w_heap w /\
    set_at w' k = Some t' /\ same_attributes t t' /\
    (forall j id, getPhrase t' j = Some id <-> getPhrase t j = Some id /\ ~ has_label w l id) /\
    (forall j, j <> k -> set_at w' j = set_at w j).
Proof. exact (@reachable_remove_class). Qed.
Print Assumptions C24_remove_class.

Definition C24_ops {A} : list (wop A) :=
  [WNewSet true false; WAdd 0 3%Z "b"; WAdd 0 1%Z "a"; WAdd 0 2%Z "b"; WLabel 1 "b"; WRemove 0 2%Z;
   WSetDim 0 0; WNewPhrase true false; WAddPtr 0 7%Z 3; WLabel 3 "c"]%string.

Example C24_meets : forall A : arith, exists w : world A, reachable w /\ exists t, set_at w 0 = Some t /\
  in_range t /\ t_labels t = ["b"; "c"]%string /\
  getPhrase t 3%Z = Some 0 /\ getPhrase t 1%Z = Some 1 /\ getPhrase t 7%Z = Some 3.
Proof.
  intro A. eexists. split.
  - exists C24_ops. eexists. split; [vm_compute; reflexivity|].
    intros n o H U. do 10 (destruct n as [|n]; [simpl in H; inversion H; subst; try reflexivity; destruct U|]). destruct n; discriminate.
  - eexists. split; [vm_compute; reflexivity|]. unfold in_range. cbn. repeat split; auto.
Qed.

(** C24, refuted after the destruction of a set: its phrases still call it. *)
Theorem C24_destroyed_refuted : forall A : arith,
  exists ops : list (wop A), ops = [WNewSet true false; WAdd 0 0%Z "a"; WDestroy 0; WLabel 0 "b"]%string /\
    world_run world_new ops = UB.
Proof. intro A. eexists. split; [reflexivity|]. vm_compute. reflexivity. Qed.
Print Assumptions C24_destroyed_refuted.

(** C24, refuted when a call has thrown: here class "b" is gone although a phrase has this label. *)
Theorem C24_throw_refuted : forall A : arith,
  exists (w : world A) outs t id,
    world_run world_new [WNewSet true true; WSetDim 0 4; WSetDimIn 0 3; WAdd 0 0%Z "a"; WAdd 0 1%Z "b";
                         WSetDim 0 2; WRemove 0 5%Z]%string = Ok (w, outs) /\
    last outs (Ok tt) = Throw DomainError /\
    set_at w 0 = Some t /\ getPhrase t 1%Z = Some id /\ has_label w "b" id /\
    getPhrasesOfClass t "b" = None /\ ~ mirrors w t.
Proof.
  intro A. do 4 eexists. split; [vm_compute; reflexivity|].
  split; [reflexivity|]. split; [reflexivity|]. split; [reflexivity|].
  split; [eexists; split; reflexivity|]. split; [reflexivity|].
  intros (_ & _ & H). specialize (H "b"%string). cbn [getPhrasesOfClass t_subs mget String.eqb Ascii.eqb Bool.eqb] in H.
  apply (H 1%Z 1); [reflexivity|]. eexists; split; reflexivity.
Qed.
Print Assumptions C24_throw_refuted.

(** C25: assignment makes a deep copy, of phrases that no other set holds. *)
Theorem C25_assign : forall (A : arith) (w w' : world A) k src s,
  reachable w -> k <> src -> set_at w src = Some s ->
  world_step (WAssign k src) w = (w', Ok tt) ->
  exists t, set_at w' k = Some t /\ deep_copy w s w' t /\ up_to_date w' k /\
    (forall j, j <> k -> view w' j = view w j) /\
    (forall id, In id (ids_of w' k) -> forall j, j <> k -> ~ In id (ids_of w' j)).
Proof. exact (@reachable_assign). Qed.
Print Assumptions C25_assign.

(** C25: whatever is done later to other sets and other phrases, the copy does not change. *)
Theorem C25_copy_independent : forall (A : arith) (w w' w'' : world A) k src s ops outs,
  reachable w -> k <> src -> set_at w src = Some s ->
  world_step (WAssign k src) w = (w', Ok tt) ->
  spares_all (spares k) w' ops -> world_run w' ops = Ok (w'', outs) -> view w'' k = view w' k.
Proof. exact (@assign_independent). Qed.
Print Assumptions C25_copy_independent.

(** C25: nor does the source, if only the copy is changed. *)
Theorem C25_source_independent : forall (A : arith) (w w' w'' : world A) k src s ops outs,
  reachable w -> k <> src -> set_at w src = Some s -> up_to_date w src ->
  world_step (WAssign k src) w = (w', Ok tt) ->
  spares_all (spares src) w' ops -> world_run w' ops = Ok (w'', outs) -> view w'' src = view w src.
Proof. exact (@assign_independent_source). Qed.
Print Assumptions C25_source_independent.

(** Two sets; set 1 is assigned from set 0, then phrases of set 0 are renamed, recorded into and
    removed. *)
Definition C25_ops {A} : list (wop A) :=
  [WNewSet true false; WNewSet true false; WAdd 0 3%Z "b"; WAdd 0 1%Z "a"; WPhrase 0 (PRecord [n1]); WPhrase 1 (PRecord [n0])]%string.
Definition C25_later {A} : list (wop A) :=
  [WLabel 0 "z"; WPhrase 0 (PRecord [n1]); WRemove 0 1%Z; WSetDim 0 2; WAdd 0 5%Z "y"; WClear 0]%string.

Example C25_meets : forall A : arith, exists w w' : world A, exists s w'' outs,
  reachable w /\ set_at w 0 = Some s /\ up_to_date w 0 /\
  world_step (WAssign 1 0) w = (w', Ok tt) /\ spares_all (spares 1) w' C25_later /\
  world_run w' C25_later = Ok (w'', outs) /\ ids_of w'' 1 = [2; 3].
Proof.
  intro A. do 5 eexists. split.
  { exists C25_ops. eexists. split; [vm_compute; reflexivity|].
    intros n o H U. do 6 (destruct n as [|n]; [simpl in H; inversion H; subst; try reflexivity; destruct U|]). destruct n; discriminate. }
  split; [reflexivity|]. split; [vm_compute; reflexivity|]. split; [vm_compute; reflexivity|].
  split.
  - unfold C25_later. repeat match goal with
      | |- spares_all _ _ [] => exact I
      | |- spares_all _ ?w (?o :: _) => split;
          [split; [vm_compute; discriminate|vm_compute; intuition congruence]
          |let w2 := eval vm_compute in (fst (world_step o w)) in
           change (fst (world_step o w)) with w2]
      end.
  - split; [vm_compute; reflexivity|]. reflexivity.
Qed.

(** C25, refuted for the copy constructor: the phrases are shared, so that recording into a
    phrase of one set shows in the other. *)
Theorem C25_copy_constructor_refuted : forall A : arith,
  exists (w w' : world A) outs t0 t1 id p p',
    world_run world_new [WNewSet true false; WAdd 0 0%Z "a"; WPhrase 0 (PRecord [n1]); WCopy 0]%string = Ok (w, outs) /\
    set_at w 0 = Some t0 /\ set_at w 1 = Some t1 /\
    getPhrase t0 0%Z = Some id /\ getPhrase t1 0%Z = Some id /\
    world_step (WPhrase id (PRecord [n0])) w = (w', Ok tt) /\
    nth_error (w_heap w) id = Some p /\ nth_error (w_heap w') id = Some p' /\
    p_len p = 1 /\ p_len p' = 2.
Proof.
  intro A. do 8 eexists. split; [vm_compute; reflexivity|].
  split; [reflexivity|]. split; [reflexivity|]. split; [reflexivity|]. split; [reflexivity|].
  split; [vm_compute; reflexivity|]. repeat split.
Qed.
Print Assumptions C25_copy_constructor_refuted.

(** C25: copy construction of a set that holds an empty phrase is undefined behaviour. *)
Theorem C25_copy_constructor_empty_refuted : forall A : arith,
  world_run (A:=A) world_new [WNewSet true false; WAdd 0 0%Z "a"; WCopy 0]%string = UB.
Proof. intro A. vm_compute. reflexivity. Qed.
Print Assumptions C25_copy_constructor_empty_refuted.

(** C28: what remains true: a new dimension above the input dimension keeps the set usable. *)
Theorem C28_dimension_partial : forall (A : arith) (w w' : world A) k t n i lab,
  reachable w -> set_at w k = Some t -> in_range t ->
  world_step (WSetDim k n) w = (w', Ok tt) -> t_din t <= n - 1 ->
  exists w'' t' id p, world_step (WAdd k i lab) w' = (w'', Ok tt) /\
    set_at w'' k = Some t' /\ t_dim t' = n /\ t_din t' = t_din t /\ getPhrase t' i = Some id /\
    nth_error (w_heap w'') id = Some p /\ p_dim p = n /\ p_din p = t_din t /\ p_label p = lab.
Proof. exact (@dimension_then_add). Qed.
Print Assumptions C28_dimension_partial.

Example C28_meets : forall A : arith, exists w w' : world A, exists t,
  reachable w /\ set_at w 0 = Some t /\ in_range t /\ world_step (WSetDim 0 3) w = (w', Ok tt) /\ t_din t = 2.
Proof.
  intro A. do 3 eexists. split.
  { exists [WNewSet true true; WSetDim 0 5; WSetDimIn 0 2; WAdd 0 4%Z "a"%string]. eexists.
    split; [vm_compute; reflexivity|].
    intros n o H U. do 4 (destruct n as [|n]; [simpl in H; inversion H; subst; try reflexivity; destruct U|]). destruct n; discriminate. }
  split; [reflexivity|]. split; [unfold in_range; cbn; repeat constructor|].
  split; [vm_compute; reflexivity|reflexivity].
Qed.

(** C28, refuted: below it, the next [addPhrase] throws. *)
Theorem C28_dimension_refuted : forall A : arith,
  exists (w w' w'' : world A) outs t,
    world_run world_new [WNewSet true true; WSetDim 0 4; WSetDimIn 0 3] = Ok (w, outs) /\
    set_at w 0 = Some t /\ in_range t /\
    world_step (WSetDim 0 2) w = (w', Ok tt) /\
    world_step (WAdd 0 0%Z "a"%string) w' = (w'', Throw DomainError).
Proof.
  intro A. do 5 eexists. split; [vm_compute; reflexivity|]. split; [reflexivity|].
  split; [unfold in_range; cbn; repeat constructor|].
  split; vm_compute; reflexivity.
Qed.
Print Assumptions C28_dimension_refuted.

(** C26: writing a set to JSON and reading it, into the same or another set, restores the
    attributes, the classes and, index by index, the complete frames, label and column names of
    every phrase; nothing else changes. *)
Theorem C26_json_round_trip : forall (A : arith) (cv : conv A) (w : world A) k tk src t,
  reachable w -> set_at w k = Some tk -> set_at w src = Some t ->
  in_range t -> (Z.of_nat (t_dim t) < 2 ^ 31)%Z -> length (t_cols t) = t_dim t ->
  (forall i id, getPhrase t i = Some id -> (- 2 ^ 31 <= i < 2 ^ 31)%Z /\
     exists p s, nth_error (w_heap w) id = Some p /\ storable_phrase cv p s) ->
  exists j w' t', ts_toJson w t = Ok j /\ tset_fromJson cv k j w = (w', Ok tt) /\
    set_at w' k = Some t' /\ mirrors w' t' /\
    t_own t' = true /\ t_bim t' = t_bim t /\ t_dim t' = t_dim t /\ t_din t' = t_din t /\ t_cols t' = t_cols t /\
    (forall i, match getPhrase t i with
               | None => getPhrase t' i = None
               | Some id => exists p s id' q,
                   nth_error (w_heap w) id = Some p /\ storable_phrase cv p s /\
                   getPhrase t' i = Some id' /\ nth_error (w_heap w') id' = Some q /\
                   shows q (complete s) /\ p_label q = p_label p /\
                   p_cols q = vresize (s_dim s) EmptyString (p_cols p)
               end) /\
    (forall id p, nth_error (w_heap w) id = Some p -> nth_error (w_heap w') id = Some p) /\
    (forall i, i < length (w_sets w) -> i <> k -> set_at w' i = set_at w i).
Proof. exact reachable_json. Qed.
Print Assumptions C26_json_round_trip.

Definition C26_ops {A} : list (wop A) :=
  [WNewSet true false; WNewSet true true; WSetDim 0 2; WSetCols 0 ["x"; "y"]; WAdd 0 (-3)%Z "b"; WAdd 0 8%Z "a";
   WPhrase 0 (PRecord [n0; n1]); WPhrase 0 (PRecord [n1; n1])]%string.

(** Two phrases, one of them empty; rounding to float is the identity here. *)
Example C26_meets : forall A : arith, exists (w : world A) tk t,
  reachable w /\ set_at w 1 = Some tk /\ set_at w 0 = Some t /\ in_range t /\
  (Z.of_nat (t_dim t) < 2 ^ 31)%Z /\ length (t_cols t) = t_dim t /\ map fst (t_phrases t) = [-3; 8]%Z /\
  forall i id, getPhrase t i = Some id -> (- 2 ^ 31 <= i < 2 ^ 31)%Z /\
     exists p s, nth_error (w_heap w) id = Some p /\
       storable_phrase (mkConv (fun x => x) (fun _ => None) (fun _ => EmptyString)) p s.
Proof.
  intro A. do 3 eexists. split.
  { exists C26_ops. eexists. split; [vm_compute; reflexivity|].
    intros n o H U. do 8 (destruct n as [|n]; [simpl in H; inversion H; subst; try reflexivity; destruct U|]). destruct n; discriminate. }
  split; [reflexivity|]. split; [reflexivity|]. split; [unfold in_range; cbn; repeat constructor|].
  split; [reflexivity|]. split; [reflexivity|]. split; [reflexivity|].
  assert (M : forall l : list (pop (A:=A)), dims_fit (contents_new false) l -> forall lab names ev s p, 
    (let '(p', outs) := fold_left (fun po o => (fst (phrase_step false o (fst po)), tt)) l (phrase_new (A:=A) true false, tt) in
     p = set_events ev (set_label lab (set_cols names p'))) ->
    s = fst (spec_run (contents_new false) l) -> made p s).
  { intros l HF lab names ev s p Hp ->.
    assert (G : forall l p0 s0 u, made (A:=A) p0 s0 -> dims_fit s0 l ->
      made (fst (fold_left (fun po o => (fst (phrase_step false o (fst po)), tt)) l (p0, u))) (fst (spec_run s0 l))).
    { clear. induction l as [|o l IH]; intros p0 s0 u H HF; [exact H|]. cbn [dims_fit] in HF. destruct HF as (H1 & H2).
      cbn [fold_left fst spec_run]. pose proof (made_op _ _ _ H H1) as M1. destruct (spec_step s0 o) as [s1 out] eqn:E1.
      cbn [fst] in *. specialize (IH _ _ tt M1 H2). destruct (spec_run s1 l). exact IH. }
    specialize (G l _ _ tt (made_new false) HF).
    destruct (fold_left _ _ _) as [p' u]. subst p. cbn [fst] in G. constructor. constructor. constructor. exact G. }
  intros i id H. unfold getPhrase, pget in H. cbn [t_phrases mget] in H.
  destruct (Z.eqb_spec i (-3)) as [->|_].
  - inversion H; subst id. split; [lia|]. eexists. exists (mkContents (A:=A) false 2 0 1 [[n0; n1]; [n1; n1]] []).
    split; [reflexivity|]. split; [|split; [|split; [|split]]].
    + eapply (M [PSetDim 2; PSetDimIn 0; PRecord [n0; n1]; PRecord [n1; n1]] ltac:(cbn; repeat split; intros; discriminate) "b"%string ["x"; "y"]%string [(0, 0)]); vm_compute; reflexivity.
    + split; [reflexivity|]. split; reflexivity.
    + intros x v _ _. reflexivity.
    + cbn. lia.
    + cbn. lia.
  - destruct (Z.eqb_spec i 8) as [->|_]; [|discriminate].
    inversion H; subst id. split; [lia|]. eexists. exists (mkContents (A:=A) false 2 0 1 [] []).
    split; [reflexivity|]. split; [|split; [|split; [|split]]].
    + eapply (M [PSetDim 2; PSetDimIn 0] ltac:(cbn; repeat split; intros; discriminate) "a"%string ["x"; "y"]%string [(0, 0)]); vm_compute; reflexivity.
    + split; [reflexivity|]. split; reflexivity.
    + intros x v _ _. reflexivity.
    + cbn. lia.
    + cbn. lia.
Qed.

(** C27: mean and standard deviation of all complete frames. *)
Theorem C27_statistics : forall dim (ps : list (phrase (A:=RA))) ss,
  Forall2 made ps ss -> (forall s, In s ss -> s_dim s = dim) ->
  ts_mean dim ps = Ok (tab dim (fun d => Rmean (column (all_frames ss) d))) /\
  ts_stddev dim ps = Ok (tab dim (fun d => sqrt (Rvar (column (all_frames ss) d)))).
Proof. exact training_statistics. Qed.
Print Assumptions C27_statistics.

(** C27: minimum and maximum of all recorded values of each dimension. *)
Theorem C27_minmax : forall bim dim din (ps : list (phrase (A:=RA))) ss,
  Forall2 made ps ss ->
  (forall s, In s ss -> s_bim s = bim /\ s_dim s = dim /\ (bim = true -> s_din s = din)) ->
  (forall d, d < dim -> all_values ss d <> []) ->
  (forall d x, d < dim -> In x (all_values ss d) -> (- @flt_max RA <= x <= @flt_max RA)%R) ->
  exists mm, ts_minmax bim dim din ps = Ok mm /\ length mm = dim /\
    forall d, d < dim ->
      is_min (all_values ss d) (fst (nth d mm (0%R, 0%R))) /\
      is_max (all_values ss d) (snd (nth d mm (0%R, 0%R))).
Proof. exact training_minmax. Qed.
Print Assumptions C27_minmax.

(** C27: [normalize] of a unimodal set gives mean 0 and standard deviation 1 in every dimension
    that is not constant, and keeps the number of frames. *)
Theorem C27_normalize : forall dim (ps : list (phrase (A:=RA))) ss,
  Forall2 made ps ss -> (forall s, In s ss -> s_bim s = false /\ s_dim s = dim) ->
  exists ps' ss' m sd, ts_normalize dim ps = Ok ps' /\ Forall2 shows ps' ss' /\
    length ss' = length ss /\
    (forall i, i < length ss -> let s := nth i ss (contents_new false) in let s' := nth i ss' (contents_new false) in
       s_bim s' = false /\ s_dim s' = dim /\ spec_size s' = spec_size s) /\
    ts_mean dim ps' = Ok m /\ ts_stddev dim ps' = Ok sd /\ length m = dim /\ length sd = dim /\
    forall d, d < dim -> (0 < Rvar (column (all_frames ss) d))%R -> nth d m 0%R = 0%R /\ nth d sd 0%R = 1%R.
Proof. exact training_normalize. Qed.
Print Assumptions C27_normalize.

(** Two phrases with 1 and 2 frames: the mean is 3 and the variance 14/3. *)
Example C27_meets : exists ps ss, Forall2 (made (A:=RA)) ps ss /\ length ps = 2 /\
  (forall s, In s ss -> s_bim s = false /\ s_dim s = 1 /\ (false = true -> s_din s = 0)) /\
  (forall d, d < 1 -> all_values ss d <> []) /\
  (forall d x, d < 1 -> In x (all_values ss d) -> (- @flt_max RA <= x <= @flt_max RA)%R) /\
  column (all_frames ss) 0 = [1; 2; 6]%R /\ (Rvar (column (all_frames ss) 0) = 14 / 3)%R.
Proof.
  set (s1 := mkContents (A:=RA) false 1 0 0 [[1%R]] []).
  set (s2 := mkContents (A:=RA) false 1 0 0 [[2%R]; [6%R]] []).
  exists [fst (phrase_step false (PRecord (A:=RA) [1%R]) (phrase_new true false));
          fst (phrase_step false (PRecord (A:=RA) [6%R]) (fst (phrase_step false (PRecord (A:=RA) [2%R]) (phrase_new true false))))], [s1; s2].
  assert (Hm : @flt_max RA = 340282346638528859811704183484516925440%R) by apply flt_max_RA.
  split.
  { constructor; [|constructor; [|constructor]].
    - apply (made_op (A:=RA) _ _ (PRecord (A:=RA) [1%R]) (made_new false) I).
    - apply (made_op (A:=RA) _ (mkContents (A:=RA) false 1 0 0 [[2%R]] []) (PRecord (A:=RA) [6%R])); [|exact I].
      apply (made_op (A:=RA) _ _ (PRecord (A:=RA) [2%R]) (made_new false) I). }
  split; [reflexivity|]. split.
  { intros s [<-|[<-|[]]]; repeat split; discriminate. }
  split; [intros [|d] Hd; [discriminate|lia]|].
  split.
  { intros [|d] x Hd Hx; [|lia]. change (num RA) with R in *. rewrite Hm. cbn in Hx. destruct Hx as [<-|[<-|[<-|[]]]]; lra. }
  split; [reflexivity|].
  unfold Rvar, Rmean, Rlsum. cbn. lra.
Qed.
