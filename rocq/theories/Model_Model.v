(** Model of the objects of src/core/model/xmmModel.hpp when no thread runs: who points to which
    shared parameters, the beginning of [train], copies and JSON.  The threads are in Model_Life. *)
From Coq Require Import String List Bool Arith ZArith.
From Verif Require Import Base Arith Model_Json Model_Map Model_Gaussian Model_Shared Model_Train.
Import ListNotations.
Local Open Scope nat_scope.
Local Open Scope list_scope.

Section Models.
  Context {A : arith}.

  (** xmmModelSingleClass.hpp: a class knows its shared parameters by a pointer (here: a place in the
      heap).  The learned parameters are not in this model. *)
  Record mclass := mkMC { mc_sp : nat; mc_status : status }.

  (** xmmModel.hpp 463-480, 598-640: [shared_parameters], [is_training_], [models]; [md_alldone] counts
      the Alldone events.  [models_still_training_], [is_joining_] and [cancel_required_] are 0 and
      false at rest. *)
  Record model := mkModel { md_sp : nat; md_training : bool; md_cls : list (string * mclass); md_alldone : nat }.

  Record mworld := mkMW { mw_heap : list (shared A); mw_models : list model }.

  Definition md_set_training (b : bool) (m : model) := mkModel (md_sp m) b (md_cls m) (md_alldone m).
  Definition md_set_cls (l : list (string * mclass)) (m : model) := mkModel (md_sp m) (md_training m) l (md_alldone m).

  Definition get_model (k : nat) : stm mworld model := fun w =>
    match nth_error (mw_models w) k with Some m => (w, Ok m) | None => (w, UB) end.
  Definition put_model (k : nat) (m : model) : stm mworld unit := fun w =>
    (mkMW (mw_heap w) (upd (mw_models w) k m), Ok tt).
  Definition add_model (m : model) : stm mworld unit := fun w => (mkMW (mw_heap w) (mw_models w ++ [m]), Ok tt).

  Definition get_shared (p : nat) : stm mworld (shared A) := fun w =>
    match nth_error (mw_heap w) p with Some s => (w, Ok s) | None => (w, UB) end.
  (** A member function of the shared parameters at [p]. *)
  Definition on_shared (p : nat) (f : stm (shared A) unit) : stm mworld unit := fun w =>
    match nth_error (mw_heap w) p with
    | Some s => let '(s, r) := f s in (mkMW (upd (mw_heap w) p s) (mw_models w), r)
    | None => (w, UB)
    end.
  (** [std::make_shared<SharedParameters>(x)]; the place is the identity of the object. *)
  Definition alloc_shared (s : nat -> shared A) : stm mworld nat := fun w =>
    (mkMW (mw_heap w ++ [s (length (mw_heap w))]) (mw_models w), Ok (length (mw_heap w))).

  (** xmmModel.hpp 55-72: constructor (the silent sets restore the values the constructor of the
      shared parameters and its listener have already set). *)
  Definition m_new (bimodal : bool) : stm mworld unit :=
    do* p := alloc_shared sp_new in
    do* _ := on_shared p (sp_set (SBim bimodal)) in
    add_model (mkModel p false [] 0).

  (** xmmModel.hpp 552-556: [checkTraining()] at rest. *)
  Definition m_check (k : nat) : stm mworld unit :=
    do* m := get_model k in
    if md_training m then sthrow RuntimeError else sret tt.

  (** xmmModel.hpp 404-410: [reset()].  What it does to the classes is not in this model. *)
  Definition m_reset (k : nat) : stm mworld unit := m_check k.
  (** xmmModel.hpp 418-421: [filter()] of the base class. *)
  Definition m_filter (k : nat) : stm mworld unit := m_check k.

  Definition failed (c : mclass) : bool := match mc_status c with Cancel | Error => true | _ => false end.

  (** xmmModel.hpp 487-519: [joinTraining()] without threads to join. *)
  Definition m_join (k : nat) : stm mworld unit :=
    do* m := get_model k in
    if md_training m then
      do* _ := put_model k (mkModel (md_sp m) false (filter (fun p => negb (failed (snd p))) (md_cls m)) (md_alldone m)) in
      do* _ := m_reset k in
      do* m := get_model k in
      put_model k (mkModel (md_sp m) (md_training m) (md_cls m) (S (md_alldone m)))
    else sret tt.

  (** xmmModel.hpp 366-377: [cancelTraining()]; no class is training. *)
  Definition m_cancel (k : nat) : stm mworld unit :=
    do* m := get_model k in
    swhen (md_training m) (m_join k).

  (** xmmModel.hpp 221-225: [clear()]. *)
  Definition m_clear (k : nat) : stm mworld unit :=
    do* _ := m_cancel k in
    do* m := get_model k in
    do* _ := put_model k (md_set_cls [] m) in
    m_reset k.

  (** What [train] reads of the training set. *)
  Record tsview := mkTs { ts_size : nat; ts_dim : nat; ts_din : nat; ts_names : list string; ts_labels : list string }.

  (** xmmModel.hpp 253-259. *)
  Definition m_fetch (p : nat) (ts : tsview) : stm mworld unit :=
    do* _ := on_shared p (sp_set (SDim (ts_dim ts))) in
    do* s := get_shared p in
    do* _ := swhen (sp_bim s) (on_shared p (sp_set (SDin (ts_din ts)))) in
    on_shared p (sp_set (SNames (ts_names ts))).

  (** xmmModel.hpp 579-596: [addModelForClass] (no class is training). *)
  Definition m_add_class (k : nat) (l : string) : stm mworld unit :=
    do* m := get_model k in
    put_model k (md_set_cls (minsert String.eqb String.ltb (md_cls m) l (mkMC (md_sp m) Run)) m).

  (** xmmModel.hpp 246-277: [train(trainingSet)] up to the start of the class trainings (Model_Life
      goes on from there).  The loop at 262-271 has nothing to erase: [clear()] has just been called. *)
  Definition m_prepare (k : nat) (ts : tsview) : stm mworld unit :=
    if ts_size ts <? 1 then sret tt else
    do* _ := m_cancel k in
    do* _ := m_clear k in
    do* m := get_model k in
    do* _ := put_model k (md_set_training true m) in
    do* _ := m_fetch (md_sp m) ts in
    sforeach (ts_labels ts) (m_add_class k).

  (** xmmModel.hpp 383-394: [cancelTraining(label)] at rest; [models_still_training_] is 0. *)
  Definition m_cancel_label (k : nat) (l : string) : stm mworld unit :=
    do* m := get_model k in
    swhen (md_training m && match mget String.eqb (md_cls m) l with Some _ => true | None => false end) (m_join k).

  (** xmmModel.hpp 312-345: [train(trainingSet, label)] up to the start of the class training. *)
  Definition m_prepare_label (k : nat) (ts : tsview) (l : string) : stm mworld unit :=
    if negb (existsb (String.eqb l) (ts_labels ts)) then sthrow OutOfRange else
    do* _ := m_cancel_label k l in
    do* m := get_model k in
    do* s := get_shared (md_sp m) in
    if (0 <? length (md_cls m)) && (negb (sp_dim s =? ts_dim ts) || (sp_bim s && negb (sp_din s =? ts_din ts)))
    then sthrow RuntimeError else
    do* _ := put_model k (md_set_training true m) in
    do* _ := m_fetch (md_sp m) ts in
    m_add_class k l.

  (** xmmModel.hpp 78-97: copy constructor.  [models = src.models] copies the classes with their
      pointers (xmmModelSingleClass.cpp 54-65); the status starts again at Run. *)
  Definition copy_class (c : mclass) : mclass := mkMC (mc_sp c) Run.
  Definition m_copy (src : nat) : stm mworld unit :=
    do* m := get_model src in
    do* s := get_shared (md_sp m) in
    do* p := alloc_shared (fun id => sp_copy id s) in
    if md_training m then sthrow RuntimeError else
    add_model (mkModel p false (map (fun e => (fst e, copy_class (snd e))) (md_cls m)) 0).

  (** xmmModel.hpp 127-155: [operator=]. *)
  Definition m_assign (dst src : nat) : stm mworld unit :=
    if dst =? src then sret tt else
    do* d := get_model dst in
    do* m := get_model src in
    if md_training d then sthrow RuntimeError else
    if md_training m then sthrow RuntimeError else
    do* s := get_shared (md_sp m) in
    do* p := alloc_shared (fun id => sp_copy id s) in
    put_model dst (mkModel p false (map (fun e => (fst e, copy_class (snd e))) (md_cls m)) (md_alldone d)).

  (** xmmModel.hpp 103-121 and 449-458: [fromJson(root)]: a temporary model with the parameters [s] read
      from the document and the classes [labels], then [*this = tmp].  The reading itself is C71 and
      C33; in histories ([OLoad]) the parameters read are any that assignments can produce. *)
  Definition m_load (k : nat) (s : nat -> shared A) (labels : list string) : stm mworld unit :=
    do* p := alloc_shared s in
    do* m := get_model k in
    if md_training m then sthrow RuntimeError else
    do* s' := get_shared p in
    do* q := alloc_shared (fun id => sp_copy id s') in
    put_model k (mkModel q false (fold_left (fun l x => minsert String.eqb String.ltb l x (mkMC p Run)) labels []) (md_alldone m)).

  (** An assignment to an attribute of [model.shared_parameters]. *)
  Definition m_set (k : nat) (o : sset A) : stm mworld unit :=
    do* m := get_model k in
    on_shared (md_sp m) (sp_set o).

  (** The length of the likelihood buffer of class [l] of model [k] after the next [reset()]
      (xmmModelSingleClass.cpp 225-229). *)
  Definition class_window (w : mworld) (k : nat) (l : string) : option nat :=
    match nth_error (mw_models w) k with
    | None => None
    | Some m => match mget String.eqb (md_cls m) l with
                | None => None
                | Some c => match nth_error (mw_heap w) (mc_sp c) with Some s => Some (sp_win s) | None => None end
                end
    end.

  (** Histories. *)
  Inductive mop :=
  | ONew (b : bool) | OSet (k : nat) (o : sset A) | OPrepare (k : nat) (ts : tsview) | OPrepareL (k : nat) (ts : tsview) (l : string)
  | OFinish (k : nat) (st : string -> status) | OCopy (k : nat) | OAssign (d s : nat) | OCancel (k : nat) | OClear (k : nat)
  | OLoad (k : nat) (ops : list (sset A)) (labels : list string).

  (** The class trainings end with the statuses [st] and [train] returns (Model_Life). *)
  Definition m_finish (k : nat) (st : string -> status) : stm mworld unit :=
    do* m := get_model k in
    do* _ := put_model k (md_set_cls (map (fun e => (fst e, mkMC (mc_sp (snd e)) (st (fst e)))) (md_cls m)) m) in
    m_join k.

  Definition m_step (o : mop) : stm mworld unit :=
    match o with
    | ONew b => m_new b
    | OSet k o => m_set k o
    | OPrepare k ts => m_prepare k ts
    | OPrepareL k ts l => m_prepare_label k ts l
    | OFinish k st => m_finish k st
    | OCopy k => m_copy k
    | OAssign d s => m_assign d s
    | OCancel k => m_cancel k
    | OClear k => m_clear k
    | OLoad k ops labels => m_load k (fun id => sp_run ops (sp_new id)) labels
    end.
  Fixpoint m_run (ops : list mop) (w : mworld) : mworld :=
    match ops with
    | [] => w
    | o :: ops => m_run ops (fst (m_step o w))
    end.
  Definition mw0 : mworld := mkMW [] [].
End Models.
Arguments mworld : clear implicits.
Arguments mop : clear implicits.
