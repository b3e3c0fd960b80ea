(** Model of [GMM::train] from a training set to trained classes: src/core/model/xmmModel.hpp 246-301
    with the training driver of Model_Train, the learning algorithm of Model_GMM and the recorded phrases
    of Model_TrainingSet.

    The training set does not change during [train].  The classes are trained one after the other: in the
    modes with threads each class only writes its own members and reads the phrases (the interleavings of
    their notifications are in Model_Life).  For the Background mode this is the state once the training
    has been joined.  Nobody cancels the training. *)
From Coq Require Import String List Bool Arith ZArith QArith.
From Verif Require Import Base Arith Model_Map Model_Ring Model_Json Model_Phrase Model_TrainingSet Model_Gaussian Model_Config Model_KMeans Model_GMM
  Model_HMM Model_HHMM Model_Shared Model_Train Model_Reload.
Import ListNotations.
Local Open Scope nat_scope.
Local Open Scope list_scope.

Section Workflow.
  Context {A : arith}.
  Local Notation T := (num A).
  Local Notation phrase := (phrase (A:=A)).

  (** ** Frames of a phrase *)

  (** xmmPhrase.cpp 254-282: [getPointer], [getPointer_input], [getPointer_output]: the position in the
      first, first and second array. *)
  Definition getPointer (p : phrase) (t : nat) : res nat :=
    if p_len p <=? t then Throw OutOfRange
    else if p_bim p then Throw RuntimeError
    else Ok (t * p_dim p).
  Definition getPointer_input (p : phrase) (t : nat) : res nat :=
    if p_len p <=? t then Throw OutOfRange
    else if negb (p_bim p) then Throw RuntimeError
    else Ok (t * p_din p).
  Definition getPointer_output (p : phrase) (t : nat) : res nat :=
    if p_len p <=? t then Throw OutOfRange
    else if negb (p_bim p) then Throw RuntimeError
    else let* od := usub (p_dim p) (p_din p) in Ok (t * od).

  (** The [n] values at a pointer. *)
  Definition read_at (b : block (A:=A)) (off n : nat) : res (list T) := tabM n (fun d => rdb b (off + d)).

  (** xmmGmmSingleClass.cpp 412-417: frame [t] as [obsProb] and [obsProb_bimodal] read it. *)
  Definition pointer_frame (p : phrase) (t : nat) : res (list T) :=
    if p_bim p then
      let* i := getPointer_input p t in
      let* x := read_at (p_d0 p) i (p_din p) in
      let* o := getPointer_output p t in
      let* y := read_at (p_d1 p) o (p_dim p - p_din p) in
      Ok (x ++ y)
    else
      let* i := getPointer p t in
      read_at (p_d0 p) i (p_dim p).

  (** Frame [t] as the loops over [getValue(t, d)] read it (xmmGmmSingleClass.cpp 336-353, 447-505). *)
  Definition value_frame (p : phrase) (t : nat) : res (list T) := tabM (p_dim p) (getValue p t).
  Definition phrase_frames (p : phrase) : res (list (list T)) := tabM (p_len p) (value_frame p).
  Definition pointer_frames (p : phrase) : res (list (list T)) := tabM (p_len p) (pointer_frame p).

  (** ** Training of one class *)

  Definition of_res {M} (m : M) (r : res M) : M * res unit :=
    match r with
    | Ok m' => (m', Ok tt)
    | Throw e => (m, Throw e)
    | UB => (m, UB)
    end.

  (** xmmGmmSingleClass.cpp 88-94, 224-233, 390-510: the learning algorithm of a GMM on the phrases [ps] of a
      training set of dimension [dim]. *)
  Definition gm_hooks (dim : nat) (ps : list phrase) : hooks A (gclass A) :=
    mkHooks
      (fun g => of_res g (gm_allocate g))
      (fun g => of_res g (let* dev := ts_stddev dim ps in let* data := mapM phrase_frames ps in gm_init data dev g))
      (fun g => match (let* data := mapM phrase_frames ps in gm_update (concat data) g) with
                | Ok (g', x) => (g', Ok x)
                | Throw e => (g, Throw e)
                | UB => (g, UB)
                end)
      (fun g => (g, Ok tt)).

  (** What the constructors leave uninitialised. *)
  Variable u : junk A.

  (** xmmModel.hpp 579-596: [addModelForClass(label)] for a new label: a class is built, copied into the map,
      and given its parameters. *)
  Definition gc_fresh (s : shared A) : gclass A :=
    gc_copy u (mkGC (A := A) (sp_bim s) (sp_dim s) (sp_din s) (sp_win s) gmmP_new [] [] [] [] (ring_new n0 1 (sp_win s)) (jk_num u) (jk_num u) [] []).
  Definition gc_set_par (p : gmmP A) (g : gclass A) : gclass A :=
    mkGC (A := A) (gc_bim g) (gc_dim g) (gc_din g) (gc_win g) p (gc_coef g) (gc_comp g) (gc_beta g) (gc_reg g) (gc_buf g) (gc_inst g) (gc_log g) (gc_out g) (gc_ocov g).
  Definition gq_new_class (s : shared A) (cf : config (gmmP A)) (l : string) : gclass A :=
    gc_set_par (cf_used gmmP_assign l cf (gc_par (gc_fresh s))) (gc_fresh s).

  (** The members of a class that starts its training (xmmModel.hpp 281-282). *)
  Definition train_start {M} (m : M) : tstate A M := mkT m Run 0 n0 n0 true false [] 0 0.

  (** xmmModel.hpp 289-292: [train(trainingSet->getPhrasesOfClass(label))]; the driver makes at most 1000
      rounds. *)
  Definition gq_train_class (w : world A) (t : tset) (s : shared A) (cf : config (gmmP A)) (l : string) : res (status * gclass A) :=
    let* ps := match getPhrasesOfClass t l with
               | Some c => mapM (fun e => rd (w_heap w) (snd e)) (u_phrases c)
               | None => Ok []
               end in
    let dim := match getPhrasesOfClass t l with Some c => u_dim c | None => 0 end in
    let '(st, e) := em_train (gm_hooks dim ps) (mkEm (sp_minit s) (sp_maxit s) (sp_pct s)) (fun _ => false) 1000
                      (match ps with [] => true | _ => false end) (train_start (gq_new_class s cf l)) in
    match e with
    | Returned => Ok (t_status st, t_m st)
    | Escaped x => Throw x
    | Undefined | Unfinished => UB
    end.

  (** ** Training of the model *)

  (** xmmModel.hpp 253-259: the shared parameters are fetched from the training set. *)
  Definition gq_fetch (t : tset) (s : shared A) : res (shared A) :=
    let* s := runm (sp_set (SDim (t_dim t))) s in
    let* s := if sp_bim s then runm (sp_set (SDin (t_din t))) s else Ok s in
    runm (sp_set (SNames (t_cols t))) s.

  Definition gq_set (s : shared A) (ms : list (string * gclass A)) (r : results A) (m : gmodel A) : gmodel A :=
    mkGM s (gq_cf m) ms r.

  (** xmmGmm.cpp 86-106: [reset()] on the whole model. *)
  Definition gq_reset (m : gmodel A) : res (gmodel A) :=
    let* v := gm_reset (gq_view m) in
    Ok (gq_set (gq_sp m) (gm_models v) (gm_res v) m).

  (** xmmGmm.cpp 108-164: [filter(observation)] on the whole model. *)
  Definition gq_filter (x : list T) (m : gmodel A) : res (gmodel A) :=
    let* v := gm_filter x (gq_view m) in
    Ok (gq_set (gq_sp m) (gm_models v) (gm_res v) m).

  Definition is_failed (st : status) : bool := match st with Cancel | Error => true | _ => false end.

  (** xmmModel.hpp 246-301: [train(trainingSet)]: [clear()], the shared parameters, the classes, and in the
      modes with threads [joinTraining()] (487-519), which erases the classes that failed and resets.  The
      loop at 262-271 has nothing to erase after [clear()]. *)
  Definition gq_train (w : world A) (k : nat) (m : gmodel A) : res (gmodel A) :=
    let* o := rd (w_sets w) k in
    match o with
    | None => UB
    | Some t =>
        if length (t_phrases t) <? 1 then Ok m else
        let* m := gq_reset (gq_set (gq_sp m) [] (gq_res m) m) in
        let* s := gq_fetch t (gq_sp m) in
        let* ms := mapM (fun l => let* r := gq_train_class w t s (gq_cf m) l in Ok (l, r)) (t_labels t) in
        if (cf_mt (gq_cf m) =? 0)%Z
        then Ok (gq_set s (map (fun e => (fst e, snd (snd e))) ms) (gq_res m) m)
        else
          let ms := filter (fun e => negb (is_failed (fst (snd e)))) ms in
          gq_reset (gq_set s (map (fun e => (fst e, snd (snd e))) ms) (gq_res m) m)
    end.
End Workflow.
