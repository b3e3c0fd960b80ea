(** Model of [HierarchicalHMM::train] from a training set to trained classes: src/core/model/xmmModel.hpp
    246-301 with the training driver of Model_Train, the learning algorithm of Model_HMM and the recorded
    phrases of Model_TrainingSet.  The initialisation trains one mixture per state on pieces of the phrases,
    with the same driver.

    The simplifications are those of Model_Workflow.  The temporary training set of the initialisation is
    the list of its phrases; a connected phrase reads the values that the recorded phrase has. *)
From Coq Require Import String List Bool Arith ZArith QArith.
From Verif Require Import Base Arith Model_Map Model_Ring Model_Json Model_Phrase Model_TrainingSet Model_Gaussian Model_Config Model_KMeans Model_GMM
  Model_HMM Model_HHMM Model_Shared Model_Train Model_Reload Model_Workflow.
Import ListNotations.
Local Open Scope nat_scope.
Local Open Scope list_scope.

Section Workflow2.
  Context {A : arith}.
  Local Notation T := (num A).
  Local Notation phrase := (phrase (A:=A)).

  (** ** Initialisation *)

  (** xmmHmmSingleClass.cpp 263-273 and xmmTrainingSet.cpp 222-233: piece [s] of a phrase, as a phrase of the
      temporary training set that is connected to the memory of the recorded phrase. *)
  Definition connected_piece (h : hclass A) (s : nat) (p : phrase) : res (option phrase) :=
    let step := p_len p / hc_n h in
    if step =? 0 then Ok None else
    let* q := runm (set_dimension false (hc_dim h)) (phrase_new false (hc_bim h)) in
    let* q := runm (set_dimension_input false (hc_din h)) q in
    if hc_bim h then
      let* i := getPointer_input p (s * step) in
      let* o := getPointer_output p (s * step) in
      let* xs := read_at (p_d0 p) i (step * p_din p) in
      let* ys := read_at (p_d1 p) o (step * (p_dim p - p_din p)) in
      let* q := runm (connect2 xs ys step) q in
      Ok (Some q)
    else
      let* i := getPointer p (s * step) in
      let* xs := read_at (p_d0 p) i (step * p_dim p) in
      let* q := runm (connect xs step) q in
      Ok (Some q).
  Definition state_pieces (h : hclass A) (s : nat) (ps : list phrase) : res (list phrase) :=
    let* qs := mapM (connected_piece h s) ps in
    Ok (flat_map (fun o => match o with Some q => [q] | None => [] end) qs).

  (** xmmHmmSingleClass.cpp 250-291: one turn of the loop of [initMeansCovariancesWithGMMEM].  A failed training
      of the temporary mixture is not noticed: the parameters reached are used. *)
  Definition init_state (em : em_settings A) (h : hclass A) (ps : list phrase) (s : nat) (g : gclass A) : res (gclass A) :=
    let* qs := state_pieces h s ps in
    match qs with
    | [] => Ok g
    | _ =>
        let '(st, e) := em_train (gm_hooks (hc_dim h) qs) em (fun _ => false) 1000 false (train_start (new_mixture h (hc_win h))) in
        match e with
        | Returned => adopt (t_m st) g
        | Escaped x => Throw x
        | Undefined | Unfinished => UB
        end
    end.

  (** xmmHmmSingleClass.cpp 494-539: [emAlgorithmInit] on a training set of dimension [dim]. *)
  Definition hm_init_set (em : em_settings A) (dim : nat) (ps : list phrase) (h : hclass A) : res (hclass A) :=
    match ps with
    | [] => Ok h
    | _ =>
        let* dev := ts_stddev dim ps in
        let* h := hm_default dev h in
        let* ss := tabM (hc_n h) (fun s => let* g := rd (h_states (hc_net h)) s in init_state em h ps s g) in
        Ok (hc_set_net (nt_states ss (hc_net h)) h)
    end.

  (** xmmHmmSingleClass.cpp 99-125, 494-595: the learning algorithm of an HMM. *)
  Definition hm_hooks (em : em_settings A) (dim : nat) (ps : list phrase) : hooks A (hclass A) :=
    mkHooks
      (fun h => of_res h (hm_allocate h))
      (fun h => of_res h (hm_init_set em dim ps h))
      (fun h => match (let* data := mapM phrase_frames ps in hm_update data h) with
                | Ok (h', x) => (h', Ok x)
                | Throw e => (h, Throw e)
                | UB => (h, UB)
                end)
      (fun h => of_res h (hm_terminate h)).

  (** xmmModel.hpp 289-292: [train(trainingSet->getPhrasesOfClass(label))] for the class [h]. *)
  Definition hq_train_class (w : world A) (t : tset) (s : shared A) (l : string) (h : hclass A) : res (status * hclass A) :=
    let* ps := match getPhrasesOfClass t l with
               | Some c => mapM (fun e => rd (w_heap w) (snd e)) (u_phrases c)
               | None => Ok []
               end in
    let dim := match getPhrasesOfClass t l with Some c => u_dim c | None => 0 end in
    let em := mkEm (sp_minit s) (sp_maxit s) (sp_pct s) in
    let '(st, e) := em_train (hm_hooks em dim ps) em (fun _ => false) 1000 (match ps with [] => true | _ => false end) (train_start h) in
    match e with
    | Returned => Ok (t_status st, t_m st)
    | Escaped x => Throw x
    | Undefined | Unfinished => UB
    end.

  (** ** The model *)

  (** The model with the state [v] and the shared parameters [s]. *)
  Definition hq_put (s : shared A) (v : hhmm A) (m : hmodel A) : hmodel A :=
    mkHM s (hq_cf m) (hh_cls v) (hh_prior v) (hh_trans v) (hh_exit v) (hh_v1 v) (hh_v2 v) (hh_started v) (hh_res v).

  (** An exception ends [train]. *)
  Definition oexn (o : outcome A) : res (hhmm A) :=
    let* (v, e) := o in match e with None => Ok v | Some e => Throw e end.

  (** xmmHierarchicalHmm.cpp 361-387: [reset()], 146-256: [filter(observation)] on the whole model. *)
  Definition hq_reset (m : hmodel A) : res (hmodel A) := let* v := hh_reset (hq_view m) in Ok (hq_put (hq_sp m) v m).
  Definition hq_filter (x : list T) (m : hmodel A) : res (hmodel A) := let* v := hh_filter x (hq_view m) in Ok (hq_put (hq_sp m) v m).

  (** What the constructors leave uninitialised. *)
  Variable u : junk A.

  Definition status_of (l : string) (ms : list (string * (status * hclass A))) : status :=
    match mget String.eqb ms l with Some r => fst r | None => Done end.

  (** xmmModel.hpp 246-301: [train(trainingSet)]. *)
  Definition hq_train (w : world A) (k : nat) (m : hmodel A) : res (hmodel A) :=
    let* o := rd (w_sets w) k in
    match o with
    | None => UB
    | Some t =>
        if length (t_phrases t) <? 1 then Ok m else
        let* v := oexn (hh_clear (hq_view m)) in
        let* s := gq_fetch t (hq_sp m) in
        let* v := foldM (fun v l => oexn (hh_add (jk_num u) (jk_flag u) l v)) (t_labels t) (hq_view (hq_put s v m)) in
        let* ms := mapM (fun e => let* r := hq_train_class w t s (fst e) (snd e) in Ok (fst e, r)) (hh_cls v) in
        let v := hh_set_cls (map (fun e => (fst e, snd (snd e))) ms) v in
        if (cf_mt (hq_cf m) =? 0)%Z
        then Ok (hq_put s v m)
        else let* v := oexn (hh_join (fun l => is_failed (status_of l ms)) v) in Ok (hq_put s v m)
    end.
End Workflow2.
