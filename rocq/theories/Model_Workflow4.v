(** Model of [HierarchicalHMM::train(trainingSet, label)], the training of one class: src/core/model/xmmModel.hpp
    312-362 with the methods of src/models/hmm/xmmHierarchicalHmm.cpp it calls, the training driver of
    Model_Train and the learning algorithm of Model_HMM.

    The simplifications are those of Model_Workflow3: the training set does not change meanwhile, nobody cancels
    the training, for the Background mode this is the state once the training has been joined, no class is
    training when the call is made, and no class the model holds has failed before.  [is_training_] is part of
    the state here, because an exception can leave it set. *)
From Coq Require Import String List Bool Arith ZArith QArith.
From Verif Require Import Base Arith Model_Map Model_Ring Model_Json Model_Phrase Model_TrainingSet Model_Gaussian Model_Config Model_KMeans Model_GMM
  Model_HMM Model_HHMM Model_Shared Model_Train Model_Reload Model_Workflow Model_Workflow2.
Import ListNotations.
Local Open Scope nat_scope.
Local Open Scope list_scope.

Section Workflow4.
  Context {A : arith}.
  Local Notation T := (num A).

  (** xmmModel.hpp 314-316: the label has to be in the training set. *)
  Definition one_unknown (t : tset) (l : string) : bool := negb (existsb (String.eqb l) (t_labels t)).
  (** xmmModel.hpp 321-331: the dimensions of the set have to be those of the [n] classes of the model. *)
  Definition one_misfit (t : tset) (n : nat) (s : shared A) : bool :=
    (0 <? n) && (negb (sp_dim s =? t_dim t) || (sp_bim s && negb (sp_din s =? t_din t))).
  (** xmmModel.hpp 335-341: the shared parameters are fetched from the training set. *)
  Definition one_fetch (t : tset) : stm (shared A) unit :=
    do* _ := sp_set (SDim (t_dim t)) in
    do* s := sget in
    do* _ := swhen (sp_bim s) (sp_set (SDin (t_din t))) in
    sp_set (SNames (t_cols t)).

  (** xmmModel.hpp 383-394: [cancelTraining(label)] when no class is training and none has failed: a model that
      is marked as training is joined. *)
  Definition hq_cancel (l : string) (m : hmodel A) (busy : bool) : res (hmodel A * bool * option exn) :=
    match mget String.eqb (hq_cls m) l with
    | Some _ => if busy then let* (v, e) := hh_join (fun _ => false) (hq_view m) in Ok (hq_put (hq_sp m) v m, false, e) else Ok (m, busy, None)
    | None => Ok (m, busy, None)
    end.

  (** xmmModel.hpp 347-355: [models\[label\].train(trainingSet->getPhrasesOfClass(label))] for the class [h]. *)
  Definition hq_run_class (w : world A) (t : tset) (s : shared A) (l : string) (h : hclass A) : res (tstate A (hclass A) * tend) :=
    let* ps := match getPhrasesOfClass t l with
               | Some c => mapM (fun e => rd (w_heap w) (snd e)) (u_phrases c)
               | None => Ok []
               end in
    let dim := match getPhrasesOfClass t l with Some c => u_dim c | None => 0 end in
    let em := mkEm (sp_minit s) (sp_maxit s) (sp_pct s) in
    Ok (em_train (hm_hooks em dim ps) em (fun _ => false) 1000 (match ps with [] => true | _ => false end) (train_start h)).

  (** What the constructors leave uninitialised. *)
  Variable u : junk A.

  (** xmmModel.hpp 343-361, xmmHierarchicalHmm.cpp 105-108, 141-144: the class is added, trained, and the
      training is joined.  An exception that escapes from the training of the class ends the program when it
      is in its own thread. *)
  Definition hq_train_class_of (w : world A) (t : tset) (s : shared A) (l : string) : stm (hmodel A * bool) unit := fun '(m, busy) =>
    match hh_add (jk_num u) (jk_flag u) l (hq_view m) with
    | Ok (v, Some e) => ((hq_put s v m, busy), Throw e)
    | Ok (v, None) =>
        match mget String.eqb (hh_cls v) l with
        | None => ((m, busy), UB)
        | Some h =>
            match hq_run_class w t s l h with
            | Ok (st, Returned) =>
                let v := hh_set_cls (mput String.eqb String.ltb (hh_cls v) l (t_m st)) v in
                if (cf_mt (hq_cf m) =? 0)%Z then ((hq_put s v m, false), Ok tt)
                else match hh_join (fun l' => String.eqb l' l && is_failed (t_status st)) v with
                     | Ok (v, None) => ((hq_put s v m, false), Ok tt)
                     | Ok (v, Some e) => ((hq_put s v m, false), Throw e)
                     | Throw e => ((m, false), Throw e)
                     | UB => ((m, false), UB)
                     end
            | Ok (st, Escaped e) =>
                ((hq_put s (hh_set_cls (mput String.eqb String.ltb (hh_cls v) l (t_m st)) v) m, busy), if (cf_mt (hq_cf m) =? 0)%Z then Throw e else UB)
            | Ok (st, _) => ((m, busy), UB)
            | Throw e => ((m, busy), Throw e)
            | UB => ((m, busy), UB)
            end
        end
    | Throw e => ((m, busy), Throw e)
    | UB => ((m, busy), UB)
    end.

  (** xmmModel.hpp 312-362: [train(trainingSet, label)] with set number [k]. *)
  Definition hq_train_one (w : world A) (k : nat) (l : string) : stm (hmodel A * bool) unit := fun '(m, busy) =>
    match nth_error (w_sets w) k with
    | Some (Some t) =>
        if one_unknown t l then ((m, busy), Throw OutOfRange) else
        match hq_cancel l m busy with
        | Ok (m, busy, Some e) => ((m, busy), Throw e)
        | Ok (m, busy, None) =>
            if one_misfit t (length (hq_cls m)) (hq_sp m) then ((m, busy), Throw RuntimeError) else
            let '(s, r) := one_fetch t (hq_sp m) in
            let m := hq_put s (hq_view m) m in
            match r with
            | Ok _ => hq_train_class_of w t s l (m, true)
            | Throw e => ((m, true), Throw e)
            | UB => ((m, true), UB)
            end
        | Throw e => ((m, busy), Throw e)
        | UB => ((m, busy), UB)
        end
    | _ => ((m, busy), UB)
    end.

  (** The classes [ls], one call after the other. *)
  Definition hq_train_each (w : world A) (k : nat) (ls : list string) : stm (hmodel A * bool) unit := sforeach ls (hq_train_one w k).
End Workflow4.
