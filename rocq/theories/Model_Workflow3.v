(** Model of [GMM::train(trainingSet, label)], the training of one class: src/core/model/xmmModel.hpp 312-362
    with the training driver of Model_Train and the learning algorithm of Model_GMM.

    As in Model_Workflow the training set does not change meanwhile, nobody cancels the training, and for the
    Background mode this is the state once the training has been joined.  The model is at rest when the call
    is made, so that [cancelTraining(label)] (383-394) does nothing, and no class it holds has failed before
    (in the modes with threads [joinTraining] erases the classes that failed, so that only a failed training
    in Sequential mode leaves such a class). *)
From Coq Require Import String List Bool Arith ZArith QArith.
From Verif Require Import Base Arith Model_Map Model_Ring Model_Json Model_Phrase Model_TrainingSet Model_Gaussian Model_Config Model_KMeans Model_GMM
  Model_Shared Model_Train Model_Reload Model_Workflow.
Import ListNotations.
Local Open Scope nat_scope.
Local Open Scope list_scope.

Section Workflow3.
  Context {A : arith}.
  Local Notation T := (num A).

  (** xmmModel.hpp 312-338: what [train(trainingSet, label)] does before the class is trained, on the shared
      parameters [s] of a model with [n] classes: the label has to be in the training set, the dimensions have
      to be those of the classes, and the shared parameters are fetched. *)
  Definition one_prepare (t : tset) (n : nat) (l : string) : stm (shared A) unit :=
    do* s := sget in
    if negb (existsb (String.eqb l) (t_labels t)) then sthrow OutOfRange else
    if (0 <? n) && (negb (sp_dim s =? t_dim t) || (sp_bim s && negb (sp_din s =? t_din t))) then sthrow RuntimeError else
    do* _ := sp_set (SDim (t_dim t)) in
    do* s := sget in
    do* _ := swhen (sp_bim s) (sp_set (SDin (t_din t))) in
    sp_set (SNames (t_cols t)).

  (** What the constructors leave uninitialised. *)
  Variable u : junk A.

  (** xmmModel.hpp 579-596: [addModelForClass(label)]: a class that exists is kept as it is and is given the
      parameters of the configuration. *)
  Definition gq_class_for (s : shared A) (cf : config (gmmP A)) (ms : list (string * gclass A)) (l : string) : gclass A :=
    let g := match mget String.eqb ms l with Some g => g | None => gc_fresh u s end in
    gc_set_par (cf_used gmmP_assign l cf (gc_par g)) g.

  (** xmmModel.hpp 347-355: [models\[label\].train(trainingSet->getPhrasesOfClass(label))] for the class [g]. *)
  Definition gq_run_class (w : world A) (t : tset) (s : shared A) (l : string) (g : gclass A) : res (tstate A (gclass A) * tend) :=
    let* ps := match getPhrasesOfClass t l with
               | Some c => mapM (fun e => rd (w_heap w) (snd e)) (u_phrases c)
               | None => Ok []
               end in
    let dim := match getPhrasesOfClass t l with Some c => u_dim c | None => 0 end in
    Ok (em_train (gm_hooks dim ps) (mkEm (sp_minit s) (sp_maxit s) (sp_pct s)) (fun _ => false) 1000
          (match ps with [] => true | _ => false end) (train_start g)).

  (** xmmModel.hpp 312-362: [train(trainingSet, label)] with set number [k].  An exception that escapes from
      the training of the class ends the program when it is in its own thread. *)
  Definition gq_train_one (w : world A) (k : nat) (l : string) : stm (gmodel A) unit := fun m =>
    match nth_error (w_sets w) k with
    | Some (Some t) =>
        let '(s, r) := one_prepare t (length (gq_cls m)) l (gq_sp m) in
        let m := gq_set s (gq_cls m) (gq_res m) m in
        match r with
        | Throw e => (m, Throw e)
        | UB => (m, UB)
        | Ok _ =>
            let put g := gq_set s (mput String.eqb String.ltb (gq_cls m) l g) (gq_res m) m in
            let drop := gq_set s (mdel String.eqb (gq_cls m) l) (gq_res m) m in
            let seq := (cf_mt (gq_cf m) =? 0)%Z in
            match gq_run_class w t s l (gq_class_for s (gq_cf m) (gq_cls m) l) with
            | Ok (st, Returned) =>
                if seq then (put (t_m st), Ok tt)
                else of_res (put (t_m st)) (gq_reset (if is_failed (t_status st) then drop else put (t_m st)))
            | Ok (st, Escaped e) => (put (t_m st), if seq then Throw e else UB)
            | Ok (st, _) => (put (t_m st), UB)
            | Throw e => (m, Throw e)
            | UB => (m, UB)
            end
        end
    | _ => (m, UB)
    end.

  (** The classes [ls], one call after the other. *)
  Definition gq_train_each (w : world A) (k : nat) (ls : list string) : stm (gmodel A) unit := sforeach ls (gq_train_one w k).
End Workflow3.
