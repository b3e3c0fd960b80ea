(** Specification vocabulary for histories of class operations on a hierarchical model. *)
From Coq Require Import String List Bool Arith ZArith QArith Reals.
From Verif Require Import Base Arith RFacts Model_Map Model_Gaussian Model_Config Model_Ring Model_KMeans Model_GMM Model_HMM Model_HHMM Spec_Common.
Import ListNotations.
Local Open Scope nat_scope.
Local Open Scope list_scope.

Section Ops.
  Context {A : arith}.

  (** What can be asked of a model.  [OContents] is the effect of training or loading a class that exists;
      [OHier] changes [configuration.hierarchical]; [u] and [f] in [OAdd] are the uninitialised numbers and flag. *)
  Inductive hh_op :=
  | OAdd (u : num A) (f : bool) (l : string)
  | ORemove (l : string)
  | OClear
  | OJoin (failed : string -> bool)
  | OReset
  | OExitPoint (i : Z) (p : num A)
  | OContents (l : string) (h : hclass A)
  | OHier (b : bool)
  | OFilter (x : list (num A))
  | ONormalize.

  Definition hh_set_hier (b : bool) (m : hhmm A) : hhmm A := mkHH (A := A) (hh_bim m) (hh_dim m) (hh_din m) (hh_win m) (hh_est m) (hh_cmode m) b (hh_cfg m) (hh_prior m) (hh_trans m) (hh_exit m) (hh_cls m) (hh_v1 m) (hh_v2 m) (hh_started m) (hh_res m).

  Definition hh_apply (o : hh_op) (m : hhmm A) : outcome A :=
    match o with
    | OAdd u f l => hh_add u f l m
    | ORemove l => hh_remove l m
    | OClear => hh_clear m
    | OJoin failed => hh_join failed m
    | OReset => let* m := hh_reset m in Ok (m, None)
    | OExitPoint i p => hh_exit_point i p m
    | OContents l h => Ok (hh_set_cls (map (fun e => if String.eqb l (fst e) then (fst e, h) else e) (hh_cls m)) m, None)
    | OHier b => Ok (hh_set_hier b m, None)
    | OFilter x => let* m := hh_filter x m in Ok (m, None)
    | ONormalize => let* m := hh_normalize m in Ok (m, None)
    end.

  (** Exceptions do not end the history. *)
  Definition hh_run (os : list hh_op) (m : hhmm A) : res (hhmm A) := foldM (fun m o => let* (m, _) := hh_apply o m in Ok m) os m.

  Definition hh_new (bim : bool) (dim din win : nat) (est : restimator) (cm : cmode) (hier : bool) (cfg : string -> hmmP A) : hhmm A :=
    mkHH (A := A) bim dim din win est cm hier cfg [] [] [] [] [] [] false (mkRes (A := A) [] [] [] [] [] EmptyString [] []).

  (** The class-level parameters are uniform. *)
  Definition top_uniform (m : hhmm A) : Prop :=
    let n := hh_size m in
    hh_prior m = repeat (ndiv n1 (nN n)) n /\ hh_trans m = repeat (repeat (ndiv n1 (nN n)) n) n /\ hh_exit m = repeat (nofQ (1 # 10)) n.

  (** Operations on the set of classes; a class is trained with the [hierarchical] flag it had. *)
  Definition class_op (o : hh_op) : Prop :=
    match o with
    | OAdd _ _ _ | ORemove _ | OClear | OJoin _ | OReset => True
    | OContents _ h => hc_hier h = true /\ 1 <= hc_n h
    | _ => False
    end.

  Definition is_normalize (o : hh_op) : bool := match o with ONormalize => true | _ => false end.

  (** A class of a hierarchical model, and a model in hierarchical mode with such classes. *)
  Definition steady (e : string * hclass A) : Prop := hc_hier (snd e) = true /\ 1 <= hc_n (snd e).
  Definition settled (m : hhmm A) : Prop := hh_hier m = true /\ Forall steady (hh_cls m) /\ (hh_bim m = true -> hh_din m <= hh_dim m) /\ forall l, 1 <= hp_states (hh_cfg m l).
End Ops.
Arguments hh_op : clear implicits.
