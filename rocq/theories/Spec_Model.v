(** Specification vocabulary for the model objects. *)
From Coq Require Import String List Bool Arith.
From Verif Require Import Base Arith Model_Map Model_Gaussian Model_Shared Model_Train Model_Model.
Import ListNotations.
Local Open Scope nat_scope.

(** The training set fits a model that is bimodal or not: its dimensions are those of such a model and
    it has a name for every column. *)
Definition fits (bimodal : bool) (ts : tsview) : Prop :=
  (if bimodal then 2 <= ts_dim ts /\ 1 <= ts_din ts < ts_dim ts else 1 <= ts_dim ts) /\ length (ts_names ts) = ts_dim ts.

Section Models.
  Context {A : arith}.

  (** The shared parameters of model [k], as the user sees them. *)
  Definition params_of (w : mworld A) (k : nat) : option (shared A) :=
    match nth_error (mw_models w) k with Some m => nth_error (mw_heap w) (md_sp m) | None => None end.

  (** [model.training()] and the labels of the model. *)
  Definition training_of (w : mworld A) (k : nat) : option bool := option_map md_training (nth_error (mw_models w) k).
  Definition has_class (w : mworld A) (k : nat) (l : string) : Prop :=
    exists m c, nth_error (mw_models w) k = Some m /\ mget String.eqb (md_cls m) l = Some c.

  (** The classes of model [k] use the shared parameters of model [k]. *)
  Definition own_params (w : mworld A) (k : nat) : Prop :=
    exists m, nth_error (mw_models w) k = Some m /\ forall l c, mget String.eqb (md_cls m) l = Some c -> mc_sp c = md_sp m.
End Models.
