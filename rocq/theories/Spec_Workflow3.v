(** Specification vocabulary for the training of single classes. *)
From Coq Require Import String List Bool Arith ZArith Reals.
From Verif Require Import Base Arith RFacts Model_Map Model_Ring Model_Phrase Model_TrainingSet Model_Gaussian Model_Config Model_GMM Model_Shared Model_Train
  Model_Reload Model_Workflow Model_Workflow3 Spec_Common Spec_TrainingSet Spec_Shared Spec_GMM Spec_Reload Spec_Workflow.
Import ListNotations.
Local Open Scope list_scope.
Local Open Scope nat_scope.

(** Two mixtures with the same dimensions, parameters and learned values: they differ at most in what a reset
    and the next observation overwrite. *)
Definition same_class {A : arith} (g h : gclass A) : Prop :=
  gc_bim g = gc_bim h /\ gc_dim g = gc_dim h /\ gc_din g = gc_din h /\ gc_win g = gc_win h /\ gc_par g = gc_par h /\
  gc_coef g = gc_coef h /\ gc_comp g = gc_comp h /\ gc_reg g = gc_reg h.

(** [g] is the class [l] that training with the recordings makes of a new class. *)
Definition class_like (u : junk RA) (s : shared RA) (cf : config (gmmP RA)) (recs : list recording) (l : string) (g : gclass RA) : Prop :=
  class_usable g /\ exists g', class_made u s cf recs l g' /\ same_class g g'.

(** A model at rest: its classes are in the order of their labels, share its parameters, and have a buffer of
    one channel.  They may have been trained with any recordings, or not at all. *)
Definition at_rest (m : gmodel RA) : Prop :=
  label_sorted (gq_cls m) /\
  Forall (fun e => shares (gq_sp m) (gc_bim (snd e)) (gc_dim (snd e)) (gc_din (snd e)) (gc_win (snd e)) /\ ring_wf 1 (gc_buf (snd e))) (gq_cls m).

(** The training set has the dimensions of the classes, if there are classes. *)
Definition same_dims (t : tset) (m : gmodel RA) : Prop :=
  gq_cls m <> [] -> sp_dim (gq_sp m) = t_dim t /\ (t_bim t = true -> sp_din (gq_sp m) = t_din t).

(** The class [l] of a model. *)
Definition class_named (m : gmodel RA) (l : string) : option (gclass RA) := mget String.eqb (gq_cls m) l.

(** The model has one class for each label of the recordings, in order, each of them as training with the
    recordings makes it. *)
Definition trained_as (u : junk RA) (recs : list recording) (m : gmodel RA) : Prop :=
  label_sorted (gq_cls m) /\ (forall l, In l (map fst (gq_cls m)) <-> In l (map fst recs)) /\
  Forall (fun e => class_like u (gq_sp m) (gq_cf m) recs (fst e) (snd e)) (gq_cls m).
