(** Regression with hidden Markov models of doubles. *)
From Coq Require Import String List Bool Arith ZArith Reals.
From Coq Require Import Floats.SpecFloat.
From Flocq Require Import Core.Core.
From Verif Require Import Base Arith Model_Gaussian Model_Config Model_Ring Model_KMeans Model_GMM Model_HMM Model_HHMM Spec_Float Spec_Float2 Spec_Float3 Spec_Float4 Spec_Float6.
Import ListNotations.
Local Open Scope R_scope.

Section Float7.
  Context {fexp fln : f64 -> f64}.
  Local Notation A := (FA fexp fln).

  (** The class is for regression, with as many outputs as the model and at most [N] states, which are for
      regression too and have at most [G] components. *)
  Definition hregresses (N G : nat) (m : hhmm A) (h : hclass A) : Prop :=
    hc_bim h = true /\ hc_dim h = hh_dim m /\ hc_din h = hh_din m /\ (hc_n h <= N)%nat /\
    Forall (fun g : gclass A => gc_dim g = hh_dim m /\ gc_din g = hh_din m /\ (gc_n g <= G)%nat) (h_states (hc_net h)).

  (** The states around the likeliest one are at least the likeliest one: with the windowed estimator, the class has
      more than one state. *)
  Definition window_some (h : hclass A) : Prop := hp_est (hc_par h) = RWindowed -> (2 <= hc_n h)%nat.
  (** With the windowed estimator and a single state, no state is around the likeliest one. *)
  Definition window_none (h : hclass A) : Prop := hp_est (hc_par h) = RWindowed /\ hc_n h = 1%nat.

  (** The output [d] of all the components of all the states has its mean between [lo] and [hi]. *)
  Definition state_means_in (d : nat) (lo hi : R) (h : hclass A) : Prop := Forall (fun g : gclass A => means_in d lo hi g) (h_states (hc_net h)).

  (** The output variance [d] of all the components of all the states is between 0 and [hi]. *)
  Definition state_variances_in (d : nat) (hi : R) (h : hclass A) : Prop :=
    hp_mode (hc_par h) = Diagonal /\ Forall (fun g : gclass A => variances_in d hi g) (h_states (hc_net h)).

  (** A model ready to predict: at most 2^20 classes, of at most [N] states of at most [G] components. *)
  Definition predicts (N G : nat) (m : hhmm A) : Prop :=
    (Z.of_nat N <= 2 ^ 20)%Z /\ (Z.of_nat G <= 2 ^ 20)%Z /\ (Z.of_nat (hh_size m) <= 2 ^ 20)%Z /\ model_flat m /\ hh_bim m = true /\
    Forall (fun e => h_started (hc_run (snd e)) = false /\ hregresses N G m (snd e)) (hh_cls m).
End Float7.
