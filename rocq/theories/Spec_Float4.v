(** Hidden Markov models without the hierarchical mode whose members are doubles. *)
From Coq Require Import String List Bool Arith ZArith Reals.
From Coq Require Import Floats.SpecFloat.
From Flocq Require Import Core.Core.
From Verif Require Import Base Arith Model_Gaussian Model_Config Model_Ring Model_KMeans Model_GMM Model_HMM Model_HHMM Spec_Float Spec_Float2 Spec_Float3.
Import ListNotations.
Local Open Scope R_scope.

Section Float4.
  Context {fexp fln : f64 -> f64}.
  Local Notation A := (FA fexp fln).

  (** A state one of whose components has a weight that is not very small. *)
  Definition state_flat (g : gclass A) : Prop := state_diag g /\ exists w, In w (gc_coef g) /\ bpow radix2 (-40) <= fval w.

  (** The transitions of a class of [n] states are numbers between 0 and 1, and every state has one, to itself or
      to another state, that is not extremely small.  The last transition of a left-right class goes from the
      last state to the first one ([reset] writes it). *)
  Definition transitions_f64 (mode : tmode) (n : nat) (prior tr : list f64) : Prop :=
    match mode with
    | Ergodic =>
        (forall k, (k < n)%nat -> num_in 0 1 (ent prior k)) /\ (exists k, (k < n)%nat /\ bpow radix2 (-100) <= fval (ent prior k)) /\
        (forall k j, (k < n)%nat -> (j < n)%nat -> num_in 0 1 (ent tr (k * n + j))) /\
        (forall k, (k < n)%nat -> exists j, (j < n)%nat /\ bpow radix2 (-100) <= fval (ent tr (k * n + j)))
    | LeftRight =>
        (forall k, (k < 2 * n)%nat -> num_in 0 1 (ent tr k)) /\
        (forall k, (k < n)%nat -> bpow radix2 (-100) <= fval (ent tr (k * 2)) \/ bpow radix2 (-100) <= fval (ent tr (k * 2 + 1)))
    end.

  (** A class that filters by itself, with a likelihood window of less than 2^32 frames. *)
  Definition class_flat (h : hclass A) : Prop :=
    hc_hier h = false /\ (1 <= hc_n h)%nat /\ (Z.of_nat (hc_n h) < 2 ^ 32)%Z /\ Forall state_flat (h_states (hc_net h)) /\
    transitions_f64 (hc_mode h) (hc_n h) (h_prior (hc_net h)) (h_trans (hc_net h)) /\
    let b := h_buf (hc_run h) in
    length (r_data b) = 1%nat /\ (1 <= r_length b)%nat /\ (Z.of_nat (r_length b) < 2 ^ 32)%Z /\ length (nth 0 (r_data b) []) = r_length b.

  Definition model_flat (m : hhmm A) : Prop :=
    hh_hier m = false /\ hh_cls m <> [] /\ (Z.of_nat (hh_size m) < 2 ^ 32)%Z /\ Forall (fun e => class_flat (snd e)) (hh_cls m).

  (** The forward variables of a class are numbers between 0 and 1 and one of them is not small. *)
  Definition alpha_f64 (h : hclass A) : Prop :=
    (forall k, (k < hc_n h)%nat -> num_in 0 1 (ent (h_alpha (hc_run h)) k)) /\
    exists k, (k < hc_n h)%nat /\ bpow radix2 (-33) <= fval (ent (h_alpha (hc_run h)) k).
End Float4.
