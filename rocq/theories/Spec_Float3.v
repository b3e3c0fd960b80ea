(** Hierarchical models whose members are doubles. *)
From Coq Require Import String List Bool Arith ZArith Reals.
From Coq Require Import Floats.SpecFloat.
From Flocq Require Import Core.Core.
From Verif Require Import Base Arith Model_Gaussian Model_Config Model_Ring Model_KMeans Model_GMM Model_HMM Model_HHMM Spec_Float Spec_Float2.
Import ListNotations.
Local Open Scope R_scope.

(** Entry [i] of a vector of doubles. *)
Definition ent (l : list f64) (i : nat) : f64 := nth i l (S754_zero false).

Section Float3.
  Context {fexp fln : f64 -> f64}.
  Local Notation A := (FA fexp fln).

  (** A state: a mixture with Diagonal components, less than 2^32 of them. *)
  Definition state_diag (g : gclass A) : Prop :=
    class_f64 g /\ Forall gauss_diag (gc_comp g) /\ (Z.of_nat (gc_n g) < 2 ^ 32)%Z.

  (** A left-right class.  The transitions and the exit probabilities are numbers between 0 and 1, an exit
      probability is not almost 1, and every state can be kept or left for the next state with a probability
      that is not extremely small (the last state can only be kept). *)
  Definition class_left_right (h : hclass A) : Prop :=
    hc_mode h = LeftRight /\ (1 <= hc_n h)%nat /\ Forall state_diag (h_states (hc_net h)) /\
    (forall k, (k < 2 * hc_n h)%nat -> num_in 0 1 (ent (h_trans (hc_net h)) k)) /\
    (forall k, (k < hc_n h)%nat -> num_in 0 (1 - bpow radix2 (-20)) (ent (h_exit (hc_net h)) k)) /\
    (forall k, (k < hc_n h)%nat -> bpow radix2 (-100) <= fval (ent (h_trans (hc_net h)) (k * 2)) \/
      ((k + 1 < hc_n h)%nat /\ bpow radix2 (-100) <= fval (ent (h_trans (hc_net h)) (k * 2 + 1)))).

  (** Number of states of all the classes. *)
  Definition states_of (ms : list (string * hclass A)) : nat := fold_right (fun e s => (hc_n (snd e) + s)%nat) 0%nat ms.

  (** A hierarchical model with at least one class and at most 2^32 states.  The transitions between the
      classes and the exits are numbers between 0 and 1; the priors are not extremely small. *)
  Definition model_left_right (m : hhmm A) : Prop :=
    hh_hier m = true /\ hh_cls m <> [] /\ (Z.of_nat (states_of (hh_cls m)) < 2 ^ 32)%Z /\
    Forall (fun e => class_left_right (snd e)) (hh_cls m) /\
    (forall i, (i < hh_size m)%nat -> num_in (bpow radix2 (-100)) 1 (ent (hh_prior m) i) /\ num_in 0 1 (ent (hh_exit m) i)) /\
    (forall i j, (i < hh_size m)%nat -> (j < hh_size m)%nat -> num_in 0 1 (ent (nth i (hh_trans m) []) j)).

  (** The forward variables of all the classes are numbers between 0 and 1, and one of them is not small. *)
  Definition forward_f64 (m : hhmm A) : Prop :=
    (forall l h k, In (l, h) (hh_cls m) -> (k < hc_n h)%nat ->
       num_in 0 1 (ent (h_a0 (hc_run h)) k) /\ num_in 0 1 (ent (h_a1 (hc_run h)) k) /\ num_in 0 1 (ent (h_a2 (hc_run h)) k)) /\
    (exists l h k, In (l, h) (hh_cls m) /\ (k < hc_n h)%nat /\ bpow radix2 (-60) <= fval (ent (h_a0 (hc_run h)) k)).
End Float3.

(** The entries that a likelihood window has. *)
Definition window_entries (b : ring f64) : list f64 := firstn (ring_size_t b) (nth 0 (r_data b) []).
(** What the logarithm of a likelihood may be: a number, or minus infinity when the likelihood is zero. *)
Definition log_f64 (x : f64) : Prop := num_in (- bpow radix2 900) (bpow radix2 900) x \/ x = S754_infinity true.
(** A window that has the logarithm of a zero likelihood. *)
Definition null_window (b : ring f64) : Prop :=
  (Z.of_nat (ring_size_t b) <= 2 ^ 32)%Z /\ Forall log_f64 (window_entries b) /\ In (S754_infinity true) (window_entries b).
