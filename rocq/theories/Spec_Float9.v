(** Regression with hierarchical models of doubles. *)
From Coq Require Import String List Bool Arith ZArith Reals.
From Coq Require Import Floats.SpecFloat.
From Flocq Require Import Core.Core.
From Verif Require Import Base Arith Model_Gaussian Model_Config Model_Ring Model_KMeans Model_GMM Model_HMM Model_HHMM Spec_Float Spec_Float2 Spec_Float3 Spec_Float4 Spec_Float6 Spec_Float7.
Import ListNotations.
Local Open Scope R_scope.

Section Float9.
  Context {fexp fln : f64 -> f64}.
  Local Notation A := (FA fexp fln).

  (** A hierarchical model ready to predict, of classes of at most [N] states of at most [G] components. *)
  Definition hpredicts (N G : nat) (m : hhmm A) : Prop :=
    (Z.of_nat N <= 2 ^ 20)%Z /\ (Z.of_nat G <= 2 ^ 20)%Z /\ model_left_right m /\ hh_started m = false /\ hh_bim m = true /\
    Forall (fun e => hc_hier (snd e) = true /\ Forall state_flat (h_states (hc_net (snd e))) /\ hregresses N G m (snd e)) (hh_cls m).

  (** No state of the class has any part of the forward mass that the regression reads. *)
  Definition silent (h : hclass A) : Prop := forall k, (k < hc_n h)%nat -> fval (ent (h_a0 (hc_run h)) k) = 0 /\ fval (ent (h_a1 (hc_run h)) k) = 0.

  (** Some state of the class has a part of the forward mass that is not small. *)
  Definition heard (h : hclass A) : Prop := exists k, (k < hc_n h)%nat /\ bpow radix2 (-33) <= fval (ent (h_a0 (hc_run h)) k) + fval (ent (h_a1 (hc_run h)) k).
  (** The part of the forward mass that the class has. *)
  Definition mass (h : hclass A) : R := rsum (tab (hc_n h) (ent (h_a0 (hc_run h)))) + rsum (tab (hc_n h) (ent (h_a1 (hc_run h)))).

  (** What is known of an output [d] of a class that has learned outputs between [lo] and [hi], of magnitude at most [2^b]. *)
  Definition class_output (N G d : nat) (b : Z) (lo hi : R) (h : hclass A) : Prop :=
    let y := ent (h_out (hc_run h)) d in
    match hp_est (hc_par h) with
    | RLikeliest => near lo hi (INR G * bpow radix2 (b - 20)) y
    | e =>
        num_in (- (INR N * bpow radix2 (b + 3))) (INR N * bpow radix2 (b + 3)) y /\ (silent h -> fval y = 0) /\
        match e with
        | RFull => near (mass h * lo) (mass h * hi) (INR N * (2 * INR G + 3 * INR N) * bpow radix2 (b - 20)) y
        | _ => (2 <= hc_n h)%nat -> heard h -> near lo hi ((INR G + 2 * INR N) * bpow radix2 (b - 20)) y
        end
    end.

  (** What is known of an output variance [d] of a class that has learned variances of at most [hi], itself at most [2^b]. *)
  Definition class_variance (N G d : nat) (b : Z) (hi : R) (h : hclass A) : Prop :=
    let v := ent (h_ocov (hc_run h)) d in
    num_in 0 (INR N * bpow radix2 (b + 4)) v /\
    match hp_est (hc_par h) with
    | RLikeliest => v = S754_zero false
    | RFull => fval v <= mass h * mass h * hi + INR N * (4 * INR G + 10 * INR N) * bpow radix2 (b - 20)
    | RWindowed => (2 <= hc_n h)%nat -> heard h -> fval v <= mass h * hi + INR N * (4 * INR G + 10 * INR N) * bpow radix2 (b - 20)
    end.
End Float9.
