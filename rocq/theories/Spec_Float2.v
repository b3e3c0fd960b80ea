(** Mixtures whose members are doubles. *)
From Coq Require Import String List Bool Arith ZArith Reals.
From Coq Require Import Floats.SpecFloat.
From Flocq Require Import Core.Core.
From Verif Require Import Base Arith Model_Gaussian Model_Config Model_Ring Model_KMeans Model_GMM Spec_Float.
Import ListNotations.
Local Open Scope R_scope.

Section Float2.
  Context {fexp fln : f64 -> f64}.
  Local Notation A := (FA fexp fln).

  (** The members that a likelihood reads; no other assumption: the covariances may be anything, even NaN. *)
  Definition gauss_f64 (k : gauss A) : Prop :=
    Forall is_f64 (g_mean k) /\ Forall is_f64 (g_inv k) /\ Forall is_f64 (g_inv_in k) /\ is_f64 (g_det k) /\ is_f64 (g_det_in k).

  (** Weights between 0 and 1, one of which is not extremely small. *)
  Definition weights_f64 (n : nat) (w : list f64) : Prop :=
    length w = n /\ Forall (num_in 0 1) w /\ exists x, In x w /\ bpow radix2 (-200) <= fval x.

  Definition class_f64 (g : gclass A) : Prop :=
    weights_f64 (gc_n g) (gc_coef g) /\ Forall gauss_f64 (gc_comp g).
  Definition model_f64 (m : gmm A) : Prop := Forall (fun e => class_f64 (snd e)) (gm_models m).
End Float2.

(** A frame of doubles, NaN and the infinities included. *)
Definition frame_f64 (x : list f64) : Prop := Forall is_f64 x.

(** Positive: a number greater than 0, or an overflow. *)
Definition positive (x : f64) : Prop := is_f64 x /\ (x = S754_infinity false \/ (is_num x = true /\ 0 < fval x)).

(** NaN, infinity, or a number greater than or equal to 0. *)
Definition not_negative (x : f64) : Prop := x = S754_nan \/ (is_f64 x /\ (x = S754_infinity false \/ (is_num x = true /\ 0 <= fval x))).

(** The parts [q] of the first [n] likelihoods [l]: numbers between 0 and 1 that are the exact parts up to
    [n + 1] rounding errors and an underflow. *)
Definition parts_f64 (n : nat) (l q : nat -> f64) : Prop :=
  let S := rsum (tab n l) in 0 < S /\
  forall i, (i < n)%nat -> num_in 0 1 (q i) /\
    fval (l i) / S / (1 + uround) ^ (n + 1) - ufloor <= fval (q i) <= fval (l i) / S * (1 + uround) ^ (n + 1) + ufloor.

(** What is assumed of the exponential and of the logarithm of the C library: far weaker than their accuracy. *)
Record libm_f64 (fexp fln : f64 -> f64) : Prop := {
  exp_doubles : on_f64 fexp;
  ln_doubles : on_f64 fln;
  exp_neg : forall x, is_f64 x -> x = S754_infinity true \/ (is_num x = true /\ fval x <= 0) -> num_in 0 1 (fexp x);
  exp_nan : fexp S754_nan = S754_nan;
  exp_mid : forall x, num_in (- 600) 600 x -> num_in (bpow radix2 (- 900)) (bpow radix2 900) (fexp x);
  ln_mid : forall x, num_in (bpow radix2 (- 800)) (bpow radix2 800) x -> num_in (- 560) 560 (fln x)
}.

Section Tame.
  Context {fexp fln : f64 -> f64}.
  Local Notation A := (FA fexp fln).
  (** Diagonal components none of whose inverse variances is negative; the determinants may be anything. *)
  Definition gauss_diag (k : gauss A) : Prop := g_mode k = Diagonal /\ Forall not_negative (g_inv k).
  (** A class with Diagonal components, less than 2^32 of them (they are counted by an [unsigned int]), and a
      likelihood window whose entries are numbers between -560 and 560; after [reset] the window has no entry. *)
  Definition class_diag (g : gclass A) : Prop :=
    class_f64 g /\ Forall gauss_diag (gc_comp g) /\ (Z.of_nat (gc_n g) < 2 ^ 32)%Z /\
    length (r_data (gc_buf g)) = 1%nat /\ (Z.of_nat (r_length (gc_buf g)) < 2 ^ 32)%Z /\ (r_index (gc_buf g) < r_length (gc_buf g))%nat /\
    length (nth 0 (r_data (gc_buf g)) []) = r_length (gc_buf g) /\
    forall i, (i < ring_size_t (gc_buf g))%nat -> num_in (- 560) 560 (nth i (nth 0 (r_data (gc_buf g)) []) (S754_zero false)).
  Definition model_diag (m : gmm A) : Prop := (Z.of_nat (length (gm_models m)) < 2 ^ 32)%Z /\ Forall (fun e => class_diag (snd e)) (gm_models m).
End Tame.
