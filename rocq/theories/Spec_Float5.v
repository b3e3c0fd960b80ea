(** Training of mixtures of doubles. *)
From Coq Require Import String List Bool Arith ZArith Reals.
From Coq Require Import Floats.SpecFloat.
From Flocq Require Import Core.Core.
From Verif Require Import Base Arith Model_Gaussian Model_Config Model_Ring Model_KMeans Model_GMM Spec_Float Spec_Float2 Spec_Float3.
Import ListNotations.
Local Open Scope R_scope.

Section Float5.
  Context {fexp fln : f64 -> f64}.
  Local Notation A := (FA fexp fln).

  (** A mixture with Diagonal components whose members, regularisation included, are doubles (they may be NaN). *)
  Definition class_em (g : gclass A) : Prop :=
    state_diag g /\ gc_mode g = Diagonal /\ Forall (fun k : gauss A => g_dim k = gc_dim g /\ Forall is_f64 (g_cov k)) (gc_comp g) /\ Forall is_f64 (gc_reg g).

  (** The weights sum to 1, up to rounding. *)
  Definition weights_total (g : gclass A) : Prop := 1 - bpow radix2 (-17) <= rsum (gc_coef g) <= 1 + bpow radix2 (-17).

  (** Training data within [2^b]. *)
  Definition frames_in (b : Z) (frames : list (list f64)) : Prop := Forall (Forall (num_in (- bpow radix2 b) (bpow radix2 b))) frames.

  (** A regularisation of at most [2^(2b+2)] that is not tiny. *)
  Definition reg_in (b : Z) (n : nat) (reg : list f64) : Prop := forall d, (d < n)%nat -> num_in (bpow radix2 (-1000)) (bpow radix2 (2 * b + 2)) (ent reg d).

  (** A component whose first [n] means and variances are numbers: means of at most [2^b], variances between
      the regularisation and [2^(2b+3)], and their inverses. *)
  Definition sound (b : Z) (n : nat) (reg : list f64) (k : gauss A) : Prop :=
    forall d, (d < n)%nat -> num_in (- bpow radix2 b) (bpow radix2 b) (ent (g_mean k) d) /\
      num_in (fval (ent reg d)) (bpow radix2 (2 * b + 3)) (ent (g_cov k) d) /\
      num_in (bpow radix2 (- (2 * b + 3))) (bpow radix2 1000) (ent (g_inv k) d).

  (** A component without a mean. *)
  Definition dead (n : nat) (k : gauss A) : Prop :=
    forall d, (d < n)%nat -> ent (g_mean k) d = S754_nan /\ ent (g_cov k) d = S754_nan /\ ent (g_inv k) d = S754_nan.

  (** A likelihood window without entries, as [reset] leaves it. *)
  Definition window_empty (b : ring f64) : Prop :=
    length (r_data b) = 1%nat /\ (Z.of_nat (r_length b) < 2 ^ 32)%Z /\ (r_index b < r_length b)%nat /\ length (nth 0 (r_data b) []) = r_length b /\ ring_size_t b = 0%nat.
End Float5.
