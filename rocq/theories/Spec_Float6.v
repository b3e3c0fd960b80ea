(** Regression with mixtures of doubles. *)
From Coq Require Import String List Bool Arith ZArith Reals.
From Coq Require Import Floats.SpecFloat.
From Flocq Require Import Core.Core.
From Verif Require Import Base Arith Model_Gaussian Model_Config Model_Ring Model_KMeans Model_GMM Spec_Float Spec_Float2 Spec_Float3.
Import ListNotations.
Local Open Scope R_scope.

(** Numbers between [lo] and [hi], up to [e]. *)
Definition near (lo hi e : R) (x : f64) : Prop := num_in (lo - e) (hi + e) x.

(** Bounds [lo] and [hi] within [2^b]. *)
Definition range_in (b : Z) (lo hi : R) : Prop := - bpow radix2 b <= lo /\ hi <= bpow radix2 b.

Section Float6.
  Context {fexp fln : f64 -> f64}.
  Local Notation A := (FA fexp fln).

  (** The output [d] of all the components of the class has its mean between [lo] and [hi]. *)
  Definition means_in (d : nat) (lo hi : R) (g : gclass A) : Prop :=
    Forall (fun k : gauss A => g_din k = gc_din g /\ num_in lo hi (ent (g_mean k) (gc_din g + d))) (gc_comp g).

  (** The output variance [d] of all the components of the class is between 0 and [hi]. *)
  Definition variances_in (d : nat) (hi : R) (g : gclass A) : Prop :=
    gc_mode g = Diagonal /\ Forall (fun k : gauss A => num_in 0 hi (ent (g_out k) d)) (gc_comp g).

  (** The class is for regression, with as many outputs as the model. *)
  Definition regresses (m : gmm A) (g : gclass A) : Prop :=
    gc_bim g = true /\ gc_dim g = gm_dim m /\ gc_din g = gm_din m.

  (** The components are for regression, with Diagonal covariances and the dimensions of the class. *)
  Definition reg_shape (g : gclass A) : Prop :=
    Forall (fun k : gauss A => g_mode k = Diagonal /\ g_bim k = true /\ g_dim k = gc_dim g /\ g_din k = gc_din g) (gc_comp g).
End Float6.
