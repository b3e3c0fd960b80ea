(** Single precision values and what their products are. *)
From Coq Require Import List ZArith Reals.
From Coq Require Import Floats.SpecFloat.
From Flocq Require Import Core.Core.
From Verif Require Import Base Arith Spec_Float Model_Gaussian.
Import ListNotations.
Local Open Scope R_scope.

(** Rounding to the nearest single precision number, ties to even. *)
Definition round_single (x : R) : R := round radix2 (FLT_exp (-149) 24) ZnearestE x.

(** A double that holds a single precision number, of magnitude below 2^59 and with no bit below 2^-50. *)
Definition single (v : f64) : Prop :=
  is_f64 v /\ is_num v = true /\ exists k e, fval v = IZR k * bpow radix2 e /\ (Z.abs k < 2 ^ 24)%Z /\ (-50 <= e <= 35)%Z.

(** Dimension [d] of all frames of all phrases is [v]. *)
Definition constant_at (d : nat) (v : f64) (data : list (list (list f64))) : Prop :=
  Forall (Forall (fun x => nth_error x d = Some v)) data.

(** Where the covariance of a component keeps the variance of dimension [d]. *)
Definition variance_index (m : cmode) (dim d : nat) : nat := match m with Full => d * dim + d | Diagonal => d end.
