(** What the double precision numbers of the model are: their validity, their value, and the order between
    them, for the theorems about rounding.  [valid_binary] is the one of the standard library; the value and
    the rounding to nearest even are those of the Flocq library. *)
From Coq Require Import ZArith Reals Bool List.
From Coq Require Import Floats.SpecFloat.
From Flocq Require Import Core.Core IEEE754.BinarySingleNaN.
From Verif Require Import Base Arith.
Import ListNotations.
Local Open Scope R_scope.

(** A double: a normalised mantissa and an exponent in range, a zero, an infinity or NaN. *)
Definition is_f64 (x : f64) : Prop := valid_binary fprec femax x = true.

(** Neither NaN nor infinite. *)
Definition is_num (x : f64) : bool := match x with S754_zero _ | S754_finite _ _ _ => true | _ => false end.

(** The value of a number (0 for the infinities and NaN). *)
Definition fval (x : f64) : R := SF2R radix2 x.

(** A double that is a number between [a] and [b]. *)
Definition num_in (a b : R) (x : f64) : Prop := is_f64 x /\ is_num x = true /\ a <= fval x <= b.

(** A double that is a number greater than or equal to 0. *)
Definition num_nonneg (x : f64) : Prop := is_f64 x /\ is_num x = true /\ 0 <= fval x.

(** Half the distance between 1 and the next double: the relative error of one operation. *)
Definition uround : R := bpow radix2 (-53).
(** Half the smallest positive double: the absolute error of an operation that underflows. *)
Definition ufloor : R := bpow radix2 (-1075).

(** Sum of the values. *)
Definition rsum (l : list f64) : R := fold_left (fun s x => s + fval x) l 0.

(** The exponential and the logarithm of the C library take doubles to doubles. *)
Definition on_f64 (f : f64 -> f64) : Prop := forall x, is_f64 x -> is_f64 (f x).
