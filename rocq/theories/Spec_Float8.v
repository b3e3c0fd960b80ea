(** Specification vocabulary: K-Means in single precision. *)
From Coq Require Import List Bool Arith ZArith Reals.
From Coq Require Import Floats.SpecFloat.
From Flocq Require Import Core.Core.
From Verif Require Import Base Arith RFacts Spec_Float Spec_KMeans Model_Single Model_Single5.
Import ListNotations.
Local Open Scope R_scope.

(** The floats of binary32. *)
Definition is_f32 (x : f32) : Prop := valid_binary sprec semax x = true.
Definition nan32 (x : f32) : bool := match x with S754_nan => true | _ => false end.
(** A number of magnitude at most [B]. *)
Definition within (B : R) (x : f32) : Prop := is_f32 x /\ is_num x = true /\ Rabs (fval x) <= B.
(** The real values of a vector. *)
Definition vals (l : list f32) : list R := map fval l.
(** One plus the relative error of an operation. *)
Definition sone : R := 1 + bpow radix2 (-24).
(** Half the smallest positive float. *)
Definition stiny : R := bpow radix2 (-150).
(** [b] is the nearest of the centers [cs] of the frame [x], up to the rounding of the distances. *)
Definition near_nearest (clusters dim : nat) (cs x : list R) (b : nat) : Prop :=
  (b < clusters)%nat /\ forall j, (j < clusters)%nat -> sqd dim x cs b <= sone ^ (2 * dim + 10) * (sqd dim x cs j + INR dim * bpow radix2 (-149)).
(** The centers are numbers; each is the mean of its members up to the rounding of the sum, of the count and of
    the quotient, and 0 if it has none. *)
Definition near_means (clusters dim : nat) (B : R) (frames : list (list R)) (labels : list nat) (cs : list f32) : Prop :=
  length cs = (clusters * dim)%nat /\ Forall (fun c => is_num c = true) cs /\
  forall k d, (k < clusters)%nat -> (d < dim)%nat ->
    (members frames labels k = [] -> nth (k * dim + d) (vals cs) 0 = 0) /\
    Rabs (nth (k * dim + d) (vals cs) 0 - mean_at d (members frames labels k)) <= B * (sone ^ (length (members frames labels k) + 2) - 1) + stiny.
