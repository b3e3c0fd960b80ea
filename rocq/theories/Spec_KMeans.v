(** Specification vocabulary for K-Means, over the reals. *)
From Coq Require Import List Bool Arith Reals.
From Verif Require Import Base RFacts.
Import ListNotations.
Local Open Scope R_scope.

(** The squared distance between a point and the [k]-th of the centers [cs], in dimension [dim]. *)
Definition sqd (dim : nat) (x cs : list R) (k : nat) : R :=
  Rsum dim (fun d => (nth d x 0 - nth (k * dim + d) cs 0) * (nth d x 0 - nth (k * dim + d) cs 0)).

(** [k] is the nearest of the centers, the first one if there are several. *)
Definition nearest (clusters dim : nat) (cs x : list R) (k : nat) : Prop :=
  (k < clusters)%nat /\
  (forall j, (j < clusters)%nat -> sqd dim x cs k <= sqd dim x cs j) /\
  (forall j, (j < k)%nat -> sqd dim x cs k < sqd dim x cs j).

(** [v] is the smallest of the first [n] values of [f]. *)
Definition is_min (n : nat) (f : nat -> R) (v : R) : Prop :=
  (exists j, (j < n)%nat /\ f j = v) /\ forall j, (j < n)%nat -> v <= f j.

(** [e] is the distortion: the sum over the frames of the squared distance to the nearest center. *)
Definition distortion (clusters dim : nat) (cs : list R) (frames : list (list R)) (e : R) : Prop :=
  exists mins, Forall2 (fun x v => is_min clusters (sqd dim x cs) v) frames mins /\ e = Rlsum mins.

(** The mean of coordinate [d] of some points; 0 if there are none. *)
Definition mean_at (d : nat) (pts : list (list R)) : R :=
  match pts with [] => 0 | _ => Rlsum (map (fun x => nth d x 0) pts) / INR (length pts) end.

(** The points with a given label. *)
Definition members (frames : list (list R)) (labels : list nat) (k : nat) : list (list R) :=
  map fst (filter (fun e => snd e =? k)%nat (combine frames labels)).

(** The centers [cs] are the means of the frames of their cluster in [prev], or the origin. *)
Definition averaged (clusters dim : nat) (prev : list R) (frames : list (list R)) (cs : list R) : Prop :=
  length cs = (clusters * dim)%nat /\
  exists labels, Forall2 (nearest clusters dim prev) frames labels /\
    forall k d, (k < clusters)%nat -> (d < dim)%nat -> nth (k * dim + d) cs 0 = mean_at d (members frames labels k).

(** The mean of coordinate [d] of the [step] frames from [o] on. *)
Definition segment_mean (phrase : list (list R)) (o step d : nat) : R := Rsum step (fun t => nth d (nth (o + t) phrase []) 0 / INR step).

(** The distortion does not grow from the centers [cs] to the centers [cs']. *)
Definition no_worse (clusters dim : nat) (frames : list (list R)) (cs cs' : list R) : Prop :=
  exists e e', distortion clusters dim cs frames e /\ distortion clusters dim cs' frames e' /\ e' <= e.
