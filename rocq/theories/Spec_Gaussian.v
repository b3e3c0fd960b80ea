(** Specification of Gaussian distributions on the reals: covariance as a function of two indices,
    the multivariate normal density, conditional mean and covariance. *)
From Coq Require Import List Bool Arith ZArith Reals.
From Verif Require Import Base Arith RFacts Model_Gaussian Spec_Matrix Spec_Det.
Import ListNotations.
Local Open Scope R_scope.

(** Number of stored entries of a covariance of size [k]. *)
Definition csize (m : cmode) (k : nat) : nat := match m with Full => (k * k)%nat | Diagonal => k end.

(** The vectors have the sizes that [allocate] gives them. *)
Definition wf_gauss {A : arith} (g : gauss A) : Prop :=
  length (g_mean g) = g_dim g /\ length (g_cov g) = csize (g_mode g) (g_dim g) /\
  length (g_inv g) = csize (g_mode g) (g_dim g) /\
  (g_bim g = true -> (g_din g <= g_dim g)%nat /\ length (g_inv_in g) = csize (g_mode g) (g_din g)).

(** The matrix stored in [v], with [k] rows. *)
Definition stored (m : cmode) (k : nat) (v : list R) (i j : nat) : R :=
  match m with
  | Full => rcell k v i j
  | Diagonal => if Nat.eqb i j then nth i v 0 else 0
  end.

Definition gmean (g : gauss RA) (i : nat) : R := nth i (g_mean g) 0.
Definition gcov (g : gauss RA) : nat -> nat -> R := stored (g_mode g) (g_dim g) (g_cov g).
Definition ginv (g : gauss RA) : nat -> nat -> R := stored (g_mode g) (g_dim g) (g_inv g).
Definition ginv_in (g : gauss RA) : nat -> nat -> R := stored (g_mode g) (g_din g) (g_inv_in g).
Definition gout (g : gauss RA) : nat -> nat -> R := stored (g_mode g) (g_dim g - g_din g) (g_out g).

(** The multivariate normal density with covariance [C], whose inverse is [B]. *)
Definition normal_pdf (n : nat) (C B : nat -> nat -> R) (mu x : nat -> R) : R :=
  exp (- / 2 * qform n B (fun i => x i - mu i)) / sqrt (Rdet n C * (2 * PI) ^ n).

(** The smallest likelihood. *)
Definition min_likelihood : R := / 10 ^ 180.

(** The covariance is accepted for inversion: in Full mode positive definite with a margin of at
    least the pivot threshold, in Diagonal mode positive. *)
Definition pos_cov (g : gauss RA) : Prop :=
  match g_mode g with
  | Full => exists rho, eps9 <= rho /\ pd_margin (g_dim g) (gcov g) rho
  | Diagonal => forall d, (d < g_dim g)%nat -> 0 < gcov g d d
  end.

(** Everything derived from the covariance is right. *)
Definition inverted (g : gauss RA) : Prop :=
  is_inverse (g_dim g) (gcov g) (ginv g) /\
  g_det g = Rdet (g_dim g) (gcov g) /\ 0 < g_det g /\
  (g_bim g = true ->
   is_inverse (g_din g) (gcov g) (ginv_in g) /\
   g_det_in g = Rdet (g_din g) (gcov g) /\ 0 < g_det_in g /\
   length (g_out g) = csize (g_mode g) (g_dim g - g_din g) /\
   forall i j, (i < g_dim g - g_din g)%nat -> (j < g_dim g - g_din g)%nat ->
     gout g i j = gcov g (g_din g + i)%nat (g_din g + j)%nat -
       Rsum (g_din g) (fun k => Rsum (g_din g) (fun l =>
         gcov g (g_din g + i)%nat k * ginv_in g k l * gcov g l (g_din g + j)%nat))).

(** Same dimensions, mode, mean and covariance. *)
Definition same_params {A : arith} (g h : gauss A) : Prop :=
  g_bim g = g_bim h /\ g_dim g = g_dim h /\ g_din g = g_din h /\ g_mode g = g_mode h /\
  g_mean g = g_mean h /\ g_cov g = g_cov h.

(** The mean of the output given the input [x]. *)
Definition cond_mean (g : gauss RA) (B : nat -> nat -> R) (x : nat -> R) (d : nat) : R :=
  gmean g (g_din g + d)%nat +
  Rsum (g_din g) (fun e => gcov g (g_din g + d)%nat e *
    Rsum (g_din g) (fun f => B e f * (x f - gmean g f))).

(** A distribution read back from the JSON form of [g]: no limits on the dimensions, no output
    covariance, callbacks bound to the object [tmp]. *)
Definition reloaded {A : arith} (tmp : nat) (g : gauss A) : gauss A :=
  mkGauss (g_bim g) (g_dim g) 0 (g_din g) None (g_mode g) (g_mean g) (g_cov g) (g_inv g) (g_det g)
    (g_inv_in g) (g_det_in g) [] (Some tmp).

(** Dimensions that [asInt] can return. *)
Definition int_range (n : nat) : Prop := (Z.of_nat n < 2 ^ 31)%Z.
