(** Specification vocabulary for the initialisation of hidden Markov models, over the reals. *)
From Coq Require Import String List Bool Arith Reals.
From Verif Require Import Base Arith RFacts Model_Gaussian Model_Config Model_Ring Model_KMeans Model_GMM Model_HMM Spec_Common Spec_Gaussian Spec_GMM Spec_HMM.
Import ListNotations.
Local Open Scope list_scope.
Local Open Scope R_scope.

(** Piece [s] of a phrase cut in [N] pieces of equal length; the last frames are left out if the length is
    not a multiple of [N]. Phrases with fewer than [N] frames have no piece. *)
Definition piece (N s : nat) (ph : list (list R)) : list (list R) :=
  let n := (length ph / N)%nat in map (fun t => nth (s * n + t) ph []) (seq 0 n).
Definition pieces (N s : nat) (data : list (list (list R))) : list (list (list R)) :=
  map (piece N s) (filter (fun ph => N <=? length ph)%nat data).

(** The parameters of the mixtures of the class. *)
Definition class_par (h : hclass RA) : gmmP RA := mkGmmP (A := RA) (hp_gauss (hc_par h)) (hp_rel (hc_par h)) (hp_abs (hc_par h)) (hp_mode (hc_par h)).
(** [f] is a mixture with the parameters of the class [h], trained on [data] with [k] updates. *)
Definition fitted (h : hclass RA) (k : nat) (data : list (list (list R))) (dev : list R) (f : gclass RA) : Prop :=
  exists g0 g1 g2, gc_bim g0 = hc_bim h /\ gc_dim g0 = hc_dim h /\ gc_din g0 = hc_din h /\
    gc_par g0 = class_par h /\
    gm_allocate g0 = Ok g1 /\ gm_init (A := RA) data dev g1 = Ok g2 /\ gm_updates (A := RA) k (concat data) g2 = Ok f.

(** State [s] after initialisation: the means and covariances of a mixture trained on its piece of every
    phrase, but equal weights; regularisation from the standard deviation [dev] of all the frames. *)
Definition state_value (iters : nat -> nat) (devs : nat -> list R) (dev : list R) (data : list (list (list R))) (h : hclass RA) (s : nat) (g : gclass RA) : Prop :=
  exists f, fitted h (iters s) (pieces (hc_n h) s data) (devs s) f /\ (forall c, (c < hp_gauss (hc_par h))%nat -> weight g c = / INR (hp_gauss (hc_par h))) /\
    (forall c, (c < hp_gauss (hc_par h))%nat -> g_mean (comp_at g c) = g_mean (comp_at f c) /\ g_cov (comp_at g c) = g_cov (comp_at f c)) /\
    (forall d, (d < hc_dim h)%nat -> nth d (gc_reg g) 0 = Rmax (hp_abs (hc_par h)) (hp_rel (hc_par h) * nth d dev 0)).

(** The first transitions and the first prior. *)
Definition first_trans (N : nat) (mode : tmode) (i j : nat) : R :=
  match mode with
  | Ergodic => / INR N
  | LeftRight => if Nat.eqb (S i) N then (if Nat.eqb j i then 1 else 0) else if Nat.eqb j i || Nat.eqb j (S i) then / 2 else 0
  end.
Definition first_prior (N : nat) (mode : tmode) (i : nat) : R :=
  match mode with
  | Ergodic => / INR N
  | LeftRight => if Nat.eqb i 0 then 1 else 0
  end.

(** The covariance of some frames, regularised with the standard deviations [dev]. *)
Definition regular_cov (h : hclass RA) (frames : list (list R)) (dev : list R) (i j : nat) : R :=
  if Nat.eqb i j then plain_cov frames i i + Rmax (hp_abs (hc_par h)) (hp_rel (hc_par h) * nth i dev 0)
  else match hp_mode (hc_par h) with Full => plain_cov frames i j | Diagonal => 0 end.
