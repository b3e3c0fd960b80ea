(** Specification vocabulary for Gaussian mixtures, over the reals. *)
From Coq Require Import String List Bool Arith Reals.
From Verif Require Import Base Arith RFacts Model_Gaussian Model_Config Model_Ring Model_KMeans Model_GMM Spec_Common Spec_Matrix Spec_Det Spec_Gaussian.
Import ListNotations.
Local Open Scope list_scope.
Local Open Scope R_scope.

Definition no_gauss : gauss RA := mkGauss (A := RA) false 0 0 0 None Full [] [] [] 0 [] 0 [] None.
Definition comp_at (g : gclass RA) (c : nat) : gauss RA := nth c (gc_comp g) no_gauss.
Definition weight (g : gclass RA) (c : nat) : R := nth c (gc_coef g) 0.

(** The normal density of a component, floored as in C29. *)
Definition comp_lik (k : gauss RA) (x : list R) : R :=
  Rmax min_likelihood (normal_pdf (g_dim k) (gcov k) (ginv k) (gmean k) (fun i => nth i x 0)).

(** The weighted likelihood of a component, with 0 replaced by 1e-100. *)
Definition score (g : gclass RA) (x : list R) (c : nat) : R :=
  if Req_EM_T (weight g c * comp_lik (comp_at g c) x) 0 then / 10 ^ 100 else weight g c * comp_lik (comp_at g c) x.
(** The responsibility of component [c] for [x], and its total over some frames. *)
Definition resp (g : gclass RA) (x : list R) (c : nat) : R := score g x c / Rsum (gc_n g) (score g x).
Definition mass (g : gclass RA) (frames : list (list R)) (c : nat) : R := Rlsum (map (fun x => resp g x c) frames).
(** Mean and covariance of the frames weighted by the responsibilities. *)
Definition wmean (g : gclass RA) (frames : list (list R)) (c d : nat) : R :=
  Rlsum (map (fun x => resp g x c * nth d x 0) frames) / mass g frames c.
Definition wcov (g : gclass RA) (frames : list (list R)) (c d1 d2 : nat) : R :=
  Rlsum (map (fun x => resp g x c * (nth d1 x 0 - wmean g frames c d1) * (nth d2 x 0 - wmean g frames c d2)) frames) / mass g frames c.

(** A distribution over [n] values. *)
Definition distribution (n : nat) (w : nat -> R) : Prop := (forall c, (c < n)%nat -> 0 <= w c) /\ Rsum n w = 1.

(** A component with the sizes and modes of its class. *)
Definition fits_class (g : gclass RA) (k : gauss RA) : Prop :=
  wf_gauss k /\ g_bim k = gc_bim g /\ g_dim k = gc_dim g /\ g_din k = gc_din g /\ g_mode k = gc_mode g.

(** The sizes left by [allocate]. *)
Definition gm_shape (g : gclass RA) : Prop :=
  (1 <= gc_n g)%nat /\ length (gc_coef g) = gc_n g /\ length (gc_comp g) = gc_n g /\ length (gc_beta g) = gc_n g /\
  Forall (fits_class g) (gc_comp g).

(** A class that can be trained further or used: inverses up to date and weights that sum to one. *)
Definition gm_ready (g : gclass RA) : Prop :=
  gm_shape g /\ Forall inverted (gc_comp g) /\ distribution (gc_n g) (weight g).

(** Regularisation terms large enough for inversion: the pivot threshold in Full mode, positive in Diagonal
    mode. *)
Definition strong_reg (g : gclass RA) : Prop :=
  (gc_dim g <= length (gc_reg g))%nat /\
  forall d, (d < gc_dim g)%nat -> match gc_mode g with Full => eps9 <= nth d (gc_reg g) 0 | Diagonal => 0 < nth d (gc_reg g) 0 end.

(** The covariance expected from an update: weighted covariance plus the regularisation; only the diagonal
    in Diagonal mode. *)
Definition new_cov (g : gclass RA) (frames : list (list R)) (c d1 d2 : nat) : R :=
  if Nat.eqb d1 d2 then wcov g frames c d1 d1 + nth d1 (gc_reg g) 0
  else match gc_mode g with Full => wcov g frames c d1 d2 | Diagonal => 0 end.

(** Everything but weights and components is the same. *)
Definition same_class (g h : gclass RA) : Prop :=
  gc_bim h = gc_bim g /\ gc_dim h = gc_dim g /\ gc_din h = gc_din g /\ gc_win h = gc_win g /\ gc_par h = gc_par g /\
  gc_beta h = gc_beta g /\ gc_reg h = gc_reg g /\ gc_buf h = gc_buf g.

(** The parameters after an update. *)
Definition after_update (g : gclass RA) (frames : list (list R)) (g' : gclass RA) : Prop :=
  same_class g g' /\ length (gc_coef g') = gc_n g /\ length (gc_comp g') = gc_n g /\
  (forall c, (c < gc_n g)%nat -> weight g' c = mass g frames c / INR (length frames)) /\
  distribution (gc_n g) (weight g') /\
  (forall c, (c < gc_n g)%nat -> forall d, (d < gc_dim g)%nat -> gmean (comp_at g' c) d = wmean g frames c d) /\
  (forall c, (c < gc_n g)%nat -> forall i j, (i < gc_dim g)%nat -> (j < gc_dim g)%nat -> gcov (comp_at g' c) i j = new_cov g frames c i j).

(** The dimensions accepted by the constructor of a distribution. *)
Definition good_dims (g : gclass RA) : Prop :=
  if gc_bim g then (2 <= gc_dim g)%nat /\ (gc_din g < gc_dim g)%nat else (1 <= gc_dim g)%nat /\ gc_din g = 0%nat.

(** ** Initialisation *)
(** The frames of segment [c] of every phrase, when a phrase is cut in [G] segments of equal length. *)
Definition seg_frames (G c : nat) (data : list (list (list R))) : list (list R) :=
  flat_map (fun ph => firstn (length ph / G) (skipn (c * (length ph / G)) ph)) data.
Definition avg (f : list R -> R) (l : list (list R)) : R := Rlsum (map f l) / INR (length l).
Definition plain_cov (l : list (list R)) (d1 d2 : nat) : R :=
  avg (fun x => (nth d1 x 0 - avg (fun y => nth d1 y 0) l) * (nth d2 x 0 - avg (fun y => nth d2 y 0) l)) l.
(** The regularisation terms: the absolute one, or the relative one times the standard deviation. *)
Definition init_reg (g : gclass RA) (dev : list R) : list R :=
  map (fun s => Rmax (gp_abs (gc_par g)) (gp_rel (gc_par g) * s)) dev.
Definition init_cov (g : gclass RA) (dev : list R) (data : list (list (list R))) (c d1 d2 : nat) : R :=
  if Nat.eqb d1 d2 then plain_cov (seg_frames (gc_n g) c data) d1 d1 + nth d1 (init_reg g dev) 0
  else match gc_mode g with Full => plain_cov (seg_frames (gc_n g) c data) d1 d2 | Diagonal => 0 end.
(** The absolute regularisation is large enough for inversion. *)
Definition strong_abs (g : gclass RA) : Prop := match gc_mode g with Full => eps9 <= gp_abs (gc_par g) | Diagonal => 0 < gp_abs (gc_par g) end.

(** The K-Means object used by the initialisation. *)
Definition init_kmeans (n : nat) : kmeans RA :=
  let k := km_new (A := RA) n in mkKM (A := RA) (km_dim k) n (km_maxit k) (km_thr k) true (km_centers k) (km_dist k) (km_likeliest k).

(** ** Recognition *)
(** The size of the observations given to [filter]. *)
Definition obs_dim (g : gclass RA) : nat := if gc_bim g then gc_din g else gc_dim g.
(** The likelihood of an observation for a component: of the input part in a bimodal model. *)
Definition obs_lik (k : gauss RA) (x : list R) : R :=
  if g_bim k then Rmax min_likelihood (normal_pdf (g_din k) (gcov k) (ginv_in k) (gmean k) (fun i => nth i x 0)) else comp_lik k x.
(** The likelihood of an observation for a class, and the posterior of its components. *)
Definition mix_lik (g : gclass RA) (x : list R) : R := Rsum (gc_n g) (fun c => weight g c * obs_lik (comp_at g c) x).
Definition posterior (g : gclass RA) (x : list R) (c : nat) : R := weight g c * obs_lik (comp_at g c) x / mix_lik g x.
(** The output of a component and of the class. *)
Definition comp_out (k : gauss RA) (x : list R) (d : nat) : R := cond_mean k (ginv_in k) (fun i => nth i x 0) d.
Definition class_out (g : gclass RA) (x : list R) (d : nat) : R := Rsum (gc_n g) (fun c => posterior g x c * comp_out (comp_at g c) x d).

(** The mean of the last [L] of some values. *)
Definition window_mean (L : nat) (vs : list R) : R := Rlsum (last_n L vs) / INR (length (last_n L vs)).
(** A one-channel window of length [L] in which [vs] were pushed since it was last cleared. *)
Definition window_of (L : nat) (vs : list R) (r : ring R) : Prop :=
  exists r0, ring_wf 1 r0 /\ r_length r0 = L /\ ring_pushes (ring_clear r0) (map (fun v => [v]) vs) = Ok r.

(** [h] is the class [g] after the observations [xs] since the last reset: same parameters, and a window of
    logarithms of likelihoods. *)
Definition class_track (g : gclass RA) (xs : list (list R)) (h : gclass RA) : Prop :=
  gc_bim h = gc_bim g /\ gc_dim h = gc_dim g /\ gc_din h = gc_din g /\ gc_win h = gc_win g /\ gc_par h = gc_par g /\
  gc_coef h = gc_coef g /\ gc_comp h = gc_comp g /\ length (gc_beta h) = gc_n g /\ gc_reg h = gc_reg g /\
  window_of (gc_win g) (map (fun x => ln (mix_lik g x)) xs) (gc_buf h).
(** What it reports after the last observation [x]. *)
Definition class_report (g : gclass RA) (xs : list (list R)) (x : list R) (h : gclass RA) : Prop :=
  gc_inst h = mix_lik g x /\
  gc_log h = window_mean (gc_win g) (map (fun x => ln (mix_lik g x)) (xs ++ [x])) /\
  (forall c, (c < gc_n g)%nat -> nth c (gc_beta h) 0 = posterior g x c) /\
  (gc_bim g = true -> length (gc_out h) = (gc_dim g - gc_din g)%nat /\ length (gc_ocov h) = csize (gc_mode g) (gc_dim g - gc_din g) /\
    forall d, (d < gc_dim g - gc_din g)%nat -> nth d (gc_out h) 0 = class_out g x d).

(** A class that can be filtered. *)
Definition class_usable (g : gclass RA) : Prop := gm_ready g /\ (1 <= gc_win g)%nat /\ ring_wf 1 (gc_buf g).

(** ** Several classes *)
Definition no_class : string * gclass RA :=
  (EmptyString, mkGC (A := RA) false 0 0 0 (mkGmmP (A := RA) 0 0 0 Full) [] [] [] [] (mkRing [] 0 0 false) 0 0 [] []).
Definition label_at (m : gmm RA) (i : nat) : string := fst (nth i (gm_models m) no_class).
Definition class_at (m : gmm RA) (i : nat) : gclass RA := snd (nth i (gm_models m) no_class).

(** Trained classes with the dimensions of the model, and its covariance mode if their outputs are mixed. *)
Definition class_in (m : gmm RA) (e : string * gclass RA) : Prop :=
  class_usable (snd e) /\ gc_bim (snd e) = gm_bim m /\ gc_dim (snd e) = gm_dim m /\ gc_din (snd e) = gm_din m /\
  (gm_bim m = true -> gm_est m = Mixture -> gc_mode (snd e) = gm_cmode m).
Definition model_usable (m : gmm RA) : Prop :=
  gm_models m <> [] /\ NoDup (map fst (gm_models m)) /\ Forall (class_in m) (gm_models m).
Definition model_obs_dim (m : gmm RA) : nat := if gm_bim m then gm_din m else gm_dim m.

(** [b] is the first index of the largest of the first [n] values. *)
Definition first_max (n : nat) (v : nat -> R) (b : nat) : Prop :=
  (b < n)%nat /\ (forall i, (i < n)%nat -> v i <= v b) /\ (forall i, (i < b)%nat -> v i < v b).

Definition results_sized (n : nat) (r : results RA) : Prop :=
  length (rs_inst r) = n /\ length (rs_instn r) = n /\ length (rs_sm r) = n /\ length (rs_smn r) = n /\ length (rs_log r) = n.

(** [m'] is the model [m] after the observations [xs] since the last reset. *)
Definition model_track (m : gmm RA) (xs : list (list R)) (m' : gmm RA) : Prop :=
  gm_bim m' = gm_bim m /\ gm_dim m' = gm_dim m /\ gm_din m' = gm_din m /\ gm_est m' = gm_est m /\ gm_cmode m' = gm_cmode m /\
  Forall2 (fun e e' => fst e' = fst e /\ class_track (snd e) xs (snd e')) (gm_models m) (gm_models m') /\
  results_sized (length (gm_models m)) (gm_res m').

(** What the model reports after the last observation [x]. *)
Definition model_report (m : gmm RA) (xs : list (list R)) (x : list R) (r : results RA) : Prop :=
  let n := length (gm_models m) in
  (forall i, (i < n)%nat -> nth i (rs_inst r) 0 = mix_lik (class_at m i) x) /\
  (forall i, (i < n)%nat -> nth i (rs_log r) 0 = window_mean (gc_win (class_at m i)) (map (fun x => ln (mix_lik (class_at m i) x)) (xs ++ [x]))) /\
  (forall i, (i < n)%nat -> nth i (rs_sm r) 0 = exp (nth i (rs_log r) 0)) /\
  (forall i, (i < n)%nat -> nth i (rs_instn r) 0 = nth i (rs_inst r) 0 / Rsum n (fun j => nth j (rs_inst r) 0)) /\
  (forall i, (i < n)%nat -> nth i (rs_smn r) 0 = nth i (rs_sm r) 0 / Rsum n (fun j => nth j (rs_sm r) 0)) /\
  exists b, first_max n (fun i => nth i (rs_log r) 0) b /\ rs_likeliest r = label_at m b /\
    (gm_bim m = true -> length (rs_out r) = (gm_dim m - gm_din m)%nat /\
     forall d, (d < gm_dim m - gm_din m)%nat -> nth d (rs_out r) 0 =
       match gm_est m with
       | Likeliest => class_out (class_at m b) x d
       | Mixture => Rsum n (fun i => nth i (rs_smn r) 0 * class_out (class_at m i) x d)
       end).
