(** Specification vocabulary for the work flow with hidden Markov models: recordings are put into a training
    set, a hierarchical model is trained with it, and the trained model recognises. *)
From Coq Require Import String List Bool Arith ZArith Reals Sorting.Sorted.
From Verif Require Import Base Arith RFacts Model_Ring Model_Phrase Model_TrainingSet Model_Gaussian Model_Config Model_KMeans Model_GMM Model_HMM Model_HHMM
  Model_Shared Model_Train Model_Reload Model_Workflow Model_Workflow2 Spec_Common Spec_Phrase Spec_TrainingSet Spec_Train Spec_Shared Spec_Matrix Spec_Gaussian Spec_GMM
  Spec_HMM Spec_HMMInit Spec_EM2 Spec_HHMM Spec_Workflow.
Import ListNotations.
Local Open Scope list_scope.
Local Open Scope nat_scope.

(** The log-likelihood known after [k] Baum-Welch updates from the class [h]. *)
Definition hll_after (data : list (list (list R))) (h : hclass RA) (k : nat) (x : R) : Prop :=
  match k with
  | O => x = lowest (A := RA)
  | S j => exists g, hm_updates (A := RA) j data h = Ok g /\ x = phrases_ll g data
  end.

(** The training that starts from the class [h] stops after [n] updates. *)
Definition hstops_at (p : em_settings RA) (data : list (list (list R))) (h : hclass RA) (n : nat) : Prop :=
  1 <= n /\
  (exists prev ll, hll_after data h (n - 1) prev /\ hll_after data h n ll /\ stop_rule p n prev ll) /\
  (forall k, 1 <= k < n -> exists prev ll, hll_after data h (k - 1) prev /\ hll_after data h k ll /\ ~ stop_rule p k prev ll).

(** The standard deviations of the pieces of state [s]. *)
Definition piece_devs (h : hclass RA) (data : list (list (list R))) (s : nat) : list R :=
  deviations (hc_dim h) (concat (pieces (hc_n h) s data)).

(** The mixture that starts state [s], trained on the pieces of that state, stops after [k] updates. *)
Definition piece_rounds (p : em_settings RA) (h : hclass RA) (data : list (list (list R))) (s k : nat) : Prop :=
  exists g1 g2, gm_allocate (new_mixture h (hc_win h)) = Ok g1 /\
    gm_init (A := RA) (pieces (hc_n h) s data) (piece_devs h data s) g1 = Ok g2 /\ stops_at p (concat (pieces (hc_n h) s data)) g2 k.

(** [h2] is the class at the start of the Baum-Welch algorithm. *)
Definition started_from (p : em_settings RA) (h0 : hclass RA) (data : list (list (list R))) (h2 : hclass RA) : Prop :=
  exists iters h1, (forall s, s < hc_n h0 -> piece_rounds p h0 data s (iters s)) /\ hm_allocate (A := RA) h0 = Ok h1 /\
    hm_init (A := RA) iters (piece_devs h0 data) (deviations (hc_dim h0) (concat data)) data h1 = Ok h2.

(** [h] is what the learning algorithm makes of the untrained class [h0] and the phrases [data]: allocation,
    initialisation on the pieces of the phrases, Baum-Welch updates as many as the stopping rule says,
    normalisation. *)
Definition hlearned (p : em_settings RA) (h0 : hclass RA) (data : list (list (list R))) (h : hclass RA) : Prop :=
  exists h2 h3 n, started_from p h0 data h2 /\ hm_updates (A := RA) n data h2 = Ok h3 /\ hstops_at p data h2 n /\ hm_terminate (A := RA) h3 = Ok h.

(** A class as [train] makes it before it is trained: the exit probability of the last state is 0.1. *)
Definition last_exit (N : nat) : list R := tab N (fun k => if k =? N - 1 then (/ 10)%R else 0%R).
Definition hq_new_class (u : junk RA) (s : shared RA) (cf : config (hmmP RA)) (l : string) : hclass RA :=
  let p := hmmP_assign hmmP_new (cf_params cf l) in
  mkHC (A := RA) (sp_bim s) (sp_dim s) (sp_din s) (sp_win s) p true (mkNet (A := RA) [] [] [] (last_exit (hp_states p)))
    (mkRun (A := RA) (repeat n0 10) [] [] [] (jk_flag u) (ring_new n0 1 1) (jk_num u) (jk_num u) (jk_num u) (jk_num u) (jk_num u) 0 0 0 (jk_num u) [] []).

(** The class [l] can be learned: it has states and gaussians, one of its recordings has as many frames, none
    is empty, and the regularisation is large enough for the covariances to be inverted.  The rows of the
    transitions do not vanish during the training: this is always so for a left-right class of a realistic
    length. *)
Definition hlearnable (u : junk RA) (s : shared RA) (cf : config (hmmP RA)) (recs : list recording) (l : string) : Prop :=
  let p := cf_params cf l in
  let data := of_class l recs in
  1 <= hp_states p /\ 1 <= hp_gauss p /\ Forall (fun ph => ph <> []) data /\ (exists ph, In ph data /\ hp_states p * hp_gauss p <= length ph) /\
  match hp_mode p with Full => (eps9 <= hp_abs p)%R | Diagonal => (0 < hp_abs p)%R end /\
  ((hp_trans p = LeftRight /\ (INR (length (concat data)) <= 10 ^ 90)%R) \/
   (forall h2, started_from (settings s) (hq_new_class u s cf l) data h2 -> rows_kept 1000 data h2)).

(** [h] is the class [l] that training with the recordings makes, for a model with the shared parameters [s]
    and the configuration [cf]. *)
Definition hclass_made (u : junk RA) (s : shared RA) (cf : config (hmmP RA)) (recs : list recording) (l : string) (h : hclass RA) : Prop :=
  hlearned (settings s) (hq_new_class u s cf l) (of_class l recs) h /\ hmm_usable h /\
  stochastic (hc_n h) (hc_mode h) (h_trans (hc_net h)) /\ (hc_mode h = LeftRight -> no_jump (hc_n h) (h_trans (hc_net h))) /\
  h_exit (hc_net h) = last_exit (hc_n h) /\ frame_kept (hq_new_class u s cf l) h /\ h_inst (hc_run h) = jk_num u.

(** The class-level parameters for [n] classes. *)
Definition even_top (n : nat) (m : hmodel RA) : Prop :=
  hq_prior m = repeat (/ INR n)%R n /\ hq_trans m = repeat (repeat (/ INR n)%R n) n /\ hq_exit m = repeat (/ 10)%R n.

(** The classes have the covariance mode of the default parameters. *)
Definition hone_mode (cf : config (hmmP RA)) (recs : list recording) : Prop :=
  forall l, In l (map fst recs) -> hp_mode (cf_params cf l) = hp_mode (cf_def cf).

(** Filtering a sequence. *)
Definition hq_filters (xs : list (list R)) (m : hmodel RA) : res (hmodel RA) := foldM (fun m x => hq_filter (A := RA) x m) xs m.

(** What the trained model [v], seen as a model before its first observation, makes [m2] report after the
    observations [xs] and [x]. [u] stands for the values that are not initialised. *)
Definition hq_report (u : junk RA) (v : hhmm RA) (xs : list (list R)) (x : list R) (m2 : hmodel RA) : Prop :=
  exists left : nat -> R, (forall c, c < hh_size v -> left c = jk_num u) /\
    (forall c, c < hh_size v -> hh_class_report v left (xs ++ [x]) x c (hcl (hq_view m2) c)) /\
    hh_top_report v (hh_inst v left (xs ++ [x])) (fun c => window_mean (hh_win v) (hh_logs v left (xs ++ [x]) c))
      (fun c d => hmm_output (hcl v c) (hh_weight v left (xs ++ [x]) c) (h_like (hc_run (hcl (hq_view m2) c))) x d) (hq_res m2) /\
    (xs <> [] \/ (forall c, c < hh_size v -> hc_mode (hcl v c) = LeftRight) -> rs_instn (hq_res m2) = tab (hh_size v) (hh_class v (xs ++ [x]))) /\
    Rsum (hh_size v) (hh_class v (xs ++ [x])) = 1%R.

(** The shared parameters [s] a model with the parameters [s0] has after it has read the set [t]. *)
Definition fetched (t : tset) (s0 s : shared RA) : Prop :=
  set_up (t_bim t) s /\ sp_dim s = t_dim t /\ sp_din s = (if t_bim t then t_din t else 0) /\ settings s = settings s0 /\ sp_win s = sp_win s0.

(** All the classes of the set can be learned. *)
Definition hall_learnable (u : junk RA) (t : tset) (m : hmodel RA) (recs : list recording) : Prop :=
  forall s, fetched t (hq_sp m) s -> forall l, In l (map fst recs) -> hlearnable u s (hq_cf m) recs l.

(** [m0] is what training the model [m] with the set [t] of the recordings [recs] makes, before it is reset:
    one class for each label, in order, and even parameters at the level of the classes. *)
Definition htrained (u : junk RA) (t : tset) (recs : list recording) (m m0 : hmodel RA) : Prop :=
  hq_cf m0 = hq_cf m /\ fetched t (hq_sp m) (hq_sp m0) /\ sp_names (hq_sp m0) = t_cols t /\
  StronglySorted (fun a b => String.ltb a b = true) (map fst (hq_cls m0)) /\ (forall l, In l (map fst (hq_cls m0)) <-> In l (map fst recs)) /\
  Forall (fun e => hclass_made u (hq_sp m0) (hq_cf m) recs (fst e) (snd e)) (hq_cls m0) /\
  even_top (length (hq_cls m0)) m0 /\ hq_started m0 = false /\ results_sized 0 (hq_res m0).

(** All the classes are left-right ones. *)
Definition hall_left_right (cf : config (hmmP RA)) (recs : list recording) : Prop :=
  forall l, In l (map fst recs) -> hp_trans (cf_params cf l) = LeftRight.

(** A sufficient condition for [hlearnable] that only looks at the parameters and at the lengths of the
    recordings. *)
Definition hrealistic (cf : config (hmmP RA)) (recs : list recording) (l : string) : Prop :=
  let p := cf_params cf l in
  let data := of_class l recs in
  1 <= hp_states p /\ 1 <= hp_gauss p /\ Forall (fun ph => ph <> []) data /\ (exists ph, In ph data /\ hp_states p * hp_gauss p <= length ph) /\
  match hp_mode p with Full => (eps9 <= hp_abs p)%R | Diagonal => (0 < hp_abs p)%R end /\ (INR (length (concat data)) <= 10 ^ 90)%R /\
  (hp_trans p = LeftRight \/ (hp_states p = 1 /\ exists ph, In ph data /\ 2 <= length ph)).
