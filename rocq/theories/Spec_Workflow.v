(** Specification vocabulary for the work flow of a user: recordings are put into a training set, a model is
    trained with it, and the trained model recognises. *)
From Coq Require Import String List Bool Arith ZArith Reals Sorting.Sorted.
From Verif Require Import Base Arith RFacts Model_Phrase Model_TrainingSet Model_Gaussian Model_Config Model_KMeans Model_GMM Model_Shared Model_Train
  Model_Reload Model_Workflow Spec_Phrase Spec_TrainingSet Spec_Train Spec_Shared Spec_Matrix Spec_Gaussian Spec_GMM.
Import ListNotations.
Local Open Scope list_scope.
Local Open Scope nat_scope.

(** A recording: its label and its frames. *)
Definition recording := (string * list (list R))%type.

(** The recordings with the label [l], in order. *)
Definition of_class (l : string) (recs : list recording) : list (list (list R)) :=
  map snd (filter (fun r => String.eqb (fst r) l) recs).

(** Set [t], number [k], holds the recordings [recs]: in the order of their indices its phrases carry the
    labels and the frames of the recordings, and its classes are up to date. *)
Definition recorded (w : world RA) (k : nat) (t : tset) (recs : list recording) : Prop :=
  reachable w /\ set_at w k = Some t /\ up_to_date w k /\ in_range t /\ length (t_cols t) = t_dim t /\
  Forall2 (fun (e : Z * nat) (r : recording) => exists p s, nth_error (w_heap w) (snd e) = Some p /\ made p s /\
      s_bim s = t_bim t /\ s_dim s = t_dim t /\ (t_bim t = true -> s_din s = t_din t) /\
      p_label p = fst r /\ frames_of s = snd r)
    (t_phrases t) recs.

(** The calls of a user who makes a training set and records into it, one phrase after the other. *)
Definition record_one (i : nat) (r : recording) : list (wop RA) :=
  WAdd 0 (Z.of_nat i) (fst r) :: map (fun x => WPhrase i (PRecord (A := RA) x)) (snd r).
Fixpoint record_all (i : nat) (recs : list recording) : list (wop RA) :=
  match recs with
  | [] => []
  | r :: recs => record_one i r ++ record_all (S i) recs
  end.
Definition record_script (bim : bool) (dim din : nat) (recs : list recording) : list (wop RA) :=
  [WNewSet true bim; WSetDim 0 dim; WSetDimIn 0 din] ++ record_all 0 recs.

(** The dimensions a training set may have. *)
Definition set_dims (bim : bool) (dim din : nat) : Prop :=
  if bim then 1 <= din < dim else 1 <= dim /\ din = 0.

(** The standard deviation of each dimension over some frames. *)
Definition deviations (dim : nat) (frames : list (list R)) : list R :=
  tab dim (fun d => sqrt (Rvar (column frames d))).

(** The log-likelihood of the frames under the mixture, as the update reports it. *)
Definition data_loglik (g : gclass RA) (frames : list (list R)) : R :=
  Rlsum (map (fun x => ln (Rsum (gc_n g) (score g x))) frames).

(** The log-likelihood known after [k] updates from the mixture [g]. *)
Definition ll_after (frames : list (list R)) (g : gclass RA) (k : nat) (x : R) : Prop :=
  match k with
  | O => x = lowest (A := RA)
  | S j => exists h, gm_updates (A := RA) j frames g = Ok h /\ x = data_loglik h frames
  end.

(** The training that starts from the mixture [g] stops after [n] updates: the stopping rule holds there and
    not before. *)
Definition stops_at (p : em_settings RA) (frames : list (list R)) (g : gclass RA) (n : nat) : Prop :=
  1 <= n /\
  (exists prev ll, ll_after frames g (n - 1) prev /\ ll_after frames g n ll /\ stop_rule p n prev ll) /\
  (forall k, 1 <= k < n -> exists prev ll, ll_after frames g (k - 1) prev /\ ll_after frames g k ll /\ ~ stop_rule p k prev ll).

(** [g] is what the learning algorithm makes of the untrained class [g0] and the phrases [data]: allocation,
    initialisation on the phrases and their standard deviations, and [n] rounds of
    expectation-maximisation, with [n] given by the stopping rule. *)
Definition learned (p : em_settings RA) (g0 : gclass RA) (data : list (list (list R))) (g : gclass RA) : Prop :=
  exists g1 g2 n, gm_allocate g0 = Ok g1 /\
    gm_init (A := RA) data (deviations (gc_dim g0) (concat data)) g1 = Ok g2 /\
    gm_updates (A := RA) n (concat data) g2 = Ok g /\ stops_at p (concat data) g2 n.

(** The class [l] can be learned: it has gaussians, one of its recordings has as many frames, and the
    regularisation is large enough for the covariances to be inverted. *)
Definition learnable (cf : config (gmmP RA)) (recs : list recording) (l : string) : Prop :=
  let p := cf_params cf l in
  1 <= gp_gauss p /\ (exists ph, In ph (of_class l recs) /\ gp_gauss p <= length ph) /\
  match gp_mode p with Full => (eps9 <= gp_abs p)%R | Diagonal => (0 < gp_abs p)%R end.

(** Shared parameters for the modality [bim] that [train] can work with; an orderly user has them. *)
Definition set_up (bim : bool) (s : shared RA) : Prop :=
  sp_bim s = bim /\ modal_ok s /\ sp_dim_min s = (if bim then 2 else 1) /\ sp_din_min s = (if bim then 1 else 0) /\ 1 <= sp_minit s /\ 1 <= sp_win s.

(** The settings of the training. *)
Definition settings (s : shared RA) : em_settings RA := mkEm (sp_minit s) (sp_maxit s) (sp_pct s).

(** [g] is the class [l] that training with the recordings makes, for a model with the shared parameters [s]
    and the configuration [cf]. *)
Definition class_made (u : junk RA) (s : shared RA) (cf : config (gmmP RA)) (recs : list recording) (l : string) (g : gclass RA) : Prop :=
  learned (settings s) (gq_new_class u s cf l) (of_class l recs) g /\ class_usable g /\
  gc_bim g = sp_bim s /\ gc_dim g = sp_dim s /\ gc_din g = sp_din s /\ gc_win g = sp_win s /\ gc_par g = cf_params cf l.

(** The classes have the covariance mode of the default parameters: the class-level regression needs it. *)
Definition one_mode (cf : config (gmmP RA)) (recs : list recording) : Prop :=
  forall l, In l (map fst recs) -> gp_mode (cf_params cf l) = gp_mode (cf_def cf).

(** The observations of a user of a model with these shared parameters: the input modality. *)
Definition input_dim (s : shared RA) : nat := if sp_bim s then sp_din s else sp_dim s.

(** Filtering a sequence. *)
Definition gq_filters (xs : list (list R)) (m : gmodel RA) : res (gmodel RA) := foldM (fun m x => gq_filter (A := RA) x m) xs m.
