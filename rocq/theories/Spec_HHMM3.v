(** Specification vocabulary for the non-hierarchical mode of [HierarchicalHMM], over the reals. *)
From Coq Require Import String List Bool Arith Reals.
From Verif Require Import Base Arith RFacts Model_Gaussian Model_Config Model_Ring Model_KMeans Model_GMM Model_HMM Model_HHMM
  Spec_Common Spec_Matrix Spec_Gaussian Spec_GMM Spec_HMM Spec_HHMM.
Import ListNotations.
Local Open Scope list_scope.
Local Open Scope R_scope.

Definition twice {X} (l : list X) : list X := flat_map (fun x => [x; x]) l.

(** A model that can be filtered in non-hierarchical mode. *)
Definition hn_class (m : hhmm RA) (h : hclass RA) : Prop :=
  hmm_usable h /\ hc_bim h = hh_bim m /\ hc_dim h = hh_dim m /\ hc_din h = hh_din m /\ hc_win h = hh_win m /\ (hh_est m = Mixture -> hp_mode (hc_par h) = hh_cmode m).
Definition hn_usable (m : hhmm RA) : Prop :=
  (1 <= hh_size m)%nat /\ NoDup (map fst (hh_cls m)) /\ Forall (fun e => hn_class m (snd e)) (hh_cls m) /\ hh_hier m = false /\
  (hh_bim m = true -> (hh_din m <= hh_dim m)%nat).
Definition hn_fresh (m : hhmm RA) : Prop :=
  results_sized (hh_size m) (hh_res m) /\ Forall (fun e : string * hclass RA => hmm_fresh (snd e)) (hh_cls m).
(** Before [reset]: LeftRight classes whose buffers exist. *)
Definition hn_resettable (m : hhmm RA) : Prop :=
  hn_usable m /\ Forall (fun e : string * hclass RA => hc_mode (snd e) = LeftRight /\ ring_wf 1 (h_buf (hc_run (snd e)))) (hh_cls m).

(** What class [c] reports after the observations [xs], the last of which is [x]: [smoothed] is the sequence
    over which the likelihoods are averaged. *)
Definition hn_report (m : hhmm RA) (smoothed : list R -> list R) (xs : list (list R)) (x : list R) (m' : hhmm RA) : Prop :=
  (forall c, (c < hh_size m)%nat ->
    let h := hcl m c in
    let h' := hcl m' c in
    h_inst (hc_run h') = hmm_inst h xs /\ h_log (hc_run h') = window_mean (hh_win m) (smoothed (hmm_logs h xs)) /\ hmm_report h (hmm_filtering h xs) x h') /\
  hh_top_report m (fun c => hmm_inst (hcl m c) xs) (fun c => window_mean (hh_win m) (smoothed (hmm_logs (hcl m c) xs)))
    (fun c d => hmm_output (hcl m c) (hmm_filtering (hcl m c) xs) (h_like (hc_run (hcl m' c))) x d) (hh_res m').

(** What [reset] changes in non-hierarchical mode: the transition from the last state back to the first one. *)
Definition wrap_at (h : hclass RA) : nat := match hc_mode h with Ergodic => ((hc_n h - 1) * hc_n h)%nat | LeftRight => ((hc_n h - 1) * 2 + 1)%nat end.
Definition reset_from (h h' : hclass RA) : Prop :=
  hmm_usable h' /\ hc_hier h' = false /\ h_started (hc_run h') = false /\ ring_wf 1 (h_buf (hc_run h')) /\ r_length (h_buf (hc_run h')) = hc_win h /\
  hc_bim h' = hc_bim h /\ hc_dim h' = hc_dim h /\ hc_din h' = hc_din h /\ hc_win h' = hc_win h /\ hc_par h' = hc_par h /\
  h_states (hc_net h') = h_states (hc_net h) /\ h_prior (hc_net h') = h_prior (hc_net h) /\
  (forall q, ((2 <= hc_n h)%nat -> q <> wrap_at h) -> nth q (h_trans (hc_net h')) 0 = nth q (h_trans (hc_net h)) 0) /\
  ((2 <= hc_n h)%nat -> nth (wrap_at h) (h_trans (hc_net h')) 0 = / 20).
Definition hn_reset_spec (m m' : hhmm RA) : Prop :=
  map fst (hh_cls m') = map fst (hh_cls m) /\ hn_usable m' /\ results_sized (hh_size m') (hh_res m') /\ hh_obs_dim m' = hh_obs_dim m /\ hh_win m' = hh_win m /\
  forall c, (c < hh_size m)%nat -> reset_from (hcl m c) (hcl m' c) /\ h_alpha (hc_run (hcl m' c)) = if hc_hier (hcl m c) then [] else h_alpha (hc_run (hcl m c)).
