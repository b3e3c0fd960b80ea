(** Specification vocabulary for the progress of Baum-Welch training. *)
From Coq Require Import String List Bool Arith Reals.
From Verif Require Import Base Arith RFacts Model_Gaussian Model_Config Model_GMM Model_HMM Spec_Common Spec_Matrix Spec_Det Spec_Gaussian Spec_GMM Spec_HMM Spec_EM.
Import ListNotations.
Local Open Scope R_scope.

(** The logarithm of the likelihood of the phrases, as path sums. *)
Definition phrases_ll (h : hclass RA) (data : list (list (list R))) : R :=
  Rlsum (map (fun ph => ln (seq_lik (hc_n h) (hc_prior h) (hc_trans h) (frame_liks h ph))) data).

(** The part of the covariance regularisation: as [reg_part], for the components of all the states. *)
Definition hmm_reg_part (h : hclass RA) (data : list (list (list R))) (k : hclass RA) : R :=
  Rsum (hc_n h) (fun i => / 2 * Rsum (gc_n (state_at h i)) (fun c => m_mass (weighted_frames h data i) c *
    Rsum (gc_dim (state_at h i)) (fun d => nth d (gc_reg (state_at h i)) 0 * ginv (comp_at (state_at k i) c) d d))).

(** What the floor of the densities adds; 0 if no density is below 1e-180. *)
Definition hmm_floor_part (h : hclass RA) (data : list (list (list R))) : R :=
  Rsum (hc_n h) (fun i => Rlsum (map (fun p => Rsum (gc_n (state_at h i)) (fun c =>
    fst p c * (ln (comp_lik (comp_at (state_at h i) c) (snd p)) - ln (comp_pdf (comp_at (state_at h i) c) (snd p))))) (weighted_frames h data i))).
Definition hmm_above_floor (h : hclass RA) (data : list (list (list R))) : Prop :=
  forall i, (i < hc_n h)%nat -> above_floor (state_at h i) (concat data).

(** Expected number of transitions from a state. *)
Definition leaves (h : hclass RA) (data : list (list (list R))) (i : nat) : R := Rsum (hc_n h) (moves h data i).
(** What the likelihood can lose by the transitions: from a state left [m] times and visited [v] times, [m]
    times the logarithm of [(v + 2e-5) / m] times the sum of the row. *)
Definition trans_part (h : hclass RA) (data : list (list (list R))) : R :=
  Rsum (hc_n h) (fun i => leaves h data i * (ln (visits h data i + 2 * reg5) + ln (Rsum (hc_n h) (hc_trans h i)) - ln (leaves h data i))).
Definition rows_at_most_one (h : hclass RA) : Prop := forall i, (i < hc_n h)%nat -> Rsum (hc_n h) (hc_trans h i) <= 1.
