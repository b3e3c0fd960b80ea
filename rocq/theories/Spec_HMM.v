(** Specification vocabulary for hidden Markov models, over the reals. *)
From Coq Require Import String List Bool Arith Reals.
From Verif Require Import Base Arith RFacts Model_Gaussian Model_Config Model_Ring Model_KMeans Model_GMM Model_HMM
  Spec_Common Spec_Matrix Spec_Gaussian Spec_GMM.
Import ListNotations.
Local Open Scope list_scope.
Local Open Scope R_scope.

(** ** Hidden Markov models as sums over state sequences.
    [pi i]: probability of starting in state [i]; [a i j]: of going from [i] to [j]; a list of functions
    gives the likelihoods of the successive observations for every state. *)

(** All the sequences of [k] states. *)
Fixpoint paths (N k : nat) : list (list nat) :=
  match k with
  | O => [[]]
  | S k => flat_map (fun j => map (cons j) (paths N k)) (seq 0 N)
  end.

(** Weight of going through the states [p] with the observations [bs] after state [i]. *)
Fixpoint walk (a : nat -> nat -> R) (i : nat) (bs : list (nat -> R)) (p : list nat) : R :=
  match bs, p with
  | [], [] => 1
  | b :: bs, j :: p => a i j * b j * walk a j bs p
  | _, _ => 0
  end.
(** Weight of a whole state sequence. *)
Definition path_weight (pi : nat -> R) (a : nat -> nat -> R) (bs : list (nat -> R)) (p : list nat) : R :=
  match bs, p with
  | b :: bs, j :: p => pi j * b j * walk a j bs p
  | _, _ => 0
  end.

(** Likelihood of the observations: the sum over all the state sequences. *)
Definition seq_lik (N : nat) (pi : nat -> R) (a : nat -> nat -> R) (bs : list (nat -> R)) : R :=
  Rlsum (map (path_weight pi a bs) (paths N (length bs))).
(** Sums over the state sequences that are in state [j] at position [t] (and in [k] at the next one). *)
Definition at_lik (N : nat) (pi : nat -> R) (a : nat -> nat -> R) (bs : list (nat -> R)) (t j : nat) : R :=
  Rlsum (map (fun p => if Nat.eqb (nth t p N) j then path_weight pi a bs p else 0) (paths N (length bs))).
Definition at_lik2 (N : nat) (pi : nat -> R) (a : nat -> nat -> R) (bs : list (nat -> R)) (t j k : nat) : R :=
  Rlsum (map (fun p => if Nat.eqb (nth t p N) j && Nat.eqb (nth (S t) p N) k then path_weight pi a bs p else 0) (paths N (length bs))).
(** Filtering distribution: posterior of the last state. *)
Definition filtering (N : nat) (pi : nat -> R) (a : nat -> nat -> R) (bs : list (nat -> R)) (j : nat) : R :=
  at_lik N pi a bs (length bs - 1) j / seq_lik N pi a bs.

(** ** Parameters of the code *)
(** The transition from [i] to [j]: entry [i * N + j] of an ergodic model; in a left-right model [2 i] to the
    same state and [2 i + 1] to the next one, which is the first for the last state. *)
Definition trans_at (N : nat) (mode : tmode) (tr : list R) (i j : nat) : R :=
  match mode with
  | Ergodic => nth (i * N + j) tr 0
  | LeftRight => (if Nat.eqb j i then nth (2 * i) tr 0 else 0) + (if Nat.eqb j (S i mod N) then nth (2 * i + 1) tr 0 else 0)
  end.
Definition prior_at (mode : tmode) (pr : list R) (i : nat) : R :=
  match mode with
  | Ergodic => nth i pr 0
  | LeftRight => if Nat.eqb i 0 then 1 else 0
  end.
Definition trans_size (N : nat) (mode : tmode) : nat := match mode with Ergodic => N * N | LeftRight => 2 * N end.

(** Non-negative transitions, with rows that do not vanish. *)
Definition min_row : R := / 10 ^ 100.
Definition trans_usable (N : nat) (mode : tmode) (tr : list R) : Prop :=
  length tr = trans_size N mode /\ (forall q, 0 <= nth q tr 0) /\
  (forall i, (i < N)%nat -> min_row <= Rsum N (trans_at N mode tr i)).
(** Rows that sum to one. *)
Definition stochastic (N : nat) (mode : tmode) (tr : list R) : Prop :=
  length tr = trans_size N mode /\ (forall q, 0 <= nth q tr 0) /\
  (forall i, (i < N)%nat -> Rsum N (trans_at N mode tr i) = 1).
(** Only transitions to the same and to the next state, and none out of the last one. *)
Definition no_jump (N : nat) (tr : list R) : Prop := nth (2 * N - 1) tr 0 = 0.

(** ** The class *)
Definition no_state : gclass RA := snd no_class.
Definition state_at (h : hclass RA) (i : nat) : gclass RA := nth i (h_states (hc_net h)) no_state.
Definition hc_prior (h : hclass RA) : nat -> R := prior_at (hc_mode h) (h_prior (hc_net h)).
Definition hc_trans (h : hclass RA) : nat -> nat -> R := trans_at (hc_n h) (hc_mode h) (h_trans (hc_net h)).

(** A likelihood buffer that can be pushed. *)
Definition has_window (r : ring R) : Prop := exists L vs, (1 <= L)%nat /\ window_of L vs r.

(** A trained state with the dimensions of its class. *)
Definition state_usable (h : hclass RA) (g : gclass RA) : Prop :=
  gm_ready g /\ gc_bim g = hc_bim h /\ gc_dim g = hc_dim h /\ gc_din g = hc_din h /\
  gc_n g = hp_gauss (hc_par h) /\ gc_mode g = hp_mode (hc_par h) /\ has_window (gc_buf g).

(** A class that can be filtered. *)
Definition hmm_usable (h : hclass RA) : Prop :=
  (1 <= hc_n h)%nat /\ length (h_states (hc_net h)) = hc_n h /\ Forall (state_usable h) (h_states (hc_net h)) /\
  trans_usable (hc_n h) (hc_mode h) (h_trans (hc_net h)) /\
  (hc_mode h = Ergodic -> length (h_prior (hc_net h)) = hc_n h /\ distribution (hc_n h) (fun i => nth i (h_prior (hc_net h)) 0)) /\
  (1 <= hc_win h)%nat.
(** Before the first observation, in non-hierarchical mode. *)
Definition hmm_fresh (h : hclass RA) : Prop :=
  hc_hier h = false /\ h_started (hc_run h) = false /\ ring_wf 1 (h_buf (hc_run h)) /\ r_length (h_buf (hc_run h)) = hc_win h /\
  (hc_mode h = Ergodic -> length (h_alpha (hc_run h)) = hc_n h).

Definition hmm_obs_dim (h : hclass RA) : nat := if hc_bim h then hc_din h else hc_dim h.
(** The likelihoods of the observations for the states. *)
Definition hmm_liks (h : hclass RA) (xs : list (list R)) : list (nat -> R) := map (fun x i => mix_lik (state_at h i) x) xs.

(** The likelihood of the last observation given those before it. *)
Definition inst_lik (N : nat) (pi : nat -> R) (a : nat -> nat -> R) (bs : list (nat -> R)) : R :=
  match bs with
  | [b] => seq_lik N pi a bs
  | _ => seq_lik N pi a bs / seq_lik N pi a (removelast bs)
  end.
(** Their logarithms, for every prefix of the sequence. *)
Definition inst_logs (N : nat) (pi : nat -> R) (a : nat -> nat -> R) (bs : list (nat -> R)) : list R :=
  map (fun t => ln (inst_lik N pi a (firstn (S t) bs))) (seq 0 (length bs)).

(** Everything but what regression changes is the same. *)
Definition state_kept (g g' : gclass RA) : Prop :=
  gc_bim g' = gc_bim g /\ gc_dim g' = gc_dim g /\ gc_din g' = gc_din g /\ gc_par g' = gc_par g /\
  gc_coef g' = gc_coef g /\ gc_comp g' = gc_comp g /\ gc_reg g' = gc_reg g /\ length (gc_beta g') = length (gc_beta g) /\ has_window (gc_buf g').

(** [h'] is the class [h] after some filtering: same parameters. *)
Definition hmm_same (h h' : hclass RA) : Prop :=
  hc_bim h' = hc_bim h /\ hc_dim h' = hc_dim h /\ hc_din h' = hc_din h /\ hc_win h' = hc_win h /\ hc_par h' = hc_par h /\ hc_hier h' = hc_hier h /\
  h_prior (hc_net h') = h_prior (hc_net h) /\ h_trans (hc_net h') = h_trans (hc_net h) /\ h_exit (hc_net h') = h_exit (hc_net h) /\
  Forall2 state_kept (h_states (hc_net h)) (h_states (hc_net h')).

(** The states at most half the number of states away from state [l], the last one excluded. *)
Definition in_window (N l i : nat) : bool := (l <=? i + N / 2)%nat && (i <? l + N / 2)%nat.
Definition window_mass (N l : nat) (w : nat -> R) : R := Rsum N (fun i => if in_window N l i then w i else 0).
(** Mean position in the window, on a scale from 0 to 1. *)
Definition mean_position (N l : nat) (w : nat -> R) : R :=
  Rsum N (fun i => if in_window N l i then w i * INR i else 0) / window_mass N l w / INR (Nat.max 1 (N - 1)).

(** What is expected after the last observation [x]; [w] are the state probabilities. *)
Definition hmm_output (h : hclass RA) (w : nat -> R) (l : nat) (x : list R) (d : nat) : R :=
  match hp_est (hc_par h) with
  | RFull => Rsum (hc_n h) (fun i => w i * class_out (state_at h i) x d)
  | RWindowed => Rsum (hc_n h) (fun i => if in_window (hc_n h) l i then w i / window_mass (hc_n h) l w * class_out (state_at h i) x d else 0)
  | RLikeliest => class_out (state_at h l) x d
  end.
Definition hmm_report (h : hclass RA) (w : nat -> R) (x : list R) (h' : hclass RA) : Prop :=
  first_max (hc_n h) w (h_like (hc_run h')) /\
  h_prog (hc_run h') = mean_position (hc_n h) (h_like (hc_run h')) w /\
  (hc_bim h = true -> length (h_out (hc_run h')) = (hc_dim h - hc_din h)%nat /\ length (h_ocov (hc_run h')) = csize (hp_mode (hc_par h)) (hc_dim h - hc_din h) /\
    forall d, (d < hc_dim h - hc_din h)%nat -> nth d (h_out (hc_run h')) 0 = hmm_output h w (h_like (hc_run h')) x d).

(** The state probabilities after the observations [xs]. *)
Definition hmm_filtering (h : hclass RA) (xs : list (list R)) : nat -> R := filtering (hc_n h) (hc_prior h) (hc_trans h) (hmm_liks h xs).
Definition hmm_inst (h : hclass RA) (xs : list (list R)) : R := inst_lik (hc_n h) (hc_prior h) (hc_trans h) (hmm_liks h xs).

(** The instantaneous likelihoods reported while filtering a sequence. *)
Fixpoint hm_insts (xs : list (list R)) (h : hclass RA) : res (list R) :=
  match xs with
  | [] => Ok []
  | x :: xs => let* h := hm_filter (A := RA) x h in let* l := hm_insts xs h in Ok (h_inst (hc_run h) :: l)
  end.
Definition Rprod (l : list R) : R := fold_right Rmult 1 l.
Definition hmm_logs (h : hclass RA) (xs : list (list R)) : list R := inst_logs (hc_n h) (hc_prior h) (hc_trans h) (hmm_liks h xs).
(** What a non-hierarchical class needs before [reset]. *)
Definition hmm_resettable (h : hclass RA) : Prop :=
  hmm_usable h /\ hc_hier h = false /\ ring_wf 1 (h_buf (hc_run h)) /\ (hc_mode h = Ergodic -> length (h_alpha (hc_run h)) = hc_n h).

(** ** Training *)
(** The likelihood of a training frame (input and output) for a state. *)
Definition frame_lik (g : gclass RA) (x : list R) : R := Rsum (gc_n g) (fun c => weight g c * comp_lik (comp_at g c) x).
Definition frame_liks (h : hclass RA) (ph : list (list R)) : list (nat -> R) := map (fun x i => frame_lik (state_at h i) x) ph.
(** The posterior of a state, and of two successive states, in a training phrase; [occupancy_mix] is the part
    of a component. *)
Definition occupancy (h : hclass RA) (ph : list (list R)) (t i : nat) : R :=
  at_lik (hc_n h) (hc_prior h) (hc_trans h) (frame_liks h ph) t i / seq_lik (hc_n h) (hc_prior h) (hc_trans h) (frame_liks h ph).
Definition occupancy2 (h : hclass RA) (ph : list (list R)) (t i j : nat) : R :=
  at_lik2 (hc_n h) (hc_prior h) (hc_trans h) (frame_liks h ph) t i j / seq_lik (hc_n h) (hc_prior h) (hc_trans h) (frame_liks h ph).
Definition occupancy_mix (h : hclass RA) (ph : list (list R)) (t i c : nat) : R :=
  occupancy h ph t i * (weight (state_at h i) c * comp_lik (comp_at (state_at h i) c) (nth t ph []) / frame_lik (state_at h i) (nth t ph [])).

(** A class that training can start from or continue with. *)
Definition hmm_ready (h : hclass RA) : Prop :=
  hmm_usable h /\ Forall strong_reg (h_states (hc_net h)) /\ (hc_mode h = LeftRight -> no_jump (hc_n h) (h_trans (hc_net h))) /\
  (hc_mode h = Ergodic -> length (h_alpha (hc_run h)) = hc_n h).

(** The variables of one phrase are the posteriors of the model. *)
Definition estep_exact (h : hclass RA) (ph : list (list R)) (e : estep RA) : Prop :=
  length (es_gamma e) = length ph /\ length (es_mix e) = length ph /\ length (es_eps e) = (length ph - 1)%nat /\
  (forall t, (t < length ph)%nat -> length (nth t (es_gamma e) []) = hc_n h /\ forall i, (i < hc_n h)%nat -> nth i (nth t (es_gamma e) []) 0 = occupancy h ph t i) /\
  (forall t, (t < length ph)%nat -> length (nth t (es_mix e) []) = hc_n h /\ forall i, (i < hc_n h)%nat ->
     length (nth i (nth t (es_mix e) []) []) = hp_gauss (hc_par h) /\ forall c, (c < hp_gauss (hc_par h))%nat -> nth c (nth i (nth t (es_mix e) []) []) 0 = occupancy_mix h ph t i c) /\
  (forall t, (t < length ph - 1)%nat -> length (nth t (es_eps e) []) = trans_size (hc_n h) (hc_mode h) /\
     match hc_mode h with
     | Ergodic => forall i j, (i < hc_n h)%nat -> (j < hc_n h)%nat -> nth (i * hc_n h + j) (nth t (es_eps e) []) 0 = occupancy2 h ph t i j
     | LeftRight => forall i, (i < hc_n h)%nat -> nth (2 * i) (nth t (es_eps e) []) 0 = occupancy2 h ph t i i /\
         nth (2 * i + 1) (nth t (es_eps e) []) 0 = (if (i <? hc_n h - 1)%nat then occupancy2 h ph t i (i + 1) else 0)
     end) /\
  es_lp e = ln (seq_lik (hc_n h) (hc_prior h) (hc_trans h) (frame_liks h ph)).

(** A quotient that is 0 when the denominator is 0. *)
Definition ratio (x y : R) : R := if Req_EM_T y 0 then 0 else x / y.
(** Every training frame of the class with the weights of the components of state [i]. *)
Definition weighted_frames (h : hclass RA) (data : list (list (list R))) (i : nat) : list ((nat -> R) * list R) :=
  flat_map (fun ph => map (fun t => (occupancy_mix h ph t i, nth t ph [])) (seq 0 (length ph))) data.
Section Moments.
  Variable L : list ((nat -> R) * list R).
  Definition m_mass (c : nat) : R := Rlsum (map (fun p => fst p c) L).
  Definition m_mean (c d : nat) : R := ratio (Rlsum (map (fun p => fst p c * nth d (snd p) 0) L)) (m_mass c).
  Definition m_cov (c d1 d2 : nat) : R :=
    ratio (Rlsum (map (fun p => fst p c * (nth d1 (snd p) 0 - m_mean c d1) * (nth d2 (snd p) 0 - m_mean c d2)) L)) (m_mass c).
  (** The covariance expected, with the regularisation [reg]. *)
  Definition m_newcov (mode : cmode) (reg : list R) (c d1 d2 : nat) : R :=
    if Nat.eqb d1 d2 then m_cov c d1 d1 + nth d1 reg 0 else match mode with Full => m_cov c d1 d2 | Diagonal => 0 end.
End Moments.

(** The state [g'] re-estimated from the state [g] and weighted frames [L]. *)
Definition state_moments (L : list ((nat -> R) * list R)) (g g' : gclass RA) : Prop :=
  same_class g g' /\
  (forall c, (c < gc_n g)%nat -> 0 < Rsum (gc_n g) (m_mass L) -> weight g' c = m_mass L c / Rsum (gc_n g) (m_mass L)) /\
  (forall c, (c < gc_n g)%nat -> forall d, (d < gc_dim g)%nat -> gmean (comp_at g' c) d = m_mean L c d) /\
  (forall c, (c < gc_n g)%nat -> forall i j, (i < gc_dim g)%nat -> (j < gc_dim g)%nat -> gcov (comp_at g' c) i j = m_newcov L (gc_mode g) (gc_reg g) c i j).

(** Expected numbers of visits and of transitions in the training phrases. *)
Definition visits (h : hclass RA) (data : list (list (list R))) (i : nat) : R :=
  Rlsum (map (fun ph => Rsum (length ph) (fun t => occupancy h ph t i)) data).
Definition moves (h : hclass RA) (data : list (list (list R))) (i j : nat) : R :=
  Rlsum (map (fun ph => Rsum (length ph - 1) (fun t => occupancy2 h ph t i j)) data).
(** The transitions re-estimated: [1e-5] per phrase is added to the entries of a left-right model, and twice
    [1e-5] to the denominator. *)
Definition reg5 : R := / 10 ^ 5.
Definition new_trans (h : hclass RA) (data : list (list (list R))) (i j : nat) : R :=
  match hc_mode h with
  | Ergodic => moves h data i j / (visits h data i + 2 * reg5)
  | LeftRight =>
      if Nat.eqb j i then (moves h data i i + INR (length data) * (if (i <? hc_n h - 1)%nat then reg5 else 2 * reg5)) / (visits h data i + 2 * reg5)
      else if Nat.eqb j (S i) then (moves h data i (S i) + INR (length data) * reg5) / (visits h data i + 2 * reg5)
      else 0
  end.
Definition new_prior (h : hclass RA) (data : list (list (list R))) (i : nat) : R :=
  Rlsum (map (fun ph => occupancy h ph 0 i) data) / INR (length data).

(** Training phrases of the class: not empty, with frames of its dimension. *)
Definition phrases_of (h : hclass RA) (data : list (list (list R))) : Prop :=
  data <> [] /\ Forall (fun ph => ph <> [] /\ Forall (fun x => length x = hc_dim h) ph) data.

(** Everything but states, prior, transitions and [alpha] is the same. *)
Definition hmm_kept (h h' : hclass RA) : Prop :=
  hc_bim h' = hc_bim h /\ hc_dim h' = hc_dim h /\ hc_din h' = hc_din h /\ hc_win h' = hc_win h /\ hc_par h' = hc_par h /\
  h_exit (hc_net h') = h_exit (hc_net h) /\
  hc_hier h' = hc_hier h /\ h_buf (hc_run h') = h_buf (hc_run h) /\ h_started (hc_run h') = h_started (hc_run h).

(** The class after one Baum-Welch update. *)
Definition hmm_reestimated (h : hclass RA) (data : list (list (list R))) (h' : hclass RA) : Prop :=
  hmm_kept h h' /\ length (h_states (hc_net h')) = hc_n h /\
  (forall i, (i < hc_n h)%nat -> state_moments (weighted_frames h data i) (state_at h i) (state_at h' i) /\
     gm_ready (state_at h' i)) /\
  length (h_trans (hc_net h')) = trans_size (hc_n h) (hc_mode h) /\
  (forall i j, (i < hc_n h)%nat -> (j < hc_n h)%nat -> trans_at (hc_n h) (hc_mode h) (h_trans (hc_net h')) i j = new_trans h data i j) /\
  (hc_mode h = LeftRight -> no_jump (hc_n h) (h_trans (hc_net h')) /\ h_prior (hc_net h') = h_prior (hc_net h)) /\
  (hc_mode h = Ergodic -> length (h_prior (hc_net h')) = hc_n h /\ forall i, (i < hc_n h)%nat -> nth i (h_prior (hc_net h')) 0 = new_prior h data i).

(** A class that can be trained: sizes, regularisation, and at least one phrase with enough frames for every
    component of every state. *)
Definition hmm_dims (h : hclass RA) : Prop :=
  if hc_bim h then (2 <= hc_dim h)%nat /\ (hc_din h < hc_dim h)%nat else (1 <= hc_dim h)%nat /\ hc_din h = 0%nat.
Definition hmm_abs (h : hclass RA) : Prop := match hp_mode (hc_par h) with Full => eps9 <= hp_abs (hc_par h) | Diagonal => 0 < hp_abs (hc_par h) end.
Definition hmm_trainable (h : hclass RA) (devs : nat -> list R) (dev : list R) (data : list (list (list R))) : Prop :=
  (1 <= hc_n h)%nat /\ (1 <= hp_gauss (hc_par h))%nat /\ (1 <= hc_win h)%nat /\ hmm_dims h /\ hmm_abs h /\
  length dev = hc_dim h /\ (forall s, (s < hc_n h)%nat -> length (devs s) = hc_dim h) /\
  phrases_of h data /\ Exists (fun ph => (hc_n h * hp_gauss (hc_par h) <= length ph)%nat) data.

(** Row totals of the transitions do not vanish during [k] updates. *)
Fixpoint rows_kept (k : nat) (data : list (list (list R))) (h : hclass RA) : Prop :=
  match k with
  | O => True
  | S k => (forall i, (i < hc_n h)%nat -> min_row <= Rsum (hc_n h) (new_trans h data i)) /\
      forall h' lp, hm_update (A := RA) data h = Ok (h', lp) -> rows_kept k data h'
  end.

(** Training keeps everything but the parameters learnt and [alpha]. *)
Definition frame_kept (h h' : hclass RA) : Prop :=
  hc_bim h' = hc_bim h /\ hc_dim h' = hc_dim h /\ hc_din h' = hc_din h /\ hc_win h' = hc_win h /\ hc_par h' = hc_par h /\
  hc_hier h' = hc_hier h /\ h_buf (hc_run h') = h_buf (hc_run h) /\ h_started (hc_run h') = h_started (hc_run h).
