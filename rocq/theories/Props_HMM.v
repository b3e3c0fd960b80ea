(** Properties of hidden Markov models (one class): C56-C62 and C75. *)
From Coq Require Import String List Bool Arith ZArith Reals Lra Lia.
From Verif Require Import Base Arith BaseFacts RFacts RComp Model_Ring Proofs_Ring Model_Gaussian Model_Config Model_KMeans Model_GMM Model_HMM
  Proofs_KMeans Proofs_GMM Spec_Common Spec_Matrix Spec_Gaussian Spec_GMM Spec_HMM
  Proofs_HMM Proofs_HMM2 Proofs_HMM3 Proofs_HMM4 Proofs_HMM5 Proofs_HMM6 Proofs_HMM7 Proofs_HMM8 Proofs_HMM9 Proofs_HMM10 Proofs_HMM11 Proofs_HMM12 Proofs_HMM13.
Import ListNotations.
Local Open Scope list_scope.
Local Open Scope R_scope.

(** ** A class and its training data, for the examples: bimodal, one input, one output. *)
Definition hx_new (t : tmode) (m : cmode) (e : restim) (n : nat) : hclass RA :=
  mkHC (A := RA) true 2 1 3 (mkHmmP (A := RA) n 1 (0 : R) (1 : R) m t e false) false (mkNet (A := RA) [] [] [] [])
    (mkRun (A := RA) [] [] [] [] false (ring_new (0 : num RA) 1 3) 0 0 0 0 0 0 0 0 0 [] []).
Definition hx_data : list (list (list R)) := [[[0; 1]; [1; 2]; [5; 3]; [6; 4]]; [[0; 1]; [6; 4]]].
Definition hx_devs : nat -> list R := fun _ => [1; 1].
Lemma hx_trainable : forall t m e n, (1 <= n <= 4)%nat -> hmm_trainable (hx_new t m e n) hx_devs [1; 1] hx_data.
Proof.
  intros t m e n Hn. unfold hmm_trainable, hc_n, hmm_dims, hmm_abs, phrases_of. cbn [hx_new hc_par hp_states hp_gauss hc_win hc_bim hc_dim hc_din hp_abs hp_mode length hx_devs hx_data].
  split; [lia|]. split; [lia|]. split; [lia|]. split; [lia|]. split; [destruct m; [unfold eps9|]; lra|]. split; [reflexivity|]. split; [reflexivity|]. split.
  - split; [discriminate|]. repeat (constructor; [split; [discriminate|repeat constructor]|]). constructor.
  - apply Exists_cons_hd. cbn. lia.
Qed.
(** Trained, then reset: ready for filtering. *)
Lemma hx_usable : forall t m e n, (1 <= n <= 4)%nat -> exists h h', hm_train (A := RA) (fun _ => 1%nat) hx_devs [1; 1] 0 hx_data (hx_new t m e n) = Ok h /\ hmm_ready h /\
  stochastic n t (h_trans (hc_net h)) /\ hmm_resettable h /\ hm_reset (A := RA) h = Ok h' /\ hmm_usable h' /\ hmm_fresh h' /\ frame_kept (hx_new t m e n) h /\
  hc_par h' = hc_par (hx_new t m e n) /\ hc_bim h' = true /\ hc_dim h' = 2%nat /\ hc_din h' = 1%nat.
Proof.
  intros t m e n Hn. destruct (train_ok (fun _ => 1%nat) hx_devs [1; 1] 0 hx_data _ (hx_trainable t m e n Hn)) as (h1 & h2 & _ & _ & _ & H & _). destruct (H I) as (h & E & R & S & K).
  pose proof K as (K1 & K2 & K3 & K4 & K5 & K6 & K7 & K8). pose proof R as (U & _ & _ & HA).
  assert (RS : hmm_resettable h). { split; [exact U|]. split; [rewrite K6; reflexivity|]. split; [rewrite K7; apply ring_new_wf|exact HA]. }
  destruct (reset_usable h RS) as (tr & ER & _ & _ & _ & UF). exists h. eexists. split; [exact E|]. split; [exact R|]. split; [exact S|]. split; [exact RS|]. split; [exact ER|]. destruct UF as (U' & F'). split; [exact U'|]. split; [exact F'|].
  split; [exact K|]. cbn. auto.
Qed.

(** C56 *)
Theorem C56_filtering : forall h, hmm_usable h -> hmm_fresh h -> forall xs, xs <> [] -> Forall (fun x => length x = hmm_obs_dim h) xs ->
  exists h', hm_filters (A := RA) xs h = Ok h' /\ length (h_alpha (hc_run h')) = hc_n h /\
    (forall i, (i < hc_n h)%nat -> nth i (h_alpha (hc_run h')) 0 = filtering (hc_n h) (hc_prior h) (hc_trans h) (hmm_liks h xs) i) /\
    distribution (hc_n h) (fun i => nth i (h_alpha (hc_run h')) 0) /\ hmm_same h h'.
Proof.
  intros h U F xs Hne D. destruct (filters_ok h U F xs D) as (h' & E & (S & M)). exists h'. split; [exact E|]. destruct xs as [|x xs]; [contradiction|]. destruct M as (_ & L & V & _).
  split; [exact L|]. split; [exact V|]. split; [|exact S]. pose proof (filtering_dist h U (x :: xs) Hne) as (D1 & D2). split.
  - intros i Hi. rewrite V by exact Hi. apply D1. exact Hi.
  - rewrite (Rsum_ext _ _ (hmm_filtering h (x :: xs))) by exact V. exact D2.
Qed.
Print Assumptions C56_filtering.
(** A class that has been trained and reset can be filtered. *)
Theorem C56_reset : forall h, hmm_resettable h -> exists h', hm_reset (A := RA) h = Ok h' /\ hmm_usable h' /\ hmm_fresh h' /\ h_states (hc_net h') = h_states (hc_net h) /\ h_prior (hc_net h') = h_prior (hc_net h).
Proof. intros h H. destruct (reset_usable h H) as (tr & E & _ & _ & _ & U & F). eexists. split; [exact E|]. split; [exact U|]. split; [exact F|]. split; reflexivity. Qed.
Print Assumptions C56_reset.
Example C56_meets : forall t (m : cmode), exists h, hmm_usable h /\ hmm_fresh h /\ hc_n h = 3%nat /\ hc_mode h = t /\ Forall (fun x => length x = hmm_obs_dim h) [[0]; [1]; [5]].
Proof.
  intros t m. destruct (hx_usable t m RFull 3 ltac:(lia)) as (h & h' & _ & _ & _ & _ & _ & U & F & _ & P & B & D & I). exists h'. split; [exact U|]. split; [exact F|]. unfold hc_n, hc_mode, hmm_obs_dim. rewrite P, B, I. repeat split. repeat constructor.
Qed.
Example C56_reset_meets : forall t (m : cmode), exists h, hmm_resettable h /\ hc_n h = 3%nat /\ hc_mode h = t.
Proof.
  intros t m. destruct (hx_usable t m RFull 3 ltac:(lia)) as (h & h' & _ & _ & _ & RS & _ & _ & _ & K & _). exists h. split; [exact RS|]. destruct K as (_ & _ & _ & _ & P & _). unfold hc_n, hc_mode. rewrite P. split; reflexivity.
Qed.

(** C57 *)
Theorem C57_product : forall h, hmm_usable h -> hmm_fresh h -> forall xs, xs <> [] -> Forall (fun x => length x = hmm_obs_dim h) xs ->
  exists l, hm_insts xs h = Ok l /\ length l = length xs /\
    Rprod l = Rlsum (map (path_weight (hc_prior h) (hc_trans h) (hmm_liks h xs)) (paths (hc_n h) (length xs))).
Proof.
  intros h U F xs Hne D. destruct (insts_ok h U F xs D) as (l & E & L & P). exists l. split; [exact E|]. split; [exact L|]. rewrite (P Hne). unfold seq_lik, hmm_liks. rewrite map_length. reflexivity.
Qed.
Print Assumptions C57_product.
(** The smoothed log-likelihood is the mean of the last logarithms, for a window of the length configured. *)
Theorem C57_smoothed : forall h, hmm_usable h -> hmm_fresh h -> forall xs x, Forall (fun x => length x = hmm_obs_dim h) (xs ++ [x]) ->
  exists h', hm_filters (A := RA) (xs ++ [x]) h = Ok h' /\ h_inst (hc_run h') = inst_lik (hc_n h) (hc_prior h) (hc_trans h) (hmm_liks h (xs ++ [x])) /\
    h_log (hc_run h') = window_mean (hc_win h) (hmm_logs h (xs ++ [x])).
Proof. intros h U F xs x D. destruct (filters_report h U F xs x D) as (h' & E & _ & EI & EL & _). exists h'. auto. Qed.
Print Assumptions C57_smoothed.
Example C57_meets : forall t (m : cmode), exists h, hmm_usable h /\ hmm_fresh h /\ hc_n h = 3%nat /\ hc_mode h = t /\ Forall (fun x => length x = hmm_obs_dim h) [[0]; [1]; [5]].
Proof. exact C56_meets. Qed.

(** C58 *)
Theorem C58_occupancies : forall h, hmm_ready h -> forall ph (alpha : list R), ph <> [] -> Forall (fun x => length x = hc_dim h) ph -> (hc_mode h = Ergodic -> length alpha = hc_n h) ->
  exists e al, hm_estep (A := RA) h alpha ph = Ok (e, al) /\ estep_exact h ph e /\
    (forall t, (t < length ph)%nat -> distribution (hc_n h) (fun i => nth i (nth t (es_gamma e) []) 0)) /\
    (forall t i, (t < length ph)%nat -> (i < hc_n h)%nat -> Rsum (hp_gauss (hc_par h)) (fun c => nth c (nth i (nth t (es_mix e) []) []) 0) = nth i (nth t (es_gamma e) []) 0) /\
    (forall t i, (S t < length ph)%nat -> (i < hc_n h)%nat -> nth i (nth t (es_gamma e) []) 0 =
      match hc_mode h with
      | Ergodic => Rsum (hc_n h) (fun j => nth (i * hc_n h + j) (nth t (es_eps e) []) 0)
      | LeftRight => nth (2 * i) (nth t (es_eps e) []) 0 + nth (2 * i + 1) (nth t (es_eps e) []) 0
      end).
Proof.
  intros h HR ph alpha Hne HF HA. destruct (hm_estep_ok h HR alpha ph Hne HF HA) as (e & al & E & X & _ & SP). exists e, al. split; [exact E|]. split; [exact X|]. pose proof X as (L1 & L2 & L3 & VG & VM & VE & _).
  split; [|split].
  - intros t Ht. destruct (VG t Ht) as (_ & V). split; [intros i Hi; rewrite V by exact Hi; apply (occ_nonneg h HR ph SP)|]. rewrite (Rsum_ext _ _ (occupancy h ph t)) by exact V. apply (occ_sum h ph SP t Ht).
  - intros t i Ht Hi. destruct (VG t Ht) as (_ & V). destruct (VM t Ht) as (_ & V'). destruct (V' i Hi) as (_ & V''). rewrite V by exact Hi. rewrite (Rsum_ext _ _ (occupancy_mix h ph t i)) by exact V''. apply (mix_sum h HR ph t i Hi).
  - intros t i Ht Hi. change (num RA) with R in *. destruct (VG t ltac:(lia)) as (_ & V). rewrite V by exact Hi. rewrite <- (occ2_sum h ph t i Ht). destruct (VE t ltac:(lia)) as (_ & W). destruct (hc_mode h) eqn:HM.
    + apply Rsum_ext. intros j Hj. rewrite W by assumption. reflexivity.
    + destruct (W i Hi) as (W1 & W2). rewrite W1, W2. apply lr_occ2; assumption.
Qed.
Print Assumptions C58_occupancies.
Example C58_meets : forall t (m : cmode), exists h, hmm_ready h /\ hc_n h = 3%nat /\ hc_mode h = t /\ Forall (fun x => length x = hc_dim h) [[0; 1]; [1; 2]; [5; 3]].
Proof.
  intros t m. destruct (hx_usable t m RFull 3 ltac:(lia)) as (h & h' & _ & R & _ & _ & _ & _ & _ & K & _). exists h. split; [exact R|]. destruct K as (_ & D & _ & _ & P & _). unfold hc_n, hc_mode. rewrite P, D. repeat split. repeat constructor.
Qed.

(** C59 *)
Theorem C59_leftright : forall iters devs dev k data h, hmm_trainable h devs dev data -> hc_mode h = LeftRight -> INR (length (concat data)) <= 10 ^ 90 ->
  exists h', hm_train (A := RA) iters devs dev k data h = Ok h' /\ stochastic (hc_n h) LeftRight (h_trans (hc_net h')) /\ no_jump (hc_n h) (h_trans (hc_net h')) /\ hmm_ready h' /\ frame_kept h h'.
Proof. intros iters devs dev k data h HT HM HB. destruct (train_lr iters devs dev k data h HT HM HB) as (h' & E & R & S & J & K). exists h'. auto. Qed.
Print Assumptions C59_leftright.
(** Any topology: initialisation succeeds, and training as long as row totals stay above 1e-100. *)
Theorem C59_rows : forall iters devs dev k data h, hmm_trainable h devs dev data ->
  exists h1 h2, hm_allocate (A := RA) h = Ok h1 /\ hm_init (A := RA) iters devs dev data h1 = Ok h2 /\ hmm_ready h2 /\
    (rows_kept k data h2 -> exists h', hm_train (A := RA) iters devs dev k data h = Ok h' /\ hmm_ready h' /\ stochastic (hc_n h) (hc_mode h) (h_trans (hc_net h'))).
Proof.
  intros iters devs dev k data h HT. destruct (train_ok iters devs dev k data h HT) as (h1 & h2 & E1 & E2 & R2 & H & _). exists h1, h2. split; [exact E1|]. split; [exact E2|]. split; [exact R2|].
  intro HK. destruct (H HK) as (h' & E & R & S & _). exists h'. auto.
Qed.
Print Assumptions C59_rows.
Example C59_meets : forall t m e n, (1 <= n <= 4)%nat -> hmm_trainable (hx_new t m e n) hx_devs [1; 1] hx_data /\ INR (length (concat hx_data)) <= 10 ^ 90 /\ hc_mode (hx_new t m e n) = t.
Proof.
  intros t m e n Hn. split; [apply hx_trainable; exact Hn|]. split; [|reflexivity]. cbn [hx_data concat app length INR]. apply Rle_trans with (10 ^ 1); [lra|]. apply Rle_pow; [lra|lia].
Qed.
(** Ergodic, with phrases of one frame: every transition is 0 after the update and 0/0 after normalisation. *)
Theorem C59_one_frame_refuted : forall iters devs dev data h, hmm_trainable h devs dev data -> hc_mode h = Ergodic -> Forall (fun ph : list (list R) => length ph = 1%nat) data ->
  exists h', hm_train (A := RA) iters devs dev 1 data h = Ok h' /\ (forall i j, (i < hc_n h)%nat -> (j < hc_n h)%nat -> trans_at (hc_n h) Ergodic (h_trans (hc_net h')) i j = 0 / 0) /\
    ~ stochastic (hc_n h) Ergodic (h_trans (hc_net h')).
Proof.
  intros iters devs dev data h HT HM HF. destruct (one_frame_train iters devs dev data h HT HM HF) as (h' & E & V). exists h'. split; [exact E|]. split; [exact V|]. intros (_ & _ & S). destruct HT as (HN & _).
  specialize (S 0%nat ltac:(lia)). rewrite (Rsum_zero _ (trans_at (hc_n h) Ergodic (h_trans (hc_net h')) 0)) in S; [lra|]. intros j Hj. rewrite V by lia. unfold Rdiv. ring.
Qed.
Print Assumptions C59_one_frame_refuted.
Example C59_one_frame_meets : forall m, hmm_trainable (hx_new Ergodic m RFull 1) hx_devs [1; 1] [[[0; 1]]; [[2; 3]]] /\ Forall (fun ph : list (list R) => length ph = 1%nat) [[[0; 1]]; [[2; 3]]].
Proof.
  intro m. split; [|repeat constructor]. unfold hmm_trainable, hc_n, hmm_dims, hmm_abs, phrases_of. cbn [hx_new hc_par hp_states hp_gauss hc_win hc_bim hc_dim hc_din hp_abs hp_mode length hx_devs].
  split; [lia|]. split; [lia|]. split; [lia|]. split; [lia|]. split; [destruct m; [unfold eps9|]; lra|]. split; [reflexivity|]. split; [reflexivity|]. split.
  - split; [discriminate|]. repeat (constructor; [split; [discriminate|repeat constructor]|]). constructor.
  - apply Exists_cons_hd. cbn. lia.
Qed.

(** C60 *)
(** In hierarchical mode [reset] changes no parameter (any arithmetic). *)
Theorem C60_hierarchical : forall (A : arith) (h : hclass A), hc_hier h = true -> exists h', hm_reset h = Ok h' /\ hc_net h' = hc_net h /\ hc_par h' = hc_par h /\
  h_started (hc_run h') = false /\ length (h_a0 (hc_run h')) = hc_n h /\ length (h_a1 (hc_run h')) = hc_n h /\ length (h_a2 (hc_run h')) = hc_n h.
Proof. intros A h H. unfold hm_reset. rewrite H. eexists. split; [reflexivity|]. cbn. rewrite !vresize_length. repeat split. Qed.
Print Assumptions C60_hierarchical.
Example C60_meets : exists h : hclass RA, hc_hier h = true /\ hc_n h = 3%nat.
Proof. exists (hc_set_hier (A := RA) true (hx_new LeftRight Full RFull 3)). split; reflexivity. Qed.
(** In non-hierarchical mode only one entry of the last row changes; that row of a trained model no longer sums to one. *)
Theorem C60_cyclic_refuted : forall h, hmm_resettable h -> (2 <= hc_n h)%nat -> stochastic (hc_n h) (hc_mode h) (h_trans (hc_net h)) ->
  exists h', hm_reset (A := RA) h = Ok h' /\ h_states (hc_net h') = h_states (hc_net h) /\ h_prior (hc_net h') = h_prior (hc_net h) /\
    (forall i, (i < hc_n h - 1)%nat -> Rsum (hc_n h) (trans_at (hc_n h) (hc_mode h) (h_trans (hc_net h')) i) = 1) /\
    Rsum (hc_n h) (trans_at (hc_n h) (hc_mode h) (h_trans (hc_net h')) (hc_n h - 1)) =
      1 + / 20 - trans_at (hc_n h) (hc_mode h) (h_trans (hc_net h)) (hc_n h - 1) 0 /\
    (hc_mode h = LeftRight -> no_jump (hc_n h) (h_trans (hc_net h)) -> ~ stochastic (hc_n h) (hc_mode h) (h_trans (hc_net h'))).
Proof.
  intros h HS HN (SL & SP & SR). destruct (reset_usable h HS) as (tr & E & _ & T1 & T2 & _). eexists. split; [exact E|]. cbn [hc_net hc_set_run hc_set_net nt_trans h_states h_prior h_trans]. split; [reflexivity|]. split; [reflexivity|].
  assert (HX : forall q, q <> match hc_mode h with Ergodic => ((hc_n h - 1) * hc_n h)%nat | LeftRight => ((hc_n h - 1) * 2 + 1)%nat end -> nth q tr 0 = nth q (h_trans (hc_net h)) 0) by (intros q Hq; apply T1; auto).
  specialize (T2 HN). clear T1 E. change (num RA) with R in *.
  assert (R1 : forall i, (i < hc_n h - 1)%nat -> Rsum (hc_n h) (trans_at (hc_n h) (hc_mode h) tr i) = 1).
  { intros i Hi. rewrite <- (SR i ltac:(lia)). destruct (hc_mode h).
    - apply Rsum_ext. intros j Hj. unfold trans_at. apply HX. assert ((i * hc_n h + j < (i + 1) * hc_n h)%nat) by lia. assert (((i + 1) * hc_n h <= (hc_n h - 1) * hc_n h)%nat) by (apply Nat.mul_le_mono_r; lia). lia.
    - rewrite !lr_row_sum by lia. rewrite !HX by lia. reflexivity. }
  assert (R2 : Rsum (hc_n h) (trans_at (hc_n h) (hc_mode h) tr (hc_n h - 1)) = 1 + / 20 - trans_at (hc_n h) (hc_mode h) (h_trans (hc_net h)) (hc_n h - 1) 0).
  { pose proof (SR (hc_n h - 1)%nat ltac:(lia)) as S1. destruct (hc_mode h).
    - unfold trans_at in *. rewrite (Rsum_ext _ _ (fun j => nth ((hc_n h - 1) * hc_n h + j) (h_trans (hc_net h)) 0 + (if Nat.eqb j 0 then / 20 - nth ((hc_n h - 1) * hc_n h) (h_trans (hc_net h)) 0 else 0))).
      + rewrite Rsum_plus. rewrite (Rsum_if (hc_n h) 0 (fun _ => / 20 - nth ((hc_n h - 1) * hc_n h) (h_trans (hc_net h)) 0)) by lia. change (num RA) with R in *. rewrite S1, Nat.add_0_r. lra.
      + intros j Hj. destruct (Nat.eqb_spec j 0) as [->|D]; [rewrite Nat.add_0_r, T2; change (num RA) with R in *; lra|]. rewrite HX by lia. change (num RA) with R in *. lra.
    - rewrite lr_row_sum in * by lia. change (num RA) with R in *. rewrite HX by lia. replace (2 * (hc_n h - 1) + 1)%nat with ((hc_n h - 1) * 2 + 1)%nat in * by lia. rewrite T2. unfold trans_at.
      destruct (Nat.eqb_spec 0 (hc_n h - 1)); [lia|]. replace (S (hc_n h - 1)) with (hc_n h) by lia. rewrite Nat.mod_same by lia. cbn [Nat.eqb]. replace (2 * (hc_n h - 1) + 1)%nat with ((hc_n h - 1) * 2 + 1)%nat by lia. lra. }
  split; [exact R1|]. split; [exact R2|]. intros HM NJ (_ & _ & S'). specialize (S' (hc_n h - 1)%nat ltac:(lia)). rewrite R2 in S'. rewrite HM in S'. unfold trans_at in S'. destruct (Nat.eqb_spec 0 (hc_n h - 1)); [lia|].
  replace (S (hc_n h - 1)) with (hc_n h) in S' by lia. rewrite Nat.mod_same in S' by lia. cbn [Nat.eqb] in S'. replace (2 * (hc_n h - 1) + 1)%nat with (2 * hc_n h - 1)%nat in S' by lia. unfold no_jump in NJ. change (num RA) with R in *. rewrite NJ in S'. lra.
Qed.
Print Assumptions C60_cyclic_refuted.
Example C60_cyclic_meets : forall t (m : cmode), exists h, hmm_resettable h /\ hc_n h = 3%nat /\ hc_mode h = t /\ stochastic (hc_n h) (hc_mode h) (h_trans (hc_net h)) /\ (t = LeftRight -> no_jump (hc_n h) (h_trans (hc_net h))).
Proof.
  intros t m. destruct (hx_usable t m RFull 3 ltac:(lia)) as (h & h' & _ & R & S & RS & _ & _ & _ & K & _). exists h. split; [exact RS|]. destruct K as (_ & _ & _ & _ & P & _). destruct R as (_ & _ & NJ & _). unfold hc_n, hc_mode in *. rewrite P in *. repeat split; try assumption; apply S.
Qed.

(** C61 *)
Theorem C61_progress : forall h, hmm_usable h -> hmm_fresh h -> forall xs x, Forall (fun x => length x = hmm_obs_dim h) (xs ++ [x]) ->
  exists h', hm_filters (A := RA) (xs ++ [x]) h = Ok h' /\ first_max (hc_n h) (fun i => nth i (h_alpha (hc_run h')) 0) (h_like (hc_run h')) /\
    h_prog (hc_run h') = mean_position (hc_n h) (h_like (hc_run h')) (fun i => nth i (h_alpha (hc_run h')) 0) /\ 0 <= h_prog (hc_run h') <= 1.
Proof.
  intros h U F xs x D. destruct (filters_report h U F xs x D) as (h' & E & (S & M) & _ & _ & (FM & PR & _)). exists h'. split; [exact E|].
  assert (V : forall i, (i < hc_n h)%nat -> nth i (h_alpha (hc_run h')) 0 = hmm_filtering h (xs ++ [x]) i) by (destruct xs; apply M).
  assert (V' : forall i, (i < hc_n h)%nat -> hmm_filtering h (xs ++ [x]) i = nth i (h_alpha (hc_run h')) 0) by (intros; symmetry; apply V; assumption).
  assert (FM' : first_max (hc_n h) (fun i => nth i (h_alpha (hc_run h')) 0) (h_like (hc_run h'))) by (revert FM; apply (first_max_ext h); exact V'). split; [exact FM'|].
  split; [|rewrite PR; apply position_range; [apply (filtering_dist h U); destruct xs; discriminate|apply U|exact FM]].
  rewrite PR. unfold mean_position. rewrite (window_mass_ext _ (h_like (hc_run h')) _ (fun i => nth i (h_alpha (hc_run h')) 0) V').
  rewrite (Rsum_ext (hc_n h) (fun i => if in_window (hc_n h) (h_like (hc_run h')) i then hmm_filtering h (xs ++ [x]) i * INR i else 0) (fun i => if in_window (hc_n h) (h_like (hc_run h')) i then nth i (h_alpha (hc_run h')) 0 * INR i else 0)); [reflexivity|].
  intros i Hi. rewrite V by exact Hi. reflexivity.
Qed.
Print Assumptions C61_progress.
Example C61_meets : forall t (m : cmode), exists h, hmm_usable h /\ hmm_fresh h /\ hc_n h = 3%nat /\ hc_mode h = t /\ Forall (fun x => length x = hmm_obs_dim h) ([[0]; [1]] ++ [[5]]).
Proof. exact C56_meets. Qed.

(** C62 *)
Theorem C62_windowed : forall h, hmm_usable h -> hmm_fresh h -> hc_bim h = true -> hp_est (hc_par h) = RWindowed -> (2 <= hc_n h)%nat ->
  forall xs x, Forall (fun x => length x = hmm_obs_dim h) (xs ++ [x]) ->
  exists h' v, hm_filters (A := RA) (xs ++ [x]) h = Ok h' /\
    first_max (hc_n h) (fun i => nth i (h_alpha (hc_run h')) 0) (h_like (hc_run h')) /\ distribution (hc_n h) v /\ 0 < v (h_like (hc_run h')) /\
    (forall i, (i + hc_n h / 2 < h_like (hc_run h') \/ h_like (hc_run h') + hc_n h / 2 <= i)%nat -> v i = 0) /\
    length (h_out (hc_run h')) = (hc_dim h - hc_din h)%nat /\
    forall d, (d < hc_dim h - hc_din h)%nat -> nth d (h_out (hc_run h')) 0 = Rsum (hc_n h) (fun i => v i * class_out (state_at h i) x d).
Proof.
  intros h U F HB HE HN xs x D. destruct (filters_report h U F xs x D) as (h' & E & (S & M) & _ & _ & (FM & PR & RO)). destruct (RO HB) as (LO & _ & VO).
  set (w := hmm_filtering h (xs ++ [x])) in *. assert (V : forall i, (i < hc_n h)%nat -> w i = nth i (h_alpha (hc_run h')) 0) by (intros; symmetry; destruct xs; apply M; assumption).
  assert (DW : distribution (hc_n h) w) by (apply (filtering_dist h U); destruct xs; discriminate).
  destruct (window_weights (hc_n h) (h_like (hc_run h')) w HN DW FM) as (D1 & D2 & D3).
  exists h', (fun i => if in_window (hc_n h) (h_like (hc_run h')) i then w i / window_mass (hc_n h) (h_like (hc_run h')) w else 0). split; [exact E|].
  split; [revert FM; apply (first_max_ext h); exact V|]. split; [exact D1|]. split; [exact D2|]. split; [exact D3|]. split; [exact LO|]. intros d Hd. rewrite (VO d Hd). unfold hmm_output. rewrite HE. apply Rsum_ext. intros i Hi.
  destruct (in_window (hc_n h) (h_like (hc_run h')) i); lra.
Qed.
Print Assumptions C62_windowed.
(** The other estimators. *)
Theorem C62_other : forall h, hmm_usable h -> hmm_fresh h -> hc_bim h = true -> forall xs x, Forall (fun x => length x = hmm_obs_dim h) (xs ++ [x]) ->
  exists h', hm_filters (A := RA) (xs ++ [x]) h = Ok h' /\ forall d, (d < hc_dim h - hc_din h)%nat ->
    (hp_est (hc_par h) = RFull -> nth d (h_out (hc_run h')) 0 = Rsum (hc_n h) (fun i => filtering (hc_n h) (hc_prior h) (hc_trans h) (hmm_liks h (xs ++ [x])) i * class_out (state_at h i) x d)) /\
    (hp_est (hc_par h) = RLikeliest -> nth d (h_out (hc_run h')) 0 = class_out (state_at h (h_like (hc_run h'))) x d).
Proof.
  intros h U F HB xs x D. destruct (filters_report h U F xs x D) as (h' & E & _ & _ & _ & (_ & _ & RO)). destruct (RO HB) as (_ & _ & VO). exists h'. split; [exact E|]. intros d Hd. rewrite (VO d Hd). unfold hmm_output. split; intros ->; reflexivity.
Qed.
Print Assumptions C62_other.
(** One state: the window is empty and every output is 0. *)
Theorem C62_one_state_refuted : forall h, hmm_usable h -> hmm_fresh h -> hc_bim h = true -> hp_est (hc_par h) = RWindowed -> hc_n h = 1%nat ->
  forall xs x, Forall (fun x => length x = hmm_obs_dim h) (xs ++ [x]) ->
  exists h', hm_filters (A := RA) (xs ++ [x]) h = Ok h' /\ length (h_out (hc_run h')) = (hc_dim h - hc_din h)%nat /\ forall d, (d < hc_dim h - hc_din h)%nat -> nth d (h_out (hc_run h')) 0 = 0.
Proof.
  intros h U F HB HE HN xs x D. destruct (filters_report h U F xs x D) as (h' & E & _ & _ & _ & (FM & _ & RO)). destruct (RO HB) as (LO & _ & VO). exists h'. split; [exact E|]. split; [exact LO|]. intros d Hd. rewrite (VO d Hd). unfold hmm_output. rewrite HE, HN in *.
  apply Rsum_zero. intros i Hi. destruct FM as (Hl & _). replace i with 0%nat by lia. replace (h_like (hc_run h')) with 0%nat by lia. unfold in_window. cbn. reflexivity.
Qed.
Print Assumptions C62_one_state_refuted.
Example C62_meets : forall t (m : cmode) e n, (1 <= n <= 4)%nat -> exists h, hmm_usable h /\ hmm_fresh h /\ hc_bim h = true /\ hp_est (hc_par h) = e /\ hc_n h = n /\ hc_mode h = t /\ Forall (fun x => length x = hmm_obs_dim h) ([[0]; [1]] ++ [[5]]).
Proof.
  intros t m e n Hn. destruct (hx_usable t m e n Hn) as (h & h' & _ & _ & _ & _ & _ & U & F & _ & P & B & D & I). exists h'. split; [exact U|]. split; [exact F|]. unfold hc_n, hc_mode, hmm_obs_dim. rewrite P, B, I. repeat split. repeat constructor.
Qed.

(** C75 *)
Theorem C75_update : forall h data, hmm_ready h -> phrases_of h data ->
  exists h' lp, hm_update (A := RA) data h = Ok (h', lp) /\ lp = Rlsum (map (fun ph => ln (seq_lik (hc_n h) (hc_prior h) (hc_trans h) (frame_liks h ph))) data) /\ hmm_reestimated h data h'.
Proof. intros h data HR HD. destruct (update_ok h data HR HD) as (h' & E & RE & _). eexists. eexists. split; [exact E|]. split; [reflexivity|exact RE]. Qed.
Print Assumptions C75_update.
(** A left-right class stays ready: any number of updates can follow. *)
Theorem C75_updates : forall k h data, hmm_ready h -> phrases_of h data -> hc_mode h = LeftRight -> INR (length (concat data)) <= 10 ^ 90 ->
  exists h', hm_updates (A := RA) k data h = Ok h' /\ hmm_ready h' /\ hmm_kept h h'.
Proof. exact lr_updates. Qed.
Print Assumptions C75_updates.
Example C75_meets : forall t (m : cmode), exists h, hmm_ready h /\ hc_n h = 3%nat /\ hc_mode h = t /\ phrases_of h hx_data /\ INR (length (concat hx_data)) <= 10 ^ 90.
Proof.
  intros t m. destruct (hx_usable t m RFull 3 ltac:(lia)) as (h & h' & _ & R & _ & _ & _ & _ & _ & K & _). exists h. split; [exact R|]. destruct K as (_ & D & _ & _ & P & _). unfold hc_n, hc_mode, phrases_of. rewrite P, D. split; [reflexivity|]. split; [reflexivity|].
  split; [|apply (C59_meets t m RFull 3 ltac:(lia))]. split; [discriminate|]. repeat (constructor; [split; [discriminate|repeat constructor]|]). constructor.
Qed.
