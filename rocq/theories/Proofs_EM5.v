(** One Baum-Welch update: states, prior and transitions. *)
From Coq Require Import String List Bool Arith Lia Reals Lra.
From Verif Require Import Base BaseFacts Arith RFacts Model_Gaussian Model_Config Model_GMM Model_HMM Spec_Common Spec_Matrix Spec_Det Spec_Gaussian Spec_GMM Spec_HMM Spec_EM Spec_EM2
  Proofs_Gaussian Proofs_GMM Proofs_HMM Proofs_HMM2 Proofs_HMM3 Proofs_HMM4 Proofs_HMM5 Proofs_HMM6 Proofs_HMM7 Proofs_HMM8 Proofs_HMM9 Proofs_HMM10 Proofs_PD Proofs_EM Proofs_EM2 Proofs_EM4.
Import ListNotations.
Local Open Scope list_scope.
Local Open Scope R_scope.

(** ** A state *)
Lemma moments_regularised : forall L (g g' : gclass RA), gm_shape g -> Forall (fun p : (nat -> R) * list R => length (snd p) = gc_dim g /\ forall c, (c < gc_n g)%nat -> 0 <= fst p c) L ->
  (forall c, (c < gc_n g)%nat -> 0 < m_mass L c) -> state_moments L g g' -> regularised g'.
Proof.
  intros L g g' Hs HL MP (SC & W & M & V) c Hc. destruct SC as (_ & ED & _ & _ & EP & _ & ER & _).
  assert (EN : gc_n g' = gc_n g) by (unfold gc_n; rewrite EP; reflexivity). assert (EM : gc_mode g' = gc_mode g) by (unfold gc_mode; rewrite EP; reflexivity).
  rewrite EN in Hc. rewrite ED, EM, ER. split.
  - assert (P : 0 < Rsum (gc_n g) (m_mass L)) by (apply Rsum_pos; [destruct Hs; lia|exact MP]). rewrite (W c Hc P). apply Rdiv_lt_0_compat; [apply MP, Hc|exact P].
  - exists (m_cov L c). split; [|split].
    + intros i j _ _. apply m_cov_sym.
    + intro x. apply m_cov_psd; assumption.
    + intros i j Hi Hj. rewrite (V c Hc i j Hi Hj). unfold m_newcov. destruct (Nat.eqb_spec i j) as [->|]; reflexivity.
Qed.

Lemma state_step : forall L (g g' : gclass RA), gm_ready g -> proper g -> gm_ready g' -> proper g' -> state_moments L g g' ->
  Forall (fun p : (nat -> R) * list R => length (snd p) = gc_dim g /\ forall c, (c < gc_n g)%nat -> 0 <= fst p c) L -> (forall c, (c < gc_n g)%nat -> 0 < m_mass L c) ->
  / 2 * Rsum (gc_n g) (fun c => m_mass L c * Rsum (gc_dim g) (fun d => nth d (gc_reg g) 0 * ginv (comp_at g' c) d d))
  - / 2 * Rsum (gc_n g) (fun c => m_mass L c * Rsum (gc_dim g) (fun d => nth d (gc_reg g) 0 * ginv (comp_at g c) d d))
  - Rlsum (map (fun p => Rsum (gc_n g) (fun c => fst p c * (ln (comp_lik (comp_at g c) (snd p)) - ln (comp_pdf (comp_at g c) (snd p))))) L)
  <= Rlsum (map (fun p => Rsum (gc_n g) (fun c => fst p c * (ln (weight g' c * comp_lik (comp_at g' c) (snd p)) - ln (weight g c * comp_lik (comp_at g c) (snd p))))) L).
Proof.
  intros L g g' Rg Pg Rg' Pg' (SC & W & M & V) HL MP.
  assert (Hn : (1 <= gc_n g)%nat) by apply Rg.
  assert (EN : gc_n g' = gc_n g). { destruct SC as (_ & _ & _ & _ & E & _). unfold gc_n. rewrite E. reflexivity. }
  assert (ED : gc_dim g' = gc_dim g) by apply SC.
  assert (EM : gc_mode g' = gc_mode g). { destruct SC as (_ & _ & _ & _ & E & _). unfold gc_mode. rewrite E. reflexivity. }
  assert (TP : 0 < Rsum (gc_n g) (m_mass L)) by (apply Rsum_pos; [lia|exact MP]).
  set (F := Rlsum (map (fun p => Rsum (gc_n g) (fun c => fst p c * (ln (comp_lik (comp_at g c) (snd p)) - ln (comp_pdf (comp_at g c) (snd p))))) L)).
  (* the floor *)
  assert (K : Rlsum (map (fun p => Rsum (gc_n g) (fun c => fst p c * (ln (weight g' c) - ln (weight g c)))) L)
     + Rlsum (map (fun p => Rsum (gc_n g) (fun c => fst p c * (ln (comp_pdf (comp_at g' c) (snd p)) - ln (comp_pdf (comp_at g c) (snd p))))) L) - F
    <= Rlsum (map (fun p => Rsum (gc_n g) (fun c => fst p c * (ln (weight g' c * comp_lik (comp_at g' c) (snd p)) - ln (weight g c * comp_lik (comp_at g c) (snd p))))) L)).
  { apply Rplus_le_reg_r with F. unfold Rminus at 1. rewrite Rplus_assoc, Rplus_opp_l, Rplus_0_r.
    unfold F. rewrite <- !Rlsum_map_plus. apply Rlsum_map_le. intros p Hp. rewrite <- !Rsum_plus. apply Rsum_le. intros c Hc.
    rewrite <- !Rmult_plus_distr_l. apply Rmult_le_compat_l; [rewrite Forall_forall in HL; apply HL; assumption|].
    assert (Pw := proj1 (Pg c Hc)). assert (Pw' := proj1 (Pg' c ltac:(rewrite EN; exact Hc))). rewrite !ln_mult by (try apply comp_lik_pos; assumption).
    assert (ln (comp_pdf (comp_at g' c) (snd p)) <= ln (comp_lik (comp_at g' c) (snd p))).
    { destruct (Rmax_r min_likelihood (comp_pdf (comp_at g' c) (snd p))) as [Lt|Eq]; [left; apply ln_increasing; [apply comp_pdf_pos; [assumption|assumption|rewrite EN; exact Hc]|exact Lt]|right; f_equal; exact Eq]. }
    lra. }
  (* weights *)
  assert (G : 0 <= Rlsum (map (fun p => Rsum (gc_n g) (fun c => fst p c * (ln (weight g' c) - ln (weight g c)))) L)).
  { rewrite Rlsum_map_sum_swap. rewrite (Rsum_ext _ _ (fun c => m_mass L c * (ln (m_mass L c / Rsum (gc_n g) (m_mass L)) - ln (weight g c)))).
    - apply gibbs; [intros; apply Pg; assumption|exact MP|apply Rg|exact TP].
    - intros c Hc. rewrite (Rlsum_map_ext _ (fun p => (ln (weight g' c) - ln (weight g c)) * fst p c)) by (intros; ring). rewrite Rlsum_map_scal. fold (m_mass L c).
      rewrite (W c Hc TP). ring. }
  (* densities *)
  assert (B : Rsum (gc_n g) (fun c => / 2 * (m_mass L c * Rsum (gc_dim g) (fun d => nth d (gc_reg g) 0 * ginv (comp_at g' c) d d)) -
       / 2 * (m_mass L c * Rsum (gc_dim g) (fun d => nth d (gc_reg g) 0 * ginv (comp_at g c) d d)))
    <= Rlsum (map (fun p => Rsum (gc_n g) (fun c => fst p c * (ln (comp_pdf (comp_at g' c) (snd p)) - ln (comp_pdf (comp_at g c) (snd p))))) L)).
  { rewrite Rlsum_map_sum_swap. apply Rsum_le. intros c Hc.
    destruct (comp_inv g Rg c Hc) as (Ic & Em & Ed). destruct (comp_inv g' Rg' c ltac:(rewrite EN; exact Hc)) as (Ic' & Em' & Ed'). rewrite ED in Ic', Ed'. rewrite EM in Em'.
    destruct (Pg c Hc) as (_ & sC & pC). destruct (Pg' c ltac:(rewrite EN; exact Hc)) as (_ & sC' & pC'). rewrite ED in sC', pC'.
    pose proof (best_fit L (fun p => fst p c) (fun p d => nth d (snd p) 0) (gc_dim g) (MP c Hc) (fun d => nth d (gc_reg g) 0)
      (gcov (comp_at g c)) (ginv (comp_at g c)) (gcov (comp_at g' c)) (ginv (comp_at g' c)) (gmean (comp_at g c)) sC pC Ic sC' pC' Ic') as BF.
    fold (m_mass L c) in BF.
    assert (ME : forall d, m_mean L c d = Rlsum (map (fun p => fst p c * nth d (snd p) 0) L) / m_mass L c) by (intro; unfold m_mean; apply ratio_pos, MP, Hc).
    assert (CE : forall i j, m_cov L c i j = Rlsum (map (fun p => fst p c * (nth i (snd p) 0 - Rlsum (map (fun p => fst p c * nth i (snd p) 0) L) / m_mass L c) *
        (nth j (snd p) 0 - Rlsum (map (fun p => fst p c * nth j (snd p) 0) L) / m_mass L c)) L) / m_mass L c).
    { intros i j. unfold m_cov. rewrite ratio_pos by (apply MP, Hc). rewrite !ME. reflexivity. }
    assert (H1 : forall i, (i < gc_dim g)%nat -> gcov (comp_at g' c) i i = m_cov L c i i + nth i (gc_reg g) 0).
    { intros i Hi. rewrite (V c Hc i i Hi Hi). unfold m_newcov. rewrite Nat.eqb_refl. reflexivity. }
    assert (H2 : forall i j, (i < gc_dim g)%nat -> (j < gc_dim g)%nat -> i <> j -> gcov (comp_at g' c) i j = m_cov L c i j \/
      (ginv (comp_at g c) i j = 0 /\ ginv (comp_at g' c) i j = 0)).
    { intros i j Hi Hj Hij. rewrite (V c Hc i j Hi Hj). unfold m_newcov. destruct (Nat.eqb_spec i j); [congruence|]. destruct (gc_mode g) eqn:Mo.
      - left. reflexivity.
      - right. unfold ginv, stored. rewrite Em, Em'. destruct (Nat.eqb_spec i j); [congruence|]. split; reflexivity. }
    assert (BF' := BF (fun i Hi => eq_trans (H1 i Hi) (f_equal (fun v => v + _) (CE i i)))). clear BF.
    assert (H2' : forall i j, (i < gc_dim g)%nat -> (j < gc_dim g)%nat -> i <> j ->
      gcov (comp_at g' c) i j = Rlsum (map (fun p => fst p c * (nth i (snd p) 0 - Rlsum (map (fun p => fst p c * nth i (snd p) 0) L) / m_mass L c) *
        (nth j (snd p) 0 - Rlsum (map (fun p => fst p c * nth j (snd p) 0) L) / m_mass L c)) L) / m_mass L c \/
      (ginv (comp_at g c) i j = 0 /\ ginv (comp_at g' c) i j = 0)) by (intros i j Hi Hj Hij; rewrite <- CE; apply H2; assumption).
    specialize (BF' H2').
    rewrite (Rlsum_map_ext _ (fun p => fst p c * ln (normal_pdf (gc_dim g) (gcov (comp_at g' c)) (ginv (comp_at g' c)) (fun d => Rlsum (map (fun p => fst p c * nth d (snd p) 0) L) / m_mass L c) (fun d => nth d (snd p) 0)) +
      (-1) * (fst p c * ln (normal_pdf (gc_dim g) (gcov (comp_at g c)) (ginv (comp_at g c)) (gmean (comp_at g c)) (fun d => nth d (snd p) 0))))).
    - rewrite Rlsum_map_plus, Rlsum_map_scal. lra.
    - intros p Hp. unfold comp_pdf. rewrite Ed, Ed'. rewrite (normal_pdf_mean _ _ _ (gmean (comp_at g' c)) (fun d => Rlsum (map (fun p => fst p c * nth d (snd p) 0) L) / m_mass L c)) by (intros d Hd; rewrite (M c Hc d Hd); apply ME). ring. }
  assert (RP : forall h : gclass RA, / 2 * Rsum (gc_n g) (fun c => m_mass L c * Rsum (gc_dim g) (fun d => nth d (gc_reg g) 0 * ginv (comp_at h c) d d)) =
    Rsum (gc_n g) (fun c => / 2 * (m_mass L c * Rsum (gc_dim g) (fun d => nth d (gc_reg g) 0 * ginv (comp_at h c) d d)))) by (intro; rewrite Rsum_scal_l; reflexivity).
  rewrite (RP g), (RP g'). rewrite Rsum_minus in B. lra.
Qed.

(** ** The class *)
Section Step.
  Variables (h h' : hclass RA) (data : list (list (list R))).
  Hypothesis HR : hmm_ready h.
  Hypothesis HD : phrases_of h data.
  Let N := hc_n h.
  Let Z (ph : list (list R)) := seq_lik N (hc_prior h) (hc_trans h) (frame_liks h ph).

  Lemma phrases_pos : forall ph, In ph data -> ph <> [] /\ Forall (fun x => length x = hc_dim h) ph /\ 0 < Z ph.
  Proof.
    intros ph Hp. destruct HD as (Hne & HD'). pose proof HR as (_ & _ & _ & HA). destruct (esteps_ok h HR data (h_alpha (hc_run h)) HD' HA) as (es & al & _ & HF & _).
    destruct (In_nth _ _ [] Hp) as (k & Hk & EK). pose proof (Forall2_at _ _ _ HF k [] (mkES (A := RA) [] [] [] 0) Hk) as (P1 & P2 & _ & P4). rewrite EK in *. auto.
  Qed.

  Lemma occ_in : forall ph t i, In ph data -> 0 <= occupancy h ph t i.
  Proof. intros ph t i Hp. apply (occ_nonneg h HR). apply (phrases_pos ph Hp). Qed.
  Lemma occ2_in : forall ph t i j, In ph data -> 0 <= occupancy2 h ph t i j.
  Proof. intros ph t i j Hp. apply (occ2_nonneg h HR). apply (phrases_pos ph Hp). Qed.

  Lemma weighted_ok : forall i, (i < N)%nat -> Forall (fun p : (nat -> R) * list R => length (snd p) = gc_dim (state_at h i) /\ forall c, (c < gc_n (state_at h i))%nat -> 0 <= fst p c) (weighted_frames h data i).
  Proof.
    intros i Hi. destruct (usable_state h (proj1 HR) i Hi) as ((Hs & Hv & D) & S1 & S2 & S3 & S4 & S5 & S6).
    apply Forall_forall. intros p Hp. unfold weighted_frames in Hp. apply in_flat_map in Hp. destruct Hp as (ph & Hph & Hp). apply in_map_iff in Hp. destruct Hp as (t & <- & Ht). apply in_seq in Ht. cbn [fst snd].
    destruct (phrases_pos ph Hph) as (_ & HF & P). split.
    - rewrite S2. rewrite Forall_forall in HF. apply HF. apply nth_In. lia.
    - intros c Hc. rewrite S4 in Hc. apply (mix_nonneg h HR); assumption.
  Qed.

  (** Sums over the weighted frames of a state. *)
  Lemma weighted_sum : forall i (F : (nat -> R) * list R -> R), Rlsum (map F (weighted_frames h data i)) =
    Rlsum (map (fun ph => Rsum (length ph) (fun t => F (occupancy_mix h ph t i, nth t ph []))) data).
  Proof. intros i F. unfold weighted_frames. rewrite Rlsum_flat_map. apply Rlsum_map_ext. intros ph _. rewrite map_map, Rlsum_map_seq. reflexivity. Qed.

  Lemma visits_mass : forall i, (i < N)%nat -> visits h data i = Rsum (gc_n (state_at h i)) (m_mass (weighted_frames h data i)).
  Proof.
    intros i Hi. destruct (usable_state h (proj1 HR) i Hi) as (_ & _ & _ & _ & S4 & _). unfold m_mass.
    rewrite (Rsum_ext _ _ (fun c => Rlsum (map (fun ph => Rsum (length ph) (fun t => occupancy_mix h ph t i c)) data))) by (intros; apply weighted_sum).
    rewrite <- (Rlsum_map_sum_swap (fun ph c => Rsum (length ph) (fun t => occupancy_mix h ph t i c))). unfold visits. apply Rlsum_map_ext. intros ph Hp.
    rewrite Rsum_swap. apply Rsum_ext. intros t Ht. rewrite S4. symmetry. apply (mix_sum h HR); assumption.
  Qed.

  Lemma mass_all : forall i, (i < N)%nat -> proper (state_at h i) -> 0 < visits h data i -> forall c, (c < gc_n (state_at h i))%nat -> 0 < m_mass (weighted_frames h data i) c.
  Proof.
    intros i Hi Pi HV c Hc. destruct (usable_state h (proj1 HR) i Hi) as ((_ & _ & D) & _ & _ & _ & S4 & _). unfold m_mass. rewrite weighted_sum. cbn [fst]. unfold visits in HV.
    destruct (Rlsum_pos_ex _ _ (fun ph Hp => Rsum_nonneg _ _ (fun t _ => occ_in ph t i Hp)) HV) as (ph & Hp & HS).
    assert (ET : exists t, (t < length ph)%nat /\ 0 < occupancy h ph t i).
    { assert (HS' : 0 < Rlsum (map (fun t => occupancy h ph t i) (seq 0 (length ph)))) by (rewrite Rlsum_map_seq; exact HS). destruct (Rlsum_pos_ex (fun t => occupancy h ph t i) (seq 0 (length ph)) (fun t _ => occ_in ph t i Hp) HS') as (t & Ht & P).
      exists t. apply in_seq in Ht. split; [lia|exact P]. }
    destruct ET as (t & Ht & P). assert (NN : forall ph, In ph data -> forall t, 0 <= occupancy_mix h ph t i c). { intros q Hq u. apply (mix_nonneg h HR q (proj2 (proj2 (phrases_pos q Hq)))); [exact Hi|rewrite <- S4; exact Hc]. }
    apply (Rlsum_pos_in _ _ ph); [intros q Hq; apply Rsum_nonneg; intros; apply NN; exact Hq|exact Hp|].
    apply (Rsum_pos_one _ _ t); [intros; apply NN; exact Hp|exact Ht|]. unfold occupancy_mix. apply Rmult_lt_0_compat; [exact P|].
    pose proof (frame_lik_ge (state_at h i) (nth t ph []) D). pose proof min_lik_pos. apply Rdiv_lt_0_compat; [|lra]. apply Rmult_lt_0_compat; [apply Pi, Hc|apply comp_lik_pos].
  Qed.

  (** *** What is known of the class after the update *)
  Hypothesis HP : forall i, (i < N)%nat -> proper (state_at h i).
  Hypothesis RE : hmm_reestimated h data h'.
  Hypothesis TN : forall q, 0 <= nth q (h_trans (hc_net h')) 0.

  Lemma after_n : hc_n h' = N.
  Proof. destruct RE as (K & _). destruct K as (_ & _ & _ & _ & K5 & _). unfold hc_n. rewrite K5. reflexivity. Qed.
  Lemma after_mode : hc_mode h' = hc_mode h.
  Proof. destruct RE as (K & _). destruct K as (_ & _ & _ & _ & K5 & _). unfold hc_mode. rewrite K5. reflexivity. Qed.
  Lemma after_trans : forall i j, (i < N)%nat -> (j < N)%nat -> hc_trans h' i j = new_trans h data i j.
  Proof. intros i j Hi Hj. destruct RE as (_ & _ & _ & _ & TA & _). unfold hc_trans. rewrite after_n, after_mode. apply TA; assumption. Qed.
  Lemma after_state : forall i, (i < N)%nat -> gm_ready (state_at h' i) /\ state_moments (weighted_frames h data i) (state_at h i) (state_at h' i).
  Proof. intros i Hi. destruct RE as (_ & _ & PS & _). destruct (PS i Hi). auto. Qed.
  Lemma state_strong : forall i, (i < N)%nat -> strong_reg (state_at h i).
  Proof.
    intros i Hi. pose proof HR as (HU & F & _). rewrite Forall_forall in F. apply F. apply nth_In. pose proof HU as (_ & L & _). change (num RA) with R in *. rewrite L. exact Hi.
  Qed.
  Lemma after_regularised : forall i, (i < N)%nat -> 0 < visits h data i -> regularised (state_at h' i).
  Proof.
    intros i Hi HV. destruct (after_state i Hi) as (Rg' & SM). destruct (usable_state h (proj1 HR) i Hi) as ((Hs & _) & _).
    apply (moments_regularised (weighted_frames h data i) (state_at h i)); [exact Hs|apply weighted_ok, Hi|apply mass_all; [exact Hi|apply HP, Hi|exact HV]|exact SM].
  Qed.
  Lemma after_strong : forall i, (i < N)%nat -> strong_reg (state_at h' i).
  Proof.
    intros i Hi. destruct (after_state i Hi) as (_ & ((_ & T2 & _ & _ & T5 & _ & T7 & _) & _)). pose proof (state_strong i Hi) as S. unfold strong_reg, gc_mode in *. rewrite T2, T5, T7. exact S.
  Qed.
  Lemma after_proper : forall i, (i < N)%nat -> 0 < visits h data i -> proper (state_at h' i).
  Proof. intros i Hi HV. apply reg_proper; [apply after_strong, Hi|apply after_regularised; assumption]. Qed.

  (** *** States *)
  Lemma state_gain : forall i, (i < N)%nat ->
    / 2 * Rsum (gc_n (state_at h i)) (fun c => m_mass (weighted_frames h data i) c * Rsum (gc_dim (state_at h i)) (fun d => nth d (gc_reg (state_at h i)) 0 * ginv (comp_at (state_at h' i) c) d d))
    - / 2 * Rsum (gc_n (state_at h i)) (fun c => m_mass (weighted_frames h data i) c * Rsum (gc_dim (state_at h i)) (fun d => nth d (gc_reg (state_at h i)) 0 * ginv (comp_at (state_at h i) c) d d))
    - Rlsum (map (fun p => Rsum (gc_n (state_at h i)) (fun c => fst p c * (ln (comp_lik (comp_at (state_at h i) c) (snd p)) - ln (comp_pdf (comp_at (state_at h i) c) (snd p))))) (weighted_frames h data i))
    <= Rlsum (map (fun ph => Rsum (length ph) (fun t => occupancy h ph t i * (ln (frame_lik (state_at h' i) (nth t ph [])) - ln (frame_lik (state_at h i) (nth t ph []))))) data).
  Proof.
    intros i Hi. destruct (after_state i Hi) as (Rg' & SM). destruct (usable_state h (proj1 HR) i Hi) as (Rg & _ & _ & _ & S4 & _).
    assert (V0 : 0 <= visits h data i). { unfold visits. apply Rlsum_nonneg. intros y Hy. apply in_map_iff in Hy. destruct Hy as (ph & <- & Hp). apply Rsum_nonneg. intros. apply occ_in, Hp. }
    destruct V0 as [V0|V0].
    - eapply Rle_trans; [apply (state_step _ _ _ Rg (HP i Hi) Rg' (after_proper i Hi V0) SM (weighted_ok i Hi) (mass_all i Hi (HP i Hi) V0))|].
      rewrite weighted_sum. apply Rlsum_map_le. intros ph Hp. apply Rsum_le. intros t Ht. cbn [fst snd]. set (x := nth t ph []).
      assert (EN : gc_n (state_at h' i) = gc_n (state_at h i)). { destruct SM as ((_ & _ & _ & _ & E & _) & _). unfold gc_n. rewrite E. reflexivity. }
      pose proof (jensen (gc_n (state_at h i)) (fun c => weight (state_at h i) c * comp_lik (comp_at (state_at h i) c) x) (fun c => weight (state_at h' i) c * comp_lik (comp_at (state_at h' i) c) x)) as J.
      assert (J' := J ltac:(apply Rg) ltac:(intros c Hc; apply Rmult_lt_0_compat; [apply (HP i Hi), Hc|apply comp_lik_pos]) ltac:(intros c Hc; apply Rmult_lt_0_compat; [apply (after_proper i Hi V0); rewrite EN; exact Hc|apply comp_lik_pos])). clear J.
      assert (F1 : frame_lik (state_at h i) x = Rsum (gc_n (state_at h i)) (fun c => weight (state_at h i) c * comp_lik (comp_at (state_at h i) c) x)) by reflexivity.
      assert (F2 : frame_lik (state_at h' i) x = Rsum (gc_n (state_at h i)) (fun c => weight (state_at h' i) c * comp_lik (comp_at (state_at h' i) c) x)) by (unfold frame_lik; rewrite EN; reflexivity).
      rewrite <- F1, <- F2 in J'. unfold occupancy_mix. fold x.
      rewrite (Rsum_ext _ (fun c => occupancy h ph t i * _ * _) (fun c => occupancy h ph t i * (weight (state_at h i) c * comp_lik (comp_at (state_at h i) c) x / frame_lik (state_at h i) x *
        (ln (weight (state_at h' i) c * comp_lik (comp_at (state_at h' i) c) x) - ln (weight (state_at h i) c * comp_lik (comp_at (state_at h i) c) x))))) by (intros; ring).
      rewrite Rsum_scal_l. apply Rmult_le_compat_l; [apply occ_in, Hp|]. lra.
    - assert (OZ : forall ph t, In ph data -> (t < length ph)%nat -> occupancy h ph t i = 0).
      { intros ph t Hp Ht. pose proof (occ_in ph t i Hp) as [P|P]; [|lra]. exfalso. assert (0 < visits h data i); [|lra]. unfold visits.
        apply (Rlsum_pos_in _ _ ph); [intros q Hq; apply Rsum_nonneg; intros; apply occ_in, Hq|exact Hp|]. apply (Rsum_pos_one _ _ t); [intros; apply occ_in, Hp|exact Ht|exact P]. }
      assert (MZ : forall c, m_mass (weighted_frames h data i) c = 0).
      { intro c. unfold m_mass. rewrite weighted_sum. rewrite (Rlsum_map_ext _ (fun _ => 0)); [rewrite Rlsum_map_const; ring|]. intros ph Hp. apply Rsum_zero. intros t Ht. cbn [fst]. unfold occupancy_mix. rewrite OZ by assumption. ring. }
      rewrite !(Rsum_zero (gc_n (state_at h i))) by (intros c Hc; rewrite MZ; ring). rewrite weighted_sum.
      assert (ZS : forall F : list (list R) -> R, (forall ph, In ph data -> F ph = 0) -> Rlsum (map F data) = 0) by (intros F HF; rewrite (Rlsum_map_ext F (fun _ => 0)) by exact HF; rewrite Rlsum_map_const; ring).
      rewrite !ZS; [lra| |]; intros ph Hp; apply Rsum_zero; intros t Ht; [rewrite OZ by assumption; ring|].
      apply Rsum_zero. intros c Hc. cbn [fst]. unfold occupancy_mix. rewrite OZ by assumption. ring.
  Qed.

  (** *** Prior and transitions *)
  Lemma at_pos_prior : forall ph i, In ph data -> 0 < occupancy h ph 0 i -> 0 < hc_prior h i.
  Proof.
    intros ph i Hp HO. destruct (phrases_pos ph Hp) as (Hne & _ & HZ). unfold occupancy in HO. fold N in HO. fold (Z ph) in HO.
    assert (HA : 0 < at_lik N (hc_prior h) (hc_trans h) (frame_liks h ph) 0 i). { apply (Rmult_lt_reg_r (/ Z ph)); [apply Rinv_0_lt_compat; exact HZ|]. rewrite Rmult_0_l. exact HO. }
    unfold at_lik in HA. apply Rlsum_pos_ex in HA.
    - destruct HA as (p & Hpp & PW). destruct (Nat.eqb_spec (nth 0 p N) i) as [E|E]; [|lra]. rewrite <- E.
      exact (proj1 (path_pos_inv N _ _ _ p (proj1 (usable_pi h (proj1 HR))) (usable_a h (proj1 HR)) (liks_pos h HR ph) Hpp PW)).
    - intros p Hpp. destruct (Nat.eqb _ _); [|lra]. apply (path_nonneg N); [exact (proj1 (usable_pi h (proj1 HR)))|exact (usable_a h (proj1 HR))|exact (liks_pos h HR ph)|exact Hpp].
  Qed.
  Lemma at_pos_trans : forall ph t i j, In ph data -> (S t < length ph)%nat -> 0 < occupancy2 h ph t i j -> 0 < hc_trans h i j.
  Proof.
    intros ph t i j Hp Ht HO. destruct (phrases_pos ph Hp) as (Hne & _ & HZ). unfold occupancy2 in HO. fold N in HO. fold (Z ph) in HO.
    assert (HA : 0 < at_lik2 N (hc_prior h) (hc_trans h) (frame_liks h ph) t i j). { apply (Rmult_lt_reg_r (/ Z ph)); [apply Rinv_0_lt_compat; exact HZ|]. rewrite Rmult_0_l. exact HO. }
    unfold at_lik2 in HA. apply Rlsum_pos_ex in HA.
    - destruct HA as (p & Hpp & PW). destruct (Nat.eqb_spec (nth t p N) i) as [E|E]; [|cbn [andb] in PW; lra]. destruct (Nat.eqb_spec (nth (S t) p N) j) as [E'|E']; [|cbn [andb] in PW; lra]. cbn [andb] in PW. rewrite <- E, <- E'.
      apply (path_pos_inv N _ _ _ p (proj1 (usable_pi h (proj1 HR))) (usable_a h (proj1 HR)) (liks_pos h HR ph) Hpp PW). unfold frame_liks. rewrite map_length. exact Ht.
    - intros p Hpp. destruct (_ && _); [|lra]. apply (path_nonneg N); [exact (proj1 (usable_pi h (proj1 HR)))|exact (usable_a h (proj1 HR))|exact (liks_pos h HR ph)|exact Hpp].
  Qed.

  Lemma data_len : 0 < INR (length data).
  Proof. clear -HD. apply lt_0_INR. destruct HD as (Hne & _). destruct data; [contradiction|cbn; lia]. Qed.

  Lemma moves_in : forall i j, 0 <= moves h data i j.
  Proof. intros i j. unfold moves. apply Rlsum_nonneg. intros y Hy. apply in_map_iff in Hy. destruct Hy as (ph & <- & Hp). apply Rsum_nonneg. intros. apply occ2_in, Hp. Qed.
  Lemma visits_in : forall i, 0 <= visits h data i.
  Proof. intros i. unfold visits. apply Rlsum_nonneg. intros y Hy. apply in_map_iff in Hy. destruct Hy as (ph & <- & Hp). apply Rsum_nonneg. intros. apply occ_in, Hp. Qed.

  Lemma moves_pos : forall ph t i j, In ph data -> (S t < length ph)%nat -> 0 < occupancy2 h ph t i j -> 0 < moves h data i j.
  Proof.
    intros ph t i j Hp Ht HO. unfold moves. apply (Rlsum_pos_in _ _ ph); [intros q Hq; apply Rsum_nonneg; intros; apply occ2_in, Hq|exact Hp|].
    apply (Rsum_pos_one _ _ t); [intros; apply occ2_in, Hp|lia|exact HO].
  Qed.
  Lemma moves_trans : forall i j, 0 < moves h data i j -> 0 < hc_trans h i j.
  Proof.
    intros i j HM. unfold moves in HM. destruct (Rlsum_pos_ex _ _ (fun ph Hp => Rsum_nonneg _ _ (fun t _ => occ2_in ph t i j Hp)) HM) as (ph & Hp & HS).
    assert (HS' : 0 < Rlsum (map (fun t => occupancy2 h ph t i j) (seq 0 (length ph - 1)))) by (rewrite Rlsum_map_seq; exact HS).
    destruct (Rlsum_pos_ex (fun t => occupancy2 h ph t i j) _ (fun t _ => occ2_in ph t i j Hp) HS') as (t & Ht & P). apply in_seq in Ht.
    apply (at_pos_trans ph t i j Hp ltac:(lia) P).
  Qed.

  Lemma new_trans_ge : forall i j, (i < N)%nat -> (j < N)%nat -> 0 < moves h data i j -> moves h data i j / (visits h data i + 2 * reg5) <= new_trans h data i j.
  Proof.
    intros i j Hi Hj HM. pose proof (moves_trans i j HM) as HT. pose proof (visits_in i) as V0. pose proof reg5_pos as RP. pose proof data_len as L0. unfold new_trans. destruct (hc_mode h) eqn:EM.
    - right. reflexivity.
    - assert (DI : 0 < / (visits h data i + 2 * reg5)) by (apply Rinv_0_lt_compat; lra). destruct (Nat.eqb_spec j i) as [->|Hji].
      + apply Rmult_le_compat_r; [lra|]. assert (0 <= INR (length data) * (if (i <? hc_n h - 1)%nat then reg5 else 2 * reg5)); [|lra]. apply Rmult_le_pos; [lra|]. destruct (_ <? _)%nat; lra.
      + destruct (Nat.eqb_spec j (S i)) as [->|Hj'].
        * apply Rmult_le_compat_r; [lra|]. assert (0 <= INR (length data) * reg5) by (apply Rmult_le_pos; lra). lra.
        * exfalso. unfold hc_trans, trans_at in HT. rewrite EM in HT. destruct (Nat.eqb_spec j i); [congruence|]. destruct (Nat.eqb_spec j (S i mod hc_n h)) as [E|E]; [|lra].
          destruct (Nat.eq_dec (S i) (hc_n h)) as [E1|E1].
          -- assert (NJ : no_jump (hc_n h) (h_trans (hc_net h))) by (apply HR; exact EM). unfold no_jump in NJ. replace (2 * i + 1)%nat with (2 * hc_n h - 1)%nat in HT by lia. rewrite NJ in HT. lra.
          -- rewrite Nat.mod_small in E by (unfold N in Hi; lia). contradiction.
  Qed.

  Lemma trans_gain : - trans_part h data <= Rsum N (fun i => Rsum N (fun j => moves h data i j * (ln (hc_trans h' i j) - ln (hc_trans h i j)))).
  Proof.
    unfold trans_part. fold N. rewrite <- Rsum_opp. apply Rsum_le. intros i Hi. unfold leaves. fold N. set (M := Rsum N (moves h data i)). set (D := visits h data i + 2 * reg5).
    pose proof (visits_in i) as V0. pose proof reg5_pos as RP. assert (DP : 0 < D) by (unfold D; lra).
    pose proof (log_sum N (moves h data i) (hc_trans h i) (fun j _ => moves_in i j) (fun j Hj => usable_a h (proj1 HR) i j Hi Hj) (fun j _ => moves_trans i j)) as LS. fold M in LS.
    apply Rle_trans with (Rsum N (fun j => moves h data i j * (ln (moves h data i j) - ln (hc_trans h i j)) - ln D * moves h data i j)).
    - rewrite Rsum_minus, Rsum_scal_l. fold M. lra.
    - apply Rsum_le. intros j Hj. destruct (moves_in i j) as [P|P]; [|rewrite <- P; lra].
      pose proof (new_trans_ge i j Hi Hj P) as G. fold D in G. rewrite (after_trans i j Hi Hj).
      assert (0 < moves h data i j / D) by (apply Rdiv_lt_0_compat; assumption).
      assert (LE : ln (moves h data i j / D) <= ln (new_trans h data i j)) by (destruct G as [G|G]; [left; apply ln_increasing; assumption|rewrite G; right; reflexivity]).
      unfold Rdiv in LE. rewrite ln_mult, ln_Rinv in LE by (try apply Rinv_0_lt_compat; assumption).
      replace (moves h data i j * (ln (moves h data i j) - ln (hc_trans h i j)) - ln D * moves h data i j) with (moves h data i j * (ln (moves h data i j) - ln D - ln (hc_trans h i j))) by ring.
      apply Rmult_le_compat_l; lra.
  Qed.

  Lemma first_sum : Rsum N (fun i => Rlsum (map (fun ph => occupancy h ph 0 i) data)) = INR (length data).
  Proof.
    rewrite <- (Rlsum_map_sum_swap (fun ph i => occupancy h ph 0 i)). rewrite (Rlsum_map_ext _ (fun _ => 1)); [rewrite Rlsum_map_const; ring|].
    intros ph Hp. destruct (phrases_pos ph Hp) as (Hne & _ & HZ). apply (occ_sum h ph HZ). destruct ph; [congruence|cbn; lia].
  Qed.

  Lemma after_prior : forall i, (i < N)%nat -> hc_prior h' i = match hc_mode h with Ergodic => new_prior h data i | LeftRight => hc_prior h i end.
  Proof.
    intros i Hi. destruct RE as (_ & _ & _ & _ & _ & _ & TP). unfold hc_prior. rewrite after_mode. destruct (hc_mode h) eqn:EM; [|reflexivity]. cbn [prior_at]. apply TP; [reflexivity|exact Hi].
  Qed.

  Lemma prior_after_pos : forall ph i, (i < N)%nat -> In ph data -> 0 < occupancy h ph 0 i -> 0 < hc_prior h' i.
  Proof.
    intros ph i Hi Hp HO. rewrite (after_prior i Hi). destruct (hc_mode h) eqn:EM; [|exact (at_pos_prior ph i Hp HO)].
    unfold new_prior. apply Rdiv_lt_0_compat; [|exact data_len]. apply (Rlsum_pos_in _ _ ph); [intros; apply occ_in; assumption|exact Hp|exact HO].
  Qed.

  Lemma prior_gain : 0 <= Rsum N (fun i => Rlsum (map (fun ph => occupancy h ph 0 i) data) * (ln (hc_prior h' i) - ln (hc_prior h i))).
  Proof.
    destruct (hc_mode h) eqn:EM.
    - set (F := fun i => Rlsum (map (fun ph => occupancy h ph 0 i) data)). pose proof data_len as L0.
      assert (F0 : forall i, 0 <= F i). { intro i. unfold F. apply Rlsum_nonneg. intros y Hy. apply in_map_iff in Hy. destruct Hy as (ph & <- & Hp). apply occ_in, Hp. }
      assert (FP : forall i, 0 < F i -> 0 < hc_prior h i). { intros i P. destruct (Rlsum_pos_ex _ _ (fun ph Hp => occ_in ph 0 i Hp) P) as (ph & Hp & HO). exact (at_pos_prior ph i Hp HO). }
      destruct (usable_pi h (proj1 HR)) as (D0 & D1). fold N in D0, D1.
      pose proof (log_sum N F (hc_prior h) (fun i _ => F0 i) D0 (fun i _ => FP i)) as LS. unfold F in LS at 1 2. rewrite first_sum, D1, ln_1 in LS.
      apply Rle_trans with (Rsum N (fun i => F i * (ln (F i) - ln (hc_prior h i)) - ln (INR (length data)) * F i)).
      + rewrite Rsum_minus, Rsum_scal_l. unfold F at 3. rewrite first_sum. lra.
      + apply Rsum_le. intros i Hi. fold (F i). destruct (F0 i) as [P|P]; [|rewrite <- P; lra].
        rewrite (after_prior i Hi), EM. unfold new_prior. fold (F i). unfold Rdiv. rewrite ln_mult, ln_Rinv by (try apply Rinv_0_lt_compat; assumption). right. ring.
    - right. symmetry. apply Rsum_zero. intros i Hi. rewrite (after_prior i Hi), EM. ring.
  Qed.

  (** *** The whole update *)
  Hypothesis HE : hc_mode h = Ergodic -> distribution N (fun i => nth i (h_prior (hc_net h')) 0).
  Lemma phrase_gain : forall ph, In ph data ->
    0 < seq_lik (hc_n h') (hc_prior h') (hc_trans h') (frame_liks h' ph) /\
    ln (Z ph) + Rsum N (fun i => occupancy h ph 0 i * (ln (hc_prior h' i) - ln (hc_prior h i)))
    + Rsum (length ph - 1) (fun t => Rsum N (fun i => Rsum N (fun j => occupancy2 h ph t i j * (ln (hc_trans h' i j) - ln (hc_trans h i j)))))
    + Rsum (length ph) (fun t => Rsum N (fun i => occupancy h ph t i * (ln (frame_lik (state_at h' i) (nth t ph [])) - ln (frame_lik (state_at h i) (nth t ph [])))))
    <= ln (seq_lik (hc_n h') (hc_prior h') (hc_trans h') (frame_liks h' ph)).
  Proof.
    intros ph Hp. destruct (phrases_pos ph Hp) as (Hne & _ & HZ). rewrite after_n.
    assert (LL : forall k : hclass RA, length (frame_liks k ph) = length ph) by (intro; unfold frame_liks; apply map_length).
    assert (NT : forall (k : hclass RA) t i, (t < length ph)%nat -> nth t (frame_liks k ph) (fun _ => 0) i = frame_lik (state_at k i) (nth t ph [])).
    { intros k t i Ht. unfold frame_liks. rewrite (nth_map_lt _ _ _ _ []) by exact Ht. reflexivity. }
    destruct (path_gain N (hc_prior h) (hc_trans h) (frame_liks h ph) (hc_prior h') (hc_trans h') (frame_liks h' ph)) as (PZ & PG).
    - exact (proj1 (usable_pi h (proj1 HR))).
    - exact (usable_a h (proj1 HR)).
    - exact (liks_pos h HR ph).
    - intros i Hi. rewrite (after_prior i Hi). destruct (hc_mode h) eqn:EM; [|exact (proj1 (usable_pi h (proj1 HR)) i Hi)].
      destruct RE as (_ & _ & _ & _ & _ & _ & TP). destruct (TP EM) as (_ & TP'). rewrite <- (TP' i Hi). apply (HE eq_refl). exact Hi.
    - intros i j Hi Hj. unfold hc_trans. apply trans_at_ge. exact TN.
    - apply Forall_forall. intros b Hb. unfold frame_liks in Hb. apply in_map_iff in Hb. destruct Hb as (x & <- & _). intros j Hj.
      destruct (after_state j Hj) as ((_ & _ & D) & _). pose proof (frame_lik_ge (state_at h' j) x D). pose proof min_lik_pos. lra.
    - intro E. apply Hne. apply length_zero_iff_nil. rewrite <- (LL h), E. reflexivity.
    - rewrite !LL. reflexivity.
    - intros i Hi HA. apply (prior_after_pos ph i Hi Hp). apply Rdiv_lt_0_compat; assumption.
    - intros t i j Ht Hi Hj HA. rewrite LL in Ht. rewrite (after_trans i j Hi Hj). assert (HO : 0 < occupancy2 h ph t i j) by (apply Rdiv_lt_0_compat; assumption).
      pose proof (moves_pos ph t i j Hp Ht HO) as MP. pose proof (new_trans_ge i j Hi Hj MP). pose proof (visits_in i). pose proof reg5_pos.
      assert (0 < moves h data i j / (visits h data i + 2 * reg5)) by (apply Rdiv_lt_0_compat; lra). lra.
    - exact HZ.
    - split; [exact PZ|]. eapply Rle_trans; [|exact PG]. right. rewrite !LL. f_equal.
      apply Rsum_ext. intros t Ht. apply Rsum_ext. intros i Hi. rewrite !NT by exact Ht. reflexivity.
  Qed.

  Theorem hmm_step : phrases_ll h data - hmm_reg_part h data h - hmm_floor_part h data - trans_part h data <= phrases_ll h' data - hmm_reg_part h data h'.
  Proof.
    assert (G : Rlsum (map (fun ph => ln (Z ph) + Rsum N (fun i => occupancy h ph 0 i * (ln (hc_prior h' i) - ln (hc_prior h i)))
      + Rsum (length ph - 1) (fun t => Rsum N (fun i => Rsum N (fun j => occupancy2 h ph t i j * (ln (hc_trans h' i j) - ln (hc_trans h i j)))))
      + Rsum (length ph) (fun t => Rsum N (fun i => occupancy h ph t i * (ln (frame_lik (state_at h' i) (nth t ph [])) - ln (frame_lik (state_at h i) (nth t ph [])))))) data) <= phrases_ll h' data).
    { apply Rlsum_map_le. intros ph Hp. apply phrase_gain, Hp. }
    rewrite !Rlsum_map_plus in G. change (Rlsum (map (fun ph => ln (Z ph)) data)) with (phrases_ll h data) in G.
    assert (E1 : Rlsum (map (fun ph => Rsum N (fun i => occupancy h ph 0 i * (ln (hc_prior h' i) - ln (hc_prior h i)))) data) =
      Rsum N (fun i => Rlsum (map (fun ph => occupancy h ph 0 i) data) * (ln (hc_prior h' i) - ln (hc_prior h i)))).
    { rewrite Rlsum_map_sum_swap. apply Rsum_ext. intros i Hi. rewrite Rmult_comm, <- Rlsum_map_scal. apply Rlsum_map_ext. intros. ring. }
    assert (E2 : Rlsum (map (fun ph => Rsum (length ph - 1) (fun t => Rsum N (fun i => Rsum N (fun j => occupancy2 h ph t i j * (ln (hc_trans h' i j) - ln (hc_trans h i j)))))) data) =
      Rsum N (fun i => Rsum N (fun j => moves h data i j * (ln (hc_trans h' i j) - ln (hc_trans h i j))))).
    { rewrite (Rlsum_map_ext _ (fun ph => Rsum N (fun i => Rsum N (fun j => (ln (hc_trans h' i j) - ln (hc_trans h i j)) * Rsum (length ph - 1) (fun t => occupancy2 h ph t i j))))).
      - rewrite Rlsum_map_sum_swap. apply Rsum_ext. intros i Hi. rewrite Rlsum_map_sum_swap. apply Rsum_ext. intros j Hj. rewrite Rlsum_map_scal. unfold moves. ring.
      - intros ph Hp. rewrite Rsum_swap. apply Rsum_ext. intros i Hi. rewrite Rsum_swap. apply Rsum_ext. intros j Hj. rewrite <- Rsum_scal_l. apply Rsum_ext. intros. ring. }
    assert (E3 : Rlsum (map (fun ph => Rsum (length ph) (fun t => Rsum N (fun i => occupancy h ph t i * (ln (frame_lik (state_at h' i) (nth t ph [])) - ln (frame_lik (state_at h i) (nth t ph [])))))) data) =
      Rsum N (fun i => Rlsum (map (fun ph => Rsum (length ph) (fun t => occupancy h ph t i * (ln (frame_lik (state_at h' i) (nth t ph [])) - ln (frame_lik (state_at h i) (nth t ph []))))) data))).
    { rewrite <- (Rlsum_map_sum_swap (fun ph i => Rsum (length ph) (fun t => occupancy h ph t i * (ln (frame_lik (state_at h' i) (nth t ph [])) - ln (frame_lik (state_at h i) (nth t ph [])))))).
      apply Rlsum_map_ext. intros ph Hp. apply Rsum_swap. }
    rewrite E1, E2, E3 in G. pose proof prior_gain as PG. pose proof trans_gain as TG.
    assert (SG := Rsum_le N _ _ state_gain). rewrite !Rsum_minus in SG. unfold hmm_reg_part, hmm_floor_part. fold N. lra.
  Qed.

  (** *** How much the transitions can cost *)
  Lemma visits_leaves : forall i, visits h data i = leaves h data i + Rlsum (map (fun ph => occupancy h ph (length ph - 1) i) data).
  Proof.
    intro i. unfold leaves, moves, visits. fold N. rewrite <- (Rlsum_map_sum_swap (fun ph j => Rsum (length ph - 1) (fun t => occupancy2 h ph t i j))). rewrite <- Rlsum_map_plus.
    apply Rlsum_map_ext. intros ph Hp. destruct (phrases_pos ph Hp) as (Hne & _ & HZ). rewrite Rsum_swap.
    rewrite (Rsum_ext (length ph - 1) _ (fun t => occupancy h ph t i)) by (intros t Ht; apply (occ2_sum h ph t i); lia).
    assert (L : length ph = S (length ph - 1)) by (destruct ph; [congruence|cbn; lia]). rewrite L at 1. reflexivity.
  Qed.

  Lemma last_sum : Rsum N (fun i => Rlsum (map (fun ph => occupancy h ph (length ph - 1) i) data)) = INR (length data).
  Proof.
    rewrite <- (Rlsum_map_sum_swap (fun ph i => occupancy h ph (length ph - 1) i)). rewrite (Rlsum_map_ext _ (fun _ => 1)); [rewrite Rlsum_map_const; ring|].
    intros ph Hp. destruct (phrases_pos ph Hp) as (Hne & _ & HZ). apply (occ_sum h ph HZ). destruct ph; [congruence|cbn; lia].
  Qed.

  Lemma trans_part_le : rows_at_most_one h -> trans_part h data <= INR (length data) + INR N * (2 * reg5).
  Proof.
    intro RO. unfold trans_part. fold N. rewrite <- last_sum. rewrite <- (Rsum_const N (2 * reg5)), <- Rsum_plus. apply Rsum_le. intros i Hi.
    pose proof (visits_leaves i) as VL. pose proof (visits_in i) as V0. pose proof reg5_pos as RP.
    assert (L0 : 0 <= leaves h data i) by (apply Rsum_nonneg; intros; apply moves_in).
    assert (E0 : 0 <= Rlsum (map (fun ph => occupancy h ph (length ph - 1) i) data)). { apply Rlsum_nonneg. intros y Hy. apply in_map_iff in Hy. destruct Hy as (ph & <- & Hp). apply occ_in, Hp. }
    destruct L0 as [L0|L0]; [|rewrite <- L0; lra].
    assert (RW : 0 < Rsum N (hc_trans h i)). { pose proof (usable_r h (proj1 HR) i Hi). unfold min_row in H. assert (0 < / 10 ^ 100) by (apply Rinv_0_lt_compat, pow_lt; lra). unfold N. lra. }
    assert (LR : ln (Rsum N (hc_trans h i)) <= 0). { rewrite <- ln_1. destruct (RO i Hi) as [Q|Q]; [left; apply ln_increasing; assumption|]. fold N in Q. rewrite Q. right. reflexivity. }
    pose proof (ln_ratio_le (leaves h data i) (visits h data i + 2 * reg5) L0 ltac:(lra)) as LQ.
    apply Rle_trans with (leaves h data i * ((visits h data i + 2 * reg5) / leaves h data i - 1)); [apply Rmult_le_compat_l; lra|].
    right. rewrite VL. field. lra.
  Qed.
End Step.
