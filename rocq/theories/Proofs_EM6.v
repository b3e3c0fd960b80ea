(** Baum-Welch updates in a training: every state is visited, and keeps a positive definite covariance. *)
From Coq Require Import String List Bool Arith Lia Reals Lra.
From Verif Require Import Base BaseFacts Arith RFacts Model_Gaussian Model_Config Model_KMeans Model_GMM Model_HMM Spec_Common Spec_Matrix Spec_Det Spec_Gaussian Spec_GMM Spec_HMM Spec_HMMInit Spec_EM Spec_EM2
  Proofs_Gaussian Proofs_GMM Proofs_GMM2 Proofs_GMM3 Proofs_GMM4 Proofs_HMM Proofs_HMM2 Proofs_HMM3 Proofs_HMM4 Proofs_HMM5 Proofs_HMM6 Proofs_HMM7 Proofs_HMM8 Proofs_HMM9 Proofs_HMM10 Proofs_HMM11 Proofs_HMM12 Proofs_HMM14
  Proofs_PD Proofs_EM Proofs_EM2 Proofs_EM4 Proofs_EM5.
Import ListNotations.
Local Open Scope list_scope.
Local Open Scope R_scope.

(** ** Every state is visited *)
Definition alive (h : hclass RA) : Prop :=
  match hc_mode h with
  | Ergodic => forall i, (i < hc_n h)%nat -> 0 < hc_prior h i
  | LeftRight => forall i, (S i < hc_n h)%nat -> 0 < hc_trans h i (S i)
  end.

Lemma tail_pos : forall N (a : nat -> nat -> R) bs, (forall i j, (i < N)%nat -> (j < N)%nat -> 0 <= a i j) -> (forall i, (i < N)%nat -> 0 < Rsum N (a i)) ->
  Forall (fun b => forall j, (j < N)%nat -> 0 < b j) bs -> forall i, (i < N)%nat -> 0 < tail_lik N a bs i.
Proof.
  intros N a bs Ha Hr. induction bs as [|b bs IH]; intros Hb i Hi; [rewrite tail_nil; lra|]. rewrite tail_cons. inversion Hb as [|b' bs' Hb1 Hb2]; subst. specialize (IH Hb2).
  assert (EX : exists j, (j < N)%nat /\ 0 < a i j).
  { assert (S : 0 < Rlsum (map (a i) (seq 0 N))) by (rewrite Rlsum_map_seq; exact (Hr i Hi)). apply Rlsum_pos_ex in S; [|intros j Hj; apply in_seq in Hj; apply Ha; lia]. destruct S as (j & Hj & P). apply in_seq in Hj. exists j. split; [lia|exact P]. }
  destruct EX as (j & Hj & P). apply (Rsum_pos_one N _ j); [|exact Hj|].
  - intros k Hk. apply Rmult_le_pos; [apply Rmult_le_pos; [apply Ha; assumption|left; apply Hb1, Hk]|left; apply IH, Hk].
  - repeat apply Rmult_lt_0_compat; [exact P|apply Hb1, Hj|apply IH, Hj].
Qed.

Lemma fiter_chain : forall N (a : nat -> nat -> R) bs, (forall i j, (i < N)%nat -> (j < N)%nat -> 0 <= a i j) -> Forall (fun b => forall j, (j < N)%nat -> 0 < b j) bs ->
  forall k v, (k + length bs < N)%nat -> (forall i, (i < N)%nat -> 0 <= v i) -> 0 < v k -> (forall i, (S i < N)%nat -> 0 < a i (S i)) -> 0 < fiter N a v bs (k + length bs)%nat.
Proof.
  intros N a bs Ha. induction bs as [|b bs IH]; intros Hb k v Hk Hv Pv Hc; cbn [length] in *; [rewrite Nat.add_0_r; exact Pv|].
  inversion Hb as [|b' bs' Hb1 Hb2]; subst. unfold fiter. cbn [fold_left]. fold (fiter N a (fstep N a v b) bs). replace (k + S (length bs))%nat with (S k + length bs)%nat by lia.
  apply (IH Hb2 (S k)); [lia| | |exact Hc].
  - intros i Hi. unfold fstep. apply Rmult_le_pos; [|left; apply Hb1, Hi]. apply Rsum_nonneg. intros j Hj. apply Rmult_le_pos; [apply Hv, Hj|apply Ha; assumption].
  - unfold fstep. apply Rmult_lt_0_compat; [|apply Hb1; lia]. apply (Rsum_pos_one N _ k); [intros j Hj; apply Rmult_le_pos; [apply Hv, Hj|apply Ha; lia]|lia|].
    apply Rmult_lt_0_compat; [exact Pv|apply Hc; lia].
Qed.

Section Visited.
  Variables (h : hclass RA) (data : list (list (list R))).
  Hypothesis HR : hmm_ready h.
  Hypothesis HD : phrases_of h data.
  Hypothesis AL : alive h.
  Let N := hc_n h.

  Lemma rows_pos : forall i, (i < N)%nat -> 0 < Rsum N (hc_trans h i).
  Proof. intros i Hi. pose proof (usable_r h (proj1 HR) i Hi) as H. unfold min_row in H. assert (0 < / 10 ^ 100) by (apply Rinv_0_lt_compat, pow_lt; lra). unfold N. lra. Qed.
  Lemma liks_gt : forall ph, Forall (fun b : nat -> R => forall j, (j < N)%nat -> 0 < b j) (frame_liks h ph).
  Proof.
    intro ph. apply Forall_forall. intros b Hb. unfold frame_liks in Hb. apply in_map_iff in Hb. destruct Hb as (x & <- & _). intros j Hj.
    pose proof (frame_lik_ge (state_at h j) x (proj2 (proj2 (proj1 (usable_state h (proj1 HR) j Hj))))). pose proof min_lik_pos. lra.
  Qed.

  Lemma first_visited : hc_mode h = Ergodic -> forall ph i, In ph data -> (i < N)%nat -> 0 < occupancy h ph 0 i.
  Proof.
    intros EM ph i Hp Hi. destruct (phrases_pos h data HR HD ph Hp) as (Hne & _ & HZ). unfold occupancy. apply Rdiv_lt_0_compat; [|exact HZ]. fold N.
    pose proof (liks_gt ph) as LG. destruct ph as [|x ph]; [congruence|]. cbn [frame_liks map] in *. fold (frame_liks h ph) in *. inversion LG as [|b bs L1 L2]; subst.
    pose proof (at_split N (hc_prior h) (hc_trans h) (fun i => frame_lik (state_at h i) x) [] (frame_liks h ph) i Hi) as E. cbn [app length] in E. rewrite E. unfold fiter. cbn [fold_left].
    unfold alive in AL. rewrite EM in AL. apply Rmult_lt_0_compat; [apply Rmult_lt_0_compat; [apply AL, Hi|apply L1, Hi]|].
    apply tail_pos; [exact (usable_a h (proj1 HR))|exact rows_pos|exact L2|exact Hi].
  Qed.

  Lemma left_right_visited : hc_mode h = LeftRight -> forall ph i, In ph data -> (N <= length ph)%nat -> (i < N)%nat -> 0 < occupancy h ph i i.
  Proof.
    intros EM ph i Hp HL Hi. destruct (phrases_pos h data HR HD ph Hp) as (Hne & _ & HZ). unfold occupancy. apply Rdiv_lt_0_compat; [|exact HZ]. fold N.
    pose proof (liks_gt ph) as LG. destruct ph as [|x ph]; [congruence|]. cbn [frame_liks map length] in *. fold (frame_liks h ph) in *. inversion LG as [|b bs L1 L2]; subst.
    assert (LL : length (frame_liks h ph) = length ph) by (unfold frame_liks; apply map_length).
    rewrite <- (firstn_skipn i (frame_liks h ph)). assert (LF : length (firstn i (frame_liks h ph)) = i) by (apply firstn_length_le; lia).
    rewrite <- (firstn_skipn i (frame_liks h ph)) in L2. apply Forall_app in L2. destruct L2 as (L2 & L3).
    pose proof (at_split N (hc_prior h) (hc_trans h) (fun i => frame_lik (state_at h i) x) (firstn i (frame_liks h ph)) (skipn i (frame_liks h ph)) i Hi) as E. rewrite LF in E. rewrite E.
    apply Rmult_lt_0_compat; [|apply tail_pos; [exact (usable_a h (proj1 HR))|exact rows_pos|exact L3|exact Hi]].
    assert (P0 : hc_prior h 0 = 1) by (unfold hc_prior, prior_at; rewrite EM; reflexivity).
    pose proof (fiter_chain N (hc_trans h) (firstn i (frame_liks h ph)) (usable_a h (proj1 HR)) L2 0%nat (fun i => hc_prior h i * frame_lik (state_at h i) x)) as F. cbn [Nat.add] in F. rewrite LF in F. apply F.
    - exact Hi.
    - intros j Hj. apply Rmult_le_pos; [apply (usable_pi h (proj1 HR)), Hj|left; apply L1, Hj].
    - rewrite P0, Rmult_1_l. apply L1. lia.
    - unfold alive in AL. rewrite EM in AL. exact AL.
  Qed.

  Lemma all_visited : Exists (fun ph => (N <= length ph)%nat) data -> forall i, (i < N)%nat -> 0 < visits h data i.
  Proof.
    intros EX i Hi. apply Exists_exists in EX. destruct EX as (ph & Hp & HL). unfold visits.
    apply (Rlsum_pos_in _ _ ph); [intros q Hq; apply Rsum_nonneg; intros; apply (occ_in h data HR HD), Hq|exact Hp|]. destruct (hc_mode h) eqn:EM.
    - apply (Rsum_pos_one _ _ 0%nat); [intros; apply (occ_in h data HR HD), Hp|lia|apply first_visited; assumption].
    - apply (Rsum_pos_one _ _ i); [intros; apply (occ_in h data HR HD), Hp|lia|apply left_right_visited; assumption].
  Qed.

  Lemma alive_after : forall h', hmm_reestimated h data h' -> alive h'.
  Proof.
    intros h' RE. unfold alive. rewrite (after_mode h h' data RE), (after_n h h' data RE). fold N. destruct (hc_mode h) eqn:EM.
    - intros i Hi. destruct HD as (Hne & _). destruct data as [|ph d] eqn:ED; [congruence|]. rewrite <- ED in *. assert (Hp : In ph data) by (rewrite ED; left; reflexivity).
      apply (prior_after_pos h h' data HR HD RE ph i Hi Hp). apply first_visited; assumption.
    - intros i Hi. rewrite (after_trans h h' data RE) by lia. unfold new_trans. rewrite EM. destruct (Nat.eqb_spec (S i) i); [lia|]. rewrite Nat.eqb_refl.
      pose proof (moves_in h data HR HD i (S i)). pose proof (visits_in h data HR HD i). pose proof reg5_pos. pose proof (data_len h data HD). assert (0 < INR (length data) * reg5) by (apply Rmult_lt_0_compat; assumption).
      apply Rdiv_lt_0_compat; lra.
  Qed.

  (** The part of the regularisation is at most half the dimension for every frame. *)
  Lemma hmm_reg_le : (forall i, (i < N)%nat -> proper (state_at h i)) -> (forall i, (i < N)%nat -> regularised (state_at h i)) ->
    hmm_reg_part h data h <= / 2 * (INR (hc_dim h) * INR (length (concat data))).
  Proof.
    intros HP HG. unfold hmm_reg_part. fold N. rewrite Rsum_scal_l. apply Rmult_le_compat_l; [lra|].
    apply Rle_trans with (Rsum N (fun i => INR (hc_dim h) * visits h data i)).
    - apply Rsum_le. intros i Hi. destruct (usable_state h (proj1 HR) i Hi) as (Rg & _ & S2 & _). rewrite (visits_mass h data HR i Hi). rewrite <- Rsum_scal_l. apply Rsum_le. intros c Hc. rewrite (Rmult_comm (INR _)).
      assert (M0 : 0 <= m_mass (weighted_frames h data i) c) by (apply (mass_nonneg (state_at h i)); [apply (weighted_ok h data HR HD i Hi)|exact Hc]).
      apply Rmult_le_compat_l; [exact M0|].
      destruct (HG i Hi c Hc) as (_ & V & sV & pV & E). destruct (HP i Hi c Hc) as (_ & sC & pC). destruct (comp_inv (state_at h i) Rg c Hc) as (Ic & Em & _).
      pose proof (trace_nonneg _ _ _ V sC pC Ic pV) as T. rewrite <- S2. rewrite <- (inverse_trace _ _ _ sC Ic). set (g := state_at h i) in *.
      replace (trace (gc_dim g) (ginv (comp_at g c)) V) with
        (trace (gc_dim g) (ginv (comp_at g c)) (gcov (comp_at g c)) - Rsum (gc_dim g) (fun d => nth d (gc_reg g) 0 * ginv (comp_at g c) d d)) in T; [lra|].
      unfold trace. rewrite <- Rsum_minus. apply Rsum_ext. intros d Hd.
      replace (nth d (gc_reg g) 0 * ginv (comp_at g c) d d) with (Rsum (gc_dim g) (fun j => if Nat.eqb d j then nth j (gc_reg g) 0 * ginv (comp_at g c) j j else 0)).
      + rewrite <- Rsum_minus. apply Rsum_ext. intros j Hj. rewrite (E d j Hd Hj). destruct (Nat.eqb_spec d j) as [->|Hij]; [ring|].
        destruct (gc_mode g); [ring|]. unfold ginv, stored. rewrite Em. destruct (Nat.eqb_spec d j); [congruence|ring].
      + rewrite (Rsum_single _ d); [rewrite Nat.eqb_refl; reflexivity|exact Hd|]. intros j _ Hij. destruct (Nat.eqb_spec d j); [congruence|reflexivity].
    - rewrite Rsum_scal_l. right. f_equal. unfold visits. rewrite <- (Rlsum_map_sum_swap (fun ph i => Rsum (length ph) (fun t => occupancy h ph t i))).
      rewrite (Rlsum_map_ext _ (fun ph => INR (length ph))).
      + clear. induction data as [|ph d IH]; [reflexivity|]. cbn [map concat]. rewrite app_length, plus_INR. unfold Rlsum in *. cbn [fold_right]. rewrite IH. reflexivity.
      + intros ph Hp. destruct (phrases_pos h data HR HD ph Hp) as (_ & _ & HZ). rewrite Rsum_swap. rewrite (Rsum_ext _ _ (fun _ => 1)) by (intros; apply (occ_sum h ph HZ); assumption). rewrite Rsum_const. ring.
  Qed.

  Lemma hmm_reg_nonneg : forall h', hmm_reestimated h data h' -> (forall i, (i < N)%nat -> proper (state_at h' i)) -> 0 <= hmm_reg_part h data h'.
  Proof.
    intros h' RE HP. unfold hmm_reg_part. apply Rsum_nonneg. intros i Hi. apply Rmult_le_pos; [lra|]. apply Rsum_nonneg. intros c Hc.
    apply Rmult_le_pos; [apply (mass_nonneg (state_at h i)); [apply (weighted_ok h data HR HD i Hi)|exact Hc]|]. apply Rsum_nonneg. intros d Hd.
    apply Rmult_le_pos; [left; apply (strong_pos (state_at h i)); [apply (state_strong h HR i Hi)|exact Hd]|].
    destruct (after_state h h' data RE i Hi) as (Rg' & ((_ & ED & _ & _ & EP & _) & _)). assert (EN : gc_n (state_at h' i) = gc_n (state_at h i)) by (unfold gc_n; rewrite EP; reflexivity).
    rewrite <- EN in Hc. destruct (comp_inv (state_at h' i) Rg' c Hc) as (Ic & _). destruct (HP i Hi c Hc) as (_ & sC & pC).
    rewrite <- ED in Hd. rewrite <- (qform_delta (gc_dim (state_at h' i)) (ginv (comp_at (state_at h' i) c)) d Hd). exact (inv_psd _ _ _ _ sC pC Ic).
  Qed.

  Lemma hmm_floor_0 : hmm_above_floor h data -> hmm_floor_part h data = 0.
  Proof.
    intro AF. unfold hmm_floor_part. apply Rsum_zero. intros i Hi. rewrite (Rlsum_map_ext _ (fun _ => 0)); [rewrite Rlsum_map_const; ring|].
    intros p Hp. apply Rsum_zero. intros c Hc. assert (Hs : In (snd p) (concat data)). { rewrite <- (weighted_snd h data i). apply in_map, Hp. }
    unfold comp_lik. fold (comp_pdf (comp_at (state_at h i) c) (snd p)). rewrite Rmax_right by (apply (AF i Hi); assumption). ring.
  Qed.
End Visited.

(** ** Rows of the transitions *)
Lemma rows_after : forall h h' data, hmm_ready h -> phrases_of h data -> hmm_reestimated h data h' -> (hc_mode h = Ergodic \/ length data = 1%nat) -> rows_at_most_one h'.
Proof.
  intros h h' data HR HD RE HC i Hi. rewrite (after_n h h' data RE) in *. rewrite (Rsum_ext _ _ (new_trans h data i)) by (intros; apply (after_trans h h' data RE); assumption).
  pose proof (visits_leaves h data HR HD i) as VL. pose proof (visits_in h data HR HD i) as V0. pose proof reg5_pos as RP. set (D := visits h data i + 2 * reg5).
  assert (E0 : 0 <= Rlsum (map (fun ph => occupancy h ph (length ph - 1) i) data)). { apply Rlsum_nonneg. intros y Hy. apply in_map_iff in Hy. destruct Hy as (ph & <- & Hp). apply (occ_in h data HR HD), Hp. }
  assert (DP : 0 < D) by (unfold D; lra). assert (Q : forall x, x <= D -> x / D <= 1). { intros x Hx. apply (Rmult_le_reg_r D); [exact DP|]. unfold Rdiv. rewrite Rmult_assoc, Rinv_l by lra. lra. }
  assert (MN : forall j, 0 <= moves h data i j) by (intro; apply moves_in; assumption).
  unfold new_trans. fold D. destruct (hc_mode h) eqn:EM.
  - rewrite Rsum_div. fold (leaves h data i). apply Q. unfold D. lra.
  - destruct HC as [HC|HC]; [discriminate|]. rewrite HC. cbn [INR]. rewrite !Rmult_1_l. destruct (Nat.ltb_spec i (hc_n h - 1)) as [L|L].
    + rewrite (Rsum_ext _ _ (fun j => (if Nat.eqb j i then (moves h data i i + reg5) / D else 0) + (if Nat.eqb j (S i) then (moves h data i (S i) + reg5) / D else 0))).
      * rewrite Rsum_plus. rewrite (Rsum_if (hc_n h) i (fun _ => (moves h data i i + reg5) / D)), (Rsum_if (hc_n h) (S i) (fun _ => (moves h data i (S i) + reg5) / D)) by lia.
        unfold Rdiv. rewrite <- Rmult_plus_distr_r. apply Q. unfold D.
        assert (moves h data i i + moves h data i (S i) <= leaves h data i); [|lra]. unfold leaves.
        rewrite <- (Rsum_if (hc_n h) i (moves h data i)), <- (Rsum_if (hc_n h) (S i) (moves h data i)), <- Rsum_plus by lia. apply Rsum_le. intros j Hj.
        destruct (Nat.eqb_spec j i); destruct (Nat.eqb_spec j (S i)); pose proof (MN j); try lia; lra.
      * intros j Hj. destruct (Nat.eqb_spec j i) as [A|A]; destruct (Nat.eqb_spec j (S i)) as [B|B]; try lia; lra.
    + rewrite (Rsum_ext _ _ (fun j => if Nat.eqb j i then (moves h data i i + 2 * reg5) / D else 0)).
      * rewrite (Rsum_if (hc_n h) i (fun _ => (moves h data i i + 2 * reg5) / D)) by exact Hi. apply Q. unfold D.
        assert (moves h data i i <= leaves h data i) by (apply (Rsum_term_le (hc_n h) (moves h data i) i); [intros; apply MN|exact Hi]). lra.
      * intros j Hj. destruct (Nat.eqb_spec j i) as [A|A]; [reflexivity|]. destruct (Nat.eqb_spec j (S i)); [lia|reflexivity].
Qed.

(** ** The first class of a training *)
Lemma cov_proper : forall (f g : gclass RA), gm_ready f -> gm_ready g -> proper f -> gc_n g = gc_n f -> gc_dim g = gc_dim f -> gc_mode g = gc_mode f ->
  (forall c, (c < gc_n f)%nat -> 0 < weight g c) -> (forall c, (c < gc_n f)%nat -> g_cov (comp_at g c) = g_cov (comp_at f c)) -> proper g.
Proof.
  intros f g Rf Rg Pf EN ED EM W V c Hc. rewrite EN in Hc. destruct (Pf c Hc) as (_ & S & P). destruct (comp_inv f Rf c Hc) as (_ & M1 & D1). destruct (comp_inv g Rg c ltac:(rewrite EN; exact Hc)) as (_ & M2 & D2).
  assert (E : gcov (comp_at g c) = gcov (comp_at f c)) by (unfold gcov; rewrite M1, M2, D1, D2, (V c Hc), EM, ED; reflexivity).
  split; [apply W, Hc|]. rewrite ED, E. split; assumption.
Qed.

Lemma init_proper : forall iters devs dev data h s g, hmm_trainable h devs dev data -> (s < hc_n h)%nat -> state_usable h g -> state_value iters devs dev data h s g -> proper g.
Proof.
  intros iters devs dev data h s g (HN & HG & HW & HD & HA & Ldev & Ldevs & (Hne & HF) & EX) Hs U (f & FT & VW & V & _). specialize (Ldevs s Hs).
  destruct FT as (g0 & g1 & g2 & F1 & F2 & F3 & F4 & F5 & F6 & F7). rewrite <- (seg_pieces (hc_n h) s data Hs) in *. set (sd := seg_data (A := RA) (hc_n h) s data) in *.
  destruct (seg_data_ok (hc_n h) (hp_gauss (hc_par h)) s data HN HG Hs EX) as (NE & CN & SC). fold sd in NE, CN, SC.
  assert (N0 : gc_n g0 = hp_gauss (hc_par h)) by (unfold gc_n; rewrite F4; reflexivity).
  assert (SF : Forall (Forall (fun x => length x = hc_dim h)) sd) by (apply seg_data_frames; revert HF; apply Forall_impl; intros ph (_ & F); exact F).
  destruct (training_reg g0 (devs s) sd (iters s)) as (_ & _ & g1' & g2' & f' & E1 & E2 & E3 & Rf & SR & RG & Df & Nf & _).
  { lia. } { unfold good_dims; rewrite F1, F2, F3; exact HD. } { rewrite F2. exact Ldevs. } { exact NE. } { rewrite F2. exact SF. } { rewrite N0. exact SC. } { unfold strong_abs, gc_mode. rewrite F4. exact HA. }
  change (num RA) with R in *. rewrite F5 in E1. injection E1 as <-. rewrite F6 in E2. injection E2 as <-. rewrite F7 in E3. injection E3 as <-.
  destruct U as (Rg & UB & UD & UI & UN & UM & _).
  assert (Mf : gc_mode f = hp_mode (hc_par h)).
  { destruct (alloc_shape g0) as (g1' & A1 & A2 & A3 & A4 & A5 & A6 & A7 & A8); [lia|unfold good_dims; rewrite F1, F2, F3; exact HD|]. change (num RA) with R in *. rewrite F5 in A1. injection A1 as <-.
    assert (N1 : gc_n g1 = hp_gauss (hc_par h)) by (unfold gc_n in *; rewrite A7; exact N0).
    destruct (init_total g1 (devs s) sd A2) as (g2' & k' & I1 & _ & I3 & I4 & I5 & I6 & I7 & I8 & I9 & I10 & _ & _ & IC).
    { rewrite A4, F2. exact Ldevs. } { exact NE. } { rewrite A4, F2. exact SF. } { rewrite N1. exact SC. } { unfold strong_abs, gc_mode. rewrite A7, F4. exact HA. }
    change (num RA) with R in *. rewrite F6 in I1. injection I1 as <-.
    assert (PP : Forall pos_cov (gc_comp g2)).
    { apply (init_pos g1 g2 (devs s) sd A2); try assumption; [rewrite A4, F2; exact Ldevs|rewrite N1; exact SC|unfold strong_abs, gc_mode; rewrite A7, F4; exact HA]. }
    assert (FF : Forall (fun x => length x = gc_dim g2) (concat sd)). { rewrite I7, A4, F2. rewrite Forall_forall in *. intros x Hx. apply in_concat in Hx. destruct Hx as (ph & Hp & Hx). specialize (SF ph Hp). rewrite Forall_forall in SF. apply SF. exact Hx. }
    destruct (updates_pos (iters s) (concat sd) g2 I3 I4 PP CN FF) as (f' & UE & UR & (C1 & C2 & C3 & C4 & C5 & _) & _).
    change (num RA) with R in *. rewrite F7 in UE. injection UE as <-. unfold gc_mode. rewrite C5, I10, A7, F4. reflexivity. }
  apply (cov_proper f g Rf Rg (reg_proper f SR RG)).
  - rewrite UN, Nf, N0. reflexivity.
  - rewrite UD, Df, F2. reflexivity.
  - rewrite UM, Mf. reflexivity.
  - intros c Hc. rewrite VW by (rewrite <- N0, <- Nf; exact Hc). apply Rinv_0_lt_compat, lt_0_INR. lia.
  - intros c Hc. apply V. rewrite <- N0, <- Nf. exact Hc.
Qed.

(** ** All the updates of a training *)
Definition progressing (data : list (list (list R))) (h : hclass RA) : Prop :=
  hmm_ready h /\ phrases_of h data /\ alive h /\ Exists (fun ph => (hc_n h <= length ph)%nat) data /\ (forall i, (i < hc_n h)%nat -> proper (state_at h i)).

Lemma progressing_update : forall data h h' lp, progressing data h -> (forall i, (i < hc_n h)%nat -> min_row <= Rsum (hc_n h) (new_trans h data i)) -> hm_update (A := RA) data h = Ok (h', lp) ->
  progressing data h' /\ (forall i, (i < hc_n h')%nat -> regularised (state_at h' i)) /\ hmm_kept h h' /\ hmm_reestimated h data h'.
Proof.
  intros data h h' lp (HR & HD & AL & EX & HP) HK E. destruct (update_ok h data HR HD) as (h1 & E1 & RE & HE & TN). change (num RA) with R in *. rewrite E1 in E. injection E as -> <-.
  pose proof RE as (K & _). pose proof K as (K1 & K2 & K3 & K4 & K5 & K6). assert (EN : hc_n h' = hc_n h) by (unfold hc_n; rewrite K5; reflexivity).
  pose proof (all_visited h data HR HD AL EX) as VP.
  assert (RG : forall i, (i < hc_n h')%nat -> regularised (state_at h' i)). { intros i Hi. rewrite EN in Hi. apply (after_regularised h h' data HR HD HP RE i Hi). apply VP, Hi. }
  split; [|split; [exact RG|split; [exact K|exact RE]]]. split; [apply (update_ready h data h'); assumption|]. split; [unfold phrases_of; rewrite K2; exact HD|].
  split; [apply (alive_after h data HR HD AL h' RE)|]. rewrite EN. split; [exact EX|]. intros i Hi. apply (after_proper h h' data HR HD HP RE i Hi). apply VP, Hi.
Qed.

Lemma progressing_updates : forall k data h, progressing data h -> rows_kept k data h -> exists h', hm_updates (A := RA) k data h = Ok h' /\ progressing data h' /\ hmm_kept h h' /\
  ((1 <= k)%nat -> forall i, (i < hc_n h')%nat -> regularised (state_at h' i)) /\
  (rows_at_most_one h -> hc_mode h = Ergodic \/ length data = 1%nat -> rows_at_most_one h') /\ (forall m, rows_kept (k + m) data h -> rows_kept m data h').
Proof.
  induction k as [|k IH]; intros data h PR HK; cbn [hm_updates].
  - exists h. split; [reflexivity|]. split; [exact PR|]. split; [unfold hmm_kept; repeat split|]. split; [lia|]. split; [auto|]. intros m Hm. exact Hm.
  - pose proof PR as (HR & HD & _). destruct (update_ok h data HR HD) as (h1 & E1 & RE & HE & TN). cbn [rows_kept] in HK. destruct HK as (HK1 & HK2).
    destruct (progressing_update data h h1 _ PR HK1 E1) as (PR1 & RG1 & K & _). change (num RA) with R in *. rewrite E1. cbn [bind].
    destruct (IH data h1 PR1 (HK2 h1 _ E1)) as (h' & E' & PR' & K' & RG' & RO' & RK'). exists h'. split; [exact E'|]. split; [exact PR'|].
    pose proof K as (Q1 & Q2 & Q3 & Q4 & Q5 & Q6 & Q7 & Q8 & Q9). split; [destruct K' as (S1 & S2 & S3 & S4 & S5 & S6 & S7 & S8 & S9); unfold hmm_kept; repeat split; congruence|].
    split; [|split].
    + intros _. destruct k as [|k]; [|apply RG'; lia]. cbn [hm_updates] in E'. injection E' as <-. exact RG1.
    + intros _ HC. apply RO'; [apply (rows_after h h1 data HR HD RE HC)|]. destruct HC as [HC|HC]; [left; unfold hc_mode in *; rewrite Q5; exact HC|right; exact HC].
    + intros m Hm. cbn [Nat.add rows_kept] in Hm. apply RK'. apply (proj2 Hm h1 _ E1).
Qed.

Lemma init_progressing : forall iters devs dev data h, hmm_trainable h devs dev data -> exists h1 h2, hm_allocate (A := RA) h = Ok h1 /\ hm_init (A := RA) iters devs dev data h1 = Ok h2 /\
  progressing data h2 /\ rows_at_most_one h2 /\ frame_kept h h2.
Proof.
  intros iters devs dev data h HT. destruct (init_values iters devs dev data h HT) as (h1 & h2 & E1 & E2 & R2 & K & T & P & V). exists h1, h2. split; [exact E1|]. split; [exact E2|].
  pose proof K as (K1 & K2 & K3 & K4 & K5 & K6). assert (EN : hc_n h2 = hc_n h) by (unfold hc_n; rewrite K5; reflexivity). assert (EM : hc_mode h2 = hc_mode h) by (unfold hc_mode; rewrite K5; reflexivity).
  pose proof HT as (HN & HG & HW & HDm & HA & Ldev & Ldevs & HD & EX). destruct (init_ready iters devs dev data h HT) as (h1' & h2' & E1' & E2' & _ & ST & _). change (num RA) with R in *. rewrite E1 in E1'. injection E1' as <-. rewrite E2 in E2'. injection E2' as <-.
  split; [|split; [|exact K]].
  - split; [exact R2|]. split; [unfold phrases_of; rewrite K2; exact HD|]. split; [|split].
    + unfold alive. rewrite EM, EN. destruct (hc_mode h) eqn:M.
      * intros i Hi. rewrite (P i Hi). unfold first_prior. apply Rinv_0_lt_compat, lt_0_INR. lia.
      * intros i Hi. rewrite (T i (S i)) by lia. unfold first_trans. destruct (Nat.eqb_spec (S i) (hc_n h)); [lia|]. rewrite Nat.eqb_refl, orb_true_r. lra.
    + rewrite EN. revert EX. apply Exists_impl. intros ph HL. nia.
    + intros i Hi. rewrite EN in Hi. apply (init_proper iters devs dev data h i (state_at h2 i) HT Hi); [|apply V, Hi].
      pose proof (usable_state h2 (proj1 R2) i ltac:(rewrite EN; exact Hi)) as U. unfold state_usable in *. rewrite K1, K2, K3, K5 in U. exact U.
  - intros i Hi. rewrite EN in Hi. destruct ST as (_ & _ & ST). unfold hc_trans. rewrite EN, EM. right. apply ST, Hi.
Qed.
