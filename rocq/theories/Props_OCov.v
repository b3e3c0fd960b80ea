(** C106: the output covariances of hidden Markov models. *)
From Coq Require Import String List Bool Arith ZArith Reals Lra Lia.
From Verif Require Import Base Arith BaseFacts RFacts Model_Ring Model_Gaussian Model_Config Model_KMeans Model_GMM Model_HMM
  Proofs_GMM Proofs_GMM3 Spec_Common Spec_Matrix Spec_Det Spec_Gaussian Spec_GMM Spec_HMM Spec_OCov Proofs_HMM4 Proofs_HMM5 Proofs_HMM13 Proofs_DetFacts Proofs_OCov Props_HMM.
Import ListNotations.
Local Open Scope list_scope.
Local Open Scope R_scope.

(** With the Full estimator, the covariances are those of the output: the combination of the outputs of the
    states with their probabilities. *)
Theorem C106_full : forall h, hmm_usable h -> hmm_fresh h -> hc_bim h = true -> hp_est (hc_par h) = RFull -> forall xs x, Forall (fun x => length x = hmm_obs_dim h) (xs ++ [x]) ->
  exists h', hm_filters (A := RA) (xs ++ [x]) h = Ok h' /\ length (h_ocov (hc_run h')) = csize (hp_mode (hc_par h)) (hc_dim h - hc_din h) /\
    (forall d, (d < hc_dim h - hc_din h)%nat -> nth d (h_out (hc_run h')) 0 = Rsum (hc_n h) (fun i => out_coef h (hmm_filtering h (xs ++ [x])) (h_like (hc_run h')) i * class_out (state_at h i) x d)) /\
    forall j, (j < csize (hp_mode (hc_par h)) (hc_dim h - hc_din h))%nat -> nth j (h_ocov (hc_run h')) 0 = hmm_ocov h (hmm_filtering h (xs ++ [x])) (h_like (hc_run h')) x j.
Proof.
  intros h U F HB HE xs x D. destruct (filters_ocov h U F HB xs x D) as (h' & E & FM & L & V). destruct (filters_report h U F xs x D) as (h2 & E2 & _ & _ & _ & (_ & _ & RO)). assert (Q : Ok h2 = Ok h') by (rewrite <- E2, <- E; reflexivity). injection Q as ->.
  destruct (RO HB) as (_ & _ & VO). exists h'. split; [exact E|]. split; [exact L|]. split.
  - intros d Hd. rewrite (VO d Hd). unfold hmm_output, out_coef. rewrite HE. reflexivity.
  - intros j Hj. rewrite (V j Hj). cbv zeta. unfold hmm_ocov, comb_var, out_coef. rewrite HE. reflexivity.
Qed.
Print Assumptions C106_full.

(** With the Windowed estimator, they are those of the output multiplied by the probability that the state is
    in the window. *)
Theorem C106_windowed : forall h, hmm_usable h -> hmm_fresh h -> hc_bim h = true -> hp_est (hc_par h) = RWindowed -> (2 <= hc_n h)%nat -> forall xs x, Forall (fun x => length x = hmm_obs_dim h) (xs ++ [x]) ->
  exists h', hm_filters (A := RA) (xs ++ [x]) h = Ok h' /\ length (h_ocov (hc_run h')) = csize (hp_mode (hc_par h)) (hc_dim h - hc_din h) /\
    (forall d, (d < hc_dim h - hc_din h)%nat -> nth d (h_out (hc_run h')) 0 = Rsum (hc_n h) (fun i => out_coef h (hmm_filtering h (xs ++ [x])) (h_like (hc_run h')) i * class_out (state_at h i) x d)) /\
    let w := hmm_filtering h (xs ++ [x]) in let l := h_like (hc_run h') in
    let M := 1 - Rsum (hc_n h) (fun i => if in_window (hc_n h) l i then 0 else w i) in 0 < M <= 1 /\
    forall j, (j < csize (hp_mode (hc_par h)) (hc_dim h - hc_din h))%nat -> nth j (h_ocov (hc_run h')) 0 = M * hmm_ocov h w l x j.
Proof.
  intros h U F HB HE HN xs x D. destruct (filters_ocov h U F HB xs x D) as (h' & E & FM & L & V). destruct (filters_report h U F xs x D) as (h2 & E2 & _ & _ & _ & (_ & _ & RO)). assert (Q : Ok h2 = Ok h') by (rewrite <- E2, <- E; reflexivity). injection Q as ->.
  destruct (RO HB) as (_ & _ & VO). exists h'. split; [exact E|]. split; [exact L|]. split.
  { intros d Hd. rewrite (VO d Hd). unfold hmm_output, out_coef. rewrite HE. apply Rsum_ext. intros i Hi. destruct (in_window (hc_n h) (h_like (hc_run h')) i); lra. }
  cbv zeta. set (w := hmm_filtering h (xs ++ [x])) in *. set (l := h_like (hc_run h')) in *.
  assert (DW : distribution (hc_n h) w) by (apply (filtering_dist h U); destruct xs; discriminate). assert (WP := window_pos (hc_n h) l w HN DW FM). destruct DW as (D1 & D2).
  assert (EM : 1 - Rsum (hc_n h) (fun i => if in_window (hc_n h) l i then 0 else w i) = window_mass (hc_n h) l w).
  { rewrite <- D2. unfold window_mass. rewrite <- Rsum_minus. apply Rsum_ext. intros i Hi. destruct (in_window (hc_n h) l i); lra. }
  split; [split; [rewrite EM; exact WP|]|].
  - assert (0 <= Rsum (hc_n h) (fun i => if in_window (hc_n h) l i then 0 else w i)); [|lra]. apply Rsum_nonneg. intros i Hi. destruct (in_window (hc_n h) l i); [lra|apply D1; exact Hi].
  - intros j Hj. rewrite (V j Hj). cbv zeta. rewrite HE, EM. unfold hmm_ocov, comb_var, out_coef. rewrite HE, <- Rsum_scal_l. apply Rsum_ext. intros i Hi. destruct (in_window (hc_n h) l i); [field; lra|ring].
Qed.
Print Assumptions C106_windowed.

(** With the Likeliest estimator, they are 0, although the output has the covariances of the likeliest state:
    its variances are positive. *)
Theorem C106_likeliest_refuted : forall h, hmm_usable h -> hmm_fresh h -> hc_bim h = true -> hp_est (hc_par h) = RLikeliest -> forall xs x, Forall (fun x => length x = hmm_obs_dim h) (xs ++ [x]) ->
  exists h', hm_filters (A := RA) (xs ++ [x]) h = Ok h' /\ length (h_ocov (hc_run h')) = csize (hp_mode (hc_par h)) (hc_dim h - hc_din h) /\
    (forall d, (d < hc_dim h - hc_din h)%nat -> nth d (h_out (hc_run h')) 0 = Rsum (hc_n h) (fun i => out_coef h (hmm_filtering h (xs ++ [x])) (h_like (hc_run h')) i * class_out (state_at h i) x d)) /\
    forall j, (j < csize (hp_mode (hc_par h)) (hc_dim h - hc_din h))%nat -> nth j (h_ocov (hc_run h')) 0 = 0 /\
      ((forall i c, (i < hc_n h)%nat -> (c < gc_n (state_at h i))%nat -> 0 < nth j (g_out (comp_at (state_at h i) c)) 0) -> 0 < hmm_ocov h (hmm_filtering h (xs ++ [x])) (h_like (hc_run h')) x j).
Proof.
  intros h U F HB HE xs x D. destruct (filters_ocov h U F HB xs x D) as (h' & E & FM & L & V). destruct (filters_report h U F xs x D) as (h2 & E2 & _ & _ & _ & (_ & _ & RO)). assert (Q : Ok h2 = Ok h') by (rewrite <- E2, <- E; reflexivity). injection Q as ->.
  destruct (RO HB) as (_ & _ & VO). exists h'. split; [exact E|]. split; [exact L|]. destruct FM as (Hl & _). set (l := h_like (hc_run h')) in *. split.
  { intros d Hd. rewrite (VO d Hd). unfold hmm_output, out_coef. rewrite HE. symmetry. exact (Rsum_delta _ l (fun i => class_out (state_at h i) x d) Hl). }
  intros j Hj. split; [rewrite (V j Hj), HE; reflexivity|]. intros P. unfold hmm_ocov, comb_var, out_coef. rewrite HE. rewrite (Rsum_single _ l); [rewrite Nat.eqb_refl|exact Hl|intros i Hi Ne; apply Nat.eqb_neq in Ne; rewrite Ne; ring].
  rewrite !Rmult_1_l. destruct (usable_state h U l Hl) as ((Hs & Hi & Dw) & _). destruct Hs as (G1 & _). destruct (posterior_dist (state_at h l) x G1 Dw) as (P1 & P2). unfold class_ocov, comb_var.
  set (T := fun c => posterior (state_at h l) x c * posterior (state_at h l) x c * nth j (g_out (comp_at (state_at h l) c)) 0).
  assert (T0 : forall c, (c < gc_n (state_at h l))%nat -> 0 <= T c) by (intros c Hc; unfold T; specialize (P l c Hl Hc); apply Rmult_le_pos; [apply Rle_0_sqr|lra]).
  destruct (Rle_lt_dec (Rsum (gc_n (state_at h l)) T) 0) as [Z|Z]; [|exact Z]. exfalso.
  assert (Z0 : Rsum (gc_n (state_at h l)) T = 0) by (apply Rle_antisym; [exact Z|apply Rsum_nonneg; exact T0]).
  assert (Rsum (gc_n (state_at h l)) (posterior (state_at h l) x) = 0); [|lra]. apply Rsum_zero. intros c Hc. assert (X := Rsum_eq0 _ T T0 Z0 c Hc). unfold T in X. specialize (P l c Hl Hc).
  apply Rmult_integral in X. destruct X as [X|X]; [|change (num RA) with R in *; lra]. apply Rmult_integral in X. destruct X; assumption.
Qed.
Print Assumptions C106_likeliest_refuted.

(** A trained class with one Gaussian per state, for every estimator. *)
Example C106_meets : forall t (m : cmode) e n, (1 <= n <= 4)%nat -> exists h, hmm_usable h /\ hmm_fresh h /\ hc_bim h = true /\ hp_est (hc_par h) = e /\ hc_n h = n /\ hc_mode h = t /\ hp_mode (hc_par h) = m /\ Forall (fun x => length x = hmm_obs_dim h) ([[0]; [1]] ++ [[5]]) /\
  csize m (hc_dim h - hc_din h) = 1%nat /\ forall i c, (i < hc_n h)%nat -> (c < gc_n (state_at h i))%nat -> 0 < nth 0 (g_out (comp_at (state_at h i) c)) 0.
Proof.
  intros t m e n Hn. destruct (hx_usable t m e n Hn) as (h & h' & _ & _ & _ & _ & _ & U & F & _ & P & B & D & I). exists h'. split; [exact U|]. split; [exact F|]. split; [exact B|]. split; [rewrite P; reflexivity|].
  assert (N : hc_n h' = n) by (unfold hc_n; rewrite P; reflexivity). split; [exact N|]. split; [unfold hc_mode; rewrite P; reflexivity|]. split; [rewrite P; reflexivity|]. split; [unfold hmm_obs_dim; rewrite B, I; repeat constructor|].
  split; [rewrite D, I; destruct m; reflexivity|]. intros i c Hi Hc. destruct (usable_state h' U i Hi) as ((Hs & Hv & _) & B1 & B2 & B3 & _).
  destruct (comp_fits _ Hs c Hc) as (W & FB & FD & FI & FM). pose proof (comp_inv _ Hs Hv c Hc) as (I1 & I2 & I3 & I4). set (k := comp_at (state_at h' i) c) in *.
  assert (Eb : g_bim k = true) by congruence. assert (Ed : g_dim k = 2%nat) by congruence. assert (Ei : g_din k = 1%nat) by congruence.
  destruct (I4 Eb) as (J1 & J2 & J3 & J4 & J5). rewrite Ed, Ei in *. rewrite I2, Rdet_2 in I3. rewrite J2 in J3. cbn [Rdet Rsum] in J3. unfold sg in J3. cbn in J3.
  specialize (J5 0%nat 0%nat ltac:(lia) ltac:(lia)). cbn [Rsum Nat.add Nat.sub] in J5.
  assert (X : gcov k 0%nat 0%nat * ginv_in k 0%nat 0%nat = 1). { destruct (J1 0%nat 0%nat ltac:(lia) ltac:(lia)) as (Y & Y'). cbn in Y, Y'. lra. }
  assert (A0 : 0 < gcov k 0%nat 0%nat) by lra.
  assert (E0 : gout k 0%nat 0%nat = nth 0 (g_out k) 0) by (unfold gout, stored; destruct (g_mode k); reflexivity).
  rewrite <- E0, J5. apply Rmult_lt_reg_l with (gcov k 0%nat 0%nat); [exact A0|]. rewrite Rmult_0_r.
  replace (gcov k 0%nat 0%nat * (gcov k 1%nat 1%nat - (0 + (0 + gcov k 1%nat 0%nat * ginv_in k 0%nat 0%nat * gcov k 0%nat 1%nat)))) with (gcov k 0%nat 0%nat * gcov k 1%nat 1%nat - (gcov k 0%nat 0%nat * ginv_in k 0%nat 0%nat) * (gcov k 0%nat 1%nat * gcov k 1%nat 0%nat)) by ring. rewrite X. lra.
Qed.
