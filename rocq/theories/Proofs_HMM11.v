(** Training of a class: initialisation. *)
From Coq Require Import String List Bool Arith ZArith Reals Lra Lia.
From Coq Require Import QArith Qreals.
From Verif Require Import Base Arith BaseFacts RFacts Model_Ring Proofs_Ring Model_Gaussian Model_Config Model_KMeans Model_GMM Model_HMM
  Proofs_Gaussian Proofs_Gaussian2 Proofs_Gaussian3 Proofs_KMeans Proofs_GMM Proofs_GMM2 Proofs_GMM4 Spec_Common Spec_Matrix Spec_Gaussian Spec_GMM Spec_HMM
  Proofs_HMM Proofs_HMM2 Proofs_HMM3 Proofs_HMM4 Proofs_HMM5 Proofs_HMM6 Proofs_HMM7 Proofs_HMM8 Proofs_HMM9 Proofs_HMM10.
Import ListNotations.
Local Open Scope list_scope.
Local Open Scope nat_scope.
Local Open Scope R_scope.

Lemma pos_same : forall k k' : gauss RA, same_params k k' -> pos_cov k -> pos_cov k'.
Proof.
  intros k k' SP H. pose proof (gcov_same k k' SP) as E. destruct SP as (S1 & S2 & S3 & S4 & S5 & S6). unfold pos_cov in *. rewrite <- S4, <- S2. destruct (g_mode k).
  - destruct H as (rho & Hr & H). exists rho. split; [exact Hr|]. rewrite E. exact H.
  - intros d Hd. rewrite E. apply H, Hd.
Qed.

(** A covariance that is psd plus a regularisation. *)
Lemma reg_pos_cov : forall (g : gclass RA) k (C : nat -> nat -> R) (r : nat -> R), fits_class g k -> (forall v, 0 <= qform (gc_dim g) C v) -> (forall d, (d < gc_dim g)%nat -> 0 <= C d d) ->
  (forall d, (d < gc_dim g)%nat -> match gc_mode g with Full => eps9 <= r d | Diagonal => 0 < r d end) ->
  (forall i j, (i < gc_dim g)%nat -> (j < gc_dim g)%nat -> (gc_mode g = Full \/ i = j) -> gcov k i j = C i j + if Nat.eqb i j then r i else 0) -> pos_cov k.
Proof.
  intros g k C r (W & FB & FD & FI & FM) PSD DG HR V. unfold pos_cov. rewrite FM, FD. destruct (gc_mode g).
  - exists eps9. split; [lra|]. intro v. rewrite (qform_ext _ _ (fun i j => C i j + if Nat.eqb i j then r i else 0)) by (intros; apply V; auto). apply regularized_pd; [exact PSD|exact HR].
  - intros d Hd. rewrite V by auto. rewrite Nat.eqb_refl. specialize (DG d Hd). specialize (HR d Hd). lra.
Qed.

Lemma init_pos : forall (g g' : gclass RA) (dev : list R) (data : kdata RA), gm_shape g -> length dev = gc_dim g -> (1 <= seg_count (gc_n g) data)%nat -> strong_abs g ->
  gm_ready g' -> gc_bim g' = gc_bim g -> gc_dim g' = gc_dim g -> gc_din g' = gc_din g -> gc_par g' = gc_par g ->
  (forall c, (c < gc_n g)%nat -> forall i j, (i < gc_dim g)%nat -> (j < gc_dim g)%nat -> gcov (comp_at g' c) i j = init_cov g dev data c i j) -> Forall pos_cov (gc_comp g').
Proof.
  intros g g' dev data Hs Hdev Hseg SA ((S1 & S2 & S3 & S4 & S5) & _ & _) EB ED EI EP V.
  assert (EN : gc_n g' = gc_n g) by (unfold gc_n; rewrite EP; reflexivity). assert (EM : gc_mode g' = gc_mode g) by (unfold gc_mode; rewrite EP; reflexivity).
  assert (RB : forall d, (d < gc_dim g)%nat -> gp_abs (gc_par g) <= nth d (init_reg g dev) 0).
  { intros d Hd. unfold init_reg. rewrite (nth_indep _ 0 (Rmax (gp_abs (gc_par g)) (gp_rel (gc_par g) * 0))) by (rewrite map_length, Hdev; exact Hd).
    rewrite (map_nth (fun s => Rmax (gp_abs (gc_par g)) (gp_rel (gc_par g) * s)) dev 0 d). apply Rmax_l. }
  apply (Forall_at _ _ no_gauss). intros c Hc. change (num RA) with R in *. rewrite S3, EN in Hc. pose proof (seg_nonempty g dev data Hdev Hseg c Hc) as NE.
  apply (reg_pos_cov g' _ (plain_cov (seg_frames (gc_n g) c data)) (fun d => nth d (init_reg g dev) 0)).
  - rewrite Forall_forall in S5. apply S5, nth_In. rewrite S3, EN. exact Hc.
  - rewrite ED. intro v. apply (plain_cov_psd _ _ v NE).
  - intros d Hd. unfold plain_cov, avg at 1. apply Rmult_le_pos; [|left; apply Rinv_0_lt_compat, lt_0_INR; destruct (seg_frames (gc_n g) c data); [contradiction|cbn; lia]].
    apply Rlsum_nonneg. intros y Hy. apply in_map_iff in Hy. destruct Hy as (x & <- & Hx). apply Rle_0_sqr.
  - rewrite ED, EM. intros d Hd. specialize (RB d Hd). unfold strong_abs in SA. destruct (gc_mode g); lra.
  - rewrite ED, EM. intros i j Hi Hj HM. change (gcov (comp_at g' c) i j = plain_cov (seg_frames (gc_n g) c data) i j + (if (i =? j)%nat then nth i (init_reg g dev) 0 else 0)). rewrite V by assumption. unfold init_cov.
    destruct (Nat.eqb_spec i j) as [<-|D]; [reflexivity|]. destruct HM as [HM|HM]; [|congruence]. rewrite HM. lra.
Qed.

Lemma updates_pos : forall k frames (g : gclass RA), gm_ready g -> strong_reg g -> Forall pos_cov (gc_comp g) -> frames <> [] -> Forall (fun x => length x = gc_dim g) frames ->
  exists g', gm_updates (A := RA) k frames g = Ok g' /\ gm_ready g' /\ same_class g g' /\ Forall pos_cov (gc_comp g').
Proof.
  induction k as [|k IH]; intros frames g Rg Sg PP Hne Hf; cbn [gm_updates].
  - exists g. split; [reflexivity|]. split; [exact Rg|]. split; [unfold same_class; repeat split|exact PP].
  - pose proof Rg as (Sh & I & D). destruct (update_total g frames Sh I (proj1 D) Hf Hne (proj1 Sg) Sg) as (g1 & E & (SC & L1 & L2 & _ & _ & _ & V) & R1). rewrite E. cbn [bind].
    pose proof SC as (S1 & S2 & S3 & S4 & S5 & S6 & S7 & S8). pose proof R1 as ((Q1 & Q2 & Q3 & Q4 & Q5) & _).
    destruct (IH frames g1 R1) as (g' & E' & R' & SC' & P').
    { unfold strong_reg, gc_mode in *. rewrite S2, S5, S7. exact Sg. }
    { apply (Forall_at _ _ no_gauss). change (num RA) with R in *. rewrite L2. intros c Hc. apply (reg_pos_cov g1 _ (wcov g frames c) (fun d => nth d (gc_reg g) 0)).
      - rewrite Forall_forall in Q5. apply Q5, nth_In. rewrite L2. exact Hc.
      - rewrite S2. intro v. apply (wcov_psd g frames Sh (proj1 D) Hne c v Hc).
      - rewrite S2. intros d Hd. apply (wcov_diag g frames Sh (proj1 D) Hne c d Hc).
      - unfold gc_mode. rewrite S2, S5. apply Sg.
      - unfold gc_mode. rewrite S2, S5. intros i j Hi Hj HM. change (gcov (comp_at g1 c) i j = wcov g frames c i j + (if (i =? j)%nat then nth i (gc_reg g) 0 else 0)). rewrite V by assumption. unfold new_cov, gc_mode.
        destruct (Nat.eqb_spec i j) as [<-|NE]; [reflexivity|]. destruct HM as [HM|HM]; [|congruence]. rewrite HM. lra. }
    { exact Hne. }
    { rewrite S2. exact Hf. }
    exists g'. split; [exact E'|]. split; [exact R'|]. split; [|exact P']. unfold same_class in *. destruct SC' as (T1 & T2 & T3 & T4 & T5 & T6 & T7 & T8). repeat split; congruence.
Qed.

(** The default parameters can be inverted. *)
Lemma default_pos : forall (g : gclass RA) dev, gm_shape g -> length dev = gc_dim g -> strong_abs g ->
  exists g', gm_default (A := RA) dev g = Ok g' /\ gm_shape g' /\ Forall pos_cov (gc_comp g') /\ strong_reg g' /\ distribution (gc_n g) (weight g') /\
    gc_bim g' = gc_bim g /\ gc_dim g' = gc_dim g /\ gc_din g' = gc_din g /\ gc_win g' = gc_win g /\ gc_par g' = gc_par g /\ gc_buf g' = gc_buf g.
Proof.
  intros g dev Hs Hdev SA. pose proof Hs as (H1 & H2 & H3 & H4 & H5). destruct (default_ok g dev Hs Hdev) as (cs & E & L & F & V). change (num RA) with R in *. rewrite E. eexists. split; [reflexivity|].
  assert (RB : forall d, (d < gc_dim g)%nat -> gp_abs (gc_par g) <= nth d (init_reg g dev) 0).
  { intros d Hd. unfold init_reg. rewrite (nth_indep _ 0 (Rmax (gp_abs (gc_par g)) (gp_rel (gc_par g) * 0))) by (rewrite map_length, Hdev; exact Hd).
    rewrite (map_nth (fun s => Rmax (gp_abs (gc_par g)) (gp_rel (gc_par g) * s)) dev 0 d). apply Rmax_l. }
  assert (RS : forall d, (d < gc_dim g)%nat -> match gc_mode g with Full => eps9 <= nth d (init_reg g dev) 0 | Diagonal => 0 < nth d (init_reg g dev) 0 end).
  { intros d Hd. specialize (RB d Hd). unfold strong_abs in SA. destruct (gc_mode g); lra. }
  assert (PA : gc_mode g = Full -> 0 < gp_abs (gc_par g)) by (intro M; unfold strong_abs in SA; rewrite M in SA; unfold eps9 in SA; lra).
  split; [split; [exact H1|]; split; [apply repeat_length|]; split; [exact L|]; split; [exact H4|exact F]|].
  split; [|split; [|split; [|repeat split]]].
  - cbn [gc_comp gc_set_comp gc_set_reg]. apply (Forall_at _ _ no_gauss). rewrite L. intros c Hc.
    apply (reg_pos_cov g _ (fun _ _ => match gc_mode g with Full => gp_abs (gc_par g) / 2 | Diagonal => 0 end) (fun d => nth d (init_reg g dev) 0)).
    + rewrite Forall_forall in F. apply F, nth_In. rewrite L. exact Hc.
    + intro v. rewrite (qform_ext _ _ (fun i j => Rlsum (map (fun _ : unit => match gc_mode g with Full => gp_abs (gc_par g) | Diagonal => 0 end * 1 * 1) [tt]) / 2)).
      * apply (outer_psd [tt] (fun _ => match gc_mode g with Full => gp_abs (gc_par g) | Diagonal => 0 end) (fun _ _ => 1) 2); [lra|]. intros. destruct (gc_mode g); [left; apply PA; reflexivity|lra].
      * intros. cbn. unfold Rlsum. cbn. destruct (gc_mode g); lra.
    + intros d Hd. destruct (gc_mode g); [specialize (PA eq_refl); lra|lra].
    + exact RS.
    + intros i j Hi Hj _. apply V; assumption.
  - split; [cbn; unfold init_reg; rewrite map_length, Hdev; apply le_n|]. exact RS.
  - assert (HW : forall c, (c < gc_n g)%nat -> nth c (repeat (/ INR (gc_n g)) (gc_n g)) 0 = / INR (gc_n g)) by (intros; rewrite (nth_indep _ 0 (/ INR (gc_n g))) by (rewrite repeat_length; assumption); apply nth_repeat).
    assert (NP : 0 < INR (gc_n g)) by (apply lt_0_INR; lia). split.
    + intros c Hc. change (0 <= nth c (repeat (/ INR (gc_n g)) (gc_n g)) 0). rewrite HW by exact Hc. left. apply Rinv_0_lt_compat, NP.
    + change (Rsum (gc_n g) (fun c => nth c (repeat (/ INR (gc_n g)) (gc_n g)) 0) = 1). rewrite (Rsum_ext _ _ (fun _ => / INR (gc_n g))) by exact HW. rewrite Rsum_const. field. lra.
Qed.

(** ** Adoption of the parameters of a mixture *)
Lemma adopt_ok : forall src g : gclass RA, gm_shape g -> Forall pos_cov (gc_comp g) -> distribution (gc_n g) (weight g) ->
  length (gc_comp src) = gc_n g -> Forall (fits_class g) (gc_comp src) -> Forall pos_cov (gc_comp src) ->
  exists g', adopt (A := RA) src g = Ok g' /\ gm_ready g' /\ same_class g g' /\ gc_coef g' = gc_coef g /\
    forall c, (c < gc_n g)%nat -> g_mean (comp_at g' c) = g_mean (comp_at src c) /\ g_cov (comp_at g' c) = g_cov (comp_at src c).
Proof.
  intros src g Hs PP D LS FS PS. pose proof Hs as (H1 & H2 & H3 & H4 & H5). unfold adopt.
  destruct (iterM_inv (fun k (st : gclass RA) => exists cs, st = gc_set_comp cs g /\ length cs = gc_n g /\ Forall (fits_class g) cs /\ Forall pos_cov cs /\ ((0 < k)%nat -> Forall inverted cs) /\
      forall c, (c < k)%nat -> (c < gc_n g)%nat -> g_mean (nth c cs no_gauss) = g_mean (comp_at src c) /\ g_cov (nth c cs no_gauss) = g_cov (comp_at src c)) (gc_n g)
    (fun c g => let* s := rd (gc_comp src) c in let* k := rd (gc_comp g) c in let* cs := wr (gc_comp g) c (g_set_cov (A := RA) (g_cov s) (g_set_mean (A := RA) (g_mean s) k)) in gm_inverses (A := RA) (gc_set_comp cs g)) g)
    as (g' & E & cs & -> & L & F & P & I & V).
  - exists (gc_comp g). split; [destruct g; reflexivity|]. split; [exact H3|]. split; [exact H5|]. split; [exact PP|]. split; [lia|]. intros c Hc. lia.
  - intros k st Hk (cs & -> & L & F & P & I & V). change (gc_comp (gc_set_comp cs g)) with cs. change (num RA) with R in *.
    rewrite (rd_nth (gc_comp src) k no_gauss) by (rewrite LS; exact Hk). cbn [bind]. rewrite (rd_nth cs k no_gauss) by (rewrite L; exact Hk). cbn [bind]. rewrite wr_ok by (rewrite L; exact Hk). cbn [bind].
    fold (comp_at src k). set (new := g_set_cov (A := RA) (g_cov (comp_at src k)) (g_set_mean (A := RA) (g_mean (comp_at src k)) (nth k cs no_gauss))).
    assert (FK : fits_class g (nth k cs no_gauss)) by (rewrite Forall_forall in F; apply F, nth_In; rewrite L; exact Hk).
    assert (FSK : fits_class g (comp_at src k)) by (rewrite Forall_forall in FS; apply FS, nth_In; change (num RA) with R in *; rewrite LS; exact Hk).
    assert (PSK : pos_cov (comp_at src k)) by (rewrite Forall_forall in PS; apply PS, nth_In; change (num RA) with R in *; rewrite LS; exact Hk).
    assert (SP : same_params (comp_at src k) new). { destruct FK as (_ & A1 & A2 & A3 & A4). destruct FSK as (_ & B1 & B2 & B3 & B4). unfold same_params, new. cbn. repeat split; congruence. }
    assert (WN : wf_gauss new).
    { destruct FK as ((W1 & W2 & W3 & W4) & A1 & A2 & A3 & A4). destruct FSK as ((X1 & X2 & X3 & X4) & B1 & B2 & B3 & B4). unfold wf_gauss, new. cbn. rewrite A2, A4. rewrite B2 in X1. rewrite B2, B4 in X2. rewrite A2, A4 in W3. rewrite A2, A4 in W4.
      split; [exact X1|]. split; [exact X2|]. split; [exact W3|exact W4]. }
    assert (FU : Forall (fun q => fits_class g q /\ pos_cov q) (upd cs k new)).
    { apply (Forall_at _ _ no_gauss). rewrite upd_length, L. intros c Hc. destruct (Nat.eq_dec c k) as [->|NE].
      - rewrite nth_upd_eq by (rewrite L; exact Hk). split; [apply (fits_same g _ _ FSK SP WN)|apply (pos_same _ _ SP PSK)].
      - rewrite nth_upd_neq by auto. rewrite Forall_forall in F, P. split; [apply F|apply P]; apply nth_In; rewrite L; exact Hc. }
    destruct (inverses_ok (gc_set_comp (upd cs k new) g)) as (cs' & EI & F2).
    { cbn [gc_comp gc_set_comp]. revert FU. apply Forall_impl. intros q ((W & _) & Q). auto. }
    change (gc_set_comp (upd cs k new) (gc_set_comp cs g)) with (gc_set_comp (upd cs k new) g). rewrite EI. exists (gc_set_comp cs' g). split; [reflexivity|]. cbn [gc_comp gc_set_comp] in F2.
    assert (L' : length cs' = gc_n g) by (rewrite <- (Proofs_KMeans.Forall2_len _ _ _ F2), upd_length; exact L).
    assert (AT : forall c, (c < gc_n g)%nat -> fits_class g (nth c cs' no_gauss) /\ pos_cov (nth c cs' no_gauss) /\ inverted (nth c cs' no_gauss) /\ same_params (nth c (upd cs k new) no_gauss) (nth c cs' no_gauss)).
    { intros c Hc. destruct (Forall2_at _ _ _ F2 c no_gauss no_gauss ltac:(rewrite upd_length, L; exact Hc)) as (S & W & IV). rewrite Forall_forall in FU. destruct (FU (nth c (upd cs k new) no_gauss)) as (FC & PC); [apply nth_In; rewrite upd_length, L; exact Hc|].
      split; [exact (fits_same g _ _ FC S W)|]. split; [exact (pos_same _ _ S PC)|]. split; [exact IV|exact S]. }
    exists cs'. split; [reflexivity|]. split; [exact L'|]. split; [apply (Forall_at _ _ no_gauss); rewrite L'; intros; apply AT; assumption|]. split; [apply (Forall_at _ _ no_gauss); rewrite L'; intros; apply AT; assumption|].
    split; [intros _; apply (Forall_at _ _ no_gauss); rewrite L'; intros; apply AT; assumption|]. intros c Hc Hc'. destruct (AT c Hc') as (_ & _ & _ & (_ & _ & _ & _ & E1 & E2)). rewrite <- E1, <- E2. destruct (Nat.eq_dec c k) as [->|NE].
    + rewrite nth_upd_eq by (rewrite L; exact Hk). split; reflexivity.
    + rewrite nth_upd_neq by auto. apply V; lia.
  - exists (gc_set_comp cs g). split; [exact E|]. split.
    + split; [split; [exact H1|split; [exact H2|split; [exact L|split; [exact H4|exact F]]]]|]. split; [apply I; lia|exact D].
    + split; [unfold same_class; cbn; repeat split|]. split; [reflexivity|]. intros c Hc. apply V; assumption.
Qed.

(** ** The data of a state *)
Lemma seg_data_frames : forall (P : list R -> Prop) N s data, Forall (Forall P) data -> Forall (Forall P) (seg_data (A := RA) N s data).
Proof.
  intros P N s data F. unfold seg_data. rewrite Forall_forall. intros q Hq. apply in_flat_map in Hq. destruct Hq as (ph & Hp & Hq). rewrite Forall_forall in F. specialize (F ph Hp).
  destruct (length ph / N =? 0)%nat; [contradiction|]. destruct Hq as [<-|[]]. rewrite Forall_forall in *. intros x Hx. apply F. apply In_firstn' in Hx. rewrite <- (firstn_skipn (s * (length ph / N)) ph). apply in_or_app. right. exact Hx.
Qed.

Lemma seg_data_ok : forall N G s data, (1 <= N)%nat -> (1 <= G)%nat -> (s < N)%nat -> Exists (fun ph : list (list R) => (N * G <= length ph)%nat) data ->
  seg_data (A := RA) N s data <> [] /\ concat (seg_data (A := RA) N s data) <> [] /\ (1 <= seg_count (A := RA) G (seg_data (A := RA) N s data))%nat.
Proof.
  intros N G s data HN HG Hs EX. apply Exists_exists in EX. destruct EX as (ph & Hin & HL).
  assert (ST : (G <= length ph / N)%nat) by (apply Nat.div_le_lower_bound; lia).
  set (q := firstn (length ph / N) (skipn (s * (length ph / N)) ph)).
  assert (IQ : In q (seg_data (A := RA) N s data)).
  { unfold seg_data. apply in_flat_map. exists ph. split; [exact Hin|]. change (num RA) with R in *. destruct (Nat.eqb_spec (length ph / N) 0); [lia|]. left. reflexivity. }
  assert (LQ : length q = (length ph / N)%nat).
  { unfold q. rewrite firstn_length, skipn_length. apply Nat.min_l. assert ((N * (length ph / N) <= length ph)%nat) by (apply Nat.mul_div_le; lia). assert ((S s * (length ph / N) <= N * (length ph / N))%nat) by (apply Nat.mul_le_mono_r; lia). cbn in *. lia. }
  assert (CN : concat (seg_data (A := RA) N s data) <> []).
  { destruct q as [|x q'] eqn:EQ; [cbn in LQ; lia|]. intro Z. assert (In x (concat (seg_data (A := RA) N s data))) by (apply in_concat; exists (x :: q'); split; [exact IQ|left; reflexivity]). change (num RA) with R in *. rewrite Z in H. contradiction. }
  split; [intro Z; rewrite Z in IQ; contradiction|]. split; [exact CN|].
  unfold seg_count. assert (X : forall d k, (k <= fold_left (fun (s : nat) (phrase : list (list R)) => s + length phrase / G) d k)%nat).
  { induction d as [|p d IH]; intro k; cbn [fold_left]; [apply le_n|]. eapply Nat.le_trans; [|apply IH]. lia. }
  assert (Y : forall d k, In q d -> (1 <= fold_left (fun (s : nat) (phrase : list (list R)) => s + length phrase / G) d k)%nat); [|apply Y; exact IQ].
  induction d as [|p d IH]; intros k I; [contradiction|]. cbn [fold_left]. destruct I as [->|I].
  - eapply Nat.le_trans; [|apply X]. assert ((1 <= length q / G)%nat) by (apply Nat.div_le_lower_bound; lia). lia.
  - apply IH. exact I.
Qed.

(** ** Initialisation *)
Lemma new_window : forall L, (1 <= L)%nat -> has_window (ring_new (n0 (A := RA)) 1 L).
Proof. intros L HL. exists L, []. split; [exact HL|]. exists (ring_new (n0 (A := RA)) 1 L). split; [apply ring_new_wf|]. split; reflexivity. Qed.

Lemma fit_ok : forall h k data dev, (1 <= hp_gauss (hc_par h))%nat -> hmm_dims h -> hmm_abs h -> length dev = hc_dim h ->
  data <> [] -> concat data <> [] -> Forall (Forall (fun x => length x = hc_dim h)) data -> (1 <= seg_count (A := RA) (hp_gauss (hc_par h)) data)%nat ->
  exists g, gm_fit (A := RA) h k data dev = Ok g /\ gm_ready g /\ Forall pos_cov (gc_comp g) /\
    gc_bim g = hc_bim h /\ gc_dim g = hc_dim h /\ gc_din g = hc_din h /\ gc_n g = hp_gauss (hc_par h) /\ gc_mode g = hp_mode (hc_par h).
Proof.
  intros h k data dev HG HD HA Hdev Hne Hc Hf Hseg. unfold gm_fit.
  destruct (alloc_shape (new_mixture h (hc_win h)) HG HD) as (g1 & E1 & S1 & B1 & D1 & I1 & W1 & P1 & _). change (num RA) with R in *. rewrite E1. cbn [bind].
  cbn [new_mixture gc_bim gc_dim gc_din gc_par gc_win] in B1, D1, I1, P1, W1.
  assert (N1 : gc_n g1 = hp_gauss (hc_par h)) by (unfold gc_n; rewrite P1; reflexivity). assert (M1 : gc_mode g1 = hp_mode (hc_par h)) by (unfold gc_mode; rewrite P1; reflexivity).
  assert (SA : strong_abs g1) by (unfold strong_abs; rewrite M1, P1; exact HA).
  destruct (init_total g1 dev data S1) as (g2 & km & E2 & _ & R2 & SR2 & _ & B2 & D2 & I2 & W2 & P2 & _ & _ & V2); try assumption; [rewrite D1; exact Hdev|rewrite D1; exact Hf|rewrite N1; exact Hseg|].
  change (num RA) with R in *. rewrite E2. cbn [bind].
  assert (PP : Forall pos_cov (gc_comp g2)). { apply (init_pos g1 g2 dev data S1); try assumption; [rewrite D1; exact Hdev|rewrite N1; exact Hseg]. }
  destruct (updates_pos k (concat data) g2 R2 SR2 PP Hc) as (g3 & E3 & R3 & (C1 & C2 & C3 & C4 & C5 & _) & P3).
  { rewrite D2, D1. apply Forall_concat. exact Hf. }
  exists g3. split; [exact E3|]. split; [exact R3|]. split; [exact P3|]. unfold gc_n, gc_mode in *. rewrite C1, C2, C3, C5, B2, D2, I2, P2. auto 10.
Qed.

Lemma Forall_repeat : forall X (P : X -> Prop) x n, P x -> Forall P (repeat x n).
Proof. intros X P x n H. induction n; constructor; assumption. Qed.

(** The transitions set by [setErgodic] and [setLeftRight]. *)
Lemma ergodic_usable : forall N, (1 <= N)%nat -> stochastic N Ergodic (repeat (1 / INR N) (N * N)).
Proof.
  intros N HN. assert (NP : 0 < INR N) by (apply lt_0_INR; lia). split; [apply repeat_length|]. split.
  - intro q. destruct (nth_in_or_default q (repeat (1 / INR N) (N * N)) 0) as [I|E]; [|rewrite E; lra]. apply repeat_spec in I. rewrite I. unfold Rdiv. rewrite Rmult_1_l. left. apply Rinv_0_lt_compat, NP.
  - intros i Hi. unfold trans_at. rewrite (Rsum_ext _ _ (fun _ => 1 / INR N)).
    + rewrite Rsum_const. field. lra.
    + intros j Hj. rewrite (nth_indep _ 0 (1 / INR N)) by (rewrite repeat_length; apply flat_lt; assumption). apply nth_repeat.
Qed.

Lemma leftright_usable : forall N, (1 <= N)%nat -> exists t, set_leftright (A := RA) N = Ok t /\ stochastic N LeftRight t /\ no_jump N t.
Proof.
  intros N HN. unfold set_leftright. rewrite wr_ok by (rewrite repeat_length; lia). cbn [bind]. rewrite wr_ok by (rewrite upd_length, repeat_length; lia). eexists. split; [reflexivity|].
  set (hf := nofQ (1 # 2)). assert (HF : hf = 1 / 2) by (unfold hf; cbn; unfold Q2R; cbn; lra). rewrite n0_RA, n1_RA. change (num RA) with R in *.
  set (t := upd _ _ _). assert (LT : length t = (2 * N)%nat) by (unfold t; rewrite !upd_length, repeat_length; lia).
  assert (V : forall q, (q < 2 * N)%nat -> nth q t 0 = if Nat.eqb q (2 * N - 1) then 0 else if Nat.eqb q (2 * N - 2) then 1 else 1 / 2).
  { intros q Hq. unfold t. replace ((N - 1) * 2 + 1)%nat with (2 * N - 1)%nat by lia. replace ((N - 1) * 2)%nat with (2 * N - 2)%nat by lia. destruct (Nat.eqb_spec q (2 * N - 1)) as [->|D1]; [apply nth_upd_eq; rewrite upd_length, repeat_length; lia|].
    rewrite nth_upd_neq by auto. destruct (Nat.eqb_spec q (2 * N - 2)) as [->|D2]; [apply nth_upd_eq; rewrite repeat_length; lia|]. rewrite nth_upd_neq by auto. rewrite (nth_indep _ 0 hf) by (rewrite repeat_length; lia). rewrite nth_repeat. exact HF. }
  clearbody t. split; [split; [exact LT|split]|].
  - intro q. destruct (Nat.lt_ge_cases q (2 * N)) as [B|B]; [|rewrite nth_overflow by lia; lra]. rewrite V by exact B. repeat (match goal with |- context[if ?b then _ else _] => destruct b end); lra.
  - intros i Hi. rewrite (lr_row_sum N t i Hi). rewrite !V by lia. repeat (match goal with |- context[Nat.eqb ?a ?b] => destruct (Nat.eqb_spec a b) end); try lia; lra.
  - unfold no_jump. rewrite V by lia. rewrite Nat.eqb_refl. reflexivity.
Qed.
