(** Training of a class. *)
From Coq Require Import String List Bool Arith ZArith Reals Lra Lia.
From Verif Require Import Base Arith BaseFacts RFacts Model_Ring Model_Gaussian Model_Config Model_KMeans Model_GMM Model_HMM
  Proofs_Gaussian Proofs_Gaussian2 Proofs_Gaussian3 Proofs_KMeans Proofs_GMM Proofs_GMM2 Proofs_GMM4 Spec_Common Spec_Matrix Spec_Gaussian Spec_GMM Spec_HMM
  Proofs_HMM Proofs_HMM2 Proofs_HMM3 Proofs_HMM4 Proofs_HMM5 Proofs_HMM6 Proofs_HMM7 Proofs_HMM8 Proofs_HMM9.
Import ListNotations.
Local Open Scope list_scope.
Local Open Scope R_scope.

(** ** One update *)
Lemma update_ok : forall h data, hmm_ready h -> phrases_of h data ->
  exists h', hm_update (A := RA) data h = Ok (h', Rlsum (map (fun ph => ln (seq_lik (hc_n h) (hc_prior h) (hc_trans h) (frame_liks h ph))) data)) /\
    hmm_reestimated h data h' /\ (hc_mode h = Ergodic -> length (h_alpha (hc_run h')) = hc_n h /\ distribution (hc_n h) (fun i => nth i (h_prior (hc_net h')) 0)) /\
    (forall q, 0 <= nth q (h_trans (hc_net h')) 0).
Proof.
  intros h data HR (Hne & HD). pose proof HR as (HU & _ & _ & HA). pose proof HU as (N1 & LS & _).
  destruct (esteps_ok h HR data (h_alpha (hc_run h)) HD HA) as (es & al & E & HF & LA). unfold hm_update. change (num RA) with R in *. rewrite E. cbn [bind].
  destruct (tabM_ex no_state (fun i g' => state_moments (weighted_frames h data i) (state_at h i) g' /\ gm_ready g') (hc_n h)
    (fun i => let* g := rd (h_states (hc_net h)) i in hm_state (A := RA) h (concat data) es i g)) as (ss & Es & Ls & Ps).
  { intros i Hi. rewrite (rd_state h HR i Hi). cbn [bind]. apply (hm_state_ok h HR data es HF i Hi). }
  change (num RA) with R in *. rewrite Es. cbn [bind]. pose proof (lp_ok h data es HF) as LP. change (num RA) with R in *. rewrite (hm_trans_ok h data es HF).
  set (tr := tab (trans_size (hc_n h) (hc_mode h)) (trans_val h data)).
  assert (TA : forall i j, (i < hc_n h)%nat -> (j < hc_n h)%nat -> trans_at (hc_n h) (hc_mode h) tr i j = new_trans h data i j) by (intros; apply trans_val_at; assumption).
  assert (TN : forall q, 0 <= nth q tr 0) by (intro; apply (trans_val_nonneg h HR data es HF)).
  assert (TL : length tr = trans_size (hc_n h) (hc_mode h)) by apply tab_length.
  assert (TJ : hc_mode h = LeftRight -> no_jump (hc_n h) tr) by (intro; apply trans_val_last; assumption).
  clearbody tr. destruct (hc_mode h) eqn:HM.
  - destruct (hm_prior_ok h HR data es HF Hne) as (pr & Ep & Lp & Vp & Dp). change (num RA) with R in *. rewrite Ep. cbn [bind]. rewrite LP. eexists. split; [reflexivity|].
    cbn [hc_run hc_net hc_set_run hc_set_net h_alpha rn_alpha h_prior h_trans]. split; [|split; [intros _; split; [apply LA; reflexivity|exact Dp]|exact TN]].
    unfold hmm_reestimated. rewrite HM. split; [unfold hmm_kept; cbn; repeat split|]. split; [exact Ls|]. split; [intros i Hi; apply Ps; exact Hi|]. split; [exact TL|]. split; [exact TA|].
    split; [discriminate|]. intros _. split; [exact Lp|exact Vp].
  - cbn [bind]. rewrite LP. eexists. split; [reflexivity|].
    cbn [hc_run hc_net hc_set_run hc_set_net h_alpha rn_alpha h_prior h_trans]. split; [|split; [discriminate|exact TN]].
    unfold hmm_reestimated. rewrite HM. split; [unfold hmm_kept; cbn; repeat split|]. split; [exact Ls|]. split; [intros i Hi; apply Ps; exact Hi|]. split; [exact TL|]. split; [exact TA|].
    split; [|discriminate]. intros _. split; [apply TJ; reflexivity|reflexivity].
Qed.

Lemma same_usable : forall h h' g g', state_usable h g -> strong_reg g -> same_class g g' -> gm_ready g' -> hmm_kept h h' -> state_usable h' g' /\ strong_reg g'.
Proof.
  intros h h' g g' (_ & U1 & U2 & U3 & U4 & U5 & U6) SR (S1 & S2 & S3 & S4 & S5 & S6 & S7 & S8) Rg (K1 & K2 & K3 & K4 & K5 & _). unfold state_usable, strong_reg, gc_mode, gc_n in *. rewrite S1, S2, S3, S5, S7, S8, K1, K2, K3, K5. auto 10.
Qed.

(** The update of a class leaves it ready if its rows do not vanish. *)
Lemma update_ready : forall h data h', hmm_ready h -> hmm_reestimated h data h' ->
  (hc_mode h = Ergodic -> length (h_alpha (hc_run h')) = hc_n h /\ distribution (hc_n h) (fun i => nth i (h_prior (hc_net h')) 0)) ->
  (forall q, 0 <= nth q (h_trans (hc_net h')) 0) -> (forall i, (i < hc_n h)%nat -> min_row <= Rsum (hc_n h) (new_trans h data i)) -> hmm_ready h'.
Proof.
  intros h data h' HR (K & LS & PS & TL & TA & TJ & TP) HE TN HB. pose proof HR as (HU & SR & NJ & HA). pose proof HU as (N1 & LS0 & US & _ & _ & W1). pose proof K as (K1 & K2 & K3 & K4 & K5 & K6).
  assert (EN : hc_n h' = hc_n h) by (unfold hc_n; rewrite K5; reflexivity). assert (EM : hc_mode h' = hc_mode h) by (unfold hc_mode; rewrite K5; reflexivity).
  assert (PS' : forall i, (i < hc_n h)%nat -> state_usable h' (state_at h' i) /\ strong_reg (state_at h' i)).
  { intros i Hi. destruct (PS i Hi) as ((SC & _) & Rg). apply (same_usable h h' (state_at h i) (state_at h' i)); try assumption; [apply (usable_state h HU i Hi)|].
    rewrite Forall_forall in SR. apply SR. apply nth_In. change (num RA) with R in *. rewrite LS0. exact Hi. }
  split; [|split; [|split]].
  - unfold hmm_usable. rewrite EN, EM. split; [exact N1|]. split; [exact LS|]. split; [apply (Forall_at _ _ no_state); change (num RA) with R in *; rewrite LS; intros i Hi; apply PS'; exact Hi|]. split.
    + split; [exact TL|]. split; [exact TN|]. intros i Hi. rewrite (Rsum_ext _ _ (new_trans h data i)) by (intros; apply TA; assumption). apply HB. exact Hi.
    + split; [|rewrite K4; exact W1]. intro M. split; [apply TP; exact M|apply HE; exact M].
  - apply (Forall_at _ _ no_state). change (num RA) with R in *. rewrite LS. intros i Hi. apply PS'. exact Hi.
  - rewrite EN, EM. intro M. apply TJ. exact M.
  - rewrite EN, EM. intro M. apply HE. exact M.
Qed.

Lemma visits_le : forall h data i, hmm_ready h -> phrases_of h data -> (i < hc_n h)%nat -> 0 <= visits h data i <= INR (length (concat data)).
Proof.
  intros h data i HR (Hne & HD) Hi. pose proof HR as (_ & _ & _ & HA). destruct (esteps_ok h HR data (h_alpha (hc_run h)) HD HA) as (es & al & _ & HF & _).
  split; [apply (visits_nonneg h HR data es HF)|]. unfold visits. clear Hne HD. induction HF as [|ph e d l (_ & _ & _ & P) F IH]; [cbn; unfold Rlsum; cbn; lra|].
  cbn [map concat]. rewrite app_length, plus_INR. unfold Rlsum. cbn [fold_right]. fold (Rlsum (map (fun ph => Rsum (length ph) (fun t => occupancy h ph t i)) d)).
  assert (Rsum (length ph) (fun t => occupancy h ph t i) <= INR (length ph)); [|lra]. rewrite <- (Rmult_1_r (INR (length ph))). rewrite <- Rsum_const. apply Rsum_le. intros t Ht. apply (occ_le h HR ph P t i Ht Hi).
Qed.

(** Rows of a left-right model do not vanish. *)
Lemma lr_rows : forall h data, hmm_ready h -> phrases_of h data -> hc_mode h = LeftRight -> INR (length (concat data)) <= 10 ^ 90 ->
  forall i, (i < hc_n h)%nat -> min_row <= Rsum (hc_n h) (new_trans h data i).
Proof.
  intros h data HR HD HM HB i Hi. pose proof (visits_le h data i HR HD Hi) as (V0 & V1). pose proof reg5_pos as RP.
  pose proof HD as (Hne & HD'). pose proof HR as (_ & _ & _ & HA). destruct (esteps_ok h HR data (h_alpha (hc_run h)) HD' HA) as (es & al & _ & HF & _).
  assert (MV : forall j, 0 <= moves h data i j) by (intro; apply (moves_nonneg h HR data es HF)).
  assert (L1 : 1 <= INR (length data)). { replace 1 with (INR 1) by reflexivity. apply le_INR. destruct data; [contradiction|cbn; lia]. }
  set (D := visits h data i + 2 * reg5) in *. assert (DP : 0 < / D) by (apply Rinv_0_lt_compat; unfold D; lra).
  assert (LOW : 2 * reg5 / D <= Rsum (hc_n h) (new_trans h data i)).
  { unfold new_trans. rewrite HM. fold D. destruct (Nat.ltb_spec i (hc_n h - 1)) as [L|L].
    - apply Rle_trans with ((moves h data i i + INR (length data) * reg5) / D + (moves h data i (S i) + INR (length data) * reg5) / D).
      + unfold Rdiv. rewrite <- Rmult_plus_distr_r. apply Rmult_le_compat_r; [lra|]. pose proof (MV i). pose proof (MV (S i)). nra.
      + apply Req_le. rewrite (Rsum_ext _ _ (fun j => (if Nat.eqb j i then (moves h data i i + INR (length data) * reg5) / D else 0) + (if Nat.eqb j (S i) then (moves h data i (S i) + INR (length data) * reg5) / D else 0))).
        * rewrite Rsum_plus. rewrite (Rsum_if (hc_n h) i (fun _ => (moves h data i i + INR (length data) * reg5) / D)), (Rsum_if (hc_n h) (S i) (fun _ => (moves h data i (S i) + INR (length data) * reg5) / D)) by lia. reflexivity.
        * intros j Hj. destruct (Nat.eqb_spec j i) as [A|A]; destruct (Nat.eqb_spec j (S i)) as [B|B]; try lia; lra.
    - apply Rle_trans with ((moves h data i i + INR (length data) * (2 * reg5)) / D).
      + unfold Rdiv. apply Rmult_le_compat_r; [lra|]. pose proof (MV i). nra.
      + apply Req_le. symmetry. rewrite (Rsum_ext _ _ (fun j => if Nat.eqb j i then (moves h data i i + INR (length data) * (2 * reg5)) / D else 0)).
        * apply (Rsum_if (hc_n h) i (fun _ => (moves h data i i + INR (length data) * (2 * reg5)) / D)). exact Hi.
        * intros j Hj. destruct (Nat.eqb_spec j i) as [A|A]; [reflexivity|]. destruct (Nat.eqb_spec j (S i)); [lia|reflexivity]. }
  refine (Rle_trans _ _ _ _ LOW). unfold min_row. apply (Rmult_le_reg_r D); [unfold D; lra|]. unfold Rdiv. rewrite Rmult_assoc, Rinv_l, Rmult_1_r by (unfold D; lra).
  apply (Rmult_le_reg_l (10 ^ 100)); [apply pow_lt; lra|]. rewrite <- Rmult_assoc, Rinv_r, Rmult_1_l by (apply pow_nonzero; lra). unfold D.
  assert (P : 10 ^ 100 * (2 * reg5) = 2 * 10 ^ 95). { unfold reg5. replace (10 ^ 100) with (10 ^ 95 * 10 ^ 5) by (rewrite <- pow_add; reflexivity). field. }
  assert (Q : 10 ^ 90 <= 10 ^ 95) by (apply Rle_pow; [lra|lia]). assert (Q1 : 1 <= 10 ^ 95) by (apply pow_R1_Rle; lra). assert (R5 : reg5 <= 1 / 2) by (unfold reg5; lra). rewrite P. lra.
Qed.

Lemma lr_updates : forall k h data, hmm_ready h -> phrases_of h data -> hc_mode h = LeftRight -> INR (length (concat data)) <= 10 ^ 90 ->
  exists h', hm_updates (A := RA) k data h = Ok h' /\ hmm_ready h' /\ hmm_kept h h'.
Proof.
  induction k as [|k IH]; intros h data HR HD HM HB; cbn [hm_updates].
  - exists h. split; [reflexivity|]. split; [exact HR|]. unfold hmm_kept. repeat split.
  - destruct (update_ok h data HR HD) as (h1 & E & RE & HE & TN). rewrite E. cbn [bind]. pose proof RE as (K & _). pose proof K as (K1 & K2 & K3 & K4 & K5 & K6 & K7 & K8 & K9).
    assert (R1 : hmm_ready h1) by (apply (update_ready h data h1); try assumption; apply lr_rows; assumption).
    destruct (IH h1 data R1) as (h' & E' & R' & K').
    + unfold phrases_of in *. rewrite K2. exact HD.
    + unfold hc_mode in *. rewrite K5. exact HM.
    + exact HB.
    + exists h'. split; [exact E'|]. split; [exact R'|]. destruct K' as (Q1 & Q2 & Q3 & Q4 & Q5 & Q6 & Q7 & Q8 & Q9). unfold hmm_kept. repeat split; congruence.
Qed.

(** ** Normalisation *)
Lemma normalize_lr : forall N (tr : list R), length tr = (2 * N)%nat -> (forall q, 0 <= nth q tr 0) -> (forall i, (i < N)%nat -> 0 < nth (2 * i) tr 0 + nth (2 * i + 1) tr 0) ->
  exists tr', normalize_trans (A := RA) N LeftRight tr = Ok tr' /\ length tr' = (2 * N)%nat /\
    forall i, (i < N)%nat -> nth (2 * i) tr' 0 = nth (2 * i) tr 0 / (nth (2 * i) tr 0 + nth (2 * i + 1) tr 0) /\ nth (2 * i + 1) tr' 0 = nth (2 * i + 1) tr 0 / (nth (2 * i) tr 0 + nth (2 * i + 1) tr 0).
Proof.
  intros N tr L P SP. unfold normalize_trans.
  destruct (iterM_inv (fun k (t : list R) => length t = (2 * N)%nat /\ forall i, (i < N)%nat ->
      nth (2 * i) t 0 = (if (i <? k)%nat then nth (2 * i) tr 0 / (nth (2 * i) tr 0 + nth (2 * i + 1) tr 0) else nth (2 * i) tr 0) /\
      nth (2 * i + 1) t 0 = (if (i <? k)%nat then nth (2 * i + 1) tr 0 / (nth (2 * i) tr 0 + nth (2 * i + 1) tr 0) else nth (2 * i + 1) tr 0)) N
    (fun i t => let* a := rd t (i * 2) in let* b := rd t (i * 2 + 1) in let* t := wr t (i * 2) (a / (a + b)) in wr t (i * 2 + 1) (b / (a + b))) tr) as (t & E & Lt & V).
  - split; [exact L|]. intros. split; reflexivity.
  - intros k t Hk (Lt & V). rewrite (Nat.mul_comm k 2). rewrite (rd_nth t (2 * k) 0), (rd_nth t (2 * k + 1) 0) by lia. cbn [bind]. rewrite wr_ok by lia. cbn [bind]. rewrite wr_ok by (rewrite upd_length; lia).
    eexists. split; [reflexivity|]. split; [rewrite !upd_length; exact Lt|]. destruct (V k Hk) as (V1 & V2). rewrite Nat.ltb_irrefl in V1, V2. intros i Hi. destruct (Nat.eq_dec i k) as [->|D].
    + destruct (Nat.ltb_spec k (S k)); [|lia]. rewrite nth_upd_neq by lia. rewrite nth_upd_eq by lia. rewrite nth_upd_eq by (rewrite upd_length; lia). rewrite V1, V2. split; reflexivity.
    + rewrite !nth_upd_neq by lia. destruct (V i Hi) as (V3 & V4). rewrite V3, V4. destruct (Nat.ltb_spec i k), (Nat.ltb_spec i (S k)); try lia; split; reflexivity.
  - exists t. split; [exact E|]. split; [exact Lt|]. intros i Hi. destruct (V i Hi) as (V1 & V2). destruct (Nat.ltb_spec i N); [|lia]. split; assumption.
Qed.

Lemma normalize_erg : forall N (tr : list R), length tr = (N * N)%nat ->
  exists tr', normalize_trans (A := RA) N Ergodic tr = Ok tr' /\ length tr' = (N * N)%nat /\
    forall i j, (i < N)%nat -> (j < N)%nat -> nth (i * N + j) tr' 0 = nth (i * N + j) tr 0 / Rsum N (fun j => nth (i * N + j) tr 0).
Proof.
  intros N tr L. unfold normalize_trans. rewrite n0_RA. set (S := fun i => Rsum N (fun j => nth (i * N + j) tr 0)).
  destruct (iterM_inv (fun k (t : list R) => length t = (N * N)%nat /\ forall i j, (i < N)%nat -> (j < N)%nat -> nth (i * N + j) t 0 = if (i <? k)%nat then nth (i * N + j) tr 0 / S i else nth (i * N + j) tr 0) N
    (fun i t => let* s := accM (A := RA) N (fun j => rd t (i * N + j)) 0 in iterM N (fun j t => let* v := rd t (i * N + j) in wr t (i * N + j) (v / s)) t) tr) as (t & E & Lt & V).
  - split; [exact L|]. intros. reflexivity.
  - intros k t Hk (Lt & V). assert (ES : accM (A := RA) N (fun j => rd t (k * N + j)) 0 = Ok (S k)).
    { match goal with |- _ = Ok ?r => replace r with (0 + r) by ring end. apply accM_ok. intros j Hj. rewrite (rd_nth t _ 0) by (rewrite Lt; apply flat_lt; assumption). rewrite V by assumption. rewrite Nat.ltb_irrefl. reflexivity. }
    change (num RA) with R in *. rewrite ES. cbn [bind].
    destruct (iterM_inv (fun c (u : list R) => length u = (N * N)%nat /\ forall i j, (i < N)%nat -> (j < N)%nat -> nth (i * N + j) u 0 = if (i <? k)%nat || ((i =? k)%nat && (j <? c)%nat) then nth (i * N + j) tr 0 / S i else nth (i * N + j) tr 0) N
      (fun j t => let* v := rd t (k * N + j) in wr t (k * N + j) (v / S k)) t) as (u & Eu & Lu & Vu).
    + split; [exact Lt|]. intros i j Hi Hj. rewrite andb_false_r, orb_false_r. apply V; assumption.
    + intros c u Hc (Lu & Vu). assert (B : (k * N + c < N * N)%nat) by (apply flat_lt; assumption). rewrite (rd_nth u _ 0) by (rewrite Lu; exact B). cbn [bind]. rewrite wr_ok by (rewrite Lu; exact B).
      eexists. split; [reflexivity|]. split; [rewrite upd_length; exact Lu|]. intros i j Hi Hj. destruct (Nat.eq_dec (i * N + j) (k * N + c)) as [Q|Q].
      * rewrite Q, nth_upd_eq by (rewrite Lu; exact B). apply flat_eq in Q; [|exact Hj|exact Hc]. destruct Q as (-> & ->). rewrite Vu by assumption. rewrite Nat.ltb_irrefl, Nat.eqb_refl, Nat.ltb_irrefl. cbn [orb andb]. destruct (Nat.ltb_spec c (Datatypes.S c)); [reflexivity|lia].
      * rewrite nth_upd_neq by auto. rewrite Vu by assumption. destruct (Nat.eqb_spec i k) as [->|D]; [|reflexivity]. rewrite Nat.ltb_irrefl. cbn [orb andb]. assert (j <> c) by (intros ->; apply Q; reflexivity).
        destruct (Nat.ltb_spec j c), (Nat.ltb_spec j (Datatypes.S c)); try lia; reflexivity.
    + exists u. split; [exact Eu|]. split; [exact Lu|]. intros i j Hi Hj. rewrite Vu by assumption. destruct (Nat.ltb_spec j N); [|lia]. rewrite andb_true_r. destruct (Nat.ltb_spec i k), (Nat.eqb_spec i k), (Nat.ltb_spec i (Datatypes.S k)); try lia; reflexivity.
  - exists t. split; [exact E|]. split; [exact Lt|]. intros i j Hi Hj. rewrite V by assumption. destruct (Nat.ltb_spec i N); [reflexivity|lia].
Qed.

Lemma normalize_prior_ok : forall N (pr : list R), length pr = N -> distribution N (fun i => nth i pr 0) -> exists pr', normalize_prior (A := RA) N Ergodic pr = Ok pr' /\ length pr' = N /\ forall i, (i < N)%nat -> nth i pr' 0 = nth i pr 0.
Proof.
  intros N pr L (D1 & D2). unfold normalize_prior. rewrite n0_RA.
  assert (ES : accM (A := RA) N (rd pr) 0 = Ok 1). { rewrite <- D2. match goal with |- _ = Ok ?r => replace r with (0 + r) by ring end. apply accM_ok. intros j Hj. apply rd_nth. lia. }
  change (num RA) with R in *. rewrite ES. cbn [bind].
  destruct (iterM_inv (fun k (t : list R) => length t = N /\ forall i, (i < N)%nat -> nth i t 0 = nth i pr 0) N (fun i pr => let* v := rd pr i in wr pr i (v / 1)) pr) as (t & E & Lt & V).
  - split; [exact L|]. reflexivity.
  - intros k t Hk (Lt & V). rewrite (rd_nth t k 0) by lia. cbn [bind]. rewrite wr_ok by lia. eexists. split; [reflexivity|]. split; [rewrite upd_length; exact Lt|]. intros i Hi.
    destruct (Nat.eq_dec i k) as [->|D]; [rewrite nth_upd_eq by lia; rewrite V by exact Hk; field|rewrite nth_upd_neq by auto; apply V; exact Hi].
  - exists t. auto.
Qed.

Lemma erg_nonneg : forall N (t : list R), length t = (N * N)%nat -> (forall i j, (i < N)%nat -> (j < N)%nat -> 0 <= nth (i * N + j) t 0) -> forall q, 0 <= nth q t 0.
Proof.
  intros N t L H q. destruct (Nat.lt_ge_cases q (N * N)) as [B|B]; [|rewrite nth_overflow by lia; lra].
  assert (N0 : N <> 0%nat) by (intro Z; rewrite Z in B; cbn in B; lia). rewrite (Nat.div_mod q N N0). rewrite (Nat.mul_comm N). apply H; [apply Nat.div_lt_upper_bound; assumption|apply Nat.mod_upper_bound; exact N0].
Qed.

(** [emAlgorithmTerminate]: rows with a positive total are normalised. *)
Lemma terminate_ok : forall h, hmm_usable h -> (hc_mode h = LeftRight -> no_jump (hc_n h) (h_trans (hc_net h))) ->
  exists h', hm_terminate (A := RA) h = Ok h' /\ stochastic (hc_n h) (hc_mode h) (h_trans (hc_net h')) /\ (hc_mode h = LeftRight -> no_jump (hc_n h) (h_trans (hc_net h'))) /\
    (hc_mode h = Ergodic -> length (h_prior (hc_net h')) = hc_n h /\ forall i, (i < hc_n h)%nat -> nth i (h_prior (hc_net h')) 0 = nth i (h_prior (hc_net h)) 0) /\
    (hc_mode h = LeftRight -> h_prior (hc_net h') = h_prior (hc_net h)) /\
    h_states (hc_net h') = h_states (hc_net h) /\ hc_run h' = hc_run h /\ hmm_kept h h'.
Proof.
  intros h HU NJ. pose proof HU as (N1 & LS & US & (TL & TN & TR) & EP & W1). set (N := hc_n h) in *. assert (MR : 0 < min_row) by (unfold min_row; apply Rinv_0_lt_compat, pow_lt; lra). unfold hm_terminate. fold N.
  destruct (hc_mode h) eqn:HM; cbn [trans_size] in TL.
  - destruct (normalize_erg N (h_trans (hc_net h)) TL) as (tr & E & L & V). change (num RA) with R in *. rewrite E. cbn [bind]. destruct (EP eq_refl) as (LP & DP). destruct (normalize_prior_ok N _ LP DP) as (pr & Ep & Lp & Vp). change (num RA) with R in *. rewrite Ep. cbn [bind].
    eexists. split; [reflexivity|]. cbn [hc_net hc_set_net h_trans h_prior h_states hc_run].
    assert (RP : forall i, (i < N)%nat -> 0 < Rsum N (fun j => nth (i * N + j) (h_trans (hc_net h)) 0)) by (intros i Hi; specialize (TR i Hi); unfold trans_at in TR; change (num RA) with R in *; lra).
    split; [|split; [discriminate|split; [intros _; split; assumption|split; [discriminate|split; [reflexivity|split; [reflexivity|unfold hmm_kept; cbn; repeat split]]]]]].
    split; [exact L|]. split.
    + apply (erg_nonneg N tr L). intros i j Hi Hj. rewrite V by assumption. apply Rmult_le_pos; [apply TN|left; apply Rinv_0_lt_compat, RP; exact Hi].
    + intros i Hi. unfold trans_at. rewrite (Rsum_ext _ _ (fun j => nth (i * N + j) (h_trans (hc_net h)) 0 / Rsum N (fun j => nth (i * N + j) (h_trans (hc_net h)) 0))) by (intros; apply V; assumption). rewrite Rsum_div. specialize (RP i Hi). change (num RA) with R in *. field. lra.
  - assert (RP : forall i, (i < N)%nat -> 0 < nth (2 * i) (h_trans (hc_net h)) 0 + nth (2 * i + 1) (h_trans (hc_net h)) 0) by (intros i Hi; rewrite <- (lr_row_sum N _ i Hi); specialize (TR i Hi); lra).
    destruct (normalize_lr N (h_trans (hc_net h)) TL TN RP) as (tr & E & L & V). change (num RA) with R in *. rewrite E. cbn [bind normalize_prior]. eexists. split; [reflexivity|]. cbn [hc_net hc_set_net h_trans h_prior h_states hc_run].
    split; [|split; [|split; [discriminate|split; [reflexivity|split; [reflexivity|split; [reflexivity|unfold hmm_kept; cbn; repeat split]]]]]].
    + split; [exact L|]. split.
      * intro q. destruct (Nat.lt_ge_cases q (2 * N)) as [B|B]; [|rewrite nth_overflow by lia; lra]. pose proof (Nat.div_mod q 2 ltac:(lia)) as DM. pose proof (Nat.mod_upper_bound q 2 ltac:(lia)) as MB.
        assert (Hi : (q / 2 < N)%nat) by (apply Nat.div_lt_upper_bound; lia). destruct (V (q / 2)%nat Hi) as (V1 & V2). specialize (RP _ Hi). pose proof (Rinv_0_lt_compat _ RP) as IP.
        destruct (Nat.eq_dec (q mod 2) 0) as [Z|Z]; [replace q with (2 * (q / 2))%nat by lia; rewrite V1|replace q with (2 * (q / 2) + 1)%nat by lia; rewrite V2]; (apply Rmult_le_pos; [apply TN|lra]).
      * intros i Hi. rewrite (lr_row_sum N tr i Hi). destruct (V i Hi) as (V1 & V2). rewrite V1, V2. specialize (RP i Hi). field. lra.
    + intros _. specialize (NJ eq_refl). unfold no_jump in *. destruct (V (N - 1)%nat ltac:(lia)) as (_ & V2). replace (2 * (N - 1) + 1)%nat with (2 * N - 1)%nat in V2 by lia. rewrite V2. change (num RA) with R in *. rewrite NJ. unfold Rdiv. ring.
Qed.

Lemma stochastic_usable : forall N mode tr, stochastic N mode tr -> trans_usable N mode tr.
Proof. intros N mode tr (L & P & S). split; [exact L|]. split; [exact P|]. intros i Hi. rewrite S by exact Hi. unfold min_row. rewrite <- Rinv_1. apply Rinv_le_contravar; [lra|]. apply pow_R1_Rle. lra. Qed.

Lemma kept_state : forall h h' g, hmm_kept h h' -> state_usable h g -> state_usable h' g.
Proof. intros h h' g (K1 & K2 & K3 & K4 & K5 & _) U. unfold state_usable in *. rewrite K1, K2, K3, K5. exact U. Qed.
