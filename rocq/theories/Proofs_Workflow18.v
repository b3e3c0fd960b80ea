(** Training single classes of a hidden Markov model: what goes wrong. *)
From Coq Require Import String List Bool Arith ZArith Reals Lia Lra Sorting.Sorted.
From Verif Require Import Base BaseFacts Arith RFacts Model_Map Model_Ring Model_Phrase Model_TrainingSet Model_Gaussian Model_Config Model_KMeans Model_GMM Model_HMM Model_HHMM Model_Shared
  Model_Train Model_Reload Model_Workflow Model_Workflow2 Model_Workflow3 Model_Workflow4 Spec_Common Spec_Phrase Spec_TrainingSet Spec_Train Spec_Shared Spec_Matrix Spec_Gaussian Spec_GMM Spec_HMM Spec_HMMInit
  Spec_EM2 Spec_HHMM Spec_HHMM2 Spec_HHMM3 Spec_Reload Spec_Workflow Spec_Workflow2 Spec_Workflow3 Spec_Workflow4
  Proofs_Map Proofs_Ring Proofs_GMM Proofs_GMM2 Proofs_GMM3 Proofs_HMM4 Proofs_HMM5 Proofs_HMM13 Proofs_HMM14 Proofs_HHMM Proofs_KMeans Proofs_HMM2 Proofs_HMM8 Proofs_HHMM2 Proofs_HHMM4 Proofs_HHMM5 Proofs_HHMM6 Proofs_HHMM7 Proofs_HHMM8 Proofs_HHMM9 Proofs_HHMM10 Proofs_HHMM11 Proofs_HHMM12 Proofs_HHMM15
  Proofs_Workflow Proofs_Workflow2 Proofs_Workflow3 Proofs_Workflow4 Proofs_Workflow6 Proofs_Workflow7 Proofs_Workflow8
  Proofs_Workflow9 Proofs_Workflow10 Proofs_Workflow11 Proofs_Workflow13 Proofs_Workflow14 Proofs_Workflow15 Proofs_Workflow16 Proofs_Workflow17.
Import ListNotations.
Local Open Scope list_scope.
Local Open Scope nat_scope.

Local Notation world := (world RA).

(** ** Results that are too short *)

Lemma first_short : forall (v : hhmm RA) (x : list R), hh_usable v -> hh_hier v = true -> hh_started v = false -> length (rs_inst (hh_res v)) < hh_size v ->
  (forall c, c < hh_size v -> hc_hier (hcl v c) = true /\ exists W, 1 <= W /\ window_of W [] (h_buf (hc_run (hcl v c)))) -> length x = hh_obs_dim v -> hh_filter (A := RA) x v = UB.
Proof.
  intros v x HU HH HS HR HC Lx. pose proof HU as (HN & _). unfold hh_filter, hh_forward. rewrite HH, HS. unfold hh_forward_init.
  destruct (sweep_at (fun c h1 => exists a0 i, h1 = hc_set_run (rn_inst (A := RA) i (rn_alpha_h (A := RA) a0 (repeat 0%R (hc_n (hcl v c))) (repeat 0%R (hc_n (hcl v c))) (hc_run (hcl v c)))) (hcl v c) /\ length a0 = hc_n (hcl v c))
    (fun c => left_over v (fun _ => h_inst (hc_run (hcl v c))) c + Rsum (hc_n (hcl v c)) (fun k => start_at v c k * mix_lik (state_at (hcl v c) k) x))%R
    (init_class (A := RA) (hh_prior v) x) (hh_cls v) 0 (n0 (A := RA))) as (ms1 & E1 & L1 & V1).
  { intros c nm Hc. destruct (init_class_ok v HU (hcl v c) c x nm Hc (hmm_same_refl _ (cls_use v HU c Hc)) Lx) as (a0 & i & E & L & _ & EI). eexists. split; [rewrite <- EI; exact E|]. exists a0, i. split; [reflexivity|exact L]. }
  change (num RA) with R in *. rewrite E1. cbn [bind]. change (length (hh_cls v)) with (hh_size v) in *.
  destruct (scale_all_ok (n0 (A := RA) + Rsum (hh_size v) (fun c => left_over v (fun _ => h_inst (hc_run (hcl v c))) c + Rsum (hc_n (hcl v c)) (fun k => start_at v c k * mix_lik (state_at (hcl v c) k) x)))%R ms1) as (ms2 & E2 & L2 & V2).
  { intros c Hc. cbv zeta. rewrite L1 in Hc. destruct (V1 c Hc) as (_ & a0 & i & -> & L). cbn [hc_run hc_set_run h_a0 h_a1 h_a2 rn_inst rn_alpha_h]. rewrite !repeat_length. repeat split; exact L. }
  change (num RA) with R in *. rewrite E2. cbn [bind hh_cls hh_set_front hh_set_cls].
  destruct (mapM_at (fun _ (_ : string * hclass RA) => True) (fun e : string * hclass RA => let* h := hm_post (A := RA) (snd e) in Ok (fst e, h)) ms2 no_hclass no_hclass) as (ms & E3 & L3 & _).
  { intros c Hc. rewrite L2, L1 in Hc. assert (Hc1 : c < length ms1) by (rewrite L1; exact Hc). rewrite (V2 c Hc1). destruct (V1 c Hc) as (_ & a0 & i & -> & La). cbn [fst snd].
    destruct (HC c Hc) as (C1 & W & HW & C2).
    match goal with |- exists y, bind (hm_post ?h) _ = _ /\ _ => set (h1 := h) end.
    assert (SMh : hmm_same (hcl v c) h1) by (exact (hmm_same_refl _ (cls_use v HU c Hc))).
    assert (A0 : length (h_a0 (hc_run h1)) = hc_n (hcl v c)) by apply tab_length. assert (A1 : length (h_a1 (hc_run h1)) = hc_n (hcl v c)) by apply tab_length. assert (A2 : length (h_a2 (hc_run h1)) = hc_n (hcl v c)) by apply tab_length.
    destruct (post_ok (hcl v c) (cls_use v HU c Hc) h1 (fun k => nth k (h_a0 (hc_run h1)) 0%R + nth k (h_a1 (hc_run h1)) 0%R)%R (fun k => nth k (h_a2 (hc_run h1)) 0%R) W [] SMh) as (l & buf & _ & _ & E).
    - intros k Hk. unfold hm_weight. change (hc_hier h1) with (hc_hier (hcl v c)). rewrite C1. change (num RA) with R in *. rewrite !(rd_nth _ _ 0%R) by (rewrite ?A0, ?A1; exact Hk). reflexivity.
    - intros _ k Hk. apply rd_nth. change (num RA) with R in *. rewrite A2. exact Hk.
    - exact HW.
    - change (h_buf (hc_run h1)) with (h_buf (hc_run (hcl v c))). exact C2.
    - rewrite E. cbn [bind]. eexists. split; [reflexivity|exact I]. }
  rewrite E3. cbn [bind hh_res hh_set_front hh_set_cls]. unfold update_results. rewrite map_length.
  assert (LM : length (rs_inst (hh_res v)) < length ms) by (rewrite L3, L2, L1; exact HR). change (num RA) with R in *. rewrite fill_short by exact LM. reflexivity.
Qed.

Lemma reset_inst : forall v v' : hhmm RA, hh_reset (A := RA) v = Ok v' -> length (rs_inst (hh_res v')) = hh_size v /\ hh_started v' = false.
Proof. intros v v' H. unfold hh_reset in H. inv_bind H. inv_bind H. pairs. inv_bind H. injection H as <-. cbn [hh_res hh_set_res rs_inst hh_started hh_set_front]. split; [apply vresize_length|reflexivity]. Qed.

Lemma rest_window : forall h, hc_hier h = true -> ring_wf 1 (h_buf (hc_run h)) -> window_of (hc_win h) [] (h_buf (hc_run (hrest h))).
Proof. intros h HH W. unfold hrest, hm_reset. rewrite HH. cbn [hc_set_run hc_run rn_alpha rn_alpha_h rn_started rn_buf h_buf]. rewrite n0_RA. exact (window_fresh (hc_win h) _ W). Qed.

(** ** A class that was added *)
Section Grow.
  Variable u : junk RA.

  Lemma like_in : forall recs (m : hmodel RA) l h, hclass_like u (hq_sp m) (hq_cf m) recs l h -> h_exit (hc_net h) = last_exit (hp_states (cf_params (hq_cf m) l)) ->
    (est_of (cf_est (hq_cf m)) = Mixture -> hp_mode (cf_params (hq_cf m) l) = hp_mode (cf_def (hq_cf m))) -> hclass_in (hq_view m) h.
  Proof.
    intros recs m l h LK EX OM. destruct (like_frame u _ _ _ _ _ LK) as ((B1 & B2 & B3 & B4) & P). destruct LK as (U & h' & (_ & U' & ST & NJ & _ & _) & (_ & _ & _ & _ & E5 & _ & _ & E8)). pose proof U as (N1 & _).
    assert (HN : hc_n h = hp_states (cf_params (hq_cf m) l)) by (unfold hc_n; rewrite P; reflexivity).
    split; [exact U|]. split; [rewrite B1; reflexivity|]. split; [rewrite B2; reflexivity|]. split; [rewrite B3; reflexivity|]. split; [rewrite B4; reflexivity|].
    split; [rewrite EX, HN; apply tab_length|]. split; [|split].
    - intros k Hk. unfold exit_at. rewrite EX, last_exit_at by (rewrite <- HN; exact Hk). destruct (k =? _); lra.
    - assert (HN' : hc_n h' = hc_n h) by (unfold hc_n; congruence). assert (HM : hc_mode h' = hc_mode h) by (unfold hc_mode; congruence). rewrite HN', HM in *. rewrite <- E8 in *.
      intro M. specialize (NJ M). rewrite M in ST. destruct ST as (_ & NN & ST). specialize (ST (hc_n h - 1) ltac:(lia)).
      rewrite lr_row_sum in ST by lia. unfold no_jump in NJ. replace (2 * hc_n h - 1) with (2 * (hc_n h - 1) + 1) in NJ by lia. change (num RA) with R in *. lra.
    - intro E. rewrite P. cbn. apply OM. exact E.
  Qed.

  Lemma even_ok : forall m : hmodel RA, hq_cls m <> [] -> even_top (length (hq_cls m)) m -> hh_top_ok (hq_view m).
  Proof.
    intros m NE (T1 & T2 & T3). unfold hh_top_ok, hh_size, top_prior, top_trans, hq_view. cbn [hh_cls hh_prior hh_trans hh_exit]. change (num RA) with R in *. rewrite T1, T2, T3. set (n := length (hq_cls m)) in *.
    assert (O : 1 <= n) by (unfold n; destruct (hq_cls m); [contradiction|cbn; lia]).
    assert (P : (0 < / INR n)%R) by (apply Rinv_0_lt_compat, lt_0_INR; lia).
    assert (NR : forall X c n (a d : X), c < n -> nth c (repeat a n) d = a) by (intros X c k a d; revert c; induction k as [|k IH]; intros [|c] Hc; cbn; try lia; auto; apply IH; lia).
    split; [apply repeat_length|]. split; [intros c Hc; rewrite NR by exact Hc; exact P|]. split; [apply repeat_length|]. split.
    - intros c Hc. rewrite NR by exact Hc. split; [apply repeat_length|]. intros d Hd. rewrite NR by exact Hd. lra.
    - split; [apply repeat_length|]. intros c Hc. rewrite NR by exact Hc. lra.
  Qed.

  Lemma hgrown_unready : forall (w1 w2 : world) k1 k2 t1 t2 recs1 recs2 (m : hmodel RA) l, recorded w1 k1 t1 recs1 -> recorded w2 k2 t2 recs2 -> recs1 <> [] ->
    set_up (t_bim t1) (hq_sp m) -> t_bim t1 = t_bim t2 -> t_dim t1 = t_dim t2 -> t_din t1 = t_din t2 -> hp_hier (cf_def (hq_cf m)) = true ->
    hall_learnable u t1 m recs1 -> In l (map fst recs2) -> (forall s, fetched t2 (hq_sp m) s -> hlearnable u s (hq_cf m) recs2 l) -> ~ In l (map fst recs1) ->
    (est_of (cf_est (hq_cf m)) = Mixture -> forall l', l' = l \/ In l' (map fst recs1) -> hp_mode (cf_params (hq_cf m) l') = hp_mode (cf_def (hq_cf m))) ->
    cf_mt (hq_cf m) = 0%Z ->
    exists m1 m1r m2, hq_train u w1 k1 m = Ok m1 /\ hq_reset m1 = Ok m1r /\ hq_train_one u w2 k2 l (m1r, false) = ((m2, false), Ok tt) /\
      forall x, length x = input_dim (hq_sp m2) -> hq_filter (A := RA) x m2 = UB.
  Proof.
    intros w1 w2 k1 k2 t1 t2 recs1 recs2 m l H1 H2 NE SU B D DI HH LE1 Hl LEl NI OM SEQ.
    destruct (htrained_at_once u w1 k1 t1 recs1 m H1 NE SU HH LE1) as (m1 & E1 & C1 & F1 & T1 & A1). pose proof (trained_plain u _ _ T1) as PE. pose proof T1 as (S1 & L1 & TF1 & ET1).
    assert (SU1 : set_up (t_bim t1) (hq_sp m1)) by apply F1. pose proof A1 as (HH1 & _ & LP1 & AR1).
    destruct (hreset_hier (hq_view m1)) as (r & ER).
    { exact HH1. }
    { intro Q. destruct SU1 as (_ & M' & _). unfold modal_ok in M'. change (hh_bim (hq_view m1)) with (sp_bim (hq_sp m1)) in Q. rewrite Q in M'. cbn. lia. }
    { cbn [hq_view hh_cls]. eapply Forall_impl; [|exact AR1]. intros e (_ & Q & _). exact Q. }
    destruct (reset_inst _ _ ER) as (RI & RS). cbn [hh_res hh_set_res] in RI. change (hh_size (hq_view m1)) with (length (hq_cls m1)) in RI.
    set (m1r := hq_put (hq_sp m1) (hh_set_res r (hh_set_front (vresize (hh_size (hq_view m1)) n0 (hh_v1 (hq_view m1))) (vresize (hh_size (hq_view m1)) n0 (hh_v2 (hq_view m1))) false
      (hh_set_cls (rest_all (hh_cls (hq_view m1))) (hq_view m1)))) m1).
    assert (ER' : hq_reset m1 = Ok m1r) by (unfold hq_reset; rewrite ER; reflexivity).
    assert (LM : map fst (hq_cls m1r) = map fst (hq_cls m1)) by (cbn; unfold rest_all; rewrite map_map; reflexivity).
    assert (LN : length (hq_cls m1r) = length (hq_cls m1)) by (cbn; apply map_length).
    assert (CN : forall l', hclass_named m1r l' = option_map hrest (hclass_named m1 l')) by (intro l'; unfold hclass_named; cbn; apply mget_map).
    assert (AR : hat_rest m1r).
    { split; [exact HH1|]. split; [unfold label_sorted; rewrite LM; exact S1|]. split; [rewrite LN; exact LP1|]. cbn. apply Forall_forall. intros e He. unfold rest_all in He. apply in_map_iff in He. destruct He as (e' & <- & He).
      destruct (proj1 (Forall_forall _ _) AR1 e' He) as ((X1 & X2 & X3 & X4) & X5 & X6 & X7 & X8). cbn [snd]. destruct (hrest_net (snd e') X5) as (W1 & _ & W3 & (W4 & W5 & W6 & W7 & _) & _ & W9).
      unfold shares, hc_n in *. rewrite W3, W4, W5, W6, W7. split; [repeat split; assumption|]. split; [assumption|]. split; [assumption|]. split; [assumption|]. apply W9, X8. }
    destruct (htrain_one u w2 k2 t2 recs2 m1r l H2 Hl) as (m2 & E2 & ((C2 & F2 & N2 & A2 & L2 & (g & G1 & G2 & G3) & O2 & T2) & SQ)).
    { rewrite <- B. exact SU1. }
    { exact AR. }
    { pose proof (hfetched_dims t1 (hq_sp m) m1r F1) as Q. intro NC. destruct (Q NC) as (Q1 & Q2). split; [congruence|]. rewrite <- B, <- DI. exact Q2. }
    { intros s Fs. cbn [m1r hq_put hq_cf]. rewrite C1. apply LEl. destruct F1 as (_ & _ & _ & P4 & P5), Fs as (Q1 & Q2 & Q3 & Q4 & Q5). cbn [m1r hq_put hq_sp] in *. unfold fetched. repeat (split; [assumption|]). split; congruence. }
    exists m1, m1r, m2. split; [exact E1|]. split; [exact ER'|]. split; [exact E2|]. intros x Lx.
    assert (CF2 : hq_cf m2 = hq_cf m) by (rewrite C2; exact C1).
    assert (CF : seq_mode m1r = true) by (unfold seq_mode; cbn [m1r hq_put hq_cf]; rewrite C1, SEQ; reflexivity).
    assert (N1 : hclass_named m1 l = None).
    { destruct (hclass_named m1 l) as [h|] eqn:Q; [|reflexivity]. exfalso. apply NI. rewrite <- L1. apply mget_label. unfold hclass_named in Q. congruence. }
    assert (NM : hclass_named m1r l = None) by (rewrite CN, N1; reflexivity).
    rewrite NM in O2, T2. destruct (SQ CF) as (_ & _ & ST & RE & BN). specialize (BN NM).
    assert (FT : sp_bim (hq_sp m1) = sp_bim (hq_sp m2) /\ sp_dim (hq_sp m1) = sp_dim (hq_sp m2) /\ sp_din (hq_sp m1) = sp_din (hq_sp m2) /\ sp_win (hq_sp m1) = sp_win (hq_sp m2) /\
      settings (hq_sp m1) = settings (hq_sp m2)).
    { destruct F1 as ((P0 & _) & P1 & P2 & P3 & P4), F2 as ((Q0 & _) & Q1 & Q2 & Q3 & Q4). cbn [m1r hq_put hq_sp] in *. rewrite <- B, <- ?DI in Q2. repeat split; congruence. }
    destruct FT as (X1 & X2 & X3 & X4 & X5).
    assert (LN2 : length (hq_cls m2) = S (length (hq_cls m1))).
    { destruct (mput_new _ (hq_cls m1r) l g) as (Q1 & _ & _); [rewrite LM, L1; exact NI|]. rewrite <- LN, <- Q1.
      rewrite <- (map_length fst (hq_cls m2)), <- (map_length fst (mput _ _ _ _ _)). f_equal. apply sorted_same; [apply A2| |].
      - apply (mput_sorted String.eqb String.ltb String.eqb_eq str_ltb_trans str_ltb_total (hq_cls m1r) l g). apply AR.
      - intro l'. rewrite L2, mput_labels. tauto. }
    assert (OLD : forall l' h, l' <> l -> hclass_named m2 l' = Some h -> exists h1, hclass_named m1 l' = Some h1 /\ In (l', h1) (hq_cls m1) /\ h = exit_renewed (hrest h1)).
    { intros l' h NL Q. specialize (O2 l' NL). rewrite CN in O2. destruct (hclass_named m1 l') as [h1|] eqn:Q1; cbn [option_map] in O2; [|congruence]. destruct O2 as (h' & O2 & R2). assert (h' = h) by congruence. subst h'.
      unfold seq_mode in CF. rewrite CF in R2. cbn [negb rested] in R2. exists h1. split; [reflexivity|]. split; [apply mget_in in Q1; [exact Q1|apply String.eqb_eq]|exact R2]. }
    assert (IN : Forall (fun e => hclass_in (hq_view m2) (snd e) /\ hc_hier (snd e) = true /\ exists W, 1 <= W /\ window_of W [] (h_buf (hc_run (snd e)))) (hq_cls m2)).
    { apply Forall_forall. intros [l' h] He. cbn [snd]. pose proof (proj1 (Forall_forall _ _) (proj2 (proj2 (proj2 A2))) _ He) as (_ & HI & _). cbn [snd] in HI.
      assert (GM : hclass_named m2 l' = Some h) by (eapply in_mget; eauto using String.eqb_eq, str_ltb_irrefl; apply A2).
      destruct (string_dec l' l) as [->|NL].
      - assert (h = g) by congruence. subst h. split; [|split; [exact HI|]].
        + apply (like_in recs2 m2 l); [rewrite C2; exact G2| |].
          * rewrite G3, C2. unfold exits_named. rewrite NM. apply renewed_last.
          * rewrite CF2. intro Q. apply OM; [exact Q|left; reflexivity].
        + exists 1. split; [lia|]. rewrite (BN g GM), n0_RA. exact empty_window.
      - destruct (OLD l' h NL GM) as (h1 & Q1 & Q2 & ->). destruct (proj1 (Forall_forall _ _) TF1 _ Q2) as (Q3 & Q4). destruct (proj1 (Forall_forall _ _) AR1 _ Q2) as ((_ & _ & _ & Q6) & Q7 & _ & Q8 & Q9). cbn [fst snd] in *.
        destruct (hrest_net h1 Q7) as (_ & W2 & W3 & W4 & _). destruct (PE l' h1 Q1) as (P1 & P2). split; [|split; [exact HI|]].
        + apply (like_in recs1 m2 l').
          * rewrite CF2, <- C1. apply (hlike_ext u (hq_sp m1) (hq_sp m2) (hq_cf m1) recs1 recs1); try assumption; [reflexivity|]. eapply hlike_same; [|exact Q3]. exact W4.
          * cbn [exit_renewed hc_set_net hc_net nt_exit h_exit]. unfold hc_n in *. rewrite W2, W3, P1, P2, CF2, <- C1. apply renewed_plain.
          * rewrite CF2. intro Q. apply OM; [exact Q|]. right. apply L1. apply in_map_iff. exists (l', h1). auto.
        + exists (hc_win h1). split; [rewrite Q6; apply SU1|]. exact (rest_window h1 Q7 Q9). }
    assert (NE2 : hq_cls m2 <> []) by (intro Q; rewrite Q in LN2; discriminate).
    unfold hq_filter. rewrite first_short; [reflexivity| | | | | |].
    - split; [unfold hh_size; cbn; lia|]. split; [apply sorted_nodup, A2|]. split; [cbn [hq_view hh_cls]; eapply Forall_impl; [|exact IN]; intros e Q; apply Q|]. split; [apply even_ok; assumption|].
      cbn [hq_view hh_bim hh_din hh_dim]. rewrite <- X1, <- X2, <- X3. intro Q. destruct SU1 as (_ & M' & _). unfold modal_ok in M'. rewrite Q in M'. lia.
    - apply A2.
    - cbn. rewrite ST. reflexivity.
    - unfold hh_size. cbn [hq_view hh_cls hh_res]. rewrite RE. cbn [m1r hq_put hq_res hh_set_res hh_res]. lia.
    - intros c Hc. unfold hcl. pose proof (proj1 (Forall_forall _ _) IN (nth c (hq_cls m2) no_hclass) (nth_In _ _ Hc)) as (_ & Q). exact Q.
    - exact Lx.
  Qed.
End Grow.

(** ** Not hierarchical *)
Definition exits_only (e e' : string * hclass RA) : Prop :=
  fst e' = fst e /\ hc_par (snd e') = hc_par (snd e) /\ hc_hier (snd e') = hc_hier (snd e) /\ h_trans (hc_net (snd e')) = h_trans (hc_net (snd e)) /\ h_states (hc_net (snd e')) = h_states (hc_net (snd e)).
Lemma exits_only_refl : forall ms, Forall2 exits_only ms ms.
Proof. induction ms; constructor; [repeat split|assumption]. Qed.
Lemma exits_kept : forall (ms ms' : list (string * hclass RA)) e, exits_default (A := RA) ms = Ok (ms', e) -> Forall2 exits_only ms ms'.
Proof.
  induction ms as [|[l h] ms IH]; intros ms' e H; cbn [exits_default] in H; [injection H as <- _; constructor|].
  destruct (hm_exit_default (A := RA) h) as [h'| |] eqn:E; [|injection H as <- _; apply exits_only_refl|discriminate].
  inv_bind H. destruct a as (ms2 & e2). injection H as <- _. constructor; [|eapply IH; reflexivity].
  unfold hm_exit_default in E. destruct (negb (hc_hier h)); [discriminate|]. inv_bind E. injection E as <-. repeat split.
Qed.

Lemma exits_only_get : forall (ms ms' : list (string * hclass RA)) l h, Forall2 exits_only ms ms' -> mget String.eqb ms l = Some h -> exists h', mget String.eqb ms' l = Some h' /\ exits_only (l, h) (l, h').
Proof.
  intros ms ms' l h F. induction F as [|[a x] [b y] ms ms' E F IH]; [discriminate|]. pose proof E as (E1 & _). cbn [fst] in E1. subst b. cbn [mget]. destruct (String.eqb l a) eqn:Q; [|exact IH].
  intro H. injection H as <-. apply String.eqb_eq in Q. subst a. exists y. auto.
Qed.

(** A class without transitions cannot be reset when the mode is not hierarchical. *)
Lemma reset_no_throw : forall h : hclass RA, (exists h', hm_reset (A := RA) h = Ok h') \/ hm_reset (A := RA) h = UB.
Proof.
  intro h. unfold hm_reset. destruct (hc_hier h); [left; eexists; reflexivity|]. unfold cyclic. destruct (1 <? hc_n h); [|left; eexists; reflexivity].
  unfold wr. destruct (_ <? _); [left; eexists; reflexivity|right; reflexivity].
Qed.
Lemma untrained_reset : forall h : hclass RA, hc_hier h = false -> 2 <= hc_n h -> h_trans (hc_net h) = [] -> hm_reset (A := RA) h = UB.
Proof. intros h HH HN HT. unfold hm_reset, cyclic. rewrite HH, HT. apply Nat.ltb_lt in HN. rewrite HN. unfold wr. cbn [length]. rewrite (proj2 (Nat.ltb_ge _ _)) by lia. reflexivity. Qed.
Lemma untrained_stuck : forall (v : hhmm RA) l h, hh_hier v = false -> mget String.eqb (hh_cls v) l = Some h -> 2 <= hc_n h -> h_trans (hc_net h) = [] -> h_states (hc_net h) = [] ->
  (hh_bim v = true -> hh_din v <= hh_dim v) -> hh_reset (A := RA) v = UB.
Proof.
  intros v l h HF HG HN HT _ HD. unfold hh_reset.
  assert (K : forall ms : list (string * hclass RA), (exists ms', reset_all (A := RA) ms = Ok ms' /\ Forall2 (fun e e' => hc_par (snd e') = hc_par (snd e) /\ (hc_hier (snd e) = true -> h_trans (hc_net (snd e')) = h_trans (hc_net (snd e)))) ms ms') \/ reset_all (A := RA) ms = UB).
  { unfold reset_all. induction ms as [|e ms IH]; [left; exists []; split; [reflexivity|constructor]|]. cbn [mapM]. destruct (reset_no_throw (snd e)) as [(h' & E)|E]; rewrite E; cbn [bind]; [|right; reflexivity].
    destruct IH as [(ms' & -> & F)|IH]; cbn [bind]; [left|right; change (num RA) with R in *; rewrite IH; reflexivity]. eexists. split; [reflexivity|]. constructor; [|exact F]. cbn [snd].
    unfold hm_reset in E. destruct (hc_hier (snd e)); [injection E as <-; split; reflexivity|]. inv_bind E. injection E as <-. split; [reflexivity|discriminate]. }
  destruct (K (hh_cls v)) as [(ms & EM & F)|EM]; rewrite EM; cbn [bind]; [|reflexivity].
  assert (UBM : mapM (fun e : string * hclass RA => let* h := hm_reset (A := RA) (hc_set_hier (hh_hier v) (snd e)) in Ok (fst e, h)) ms = UB).
  { rewrite HF. apply mget_in in HG; [|apply String.eqb_eq].
    assert (X : Exists (fun e => hm_reset (A := RA) (hc_set_hier false (snd e)) = UB) ms).
    { destruct (hc_hier h) eqn:HH; [|exfalso].
      - clear EM K. induction F as [|e e' a b (P1 & P2) F IH]; [destruct HG|]. destruct HG as [->|HG]; [|right; apply IH, HG]. left. cbn [snd] in *. apply untrained_reset; [reflexivity| |].
        + unfold hc_n in *. cbn [hc_set_hier hc_par]. rewrite P1. exact HN.
        + cbn [hc_set_hier hc_net]. rewrite (P2 HH). exact HT.
      - assert (Q : In (l, h) (hh_cls v)) by exact HG. unfold reset_all in EM. clear F K. revert ms EM HG Q. induction (hh_cls v) as [|e es IH]; intros ms EM HG Q; [destruct Q|]. cbn [mapM] in EM. inv_bind EM. inv_bind EM. inv_bind E.
        destruct Q as [->|Q]; [cbn [snd] in E1; rewrite (untrained_reset h HH HN HT) in E1; discriminate|]. eapply IH; [reflexivity|exact Q|exact Q]. }
    clear -X. induction X as [e ms X|e ms X IH]; cbn [mapM]; [rewrite X; reflexivity|]. destruct (reset_no_throw (hc_set_hier false (snd e))) as [(h' & ->)| ->]; cbn [bind]; [|reflexivity]. change (num RA) with R in *. rewrite IH. reflexivity. }
  change (num RA) with R in *. destruct (hh_bim v); [unfold usub; specialize (HD eq_refl); apply Nat.leb_le in HD; rewrite HD|]; cbn [bind]; rewrite UBM; reflexivity.
Qed.

Section Flat.
  Variable u : junk RA.
  Lemma hflat_stuck : forall (w : world) k t recs (m : hmodel RA) l, recorded w k t recs -> In l (map fst recs) -> set_up (t_bim t) (hq_sp m) -> hp_hier (cf_def (hq_cf m)) = false ->
    hq_cls m <> [] -> Forall (fun e => hc_hier (snd e) = false) (hq_cls m) -> length (hq_prior m) = length (hq_cls m) -> hsame_dims t m -> hclass_named m l = None -> 2 <= hp_states (cf_params (hq_cf m) l) ->
    exists m', hq_train_one u w k l (m, false) = ((m', true), Throw RuntimeError) /\ (exists h, hclass_named m' l = Some h /\ h_states (hc_net h) = []) /\
      hq_reset m' = UB /\ hq_train_one u w k l (m', true) = ((m', true), UB).
  Proof.
    intros w k t recs m l H Hl SU HF NE FL LP SD NM HN. pose proof H as (_ & HS & _ & IR & LC & _).
    destruct (fetch_ok t (hq_sp m) SU IR LC) as (s & E1 & SU' & D & DI & NMS & ST & WN).
    destruct (recorded_labels w k t recs H) as (LB & _).
    assert (Hlt : In l (t_labels t)) by (apply LB; exact Hl).
    unfold set_at in HS. destruct (nth_error (w_sets w) k) as [o|] eqn:EN; [|discriminate]. subst o.
    set (m0 := hq_put s (hq_view m) m). set (v0 := hq_view m0).
    assert (NI : ~ In l (map fst (hq_cls m))) by (rewrite mget_label; unfold hclass_named in NM; congruence).
    assert (X : exists v, hh_add (A := RA) (jk_num u) (jk_flag u) l v0 = Ok (v, Some RuntimeError) /\ static v0 v /\ exists h, mget String.eqb (hh_cls v) l = Some h /\ h_states (hc_net h) = [] /\ h_trans (hc_net h) = [] /\ 2 <= hc_n h).
    { destruct (add_throws (A := RA) (jk_num u) (jk_flag u) l v0) as (v & EA & _); try assumption.
      { cbn. lia. }
      exists v. split; [exact EA|]. unfold hh_add in EA. change (mget String.eqb (hh_cls v0) l) with (hclass_named m l) in EA. rewrite NM in EA. set (h1 := hc_set_par _ _) in EA. unfold hh_update_top in EA.
      destruct (_ =? _); [discriminate|]. inv_bind EA. destruct a as (ms & e). injection EA as <- _. split; [repeat split|].
      apply exits_kept in E. destruct (exits_only_get _ _ l h1 E) as (h & Q1 & (_ & Q2 & _ & Q3 & Q4)).
      { cbn [hh_cls hh_set_cls hh_set_top]. rewrite mget_mput by apply String.eqb_eq. rewrite String.eqb_refl. reflexivity. }
      exists h. split; [exact Q1|]. cbn [snd] in *. split; [rewrite Q4; reflexivity|]. split; [rewrite Q3; reflexivity|]. unfold hc_n. rewrite Q2. exact HN. }
    destruct X as (v & EA & SV & h & G1 & G2 & G3 & G4).
    set (m' := hq_put s v m0).
    assert (V' : hq_view m' = v) by (apply (put_view m0 v); exact SV).
    assert (RU : hh_reset (A := RA) v = UB).
    { destruct SV as (S1 & S2 & S3 & _ & _ & _ & S7 & _). apply (untrained_stuck v l h); try assumption; [rewrite S7; exact HF|]. rewrite S1, S2, S3. cbn. intro Q. destruct SU' as (_ & M' & _). unfold modal_ok in M'. rewrite Q in M'. lia. }
    exists m'. split; [|split; [|split]].
    - unfold hq_train_one. rewrite EN, one_known by exact Hlt. unfold hq_cancel. fold (hclass_named m l). rewrite NM.
      rewrite one_fits by (intro Q; destruct (SD NE) as (X1 & X2); split; [exact X1|]; intro Y; apply X2; destruct SU as (B0 & _); congruence).
      rewrite (one_fetched t _ s E1). unfold hq_train_class_of. fold m0. fold v0. rewrite EA. reflexivity.
    - exists h. split; [exact G1|exact G2].
    - unfold hq_reset. rewrite V', RU. reflexivity.
    - unfold hq_train_one. rewrite EN, one_known by exact Hlt. unfold hq_cancel. change (mget String.eqb (hq_cls m') l) with (mget String.eqb (hh_cls v) l). rewrite G1, V'. unfold hh_join.
      assert (FI : forall X (ls : list X), filter (fun _ => negb false) ls = ls) by (intros X ls; induction ls as [|a ls IH]; [reflexivity|cbn in *; rewrite IH; reflexivity]).
      replace (hh_set_cls (filter (fun e : string * hclass RA => negb false) (hh_cls v)) v) with v by (rewrite FI; destruct v; reflexivity). rewrite RU. reflexivity.
  Qed.
End Flat.
