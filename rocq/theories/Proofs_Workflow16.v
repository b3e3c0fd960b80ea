(** Training single classes of a hierarchical hidden Markov model. *)
From Coq Require Import String List Bool Arith ZArith Reals Lia Lra Sorting.Sorted.
From Verif Require Import Base BaseFacts Arith RFacts Model_Map Model_Ring Model_Phrase Model_TrainingSet Model_Gaussian Model_Config Model_KMeans Model_GMM Model_HMM Model_HHMM Model_Shared
  Model_Train Model_Reload Model_Workflow Model_Workflow2 Model_Workflow4 Spec_Common Spec_Phrase Spec_TrainingSet Spec_Train Spec_Shared Spec_Matrix Spec_Gaussian Spec_GMM Spec_HMM Spec_HMMInit
  Spec_EM2 Spec_HHMM Spec_Reload Spec_Workflow Spec_Workflow2 Spec_Workflow4
  Proofs_Map Proofs_Ring Proofs_TrainingSet Proofs_TrainingSet5 Proofs_TrainingSet7 Proofs_HHMM11 Proofs_Workflow Proofs_Workflow2 Proofs_Workflow3 Proofs_Workflow6 Proofs_Workflow7 Proofs_Workflow8
  Proofs_Workflow9 Proofs_Workflow10 Proofs_Workflow11 Proofs_Workflow13 Proofs_Workflow14 Proofs_Workflow15.
Import ListNotations.
Local Open Scope list_scope.
Local Open Scope nat_scope.

Local Notation world := (world RA).

(** ** Preparation *)

Lemma one_known : forall t l, In l (t_labels t) -> one_unknown t l = false.
Proof.
  intros t l Hl. unfold one_unknown. assert (E : existsb (String.eqb l) (t_labels t) = true) by (apply existsb_exists; exists l; split; [exact Hl|apply String.eqb_refl]).
  rewrite E. reflexivity.
Qed.

Lemma one_fits : forall t n (s : shared RA), (0 < n -> sp_dim s = t_dim t /\ (sp_bim s = true -> sp_din s = t_din t)) -> one_misfit t n s = false.
Proof.
  intros t n s D. unfold one_misfit. destruct n as [|n]; [reflexivity|]. destruct (D ltac:(lia)) as (D1 & D2). rewrite D1, Nat.eqb_refl. cbn [negb orb].
  destruct (sp_bim s); [rewrite D2, Nat.eqb_refl by reflexivity|]; reflexivity.
Qed.

Lemma one_fetched : forall t (s s' : shared RA), gq_fetch t s = Ok s' -> one_fetch t s = (s', Ok tt).
Proof.
  intros t s s' F. unfold one_fetch, sbind, sget. unfold gq_fetch, runm in F. destruct (sp_set (SDim (t_dim t)) s) as [s1 [[]| |]]; cbn [bind] in F; try discriminate.
  unfold swhen. destruct (sp_bim s1).
  - destruct (sp_set (SDin (t_din t)) s1) as [s2 [[]| |]]; cbn [bind] in F; try discriminate.
    destruct (sp_set (SNames (t_cols t)) s2) as [s3 [[]| |]]; try discriminate. injection F as ->. reflexivity.
  - unfold sret. cbn [bind] in F. destruct (sp_set (SNames (t_cols t)) s1) as [s3 [[]| |]]; try discriminate. injection F as ->. reflexivity.
Qed.

(** ** Resets *)

Definition hrest (h : hclass RA) : hclass RA := match hm_reset (A := RA) h with Ok h' => h' | _ => h end.

Lemma hrest_ok : forall h, hc_hier h = true -> hm_reset (A := RA) h = Ok (hrest h).
Proof. intros h H. unfold hrest, hm_reset. rewrite H. reflexivity. Qed.
Lemma hrest_net : forall h, hc_hier h = true -> hc_hier (hrest h) = true /\ hc_net (hrest h) = hc_net h /\ hc_par (hrest h) = hc_par h /\ same_hclass (hrest h) h /\ h_inst (hc_run (hrest h)) = h_inst (hc_run h) /\
  (ring_wf 1 (h_buf (hc_run h)) -> ring_wf 1 (h_buf (hc_run (hrest h)))).
Proof.
  intros h H. unfold hrest, hm_reset. rewrite H. split; [exact H|]. split; [reflexivity|]. split; [reflexivity|]. split; [repeat split|]. split; [reflexivity|].
  intro W. cbn. apply ring_clear_wf. apply ring_resize_wf. exact W.
Qed.

Lemma set_hier_true : forall h : hclass RA, hc_hier h = true -> hc_set_hier true h = h.
Proof. intros [] E. cbn in *. subst. reflexivity. Qed.

Lemma mapM_all : forall {X Y} (f : X -> res Y) (g : X -> Y) l, (forall x, In x l -> f x = Ok (g x)) -> mapM f l = Ok (map g l).
Proof. intros X Y f g l. induction l as [|x l IH]; intro H; [reflexivity|]. cbn [mapM map]. rewrite (H x (or_introl eq_refl)). cbn [bind]. rewrite IH by (intros y Hy; apply H; right; exact Hy). reflexivity. Qed.

Definition rest_all (ms : list (string * hclass RA)) : list (string * hclass RA) := map (fun e => (fst e, hrest (snd e))) ms.

Lemma hreset_hier : forall v : hhmm RA, hh_hier v = true -> (hh_bim v = true -> hh_din v <= hh_dim v) -> Forall (fun e => hc_hier (snd e) = true) (hh_cls v) ->
  exists r, hh_reset (A := RA) v = Ok (hh_set_res r (hh_set_front (vresize (hh_size v) n0 (hh_v1 v)) (vresize (hh_size v) n0 (hh_v2 v)) false (hh_set_cls (rest_all (hh_cls v)) v))).
Proof.
  intros v HH HD HF. unfold hh_reset, reset_all.
  rewrite (mapM_all _ (fun e : string * hclass RA => (fst e, hrest (snd e)))).
  2: { intros e He. rewrite hrest_ok by (apply (proj1 (Forall_forall _ _) HF e He)). reflexivity. }
  cbn [bind]. fold (rest_all (hh_cls v)).
  assert (M2 : mapM (fun e : string * hclass RA => let* h := hm_reset (A := RA) (hc_set_hier (hh_hier v) (snd e)) in Ok (fst e, h)) (rest_all (hh_cls v)) = Ok (rest_all (hh_cls v))).
  { apply mapM_self. intros e He. unfold rest_all in He. apply in_map_iff in He. destruct He as (e' & <- & He). cbn [fst snd]. pose proof (proj1 (Forall_forall _ _) HF e' He) as H1.
    rewrite HH, set_hier_true by (apply hrest_net, H1). rewrite (hm_reset_idem (snd e')) by (apply hrest_ok, H1). reflexivity. }
  destruct (hh_bim v) eqn:B.
  - unfold usub. rewrite (proj2 (Nat.leb_le _ _) (HD eq_refl)). cbn [bind]. rewrite M2. cbn [bind]. eexists. reflexivity.
  - cbn [bind]. rewrite M2. cbn [bind]. eexists. reflexivity.
Qed.

Lemma mget_map : forall {X Y} (f : X -> Y) (ms : list (string * X)) l, mget String.eqb (map (fun e => (fst e, f (snd e))) ms) l = option_map f (mget String.eqb ms l).
Proof. intros X Y f. induction ms as [|[k g] ms IH]; intro l; [reflexivity|]. cbn. destruct (String.eqb l k); [reflexivity|apply IH]. Qed.

(** ** Exit probabilities *)

Lemma exits_all : forall ms : list (string * hclass RA), Forall (fun e => hc_hier (snd e) = true /\ 1 <= hc_n (snd e)) ms ->
  exits_default (A := RA) ms = Ok (map (fun e => (fst e, exit_renewed (snd e))) ms, None).
Proof.
  induction ms as [|[l h] ms IH]; intro F; [reflexivity|]. inversion F as [|? ? (F1 & F2) F3]; subst. cbn [exits_default map fst snd] in *.
  unfold hm_exit_default. rewrite F1. cbn [negb]. rewrite (renewed_ok _ _ F2). cbn [bind]. rewrite (IH F3). cbn [bind]. reflexivity.
Qed.

Lemma renewed_idem : forall N ex, 1 <= N -> renewed_exit N (renewed_exit N ex) = renewed_exit N ex.
Proof.
  intros N ex HN. unfold renewed_exit at 1 3. apply tab_ext. intros k Hk. destruct (k =? N - 1) eqn:E; [reflexivity|]. unfold renewed_exit. rewrite nth_tab by exact Hk. rewrite E. reflexivity.
Qed.
Lemma renewed_last : forall N, renewed_exit N [] = last_exit N.
Proof. intro N. unfold renewed_exit, last_exit. apply tab_ext. intros k _. destruct (k =? N - 1); [reflexivity|]. destruct k; reflexivity. Qed.
Lemma renewed_plain : forall N, renewed_exit N (last_exit N) = last_exit N.
Proof. intro N. destruct N as [|N]; [reflexivity|]. rewrite <- renewed_last. apply renewed_idem. lia. Qed.

Section Single.
  Variable u : junk RA.

  Lemma hnew_ext : forall (s s' : shared RA) cf l, sp_bim s = sp_bim s' -> sp_dim s = sp_dim s' -> sp_din s = sp_din s' -> sp_win s = sp_win s' ->
    hq_new_class u s cf l = hq_new_class u s' cf l.
  Proof. intros s s' cf l E1 E2 E3 E4. unfold hq_new_class. rewrite E1, E2, E3, E4. reflexivity. Qed.

  Lemma hmade_ext : forall (s s' : shared RA) cf recs recs' l h, sp_bim s = sp_bim s' -> sp_dim s = sp_dim s' -> sp_din s = sp_din s' -> sp_win s = sp_win s' ->
    settings s = settings s' -> of_class l recs = of_class l recs' -> hclass_made u s cf recs l h -> hclass_made u s' cf recs' l h.
  Proof.
    intros s s' cf recs recs' l h E1 E2 E3 E4 E5 E6 H. unfold hclass_made in *. rewrite <- E5, <- E6, <- (hnew_ext s s' cf l E1 E2 E3 E4). exact H.
  Qed.

  Lemma hlike_ext : forall (s s' : shared RA) cf recs recs' l h, sp_bim s = sp_bim s' -> sp_dim s = sp_dim s' -> sp_din s = sp_din s' -> sp_win s = sp_win s' ->
    settings s = settings s' -> of_class l recs = of_class l recs' -> hclass_like u s cf recs l h -> hclass_like u s' cf recs' l h.
  Proof.
    intros s s' cf recs recs' l h E1 E2 E3 E4 E5 E6 (U & h' & M & S). split; [exact U|]. exists h'. split; [|exact S]. eapply (hmade_ext s s'); eauto.
  Qed.

  Lemma usable_same : forall h k : hclass RA, same_hclass h k -> hmm_usable k -> hmm_usable h.
  Proof.
    intros h k (E1 & E2 & E3 & E4 & E5 & E6 & E7 & E8) U. unfold hmm_usable, state_usable, hc_n, hc_mode in *. rewrite E1, E2, E3, E4, E5, E6, E7, E8. exact U.
  Qed.

  Lemma hlike_same : forall s cf recs l h k, same_hclass k h -> hclass_like u s cf recs l h -> hclass_like u s cf recs l k.
  Proof.
    intros s cf recs l h k E (U & h' & M & S). split; [eapply usable_same; eassumption|]. exists h'. split; [exact M|]. eapply hsame_trans; eassumption.
  Qed.

  Lemma hrun_class : forall (w : world) k t recs (s : shared RA) cf l (h0 : hclass RA), recorded w k t recs -> set_up (t_bim t) s -> sp_dim s = t_dim t -> sp_din s = (if t_bim t then t_din t else 0) ->
    In l (map fst recs) -> hlearnable u s cf recs l -> shares s (hc_bim h0) (hc_dim h0) (hc_din h0) (hc_win h0) -> hc_par h0 = hmmP_assign hmmP_new (cf_params cf l) -> hc_hier h0 = true ->
    exists st, hq_run_class w t s l h0 = Ok (st, Returned) /\ t_status st = Done /\ hclass_like u s cf recs l (t_m st) /\
      h_exit (hc_net (t_m st)) = renewed_exit (hp_states (cf_params cf l)) (h_exit (hc_net h0)) /\ frame_kept h0 (t_m st).
  Proof.
    intros w k t recs s cf l h0 H SU D DI Hl LE (N1 & N2 & N3 & N4) N5 N6.
    destruct (hq_train_class_ok u w k t recs s cf l H SU D DI Hl LE) as (h' & _ & HM).
    destruct (recorded_shape w k t recs H) as (KS & V & _). destruct (recorded_labels w k t recs H) as (LB & _).
    destruct (recorded_class w k t recs H) as (_ & GC). specialize (GC l (proj2 (LB l) Hl)). pose proof H as (_ & _ & _ & IR & _ & F).
    destruct (class_phrases w t l _ recs F) as (ps & ss & E1 & E2 & E3 & E4).
    destruct SU as (B & M & SD1 & SD2 & W1 & W2). unfold modal_ok in M.
    destruct LE as (L1 & L2 & L3 & (ph & Hph & Lph) & L5 & L6).
    assert (B0 : hc_bim h0 = t_bim t) by congruence. assert (D0 : hc_dim h0 = t_dim t) by congruence. assert (I0 : hc_din h0 = if t_bim t then t_din t else 0) by congruence.
    assert (N0 : hc_n h0 = hp_states (cf_params cf l)) by (unfold hc_n; rewrite N5; reflexivity). assert (M0 : hc_mode h0 = hp_trans (cf_params cf l)) by (unfold hc_mode; rewrite N5; reflexivity).
    assert (SF : same_frame (hq_new_class u s cf l) h0) by (repeat split; assumption).
    assert (ND : of_class l recs <> []) by (intro C; rewrite C in Hph; destruct Hph).
    destruct (hclass_learned2 (settings s) h0 ps ss W1 E2) as (s' & ET & DN & LD & RD & ST & FK & KE & KI).
    { intros c Hc. destruct (E4 c Hc) as (C1 & C2 & C3). unfold fits_set. rewrite B0, D0, I0. split; [exact C2|]. split; [exact C1|]. intro X. rewrite X in *. auto. }
    { intro X. rewrite B0 in X. rewrite I0, X. rewrite B, X, DI in M. rewrite X in M. lia. }
    { rewrite E3. split; [rewrite N0; exact L1|]. split; [rewrite N5; exact L2|]. split; [rewrite N4; exact W2|]. split; [|split; [|split; [apply tab_length|split; [intros; apply tab_length|split; [split|]]]]].
      - unfold hmm_dims. rewrite B0, D0, I0. rewrite B, D, DI in M. destruct (t_bim t); lia.
      - unfold hmm_abs. rewrite N5. exact L5.
      - exact ND.
      - rewrite Forall_forall. intros q Hq. split; [rewrite Forall_forall in L3; apply L3; exact Hq|]. rewrite <- E3 in Hq. apply in_map_iff in Hq. destruct Hq as (c & <- & Hc).
        destruct (E4 c Hc) as (C1 & _). rewrite D0, <- C1. clear -E2 Hc. induction E2 as [|q c' ps ss HR HF IH]; [destruct Hc|]. destruct Hc as [->|Hc]; [exact (frames_dim q c HR)|auto].
      - apply Exists_exists. exists ph. split; [exact Hph|]. unfold hc_n. rewrite N5. exact Lph. }
    { exact N6. }
    { rewrite E3. destruct L6 as [L6|L6]; [left; rewrite M0; exact L6|right]. intros h2 SH. destruct HM as ((k2 & _ & _ & (it & k1 & _ & EK & _) & _) & _).
      destruct (started_same _ _ _ _ _ _ SF ND SH EK) as (k2' & SK & SN). eapply rows_same; [exact SN|]. apply L6. exact SK. }
    exists s'. unfold hq_run_class. rewrite GC. unfold sub1. cbn [u_phrases u_dim]. rewrite (class_of_filter _ _ _ KS), E1. cbn [bind].
    assert (PN : match ps with [] => true | _ => false end = false).
    { destruct ps; [|reflexivity]. inversion E2; subst. rewrite <- E3 in Hph. destruct Hph. }
    rewrite PN. replace (t_dim t) with (hc_dim h0) by congruence. unfold settings in ET. rewrite ET. split; [reflexivity|]. split; [exact DN|]. split; [|split].
    - split; [apply RD|]. exists h'. split; [exact HM|]. eapply (hlearned_same (settings s) (of_class l recs) h0 (hq_new_class u s cf l)); [exact SF|exact ND|rewrite <- E3; exact LD|apply HM].
    - rewrite KE, N0. reflexivity.
    - exact FK.
  Qed.

  Definition seq_mode (m : hmodel RA) : bool := (cf_mt (hq_cf m) =? 0)%Z.

  (** The view of the model after the class has been added. *)
  Definition added (s : shared RA) (m : hmodel RA) (l : string) (v : hhmm RA) : Prop :=
    hh_hier v = true /\ hh_bim v = sp_bim s /\ hh_dim v = sp_dim s /\ hh_din v = sp_din s /\ hh_v1 v = hq_v1 m /\ hh_v2 v = hq_v2 m /\ hh_started v = hq_started m /\ hh_res v = hq_res m /\
    label_sorted (hh_cls v) /\ (forall l', In l' (map fst (hh_cls v)) <-> l' = l \/ In l' (map fst (hq_cls m))) /\ length (hh_prior v) = length (hh_cls v) /\
    (exists h, mget String.eqb (hh_cls v) l = Some h /\ shares s (hc_bim h) (hc_dim h) (hc_din h) (hc_win h) /\ hc_par h = hmmP_assign hmmP_new (cf_params (hq_cf m) l) /\ hc_hier h = true /\
       ring_wf 1 (h_buf (hc_run h)) /\ renewed_exit (hc_n h) (h_exit (hc_net h)) = renewed_exit (hc_n h) (exits_named m l) /\
       (hclass_named m l = None -> h_buf (hc_run h) = ring_new n0 1 1 /\ h_started (hc_run h) = jk_flag u)) /\
    (forall l', l' <> l -> mget String.eqb (hh_cls v) l' = match hclass_named m l with Some _ => hclass_named m l' | None => option_map exit_renewed (hclass_named m l') end) /\
    match hclass_named m l with
    | Some _ => hh_prior v = hq_prior m /\ hh_trans v = hq_trans m /\ hh_exit v = hq_exit m
    | None => let n := length (hh_cls v) in hh_prior v = repeat (/ INR n)%R n /\ hh_trans v = repeat (repeat (/ INR n)%R n) n /\ hh_exit v = repeat (/ 10)%R n
    end.

  Lemma hadd_ok : forall (s : shared RA) (m : hmodel RA) l, hat_rest m -> 1 <= hp_states (cf_params (hq_cf m) l) ->
    Forall (fun e => shares s (hc_bim (snd e)) (hc_dim (snd e)) (hc_din (snd e)) (hc_win (snd e))) (hq_cls m) ->
    exists v, hh_add (A := RA) (jk_num u) (jk_flag u) l (hq_view (hq_put s (hq_view m) m)) = Ok (v, None) /\ added s m l v.
  Proof.
    intros s m l (HH & SO & LP & AR) HN SH. unfold hh_add. set (v0 := hq_view (hq_put s (hq_view m) m)).
    assert (SOP : forall h, label_sorted (mput String.eqb String.ltb (hq_cls m) l h)).
    { intro h. apply (mput_sorted String.eqb String.ltb String.eqb_eq str_ltb_trans str_ltb_total (hq_cls m) l h). exact SO. }
    change (mget String.eqb (hh_cls v0) l) with (hclass_named m l). change (hh_cls v0) with (hq_cls m). change (hh_cfg v0 l) with (cf_params (hq_cf m) l).
    destruct (hclass_named m l) as [h|] eqn:EC.
    - pose proof EC as EI. unfold hclass_named in EI. apply mget_in in EI; [|apply String.eqb_eq].
      destruct (proj1 (Forall_forall _ _) AR _ EI) as (_ & S2 & S3 & S4 & S5). cbn [snd] in *. pose proof (proj1 (Forall_forall _ _) SH _ EI) as S1. cbn [snd] in S1.
      set (h1 := hc_set_par _ h).
      assert (P1 : hc_par h1 = hmmP_assign hmmP_new (cf_params (hq_cf m) l)) by (unfold h1, hmmP_assign; cbn; rewrite S3; reflexivity).
      assert (LE : length (mput String.eqb String.ltb (hq_cls m) l h1) = length (hq_cls m)).
      { rewrite <- (map_length fst), <- (map_length fst (hq_cls m)). f_equal. apply sorted_same; [apply SOP|exact SO|]. intro l'. rewrite mput_labels. split; [intros [->|Q]; [|exact Q]|auto].
        apply mget_label. unfold hclass_named in EC. congruence. }
      unfold hh_update_top, hh_size. cbn [hh_cls hh_set_cls hh_prior]. change (hh_prior v0) with (hq_prior m). change (num RA) with R in *. rewrite LE, LP, Nat.eqb_refl.
      eexists. split; [reflexivity|]. unfold added. rewrite EC. cbn [hh_set_cls hh_hier hh_bim hh_dim hh_din hh_v1 hh_v2 hh_started hh_res hh_cls hh_prior hh_trans hh_exit].
      split; [exact HH|]. repeat (split; [reflexivity|]). split; [apply SOP|]. split; [intro l'; apply mput_labels|]. split; [change (num RA) with R in *; rewrite LE; exact LP|]. split; [|split].
      + exists h1. split; [rewrite mget_mput by apply String.eqb_eq; rewrite String.eqb_refl; reflexivity|]. split; [exact S1|]. split; [exact P1|]. split; [exact S2|]. split; [exact S5|].
        split; [|discriminate]. unfold exits_named. rewrite EC. reflexivity.
      + intros l' NL. rewrite mget_mput by apply String.eqb_eq. apply String.eqb_neq in NL. rewrite NL. reflexivity.
      + repeat split.
    - assert (NI : ~ In l (map fst (hq_cls m))) by (rewrite mget_label; unfold hclass_named in EC; congruence).
      set (h1 := hc_set_par _ _). assert (NW : h1 = new_with u [] s (hq_cf m) l) by reflexivity. 
      destruct (mput_new _ (hq_cls m) l h1 NI) as (LE & _). set (ms := mput String.eqb String.ltb (hq_cls m) l h1) in *.
      unfold hh_update_top, hh_size. cbn [hh_cls hh_set_cls hh_prior hh_set_top hh_trans]. change (hh_prior v0) with (hq_prior m). change (hh_trans v0) with (hq_trans m). change (num RA) with R in *.
      rewrite LE, LP, (proj2 (Nat.eqb_neq _ _)) by lia.
      rewrite exits_all.
      2: { apply Forall_forall. intros e He. apply in_mput in He. destruct He as [->|He]; [rewrite NW; split; [reflexivity|exact HN]|].
        destruct (proj1 (Forall_forall _ _) AR _ He) as (_ & S2 & _ & S4 & _). auto. }
      cbn [bind]. eexists. split; [reflexivity|]. unfold added. rewrite EC. cbn [hh_set_cls hh_set_top hh_hier hh_bim hh_dim hh_din hh_v1 hh_v2 hh_started hh_res hh_cls hh_prior hh_trans hh_exit].
      assert (LM : map fst (map (fun e : string * hclass RA => (fst e, exit_renewed (snd e))) ms) = map fst ms) by (rewrite map_map; reflexivity).
      split; [exact HH|]. repeat (split; [reflexivity|]). split; [unfold label_sorted; rewrite LM; apply SOP|]. split; [intro l'; rewrite LM; apply mput_labels|]. split; [rewrite map_length, LE; apply repeat_length|]. split; [|split].
      + exists (exit_renewed h1). split; [rewrite mget_map; unfold ms; rewrite mget_mput by apply String.eqb_eq; rewrite String.eqb_refl; reflexivity|].
        rewrite NW. split; [repeat split|]. split; [reflexivity|]. split; [reflexivity|]. split; [apply ring_new_wf|].
        split; [|intros _; split; reflexivity]. unfold exits_named. rewrite EC. change (hc_n (exit_renewed (new_with u [] s (hq_cf m) l))) with (hp_states (cf_params (hq_cf m) l)).
        change (h_exit (hc_net (exit_renewed (new_with u [] s (hq_cf m) l)))) with (renewed_exit (hp_states (cf_params (hq_cf m) l)) []). apply renewed_idem, HN.
      + intros l' NL. rewrite mget_map. unfold ms. rewrite mget_mput by apply String.eqb_eq. apply String.eqb_neq in NL. rewrite NL. reflexivity.
      + cbv zeta. rewrite map_length, LE.
        assert (Q : nofQ (a := RA) (QArith_base.Qmake 1 10) = (/ 10)%R) by (cbn; unfold Q2R; cbn; lra).
        assert (Q1 : ndiv (a := RA) n1 (nN (S (length (hq_cls m)))) = (/ INR (S (length (hq_cls m))))%R) by (rewrite n1_RA, nN_RA; cbn -[INR]; lra).
        change (num RA) with R in *. rewrite Q, Q1. rewrite map_const, vresize_length. repeat split.
  Qed.

  Lemma htrain_one : forall (w : world) k t recs (m : hmodel RA) l, recorded w k t recs -> In l (map fst recs) -> set_up (t_bim t) (hq_sp m) -> hat_rest m -> hsame_dims t m ->
    (forall s, fetched t (hq_sp m) s -> hlearnable u s (hq_cf m) recs l) ->
    exists m', hq_train_one u w k l (m, false) = ((m', false), Ok tt) /\ hone_trained u t recs m l m' /\
      (seq_mode m = true -> hq_v1 m' = hq_v1 m /\ hq_v2 m' = hq_v2 m /\ hq_started m' = hq_started m /\ hq_res m' = hq_res m /\
         (hclass_named m l = None -> forall h, hclass_named m' l = Some h -> h_buf (hc_run h) = ring_new n0 1 1)).
  Proof.
    intros w k t recs m l H Hl SU AR SD LEA. pose proof AR as (HH & SO & LP & ARF). pose proof H as (_ & HS & _ & IR & LC & _).
    destruct (fetch_ok t (hq_sp m) SU IR LC) as (s & E1 & SU' & D & DI & NM & ST & WN).
    destruct (recorded_labels w k t recs H) as (LB & _).
    assert (Hlt : In l (t_labels t)) by (apply LB; exact Hl).
    assert (BM : sp_bim (hq_sp m) = t_bim t) by apply SU. assert (BS : sp_bim s = t_bim t) by apply SU'.
    assert (FT : fetched t (hq_sp m) s) by (unfold fetched; auto 10).
    pose proof (LEA s FT) as LE.
    assert (SH : Forall (fun e => shares s (hc_bim (snd e)) (hc_dim (snd e)) (hc_din (snd e)) (hc_win (snd e))) (hq_cls m)).
    { apply Forall_forall. intros e He. destruct (proj1 (Forall_forall _ _) ARF e He) as ((S1 & S2 & S3 & S4) & _).
      destruct (SD ltac:(intro Q; rewrite Q in He; destruct He)) as (X1 & X2). unfold shares. rewrite S1, S2, S3, S4, BM, BS, D, DI, WN, X1.
      repeat split. destruct (t_bim t); [apply X2; reflexivity|]. destruct SU as (B0 & M0 & _). unfold modal_ok in M0. rewrite BM in M0. apply M0. }
    destruct (hadd_ok s m l AR ltac:(apply LE) SH) as (v & EA & V1 & V2 & V3 & V4 & V5 & V6 & V7 & V8 & V9 & V10 & V11 & (h0 & G1 & G2 & G3 & G4 & G5 & G6 & G7) & V12 & V13).
    destruct (hrun_class w k t recs s (hq_cf m) l h0 H SU' D DI Hl LE G2 G3 G4) as (st & R1 & R2 & R3 & R4 & R5).
    pose proof R5 as (K1 & K2 & K3 & K4 & K5 & K6 & K7 & K8).
    assert (NH0 : hc_n h0 = hp_states (cf_params (hq_cf m) l)) by (unfold hc_n; rewrite G3; reflexivity).
    unfold set_at in HS. destruct (nth_error (w_sets w) k) as [o|] eqn:EN; [|discriminate]. subst o.
    set (ms := mput String.eqb String.ltb (hh_cls v) l (t_m st)).
    assert (SOM : label_sorted ms).
    { apply (mput_sorted String.eqb String.ltb String.eqb_eq str_ltb_trans str_ltb_total (hh_cls v) l (t_m st)). exact V9. }
    assert (LMS : map fst ms = map fst (hh_cls v)).
    { apply sorted_same; [exact SOM|exact V9|]. intro l'. unfold ms. rewrite mput_labels, V10. tauto. }
    assert (LL : length ms = length (hh_cls v)) by (rewrite <- (map_length fst), LMS; apply map_length).
    assert (MG : forall l', mget String.eqb ms l' = if String.eqb l' l then Some (t_m st) else mget String.eqb (hh_cls v) l') by (intro l'; unfold ms; apply mget_mput, String.eqb_eq).
    (* every class of [ms] is in order *)
    assert (OLD : forall l' h, l' <> l -> mget String.eqb (hh_cls v) l' = Some h -> exists g, hclass_named m l' = Some g /\ h = match hclass_named m l with Some _ => g | None => exit_renewed g end).
    { intros l' h NL Q. rewrite (V12 l' NL) in Q. destruct (hclass_named m l); [exists h; auto|]. destruct (hclass_named m l') as [g|]; [|discriminate]. cbn in Q. injection Q as <-. exists g. auto. }
    assert (ARM : Forall (fun e => shares s (hc_bim (snd e)) (hc_dim (snd e)) (hc_din (snd e)) (hc_win (snd e)) /\ hc_hier (snd e) = true /\ hp_hier (hc_par (snd e)) = true /\ 1 <= hc_n (snd e) /\
      ring_wf 1 (h_buf (hc_run (snd e)))) ms).
    { apply Forall_forall. intros [l' h] He. cbn [snd]. assert (GM : mget String.eqb ms l' = Some h) by (eapply in_mget; eauto using String.eqb_eq, str_ltb_irrefl).
      rewrite MG in GM. destruct (String.eqb_spec l' l) as [->|NL].
      - injection GM as <-. unfold shares, hc_n. rewrite K1, K2, K3, K4, K5, K6, K7, G3. split; [exact G2|]. split; [exact G4|]. split; [reflexivity|]. split; [apply LE|exact G5].
      - destruct (OLD l' h NL GM) as (g & Q1 & ->). unfold hclass_named in Q1. apply mget_in in Q1; [|apply String.eqb_eq].
        destruct (proj1 (Forall_forall _ _) ARF _ Q1) as (_ & Y1). pose proof (proj1 (Forall_forall _ _) SH _ Q1) as Y0. cbn [snd] in *. destruct (hclass_named m l); split; assumption. }
    assert (T : hq_train_one u w k l (m, false) =
      (let v' := hh_set_cls ms v in
       if seq_mode m then ((hq_put s v' m, false), Ok tt)
       else match hh_join (A := RA) (fun l' => String.eqb l' l && is_failed (t_status st)) v' with
            | Ok (v, None) => ((hq_put s v m, false), Ok tt)
            | Ok (v, Some e) => ((hq_put s v m, false), Throw e)
            | Throw e => ((hq_put s (hq_view m) m, false), Throw e)
            | UB => ((hq_put s (hq_view m) m, false), UB)
            end)).
    { unfold hq_train_one. rewrite EN, (one_known t l Hlt).
      assert (HC : hq_cancel l m false = Ok (m, false, None)) by (unfold hq_cancel; destruct (mget String.eqb (hq_cls m) l); reflexivity).
      rewrite HC, one_fits. 2: { intro Hn. rewrite BM. apply SD. destruct (hq_cls m); [cbn in Hn; lia|congruence]. }
      rewrite (one_fetched t _ s E1). unfold hq_train_class_of. rewrite EA, G1, R1. reflexivity. }
    assert (TOP : match hclass_named m l with
      | None => even_top (length ms) (hq_put s (hh_set_cls ms v) m)
      | Some _ => hh_prior v = hq_prior m /\ hh_trans v = hq_trans m /\ hh_exit v = hq_exit m
      end).
    { destruct (hclass_named m l); [exact V13|]. unfold even_top. cbn [hq_put hq_prior hq_trans hq_exit hh_set_cls hh_prior hh_trans hh_exit]. rewrite LL. exact V13. }
    assert (LAB : forall l', In l' (map fst ms) <-> l' = l \/ In l' (map fst (hq_cls m))) by (intro l'; rewrite LMS; apply V10).
    assert (OTH : forall l', l' <> l -> match hclass_named m l' with None => mget String.eqb ms l' = None | Some h => mget String.eqb ms l' = Some (match hclass_named m l with None => exit_renewed h | Some _ => h end) end).
    { intros l' NL. rewrite MG. pose proof NL as NL'. apply String.eqb_neq in NL'. rewrite NL', (V12 l' NL). destruct (hclass_named m l), (hclass_named m l'); reflexivity. }
    assert (REX : h_exit (hc_net (t_m st)) = renewed_exit (hp_states (cf_params (hq_cf m) l)) (exits_named m l)) by (rewrite R4, <- NH0; exact G6).
    rewrite T. cbv zeta. unfold hone_trained. fold (seq_mode m). destruct (seq_mode m) eqn:SQ.
    - exists (hq_put s (hh_set_cls ms v) m). split; [reflexivity|]. split.
      + cbn [hq_put hq_cf hq_sp hq_cls hh_cls hh_set_cls]. split; [reflexivity|]. split; [exact FT|]. split; [exact NM|]. split; [|split; [exact LAB|split; [|split]]].
        * unfold hat_rest. cbn [hq_put hq_cf hq_sp hq_cls hq_prior hh_cls hh_set_cls hh_prior]. split; [exact HH|]. split; [exact SOM|]. split; [change (num RA) with R in *; rewrite LL; exact V11|exact ARM].
        * exists (t_m st). split; [|split; [exact R3|exact REX]]. unfold hclass_named. cbn [hq_put hq_cls hh_cls hh_set_cls]. rewrite MG, String.eqb_refl. reflexivity.
        * intros l' NL. specialize (OTH l' NL). unfold hclass_named at 2 3. cbn [hq_put hq_cls hh_cls hh_set_cls]. destruct (hclass_named m l') as [h|]; [|exact OTH]. eexists. split; [exact OTH|reflexivity].
        * destruct (hclass_named m l); [|exact TOP]. exact TOP.
      + intros _. cbn [hq_put hq_v1 hq_v2 hq_started hq_res hh_set_cls hh_v1 hh_v2 hh_started hh_res]. repeat (split; [assumption|]). intros NC h Q. unfold hclass_named in Q. cbn [hq_put hq_cls hh_cls hh_set_cls] in Q.
        rewrite MG, String.eqb_refl in Q. injection Q as <-. rewrite K7. apply G7, NC.
    - unfold hh_join. rewrite R2. rewrite filter_all by (intro e; cbn [is_failed]; rewrite andb_false_r; reflexivity). cbn [hh_cls hh_set_cls].
      destruct (hreset_hier (hh_set_cls ms (hh_set_cls ms v))) as (r & ER).
      { exact V1. }
      { cbn [hh_set_cls hh_bim hh_din hh_dim]. rewrite V2, V3, V4. intro B. destruct SU' as (_ & M' & _). unfold modal_ok in M'. rewrite B in M'. lia. }
      { cbn [hh_set_cls hh_cls]. eapply Forall_impl; [|exact ARM]. intros e (_ & Q & _). exact Q. }
      rewrite ER. cbn [bind]. unfold hh_update_top, hh_size. cbn [hh_set_cls hh_set_res hh_set_front hh_cls hh_prior].
      assert (LR : length (rest_all ms) = length ms) by apply map_length. rewrite LR. change (num RA) with R in *. rewrite V11, LL, Nat.eqb_refl.
      assert (LMR : map fst (rest_all ms) = map fst ms) by (unfold rest_all; rewrite map_map; reflexivity).
      eexists. split; [reflexivity|]. split; [|discriminate].
      cbn [hq_put hq_cf hq_sp hq_cls hh_cls hh_set_cls hh_set_res hh_set_front]. split; [reflexivity|]. split; [exact FT|]. split; [exact NM|]. split; [|split; [intro l'; rewrite LMR; apply LAB|split; [|split]]].
      + unfold hat_rest. cbn [hq_put hq_cf hq_sp hq_cls hq_prior hh_cls hh_set_cls hh_set_res hh_set_front hh_prior]. split; [exact HH|]. split; [unfold label_sorted; rewrite LMR; exact SOM|].
        split; [rewrite LR, LL; exact V11|]. apply Forall_forall. intros e He. unfold rest_all in He. apply in_map_iff in He. destruct He as (e' & <- & He). cbn [snd].
        destruct (proj1 (Forall_forall _ _) ARM e' He) as ((S1 & S2 & S3 & S4) & S5 & S6 & S7 & S8). destruct (hrest_net (snd e') S5) as (W1 & _ & W3 & (W4 & W5 & W6 & W7 & _) & _ & W9).
        unfold shares, hc_n in *. rewrite W3, W4, W5, W6, W7. split; [repeat split; assumption|]. split; [assumption|]. split; [assumption|]. split; [assumption|]. apply W9, S8.
      + assert (HT : hc_hier (t_m st) = true) by (rewrite K6; exact G4). destruct (hrest_net (t_m st) HT) as (_ & W2 & _ & W4 & _).
        exists (hrest (t_m st)). split; [|split; [eapply hlike_same; [exact W4|exact R3]|rewrite W2; exact REX]]. unfold hclass_named. cbn [hq_put hq_cls hh_cls hh_set_cls hh_set_res hh_set_front].
        unfold rest_all. rewrite mget_map, MG, String.eqb_refl. reflexivity.
      + intros l' NL. specialize (OTH l' NL). destruct (hclass_named m l') as [h|] eqn:CN.
        2: { unfold hclass_named. cbn [hq_put hq_cls hh_cls hh_set_cls hh_set_res hh_set_front]. unfold rest_all. rewrite mget_map, OTH. reflexivity. }
        eexists. split; [unfold hclass_named at 1; cbn [hq_put hq_cls hh_cls hh_set_cls hh_set_res hh_set_front]; unfold rest_all; rewrite mget_map, OTH; reflexivity|]. cbn [rested negb]. apply hrest_ok.
        unfold hclass_named in CN. apply mget_in in CN; [|apply String.eqb_eq]. destruct (proj1 (Forall_forall _ _) ARF _ CN) as (_ & Y & _). destruct (hclass_named m l); exact Y.
      + destruct (hclass_named m l); [exact TOP|]. unfold even_top in *. cbn [hq_put hq_prior hq_trans hq_exit hh_set_cls hh_set_res hh_set_front hh_prior hh_trans hh_exit] in *. rewrite LR. exact TOP.
  Qed.
End Single.
