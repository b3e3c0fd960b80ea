(** Training single classes of a mixture model. *)
From Coq Require Import String List Bool Arith ZArith Reals Lia Sorting.Sorted.
From Verif Require Import Base BaseFacts Arith RFacts Model_Map Model_Ring Model_Phrase Model_TrainingSet Model_Gaussian Model_Config Model_KMeans Model_GMM Model_Shared
  Model_Train Model_Reload Model_Workflow Model_Workflow3 Spec_Common Spec_Phrase Spec_TrainingSet Spec_Train Spec_Shared Spec_Matrix Spec_Gaussian Spec_GMM Spec_Reload
  Spec_Workflow Spec_Workflow2 Spec_Workflow3
  Proofs_Map Proofs_Ring Proofs_TrainingSet Proofs_TrainingSet2 Proofs_TrainingSet3 Proofs_TrainingSet4 Proofs_GMM Proofs_GMM2 Proofs_GMM3 Proofs_GMM4 Proofs_Shared Proofs_Reload2 Proofs_Reload4 Proofs_Workflow Proofs_Workflow2 Proofs_Workflow3
  Proofs_Workflow4 Proofs_Workflow6 Proofs_Workflow12.
Import ListNotations.
Local Open Scope list_scope.
Local Open Scope nat_scope.

Local Notation world := (world RA).

Lemma prepare_ok : forall t n l (s s' : shared RA), In l (t_labels t) -> (0 < n -> sp_dim s = t_dim t /\ (sp_bim s = true -> sp_din s = t_din t)) ->
  gq_fetch t s = Ok s' -> one_prepare t n l s = (s', Ok tt).
Proof.
  intros t n l s s' Hl D F. unfold one_prepare, sbind, sget.
  assert (E : existsb (String.eqb l) (t_labels t) = true) by (apply existsb_exists; exists l; split; [exact Hl|apply String.eqb_refl]).
  rewrite E. cbn [negb].
  assert (C : (0 <? n) && (negb (sp_dim s =? t_dim t) || (sp_bim s && negb (sp_din s =? t_din t))) = false).
  { destruct n as [|n]; [reflexivity|]. destruct (D ltac:(lia)) as (D1 & D2). rewrite D1, Nat.eqb_refl. cbn [negb orb].
    destruct (sp_bim s); [rewrite D2, Nat.eqb_refl by reflexivity|]; reflexivity. }
  rewrite C. unfold gq_fetch, runm in F. destruct (sp_set (SDim (t_dim t)) s) as [s1 [[]| |]]; cbn [bind] in F; try discriminate.
  unfold swhen. destruct (sp_bim s1).
  - destruct (sp_set (SDin (t_din t)) s1) as [s2 [[]| |]]; cbn [bind] in F; try discriminate.
    destruct (sp_set (SNames (t_cols t)) s2) as [s3 [[]| |]]; try discriminate. injection F as ->. reflexivity.
  - unfold sret. cbn [bind] in F. destruct (sp_set (SNames (t_cols t)) s1) as [s3 [[]| |]]; try discriminate. injection F as ->. reflexivity.
Qed.

Lemma used_params : forall l (cf : config (gmmP RA)) (p : gmmP RA), cf_used gmmP_assign l cf p = cf_params cf l.
Proof.
  intros l cf p. unfold cf_used, cf_params, gmmP_assign. destruct (cget cf l) as [[]|]; [reflexivity|]. destruct (cf_def cf); reflexivity.
Qed.

Lemma mget_resets : forall (ms : list (string * gclass RA)) l,
  mget String.eqb (map (fun e => (fst e, gm_reset1 (snd e))) ms) l = option_map (gm_reset1 (A := RA)) (mget String.eqb ms l).
Proof. induction ms as [|[k g] ms IH]; intro l; [reflexivity|]. cbn. destruct (String.eqb l k); [reflexivity|apply IH]. Qed.

Lemma mget_label : forall {X} (ms : list (string * X)) l, In l (map fst ms) <-> mget String.eqb ms l <> None.
Proof.
  induction ms as [|[k g] ms IH]; intro l; cbn [map fst mget In]; [split; [tauto|congruence]|].
  destruct (String.eqb l k) eqn:E.
  - apply String.eqb_eq in E. subst. split; [congruence|auto].
  - apply String.eqb_neq in E. rewrite <- IH. split; [intros [H|H]; [congruence|exact H]|auto].
Qed.

Lemma mput_labels : forall {X} (ms : list (string * X)) l (x : X) l', In l' (map fst (mput String.eqb String.ltb ms l x)) <-> l' = l \/ In l' (map fst ms).
Proof.
  intros X ms l x l'. rewrite !mget_label, mget_mput by apply String.eqb_eq. destruct (String.eqb l' l) eqn:E.
  - apply String.eqb_eq in E. split; [auto|congruence].
  - apply String.eqb_neq in E. split; [auto|intros [H|H]; [congruence|exact H]].
Qed.

Lemma same_reset : forall g : gclass RA, same_class (gm_reset1 g) g.
Proof. intro g. repeat split. Qed.

Lemma reset1_wf : forall g : gclass RA, ring_wf 1 (gc_buf g) -> ring_wf 1 (gc_buf (gm_reset1 g)).
Proof. intros g H. cbn. apply ring_clear_wf. apply ring_resize_wf. exact H. Qed.

Section Single.
  Variable u : junk RA.

  Lemma new_class_ext : forall (s s' : shared RA) cf l, sp_bim s = sp_bim s' -> sp_dim s = sp_dim s' -> sp_din s = sp_din s' -> sp_win s = sp_win s' ->
    gq_new_class u s cf l = gq_new_class u s' cf l.
  Proof.
    intros s s' cf l E1 E2 E3 E4. unfold gq_new_class, gc_fresh. rewrite E1, E2, E3, E4. reflexivity.
  Qed.

  Lemma made_ext : forall (s s' : shared RA) cf recs recs' l g, sp_bim s = sp_bim s' -> sp_dim s = sp_dim s' -> sp_din s = sp_din s' -> sp_win s = sp_win s' ->
    settings s = settings s' -> of_class l recs = of_class l recs' -> class_made u s cf recs l g -> class_made u s' cf recs' l g.
  Proof.
    intros s s' cf recs recs' l g E1 E2 E3 E4 E5 E6 (H1 & H2 & H3 & H4 & H5 & H6 & H7). unfold class_made.
    rewrite <- E5, <- E6, <- (new_class_ext s s' cf l E1 E2 E3 E4), <- E1, <- E2, <- E3, <- E4. auto 10.
  Qed.

  Lemma like_ext : forall (s s' : shared RA) cf recs recs' l g, sp_bim s = sp_bim s' -> sp_dim s = sp_dim s' -> sp_din s = sp_din s' -> sp_win s = sp_win s' ->
    settings s = settings s' -> of_class l recs = of_class l recs' -> class_like u s cf recs l g -> class_like u s' cf recs' l g.
  Proof.
    intros s s' cf recs recs' l g E1 E2 E3 E4 E5 E6 (U & g' & M & S). split; [exact U|]. exists g'. split; [|exact S].
    eapply (made_ext s s'); eauto.
  Qed.

  Lemma like_reset : forall s cf recs l g, class_like u s cf recs l g -> class_like u s cf recs l (gm_reset1 g).
  Proof.
    intros s cf recs l g (U & g' & M & S). split; [apply reset1_usable, U|]. exists g'. split; [exact M|]. eapply same_trans; [apply same_reset|exact S].
  Qed.

  Lemma run_class : forall (w : world) k t recs (s : shared RA) cf l (g0 : gclass RA), recorded w k t recs -> set_up (t_bim t) s -> sp_dim s = t_dim t ->
    In l (map fst recs) -> learnable cf recs l -> shares s (gc_bim g0) (gc_dim g0) (gc_din g0) (gc_win g0) -> gc_par g0 = cf_params cf l -> ring_wf 1 (gc_buf g0) ->
    exists st, gq_run_class w t s l g0 = Ok (st, Returned) /\ t_status st = Done /\ class_like u s cf recs l (t_m st) /\
      shares s (gc_bim (t_m st)) (gc_dim (t_m st)) (gc_din (t_m st)) (gc_win (t_m st)) /\ gc_buf (t_m st) = gc_buf g0.
  Proof.
    intros w k t recs s cf l g0 H SU D Hl LE (N1 & N2 & N3 & N4) N5 N6.
    destruct (train_class_ok u w k t recs s cf l H SU D Hl LE) as (g' & _ & T2 & T3 & T4 & T5 & T6 & T7 & T8).
    destruct (recorded_shape w k t recs H) as (KS & V & _). destruct (recorded_labels w k t recs H) as (LB & _).
    destruct (recorded_class w k t recs H) as (_ & GC). specialize (GC l (proj2 (LB l) Hl)). pose proof H as (_ & _ & _ & IR & _ & F).
    destruct (class_phrases w t l _ recs F) as (ps & ss & E1 & E2 & E3 & E4).
    destruct LE as (L1 & (ph & Hph & Lph) & L3). destruct SU as (B & M & SD1 & SD2 & W1 & W2).
    destruct (class_learned (settings s) g0 ps ss W1 E2) as (s' & ET & DN & LD & RD & Q1 & Q2 & Q3 & Q4 & Q5 & Q6).
    { intros q Hq. rewrite (proj1 (E4 q Hq)). congruence. }
    { unfold gc_n. rewrite N5. exact L1. }
    { unfold good_dims. rewrite N1, N2, N3, B. unfold modal_ok in M. rewrite B in M. destruct (t_bim t); lia. }
    { unfold strong_abs, gc_mode. rewrite N5. exact L3. }
    { rewrite <- E3 in Hph. apply in_map_iff in Hph. destruct Hph as (q & <- & Hq). exists q. split; [exact Hq|]. unfold gc_n. rewrite N5. exact Lph. }
    exists s'. unfold gq_run_class. rewrite GC. unfold sub1. cbn [u_phrases u_dim]. rewrite (class_of_filter _ _ _ KS), E1. cbn [bind].
    assert (PN : match ps with [] => true | _ => false end = false).
    { destruct ps; [|reflexivity]. inversion E2; subst. rewrite <- E3 in Hph. destruct Hph. }
    rewrite PN. replace (t_dim t) with (gc_dim g0) by congruence. unfold settings in ET. rewrite ET.
    split; [reflexivity|]. split; [exact DN|]. split; [|split].
    - split; [split; [exact RD|]; split; [rewrite Q4, N4; exact W2|rewrite Q6; exact N6]|]. exists g'. split; [repeat (split; [assumption|]); assumption|].
      eapply (learned_same (settings s) (of_class l recs) g0 (gq_new_class u s cf l)); [|rewrite <- E3; exact LD|exact T2].
      destruct (new_class_fields u s cf l) as (F1 & F2 & F3 & F4 & F5 & _). repeat split; congruence.
    - unfold shares. rewrite Q1, Q2, Q3, Q4. auto.
    - exact Q6.
  Qed.

  Lemma train_one : forall (w : world) k t recs (m : gmodel RA) l, recorded w k t recs -> In l (map fst recs) -> learnable (gq_cf m) recs l ->
    set_up (t_bim t) (gq_sp m) -> at_rest m -> same_dims t m ->
    exists m', gq_train_one u w k l m = (m', Ok tt) /\ gq_cf m' = gq_cf m /\ fetched t (gq_sp m) (gq_sp m') /\ sp_names (gq_sp m') = t_cols t /\
      at_rest m' /\ (forall l', In l' (map fst (gq_cls m')) <-> l' = l \/ In l' (map fst (gq_cls m))) /\
      (exists g, class_named m' l = Some g /\ class_like u (gq_sp m') (gq_cf m) recs l g /\
        ((cf_mt (gq_cf m) =? 0)%Z = true -> class_named m l = None -> gc_buf g = ring_new n0 1 1)) /\
      (forall l', l' <> l -> class_named m' l' = if (cf_mt (gq_cf m) =? 0)%Z then class_named m l' else option_map (gm_reset1 (A := RA)) (class_named m l')).
  Proof.
    intros w k t recs m l H Hl LE SU (SO & AR) SD. pose proof H as (_ & HS & _ & IR & LC & _).
    destruct (fetch_ok t (gq_sp m) SU IR LC) as (s & E1 & SU' & D & DI & NM & ST & WN).
    destruct (recorded_labels w k t recs H) as (LB & _).
    assert (Hlt : In l (t_labels t)) by (apply LB; exact Hl).
    assert (BM : sp_bim (gq_sp m) = t_bim t) by apply SU. assert (BS : sp_bim s = t_bim t) by apply SU'.
    assert (P : one_prepare t (length (gq_cls m)) l (gq_sp m) = (s, Ok tt)).
    { apply prepare_ok; [exact Hlt| |exact E1]. intro Hn. rewrite BM. apply SD. destruct (gq_cls m); [cbn in Hn; lia|congruence]. }
    assert (AR' : Forall (fun e => shares s (gc_bim (snd e)) (gc_dim (snd e)) (gc_din (snd e)) (gc_win (snd e)) /\ ring_wf 1 (gc_buf (snd e))) (gq_cls m)).
    { apply Forall_forall. intros e He. destruct (proj1 (Forall_forall _ _) AR e He) as ((S1 & S2 & S3 & S4) & S5). split; [|exact S5].
      destruct (SD ltac:(intro Q; rewrite Q in He; destruct He)) as (X1 & X2). unfold shares. rewrite S1, S2, S3, S4, BM, BS, D, DI, WN, X1.
      repeat split. destruct (t_bim t); [apply X2; reflexivity|]. destruct SU as (B0 & M0 & _). unfold modal_ok in M0. rewrite BM in M0. apply M0. }
    set (g0 := gq_class_for u s (gq_cf m) (gq_cls m) l).
    assert (G0 : shares s (gc_bim g0) (gc_dim g0) (gc_din g0) (gc_win g0) /\ gc_par g0 = cf_params (gq_cf m) l /\ ring_wf 1 (gc_buf g0)).
    { unfold g0, gq_class_for. cbv zeta. unfold gc_set_par. cbn [gc_bim gc_dim gc_din gc_win gc_par gc_buf]. rewrite used_params.
      destruct (mget String.eqb (gq_cls m) l) as [g|] eqn:EG.
      - apply mget_in in EG; [|apply String.eqb_eq]. destruct (proj1 (Forall_forall _ _) AR' _ EG) as (S1 & S2). auto.
      - destruct (new_class_fields u s (gq_cf m) l) as (F1 & F2 & F3 & F4 & F5 & F6). unfold gq_new_class, gc_set_par in F1, F2, F3, F4, F6.
        cbn [gc_bim gc_dim gc_din gc_win gc_par gc_buf] in F1, F2, F3, F4, F6. split; [unfold shares; auto|]. split; [reflexivity|]. rewrite F6. apply ring_new_wf. }
    destruct G0 as (G1 & G2 & G3).
    destruct (run_class w k t recs s (gq_cf m) l g0 H SU' D Hl LE G1 G2 G3) as (st & R1 & R2 & R3 & R4 & R5'). assert (R5 : ring_wf 1 (gc_buf (t_m st))) by (rewrite R5'; exact G3).
    unfold set_at in HS. destruct (nth_error (w_sets w) k) as [o|] eqn:EN; [|discriminate]. subst o.
    set (ms := mput String.eqb String.ltb (gq_cls m) l (t_m st)).
    assert (SO' : label_sorted ms).
    { apply (mput_sorted String.eqb String.ltb String.eqb_eq str_ltb_trans str_ltb_total (gq_cls m) l (t_m st)). exact SO. }
    assert (AR2 : Forall (fun e => shares s (gc_bim (snd e)) (gc_dim (snd e)) (gc_din (snd e)) (gc_win (snd e)) /\ ring_wf 1 (gc_buf (snd e))) ms).
    { apply Forall_forall. intros e He. apply in_mput in He. destruct He as [->|He]; [split; assumption|]. apply (proj1 (Forall_forall _ _) AR' e He). }
    assert (T : gq_train_one u w k l m = (if (cf_mt (gq_cf m) =? 0)%Z then (gq_set s ms (gq_res m) m, Ok tt) else of_res (gq_set s ms (gq_res m) m) (gq_reset (gq_set s ms (gq_res m) m)))).
    { unfold gq_train_one. rewrite EN, P. cbv zeta. cbn [gq_set gq_cls gq_cf gq_res gq_sp]. fold g0. rewrite R1, R2. cbn [is_failed]. reflexivity. }
    assert (FT : fetched t (gq_sp m) s) by (unfold fetched; auto 10).
    assert (BN : class_named m l = None -> gc_buf (t_m st) = ring_new n0 1 1).
    { intro Q. rewrite R5'. unfold g0, gq_class_for. unfold class_named in Q. rewrite Q. reflexivity. }
    rewrite T. destruct (cf_mt (gq_cf m) =? 0)%Z.
    - exists (gq_set s ms (gq_res m) m). split; [reflexivity|]. unfold class_named, at_rest. cbn [gq_set gq_cf gq_sp gq_cls]. split; [reflexivity|]. split; [exact FT|]. split; [exact NM|].
      split; [split; assumption|]. split; [intro l'; apply mput_labels|]. split.
      + exists (t_m st). split; [|split; [exact R3|intros _; exact BN]]. unfold ms. rewrite mget_mput by apply String.eqb_eq. rewrite String.eqb_refl. reflexivity.
      + intros l' NL. unfold ms. rewrite mget_mput by apply String.eqb_eq. apply String.eqb_neq in NL. rewrite NL. reflexivity.
    - destruct (reset_gq (gq_set s ms (gq_res m) m)) as (r & ER & RS).
      { cbn [gq_set gq_sp]. intro B. destruct SU' as (_ & M' & _). unfold modal_ok in M'. rewrite B in M'. lia. }
      rewrite ER. eexists. split; [reflexivity|]. unfold class_named, at_rest. cbn [gq_set gq_cf gq_sp gq_cls]. split; [reflexivity|]. split; [exact FT|]. split; [exact NM|].
      assert (LM : map fst (map (fun e : string * gclass RA => (fst e, gm_reset1 (snd e))) ms) = map fst ms) by (rewrite map_map; reflexivity).
      split; [|split; [|split]].
      + split; [unfold label_sorted; rewrite LM; exact SO'|]. apply Forall_forall. intros e He. apply in_map_iff in He. destruct He as (e' & <- & He).
        destruct (proj1 (Forall_forall _ _) AR2 e' He) as (S1 & S2). cbn [snd fst]. split; [exact S1|]. apply reset1_wf, S2.
      + intro l'. rewrite LM. apply mput_labels.
      + exists (gm_reset1 (t_m st)). split; [|split; [apply like_reset, R3|discriminate]]. rewrite mget_resets. unfold ms. rewrite mget_mput by apply String.eqb_eq. rewrite String.eqb_refl. reflexivity.
      + intros l' NL. rewrite mget_resets. unfold ms. rewrite mget_mput by apply String.eqb_eq. apply String.eqb_neq in NL. rewrite NL. reflexivity.
  Qed.
End Single.
