(** Training of a mixture model with a training set. *)
From Coq Require Import String List Bool Arith Lia ZArith Reals Lra Sorting.Sorted.
From Verif Require Import Base BaseFacts Arith RFacts Model_Map Model_Ring Model_Phrase Model_TrainingSet Model_Gaussian Model_Config Model_KMeans Model_GMM
  Model_Shared Model_Train Model_Reload Model_Workflow Spec_Common Spec_Phrase Spec_TrainingSet Spec_Train Spec_Shared Spec_Matrix Spec_Gaussian Spec_GMM Spec_Workflow
  Proofs_Map Proofs_Phrase Proofs_PhraseStats Proofs_TrainingSet Proofs_TrainingSet5 Proofs_TrainingSet6 Proofs_TrainingSet7 Proofs_TrainingStats Proofs_Shared
  Proofs_GMM Proofs_GMM2 Proofs_GMM3 Proofs_GMM4 Proofs_Workflow Proofs_Workflow2.
Import ListNotations.
Local Open Scope list_scope.
Local Open Scope nat_scope.

Local Notation phrase := (phrase (A:=RA)).
Local Notation world := (world RA).

(** ** The set *)

Lemma recorded_shape : forall (w : world) k t recs, recorded w k t recs -> ksorted Z.ltb (t_phrases t) /\ valid (w_heap w) (t_phrases t) /\
  t = fst (updated (w_heap w) t).
Proof.
  intros w k t recs (HR & HS & HU & _). pose proof (reachable_inv w HR) as I. split; [apply (proj2 I k t HS)|].
  pose proof (inv_valid w k t I HS) as V. split; [exact V|].
  unfold up_to_date in HU. rewrite (update_eq w k t HS V) in HU. injection HU as E _.
  pose proof (set_at_lt _ _ _ HS) as L. pose proof (set_at_wput w k (fst (updated (w_heap w) t)) k L) as Q. rewrite E, HS, Nat.eqb_refl in Q. congruence.
Qed.

Lemma recorded_class : forall (w : world) k t recs, recorded w k t recs ->
  t_labels t = labels_of (w_heap w) (t_phrases t) /\
  forall l, In l (t_labels t) -> getPhrasesOfClass t l = Some (sub1 (w_heap w) t l).
Proof.
  intros w k t recs H. destruct (recorded_shape w k t recs H) as (S & V & E). destruct H as (_ & _ & _ & IR & _).
  assert (CK : check_of t = Ok tt) by (apply in_range_check; exact IR).
  set (t0 := t) in E at 2. assert (E' : t_labels t = labels_of (w_heap w) (t_phrases t0) /\ t_subs t = fst (build (check_of t0) (sub0 t0) (sub1 (w_heap w) t0) (labels_of (w_heap w) (t_phrases t0)) [])).
  { rewrite E. unfold updated. destruct (build _ _ _ _ _) as [subs o]. split; reflexivity. }
  subst t0. destruct E' as (E1 & E2). split; [exact E1|]. intros l Hl. unfold getPhrasesOfClass. rewrite E2, CK, build_get.
  rewrite E1 in Hl. replace (existsb (String.eqb l) (labels_of (w_heap w) (t_phrases t))) with true; [reflexivity|].
  symmetry. apply existsb_exists. exists l. split; [exact Hl|apply String.eqb_refl].
Qed.

Lemma lab_at : forall (h : list phrase) id p, nth_error h id = Some p -> lab_of (A := RA) h id = p_label p.
Proof. intros h id p H. unfold lab_of. rewrite H. reflexivity. Qed.

(** The phrases of a class. *)
Lemma class_phrases : forall (w : world) t l m recs,
  Forall2 (fun (e : Z * nat) (r : recording) => exists p s, nth_error (w_heap w) (snd e) = Some p /\ made p s /\
      s_bim s = t_bim t /\ s_dim s = t_dim t /\ (t_bim t = true -> s_din s = t_din t) /\ p_label p = fst r /\ frames_of s = snd r) m recs ->
  exists ps ss, mapM (fun e => rd (w_heap w) (snd e)) (filter (fun e => String.eqb (lab_of (A := RA) (w_heap w) (snd e)) l) m) = Ok ps /\
    Forall2 rep ps ss /\ map (frames_of (A := RA)) ss = of_class l recs /\
    (forall s, In s ss -> s_dim s = t_dim t /\ s_bim s = t_bim t /\ (t_bim t = true -> s_din s = t_din t)).
Proof.
  intros w t l m recs H. induction H as [|e r m recs (p & s & E & M & B & D & DI & L & F) H IH].
  - exists [], []. split; [reflexivity|]. split; [constructor|]. split; [reflexivity|]. intros s [].
  - destruct IH as (ps & ss & E1 & E2 & E3 & E4). cbn [filter]. rewrite (lab_at _ _ _ E), L. unfold of_class. cbn [filter].
    destruct (String.eqb (fst r) l) eqn:El.
    + exists (p :: ps), (s :: ss). cbn [mapM map]. unfold rd at 1. rewrite E. cbn [bind]. rewrite E1. cbn [bind]. split; [reflexivity|].
      split; [constructor; [apply made_rep; exact M|exact E2]|]. split; [unfold of_class in E3; cbn [map]; rewrite F, E3; reflexivity|].
      intros s' [<-|Hs]; [auto|apply E4; exact Hs].
    + exists ps, ss. split; [exact E1|]. split; [exact E2|]. split; [exact E3|exact E4].
Qed.

Lemma recorded_labels : forall (w : world) k t recs, recorded w k t recs ->
  (forall l, In l (t_labels t) <-> In l (map fst recs)) /\ StronglySorted (fun a b => String.ltb a b = true) (t_labels t).
Proof.
  intros w k t recs H. destruct (recorded_class w k t recs H) as (E & _). rewrite E. split; [|apply labels_sorted].
  intro l. rewrite labels_in. destruct H as (_ & _ & _ & _ & _ & F). clear E. induction F as [|e r m recs (p & s & E & _ & _ & _ & _ & L & _) F IH].
  - cbn. split; [intros (i & id & [] & _)|intros []].
  - cbn [map In]. split.
    + intros (i & id & [Hi|Hi] & Hl).
      * left. subst e. cbn [snd] in E. rewrite (lab_at _ _ _ E) in Hl. congruence.
      * right. apply IH. exists i, id. auto.
    + intros [Hl|Hl].
      * exists (fst e), (snd e). split; [left; destruct e; reflexivity|]. rewrite (lab_at _ _ _ E). congruence.
      * apply IH in Hl. destruct Hl as (i & id & Hi & Hl). exists i, id. auto.
Qed.

(** ** The shared parameters *)

Lemma fetch_ok : forall t (s : shared RA), set_up (t_bim t) s -> in_range t -> length (t_cols t) = t_dim t ->
  exists s', gq_fetch t s = Ok s' /\ set_up (t_bim t) s' /\ sp_dim s' = t_dim t /\ sp_din s' = (if t_bim t then t_din t else 0) /\
    sp_names s' = t_cols t /\ settings s' = settings s /\ sp_win s' = sp_win s.
Proof.
  intros t s (B & M & D1 & D2 & W1 & W2) (R1 & R2 & R3) LC. unfold gq_fetch, runm.
  rewrite set_dim_eq by (rewrite D1; destruct (t_bim t); lia). rewrite (proj2 (Nat.ltb_ge _ _)) by (rewrite D1; exact R1). cbn [fst snd outcome Base.bind].
  unfold sp_set_dim, sp_set_din, sp_set_names. cbn [sp_bim]. rewrite B. unfold modal_ok in M. rewrite B in M. destruct (t_bim t).
  - unfold sp_set, sbind, sp_assignS, sp_assign_value, sp_react, sret. cbn [sp_din_min sp_din_max sp_nsize sp_bim sp_dim]. rewrite D2.
    rewrite (proj2 (Nat.ltb_ge (t_din t) 1)) by lia. rewrite (proj2 (Nat.ltb_ge (t_dim t - 1) (t_din t))) by lia. cbn [orb outcome Base.bind bind fst snd].
    unfold sp_set_dim, sp_set_din, sp_set_names. cbn [sp_nsize]. rewrite LC, Nat.eqb_refl. cbn [negb andb]. rewrite andb_false_r. cbn [outcome bind].
    eexists. split; [reflexivity|]. unfold set_up, modal_ok, settings. cbn. rewrite D1. repeat split; auto; lia.
  - unfold sp_set, sbind, sp_assignS, sp_assign_value, sp_react, sret. cbn [sp_din_min sp_din_max sp_nsize sp_bim sp_dim Base.bind bind outcome].
    rewrite LC, Nat.eqb_refl. cbn [negb andb]. rewrite andb_false_r. cbn [outcome bind].
    eexists. split; [reflexivity|]. unfold set_up, modal_ok, settings. cbn. rewrite D1. repeat split; auto; lia.
Qed.

(** ** The classes *)

Section Train.
  Variable u : junk RA.

  Lemma new_class_fields : forall (s : shared RA) cf l, let g := gq_new_class u s cf l in
    gc_bim g = sp_bim s /\ gc_dim g = sp_dim s /\ gc_din g = sp_din s /\ gc_win g = sp_win s /\ gc_par g = cf_params cf l /\ gc_buf g = ring_new n0 1 1.
  Proof.
    intros s cf l. unfold gq_new_class, gc_set_par, gc_fresh, gc_copy, cf_used, cf_params, gmmP_assign. cbn. repeat split. destruct (cget cf l) as [[]|]; [reflexivity|]. destruct (cf_def cf); reflexivity.
  Qed.

  Lemma train_class_ok : forall (w : world) k t recs (s : shared RA) cf l, recorded w k t recs -> set_up (t_bim t) s -> sp_dim s = t_dim t ->
    In l (map fst recs) -> learnable cf recs l ->
    exists g, gq_train_class u w t s cf l = Ok (Done, g) /\ learned (settings s) (gq_new_class u s cf l) (of_class l recs) g /\ class_usable g /\
      gc_bim g = sp_bim s /\ gc_dim g = sp_dim s /\ gc_din g = sp_din s /\ gc_win g = sp_win s /\ gc_par g = cf_params cf l.
  Proof.
    intros w k t recs s cf l H SU D Hl LE. destruct (recorded_shape w k t recs H) as (KS & V & _). destruct (recorded_labels w k t recs H) as (LB & _).
    destruct (recorded_class w k t recs H) as (_ & GC). specialize (GC l (proj2 (LB l) Hl)). pose proof H as (_ & _ & _ & IR & _ & F).
    destruct (class_phrases w t l _ recs F) as (ps & ss & E1 & E2 & E3 & E4).
    destruct (new_class_fields s cf l) as (N1 & N2 & N3 & N4 & N5 & N6). set (g0 := gq_new_class u s cf l) in *.
    destruct LE as (L1 & (ph & Hph & Lph) & L3). destruct SU as (B & M & SD1 & SD2 & W1 & W2).
    destruct (class_learned (settings s) g0 ps ss W1 E2) as (s' & ET & DN & LD & RD & Q1 & Q2 & Q3 & Q4 & Q5 & Q6).
    { intros q Hq. rewrite (proj1 (E4 q Hq)). congruence. }
    { unfold gc_n. rewrite N5. exact L1. }
    { unfold good_dims. rewrite N1, N2, N3, B. unfold modal_ok in M. rewrite B in M. destruct (t_bim t); lia. }
    { unfold strong_abs, gc_mode. rewrite N5. exact L3. }
    { rewrite <- E3 in Hph. apply in_map_iff in Hph. destruct Hph as (q & <- & Hq). exists q. split; [exact Hq|]. unfold gc_n. rewrite N5. exact Lph. }
    exists (t_m s'). unfold gq_train_class. rewrite GC. unfold sub1. cbn [u_phrases u_dim]. rewrite (class_of_filter _ _ _ KS), E1. cbn [bind].
    assert (PN : match ps with [] => true | _ => false end = false).
    { destruct ps; [|reflexivity]. inversion E2; subst. rewrite <- E3 in Hph. destruct Hph. }
    fold g0. rewrite PN. replace (t_dim t) with (gc_dim g0) by congruence. unfold settings in ET. rewrite ET. rewrite DN.
    split; [reflexivity|]. split; [rewrite <- E3; exact LD|]. split.
    - split; [exact RD|]. split; [rewrite Q4, N4; exact W2|]. rewrite Q6, N6. unfold ring_new, ring_wf. cbn. repeat split; auto. intros c Hc. destruct c; [reflexivity|lia].
    - repeat split; congruence.
  Qed.

  Lemma reset_gq : forall m : gmodel RA, (sp_bim (gq_sp m) = true -> sp_din (gq_sp m) <= sp_dim (gq_sp m)) ->
    exists r, gq_reset m = Ok (gq_set (gq_sp m) (map (fun e => (fst e, gm_reset1 (snd e))) (gq_cls m)) r m) /\ results_sized (length (gq_cls m)) r.
  Proof.
    intros m H. unfold gq_reset, gm_reset, gq_view. cbn [gm_models gm_res gm_bim gm_dim gm_din gm_cmode]. destruct (sp_bim (gq_sp m)).
    - unfold usub. rewrite (proj2 (Nat.leb_le _ _) (H eq_refl)). cbn [bind]. eexists. split; [reflexivity|]. unfold results_sized. cbn [rs_inst rs_instn rs_sm rs_smn rs_log gm_res gm_set]. rewrite !vresize_length. auto.
    - cbn [bind]. eexists. split; [reflexivity|]. unfold results_sized. cbn [rs_inst rs_instn rs_sm rs_smn rs_log gm_res gm_set]. rewrite !vresize_length. auto.
  Qed.

  Local Notation class_made := (class_made u).

  Lemma classes_ok : forall (w : world) k t recs (s : shared RA) cf labs, recorded w k t recs -> set_up (t_bim t) s -> sp_dim s = t_dim t ->
    (forall l, In l (map fst recs) -> learnable cf recs l) -> (forall l, In l labs -> In l (map fst recs)) ->
    exists gs, mapM (fun l => let* r := gq_train_class u w t s cf l in Ok (l, r)) labs = Ok (map (fun e => (fst e, (Done, snd e))) gs) /\
      map fst gs = labs /\ Forall (fun e => class_made s cf recs (fst e) (snd e)) gs.
  Proof.
    intros w k t recs s cf labs H SU D LE. induction labs as [|l labs IH]; intro HL.
    - exists []. repeat split. constructor.
    - destruct IH as (gs & E & M & F); [intros; apply HL; right; assumption|].
      destruct (train_class_ok w k t recs s cf l H SU D) as (g & Eg & Q); [apply HL; left; reflexivity|apply LE, HL; left; reflexivity|].
      exists ((l, g) :: gs). cbn [mapM map fst snd]. rewrite Eg. cbn [bind]. rewrite E. cbn [bind]. split; [reflexivity|]. split; [rewrite M; reflexivity|].
      constructor; [exact Q|exact F].
  Qed.

  Lemma filter_done : forall gs : list (string * gclass RA),
    filter (fun e : string * (status * gclass RA) => negb (is_failed (fst (snd e)))) (map (fun e => (fst e, (Done, snd e))) gs) = map (fun e => (fst e, (Done, snd e))) gs.
  Proof. induction gs as [|a gs IH]; [reflexivity|]. cbn. rewrite IH. reflexivity. Qed.

  Lemma strip_done : forall gs : list (string * gclass RA),
    map (fun e : string * (status * gclass RA) => (fst e, snd (snd e))) (map (fun e => (fst e, (Done, snd e))) gs) = gs.
  Proof. induction gs as [|[a b] gs IH]; [reflexivity|]. cbn. rewrite IH. reflexivity. Qed.

  Lemma gq_train_ok : forall (w : world) k t recs (m : gmodel RA), recorded w k t recs -> recs <> [] -> set_up (t_bim t) (gq_sp m) ->
    (forall l, In l (map fst recs) -> learnable (gq_cf m) recs l) ->
    exists s gs r, set_up (t_bim t) s /\ sp_dim s = t_dim t /\ sp_din s = (if t_bim t then t_din t else 0) /\
      sp_names s = t_cols t /\ settings s = settings (gq_sp m) /\ sp_win s = sp_win (gq_sp m) /\
      map fst gs = t_labels t /\ Forall (fun e => class_made s (gq_cf m) recs (fst e) (snd e)) gs /\
      results_sized (if (cf_mt (gq_cf m) =? 0)%Z then 0 else length gs) r /\
      gq_train u w k m = Ok (mkGM s (gq_cf m) (if (cf_mt (gq_cf m) =? 0)%Z then gs else map (fun e => (fst e, gm_reset1 (snd e))) gs) r).
  Proof.
    intros w k t recs m H NE SU LE. pose proof H as (_ & HS & _ & IR & LC & F). unfold gq_train.
    unfold set_at in HS. destruct (nth_error (w_sets w) k) as [o|] eqn:EN; [|discriminate]. subst o.
    unfold rd. rewrite EN. cbn [bind].
    assert (L1 : (length (t_phrases t) <? 1) = false).
    { apply Nat.ltb_ge. destruct recs as [|r recs]; [congruence|]. inversion F; subst. cbn. lia. }
    rewrite L1.
    destruct (reset_gq (gq_set (gq_sp m) [] (gq_res m) m)) as (r0 & E0 & RS0).
    { cbn [gq_sp gq_set]. intro B. destruct SU as (B' & M & _). unfold modal_ok in M. rewrite B in M. lia. }
    rewrite E0. cbn [bind gq_set gq_sp gq_cls gq_cf gq_res map].
    destruct (fetch_ok t (gq_sp m) SU IR LC) as (s & E1 & SU' & D & DI & NM & ST & WN). rewrite E1. cbn [bind].
    destruct (recorded_labels w k t recs H) as (LB & SO).
    destruct (classes_ok w k t recs s (gq_cf m) (t_labels t) H SU' D LE) as (gs & E2 & M & FA); [intros l Hl; apply LB; exact Hl|].
    rewrite E2. cbn [bind]. exists s, gs. destruct (cf_mt (gq_cf m) =? 0)%Z.
    - exists r0. rewrite strip_done. cbn [gq_set gq_cls length] in RS0. unfold gq_set. cbn [gq_cf]. auto 20.
    - rewrite filter_done, strip_done. destruct (reset_gq (gq_set s gs r0 m)) as (r1 & E3 & RS1).
      { cbn [gq_sp gq_set]. intro B. destruct SU' as (B' & M' & _). unfold modal_ok in M'. rewrite B in M'. lia. }
      exists r1. unfold gq_set in E3, RS1 |- *. cbn [gq_sp gq_cls gq_cf gq_res] in E3, RS1 |- *.
      split; [exact SU'|]. split; [exact D|]. split; [exact DI|]. split; [exact NM|]. split; [exact ST|]. split; [exact WN|]. split; [exact M|]. split; [exact FA|]. split; [exact RS1|].
      exact E3.
  Qed.
End Train.
