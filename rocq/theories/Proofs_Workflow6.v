(** Training and recognition, put together. *)
From Coq Require Import String List Bool Arith Lia ZArith Reals Lra Sorting.Sorted.
From Verif Require Import Base BaseFacts Arith RFacts Model_Map Model_Ring Model_Phrase Model_TrainingSet Model_Gaussian Model_Config Model_KMeans Model_GMM
  Model_Shared Model_Train Model_Reload Model_Workflow Spec_Common Spec_Phrase Spec_TrainingSet Spec_Train Spec_Shared Spec_Matrix Spec_Gaussian Spec_GMM Spec_Workflow
  Proofs_Map Proofs_Ring Proofs_GMM Proofs_GMM2 Proofs_GMM3 Proofs_GMM4 Proofs_HHMM6 Proofs_Shared Proofs_Workflow Proofs_Workflow2 Proofs_Workflow3 Proofs_Workflow4.
Import ListNotations.
Local Open Scope list_scope.
Local Open Scope nat_scope.

Local Notation world := (world RA).

Lemma update_buf : forall frames (g h : gclass RA) x, gm_update (A := RA) frames g = Ok (h, x) -> gc_buf h = gc_buf g.
Proof.
  intros frames g h x H. unfold gm_update in H. destruct (gm_estep g frames) as [[[ps E] lp]| |]; cbn [bind] in H; try discriminate. cbv zeta in H.
  destruct (tabM (A := gauss RA) _ _) as [cs| |]; cbn [bind] in H; try discriminate.
  destruct (tabM (A := gauss RA) _ _) as [cs'| |]; cbn [bind] in H; try discriminate.
  destruct (gm_offset _) as [a| |] eqn:E1; cbn [bind] in H; try discriminate.
  destruct (gm_inverses a) as [b| |] eqn:E2; cbn [bind] in H; try discriminate. injection H as <- _.
  unfold gm_offset in E1. destruct (mapM _ _) as [y| |]; cbn [bind] in E1; try discriminate. injection E1 as <-.
  unfold gm_inverses in E2. destruct (rethrow _) as [z| |]; cbn [bind] in E2; try discriminate. injection E2 as <-. reflexivity.
Qed.

Lemma updates_buf : forall n frames (g h : gclass RA), gm_updates (A := RA) n frames g = Ok h -> gc_buf h = gc_buf g.
Proof.
  induction n as [|n IH]; intros frames g h H; cbn [gm_updates] in H; [congruence|].
  destruct (gm_update frames g) as [[g' x]| |] eqn:E; cbn [bind] in H; try discriminate. rewrite (IH _ _ _ H). apply (update_buf _ _ _ _ E).
Qed.

(** Learning leaves the window of the class alone. *)
Lemma learned_buf : forall p g0 data g, learned p g0 data g -> gc_buf g = gc_buf g0.
Proof.
  intros p g0 data g (g1 & g2 & n & E1 & E2 & E3 & _). rewrite (updates_buf _ _ _ _ E3), (init_buf _ _ _ _ E2).
  unfold gm_allocate in E1. destruct (g_new _ _ _ _ _) as [c| |]; cbn [bind] in E1; try discriminate. injection E1 as <-. reflexivity.
Qed.

Lemma rounds_at_most : forall p frames g n, stops_at p frames g n ->
  1 <= n <= 1000 /\ (1 <= em_min p <= em_max p -> n = Nat.min (em_max p) 1000) /\ (em_max p < em_min p -> Nat.min (em_min p) 1000 <= n).
Proof.
  intros p frames g n (N1 & (a & b & _ & _ & S) & NS).
  assert (U : n <= 1000).
  { destruct (le_lt_dec n 1000) as [|C]; [assumption|]. destruct (NS 1000 ltac:(lia)) as (x & y & _ & _ & Q). exfalso. apply Q. left. lia. }
  split; [lia|]. split.
  - intros M. destruct S as [S|[(S1 & S2)|(S1 & _)]]; [|clear S1|lia].
    + assert (n = 1000) as -> by lia. destruct (le_lt_dec 1000 (em_max p)); [lia|]. destruct (NS (em_max p) ltac:(lia)) as (x & y & _ & _ & Q). exfalso. apply Q. right. left. lia.
    + destruct (le_lt_dec n (em_max p)); [lia|]. destruct (NS (em_max p) ltac:(lia)) as (x & y & _ & _ & Q). exfalso. apply Q. right. left. lia.
  - intros M. destruct S as [S|[(S1 & S2)|(S1 & S2 & _)]]; lia.
Qed.

Lemma orderly_set_up : forall id ops, orderly ops (sp_new id : shared RA) -> let s := sp_run ops (sp_new id) in set_up (sp_bim s) s.
Proof.
  intros id ops H s. assert (N : nltb (nofQ (QArith_base.Qmake 1 100)) (n0 (A := RA)) = false).
  { rewrite n0_RA. cbn [nltb RA nofQ]. destruct (Rlt_dec _ _) as [C|]; [|reflexivity]. exfalso. revert C. unfold QArith_base.Qnum, QArith_base.Qden. cbn. lra. }
  destruct (always id ops N) as (_ & _ & M & W & _). destruct (orderly_run ops (sp_new id)) as (O1 & O2 & O3 & O4); [unfold ord_inv, modal_ok, sp_new; cbn; repeat split; lia|exact H|].
  fold s in M, W, O1, O2, O3, O4. repeat split; auto.
Qed.

Lemma class_empty : forall l (recs : list recording), of_class l recs <> [] <-> In l (map fst recs).
Proof.
  intros l recs. induction recs as [|r recs IH]; cbn; [tauto|]. unfold of_class in *. cbn [filter]. destruct (String.eqb_spec (fst r) l) as [->|N]; cbn [map].
  - split; [auto|discriminate].
  - rewrite IH. split; [auto|]. intros [C|C]; [contradiction|exact C].
Qed.

Lemma sorted_nodup : forall l, StronglySorted (fun a b => String.ltb a b = true) l -> NoDup l.
Proof.
  induction 1 as [|a l S IH F]; constructor; auto. intro C. rewrite Forall_forall in F. specialize (F a C).
  rewrite str_ltb_irrefl in F. discriminate.
Qed.

Section Recognise.
  Variable u : junk RA.

  (** The trained model, with the classes as they are learned. *)
  Lemma trained : forall (w : world) k t recs (m : gmodel RA), recorded w k t recs -> recs <> [] -> set_up (t_bim t) (gq_sp m) ->
    (forall l, In l (map fst recs) -> learnable (gq_cf m) recs l) ->
    exists m' gs, gq_train u w k m = Ok m' /\ gq_cf m' = gq_cf m /\
      set_up (t_bim t) (gq_sp m') /\ sp_dim (gq_sp m') = t_dim t /\ sp_din (gq_sp m') = (if t_bim t then t_din t else 0) /\
      sp_names (gq_sp m') = t_cols t /\ settings (gq_sp m') = settings (gq_sp m) /\ sp_win (gq_sp m') = sp_win (gq_sp m) /\
      StronglySorted (fun a b => String.ltb a b = true) (map fst gs) /\ (forall l, In l (map fst gs) <-> In l (map fst recs)) /\
      Forall (fun e => class_made u (gq_sp m') (gq_cf m) recs (fst e) (snd e)) gs /\
      gq_cls m' = (if (cf_mt (gq_cf m) =? 0)%Z then gs else map (fun e => (fst e, gm_reset1 (snd e))) gs) /\
      results_sized (if (cf_mt (gq_cf m) =? 0)%Z then 0 else length gs) (gq_res m').
  Proof.
    intros w k t recs m H NE SU LE. destruct (gq_train_ok u w k t recs m H NE SU LE) as (s & gs & r & S1 & S2 & S3 & S4 & S5 & S6 & S7 & S8 & S9 & E).
    destruct (recorded_labels w k t recs H) as (L1 & L2). eexists _, gs. split; [exact E|]. cbn [gq_cf gq_sp gq_cls gq_res].
    rewrite S7. repeat (split; [assumption || reflexivity|]). exact S9.
  Qed.

  Lemma labels_some : forall (gs : list (string * gclass RA)) (recs : list recording), recs <> [] -> (forall l, In l (map fst gs) <-> In l (map fst recs)) -> gs <> [].
  Proof. intros gs recs NE L ->. destruct recs as [|r recs]; [contradiction|]. apply (proj2 (L (fst r))). left. reflexivity. Qed.

  Lemma usable_view : forall (m' : gmodel RA) cf recs gs, recs <> [] -> gq_cf m' = cf -> StronglySorted (fun a b => String.ltb a b = true) (map fst gs) ->
    (forall l, In l (map fst gs) <-> In l (map fst recs)) -> Forall (fun e => class_made u (gq_sp m') cf recs (fst e) (snd e)) gs ->
    gq_cls m' = (if (cf_mt cf =? 0)%Z then gs else map (fun e => (fst e, gm_reset1 (snd e))) gs) ->
    (sp_bim (gq_sp m') = true -> est_of (cf_est cf) = Mixture -> one_mode cf recs) -> model_usable (gq_view m').
  Proof.
    intros m' cf recs gs NE CF SS LB CM GC OM. pose proof (labels_some gs recs NE LB) as GN.
    destruct m' as [s c cls r]. cbn [gq_sp gq_cf gq_cls] in *. subst c cls.
    destruct (cf_mt cf =? 0)%Z.
    - replace gs with (map (fun e : string * gclass RA => (fst e, (fun g => g) (snd e))) gs) at 1 by (rewrite <- (map_id gs) at 2; apply map_ext; intros []; reflexivity).
      apply (trained_view u s cf recs gs r (fun g => g) GN (sorted_nodup _ SS) CM); [intro l; apply LB|exact OM|]. intros g Hg. auto.
    - apply (trained_view u s cf recs gs r gm_reset1 GN (sorted_nodup _ SS) CM); [intro l; apply LB|exact OM|].
      intros g Hg. split; [apply reset1_usable, Hg|]. repeat split.
  Qed.

  (** Recognition after training. *)
  Lemma recognise : forall (m' : gmodel RA) xs x, model_usable (gq_view m') -> Forall (fun x => length x = input_dim (gq_sp m')) (xs ++ [x]) ->
    exists m0 m2, gq_reset m' = Ok m0 /\ gq_filters (xs ++ [x]) m0 = Ok m2 /\ gq_sp m2 = gq_sp m' /\ gq_cf m2 = gq_cf m' /\
      map fst (gq_cls m2) = map fst (gq_cls m') /\ model_report (gq_view m') xs x (gq_res m2).
  Proof.
    intros m' xs x U F. destruct (gm_filters_ok (gq_view m') (xs ++ [x]) U F) as (v0 & v & E0 & E & T & RP). specialize (RP xs x eq_refl).
    unfold gq_reset. rewrite E0. cbn [bind]. eexists. 
    assert (V0 : gq_view (gq_set (gq_sp m') (gm_models v0) (gm_res v0) m') = v0).
    { unfold gm_reset in E0. unfold gq_view, gq_set. cbn [gq_sp gq_cf gq_cls gq_res].
      destruct (if gm_bim (gq_view m') then _ else _) as [[o c]| |]; cbn [bind] in E0; try discriminate. injection E0 as <-. reflexivity. }
    destruct (filters_view (xs ++ [x]) (gq_set (gq_sp m') (gm_models v0) (gm_res v0) m') v) as (EF & EV); [rewrite V0; exact E|].
    eexists. split; [reflexivity|]. split; [exact EF|]. cbn [gq_set gq_sp gq_cf gq_cls gq_res]. split; [reflexivity|]. split; [reflexivity|]. split; [|exact RP].
    destruct T as (_ & _ & _ & _ & _ & T & _). change (gq_cls m') with (gm_models (gq_view m')).
    clear -T. induction T as [|e e' l l' (H & _) T IH]; [reflexivity|]. cbn [map]. rewrite H, IH. reflexivity.
  Qed.

  (** In the other modes the model has been reset. *)
  Lemma train_is_reset : forall (w : world) k t recs (m m' : gmodel RA), recorded w k t recs -> recs <> [] -> cf_mt (gq_cf m) <> 0%Z ->
    gq_train u w k m = Ok m' -> gq_reset m' = Ok m'.
  Proof.
    intros w k t recs m m' (_ & HS & _ & _ & _ & F) NE MT E. unfold gq_train in E. unfold set_at in HS. unfold rd in E.
    destruct (nth_error (w_sets w) k) as [o|]; [|discriminate]. subst o. cbn [bind] in E.
    assert (L : 1 <= length (t_phrases t)) by (destruct F; [contradiction|cbn; lia]). rewrite (proj2 (Nat.ltb_ge _ _) L) in E.
    destruct (gq_reset _) as [m1| |] eqn:E1; cbn [bind] in E; try discriminate.
    assert (C1 : gq_cf m1 = gq_cf m).
    { unfold gq_reset in E1. destruct (gm_reset _) as [v| |]; cbn [bind] in E1; try discriminate. injection E1 as <-. reflexivity. }
    destruct (gq_fetch _ _) as [s| |]; cbn [bind] in E; try discriminate. destruct (mapM _ _) as [ms| |]; cbn [bind] in E; try discriminate.
    rewrite C1, (proj2 (Z.eqb_neq _ _) MT) in E. apply (reset_reset _ _ E).
  Qed.

  (** In the Sequential mode nothing has made room for the results. *)
  Lemma no_room : forall (m' : gmodel RA) cf recs gs x, recs <> [] -> (forall l, In l (map fst gs) <-> In l (map fst recs)) ->
    Forall (fun e => class_made u (gq_sp m') cf recs (fst e) (snd e)) gs -> gq_cls m' = gs -> results_sized 0 (gq_res m') ->
    length x = input_dim (gq_sp m') -> gq_filter (A := RA) x m' = UB.
  Proof.
    intros m' cf recs gs x NE LB CM GC (RS & _) Lx. apply filter_no_room.
    - rewrite GC. apply (labels_some gs recs NE LB).
    - destruct (rs_inst (gq_res m')); [reflexivity|discriminate].
    - rewrite GC. apply Forall_forall. intros e He. rewrite Forall_forall in CM. destruct (CM e He) as (L & U & B & D & I & W & P). split; [apply U|]. split.
      + rewrite (learned_buf _ _ _ _ L). apply new_class_fields.
      + unfold obs_dim. rewrite B, D, I. exact Lx.
  Qed.
End Recognise.
