(** C87, C88: recordings, training and recognition, end to end. *)
From Coq Require Import String List Bool Arith Lia ZArith Reals Lra Sorting.Sorted.
From Verif Require Import Base BaseFacts Arith RFacts Model_Map Model_Ring Model_Phrase Model_TrainingSet Model_Gaussian Model_Config Model_KMeans Model_GMM
  Model_Shared Model_Train Model_Reload Model_Workflow Spec_Common Spec_Phrase Spec_TrainingSet Spec_Train Spec_Shared Spec_Matrix Spec_Gaussian Spec_GMM Spec_Workflow
  Proofs_GMM4 Props_GMM Proofs_TrainingSet7 Proofs_Workflow Proofs_Workflow3 Proofs_Workflow4 Proofs_Workflow5 Proofs_Workflow6.
Import ListNotations.
Local Open Scope list_scope.
Local Open Scope nat_scope.

Local Notation world := (world RA).

(** ** The examples: two classes, in both modalities *)
Definition ex_dim (bim : bool) : nat := if bim then 2 else 1.
Definition ex_din (bim : bool) : nat := if bim then 1 else 0.
Definition ex_frame (bim : bool) (v : R) : list R := if bim then [v; (v + 1)%R] else [v].
Definition ex_recs (bim : bool) : list recording :=
  [("walk"%string, map (ex_frame bim) [1; 2; 4; 8]%R); ("run"%string, map (ex_frame bim) [3; 5]%R); ("walk"%string, map (ex_frame bim) [0; 7; 9]%R)].
(** Two gaussians for a class with its own parameters, one for the others. *)
Definition ex_conf (mt est : Z) : config (gmmP RA) :=
  mkConfig (mkGmmP (A := RA) 1 (/ 100)%R (/ 1000)%R Full) mt est [("walk"%string, mkGmmP (A := RA) 2 (/ 100)%R (/ 1000)%R Full)].
Definition ex_shared (bim : bool) : shared RA := sp_run (if bim then [SBim true; SWin 3] else [SWin 3]) (sp_new 0).
Definition ex_start (bim : bool) (mt est : Z) : gmodel RA := mkGM (ex_shared bim) (ex_conf mt est) [] (empty_results (A := RA)).

Lemma ex_frames : forall bim, Forall (fun r : recording => Forall (fun x => length x = ex_dim bim) (snd r)) (ex_recs bim).
Proof. intros []; unfold ex_recs, ex_frame, ex_dim; cbn; repeat constructor. Qed.
Lemma ex_set_dims : forall bim, set_dims bim (ex_dim bim) (ex_din bim).
Proof. intros []; unfold set_dims, ex_dim, ex_din; lia. Qed.
Lemma ex_set_up : forall bim mt est, set_up bim (gq_sp (ex_start bim mt est)).
Proof. intros [] mt est; unfold set_up, modal_ok; cbn; repeat split; lia. Qed.
Lemma ex_learnable : forall bim mt est l, In l (map fst (ex_recs bim)) -> learnable (gq_cf (ex_start bim mt est)) (ex_recs bim) l.
Proof.
  intros bim mt est l H. assert (L : l = "walk"%string \/ l = "run"%string) by (cbn in H; intuition congruence).
  unfold learnable, ex_start. cbn [gq_cf]. destruct L as [-> | ->]; cbv zeta; cbn; (split; [lia|]); (split; [eexists; split; [left; reflexivity|cbn; lia]|]); unfold eps9; apply Rinv_le_contravar; lra.
Qed.
Lemma ex_one_mode : forall bim mt est, one_mode (gq_cf (ex_start bim mt est)) (ex_recs bim).
Proof. intros bim mt est l H. assert (L : l = "walk"%string \/ l = "run"%string) by (cbn in H; intuition congruence). destruct L as [-> | ->]; reflexivity. Qed.

(** ** C87 *)

(** The training reads a phrase through [getValue] and through [getPointer]: both give the frames that were
    recorded, one after the other. *)
Theorem C87_frames : forall (p : phrase (A:=RA)) s, made p s ->
  phrase_frames p = Ok (frames_of s) /\ pointer_frames p = Ok (frames_of s).
Proof. intros p s M. apply made_rep in M. split; [apply phrase_frames_ok, M|apply pointer_frames_ok, M]. Qed.
Print Assumptions C87_frames.
Example C87_frames_meets : exists (p : phrase (A:=RA)) s, made p s /\ frames_of s = [[1; 2]; [3; 4]]%R.
Proof.
  set (ops := [PSetDim (A := RA) 2; PRecord (A := RA) [1; 2]%R; PRecord (A := RA) [3; 4]%R]).
  assert (X : forall ops (p : phrase (A:=RA)) s, made p s -> (fix fits (ops : list (pop (A:=RA))) s := match ops with [] => True | o :: r => op_fits s o /\ fits r (fst (spec_step s o)) end) ops s ->
    exists p', made p' (fold_left (fun s o => fst (spec_step s o)) ops s)).
  { clear. induction ops as [|o ops IH]; intros p s M F; [exists p; exact M|]. destruct F as (F1 & F2). cbn [fold_left]. apply (IH (fst (phrase_step false o p))); [apply made_op; assumption|exact F2]. }
  destruct (X ops _ _ (made_new false)) as (p & M); [cbn; repeat split; discriminate|]. exists p. eexists. split; [exact M|reflexivity].
Qed.

(** A user who makes a training set and records into it gets a set that holds the recordings: no call
    throws. *)
Theorem C87_recording : forall bim dim din recs, set_dims bim dim din -> Forall (fun r : recording => Forall (fun x => length x = dim) (snd r)) recs ->
  exists w t outs, world_run (world_new (A:=RA)) (record_script bim dim din recs) = Ok (w, outs) /\ Forall (fun o => o = Ok tt) outs /\
    recorded w 0 t recs /\ t_bim t = bim /\ t_dim t = dim /\ t_din t = din.
Proof.
  intros bim dim din recs SD F. destruct (script_ok bim dim din recs SD F) as (w & t & E & R). exists w, t. eexists. split; [exact E|]. split; [|exact R].
  apply Forall_forall. intros o Ho. apply repeat_spec in Ho. exact Ho.
Qed.
Print Assumptions C87_recording.
Example C87_recording_meets : forall bim, set_dims bim (ex_dim bim) (ex_din bim) /\ Forall (fun r : recording => Forall (fun x => length x = ex_dim bim) (snd r)) (ex_recs bim).
Proof. intro bim. split; [apply ex_set_dims|apply ex_frames]. Qed.

(** The parameters of an orderly user can be trained with. *)
Theorem C87_set_up : forall id ops, orderly ops (sp_new id : shared RA) -> let s := sp_run ops (sp_new id) in set_up (sp_bim s) s.
Proof. exact orderly_set_up. Qed.
Print Assumptions C87_set_up.
Example C87_set_up_meets : orderly (A := RA) [SBim true; SDim 5; SDin 2; SWin 20; SMinIt 3; SMaxIt 7] (sp_new 0) /\ sp_bim (sp_run (A := RA) [SBim true; SDim 5; SDin 2; SWin 20; SMinIt 3; SMaxIt 7] (sp_new 0)) = true.
Proof. cbn. repeat split; try lia; auto. Qed.

(** Training gives one class for each label, in order: what the learning algorithm makes of the recordings
    with that label and of the parameters of that class, whatever the model was before.  The number of
    updates is given by the stopping rule.  The configuration stays, and the model can be trained again. *)
Theorem C87_training : forall u (w : world) k t recs (m : gmodel RA), recorded w k t recs -> recs <> [] -> set_up (t_bim t) (gq_sp m) ->
  (forall l, In l (map fst recs) -> learnable (gq_cf m) recs l) ->
  exists m' gs, gq_train u w k m = Ok m' /\ gq_cf m' = gq_cf m /\
    set_up (t_bim t) (gq_sp m') /\ sp_dim (gq_sp m') = t_dim t /\ sp_din (gq_sp m') = (if t_bim t then t_din t else 0) /\
    sp_names (gq_sp m') = t_cols t /\ settings (gq_sp m') = settings (gq_sp m) /\ sp_win (gq_sp m') = sp_win (gq_sp m) /\
    StronglySorted (fun a b => String.ltb a b = true) (map fst gs) /\ (forall l, In l (map fst gs) <-> In l (map fst recs)) /\
    Forall (fun e => class_made u (gq_sp m') (gq_cf m) recs (fst e) (snd e)) gs /\
    gq_cls m' = (if (cf_mt (gq_cf m) =? 0)%Z then gs else map (fun e => (fst e, gm_reset1 (snd e))) gs).
Proof.
  intros u w k t recs m H NE SU LE. destruct (trained u w k t recs m H NE SU LE) as (m' & gs & Q). exists m', gs. intuition.
Qed.
Print Assumptions C87_training.
Lemma ex_recorded : forall bim, exists (w : world) t, recorded w 0 t (ex_recs bim) /\ t_bim t = bim /\ t_dim t = ex_dim bim /\ t_din t = ex_din bim.
Proof. intro bim. destruct (C87_recording bim _ _ _ (ex_set_dims bim) (ex_frames bim)) as (w & t & _ & _ & _ & R). exists w, t. exact R. Qed.
Example C87_training_meets : forall bim mt est, exists (w : world) t recs, let m := ex_start bim mt est in
  recorded w 0 t recs /\ recs <> [] /\ set_up (t_bim t) (gq_sp m) /\ (forall l, In l (map fst recs) -> learnable (gq_cf m) recs l).
Proof.
  intros bim mt est. destruct (ex_recorded bim) as (w & t & R & B & _). exists w, t, (ex_recs bim). split; [exact R|]. split; [discriminate|]. split; [rewrite B; apply ex_set_up|apply ex_learnable].
Qed.

(** The number of updates: the maximum if it is set, otherwise at least the minimum, and never more than
    1000. *)
Theorem C87_updates : forall p g0 data g, learned p g0 data g ->
  exists g1 g2 n, gm_allocate g0 = Ok g1 /\ gm_init (A := RA) data (deviations (gc_dim g0) (concat data)) g1 = Ok g2 /\
    gm_updates (A := RA) n (concat data) g2 = Ok g /\ 1 <= n <= 1000 /\
    (1 <= em_min p <= em_max p -> n = Nat.min (em_max p) 1000) /\ (em_max p < em_min p -> Nat.min (em_min p) 1000 <= n).
Proof.
  intros p g0 data g (g1 & g2 & n & E1 & E2 & E3 & S). exists g1, g2, n. split; [exact E1|]. split; [exact E2|]. split; [exact E3|]. apply (rounds_at_most p (concat data) g2 n S).
Qed.
Print Assumptions C87_updates.
Example C87_updates_meets : forall u bim mt est, exists p g0 data g, learned p g0 data g /\ data = of_class "walk" (ex_recs bim) /\ gc_n g0 = 2 /\ g0 = gq_new_class u (ex_shared bim) (ex_conf mt est) "walk".
Proof.
  intros u bim mt est. destruct (ex_recorded bim) as (w & t & R & B & D & I).
  destruct (train_class_ok u w 0 t (ex_recs bim) (ex_shared bim) (ex_conf mt est) "walk" R) as (g & _ & L & _).
  - rewrite B. apply (ex_set_up bim mt est).
  - rewrite D. destruct bim; reflexivity.
  - left. reflexivity.
  - apply (ex_learnable bim mt est). left. reflexivity.
  - eexists _, _, _, g. split; [exact L|]. split; [reflexivity|]. split; reflexivity.
Qed.

(** The class of a label depends on the recordings with that label, on the dimensions and on the parameters;
    not on the other classes, on the order in which the recordings of several classes were made, or on what
    either model had learned before. *)
Theorem C87_classes_independent : forall u (w1 w2 : world) k1 k2 t1 t2 recs1 recs2 (m1 m2 n1 n2 : gmodel RA) l,
  recorded w1 k1 t1 recs1 -> recorded w2 k2 t2 recs2 -> set_up (t_bim t1) (gq_sp m1) -> set_up (t_bim t2) (gq_sp m2) ->
  (forall l, In l (map fst recs1) -> learnable (gq_cf m1) recs1 l) -> (forall l, In l (map fst recs2) -> learnable (gq_cf m2) recs2 l) ->
  gq_train u w1 k1 m1 = Ok n1 -> gq_train u w2 k2 m2 = Ok n2 ->
  gq_cf m1 = gq_cf m2 -> settings (gq_sp m1) = settings (gq_sp m2) -> sp_win (gq_sp m1) = sp_win (gq_sp m2) ->
  t_bim t1 = t_bim t2 -> t_dim t1 = t_dim t2 -> t_din t1 = t_din t2 ->
  In l (map fst recs1) -> of_class l recs1 = of_class l recs2 ->
  exists g, In (l, g) (gq_cls n1) /\ In (l, g) (gq_cls n2) /\ (forall g', In (l, g') (gq_cls n1) \/ In (l, g') (gq_cls n2) -> g' = g).
Proof.
  intros u w1 w2 k1 k2 t1 t2 recs1 recs2 m1 m2 n1 n2 l R1 R2 SU1 SU2 LE1 LE2 E1 E2 CF ST WN TB TD TI Hl OC.
  assert (Hl2 : In l (map fst recs2)) by (apply class_empty; rewrite <- OC; apply class_empty, Hl).
  assert (NE1 : recs1 <> []) by (intros ->; destruct Hl). assert (NE2 : recs2 <> []) by (intros ->; destruct Hl2).
  destruct (trained u w1 k1 t1 recs1 m1 R1 NE1 SU1 LE1) as (n1' & gs1 & E1' & _ & U1 & D1 & I1 & _ & S1 & W1 & SS1 & LB1 & CM1 & CL1 & _). rewrite E1 in E1'. injection E1' as <-.
  destruct (trained u w2 k2 t2 recs2 m2 R2 NE2 SU2 LE2) as (n2' & gs2 & E2' & _ & U2 & D2 & I2 & _ & S2 & W2 & SS2 & LB2 & CM2 & CL2 & _). rewrite E2 in E2'. injection E2' as <-.
  assert (X1 : exists g, In (l, g) gs1). { apply LB1 in Hl. apply in_map_iff in Hl. destruct Hl as ([l' g] & EQ & Hg). cbn in EQ. subst l'. exists g. exact Hg. }
  assert (X2 : exists g, In (l, g) gs2). { apply LB2 in Hl2. apply in_map_iff in Hl2. destruct Hl2 as ([l' g] & EQ & Hg). cbn in EQ. subst l'. exists g. exact Hg. }
  rewrite Forall_forall in CM1, CM2.
  assert (NC : gq_new_class u (gq_sp n1) (gq_cf m1) l = gq_new_class u (gq_sp n2) (gq_cf m2) l).
  { unfold gq_new_class, gc_fresh. rewrite (proj1 U1), (proj1 U2), D1, D2, I1, I2, W1, W2, WN, TB, TD, TI, CF. reflexivity. }
  assert (SAME : forall g g', In (l, g) gs1 -> In (l, g') gs2 -> g = g').
  { intros g g' Hg Hg'. destruct (CM1 _ Hg) as (L1 & _). destruct (CM2 _ Hg') as (L2 & _). cbn [fst snd] in L1, L2. rewrite S1, ST, NC, OC in L1. rewrite S2 in L2. apply (learned_fun _ _ _ _ _ L1 L2). }
  destruct X1 as (g1 & H1). destruct X2 as (g2 & H2). pose proof (SAME _ _ H1 H2) as <-.
  assert (Y1 : forall g, In (l, g) gs1 -> g = g1) by (intros g Hg; apply (SAME _ _ Hg H2)).
  assert (Y2 : forall g, In (l, g) gs2 -> g = g1) by (intros g Hg; symmetry; apply (SAME _ _ H1 Hg)).
  rewrite CL1, CL2, <- CF. destruct (cf_mt (gq_cf m1) =? 0)%Z.
  - exists g1. split; [exact H1|]. split; [exact H2|]. intros g' [C|C]; auto.
  - assert (Z : forall gs g, In (l, g) gs -> In (l, gm_reset1 (A := RA) g) (map (fun e => (fst e, gm_reset1 (snd e))) gs)) by (intros gs g Hg; apply in_map_iff; exists (l, g); auto).
    exists (gm_reset1 g1). split; [apply Z, H1|]. split; [apply Z, H2|].
    intros g' [C|C]; apply in_map_iff in C; destruct C as ([a b] & EQ & C); cbn [fst snd] in EQ; injection EQ as -> <-; f_equal; auto.
Qed.
Print Assumptions C87_classes_independent.
(** The second user records another class as well, in another order, and trains a model twice. *)
Definition ex_more (bim : bool) : list recording :=
  [("walk"%string, map (ex_frame bim) [1; 2; 4; 8]%R); ("walk"%string, map (ex_frame bim) [0; 7; 9]%R); ("stop"%string, map (ex_frame bim) [6; 6]%R)].
Example C87_classes_independent_meets : forall u bim mt est, exists (w1 w2 : world) k1 k2 t1 t2 (m1 m2 n1 n2 : gmodel RA),
  recorded w1 k1 t1 (ex_recs bim) /\ recorded w2 k2 t2 (ex_more bim) /\ set_up (t_bim t1) (gq_sp m1) /\ set_up (t_bim t2) (gq_sp m2) /\
  (forall l, In l (map fst (ex_recs bim)) -> learnable (gq_cf m1) (ex_recs bim) l) /\ (forall l, In l (map fst (ex_more bim)) -> learnable (gq_cf m2) (ex_more bim) l) /\
  gq_train u w1 k1 m1 = Ok n1 /\ gq_train u w2 k2 m2 = Ok n2 /\
  gq_cf m1 = gq_cf m2 /\ settings (gq_sp m1) = settings (gq_sp m2) /\ sp_win (gq_sp m1) = sp_win (gq_sp m2) /\
  t_bim t1 = t_bim t2 /\ t_dim t1 = t_dim t2 /\ t_din t1 = t_din t2 /\
  In "walk"%string (map fst (ex_recs bim)) /\ of_class "walk" (ex_recs bim) = of_class "walk" (ex_more bim) /\ gq_cf m1 = ex_conf mt est /\ gq_cls m1 = [] /\ gq_cls m2 <> [].
Proof.
  intros u bim mt est. destruct (ex_recorded bim) as (w1 & t1 & R1 & B1 & D1 & I1).
  destruct (C87_recording bim _ _ (ex_more bim) (ex_set_dims bim)) as (w2 & t2 & _ & _ & _ & R2 & B2 & D2 & I2).
  { destruct bim; unfold ex_more, ex_frame, ex_dim; cbn; repeat constructor. }
  assert (LE2 : forall l, In l (map fst (ex_more bim)) -> learnable (ex_conf mt est) (ex_more bim) l).
  { intros l H. assert (L : l = "walk"%string \/ l = "stop"%string) by (cbn in H; intuition congruence).
    unfold learnable. destruct L as [-> | ->]; cbv zeta; cbn; (split; [lia|]); (split; [eexists; split; [left; reflexivity|cbn; lia]|]); unfold eps9; apply Rinv_le_contravar; lra. }
  destruct (trained u w1 0 t1 (ex_recs bim) (ex_start bim mt est) R1) as (n1 & gs1 & E1 & CF1 & U1 & _ & _ & _ & S1 & W1 & _ & LB1 & _ & CL1 & _);
    [discriminate|rewrite B1; apply ex_set_up|apply ex_learnable|].
  destruct (trained u w2 0 t2 (ex_more bim) n1 R2) as (n2 & gs2 & E2 & _); [discriminate|rewrite B2, <- B1; exact U1|rewrite CF1; exact LE2|].
  exists w1, w2, 0, 0, t1, t2, (ex_start bim mt est), n1, n1, n2. split; [exact R1|]. split; [exact R2|]. split; [rewrite B1; apply ex_set_up|]. split; [rewrite B2, <- B1; exact U1|].
  split; [apply ex_learnable|]. split; [rewrite CF1; exact LE2|]. split; [exact E1|]. split; [exact E2|]. split; [symmetry; exact CF1|]. split; [symmetry; exact S1|]. split; [symmetry; exact W1|].
  split; [congruence|]. split; [congruence|]. split; [congruence|]. split; [left; reflexivity|]. split; [destruct bim; reflexivity|]. split; [reflexivity|]. split; [reflexivity|].
  rewrite CL1. pose proof (labels_some gs1 (ex_recs bim) ltac:(discriminate) LB1) as NG. destruct (cf_mt _ =? 0)%Z; [exact NG|]. intro C. apply map_eq_nil in C. contradiction.
Qed.

(** The trained model recognises: after [reset] every sequence of observations is filtered, the posteriors are
    those of the learned mixtures, and the likeliest label is one of the labels that were recorded.  With
    outputs that are mixed over the classes, the classes must have one covariance mode (C55). *)
Theorem C87_recognition : forall u (w : world) k t recs (m : gmodel RA), recorded w k t recs -> recs <> [] -> set_up (t_bim t) (gq_sp m) ->
  (forall l, In l (map fst recs) -> learnable (gq_cf m) recs l) ->
  (t_bim t = true -> est_of (cf_est (gq_cf m)) = Mixture -> one_mode (gq_cf m) recs) ->
  exists m', gq_train u w k m = Ok m' /\ model_usable (gq_view m') /\ forall xs x, Forall (fun x => length x = input_dim (gq_sp m')) (xs ++ [x]) ->
    exists m0 m2, gq_reset m' = Ok m0 /\ gq_filters (xs ++ [x]) m0 = Ok m2 /\ gq_sp m2 = gq_sp m' /\ gq_cf m2 = gq_cf m' /\
      map fst (gq_cls m2) = map fst (gq_cls m') /\
      let n := length (gq_cls m') in let r := gq_res m2 in let c := class_at (gq_view m') in
      distribution n (fun i => nth i (rs_instn r) 0%R) /\ distribution n (fun i => nth i (rs_smn r) 0%R) /\
      (forall i, i < n -> nth i (rs_instn r) 0%R = (mix_lik (c i) x / Rsum n (fun j => mix_lik (c j) x))%R) /\
      In (rs_likeliest r) (map fst recs).
Proof.
  intros u w k t recs m H NE SU LE OM. destruct (trained u w k t recs m H NE SU LE) as (m' & gs & E & CF & U & D & I & NM & ST & WN & SS & LB & CM & CL & _).
  assert (UV : model_usable (gq_view m')).
  { apply (usable_view u m' (gq_cf m) recs gs NE CF SS LB CM CL). intro B. apply OM. rewrite (proj1 U) in B. exact B. }
  exists m'. split; [exact E|]. split; [exact UV|]. intros xs x F. destruct (recognise m' xs x UV F) as (m0 & m2 & E0 & EF & Q1 & Q2 & Q3 & RP).
  exists m0, m2. split; [exact E0|]. split; [exact EF|]. split; [exact Q1|]. split; [exact Q2|]. split; [exact Q3|]. cbv zeta.
  destruct (report_dist _ _ _ _ UV RP) as (D1 & D2). split; [exact D1|]. split; [exact D2|].
  destruct RP as (R1 & R2 & R3 & R4 & R5 & b & (Hb & _) & LK & _). split.
  - intros i Hi. rewrite R4 by exact Hi. rewrite R1 by exact Hi. f_equal. apply Rsum_ext. exact R1.
  - rewrite LK. unfold label_at. cbn [gq_view gm_models] in *. apply LB. replace (map fst gs) with (map fst (gq_cls m')).
    + apply in_map. apply nth_In. exact Hb.
    + rewrite CL. destruct (cf_mt (gq_cf m) =? 0)%Z; [reflexivity|]. rewrite map_map. reflexivity.
Qed.
Print Assumptions C87_recognition.
Example C87_recognition_meets : forall bim mt est, exists (w : world) t, let recs := ex_recs bim in let m := ex_start bim mt est in
  recorded w 0 t recs /\ recs <> [] /\ set_up (t_bim t) (gq_sp m) /\ (forall l, In l (map fst recs) -> learnable (gq_cf m) recs l) /\
  (t_bim t = true -> est_of (cf_est (gq_cf m)) = Mixture -> one_mode (gq_cf m) recs).
Proof.
  intros bim mt est. destruct (ex_recorded bim) as (w & t & R & B & _). exists w, t. cbv zeta. split; [exact R|]. split; [discriminate|]. split; [rewrite B; apply ex_set_up|]. split; [apply ex_learnable|]. intros _ _. apply ex_one_mode.
Qed.

(** ** C88 *)

(** In the modes with threads the trained model has been reset: it filters without a call of [reset]. *)
Theorem C88_threads : forall u (w : world) k t recs (m : gmodel RA), recorded w k t recs -> recs <> [] -> set_up (t_bim t) (gq_sp m) ->
  (forall l, In l (map fst recs) -> learnable (gq_cf m) recs l) ->
  (t_bim t = true -> est_of (cf_est (gq_cf m)) = Mixture -> one_mode (gq_cf m) recs) -> cf_mt (gq_cf m) <> 0%Z ->
  exists m', gq_train u w k m = Ok m' /\ gq_reset m' = Ok m' /\
    forall xs, Forall (fun x => length x = input_dim (gq_sp m')) xs -> exists m2, gq_filters xs m' = Ok m2.
Proof.
  intros u w k t recs m H NE SU LE OM MT. destruct (trained u w k t recs m H NE SU LE) as (m' & gs & E & CF & U & D & I & NM & ST & WN & SS & LB & CM & CL & _).
  assert (UV : model_usable (gq_view m')).
  { apply (usable_view u m' (gq_cf m) recs gs NE CF SS LB CM CL). intro B. apply OM. rewrite (proj1 U) in B. exact B. }
  pose proof (train_is_reset u w k t recs m m' H NE MT E) as RR.
  exists m'. split; [exact E|]. split; [exact RR|]. intros xs F.
  destruct (Proofs_GMM4.gm_filters_ok (gq_view m') xs UV F) as (v0 & v & E0 & EF & _).
  assert (V0 : v0 = gq_view m').
  { unfold gq_reset in RR. rewrite E0 in RR. cbn [bind] in RR. injection RR as RR. rewrite <- RR at 1. unfold gm_reset in E0.
    destruct (if gm_bim (gq_view m') then _ else _) as [[o c]| |]; cbn [bind] in E0; try discriminate. injection E0 as <-. reflexivity. }
  subst v0. destruct (filters_view xs m' v EF) as (Q & _). eexists. exact Q.
Qed.
Print Assumptions C88_threads.
Example C88_threads_meets : forall bim est, exists (w : world) t, let recs := ex_recs bim in let m := ex_start bim 2 est in
  recorded w 0 t recs /\ recs <> [] /\ set_up (t_bim t) (gq_sp m) /\ (forall l, In l (map fst recs) -> learnable (gq_cf m) recs l) /\
  (t_bim t = true -> est_of (cf_est (gq_cf m)) = Mixture -> one_mode (gq_cf m) recs) /\ cf_mt (gq_cf m) <> 0%Z.
Proof.
  intros bim est. destruct (C87_recognition_meets bim 2 est) as (w & t & Q). exists w, t. cbv zeta in *. destruct Q as (Q1 & Q2 & Q3 & Q4 & Q5).
  repeat (split; [assumption|]). discriminate.
Qed.

(** In the Sequential mode it has not: the first [filter] after [train] writes outside of the results, for
    every set of recordings and every observation. *)
Theorem C88_sequential_refuted : forall u (w : world) k t recs (m : gmodel RA), recorded w k t recs -> recs <> [] -> set_up (t_bim t) (gq_sp m) ->
  (forall l, In l (map fst recs) -> learnable (gq_cf m) recs l) -> cf_mt (gq_cf m) = 0%Z ->
  exists m', gq_train u w k m = Ok m' /\ forall x, length x = input_dim (gq_sp m') -> gq_filter (A := RA) x m' = UB.
Proof.
  intros u w k t recs m H NE SU LE MT. destruct (trained u w k t recs m H NE SU LE) as (m' & gs & E & CF & U & D & I & NM & ST & WN & SS & LB & CM & CL & RS).
  rewrite MT in CL, RS. cbn in CL, RS. exists m'. split; [exact E|]. intros x Lx. apply (no_room u m' (gq_cf m) recs gs x NE LB CM CL RS Lx).
Qed.
Print Assumptions C88_sequential_refuted.
Example C88_sequential_refuted_meets : forall bim est, exists (w : world) t, let recs := ex_recs bim in let m := ex_start bim 0 est in
  recorded w 0 t recs /\ recs <> [] /\ set_up (t_bim t) (gq_sp m) /\ (forall l, In l (map fst recs) -> learnable (gq_cf m) recs l) /\ cf_mt (gq_cf m) = 0%Z.
Proof.
  intros bim est. destruct (C87_recognition_meets bim 0 est) as (w & t & Q). exists w, t. cbv zeta in *. destruct Q as (Q1 & Q2 & Q3 & Q4 & Q5).
  repeat (split; [assumption|]). reflexivity.
Qed.
