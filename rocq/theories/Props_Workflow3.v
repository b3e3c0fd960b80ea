(** C91: training single classes of a mixture model. *)
From Coq Require Import String List Bool Arith Lia ZArith Reals Lra Sorting.Sorted.
From Verif Require Import Base BaseFacts Arith RFacts Model_Map Model_Ring Model_Phrase Model_TrainingSet Model_Gaussian Model_Config Model_KMeans Model_GMM
  Model_Shared Model_Train Model_Reload Model_Workflow Model_Workflow3 Spec_Common Spec_Phrase Spec_TrainingSet Spec_Train Spec_Shared Spec_Matrix Spec_Gaussian Spec_GMM Spec_Reload
  Spec_Workflow Spec_Workflow2 Spec_Workflow3 Proofs_Workflow3 Proofs_Workflow12 Proofs_Workflow13 Proofs_Workflow14 Props_Workflow.
Import ListNotations.
Local Open Scope list_scope.
Local Open Scope nat_scope.

Local Notation world := (world RA).

(** ** The examples: a class is added to the recordings of C87 *)
Definition ex_stop (bim : bool) : recording := ("stop"%string, map (ex_frame bim) [6; 6]%R).
Definition ex_grown (bim : bool) : list recording := ex_recs bim ++ [ex_stop bim].
Lemma ex_grown_learnable : forall bim mt est l, In l (map fst (ex_grown bim)) -> learnable (ex_conf mt est) (ex_grown bim) l.
Proof.
  intros bim mt est l H. assert (L : l = "walk"%string \/ l = "run"%string \/ l = "stop"%string) by (cbn in H; intuition congruence).
  unfold learnable. destruct L as [-> | [-> | ->]]; cbv zeta; cbn; (split; [lia|]); (split; [eexists; split; [left; reflexivity|cbn; lia]|]); unfold eps9; apply Rinv_le_contravar; lra.
Qed.
Lemma ex_grown_recorded : forall bim, exists (w : world) t, recorded w 0 t (ex_grown bim) /\ t_bim t = bim /\ t_dim t = ex_dim bim /\ t_din t = ex_din bim.
Proof.
  intro bim. destruct (C87_recording bim _ _ (ex_grown bim) (ex_set_dims bim)) as (w & t & _ & _ & _ & R); [|exists w, t; exact R].
  destruct bim; unfold ex_grown, ex_recs, ex_stop, ex_frame, ex_dim; cbn; repeat constructor.
Qed.
Lemma ex_grown_other : forall bim l, l <> "stop"%string -> of_class l (ex_recs bim) = of_class l (ex_grown bim).
Proof.
  intros bim l H. apply not_eq_sym, String.eqb_neq in H. unfold ex_grown, of_class. rewrite filter_app, map_app. cbn [ex_stop filter fst]. rewrite H. cbn [map]. rewrite app_nil_r. reflexivity.
Qed.

(** [train(set, label)] refuses a label that the set does not have, and a set with other dimensions than the
    classes of the model: nothing changes. *)
Theorem C91_rejected : forall (u : junk RA) (w : world) k t (m : gmodel RA) l, set_at w k = Some t ->
  (~ In l (t_labels t) -> gq_train_one u w k l m = (m, Throw OutOfRange)) /\
  (In l (t_labels t) -> ~ (gq_cls m <> [] -> sp_dim (gq_sp m) = t_dim t /\ (sp_bim (gq_sp m) = true -> sp_din (gq_sp m) = t_din t)) ->
   gq_train_one u w k l m = (m, Throw RuntimeError)).
Proof.
  intros u w k t m l HS. unfold set_at in HS. destruct (nth_error (w_sets w) k) as [o|] eqn:EN; [|discriminate]. subst o.
  unfold gq_train_one, one_prepare, sbind, sget. rewrite EN. split.
  - intro N. assert (E : existsb (String.eqb l) (t_labels t) = false).
    { destruct (existsb (String.eqb l) (t_labels t)) eqn:E; [|reflexivity]. apply existsb_exists in E. destruct E as (l' & I & E). apply String.eqb_eq in E. subst. contradiction. }
    rewrite E. cbn [negb]. unfold sthrow, gq_set. destruct m; reflexivity.
  - intros I D. assert (E : existsb (String.eqb l) (t_labels t) = true) by (apply existsb_exists; exists l; split; [exact I|apply String.eqb_refl]).
    rewrite E. cbn [negb]. assert (C : (0 <? length (gq_cls m)) && (negb (sp_dim (gq_sp m) =? t_dim t) || (sp_bim (gq_sp m) && negb (sp_din (gq_sp m) =? t_din t))) = true).
    { apply not_false_is_true. intro C. apply D. intro NE. assert (0 <? length (gq_cls m) = true) as L by (destruct (gq_cls m); [congruence|reflexivity]). rewrite L in C. cbn [andb] in C.
      apply orb_false_iff in C. destruct C as (C1 & C2). split; [apply negb_false_iff, Nat.eqb_eq in C1; exact C1|]. intro B. rewrite B in C2. cbn [andb] in C2. apply negb_false_iff, Nat.eqb_eq in C2. exact C2. }
    rewrite C. unfold sthrow, gq_set. destruct m; reflexivity.
Qed.
Print Assumptions C91_rejected.
Example C91_rejected_meets : forall u mt est, exists (w : world) t (m : gmodel RA), set_at w 0 = Some t /\ gq_cls m <> [] /\ ~ In "fly"%string (t_labels t) /\
  In "walk"%string (t_labels t) /\ ~ (gq_cls m <> [] -> sp_dim (gq_sp m) = t_dim t /\ (sp_bim (gq_sp m) = true -> sp_din (gq_sp m) = t_din t)) /\ gq_cf m = ex_conf mt est /\
  exists w' k' m', gq_train u w' k' m' = Ok m.
Proof.
  intros u mt est. destruct (ex_recorded false) as (w & t & R1 & B1 & D1 & I1). destruct (ex_recorded true) as (w' & t' & R2 & B2 & D2 & I2).
  destruct (trained_at_once u w' 0 t' (ex_recs true) (ex_start true mt est) R2) as (m & E & CF & F & (S & L & _) & _); [discriminate|rewrite B2; apply ex_set_up|apply ex_learnable|].
  assert (NE : gq_cls m <> []) by (intro Q; pose proof (proj2 (L "walk"%string) (or_introl eq_refl)) as I; rewrite Q in I; destruct I).
  exists w, t, m. split; [apply R1|]. split; [exact NE|]. destruct (recorded_labels w 0 t _ R1) as (LB & _). rewrite !LB. split; [cbn; intuition congruence|]. split; [left; reflexivity|].
  split; [|split; [exact CF|exists w', 0, (ex_start true mt est); exact E]]. intro Q. destruct (Q NE) as (Q1 & _). destruct F as (_ & F & _). rewrite F, D2, D1 in Q1. discriminate.
Qed.

(** Training one class, new or trained before, whatever the model has learned and done so far: the class
    becomes what training makes of a new class and its recordings; the others stay as they are, up to the
    reset that ends a training with threads. *)
Theorem C91_one : forall (u : junk RA) (w : world) k t recs (m : gmodel RA) l, recorded w k t recs -> In l (map fst recs) -> learnable (gq_cf m) recs l ->
  set_up (t_bim t) (gq_sp m) -> at_rest m -> same_dims t m ->
  exists m', gq_train_one u w k l m = (m', Ok tt) /\ gq_cf m' = gq_cf m /\ fetched t (gq_sp m) (gq_sp m') /\ sp_names (gq_sp m') = t_cols t /\ at_rest m' /\
    (forall l', In l' (map fst (gq_cls m')) <-> l' = l \/ In l' (map fst (gq_cls m))) /\
    (exists g, class_named m' l = Some g /\ class_like u (gq_sp m') (gq_cf m) recs l g) /\
    (forall l', l' <> l -> class_named m' l' = if (cf_mt (gq_cf m) =? 0)%Z then class_named m l' else option_map (gm_reset1 (A := RA)) (class_named m l')).
Proof.
  intros u w k t recs m l H Hl LE SU AR SD. destruct (train_one u w k t recs m l H Hl LE SU AR SD) as (m' & E & C & F & N & A & L & (g & G1 & G2 & _) & O).
  exists m'. repeat (split; [assumption|]). split; [exists g; auto|exact O].
Qed.
Print Assumptions C91_one.
Example C91_one_meets : forall (u : junk RA) bim mt est l, In l (map fst (ex_grown bim)) -> exists (w : world) t (m : gmodel RA),
  recorded w 0 t (ex_grown bim) /\ In l (map fst (ex_grown bim)) /\ learnable (gq_cf m) (ex_grown bim) l /\ set_up (t_bim t) (gq_sp m) /\ at_rest m /\ same_dims t m /\
  map fst (gq_cls m) = ["run"%string; "walk"%string] /\ gq_cf m = ex_conf mt est.
Proof.
  intros u bim mt est l Hl. destruct (ex_recorded bim) as (w1 & t1 & R1 & B1 & D1 & I1). destruct (ex_grown_recorded bim) as (w & t & R & B & D & I).
  destruct (trained_at_once u w1 0 t1 (ex_recs bim) (ex_start bim mt est) R1) as (m & E & CF & F & (S & L & _) & A); [discriminate|rewrite B1; apply ex_set_up|apply ex_learnable|].
  exists w, t, m. split; [exact R|]. split; [exact Hl|]. split; [rewrite CF; apply ex_grown_learnable, Hl|]. split; [rewrite B, <- B1; apply F|]. split; [exact A|]. split; [|split; [|exact CF]].
  - pose proof (fetched_dims t1 _ m F) as Q. intro NE. destruct (Q NE) as (Q1 & Q2). split; [congruence|]. intro Z. rewrite (Q2 ltac:(congruence)). congruence.
  - apply sorted_same; [exact S|repeat constructor|]. intro l'. rewrite L. cbn. intuition.
Qed.

(** Training the classes one by one, in any order and any number of times, recognises like training them at
    once. *)
Theorem C91_all : forall (u : junk RA) (w : world) k t recs (m : gmodel RA) ls, recorded w k t recs -> recs <> [] -> set_up (t_bim t) (gq_sp m) -> at_rest m -> same_dims t m ->
  (forall l, In l (map fst recs) -> learnable (gq_cf m) recs l) ->
  (forall l, In l ls <-> In l (map fst recs)) -> (forall l, In l (map fst (gq_cls m)) -> In l (map fst recs)) ->
  exists m1 m2, gq_train u w k m = Ok m1 /\ gq_train_each u w k ls m = (m2, Ok tt) /\ map fst (gq_cls m1) = map fst (gq_cls m2) /\
    same_recognition (gq_view m1) (gq_view m2).
Proof. exact each_at_once. Qed.
Print Assumptions C91_all.
Example C91_all_meets : forall bim mt est, exists (w : world) t, recorded w 0 t (ex_grown bim) /\ set_up (t_bim t) (gq_sp (ex_start bim mt est)) /\ at_rest (ex_start bim mt est) /\
  same_dims t (ex_start bim mt est) /\ (forall l, In l (map fst (ex_grown bim)) -> learnable (gq_cf (ex_start bim mt est)) (ex_grown bim) l) /\
  (forall l, In l ["walk"; "stop"; "walk"; "run"]%string <-> In l (map fst (ex_grown bim))) /\ (forall l, In l (map fst (gq_cls (ex_start bim mt est))) -> In l (map fst (ex_grown bim))).
Proof.
  intros bim mt est. destruct (ex_grown_recorded bim) as (w & t & R & B & D & I). exists w, t. split; [exact R|]. split; [rewrite B; apply ex_set_up|].
  split; [split; constructor|]. split; [intro Q; contradiction|]. split; [apply ex_grown_learnable|]. split; [intro l; cbn; intuition|]. intros l [].
Qed.

(** When the recordings of one class have changed, training that class alone recognises like training all of
    them again. *)
Theorem C91_later : forall (u : junk RA) (w1 w2 : world) k1 k2 t1 t2 recs1 recs2 (m : gmodel RA) l, recorded w1 k1 t1 recs1 -> recorded w2 k2 t2 recs2 -> recs1 <> [] ->
  set_up (t_bim t1) (gq_sp m) -> t_bim t1 = t_bim t2 -> t_dim t1 = t_dim t2 -> t_din t1 = t_din t2 ->
  (forall l', In l' (map fst recs1) -> learnable (gq_cf m) recs1 l') -> (forall l', In l' (map fst recs2) -> learnable (gq_cf m) recs2 l') ->
  In l (map fst recs2) -> (forall l', l' <> l -> of_class l' recs1 = of_class l' recs2) ->
  exists m1 m2 m3, gq_train u w1 k1 m = Ok m1 /\ gq_train_one u w2 k2 l m1 = (m2, Ok tt) /\ gq_train u w2 k2 m = Ok m3 /\
    map fst (gq_cls m2) = map fst (gq_cls m3) /\ same_recognition (gq_view m2) (gq_view m3).
Proof. exact retrained. Qed.
Print Assumptions C91_later.
Example C91_later_meets : forall bim mt est, exists (w1 w2 : world) t1 t2, recorded w1 0 t1 (ex_recs bim) /\ recorded w2 0 t2 (ex_grown bim) /\
  set_up (t_bim t1) (gq_sp (ex_start bim mt est)) /\ t_bim t1 = t_bim t2 /\ t_dim t1 = t_dim t2 /\ t_din t1 = t_din t2 /\
  (forall l', In l' (map fst (ex_recs bim)) -> learnable (gq_cf (ex_start bim mt est)) (ex_recs bim) l') /\
  (forall l', In l' (map fst (ex_grown bim)) -> learnable (gq_cf (ex_start bim mt est)) (ex_grown bim) l') /\
  In "stop"%string (map fst (ex_grown bim)) /\ (forall l', l' <> "stop"%string -> of_class l' (ex_recs bim) = of_class l' (ex_grown bim)) /\ ~ In "stop"%string (map fst (ex_recs bim)).
Proof.
  intros bim mt est. destruct (ex_recorded bim) as (w1 & t1 & R1 & B1 & D1 & I1). destruct (ex_grown_recorded bim) as (w & t & R & B & D & I).
  exists w1, w, t1, t. split; [exact R1|]. split; [exact R|]. split; [rewrite B1; apply ex_set_up|]. split; [congruence|]. split; [congruence|]. split; [congruence|].
  split; [apply ex_learnable|]. split; [apply ex_grown_learnable|]. split; [cbn; auto|]. split; [apply ex_grown_other|]. cbn. intuition congruence.
Qed.

(** In the Sequential mode a model that has been reset is not ready any more once a class is added: the next
    observation writes past the end of the result vectors, until the model is reset again. *)
Theorem C91_sequential_refuted : forall (u : junk RA) (w1 w2 : world) k1 k2 t1 t2 recs1 recs2 (m : gmodel RA) l, recorded w1 k1 t1 recs1 -> recorded w2 k2 t2 recs2 -> recs1 <> [] ->
  set_up (t_bim t1) (gq_sp m) -> t_bim t1 = t_bim t2 -> t_dim t1 = t_dim t2 -> t_din t1 = t_din t2 ->
  (forall l', In l' (map fst recs1) -> learnable (gq_cf m) recs1 l') -> In l (map fst recs2) -> learnable (gq_cf m) recs2 l -> ~ In l (map fst recs1) ->
  cf_mt (gq_cf m) = 0%Z ->
  exists m1 m1r m2, gq_train u w1 k1 m = Ok m1 /\ gq_reset m1 = Ok m1r /\ gq_train_one u w2 k2 l m1r = (m2, Ok tt) /\
    forall x, length x = input_dim (gq_sp m2) -> gq_filter (A := RA) x m2 = UB.
Proof. exact grown_unready. Qed.
Print Assumptions C91_sequential_refuted.
Example C91_sequential_refuted_meets : forall bim est, exists (w1 w2 : world) t1 t2, recorded w1 0 t1 (ex_recs bim) /\ recorded w2 0 t2 (ex_grown bim) /\
  set_up (t_bim t1) (gq_sp (ex_start bim 0 est)) /\ t_bim t1 = t_bim t2 /\ t_dim t1 = t_dim t2 /\ t_din t1 = t_din t2 /\
  (forall l', In l' (map fst (ex_recs bim)) -> learnable (gq_cf (ex_start bim 0 est)) (ex_recs bim) l') /\
  In "stop"%string (map fst (ex_grown bim)) /\ learnable (gq_cf (ex_start bim 0 est)) (ex_grown bim) "stop" /\ ~ In "stop"%string (map fst (ex_recs bim)) /\
  cf_mt (gq_cf (ex_start bim 0 est)) = 0%Z.
Proof.
  intros bim est. destruct (C91_later_meets bim 0 est) as (w1 & w2 & t1 & t2 & R1 & R2 & SU & B & D & I & L1 & L2 & IN & _ & NI).
  exists w1, w2, t1, t2. repeat (split; [assumption|]). split; [apply L2, IN|]. split; [exact NI|reflexivity].
Qed.
