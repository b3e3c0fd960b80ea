(** C93: training single classes of a hidden Markov model. *)
From Coq Require Import String List Bool Arith Lia ZArith Reals Lra Sorting.Sorted.
From Verif Require Import Base BaseFacts Arith RFacts Model_Map Model_Ring Model_Phrase Model_TrainingSet Model_Gaussian Model_Config Model_KMeans Model_GMM Model_HMM Model_HHMM
  Model_Shared Model_Train Model_Reload Model_Workflow Model_Workflow2 Model_Workflow3 Model_Workflow4 Spec_Common Spec_Phrase Spec_TrainingSet Spec_Train Spec_Shared Spec_Matrix Spec_Gaussian Spec_GMM Spec_HMM
  Spec_HMMInit Spec_EM2 Spec_HHMM Spec_HHMM2 Spec_HHMM3 Spec_Reload Spec_Workflow Spec_Workflow2 Spec_Workflow3 Spec_Workflow4 Proofs_HHMM8 Proofs_HHMM11 Proofs_Workflow8 Proofs_Workflow3 Proofs_Workflow6 Proofs_Workflow10
  Proofs_Workflow11 Proofs_Workflow13 Proofs_Workflow14 Proofs_Workflow15 Proofs_Workflow16 Proofs_Workflow17 Proofs_Workflow18 Props_Workflow Props_Workflow2 Props_Workflow3.
Import ListNotations.
Local Open Scope list_scope.
Local Open Scope nat_scope.

Local Notation world := (world RA).

(** ** The examples: a class is added to the recordings of C87 *)
(** Two classes have parameters of their own; [n] is the number of states of one of them. *)
Definition ex_gconf (n : nat) (tm : tmode) (hier : bool) (mt est : Z) : config (hmmP RA) :=
  mkConfig (ex_hp 1 tm hier) mt est [("stop"%string, ex_hp 2 LeftRight hier); ("walk"%string, ex_hp n LeftRight hier)].
Definition ex_gstart (bim : bool) (n : nat) (tm : tmode) (hier : bool) (mt est : Z) : hmodel RA :=
  mkHM (ex_shared bim) (ex_gconf n tm hier mt est) [] [] [] [] [] [] false (empty_results (A := RA)).
(** The model [m] with another configuration. *)
Definition ex_reconf (cf : config (hmmP RA)) (m : hmodel RA) : hmodel RA :=
  mkHM (hq_sp m) cf (hq_cls m) (hq_prior m) (hq_trans m) (hq_exit m) (hq_v1 m) (hq_v2 m) (hq_started m) (hq_res m).

Lemma ex_gset_up : forall bim n tm hier mt est, set_up bim (hq_sp (ex_gstart bim n tm hier mt est)).
Proof. intros bim n tm hier mt est. exact (ex_hset_up bim tm hier mt est). Qed.
Lemma ex_glabels : forall bim l, In l (map fst (ex_grown bim)) -> l = "walk"%string \/ l = "run"%string \/ l = "stop"%string.
Proof. intros bim l H. cbn in H. intuition congruence. Qed.
Lemma ex_grealistic : forall bim n tm hier mt est l, 1 <= n <= 4 -> In l (map fst (ex_grown bim)) -> hrealistic (ex_gconf n tm hier mt est) (ex_grown bim) l.
Proof.
  intros bim n tm hier mt est l Hn H. apply ex_glabels in H.
  assert (LE : forall n, n <= 10 -> (INR n <= 10 ^ 90)%R).
  { intros k Hk. apply Rle_trans with (10 ^ 1)%R; [|apply Rle_pow; [lra|lia]]. rewrite pow_1. replace 10%R with (INR 10) by (cbn; ring). apply le_INR, Hk. }
  assert (EP : (eps9 <= / 1000)%R) by (unfold eps9; apply Rinv_le_contravar; lra).
  unfold hrealistic. cbv zeta. destruct H as [-> | [-> | ->]].
  - change (cf_params (ex_gconf n tm hier mt est) "walk") with (ex_hp n LeftRight hier). change (of_class "walk" (ex_grown bim)) with [map (ex_frame bim) [1; 2; 4; 8]%R; map (ex_frame bim) [0; 7; 9]%R].
    cbn [ex_hp hp_states hp_gauss hp_mode hp_abs hp_trans]. split; [lia|]. split; [lia|]. split; [repeat constructor; discriminate|]. split; [eexists; split; [left; reflexivity|cbn; lia]|]. split; [exact EP|].
    split; [apply LE; cbn; lia|left; reflexivity].
  - change (cf_params (ex_gconf n tm hier mt est) "run") with (ex_hp 1 tm hier). change (of_class "run" (ex_grown bim)) with [map (ex_frame bim) [3; 5]%R].
    cbn [ex_hp hp_states hp_gauss hp_mode hp_abs hp_trans]. split; [lia|]. split; [lia|]. split; [repeat constructor; discriminate|]. split; [eexists; split; [left; reflexivity|cbn; lia]|]. split; [exact EP|].
    split; [apply LE; cbn; lia|right]. split; [reflexivity|]. eexists. split; [left; reflexivity|cbn; lia].
  - change (cf_params (ex_gconf n tm hier mt est) "stop") with (ex_hp 2 LeftRight hier). change (of_class "stop" (ex_grown bim)) with [map (ex_frame bim) [6; 6]%R].
    cbn [ex_hp hp_states hp_gauss hp_mode hp_abs hp_trans]. split; [lia|]. split; [lia|]. split; [repeat constructor; discriminate|]. split; [eexists; split; [left; reflexivity|cbn; lia]|]. split; [exact EP|].
    split; [apply LE; cbn; lia|left; reflexivity].
Qed.
Lemma ex_grealistic1 : forall bim n tm hier mt est l, 1 <= n <= 4 -> In l (map fst (ex_recs bim)) -> hrealistic (ex_gconf n tm hier mt est) (ex_recs bim) l.
Proof.
  intros bim n tm hier mt est l Hn H. assert (NS : l <> "stop"%string) by (cbn in H; intuition congruence). assert (HG : In l (map fst (ex_grown bim))) by (unfold ex_grown; rewrite map_app; apply in_or_app; left; exact H).
  pose proof (ex_grealistic bim n tm hier mt est l Hn HG) as Q. unfold hrealistic in *. rewrite (ex_grown_other bim l NS). exact Q.
Qed.
Lemma ex_glr : forall bim n hier mt est, hall_left_right (ex_gconf n LeftRight hier mt est) (ex_grown bim).
Proof. intros bim n hier mt est l H. apply ex_glabels in H. destruct H as [-> | [-> | ->]]; reflexivity. Qed.
(** A model trained with the recordings of C87. *)
Lemma ex_gtrained : forall u bim n tm mt est, 1 <= n <= 4 -> exists (w : world) t (m : hmodel RA), recorded w 0 t (ex_recs bim) /\ hq_train u w 0 (ex_gstart bim n tm true mt est) = Ok m /\
  t_bim t = bim /\ t_dim t = ex_dim bim /\ t_din t = ex_din bim /\ hq_cf m = ex_gconf n tm true mt est /\ fetched t (ex_shared bim) (hq_sp m) /\ htrained_as u (ex_recs bim) m /\ hat_rest m /\
  map fst (hq_cls m) = ["run"%string; "walk"%string].
Proof.
  intros u bim n tm mt est Hn. destruct (ex_recorded bim) as (w & t & R1 & B1 & D1 & I1).
  destruct (htrained_at_once u w 0 t (ex_recs bim) (ex_gstart bim n tm true mt est) R1) as (m & E & CF & F & T & A); [discriminate|rewrite B1; apply ex_gset_up|reflexivity| |].
  - apply (C89_learnable u w 0 t _ _ R1). intros l Hl. apply ex_grealistic1; assumption.
  - exists w, t, m. repeat (split; [assumption|]). pose proof T as (S & L & _). apply sorted_same; [exact S|repeat constructor|]. intro l'. rewrite L. cbn. intuition.
Qed.

(** [train(set, label)] refuses a label that the set does not have, and a set with other dimensions than the
    classes of the model: nothing changes. *)
Theorem C93_rejected : forall (u : junk RA) (w : world) k t (m : hmodel RA) l, set_at w k = Some t ->
  (~ In l (t_labels t) -> hq_train_one u w k l (m, false) = ((m, false), Throw OutOfRange)) /\
  (In l (t_labels t) -> ~ (hq_cls m <> [] -> sp_dim (hq_sp m) = t_dim t /\ (sp_bim (hq_sp m) = true -> sp_din (hq_sp m) = t_din t)) ->
   hq_train_one u w k l (m, false) = ((m, false), Throw RuntimeError)).
Proof.
  intros u w k t m l HS. unfold set_at in HS. destruct (nth_error (w_sets w) k) as [o|] eqn:EN; [|discriminate]. subst o.
  unfold hq_train_one. rewrite EN. split.
  - intro N. assert (E : one_unknown t l = true).
    { unfold one_unknown. destruct (existsb (String.eqb l) (t_labels t)) eqn:E; [|reflexivity]. apply existsb_exists in E. destruct E as (l' & I & E). apply String.eqb_eq in E. subst. contradiction. }
    rewrite E. reflexivity.
  - intros I D. rewrite one_known by exact I.
    assert (CC : hq_cancel l m false = Ok (m, false, None)) by (unfold hq_cancel; destruct (mget String.eqb (hq_cls m) l); reflexivity). rewrite CC.
    assert (C : one_misfit t (length (hq_cls m)) (hq_sp m) = true).
    { apply not_false_is_true. intro C. apply D. intro NE. unfold one_misfit in C. assert (0 <? length (hq_cls m) = true) as L by (destruct (hq_cls m); [congruence|reflexivity]). rewrite L in C. cbn [andb] in C.
      apply orb_false_iff in C. destruct C as (C1 & C2). split; [apply negb_false_iff, Nat.eqb_eq in C1; exact C1|]. intro B. rewrite B in C2. cbn [andb] in C2. apply negb_false_iff, Nat.eqb_eq in C2. exact C2. }
    rewrite C. reflexivity.
Qed.
Print Assumptions C93_rejected.
Example C93_rejected_meets : forall u tm mt est, exists (w : world) t (m : hmodel RA), set_at w 0 = Some t /\ hq_cls m <> [] /\ ~ In "fly"%string (t_labels t) /\
  In "walk"%string (t_labels t) /\ ~ (hq_cls m <> [] -> sp_dim (hq_sp m) = t_dim t /\ (sp_bim (hq_sp m) = true -> sp_din (hq_sp m) = t_din t)) /\ hq_cf m = ex_gconf 2 tm true mt est /\
  exists w' k' m', hq_train u w' k' m' = Ok m.
Proof.
  intros u tm mt est. destruct (ex_recorded false) as (w & t & R1 & B1 & D1 & I1). destruct (ex_gtrained u true 2 tm mt est ltac:(lia)) as (w' & t' & m & R2 & E & B2 & D2 & I2 & CF & F & T & A & LB).
  assert (NE : hq_cls m <> []) by (intro Q; rewrite Q in LB; discriminate).
  exists w, t, m. split; [apply R1|]. split; [exact NE|]. destruct (recorded_labels w 0 t _ R1) as (LR & _). rewrite !LR. split; [cbn; intuition congruence|]. split; [left; reflexivity|].
  split; [|split; [exact CF|eexists w', 0, _; exact E]]. intro Q. destruct (Q NE) as (Q1 & _). destruct F as (_ & F & _). rewrite F, D2, D1 in Q1. discriminate.
Qed.

(** Training one class, new or trained before, of a model in hierarchical mode, whatever the model has learned
    and done so far: the class becomes what training makes of a new class and its recordings, except that its
    exit probabilities are kept but for the one of the last state; the others stay as they are, up to the reset
    that ends a training with threads, and but for the exit probability of their last state if the class is
    new. *)
Theorem C93_one : forall (u : junk RA) (w : world) k t recs (m : hmodel RA) l, recorded w k t recs -> In l (map fst recs) -> set_up (t_bim t) (hq_sp m) -> hat_rest m -> hsame_dims t m ->
  (forall s, fetched t (hq_sp m) s -> hlearnable u s (hq_cf m) recs l) ->
  exists m', hq_train_one u w k l (m, false) = ((m', false), Ok tt) /\ hone_trained u t recs m l m'.
Proof. intros u w k t recs m l H Hl SU AR SD LE. destruct (htrain_one u w k t recs m l H Hl SU AR SD LE) as (m' & E & HO & _). exists m'. auto. Qed.
Print Assumptions C93_one.
Example C93_one_meets : forall (u : junk RA) bim n tm mt est l, 1 <= n <= 4 -> In l (map fst (ex_grown bim)) -> exists (w : world) t (m : hmodel RA),
  recorded w 0 t (ex_grown bim) /\ In l (map fst (ex_grown bim)) /\ set_up (t_bim t) (hq_sp m) /\ hat_rest m /\ hsame_dims t m /\
  (forall s, fetched t (hq_sp m) s -> hlearnable u s (hq_cf m) (ex_grown bim) l) /\ map fst (hq_cls m) = ["run"%string; "walk"%string] /\ hq_cf m = ex_gconf n tm true mt est.
Proof.
  intros u bim n tm mt est l Hn Hl. destruct (ex_gtrained u bim n tm mt est Hn) as (w1 & t1 & m & R1 & _ & B1 & D1 & I1 & CF & F & _ & A & LB). destruct (ex_grown_recorded bim) as (w & t & R & B & D & I).
  exists w, t, m. split; [exact R|]. split; [exact Hl|]. split; [rewrite B, <- B1; apply F|]. split; [exact A|]. split; [|split; [|split; [exact LB|exact CF]]].
  - pose proof (hfetched_dims t1 _ m F) as Q. intro NE. destruct (Q NE) as (Q1 & Q2). split; [congruence|]. intro Z. rewrite (Q2 ltac:(congruence)). congruence.
  - intros s Fs. apply (C89_learnable u w 0 t _ m R); [|exact Fs|exact Hl]. intros l' Hl'. rewrite CF. apply ex_grealistic; assumption.
Qed.

(** Training the classes one by one, in any order and any number of times, recognises like training them at
    once: for left-right classes, if the classes that the model has have the number of states of the
    configuration and no other exit points than those that training gives. *)
Theorem C93_all : forall (u : junk RA) (w : world) k t recs (m : hmodel RA) ls, recorded w k t recs -> recs <> [] -> set_up (t_bim t) (hq_sp m) -> hat_rest m -> hsame_dims t m -> plain_exits m ->
  even_top (length (hq_cls m)) m -> hall_learnable u t m recs -> hall_left_right (hq_cf m) recs ->
  (forall l, In l ls <-> In l (map fst recs)) -> (forall l, In l (map fst (hq_cls m)) -> In l (map fst recs)) ->
  exists m1 m2, hq_train u w k m = Ok m1 /\ hq_train_each u w k ls (m, false) = ((m2, false), Ok tt) /\ map fst (hq_cls m1) = map fst (hq_cls m2) /\
    same_hrecognition (hq_view m1) (hq_view m2).
Proof. exact heach_at_once. Qed.
Print Assumptions C93_all.
Example C93_all_meets : forall (u : junk RA) bim n mt est, 1 <= n <= 4 -> exists (w : world) t (m : hmodel RA), recorded w 0 t (ex_grown bim) /\ set_up (t_bim t) (hq_sp m) /\ hat_rest m /\
  hsame_dims t m /\ plain_exits m /\ even_top (length (hq_cls m)) m /\ hall_learnable u t m (ex_grown bim) /\ hall_left_right (hq_cf m) (ex_grown bim) /\
  (forall l, In l ["walk"; "stop"; "walk"; "run"]%string <-> In l (map fst (ex_grown bim))) /\ (forall l, In l (map fst (hq_cls m)) -> In l (map fst (ex_grown bim))) /\
  map fst (hq_cls m) = ["run"%string; "walk"%string] /\ hq_cf m = ex_gconf n LeftRight true mt est.
Proof.
  intros u bim n mt est Hn. destruct (ex_gtrained u bim n LeftRight mt est Hn) as (w1 & t1 & m & R1 & _ & B1 & D1 & I1 & CF & F & T & A & LB). destruct (ex_grown_recorded bim) as (w2 & t2 & R2 & B & D & I).
  exists w2, t2, m. split; [exact R2|]. split; [rewrite B, <- B1; apply F|]. split; [exact A|]. split; [|split; [eapply trained_plain, T|split; [apply T|split; [|split; [rewrite CF; apply ex_glr|split; [|split; [|split; [exact LB|exact CF]]]]]]]].
  - pose proof (hfetched_dims t1 _ m F) as Q. intro NE. destruct (Q NE) as (Q1 & Q2). split; [congruence|]. intro Z. rewrite (Q2 ltac:(congruence)). congruence.
  - apply (C89_learnable u w2 0 t2 _ m R2). intros l Hl. rewrite CF. apply ex_grealistic; assumption.
  - intro l. cbn. intuition.
  - intros l Hl. rewrite LB in Hl. cbn in Hl |- *. intuition.
Qed.

(** When the recordings of one class have changed, training that class alone recognises like training all of
    them again. *)
Theorem C93_later : forall (u : junk RA) (w1 w2 : world) k1 k2 t1 t2 recs1 recs2 (m : hmodel RA) l, recorded w1 k1 t1 recs1 -> recorded w2 k2 t2 recs2 -> recs1 <> [] ->
  set_up (t_bim t1) (hq_sp m) -> t_bim t1 = t_bim t2 -> t_dim t1 = t_dim t2 -> t_din t1 = t_din t2 -> hp_hier (cf_def (hq_cf m)) = true ->
  hall_learnable u t1 m recs1 -> hall_learnable u t2 m recs2 -> hall_left_right (hq_cf m) recs2 ->
  In l (map fst recs2) -> (forall l', l' <> l -> of_class l' recs1 = of_class l' recs2) ->
  exists m1 m2 m3, hq_train u w1 k1 m = Ok m1 /\ hq_train_one u w2 k2 l (m1, false) = ((m2, false), Ok tt) /\ hq_train u w2 k2 m = Ok m3 /\
    map fst (hq_cls m2) = map fst (hq_cls m3) /\ same_hrecognition (hq_view m2) (hq_view m3).
Proof. exact hretrained. Qed.
Print Assumptions C93_later.
Example C93_later_meets : forall (u : junk RA) bim n mt est, 1 <= n <= 4 -> exists (w1 w2 : world) t1 t2, let m := ex_gstart bim n LeftRight true mt est in
  recorded w1 0 t1 (ex_recs bim) /\ recorded w2 0 t2 (ex_grown bim) /\ ex_recs bim <> [] /\
  set_up (t_bim t1) (hq_sp m) /\ t_bim t1 = t_bim t2 /\ t_dim t1 = t_dim t2 /\ t_din t1 = t_din t2 /\ hp_hier (cf_def (hq_cf m)) = true /\
  hall_learnable u t1 m (ex_recs bim) /\ hall_learnable u t2 m (ex_grown bim) /\ hall_left_right (hq_cf m) (ex_grown bim) /\
  In "stop"%string (map fst (ex_grown bim)) /\ (forall l', l' <> "stop"%string -> of_class l' (ex_recs bim) = of_class l' (ex_grown bim)) /\ ~ In "stop"%string (map fst (ex_recs bim)).
Proof.
  intros u bim n mt est Hn. destruct (ex_recorded bim) as (w1 & t1 & R1 & B1 & D1 & I1). destruct (ex_grown_recorded bim) as (w & t & R & B & D & I).
  exists w1, w, t1, t. cbv zeta. split; [exact R1|]. split; [exact R|]. split; [discriminate|]. split; [rewrite B1; apply ex_gset_up|]. split; [congruence|]. split; [congruence|]. split; [congruence|]. split; [reflexivity|].
  split; [apply (C89_learnable u w1 0 t1 _ _ R1); intros l Hl; apply ex_grealistic1; assumption|].
  split; [apply (C89_learnable u w 0 t _ _ R); intros l Hl; apply ex_grealistic; assumption|]. split; [apply ex_glr|]. split; [cbn; auto|]. split; [apply ex_grown_other|]. cbn. intuition congruence.
Qed.

(** When the number of states of a class has been raised since its last training, [train(set, label)] does not
    make what it makes of a new class: a state in the middle keeps the exit probability 0.1 of the former last
    state. *)
Theorem C93_states_refuted : forall (u : junk RA) (w : world) k t recs (m m0 : hmodel RA) l g N, recorded w k t recs -> In l (map fst recs) -> set_up (t_bim t) (hq_sp m) ->
  hat_rest m -> hsame_dims t m -> (forall s, fetched t (hq_sp m) s -> hlearnable u s (hq_cf m) recs l) ->
  hclass_named m l = Some g -> h_exit (hc_net g) = last_exit N -> 1 <= N < hp_states (cf_params (hq_cf m) l) ->
  hat_rest m0 -> hsame_dims t m0 -> hq_cf m0 = hq_cf m -> hq_sp m0 = hq_sp m -> hclass_named m0 l = None ->
  exists m' m0' h h0, hq_train_one u w k l (m, false) = ((m', false), Ok tt) /\ hclass_named m' l = Some h /\
    hq_train_one u w k l (m0, false) = ((m0', false), Ok tt) /\ hclass_named m0' l = Some h0 /\ same_hclass h h0 /\
    nth (N - 1) (h_exit (hc_net h)) 0%R = (/ 10)%R /\ nth (N - 1) (h_exit (hc_net h0)) 0%R = 0%R.
Proof.
  intros u w k t recs m m0 l g N H Hl SU AR SD LE CN EX HN AR0 SD0 CF SP CN0.
  destruct (htrain_one u w k t recs m l H Hl SU AR SD LE) as (m' & E & (_ & F & _ & _ & _ & (h & G1 & G2 & G3) & _) & _).
  destruct (htrain_one u w k t recs m0 l H Hl) as (m0' & E0 & (_ & F0 & _ & _ & _ & (h0 & G1' & G2' & G3') & _) & _).
  { rewrite SP. exact SU. } { exact AR0. } { exact SD0. } { rewrite SP, CF. exact LE. }
  exists m', m0', h, h0. repeat (split; [assumption|]). split; [|split].
  - destruct G2 as (_ & h1 & (L1 & _) & S1). destruct G2' as (_ & h2 & (L2 & _) & S2). rewrite CF in L2.
    assert (L2' : hlearned (settings (hq_sp m')) (hq_new_class u (hq_sp m') (hq_cf m) l) (of_class l recs) h2).
    { destruct F as ((P0 & _) & P1 & P2 & P3 & P4), F0 as ((Q0 & _) & Q1 & Q2 & Q3 & Q4). rewrite SP in *. rewrite (hnew_ext u (hq_sp m') (hq_sp m0')) by congruence. replace (settings (hq_sp m')) with (settings (hq_sp m0')) by congruence. exact L2. }
    rewrite <- (hlearned_fun _ _ _ _ _ L1 L2') in S2. exact (hsame_trans _ _ _ S1 (hsame_sym _ _ S2)).
  - rewrite G3. unfold renewed_exit, exits_named. rewrite CN, EX, nth_tab by lia. rewrite (proj2 (Nat.eqb_neq _ _)) by lia. rewrite last_exit_at by lia. rewrite Nat.eqb_refl. reflexivity.
  - rewrite G3'. unfold renewed_exit, exits_named. rewrite CN0, CF, nth_tab by lia. rewrite (proj2 (Nat.eqb_neq _ _)) by lia. destruct (N - 1); reflexivity.
Qed.
Print Assumptions C93_states_refuted.
Example C93_states_refuted_meets : forall (u : junk RA) bim tm mt est, exists (w : world) t (m m0 : hmodel RA) g, recorded w 0 t (ex_grown bim) /\ In "walk"%string (map fst (ex_grown bim)) /\ set_up (t_bim t) (hq_sp m) /\
  hat_rest m /\ hsame_dims t m /\ (forall s, fetched t (hq_sp m) s -> hlearnable u s (hq_cf m) (ex_grown bim) "walk"%string) /\
  hclass_named m "walk"%string = Some g /\ h_exit (hc_net g) = last_exit 2 /\ 1 <= 2 < hp_states (cf_params (hq_cf m) "walk"%string) /\
  hat_rest m0 /\ hsame_dims t m0 /\ hq_cf m0 = hq_cf m /\ hq_sp m0 = hq_sp m /\ hclass_named m0 "walk"%string = None /\
  (exists w' k' m1 m2, hq_train u w' k' m1 = Ok m2 /\ m = ex_reconf (ex_gconf 4 tm true mt est) m2).
Proof.
  intros u bim tm mt est. destruct (ex_gtrained u bim 2 tm mt est ltac:(lia)) as (w1 & t1 & m & R1 & E1 & B1 & D1 & I1 & CF & F & T & A & LB). destruct (ex_grown_recorded bim) as (w & t & R & B & D & I).
  assert (XG : exists g, hclass_named m "walk"%string = Some g).
  { unfold hclass_named. destruct (mget String.eqb (hq_cls m) "walk"%string) eqn:Q; [eexists; reflexivity|]. exfalso. pose proof (proj1 (mget_label (hq_cls m) "walk"%string)) as X. rewrite LB in X. apply X; [cbn; auto|exact Q]. }
  destruct XG as (g & G). destruct (trained_plain u _ m T _ _ G) as (_ & G2). rewrite CF in G2.
  set (m' := ex_reconf (ex_gconf 4 tm true mt est) m).
  exists w, t, m', (mkHM (hq_sp m) (ex_gconf 4 tm true mt est) [] [] [] [] [] [] false (empty_results (A := RA))), g. split; [exact R|]. split; [cbn; auto|]. split; [rewrite B, <- B1; apply F|]. split; [|split; [|split; [|split; [exact G|split; [exact G2|split; [cbn; lia|split; [|split; [|split; [reflexivity|split; [reflexivity|split; [reflexivity|]]]]]]]]]]].
  - destruct A as (_ & A2 & A3 & A4). split; [reflexivity|]. split; [exact A2|]. split; [exact A3|exact A4].
  - pose proof (hfetched_dims t1 _ m F) as Q. intro NE. destruct (Q NE) as (Q1 & Q2). cbn [m' ex_reconf hq_sp]. split; [congruence|]. intro Z. rewrite (Q2 ltac:(congruence)). congruence.
  - intros s Fs. apply (C89_learnable u w 0 t _ m' R); [|exact Fs|cbn; auto]. intros l' Hl'. apply ex_grealistic; [lia|assumption].
  - split; [reflexivity|]. split; [constructor|]. split; [reflexivity|constructor].
  - intro Q. contradiction.
  - exists w1, 0, (ex_gstart bim 2 tm true mt est), m. split; [exact E1|reflexivity].
Qed.

(** When the mode is not hierarchical and the model has been reset, a class cannot be added: [train(set, label)]
    throws, leaves the untrained class in the model and the model marked as training.  After that neither
    [reset] nor another call for that class stays within the bounds of its transitions, if it has two states or
    more. *)
Theorem C93_flat_refuted : forall (u : junk RA) (w : world) k t recs (m : hmodel RA) l, recorded w k t recs -> In l (map fst recs) -> set_up (t_bim t) (hq_sp m) -> hp_hier (cf_def (hq_cf m)) = false ->
  hq_cls m <> [] -> Forall (fun e => hc_hier (snd e) = false) (hq_cls m) -> length (hq_prior m) = length (hq_cls m) -> hsame_dims t m -> hclass_named m l = None -> 2 <= hp_states (cf_params (hq_cf m) l) ->
  exists m', hq_train_one u w k l (m, false) = ((m', true), Throw RuntimeError) /\ (exists h, hclass_named m' l = Some h /\ h_states (hc_net h) = []) /\
    hq_reset m' = UB /\ hq_train_one u w k l (m', true) = ((m', true), UB).
Proof. exact hflat_stuck. Qed.
Print Assumptions C93_flat_refuted.
Example C93_flat_refuted_meets : forall (u : junk RA) bim mt est, exists (w : world) t (m : hmodel RA), recorded w 0 t (ex_grown bim) /\ In "stop"%string (map fst (ex_grown bim)) /\ set_up (t_bim t) (hq_sp m) /\
  hp_hier (cf_def (hq_cf m)) = false /\ hq_cls m <> [] /\ Forall (fun e => hc_hier (snd e) = false) (hq_cls m) /\ length (hq_prior m) = length (hq_cls m) /\ hsame_dims t m /\
  hclass_named m "stop"%string = None /\ 2 <= hp_states (cf_params (hq_cf m) "stop"%string) /\
  (exists w' k' m2, hq_train u w' k' (ex_gstart bim 2 LeftRight false mt est) = Ok m2 /\ hq_reset m2 = Ok m).
Proof.
  intros u bim mt est. destruct (ex_recorded bim) as (w1 & t1 & R1 & B1 & D1 & I1). destruct (ex_grown_recorded bim) as (w & t & R & B & D & I).
  destruct (C89_flat u w1 0 t1 (ex_recs bim) (ex_gstart bim 2 LeftRight false mt est) R1) as (m0 & m1 & m' & HT & ER & _ & ET & ER' & _); [discriminate|rewrite B1; apply ex_gset_up| |reflexivity| | |].
  { apply (C89_learnable u w1 0 t1 _ _ R1). intros l Hl. apply ex_grealistic1; [lia|assumption]. }
  { intros l H. assert (L : l = "walk"%string \/ l = "run"%string) by (cbn in H; intuition congruence). destruct L as [-> | ->]; reflexivity. }
  { intros _ l H. assert (L : l = "walk"%string \/ l = "run"%string) by (cbn in H; intuition congruence). destruct L as [-> | ->]; reflexivity. }
  destruct HT as (C1 & F & _ & SO & LB & _ & (TP & _) & _). destruct (hreset_kept _ _ ER) as (K1 & K2 & K3).
  assert (LL : map fst (hq_cls m1) = ["run"%string; "walk"%string]).
  { rewrite K3. apply sorted_same; [exact SO|repeat constructor|]. intro l'. rewrite LB. cbn. intuition. }
  assert (LN : length (hq_cls m1) = length (hq_cls m0)) by (rewrite <- (map_length fst), K3; apply map_length).
  unfold hq_reset in ER. inv_bind ER. injection ER as <-. set (m1 := hq_put (hq_sp m0) a m0) in *.
  exists w, t, m1. split; [exact R|]. split; [cbn; auto|]. split; [rewrite B, <- B1; apply F|]. split; [cbn [m1 hq_put hq_cf]; rewrite C1; reflexivity|]. split; [intro Q; rewrite Q in LL; discriminate|].
  split; [|split; [|split; [|split; [|split]]]].
  - pose proof (reset_flags _ _ E) as Q. change (hh_hier (hq_view m0)) with (hp_hier (cf_def (hq_cf m0))) in Q. rewrite C1 in Q. exact Q.
  - rewrite LN. unfold hh_reset in E. inv_bind E. inv_bind E. pairs. inv_bind E. injection E as <-. cbn [m1 hq_put hq_prior hh_set_res hh_set_front hh_set_cls hh_prior hq_view]. change (num RA) with Rdefinitions.R in *. rewrite TP. apply repeat_length.
  - pose proof (hfetched_dims t1 _ m0 F) as Q. intro NE. destruct Q as (Q1 & Q2); [intro Z; rewrite Z in LN; destruct (hq_cls m1); [contradiction|discriminate]|]. cbn [m1 hq_put hq_sp]. split; [congruence|]. intro Z. rewrite (Q2 ltac:(congruence)). congruence.
  - destruct (hclass_named m1 "stop") eqn:Q; [|reflexivity]. exfalso. assert (X : In "stop"%string (map fst (hq_cls m1))) by (apply mget_label; unfold hclass_named in Q; congruence). rewrite LL in X. cbn in X. intuition congruence.
  - cbn [m1 hq_put hq_cf]. rewrite C1. cbn. lia.
  - exists w1, 0, m'. split; [exact ET|exact ER'].
Qed.

(** In the Sequential mode a model that has been reset is not ready any more once a class is added: the next
    observation writes past the end of the result vectors, until the model is reset again. *)
Theorem C93_sequential_refuted : forall (u : junk RA) (w1 w2 : world) k1 k2 t1 t2 recs1 recs2 (m : hmodel RA) l, recorded w1 k1 t1 recs1 -> recorded w2 k2 t2 recs2 -> recs1 <> [] ->
  set_up (t_bim t1) (hq_sp m) -> t_bim t1 = t_bim t2 -> t_dim t1 = t_dim t2 -> t_din t1 = t_din t2 -> hp_hier (cf_def (hq_cf m)) = true ->
  hall_learnable u t1 m recs1 -> In l (map fst recs2) -> (forall s, fetched t2 (hq_sp m) s -> hlearnable u s (hq_cf m) recs2 l) -> ~ In l (map fst recs1) ->
  (est_of (cf_est (hq_cf m)) = Mixture -> forall l', l' = l \/ In l' (map fst recs1) -> hp_mode (cf_params (hq_cf m) l') = hp_mode (cf_def (hq_cf m))) ->
  cf_mt (hq_cf m) = 0%Z ->
  exists m1 m1r m2, hq_train u w1 k1 m = Ok m1 /\ hq_reset m1 = Ok m1r /\ hq_train_one u w2 k2 l (m1r, false) = ((m2, false), Ok tt) /\
    forall x, length x = input_dim (hq_sp m2) -> hq_filter (A := RA) x m2 = UB.
Proof. exact hgrown_unready. Qed.
Print Assumptions C93_sequential_refuted.
Example C93_sequential_refuted_meets : forall (u : junk RA) bim n est, 1 <= n <= 4 -> exists (w1 w2 : world) t1 t2, let m := ex_gstart bim n LeftRight true 0 est in
  recorded w1 0 t1 (ex_recs bim) /\ recorded w2 0 t2 (ex_grown bim) /\ ex_recs bim <> [] /\
  set_up (t_bim t1) (hq_sp m) /\ t_bim t1 = t_bim t2 /\ t_dim t1 = t_dim t2 /\ t_din t1 = t_din t2 /\ hp_hier (cf_def (hq_cf m)) = true /\
  hall_learnable u t1 m (ex_recs bim) /\ In "stop"%string (map fst (ex_grown bim)) /\ (forall s, fetched t2 (hq_sp m) s -> hlearnable u s (hq_cf m) (ex_grown bim) "stop"%string) /\ ~ In "stop"%string (map fst (ex_recs bim)) /\
  (est_of (cf_est (hq_cf m)) = Mixture -> forall l', l' = "stop"%string \/ In l' (map fst (ex_recs bim)) -> hp_mode (cf_params (hq_cf m) l') = hp_mode (cf_def (hq_cf m))) /\ cf_mt (hq_cf m) = 0%Z.
Proof.
  intros u bim n est Hn. destruct (C93_later_meets u bim n 0 est Hn) as (w1 & w2 & t1 & t2 & R1 & R2 & NE & SU & B & D & I & HH & L1 & L2 & _ & IN & _ & NI).
  exists w1, w2, t1, t2. cbv zeta. repeat (split; [assumption|]). split; [intros s Fs; apply L2; assumption|]. split; [exact NI|]. split; [|reflexivity].
  intros _ l H. assert (L : l = "walk"%string \/ l = "run"%string \/ l = "stop"%string) by (cbn in H; intuition congruence). destruct L as [-> | [-> | ->]]; reflexivity.
Qed.
