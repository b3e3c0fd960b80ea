(** C89, C90: recordings, training and recognition with hidden Markov models, end to end. *)
From Coq Require Import String List Bool Arith Lia ZArith Reals Lra Sorting.Sorted.
From Verif Require Import Base BaseFacts Arith RFacts Model_Map Model_Ring Model_Phrase Model_TrainingSet Model_Gaussian Model_Config Model_KMeans Model_GMM Model_HMM Model_HHMM
  Model_Shared Model_Train Model_Reload Model_Workflow Model_Workflow2 Spec_Common Spec_Phrase Spec_TrainingSet Spec_Train Spec_Shared Spec_Matrix Spec_Gaussian Spec_GMM
  Spec_HMM Spec_HMMInit Spec_EM2 Spec_HHMM Spec_HHMM3 Spec_Workflow Spec_Workflow2
  Proofs_Workflow3 Proofs_Workflow4 Proofs_Workflow6 Proofs_Workflow8 Proofs_Workflow9 Proofs_Workflow10 Proofs_Workflow11 Props_Workflow.
Import ListNotations.
Local Open Scope list_scope.
Local Open Scope nat_scope.

Local Notation world := (world RA).

(** ** The examples: two classes, in both modalities *)
(** A class with its own parameters has two states, the others have one. *)
Definition ex_hp (n : nat) (tm : tmode) (hier : bool) : hmmP RA := mkHmmP (A := RA) n 1 (/ 100)%R (/ 1000)%R Full tm RFull hier.
Definition ex_hconf (tm : tmode) (hier : bool) (mt est : Z) : config (hmmP RA) :=
  mkConfig (ex_hp 1 tm hier) mt est [("walk"%string, ex_hp 2 LeftRight hier)].
Definition ex_hstart (bim : bool) (tm : tmode) (hier : bool) (mt est : Z) : hmodel RA :=
  mkHM (ex_shared bim) (ex_hconf tm hier mt est) [] [] [] [] [] [] false (empty_results (A := RA)).

Lemma ex_hset_up : forall bim tm hier mt est, set_up bim (hq_sp (ex_hstart bim tm hier mt est)).
Proof. intros [] tm hier mt est; unfold set_up, modal_ok; cbn; repeat split; lia. Qed.
Lemma ex_realistic : forall bim tm hier mt est l, In l (map fst (ex_recs bim)) -> hrealistic (hq_cf (ex_hstart bim tm hier mt est)) (ex_recs bim) l.
Proof.
  intros bim tm hier mt est l H. assert (L : l = "walk"%string \/ l = "run"%string) by (cbn in H; intuition congruence).
  assert (LE : forall n, n <= 10 -> (INR n <= 10 ^ 90)%R).
  { intros n Hn. apply Rle_trans with (10 ^ 1)%R; [|apply Rle_pow; [lra|lia]]. rewrite pow_1. replace 10%R with (INR 10) by (cbn; ring). apply le_INR, Hn. }
  assert (EP : (eps9 <= / 1000)%R) by (unfold eps9; apply Rinv_le_contravar; lra).
  unfold hrealistic. cbv zeta. destruct L as [-> | ->].
  - change (cf_params (hq_cf (ex_hstart bim tm hier mt est)) "walk") with (ex_hp 2 LeftRight hier). change (of_class "walk" (ex_recs bim)) with [map (ex_frame bim) [1; 2; 4; 8]%R; map (ex_frame bim) [0; 7; 9]%R].
    cbn [ex_hp hp_states hp_gauss hp_mode hp_abs hp_trans]. split; [lia|]. split; [lia|]. split; [repeat constructor; discriminate|]. split; [eexists; split; [left; reflexivity|cbn; lia]|]. split; [exact EP|].
    split; [apply LE; cbn; lia|left; reflexivity].
  - change (cf_params (hq_cf (ex_hstart bim tm hier mt est)) "run") with (ex_hp 1 tm hier). change (of_class "run" (ex_recs bim)) with [map (ex_frame bim) [3; 5]%R].
    cbn [ex_hp hp_states hp_gauss hp_mode hp_abs hp_trans]. split; [lia|]. split; [lia|]. split; [repeat constructor; discriminate|]. split; [eexists; split; [left; reflexivity|cbn; lia]|]. split; [exact EP|].
    split; [apply LE; cbn; lia|right]. split; [reflexivity|]. eexists. split; [left; reflexivity|cbn; lia].
Qed.
Lemma ex_hone_mode : forall bim tm hier mt est, hone_mode (hq_cf (ex_hstart bim tm hier mt est)) (ex_recs bim).
Proof. intros bim tm hier mt est l H. assert (L : l = "walk"%string \/ l = "run"%string) by (cbn in H; intuition congruence). destruct L as [-> | ->]; reflexivity. Qed.
Lemma ex_lr : forall bim hier mt est, hall_left_right (hq_cf (ex_hstart bim LeftRight hier mt est)) (ex_recs bim).
Proof. intros bim hier mt est l H. assert (L : l = "walk"%string \/ l = "run"%string) by (cbn in H; intuition congruence). destruct L as [-> | ->]; reflexivity. Qed.

(** ** C89 *)

(** Left-right classes can be learned, and so can Ergodic classes with one state. *)
Theorem C89_learnable : forall (u : junk RA) (w : world) k t recs (m : hmodel RA), recorded w k t recs -> (forall l, In l (map fst recs) -> hrealistic (hq_cf m) recs l) -> hall_learnable u t m recs.
Proof. exact realistic_learnable. Qed.
Print Assumptions C89_learnable.
Example C89_learnable_meets : forall bim tm hier mt est, exists (w : world) t, recorded w 0 t (ex_recs bim) /\ t_bim t = bim /\
  (forall l, In l (map fst (ex_recs bim)) -> hrealistic (hq_cf (ex_hstart bim tm hier mt est)) (ex_recs bim) l).
Proof. intros. destruct (ex_recorded bim) as (w & t & Q & B & _). exists w, t. split; [exact Q|]. split; [exact B|apply ex_realistic]. Qed.

(** Training gives one class for each label, in order: what the learning algorithm makes of the recordings
    with that label and of the parameters of that class, whatever the model was before.  The class level has
    even priors and transitions.  In the modes with threads the trained model is then reset. *)
Theorem C89_training : forall (u : junk RA) (w : world) k t recs (m : hmodel RA), recorded w k t recs -> recs <> [] -> set_up (t_bim t) (hq_sp m) -> hall_learnable u t m recs ->
  exists m0, htrained u t recs m m0 /\ hq_train u w k m = (if (cf_mt (hq_cf m) =? 0)%Z then Ok m0 else hq_reset m0).
Proof. intros u w k t recs m H NE SU LE. destruct (htrain u w k t recs m H NE SU LE) as (s & hs & r & HT & _ & _ & E). eexists. split; [exact HT|exact E]. Qed.
Print Assumptions C89_training.
Example C89_training_meets : forall (u : junk RA) bim tm hier mt est, exists (w : world) t, let recs := ex_recs bim in let m := ex_hstart bim tm hier mt est in
  recorded w 0 t recs /\ recs <> [] /\ set_up (t_bim t) (hq_sp m) /\ hall_learnable u t m recs.
Proof.
  intros u bim tm hier mt est. destruct (C89_learnable_meets bim tm hier mt est) as (w & t & Q & B & L). exists w, t. cbv zeta. split; [exact Q|]. split; [discriminate|].
  split; [rewrite B; apply ex_hset_up|]. apply (C89_learnable u w 0 t _ _ Q L).
Qed.

(** The number of Baum-Welch updates: the maximum if it is set, otherwise at least the minimum, and never
    more than 1000. *)
Theorem C89_updates : forall p h0 data h, hlearned p h0 data h ->
  exists h2 h3 n, started_from p h0 data h2 /\ hm_updates (A := RA) n data h2 = Ok h3 /\ hm_terminate (A := RA) h3 = Ok h /\ 1 <= n <= 1000 /\
    (1 <= em_min p <= em_max p -> n = Nat.min (em_max p) 1000) /\ (em_max p < em_min p -> Nat.min (em_min p) 1000 <= n).
Proof.
  intros p h0 data h (h2 & h3 & n & E1 & E2 & S & E3). exists h2, h3, n. split; [exact E1|]. split; [exact E2|]. split; [exact E3|]. apply (hrounds_at_most p data h2 n S).
Qed.
Print Assumptions C89_updates.
Example C89_updates_meets : forall (u : junk RA) bim tm hier mt est, exists p h0 data h, hlearned p h0 data h /\ data = of_class "walk" (ex_recs bim) /\ hc_n h0 = 2 /\ h0 = hq_new_class u (ex_shared bim) (ex_hconf tm hier mt est) "walk".
Proof.
  intros u bim tm hier mt est. destruct (ex_recorded bim) as (w & t & Q & B & D & I).
  assert (FE : fetched t (ex_shared bim) (ex_shared bim)).
  { unfold fetched. rewrite B, D, I. split; [apply (ex_hset_up bim tm hier mt est)|]. destruct bim; repeat split; reflexivity. }
  pose proof FE as (SU & FD & FI & _).
  destruct (hq_train_class_ok u w 0 t (ex_recs bim) (ex_shared bim) (ex_hconf tm hier mt est) "walk" Q SU FD FI) as (h & _ & L & _).
  - left. reflexivity.
  - apply (C89_learnable u w 0 t _ (ex_hstart bim tm hier mt est) Q (ex_realistic bim tm hier mt est) (ex_shared bim) FE). left. reflexivity.
  - eexists _, _, _, h. split; [exact L|]. split; [reflexivity|]. split; reflexivity.
Qed.

(** The class of a label depends on the recordings with that label, on the dimensions and on the parameters;
    not on the other classes, on the order in which the recordings of several classes were made, or on what
    either model had learned before. *)
Theorem C89_classes_independent : forall (u : junk RA) (w1 w2 : world) k1 k2 t1 t2 recs1 recs2 (m1 m2 n1 n2 : hmodel RA) l,
  recorded w1 k1 t1 recs1 -> recorded w2 k2 t2 recs2 -> set_up (t_bim t1) (hq_sp m1) -> set_up (t_bim t2) (hq_sp m2) ->
  hall_learnable u t1 m1 recs1 -> hall_learnable u t2 m2 recs2 ->
  hq_train u w1 k1 m1 = Ok n1 -> hq_train u w2 k2 m2 = Ok n2 ->
  hq_cf m1 = hq_cf m2 -> settings (hq_sp m1) = settings (hq_sp m2) -> sp_win (hq_sp m1) = sp_win (hq_sp m2) ->
  t_bim t1 = t_bim t2 -> t_dim t1 = t_dim t2 -> t_din t1 = t_din t2 ->
  In l (map fst recs1) -> of_class l recs1 = of_class l recs2 ->
  exists h, In (l, h) (hq_cls n1) /\ In (l, h) (hq_cls n2) /\ (forall h', In (l, h') (hq_cls n1) \/ In (l, h') (hq_cls n2) -> h' = h).
Proof.
  intros u w1 w2 k1 k2 t1 t2 recs1 recs2 m1 m2 n1 n2 l R1 R2 SU1 SU2 LE1 LE2 E1 E2 CF ST WN TB TD TI Hl OC.
  assert (Hl2 : In l (map fst recs2)) by (apply class_empty; rewrite <- OC; apply class_empty, Hl).
  assert (NE1 : recs1 <> []) by (intros ->; destruct Hl). assert (NE2 : recs2 <> []) by (intros ->; destruct Hl2).
  destruct (htrain u w1 k1 t1 recs1 m1 R1 NE1 SU1 LE1) as (s1 & hs1 & r1 & (_ & (U1 & D1 & I1 & S1 & W1) & _ & _ & LB1 & CM1 & _) & ND1 & _ & Q1). rewrite E1 in Q1.
  destruct (htrain u w2 k2 t2 recs2 m2 R2 NE2 SU2 LE2) as (s2 & hs2 & r2 & (_ & (U2 & D2 & I2 & S2 & W2) & _ & _ & LB2 & CM2 & _) & ND2 & _ & Q2). rewrite E2 in Q2.
  cbn [unreset hq_sp hq_cls] in *.
  assert (X1 : exists g, In (l, g) hs1). { apply LB1 in Hl. apply in_map_iff in Hl. destruct Hl as ([l' g] & EQ & Hg). cbn in EQ. subst l'. exists g. exact Hg. }
  assert (X2 : exists g, In (l, g) hs2). { apply LB2 in Hl2. apply in_map_iff in Hl2. destruct Hl2 as ([l' g] & EQ & Hg). cbn in EQ. subst l'. exists g. exact Hg. }
  rewrite Forall_forall in CM1, CM2.
  assert (NC : hq_new_class u s1 (hq_cf m1) l = hq_new_class u s2 (hq_cf m2) l).
  { unfold hq_new_class. rewrite (proj1 U1), (proj1 U2), D1, D2, I1, I2, W1, W2, WN, TB, TD, TI, CF. reflexivity. }
  assert (SAME : forall g g', In (l, g) hs1 -> In (l, g') hs2 -> g = g').
  { intros g g' Hg Hg'. destruct (CM1 _ Hg) as (L1 & _). destruct (CM2 _ Hg') as (L2 & _). cbn [fst snd] in L1, L2. rewrite S1, ST, NC, OC in L1. rewrite S2 in L2. apply (hlearned_fun _ _ _ _ _ L1 L2). }
  destruct X1 as (g1 & H1). destruct X2 as (g2 & H2). pose proof (SAME _ _ H1 H2) as <-.
  assert (Y1 : forall g, In (l, g) hs1 -> g = g1) by (intros g Hg; apply (SAME _ _ Hg H2)).
  assert (Y2 : forall g, In (l, g) hs2 -> g = g1) by (intros g Hg; symmetry; apply (SAME _ _ H1 Hg)).
  rewrite <- CF in Q2. destruct (cf_mt (hq_cf m1) =? 0)%Z.
  - injection Q1 as ->. injection Q2 as ->. exists g1. split; [exact H1|]. split; [exact H2|]. intros g' [C|C]; auto.
  - symmetry in Q1, Q2. destruct (reset_class_at l g1 _ n1 Q1 H1 Y1) as (f & F1 & F2). destruct (reset_class_at l g1 _ n2 Q2 H2 Y2) as (f' & F1' & F2').
    change (hq_cf (unreset s1 m1 hs1 r1)) with (hq_cf m1) in *. change (hq_cf (unreset s2 m2 hs2 r2)) with (hq_cf m2) in *. rewrite <- CF in F2'.
    rewrite F2 in F2'. injection F2' as <-. exists f. split; [apply F1; reflexivity|]. split; [apply F1'; reflexivity|]. intros h' [C|C]; [apply F1 in C|apply F1' in C]; exact C.
Qed.
Print Assumptions C89_classes_independent.
(** The second user records another class as well, in another order, and trains a model twice. *)
Lemma ex_more_realistic : forall bim tm hier mt est l, In l (map fst (ex_more bim)) -> hrealistic (ex_hconf tm hier mt est) (ex_more bim) l.
Proof.
  intros bim tm hier mt est l H. assert (L : l = "walk"%string \/ l = "stop"%string) by (cbn in H; intuition congruence). destruct L as [-> | ->].
  - exact (ex_realistic bim tm hier mt est "walk" (or_introl eq_refl)).
  - pose proof (ex_realistic bim tm hier mt est "run" (or_intror (or_introl eq_refl))) as Q. unfold hrealistic in *. cbv zeta in *.
    change (cf_params (ex_hconf tm hier mt est) "stop") with (ex_hp 1 tm hier). change (cf_params (hq_cf (ex_hstart bim tm hier mt est)) "run") with (ex_hp 1 tm hier) in Q.
    change (of_class "stop" (ex_more bim)) with [map (ex_frame bim) [6; 6]%R]. change (of_class "run" (ex_recs bim)) with [map (ex_frame bim) [3; 5]%R] in Q.
    destruct Q as (Q1 & Q2 & _ & _ & Q5 & Q6 & _). split; [exact Q1|]. split; [exact Q2|]. split; [repeat constructor; discriminate|]. split; [eexists; split; [left; reflexivity|cbn; lia]|]. split; [exact Q5|]. split; [exact Q6|].
    right. split; [reflexivity|]. eexists. split; [left; reflexivity|cbn; lia].
Qed.
Example C89_classes_independent_meets : forall (u : junk RA) bim hier mt est, exists (w1 w2 : world) k1 k2 t1 t2 (m1 m2 n1 n2 : hmodel RA),
  recorded w1 k1 t1 (ex_recs bim) /\ recorded w2 k2 t2 (ex_more bim) /\ set_up (t_bim t1) (hq_sp m1) /\ set_up (t_bim t2) (hq_sp m2) /\
  hall_learnable u t1 m1 (ex_recs bim) /\ hall_learnable u t2 m2 (ex_more bim) /\
  hq_train u w1 k1 m1 = Ok n1 /\ hq_train u w2 k2 m2 = Ok n2 /\
  hq_cf m1 = hq_cf m2 /\ settings (hq_sp m1) = settings (hq_sp m2) /\ sp_win (hq_sp m1) = sp_win (hq_sp m2) /\
  t_bim t1 = t_bim t2 /\ t_dim t1 = t_dim t2 /\ t_din t1 = t_din t2 /\
  In "walk"%string (map fst (ex_recs bim)) /\ of_class "walk" (ex_recs bim) = of_class "walk" (ex_more bim) /\ hq_cf m1 = ex_hconf LeftRight hier mt est /\ hq_cls m1 = [] /\ hq_cls m2 <> [].
Proof.
  intros u bim hier mt est. destruct (ex_recorded bim) as (w1 & t1 & R1 & B1 & D1 & I1).
  destruct (C87_recording bim _ _ (ex_more bim) (ex_set_dims bim)) as (w2 & t2 & _ & _ & _ & R2 & B2 & D2 & I2).
  { destruct bim; unfold ex_more, ex_frame, ex_dim; cbn; repeat constructor. }
  set (m := ex_hstart bim LeftRight hier mt est).
  assert (LE : hall_learnable u t1 m (ex_recs bim)) by (apply (C89_learnable u w1 0 t1 _ _ R1), ex_realistic).
  destruct (hready u w1 0 t1 (ex_recs bim) m R1 ltac:(discriminate) ltac:(rewrite B1; apply ex_hset_up) LE) as (n1 & E1 & CF1 & FE1 & NE1).
  { intros _. apply ex_hone_mode. } { left. apply ex_lr. }
  pose proof FE1 as (U1 & _ & _ & S1 & W1).
  assert (LE2 : hall_learnable u t2 n1 (ex_more bim)) by (apply (C89_learnable u w2 0 t2 _ _ R2); rewrite CF1; apply ex_more_realistic).
  destruct (hready u w2 0 t2 (ex_more bim) n1 R2 ltac:(discriminate) ltac:(rewrite B2, <- B1; exact U1) LE2) as (n2 & E2 & _).
  { intros _. rewrite CF1. intros l H. assert (L : l = "walk"%string \/ l = "stop"%string) by (cbn in H; intuition congruence). destruct L as [-> | ->]; reflexivity. }
  { left. rewrite CF1. intros l H. assert (L : l = "walk"%string \/ l = "stop"%string) by (cbn in H; intuition congruence). destruct L as [-> | ->]; reflexivity. }
  exists w1, w2, 0, 0, t1, t2, m, n1, n1, n2. split; [exact R1|]. split; [exact R2|]. split; [rewrite B1; apply ex_hset_up|]. split; [rewrite B2, <- B1; exact U1|].
  split; [exact LE|]. split; [exact LE2|]. split; [exact E1|]. split; [exact E2|]. split; [symmetry; exact CF1|]. split; [symmetry; exact S1|]. split; [symmetry; exact W1|].
  split; [congruence|]. split; [congruence|]. split; [congruence|]. split; [left; reflexivity|]. split; [destruct bim; reflexivity|]. split; [reflexivity|]. split; [reflexivity|exact NE1].
Qed.

(** The trained model recognises, in the hierarchical mode: after [reset] every sequence of observations is
    filtered, the reports are those of the one hidden Markov model that the classes make together, the
    likelihoods are distributions over the classes, and the likeliest label is one of the labels that were
    recorded.  An Ergodic class adds its first likelihood to a value that is not initialised; the theorem is
    for values that are not negative. With outputs that are mixed over the classes, the classes must have one
    covariance mode. *)
Theorem C89_recognition : forall (u : junk RA) (w : world) k t recs (m : hmodel RA), recorded w k t recs -> recs <> [] -> set_up (t_bim t) (hq_sp m) -> hall_learnable u t m recs ->
  (est_of (cf_est (hq_cf m)) = Mixture -> hone_mode (hq_cf m) recs) -> hp_hier (cf_def (hq_cf m)) = true -> hall_left_right (hq_cf m) recs \/ (0 <= jk_num u)%R ->
  exists m0 m1 m', htrained u t recs m m0 /\ hq_reset m0 = Ok m1 /\ hq_train u w k m = Ok m' /\ hq_reset m' = Ok m1 /\
    forall xs x, Forall (fun x => length x = input_dim (hq_sp m')) (xs ++ [x]) ->
    exists m2, hq_filters (xs ++ [x]) m1 = Ok m2 /\ hq_sp m2 = hq_sp m' /\ hq_cf m2 = hq_cf m' /\ map fst (hq_cls m2) = map fst (hq_cls m') /\
      hq_report u (hq_view m0) xs x m2 /\
      let n := length (hq_cls m') in let r := hq_res m2 in
      distribution n (fun i => nth i (rs_instn r) 0%R) /\ distribution n (fun i => nth i (rs_smn r) 0%R) /\ In (rs_likeliest r) (map fst recs).
Proof.
  intros u w k t recs m H NE SU LE OM HH LR. destruct (htrain u w k t recs m H NE SU LE) as (s & hs & r & HT & ND & NH & E).
  pose proof HT as (_ & (SU' & _) & _ & _ & LB & CM & _). cbn [unreset hq_sp hq_cls] in SU', LB, CM.
  assert (LB' : forall l, In l (map fst hs) -> In l (map fst recs)) by (intros l; apply LB).
  assert (LR' : (forall l, In l (map fst hs) -> hp_trans (cf_params (hq_cf m) l) = LeftRight) \/ (0 <= jk_num u)%R) by (destruct LR as [LR|LR]; [left; auto|right; exact LR]).
  pose proof (hrecognise u s m recs hs r _ SU' NH ND CM LB' OM HH LR') as REC.
  assert (XM1 : exists m1, hq_reset (unreset s m hs r) = Ok m1 /\ hq_sp m1 = s /\ hq_cf m1 = hq_cf m /\ map fst (hq_cls m1) = map fst hs).
  { destruct (REC [] (repeat 0%R (input_dim s))) as (m1 & m2 & E1 & E2 & Q1 & Q2 & Q3 & _); [constructor; [apply repeat_length|constructor]|]. exists m1. split; [exact E1|].
    apply (hreset_kept _ _ E1). }
  destruct XM1 as (m1 & E1 & Q1 & Q2 & Q3).
  exists (unreset s m hs r), m1, (if (cf_mt (hq_cf m) =? 0)%Z then unreset s m hs r else m1). split; [exact HT|]. split; [exact E1|].
  split; [rewrite E; destruct (cf_mt _ =? 0)%Z; [reflexivity|exact E1]|]. split; [destruct (cf_mt _ =? 0)%Z; [exact E1|apply (hq_reset_idem _ _ E1)]|].
  assert (KS : hq_sp (if (cf_mt (hq_cf m) =? 0)%Z then unreset s m hs r else m1) = s) by (destruct (cf_mt _ =? 0)%Z; [reflexivity|exact Q1]).
  assert (KC : hq_cf (if (cf_mt (hq_cf m) =? 0)%Z then unreset s m hs r else m1) = hq_cf m) by (destruct (cf_mt _ =? 0)%Z; [reflexivity|exact Q2]).
  assert (KL : map fst (hq_cls (if (cf_mt (hq_cf m) =? 0)%Z then unreset s m hs r else m1)) = map fst hs) by (destruct (cf_mt _ =? 0)%Z; [reflexivity|exact Q3]).
  set (m' := if (cf_mt (hq_cf m) =? 0)%Z then unreset s m hs r else m1) in *. rewrite KS. intros xs x F. destruct (REC xs x F) as (m1' & m2 & E1' & E2 & P1 & P2 & P3 & RP). rewrite E1 in E1'. injection E1' as <-.
  exists m2. split; [exact E2|]. split; [exact P1|]. split; [congruence|]. split; [congruence|]. split; [exact RP|]. cbv zeta.
  assert (LN : length (hq_cls m') = hh_size (hq_view (unreset s m hs r))) by (rewrite <- (map_length fst (hq_cls m')), KL; apply map_length). rewrite LN.
  destruct RP as (left & LF & _ & TR & _).
  destruct (hreport_dist _ left (xs ++ [x]) _ _ _ (proj1 (made_resettable u s m recs hs r _ SU' NH ND CM LB' OM HH)) ltac:(intros c Hc; unfold left_over; rewrite (LF c Hc);
    pose proof (made_left u s m recs hs r CM LR' c Hc) as Q; unfold left_over in Q; rewrite (made_inst u s m recs hs r CM c Hc) in Q; exact Q) ltac:(destruct xs; discriminate) TR) as (T1 & T2 & T3).
  split; [exact T1|]. split; [exact T2|]. apply LB, T3.
Qed.
Print Assumptions C89_recognition.
Example C89_recognition_meets : forall (u : junk RA) bim tm mt est, (tm = LeftRight \/ (0 <= jk_num u)%R) -> exists (w : world) t, let recs := ex_recs bim in let m := ex_hstart bim tm true mt est in
  recorded w 0 t recs /\ recs <> [] /\ set_up (t_bim t) (hq_sp m) /\ hall_learnable u t m recs /\
  (est_of (cf_est (hq_cf m)) = Mixture -> hone_mode (hq_cf m) recs) /\ hp_hier (cf_def (hq_cf m)) = true /\ (hall_left_right (hq_cf m) recs \/ (0 <= jk_num u)%R).
Proof.
  intros u bim tm mt est HU. destruct (C89_training_meets u bim tm true mt est) as (w & t & Q1 & Q2 & Q3 & Q4). exists w, t. cbv zeta. repeat (split; [assumption|]).
  split; [intros _; apply ex_hone_mode|]. split; [reflexivity|]. destruct HU as [->|HU]; [left; apply ex_lr|right; exact HU].
Qed.

(** In the other mode the trained model recognises if all its classes are left-right ones: [reset] adds a
    transition from the last state of each class to its first one, and each class is then filtered on its
    own. The smoothing counts every likelihood twice (C76). *)
Theorem C89_flat : forall (u : junk RA) (w : world) k t recs (m : hmodel RA), recorded w k t recs -> recs <> [] -> set_up (t_bim t) (hq_sp m) -> hall_learnable u t m recs ->
  hp_hier (cf_def (hq_cf m)) = false -> hall_left_right (hq_cf m) recs ->
  (est_of (cf_est (hq_cf m)) = Mixture -> hone_mode (hq_cf m) recs) ->
  exists m0 m1 m', htrained u t recs m m0 /\ hq_reset m0 = Ok m1 /\ hn_reset_spec (hq_view m0) (hq_view m1) /\ hq_train u w k m = Ok m' /\ hq_reset m' = Ok m1 /\
    forall xs x, Forall (fun x => length x = input_dim (hq_sp m')) (xs ++ [x]) ->
    exists m2, hq_filters (xs ++ [x]) m1 = Ok m2 /\ hq_sp m2 = hq_sp m' /\ hq_cf m2 = hq_cf m' /\ map fst (hq_cls m2) = map fst (hq_cls m') /\
      hn_report (hq_view m1) twice (xs ++ [x]) x (hq_view m2) /\ In (rs_likeliest (hq_res m2)) (map fst recs).
Proof.
  intros u w k t recs m H NE SU LE HH LR OM. destruct (htrain u w k t recs m H NE SU LE) as (s & hs & r & HT & ND & NH & E).
  pose proof HT as (_ & (SU' & _) & _ & _ & LB & CM & _). cbn [unreset hq_sp hq_cls] in SU', LB, CM.
  assert (LB' : forall l, In l (map fst hs) -> In l (map fst recs)) by (intros l; apply LB).
  assert (LR' : forall l, In l (map fst hs) -> hp_trans (cf_params (hq_cf m) l) = LeftRight) by auto.
  pose proof (hrecognise_flat u s m recs hs r _ SU' NH ND CM LB' OM HH LR') as REC.
  assert (XM1 : exists m1, hq_reset (unreset s m hs r) = Ok m1 /\ hn_reset_spec (hq_view (unreset s m hs r)) (hq_view m1) /\ hq_sp m1 = s /\ hq_cf m1 = hq_cf m /\ map fst (hq_cls m1) = map fst hs).
  { destruct (REC [] (repeat 0%R (input_dim s))) as (m1 & m2 & E1 & E1' & _); [constructor; [apply repeat_length|constructor]|]. exists m1. split; [exact E1|]. split; [exact E1'|].
    apply (hreset_kept _ _ E1). }
  destruct XM1 as (m1 & E1 & SP & Q1 & Q2 & Q3).
  exists (unreset s m hs r), m1, (if (cf_mt (hq_cf m) =? 0)%Z then unreset s m hs r else m1). split; [exact HT|]. split; [exact E1|]. split; [exact SP|].
  split; [rewrite E; destruct (cf_mt _ =? 0)%Z; [reflexivity|exact E1]|]. split; [destruct (cf_mt _ =? 0)%Z; [exact E1|apply (hq_reset_idem _ _ E1)]|].
  assert (KS : hq_sp (if (cf_mt (hq_cf m) =? 0)%Z then unreset s m hs r else m1) = s) by (destruct (cf_mt _ =? 0)%Z; [reflexivity|exact Q1]).
  assert (KC : hq_cf (if (cf_mt (hq_cf m) =? 0)%Z then unreset s m hs r else m1) = hq_cf m) by (destruct (cf_mt _ =? 0)%Z; [reflexivity|exact Q2]).
  assert (KL : map fst (hq_cls (if (cf_mt (hq_cf m) =? 0)%Z then unreset s m hs r else m1)) = map fst hs) by (destruct (cf_mt _ =? 0)%Z; [reflexivity|exact Q3]).
  set (m' := if (cf_mt (hq_cf m) =? 0)%Z then unreset s m hs r else m1) in *. rewrite KS. intros xs x F. destruct (REC xs x F) as (m1' & m2 & E1' & _ & E2 & P1 & P2 & P3 & RP). rewrite E1 in E1'. injection E1' as <-.
  exists m2. split; [exact E2|]. split; [exact P1|]. split; [congruence|]. split; [congruence|]. split; [exact RP|].
  destruct RP as (_ & b & (Hb & _) & LK & _). change (hh_res (hq_view m2)) with (hq_res m2) in LK. rewrite LK. apply LB. rewrite <- Q3. unfold hlabel. apply in_map, nth_In, Hb.
Qed.
Print Assumptions C89_flat.
Example C89_flat_meets : forall (u : junk RA) bim mt est, exists (w : world) t, let recs := ex_recs bim in let m := ex_hstart bim LeftRight false mt est in
  recorded w 0 t recs /\ recs <> [] /\ set_up (t_bim t) (hq_sp m) /\ hall_learnable u t m recs /\
  hp_hier (cf_def (hq_cf m)) = false /\ hall_left_right (hq_cf m) recs /\ (est_of (cf_est (hq_cf m)) = Mixture -> hone_mode (hq_cf m) recs).
Proof.
  intros u bim mt est. destruct (C89_training_meets u bim LeftRight false mt est) as (w & t & Q1 & Q2 & Q3 & Q4). exists w, t. cbv zeta. repeat (split; [assumption|]).
  split; [reflexivity|]. split; [apply ex_lr|]. intros _; apply ex_hone_mode.
Qed.

(** ** C90 *)

(** In the modes with threads the trained model has been reset: it filters without a call of [reset]. *)
Theorem C90_threads : forall (u : junk RA) (w : world) k t recs (m : hmodel RA), recorded w k t recs -> recs <> [] -> set_up (t_bim t) (hq_sp m) -> hall_learnable u t m recs ->
  (est_of (cf_est (hq_cf m)) = Mixture -> hone_mode (hq_cf m) recs) ->
  hall_left_right (hq_cf m) recs \/ ((0 <= jk_num u)%R /\ hp_hier (cf_def (hq_cf m)) = true) -> cf_mt (hq_cf m) <> 0%Z ->
  exists m', hq_train u w k m = Ok m' /\ hq_reset m' = Ok m' /\
    forall xs, Forall (fun x => length x = input_dim (hq_sp m')) xs -> exists m2, hq_filters xs m' = Ok m2.
Proof.
  intros u w k t recs m H NE SU LE OM LR MT. apply Z.eqb_neq in MT.
  assert (X : exists m1 m', hq_train u w k m = Ok m' /\ hq_reset m' = Ok m1 /\ forall xs x, Forall (fun x => length x = input_dim (hq_sp m')) (xs ++ [x]) -> exists m2, hq_filters (xs ++ [x]) m1 = Ok m2).
  { destruct (hp_hier (cf_def (hq_cf m))) eqn:HH.
    - destruct (C89_recognition u w k t recs m H NE SU LE OM HH) as (m0 & m1 & m' & _ & _ & E & R & Q); [destruct LR as [LR|(LR & _)]; auto|]. exists m1, m'. split; [exact E|]. split; [exact R|].
      intros xs x F. destruct (Q xs x F) as (m2 & E2 & _). exists m2. exact E2.
    - destruct (C89_flat u w k t recs m H NE SU LE HH) as (m0 & m1 & m' & _ & _ & _ & E & R & Q); [destruct LR as [LR|(_ & LR)]; [exact LR|discriminate]|exact OM|]. exists m1, m'. split; [exact E|]. split; [exact R|].
      intros xs x F. destruct (Q xs x F) as (m2 & E2 & _). exists m2. exact E2. }
  destruct X as (m1 & m' & E & R & Q). destruct (htrain u w k t recs m H NE SU LE) as (s & hs & r & _ & _ & _ & E0). rewrite MT, E in E0. symmetry in E0. pose proof (hq_reset_idem _ _ E0) as R'.
  rewrite R in R'. injection R' as ->. exists m'. split; [exact E|]. split; [exact R|]. intros xs F. destruct xs as [|y ys]; [exists m'; reflexivity|].
  destruct (exists_last (l := y :: ys) ltac:(discriminate)) as (zs & z & EQ). rewrite EQ in *. apply Q, F.
Qed.
Print Assumptions C90_threads.
Example C90_threads_meets : forall (u : junk RA) bim hier est, exists (w : world) t, let recs := ex_recs bim in let m := ex_hstart bim LeftRight hier 2 est in
  recorded w 0 t recs /\ recs <> [] /\ set_up (t_bim t) (hq_sp m) /\ hall_learnable u t m recs /\
  (est_of (cf_est (hq_cf m)) = Mixture -> hone_mode (hq_cf m) recs) /\ (hall_left_right (hq_cf m) recs \/ ((0 <= jk_num u)%R /\ hp_hier (cf_def (hq_cf m)) = true)) /\ cf_mt (hq_cf m) <> 0%Z.
Proof.
  intros u bim hier est. destruct (C89_training_meets u bim LeftRight hier 2 est) as (w & t & Q1 & Q2 & Q3 & Q4). exists w, t. cbv zeta. repeat (split; [assumption|]).
  split; [intros _; apply ex_hone_mode|]. split; [left; apply ex_lr|discriminate].
Qed.

(** In the Sequential mode it has not: the first [filter] after [train] writes outside of the results, for
    every set of recordings and every observation. *)
Theorem C90_sequential_refuted : forall (u : junk RA) (w : world) k t recs (m : hmodel RA), recorded w k t recs -> recs <> [] -> set_up (t_bim t) (hq_sp m) -> hall_learnable u t m recs ->
  (est_of (cf_est (hq_cf m)) = Mixture -> hone_mode (hq_cf m) recs) -> hp_hier (cf_def (hq_cf m)) = true -> cf_mt (hq_cf m) = 0%Z ->
  exists m', hq_train u w k m = Ok m' /\ forall x, length x = input_dim (hq_sp m') -> hq_filter (A := RA) x m' = UB.
Proof.
  intros u w k t recs m H NE SU LE OM HH MT. destruct (htrain u w k t recs m H NE SU LE) as (s & hs & r & HT & ND & NH & E).
  pose proof HT as (_ & (SU' & _) & _ & _ & LB & CM & _ & _ & RS). cbn [unreset hq_sp hq_cls hq_res] in SU', LB, CM, RS.
  rewrite MT in E. exists (unreset s m hs r). split; [exact E|]. intros x Lx.
  apply (hno_room u s m recs hs r _ SU' NH ND CM (fun l => proj1 (LB l)) OM HH RS x Lx).
Qed.
Print Assumptions C90_sequential_refuted.
Example C90_sequential_refuted_meets : forall (u : junk RA) bim tm est, exists (w : world) t, let recs := ex_recs bim in let m := ex_hstart bim tm true 0 est in
  recorded w 0 t recs /\ recs <> [] /\ set_up (t_bim t) (hq_sp m) /\ hall_learnable u t m recs /\
  (est_of (cf_est (hq_cf m)) = Mixture -> hone_mode (hq_cf m) recs) /\ hp_hier (cf_def (hq_cf m)) = true /\ cf_mt (hq_cf m) = 0%Z.
Proof.
  intros u bim tm est. destruct (C89_training_meets u bim tm true 0 est) as (w & t & Q1 & Q2 & Q3 & Q4). exists w, t. cbv zeta. repeat (split; [assumption|]).
  split; [intros _; apply ex_hone_mode|]. split; reflexivity.
Qed.

(** Without the hierarchical mode, a trained model with an Ergodic class has no defined behaviour, in any mode
    of training: the first [filter] reads outside of the forward variables, which [reset] has not sized. *)
Theorem C90_flat_ergodic_refuted : forall (u : junk RA) (w : world) k t recs (m : hmodel RA), recorded w k t recs -> recs <> [] -> set_up (t_bim t) (hq_sp m) -> hall_learnable u t m recs ->
  hp_hier (cf_def (hq_cf m)) = false -> (exists l, In l (map fst recs) /\ hp_trans (cf_params (hq_cf m) l) = Ergodic) ->
  (est_of (cf_est (hq_cf m)) = Mixture -> hone_mode (hq_cf m) recs) ->
  exists m' m1, hq_train u w k m = Ok m' /\ hq_reset m' = Ok m1 /\ forall x, length x = input_dim (hq_sp m') -> hq_filter (A := RA) x m1 = UB.
Proof.
  intros u w k t recs m H NE SU LE HH ER OM. destruct (htrain u w k t recs m H NE SU LE) as (s & hs & r & HT & ND & NH & E).
  pose proof HT as (_ & (SU' & _) & _ & _ & LB & CM & _). cbn [unreset hq_sp hq_cls] in SU', LB, CM.
  destruct (hflat_ergodic u s m recs hs r _ SU' NH ND CM (fun l => proj1 (LB l)) OM HH) as (m1 & E1 & Q).
  { destruct ER as (l & Hl & El). exists l. split; [apply LB, Hl|exact El]. }
  exists (if (cf_mt (hq_cf m) =? 0)%Z then unreset s m hs r else m1), m1.
  destruct (cf_mt (hq_cf m) =? 0)%Z; (split; [rewrite E; auto|]); (split; [first [exact E1|apply (hq_reset_idem _ _ E1)]|]); [exact Q|].
  destruct (hreset_kept _ _ E1) as (-> & _). exact Q.
Qed.
Print Assumptions C90_flat_ergodic_refuted.
Example C90_flat_ergodic_refuted_meets : forall (u : junk RA) bim mt est, exists (w : world) t, let recs := ex_recs bim in let m := ex_hstart bim Ergodic false mt est in
  recorded w 0 t recs /\ recs <> [] /\ set_up (t_bim t) (hq_sp m) /\ hall_learnable u t m recs /\
  hp_hier (cf_def (hq_cf m)) = false /\ (exists l, In l (map fst recs) /\ hp_trans (cf_params (hq_cf m) l) = Ergodic) /\ (est_of (cf_est (hq_cf m)) = Mixture -> hone_mode (hq_cf m) recs).
Proof.
  intros u bim mt est. destruct (C89_training_meets u bim Ergodic false mt est) as (w & t & Q1 & Q2 & Q3 & Q4). exists w, t. cbv zeta. repeat (split; [assumption|]).
  split; [reflexivity|]. split; [exists "run"%string; split; [right; left; reflexivity|reflexivity]|]. intros _; apply ex_hone_mode.
Qed.
