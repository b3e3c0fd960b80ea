(** Training sets: the statements about reachable memories. *)
From Coq Require Import String List Bool Arith Lia ZArith.
From Verif Require Import Base BaseFacts Arith Model_Map Model_Attribute Model_Events Model_Json Model_Phrase Model_TrainingSet.
From Verif Require Import Spec_Phrase Spec_TrainingSet.
From Verif Require Import Proofs_Map Proofs_TrainingSet Proofs_TrainingSet2 Proofs_TrainingSet3 Proofs_TrainingSet4 Proofs_TrainingSet5.
Import ListNotations.
Local Open Scope nat_scope.

Section Reach.
  Context {A : arith}.
  Local Notation phrase := (phrase (A:=A)).
  Local Notation world := (world A).

  Lemma reachable_inv : forall w : world, reachable w -> inv w.
  Proof. intros w (ops & outs & H & HO). eapply run_reach; eauto. Qed.

  Lemma reachable_mirrors : forall (w : world) k t, reachable w -> set_at w k = Some t -> mirrors w t.
  Proof. intros w k t (ops & outs & H & HO) Hk. eapply tset_mirrors; eauto. Qed.

  Lemma reachable_add : forall (w : world) k t i lab, reachable w -> set_at w k = Some t -> in_range t ->
    exists w' t' id p, world_step (WAdd k i lab) w = (w', Ok tt) /\
      set_at w' k = Some t' /\ same_attributes t t' /\
      getPhrase t' i = Some id /\ length (w_heap w) <= id /\
      nth_error (w_heap w') id = Some p /\ fresh_in t lab p /\
      (forall j, j <> i -> getPhrase t' j = getPhrase t j) /\
      (forall d, d < length (w_heap w) -> nth_error (w_heap w') d = nth_error (w_heap w) d) /\
      (forall j, j <> k -> set_at w' j = set_at w j).
  Proof. intros. eapply add_new_effect; eauto. apply reachable_inv; auto. Qed.

  Lemma reachable_remove : forall (w : world) k t i, reachable w -> set_at w k = Some t -> in_range t ->
    exists w' t', world_step (WRemove k i) w = (w', Ok tt) /\ w_heap w' = w_heap w /\
      set_at w' k = Some t' /\ same_attributes t t' /\
      (forall j, getPhrase t' j = if Z.eqb j i then None else getPhrase t j) /\
      (forall j, j <> k -> set_at w' j = set_at w j).
  Proof. intros. eapply remove_effect; eauto. apply reachable_inv; auto. Qed.

  Lemma reachable_remove_class : forall (w : world) k t l, reachable w -> set_at w k = Some t -> in_range t ->
    exists w' t', world_step (WRemoveClass k l) w = (w', Ok tt) /\ w_heap w' = w_heap w /\
      set_at w' k = Some t' /\ same_attributes t t' /\
      (forall j id, getPhrase t' j = Some id <-> getPhrase t j = Some id /\ ~ has_label w l id) /\
      (forall j, j <> k -> set_at w' j = set_at w j).
  Proof. intros. eapply remove_class_effect; eauto. apply reachable_inv; auto. Qed.

  Lemma reachable_assign : forall (w w' : world) k src s, reachable w -> k <> src -> set_at w src = Some s ->
    world_step (WAssign k src) w = (w', Ok tt) ->
    exists t, set_at w' k = Some t /\ deep_copy w s w' t /\ up_to_date w' k /\
      (forall j, j <> k -> view w' j = view w j) /\
      (forall id, In id (ids_of w' k) -> forall j, j <> k -> ~ In id (ids_of w' j)).
  Proof.
    intros w w' k src s HR Hn Hs E.
    destruct (assign_effect w w' k src s (reachable_inv _ HR) Hn Hs E) as (t & H1 & H2 & H3 & H4 & H5).
    exists t. split; [auto|]. split; [auto|]. split; [auto|]. split; [auto|].
    intros id Hi. exact (proj2 (H5 id Hi)).
  Qed.

  (** Later operations on anything else. *)
  Lemma assign_independent : forall (w w' w'' : world) k src s ops outs, reachable w -> k <> src -> set_at w src = Some s ->
    world_step (WAssign k src) w = (w', Ok tt) ->
    spares_all (spares k) w' ops -> world_run w' ops = Ok (w'', outs) -> view w'' k = view w' k.
  Proof.
    intros w w' w'' k src s ops outs HR Hn Hs E HS HW.
    destruct (assign_effect w w' k src s (reachable_inv _ HR) Hn Hs E) as (t & H1 & H2 & H3 & H4 & H5).
    eapply (independent_up_to_date ops k t w' w'' outs); eauto.
    intros id Hi. apply (H5 id Hi).
  Qed.

  Lemma assign_independent_source : forall (w w' w'' : world) k src s ops outs, reachable w -> k <> src -> set_at w src = Some s ->
    up_to_date w src ->
    world_step (WAssign k src) w = (w', Ok tt) ->
    spares_all (spares src) w' ops -> world_run w' ops = Ok (w'', outs) -> view w'' src = view w src.
  Proof.
    intros w w' w'' k src s ops outs HR Hn Hs U E HS HW.
    pose proof (reachable_inv _ HR) as I.
    assert (V : forall id, In id (ids_of w src) -> id < length (w_heap w)).
    { unfold ids_of. rewrite Hs. intros id Hi. apply in_map_iff in Hi. destruct Hi as ([i d] & <- & Hi).
      apply (inv_valid _ _ _ I Hs i d Hi). }
    apply (independent_up_to_date (WAssign k src :: ops) src s w w'' (Ok tt :: outs)); auto.
    - cbn [spares_all]. rewrite E. split; [|exact HS]. split; [cbn [op_set]; congruence|]. cbn [op_phrases]. intros id [].
    - cbn [world_run]. rewrite E. rewrite HW. reflexivity.
  Qed.

  Lemma dimension_attrs : forall (w w' : world) k t n, set_at w k = Some t ->
    tset_dimension k n w = (w', Ok tt) ->
    (if t_bim t then 2 else 1) <= n /\
    exists t', set_at w' k = Some t' /\ t_bim t' = t_bim t /\ t_own t' = t_own t /\ t_dim t' = n /\
               t_din t' = t_din t /\ t_din_max t' = n - 1.
  Proof.
    intros w w' k t n H E. unfold tset_dimension in E.
    apply sbind_ok_inv in E. destruct E as (w1 & t1 & E1 & E). apply get_set_inv in E1. destruct E1 as (-> & H1).
    rewrite H in H1. inversion H1; subst t1; clear H1.
    apply sbind_ok_inv in E. destruct E as (w1 & u & E1 & E). unfold slift in E1.
    assert (w1 = w) by congruence. subst w1.
    assert (Hn : (if t_bim t then 2 else 1) <= n).
    { unfold checkLimits in E1. destruct (n <? t_dim_min (t_bim t)) eqn:C; [inversion E1|].
      apply Nat.ltb_ge in C. exact C. }
    split; auto.
    apply sbind_ok_inv in E. destruct E as (w1 & [] & E2 & E). rewrite (put_set_eq _ _ _ _ H) in E2.
    assert (E3 : w1 = wput w k (with_dims n (t_din t) (t_din_max t) (t_cols t) t)) by congruence. clear E2.
    apply sbind_ok_inv in E. destruct E as (w2 & [] & E2 & E).
    pose proof (foreach_sets (t_phrases t) (fun e => set_dimension false n) w1 w2 (Ok tt) E2 ltac:(discriminate)) as Hs.
    assert (H2 : set_at w2 k = Some (with_dims n (t_din t) (t_din_max t) (t_cols t) t)).
    { unfold set_at. rewrite Hs. subst w1. fold (set_at (wput w k (with_dims n (t_din t) (t_din_max t) (t_cols t) t)) k).
      rewrite set_at_wput by (eapply set_at_lt; exact H). rewrite Nat.eqb_refl. reflexivity. }
    rewrite (mod_set_eq _ _ _ _ H2) in E. assert (E4 : w' = wput w2 k (with_dims n (t_din (with_dims n (t_din t) (t_din_max t) (t_cols t) t)) (n - 1)
      (vresize n EmptyString (t_cols (with_dims n (t_din t) (t_din_max t) (t_cols t) t)))
      (with_subs (map (fun e => (fst e, mkSub n (u_din (snd e)) (u_din_max (snd e)) (u_cols (snd e)) (u_phrases (snd e))))
         (t_subs (with_dims n (t_din t) (t_din_max t) (t_cols t) t))) (with_dims n (t_din t) (t_din_max t) (t_cols t) t)))) by congruence.
    subst w'. eexists. split; [rewrite set_at_wput by (eapply set_at_lt; eauto); rewrite Nat.eqb_refl; reflexivity|].
    cbn. auto.
  Qed.

  (** After a change of dimension that leaves the input dimension within its limits, phrases can
      be added. *)
  Lemma dimension_then_add : forall (w w' : world) k t n i lab, reachable w -> set_at w k = Some t -> in_range t ->
    world_step (WSetDim k n) w = (w', Ok tt) -> t_din t <= n - 1 ->
    exists w'' t' id p, world_step (WAdd k i lab) w' = (w'', Ok tt) /\
      set_at w'' k = Some t' /\ t_dim t' = n /\ t_din t' = t_din t /\ getPhrase t' i = Some id /\
      nth_error (w_heap w'') id = Some p /\ p_dim p = n /\ p_din p = t_din t /\ p_label p = lab.
  Proof.
    intros w w' k t n i lab HR H R E Hd. pose proof (reachable_inv _ HR) as I.
    pose proof (step_inv (WSetDim k n) w w' (Ok tt) I E ltac:(discriminate) ltac:(cbn; tauto)) as I'.
    cbn [world_step] in E. destruct (dimension_attrs w w' k t n H E) as (Hn & t' & H' & B1 & B2 & B3 & B4 & B5).
    destruct (add_new_effect w' k t' i lab I' H') as (w'' & t'' & id & p & E2 & Q1 & Q2 & Q3 & Q4 & Q5 & Q6 & _).
    { unfold in_range in *. rewrite B1, B3, B4. destruct (t_bim t); lia. }
    exists w'', t'', id, p. destruct Q2 as (_ & _ & C1 & C2 & _). destruct Q6 as (_ & _ & D1 & D2 & _ & D3 & _).
    repeat split; auto; congruence.
  Qed.
End Reach.
