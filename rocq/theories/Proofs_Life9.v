(** Calls made while other classes are training: executions. *)
From Coq Require Import List Bool Arith ZArith Lia.
From Verif Require Import Base Model_Train Model_Life Model_Life2 Spec_Life Spec_Life2 Proofs_Life Proofs_Life2 Proofs_Life3 Proofs_Life4 Proofs_Life5 Proofs_Life8.
Import ListNotations.
Local Open Scope nat_scope.

(** ** The log only grows *)
Definition grows (s s' : sys) : Prop := (exists l, s_log s' = s_log s ++ l) /\ length (s_cls s') = length (s_cls s).
Lemma grows_refl : forall s, grows s s.
Proof. intro s. split; [exists []; rewrite app_nil_r; reflexivity|reflexivity]. Qed.
Lemma grows_trans : forall s s' s'', grows s s' -> grows s' s'' -> grows s s''.
Proof. intros s s' s'' ((l & E1) & L1) ((l' & E2) & L2). split; [exists (l ++ l'); rewrite E2, E1, app_assoc; reflexivity|congruence]. Qed.
Lemma grows_class : forall bg k s s', step_class bg k s = Some s' -> grows s s'.
Proof.
  intros bg k s s' H. split; [exact (log_grows _ _ _ _ H)|]. unfold step_class in H. destruct (nth_error (s_cls s) k) as [d|] eqn:Hn; [|discriminate].
  destruct (k_pc d); try discriminate; repeat match type of H with
    | context [if ?b then _ else _] => destruct b eqn:?
    | context [match ?x with O => _ | S _ => _ end] => destruct x eqn:?
    | context [match s_mutex ?s with _ => _ end] => destruct (s_mutex s) eqn:?
    end; try discriminate; rewrite ?(at_cls_some _ _ _ _ Hn) in H; injection H as <-; unfold with_mutex, with_cls, with_count, with_join, with_joining, emit; sproj; apply lset_length.
Qed.
Lemma grows_join : forall b j s s1 j', step_join b j s = Some (s1, j') -> grows s s1.
Proof.
  intros b j s s1 j' H. unfold step_join in H. destruct j; repeat match type of H with
    | context [if ?b then _ else _] => destruct b
    | context [match ?x with Some _ => _ | None => _ end] => destruct x eqn:?
    | context [match k_pc ?x with _ => _ end] => destruct (k_pc x) eqn:?
    end; try discriminate; injection H as <- <-; try apply grows_refl; rewrite ?(at_cls_some _ _ _ _ Heqo); unfold grows, with_cls, with_joining, with_training, emit; sproj; rewrite ?lset_length, ?map_length;
    (split; [try (exists []; rewrite app_nil_r; reflexivity); eexists; reflexivity|reflexivity]).
Qed.
Lemma grows_at : forall i f s, grows s (at_cls i f s).
Proof. intros i f s. unfold at_cls. destruct (nth_error (s_cls s) i); [|apply grows_refl]. split; [exists []; rewrite app_nil_r; reflexivity|unfold with_cls; sproj; apply lset_length]. Qed.
Lemma grows_call : forall i o b l s s1 l1, step_call i o b l s = Some (s1, l1) -> grows s s1.
Proof.
  intros i o b l s s1 l1 H. destruct l; cbn [step_call] in H; unfold on_cls in H; try discriminate.
  all: try (injection H as <- <-; first [apply grows_refl|split; [exists []; rewrite app_nil_r; reflexivity|reflexivity]]).
  all: try (match type of H with (if ?x then _ else _) = _ => destruct x end; try discriminate; injection H as <- <-; first [apply grows_refl|apply grows_at]).
  - destruct (nth_error (s_cls s) i) as [c|]; [|discriminate]. destruct (k_flag c); [discriminate|]. injection H as <- <-. apply grows_refl.
  - destruct j; try (injection H as <- <-; apply grows_refl); destruct (step_join b _ s) as [[s2 j2]|] eqn:E; try discriminate; injection H as <- <-; exact (grows_join _ _ _ _ _ E).
  - destruct (nth_error (s_cls s) i) as [c|]; [|discriminate]. destruct (k_alive c); injection H as <- <-; [apply grows_refl|apply grows_at].
  - destruct (nth_error (s_cls s) i) as [c|]; [|discriminate]. destruct o; try discriminate. destruct (k_thr c); injection H as <- <-; [apply grows_refl|apply grows_at].
Qed.
Lemma grows_step2 : forall i o t b z z', step2 i o t b z = Some z' -> grows (cs_sys z) (cs_sys z').
Proof.
  intros i o t b z z' H.
  assert (D : (exists l, step_call i o b (cs_pc z) (cs_sys z) = Some (cs_sys z', l)) \/ (exists k, step_class true k (cs_sys z) = Some (cs_sys z')) \/
    exists k, step true false (TJoin k) b (cs_sys z) = Some (cs_sys z')).
  { unfold step2 in H. destruct t as [|k|k].
    - left. destruct (cs_pc z) eqn:E; try discriminate; destruct (step_call _ _ _ _ _) as [[s1 l1]|] eqn:E1; try discriminate; injection H as <-; eauto.
    - right. left. destruct (cs_pc z); try discriminate; destruct (step_class true k (cs_sys z)) as [s1|] eqn:E1; try discriminate; injection H as <-; exists k; rewrite E1; reflexivity.
    - right. right. destruct (cs_pc z); try discriminate; destruct (step true false (TJoin k) b (cs_sys z)) as [s1|] eqn:E1; try discriminate; injection H as <-; exists k; rewrite E1; reflexivity. }
  destruct D as [(l & E)|[(k & E)|(k & E)]].
  - exact (grows_call _ _ _ _ _ _ _ E).
  - exact (grows_class _ _ _ _ E).
  - cbn [step] in E. destruct (nth_error (s_join (cs_sys z)) k) as [j|]; [|discriminate]. destruct (step_join b j (cs_sys z)) as [[s1 j']|] eqn:E1; [|discriminate].
    injection E as <-. exact (grows_join _ _ _ _ _ E1).
Qed.
Lemma grows_run2 : forall i o sch z, grows (cs_sys z) (cs_sys (run2 i o sch z)).
Proof.
  intros i o. induction sch as [|(t, b) sch IH]; intro z; cbn [run2]; [apply grows_refl|].
  destruct (step2 i o t b z) as [z'|] eqn:E; [|apply IH]. eapply grows_trans; [exact (grows_step2 _ _ _ _ _ _ E)|apply IH].
Qed.
Lemma still_back : forall j s s', grows s s' -> still_training j s' -> still_training j s.
Proof. intros j s s' ((l & E) & L) (H1 & H2). split; [lia|]. intros st S1 S2. apply (H2 st S1). rewrite E. apply in_or_app. auto. Qed.

Lemma zinv_run : forall i o j sch z, j <> i -> cinv (cs_sys z) -> place i o z -> still_training j (cs_sys (run2 i o sch z)) ->
  cinv (cs_sys (run2 i o sch z)) /\ place i o (run2 i o sch z).
Proof.
  intros i o j. induction sch as [|(t, b) sch IH]; intros z Nj C P S; cbn [run2] in *; [auto|].
  destruct (step2 i o t b z) as [z'|] eqn:E; [|auto].
  destruct (zinv_step i o j t b z z' Nj C P) as (C' & P'); [|exact E|auto]. exact (still_back _ _ _ (grows_run2 i o sch z') S).
Qed.

(** ** The state when [train] has returned *)
Definition tinv (s : sys) : Prop := (launchingb (s_main s) = true \/ s_main s = MRet) /\ (s_join s = [] -> forall i c, nth_error (s_cls s) i = Some c -> k_pc c <> CNew -> k_thr c = true).

Lemma tinv_step : forall t b s s', tinv s -> step true false t b s = Some s' -> tinv s'.
Proof.
  intros t b s s' (T1 & T2) H. destruct t as [|k|k]; cbn [step] in H.
  - unfold step_main in H. destruct T1 as [T1|T1]; [|rewrite T1 in H; discriminate].
    assert (G : forall i (f : cls -> cls) m ct, (forall c, k_pc (f c) = k_pc c /\ k_thr (f c) = k_thr c \/ k_thr (f c) = true) -> launchingb m = true ->
      tinv (with_main m (with_count ct (at_cls i f s)))).
    { intros i f m ct Hf Hm. split; [left; exact Hm|]. unfold with_main, with_count, at_cls; sproj. destruct (nth_error (s_cls s) i) as [c|] eqn:Hn; [|exact T2].
      unfold with_cls; sproj. intros Ej k d Hd Np. destruct (Nat.eq_dec k i) as [->|N]; [|rewrite lset_other in Hd by exact N; eauto].
      rewrite (lset_same _ _ _ _ Hn) in Hd. injection Hd as <-. destruct (Hf c) as [(F1 & F2)|F]; [rewrite F2; apply (T2 Ej i c Hn); congruence|exact F]. }
    destruct (s_main s) eqn:Em; try discriminate.
    + destruct (i <? length (s_cls s)); injection H as <-; [|split; [right; reflexivity|exact T2]].
      replace (with_main (MCanc i) (at_cls i (set_flag true) s)) with (with_main (MCanc i) (with_count (s_count (at_cls i (set_flag true) s)) (at_cls i (set_flag true) s))) by (destruct (at_cls i (set_flag true) s); reflexivity).
      apply G; auto.
    + injection H as <-.
      replace (with_main (MCnt i) (at_cls i (set_cancel false) s)) with (with_main (MCnt i) (with_count (s_count (at_cls i (set_cancel false) s)) (at_cls i (set_cancel false) s))) by (destruct (at_cls i (set_cancel false) s); reflexivity).
      apply G; auto.
    + injection H as <-. split; [left; reflexivity|exact T2].
    + injection H as <-. split; [left; reflexivity|exact T2].
    + injection H as <-. set (f := fun c => set_thr true (set_pc CStart c)).
      replace (with_main (MFlag (S i)) (at_cls i f s)) with (with_main (MFlag (S i)) (with_count (s_count (at_cls i f s)) (at_cls i f s))) by (destruct (at_cls i f s); reflexivity).
      apply G; auto.
  - unfold step_class in H. destruct (nth_error (s_cls s) k) as [c|] eqn:Hn; [|discriminate].
    assert (G : forall c' js mu ct jo lg, k_thr c' = k_thr c -> k_pc c <> CNew -> (js = [] -> s_join s = []) ->
      tinv (mkSys (lset (s_cls s) k c') (s_main s) js mu ct (s_training s) jo (s_creq s) lg)).
    { intros c' js mu ct jo lg A1 A2 A3. split; [exact T1|]. sproj. intros Ej i d Hd Np. destruct (Nat.eq_dec i k) as [->|N]; [|rewrite lset_other in Hd by exact N; eauto].
      rewrite (lset_same _ _ _ _ Hn) in Hd. injection Hd as <-. rewrite A1. eauto. }
    destruct (k_pc c) eqn:Ep; try discriminate; repeat match type of H with
    | context [if ?b then _ else _] => destruct b eqn:?
    | context [match ?x with O => _ | S _ => _ end] => destruct x eqn:?
    | context [match s_mutex ?s with _ => _ end] => destruct (s_mutex s) eqn:?
    end; try discriminate; rewrite ?(at_cls_some _ _ _ _ Hn) in H; injection H as <-; unfold with_mutex, with_cls, with_count, with_join, with_joining, emit; sproj; apply G; auto; try discriminate.
    intro E. apply app_eq_nil in E. destruct E; discriminate.
  - destruct (nth_error (s_join s) k) as [j|] eqn:Ek; [|discriminate]. destruct (step_join b j s) as [[s1 j']|] eqn:E; [|discriminate]. injection H as <-.
    destruct (step_join_keeps _ _ _ _ _ E) as (K1 & K2). split; [unfold with_join; sproj; rewrite K1; exact T1|]. unfold with_join; sproj. rewrite K2. intro A. exfalso.
    assert (L : length (lset (s_join s) k j') = 0) by (rewrite A; reflexivity). rewrite lset_length in L. destruct (s_join s); [destruct k; discriminate|discriminate].
Qed.

Lemma background_cinv : forall plan s j, in_background plan s -> still_training j s -> cinv s /\ finv s /\ binv plan s /\ (forall i c, nth_error (s_cls s) i = Some c -> k_alive c = true).
Proof.
  intros plan s j (Hp & sch & St & T & -> & Em) S. pose proof (bg_reach plan sch Hp St T) as B. set (s := run true false sch (life_init 0 plan)) in *.
  assert (TI : tinv s).
  { unfold s. apply (run_ind true false tinv); [intros t b s1 s2; apply tinv_step|]. split; [left; reflexivity|]. intros _ i c Hc N. unfold life_init in Hc; sproj.
    rewrite nth_error_map in Hc. destruct (nth_error plan i); [|discriminate]. injection Hc as <-. destruct N. reflexivity. }
  assert (F : finv s) by apply finv_reach. clearbody s.
  assert (R : forall i c, nth_error (s_cls s) i = Some c -> reported (k_pc c) = true -> exists st, st <> Run /\ In (EvClass i st) (s_log s)).
  { intros i c Hc Rc. destruct (reported_final plan s i c (b_u _ _ B) (b_cls _ _ B) Hc Rc) as (st & F1 & F2). exists st. split; [|exact F2]. intros ->. exact F1. }
  destruct S as (S1 & S2). destruct (nth_error (s_cls s) j) as [d|] eqn:Hd; [|apply nth_error_None in Hd; lia].
  assert (Rd : reported (k_pc d) = false) by (destruct (reported (k_pc d)) eqn:E; [destruct (R j d Hd E) as (st & Q1 & Q2); destruct (S2 st Q1 Q2)|reflexivity]).
  assert (Ej : s_join s = []).
  { destruct (b_join _ _ B) as [E|(x & E)]; [exact E|]. destruct (b_fin _ _ B ltac:(rewrite E; discriminate)) as (_ & Fn). specialize (Fn j d Hd). destruct (k_pc d); try discriminate. cbn in Rd, Fn. destruct (is_run_status st); discriminate. }
  assert (New : forall i c, nth_error (s_cls s) i = Some c -> k_pc c <> CNew).
  { intros i c Hc. destruct (ui_cls _ (b_u _ _ B) i c Hc) as [_ _ _ UL _ _]. apply UL. rewrite Em. apply nth_error_Some. congruence. }
  assert (Pd : pend d = 1).
  { pose proof (New j d Hd). unfold pend. destruct (k_pc d); try congruence; try discriminate; try reflexivity. cbn in Rd. destruct (is_run_status st); [reflexivity|discriminate]. }
  pose proof (b_count _ _ B) as Bc. rewrite Em in Bc. cbn [bonus] in Bc. pose proof (lsum_pos pend _ _ _ Hd) as Lp.
  pose proof (b_j _ _ B) as J. unfold bphase in J. rewrite Ej in J. destruct J as [Q1 Q2 Q3 Q4 Q5 Q6 Q7]. cbn in Q2, Q3, Q6.
  split; [|split; [exact F|split; [exact B|exact Q6]]]. constructor; auto.
  - exact (b_u _ _ B).
  - intros i c st Hc. split; intro E; pose proof (b_spawn _ _ B i c st Hc ltac:(auto)); lia.
  - intros i c Hc. destruct TI as (_ & T2). eauto.
  - lia.
  - intros i c st n Hc Ep. rewrite (b_decw _ _ B i c st n Hc Ep). lia.
Qed.
