(** The training protocol: one run of [joinTraining], by whichever thread, and the training flags of
    the classes. *)
From Coq Require Import List Bool Arith ZArith Lia.
From Verif Require Import Base Model_Train Model_Life Spec_Life Proofs_Life Proofs_Life2 Proofs_Life3.
Import ListNotations.
Local Open Scope nat_scope.

(** The flag of a class is down once it has been lowered in [onTrainingEvent]. *)
Definition lowered_flag (p : cpc) : bool :=
  match p with
  | CChk1 _ | CChk2 _ | CChk3 _ | CSpawn _ | CSpawn2 _ | CFin _ | CEnd _ => true
  | CUnlock st => negb (is_run_status st)
  | _ => false
  end.
Definition finv (s : sys) : Prop := forall i c, nth_error (s_cls s) i = Some c -> lowered_flag (k_pc c) = true -> k_flag c = false.

Lemma finv_lset : forall l i c' c, nth_error l i = Some c ->
  (forall j d, nth_error l j = Some d -> lowered_flag (k_pc d) = true -> k_flag d = false) ->
  (lowered_flag (k_pc c') = true -> k_flag c' = false) ->
  forall j d, nth_error (lset l i c') j = Some d -> lowered_flag (k_pc d) = true -> k_flag d = false.
Proof.
  intros l i c' c Hn F H j d Hd. destruct (Nat.eq_dec j i) as [->|Nj].
  - rewrite (lset_same _ _ _ _ Hn) in Hd. injection Hd as <-. exact H.
  - rewrite lset_other in Hd by exact Nj. eauto.
Qed.

Lemma finv_class : forall bg i s s', finv s -> step_class bg i s = Some s' -> finv s'.
Proof.
  intros bg i s s' F H. unfold step_class in H. destruct (nth_error (s_cls s) i) as [c|] eqn:Hn; [|discriminate].
  pose proof (F i c Hn) as Fc.
  destruct (k_pc c) eqn:Ep; try discriminate;
    repeat match type of H with
    | context [if ?b then _ else _] => destruct b eqn:?
    | context [match ?x with O => _ | S _ => _ end] => destruct x eqn:?
    | context [match s_mutex ?s with _ => _ end] => destruct (s_mutex s) eqn:?
    end; try discriminate;
    rewrite ?(at_cls_some _ _ _ _ Hn) in H; injection H as <-; unfold finv, with_cls, with_mutex, with_count, with_joining, with_join, emit; sproj;
    apply (finv_lset _ _ _ _ Hn F); kproj; cbn [lowered_flag] in *; auto; try discriminate.
  - destruct st; discriminate.
  - destruct st; cbn [lowered_flag is_run_status negb] in *; auto; discriminate.
Qed.

Lemma finv_join : forall b j s s1 j', finv s -> step_join b j s = Some (s1, j') -> finv s1.
Proof.
  intros b j s s1 j' F H. unfold step_join in H.
  destruct j; repeat match type of H with
    | context [if ?b then _ else _] => destruct b
    | context [match ?x with Some _ => _ | None => _ end] => destruct x eqn:?
    | context [match k_pc ?x with _ => _ end] => destruct (k_pc x) eqn:?
    end; try discriminate; injection H as <- <-; try exact F.
  - rewrite (at_cls_some _ _ _ _ Heqo). unfold finv, with_cls; sproj. apply (finv_lset _ _ _ _ Heqo F). kproj. apply (F i c Heqo).
  - unfold finv, with_cls; sproj. intros i c Hc. rewrite nth_error_map in Hc. destruct (nth_error (s_cls s) i) as [d|] eqn:E; [|discriminate]. cbn in Hc. injection Hc as <-.
    specialize (F i d E). unfold erase_failed. destruct (k_status d); exact F.
Qed.

Lemma finv_main : forall bg ca b s s', uinv s -> finv s -> step_main bg ca b s = Some s' -> finv s'.
Proof.
  intros bg ca b s s' U F H. unfold step_main in H. pose proof (ui_main _ U) as (Hb & Hm).
  destruct (s_main s) eqn:Em; try (injection H as <-; exact F).
  - destruct (Nat.ltb_spec i (length (s_cls s))) as [Hlt|Hge]; [|injection H as <-; exact F].
    destruct (nth_error (s_cls s) i) as [c|] eqn:Hn; [|apply nth_error_None in Hn; lia].
    rewrite (at_cls_some _ _ _ _ Hn) in H. injection H as <-. unfold finv, with_main, with_cls; sproj. apply (finv_lset _ _ _ _ Hn F). kproj.
    destruct (ui_cls _ U i c Hn) as [UM US UO UL UN UT]. rewrite Em in UL. cbn [lbound] in UL.
    destruct (k_pc c); try discriminate; exfalso; assert (i < i) by (apply UL; discriminate); lia.
  - destruct (nth_error (s_cls s) i) as [c|] eqn:Hn; [|apply nth_error_None in Hn; lia].
    rewrite (at_cls_some _ _ _ _ Hn) in H. injection H as <-. unfold finv, with_main, with_cls; sproj. apply (finv_lset _ _ _ _ Hn F). kproj. exact (F i c Hn).
  - destruct (nth_error (s_cls s) i) as [c|] eqn:Hn; [|apply nth_error_None in Hn; lia].
    rewrite (at_cls_some _ _ _ _ Hn) in H. injection H as <-. unfold finv, with_main, with_cls; sproj. apply (finv_lset _ _ _ _ Hn F). kproj. discriminate.
  - assert (Hs : j = JEnd \/ exists s1 j', step_join b j s = Some (s1, j') /\ s' = with_main (MJoin j') s1).
    { destruct j; auto; right; destruct (step_join b _ s) as [[s1 j']|]; try discriminate; injection H as <-; eauto. }
    destruct Hs as [->|(s1 & j' & E & ->)]; [injection H as <-; exact F|]. exact (finv_join _ _ _ _ _ F E).
  - destruct ca; [|discriminate]. injection H as <-. exact F.
  - destruct (i <? length (s_cls s)); [destruct (alive_at s i)|]; injection H as <-; exact F.
  - unfold at_cls in H. destruct (nth_error (s_cls s) i) as [c|] eqn:Hn; injection H as <-; [|exact F].
    unfold finv, with_main, with_cls; sproj. apply (finv_lset _ _ _ _ Hn F). destruct (k_flag c) eqn:E; kproj; exact (F i c Hn).
  - destruct (nth_error (s_cls s) i) as [c|]; [|discriminate]. destruct (k_flag c); [discriminate|]. injection H as <-. exact F.
  - assert (Hs : j = JEnd \/ exists s1 j', step_join b j s = Some (s1, j') /\ s' = with_main (XJoin j') s1).
    { destruct j; auto; right; destruct (step_join b _ s) as [[s1 j']|]; try discriminate; injection H as <-; eauto. }
    destruct Hs as [->|(s1 & j' & E & ->)]; [injection H as <-; exact F|]. exact (finv_join _ _ _ _ _ F E).
  - discriminate.
Qed.

Lemma finv_step : forall bg ca t b s s', uinv s -> finv s -> step bg ca t b s = Some s' -> finv s'.
Proof.
  intros bg ca [|i|k] b s s' U F H; cbn [step] in H.
  - exact (finv_main bg ca b s s' U F H).
  - exact (finv_class bg i s s' F H).
  - destruct (nth_error (s_join s) k) as [j|] eqn:Ek; [|discriminate]. destruct (step_join b j s) as [[s1 j']|] eqn:E; [|discriminate].
    injection H as <-. exact (finv_join _ _ _ _ _ F E).
Qed.

Lemma finv_reach : forall bg ca n plan sch, uinv (run bg ca sch (life_init n plan)) /\ finv (run bg ca sch (life_init n plan)).
Proof.
  intros bg ca n plan sch. apply (run_ind bg ca (fun s => uinv s /\ finv s)).
  - intros t b s s' (U & F) H. split; [exact (uinv_step _ _ _ _ _ _ U H)|exact (finv_step _ _ _ _ _ _ U F H)].
  - split; [apply uinv_init|]. intros i c Hc. unfold life_init in Hc. sproj. rewrite nth_error_map in Hc. destruct (nth_error plan i); [|discriminate]. injection Hc as <-. discriminate.
Qed.

(** The state of one run of [joinTraining] at the place [ph] (anything but [MJoin] and [MRet]: not
    started; [MRet]: over). *)
Record jinv (ph : mpc) (s : sys) : Prop := mkJ {
  j_pc : par_pc ph;
  j_joining : s_joining s = holds_joining ph;
  j_training : s_training s = negb (lowered ph);
  j_log : if announced_all ph then exists l, s_log s = l ++ [EvAll] /\ ~ In EvAll l else ~ In EvAll (s_log s);
  j_thr : joined ph = true -> forall i c, nth_error (s_cls s) i = Some c -> k_thr c = false;
  j_alive : forall i c, nth_error (s_cls s) i = Some c -> k_alive c = if erased ph then kept (k_status c) else true;
  j_j3 : forall i, ph = MJoin (J3 i) -> exists c, nth_error (s_cls s) i = Some c /\ k_thr c = true
}.

(** Changes that do not concern it. *)
Lemma jinv_frame : forall ph s s', jinv ph s ->
  s_joining s' = s_joining s -> s_training s' = s_training s -> s_log s' = s_log s ->
  (forall i c', nth_error (s_cls s') i = Some c' -> exists c, nth_error (s_cls s) i = Some c /\ k_alive c' = k_alive c /\ k_status c' = k_status c /\ (joined ph = true -> k_thr c = false -> k_thr c' = false)) ->
  (forall i c, nth_error (s_cls s) i = Some c -> exists c', nth_error (s_cls s') i = Some c' /\ (k_thr c = true -> k_thr c' = true)) ->
  jinv ph s'.
Proof.
  intros ph s s' [J1 J2 J3 J4 J5 J6 J7] H1 H2 H3 H4 H5. constructor; auto; try congruence.
  - rewrite H3. exact J4.
  - intros A i c' Hc. destruct (H4 i c' Hc) as (c & C1 & C2 & C3 & C4). apply C4; [exact A|]. exact (J5 A i c C1).
  - intros i c' Hc. destruct (H4 i c' Hc) as (c & C1 & C2 & C3 & C4). rewrite C2, C3. eauto.
  - intros i E. destruct (J7 i E) as (c & C1 & C2). destruct (H5 i c C1) as (c' & D1 & D2). eauto.
Qed.

Lemma jinv_class : forall bg ph i s s', jinv ph s -> joined ph = false ->
  (forall c st, nth_error (s_cls s) i = Some c -> k_pc c = CSpawn st -> holds_joining ph = false) ->
  step_class bg i s = Some s' -> jinv ph s'.
Proof.
  intros bg ph i s s' J NJ HS H. unfold step_class in H. destruct (nth_error (s_cls s) i) as [c|] eqn:Hn; [|discriminate].
  assert (NA : announced_all ph = false) by (destruct ph as [| | | | |[]| | | | | | | |]; try reflexivity; discriminate).
  assert (NE : erased ph = false) by (destruct ph as [| | | | |[]| | | | | | | |]; try reflexivity; discriminate).
  specialize (HS c). destruct J as [P1 P2 P3 P4 P5 P6 P7]. rewrite NA in P4. rewrite NE in P6.
  assert (G : forall c' js mu ct jo ev, jo = s_joining s -> k_alive c' = true ->
     (ev = [] \/ exists st, ev = [EvClass i st]) -> k_thr c' = k_thr c ->
     s' = mkSys (lset (s_cls s) i c') (s_main s) js mu ct (s_training s) jo (s_creq s) (s_log s ++ ev) -> jinv ph s').
  { intros c' js mu ct jo ev -> A1 A3 A4 ->. constructor; sproj; auto.
    - rewrite NA. apply not_in_app; [exact P4|]. destruct A3 as [->|(st & ->)]; [intros []|intros [A|[]]; discriminate].
    - rewrite NJ. discriminate.
    - rewrite NE. intros j d Hd. destruct (Nat.eq_dec j i) as [->|Nj].
      + rewrite (lset_same _ _ _ _ Hn) in Hd. injection Hd as <-. exact A1.
      + rewrite lset_other in Hd by exact Nj. eauto.
    - intros j Hj. destruct (P7 j Hj) as (d & D1 & D2). destruct (Nat.eq_dec j i) as [->|Nj].
      + exists c'. rewrite (lset_same _ _ _ _ Hn). split; congruence.
      + exists d. rewrite lset_other by exact Nj. auto. }
  assert (G0 : forall c' js mu ct jo, jo = s_joining s -> k_alive c' = true -> k_thr c' = k_thr c ->
     s' = mkSys (lset (s_cls s) i c') (s_main s) js mu ct (s_training s) jo (s_creq s) (s_log s) -> jinv ph s').
  { intros c' js mu ct jo A2 A3 A5 A6. refine (G c' js mu ct jo [] A2 A3 _ A5 _); [auto|rewrite app_nil_r; exact A6]. }
  pose proof (P6 i c Hn) as Al.
  destruct (k_pc c) eqn:Ep; try discriminate;
    repeat match type of H with
    | context [if ?b then _ else _] => destruct b eqn:?
    | context [match ?x with O => _ | S _ => _ end] => destruct x eqn:?
    | context [match s_mutex ?s with _ => _ end] => destruct (s_mutex s) eqn:?
    end; try discriminate; try congruence;
    rewrite ?(at_cls_some _ _ _ _ Hn) in H; injection H as <-; unfold with_cls, with_mutex, with_count, with_joining, with_join, emit in *; sproj;
    first [refine (G0 _ _ _ _ _ _ _ _ eq_refl) | refine (G _ _ _ _ _ _ _ _ _ _ eq_refl)]; kproj; auto.
  - right. eauto.
  - right. eauto.
  - rewrite P2. symmetry. eapply HS; eauto.
Qed.

(** A step of [joinTraining]. *)
Lemma jinv_join : forall j s s1 j', jinv (MJoin j) s -> step_join false j s = Some (s1, j') -> jinv (MJoin j') s1.
Proof.
  intros j s s1 j' J H. destruct J as [P1 P2 P3 P4 P5 P6 P7].
  assert (GM : forall j'' jo tr ev, par_pc (MJoin j'') -> jo = holds_joining (MJoin j'') -> tr = negb (lowered (MJoin j'')) ->
     (joined (MJoin j'') = true -> forall i c, nth_error (s_cls s) i = Some c -> k_thr c = false) -> erased (MJoin j'') = erased (MJoin j) ->
     (forall k, MJoin j'' = MJoin (J3 k) -> exists c, nth_error (s_cls s) k = Some c /\ k_thr c = true) ->
     (ev = [] /\ announced_all (MJoin j'') = announced_all (MJoin j) \/ ev = [EvAll] /\ announced_all (MJoin j'') = true /\ announced_all (MJoin j) = false) ->
     jinv (MJoin j'') (mkSys (s_cls s) (s_main s) (s_join s) (s_mutex s) (s_count s) tr jo (s_creq s) (s_log s ++ ev))).
  { intros j'' jo tr ev A1 A2 A3 A4 A5 A6 A7. constructor; sproj; auto.
    - destruct A7 as [(-> & ->)|(-> & -> & A7)]; [rewrite app_nil_r; exact P4|]. rewrite A7 in P4. exists (s_log s). auto.
    - rewrite A5. exact P6. }
  assert (GM0 : forall j'' jo tr, par_pc (MJoin j'') -> jo = holds_joining (MJoin j'') -> tr = negb (lowered (MJoin j'')) ->
     (joined (MJoin j'') = true -> forall i c, nth_error (s_cls s) i = Some c -> k_thr c = false) -> erased (MJoin j'') = erased (MJoin j) ->
     (forall k, MJoin j'' = MJoin (J3 k) -> exists c, nth_error (s_cls s) k = Some c /\ k_thr c = true) ->
     announced_all (MJoin j'') = announced_all (MJoin j) ->
     jinv (MJoin j'') (mkSys (s_cls s) (s_main s) (s_join s) (s_mutex s) (s_count s) tr jo (s_creq s) (s_log s))).
  { intros j'' jo tr A1 A2 A3 A4 A5 A6 A7. rewrite <- (app_nil_r (s_log s)). apply GM; auto. }
  destruct j; cbn [par_pc] in P1; try contradiction; cbn [step_join] in H; cbn [holds_joining lowered negb joined erased announced_all] in *.
  - rewrite P3 in H. injection H as <- <-. destruct s; apply GM0; auto; try exact I; try discriminate.
  - rewrite P2 in H. injection H as <- <-. unfold with_joining. apply GM0; auto; try exact I; try discriminate.
  - destruct (first_thr (s_cls s) 0) as [i|] eqn:Ef.
    + destruct (nth_error (s_cls s) i) as [c|] eqn:Hn; [|discriminate]. destruct (k_pc c); try discriminate.
      injection H as <- <-. destruct s; apply GM0; auto; try exact I; try discriminate.
      intros k Hk. injection Hk as <-. destruct (first_thr_some _ _ _ Ef) as (d & D1 & D2 & _). rewrite Nat.sub_0_r in D1. eauto.
    + injection H as <- <-. destruct s; apply GM0; auto; try exact I; try discriminate. intros _. exact (first_thr_none _ _ Ef).
  - destruct (nth_error (s_cls s) i) as [c|] eqn:Hn; [|discriminate]. destruct (k_thr c); [|discriminate].
    rewrite (at_cls_some _ _ _ _ Hn) in H. injection H as <- <-. unfold with_cls. constructor; sproj; auto; try exact I; try discriminate.
    intros j d Hd. cbn [erased]. destruct (Nat.eq_dec j i) as [->|Nj].
    + rewrite (lset_same _ _ _ _ Hn) in Hd. injection Hd as <-. kproj. eauto.
    + rewrite lset_other in Hd by exact Nj. eauto.
  - injection H as <- <-. unfold with_cls. constructor; sproj; auto; try exact I; try discriminate.
    + intros _ i c Hc. rewrite nth_error_map in Hc. destruct (nth_error (s_cls s) i) as [d|] eqn:E; [|discriminate]. cbn in Hc. injection Hc as <-.
      specialize (P5 eq_refl i d E). unfold erase_failed. destruct (k_status d); exact P5.
    + cbn [erased]. intros i c Hc. rewrite nth_error_map in Hc. destruct (nth_error (s_cls s) i) as [d|] eqn:E; [|discriminate]. cbn in Hc. injection Hc as <-.
      specialize (P6 i d E). unfold erase_failed. destruct (k_status d) eqn:Es; kproj; rewrite ?Es; cbn [kept]; auto.
  - injection H as <- <-. unfold with_joining. apply GM0; auto; try exact I; try discriminate.
  - injection H as <- <-. unfold with_training. apply GM0; auto; try exact I; try discriminate.
  - rewrite P3 in H. injection H as <- <-. destruct s; apply GM0; auto; try exact I; try discriminate.
  - rewrite P2 in H. injection H as <- <-. destruct s; apply GM0; auto; try exact I; try discriminate.
  - injection H as <- <-. unfold emit. apply GM; auto; try exact I; try discriminate.
  - discriminate.
Qed.
