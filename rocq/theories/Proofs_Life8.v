(** Calls made while other classes are training. *)
From Coq Require Import List Bool Arith ZArith Lia.
From Verif Require Import Base Model_Train Model_Life Model_Life2 Spec_Life Spec_Life2 Proofs_Life Proofs_Life2 Proofs_Life3 Proofs_Life4 Proofs_Life5.
Import ListNotations.
Local Open Scope nat_scope.

Record cinv (s : sys) : Prop := mkCi {
  c_u : uinv s;
  c_main : s_main s = MRet;
  c_join : s_join s = [];
  c_spawn : forall i c st, nth_error (s_cls s) i = Some c -> k_pc c <> CSpawn st /\ k_pc c <> CSpawn2 st;
  c_thr : forall i c, nth_error (s_cls s) i = Some c -> k_thr c = true;
  c_count : (Z.of_nat (lsum pend (s_cls s)) <= s_count s)%Z;
  c_decw : forall i c st n, nth_error (s_cls s) i = Some c -> k_pc c = CDecW st n -> (Z.of_nat (lsum pend (s_cls s)) <= n)%Z;
  c_train : s_training s = true;
  c_joining : s_joining s = false;
  c_rep : forall i c, nth_error (s_cls s) i = Some c -> reported (k_pc c) = true -> exists st, st <> Run /\ In (EvClass i st) (s_log s)
}.

(** A class that has not announced its end is counted. *)
Lemma training_pend : forall s j, cinv s -> still_training j s -> (0 < s_count s)%Z /\ forall i c st n, nth_error (s_cls s) i = Some c -> i <> j -> k_pc c = CDecW st n -> (1 < n)%Z.
Proof.
  intros s j C (Hl & Hj). destruct (nth_error (s_cls s) j) as [d|] eqn:Hd; [|apply nth_error_None in Hd; lia].
  assert (R : reported (k_pc d) = false).
  { destruct (reported (k_pc d)) eqn:R; [|reflexivity]. destruct (c_rep _ C j d Hd R) as (st & S1 & S2). destruct (Hj st S1 S2). }
  assert (N : k_pc d <> CNew).
  { destruct (ui_cls _ (c_u _ C) j d Hd) as [_ _ _ UL _ _]. apply UL. rewrite (c_main _ C). exact Hl. }
  assert (P : pend d = 1).
  { unfold pend. destruct (k_pc d); try congruence; try discriminate; try reflexivity. cbn in R. destruct (is_run_status st); [reflexivity|discriminate]. }
  pose proof (lsum_pos pend _ _ _ Hd) as L. pose proof (c_count _ C). split; [lia|].
  intros i c st n Hi Ni Ep. pose proof (c_decw _ C i c st n Hi Ep).
  assert (Pi : pend c = 1) by (unfold pend; rewrite Ep; reflexivity).
  pose proof (lsum_lset pend _ _ (set_pc (CFlag st) c) _ Hi) as Ls. assert (Pz : pend (set_pc (CFlag st) c) = 0) by reflexivity.
  assert (Hd' : nth_error (lset (s_cls s) i (set_pc (CFlag st) c)) j = Some d) by (rewrite lset_other; auto).
  pose proof (lsum_pos pend _ _ _ Hd') as L'. lia.
Qed.

Lemma log_grows : forall bg k s s', step_class bg k s = Some s' -> exists l, s_log s' = s_log s ++ l.
Proof.
  intros bg k s s' H. unfold step_class in H. destruct (nth_error (s_cls s) k) as [c|] eqn:Hn; [|discriminate].
  destruct (k_pc c); try discriminate; repeat match type of H with
    | context [if ?b then _ else _] => destruct b eqn:?
    | context [match ?x with O => _ | S _ => _ end] => destruct x eqn:?
    | context [match s_mutex ?s with _ => _ end] => destruct (s_mutex s) eqn:?
    end; try discriminate; rewrite ?(at_cls_some _ _ _ _ Hn) in H; injection H as <-; try (exists []; rewrite app_nil_r; reflexivity); eexists; reflexivity.
Qed.

(** A step of a class thread. *)
Lemma cinv_class : forall j k s s', cinv s -> still_training j s' -> step_class true k s = Some s' -> cinv s'.
Proof.
  intros j k s s' C J H. pose proof (uinv_step_class _ _ _ _ (c_u _ C) H) as U'.
  destruct (log_grows _ _ _ _ H) as (ev0 & Elog).
  assert (J0 : length (s_cls s') = length (s_cls s) -> still_training j s).
  { intro E. destruct J as (J1 & J2). split; [lia|]. intros st S1 S2. apply (J2 st S1). rewrite Elog. apply in_or_app. auto. }
  unfold step_class in H. destruct (nth_error (s_cls s) k) as [c|] eqn:Hn; [|discriminate].
  destruct (ui_cls _ (c_u _ C) k c Hn) as [UM US (UO & UO') UL UN UT].
  destruct (c_spawn _ C k c Run Hn) as (Sp1 & Sp2).
  assert (G : forall c' mu ct ev, s' = mkSys (lset (s_cls s) k c') (s_main s) (s_join s) mu ct (s_training s) (s_joining s) (s_creq s) (s_log s ++ ev) ->
     k_thr c' = k_thr c -> (forall st, k_pc c' <> CSpawn st /\ k_pc c' <> CSpawn2 st) ->
     (pend c' <= pend c /\ ct = s_count s \/ pend c' = 0 /\ pend c = 1 /\ (Z.of_nat (lsum pend (s_cls s)) <= ct + 1)%Z) ->
     (forall st n, k_pc c' = CDecW st n -> n = s_count s) ->
     (reported (k_pc c') = true -> reported (k_pc c) = true \/ exists st, st <> Run /\ ev = [EvClass k st]) -> cinv s').
  { intros c' mu ct ev -> A1 A2 A3 A4 A5. pose proof (lsum_lset pend _ _ c' _ Hn) as Ls. destruct C as [C1 C2 C3 C4 C5 C6 C7 C8 C9 C10].
    constructor; sproj; auto.
    - intros i d st Hd. destruct (Nat.eq_dec i k) as [->|N]; [rewrite (lset_same _ _ _ _ Hn) in Hd; injection Hd as <-; apply A2|rewrite lset_other in Hd by exact N; eauto].
    - intros i d Hd. destruct (Nat.eq_dec i k) as [->|N]; [rewrite (lset_same _ _ _ _ Hn) in Hd; injection Hd as <-; rewrite A1; eauto|rewrite lset_other in Hd by exact N; eauto].
    - destruct A3 as [(A3 & ->)|(A3 & A3' & A3'')]; lia.
    - intros i d st n Hd Ed. destruct (Nat.eq_dec i k) as [->|N].
      + rewrite (lset_same _ _ _ _ Hn) in Hd. injection Hd as <-. rewrite (A4 st n Ed).
        assert (pend c' = 1) by (unfold pend; rewrite Ed; reflexivity). destruct A3 as [(A3 & ->)|(A3 & _)]; lia.
      + rewrite lset_other in Hd by exact N. specialize (C7 i d st n Hd Ed). destruct A3 as [(A3 & _)|(A3 & A3' & _)]; lia.
    - intros i d Hd R. destruct (Nat.eq_dec i k) as [->|N].
      + rewrite (lset_same _ _ _ _ Hn) in Hd. injection Hd as <-. destruct (A5 R) as [Rc|(st & S1 & ->)].
        * destruct (C10 k c Hn Rc) as (st & S1 & S2). exists st. split; [exact S1|apply in_or_app; auto].
        * exists st. split; [exact S1|apply in_or_app; right; left; reflexivity].
      + rewrite lset_other in Hd by exact N. destruct (C10 i d Hd R) as (st & S1 & S2). exists st. split; [exact S1|apply in_or_app; auto]. }
  assert (G0 : forall c' mu ct, s' = mkSys (lset (s_cls s) k c') (s_main s) (s_join s) mu ct (s_training s) (s_joining s) (s_creq s) (s_log s) ->
     k_thr c' = k_thr c -> (forall st, k_pc c' <> CSpawn st /\ k_pc c' <> CSpawn2 st) ->
     (pend c' <= pend c /\ ct = s_count s \/ pend c' = 0 /\ pend c = 1 /\ (Z.of_nat (lsum pend (s_cls s)) <= ct + 1)%Z) ->
     (forall st n, k_pc c' = CDecW st n -> n = s_count s) ->
     (reported (k_pc c') = true -> reported (k_pc c) = true) -> cinv s').
  { intros c' mu ct A0 A1 A2 A3 A4 A5. apply (G c' mu ct []); auto. rewrite app_nil_r. exact A0. }
  assert (Ej : s_joining s = false) by apply (c_joining _ C).
  assert (Cp : length (s_cls s') = length (s_cls s) -> (s_count s =? 0)%Z = false).
  { intro E. apply Z.eqb_neq. pose proof (training_pend s j C (J0 E)) as (L & _). lia. }
  destruct (k_pc c) eqn:Ep; try discriminate.
  all: repeat match type of H with
    | context [if ?b then _ else _] => destruct b eqn:?
    | context [match ?x with O => _ | S _ => _ end] => destruct x eqn:?
    | context [match s_mutex ?s with _ => _ end] => destruct (s_mutex s) eqn:?
    end; try discriminate; try (destruct (c_spawn _ C k c st Hn); congruence);
    rewrite ?(at_cls_some _ _ _ _ Hn) in H; injection H as <-; unfold with_cls, with_mutex, with_count, with_joining, with_join, emit in *; sproj.
  all: try (eapply G0; [reflexivity|reflexivity|kproj; intros; split; discriminate|left; split; [unfold pend; kproj; rewrite ?Ep; cbn; try lia; destruct st; cbn; lia|reflexivity]|
       kproj; intros ? ? E; try discriminate; injection E; auto|kproj; cbn; auto; try discriminate]; fail).
  - eapply G; [reflexivity|reflexivity|kproj; intros; split; discriminate|left; split; [unfold pend; kproj; rewrite ?Ep; destruct st; cbn; lia|reflexivity]|kproj; discriminate|].
    kproj. cbn. destruct st; try discriminate; intros; left; discriminate.
  - eapply G; [reflexivity|reflexivity|kproj; intros; split; discriminate|left; split; [unfold pend; kproj; rewrite ?Ep; destruct st; cbn; lia|reflexivity]|kproj; discriminate|].
    intros _. right. exists st. split; [destruct st; discriminate|reflexivity].
  - eapply G0; [reflexivity|reflexivity|kproj; intros; split; discriminate| |kproj; discriminate|auto].
    right. split; [reflexivity|]. split; [unfold pend; rewrite Ep; reflexivity|]. pose proof (c_decw _ C k c st n Hn Ep). lia.
  - assert (St : is_run_status st = false) by (destruct st; try reflexivity; exfalso; exact (UO' eq_refl Run eq_refl eq_refl)).
    eapply G0; [reflexivity|reflexivity|kproj; intros; split; discriminate|left; split; [unfold pend; kproj; rewrite ?Ep, St; lia|reflexivity]|kproj; discriminate|auto].
  - assert (St : is_run_status st = false) by (destruct st; try reflexivity; exfalso; exact (UO' eq_refl Run eq_refl eq_refl)).
    eapply G0; [reflexivity|reflexivity|kproj; intros; split; discriminate|left; split; [unfold pend; kproj; rewrite ?Ep, St; lia|reflexivity]|kproj; discriminate|auto].
  - specialize (Cp (lset_length _ _ _)). congruence.
  - assert (St : is_run_status st = false) by (destruct st; try reflexivity; exfalso; exact (UO' eq_refl Run eq_refl eq_refl)).
    eapply G0; [reflexivity|reflexivity|kproj; intros; split; discriminate|left; split; [unfold pend; kproj; rewrite ?Ep, St; lia|reflexivity]|kproj; discriminate|auto].
  - eapply G0; [reflexivity|reflexivity|kproj; intros; destruct st; split; discriminate|left; split; [unfold pend; kproj; rewrite ?Ep; destruct st; cbn; lia|reflexivity]|kproj; destruct st; discriminate|].
    kproj. destruct st; cbn; auto; discriminate.
Qed.

(** Changes that do not concern it. *)
Lemma uinv_same : forall s s', uinv s -> s_main s' = s_main s -> s_join s' = s_join s -> s_mutex s' = s_mutex s -> length (s_cls s') = length (s_cls s) ->
  (forall i c', nth_error (s_cls s') i = Some c' -> exists c, nth_error (s_cls s) i = Some c /\ k_pc c' = k_pc c /\ k_status c' = k_status c /\ k_thr c' = k_thr c) -> uinv s'.
Proof.
  intros s s' [U1 U2 U3 U4] Em Ej Emu El H. constructor.
  - intros i c' Hc. destruct (H i c' Hc) as (c & C1 & C2 & C3 & C4). destruct (U1 i c C1) as [V1 V2 V3 V4 V5 V6]. rewrite El, Em, Emu. constructor; rewrite ?C2, ?C3, ?C4; auto.
  - rewrite El, Emu. exact U2.
  - rewrite Em, Ej. intros i Hi. destruct (U3 i Hi) as (c & st & C1 & C2). destruct (nth_error (s_cls s') i) as [c'|] eqn:E.
    + destruct (H i c' E) as (d & D1 & D2 & _). exists c', st. split; [reflexivity|congruence].
    + apply nth_error_None in E. assert (i < length (s_cls s)) by (apply nth_error_Some; congruence). lia.
  - rewrite Em, El. exact U4.
Qed.

Lemma lsum_same : forall l l', length l' = length l -> (forall i c', nth_error l' i = Some c' -> exists c, nth_error l i = Some c /\ k_pc c' = k_pc c) -> lsum pend l' = lsum pend l.
Proof.
  induction l as [|c l IH]; intros [|c' l'] E H; try discriminate; [reflexivity|]. unfold lsum. cbn [fold_right].
  destruct (H 0 c' eq_refl) as (d & D1 & D2). injection D1 as <-. f_equal; [unfold pend; rewrite D2; reflexivity|]. apply (IH l'); [injection E; auto|]. intros i c2 Hc. exact (H (S i) c2 Hc).
Qed.

Lemma cinv_same : forall s s', cinv s -> s_main s' = s_main s -> s_join s' = s_join s -> s_mutex s' = s_mutex s -> length (s_cls s') = length (s_cls s) ->
  (forall i c', nth_error (s_cls s') i = Some c' -> exists c, nth_error (s_cls s) i = Some c /\ k_pc c' = k_pc c /\ k_status c' = k_status c /\ k_thr c' = k_thr c) ->
  (Z.of_nat (lsum pend (s_cls s)) <= s_count s')%Z -> s_training s' = true -> s_joining s' = false -> s_log s' = s_log s -> cinv s'.
Proof.
  intros s s' C Em Ej Emu El H Hc Ht Hj Hlg.
  assert (LS : lsum pend (s_cls s') = lsum pend (s_cls s)) by (apply lsum_same; [exact El|]; intros i c' Hi; destruct (H i c' Hi) as (c & D1 & D2 & _); eauto).
  pose proof (uinv_same s s' (c_u _ C) Em Ej Emu El H) as U'. destruct C as [C1 C2 C3 C4 C5 C6 C7 C8 C9 C10].
  constructor; auto; try congruence.
  - intros i c' st Hi. destruct (H i c' Hi) as (c & D1 & D2 & _). rewrite D2. eauto.
  - intros i c' Hi. destruct (H i c' Hi) as (c & D1 & D2 & D3 & D4). rewrite D4. eauto.
  - intros i c' st n Hi Ep. destruct (H i c' Hi) as (c & D1 & D2 & _). rewrite LS. rewrite D2 in Ep. eauto.
  - intros i c' Hi R. destruct (H i c' Hi) as (c & D1 & D2 & _). rewrite Hlg. rewrite D2 in R. eauto.
Qed.

Lemma lset_rel : forall l k c c', nth_error l k = Some c -> k_pc c' = k_pc c -> k_status c' = k_status c -> k_thr c' = k_thr c ->
  forall i d', nth_error (lset l k c') i = Some d' -> exists d, nth_error l i = Some d /\ k_pc d' = k_pc d /\ k_status d' = k_status d /\ k_thr d' = k_thr d.
Proof.
  intros l k c c' Hn E1 E2 E3 i d' Hd. destruct (Nat.eq_dec i k) as [->|N].
  - rewrite (lset_same _ _ _ _ Hn) in Hd. injection Hd as <-. eauto.
  - rewrite lset_other in Hd by exact N. eauto.
Qed.

(** The place in the call, the flags of the class and the classes of the model. *)
Definition place (i : nat) (o : lop) (z : csys) : Prop :=
  let s := cs_sys z in
  (match o with ORemove => True | _ => cs_freed z = false /\ forall k c, nth_error (s_cls s) k = Some c -> k_alive c = true end) /\
  exists c, nth_error (s_cls s) i = Some c /\
  match cs_pc z, o with
  | LSpin, ORemove | L0, _ | LAlive, _ | LReq, _ | LSet, _ | LWait, _ => k_alive c = true
  | LCount, _ | LClr, _ => k_alive c = true /\ k_flag c = false
  | LErase, ORemove => k_alive c = true
  | LCheck, ORemove | LThrow RuntimeError, ORemove => k_alive c = false
  | LTrue, ORetrain _ | LAdd, ORetrain _ => k_flag c = false
  | LFlag, ORetrain _ | LCanc, ORetrain _ | LCnt, ORetrain _ | LSpawn, ORetrain _ | LAbort, ORetrain _ => True
  | LCntW n, ORetrain _ => (Z.of_nat (lsum pend (s_cls s)) <= n)%Z
  | LRet, OCancel => k_flag c = false
  | _, _ => False
  end.

Lemma class_flags : forall k s s', step_class true k s = Some s' -> forall i c, nth_error (s_cls s) i = Some c ->
  exists c', nth_error (s_cls s') i = Some c' /\ k_alive c' = k_alive c /\ (k_flag c = false -> k_flag c' = false).
Proof.
  intros k s s' H i c Hi. unfold step_class in H. destruct (nth_error (s_cls s) k) as [d|] eqn:Hn; [|discriminate].
  assert (G : forall d', k_alive d' = k_alive d -> (k_flag d = false -> k_flag d' = false) -> s_cls s' = lset (s_cls s) k d' ->
     exists c', nth_error (s_cls s') i = Some c' /\ k_alive c' = k_alive c /\ (k_flag c = false -> k_flag c' = false)).
  { intros d' A1 A2 ->. destruct (Nat.eq_dec i k) as [->|N].
    - rewrite Hn in Hi. injection Hi as <-. exists d'. rewrite (lset_same _ _ _ _ Hn). auto.
    - exists c. rewrite lset_other by exact N. auto. }
  destruct (k_pc d); try discriminate; repeat match type of H with
    | context [if ?b then _ else _] => destruct b eqn:?
    | context [match ?x with O => _ | S _ => _ end] => destruct x eqn:?
    | context [match s_mutex ?s with _ => _ end] => destruct (s_mutex s) eqn:?
    end; try discriminate; rewrite ?(at_cls_some _ _ _ _ Hn) in H; injection H as <-; (eapply G; [| |reflexivity]); kproj; auto.
Qed.

Lemma class_alive_back : forall k s s', step_class true k s = Some s' -> forall i c', nth_error (s_cls s') i = Some c' ->
  exists c, nth_error (s_cls s) i = Some c /\ k_alive c' = k_alive c.
Proof.
  intros k s s' H i c' Hi. assert (L : length (s_cls s') = length (s_cls s)).
  { unfold step_class in H. destruct (nth_error (s_cls s) k) as [d|] eqn:Hn; [|discriminate].
    destruct (k_pc d); try discriminate; repeat match type of H with
    | context [if ?b then _ else _] => destruct b eqn:?
    | context [match ?x with O => _ | S _ => _ end] => destruct x eqn:?
    | context [match s_mutex ?s with _ => _ end] => destruct (s_mutex s) eqn:?
    end; try discriminate; rewrite ?(at_cls_some _ _ _ _ Hn) in H; injection H as <-; unfold with_mutex, with_cls, with_count, with_join, with_joining, emit; sproj; apply lset_length. }
  destruct (nth_error (s_cls s) i) as [c|] eqn:E.
  - destruct (class_flags k s s' H i c E) as (d & D1 & D2 & _). rewrite Hi in D1. injection D1 as <-. eauto.
  - apply nth_error_None in E. assert (i < length (s_cls s')) by (apply nth_error_Some; congruence). lia.
Qed.

Lemma pend_class : forall k s s', uinv s -> step_class true k s = Some s' -> lsum pend (s_cls s') <= lsum pend (s_cls s).
Proof.
  intros k s s' U H. unfold step_class in H. destruct (nth_error (s_cls s) k) as [d|] eqn:Hn; [|discriminate].
  destruct (ui_cls _ U k d Hn) as [_ _ (_ & UO) _ _ _].
  assert (G : forall d', pend d' <= pend d -> s_cls s' = lset (s_cls s) k d' -> lsum pend (s_cls s') <= lsum pend (s_cls s)).
  { intros d' A ->. pose proof (lsum_lset pend _ _ d' _ Hn). lia. }
  destruct (k_pc d) eqn:Ep; try discriminate; repeat match type of H with
    | context [if ?b then _ else _] => destruct b eqn:?
    | context [match ?x with O => _ | S _ => _ end] => destruct x eqn:?
    | context [match s_mutex ?s with _ => _ end] => destruct (s_mutex s) eqn:?
    end; try discriminate; rewrite ?(at_cls_some _ _ _ _ Hn) in H; injection H as <-; (eapply G; [|reflexivity]); unfold pend; kproj; rewrite ?Ep; try (destruct st; try (exfalso; exact (UO eq_refl Run eq_refl eq_refl))); cbn; lia.
Qed.

Lemma zinv_step : forall i o j t b z z', j <> i -> cinv (cs_sys z) -> place i o z -> still_training j (cs_sys z') -> step2 i o t b z = Some z' ->
  cinv (cs_sys z') /\ place i o z'.
Proof.
  intros i o j t b [s l f] z' Nj C (PA & c & Hc & PP) ST H. cbn [cs_sys cs_pc cs_freed] in *.
  destruct t as [|k|k].
  - (* the call *)
    assert (H' : exists s1 l1, step_call i o b l s = Some (s1, l1) /\ z' = mkC s1 l1 f).
    { unfold step2 in H. cbn [cs_pc cs_sys cs_freed] in H. destruct l; try discriminate; destruct (step_call _ _ _ _ _) as [[s1 l1]|] eqn:E; try discriminate; injection H as <-; eauto. }
    clear H. destruct H' as (s1 & l1 & H & ->). cbn [cs_sys] in ST.
    (* a change of the class that keeps its thread *)
    assert (G : forall c' l1, k_pc c' = k_pc c -> k_status c' = k_status c -> k_thr c' = k_thr c ->
       (match o with ORemove => True | _ => k_alive c' = true end) ->
       (match l1, o with
        | LWait, _ => k_alive c' = true | LCheck, ORemove => k_alive c' = false
        | LFlag, ORetrain _ | LCanc, ORetrain _ | LCnt, ORetrain _ => True | _, _ => False end) ->
       cinv (with_cls (lset (s_cls s) i c') s) /\ place i o (mkC (with_cls (lset (s_cls s) i c') s) l1 f)).
    { intros c' l2 A1 A2 A3 A4 A5. split.
      - apply (cinv_same s); auto; unfold with_cls; sproj; try apply C; [apply lset_length|]. apply (lset_rel _ _ _ _ Hc A1 A2 A3).
      - unfold place, with_cls; cbn [cs_sys cs_pc cs_freed]; sproj. split.
        + destruct o; auto; destruct PA as (PA1 & PA2); (split; [exact PA1|]); intros k d Hd; (destruct (Nat.eq_dec k i) as [->|N]; [rewrite (lset_same _ _ _ _ Hc) in Hd; injection Hd as <-; exact A4|rewrite lset_other in Hd by exact N; eauto]).
        + exists c'. rewrite (lset_same _ _ _ _ Hc). split; [reflexivity|]. destruct l2; try contradiction; destruct o; try contradiction; auto. }
    assert (G1 : forall c' l1, k_pc c' = k_pc c -> k_status c' = k_status c -> k_thr c' = k_thr c ->
       (match o with ORemove => True | _ => k_alive c' = true end) ->
       (match l1, o with
        | LWait, _ => k_alive c' = true | LCheck, ORemove => k_alive c' = false
        | LFlag, ORetrain _ | LCanc, ORetrain _ | LCnt, ORetrain _ => True | _, _ => False end) ->
       forall g, g c = c' -> cinv (at_cls i g s) /\ place i o (mkC (at_cls i g s) l1 f)).
    { intros c' l2 A1 A2 A3 A4 A5 g Eg. rewrite (at_cls_some _ _ _ _ Hc), Eg. apply G; auto. }
    (* no change of the classes *)
    assert (GS : forall ct cr l1, (Z.of_nat (lsum pend (s_cls s)) <= ct)%Z -> place i o (mkC s l1 f) ->
       cinv (mkSys (s_cls s) (s_main s) (s_join s) (s_mutex s) ct true (s_joining s) cr (s_log s)) /\
       place i o (mkC (mkSys (s_cls s) (s_main s) (s_join s) (s_mutex s) ct true (s_joining s) cr (s_log s)) l1 f)).
    { intros ct cr l2 A1 A2. split; [|exact A2]. apply (cinv_same s); auto; sproj; try apply C; eauto. }
    assert (GN : forall l1, place i o (mkC s l1 f) -> cinv s /\ place i o (mkC s l1 f)) by (intros; split; assumption).
    assert (AL : alive_at s i = k_alive c) by (unfold alive_at; rewrite Hc; reflexivity).
    assert (CT : (0 < s_count s)%Z).
    { eapply (training_pend s j C). destruct ST as (S1 & S2). split; [destruct C as [_ _ _ _ _ _ _ _ _ _]|].
      - assert (L : length (s_cls s1) = length (s_cls s)); [|lia].
        destruct l; cbn [step_call] in H; unfold on_cls in H; rewrite ?Hc, ?AL in H; try destruct o; cbn in PP; try contradiction; repeat match type of H with
          | context [if ?b then _ else _] => destruct b eqn:?
          end; try discriminate; injection H as <- <-; rewrite ?(at_cls_some _ _ _ _ Hc); unfold with_cls, with_creq, with_training, with_count; sproj; rewrite ?lset_length; reflexivity.
      - assert (L : s_log s1 = s_log s); [|rewrite <- L; exact S2].
        destruct l; cbn [step_call] in H; unfold on_cls in H; rewrite ?Hc, ?AL in H; try destruct o; cbn in PP; try contradiction; repeat match type of H with
          | context [if ?b then _ else _] => destruct b eqn:?
          end; try discriminate; injection H as <- <-; rewrite ?(at_cls_some _ _ _ _ Hc); reflexivity. }
    assert (CZ : (s_count s =? 0)%Z = false) by (apply Z.eqb_neq; lia).
    pose proof (c_train _ C) as ET. pose proof (c_joining _ C) as EJ. pose proof (c_thr _ C i c Hc) as EH. pose proof (c_count _ C) as EC.
    assert (PL : forall l1, match l1, o with
  | LSpin, ORemove | L0, _ | LAlive, _ | LReq, _ | LSet, _ | LWait, _ => k_alive c = true
  | LCount, _ | LClr, _ => k_alive c = true /\ k_flag c = false
  | LErase, ORemove => k_alive c = true
  | LCheck, ORemove | LThrow RuntimeError, ORemove => k_alive c = false
  | LTrue, ORetrain _ | LAdd, ORetrain _ => k_flag c = false
  | LFlag, ORetrain _ | LCanc, ORetrain _ | LCnt, ORetrain _ | LSpawn, ORetrain _ | LAbort, ORetrain _ => True
  | LCntW n, ORetrain _ => (Z.of_nat (lsum pend (s_cls s)) <= n)%Z
  | LRet, OCancel => k_flag c = false
  | _, _ => False
  end -> place i o (mkC s l1 f)) by (intros l2 A; unfold place; cbn [cs_sys cs_pc cs_freed]; split; [exact PA|exists c; auto]).
    assert (AO : match o with ORemove => True | _ => k_alive c = true end) by (destruct o; auto; destruct PA as (_ & PA2); eauto).
    destruct l; cbn [step_call] in H; try contradiction; unfold on_cls in H; rewrite ?Hc, ?AL, ?ET, ?EJ, ?CZ in H.
    + destruct o; try contradiction. injection H as <- <-. auto.
    + injection H as <- <-. apply GN, PL. destruct o; exact PP.
    + assert (PP' : k_alive c = true) by (destruct o; exact PP). rewrite PP' in H. injection H as <- <-. apply GN, PL. destruct o; exact PP.
    + injection H as <- <-. unfold with_creq; sproj. rewrite ET. apply GS; [exact EC|]. apply PL. destruct o; exact PP.
    + assert (PP' : k_alive c = true) by (destruct o; exact PP). rewrite PP' in H. injection H as <- <-. eapply G1; [..|reflexivity]; destruct (k_flag c); kproj; auto; destruct o; auto.
    + destruct (k_flag c) eqn:Ef; [discriminate|]. injection H as <- <-. apply GN, PL. destruct o; auto.
    + injection H as <- <-. apply GN, PL. destruct o; exact PP.
    + assert (PP' : k_alive c = true /\ k_flag c = false) by (destruct o; exact PP). injection H as <- <-. unfold with_creq; sproj. rewrite ET. apply GS; [exact EC|]. apply PL. destruct o; tauto.
    + destruct o; try contradiction. rewrite PP in H. injection H as <- <-. eapply G1; [..|reflexivity]; kproj; auto.
    + destruct o; try contradiction. injection H as <- <-. apply GN, PL. exact PP.
    + destruct o; try contradiction. injection H as <- <-. unfold with_training; sproj. apply GS; [exact EC|]. apply PL. exact PP.
    + destruct o; try contradiction. rewrite AO, PP in H. injection H as <- <-. apply GN, PL. exact I.
    + destruct o; try contradiction. rewrite AO in H. injection H as <- <-. eapply G1; [..|reflexivity]; kproj; auto.
    + destruct o; try contradiction. rewrite AO in H. injection H as <- <-. eapply G1; [..|reflexivity]; kproj; auto.
    + destruct o; try contradiction. injection H as <- <-. apply GN, PL. exact EC.
    + destruct o; try contradiction. injection H as <- <-. unfold with_count; sproj. rewrite ET. apply GS; [lia|]. apply PL. exact I.
    + destruct o; try contradiction. rewrite EH in H. injection H as <- <-. apply GN, PL. exact I.
    + discriminate.
    + discriminate.
    + discriminate.
  - (* a class *)
    assert (H' : exists s1, step_class true k s = Some s1 /\ z' = mkC s1 l (f || negb (alive_at s k))).
    { unfold step2 in H. cbn [cs_pc cs_sys cs_freed] in H. destruct l; try discriminate; destruct (step_class true k s) as [s1|] eqn:E; try discriminate; injection H as <-; eauto. }
    destruct H' as (s1 & H1 & ->). cbn [cs_sys] in ST |- *. split; [exact (cinv_class j k s s1 C ST H1)|]. unfold place. cbn [cs_sys cs_pc cs_freed].
    destruct (class_flags k s s1 H1 i c Hc) as (c' & D1 & D2 & D3). split.
    + assert (Q : (f = false /\ (forall k c, nth_error (s_cls s) k = Some c -> k_alive c = true)) ->
        f || negb (alive_at s k) = false /\ (forall k c, nth_error (s_cls s1) k = Some c -> k_alive c = true)).
      { intros (Q1 & Q2). split.
        - assert (A : alive_at s k = true); [|rewrite Q1, A; reflexivity]. unfold alive_at. destruct (nth_error (s_cls s) k) as [d|] eqn:E; [eauto|].
          unfold step_class in H1. rewrite E in H1. discriminate.
        - intros k' d Hd. destruct (class_alive_back k s s1 H1 k' d Hd) as (d0 & E1 & E2). rewrite E2. eauto. }
      destruct o; auto.
    + exists c'. split; [exact D1|]. rewrite D2. pose proof (pend_class k s s1 (c_u _ C) H1) as LP.
      destruct l; try contradiction; destruct o; try contradiction; auto; try (destruct PP; split; auto; fail). lia.
  - (* no joining thread *)
    unfold step2 in H. cbn [cs_pc cs_sys cs_freed step] in H. rewrite (c_join _ C) in H. destruct k; destruct l; discriminate.
Qed.
