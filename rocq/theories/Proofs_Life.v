(** The training protocol: facts that hold in every mode. *)
From Coq Require Import List Bool Arith ZArith Lia.
From Verif Require Import Base Model_Train Model_Life.
Import ListNotations.
Local Open Scope nat_scope.

Lemma lset_length : forall {X} (l : list X) i x, length (lset l i x) = length l.
Proof. induction l as [|y l IH]; intros [|i] x; cbn; auto. Qed.

Lemma lset_nth : forall {X} (l : list X) i x j, nth_error (lset l i x) j =
  if (j =? i) && (i <? length l) then Some x else nth_error l j.
Proof.
  induction l as [|y l IH]; intros i x j; cbn [lset length].
  - replace (i <? 0) with false by (symmetry; apply Nat.ltb_ge; lia). rewrite andb_false_r. destruct i; reflexivity.
  - destruct i as [|i], j as [|j]; cbn [nth_error Nat.eqb]; try reflexivity.
    rewrite IH. reflexivity.
Qed.

Lemma lset_same : forall {X} (l : list X) i x y, nth_error l i = Some y -> nth_error (lset l i x) i = Some x.
Proof.
  intros X l i x y H. rewrite lset_nth, Nat.eqb_refl. assert (i < length l) by (apply nth_error_Some; congruence).
  replace (i <? length l) with true by (symmetry; apply Nat.ltb_lt; lia). reflexivity.
Qed.

Lemma lset_other : forall {X} (l : list X) i x j, j <> i -> nth_error (lset l i x) j = nth_error l j.
Proof. intros X l i x j H. rewrite lset_nth. replace (j =? i) with false by (symmetry; apply Nat.eqb_neq; exact H). reflexivity. Qed.

Lemma at_cls_some : forall i f s c, nth_error (s_cls s) i = Some c -> at_cls i f s = with_cls (lset (s_cls s) i (f c)) s.
Proof. intros i f s c H. unfold at_cls. rewrite H. reflexivity. Qed.

(** Inside the region protected by the event mutex. *)
Definition critical (p : cpc) : bool :=
  match p with
  | CFwd _ | CDec _ | CDecW _ _ | CFlag _ | CChk1 _ | CChk2 _ | CChk3 _ | CSpawn _ | CSpawn2 _ | CUnlock _ => true
  | _ => false
  end.

Definition pc_status (p : cpc) : option status :=
  match p with
  | CNew | CStart => None
  | CLoop | CWork | CErr | CErr2 => Some Run
  | CNotify st | CFwd st | CDec st | CDecW st _ | CFlag st | CChk1 st | CChk2 st | CChk3 st
  | CSpawn st | CSpawn2 st | CUnlock st | CFin st | CEnd st => Some st
  end.

(** Past the forwarding of the last event. *)
Definition reported (p : cpc) : bool :=
  match p with
  | CDec _ | CDecW _ _ | CFlag _ | CChk1 _ | CChk2 _ | CChk3 _ | CSpawn _ | CSpawn2 _ | CFin _ | CEnd _ => true
  | CUnlock st => negb (is_run_status st)
  | _ => false
  end.

Definition pc_ok (p : cpc) : Prop :=
  (forall st, pc_status p = Some st -> st <> Alldone) /\
  (reported p = true -> forall st, pc_status p = Some st -> st <> Run).

(** The classes that have been launched. *)
Definition lbound (m : mpc) (n : nat) : nat :=
  match m with MFlag i | MCanc i | MCnt i | MCntW i _ | MSpawn i => i | _ => n end.

Definition joins (m : mpc) : list jpc := match m with MJoin j | XJoin j => [j] | _ => [] end.

Record ucls (n : nat) (m : mpc) (mu : option nat) (i : nat) (c : cls) : Prop := mkU {
  u_mutex : critical (k_pc c) = true <-> mu = Some i;
  u_status : forall st, pc_status (k_pc c) = Some st -> k_status c = st;
  u_ok : pc_ok (k_pc c);
  u_launch : (i < lbound m n <-> k_pc c <> CNew);
  u_thr_new : k_pc c = CNew -> k_thr c = false;
  u_thr : k_pc c <> CNew -> k_thr c = false -> exists st, k_pc c = CEnd st
}.

Record uinv (s : sys) : Prop := mkUinv {
  ui_cls : forall i c, nth_error (s_cls s) i = Some c -> ucls (length (s_cls s)) (s_main s) (s_mutex s) i c;
  ui_mutex : forall i, s_mutex s = Some i -> i < length (s_cls s);
  ui_j3 : forall i, In (J3 i) (joins (s_main s) ++ s_join s) -> exists c st, nth_error (s_cls s) i = Some c /\ k_pc c = CEnd st;
  ui_main : lbound (s_main s) (length (s_cls s)) <= length (s_cls s) /\
            match s_main s with MCanc i | MCnt i | MCntW i _ | MSpawn i => i < length (s_cls s) | _ => True end
}.

Lemma first_thr_some : forall l k i, first_thr l k = Some i -> exists c, nth_error l (i - k) = Some c /\ k_thr c = true /\ k <= i.
Proof.
  induction l as [|c l IH]; intros k i H; [discriminate|]. cbn in H. destruct (k_thr c) eqn:E.
  - injection H as <-. exists c. rewrite Nat.sub_diag. auto.
  - destruct (IH (S k) i H) as (c' & H1 & H2 & H3). exists c'. replace (i - k) with (S (i - S k)) by lia. cbn. split; [exact H1|split; [exact H2|lia]].
Qed.

Lemma first_thr_none : forall l k, first_thr l k = None -> forall i c, nth_error l i = Some c -> k_thr c = false.
Proof.
  induction l as [|c l IH]; intros k H i c' Hn; [destruct i; discriminate|]. cbn in H. destruct (k_thr c) eqn:E; [discriminate|].
  destruct i; cbn in Hn; [congruence|eauto].
Qed.

(** The components of a state. *)
Ltac sproj := cbn [s_cls s_main s_join s_mutex s_count s_training s_joining s_creq s_log
  with_cls with_main with_join with_mutex with_count with_training with_joining with_creq emit] in *.
Ltac kproj := cbn [k_pc k_left k_good k_status k_flag k_cancel k_alive k_thr set_pc set_left set_status set_flag set_cancel set_alive set_thr] in *.

(** A change of one class that does not touch what the universal invariant says about the others. *)
Lemma uinv_class : forall s i c c' m' js' mu' ct tr jo cr lg,
  uinv s -> nth_error (s_cls s) i = Some c ->
  ucls (length (s_cls s)) m' mu' i c' ->
  lbound m' (length (s_cls s)) = lbound (s_main s) (length (s_cls s)) ->
  (forall j, j <> i -> (mu' = Some j <-> s_mutex s = Some j)) ->
  (forall j, mu' = Some j -> j < length (s_cls s)) ->
  (forall k, In (J3 k) (joins m' ++ js') -> In (J3 k) (joins (s_main s) ++ s_join s)) ->
  (forall st, k_pc c = CEnd st -> k_pc c' = CEnd st) ->
  match m' with MCanc i | MCnt i | MCntW i _ | MSpawn i => i < length (s_cls s) | _ => True end ->
  uinv (mkSys (lset (s_cls s) i c') m' js' mu' ct tr jo cr lg).
Proof.
  intros s i c c' m' js' mu' ct tr jo cr lg [U1 U2 U3 U4] Hn Hc Hb Hmu Hmu2 Hj He Hm. constructor; sproj; rewrite ?lset_length.
  - intros j d Hd. destruct (Nat.eq_dec j i) as [->|Nj].
    + rewrite (lset_same _ _ _ _ Hn) in Hd. injection Hd as <-. exact Hc.
    + rewrite lset_other in Hd by exact Nj. destruct (U1 j d Hd) as [V1 V2 V3 V4 V5 V6]. constructor; auto.
      * rewrite (Hmu j Nj). exact V1.
      * rewrite Hb. exact V4.
  - exact Hmu2.
  - intros k Hk. destruct (U3 k (Hj k Hk)) as (d & st & D1 & D2). destruct (Nat.eq_dec k i) as [->|Nk].
    + exists c', st. split; [exact (lset_same _ _ _ _ Hn)|]. apply He. congruence.
    + exists d, st. rewrite lset_other by exact Nk. auto.
  - rewrite Hb. split; [apply U4|exact Hm].
Qed.

Ltac upc := let P := fresh "P" in
  match goal with U : ucls _ _ _ _ ?c |- _ => destruct U as [UM US UO UL UN UT] end.

Lemma uinv_step_class : forall bg i s s', uinv s -> step_class bg i s = Some s' -> uinv s'.
Proof.
  intros bg i s s' U H. unfold step_class in H. destruct (nth_error (s_cls s) i) as [c|] eqn:Hn; [|discriminate].
  pose proof (ui_cls _ U i c Hn) as Uc. pose proof (ui_main _ U) as (Hb & Hm).
  assert (Hlt : i < length (s_cls s)) by (apply nth_error_Some; congruence).
  destruct Uc as [UM US UO UL UN UT].
  assert (G : forall (c' : cls) mu' js' ct jo lg, 
     (critical (k_pc c') = true <-> mu' = Some i) -> (forall st, pc_status (k_pc c') = Some st -> k_status c' = st) ->
     pc_ok (k_pc c') -> k_pc c <> CNew -> k_pc c' <> CNew -> (forall st, k_pc c <> CEnd st) -> k_thr c' = k_thr c ->
     (mu' = s_mutex s \/ (s_mutex s = None /\ mu' = Some i) \/ (s_mutex s = Some i /\ mu' = None)) ->
     (js' = s_join s \/ js' = s_join s ++ [J0]) ->
     uinv (mkSys (lset (s_cls s) i c') (s_main s) js' mu' ct (s_training s) jo (s_creq s) lg)).
  { intros c' mu' js' ct jo lg A1 A2 A3 A4 A5 A6 A7 A8 A9. eapply uinv_class; eauto.
    - constructor; auto.
      + tauto.
      + intro; contradiction.
      + intros _ Ht. rewrite A7 in Ht. destruct (UT A4 Ht) as (st & E). exfalso. exact (A6 st E).
    - intros j Nj. destruct A8 as [->|[(A8 & ->)|(A8 & ->)]]; [tauto| |]; rewrite A8; split; congruence.
    - intros j Hj. destruct A8 as [->|[(A8 & ->)|(A8 & ->)]]; [exact (ui_mutex _ U j Hj)|congruence|discriminate].
    - intros k Hk. destruct A9 as [->| ->]; [exact Hk|]. rewrite app_assoc in Hk. apply in_app_or in Hk. destruct Hk as [Hk|[Hk|[]]]; [exact Hk|discriminate].
    - intros st Hst. exfalso. exact (A6 st Hst). }
  destruct (k_pc c) eqn:Ep; try discriminate;
    repeat match type of H with
    | context [if ?b then _ else _] => destruct b eqn:?
    | context [match ?x with O => _ | S _ => _ end] => destruct x eqn:?
    | context [match s_mutex ?s with _ => _ end] => destruct (s_mutex s) eqn:?
    end; try discriminate;
    rewrite ?(at_cls_some _ _ _ _ Hn) in H; injection H as <-; unfold with_cls, with_mutex, with_count, with_joining, with_join, emit; sproj;
    try (rewrite Ep in * );
    apply G; kproj; cbn [critical pc_status] in *; try congruence; auto;
    try (split; [intros st0 E0; injection E0 as <-; first [discriminate | apply (proj1 UO); reflexivity] | cbn [reported]; try discriminate;
         intros R0 st0 E0; injection E0 as <-; first [discriminate | apply (proj2 UO); [reflexivity|reflexivity] | idtac]]).
  all: try (destruct st; cbn in *; try congruence; auto; fail).
  - split; reflexivity.
  - destruct st; cbn; split; discriminate.
  - right. right. split; [apply UM; reflexivity|reflexivity].
Qed.

(** Steps that leave the classes alone. *)
Lemma uinv_frame : forall s m' js' ct tr jo cr lg, uinv s ->
  lbound m' (length (s_cls s)) = lbound (s_main s) (length (s_cls s)) ->
  (forall k, In (J3 k) (joins m' ++ js') -> In (J3 k) (joins (s_main s) ++ s_join s) \/ exists c st, nth_error (s_cls s) k = Some c /\ k_pc c = CEnd st) ->
  match m' with MCanc i | MCnt i | MCntW i _ | MSpawn i => i < length (s_cls s) | _ => True end ->
  uinv (mkSys (s_cls s) m' js' (s_mutex s) ct tr jo cr lg).
Proof.
  intros s m' js' ct tr jo cr lg [U1 U2 U3 U4] Hb Hj Hm. constructor; sproj.
  - intros i c Hc. destruct (U1 i c Hc) as [V1 V2 V3 V4 V5 V6]. constructor; auto. rewrite Hb. exact V4.
  - exact U2.
  - intros k Hk. destruct (Hj k Hk) as [E|E]; auto.
  - rewrite Hb. split; [apply U4|exact Hm].
Qed.

(** A step of [joinTraining], done by the calling thread or by a detached one: [m'] and [js'] are the
    places of the threads afterwards. *)
Lemma uinv_step_join : forall b j s s1 j', uinv s -> In j (joins (s_main s) ++ s_join s) -> step_join b j s = Some (s1, j') ->
  forall m' js', lbound m' (length (s_cls s)) = lbound (s_main s) (length (s_cls s)) ->
  (forall k, In (J3 k) (joins m' ++ js') -> In (J3 k) (joins (s_main s) ++ s_join s) \/ j' = J3 k) ->
  match m' with MCanc i | MCnt i | MCntW i _ | MSpawn i => i < length (s_cls s) | _ => True end ->
  uinv (with_main m' (with_join js' s1)).
Proof.
  intros b j s s1 j' U Hin H m' js' Hb Hj Hm. unfold step_join in H.
  assert (F : forall ct tr jo cr lg, (forall k, j' = J3 k -> exists c st, nth_error (s_cls s) k = Some c /\ k_pc c = CEnd st) ->
     uinv (mkSys (s_cls s) m' js' (s_mutex s) ct tr jo cr lg)).
  { intros ct tr jo cr lg Hk. apply uinv_frame; auto. intros k Hk'. destruct (Hj k Hk') as [E|E]; auto. }
  destruct j.
  - injection H as <- <-. unfold with_main, with_join. sproj. apply F. destruct (s_training s); discriminate.
  - destruct (s_joining s); [|destruct b]; injection H as <- <-; unfold with_main, with_join, with_joining; sproj; apply F; discriminate.
  - destruct (first_thr (s_cls s) 0) as [i|] eqn:E.
    + destruct (nth_error (s_cls s) i) as [c|] eqn:E1; [|discriminate]. destruct (k_pc c) eqn:E2; try discriminate.
      injection H as <- <-. unfold with_main, with_join. sproj. apply F. intros k E3. injection E3 as <-. eauto.
    + injection H as <- <-. unfold with_main, with_join. sproj. apply F. discriminate.
  - destruct (nth_error (s_cls s) i) as [c|] eqn:E1; [|discriminate]. destruct (k_thr c) eqn:E2; [|discriminate].
    rewrite (at_cls_some _ _ _ _ E1) in H. injection H as <- <-. unfold with_main, with_join, with_cls. sproj.
    destruct (ui_j3 _ U i Hin) as (c' & st & D1 & D2). rewrite E1 in D1. injection D1 as <-.
    destruct (ui_cls _ U i c E1) as [UM US UO UL UN UT].
    eapply uinv_class; eauto; kproj.
    + constructor; kproj; auto. rewrite Hb. exact UL. intros _ _. eauto.
    + intros; reflexivity.
    + apply (ui_mutex _ U).
    + intros k Hk. destruct (Hj k Hk) as [E|E]; [exact E|discriminate].
  - injection H as <- <-. unfold with_main, with_join, with_cls. sproj. destruct U as [U1 U2 U3 U4]. constructor; sproj; rewrite ?map_length; auto.
    + intros i c Hc. rewrite nth_error_map in Hc. destruct (nth_error (s_cls s) i) as [d|] eqn:E; [|discriminate]. cbn in Hc. injection Hc as <-.
      destruct (U1 i d E) as [V1 V2 V3 V4 V5 V6]. unfold erase_failed. destruct (k_status d) eqn:Es; constructor; kproj; auto; try (rewrite Hb; exact V4);
      intros st Hst; specialize (V2 st Hst); congruence.
    + intros k Hk. destruct (Hj k Hk) as [E|E]; [|discriminate]. destruct (U3 k E) as (c & st & D1 & D2).
      exists (erase_failed c), st. rewrite nth_error_map, D1. split; [reflexivity|]. unfold erase_failed. destruct (k_status c); exact D2.
    + rewrite Hb. split; [apply U4|exact Hm].
  - injection H as <- <-. unfold with_main, with_join, with_joining. sproj. apply F. discriminate.
  - injection H as <- <-. unfold with_main, with_join, with_training. sproj. apply F. discriminate.
  - injection H as <- <-. unfold with_main, with_join. sproj. apply F. destruct (s_training s); discriminate.
  - destruct (s_joining s); [discriminate|]. injection H as <- <-. unfold with_main, with_join. sproj. apply F. discriminate.
  - injection H as <- <-. unfold with_main, with_join, emit. sproj. apply F. discriminate.
  - destruct (s_joining s); [discriminate|]. injection H as <- <-. unfold with_main, with_join. sproj. apply F. discriminate.
  - discriminate.
  - discriminate.
Qed.

Lemma step_join_keeps : forall b j s s1 j', step_join b j s = Some (s1, j') -> s_main s1 = s_main s /\ s_join s1 = s_join s.
Proof.
  intros b j s s1 j' H. unfold step_join in H.
  destruct j; repeat match type of H with
    | context [if ?b then _ else _] => destruct b
    | context [match ?x with Some _ => _ | None => _ end] => destruct x eqn:?
    | context [match k_pc ?x with _ => _ end] => destruct (k_pc x)
    end; try discriminate; injection H as <- <-; unfold at_cls;
    repeat match goal with |- context [match ?x with Some _ => _ | None => _ end] => destruct x end; auto.
Qed.

Lemma uinv_step_main : forall bg ca b s s', uinv s -> step_main bg ca b s = Some s' -> uinv s'.
Proof.
  intros bg ca b s s' U H. unfold step_main in H. pose proof (ui_main _ U) as (Hb & Hm).
  destruct (s_main s) eqn:Em.
  1: destruct (Nat.ltb_spec i (length (s_cls s))) as [Hlt|Hge].
  (* launching *)
  1:{ destruct (nth_error (s_cls s) i) as [c|] eqn:Hn; [|apply nth_error_None in Hn; lia].
      rewrite (at_cls_some _ _ _ _ Hn) in H. injection H as <-. unfold with_main, with_cls. sproj.
      destruct (ui_cls _ U i c Hn) as [UM US UO UL UN UT]. rewrite Em in *.
      eapply uinv_class; eauto; try rewrite Em; kproj; auto.
      - constructor; kproj; auto.
      - intros; reflexivity.
      - apply (ui_mutex _ U). }
  1:{ injection H as <-. unfold with_main. apply uinv_frame; auto; try rewrite Em.
      - cbn in Hb. destruct bg; cbn [lbound]; lia.
      - intros k Hk. left. destruct bg; cbn [joins app] in *; [exact Hk|]. destruct Hk as [Hk|Hk]; [discriminate|exact Hk].
      - destruct bg; exact I. }
  1:{ destruct (nth_error (s_cls s) i) as [c|] eqn:Hn; [|apply nth_error_None in Hn; cbn in Hm; lia].
      rewrite (at_cls_some _ _ _ _ Hn) in H. injection H as <-. unfold with_main, with_cls. sproj.
      destruct (ui_cls _ U i c Hn) as [UM US UO UL UN UT]. rewrite Em in *.
      eapply uinv_class; eauto; try rewrite Em; kproj; auto.
      - constructor; kproj; auto.
      - intros; reflexivity.
      - apply (ui_mutex _ U). }
  1:{ injection H as <-. unfold with_main. apply uinv_frame; auto; try rewrite Em; auto. }
  1:{ injection H as <-. unfold with_main, with_count. sproj. apply uinv_frame; auto; try rewrite Em; auto; try (intros k Hk; left; exact Hk). }
  1:{ destruct (nth_error (s_cls s) i) as [c|] eqn:Hn; [|apply nth_error_None in Hn; cbn in Hm; lia].
      rewrite (at_cls_some _ _ _ _ Hn) in H. injection H as <-. unfold with_main, with_cls. sproj.
      destruct U as [U1 U2 U3 U4]. rewrite Em in *.
      assert (Hnew : k_pc c = CNew).
      { destruct (U1 i c Hn) as [UM US UO UL UN UT]. cbn in UL. destruct (k_pc c); try reflexivity; exfalso; assert (i < i) by (apply UL; discriminate); lia. }
      constructor; sproj; rewrite ?lset_length.
      - intros j d Hd. destruct (Nat.eq_dec j i) as [->|Nj].
        + rewrite (lset_same _ _ _ _ Hn) in Hd. injection Hd as <-. destruct (U1 i c Hn) as [UM US UO UL UN UT]. constructor; kproj; try discriminate.
          * rewrite Hnew in UM. exact UM.
          * split; discriminate.
          * cbn [lbound]. split; [discriminate|lia].
        + rewrite lset_other in Hd by exact Nj. destruct (U1 j d Hd) as [UM US UO UL UN UT]. constructor; auto. cbn [lbound] in *. split.
          * intro Hj. apply UL. lia.
          * intro Hj. apply UL in Hj. lia.
      - exact U2.
      - intros k Hk. cbn [joins app] in *. destruct (U3 k Hk) as (d & st & D1 & D2). destruct (Nat.eq_dec k i) as [->|Nk].
        + rewrite Hn in D1. injection D1 as <-. congruence.
        + exists d, st. rewrite lset_other by exact Nk. auto.
      - cbn [lbound] in *. split; [lia|exact I]. }
  all: try (injection H as <-; unfold with_main, with_creq; sproj; apply uinv_frame; auto; try rewrite Em; cbn [lbound joins app]; auto; fail).
  - assert (Hs : j = JEnd \/ exists s1 j', step_join b j s = Some (s1, j') /\ s' = with_main (MJoin j') s1).
    { destruct j; auto; right; destruct (step_join b _ s) as [[s1 j']|]; try discriminate; injection H as <-; eauto. }
    destruct Hs as [->|(s1 & j' & E & ->)].
    + injection H as <-. unfold with_main. apply uinv_frame; auto; try rewrite Em; cbn [lbound joins app]; auto. intros k Hk. left. right. exact Hk.
    + clear H. pose proof (step_join_keeps _ _ _ _ _ E) as (K1 & K2).
      replace (with_main (MJoin j') s1) with (with_main (MJoin j') (with_join (s_join s) s1)) by (unfold with_main, with_join; rewrite <- K2; reflexivity).
      eapply uinv_step_join; eauto; try rewrite Em; cbn [joins app]; auto.
      * left. reflexivity.
      * intros k [Hk|Hk]; [right; congruence|left; right; exact Hk].
  - destruct ca; [|discriminate]. injection H as <-. unfold with_main. apply uinv_frame; auto; try rewrite Em; cbn [lbound joins app]; auto.
  - injection H as <-. unfold with_main. apply uinv_frame; auto; try rewrite Em; destruct (s_training s); cbn [lbound joins app]; auto.
  - destruct (i <? length (s_cls s)); [destruct (alive_at s i)|]; injection H as <-; unfold with_main, with_creq; sproj; apply uinv_frame; auto; try rewrite Em; cbn [lbound joins app]; auto.
    intros k [Hk|Hk]; [discriminate|auto].
  - destruct (nth_error (s_cls s) i) as [c|] eqn:Hn.
    + rewrite (at_cls_some _ _ _ _ Hn) in H. injection H as <-. unfold with_main, with_cls. sproj.
      destruct (ui_cls _ U i c Hn) as [UM US UO UL UN UT]. rewrite Em in *.
      eapply uinv_class; eauto; try rewrite Em; kproj; auto.
      * destruct (k_flag c); constructor; kproj; auto.
      * intros; reflexivity.
      * apply (ui_mutex _ U).
      * intros st Hst. destruct (k_flag c); exact Hst.
    + unfold at_cls in H. rewrite Hn in H. injection H as <-. unfold with_main. apply uinv_frame; auto; try rewrite Em; cbn [lbound joins app]; auto.
  - destruct (nth_error (s_cls s) i) as [c|]; [|discriminate]. destruct (k_flag c); [discriminate|].
    injection H as <-. unfold with_main. apply uinv_frame; auto; try rewrite Em; cbn [lbound joins app]; auto.
  - assert (Hs : j = JEnd \/ exists s1 j', step_join b j s = Some (s1, j') /\ s' = with_main (XJoin j') s1).
    { destruct j; auto; right; destruct (step_join b _ s) as [[s1 j']|]; try discriminate; injection H as <-; eauto. }
    destruct Hs as [->|(s1 & j' & E & ->)].
    + injection H as <-. unfold with_main. apply uinv_frame; auto; try rewrite Em; cbn [lbound joins app]; auto. intros k Hk. left. right. exact Hk.
    + clear H. pose proof (step_join_keeps _ _ _ _ _ E) as (K1 & K2).
      replace (with_main (XJoin j') s1) with (with_main (XJoin j') (with_join (s_join s) s1)) by (unfold with_main, with_join; rewrite <- K2; reflexivity).
      eapply uinv_step_join; eauto; try rewrite Em; cbn [joins app]; auto.
      * left. reflexivity.
      * intros k [Hk|Hk]; [right; congruence|left; right; exact Hk].
  - discriminate.
Qed.

Lemma in_lset : forall {X} (l : list X) i x y, In y (lset l i x) -> y = x \/ In y l.
Proof. induction l as [|z l IH]; intros [|i] x y H; cbn in *; auto; destruct H as [H|H]; auto. destruct (IH _ _ _ H); auto. Qed.

Lemma uinv_step : forall bg ca t b s s', uinv s -> step bg ca t b s = Some s' -> uinv s'.
Proof.
  intros bg ca [|i|k] b s s' U H; cbn [step] in H.
  - exact (uinv_step_main bg ca b s s' U H).
  - exact (uinv_step_class bg i s s' U H).
  - destruct (nth_error (s_join s) k) as [j|] eqn:Ek; [|discriminate]. destruct (step_join b j s) as [[s1 j']|] eqn:E; [|discriminate].
    injection H as <-. pose proof (step_join_keeps _ _ _ _ _ E) as (K1 & K2).
    replace (with_join (lset (s_join s1) k j') s1) with (with_main (s_main s) (with_join (lset (s_join s) k j') s1))
      by (unfold with_main, with_join; rewrite <- K1, <- K2; reflexivity).
    eapply uinv_step_join; eauto.
    + apply in_or_app. right. eapply nth_error_In; eauto.
    + intros i Hi. apply in_app_or in Hi. destruct Hi as [Hi|Hi]; [left; apply in_or_app; auto|].
      apply in_lset in Hi. destruct Hi as [Hi|Hi]; [auto|left; apply in_or_app; auto].
    + apply (ui_main _ U).
Qed.

Lemma uinv_init : forall n plan, uinv (life_init n plan).
Proof.
  intros n plan. constructor; unfold life_init; sproj.
  - intros i c Hc. rewrite nth_error_map in Hc. destruct (nth_error plan i) as [p|]; [|discriminate]. cbn in Hc. injection Hc as <-.
    constructor; unfold fresh_cls; kproj; try discriminate; cbn.
    + split; discriminate.
    + split; discriminate.
    + split; [lia|congruence].
    + reflexivity.
    + congruence.
  - discriminate.
  - intros i [].
  - cbn. split; [lia|exact I].
Qed.

Lemma run_ind : forall bg ca (P : sys -> Prop), (forall t b s s', P s -> step bg ca t b s = Some s' -> P s') ->
  forall sch s, P s -> P (run bg ca sch s).
Proof.
  intros bg ca P HP. induction sch as [|(t, b) sch IH]; intros s Hs; cbn [run]; [exact Hs|].
  apply IH. destruct (step bg ca t b s) as [s'|] eqn:E; [eapply HP; eauto|exact Hs].
Qed.
