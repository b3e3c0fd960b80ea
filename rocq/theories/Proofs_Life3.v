(** The training protocol in Parallel mode. *)
From Coq Require Import List Bool Arith ZArith Lia.
From Verif Require Import Base Model_Train Model_Life Spec_Life Proofs_Life Proofs_Life2.
Import ListNotations.
Local Open Scope nat_scope.

(** What a class has still to announce. *)
Definition rest (c : cls) : list status := repeat Run (k_left c) ++ [if k_good c then Done else Error].
Definition todo (c : cls) : list status :=
  match k_pc c with
  | CNew | CStart | CLoop | CWork => rest c
  | CErr | CErr2 => [Error]
  | CNotify Run | CFwd Run => Run :: rest c
  | CUnlock Run => rest c
  | CNotify st | CFwd st => [st]
  | _ => []
  end.

Lemma events_app : forall i l l', events_of i (l ++ l') = events_of i l ++ events_of i l'.
Proof. intros. unfold events_of. apply flat_map_app. Qed.

(** A class nobody cancels. *)
Record pcls (plan : list (nat * bool)) (lg : list mevent) (i : nat) (c : cls) : Prop := mkP {
  p_cancel : k_cancel c = false;
  p_nocancel : pc_status (k_pc c) <> Some Cancel;
  p_todo : exists p, nth_error plan i = Some p /\ events_of i lg ++ todo c = announced p;
  p_good : match k_pc c with CErr | CErr2 => k_good c = false | p => match pc_status p with Some Done => k_good c = true | Some Error => k_good c = false | _ => True end end;
  p_plan : forall p, nth_error plan i = Some p -> k_good c = snd p
}.

Lemma todo_ext : forall c c', k_pc c' = k_pc c -> k_left c' = k_left c -> k_good c' = k_good c -> todo c' = todo c.
Proof. intros c c' H1 H2 H3. unfold todo, rest. rewrite H1, H2, H3. reflexivity. Qed.

Lemma pcls_step : forall bg plan i s s', uinv s -> (forall j c, nth_error (s_cls s) j = Some c -> pcls plan (s_log s) j c) ->
  step_class bg i s = Some s' -> forall j c, nth_error (s_cls s') j = Some c -> pcls plan (s_log s') j c.
Proof.
  intros bg plan i s s' U P H j d Hd. unfold step_class in H. destruct (nth_error (s_cls s) i) as [c|] eqn:Hn; [|discriminate].
  destruct (ui_cls _ U i c Hn) as [UM US (UO & UO') UL UN UT].
  assert (G : forall c' ev, (ev = [] \/ exists st, ev = [EvClass i st]) ->
     k_cancel c' = false -> pc_status (k_pc c') <> Some Cancel -> events_of i ev ++ todo c' = todo c ->
     match k_pc c' with CErr | CErr2 => k_good c' = false | p => match pc_status p with Some Done => k_good c' = true | Some Error => k_good c' = false | _ => True end end -> k_good c' = k_good c ->
     nth_error (lset (s_cls s) i c') j = Some d -> pcls plan (s_log s ++ ev) j d).
  { intros c' ev Hev A1 A2 A3 A4 A5 Hj. destruct (Nat.eq_dec j i) as [->|Nj].
    - rewrite (lset_same _ _ _ _ Hn) in Hj. injection Hj as <-. destruct (P i c Hn) as [P1 P2 (p & P3 & P4) P5 P6]. constructor; auto; [|rewrite A5; exact P6].
      exists p. split; [exact P3|]. rewrite events_app, <- app_assoc, A3. exact P4.
    - rewrite lset_other in Hj by exact Nj. destruct (P j d Hj) as [P1 P2 (p & P3 & P4) P5 P6]. constructor; auto.
      exists p. split; [exact P3|]. rewrite events_app. assert (E : events_of j ev = []).
      { destruct Hev as [->|(st & ->)]; [reflexivity|]. cbn. replace (i =? j) with false by (symmetry; apply Nat.eqb_neq; lia). reflexivity. }
      rewrite E, app_nil_r. exact P4. }
  assert (G0 : forall c', k_cancel c' = false -> pc_status (k_pc c') <> Some Cancel -> todo c' = todo c ->
     match k_pc c' with CErr | CErr2 => k_good c' = false | p => match pc_status p with Some Done => k_good c' = true | Some Error => k_good c' = false | _ => True end end -> k_good c' = k_good c ->
     nth_error (lset (s_cls s) i c') j = Some d -> pcls plan (s_log s) j d).
  { intros c' A1 A2 A3 A4 A5 Hj. rewrite <- (app_nil_r (s_log s)). apply (G c' []); auto. }
  destruct (P i c Hn) as [P1 P2 _ P5 _].
  destruct (k_pc c) eqn:Ep; try discriminate;
    repeat match type of H with
    | context [if ?b then _ else _] => destruct b eqn:?
    | context [match ?x with O => _ | S _ => _ end] => destruct x eqn:?
    | context [match s_mutex ?s with _ => _ end] => destruct (s_mutex s) eqn:?
    end; try discriminate; try congruence;
    rewrite ?(at_cls_some _ _ _ _ Hn) in H; injection H as <-; unfold with_cls, with_mutex, with_count, with_joining, with_join, emit in Hd |- *; sproj;
    first [refine (G0 _ _ _ _ _ _ Hd) | refine (G _ _ _ _ _ _ _ _ Hd)]; kproj; auto; cbn [pc_status]; try discriminate;
    try (unfold todo at 2; rewrite Ep); unfold todo, rest; kproj; rewrite ?Heqn; rewrite ?Heqb; try reflexivity.
  all: try (right; eauto; fail).
  all: cbn [pc_status] in *; try exact I; try exact P5.
  all: try (destruct st; try reflexivity; try congruence; try discriminate).
  all: try (exfalso; apply (UO' eq_refl Run); reflexivity).
  all: try (cbn [events_of flat_map app is_run_status]; rewrite Nat.eqb_refl; reflexivity).
  all: try (exfalso; apply (UO Alldone); reflexivity).
Qed.

(** The phases of the calling thread. *)
Definition joined (m : mpc) : bool :=
  match m with MJoin (J4 | J5 | J6 | J7 | J8 | J9 | JEnd) | MRet => true | _ => false end.
Definition erased (m : mpc) : bool :=
  match m with MJoin (J5 | J6 | J7 | J8 | J9 | JEnd) | MRet => true | _ => false end.
Definition lowered (m : mpc) : bool := match m with MJoin (J7 | J8 | J9 | JEnd) | MRet => true | _ => false end.
Definition announced_all (m : mpc) : bool := match m with MJoin JEnd | MRet => true | _ => false end.
Definition holds_joining (m : mpc) : bool := match m with MJoin (J2 | J3 _ | J4 | J5) => true | _ => false end.
Definition par_pc (m : mpc) : Prop :=
  match m with MJoin (JSpin | JThrow) | X0 | XReq _ | XSet _ | XWait _ | XJoin _ | XFin | MEnd => False | _ => True end.
Definition kept (st : status) : bool := match st with Cancel | Error => false | _ => true end.

Record pinv (plan : list (nat * bool)) (s : sys) : Prop := mkPinv {
  pi_u : uinv s;
  pi_cls : forall i c, nth_error (s_cls s) i = Some c -> pcls plan (s_log s) i c;
  pi_len : length (s_cls s) = length plan;
  pi_join : s_join s = [];
  pi_creq : s_creq s = false;
  pi_pc : par_pc (s_main s);
  pi_joining : s_joining s = holds_joining (s_main s);
  pi_training : s_training s = negb (lowered (s_main s));
  pi_log : if announced_all (s_main s) then exists l, s_log s = l ++ [EvAll] /\ ~ In EvAll l else ~ In EvAll (s_log s);
  pi_thr : joined (s_main s) = true -> forall i c, nth_error (s_cls s) i = Some c -> k_thr c = false;
  pi_alive : forall i c, nth_error (s_cls s) i = Some c -> k_alive c = if erased (s_main s) then kept (k_status c) else true;
  pi_chk : forall i c, nth_error (s_cls s) i = Some c -> match k_pc c with CChk2 _ | CChk3 _ | CSpawn _ | CSpawn2 _ => False | _ => True end;
  pi_j3 : forall i, s_main s = MJoin (J3 i) -> exists c, nth_error (s_cls s) i = Some c /\ k_thr c = true
}.

Lemma joined_ended : forall plan s, pinv plan s -> joined (s_main s) = true -> forall i c, nth_error (s_cls s) i = Some c -> ended c.
Proof.
  intros plan s P J i c Hc. destruct (ui_cls _ (pi_u _ _ P) i c Hc) as [UM US UO UL UN UT].
  apply UT; [|exact (pi_thr _ _ P J i c Hc)]. apply UL. assert (i < length (s_cls s)) by (apply nth_error_Some; congruence).
  destruct (s_main s); try discriminate; exact H.
Qed.

Lemma not_in_app : forall {X} (x : X) l l', ~ In x l -> ~ In x l' -> ~ In x (l ++ l').
Proof. intros X x l l' H1 H2 H. apply in_app_or in H. tauto. Qed.

Lemma pinv_class : forall plan i s s', pinv plan s -> step_class false i s = Some s' -> pinv plan s'.
Proof.
  intros plan i s s' P H.
  assert (U' := uinv_step_class _ _ _ _ (pi_u _ _ P) H).
  assert (C' := pcls_step _ _ _ _ _ (pi_u _ _ P) (pi_cls _ _ P) H).
  assert (NJ : joined (s_main s) = false).
  { destruct (joined (s_main s)) eqn:E; [|reflexivity]. exfalso. unfold step_class in H. destruct (nth_error (s_cls s) i) as [c|] eqn:Hn; [|discriminate].
    destruct (joined_ended _ _ P E i c Hn) as (st & Ep). rewrite Ep in H. discriminate. }
  assert (NA : announced_all (s_main s) = false) by (destruct (s_main s) as [| | | | |[]| | | | | | | |]; try reflexivity; discriminate).
  assert (NE : erased (s_main s) = false) by (destruct (s_main s) as [| | | | |[]| | | | | | | |]; try reflexivity; discriminate).
  unfold step_class in H. destruct (nth_error (s_cls s) i) as [c|] eqn:Hn; [|discriminate].
  pose proof (pi_chk _ _ P i c Hn) as Ck. pose proof (pi_alive _ _ P i c Hn) as Al. rewrite NE in Al.
  destruct P as [P1 P2 P3 P4 P5 P6 P7 P8 P9 P10 P11 P12 P13].
  rewrite NA in P9. rewrite NE in P11.
  assert (G : forall c' js mu ct jo ev, js = s_join s -> jo = s_joining s -> k_alive c' = true ->
     match k_pc c' with CChk2 _ | CChk3 _ | CSpawn _ | CSpawn2 _ => False | _ => True end ->
     (ev = [] \/ exists st, ev = [EvClass i st]) -> k_thr c' = k_thr c ->
     s' = mkSys (lset (s_cls s) i c') (s_main s) js mu ct (s_training s) jo (s_creq s) (s_log s ++ ev) -> pinv plan s').
  { intros c' js mu ct jo ev -> -> A1 A2 A3 A4 ->. constructor; sproj; auto.
    - rewrite lset_length. exact P3.
    - rewrite NA. apply not_in_app; [exact P9|]. destruct A3 as [->|(st & ->)]; [intros []|intros [A|[]]; discriminate].
    - rewrite NJ. discriminate.
    - rewrite NE. intros j d Hd. destruct (Nat.eq_dec j i) as [->|Nj].
      + rewrite (lset_same _ _ _ _ Hn) in Hd. injection Hd as <-. exact A1.
      + rewrite lset_other in Hd by exact Nj. eauto.
    - intros j d Hd. destruct (Nat.eq_dec j i) as [->|Nj].
      + rewrite (lset_same _ _ _ _ Hn) in Hd. injection Hd as <-. exact A2.
      + rewrite lset_other in Hd by exact Nj. exact (P12 j d Hd).
    - intros j Hj. destruct (P13 j Hj) as (d & D1 & D2). destruct (Nat.eq_dec j i) as [->|Nj].
      + exists c'. rewrite (lset_same _ _ _ _ Hn). split; congruence.
      + exists d. rewrite lset_other by exact Nj. auto. }
  assert (G0 : forall c' js mu ct jo, js = s_join s -> jo = s_joining s -> k_alive c' = true ->
     match k_pc c' with CChk2 _ | CChk3 _ | CSpawn _ | CSpawn2 _ => False | _ => True end -> k_thr c' = k_thr c ->
     s' = mkSys (lset (s_cls s) i c') (s_main s) js mu ct (s_training s) jo (s_creq s) (s_log s) -> pinv plan s').
  { intros c' js mu ct jo A1 A2 A3 A4 A5 A6. refine (G c' js mu ct jo [] A1 A2 A3 A4 _ A5 _); [auto|rewrite app_nil_r; exact A6]. }
  destruct (k_pc c) eqn:Ep; try discriminate; try contradiction;
    repeat match type of H with
    | context [if ?b then _ else _] => destruct b eqn:?
    | context [match ?x with O => _ | S _ => _ end] => destruct x eqn:?
    | context [match s_mutex ?s with _ => _ end] => destruct (s_mutex s) eqn:?
    end; try discriminate; try congruence;
    rewrite ?(at_cls_some _ _ _ _ Hn) in H; injection H as <-; unfold with_cls, with_mutex, with_count, with_joining, with_join, emit in *; sproj;
    first [refine (G0 _ _ _ _ _ _ _ _ _ _ eq_refl) | refine (G _ _ _ _ _ _ _ _ _ _ _ _ eq_refl)]; kproj; auto.
  - right. eauto.
  - right. eauto.
  - destruct st; exact I.
Qed.

Lemma pcls_ext : forall plan lg i c c', pcls plan lg i c -> k_pc c' = k_pc c -> k_left c' = k_left c -> k_good c' = k_good c -> k_cancel c' = false ->
  pcls plan lg i c'.
Proof.
  intros plan lg i c c' [P1 P2 P3 P4 P5] H1 H2 H3 H4. constructor; auto; [rewrite H1; exact P2| | |]. { rewrite (todo_ext c c'); auto. } { rewrite H1, H3. exact P4. } { rewrite H3. exact P5. }
Qed.

Lemma pinv_main : forall plan s s', pinv plan s -> step_main false false false s = Some s' -> pinv plan s'.
Proof.
  intros plan s s' P H.
  assert (U' := uinv_step_main _ _ _ _ _ (pi_u _ _ P) H).
  pose proof (joined_ended _ _ P) as JE. pose proof (ui_main _ (pi_u _ _ P)) as (Hb & Hm).
  destruct P as [P1 P2 P3 P4 P5 P6 P7 P8 P9 P10 P11 P12 P13]. unfold step_main in H.
  (* a change of one class while launching *)
  assert (GL : forall i c c' m ct, nth_error (s_cls s) i = Some c ->
     k_left c' = k_left c -> k_good c' = k_good c -> k_cancel c' = false -> k_alive c' = k_alive c ->
     (k_pc c' = k_pc c \/ k_pc c = CNew /\ k_pc c' = CStart) ->
     joined (s_main s) = false -> joined m = false -> announced_all (s_main s) = false -> announced_all m = false ->
     erased (s_main s) = false -> erased m = false -> par_pc m -> holds_joining m = holds_joining (s_main s) -> lowered m = lowered (s_main s) -> (forall k, m <> MJoin (J3 k)) ->
     s' = mkSys (lset (s_cls s) i c') m (s_join s) (s_mutex s) ct (s_training s) (s_joining s) (s_creq s) (s_log s) -> pinv plan s').
  { intros i c c' m ct Hn A1 A2 A3 A4 A5 B1 B2 B3 B4 B5 B6 B7 B8 B9 B10 ->. constructor; sproj; auto.
    - intros j d Hd. destruct (Nat.eq_dec j i) as [->|Nj].
      + rewrite (lset_same _ _ _ _ Hn) in Hd. injection Hd as <-. destruct A5 as [A5|(A5 & A6)].
        * eapply pcls_ext; eauto.
        * destruct (P2 i c Hn) as [Q1 Q2 Q3 Q4 Q5]. constructor; auto; [rewrite A6; discriminate| |rewrite A6; exact I|rewrite A2; exact Q5]. unfold todo, rest in *. rewrite A6, A1, A2. rewrite A5 in Q3. exact Q3.
      + rewrite lset_other in Hd by exact Nj. eauto.
    - rewrite lset_length. exact P3.
    - congruence.
    - congruence.
    - rewrite B4. rewrite B3 in P9. exact P9.
    - rewrite B2. discriminate.
    - rewrite B6. rewrite B5 in P11. intros j d Hd. destruct (Nat.eq_dec j i) as [->|Nj].
      + rewrite (lset_same _ _ _ _ Hn) in Hd. injection Hd as <-. rewrite A4. eauto.
      + rewrite lset_other in Hd by exact Nj. eauto.
    - intros j d Hd. destruct (Nat.eq_dec j i) as [->|Nj].
      + rewrite (lset_same _ _ _ _ Hn) in Hd. injection Hd as <-. destruct A5 as [A5|(_ & A5)]; rewrite A5; [exact (P12 i c Hn)|exact I].
      + rewrite lset_other in Hd by exact Nj. exact (P12 j d Hd).
    - intros k Hk. destruct (B10 k Hk). }
  (* no change of classes *)
  assert (GM : forall m ct tr jo ev, par_pc m -> jo = holds_joining m -> tr = negb (lowered m) ->
     (joined m = true -> forall i c, nth_error (s_cls s) i = Some c -> k_thr c = false) -> erased m = erased (s_main s) -> (forall k, m = MJoin (J3 k) -> exists c, nth_error (s_cls s) k = Some c /\ k_thr c = true) ->
     (ev = [] /\ announced_all m = announced_all (s_main s) \/ ev = [EvAll] /\ announced_all m = true /\ announced_all (s_main s) = false) ->
     s' = mkSys (s_cls s) m (s_join s) (s_mutex s) ct tr jo (s_creq s) (s_log s ++ ev) -> pinv plan s').
  { intros m ct tr jo ev A1 A2 A3 A4 A5 A7 A6 ->. constructor; sproj; auto.
    - intros i c Hc. destruct (P2 i c Hc) as [Q1 Q2 (p & Q3 & Q4) Q5 Q6]. constructor; auto. exists p. split; [exact Q3|].
      rewrite events_app. replace (events_of i ev) with (@nil status) by (destruct A6 as [(-> & _)|(-> & _)]; reflexivity). rewrite app_nil_r. exact Q4.
    - destruct A6 as [(-> & ->)|(-> & -> & A6)]; [rewrite app_nil_r; exact P9|]. rewrite A6 in P9. exists (s_log s). auto.
    - rewrite A5. exact P11. }
  assert (GM0 : forall m ct tr jo, par_pc m -> jo = holds_joining m -> tr = negb (lowered m) ->
     (joined m = true -> forall i c, nth_error (s_cls s) i = Some c -> k_thr c = false) -> erased m = erased (s_main s) -> (forall k, m = MJoin (J3 k) -> exists c, nth_error (s_cls s) k = Some c /\ k_thr c = true) ->
     announced_all m = announced_all (s_main s) ->
     s' = mkSys (s_cls s) m (s_join s) (s_mutex s) ct tr jo (s_creq s) (s_log s) -> pinv plan s').
  { intros m ct tr jo A1 A2 A3 A4 A5 A8 A6 A7. refine (GM m ct tr jo [] A1 A2 A3 A4 A5 A8 _ _); [auto|rewrite app_nil_r; exact A7]. }
  destruct (s_main s) eqn:Em; cbn [par_pc] in P6; try contradiction.
  - destruct (Nat.ltb_spec i (length (s_cls s))) as [Hlt|Hge].
    + destruct (nth_error (s_cls s) i) as [c|] eqn:Hn; [|apply nth_error_None in Hn; lia].
      rewrite (at_cls_some _ _ _ _ Hn) in H. injection H as <-. refine (GL i c _ _ _ Hn _ _ _ _ _ _ _ _ _ _ _ _ _ _ _ eq_refl); kproj; auto; try exact I; try (intros ? ?; discriminate).
      apply (p_cancel _ _ _ _ (P2 i c Hn)).
    + injection H as <-. refine (GM0 _ _ _ _ _ _ _ _ _ _ _ eq_refl); auto; try exact I; try (intros ? ?; discriminate); try discriminate.
  - destruct (nth_error (s_cls s) i) as [c|] eqn:Hn; [|apply nth_error_None in Hn; lia].
    rewrite (at_cls_some _ _ _ _ Hn) in H. injection H as <-. refine (GL i c _ _ _ Hn _ _ _ _ _ _ _ _ _ _ _ _ _ _ _ eq_refl); kproj; auto; try exact I; try (intros ? ?; discriminate).
  - injection H as <-. refine (GM0 _ _ _ _ _ _ _ _ _ _ _ eq_refl); auto; try exact I; try (intros ? ?; discriminate).
  - injection H as <-. unfold with_main, with_count in *. sproj. refine (GM0 _ _ _ _ _ _ _ _ _ _ _ eq_refl); auto; try exact I; try (intros ? ?; discriminate).
  - destruct (nth_error (s_cls s) i) as [c|] eqn:Hn; [|apply nth_error_None in Hn; lia].
    destruct (ui_cls _ P1 i c Hn) as [UM US UO UL UN UT]. rewrite Em in UL. cbn [lbound] in UL.
    assert (Hnew : k_pc c = CNew) by (destruct (k_pc c); try reflexivity; exfalso; assert (i < i) by (apply UL; discriminate); lia).
    rewrite (at_cls_some _ _ _ _ Hn) in H. injection H as <-. refine (GL i c _ _ _ Hn _ _ _ _ _ _ _ _ _ _ _ _ _ _ _ eq_refl); kproj; auto; try exact I; try (intros ? ?; discriminate).
    apply (p_cancel _ _ _ _ (P2 i c Hn)).
  - destruct j; cbn [par_pc] in P6; try contradiction; cbn [step_join] in H; cbn [holds_joining lowered negb joined erased announced_all] in *.
    + rewrite P8 in H. injection H as <-. refine (GM0 _ _ _ _ _ _ _ _ _ _ _ eq_refl); auto; try exact I; try (intros ? ?; discriminate); try discriminate.
    + rewrite P7 in H. injection H as <-. unfold with_main, with_joining in *. sproj. refine (GM0 _ _ _ _ _ _ _ _ _ _ _ eq_refl); auto; try exact I; try (intros ? ?; discriminate); try discriminate.
    + destruct (first_thr (s_cls s) 0) as [i|] eqn:Ef.
      * destruct (nth_error (s_cls s) i) as [c|] eqn:Hn; [|discriminate]. destruct (k_pc c); try discriminate.
        injection H as <-. refine (GM0 _ _ _ _ _ _ _ _ _ _ _ eq_refl); auto; try exact I; try discriminate.
        intros k Hk. injection Hk as <-. destruct (first_thr_some _ _ _ Ef) as (d & D1 & D2 & _). rewrite Nat.sub_0_r in D1. eauto.
      * injection H as <-. refine (GM0 _ _ _ _ _ _ _ _ _ _ _ eq_refl); auto; try exact I; try (intros ? ?; discriminate). intros _. exact (first_thr_none _ _ Ef).
    + destruct (nth_error (s_cls s) i) as [c|] eqn:Hn; [|discriminate]. destruct (k_thr c); [|discriminate].
      rewrite (at_cls_some _ _ _ _ Hn) in H. injection H as <-. refine (GL i c _ _ _ Hn _ _ _ _ _ _ _ _ _ _ _ _ _ _ _ eq_refl); kproj; auto; try exact I; try (intros ? ?; discriminate).
      apply (p_cancel _ _ _ _ (P2 i c Hn)).
    + injection H as <-. unfold with_main, with_cls in *. sproj. constructor; sproj; auto; try exact I; rewrite ?map_length; auto.
      * intros i c Hc. rewrite nth_error_map in Hc. destruct (nth_error (s_cls s) i) as [d|] eqn:E; [|discriminate]. cbn in Hc. injection Hc as <-.
        apply (pcls_ext _ _ _ d); auto; unfold erase_failed; destruct (k_status d); auto; apply (p_cancel _ _ _ _ (P2 i d E)).
      * intros _ i c Hc. rewrite nth_error_map in Hc. destruct (nth_error (s_cls s) i) as [d|] eqn:E; [|discriminate]. cbn in Hc. injection Hc as <-.
        specialize (P10 eq_refl i d E). unfold erase_failed. destruct (k_status d); exact P10.
      * cbn [erased]. intros i c Hc. rewrite nth_error_map in Hc. destruct (nth_error (s_cls s) i) as [d|] eqn:E; [|discriminate]. cbn in Hc. injection Hc as <-.
        specialize (P11 i d E). unfold erase_failed. destruct (k_status d) eqn:Es; kproj; rewrite ?Es; cbn [kept]; auto.
      * intros i c Hc. rewrite nth_error_map in Hc. destruct (nth_error (s_cls s) i) as [d|] eqn:E; [|discriminate]. cbn in Hc. injection Hc as <-.
        specialize (P12 i d E). unfold erase_failed. destruct (k_status d); exact P12.
      * intros k Hk. discriminate.
    + injection H as <-. unfold with_main, with_joining in *. sproj. refine (GM0 _ _ _ _ _ _ _ _ _ _ _ eq_refl); auto; try exact I; try (intros ? ?; discriminate).
    + injection H as <-. unfold with_main, with_training in *. sproj. refine (GM0 _ _ _ _ _ _ _ _ _ _ _ eq_refl); auto; try exact I; try (intros ? ?; discriminate).
    + rewrite P8 in H. injection H as <-. refine (GM0 _ _ _ _ _ _ _ _ _ _ _ eq_refl); auto; try exact I; try (intros ? ?; discriminate).
    + rewrite P7 in H. injection H as <-. refine (GM0 _ _ _ _ _ _ _ _ _ _ _ eq_refl); auto; try exact I; try (intros ? ?; discriminate).
    + injection H as <-. unfold with_main, emit in *. sproj. refine (GM _ _ _ _ _ _ _ _ _ _ _ _ eq_refl); auto; try exact I; try (intros ? ?; discriminate).
    + injection H as <-. refine (GM0 _ _ _ _ _ _ _ _ _ _ _ eq_refl); auto; try exact I; try (intros ? ?; discriminate).
  - discriminate.
Qed.

Lemma pinv_init : forall n plan, pinv plan (life_init n plan).
Proof.
  intros n plan. constructor; try (unfold life_init; sproj; auto; try exact I; fail).
  - apply uinv_init.
  - unfold life_init; sproj. intros i c Hc. rewrite nth_error_map in Hc. destruct (nth_error plan i) as [p|] eqn:E; [|discriminate]. cbn in Hc. injection Hc as <-.
    constructor; unfold fresh_cls; kproj; try discriminate; auto. { exists p. split; [exact E|]. destruct p. reflexivity. } { exact I. } { intros p' Hp. rewrite E in Hp. injection Hp as <-. reflexivity. }
  - unfold life_init; sproj. apply map_length.
  - unfold life_init; sproj. cbn. intros [].
  - unfold life_init; sproj. cbn. discriminate.
  - unfold life_init; sproj. cbn. intros i c Hc. rewrite nth_error_map in Hc. destruct (nth_error plan i) as [p|]; [|discriminate]. injection Hc as <-. reflexivity.
  - unfold life_init; sproj. cbn. intros i c Hc. rewrite nth_error_map in Hc. destruct (nth_error plan i) as [p|]; [|discriminate]. injection Hc as <-. exact I.
  - unfold life_init; sproj. intros k Hk. discriminate.
Qed.

Lemma pinv_step : forall plan t s s', pinv plan s -> step false false t false s = Some s' -> pinv plan s'.
Proof.
  intros plan [|i|k] s s' P H; cbn [step] in H.
  - eapply pinv_main; eauto.
  - eapply pinv_class; eauto.
  - rewrite (pi_join _ _ P) in H. destruct k; discriminate.
Qed.

Lemma strong_run : forall bg ca (P : sys -> Prop), (forall t s s', P s -> step bg ca t false s = Some s' -> P s') ->
  forall sch s, strong sch -> P s -> P (run bg ca sch s).
Proof.
  intros bg ca P HP. induction sch as [|(t, b) sch IH]; intros s St Hs; cbn [run]; [exact Hs|].
  inversion St as [|? ? St1 St2]; subst. cbn in St1. subst b. apply IH; [exact St2|]. destruct (step bg ca t false s) as [s'|] eqn:E; [eapply HP; eauto|exact Hs].
Qed.

Lemma par_reach : forall n plan sch, strong sch -> pinv plan (run false false sch (life_init n plan)).
Proof. intros n plan sch St. apply strong_run; [intros; eapply pinv_step; eauto|exact St|apply pinv_init]. Qed.

(** When [train] has returned. *)
Lemma par_returned : forall plan s, pinv plan s -> s_main s = MRet ->
  s_training s = false /\ length (s_cls s) = length plan /\
  (exists l, s_log s = l ++ [EvAll] /\ ~ In EvAll l) /\
  forall i c p, nth_error (s_cls s) i = Some c -> nth_error plan i = Some p ->
    ended c /\ events_of i (s_log s) = announced p /\ k_alive c = snd p.
Proof.
  intros plan s P Em. split; [rewrite (pi_training _ _ P), Em; reflexivity|]. split; [exact (pi_len _ _ P)|].
  split; [pose proof (pi_log _ _ P) as L; rewrite Em in L; exact L|].
  intros i c p Hc Hp. assert (J : joined (s_main s) = true) by (rewrite Em; reflexivity).
  destruct (joined_ended _ _ P J i c Hc) as (st & E). split; [exists st; exact E|].
  destruct (pi_cls _ _ P i c Hc) as [Q1 Q2 (p' & Q3 & Q4) Q5 Q6]. rewrite Hp in Q3. injection Q3 as <-.
  unfold todo in Q4. rewrite E, app_nil_r in Q4. split; [exact Q4|].
  rewrite (pi_alive _ _ P i c Hc), Em. cbn [erased].
  destruct (ui_cls _ (pi_u _ _ P) i c Hc) as [UM US UO UL UN UT]. rewrite E in US. specialize (US st eq_refl). rewrite US.
  rewrite E in Q2, Q5. cbn in Q2, Q5. specialize (Q6 p Hp). destruct UO as (UO1 & UO2). rewrite E in UO1, UO2. specialize (UO1 st eq_refl). specialize (UO2 eq_refl st eq_refl).
  destruct st; cbn [kept]; congruence.
Qed.

(** Who can take a step. *)
Lemma class_free : forall bg s i c, uinv s -> nth_error (s_cls s) i = Some c -> k_pc c <> CNew -> (forall st, k_pc c <> CEnd st) ->
  exists k s', step_class bg k s = Some s'.
Proof.
  intros bg s i c U Hn H1 H2. destruct (k_pc c) eqn:E; try congruence;
    try (exists i; unfold step_class; rewrite Hn, E; eexists; reflexivity).
  - exists i; unfold step_class; rewrite Hn, E. destruct (k_cancel c); eexists; reflexivity.
  - exists i; unfold step_class; rewrite Hn, E. destruct (k_left c); [destruct (k_good c)|]; eexists; reflexivity.
  - destruct (s_mutex s) as [k|] eqn:Em.
    + pose proof (ui_mutex _ U k Em) as Hk. destruct (nth_error (s_cls s) k) as [d|] eqn:Hd; [|apply nth_error_None in Hd; lia].
      destruct (ui_cls _ U k d Hd) as [UM _ _ _ _ _]. assert (Hcr : critical (k_pc d) = true) by (apply UM; exact Em).
      exists k. unfold step_class. rewrite Hd. destruct (k_pc d); try discriminate; eexists; reflexivity.
    + exists i; unfold step_class; rewrite Hn, E, Em. eexists; reflexivity.
Qed.

Lemma par_progress : forall plan s, pinv plan s -> s_main s <> MRet -> exists t s', step false false t false s = Some s'.
Proof.
  intros plan s P Hr. pose proof (pi_u _ _ P) as U.
  assert (HM : (exists s', step_main false false false s = Some s') -> exists t s', step false false t false s = Some s').
  { intros (s' & E). exists TMain, s'. exact E. }
  pose proof (pi_pc _ _ P) as Q. pose proof (pi_joining _ _ P) as QJ.
  unfold step_main in HM. destruct (s_main s) eqn:Em; cbn [par_pc] in Q; try contradiction; try congruence; try (apply HM; eexists; reflexivity).
  - apply HM. destruct (i <? length (s_cls s)); eexists; reflexivity.
  - destruct j; cbn [par_pc] in Q; try contradiction; cbn [step_join holds_joining] in *; try (apply HM; eexists; reflexivity).
    + apply HM. rewrite QJ. eexists; reflexivity.
    + destruct (first_thr (s_cls s) 0) as [i|] eqn:Ef; [|apply HM; eexists; reflexivity].
      destruct (first_thr_some _ _ _ Ef) as (c & C1 & C2 & _). rewrite Nat.sub_0_r in C1. rewrite C1 in HM.
      destruct (ui_cls _ U i c C1) as [UM US UO UL UN UT].
      assert (D : (exists st, k_pc c = CEnd st) \/ forall st, k_pc c <> CEnd st) by (destruct (k_pc c); eauto; right; discriminate).
      destruct D as [(st & D)|D]; [rewrite D in HM; apply HM; eexists; reflexivity|].
      destruct (class_free false s i c U C1) as (k & s' & E); [|exact D|exists (TClass k), s'; exact E].
      intros A. rewrite (UN A) in C2. discriminate.
    + destruct (pi_j3 _ _ P i Em) as (c & C1 & C2). rewrite C1, C2 in HM. apply HM. eexists; reflexivity.
    + apply HM. rewrite QJ. eexists; reflexivity.
Qed.

(** Fair schedules. *)
Lemma no_move : forall bg ca l s, uinv s -> strong l -> (run bg ca l s = s /\ forall t, In (t, false) l -> step bg ca t false s = None) \/ work (run bg ca l s) < work s.
Proof.
  intros bg ca. induction l as [|(t, b) l IH]; intros s U St; cbn [run].
  - left. split; [reflexivity|]. intros t [].
  - inversion St as [|? ? St1 St2]; subst. cbn in St1. subst b. destruct (step bg ca t false s) as [s'|] eqn:E.
    + right. assert (U' := uinv_step _ _ _ _ _ _ U E). pose proof (work_step _ _ _ _ _ _ U E). destruct (IH s' U' St2) as [(-> & _)|H1]; lia.
    + destruct (IH s U St2) as [(H1 & H2)|H1]; [left|right; exact H1]. split; [exact H1|]. intros t' [A|A]; [injection A as <-; exact E|auto].
Qed.

Lemma quiet_run : forall bg ca l s, strong l -> quiet bg ca s -> run bg ca l s = s.
Proof.
  intros bg ca. induction l as [|(t, b) l IH]; intros s St Q; cbn [run]; [reflexivity|].
  inversion St as [|? ? St1 St2]; subst. cbn in St1. subst b. rewrite (Q t). apply IH; auto.
Qed.

Lemma run_app : forall bg ca l l' s, run bg ca (l ++ l') s = run bg ca l' (run bg ca l s).
Proof. intros bg ca. induction l as [|(t, b) l IH]; intros l' s; cbn [run app]; auto. Qed.

Lemma covered : forall bg ca n l s, length (s_cls s) <= n -> length (s_join s) <= n -> fair_round n l ->
  (forall t, In (t, false) l -> step bg ca t false s = None) -> quiet bg ca s.
Proof.
  intros bg ca n l s H1 H2 (F1 & F2 & F3) H [|i|k].
  - auto.
  - destruct (Nat.lt_ge_cases i n) as [Hi|Hi]; [apply H, F3, Hi|]. cbn [step]. unfold step_class.
    destruct (nth_error (s_cls s) i) eqn:E; [|reflexivity]. assert (i < length (s_cls s)) by (apply nth_error_Some; congruence). lia.
  - destruct (Nat.lt_ge_cases k n) as [Hi|Hi]; [apply H, F3, Hi|]. cbn [step].
    destruct (nth_error (s_join s) k) eqn:E; [|reflexivity]. assert (k < length (s_join s)) by (apply nth_error_Some; congruence). lia.
Qed.

Lemma fair_strong : forall n rounds, Forall (fair_round n) rounds -> strong (concat rounds).
Proof. intros n. induction rounds as [|l rounds IH]; intros F; [constructor|]. inversion F as [|? ? F1 F2]; subst. cbn. apply Forall_app. split; [apply F1|exact (IH F2)]. Qed.

(** A fair schedule brings every thread to rest. *)
Lemma fair_quiet : forall bg ca n (P : sys -> Prop),
  (forall s, P s -> uinv s /\ length (s_cls s) <= n /\ length (s_join s) <= n) ->
  forall rounds s, Forall (fair_round n) rounds -> (forall k, P (run bg ca (firstn k (concat rounds)) s)) -> work s < length rounds -> quiet bg ca (run bg ca (concat rounds) s).
Proof.
  intros bg ca n P HP. induction rounds as [|l rounds IH]; intros s F Hs W; [cbn in W; lia|].
  inversion F as [|? ? F1 F2]; subst. destruct (HP s (Hs 0)) as (U & L1 & L2). cbn [concat]. rewrite run_app.
  destruct (no_move bg ca l s U (proj1 F1)) as [(E & Hn)|Hlt].
  - rewrite E. assert (Q : quiet bg ca s) by (eapply covered; eauto). rewrite quiet_run; [exact Q|exact (fair_strong _ _ F2)|exact Q].
  - apply IH; [exact F2| |cbn in W; lia]. intros k. specialize (Hs (length l + k)). cbn [concat] in Hs. rewrite firstn_app_2, run_app in Hs. exact Hs.
Qed.

Lemma strong_firstn : forall k l, strong l -> strong (firstn k l).
Proof. intros k l H. unfold strong in *. rewrite Forall_forall in *. intros x Hx. apply H. rewrite <- (firstn_skipn k l). apply in_or_app. auto. Qed.

Lemma par_fair : forall n plan rounds, Forall (fair_round (length plan)) rounds -> work (life_init n plan) < length rounds ->
  s_main (run false false (concat rounds) (life_init n plan)) = MRet.
Proof.
  intros n plan rounds F W. pose proof (fair_strong _ _ F) as St.
  assert (Q : quiet false false (run false false (concat rounds) (life_init n plan))).
  { apply (fair_quiet false false (length plan) (pinv plan)); auto.
    - intros s P. split; [exact (pi_u _ _ P)|]. rewrite (pi_len _ _ P), (pi_join _ _ P). cbn. lia.
    - intros k. apply par_reach, strong_firstn, St. }
  pose proof (par_reach n plan _ St) as P. set (s := run _ _ _ _) in *. clearbody s.
  assert (D : {s_main s = MRet} + {s_main s <> MRet}) by (destruct (s_main s); auto; right; discriminate).
  destruct D as [D|D]; [exact D|]. destruct (par_progress _ _ P D) as (t & s' & E). rewrite (Q t) in E. discriminate.
Qed.
