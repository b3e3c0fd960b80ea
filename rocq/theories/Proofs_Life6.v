(** The training protocol in Background mode with a call of [cancelTraining] that comes before the end. *)
From Coq Require Import List Bool Arith ZArith Lia.
From Verif Require Import Base Model_Train Model_Life Spec_Life Proofs_Life Proofs_Life2 Proofs_Life3 Proofs_Life4.
Import ListNotations.
Local Open Scope nat_scope.

Definition cphase (m : mpc) : mpc := match m with XJoin j => MJoin j | XFin | MEnd => MRet | _ => MFlag 0 end.

Record cinv (s : sys) : Prop := mkC {
  c_u : uinv s;
  c_f : finv s;
  c_main : match s_main s with MJoin _ => False | XSet i | XWait i => i < length (s_cls s) | _ => True end;
  c_no : no_detached s;
  c_j : jinv (cphase (s_main s)) s
}.

Lemma cinv_ended : forall s, cinv s -> joined (cphase (s_main s)) = true -> forall i c, nth_error (s_cls s) i = Some c -> ended c.
Proof.
  intros s C J i c Hc. destruct (ui_cls _ (c_u _ C) i c Hc) as [UM US UO UL UN UT].
  apply UT; [|exact (j_thr _ _ (c_j _ C) J i c Hc)]. apply UL. assert (i < length (s_cls s)) by (apply nth_error_Some; congruence).
  destruct (s_main s); try discriminate; exact H.
Qed.

Lemma step_class_length : forall bg i s s', step_class bg i s = Some s' -> length (s_cls s') = length (s_cls s).
Proof.
  intros bg i s s' H. unfold step_class in H. destruct (nth_error (s_cls s) i) as [c|] eqn:Hn; [|discriminate].
  destruct (k_pc c); try discriminate;
    repeat match type of H with
    | context [if ?b then _ else _] => destruct b eqn:?
    | context [match ?x with O => _ | S _ => _ end] => destruct x eqn:?
    | context [match s_mutex ?s with _ => _ end] => destruct (s_mutex s) eqn:?
    end; try discriminate;
    rewrite ?(at_cls_some _ _ _ _ Hn) in H; injection H as <-; unfold with_cls, with_mutex, with_count, with_joining, with_join, emit; sproj; apply lset_length.
Qed.

Lemma cinv_class : forall bg i s s', cinv s -> no_detached s' -> step_class bg i s = Some s' -> cinv s'.
Proof.
  intros bg i s s' C N H. pose proof (uinv_step_class _ _ _ _ (c_u _ C) H) as U'. pose proof (finv_class _ _ _ _ (c_f _ C) H) as F'.
  assert (Em : s_main s' = s_main s).
  { unfold step_class in H. destruct (nth_error (s_cls s) i) as [c|] eqn:Hn; [|discriminate].
    destruct (k_pc c); try discriminate;
    repeat match type of H with
    | context [if ?b then _ else _] => destruct b eqn:?
    | context [match ?x with O => _ | S _ => _ end] => destruct x eqn:?
    | context [match s_mutex ?s with _ => _ end] => destruct (s_mutex s) eqn:?
    end; try discriminate;
    rewrite ?(at_cls_some _ _ _ _ Hn) in H; injection H as <-; reflexivity. }
  constructor; auto; [rewrite Em; pose proof (c_main _ C) as M; destruct (s_main s); auto; rewrite (step_class_length _ _ _ _ H); exact M|]. rewrite Em. apply (jinv_class bg _ i s s'); auto; [exact (c_j _ C)| |].
  - destruct (joined (cphase (s_main s))) eqn:E; [|reflexivity]. exfalso. unfold step_class in H. destruct (nth_error (s_cls s) i) as [c|] eqn:Hn; [|discriminate].
    destruct (cinv_ended _ C E i c Hn) as (st & Ep). rewrite Ep in H. discriminate.
  - intros c st Hc Ep. exfalso. exact (proj2 (c_no _ C) i c st Hc Ep).
Qed.

Lemma jinv_ph : forall ph ph' s, jinv ph s -> par_pc ph' -> holds_joining ph' = holds_joining ph -> lowered ph' = lowered ph ->
  announced_all ph' = announced_all ph -> (joined ph' = true -> joined ph = true) -> erased ph' = erased ph -> (forall i, ph' <> MJoin (J3 i)) -> jinv ph' s.
Proof.
  intros ph ph' s [Q1 Q2 Q3 Q4 Q5 Q6 Q7] H1 H2 H3 H4 H5 H6 H7. constructor.
  - exact H1.
  - rewrite H2. exact Q2.
  - rewrite H3. exact Q3.
  - rewrite H4. exact Q4.
  - intros A. apply Q5, H5, A.
  - rewrite H6. exact Q6.
  - intros i E. destruct (H7 i E).
Qed.

Lemma cinv_main : forall s s', cinv s -> no_detached s' -> step_main true true false s = Some s' -> cinv s'.
Proof.
  intros s s' C N H. pose proof (uinv_step_main _ _ _ _ _ (c_u _ C) H) as U'. pose proof (finv_main _ _ _ _ _ (c_u _ C) (c_f _ C) H) as F'.
  pose proof (ui_main _ (c_u _ C)) as (Hb & Hm).
  destruct C as [C1 C2 C3 C4 C5]. unfold step_main in H.
  assert (GL : forall i c c' m ct, nth_error (s_cls s) i = Some c -> k_alive c' = k_alive c -> k_status c' = k_status c -> (k_thr c = true -> k_thr c' = true) ->
     cphase m = MFlag 0 -> cphase (s_main s) = MFlag 0 -> match m with MJoin _ => False | XSet i | XWait i => i < length (s_cls s) | _ => True end ->
     s' = mkSys (lset (s_cls s) i c') m (s_join s) (s_mutex s) ct (s_training s) (s_joining s) (s_creq s) (s_log s) -> cinv s').
  { intros i c c' m ct Hn A1 A2 A3 A4 A5 A6 ->. constructor; sproj; auto.
    - destruct m; rewrite ?lset_length; exact A6.
    - rewrite A4. rewrite A5 in C5. eapply jinv_frame; [exact C5| | | | |]; sproj; auto.
      + intros j d Hd. destruct (Nat.eq_dec j i) as [->|Nj].
        * rewrite (lset_same _ _ _ _ Hn) in Hd. injection Hd as <-. exists c. split; [exact Hn|]. split; [exact A1|]. split; [exact A2|discriminate].
        * rewrite lset_other in Hd by exact Nj. exists d. auto.
      + intros j d Hd. destruct (Nat.eq_dec j i) as [->|Nj].
        * rewrite Hn in Hd. injection Hd as <-. exists c'. rewrite (lset_same _ _ _ _ Hn). auto.
        * exists d. rewrite lset_other by exact Nj. auto. }
  assert (GM : forall m ct cr, match m with MJoin _ => False | XSet i | XWait i => i < length (s_cls s) | _ => True end -> jinv (cphase m) s ->
     s' = mkSys (s_cls s) m (s_join s) (s_mutex s) ct (s_training s) (s_joining s) cr (s_log s) -> cinv s').
  { intros m ct cr A1 A2 ->. constructor; sproj; auto. eapply jinv_frame; [exact A2| | | | |]; sproj; auto; intros j d Hd; exists d; auto. }
  destruct (s_main s) eqn:Em; try contradiction; cbn [cphase] in C5.
  - destruct (Nat.ltb_spec i (length (s_cls s))) as [Hlt|Hge].
    + destruct (nth_error (s_cls s) i) as [c|] eqn:Hn; [|apply nth_error_None in Hn; lia].
      rewrite (at_cls_some _ _ _ _ Hn) in H. injection H as <-. refine (GL i c _ _ _ Hn _ _ _ _ _ _ eq_refl); auto.
    + injection H as <-. refine (GM _ _ _ _ _ eq_refl); auto.
  - destruct (nth_error (s_cls s) i) as [c|] eqn:Hn; [|apply nth_error_None in Hn; lia].
    rewrite (at_cls_some _ _ _ _ Hn) in H. injection H as <-. refine (GL i c _ _ _ Hn _ _ _ _ _ _ eq_refl); auto.
  - injection H as <-. refine (GM _ _ _ _ _ eq_refl); auto.
  - injection H as <-. unfold with_main, with_count in *. sproj. refine (GM _ _ _ _ _ eq_refl); auto.
  - destruct (nth_error (s_cls s) i) as [c|] eqn:Hn; [|apply nth_error_None in Hn; lia].
    rewrite (at_cls_some _ _ _ _ Hn) in H. injection H as <-. refine (GL i c _ _ _ Hn _ _ _ _ _ _ eq_refl); auto.
  - injection H as <-. refine (GM _ _ _ _ _ eq_refl); auto.
  - rewrite (j_training _ _ C5) in H. cbn [lowered negb] in H. injection H as <-. refine (GM _ _ _ _ _ eq_refl); auto.
  - destruct (Nat.ltb_spec i (length (s_cls s))) as [Hlt|Hge]; [destruct (alive_at s i)|]; injection H as <-; unfold with_main, with_creq in *; sproj; refine (GM _ _ _ _ _ eq_refl); auto.
    cbn [cphase]. eapply jinv_ph; [exact C5| | | | | | |]; try reflexivity; try exact I; discriminate.
  - unfold at_cls in H. destruct (nth_error (s_cls s) i) as [c|] eqn:Hn; injection H as <-.
    + refine (GL i c _ _ _ Hn _ _ _ _ _ _ eq_refl); auto; destruct (k_flag c); auto.
    + refine (GM _ _ _ _ _ eq_refl); auto.
  - destruct (nth_error (s_cls s) i) as [c|]; [|discriminate]. destruct (k_flag c); [discriminate|]. injection H as <-. refine (GM _ _ _ _ _ eq_refl); auto.
  - assert (Hs : j = JEnd \/ exists s1 j', step_join false j s = Some (s1, j') /\ s' = with_main (XJoin j') s1).
    { destruct j; auto; right; destruct (step_join false _ s) as [[s1 j']|]; try discriminate; injection H as <-; eauto. }
    destruct Hs as [->|(s1 & j' & E & ->)].
    + injection H as <-. refine (GM _ _ _ _ _ eq_refl); auto. cbn [cphase]. eapply jinv_ph; [exact C5| | | | | | |]; try reflexivity; try exact I; discriminate.
    + constructor; auto; sproj; try exact I. cbn [cphase]. pose proof (jinv_join _ _ _ _ C5 E) as [Q1 Q2 Q3 Q4 Q5 Q6 Q7]. constructor; sproj; auto.
  - injection H as <-. unfold with_main, with_creq in *. sproj. refine (GM _ _ _ _ _ eq_refl); auto.
  - discriminate.
Qed.

Lemma cinv_step : forall t s s', cinv s -> step true true t false s = Some s' -> no_detached s' -> cinv s'.
Proof.
  intros [|i|k] s s' C H N; cbn [step] in H.
  - eapply cinv_main; eauto.
  - eapply cinv_class; eauto.
  - rewrite (proj1 (c_no _ C)) in H. destruct k; discriminate.
Qed.

Lemma cinv_init : forall n plan, cinv (life_init n plan).
Proof.
  intros n plan. destruct (finv_reach true true n plan []) as (U & F). constructor; auto.
  - unfold life_init; sproj. exact I.
  - split; [reflexivity|]. intros i c st Hc. unfold life_init in Hc; sproj. rewrite nth_error_map in Hc. destruct (nth_error plan i); [|discriminate]. injection Hc as <-. discriminate.
  - pose proof (pinv_init n plan) as [P1 P2 P3 P4 P5 P6 P7 P8 P9 P10 P11 P12 P13]. constructor; auto.
Qed.

Lemma throughout_run : forall bg ca (P Q : sys -> Prop), (forall t s s', P s -> step bg ca t false s = Some s' -> Q s' -> P s') ->
  forall sch s, strong sch -> P s -> throughout bg ca Q sch s -> P (run bg ca sch s).
Proof.
  intros bg ca P Q HP. induction sch as [|(t, b) k IH]; intros s0 St B T; cbn [run]; [exact B|]. inversion St as [|? ? St1 St2]; subst. cbn in St1. subst b.
  apply IH; [exact St2| |].
  - pose proof (T 1) as T1. cbn [firstn run] in T1. destruct (step bg ca t false s0) as [s'|] eqn:E; [eapply HP; eauto|exact B].
  - intros n. specialize (T (S n)). cbn [firstn run] in T. exact T.
Qed.

Lemma cancel_reach : forall n plan sch, strong sch -> throughout true true no_detached sch (life_init n plan) -> cinv (run true true sch (life_init n plan)).
Proof. intros n plan sch St T. apply (throughout_run true true cinv no_detached); auto; [exact cinv_step|apply cinv_init]. Qed.

Lemma cancel_over : forall s, cinv s -> s_main s = MEnd ->
  s_training s = false /\ (exists l, s_log s = l ++ [EvAll] /\ ~ In EvAll l) /\
  forall i c, nth_error (s_cls s) i = Some c -> ended c /\ k_flag c = false /\ (k_alive c = true <-> k_pc c = CEnd Done).
Proof.
  intros s C Em. pose proof (cinv_ended s C) as En. pose proof (c_j _ C) as J. rewrite Em in En, J. cbn [cphase] in *. destruct J as [Q1 Q2 Q3 Q4 Q5 Q6 Q7].
  split; [exact Q3|]. split; [exact Q4|]. intros i c Hc. destruct (En eq_refl i c Hc) as (st & E). split; [exists st; exact E|].
  split; [apply (c_f _ C i c Hc); rewrite E; reflexivity|]. rewrite (Q6 i c Hc). cbn [erased].
  destruct (ui_cls _ (c_u _ C) i c Hc) as [UM US (UO & UO') UL UN UT]. rewrite E in *. specialize (US st eq_refl). specialize (UO st eq_refl). specialize (UO' eq_refl st eq_refl). rewrite US.
  destruct st; cbn [kept]; try congruence; split; congruence.
Qed.

Lemma cancel_progress : forall s, cinv s -> s_main s <> MEnd -> exists t s', step true true t false s = Some s'.
Proof.
  intros s C Hr. pose proof (c_u _ C) as U.
  assert (HM : (exists s', step_main true true false s = Some s') -> exists t s', step true true t false s = Some s').
  { intros (s' & E). exists TMain, s'. exact E. }
  pose proof (c_j _ C) as J. pose proof (c_main _ C) as CM. pose proof (ui_main _ U) as (Hb & Hm).
  assert (CF : lbound (s_main s) (length (s_cls s)) = length (s_cls s) -> forall i c, nth_error (s_cls s) i = Some c -> (exists st, k_pc c = CEnd st) \/ exists t s', step true true t false s = Some s').
  { intros Hl i c Hc. assert (D : (exists st, k_pc c = CEnd st) \/ forall st, k_pc c <> CEnd st) by (destruct (k_pc c); eauto; right; discriminate).
    destruct D as [D|D]; [auto|]. right. destruct (ui_cls _ U i c Hc) as [UM US UO UL UN UT]. rewrite Hl in UL.
    destruct (class_free true s i c U Hc) as (k & s' & E); [apply UL; apply nth_error_Some; congruence|exact D|]. exists (TClass k), s'. exact E. }
  unfold step_main in HM. destruct (s_main s) eqn:Em; try contradiction; try (apply HM; eexists; reflexivity).
  - apply HM. destruct (i <? length (s_cls s)); eexists; reflexivity.
  - apply HM. destruct (i <? length (s_cls s)); [destruct (alive_at s i)|]; eexists; reflexivity.
  - destruct (nth_error (s_cls s) i) as [c|] eqn:Hn.
    + destruct (CF eq_refl i c Hn) as [(st & A)|A]; [|exact A]. assert (Fc : k_flag c = false) by (apply (c_f _ C i c Hn); rewrite A; reflexivity).
      rewrite Fc in HM. apply HM. eexists; reflexivity.
    + apply nth_error_None in Hn. lia.
  - destruct J as [Q1 Q2 Q3 Q4 Q5 Q6 Q7]. cbn [cphase] in *.
    destruct j; cbn [par_pc holds_joining] in *; try contradiction; cbn [step_join] in HM; try (apply HM; eexists; reflexivity).
    * apply HM. rewrite Q2. eexists; reflexivity.
    * destruct (first_thr (s_cls s) 0) as [i|] eqn:Ef; [|apply HM; eexists; reflexivity].
      destruct (first_thr_some _ _ _ Ef) as (c & C1 & C2 & _). rewrite Nat.sub_0_r in C1. rewrite C1 in HM.
      destruct (CF eq_refl i c C1) as [(st & D)|D]; [rewrite D in HM; apply HM; eexists; reflexivity|exact D].
    * destruct (Q7 i eq_refl) as (c & C1 & C2). rewrite C1, C2 in HM. apply HM. eexists; reflexivity.
    * apply HM. rewrite Q2. eexists; reflexivity.
Qed.

Lemma cancel_fair : forall n plan rounds, Forall (fair_round (length plan)) rounds -> work (life_init n plan) < length rounds ->
  throughout true true no_detached (concat rounds) (life_init n plan) -> s_main (run true true (concat rounds) (life_init n plan)) = MEnd.
Proof.
  intros n plan rounds F W T. pose proof (fair_strong _ _ F) as St.
  assert (Len : forall l, strong l -> throughout true true no_detached l (life_init n plan) -> length (s_cls (run true true l (life_init n plan))) = length plan).
  { intros l Sl Tl. apply (throughout_run true true (fun s => cinv s /\ length (s_cls s) = length plan) no_detached); auto.
    - intros t s s' (C & L) Hs N. split; [eapply cinv_step; eauto|]. rewrite <- L. destruct t as [|i|k]; cbn [step] in Hs.
      + assert (AC : forall j f q, length (s_cls (at_cls j f q)) = length (s_cls q)) by (intros j f q; unfold at_cls; destruct (nth_error (s_cls q) j); [apply lset_length|reflexivity]).
        assert (JC : forall j s1 j', step_join false j s = Some (s1, j') -> length (s_cls s1) = length (s_cls s)).
        { intros j s1 j' H. unfold step_join in H. destruct j; repeat match type of H with
            | context [if ?b then _ else _] => destruct b
            | context [match ?x with Some _ => _ | None => _ end] => destruct x eqn:?
            | context [match k_pc ?x with _ => _ end] => destruct (k_pc x) eqn:?
            end; try discriminate; injection H as <- <-; rewrite ?AC; auto. apply map_length. }
        unfold step_main in Hs. destruct (s_main s); repeat match type of Hs with
            | context [if ?b then _ else _] => destruct b
            | context [match nth_error ?x ?y with Some _ => _ | None => _ end] => destruct (nth_error x y) eqn:?
            | context [match ?j with J0 => _ | _ => _ end] => is_var j; destruct j
            | context [match step_join false ?j s with _ => _ end] => destruct (step_join false j s) as [[? ?]|] eqn:?
            end; try discriminate; injection Hs as <-; unfold with_main, with_creq, with_count; sproj; rewrite ?AC; eauto.
      + eapply step_class_length; eauto.
      + rewrite (proj1 (c_no _ C)) in Hs. destruct k; discriminate.
    - split; [apply cinv_init|]. unfold life_init; sproj. apply map_length. }
  assert (Q : quiet true true (run true true (concat rounds) (life_init n plan))).
  { apply (fair_quiet true true (length plan) (fun s => cinv s /\ length (s_cls s) = length plan)); auto.
    - intros s (P & L). split; [exact (c_u _ P)|]. rewrite L, (proj1 (c_no _ P)). cbn. lia.
    - intros k. assert (T' : throughout true true no_detached (firstn k (concat rounds)) (life_init n plan)) by (intros m; rewrite firstn_firstn; apply T).
      split; [apply cancel_reach|apply Len]; auto; apply strong_firstn, St. }
  pose proof (cancel_reach n plan _ St T) as P. set (s := run _ _ _ _) in *. clearbody s.
  assert (D : {s_main s = MEnd} + {s_main s <> MEnd}) by (destruct (s_main s); auto; right; discriminate).
  destruct D as [D|D]; [exact D|]. destruct (cancel_progress _ P D) as (t & s' & E). rewrite (Q t) in E. discriminate.
Qed.

(** A class that has reported has announced its end. *)
Definition rinv (s : sys) : Prop := forall i c, nth_error (s_cls s) i = Some c -> reported (k_pc c) = true -> exists e, In e (s_log s) /\ is_final e.

Lemma rinv_class : forall bg i s s', uinv s -> rinv s -> step_class bg i s = Some s' -> rinv s'.
Proof.
  intros bg i s s' U R H. unfold step_class in H. destruct (nth_error (s_cls s) i) as [c|] eqn:Hn; [|discriminate].
  destruct (ui_cls _ U i c Hn) as [UM US (UO & UO') UL UN UT]. pose proof (R i c Hn) as Rc.
  assert (G : forall c' m js mu ct tr jo cr ev, (reported (k_pc c') = true -> exists e, In e (s_log s ++ ev) /\ is_final e) ->
    rinv (mkSys (lset (s_cls s) i c') m js mu ct tr jo cr (s_log s ++ ev))).
  { intros c' m js mu ct tr jo cr ev A j d Hd Rd. sproj. destruct (Nat.eq_dec j i) as [->|Nj].
    - rewrite (lset_same _ _ _ _ Hn) in Hd. injection Hd as <-. auto.
    - rewrite lset_other in Hd by exact Nj. destruct (R j d Hd Rd) as (e & E1 & E2). exists e. split; [apply in_or_app; auto|exact E2]. }
  assert (G0 : forall c' m js mu ct tr jo cr, (reported (k_pc c') = true -> exists e, In e (s_log s) /\ is_final e) ->
    rinv (mkSys (lset (s_cls s) i c') m js mu ct tr jo cr (s_log s))).
  { intros c' m js mu ct tr jo cr A. rewrite <- (app_nil_r (s_log s)). apply G. rewrite app_nil_r. exact A. }
  destruct (k_pc c) eqn:Ep; try discriminate;
    repeat match type of H with
    | context [if ?b then _ else _] => destruct b eqn:?
    | context [match ?x with O => _ | S _ => _ end] => destruct x eqn:?
    | context [match s_mutex ?s with _ => _ end] => destruct (s_mutex s) eqn:?
    end; try discriminate;
    rewrite ?(at_cls_some _ _ _ _ Hn) in H; injection H as <-; unfold with_cls, with_mutex, with_count, with_joining, with_join, emit; sproj;
    first [apply G0 | apply G]; kproj; cbn [reported] in *; try discriminate; auto.
  - intros A. exfalso. destruct st; discriminate.
  - intros _. exists (EvClass i st). split; [apply in_or_app; right; left; reflexivity|]. specialize (UO st eq_refl). destruct st; try discriminate; try exact I; congruence.
  - intros A. apply Rc. destruct st; try reflexivity. discriminate.
Qed.

Lemma rinv_ext : forall s s', rinv s -> (forall e, In e (s_log s) -> In e (s_log s')) ->
  (forall i c', nth_error (s_cls s') i = Some c' -> exists c, nth_error (s_cls s) i = Some c /\ (reported (k_pc c') = true -> reported (k_pc c) = true)) -> rinv s'.
Proof. intros s s' R H1 H2 i c' Hc Rc. destruct (H2 i c' Hc) as (c & C1 & C2). destruct (R i c C1 (C2 Rc)) as (e & E1 & E2). eauto. Qed.

(** A cancellation in time keeps the classes from starting a joining thread. *)
Definition tinv (s : sys) : Prop :=
  cinv s /\ rinv s /\ (forall i c st, nth_error (s_cls s) i = Some c -> k_pc c <> CChk3 st /\ k_pc c <> CSpawn st /\ k_pc c <> CSpawn2 st).

Lemma tinv_class : forall i s s', tinv s -> cancelled_in_time s -> step_class true i s = Some s' -> tinv s'.
Proof.
  intros i s s' (C & R & K) CT H.
  assert (K' : s_join s' = [] /\ forall j d st, nth_error (s_cls s') j = Some d -> k_pc d <> CChk3 st /\ k_pc d <> CSpawn st /\ k_pc d <> CSpawn2 st).
  { pose proof (cinv_ended s C) as En. pose proof (proj1 (c_no _ C)) as Ej. unfold step_class in H. destruct (nth_error (s_cls s) i) as [c|] eqn:Hn; [|discriminate].
    assert (G : forall c', (forall st, k_pc c' <> CChk3 st /\ k_pc c' <> CSpawn st /\ k_pc c' <> CSpawn2 st) ->
      s_join s = [] /\ forall j d st, nth_error (lset (s_cls s) i c') j = Some d -> k_pc d <> CChk3 st /\ k_pc d <> CSpawn st /\ k_pc d <> CSpawn2 st).
    { intros c' A. split; [exact Ej|]. intros j d st Hd. destruct (Nat.eq_dec j i) as [->|Nj].
      - rewrite (lset_same _ _ _ _ Hn) in Hd. injection Hd as <-. auto.
      - rewrite lset_other in Hd by exact Nj. eauto. }
    pose proof (K i c) as Kc. pose proof (R i c Hn) as Rc.
    destruct (k_pc c) eqn:Ep; try discriminate; try (exfalso; specialize (Kc st Hn); destruct Kc as (K1 & K2 & K3); congruence).
    12:{ assert (Cr : s_creq s = true).
         { destruct (s_creq s) eqn:Er; [reflexivity|]. exfalso. destruct (Rc eq_refl) as (e & E1 & E2). refine (CT Er _ e E1 E2).
           intros Em. rewrite Em in En. destruct (En eq_refl i c Hn) as (st' & A). congruence. }
         rewrite Cr in H. cbn [negb] in H. rewrite (at_cls_some _ _ _ _ Hn) in H. injection H as <-. unfold with_cls. sproj. apply G. kproj. intros; repeat split; discriminate. }
    all: repeat match type of H with
    | context [if ?b then _ else _] => destruct b eqn:?
    | context [match ?x with O => _ | S _ => _ end] => destruct x eqn:?
    | context [match s_mutex ?s with _ => _ end] => destruct (s_mutex s) eqn:?
    end; try discriminate;
    rewrite ?(at_cls_some _ _ _ _ Hn) in H; injection H as <-; unfold with_cls, with_mutex, with_count, with_joining, with_join, emit; sproj;
    apply G; kproj; intros; repeat split; try discriminate; repeat match goal with st : status |- _ => destruct st end; discriminate. }
  destruct K' as (K1 & K2). split; [|split; [eapply rinv_class; eauto; exact (c_u _ C)|exact K2]].
  eapply cinv_class; eauto. split; [exact K1|]. intros j d st Hd. apply (K2 j d st Hd).
Qed.

Lemma main_pcs : forall s s', uinv s -> step_main true true false s = Some s' -> s_join s' = s_join s /\ (forall e, In e (s_log s) -> In e (s_log s')) /\
  forall i c', nth_error (s_cls s') i = Some c' -> exists c, nth_error (s_cls s) i = Some c /\ (k_pc c' = k_pc c \/ k_pc c' = CStart).
Proof.
  intros s s' U H.
  assert (AC : forall j f q, (forall c, k_pc (f c) = k_pc c \/ k_pc (f c) = CStart) -> s_cls q = s_cls s -> forall i c', nth_error (s_cls (at_cls j f q)) i = Some c' -> exists c, nth_error (s_cls s) i = Some c /\ (k_pc c' = k_pc c \/ k_pc c' = CStart)).
  { intros j f q Hf Eq i c' Hc. unfold at_cls in Hc. destruct (nth_error (s_cls q) j) as [d|] eqn:E; [|rewrite Eq in Hc; eauto].
    unfold with_cls in Hc. sproj. destruct (Nat.eq_dec i j) as [->|N].
    - rewrite (lset_same _ _ _ _ E) in Hc. injection Hc as <-. rewrite Eq in E. exists d. auto.
    - rewrite lset_other in Hc by exact N. rewrite Eq in Hc. eauto. }
  assert (AJ : forall j f q, s_join (at_cls j f q) = s_join q /\ s_log (at_cls j f q) = s_log q) by (intros j f q; unfold at_cls; destruct (nth_error (s_cls q) j); auto).
  assert (JC : forall j s1 j', step_join false j s = Some (s1, j') -> s_join s1 = s_join s /\ (forall e, In e (s_log s) -> In e (s_log s1)) /\
    forall i c', nth_error (s_cls s1) i = Some c' -> exists c, nth_error (s_cls s) i = Some c /\ (k_pc c' = k_pc c \/ k_pc c' = CStart)).
  { intros j s1 j' Hj. unfold step_join in Hj. destruct j; repeat match type of Hj with
      | context [if ?b then _ else _] => destruct b
      | context [match ?x with Some _ => _ | None => _ end] => destruct x eqn:?
      | context [match k_pc ?x with _ => _ end] => destruct (k_pc x) eqn:?
      end; try discriminate; injection Hj as <- <-; rewrite ?(proj1 (AJ _ _ _)), ?(proj2 (AJ _ _ _)); unfold emit; sproj; (split; [reflexivity|split; [auto|]]); eauto.
    - intros k d Hd. eapply AC; try exact Hd; auto.
    - intros k d Hd. unfold with_cls in Hd. sproj. rewrite nth_error_map in Hd. destruct (nth_error (s_cls s) k) as [x|] eqn:E; [|discriminate]. cbn in Hd. injection Hd as <-. exists x. split; [reflexivity|]. unfold erase_failed. destruct (k_status x); auto.
    - intros e He. apply in_or_app. auto. }
  unfold step_main in H. destruct (s_main s); repeat match type of H with
      | context [if ?b then _ else _] => destruct b
      | context [match nth_error ?x ?y with Some _ => _ | None => _ end] => destruct (nth_error x y) eqn:?
      | context [match ?j with J0 => _ | _ => _ end] => is_var j; destruct j
      | context [match step_join false ?j s with _ => _ end] => destruct (step_join false j s) as [[? ?]|] eqn:Hj; [apply JC in Hj|]
      end; try discriminate; injection H as <-; unfold with_main, with_creq, with_count; sproj; try exact Hj;
      rewrite ?(proj1 (AJ _ _ _)), ?(proj2 (AJ _ _ _)); (split; [reflexivity|split; [auto|]]); eauto;
      intros k d Hd; eapply AC; try exact Hd; auto.
  intros c0. left. destruct c0 as [? ? ? ? [] ? ? ?]; reflexivity.
Qed.

Lemma tinv_step : forall t s s', tinv s -> cancelled_in_time s -> step true true t false s = Some s' -> tinv s'.
Proof.
  intros [|i|k] s s' T CT H; cbn [step] in H.
  - destruct T as (C & R & K). destruct (main_pcs s s' (c_u _ C) H) as (M1 & M2 & M3).
    assert (K' : forall i c st, nth_error (s_cls s') i = Some c -> k_pc c <> CChk3 st /\ k_pc c <> CSpawn st /\ k_pc c <> CSpawn2 st).
    { intros i c' st Hc. destruct (M3 i c' Hc) as (c & C1 & [C2|C2]); rewrite C2; [exact (K i c st C1)|]. repeat split; discriminate. }
    split; [|split; [|exact K']].
    + eapply cinv_main; eauto. split; [rewrite M1; apply (c_no _ C)|]. intros i c st Hc. apply (K' i c st Hc).
    + eapply rinv_ext; eauto. intros i c' Hc. destruct (M3 i c' Hc) as (c & C1 & C2). exists c. split; [exact C1|]. destruct C2 as [->| ->]; [auto|discriminate].
  - eapply tinv_class; eauto.
  - destruct T as (C & _). rewrite (proj1 (c_no _ C)) in H. destruct k; discriminate.
Qed.

Lemma tinv_init : forall n plan, tinv (life_init n plan).
Proof.
  intros n plan. split; [apply cinv_init|]. split.
  - intros i c Hc Rc. unfold life_init in Hc; sproj. rewrite nth_error_map in Hc. destruct (nth_error plan i); [|discriminate]. injection Hc as <-. discriminate.
  - intros i c st Hc. unfold life_init in Hc; sproj. rewrite nth_error_map in Hc. destruct (nth_error plan i); [|discriminate]. injection Hc as <-. repeat split; discriminate.
Qed.

Lemma in_time : forall n plan sch, strong sch -> throughout true true cancelled_in_time sch (life_init n plan) -> throughout true true no_detached sch (life_init n plan).
Proof.
  intros n plan sch St T k. assert (G : forall l s, strong l -> tinv s -> throughout true true cancelled_in_time l s -> tinv (run true true l s)).
  { clear. induction l as [|(t, b) l IH]; intros s St I T; cbn [run]; [exact I|]. inversion St as [|? ? St1 St2]; subst. cbn in St1. subst b. apply IH; [exact St2| |].
    - destruct (step true true t false s) as [s'|] eqn:E; [|exact I]. eapply tinv_step; eauto. exact (T 0).
    - intros n. exact (T (S n)). }
  apply (G (firstn k sch)); [apply strong_firstn, St|apply tinv_init|]. intros m. rewrite firstn_firstn. apply T.
Qed.
