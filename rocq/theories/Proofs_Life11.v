(** One class is cancelled while others are training. *)
From Coq Require Import List Bool Arith ZArith Lia.
From Verif Require Import Base Model_Train Model_Life Model_Life2 Spec_Life Spec_Life2 Proofs_Life Proofs_Life2 Proofs_Life3 Proofs_Life4 Proofs_Life5 Proofs_Life7 Proofs_Life8 Proofs_Life9 Proofs_Life10.
Import ListNotations.
Local Open Scope nat_scope.

Definition good_pc (c : cls) : Prop :=
  match k_pc c with CErr | CErr2 => k_good c = false | p => match pc_status p with Some Done => k_good c = true | Some Error => k_good c = false | _ => True end end.

(** What the class has announced and will announce; [can]: it may have been cancelled. *)
Record kcls (can : bool) (plan : list (nat * bool)) (lg : list mevent) (i : nat) (c : cls) : Prop := mkK {
  q_cancel : can = false -> k_cancel c = false;
  q_todo : exists p, nth_error plan i = Some p /\
    (pc_status (k_pc c) <> Some Cancel /\ events_of i lg ++ todo c = announced p \/
     can = true /\ pc_status (k_pc c) = Some Cancel /\ exists n, n <= fst p /\ events_of i lg ++ todo c = repeat Run n ++ [Cancel]);
  q_good : good_pc c;
  q_plan : forall p, nth_error plan i = Some p -> k_good c = snd p
}.

Lemma pcls_kcls : forall can plan lg i c, pcls plan lg i c -> kcls can plan lg i c.
Proof. intros can plan lg i c [P1 P2 (p & P3 & P4) P5 P6]. constructor; auto. exists p. auto. Qed.

Lemma runs_prefix : forall n x l left e, l ++ (repeat Run left ++ [e]) = repeat Run n ++ [x] -> exists m, m <= n /\ l = repeat Run m.
Proof.
  induction n as [|n IH]; intros x l left e H.
  - exists 0. split; [lia|]. destruct l as [|a l]; [reflexivity|]. cbn in H. injection H as _ H. apply (f_equal (@length status)) in H. rewrite !app_length in H. cbn in H. lia.
  - destruct l as [|a l]; [exists 0; split; [lia|reflexivity]|]. cbn in H. injection H as -> H. destruct (IH x l left e H) as (m & M1 & ->). exists (S m). split; [lia|reflexivity].
Qed.

Lemma kcls_ext : forall can plan lg i c c', kcls can plan lg i c -> k_pc c' = k_pc c -> k_left c' = k_left c -> k_good c' = k_good c -> (can = false -> k_cancel c' = false) -> kcls can plan lg i c'.
Proof.
  intros can plan lg i c c' [Q1 (p & Q2 & Q3) Q4 Q5] E1 E2 E3 E4. pose proof (todo_ext c c' E1 E2 E3) as T. constructor; auto.
  - exists p. split; [exact Q2|]. rewrite T, E1. exact Q3.
  - unfold good_pc in *. rewrite E1, E3. exact Q4.
  - rewrite E3. exact Q5.
Qed.

Lemma kcls_step : forall (can : nat -> bool) plan i s s', uinv s -> (forall j c, nth_error (s_cls s) j = Some c -> kcls (can j) plan (s_log s) j c) ->
  step_class true i s = Some s' -> forall j c, nth_error (s_cls s') j = Some c -> kcls (can j) plan (s_log s') j c.
Proof.
  intros can plan i s s' U P H j d Hd. unfold step_class in H. destruct (nth_error (s_cls s) i) as [c|] eqn:Hn; [|discriminate].
  destruct (ui_cls _ U i c Hn) as [UM US (UO & UO') UL UN UT].
  assert (G : forall c' ev, (ev = [] \/ exists st, ev = [EvClass i st]) ->
     k_cancel c' = k_cancel c -> (pc_status (k_pc c') = pc_status (k_pc c) \/ pc_status (k_pc c') <> Some Cancel /\ pc_status (k_pc c) <> Some Cancel) ->
     events_of i ev ++ todo c' = todo c -> good_pc c' -> k_good c' = k_good c ->
     nth_error (lset (s_cls s) i c') j = Some d -> kcls (can j) plan (s_log s ++ ev) j d).
  { intros c' ev Hev A1 A2 A3 A4 A5 Hj. destruct (Nat.eq_dec j i) as [->|Nj].
    - rewrite (lset_same _ _ _ _ Hn) in Hj. injection Hj as <-. destruct (P i c Hn) as [P1 (p & P3 & P4) P5 P6]. constructor; auto; [rewrite A1; exact P1| |rewrite A5; exact P6].
      exists p. split; [exact P3|]. rewrite events_app, <- app_assoc, A3. destruct P4 as [(P4 & P4')|(P4 & P4' & P4'')].
      + left. split; [|exact P4']. destruct A2 as [A2|(A2 & _)]; [congruence|exact A2].
      + right. split; [exact P4|]. split; [|exact P4'']. destruct A2 as [A2|(_ & A2)]; congruence.
    - rewrite lset_other in Hj by exact Nj. destruct (P j d Hj) as [P1 (p & P3 & P4) P5 P6]. constructor; auto.
      exists p. split; [exact P3|]. rewrite events_app. assert (E : events_of j ev = []).
      { destruct Hev as [->|(st & ->)]; [reflexivity|]. cbn. replace (i =? j) with false by (symmetry; apply Nat.eqb_neq; lia). reflexivity. }
      rewrite E, app_nil_r. exact P4. }
  assert (G0 : forall c', k_cancel c' = k_cancel c -> (pc_status (k_pc c') = pc_status (k_pc c) \/ pc_status (k_pc c') <> Some Cancel /\ pc_status (k_pc c) <> Some Cancel) ->
     todo c' = todo c -> good_pc c' -> k_good c' = k_good c ->
     nth_error (lset (s_cls s) i c') j = Some d -> kcls (can j) plan (s_log s) j d).
  { intros c' A1 A2 A3 A4 A5 Hj. rewrite <- (app_nil_r (s_log s)). apply (G c' []); auto. }
  destruct (P i c Hn) as [P1 (p & P3 & P4) P5 P6]. unfold good_pc in P5.
  destruct (k_pc c) eqn:Ep; try discriminate.
  2: { destruct (k_cancel c) eqn:Ec.
       - (* the cancellation is seen *)
         rewrite (at_cls_some _ _ _ _ Hn) in H. injection H as <-. unfold with_cls in *. sproj. destruct (Nat.eq_dec j i) as [->|Nj].
         + rewrite (lset_same _ _ _ _ Hn) in Hd. injection Hd as <-. assert (Ci : can i = true) by (destruct (can i); [reflexivity|specialize (P1 eq_refl); discriminate]).
           constructor; [rewrite Ci; discriminate| |exact I|exact P6]. exists p. split; [exact P3|]. right. split; [exact Ci|]. split; [reflexivity|].
           destruct P4 as [(_ & P4)|(_ & P4 & _)]; [|discriminate]. unfold todo in P4. rewrite Ep in P4. unfold rest, announced in P4.
           destruct (runs_prefix _ _ _ _ _ P4) as (m & M1 & M2). exists m. split; [exact M1|]. rewrite M2. reflexivity.
         + rewrite lset_other in Hd by exact Nj. eauto.
       - rewrite (at_cls_some _ _ _ _ Hn) in H. injection H as <-. unfold with_cls in *. sproj. refine (G0 _ _ _ _ _ _ Hd); unfold todo, good_pc; kproj; rewrite ?Ep; auto; try exact I; right; split; discriminate. }
  all: repeat match type of H with
    | context [if ?b then _ else _] => destruct b eqn:?
    | context [match ?x with O => _ | S _ => _ end] => destruct x eqn:?
    | context [match s_mutex ?s with _ => _ end] => destruct (s_mutex s) eqn:?
    end; try discriminate; try congruence;
    rewrite ?(at_cls_some _ _ _ _ Hn) in H; injection H as <-; unfold with_cls, with_mutex, with_count, with_joining, with_join, emit in *; sproj.
  all: first [refine (G0 _ _ _ _ _ _ Hd) | refine (G _ _ _ _ _ _ _ _ Hd)]; kproj; auto; cbn [pc_status];
    try (right; split; discriminate); try (right; eauto; fail);
    try (unfold todo at 2; rewrite Ep); unfold todo, rest, good_pc; kproj; rewrite ?Heqn; rewrite ?Heqb; try reflexivity.
  all: cbn [pc_status] in *; try exact I; try exact P5; auto.
  all: try (destruct st; cbn [is_run_status pc_status] in *; auto; try (left; reflexivity); try (right; split; discriminate); try reflexivity; try congruence; try discriminate).
  all: try (exfalso; apply (UO' eq_refl Run); reflexivity).
  all: try (cbn [events_of flat_map app is_run_status]; rewrite Nat.eqb_refl; reflexivity).
  all: try (exfalso; apply (UO Alldone); reflexivity).
  all: try (destruct (_ && _); kproj; auto). all: try (destruct (negb _); kproj; auto). all: try (destruct (_ =? _)%Z; kproj; auto).

Qed.

(** The threads of a training all of whose classes were started; class [v] may be cancelled. *)
Record dinv (v : nat) (plan : list (nat * bool)) (s : sys) : Prop := mkD {
  d_u : uinv s;
  d_cls : forall i c, nth_error (s_cls s) i = Some c -> kcls (i =? v) plan (s_log s) i c;
  d_len : length (s_cls s) = length plan;
  d_join : s_join s = [] \/ exists j, s_join s = [j];
  d_main : s_main s = MRet;
  d_count : s_count s = Z.of_nat (lsum pend (s_cls s));
  d_decw : forall i c st n, nth_error (s_cls s) i = Some c -> k_pc c = CDecW st n -> n = s_count s;
  d_fin : s_join s <> [] -> forall i c, nth_error (s_cls s) i = Some c -> finishing (k_pc c) = true;
  d_spawn : forall i c st, nth_error (s_cls s) i = Some c -> k_pc c = CSpawn st \/ k_pc c = CSpawn2 st -> s_count s = 0%Z;
  d_live : s_count s = 0%Z -> s_join s = [] -> exists i c, nth_error (s_cls s) i = Some c /\ deciding (k_pc c) = true;
  d_j : jinv (bphase s) s
}.

Lemma binv_dinv : forall v plan s, binv plan s -> s_main s = MRet -> dinv v plan s.
Proof.
  intros v plan s [B1 B2 B3 B4 B5 B6 B7 B8 B9 B10 B11 B12 B13 B14] Em. rewrite Em in B8. cbn [bonus] in B8. constructor; auto.
  - intros i c Hc. apply pcls_kcls. eauto.
  - intros N. destruct (B11 N). auto.
Qed.

Lemma dinv_class : forall plan v i s s', dinv v plan s -> s_creq s = false \/ s_count s <> 0%Z -> step_class true i s = Some s' -> dinv v plan s'.
Proof.
  intros plan v i s s' B CR H.
  assert (U' := uinv_step_class _ _ _ _ (d_u _ _ _ B) H).
  assert (C' := kcls_step (fun k => k =? v) _ _ _ _ (d_u _ _ _ B) (d_cls _ _ _ B) H).
  (* no class moves once the threads are joined *)
  assert (NJ : joined (bphase s) = false).
  { destruct (joined (bphase s)) eqn:E; [|reflexivity]. exfalso. pose proof (j_thr _ _ (d_j _ _ _ B) E) as T.
    assert (Nj : s_join s <> []) by (unfold bphase in E; destruct (s_join s); [discriminate|discriminate]).
    pose proof (d_main _ _ _ B) as Em.
    unfold step_class in H. destruct (nth_error (s_cls s) i) as [c|] eqn:Hn; [|discriminate].
    destruct (ui_cls _ (d_u _ _ _ B) i c Hn) as [UM US UO UL UN UT].
    destruct UT as (st & Ep); [|exact (T i c Hn)|rewrite Ep in H; discriminate].
    apply UL. rewrite Em. cbn. apply nth_error_Some. congruence. }
  assert (HS : forall c st, nth_error (s_cls s) i = Some c -> k_pc c = CSpawn st -> s_join s = []).
  { intros c st Hc Ep. destruct (d_join _ _ _ B) as [E|(j & E)]; [exact E|]. exfalso. pose proof (d_fin _ _ _ B ltac:(rewrite E; discriminate)) as Fn.
    specialize (Fn i c Hc). rewrite Ep in Fn. discriminate. }
  assert (HS2 : forall c st, nth_error (s_cls s) i = Some c -> k_pc c = CSpawn2 st -> s_join s = []).
  { intros c st Hc Ep. destruct (d_join _ _ _ B) as [E|(j & E)]; [exact E|]. exfalso. pose proof (d_fin _ _ _ B ltac:(rewrite E; discriminate)) as Fn.
    specialize (Fn i c Hc). rewrite Ep in Fn. discriminate. }
  assert (J' : jinv (bphase s) s').
  { apply (jinv_class true (bphase s) i s s'); auto; [exact (d_j _ _ _ B)|]. intros c st Hc Ep. unfold bphase. rewrite (HS c st Hc Ep). reflexivity. }
  unfold step_class in H. destruct (nth_error (s_cls s) i) as [c|] eqn:Hn; [|discriminate].
  destruct B as [B1 B2 B3 B4 Em B8 B10 B11 B12 B13 B14].
  destruct (ui_cls _ B1 i c Hn) as [UM US (UO & UO') UL UN UT].
  (* everybody else is outside the critical region when [i] is inside *)
  assert (EX : critical (k_pc c) = true -> forall j d, j <> i -> nth_error (s_cls s) j = Some d -> critical (k_pc d) = false).
  { intros Hc j d Nj Hd. destruct (critical (k_pc d)) eqn:E; [|reflexivity]. destruct (ui_cls _ B1 j d Hd) as [UM' _ _ _ _ _].
    apply UM in Hc. apply UM' in E. congruence. }
  (* an ordinary step: the count, the joiners and [deciding] do not change *)
  assert (G : forall c' mu jo lg, s' = mkSys (lset (s_cls s) i c') (s_main s) (s_join s) mu (s_count s) (s_training s) jo (s_creq s) lg ->
     pend c' = pend c -> (deciding (k_pc c) = true -> deciding (k_pc c') = true \/ s_count s <> 0%Z) -> (forall st n, k_pc c' <> CDecW st n \/ n = s_count s) ->
     (forall st, k_pc c' = CSpawn st \/ k_pc c' = CSpawn2 st -> s_count s = 0%Z) ->
     (finishing (k_pc c) = true -> finishing (k_pc c') = true) ->
     dinv v plan s').
  { intros c' mu jo lg -> A1 A2 A3 A4 A5. pose proof (lsum_lset pend _ _ c' _ Hn) as Ls. constructor; sproj; auto.
    - rewrite lset_length. exact B3.
    - rewrite B8. f_equal. lia.
    - intros j d st n Hd Ed. destruct (Nat.eq_dec j i) as [->|Nj].
      + rewrite (lset_same _ _ _ _ Hn) in Hd. injection Hd as <-. destruct (A3 st n) as [A|A]; [contradiction|exact A].
      + rewrite lset_other in Hd by exact Nj. eauto.
    - intros Nj. pose proof (B11 Nj) as E2. intros j d Hd. destruct (Nat.eq_dec j i) as [->|Nji].
      + rewrite (lset_same _ _ _ _ Hn) in Hd. injection Hd as <-. apply A5. exact (E2 i c Hn).
      + rewrite lset_other in Hd by exact Nji. eauto.
    - intros j d st Hd Ed. destruct (Nat.eq_dec j i) as [->|Nj].
      + rewrite (lset_same _ _ _ _ Hn) in Hd. injection Hd as <-. eauto.
      + rewrite lset_other in Hd by exact Nj. eauto.
    - intros E2 E3. destruct (B13 E2 E3) as (j & d & D1 & D2). destruct (Nat.eq_dec j i) as [->|Nj].
      + rewrite Hn in D1. injection D1 as <-. destruct (A2 D2) as [A|A]; [|contradiction]. exists i, c'. rewrite (lset_same _ _ _ _ Hn). auto.
      + exists j, d. rewrite lset_other by exact Nj. auto. }
  destruct (k_pc c) eqn:Ep; try discriminate.
  - rewrite (at_cls_some _ _ _ _ Hn) in H. injection H as <-. eapply G; [reflexivity| | | | |]; kproj; unfold pend; kproj; rewrite ?Ep; cbn [deciding finishing]; auto; try discriminate; intros; try (left; discriminate). destruct H; discriminate.
  - destruct (k_cancel c).
    { rewrite (at_cls_some _ _ _ _ Hn) in H. injection H as <-. eapply G; [reflexivity| | | | |]; kproj; unfold pend; kproj; rewrite ?Ep; cbn [deciding finishing]; auto; try discriminate; intros; try (left; discriminate). destruct H; discriminate. }
    rewrite (at_cls_some _ _ _ _ Hn) in H. injection H as <-. eapply G; [reflexivity| | | | |]; kproj; unfold pend; kproj; rewrite ?Ep; cbn [deciding finishing]; auto; try discriminate; intros; try (left; discriminate). destruct H; discriminate.
  - destruct (k_left c) eqn:El; [destruct (k_good c)|]; rewrite (at_cls_some _ _ _ _ Hn) in H; injection H as <-; (eapply G; [reflexivity| | | | |]); kproj; unfold pend; kproj; rewrite ?Ep; cbn [deciding finishing]; auto; try discriminate; intros; try (left; discriminate); destruct H; discriminate.
  - rewrite (at_cls_some _ _ _ _ Hn) in H. injection H as <-. eapply G; [reflexivity| | | | |]; kproj; unfold pend; kproj; rewrite ?Ep; cbn [deciding finishing]; auto; try discriminate; intros; try (left; discriminate). destruct H; discriminate.
  - rewrite (at_cls_some _ _ _ _ Hn) in H. injection H as <-. eapply G; [reflexivity| | | | |]; kproj; unfold pend; kproj; rewrite ?Ep; cbn [deciding finishing]; auto; try discriminate; intros; try (left; discriminate). destruct H; discriminate.
  - destruct (s_mutex s); [discriminate|].
    rewrite (at_cls_some _ _ _ _ Hn) in H. injection H as <-. unfold with_mutex, with_cls in *. sproj. eapply G; [reflexivity| | | | |]; kproj; unfold pend; kproj; rewrite ?Ep; cbn [deciding finishing]; auto; try discriminate; intros; try (left; discriminate). destruct H; discriminate.
  - rewrite (at_cls_some _ _ _ _ Hn) in H. injection H as <-. unfold emit, with_cls in *. sproj. eapply G; [reflexivity| | | | |]; kproj; unfold pend; kproj; rewrite ?Ep; destruct st; cbn [deciding finishing is_run_status]; auto; try discriminate; intros; try (left; discriminate); destruct H; discriminate.
  - rewrite (at_cls_some _ _ _ _ Hn) in H. injection H as <-. eapply G; [reflexivity| | | | |]; kproj; unfold pend; kproj; rewrite ?Ep; cbn [deciding finishing]; auto; try discriminate; intros.
    + assert (D : {n = s_count s} + {n <> s_count s}) by apply Z.eq_dec. destruct D as [D|D]; [right; exact D|left; intro A; injection A as _ A; congruence].
    + destruct H; discriminate.
  - (* the decrement *)
    assert (En : n = s_count s) by (eapply B10; eauto). subst n.
    rewrite (at_cls_some _ _ _ _ Hn) in H. injection H as <-. unfold with_count, with_cls in *. sproj.
    pose proof (lsum_lset pend _ _ (set_pc (CFlag st) c) _ Hn) as Ls. unfold pend at 2 4 in Ls. kproj. rewrite Ep in Ls. cbn in Ls.
    constructor; sproj; auto.
    + rewrite lset_length. exact B3.
    + lia.
    + intros j d st' n' Hd Ed. destruct (Nat.eq_dec j i) as [->|Nj].
      * rewrite (lset_same _ _ _ _ Hn) in Hd. injection Hd as <-. discriminate.
      * rewrite lset_other in Hd by exact Nj. specialize (EX eq_refl j d Nj Hd). rewrite Ed in EX. discriminate.
    + intros Nj. pose proof (B11 Nj) as E2. specialize (E2 i c Hn). rewrite Ep in E2. discriminate.
    + intros j d st' Hd Ed. destruct (Nat.eq_dec j i) as [->|Nj].
      * rewrite (lset_same _ _ _ _ Hn) in Hd. injection Hd as <-. destruct Ed; discriminate.
      * rewrite lset_other in Hd by exact Nj. specialize (EX eq_refl j d Nj Hd). destruct Ed as [Ed|Ed]; rewrite Ed in EX; discriminate.
    + intros _ _. exists i, (set_pc (CFlag st) c). rewrite (lset_same _ _ _ _ Hn). auto.
  - rewrite (at_cls_some _ _ _ _ Hn) in H. injection H as <-. eapply G; [reflexivity| | | | |]; kproj; unfold pend; kproj; rewrite ?Ep; cbn [deciding finishing]; auto; try discriminate; intros; try (left; discriminate). destruct H; discriminate.
  - assert (Ej : s_joining s = false).
    { rewrite (j_joining _ _ B14). destruct B4 as [E|(j & E)]; [unfold bphase; rewrite E; reflexivity|].
      pose proof (B11 ltac:(rewrite E; discriminate)) as E2. specialize (E2 i c Hn). rewrite Ep in E2. discriminate. }
    rewrite Ej in H. cbn [negb andb] in H.
    rewrite (at_cls_some _ _ _ _ Hn) in H. injection H as <-. eapply G; [reflexivity| | | | |]; kproj; unfold pend; kproj; rewrite ?Ep; cbn [deciding finishing]; auto; try discriminate; intros; try (left; discriminate). destruct H; discriminate.
  - assert (St : is_run_status st = false).
    { destruct st; try reflexivity. exfalso. exact (UO' eq_refl Run eq_refl eq_refl). }
    destruct (s_creq s) eqn:Ecr; cbn [negb] in H.
    { rewrite (at_cls_some _ _ _ _ Hn) in H. injection H as <-. destruct CR as [CR|CR]; [discriminate|].
      eapply G; [unfold with_cls; rewrite Ecr; reflexivity| | | | |]; kproj; unfold pend; kproj; rewrite ?Ep; cbn [deciding finishing]; rewrite ?St; auto; try discriminate; intros; try (left; discriminate). destruct H; discriminate. }
    rewrite (at_cls_some _ _ _ _ Hn) in H. injection H as <-. eapply G; [unfold with_cls; rewrite Ecr; reflexivity| | | | |]; kproj; unfold pend; kproj; rewrite ?Ep; cbn [deciding finishing]; auto; try discriminate; intros; try (left; discriminate). destruct H; discriminate.
  - assert (St : is_run_status st = false).
    { destruct st; try reflexivity. exfalso. exact (UO' eq_refl Run eq_refl eq_refl). }
    destruct (Z.eqb_spec (s_count s) 0) as [E0|E0]; rewrite (at_cls_some _ _ _ _ Hn) in H; injection H as <-; (eapply G; [reflexivity| | | | |]); kproj; unfold pend; kproj; rewrite ?Ep; cbn [deciding finishing]; rewrite ?St; auto; try discriminate; intros; try (left; discriminate).
    destruct H; discriminate.
  - rewrite (at_cls_some _ _ _ _ Hn) in H. injection H as <-. unfold with_joining, with_cls in *. sproj. assert (E0 : s_count s = 0%Z) by (eapply B12; eauto).
    eapply G; [reflexivity| | | | |]; kproj; unfold pend; kproj; rewrite ?Ep; cbn [deciding finishing]; auto; try discriminate; intros; try (left; discriminate).
  - (* a thread that joins is started *)
    assert (St : is_run_status st = false).
    { destruct st; try reflexivity. exfalso. exact (UO' eq_refl Run eq_refl eq_refl). }
    assert (E0 : s_count s = 0%Z) by (eapply B12; eauto). assert (Ejn : s_join s = []) by (eapply HS2; eauto).
    rewrite (at_cls_some _ _ _ _ Hn) in H. injection H as <-. unfold with_join, with_cls in *. sproj. rewrite Ejn in *. cbn [app] in *.
    pose proof (lsum_lset pend _ _ (set_pc (CUnlock st) c) _ Hn) as Ls. unfold pend at 2 4 in Ls. kproj. rewrite Ep, St in Ls. cbn in Ls.
    constructor; sproj; auto.
    + rewrite lset_length. exact B3.
    + right. eauto.
    + rewrite B8. f_equal. lia.
    + intros j d st' n' Hd Ed. destruct (Nat.eq_dec j i) as [->|Nj].
      * rewrite (lset_same _ _ _ _ Hn) in Hd. injection Hd as <-. discriminate.
      * rewrite lset_other in Hd by exact Nj. eauto.
    + intros _ j d Hd. destruct (Nat.eq_dec j i) as [->|Nj].
      * rewrite (lset_same _ _ _ _ Hn) in Hd. injection Hd as <-. kproj. cbn [finishing]. rewrite St. reflexivity.
      * rewrite lset_other in Hd by exact Nj. assert (Z0 : lsum pend (s_cls s) = 0) by lia.
        pose proof (lsum_zero _ _ Z0 j d Hd) as Pd. specialize (EX eq_refl j d Nj Hd). unfold pend in Pd.
        destruct (ui_cls _ B1 j d Hd) as [UM' US' UO1 UL' UN' UT']. rewrite Em in UL'. cbn [lbound] in UL'.
        assert (k_pc d <> CNew) by (apply UL'; apply nth_error_Some; congruence).
        destruct (k_pc d); try discriminate; try congruence; reflexivity.
    + intros _ A. discriminate.
    + unfold bphase in *. sproj. rewrite Ejn in J'. destruct J' as [Q1 Q2 Q3 Q4 Q5 Q6 Q7]. sproj. constructor; sproj; auto; try exact I; discriminate.
  - rewrite (at_cls_some _ _ _ _ Hn) in H. injection H as <-. unfold with_mutex, with_cls in *. sproj. eapply G; [reflexivity| | | | |]; kproj; unfold pend; kproj; rewrite ?Ep; destruct st; cbn [deciding finishing is_run_status negb]; auto; try discriminate; intros; try (left; discriminate); destruct H; discriminate.
  - rewrite (at_cls_some _ _ _ _ Hn) in H. injection H as <-. eapply G; [reflexivity| | | | |]; kproj; unfold pend; kproj; rewrite ?Ep; cbn [deciding finishing]; auto; try discriminate; intros; try (left; discriminate). destruct H; discriminate.
Qed.

Lemma dinv_joiner : forall plan v k s s', dinv v plan s -> step true false (TJoin k) false s = Some s' -> dinv v plan s'.
Proof.
  intros plan v k s s' B H. assert (U' := uinv_step _ _ _ _ _ _ (d_u _ _ _ B) H). cbn [step] in H.
  destruct (d_join _ _ _ B) as [E|(j & E)]; rewrite E in H; [destruct k; discriminate|].
  destruct k as [|k]; [|destruct k; discriminate]. cbn [nth_error] in H. destruct (step_join false j s) as [[s1 j']|] eqn:Es; [|discriminate].
  injection H as <-. pose proof (step_join_keeps _ _ _ _ _ Es) as (K1 & K2). rewrite K2, E in *. cbn [lset] in *.
  pose proof (join_frame _ _ _ _ Es) as (F1 & F2 & F3 & F4 & F5). pose proof (join_cls _ _ _ _ Es) as JC.
  destruct B as [B1 B2 B3 B4 Em B8 B10 B11 B12 B13 B14]. pose proof (B11 ltac:(rewrite E; discriminate)) as Fn.
  unfold with_join in *. constructor; sproj; auto.
  - intros i c' Hc. destruct (JC i c' Hc) as (c & C1 & C2 & C3 & C4 & C5). pose proof (B2 i c C1) as Q.
    apply (kcls_ext _ _ _ _ c); auto; [|intro A; pose proof (q_cancel _ _ _ _ _ Q A); congruence]. destruct Q as [Q1 (p & Q3 & Q4) Q5 Q6]. constructor; auto. exists p. split; [exact Q3|].
    destruct F5 as [->| ->]; [exact Q4|]. rewrite events_app. cbn [events_of flat_map]. rewrite app_nil_r. exact Q4.
  - congruence.
  - right. eauto.
  - rewrite K1. exact Em.
  - rewrite F2, F4. exact B8.
  - intros i c' st n Hc Ec. destruct (JC i c' Hc) as (c & C1 & C2 & _). specialize (Fn i c C1). rewrite <- C2, Ec in Fn. discriminate.
  - intros _ i c' Hc. destruct (JC i c' Hc) as (c & C1 & C2 & _). rewrite C2. eauto.
  - intros i c' st Hc Ec. destruct (JC i c' Hc) as (c & C1 & C2 & _). specialize (Fn i c C1). rewrite <- C2 in Fn. destruct Ec as [Ec|Ec]; rewrite Ec in Fn; discriminate.
  - intros _ A. discriminate.
  - unfold bphase in *. sproj. rewrite E in B14. pose proof (jinv_join _ _ _ _ B14 Es) as [Q1 Q2 Q3 Q4 Q5 Q6 Q7]. constructor; sproj; auto.
Qed.

(** A step of the caller: the class gets its request, or nothing that the threads depend on changes. *)
Lemma dinv_same : forall v plan s s', dinv v plan s -> s_main s' = s_main s -> s_join s' = s_join s -> s_mutex s' = s_mutex s -> s_count s' = s_count s ->
  s_training s' = s_training s -> s_joining s' = s_joining s -> s_log s' = s_log s ->
  (s_cls s' = s_cls s \/ exists c, nth_error (s_cls s) v = Some c /\ s_cls s' = lset (s_cls s) v (set_cancel true c)) -> dinv v plan s'.
Proof.
  intros v plan s s' D E1 E2 E3 E4 E5 E6 E7 EC.
  assert (L : length (s_cls s') = length (s_cls s)) by (destruct EC as [->|(c & _ & ->)]; rewrite ?lset_length; reflexivity).
  assert (R : forall i c', nth_error (s_cls s') i = Some c' -> exists c, nth_error (s_cls s) i = Some c /\ k_pc c' = k_pc c /\ k_left c' = k_left c /\ k_good c' = k_good c /\
    k_status c' = k_status c /\ k_alive c' = k_alive c /\ k_thr c' = k_thr c /\ (i <> v -> k_cancel c' = k_cancel c)).
  { intros i c' Hc. destruct EC as [EC|(c & C1 & EC)]; rewrite EC in Hc; [exists c'; repeat split; auto|]. destruct (Nat.eq_dec i v) as [->|N].
    - rewrite (lset_same _ _ _ _ C1) in Hc. injection Hc as <-. exists c. repeat split; auto. intro A; congruence.
    - rewrite lset_other in Hc by exact N. exists c'. repeat split; auto. }
  assert (R' : forall i c, nth_error (s_cls s) i = Some c -> exists c', nth_error (s_cls s') i = Some c' /\ k_pc c' = k_pc c /\ k_thr c' = k_thr c).
  { intros i c Hc. assert (i < length (s_cls s')) by (rewrite L; apply nth_error_Some; congruence). destruct (nth_error (s_cls s') i) as [c'|] eqn:H'; [|apply nth_error_None in H'; lia].
    destruct (R i c' H') as (d & D1 & D2 & _ & _ & _ & _ & D3 & _). rewrite Hc in D1. injection D1 as <-. exists c'. auto. }
  assert (LS : lsum pend (s_cls s') = lsum pend (s_cls s)).
  { apply lsum_same; [exact L|]. intros i c' Hc. destruct (R i c' Hc) as (c & C1 & C2 & _). eauto. }
  destruct D as [D1 D2 D3 D4 D5 D6 D7 D8 D9 D10 D11]. constructor.
  - apply (uinv_same s); auto. intros i c' Hc. destruct (R i c' Hc) as (c & C1 & C2 & _ & _ & C3 & _ & C4 & _). exists c. auto.
  - intros i c' Hc. destruct (R i c' Hc) as (c & C1 & C2 & C3 & C4 & _ & _ & _ & C5). rewrite E7. apply (kcls_ext _ _ _ _ c); auto.
    intro A. apply Nat.eqb_neq in A. rewrite (C5 A). apply (q_cancel _ _ _ _ _ (D2 i c C1)). apply Nat.eqb_neq. exact A.
  - congruence.
  - rewrite E2. exact D4.
  - congruence.
  - rewrite E4, LS. exact D6.
  - intros i c' st n Hc Ec. destruct (R i c' Hc) as (c & C1 & C2 & _). rewrite E4. apply (D7 i c st n C1). congruence.
  - rewrite E2. intros N i c' Hc. destruct (R i c' Hc) as (c & C1 & C2 & _). rewrite C2. exact (D8 N i c C1).
  - intros i c' st Hc Ec. destruct (R i c' Hc) as (c & C1 & C2 & _). rewrite E4. apply (D9 i c st C1). rewrite <- C2. exact Ec.
  - rewrite E4, E2. intros A B. destruct (D10 A B) as (i & c & C1 & C2). destruct (R' i c C1) as (c' & C3 & C4 & _). exists i, c'. rewrite C4. auto.
  - replace (bphase s') with (bphase s) by (unfold bphase; rewrite E2; reflexivity). apply (jinv_frame _ s); auto.
    + intros i c' Hc. destruct (R i c' Hc) as (c & C1 & _ & _ & _ & C2 & C3 & C4 & _). exists c. rewrite C4. auto.
    + intros i c Hc. destruct (R' i c Hc) as (c' & C1 & _ & C2). exists c'. rewrite C2. auto.
Qed.

(** The call, as long as another class is training. *)
Definition dcall (v : nat) (plan : list (nat * bool)) (z : csys) : Prop :=
  cinv (cs_sys z) /\ place v OCancel z /\ dinv v plan (cs_sys z) /\ (cs_pc z = LRet -> s_creq (cs_sys z) = false).

Lemma class_creq : forall bg k s s', step_class bg k s = Some s' -> s_creq s' = s_creq s.
Proof.
  intros bg k s s' H. unfold step_class in H. destruct (nth_error (s_cls s) k) as [c|] eqn:Hn; [|discriminate]. destruct (k_pc c); try discriminate;
  repeat match type of H with
    | context [if ?b then _ else _] => destruct b
    | context [match ?x with O => _ | S _ => _ end] => destruct x
    | context [match s_mutex ?s with _ => _ end] => destruct (s_mutex s)
    end; try discriminate; rewrite ?(at_cls_some _ _ _ _ Hn) in H; injection H as <-; reflexivity.
Qed.

Lemma dcall_step : forall v plan j t b z z', j <> v -> dcall v plan z -> still_training j (cs_sys z') -> step2 v OCancel t b z = Some z' -> dcall v plan z'.
Proof.
  intros v plan j t b z z' N (C & P & D & K) S H. destruct (zinv_step v OCancel j t b z z' N C P S H) as (C' & P').
  pose proof (still_back j _ _ (grows_step2 _ _ _ _ _ _ H) S) as S0. destruct (training_pend _ _ C S0) as (Cn & _).
  split; [exact C'|]. split; [exact P'|]. unfold step2 in H. destruct t as [|k|k].
  - assert (H' : match step_call v OCancel b (cs_pc z) (cs_sys z) with Some (s, l) => Some (mkC s l (cs_freed z)) | None => None end = Some z') by (destruct (cs_pc z); try exact H; discriminate).
    clear H. destruct (step_call v OCancel b (cs_pc z) (cs_sys z)) as [[s l]|] eqn:E; [|discriminate]. injection H' as <-. cbn [cs_sys cs_pc] in *.
    destruct P as (_ & c & Hc & P). unfold step_call, on_cls in E. destruct (cs_pc z) eqn:Ez; try contradiction; try discriminate; cbn [cs_pc] in *.
    all: repeat match type of E with
      | context [if ?x then _ else _] => destruct x eqn:?
      | context [match nth_error _ _ with _ => _ end] => rewrite Hc in E
      end; try discriminate; injection E as <- <-.
    all: split; [|try discriminate; try reflexivity].
    all: try exact D.
    all: try (apply (dinv_same v plan (cs_sys z)); auto; fail).
    rewrite (at_cls_some _ _ _ _ Hc). apply (dinv_same v plan (cs_sys z)); auto. unfold with_cls. sproj. destruct (k_flag c).
    + right. exists c. auto.
    + left. apply lset_self. exact Hc.
  - assert (H' : match step_class true k (cs_sys z) with Some s => Some (mkC s (cs_pc z) (cs_freed z || negb (alive_at (cs_sys z) k))) | None => None end = Some z') by (destruct (cs_pc z); try exact H; discriminate).
    clear H. destruct (step_class true k (cs_sys z)) as [s|] eqn:E; [|discriminate]. injection H' as <-. cbn [cs_sys cs_pc] in *.
    split; [|rewrite (class_creq _ _ _ _ E); exact K]. apply (dinv_class plan v k (cs_sys z) s D); [right; lia|exact E].
  - exfalso. assert (H' : match step true false (TJoin k) b (cs_sys z) with Some s => Some (mkC s (cs_pc z) (cs_freed z)) | None => None end = Some z') by (destruct (cs_pc z); try exact H; discriminate).
    cbn [step] in H'. rewrite (c_join _ C) in H'. destruct k; discriminate.
Qed.

Lemma dcall_run : forall v plan j sch z, j <> v -> dcall v plan z -> still_training j (cs_sys (run2 v OCancel sch z)) -> dcall v plan (run2 v OCancel sch z).
Proof.
  intros v plan j. induction sch as [|(t, b) sch IH]; intros z N D S; [exact D|]. cbn [run2] in *. apply IH; auto.
  destruct (step2 v OCancel t b z) as [z'|] eqn:E; [|exact D]. apply (dcall_step v plan j t b z z' N D); [|exact E].
  exact (still_back j _ _ (grows_run2 v OCancel sch z') S).
Qed.

Theorem cancelled_one : forall plan s i sch, in_background plan s -> i < length plan ->
  let z := run2 i OCancel sch (call OCancel s) in
  others_training i (cs_sys z) -> cs_pc z = LRet -> dinv i plan (cs_sys z) /\ s_creq (cs_sys z) = false.
Proof.
  intros plan s i sch B L z (j & N & S) R.
  assert (S0 : still_training j s) by exact (still_back j _ _ (grows_run2 i OCancel sch (call OCancel s)) S).
  destruct (call_start plan s i OCancel j B L S0) as (C & _ & Bi & P).
  assert (D : dcall i plan (call OCancel s)).
  { split; [exact C|]. split; [exact P|]. split; [|discriminate]. cbn [call cs_sys]. apply binv_dinv; [exact Bi|]. destruct B as (_ & ? & _ & _ & _ & E). exact E. }
  destruct (dcall_run i plan j sch _ N D S) as (_ & _ & D' & K). split; [exact D'|exact (K R)].
Qed.

Definition dret (v : nat) (plan : list (nat * bool)) (s : sys) : Prop := dinv v plan s /\ s_creq s = false.

Lemma dret_step : forall v plan t s s', dret v plan s -> step true false t false s = Some s' -> dret v plan s'.
Proof.
  intros v plan t s s' (D & K) H. destruct t as [|i|k].
  - cbn [step] in H. unfold step_main in H. rewrite (d_main _ _ _ D) in H. discriminate.
  - split; [eapply dinv_class; eauto|]. cbn [step] in H. rewrite (class_creq _ _ _ _ H). exact K.
  - split; [eapply dinv_joiner; eauto|]. cbn [step] in H. destruct (nth_error (s_join s) k); [|discriminate]. destruct (step_join false j s) as [[s1 j']|] eqn:E; [|discriminate].
    injection H as <-. destruct (join_frame _ _ _ _ E) as (_ & _ & F & _). unfold with_join. sproj. congruence.
Qed.

Lemma dret_progress : forall v plan s, dret v plan s -> s_join s <> [JEnd] -> exists t s', step true false t false s = Some s'.
Proof.
  intros v plan s (B & K) Hj. pose proof (d_u _ _ _ B) as U. pose proof (d_main _ _ _ B) as Em.
  assert (CF : forall i c, nth_error (s_cls s) i = Some c -> (exists st, k_pc c = CEnd st) \/ exists t s', step true false t false s = Some s').
  { intros i c Hc. assert (D : (exists st, k_pc c = CEnd st) \/ forall st, k_pc c <> CEnd st) by (destruct (k_pc c); eauto; right; discriminate).
    destruct D as [D|D]; [auto|]. right. destruct (ui_cls _ U i c Hc) as [UM US UO UL UN UT]. rewrite Em in UL. cbn [lbound] in UL.
    destruct (class_free true s i c U Hc) as (k & s' & E); [apply UL; apply nth_error_Some; congruence|exact D|]. exists (TClass k), s'. exact E. }
  destruct (d_join _ _ _ B) as [E|(j & E)].
  - destruct (Z.eq_dec (s_count s) 0) as [E0|E0].
    + destruct (d_live _ _ _ B E0 E) as (i & c & C1 & C2). destruct (CF i c C1) as [(st & A)|A]; [rewrite A in C2; discriminate|exact A].
    + pose proof (d_count _ _ _ B) as Bc.
      assert (exists i c, nth_error (s_cls s) i = Some c /\ pend c <> 0) as (i & c & C1 & C2).
      { assert (Hl : lsum pend (s_cls s) <> 0) by lia. clear - Hl. induction (s_cls s) as [|c l IH]; [cbn in Hl; lia|].
        destruct (Nat.eq_dec (pend c) 0) as [A|A]; [|exists 0, c; auto]. destruct IH as (i & d & D1 & D2); [cbn in Hl; unfold lsum; lia|]. exists (S i), d. auto. }
      destruct (CF i c C1) as [(st & A)|A]; [unfold pend in C2; rewrite A in C2; congruence|exact A].
  - pose proof (d_j _ _ _ B) as J. unfold bphase in J. rewrite E in J. destruct J as [Q1 Q2 Q3 Q4 Q5 Q6 Q7].
    assert (HM : (exists r, step_join false j s = Some r) -> exists t s', step true false t false s = Some s').
    { intros ([s1 j'] & Er). exists (TJoin 0). cbn [step]. rewrite E. cbn [nth_error]. rewrite Er. eexists; reflexivity. }
    destruct j; cbn [par_pc holds_joining] in *; try contradiction; cbn [step_join] in HM; try (apply HM; eexists; reflexivity).
    * apply HM. rewrite Q2. eexists; reflexivity.
    * destruct (first_thr (s_cls s) 0) as [i|] eqn:Ef; [|apply HM; eexists; reflexivity].
      destruct (first_thr_some _ _ _ Ef) as (c & C1 & C2 & _). rewrite Nat.sub_0_r in C1. rewrite C1 in HM.
      destruct (CF i c C1) as [(st & D)|D]; [rewrite D in HM; apply HM; eexists; reflexivity|exact D].
    * destruct (Q7 i eq_refl) as (c & C1 & C2). rewrite C1, C2 in HM. apply HM. eexists; reflexivity.
    * apply HM. rewrite Q2. eexists; reflexivity.
Qed.

Lemma dret_announced : forall v plan s, dret v plan s -> In EvAll (s_log s) -> s_join s = [JEnd].
Proof.
  intros v plan s (B & _) H. pose proof (j_log _ _ (d_j _ _ _ B)) as L. unfold bphase in L. destruct (d_join _ _ _ B) as [E|(j & E)]; rewrite E in L.
  - contradiction.
  - destruct j; cbn [announced_all] in L; try contradiction. exact E.
Qed.

Lemma dret_over : forall v plan s, dret v plan s -> s_join s = [JEnd] -> reported_but v plan s.
Proof.
  intros v plan s (B & _) Ej. pose proof (d_j _ _ _ B) as J. unfold bphase in J. rewrite Ej in J. destruct J as [Q1 Q2 Q3 Q4 Q5 Q6 Q7].
  cbn [lowered negb announced_all joined erased] in *. pose proof (d_main _ _ _ B) as Em.
  split; [exact Q3|]. split; [exact (d_len _ _ _ B)|]. split; [exact Q4|]. intros i c p Hc Hp.
  destruct (ui_cls _ (d_u _ _ _ B) i c Hc) as [UM US UO UL UN UT]. rewrite Em in UL. cbn [lbound] in UL.
  destruct UT as (st & E); [apply UL; apply nth_error_Some; congruence|exact (Q5 eq_refl i c Hc)|]. split; [exists st; exact E|].
  destruct (d_cls _ _ _ B i c Hc) as [P1 (p' & P3 & P4) P5 P6]. rewrite Hp in P3. injection P3 as <-.
  unfold todo in P4. rewrite E, app_nil_r in P4. rewrite (Q6 i c Hc). rewrite E in US. specialize (US st eq_refl). rewrite US.
  unfold good_pc in P5. rewrite E in P5. cbn in P4, P5. specialize (P6 p Hp). destruct UO as (UO1 & UO2). rewrite E in UO1, UO2. specialize (UO1 st eq_refl). specialize (UO2 eq_refl st eq_refl).
  destruct P4 as [(P4 & P4')|(P4 & P4' & P4'')].
  - left. split; [exact P4'|]. destruct st; cbn [kept]; congruence.
  - right. apply Nat.eqb_eq in P4. split; [exact P4|]. injection P4' as ->. split; [reflexivity|exact P4''].
Qed.

Lemma dret_fair : forall v plan s rounds, plan <> [] -> dret v plan s -> Forall (fair_round (length plan)) rounds -> work s < length rounds ->
  s_join (run true false (concat rounds) s) = [JEnd].
Proof.
  intros v plan s rounds Hp D F W. pose proof (fair_strong _ _ F) as St.
  assert (R : forall sch, strong sch -> dret v plan (run true false sch s)) by (intros sch Ss; apply strong_run; auto; intros; eapply dret_step; eauto).
  assert (Q : quiet true false (run true false (concat rounds) s)).
  { apply (fair_quiet true false (length plan) (dret v plan)); auto.
    - intros s0 (P & _). split; [exact (d_u _ _ _ P)|]. rewrite (d_len _ _ _ P). split; [lia|]. destruct (d_join _ _ _ P) as [->|(j & ->)]; cbn; [lia|]. destruct plan; [congruence|cbn; lia].
    - intros k. apply R, strong_firstn, St. }
  pose proof (R _ St) as P. set (s1 := run _ _ _ _) in *. clearbody s1.
  assert (X : {s_join s1 = [JEnd]} + {s_join s1 <> [JEnd]}) by (destruct (s_join s1) as [|[] [|? ?]]; auto; right; discriminate).
  destruct X as [X|X]; [exact X|]. destruct (dret_progress _ _ _ P X) as (t & s' & E). rewrite (Q t) in E. discriminate.
Qed.
