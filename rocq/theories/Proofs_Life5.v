(** The training protocol in Background mode when the classes are launched before the first one ends
    and nobody cancels. *)
From Coq Require Import List Bool Arith ZArith Lia.
From Verif Require Import Base Model_Train Model_Life Spec_Life Proofs_Life Proofs_Life2 Proofs_Life3 Proofs_Life4.
Import ListNotations.
Local Open Scope nat_scope.

Definition bphase (s : sys) : mpc := match s_join s with [] => MFlag 0 | j :: _ => MJoin j end.

(** A class counted in [models_still_training_]. *)
Definition pend (c : cls) : nat :=
  match k_pc c with
  | CNew | CFlag _ | CChk1 _ | CChk2 _ | CChk3 _ | CSpawn _ | CSpawn2 _ | CFin _ | CEnd _ => 0
  | CUnlock st => if is_run_status st then 1 else 0
  | _ => 1
  end.
Definition bonus (m : mpc) : nat := match m with MSpawn _ => 1 | _ => 0 end.
Definition finishing (p : cpc) : bool :=
  match p with CUnlock st => negb (is_run_status st) | CFin _ | CEnd _ => true | _ => false end.
Definition deciding (p : cpc) : bool :=
  match p with CFlag _ | CChk1 _ | CChk2 _ | CChk3 _ | CSpawn _ | CSpawn2 _ => true | _ => false end.
Definition launchingb (m : mpc) : bool :=
  match m with MFlag _ | MCanc _ | MCnt _ | MCntW _ _ | MSpawn _ => true | _ => false end.

Record binv (plan : list (nat * bool)) (s : sys) : Prop := mkB {
  b_u : uinv s;
  b_cls : forall i c, nth_error (s_cls s) i = Some c -> pcls plan (s_log s) i c;
  b_len : length (s_cls s) = length plan;
  b_join : s_join s = [] \/ exists j, s_join s = [j];
  b_creq : s_creq s = false;
  b_main : launchingb (s_main s) = true \/ s_main s = MRet;
  b_first : launchingb (s_main s) = true -> forall i c, nth_error (s_cls s) i = Some c -> reported (k_pc c) = false;
  b_count : s_count s = Z.of_nat (bonus (s_main s) + lsum pend (s_cls s));
  b_cntw : forall i n, s_main s = MCntW i n -> n = s_count s;
  b_decw : forall i c st n, nth_error (s_cls s) i = Some c -> k_pc c = CDecW st n -> n = s_count s;
  b_fin : s_join s <> [] -> s_main s = MRet /\ forall i c, nth_error (s_cls s) i = Some c -> finishing (k_pc c) = true;
  b_spawn : forall i c st, nth_error (s_cls s) i = Some c -> k_pc c = CSpawn st \/ k_pc c = CSpawn2 st -> s_count s = 0%Z;
  b_live : s_main s = MRet -> s_count s = 0%Z -> s_join s = [] -> exists i c, nth_error (s_cls s) i = Some c /\ deciding (k_pc c) = true;
  b_j : jinv (bphase s) s
}.

Lemma reported_final : forall plan s i c, uinv s -> (forall j d, nth_error (s_cls s) j = Some d -> pcls plan (s_log s) j d) ->
  nth_error (s_cls s) i = Some c -> reported (k_pc c) = true -> exists st, is_final (EvClass i st) /\ In (EvClass i st) (s_log s).
Proof.
  intros plan s i c U P Hc R. destruct (ui_cls _ U i c Hc) as [_ _ (_ & UO) _ _ _]. destruct (P i c Hc) as [_ _ (p & _ & E) _ _].
  assert (T : todo c = []).
  { unfold todo. destruct (k_pc c); try discriminate; try reflexivity. destruct st; try reflexivity. discriminate. }
  rewrite T, app_nil_r in E. set (st := if snd p then Done else Error). assert (Hin : In st (events_of i (s_log s))).
  { rewrite E. unfold announced. apply in_or_app. right. left. reflexivity. }
  exists st. split; [unfold st; destruct (snd p); exact I|]. unfold events_of in Hin. apply in_flat_map in Hin. destruct Hin as (e & He & Hst).
  destruct e as [j st'|]; [|destruct Hst]. destruct (Nat.eqb_spec j i) as [->|]; [|destruct Hst]. destruct Hst as [->|[]]. exact He.
Qed.

Lemma launchingb_spec : forall m, launchingb m = true <-> launching m.
Proof. intros []; cbn; split; auto; try discriminate; intros []. Qed.

Lemma lf_first : forall plan s, uinv s -> (forall j d, nth_error (s_cls s) j = Some d -> pcls plan (s_log s) j d) -> launched_first s ->
  launchingb (s_main s) = true -> forall i c, nth_error (s_cls s) i = Some c -> reported (k_pc c) = false.
Proof.
  intros plan s U P L Hl i c Hc. destruct (reported (k_pc c)) eqn:R; [|reflexivity]. exfalso.
  destruct (reported_final _ _ _ _ U P Hc R) as (st & F1 & F2). apply launchingb_spec in Hl. exact (L Hl _ F2 F1).
Qed.

Lemma lsum_zero : forall {X} (f : X -> nat) l, lsum f l = 0 -> forall i x, nth_error l i = Some x -> f x = 0.
Proof.
  intros X f. induction l as [|y l IH]; intros H [|i] x Hx; cbn in *; try discriminate.
  - injection Hx as <-. lia.
  - apply (IH ltac:(unfold lsum; lia) i x Hx).
Qed.

Lemma lsum_pos : forall {X} (f : X -> nat) l i x, nth_error l i = Some x -> f x <= lsum f l.
Proof. intros X f. induction l as [|y l IH]; intros [|i] x Hx; cbn in *; try discriminate; [injection Hx as <-; lia|specialize (IH i x Hx); unfold lsum in IH; lia]. Qed.

Lemma binv_class : forall plan i s s', binv plan s -> launched_first s' -> step_class true i s = Some s' -> binv plan s'.
Proof.
  intros plan i s s' B LF H.
  assert (U' := uinv_step_class _ _ _ _ (b_u _ _ B) H).
  assert (C' := pcls_step _ _ _ _ _ (b_u _ _ B) (b_cls _ _ B) H).
  assert (F' : launchingb (s_main s') = true -> forall i c, nth_error (s_cls s') i = Some c -> reported (k_pc c) = false) by (eapply lf_first; eauto).
  (* no class moves once the threads are joined *)
  assert (NJ : joined (bphase s) = false).
  { destruct (joined (bphase s)) eqn:E; [|reflexivity]. exfalso. pose proof (j_thr _ _ (b_j _ _ B) E) as T.
    assert (Nj : s_join s <> []) by (unfold bphase in E; destruct (s_join s); [discriminate|discriminate]).
    destruct (b_fin _ _ B Nj) as (Em & _).
    unfold step_class in H. destruct (nth_error (s_cls s) i) as [c|] eqn:Hn; [|discriminate].
    destruct (ui_cls _ (b_u _ _ B) i c Hn) as [UM US UO UL UN UT].
    destruct UT as (st & Ep); [|exact (T i c Hn)|rewrite Ep in H; discriminate].
    apply UL. rewrite Em. cbn. apply nth_error_Some. congruence. }
  assert (HS : forall c st, nth_error (s_cls s) i = Some c -> k_pc c = CSpawn st -> s_join s = []).
  { intros c st Hc Ep. destruct (b_join _ _ B) as [E|(j & E)]; [exact E|]. exfalso. destruct (b_fin _ _ B ltac:(rewrite E; discriminate)) as (_ & Fn).
    specialize (Fn i c Hc). rewrite Ep in Fn. discriminate. }
  assert (HS2 : forall c st, nth_error (s_cls s) i = Some c -> k_pc c = CSpawn2 st -> s_join s = []).
  { intros c st Hc Ep. destruct (b_join _ _ B) as [E|(j & E)]; [exact E|]. exfalso. destruct (b_fin _ _ B ltac:(rewrite E; discriminate)) as (_ & Fn).
    specialize (Fn i c Hc). rewrite Ep in Fn. discriminate. }
  assert (J' : jinv (bphase s) s').
  { apply (jinv_class true (bphase s) i s s'); auto; [exact (b_j _ _ B)|]. intros c st Hc Ep. unfold bphase. rewrite (HS c st Hc Ep). reflexivity. }
  unfold step_class in H. destruct (nth_error (s_cls s) i) as [c|] eqn:Hn; [|discriminate].
  destruct B as [B1 B2 B3 B4 B5 B6 B7 B8 B9 B10 B11 B12 B13 B14].
  destruct (ui_cls _ B1 i c Hn) as [UM US (UO & UO') UL UN UT].
  (* everybody else is outside the critical region when [i] is inside *)
  assert (EX : critical (k_pc c) = true -> forall j d, j <> i -> nth_error (s_cls s) j = Some d -> critical (k_pc d) = false).
  { intros Hc j d Nj Hd. destruct (critical (k_pc d)) eqn:E; [|reflexivity]. destruct (ui_cls _ B1 j d Hd) as [UM' _ _ _ _ _].
    apply UM in Hc. apply UM' in E. congruence. }
  (* an ordinary step: the count, the joiners and [deciding] do not change *)
  assert (G : forall c' mu jo lg, s' = mkSys (lset (s_cls s) i c') (s_main s) (s_join s) mu (s_count s) (s_training s) jo (s_creq s) lg ->
     pend c' = pend c -> (deciding (k_pc c) = true -> deciding (k_pc c') = true \/ s_count s <> 0%Z) -> (forall st n, k_pc c' <> CDecW st n \/ n = s_count s) ->
     (forall st, k_pc c' = CSpawn st \/ k_pc c' = CSpawn2 st -> s_count s = 0%Z) ->
     (finishing (k_pc c) = true -> finishing (k_pc c') = true) ->
     binv plan s').
  { intros c' mu jo lg -> A1 A2 A3 A4 A5. pose proof (lsum_lset pend _ _ c' _ Hn) as Ls. constructor; sproj; auto.
    - rewrite lset_length. exact B3.
    - rewrite B8. f_equal. lia.
    - intros j d st n Hd Ed. destruct (Nat.eq_dec j i) as [->|Nj].
      + rewrite (lset_same _ _ _ _ Hn) in Hd. injection Hd as <-. destruct (A3 st n) as [A|A]; [contradiction|exact A].
      + rewrite lset_other in Hd by exact Nj. eauto.
    - intros Nj. destruct (B11 Nj) as (E1 & E2). split; [exact E1|]. intros j d Hd. destruct (Nat.eq_dec j i) as [->|Nji].
      + rewrite (lset_same _ _ _ _ Hn) in Hd. injection Hd as <-. apply A5. exact (E2 i c Hn).
      + rewrite lset_other in Hd by exact Nji. eauto.
    - intros j d st Hd Ed. destruct (Nat.eq_dec j i) as [->|Nj].
      + rewrite (lset_same _ _ _ _ Hn) in Hd. injection Hd as <-. eauto.
      + rewrite lset_other in Hd by exact Nj. eauto.
    - intros E1 E2 E3. destruct (B13 E1 E2 E3) as (j & d & D1 & D2). destruct (Nat.eq_dec j i) as [->|Nj].
      + rewrite Hn in D1. injection D1 as <-. destruct (A2 D2) as [A|A]; [|contradiction]. exists i, c'. rewrite (lset_same _ _ _ _ Hn). auto.
      + exists j, d. rewrite lset_other by exact Nj. auto. }
  destruct (k_pc c) eqn:Ep; try discriminate.
  - rewrite (at_cls_some _ _ _ _ Hn) in H. injection H as <-. eapply G; [reflexivity| | | | |]; kproj; unfold pend; kproj; rewrite ?Ep; cbn [deciding finishing]; auto; try discriminate; intros; try (left; discriminate). destruct H; discriminate.
  - assert (PC : k_cancel c = false) by apply (p_cancel _ _ _ _ (B2 i c Hn)). rewrite PC in H.
    rewrite (at_cls_some _ _ _ _ Hn) in H. injection H as <-. eapply G; [reflexivity| | | | |]; kproj; unfold pend; kproj; rewrite ?Ep; cbn [deciding finishing]; auto; try discriminate; intros; try (left; discriminate). destruct H; discriminate.
  - destruct (k_left c) eqn:El; [destruct (k_good c)|]; rewrite (at_cls_some _ _ _ _ Hn) in H; injection H as <-; (eapply G; [reflexivity| | | | |]); kproj; unfold pend; kproj; rewrite ?Ep; cbn [deciding finishing]; auto; try discriminate; intros; try (left; discriminate); destruct H; discriminate.
  - rewrite (at_cls_some _ _ _ _ Hn) in H. injection H as <-. eapply G; [reflexivity| | | | |]; kproj; unfold pend; kproj; rewrite ?Ep; cbn [deciding finishing]; auto; try discriminate; intros; try (left; discriminate). destruct H; discriminate.
  - rewrite (at_cls_some _ _ _ _ Hn) in H. injection H as <-. eapply G; [reflexivity| | | | |]; kproj; unfold pend; kproj; rewrite ?Ep; cbn [deciding finishing]; auto; try discriminate; intros; try (left; discriminate). destruct H; discriminate.
  - destruct (s_mutex s); [discriminate|].
    rewrite (at_cls_some _ _ _ _ Hn) in H. injection H as <-. unfold with_mutex, with_cls in *. sproj. eapply G; [reflexivity| | | | |]; kproj; unfold pend; kproj; rewrite ?Ep; cbn [deciding finishing]; auto; try discriminate; intros; try (left; discriminate). destruct H; discriminate.
  - rewrite (at_cls_some _ _ _ _ Hn) in H. injection H as <-. unfold emit, with_cls in *. sproj. eapply G; [reflexivity| | | | |]; kproj; unfold pend; kproj; rewrite ?Ep; destruct st; cbn [deciding finishing is_run_status]; auto; try discriminate; intros; try (left; discriminate); destruct H; discriminate.
  - rewrite (at_cls_some _ _ _ _ Hn) in H. injection H as <-. eapply G; [reflexivity| | | | |]; kproj; unfold pend; kproj; rewrite ?Ep; cbn [deciding finishing]; auto; try discriminate; intros.
    + assert (D : {n = s_count s} + {n <> s_count s}) by apply Z.eq_dec. destruct D as [D|D]; [right; exact D|left; intro A; injection A as _ A; congruence].
    + destruct H; discriminate.
  - (* the decrement *)
    assert (En : n = s_count s) by (eapply B10; eauto). subst n.
    rewrite (at_cls_some _ _ _ _ Hn) in H. injection H as <-. unfold with_count, with_cls in *. sproj.
    assert (NL : launchingb (s_main s) = false).
    { destruct (launchingb (s_main s)) eqn:E; [|reflexivity]. specialize (B7 eq_refl i c Hn). rewrite Ep in B7. discriminate. }
    assert (Em : s_main s = MRet) by (destruct B6; [congruence|assumption]).
    pose proof (lsum_lset pend _ _ (set_pc (CFlag st) c) _ Hn) as Ls. unfold pend at 2 4 in Ls. kproj. rewrite Ep in Ls. cbn in Ls.
    constructor; sproj; auto.
    + rewrite lset_length. exact B3.
    + rewrite B8, Em in *. cbn [bonus] in *. lia.
    + rewrite Em. discriminate.
    + intros j d st' n' Hd Ed. destruct (Nat.eq_dec j i) as [->|Nj].
      * rewrite (lset_same _ _ _ _ Hn) in Hd. injection Hd as <-. discriminate.
      * rewrite lset_other in Hd by exact Nj. specialize (EX eq_refl j d Nj Hd). rewrite Ed in EX. discriminate.
    + intros Nj. destruct (B11 Nj) as (E1 & E2). specialize (E2 i c Hn). rewrite Ep in E2. discriminate.
    + intros j d st' Hd Ed. destruct (Nat.eq_dec j i) as [->|Nj].
      * rewrite (lset_same _ _ _ _ Hn) in Hd. injection Hd as <-. destruct Ed; discriminate.
      * rewrite lset_other in Hd by exact Nj. specialize (EX eq_refl j d Nj Hd). destruct Ed as [Ed|Ed]; rewrite Ed in EX; discriminate.
    + intros _ _ _. exists i, (set_pc (CFlag st) c). rewrite (lset_same _ _ _ _ Hn). auto.
  - rewrite (at_cls_some _ _ _ _ Hn) in H. injection H as <-. eapply G; [reflexivity| | | | |]; kproj; unfold pend; kproj; rewrite ?Ep; cbn [deciding finishing]; auto; try discriminate; intros; try (left; discriminate). destruct H; discriminate.
  - assert (Ej : s_joining s = false).
    { rewrite (j_joining _ _ B14). destruct B4 as [E|(j & E)]; [unfold bphase; rewrite E; reflexivity|].
      destruct (B11 ltac:(rewrite E; discriminate)) as (_ & E2). specialize (E2 i c Hn). rewrite Ep in E2. discriminate. }
    rewrite Ej in H. cbn [negb andb] in H.
    rewrite (at_cls_some _ _ _ _ Hn) in H. injection H as <-. eapply G; [reflexivity| | | | |]; kproj; unfold pend; kproj; rewrite ?Ep; cbn [deciding finishing]; auto; try discriminate; intros; try (left; discriminate). destruct H; discriminate.
  - rewrite B5 in H. cbn [negb] in H.
    rewrite (at_cls_some _ _ _ _ Hn) in H. injection H as <-. eapply G; [reflexivity| | | | |]; kproj; unfold pend; kproj; rewrite ?Ep; cbn [deciding finishing]; auto; try discriminate; intros; try (left; discriminate). destruct H; discriminate.
  - assert (St : is_run_status st = false).
    { destruct st; try reflexivity. exfalso. exact (UO' eq_refl Run eq_refl eq_refl). }
    destruct (Z.eqb_spec (s_count s) 0) as [E0|E0]; rewrite (at_cls_some _ _ _ _ Hn) in H; injection H as <-; (eapply G; [reflexivity| | | | |]); kproj; unfold pend; kproj; rewrite ?Ep; cbn [deciding finishing]; rewrite ?St; auto; try discriminate; intros; try (left; discriminate).
    destruct H; discriminate.
  - rewrite (at_cls_some _ _ _ _ Hn) in H. injection H as <-. unfold with_joining, with_cls in *. sproj. assert (E0 : s_count s = 0%Z) by (eapply B12; eauto).
    eapply G; [reflexivity| | | | |]; kproj; unfold pend; kproj; rewrite ?Ep; cbn [deciding finishing]; auto; try discriminate; intros; try (left; discriminate).
  - (* a thread that joins is started *)
    assert (St : is_run_status st = false).
    { destruct st; try reflexivity. exfalso. exact (UO' eq_refl Run eq_refl eq_refl). }
    assert (E0 : s_count s = 0%Z) by (eapply B12; eauto). assert (Ejn : s_join s = []) by (eapply HS2; eauto).
    rewrite (at_cls_some _ _ _ _ Hn) in H. injection H as <-. unfold with_join, with_cls in *. sproj. rewrite Ejn in *. cbn [app] in *.
    assert (NL : launchingb (s_main s) = false).
    { destruct (launchingb (s_main s)) eqn:E; [|reflexivity]. specialize (B7 eq_refl i c Hn). rewrite Ep in B7. discriminate. }
    assert (Em : s_main s = MRet) by (destruct B6; [congruence|assumption]).
    pose proof (lsum_lset pend _ _ (set_pc (CUnlock st) c) _ Hn) as Ls. unfold pend at 2 4 in Ls. kproj. rewrite Ep, St in Ls. cbn in Ls.
    constructor; sproj; auto.
    + rewrite lset_length. exact B3.
    + right. eauto.
    + rewrite B8. f_equal. lia.
    + intros j d st' n' Hd Ed. destruct (Nat.eq_dec j i) as [->|Nj].
      * rewrite (lset_same _ _ _ _ Hn) in Hd. injection Hd as <-. discriminate.
      * rewrite lset_other in Hd by exact Nj. eauto.
    + intros _. split; [exact Em|]. intros j d Hd. destruct (Nat.eq_dec j i) as [->|Nj].
      * rewrite (lset_same _ _ _ _ Hn) in Hd. injection Hd as <-. kproj. cbn [finishing]. rewrite St. reflexivity.
      * rewrite lset_other in Hd by exact Nj. rewrite Em in B8. cbn [bonus] in B8. assert (Z0 : lsum pend (s_cls s) = 0) by lia.
        pose proof (lsum_zero _ _ Z0 j d Hd) as Pd. specialize (EX eq_refl j d Nj Hd). unfold pend in Pd.
        destruct (ui_cls _ B1 j d Hd) as [UM' US' UO1 UL' UN' UT']. rewrite Em in UL'. cbn [lbound] in UL'.
        assert (k_pc d <> CNew) by (apply UL'; apply nth_error_Some; congruence).
        destruct (k_pc d); try discriminate; try congruence; reflexivity.
    + intros _ _ A. discriminate.
    + unfold bphase in *. sproj. rewrite Ejn in J'. destruct J' as [Q1 Q2 Q3 Q4 Q5 Q6 Q7]. sproj. constructor; sproj; auto; try exact I; discriminate.
  - rewrite (at_cls_some _ _ _ _ Hn) in H. injection H as <-. unfold with_mutex, with_cls in *. sproj. eapply G; [reflexivity| | | | |]; kproj; unfold pend; kproj; rewrite ?Ep; destruct st; cbn [deciding finishing is_run_status negb]; auto; try discriminate; intros; try (left; discriminate); destruct H; discriminate.
  - rewrite (at_cls_some _ _ _ _ Hn) in H. injection H as <-. eapply G; [reflexivity| | | | |]; kproj; unfold pend; kproj; rewrite ?Ep; cbn [deciding finishing]; auto; try discriminate; intros; try (left; discriminate). destruct H; discriminate.
Qed.

Lemma binv_main : forall plan s s', plan <> [] -> binv plan s -> launched_first s' -> step_main true false false s = Some s' -> binv plan s'.
Proof.
  intros plan s s' Hp B LF H.
  assert (U' := uinv_step_main _ _ _ _ _ (b_u _ _ B) H). pose proof (ui_main _ (b_u _ _ B)) as (Hb & Hm).
  assert (NM : s_main s <> MRet) by (intro E; unfold step_main in H; rewrite E in H; discriminate).
  assert (Ejn : s_join s = []).
  { destruct (b_join _ _ B) as [E|(j & E)]; [exact E|]. destruct (b_fin _ _ B ltac:(rewrite E; discriminate)) as (E1 & _). contradiction. }
  destruct B as [B1 B2 B3 B4 B5 B6 B7 B8 B9 B10 B11 B12 B13 B14].
  assert (L : launchingb (s_main s) = true) by (destruct B6; [assumption|contradiction]). specialize (B7 L).
  (* one class changes *)
  assert (GL : forall i c c' m ct, nth_error (s_cls s) i = Some c ->
     k_left c' = k_left c -> k_good c' = k_good c -> k_cancel c' = false -> k_alive c' = k_alive c -> k_status c' = k_status c -> (k_thr c = true -> k_thr c' = true) ->
     (k_pc c' = k_pc c \/ k_pc c = CNew /\ k_pc c' = CStart) ->
     launchingb m = true -> ct = Z.of_nat (bonus m + lsum pend (lset (s_cls s) i c')) -> (forall j n, m = MCntW j n -> n = ct) ->
     s' = mkSys (lset (s_cls s) i c') m (s_join s) (s_mutex s) ct (s_training s) (s_joining s) (s_creq s) (s_log s) -> binv plan s').
  { intros i c c' m ct Hn A1 A2 A3 A4 A5 A6 A7 A8 A9 A10 Es.
    assert (P' : forall j d, nth_error (lset (s_cls s) i c') j = Some d -> pcls plan (s_log s) j d).
    { intros j d Hd. destruct (Nat.eq_dec j i) as [->|Nj].
      + rewrite (lset_same _ _ _ _ Hn) in Hd. injection Hd as <-. destruct A7 as [A7|(A7 & A7')].
        * eapply pcls_ext; eauto.
        * destruct (B2 i c Hn) as [Q1 Q2 Q3 Q4 Q5]. constructor; auto; [rewrite A7'; discriminate| |rewrite A7'; exact I|rewrite A2; exact Q5]. unfold todo, rest in *. rewrite A7', A1, A2. rewrite A7 in Q3. exact Q3.
      + rewrite lset_other in Hd by exact Nj. eauto. }
    assert (R' : forall j d, nth_error (lset (s_cls s) i c') j = Some d -> reported (k_pc d) = false).
    { intros j d Hd. destruct (Nat.eq_dec j i) as [->|Nj].
      + rewrite (lset_same _ _ _ _ Hn) in Hd. injection Hd as <-. destruct A7 as [A7|(_ & A7)]; rewrite A7; [exact (B7 i c Hn)|reflexivity].
      + rewrite lset_other in Hd by exact Nj. eauto. }
    subst s'. constructor; sproj; auto.
    - rewrite lset_length. exact B3.
    - intros j d st n Hd Ed. specialize (R' j d Hd). rewrite Ed in R'. discriminate.
    - intros A. contradiction.
    - intros j d st Hd Ed. specialize (R' j d Hd). destruct Ed as [Ed|Ed]; rewrite Ed in R'; discriminate.
    - intros A. rewrite A in A8. discriminate.
    - unfold bphase in *. sproj. rewrite Ejn in *. eapply jinv_frame; [exact B14| | | | |]; sproj; auto.
      + intros j d Hd. destruct (Nat.eq_dec j i) as [->|Nj].
        * rewrite (lset_same _ _ _ _ Hn) in Hd. injection Hd as <-. exists c. split; [exact Hn|]. split; [exact A4|]. split; [exact A5|discriminate].
        * rewrite lset_other in Hd by exact Nj. exists d. auto.
      + intros j d Hd. destruct (Nat.eq_dec j i) as [->|Nj].
        * rewrite Hn in Hd. injection Hd as <-. exists c'. rewrite (lset_same _ _ _ _ Hn). auto.
        * exists d. rewrite lset_other by exact Nj. auto. }
  (* no class changes *)
  assert (GM : forall m ct, (launchingb m = true \/ m = MRet /\ ct <> 0%Z) -> ct = Z.of_nat (bonus m + lsum pend (s_cls s)) -> (forall j n, m = MCntW j n -> n = ct) ->
     s' = mkSys (s_cls s) m (s_join s) (s_mutex s) ct (s_training s) (s_joining s) (s_creq s) (s_log s) -> binv plan s').
  { intros m ct A1 A2 A3 ->. constructor; sproj; auto.
    - destruct A1 as [A1|(A1 & _)]; auto.
    - intros j d st n Hd Ed. specialize (B7 j d Hd). rewrite Ed in B7. discriminate.
    - intros A. contradiction.
    - intros j d st Hd Ed. specialize (B7 j d Hd). destruct Ed as [Ed|Ed]; rewrite Ed in B7; discriminate.
    - intros A E0. destruct A1 as [A1|(_ & A1)]; [rewrite A in A1; discriminate|contradiction].
    - unfold bphase in *. sproj. rewrite Ejn in *. eapply jinv_frame; [exact B14| | | | |]; sproj; auto; intros j d Hd; exists d; auto. }
  unfold step_main in H. destruct (s_main s) eqn:Em; try discriminate.
  - destruct (Nat.ltb_spec i (length (s_cls s))) as [Hlt|Hge].
    + destruct (nth_error (s_cls s) i) as [c|] eqn:Hn; [|apply nth_error_None in Hn; lia].
      rewrite (at_cls_some _ _ _ _ Hn) in H. injection H as <-. pose proof (lsum_lset pend _ _ (set_flag true c) _ Hn) as Ls.
      refine (GL i c _ _ _ Hn _ _ _ _ _ _ _ _ _ _ eq_refl); kproj; sproj; auto.
      * apply (p_cancel _ _ _ _ (B2 i c Hn)).
      * rewrite B8. cbn [bonus]. f_equal. unfold pend at 2 4 in Ls. kproj. lia.
      * intros; discriminate.
    + injection H as <-. refine (GM _ _ _ _ _ eq_refl); auto; [|intros; discriminate]. right. split; [reflexivity|].
      destruct (s_cls s) as [|c l] eqn:El; [cbn in B3; destruct plan; [congruence|discriminate]|].
      assert (H0 : nth_error (s_cls s) 0 = Some c) by (rewrite El; reflexivity). rewrite <- El in *.
      destruct (ui_cls _ B1 0 c H0) as [UM US UO UL UN UT]. rewrite Em in UL. cbn [lbound] in UL.
      assert (k_pc c <> CNew) by (apply UL; rewrite El in Hge; cbn in Hge; lia).
      specialize (B7 0 c H0). assert (pend c = 1).
      { unfold pend. destruct (k_pc c); try congruence; try discriminate; try reflexivity. cbn in B7. destruct (is_run_status st); [reflexivity|discriminate]. }
      pose proof (lsum_pos pend _ _ _ H0). rewrite B8. cbn [bonus]. lia.
  - destruct (nth_error (s_cls s) i) as [c|] eqn:Hn; [|apply nth_error_None in Hn; lia].
    rewrite (at_cls_some _ _ _ _ Hn) in H. injection H as <-. pose proof (lsum_lset pend _ _ (set_cancel false c) _ Hn) as Ls.
    refine (GL i c _ _ _ Hn _ _ _ _ _ _ _ _ _ _ eq_refl); kproj; sproj; auto.
    * rewrite B8. cbn [bonus]. f_equal. unfold pend at 2 4 in Ls. kproj. lia.
    * intros; discriminate.
  - injection H as <-. refine (GM _ _ _ _ _ eq_refl); auto. intros j n E. injection E as _ <-. reflexivity.
  - injection H as <-. unfold with_main, with_count in *. sproj. refine (GM _ _ _ _ _ eq_refl); auto; [|intros; discriminate].
    rewrite (B9 i n eq_refl), B8. cbn [bonus]. lia.
  - destruct (nth_error (s_cls s) i) as [c|] eqn:Hn; [|apply nth_error_None in Hn; lia].
    destruct (ui_cls _ B1 i c Hn) as [UM US UO UL UN UT]. rewrite Em in UL. cbn [lbound] in UL.
    assert (Hnew : k_pc c = CNew) by (destruct (k_pc c); try reflexivity; exfalso; assert (i < i) by (apply UL; discriminate); lia).
    rewrite (at_cls_some _ _ _ _ Hn) in H. injection H as <-. pose proof (lsum_lset pend _ _ (set_thr true (set_pc CStart c)) _ Hn) as Ls.
    refine (GL i c _ _ _ Hn _ _ _ _ _ _ _ _ _ _ eq_refl); kproj; sproj; auto.
    * apply (p_cancel _ _ _ _ (B2 i c Hn)).
    * rewrite B8. cbn [bonus]. f_equal. unfold pend at 2 4 in Ls. kproj. rewrite Hnew in Ls. lia.
    * intros; discriminate.
Qed.

Lemma join_cls : forall j s s1 j', step_join false j s = Some (s1, j') -> forall i c', nth_error (s_cls s1) i = Some c' ->
  exists c, nth_error (s_cls s) i = Some c /\ k_pc c' = k_pc c /\ k_left c' = k_left c /\ k_good c' = k_good c /\ k_cancel c' = k_cancel c.
Proof.
  intros j s s1 j' H i c' Hc.
  assert (D : s_cls s1 = s_cls s \/ (exists k c, nth_error (s_cls s) k = Some c /\ s_cls s1 = lset (s_cls s) k (set_thr false c)) \/ s_cls s1 = map erase_failed (s_cls s)).
  { unfold step_join in H. destruct j; repeat match type of H with
    | context [if ?b then _ else _] => destruct b
    | context [match ?x with Some _ => _ | None => _ end] => destruct x eqn:?
    | context [match k_pc ?x with _ => _ end] => destruct (k_pc x) eqn:?
    end; try discriminate; injection H as <- <-; auto.
    right. left. exists i0, c. rewrite (at_cls_some _ _ _ _ Heqo). auto. }
  destruct D as [D|[(k & c & D1 & D)|D]]; rewrite D in Hc.
  - exists c'. auto.
  - destruct (Nat.eq_dec i k) as [->|N]; [rewrite (lset_same _ _ _ _ D1) in Hc; injection Hc as <-; exists c; auto|rewrite lset_other in Hc by exact N; exists c'; auto].
  - rewrite nth_error_map in Hc. destruct (nth_error (s_cls s) i) as [d|] eqn:E; [|discriminate]. cbn in Hc. injection Hc as <-. exists d. unfold erase_failed. destruct (k_status d); auto.
Qed.

Lemma join_frame : forall j s s1 j', step_join false j s = Some (s1, j') ->
  length (s_cls s1) = length (s_cls s) /\ s_count s1 = s_count s /\ s_creq s1 = s_creq s /\ lsum pend (s_cls s1) = lsum pend (s_cls s) /\
  (s_log s1 = s_log s \/ s_log s1 = s_log s ++ [EvAll]).
Proof.
  intros j s s1 j' H.
  assert (P : forall l, lsum pend (map erase_failed l) = lsum pend l).
  { assert (E : forall c, pend (erase_failed c) = pend c) by (intro c; unfold erase_failed, pend; destruct (k_status c); reflexivity).
    unfold lsum. induction l as [|c l IH]; [reflexivity|]. cbn [map fold_right]. rewrite IH, E. reflexivity. }
  unfold step_join in H. destruct j; repeat match type of H with
    | context [if ?b then _ else _] => destruct b
    | context [match ?x with Some _ => _ | None => _ end] => destruct x eqn:?
    | context [match k_pc ?x with _ => _ end] => destruct (k_pc x) eqn:?
    end; try discriminate; injection H as <- <-; rewrite ?(at_cls_some _ _ _ _ Heqo); unfold with_cls, with_joining, with_training, emit; sproj; rewrite ?lset_length, ?map_length, ?P; auto 10.
  pose proof (lsum_lset pend _ _ (set_thr false c) _ Heqo) as Ls. unfold pend at 2 4 in Ls. kproj. split; auto. split; auto. split; auto. split; [lia|auto].
Qed.

Lemma binv_joiner : forall plan k s s', binv plan s -> step true false (TJoin k) false s = Some s' -> binv plan s'.
Proof.
  intros plan k s s' B H. assert (U' := uinv_step _ _ _ _ _ _ (b_u _ _ B) H). cbn [step] in H.
  destruct (b_join _ _ B) as [E|(j & E)]; rewrite E in H; [destruct k; discriminate|].
  destruct k as [|k]; [|destruct k; discriminate]. cbn [nth_error] in H. destruct (step_join false j s) as [[s1 j']|] eqn:Es; [|discriminate].
  injection H as <-. pose proof (step_join_keeps _ _ _ _ _ Es) as (K1 & K2). rewrite K2, E in *. cbn [lset] in *.
  pose proof (join_frame _ _ _ _ Es) as (F1 & F2 & F3 & F4 & F5). pose proof (join_cls _ _ _ _ Es) as JC.
  destruct B as [B1 B2 B3 B4 B5 B6 B7 B8 B9 B10 B11 B12 B13 B14]. destruct (B11 ltac:(rewrite E; discriminate)) as (Em & Fn).
  unfold with_join in *. constructor; sproj; auto.
  - intros i c' Hc. destruct (JC i c' Hc) as (c & C1 & C2 & C3 & C4 & C5). destruct (B2 i c C1) as [Q1 Q2 (p & Q3 & Q4) Q5 Q6].
    apply (pcls_ext _ _ _ c); auto; [|congruence]. constructor; auto. exists p. split; [exact Q3|].
    destruct F5 as [->| ->]; [exact Q4|]. rewrite events_app. cbn. rewrite app_nil_r. exact Q4.
  - congruence.
  - right. eauto.
  - congruence.
  - rewrite K1. exact B6.
  - rewrite K1, Em. discriminate.
  - rewrite F2, K1, F4. exact B8.
  - rewrite K1, Em. discriminate.
  - intros i c' st n Hc Ec. destruct (JC i c' Hc) as (c & C1 & C2 & _). specialize (Fn i c C1). rewrite <- C2, Ec in Fn. discriminate.
  - intros _. rewrite K1. split; [exact Em|]. intros i c' Hc. destruct (JC i c' Hc) as (c & C1 & C2 & _). rewrite C2. eauto.
  - intros i c' st Hc Ec. destruct (JC i c' Hc) as (c & C1 & C2 & _). specialize (Fn i c C1). rewrite <- C2 in Fn. destruct Ec as [Ec|Ec]; rewrite Ec in Fn; discriminate.
  - intros _ _ A. discriminate.
  - unfold bphase in *. sproj. rewrite E in B14. pose proof (jinv_join _ _ _ _ B14 Es) as [Q1 Q2 Q3 Q4 Q5 Q6 Q7]. constructor; sproj; auto.
Qed.

Lemma binv_step : forall plan t s s', plan <> [] -> binv plan s -> step true false t false s = Some s' -> launched_first s' -> binv plan s'.
Proof.
  intros plan [|i|k] s s' Hp B H LF.
  - eapply binv_main; eauto.
  - eapply binv_class; eauto.
  - eapply binv_joiner; eauto.
Qed.

Lemma binv_init : forall plan, binv plan (life_init 0 plan).
Proof.
  intros plan. pose proof (pinv_init 0 plan) as P. destruct P as [P1 P2 P3 P4 P5 P6 P7 P8 P9 P10 P11 P12 P13].
  constructor; auto; try (unfold life_init; sproj; auto; fail); try (unfold life_init; sproj; intros; discriminate).
  - unfold life_init. sproj. intros _ i c Hc. rewrite nth_error_map in Hc. destruct (nth_error plan i); [|discriminate]. injection Hc as <-. reflexivity.
  - unfold life_init. sproj. cbn [bonus]. assert (E : lsum pend (map fresh_cls plan) = 0) by (clear; induction plan as [|p l IH]; [reflexivity|exact IH]). rewrite E. reflexivity.
  - intros i c st n Hc Ec. unfold life_init in Hc; sproj. rewrite nth_error_map in Hc. destruct (nth_error plan i); [|discriminate]. injection Hc as <-. discriminate.
  - intros A. destruct A. reflexivity.
  - unfold bphase, life_init. sproj. constructor; sproj; auto; try exact I; try discriminate.
Qed.

Lemma bg_reach : forall plan sch, plan <> [] -> strong sch -> throughout true false launched_first sch (life_init 0 plan) ->
  binv plan (run true false sch (life_init 0 plan)).
Proof.
  intros plan sch Hp St T. assert (G : forall k s0, strong k -> binv plan s0 -> throughout true false launched_first k s0 -> binv plan (run true false k s0)).
  { clear - Hp. induction k as [|(t, b) k IH]; intros s0 St B T; cbn [run]; [exact B|]. inversion St as [|? ? St1 St2]; subst. cbn in St1. subst b.
    apply IH; [exact St2| |].
    - pose proof (T 1) as T1. cbn [firstn run] in T1. destruct (step true false t false s0) as [s'|] eqn:E; [eapply binv_step; eauto|exact B].
    - intros n. specialize (T (S n)). cbn [firstn run] in T. exact T. }
  apply G; auto. apply binv_init.
Qed.

Lemma bg_progress : forall plan s, binv plan s -> plan <> [] -> s_join s <> [JEnd] -> exists t s', step true false t false s = Some s'.
Proof.
  intros plan s B Hp Hj. pose proof (b_u _ _ B) as U. destruct (b_main _ _ B) as [L|Em].
  - exists TMain. cbn [step]. unfold step_main. destruct (s_main s) eqn:E; try discriminate; try (eexists; reflexivity).
    destruct (i <? length (s_cls s)); eexists; reflexivity.
  - assert (CF : forall i c, nth_error (s_cls s) i = Some c -> (exists st, k_pc c = CEnd st) \/ exists t s', step true false t false s = Some s').
    { intros i c Hc. assert (D : (exists st, k_pc c = CEnd st) \/ forall st, k_pc c <> CEnd st) by (destruct (k_pc c); eauto; right; discriminate).
      destruct D as [D|D]; [auto|]. right. destruct (ui_cls _ U i c Hc) as [UM US UO UL UN UT]. rewrite Em in UL. cbn [lbound] in UL.
      destruct (class_free true s i c U Hc) as (k & s' & E); [apply UL; apply nth_error_Some; congruence|exact D|]. exists (TClass k), s'. exact E. }
    destruct (b_join _ _ B) as [E|(j & E)].
    + (* nobody joins: some class still runs *)
      destruct (Z.eq_dec (s_count s) 0) as [E0|E0].
      * destruct (b_live _ _ B Em E0 E) as (i & c & C1 & C2). destruct (CF i c C1) as [(st & A)|A]; [rewrite A in C2; discriminate|exact A].
      * pose proof (b_count _ _ B) as Bc. rewrite Em in Bc. cbn [bonus] in Bc.
        assert (exists i c, nth_error (s_cls s) i = Some c /\ pend c <> 0) as (i & c & C1 & C2).
        { assert (Hl : lsum pend (s_cls s) <> 0) by lia. clear - Hl. induction (s_cls s) as [|c l IH]; [cbn in Hl; lia|].
          destruct (Nat.eq_dec (pend c) 0) as [A|A]; [|exists 0, c; auto]. destruct IH as (i & d & D1 & D2); [cbn in Hl; unfold lsum; lia|]. exists (S i), d. auto. }
        destruct (CF i c C1) as [(st & A)|A]; [unfold pend in C2; rewrite A in C2; congruence|exact A].
    + pose proof (b_j _ _ B) as J. unfold bphase in J. rewrite E in J. destruct J as [Q1 Q2 Q3 Q4 Q5 Q6 Q7].
      assert (HM : (exists r, step_join false j s = Some r) -> exists t s', step true false t false s = Some s').
      { intros ([s1 j'] & Er). exists (TJoin 0). cbn [step]. rewrite E. cbn [nth_error]. rewrite Er. eexists; reflexivity. }
      destruct j; cbn [par_pc holds_joining] in *; try contradiction; cbn [step_join] in HM; try (apply HM; eexists; reflexivity).
      * apply HM. rewrite Q2. eexists; reflexivity.
      * destruct (first_thr (s_cls s) 0) as [i|] eqn:Ef; [|apply HM; eexists; reflexivity].
        destruct (first_thr_some _ _ _ Ef) as (c & C1 & C2 & _). rewrite Nat.sub_0_r in C1. rewrite C1 in HM.
        destruct (CF i c C1) as [(st & D)|D]; [rewrite D in HM; apply HM; eexists; reflexivity|exact D].
      * destruct (Q7 i eq_refl) as (c & C1 & C2). rewrite C1, C2 in HM. apply HM. eexists; reflexivity.
      * apply HM. rewrite Q2. eexists; reflexivity.
Qed.

(** The last event means that everything is over. *)
Lemma bg_announced : forall plan s, binv plan s -> In EvAll (s_log s) -> s_main s = MRet /\ s_join s = [JEnd].
Proof.
  intros plan s B H. pose proof (j_log _ _ (b_j _ _ B)) as L. unfold bphase in L. destruct (b_join _ _ B) as [E|(j & E)]; rewrite E in L.
  - contradiction.
  - destruct (b_fin _ _ B ltac:(rewrite E; discriminate)) as (Em & _). split; [exact Em|]. destruct j; cbn [announced_all] in L; try contradiction. exact E.
Qed.

Lemma bg_over : forall plan s, binv plan s -> s_join s = [JEnd] ->
  s_training s = false /\ length (s_cls s) = length plan /\
  (exists l, s_log s = l ++ [EvAll] /\ ~ In EvAll l) /\
  forall i c p, nth_error (s_cls s) i = Some c -> nth_error plan i = Some p ->
    ended c /\ events_of i (s_log s) = announced p /\ k_alive c = snd p.
Proof.
  intros plan s B Ej. pose proof (b_j _ _ B) as J. unfold bphase in J. rewrite Ej in J. destruct J as [Q1 Q2 Q3 Q4 Q5 Q6 Q7].
  cbn [lowered negb announced_all joined erased] in *.
  destruct (b_fin _ _ B ltac:(rewrite Ej; discriminate)) as (Em & _).
  split; [exact Q3|]. split; [exact (b_len _ _ B)|]. split; [exact Q4|]. intros i c p Hc Hp.
  destruct (ui_cls _ (b_u _ _ B) i c Hc) as [UM US UO UL UN UT]. rewrite Em in UL. cbn [lbound] in UL.
  destruct UT as (st & E); [apply UL; apply nth_error_Some; congruence|exact (Q5 eq_refl i c Hc)|]. split; [exists st; exact E|].
  destruct (b_cls _ _ B i c Hc) as [P1 P2 (p' & P3 & P4) P5 P6]. rewrite Hp in P3. injection P3 as <-.
  unfold todo in P4. rewrite E, app_nil_r in P4. split; [exact P4|]. rewrite (Q6 i c Hc).
  rewrite E in US. specialize (US st eq_refl). rewrite US.
  rewrite E in P2, P5. cbn in P2, P5. specialize (P6 p Hp). destruct UO as (UO1 & UO2). rewrite E in UO1, UO2. specialize (UO1 st eq_refl). specialize (UO2 eq_refl st eq_refl).
  destruct st; cbn [kept]; congruence.
Qed.

Lemma bg_fair : forall plan rounds, plan <> [] -> Forall (fair_round (length plan)) rounds -> work (life_init 0 plan) < length rounds ->
  throughout true false launched_first (concat rounds) (life_init 0 plan) ->
  s_join (run true false (concat rounds) (life_init 0 plan)) = [JEnd].
Proof.
  intros plan rounds Hp F W T. pose proof (fair_strong _ _ F) as St.
  assert (Q : quiet true false (run true false (concat rounds) (life_init 0 plan))).
  { apply (fair_quiet true false (length plan) (binv plan)); auto.
    - intros s P. split; [exact (b_u _ _ P)|]. rewrite (b_len _ _ P). split; [lia|]. destruct (b_join _ _ P) as [->|(j & ->)]; cbn; [lia|]. destruct plan; [congruence|cbn; lia].
    - intros k. apply bg_reach; [exact Hp|apply strong_firstn, St|]. intros n. rewrite firstn_firstn. apply T. }
  pose proof (bg_reach plan _ Hp St T) as P. set (s := run _ _ _ _) in *. clearbody s.
  assert (D : {s_join s = [JEnd]} + {s_join s <> [JEnd]}) by (destruct (s_join s) as [|[] [|? ?]]; auto; right; discriminate).
  destruct D as [D|D]; [exact D|]. destruct (bg_progress _ _ P Hp D) as (t & s' & E). rewrite (Q t) in E. discriminate.
Qed.
