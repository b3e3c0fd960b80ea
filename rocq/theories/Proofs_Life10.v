(** Calls made while other classes are training: the calls end. *)
From Coq Require Import List Bool Arith ZArith Lia.
From Verif Require Import Base Model_Train Model_Life Model_Life2 Spec_Life Spec_Life2 Proofs_Life Proofs_Life2 Proofs_Life3 Proofs_Life4 Proofs_Life5 Proofs_Life8 Proofs_Life9.
Import ListNotations.
Local Open Scope nat_scope.

Lemma call_start : forall plan s i o j, in_background plan s -> i < length plan -> still_training j s ->
  cinv (cs_sys (call o s)) /\ finv s /\ binv plan s /\ place i o (call o s).
Proof.
  intros plan s i o j B Hi S. destruct (background_cinv plan s j B S) as (C & F & Bi & Al). split; [exact C|]. split; [exact F|]. split; [exact Bi|].
  destruct (nth_error (s_cls s) i) as [c|] eqn:Hc; [|apply nth_error_None in Hc; rewrite (b_len _ _ Bi) in Hc; lia].
  unfold place. cbn [call cs_sys cs_pc cs_freed]. split; [destruct o; auto|]. exists c. split; [exact Hc|]. destruct o; exact (Al i c Hc).
Qed.

Lemma call_place : forall plan s i o sch, in_background plan s -> i < length plan -> others_training i (cs_sys (run2 i o sch (call o s))) ->
  cinv (cs_sys (run2 i o sch (call o s))) /\ place i o (run2 i o sch (call o s)).
Proof.
  intros plan s i o sch B Hi (j & Nj & S). assert (S0 : still_training j s) by (exact (still_back _ _ _ (grows_run2 i o sch (call o s)) S)).
  destruct (call_start plan s i o j B Hi S0) as (C & _ & _ & P). exact (zinv_run i o j sch _ Nj C P S).
Qed.

(** ** Every step uses up something *)
Definition lrank (l : lpc) : nat :=
  match l with
  | LSpin => 25 | L0 => 24 | LAlive => 23 | LReq => 22 | LSet => 21 | LWait => 20 | LCount => 19 | LJoin _ => 18 | LClr => 17
  | LErase => 16 | LCheck => 15 | LCheck2 => 14 | LTrue => 13 | LAdd => 12 | LFlag => 11 | LCanc => 10 | LCnt => 9 | LCntW _ => 8 | LSpawn => 7
  | LRet | LThrow _ | LAbort | LGone => 0
  end.
Definition zwork (z : csys) : nat := work (cs_sys z) + lrank (cs_pc z).
Definition waits (l : lpc) : bool := match l with LSpin | L0 | LAlive | LReq | LSet | LWait => true | _ => false end.

Lemma work_at : forall i f s, (forall c, cweight (f c) = cweight c) -> work (at_cls i f s) = work s.
Proof.
  intros i f s H. unfold at_cls. destruct (nth_error (s_cls s) i) as [c|] eqn:E; [|reflexivity]. unfold work, with_cls; sproj. rewrite lset_length.
  pose proof (lsum_lset cweight _ _ (f c) _ E). specialize (H c). lia.
Qed.

Lemma zstep_work : forall i o t b z z', cinv (cs_sys z) -> place i o z -> (0 < s_count (cs_sys z))%Z -> step2 i o t b z = Some z' -> zwork z' < zwork z.
Proof.
  intros i o t b [s l f] z' C (PA & c & Hc & PP) CT H. cbn [cs_sys cs_pc cs_freed] in *. destruct t as [|k|k].
  - assert (H' : exists s1 l1, step_call i o b l s = Some (s1, l1) /\ z' = mkC s1 l1 f).
    { unfold step2 in H. cbn [cs_pc cs_sys cs_freed] in H. destruct l; try discriminate; destruct (step_call _ _ _ _ _) as [[s1 l1]|] eqn:E; try discriminate; injection H as <-; eauto. }
    clear H. destruct H' as (s1 & l1 & H & ->). unfold zwork. cbn [cs_sys cs_pc].
    assert (AL : alive_at s i = k_alive c) by (unfold alive_at; rewrite Hc; reflexivity).
    assert (CZ : (s_count s =? 0)%Z = false) by (apply Z.eqb_neq; lia).
    pose proof (c_train _ C) as ET. pose proof (c_joining _ C) as EJ. pose proof (c_thr _ C i c Hc) as EH.
    assert (AO : match o with ORemove => True | _ => k_alive c = true end) by (destruct o; auto; destruct PA as (_ & PA2); eauto).
    destruct l; cbn [step_call] in H; try contradiction; unfold on_cls in H; rewrite ?Hc, ?AL, ?ET, ?EJ, ?CZ in H; try destruct o; try contradiction; try discriminate;
      rewrite ?EH, ?PP, ?AO in H; try (destruct PP as (PP1 & PP2)); try (destruct (k_flag c) eqn:Ef; [discriminate|]); injection H as <- <-; rewrite ?work_at; cbn [lrank];
      try (change (work (with_creq _ s)) with (work s)); try (change (work (with_training _ s)) with (work s)); try (change (work (with_count _ s)) with (work s)); try lia; intros d; try destruct (k_flag d); reflexivity.
  - assert (H' : exists s1, step_class true k s = Some s1 /\ z' = mkC s1 l (f || negb (alive_at s k))).
    { unfold step2 in H. cbn [cs_pc cs_sys cs_freed] in H. destruct l; try discriminate; destruct (step_class true k s) as [s1|] eqn:E; try discriminate; injection H as <-; eauto. }
    destruct H' as (s1 & H1 & ->). unfold zwork. cbn [cs_sys cs_pc]. pose proof (work_class _ _ _ _ (c_u _ C) H1). lia.
  - unfold step2 in H. cbn [cs_pc cs_sys cs_freed step] in H. rewrite (c_join _ C) in H. destruct k; destruct l; discriminate.
Qed.

Lemma finv_at : forall i f s, (forall c, k_pc (f c) = k_pc c /\ (k_flag c = false -> k_flag (f c) = false)) -> finv s -> finv (at_cls i f s).
Proof.
  intros i f s H F. unfold at_cls. destruct (nth_error (s_cls s) i) as [c|] eqn:E; [|exact F]. unfold finv, with_cls; sproj. apply (finv_lset _ _ _ _ E F).
  destruct (H c) as (H1 & H2). rewrite H1. intro L. exact (H2 (F i c E L)).
Qed.

Lemma finv_step2 : forall i o t b z z', cinv (cs_sys z) -> place i o z -> (waits (cs_pc z) = true -> finv (cs_sys z)) -> step2 i o t b z = Some z' -> waits (cs_pc z') = true -> finv (cs_sys z').
Proof.
  intros i o t b [s l f] z' C (PA & c & Hc & PP) F H W. cbn [cs_sys cs_pc cs_freed] in *. destruct t as [|k|k].
  - assert (H' : exists s1 l1, step_call i o b l s = Some (s1, l1) /\ z' = mkC s1 l1 f).
    { unfold step2 in H. cbn [cs_pc cs_sys cs_freed] in H. destruct l; try discriminate; destruct (step_call _ _ _ _ _) as [[s1 l1]|] eqn:E; try discriminate; injection H as <-; eauto. }
    clear H. destruct H' as (s1 & l1 & H & ->). cbn [cs_sys cs_pc] in *.
    assert (AL : alive_at s i = k_alive c) by (unfold alive_at; rewrite Hc; reflexivity).
    destruct l; cbn [step_call] in H; try contradiction; unfold on_cls in H; rewrite ?Hc, ?AL in H; repeat match type of H with
      | context [if ?b then _ else _] => destruct b eqn:?
      | context [match o with OCancel => _ | ORetrain _ => _ | ORemove => _ end] => destruct o
      end; try discriminate; injection H as <- <-; try discriminate; try (exact (F eq_refl)).
    apply finv_at; [|exact (F eq_refl)]. intro d. destruct (k_flag d) eqn:E; kproj; auto. split; [reflexivity|congruence].
  - assert (H' : exists s1, step_class true k s = Some s1 /\ z' = mkC s1 l (f || negb (alive_at s k))).
    { unfold step2 in H. cbn [cs_pc cs_sys cs_freed] in H. destruct l; try discriminate; destruct (step_class true k s) as [s1|] eqn:E; try discriminate; injection H as <-; eauto. }
    destruct H' as (s1 & H1 & ->). cbn [cs_sys cs_pc] in *. exact (finv_class _ _ _ _ (F W) H1).
  - unfold step2 in H. cbn [cs_pc cs_sys cs_freed step] in H. rewrite (c_join _ C) in H. destruct k; destruct l; discriminate.
Qed.

(** ** Somebody can move as long as the call is not over *)
Lemma call_progress : forall i o z, cinv (cs_sys z) -> place i o z -> (waits (cs_pc z) = true -> finv (cs_sys z)) -> in_call z -> exists t z', step2 i o t false z = Some z'.
Proof.
  intros i o [s l f] C (PA & c & Hc & PP) F IC. unfold in_call in IC. cbn [cs_sys cs_pc cs_freed] in *.
  assert (AL : alive_at s i = k_alive c) by (unfold alive_at; rewrite Hc; reflexivity).
  pose proof (c_train _ C) as ET. pose proof (c_joining _ C) as EJ. pose proof (c_thr _ C i c Hc) as EH.
  assert (AO : match o with ORemove => True | _ => k_alive c = true end) by (destruct o; auto; destruct PA as (_ & PA2); eauto).
  assert (G : (exists r, step_call i o false l s = Some r) -> exists t z', step2 i o t false (mkC s l f) = Some z').
  { intros ([s1 l1] & E). exists TMain. unfold step2. cbn [cs_pc cs_sys cs_freed]. destruct l; try contradiction; rewrite E; eexists; reflexivity. }
  destruct l; try contradiction; cbn [step_call] in G; unfold on_cls in G; rewrite ?Hc, ?AL, ?ET, ?EJ in G; try (apply G; eexists; reflexivity).
  - apply G. destruct (k_alive c); eexists; reflexivity.
  - (* waiting for the class *)
    destruct (k_flag c) eqn:Ef; [|apply G; eexists; reflexivity].
    destruct (ui_cls _ (c_u _ C) i c Hc) as [_ _ _ UL _ _].
    destruct (class_free true s i c (c_u _ C) Hc) as (k & s' & E).
    + apply UL. rewrite (c_main _ C). apply nth_error_Some. congruence.
    + intros st E. specialize (F eq_refl i c Hc). rewrite E in F. rewrite (F eq_refl) in Ef. discriminate.
    + exists (TClass k). unfold step2. cbn [cs_pc cs_sys cs_freed]. rewrite E. eexists; reflexivity.
  - destruct o; try contradiction. apply G. rewrite PP. eexists; reflexivity.
  - destruct o; try contradiction. apply G. rewrite AO, PP. eexists; reflexivity.
  - destruct o; try contradiction. apply G. rewrite AO. eexists; reflexivity.
  - destruct o; try contradiction. apply G. rewrite AO. eexists; reflexivity.
  - destruct o; try contradiction. apply G. rewrite EH. eexists; reflexivity.
Qed.

(** ** Fair executions *)
Definition zinv (i : nat) (o : lop) (z : csys) : Prop := cinv (cs_sys z) /\ place i o z /\ (waits (cs_pc z) = true -> finv (cs_sys z)).

Lemma run2_app : forall i o l l' z, run2 i o (l ++ l') z = run2 i o l' (run2 i o l z).
Proof. intros i o. induction l as [|(t, b) l IH]; intros l' z; cbn [run2 app]; auto. Qed.

Lemma zstep : forall i o j t b z z', j <> i -> zinv i o z -> still_training j (cs_sys z') -> step2 i o t b z = Some z' -> zinv i o z' /\ zwork z' < zwork z.
Proof.
  intros i o j t b z z' Nj (C & P & F) S H. destruct (zinv_step i o j t b z z' Nj C P S H) as (C' & P').
  split; [split; [exact C'|split; [exact P'|exact (finv_step2 i o t b z z' C P F H)]]|].
  apply (zstep_work i o t b z z' C P); [|exact H]. apply (training_pend (cs_sys z) j C). exact (still_back _ _ _ (grows_step2 _ _ _ _ _ _ H) S).
Qed.

Lemma no_move2 : forall i o j l z, j <> i -> zinv i o z -> still_training j (cs_sys (run2 i o l z)) -> strong l ->
  (run2 i o l z = z /\ forall t, In (t, false) l -> step2 i o t false z = None) \/ zwork (run2 i o l z) < zwork z.
Proof.
  intros i o j. induction l as [|(t, b) l IH]; intros z Nj Z S St; cbn [run2] in *.
  - left. split; [reflexivity|]. intros t [].
  - inversion St as [|? ? St1 St2]; subst. cbn in St1. subst b. destruct (step2 i o t false z) as [z'|] eqn:E.
    + right. destruct (zstep i o j t false z z' Nj Z (still_back _ _ _ (grows_run2 i o l z') S) E) as (Z' & W). destruct (IH z' Nj Z' S St2) as [(-> & _)|H1]; lia.
    + destruct (IH z Nj Z S St2) as [(H1 & H2)|H1]; [left|right; exact H1]. split; [exact H1|]. intros t' [A|A]; [injection A as <-; exact E|auto].
Qed.

Lemma zinv_runs : forall i o j l z, j <> i -> zinv i o z -> still_training j (cs_sys (run2 i o l z)) -> zinv i o (run2 i o l z).
Proof.
  intros i o j. induction l as [|(t, b) l IH]; intros z Nj Z S; cbn [run2] in *; [exact Z|].
  destruct (step2 i o t b z) as [z'|] eqn:E; [|auto]. apply IH; auto. eapply zstep; eauto. exact (still_back _ _ _ (grows_run2 i o l z') S).
Qed.

Lemma over_stays : forall i o t b z z', ~ in_call z -> step2 i o t b z = Some z' -> ~ in_call z'.
Proof.
  intros i o t b [s l f] z' N H. unfold in_call, step2 in *. cbn [cs_sys cs_pc cs_freed] in *. destruct l; try (destruct N; exact I); try discriminate; destruct t as [|k|k]; try discriminate;
    repeat match type of H with context [match ?x with Some _ => _ | None => _ end] => destruct x; try discriminate end; injection H as <-; exact N.
Qed.
Lemma over_runs : forall i o l z, ~ in_call z -> ~ in_call (run2 i o l z).
Proof. intros i o. induction l as [|(t, b) l IH]; intros z N; cbn [run2]; [exact N|]. apply IH. destruct (step2 i o t b z) eqn:E; [eapply over_stays; eauto|exact N]. Qed.

Lemma fair_over : forall i o j n rounds z, j <> i -> zinv i o z -> length (s_cls (cs_sys z)) <= n -> Forall (fair_round n) rounds -> zwork z < length rounds ->
  still_training j (cs_sys (run2 i o (concat rounds) z)) -> ~ in_call (run2 i o (concat rounds) z).
Proof.
  intros i o j n. induction rounds as [|l rounds IH]; intros z Nj Z L F W S; [cbn in W; lia|]. inversion F as [|? ? F1 F2]; subst. cbn [concat] in *. rewrite run2_app in *.
  assert (S1 : still_training j (cs_sys (run2 i o l z))) by (exact (still_back _ _ _ (grows_run2 i o (concat rounds) _) S)).
  destruct (no_move2 i o j l z Nj Z S1 (proj1 F1)) as [(E & Hn)|Hlt].
  - rewrite E in *. apply over_runs. intro IC. destruct Z as (C & P & Fi). destruct (call_progress i o z C P Fi IC) as (t & z' & Hs).
    assert (N : step2 i o t false z = None); [|congruence].
    destruct F1 as (_ & F1 & F1'). destruct t as [|k|k]; [auto| |].
    + destruct (Nat.lt_ge_cases k n) as [Hk|Hk]; [apply Hn, F1', Hk|]. exfalso. unfold step2 in Hs. assert (Q : step_class true k (cs_sys z) = None).
      { unfold step_class. destruct (nth_error (s_cls (cs_sys z)) k) eqn:Q; [|reflexivity]. assert (k < length (s_cls (cs_sys z))) by (apply nth_error_Some; congruence). lia. }
      rewrite Q in Hs. destruct (cs_pc z); discriminate.
    + exfalso. unfold step2 in Hs. cbn [step] in Hs. rewrite (c_join _ C) in Hs. destruct k; destruct (cs_pc z); discriminate.
  - apply IH; auto; [exact (zinv_runs i o j l z Nj Z S1)| |cbn in W; lia]. destruct (grows_run2 i o l z) as (_ & Q). lia.
Qed.

Lemma still_dec : forall j s, still_training j s \/ ~ still_training j s.
Proof.
  intros j s. destruct (Nat.lt_ge_cases j (length (s_cls s))) as [Hj|Hj]; [|right; intros (A & _); lia].
  assert (D : (exists st, st <> Run /\ In (EvClass j st) (s_log s)) \/ forall st, st <> Run -> ~ In (EvClass j st) (s_log s)).
  { induction (s_log s) as [|e l IH]; [right; intros st _ []|]. destruct IH as [(st & A & B)|IH]; [left; exists st; split; [exact A|right; exact B]|].
    destruct e as [k st|]; [|right; intros st A [B|B]; [discriminate|exact (IH st A B)]].
    destruct (Nat.eq_dec k j) as [->|N]; [|right; intros st' A [B|B]; [injection B as B _; contradiction|exact (IH st' A B)]].
    destruct st; try (left; eexists; split; [|left; reflexivity]; discriminate). right. intros st' A [B|B]; [injection B as <-; contradiction|exact (IH st' A B)]. }
  destruct D as [(st & A & B)|D]; [right; intros (_ & Q); exact (Q st A B)|left; split; auto].
Qed.

Lemma others_dec : forall i s, others_training i s \/ ~ others_training i s.
Proof.
  intros i s. assert (D : forall n, (exists j, j < n /\ j <> i /\ still_training j s) \/ forall j, j < n -> j <> i -> ~ still_training j s).
  { induction n as [|n IH]; [right; intros; lia|]. destruct IH as [(j & A & B)|IH]; [left; exists j; split; [lia|exact B]|].
    destruct (Nat.eq_dec n i) as [->|N]; [right; intros j A B; apply IH; lia|]. destruct (still_dec n s) as [Q|Q]; [left; exists n; split; [lia|auto]|right; intros j A B].
    destruct (Nat.eq_dec j n) as [->|Nn]; [exact Q|apply IH; lia]. }
  destruct (D (length (s_cls s))) as [(j & _ & A)|D']; [left; exists j; exact A|right]. intros (j & A & B). apply (D' j); auto. apply B.
Qed.

Theorem call_ends : forall plan s i o, in_background plan s -> i < length plan -> exists turns, forall rounds, Forall (fair_round (length plan)) rounds -> turns < length rounds ->
  ~ in_call (run2 i o (concat rounds) (call o s)) \/ ~ others_training i (cs_sys (run2 i o (concat rounds) (call o s))).
Proof.
  intros plan s i o B Hi. exists (zwork (call o s)). intros rounds F W. destruct (others_dec i (cs_sys (run2 i o (concat rounds) (call o s)))) as [D|D]; [left|right; exact D].
  destruct D as (j & Nj & S). assert (S0 : still_training j s) by (exact (still_back _ _ _ (grows_run2 i o (concat rounds) (call o s)) S)).
  destruct (call_start plan s i o j B Hi S0) as (C & Fi & Bi & P).
  apply (fair_over i o j (length plan)); auto; [split; [exact C|split; [exact P|intros _; exact Fi]]|]. cbn [call cs_sys]. rewrite (b_len _ _ Bi). lia.
Qed.

Lemma call_length : forall plan s i o sch, in_background plan s -> length (s_cls (cs_sys (run2 i o sch (call o s)))) = length plan.
Proof.
  intros plan s i o sch B. destruct (grows_run2 i o sch (call o s)) as (_ & ->). destruct o; cbn [call cs_sys];
  destruct B as (Hp & sc & St & T & -> & _); exact (b_len _ _ (bg_reach plan sc Hp St T)).
Qed.
