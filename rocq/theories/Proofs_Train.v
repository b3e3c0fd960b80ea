(** The training driver: proofs. *)
From Coq Require Import List Bool Arith Lia.
From Verif Require Import Base Arith Model_Train Spec_Train.
Import ListNotations.
Local Open Scope nat_scope.

Section Train.
  Context {A : arith} {M : Type}.
  Local Notation T := (num A).
  Variables (h : hooks A M) (p : em_settings A) (cancel : nat -> bool).

  Definition def_event : tevent A := mkEvent Run 0 n0 n0.

  (** What a finished loop looks like from its start. *)
  Record finished (s s' : tstate A M) (old : T) (runs : list (tevent A)) (last : tevent A) : Prop := mkFin {
    f_events : t_events s' = t_events s ++ runs ++ [last];
    f_training : t_training s' = false;
    f_locked : t_locked s' = false;
    f_last : e_status last = Done \/ e_status last = Error \/ e_status last = Cancel;
    f_runs : forall k, k < length runs -> is_run p (t_it s + k) (nth k runs def_event);
    f_bound : t_it s + length runs <= Nat.max 1000 (t_it s);
    f_updates : t_updates s' = t_updates s + length runs \/
                e_status last = Error /\ t_updates s' = t_updates s + S (length runs);
    f_go : forall k, k < length runs ->
      has_converged p (t_it s + k) (nth k (t_ll s :: map e_ll runs) n0) (nth k (old :: t_ll s :: map e_ll runs) n0) = false;
    f_stop : e_status last = Done ->
      has_converged p (t_it s + length runs) (nth (length runs) (t_ll s :: map e_ll runs) n0)
        (nth (length runs) (old :: t_ll s :: map e_ll runs) n0) = true;
    f_status : t_status s' = e_status last;
    f_cancel_no : forall k, t_checks s <= k < t_checks s' -> cancel k = true -> e_status last = Cancel /\ S k = t_checks s';
    f_cancel_yes : e_status last = Cancel -> exists k, t_checks s <= k /\ S k = t_checks s' /\ cancel k = true
  }.

  Lemma prog_eq : forall n, progression p n = ndiv (nN n) (nN (if em_min p <? em_max p then em_max p else em_min p)).
  Proof. intro n. unfold progression. destruct (em_min p <? em_max p); reflexivity. Qed.

  Ltac tproj := cbn [t_m t_status t_it t_ll t_prog t_training t_locked t_events t_updates t_checks tset_m tset_status tset_it tset_ll
    tset_training tset_locked tnotify tcount tchecked e_status e_it e_ll e_prog] in *.

  Lemma loop_finishes : caught h -> forall fuel err old s, t_status s = Run -> 1000 <= fuel + t_it s ->
    exists s' runs last, em_loop h p cancel fuel err old s = (s', Returned) /\ finished s s' old runs last.
  Proof.
    intros C. induction fuel as [|fuel IH]; intros err old s HS HF.
    - assert (HC : has_converged p (t_it s) (t_ll s) old = true).
      { unfold has_converged. replace (1000 <=? t_it s) with true by (symmetry; apply Nat.leb_le; lia). reflexivity. }
      cbn [em_loop]. rewrite HC. unfold check_cancel. destruct (cancel (t_checks s)) eqn:E.
      + eexists. exists [], (mkEvent Cancel (t_it s) (t_ll s) (t_prog s)). split; [reflexivity|]. constructor; tproj; auto; try discriminate.
        * intros k Hk; cbn in Hk; lia.
        * cbn [length]. lia.
        * intros k Hk; cbn in Hk; lia.
        * intros k Hk _. split; [reflexivity|lia].
        * intros _. exists (t_checks s). auto.
      + unfold terminate. tproj. destruct (h_finish h (t_m s)) as [m r] eqn:EF. destruct (C (t_m s)) as (_ & _ & _ & C4). rewrite EF in C4. cbn in C4. subst r.
        eexists. exists [], (mkEvent Done (t_it s) (t_ll s) (t_prog s)). split; [reflexivity|]. constructor; tproj; auto; try discriminate.
        * intros k Hk; cbn in Hk; lia.
        * cbn [length]. lia.
        * intros k Hk; cbn in Hk; lia.
        * intros _. cbn [length nth map]. rewrite Nat.add_0_r. exact HC.
        * intros k Hk Ck. replace k with (t_checks s) in Ck by lia. congruence.
    - cbn [em_loop]. destruct (has_converged p (t_it s) (t_ll s) old) eqn:HC.
      { unfold check_cancel. destruct (cancel (t_checks s)) eqn:E.
        + eexists. exists [], (mkEvent Cancel (t_it s) (t_ll s) (t_prog s)). split; [reflexivity|]. constructor; tproj; auto; try discriminate.
          * intros k Hk; cbn in Hk; lia.
          * cbn [length]. lia.
          * intros k Hk; cbn in Hk; lia.
          * intros k Hk _. split; [reflexivity|lia].
          * intros _. exists (t_checks s). auto.
        + unfold terminate. tproj. destruct (h_finish h (t_m s)) as [m r] eqn:EF. destruct (C (t_m s)) as (_ & _ & _ & C4). rewrite EF in C4. cbn in C4. subst r.
          eexists. exists [], (mkEvent Done (t_it s) (t_ll s) (t_prog s)). split; [reflexivity|]. constructor; tproj; auto; try discriminate.
          * intros k Hk; cbn in Hk; lia.
          * cbn [length]. lia.
          * intros k Hk; cbn in Hk; lia.
          * intros _. cbn [length nth map]. rewrite Nat.add_0_r. exact HC.
          * intros k Hk Ck. replace k with (t_checks s) in Ck by lia. congruence. }
      assert (Hlt : t_it s < 1000).
      { unfold has_converged in HC. destruct (Nat.leb_spec 1000 (t_it s)); [discriminate|lia]. }
      unfold check_cancel. destruct (cancel (t_checks s)) eqn:E.
      { eexists. exists [], (mkEvent Cancel (t_it s) (t_ll s) (t_prog s)). split; [reflexivity|]. constructor; tproj; auto; try discriminate.
        * intros k Hk; cbn in Hk; lia.
        * cbn [length]. lia.
        * intros k Hk; cbn in Hk; lia.
        * intros k Hk _. split; [reflexivity|lia].
        * intros _. exists (t_checks s). auto. }
      assert (Herr : forall s1 : tstate A M, t_it s1 = t_it s -> t_events s1 = t_events s -> t_checks s1 = S (t_checks s) ->
        (t_updates s1 = t_updates s \/ t_updates s1 = S (t_updates s)) ->
        exists s' runs last, (tnotify (tset_status Error (tset_locked false (tset_training false s1))), Returned) = (s', Returned) /\ finished s s' old runs last).
      { intros s1 H1 H2 H3 H4. eexists. exists [], (mkEvent Error (t_it s1) (t_ll s1) (t_prog s1)). split; [reflexivity|].
        constructor; tproj; auto; try discriminate.
        * rewrite H2. reflexivity.
        * intros k Hk; cbn in Hk; lia.
        * cbn [length]. lia.
        * cbn [length]. destruct H4; [left; lia|right; split; [reflexivity|lia]].
        * intros k Hk; cbn in Hk; lia.
        * intros k Hk Ck. rewrite H3 in Hk. replace k with (t_checks s) in Ck by lia. congruence. }
      tproj. destruct err.
      { cbn [orb]. apply Herr; auto. }
      destruct (h_update h (t_m s)) as [m r] eqn:EU. destruct (C (t_m s)) as (_ & _ & C3 & _). rewrite EU in C3. cbn [snd] in C3.
      destruct r as [x|e|]; [|cbn [orb]; apply Herr; auto|congruence].
      tproj. cbn [orb].
      destruct (nisnan (pct_change x (t_ll s) (t_ll s)) && (1 <? t_it s)) eqn:EN; [apply Herr; auto|].
      set (s1 := tnotify _).
      destruct (IH false (t_ll s) s1) as (s' & runs & last & E1 & F); [reflexivity || exact HS| |].
      { unfold s1. tproj. lia. }
      exists s', (mkEvent Run (S (t_it s)) x (progression p (S (t_it s))) :: runs), last. split; [exact E1|].
      destruct F as [F1 F2 F3 F4 F5 F6 F7 F8 F9 F10 F11 F12]. unfold s1 in *. tproj. rewrite HS in F1.
      constructor; auto.
      * rewrite F1. rewrite <- app_assoc. reflexivity.
      * intros k Hk. destruct k as [|k]; cbn [nth].
        -- unfold is_run. cbn [e_status e_it e_prog]. rewrite Nat.add_0_r, prog_eq. auto.
        -- cbn [length] in Hk. replace (t_it s + S k) with (S (t_it s) + k) by lia. apply F5. lia.
      * cbn [length]. lia.
      * cbn [length]. destruct F7 as [F7|(F7 & F7')]; [left; lia|right; split; [exact F7|lia]].
      * intros k Hk. destruct k as [|k].
        -- cbn [nth]. rewrite Nat.add_0_r. exact HC.
        -- cbn [length] in Hk. cbn [map e_ll]. replace (t_it s + S k) with (S (t_it s) + k) by lia.
           specialize (F8 k ltac:(lia)). exact F8.
      * intro HD. specialize (F9 HD). cbn [length map e_ll]. replace (t_it s + S (length runs)) with (S (t_it s) + length runs) by lia. exact F9.
      * intros k Hk Ck. destruct (Nat.eq_dec k (t_checks s)) as [->|Nk]; [congruence|]. apply F11; [lia|exact Ck].
      * intro HCa. destruct (F12 HCa) as (k & K1 & K2 & K3). exists k. split; [lia|auto].
  Qed.

  (** The whole of [train]. *)
  Record trained (s s' : tstate A M) (runs : list (tevent A)) (last : tevent A) : Prop := mkTrained {
    r_events : t_events s' = t_events s ++ runs ++ [last];
    r_training : t_training s' = false;
    r_locked : t_locked s' = false;
    r_status : t_status s' = e_status last;
    r_last : e_status last = Done \/ e_status last = Error \/ e_status last = Cancel;
    r_runs : forall k, k < length runs -> is_run p k (nth k runs def_event);
    r_bound : length runs <= 1000;
    r_updates : t_updates s' = t_updates s + length runs \/
                e_status last = Error /\ t_updates s' = t_updates s + S (length runs);
    r_go : forall k, k < length runs ->
      has_converged p k (nth k (lowest :: map e_ll runs) n0) (nth k (lowest :: lowest :: map e_ll runs) n0) = false;
    r_stop : e_status last = Done ->
      has_converged p (length runs) (nth (length runs) (lowest :: map e_ll runs) n0)
        (nth (length runs) (lowest :: lowest :: map e_ll runs) n0) = true;
    r_cancel_no : forall k, t_checks s <= k < t_checks s' -> cancel k = true -> e_status last = Cancel /\ S k = t_checks s';
    r_cancel_yes : e_status last = Cancel -> exists k, t_checks s <= k /\ S k = t_checks s' /\ cancel k = true
  }.

  Lemma train_finishes : caught h -> forall fuel empty s, 1000 <= fuel ->
    exists s' runs last, em_train h p cancel fuel empty s = (s', Returned) /\ trained s s' runs last.
  Proof.
    intros C fuel empty s HF. unfold em_train. tproj.
    set (alloc := if empty then _ else _).
    assert (EA : exists m, alloc = (tset_m m (tset_status Run (tset_locked true s)), Ok tt)).
    { unfold alloc. destruct empty; [exists (t_m s); reflexivity|].
      destruct (h_allocate h (t_m s)) as [m r] eqn:E. destruct (C (t_m s)) as (C1 & _). rewrite E in C1. cbn in C1. subst r. exists m. reflexivity. }
    clearbody alloc. destruct EA as (m & ->). unfold check_cancel. tproj.
    destruct (cancel (t_checks s)) eqn:E.
    { eexists. exists [], (mkEvent Cancel (t_it s) (t_ll s) (t_prog s)). split; [reflexivity|]. constructor; tproj; auto; try discriminate.
      * intros k Hk; cbn in Hk; lia.
      * cbn [length]. lia.
      * intros k Hk; cbn in Hk; lia.
      * intros k Hk _. split; [reflexivity|lia].
      * intros _. exists (t_checks s). auto. }
    set (ini := if empty then _ else _).
    assert (EI : exists m' r, ini = (tset_m m' (tset_locked true (tset_status Run (tchecked s))), r) /\ r <> UB).
    { unfold ini. destruct empty; [exists m, (Throw RuntimeError); split; [reflexivity|discriminate]|].
      destruct (C m) as (_ & C2 & _). tproj. destruct (h_init h m) as [m' r] eqn:E1. exists m', r. split; [reflexivity|exact C2]. }
    clearbody ini. destruct EI as (m' & r & -> & Nr).
    set (s1 := tset_ll _ _).
    destruct (loop_finishes C fuel (match r with Ok _ => false | _ => true end) lowest s1) as (s' & runs & last & E1 & F); [reflexivity|unfold s1; tproj; lia|].
    exists s', runs, last. split; [destruct r; [exact E1|exact E1|congruence]|].
    destruct F as [F1 F2 F3 F4 F5 F6 F7 F8 F9 F10 F11 F12]. unfold s1 in *. tproj.
    constructor; auto.
    * intros k Hk Ck. destruct (Nat.eq_dec k (t_checks s)) as [->|Nk]; [congruence|]. apply F11; [lia|exact Ck].
    * intro HCa. destruct (F12 HCa) as (k & K1 & K2 & K3). exists k. split; [lia|auto].
  Qed.

  (** Learning code that never fails ends with Done. *)
  Lemma loop_done : smooth h -> (forall n, cancel n = false) -> (forall a b : T, nisnan (pct_change a b b) = false) ->
    forall fuel old s, 1000 <= fuel + t_it s -> t_status (fst (em_loop h p cancel fuel false old s)) = Done.
  Proof.
    intros C N1 N2. induction fuel as [|fuel IH]; intros old s HF.
    - assert (HC : has_converged p (t_it s) (t_ll s) old = true).
      { unfold has_converged. replace (1000 <=? t_it s) with true by (symmetry; apply Nat.leb_le; lia). reflexivity. }
      cbn [em_loop]. rewrite HC. unfold check_cancel. rewrite N1. unfold terminate. tproj.
      destruct (h_finish h (t_m s)) as [m r] eqn:EF. destruct (C (t_m s)) as (_ & _ & _ & C4). rewrite EF in C4. cbn in C4. subst r. reflexivity.
    - cbn [em_loop]. destruct (has_converged p (t_it s) (t_ll s) old) eqn:HC; unfold check_cancel; rewrite N1; tproj.
      + unfold terminate. tproj.
        destruct (h_finish h (t_m s)) as [m r] eqn:EF. destruct (C (t_m s)) as (_ & _ & _ & C4). rewrite EF in C4. cbn in C4. subst r. reflexivity.
      + destruct (h_update h (t_m s)) as [m r] eqn:EU. destruct (C (t_m s)) as (_ & _ & (x & C3) & _). rewrite EU in C3. cbn [snd] in C3. subst r.
        tproj. rewrite N2. cbn [andb orb]. apply IH. tproj. lia.
  Qed.

  Lemma train_done : smooth h -> (forall n, cancel n = false) -> (forall a b : T, nisnan (pct_change a b b) = false) ->
    forall fuel s, 1000 <= fuel -> t_status (fst (em_train h p cancel fuel false s)) = Done.
  Proof.
    intros C N1 N2 fuel s HF. unfold em_train. tproj.
    destruct (h_allocate h (t_m s)) as [m r] eqn:E. destruct (C (t_m s)) as (C1 & _). rewrite E in C1. cbn in C1. subst r.
    unfold check_cancel. rewrite N1. tproj. destruct (h_init h m) as [m' r] eqn:E1. destruct (C m) as (_ & C2 & _). rewrite E1 in C2. cbn in C2. subst r.
    apply loop_done; auto. tproj. lia.
  Qed.

  (** The stopping rule. *)
  Lemma converged_rule : forall n ll old, has_converged p n ll old = true <-> stop_rule p n old ll.
  Proof.
    intros n ll old. unfold has_converged, stop_rule, pct_change. destruct (Nat.leb_spec 1000 n); [split; auto|].
    destruct (Nat.leb_spec (em_min p) (em_max p)).
    - rewrite Nat.leb_le. split; [auto|]. intros [?|[?|?]]; lia.
    - rewrite andb_true_iff, Nat.leb_le. split; [intros (? & ?); right; right; repeat split; auto; lia|].
      intros [?|[?|(_ & ? & ?)]]; [lia|lia|auto].
  Qed.

  Lemma done_rule : forall s s' runs last, 1 <= em_min p -> trained s s' runs last ->
    (forall k, 1 <= k < length runs -> ~ stop_rule p k (nth (k - 1) (lowest :: map e_ll runs) n0) (nth k (lowest :: map e_ll runs) n0)) /\
    (e_status last = Done -> 1 <= length runs /\
       stop_rule p (length runs) (nth (length runs - 1) (lowest :: map e_ll runs) n0) (nth (length runs) (lowest :: map e_ll runs) n0)).
  Proof.
    intros s s' runs last Hm [_ _ _ _ _ _ _ _ G S _ _]. split.
    - intros k Hk R. apply converged_rule in R. specialize (G k ltac:(lia)). destruct k as [|k]; [lia|].
      replace (Datatypes.S k - 1) with k in R by lia. cbn [nth] in *. congruence.
    - intro D. specialize (S D). apply converged_rule in S. destruct (length runs) as [|n] eqn:En.
      + exfalso. destruct S as [?|[?|(? & ? & _)]]; lia.
      + split; [lia|]. replace (Datatypes.S n - 1) with n by lia. exact S.
  Qed.

  Lemma fixed_count : forall s s' runs last, 1 <= em_min p -> em_min p <= em_max p -> trained s s' runs last -> e_status last = Done ->
    length runs = Nat.min (em_max p) 1000.
  Proof.
    intros s s' runs last H1 H2 T D. destruct (done_rule _ _ _ _ H1 T) as (G & S). destruct (S D) as (L & R).
    assert (U : length runs <= Nat.min (em_max p) 1000).
    { destruct (le_lt_dec (length runs) (Nat.min (em_max p) 1000)) as [|Hlt]; [assumption|exfalso].
      apply (G (Nat.min (em_max p) 1000)); [lia|]. unfold stop_rule. lia. }
    destruct R as [?|[?|?]]; lia.
  Qed.

  Lemma moving_count : forall s s' runs last, 1 <= em_min p -> em_max p < em_min p -> trained s s' runs last -> e_status last = Done ->
    Nat.min (em_min p) 1000 <= length runs <= 1000.
  Proof.
    intros s s' runs last H1 H2 T D. destruct (done_rule _ _ _ _ H1 T) as (G & S). destruct (S D) as (L & R).
    split; [|apply (r_bound _ _ _ _ T)]. destruct R as [?|[?|?]]; lia.
  Qed.

  Lemma runs_fraction : forall s s' runs last, 1 <= em_min p -> em_min p <= em_max p -> trained s s' runs last ->
    length runs <= em_max p.
  Proof.
    intros s s' runs last H1 H2 T. destruct (done_rule _ _ _ _ H1 T) as (G & _).
    destruct (le_lt_dec (length runs) (em_max p)) as [|Hlt]; [assumption|exfalso]. apply (G (em_max p)); [lia|]. unfold stop_rule. lia.
  Qed.
End Train.
