(** The training protocol always comes to an end: every step of every thread decreases a measure. *)
From Coq Require Import List Bool Arith ZArith Lia.
From Verif Require Import Base Model_Train Model_Life Proofs_Life.
Import ListNotations.
Local Open Scope nat_scope.

Definition crank (p : cpc) : nat :=
  match p with
  | CNew => 70 | CStart => 61 | CLoop => 60 | CWork => 59 | CErr => 58 | CErr2 => 57
  | CNotify Run => 65 | CFwd Run => 64 | CUnlock Run => 63
  | CNotify _ => 56 | CFwd _ => 55 | CDec _ => 54 | CDecW _ _ => 53 | CFlag _ => 52 | CChk1 _ => 51 | CChk2 _ => 50
  | CChk3 _ => 49 | CSpawn _ => 48 | CSpawn2 _ => 47 | CUnlock _ => 10 | CFin _ => 9 | CEnd _ => 0
  end.
Definition cweight (c : cls) : nat := 10 * k_left c + crank (k_pc c) + (if k_thr c then 3 else 0).
Definition jrank (j : jpc) : nat :=
  match j with
  | J0 => 30 | J1 => 29 | J2 => 28 | J3 _ => 27 | J4 => 26 | J5 => 25 | J6 => 24 | J7 => 23 | J8 => 22 | J9 => 21
  | JSpin => 5 | JThrow => 0 | JEnd => 0
  end.
Definition mrank (n : nat) (m : mpc) : nat :=
  match m with
  | MFlag i => 10 * (n - i) + 4 * n + 130
  | MCanc i => 10 * (n - i) + 4 * n + 129
  | MCnt i => 10 * (n - i) + 4 * n + 128
  | MCntW i _ => 10 * (n - i) + 4 * n + 127
  | MSpawn i => 10 * (n - i) + 4 * n + 126
  | MJoin j => 4 * n + 90 + jrank j
  | MRet => 4 * n + 80
  | X0 => 4 * n + 79
  | XReq i => 4 * (n - i) + 75
  | XSet i => 4 * (n - i) + 74
  | XWait i => 4 * (n - i) + 73
  | XJoin j => 40 + jrank j
  | XFin => 1
  | MEnd => 0
  end.
Definition lsum {X} (f : X -> nat) (l : list X) : nat := fold_right (fun x n => f x + n) 0 l.
Definition work (s : sys) : nat := lsum cweight (s_cls s) + lsum jrank (s_join s) + mrank (length (s_cls s)) (s_main s).

Lemma lsum_lset : forall {X} (f : X -> nat) l i x y, nth_error l i = Some y -> lsum f (lset l i x) + f y = lsum f l + f x.
Proof.
  intros X f. induction l as [|z l IH]; intros [|i] x y H; cbn in *; try discriminate.
  - injection H as ->. lia.
  - specialize (IH i x y H). unfold lsum in IH. lia.
Qed.
Lemma lsum_app : forall {X} (f : X -> nat) l l', lsum f (l ++ l') = lsum f l + lsum f l'.
Proof. intros X f l l'. unfold lsum. induction l as [|x l IH]; cbn; [reflexivity|rewrite IH; lia]. Qed.

Lemma erase_weight : forall l, lsum cweight (map erase_failed l) = lsum cweight l.
Proof.
  assert (E : forall c, cweight (erase_failed c) = cweight c) by (intro c; unfold erase_failed, cweight; destruct (k_status c); reflexivity).
  unfold lsum. induction l as [|c l IH]; [reflexivity|]. cbn [map fold_right]. rewrite IH, E. reflexivity.
Qed.

Lemma work_class : forall bg i s s', uinv s -> step_class bg i s = Some s' -> work s' < work s.
Proof.
  intros bg i s s' U H. unfold step_class in H. destruct (nth_error (s_cls s) i) as [c|] eqn:Hn; [|discriminate].
  destruct (ui_cls _ U i c Hn) as [UM US (UO & UO') UL UN UT].
  assert (G : forall c' js, cweight c' + lsum jrank js < cweight c + lsum jrank (s_join s) ->
    lsum cweight (lset (s_cls s) i c') + lsum jrank js + mrank (length (lset (s_cls s) i c')) (s_main s) <
    lsum cweight (s_cls s) + lsum jrank (s_join s) + mrank (length (s_cls s)) (s_main s)).
  { intros c' js HW. pose proof (lsum_lset cweight _ _ c' _ Hn). rewrite lset_length. lia. }
  unfold work. rewrite ?(at_cls_some _ _ _ _ Hn) in H.
  destruct (k_pc c) eqn:Ep; try discriminate;
    repeat match type of H with
    | context [if ?b then _ else _] => destruct b eqn:?
    | context [match ?x with O => _ | S _ => _ end] => destruct x eqn:?
    | context [match s_mutex ?s with _ => _ end] => destruct (s_mutex s) eqn:?
    end; try discriminate;
    rewrite ?(at_cls_some _ _ _ _ Hn) in H; injection H as <-; unfold with_cls, with_mutex, with_count, with_joining, with_join, emit; sproj;
    apply G; rewrite ?lsum_app; unfold cweight; kproj; rewrite Ep; cbn [lsum fold_right jrank];
    repeat match goal with |- context [if k_thr c then _ else _] => destruct (k_thr c) end;
    try (cbn [crank]; try destruct st; cbn [is_run_status crank] in *; rewrite ?Heqn; try discriminate; lia).
  all: destruct st; try (exfalso; apply (UO' eq_refl Run); reflexivity); cbn [crank]; lia.
Qed.

Lemma work_join : forall b j s s1 j' (Hs : step_join b j s = Some (s1, j')),
  lsum cweight (s_cls s1) + jrank j' < lsum cweight (s_cls s) + jrank j /\ length (s_cls s1) = length (s_cls s).
Proof.
  intros b j s s1 j' H. unfold step_join in H.
  destruct j.
  4:{ destruct (nth_error (s_cls s) i) as [c|] eqn:E1; [|discriminate]. destruct (k_thr c) eqn:E2; [|discriminate].
      rewrite (at_cls_some _ _ _ _ E1) in H. injection H as <- <-. unfold with_cls. sproj. rewrite lset_length.
      pose proof (lsum_lset cweight _ _ (set_thr false c) _ E1) as HL. cbn [jrank]. unfold cweight in HL at 2 4. kproj. rewrite E2 in HL. split; [lia|reflexivity]. }
  4:{ injection H as <- <-. unfold with_cls. sproj. rewrite erase_weight, map_length. cbn [jrank]. lia. }
  all: repeat match type of H with
    | context [if ?b then _ else _] => destruct b
    | context [match ?x with Some _ => _ | None => _ end] => destruct x eqn:?
    | context [match k_pc ?x with _ => _ end] => destruct (k_pc x)
    end; try discriminate; injection H as <- <-; unfold with_joining, with_training, emit; sproj; cbn [jrank]; lia.
Qed.

Lemma work_main : forall bg ca b s s', uinv s -> step_main bg ca b s = Some s' -> work s' < work s.
Proof.
  intros bg ca b s s' U H. unfold step_main in H. pose proof (ui_main _ U) as (Hb & Hm). unfold work.
  assert (G : forall m, mrank (length (s_cls s)) m < mrank (length (s_cls s)) (s_main s) ->
    lsum cweight (s_cls s) + lsum jrank (s_join s) + mrank (length (s_cls s)) m < lsum cweight (s_cls s) + lsum jrank (s_join s) + mrank (length (s_cls s)) (s_main s)) by (intros; lia).
  assert (K : forall i f m, (forall c, cweight (f c) <= cweight c) -> mrank (length (s_cls s)) m < mrank (length (s_cls s)) (s_main s) ->
    lsum cweight (s_cls (at_cls i f s)) + lsum jrank (s_join (at_cls i f s)) + mrank (length (s_cls (at_cls i f s))) m < lsum cweight (s_cls s) + lsum jrank (s_join s) + mrank (length (s_cls s)) (s_main s)).
  { intros i f m Hf Hr. unfold at_cls. destruct (nth_error (s_cls s) i) as [c|] eqn:E; sproj; [|lia]. rewrite lset_length.
    pose proof (lsum_lset cweight _ _ (f c) _ E). specialize (Hf c). lia. }
  destruct (s_main s) eqn:Em.
  - destruct (Nat.ltb_spec i (length (s_cls s))); injection H as <-; unfold with_main; sproj; [apply K|apply G].
    + intros c. unfold cweight. kproj. lia.
    + cbn [mrank]. lia.
    + destruct bg; cbn [mrank jrank]; lia.
  - injection H as <-. unfold with_main. sproj. apply K; [intros c; unfold cweight; kproj; lia|cbn [mrank]; lia].
  - injection H as <-. unfold with_main. sproj. apply G. cbn [mrank]. lia.
  - injection H as <-. unfold with_main, with_count. sproj. apply G. cbn [mrank]. lia.
  - destruct (nth_error (s_cls s) i) as [c|] eqn:Hn; [|apply nth_error_None in Hn; lia].
    rewrite (at_cls_some _ _ _ _ Hn) in H. injection H as <-. unfold with_main, with_cls. sproj. rewrite lset_length.
    destruct (ui_cls _ U i c Hn) as [UM US UO UL UN UT]. rewrite Em in UL. cbn [lbound] in UL.
    assert (Hnew : k_pc c = CNew) by (destruct (k_pc c); try reflexivity; exfalso; assert (i < i) by (apply UL; discriminate); lia).
    match goal with |- context [lset (s_cls s) i ?c'] => pose proof (lsum_lset cweight _ _ c' _ Hn) as HL end.
    unfold cweight in HL at 2 4. kproj. rewrite Hnew, (UN Hnew) in HL. cbn [crank] in HL. cbn [mrank]. lia.
  - assert (Hs : j = JEnd \/ exists s1 j', step_join b j s = Some (s1, j') /\ s' = with_main (MJoin j') s1).
    { destruct j; auto; right; destruct (step_join b _ s) as [[s1 j']|]; try discriminate; injection H as <-; eauto. }
    destruct Hs as [->|(s1 & j' & E & ->)].
    + injection H as <-. unfold with_main. sproj. apply G. cbn [mrank jrank]. lia.
    + destruct (work_join _ _ _ _ _ E) as (W1 & W2). destruct (step_join_keeps _ _ _ _ _ E) as (K1 & K2). unfold with_main. sproj. rewrite K2, W2. cbn [mrank]. lia.
  - destruct ca; [|discriminate]. injection H as <-. unfold with_main. sproj. apply G. cbn [mrank]. lia.
  - injection H as <-. unfold with_main. sproj. apply G. destruct (s_training s); cbn [mrank]; lia.
  - destruct (Nat.ltb_spec i (length (s_cls s))); [destruct (alive_at s i)|]; injection H as <-; unfold with_main, with_creq; sproj; apply G; cbn [mrank jrank]; lia.
  - injection H as <-. unfold with_main. sproj. apply K; [|cbn [mrank]; lia]. intros c. unfold cweight. destruct (k_flag c); kproj; lia.
  - destruct (nth_error (s_cls s) i) as [c|] eqn:Hn; [|discriminate]. assert (i < length (s_cls s)) by (apply nth_error_Some; congruence).
    destruct (k_flag c); [discriminate|]. injection H as <-. unfold with_main. sproj. apply G. cbn [mrank]. lia.
  - assert (Hs : j = JEnd \/ exists s1 j', step_join b j s = Some (s1, j') /\ s' = with_main (XJoin j') s1).
    { destruct j; auto; right; destruct (step_join b _ s) as [[s1 j']|]; try discriminate; injection H as <-; eauto. }
    destruct Hs as [->|(s1 & j' & E & ->)].
    + injection H as <-. unfold with_main. sproj. apply G. cbn [mrank jrank]. lia.
    + destruct (work_join _ _ _ _ _ E) as (W1 & W2). destruct (step_join_keeps _ _ _ _ _ E) as (K1 & K2). unfold with_main. sproj. rewrite K2, W2. cbn [mrank]. lia.
  - injection H as <-. unfold with_main, with_creq. sproj. apply G. cbn [mrank]. lia.
  - discriminate.
Qed.

Lemma work_step : forall bg ca t b s s', uinv s -> step bg ca t b s = Some s' -> work s' < work s.
Proof.
  intros bg ca [|i|k] b s s' U H; cbn [step] in H.
  - exact (work_main bg ca b s s' U H).
  - exact (work_class bg i s s' U H).
  - destruct (nth_error (s_join s) k) as [j|] eqn:Ek; [|discriminate]. destruct (step_join b j s) as [[s1 j']|] eqn:E; [|discriminate].
    injection H as <-. destruct (work_join _ _ _ _ _ E) as (W1 & W2). destruct (step_join_keeps _ _ _ _ _ E) as (K1 & K2).
    unfold work, with_join. sproj. rewrite K1, K2, W2. pose proof (lsum_lset jrank _ _ j' _ Ek). lia.
Qed.
