(** Proofs about phrases, continued: histories, exceptions, emptiness. *)
From Coq Require Import String List Bool Arith Lia ZArith.
From Verif Require Import Base BaseFacts Arith Model_Attribute Model_Events Model_Json Model_Phrase Spec_Phrase.
From Verif Require Import Proofs_Phrase.
Import ListNotations.
Local Open Scope nat_scope.

Section PhraseHistories.
  Context {A : arith}.
  Local Notation T := (num A).
  Local Notation block := (block (A:=A)).
  Local Notation phrase := (phrase (A:=A)).

  Lemma rep_shows : forall (p : phrase) s, rep p s -> shows p s.
  Proof.
    intros p s (Hown & Hbim & Hdim & Hdin & Hdm & Him & Hix & Hl & Hd).
    repeat split; auto; try (intro Eb; rewrite Eb in Hd; tauto).
    { rewrite H in Hd. apply Hd. }
    { rewrite H in Hd. apply Hd. }
    intros i d. unfold getValue, spec_value. rewrite Hbim, Hdim, Hdin.
    destruct (Nat.leb_spec (s_dim s) d); [reflexivity|].
    destruct (s_bim s) eqn:Eb.
    - destruct Hd as (Hi & Ho & Hle & Hmle & H0 & H1).
      destruct (Nat.ltb_spec d (s_din s)).
      + rewrite Hi. destruct (Nat.leb_spec (length (s_in s)) i).
        * rewrite (proj2 (nth_error_None _ _)); auto.
        * destruct (nth_error (s_in s) i) as [x|] eqn:Ex.
          2: { apply nth_error_None in Ex. lia. }
          destruct (rdb_holds _ _ _ _ i d x H0 Ex) as (y & E1 & E2); [lia|].
          rewrite E1, E2. reflexivity.
      + rewrite Ho. destruct (Nat.leb_spec (length (s_out s)) i).
        * rewrite (proj2 (nth_error_None _ _)); auto.
        * destruct (nth_error (s_out s) i) as [x|] eqn:Ex.
          2: { apply nth_error_None in Ex. lia. }
          unfold usub. rewrite (proj2 (Nat.leb_le _ _)) by lia. cbn [bind].
          destruct (rdb_holds _ _ _ _ i (d - s_din s) x H1 Ex) as (y & E1 & E2); [lia|].
          replace (i * (s_dim s - s_din s) + d - s_din s) with (i * (s_dim s - s_din s) + (d - s_din s))
            by (apply Nat.add_sub_assoc; lia).
          rewrite E1, E2. reflexivity.
    - destruct Hd as (H0 & Ho).
      rewrite Hl. unfold spec_size. rewrite Eb. destruct (Nat.leb_spec (length (s_in s)) i).
      + rewrite (proj2 (nth_error_None _ _)); auto.
      + destruct (nth_error (s_in s) i) as [x|] eqn:Ex.
        2: { apply nth_error_None in Ex. lia. }
        destruct (rdb_holds _ _ _ _ i d x H0 Ex) as (y & E1 & E2); [lia|].
        rewrite E1, E2. reflexivity.
  Qed.

  Lemma spec_step_safe : forall (s : contents A) o, snd (spec_step s o) <> UB.
  Proof.
    intros s o. destruct o; simpl; repeat match goal with |- context [if ?b then _ else _] => destruct b end;
      discriminate.
  Qed.

  Lemma rep_run : forall ops (p : phrase) s s' outs,
    rep p s -> dims_fit s ops -> spec_run s ops = (s', outs) ->
    exists p', phrase_run false p ops = Ok (p', outs) /\ rep p' s'.
  Proof.
    induction ops as [|o ops IH]; intros p s s' outs H Hf Hr.
    - simpl in Hr. inversion Hr; subst. exists p. split; auto.
    - cbn [spec_run] in Hr. destruct (spec_step s o) as (s1, out) eqn:E1.
      destruct (spec_run s1 ops) as (s2, outs2) eqn:E2. inversion Hr; subst s2 outs; clear Hr.
      cbn [dims_fit] in Hf. destruct Hf as (Hfo & Hf). rewrite E1 in Hf. cbn [fst] in Hf.
      destruct (rep_step p s o s1 out H) as (p1 & S1 & R1); auto.
      destruct (IH p1 s1 s' outs2 R1 Hf E2) as (p2 & S2 & R2).
      exists p2. split; auto. cbn [phrase_run]. rewrite S1.
      pose proof (spec_step_safe s o) as Hsafe. rewrite E1 in Hsafe. cbn [snd] in Hsafe.
      rewrite S2. destruct out; cbn [bind]; auto. congruence.
  Qed.

  Lemma phrase_history : forall bim ops (s : contents A) outs,
    dims_fit (contents_new bim) ops -> spec_run (contents_new bim) ops = (s, outs) ->
    exists p, phrase_run false (phrase_new true bim) ops = Ok (p, outs) /\ shows p s.
  Proof.
    intros bim ops s outs Hf Hr.
    destruct (rep_run ops _ _ s outs (rep_new bim) Hf Hr) as (p & E & R).
    exists p. split; auto. apply rep_shows. auto.
  Qed.

  Lemma sbind_inv : forall {S X Y} (m : stm S X) (f : X -> stm S Y) s s' y,
    sbind m f s = (s', Ok y) -> exists s1 x, m s = (s1, Ok x) /\ f x s1 = (s', Ok y).
  Proof.
    intros S X Y m f s s' y H. unfold sbind in H. destruct (m s) as (s1, [x|e|]); try discriminate. eauto.
  Qed.

  (** C17: every exception is thrown before anything is modified. *)
  Lemma reallocateLength_no_throw : forall (p p' : phrase) e, reallocateLength p <> (p', Throw e).
  Proof.
    intros p p' e H. unfold reallocateLength in H. unfold sbind, sget, slift, smod, swhen, sret in H.
    assert (Hr : forall b n m e, reallocate (A:=A) b n m <> Throw e).
    { intros b n m e0. unfold reallocate, cells_of. destruct b; try discriminate.
      cbv zeta. repeat match goal with |- context [if ?b then _ else _] => destruct b end; cbn [bind]; discriminate. }
    pset.
    destruct (reallocate (p_d0 p) _ _) eqn:E0; try (eapply Hr; eassumption); [|discriminate].
    destruct (p_bim p); [|discriminate].
    unfold usub in H. destruct (p_din p <=? p_dim p); [|discriminate]. pset.
    destruct (reallocate (p_d1 p) _ _) eqn:E1; try (eapply Hr; eassumption); discriminate.
  Qed.

  Lemma copy_to_no_throw : forall x b off e, copy_to (A:=A) b off x <> Throw e.
  Proof.
    induction x; simpl; intros b off e; [discriminate|].
    unfold wrb, wr. destruct b; cbn [bind]; try discriminate.
    destruct (off <? length cells); cbn [bind]; [apply IHx|discriminate].
  Qed.

  Lemma sbind_throw : forall {S X Y} (m : stm S X) (f : X -> stm S Y) s s' e,
    sbind m f s = (s', Throw e) ->
    m s = (s', Throw e) \/ exists s1 x, m s = (s1, Ok x) /\ f x s1 = (s', Throw e).
  Proof.
    intros S X Y m f s s' e H. unfold sbind in H.
    destruct (m s) as (s1, [x|e1|]); [right; eauto|left|discriminate]. inversion H. reflexivity.
  Qed.

  Lemma swhen_throw : forall b (p p' : phrase) e, swhen b reallocateLength p <> (p', Throw e).
  Proof. intros [] p p' e H; [eapply reallocateLength_no_throw; eauto|discriminate]. Qed.

  Ltac nothrow := repeat match goal with
    | H : sbind _ _ _ = (_, Throw _) |- _ =>
        apply sbind_throw in H; destruct H as [H | (?s1 & ?x & ?E1 & H)]
    | H : smod _ _ = (_, Throw _) |- _ => discriminate
    | H : sget _ = (_, Throw _) |- _ => discriminate
    | H : sret _ _ = (_, Throw _) |- _ => discriminate
    | H : trim _ = (_, Throw _) |- _ => unfold trim in H
    | H : (if ?b then _ else _) _ = (_, Throw _) |- _ => destruct b
    | H : swhen _ reallocateLength _ = (_, Throw _) |- _ => exfalso; eapply swhen_throw; exact H
    | H : slift (copy_to _ _ _) _ = (_, Throw _) |- _ => 
        exfalso; unfold slift in H; inversion H; eapply copy_to_no_throw; eassumption
    | H : slift (slice _ _ _) _ = (_, Throw _) |- _ =>
        unfold slift, slice in H; match type of H with context [if ?b then _ else _] => destruct b end; discriminate
    | H : slift (usub _ _) _ = (_, Throw _) |- _ =>
        unfold slift, usub in H; match type of H with context [if ?b then _ else _] => destruct b end; discriminate
    end.

  Lemma sget_eq : forall {S} (s s' : S) x, sget s = (s', Ok x) -> s' = s /\ x = s.
  Proof. unfold sget. intros. inversion H. auto. Qed.

  Lemma phrase_throw_unchanged : forall strict o (p p' : phrase) e,
    phrase_step strict o p = (p', Throw e) -> p' = p.
  Proof.
    intros strict o p p' e H. destruct o as [x|x|x| | | |n|n]; unfold phrase_step in H.
    - unfold record in H. apply sbind_throw in H. destruct H as [H|(s1 & q & E & H)]; [discriminate|].
      apply sget_eq in E. destruct E; subst s1 q.
      destruct (negb (p_own p)); [inversion H; auto|].
      destruct (p_bim p && negb (p_ilen p =? p_olen p)); [inversion H; auto|].
      destruct (negb (length x =? p_dim p)); [inversion H; auto|]. exfalso. nothrow.
    - unfold record_input in H. apply sbind_throw in H. destruct H as [H|(s1 & q & E & H)]; [discriminate|].
      apply sget_eq in E. destruct E; subst s1 q.
      destruct (negb (p_own p)); [inversion H; auto|].
      destruct (negb (p_bim p)); [inversion H; auto|].
      destruct (negb (length x =? p_din p)); [inversion H; auto|]. exfalso. nothrow.
    - unfold record_output in H. apply sbind_throw in H. destruct H as [H|(s1 & q & E & H)]; [discriminate|].
      apply sget_eq in E. destruct E; subst s1 q.
      destruct (negb (p_own p)); [inversion H; auto|].
      destruct (negb (p_bim p)); [inversion H; auto|].
      apply sbind_throw in H. destruct H as [H|(s1 & od & E & H)]; [nothrow|].
      unfold slift in E. inversion E; subst s1.
      destruct (negb (length x =? od)); [inversion H; auto|]. exfalso. nothrow.
    - unfold clear in H. apply sbind_throw in H. destruct H as [H|(s1 & q & E & H)]; [discriminate|].
      apply sget_eq in E. destruct E; subst s1 q.
      destruct (negb (p_own p)); [inversion H; auto|]. discriminate.
    - unfold clearInput in H. apply sbind_throw in H. destruct H as [H|(s1 & q & E & H)]; [discriminate|].
      apply sget_eq in E. destruct E; subst s1 q.
      destruct (negb (p_own p)); [inversion H; auto|]. exfalso. unfold swhen in H. nothrow.
    - unfold clearOutput in H. apply sbind_throw in H. destruct H as [H|(s1 & q & E & H)]; [discriminate|].
      apply sget_eq in E. destruct E; subst s1 q.
      destruct (negb (p_own p)); [inversion H; auto|]. exfalso. unfold swhen in H. nothrow.
    - unfold set_dimension in H. apply sbind_throw in H. destruct H as [H|(s1 & q & E & H)]; [discriminate|].
      apply sget_eq in E. destruct E; subst s1 q.
      apply sbind_throw in H. destruct H as [H|(s1 & od & E & H)]; [inversion H; auto|].
      exfalso. unfold on_dim_change, swhen in H. nothrow.
      all: unfold slift, delete_scalar in H;
        repeat match type of H with context [match ?b with _ => _ end] => destruct b end; discriminate.
    - unfold set_dimension_input in H. apply sbind_throw in H. destruct H as [H|(s1 & q & E & H)]; [discriminate|].
      apply sget_eq in E. destruct E; subst s1 q.
      apply sbind_throw in H. destruct H as [H|(s1 & od & E & H)]; [inversion H; auto|].
      exfalso. unfold on_dim_change, swhen in H. nothrow.
      all: unfold slift, delete_scalar in H;
        repeat match type of H with context [match ?b with _ => _ end] => destruct b end; discriminate.
  Qed.

  (** What is rejected, and how. *)
  Lemma phrase_rejects : forall strict (p : phrase) x,
    (p_own p = false ->
       phrase_step strict (PRecord x) p = (p, Throw RuntimeError) /\
       phrase_step strict (PRecordIn x) p = (p, Throw RuntimeError) /\
       phrase_step strict (PRecordOut x) p = (p, Throw RuntimeError) /\
       phrase_step strict PClear p = (p, Throw RuntimeError)) /\
    (p_own p = true -> p_bim p = false ->
       phrase_step strict (PRecordIn x) p = (p, Throw RuntimeError) /\
       phrase_step strict (PRecordOut x) p = (p, Throw RuntimeError) /\
       (length x <> p_dim p -> phrase_step strict (PRecord x) p = (p, Throw InvalidArgument))) /\
    (p_own p = true -> p_bim p = true ->
       (p_ilen p <> p_olen p -> phrase_step strict (PRecord x) p = (p, Throw RuntimeError)) /\
       (p_ilen p = p_olen p -> length x <> p_dim p ->
          phrase_step strict (PRecord x) p = (p, Throw InvalidArgument)) /\
       (length x <> p_din p -> phrase_step strict (PRecordIn x) p = (p, Throw InvalidArgument)) /\
       (p_din p <= p_dim p -> length x <> p_dim p - p_din p ->
          phrase_step strict (PRecordOut x) p = (p, Throw InvalidArgument))).
  Proof.
    intros strict p x. unfold phrase_step, record, record_input, record_output, clear.
    split; [|split].
    - intros Ho. repeat split; unfold sbind, sget; rewrite Ho; reflexivity.
    - intros Ho Hb. repeat split; try intro Hx; unfold sbind, sget; rewrite Ho, Hb; try reflexivity.
      cbn [negb andb]. apply Nat.eqb_neq in Hx. rewrite Hx. reflexivity.
    - intros Ho Hb. repeat split; intro Hx; try intro Hy; unfold sbind, sget; rewrite Ho, Hb; cbn [negb andb].
      + apply Nat.eqb_neq in Hx. rewrite Hx. reflexivity.
      + rewrite Hx, Nat.eqb_refl. cbn [negb]. apply Nat.eqb_neq in Hy. rewrite Hy. reflexivity.
      + apply Nat.eqb_neq in Hx. rewrite Hx. reflexivity.
      + unfold slift, usub. rewrite (proj2 (Nat.leb_le _ _)) by auto.
        apply Nat.eqb_neq in Hy. rewrite Hy. reflexivity.
  Qed.

  (** C18 *)
  Definition partial_clear (o : pop (A:=A)) : bool :=
    match o with PClearIn | PClearOut => true | _ => false end.

  Lemma empty_step : forall (p : phrase) s o s' p',
    rep p s -> rep p' s' -> spec_step s o = (s', Ok tt) -> phrase_step false o p = (p', Ok tt) ->
    p_empty p = spec_empty s -> s_bim s = true \/ partial_clear o = false ->
    p_empty p' = spec_empty s'.
  Proof.
    intros p s o s' p' H H' Hs Hp He Hc.
    pose proof H as (Hown & Hbim & Hdim & Hdin & Hdm & Him & Hix & Hl & Hd).
    assert (Hset : forall m1 : stm phrase unit, sbind m1 (fun _ => smod (set_empty false)) p = (p', Ok tt) -> p_empty p' = false).
    { intros m1 Hm. apply sbind_inv in Hm. destruct Hm as (s1 & [] & _ & E). inversion E. reflexivity. }
    destruct o as [x|x|x| | | |n|n]; simpl in Hs; unfold phrase_step in Hp.
    - unfold record in Hp. apply sbind_inv in Hp. destruct Hp as (q & q' & E & Hp).
      apply sget_eq in E. destruct E; subst q q'.
      destruct (negb (p_own p)); [discriminate|].
      destruct (p_bim p && negb (p_ilen p =? p_olen p)); [discriminate|].
      destruct (negb (length x =? p_dim p)); [discriminate|].
      apply sbind_inv in Hp. destruct Hp as (q1 & [] & _ & Hp).
      apply sbind_inv in Hp. destruct Hp as (q2 & [] & _ & Hp).
      apply sbind_inv in Hp. destruct Hp as (q3 & [] & _ & Hp).
      inversion Hp. subst p'. cbn.
      destruct (s_bim s).
      + do 2 (match type of Hs with context [if ?b then _ else _] => destruct b end; [discriminate|]). inversion Hs. unfold spec_empty. cbn.
        destruct (s_in s); reflexivity.
      + (match type of Hs with context [if ?b then _ else _] => destruct b end; [discriminate|]). inversion Hs. unfold spec_empty. cbn. destruct (s_in s); reflexivity.
    - unfold record_input in Hp. apply sbind_inv in Hp. destruct Hp as (q & q' & E & Hp).
      apply sget_eq in E. destruct E; subst q q'.
      destruct (negb (p_own p)); [discriminate|].
      destruct (negb (p_bim p)); [discriminate|].
      destruct (negb (length x =? p_din p)); [discriminate|].
      do 5 (apply sbind_inv in Hp; destruct Hp as (? & ? & _ & Hp)).
      apply sbind_inv in Hp. destruct Hp as (? & ? & _ & Hp).
      inversion Hp. subst p'. cbn.
      do 2 (match type of Hs with context [if ?b then _ else _] => destruct b end; [discriminate|]). inversion Hs. unfold spec_empty. cbn.
      destruct (s_in s); reflexivity.
    - unfold record_output in Hp. apply sbind_inv in Hp. destruct Hp as (q & q' & E & Hp).
      apply sget_eq in E. destruct E; subst q q'.
      destruct (negb (p_own p)); [discriminate|].
      destruct (negb (p_bim p)); [discriminate|].
      apply sbind_inv in Hp; destruct Hp as (? & ? & _ & Hp).
      match type of Hp with context [if ?b then _ else _] => destruct b end; [discriminate|].
      do 5 (apply sbind_inv in Hp; destruct Hp as (? & ? & _ & Hp)).
      apply sbind_inv in Hp. destruct Hp as (? & ? & _ & Hp).
      inversion Hp. subst p'. cbn.
      do 2 (match type of Hs with context [if ?b then _ else _] => destruct b end; [discriminate|]). inversion Hs. unfold spec_empty. cbn.
      destruct (s_in s); destruct (s_out s); reflexivity.
    - inversion Hs; subst s'. unfold clear, sbind, sget, smod in Hp. rewrite Hown in Hp. cbn in Hp.
      inversion Hp. reflexivity.
    - inversion Hs; subst s'. unfold clearInput, trim, sbind, sget, smod, swhen, sret in Hp. rewrite Hown, Hbim in Hp.
      cbn [negb] in Hp. destruct Hc as [Hc|Hc]; [|discriminate]. rewrite Hc in *. cbn [negb] in Hp. pset.
      rewrite Hbim in Hp. inversion Hp. pset.
      destruct Hd as (Hi & Ho & _). unfold spec_empty. cbn. rewrite Ho. destruct (s_out s); reflexivity.
    - inversion Hs; subst s'. unfold clearOutput, trim, sbind, sget, smod, swhen, sret in Hp. rewrite Hown, Hbim in Hp.
      cbn [negb] in Hp. destruct Hc as [Hc|Hc]; [|discriminate]. rewrite Hc in *. cbn [negb] in Hp. pset.
      rewrite Hbim in Hp. inversion Hp. pset.
      destruct Hd as (Hi & Ho & _). unfold spec_empty. cbn. rewrite Hi. destruct (s_in s); reflexivity.
    - match type of Hs with context [if ?b then _ else _] => destruct b end; [discriminate|]. inversion Hs; subst s'. unfold spec_empty. cbn.
      unfold set_dimension, on_dim_change, sbind, sget, smod, swhen, sret, slift in Hp.
      destruct (checkLimits _ _ _ _); try discriminate. pset.
      destruct (p_own p); [|discriminate].
      destruct (delete_scalar false (p_d0 p)); try discriminate. pset.
      destruct (p_bim p); pset; inversion Hp; reflexivity.
    - match type of Hs with context [if ?b then _ else _] => destruct b end; [discriminate|]. inversion Hs; subst s'. unfold spec_empty. cbn.
      unfold set_dimension_input, on_dim_change, sbind, sget, smod, swhen, sret, slift in Hp.
      destruct (checkLimits _ _ _ _); try discriminate. pset.
      destruct (p_own p); [|discriminate].
      destruct (delete_scalar false (p_d0 p)); try discriminate. pset.
      destruct (p_bim p); pset; inversion Hp; reflexivity.
  Qed.
End PhraseHistories.
