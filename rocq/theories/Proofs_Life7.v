(** Training in Sequential mode. *)
From Coq Require Import List Bool Arith ZArith Lia.
From Verif Require Import Base Model_Train Model_Life Spec_Life Proofs_Life Proofs_Life3.
Import ListNotations.
Local Open Scope nat_scope.

Lemma lset_lset : forall {X} (l : list X) i x y, lset (lset l i x) i y = lset l i y.
Proof. induction l as [|z l IH]; intros [|i] x y; cbn; try reflexivity. rewrite IH. reflexivity. Qed.

Lemma lset_self : forall {X} (l : list X) i x, nth_error l i = Some x -> lset l i x = l.
Proof. induction l as [|z l IH]; intros [|i] x H; cbn in *; try discriminate; [congruence|]. rewrite IH; auto. Qed.

Lemma run_class_S : forall f i s, run_class (S f) i s = match step_class false i s with Some s => run_class f i s | None => s end.
Proof. reflexivity. Qed.

Section One.
  Variables (l : list cls) (i : nat) (c0 : cls) (m : mpc) (js : list jpc) (tr jo cr : bool).
  Hypothesis Hn : nth_error l i = Some c0.
  Local Notation st_ c mu ct lg := (mkSys (lset l i c) m js mu ct tr jo cr lg).

  Ltac one := rewrite run_class_S; unfold step_class at 1; sproj; rewrite (lset_same _ _ _ _ Hn); kproj;
    unfold at_cls; sproj; rewrite (lset_same _ _ _ _ Hn); kproj; unfold with_cls, with_mutex, with_count, emit; sproj; rewrite ?lset_lset;
    cbn [is_run_status andb]; unfold set_pc, set_left, set_status, set_flag, set_cancel, set_alive, set_thr; kproj.

  Lemma run_class_end : forall f c mu ct lg st, k_pc c = CEnd st -> run_class f i (st_ c mu ct lg) = st_ c mu ct lg.
  Proof. intros [|f] c mu ct lg st H; [reflexivity|]. cbn [run_class]. unfold step_class. sproj. rewrite (lset_same _ _ _ _ Hn), H. reflexivity. Qed.

  Lemma run_class_loop : forall n f g stt fl al th ct lg,
    run_class (5 * n + (15 + f)) i (st_ (mkCls CLoop n g stt fl false al th) None ct lg) =
    st_ (mkCls (CEnd (if g then Done else Error)) 0 g (if g then Done else Error) false false al th) None (ct - 1)%Z (lg ++ map (EvClass i) (announced (n, g))).
  Proof.
    induction n as [|n IH]; intros f g stt fl al th ct lg.
    - cbn [Nat.mul Nat.add]. destruct g.
      + do 10 one. rewrite (run_class_end _ _ _ _ _ Done) by reflexivity. reflexivity.
      + do 11 one. rewrite (run_class_end _ _ _ _ _ Error) by reflexivity. reflexivity.
    - replace (5 * S n + (15 + f)) with (S (S (S (S (S (5 * n + (15 + f))))))) by lia.
      do 5 one. rewrite IH. rewrite <- app_assoc. reflexivity.
  Qed.
End One.

Lemma seq_one_spec : forall l i n g stt fl ca al th m js ct tr jo cr lg,
  nth_error l i = Some (mkCls CNew n g stt fl ca al th) ->
  seq_one i (mkSys l m js None ct tr jo cr lg) =
  mkSys (lset l i (mkCls (CEnd (if g then Done else Error)) 0 g (if g then Done else Error) false false al th)) m js None ct tr jo cr
    (lg ++ map (EvClass i) (announced (n, g))).
Proof.
  intros l i n g stt fl ca al th m js ct tr jo cr lg Hn. unfold seq_one. unfold at_cls. sproj. rewrite Hn. unfold with_cls, with_count. sproj.
  rewrite (lset_same _ _ _ _ Hn). kproj.
  replace (5 * n + 20) with (S (5 * n + (15 + 4))) by lia. cbn [run_class]. unfold step_class. sproj. rewrite (lset_same _ _ _ _ Hn). kproj. unfold at_cls. sproj.
  rewrite (lset_same _ _ _ _ Hn). unfold with_cls. sproj. rewrite lset_lset. kproj. unfold set_pc, set_status, set_flag, set_cancel; kproj.
  rewrite (run_class_loop _ _ _ _ _ _ _ _ Hn). replace (ct + 1 - 1)%Z with ct by lia. reflexivity.
Qed.

Definition done_cls (p : nat * bool) : cls :=
  mkCls (CEnd (if snd p then Done else Error)) 0 (snd p) (if snd p then Done else Error) false false true false.

Lemma lset_app : forall {X} (a : list X) x y b, lset (a ++ x :: b) (length a) y = a ++ y :: b.
Proof. intros X. induction a as [|z a IH]; intros x y b; cbn; [reflexivity|]. rewrite IH. reflexivity. Qed.

Lemma seq_fold : forall b a m js ct tr jo cr lg,
  fold_left (fun s i => seq_one i s) (seq (length a) (length b)) (mkSys (map done_cls a ++ map fresh_cls b) m js None ct tr jo cr lg) =
  mkSys (map done_cls (a ++ b)) m js None ct tr jo cr
    (lg ++ concat (map (fun ip => map (EvClass (fst ip)) (announced (snd ip))) (combine (seq (length a) (length b)) b))).
Proof.
  induction b as [|p b IH]; intros a m js ct tr jo cr lg.
  - cbn. rewrite !app_nil_r. reflexivity.
  - destruct p as (n, g). cbn [length seq fold_left map].
    rewrite (seq_one_spec _ (length a) n g Run false false true false).
    2:{ rewrite nth_error_app2; rewrite map_length; [|lia]. rewrite Nat.sub_diag. reflexivity. }
    replace (length a) with (length (map done_cls a)) at 2 by apply map_length. rewrite lset_app.
    replace (map done_cls a ++ mkCls (CEnd (if g then Done else Error)) 0 g (if g then Done else Error) false false true false :: map fresh_cls b)
      with (map done_cls (a ++ [(n, g)]) ++ map fresh_cls b) by (rewrite map_app, <- app_assoc; reflexivity).
    replace (S (length a)) with (length (a ++ [(n, g)])) by (rewrite app_length; cbn; lia). rewrite IH. rewrite <- !app_assoc. cbn [combine map concat fst snd]. reflexivity.
Qed.

Lemma seq_result : forall ct plan, seq_train ct plan = mkSys (map done_cls plan) MRet [] None ct false false false (one_by_one plan).
Proof.
  intros ct plan. unfold seq_train, life_init, with_main. sproj. pose proof (seq_fold plan [] MRet [] ct true false false []) as E. cbn [length map app] in E.
  rewrite E. reflexivity.
Qed.

Lemma events_one : forall plan k i, events_of i (concat (map (fun ip => map (EvClass (fst ip)) (announced (snd ip))) (combine (seq k (length plan)) plan))) =
  match nth_error plan (i - k) with Some p => if k <=? i then announced p else [] | None => [] end.
Proof.
  induction plan as [|p plan IH]; intros k i; cbn [length seq combine map concat].
  - destruct (i - k); reflexivity.
  - rewrite events_app, IH. cbn [fst snd].
    assert (E : forall st, events_of i (map (EvClass k) st) = if k =? i then st else []).
    { induction st as [|x st IHs]; cbn; [destruct (k =? i); reflexivity|]. unfold events_of in IHs. rewrite IHs. destruct (k =? i); reflexivity. }
    rewrite E. destruct (Nat.eqb_spec k i) as [->|N].
    + rewrite Nat.sub_diag. cbn [nth_error]. rewrite (proj2 (Nat.leb_le i i)) by lia. replace (i - S i) with 0 by lia.
      replace (S i <=? i) with false by (symmetry; apply Nat.leb_gt; lia). destruct plan; cbn; apply app_nil_r.
    + cbn [app]. destruct (Nat.leb_spec k i) as [Hle|Hgt].
      * replace (i - k) with (S (i - S k)) by lia. cbn [nth_error]. replace (S k <=? i) with true by (symmetry; apply Nat.leb_le; lia). reflexivity.
      * replace (i - S k) with 0 by lia. replace (i - k) with 0 by lia. replace (S k <=? i) with false by (symmetry; apply Nat.leb_gt; lia). cbn. destruct plan; reflexivity.
Qed.

Lemma one_by_one_events : forall plan i p, nth_error plan i = Some p -> events_of i (one_by_one plan) = announced p.
Proof. intros plan i p H. unfold one_by_one. rewrite events_one, Nat.sub_0_r, H. reflexivity. Qed.

Lemma one_by_one_quiet : forall plan, ~ In EvAll (one_by_one plan).
Proof.
  intros plan H. unfold one_by_one in H. apply in_concat in H. destruct H as (x & H1 & H2). apply in_map_iff in H1. destruct H1 as (ip & <- & _).
  apply in_map_iff in H2. destruct H2 as (st & E & _). discriminate.
Qed.
