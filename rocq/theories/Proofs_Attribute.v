(** Proofs about attributes. *)
From Coq Require Import List Bool Arith Lia.
From Verif Require Import Base BaseFacts Model_Attribute Spec_Common.
Import ListNotations.

Section P.
  Context {T : Type}.
  Variable ltb : T -> T -> bool.
  Notation check := (checkLimits ltb).

  Lemma limits_after_app : forall (ops1 ops2 : list (@aop T)) lo hi,
    limits_after lo hi (ops1 ++ ops2) =
    let '(lo', hi') := limits_after lo hi ops1 in limits_after lo' hi' ops2.
  Proof. induction ops1 as [|[]]; simpl; intros; auto. Qed.

  Lemma listener_after_app : forall (ops1 ops2 : list (@aop T)) l,
    listener_after l (ops1 ++ ops2) = listener_after (listener_after l ops1) ops2.
  Proof. induction ops1 as [|[]]; simpl; intros; auto. Qed.

  Lemma attr_run_app : forall ops1 ops2 a,
    attr_run check a (ops1 ++ ops2) =
    let '(a1, c1) := attr_run check a ops1 in
    let '(a2, c2) := attr_run check a1 ops2 in (a2, c1 ++ c2).
  Proof.
    induction ops1 as [|o ops1 IH]; simpl; intros.
    - destruct (attr_run check a ops2). reflexivity.
    - destruct (attr_step check a o) as [[a1 r] c]. rewrite IH.
      destruct (attr_run check a1 ops1) as [a2 c2].
      destruct (attr_run check a2 ops2) as [a3 c3]. rewrite app_assoc. reflexivity.
  Qed.

  Lemma accepted_at_app1 : forall lo hi (ops ops2 : list (@aop T)) i,
    i < length ops -> accepted_at ltb lo hi (ops ++ ops2) i = accepted_at ltb lo hi ops i.
  Proof.
    intros. unfold accepted_at. rewrite nth_error_app1 by auto.
    rewrite firstn_app. replace (i - length ops) with 0 by lia. rewrite firstn_O, app_nil_r.
    reflexivity.
  Qed.

  Lemma accepted_at_last : forall lo hi (ops : list (@aop T)) o,
    accepted_at ltb lo hi (ops ++ [o]) (length ops) =
    match o with
    | ASet v s => let '(lo', hi') := limits_after lo hi ops in
                  if in_range ltb lo' hi' v then Some (v, s) else None
    | _ => None
    end.
  Proof.
    intros. unfold accepted_at. rewrite nth_error_app2, Nat.sub_diag by lia. simpl.
    rewrite firstn_app, Nat.sub_diag, firstn_all, firstn_O, app_nil_r. reflexivity.
  Qed.

  Lemma accepted_at_out : forall lo hi (ops : list (@aop T)) i,
    length ops <= i -> accepted_at ltb lo hi ops i = None.
  Proof.
    intros. unfold accepted_at. apply nth_error_None in H. rewrite H. reflexivity.
  Qed.

  Lemma expected_calls_snoc : forall lo hi l (ops : list (@aop T)) o,
    expected_calls ltb lo hi l (ops ++ [o]) =
    expected_calls ltb lo hi l ops ++
    match accepted_at ltb lo hi (ops ++ [o]) (length ops), listener_after l ops with
    | Some (v, false), Some w => [(w, v)]
    | _, _ => []
    end.
  Proof.
    intros. unfold expected_calls. rewrite app_length. simpl. rewrite Nat.add_1_r, seq_S.
    rewrite flat_map_app. f_equal.
    - rewrite !flat_map_concat_map. f_equal. apply map_ext_in. intros i Hi. apply in_seq in Hi.
      rewrite accepted_at_app1 by lia. rewrite firstn_app.
      replace (i - length ops) with 0 by lia. rewrite firstn_O, app_nil_r. reflexivity.
    - simpl. rewrite firstn_app, Nat.sub_diag, firstn_all, firstn_O, !app_nil_r. reflexivity.
  Qed.

  Lemma check_spec : forall v lo hi,
    check v lo hi = if in_range ltb lo hi v then Ok tt else Throw DomainError.
  Proof.
    intros. unfold checkLimits, in_range. destruct (ltb v lo), (ltb hi v); reflexivity.
  Qed.

  Lemma attr_history : forall (a0 : attr T) ops a calls,
    attr_run check a0 ops = (a, calls) ->
    expected_value ltb (a_min a0) (a_max a0) (a_val a0) ops (a_val a) /\
    (a_min a, a_max a) = limits_after (a_min a0) (a_max a0) ops /\
    a_cb a = listener_after (a_cb a0) ops /\
    calls = expected_calls ltb (a_min a0) (a_max a0) (a_cb a0) ops /\
    a_changed a = a_changed a0 || existsb (fun i => match accepted_at ltb (a_min a0) (a_max a0) ops i with
                                  Some _ => true | None => false end) (seq 0 (length ops)).
  Proof.
    intros a0 ops. induction ops as [|o ops IH] using rev_ind; intros a calls H.
    - simpl in H. inversion H; subst. repeat split; simpl; auto.
      + right. split; auto. intros. apply accepted_at_out. simpl. lia.
      + rewrite orb_false_r. reflexivity.
    - rewrite attr_run_app in H. destruct (attr_run check a0 ops) as [a1 c1].
      destruct (IH a1 c1 eq_refl) as (HV & HL & HC & HE & HG). clear IH.
      simpl in H. destruct (attr_step check a1 o) as [[a2 r] c2] eqn:ES.
      inversion H; subst a calls; clear H.
      rewrite limits_after_app, listener_after_app, expected_calls_snoc, accepted_at_last.
      rewrite <- HL, <- HC, <- HE.
      assert (HX : existsb (fun i => match accepted_at ltb (a_min a0) (a_max a0) (ops ++ [o]) i with
                      Some _ => true | None => false end) (seq 0 (length (ops ++ [o]))) =
                   existsb (fun i => match accepted_at ltb (a_min a0) (a_max a0) ops i with
                      Some _ => true | None => false end) (seq 0 (length ops)) ||
                   match accepted_at ltb (a_min a0) (a_max a0) (ops ++ [o]) (length ops) with
                      Some _ => true | None => false end).
      { rewrite app_length. simpl. rewrite Nat.add_1_r, seq_S, existsb_app. f_equal.
        - apply eq_true_iff_eq. rewrite !existsb_exists. split; intros (i & Hi & H);
            exists i; (split; [exact Hi|]); apply in_seq in Hi;
            rewrite accepted_at_app1 in * by lia; exact H.
        - simpl. rewrite orb_false_r. reflexivity. }
      rewrite HX, accepted_at_last, <- HL, orb_assoc, <- HG. clear HX.
      assert (KEEP : forall o', (forall v s, o' <> ASet v s) ->
                 a_val a2 = a_val a1 -> o' = o ->
                 expected_value ltb (a_min a0) (a_max a0) (a_val a0) (ops ++ [o]) (a_val a2)).
      { intros o' Hn Hv ->. rewrite Hv. destruct HV as [(i & s & Hi & Hj)|(Hv0 & Hj)].
        - left. exists i, s. assert (i < length ops).
          { destruct (lt_dec i (length ops)); auto. rewrite accepted_at_out in Hi by lia. discriminate. }
          split. rewrite accepted_at_app1; auto. intros j Hij.
          destruct (lt_dec j (length ops)). rewrite accepted_at_app1; auto.
          destruct (Nat.eq_dec j (length ops)) as [->|].
          rewrite accepted_at_last. destruct o; auto. exfalso. eapply Hn; reflexivity.
          apply accepted_at_out. rewrite app_length. simpl. lia.
        - right. split; auto. intros j.
          destruct (lt_dec j (length ops)). rewrite accepted_at_app1; auto.
          destruct (Nat.eq_dec j (length ops)) as [->|].
          rewrite accepted_at_last. destruct o; auto. exfalso. eapply Hn; reflexivity.
          apply accepted_at_out. rewrite app_length. simpl. lia. }
      destruct o as [v s|lo|hi|lo hi|w]; simpl in ES.
      + unfold attr_set in ES. rewrite check_spec in ES.
        destruct (in_range ltb (a_min a1) (a_max a1) v) eqn:ER; inversion ES; subst; clear ES; simpl.
        * repeat split; auto.
          -- left. exists (length ops), s. split.
             rewrite accepted_at_last, <- HL, ER. reflexivity.
             intros. apply accepted_at_out. rewrite app_length. simpl. lia.
          -- rewrite app_nil_r. destruct s, (a_cb a1); reflexivity.
          -- rewrite orb_true_r. reflexivity.
        * repeat split; auto.
          -- destruct HV as [(i & s' & Hi & Hj)|(Hv0 & Hj)].
             ++ left. exists i, s'. assert (i < length ops).
                { destruct (lt_dec i (length ops)); auto. rewrite accepted_at_out in Hi by lia. discriminate. }
                split. rewrite accepted_at_app1; auto. intros j Hij.
                destruct (lt_dec j (length ops)). rewrite accepted_at_app1; auto.
                destruct (Nat.eq_dec j (length ops)) as [->|].
                rewrite accepted_at_last, <- HL, ER; auto.
                apply accepted_at_out. rewrite app_length. simpl. lia.
             ++ right. split; auto. intros j.
                destruct (lt_dec j (length ops)). rewrite accepted_at_app1; auto.
                destruct (Nat.eq_dec j (length ops)) as [->|].
                rewrite accepted_at_last, <- HL, ER; auto.
                apply accepted_at_out. rewrite app_length. simpl. lia.
          -- rewrite orb_false_r. reflexivity.
      + inversion ES; subst; simpl in *. rewrite !app_nil_r, orb_false_r.
        split; [eapply KEEP; eauto; discriminate|]. auto.
      + inversion ES; subst; simpl in *. rewrite !app_nil_r, orb_false_r.
        split; [eapply KEEP; eauto; discriminate|]. auto.
      + inversion ES; subst; simpl in *. rewrite !app_nil_r, orb_false_r.
        split; [eapply KEEP; eauto; discriminate|]. auto.
      + inversion ES; subst; simpl in *. rewrite !app_nil_r, orb_false_r.
        split; [eapply KEEP; eauto; discriminate|]. auto.
  Qed.

  (** The outcome of one [set]. *)
  Lemma attr_set_atomic : forall (a : attr T) v s a' out calls,
    attr_set check a v s = (a', out, calls) ->
    (in_range ltb (a_min a) (a_max a) v = false /\ out = Throw DomainError /\ a' = a /\ calls = [])
    \/ (in_range ltb (a_min a) (a_max a) v = true /\ out = Ok tt /\
        a_val a' = v /\ a_changed a' = true /\ a_min a' = a_min a /\ a_max a' = a_max a /\
        a_cb a' = a_cb a /\
        (s = true -> calls = []) /\
        (s = false -> calls = match a_cb a with Some l => [(l, v)] | None => [] end)).
  Proof.
    intros a v s a' out calls H. unfold attr_set in H. rewrite check_spec in H.
    destruct (in_range ltb (a_min a) (a_max a) v); inversion H; subst; clear H.
    - right. repeat split; auto. intros ->. reflexivity. intros ->. reflexivity.
    - left. auto.
  Qed.

  Lemma attr_in_limits : forall ops (a : attr T),
    in_range ltb (a_min a) (a_max a) (a_val a) = true ->
    never_tightened ltb a ops ->
    let a' := fst (attr_run check a ops) in
    in_range ltb (a_min a') (a_max a') (a_val a') = true.
  Proof.
    induction ops as [|o ops IH]; simpl; intros a HR HT; auto.
    destruct HT as [H1 H2]. destruct (attr_step check a o) as [[a1 r] c] eqn:ES. simpl in H2.
    specialize (IH a1). destruct (attr_run check a1 ops) as [a2 cs]. simpl in *.
    apply IH; auto. unfold in_range in *. apply andb_true_iff in HR as [HR1 HR2].
    destruct o as [v s|lo|hi|lo hi|w]; simpl in ES, H1.
    - unfold attr_set in ES. rewrite check_spec in ES.
      destruct (in_range ltb (a_min a) (a_max a) v) eqn:ER; inversion ES; subst; clear ES; simpl.
      exact ER. rewrite HR1, HR2. reflexivity.
    - inversion ES; subst; simpl. rewrite H1, HR2. reflexivity.
    - inversion ES; subst; simpl. rewrite H1, HR1. reflexivity.
    - inversion ES; subst; simpl. destruct H1 as [-> ->]. reflexivity.
    - inversion ES; subst; simpl. rewrite HR1, HR2. reflexivity.
  Qed.

  (** ** Vector attributes *)
  Lemma check_all_ok : forall lo hi (v : list T),
    check_all check lo hi v =
    if forallb (in_range ltb lo hi) v then Ok tt else Throw DomainError.
  Proof.
    induction v; simpl; auto. rewrite check_spec. destruct (in_range ltb lo hi a); simpl; auto.
  Qed.

  Lemma vattr_set_spec : forall (a : vattr) (v : list T) s a' out calls,
    vattr_set check a v s = (a', out, calls) ->
    let fits := ((va_size a = 0 \/ length v = va_size a) /\
                 forall x, In x v -> in_range ltb (va_min a) (va_max a) x = true) in
    (fits /\ out = Ok tt /\ va_val a' = v /\ va_size a' = va_size a /\
     va_min a' = va_min a /\ va_max a' = va_max a /\ va_cb a' = va_cb a /\ va_changed a' = true /\
     (s = true -> calls = []) /\
     (s = false -> calls = match va_cb a with Some l => [(l, v)] | None => [] end)) \/
    (~ fits /\ out = Throw DomainError /\ a' = a /\ calls = []).
  Proof.
    intros a v s a' out calls H fits. unfold vattr_set in H.
    destruct (0 <? va_size a) eqn:E1; destruct (length v =? va_size a) eqn:E2; simpl in H;
      try (inversion H; subst; right; repeat split; auto; unfold fits;
           apply Nat.ltb_lt in E1; apply Nat.eqb_neq in E2; intros [? _]; lia);
      rewrite check_all_ok in H;
      destruct (forallb (in_range ltb (va_min a) (va_max a)) v) eqn:EF; inversion H; subst; clear H.
    all: try (left; repeat split; simpl; auto;
      [ try (apply Nat.eqb_eq in E2); try (apply Nat.ltb_ge in E1); lia
      | apply forallb_forall; exact EF
      | intros ->; reflexivity
      | intros ->; reflexivity ]).
    all: right; repeat split; auto; intros [_ HF];
      assert (forallb (in_range ltb (va_min a') (va_max a')) v = true) by
        (apply forallb_forall; exact HF); congruence.
  Qed.

  Lemma vattr_inv : forall d ops (a : @vattr T),
    length (va_val a) = va_size a \/ va_size a = 0 ->
    let a' := fold_left (vattr_step check d) ops a in
    length (va_val a') = va_size a' \/ va_size a' = 0.
  Proof.
    induction ops as [|o ops IH]; simpl; intros a H; auto.
    apply IH. destruct o as [v s|n]; simpl.
    - destruct (vattr_set check a v s) as [[a' out] calls] eqn:E.
      apply vattr_set_spec in E. simpl.
      destruct E as [((H1 & _) & _ & -> & -> & _)|(_ & _ & -> & _)]; auto.
      destruct H1; auto.
    - left. apply vresize_length.
  Qed.

  Lemma vattr_at_ok : forall (a : @vattr T) i d,
    length (va_val a) = va_size a \/ va_size a = 0 ->
    vattr_at a i = if i <? va_size a then Ok (nth i (va_val a) d) else Throw OutOfRange.
  Proof.
    intros. unfold vattr_at. destruct (i <? va_size a) eqn:E; auto.
    apply Nat.ltb_lt in E. apply rd_ok. lia.
  Qed.

  (** The size of the last [resize] of a history. *)
  Lemma vattr_size_last : forall d ops (a : @vattr T),
    va_size (fold_left (vattr_step check d) ops a) =
    fold_left (fun n o => match o with VResize m => m | _ => n end) ops (va_size a).
  Proof.
    induction ops as [|o ops IH]; simpl; intros a; auto. rewrite IH. f_equal.
    destruct o as [v s|n]; simpl; auto.
    destruct (vattr_set check a v s) as [[a' out] calls] eqn:E. apply vattr_set_spec in E. simpl.
    destruct E as [(_ & _ & _ & -> & _)|(_ & _ & -> & _)]; auto.
  Qed.
End P.

Lemma attr_copy_silent : forall (T : Type) (ltb : T -> T -> bool) (src : attr T) v s a' out calls,
  attr_set (checkLimits ltb) (attr_copy src) v s = (a', out, calls) ->
  calls = [] /\ a_val (attr_copy src) = a_val src /\ a_changed (attr_copy src) = false /\
  (out = Ok tt <-> in_range ltb (a_min src) (a_max src) v = true).
Proof.
  intros T ltb src v s a' out calls H. apply attr_set_atomic in H. simpl in H.
  destruct H as [(HR & -> & _ & ->)|(HR & -> & _ & _ & _ & _ & _ & H1 & H2)]; rewrite HR.
  - repeat split; auto; discriminate.
  - repeat split; auto. destruct s; auto.
Qed.

Lemma vattr_history : forall (T : Type) (ltb : T -> T -> bool) (d : T) ops (a : vattr) i,
  length (va_val a) = va_size a \/ va_size a = 0 ->
  let a' := fold_left (vattr_step (checkLimits ltb) d) ops a in
  (va_size a' = fold_left (fun n o => match o with VResize m => m | _ => n end) ops (va_size a)) /\
  (0 < va_size a' -> vattr_sizeof a' = va_size a') /\
  vattr_at a' i = if i <? va_size a' then Ok (nth i (va_val a') d) else Throw OutOfRange.
Proof.
  intros T ltb d ops a i H a'. pose proof (vattr_inv ltb d ops a H) as HI. fold a' in HI.
  split; [apply vattr_size_last|]. split; [unfold vattr_sizeof; intuition lia|].
  apply vattr_at_ok; exact HI.
Qed.
