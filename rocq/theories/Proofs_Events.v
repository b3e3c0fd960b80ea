(** Proofs about event generators. *)
From Coq Require Import List Bool Arith Lia Sorted.
From Verif Require Import Base BaseFacts Model_Events Spec_Common.
Import ListNotations.

Section P.
  Context {C : Type}.

  Definition removes (o : nat) (op : @lop C) : bool :=
    match op with LRemove o' => o' =? o | LClear => true | _ => false end.

  Lemma since_removal_snoc : forall o ops (op : @lop C),
    since_removal o (ops ++ [op]) = if removes o op then [] else since_removal o ops ++ [op].
  Proof.
    induction ops as [|x ops IH]; intros op.
    - simpl. destruct op; simpl; try destruct (owner =? o); reflexivity.
    - simpl. fold (removes o). rewrite existsb_app. simpl. rewrite orb_false_r.
      rewrite IH. fold (removes o op). destruct (existsb _ ops); simpl.
      + reflexivity.
      + destruct (removes o op) eqn:E; [reflexivity|].
        fold (removes o x). destruct (removes o x); reflexivity.
  Qed.

  Lemma first_added_app : forall o (a b : list (@lop C)),
    first_added o (a ++ b) = match first_added o a with Some c => Some c | None => first_added o b end.
  Proof. induction a as [|[] a IH]; simpl; intros; auto. destruct (owner =? o); auto. Qed.

  Definition lookup (m : listeners C) (o : nat) : option C :=
    match find (fun p => fst p =? o) m with Some p => Some (snd p) | None => None end.

  Definition sorted (m : listeners C) : Prop := StronglySorted lt (map fst m).

  Lemma sorted_notin : forall m o, sorted m -> Forall (lt o) (map fst m) -> lookup m o = None.
  Proof.
    intros m o _ H. unfold lookup. destruct (find _ m) eqn:E; auto.
    apply find_some in E as [Hi He]. apply Nat.eqb_eq in He. subst.
    rewrite Forall_forall in H. specialize (H (fst p) (in_map fst _ _ Hi)). lia.
  Qed.

  Lemma ev_add_sorted : forall m o (c : C),
    sorted m -> sorted (ev_add m o c) /\
    (forall x, In x (map fst (ev_add m o c)) -> x = o \/ In x (map fst m)).
  Proof.
    induction m as [|[k c'] m IH]; simpl; intros o c H.
    - split. repeat constructor. intros x [<-|[]]; auto.
    - inversion H; subst. destruct (o <? k) eqn:E1.
      + apply Nat.ltb_lt in E1. split.
        * constructor; [exact H|]. constructor; [exact E1|].
          eapply Forall_impl; [|exact H3]. intros; simpl in *; eapply Nat.lt_trans; eauto.
        * simpl. intros x [<-|[<-|Hx]]; auto.
      + destruct (o =? k) eqn:E2.
        * split; auto. 
        * destruct (IH o c H2) as [I1 I2]. split.
          -- constructor; auto. apply Forall_forall. intros x Hx. apply I2 in Hx as [->|Hx].
             apply Nat.ltb_ge in E1. apply Nat.eqb_neq in E2. simpl. lia.
             rewrite Forall_forall in H3. auto.
          -- simpl. intros x [<-|Hx]; auto. apply I2 in Hx as [->|Hx]; auto.
  Qed.

  Lemma ev_add_lookup : forall m o (c : C) x, sorted m ->
    lookup (ev_add m o c) x =
    if o =? x then match lookup m x with Some c' => Some c' | None => Some c end else lookup m x.
  Proof.
    induction m as [|[k c'] m IH]; simpl; intros o c x H.
    - unfold lookup. simpl. rewrite Nat.eqb_sym. destruct (x =? o); reflexivity.
    - inversion H; subst. destruct (o <? k) eqn:E1; [|destruct (o =? k) eqn:E2].
      + unfold lookup at 1. simpl. destruct (o =? x) eqn:Eo; simpl; auto.
        apply Nat.eqb_eq in Eo. subst.
        rewrite sorted_notin; auto. simpl. apply Nat.ltb_lt in E1. constructor; auto.
        eapply Forall_impl; [|exact H3]. intros; simpl in *; eapply Nat.lt_trans; eauto.
      + apply Nat.eqb_eq in E2. subst. unfold lookup. simpl. destruct (k =? x) eqn:E; auto.
      + unfold lookup in *. simpl. destruct (k =? x) eqn:Ek; simpl.
        * apply Nat.eqb_eq in Ek. subst. rewrite E2. reflexivity.
        * apply IH; auto.
  Qed.

  Lemma filter_sorted : forall (f : nat * C -> bool) m, sorted m -> sorted (filter f m).
  Proof.
    induction m as [|p m IH]; simpl; intros H; auto. inversion H; subst.
    destruct (f p); auto. simpl. constructor. apply IH; auto.
    apply Forall_forall. intros x Hx. apply in_map_iff in Hx as (q & <- & Hq).
    apply filter_In in Hq as [Hq _]. rewrite Forall_forall in H3. apply H3. apply in_map; auto.
  Qed.

  Lemma ev_remove_lookup : forall m o x,
    lookup (ev_remove m o) x = if o =? x then None else lookup m x.
  Proof.
    unfold lookup, ev_remove. induction m as [|[k c] m IH]; simpl; intros o x.
    - destruct (o =? x); reflexivity.
    - destruct (k =? o) eqn:E1; simpl.
      + rewrite IH. apply Nat.eqb_eq in E1. subst.
        destruct (o =? x) eqn:E; reflexivity.
      + destruct (k =? x) eqn:E2; simpl.
        * apply Nat.eqb_eq in E2. subst. rewrite Nat.eqb_sym, E1. reflexivity.
        * apply IH.
  Qed.

  Lemma ev_run_spec : forall ops,
    sorted (ev_run ops) /\ forall o, lookup (ev_run ops) o = @registered C ops o.
  Proof.
    unfold ev_run. induction ops as [|op ops IH] using rev_ind; simpl.
    - split. constructor. reflexivity.
    - rewrite fold_left_app. simpl. destruct IH as [S L].
      set (m := fold_left ev_step ops []) in *. split.
      + destruct op; simpl. apply ev_add_sorted; auto. apply filter_sorted; auto. constructor.
      + intro o. unfold registered in *. rewrite since_removal_snoc.
        destruct op as [w cb|w|]; simpl.
        * rewrite ev_add_lookup by auto. rewrite first_added_app, <- L. simpl.
          destruct (w =? o), (lookup m o); reflexivity.
        * rewrite ev_remove_lookup. destruct (w =? o); simpl; auto.
          rewrite first_added_app, <- L. simpl. destruct (lookup m o); reflexivity.
        * reflexivity.
  Qed.

  Lemma lookup_in : forall m o c, sorted m -> (lookup m o = Some c <-> In (o, c) m).
  Proof.
    induction m as [|[k c'] m IH]; intros o c H.
    - split; intros X; [discriminate X|destruct X].
    - inversion H; subst. unfold lookup in *. simpl. destruct (k =? o) eqn:E.
      + apply Nat.eqb_eq in E. subst. split; intros X.
        * inversion X; auto.
        * destruct X as [X|X]; [inversion X; reflexivity|]. exfalso. rewrite Forall_forall in H3.
          specialize (H3 o). apply (in_map fst) in X. apply H3 in X. simpl in X. lia.
      + rewrite IH by auto. apply Nat.eqb_neq in E. split; intros X; auto.
        destruct X as [X|X]; auto. inversion X; congruence.
  Qed.

  Lemma notify_exact : forall ops (E : Type) (e : E),
    exists owners : list nat,
      StronglySorted lt owners /\
      (forall o, In o owners <-> exists c, @registered C ops o = Some c) /\
      map (fun p => Some (fst p)) (ev_notify (ev_run ops) e) = map (registered ops) owners /\
      Forall (fun p => snd p = e) (ev_notify (ev_run ops) e).
  Proof.
    intros. destruct (ev_run_spec ops) as [S L]. exists (map fst (ev_run ops)).
    repeat split; auto.
    - intros H. apply in_map_iff in H as ([k c] & <- & H). exists c. simpl.
      rewrite <- L. apply lookup_in; auto.
    - intros (c & H). rewrite <- L in H. apply lookup_in in H; auto.
      apply in_map_iff. exists (o, c); auto.
    - unfold ev_notify. rewrite !map_map. simpl. apply map_ext_in. intros [k c] H. simpl.
      symmetry. rewrite <- L. apply lookup_in; auto.
    - unfold ev_notify. apply Forall_forall. intros p H. apply in_map_iff in H as (q & <- & _).
      reflexivity.
  Qed.
End P.
