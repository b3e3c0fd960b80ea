(** Facts about maps as sorted lists. *)
From Coq Require Import String Ascii List Bool Arith ZArith Lia Sorted NArith.
From Verif Require Import Model_Map.
Import ListNotations.

Section MapFacts.
  Context {K V : Type}.
  Variables (eqb ltb : K -> K -> bool).
  Hypothesis eqb_eq : forall a b, eqb a b = true <-> a = b.
  Hypothesis ltb_trans : forall a b c, ltb a b = true -> ltb b c = true -> ltb a c = true.
  Hypothesis ltb_irrefl : forall a, ltb a a = false.
  Hypothesis ltb_total : forall a b, eqb a b = false -> ltb a b = false -> ltb b a = true.

  Notation lt a b := (ltb a b = true).
  Definition ksorted (m : list (K * V)) : Prop := StronglySorted (fun a b => lt a b) (map fst m).

  Lemma eqb_refl' : forall a, eqb a a = true.
  Proof. intro. apply eqb_eq. reflexivity. Qed.
  Lemma eqb_neq' : forall a b, eqb a b = false <-> a <> b.
  Proof. intros. rewrite <- eqb_eq. destruct (eqb a b); split; congruence. Qed.

  Lemma mget_mput : forall (m : list (K * V)) k v k', mget eqb (mput eqb ltb m k v) k' = if eqb k' k then Some v else mget eqb m k'.
  Proof.
    induction m as [|[a b] m IH]; intros k v k'; simpl.
    - destruct (eqb k' k); reflexivity.
    - destruct (eqb k a) eqn:E1; [|destruct (ltb k a) eqn:E2]; simpl.
      + apply eqb_eq in E1. subst. destruct (eqb k' a); reflexivity.
      + reflexivity.
      + rewrite IH. destruct (eqb k' a) eqn:E3; auto.
        apply eqb_eq in E3. subst. destruct (eqb a k) eqn:E4; auto.
        apply eqb_eq in E4. subst. rewrite eqb_refl' in E1. discriminate.
  Qed.

  Lemma mget_mdel : forall (m : list (K * V)) k k', mget eqb (mdel eqb m k) k' = if eqb k' k then None else mget eqb m k'.
  Proof.
    induction m as [|[a b] m IH]; intros k k'; simpl.
    - destruct (eqb k' k); reflexivity.
    - unfold mdel in *. destruct (eqb k a) eqn:E1; simpl.
      + rewrite IH. apply eqb_eq in E1. subst. destruct (eqb k' a); reflexivity.
      + destruct (eqb k' a) eqn:E3.
        * apply eqb_eq in E3. subst. destruct (eqb a k) eqn:E4; auto.
          apply eqb_eq in E4. subst. rewrite eqb_refl' in E1. discriminate.
        * apply IH.
  Qed.

  Lemma mget_minsert : forall (m : list (K * V)) k v k',
    mget eqb (minsert eqb ltb m k v) k' =
      if eqb k' k then Some (match mget eqb m k with Some x => x | None => v end) else mget eqb m k'.
  Proof.
    intros. unfold minsert. destruct (mget eqb m k) eqn:E.
    - destruct (eqb k' k) eqn:E1; auto. apply eqb_eq in E1. subst. auto.
    - apply mget_mput.
  Qed.

  Lemma mget_in : forall (m : list (K * V)) k v, mget eqb m k = Some v -> In (k, v) m.
  Proof.
    induction m as [|[a b] m IH]; simpl; intros k v H; [discriminate|].
    destruct (eqb k a) eqn:E; auto. apply eqb_eq in E. inversion H. subst. auto.
  Qed.

  Lemma in_mget : forall (m : list (K * V)) k v, ksorted m -> In (k, v) m -> mget eqb m k = Some v.
  Proof.
    induction m as [|[a b] m IH]; simpl; intros k v S H; [contradiction|].
    inversion S as [|? ? S' F]; subst. destruct H as [H|H].
    - inversion H; subst. rewrite eqb_refl'. reflexivity.
    - destruct (eqb k a) eqn:E; [|apply IH; auto].
      apply eqb_eq in E. subst. rewrite Forall_forall in F.
      assert (lt a a). { apply F. change a with (fst (a, v)). apply in_map. auto. }
      rewrite ltb_irrefl in *. discriminate.
  Qed.

  Lemma in_mput : forall (m : list (K * V)) k v e, In e (mput eqb ltb m k v) -> e = (k, v) \/ In e m.
  Proof.
    induction m as [|[a b] m IH]; simpl; intros k v e H.
    - intuition.
    - destruct (eqb k a); [|destruct (ltb k a)]; simpl in H; intuition.
      apply IH in H0. intuition.
  Qed.

  Lemma mput_keys : forall (m : list (K * V)) k v x, In x (map fst (mput eqb ltb m k v)) -> x = k \/ In x (map fst m).
  Proof.
    intros m k v x H. apply in_map_iff in H. destruct H as (e & <- & H).
    apply in_mput in H. destruct H as [->|H]; auto. right. apply in_map. auto.
  Qed.

  Lemma mput_sorted : forall (m : list (K * V)) k v, ksorted m -> ksorted (mput eqb ltb m k v).
  Proof.
    induction m as [|[a b] m IH]; intros k v S; unfold ksorted in *; simpl in *.
    - repeat constructor.
    - inversion S as [|? ? S' F]; subst.
      destruct (eqb k a) eqn:E1; [|destruct (ltb k a) eqn:E2]; simpl.
      + apply eqb_eq in E1. subst. constructor; auto.
      + constructor; auto. constructor; auto.
        rewrite Forall_forall in *. intros x Hx. eapply ltb_trans; eauto.
      + constructor; [apply IH; auto|]. rewrite Forall_forall in *. intros x Hx.
        apply mput_keys in Hx. destruct Hx as [->|Hx]; auto.
  Qed.

  Lemma mdel_sorted : forall (m : list (K * V)) k, ksorted m -> ksorted (mdel eqb m k).
  Proof.
    induction m as [|[a b] m IH]; intros k S; unfold ksorted, mdel in *; simpl in *; auto.
    inversion S as [|? ? S' F]; subst.
    destruct (negb (eqb k a)); simpl; auto. constructor; auto.
    rewrite Forall_forall in *. intros x Hx. apply F. apply in_map_iff in Hx.
    destruct Hx as (e & <- & Hx). apply filter_In in Hx. apply in_map. tauto.
  Qed.

  Lemma minsert_sorted : forall (m : list (K * V)) k v, ksorted m -> ksorted (minsert eqb ltb m k v).
  Proof. intros. unfold minsert. destruct (mget eqb m k); auto. apply mput_sorted. auto. Qed.

  (** Appending at the end. *)
  Lemma mput_last : forall (m : list (K * V)) k v, ksorted m -> (forall x, In x (map fst m) -> lt x k) ->
    mput eqb ltb m k v = m ++ [(k, v)].
  Proof.
    induction m as [|[a b] m IH]; intros k v S H; simpl; auto.
    assert (Ha : lt a k) by (apply H; simpl; auto).
    assert (eqb k a = false).
    { apply eqb_neq'. intros ->. rewrite ltb_irrefl in Ha. discriminate. }
    assert (ltb k a = false).
    { destruct (ltb k a) eqn:E; auto. pose proof (ltb_trans _ _ _ Ha E). rewrite ltb_irrefl in H1. discriminate. }
    rewrite H0, H1. f_equal. apply IH. { inversion S; auto. } intros x Hx. apply H. simpl. auto.
  Qed.

  Definition ssorted (s : list K) : Prop := StronglySorted (fun a b => lt a b) s.

  Lemma sinsert_in : forall s k x, In x (sinsert eqb ltb s k) <-> x = k \/ In x s.
  Proof.
    induction s as [|a s IH]; intros k x; simpl.
    - intuition.
    - destruct (eqb k a) eqn:E1; [|destruct (ltb k a)]; simpl.
      + apply eqb_eq in E1. subst. intuition.
      + intuition.
      + rewrite IH. intuition.
  Qed.

  Lemma sinsert_sorted : forall s k, ssorted s -> ssorted (sinsert eqb ltb s k).
  Proof.
    induction s as [|a s IH]; intros k S; unfold ssorted in *; simpl.
    - repeat constructor.
    - inversion S as [|? ? S' F]; subst.
      destruct (eqb k a) eqn:E1; [|destruct (ltb k a) eqn:E2]; auto.
      + constructor; auto. constructor; auto. rewrite Forall_forall in *. intros. eapply ltb_trans; eauto.
      + constructor; auto. rewrite Forall_forall in *. intros x Hx. apply sinsert_in in Hx.
        destruct Hx as [->|Hx]; auto.
  Qed.

  Lemma ssorted_nodup : forall s, ssorted s -> NoDup s.
  Proof.
    intros s S. induction S; constructor; auto. intro H0. rewrite Forall_forall in H. apply H in H0.
    rewrite ltb_irrefl in H0. discriminate.
  Qed.
End MapFacts.

(** The order of strings. *)
Lemma ascii_compare_lt : forall a b, Ascii.compare a b = Lt <-> (N_of_ascii a < N_of_ascii b)%N.
Proof. intros. unfold Ascii.compare. apply N.compare_lt_iff. Qed.
Lemma ascii_compare_eq' : forall a b, Ascii.compare a b = Eq <-> a = b.
Proof.
  intros. unfold Ascii.compare. rewrite N.compare_eq_iff. split; [|congruence].
  intro H. rewrite <- (ascii_N_embedding a), <- (ascii_N_embedding b). congruence.
Qed.

Lemma string_compare_trans : forall a b c,
  String.compare a b = Lt -> String.compare b c = Lt -> String.compare a c = Lt.
Proof.
  induction a as [|x a IH]; intros [|y b] [|z c]; simpl; intros H1 H2; try discriminate; auto.
  destruct (Ascii.compare x y) eqn:E1; try discriminate; destruct (Ascii.compare y z) eqn:E2; try discriminate.
  - apply ascii_compare_eq' in E1, E2. subst. rewrite (proj2 (ascii_compare_eq' z z) eq_refl). eauto.
  - apply ascii_compare_eq' in E1. subst. rewrite E2. reflexivity.
  - apply ascii_compare_eq' in E2. subst. rewrite E1. reflexivity.
  - apply ascii_compare_lt in E1, E2. rewrite (proj2 (ascii_compare_lt x z)); [reflexivity|].
    eapply N.lt_trans; eauto.
Qed.

Lemma string_compare_refl : forall a, String.compare a a = Eq.
Proof. induction a; simpl; auto. rewrite (proj2 (ascii_compare_eq' a a) eq_refl). auto. Qed.

Lemma str_ltb_trans : forall a b c, String.ltb a b = true -> String.ltb b c = true -> String.ltb a c = true.
Proof.
  unfold String.ltb. intros a b c H1 H2.
  destruct (String.compare a b) eqn:E1; try discriminate. destruct (String.compare b c) eqn:E2; try discriminate.
  rewrite (string_compare_trans _ _ _ E1 E2). reflexivity.
Qed.
Lemma str_ltb_irrefl : forall a, String.ltb a a = false.
Proof. intro. unfold String.ltb. rewrite string_compare_refl. reflexivity. Qed.
Lemma str_ltb_total : forall a b, String.eqb a b = false -> String.ltb a b = false -> String.ltb b a = true.
Proof.
  unfold String.ltb. intros a b H1 H2. rewrite String.compare_antisym.
  destruct (String.compare a b) eqn:E; simpl; auto; try discriminate.
  apply String.compare_eq_iff in E. subst. rewrite String.eqb_refl in H1. discriminate.
Qed.

Lemma Zltb_trans : forall a b c, Z.ltb a b = true -> Z.ltb b c = true -> Z.ltb a c = true.
Proof. intros. rewrite Z.ltb_lt in *. lia. Qed.
Lemma Zltb_total : forall a b, Z.eqb a b = false -> Z.ltb a b = false -> Z.ltb b a = true.
Proof. intros a b H1 H2. rewrite Z.eqb_neq in H1. rewrite Z.ltb_ge in H2. rewrite Z.ltb_lt. lia. Qed.
