(** Lemmas about [Base]. *)
From Coq Require Import List Arith Lia Bool.
From Verif Require Import Base.
Import ListNotations.

Lemma rd_ok : forall {A} (v : list A) i d, i < length v -> rd v i = Ok (nth i v d).
Proof.
  intros A v i d H. unfold rd. rewrite (nth_error_nth' v d H). reflexivity.
Qed.

Lemma rd_ub : forall {A} (v : list A) i, length v <= i -> rd v i = UB.
Proof.
  intros A v i H. unfold rd. apply nth_error_None in H. rewrite H. reflexivity.
Qed.

Lemma upd_length : forall {A} (v : list A) i x, length (upd v i x) = length v.
Proof. induction v; destruct i; simpl; intros; auto. Qed.

Lemma nth_upd_eq : forall {A} (v : list A) i x d, i < length v -> nth i (upd v i x) d = x.
Proof. induction v; destruct i; simpl; intros; try lia; auto. apply IHv; lia. Qed.

Lemma nth_upd_neq : forall {A} (v : list A) i j x d, i <> j -> nth j (upd v i x) d = nth j v d.
Proof. induction v; destruct i, j; simpl; intros; try lia; auto. Qed.

Lemma nth_error_upd_eq : forall {A} (v : list A) i x,
  i < length v -> nth_error (upd v i x) i = Some x.
Proof. induction v; destruct i; simpl; intros; try lia; auto. apply IHv; lia. Qed.

Lemma nth_error_upd_neq : forall {A} (v : list A) i j x,
  i <> j -> nth_error (upd v i x) j = nth_error v j.
Proof. induction v; destruct i, j; simpl; intros; try lia; auto. Qed.

Lemma wr_ok : forall {A} (v : list A) i x, i < length v -> wr v i x = Ok (upd v i x).
Proof. intros. unfold wr. apply Nat.ltb_lt in H. rewrite H. reflexivity. Qed.

Lemma upd_out : forall {A} (v : list A) i x, length v <= i -> upd v i x = v.
Proof. induction v; destruct i; simpl; intros; try lia; auto. f_equal. apply IHv; lia. Qed.

Lemma vresize_length : forall {A} n (d : A) v, length (vresize n d v) = n.
Proof.
  intros. unfold vresize. rewrite app_length, firstn_length, repeat_length. lia.
Qed.

Lemma nth_vresize : forall {A} n (d : A) v i,
  i < n -> nth i (vresize n d v) d = nth i v d.
Proof.
  intros. unfold vresize. destruct (lt_dec i (length v)).
  - rewrite app_nth1 by (rewrite firstn_length; lia).
    revert n H v l. induction i; intros; destruct n, v; simpl in *; try lia; auto.
    apply IHi; lia.
  - rewrite app_nth2 by (rewrite firstn_length; lia).
    rewrite (nth_overflow v) by lia.
    destruct (lt_dec (i - length (firstn n v)) (n - length v)).
    + rewrite nth_repeat. reflexivity.
    + apply nth_overflow. rewrite repeat_length. lia.
Qed.

Lemma tab_length : forall {A} n (f : nat -> A), length (tab n f) = n.
Proof. intros. unfold tab. rewrite map_length, seq_length. reflexivity. Qed.

Lemma nth_tab : forall {A} n (f : nat -> A) i d, i < n -> nth i (tab n f) d = f i.
Proof.
  intros. unfold tab. rewrite (nth_indep _ d (f 0)) by (rewrite map_length, seq_length; lia).
  rewrite map_nth, seq_nth by lia. reflexivity.
Qed.

Lemma tab_S : forall {A} n (f : nat -> A), tab (S n) f = tab n f ++ [f n].
Proof. intros. unfold tab. rewrite seq_S, map_app. reflexivity. Qed.

Lemma tab_ext : forall {A} n (f g : nat -> A), (forall i, i < n -> f i = g i) -> tab n f = tab n g.
Proof.
  intros. unfold tab. apply map_ext_in. intros a Ha. apply in_seq in Ha. apply H. lia.
Qed.

Lemma tabM_ok : forall {A} n (f : nat -> res A) g,
  (forall i, i < n -> f i = Ok (g i)) -> tabM n f = Ok (tab n g).
Proof.
  induction n; intros; simpl; auto.
  rewrite (IHn f g) by (intros; apply H; lia). simpl. rewrite H by lia. simpl.
  rewrite tab_S. reflexivity.
Qed.

Lemma tabM_length : forall {A} n (f : nat -> res A) v, tabM n f = Ok v -> length v = n.
Proof.
  induction n; simpl; intros f v H; [inversion H; reflexivity|].
  destruct (tabM n f) eqn:E; simpl in H; try discriminate.
  destruct (f n); simpl in H; try discriminate.
  inversion H. rewrite app_length, (IHn _ _ E). simpl. lia.
Qed.

(** If every entry computes and equals something then the loop computes it. *)
Lemma tabM_inv : forall {A} n (f : nat -> res A) v,
  tabM n f = Ok v -> forall i d, i < n -> f i = Ok (nth i v d).
Proof.
  induction n; simpl; intros f v H i d Hi; [lia|].
  destruct (tabM n f) eqn:E; simpl in H; try discriminate.
  destruct (f n) eqn:F; simpl in H; try discriminate.
  inversion H; subst. pose proof (tabM_length _ _ _ E) as L.
  destruct (Nat.eq_dec i n) as [->|].
  - rewrite app_nth2 by lia. rewrite L, Nat.sub_diag. simpl. exact F.
  - rewrite app_nth1 by lia. apply (IHn f a E). lia.
Qed.

Lemma iterM_ok : forall {S} n (f : nat -> S -> res S) g s,
  (forall i s, i < n -> f i s = Ok (g i s)) ->
  iterM n f s = Ok (fold_left (fun s i => g i s) (seq 0 n) s).
Proof.
  induction n; intros; [reflexivity|]. rewrite seq_S, fold_left_app. simpl.
  rewrite (IHn f g s) by (intros; apply H; lia). simpl. apply H. lia.
Qed.

(** Invariant rule for loops. *)
Lemma iterM_inv : forall {S} (I : nat -> S -> Prop) n (f : nat -> S -> res S) s,
  I 0 s ->
  (forall i s, i < n -> I i s -> exists s', f i s = Ok s' /\ I (Datatypes.S i) s') ->
  exists s', iterM n f s = Ok s' /\ I n s'.
Proof.
  induction n; intros f s H0 Hs; simpl.
  - eauto.
  - destruct (IHn f s H0) as (s1 & E1 & I1).
    { intros i s1 Hi HI. apply Hs; [lia|auto]. }
    rewrite E1. simpl. apply Hs; auto.
Qed.

(** Weak invariant rule: if the loop returns, the invariant holds. *)
Lemma iterM_inv_ok : forall {S} (I : nat -> S -> Prop) n (f : nat -> S -> res S) s s',
  I 0 s ->
  (forall i s s', i < n -> I i s -> f i s = Ok s' -> I (Datatypes.S i) s') ->
  iterM n f s = Ok s' -> I n s'.
Proof.
  induction n; intros f s s' H0 Hs; simpl.
  - intro H. inversion H. subst. auto.
  - destruct (iterM n f s) eqn:E; simpl; try discriminate. intro Hf.
    apply (Hs n a s'); auto. apply (IHn f s a); auto.
    intros i s1 s2 Hi. apply Hs. lia.
Qed.

Lemma iterM_ext : forall {S} n (f g : nat -> S -> res S) s,
  (forall i s, i < n -> f i s = g i s) -> iterM n f s = iterM n g s.
Proof.
  induction n; intros; simpl; auto. rewrite (IHn f g) by (intros; apply H; lia).
  destruct (iterM n g s); simpl; auto.
Qed.

Lemma mapM_ok : forall {A B} (f : A -> res B) g l,
  (forall x, In x l -> f x = Ok (g x)) -> mapM f l = Ok (map g l).
Proof.
  induction l; simpl; intros; auto. rewrite H by auto. simpl. rewrite IHl by auto. reflexivity.
Qed.

Lemma mapM_length : forall {A B} (f : A -> res B) l v, mapM f l = Ok v -> length v = length l.
Proof.
  induction l; simpl; intros v H; [inversion H; auto|].
  destruct (f a); simpl in H; try discriminate.
  destruct (mapM f l); simpl in H; try discriminate.
  inversion H. simpl. f_equal. apply IHl. reflexivity.
Qed.

Lemma bind_ok_inv : forall {A B} (m : res A) (f : A -> res B) b,
  bind m f = Ok b -> exists a, m = Ok a /\ f a = Ok b.
Proof. intros A B [a|e|] f b H; simpl in H; try discriminate. eauto. Qed.

Lemma nth_ext_len : forall {A} (u v : list A) d,
  length u = length v -> (forall i, i < length u -> nth i u d = nth i v d) -> u = v.
Proof. intros. apply (nth_ext u v d d); auto. Qed.
