(** Finite sums of reals and the real instance of [Arith]. *)
From Coq Require Import List Arith Lia Bool Reals Lra QArith Qreals Permutation.
From Verif Require Import Base BaseFacts Arith.
Import ListNotations.
Local Open Scope R_scope.

(** Specification-level sum: [f 0 + ... + f (n-1)]. *)
Fixpoint Rsum (n : nat) (f : nat -> R) : R :=
  match n with
  | O => 0
  | S n => Rsum n f + f n
  end.

Definition Rlsum (l : list R) : R := fold_right Rplus 0 l.

(** ** The real instance *)
Lemma nZ_RA : forall z, @nZ RA z = IZR z.
Proof. intros. unfold nZ. simpl. unfold Q2R. simpl. field. Qed.

Lemma nN_RA : forall n, @nN RA n = INR n.
Proof. intros. unfold nN. rewrite nZ_RA. symmetry. apply INR_IZR_INZ. Qed.

Lemma n0_RA : @n0 RA = 0.
Proof. apply nZ_RA. Qed.

Lemma n1_RA : @n1 RA = 1.
Proof. apply nZ_RA. Qed.

Lemma nsum_RA : forall n f, @nsum RA n f = Rsum n f.
Proof. induction n; intros; simpl. apply n0_RA. rewrite IHn. reflexivity. Qed.

Lemma sumM_ok : forall n (f : nat -> res R) g,
  (forall i, (i < n)%nat -> f i = Ok (g i)) -> @sumM RA n f = Ok (Rsum n g).
Proof.
  induction n; intros; simpl. { rewrite n0_RA. reflexivity. }
  rewrite (IHn f g) by (intros; apply H; lia). simpl. rewrite H by lia. reflexivity.
Qed.

Lemma nltb_RA_true : forall x y, @nltb RA x y = true <-> x < y.
Proof. intros. simpl. destruct (Rlt_dec x y); split; intros; auto; discriminate || contradiction. Qed.
Lemma nltb_RA_false : forall x y, @nltb RA x y = false <-> y <= x.
Proof.
  intros. simpl. destruct (Rlt_dec x y); split; intros; auto; try discriminate; lra.
Qed.
Lemma nleb_RA_true : forall x y, @nleb RA x y = true <-> x <= y.
Proof. intros. simpl. destruct (Rle_dec x y); split; intros; auto; discriminate || contradiction. Qed.
Lemma nleb_RA_false : forall x y, @nleb RA x y = false <-> y < x.
Proof.
  intros. simpl. destruct (Rle_dec x y); split; intros; auto; try discriminate; lra.
Qed.
Lemma neqb_RA_true : forall x y, @neqb RA x y = true <-> x = y.
Proof. intros. simpl. destruct (Req_EM_T x y); split; intros; auto; discriminate || contradiction. Qed.
Lemma neqb_RA_false : forall x y, @neqb RA x y = false <-> x <> y.
Proof. intros. simpl. destruct (Req_EM_T x y); split; intros; auto; discriminate || contradiction. Qed.

Lemma nmax_RA : forall a b, @nmax RA a b = Rmax a b.
Proof.
  intros. unfold nmax, Rmax. simpl. destruct (Rlt_dec a b), (Rle_dec a b); auto; lra.
Qed.
Lemma nmin_RA : forall a b, @nmin RA a b = Rmin a b.
Proof.
  intros. unfold nmin, Rmin. simpl. destruct (Rlt_dec b a), (Rle_dec a b); auto; lra.
Qed.

(** ** Sums *)
Lemma Rsum_ext : forall n f g, (forall i, (i < n)%nat -> f i = g i) -> Rsum n f = Rsum n g.
Proof.
  induction n; intros; simpl; auto. rewrite (IHn f g), H by (intros; try apply H; lia). reflexivity.
Qed.

Lemma Rsum_plus : forall n f g, Rsum n (fun i => f i + g i) = Rsum n f + Rsum n g.
Proof. induction n; intros; simpl; [lra|rewrite IHn; lra]. Qed.

Lemma Rsum_minus : forall n f g, Rsum n (fun i => f i - g i) = Rsum n f - Rsum n g.
Proof. induction n; intros; simpl; [lra|rewrite IHn; lra]. Qed.

Lemma Rsum_opp : forall n f, Rsum n (fun i => - f i) = - Rsum n f.
Proof. induction n; intros; simpl; [lra|rewrite IHn; lra]. Qed.

Lemma Rsum_scal_l : forall n c f, Rsum n (fun i => c * f i) = c * Rsum n f.
Proof. induction n; intros; simpl; [lra|rewrite IHn; lra]. Qed.

Lemma Rsum_scal_r : forall n c f, Rsum n (fun i => f i * c) = Rsum n f * c.
Proof. induction n; intros; simpl; [lra|rewrite IHn; lra]. Qed.

Lemma Rsum_div : forall n c f, Rsum n (fun i => f i / c) = Rsum n f / c.
Proof. intros. unfold Rdiv. apply Rsum_scal_r. Qed.

Lemma Rsum_zero : forall n f, (forall i, (i < n)%nat -> f i = 0) -> Rsum n f = 0.
Proof. induction n; intros; simpl; auto. rewrite IHn, H by (intros; try apply H; lia). lra. Qed.

Lemma Rsum_const : forall n c, Rsum n (fun _ => c) = INR n * c.
Proof. induction n; intros; simpl Rsum. simpl; lra. rewrite IHn, S_INR. lra. Qed.

Lemma Rsum_nonneg : forall n f, (forall i, (i < n)%nat -> 0 <= f i) -> 0 <= Rsum n f.
Proof.
  induction n; intros; simpl; [lra|]. assert (0 <= Rsum n f) by (apply IHn; intros; apply H; lia).
  assert (0 <= f n) by (apply H; lia). lra.
Qed.

Lemma Rsum_pos : forall n f, (0 < n)%nat -> (forall i, (i < n)%nat -> 0 < f i) -> 0 < Rsum n f.
Proof.
  intros n f Hn H. destruct n; [lia|]. simpl.
  assert (0 <= Rsum n f) by (apply Rsum_nonneg; intros; left; apply H; lia).
  assert (0 < f n) by (apply H; lia). lra.
Qed.

Lemma Rsum_le : forall n f g, (forall i, (i < n)%nat -> f i <= g i) -> Rsum n f <= Rsum n g.
Proof.
  induction n; intros; simpl; [lra|].
  assert (Rsum n f <= Rsum n g) by (apply IHn; intros; apply H; lia).
  assert (f n <= g n) by (apply H; lia). lra.
Qed.

Lemma Rsum_term_le : forall n f i, (forall j, (j < n)%nat -> 0 <= f j) -> (i < n)%nat -> f i <= Rsum n f.
Proof.
  induction n; intros f i H Hi; [lia|]. simpl.
  assert (0 <= Rsum n f) by (apply Rsum_nonneg; intros; apply H; lia).
  assert (0 <= f n) by (apply H; lia).
  destruct (Nat.eq_dec i n) as [->|]; [lra|].
  assert (f i <= Rsum n f) by (apply IHn; [intros; apply H|]; lia). lra.
Qed.

Lemma Rsum_pos_one : forall n f i,
  (forall j, (j < n)%nat -> 0 <= f j) -> (i < n)%nat -> 0 < f i -> 0 < Rsum n f.
Proof. intros n f i H Hi Hp. pose proof (Rsum_term_le n f i H Hi). lra. Qed.

Lemma Rsum_eq0 : forall n f, (forall j, (j < n)%nat -> 0 <= f j) -> Rsum n f = 0 ->
  forall i, (i < n)%nat -> f i = 0.
Proof.
  intros n f H H0 i Hi. pose proof (Rsum_term_le n f i H Hi). pose proof (H i Hi). lra.
Qed.

Lemma Rsum_swap : forall n m f,
  Rsum n (fun i => Rsum m (fun j => f i j)) = Rsum m (fun j => Rsum n (fun i => f i j)).
Proof.
  induction n; intros; simpl.
  - symmetry. apply Rsum_zero. auto.
  - rewrite IHn, <- Rsum_plus. reflexivity.
Qed.

Lemma Rsum_split : forall n m f, Rsum (n + m) f = Rsum n f + Rsum m (fun i => f (n + i)%nat).
Proof.
  intros n m. revert n. induction m; intros; simpl.
  - rewrite Nat.add_0_r. lra.
  - rewrite Nat.add_succ_r. simpl. rewrite IHm. lra.
Qed.

Lemma Rsum_first : forall n f, Rsum (S n) f = f O + Rsum n (fun i => f (S i)).
Proof. intros. change (S n) with (1 + n)%nat. rewrite Rsum_split. simpl. lra. Qed.

Lemma Rsum_single : forall n k f,
  (k < n)%nat -> (forall i, (i < n)%nat -> i <> k -> f i = 0) -> Rsum n f = f k.
Proof.
  induction n; intros k f Hk H; [lia|]. simpl. destruct (Nat.eq_dec k n) as [->|].
  - rewrite Rsum_zero; [lra|]. intros. apply H; lia.
  - rewrite (IHn k), (H n) by (intros; try apply H; lia). lra.
Qed.

Lemma Rsum_delta : forall n k f,
  (k < n)%nat -> Rsum n (fun i => (if Nat.eqb i k then 1 else 0) * f i) = f k.
Proof.
  intros. rewrite (Rsum_single n k) by
    (auto; intros i _ Hi; apply Nat.eqb_neq in Hi; rewrite Hi; lra).
  rewrite Nat.eqb_refl. lra.
Qed.

Lemma Rsum_mul : forall n m f g,
  Rsum n f * Rsum m g = Rsum n (fun i => Rsum m (fun j => f i * g j)).
Proof.
  intros. rewrite <- Rsum_scal_r. apply Rsum_ext. intros. rewrite Rsum_scal_l. reflexivity.
Qed.

Lemma Rsum_abs_le : forall n f, Rabs (Rsum n f) <= Rsum n (fun i => Rabs (f i)).
Proof.
  induction n; intros; simpl. rewrite Rabs_R0; lra.
  eapply Rle_trans. apply Rabs_triang. specialize (IHn f). lra.
Qed.

(** ** Lists *)
Lemma Rlsum_app : forall a b, Rlsum (a ++ b) = Rlsum a + Rlsum b.
Proof. induction a; intros; simpl; [lra|]. rewrite IHa. lra. Qed.

Lemma Rlsum_perm : forall a b, Permutation a b -> Rlsum a = Rlsum b.
Proof. induction 1; simpl; lra. Qed.

Lemma Rlsum_tab : forall n f, Rlsum (tab n f) = Rsum n f.
Proof.
  induction n; intros. reflexivity. rewrite tab_S, Rlsum_app, IHn. simpl. lra.
Qed.

Lemma Rlsum_map_seq : forall f m k, Rlsum (map f (seq k m)) = Rsum m (fun i => f (k + i)%nat).
Proof.
  intros f m. induction m; intros. reflexivity. rewrite seq_S, map_app, Rlsum_app, IHm. simpl. lra.
Qed.

Lemma Rsum_nth : forall v : list R, Rsum (length v) (fun i => nth i v 0) = Rlsum v.
Proof.
  intros. rewrite <- Rlsum_tab. f_equal. apply nth_ext_len with 0.
  - apply tab_length.
  - intros. rewrite nth_tab; auto. rewrite tab_length in H. exact H.
Qed.

Lemma Rlsum_map_plus : forall {X} (f g : X -> R) l,
  Rlsum (map (fun x => f x + g x) l) = Rlsum (map f l) + Rlsum (map g l).
Proof. induction l; simpl; lra. Qed.

Lemma Rlsum_map_scal : forall {X} c (f : X -> R) l,
  Rlsum (map (fun x => c * f x) l) = c * Rlsum (map f l).
Proof. induction l; simpl; lra. Qed.

Lemma Rlsum_map_ext : forall {X} (f g : X -> R) l,
  (forall x, In x l -> f x = g x) -> Rlsum (map f l) = Rlsum (map g l).
Proof. intros. f_equal. apply map_ext_in. auto. Qed.

Lemma Rlsum_nonneg : forall l, (forall x, In x l -> 0 <= x) -> 0 <= Rlsum l.
Proof.
  induction l; simpl; intros; [lra|]. assert (0 <= a) by auto.
  assert (0 <= Rlsum l) by auto. lra.
Qed.

Lemma Rlsum_map_le : forall {X} (f g : X -> R) l,
  (forall x, In x l -> f x <= g x) -> Rlsum (map f l) <= Rlsum (map g l).
Proof.
  induction l; simpl; intros; [lra|]. assert (f a <= g a) by auto.
  assert (Rlsum (map f l) <= Rlsum (map g l)) by auto. lra.
Qed.

Lemma Rlsum_map_sum_swap : forall {X} (f : X -> nat -> R) n l,
  Rlsum (map (fun x => Rsum n (f x)) l) = Rsum n (fun i => Rlsum (map (fun x => f x i) l)).
Proof.
  induction l; simpl. { symmetry. apply Rsum_zero. auto. }
  rewrite IHl, <- Rsum_plus. reflexivity.
Qed.

Lemma Rlsum_map_const : forall {X} c (l : list X), Rlsum (map (fun _ => c) l) = INR (length l) * c.
Proof. induction l; simpl length; simpl map. simpl; lra. rewrite S_INR. simpl. lra. Qed.
