(** Determinant facts used about the Gauss-Jordan elimination. *)
From Coq Require Import Arith Lia Reals Lra.
From Verif Require Import RFacts Spec_Det.
Local Open Scope R_scope.

Ltac natcases := repeat (match goal with
  | H : context [Nat.ltb ?a ?b] |- _ => destruct (Nat.ltb_spec a b)
  | |- context [Nat.ltb ?a ?b] => destruct (Nat.ltb_spec a b)
  | |- context [Nat.eqb ?a ?b] => destruct (Nat.eqb_spec a b)
  end); try lia.

Lemma sg_S : forall j, sg (S j) = - sg j.
Proof.
  intros. unfold sg. rewrite Nat.even_succ, <- Nat.negb_even. destruct (Nat.even j); simpl; lra.
Qed.

Lemma skip_neq : forall j k, skip j k <> j.
Proof. intros. unfold skip. natcases. Qed.
Lemma skip_lt : forall j k n, (k < n)%nat -> (skip j k < S n)%nat.
Proof. intros. unfold skip. natcases. Qed.

Lemma Rdet_S : forall n A, Rdet (S n) A =
  Rsum (S n) (fun j => sg j * A O j * Rdet n (fun i k => A (S i) (skip j k))).
Proof. reflexivity. Qed.

Lemma Rdet_ext' : forall n A B,
  (forall i j, (i < n)%nat -> (j < n)%nat -> A i j = B i j) -> Rdet n A = Rdet n B.
Proof.
  induction n; intros A B H; [reflexivity|]. rewrite !Rdet_S. apply Rsum_ext. intros j Hj.
  rewrite H by lia. f_equal. apply IHn. intros i k Hi Hk. apply H. lia. apply skip_lt; auto.
Qed.

Definition setrow (r : nat) (v : nat -> R) (A : nat -> nat -> R) (i j : nat) : R :=
  if Nat.eqb i r then v j else A i j.

Lemma Rdet_linear : forall n r x y u v A, (r < n)%nat ->
  Rdet n (setrow r (fun j => x * u j + y * v j) A) =
  x * Rdet n (setrow r u A) + y * Rdet n (setrow r v A).
Proof.
  induction n; intros r x y u v A Hr; [lia|]. rewrite !Rdet_S.
  rewrite <- !Rsum_scal_l, <- Rsum_plus. apply Rsum_ext. intros j Hj. destruct r as [|r].
  - assert (Q : forall w, Rdet n (fun i k => setrow 0 w A (S i) (skip j k)) =
      Rdet n (fun i k => A (S i) (skip j k))) by reflexivity.
    assert (Q0 : forall w, setrow 0 w A 0%nat j = w j) by reflexivity.
    rewrite !Q, !Q0. ring.
  - assert (Q : forall w, Rdet n (fun i k => setrow (S r) w A (S i) (skip j k)) =
      Rdet n (setrow r (fun k => w (skip j k)) (fun i k => A (S i) (skip j k)))).
    { intros. apply Rdet_ext'. intros. reflexivity. }
    rewrite !Q. rewrite (IHn r x y (fun k => u (skip j k)) (fun k => v (skip j k))) by lia.
    assert (Q0 : forall w, setrow (S r) w A 0%nat j = A 0%nat j) by reflexivity.
    rewrite !Q0. ring.
Qed.

Lemma Rdet_scale : forall n r x u A, (r < n)%nat ->
  Rdet n (setrow r (fun j => x * u j) A) = x * Rdet n (setrow r u A).
Proof.
  intros. transitivity (Rdet n (setrow r (fun j => x * u j + 0 * u j) A)).
  - apply Rdet_ext'. intros. unfold setrow. destruct (Nat.eqb i r); lra.
  - rewrite Rdet_linear by auto. lra.
Qed.

Lemma Rsum_skip : forall n j f, (j <= n)%nat ->
  Rsum (S n) (fun m => if Nat.eqb j m then 0 else f m) = Rsum n (fun k => f (skip j k)).
Proof.
  intros n j f Hj. replace (S n) with (j + S (n - j))%nat by lia.
  rewrite Rsum_split, Rsum_first. replace n with (j + (n - j))%nat at 2 by lia. rewrite Rsum_split.
  rewrite Nat.add_0_r, Nat.eqb_refl.
  rewrite (Rsum_ext j _ (fun k => f (skip j k))).
  2:{ intros i Hi. unfold skip. natcases. reflexivity. }
  rewrite (Rsum_ext (n - j) _ (fun k => f (skip j (j + k)))).
  2:{ intros i Hi. unfold skip. natcases. f_equal. lia. }
  lra.
Qed.

(** Two equal leading rows. *)
Definition skip2 (j m c : nat) : nat := if Nat.ltb j m then skip j (skip (m - 1) c) else skip j (skip m c).
Lemma skip2_sym : forall j m c, j <> m -> skip2 j m c = skip2 m j c.
Proof. intros. unfold skip2, skip. natcases. Qed.
Definition sg2 (j m : nat) : R := if Nat.ltb j m then sg (m - 1) else sg m.

Lemma Rdet_alt0 : forall n A,
  (forall j, (j < S (S n))%nat -> A 0%nat j = A 1%nat j) -> Rdet (S (S n)) A = 0.
Proof.
  intros n A H.
  set (G := fun j m => if Nat.eqb j m then 0 else
     sg j * sg2 j m * A 0%nat j * A 1%nat m * Rdet n (fun i c => A (S (S i)) (skip2 j m c))).
  assert (E : Rdet (S (S n)) A = Rsum (S (S n)) (fun j => Rsum (S (S n)) (fun m => G j m))).
  { rewrite Rdet_S. apply Rsum_ext. intros j Hj. unfold G. rewrite Rsum_skip by lia.
    rewrite Rdet_S, <- Rsum_scal_l. apply Rsum_ext. intros k Hk.
    assert (S1 : sg2 j (skip j k) = sg k).
    { unfold sg2, skip. natcases; f_equal; lia. }
    rewrite S1.
    rewrite (Rdet_ext' n (fun i c => A (S (S i)) (skip2 j (skip j k) c))
       (fun i c => A (S (S i)) (skip j (skip k c)))).
    ring. intros i c _ _. f_equal. unfold skip2, skip. natcases. }
  assert (AS : forall j m, (j < S (S n))%nat -> (m < S (S n))%nat -> G m j = - G j m).
  { intros j m Hj Hm. unfold G. rewrite (Nat.eqb_sym m j). destruct (Nat.eqb_spec j m). lra.
    rewrite (Rdet_ext' n (fun i c => A (S (S i)) (skip2 m j c)) (fun i c => A (S (S i)) (skip2 j m c)))
      by (intros; rewrite skip2_sym by auto; reflexivity).
    rewrite (H m), (H j) by auto.
    assert (SS : sg m * sg2 m j = - (sg j * sg2 j m)).
    { unfold sg2. natcases.
      - destruct j; [lia|]. replace (S j - 1)%nat with j by lia. rewrite (sg_S j). lra.
      - destruct m; [lia|]. replace (S m - 1)%nat with m by lia. rewrite (sg_S m). lra. }
    rewrite SS. ring. }
  assert (Z : Rdet (S (S n)) A = - Rdet (S (S n)) A).
  { rewrite E at 1. rewrite Rsum_swap, E, <- Rsum_opp. apply Rsum_ext. intros j Hj.
    rewrite <- Rsum_opp. apply Rsum_ext. intros m Hm. apply AS; auto. }
  lra.
Qed.

Lemma Rdet_alt_adj : forall n r A, (S r < n)%nat ->
  (forall j, (j < n)%nat -> A r j = A (S r) j) -> Rdet n A = 0.
Proof.
  induction n; intros r A Hr H; [lia|]. destruct r as [|r].
  - destruct n; [lia|]. apply Rdet_alt0. intros; apply H; lia.
  - rewrite Rdet_S. apply Rsum_zero. intros j Hj. rewrite (IHn r); [lra|lia|].
    intros k Hk. apply H. apply skip_lt; auto.
Qed.

(** From "vanishes on two equal rows p, q" to "changes sign when they are exchanged". *)
Definition swaprows (p q : nat) (A : nat -> nat -> R) (i j : nat) : R :=
  if Nat.eqb i p then A q j else if Nat.eqb i q then A p j else A i j.

Lemma Rdet_alt_swap : forall n p q A, (p < n)%nat -> (q < n)%nat -> p <> q ->
  (forall B, (forall j, (j < n)%nat -> B p j = B q j) -> Rdet n B = 0) ->
  Rdet n (swaprows p q A) = - Rdet n A.
Proof.
  intros n p q A Hp Hq Hne Z.
  set (D := fun u v => Rdet n (setrow p u (setrow q v A))).
  assert (DZ : forall u, D u u = 0).
  { intros u. apply Z. intros j Hj. unfold setrow. rewrite !Nat.eqb_refl.
    replace (Nat.eqb q p) with false by (symmetry; apply Nat.eqb_neq; auto). reflexivity. }
  assert (L1 : forall u u' v, D (fun j => 1 * u j + 1 * u' j) v = D u v + D u' v).
  { intros. unfold D. rewrite Rdet_linear by auto. lra. }
  assert (COM : forall u v, D u v = Rdet n (setrow q v (setrow p u A))).
  { intros. apply Rdet_ext'. intros i j Hi Hj. unfold setrow. natcases. reflexivity. reflexivity. reflexivity. }
  assert (L2 : forall u v v', D u (fun j => 1 * v j + 1 * v' j) = D u v + D u v').
  { intros. rewrite !COM. rewrite Rdet_linear by auto. lra. }
  assert (S1 : D (A q) (A p) = - D (A p) (A q)).
  { pose proof (DZ (fun j => 1 * A p j + 1 * A q j)) as H. rewrite L1, !L2, !DZ in H. lra. }
  transitivity (D (A q) (A p)).
  - apply Rdet_ext'. intros i j Hi Hj. unfold swaprows, setrow. reflexivity.
  - rewrite S1. f_equal. apply Rdet_ext'. intros i j Hi Hj. unfold setrow. natcases; subst; reflexivity.
Qed.

Lemma Rdet_alt_lt : forall n d p A, (p + S d < n)%nat ->
  (forall j, (j < n)%nat -> A p j = A (p + S d)%nat j) -> Rdet n A = 0.
Proof.
  induction d; intros p A Hq H.
  - apply Rdet_alt_adj with p. lia. intros j Hj. rewrite H by auto. f_equal. lia.
  - set (q := (p + S d)%nat).
    assert (E : Rdet n (swaprows q (S q) A) = 0).
    { apply IHd with p. unfold q in *; lia. intros j Hj. unfold swaprows. fold q. rewrite Nat.eqb_refl.
      replace (Nat.eqb p q) with false by (symmetry; apply Nat.eqb_neq; unfold q; lia).
      replace (Nat.eqb p (S q)) with false by (symmetry; apply Nat.eqb_neq; unfold q; lia).
      rewrite H by auto. f_equal. unfold q; lia. }
    rewrite (Rdet_alt_swap n q (S q)) in E; try (unfold q; lia). lra.
    intros B HB. apply Rdet_alt_adj with q; auto. unfold q; lia.
Qed.

Lemma Rdet_alt : forall n p q A, (p < n)%nat -> (q < n)%nat -> p <> q ->
  (forall j, (j < n)%nat -> A p j = A q j) -> Rdet n A = 0.
Proof.
  intros n p q A Hp Hq Hne H. destruct (lt_dec p q).
  - apply Rdet_alt_lt with (q - p - 1)%nat p. lia. intros j Hj. rewrite H by auto. f_equal. lia.
  - apply Rdet_alt_lt with (p - q - 1)%nat q. lia. intros j Hj. rewrite <- H by auto. f_equal. lia.
Qed.

Lemma Rdet_swap' : forall n A p k, (p < n)%nat -> (k < n)%nat -> p <> k ->
  Rdet n (fun i j => if Nat.eqb i p then A k j else if Nat.eqb i k then A p j else A i j)
  = - Rdet n A.
Proof.
  intros. apply (Rdet_alt_swap n p k A); auto. intros B HB. apply Rdet_alt with p k; auto.
Qed.

Lemma Rdet_addrow : forall n A i k c, (i < n)%nat -> (k < n)%nat -> i <> k ->
  Rdet n (setrow i (fun j => A i j - c * A k j) A) = Rdet n A.
Proof.
  intros n A i k c Hi Hk Hne.
  transitivity (Rdet n (setrow i (fun j => 1 * A i j + (- c) * A k j) A)).
  - apply Rdet_ext'. intros. unfold setrow. destruct (Nat.eqb i0 i); lra.
  - rewrite Rdet_linear by auto. rewrite (Rdet_alt n i k (setrow i (A k) A)); auto.
    + rewrite (Rdet_ext' n (setrow i (A i) A) A). lra.
      intros. unfold setrow. natcases; subst; reflexivity.
    + intros. unfold setrow. rewrite Nat.eqb_refl.
      replace (Nat.eqb k i) with false by (symmetry; apply Nat.eqb_neq; auto). reflexivity.
Qed.

Lemma Rdet_elim' : forall n A k p (c : nat -> R), (k < n)%nat -> p <> 0 ->
  Rdet n (fun i j => if Nat.eqb i k then A k j / p else A i j - c i * (A k j / p)) = Rdet n A / p.
Proof.
  intros n A k p c Hk Hp.
  set (B := fun m i j => if Nat.eqb i k then A k j / p
              else if Nat.ltb i m then A i j - c i * (A k j / p) else A i j).
  assert (B0 : Rdet n (B 0%nat) = Rdet n A / p).
  { transitivity (Rdet n (setrow k (fun j => / p * A k j) A)).
    - apply Rdet_ext'. intros. unfold B, setrow. destruct (Nat.eqb i k); auto.
      unfold Rdiv; lra.
    - rewrite Rdet_scale by auto. rewrite (Rdet_ext' n (setrow k (A k) A) A). unfold Rdiv; lra.
      intros. unfold setrow. natcases; subst; reflexivity. }
  assert (BS : forall m, (m <= n)%nat -> Rdet n (B m) = Rdet n A / p).
  { induction m; intros Hm; auto. rewrite <- IHm by lia. destruct (Nat.eq_dec m k) as [->|Hne].
    - apply Rdet_ext'. intros. unfold B. natcases; reflexivity.
    - rewrite <- (Rdet_addrow n (B m) m k (c m)) by (auto; lia). apply Rdet_ext'.
      intros. unfold B, setrow. rewrite Nat.eqb_refl. natcases; subst; reflexivity. }
  rewrite <- (BS n) by lia. apply Rdet_ext'. intros. unfold B. natcases; reflexivity.
Qed.

Lemma Rdet_delta : forall n, Rdet n (fun i j => if Nat.eqb i j then 1 else 0) = 1.
Proof.
  induction n; [reflexivity|]. rewrite Rdet_S. rewrite (Rsum_single (S n) 0) by
    (try lia; intros i Hi Hne; replace (Nat.eqb 0 i) with false by (symmetry; apply Nat.eqb_neq; lia); lra).
  rewrite (Rdet_ext' n _ (fun i j => if Nat.eqb i j then 1 else 0)).
  - rewrite IHn. unfold sg. simpl. lra.
  - intros. unfold skip. simpl. reflexivity.
Qed.

Lemma Rdet_0 : forall A, Rdet 0 A = 1.
Proof. reflexivity. Qed.

Lemma Rdet_zero_col : forall n A c, (c < n)%nat -> (forall i, (i < n)%nat -> A i c = 0) -> Rdet n A = 0.
Proof.
  induction n; intros A c Hc H; [lia|]. rewrite Rdet_S. apply Rsum_zero. intros j Hj.
  destruct (Nat.eq_dec j c) as [->|Hne].
  - rewrite H by lia. lra.
  - rewrite (IHn _ (if Nat.ltb c j then c else c - 1)%nat). lra.
    + natcases.
    + intros i Hi. rewrite <- (H (S i)) by lia. f_equal. unfold skip. natcases.
Qed.

Lemma Rdet_unit_cols : forall k A,
  (forall i j, (i < S k)%nat -> (j < k)%nat -> A i j = if Nat.eqb i j then 1 else 0) ->
  Rdet (S k) A = A k k.
Proof.
  induction k; intros A H.
  - rewrite Rdet_S. simpl. unfold sg. simpl. lra.
  - rewrite Rdet_S. rewrite (Rsum_single (S (S k)) 0).
    + rewrite (H 0%nat 0%nat) by lia. rewrite IHk.
      * unfold skip, sg. simpl. lra.
      * intros i j Hi Hj. replace (skip 0 j) with (S j) by (unfold skip; natcases).
        rewrite H by lia. reflexivity.
    + lia.
    + intros j Hj Hne. destruct (Nat.eq_dec j (S k)) as [->|].
      * rewrite (Rdet_zero_col _ _ 0). lra. lia. intros i Hi.
        replace (skip (S k) 0) with 0%nat by (unfold skip; natcases). rewrite H by lia. reflexivity.
      * rewrite H by lia. replace (Nat.eqb 0 j) with false by (symmetry; apply Nat.eqb_neq; lia). lra.
Qed.

Lemma Rdet_2 : forall A, Rdet 2 A = A 0%nat 0%nat * A 1%nat 1%nat - A 0%nat 1%nat * A 1%nat 0%nat.
Proof. intros. unfold Rdet, sg, skip. simpl. ring. Qed.
