(** Symmetric positive definite matrices: conjugate directions, determinant as a product of pivots, and
    the inequality between trace and determinant behind the maximum likelihood covariance. *)
From Coq Require Import Arith Lia Reals Lra.
From Verif Require Import RFacts Spec_Matrix Spec_Det Spec_EM Proofs_DetFacts.
Local Open Scope R_scope.

Definition ip (n : nat) (A : nat -> nat -> R) (x y : nat -> R) : R := Rsum n (fun i => Rsum n (fun j => x i * A i j * y j)).

Lemma qform_ip : forall n A x, qform n A x = ip n A x x.
Proof. reflexivity. Qed.

Lemma ip_plus_r : forall n A x y z, ip n A x (fun j => y j + z j) = ip n A x y + ip n A x z.
Proof. intros. unfold ip. rewrite <- Rsum_plus. apply Rsum_ext. intros. rewrite <- Rsum_plus. apply Rsum_ext. intros. ring. Qed.
Lemma ip_scal_r : forall n A x c y, ip n A x (fun j => c * y j) = c * ip n A x y.
Proof. intros. unfold ip. rewrite <- Rsum_scal_l. apply Rsum_ext. intros. rewrite <- Rsum_scal_l. apply Rsum_ext. intros. ring. Qed.
Lemma ip_sym : forall n A x y, (forall i j, (i < n)%nat -> (j < n)%nat -> A i j = A j i) -> ip n A x y = ip n A y x.
Proof. intros n A x y H. unfold ip. rewrite Rsum_swap. apply Rsum_ext. intros i Hi. apply Rsum_ext. intros j Hj. rewrite (H j i Hj Hi). ring. Qed.
Lemma ip_ext : forall n A x y x' y', (forall i, (i < n)%nat -> x i = x' i) -> (forall i, (i < n)%nat -> y i = y' i) -> ip n A x y = ip n A x' y'.
Proof. intros. unfold ip. apply Rsum_ext. intros. apply Rsum_ext. intros. rewrite H, H0 by assumption. reflexivity. Qed.
Lemma ip_sum_r : forall n A x m c (y : nat -> nat -> R), ip n A x (fun j => Rsum m (fun l => c l * y l j)) = Rsum m (fun l => c l * ip n A x (y l)).
Proof.
  intros n A x m c y. induction m as [|m IH].
  - cbn. unfold ip. apply Rsum_zero. intros. apply Rsum_zero. intros. ring.
  - cbn [Rsum]. rewrite <- IH. rewrite <- ip_scal_r, <- ip_plus_r. reflexivity.
Qed.
Lemma ip_delta_l : forall n A i x, (i < n)%nat -> ip n A (delta i) x = Rsum n (fun j => A i j * x j).
Proof.
  intros n A i x Hi. unfold ip. rewrite (Rsum_single n i); [|exact Hi|].
  - apply Rsum_ext. intros. unfold delta. rewrite Nat.eqb_refl. ring.
  - intros k Hk Hne. apply Rsum_zero. intros. unfold delta. destruct (Nat.eqb_spec i k); [congruence|ring].
Qed.

Lemma some_nonzero : forall n (z : nat -> R), (exists i, (i < n)%nat /\ z i <> 0) \/ forall i, (i < n)%nat -> z i = 0.
Proof.
  intros n z. induction n as [|n [IH|IH]].
  - right. intros; lia.
  - destruct IH as (i & Hi & H). left. exists i. split; [lia|exact H].
  - destruct (Req_dec (z n) 0) as [H|H]; [|left; exists n; split; [lia|exact H]].
    right. intros i Hi. destruct (Nat.eq_dec i n) as [->|]; [exact H|]. apply IH. lia.
Qed.

Section PD.
  Variable n : nat.
  Variable A : nat -> nat -> R.
  Hypothesis sym : forall i j, (i < n)%nat -> (j < n)%nat -> A i j = A j i.
  Hypothesis pd : forall x, (exists i, (i < n)%nat /\ x i <> 0) -> 0 < qform n A x.

  (** Conjugate directions: [y k] has a 1 at [k] and zeros after it. *)
  Definition conj (m : nat) (y : nat -> nat -> R) : Prop :=
    (forall k, (k < m)%nat -> y k k = 1 /\ forall i, (k < i)%nat -> y k i = 0) /\
    (forall k l, (k < m)%nat -> (l < m)%nat -> k <> l -> ip n A (y k) (y l) = 0) /\
    (exists c : nat -> nat -> R, (forall i l, (i < l)%nat -> c i l = 0) /\ forall i j, (i < m)%nat -> delta i j = Rsum m (fun l => c i l * y l j)).

  Lemma conj_pos : forall m y k, (m <= n)%nat -> conj m y -> (k < m)%nat -> 0 < ip n A (y k) (y k).
  Proof. intros m y k Hm (H & _) Hk. rewrite <- qform_ip. apply pd. exists k. split; [lia|]. rewrite (proj1 (H k Hk)). lra. Qed.

  Lemma conj_exists : forall m, (m <= n)%nat -> exists y, conj m y.
  Proof.
    induction m as [|m IH]; intro Hm.
    - exists (fun _ _ => 0). split; [intros; lia|]. split; [intros; lia|]. exists (fun _ _ => 0). split; [reflexivity|]. intros; lia.
    - destruct (IH ltac:(lia)) as (y & C). pose proof (fun k => conj_pos m y k ltac:(lia) C) as P. destruct C as (T & O & (c & Z & E)).
      set (a := fun l => ip n A (y l) (delta m) / ip n A (y l) (y l)).
      set (v := fun j => delta m j + (-1) * Rsum m (fun l => a l * y l j)).
      assert (V : forall k, (k < m)%nat -> ip n A (y k) v = 0).
      { intros k Hk. unfold v. rewrite ip_plus_r, (ip_scal_r n A (y k) (-1)), ip_sum_r. rewrite (Rsum_single m k); [|exact Hk|].
        - unfold a. field. apply Rgt_not_eq. apply P. exact Hk.
        - intros l Hl Hne. rewrite (O k l Hk Hl) by congruence. ring. }
      exists (fun k j => if Nat.eqb k m then v j else y k j). split; [|split].
      + intros k Hk. destruct (Nat.eqb_spec k m) as [->|Hne].
        * split.
          { unfold v. rewrite Rsum_zero; [unfold delta; rewrite Nat.eqb_refl; ring|]. intros l Hl. rewrite (proj2 (T l Hl)) by lia. ring. }
          intros i Hi. unfold v. rewrite Rsum_zero; [unfold delta; destruct (Nat.eqb_spec m i); [lia|ring]|]. intros l Hl. rewrite (proj2 (T l Hl)) by lia. ring.
        * apply T. lia.
      + intros k l Hk Hl Hne. destruct (Nat.eqb_spec k m), (Nat.eqb_spec l m); subst; try congruence.
        * change (ip n A v (y l) = 0). rewrite ip_sym by exact sym. apply V. lia.
        * change (ip n A (y k) v = 0). apply V. lia.
        * apply O; lia.
      + exists (fun i l => if Nat.eqb i m then (if Nat.eqb l m then 1 else if Nat.ltb l m then a l else 0) else if Nat.eqb l m then 0 else c i l). split.
        * intros i l H. destruct (Nat.eqb_spec i m).
          { subst. destruct (Nat.eqb_spec l m); [lia|]. destruct (Nat.ltb_spec l m); [lia|reflexivity]. }
          destruct (Nat.eqb_spec l m); [reflexivity|]. apply Z. exact H.
        * intros i j Hi. cbn [Rsum]. rewrite !Nat.eqb_refl. destruct (Nat.eqb_spec i m) as [->|Hne].
          { rewrite (Rsum_ext m _ (fun l => a l * y l j)).
            - unfold v. ring.
            - intros l Hl. destruct (Nat.eqb_spec l m); [lia|]. destruct (Nat.ltb_spec l m); [reflexivity|lia]. }
          rewrite (E i j) by lia. match goal with |- _ = ?a + ?b => replace b with 0 by ring end. rewrite Rplus_0_r. apply Rsum_ext.
          intros l Hl. destruct (Nat.eqb_spec l m); [lia|reflexivity].
  Qed.

  Lemma conj_zero : forall y, conj n y -> forall k i, (k < n)%nat -> (i < k)%nat -> Rsum n (fun j => A i j * y k j) = 0.
  Proof.
    intros y (T & O & (c & Z & E)) k i Hk Hi. rewrite <- ip_delta_l by lia. rewrite ip_sym by exact sym.
    rewrite (ip_ext n A (y k) (delta i) (y k) (fun j => Rsum n (fun l => c i l * y l j))); [|reflexivity|intros; apply E; lia].
    rewrite ip_sum_r. apply Rsum_zero. intros l Hl. destruct (Nat.eq_dec l k) as [->|Hne]; [rewrite Z by exact Hi; ring|]. rewrite (O k l Hk Hl) by congruence. ring.
  Qed.

  (** A conjugate direction minimises the quadratic form. *)
  Lemma conj_min : forall y, conj n y -> forall k x, (k < n)%nat -> x k = 1 -> (forall i, (k < i)%nat -> x i = 0) -> qform n A (y k) <= qform n A x.
  Proof.
    intros y C k x Hk X1 X0. pose proof (conj_zero y C k) as Z0. destruct C as (T & _). destruct (T k Hk) as (Y1 & Y0).
    set (z := fun i => x i + (-1) * y k i).
    assert (Zk : forall i, (k <= i)%nat -> z i = 0). { intros i Hi. unfold z. destruct (Nat.eq_dec i k) as [->|]; [rewrite X1, Y1; ring|]. rewrite X0, Y0 by lia. ring. }
    assert (OR : ip n A z (y k) = 0).
    { unfold ip. apply Rsum_zero. intros i Hi. rewrite (Rsum_ext n _ (fun j => z i * (A i j * y k j))) by (intros; ring). rewrite Rsum_scal_l.
      destruct (le_lt_dec k i); [rewrite Zk by assumption; ring|]. rewrite Z0 by assumption. ring. }
    rewrite !qform_ip. rewrite (ip_ext n A x x (fun i => y k i + z i) (fun i => y k i + z i)) by (intros; unfold z; ring).
    rewrite ip_plus_r. rewrite (ip_sym n A (fun i => y k i + z i) (y k)), (ip_sym n A (fun i => y k i + z i) z) by exact sym. rewrite !ip_plus_r.
    rewrite (ip_sym n A (y k) z), OR by exact sym.
    assert (0 <= ip n A z z). { destruct (Rle_dec 0 (ip n A z z)); [assumption|]. exfalso. apply n0. rewrite <- qform_ip.
      destruct (some_nonzero n z) as [Q|Q]; [left; apply pd; exact Q|].
      right. unfold qform. symmetry. apply Rsum_zero. intros i Hi. apply Rsum_zero. intros j Hj. rewrite (Q i Hi). ring. }
    lra.
  Qed.

  (** The inverse from the conjugate directions. *)
  Lemma conj_inverse : forall y B, conj n y -> is_inverse n A B -> forall i j, (i < n)%nat -> (j < n)%nat ->
    B i j = Rsum n (fun k => y k i * y k j / ip n A (y k) (y k)).
  Proof.
    intros y B C I i j Hi Hj. pose proof (fun k => conj_pos n y k (le_n n) C) as P. destruct C as (T & O & (c & Z & E)).
    (* P A y_l = y_l *)
    assert (PA : forall l r, (l < n)%nat -> (r < n)%nat -> Rsum n (fun k => y k r / ip n A (y k) (y k) * ip n A (y k) (y l)) = y l r).
    { intros l r Hl Hr. rewrite (Rsum_single n l); [|exact Hl|].
      - field. apply Rgt_not_eq. apply P. exact Hl.
      - intros k Hk Hne. rewrite (O k l Hk Hl) by congruence. ring. }
    (* P A e_m = e_m *)
    assert (PE : forall m r, (m < n)%nat -> (r < n)%nat -> Rsum n (fun k => y k r / ip n A (y k) (y k) * ip n A (y k) (delta m)) = delta m r).
    { intros m r Hm Hr. rewrite (E m r Hm). rewrite (Rsum_ext n _ (fun k => Rsum n (fun l => c m l * (y k r / ip n A (y k) (y k) * ip n A (y k) (y l))))).
      - rewrite Rsum_swap. apply Rsum_ext. intros l Hl. rewrite Rsum_scal_l. rewrite PA by assumption. reflexivity.
      - intros k Hk. rewrite (ip_ext n A (y k) (delta m) (y k) (fun j => Rsum n (fun l => c m l * y l j))); [|reflexivity|intros; apply E; exact Hm].
        rewrite ip_sum_r. rewrite <- Rsum_scal_l. apply Rsum_ext. intros. ring. }
    assert (AB : forall k, Rsum n (fun m => ip n A (y k) (delta m) * B m j) = y k j).
    { intro k. rewrite (Rsum_ext n _ (fun m => Rsum n (fun i => y k i * A i m) * B m j)).
      - rewrite (Rsum_ext n _ (fun m => Rsum n (fun i => y k i * (A i m * B m j)))) by (intros; rewrite <- Rsum_scal_r; apply Rsum_ext; intros; ring).
        rewrite Rsum_swap. rewrite (Rsum_ext n _ (fun i => y k i * delta i j)).
        + rewrite (Rsum_single n j); [unfold delta; rewrite Nat.eqb_refl; ring|exact Hj|]. intros i0 _ Hne. unfold delta. destruct (Nat.eqb_spec i0 j); [congruence|ring].
        + intros i0 Hi0. rewrite Rsum_scal_l. f_equal. apply (I i0 j Hi0 Hj).
      - intros m Hm. f_equal. rewrite ip_sym by exact sym. rewrite ip_delta_l by exact Hm. apply Rsum_ext. intros i0 Hi0. rewrite (sym m i0) by assumption. ring. }
    transitivity (Rsum n (fun m => delta m i * B m j)).
    { rewrite (Rsum_single n i); [unfold delta; rewrite Nat.eqb_refl; ring|exact Hi|]. intros m _ Hne. unfold delta. destruct (Nat.eqb_spec m i); [congruence|ring]. }
    rewrite (Rsum_ext n _ (fun m => Rsum n (fun k => y k i / ip n A (y k) (y k) * (ip n A (y k) (delta m) * B m j)))).
    - rewrite Rsum_swap. apply Rsum_ext. intros k Hk. rewrite Rsum_scal_l, AB. unfold Rdiv. ring.
    - intros m Hm. rewrite <- (PE m i Hm Hi). rewrite <- Rsum_scal_r. apply Rsum_ext. intros. ring.
  Qed.
End PD.

(** ** Determinants *)
Lemma Rdet_zero_row : forall n A r, (r < n)%nat -> (forall j, (j < n)%nat -> A r j = 0) -> Rdet n A = 0.
Proof.
  intros n A r Hr H. transitivity (Rdet n (setrow r (fun j => 0 * A r j) A)).
  - apply Rdet_ext'. intros i j Hi Hj. unfold setrow. destruct (Nat.eqb_spec i r) as [->|]; [rewrite H by exact Hj; ring|reflexivity].
  - rewrite Rdet_scale by exact Hr. ring.
Qed.

Lemma Rsum_trunc : forall n m f, (m <= n)%nat -> (forall i, (m <= i < n)%nat -> f i = 0) -> Rsum n f = Rsum m f.
Proof.
  intros n m f Hm H. replace n with (m + (n - m))%nat by lia. rewrite Rsum_split.
  rewrite (Rsum_zero (n - m)); [ring|]. intros. apply H. lia.
Qed.

Lemma Rdet_last_row : forall n A, (forall j, (j < n)%nat -> A n j = 0) -> Rdet (S n) A = A n n * Rdet n A.
Proof.
  induction n as [|n IH]; intros A H.
  - rewrite Rdet_S. cbn. unfold sg. cbn. ring.
  - rewrite Rdet_S. rewrite (Rsum_trunc (S (S n)) (S n)); [|lia|].
    + rewrite (Rdet_S n A), <- Rsum_scal_l. apply Rsum_ext. intros j Hj. rewrite IH.
      * replace (skip j n) with (S n); [ring|]. unfold skip. destruct (Nat.ltb_spec n j); lia.
      * intros k Hk. apply H. unfold skip. destruct (Nat.ltb_spec k j); lia.
    + intros j Hj. replace j with (S n) by lia. rewrite (Rdet_zero_row (S n) _ n); [ring|lia|].
      intros k Hk. apply H. unfold skip. destruct (Nat.ltb_spec k (S n)); lia.
Qed.

Lemma Rdet_comb_row : forall n r A m (c : nat -> R), (r < n)%nat -> (m <= n)%nat ->
  Rdet n (setrow r (fun j => Rsum m (fun l => c l * A l j)) A) = (if Nat.ltb r m then c r else 0) * Rdet n A.
Proof.
  intros n r A m c Hr. induction m as [|m IH]; intro Hm.
  - cbn [Rsum]. rewrite (Rdet_zero_row n _ r Hr); [cbn; ring|]. intros j Hj. unfold setrow. rewrite Nat.eqb_refl. reflexivity.
  - cbn [Rsum]. transitivity (1 * Rdet n (setrow r (fun j => Rsum m (fun l => c l * A l j)) A) + c m * Rdet n (setrow r (A m) A)).
    + rewrite <- Rdet_linear by exact Hr. apply Rdet_ext'. intros i j Hi Hj. unfold setrow. destruct (Nat.eqb i r); [ring|reflexivity].
    + rewrite IH by lia. destruct (Nat.eq_dec m r) as [->|Hne].
      * replace (Rdet n (setrow r (A r) A)) with (Rdet n A).
        -- destruct (Nat.ltb_spec r r), (Nat.ltb_spec r (S r)); try lia. ring.
        -- apply Rdet_ext'. intros i j Hi Hj. unfold setrow. destruct (Nat.eqb_spec i r) as [->|]; reflexivity.
      * rewrite (Rdet_alt n r m (setrow r (A m) A)); [|lia|lia|lia|intros j Hj; unfold setrow; rewrite Nat.eqb_refl; destruct (Nat.eqb_spec m r); [congruence|reflexivity]].
        destruct (Nat.ltb_spec r m), (Nat.ltb_spec r (S m)); try lia; ring.
Qed.

Lemma conj_det : forall n A y, (forall i j, (i < n)%nat -> (j < n)%nat -> A i j = A j i) -> conj n A n y ->
  forall k, (k < n)%nat -> Rdet (S k) A = ip n A (y k) (y k) * Rdet k A.
Proof.
  intros n A y sym C k Hk. pose proof (conj_zero n A sym y C k) as Z0. destruct C as (T & _). destruct (T k Hk) as (Y1 & Y0).
  pose proof (Rdet_comb_row (S k) k A (S k) (y k) ltac:(lia) (le_n _)) as E. destruct (Nat.ltb_spec k (S k)); [|lia]. rewrite Y1, Rmult_1_l in E. rewrite <- E.
  assert (SM : forall j, (j < n)%nat -> Rsum (S k) (fun l => y k l * A l j) = Rsum n (fun l => A j l * y k l)).
  { intros j Hj. rewrite (Rsum_trunc n (S k)); [|lia|intros i Hi; rewrite Y0 by lia; ring]. apply Rsum_ext. intros i Hi. rewrite (sym i j) by lia. ring. }
  rewrite Rdet_last_row.
  - f_equal.
    + unfold setrow. rewrite Nat.eqb_refl, SM by lia. unfold ip.
      symmetry. transitivity (Rsum n (fun i => y k i * Rsum n (fun j => A i j * y k j))).
      { apply Rsum_ext. intros. rewrite <- Rsum_scal_l. apply Rsum_ext. intros. ring. }
      rewrite (Rsum_single n k); [rewrite Y1; ring|exact Hk|]. intros i Hi Hne. destruct (lt_dec i k); [rewrite Z0 by (try assumption); ring|]. rewrite Y0 by lia. ring.
    + apply Rdet_ext'. intros i j Hi Hj. unfold setrow. destruct (Nat.eqb_spec i k); [lia|reflexivity].
  - intros j Hj. unfold setrow. rewrite Nat.eqb_refl, SM by lia. apply Z0; lia.
Qed.

Lemma pd_det_ln : forall n A y, symm n A -> posdef n A -> conj n A n y ->
  forall k, (k <= n)%nat -> 0 < Rdet k A /\ ln (Rdet k A) = Rsum k (fun l => ln (ip n A (y l) (y l))).
Proof.
  intros n A y sym pd C. induction k as [|k IH]; intro Hk.
  - rewrite Rdet_0. cbn. split; [lra|apply ln_1].
  - destruct (IH ltac:(lia)) as (P & E). pose proof (conj_pos n A pd n y k (le_n n) C Hk) as Q.
    rewrite (conj_det n A y sym C k Hk). split; [apply Rmult_lt_0_compat; assumption|]. rewrite ln_mult by assumption. cbn [Rsum]. rewrite E. ring.
Qed.

Lemma pd_det_pos : forall n A, symm n A -> posdef n A -> 0 < Rdet n A.
Proof. intros n A sym pd. destruct (conj_exists n A sym pd n (le_n n)) as (y & C). apply (pd_det_ln n A y sym pd C n (le_n n)). Qed.

Lemma ln_le_sub : forall z, 0 < z -> ln z <= z - 1.
Proof. intros z H. destruct (Req_dec (ln z) 0) as [E|E].
  - rewrite E. assert (z = 1) by (apply ln_inv; [exact H|lra|rewrite ln_1; exact E]). lra.
  - pose proof (exp_ineq1 (ln z) E). rewrite exp_ln in H0 by exact H. lra.
 Qed.

Lemma trace_conj : forall n A B W y, symm n A -> posdef n A -> conj n A n y -> is_inverse n A B ->
  trace n B W = Rsum n (fun k => ip n W (y k) (y k) / ip n A (y k) (y k)).
Proof.
  intros n A B W y sS pS C I. unfold trace. rewrite (Rsum_ext n _ (fun i => Rsum n (fun j => Rsum n (fun k => y k i * W i j * y k j / ip n A (y k) (y k))))).
  - rewrite (Rsum_ext n _ (fun i => Rsum n (fun k => Rsum n (fun j => y k i * W i j * y k j / ip n A (y k) (y k))))) by (intros; apply Rsum_swap).
    rewrite Rsum_swap. apply Rsum_ext. intros k Hk. unfold Rdiv. rewrite (Rsum_ext n _ (fun i => Rsum n (fun j => y k i * W i j * y k j) * / ip n A (y k) (y k))) by (intros; apply Rsum_scal_r).
    rewrite Rsum_scal_r. reflexivity.
  - intros i Hi. apply Rsum_ext. intros j Hj. rewrite (conj_inverse n A sS pS y B C I i j Hi Hj). rewrite <- Rsum_scal_r. apply Rsum_ext. intros. unfold Rdiv. ring.
Qed.

Lemma trace_nonneg : forall n A B W, symm n A -> posdef n A -> is_inverse n A B -> (forall x, 0 <= qform n W x) -> 0 <= trace n B W.
Proof.
  intros n A B W sS pS I H. destruct (conj_exists n A sS pS n (le_n n)) as (y & C). rewrite (trace_conj n A B W y sS pS C I).
  apply Rsum_nonneg. intros k Hk. apply Rmult_le_pos; [exact (H (y k))|]. left. apply Rinv_0_lt_compat. exact (conj_pos n A pS n y k (le_n n) C Hk).
Qed.

Lemma inv_psd : forall n A B x, symm n A -> posdef n A -> is_inverse n A B -> 0 <= qform n B x.
Proof.
  intros n A B x sS pS I. replace (qform n B x) with (trace n B (fun i j => x i * x j)).
  - apply (trace_nonneg n A B _ sS pS I). intro v. replace (qform n (fun i j => x i * x j) v) with (Rsum n (fun i => v i * x i) * Rsum n (fun i => v i * x i)); [apply Rle_0_sqr|].
    unfold qform. rewrite <- Rsum_scal_r. apply Rsum_ext. intros i Hi. rewrite <- Rsum_scal_l. apply Rsum_ext. intros. ring.
  - unfold trace, qform. apply Rsum_ext. intros. apply Rsum_ext. intros. ring.
Qed.

(** Among covariances, [W] itself maximises the expected likelihood of a Gaussian. *)
Lemma trace_det : forall n S B W, symm n S -> posdef n S -> symm n W -> posdef n W -> is_inverse n S B ->
  ln (Rdet n W) + INR n <= ln (Rdet n S) + trace n B W.
Proof.
  intros n A B W sS pS sW pW I. destruct (conj_exists n A sS pS n (le_n n)) as (y & C). destruct (conj_exists n W sW pW n (le_n n)) as (z & D).
  rewrite (proj2 (pd_det_ln n A y sS pS C n (le_n n))), (proj2 (pd_det_ln n W z sW pW D n (le_n n))).
  rewrite (trace_conj n A B W y sS pS C I).
  assert (N : INR n = Rsum n (fun _ => 1)). { clear. induction n as [|n IH]; [reflexivity|]. rewrite S_INR, IH. reflexivity. }
  rewrite N, <- !Rsum_plus. apply Rsum_le. intros k Hk.
  pose proof (conj_pos n A pS n y k (le_n n) C Hk) as P1. pose proof (conj_pos n W pW n z k (le_n n) D Hk) as P2.
  destruct (proj1 C k Hk) as (Y1 & Y0). pose proof (conj_min n W sW pW z D k (y k) Hk Y1 Y0) as M. rewrite !qform_ip in M.
  set (s := ip n A (y k) (y k)) in *. set (w := ip n W (z k) (z k)) in *. set (v := ip n W (y k) (y k)) in *.
  assert (L : ln (w / s) <= w / s - 1). { apply ln_le_sub. apply Rdiv_lt_0_compat; assumption. }
  unfold Rdiv in L at 1. rewrite ln_mult, ln_Rinv in L by (try apply Rinv_0_lt_compat; assumption).
  assert (w / s <= v / s). { apply Rmult_le_compat_r; [left; apply Rinv_0_lt_compat; exact P1|exact M]. } lra.
Qed.
