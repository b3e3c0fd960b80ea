(** Matrix algebra over the reals: the Gauss-Jordan inverse. *)
From Coq Require Import List Bool Arith Lia Reals Lra QArith Qreals.
From Verif Require Import Base BaseFacts Arith RFacts Model_Matrix Spec_Matrix Proofs_MatrixGen.
Import ListNotations.
Local Open Scope R_scope.


Lemma cell_RA : forall w (d : list R) i j, @cell RA w d i j = rcell w d i j.
Proof. intros. unfold cell, rcell. rewrite n0_RA. reflexivity. Qed.

Lemma ent_RA : forall (m : rmat) i j, @ent RA m i j = rent m i j.
Proof. intros. apply cell_RA. Qed.

Lemma eps_RA : @eps_pinv RA = eps9.
Proof. unfold eps_pinv, eps9. simpl. unfold Q2R. simpl. lra. Qed.
Lemma eps9_pos : 0 < eps9.
Proof. unfold eps9. lra. Qed.

Lemma small_RA : forall x, @small RA x = false <-> eps9 <= Rabs x.
Proof. intros. unfold small. rewrite nltb_RA_false, eps_RA. reflexivity. Qed.
Lemma small_RA_true : forall x, @small RA x = true <-> Rabs x < eps9.
Proof. intros. unfold small. rewrite nltb_RA_true, eps_RA. reflexivity. Qed.

Lemma small_false_nz : forall x, @small RA x = false -> x <> 0.
Proof.
  intros x H. apply small_RA in H. intros ->. rewrite Rabs_R0 in H. pose proof eps9_pos. lra.
Qed.

Section GJ.
  Variable n : nat.
  Let w := (2 * n)%nat.

  Definition swp (p k : nat) (mat : list R) (i j : nat) : R :=
    if Nat.eqb i p then rcell w mat k j else if Nat.eqb i k then rcell w mat p j else rcell w mat i j.

  Lemma swp_RA : forall p k mat i j, @swapped RA w p k mat i j = swp p k mat i j.
  Proof. intros. unfold swapped, swp. rewrite !cell_RA. reflexivity. Qed.

  Lemma swp_k : forall p k mat j, swp p k mat k j = rcell w mat p j.
  Proof.
    intros. unfold swp. rewrite Nat.eqb_refl. destruct (Nat.eqb k p) eqn:E; auto.
    apply Nat.eqb_eq in E. subst; auto.
  Qed.

  (** One elimination step, over the reals. *)
  Definition elim (p k : nat) (mat new : list R) : Prop :=
    forall i j, (i < n)%nat -> (j < w)%nat ->
      rcell w new i j =
        if Nat.eqb i k then swp p k mat k j / swp p k mat k k
        else swp p k mat i j - swp p k mat i k * (swp p k mat k j / swp p k mat k k).

  Lemma gj_step_R : forall k (mat : list R) det, length mat = (n * w)%nat -> (k < n)%nat ->
    (@gj_step RA n k (mat, det) = Throw RuntimeError /\
       forall i, (k <= i < n)%nat -> Rabs (rcell w mat i k) < eps9) \/
    (exists p new, @gj_step RA n k (mat, det) = Ok (new, det * rcell w mat p k) /\
       (k <= p < n)%nat /\ eps9 <= Rabs (rcell w mat p k) /\
       (forall i, (k <= i < p)%nat -> Rabs (rcell w mat i k) < eps9) /\
       length new = (n * w)%nat /\ elim p k mat new).
  Proof.
    intros k mat det HL Hk.
    destruct (@gj_step_gen RA n k mat det HL Hk) as [(E & H)|(p & new & E & Hp & HS & HB & L & C)].
    - left. split; auto. intros i Hi. apply small_RA_true. rewrite <- cell_RA. apply H; auto.
    - right. exists p, new. rewrite cell_RA in E. split; auto. split; auto.
      split. apply small_RA. rewrite <- cell_RA. exact HS.
      split. intros i Hi. apply small_RA_true. rewrite <- cell_RA. apply HB; auto.
      split; auto. intros i j Hi Hj. rewrite <- cell_RA. rewrite C by auto.
      rewrite !swp_RA. reflexivity.
  Qed.

  Definition rowdot (mat : list R) (i : nat) (z : nat -> R) : R :=
    Rsum w (fun j => rcell w mat i j * z j).

  Lemma elim_solutions : forall p k mat new z,
    (k <= p < n)%nat -> rcell w mat p k <> 0 -> elim p k mat new ->
    ((forall i, (i < n)%nat -> rowdot mat i z = 0) <-> (forall i, (i < n)%nat -> rowdot new i z = 0)).
  Proof.
    intros p k mat new z Hp Hnz HE.
    set (S := fun i => Rsum w (fun j => swp p k mat i j * z j)).
    assert (HS : (forall i, (i < n)%nat -> rowdot mat i z = 0) <-> (forall i, (i < n)%nat -> S i = 0)).
    { assert (HSv : forall i, S i = if Nat.eqb i p then rowdot mat k z else
                             if Nat.eqb i k then rowdot mat p z else rowdot mat i z).
      { intros i. unfold S, rowdot, swp. destruct (Nat.eqb i p), (Nat.eqb i k); reflexivity. }
      split; intros H i Hi.
      - rewrite HSv. destruct (Nat.eqb i p), (Nat.eqb i k); apply H; lia.
      - destruct (Nat.eqb i p) eqn:E1; [|destruct (Nat.eqb i k) eqn:E2].
        + apply Nat.eqb_eq in E1. subst i. specialize (H k ltac:(lia)). rewrite HSv in H.
          rewrite Nat.eqb_refl in H. destruct (Nat.eqb k p) eqn:E; auto.
          apply Nat.eqb_eq in E. subst; auto.
        + apply Nat.eqb_eq in E2. subst i. specialize (H p ltac:(lia)). rewrite HSv in H.
          rewrite Nat.eqb_refl in H. auto.
        + specialize (H i Hi). rewrite HSv, E1, E2 in H. auto. }
    rewrite HS. clear HS.
    assert (Hk : swp p k mat k k <> 0) by (rewrite swp_k; auto).
    assert (Nk : rowdot new k z = S k / swp p k mat k k).
    { unfold rowdot, S. rewrite (Rsum_ext _ _ (fun j => (swp p k mat k j * z j) / swp p k mat k k)).
      apply Rsum_div. intros j Hj. rewrite HE by (auto; lia). rewrite Nat.eqb_refl. field. auto. }
    assert (Ni : forall i, (i < n)%nat -> i <> k ->
      rowdot new i z = S i - swp p k mat i k * (S k / swp p k mat k k)).
    { intros i Hi Hik. unfold rowdot, S.
      rewrite (Rsum_ext _ _ (fun j => swp p k mat i j * z j -
          (swp p k mat i k / swp p k mat k k) * (swp p k mat k j * z j))).
      - rewrite Rsum_minus, Rsum_scal_l. field. auto.
      - intros j Hj. rewrite HE by auto. apply Nat.eqb_neq in Hik. rewrite Hik. field. auto. }
    split; intros H i Hi.
    - destruct (Nat.eq_dec i k) as [->|]. rewrite Nk, H by auto. field; auto.
      rewrite Ni, !H by (auto; lia). field; auto.
    - assert (S k = 0).
      { specialize (H k ltac:(lia)). rewrite Nk in H. apply Rmult_eq_reg_r with (/ swp p k mat k k).
        rewrite Rmult_0_l. exact H. apply Rinv_neq_0_compat; auto. }
      destruct (Nat.eq_dec i k) as [->|]; auto.
      specialize (H i Hi). rewrite Ni in H by auto. rewrite H0 in H.
      replace (swp p k mat i k * (0 / swp p k mat k k)) with 0 in H by (field; auto). lra.
  Qed.

  (** Unit columns. *)
  Definition unit_cols (k : nat) (mat : list R) : Prop :=
    forall i j, (i < n)%nat -> (j < k)%nat -> rcell w mat i j = delta i j.

  Lemma elim_unit : forall p k mat new,
    (k <= p < n)%nat -> rcell w mat p k <> 0 -> elim p k mat new ->
    unit_cols k mat -> unit_cols (S k) new.
  Proof.
    intros p k mat new Hp Hnz HE HU i j Hi Hj.
    assert (Hk : swp p k mat k k <> 0) by (rewrite swp_k; auto).
    rewrite HE by (unfold w; lia).
    destruct (Nat.eq_dec j k) as [->|].
    - destruct (Nat.eqb i k) eqn:E. apply Nat.eqb_eq in E. subst. unfold delta.
      rewrite Nat.eqb_refl. field; auto.
      unfold delta. rewrite E. field; auto.
    - assert (Hjk : (j < k)%nat) by lia.
      assert (HS : forall i, (i < n)%nat -> swp p k mat i j = delta i j).
      { intros i' Hi'. unfold swp. destruct (Nat.eqb i' p) eqn:E1; [|destruct (Nat.eqb i' k) eqn:E2].
        - apply Nat.eqb_eq in E1. subst. rewrite HU by lia. unfold delta.
          replace (Nat.eqb k j) with false by (symmetry; apply Nat.eqb_neq; lia).
          replace (Nat.eqb p j) with false by (symmetry; apply Nat.eqb_neq; lia). reflexivity.
        - apply Nat.eqb_eq in E2. subst. rewrite HU by lia. unfold delta.
          replace (Nat.eqb k j) with false by (symmetry; apply Nat.eqb_neq; lia).
          replace (Nat.eqb p j) with false by (symmetry; apply Nat.eqb_neq; lia). reflexivity.
        - apply HU; auto. }
      assert (HK0 : swp p k mat k j = 0).
      { rewrite HS by lia. unfold delta.
        replace (Nat.eqb k j) with false by (symmetry; apply Nat.eqb_neq; lia). reflexivity. }
      rewrite HK0, HS by auto. destruct (Nat.eqb i k) eqn:E.
      + apply Nat.eqb_eq in E. subst. unfold delta.
        replace (Nat.eqb k j) with false by (symmetry; apply Nat.eqb_neq; lia). field; auto.
      + field; auto.
  Qed.

  (** The right half applied to the original matrix gives the left half. *)
  Definition right_times (A : nat -> nat -> R) (mat : list R) : Prop :=
    forall i j, (i < n)%nat -> (j < n)%nat ->
      rcell w mat i j = Rsum n (fun m => rcell w mat i (n + m) * A m j).

  Lemma elim_right : forall A p k mat new,
    (k <= p < n)%nat -> rcell w mat p k <> 0 -> elim p k mat new ->
    right_times A mat -> right_times A new.
  Proof.
    intros A p k mat new Hp Hnz HE HR i j Hi Hj.
    assert (Hk : swp p k mat k k <> 0) by (rewrite swp_k; auto).
    assert (HS : forall i j, (i < n)%nat -> (j < n)%nat ->
       swp p k mat i j = Rsum n (fun m => swp p k mat i (n + m) * A m j)).
    { intros i' j' Hi' Hj'. unfold swp. destruct (Nat.eqb i' p), (Nat.eqb i' k); apply HR; lia. }
    rewrite HE by (auto; unfold w; lia).
    rewrite (Rsum_ext _ _ (fun m => (if Nat.eqb i k then swp p k mat k (n + m) / swp p k mat k k
       else swp p k mat i (n + m) - swp p k mat i k * (swp p k mat k (n + m) / swp p k mat k k)) * A m j)).
    2:{ intros m Hm. rewrite HE by (auto; unfold w; lia). reflexivity. }
    destruct (Nat.eqb i k) eqn:E.
    - rewrite (Rsum_ext _ _ (fun m => (swp p k mat k (n + m) * A m j) / swp p k mat k k)).
      rewrite Rsum_div, <- HS by (auto; lia). reflexivity. intros; field; auto.
    - rewrite (Rsum_ext _ _ (fun m => swp p k mat i (n + m) * A m j -
          (swp p k mat i k / swp p k mat k k) * (swp p k mat k (n + m) * A m j))).
      rewrite Rsum_minus, Rsum_scal_l, <- !HS by (auto; lia). field; auto.
      intros; field; auto.
  Qed.

  Lemma gj_loop : forall A (mat0 : list R),
    length mat0 = (n * w)%nat -> right_times A mat0 ->
    forall k matk detk, (k <= n)%nat -> iterM k (@gj_step RA n) (mat0, 1) = Ok (matk, detk) ->
      length matk = (n * w)%nat /\ unit_cols k matk /\ right_times A matk /\ detk <> 0 /\
      forall z, (forall i, (i < n)%nat -> rowdot mat0 i z = 0) <->
                (forall i, (i < n)%nat -> rowdot matk i z = 0).
  Proof.
    intros A mat0 HL HR. induction k; intros matk detk Hk H.
    - simpl in H. inversion H; subst. repeat split; auto; try tauto; try lra. intros i j _ Hj; lia.
    - simpl in H. apply bind_ok_inv in H as ([mat det] & E & H).
      destruct (IHk mat det ltac:(lia) E) as (L & U & RT & D & Z).
      destruct (gj_step_R k mat det L ltac:(lia)) as [(E2 & _)|(p & new & E2 & Hp & HS & _ & L2 & HE)];
        change (num RA) with R in *; rewrite E2 in H; inversion H; subst.
      assert (Hnz : rcell w mat p k <> 0).
      { intro X. rewrite X, Rabs_R0 in HS. pose proof eps9_pos. lra. }
      split; auto. split. eapply elim_unit; eauto. split. eapply elim_right; eauto.
      split. apply Rmult_integral_contrapositive_currified; auto.
      intro z. rewrite Z. apply (elim_solutions p k); auto.
  Qed.

  (** The augmented matrix. *)
  Lemma gj_init_R : forall data : list R, length data = (n * n)%nat ->
    exists mat, @gj_init RA n data = Ok mat /\ length mat = (n * w)%nat /\
      right_times (rcell n data) mat /\
      (forall i m, (i < n)%nat -> (m < n)%nat -> rcell w mat i (n + m) = delta i m) /\
      (forall i j, (i < n)%nat -> (j < n)%nat -> rcell w mat i j = rcell n data i j).
  Proof.
    intros data HL. destruct (@gj_init_gen RA n data HL) as (mat & E & L & C).
    exists mat. split; auto. split; auto.
    assert (CR : forall i m, (i < n)%nat -> (m < n)%nat -> rcell w mat i (n + m) = delta i m).
    { intros i m Hi Hm. rewrite <- cell_RA. rewrite C by (auto; lia).
      replace (Nat.ltb (n + m) n) with false by (symmetry; apply Nat.ltb_ge; lia).
      unfold delta. destruct (Nat.eq_dec i m) as [->|].
      - rewrite !Nat.eqb_refl. apply n1_RA.
      - replace (Nat.eqb (n + m) (n + i)) with false by (symmetry; apply Nat.eqb_neq; lia).
        replace (Nat.eqb i m) with false by (symmetry; apply Nat.eqb_neq; lia). apply n0_RA. }
    assert (CL : forall i j, (i < n)%nat -> (j < n)%nat -> rcell w mat i j = rcell n data i j).
    { intros i j Hi Hj. rewrite <- cell_RA. rewrite C by (auto; lia).
      replace (Nat.ltb j n) with true by (symmetry; apply Nat.ltb_lt; lia). apply cell_RA. }
    repeat split; auto. intros i j Hi Hj. rewrite CL by auto.
    rewrite (Rsum_ext _ _ (fun m => (if Nat.eqb m i then 1 else 0) * rcell n data m j)).
    rewrite Rsum_delta by auto. reflexivity.
    intros m Hm. rewrite CR by auto. unfold delta. rewrite Nat.eqb_sym. reflexivity.
  Qed.

  (** From equal solution sets to a two-sided inverse. *)
  Lemma solutions_inverse : forall (A E : nat -> nat -> R),
    (forall x y : nat -> R,
       (forall i, (i < n)%nat -> Rsum n (fun j => A i j * x j) = y i) <->
       (forall i, (i < n)%nat -> x i = Rsum n (fun j => E i j * y j))) ->
    is_inverse n A E.
  Proof.
    intros A E H i j Hi Hj. unfold mmul. split.
    - (* A E = I : take y = e_j, x = E e_j *)
      destruct (H (fun l => E l j) (fun l => delta l j)) as [_ H2].
      assert (X : forall l, (l < n)%nat -> E l j = Rsum n (fun m => E l m * delta m j)).
      { intros l Hl. rewrite (Rsum_single n j); auto.
        unfold delta; rewrite Nat.eqb_refl; lra.
        intros m Hm Hmj. unfold delta. apply Nat.eqb_neq in Hmj. rewrite Hmj. lra. }
      apply (H2 X i Hi).
    - (* E A = I : take x = e_j, y = A e_j *)
      destruct (H (fun l => delta l j) (fun l => A l j)) as [H1 _].
      assert (X : forall l, (l < n)%nat -> Rsum n (fun m => A l m * delta m j) = A l j).
      { intros l Hl. rewrite (Rsum_single n j); auto.
        unfold delta; rewrite Nat.eqb_refl; lra.
        intros m Hm Hmj. unfold delta. apply Nat.eqb_neq in Hmj. rewrite Hmj. lra. }
      symmetry. apply (H1 X i Hi).
  Qed.
End GJ.

Lemma rowdot_split : forall n mat i (z : nat -> R),
  rowdot n mat i z = Rsum n (fun j => rcell (2 * n) mat i j * z j) +
                     Rsum n (fun m => rcell (2 * n) mat i (n + m) * z (n + m)%nat).
Proof.
  intros. unfold rowdot. replace (2 * n)%nat with (n + n)%nat by lia. apply Rsum_split.
Qed.

Lemma gauss_jordan_inverse_R : forall (m inv : rmat) det,
  wf_mat m -> gauss_jordan m = Ok (inv, det) ->
  wf_mat inv /\ m_rows inv = m_rows m /\ m_cols inv = m_rows m /\ m_cols m = m_rows m /\
  det <> 0 /\ is_inverse (m_rows m) (rent m) (rent inv).
Proof.
  intros m inv det WF H. unfold gauss_jordan in H.
  destruct (Nat.eqb (m_rows m) (m_cols m)) eqn:ES; cbn [negb] in H; [|discriminate].
  apply Nat.eqb_eq in ES. set (n := m_rows m) in *.
  assert (HL : length (m_data m) = (n * n)%nat).
  { unfold wf_mat in WF. rewrite WF. fold n. rewrite <- ES. reflexivity. }
  destruct (gj_init_R n (m_data m) HL) as (mat0 & E0 & L0 & R0 & CR & CL).
  change (num RA) with R in *. rewrite E0 in H. cbn [bind] in H.
  apply bind_ok_inv in H as ([mat det'] & E1 & H). rewrite n1_RA in E1.
  destruct (gj_loop n (rcell n (m_data m)) mat0 L0 R0 n mat det' (le_n _) E1) as (L & U & RT & D & Z).
  destruct (@gj_extract RA n mat L) as (dst & E2 & L2 & C2).
  change (num RA) with R in *. rewrite E2 in H. cbn [bind] in H. inversion H; subst inv det'. clear H.
    assert (C2' : forall i j, (i < n)%nat -> (j < n)%nat -> rcell n dst i j = rcell (2 * n) mat i (n + j)).
    { intros i j Hi Hj. rewrite <- !cell_RA. apply C2; auto. }
    assert (INV : is_inverse n (rent m) (rent (@mkMat RA n n dst))).
    { apply solutions_inverse. intros x y.
      set (z := fun j => if Nat.ltb j n then x j else - y (j - n)%nat).
      assert (Zx : forall j, (j < n)%nat -> z j = x j).
      { intros j Hj. unfold z. apply Nat.ltb_lt in Hj. rewrite Hj. reflexivity. }
      assert (Zy : forall j, (j < n)%nat -> z (n + j)%nat = - y j).
      { intros j Hj. unfold z. replace (Nat.ltb (n + j) n) with false by (symmetry; apply Nat.ltb_ge; lia).
        f_equal. f_equal. lia. }
      assert (D0 : forall i, (i < n)%nat -> rowdot n mat0 i z = Rsum n (fun j => rent m i j * x j) - y i).
      { intros i Hi. rewrite rowdot_split. unfold Rminus. f_equal.
        - apply Rsum_ext. intros j Hj. rewrite Zx, CL by auto. unfold rent. rewrite <- ES. reflexivity.
        - rewrite (Rsum_ext _ _ (fun m => (if Nat.eqb m i then 1 else 0) * - y m)).
          apply (Rsum_delta n i (fun m => - y m)); auto.
          intros k Hk. rewrite CR, Zy by auto. unfold delta. rewrite Nat.eqb_sym. reflexivity. }
      assert (D1 : forall i, (i < n)%nat ->
        rowdot n mat i z = x i - Rsum n (fun j => rent (@mkMat RA n n dst) i j * y j)).
      { intros i Hi. rewrite rowdot_split. unfold Rminus. f_equal.
        - rewrite (Rsum_ext _ _ (fun j => (if Nat.eqb j i then 1 else 0) * x j)).
          apply Rsum_delta; auto. intros k Hk. rewrite U, Zx by auto. unfold delta.
          rewrite Nat.eqb_sym. reflexivity.
        - rewrite <- Rsum_opp. apply Rsum_ext. intros k Hk. rewrite Zy by auto.
          unfold rent. cbn [m_cols m_data]. rewrite C2' by auto. lra. }
      split; intros H.
      + intros i Hi. destruct (Z z) as [Z1 _].
        assert (Q : rowdot n mat i z = 0).
        { apply Z1; auto. intros i' Hi'. rewrite D0, H by auto. lra. }
        rewrite D1 in Q by auto. lra.
      + intros i Hi. destruct (Z z) as [_ Z2].
        assert (Q : rowdot n mat0 i z = 0).
        { apply Z2; auto. intros i' Hi'. rewrite D1, <- H by auto. lra. }
        rewrite D0 in Q by auto. lra. }
  unfold wf_mat. cbn [m_rows m_cols m_data].
  split; [exact L2|]. split; [reflexivity|]. split; [reflexivity|]. split; [auto|]. split; auto.
Qed.

Lemma inverse_not_singular : forall n A B, is_inverse n A B -> ~ singular n A.
Proof.
  intros n A B H (v & (i & Hi & Hv) & HK). apply Hv.
  transitivity (Rsum n (fun j => delta i j * v j)).
  - symmetry. rewrite (Rsum_single n i); auto. unfold delta; rewrite Nat.eqb_refl; lra.
    intros j Hj Hij. unfold delta. apply Nat.neq_sym, Nat.eqb_neq in Hij. rewrite Hij. lra.
  - rewrite (Rsum_ext _ _ (fun j => Rsum n (fun l => B i l * A l j * v j))).
    + rewrite Rsum_swap. apply Rsum_zero. intros l Hl.
      rewrite (Rsum_ext _ _ (fun j => B i l * (A l j * v j))) by (intros; lra).
      rewrite Rsum_scal_l, HK by auto. lra.
    + intros j Hj. destruct (H i j Hi Hj) as [_ H2]. rewrite <- H2. unfold mmul.
      rewrite <- Rsum_scal_r. reflexivity.
Qed.

Lemma gauss_jordan_singular : forall m : rmat, wf_mat m -> m_rows m = m_cols m ->
  singular (m_rows m) (rent m) -> gauss_jordan m = Throw RuntimeError.
Proof.
  intros m WF HSq HS. destruct (@gauss_jordan_shape RA m WF) as [E|(inv & det & E & _)]; auto.
  exfalso. destruct (gauss_jordan_inverse_R m inv det WF E) as (_ & _ & _ & _ & _ & HI).
  exact (inverse_not_singular _ _ _ HI HS).
Qed.

(** ** Product and transpose *)
Lemma product_R : forall a b : rmat, wf_mat a -> wf_mat b ->
  (m_cols a <> m_rows b -> mat_product a b = Throw RuntimeError) /\
  (m_cols a = m_rows b ->
   exists c, mat_product a b = Ok c /\ wf_mat c /\ m_rows c = m_rows a /\ m_cols c = m_cols b /\
     forall i j, (i < m_rows a)%nat -> (j < m_cols b)%nat ->
       rent c i j = mmul (m_cols a) (rent a) (rent b) i j).
Proof.
  intros a b Wa Wb. destruct (@product_gen RA a b Wa Wb) as [H1 H2]. split; auto.
  intro HE. destruct (H2 HE) as (c & E & W & R1 & C1 & HC). exists c. repeat split; auto.
  intros i j Hi Hj. rewrite <- ent_RA, HC by auto. rewrite nsum_RA. unfold mmul.
  apply Rsum_ext. intros k Hk. rewrite !ent_RA. reflexivity.
Qed.

Lemma transpose_R : forall m : rmat, wf_mat m ->
  exists t, mat_transpose m = Ok t /\ wf_mat t /\ m_rows t = m_cols m /\ m_cols t = m_rows m /\
    forall i j, (i < m_cols m)%nat -> (j < m_rows m)%nat -> rent t i j = rent m j i.
Proof.
  intros m WF. destruct (@transpose_gen RA m WF) as (t & E & W & R1 & C1 & H).
  exists t. repeat split; auto. intros. rewrite <- !ent_RA. apply H; auto.
Qed.

(** Two well-formed matrices with the same entries are equal. *)
Lemma mat_ext : forall a b : rmat, wf_mat a -> wf_mat b ->
  m_rows a = m_rows b -> m_cols a = m_cols b ->
  (forall i j, (i < m_rows a)%nat -> (j < m_cols a)%nat -> rent a i j = rent b i j) -> a = b.
Proof.
  intros [ra ca da] [rb cb db]. unfold wf_mat, rent, rcell. simpl. intros Wa Wb -> -> H.
  f_equal. apply nth_ext_len with 0. congruence.
  intros i Hi. change (num RA) with R in *. rewrite Wa in Hi.
  destruct (Nat.eq_dec cb 0) as [->|Hc]; [nia|].
  pose proof (Nat.div_mod i cb Hc) as DM. pose proof (Nat.mod_upper_bound i cb Hc).
  specialize (H (i / cb)%nat (i mod cb)%nat).
  replace (i / cb * cb + i mod cb)%nat with i in H by lia. apply H; auto.
  apply Nat.div_lt_upper_bound; lia.
Qed.

Lemma transpose_involutive : forall m : rmat, wf_mat m ->
  exists t, mat_transpose m = Ok t /\ mat_transpose t = Ok m.
Proof.
  intros m WF. destruct (transpose_R m WF) as (t & E & W & R1 & C1 & H).
  destruct (transpose_R t W) as (t2 & E2 & W2 & R2 & C2 & H2).
  exists t. split; auto. rewrite E2. f_equal. apply mat_ext; auto; try congruence.
  intros i j Hi Hj. rewrite H2 by congruence. apply H; congruence.
Qed.

Lemma product_transpose : forall a b : rmat, wf_mat a -> wf_mat b -> m_cols a = m_rows b ->
  exists ab ta tb r, mat_product a b = Ok ab /\ mat_transpose a = Ok ta /\ mat_transpose b = Ok tb /\
    mat_product tb ta = Ok r /\ mat_transpose ab = Ok r.
Proof.
  intros a b Wa Wb HE.
  destruct (product_R a b Wa Wb) as [_ HP]. destruct (HP HE) as (ab & E1 & W1 & R1 & C1 & H1).
  destruct (transpose_R a Wa) as (ta & E2 & W2 & R2 & C2 & H2).
  destruct (transpose_R b Wb) as (tb & E3 & W3 & R3 & C3 & H3).
  destruct (product_R tb ta W3 W2) as [_ HP2].
  destruct HP2 as (r & E4 & W4 & R4 & C4 & H4). { congruence. }
  destruct (transpose_R ab W1) as (r2 & E5 & W5 & R5 & C5 & H5).
  exists ab, ta, tb, r. repeat split; auto. rewrite E5. f_equal.
  apply mat_ext; auto; try congruence. intros i j Hi Hj.
  rewrite H5 by congruence. rewrite H1 by congruence. rewrite H4 by congruence.
  unfold mmul. rewrite C3, <- HE. apply Rsum_ext. intros k Hk.
  rewrite H2, H3 by congruence. lra.
Qed.

(** ** Pseudo-inverse of a non-square matrix *)
Lemma mmul_ext : forall k A A' B B' i j,
  (forall l, (l < k)%nat -> A i l = A' i l) -> (forall l, (l < k)%nat -> B l j = B' l j) ->
  mmul k A B i j = mmul k A' B' i j.
Proof. intros. unfold mmul. apply Rsum_ext. intros. rewrite H, H0; auto. Qed.

Lemma mmul_assoc : forall k l A B C i j,
  mmul l (mmul k A B) C i j = mmul k A (mmul l B C) i j.
Proof.
  intros. unfold mmul.
  rewrite (Rsum_ext _ _ (fun x => Rsum k (fun y => A i y * B y x * C x j))).
  2:{ intros. rewrite <- Rsum_scal_r. reflexivity. }
  rewrite Rsum_swap. apply Rsum_ext. intros y Hy. rewrite <- Rsum_scal_l. apply Rsum_ext.
  intros; lra.
Qed.

Lemma pinv_nonsquare : forall (m inv : rmat) det, wf_mat m -> m_rows m <> m_cols m ->
  mat_pinv m = Ok (inv, det) ->
  det = 0 /\ wf_mat inv /\ m_rows inv = m_cols m /\ m_cols inv = m_rows m /\
  ((m_cols m < m_rows m)%nat -> forall i j, (i < m_cols m)%nat -> (j < m_cols m)%nat ->
     mmul (m_rows m) (rent inv) (rent m) i j = delta i j) /\
  ((m_rows m < m_cols m)%nat -> forall i j, (i < m_rows m)%nat -> (j < m_rows m)%nat ->
     mmul (m_cols m) (rent m) (rent inv) i j = delta i j).
Proof.
  intros m inv det WF HN H. unfold mat_pinv in H. apply Nat.eqb_neq in HN. rewrite HN in H.
  apply Nat.eqb_neq in HN.
  destruct (transpose_R m WF) as (t & Et & Wt & Rt & Ct & Ht). rewrite Et in H. cbn [bind] in H.
  destruct (Nat.leb (m_cols m) (m_rows m)) eqn:EL.
  - apply Nat.leb_le in EL.
    destruct (product_R t m Wt WF) as [_ HP]. destruct HP as (p & Ep & Wp & Rp & Cp & Hp). { congruence. }
    rewrite Ep in H. cbn [bind] in H. apply bind_ok_inv in H as ([d det'] & Ed & H).
    destruct (gauss_jordan_inverse_R p d det' Wp Ed) as (Wd & Rd & Cd & Sq & _ & HI).
    destruct (product_R d t Wd Wt) as [_ HP2]. destruct HP2 as (c & Ec & Wc & Rc & Cc & Hc).
    { congruence. }
    rewrite Ec in H. cbn [bind] in H. inversion H; subst c det.
    split. apply n0_RA. split; auto. split. congruence. split. congruence. split; [|lia].
    intros _ i j Hi Hj.
    rewrite (mmul_ext _ _ (mmul (m_rows p) (rent d) (rent t)) _ (rent m)); auto.
    2:{ intros l Hl. rewrite Hc by congruence. rewrite Cd. reflexivity. }
    rewrite mmul_assoc.
    rewrite (mmul_ext _ _ (rent d) _ (rent p)); auto.
    2:{ intros l Hl. rewrite Hp by congruence. rewrite Ct. reflexivity. }
    destruct (HI i j) as [_ X]; congruence.
  - apply Nat.leb_gt in EL.
    destruct (product_R m t WF Wt) as [_ HP]. destruct HP as (p & Ep & Wp & Rp & Cp & Hp). { congruence. }
    rewrite Ep in H. cbn [bind] in H. apply bind_ok_inv in H as ([d det'] & Ed & H).
    destruct (gauss_jordan_inverse_R p d det' Wp Ed) as (Wd & Rd & Cd & Sq & _ & HI).
    destruct (product_R t d Wt Wd) as [_ HP2]. destruct HP2 as (c & Ec & Wc & Rc & Cc & Hc).
    { congruence. }
    rewrite Ec in H. cbn [bind] in H. inversion H; subst c det.
    split. apply n0_RA. split; auto. split. congruence. split. congruence. split; [lia|].
    intros _ i j Hi Hj.
    rewrite (mmul_ext _ _ (rent m) _ (mmul (m_rows p) (rent t) (rent d))); auto.
    2:{ intros l Hl. rewrite Hc by congruence. rewrite Ct. congruence. }
    rewrite <- mmul_assoc.
    rewrite (mmul_ext _ _ (rent p) _ (rent d)); auto.
    2:{ intros l Hl. rewrite Hp by congruence. reflexivity. }
    destruct (HI i j) as [X _]; congruence.
Qed.

(** ** Matrices that are positive definite with a margin: no failure and no row exchange. *)
Section PD.
  Variable n : nat.
  Let w := (2 * n)%nat.
  Variable A : nat -> nat -> R.
  Variable rho : R.
  Hypothesis Hrho : eps9 <= rho.
  Hypothesis HPD : pd_margin n A rho.

  (** Rows not yet used as pivot only combine earlier rows. *)
  Definition lower (k : nat) (mat : list R) : Prop :=
    forall i m, (k <= i < n)%nat -> (k <= m < n)%nat -> rcell w mat i (n + m) = delta i m.

  Lemma pivot_margin : forall k mat, (k < n)%nat ->
    unit_cols n k mat -> right_times n A mat -> lower k mat -> rho <= rcell w mat k k.
  Proof.
    intros k mat Hk HU HR HL.
    set (x := fun m => rcell w mat k (n + m)).
    assert (Q : qform n A x = rcell w mat k k).
    { unfold qform. rewrite Rsum_swap.
      rewrite (Rsum_ext _ _ (fun j => rcell w mat k j * x j)).
      2:{ intros j Hj. rewrite Rsum_scal_r. f_equal. pose proof (HR k j Hk Hj) as HRkj. cbv beta zeta in HRkj. fold w in HRkj. rewrite HRkj. reflexivity. }
      rewrite (Rsum_single n k); auto.
      - unfold x. rewrite HL by lia. unfold delta. rewrite Nat.eqb_refl. lra.
      - intros j Hj Hjk. destruct (lt_dec j k).
        + rewrite HU by auto. unfold delta.
          replace (Nat.eqb k j) with false by (symmetry; apply Nat.eqb_neq; lia). lra.
        + unfold x. rewrite HL by lia. unfold delta.
          replace (Nat.eqb k j) with false by (symmetry; apply Nat.eqb_neq; lia). lra. }
    rewrite <- Q. eapply Rle_trans; [|apply HPD].
    assert (1 <= Rsum n (fun i => x i * x i)).
    { eapply Rle_trans; [|apply (Rsum_term_le n (fun i => x i * x i) k); auto].
      unfold x. rewrite HL by lia. unfold delta. rewrite Nat.eqb_refl. lra.
      intros; apply Rle_0_sqr. }
    pose proof eps9_pos. nra.
  Qed.

  Lemma elim_lower : forall k mat new, (k < n)%nat -> rcell w mat k k <> 0 ->
    elim n k k mat new -> lower k mat -> lower (S k) new.
  Proof.
    intros k mat new Hk Hnz HE HL i m Hi Hm. rewrite HE by (unfold w; lia).
    assert (SW : forall i j, swp n k k mat i j = rcell w mat i j).
    { intros i' j'. unfold swp. destruct (Nat.eqb i' k) eqn:E; auto. apply Nat.eqb_eq in E. subst; auto. }
    rewrite !SW. replace (Nat.eqb i k) with false by (symmetry; apply Nat.eqb_neq; lia).
    rewrite !HL by lia. unfold delta at 2.
    replace (Nat.eqb k m) with false by (symmetry; apply Nat.eqb_neq; lia). field; auto.
  Qed.

  Lemma gj_pd_loop : forall mat0, length mat0 = (n * w)%nat -> right_times n A mat0 -> lower 0 mat0 ->
    forall k, (k <= n)%nat -> exists matk detk,
      iterM k (@gj_step RA n) (mat0, 1) = Ok (matk, detk) /\
      length matk = (n * w)%nat /\ unit_cols n k matk /\ right_times n A matk /\ lower k matk /\
      0 < detk.
  Proof.
    intros mat0 HL0 HR0 HLow. induction k; intros Hk.
    - exists mat0, 1. simpl. repeat split; auto; try lra. intros i j _ Hj; lia.
    - destruct (IHk ltac:(lia)) as (mat & det & E & L & U & RT & LW & D).
      pose proof (pivot_margin k mat ltac:(lia) U RT LW) as HP. pose proof eps9_pos.
      cbn [iterM]. change (num RA) with R in *. rewrite E. cbn [bind].
      destruct (gj_step_R n k mat det L ltac:(lia)) as [(_ & H1)|(p & new & E2 & Hp & HS & HB & L2 & HE)].
      + exfalso. specialize (H1 k ltac:(lia)). fold w in H1. rewrite Rabs_right in H1; lra.
      + assert (p = k).
        { destruct (Nat.eq_dec p k); auto. exfalso. specialize (HB k ltac:(lia)).
          fold w in HB. rewrite Rabs_right in HB; lra. }
        subst p.  exists new, (det * rcell w mat k k). split; auto.
        split; auto. split. eapply elim_unit; eauto. fold w; lra.
        split. eapply elim_right; eauto. fold w; lra.
        split. apply (elim_lower k mat new); auto; lra.
        apply Rmult_lt_0_compat; lra.
  Qed.
End PD.

Lemma gauss_jordan_pd : forall (m : rmat) rho, wf_mat m -> m_rows m = m_cols m ->
  eps9 <= rho -> pd_margin (m_rows m) (rent m) rho ->
  exists inv det, gauss_jordan m = Ok (inv, det) /\ 0 < det /\
      is_inverse (m_rows m) (rent m) (rent inv).
Proof.
  intros m rho WF HSq Hr HPD.
  destruct (@gauss_jordan_shape RA m WF) as [E|(inv & det & E & _)].
  - exfalso. unfold gauss_jordan in E. apply Nat.eqb_eq in HSq as HSb. rewrite HSb in E.
    cbn [negb] in E. set (n := m_rows m) in *.
    assert (HL : length (m_data m) = (n * n)%nat).
    { unfold wf_mat in WF. rewrite WF. fold n. rewrite <- HSq. reflexivity. }
    destruct (gj_init_R n (m_data m) HL) as (mat0 & E0 & L0 & R0 & CR & CL).
    change (num RA) with R in *. rewrite E0 in E. cbn [bind] in E. rewrite n1_RA in E.
    destruct (gj_pd_loop n (rcell n (m_data m)) rho Hr) with (mat0 := mat0) (k := n)
      as (mat & det & E1 & L & _); auto.
    { intros x. unfold rent in HPD. rewrite <- HSq in HPD. apply HPD. }
    { intros i k Hi Hk. apply CR; lia. }
    change (num RA) with R in *. rewrite E1 in E. cbn [bind] in E.
    destruct (@gj_extract RA n mat L) as (dst & E2 & _).
    change (num RA) with R in *. rewrite E2 in E. discriminate.
  - destruct (gauss_jordan_inverse_R m inv det WF E) as (_ & _ & _ & _ & _ & HI).
    exists inv, det. split; auto. split; auto.
    unfold gauss_jordan in E. apply Nat.eqb_eq in HSq as HSb. rewrite HSb in E.
    cbn [negb] in E. set (n := m_rows m) in *.
    assert (HL : length (m_data m) = (n * n)%nat).
    { unfold wf_mat in WF. rewrite WF. fold n. rewrite <- HSq. reflexivity. }
    destruct (gj_init_R n (m_data m) HL) as (mat0 & E0 & L0 & R0 & CR & CL).
    change (num RA) with R in *. rewrite E0 in E. cbn [bind] in E. rewrite n1_RA in E.
    destruct (gj_pd_loop n (rcell n (m_data m)) rho Hr) with (mat0 := mat0) (k := n)
      as (mat & det1 & E1 & L & _ & _ & _ & D); auto.
    { intros x. unfold rent in HPD. rewrite <- HSq in HPD. apply HPD. }
    { intros i k Hi Hk. apply CR; lia. }
    change (num RA) with R in *. rewrite E1 in E. cbn [bind] in E.
    destruct (@gj_extract RA n mat L) as (dst & E2 & _).
    change (num RA) with R in *. rewrite E2 in E. cbn [bind] in E. inversion E; subst. exact D.
Qed.
