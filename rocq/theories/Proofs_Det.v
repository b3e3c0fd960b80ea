(** The determinant reported by the Gauss-Jordan elimination. *)
From Coq Require Import List Bool Arith Reals Lra Lia.
From Verif Require Import Base BaseFacts Arith RFacts Model_Matrix Proofs_MatrixGen Spec_Matrix Proofs_Matrix.
From Verif Require Import Spec_Det Proofs_DetFacts.
Import ListNotations.
Local Open Scope R_scope.

Lemma elim_det : forall n p k mat new, (k <= p < n)%nat -> rcell (2 * n) mat p k <> 0 ->
  elim n p k mat new ->
  rcell (2 * n) mat p k * Rdet n (rcell (2 * n) new) =
    (if Nat.eqb p k then 1 else -1) * Rdet n (rcell (2 * n) mat).
Proof.
  intros n p k mat new Hp Hnz HE. set (w := (2 * n)%nat) in *.
  rewrite (Rdet_ext' n (rcell w new) (fun i j => if Nat.eqb i k then swp n p k mat k j / rcell w mat p k
     else swp n p k mat i j - swp n p k mat i k * (swp n p k mat k j / rcell w mat p k))).
  2:{ intros i j Hi Hj. rewrite HE by lia. rewrite !swp_k. reflexivity. }
  rewrite Rdet_elim' by (auto; lia).
  transitivity (Rdet n (swp n p k mat)). field; auto.
  destruct (Nat.eqb p k) eqn:E.
  - apply Nat.eqb_eq in E. subst p. rewrite Rmult_1_l. apply Rdet_ext'. intros i j _ _.
    unfold swp. fold w. destruct (Nat.eqb i k) eqn:E; auto. apply Nat.eqb_eq in E. subst; auto.
  - apply Nat.eqb_neq in E. unfold swp. fold w. rewrite Rdet_swap' by (auto; lia). lra.
Qed.

(** [s] is the sign of the row exchanges made so far. *)
Lemma gj_det_loop : forall n (mat0 : list R), length mat0 = (n * (2 * n))%nat ->
  forall k mat det, (k <= n)%nat -> iterM k (@gj_step RA n) (mat0, 1) = Ok (mat, det) ->
  length mat = (n * (2 * n))%nat /\
  (det * Rdet n (rcell (2 * n) mat) = Rdet n (rcell (2 * n) mat0) \/
   det * Rdet n (rcell (2 * n) mat) = - Rdet n (rcell (2 * n) mat0)).
Proof.
  intros n mat0 HL0. induction k; intros mat det Hk H.
  - simpl in H. inversion H; subst. split; auto. left. lra.
  - cbn [iterM] in H. apply bind_ok_inv in H as ([mat1 det1] & E & H).
    destruct (IHk mat1 det1 ltac:(lia) E) as (L1 & D1).
    destruct (gj_step_R n k mat1 det1 L1 ltac:(lia)) as [(E2 & _)|(p & new & E2 & Hp & HS & HB & L2 & HE)].
    + change (num RA) with R in *. rewrite E2 in H. discriminate.
    + change (num RA) with R in *. rewrite E2 in H. inversion H; subst mat det. change (n + (n + 0))%nat with (2 * n)%nat. split; auto.
      assert (NZ : rcell (2 * n) mat1 p k <> 0).
      { intros Z. rewrite Z, Rabs_R0 in HS. pose proof eps9_pos; lra. }
      pose proof (elim_det n p k mat1 new Hp NZ HE) as ED.
      assert (Q : forall x, det1 * (x * Rdet n (rcell (2 * n) mat1)) = x * (det1 * Rdet n (rcell (2 * n) mat1)))
        by (intros; ring).
      rewrite (Rmult_assoc det1), ED, Q.
      destruct (Nat.eqb p k); destruct D1 as [D1|D1]; rewrite D1;
        [left|right|right|left]; lra.
Qed.

Lemma gauss_jordan_det : forall (m inv : rmat) det,
  wf_mat m -> gauss_jordan m = Ok (inv, det) ->
  det = Rdet (m_rows m) (rent m) \/ det = - Rdet (m_rows m) (rent m).
Proof.
  intros m inv det WF H. unfold gauss_jordan in H.
  destruct (Nat.eqb (m_rows m) (m_cols m)) eqn:ES; cbn [negb] in H; [|discriminate].
  apply Nat.eqb_eq in ES. set (n := m_rows m) in *.
  assert (HL : length (m_data m) = (n * n)%nat).
  { unfold wf_mat in WF. rewrite WF. fold n. rewrite <- ES. reflexivity. }
  destruct (gj_init_R n (m_data m) HL) as (mat0 & E0 & L0 & HR0 & CR & CL).
  change (num RA) with R in *. rewrite E0 in H. cbn [bind] in H.
  apply bind_ok_inv in H as ([mat det'] & E1 & H). rewrite n1_RA in E1.
  destruct (gj_loop n (rcell n (m_data m)) mat0 L0 HR0 n mat det' (le_n _) E1) as (L & U & RT & D & Z).
  destruct (@gj_extract RA n mat L) as (dst & E2 & L2 & C2).
  change (num RA) with R in *. rewrite E2 in H. cbn [bind] in H. inversion H; subst inv det'. clear H.
  destruct (gj_det_loop n mat0 L0 n mat det (le_n _) E1) as (_ & DD).
  rewrite (Rdet_ext' n (rcell (2 * n) mat) (fun i j => if Nat.eqb i j then R1 else R0)) in DD
    by (intros; apply U; auto).
  rewrite Rdet_delta in DD.
  rewrite (Rdet_ext' n (rcell (2 * n) mat0) (rent m)) in DD.
  2:{ intros i j Hi Hj. rewrite CL by auto. unfold rent. rewrite <- ES. reflexivity. }
  change R1 with 1 in DD. rewrite !Rmult_1_r in DD. exact DD.
Qed.

(** No row exchange when the first candidate is always accepted. *)
Lemma gj_pd_det : forall n A rho (mat0 : list R), eps9 <= rho -> pd_margin n A rho ->
  length mat0 = (n * (2 * n))%nat -> right_times n A mat0 -> lower n 0 mat0 ->
  forall k mat det, (k <= n)%nat -> iterM k (@gj_step RA n) (mat0, 1) = Ok (mat, det) ->
  det * Rdet n (rcell (2 * n) mat) = Rdet n (rcell (2 * n) mat0).
Proof.
  intros n A rho mat0 Hr HPD HL0 HR0 HLow. induction k; intros mat det Hk H.
  - simpl in H. inversion H; subst. lra.
  - cbn [iterM] in H.
    destruct (gj_pd_loop n A rho Hr HPD mat0 HL0 HR0 HLow k ltac:(lia))
      as (mat1 & det1 & E & L1 & U & RT & LW & D).
    change (num RA) with R in *. rewrite E in H. cbn [bind] in H.
    specialize (IHk mat1 det1 ltac:(lia) E).
    pose proof (pivot_margin n A rho Hr HPD k mat1 ltac:(lia) U RT LW) as HP. pose proof eps9_pos.
    destruct (gj_step_R n k mat1 det1 L1 ltac:(lia)) as [(E2 & _)|(p & new & E2 & Hp & HS & HB & L2 & HE)].
    + change (num RA) with R in *. rewrite E2 in H. discriminate.
    + change (num RA) with R in *. rewrite E2 in H. inversion H; subst mat det. change (n + (n + 0))%nat with (2 * n)%nat.
      assert (p = k).
      { destruct (Nat.eq_dec p k); auto. exfalso. specialize (HB k ltac:(lia)).
        rewrite Rabs_right in HB; lra. }
      subst p.
      pose proof (elim_det n k k mat1 new Hp ltac:(lra) HE) as ED. rewrite Nat.eqb_refl in ED.
      rewrite Rmult_assoc, ED. lra.
Qed.

Lemma gauss_jordan_pd_det : forall (m : rmat) rho, wf_mat m -> m_rows m = m_cols m ->
  eps9 <= rho -> pd_margin (m_rows m) (rent m) rho ->
  exists inv det, gauss_jordan m = Ok (inv, det) /\ det = Rdet (m_rows m) (rent m) /\ 0 < det /\
    is_inverse (m_rows m) (rent m) (rent inv).
Proof.
  intros m rho WF HSq Hr HPD.
  destruct (gauss_jordan_pd m rho WF HSq Hr HPD) as (inv & det & E & D & HI).
  exists inv, det. split; auto. split; auto.
  unfold gauss_jordan in E. apply Nat.eqb_eq in HSq as HSb. rewrite HSb in E.
  cbn [negb] in E. set (n := m_rows m) in *.
  assert (HL : length (m_data m) = (n * n)%nat).
  { unfold wf_mat in WF. rewrite WF. fold n. rewrite <- HSq. reflexivity. }
  destruct (gj_init_R n (m_data m) HL) as (mat0 & E0 & L0 & HR0 & CR & CL).
  change (num RA) with R in *. rewrite E0 in E. cbn [bind] in E.
  apply bind_ok_inv in E as ([mat det'] & E1 & H). rewrite n1_RA in E1.
  destruct (gj_loop n (rcell n (m_data m)) mat0 L0 HR0 n mat det' (le_n _) E1) as (L & U & _).
  assert (DD : det' * Rdet n (rcell (2 * n) mat) = Rdet n (rcell (2 * n) mat0)).
  { eapply gj_pd_det with (A := rcell n (m_data m)) (rho := rho) (k := n); eauto.
    - intros x. unfold rent in HPD. rewrite <- HSq in HPD. apply HPD.
    - intros i k Hi Hk. apply CR; lia. }
  rewrite (Rdet_ext' n (rcell (2 * n) mat) (fun i j => if Nat.eqb i j then R1 else R0)) in DD
    by (intros; apply U; auto).
  rewrite Rdet_delta in DD. change R1 with 1 in DD. rewrite Rmult_1_r in DD.
  destruct (@gj_extract RA n mat L) as (dst & E2 & L2 & C2).
  change (num RA) with R in *. rewrite E2 in H. cbn [bind] in H. inversion H; subst inv. assert (det = Rdet n (rcell (2 * n) mat0)) as -> by congruence.
  apply Rdet_ext'. intros i j Hi Hj. rewrite CL by auto. unfold rent. rewrite <- HSq. reflexivity.
Qed.

(** With large enough leading minors: no exchange, and the pivots are ratios of minors. *)
Lemma elim_det_block : forall n r k mat new, (k < r <= n)%nat -> rcell (2 * n) mat k k <> 0 ->
  elim n k k mat new ->
  rcell (2 * n) mat k k * Rdet r (rcell (2 * n) new) = Rdet r (rcell (2 * n) mat).
Proof.
  intros n r k mat new Hr Hnz HE. set (w := (2 * n)%nat) in *.
  assert (SW : forall i j, swp n k k mat i j = rcell w mat i j).
  { intros i' j'. unfold swp. destruct (Nat.eqb i' k) eqn:E; auto. apply Nat.eqb_eq in E. subst; auto. }
  rewrite (Rdet_ext' r (rcell w new) (fun i j => if Nat.eqb i k then rcell w mat k j / rcell w mat k k
     else rcell w mat i j - rcell w mat i k * (rcell w mat k j / rcell w mat k k))).
  2:{ intros i j Hi Hj. rewrite HE by lia. rewrite !SW. reflexivity. }
  rewrite (Rdet_elim' r (rcell w mat) k (rcell w mat k k) (fun i => rcell w mat i k)) by (auto; lia).
  field; auto.
Qed.

Lemma gj_minors_loop : forall n A (mat0 : list R), length mat0 = (n * (2 * n))%nat ->
  (forall i j, (i < n)%nat -> (j < n)%nat -> rcell (2 * n) mat0 i j = A i j) ->
  leading_minors_ok eps9 n A ->
  forall k, (k <= n)%nat -> exists mat det, iterM k (@gj_step RA n) (mat0, 1) = Ok (mat, det) /\
  length mat = (n * (2 * n))%nat /\ unit_cols n k mat /\ det = Rdet k A /\ det <> 0 /\
  forall r, (k <= r <= n)%nat -> det * Rdet r (rcell (2 * n) mat) = Rdet r A.
Proof.
  intros n A mat0 HL0 HA HM. induction k; intros Hk.
  - exists mat0, 1. split; [reflexivity|]. split; auto. split. intros i j _ Hj; lia.
    split. rewrite Rdet_0. reflexivity. split. lra.
    intros r Hr. rewrite Rmult_1_l. apply Rdet_ext'. intros; apply HA; lia.
  - destruct (IHk ltac:(lia)) as (mat & det & E & L & U & D & NZ & HR).
    assert (HP : det * rcell (2 * n) mat k k = Rdet (S k) A).
    { rewrite <- (HR (S k)) by lia. f_equal. symmetry. apply Rdet_unit_cols.
      intros i j Hi Hj. apply U; lia. }
    assert (HB1 : eps9 <= Rabs (rcell (2 * n) mat k k)).
    { specialize (HM k ltac:(lia)). rewrite <- D, <- HP, Rabs_mult in HM.
      pose proof (Rabs_pos_lt det NZ). nra. }
    pose proof eps9_pos. cbn [iterM]. change (num RA) with R in *. rewrite E. cbn [bind].
    destruct (gj_step_R n k mat det L ltac:(lia)) as [(_ & H1)|(p & new & E2 & Hp & HS & HB & L2 & HE)].
    + exfalso. specialize (H1 k ltac:(lia)). lra.
    + assert (p = k).
      { destruct (Nat.eq_dec p k); auto. exfalso. specialize (HB k ltac:(lia)). lra. }
      subst p. exists new, (det * rcell (2 * n) mat k k).
      assert (PZ : rcell (2 * n) mat k k <> 0).
      { intros Z. rewrite Z, Rabs_R0 in HB1. lra. }
      split; auto. split; auto. split. eapply elim_unit; eauto.
      split; auto. split. apply Rmult_integral_contrapositive; auto.
      intros r Hr. rewrite Rmult_assoc, (elim_det_block n r k mat new) by (auto; lia).
      apply HR; lia.
Qed.

Lemma gauss_jordan_minors : forall m : rmat, wf_mat m -> m_rows m = m_cols m ->
  leading_minors_ok eps9 (m_rows m) (rent m) ->
  exists inv, gauss_jordan m = Ok (inv, Rdet (m_rows m) (rent m)).
Proof.
  intros m WF HSq HM. unfold gauss_jordan. apply Nat.eqb_eq in HSq as HSb. rewrite HSb.
  cbn [negb]. set (n := m_rows m) in *.
  assert (HL : length (m_data m) = (n * n)%nat).
  { unfold wf_mat in WF. rewrite WF. fold n. rewrite <- HSq. reflexivity. }
  destruct (gj_init_R n (m_data m) HL) as (mat0 & E0 & L0 & HR0 & CR & CL).
  change (num RA) with R in *. rewrite E0. cbn [bind]. rewrite n1_RA.
  destruct (gj_minors_loop n (rent m) mat0 L0) with (k := n) as (mat & det & E1 & L & _ & D & _ & _); auto.
  { intros i j Hi Hj. rewrite CL by auto. unfold rent. rewrite <- HSq. reflexivity. }
  change (num RA) with R in *. rewrite E1. cbn [bind].
  destruct (@gj_extract RA n mat L) as (dst & E2 & L2 & C2).
  change (num RA) with R in *. rewrite E2. cbn [bind]. rewrite D. eauto.
Qed.

Lemma pinv_square : forall m : rmat, wf_mat m -> m_rows m = m_cols m ->
  mat_pinv m = gauss_jordan m /\
  (gauss_jordan m = Throw RuntimeError \/ exists inv det, gauss_jordan m = Ok (inv, det)).
Proof.
  intros m WF HS. split.
  - unfold mat_pinv. apply Nat.eqb_eq in HS. rewrite HS. reflexivity.
  - destruct (@gauss_jordan_shape RA m WF) as [E|(inv & det & E & _)]; eauto.
Qed.
