(** The class-level parameters after any history. *)
From Coq Require Import String List Bool Arith ZArith QArith Reals Lra Lia.
From Verif Require Import Base Arith BaseFacts RFacts Proofs_KMeans Model_Map Model_Ring Model_Phrase Model_Gaussian Model_Config Model_GMM Model_HMM Model_HHMM Proofs_Map Proofs_Gaussian Spec_Common Spec_HHMM2.
Import ListNotations.
Local Open Scope nat_scope.
Local Open Scope list_scope.

Ltac inv_bind H := match type of H with bind ?x _ = _ => let E := fresh "E" in destruct x eqn:E; cbn [bind] in H; try discriminate end.

Ltac pairs := repeat match goal with p : (_ * _)%type |- _ => destruct p end.

Section Top.
  Context {A : arith}.

  (** [k] classes, uniform. *)
  Definition uniform_for (k : nat) (m : hhmm A) : Prop :=
    hh_prior m = repeat (ndiv n1 (nN k)) k /\ hh_trans m = repeat (repeat (ndiv n1 (nN k)) k) k /\ hh_exit m = repeat (nofQ (1 # 10)) k.
  Definition same_top (m m' : hhmm A) : Prop := hh_prior m' = hh_prior m /\ hh_trans m' = hh_trans m /\ hh_exit m' = hh_exit m.

  Lemma same_top_uniform : forall k m m', same_top m m' -> uniform_for k m -> uniform_for k m'.
  Proof. intros k m m' (S1 & S2 & S3) (U1 & U2 & U3). unfold uniform_for. rewrite S1, S2, S3. auto. Qed.

  Lemma map_const : forall {X Y} (c : Y) (l : list X), map (fun _ => c) l = repeat c (length l).
  Proof. induction l as [|x l IH]; cbn; [reflexivity|]. rewrite IH. reflexivity. Qed.

  Lemma exits_length : forall (ms : list (string * hclass A)) ms' e, exits_default ms = Ok (ms', e) -> length ms' = length ms.
  Proof.
    induction ms as [|[l h] ms IH]; intros ms' e H; cbn [exits_default] in H; [injection H as <- <-; reflexivity|]. destruct (hm_exit_default h); try discriminate.
    - destruct (exits_default ms) as [[ms0 e0]| |] eqn:E; cbn [bind] in H; try discriminate. injection H as <- <-. cbn [length]. f_equal. exact (IH _ _ eq_refl).
    - injection H as <- <-. reflexivity.
  Qed.
  Lemma exit_points_length : forall i p (ms : list (string * hclass A)) ms' e, exit_points i p ms = Ok (ms', e) -> length ms' = length ms.
  Proof.
    induction ms as [|[l h] ms IH]; intros ms' e H; cbn [exit_points] in H; [injection H as <- <-; reflexivity|]. destruct (hm_exit_point i p h); try discriminate.
    - destruct (exit_points i p ms) as [[ms0 e0]| |] eqn:E; cbn [bind] in H; try discriminate. injection H as <- <-. cbn [length]. f_equal. exact (IH _ _ eq_refl).
    - injection H as <- <-. reflexivity.
  Qed.
  Lemma mapM_length : forall {X Y} (f : X -> res Y) l l', mapM f l = Ok l' -> length l' = length l.
  Proof.
    induction l as [|x l IH]; intros l' H; cbn [mapM] in H; [injection H as <-; reflexivity|]. inv_bind H. inv_bind H. injection H as <-. cbn [length]. f_equal. exact (IH _ eq_refl).
  Qed.
  Lemma sweep_length : forall f (ms : list (string * hclass A)) i nm ms' nm', sweep f i ms nm = Ok (ms', nm') -> length ms' = length ms.
  Proof.
    intros f. induction ms as [|[l h] ms IH]; intros i nm ms' nm' H; cbn [sweep] in H; [injection H as <- <-; reflexivity|]. destruct (f i h nm) as [[h1 nm1]| |]; cbn [bind] in H; try discriminate.
    destruct (sweep f (S i) ms nm1) as [[ms1 nm2]| |] eqn:E; cbn [bind] in H; try discriminate. injection H as <- <-. cbn [length]. f_equal. exact (IH _ _ _ _ E).
  Qed.

  Lemma update_top_ok : forall k m m' e, uniform_for k m -> hh_update_top m = Ok (m', e) -> top_uniform m' /\ hh_size m' = hh_size m.
  Proof.
    intros k m m' e U H. unfold hh_update_top in H. destruct (Nat.eqb_spec (hh_size m) (length (hh_prior m))) as [E|E].
    - injection H as <- <-. split; [|reflexivity]. pose proof U as (U1 & _). rewrite U1, repeat_length in E. unfold top_uniform. rewrite E. exact U.
    - destruct (exits_default _) as [[ms e0]| |] eqn:EX; cbn [bind] in H; try discriminate. injection H as <- <-. apply exits_length in EX. cbn [hh_cls hh_set_top] in EX.
      assert (ES : forall p t x, hh_size (hh_set_cls ms (hh_set_top p t x m)) = hh_size m) by (intros; exact EX). split; [|apply ES].
      unfold top_uniform. rewrite ES. cbn [hh_prior hh_trans hh_exit hh_set_cls hh_set_top]. rewrite map_const, vresize_length. auto.
  Qed.

  Lemma reset_top : forall m m', hh_reset m = Ok m' -> same_top m m' /\ hh_size m' = hh_size m.
  Proof.
    intros m m' H. unfold hh_reset, reset_all in H. inv_bind H. apply mapM_length in E. inv_bind H. pairs. inv_bind H. apply mapM_length in E1. injection H as <-.
    split; [repeat split|]. unfold hh_size in *. cbn [hh_cls hh_set_res hh_set_front hh_set_cls]. congruence.
  Qed.

  Lemma forward_top : forall x m m', hh_forward x m = Ok m' -> same_top m m' /\ hh_size m' = hh_size m.
  Proof.
    intros x m m' H. unfold hh_forward, hh_forward_update, hh_forward_init in H. destruct (hh_hier m); [destruct (hh_started m)|].
    - inv_bind H. inv_bind H. inv_bind H. pairs. apply sweep_length in E1. inv_bind H. unfold scale_all in E2. apply mapM_length in E2. injection H as <-. split; [repeat split|]. unfold hh_size in *. cbn [hh_cls hh_set_front hh_set_cls]. congruence.
    - inv_bind H. pairs. apply sweep_length in E. inv_bind H. unfold scale_all in E0. apply mapM_length in E0. injection H as <-. split; [repeat split|]. unfold hh_size in *. cbn [hh_cls hh_set_front hh_set_cls]. congruence.
    - inv_bind H. apply mapM_length in E. inv_bind H. injection H as <-. split; [repeat split|]. exact E.
  Qed.
  Lemma filter_top : forall x m m', hh_filter x m = Ok m' -> same_top m m' /\ hh_size m' = hh_size m.
  Proof.
    intros x m m' H. unfold hh_filter in H. inv_bind H. apply forward_top in E. destruct E as (ST & SZ). inv_bind H. apply mapM_length in E. inv_bind H. destruct (negb (hh_bim a)).
    - injection H as <-. split; [exact ST|]. unfold hh_size in *. cbn [hh_cls hh_set_res hh_set_cls]. congruence.
    - inv_bind H. inv_bind H. apply mapM_length in E2. inv_bind H. pairs. injection H as <-. split; [exact ST|]. unfold hh_size in *. cbn [hh_cls hh_set_res hh_set_cls]. congruence.
  Qed.

  Lemma apply_top : forall (o : hh_op A) (m m' : hhmm A) e, is_normalize o = false -> top_uniform m -> hh_apply o m = Ok (m', e) -> top_uniform m'.
  Proof.
    intros o m m' e Ho U H. assert (UF : uniform_for (hh_size m) m) by exact U.
    assert (K : forall m1, same_top m m1 -> hh_size m1 = hh_size m -> top_uniform m1). { intros m1 ST SZ. unfold top_uniform. rewrite SZ. exact (same_top_uniform _ _ _ ST UF). }
    assert (KU : forall m1 e1, same_top m m1 -> hh_update_top m1 = Ok (m', e1) -> top_uniform m').
    { intros m1 e1 ST E1. apply (update_top_ok (hh_size m) m1 m' e1); [exact (same_top_uniform _ _ _ ST UF)|exact E1]. }
    destruct o as [u l|l| |failed| |i p|l h|b|x|]; cbn [hh_apply] in H.
    - unfold hh_add in H. refine (KU _ _ _ H). repeat split.
    - unfold hh_remove in H. destruct (mget String.eqb (hh_cls m) l); [|injection H as <- <-; exact U]. inv_bind H. apply reset_top in E. destruct E as (ST & _). refine (KU _ _ _ H). exact ST.
    - unfold hh_clear in H. inv_bind H. apply reset_top in E. destruct E as (_ & SZ). injection H as <- <-. unfold top_uniform. replace (hh_size (hh_set_top [] [] [] a)) with 0 by (symmetry; exact SZ). cbn. auto.
    - unfold hh_join in H. inv_bind H. apply reset_top in E. destruct E as (ST & _). refine (KU _ _ _ H). exact ST.
    - inv_bind H. apply reset_top in E. destruct E as (ST & SZ). injection H as <- <-. apply K; assumption.
    - unfold hh_exit_point in H. inv_bind H. pairs. apply exit_points_length in E. injection H as <- <-. apply K; [repeat split|]. exact E.
    - injection H as <- <-. apply K; [repeat split|]. unfold hh_size. cbn [hh_cls hh_set_cls]. apply map_length.
    - injection H as <- <-. apply K; [repeat split|]. reflexivity.
    - inv_bind H. apply filter_top in E. destruct E as (ST & SZ). injection H as <- <-. apply K; assumption.
    - discriminate.
  Qed.

  Lemma run_top : forall (os : list (hh_op A)) (m m' : hhmm A), forallb (fun o => negb (is_normalize o)) os = true -> top_uniform m -> hh_run os m = Ok m' -> top_uniform m'.
  Proof.
    unfold hh_run. induction os as [|o os IH]; intros m m' Ho U H; cbn [foldM] in H; [injection H as <-; exact U|]. cbn [forallb] in Ho. apply andb_true_iff in Ho. destruct Ho as (Ho & Hos). apply negb_true_iff in Ho.
    destruct (hh_apply o m) as [[m1 e]| |] eqn:E; cbn [bind] in H; try discriminate. exact (IH m1 m' Hos (apply_top o m m1 e Ho U E) H).
  Qed.

  Lemma new_top : forall bim dim din win est cm hier cfg, top_uniform (hh_new (A := A) bim dim din win est cm hier cfg).
  Proof. intros. repeat split. Qed.
End Top.

(** ** Real arithmetic: normalising changes nothing *)
Local Open Scope R_scope.
Lemma nth_repeat_lt : forall {X} (c d : X) n i, (i < n)%nat -> nth i (repeat c n) d = c.
Proof. induction n as [|n IH]; intros i Hi; [lia|]. destruct i as [|i]; [reflexivity|]. apply IH. lia. Qed.

Lemma div_loop : forall n (c s : R), c / s = c -> iterM n (fun j (row : list R) => let* v := rd row j in wr row j (v / s)) (repeat c n) = Ok (repeat c n).
Proof.
  intros n c s Hs. destruct (iterM_inv (fun _ (row : list R) => row = repeat c n) n (fun j (row : list R) => let* v := rd row j in wr row j (v / s)) (repeat c n)) as (row & E & ->); [reflexivity| |exact E].
  intros j row Hj ->. rewrite (rd_nth (X := R) (repeat c n) j 0) by (rewrite repeat_length; exact Hj). cbn [bind]. rewrite nth_repeat_lt by exact Hj. rewrite Hs. rewrite wr_ok by (rewrite repeat_length; exact Hj). eexists. split; [reflexivity|].
  apply (nth_ext_len _ _ 0); [apply upd_length|]. intros i Hi. rewrite upd_length, repeat_length in Hi. destruct (Nat.eq_dec i j) as [->|Ne].
  - rewrite nth_upd_eq by (rewrite repeat_length; exact Hj). rewrite nth_repeat_lt by exact Hj. reflexivity.
  - rewrite nth_upd_neq by lia. reflexivity.
Qed.

Lemma sum_uniform : forall n, (1 <= n)%nat -> accM (A := RA) n (rd (repeat (1 / INR n) n)) 0 = Ok 1.
Proof.
  intros n Hn. rewrite (accM_ok _ _ (fun _ => 1 / INR n)).
  - f_equal. rewrite (Rsum_const n (1 / INR n)). field. apply not_0_INR. lia.
  - intros k Hk. rewrite (rd_nth (X := R) _ k 0) by (rewrite repeat_length; exact Hk). rewrite nth_repeat_lt by exact Hk. reflexivity.
Qed.

Lemma normalize_top : forall m : hhmm RA, top_uniform m -> exists m', hh_normalize m = Ok m' /\ hh_prior m' = hh_prior m /\ hh_trans m' = hh_trans m /\ hh_exit m' = hh_exit m /\ hh_cls m' = hh_cls m.
Proof.
  intros m (U1 & U2 & U3). unfold hh_normalize. rewrite U1, U2. rewrite n0_RA, n1_RA, nN_RA. set (n := hh_size m) in *. destruct (Nat.eq_dec n 0) as [E0|E0].
  - rewrite E0. cbn. eexists. split; [reflexivity|]. rewrite E0 in *. cbn. auto.
  - cbn [ndiv RA]. rewrite sum_uniform by lia. cbn [bind]. change (num RA) with R in *. rewrite n1_RA, nN_RA in *. cbn [ndiv RA] in *.
    assert (ER : iterM n (fun i (tr : list (list R)) => let* row := rd tr i in let* s := accM (A := RA) n (rd row) 0 in
      if nltb (a := RA) 0 s then let* row := iterM n (fun j (row : list R) => let* v := rd row j in wr row j (v / s)) row in wr tr i row else Ok tr) (repeat (repeat (1 / INR n) n) n) = Ok (repeat (repeat (1 / INR n) n) n)).
    { set (tr0 := repeat (repeat (1 / INR n) n) n). match goal with |- iterM n ?F tr0 = _ => destruct (iterM_inv (fun _ (tr : list (list R)) => tr = tr0) n F tr0) as (tr & E & ->); [reflexivity| |exact E] end.
      intros i tr Hi ->. rewrite (rd_nth (X := list R) tr0 i []) by (unfold tr0; rewrite repeat_length; exact Hi). cbn [bind]. assert (EN : nth i tr0 [] = repeat (1 / INR n) n) by (apply nth_repeat_lt; exact Hi). rewrite EN. rewrite sum_uniform by lia. cbn [bind].
      assert (EL : nltb (a := RA) 0 1 = true) by (apply nltb_RA_true; lra). rewrite EL. rewrite div_loop by (unfold Rdiv; rewrite Rinv_1; ring). cbn [bind]. rewrite wr_ok by (unfold tr0; rewrite repeat_length; exact Hi). eexists. split; [reflexivity|].
      apply (nth_ext_len _ _ []); [apply upd_length|]. intros j Hj. rewrite upd_length in Hj. destruct (Nat.eq_dec j i) as [->|Ne].
      - rewrite nth_upd_eq by exact Hj. symmetry. exact EN.
      - rewrite nth_upd_neq by lia. reflexivity. }
    eexists. split.
    + eapply bind_eq; [exact ER|]. eapply bind_eq; [apply div_loop; unfold Rdiv; rewrite Rinv_1; ring|]. reflexivity.
    + cbn [hh_prior hh_trans hh_exit hh_cls hh_set_top]. auto.
Qed.

Lemma run_top_R : forall os (m m' : hhmm RA), top_uniform m -> hh_run os m = Ok m' -> top_uniform m'.
Proof.
  unfold hh_run. induction os as [|o os IH]; intros m m' U H; cbn [foldM] in H; [injection H as <-; exact U|].
  destruct (hh_apply o m) as [[m1 e]| |] eqn:E; cbn [bind] in H; try discriminate. apply (IH m1 m'); [|exact H]. destruct (is_normalize o) eqn:N; [|exact (apply_top o m m1 e N U E)].
  destruct o; try discriminate. cbn [hh_apply] in E. destruct (normalize_top m U) as (m2 & E2 & P1 & P2 & P3 & P4). rewrite E2 in E. cbn [bind] in E. injection E as <- <-.
  unfold top_uniform, hh_size in *. rewrite P1, P2, P3, P4. exact U.
Qed.
