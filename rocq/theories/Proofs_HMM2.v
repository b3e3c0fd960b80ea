(** The forward and backward functions of the code compute these recursions. *)
From Coq Require Import String List Bool Arith ZArith Reals Lra Lia.
From Verif Require Import Base Arith BaseFacts RFacts Model_Gaussian Model_Config Model_GMM Model_HMM
  Proofs_Gaussian Proofs_KMeans Proofs_GMM Spec_Common Spec_Matrix Spec_Gaussian Spec_GMM Spec_HMM Proofs_HMM.
Import ListNotations.
Local Open Scope list_scope.
Local Open Scope R_scope.

Definition eps300 : R := / 10 ^ 300.
Lemma eps300_RA : @nofQ RA (QArith_base.Qmake 1 (10 ^ 300)) = eps300.
Proof.
  unfold eps300. cbn [nofQ RA]. unfold Q2R. cbn [QArith_base.Qnum QArith_base.Qden]. rewrite Rmult_1_l. f_equal.
  change (Z.pos (10 ^ 300)) with ((10 ^ 300)%Z). rewrite (pow_IZR 10 300). reflexivity.
Qed.
Lemma eps300_pos : 0 < eps300.
Proof. unfold eps300. apply Rinv_0_lt_compat, pow_lt. lra. Qed.

Lemma scale_vec_ok : forall N norm (al : list R), (length al = N)%nat -> scale_vec (A := RA) N norm al = Ok (tab N (fun j => nth j al 0 / norm)).
Proof.
  intros N norm al L. unfold scale_vec. destruct (seg_loop N 0 (fun _ v => Ok (v / norm)) (fun _ v => v / norm) al) as (al' & E & L' & V).
  - change (num RA) with R in *. lia.
  - intros. reflexivity.
  - change (num RA) with R in *. etransitivity; [exact E|]. f_equal. apply (nth_ext_len _ _ 0); [rewrite tab_length; lia|].
    intros i Hi. rewrite nth_tab by lia. rewrite V. destruct (Nat.leb_spec 0 i), (Nat.ltb_spec i (0 + N)); try lia. reflexivity.
Qed.

(** A loop that fills a vector and adds its entries. *)
Lemma acc_loop : forall N (f : nat -> res R) g (al : list R) c, length al = N -> (forall j, (j < N)%nat -> f j = Ok (g j)) ->
  iterM N (fun j (s : list R * R) => let* v := f j in let* al := wr (fst s) j v in Ok (al, snd s + v)) (al, c) = Ok (tab N g, c + Rsum N g).
Proof.
  intros N f g al c L H.
  destruct (iterM_inv (fun i (s : list R * R) => length (fst s) = N /\ snd s = c + Rsum i g /\ forall j, (j < i)%nat -> nth j (fst s) 0 = g j) N
    (fun j (s : list R * R) => let* v := f j in let* al := wr (fst s) j v in Ok (al, snd s + v)) (al, c)) as ((al' & n') & E & L' & S' & V).
  - cbn [fst snd]. split; [exact L|]. split; [cbn; lra|]. intros; lia.
  - intros i (a & n) Hi (La & Sn & Va). cbn [fst snd] in *. rewrite H by exact Hi. cbn [bind]. rewrite wr_ok by lia. cbn [bind].
    eexists. split; [reflexivity|]. cbn [fst snd]. split; [rewrite upd_length; exact La|]. split; [rewrite Sn; cbn [Rsum]; lra|].
    intros j Hj. destruct (Nat.eq_dec j i) as [->|]; [apply nth_upd_eq; lia|]. rewrite nth_upd_neq by lia. apply Va. lia.
  - rewrite E. cbn [fst snd] in *. subst n'. do 2 f_equal. apply (nth_ext_len _ _ 0); [rewrite tab_length; exact L'|].
    intros i Hi. rewrite nth_tab by lia. apply V. lia.
Qed.

Lemma fill_loop : forall N (g : nat -> R) (al : list R), length al = N -> iterM N (fun j al => wr al j (g j)) al = Ok (tab N g).
Proof.
  intros N g al L. destruct (iterM_inv (fun i (s : list R) => length s = N /\ forall j, (j < i)%nat -> nth j s 0 = g j) N (fun j al => wr al j (g j)) al) as (al' & E & L' & V).
  - split; [exact L|]. intros; lia.
  - intros i a Hi (La & Va). rewrite wr_ok by lia. eexists. split; [reflexivity|]. split; [rewrite upd_length; exact La|].
    intros j Hj. destruct (Nat.eq_dec j i) as [->|]; [apply nth_upd_eq; lia|]. rewrite nth_upd_neq by lia. apply Va. lia.
  - rewrite E. f_equal. apply (nth_ext_len _ _ 0); [rewrite tab_length; exact L'|]. intros i Hi. rewrite nth_tab by lia. apply V. lia.
Qed.

(** ** Transitions *)
Lemma next_mod : forall N i j, (i < N)%nat -> (j < N)%nat -> (j = S i mod N <-> if (0 <? j)%nat then i = (j - 1)%nat else i = (N - 1)%nat).
Proof.
  intros N i j Hi Hj. destruct (Nat.eq_dec (S i) N) as [E|E].
  - rewrite E, Nat.mod_same by lia. destruct (Nat.ltb_spec 0 j); lia.
  - rewrite Nat.mod_small by lia. destruct (Nat.ltb_spec 0 j); lia.
Qed.

Lemma Rsum_if : forall N k f, (k < N)%nat -> Rsum N (fun i => if Nat.eqb i k then f i else 0) = f k.
Proof.
  intros N k f Hk. rewrite (Rsum_single N k); [rewrite Nat.eqb_refl; reflexivity|exact Hk|]. intros i _ Hi. destruct (Nat.eqb_spec i k); [contradiction|reflexivity].
Qed.

Lemma lr_column : forall N (tr : list R) (v : nat -> R) j, (j < N)%nat ->
  Rsum N (fun i => v i * trans_at N LeftRight tr i j) =
  v j * nth (2 * j) tr 0 + (if (0 <? j)%nat then v (j - 1)%nat * nth (2 * (j - 1) + 1) tr 0 else v (N - 1)%nat * nth (2 * N - 1) tr 0).
Proof.
  intros N tr v j Hj. set (k := if (0 <? j)%nat then (j - 1)%nat else (N - 1)%nat). assert (Hk : (k < N)%nat) by (unfold k; destruct (0 <? j)%nat; lia).
  rewrite (Rsum_ext N _ (fun i => (if Nat.eqb i j then v i * nth (2 * i) tr 0 else 0) + (if Nat.eqb i k then v i * nth (2 * i + 1) tr 0 else 0))).
  2:{ intros i Hi. unfold trans_at. rewrite (Nat.eqb_sym j i). pose proof (next_mod N i j Hi Hj) as M.
      assert (E : Nat.eqb j (S i mod N) = Nat.eqb i k). { unfold k. apply eq_true_iff_eq. rewrite !Nat.eqb_eq. rewrite M. destruct (0 <? j)%nat; reflexivity. }
      rewrite E. destruct (Nat.eqb i j), (Nat.eqb i k); ring. }
  rewrite Rsum_plus, (Rsum_if N j (fun i => v i * nth (2 * i) tr 0)), (Rsum_if N k (fun i => v i * nth (2 * i + 1) tr 0)) by assumption.
  unfold k. destruct (Nat.ltb_spec 0 j); [reflexivity|]. replace (2 * (N - 1) + 1)%nat with (2 * N - 1)%nat by lia. reflexivity.
Qed.

Lemma lr_row : forall N (tr : list R) (w : nat -> R) i, (i < N)%nat ->
  Rsum N (fun j => trans_at N LeftRight tr i j * w j) = nth (2 * i) tr 0 * w i + nth (2 * i + 1) tr 0 * w (S i mod N)%nat.
Proof.
  intros N tr w i Hi. assert (HN : (S i mod N < N)%nat) by (apply Nat.mod_upper_bound; lia).
  rewrite (Rsum_ext N _ (fun j => (if Nat.eqb j i then nth (2 * i) tr 0 * w j else 0) + (if Nat.eqb j (S i mod N) then nth (2 * i + 1) tr 0 * w j else 0))).
  2:{ intros j Hj. unfold trans_at. destruct (Nat.eqb j i), (Nat.eqb j (S i mod N)); ring. }
  rewrite Rsum_plus, (Rsum_if N i (fun j => nth (2 * i) tr 0 * w j)), (Rsum_if N (S i mod N) (fun j => nth (2 * i + 1) tr 0 * w j)) by assumption. reflexivity.
Qed.

Lemma lr_row_sum : forall N (tr : list R) i, (i < N)%nat -> Rsum N (trans_at N LeftRight tr i) = nth (2 * i) tr 0 + nth (2 * i + 1) tr 0.
Proof.
  intros N tr i Hi. rewrite (Rsum_ext N _ (fun j => trans_at N LeftRight tr i j * 1)) by (intros; ring). rewrite (lr_row N tr (fun _ => 1) i Hi). ring.
Qed.

Lemma trans_at_nonneg : forall N mode tr i j, (forall q, 0 <= nth q tr 0) -> 0 <= trans_at N mode tr i j.
Proof.
  intros N mode tr i j H. unfold trans_at. destruct mode; [apply H|]. destruct (Nat.eqb j i), (Nat.eqb j (S i mod N)); try lra; try (rewrite ?Rplus_0_l, ?Rplus_0_r; apply H).
  apply Rplus_le_le_0_compat; apply H.
Qed.

Lemma forward_in_ok : forall N mode (tr prev : list R) j, (j < N)%nat -> length prev = N -> length tr = trans_size N mode ->
  forward_in (A := RA) N mode tr prev j = Ok (Rsum N (fun i => nth i prev 0 * trans_at N mode tr i j)).
Proof.
  intros N mode tr prev j Hj Lp Lt. unfold forward_in. destruct mode; cbn [trans_size] in Lt; rewrite !n0_RA; change (num RA) with R in *.
  - rewrite (accM_ok N _ (fun i => nth i prev 0 * nth (i * N + j) tr 0)).
    + f_equal. change (num RA) with R in *. rewrite Rplus_0_l. reflexivity.
    + intros i Hi. rewrite (rd_nth (X := R) prev i 0) by lia. cbn [bind]. rewrite (rd_nth (X := R) tr (i * N + j) 0) by nia. reflexivity.
  - rewrite (lr_column N tr (fun i => nth i prev 0) j Hj).
    rewrite (rd_nth (X := R) prev j 0) by lia. cbn [bind]. rewrite (rd_nth (X := R) tr (j * 2) 0) by lia. cbn [bind].
    replace (j * 2)%nat with (2 * j)%nat by lia. replace ((j - 1) * 2 + 1)%nat with (2 * (j - 1) + 1)%nat by lia. replace (N * 2 - 1)%nat with (2 * N - 1)%nat by lia.
    destruct (Nat.ltb_spec 0 j).
    + rewrite (rd_nth (X := R) prev (j - 1) 0) by lia. cbn [bind]. rewrite (rd_nth (X := R) tr (2 * (j - 1) + 1) 0) by lia. cbn [bind].
      f_equal. cbn [nadd nmul RA]. change (num RA) with R in *. ring.
    + rewrite (rd_nth (X := R) prev (N - 1) 0) by lia. cbn [bind]. rewrite (rd_nth (X := R) tr (2 * N - 1) 0) by lia. cbn [bind].
      f_equal. cbn [nadd nmul RA]. change (num RA) with R in *. ring.
Qed.

(** ** The forward functions *)
Lemma forward_update_ok : forall N mode (tr alpha : list R) (obs : nat -> res R) b, length alpha = N -> length tr = trans_size N mode ->
  (forall j, (j < N)%nat -> obs j = Ok (b j)) ->
  let v := fstep N (trans_at N mode tr) (fun i => nth i alpha 0) b in
  eps300 < Rsum N v -> forward_update (A := RA) N mode tr obs alpha = Ok (tab N (fun j => v j / Rsum N v), 1 / Rsum N v).
Proof.
  intros N mode tr alpha obs b La Lt Ho v Hn. unfold forward_update. rewrite eps300_RA, n0_RA, n1_RA.
  assert (E : iterM N (fun j (s : list R * R) => let* v := forward_in (A := RA) N mode tr alpha j in let* o := obs j in let* al := wr (fst s) j (v * o) in Ok (al, snd s + v * o)) (alpha, 0) = Ok (tab N v, 0 + Rsum N v)).
  { etransitivity; [|apply (acc_loop N (fun j => Ok (v j)) v alpha 0 La); reflexivity].
    apply iterM_ext. intros j s Hj. rewrite (forward_in_ok N mode tr alpha j Hj La Lt). cbn [bind]. rewrite (Ho j Hj). cbn [bind]. reflexivity. }
  eapply bind_eq; [exact E|]. cbv beta iota. rewrite Rplus_0_l.
  change (num RA) with R in *. rewrite (proj2 (nltb_RA_true eps300 (Rsum N v)) Hn).
  eapply bind_eq; [apply scale_vec_ok; apply tab_length|]. cbv beta. apply (f_equal (@Ok _)). f_equal.
  apply tab_ext. intros j Hj. rewrite nth_tab by exact Hj. reflexivity.
Qed.

Lemma forward_init_ok : forall N mode (pr alpha : list R) (obs : nat -> res R) b, (1 <= N)%nat ->
  (forall j, (j < N)%nat -> obs j = Ok (b j)) -> (mode = Ergodic -> length alpha = N /\ length pr = N) ->
  let v := fun i => prior_at mode pr i * b i in
  0 < Rsum N v -> forward_init (A := RA) N mode pr obs alpha = Ok (tab N (fun j => v j / Rsum N v), 1 / Rsum N v).
Proof.
  intros N mode pr alpha obs b HN Ho He v Hn. unfold forward_init. rewrite n0_RA, n1_RA.
  assert (E : match mode with
      | Ergodic => iterM N (fun i (s : list R * R) => let* p := rd pr i in let* o := obs i in let* al := wr (fst s) i (p * o) in Ok (al, snd s + p * o)) (alpha, 0)
      | LeftRight => let* o := obs 0%nat in let* al := wr (repeat 0 N) 0%nat o in Ok (al, 0 + o)
      end = Ok (tab N v, Rsum N v)).
  { destruct mode.
    - destruct (He eq_refl) as (La & Lp). etransitivity; [|rewrite <- (Rplus_0_l (Rsum N v)); apply (acc_loop N (fun j => Ok (v j)) v alpha 0 La); reflexivity].
      apply iterM_ext. intros j s Hj. rewrite (rd_nth (X := R) pr j 0) by lia. cbn [bind]. rewrite (Ho j Hj). reflexivity.
    - rewrite (Ho 0%nat ltac:(lia)). cbn [bind]. rewrite wr_ok by (rewrite repeat_length; lia). cbn [bind].
      assert (S0 : Rsum N v = b 0%nat).
      { unfold v, prior_at. rewrite (Rsum_single N 0%nat); [cbn; ring|lia|]. intros i _ Hi. destruct i; [contradiction|]. cbn. ring. }
      rewrite S0, Rplus_0_l. do 2 f_equal. apply (nth_ext_len _ _ 0); [rewrite upd_length, repeat_length, tab_length; reflexivity|].
      rewrite upd_length, repeat_length. intros i Hi. rewrite nth_tab by exact Hi. unfold v, prior_at. destruct i.
      + rewrite nth_upd_eq by (rewrite repeat_length; lia). cbn. ring.
      + rewrite nth_upd_neq by lia. rewrite nth_repeat. cbn. ring. }
  eapply bind_eq; [exact E|]. cbv beta iota.
  change (num RA) with R in *. rewrite (proj2 (nltb_RA_true 0 (Rsum N v)) Hn).
  eapply bind_eq; [apply scale_vec_ok; apply tab_length|]. cbv beta. apply (f_equal (@Ok _)). f_equal.
  apply tab_ext. intros j Hj. rewrite nth_tab by exact Hj. reflexivity.
Qed.
