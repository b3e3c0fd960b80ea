(** Filtering with one class. *)
From Coq Require Import String List Bool Arith ZArith Reals Lra Lia.
From Verif Require Import Base Arith BaseFacts RFacts Model_Ring Model_Phrase Model_Gaussian Model_Config Model_GMM Model_HMM
  Proofs_Ring Proofs_Gaussian Proofs_KMeans Proofs_GMM Proofs_GMM3 Spec_Common Spec_Matrix Spec_Gaussian Spec_GMM Spec_HMM Proofs_HMM Proofs_HMM2.
Import ListNotations.
Local Open Scope list_scope.
Local Open Scope R_scope.

(** ** Positivity *)
Lemma min_row_pos : 0 < min_row.
Proof. unfold min_row. apply Rinv_0_lt_compat, pow_lt. lra. Qed.

Lemma eps300_lt : eps300 < min_likelihood * min_row.
Proof.
  unfold eps300, min_likelihood, min_row. rewrite <- Rinv_mult. rewrite <- pow_add. apply Rinv_lt_contravar.
  - apply Rmult_lt_0_compat; apply pow_lt; lra.
  - apply Rlt_pow; [lra|lia].
Qed.

Lemma fstep_lower : forall N (a : nat -> nat -> R) v b, (forall i j, (i < N)%nat -> (j < N)%nat -> 0 <= a i j) -> (forall i, (i < N)%nat -> min_row <= Rsum N (a i)) ->
  distribution N v -> (forall j, (j < N)%nat -> min_likelihood <= b j) -> min_likelihood * min_row <= Rsum N (fstep N a v b).
Proof.
  intros N a v b Ha Hr (Hv & Hs) Hb. pose proof min_lik_pos as P. pose proof min_row_pos as Q.
  apply Rle_trans with (Rsum N (fun j => Rsum N (fun i => v i * a i j) * min_likelihood)).
  - rewrite Rsum_scal_r, Rmult_comm. apply Rmult_le_compat_r; [lra|]. rewrite Rsum_swap.
    apply Rle_trans with (Rsum N (fun i => v i * min_row)); [rewrite Rsum_scal_r, Hs; lra|]. apply Rsum_le. intros i Hi. rewrite Rsum_scal_l. apply Rmult_le_compat_l; auto.
  - apply Rsum_le. intros j Hj. unfold fstep. apply Rmult_le_compat_l; [|auto]. apply Rsum_nonneg. intros i Hi. apply Rmult_le_pos; auto.
Qed.

Lemma Rle_mult_dist : forall N (w f : nat -> R) m, distribution N w -> (forall c, (c < N)%nat -> m <= f c) -> m <= Rsum N (fun c => w c * f c).
Proof.
  intros N w f m (H & S) F. replace m with (Rsum N (fun c => w c * m)) by (rewrite Rsum_scal_r, S; ring). apply Rsum_le. intros c Hc. apply Rmult_le_compat_l; auto.
Qed.

Lemma obs_lik_ge : forall k x, min_likelihood <= obs_lik k x.
Proof. intros. unfold obs_lik, comp_lik. destruct (g_bim k); apply Rmax_l. Qed.
Lemma mix_lik_ge : forall g x, distribution (gc_n g) (weight g) -> min_likelihood <= mix_lik g x.
Proof. intros g x D. unfold mix_lik. apply Rle_mult_dist; [exact D|]. intros. apply obs_lik_ge. Qed.

Section Forward.
  Variables (N : nat) (pi : nat -> R) (a : nat -> nat -> R).
  Hypothesis HN : (1 <= N)%nat.
  Hypothesis Hpi : distribution N pi.
  Hypothesis Ha : forall i j, (i < N)%nat -> (j < N)%nat -> 0 <= a i j.
  Hypothesis Hr : forall i, (i < N)%nat -> min_row <= Rsum N (a i).
  Let good (b : nat -> R) := forall j, (j < N)%nat -> min_likelihood <= b j.

  Lemma filtering_one : forall b j, (j < N)%nat -> filtering N pi a [b] j = pi j * b j / Rsum N (fun i => pi i * b i).
  Proof. intros b j Hj. unfold filtering. pose proof (end_iter N pi a b [] j Hj) as E. cbn [length] in E. cbn [length Nat.sub]. rewrite E, seq_iter. reflexivity. Qed.

  Lemma first_norm : forall b, good b -> min_likelihood <= Rsum N (fun i => pi i * b i).
  Proof. intros b G. apply Rle_mult_dist; [exact Hpi|exact G]. Qed.

  Lemma filtering_step : forall bs b, bs <> [] -> 0 < seq_lik N pi a bs ->
    Rsum N (fstep N a (filtering N pi a bs) b) = seq_lik N pi a (bs ++ [b]) / seq_lik N pi a bs /\
    forall j, (j < N)%nat -> fstep N a (filtering N pi a bs) b j = at_lik N pi a (bs ++ [b]) (length bs) j / seq_lik N pi a bs.
  Proof.
    intros bs b Hne Hp. destruct bs as [|b0 bs]; [contradiction|].
    assert (X : forall j, (j < N)%nat -> fstep N a (filtering N pi a (b0 :: bs)) b j = at_lik N pi a ((b0 :: bs) ++ [b]) (length (b0 :: bs)) j / seq_lik N pi a (b0 :: bs)).
    { intros j Hj. change ((b0 :: bs) ++ [b]) with (b0 :: (bs ++ [b])). replace (length (b0 :: bs)) with (length (bs ++ [b])) by (rewrite app_length; cbn; lia).
      rewrite end_iter by exact Hj. rewrite fiter_snoc. unfold fstep. unfold Rdiv at 1. 
      rewrite (Rsum_ext N _ (fun i => / seq_lik N pi a (b0 :: bs) * (fiter N a (fun i => pi i * b0 i) bs i * a i j))).
      - rewrite Rsum_scal_l. ring.
      - intros i Hi. unfold filtering. cbn [length Nat.sub]. rewrite Nat.sub_0_r. rewrite end_iter by exact Hi. unfold Rdiv. ring. }
    split; [|exact X]. rewrite (Rsum_ext N _ _ X), Rsum_div. rewrite at_lik_sum by (rewrite app_length; cbn; lia). reflexivity.
  Qed.

  Lemma filtering_facts : forall bs, bs <> [] -> Forall good bs -> 0 < seq_lik N pi a bs /\ distribution N (filtering N pi a bs).
  Proof.
    intros bs. induction bs as [|b bs IH] using rev_ind; intros Hne G; [contradiction|]. apply Forall_app in G. destruct G as (G & Gb). inversion Gb as [|? ? Hb _]; subst. clear Gb.
    assert (D : 0 < seq_lik N pi a (bs ++ [b]) -> (forall j, (j < N)%nat -> 0 <= at_lik N pi a (bs ++ [b]) (length bs) j) -> distribution N (filtering N pi a (bs ++ [b]))).
    { intros P Q. unfold filtering. replace (length (bs ++ [b]) - 1)%nat with (length bs) by (rewrite app_length; cbn; lia). split.
      - intros j Hj. apply Rmult_le_pos; [apply Q, Hj|]. left. apply Rinv_0_lt_compat, P.
      - rewrite Rsum_div, at_lik_sum by (rewrite app_length; cbn; lia). field. lra. }
    destruct bs as [|b0 bs].
    - cbn [app] in *. assert (S0 : seq_lik N pi a [b] = Rsum N (fun i => pi i * b i)) by (rewrite seq_iter; reflexivity).
      pose proof (first_norm b Hb). pose proof min_lik_pos. split; [lra|]. apply D; [lra|]. intros j Hj. pose proof (end_iter N pi a b [] j Hj) as E. cbn [length] in *. rewrite E. cbn. apply Rmult_le_pos; [apply Hpi, Hj|]. specialize (Hb j Hj). lra.
    - destruct (IH ltac:(discriminate) G) as (P & Q). clear IH. destruct (filtering_step (b0 :: bs) b ltac:(discriminate) P) as (E & V).
      pose proof (fstep_lower N a _ b Ha Hr Q Hb) as L. pose proof min_lik_pos. pose proof min_row_pos. rewrite E in L.
      assert (P' : 0 < seq_lik N pi a ((b0 :: bs) ++ [b])).
      { assert (0 < min_likelihood * min_row) by (apply Rmult_lt_0_compat; assumption). apply Rmult_lt_reg_r with (/ seq_lik N pi a (b0 :: bs)); [apply Rinv_0_lt_compat, P|]. unfold Rdiv in L. lra. }
      split; [exact P'|]. apply D; [exact P'|]. intros j Hj. specialize (V j Hj).
      assert (F : 0 <= fstep N a (filtering N pi a (b0 :: bs)) b j).
      { unfold fstep. apply Rmult_le_pos; [apply Rsum_nonneg; intros i Hi; apply Rmult_le_pos; [apply Q, Hi|apply Ha; assumption]|]. specialize (Hb j Hj). lra. }
      rewrite V in F. replace (at_lik N pi a ((b0 :: bs) ++ [b]) (length (b0 :: bs)) j) with (at_lik N pi a ((b0 :: bs) ++ [b]) (length (b0 :: bs)) j / seq_lik N pi a (b0 :: bs) * seq_lik N pi a (b0 :: bs)) by (field; lra).
      apply Rmult_le_pos; lra.
  Qed.

  Lemma inst_snoc : forall bs b, bs <> [] -> inst_lik N pi a (bs ++ [b]) = seq_lik N pi a (bs ++ [b]) / seq_lik N pi a bs.
  Proof.
    intros bs b H. unfold inst_lik. destruct bs as [|b0 bs]; [contradiction|]. destruct (bs ++ [b]) as [|q l] eqn:E; [destruct bs; discriminate|].
    change ((b0 :: bs) ++ [b]) with (b0 :: bs ++ [b]). rewrite E. rewrite <- E. change (b0 :: bs ++ [b]) with ((b0 :: bs) ++ [b]). rewrite removelast_last. reflexivity.
  Qed.

  (** The forward functions step from one filtering distribution to the next. *)
  Lemma forward_first : forall mode pr (alpha : list R) (obs : nat -> res R) b, (forall i, pi i = prior_at mode pr i) -> good b -> (forall j, (j < N)%nat -> obs j = Ok (b j)) ->
    (mode = Ergodic -> length alpha = N /\ length pr = N) ->
    exists al, forward_init (A := RA) N mode pr obs alpha = Ok (al, 1 / inst_lik N pi a [b]) /\ length al = N /\ forall j, (j < N)%nat -> nth j al 0 = filtering N pi a [b] j.
  Proof.
    intros mode pr alpha obs b Hp G Ho He. pose proof (first_norm b G) as L. pose proof min_lik_pos as P.
    assert (S0 : inst_lik N pi a [b] = Rsum N (fun i => pi i * b i)) by (unfold inst_lik; rewrite seq_iter; reflexivity).
    assert (E : Rsum N (fun i => prior_at mode pr i * b i) = Rsum N (fun i => pi i * b i)) by (apply Rsum_ext; intros; rewrite Hp; reflexivity).
    eexists. split; [|split].
    - rewrite (forward_init_ok N mode pr alpha obs b HN Ho He). { rewrite S0, E. reflexivity. } rewrite E. lra.
    - apply tab_length.
    - intros j Hj. rewrite nth_tab by exact Hj. rewrite (filtering_one b j Hj), Hp. reflexivity.
  Qed.

  Lemma forward_next : forall mode (tr alpha : list R) (obs : nat -> res R) bs b, bs <> [] -> Forall good bs -> good b -> (forall j, (j < N)%nat -> obs j = Ok (b j)) ->
    (forall i j, a i j = trans_at N mode tr i j) -> length alpha = N -> length tr = trans_size N mode -> (forall j, (j < N)%nat -> nth j alpha 0 = filtering N pi a bs j) ->
    exists al, forward_update (A := RA) N mode tr obs alpha = Ok (al, 1 / inst_lik N pi a (bs ++ [b])) /\ length al = N /\ forall j, (j < N)%nat -> nth j al 0 = filtering N pi a (bs ++ [b]) j.
  Proof.
    intros mode tr alpha obs bs b Hne G Gb Ho Ht La Lt Hal. destruct (filtering_facts bs Hne G) as (P & D). destruct (filtering_step bs b Hne P) as (E & V).
    assert (X : forall j, (j < N)%nat -> fstep N (trans_at N mode tr) (fun i => nth i alpha 0) b j = fstep N a (filtering N pi a bs) b j).
    { intros j Hj. unfold fstep. f_equal. apply Rsum_ext. intros i Hi. rewrite (Hal i Hi), Ht. reflexivity. }
    pose proof (Rsum_ext N _ _ X) as XS. pose proof (fstep_lower N a _ b Ha Hr D Gb) as L. pose proof eps300_lt as L3.
    eexists. split; [|split].
    - rewrite (forward_update_ok N mode tr alpha obs b La Lt Ho). { rewrite XS, E, inst_snoc by exact Hne. reflexivity. } rewrite XS. eapply Rlt_le_trans; [exact L3|exact L].
    - apply tab_length.
    - intros j Hj. rewrite nth_tab by exact Hj. rewrite ?XS, X, ?E, V by exact Hj. unfold filtering. replace (length (bs ++ [b]) - 1)%nat with (length bs) by (rewrite app_length; cbn; lia).
      destruct (filtering_facts (bs ++ [b])) as (P' & _); [destruct bs; discriminate|apply Forall_app; split; [exact G|constructor; [exact Gb|constructor]]|].
      change (num RA) with R. field. split; lra.
  Qed.
End Forward.
