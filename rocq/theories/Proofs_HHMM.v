(** The flattened model of a hierarchical hidden Markov model: sums, one step, positivity. *)
From Coq Require Import String List Bool Arith ZArith Reals Lra Lia.
From Verif Require Import Base Arith BaseFacts RFacts Model_Ring Model_Phrase Model_Gaussian Model_Config Model_GMM Model_HMM Model_HHMM
  Proofs_Gaussian Proofs_KMeans Proofs_GMM Spec_Common Spec_Matrix Spec_Gaussian Spec_GMM Spec_HMM Spec_HHMM Proofs_HMM Proofs_HMM3 Proofs_HMM4 Proofs_HMM5.
Import ListNotations.
Local Open Scope list_scope.
Local Open Scope R_scope.

Lemma Rsum_flat : forall n m f, Rsum (n * m) f = Rsum n (fun i => Rsum m (fun j => f (i * m + j)%nat)).
Proof.
  induction n as [|n IH]; intros m f; [reflexivity|]. replace (S n * m)%nat with (n * m + m)%nat by lia. rewrite Rsum_split, IH. reflexivity.
Qed.

Lemma flat_dec : forall M c k e, (k < M)%nat -> (e < 3)%nat -> fl_c M (flat M c k e) = c /\ fl_k M (flat M c k e) = k /\ fl_e (flat M c k e) = e.
Proof.
  intros M c k e Hk He. unfold fl_c, fl_k, fl_e, flat.
  assert (E1 : (((c * M + k) * 3 + e) / 3 = c * M + k)%nat) by (symmetry; apply (Nat.div_unique _ 3 _ e); lia).
  rewrite E1. split; [symmetry; apply (Nat.div_unique _ M _ k); lia|]. split; [symmetry; apply (Nat.mod_unique _ M c); lia|symmetry; apply (Nat.mod_unique _ 3 (c * M + k)); lia].
Qed.
Lemma flat_lt3 : forall n M c k e, (c < n)%nat -> (k < M)%nat -> (e < 3)%nat -> (flat M c k e < n * M * 3)%nat.
Proof. intros n M c k e Hc Hk He. unfold flat. assert (c * M + k < n * M)%nat by nia. lia. Qed.
Lemma flat_onto : forall n M s, (s < n * M * 3)%nat -> exists c k e, (c < n)%nat /\ (k < M)%nat /\ (e < 3)%nat /\ s = flat M c k e.
Proof.
  intros n M s Hs. assert (HM : (M <> 0)%nat) by (intros ->; lia). exists (fl_c M s), (fl_k M s), (fl_e s). unfold fl_c, fl_k, fl_e, flat.
  assert (s / 3 < n * M)%nat by (apply Nat.div_lt_upper_bound; lia). split; [apply Nat.div_lt_upper_bound; lia|]. split; [apply Nat.mod_upper_bound; exact HM|]. split; [apply Nat.mod_upper_bound; lia|].
  rewrite (Nat.div_mod s 3) at 1 by lia. rewrite (Nat.div_mod (s / 3) M) at 1 by exact HM. lia.
Qed.

(** ** Forward steps of any model *)
Lemma inst_pos : forall N pi a bs b, bs <> [] -> inst_lik N pi a (bs ++ [b]) = seq_lik N pi a (bs ++ [b]) / seq_lik N pi a bs.
Proof. intros N pi a [|b0 bs] b H; [contradiction|]. unfold inst_lik. rewrite removelast_last. cbn [app]. destruct (bs ++ [b]) eqn:E; [destruct bs; discriminate|]. reflexivity. Qed.

Lemma filtering_after : forall N pi a bs b, bs <> [] -> forall j, (j < N)%nat ->
  fstep N a (filtering N pi a bs) b j = at_lik N pi a (bs ++ [b]) (length bs) j / seq_lik N pi a bs.
Proof.
  intros N pi a bs b Hne j Hj. destruct bs as [|b0 bs]; [contradiction|]. change ((b0 :: bs) ++ [b]) with (b0 :: (bs ++ [b])). replace (length (b0 :: bs)) with (length (bs ++ [b])) by (rewrite app_length; cbn; lia).
  rewrite end_iter by exact Hj. rewrite fiter_snoc. unfold fstep. unfold Rdiv at 1.
  rewrite (Rsum_ext N _ (fun i => / seq_lik N pi a (b0 :: bs) * (fiter N a (fun i => pi i * b0 i) bs i * a i j))).
  - rewrite Rsum_scal_l. ring.
  - intros i Hi. unfold filtering. cbn [length Nat.sub]. rewrite Nat.sub_0_r. rewrite end_iter by exact Hi. unfold Rdiv. ring.
Qed.

Lemma forward_scaled : forall N pi a bs b v l, bs <> [] -> 0 < seq_lik N pi a bs -> 0 < seq_lik N pi a (bs ++ [b]) ->
  (forall j, (j < N)%nat -> v j = l * filtering N pi a bs j) ->
  forall j, (j < N)%nat -> fstep N a v b j = l * (inst_lik N pi a (bs ++ [b]) * filtering N pi a (bs ++ [b]) j).
Proof.
  intros N pi a bs b v l Hb P1 P2 Hv j Hj. pose proof (filtering_after N pi a bs b Hb j Hj) as X.
  unfold fstep. rewrite (Rsum_ext N _ (fun i => l * (filtering N pi a bs i * a i j))) by (intros i Hi; rewrite Hv by exact Hi; ring). rewrite Rsum_scal_l.
  unfold fstep in X. rewrite Rmult_assoc, X. rewrite inst_pos by exact Hb. unfold filtering. rewrite app_length. cbn [length]. replace (length bs + 1 - 1)%nat with (length bs) by lia.
  field. lra.
Qed.

Lemma filtering_sum1 : forall N pi a bs, bs <> [] -> 0 < seq_lik N pi a bs -> Rsum N (filtering N pi a bs) = 1.
Proof.
  intros N pi a bs Hb P. unfold filtering. rewrite Rsum_div, at_lik_sum by (destruct bs; [contradiction|cbn; lia]). field. lra.
Qed.

(** ** Classes *)
Section Flat.
  Variable m : hhmm RA.
  Hypothesis HU : hh_usable m.
  Let n := hh_size m.
  Let M := hwidth m.
  Let Nc c := hc_n (hcl m c).

  Lemma cls_in : forall c, (c < n)%nat -> hclass_in m (hcl m c).
  Proof. intros c Hc. destruct HU as (_ & _ & F & _). rewrite Forall_forall in F. apply F. apply nth_In. exact Hc. Qed.
  Lemma cls_use : forall c, (c < n)%nat -> hmm_usable (hcl m c).
  Proof. intros c Hc. apply (cls_in c Hc). Qed.
  Lemma Nc_pos : forall c, (c < n)%nat -> (1 <= Nc c)%nat.
  Proof. intros c Hc. apply (cls_use c Hc). Qed.
  Lemma width_ge : forall c, (c < n)%nat -> (Nc c <= M)%nat.
  Proof.
    intros c. unfold Nc, M, hwidth, hcl, n, hh_size. revert c. induction (hh_cls m) as [|e l IH]; intros c Hc; [cbn in Hc; lia|]. destruct c as [|c]; cbn [map fold_right nth].
    - lia.
    - cbn in Hc. specialize (IH c ltac:(lia)). lia.
  Qed.
  Lemma top_ok : hh_top_ok m.
  Proof. apply HU. Qed.

  Lemma live_at : forall c k e, (c < n)%nat -> (k < Nc c)%nat -> (e < 3)%nat -> fl_c M (flat M c k e) = c /\ fl_k M (flat M c k e) = k /\ fl_e (flat M c k e) = e /\ (flat M c k e < hcount m)%nat.
  Proof.
    intros c k e Hc Hk He. pose proof (width_ge c Hc). destruct (flat_dec M c k e ltac:(lia) He) as (E1 & E2 & E3). repeat (split; [assumption|]). apply flat_lt3; try assumption. fold M. lia.
  Qed.

  (** Sums over the states that exist. *)
  Lemma live_sum : forall f, (forall c k e, (c < n)%nat -> (Nc c <= k)%nat -> (k < M)%nat -> (e < 3)%nat -> f (flat M c k e) = 0) ->
    Rsum (hcount m) f = Rsum n (fun c => Rsum (Nc c) (fun k => f (flat M c k 0) + f (flat M c k 1) + f (flat M c k 2))).
  Proof.
    intros f Z. unfold hcount. fold n M. rewrite Rsum_flat, Rsum_flat. apply Rsum_ext. intros c Hc. pose proof (width_ge c Hc) as W.
    replace M with (Nc c + (M - Nc c))%nat at 1 by lia. rewrite Rsum_split. rewrite (Rsum_zero (M - Nc c)).
    - rewrite Rplus_0_r. apply Rsum_ext. intros k Hk. cbn [Rsum]. unfold flat. ring.
    - intros i Hi. cbn [Rsum]. pose proof (Z c (Nc c + i)%nat) as Zi. unfold flat in Zi. rewrite !Zi by lia. ring.
  Qed.

  (** Forward variables by class, state and level. *)
  Definition front (B : nat -> nat -> nat -> R) (d k : nat) : R :=
    Rsum (Nc d) (fun j => B d j 0%nat * inner (hcl m d) j k) +
    Rsum n (fun c => Rsum (Nc c) (fun j => B c j 1%nat) * top_trans m c d + Rsum (Nc c) (fun j => B c j 2%nat) * top_prior m d) * entry (hcl m d) k.

  Lemma fstep_flat : forall v B x, (forall c k e, (c < n)%nat -> (k < Nc c)%nat -> (e < 3)%nat -> v (flat M c k e) = B c k e) ->
    forall d k f, (d < n)%nat -> (k < Nc d)%nat -> (f < 3)%nat ->
    fstep (hcount m) (flat_a m) v (flat_b m x) (flat M d k f) = front B d k * split_at m d k f * mix_lik (state_at (hcl m d) k) x.
  Proof.
    intros v B x Hv d k f Hd Hk Hf. destruct (live_at d k f Hd Hk Hf) as (E1 & E2 & E3 & L). unfold fstep, flat_b. fold M. rewrite E1, E2. f_equal.
    rewrite live_sum.
    2:{ intros c j e Hc Hj HjM He. unfold flat_a. fold M. destruct (flat_dec M c j e HjM He) as (-> & -> & _). change (hc_n (hcl m c)) with (Nc c). destruct (Nat.ltb_spec j (Nc c)); [lia|]. cbn [andb]. ring. }
    transitivity (Rsum n (fun c => Rsum (Nc c) (fun j => (if (c =? d)%nat then B c j 0%nat * inner (hcl m d) j k else 0) + (B c j 1%nat * (top_trans m c d * entry (hcl m d) k) + B c j 2%nat * (top_prior m d * entry (hcl m d) k)))) * split_at m d k f).
    - rewrite <- Rsum_scal_r. apply Rsum_ext. intros c Hc. rewrite <- Rsum_scal_r. apply Rsum_ext. intros j Hj.
      assert (Q : forall e, (e < 3)%nat -> v (flat M c j e) * flat_a m (flat M c j e) (flat M d k f) = B c j e * jump m c j e d k * split_at m d k f).
      { intros e He. rewrite Hv by assumption. unfold flat_a. fold M. destruct (live_at c j e Hc Hj He) as (-> & -> & -> & _). rewrite E1, E2, E3.
        change (hc_n (hcl m c)) with (Nc c). change (hc_n (hcl m d)) with (Nc d). destruct (Nat.ltb_spec j (Nc c)); [|lia]. destruct (Nat.ltb_spec k (Nc d)); [|lia]. cbn [andb]. ring. }
      rewrite !Q by lia. unfold jump. destruct (c =? d)%nat; ring.
    - unfold front. f_equal. rewrite (Rsum_ext n _ (fun c => (if (c =? d)%nat then Rsum (Nc d) (fun j => B d j 0%nat * inner (hcl m d) j k) else 0) +
        (Rsum (Nc c) (fun j => B c j 1%nat) * top_trans m c d + Rsum (Nc c) (fun j => B c j 2%nat) * top_prior m d) * entry (hcl m d) k)).
      + rewrite Rsum_plus, Rsum_scal_r. f_equal. rewrite (Rsum_single n d _ Hd).
        * rewrite Nat.eqb_refl. reflexivity.
        * intros i _ Hi. destruct (Nat.eqb_spec i d); [contradiction|reflexivity].
      + intros c Hc. rewrite Rsum_plus, Rsum_plus, !Rsum_scal_r. f_equal; [|ring]. destruct (Nat.eqb_spec c d) as [->|]; [reflexivity|apply Rsum_zero; reflexivity].
  Qed.

  Lemma fstep_dead : forall v x d k f, (d < n)%nat -> (Nc d <= k)%nat -> (k < M)%nat -> (f < 3)%nat ->
    fstep (hcount m) (flat_a m) v (flat_b m x) (flat M d k f) = 0.
  Proof.
    intros v x d k f Hd Hk HkM Hf. unfold fstep. rewrite Rsum_zero; [ring|]. intros i _. unfold flat_a. fold M. destruct (flat_dec M d k f HkM Hf) as (-> & -> & _).
    change (hc_n (hcl m d)) with (Nc d). destruct (Nat.ltb_spec k (Nc d)); [lia|]. rewrite andb_false_r. ring.
  Qed.

  Lemma split_sum : forall c k, split_at m c k 0 + split_at m c k 1 + split_at m c k 2 = 1.
  Proof. intros. unfold split_at. ring. Qed.

  Lemma fstep_total : forall v B x, (forall c k e, (c < n)%nat -> (k < Nc c)%nat -> (e < 3)%nat -> v (flat M c k e) = B c k e) ->
    Rsum (hcount m) (fstep (hcount m) (flat_a m) v (flat_b m x)) = Rsum n (fun d => Rsum (Nc d) (fun k => front B d k * mix_lik (state_at (hcl m d) k) x)).
  Proof.
    intros v B x Hv. rewrite live_sum by (intros; apply fstep_dead; assumption). apply Rsum_ext. intros d Hd. apply Rsum_ext. intros k Hk.
    rewrite !(fstep_flat v B x Hv) by (assumption || lia). transitivity (front B d k * mix_lik (state_at (hcl m d) k) x * (split_at m d k 0 + split_at m d k 1 + split_at m d k 2)); [ring|]. rewrite split_sum. ring.
  Qed.

  (** The first observation. *)
  Lemma first_flat : forall x c k e, (c < n)%nat -> (k < Nc c)%nat -> (e < 3)%nat ->
    flat_pi m (flat M c k e) * flat_b m x (flat M c k e) = (if Nat.eqb e 0 then start_at m c k else 0) * mix_lik (state_at (hcl m c) k) x.
  Proof.
    intros x c k e Hc Hk He. unfold flat_pi, flat_b. fold M. destruct (live_at c k e Hc Hk He) as (-> & -> & -> & _). change (hc_n (hcl m c)) with (Nc c).
    destruct (Nat.ltb_spec k (Nc c)); [|lia]. cbn [andb]. reflexivity.
  Qed.
  Lemma first_total : forall x, Rsum (hcount m) (fun s => flat_pi m s * flat_b m x s) = Rsum n (fun c => Rsum (Nc c) (fun k => start_at m c k * mix_lik (state_at (hcl m c) k) x)).
  Proof.
    intros x. rewrite live_sum.
    - apply Rsum_ext. intros c Hc. apply Rsum_ext. intros k Hk. rewrite !first_flat by (assumption || lia). cbn [Nat.eqb]. ring.
    - intros c k e Hc Hk HkM He. unfold flat_pi. fold M. destruct (flat_dec M c k e HkM He) as (-> & -> & ->). change (hc_n (hcl m c)) with (Nc c). destruct (Nat.ltb_spec k (Nc c)); [lia|]. cbn [andb]. ring.
  Qed.

  (** ** Signs *)
  Lemma lik_ge : forall c k x, (c < n)%nat -> (k < Nc c)%nat -> 0 < mix_lik (state_at (hcl m c) k) x.
  Proof. intros c k x Hc Hk. pose proof (usable_lik (hcl m c) (cls_use c Hc) x k Hk) as H. cbv beta in H. pose proof min_lik_pos. lra. Qed.
  Lemma entry_ge : forall c k, (c < n)%nat -> (k < Nc c)%nat -> 0 <= entry (hcl m c) k.
  Proof. intros c k Hc Hk. apply (usable_pi (hcl m c) (cls_use c Hc)). exact Hk. Qed.
  Lemma exit_lt : forall c k, (c < n)%nat -> (k < Nc c)%nat -> 0 <= exit_at (hcl m c) k < 1.
  Proof. intros c k Hc Hk. destruct (cls_in c Hc) as (_ & _ & _ & _ & _ & _ & H & _). apply H. exact Hk. Qed.
  Lemma div_ge : forall x y, 0 <= x -> 0 < y -> 0 <= x / y.
  Proof. intros x y Hx Hy. unfold Rdiv. apply Rmult_le_pos; [exact Hx|]. left. apply Rinv_0_lt_compat. exact Hy. Qed.
  Lemma inner_ge : forall c j k, (c < n)%nat -> (j < Nc c)%nat -> 0 <= inner (hcl m c) j k.
  Proof.
    intros c j k Hc Hj. destruct (cls_use c Hc) as (_ & _ & _ & (_ & T & _) & _). pose proof (exit_lt c j Hc Hj) as E. unfold inner. destruct (hc_mode (hcl m c)).
    - apply div_ge; [apply T|lra].
    - apply Rplus_le_le_0_compat; [destruct (k =? j)%nat|destruct (k =? S j)%nat]; try lra; apply div_ge; try apply T; try lra. destruct (j =? 0)%nat; lra.
  Qed.
  Lemma split_ge : forall c k e, (c < n)%nat -> (k < Nc c)%nat -> 0 <= split_at m c k e.
  Proof.
    intros c k e Hc Hk. pose proof (exit_lt c k Hc Hk). destruct top_ok as (_ & _ & _ & _ & _ & Q). specialize (Q c Hc). unfold split_at. destruct e as [|[|e]]; [lra| |]; apply Rmult_le_pos; lra.
  Qed.
  Lemma split0_pos : forall c k, (c < n)%nat -> (k < Nc c)%nat -> 0 < split_at m c k 0.
  Proof. intros c k Hc Hk. pose proof (exit_lt c k Hc Hk). unfold split_at. lra. Qed.
  Lemma tprior_pos : forall c, (c < n)%nat -> 0 < top_prior m c.
  Proof. destruct top_ok as (_ & P & _). exact P. Qed.
  Lemma ttrans_ge : forall c d, (c < n)%nat -> (d < n)%nat -> 0 <= top_trans m c d.
  Proof. intros c d Hc Hd. destruct top_ok as (_ & _ & _ & P & _). apply (P c Hc). exact Hd. Qed.
  Lemma start_ge : forall c k, (c < n)%nat -> (k < Nc c)%nat -> 0 <= start_at m c k.
  Proof. intros c k Hc Hk. pose proof (entry_ge c k Hc Hk). pose proof (tprior_pos c Hc). unfold start_at. destruct (hc_mode (hcl m c)); [assumption|]. apply Rmult_le_pos; lra. Qed.

  Lemma front_ge : forall B d k, (forall c k e, (c < n)%nat -> (k < Nc c)%nat -> (e < 3)%nat -> 0 <= B c k e) -> (d < n)%nat -> (k < Nc d)%nat -> 0 <= front B d k.
  Proof.
    intros B d k HB Hd Hk. unfold front. apply Rplus_le_le_0_compat.
    - apply Rsum_nonneg. intros j Hj. apply Rmult_le_pos; [apply HB; (assumption || lia)|apply inner_ge; assumption].
    - apply Rmult_le_pos; [|apply entry_ge; assumption]. apply Rsum_nonneg. intros c Hc. apply Rplus_le_le_0_compat; apply Rmult_le_pos.
      + apply Rsum_nonneg. intros j Hj. apply HB; (assumption || lia).
      + apply ttrans_ge; assumption.
      + apply Rsum_nonneg. intros j Hj. apply HB; (assumption || lia).
      + left. apply tprior_pos. exact Hd.
  Qed.

  Lemma some_pos : forall N f, (forall i, (i < N)%nat -> 0 <= f i) -> 0 < Rsum N f -> exists i, (i < N)%nat /\ 0 < f i.
  Proof.
    induction N as [|N IH]; intros f H P; cbn [Rsum] in P; [lra|]. destruct (Rlt_dec 0 (f N)) as [L|L]; [exists N; split; [lia|exact L]|].
    pose proof (H N ltac:(lia)). destruct (IH f) as (i & Hi & Hp); [intros; apply H; lia|lra|exists i; split; [lia|exact Hp]].
  Qed.

  (** From every state some state of the class can be reached. *)
  Lemma inner_some : forall c j, (c < n)%nat -> (j < Nc c)%nat -> exists k, (k < Nc c)%nat /\ 0 < inner (hcl m c) j k.
  Proof.
    intros c j Hc Hj. destruct (cls_use c Hc) as (_ & _ & _ & (_ & T & Rw) & _). pose proof (exit_lt c j Hc Hj) as E. pose proof min_row_pos as MR. specialize (Rw j Hj).
    destruct (cls_in c Hc) as (_ & _ & _ & _ & _ & _ & _ & LL & _).
    assert (DP : forall x y, 0 < x -> 0 < y -> 0 < x / y) by (intros; apply Rdiv_lt_0_compat; assumption).
    destruct (some_pos (Nc c) (trans_at (hc_n (hcl m c)) (hc_mode (hcl m c)) (h_trans (hc_net (hcl m c))) j)) as (k & Hk & Pk).
    { intros i _. apply trans_at_ge. exact T. } { fold (Nc c) in Rw |- *. lra. }
    unfold inner. unfold trans_at in Pk. destruct (hc_mode (hcl m c)).
    - exists k. split; [exact Hk|]. apply DP; [exact Pk|lra].
    - specialize (LL eq_refl). pose proof (T (2 * j)%nat) as T0. pose proof (T (2 * j + 1)%nat) as T1. fold (Nc c) in *.
      assert (SELF : 0 < nth (2 * j) (h_trans (hc_net (hcl m c))) 0 -> exists k, (k < Nc c)%nat /\ 0 < (if (k =? j)%nat then nth (2 * j) (h_trans (hc_net (hcl m c))) 0 / (if (j =? 0)%nat then 1 else 1 - exit_at (hcl m c) j) else 0) +
        (if (k =? S j)%nat then nth (2 * j + 1) (h_trans (hc_net (hcl m c))) 0 / (1 - exit_at (hcl m c) j) else 0)).
      { intros P. exists j. split; [exact Hj|]. rewrite Nat.eqb_refl. destruct (Nat.eqb_spec j (S j)); [lia|]. rewrite Rplus_0_r. apply DP; [exact P|destruct (j =? 0)%nat; lra]. }
      destruct (Nat.eq_dec j (Nc c - 1)) as [->|Nj]; [apply SELF; exact LL|].
      rewrite (Nat.mod_small (S j)) in Pk by lia. revert Pk. destruct (Nat.eqb_spec k j) as [Ek|Ek], (Nat.eqb_spec k (S j)) as [Ek'|Ek']; intros Pk; try lia; try lra.
      + apply SELF. rewrite Rplus_0_r in Pk. exact Pk.
      + exists (S j). split; [lia|]. destruct (Nat.eqb_spec (S j) j); [lia|]. rewrite Nat.eqb_refl. rewrite Rplus_0_l in Pk |- *. apply DP; [exact Pk|lra].
  Qed.

  Lemma front_pos : forall B d j, (forall c k e, (c < n)%nat -> (k < Nc c)%nat -> (e < 3)%nat -> 0 <= B c k e) -> (d < n)%nat -> (j < Nc d)%nat -> 0 < B d j 0%nat ->
    exists k, (k < Nc d)%nat /\ 0 < front B d k.
  Proof.
    intros B d j HB Hd Hj P. destruct (inner_some d j Hd Hj) as (k & Hk & Pk). exists k. split; [exact Hk|]. unfold front.
    apply Rplus_lt_le_0_compat.
    - apply (Rsum_pos_one _ _ j); [|exact Hj|apply Rmult_lt_0_compat; assumption]. intros i Hi. apply Rmult_le_pos; [apply HB; (assumption || lia)|apply inner_ge; assumption].
    - apply Rmult_le_pos; [|apply entry_ge; assumption]. apply Rsum_nonneg. intros c Hc. apply Rplus_le_le_0_compat; apply Rmult_le_pos.
      + apply Rsum_nonneg. intros i Hi. apply HB; (assumption || lia).
      + apply ttrans_ge; assumption.
      + apply Rsum_nonneg. intros i Hi. apply HB; (assumption || lia).
      + left. apply tprior_pos. exact Hd.
  Qed.

  (** Every class keeps a positive forward variable at level 0. *)
  Definition flat_good (v : nat -> R) : Prop :=
    (forall s, (s < hcount m)%nat -> 0 <= v s) /\ (forall c, (c < n)%nat -> exists k, (k < Nc c)%nat /\ 0 < v (flat M c k 0)).

  Lemma good_sum : forall v, flat_good v -> 0 < Rsum (hcount m) v.
  Proof.
    intros v (P & Q). pose proof HU as (Hn & _). destruct (Q 0%nat ltac:(unfold n; lia)) as (k & Hk & Pk). destruct (live_at 0 k 0 ltac:(unfold n; lia) Hk ltac:(lia)) as (_ & _ & _ & L). apply (Rsum_pos_one _ _ _ P L Pk).
  Qed.
  Lemma good_scal : forall v l, 0 < l -> flat_good v -> flat_good (fun s => v s / l).
  Proof.
    intros v l Hl (P & Q). split; [intros s Hs; apply div_ge; [apply P; exact Hs|exact Hl]|]. intros c Hc. destruct (Q c Hc) as (k & Hk & Pk). exists k. split; [exact Hk|]. apply Rdiv_lt_0_compat; assumption.
  Qed.
  Lemma good_ext : forall v w, (forall s, (s < hcount m)%nat -> v s = w s) -> flat_good v -> flat_good w.
  Proof.
    intros v w E (P & Q). split; [intros s Hs; rewrite <- E by exact Hs; apply P; exact Hs|]. intros c Hc. destruct (Q c Hc) as (k & Hk & Pk). exists k. split; [exact Hk|].
    destruct (live_at c k 0 Hc Hk ltac:(lia)) as (_ & _ & _ & L). rewrite <- E by exact L. exact Pk.
  Qed.

  Lemma good_first : forall x, flat_good (fun s => flat_pi m s * flat_b m x s).
  Proof.
    intros x. split.
    - intros s Hs. destruct (flat_onto n M s Hs) as (c & k & e & Hc & Hk & He & ->). destruct (Nat.ltb_spec k (Nc c)).
      + rewrite first_flat by assumption. apply Rmult_le_pos; [|left; apply lik_ge; assumption]. destruct (e =? 0)%nat; [apply start_ge; assumption|lra].
      + unfold flat_pi. fold M. destruct (flat_dec M c k e Hk He) as (-> & -> & _). change (hc_n (hcl m c)) with (Nc c). destruct (Nat.ltb_spec k (Nc c)); [lia|]. cbn [andb]. lra.
    - intros c Hc. assert (X : exists k, (k < Nc c)%nat /\ 0 < start_at m c k).
      { unfold start_at, entry. pose proof (usable_pi (hcl m c) (cls_use c Hc)) as (D1 & D2). cbv beta in *. pose proof (tprior_pos c Hc).
        destruct (some_pos (Nc c) (hc_prior (hcl m c)) D1 ltac:(unfold Nc; lra)) as (k & Hk & Pk). exists k. split; [exact Hk|]. destruct (hc_mode (hcl m c)); [exact Pk|]. apply Rmult_lt_0_compat; assumption. }
      destruct X as (k & Hk & Pk). exists k. split; [exact Hk|]. rewrite first_flat by (assumption || lia). cbn [Nat.eqb]. apply Rmult_lt_0_compat; [exact Pk|apply lik_ge; assumption].
  Qed.
  Lemma good_step : forall v x, flat_good v -> flat_good (fstep (hcount m) (flat_a m) v (flat_b m x)).
  Proof.
    intros v x (P & Q). set (B := fun c k e => v (flat M c k e)). assert (HB : forall c k e, (c < n)%nat -> (k < Nc c)%nat -> (e < 3)%nat -> 0 <= B c k e).
    { intros c k e Hc Hk He. apply P. apply (live_at c k e Hc Hk He). }
    split.
    - intros s Hs. destruct (flat_onto n M s Hs) as (c & k & e & Hc & Hk & He & ->). destruct (Nat.ltb_spec k (Nc c)).
      + rewrite (fstep_flat v B) by (assumption || reflexivity). apply Rmult_le_pos; [|left; apply lik_ge; assumption]. apply Rmult_le_pos; [apply front_ge; assumption|apply split_ge; assumption].
      + rewrite fstep_dead by assumption. lra.
    - intros c Hc. destruct (Q c Hc) as (j & Hj & Pj). destruct (front_pos B c j HB Hc Hj Pj) as (k & Hk & Pk). exists k. split; [exact Hk|].
      rewrite (fstep_flat v B) by (assumption || reflexivity || lia). apply Rmult_lt_0_compat; [|apply lik_ge; assumption]. apply Rmult_lt_0_compat; [exact Pk|apply split0_pos; assumption].
  Qed.

  Lemma flat_facts : forall xs, xs <> [] -> 0 < seq_lik (hcount m) (flat_pi m) (flat_a m) (flat_bs m xs) /\ flat_good (filtering (hcount m) (flat_pi m) (flat_a m) (flat_bs m xs)).
  Proof.
    intros [|x xs] H; [contradiction|]. clear H. unfold flat_bs. cbn [map]. set (bs := map (flat_b m) xs).
    assert (G : flat_good (fiter (hcount m) (flat_a m) (fun s => flat_pi m s * flat_b m x s) bs)).
    { unfold bs. clear bs. induction xs as [|y xs IH] using rev_ind; [apply good_first|]. rewrite map_app. cbn [map]. rewrite fiter_snoc. apply good_step. exact IH. }
    assert (P : 0 < seq_lik (hcount m) (flat_pi m) (flat_a m) (flat_b m x :: bs)) by (rewrite seq_iter; apply good_sum; exact G).
    split; [exact P|]. apply (good_ext (fun s => fiter (hcount m) (flat_a m) (fun s => flat_pi m s * flat_b m x s) bs s / seq_lik (hcount m) (flat_pi m) (flat_a m) (flat_b m x :: bs))).
    - intros s Hs. unfold filtering. cbn [length Nat.sub]. rewrite Nat.sub_0_r. rewrite end_iter by exact Hs. reflexivity.
    - apply good_scal; assumption.
  Qed.

  (** ** In terms of the specification *)
  Lemma hh_filtering_ge : forall xs c k e, xs <> [] -> (c < n)%nat -> (k < Nc c)%nat -> (e < 3)%nat -> 0 <= hh_filtering m xs c k e.
  Proof. intros xs c k e Hx Hc Hk He. destruct (flat_facts xs Hx) as (_ & P & _). apply P. apply (live_at c k e Hc Hk He). Qed.
  Lemma hh_filtering_some : forall xs c, xs <> [] -> (c < n)%nat -> exists k, (k < Nc c)%nat /\ 0 < hh_filtering m xs c k 0.
  Proof. intros xs c Hx Hc. destruct (flat_facts xs Hx) as (_ & _ & P). apply P. exact Hc. Qed.
  Lemma hh_class_pos : forall xs c, xs <> [] -> (c < n)%nat -> 0 < hh_class m xs c.
  Proof.
    intros xs c Hx Hc. destruct (hh_filtering_some xs c Hx Hc) as (k & Hk & P). unfold hh_class. fold (Nc c). pose proof (fun k e Hk He => hh_filtering_ge xs c k e Hx Hc Hk He) as G.
    apply (Rsum_pos_one _ _ k); [|exact Hk|].
    - intros j Hj. pose proof (G j 0%nat Hj ltac:(lia)). pose proof (G j 1%nat Hj ltac:(lia)). pose proof (G j 2%nat Hj ltac:(lia)). lra.
    - pose proof (G k 1%nat Hk ltac:(lia)). pose proof (G k 2%nat Hk ltac:(lia)). lra.
  Qed.
  Lemma hh_lik_pos : forall xs, xs <> [] -> 0 < hh_lik m xs.
  Proof.
    intros xs Hx. destruct (flat_facts xs Hx) as (P & _). destruct (exists_last Hx) as (ys & y & ->). unfold hh_lik, flat_bs in *. rewrite map_app in *. cbn [map] in *. destruct ys as [|y0 ys].
    - exact P.
    - rewrite inst_pos by discriminate. apply Rdiv_lt_0_compat; [exact P|]. apply (flat_facts (y0 :: ys)). discriminate.
  Qed.
  Lemma hh_total : forall xs, xs <> [] -> Rsum n (hh_class m xs) = 1.
  Proof.
    intros xs Hx. destruct (flat_facts xs Hx) as (P & _). rewrite <- (filtering_sum1 (hcount m) (flat_pi m) (flat_a m) (flat_bs m xs)) by (exact P || (destruct xs; [contradiction|discriminate])).
    symmetry. apply live_sum. intros c k e Hc Hk HkM He. destruct xs as [|x xs]; [contradiction|]. unfold flat_bs in *. cbn [map] in *. unfold filtering. cbn [length Nat.sub]. rewrite Nat.sub_0_r.
    assert (Hs : (flat M c k e < hcount m)%nat) by (apply flat_lt3; assumption). rewrite end_iter by exact Hs.
    replace (fiter _ _ _ _ _) with 0; [unfold Rdiv; ring|]. symmetry. destruct xs as [|y xs _] using rev_ind.
    - cbn [map fiter fold_left]. unfold flat_pi. fold M. destruct (flat_dec M c k e HkM He) as (-> & -> & _). change (hc_n (hcl m c)) with (Nc c). destruct (Nat.ltb_spec k (Nc c)); [lia|]. cbn [andb]. ring.
    - rewrite map_app. cbn [map]. rewrite fiter_snoc. apply fstep_dead; assumption.
  Qed.
End Flat.
