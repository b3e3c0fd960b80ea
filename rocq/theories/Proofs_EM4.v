(** Jensen's inequality on the paths of a hidden Markov model. *)
From Coq Require Import String List Bool Arith Lia Reals Lra.
From Verif Require Import Base Arith RFacts Model_Gaussian Model_GMM Model_HMM Spec_Common Spec_Matrix Spec_Gaussian Spec_GMM Spec_HMM
  Proofs_GMM Proofs_HMM Proofs_HMM9 Proofs_PD.
Import ListNotations.
Local Open Scope list_scope.
Local Open Scope R_scope.

(** ** Inequalities, with terms that can be zero *)
Lemma ln_ratio_le : forall x y, 0 < x -> 0 < y -> ln y - ln x <= y / x - 1.
Proof.
  intros x y Hx Hy. assert (Q : 0 < y / x) by (apply Rdiv_lt_0_compat; assumption). pose proof (ln_le_sub _ Q) as E.
  unfold Rdiv in E at 1. rewrite ln_mult, ln_Rinv in E by (try apply Rinv_0_lt_compat; assumption). lra.
Qed.

(** [ln Z' - ln Z] from the logarithms of the terms. *)
Lemma jensen_list : forall {X} (l : list X) (s s' : X -> R), (forall x, In x l -> 0 <= s x) -> (forall x, In x l -> 0 <= s' x) ->
  (forall x, In x l -> 0 < s x -> 0 < s' x) -> 0 < Rlsum (map s l) -> 0 < Rlsum (map s' l) ->
  ln (Rlsum (map s l)) + Rlsum (map (fun x => s x / Rlsum (map s l) * (ln (s' x) - ln (s x))) l) <= ln (Rlsum (map s' l)).
Proof.
  intros X l s s' P P' PP HZ HZ'. set (Z := Rlsum (map s l)) in *. set (Z' := Rlsum (map s' l)) in *.
  assert (L : Rlsum (map (fun x => s x / Z * (ln (s' x) - ln (s x)) + (- (ln Z' - ln Z) / Z) * s x) l) <= Rlsum (map (fun x => / Z' * s' x + (- / Z) * s x) l)).
  { apply Rlsum_map_le. intros x Hx. specialize (P x Hx). specialize (P' x Hx). specialize (PP x Hx). destruct P as [P|P].
    - specialize (PP P). assert (A : 0 < s x / Z) by (apply Rdiv_lt_0_compat; assumption). assert (B : 0 < s' x / Z') by (apply Rdiv_lt_0_compat; assumption).
      pose proof (ln_ratio_le _ _ A B) as E. unfold Rdiv in E at 1 2. rewrite !ln_mult, !ln_Rinv in E by (try apply Rinv_0_lt_compat; assumption).
      replace (/ Z' * s' x + - / Z * s x) with (s x / Z * (s' x / Z' / (s x / Z) - 1)) by (field; lra).
      replace (s x / Z * (ln (s' x) - ln (s x)) + - (ln Z' - ln Z) / Z * s x) with (s x / Z * (ln (s' x) - ln (s x) - (ln Z' - ln Z))) by (field; lra).
      apply Rmult_le_compat_l; lra.
    - rewrite <- P. unfold Rdiv. rewrite !Rmult_0_l, !Rmult_0_r, !Rplus_0_r. apply Rmult_le_pos; [left; apply Rinv_0_lt_compat; assumption|exact P']. }
  rewrite !Rlsum_map_plus, !Rlsum_map_scal in L. fold Z Z' in L. replace (/ Z' * Z') with 1 in L by (field; lra). replace (- / Z * Z) with (- 1) in L by (field; lra).
  replace (- (ln Z' - ln Z) / Z * Z) with (- (ln Z' - ln Z)) in L by (field; lra). lra.
Qed.

Lemma log_sum : forall n (m w : nat -> R), (forall c, (c < n)%nat -> 0 <= m c) -> (forall c, (c < n)%nat -> 0 <= w c) -> (forall c, (c < n)%nat -> 0 < m c -> 0 < w c) ->
  Rsum n m * (ln (Rsum n m) - ln (Rsum n w)) <= Rsum n (fun c => m c * (ln (m c) - ln (w c))).
Proof.
  intros n m w Pm Pw PP. set (M := Rsum n m). set (S := Rsum n w).
  assert (HM : 0 <= M) by (apply Rsum_nonneg; exact Pm). destruct HM as [HM|HM].
  - assert (HS : 0 < S).
    { assert (0 <= S) by (apply Rsum_nonneg; exact Pw). destruct H as [H|H]; [exact H|]. exfalso. assert (Z : M = 0); [|lra].
      apply Rsum_zero. intros c Hc. destruct (Pm c Hc) as [A|A]; [|lra]. exfalso. pose proof (PP c Hc A) as B. assert (0 < S); [|lra]. apply (Rsum_pos_one n w c); assumption. }
    assert (L : Rsum n (fun c => m c - M / S * w c) <= Rsum n (fun c => m c * (ln (m c) - ln (w c)) - (ln M - ln S) * m c)).
    { apply Rsum_le. intros c Hc. specialize (Pm c Hc). specialize (Pw c Hc). specialize (PP c Hc). destruct Pm as [P|P].
      - specialize (PP P). assert (A : 0 < m c / M) by (apply Rdiv_lt_0_compat; assumption). assert (B : 0 < w c / S) by (apply Rdiv_lt_0_compat; assumption).
        pose proof (ln_ratio_le _ _ A B) as E. unfold Rdiv in E at 1 2. rewrite !ln_mult, !ln_Rinv in E by (try apply Rinv_0_lt_compat; assumption).
        replace (m c - M / S * w c) with (m c * (1 - w c / S / (m c / M))) by (field; lra).
        replace (m c * (ln (m c) - ln (w c)) - (ln M - ln S) * m c) with (m c * (ln (m c) - ln (w c) - (ln M - ln S))) by ring.
        apply Rmult_le_compat_l; lra.
      - rewrite <- P. assert (0 <= M / S * w c) by (apply Rmult_le_pos; [left; apply Rdiv_lt_0_compat; assumption|assumption]). lra. }
    rewrite !Rsum_minus, !Rsum_scal_l in L. fold M S in L. replace (M / S * S) with M in L by (field; lra). lra.
  - rewrite <- HM. rewrite Rmult_0_l. right. symmetry. apply Rsum_zero. intros c Hc.
    assert (m c = 0); [|rewrite H; ring]. destruct (Pm c Hc) as [A|A]; [|lra]. exfalso. assert (0 < M) by (apply (Rsum_pos_one n m c); assumption). lra.
Qed.

(** ** Paths *)
Lemma sum_at : forall N k (w : list nat -> R) t (f : nat -> R), (t < k)%nat ->
  Rlsum (map (fun p => w p * f (nth t p N)) (paths N k)) = Rsum N (fun i => Rlsum (map (fun p => if Nat.eqb (nth t p N) i then w p else 0) (paths N k)) * f i).
Proof.
  intros N k w t f Ht. rewrite (Rlsum_map_ext _ (fun p => Rsum N (fun i => f i * (if Nat.eqb (nth t p N) i then w p else 0)))).
  - rewrite Rlsum_map_sum_swap. apply Rsum_ext. intros i Hi. rewrite Rlsum_map_scal. ring.
  - intros p Hp. pose proof (in_paths_lt N k p t Hp Ht) as L. rewrite (Rsum_single N (nth t p N)); [rewrite Nat.eqb_refl; ring|exact L|].
    intros j _ Hj. destruct (Nat.eqb_spec (nth t p N) j); [congruence|ring].
Qed.

Lemma sum_at2 : forall N k (w : list nat -> R) t (f : nat -> nat -> R), (S t < k)%nat ->
  Rlsum (map (fun p => w p * f (nth t p N) (nth (S t) p N)) (paths N k)) =
  Rsum N (fun i => Rsum N (fun j => Rlsum (map (fun p => if Nat.eqb (nth t p N) i && Nat.eqb (nth (S t) p N) j then w p else 0) (paths N k)) * f i j)).
Proof.
  intros N k w t f Ht. rewrite (Rlsum_map_ext _ (fun p => Rsum N (fun i => Rsum N (fun j => f i j * (if Nat.eqb (nth t p N) i && Nat.eqb (nth (S t) p N) j then w p else 0))))).
  - rewrite Rlsum_map_sum_swap. apply Rsum_ext. intros i Hi. rewrite Rlsum_map_sum_swap. apply Rsum_ext. intros j Hj. rewrite Rlsum_map_scal. ring.
  - intros p Hp. pose proof (in_paths_lt N k p t Hp ltac:(lia)) as L1. pose proof (in_paths_lt N k p (S t) Hp Ht) as L2.
    rewrite (Rsum_single N (nth t p N)); [|exact L1|].
    + rewrite (Rsum_single N (nth (S t) p N)); [rewrite !Nat.eqb_refl; cbn [andb]; ring|exact L2|]. intros j _ Hj. rewrite Nat.eqb_refl. destruct (Nat.eqb_spec (nth (S t) p N) j); [congruence|cbn; ring].
    + intros i _ Hi. apply Rsum_zero. intros j _. destruct (Nat.eqb_spec (nth t p N) i); [congruence|cbn; ring].
Qed.

(** The factors of the weight of a path. *)
Lemma walk_pos_inv : forall N (a : nat -> nat -> R) bs p i, (forall i j, (i < N)%nat -> (j < N)%nat -> 0 <= a i j) -> Forall (fun b => forall j, (j < N)%nat -> 0 <= b j) bs ->
  (i < N)%nat -> In p (paths N (length bs)) -> 0 < walk a i bs p ->
  forall t, (t < length bs)%nat -> 0 < a (nth t (i :: p) N) (nth t p N) /\ 0 < nth t bs (fun _ => 0) (nth t p N).
Proof.
  intros N a bs. induction bs as [|b bs IH]; intros p i Ha Hb Hi Hp HW t Ht; [cbn in Ht; lia|].
  destruct p as [|j p]; [cbn in HW; lra|]. cbn [walk] in HW.
  assert (Hj : (j < N)%nat) by (exact (in_paths_lt N (length (b :: bs)) (j :: p) 0 Hp ltac:(cbn; lia))).
  assert (Hp' : In p (paths N (length bs))).
  { cbn [length paths] in Hp. apply in_flat_map in Hp. destruct Hp as (j' & _ & Hp). apply in_map_iff in Hp. destruct Hp as (p' & E & Hp). injection E as -> ->. exact Hp. }
  inversion Hb as [|b' bs' Hb1 Hb2]; subst. pose proof (Ha i j Hi Hj) as A. pose proof (Hb1 j Hj) as B. pose proof (walk_nonneg N a bs p j Ha Hb2) as W.
  assert (W' : 0 <= walk a j bs p) by (apply W; [exact Hj|]; intros u Hu; apply (in_paths_lt N _ p u Hp'); rewrite <- (paths_length _ _ _ Hp'); exact Hu).
  destruct A as [A|A]; [|rewrite <- A in HW; lra]. destruct B as [B|B]; [|rewrite <- B in HW; lra]. destruct W' as [W'|W']; [|rewrite <- W' in HW; lra].
  destruct t as [|t]; [split; assumption|]. apply (IH p j Ha Hb2 Hj Hp' W' t). cbn in Ht. lia.
Qed.

Lemma walk_ln : forall N (a : nat -> nat -> R) bs p i, In p (paths N (length bs)) ->
  (forall t, (t < length bs)%nat -> 0 < a (nth t (i :: p) N) (nth t p N) /\ 0 < nth t bs (fun _ => 0) (nth t p N)) ->
  0 < walk a i bs p /\
  ln (walk a i bs p) = Rsum (length bs) (fun t => ln (a (nth t (i :: p) N) (nth t p N))) + Rsum (length bs) (fun t => ln (nth t bs (fun _ => 0) (nth t p N))).
Proof.
  intros N a bs. induction bs as [|b bs IH]; intros p i Hp H.
  - destruct p as [|j p]; [|destruct Hp as [Hp|[]]; discriminate]. cbn. rewrite ln_1. split; lra.
  - destruct p as [|j p]; [apply paths_length in Hp; discriminate|].
    assert (Hp' : In p (paths N (length bs))).
    { cbn [length paths] in Hp. apply in_flat_map in Hp. destruct Hp as (j' & _ & Hp). apply in_map_iff in Hp. destruct Hp as (p' & E & Hp). injection E as -> ->. exact Hp. }
    destruct (H 0%nat ltac:(cbn; lia)) as (A & B). cbn [nth] in A, B.
    destruct (IH p j Hp') as (W & E). { intros t Ht. exact (H (S t) ltac:(cbn; lia)). }
    cbn [walk length]. split; [repeat apply Rmult_lt_0_compat; assumption|]. rewrite !ln_mult by (try apply Rmult_lt_0_compat; assumption). rewrite E.
    rewrite !Rsum_first. cbn [nth]. ring.
Qed.

Lemma path_cons : forall N k j p, In (j :: p) (paths N (S k)) -> (j < N)%nat /\ In p (paths N k).
Proof.
  intros N k j p Hp. split; [exact (in_paths_lt N (S k) (j :: p) 0 Hp ltac:(lia))|].
  cbn [paths] in Hp. apply in_flat_map in Hp. destruct Hp as (j' & _ & Hp). apply in_map_iff in Hp. destruct Hp as (p' & E & Hp). injection E as -> ->. exact Hp.
Qed.

Lemma path_pos_inv : forall N pi (a : nat -> nat -> R) bs p, (forall i, (i < N)%nat -> 0 <= pi i) -> (forall i j, (i < N)%nat -> (j < N)%nat -> 0 <= a i j) ->
  Forall (fun b => forall j, (j < N)%nat -> 0 <= b j) bs -> In p (paths N (length bs)) -> 0 < path_weight pi a bs p ->
  0 < pi (nth 0 p N) /\ (forall t, (S t < length bs)%nat -> 0 < a (nth t p N) (nth (S t) p N)) /\ (forall t, (t < length bs)%nat -> 0 < nth t bs (fun _ => 0) (nth t p N)).
Proof.
  intros N pi a [|b bs] p Hpi Ha Hb Hp HW; [cbn in HW; lra|]. destruct p as [|j p]; [cbn in HW; lra|]. cbn [path_weight] in HW.
  destruct (path_cons N (length bs) j p Hp) as (Hj & Hp'). inversion Hb as [|b' bs' Hb1 Hb2]; subst.
  pose proof (Hpi j Hj) as A. pose proof (Hb1 j Hj) as B. assert (W : 0 <= walk a j bs p) by (apply (walk_nonneg N); [assumption|assumption|exact Hj|]; intros u Hu; apply (in_paths_lt N _ p u Hp'); rewrite <- (paths_length _ _ _ Hp'); exact Hu).
  destruct A as [A|A]; [|rewrite <- A in HW; lra]. destruct B as [B|B]; [|rewrite <- B in HW; lra]. destruct W as [W|W]; [|rewrite <- W in HW; lra].
  pose proof (walk_pos_inv N a bs p j Ha Hb2 Hj Hp' W) as F. split; [exact A|]. split.
  - intros t Ht. cbn [length] in Ht. exact (proj1 (F t ltac:(lia))).
  - intros [|t] Ht; [exact B|]. cbn [length] in Ht. exact (proj2 (F t ltac:(lia))).
Qed.

Lemma path_ln : forall N pi (a : nat -> nat -> R) bs p, bs <> [] -> In p (paths N (length bs)) -> 0 < pi (nth 0 p N) ->
  (forall t, (S t < length bs)%nat -> 0 < a (nth t p N) (nth (S t) p N)) -> (forall t, (t < length bs)%nat -> 0 < nth t bs (fun _ => 0) (nth t p N)) ->
  0 < path_weight pi a bs p /\ ln (path_weight pi a bs p) =
    ln (pi (nth 0 p N)) + Rsum (length bs - 1) (fun t => ln (a (nth t p N) (nth (S t) p N))) + Rsum (length bs) (fun t => ln (nth t bs (fun _ => 0) (nth t p N))).
Proof.
  intros N pi a [|b bs] p Hne Hp HA HT HB; [congruence|]. destruct p as [|j p]; [apply paths_length in Hp; discriminate|].
  destruct (path_cons N (length bs) j p Hp) as (Hj & Hp'). cbn [path_weight]. cbn [nth] in HA. pose proof (HB 0%nat ltac:(cbn; lia)) as B. cbn [nth] in B.
  destruct (walk_ln N a bs p j Hp') as (W & E).
  { intros t Ht. split; [exact (HT t ltac:(cbn; lia))|exact (HB (S t) ltac:(cbn; lia))]. }
  split; [repeat apply Rmult_lt_0_compat; assumption|]. rewrite !ln_mult by (try apply Rmult_lt_0_compat; assumption). rewrite E.
  cbn [length]. rewrite (Rsum_first (length bs) (fun t => ln (nth t (b :: bs) (fun _ => 0) (nth t (j :: p) N)))). rewrite Nat.sub_0_r || replace (S (length bs) - 1)%nat with (length bs) by lia. cbn [nth]. ring.
Qed.

Lemma at_lik_ge : forall N pi (a : nat -> nat -> R) bs p t, (forall i, (i < N)%nat -> 0 <= pi i) -> (forall i j, (i < N)%nat -> (j < N)%nat -> 0 <= a i j) ->
  Forall (fun b => forall j, (j < N)%nat -> 0 <= b j) bs -> In p (paths N (length bs)) -> path_weight pi a bs p <= at_lik N pi a bs t (nth t p N).
Proof.
  intros N pi a bs p t Hpi Ha Hb Hp. unfold at_lik. set (f := fun q => if Nat.eqb (nth t q N) (nth t p N) then path_weight pi a bs q else 0).
  assert (F : forall q, In q (paths N (length bs)) -> 0 <= f q). { intros q Hq. unfold f. destruct (Nat.eqb _ _); [|lra]. apply (path_nonneg N); assumption. }
  replace (path_weight pi a bs p) with (f p) by (unfold f; rewrite Nat.eqb_refl; reflexivity). clearbody f. revert Hp F. generalize (paths N (length bs)) as l.
  induction l as [|q l IH]; intros [] F; cbn.
  - subst. assert (0 <= Rlsum (map f l)); [|unfold Rlsum in *; lra]. apply Rlsum_nonneg. intros x Hx. apply in_map_iff in Hx. destruct Hx as (y & <- & Hy). apply F. right. exact Hy.
  - pose proof (F q (or_introl eq_refl)). assert (f p <= Rlsum (map f l)); [|unfold Rlsum in *; lra]. apply IH; [assumption|]. intros; apply F; right; assumption.
Qed.

Lemma at_lik2_ge : forall N pi (a : nat -> nat -> R) bs p t, (forall i, (i < N)%nat -> 0 <= pi i) -> (forall i j, (i < N)%nat -> (j < N)%nat -> 0 <= a i j) ->
  Forall (fun b => forall j, (j < N)%nat -> 0 <= b j) bs -> In p (paths N (length bs)) -> path_weight pi a bs p <= at_lik2 N pi a bs t (nth t p N) (nth (S t) p N).
Proof.
  intros N pi a bs p t Hpi Ha Hb Hp. unfold at_lik2. set (f := fun q => if Nat.eqb (nth t q N) (nth t p N) && Nat.eqb (nth (S t) q N) (nth (S t) p N) then path_weight pi a bs q else 0).
  assert (F : forall q, In q (paths N (length bs)) -> 0 <= f q). { intros q Hq. unfold f. destruct (_ && _); [|lra]. apply (path_nonneg N); assumption. }
  replace (path_weight pi a bs p) with (f p) by (unfold f; rewrite !Nat.eqb_refl; reflexivity). clearbody f. revert Hp F. generalize (paths N (length bs)) as l.
  induction l as [|q l IH]; intros [] F; cbn.
  - subst. assert (0 <= Rlsum (map f l)); [|unfold Rlsum in *; lra]. apply Rlsum_nonneg. intros x Hx. apply in_map_iff in Hx. destruct Hx as (y & <- & Hy). apply F. right. exact Hy.
  - pose proof (F q (or_introl eq_refl)). assert (f p <= Rlsum (map f l)); [|unfold Rlsum in *; lra]. apply IH; [assumption|]. intros; apply F; right; assumption.
Qed.

Lemma Rlsum_pos_ex : forall {X} (f : X -> R) l, (forall x, In x l -> 0 <= f x) -> 0 < Rlsum (map f l) -> exists x, In x l /\ 0 < f x.
Proof.
  intros X f l. induction l as [|x l IH]; intros F H; [cbn in H; unfold Rlsum in H; cbn in H; lra|].
  destruct (F x (or_introl eq_refl)) as [P|P]; [exists x; split; [left; reflexivity|exact P]|].
  destruct IH as (y & Hy & Py); [intros; apply F; right; assumption| |exists y; split; [right; exact Hy|exact Py]].
  unfold Rlsum in *. cbn in H. lra.
Qed.

Lemma Rlsum_pos_in : forall {X} (f : X -> R) l x, (forall x, In x l -> 0 <= f x) -> In x l -> 0 < f x -> 0 < Rlsum (map f l).
Proof.
  intros X f l. induction l as [|y l IH]; intros x F Hx P; [contradiction|].
  assert (N : 0 <= Rlsum (map f l)). { apply Rlsum_nonneg. intros z Hz. apply in_map_iff in Hz. destruct Hz as (u & <- & Hu). apply F. right. exact Hu. }
  pose proof (F y (or_introl eq_refl)). destruct Hx as [->|Hx]; [unfold Rlsum in *; cbn; lra|].
  assert (0 < Rlsum (map f l)) by (apply (IH x); [intros; apply F; right; assumption|assumption|assumption]). unfold Rlsum in *; cbn; lra.
Qed.

Lemma Rlsum_Rsum_swap : forall {X} n (f : X -> nat -> R) l, Rlsum (map (fun x => Rsum n (f x)) l) = Rsum n (fun t => Rlsum (map (fun x => f x t) l)).
Proof. intros. apply Rlsum_map_sum_swap. Qed.

Theorem path_gain : forall N pi (a : nat -> nat -> R) bs pi' (a' : nat -> nat -> R) bs',
  (forall i, (i < N)%nat -> 0 <= pi i) -> (forall i j, (i < N)%nat -> (j < N)%nat -> 0 <= a i j) -> Forall (fun b => forall j, (j < N)%nat -> 0 <= b j) bs ->
  (forall i, (i < N)%nat -> 0 <= pi' i) -> (forall i j, (i < N)%nat -> (j < N)%nat -> 0 <= a' i j) -> Forall (fun b => forall j, (j < N)%nat -> 0 < b j) bs' ->
  bs <> [] -> length bs' = length bs ->
  (forall i, (i < N)%nat -> 0 < at_lik N pi a bs 0 i -> 0 < pi' i) ->
  (forall t i j, (S t < length bs)%nat -> (i < N)%nat -> (j < N)%nat -> 0 < at_lik2 N pi a bs t i j -> 0 < a' i j) ->
  0 < seq_lik N pi a bs ->
  0 < seq_lik N pi' a' bs' /\
  ln (seq_lik N pi a bs) + Rsum N (fun i => at_lik N pi a bs 0 i / seq_lik N pi a bs * (ln (pi' i) - ln (pi i)))
    + Rsum (length bs - 1) (fun t => Rsum N (fun i => Rsum N (fun j => at_lik2 N pi a bs t i j / seq_lik N pi a bs * (ln (a' i j) - ln (a i j)))))
    + Rsum (length bs) (fun t => Rsum N (fun i => at_lik N pi a bs t i / seq_lik N pi a bs * (ln (nth t bs' (fun _ => 0) i) - ln (nth t bs (fun _ => 0) i))))
  <= ln (seq_lik N pi' a' bs').
Proof.
  intros N pi a bs pi' a' bs' Ppi Pa Pb Ppi' Pa' Pb' Hne Hlen H1 H2 HZ.
  assert (Pb'' : Forall (fun b => forall j, (j < N)%nat -> 0 <= b j) bs') by (eapply Forall_impl; [|exact Pb']; intros b Hb j Hj; left; apply Hb, Hj).
  assert (Hne' : bs' <> []) by (destruct bs'; [destruct bs; [congruence|discriminate]|discriminate]).
  set (w := path_weight pi a bs). set (w' := path_weight pi' a' bs'). set (P := paths N (length bs)).
  assert (NW : forall p, In p P -> 0 <= w p) by (intros; apply (path_nonneg N); assumption).
  assert (NW' : forall p, In p P -> 0 <= w' p) by (intros; apply (path_nonneg N); try assumption; rewrite Hlen; assumption).
  assert (X : forall p, In p P -> 0 < w p -> 0 < w' p /\ ln (w' p) - ln (w p) = (ln (pi' (nth 0 p N)) - ln (pi (nth 0 p N)))
     + Rsum (length bs - 1) (fun t => ln (a' (nth t p N) (nth (S t) p N)) - ln (a (nth t p N) (nth (S t) p N)))
     + Rsum (length bs) (fun t => ln (nth t bs' (fun _ => 0) (nth t p N)) - ln (nth t bs (fun _ => 0) (nth t p N)))).
  { intros p Hp HW. destruct (path_pos_inv N pi a bs p Ppi Pa Pb Hp HW) as (A & T & B).
    destruct (path_ln N pi a bs p Hne Hp A T B) as (_ & E). fold w in E.
    assert (L0 : (0 < length bs)%nat) by (destruct bs; [congruence|cbn; lia]).
    destruct (path_ln N pi' a' bs' p Hne') as (W' & E').
    { rewrite Hlen. exact Hp. }
    { apply H1; [exact (in_paths_lt N _ p 0 Hp L0)|]. pose proof (at_lik_ge N pi a bs p 0 Ppi Pa Pb Hp). fold w in H. lra. }
    { rewrite Hlen. intros t Ht. apply (H2 t); [exact Ht|exact (in_paths_lt N _ p t Hp ltac:(lia))|exact (in_paths_lt N _ p (S t) Hp Ht)|].
      pose proof (at_lik2_ge N pi a bs p t Ppi Pa Pb Hp). fold w in H. lra. }
    { rewrite Hlen. intros t Ht. apply (proj1 (Forall_forall _ _) Pb'); [apply nth_In; lia|exact (in_paths_lt N _ p t Hp Ht)]. }
    split; [exact W'|]. fold w' in E'. rewrite E, E', Hlen, !Rsum_minus. ring. }
  assert (SZ : seq_lik N pi a bs = Rlsum (map w P)) by reflexivity.
  assert (SZ' : seq_lik N pi' a' bs' = Rlsum (map w' P)) by (unfold seq_lik; rewrite Hlen; reflexivity).
  rewrite SZ in HZ. destruct (Rlsum_pos_ex w P NW HZ) as (p0 & Hp0 & W0).
  assert (HZ' : 0 < Rlsum (map w' P)) by (apply (Rlsum_pos_in w' P p0 NW' Hp0); apply X; assumption).
  rewrite SZ'. split; [exact HZ'|].
  pose proof (jensen_list P w w' NW NW' (fun p Hp HW => proj1 (X p Hp HW)) HZ HZ') as J.
  eapply Rle_trans; [|exact J]. rewrite SZ. set (Z := Rlsum (map w P)) in *. rewrite !Rplus_assoc. apply Rplus_le_compat_l. right.
  rewrite (Rlsum_map_ext (fun x => w x / Z * (ln (w' x) - ln (w x))) (fun p => w p / Z * (ln (pi' (nth 0 p N)) - ln (pi (nth 0 p N)))
     + (Rsum (length bs - 1) (fun t => w p / Z * (ln (a' (nth t p N) (nth (S t) p N)) - ln (a (nth t p N) (nth (S t) p N))))
     + Rsum (length bs) (fun t => w p / Z * (ln (nth t bs' (fun _ => 0) (nth t p N)) - ln (nth t bs (fun _ => 0) (nth t p N))))))).
  - rewrite !Rlsum_map_plus. rewrite !Rlsum_Rsum_swap. clearbody Z. unfold P. f_equal; [|f_equal].
    + rewrite (sum_at N (length bs) (fun p => w p / Z) 0 (fun i => ln (pi' i) - ln (pi i))) by (destruct bs; [congruence|cbn; lia]).
      apply Rsum_ext. intros i Hi. f_equal. unfold at_lik, Rdiv. rewrite <- (Rmult_comm (/ Z)), <- Rlsum_map_scal. apply Rlsum_map_ext. intros p Hp. destruct (Nat.eqb _ _); unfold w; ring.
    + apply Rsum_ext. intros t Ht. rewrite (sum_at2 N (length bs) (fun p => w p / Z) t (fun i j => ln (a' i j) - ln (a i j))) by lia.
      apply Rsum_ext. intros i Hi. apply Rsum_ext. intros j Hj. f_equal. unfold at_lik2, Rdiv. rewrite <- (Rmult_comm (/ Z)), <- Rlsum_map_scal. apply Rlsum_map_ext. intros p Hp. destruct (_ && _); unfold w; ring.
    + apply Rsum_ext. intros t Ht. rewrite (sum_at N (length bs) (fun p => w p / Z) t (fun i => ln (nth t bs' (fun _ => 0) i) - ln (nth t bs (fun _ => 0) i))) by exact Ht.
      apply Rsum_ext. intros i Hi. f_equal. unfold at_lik, Rdiv. rewrite <- (Rmult_comm (/ Z)), <- Rlsum_map_scal. apply Rlsum_map_ext. intros p Hp. destruct (Nat.eqb _ _); unfold w; ring.
  - intros p Hp. destruct (NW p Hp) as [W|W].
    + rewrite (proj2 (X p Hp W)). rewrite !Rsum_scal_l. ring.
    + rewrite <- W. unfold Rdiv. rewrite !Rmult_0_l. rewrite !Rsum_zero by (intros; ring). ring.
Qed.
