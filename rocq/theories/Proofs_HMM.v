(** Forward and backward recursions as sums over state sequences. *)
From Coq Require Import String List Bool Arith Reals Lra Lia.
From Verif Require Import Base Arith BaseFacts RFacts Model_Gaussian Model_Config Model_GMM Model_HMM
  Proofs_Gaussian Proofs_KMeans Proofs_GMM Spec_Common Spec_Matrix Spec_Gaussian Spec_GMM Spec_HMM.
Import ListNotations.
Local Open Scope list_scope.
Local Open Scope R_scope.

(** ** Sums over state sequences *)
Lemma Rlsum_flat_map : forall {X Y} (f : X -> list Y) (g : Y -> R) l, Rlsum (map g (flat_map f l)) = Rlsum (map (fun x => Rlsum (map g (f x))) l).
Proof. induction l as [|x l IH]; [reflexivity|]. cbn [flat_map map]. rewrite map_app, Rlsum_app, IH. reflexivity. Qed.

Lemma paths_sum : forall N k g, Rlsum (map g (paths N (S k))) = Rsum N (fun j => Rlsum (map (fun p => g (j :: p)) (paths N k))).
Proof.
  intros N k g. cbn [paths]. rewrite Rlsum_flat_map, Rlsum_map_seq. apply Rsum_ext. intros j _. cbn [Nat.add]. rewrite map_map. reflexivity.
Qed.

Lemma paths_length : forall N k p, In p (paths N k) -> length p = k.
Proof.
  induction k as [|k IH]; intros p H; cbn [paths] in H; [destruct H as [<-|[]]; reflexivity|].
  apply in_flat_map in H. destruct H as (j & _ & H). apply in_map_iff in H. destruct H as (p' & <- & H). cbn. f_equal. apply IH, H.
Qed.

(** One step of the forward recursion, and all of them. *)
Definition fstep (N : nat) (a : nat -> nat -> R) (v : nat -> R) (b : nat -> R) : nat -> R :=
  fun j => Rsum N (fun i => v i * a i j) * b j.
Definition fiter (N : nat) (a : nat -> nat -> R) (v : nat -> R) (bs : list (nat -> R)) : nat -> R :=
  fold_left (fstep N a) bs v.

(** Total weight after state [i]. *)
Definition tail_lik (N : nat) (a : nat -> nat -> R) (bs : list (nat -> R)) (i : nat) : R :=
  Rlsum (map (walk a i bs) (paths N (length bs))).

Lemma tail_nil : forall N a i, tail_lik N a [] i = 1.
Proof. intros. unfold tail_lik. cbn. lra. Qed.
Lemma tail_cons : forall N a b bs i, tail_lik N a (b :: bs) i = Rsum N (fun j => a i j * b j * tail_lik N a bs j).
Proof.
  intros. unfold tail_lik. cbn [length]. rewrite paths_sum. apply Rsum_ext. intros j _. cbn [walk]. rewrite <- Rlsum_map_scal. reflexivity.
Qed.

Lemma walks_end : forall N a bs v j, (j < N)%nat ->
  Rsum N (fun i => v i * Rlsum (map (fun p => if Nat.eqb (last p i) j then walk a i bs p else 0) (paths N (length bs)))) = fiter N a v bs j.
Proof.
  induction bs as [|b bs IH]; intros v j Hj; cbn [length fiter fold_left].
  - rewrite (Rsum_single N j); [|exact Hj|].
    + cbn [paths map walk last]. rewrite Nat.eqb_refl. cbn [Rlsum fold_right]. cbn. lra.
    + intros i _ Hij. cbn [paths map walk last]. destruct (Nat.eqb_spec i j); [contradiction|]. cbn. lra.
  - fold (fiter N a (fstep N a v b) bs). rewrite <- IH by exact Hj.
    rewrite (Rsum_ext N _ (fun i => Rsum N (fun k => v i * a i k * b k * Rlsum (map (fun p => if Nat.eqb (last p k) j then walk a k bs p else 0) (paths N (length bs)))))).
    2:{ intros i _. rewrite paths_sum, <- Rsum_scal_l. apply Rsum_ext. intros k _. cbn [walk].
        transitivity (v i * (a i k * b k * Rlsum (map (fun p => if Nat.eqb (last p k) j then walk a k bs p else 0) (paths N (length bs))))); [|ring].
        f_equal. rewrite <- Rlsum_map_scal. apply Rlsum_map_ext. intros p _.
        assert (L : last (k :: p) i = last p k) by (clear; revert k i; induction p as [|q p IHp]; intros k i; [reflexivity|]; cbn [last] in *; destruct p; [reflexivity|]; apply (IHp k i)).
        rewrite L. destruct (Nat.eqb (last p k) j); ring. }
    rewrite Rsum_swap. apply Rsum_ext. intros k _. unfold fstep. rewrite <- Rsum_scal_r, <- Rsum_scal_r.
    apply Rsum_ext. intros i _. ring.
Qed.

Lemma last_nth : forall (p : list nat) i d, last p i = nth (length p) (i :: p) d.
Proof. induction p as [|q p IH]; intros i d; [reflexivity|]. cbn [last length nth]. destruct p as [|r p]; [reflexivity|]. rewrite (IH i d). cbn [length nth]. reflexivity. Qed.

Lemma end_iter : forall N pi a b bs j, (j < N)%nat -> at_lik N pi a (b :: bs) (length bs) j = fiter N a (fun i => pi i * b i) bs j.
Proof.
  intros N pi a b bs j Hj. unfold at_lik. cbn [length]. rewrite paths_sum. rewrite <- walks_end by exact Hj. apply Rsum_ext. intros i _.
  cbn [path_weight]. rewrite <- Rlsum_map_scal. apply Rlsum_map_ext. intros p Hp. apply paths_length in Hp. rewrite <- Hp at 1.
  rewrite (last_nth p i N). destruct (Nat.eqb _ j); ring.
Qed.

Lemma in_paths_lt : forall N k p t, In p (paths N k) -> (t < k)%nat -> (nth t p N < N)%nat.
Proof.
  induction k as [|k IH]; intros p t H Ht; [lia|]. cbn [paths] in H. apply in_flat_map in H. destruct H as (j & Hj & H).
  apply in_map_iff in H. destruct H as (p' & <- & H). apply in_seq in Hj. destruct t as [|t]; cbn [nth]; [lia|]. apply IH; [exact H|lia].
Qed.

(** Every sequence is in exactly one state at a position. *)
Lemma at_lik_sum : forall N pi a bs t, (t < length bs)%nat -> Rsum N (at_lik N pi a bs t) = seq_lik N pi a bs.
Proof.
  intros N pi a bs t Ht. unfold at_lik. rewrite <- (Rlsum_map_sum_swap (fun p j => if Nat.eqb (nth t p N) j then path_weight pi a bs p else 0)).
  unfold seq_lik. apply Rlsum_map_ext. intros p Hp. pose proof (in_paths_lt N _ p t Hp Ht) as L.
  rewrite (Rsum_single N (nth t p N)); [rewrite Nat.eqb_refl; reflexivity|exact L|]. intros i _ Hi. destruct (Nat.eqb_spec (nth t p N) i); [congruence|reflexivity].
Qed.
Lemma at_lik2_sum : forall N pi a bs t i, (S t < length bs)%nat -> Rsum N (at_lik2 N pi a bs t i) = at_lik N pi a bs t i.
Proof.
  intros N pi a bs t i Ht. unfold at_lik2. rewrite <- (Rlsum_map_sum_swap (fun p j => if Nat.eqb (nth t p N) i && Nat.eqb (nth (S t) p N) j then path_weight pi a bs p else 0)).
  unfold at_lik. apply Rlsum_map_ext. intros p Hp. pose proof (in_paths_lt N _ p (S t) Hp Ht) as L.
  rewrite (Rsum_single N (nth (S t) p N)); [rewrite Nat.eqb_refl, andb_true_r; reflexivity|exact L|].
  intros k _ Hk. destruct (Nat.eqb_spec (nth (S t) p N) k); [congruence|]. rewrite andb_false_r. reflexivity.
Qed.

(** Sequences cut after a position. *)
Lemma walks_at : forall N a bs1 bs2 v j, (j < N)%nat ->
  Rsum N (fun i => v i * Rlsum (map (fun p => if Nat.eqb (nth (length bs1) (i :: p) N) j then walk a i (bs1 ++ bs2) p else 0) (paths N (length (bs1 ++ bs2))))) =
  fiter N a v bs1 j * tail_lik N a bs2 j.
Proof.
  induction bs1 as [|b bs IH]; intros bs2 v j Hj; cbn [length app fiter fold_left].
  - rewrite (Rsum_single N j); [|exact Hj|].
    + cbn [nth]. rewrite Nat.eqb_refl. reflexivity.
    + intros i _ Hij. cbn [nth]. destruct (Nat.eqb_spec i j); [contradiction|]. rewrite Rlsum_map_const. ring.
  - fold (fiter N a (fstep N a v b) bs). rewrite <- IH by exact Hj.
    rewrite (Rsum_ext N _ (fun i => Rsum N (fun k => v i * a i k * b k * Rlsum (map (fun p => if Nat.eqb (nth (length bs) (k :: p) N) j then walk a k (bs ++ bs2) p else 0) (paths N (length (bs ++ bs2))))))).
    2:{ intros i _. rewrite paths_sum, <- Rsum_scal_l. apply Rsum_ext. intros k _. cbn [walk nth].
        transitivity (v i * (a i k * b k * Rlsum (map (fun p => if Nat.eqb (nth (length bs) (k :: p) N) j then walk a k (bs ++ bs2) p else 0) (paths N (length (bs ++ bs2)))))); [|cbn [nth]; ring].
        f_equal. rewrite <- Rlsum_map_scal. apply Rlsum_map_ext. intros p _. cbn [nth].
        match goal with |- context [if ?c then _ else _] => destruct c end; ring. }
    rewrite Rsum_swap. apply Rsum_ext. intros k _. unfold fstep. rewrite <- Rsum_scal_r, <- Rsum_scal_r.
    apply Rsum_ext. intros i _. ring.
Qed.

Lemma at_split : forall N pi a b bs1 bs2 j, (j < N)%nat ->
  at_lik N pi a (b :: bs1 ++ bs2) (length bs1) j = fiter N a (fun i => pi i * b i) bs1 j * tail_lik N a bs2 j.
Proof.
  intros N pi a b bs1 bs2 j Hj. unfold at_lik. cbn [length]. rewrite paths_sum. rewrite <- walks_at by exact Hj. apply Rsum_ext. intros i _.
  cbn [path_weight]. rewrite <- Rlsum_map_scal. apply Rlsum_map_ext. intros p Hp. destruct (Nat.eqb _ j); ring.
Qed.

Lemma walks_at2 : forall N a bs1 b bs2 v j k, (j < N)%nat -> (k < N)%nat ->
  Rsum N (fun i => v i * Rlsum (map (fun p => if Nat.eqb (nth (length bs1) (i :: p) N) j && Nat.eqb (nth (S (length bs1)) (i :: p) N) k then walk a i (bs1 ++ b :: bs2) p else 0) (paths N (length (bs1 ++ b :: bs2))))) =
  fiter N a v bs1 j * a j k * b k * tail_lik N a bs2 k.
Proof.
  induction bs1 as [|b0 bs IH]; intros b bs2 v j k Hj Hk; cbn [length app fiter fold_left].
  - rewrite (Rsum_single N j); [|exact Hj|].
    + cbn [nth]. rewrite Nat.eqb_refl. cbn [andb]. rewrite paths_sum. rewrite (Rsum_single N k); [|exact Hk|].
      * cbn [nth]. rewrite Nat.eqb_refl. cbn [walk]. unfold tail_lik. rewrite (Rlsum_map_scal (a j k * b k)). ring.
      * intros i _ Hik. cbn [nth]. destruct (Nat.eqb_spec i k); [contradiction|]. rewrite Rlsum_map_const. ring.
    + intros i _ Hij. cbn [nth]. destruct (Nat.eqb_spec i j); [contradiction|]. cbn [andb]. rewrite Rlsum_map_const. ring.
  - fold (fiter N a (fstep N a v b0) bs). rewrite <- IH by assumption.
    rewrite (Rsum_ext N _ (fun i => Rsum N (fun q => v i * a i q * b0 q * Rlsum (map (fun p => if Nat.eqb (nth (length bs) (q :: p) N) j && Nat.eqb (nth (S (length bs)) (q :: p) N) k then walk a q (bs ++ b :: bs2) p else 0) (paths N (length (bs ++ b :: bs2))))))).
    2:{ intros i _. rewrite paths_sum, <- Rsum_scal_l. apply Rsum_ext. intros q _. cbn [walk].
        transitivity (v i * (a i q * b0 q * Rlsum (map (fun p => if Nat.eqb (nth (length bs) (q :: p) N) j && Nat.eqb (nth (S (length bs)) (q :: p) N) k then walk a q (bs ++ b :: bs2) p else 0) (paths N (length (bs ++ b :: bs2)))))); [|ring].
        f_equal. rewrite <- Rlsum_map_scal. apply Rlsum_map_ext. intros p _.
        change (nth (S (length bs)) (i :: q :: p) N) with (nth (length bs) (q :: p) N). change (nth (S (S (length bs))) (i :: q :: p) N) with (nth (S (length bs)) (q :: p) N).
        match goal with |- context [if ?c then _ else _] => destruct c end; ring. }
    rewrite Rsum_swap. apply Rsum_ext. intros q _. unfold fstep. rewrite <- Rsum_scal_r, <- Rsum_scal_r.
    apply Rsum_ext. intros i _. ring.
Qed.

Lemma at_split2 : forall N pi a b bs1 b' bs2 j k, (j < N)%nat -> (k < N)%nat ->
  at_lik2 N pi a (b :: bs1 ++ b' :: bs2) (length bs1) j k = fiter N a (fun i => pi i * b i) bs1 j * a j k * b' k * tail_lik N a bs2 k.
Proof.
  intros N pi a b bs1 b' bs2 j k Hj Hk. unfold at_lik2. cbn [length]. rewrite paths_sum. rewrite <- walks_at2 by assumption. apply Rsum_ext. intros i _.
  cbn [path_weight]. rewrite <- Rlsum_map_scal. apply Rlsum_map_ext. intros p Hp. match goal with |- context [if ?c then _ else _] => destruct c end; ring.
Qed.

Lemma seq_iter : forall N pi a b bs, seq_lik N pi a (b :: bs) = Rsum N (fiter N a (fun i => pi i * b i) bs).
Proof.
  intros. rewrite <- (at_lik_sum N pi a (b :: bs) (length bs)) by (cbn; lia). apply Rsum_ext. intros j Hj. apply end_iter, Hj.
Qed.

Lemma fiter_snoc : forall N a v bs b, fiter N a v (bs ++ [b]) = fstep N a (fiter N a v bs) b.
Proof. intros. unfold fiter. rewrite fold_left_app. reflexivity. Qed.
Lemma fiter_scal : forall N a bs v c j, (j < N)%nat -> fiter N a (fun i => c * v i) bs j = c * fiter N a v bs j.
Proof.
  intros N a bs. induction bs as [|b bs IH] using rev_ind; intros v c j Hj; [reflexivity|]. rewrite !fiter_snoc. unfold fstep.
  rewrite (Rsum_ext N _ (fun i => c * (fiter N a v bs i * a i j))) by (intros i Hi; rewrite IH by exact Hi; ring). rewrite Rsum_scal_l. ring.
Qed.
Lemma fiter_ext : forall N a bs v w j, (forall i, (i < N)%nat -> v i = w i) -> (j < N)%nat -> fiter N a v bs j = fiter N a w bs j.
Proof.
  intros N a bs. induction bs as [|b bs IH] using rev_ind; intros v w j H Hj; [apply H, Hj|]. rewrite !fiter_snoc. unfold fstep.
  f_equal. apply Rsum_ext. intros i Hi. rewrite (IH v w i H Hi). reflexivity.
Qed.
