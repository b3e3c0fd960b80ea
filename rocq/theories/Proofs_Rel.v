(** Relations between two runs of the same code. *)
From Coq Require Import String List Bool Arith ZArith Lia.
From Verif Require Import Base BaseFacts Arith.
Import ListNotations.
Local Open Scope nat_scope.

(** Same outcome, with related values. *)
Inductive res_rel {X Y} (P : X -> Y -> Prop) : res X -> res Y -> Prop :=
| rr_ok : forall a b, P a b -> res_rel P (Ok a) (Ok b)
| rr_throw : forall e, res_rel P (Throw e) (Throw e)
| rr_ub : res_rel P UB UB.
#[export] Hint Constructors res_rel : rel.

Lemma rr_bind : forall {X Y X' Y'} (P : X -> X' -> Prop) (Q : Y -> Y' -> Prop) m m' f f',
  res_rel P m m' -> (forall a b, P a b -> res_rel Q (f a) (f' b)) -> res_rel Q (bind m f) (bind m' f').
Proof. intros X Y X' Y' P Q m m' f f' [a b H| e |] F; cbn; auto with rel. Qed.

Lemma rr_impl : forall {X Y} (P Q : X -> Y -> Prop) m m', res_rel P m m' -> (forall a b, P a b -> Q a b) -> res_rel Q m m'.
Proof. intros X Y P Q m m' [a b H| e |] F; auto with rel. Qed.

Lemma rr_refl : forall {X} (m m' : res X), m = m' -> res_rel eq m m'.
Proof. intros X [a| e |] ? <-; auto with rel. Qed.
Lemma rr_eq : forall {X} (m m' : res X), res_rel eq m m' -> m = m'.
Proof. intros X m m' [a b H| e |]; congruence. Qed.
Lemma rr_same : forall {X} (m : res X), res_rel eq m m.
Proof. intros. apply rr_refl. reflexivity. Qed.
#[export] Hint Resolve rr_same : rel.

(** The same first step. *)
Lemma rr_step : forall {X Y Y'} (Q : Y -> Y' -> Prop) (m : res X) f f',
  (forall a, m = Ok a -> res_rel Q (f a) (f' a)) -> res_rel Q (bind m f) (bind m f').
Proof. intros X Y Y' Q [a| e |] f f' F; cbn; auto with rel. Qed.

Lemma rr_iter : forall {X Y} n (P : nat -> X -> Y -> Prop) f f' s s', P 0 s s' ->
  (forall i a b, i < n -> P i a b -> res_rel (P (S i)) (f i a) (f' i b)) -> res_rel (P n) (iterM n f s) (iterM n f' s').
Proof.
  induction n; intros P f f' s s' H0 H; cbn; auto with rel.
  apply (rr_bind (P n)); [apply IHn; auto|]. intros a b Hab. apply H; auto.
Qed.

Lemma rr_map : forall {X Y X' Y'} (P : X -> X' -> Prop) (Q : Y -> Y' -> Prop) f f' l l', Forall2 P l l' ->
  (forall a b, P a b -> res_rel Q (f a) (f' b)) -> res_rel (Forall2 Q) (mapM f l) (mapM f' l').
Proof.
  intros X Y X' Y' P Q f f' l l' H F. induction H; cbn; auto with rel.
  eapply rr_bind; [apply F; exact H|]. intros a b Hab. eapply rr_bind; [exact IHForall2|]. intros. constructor. constructor; auto.
Qed.

Lemma rr_tab : forall {X Y} n (P : X -> Y -> Prop) f f', (forall i, i < n -> res_rel P (f i) (f' i)) -> res_rel (Forall2 P) (tabM n f) (tabM n f').
Proof.
  induction n; intros P f f' H; cbn; auto with rel.
  eapply rr_bind; [apply IHn; auto|]. intros a b Hab. eapply rr_bind; [apply H; auto|]. intros. constructor. apply Forall2_app; auto.
Qed.

Lemma forall2_eq : forall {X} (l l' : list X), Forall2 eq l l' -> l = l'.
Proof. intros X l l' H. induction H; congruence. Qed.
Lemma forall2_same : forall {X} (P : X -> X -> Prop) l, Forall (fun x => P x x) l -> Forall2 P l l.
Proof. intros X P l H. induction H; auto. Qed.
Lemma forall2_rd : forall {X Y} (P : X -> Y -> Prop) l l' i, Forall2 P l l' -> res_rel P (rd l i) (rd l' i).
Proof.
  intros X Y P l l' i H. revert i. induction H; intros [|i]; unfold rd; cbn; auto with rel. apply IHForall2.
Qed.
Lemma forall2_length : forall {X Y} (P : X -> Y -> Prop) l l', Forall2 P l l' -> length l = length l'.
Proof. intros X Y P l l' H. induction H; cbn; auto. Qed.
Lemma forall2_wr : forall {X Y} (P : X -> Y -> Prop) l l' i x y, Forall2 P l l' -> P x y -> res_rel (Forall2 P) (wr l i x) (wr l' i y).
Proof.
  intros X Y P l l' i x y H Hxy. unfold wr. rewrite (forall2_length _ _ _ H). destruct (i <? length l'); [|constructor]. constructor.
  revert i. induction H; intros [|i]; cbn; auto.
Qed.
Lemma forall2_map : forall {X Y Z} (P : X -> Y -> Prop) (f : X -> Z) (g : Y -> Z) l l', Forall2 P l l' -> (forall a b, P a b -> f a = g b) -> map f l = map g l'.
Proof. intros X Y Z P f g l l' H F. induction H; cbn; auto. f_equal; auto. Qed.
Lemma forall2_impl : forall {X Y} (P Q : X -> Y -> Prop) l l', Forall2 P l l' -> (forall a b, P a b -> Q a b) -> Forall2 Q l l'.
Proof. intros X Y P Q l l' H F. induction H; auto. Qed.

Lemma nth_error_eq : forall {X} (v w : list X), (forall i, nth_error v i = nth_error w i) -> v = w.
Proof.
  induction v as [|x v IH]; intros [|y w] H; auto; try (specialize (H 0); discriminate).
  f_equal; [specialize (H 0); cbn in H; congruence|]. apply IH. intro i. exact (H (S i)).
Qed.

(** Two vectors that agree on their first [k] slots. *)
Definition agree {X} (k : nat) (v w : list X) : Prop := length v = length w /\ forall i, i < k -> nth_error v i = nth_error w i.

Lemma agree_0 : forall {X} (v w : list X), length v = length w -> agree 0 v w.
Proof. intros. split; auto. intros. lia. Qed.
Lemma agree_all : forall {X} k (v w : list X), agree k v w -> length v <= k -> v = w.
Proof.
  intros X k v w [L H] K. apply nth_error_eq. intro i. destruct (lt_dec i k); [auto|].
  rewrite (proj2 (nth_error_None v i)), (proj2 (nth_error_None w i)); auto; lia.
Qed.
Lemma nth_error_upd_same : forall {X} (v : list X) k x, k < length v -> nth_error (upd v k x) k = Some x.
Proof. induction v; intros [|k] x H; cbn in *; try lia; auto. apply IHv. lia. Qed.
Lemma nth_error_upd_other : forall {X} (v : list X) k j x, j <> k -> nth_error (upd v k x) j = nth_error v j.
Proof. induction v; intros [|k] [|j] x H; cbn; auto; try lia. Qed.
Lemma upd_len : forall {X} (v : list X) k x, length (upd v k x) = length v.
Proof. induction v; intros [|k] x; cbn; auto. Qed.
Lemma agree_wr : forall {X} k (v w : list X) x, agree k v w -> res_rel (agree (S k)) (wr v k x) (wr w k x).
Proof.
  intros X k v w x [L H]. unfold wr. rewrite L. destruct (k <? length w) eqn:K; [|constructor]. apply Nat.ltb_lt in K.
  constructor. split; [rewrite !upd_len; exact L|]. intros i Hi. destruct (Nat.eq_dec i k) as [->|N].
  - rewrite !nth_error_upd_same; auto. lia.
  - rewrite !nth_error_upd_other by auto. apply H. lia.
Qed.
Lemma agree_wr_in : forall {X} k (v w : list X) i x, agree k v w -> i < k -> res_rel (agree k) (wr v i x) (wr w i x).
Proof.
  intros X k v w i x [L H] Hi. unfold wr. rewrite L. destruct (i <? length w) eqn:K; [|constructor]. apply Nat.ltb_lt in K.
  constructor. split; [rewrite !upd_len; exact L|]. intros j Hj. destruct (Nat.eq_dec i j) as [->|N].
  - rewrite !nth_error_upd_same; auto. lia.
  - rewrite !nth_error_upd_other by auto. apply H. lia.
Qed.
Lemma agree_rd : forall {X} k (v w : list X) i, agree k v w -> i < k -> rd v i = rd w i.
Proof. intros X k v w i [L H] Hi. unfold rd. rewrite H; auto. Qed.

(** A loop that writes slot after slot. *)
Lemma fill_agree : forall {X} n (f : nat -> res X) (v w : list X), length v = length w ->
  res_rel (agree n) (iterM n (fun i d => let* x := f i in wr d i x) v) (iterM n (fun i d => let* x := f i in wr d i x) w).
Proof.
  intros X n f v w L. apply (rr_iter n (fun i => agree i)); [apply agree_0; exact L|].
  intros i a b _ H. apply rr_step. intros x _. apply agree_wr. exact H.
Qed.
Lemma fill_eq : forall {X} n (f : nat -> res X) (v w : list X), length v = length w -> length v <= n ->
  iterM n (fun i d => let* x := f i in wr d i x) v = iterM n (fun i d => let* x := f i in wr d i x) w.
Proof.
  intros X n f v w L LE. apply rr_eq.
  assert (H : res_rel (fun a b => agree n a b /\ length a = length v) (iterM n (fun i d => let* x := f i in wr d i x) v) (iterM n (fun i d => let* x := f i in wr d i x) w)).
  { apply (rr_iter n (fun i a b => agree i a b /\ length a = length v)); [split; [apply agree_0; exact L|reflexivity]|].
    intros i a b _ [H E]. apply rr_step. intros x _. pose proof (agree_wr i a b x H) as W. inversion W as [a' b' G E1 E2| |]; constructor. split; auto.
    unfold wr in E1. destruct (i <? length a); inversion E1. rewrite upd_len. exact E. }
  eapply rr_impl; [exact H|]. intros a b [G E]. eapply agree_all; [exact G|]. lia.
Qed.
