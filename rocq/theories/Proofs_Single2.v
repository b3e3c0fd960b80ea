(** Initial variances with single precision products. *)
From Coq Require Import ZArith Reals Lra Lia Bool List.
From Coq Require Import Floats.SpecFloat.
From Flocq Require Import Core.Core.
From Verif Require Import Base BaseFacts Arith Model_Gaussian Model_Config Model_KMeans Model_GMM Spec_Gaussian Spec_Float Spec_Single Proofs_Float1 Model_Single Proofs_GMM Proofs_Float2 Proofs_Float4 Proofs_Float6 Proofs_Single1.
Import ListNotations.
Local Open Scope R_scope.

(** Numbers of 24 bits, of moderate size. *)
Definition bits24 (p : f64) : Prop := is_f64 p /\ is_num p = true /\
  exists k e, fval p = IZR k * bpow radix2 e /\ (Z.abs k < 2 ^ 24)%Z /\ (-200 <= e)%Z /\ Rabs (fval p) <= bpow radix2 120.
Lemma single_bits v : single v -> bits24 v.
Proof. intros S. pose proof S as (V & N & _). split; [exact V |]. split; [exact N |]. exact (single_fmt v S). Qed.
Lemma square_bits v : single v -> bits24 (mul_single v v).
Proof. intros S. destruct (mul_single_val v S) as (V & N & _). split; [exact V |]. split; [exact N |]. exact (square_fmt v S). Qed.

Lemma rd_In {X} (l : list X) i x : rd l i = Ok x -> In x l.
Proof. intros H. destruct (rd_nth l i x x H) as (<- & L). now apply nth_In. Qed.

Definition multiple (p : f64) (i : nat) (s : f64) : Prop := is_f64 s /\ is_num s = true /\ fval s = INR i * fval p.

Section Sums.
  Variables fexp fln : f64 -> f64.
  Let A := FA fexp fln.

  Lemma acc_multiple p n (f : nat -> res f64) i s s' : bits24 p -> (Z.of_nat (i + n) < 2 ^ 29)%Z -> (forall j x, (j < n)%nat -> f j = Ok x -> x = p) ->
    multiple p i s -> accM (A := A) n f s = Ok s' -> multiple p (i + n) s'.
  Proof.
    intros (Vp & Np & k & e & Ep & Hk & He & Lp) Hn Hf Hs H. unfold accM in H. revert H.
    apply (iterM_inv_ok (fun j x => multiple p (i + j) x)).
    - rewrite Nat.add_0_r. exact Hs.
    - intros j x x' Hj (Vx & Nx & Ex) E. apply bind_ok_inv in E. destruct E as (y & Ey & E). apply Hf in Ey; [| exact Hj]. subst y. injection E as <-.
      rewrite Nat.add_succ_r. apply (add_multiple p x k e (i + j)); auto. lia.
  Qed.

  Lemma foldcount G : forall (data : kdata A) i, fold_left (fun (s : nat) (ph : list (list f64)) => (s + length ph / G)%nat) data i = (i + seg_count (A := A) G data)%nat.
  Proof.
    unfold seg_count. induction data as [| ph data IH]; intros i; [cbn; lia |]. cbn [fold_left]. rewrite IH. symmetry. rewrite (IH (0 + _)%nat). change (num A) with f64. lia.
  Qed.

  Lemma seg_multiple G c p (f : list f64 -> res f64) : bits24 p -> forall (data : kdata A) s, (Z.of_nat (seg_count (A := A) G data) < 2 ^ 29)%Z ->
    Forall (Forall (fun x => forall y, f x = Ok y -> y = p)) data -> seg_acc (A := A) G c f data = Ok s -> multiple p (seg_count (A := A) G data) s.
  Proof.
    intros Bp data s Hn Hf H. unfold seg_acc in H.
    assert (X : forall i a, multiple p i a -> (Z.of_nat (i + seg_count (A := A) G data) < 2 ^ 29)%Z -> foldM (fun (s : f64) (ph : list (list f64)) =>
      accM (A := A) (length ph / G) (fun t => let* x := rd ph (c * (length ph / G) + t) in f x) s) data a = Ok s -> multiple p (i + seg_count (A := A) G data) s).
    { clear H Hn. induction Hf as [| ph data Fp Fd IH]; intros i a Ha Hn H.
      - cbn in H. injection H as <-. unfold seg_count. cbn [fold_left]. rewrite Nat.add_0_r. exact Ha.
      - assert (E : seg_count (A := A) G (ph :: data) = (length ph / G + seg_count (A := A) G data)%nat) by (unfold seg_count at 1; cbn [fold_left]; apply foldcount).
        rewrite E in *. cbn [foldM] in H. apply bind_ok_inv in H. destruct H as (a' & Ea & H). rewrite Nat.add_assoc. apply IH with a'; [| lia | exact H].
        apply (acc_multiple p _ _ i a a' Bp) in Ea; [exact Ea | lia | | exact Ha].
        intros j x Hj Ex. apply bind_ok_inv in Ex. destruct Ex as (fr & Er & Ex). apply rd_In in Er. rewrite Forall_forall in Fp. exact (Fp fr Er x Ex). }
    apply (X 0%nat (S754_zero false)); [| exact Hn | exact H]. split; [reflexivity |]. split; [reflexivity |]. cbn. lra.
  Qed.

  Lemma mean_of_multiple p n s : bits24 p -> (1 <= n)%nat -> (Z.of_nat n < 2 ^ 29)%Z -> multiple p n s ->
    is_f64 (SFdiv fprec femax s (nN (A := A) n)) /\ is_num (SFdiv fprec femax s (nN (A := A) n)) = true /\ fval (SFdiv fprec femax s (nN (A := A) n)) = fval p.
  Proof.
    intros (Vp & Np & _) H1 Hn (Vs & Ns & Es). destruct (nN_val fexp fln n H1 ltac:(lia)) as (Vd & Nd & Ed). fold A in Vd, Nd, Ed.
    assert (P : 0 < INR n) by (apply lt_0_INR; lia).
    assert (Q : fval s / fval (nN (A := A) n) = fval p) by (rewrite Es, Ed; field; lra).
    split; [now apply f_div_valid |]. destruct (f_div_num s (nN (A := A) n) Vs Vd Ns) as (N & E); [rewrite Ed; lra | rewrite Q, rnd_fval by exact Vp; now apply fval_lt |].
    split; [exact N |]. rewrite E, Q. now apply rnd_fval.
  Qed.
End Sums.

(** ** The initial variances *)
Section Variance.
  Variables fexp fln : f64 -> f64.
  Let A := FA fexp fln.

  Lemma entry_value G c d v (data : kdata A) n s m : single v -> constant_at d v data -> n = seg_count (A := A) G data -> (1 <= n)%nat -> (Z.of_nat n < 2 ^ 29)%Z ->
    seg_acc (A := A) G c (fun x => let* a := rd x d in let* b := rd x d in Ok (mul_single a b)) data = Ok s ->
    seg_acc (A := A) G c (fun x => rd x d) data = Ok m ->
    let r := SFsub fprec femax (SFdiv fprec femax s (nN (A := A) n)) (SFmul fprec femax (SFdiv fprec femax m (nN (A := A) n)) (SFdiv fprec femax m (nN (A := A) n))) in
    is_f64 r /\ is_num r = true /\ fval r = round_single (fval v * fval v) - fval v * fval v.
  Proof.
    intros Sv Cv -> H1 Hn Es Em. destruct (mul_single_val v Sv) as (_ & _ & E2).
    apply (seg_multiple fexp fln G c (mul_single v v)) in Es; [| now apply square_bits | exact Hn |].
    - apply (seg_multiple fexp fln G c v) in Em; [| now apply single_bits | exact Hn |].
      + destruct (mean_of_multiple fexp fln _ _ s (square_bits v Sv) H1 Hn Es) as (A1 & A2 & A3). destruct (mean_of_multiple fexp fln _ _ m (single_bits v Sv) H1 Hn Em) as (B1 & B2 & B3).
        apply rest_exact; auto. exact (eq_trans A3 E2).
      + eapply Forall_impl; [| exact Cv]. intros ph. apply Forall_impl. intros x Hx y Hy. unfold rd in Hy. change (num A) with f64 in *. rewrite Hx in Hy. now injection Hy.
    - eapply Forall_impl; [| exact Cv]. intros ph. apply Forall_impl. intros x Hx y Hy. unfold rd in Hy. change (num A) with f64 in *. rewrite Hx in Hy. cbn [bind] in Hy. now injection Hy.
  Qed.

  Lemma nth_tabM {X} n (f : nat -> res X) l c x : tabM n f = Ok l -> nth_error l c = Some x -> f c = Ok x /\ (c < n)%nat.
  Proof.
    intros H E. assert (L : (c < length l)%nat) by (apply nth_error_Some; rewrite E; discriminate). pose proof (tabM_length _ _ _ H) as N. split; [| lia].
    rewrite (tabM_inv n f l H c x) by lia. f_equal. now apply nth_error_nth.
  Qed.

  Lemma init_variance d v (data : kdata A) (g g' : gclass A) c k : single v -> constant_at d v data -> data <> [] -> (d < gc_dim g)%nat ->
    (1 <= seg_count (A := A) (gc_n g) data)%nat -> (Z.of_nat (seg_count (A := A) (gc_n g) data) < 2 ^ 29)%Z ->
    gm_init_cov_with (A := A) mul_single data g = Ok g' -> nth_error (gc_comp g') c = Some k ->
    exists x, rd (g_cov k) (variance_index (gc_mode g) (gc_dim g) d) = Ok x /\ is_f64 x /\ is_num x = true /\ fval x = round_single (fval v * fval v) - fval v * fval v.
  Proof.
    intros Sv Cv Hne Hd H1 Hn H Hk. unfold gm_init_cov_with in H. destruct data as [| ph rest] eqn:ED; [contradiction |]. rewrite <- ED in *. clear ED ph rest Hne.
    cbv zeta in H. apply bind_ok_inv in H. destruct H as (cs & Ecs & H). injection H as <-. cbn [gc_comp gc_set_comp] in Hk.
    destruct (nth_tabM _ _ _ _ _ Ecs Hk) as (E & _). cbv beta in E. apply bind_ok_inv in E. destruct E as (comp & _ & E). apply bind_ok_inv in E. destruct E as (cov & Ecov & E). injection E as <-.
    cbn [g_cov g_set_cov]. unfold variance_index. set (n := seg_count (A := A) (gc_n g) data) in *.
    assert (X : forall x, (let* s := seg_acc (A := A) (gc_n g) c (fun x => let* a := rd x d in let* b := rd x d in Ok (mul_single a b)) data in
           let* m1 := (let* s := seg_acc (A := A) (gc_n g) c (fun x => rd x d) data in Ok (SFdiv fprec femax s (nN (A := A) n))) in
           let* m2 := (let* s := seg_acc (A := A) (gc_n g) c (fun x => rd x d) data in Ok (SFdiv fprec femax s (nN (A := A) n))) in
           Ok (SFsub fprec femax (SFdiv fprec femax s (nN (A := A) n)) (SFmul fprec femax m1 m2))) = Ok x ->
      is_f64 x /\ is_num x = true /\ fval x = round_single (fval v * fval v) - fval v * fval v).
    { intros x Hx. apply bind_ok_inv in Hx. destruct Hx as (s & Es & Hx). apply bind_ok_inv in Hx. destruct Hx as (m1 & Em & Hx). rewrite Em in Hx. cbn [bind] in Hx.
      apply bind_ok_inv in Em. destruct Em as (m & Em & Em1). injection Em1 as <-. injection Hx as <-. exact (entry_value _ _ _ _ _ n s m Sv Cv eq_refl H1 Hn Es Em). }
    destruct (gc_mode g).
    - assert (L := tabM_length _ _ _ Ecov). assert (I : (d * gc_dim g + d < gc_dim g * gc_dim g)%nat) by nia.
      destruct (nth_error cov (d * gc_dim g + d)) as [x |] eqn:Ex; [| apply nth_error_None in Ex; change (num A) with f64 in *; lia]. exists x. unfold rd. change (num A) with f64 in *. rewrite Ex. split; [reflexivity |].
      destruct (nth_tabM _ _ _ _ _ Ecov Ex) as (E & _). cbv beta in E. rewrite Nat.div_add_l, (Nat.div_small d), Nat.add_0_r, Nat.add_comm, Nat.mod_add, Nat.mod_small in E by lia. exact (X x E).
    - assert (L := tabM_length _ _ _ Ecov).
      destruct (nth_error cov d) as [x |] eqn:Ex; [| apply nth_error_None in Ex; change (num A) with f64 in *; lia]. exists x. unfold rd. change (num A) with f64 in *. rewrite Ex. split; [reflexivity |].
      destruct (nth_tabM _ _ _ _ _ Ecov Ex) as (E & _). exact (X x E).
  Qed.
End Variance.
