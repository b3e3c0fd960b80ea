(** Distances in binary32: order, signs and errors. *)
From Coq Require Import ZArith QArith Reals Lra Lia Bool List.
From Coq Require Import Floats.SpecFloat.
From Flocq Require Import Core.Core IEEE754.BinarySingleNaN Relative Plus_error.
From Verif Require Import Base Arith RFacts Spec_Float Spec_Single Spec_KMeans Spec_Float8 Model_Single Model_Single5 Model_KMeans Proofs_Float1 Proofs_Single1 Proofs_Single4 Proofs_KAny.
Import ListNotations.
Local Open Scope R_scope.

#[local] Existing Instance Proofs_Single1.Sprec.
#[local] Existing Instance Proofs_Single1.Smax.

(** ** Order *)
Definition ext (x : f32) : R := match x with S754_infinity false => bpow radix2 128 | S754_infinity true => - bpow radix2 128 | _ => fval x end.
Lemma fval_lt32 x : is_f32 x -> Rabs (fval x) < bpow radix2 128.
Proof. intros H. destruct (as_bin32 x H) as (b & -> & E & _). rewrite E. apply (abs_B2R_lt_emax sprec semax). Qed.
Lemma ltb_nan_l x : SFltb S754_nan x = false.
Proof. reflexivity. Qed.
Lemma ltb_nan_r x : SFltb x S754_nan = false.
Proof. destruct x as [s|s| |s m e]; try reflexivity; destruct s; reflexivity. Qed.
Lemma is_nan x : nan32 x = true -> x = S754_nan.
Proof. destruct x; try discriminate. reflexivity. Qed.
Lemma num_ext x : is_num x = true -> ext x = fval x.
Proof. destruct x as [s|s| |s m e]; try discriminate; reflexivity. Qed.
Lemma class3 x : nan32 x = true \/ is_num x = true \/ exists s, x = S754_infinity s.
Proof. destruct x; cbn; eauto. Qed.
Lemma ltb_ext x y : is_f32 x -> is_f32 y -> nan32 x = false -> nan32 y = false -> (SFltb x y = true <-> ext x < ext y).
Proof.
  intros Vx Vy Nx Ny. pose proof (fval_lt32 x Vx) as Lx. pose proof (fval_lt32 y Vy) as Ly. apply Rabs_def2 in Lx, Ly.
  pose proof (bpow_gt_0 radix2 128) as BP.
  destruct (class3 x) as [X|[X|(sx & ->)]]; [congruence| |].
  - rewrite (num_ext x X). destruct (class3 y) as [Y|[Y|(sy & ->)]]; [congruence| |].
    + rewrite (num_ext y Y). destruct (as_bin32 x Vx) as (a & Ea & Fa & Na), (as_bin32 y Vy) as (b & Eb & Fb & Nb). rewrite Fa, Fb.
      pose proof (Bltb_correct sprec semax a b ltac:(congruence) ltac:(congruence)) as C. unfold Bltb in C. rewrite <- Ea, <- Eb in C. rewrite C.
      destruct (Rlt_bool_spec (B2R a) (B2R b)); split; intros; try lra; try discriminate; reflexivity.
    + destruct sy; cbn [ext]; destruct x as [s|s| |s m e]; try discriminate; try (destruct s); cbn; split; intros; try discriminate; try reflexivity; cbn in *; lra.
  - destruct (class3 y) as [Y|[Y|(sy & ->)]]; [congruence| |].
    + rewrite (num_ext y Y). destruct sx; cbn [ext]; destruct y as [s|s| |s m e]; try discriminate; try (destruct s); cbn; split; intros; try discriminate; try reflexivity; cbn in *; lra.
    + destruct sx, sy; cbn; split; intros; try discriminate; try reflexivity; lra.
Qed.

(** The scan of a list of distances. *)
Lemma scan_least : forall n (f : nat -> f32), (forall j, (j <= n)%nat -> is_f32 (f j)) -> forall j, (j <= n)%nat -> SFltb (f j) (f (snd (scan (A := SA) n f))) = false.
Proof.
  intros n f V.
  assert (I : forall i, (i <= n)%nat -> nan32 (fst (scan (A := SA) i f)) = true \/ forall j, (j <= i)%nat -> nan32 (f j) = true \/ ext (fst (scan (A := SA) i f)) <= ext (f j)).
  { induction i as [|i IH]; intro Hi.
    - cbn [scan fst]. destruct (nan32 (f 0%nat)) eqn:E; [now left|]. right. intros j Hj. replace j with 0%nat by lia. right. apply Rle_refl.
    - specialize (IH ltac:(lia)). cbn [scan]. cbv zeta. destruct (scan_fst (A := SA) i f) as (F & Hb). set (s := scan (A := SA) i f) in *. cbn [nltb SA].
      assert (Vm : is_f32 (fst s)) by (change (num SA) with f32 in *; rewrite F; apply V; lia). specialize (V (S i) Hi).
      destruct (nan32 (fst s)) eqn:N.
      + left. apply is_nan in N. change (num SA) with f32 in *. rewrite N, ltb_nan_r. rewrite N. reflexivity.
      + destruct IH as [IH|IH]; [congruence|]. destruct (SFltb (f (S i)) (fst s)) eqn:L; cbn [fst].
        * assert (NN : nan32 (f (S i)) = false) by (destruct (nan32 (f (S i))) eqn:Q; [apply is_nan in Q; rewrite Q in L; discriminate|reflexivity]).
          right. apply ltb_ext in L; try assumption. intros j Hj. destruct (Nat.eq_dec j (S i)) as [->|D]; [right; apply Rle_refl|]. destruct (IH j ltac:(lia)) as [|B]; [now left|]. right. apply Rle_trans with (ext (fst s)); [apply Rlt_le; exact L|exact B].
        * right. intros j Hj. destruct (Nat.eq_dec j (S i)) as [->|D]; [|apply IH; lia]. destruct (nan32 (f (S i))) eqn:Q; [now left|]. right. apply Rnot_lt_le. intro X. apply (proj2 (ltb_ext _ _ V Vm Q N)) in X. congruence. }
  intros j Hj. specialize (I n ltac:(lia)). pose proof (scan_fst (A := SA) n f) as F. destruct (scan (A := SA) n f) as [m b]. cbn [fst snd] in *. destruct F as (F & Hb). change (num SA) with f32 in *. subst m.
  destruct (nan32 (f b)) eqn:N; [apply is_nan in N; rewrite N; apply ltb_nan_r|]. destruct I as [|I]; [congruence|]. destruct (I j Hj) as [Q|Q]; [apply is_nan in Q; rewrite Q; apply ltb_nan_l|].
  destruct (SFltb (f j) (f b)) eqn:L; [|reflexivity]. exfalso. destruct (nan32 (f j)) eqn:M; [apply is_nan in M; rewrite M in L; discriminate|]. apply ltb_ext in L; auto. lra.
Qed.

(** ** Sums of squares *)
(** NaN, or plus infinity, or a number that is not negative. *)
Definition dlike (x : f32) : Prop := is_f32 x /\ (nan32 x = true \/ x = S754_infinity false \/ (is_num x = true /\ 0 <= fval x)).
Lemma mul_self z : is_f32 z -> dlike (SFmul sprec semax z z).
Proof.
  intros V. split; [apply s_mul_valid; exact V|]. destruct (class3 z) as [N|[N|(s & ->)]].
  - apply is_nan in N. subst z. left. reflexivity.
  - destruct (as_bin32 z V) as (a & -> & _ & Na). rewrite mul_equiv32. assert (C := Bmult_correct sprec semax _ _ mode_NE a a).
    change (round radix2 fexp32 (round_mode mode_NE) (B2R a * B2R a)) with (rs (B2R a * B2R a)) in C.
    destruct (Rlt_bool_spec (Rabs (rs (B2R a * B2R a))) (bpow radix2 semax)) as [L|L].
    + destruct C as (E & F & _). destruct (bin_f32 (Bmult mode_NE a a)) as (_ & -> & ->). right. right. rewrite F, E. rewrite Na in N. rewrite N. split; [reflexivity|]. apply rs_nonneg. pose proof (Rle_0_sqr (B2R a)) as Q. exact Q.
    + right. left. rewrite C. rewrite Bool.xorb_nilpotent. reflexivity.
  - right. left. cbn. rewrite Bool.xorb_nilpotent. reflexivity.
Qed.
Lemma pos_sign32 (b : bin32) : 0 < B2R b -> Bsign b = false.
Proof.
  destruct b as [s|s| |s m e H]; simpl; try lra. destruct s; [| reflexivity].
  intros P. exfalso. assert (F2R (Float radix2 (cond_Zopp true (Zpos m)) e) < 0) by now apply F2R_lt_0. lra.
Qed.
Lemma add_dlike x y : dlike x -> dlike y -> dlike (SFadd sprec semax x y) /\
  (is_num (SFadd sprec semax x y) = true -> is_num x = true /\ is_num y = true /\ fval (SFadd sprec semax x y) = rs (fval x + fval y)).
Proof.
  intros (Vx & Cx) (Vy & Cy). assert (V := s_add_valid x y Vx Vy).
  destruct Cx as [N|[->|(Nx & Px)]].
  { apply is_nan in N. subst x. assert (E : SFadd sprec semax S754_nan y = S754_nan) by (destruct y; reflexivity). rewrite E. split; [split; [reflexivity|left; reflexivity]|discriminate]. }
  { destruct Cy as [N|[->|(Ny & Py)]].
    - apply is_nan in N. subst y. split; [split; [exact V|left; reflexivity]|discriminate].
    - split; [split; [exact V|right; left; reflexivity]|discriminate].
    - assert (E : SFadd sprec semax (S754_infinity false) y = S754_infinity false) by (destruct y; try discriminate; reflexivity). rewrite E. split; [split; [reflexivity|right; left; reflexivity]|discriminate]. }
  destruct Cy as [N|[->|(Ny & Py)]].
  { apply is_nan in N. subst y. assert (E : SFadd sprec semax x S754_nan = S754_nan) by (destruct x; reflexivity). rewrite E. split; [split; [reflexivity|left; reflexivity]|discriminate]. }
  { assert (E : SFadd sprec semax x (S754_infinity false) = S754_infinity false) by (destruct x; try discriminate; reflexivity). rewrite E. split; [split; [reflexivity|right; left; reflexivity]|discriminate]. }
  destruct (Rlt_le_dec (Rabs (rs (fval x + fval y))) (bpow radix2 128)) as [L|L].
  - destruct (s_add_num x y Vx Vy Nx Ny L) as (N & E). split; [|auto]. split; [exact V|]. right. right. split; [exact N|]. rewrite E. apply rs_nonneg. lra.
  - destruct (as_bin32 x Vx) as (a & Ea & Fa & Na), (as_bin32 y Vy) as (b & Eb & Fb & Nb).
    assert (C := Bplus_correct sprec semax _ _ mode_NE a b ltac:(congruence) ltac:(congruence)). cbv zeta in C.
    change (round radix2 fexp32 (round_mode mode_NE) (B2R a + B2R b)) with (rs (B2R a + B2R b)) in C. rewrite <- Fa, <- Fb in C. rewrite Rlt_bool_false in C by exact L. destruct C as (E & SG).
    assert (SF : Bsign a = false).
    { destruct (Rle_lt_or_eq_dec 0 (fval x) Px) as [P|P]; [apply pos_sign32; lra|]. rewrite SG. apply pos_sign32. rewrite <- Fb. destruct (Rle_lt_or_eq_dec 0 (fval y) Py) as [Q|Q]; [exact Q|]. exfalso. rewrite <- P, <- Q, Rplus_0_l, rs_0, Rabs_R0 in L. pose proof (bpow_gt_0 radix2 128). lra. }
    assert (E' : SFadd sprec semax x y = S754_infinity false) by (rewrite Ea, Eb, add_equiv32, E, SF; reflexivity). rewrite E'. split; [split; [reflexivity|right; left; reflexivity]|discriminate].
Qed.
Lemma sqrt_dlike x : dlike x -> dlike (SFsqrt sprec semax x) /\ (is_num (SFsqrt sprec semax x) = true -> is_num x = true /\ 0 <= fval x /\ fval (SFsqrt sprec semax x) = rs (sqrt (fval x)) /\ fval (SFsqrt sprec semax x) <= bpow radix2 64).
Proof.
  intros (V & [N|[->|(N & P)]]).
  - apply is_nan in N. subst x. split; [split; [reflexivity|left; reflexivity]|discriminate].
  - split; [split; [reflexivity|right; left; reflexivity]|discriminate].
  - destruct (s_sqrt_num x V N P) as (N' & E). split; [split; [apply s_sqrt_valid; exact V|right; right; split; [exact N'|rewrite E; apply rs_nonneg, sqrt_pos]]|]. intros _. split; [exact N|]. split; [exact P|]. split; [exact E|]. rewrite E.
    rewrite <- (rs_bpow 64) by lia. apply rs_le. rewrite <- (sqrt_Rsqr (bpow radix2 64)) by apply bpow_ge_0. apply sqrt_le_1_alt. unfold Rsqr. rewrite <- bpow_plus. pose proof (fval_lt32 x V) as L. apply Rabs_def2 in L. change (64 + 64)%Z with 128%Z. lra.
Qed.

Lemma nth_valid (l : list f32) i : Forall is_f32 l -> is_f32 (nth i l (n0 (A := SA))).
Proof. intro F. destruct (nth_in_or_default i l (n0 (A := SA))) as [H | ->]; [|reflexivity]. rewrite Forall_forall in F. apply F. exact H. Qed.
Lemma nsum_dlike n (q : nat -> f32) : (forall i, dlike (q i)) -> dlike (nsum (A := SA) n q).
Proof. intro H. induction n as [|n IH]; [split; [reflexivity|right; right; split; [reflexivity|cbn; apply Rle_refl]]|]. cbn [nsum]. apply (add_dlike _ _ IH (H n)). Qed.
Lemma gap_dlike x y : is_f32 x -> is_f32 y -> dlike (gap (A := SA) x y).
Proof. intros Vx Vy. unfold gap. cbn [nmul nsub SA]. apply mul_self. apply s_sub_valid; assumption. Qed.
Lemma edist_dlike v i c j n : Forall is_f32 v -> Forall is_f32 c -> dlike (edist (A := SA) v i c j n) /\ (is_num (edist (A := SA) v i c j n) = true -> fval (edist (A := SA) v i c j n) <= bpow radix2 64).
Proof.
  intros Fv Fc. unfold edist. cbn [nsqrt SA]. destruct (sqrt_dlike (nsum (A := SA) n (fun d => gap (A := SA) (nth (i + d) v (n0 (A := SA))) (nth (j + d) c (n0 (A := SA)))))) as (H1 & H2); [apply nsum_dlike; intro; apply gap_dlike; apply nth_valid; assumption|].
  split; [exact H1|]. intro N. apply H2. exact N.
Qed.

(** The scan of the filter, for distances. *)
Lemma flt_max_val : is_f32 (flt_max (A := SA)) /\ is_num (flt_max (A := SA)) = true /\ bpow radix2 100 <= fval (flt_max (A := SA)).
Proof.
  assert (E : flt_max (A := SA) = S754_finite false 16777215 104) by (vm_compute; reflexivity). rewrite E. split; [reflexivity|]. split; [reflexivity|]. unfold fval, SF2R, F2R. cbn [Fnum Fexp cond_Zopp].
  rewrite <- (Rmult_1_l (bpow radix2 100)). apply Rmult_le_compat; [lra|apply bpow_ge_0|lra|apply bpow_le; lia].
Qed.
Lemma fscan_least : forall n (f : nat -> f32), (1 <= n)%nat -> (forall j, (j < n)%nat -> dlike (f j) /\ (is_num (f j) = true -> fval (f j) <= bpow radix2 64)) ->
  let b := snd (fscan (A := SA) n f) in (b < n)%nat /\ forall j, (j < n)%nat -> SFltb (f j) (f b) = false.
Proof.
  intros n f Hn V. destruct flt_max_val as (M1 & M2 & M3). assert (B : bpow radix2 64 < bpow radix2 100) by (apply bpow_lt; lia). assert (B2 : bpow radix2 64 < bpow radix2 128) by (apply bpow_lt; lia).
  assert (NU : forall x, is_num x = true -> nan32 x = false) by (intros x; destruct x; cbn; congruence).
  assert (INF : forall i, (i < n)%nat -> is_num (f i) = false -> forall m, is_num m = true -> SFltb (f i) m = false).
  { intros i Hi N m Nm. destruct (V i Hi) as ((_ & C) & _). destruct C as [C|[C|(C & _)]]; [apply is_nan in C; rewrite C; reflexivity| |congruence]. rewrite C. destruct m as [s|s| |s m e]; try discriminate; try destruct s; reflexivity. }
  assert (I : forall i, (i <= n)%nat -> (fscan (A := SA) i f = (flt_max, 0%nat) /\ forall j, (j < i)%nat -> is_num (f j) = false) \/
    (exists b, fscan (A := SA) i f = (f b, b) /\ (b < i)%nat /\ is_num (f b) = true /\ forall j, (j < i)%nat -> is_num (f j) = false \/ fval (f b) <= fval (f j))).
  { induction i as [|i IH]; intro Hi; [left; split; [reflexivity|intros; lia]|]. specialize (IH ltac:(lia)). destruct (V i ltac:(lia)) as ((Vi & C) & L).
    cbn [fscan]. cbv zeta. cbn [nltb SA]. change (num SA) with f32 in *. destruct IH as [(E & A)|(b & E & Hb & Nb & A)]; rewrite E; cbn [fst].
    - destruct (is_num (f i)) eqn:N.
      + right. exists i. assert (X : SFltb (f i) (flt_max (A := SA)) = true) by (apply ltb_ext; auto; rewrite !num_ext by assumption; specialize (L eq_refl); lra).
        rewrite X. split; [reflexivity|]. split; [lia|]. split; [exact N|]. intros j Hj. destruct (Nat.eq_dec j i) as [->|D]; [right; apply Rle_refl|left; apply A; lia].
      + left. rewrite (INF i) by (assumption || lia). split; [reflexivity|]. intros j Hj. destruct (Nat.eq_dec j i) as [->|D]; [exact N|apply A; lia].
    - destruct (V b ltac:(lia)) as ((Vb & _) & _). destruct (is_num (f i)) eqn:N.
      + destruct (SFltb (f i) (f b)) eqn:X; right.
        * exists i. split; [reflexivity|]. split; [lia|]. split; [exact N|]. apply ltb_ext in X; auto. rewrite !num_ext in X by assumption. intros j Hj. destruct (Nat.eq_dec j i) as [->|D]; [right; apply Rle_refl|]. destruct (A j ltac:(lia)) as [|Q]; [now left|right; lra].
        * exists b. split; [reflexivity|]. split; [lia|]. split; [exact Nb|]. intros j Hj. destruct (Nat.eq_dec j i) as [->|D]; [|apply A; lia]. right. apply Rnot_lt_le. intro Y. rewrite <- (num_ext (f i)), <- (num_ext (f b)) in Y by assumption. apply ltb_ext in Y; auto. congruence.
      + right. exists b. rewrite (INF i) by (assumption || lia). split; [reflexivity|]. split; [lia|]. split; [exact Nb|]. intros j Hj. destruct (Nat.eq_dec j i) as [->|D]; [left; exact N|apply A; lia]. }
  cbv zeta. change (num SA) with f32 in *. destruct (I n ltac:(lia)) as [(E & A)|(b & E & Hb & Nb & A)]; rewrite E; cbn [snd].
  - split; [lia|]. intros j Hj. destruct (V j Hj) as ((_ & C) & _), (V 0%nat ltac:(lia)) as ((_ & C0) & _). pose proof (A j Hj). pose proof (A 0%nat ltac:(lia)).
    destruct C as [C|[C|(C & _)]]; [apply is_nan in C; rewrite C; reflexivity| |congruence]. destruct C0 as [C0|[C0|(C0 & _)]]; [apply is_nan in C0; rewrite C0; apply ltb_nan_r| |congruence]. rewrite C, C0. reflexivity.
  - split; [exact Hb|]. intros j Hj. destruct (is_num (f j)) eqn:N; [|apply INF; assumption]. destruct (A j Hj) as [|Q]; [congruence|]. destruct (SFltb (f j) (f b)) eqn:X; [|reflexivity]. exfalso.
    destruct (V j Hj) as ((Vj & _) & _), (V b Hb) as ((Vb & _) & _). apply ltb_ext in X; auto. rewrite !num_ext in X by assumption. lra.
Qed.
