(** Distances and means in binary32: how far from the real ones. *)
From Coq Require Import ZArith QArith Reals Lra Lia Bool List.
From Coq Require Import Floats.SpecFloat.
From Flocq Require Import Core.Core IEEE754.BinarySingleNaN Relative Plus_error.
From Verif Require Import Base Arith RFacts Spec_Float Spec_Single Spec_KMeans Spec_Float8 Model_Single Model_Single5 Model_KMeans Proofs_Float1 Proofs_Single1 Proofs_Single4 Proofs_Single5 Proofs_KAny.
Import ListNotations.
Local Open Scope R_scope.

#[local] Existing Instance Proofs_Single1.Sprec.
#[local] Existing Instance Proofs_Single1.Smax.

(** ** Factors *)
Definition fact (e : R) : Prop := / sone <= e <= sone.
Lemma isone : 0 < / sone < 1.
Proof. pose proof sone_gt. split; [apply Rinv_0_lt_compat; lra|]. rewrite <- Rinv_1. apply Rinv_lt_contravar; lra. Qed.
Lemma fact_of e : Rabs e <= (sone - 1) / (1 + (sone - 1)) -> fact (1 + e).
Proof.
  intro H. pose proof sone_gt. assert (E : (sone - 1) / (1 + (sone - 1)) = 1 - / sone) by (field; lra). pose proof part_le. apply Rabs_le_inv in H. unfold fact. lra.
Qed.
Lemma add_fact x y : is_f32 x -> is_f32 y -> exists e, fact e /\ rs (fval x + fval y) = (fval x + fval y) * e.
Proof.
  intros Vx Vy. destruct (FLT_plus_error_N_ex radix2 (-149) 24 (fun z => negb (Z.even z)) (fval x) (fval y) (f32_format x Vx) (f32_format y Vy)) as (e & B & E).
  rewrite u_ro24 in B. exists (1 + e). split; [apply fact_of; exact B|exact E].
Qed.
Lemma sub_fact x y : is_f32 x -> is_f32 y -> exists e, fact e /\ rs (fval x - fval y) = (fval x - fval y) * e.
Proof.
  intros Vx Vy. destruct (FLT_plus_error_N_ex radix2 (-149) 24 (fun z => negb (Z.even z)) (fval x) (- fval y) (f32_format x Vx) (generic_format_opp _ _ _ (f32_format y Vy))) as (e & B & E).
  rewrite u_ro24 in B. exists (1 + e). split; [apply fact_of; exact B|exact E].
Qed.
Lemma any_fact x : exists e t, fact e /\ Rabs t <= stiny /\ rs x = x * e + t.
Proof.
  destruct (relative_error_N_FLT'_ex radix2 (-149) 24 eq_refl (fun z => negb (Z.even z)) x) as (e & t & B & C & _ & E).
  assert (W : / 2 * bpow radix2 (-149) = stiny).
  { unfold stiny. change (-149)%Z with (-150 + 1)%Z. rewrite bpow_plus. change (bpow radix2 1) with 2. field. }
  rewrite W in C. rewrite u_ro24 in B. exists (1 + e), t. split; [apply fact_of; exact B|]. split; [exact C|exact E].
Qed.
Lemma normal_fact x : bpow radix2 (-126) <= Rabs x -> exists e, fact e /\ rs x = x * e.
Proof.
  intro H. destruct (relative_error_N_FLX'_ex radix2 24 eq_refl (fun z => negb (Z.even z)) x) as (e & B & E). rewrite u_ro24 in B. exists (1 + e). split; [apply fact_of; exact B|].
  rewrite <- E. unfold round_single. apply (round_FLT_FLX radix2 (-149) 24). exact H.
Qed.

(** ** The distance *)
Local Notation g := sone.
Lemma nsum_num n (q : nat -> f32) : (forall i, dlike (q i)) -> is_num (nsum (A := SA) (S n) q) = true ->
  is_num (nsum (A := SA) n q) = true /\ is_num (q n) = true /\ fval (nsum (A := SA) (S n) q) = rs (fval (nsum (A := SA) n q) + fval (q n)) /\ 0 <= fval (nsum (A := SA) n q).
Proof.
  intros H N. destruct (add_dlike _ _ (nsum_dlike n q H) (H n)) as (_ & K). destruct (K N) as (K1 & K2 & K3). split; [exact K1|]. split; [exact K2|]. split; [exact K3|].
  destruct (nsum_dlike n q H) as (_ & [C|[C|(_ & C)]]); [apply is_nan in C; change (num SA) with f32 in *; rewrite C in K1; discriminate|change (num SA) with f32 in *; rewrite C in K1; discriminate|exact C].
Qed.
Lemma gap_val x y : is_f32 x -> is_f32 y -> is_num x = true -> is_num y = true -> is_num (gap (A := SA) x y) = true ->
  (fval x - fval y) * (fval x - fval y) * / g ^ 3 - stiny <= fval (gap (A := SA) x y) <= (fval x - fval y) * (fval x - fval y) * g ^ 3 + stiny.
Proof.
  intros Vx Vy Nx Ny N. unfold gap in *. cbn [nmul nsub SA] in *. pose proof (s_sub_valid x y Vx Vy) as Vd. set (z := SFsub sprec semax x y) in *. set (D := fval x - fval y).
  assert (Ez : is_num z = true /\ fval z = rs D).
  { destruct (Rlt_le_dec (Rabs (rs (fval x - fval y))) (bpow radix2 128)) as [L|L]; [apply (s_sub_num x y Vx Vy Nx Ny L)|]. exfalso.
    destruct (as_bin32 x Vx) as (a & Ea & Fa & Na), (as_bin32 y Vy) as (b & Eb & Fb & Nb).
    assert (C := Bminus_correct sprec semax _ _ mode_NE a b ltac:(congruence) ltac:(congruence)). cbv zeta in C.
    change (round radix2 fexp32 (round_mode mode_NE) (B2R a - B2R b)) with (rs (B2R a - B2R b)) in C. rewrite <- Fa, <- Fb in C. rewrite Rlt_bool_false in C by exact L. destruct C as (E & _).
    unfold z in N. rewrite Ea, Eb, sub_equiv32, E in N. cbn in N. destruct (Bsign a); discriminate. }
  destruct Ez as (Nz & Fz). assert (E : fval (SFmul sprec semax z z) = rs (fval z * fval z)).
  { destruct (Rlt_le_dec (Rabs (rs (fval z * fval z))) (bpow radix2 128)) as [L|L]; [apply (s_mul_num z z Vd Vd Nz Nz L)|]. exfalso.
    destruct (as_bin32 z Vd) as (a & Ea & Fa & Na). assert (C := Bmult_correct sprec semax _ _ mode_NE a a).
    change (round radix2 fexp32 (round_mode mode_NE) (B2R a * B2R a)) with (rs (B2R a * B2R a)) in C. rewrite <- Fa in C. rewrite Rlt_bool_false in C by exact L. rewrite Ea, mul_equiv32, C, Bool.xorb_nilpotent in N. discriminate. }
  rewrite E, Fz. destruct (sub_fact x y Vx Vy) as (e1 & F1 & ED). fold D in ED. rewrite ED. destruct (any_fact (D * e1 * (D * e1))) as (e2 & t & F2 & T & ->). pose proof sone_gt as G. pose proof isone as IG. apply Rabs_le_inv in T. unfold fact in *.
  assert (U : / g ^ 3 <= e1 * e1 * e2 <= g ^ 3).
  { replace (/ g ^ 3) with (/ g * / g * / g) by (field; lra). replace (g ^ 3) with (g * g * g) by ring. split; (apply Rmult_le_compat; [nra|lra|apply Rmult_le_compat; lra|lra]). }
  pose proof (Rle_0_sqr D) as Q. unfold Rsqr in Q. replace (D * e1 * (D * e1) * e2) with (D * D * (e1 * e1 * e2)) by ring. split.
  - assert (D * D * / g ^ 3 <= D * D * (e1 * e1 * e2)) by (apply Rmult_le_compat_l; lra). lra.
  - assert (D * D * (e1 * e1 * e2) <= D * D * g ^ 3) by (apply Rmult_le_compat_l; lra). lra.
Qed.
Lemma gpow n : 1 <= g ^ n.
Proof. apply pow_R1_Rle. pose proof sone_gt. lra. Qed.
Lemma nsum_acc n (x y : nat -> f32) : (forall i, is_f32 (x i)) -> (forall i, is_f32 (y i)) -> (forall i, is_num (x i) = true) -> (forall i, is_num (y i) = true) ->
  is_num (nsum (A := SA) n (fun d => gap (A := SA) (x d) (y d))) = true ->
  let S := Rsum n (fun d => (fval (x d) - fval (y d)) * (fval (x d) - fval (y d))) in
  let s := fval (nsum (A := SA) n (fun d => gap (A := SA) (x d) (y d))) in
  S * / g ^ (n + 3) - INR n * stiny <= s /\ s <= g ^ (n + 3) * (S + INR n * stiny).
Proof.
  intros Vx Vy Nx Ny. pose proof sone_gt as G. pose proof stiny_pos as TP. pose proof isone as IG.
  assert (DL : forall i, dlike (gap (A := SA) (x i) (y i))) by (intro; apply gap_dlike; auto).
  induction n as [|n IH]; intro N; cbv zeta in *.
  - cbn [nsum Rsum INR]. change (fval (n0 (A := SA))) with 0. rewrite !Rmult_0_l, Rplus_0_r, Rmult_0_r. lra.
  - destruct (nsum_num n _ DL N) as (N1 & N2 & E & P). rewrite E. specialize (IH N1). pose proof (gap_val _ _ (Vx n) (Vy n) (Nx n) (Ny n) N2) as GV.
    destruct (add_fact (nsum (A := SA) n (fun d => gap (A := SA) (x d) (y d))) (gap (A := SA) (x n) (y n))) as (e & F & ->); [apply nsum_dlike; exact DL|apply DL|].
    cbn [Rsum]. set (D := (fval (x n) - fval (y n)) * (fval (x n) - fval (y n))) in *. set (S := Rsum n _) in *. set (s := fval (nsum (A := SA) n _)) in *.
    assert (PD : 0 <= D) by apply Rle_0_sqr. assert (PS : 0 <= S) by (unfold S; clear; induction n as [|n IH]; [cbn; lra|cbn [Rsum]; pose proof (Rle_0_sqr (fval (x n) - fval (y n))) as Q; unfold Rsqr in Q; lra]).
    assert (Pq : 0 <= fval (gap (A := SA) (x n) (y n))).
    { destruct (DL n) as (_ & [C|[C|(_ & C)]]); [apply is_nan in C; change (num SA) with f32 in *; rewrite C in N2; discriminate|change (num SA) with f32 in *; rewrite C in N2; discriminate|exact C]. }
    set (q := fval (gap (A := SA) (x n) (y n))) in *. rewrite S_INR. replace (Datatypes.S n + 3)%nat with (Datatypes.S (n + 3)) by lia. pose proof (pos_INR n) as PN.
    assert (PG : 1 <= g ^ n) by apply gpow. assert (G3 : g ^ 3 <= g ^ (n + 3)) by (rewrite pow_add; assert (0 < g ^ 3) by (apply pow_lt; lra); nra).
    assert (PG3 : 0 < g ^ 3) by (apply pow_lt; lra). assert (PN3 : 1 <= g ^ (n + 3)) by apply gpow.
    unfold fact in F. destruct IH as (I1 & I2). destruct GV as (Q1 & Q2). cbn [pow]. split.
    + assert (L : (s + q) * / g <= (s + q) * e) by (apply Rmult_le_compat_l; lra). eapply Rle_trans; [|exact L].
      assert (IV : / g ^ (n + 3) <= / g ^ 3) by (apply Rinv_le_contravar; lra).
      assert (W : (S + D) * / g ^ (n + 3) - (INR n + 1) * stiny <= s + q) by nra.
      rewrite Rinv_mult. assert (W2 := Rmult_le_compat_r (/ g) _ _ ltac:(lra) W). eapply Rle_trans; [|exact W2]. assert (0 <= (INR n + 1) * stiny) by nra. assert ((INR n + 1) * stiny * / g <= (INR n + 1) * stiny) by nra. nra.
    + assert (L : (s + q) * e <= (s + q) * g) by (apply Rmult_le_compat_l; lra). eapply Rle_trans; [exact L|].
      assert (W : s + q <= g ^ (n + 3) * (S + D + (INR n + 1) * stiny)).
      { assert (D * g ^ 3 <= D * g ^ (n + 3)) by (apply Rmult_le_compat_l; lra). nra. }
      nra.
Qed.
Lemma sqrt_acc x : is_f32 x -> is_num x = true -> 0 <= fval x -> exists e, fact e /\ rs (sqrt (fval x)) = sqrt (fval x) * e.
Proof.
  intros V N P. destruct (Rle_lt_or_eq_dec 0 (fval x) P) as [Q|Q].
  - apply normal_fact. rewrite Rabs_pos_eq by apply sqrt_pos. assert (M : bpow radix2 (-149) <= fval x).
    { destruct x as [s|s| |s m e]; try discriminate; cbn in Q; try lra. destruct s; [exfalso; pose proof (F2R_lt_0 radix2 (Float radix2 (Zneg m) e) eq_refl); cbn in *; lra|].
      unfold fval, SF2R, F2R. cbn [Fnum Fexp cond_Zopp]. assert (H : (-149 <= e)%Z).
      { unfold is_f32, valid_binary, bounded, canonical_mantissa in V. apply andb_prop in V. destruct V as (V & _). apply Zeq_bool_eq in V. unfold SpecFloat.fexp, emin, sprec, semax in V. lia. }
      rewrite <- (Rmult_1_l (bpow radix2 (-149))). apply Rmult_le_compat; [lra|apply bpow_ge_0| |apply bpow_le; exact H]. apply (IZR_le 1). lia. }
    assert (W : bpow radix2 (-126) <= bpow radix2 (-75)) by (apply bpow_le; lia). eapply Rle_trans; [exact W|]. rewrite <- (sqrt_Rsqr (bpow radix2 (-75))) by apply bpow_ge_0. apply sqrt_le_1_alt. unfold Rsqr. rewrite <- bpow_plus. eapply Rle_trans; [apply bpow_le|exact M]. lia.
  - exists 1. rewrite <- Q, sqrt_0, rs_0. split; [pose proof isone; pose proof sone_gt; unfold fact; lra|ring].
Qed.
Lemma nth_vals l i : nth i (vals l) 0 = fval (nth i l (n0 (A := SA))).
Proof. unfold vals. change 0 with (fval (n0 (A := SA))). apply map_nth. Qed.
Lemma nth_isnum (l : list f32) i : Forall (fun x => is_num x = true) l -> is_num (nth i l (n0 (A := SA))) = true.
Proof. intro F. destruct (nth_in_or_default i l (n0 (A := SA))) as [H | ->]; [|reflexivity]. rewrite Forall_forall in F. apply F. exact H. Qed.
Lemma dist_core dim S s e : 0 <= s -> fact e -> S * / g ^ (dim + 3) - INR dim * stiny <= s /\ s <= g ^ (dim + 3) * (S + INR dim * stiny) ->
  0 <= sqrt s * e /\ S <= g ^ (dim + 5) * ((sqrt s * e) ^ 2 + INR dim * stiny) /\ (sqrt s * e) ^ 2 <= g ^ (dim + 5) * (S + INR dim * stiny).
Proof.
  intros P F (A1 & A2). pose proof sone_gt as G. pose proof stiny_pos as TP. pose proof isone as IG. unfold fact in F. pose proof (pos_INR dim) as PN. pose proof (gpow (dim + 3)) as P3.
  assert (SQ : (sqrt s * e) ^ 2 = s * (e * e)) by (rewrite <- (sqrt_sqrt s P) at 2; ring). rewrite SQ. clear SQ.
  assert (EE : / g * / g <= e * e <= g * g) by (split; apply Rmult_le_compat; lra).
  assert (G5 : g ^ (dim + 5) = g ^ (dim + 3) * (g * g)) by (replace (dim + 5)%nat with (dim + 3 + 2)%nat by lia; rewrite pow_add; ring). rewrite G5.
  split; [apply Rmult_le_pos; [apply sqrt_pos|lra]|]. split.
  - assert (W : S <= g ^ (dim + 3) * (s + INR dim * stiny)).
    { assert (Z : S = g ^ (dim + 3) * (S * / g ^ (dim + 3))) by (field; lra). rewrite Z. apply Rmult_le_compat_l; lra. }
    eapply Rle_trans; [exact W|]. rewrite Rmult_assoc. apply Rmult_le_compat_l; [lra|].
    assert (X : s <= g * g * (s * (e * e))). { assert (1 <= g * g * (e * e)). { replace 1 with (g * g * (/ g * / g)) by (field; lra). apply Rmult_le_compat_l; nra. } nra. }
    assert (Y : INR dim * stiny <= g * g * (INR dim * stiny)). { assert (0 <= INR dim * stiny) by (apply Rmult_le_pos; lra). assert (1 <= g * g) by nra. nra. }
    lra.
  - assert (X : s * (e * e) <= s * (g * g)) by (apply Rmult_le_compat_l; lra). eapply Rle_trans; [exact X|]. rewrite (Rmult_comm s). replace (g ^ (dim + 3) * (g * g) * (S + INR dim * stiny)) with (g * g * (g ^ (dim + 3) * (S + INR dim * stiny))) by ring. apply Rmult_le_compat_l; [nra|exact A2].
Qed.
(** A distance that is a number: its square is the squared distance, up to rounding. *)
Lemma cdist_acc dim x cs k : Forall is_f32 x -> Forall is_f32 cs -> Forall (fun v => is_num v = true) x -> Forall (fun v => is_num v = true) cs ->
  is_num (cdist (A := SA) dim x cs k) = true ->
  0 <= fval (cdist (A := SA) dim x cs k) /\
  sqd dim (vals x) (vals cs) k <= g ^ (dim + 5) * (fval (cdist (A := SA) dim x cs k) ^ 2 + INR dim * stiny) /\
  fval (cdist (A := SA) dim x cs k) ^ 2 <= g ^ (dim + 5) * (sqd dim (vals x) (vals cs) k + INR dim * stiny).
Proof.
  intros Vx Vc Nx Nc N. unfold cdist, edist in *. cbn [nsqrt SA] in *.
  assert (DL : dlike (nsum (A := SA) dim (fun d => gap (A := SA) (nth (0 + d) x (n0 (A := SA))) (nth (k * dim + d) cs (n0 (A := SA)))))) by (apply nsum_dlike; intro; apply gap_dlike; apply nth_valid; assumption).
  destruct (sqrt_dlike _ DL) as (_ & K). destruct (K N) as (N1 & P & E & _).
  pose proof (nsum_acc dim (fun d => nth (0 + d) x (n0 (A := SA))) (fun d => nth (k * dim + d) cs (n0 (A := SA))) ltac:(intro; apply nth_valid; assumption) ltac:(intro; apply nth_valid; assumption) ltac:(intro; apply nth_isnum; assumption) ltac:(intro; apply nth_isnum; assumption) N1) as A. cbv zeta in A.
  destruct (sqrt_acc _ (proj1 DL) N1 P) as (e & F & E2). pose proof (dist_core dim _ _ e P F A) as C. rewrite <- E2, <- E in C.
  match type of C with context [Rsum dim ?h] => assert (ES : sqd dim (vals x) (vals cs) k = Rsum dim h) by (unfold sqd; apply Rsum_ext; intros d _; rewrite !nth_vals; reflexivity) end. rewrite ES. exact C.
Qed.
(** If a computed distance is not smaller than another one, neither is the real one, up to rounding. *)
Lemma cdist_order dim x cs b j : Forall is_f32 x -> Forall is_f32 cs -> Forall (fun v => is_num v = true) x -> Forall (fun v => is_num v = true) cs ->
  is_num (cdist (A := SA) dim x cs b) = true -> is_num (cdist (A := SA) dim x cs j) = true -> SFltb (cdist (A := SA) dim x cs j) (cdist (A := SA) dim x cs b) = false ->
  sqd dim (vals x) (vals cs) b <= g ^ (2 * dim + 10) * (sqd dim (vals x) (vals cs) j + INR dim * bpow radix2 (-149)).
Proof.
  intros Vx Vc Nx Nc Nb Nj L. destruct (cdist_acc dim x cs b Vx Vc Nx Nc Nb) as (B0 & B1 & _), (cdist_acc dim x cs j Vx Vc Nx Nc Nj) as (J0 & _ & J2).
  assert (O : fval (cdist (A := SA) dim x cs b) <= fval (cdist (A := SA) dim x cs j)).
  { apply Rnot_lt_le. intro H. assert (NU : forall z, is_num z = true -> nan32 z = false) by (intros z; destruct z; cbn; congruence).
    rewrite <- (num_ext _ Nb), <- (num_ext _ Nj) in H. apply ltb_ext in H; auto; try (apply edist_dlike; assumption). change (num SA) with f32 in *. congruence. }
  set (db := fval (cdist (A := SA) dim x cs b)) in *. set (dj := fval (cdist (A := SA) dim x cs j)) in *. assert (O2 : db ^ 2 <= dj ^ 2) by (cbn [pow]; nra).
  set (Sb := sqd dim (vals x) (vals cs) b) in *. set (Sj := sqd dim (vals x) (vals cs) j) in *. pose proof (gpow (dim + 5)) as G. pose proof stiny_pos as TP. pose proof (pos_INR dim) as PN.
  replace (2 * dim + 10)%nat with (dim + 5 + (dim + 5))%nat by lia. rewrite pow_add. set (h := g ^ (dim + 5)) in *.
  assert (TT : bpow radix2 (-149) = stiny + stiny) by (unfold stiny; change (-149)%Z with (-150 + 1)%Z; rewrite bpow_plus; change (bpow radix2 1) with 2; ring). rewrite TT.
  assert (PT : 0 <= INR dim * stiny) by (apply Rmult_le_pos; lra). eapply Rle_trans; [exact B1|]. rewrite Rmult_assoc. apply Rmult_le_compat_l; [lra|]. nra.
Qed.
