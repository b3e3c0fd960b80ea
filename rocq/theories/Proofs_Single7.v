(** The centers in binary32. *)
From Coq Require Import ZArith QArith Reals Lra Lia Bool List.
From Coq Require Import Floats.SpecFloat.
From Flocq Require Import Core.Core IEEE754.BinarySingleNaN Relative Plus_error.
From Verif Require Import Base BaseFacts Arith RFacts Spec_Float Spec_Single Spec_KMeans Spec_Float8 Model_Single Model_Single5 Model_KMeans Proofs_Float1 Proofs_Single1 Proofs_Single4 Proofs_Single5 Proofs_Single6 Proofs_KAny.
Import ListNotations.
Local Open Scope R_scope.

#[local] Existing Instance Proofs_Single1.Sprec.
#[local] Existing Instance Proofs_Single1.Smax.
Local Notation g := sone.

(** ** Numbers *)
Lemma rs_int n e : (0 <= n < 2 ^ 24)%Z -> (-149 <= e)%Z -> rs (IZR n * bpow radix2 e) = IZR n * bpow radix2 e.
Proof.
  intros Hn He. unfold round_single. apply round_generic; [apply valid_rnd_N|]. apply generic_format_FLT. exists (Float radix2 n e); [reflexivity| |exact He]. cbn. lia.
Qed.
Lemma within_add x y B : within B x -> within B y -> Rabs (fval x - fval y) <= 2 * B.
Proof. intros (_ & _ & X) (_ & _ & Y). apply Rabs_le_inv in X, Y. apply Rabs_le. lra. Qed.
Lemma gap_num x y : within (bpow radix2 41) x -> within (bpow radix2 41) y -> is_num (gap (A := SA) x y) = true /\ 0 <= fval (gap (A := SA) x y) <= bpow radix2 84.
Proof.
  intros Wx Wy. pose proof (within_add x y _ Wx Wy) as L. destruct Wx as (Vx & Nx & _), Wy as (Vy & Ny & _).
  assert (E2 : 2 * bpow radix2 41 = bpow radix2 42) by (change 42%Z with (1 + 41)%Z; rewrite bpow_plus; reflexivity). rewrite E2 in L.
  pose proof (rs_abs_le _ 42 ltac:(lia) L) as L2. assert (B1 : bpow radix2 42 < bpow radix2 128) by (apply bpow_lt; lia).
  destruct (s_sub_num x y Vx Vy Nx Ny ltac:(lra)) as (Nd & Ed). pose proof (s_sub_valid x y Vx Vy) as Vd. unfold gap. cbn [nmul nsub SA]. set (z := SFsub sprec semax x y) in *.
  assert (L3 : Rabs (fval z * fval z) <= bpow radix2 84) by (rewrite Rabs_mult; change 84%Z with (42 + 42)%Z; rewrite bpow_plus, Ed; apply Rmult_le_compat; try apply Rabs_pos; exact L2).
  pose proof (rs_abs_le _ 84 ltac:(lia) L3) as L4. assert (B2 : bpow radix2 84 < bpow radix2 128) by (apply bpow_lt; lia).
  destruct (s_mul_num z z Vd Vd Nd Nd ltac:(lra)) as (Nm & Em). split; [exact Nm|]. rewrite Em. split; [apply rs_nonneg, Rle_0_sqr|]. apply Rabs_le_inv in L4. lra.
Qed.
Lemma zero_within B : 0 <= B -> within B (n0 (A := SA)).
Proof. intro H. split; [reflexivity|]. split; [reflexivity|]. change (fval (n0 (A := SA))) with 0. rewrite Rabs_R0. exact H. Qed.
Lemma nth_within B (l : list f32) i : 0 <= B -> Forall (within B) l -> within B (nth i l (n0 (A := SA))).
Proof. intros P F. destruct (nth_in_or_default i l (n0 (A := SA))) as [H | ->]; [|apply zero_within; exact P]. rewrite Forall_forall in F. apply F. exact H. Qed.
Lemma nsum_bounded (q : nat -> f32) : (forall i, is_f32 (q i)) -> (forall i, is_num (q i) = true /\ 0 <= fval (q i) <= bpow radix2 84) ->
  forall n, (Z.of_nat n < 2 ^ 24)%Z -> is_f32 (nsum (A := SA) n q) /\ is_num (nsum (A := SA) n q) = true /\ 0 <= fval (nsum (A := SA) n q) <= IZR (Z.of_nat n) * bpow radix2 84.
Proof.
  intros V Q. induction n as [|n IH]; intro Hn; [cbn [nsum]; change (fval (n0 (A := SA))) with 0; split; [reflexivity|]; split; [reflexivity|]; rewrite Rmult_0_l; lra|].
  destruct (IH ltac:(lia)) as (V1 & N1 & P1 & U1). destruct (Q n) as (N2 & P2 & U2). cbn [nsum nadd SA].
  set (s := nsum (A := SA) n q) in *. assert (U : fval s + fval (q n) <= IZR (Z.of_nat (S n)) * bpow radix2 84) by (rewrite Nat2Z.inj_succ, succ_IZR; lra).
  apply rs_le in U. rewrite rs_int in U by lia. assert (P : 0 <= rs (fval s + fval (q n))) by (apply rs_nonneg; lra).
  assert (L : IZR (Z.of_nat (S n)) * bpow radix2 84 < bpow radix2 128).
  { change 128%Z with (44 + 84)%Z. rewrite bpow_plus. apply Rmult_lt_compat_r; [apply bpow_gt_0|]. change (bpow radix2 44) with (IZR (2 ^ 44)). apply IZR_lt. lia. }
  destruct (s_add_num s (q n) V1 (V n) N1 N2) as (N3 & E3); [rewrite Rabs_pos_eq; lra|]. split; [apply s_add_valid; auto|]. split; [exact N3|]. rewrite E3. lra.
Qed.
Lemma cdist_num dim x cs k : (Z.of_nat dim < 2 ^ 24)%Z -> Forall (within (bpow radix2 41)) x -> Forall (within (bpow radix2 41)) cs -> is_num (cdist (A := SA) dim x cs k) = true.
Proof.
  intros Hd Wx Wc. unfold cdist, edist. cbn [nsqrt SA].
  destruct (nsum_bounded (fun d => gap (A := SA) (nth (0 + d) x (n0 (A := SA))) (nth (k * dim + d) cs (n0 (A := SA))))) with (n := dim) as (V & N & P & _); try exact Hd.
  - intro i. apply gap_dlike; [apply (nth_within (bpow radix2 41) x)|apply (nth_within (bpow radix2 41) cs)]; try assumption; apply bpow_ge_0.
  - intro i. apply gap_num; apply nth_within; try assumption; apply bpow_ge_0.
  - apply (s_sqrt_num _ V N P).
Qed.
Lemma within_parts B l : Forall (within B) l -> Forall is_f32 l /\ Forall (fun v => is_num v = true) l.
Proof. intro F. split; (eapply Forall_impl; [|exact F]); intros x (V & N & _); assumption. Qed.
Lemma within_le B C x : B <= C -> within B x -> within C x.
Proof. intros H (V & N & L). split; [exact V|]. split; [exact N|]. lra. Qed.

(** ** Sums *)
Lemma asum_snoc (l : list f32) x : asum (A := SA) (l ++ [x]) = SFadd sprec semax (asum (A := SA) l) x.
Proof. unfold asum. rewrite fold_left_app. reflexivity. Qed.
Lemma rs_fac x e : fact e -> Rabs (x * e) <= g * Rabs x /\ Rabs (x * e - x) <= (g - 1) * Rabs x.
Proof.
  intros F. unfold fact in F. pose proof sone_gt as G. pose proof isone as IG. assert (I2 : 1 - / g <= g - 1). { assert (H : / g * (g - 1) <= g - 1) by nra. replace (/ g * (g - 1)) with (1 - / g) in H by (field; lra). exact H. }
  split; [rewrite Rabs_mult, Rmult_comm; apply Rmult_le_compat_r; [apply Rabs_pos|apply Rabs_le; lra]|]. replace (x * e - x) with ((e - 1) * x) by ring. rewrite Rabs_mult. apply Rmult_le_compat_r; [apply Rabs_pos|apply Rabs_le; lra].
Qed.
Lemma Rlsum_snoc l x : Rlsum (l ++ [x]) = Rlsum l + x.
Proof. rewrite Rlsum_app. cbn. ring. Qed.
Lemma asum_acc B (l : list f32) : 0 <= B -> Forall (within B) l -> INR (length l) * B * g ^ length l < bpow radix2 128 ->
  is_f32 (asum (A := SA) l) /\ is_num (asum (A := SA) l) = true /\ Rabs (fval (asum (A := SA) l) - Rlsum (vals l)) <= INR (length l) * B * (g ^ length l - 1) /\
  Rabs (fval (asum (A := SA) l)) <= INR (length l) * B * g ^ length l.
Proof.
  intros HB. induction l as [|x l IH] using rev_ind; intros F L.
  - change (fval (asum (A := SA) [])) with 0. cbn [length vals map Rlsum fold_right INR pow]. split; [reflexivity|]. split; [reflexivity|]. change (Rlsum (vals [])) with 0. rewrite Rminus_0_r, Rabs_R0. lra.
  - apply Forall_app in F. destruct F as (F & Fx). inversion Fx as [|? ? (Vx & Nx & Bx) _]; subst. rewrite app_length in L. cbn [length] in L. rewrite Nat.add_1_r in L. set (n := length l) in *.
    pose proof sone_gt as G. pose proof (gpow n) as GN. pose proof (pos_INR n) as PN. rewrite S_INR in L. cbn [pow] in L.
    assert (PB : 0 <= INR n * B) by (apply Rmult_le_pos; lra).
    destruct IH as (V & N & E & U); [exact F| |].
    { eapply Rle_lt_trans; [|exact L]. rewrite <- (Rmult_1_l (g ^ n)) at 1. rewrite <- Rmult_assoc. replace ((INR n + 1) * B * (g * g ^ n)) with ((INR n * B + B) * g * g ^ n) by ring. apply Rmult_le_compat_r; [lra|]. nra. }
    rewrite asum_snoc. unfold vals in *. rewrite map_app. cbn [map]. rewrite Rlsum_snoc, app_length, Nat.add_1_r. cbn [length]. fold n. set (s := asum (A := SA) l) in *. set (W := Rlsum (map fval l)) in *.
    destruct (add_fact s x V Vx) as (e & Fe & Ee). destruct (rs_fac (fval s + fval x) e Fe) as (R1 & R2). rewrite <- Ee in R1, R2.
    assert (A : Rabs (fval s + fval x) <= (INR n + 1) * B * g ^ n).
    { eapply Rle_trans; [apply Rabs_triang|]. assert (B <= B * g ^ n) by nra. nra. }
    rewrite S_INR. cbn [pow]. assert (R3 : Rabs (rs (fval s + fval x)) <= (INR n + 1) * B * (g * g ^ n)) by nra.
    destruct (s_add_num s x V Vx N Nx) as (N' & E'); [lra|]. split; [apply s_add_valid; assumption|]. split; [exact N'|]. rewrite E'. split; [|exact R3].
    match goal with |- Rabs (_ - (?w + _)) <= _ => change w with W end. replace (rs (fval s + fval x) - (W + fval x)) with (rs (fval s + fval x) - (fval s + fval x) + (fval s - W)) by ring. eapply Rle_trans; [apply (Rabs_triang (rs (fval s + fval x) - (fval s + fval x)) (fval s - W))|].
    assert (T : (g - 1) * Rabs (fval s + fval x) <= (g - 1) * ((INR n + 1) * B * g ^ n)) by (apply Rmult_le_compat_l; lra).
    assert (T2 : INR n * B * (g ^ n - 1) <= (INR n + 1) * B * (g ^ n - 1)) by (apply Rmult_le_compat_r; [lra|nra]).
    replace ((INR n + 1) * B * (g * g ^ n - 1)) with ((g - 1) * ((INR n + 1) * B * g ^ n) + (INR n + 1) * B * (g ^ n - 1)) by ring. apply Rplus_le_compat; [exact (Rle_trans _ _ _ R2 T)|exact (Rle_trans _ _ _ E T2)].
Qed.
(** The quotient by the count. *)
Lemma mean_acc B (l : list f32) : 0 <= B -> Forall (within B) l -> (1 <= length l)%nat -> (Z.of_nat (length l) <= 2 ^ 32)%Z -> INR (length l) * B * g ^ (length l + 2) < bpow radix2 127 ->
  let c := ndiv (a := SA) (asum (A := SA) l) (nN (A := SA) (length l)) in
  is_f32 c /\ is_num c = true /\ Rabs (fval c - Rlsum (vals l) / INR (length l)) <= B * (g ^ (length l + 2) - 1) + stiny /\ Rabs (fval c) <= B * g ^ (length l + 2) + stiny.
Proof.
  intros HB F H1 H2 L. cbv zeta. cbn [ndiv SA]. set (n := length l) in *. pose proof sone_gt as G. pose proof (gpow n) as GN. pose proof stiny_pos as TP. pose proof isone as IG.
  assert (N1 : 1 <= INR n) by (change 1 with (INR 1); apply le_INR; exact H1). assert (PB : 0 <= INR n * B) by (apply Rmult_le_pos; lra).
  assert (B127 : bpow radix2 127 < bpow radix2 128) by (apply bpow_lt; lia). rewrite Nat.add_comm in L. cbn [pow Nat.add] in L. rewrite (Nat.add_comm n 2). cbn [pow Nat.add].
  assert (GG1 : g ^ n <= g * g ^ n) by nra. assert (GG : g ^ n <= g * (g * g ^ n)) by nra.
  destruct (asum_acc B l HB F) as (V & N & E & U). { fold n. eapply Rle_lt_trans; [|apply (Rlt_trans _ _ _ L B127)]. apply Rmult_le_compat_l; lra. }
  fold n in E, U. destruct (nN_val32 n H1 H2) as (V2 & N2 & E2). set (s := asum (A := SA) l) in *. set (W := Rlsum (vals l)) in *. change (num SA) with f32 in *.
  destruct (normal_fact (INR n)) as (e & Fe & Ee). { rewrite Rabs_pos_eq by lra. apply Rle_trans with 1; [|exact N1]. change 1 with (bpow radix2 0). apply bpow_le. lia. }
  rewrite Ee in E2. unfold fact in Fe. assert (Pe : 0 < e) by lra.
  assert (Fi : fact (/ e)). { unfold fact. split; [apply Rinv_le_contravar; lra|]. rewrite <- (Rinv_inv g). apply Rinv_le_contravar; lra. }
  assert (Q : fval s / (INR n * e) = fval s / INR n * / e) by (field; lra).
  destruct (rs_fac (fval s / INR n) (/ e) Fi) as (R1 & R2). rewrite <- Q in R1, R2.
  assert (D1 : Rabs (fval s / INR n) <= B * g ^ n).
  { unfold Rdiv. rewrite Rabs_mult, (Rabs_pos_eq (/ INR n)) by (apply Rlt_le, Rinv_0_lt_compat; lra). apply (Rmult_le_reg_r (INR n)); [lra|]. rewrite Rmult_assoc, Rinv_l by lra. lra. }
  assert (D2 : Rabs (fval s / INR n - W / INR n) <= B * (g ^ n - 1)).
  { unfold Rdiv. rewrite <- Rmult_minus_distr_r, Rabs_mult, (Rabs_pos_eq (/ INR n)) by (apply Rlt_le, Rinv_0_lt_compat; lra). apply (Rmult_le_reg_r (INR n)); [lra|]. rewrite Rmult_assoc, Rinv_l by lra. lra. }
  destruct (any_fact (fval s / (INR n * e))) as (e3 & t & F3 & T & E3). destruct (rs_fac (fval s / (INR n * e)) e3 F3) as (R3 & R4). set (v := fval s / (INR n * e)) in *. set (u := fval s / INR n) in *.
  assert (V3 : Rabs v <= B * (g * g ^ n)) by nra.
  assert (R5 : Rabs (rs v) <= B * (g * (g * g ^ n)) + stiny). { rewrite E3. eapply Rle_trans; [apply Rabs_triang|]. assert (g * Rabs v <= g * (B * (g * g ^ n))) by (apply Rmult_le_compat_l; lra). lra. }
  assert (R6 : Rabs (rs v) < bpow radix2 128).
  { eapply Rle_lt_trans; [exact R5|]. assert (X : B * (g * (g * g ^ n)) <= INR n * B * (g * (g * g ^ n))). { rewrite Rmult_assoc. assert (0 <= B * (g * (g * g ^ n))) by (apply Rmult_le_pos; nra). nra. }
    assert (Y : stiny <= bpow radix2 127) by (apply bpow_le; lia). change (bpow radix2 128) with (bpow radix2 (127 + 1)). rewrite bpow_plus. change (bpow radix2 1) with 2. lra. }
  assert (NZ : fval (nN (A := SA) n) <> 0) by (change (num SA) with f32; rewrite E2; nra).
  destruct (s_div_num s (nN (A := SA) n) V V2 N NZ) as (N4 & E4). { change (num SA) with f32 in *. rewrite E2. exact R6. }
  change (num SA) with f32 in *. rewrite E2 in E4. fold v in E4. split; [apply s_div_valid; assumption|]. split; [exact N4|]. rewrite E4. split; [|exact R5].
  rewrite E3. replace (v * e3 + t - W / INR n) with ((v * e3 - v) + t + (v - u) + (u - W / INR n)) by ring.
  assert (R7 : (g - 1) * Rabs v <= (g - 1) * (B * (g * g ^ n))) by (apply Rmult_le_compat_l; lra). assert (R8 : (g - 1) * Rabs u <= (g - 1) * (B * g ^ n)) by (apply Rmult_le_compat_l; lra).
  replace (B * (g * (g * g ^ n) - 1) + stiny) with ((g - 1) * (B * (g * g ^ n)) + stiny + (g - 1) * (B * g ^ n) + B * (g ^ n - 1)) by ring.
  eapply Rle_trans; [apply (Rabs_triang (v * e3 - v + t + (v - u)) (u - W / INR n))|]. apply Rplus_le_compat; [|exact D2]. eapply Rle_trans; [apply (Rabs_triang (v * e3 - v + t) (v - u))|]. apply Rplus_le_compat; [|lra]. eapply Rle_trans; [apply (Rabs_triang (v * e3 - v) t)|]. lra.
Qed.

(** ** Powers of the factor *)
Lemma gcap m : (Z.of_nat m <= 2 ^ 22 + 2)%Z -> g ^ m <= 3 / 2.
Proof.
  intro Hm. set (u := bpow radix2 (-24)). assert (Pu : 0 < u) by apply bpow_gt_0.
  assert (I : forall k, g ^ k * (1 - INR k * u) <= 1).
  { induction k as [|k IH]; [cbn; lra|]. rewrite S_INR. cbn [pow]. pose proof (pos_INR k). change g with (1 + u). assert (X : (1 + u) * (1 - (INR k + 1) * u) <= 1 - INR k * u) by nra. pose proof (gpow k) as GK. change g with (1 + u) in *. replace ((1 + u) * (1 + u) ^ k * (1 - (INR k + 1) * u)) with ((1 + u) ^ k * ((1 + u) * (1 - (INR k + 1) * u))) by ring. eapply Rle_trans; [apply Rmult_le_compat_l; [lra|exact X]|exact IH]. }
  specialize (I m). assert (M : INR m * u <= 1 / 3).
  { rewrite INR_IZR_INZ. apply IZR_le in Hm. apply Rle_trans with (IZR (2 ^ 22 + 2) * u); [apply Rmult_le_compat_r; lra|]. unfold u. change (bpow radix2 (-24)) with (/ IZR (2 ^ 24)). change (2 ^ 22 + 2)%Z with 4194306%Z. change (2 ^ 24)%Z with 16777216%Z. lra. }
  pose proof (gpow m). nra.
Qed.
