(** Two frames, two components: the training in which the likelihood goes down. *)
From Coq Require Import String List Bool Arith Lia ZArith QArith Reals Lra.
From Verif Require Import Base BaseFacts Arith RFacts Model_Ring Model_Gaussian Model_Config Model_KMeans Model_GMM Spec_Common Spec_Matrix Spec_Det Spec_Gaussian Spec_KMeans Spec_GMM Spec_EM
  Proofs_DetFacts Proofs_Gaussian Proofs_KMeans Proofs_GMM Proofs_GMM2 Proofs_PD Proofs_EM Proofs_EM2.
Import ListNotations.
Local Open Scope list_scope.
Local Open Scope R_scope.

(** ** Bounds on the exponential *)
Lemma exp_pow : forall n x, exp x ^ n = exp (INR n * x).
Proof. induction n as [|n IH]; intro x; [rewrite pow_O, Rmult_0_l, exp_0; reflexivity|]. rewrite <- tech_pow_Rmult, IH, <- exp_plus. f_equal. rewrite S_INR. ring. Qed.

Lemma exp1_bounds : 5 / 2 <= exp 1 <= 14 / 5.
Proof.
  split.
  - replace 1 with (INR 8 * (1 / 8)) by (cbn; lra). rewrite <- exp_pow. apply Rle_trans with ((9 / 8) ^ 8); [lra|]. apply pow_incr. pose proof (exp_ineq1 (1 / 8) ltac:(lra)). lra.
  - replace 1 with (INR 32 * (1 / 32)) by (cbn; lra). rewrite <- exp_pow. apply Rle_trans with ((32 / 31) ^ 32); [|lra]. apply pow_incr. split; [left; apply exp_pos|].
    pose proof (exp_ineq1 (- (1 / 32)) ltac:(lra)) as H. rewrite exp_Ropp in H. pose proof (exp_pos (1 / 32)) as P. 
    apply (Rmult_lt_compat_r (exp (1 / 32))) in H; [|exact P]. rewrite Rinv_l in H by lra. lra.
Qed.

Lemma exp4_bounds : 625 / 16 <= exp 4 <= 38416 / 625.
Proof.
  destruct exp1_bounds as (L & U). replace 4 with (INR 4 * 1) by (cbn; lra). rewrite <- exp_pow. split.
  - apply Rle_trans with ((5 / 2) ^ 4); [lra|]. apply pow_incr. lra.
  - apply Rle_trans with ((14 / 5) ^ 4); [|lra]. apply pow_incr. split; [left; apply exp_pos|exact U].
Qed.

Lemma exp_m3 : exp (Ropp 3) <= 8 / 125.
Proof.
  destruct exp1_bounds as (L & _). rewrite exp_Ropp. apply Rle_trans with (/ (125 / 8)); [|lra]. apply Rinv_le_contravar; [lra|].
  replace 3 with (INR 3 * 1) by (cbn; lra). rewrite <- exp_pow. apply Rle_trans with ((5 / 2) ^ 3); [lra|]. apply pow_incr. lra.
Qed.

(** ** Components of dimension 1 *)
Definition pdf1 (s m x : R) : R := exp (- ((x - m) * (x - m) / (2 * s))) / sqrt (s * (2 * PI)).

Lemma pdf1_eq : forall k x s m, g_dim k = 1%nat -> is_inverse 1 (gcov k) (ginv k) -> gcov k 0 0 = s -> gmean k 0 = m -> comp_pdf k [x] = pdf1 s m x.
Proof.
  intros k x s m D I Es Em. unfold comp_pdf, normal_pdf, pdf1. rewrite D.
  assert (Q : qform 1 (ginv k) (fun i => nth i [x] 0 - gmean k i) = (x - m) * (x - m) / s).
  { unfold qform. cbn. rewrite Em. destruct (I 0%nat 0%nat ltac:(lia) ltac:(lia)) as (P & _). unfold mmul, delta in P. cbn in P. rewrite Es in P.
    assert (s <> 0) by (intro Z; rewrite Z in P; lra). assert (ginv k 0 0 = / s) by (apply Rmult_eq_reg_l with s; [rewrite Rinv_r by assumption; lra|assumption]). rewrite H0. unfold Rdiv. ring. }
  rewrite Q. assert (E : Rdet 1 (gcov k) * (2 * PI) ^ 1 = s * (2 * PI)). { cbn. unfold sg. cbn. rewrite Es. ring. }
  rewrite E. f_equal. f_equal. unfold Rdiv. destruct (Req_dec s 0) as [->|Hs]; [|field; exact Hs]. exfalso.
  destruct (I 0%nat 0%nat ltac:(lia) ltac:(lia)) as (P & _). unfold mmul, delta in P. cbn in P. rewrite Es in P. lra.
Qed.

Lemma pdf1_floor : forall s m x, / 3 <= s <= 1 -> (x - m) * (x - m) <= 4 -> min_likelihood <= pdf1 s m x.
Proof.
  intros s m x Hs Hx. unfold pdf1, min_likelihood. pose proof PI_RGT_0 as P0. pose proof PI_4 as P4.
  assert (S1 : sqrt (s * (2 * PI)) <= 3). { apply Rle_trans with (sqrt (3 * 3)); [|rewrite sqrt_square; lra]. apply sqrt_le_1_alt. assert (s * (2 * PI) <= 1 * (2 * PI)) by (apply Rmult_le_compat_r; lra). lra. }
  assert (S0 : 0 < sqrt (s * (2 * PI))) by (apply sqrt_lt_R0; apply Rmult_lt_0_compat; lra).
  assert (E : / 10 ^ 6 <= exp (- ((x - m) * (x - m) / (2 * s)))).
  { apply Rle_trans with (exp (Ropp 6)).
    - rewrite exp_Ropp. apply Rinv_le_contravar; [apply exp_pos|]. replace 6 with (INR 6 * 1) by (cbn; lra). rewrite <- exp_pow. pose proof (exp_le_3). apply Rle_trans with (3 ^ 6); [|lra]. apply pow_incr. split; [left; apply exp_pos|lra].
    - assert (Q : (x - m) * (x - m) / (2 * s) <= 6). { apply Rmult_le_reg_r with (2 * s); [lra|]. unfold Rdiv. rewrite Rmult_assoc, Rinv_l by lra. lra. }
      destruct (Req_dec ((x - m) * (x - m) / (2 * s)) 6) as [->|N]; [right; reflexivity|]. left. apply exp_increasing. lra. }
  apply Rle_trans with (/ 10 ^ 6 * / 3).
  - rewrite <- Rinv_mult_distr by lra. apply Rinv_le_contravar; [lra|]. apply Rle_trans with (10 ^ 7); [lra|]. apply Rle_pow; [lra|lia].
  - unfold Rdiv. apply Rmult_le_compat; [|lra|exact E|apply Rinv_le_contravar; assumption]. left. apply Rinv_0_lt_compat, pow_lt. lra.
Qed.

Definition duo_frames : list (list R) := [[-1]; [1]].

(** Two components of variance [s] with means [-m] and [m], and equal weights. *)
Definition duo (g : gclass RA) (m s : R) : Prop :=
  gm_ready g /\ gc_n g = 2%nat /\ gc_dim g = 1%nat /\ weight g 0 = / 2 /\ weight g 1 = / 2 /\
  gmean (comp_at g 0) 0 = - m /\ gmean (comp_at g 1) 0 = m /\ gcov (comp_at g 0) 0 0 = s /\ gcov (comp_at g 1) 0 0 = s.

Section Duo.
  Variables (g : gclass RA) (m s : R).
  Hypothesis H : duo g m s.
  Hypothesis Hs : / 3 <= s <= 1.
  Hypothesis Hm : 0 <= m <= 1.

  Lemma duo_inv : forall c, (c < 2)%nat -> is_inverse 1 (gcov (comp_at g c)) (ginv (comp_at g c)) /\ g_dim (comp_at g c) = 1%nat.
  Proof. destruct H as (Rg & N & D & _). intros c Hc. destruct (comp_inv g Rg c ltac:(rewrite N; exact Hc)) as (I & _ & E). rewrite D in *. auto. Qed.

  Lemma duo_pdf : forall x, comp_pdf (comp_at g 0) [x] = pdf1 s (- m) x /\ comp_pdf (comp_at g 1) [x] = pdf1 s m x.
  Proof.
    intro x. destruct H as (_ & _ & _ & _ & _ & M0 & M1 & S0 & S1). split.
    - destruct (duo_inv 0 ltac:(lia)) as (I & D). apply pdf1_eq; assumption.
    - destruct (duo_inv 1 ltac:(lia)) as (I & D). apply pdf1_eq; assumption.
  Qed.

  Let near := pdf1 s m 1.
  Let far := pdf1 s m (-1).
  Lemma duo_near : pdf1 s (- m) (-1) = near.
  Proof. unfold near, pdf1. do 3 f_equal. f_equal. ring. Qed.
  Lemma duo_far : pdf1 s (- m) 1 = far.
  Proof. unfold far, pdf1. do 3 f_equal. f_equal. ring. Qed.
  Lemma near_floor : min_likelihood <= near.
  Proof. apply pdf1_floor; [exact Hs|]. assert ((1 - m) * (1 - m) <= 2 * 2) by (apply Rmult_le_compat; lra). lra. Qed.
  Lemma far_floor : min_likelihood <= far.
  Proof. apply pdf1_floor; [exact Hs|]. assert ((1 + m) * (1 + m) <= 2 * 2) by (apply Rmult_le_compat; lra). lra. Qed.

  Lemma duo_above : above_floor g duo_frames.
  Proof.
    intros x c Hx Hc. destruct H as (_ & N & _). rewrite N in Hc. assert (c = 0 \/ c = 1)%nat as [-> | ->] by lia; cbn in Hx; destruct Hx as [<-|[<-|[]]];
      [rewrite (proj1 (duo_pdf (-1))), duo_near; apply near_floor|rewrite (proj1 (duo_pdf 1)), duo_far; apply far_floor
      |rewrite (proj2 (duo_pdf (-1))); apply far_floor|rewrite (proj2 (duo_pdf 1)); apply near_floor].
  Qed.

  Lemma duo_lik : comp_lik (comp_at g 0) [-1] = near /\ comp_lik (comp_at g 0) [1] = far /\ comp_lik (comp_at g 1) [-1] = far /\ comp_lik (comp_at g 1) [1] = near.
  Proof.
    unfold comp_lik. fold (comp_pdf (comp_at g 0) [-1]) (comp_pdf (comp_at g 0) [1]) (comp_pdf (comp_at g 1) [-1]) (comp_pdf (comp_at g 1) [1]).
    rewrite (proj1 (duo_pdf (-1))), (proj1 (duo_pdf 1)), (proj2 (duo_pdf (-1))), (proj2 (duo_pdf 1)), duo_near, duo_far. fold near far.
    rewrite !Rmax_right by (apply near_floor || apply far_floor). auto.
  Qed.

  Lemma near_pos : 0 < near.
  Proof. apply Rlt_le_trans with min_likelihood; [unfold min_likelihood; apply Rinv_0_lt_compat, pow_lt; lra|apply near_floor]. Qed.
  Lemma far_pos : 0 < far.
  Proof. apply Rlt_le_trans with min_likelihood; [unfold min_likelihood; apply Rinv_0_lt_compat, pow_lt; lra|apply far_floor]. Qed.

  Lemma duo_ll : frames_ll g duo_frames = 2 * ln (/ 2 * (near + far)).
  Proof.
    destruct H as (_ & N & _ & W0 & W1 & _). destruct duo_lik as (A & B & C & D). unfold frames_ll, duo_frames. cbn [map Rlsum fold_right]. rewrite N. cbn [Rsum]. rewrite W0, W1, A, B, C, D.
    replace (0 + / 2 * near + / 2 * far) with (/ 2 * (near + far)) by ring. replace (0 + / 2 * far + / 2 * near) with (/ 2 * (near + far)) by ring. unfold Rlsum. cbn. ring.
  Qed.

  Let r := near / (near + far).
  Lemma duo_resp : resp g [-1] 0 = r /\ resp g [1] 0 = 1 - r /\ resp g [-1] 1 = 1 - r /\ resp g [1] 1 = r.
  Proof.
    destruct H as (_ & N & _ & W0 & W1 & _). destruct duo_lik as (A & B & C & D). pose proof near_pos. pose proof far_pos.
    unfold resp. rewrite N. cbn [Rsum]. rewrite !score_eq by lra. rewrite W0, W1, A, B, C, D. unfold r. repeat split; field; lra.
  Qed.

  Lemma duo_mass : mass g duo_frames 0 = 1 /\ mass g duo_frames 1 = 1.
  Proof. destruct duo_resp as (A & B & C & D). unfold mass, duo_frames, Rlsum. cbn. rewrite A, B, C, D. split; ring. Qed.

  Lemma duo_next : forall g', gm_ready g' -> after_update g duo_frames g' -> duo g' (2 * r - 1) (1 - (2 * r - 1) * (2 * r - 1) + nth 0 (gc_reg g) 0).
  Proof.
    intros g' Rg' ((_ & ED & _ & _ & EP & _) & _ & _ & W & _ & M & V). pose proof H as (_ & N & D & _).
    destruct duo_resp as (A & B & C & E). destruct duo_mass as (M0 & M1).
    assert (Z0 : wmean g duo_frames 0 0 = - (2 * r - 1)) by (unfold wmean; rewrite M0; unfold duo_frames, Rlsum; cbn; rewrite A, B; field).
    assert (Z1 : wmean g duo_frames 1 0 = 2 * r - 1) by (unfold wmean; rewrite M1; unfold duo_frames, Rlsum; cbn; rewrite C, E; field).
    split; [exact Rg'|]. split; [unfold gc_n in *; rewrite EP; exact N|]. split; [rewrite ED; exact D|]. rewrite N, D in *.
    rewrite !W, !M, !V by lia. rewrite M0, M1. cbn [length duo_frames]. unfold new_cov. cbn [Nat.eqb]. rewrite Z0, Z1.
    split; [cbn; field|]. split; [cbn; field|]. split; [reflexivity|]. split; [reflexivity|].
    unfold wcov. rewrite Z0, Z1, M0, M1. unfold duo_frames, Rlsum. cbn. rewrite A, B, C, E. split; field.
  Qed.
End Duo.

Lemma duo_down : forall g g', duo g 1 (/ 2) -> nth 0 (gc_reg g) 0 = / 2 -> gm_ready g' -> after_update g duo_frames g' ->
  frames_ll g' duo_frames < frames_ll g duo_frames /\ above_floor g duo_frames /\ above_floor g' duo_frames.
Proof.
  intros g g' Hg HR Rg' AU. pose proof (duo_next g 1 (/ 2) Hg ltac:(lra) ltac:(lra) g' Rg' AU) as H'. rewrite HR in H'.
  pose proof PI_RGT_0 as PP. set (u := exp (Ropp 4)). assert (SP : 0 < sqrt PI) by (apply sqrt_lt_R0; exact PP).
  assert (U : 625 / 38416 <= u <= 16 / 625).
  { unfold u. rewrite exp_Ropp. destruct exp4_bounds as (L & U). pose proof (exp_pos 4). split.
    - replace (625 / 38416) with (/ (38416 / 625)) by lra. apply Rinv_le_contravar; assumption.
    - replace (16 / 625) with (/ (625 / 16)) by lra. apply Rinv_le_contravar; lra. }
  assert (N1 : pdf1 (/ 2) 1 1 = / sqrt PI). { unfold pdf1. replace ((1 - 1) * (1 - 1) / (2 * / 2)) with 0 by field. rewrite Ropp_0, exp_0. replace (/ 2 * (2 * PI)) with PI by field. unfold Rdiv. ring. }
  assert (F1 : pdf1 (/ 2) 1 (-1) = u / sqrt PI). { unfold pdf1, u. replace ((-1 - 1) * (-1 - 1) / (2 * / 2)) with 4 by field. replace (/ 2 * (2 * PI)) with PI by field. reflexivity. }
  rewrite N1, F1 in H'. assert (ER : / sqrt PI / (/ sqrt PI + u / sqrt PI) = / (1 + u)) by (field; lra). rewrite ER in H'. clear ER.
  set (t := 2 * / (1 + u) - 1) in *. assert (T : t * (1 + u) = 1 - u) by (unfold t; field; lra).
  assert (T1 : 95 / 100 <= t <= 968 / 1000). { split; apply Rmult_le_reg_r with (1 + u); lra. }
  set (s := 1 - t * t + / 2) in *.
  assert (T2 : (95 / 100) * (95 / 100) <= t * t) by (apply Rmult_le_compat; lra). assert (T3 : t * t <= (968 / 1000) * (968 / 1000)) by (apply Rmult_le_compat; lra).
  assert (S1 : 5629 / 10000 <= s <= 5975 / 10000) by (unfold s; lra).
  split; [|split; [apply (duo_above g 1 (/ 2) Hg); lra|apply (duo_above g' t s H'); lra]].
  rewrite (duo_ll g 1 (/ 2) Hg), (duo_ll g' t s H') by lra. apply Rmult_lt_compat_l; [lra|]. rewrite N1, F1.
  assert (Q : sqrt (s * (2 * PI)) = sqrt (2 * s) * sqrt PI). { rewrite <- sqrt_mult by lra. f_equal. ring. }
  assert (Q1 : 106 / 100 <= sqrt (2 * s)). { rewrite <- (sqrt_square (106 / 100)) by lra. apply sqrt_le_1_alt. lra. }
  assert (G1 : pdf1 s t 1 <= / (sqrt (2 * s) * sqrt PI)).
  { unfold pdf1. rewrite Q. unfold Rdiv. rewrite <- (Rmult_1_l (/ (sqrt (2 * s) * sqrt PI))) at 2. apply Rmult_le_compat_r; [left; apply Rinv_0_lt_compat, Rmult_lt_0_compat; lra|].
    apply Rle_trans with (exp 0); [|rewrite exp_0; lra]. destruct (Req_dec ((1 - t) * (1 - t) * / (2 * s)) 0) as [->|NZ]; [rewrite Ropp_0; lra|]. left. apply exp_increasing.
    assert (0 <= (1 - t) * (1 - t) * / (2 * s)) by (apply Rmult_le_pos; [apply Rle_0_sqr|left; apply Rinv_0_lt_compat; lra]). lra. }
  assert (G2 : pdf1 s t (-1) <= 8 / 125 * / (sqrt (2 * s) * sqrt PI)).
  { unfold pdf1. rewrite Q. unfold Rdiv at 1. apply Rmult_le_compat_r; [left; apply Rinv_0_lt_compat, Rmult_lt_0_compat; lra|].
    apply Rle_trans with (exp (Ropp 3)); [|apply exp_m3]. left. apply exp_increasing. apply Ropp_lt_contravar.
    apply Rmult_lt_reg_r with (2 * s); [lra|]. unfold Rdiv. rewrite Rmult_assoc, Rinv_l by lra.
    assert ((195 / 100) * (195 / 100) <= (1 + t) * (1 + t)) by (apply Rmult_le_compat; lra). lra. }
  assert (PN : 0 < pdf1 s t 1) by (apply (near_pos t s); lra). assert (PF : 0 < pdf1 s t (-1)) by (apply (far_pos t s); lra).
  apply ln_increasing; [apply Rmult_lt_0_compat; lra|]. apply Rmult_lt_compat_l; [lra|].
  apply Rle_lt_trans with (133 / 125 * / (sqrt (2 * s) * sqrt PI)); [lra|].
  replace (/ sqrt PI + u / sqrt PI) with ((1 + u) * / sqrt PI) by (field; lra). rewrite Rinv_mult_distr by lra. rewrite <- Rmult_assoc.
  apply Rmult_lt_compat_r; [apply Rinv_0_lt_compat, SP|]. apply Rmult_lt_reg_r with (sqrt (2 * s)); [lra|]. rewrite Rmult_assoc, Rinv_l by lra.
  assert ((1 + 625 / 38416) * (106 / 100) <= (1 + u) * sqrt (2 * s)) by (apply Rmult_le_compat; lra). lra.
Qed.

(** ** The means of the two frames *)
Lemma duo_nearest : forall cs, nth 0 cs 0 = -1 -> nth 1 cs 0 = 1 -> nearest 2 1 cs [-1] 0 /\ nearest 2 1 cs [1] 1.
Proof.
  intros cs A B. unfold nearest, sqd. cbn [Rsum nth Nat.mul Nat.add]. split; (split; [lia|]; split; intros j Hj).
  - assert (j = 0 \/ j = 1)%nat as [-> | ->] by lia; cbn [Nat.mul Nat.add]; rewrite ?A, ?B; lra.
  - lia.
  - assert (j = 0 \/ j = 1)%nat as [-> | ->] by lia; cbn [Nat.mul Nat.add]; rewrite ?A, ?B; lra.
  - assert (j = 0)%nat as -> by lia. cbn [Nat.mul Nat.add]. rewrite A, B. lra.
Qed.

Lemma duo_update : forall cs cs', nth 0 cs 0 = -1 -> nth 1 cs 0 = 1 -> averaged 2 1 cs duo_frames cs' -> nth 0 cs' 0 = -1 /\ nth 1 cs' 0 = 1.
Proof.
  intros cs cs' A B (L & labels & F & V). destruct (duo_nearest cs A B) as (N0 & N1). unfold duo_frames in *.
  inversion F as [|x l fs ls P0 F1]; subst. inversion F1 as [|x' l' fs' ls' P1 F2]; subst. inversion F2; subst.
  pose proof (nearest_unique _ _ _ _ _ _ P0 N0). pose proof (nearest_unique _ _ _ _ _ _ P1 N1). subst l l'.
  pose proof (V 0%nat 0%nat ltac:(lia) ltac:(lia)) as V0. pose proof (V 1%nat 0%nat ltac:(lia) ltac:(lia)) as V1. cbn in V0, V1. rewrite V0, V1. split; field.
Qed.

Lemma duo_loop : forall n thr cs, length cs = 2%nat -> nth 0 cs 0 = -1 -> nth 1 cs 0 = 1 ->
  exists cs', km_loop (A := RA) n 2 1 thr [duo_frames] cs = Ok cs' /\ nth 0 cs' 0 = -1 /\ nth 1 cs' 0 = 1.
Proof.
  induction n as [|n IH]; intros thr cs L A B; cbn [km_loop]; [exists cs; auto|].
  assert (Hf : Forall (Forall (fun x : list R => length x = 1%nat)) [duo_frames]) by (unfold duo_frames; repeat constructor).
  destruct (update_ok 2 1 cs [duo_frames] ltac:(lia) ltac:(exact L) Hf) as (c1 & E1 & A1). change (num RA) with R in *. rewrite E1. cbn [bind].
  destruct (stops_ok 2 1 thr cs c1 ltac:(exact L) (proj1 A1)) as (b & E2). change (num RA) with R in *. rewrite E2. cbn [bind].
  destruct (duo_update cs c1 A B A1) as (A' & B'). destruct b; [exists c1; auto|]. apply IH; [exact (proj1 A1)|exact A'|exact B'].
Qed.

Lemma duo_train : exists k, km_train (A := RA) 1 [duo_frames] [] (fun _ => n0 (A := RA)) (init_kmeans 2) = Ok k /\ nth 0 (km_centers k) 0 = -1 /\ nth 1 (km_centers k) 0 = 1.
Proof.
  unfold km_train, init_kmeans. cbn [km_dim km_new km_clusters km_first km_centers km_maxit km_thr].
  destruct (init_first_ok 2 1 duo_frames (vresize (2 * 1) (n0 (A := RA)) [])) as (cs & E & L & V); [unfold duo_frames; repeat constructor|apply vresize_length|].
  change (num RA) with R in *. rewrite E. cbn [bind].
  destruct (duo_loop 50 (nofQ (a := RA) (1 # 100000000000000000000)) cs L) as (cs' & E2 & A & B).
  - pose proof (V 0%nat 0%nat ltac:(lia) ltac:(lia)) as V0. cbn [Nat.mul Nat.add] in V0. rewrite V0. unfold segment_mean, duo_frames. cbn. field.
  - pose proof (V 1%nat 0%nat ltac:(lia) ltac:(lia)) as V0. cbn [Nat.mul Nat.add] in V0. rewrite V0. unfold segment_mean, duo_frames. cbn. field.
  - change (num RA) with R in *. rewrite E2. cbn [bind]. eexists. split; [reflexivity|]. cbn [km_centers]. auto.
Qed.
