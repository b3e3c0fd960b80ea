(** Histories with resets; normalisation; exit ratios. *)
From Coq Require Import String List Bool Arith ZArith Reals Lra Lia.
From Verif Require Import Base Arith BaseFacts RFacts Model_Map Model_Ring Model_Phrase Model_Gaussian Model_Config Model_GMM Model_HMM Model_HHMM
  Proofs_Ring Proofs_Gaussian Proofs_KMeans Proofs_GMM Proofs_GMM3 Proofs_GMM4 Spec_Common Spec_Matrix Spec_Gaussian Spec_GMM Spec_HMM Spec_HHMM Proofs_HMM Proofs_HMM2 Proofs_HMM3 Proofs_HMM4 Proofs_HMM5
  Proofs_HHMM Proofs_HHMM2 Proofs_HHMM3 Proofs_HHMM4 Proofs_HHMM5 Proofs_HHMM6.
Import ListNotations.
Local Open Scope list_scope.
Local Open Scope R_scope.

Lemma same_left : forall m m' u c, hh_same m m' -> (c < hh_size m)%nat -> left_over m' u c = left_over m u c.
Proof. intros m m' u c SA Hc. unfold left_over. destruct (same_cls m m' c SA Hc) as (_ & HS). destruct (same_n _ _ HS) as (_ & ->). reflexivity. Qed.
Lemma same_obs_dim : forall m m', hh_same m m' -> hh_obs_dim m' = hh_obs_dim m.
Proof. intros m m' (A1 & A2 & A3 & _). unfold hh_obs_dim. rewrite A1, A2, A3. reflexivity. Qed.
Lemma left_lr : forall m u c, hc_mode (hcl m c) = LeftRight -> left_over m u c = 0.
Proof. intros m u c H. unfold left_over. rewrite H. reflexivity. Qed.
Lemma left_of : forall m u u' c, u c = u' c -> left_over m u c = left_over m u' c.
Proof. intros m u u' c H. unfold left_over. destruct (hc_mode (hcl m c)); [exact H|reflexivity]. Qed.

(** A segment after a reset. *)
Lemma play_ok : forall m m0 xs, hh_resettable m -> hh_same m m0 -> hh_resettable m0 -> (forall c, (c < hh_size m)%nat -> 0 <= left_over m (hh_left m0) c) -> Forall (fun x => length x = hh_obs_dim m) xs ->
  exists m1 m2, hh_reset (A := RA) m0 = Ok m1 /\ hh_filters (A := RA) xs m1 = Ok m2 /\ hh_same m m1 /\ hh_fresh m1 /\ (forall c, (c < hh_size m)%nat -> hh_left m1 c = hh_left m0 c) /\
    hh_at m (hh_left m1) xs m2 /\ hh_resettable m2 /\ (forall c, (c < hh_size m)%nat -> 0 <= left_over m (hh_left m2) c).
Proof.
  intros m m0 xs (HU & HH & HF) S0 R0 HL D. destruct (hh_reset_ok m0 R0) as (m1 & E1 & S1 & F1 & Q1). pose proof (same_size m m0 S0) as Z0. pose proof (hh_same_trans _ _ _ S0 S1) as S01.
  assert (QL : forall c, (c < hh_size m)%nat -> hh_left m1 c = hh_left m0 c) by (intros c Hc; apply Q1; rewrite Z0; exact Hc).
  assert (HL1 : forall c, (c < hh_size m)%nat -> 0 <= left_over m (hh_left m1) c) by (intros c Hc; rewrite (left_of m _ (hh_left m0)) by (apply QL; exact Hc); apply HL; exact Hc).
  destruct (hh_fresh_hier m m1 S01 F1) as (_ & HC). exists m1. destruct xs as [|y ys].
  - exists m1. split; [exact E1|]. split; [reflexivity|]. split; [exact S01|]. split; [exact F1|]. split; [exact QL|]. pose proof (hh_fresh_at m m1 S01 F1) as AT. split; [exact AT|]. split; [|exact HL1]. exact (hh_at_resettable _ _ _ _ HU HH HC AT).
  - destruct (exists_last (l := y :: ys) ltac:(discriminate)) as (zs & z & EQ). rewrite EQ in *. destruct (hh_filters_report m m1 HU S01 F1 HL1 zs z D) as (m2 & E2 & AT & RP & _). exists m2.
    split; [exact E1|]. split; [exact E2|]. split; [exact S01|]. split; [exact F1|]. split; [exact QL|]. split; [exact AT|]. split; [exact (hh_at_resettable _ _ _ _ HU HH HC AT)|].
    intros c Hc. unfold left_over, hh_left. destruct (hc_mode (hcl m c)); [|lra]. destruct (RP c Hc) as (-> & _). left. apply inst_at_pos; [exact HU|exact HL1|destruct zs; discriminate|exact Hc].
Qed.

Lemma plays_snoc : forall segs xs m, hh_plays (segs ++ [xs]) m = let* m := hh_plays segs m in let* m := hh_reset (A := RA) m in hh_filters (A := RA) xs m.
Proof.
  unfold hh_plays. induction segs as [|s segs IH]; intros xs m; cbn [app foldM bind].
  - destruct (let* m0 := hh_reset (A := RA) m in hh_filters (A := RA) xs m0); reflexivity.
  - destruct (let* m0 := hh_reset (A := RA) m in hh_filters (A := RA) s m0) as [m1| |]; cbn [bind]; try reflexivity. apply IH.
Qed.

Lemma plays_ok : forall m, hh_resettable m -> (forall c, (c < hh_size m)%nat -> 0 <= left_over m (hh_left m) c) -> forall segs, Forall (Forall (fun x => length x = hh_obs_dim m)) segs ->
  exists m', hh_plays segs m = Ok m' /\ hh_same m m' /\ hh_resettable m' /\ (forall c, (c < hh_size m)%nat -> 0 <= left_over m (hh_left m') c).
Proof.
  intros m HR HL. induction segs as [|xs segs IH] using rev_ind; intros D.
  - exists m. split; [reflexivity|]. split; [apply hh_same_refl; apply HR|]. split; [exact HR|exact HL].
  - apply Forall_app in D. destruct D as (D & Dx). inversion Dx as [|? ? Lx _]; subst. destruct (IH D) as (m0 & E0 & S0 & R0 & L0). destruct (play_ok m m0 xs HR S0 R0 L0 Lx) as (m1 & m2 & E1 & E2 & _ & _ & _ & AT & R2 & L2).
    exists m2. split; [rewrite plays_snoc, E0, bind_Ok, E1, bind_Ok; exact E2|]. split; [apply AT|]. split; [exact R2|exact L2].
Qed.

(** The last segment does not depend on those before it. *)
Lemma plays_agree : forall m, hh_resettable m -> (forall c, (c < hh_size m)%nat -> hc_mode (hcl m c) = LeftRight) -> forall p1 p2 xs, Forall (Forall (fun x => length x = hh_obs_dim m)) p1 -> Forall (Forall (fun x => length x = hh_obs_dim m)) p2 ->
  xs <> [] -> Forall (fun x => length x = hh_obs_dim m) xs -> exists m1 m2, hh_plays (p1 ++ [xs]) m = Ok m1 /\ hh_plays (p2 ++ [xs]) m = Ok m2 /\ hh_agree (2 <= length xs)%nat m1 m2.
Proof.
  intros m HR LR p1 p2 xs D1 D2 Hx D. assert (Z : forall u c, (c < hh_size m)%nat -> left_over m u c = 0) by (intros u c Hc; apply left_lr, LR; exact Hc).
  assert (ZL : forall u c, (c < hh_size m)%nat -> 0 <= left_over m u c) by (intros u c Hc; rewrite Z by exact Hc; lra).
  destruct (plays_ok m HR (ZL _) p1 D1) as (a & Ea & Sa & Ra & _). destruct (plays_ok m HR (ZL _) p2 D2) as (b & Eb & Sb & Rb & _).
  destruct (play_ok m a [] HR Sa Ra (ZL _) (Forall_nil _)) as (a1 & _ & Ea1 & _ & Sa1 & Fa1 & _). destruct (play_ok m b [] HR Sb Rb (ZL _) (Forall_nil _)) as (b1 & _ & Eb1 & _ & Sb1 & Fb1 & _).
  destruct (agree_ok m a1 b1 (proj1 HR) Sa1 Sb1 Fa1 Fb1) with (xs := xs) as (n1 & n2 & E1 & E2 & AG); try assumption.
  { intros c Hc. rewrite !Z by exact Hc. split; [lra|reflexivity]. }
  exists n1, n2. rewrite !plays_snoc, Ea, Eb, !bind_Ok, Ea1, Eb1, !bind_Ok. split; [exact E1|]. split; [exact E2|exact AG].
Qed.

(** An Ergodic class: the same observation twice, with a reset in between. *)
Lemma ergodic_accumulates : forall m x c, hh_resettable m -> (forall c, (c < hh_size m)%nat -> 0 <= left_over m (hh_left m) c) -> length x = hh_obs_dim m -> (c < hh_size m)%nat -> hc_mode (hcl m c) = Ergodic ->
  exists m1 m2, hh_plays [[x]] m = Ok m1 /\ hh_plays [[x]; [x]] m = Ok m2 /\ h_inst (hc_run (hcl m1 c)) = hh_left m c + hh_lik m [x] * hh_class m [x] c /\ h_inst (hc_run (hcl m2 c)) = h_inst (hc_run (hcl m1 c)) + hh_lik m [x] * hh_class m [x] c /\
    h_inst (hc_run (hcl m1 c)) < h_inst (hc_run (hcl m2 c)).
Proof.
  intros m x c HR HL Lx Hc HE. assert (D : Forall (fun x => length x = hh_obs_dim m) ([] ++ [x])) by (constructor; [exact Lx|constructor]).
  destruct (play_ok m m [x] HR (hh_same_refl m (proj1 HR)) HR HL D) as (a & a1 & Ea & Ea1 & Sa & Fa & Qa & ATa & Ra & La).
  destruct (play_ok m a1 [x] HR (proj1 ATa) Ra La D) as (b & b1 & Eb & Eb1 & Sb & Fb & Qb & ATb & Rb & Lb).
  assert (HLa : forall c, (c < hh_size m)%nat -> 0 <= left_over m (hh_left a) c) by (intros d Hd; rewrite (left_of m _ (hh_left m)) by (apply Qa; exact Hd); apply HL; exact Hd).
  assert (HLb : forall c, (c < hh_size m)%nat -> 0 <= left_over m (hh_left b) c) by (intros d Hd; rewrite (left_of m _ (hh_left a1)) by (apply Qb; exact Hd); apply La; exact Hd).
  destruct (hh_filters_report m a (proj1 HR) Sa Fa HLa [] x D) as (a' & Ea' & _ & RPa & _). destruct (hh_filters_report m b (proj1 HR) Sb Fb HLb [] x D) as (b' & Eb' & _ & RPb & _). cbn [app] in *.
  change (num RA) with R in *. rewrite Ea1 in Ea'. injection Ea' as <-. rewrite Eb1 in Eb'. injection Eb' as <-.
  assert (I : forall u, hh_inst m u [x] c = u c + hh_lik m [x] * hh_class m [x] c) by (intro u; unfold hh_inst, left_over; cbn [removelast hh_scale]; rewrite HE; ring).
  destruct (RPa c Hc) as (Ia & _). destruct (RPb c Hc) as (Ib & _). rewrite I in Ia, Ib. rewrite Qa in Ia by exact Hc. rewrite Qb in Ib by exact Hc. unfold hh_left in Ib.
  exists a1, b1. split; [unfold hh_plays; cbn [foldM]; rewrite Ea, bind_Ok, Ea1; reflexivity|]. split; [unfold hh_plays; cbn [foldM]; rewrite Ea, bind_Ok, Ea1, bind_Ok, Eb, bind_Ok, Eb1; reflexivity|].
  split; [exact Ia|]. split; [exact Ib|]. rewrite Ib. pose proof (hh_lik_pos m (proj1 HR) [x] ltac:(discriminate)). pose proof (hh_class_pos m (proj1 HR) [x] c ltac:(discriminate) Hc).
  assert (0 < hh_lik m [x] * hh_class m [x] c) by (apply Rmult_lt_0_compat; assumption). lra.
Qed.

(** ** Normalisation *)
Lemma mass_ok : forall m u xs m', hh_usable m -> xs <> [] -> hh_at m u xs m' -> hh_mass m' = hh_scale m u xs.
Proof.
  intros m u xs m' HU Hx (SA & _ & _ & _ & CL & _). unfold hh_mass. rewrite (same_size m m' SA).
  rewrite (Rsum_ext _ _ (fun c => hh_scale m u xs * hh_class m xs c)).
  - rewrite Rsum_scal_l, (hh_total m HU xs Hx). apply Rmult_1_r.
  - intros c Hc. cbv zeta. destruct (same_cls m m' c SA Hc) as (_ & HS). destruct (same_n _ _ HS) as (-> & _). unfold hh_class. rewrite <- Rsum_scal_l. apply Rsum_ext. intros k Hk.
    specialize (CL c Hc). cbv zeta in CL. destruct xs; [contradiction|]. destruct CL as (_ & _ & _ & V & _). destruct (V k Hk) as (-> & -> & ->). ring.
Qed.
Lemma mass_parts : forall m u xs m', hh_usable m -> xs <> [] -> (forall c, (c < hh_size m)%nat -> 0 <= left_over m u c) -> hh_at m u xs m' -> forall c k, (c < hh_size m)%nat -> (k < hc_n (hcl m c))%nat ->
  0 <= nth k (h_a0 (hc_run (hcl m' c))) 0 /\ 0 <= nth k (h_a1 (hc_run (hcl m' c))) 0 /\ 0 <= nth k (h_a2 (hc_run (hcl m' c))) 0.
Proof.
  intros m u xs m' HU Hx HL (SA & _ & _ & _ & CL & _) c k Hc Hk. specialize (CL c Hc). cbv zeta in CL. pose proof (scale_pos m HU u xs HL) as P.
  pose proof (fun e He => hh_filtering_ge m HU xs c k e Hx Hc Hk He) as G. destruct xs; [contradiction|]. destruct CL as (_ & _ & _ & V & _). destruct (V k Hk) as (-> & -> & ->).
  split; [|split]; (apply Rmult_le_pos; [left; exact P|apply G; lia]).
Qed.
Lemma scale_le : forall m u xs, hh_usable m -> (forall c, (c < hh_size m)%nat -> 0 <= left_over m u c) -> 0 < hh_scale m u xs <= 1.
Proof.
  intros m u xs HU HL. split; [apply scale_pos; assumption|]. unfold hh_scale. destruct xs as [|x [|y xs]]; try lra. pose proof (hh_lik_pos m HU [x] ltac:(discriminate)) as P.
  assert (0 <= Rsum (hh_size m) (left_over m u)) by (apply Rsum_nonneg; exact HL). apply (Rmult_le_reg_r (hh_lik m [x] + Rsum (hh_size m) (left_over m u))); [lra|]. unfold Rdiv. rewrite Rmult_assoc, Rinv_l by lra. lra.
Qed.
Lemma exit_ratio_ok : forall m xs c, hh_usable m -> xs <> [] -> (c < hh_size m)%nat -> 0 <= Rsum (hc_n (hcl m c)) (fun k => hh_filtering m xs c k 1 + hh_filtering m xs c k 2) / hh_class m xs c <= 1.
Proof.
  intros m xs c HU Hx Hc. pose proof (hh_class_pos m HU xs c Hx Hc) as P. pose proof (fun k e Hk He => hh_filtering_ge m HU xs c k e Hx Hc Hk He) as G.
  assert (A : 0 <= Rsum (hc_n (hcl m c)) (fun k => hh_filtering m xs c k 1 + hh_filtering m xs c k 2)).
  { apply Rsum_nonneg. intros k Hk. pose proof (G k 1%nat Hk ltac:(lia)). pose proof (G k 2%nat Hk ltac:(lia)). lra. }
  assert (B : Rsum (hc_n (hcl m c)) (fun k => hh_filtering m xs c k 1 + hh_filtering m xs c k 2) <= hh_class m xs c).
  { unfold hh_class. apply Rsum_le. intros k Hk. pose proof (G k 0%nat Hk ltac:(lia)). lra. }
  split; [apply Rle_mult_inv_pos; assumption|]. apply (Rmult_le_reg_r (hh_class m xs c)); [exact P|]. unfold Rdiv. rewrite Rmult_assoc, Rinv_l by lra. lra.
Qed.
