(** The progress reported in hierarchical mode. *)
From Coq Require Import String List Bool Arith ZArith QArith Reals Lra Lia.
From Verif Require Import Base BaseFacts Arith RFacts Model_Ring Model_Gaussian Model_Config Model_KMeans Model_GMM Model_HMM Model_HHMM
  Spec_Common Spec_Matrix Spec_Gaussian Spec_GMM Spec_HMM Spec_HHMM Proofs_GMM Proofs_HMM4 Proofs_HMM5 Proofs_HMM13 Proofs_HHMM Proofs_HHMM4 Proofs_HHMM6 Proofs_HHMM7 Proofs_HHMM12.
Import ListNotations.
Local Open Scope list_scope.
Local Open Scope R_scope.

Lemma progress_range : forall N l (w e : nat -> R) r, (1 <= N)%nat -> (forall i, (i < N)%nat -> 0 <= w i /\ 0 <= e i <= r * w i) -> 0 <= r -> 0 < Rsum N w -> first_max N w l ->
  0 <= Rsum N (fun i => if in_window N l i then (w i + e i) * INR i else 0) / window_mass N l w / INR (Nat.max 1 (N - 1)) <= 1 + r.
Proof.
  intros N l w e r HN H Hr HS FM. assert (DP : 0 < INR (Nat.max 1 (N - 1))) by (apply lt_0_INR; lia).
  assert (HI : forall i, (i < N)%nat -> 0 <= INR i <= INR (Nat.max 1 (N - 1))) by (intros; split; [apply pos_INR|apply le_INR; lia]).
  destruct (Nat.eq_dec N 1) as [->|N2].
  - rewrite (Rsum_zero 1 (fun i => if in_window 1 l i then (w i + e i) * INR i else 0)); [unfold Rdiv; rewrite !Rmult_0_l; lra|]. intros i Hi. replace i with 0%nat by lia. destruct (in_window 1 l 0); cbn; lra.
  - assert (D : distribution N (fun i => w i / Rsum N w)).
    { split; [intros i Hi; apply div_ge; [apply H; exact Hi|exact HS]|]. unfold Rdiv. rewrite Rsum_scal_r. apply Rinv_r. lra. }
    assert (FM' : first_max N (fun i => w i / Rsum N w) l).
    { destruct FM as (F1 & F2 & F3). pose proof (Rinv_0_lt_compat _ HS). split; [exact F1|]. split; intros i Hi; [apply Rmult_le_compat_r; [lra|apply F2; exact Hi]|apply Rmult_lt_compat_r; [lra|apply F3; exact Hi]]. }
    pose proof (window_pos N l _ ltac:(lia) D FM') as WP'.
    assert (WP : 0 < window_mass N l w).
    { replace (window_mass N l w) with (window_mass N l (fun i => w i / Rsum N w) * Rsum N w); [apply Rmult_lt_0_compat; assumption|]. unfold window_mass. rewrite <- Rsum_scal_r. apply Rsum_ext. intros i Hi. destruct (in_window N l i); [field; lra|ring]. }
    assert (B : 0 <= Rsum N (fun i => if in_window N l i then (w i + e i) * INR i else 0) <= (1 + r) * (window_mass N l w * INR (Nat.max 1 (N - 1)))).
    { split.
      - apply Rsum_nonneg. intros i Hi. destruct (H i Hi). destruct (in_window N l i); [|lra]. apply Rmult_le_pos; [lra|apply pos_INR].
      - unfold window_mass. rewrite <- Rsum_scal_r, <- Rsum_scal_l. apply Rsum_le. intros i Hi. destruct (H i Hi) as (H1 & H2). destruct (HI i Hi) as (I1 & I2). destruct (in_window N l i); [|lra].
        apply Rle_trans with ((1 + r) * w i * INR i); [apply Rmult_le_compat_r; lra|]. rewrite <- Rmult_assoc. apply Rmult_le_compat_l; [apply Rmult_le_pos; lra|exact I2]. }
    pose proof (Rinv_0_lt_compat _ WP) as IW. pose proof (Rinv_0_lt_compat _ DP) as ID. unfold Rdiv. split.
    + apply Rmult_le_pos; [apply Rmult_le_pos; lra|lra].
    + apply Rle_trans with ((1 + r) * (window_mass N l w * INR (Nat.max 1 (N - 1))) * / window_mass N l w * / INR (Nat.max 1 (N - 1))); [|right; field; lra].
      apply Rmult_le_compat_r; [lra|]. apply Rmult_le_compat_r; lra.
Qed.

(** The part of level 2 of a state. *)
Lemma level_two : forall m xs c k X, hh_usable m -> xs <> [] -> (c < hh_size m)%nat -> (k < hc_n (hcl m c))%nat -> exit_at (hcl m c) k <= X -> nth c (hh_exit m) 0 * X < 1 ->
  hh_filtering m xs c k 2 <= (nth c (hh_exit m) 0 * X / (1 - nth c (hh_exit m) 0 * X)) * (hh_filtering m xs c k 0 + hh_filtering m xs c k 1).
Proof.
  intros m xs c k X HU Hne Hc Hk HX HQ. set (q := nth c (hh_exit m) 0) in *.
  pose proof (top_ok m HU) as (_ & _ & _ & _ & _ & HE). specialize (HE c Hc). fold q in HE.
  pose proof (exit_lt m HU c k Hc Hk) as HK.
  assert (P : forall e, (e < 3)%nat -> 0 <= hh_filtering m xs c k e) by (intros; apply hh_filtering_ge; assumption).
  pose proof (P 0%nat ltac:(lia)). pose proof (P 1%nat ltac:(lia)). pose proof (hh_lik_pos m HU xs Hne) as HL.
  assert (QX : 0 <= q * X) by (apply Rmult_le_pos; lra).
  destruct (exists_last Hne) as (ys & y & ->). destruct ys as [|z ys].
  - cbn [app] in *. pose proof (filt_first m HU y c k 2 Hc Hk ltac:(lia)) as F. cbn [Nat.eqb] in F. rewrite Rmult_0_l in F. apply Rmult_integral in F. destruct F as [F|F]; [lra|]. rewrite F. apply Rmult_le_pos; [apply div_ge; lra|lra].
  - assert (FN : forall e, (e < 3)%nat -> hh_lik m ((z :: ys) ++ [y]) * hh_filtering m ((z :: ys) ++ [y]) c k e = front m (hh_filtering m (z :: ys)) c k * split_at m c k e * mix_lik (state_at (hcl m c) k) y).
    { intros e He. rewrite (filt_next m HU (z :: ys) y 1 (hh_filtering m (z :: ys)) ltac:(discriminate)) with (d := c) (k := k) (f := e); try assumption; [ring|]. intros; ring. }
    pose proof (FN 0%nat ltac:(lia)) as F0. pose proof (FN 1%nat ltac:(lia)) as F1. pose proof (FN 2%nat ltac:(lia)) as F2. unfold split_at in F0, F1, F2. cbv zeta in *. fold q in F0, F1, F2.
    set (L := hh_lik m ((z :: ys) ++ [y])) in *. set (f0 := hh_filtering m ((z :: ys) ++ [y]) c k 0) in *. set (f1 := hh_filtering m ((z :: ys) ++ [y]) c k 1) in *. set (f2 := hh_filtering m ((z :: ys) ++ [y]) c k 2) in *.
    set (x := exit_at (hcl m c) k) in *. set (A := front m (hh_filtering m (z :: ys)) c k) in *. set (b := mix_lik (state_at (hcl m c) k) y) in *.
    assert (T : L * (f0 + f1 + f2) = A * b) by (rewrite !Rmult_plus_distr_l, F0, F1, F2; ring).
    assert (E2 : f2 = q * x * (f0 + f1 + f2)). { apply Rmult_eq_reg_l with L; [|lra]. rewrite F2. replace (L * (q * x * (f0 + f1 + f2))) with (q * x * (L * (f0 + f1 + f2))) by ring. rewrite T. ring. }
    assert (HP : 0 <= f2) by (apply P; lia). assert (QL : q * x <= q * X) by (apply Rmult_le_compat_l; lra).
    assert (E3 : f2 <= q * X * (f0 + f1 + f2)) by (rewrite E2 at 1; apply Rmult_le_compat_r; lra).
    apply Rmult_le_reg_r with (1 - q * X); [lra|]. replace (q * X / (1 - q * X) * (f0 + f1) * (1 - q * X)) with (q * X * (f0 + f1)) by (field; lra). lra.
Qed.

Lemma progress_ok : forall m m' xs x, hh_usable m -> hh_same m m' -> hh_fresh m' -> (forall c, (c < hh_size m)%nat -> 0 <= left_over m (hh_left m') c) ->
  Forall (fun x => length x = hh_obs_dim m) (xs ++ [x]) -> exists m'', hh_filters (A := RA) (xs ++ [x]) m' = Ok m'' /\ forall c, (c < hh_size m)%nat ->
    let r := hc_run (hcl m'' c) in
    first_max (hc_n (hcl m c)) (fun i => nth i (h_a0 r) 0 + nth i (h_a1 r) 0) (h_like r) /\
    forall X, (forall k, (k < hc_n (hcl m c))%nat -> exit_at (hcl m c) k <= X) -> nth c (hh_exit m) 0 * X < 1 -> 0 <= h_prog r <= 1 / (1 - nth c (hh_exit m) 0 * X).
Proof.
  intros m m' xs x HU HS HF HL HX. destruct (hh_filters_report m m' HU HS HF HL xs x HX) as (m'' & E & AT & CR & _ & _). exists m''. split; [exact E|]. intros c Hc. cbv zeta.
  assert (Hne : xs ++ [x] <> []) by (destruct xs; discriminate).
  destruct AT as (_ & _ & _ & _ & AT & _). specialize (AT c Hc). cbv zeta in AT. destruct (CR c Hc) as (_ & _ & FM & PR & _).
  assert (V : forall k, (k < hc_n (hcl m c))%nat -> hh_weight m (hh_left m') (xs ++ [x]) c k = nth k (h_a0 (hc_run (hcl m'' c))) 0 + nth k (h_a1 (hc_run (hcl m'' c))) 0).
  { intros k Hk. destruct (xs ++ [x]) as [|z zs]; [contradiction|]. destruct AT as (_ & _ & _ & AT & _). destruct (AT k Hk) as (A0 & A1 & _). unfold hh_weight. rewrite Rmult_plus_distr_l. symmetry. f_equal; assumption. }
  split; [revert FM; apply (first_max_ext (hcl m c)); exact V|]. intros X HXX HQ. pose proof (scale_pos m HU (hh_left m') (xs ++ [x]) HL) as SP.
  pose proof (top_ok m HU) as (_ & _ & _ & _ & _ & HE). specialize (HE c Hc). pose proof (Nc_pos m HU c Hc) as NP. pose proof (exit_lt m HU c 0 Hc ltac:(lia)) as E0. pose proof (HXX 0%nat ltac:(lia)).
  set (q := nth c (hh_exit m) 0) in *. assert (QX : 0 <= q * X) by (apply Rmult_le_pos; lra).
  assert (P : forall e k, (e < 3)%nat -> (k < hc_n (hcl m c))%nat -> 0 <= hh_filtering m (xs ++ [x]) c k e) by (intros; apply hh_filtering_ge; assumption).
  rewrite PR. replace (1 / (1 - q * X)) with (1 + q * X / (1 - q * X)) by (field; lra).
  apply (progress_range (hc_n (hcl m c)) _ (hh_weight m (hh_left m') (xs ++ [x]) c) (fun i => hh_scale m (hh_left m') (xs ++ [x]) * hh_filtering m (xs ++ [x]) c i 2) (q * X / (1 - q * X))); try assumption.
  - intros i Hi. pose proof (P 0%nat i ltac:(lia) Hi). pose proof (P 1%nat i ltac:(lia) Hi). pose proof (P 2%nat i ltac:(lia) Hi). unfold hh_weight. split; [apply Rmult_le_pos; lra|]. split; [apply Rmult_le_pos; lra|].
    replace (q * X / (1 - q * X) * (hh_scale m (hh_left m') (xs ++ [x]) * (hh_filtering m (xs ++ [x]) c i 0 + hh_filtering m (xs ++ [x]) c i 1))) with
      (hh_scale m (hh_left m') (xs ++ [x]) * (q * X / (1 - q * X) * (hh_filtering m (xs ++ [x]) c i 0 + hh_filtering m (xs ++ [x]) c i 1))) by ring.
    apply Rmult_le_compat_l; [lra|]. apply level_two; try assumption. apply HXX, Hi.
  - apply div_ge; lra.
  - destruct (hh_filtering_some m HU (xs ++ [x]) c Hne Hc) as (k & Hk & HKP). apply Rsum_pos_one with k; [|exact Hk|].
    + intros i Hi. pose proof (P 0%nat i ltac:(lia) Hi). pose proof (P 1%nat i ltac:(lia) Hi). unfold hh_weight. apply Rmult_le_pos; lra.
    + unfold hh_weight. apply Rmult_lt_0_compat; [exact SP|]. pose proof (P 1%nat k ltac:(lia) Hk). lra.
Qed.
