(** Baum-Welch updates of a class with one state: the likelihood falls. *)
From Coq Require Import String List Bool Arith Lia Reals Lra.
From Verif Require Import Base BaseFacts Arith RFacts Model_Gaussian Model_Config Model_KMeans Model_GMM Model_HMM Spec_Common Spec_Matrix Spec_Det Spec_Gaussian Spec_GMM Spec_HMM Spec_HMMInit Spec_EM Spec_EM2
  Proofs_DetFacts Proofs_Gaussian Proofs_GMM Proofs_GMM2 Proofs_GMM3 Proofs_GMM4 Proofs_HMM Proofs_HMM2 Proofs_HMM3 Proofs_HMM4 Proofs_HMM5 Proofs_HMM6 Proofs_HMM7 Proofs_HMM8 Proofs_HMM9 Proofs_HMM10 Proofs_HMM11 Proofs_HMM12 Proofs_HMM14
  Proofs_PD Proofs_EM Proofs_EM2 Proofs_EM4 Proofs_EM5 Proofs_EM6.
Import ListNotations.
Local Open Scope list_scope.
Local Open Scope R_scope.

Lemma comp_lik_same : forall (k k' : gauss RA) n, g_dim k = n -> g_dim k' = n -> is_inverse n (gcov k) (ginv k) -> is_inverse n (gcov k') (ginv k') ->
  (forall d, (d < n)%nat -> gmean k' d = gmean k d) -> (forall i j, (i < n)%nat -> (j < n)%nat -> gcov k' i j = gcov k i j) -> forall x, comp_lik k' x = comp_lik k x.
Proof.
  intros k k' n D D' I I' M C x. unfold comp_lik, normal_pdf. rewrite D, D'. f_equal. rewrite (Rdet_ext' n _ _ C). f_equal. f_equal. f_equal.
  rewrite (qform_ext_vec n _ (fun i => nth i x 0 - gmean k' i) (fun i => nth i x 0 - gmean k i)) by (intros d Hd; rewrite (M d Hd); reflexivity). apply qform_ext.
  apply (is_inverse_unique n (gcov k)); [|exact I]. apply (is_inverse_ext n _ _ _ _ I'); [exact C|reflexivity].
Qed.

Lemma fiter_one : forall a bs (v : nat -> R), fiter 1 a v bs 0%nat = v 0%nat * fold_right Rmult 1 (map (fun b : nat -> R => a 0%nat 0%nat * b 0%nat) bs).
Proof.
  intros a bs. induction bs as [|b bs IH]; intro v; cbn [fiter fold_left map fold_right]; [ring|]. unfold fiter in *. cbn [fold_left]. rewrite IH. unfold fstep. cbn [Rsum]. ring.
Qed.

Lemma seq_one : forall pi a b bs, seq_lik 1 pi a (b :: bs) = pi 0%nat * b 0%nat * fold_right Rmult 1 (map (fun b : nat -> R => a 0%nat 0%nat * b 0%nat) bs).
Proof. intros. rewrite seq_iter. cbn [Rsum]. rewrite fiter_one. ring. Qed.

Lemma ln_prod : forall {X} (f : X -> R) l, (forall x, In x l -> 0 < f x) -> 0 < fold_right Rmult 1 (map f l) /\ ln (fold_right Rmult 1 (map f l)) = Rlsum (map (fun x => ln (f x)) l).
Proof.
  intros X f l. induction l as [|x l IH]; intro H; cbn [map fold_right].
  - split; [lra|]. rewrite ln_1. reflexivity.
  - destruct IH as (P & E); [intros y Hy; apply H; right; exact Hy|]. specialize (H x (or_introl eq_refl)). split; [apply Rmult_lt_0_compat; assumption|]. rewrite ln_mult by assumption. rewrite E. reflexivity.
Qed.

Section One.
  Variables (h : hclass RA) (data : list (list (list R))).
  Hypothesis HR : hmm_ready h.
  Hypothesis HD : phrases_of h data.
  Hypothesis N1 : hc_n h = 1%nat.
  Hypothesis P1 : hc_prior h 0 = 1.
  Hypothesis A1 : 0 < hc_trans h 0 0.
  Local Notation b := (frame_lik (state_at h 0)).

  Lemma lik_gt : forall x, 0 < b x.
  Proof. intro x. pose proof (liks_gt h HR [x]) as F. unfold frame_liks in F. cbn [map] in F. inversion F; subst. apply (H1 0%nat). rewrite N1. lia. Qed.

  Lemma one_ll : phrases_ll h data = Rlsum (map (fun x => ln (b x)) (concat data)) + Rlsum (map (fun ph : list (list R) => INR (length ph - 1)) data) * ln (hc_trans h 0 0).
  Proof.
    unfold phrases_ll. rewrite N1. transitivity (Rlsum (map (fun ph => Rlsum (map (fun x => ln (b x)) ph) + ln (hc_trans h 0 0) * INR (length ph - 1)) data)).
    - apply Rlsum_map_ext. intros ph Hp. destruct HD as (_ & HF). rewrite Forall_forall in HF. destruct (HF ph Hp) as (NE & _). destruct ph as [|x ph]; [contradiction|]. unfold frame_liks. cbn [map]. rewrite seq_one, P1, map_map.
      assert (PP : forall y, In y ph -> 0 < hc_trans h 0 0 * b y) by (intros; apply Rmult_lt_0_compat; [exact A1|apply lik_gt]). destruct (ln_prod (fun y => hc_trans h 0 0 * b y) ph PP) as (Q1 & Q2).
      rewrite Rmult_1_l, ln_mult by (assumption || apply lik_gt). rewrite Q2. unfold Rlsum at 2. cbn [fold_right length map]. fold (Rlsum (map (fun x => ln (b x)) ph)).
      rewrite (Rlsum_map_ext _ (fun y => ln (hc_trans h 0 0) + ln (b y))) by (intros; apply ln_mult; [exact A1|apply lik_gt]). rewrite Rlsum_map_plus, Rlsum_map_const. replace (S (length ph) - 1)%nat with (length ph) by lia. ring.
    - rewrite Rlsum_map_plus, Rlsum_map_scal. rewrite <- (flat_map_concat_map) || idtac. f_equal; [|ring].
      clear. induction data as [|p l IH]; [reflexivity|]. cbn [map concat]. rewrite map_app, Rlsum_app, <- IH. reflexivity.
  Qed.

  Lemma occ_one : forall ph t, In ph data -> (t < length ph)%nat -> occupancy h ph t 0 = 1.
  Proof. intros ph t Hp Ht. pose proof (phrases_pos h data HR HD ph Hp) as (_ & _ & Z). pose proof (occ_sum h ph Z t Ht) as S. rewrite N1 in S. cbn [Rsum] in S. lra. Qed.

  Lemma sum_len : forall f : list (list R) -> R, (forall ph, In ph data -> f ph = INR (length ph)) -> Rlsum (map f data) = INR (length (concat data)).
  Proof.
    intros f. clear. induction data as [|p l IH]; intro H; [reflexivity|]. cbn [map concat]. rewrite app_length, plus_INR. unfold Rlsum in *. cbn [fold_right]. rewrite IH by (intros q Hq; apply H; right; exact Hq). rewrite (H p (or_introl eq_refl)). ring.
  Qed.

  Lemma visits_one : visits h data 0 = INR (length (concat data)).
  Proof. unfold visits. apply sum_len. intros ph Hp. rewrite (Rsum_ext _ _ (fun _ => 1)) by (intros t Ht; apply occ_one; assumption). rewrite Rsum_const. ring. Qed.

  Lemma moves_one : moves h data 0 0 = Rlsum (map (fun ph : list (list R) => INR (length ph - 1)) data).
  Proof.
    unfold moves. apply Rlsum_map_ext. intros ph Hp. pose proof (phrases_pos h data HR HD ph Hp) as (_ & _ & Z). rewrite (Rsum_ext _ _ (fun _ => 1)); [rewrite Rsum_const; ring|].
    intros t Ht. pose proof (occ2_sum h ph t 0%nat ltac:(lia)) as S. rewrite N1 in S. cbn [Rsum] in S. rewrite occ_one in S by (assumption || lia). lra.
  Qed.

  Lemma moves_visits : Rlsum (map (fun ph : list (list R) => INR (length ph - 1)) data) + INR (length data) = INR (length (concat data)).
  Proof.
    rewrite <- (sum_len (fun ph => INR (length ph))) by reflexivity. replace (INR (length data)) with (Rlsum (map (fun _ : list (list R) => 1) data)) by (rewrite Rlsum_map_const; ring). rewrite <- Rlsum_map_plus. apply Rlsum_map_ext.
    intros ph Hp. destruct HD as (_ & HF). rewrite Forall_forall in HF. destruct (HF ph Hp) as (NE & _). destruct ph as [|x ph]; [contradiction|]. cbn [length]. rewrite S_INR. replace (S (length ph) - 1)%nat with (length ph) by lia. ring.
  Qed.

  (** The only transition becomes smaller than 1. *)
  Lemma trans_one : 0 < new_trans h data 0 0 < 1 \/ (new_trans h data 0 0 = 0 /\ Rlsum (map (fun ph : list (list R) => INR (length ph - 1)) data) = 0).
  Proof.
    pose proof moves_visits as MV. pose proof (data_len h data HD) as DL. pose proof reg5_pos as RP. assert (R5 : reg5 <= / 10). { unfold reg5. apply Rinv_le_contravar; [lra|]. assert (1 <= 10 ^ 4) by (apply pow_R1_Rle; lra). cbn [pow] in *. lra. }
    assert (DL1 : 1 <= INR (length data)). { change 1 with (INR 1). apply le_INR. destruct data; [destruct HD as (X & _); contradiction X; reflexivity|cbn; lia]. }
    set (m := Rlsum (map (fun ph : list (list R) => INR (length ph - 1)) data)) in *.
    assert (M0 : 0 <= m) by (apply Rlsum_nonneg; intros y Hy; apply in_map_iff in Hy; destruct Hy as (ph & <- & _); apply pos_INR).
    assert (V : visits h data 0 = m + INR (length data)) by (rewrite visits_one; lra).
    assert (DP : 0 < visits h data 0 + 2 * reg5) by lra.
    unfold new_trans. rewrite N1. cbn [Nat.eqb Nat.sub Nat.ltb Nat.leb]. rewrite moves_one. fold m. rewrite V in *. destruct (hc_mode h).
    - destruct (Req_dec m 0) as [E|E]; [right; rewrite E; split; [unfold Rdiv; ring|reflexivity]|left]. split; [apply Rdiv_lt_0_compat; lra|]. apply (Rmult_lt_reg_r (m + INR (length data) + 2 * reg5)); [lra|]. unfold Rdiv. rewrite Rmult_assoc, Rinv_l by lra. lra.
    - left. assert (0 < INR (length data) * (2 * reg5)) by (apply Rmult_lt_0_compat; lra). split; [apply Rdiv_lt_0_compat; lra|]. apply (Rmult_lt_reg_r (m + INR (length data) + 2 * reg5)); [lra|]. unfold Rdiv. rewrite Rmult_assoc, Rinv_l by lra.
      assert (INR (length data) * (2 * reg5) <= INR (length data) * / 5) by (apply Rmult_le_compat_l; lra). lra.
  Qed.

  Hypothesis G1 : gc_n (state_at h 0) = 1%nat.
  Hypothesis W1 : weight (state_at h 0) 0 = 1.

  Lemma mix_one : forall ph t, In ph data -> (t < length ph)%nat -> occupancy_mix h ph t 0 0 = 1.
  Proof.
    intros ph t Hp Ht. unfold occupancy_mix. rewrite occ_one by assumption. unfold frame_lik. rewrite G1. cbn [Rsum]. rewrite W1. pose proof (comp_lik_pos (comp_at (state_at h 0) 0) (nth t ph [])). field. lra.
  Qed.
  Lemma one_wsum : forall G : list R -> R, Rlsum (map (fun p => fst p 0%nat * G (snd p)) (weighted_frames h data 0)) = Rlsum (map G (concat data)).
  Proof.
    intro G. rewrite weighted_sum. transitivity (Rlsum (map (fun ph => Rlsum (map G ph)) data)).
    - apply Rlsum_map_ext. intros ph Hp. rewrite (Rlsum_nth [] G ph). apply Rsum_ext. intros t Ht. cbn [fst snd]. rewrite mix_one by assumption. ring.
    - clear. induction data as [|p l IH]; [reflexivity|]. cbn [map concat]. rewrite map_app, Rlsum_app, <- IH. reflexivity.
  Qed.
  Lemma one_mass : m_mass (weighted_frames h data 0) 0 = INR (length (concat data)).
  Proof. unfold m_mass. transitivity (Rlsum (map (fun p : (nat -> R) * list R => fst p 0%nat * 1) (weighted_frames h data 0))); [apply Rlsum_map_ext; intros; ring|]. rewrite (one_wsum (fun _ => 1)), Rlsum_map_const. ring. Qed.
  Lemma frames_len : 0 < INR (length (concat data)).
  Proof. pose proof moves_visits. pose proof (data_len h data HD). assert (0 <= Rlsum (map (fun ph : list (list R) => INR (length ph - 1)) data)) by (apply Rlsum_nonneg; intros y Hy; apply in_map_iff in Hy; destruct Hy as (ph & <- & _); apply pos_INR). lra. Qed.
  Lemma one_mean : forall d, m_mean (weighted_frames h data 0) 0 d = avg (fun x => nth d x 0) (concat data).
  Proof. intro d. pose proof frames_len. unfold m_mean, ratio. rewrite one_mass. destruct Req_EM_T; [lra|]. rewrite (one_wsum (fun x => nth d x 0)). reflexivity. Qed.
  Lemma one_cov : forall d1 d2, m_cov (weighted_frames h data 0) 0 d1 d2 = plain_cov (concat data) d1 d2.
  Proof.
    intros d1 d2. pose proof frames_len. unfold m_cov, ratio. rewrite one_mass. destruct Req_EM_T; [lra|]. unfold plain_cov, avg at 1. f_equal. rewrite <- one_wsum. apply Rlsum_map_ext. intros p _. rewrite !one_mean. ring.
  Qed.
End One.

Lemma pieces_one : forall h data, phrases_of h data -> concat (pieces 1 0 data) = concat data.
Proof.
  intros h data (_ & F). induction data as [|p l IH]; [reflexivity|]. inversion F as [|p' l' (NE & _) F']; subst. unfold pieces in *. destruct p as [|x p]; [contradiction|]. match goal with |- context [filter ?f (?a :: ?b)] => change (filter f (a :: b)) with (a :: filter f b) end. cbn [map concat]. rewrite (IH F'). f_equal.
  unfold piece. rewrite Nat.div_1_r. cbn [Nat.mul Nat.add]. clear. generalize (x :: p) as q. intro q. induction q as [|y q IH]; [reflexivity|]. cbn [length seq map nth]. f_equal. rewrite <- seq_shift, map_map. exact IH.
Qed.

(** The first update of a class with one state and one Gaussian keeps the Gaussian and lowers the only transition. *)
Lemma one_down : forall iters devs dev data h, hmm_trainable h devs dev data -> hc_n h = 1%nat -> hp_gauss (hc_par h) = 1%nat -> (1 <= iters 0%nat)%nat -> devs 0%nat = dev ->
  Exists (fun ph : list (list R) => (2 <= length ph)%nat) data -> INR (length (concat data)) <= 10 ^ 90 ->
  exists h1 h2 h3 h4 lp lp' q, hm_allocate (A := RA) h = Ok h1 /\ hm_init (A := RA) iters devs dev data h1 = Ok h2 /\ hm_update (A := RA) data h2 = Ok (h3, lp) /\ hm_update (A := RA) data h3 = Ok (h4, lp') /\
    0 < q < 1 /\ hc_trans h3 0 0 = q /\ lp' = lp + Rlsum (map (fun ph : list (list R) => INR (length ph - 1)) data) * ln q /\ lp' < lp.
Proof.
  intros iters devs dev data h HT N1 G1 HI DE EX HB. destruct (init_values iters devs dev data h HT) as (h1 & h2 & E1 & E2 & R2 & K & T & P & V). pose proof K as (K1 & K2 & K3 & K4 & K5 & K6).
  assert (EN : hc_n h2 = 1%nat) by (unfold hc_n in *; rewrite K5; exact N1). assert (EM : hc_mode h2 = hc_mode h) by (unfold hc_mode; rewrite K5; reflexivity).
  assert (HD : phrases_of h2 data) by (unfold phrases_of; rewrite K2; apply HT).
  specialize (V 0%nat ltac:(lia)). pose proof (usable_state h2 (proj1 R2) 0%nat ltac:(lia)) as U2.
  assert (U : state_usable h (state_at h2 0)) by (unfold state_usable in *; rewrite K1, K2, K3, K5 in U2; exact U2).
  destruct (state_one iters devs dev data h 0 (state_at h2 0) HT G1 ltac:(lia) HI U V) as (MN & CV). pose proof V as (f & _ & W & _ & RG). rewrite G1 in W. specialize (W 0%nat ltac:(lia)). cbn [INR] in W. rewrite Rinv_1 in W.
  rewrite N1, (pieces_one h2 data HD) in MN, CV. destruct U as (GR & _ & UD & _ & UN & UM & _). rewrite G1 in UN.
  assert (T1 : hc_trans h2 0 0 = 1). { rewrite T by lia. unfold first_trans. rewrite N1. destruct (hc_mode h); cbn; [apply Rinv_1|reflexivity]. }
  assert (P1 : hc_prior h2 0 = 1). { rewrite P by lia. unfold first_prior. rewrite N1. destruct (hc_mode h); cbn; [apply Rinv_1|reflexivity]. }
  assert (A2 : 0 < hc_trans h2 0 0) by lra.
  destruct (update_ok h2 data R2 HD) as (h3 & E3 & RE & HE & TN). pose proof (after_n h2 h3 data RE) as N3. rewrite EN in N3. pose proof (after_state h2 h3 data RE 0%nat ltac:(lia)) as (GR3 & SM).
  set (m := Rlsum (map (fun ph : list (list R) => INR (length ph - 1)) data)).
  assert (M1 : 1 <= m).
  { unfold m. clear -EX. induction EX as [p l H|p l H IH]; unfold Rlsum in *; cbn [map fold_right].
    - assert (1 <= INR (length p - 1)) by (change 1 with (INR 1); apply le_INR; lia).
      assert (0 <= fold_right Rplus 0 (map (fun ph : list (list R) => INR (length ph - 1)) l)) by (apply (Rlsum_nonneg (map (fun ph : list (list R) => INR (length ph - 1)) l)); intros y Hy; apply in_map_iff in Hy; destruct Hy as (ph & <- & _); apply pos_INR). lra.
    - pose proof (pos_INR (length p - 1)). lra. }
  set (q := new_trans h2 data 0 0). assert (Q : 0 < q < 1). { destruct (trans_one h2 data R2 HD EN) as [X|(_ & X)]; [exact X|]. fold m in X. lra. }
  assert (T3 : hc_trans h3 0 0 = q) by (apply (after_trans h2 h3 data RE); lia).
  assert (ROW : forall i, (i < hc_n h2)%nat -> min_row <= Rsum (hc_n h2) (new_trans h2 data i)).
  { intros i Hi. rewrite EN in *. assert (i = 0)%nat as -> by lia. cbn [Rsum]. rewrite Rplus_0_l.
    pose proof (new_trans_ge h2 data R2 HD 0%nat 0%nat ltac:(lia) ltac:(lia)) as G. rewrite (moves_one h2 data R2 HD EN), (visits_one h2 data R2 HD EN) in G. fold m in G. specialize (G ltac:(lra)). refine (Rle_trans _ _ _ _ G).
    pose proof reg5_pos. assert (R5 : 2 * reg5 <= 1). { unfold reg5. assert (/ 10 ^ 5 <= / 10 ^ 1) by (apply Rinv_le_contravar; [apply pow_lt; lra|apply Rle_pow; [lra|lia]]). rewrite pow_1 in *. lra. }
    pose proof (frames_len h2 data HD EN) as FL. change (num RA) with R in *. unfold min_row. apply (Rmult_le_reg_r (INR (length (concat data)) + 2 * reg5)); [lra|]. unfold Rdiv. rewrite Rmult_assoc, Rinv_l by lra. rewrite Rmult_1_r.
    apply Rle_trans with 1; [|exact M1]. apply Rle_trans with (/ 10 ^ 100 * 10 ^ 100); [|right; apply Rinv_l, pow_nonzero; lra]. apply Rmult_le_compat_l; [left; apply Rinv_0_lt_compat, pow_lt; lra|].
    apply Rle_trans with (10 ^ 90 + 1); [lra|]. replace (10 ^ 100) with (10 ^ 90 * 10 ^ 10) by (rewrite <- pow_add; reflexivity). assert (1 <= 10 ^ 90) by (apply pow_R1_Rle; lra). assert (2 <= 10 ^ 10) by (apply Rle_trans with (10 ^ 1); [lra|apply Rle_pow; [lra|lia]]). nra. }
  pose proof (update_ready h2 data h3 R2 RE HE TN ROW) as R3. pose proof RE as (KK & _). pose proof KK as (Q1 & Q2 & Q3 & Q4 & Q5 & _). assert (HD3 : phrases_of h3 data) by (unfold phrases_of; rewrite Q2; exact HD).
  destruct (update_ok h3 data R3 HD3) as (h4 & E4 & _).
  assert (P3 : hc_prior h3 0 = 1).
  { unfold hc_prior, prior_at. destruct (hc_mode h3) eqn:M3; [|reflexivity]. destruct (HE ltac:(unfold hc_mode in *; rewrite <- Q5; exact M3)) as (_ & _ & D2). rewrite EN in D2. cbn [Rsum] in D2. rewrite Rplus_0_l in D2. exact D2. }
  destruct SM as (SC & SW & SMean & SCov). rewrite UN in *. rewrite UD, UM in *. destruct SC as (C1 & C2 & C3 & C4 & C5 & C6).
  pose proof (one_mass h2 data R2 HD EN UN W) as OM. pose proof (frames_len h2 data HD EN) as FL.
  assert (N3g : gc_n (state_at h3 0) = 1%nat) by (unfold gc_n in *; rewrite C5; exact UN).
  assert (W3 : weight (state_at h3 0) 0 = 1). { rewrite SW by (lia || (cbn [Rsum]; rewrite OM; lra)). cbn [Rsum]. rewrite OM. field. lra. }
  assert (LS : forall x, frame_lik (state_at h3 0) x = frame_lik (state_at h2 0) x).
  { intro x. unfold frame_lik. rewrite UN, N3g. cbn [Rsum]. rewrite W, W3. f_equal. f_equal.
    destruct (Proofs_EM2.comp_inv _ GR 0%nat ltac:(lia)) as (I2 & _ & D2). destruct (Proofs_EM2.comp_inv _ GR3 0%nat ltac:(lia)) as (I3 & _ & D3). rewrite C2 in I3, D3. rewrite UD in *.
    apply (comp_lik_same _ _ (hc_dim h)); try assumption.
    - intros d Hd. rewrite SMean by (lia || assumption). rewrite MN by exact Hd. apply (one_mean h2 data R2 HD EN UN W).
    - intros i j Hi Hj. rewrite SCov by (lia || assumption). rewrite CV by assumption. unfold m_newcov, regular_cov. rewrite !(one_cov h2 data R2 HD EN UN W). rewrite DE. destruct (Nat.eqb_spec i j) as [<-|]; [|reflexivity]. f_equal. apply RG, Hi. }
  assert (LL : phrases_ll h3 data = phrases_ll h2 data + m * ln q).
  { rewrite (one_ll h2 data R2 HD EN P1 A2), (one_ll h3 data R3 HD3 N3 P3 ltac:(rewrite T3; lra)). fold m. rewrite T1, T3, ln_1. rewrite (Rlsum_map_ext _ _ (concat data) (fun x _ => f_equal ln (LS x))). ring. }
  assert (LQ : ln q < 0) by (rewrite <- ln_1; apply ln_increasing; lra).
  exists h1, h2, h3, h4, (phrases_ll h2 data), (phrases_ll h3 data), q. split; [exact E1|]. split; [exact E2|]. split; [exact E3|]. split; [exact E4|]. split; [exact Q|]. split; [exact T3|]. split; [exact LL|]. rewrite LL. nra.
Qed.
