(** Non-hierarchical mode: resets, windows of even length, Ergodic classes. *)
From Coq Require Import String List Bool Arith ZArith Reals Lra Lia.
From Verif Require Import Base Arith BaseFacts RFacts Model_Map Model_Ring Model_Phrase Model_Gaussian Model_Config Model_GMM Model_HMM Model_HHMM
  Proofs_Ring Proofs_Gaussian Proofs_KMeans Proofs_GMM Proofs_GMM3 Proofs_GMM4 Spec_Common Spec_Matrix Spec_Gaussian Spec_GMM Spec_HMM Spec_HHMM Spec_HHMM3 Proofs_HMM Proofs_HMM2 Proofs_HMM3 Proofs_HMM4 Proofs_HMM5
  Proofs_HHMM2 Proofs_HHMM4 Proofs_HHMM5 Proofs_HHMM6 Proofs_HHMM9.
Import ListNotations.
Local Open Scope list_scope.
Local Open Scope R_scope.

(** ** Reset *)

Lemma reset_flat : forall h, hmm_usable h -> hc_hier h = false -> ring_wf 1 (h_buf (hc_run h)) -> exists h', hm_reset (A := RA) h = Ok h' /\ reset_from h h' /\ h_alpha (hc_run h') = h_alpha (hc_run h).
Proof.
  intros h (U1 & U2 & U3 & U4 & U5 & U6) Hh HR. unfold hm_reset. rewrite Hh, n0_RA.
  assert (K : forall tr, trans_usable (hc_n h) (hc_mode h) tr -> (forall q, ((2 <= hc_n h)%nat -> q <> wrap_at h) -> nth q tr 0 = nth q (h_trans (hc_net h)) 0) -> ((2 <= hc_n h)%nat -> nth (wrap_at h) tr 0 = / 20) ->
    let h' := hc_set_run (rn_started false (rn_buf (A := RA) (ring_clear (ring_resize 0 (h_buf (hc_run h)) (hc_win h))) (hc_run h))) (hc_set_net (nt_trans (A := RA) tr (hc_net h)) h) in reset_from h h').
  { intros tr Ht T1 T2 h'. split.
    - repeat (split; [assumption|]). exact U6.
    - split; [exact Hh|]. split; [reflexivity|]. split; [|split].
      + apply ring_clear_wf. apply ring_resize_wf. exact HR.
      + exact (ring_resize_clear_length _ _ _).
      + do 7 (split; [reflexivity|]). split; [exact T1|exact T2]. }
  destruct (Nat.eq_dec (hc_n h) 1) as [E1|E1].
  - eexists. split; [rewrite E1, cyclic_one; reflexivity|]. split; [|reflexivity]. apply K; [exact U4|reflexivity|lia].
  - destruct (cyclic_usable (hc_n h) (hc_mode h) (h_trans (hc_net h)) ltac:(lia) U4) as (tr & E & T1 & T2 & T3). eexists. split; [eapply bind_eq; [exact E|reflexivity]|]. split; [|reflexivity].
    apply K; [exact T1|intros q Hq; apply T2; apply Hq; lia|intros _; exact T3].
Qed.

Lemma reset_from_trans : forall h h1 h2, reset_from h h1 -> reset_from (hc_set_hier false h1) h2 -> reset_from h h2.
Proof.
  intros h h1 h2 (_ & _ & _ & _ & _ & A1 & A2 & A3 & A4 & A5 & A6 & A7 & A8 & A9) (B1 & B2 & B3 & B4 & B5 & C1 & C2 & C3 & C4 & C5 & C6 & C7 & C8 & C9).
  unfold hc_n, hc_mode, wrap_at in *. cbn [hc_set_hier hc_bim hc_dim hc_din hc_win hc_par hc_net hc_run] in *.
  assert (EN : hc_n (hc_set_hier false h1) = hc_n h) by (unfold hc_n; cbn; congruence). assert (EM : hc_mode (hc_set_hier false h1) = hc_mode h) by (unfold hc_mode; cbn; congruence).
  unfold reset_from, wrap_at. rewrite EN, EM in C8, C9. unfold hc_n, hc_mode in *. rewrite A5 in C8, C9. 
  split; [exact B1|]. split; [exact B2|]. split; [exact B3|]. split; [exact B4|]. split; [congruence|]. do 7 (split; [congruence|]). split.
  - intros q Hq. rewrite C8 by exact Hq. apply A8. exact Hq.
  - exact C9.
Qed.

Lemma reset_twice : forall h, hmm_usable h -> ring_wf 1 (h_buf (hc_run h)) -> exists h1 h', hm_reset (A := RA) h = Ok h1 /\ hm_reset (A := RA) (hc_set_hier false h1) = Ok h' /\ reset_from h h' /\
  h_alpha (hc_run h') = if hc_hier h then [] else h_alpha (hc_run h).
Proof.
  intros h HU HR. pose proof HU as (U1 & U2 & U3 & U4 & U5 & U6). destruct (hc_hier h) eqn:Hh.
  - set (h1 := hc_set_run (rn_alpha (A := RA) [] (rn_alpha_h (A := RA) (vresize (hc_n h) 0 (h_a0 (hc_run h))) (vresize (hc_n h) 0 (h_a1 (hc_run h))) (vresize (hc_n h) 0 (h_a2 (hc_run h)))
      (rn_started false (rn_buf (A := RA) (ring_clear (ring_resize 0 (h_buf (hc_run h)) (hc_win h))) (hc_run h))))) h).
    assert (E1 : hm_reset (A := RA) h = Ok h1) by (unfold hm_reset; rewrite Hh, n0_RA; reflexivity).
    destruct (reset_flat (hc_set_hier false h1)) as (h' & E & RF & EA).
    { repeat (split; [assumption|]). exact U6. } { reflexivity. } { apply ring_clear_wf, ring_resize_wf. exact HR. }
    exists h1, h'. split; [exact E1|]. split; [exact E|]. split; [exact RF|]. rewrite EA. reflexivity.
  - destruct (reset_flat h HU Hh HR) as (h1 & E1 & RF1 & EA1). pose proof RF1 as (V & F1 & F2 & F3 & F4 & _). destruct (reset_flat (hc_set_hier false h1)) as (h' & E & RF & EA).
    { exact V. } { reflexivity. } { exact F3. }
    exists h1, h'. split; [exact E1|]. split; [exact E|]. split; [exact (reset_from_trans h h1 h' RF1 RF)|]. rewrite EA. exact EA1.
Qed.

Lemma hn_reset : forall m, hn_usable m -> Forall (fun e : string * hclass RA => ring_wf 1 (h_buf (hc_run (snd e)))) (hh_cls m) -> exists m', hh_reset (A := RA) m = Ok m' /\ hn_reset_spec m m'.
Proof.
  intros m HU HF. unfold hh_reset, reset_all. rewrite n0_RA. pose proof HU as (U1 & U2 & U3 & U4 & U5).
  assert (RT : forall c, (c < hh_size m)%nat -> exists h1 h', hm_reset (A := RA) (hcl m c) = Ok h1 /\ hm_reset (A := RA) (hc_set_hier false h1) = Ok h' /\ reset_from (hcl m c) h' /\ h_alpha (hc_run h') = if hc_hier (hcl m c) then [] else h_alpha (hc_run (hcl m c))).
  { intros c Hc. apply reset_twice; [exact (proj1 (hn_cls m HU c Hc))|]. rewrite Forall_forall in HF. apply (HF (nth c (hh_cls m) no_hclass)). apply nth_In. exact Hc. }
  destruct (mapM_at (fun c (y : string * hclass RA) => fst y = hlabel m c /\ exists h', hm_reset (A := RA) (hc_set_hier false (snd y)) = Ok h' /\ reset_from (hcl m c) h' /\ h_alpha (hc_run h') = if hc_hier (hcl m c) then [] else h_alpha (hc_run (hcl m c)))
    (fun e : string * hclass RA => let* h := hm_reset (snd e) in Ok (fst e, h)) (hh_cls m) no_hclass no_hclass) as (ms & E1 & L1 & V1).
  { intros c Hc. destruct (RT c Hc) as (h1 & h' & E & Q). eexists. split; [eapply bind_eq; [exact E|reflexivity]|]. split; [reflexivity|]. exists h'. exact Q. }
  destruct (mapM_at (fun c (y : string * hclass RA) => fst y = hlabel m c /\ reset_from (hcl m c) (snd y) /\ h_alpha (hc_run (snd y)) = if hc_hier (hcl m c) then [] else h_alpha (hc_run (hcl m c)))
    (fun e : string * hclass RA => let* h := hm_reset (hc_set_hier (hh_hier m) (snd e)) in Ok (fst e, h)) ms no_hclass no_hclass) as (ms2 & E2 & L2 & V2).
  { intros c Hc. rewrite L1 in Hc. destruct (V1 c Hc) as (F & h' & E & Q). eexists. split; [eapply bind_eq; [rewrite U4; exact E|reflexivity]|]. split; [exact F|exact Q]. }
  rewrite L1 in L2, V2. rewrite E1, bind_Ok.
  assert (EL : map fst ms2 = map fst (hh_cls m)).
  { apply (nth_ext_len _ _ EmptyString); [rewrite !map_length; exact L2|]. intros i Hi. rewrite map_length in Hi. change (num RA) with R in *. rewrite L2 in Hi. rewrite !(nth_map_in fst _ i _ no_hclass) by (first [exact Hi|rewrite L2; exact Hi]). exact (proj1 (V2 i Hi)). }
  assert (FIN : forall o v, let m' := hh_set_res (A := RA) (mkRes (A := RA) (vresize (hh_size m) 0 (rs_inst (hh_res m))) (vresize (hh_size m) 0 (rs_instn (hh_res m))) (vresize (hh_size m) 0 (rs_sm (hh_res m)))
      (vresize (hh_size m) 0 (rs_smn (hh_res m))) (vresize (hh_size m) 0 (rs_log (hh_res m))) (rs_likeliest (hh_res m)) o v) (hh_set_front (A := RA) (vresize (hh_size m) 0 (hh_v1 m)) (vresize (hh_size m) 0 (hh_v2 m)) false (hh_set_cls (A := RA) ms2 m)) in
    hn_reset_spec m m').
  { intros o v m'. assert (ES : hh_size m' = hh_size m) by exact L2. unfold hn_reset_spec. split; [exact EL|]. split; [|split; [|split; [reflexivity|split; [reflexivity|]]]].
    - unfold hn_usable. rewrite ES. split; [exact U1|]. split; [change (hh_cls m') with ms2; rewrite EL; exact U2|]. split; [|split; [exact U4|exact U5]].
      apply Forall_nth. intros c d Hc. rewrite (nth_indep _ d no_hclass Hc). cbn [hh_cls hh_set_res hh_set_front hh_set_cls] in Hc |- *. change (hh_cls m') with ms2 in Hc |- *. rewrite L2 in Hc.
      destruct (V2 c Hc) as (_ & (G1 & _ & _ & _ & _ & G2 & G3 & G4 & G5 & G6 & _) & _). destruct (hn_cls m HU c Hc) as (_ & C1 & C2 & C3 & C4 & C5).
      unfold hn_class. rewrite G2, G3, G4, G5, G6. split; [exact G1|]. repeat (split; [assumption|]). exact C5.
    - rewrite ES. unfold results_sized, m'. cbn [hh_res hh_set_res rs_inst rs_instn rs_sm rs_smn rs_log]. rewrite !vresize_length. auto.
    - intros c Hc. apply (V2 c Hc). }
  destruct (hh_bim m) eqn:B.
  - unfold usub. pose proof (U5 eq_refl) as HD. apply Nat.leb_le in HD. rewrite HD, !bind_Ok. eexists. split; [eapply bind_eq; [exact E2|reflexivity]|]. apply FIN.
  - rewrite !bind_Ok. eexists. split; [eapply bind_eq; [exact E2|reflexivity]|]. apply FIN.
Qed.

Lemma hn_reset_lr : forall m, hn_resettable m -> exists m', hh_reset (A := RA) m = Ok m' /\ hn_reset_spec m m' /\ hn_usable m' /\ hn_fresh m'.
Proof.
  intros m (HU & HF). destruct (hn_reset m HU) as (m' & E & SP).
  { eapply Forall_impl; [|exact HF]. intros e (_ & H). exact H. }
  exists m'. split; [exact E|]. split; [exact SP|]. pose proof SP as (EL & U' & RS & _ & _ & V). split; [exact U'|]. split; [exact RS|].
  assert (ES : hh_size m' = hh_size m) by (unfold hh_size; rewrite <- (map_length fst (hh_cls m')), EL, map_length; reflexivity).
  apply Forall_nth. intros c d Hc. rewrite (nth_indep _ d no_hclass Hc). fold (hh_size m') in Hc. rewrite ES in Hc. fold (hcl m' c). destruct (V c Hc) as ((_ & G1 & G2 & G3 & G4 & _ & _ & _ & G5 & G6 & _) & _).
  unfold hmm_fresh. split; [exact G1|]. split; [exact G2|]. split; [exact G3|]. split; [congruence|].
  rewrite Forall_forall in HF. destruct (HF (nth c (hh_cls m) no_hclass) ltac:(apply nth_In; exact Hc)) as (HM & _). fold (hcl m c) in HM. unfold hc_mode in *. rewrite G6, HM. discriminate.
Qed.

(** ** An Ergodic class *)
Lemma iterM_ub : forall S n f (s : S), f 0%nat s = UB -> iterM (Datatypes.S n) f s = UB.
Proof. intros S n f s H. induction n as [|n IH]; [exact H|]. change (iterM (Datatypes.S (Datatypes.S n)) f s) with (let* s := iterM (Datatypes.S n) f s in f (Datatypes.S n) s). rewrite IH. reflexivity. Qed.
Lemma mapM_ub : forall X Y (f : X -> res Y) l, (forall x, In x l -> (exists y, f x = Ok y) \/ f x = UB) -> (exists x, In x l /\ f x = UB) -> mapM f l = UB.
Proof.
  intros X Y f. induction l as [|x l IH]; intros H (z & Hz & E); [destruct Hz|]. cbn [mapM]. destruct (H x (or_introl eq_refl)) as [(y & Ey)|Ey]; rewrite Ey; [|reflexivity]. cbn [bind].
  rewrite IH; [reflexivity|intros w Hw; apply H; right; exact Hw|]. destruct Hz as [<-|Hz]; [congruence|]. exists z. auto.
Qed.

Lemma ergodic_ub : forall h x, hmm_usable h -> hc_mode h = Ergodic -> h_started (hc_run h) = false -> h_alpha (hc_run h) = [] -> length x = hmm_obs_dim h -> hm_filter (A := RA) x h = UB.
Proof.
  intros h x HU HM HS HA Lx. pose proof HU as (U1 & U2 & U3 & U4 & U5 & U6). unfold hm_filter, hm_forward. rewrite HS, HM, HA. unfold forward_init.
  destruct (hc_n h) as [|N] eqn:EN; [lia|]. rewrite iterM_ub; [reflexivity|]. destruct (U5 HM) as (LP & _). change (num RA) with R in *.
  rewrite (rd_nth (X := R) _ 0 0) by lia. rewrite bind_Ok. rewrite (obs_at h HU h x 0) by (first [apply hmm_same_refl; exact HU|lia|exact Lx]). rewrite bind_Ok. reflexivity.
Qed.

Lemma hn_ergodic_ub : forall m, hn_usable m -> Forall (fun e : string * hclass RA => hc_hier (snd e) = true /\ ring_wf 1 (h_buf (hc_run (snd e)))) (hh_cls m) -> Exists (fun e : string * hclass RA => hc_mode (snd e) = Ergodic) (hh_cls m) ->
  exists m', hh_reset (A := RA) m = Ok m' /\ forall x, length x = hh_obs_dim m -> hh_filter (A := RA) x m' = UB.
Proof.
  intros m HU HF HE. destruct (hn_reset m HU) as (m' & E & EL & U' & RS & OD & EW & V). { eapply Forall_impl; [|exact HF]. intros e (_ & H). exact H. }
  exists m'. split; [exact E|]. intros x Lx. assert (ES : hh_size m' = hh_size m) by (unfold hh_size; rewrite <- (map_length fst (hh_cls m')), EL, map_length; reflexivity).
  assert (HC : forall c, (c < hh_size m)%nat -> h_alpha (hc_run (hcl m' c)) = []).
  { intros c Hc. destruct (V c Hc) as (_ & EA). rewrite EA. rewrite Forall_forall in HF. destruct (HF (nth c (hh_cls m) no_hclass) ltac:(apply nth_In; exact Hc)) as (Hh & _). fold (hcl m c) in Hh. rewrite Hh. reflexivity. }
  assert (LX : forall c, (c < hh_size m)%nat -> length x = hmm_obs_dim (hcl m' c)).
  { intros c Hc. rewrite <- ES in Hc. destruct (hn_cls m' U' c Hc) as (_ & C1 & C2 & C3 & _). unfold hmm_obs_dim. rewrite C1, C2, C3. rewrite Lx, <- OD. reflexivity. }
  assert (ER : forall c, (c < hh_size m)%nat -> hc_mode (hcl m' c) = Ergodic -> hm_filter (A := RA) x (hcl m' c) = UB).
  { intros c Hc HM. destruct (V c Hc) as ((G0 & _ & G2 & _) & _). apply ergodic_ub; [exact G0|exact HM|exact G2|apply HC; exact Hc|apply LX; exact Hc]. }
  rewrite filter_tail. unfold hh_forward. destruct U' as (_ & _ & _ & Uh & _). rewrite Uh. rewrite mapM_ub; [reflexivity| |].
  - intros e He. apply (In_nth _ _ no_hclass) in He. destruct He as (c & Hc & <-). fold (hh_size m') in Hc. rewrite ES in Hc. fold (hcl m' c). destruct (hc_mode (hcl m' c)) eqn:HM.
    + right. rewrite ER by assumption. reflexivity.
    + left. destruct (V c Hc) as ((G0 & G1 & G2 & G3 & G4 & _ & _ & _ & G5 & _) & _). destruct (step_ok (hcl m' c) G0 [] [] (hcl m' c) x G1) as (h'' & E'' & _).
      { apply fresh_at; [exact G0|]. unfold hmm_fresh. rewrite HM. split; [exact G1|]. split; [exact G2|]. split; [exact G3|]. split; [congruence|discriminate]. } { apply LX; exact Hc. }
      eexists. rewrite E''. reflexivity.
  - apply Exists_exists in HE. destruct HE as (e & He & HM). apply (In_nth _ _ no_hclass) in He. destruct He as (c & Hc & EQ). exists (nth c (hh_cls m') no_hclass). split; [apply nth_In; fold (hh_size m'); rewrite ES; exact Hc|].
    fold (hcl m' c). rewrite ER; [reflexivity|exact Hc|]. destruct (V c Hc) as ((_ & _ & _ & _ & _ & _ & _ & _ & _ & G6 & _) & _). unfold hc_mode. rewrite G6. unfold hcl. rewrite EQ. exact HM.
Qed.

(** ** Windows *)
Lemma twice_length : forall X (l : list X), length (twice l) = (2 * length l)%nat.
Proof. induction l as [|x l IH]; [reflexivity|]. change (twice (x :: l)) with (x :: x :: twice l). cbn [length]. rewrite IH. lia. Qed.
Lemma twice_skip : forall X k (l : list X), skipn (2 * k) (twice l) = twice (skipn k l).
Proof.
  induction k as [|k IH]; intros l; [reflexivity|]. destruct l as [|x l]; [apply skipn_nil|]. replace (2 * S k)%nat with (S (S (2 * k))) by lia. change (twice (x :: l)) with (x :: x :: twice l). cbn [skipn]. apply IH.
Qed.
Lemma twice_sum : forall l, Rlsum (twice l) = 2 * Rlsum l.
Proof. induction l as [|x l IH]; [cbn; ring|]. change (twice (x :: l)) with (x :: x :: twice l). cbn [Rlsum fold_right] in *. unfold Rlsum in *. cbn [fold_right] in *. rewrite IH. ring. Qed.
(** A window of even length holds half as many observations. *)
Lemma twice_even : forall k l, l <> [] -> (1 <= k)%nat -> window_mean (2 * k) (twice l) = window_mean k l.
Proof.
  intros k l Hl Hk. unfold window_mean. assert (E : last_n (2 * k) (twice l) = twice (last_n k l)) by (unfold last_n; rewrite twice_length; replace (2 * length l - 2 * k)%nat with (2 * (length l - k))%nat by lia; apply twice_skip).
  rewrite E, twice_sum, twice_length, mult_INR. cbn [INR]. field. apply not_0_INR. rewrite last_n_length. destruct l; [contradiction|]. cbn [length]. lia.
Qed.
(** One of odd length holds the older half of one more. *)
Lemma twice_odd : forall k l x, length l = k -> forall p, window_mean (2 * k + 1) (twice (p ++ x :: l)) = (x + 2 * Rlsum l) / INR (2 * k + 1).
Proof.
  intros k l x Hl p. unfold window_mean. assert (E : last_n (2 * k + 1) (twice (p ++ x :: l)) = x :: twice l).
  { unfold last_n. rewrite twice_length, app_length. cbn [length]. rewrite Hl. replace (2 * (length p + S k) - (2 * k + 1))%nat with (S (2 * length p)) by lia. unfold twice at 1. rewrite flat_map_app. fold (twice p). fold (twice (x :: l)).
    replace (S (2 * length p)) with (2 * length p + 1)%nat by lia. rewrite <- (twice_length _ p). rewrite skipn_app. rewrite skipn_all2 by lia. replace (length (twice p) + 1 - length (twice p))%nat with 1%nat by lia. reflexivity. }
  rewrite E. cbn [length]. rewrite twice_length, Hl. replace (S (2 * k)) with (2 * k + 1)%nat by lia. f_equal. unfold Rlsum. cbn [fold_right]. fold (Rlsum (twice l)). fold (Rlsum l). rewrite twice_sum. ring.
Qed.
