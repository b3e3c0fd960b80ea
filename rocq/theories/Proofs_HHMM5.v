(** One observation: what each class and the model report. *)
From Coq Require Import String List Bool Arith ZArith Reals Lra Lia.
From Verif Require Import Base Arith BaseFacts RFacts Model_Map Model_Ring Model_Phrase Model_Gaussian Model_Config Model_GMM Model_HMM Model_HHMM
  Proofs_Gaussian Proofs_KMeans Proofs_GMM Proofs_GMM4 Spec_Common Spec_Matrix Spec_Gaussian Spec_GMM Spec_HMM Spec_HHMM Proofs_HMM Proofs_HMM2 Proofs_HMM3 Proofs_HMM4 Proofs_HMM5
  Proofs_HHMM Proofs_HHMM2 Proofs_HHMM3 Proofs_HHMM4.
Import ListNotations.
Local Open Scope list_scope.
Local Open Scope R_scope.

(** ** A class *)
Section ClassPost.
  Variable h : hclass RA.
  Hypothesis HU : hmm_usable h.
  Local Notation N := (hc_n h).

  Lemma post_ok : forall h1 w c2 L vs, hmm_same h h1 -> (forall i, (i < N)%nat -> hm_weight h1 i = Ok (w i)) -> (hc_hier h = true -> forall i, (i < N)%nat -> rd (h_a2 (hc_run h1)) i = Ok (c2 i)) ->
    (1 <= L)%nat -> window_of L vs (h_buf (hc_run h1)) ->
    exists l buf, first_max N w l /\ window_of L (vs ++ [ln (h_inst (hc_run h1))]) buf /\
      hm_post (A := RA) h1 = Ok (hc_set_run (rn_log (A := RA) (window_mean L (vs ++ [ln (h_inst (hc_run h1))]))
        (Rsum N (fun i => if in_window N l i then (if hc_hier h then w i + c2 i else w i) * INR i else 0) / window_mass N l w / INR (Nat.max 1 (N - 1)))
        (rn_buf (A := RA) buf (rn_window (A := RA) l (l - N / 2) (Nat.min (l + N / 2) N) (window_mass N l w) (hc_run h1)))) h1).
  Proof.
    intros h1 w c2 L vs HS Hw Hc HL HW. destruct (same_n h h1 HS) as (EN & _). pose proof HU as (U1 & _). pose proof HS as (_ & _ & _ & _ & _ & F6 & _).
    destruct (window_ok h1 w) as (l & FM & E2); [rewrite EN; exact U1|rewrite EN; exact Hw|]. rewrite EN in FM. rewrite EN in E2.
    set (h2 := hc_set_run (rn_window (A := RA) l (l - N / 2) (Nat.min (l + N / 2) N) (window_mass N l w) (hc_run h1)) h1) in *.
    assert (Hl : (l < N)%nat) by apply FM. assert (EN2 : hc_n h2 = N) by exact EN.
    destruct (results_ok h2 w c2 l L vs) as (buf' & E3 & W3).
    { rewrite EN2; exact Hl. } { exact HL. } { rewrite EN2. exact Hw. } { change (hc_hier h2) with (hc_hier h1). rewrite EN2, F6. exact Hc. }
    { rewrite EN2. reflexivity. } { rewrite EN2. reflexivity. } { exact HW. }
    change (h_inst (hc_run h2)) with (h_inst (hc_run h1)) in *. change (hc_hier h2) with (hc_hier h1) in E3. rewrite F6, EN2 in E3. change (h_wnorm (hc_run h2)) with (window_mass N l w) in E3.
    exists l, buf'. split; [exact FM|]. split; [exact W3|]. unfold hm_post. rewrite E2, bind_Ok. exact E3.
  Qed.

  Lemma regr_ok : forall h3 w l x, hmm_same h h3 -> (forall i, (i < N)%nat -> hm_weight h3 i = Ok (w i)) -> (forall i, (i < N)%nat -> 0 <= w i) -> hc_bim h = true -> length x = hc_din h -> (l < N)%nat ->
    h_like (hc_run h3) = l -> h_wmin (hc_run h3) = (l - N / 2)%nat -> h_wmax (hc_run h3) = Nat.min (l + N / 2) N -> h_wnorm (hc_run h3) = window_mass N l w ->
    exists ss o v, hm_regression (A := RA) x h3 = Ok (hc_set_run (rn_out (A := RA) o v (hc_run h3)) (hc_set_net (nt_states (A := RA) ss (hc_net h3)) h3)) /\
      hmm_same h (hc_set_run (rn_out (A := RA) o v (hc_run h3)) (hc_set_net (nt_states (A := RA) ss (hc_net h3)) h3)) /\
      length o = (hc_dim h - hc_din h)%nat /\ length v = csize (hp_mode (hc_par h)) (hc_dim h - hc_din h) /\
      forall d, (d < hc_dim h - hc_din h)%nat -> nth d o 0 = hmm_output h w l x d.
  Proof.
    intros h3 w l x HS Hw Hp HB Lx Hl E0 E1 E2 E3. destruct (same_n h h3 HS) as (EN & _). pose proof HU as (U1 & U2 & U3 & U4 & U5 & U6). pose proof HS as (F1 & F2 & F3 & F4 & F5 & F6 & F7 & F8 & F9 & F10).
    destruct (hregression_ok h3 w l x) as (ss & o & v & E4 & K & LO & LV & VO).
    { rewrite EN. exact Hl. } { rewrite EN. exact Hw. } { rewrite EN. exact Hp. } { rewrite EN. exact (same_len h HU h3 HS). }
    { apply Forall_nth. intros i d Hi. rewrite (nth_indep _ d no_state Hi). change (nth i (h_states (hc_net h3)) no_state) with (state_at h3 i).
      rewrite (same_len h HU h3 HS) in Hi. destruct (same_state h HU h3 HS i Hi) as (_ & Q). unfold state_usable in *. rewrite F1, F2, F3, F5. exact Q. }
    { congruence. }
    { rewrite F2, F3. destruct (usable_state h HU 0%nat ltac:(lia)) as ((Hs & _) & B1 & B2 & B3 & _).
      pose proof Hs as (G1 & _). destruct (comp_fits _ Hs 0%nat ltac:(lia)) as ((_ & _ & _ & W4) & FB & FD & FI & _). rewrite FB, B1, HB in W4. destruct (W4 eq_refl). lia. }
    { rewrite F3. exact Lx. }
    { exact E0. } { rewrite EN. exact E1. } { rewrite EN. exact E2. } { rewrite EN. exact E3. }
    exists ss, o, v. split; [exact E4|]. rewrite F2, F3 in *. rewrite F5 in *. split; [|split; [exact LO|split; [exact LV|]]].
    - unfold hmm_same. do 9 (split; [assumption|]). cbn [hc_net hc_set_run hc_set_net nt_states h_states]. apply (Forall2_nth _ _ _ no_state no_state).
      + apply Forall2_len in K. rewrite (same_len h HU h3 HS) in K. change (num RA) with R in *. rewrite U2. exact K.
      + intros i Hi. change (num RA) with R in *. rewrite U2 in Hi. destruct (same_state h HU h3 HS i Hi) as (Q & _). apply (kept_trans _ (state_at h3 i)); [exact Q|].
        apply (Forall2_at _ _ _ K i no_state no_state). pose proof (same_len h HU h3 HS). change (num RA) with R in *. lia.
    - intros d Hd. rewrite VO by exact Hd. unfold hmm_output. rewrite F5, EN.
      assert (CO : forall i, (i < N)%nat -> class_out (state_at h3 i) x d = class_out (state_at h i) x d).
      { intros i Hi. destruct (same_state h HU h3 HS i Hi) as (Q & _). exact (proj2 (kept_same _ _ x Q) d). }
      destruct (hp_est (hc_par h)); [apply Rsum_ext; intros i Hi; rewrite CO by exact Hi; reflexivity|apply Rsum_ext; intros i Hi; rewrite CO by exact Hi; reflexivity|apply CO; exact Hl].
  Qed.
End ClassPost.

Lemma hh_logs_snoc : forall m u xs x c, hh_logs m u (xs ++ [x]) c = hh_logs m u xs c ++ [ln (hh_inst m u (xs ++ [x]) c)].
Proof.
  intros m u xs x c. unfold hh_logs. rewrite app_length. cbn [length]. rewrite Nat.add_1_r, seq_S, map_app. cbn [map Nat.add]. f_equal.
  - apply map_ext_in. intros t Ht. apply in_seq in Ht. rewrite firstn_app. replace (S t - length xs)%nat with 0%nat by lia. cbn [firstn]. rewrite app_nil_r. reflexivity.
  - rewrite firstn_all2 by (rewrite app_length; cbn; lia). reflexivity.
Qed.

Lemma Rmult_eq_compat : forall a b c d : R, a = b -> c = d -> a * c = b * d.
Proof. intros; subst; reflexivity. Qed.

Section Step.
  Variable m : hhmm RA.
  Hypothesis HU : hh_usable m.
  Hypothesis HH : hh_hier m = true.
  Hypothesis HC : forall c, (c < hh_size m)%nat -> hc_hier (hcl m c) = true.
  Local Notation n := (hh_size m).
  Local Notation Nc c := (hc_n (hcl m c)).

  Lemma hh_weight_ge : forall u xs c k, (forall c, (c < n)%nat -> 0 <= left_over m u c) -> xs <> [] -> (c < n)%nat -> (k < Nc c)%nat -> 0 <= hh_weight m u xs c k.
  Proof.
    intros u xs c k H Hx Hc Hk. unfold hh_weight. apply Rmult_le_pos; [left; apply scale_pos; assumption|].
    pose proof (hh_filtering_ge m HU xs c k 0 Hx Hc Hk ltac:(lia)). pose proof (hh_filtering_ge m HU xs c k 1 Hx Hc Hk ltac:(lia)). lra.
  Qed.

  Lemma filter_ok : forall u xs m' x, (forall c, (c < n)%nat -> 0 <= left_over m u c) -> hh_at m u xs m' -> length x = hh_obs_dim m ->
    exists m2, hh_filter (A := RA) x m' = Ok m2 /\ hh_at m u (xs ++ [x]) m2 /\
      (forall c, (c < n)%nat -> hh_class_report m u (xs ++ [x]) x c (hcl m2 c)) /\
      (xs = [] -> forall c, (c < n)%nat -> h_exlik (hc_run (hcl m2 c)) = h_exlik (hc_run (hcl m' c)) /\ h_exratio (hc_run (hcl m2 c)) = h_exratio (hc_run (hcl m' c))) /\
      hh_top_report m (hh_inst m u (xs ++ [x])) (fun c => window_mean (hh_win m) (hh_logs m u (xs ++ [x]) c))
        (fun c d => hmm_output (hcl m c) (hh_weight m u (xs ++ [x]) c) (h_like (hc_run (hcl m2 c))) x d) (hh_res m2).
  Proof.
    intros u xs m' x HL AT Lx. destruct (forward_ok m HU u xs m' x HH HL AT Lx) as (m1 & E1 & SM & RE & LV1 & LV2 & ST & CL).
    destruct AT as (SM' & RS & _ & _ & CL' & _). change (list (num RA)) with (list R) in *. set (xs' := xs ++ [x]) in *. assert (Hx' : xs' <> []) by (unfold xs'; destruct xs; discriminate).
    pose proof (same_size m m1 SM) as ES. pose proof (fun c Hc => same_cls m m1 c SM Hc) as SC. pose proof HU as (Hn & ND & _ & _ & HD).
    pose proof SM as (M1 & M2 & M3 & M4 & M5 & M6 & M7 & M8 & M9 & M10 & _).
    set (w c := hh_weight m u xs' c). set (LG c := window_mean (hh_win m) (hh_logs m u xs' c)).
    assert (WB : forall c, (c < n)%nat -> window_of (hh_win m) (hh_logs m u xs c) (h_buf (hc_run (hcl m' c)))).
    { intros c Hc. specialize (CL' c Hc). cbv zeta in CL'. destruct xs as [|x0 xs]; [exact (proj1 CL')|apply CL']. }
    assert (HW : forall c, (c < n)%nat -> (1 <= hh_win m)%nat).
    { intros c Hc. destruct (cls_in m HU c Hc) as ((_ & _ & _ & _ & _ & U6) & _ & _ & _ & EW & _). rewrite <- EW. exact U6. }
    (* what a class is after [hm_post] *)
    set (posted c h2 := hmm_same (hcl m c) h2 /\ h_a0 (hc_run h2) = h_a0 (hc_run (hcl m1 c)) /\ h_a1 (hc_run h2) = h_a1 (hc_run (hcl m1 c)) /\ h_a2 (hc_run h2) = h_a2 (hc_run (hcl m1 c)) /\
      h_inst (hc_run h2) = hh_inst m u xs' c /\ h_log (hc_run h2) = LG c /\ window_of (hh_win m) (hh_logs m u xs' c) (h_buf (hc_run h2)) /\ first_max (Nc c) (w c) (h_like (hc_run h2)) /\
      h_prog (hc_run h2) = Rsum (Nc c) (fun i => if in_window (Nc c) (h_like (hc_run h2)) i then (w c i + hh_scale m u xs' * hh_filtering m xs' c i 2) * INR i else 0) / window_mass (Nc c) (h_like (hc_run h2)) (w c) / INR (Nat.max 1 (Nc c - 1)) /\
      h_exlik (hc_run h2) = h_exlik (hc_run (hcl m1 c)) /\ h_exratio (hc_run h2) = h_exratio (hc_run (hcl m1 c))).
    set (windowed c (h2 : hclass RA) := h_wmin (hc_run h2) = (h_like (hc_run h2) - Nc c / 2)%nat /\ h_wmax (hc_run h2) = Nat.min (h_like (hc_run h2) + Nc c / 2) (Nc c) /\ h_wnorm (hc_run h2) = window_mass (Nc c) (h_like (hc_run h2)) (w c)).
    assert (WT : forall c h2, (c < n)%nat -> hc_hier h2 = true -> h_a0 (hc_run h2) = h_a0 (hc_run (hcl m1 c)) -> h_a1 (hc_run h2) = h_a1 (hc_run (hcl m1 c)) -> forall i, (i < Nc c)%nat -> hm_weight h2 i = Ok (w c i)).
    { intros c h2 Hc Hh A0 A1 i Hi. unfold hm_weight. rewrite Hh, A0, A1. destruct (CL c Hc) as (L0 & L1 & _ & V & _). cbv zeta in *.
      eapply bind_eq; [apply (rd_nth _ _ 0); rl|]. eapply bind_eq; [apply (rd_nth _ _ 0); rl|]. cbv beta. destruct (V i Hi) as (V0 & V1 & _). apply (f_equal (@Ok R)). unfold w, hh_weight. fold xs' in V0, V1. change (num RA) with R in *. rewrite V0, V1. symmetry. apply Rmult_plus_distr_l. }
    destruct (mapM_at (fun c (y : string * hclass RA) => fst y = hlabel m c /\ posted c (snd y) /\ windowed c (snd y)) (fun e : string * hclass RA => let* h := hm_post (snd e) in Ok (fst e, h)) (hh_cls m1) no_hclass no_hclass) as (ms & EM & LM & PM).
    { intros c Hc. change (length (hh_cls m1)) with (hh_size m1) in Hc. rewrite ES in Hc. destruct (SC c Hc) as (FL & HS). pose proof HS as (_ & _ & _ & _ & _ & F6 & _). destruct (CL c Hc) as (L0 & L1 & L2 & V & EI & EB & _). cbv zeta in *.
      change (snd (nth c (hh_cls m1) no_hclass)) with (hcl m1 c). change (fst (nth c (hh_cls m1) no_hclass)) with (hlabel m1 c).
      destruct (post_ok (hcl m c) (cls_use m HU c Hc) (hcl m1 c) (w c) (fun i => hh_scale m u xs' * hh_filtering m xs' c i 2) (hh_win m) (hh_logs m u xs c) HS) as (l & buf & FM & WB' & E).
      - apply WT; [exact Hc|rewrite F6; apply HC; exact Hc|reflexivity|reflexivity].
      - intros _ i Hi. etransitivity; [apply (rd_nth _ _ 0); rl|]. apply (f_equal (@Ok R)). fold xs' in V. change (num RA) with R in *. apply (V i Hi).
      - exact (HW c Hc).
      - rewrite EB. exact (WB c Hc).
      - rewrite (HC c Hc) in E. rewrite EI in E, WB'. eexists. split; [eapply bind_eq; [exact E|reflexivity]|]. cbn [fst snd]. split; [exact FL|]. split; [|split; [reflexivity|split; reflexivity]].
        assert (EL : hh_logs m u xs' c = hh_logs m u xs c ++ [ln (hh_inst m u xs' c)]) by (unfold xs'; apply hh_logs_snoc).
        unfold posted. cbn [hc_run hc_set_run h_a0 h_a1 h_a2 h_inst h_log h_buf h_like h_prog h_exlik h_exratio rn_log rn_buf rn_window]. split; [exact HS|]. do 3 (split; [reflexivity|]). split; [exact EI|].
        split; [unfold LG; rewrite EL; reflexivity|]. split; [rewrite EL; exact WB'|]. split; [exact FM|]. split; [reflexivity|]. split; reflexivity. }
    change (length (hh_cls m1)) with (hh_size m1) in LM, PM. rewrite ES in LM, PM.
    set (insts := map (fun e : string * hclass RA => h_inst (hc_run (snd e))) ms). set (logs := map (fun e : string * hclass RA => h_log (hc_run (snd e))) ms).
    assert (VI : insts = tab n (hh_inst m u xs')).
    { apply (nth_ext_len _ _ 0); [unfold insts; rewrite map_length, tab_length; exact LM|]. intros i Hi. unfold insts in Hi. rewrite map_length in Hi. rewrite nth_tab by (change (num RA) with R in *; rewrite <- LM; exact Hi).
      etransitivity; [apply (nth_map_in _ ms i 0 no_hclass Hi)|]. cbv beta. destruct (PM i) as (_ & (_ & _ & _ & _ & Q & _) & _); [change (num RA) with R in *; rewrite <- LM; exact Hi|exact Q]. }
    assert (VL : logs = tab n LG).
    { apply (nth_ext_len _ _ 0); [unfold logs; rewrite map_length, tab_length; exact LM|]. intros i Hi. unfold logs in Hi. rewrite map_length in Hi. rewrite nth_tab by (change (num RA) with R in *; rewrite <- LM; exact Hi).
      etransitivity; [apply (nth_map_in _ ms i 0 no_hclass Hi)|]. cbv beta. destruct (PM i) as (_ & (_ & _ & _ & _ & _ & Q & _) & _); [change (num RA) with R in *; rewrite <- LM; exact Hi|exact Q]. }
    destruct (update_results_ok (map fst ms) insts logs (hh_res m1) n) as (b & FM & ER).
    { rewrite map_length. exact LM. } { exact Hn. } { rewrite VI; apply tab_length. } { rewrite VL; apply tab_length. } { rewrite RE. exact RS. }
    apply (first_max_ext (hcl m 0) n _ LG) in FM; [|intros i Hi; rewrite VL; apply nth_tab; exact Hi]. pose proof (proj1 FM) as Hb.
    assert (LB : nth b (map fst ms) EmptyString = hlabel m b) by (etransitivity; [apply (nth_map_in fst ms b _ no_hclass); rewrite LM; exact Hb|]; exact (proj1 (PM b Hb))).
    rewrite LB in ER.
    assert (ER' : update_results (A := RA) (map fst ms) insts logs (hh_res m1) = Ok (mkRes (A := RA) (tab n (hh_inst m u xs')) (tab n (fun c => hh_inst m u xs' c / Rsum n (hh_inst m u xs'))) (tab n (fun c => exp (LG c)))
      (tab n (fun c => exp (LG c) / Rsum n (fun d => exp (LG d)))) (tab n LG) (hlabel m b) (rs_out (hh_res m1)) (rs_ocov (hh_res m1)))).
    { rewrite ER, VI, VL. apply (f_equal (@Ok (results RA))). f_equal; apply tab_ext; intros i Hi.
      - rewrite nth_tab by exact Hi. f_equal. apply Rsum_ext. intros j Hj. apply nth_tab. exact Hj.
      - rewrite nth_tab by exact Hi. reflexivity.
      - rewrite nth_tab by exact Hi. f_equal. apply Rsum_ext. intros j Hj. rewrite nth_tab by exact Hj. reflexivity. }
    clear ER. set (r := mkRes (A := RA) (tab n (hh_inst m u xs')) (tab n (fun c => hh_inst m u xs' c / Rsum n (hh_inst m u xs'))) (tab n (fun c => exp (LG c)))
      (tab n (fun c => exp (LG c) / Rsum n (fun d => exp (LG d)))) (tab n LG) (hlabel m b) (rs_out (hh_res m1)) (rs_ocov (hh_res m1))) in *.
    assert (RSZ : forall o v, results_sized n (mkRes (A := RA) (rs_inst r) (rs_instn r) (rs_sm r) (rs_smn r) (rs_log r) (rs_likeliest r) o v)).
    { intros o v. unfold results_sized, r. cbn [rs_inst rs_instn rs_sm rs_smn rs_log]. rewrite !tab_length. auto. }
    assert (FIN : forall ms2 o v, length ms2 = n -> (forall c, (c < n)%nat -> fst (nth c ms2 no_hclass) = hlabel m c /\ posted c (snd (nth c ms2 no_hclass))) ->
      hh_at m u xs' (hh_set_res (A := RA) (mkRes (A := RA) (rs_inst r) (rs_instn r) (rs_sm r) (rs_smn r) (rs_log r) (rs_likeliest r) o v) (hh_set_cls (A := RA) ms2 m1))).
    { intros ms2 o v L2 P2. split; [|split; [apply RSZ|split; [exact LV1|split; [exact LV2|split]]]].
      - apply (same_of m _ m1); try reflexivity; [exact SM|exact L2|]. intros c Hc. destruct (P2 c Hc) as (A & B & _). split; [exact A|exact B].
      - intros c Hc. cbv zeta. destruct (P2 c Hc) as (_ & HS & A0 & A1 & A2 & AI & AL & AB & _). destruct (CL c Hc) as (L0 & L1 & L2' & V & _). cbv zeta in *.
        change (hcl (hh_set_res (A := RA) (mkRes (A := RA) (rs_inst r) (rs_instn r) (rs_sm r) (rs_smn r) (rs_log r) (rs_likeliest r) o v) (hh_set_cls (A := RA) ms2 m1)) c) with (snd (nth c ms2 no_hclass)).
        rewrite A0, A1, A2. fold xs' in V. destruct xs'; [contradiction|]. repeat (split; [assumption|]). exact AB.
      - cbn [hh_started hh_set_res hh_set_cls]. rewrite ST. destruct xs'; [contradiction|reflexivity]. }
    assert (REP : forall c h2, (c < n)%nat -> posted c h2 -> (hh_bim m = true -> length (h_out (hc_run h2)) = (hh_dim m - hh_din m)%nat /\
        forall d, (d < hh_dim m - hh_din m)%nat -> nth d (h_out (hc_run h2)) 0 = hmm_output (hcl m c) (w c) (h_like (hc_run h2)) x d) -> hh_class_report m u xs' x c h2).
    { intros c h2 Hc (HS & A0 & A1 & A2 & AI & AL & AB & AF & AP & AE & AR) HO. unfold hh_class_report. split; [exact AI|]. split; [exact AL|]. split; [exact AF|]. split; [exact AP|]. split; [|exact HO].
      intros L2. destruct (CL c Hc) as (_ & _ & _ & _ & _ & _ & X & _). cbv zeta in X. destruct X as (X1 & X2). { intros ->. cbn in L2. lia. } rewrite AE, AR, X1, X2. assert (RL : removelast xs' = xs) by (unfold xs'; apply removelast_last). rewrite RL. split; reflexivity. }
    assert (STALE : forall c h2, (c < n)%nat -> posted c h2 -> xs = [] -> h_exlik (hc_run h2) = h_exlik (hc_run (hcl m' c)) /\ h_exratio (hc_run h2) = h_exratio (hc_run (hcl m' c))).
    { intros c h2 Hc (_ & _ & _ & _ & _ & _ & _ & _ & _ & AE & AR) Ex. destruct (CL c Hc) as (_ & _ & _ & _ & _ & _ & _ & X). cbv zeta in X. destruct (X Ex) as (X1 & X2). rewrite AE, AR. split; [exact X1|exact X2]. }
    unfold hh_filter. rewrite E1, bind_Ok.
    assert (EG : forall k, (let* ms0 := mapM (fun e => let* h := hm_post (A := RA) (snd e) in Ok (fst e, h)) (hh_cls m1) in
      let* r0 := update_results (map fst ms0) (map (fun e => h_inst (hc_run (snd e))) ms0) (map (fun e => h_log (hc_run (snd e))) ms0) (hh_res m1) in k ms0 r0) = (k ms r : res (hhmm RA))).
    { intro k. eapply bind_eq; [exact EM|]. eapply bind_eq; [exact ER'|reflexivity]. }
    rewrite EG. clear EG. cbv beta zeta. rewrite M1, M2, M3, M5, M6. destruct (hh_bim m) eqn:B; cbn [negb].
    - specialize (HD eq_refl). unfold usub. pose proof HD as HD'. apply Nat.leb_le in HD'. rewrite HD', bind_Ok.
      set (ok c (h2 : hclass RA) := length (h_out (hc_run h2)) = (hh_dim m - hh_din m)%nat /\ length (h_ocov (hc_run h2)) = csize (hp_mode (hc_par (hcl m c))) (hh_dim m - hh_din m) /\
        forall d, (d < hh_dim m - hh_din m)%nat -> nth d (h_out (hc_run h2)) 0 = hmm_output (hcl m c) (w c) (h_like (hc_run h2)) x d).
      destruct (mapM_at (fun c (y : string * hclass RA) => fst y = hlabel m c /\ posted c (snd y) /\ ok c (snd y)) (fun e : string * hclass RA => let* h := hm_regression (A := RA) x (snd e) in Ok (fst e, h)) ms no_hclass no_hclass) as (ms2 & EM2 & LM2 & PM2).
      { intros c Hc. rewrite LM in Hc. destruct (PM c Hc) as (FL & PO & W1 & W2 & W3). pose proof PO as (HS & A0 & A1 & A2 & AI & AL & AB & AF & AP & AE & AR). destruct (cls_in m HU c Hc) as (UC & C1 & C2 & C3 & _).
        destruct (regr_ok (hcl m c) UC (snd (nth c ms no_hclass)) (w c) (h_like (hc_run (snd (nth c ms no_hclass)))) x HS) as (ss & o & v & E & HS2 & LO & LV & VO).
        - apply WT; [exact Hc| |exact A0|exact A1]. pose proof HS as (_ & _ & _ & _ & _ & F6 & _). rewrite F6. apply HC. exact Hc.
        - intros i Hi. apply hh_weight_ge; assumption.
        - congruence.
        - rewrite C3. unfold hh_obs_dim in Lx. rewrite B in Lx. exact Lx.
        - apply AF.
        - reflexivity.
        - exact W1.
        - exact W2.
        - exact W3.
        - rewrite C2, C3 in *. eexists. split; [eapply bind_eq; [exact E|reflexivity]|]. cbn [fst snd]. split; [exact FL|]. split; [|unfold ok; auto].
          unfold posted. split; [exact HS2|]. cbn [hc_run hc_set_run hc_set_net rn_out h_a0 h_a1 h_a2 h_inst h_log h_buf h_like h_prog h_exlik h_exratio]. repeat (split; [assumption|]). exact AR. }
      rewrite LM in LM2, PM2. rewrite EM2, bind_Ok.
      assert (GOAL : forall o v, (length o = (hh_dim m - hh_din m)%nat /\ forall d, (d < hh_dim m - hh_din m)%nat -> nth d o 0 = match hh_est m with
          | Likeliest => hmm_output (hcl m b) (w b) (h_like (hc_run (snd (nth b ms2 no_hclass)))) x d
          | Mixture => Rsum n (fun c => exp (LG c) / Rsum n (fun d => exp (LG d)) * hmm_output (hcl m c) (w c) (h_like (hc_run (snd (nth c ms2 no_hclass)))) x d) end) ->
        exists m2, Ok (hh_set_res (A := RA) (mkRes (A := RA) (rs_inst r) (rs_instn r) (rs_sm r) (rs_smn r) (rs_log r) (rs_likeliest r) o v) (hh_set_cls (A := RA) ms2 m1)) = Ok m2 /\ hh_at m u xs' m2 /\
          (forall c, (c < n)%nat -> hh_class_report m u xs' x c (hcl m2 c)) /\
          (xs = [] -> forall c, (c < n)%nat -> h_exlik (hc_run (hcl m2 c)) = h_exlik (hc_run (hcl m' c)) /\ h_exratio (hc_run (hcl m2 c)) = h_exratio (hc_run (hcl m' c))) /\
          hh_top_report m (hh_inst m u xs') LG (fun c d => hmm_output (hcl m c) (w c) (h_like (hc_run (hcl m2 c))) x d) (hh_res m2)).
      { intros o v HO. eexists. split; [reflexivity|]. split; [apply FIN; [exact LM2|]; intros c Hc; destruct (PM2 c Hc) as (P1 & P2 & _); split; [exact P1|exact P2]|]. split; [|split].
        - intros c Hc. destruct (PM2 c Hc) as (_ & PO & O1 & O2 & O3). apply REP; [exact Hc|exact PO|]. intros _. split; [exact O1|exact O3].
        - intros Ex c Hc. apply STALE; [exact Hc|apply (PM2 c Hc)|exact Ex].
        - exists b. split; [exact FM|]. do 6 (split; [reflexivity|]). intros _. exact HO. }
      destruct (hh_est m) eqn:EST.
      + assert (NDm : NoDup (map fst ms2)).
        { replace (map fst ms2) with (map fst (hh_cls m)); [exact ND|]. apply (nth_ext_len _ _ EmptyString); [rewrite !map_length; symmetry; exact LM2|].
          intros i Hi. rewrite map_length in Hi. rewrite !(nth_map_in fst _ i _ no_hclass) by (first [exact Hi|rewrite LM2; exact Hi]). symmetry. exact (proj1 (PM2 i Hi)). }
        change (rs_likeliest r) with (hlabel m b) at 1. rewrite <- (proj1 (PM2 b Hb)). rewrite (mget_nth ms2 b no_hclass NDm) by (change (num RA) with R in *; rewrite LM2; exact Hb). rewrite bind_Ok. apply GOAL.
        destruct (PM2 b Hb) as (_ & _ & O1 & _ & O3). split; [exact O1|exact O3].
      + destruct (mix_outputs_ok (hh_cmode m) (hh_dim m - hh_din m) (rs_smn r) (map (fun e : string * hclass RA => (h_out (hc_run (snd e)), h_ocov (hc_run (snd e)))) ms2)) as (o & v & E & LO & LV & VO).
        { unfold r. cbn [rs_smn]. rewrite tab_length, map_length. symmetry. exact LM2. }
        { intros i Hi. rewrite map_length in Hi. change (num RA) with R in *. rewrite LM2 in Hi. rewrite (nth_map_in _ ms2 i _ no_hclass) by (rewrite LM2; exact Hi). cbn [fst snd].
          destruct (PM2 i Hi) as (_ & _ & O1 & O2 & _). destruct (cls_in m HU i Hi) as (_ & _ & _ & _ & _ & _ & _ & _ & CM). rewrite (CM EST) in O2. auto. }
        change (num RA) with R in *. rewrite E, bind_Ok. apply GOAL. split; [exact LO|]. intros d Hd. etransitivity; [exact (VO d Hd)|]. rewrite map_length, LM2.
        apply Rsum_ext. intros i Hi. rewrite (nth_map_in _ ms2 i _ no_hclass) by (rewrite LM2; exact Hi). cbn [fst snd]. apply Rmult_eq_compat; [unfold r; cbn [rs_smn]; exact (nth_tab n (fun c => exp (LG c) / Rsum n (fun d => exp (LG d))) i 0 Hi)|]. apply (PM2 i Hi). exact Hd.
    - eexists. split; [reflexivity|]. split; [exact (FIN ms (rs_out r) (rs_ocov r) LM (fun c Hc => conj (proj1 (PM c Hc)) (proj1 (proj2 (PM c Hc)))))|]. split; [|split].
      + intros c Hc. apply REP; [exact Hc|apply (PM c Hc)|discriminate].
      + intros Ex c Hc. apply STALE; [exact Hc|apply (PM c Hc)|exact Ex].
      + exists b. split; [exact FM|]. do 6 (split; [reflexivity|]). intros C. congruence.
  Qed.
End Step.
