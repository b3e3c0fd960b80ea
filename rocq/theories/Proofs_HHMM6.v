(** Any number of observations, and resets. *)
From Coq Require Import String List Bool Arith ZArith Reals Lra Lia.
From Verif Require Import Base Arith BaseFacts RFacts Model_Map Model_Ring Model_Phrase Model_Gaussian Model_Config Model_GMM Model_HMM Model_HHMM
  Proofs_Ring Proofs_Gaussian Proofs_KMeans Proofs_GMM Proofs_GMM3 Proofs_GMM4 Spec_Common Spec_Matrix Spec_Gaussian Spec_GMM Spec_HMM Spec_HHMM Proofs_HMM Proofs_HMM2 Proofs_HMM3 Proofs_HMM4 Proofs_HMM5
  Proofs_HHMM Proofs_HHMM2 Proofs_HHMM3 Proofs_HHMM4 Proofs_HHMM5.
Import ListNotations.
Local Open Scope list_scope.
Local Open Scope R_scope.

(** ** Same parameters *)
Lemma window_wf : forall L vs (r : ring R), (1 <= L)%nat -> window_of L vs r -> ring_wf 1 r.
Proof.
  intros L vs r HL (r0 & W & E0 & E).
  assert (F : forall l : list R, Forall (fun v : list R => (1 <= length v)%nat) (map (fun v => [v]) l)) by (induction l; constructor; [cbn; lia|assumption]).
  destruct (ring_pushes_state 0 1 L r0 _ W E0 HL (F vs)) as (r1 & E1 & W1 & _). rewrite E in E1. inversion E1; subst r1. exact W1.
Qed.

Lemma hmm_same_refl : forall h, hmm_usable h -> hmm_same h h.
Proof.
  intros h (_ & _ & U3 & _). unfold hmm_same. do 9 (split; [reflexivity|]). apply (Forall2_nth _ _ _ no_state no_state); [reflexivity|]. intros i Hi. apply kept_refl. rewrite Forall_forall in U3.
  apply (U3 (nth i (h_states (hc_net h)) no_state)). apply nth_In. exact Hi.
Qed.
Lemma hmm_same_trans : forall h h' h'', hmm_same h h' -> hmm_same h' h'' -> hmm_same h h''.
Proof.
  intros h h' h'' (A1 & A2 & A3 & A4 & A5 & A6 & A7 & A8 & A9 & A10) (B1 & B2 & B3 & B4 & B5 & B6 & B7 & B8 & B9 & B10). unfold hmm_same. rewrite B1, B2, B3, B4, B5, B6, B7, B8, B9. repeat (split; [assumption|]).
  pose proof (Forall2_len _ _ _ _ _ A10) as L1. pose proof (Forall2_len _ _ _ _ _ B10) as L2. apply (Forall2_nth _ _ _ no_state no_state); [congruence|]. intros i Hi.
  apply (kept_trans _ (nth i (h_states (hc_net h')) no_state)); [exact (Forall2_at _ _ _ A10 i no_state no_state Hi)|]. apply (Forall2_at _ _ _ B10 i no_state no_state). rewrite <- L1. exact Hi.
Qed.
Lemma same_usable : forall h h', hmm_usable h -> hmm_same h h' -> hmm_usable h'.
Proof.
  intros h h' HU HS. pose proof HU as (U1 & U2 & U3 & U4 & U5 & U6). destruct (same_n h h' HS) as (EN & EM). pose proof (same_len h HU h' HS) as EL. pose proof HS as (A1 & A2 & A3 & A4 & A5 & A6 & A7 & A8 & A9 & A10).
  unfold hmm_usable. rewrite EN, EM, A7, A8, A4. split; [exact U1|]. split; [exact EL|]. split; [|repeat (split; [assumption|]); exact U6].
  apply Forall_nth. intros i d Hi. rewrite (nth_indep _ d no_state Hi). rewrite EL in Hi. destruct (same_state h HU h' HS i Hi) as (_ & Q). unfold state_usable in *. rewrite A1, A2, A3, A5. exact Q.
Qed.

Lemma hh_same_refl : forall m, hh_usable m -> hh_same m m.
Proof.
  intros m HU. unfold hh_same. do 10 (split; [reflexivity|]). apply (Forall2_nth _ _ _ no_hclass no_hclass); [reflexivity|]. intros c Hc. split; [reflexivity|]. apply hmm_same_refl. exact (cls_use m HU c Hc).
Qed.
Lemma hh_same_trans : forall m m' m'', hh_same m m' -> hh_same m' m'' -> hh_same m m''.
Proof.
  intros m m' m'' SA SB. pose proof (same_size m m' SA) as L1. pose proof (same_size m' m'' SB) as L2. pose proof SA as (A1 & A2 & A3 & A4 & A5 & A6 & A7 & A8 & A9 & A10 & A11). pose proof SB as (B1 & B2 & B3 & B4 & B5 & B6 & B7 & B8 & B9 & B10 & B11).
  unfold hh_same. rewrite B1, B2, B3, B4, B5, B6, B7, B8, B9, B10. repeat (split; [assumption|]). apply (Forall2_nth _ _ _ no_hclass no_hclass); [unfold hh_size in *; congruence|]. intros c Hc.
  destruct (same_cls m m' c SA Hc) as (F1 & G1). destruct (same_cls m' m'' c SB) as (F2 & G2); [rewrite L1; exact Hc|]. split; [etransitivity; [exact F2|exact F1]|]. exact (hmm_same_trans _ _ _ G1 G2).
Qed.
Lemma hh_same_usable : forall m m', hh_usable m -> hh_same m m' -> hh_usable m'.
Proof.
  intros m m' HU SA. pose proof (same_size m m' SA) as ES. pose proof SA as (A1 & A2 & A3 & A4 & A5 & A6 & A7 & A8 & A9 & A10 & A11). pose proof HU as (U1 & U2 & U3 & U4 & U5).
  unfold hh_usable. rewrite ES, A1, A2, A3. split; [exact U1|]. split; [|split; [|split; [|exact U5]]].
  - replace (map fst (hh_cls m')) with (map fst (hh_cls m)); [exact U2|]. apply (nth_ext_len _ _ EmptyString); [rewrite !map_length; symmetry; exact ES|].
    intros i Hi. rewrite map_length in Hi. rewrite !(nth_map_in fst _ i _ no_hclass) by (first [exact Hi|fold (hh_size m'); rewrite ES; exact Hi]). symmetry. apply (same_cls m m' i SA Hi).
  - apply Forall_nth. intros c d Hc. rewrite (nth_indep _ d no_hclass Hc). fold (hh_size m') in Hc. rewrite ES in Hc. fold (hcl m' c). destruct (same_cls m m' c SA Hc) as (_ & HS).
    destruct (cls_in m HU c Hc) as (C0 & C1 & C2 & C3 & C4 & C5 & C6 & C7 & C8). destruct (same_n _ _ HS) as (EN & EM). pose proof (same_usable _ _ C0 HS) as C0'. destruct HS as (B1 & B2 & B3 & B4 & B5 & B6 & B7 & B8 & B9 & B10).
    unfold hclass_in, exit_at. rewrite B1, B2, B3, B4, B5, B8, B9, EN, EM, A1, A2, A3, A4, A5, A6. repeat (split; [assumption|]). exact C8.
  - destruct U4 as (T1 & T2 & T3 & T4 & T5 & T6). unfold hh_top_ok, top_prior, top_trans. rewrite ES, A8, A9, A10. repeat (split; [assumption|]). exact T6.
Qed.

(** ** Ready *)
Lemma hh_fresh_at : forall m m', hh_same m m' -> hh_fresh m' -> hh_at m (hh_left m') [] m'.
Proof.
  intros m m' SA (F1 & F2 & F3 & F4 & F5 & F6). pose proof (same_size m m' SA) as ES. pose proof SA as (_ & _ & _ & A4 & _). rewrite ES in *. unfold hh_at. split; [exact SA|]. split; [exact F3|]. split; [exact F4|]. split; [exact F5|]. split; [|exact F2].
  intros c Hc. cbv zeta. split; [|reflexivity]. rewrite Forall_forall in F6. rewrite A4 in F6. apply (F6 (nth c (hh_cls m') no_hclass)). apply nth_In. fold (hh_size m'). rewrite ES. exact Hc.
Qed.
Lemma hh_fresh_hier : forall m m', hh_same m m' -> hh_fresh m' -> hh_hier m = true /\ forall c, (c < hh_size m)%nat -> hc_hier (hcl m c) = true.
Proof.
  intros m m' SA (F1 & F2 & F3 & F4 & F5 & F6). pose proof (same_size m m' SA) as ES. pose proof SA as (_ & _ & _ & _ & _ & _ & A7 & _). split; [congruence|]. intros c Hc. destruct (same_cls m m' c SA Hc) as (_ & (_ & _ & _ & _ & _ & B6 & _)). rewrite <- B6.
  rewrite Forall_forall in F6. apply (F6 (nth c (hh_cls m') no_hclass)). apply nth_In. fold (hh_size m'). rewrite ES. exact Hc.
Qed.

Lemma hh_filters_snoc : forall (A : arith) xs x (m : hhmm A), hh_filters (xs ++ [x]) m = let* m := hh_filters xs m in hh_filter x m.
Proof.
  induction xs as [|y xs IH]; intros x m; cbn [app hh_filters bind].
  - destruct (hh_filter x m); reflexivity.
  - destruct (hh_filter y m) as [m'| |]; cbn [bind]; try reflexivity. apply IH.
Qed.

(** [m] is the reference, [m'] the model itself. *)
Lemma hh_filters_ok : forall m m', hh_usable m -> hh_same m m' -> hh_fresh m' -> (forall c, (c < hh_size m)%nat -> 0 <= left_over m (hh_left m') c) ->
  forall xs, Forall (fun x => length x = hh_obs_dim m) xs -> exists m'', hh_filters (A := RA) xs m' = Ok m'' /\ hh_at m (hh_left m') xs m''.
Proof.
  intros m m' HU SA HF HL. destruct (hh_fresh_hier m m' SA HF) as (HH & HC). induction xs as [|x xs IH] using rev_ind; intros D.
  - exists m'. split; [reflexivity|]. apply hh_fresh_at; assumption.
  - apply Forall_app in D. destruct D as (D & Dx). inversion Dx as [|? ? Lx _]; subst. destruct (IH D) as (m1 & E & AT). destruct (filter_ok m HU HH HC _ xs m1 x HL AT Lx) as (m2 & E2 & AT2 & _).
    exists m2. rewrite hh_filters_snoc, E. split; [exact E2|exact AT2].
Qed.

Lemma hh_filters_report : forall m m', hh_usable m -> hh_same m m' -> hh_fresh m' -> (forall c, (c < hh_size m)%nat -> 0 <= left_over m (hh_left m') c) ->
  forall xs x, Forall (fun x => length x = hh_obs_dim m) (xs ++ [x]) -> exists m'', hh_filters (A := RA) (xs ++ [x]) m' = Ok m'' /\ hh_at m (hh_left m') (xs ++ [x]) m'' /\
    (forall c, (c < hh_size m)%nat -> hh_class_report m (hh_left m') (xs ++ [x]) x c (hcl m'' c)) /\
    (xs = [] -> forall c, (c < hh_size m)%nat -> h_exlik (hc_run (hcl m'' c)) = h_exlik (hc_run (hcl m' c)) /\ h_exratio (hc_run (hcl m'' c)) = h_exratio (hc_run (hcl m' c))) /\
    hh_top_report m (hh_inst m (hh_left m') (xs ++ [x])) (fun c => window_mean (hh_win m) (hh_logs m (hh_left m') (xs ++ [x]) c))
      (fun c d => hmm_output (hcl m c) (hh_weight m (hh_left m') (xs ++ [x]) c) (h_like (hc_run (hcl m'' c))) x d) (hh_res m'').
Proof.
  intros m m' HU SA HF HL xs x D. destruct (hh_fresh_hier m m' SA HF) as (HH & HC). apply Forall_app in D. destruct D as (D & Dx). inversion Dx as [|? ? Lx _]; subst. destruct (hh_filters_ok m m' HU SA HF HL xs D) as (m1 & E & AT).
  destruct (filter_ok m HU HH HC _ xs m1 x HL AT Lx) as (m2 & E2 & AT2 & R1 & R2 & R3). exists m2. rewrite hh_filters_snoc, E. split; [exact E2|]. split; [exact AT2|]. split; [exact R1|]. split; [|exact R3].
  intros ->. cbn in E. injection E as <-. exact (R2 eq_refl).
Qed.

(** ** Reset *)
Lemma hh_reset_ok : forall m, hh_resettable m -> exists m', hh_reset (A := RA) m = Ok m' /\ hh_same m m' /\ hh_fresh m' /\
  forall c, (c < hh_size m)%nat -> hh_left m' c = hh_left m c /\ h_exlik (hc_run (hcl m' c)) = h_exlik (hc_run (hcl m c)) /\ h_exratio (hc_run (hcl m' c)) = h_exratio (hc_run (hcl m c)).
Proof.
  intros m (HU & HH & HF). unfold hh_reset, reset_all. rewrite n0_RA. pose proof HU as (U1 & U2 & U3 & U4 & U5).
  set (again (h : hclass RA) := hc_set_run (rn_alpha (A := RA) [] (rn_alpha_h (A := RA) (vresize (hc_n h) 0 (h_a0 (hc_run h))) (vresize (hc_n h) 0 (h_a1 (hc_run h))) (vresize (hc_n h) 0 (h_a2 (hc_run h)))
    (rn_started false (rn_buf (A := RA) (ring_clear (ring_resize 0 (h_buf (hc_run h)) (hc_win h))) (hc_run h))))) h).
  assert (K : forall h : hclass RA, hc_hier h = true -> hm_reset (A := RA) h = Ok (again h)) by (intros h Hh; unfold hm_reset; rewrite Hh, n0_RA; reflexivity).
  assert (HF' : forall c, (c < hh_size m)%nat -> hc_hier (hcl m c) = true /\ ring_wf 1 (h_buf (hc_run (hcl m c)))).
  { intros c Hc. rewrite Forall_forall in HF. apply (HF (nth c (hh_cls m) no_hclass)). apply nth_In. exact Hc. }
  destruct (mapM_at (fun c (y : string * hclass RA) => fst y = hlabel m c /\ snd y = again (hcl m c)) (fun e : string * hclass RA => let* h := hm_reset (snd e) in Ok (fst e, h)) (hh_cls m) no_hclass no_hclass) as (ms & E1 & L1 & V1).
  { intros c Hc. eexists. split; [eapply bind_eq; [apply K; apply (HF' c Hc)|reflexivity]|]. split; reflexivity. }
  destruct (mapM_at (fun c (y : string * hclass RA) => fst y = hlabel m c /\ snd y = again (hc_set_hier true (again (hcl m c)))) (fun e : string * hclass RA => let* h := hm_reset (hc_set_hier (hh_hier m) (snd e)) in Ok (fst e, h)) ms no_hclass no_hclass) as (ms2 & E2 & L2 & V2).
  { intros c Hc. rewrite L1 in Hc. destruct (V1 c Hc) as (F & G). eexists. split; [eapply bind_eq; [apply K; rewrite G, HH; reflexivity|reflexivity]|]. cbn [fst snd]. rewrite G, F, HH. split; reflexivity. }
  rewrite L1 in L2, V2. rewrite E1, bind_Ok.
  assert (FIN : forall o v, let m' := hh_set_res (A := RA) (mkRes (A := RA) (vresize (hh_size m) 0 (rs_inst (hh_res m))) (vresize (hh_size m) 0 (rs_instn (hh_res m))) (vresize (hh_size m) 0 (rs_sm (hh_res m)))
      (vresize (hh_size m) 0 (rs_smn (hh_res m))) (vresize (hh_size m) 0 (rs_log (hh_res m))) (rs_likeliest (hh_res m)) o v) (hh_set_front (A := RA) (vresize (hh_size m) 0 (hh_v1 m)) (vresize (hh_size m) 0 (hh_v2 m)) false (hh_set_cls (A := RA) ms2 m)) in
    hh_same m m' /\ hh_fresh m' /\ forall c, (c < hh_size m)%nat -> hh_left m' c = hh_left m c /\ h_exlik (hc_run (hcl m' c)) = h_exlik (hc_run (hcl m c)) /\ h_exratio (hc_run (hcl m' c)) = h_exratio (hc_run (hcl m c))).
  { intros o v m'. assert (EC : forall c, (c < hh_size m)%nat -> hcl m' c = again (hc_set_hier true (again (hcl m c)))) by (intros c Hc; apply (V2 c Hc)).
    split; [|split].
    - apply (same_of m m' m); try reflexivity; [apply hh_same_refl; exact HU|exact L2|]. intros c Hc. split; [apply (V2 c Hc)|]. rewrite EC by exact Hc. destruct (hmm_same_refl (hcl m c) (cls_use m HU c Hc)) as (S1 & S2 & S3 & S4 & S5 & S6 & S7 & S8 & S9 & S10).
      unfold hmm_same. do 5 (split; [reflexivity|]). split; [symmetry; apply (HF' c Hc)|]. do 3 (split; [reflexivity|]). exact S10.
    - unfold hh_fresh. split; [exact HH|]. split; [reflexivity|]. assert (ES : hh_size m' = hh_size m) by exact L2. rewrite ES. unfold results_sized, m'. cbn [hh_res hh_v1 hh_v2 hh_set_res hh_set_front hh_set_cls rs_inst rs_instn rs_sm rs_smn rs_log]. rewrite !vresize_length.
      do 3 (split; [auto|]). apply Forall_nth. intros c d Hc. rewrite (nth_indep _ d no_hclass Hc). cbn [hh_cls hh_set_res hh_set_front hh_set_cls] in Hc |- *. rewrite L2 in Hc. destruct (V2 c Hc) as (_ & G). rewrite G. split; [reflexivity|].
      destruct (cls_in m HU c Hc) as (_ & _ & _ & _ & C4 & _). change (hh_win (hh_set_res _ _)) with (hh_win m). rewrite <- C4. apply window_fresh. apply ring_clear_wf, ring_resize_wf. apply (HF' c Hc).
    - intros c Hc. unfold hh_left. rewrite EC by exact Hc. split; [reflexivity|]. split; reflexivity. }
  destruct (hh_bim m) eqn:B.
  - unfold usub. pose proof (U5 eq_refl) as HD. apply Nat.leb_le in HD. rewrite HD, !bind_Ok. eexists. split; [eapply bind_eq; [exact E2|reflexivity]|]. apply FIN.
  - rewrite !bind_Ok. eexists. split; [eapply bind_eq; [exact E2|reflexivity]|]. apply FIN.
Qed.

Lemma hh_at_resettable : forall m u xs m', hh_usable m -> hh_hier m = true -> (forall c, (c < hh_size m)%nat -> hc_hier (hcl m c) = true) -> hh_at m u xs m' -> hh_resettable m'.
Proof.
  intros m u xs m' HU HH HC (SA & _ & _ & _ & CL & _). pose proof (same_size m m' SA) as ES. split; [exact (hh_same_usable m m' HU SA)|]. split; [destruct SA as (_ & _ & _ & _ & _ & _ & A7 & _); congruence|].
  apply Forall_nth. intros c d Hc. rewrite (nth_indep _ d no_hclass Hc). fold (hh_size m') in Hc. rewrite ES in Hc. fold (hcl m' c). destruct (same_cls m m' c SA Hc) as (_ & (_ & _ & _ & _ & _ & B6 & _)). split; [rewrite B6; apply HC; exact Hc|].
  assert (HW : (1 <= hh_win m)%nat) by (destruct (cls_in m HU c Hc) as ((_ & _ & _ & _ & _ & U6) & _ & _ & _ & EW & _); rewrite <- EW; exact U6).
  specialize (CL c Hc). cbv zeta in CL. destruct xs; [apply (window_wf _ _ _ HW (proj1 CL))|]. destruct CL as (_ & _ & _ & _ & W). exact (window_wf _ _ _ HW W).
Qed.

(** ** Same results *)
Lemma first_max_uniq : forall N w l l', first_max N w l -> first_max N w l' -> l = l'.
Proof.
  intros N w l l' (A1 & A2 & A3) (B1 & B2 & B3). destruct (Nat.lt_trichotomy l l') as [H|[H|H]]; [|exact H|].
  - specialize (B3 l H). specialize (A2 l' B1). lra.
  - specialize (A3 l' H). specialize (B2 l A1). lra.
Qed.

Lemma left_ext : forall m u u', (forall c, (c < hh_size m)%nat -> left_over m u c = left_over m u' c) -> forall xs, hh_scale m u xs = hh_scale m u' xs.
Proof. intros m u u' H xs. unfold hh_scale. destruct xs as [|x [|y xs]]; try reflexivity. f_equal. f_equal. apply Rsum_ext. exact H. Qed.
Lemma inst_ext : forall m u u', (forall c, (c < hh_size m)%nat -> left_over m u c = left_over m u' c) -> forall xs c, (c < hh_size m)%nat -> hh_inst m u xs c = hh_inst m u' xs c.
Proof. intros m u u' H xs c Hc. unfold hh_inst. rewrite (left_ext m u u' H). f_equal. destruct xs as [|x [|y xs]]; try reflexivity. apply H. exact Hc. Qed.
Lemma logs_ext : forall m u u', (forall c, (c < hh_size m)%nat -> left_over m u c = left_over m u' c) -> forall xs c, (c < hh_size m)%nat -> hh_logs m u xs c = hh_logs m u' xs c.
Proof. intros m u u' H xs c Hc. unfold hh_logs. apply map_ext. intros t. f_equal. apply inst_ext; assumption. Qed.
Lemma weight_ext : forall m u u', (forall c, (c < hh_size m)%nat -> left_over m u c = left_over m u' c) -> forall xs c, hh_weight m u xs c = hh_weight m u' xs c.
Proof. intros m u u' H xs c. unfold hh_weight. rewrite (left_ext m u u' H). reflexivity. Qed.

Lemma nth_eq : forall (l l' : list R) n f, length l = n -> length l' = n -> (forall i, (i < n)%nat -> nth i l 0 = f i) -> (forall i, (i < n)%nat -> nth i l' 0 = f i) -> l = l'.
Proof. intros l l' n f L L' V V'. apply (nth_ext_len _ _ 0); [congruence|]. intros i Hi. rewrite V, V' by lia. reflexivity. Qed.

Lemma agree_ok : forall m m1 m2, hh_usable m -> hh_same m m1 -> hh_same m m2 -> hh_fresh m1 -> hh_fresh m2 ->
  (forall c, (c < hh_size m)%nat -> 0 <= left_over m (hh_left m1) c /\ left_over m (hh_left m1) c = left_over m (hh_left m2) c) ->
  forall xs, xs <> [] -> Forall (fun x => length x = hh_obs_dim m) xs -> exists n1 n2, hh_filters (A := RA) xs m1 = Ok n1 /\ hh_filters (A := RA) xs m2 = Ok n2 /\ hh_agree (2 <= length xs)%nat n1 n2.
Proof.
  intros m m1 m2 HU S1 S2 F1 F2 HL xs Hx D. destruct (exists_last Hx) as (ys & y & ->).
  destruct (hh_filters_report m m1 HU S1 F1 (fun c Hc => proj1 (HL c Hc)) ys y D) as (n1 & E1 & AT1 & R1 & _ & T1).
  destruct (hh_filters_report m m2 HU S2 F2 (fun c Hc => Rle_trans _ _ _ (proj1 (HL c Hc)) (Req_le _ _ (proj2 (HL c Hc)))) ys y D) as (n2 & E2 & AT2 & R2 & _ & T2).
  exists n1, n2. split; [exact E1|]. split; [exact E2|]. set (xs := ys ++ [y]) in *. set (u := hh_left m1) in *. set (u' := hh_left m2) in *.
  assert (HE : forall c, (c < hh_size m)%nat -> left_over m u c = left_over m u' c) by (intros c Hc; apply (HL c Hc)).
  assert (EL : forall c, (c < hh_size m)%nat -> h_like (hc_run (hcl n1 c)) = h_like (hc_run (hcl n2 c))).
  { intros c Hc. destruct (R1 c Hc) as (_ & _ & A & _). destruct (R2 c Hc) as (_ & _ & B & _). cbv zeta in A, B. rewrite (weight_ext m u u' HE) in A. exact (first_max_uniq _ _ _ _ A B). }
  destruct AT1 as (A1 & _ & _ & _ & C1 & _). destruct AT2 as (A2 & _ & _ & _ & C2 & _). pose proof (same_size m n1 A1) as Z1. pose proof (same_size m n2 A2) as Z2.
  destruct T1 as (b1 & B1 & P1 & P2 & P3 & P4 & P5 & P6 & P7). destruct T2 as (b2 & B2 & Q1 & Q2 & Q3 & Q4 & Q5 & Q6 & Q7).
  assert (LE : forall c, (c < hh_size m)%nat -> window_mean (hh_win m) (hh_logs m u xs c) = window_mean (hh_win m) (hh_logs m u' xs c)) by (intros c Hc; rewrite (logs_ext m u u' HE) by exact Hc; reflexivity).
  assert (EB : b1 = b2) by (apply (first_max_uniq (hh_size m) (fun c => window_mean (hh_win m) (hh_logs m u' xs c))); [|exact B2]; apply (first_max_ext (hcl m 0) _ _ _ _ LE B1)). subst b2.
  assert (SE : Rsum (hh_size m) (fun d => exp (window_mean (hh_win m) (hh_logs m u xs d))) = Rsum (hh_size m) (fun d => exp (window_mean (hh_win m) (hh_logs m u' xs d)))) by (apply Rsum_ext; intros c Hc; rewrite LE by exact Hc; reflexivity).
  assert (SI : Rsum (hh_size m) (hh_inst m u xs) = Rsum (hh_size m) (hh_inst m u' xs)) by (apply Rsum_ext; intros c Hc; apply inst_ext; assumption).
  assert (EBm : hh_bim n1 = hh_bim m) by apply A1.
  unfold hh_agree. rewrite EBm, Z1, Z2. split; [rewrite P2, Q2; apply tab_ext; intros c Hc; apply inst_ext; assumption|]. split; [rewrite P5, Q5; apply tab_ext; intros c Hc; rewrite SI, (inst_ext m u u' HE) by exact Hc; reflexivity|].
  split; [rewrite P4, Q4; apply tab_ext; intros c Hc; rewrite LE by exact Hc; reflexivity|]. split; [rewrite P6, Q6; apply tab_ext; intros c Hc; rewrite LE, SE by exact Hc; reflexivity|].
  split; [rewrite P3, Q3; apply tab_ext; intros c Hc; apply LE; exact Hc|]. split; [congruence|]. split; [|split; [reflexivity|]].
  - intros HB. destruct (P7 HB) as (L1 & V1). destruct (Q7 HB) as (L2 & V2). apply (nth_ext_len _ _ 0); [change (num RA) with R in *; congruence|]. intros d Hd. change (num RA) with R in *. rewrite L1 in Hd. rewrite V1, V2 by exact Hd.
    destruct (hh_est m); [rewrite (weight_ext m u u' HE), EL by (apply B1); reflexivity|]. apply Rsum_ext. intros c Hc. rewrite LE, SE, (weight_ext m u u' HE), EL by exact Hc. reflexivity.
  - intros c Hc. specialize (C1 c Hc). specialize (C2 c Hc). cbv zeta in C1, C2. assert (HN : exists z zs, xs = z :: zs) by (unfold xs; destruct ys; cbn; eauto). destruct HN as (z & zs & EX).
    destruct (R1 c Hc) as (I1 & G1 & M1 & Y1 & X1 & O1). destruct (R2 c Hc) as (I2 & G2 & M2 & Y2 & X2 & O2). specialize (EL c Hc).
    rewrite EX in C1, C2. destruct C1 as (L01 & L11 & L21 & V1 & _). destruct C2 as (L02 & L12 & L22 & V2 & _). rewrite <- EX in V1, V2.
    rewrite (left_ext m u u' HE) in V1.
    split; [apply (nth_eq _ _ _ _ L01 L02 (fun i Hi => proj1 (V1 i Hi)) (fun i Hi => proj1 (V2 i Hi)))|].
    split; [apply (nth_eq _ _ _ _ L11 L12 (fun i Hi => proj1 (proj2 (V1 i Hi))) (fun i Hi => proj1 (proj2 (V2 i Hi))))|].
    split; [apply (nth_eq _ _ _ _ L21 L22 (fun i Hi => proj2 (proj2 (V1 i Hi))) (fun i Hi => proj2 (proj2 (V2 i Hi))))|].
    split; [rewrite I1, I2; apply inst_ext; assumption|]. split; [rewrite G1, G2; apply LE; exact Hc|].
    cbv zeta in Y1, Y2, O1, O2. rewrite EL in Y1, O1. rewrite (weight_ext m u u' HE), (left_ext m u u' HE) in Y1. rewrite (weight_ext m u u' HE) in O1.
    split; [etransitivity; [exact Y1|symmetry; exact Y2]|]. split; [exact EL|]. split.
    + intros HB. destruct (O1 HB) as (LO1 & VO1). destruct (O2 HB) as (LO2 & VO2). exact (nth_eq _ _ _ _ LO1 LO2 VO1 VO2).
    + intros L2. destruct (X1 L2) as (XA & XB). destruct (X2 L2) as (XC & XD). rewrite XA, XB, XC, XD. rewrite (left_ext m u u' HE). split; reflexivity.
Qed.
