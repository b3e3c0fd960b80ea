(** Non-hierarchical mode. *)
From Coq Require Import String List Bool Arith ZArith Reals Lra Lia.
From Verif Require Import Base Arith BaseFacts RFacts Model_Map Model_Ring Model_Phrase Model_Gaussian Model_Config Model_GMM Model_HMM Model_HHMM
  Proofs_Ring Proofs_Gaussian Proofs_KMeans Proofs_GMM Proofs_GMM3 Proofs_GMM4 Spec_Common Spec_Matrix Spec_Gaussian Spec_GMM Spec_HMM Spec_HHMM Spec_HHMM3 Proofs_HMM Proofs_HMM2 Proofs_HMM3 Proofs_HMM4 Proofs_HMM5
  Proofs_HHMM2 Proofs_HHMM4 Proofs_HHMM5 Proofs_HHMM6.
Import ListNotations.
Local Open Scope list_scope.
Local Open Scope R_scope.

(** ** The results of the model, given those of the classes *)
Definition hh_tail (x : list R) (m : hhmm RA) : res (hhmm RA) :=
    let* ms := mapM (fun e => let* h := hm_post (snd e) in Ok (fst e, h)) (hh_cls m) in
    let* r := update_results (map fst ms) (map (fun e => h_inst (hc_run (snd e))) ms) (map (fun e => h_log (hc_run (snd e))) ms) (hh_res m) in
    if negb (hh_bim m) then Ok (hh_set_res (A := RA) r (hh_set_cls (A := RA) ms m)) else
    let* no := usub (hh_dim m) (hh_din m) in
    let* ms := mapM (fun e => let* h := hm_regression (A := RA) x (snd e) in Ok (fst e, h)) ms in
    let* (o, c) := match hh_est m with
      | Likeliest =>
          match mget String.eqb ms (rs_likeliest r) with
          | Some h => Ok (h_out (hc_run h), h_ocov (hc_run h))
          | None => Throw RuntimeError
          end
      | Mixture => mix_outputs (hh_cmode m) no (rs_smn r) (map (fun e => (h_out (hc_run (snd e)), h_ocov (hc_run (snd e)))) ms)
      end in
    Ok (hh_set_res (A := RA) (mkRes (A := RA) (rs_inst r) (rs_instn r) (rs_sm r) (rs_smn r) (rs_log r) (rs_likeliest r) o c) (hh_set_cls (A := RA) ms m)).
Lemma filter_tail : forall x m, hh_filter (A := RA) x m = let* m := hh_forward (A := RA) x m in hh_tail x m.
Proof. reflexivity. Qed.

Section Tail.
  Variables (m m1 : hhmm RA) (x : list R) (insts LG : nat -> R) (w : nat -> nat -> R) (Q : nat -> hclass RA -> Prop).
  Local Notation n := (hh_size m).
  Local Notation Nc c := (hc_n (hcl m c)).
  Hypothesis Hn : (1 <= n)%nat.
  Hypothesis ND : NoDup (map fst (hh_cls m)).
  Hypothesis HD : hh_bim m = true -> (hh_din m <= hh_dim m)%nat.
  Hypothesis Lx : length x = hh_obs_dim m.
  Hypothesis CI : forall c, (c < n)%nat -> hn_class m (hcl m c).
  Hypothesis M1 : hh_bim m1 = hh_bim m.
  Hypothesis M2 : hh_dim m1 = hh_dim m.
  Hypothesis M3 : hh_din m1 = hh_din m.
  Hypothesis M5 : hh_est m1 = hh_est m.
  Hypothesis M6 : hh_cmode m1 = hh_cmode m.
  Hypothesis ES : hh_size m1 = n.
  Hypothesis RS : results_sized n (hh_res m1).
  Hypothesis WP : forall c i, (c < n)%nat -> (i < Nc c)%nat -> 0 <= w c i.
  Definition posted c (h2 : hclass RA) : Prop := hmm_same (hcl m c) h2 /\ h_inst (hc_run h2) = insts c /\ h_log (hc_run h2) = LG c /\ first_max (Nc c) (w c) (h_like (hc_run h2)) /\ Q c h2.
  Definition windowed c (h2 : hclass RA) : Prop :=
    h_wmin (hc_run h2) = (h_like (hc_run h2) - Nc c / 2)%nat /\ h_wmax (hc_run h2) = Nat.min (h_like (hc_run h2) + Nc c / 2) (Nc c) /\ h_wnorm (hc_run h2) = window_mass (Nc c) (h_like (hc_run h2)) (w c) /\
    (forall i, (i < Nc c)%nat -> hm_weight h2 i = Ok (w c i)).
  Hypothesis QK : forall c h2 ss o v, (c < n)%nat -> hmm_same (hcl m c) (hc_set_run (rn_out (A := RA) o v (hc_run h2)) (hc_set_net (nt_states (A := RA) ss (hc_net h2)) h2)) -> Q c h2 ->
    Q c (hc_set_run (rn_out (A := RA) o v (hc_run h2)) (hc_set_net (nt_states (A := RA) ss (hc_net h2)) h2)).
  Hypothesis PO : forall c, (c < n)%nat -> hlabel m1 c = hlabel m c /\ exists h2, hm_post (A := RA) (hcl m1 c) = Ok h2 /\ posted c h2 /\ windowed c h2.

  Lemma tail_ok : exists ms r, hh_tail x m1 = Ok (hh_set_res (A := RA) r (hh_set_cls (A := RA) ms m1)) /\ length ms = n /\ results_sized n r /\
    (forall c, (c < n)%nat -> fst (nth c ms no_hclass) = hlabel m c /\ let h2 := snd (nth c ms no_hclass) in posted c h2 /\
      (hh_bim m = true -> length (h_out (hc_run h2)) = (hh_dim m - hh_din m)%nat /\ length (h_ocov (hc_run h2)) = csize (hp_mode (hc_par (hcl m c))) (hh_dim m - hh_din m) /\
        forall d, (d < hh_dim m - hh_din m)%nat -> nth d (h_out (hc_run h2)) 0 = hmm_output (hcl m c) (w c) (h_like (hc_run h2)) x d)) /\
    hh_top_report m insts LG (fun c d => hmm_output (hcl m c) (w c) (h_like (hc_run (snd (nth c ms no_hclass)))) x d) r.
  Proof.
    destruct (mapM_at (fun c (y : string * hclass RA) => fst y = hlabel m c /\ posted c (snd y) /\ windowed c (snd y)) (fun e : string * hclass RA => let* h := hm_post (A := RA) (snd e) in Ok (fst e, h)) (hh_cls m1) no_hclass no_hclass) as (ms & EM & LM & PM).
    { intros c Hc. change (length (hh_cls m1)) with (hh_size m1) in Hc. rewrite ES in Hc. destruct (PO c Hc) as (FL & h2 & E & P2 & W2). eexists. split; [eapply bind_eq; [exact E|reflexivity]|]. cbn [fst snd]. split; [exact FL|]. split; [exact P2|exact W2]. }
    change (length (hh_cls m1)) with (hh_size m1) in LM, PM. rewrite ES in LM, PM.
    set (il := map (fun e : string * hclass RA => h_inst (hc_run (snd e))) ms). set (logs := map (fun e : string * hclass RA => h_log (hc_run (snd e))) ms).
    assert (VI : il = tab n insts).
    { apply (nth_ext_len _ _ 0); [unfold il; rewrite map_length, tab_length; exact LM|]. intros i Hi. unfold il in Hi. rewrite map_length in Hi. rewrite nth_tab by (change (num RA) with R in *; rewrite <- LM; exact Hi).
      etransitivity; [apply (nth_map_in _ ms i 0 no_hclass Hi)|]. cbv beta. destruct (PM i) as (_ & (_ & K & _) & _); [change (num RA) with R in *; rewrite <- LM; exact Hi|exact K]. }
    assert (VL : logs = tab n LG).
    { apply (nth_ext_len _ _ 0); [unfold logs; rewrite map_length, tab_length; exact LM|]. intros i Hi. unfold logs in Hi. rewrite map_length in Hi. rewrite nth_tab by (change (num RA) with R in *; rewrite <- LM; exact Hi).
      etransitivity; [apply (nth_map_in _ ms i 0 no_hclass Hi)|]. cbv beta. destruct (PM i) as (_ & (_ & _ & K & _) & _); [change (num RA) with R in *; rewrite <- LM; exact Hi|exact K]. }
    destruct (update_results_ok (map fst ms) il logs (hh_res m1) n) as (b & FM & ER).
    { rewrite map_length. exact LM. } { exact Hn. } { rewrite VI; apply tab_length. } { rewrite VL; apply tab_length. } { exact RS. }
    apply (first_max_ext (hcl m 0) n _ LG) in FM; [|intros i Hi; rewrite VL; apply nth_tab; exact Hi]. pose proof (proj1 FM) as Hb.
    assert (LB : nth b (map fst ms) EmptyString = hlabel m b) by (etransitivity; [apply (nth_map_in fst ms b _ no_hclass); rewrite LM; exact Hb|]; exact (proj1 (PM b Hb))).
    rewrite LB in ER.
    assert (ER' : update_results (A := RA) (map fst ms) il logs (hh_res m1) = Ok (mkRes (A := RA) (tab n insts) (tab n (fun c => insts c / Rsum n insts)) (tab n (fun c => exp (LG c)))
      (tab n (fun c => exp (LG c) / Rsum n (fun d => exp (LG d)))) (tab n LG) (hlabel m b) (rs_out (hh_res m1)) (rs_ocov (hh_res m1)))).
    { rewrite ER, VI, VL. apply (f_equal (@Ok (results RA))). f_equal; apply tab_ext; intros i Hi.
      - rewrite nth_tab by exact Hi. f_equal. apply Rsum_ext. intros j Hj. apply nth_tab. exact Hj.
      - rewrite nth_tab by exact Hi. reflexivity.
      - rewrite nth_tab by exact Hi. f_equal. apply Rsum_ext. intros j Hj. rewrite nth_tab by exact Hj. reflexivity. }
    clear ER. set (r := mkRes (A := RA) (tab n insts) (tab n (fun c => insts c / Rsum n insts)) (tab n (fun c => exp (LG c)))
      (tab n (fun c => exp (LG c) / Rsum n (fun d => exp (LG d)))) (tab n LG) (hlabel m b) (rs_out (hh_res m1)) (rs_ocov (hh_res m1))) in *.
    assert (RSZ : forall o v, results_sized n (mkRes (A := RA) (rs_inst r) (rs_instn r) (rs_sm r) (rs_smn r) (rs_log r) (rs_likeliest r) o v)).
    { intros o v. unfold results_sized, r. cbn [rs_inst rs_instn rs_sm rs_smn rs_log]. rewrite !tab_length. auto. }
    unfold hh_tail.
    assert (EG : forall k, (let* ms0 := mapM (fun e => let* h := hm_post (A := RA) (snd e) in Ok (fst e, h)) (hh_cls m1) in
      let* r0 := update_results (map fst ms0) (map (fun e => h_inst (hc_run (snd e))) ms0) (map (fun e => h_log (hc_run (snd e))) ms0) (hh_res m1) in k ms0 r0) = (k ms r : res (hhmm RA))).
    { intro k. eapply bind_eq; [exact EM|]. eapply bind_eq; [exact ER'|reflexivity]. }
    rewrite EG. clear EG. cbv beta zeta. rewrite M1, M2, M3, M5, M6. destruct (hh_bim m) eqn:B; cbn [negb].
    - specialize (HD eq_refl). unfold usub. pose proof HD as HD'. apply Nat.leb_le in HD'. rewrite HD', bind_Ok.
      set (ok c (h2 : hclass RA) := length (h_out (hc_run h2)) = (hh_dim m - hh_din m)%nat /\ length (h_ocov (hc_run h2)) = csize (hp_mode (hc_par (hcl m c))) (hh_dim m - hh_din m) /\
        forall d, (d < hh_dim m - hh_din m)%nat -> nth d (h_out (hc_run h2)) 0 = hmm_output (hcl m c) (w c) (h_like (hc_run h2)) x d).
      destruct (mapM_at (fun c (y : string * hclass RA) => fst y = hlabel m c /\ posted c (snd y) /\ ok c (snd y)) (fun e : string * hclass RA => let* h := hm_regression (A := RA) x (snd e) in Ok (fst e, h)) ms no_hclass no_hclass) as (ms2 & EM2 & LM2 & PM2).
      { intros c Hc. rewrite LM in Hc. destruct (PM c Hc) as (FL & P2 & W1 & W2 & W3 & WT). pose proof P2 as (HS & AI & AL & AF & AQ). destruct (CI c Hc) as (UC & C1 & C2 & C3 & _).
        destruct (regr_ok (hcl m c) UC (snd (nth c ms no_hclass)) (w c) (h_like (hc_run (snd (nth c ms no_hclass)))) x HS) as (ss & o & v & E & HS2 & LO & LV & VO).
        - exact WT.
        - intros i Hi. apply WP; assumption.
        - congruence.
        - rewrite C3. unfold hh_obs_dim in Lx. rewrite B in Lx. exact Lx.
        - apply AF.
        - reflexivity.
        - exact W1.
        - exact W2.
        - exact W3.
        - rewrite C2, C3 in *. eexists. split; [eapply bind_eq; [exact E|reflexivity]|]. cbn [fst snd]. split; [exact FL|]. split; [|unfold ok; auto].
          unfold posted. split; [exact HS2|]. cbn [hc_run hc_set_run hc_set_net rn_out h_inst h_log h_like]. split; [exact AI|]. split; [exact AL|]. split; [exact AF|]. apply QK; [exact Hc|exact HS2|exact AQ]. }
      rewrite LM in LM2, PM2. rewrite EM2, bind_Ok.
      assert (GOAL : forall o v, (length o = (hh_dim m - hh_din m)%nat /\ forall d, (d < hh_dim m - hh_din m)%nat -> nth d o 0 = match hh_est m with
          | Likeliest => hmm_output (hcl m b) (w b) (h_like (hc_run (snd (nth b ms2 no_hclass)))) x d
          | Mixture => Rsum n (fun c => exp (LG c) / Rsum n (fun d => exp (LG d)) * hmm_output (hcl m c) (w c) (h_like (hc_run (snd (nth c ms2 no_hclass)))) x d) end) ->
        exists ms r0, Ok (hh_set_res (A := RA) (mkRes (A := RA) (rs_inst r) (rs_instn r) (rs_sm r) (rs_smn r) (rs_log r) (rs_likeliest r) o v) (hh_set_cls (A := RA) ms2 m1)) = Ok (hh_set_res (A := RA) r0 (hh_set_cls (A := RA) ms m1)) /\ length ms = n /\ results_sized n r0 /\
          (forall c, (c < n)%nat -> fst (nth c ms no_hclass) = hlabel m c /\ let h2 := snd (nth c ms no_hclass) in posted c h2 /\ (true = true -> ok c h2)) /\
          hh_top_report m insts LG (fun c d => hmm_output (hcl m c) (w c) (h_like (hc_run (snd (nth c ms no_hclass)))) x d) r0).
      { intros o v HO. exists ms2. eexists. split; [reflexivity|]. split; [exact LM2|]. split; [apply RSZ|]. split; [intros c Hc; destruct (PM2 c Hc) as (P1 & P2 & P3); split; [exact P1|]; split; [exact P2|intros _; exact P3]|].
        exists b. split; [exact FM|]. do 6 (split; [reflexivity|]). intros _. exact HO. }
      destruct (hh_est m) eqn:EST.
      + assert (NDm : NoDup (map fst ms2)).
        { replace (map fst ms2) with (map fst (hh_cls m)); [exact ND|]. apply (nth_ext_len _ _ EmptyString); [rewrite !map_length; symmetry; exact LM2|].
          intros i Hi. rewrite map_length in Hi. rewrite !(nth_map_in fst _ i _ no_hclass) by (first [exact Hi|rewrite LM2; exact Hi]). symmetry. exact (proj1 (PM2 i Hi)). }
        change (rs_likeliest r) with (hlabel m b) at 1. rewrite <- (proj1 (PM2 b Hb)). rewrite (mget_nth ms2 b no_hclass NDm) by (change (num RA) with R in *; rewrite LM2; exact Hb). rewrite bind_Ok. apply GOAL.
        destruct (PM2 b Hb) as (_ & _ & O1 & _ & O3). split; [exact O1|exact O3].
      + destruct (mix_outputs_ok (hh_cmode m) (hh_dim m - hh_din m) (rs_smn r) (map (fun e : string * hclass RA => (h_out (hc_run (snd e)), h_ocov (hc_run (snd e)))) ms2)) as (o & v & E & LO & LV & VO).
        { unfold r. cbn [rs_smn]. rewrite tab_length, map_length. symmetry. exact LM2. }
        { intros i Hi. rewrite map_length in Hi. change (num RA) with R in *. rewrite LM2 in Hi. rewrite (nth_map_in _ ms2 i _ no_hclass) by (rewrite LM2; exact Hi). cbn [fst snd].
          destruct (PM2 i Hi) as (_ & _ & O1 & O2 & _). destruct (CI i Hi) as (_ & _ & _ & _ & _ & CM). rewrite (CM EST) in O2. auto. }
        change (num RA) with R in *. rewrite E, bind_Ok. apply GOAL. split; [exact LO|]. intros d Hd. etransitivity; [exact (VO d Hd)|]. rewrite map_length, LM2.
        apply Rsum_ext. intros i Hi. rewrite (nth_map_in _ ms2 i _ no_hclass) by (rewrite LM2; exact Hi). cbn [fst snd].
        apply Rmult_eq_compat; [unfold r; cbn [rs_smn]; exact (nth_tab n (fun c => exp (LG c) / Rsum n (fun d => exp (LG d))) i 0 Hi)|]. apply (PM2 i Hi). exact Hd.
    - exists ms, r. split; [reflexivity|]. split; [exact LM|]. split; [exact (RSZ (rs_out r) (rs_ocov r))|]. split; [intros c Hc; destruct (PM c Hc) as (P1 & P2 & _); split; [exact P1|]; split; [exact P2|discriminate]|].
      exists b. split; [exact FM|]. do 6 (split; [reflexivity|]). intros C. congruence.
  Qed.
End Tail.

(** ** One observation *)
Lemma twice_snoc : forall {X} (l : list X) x, twice (l ++ [x]) = twice l ++ [x; x].
Proof. intros X l x. unfold twice. rewrite flat_map_app. reflexivity. Qed.

Definition hn_at (m : hhmm RA) (xs : list (list R)) (m' : hhmm RA) : Prop :=
  hh_same m m' /\ results_sized (hh_size m) (hh_res m') /\ forall c, (c < hh_size m)%nat -> hmm_at (hcl m c) xs (twice (hmm_logs (hcl m c) xs)) (hcl m' c).

Section Step.
  Variable m : hhmm RA.
  Hypothesis HU : hn_usable m.
  Hypothesis HC : forall c, (c < hh_size m)%nat -> hc_hier (hcl m c) = false.
  Local Notation n := (hh_size m).
  Local Notation Nc c := (hc_n (hcl m c)).

  Lemma hn_cls : forall c, (c < n)%nat -> hn_class m (hcl m c).
  Proof. intros c Hc. pose proof HU as (_ & _ & U & _). rewrite Forall_forall in U. apply (U (nth c (hh_cls m) no_hclass)). apply nth_In. exact Hc. Qed.

  Lemma hn_step : forall xs m' x, hn_at m xs m' -> length x = hh_obs_dim m ->
    exists m2, hh_filter (A := RA) x m' = Ok m2 /\ hn_at m (xs ++ [x]) m2 /\ hn_report m twice (xs ++ [x]) x m2.
  Proof.
    intros xs m' x (SA & RS & CL) Lx. pose proof HU as (U1 & U2 & _ & U4 & U5). pose proof SA as (A1 & A2 & A3 & A4 & A5 & A6 & A7 & A8 & A9 & A10 & _). pose proof (same_size m m' SA) as ES.
    set (inst c := hmm_inst (hcl m c) (xs ++ [x])). set (LG c := window_mean (hh_win m) (twice (hmm_logs (hcl m c) (xs ++ [x])))). set (w c := hmm_filtering (hcl m c) (xs ++ [x])).
    set (stepped c (h2 : hclass RA) := hmm_at (hcl m c) (xs ++ [x]) (twice (hmm_logs (hcl m c) xs) ++ [ln (inst c)]) h2 /\ h_inst (hc_run h2) = inst c).
    destruct (mapM_at (fun c (y : string * hclass RA) => fst y = hlabel m c /\ stepped c (snd y)) (fun e : string * hclass RA => let* h := hm_filter (A := RA) x (snd e) in Ok (fst e, h)) (hh_cls m') no_hclass no_hclass) as (ms & EM & LM & PM).
    { intros c Hc. change (length (hh_cls m')) with (hh_size m') in Hc. rewrite ES in Hc. destruct (hn_cls c Hc) as (UC & C1 & C2 & C3 & _). destruct (same_cls m m' c SA Hc) as (FL & _).
      destruct (step_ok (hcl m c) UC xs (twice (hmm_logs (hcl m c) xs)) (hcl m' c) x (HC c Hc) (CL c Hc)) as (h2 & E & K1 & K2 & _).
      { unfold hmm_obs_dim. rewrite C1, C2, C3. exact Lx. }
      exists (hlabel m' c, h2). split; [eapply bind_eq; [exact E|reflexivity]|]. split; [exact FL|]. split; [exact K1|exact K2]. }
    change (length (hh_cls m')) with (hh_size m') in LM, PM. rewrite ES in LM, PM.
    destruct (iterM_inv (S := list R) (fun (_ : nat) (v : list R) => length v = n) n (fun i (v : list R) => let* e := rd ms i in wr v i (h_inst (hc_run (snd e)))) (rs_inst (hh_res m'))) as (il & EI & LI).
    { apply RS. } { intros i v Hi Lv. rewrite (rd_nth ms i no_hclass) by (change (num RA) with R in *; lia). rewrite bind_Ok. eexists. split; [apply wr_ok; lia|]. rewrite upd_length. exact Lv. }
    set (m1 := hh_set_res (A := RA) (mkRes (A := RA) il (rs_instn (hh_res m')) (rs_sm (hh_res m')) (rs_smn (hh_res m')) (rs_log (hh_res m')) (rs_likeliest (hh_res m')) (rs_out (hh_res m')) (rs_ocov (hh_res m'))) (hh_set_cls (A := RA) ms m')).
    assert (EF : hh_forward (A := RA) x m' = Ok m1).
    { unfold hh_forward. rewrite A7, U4, ES. eapply bind_eq; [exact EM|]. eapply bind_eq; [exact EI|]. reflexivity. }
    set (Q c (h2 : hclass RA) := hmm_at (hcl m c) (xs ++ [x]) (twice (hmm_logs (hcl m c) (xs ++ [x]))) h2 /\ h_prog (hc_run h2) = mean_position (Nc c) (h_like (hc_run h2)) (w c)).
    destruct (tail_ok m m1 x inst LG w Q U1 U2 U5 Lx hn_cls) as (ms2 & r & E2 & L2 & R2 & V2 & T2).
    { exact A1. } { exact A2. } { exact A3. } { exact A5. } { exact A6. } { exact LM. }
    { destruct RS as (R1 & R2 & R3 & R4 & R5). unfold results_sized, m1. cbn [hh_res hh_set_res hh_set_cls rs_inst rs_instn rs_sm rs_smn rs_log]. auto. }
    { intros c i Hc Hi. apply (filtering_dist (hcl m c) (proj1 (hn_cls c Hc)) (xs ++ [x])); [destruct xs; discriminate|exact Hi]. }
    { intros c h2 ss o v Hc HS ((HS0 & K) & P). split; [|exact P]. split; [exact HS|]. destruct (xs ++ [x]) eqn:EX; [destruct xs; discriminate|]. exact K. }
    { intros c Hc. destruct (PM c Hc) as (FL & (HS & K) & KI). destruct (hn_cls c Hc) as (UC & C1 & C2 & C3 & C4 & _). split; [exact FL|].
      change (hcl m1 c) with (snd (nth c ms no_hclass)). set (h1 := snd (nth c ms no_hclass)) in *.
      assert (K' : h_started (hc_run h1) = true /\ length (h_alpha (hc_run h1)) = Nc c /\ (forall i, (i < Nc c)%nat -> nth i (h_alpha (hc_run h1)) 0 = w c i) /\ window_of (hh_win m) (twice (hmm_logs (hcl m c) xs) ++ [ln (inst c)]) (h_buf (hc_run h1))).
      { unfold w. rewrite <- C4. destruct (xs ++ [x]) eqn:EX; [destruct xs; discriminate|exact K]. }
      clear K. destruct K' as (K1 & K2 & K3 & K4). pose proof HS as (_ & _ & _ & _ & _ & F6 & _).
      assert (WT : forall i, (i < Nc c)%nat -> hm_weight h1 i = Ok (w c i)).
      { intros i Hi. unfold hm_weight. rewrite F6, (HC c Hc). change (num RA) with R in *. rewrite (rd_nth (X := R) _ i 0) by lia. rewrite K3 by exact Hi. reflexivity. }
      destruct (post_ok (hcl m c) UC h1 (w c) (fun _ => 0) (hh_win m) (twice (hmm_logs (hcl m c) xs) ++ [ln (inst c)]) HS WT) as (l & buf & FM & WB & E).
      { intros C. rewrite (HC c Hc) in C. discriminate. } { rewrite <- C4. apply UC. } { exact K4. }
      rewrite KI in *. rewrite (HC c Hc) in E.
      assert (ELG : (twice (hmm_logs (hcl m c) xs) ++ [ln (inst c)]) ++ [ln (inst c)] = twice (hmm_logs (hcl m c) (xs ++ [x]))) by (rewrite logs_snoc, twice_snoc, <- app_assoc; reflexivity).
      rewrite ELG in E, WB. eexists. split; [exact E|]. split.
      - unfold posted. split; [exact HS|]. split; [exact KI|]. split; [reflexivity|]. split; [exact FM|]. split; [|reflexivity]. split; [exact HS|]. apply at_some; [destruct xs; discriminate|].
        split; [exact K1|]. split; [exact K2|]. split; [exact K3|]. rewrite C4. exact WB.
      - unfold windowed. do 3 (split; [reflexivity|]). intros i Hi. exact (WT i Hi). }
    exists (hh_set_res (A := RA) r (hh_set_cls (A := RA) ms2 m1)). split; [rewrite filter_tail; eapply bind_eq; [exact EF|exact E2]|]. split; [|split].
    - split; [|split].
      + apply (same_of m _ m'); try reflexivity; [exact SA|exact L2|]. intros c Hc. destruct (V2 c Hc) as (FL & (HS & _) & _). split; [exact FL|exact HS].
      + exact R2.
      + intros c Hc. destruct (V2 c Hc) as (_ & (_ & _ & _ & _ & AT & _) & _). exact AT.
    - intros c Hc. destruct (V2 c Hc) as (_ & (_ & K1 & K2 & K3 & _ & K4) & KO). destruct (hn_cls c Hc) as (UC & C1 & C2 & C3 & _). split; [exact K1|]. split; [exact K2|].
      unfold hmm_report. rewrite C1, C2, C3. split; [exact K3|]. split; [exact K4|exact KO].
    - exact T2.
  Qed.
End Step.

Lemma hn_filters_report : forall m, hn_usable m -> hn_fresh m -> forall xs, Forall (fun x => length x = hh_obs_dim m) xs ->
  exists m', hh_filters (A := RA) xs m = Ok m' /\ hn_at m xs m' /\ forall ys y, xs = ys ++ [y] -> hn_report m twice xs y m'.
Proof.
  intros m HU (RS & HF). assert (HF' : forall c, (c < hh_size m)%nat -> hmm_fresh (hcl m c)) by (intros c Hc; rewrite Forall_forall in HF; apply (HF (nth c (hh_cls m) no_hclass)); apply nth_In; exact Hc).
  induction xs as [|x xs IH] using rev_ind; intros D.
  - exists m. split; [reflexivity|]. split; [|intros [|] ? ?; discriminate]. split; [|split; [exact RS|intros c Hc; apply fresh_at; [exact (proj1 (hn_cls m HU c Hc))|apply HF'; exact Hc]]].
    unfold hh_same. do 10 (split; [reflexivity|]). apply (Forall2_nth _ _ _ no_hclass no_hclass); [reflexivity|]. intros c Hc. split; [reflexivity|]. apply hmm_same_refl. exact (proj1 (hn_cls m HU c Hc)).
  - apply Forall_app in D. destruct D as (D & Dx). inversion Dx as [|? ? Lx _]; subst. destruct (IH D) as (m' & E & M & _).
    destruct (hn_step m HU (fun c Hc => proj1 (HF' c Hc)) xs m' x M Lx) as (m2 & E2 & M2 & R2). exists m2. rewrite hh_filters_snoc, E. split; [exact E2|]. split; [exact M2|].
    intros ys y EY. apply app_inj_tail in EY. destruct EY as (_ & <-). exact R2.
Qed.
