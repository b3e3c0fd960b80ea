(** Recognition with a mixture model that has just been trained. *)
From Coq Require Import String List Bool Arith Lia ZArith Reals Lra Sorting.Sorted.
From Verif Require Import Base BaseFacts Arith RFacts Model_Map Model_Ring Model_Phrase Model_TrainingSet Model_Gaussian Model_Config Model_KMeans Model_GMM
  Model_Shared Model_Train Model_Reload Model_Workflow Spec_Common Spec_Phrase Spec_TrainingSet Spec_Train Spec_Shared Spec_Matrix Spec_Gaussian Spec_GMM Spec_Workflow
  Proofs_Map Proofs_Ring Proofs_GMM Proofs_GMM2 Proofs_GMM3 Proofs_GMM4 Proofs_HHMM6 Proofs_Workflow Proofs_Workflow2 Proofs_Workflow3.
Import ListNotations.
Local Open Scope list_scope.
Local Open Scope nat_scope.

Local Notation world := (world RA).

(** ** Learning is a function *)

Lemma ll_after_fun : forall frames g k x y, ll_after frames g k x -> ll_after frames g k y -> x = y.
Proof. intros frames g [|k] x y; cbn [ll_after]; [congruence|]. intros (h & E & ->) (h' & E' & ->). congruence. Qed.

Lemma stops_at_fun : forall p frames g n n', stops_at p frames g n -> stops_at p frames g n' -> n = n'.
Proof.
  assert (L : forall p frames g n n', stops_at p frames g n -> stops_at p frames g n' -> ~ n < n').
  { intros p frames g n n' (P & (a & b & A1 & A2 & A3) & _) (_ & _ & Q) C. destruct (Q n ltac:(lia)) as (c & d & B1 & B2 & B3).
    rewrite (ll_after_fun _ _ _ _ _ A1 B1), (ll_after_fun _ _ _ _ _ A2 B2) in A3. exact (B3 A3). }
  intros p frames g n n' H H'. pose proof (L _ _ _ _ _ H H'). pose proof (L _ _ _ _ _ H' H). lia.
Qed.

Lemma learned_fun : forall p g0 data g g', learned p g0 data g -> learned p g0 data g' -> g = g'.
Proof.
  intros p g0 data g g' (g1 & g2 & n & E1 & E2 & E3 & S) (g1' & g2' & n' & E1' & E2' & E3' & S').
  rewrite E1 in E1'. injection E1' as <-. rewrite E2 in E2'. injection E2' as <-. rewrite (stops_at_fun _ _ _ _ _ S S') in E3. congruence.
Qed.

(** ** The trained model *)

Lemma reset1_usable : forall g, class_usable g -> class_usable (gm_reset1 g).
Proof.
  intros g U. pose proof (reset_track g U) as T. pose proof (track_ready g [] _ T (proj1 U)) as R. split; [exact R|].
  pose proof T as (_ & _ & _ & T4 & _ & _ & _ & _ & _ & T10). rewrite T4. split; [apply U|]. apply (window_wf (gc_win g) _ _ (proj1 (proj2 U)) T10).
Qed.

Section Trained.
  Variable u : junk RA.

  Lemma trained_view : forall (s : shared RA) cf recs gs r (f : gclass RA -> gclass RA), gs <> [] -> NoDup (map fst gs) ->
    Forall (fun e => class_made u s cf recs (fst e) (snd e)) gs -> (forall l, In l (map fst gs) -> In l (map fst recs)) ->
    (sp_bim s = true -> est_of (cf_est cf) = Mixture -> one_mode cf recs) ->
    (forall g, class_usable g -> class_usable (f g) /\ gc_bim (f g) = gc_bim g /\ gc_dim (f g) = gc_dim g /\ gc_din (f g) = gc_din g /\ gc_par (f g) = gc_par g) ->
    model_usable (gq_view (mkGM s cf (map (fun e => (fst e, f (snd e))) gs) r)).
  Proof.
    intros s cf recs gs r f NE ND F HL OM Hf. unfold gq_view. cbn [gq_sp gq_cf gq_cls gq_res]. split; [cbn [gm_models]; destruct gs; [contradiction|discriminate]|].
    cbn [gm_models]. rewrite map_map. cbn [fst]. split; [exact ND|]. apply Forall_forall. intros e He. apply in_map_iff in He. destruct He as ([l g] & <- & He).
    rewrite Forall_forall in F. destruct (F _ He) as (_ & U & B & D & I & W & P). cbn [fst snd] in *. destruct (Hf g U) as (U' & B' & D' & I' & P').
    unfold class_in. cbn [snd gm_bim gm_dim gm_din gm_est gm_cmode]. split; [exact U'|]. split; [congruence|]. split; [congruence|]. split; [congruence|].
    intros Q1 Q2. unfold gc_mode. rewrite P', P. apply (OM Q1 Q2). apply HL. apply (in_map fst) in He. exact He.
  Qed.

  (** Filtering through the view. *)
  Lemma filter_keeps : forall (x : list (num RA)) (v v' : gmm RA), gm_filter (A := RA) x v = Ok v' ->
    gm_bim v' = gm_bim v /\ gm_dim v' = gm_dim v /\ gm_din v' = gm_din v /\ gm_est v' = gm_est v /\ gm_cmode v' = gm_cmode v.
  Proof.
    intros x v v' H. unfold gm_filter in H. destruct (mapM _ (gm_models v)) as [ms| |]; cbn [bind] in H; try discriminate.
    destruct (update_results _ _ _ _) as [r| |]; cbn [bind] in H; try discriminate. cbv zeta in H. cbn [gm_set gm_bim gm_dim gm_din gm_est gm_cmode] in H.
    destruct (negb (gm_bim v)); [injection H as <-; repeat split|]. destruct (usub _ _) as [no| |]; cbn [bind] in H; try discriminate. destruct (gm_est v) eqn:GE.
    - destruct (mget _ _ _); [injection H as <-; repeat split; exact GE|discriminate].
    - destruct (mix_outputs _ _ _ _) as [[o c]| |]; cbn [bind] in H; try discriminate. injection H as <-; repeat split; exact GE.
  Qed.

  Lemma filters_view : forall xs (m : gmodel RA) v, foldM (fun m x => gm_filter (A := RA) x m) xs (gq_view m) = Ok v ->
    gq_filters xs m = Ok (gq_set (gq_sp m) (gm_models v) (gm_res v) m) /\ gq_view (gq_set (gq_sp m) (gm_models v) (gm_res v) m) = v.
  Proof.
    unfold gq_filters. induction xs as [|x xs IH]; intros m v H; cbn [foldM] in *.
    - injection H as <-. split; [destruct m; reflexivity|]. destruct m; reflexivity.
    - destruct (gm_filter x (gq_view m)) as [v1| |] eqn:E; cbn [bind] in H; try discriminate. unfold gq_filter at 1. rewrite E. cbn [bind].
      destruct (filter_keeps _ _ _ E) as (K1 & K2 & K3 & K4 & K5).
      assert (V : gq_view (gq_set (gq_sp m) (gm_models v1) (gm_res v1) m) = v1).
      { destruct v1. unfold gq_view, gq_set in *. cbn in *. congruence. }
      rewrite <- V in H. destruct (IH _ _ H) as (E1 & E2). cbn [gq_sp gq_set] in E1, E2. split; [exact E1|exact E2].
  Qed.

  (** [reset] twice is [reset] once. *)
  Lemma ring_again : forall (r : ring (num RA)) L, ring_clear (ring_resize n0 (ring_clear (ring_resize n0 r L)) L) = ring_clear (ring_resize n0 r L).
  Proof.
    intros r L. assert (E : r_length (ring_clear (ring_resize n0 r L)) = L).
    { unfold ring_clear, ring_resize. cbn [r_length]. destruct (Nat.eqb_spec L (r_length r)) as [->|N]; [reflexivity|].
      destruct (r_length r <? L); [reflexivity|]. destruct (L <=? r_index r); reflexivity. }
    unfold ring_resize at 1. rewrite E, Nat.eqb_refl. reflexivity.
  Qed.

  Lemma resize_again : forall {X} n (d : X) v, length v = n -> vresize n d v = v.
  Proof. intros X n d v <-. unfold vresize. rewrite firstn_all, Nat.sub_diag, app_nil_r. reflexivity. Qed.

  Lemma reset_reset : forall m m' : gmodel RA, gq_reset m = Ok m' -> gq_reset m' = Ok m'.
  Proof.
    intros [s cf cls r] m'. unfold gq_reset, gm_reset, gq_view, gq_set. cbn [gq_sp gq_cf gq_cls gq_res gm_models gm_res gm_bim gm_dim gm_din gm_cmode gm_set].
    destruct (sp_bim s) eqn:B.
    - destruct (usub (sp_dim s) (sp_din s)) as [no| |] eqn:U; cbn [bind]; intro H; try discriminate. injection H as <-.
      cbn [gq_sp gq_cf gq_cls gq_res]. rewrite B, U. cbn [bind gm_models gm_res gm_set rs_inst rs_instn rs_sm rs_smn rs_log rs_out rs_ocov rs_likeliest].
      rewrite map_length, !(resize_again _ _ _ (vresize_length _ _ _)). rewrite map_map. do 2 f_equal.
      apply map_ext. intros [l g]. cbn [fst snd]. f_equal. unfold gm_reset1, gc_set_buf. cbn [gc_buf gc_win gc_bim gc_dim gc_din gc_par gc_coef gc_comp gc_beta gc_reg gc_inst gc_log gc_out gc_ocov].
      rewrite ring_again. reflexivity.
    - cbn [bind]; intro H; try discriminate. injection H as <-.
      cbn [gq_sp gq_cf gq_cls gq_res]. rewrite B. cbn [bind gm_models gm_res gm_set rs_inst rs_instn rs_sm rs_smn rs_log rs_out rs_ocov rs_likeliest].
      rewrite map_length, !(resize_again _ _ _ (vresize_length _ _ _)). rewrite map_map. do 2 f_equal.
      apply map_ext. intros [l g]. cbn [fst snd]. f_equal. unfold gm_reset1, gc_set_buf. cbn [gc_buf gc_win gc_bim gc_dim gc_din gc_par gc_coef gc_comp gc_beta gc_reg gc_inst gc_log gc_out gc_ocov].
      rewrite ring_again. reflexivity.
  Qed.

  (** [filter] when the results have no room. *)
  Lemma filter1_any : forall (g : gclass RA) (x : list R) W vs, gm_ready g -> 1 <= W -> window_of W vs (gc_buf g) -> length x = obs_dim g ->
    exists h, gm_filter1 (A := RA) x g = Ok h.
  Proof.
    intros g x W vs Rg HW HB Lx. destruct (likelihood_ok g x W vs Rg HW Lx HB) as (b & buf & E & LB & VB & WB). unfold gm_filter1. change (num RA) with R in *.
    rewrite E. cbn [bind]. match goal with |- context [gc_bim ?h] => change (gc_bim h) with (gc_bim g); set (h1 := h) in * end. destruct (gc_bim g) eqn:B; [|eexists; reflexivity].
    destruct (regression_ok h1 x) as (o & v & ER & _).
    - destruct Rg as ((H1 & H2 & H3 & H4 & H5) & _). split; [exact H1|]. split; [exact H2|]. split; [exact H3|]. split; [exact LB|exact H5].
    - exact (proj1 (proj2 Rg)).
    - exact B.
    - unfold obs_dim in Lx. rewrite B in Lx. exact Lx.
    - exact VB.
    - eexists. exact ER.
  Qed.

  Lemma empty_window : window_of 1 [] (ring_new 0%R 1 1).
  Proof.
    exists (ring_new 0%R 1 1). split; [|split; reflexivity]. unfold ring_new, ring_wf. cbn. repeat split; auto. intros c Hc. destruct c; [reflexivity|lia].
  Qed.

  Lemma filter_no_room : forall (m : gmodel RA) (x : list R), gq_cls m <> [] -> rs_inst (gq_res m) = [] ->
    Forall (fun e => gm_ready (snd e) /\ gc_buf (snd e) = ring_new n0 1 1 /\ length x = obs_dim (snd e)) (gq_cls m) ->
    gq_filter (A := RA) x m = UB.
  Proof.
    intros m x NE RS F. unfold gq_filter, gm_filter, gq_view. cbn [gm_models gm_res].
    assert (E : exists ms, mapM (fun e : string * gclass RA => let* g := gm_filter1 (A := RA) x (snd e) in Ok (fst e, g)) (gq_cls m) = Ok ms /\ ms <> []).
    { destruct (gq_cls m) as [|e l]; [contradiction|]. clear NE. revert e F. induction l as [|e' l IH]; intros e F; inversion F as [|? ? (R1 & B1 & L1) F']; subst; cbn [mapM].
      - destruct (filter1_any (snd e) x 1 [] R1 (le_n 1)) as (h & ->); [rewrite B1, n0_RA; exact empty_window|exact L1|]. cbn [bind]. eexists. split; [reflexivity|discriminate].
      - destruct (filter1_any (snd e) x 1 [] R1 (le_n 1)) as (h & ->); [rewrite B1, n0_RA; exact empty_window|exact L1|]. cbn [bind].
        destruct (IH e' F') as (ms & E & _). cbn [mapM] in E. change (num RA) with R in *. rewrite E. cbn [bind]. eexists. split; [reflexivity|discriminate]. }
    destruct E as (ms & E & N). change (num RA) with R in *. rewrite E. cbn [bind]. unfold update_results. rewrite RS.
    assert (U : forall (insts : list R) n, iterM (S n) (fun i v => let* x := rd insts i in wr v i x) ([] : list R) = UB \/ insts = []).
    { intros insts n. destruct insts as [|a insts]; [right; reflexivity|left]. induction n as [|n IH].
      - cbn [iterM bind]. unfold rd. cbn [nth_error bind]. reflexivity.
      - cbn [iterM] in IH |- *. rewrite IH. reflexivity. }
    destruct ms as [|e ms]; [contradiction|]. cbn [map length].
    destruct (U (gc_inst (snd e) :: map (fun e => gc_inst (snd e)) ms) (length (map fst ms))) as [C|C]; [|discriminate].
    change (num RA) with R in *. rewrite C. reflexivity.
  Qed.
End Trained.
