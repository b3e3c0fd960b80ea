(** Resets of a hierarchical model, training in the words of the specification, and classes with one state. *)
From Coq Require Import String List Bool Arith Lia ZArith Reals Lra Sorting.Sorted.
From Verif Require Import Base BaseFacts Arith RFacts Model_Map Model_Ring Model_Phrase Model_TrainingSet Model_Gaussian Model_Config Model_KMeans Model_GMM
  Model_HMM Model_HHMM Model_Shared Model_Train Model_Reload Model_Workflow Model_Workflow2 Spec_Common Spec_Phrase Spec_TrainingSet Spec_Train Spec_Shared Spec_Matrix Spec_Gaussian Spec_GMM
  Spec_HMM Spec_HMMInit Spec_EM2 Spec_HHMM Spec_HHMM3 Spec_Workflow Spec_Workflow2
  Proofs_TrainingSet7 Proofs_Workflow Proofs_HMM7 Proofs_HMM8 Proofs_HMM9 Proofs_HMM10 Proofs_HMM11 Proofs_HMM12 Proofs_HMM14 Proofs_HHMM4 Proofs_HHMM5 Proofs_EM Proofs_EM2 Proofs_EM4 Proofs_EM5 Proofs_EM6 Proofs_EM7 Proofs_Workflow3 Proofs_Workflow6 Proofs_Workflow8 Proofs_Workflow9 Proofs_Workflow10.
Import ListNotations.
Local Open Scope list_scope.
Local Open Scope nat_scope.

(** ** Resetting twice *)

Lemma vresize_idem : forall {X} n (d : X) v, vresize n d (vresize n d v) = vresize n d v.
Proof.
  intros X n d v. pose proof (vresize_length n d v) as L. unfold vresize at 1. rewrite L, Nat.sub_diag. cbn [repeat]. rewrite app_nil_r. apply firstn_all2. lia.
Qed.

Section Idem.
  Context {A : arith}.

  Lemma ring_idem : forall (d : num A) r len, ring_clear (ring_resize d (ring_clear (ring_resize d r len)) len) = ring_clear (ring_resize d r len).
  Proof.
    intros d r len. assert (L : r_length (ring_clear (ring_resize d r len)) = len).
    { unfold ring_clear, ring_resize. cbn [r_length]. destruct (Nat.eqb_spec len (r_length r)) as [E|E]; [symmetry; exact E|]. destruct (if r_length r <? len then _ else _) as [f i]. reflexivity. }
    unfold ring_resize at 1. rewrite L, Nat.eqb_refl. reflexivity.
  Qed.

  Lemma cyclic_idem : forall N mode (p : num A) tr tr', cyclic N mode p tr = Ok tr' -> cyclic N mode p tr' = Ok tr'.
  Proof.
    intros N mode p tr tr'. unfold cyclic. destruct (1 <? N); [|congruence]. set (q := match mode with Ergodic => _ | LeftRight => _ end). intro E.
    unfold wr in *. destruct (q <? length tr) eqn:L; [|discriminate]. injection E as <-. rewrite upd_length, L. f_equal.
    apply Nat.ltb_lt in L. apply (nth_ext _ _ p p); [apply upd_length|]. intros i Hi. destruct (Nat.eq_dec i q) as [->|N1].
    - rewrite !nth_upd_eq; rewrite ?upd_length; auto.
    - rewrite nth_upd_neq by congruence. reflexivity.
  Qed.

  Lemma hm_reset_idem : forall h h' : hclass A, hm_reset h = Ok h' -> hm_reset h' = Ok h'.
  Proof.
    intros h h'. unfold hm_reset. destruct (hc_hier h) eqn:HH.
    - intro E. injection E as <-. unfold hc_n. cbn. rewrite HH, ring_idem, !vresize_idem. reflexivity.
    - destruct (cyclic _ _ _ _) as [tr| |] eqn:C; cbn [bind]; try discriminate. intro E. injection E as <-. unfold hc_n, hc_mode in *. cbn. rewrite HH, ring_idem.
      rewrite (cyclic_idem _ _ _ _ _ C). reflexivity.
  Qed.

  Lemma hm_reset_hier : forall h h' : hclass A, hm_reset h = Ok h' -> hc_hier h' = hc_hier h.
  Proof.
    intros h h'. unfold hm_reset. destruct (hc_hier h) eqn:HH; [intro E; injection E as <-; exact HH|].
    destruct (cyclic _ _ _ _); cbn [bind]; try discriminate. intro E. injection E as <-. exact HH.
  Qed.

  Lemma mapM_self : forall {X} (f : X -> res X) l, (forall x, In x l -> f x = Ok x) -> mapM f l = Ok l.
  Proof. intros X f l. induction l as [|x l IH]; intro H; [reflexivity|]. cbn [mapM]. rewrite (H x (or_introl eq_refl)). cbn [bind]. rewrite IH by (intros y Hy; apply H; right; exact Hy). reflexivity. Qed.

  Lemma mapM_in : forall {X Y} (f : X -> res Y) l l' y, mapM f l = Ok l' -> In y l' -> exists x, In x l /\ f x = Ok y.
  Proof.
    intros X Y f l. induction l as [|x l IH]; intros l' y E Hy; cbn [mapM] in E; [injection E as <-; destruct Hy|].
    destruct (f x) as [z| |] eqn:Ef; cbn [bind] in E; try discriminate. destruct (mapM f l) as [zs| |] eqn:El; cbn [bind] in E; try discriminate. injection E as <-.
    destruct Hy as [<-|Hy]; [exists x; split; [left; reflexivity|exact Ef]|]. destruct (IH _ _ eq_refl Hy) as (x' & Hx & Ex). exists x'. split; [right; exact Hx|exact Ex].
  Qed.

  Lemma hh_reset_idem : forall m m' : hhmm A, hh_reset m = Ok m' -> hh_reset m' = Ok m'.
  Proof.
    intros m m' E. unfold hh_reset in E. destruct (reset_all (hh_cls m)) as [ms| |] eqn:E1; cbn [bind] in E; try discriminate.
    destruct (if hh_bim m then _ else _) as [[o c]| |] eqn:EO; cbn [bind] in E; try discriminate.
    match type of E with bind ?X _ = _ => destruct X as [ms'| |] eqn:E2 end; cbn [bind] in E; try discriminate. injection E as <-.
    assert (LN : length ms' = length (hh_cls m)) by (rewrite (mapM_length _ _ _ E2); exact (mapM_length _ _ _ E1)).
    assert (FX : forall e, In e ms' -> hc_hier (snd e) = hh_hier m /\ hm_reset (snd e) = Ok (snd e)).
    { intros e He. destruct (mapM_in _ _ _ _ E2 He) as (x & _ & Ex). destruct (hm_reset (hc_set_hier (hh_hier m) (snd x))) as [h| |] eqn:ER; cbn [bind] in Ex; try discriminate.
      injection Ex as <-. cbn [snd]. split; [rewrite (hm_reset_hier _ _ ER); reflexivity|apply (hm_reset_idem _ _ ER)]. }
    unfold hh_reset. cbn [hh_cls hh_set_res hh_set_front hh_set_cls hh_size hh_bim hh_dim hh_din hh_cmode hh_hier hh_res rs_inst rs_instn rs_sm rs_smn rs_log rs_likeliest rs_out rs_ocov hh_v1 hh_v2].
    assert (Z : forall f : hclass A -> hclass A, (forall e, In e ms' -> f (snd e) = snd e) -> mapM (fun e : string * hclass A => let* h := hm_reset (f (snd e)) in Ok (fst e, h)) ms' = Ok ms').
    { intros f Hf. apply mapM_self. intros e He. rewrite (Hf e He), (proj2 (FX e He)). cbn [bind]. destruct e; reflexivity. }
    unfold reset_all. rewrite (Z (fun h => h)) by reflexivity. cbn [bind].
    assert (EO' : (if hh_bim m then let* no := usub (hh_dim m) (hh_din m) in Ok (vresize no n0 o, repeat n0 (csq (hh_cmode m) no)) else Ok (o, c)) = Ok (o, c)).
    { destruct (hh_bim m); [|reflexivity]. destruct (usub (hh_dim m) (hh_din m)) as [no| |]; cbn [bind] in *; try discriminate. injection EO as <- <-. rewrite vresize_idem. reflexivity. }
    rewrite EO'. cbn [bind]. rewrite (Z (hc_set_hier (hh_hier m))).
    - cbn [bind]. change (hh_size (hh_set_res _ _)) with (length ms'). rewrite LN. rewrite !vresize_idem. reflexivity.
    - intros e He. destruct (FX e He) as (HF & _). destruct (snd e). cbn in *. subst. reflexivity.
  Qed.

End Idem.

Lemma hq_reset_idem : forall m m' : hmodel RA, hq_reset (A := RA) m = Ok m' -> hq_reset (A := RA) m' = Ok m'.
Proof.
  intros m m' E. unfold hq_reset in *. destruct (hh_reset (hq_view m)) as [v| |] eqn:EV; cbn [bind] in E; try discriminate. injection E as <-.
  rewrite (put_view m v (reset_static _ _ EV)), (hh_reset_idem _ _ EV). reflexivity.
Qed.

(** ** Training *)

Lemma htrain : forall u (w : world RA) k t recs (m : hmodel RA), recorded w k t recs -> recs <> [] -> set_up (t_bim t) (hq_sp m) -> hall_learnable u t m recs ->
  exists s hs r, htrained u t recs m (unreset s m hs r) /\ NoDup (map fst hs) /\ hs <> [] /\
    hq_train u w k m = (if (cf_mt (hq_cf m) =? 0)%Z then Ok (unreset s m hs r) else hq_reset (unreset s m hs r)).
Proof.
  intros u w k t recs m H NE SU LE. destruct (hq_train_ok u w k t recs m H NE SU) as (s & hs & r & S1 & S2 & S3 & S4 & S5 & S6 & LB & CM & RS & E).
  { intros s S1 S2 S3 S4 S5. apply LE. repeat split; try assumption; apply S1. }
  destruct (recorded_labels w k t recs H) as (LR & SO). exists s, hs, r.
  assert (NH : hs <> []). { destruct recs as [|e recs']; [congruence|]. intros ->. cbn in LB. specialize (LR (fst e)). rewrite <- LB in LR. apply LR. left. reflexivity. }
  split; [|split; [rewrite LB; apply sorted_nodup, SO|split; [exact NH|exact E]]].
  unfold htrained, fetched, even_top. cbn [unreset hq_cf hq_sp hq_cls hq_prior hq_trans hq_exit hq_started hq_res].
  rewrite LB. repeat split; try assumption; try apply S1; try apply LR; apply RS.
Qed.

(** ** Classes with one state *)

Lemma one_rows : forall k data h, hmm_ready h -> phrases_of h data -> hc_n h = 1 -> hc_prior h 0 = 1%R -> (0 < hc_trans h 0 0)%R ->
  Exists (fun ph : list (list R) => 2 <= length ph) data -> (INR (length (concat data)) <= 10 ^ 90)%R -> rows_kept k data h.
Proof.
  induction k as [|k IH]; intros data h HR HD N1 P1 A1 EX HB; [exact I|]. cbn [rows_kept].
  set (m := Rlsum (map (fun ph : list (list R) => INR (length ph - 1)) data)).
  assert (M1 : (1 <= m)%R).
  { unfold m. clear -EX. induction EX as [p l H|p l H IH]; unfold Rlsum in *; cbn [map fold_right].
    - assert (1 <= INR (length p - 1))%R by (change 1%R with (INR 1); apply le_INR; lia).
      assert (0 <= fold_right Rplus 0 (map (fun ph : list (list R) => INR (length ph - 1)) l))%R by (apply (Rlsum_nonneg (map (fun ph : list (list R) => INR (length ph - 1)) l)); intros y Hy; apply in_map_iff in Hy; destruct Hy as (ph & <- & _); apply pos_INR). lra.
    - pose proof (pos_INR (length p - 1)). lra. }
  assert (Q : (0 < new_trans h data 0 0 < 1)%R). { destruct (trans_one h data HR HD N1) as [X|(_ & X)]; [exact X|]. fold m in X. lra. }
  assert (ROW : forall i, i < hc_n h -> (min_row <= Rsum (hc_n h) (new_trans h data i))%R).
  { intros i Hi. rewrite N1 in *. assert (i = 0) as -> by lia. cbn [Rsum]. rewrite Rplus_0_l.
    pose proof (new_trans_ge h data HR HD 0 0 ltac:(lia) ltac:(lia)) as G. rewrite (moves_one h data HR HD N1), (visits_one h data HR HD N1) in G. fold m in G. specialize (G ltac:(lra)). refine (Rle_trans _ _ _ _ G).
    pose proof reg5_pos. assert (R5 : (2 * reg5 <= 1)%R). { unfold reg5. assert (/ 10 ^ 5 <= / 10 ^ 1)%R by (apply Rinv_le_contravar; [apply pow_lt; lra|apply Rle_pow; [lra|lia]]). rewrite pow_1 in *. lra. }
    pose proof (frames_len h data HD N1) as FL. change (num RA) with R in *. unfold min_row. apply (Rmult_le_reg_r (INR (length (concat data)) + 2 * reg5)%R); [lra|]. unfold Rdiv. rewrite Rmult_assoc, Rinv_l by lra. rewrite Rmult_1_r.
    apply Rle_trans with 1%R; [|exact M1]. apply Rle_trans with (/ 10 ^ 100 * 10 ^ 100)%R; [|right; apply Rinv_l, pow_nonzero; lra]. apply Rmult_le_compat_l; [left; apply Rinv_0_lt_compat, pow_lt; lra|].
    apply Rle_trans with (10 ^ 90 + 1)%R; [lra|]. replace (10 ^ 100)%R with (10 ^ 90 * 10 ^ 10)%R by (rewrite <- pow_add; reflexivity). assert (1 <= 10 ^ 90)%R by (apply pow_R1_Rle; lra). assert (2 <= 10 ^ 10)%R by (apply Rle_trans with (10 ^ 1)%R; [lra|apply Rle_pow; [lra|lia]]). nra. }
  split; [exact ROW|]. intros h' lp E. destruct (update_ok h data HR HD) as (h3 & E3 & RE & HE & TN). rewrite E in E3. injection E3 as -> _.
  pose proof (update_ready h data h3 HR RE HE TN ROW) as R3. pose proof RE as (KK & _). pose proof KK as (Q1 & Q2 & Q3 & Q4 & Q5 & _).
  apply IH; try assumption.
  - unfold phrases_of. rewrite Q2. exact HD.
  - unfold hc_n in *. rewrite Q5. exact N1.
  - unfold hc_prior, prior_at. destruct (hc_mode h3) eqn:M3; [|reflexivity]. destruct (HE ltac:(unfold hc_mode in *; rewrite <- Q5; exact M3)) as (_ & _ & D2). rewrite N1 in D2. cbn [Rsum] in D2. rewrite Rplus_0_l in D2. exact D2.
  - rewrite (after_trans h h3 data RE) by lia. apply Q.
Qed.

Lemma started_rows : forall k p h0 data h2, started_from p h0 data h2 -> hc_n h0 = 1 -> hmm_trainable h0 (piece_devs h0 data) (deviations (hc_dim h0) (concat data)) data ->
  Exists (fun ph : list (list R) => 2 <= length ph) data -> (INR (length (concat data)) <= 10 ^ 90)%R -> rows_kept k data h2.
Proof.
  intros k p h0 data h2 (iters & h1 & _ & E1 & E2) N1 HT EX HB. destruct (init_values iters _ _ data h0 HT) as (h1' & h2' & E1' & E2' & R2 & K & T & P & _).
  rewrite E1 in E1'. injection E1' as <-. rewrite E2 in E2'. injection E2' as <-. pose proof K as (K1 & K2 & K3 & K4 & K5 & K6).
  apply one_rows; try assumption.
  - unfold phrases_of. rewrite K2. apply HT.
  - unfold hc_n in *. rewrite K5. exact N1.
  - rewrite P by lia. unfold first_prior. rewrite N1. destruct (hc_mode h0); cbn; [apply Rinv_1|reflexivity].
  - rewrite T by lia. unfold first_trans. rewrite N1. destruct (hc_mode h0); cbn; [rewrite Rinv_1|]; lra.
Qed.

(** ** What is reported *)

Lemma over_sum_dist : forall n f, 1 <= n -> (forall c, c < n -> (0 < f c)%R) -> distribution n (fun i => nth i (tab n (fun c => (f c / Rsum n f)%R)) 0%R).
Proof.
  intros n f Hn Hf. assert (P : (0 < Rsum n f)%R). { apply Rsum_pos; [lia|exact Hf]. }
  split.
  - intros c Hc. rewrite nth_tab by exact Hc. apply Rlt_le, Rdiv_lt_0_compat; auto.
  - rewrite (Rsum_ext n _ (fun c => / Rsum n f * f c)%R) by (intros c Hc; rewrite nth_tab by exact Hc; unfold Rdiv; ring). rewrite Rsum_scal_l. field. lra.
Qed.

Lemma hreport_dist : forall (v : hhmm RA) left ys logs outs r, hh_usable v -> (forall c, c < hh_size v -> (0 <= left_over v left c)%R) -> ys <> [] ->
  hh_top_report v (hh_inst v left ys) logs outs r ->
  distribution (hh_size v) (fun i => nth i (rs_instn r) 0%R) /\ distribution (hh_size v) (fun i => nth i (rs_smn r) 0%R) /\ In (rs_likeliest r) (map fst (hh_cls v)).
Proof.
  intros v left ys logs outs r HU HL NE (b & (Hb & _) & LK & _ & _ & _ & IN & SN & _). rewrite IN, SN, LK.
  split; [apply over_sum_dist; [lia|intros c Hc; apply (inst_at_pos v HU left ys c HL NE Hc)]|]. split; [apply over_sum_dist; [lia|intros c Hc; apply exp_pos]|].
  unfold hlabel. apply in_map, nth_In, Hb.
Qed.

(** ** Classes that can be learned *)

Lemma recorded_frames : forall (w : world RA) k t recs, recorded w k t recs -> forall l ph, In ph (of_class l recs) -> Forall (fun x => length x = t_dim t) ph.
Proof.
  intros w k t recs (_ & _ & _ & _ & _ & F) l ph H. unfold of_class in H. apply in_map_iff in H. destruct H as (r & <- & H). apply filter_In in H. destruct H as (H & _).
  induction F as [|e r' es rs (p & s & _ & M & _ & D & _ & _ & FR) F IH]; [destruct H|]. destruct H as [->|H]; [|apply IH, H].
  rewrite <- FR, <- D. apply made_rep in M. exact (frames_dim p s M).
Qed.

Lemma realistic_learnable : forall u (w : world RA) k t recs (m : hmodel RA), recorded w k t recs -> (forall l, In l (map fst recs) -> hrealistic (hq_cf m) recs l) -> hall_learnable u t m recs.
Proof.
  intros u w k t recs m H HR s (SU & D & DI & ST & WN) l Hl. destruct (HR l Hl) as (L1 & L2 & L3 & (ph & Hph & Lph) & L5 & LB & LM).
  split; [exact L1|]. split; [exact L2|]. split; [exact L3|]. split; [exists ph; split; assumption|]. split; [exact L5|].
  destruct LM as [LM|(N1 & p2 & H2 & T2)]; [left; split; assumption|right]. intros h2 S2. set (h0 := hq_new_class u s (hq_cf m) l) in *.
  destruct SU as (B & M & SD1 & SD2 & W1 & W2). unfold modal_ok in M. refine (started_rows _ _ _ _ _ S2 N1 _ _ LB); [|apply Exists_exists; exists p2; split; assumption].
  split; [exact L1|]. split; [exact L2|]. split; [exact W2|]. split; [|split; [exact L5|split; [apply tab_length|split; [intros; apply tab_length|split; [split|]]]]].
  - unfold hmm_dims. change (hc_bim h0) with (sp_bim s). change (hc_dim h0) with (sp_dim s). change (hc_din h0) with (sp_din s). rewrite DI in *. rewrite <- B in *. destruct (sp_bim s); lia.
  - intro C. rewrite C in Hph. destruct Hph.
  - apply Forall_forall. intros q Hq. split; [apply (proj1 (Forall_forall _ _) L3 q Hq)|]. change (hc_dim h0) with (sp_dim s). rewrite D. apply (recorded_frames w k t recs H l q Hq).
  - apply Exists_exists. exists ph. split; [exact Hph|exact Lph].
Qed.

(** ** The number of updates, and a class after the reset *)

Lemma hrounds_at_most : forall p data h n, hstops_at p data h n ->
  1 <= n <= 1000 /\ (1 <= em_min p <= em_max p -> n = Nat.min (em_max p) 1000) /\ (em_max p < em_min p -> Nat.min (em_min p) 1000 <= n).
Proof.
  intros p data h n (N1 & (a & b & _ & _ & S) & NS).
  assert (U : n <= 1000).
  { destruct (le_lt_dec n 1000) as [|C]; [assumption|]. destruct (NS 1000 ltac:(lia)) as (x & y & _ & _ & Q). exfalso. apply Q. left. lia. }
  split; [lia|]. split.
  - intros M. destruct S as [S|[(S1 & S2)|(S1 & _)]]; [|clear S1|lia].
    + assert (n = 1000) as -> by lia. destruct (le_lt_dec 1000 (em_max p)); [lia|]. destruct (NS (em_max p) ltac:(lia)) as (x & y & _ & _ & Q). exfalso. apply Q. right. left. lia.
    + destruct (le_lt_dec n (em_max p)); [lia|]. destruct (NS (em_max p) ltac:(lia)) as (x & y & _ & _ & Q). exfalso. apply Q. right. left. lia.
  - intros M. destruct S as [S|[(S1 & S2)|(S1 & S2 & _)]]; lia.
Qed.

Lemma mapM_class : forall (f : hclass RA -> res (hclass RA)) hs hs' l g, mapM (fun e : string * hclass RA => let* h := f (snd e) in Ok (fst e, h)) hs = Ok hs' ->
  In (l, g) hs -> (forall g', In (l, g') hs -> g' = g) -> exists g1, f g = Ok g1 /\ In (l, g1) hs' /\ (forall g', In (l, g') hs' -> g' = g1).
Proof.
  intros f hs hs' l g E Hg U.
  assert (A : exists g1, f g = Ok g1 /\ In (l, g1) hs').
  { clear U. revert hs' E. induction hs as [|e hs IH]; intros hs' E; [destruct Hg|]. cbn [mapM] in E.
    destruct (f (snd e)) as [h1| |] eqn:F; cbn [bind] in E; try discriminate. destruct (mapM _ hs) as [hs1| |] eqn:M; cbn [bind] in E; try discriminate. injection E as <-.
    destruct Hg as [->|Hg]; [exists h1; split; [exact F|left; reflexivity]|]. destruct (IH Hg _ eq_refl) as (g1 & G1 & G2). exists g1. split; [exact G1|right; exact G2]. }
  destruct A as (g1 & F1 & H1). exists g1. split; [exact F1|]. split; [exact H1|]. intros g' Hg'. destruct (mapM_in _ _ _ _ E Hg') as ([l0 g0] & H0 & F0). cbn [fst snd] in F0.
  destruct (f g0) as [h0| |] eqn:F; cbn [bind] in F0; try discriminate. injection F0 as -> ->. rewrite (U g0 H0) in F. rewrite F in F1. injection F1 as <-. reflexivity.
Qed.

Lemma reset_class_at : forall l g (m n : hmodel RA), hq_reset (A := RA) m = Ok n -> In (l, g) (hq_cls m) -> (forall g', In (l, g') (hq_cls m) -> g' = g) ->
  exists f, (forall h, In (l, h) (hq_cls n) <-> h = f) /\ (let* h := hm_reset (A := RA) g in hm_reset (hc_set_hier (hp_hier (cf_def (hq_cf m))) h)) = Ok f.
Proof.
  intros l g m n E Hg U. unfold hq_reset, hh_reset in E.
  destruct (reset_all (hh_cls (hq_view m))) as [ms| |] eqn:E1; cbn [bind] in E; try discriminate.
  destruct (if hh_bim (hq_view m) then _ else _) as [[o c]| |] eqn:EO; cbn [bind] in E; try discriminate.
  match type of E with bind (bind ?X _) _ = _ => destruct X as [ms'| |] eqn:E2 end; cbn [bind] in E; try discriminate. injection E as <-.
  destruct (mapM_class (fun h => hm_reset h) _ _ l g E1 Hg U) as (g1 & F1 & H1 & U1).
  destruct (mapM_class (fun h => hm_reset (hc_set_hier (hh_hier (hq_view m)) h)) _ _ l g1 E2 H1 U1) as (g2 & F2 & H2 & U2).
  exists g2. rewrite F1. cbn [bind]. split; [|exact F2]. intro h. split; [apply U2|intros ->; exact H2].
Qed.

(** ** What the reset keeps *)

Lemma mapM_labels : forall (f : hclass RA -> res (hclass RA)) hs hs', mapM (fun e : string * hclass RA => let* h := f (snd e) in Ok (fst e, h)) hs = Ok hs' -> map fst hs' = map fst hs.
Proof.
  intros f hs. induction hs as [|e hs IH]; intros hs' E; cbn [mapM] in E; [injection E as <-; reflexivity|].
  destruct (f (snd e)) as [h1| |]; cbn [bind] in E; try discriminate. destruct (mapM _ hs) as [hs1| |]; cbn [bind] in E; try discriminate. injection E as <-. cbn [map fst]. rewrite (IH _ eq_refl). reflexivity.
Qed.

Lemma hreset_kept : forall m m1 : hmodel RA, hq_reset (A := RA) m = Ok m1 -> hq_sp m1 = hq_sp m /\ hq_cf m1 = hq_cf m /\ map fst (hq_cls m1) = map fst (hq_cls m).
Proof.
  intros m n E. unfold hq_reset, hh_reset in E.
  destruct (reset_all (hh_cls (hq_view m))) as [ms| |] eqn:E1; cbn [bind] in E; try discriminate.
  destruct (if hh_bim (hq_view m) then _ else _) as [[o c]| |] eqn:EO; cbn [bind] in E; try discriminate.
  match type of E with bind (bind ?X _) _ = _ => destruct X as [ms'| |] eqn:E2 end; cbn [bind] in E; try discriminate. injection E as <-.
  split; [reflexivity|]. split; [reflexivity|]. change (hq_cls _) with ms' at 1. rewrite (mapM_labels (fun h => hm_reset (hc_set_hier (hh_hier (hq_view m)) h)) _ _ E2). exact (mapM_labels (fun h => hm_reset h) _ _ E1).
Qed.

(** Training succeeds, in all the modes, and the model can be trained again. *)
Lemma hready : forall u (w : world RA) k t recs (m : hmodel RA), recorded w k t recs -> recs <> [] -> set_up (t_bim t) (hq_sp m) -> hall_learnable u t m recs ->
  (est_of (cf_est (hq_cf m)) = Mixture -> hone_mode (hq_cf m) recs) -> hall_left_right (hq_cf m) recs \/ ((0 <= jk_num u)%R /\ hp_hier (cf_def (hq_cf m)) = true) ->
  exists m', hq_train u w k m = Ok m' /\ hq_cf m' = hq_cf m /\ fetched t (hq_sp m) (hq_sp m') /\ hq_cls m' <> [].
Proof.
  intros u w k t recs m H NE SU LE OM LR. destruct (htrain u w k t recs m H NE SU LE) as (s & hs & r & HT & ND & NH & E).
  pose proof HT as (_ & FE & _ & _ & LB & CM & _). pose proof FE as (SU' & _). cbn [unreset hq_sp hq_cls] in SU', LB, CM.
  assert (LB' : forall l, In l (map fst hs) -> In l (map fst recs)) by (intros l; apply LB).
  assert (X : exists m1, hq_reset (unreset s m hs r) = Ok m1).
  { assert (FX : Forall (fun x => length x = input_dim s) ([] ++ [repeat 0%R (input_dim s)])) by (constructor; [apply repeat_length|constructor]).
    destruct (hp_hier (cf_def (hq_cf m))) eqn:HH.
    - destruct (hrecognise u s m recs hs r _ SU' NH ND CM LB' OM HH ltac:(destruct LR as [LR|(LR & _)]; [left; auto|right; exact LR]) [] _ FX) as (m1 & _ & E1 & _). exists m1. exact E1.
    - destruct LR as [LR|(_ & LR)]; [|discriminate]. destruct (hrecognise_flat u s m recs hs r _ SU' NH ND CM LB' OM HH ltac:(auto) [] _ FX) as (m1 & _ & E1 & _). exists m1. exact E1. }
  destruct X as (m1 & E1). destruct (hreset_kept _ _ E1) as (K1 & K2 & K3).
  rewrite E. destruct (cf_mt (hq_cf m) =? 0)%Z; [eexists; split; [reflexivity|split; [reflexivity|split; [exact FE|exact NH]]]|].
  exists m1. split; [exact E1|]. split; [exact K2|]. split; [rewrite K1; exact FE|]. intro C. rewrite C in K3. destruct hs; [congruence|discriminate].
Qed.
