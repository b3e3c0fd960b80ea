(** Training of a class: from initialisation to normalisation. *)
From Coq Require Import String List Bool Arith ZArith Reals Lra Lia.
From Verif Require Import Base Arith BaseFacts RFacts Model_Ring Proofs_Ring Model_Gaussian Model_Config Model_KMeans Model_GMM Model_HMM
  Proofs_Gaussian Proofs_Gaussian2 Proofs_Gaussian3 Proofs_KMeans Proofs_GMM Proofs_GMM2 Proofs_GMM4 Spec_Common Spec_Matrix Spec_Gaussian Spec_GMM Spec_HMM
  Proofs_HMM Proofs_HMM2 Proofs_HMM3 Proofs_HMM4 Proofs_HMM5 Proofs_HMM6 Proofs_HMM7 Proofs_HMM8 Proofs_HMM9 Proofs_HMM10 Proofs_HMM11.
Import ListNotations.
Local Open Scope list_scope.
Local Open Scope R_scope.

Lemma allocate_ok : forall h, (1 <= hc_n h)%nat -> (1 <= hp_gauss (hc_par h))%nat -> hmm_dims h ->
  exists h' g, hm_allocate (A := RA) h = Ok h' /\ h_states (hc_net h') = repeat g (hc_n h) /\ gm_shape g /\
    gc_bim g = hc_bim h /\ gc_dim g = hc_dim h /\ gc_din g = hc_din h /\ gc_win g = hc_win h /\ gc_n g = hp_gauss (hc_par h) /\ gc_mode g = hp_mode (hc_par h) /\
    gp_abs (gc_par g) = hp_abs (hc_par h) /\ has_window (gc_buf g) /\ length (h_alpha (hc_run h')) = hc_n h /\ frame_kept h h' /\
    (hc_mode h = LeftRight -> h_prior (hc_net h') = []).
Proof.
  intros h HN HG HD. unfold hm_allocate. destruct (alloc_shape (new_mixture h 1) HG HD) as (g & E & S & B & D & I & W & P & BF). change (num RA) with R in *. rewrite E. cbn [bind].
  cbn [new_mixture gc_bim gc_dim gc_din gc_par gc_win gc_buf] in B, D, I, P, W, BF.
  assert (X : forall h', h_states (hc_net h') = repeat g (hc_n h) -> length (h_alpha (hc_run h')) = hc_n h -> frame_kept h h' -> (hc_mode h = LeftRight -> h_prior (hc_net h') = []) -> h_states (hc_net h') = repeat g (hc_n h) /\ gm_shape g /\
    gc_bim g = hc_bim h /\ gc_dim g = hc_dim h /\ gc_din g = hc_din h /\ gc_win g = hc_win h /\ gc_n g = hp_gauss (hc_par h) /\ gc_mode g = hp_mode (hc_par h) /\
    gp_abs (gc_par g) = hp_abs (hc_par h) /\ has_window (gc_buf g) /\ length (h_alpha (hc_run h')) = hc_n h /\ frame_kept h h' /\ (hc_mode h = LeftRight -> h_prior (hc_net h') = [])).
  { intros h' Q1 Q2 Q3 Q4. unfold gc_n, gc_mode. rewrite P, BF. pose proof (new_window 1 (le_n 1)). cbn. auto 15. }
  cbn [hc_hier hc_set_net hc_set_run]. destruct (hc_hier h) eqn:HH.
  - unfold hm_exit_default. cbn [hc_hier hc_set_net hc_set_run negb]. rewrite HH. cbn [negb]. unfold exit_default. rewrite wr_ok by (rewrite vresize_length; unfold hc_n in *; cbn in *; lia). cbn [bind].
    eexists. exists g. split; [reflexivity|]. apply X; [reflexivity|cbn; apply vresize_length|unfold frame_kept; cbn; repeat split; assumption|intro M; cbn; rewrite M; reflexivity].
  - eexists. exists g. split; [reflexivity|]. apply X; [reflexivity|cbn; apply vresize_length|unfold frame_kept; cbn; repeat split; assumption|intro M; cbn; rewrite M; reflexivity].
Qed.

Lemma distribution_const : forall N, (1 <= N)%nat -> length (repeat (1 / INR N) N) = N /\ distribution N (fun i => nth i (repeat (1 / INR N) N) 0).
Proof.
  intros N HN. assert (NP : 0 < INR N) by (apply lt_0_INR; lia). assert (V : forall i, (i < N)%nat -> nth i (repeat (1 / INR N) N) 0 = 1 / INR N) by (intros; rewrite (nth_indep _ 0 (1 / INR N)) by (rewrite repeat_length; assumption); apply nth_repeat).
  split; [apply repeat_length|]. split.
  - intros i Hi. rewrite V by exact Hi. unfold Rdiv. rewrite Rmult_1_l. left. apply Rinv_0_lt_compat, NP.
  - rewrite (Rsum_ext _ _ (fun _ => 1 / INR N)) by exact V. rewrite Rsum_const. field. lra.
Qed.

Lemma init_ready : forall iters devs dev data h, hmm_trainable h devs dev data -> exists h1 h2, hm_allocate (A := RA) h = Ok h1 /\ hm_init (A := RA) iters devs dev data h1 = Ok h2 /\
  hmm_ready h2 /\ stochastic (hc_n h) (hc_mode h) (h_trans (hc_net h2)) /\ frame_kept h h2 /\ length (h_alpha (hc_run h2)) = hc_n h.
Proof.
  intros iters devs dev data h (HN & HG & HW & HD & HA & Ldev & Ldevs & (Hne & HF) & EX).
  destruct (allocate_ok h HN HG HD) as (h1 & g & E1 & S1 & Sg & B & D & I & W & Ng & Mg & Ag & Wg & Al & K1 & Pr). exists h1. pose proof K1 as (Q1 & Q2 & Q3 & Q4 & Q5 & Q6 & Q7 & Q8).
  assert (EN : hc_n h1 = hc_n h) by (unfold hc_n; rewrite Q5; reflexivity). assert (EM : hc_mode h1 = hc_mode h) by (unfold hc_mode; rewrite Q5; reflexivity).
  assert (SAg : strong_abs g) by (unfold strong_abs; rewrite Mg, Ag; exact HA).
  unfold hm_init. destruct data as [|ph0 data0] eqn:ED; [contradiction|]. rewrite <- ED in *. clear ph0 data0 ED.
  (* transitions *)
  assert (TR : exists pr tr, match hc_mode h1 with Ergodic => Ok (set_ergodic (A := RA) (hc_n h1)) | LeftRight => let* t := set_leftright (A := RA) (hc_n h1) in Ok (h_prior (hc_net h1), t) end = Ok (pr, tr) /\
    stochastic (hc_n h) (hc_mode h) tr /\ (hc_mode h = LeftRight -> no_jump (hc_n h) tr) /\ (hc_mode h = Ergodic -> length pr = hc_n h /\ distribution (hc_n h) (fun i => nth i pr 0))).
  { rewrite EM, EN. destruct (hc_mode h) eqn:M.
    - unfold set_ergodic. rewrite n1_RA, nN_RA. eexists. eexists. split; [reflexivity|]. split; [apply ergodic_usable; exact HN|]. split; [discriminate|]. intros _. apply (distribution_const (hc_n h) HN).
    - destruct (leftright_usable (hc_n h) HN) as (t & Et & St & Nt). change (num RA) with R in *. rewrite Et. cbn [bind]. eexists. eexists. split; [reflexivity|]. split; [exact St|]. split; [intros _; exact Nt|discriminate]. }
  destruct TR as (pr & tr & ET & ST & NJ & PD). unfold hm_default. change (num RA) with R in *. rewrite ET. cbn [bind].
  (* default states *)
  destruct (default_pos g dev Sg) as (gd & Ed & Sd & Pd & SRd & Dd & Bd & Dmd & Id & Wd & Pard & Bufd); [rewrite D; exact Ldev|exact SAg|].
  assert (ES : tabM (hc_n h1) (fun i => let* g := rd (h_states (hc_net h1)) i in gm_default (A := RA) dev g) = Ok (tab (hc_n h1) (fun _ => gd))).
  { apply tabM_ok. intros i Hi. rewrite S1. rewrite (rd_nth _ i g) by (rewrite repeat_length; lia). rewrite nth_repeat. cbn [bind]. exact Ed. }
  change (num RA) with R in *. rewrite ES. cbn [bind]. unfold hm_init_states.
  set (h1' := hc_set_net (A := RA) (mkNet (tab (hc_n h1) (fun _ => gd)) pr tr (h_exit (hc_net h1))) h1).
  change (hc_n h1') with (hc_n h1). change (h_states (hc_net h1')) with (tab (hc_n h1) (fun _ => gd)).
  assert (Nd : gc_n gd = hp_gauss (hc_par h)) by (unfold gc_n in *; rewrite Pard; exact Ng). assert (Md : gc_mode gd = hp_mode (hc_par h)) by (unfold gc_mode in *; rewrite Pard; exact Mg).
  destruct (tabM_ex no_state (fun s g' => state_usable h g' /\ strong_reg g') (hc_n h1) (fun s => let* g := rd (tab (hc_n h1) (fun _ => gd)) s in match seg_data (A := RA) (hc_n h1) s data with [] => Ok g | l :: l0 =>
      let* f := gm_fit (A := RA) h1' (iters s) (l :: l0) (devs s) in adopt (A := RA) f g end)) as (ss & Ess & Lss & Pss).
  { intros s Hs. rewrite (rd_nth _ s gd) by (rewrite tab_length; exact Hs). rewrite nth_tab by exact Hs. cbn [bind]. rewrite EN in *.
    destruct (seg_data_ok (hc_n h) (hp_gauss (hc_par h)) s data HN HG Hs EX) as (NE & CN & SC).
    destruct (fit_ok h1' (iters s) (seg_data (A := RA) (hc_n h) s data) (devs s)) as (f & Ef & Rf & Pf & Bf & Df & If & Nf & Mf).
    - change (hc_par h1') with (hc_par h1). rewrite Q5. exact HG.
    - unfold hmm_dims. change (hc_bim h1') with (hc_bim h1). change (hc_dim h1') with (hc_dim h1). change (hc_din h1') with (hc_din h1). rewrite Q1, Q2, Q3. exact HD.
    - unfold hmm_abs. change (hc_par h1') with (hc_par h1). rewrite Q5. exact HA.
    - change (hc_dim h1') with (hc_dim h1). rewrite Q2. apply Ldevs. exact Hs.
    - exact NE.
    - exact CN.
    - change (hc_dim h1') with (hc_dim h1). rewrite Q2. apply seg_data_frames. revert HF. apply Forall_impl. intros ph (_ & F). exact F.
    - change (hc_par h1') with (hc_par h1). rewrite Q5. exact SC.
    - change (hc_bim h1') with (hc_bim h1) in Bf. change (hc_dim h1') with (hc_dim h1) in Df. change (hc_din h1') with (hc_din h1) in If. change (hc_par h1') with (hc_par h1) in Nf, Mf. rewrite Q1 in Bf. rewrite Q2 in Df. rewrite Q3 in If. rewrite Q5 in Nf, Mf.
      pose proof Rf as ((F1 & F2 & F3 & F4 & F5) & _).
      destruct (adopt_ok f gd Sd Pd) as (g' & Eg & Rg & SC' & _).
      + replace (gc_n gd) with (gc_n g) by (rewrite Nd, Ng; reflexivity). exact Dd.
      + change (num RA) with R in *. rewrite F3, Nf, Nd. reflexivity.
      + revert F5. apply Forall_impl. intros k (X0 & X1 & X2 & X3 & X4). unfold fits_class. rewrite Bd, Dmd, Id, Md, B, D, I. split; [exact X0|]. rewrite X1, X2, X3, X4. auto.
      + exact Pf.
      + change (num RA) with R in *. exists g'. split.
        { destruct (seg_data (A := RA) (hc_n h) s data) as [|q qs]; [contradiction|]. apply (bind_eq _ _ f); [exact Ef|exact Eg]. }
        destruct SC' as (C1 & C2 & C3 & C4 & C5 & C6 & C7 & C8). unfold state_usable, strong_reg, gc_n, gc_mode in *. rewrite C1, C2, C3, C5, C7, C8, Bd, Dmd, Id, Bufd. rewrite Dmd in SRd. split; [rewrite B, D, I; auto 10|exact SRd]. }
  assert (DN : data <> []) by exact Hne. destruct data as [|d0 data0] eqn:ED; [contradiction|]. cbn [bind]. rewrite <- ED in *.
  change (num RA) with R in *. rewrite Ess. cbn [bind]. eexists. split; [exact E1|]. split; [reflexivity|].
  split; [|split; [exact ST|split; [exact K1|exact Al]]].
  rewrite EN in *. split; [|split; [|split]].
  - unfold hmm_usable. cbn [hc_net hc_set_net h_states nt_states h_trans h_prior]. change (hc_n (hc_set_net (A := RA) _ _)) with (hc_n h1). change (hc_mode (hc_set_net (A := RA) _ _)) with (hc_mode h1). rewrite EN, EM. split; [exact HN|]. split; [exact Lss|]. split.
    + apply (Forall_at _ _ no_state). change (num RA) with R in *. rewrite Lss. intros i Hi. destruct (Pss i Hi) as (U & _). unfold state_usable in *. cbn [hc_bim hc_dim hc_din hc_par hc_set_net h1']. rewrite Q1, Q2, Q3, Q5. exact U.
    + split; [apply stochastic_usable; exact ST|]. split; [exact PD|]. cbn. rewrite Q4. exact HW.
  - cbn [hc_net hc_set_net h_states nt_states]. apply (Forall_at _ _ no_state). change (num RA) with R in *. rewrite Lss. intros i Hi. apply Pss. exact Hi.
  - change (hc_n (hc_set_net (A := RA) _ _)) with (hc_n h1). change (hc_mode (hc_set_net (A := RA) _ _)) with (hc_mode h1). rewrite EN, EM. exact NJ.
  - change (hc_n (hc_set_net (A := RA) _ _)) with (hc_n h1). intros _. rewrite EN. exact Al.
Qed.

(** ** The whole training *)
Lemma updates_kept : forall k h data, hmm_ready h -> phrases_of h data -> rows_kept k data h ->
  exists h', hm_updates (A := RA) k data h = Ok h' /\ hmm_ready h' /\ hmm_kept h h'.
Proof.
  induction k as [|k IH]; intros h data HR HD HK; cbn [hm_updates].
  - exists h. split; [reflexivity|]. split; [exact HR|]. unfold hmm_kept. repeat split.
  - destruct HK as (HB & HK). destruct (update_ok h data HR HD) as (h1 & E & RE & HE & TN). rewrite E. cbn [bind]. pose proof RE as (K & _). pose proof K as (K1 & K2 & K3 & K4 & K5 & K6 & K7 & K8 & K9).
    assert (R1 : hmm_ready h1) by (apply (update_ready h data h1); assumption).
    destruct (IH h1 data R1) as (h' & E' & R' & K').
    + unfold phrases_of in *. rewrite K2. exact HD.
    + apply (HK _ _ E).
    + exists h'. split; [exact E'|]. split; [exact R'|]. destruct K' as (Q1 & Q2 & Q3 & Q4 & Q5 & Q6 & Q7 & Q8 & Q9). unfold hmm_kept. repeat split; congruence.
Qed.

Lemma lr_kept : forall k h data, hmm_ready h -> phrases_of h data -> hc_mode h = LeftRight -> INR (length (concat data)) <= 10 ^ 90 -> rows_kept k data h.
Proof.
  induction k as [|k IH]; intros h data HR HD HM HB; cbn [rows_kept]; [exact I|]. split; [apply lr_rows; assumption|]. intros h1 lp E.
  destruct (update_ok h data HR HD) as (h1' & E' & RE & HE & TN). rewrite E' in E. inversion E; subst h1' lp. clear E E'. pose proof RE as (K & _). pose proof K as (K1 & K2 & K3 & K4 & K5 & K6 & K7 & K8 & K9).
  apply IH.
  - apply (update_ready h data h1); try assumption. apply lr_rows; assumption.
  - unfold phrases_of in *. rewrite K2. exact HD.
  - unfold hc_mode in *. rewrite K5. exact HM.
  - exact HB.
Qed.

Lemma terminate_ready : forall h h', hmm_ready h -> hm_terminate (A := RA) h = Ok h' -> hmm_ready h' /\ stochastic (hc_n h) (hc_mode h) (h_trans (hc_net h')).
Proof.
  intros h h' (HU & SR & NJ & HA) E. destruct (terminate_ok h HU NJ) as (h1 & E1 & ST & NJ' & PE & PL & SS & RR & K). rewrite E1 in E. inversion E; subst h1. clear E E1.
  pose proof K as (K1 & K2 & K3 & K4 & K5 & K6 & K7 & K8 & K9). pose proof HU as (N1 & LS & US & TU & EP & W1).
  assert (EN : hc_n h' = hc_n h) by (unfold hc_n; rewrite K5; reflexivity). assert (EM : hc_mode h' = hc_mode h) by (unfold hc_mode; rewrite K5; reflexivity).
  split; [|exact ST]. split; [|split; [|split]].
  - unfold hmm_usable. rewrite EN, EM, SS, K4. split; [exact N1|]. split; [exact LS|]. split; [revert US; apply Forall_impl; intro g; apply (kept_state h h' g K)|]. split; [apply stochastic_usable; exact ST|]. split; [|exact W1].
    intro M. destruct (PE M) as (LP & VP). destruct (EP M) as (_ & D1 & D2). split; [exact LP|]. split; [intros i Hi; rewrite VP by exact Hi; apply D1; exact Hi|]. rewrite <- D2. apply Rsum_ext. exact VP.
  - rewrite SS. exact SR.
  - rewrite EN, EM. exact NJ'.
  - rewrite EN, EM, RR. exact HA.
Qed.

Lemma frame_chain : forall h h1 h2, frame_kept h h1 -> hmm_kept h1 h2 -> frame_kept h h2.
Proof. intros h h1 h2 (A1 & A2 & A3 & A4 & A5 & A6 & A7 & A8) (B1 & B2 & B3 & B4 & B5 & B6 & B7 & B8 & B9). unfold frame_kept. repeat split; congruence. Qed.

Lemma train_ok : forall iters devs dev k data h, hmm_trainable h devs dev data -> exists h1 h2, hm_allocate (A := RA) h = Ok h1 /\ hm_init (A := RA) iters devs dev data h1 = Ok h2 /\ hmm_ready h2 /\
  (rows_kept k data h2 -> exists h', hm_train (A := RA) iters devs dev k data h = Ok h' /\ hmm_ready h' /\ stochastic (hc_n h) (hc_mode h) (h_trans (hc_net h')) /\ frame_kept h h') /\
  frame_kept h h2.
Proof.
  intros iters devs dev k data h HT. destruct (init_ready iters devs dev data h HT) as (h1 & h2 & E1 & E2 & R2 & _ & K2 & _). exists h1, h2. split; [exact E1|]. split; [exact E2|]. split; [exact R2|]. split; [|exact K2]. intro HK.
  pose proof K2 as (A1 & A2 & A3 & A4 & A5 & A6 & A7 & A8). destruct (updates_kept k h2 data R2) as (h3 & E3 & R3 & K3).
  - unfold phrases_of. rewrite A2. apply HT.
  - exact HK.
  - unfold hm_train. change (num RA) with R in *. rewrite E1. cbn [bind]. rewrite E2. cbn [bind]. rewrite E3. cbn [bind]. pose proof R3 as (U3 & _ & J3 & _).
    destruct (terminate_ok h3 U3 J3) as (h4 & E4 & _ & _ & _ & _ & _ & _ & K4). exists h4. split; [exact E4|]. destruct (terminate_ready h3 h4 R3 E4) as (R4 & S4). split; [exact R4|].
    pose proof (frame_chain _ _ _ K2 K3) as K23. split; [|apply (frame_chain _ _ _ K23 K4)]. destruct K23 as (_ & _ & _ & _ & P5 & _). unfold hc_n, hc_mode in *. rewrite P5 in S4. exact S4.
Qed.

Lemma train_lr : forall iters devs dev k data h, hmm_trainable h devs dev data -> hc_mode h = LeftRight -> INR (length (concat data)) <= 10 ^ 90 ->
  exists h', hm_train (A := RA) iters devs dev k data h = Ok h' /\ hmm_ready h' /\ stochastic (hc_n h) LeftRight (h_trans (hc_net h')) /\ no_jump (hc_n h) (h_trans (hc_net h')) /\ frame_kept h h'.
Proof.
  intros iters devs dev k data h HT HM HB. destruct (train_ok iters devs dev k data h HT) as (h1 & h2 & _ & _ & R2 & H & K2). pose proof K2 as (A1 & A2 & A3 & A4 & A5 & A6 & A7 & A8).
  destruct H as (h' & E & R' & S' & K').
  - apply lr_kept; [exact R2|unfold phrases_of; rewrite A2; apply HT|unfold hc_mode in *; rewrite A5; exact HM|exact HB].
  - exists h'. split; [exact E|]. split; [exact R'|]. rewrite HM in S'. split; [exact S'|]. split; [|exact K']. destruct R' as (_ & _ & NJ & _). destruct K' as (_ & _ & _ & _ & P5 & _). unfold hc_n, hc_mode in *. rewrite P5 in NJ. apply NJ. exact HM.
Qed.

(** ** One-frame phrases *)
Lemma one_frame_moves : forall h data i j, Forall (fun ph : list (list R) => length ph = 1%nat) data -> moves h data i j = 0.
Proof.
  intros h data i j F. unfold moves. induction F as [|ph d L F IH]; [reflexivity|]. unfold Rlsum in *. cbn [map fold_right]. rewrite IH, L. cbn. lra.
Qed.

Lemma one_frame_train : forall iters devs dev data h, hmm_trainable h devs dev data -> hc_mode h = Ergodic -> Forall (fun ph : list (list R) => length ph = 1%nat) data ->
  exists h', hm_train (A := RA) iters devs dev 1 data h = Ok h' /\ forall i j, (i < hc_n h)%nat -> (j < hc_n h)%nat -> trans_at (hc_n h) Ergodic (h_trans (hc_net h')) i j = 0 / 0.
Proof.
  intros iters devs dev data h HT HM HF. destruct (init_ready iters devs dev data h HT) as (h1 & h2 & E1 & E2 & R2 & _ & K2 & _). pose proof K2 as (A1 & A2 & A3 & A4 & A5 & A6 & A7 & A8).
  assert (EN : hc_n h2 = hc_n h) by (unfold hc_n; rewrite A5; reflexivity). assert (EM : hc_mode h2 = Ergodic) by (unfold hc_mode in *; rewrite A5; exact HM).
  destruct (update_ok h2 data R2) as (h3 & E3 & (K & LS & PS & TL & TA & TJ & TP) & HE & TN); [unfold phrases_of; rewrite A2; apply HT|].
  unfold hm_train. change (num RA) with R in *. rewrite E1. cbn [bind]. rewrite E2. cbn [bind hm_updates]. rewrite E3. cbn [bind]. pose proof K as (K1 & K2' & K3 & K4 & K5 & _).
  assert (EN3 : hc_n h3 = hc_n h) by (unfold hc_n in *; rewrite K5; exact EN). assert (EM3 : hc_mode h3 = Ergodic) by (unfold hc_mode in *; rewrite K5; exact EM).
  rewrite EN, EM in *. destruct (HE eq_refl) as (_ & DP). destruct (TP eq_refl) as (LP & _). cbn [trans_size] in TL.
  unfold hm_terminate. rewrite EN3, EM3. destruct (normalize_erg (hc_n h) _ TL) as (tr & En & Ln & Vn). change (num RA) with R in *. rewrite En. cbn [bind].
  destruct (normalize_prior_ok (hc_n h) _ LP DP) as (pr & Ep & _). change (num RA) with R in *. rewrite Ep. cbn [bind]. eexists. split; [reflexivity|]. intros i j Hi Hj. cbn [hc_net hc_set_net h_trans]. unfold trans_at. rewrite Vn by assumption.
  assert (Z : forall j, (j < hc_n h)%nat -> nth (i * hc_n h + j) (h_trans (hc_net h3)) 0 = 0).
  { intros j' Hj'. pose proof (TA i j' Hi Hj') as X. unfold trans_at, new_trans in X. rewrite EM in X. rewrite (one_frame_moves h2 data i j' HF) in X. change (num RA) with R in *. rewrite X. unfold Rdiv. ring. }
  change (num RA) with R in *. rewrite (Z j Hj). rewrite (Rsum_zero _ (fun j => nth (i * hc_n h + j) (h_trans (hc_net h3)) 0)) by exact Z. reflexivity.
Qed.
