(** Frames with classes that filter and predict by themselves, in binary64. *)
From Coq Require Import String ZArith QArith Reals Lra Lia Bool List Arith.
From Coq Require Import Floats.SpecFloat.
From Flocq Require Import Core.Core IEEE754.BinarySingleNaN.
From Verif Require Import Base BaseFacts Arith Spec_Float Spec_Float2 Spec_Float3 Spec_Float4 Spec_Float6 Spec_Float7 Proofs_Float1 Proofs_Float2 Proofs_Float3 Proofs_Float4 Proofs_Float5 Proofs_Float6 Proofs_Float7 Proofs_Float8 Proofs_Float9 Proofs_Float12 Proofs_Float13 Proofs_Float14 Proofs_Float15 Proofs_Float16 Proofs_Float17 Proofs_Float26 Proofs_Float27 Proofs_Float28 Proofs_Float30 Proofs_Float31 Proofs_Float32.
From Verif Require Import Model_Map Model_Ring Model_Phrase Model_Gaussian Model_Config Model_KMeans Model_GMM Model_HMM Model_HHMM Model_Single Model_Single2 Model_Single3 Model_Single4.
Import ListNotations.
Local Open Scope R_scope.

#[local] Existing Instance Proofs_Float1.Hprec.
#[local] Existing Instance Proofs_Float1.Hmax.
Local Notation fadd := (SFadd fprec femax).
Local Notation fmul := (SFmul fprec femax).
Local Notation fdiv := (SFdiv fprec femax).

Section Run.
  Variables fexp fln : f64 -> f64.
  Hypothesis LM : libm_f64 fexp fln.
  Local Notation A := (FA fexp fln).

  (** ** The forward variables sum to 1 *)
  Lemma rs_first n (f : nat -> R) : (1 <= n)%nat -> (forall k, (0 < k < n)%nat -> f k = 0) -> rs n f = f 0%nat.
  Proof.
    induction n as [| n IH]; intros H1 H; [lia |]. cbn [rs]. destruct (Nat.eq_dec n 0) as [-> | D]; [cbn; ring |]. rewrite IH by (try lia; intros; apply H; lia). rewrite (H n) by lia. ring.
  Qed.
  Lemma raw_total n (al1 al : list f64) norm : (1 <= n)%nat -> (Z.of_nat n < 2 ^ 32)%Z -> raw n al1 norm ->
    (norm = nsum (A := A) n (ent al1) \/ (fval (ent al1 0) = fval norm /\ forall k, (0 < k < n)%nat -> ent al1 k = S754_zero false)) -> scale_vec (A := A) n norm al1 = Ok al -> total n (ent al).
  Proof.
    intros H1 H2 (R1 & R2 & R3 & R4 & _) S Es. assert (P0 : 0 < fval norm) by (eapply Rlt_le_trans; [apply bpow_gt_0 | exact R4]). unfold scale_vec in Es.
    destruct (each_spec n (fun v => fdiv v norm) al1 al (S754_zero false) Es) as (_ & E0). assert (E : forall k, (k < n)%nat -> ent al k = fdiv (ent al1 k) norm) by (intros k Hk; exact (E0 k Hk)).
    destruct S as [S | (S1 & S2)].
    - apply (parts_total n (ent al1)); [exact H1 | lia |]. apply (parts_of fexp fln); [intros i Hi; destruct (R1 i Hi) as ((V & N & B) & _); split; [exact V | right; split; [exact N | apply B]] | now rewrite <- S | now rewrite <- S | intros i Hi; rewrite <- S; now apply E].
    - unfold total. rewrite rs_first; [| exact H1 |].
      + destruct (R1 0%nat ltac:(lia)) as ((V1 & N1 & B1) & Up). rewrite E by lia. destruct (div_part (ent al1 0) norm) as (_ & D); [split; [exact V1 | split; [exact N1 | apply B1]] | split; [exact R2 | split; [exact R3 | lra]] | exact P0 | exact Up |].
        rewrite D, S1. unfold Rdiv. rewrite Rinv_r by lra. assert (One : rnd 1 = 1) by (change 1 with (bpow radix2 0); apply rnd_bpow; lia). rewrite One. assert (0 <= INR n * bpow radix2 (-50)) by (apply Rmult_le_pos; [apply pos_INR | apply bpow_ge_0]). lra.
      + intros k Hk. rewrite E by lia. rewrite S2 by lia. destruct (f_div_num (S754_zero false) norm eq_refl R2 eq_refl ltac:(lra)) as (_ & D); [| rewrite D]; change (fval (S754_zero false)) with 0; unfold Rdiv; rewrite Rmult_0_l, rnd_0; [| reflexivity]. rewrite Rabs_R0. apply bpow_gt_0.
  Qed.

  Lemma forward_total x (h h' : hclass A) : class_flat h -> (h_started (hc_run h) = true -> running fexp fln h) -> frame_f64 x -> hm_forward (A := A) x h = Ok h' ->
    total (hc_n h) (ent (h_alpha (hc_run h'))) /\ exists r, h' = hc_set_run r h.
  Proof.
    intros (C1 & C2 & C3 & C4 & C5 & _) R Fx H. unfold hm_forward in H. cbv zeta in H. apply bind_ok_inv in H. destruct H as ((al, ct) & E & H).
    assert (Ob : forall k v, hm_obs (A := A) h x k = Ok v -> num_in (bpow radix2 (-638)) (bpow radix2 570) v) by (intros k v Ev; eapply (flat_obs fexp fln LM); eauto).
    injection H as <-. split; [| eexists; reflexivity]. cbn [hc_run hc_set_run h_alpha rn_alpha rn_buf rn_started rn_inst].
    destruct (h_started (hc_run h)) eqn:St.
    - destruct (R eq_refl) as (_ & Al & _). destruct (update_raw fexp fln _ _ _ _ _ _ _ _ C2 C3 C5 Al Ob E) as (al1 & norm & Rw & S & Es & _). eapply raw_total; eauto.
    - destruct (init_raw fexp fln _ _ _ _ _ _ _ _ C2 C3 C5 Ob E) as (al1 & norm & Rw & S & Es & _). eapply raw_total; eauto.
  Qed.

  (** ** The window *)
  Lemma post_window (h h' : hclass A) : class_flat h -> running fexp fln h -> hm_post (A := A) h = Ok h' -> windowed fexp fln h' /\ h_alpha (hc_run h') = h_alpha (hc_run h) /\ exists r, h' = hc_set_run r h.
  Proof.
    intros (C1 & C2 & C3 & _) (_ & R2 & _) H. unfold hm_post in H. apply bind_ok_inv in H. destruct H as (h1 & E1 & H).
    destruct (window_flat fexp fln h h1 C1 C2 C3 R2 E1) as (lk & lo & hi & nm & -> & W1 & W2 & W3 & W4 & W5).
    unfold hm_results in H. cbv zeta in H. apply bind_ok_inv in H. destruct H as ((b & l) & Eb & H). apply bind_ok_inv in H. destruct H as (p & Ep & H). injection H as <-.
    split; [| split; [reflexivity | eexists; reflexivity]]. split; [exact W1 |]. split; [exact W2 |]. split; [exact W3 |]. split; [exact W4 | exact W5].
  Qed.

  (** ** A class *)
  Section Shape.
    Variable P : gclass A -> Prop.
    Hypothesis PK : forall g g', kept fexp fln g g' -> P g -> P g'.
    Hypothesis PF : forall g, P g -> state_flat g.

    (** A class that has filtered. *)
    Definition ran (h : hclass A) : Prop := done fexp fln h /\ total (hc_n h) (ent (h_alpha (hc_run h))) /\ windowed fexp fln h /\ Forall P (h_states (hc_net h)).
    Definition set (h : hclass A) : Prop := ready fexp fln h /\ Forall P (h_states (hc_net h)).
    Lemma ran_set h : ran h -> set h. Proof. intros (D & _ & _ & F). split; [now apply done_ready | exact F]. Qed.

    Lemma ran_post h h' : done fexp fln h -> total (hc_n h) (ent (h_alpha (hc_run h))) -> Forall P (h_states (hc_net h)) -> hm_post (A := A) h = Ok h' -> ran h' /\ hkept fexp fln P h h'.
    Proof.
      intros (C & R & (I & _)) T F H. destruct (good_post fexp fln LM h h' C R I H) as (_ & G). destruct (post_window h h' C R H) as (W & Ea & (r & ->)).
      split; [| apply hkept_run]. split; [exact G |]. split; [rewrite Ea; exact T |]. split; [exact W | exact F].
    Qed.
    Lemma ran_regression x h h' : ran h -> hm_regression_with (A := A) as_single x h = Ok h' -> ran h' /\ hkept fexp fln P h h'.
    Proof.
      intros ((C & (R1 & R2 & R3) & (I1 & I2 & I3)) & T & W & F) H. assert (Hh : hc_hier h = false) by apply C. destruct (hreg_inv fexp fln P x h h' PK Hh F H) as (no & _ & K & Er & _). split; [| exact K].
      assert (K0 := K). destruct K0 as (_ & _ & _ & K4 & K5 & K6 & K7 & K8). specialize (K8 F).
      assert (C' : class_flat h').
      { destruct C as (C1 & C2 & C3 & C4 & C5 & C6). unfold class_flat, hc_n, hc_mode in *. rewrite K4, K5, K6, K7, Er. cbn [h_buf rn_out]. split; [exact C1 |]. split; [exact C2 |]. split; [exact C3 |]. split; [eapply Forall_impl; [| exact K8]; exact PF |]. split; [exact C5 | exact C6]. }
      assert (N : hc_n h' = hc_n h) by (unfold hc_n; now rewrite K5).
      split; [split; [exact C' |]; split |].
      - unfold running, alpha_f64. rewrite N, Er. cbn [h_started h_alpha h_buf rn_out]. split; [exact R1 |]. split; [exact R2 | exact R3].
      - unfold results_ok. rewrite Er. cbn [h_inst h_log h_prog rn_out]. auto.
      - rewrite N, Er. cbn [h_alpha rn_out]. split; [exact T |]. split; [| exact K8]. unfold windowed. cbv zeta. rewrite N, Er. exact W.
    Qed.
    Lemma ran_filter x h h' : set h -> frame_f64 x -> hm_filter_with (A := A) as_single x h = Ok h' -> ran h' /\ hkept fexp fln P h h'.
    Proof.
      intros ((C & R) & F) Fx H. unfold hm_filter_with in H. apply bind_ok_inv in H. destruct H as (h1 & E1 & H). apply bind_ok_inv in H. destruct H as (h2 & E2 & H). apply bind_ok_inv in H. destruct H as (h3 & E3 & H).
      destruct (forward_flat fexp fln LM x h h1 C R Fx E1) as (S1 & S2 & S3). destruct (forward_total x h h1 C R Fx E1) as (T & (r1 & E)). assert (C1 : class_flat h1) by (eapply (static_class fexp fln); [exact C | exact S1 | apply S2]).
      assert (Po : hm_post (A := A) h1 = Ok h3) by (unfold hm_post; rewrite E2; exact E3).
      assert (G := good_post fexp fln LM h1 h3 C1 S2 S3 Po). destruct (post_window h1 h3 C1 S2 Po) as (W & Ea & (r & Eh)).
      assert (K : hkept fexp fln P h h3) by (rewrite Eh, E; apply (hkept_trans fexp fln P h (hc_set_run r1 h)); apply hkept_run).
      assert (N : hc_n h3 = hc_n h) by (rewrite Eh, E; reflexivity).
      assert (Q : ran h3). { split; [exact (proj2 G) |]. split; [rewrite N, Ea; exact T |]. split; [exact W |]. apply K, F. }
      destruct (hc_bim h3); [| injection H as <-; auto]. destruct (ran_regression x h3 h' Q H) as (Q1 & Q2). split; [exact Q1 | eapply hkept_trans; eauto].
    Qed.
  End Shape.

  (** ** The model *)
  Local Notation cls := (list (string * hclass A)).
  Lemma mapM_pairs (f : hclass A -> res (hclass A)) (ms ms' : cls) : mapM (fun e => let* h := f (snd e) in Ok (fst e, h)) ms = Ok ms' ->
    length ms' = length ms /\ forall e', In e' ms' -> exists e, In e ms /\ f (snd e) = Ok (snd e').
  Proof.
    revert ms'. induction ms as [| (l, h) ms IH]; cbn [mapM]; intros ms' H; [injection H as <-; split; [reflexivity | intros e' []] |].
    apply bind_ok_inv in H. destruct H as (e & E & H). apply bind_ok_inv in E. destruct E as (h' & Eh & E). injection E as <-. apply bind_ok_inv in H. destruct H as (t & Et & H). injection H as <-.
    destruct (IH t Et) as (L & K). split; [cbn; now f_equal |]. intros e' [<- | I]; [exists (l, h); split; [now left | exact Eh] |]. destruct (K e' I) as (e & Ie & Ee). exists e. split; [now right | exact Ee].
  Qed.
  Lemma mget_inh (ms : cls) l g : mget String.eqb ms l = Some g -> exists e, In e ms /\ snd e = g.
  Proof. induction ms as [| (k, v) ms IH]; cbn [mget]; intros H; [discriminate |]. destruct (String.eqb l k); [injection H as <-; exists (k, v); split; [now left | reflexivity] | destruct (IH H) as (e & I & E); exists e; split; [now right | exact E]]. Qed.

  Section Model.
    Variable P : gclass A -> Prop.
    Hypothesis PK : forall g g', kept fexp fln g g' -> P g -> P g'.
    Hypothesis PF : forall g, P g -> state_flat g.

    (** One frame: classes that have filtered and then predicted; the outputs. *)
    Lemma hwith_step (m m' : hhmm A) x : hh_hier m = false -> hh_cls m <> [] -> (Z.of_nat (hh_size m) < 2 ^ 32)%Z -> Forall (fun e => set P (snd e)) (hh_cls m) -> frame_f64 x -> hh_filter_with (A := A) as_single x m = Ok m' ->
      hh_hier m' = hh_hier m /\ hh_bim m' = hh_bim m /\ hh_dim m' = hh_dim m /\ hh_din m' = hh_din m /\ hh_cmode m' = hh_cmode m /\ hh_size m' = hh_size m /\ Forall (fun e => ran P (snd e)) (hh_cls m') /\
      (forall e', In e' (hh_cls m') -> exists e, In e (hh_cls m) /\ hkept fexp fln P (snd e) (snd e')) /\
      (hh_bim m = true -> exists no (r : results A), usub (hh_dim m) (hh_din m) = Ok no /\ parts_f64 (hh_size m) (ent (rs_sm r)) (ent (rs_smn r)) /\
        (forall e', In e' (hh_cls m') -> exists e h, In e (hh_cls m) /\ hkept fexp fln P (snd e) h /\ ran P h /\ hm_regression_with (A := A) as_single x h = Ok (snd e')) /\
        match hh_est m with
        | Likeliest => exists e, In e (hh_cls m') /\ rs_out (hh_res m') = h_out (hc_run (snd e)) /\ rs_ocov (hh_res m') = h_ocov (hc_run (snd e))
        | Mixture => mix_outputs_with (A := A) as_single (hh_cmode m) no (rs_smn r) (map (fun e => (h_out (hc_run (snd e)), h_ocov (hc_run (snd e)))) (hh_cls m')) = Ok (rs_out (hh_res m'), rs_ocov (hh_res m'))
        end).
    Proof.
      intros Hh Ne Hs Rd Fx H. unfold hh_filter_with in H. apply bind_ok_inv in H. destruct H as (m1 & E1 & H). unfold hh_forward_with in E1. rewrite Hh in E1.
      apply bind_ok_inv in E1. destruct E1 as (ms1 & M1 & E1). apply bind_ok_inv in E1. destruct E1 as (inst & _ & E1). injection E1 as <-. cbn [hh_cls hh_set_res hh_set_cls hh_res hh_bim hh_est hh_cmode hh_dim hh_din] in H.
      destruct (mapM_pairs _ _ _ M1) as (L1 & D1).
      assert (R1 : forall e', In e' ms1 -> ran P (snd e') /\ exists e, In e (hh_cls m) /\ hkept fexp fln P (snd e) (snd e')).
      { intros e' I. destruct (D1 e' I) as (e & Ie & Ee). destruct (ran_filter P PK PF x (snd e) (snd e') (proj1 (Forall_forall _ _) Rd e Ie) Fx Ee) as (Q1 & Q2). split; [exact Q1 | exists e; auto]. }
      apply bind_ok_inv in H. destruct H as (ms2 & M2 & H). destruct (mapM_pairs _ _ _ M2) as (L2 & D2).
      assert (R2 : forall e', In e' ms2 -> ran P (snd e') /\ exists e, In e (hh_cls m) /\ hkept fexp fln P (snd e) (snd e')).
      { intros e' I. destruct (D2 e' I) as (e1 & I1 & E1). destruct (R1 e1 I1) as ((Q1 & Q2 & Q3 & Q4) & e & Ie & K). destruct (ran_post P (snd e1) (snd e') Q1 Q2 Q4 E1) as (Q5 & Q6). split; [exact Q5 |]. exists e. split; [exact Ie | eapply hkept_trans; eauto]. }
      apply bind_ok_inv in H. destruct H as (r & Er & H).
      assert (Ln : length ms2 = hh_size m) by (unfold hh_size; congruence).
      assert (Pos : (1 <= hh_size m)%nat) by (unfold hh_size; destruct (hh_cls m); [congruence | cbn; lia]).
      assert (RO : Forall (fun e => results_ok fexp fln (snd e)) ms2) by (apply Forall_forall; intros e I; apply (R2 e I)).
      assert (PP := results_flat fexp fln LM ms2 _ r ltac:(lia) ltac:(lia) RO Er). destruct PP as (_ & P2). rewrite Ln in P2.
      destruct (hh_bim m) eqn:Bi; cbn [negb] in H.
      - apply bind_ok_inv in H. destruct H as (no & Eno & H). apply bind_ok_inv in H. destruct H as (ms3 & M3 & H). apply bind_ok_inv in H. destruct H as ((o & c) & Eo & H). injection H as <-.
        destruct (mapM_pairs _ _ _ M3) as (L3 & D3). cbn [hh_hier hh_bim hh_dim hh_din hh_cmode hh_cls hh_set_res hh_set_cls hh_res rs_out rs_ocov].
        assert (R3 : forall e', In e' ms3 -> ran P (snd e') /\ (exists e, In e (hh_cls m) /\ hkept fexp fln P (snd e) (snd e')) /\
          exists e h, In e (hh_cls m) /\ hkept fexp fln P (snd e) h /\ ran P h /\ hm_regression_with (A := A) as_single x h = Ok (snd e')).
        { intros e' I. destruct (D3 e' I) as (e2 & I2 & E2). destruct (R2 e2 I2) as (Q1 & e & Ie & K). destruct (ran_regression P PK PF x (snd e2) (snd e') Q1 E2) as (Q2 & Q3). split; [exact Q2 |].
          split; [exists e; split; [exact Ie | eapply hkept_trans; eauto] |]. exists e, (snd e2). auto. }
        split; [reflexivity |]. split; [exact Bi |]. split; [reflexivity |]. split; [reflexivity |]. split; [reflexivity |]. split; [unfold hh_size; cbn [hh_cls hh_set_res hh_set_cls]; unfold hh_size in Ln; congruence |].
        split; [apply Forall_forall; intros e I; apply (R3 e I) |]. split; [intros e' I; apply (R3 e' I) |].
        intros _. exists no, r. split; [exact Eno |]. split; [exact P2 |]. split; [intros e' I; apply (R3 e' I) |].
        destruct (hh_est m).
        + destruct (mget _ _ _) as [g |] eqn:Eg; [| discriminate]. injection Eo as <- <-. destruct (mget_inh _ _ _ Eg) as (e & I & E). exists e. rewrite E. auto.
        + exact Eo.
      - injection H as <-. cbn [hh_hier hh_bim hh_dim hh_din hh_cmode hh_cls hh_set_res hh_set_cls hh_res].
        split; [reflexivity |]. split; [exact Bi |]. split; [reflexivity |]. split; [reflexivity |]. split; [reflexivity |]. split; [exact Ln |]. split; [apply Forall_forall; intros e I; apply (R2 e I) |]. split; [intros e' I; apply (R2 e' I) |].
        intros; discriminate.
    Qed.
  End Model.
End Run.
