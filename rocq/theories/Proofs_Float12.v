(** Sequences of frames with hierarchical models in binary64. *)
From Coq Require Import String ZArith QArith Reals Lra Lia Bool List Arith.
From Coq Require Import Floats.SpecFloat.
From Flocq Require Import Core.Core IEEE754.BinarySingleNaN.
From Verif Require Import Base BaseFacts Arith Spec_Float Spec_Float2 Spec_Float3 Proofs_Float1 Proofs_Float2 Proofs_Float3 Proofs_Float4 Proofs_Float5 Proofs_Float6 Proofs_Float7 Proofs_Float8 Proofs_Float9 Proofs_Single2 Proofs_Single3 Proofs_Float10 Proofs_Float11.
From Verif Require Import Model_Map Model_Ring Model_Gaussian Model_Config Model_KMeans Model_GMM Model_HMM Model_HHMM.
Import ListNotations.
Local Open Scope R_scope.

#[local] Existing Instance Proofs_Float1.Hprec.
#[local] Existing Instance Proofs_Float1.Hmax.

Section Filter.
  Variables fexp fln : f64 -> f64.
  Hypothesis LM : libm_f64 fexp fln.
  Local Notation A := (FA fexp fln).
  Local Notation cls := (list (string * hclass A)).

  (** What the rest of a filtering step leaves alone. *)
  Definition kept (h h' : hclass A) : Prop :=
    hc_par h' = hc_par h /\ h_trans (hc_net h') = h_trans (hc_net h) /\ h_exit (hc_net h') = h_exit (hc_net h) /\
    (Forall state_diag (h_states (hc_net h)) -> Forall state_diag (h_states (hc_net h'))) /\
    h_a0 (hc_run h') = h_a0 (hc_run h) /\ h_a1 (hc_run h') = h_a1 (hc_run h) /\ h_a2 (hc_run h') = h_a2 (hc_run h) /\ h_inst (hc_run h') = h_inst (hc_run h).
  Lemma kept_trans h1 h2 h3 : kept h1 h2 -> kept h2 h3 -> kept h1 h3.
  Proof. intros (A1 & A2 & A3 & A4 & A5 & A6 & A7 & A8) (B1 & B2 & B3 & B4 & B5 & B6 & B7 & B8). unfold kept. rewrite B1, B2, B3, B5, B6, B7, B8. auto 10. Qed.

  Lemma post_kept (h h' : hclass A) : hm_post (A := A) h = Ok h' -> kept h h'.
  Proof.
    intros H. unfold hm_post in H. apply bind_ok_inv in H. destruct H as (h1 & E1 & H).
    unfold hm_window in E1. cbv zeta in E1. apply bind_ok_inv in E1. destruct E1 as (w & _ & E1). apply bind_ok_inv in E1. destruct E1 as ((lk & y) & _ & E1). apply bind_ok_inv in E1. destruct E1 as (nm & _ & E1). injection E1 as <-.
    unfold hm_results in H. cbv zeta in H. apply bind_ok_inv in H. destruct H as ((b & l) & _ & H). apply bind_ok_inv in H. destruct H as (p & _ & H). injection H as <-. repeat split. auto.
  Qed.

  Lemma fire_keeps x (g g2 : gclass A) : (let* g := gm_likelihood (A := A) x [] g in gm_regression x g) = Ok g2 -> state_diag g -> state_diag g2.
  Proof.
    intros H D. apply bind_ok_inv in H. destruct H as (g1 & E1 & H). destruct (likelihood_keeps fexp fln x [] g g1 E1) as (K1 & K2 & K3).
    unfold gm_regression in H. apply bind_ok_inv in H. destruct H as (no & _ & H). apply bind_ok_inv in H. destruct H as ((o & v) & _ & H). injection H as <-.
    unfold state_diag, class_f64, gc_n in *. cbn [gc_coef gc_comp gc_par gc_set_out]. rewrite K1, K2, K3. exact D.
  Qed.
  Lemma Forall_wr {X} (P : X -> Prop) l i x l' : Forall P l -> P x -> wr l i x = Ok l' -> Forall P l'.
  Proof.
    intros F Px H. rewrite Forall_forall in *. intros y Iy. apply (In_nth _ _ x) in Iy. destruct Iy as (j & Hj & <-). destruct (wr_nth _ _ _ _ x H) as (L & N & O).
    destruct (Nat.eq_dec j i) as [-> | D]; [now rewrite N |]. rewrite O by exact D. apply F, nth_In. lia.
  Qed.
  Lemma rd_Forall {X} (P : X -> Prop) l i x : Forall P l -> rd l i = Ok x -> P x.
  Proof. intros F H. rewrite Forall_forall in F. apply F. eapply rd_In, H. Qed.

  Lemma regression_kept x (h h' : hclass A) : hm_regression (A := A) x h = Ok h' -> kept h h'.
  Proof.
    intros H. unfold hm_regression in H. cbv zeta in H. apply bind_ok_inv in H. destruct H as (no & _ & H).
    assert (L : forall g2 ss, (let* g := rd (h_states (hc_net h)) (h_like (hc_run h)) in (let* g := gm_likelihood (A := A) x [] g in gm_regression x g)) = Ok g2 -> wr (h_states (hc_net h)) (h_like (hc_run h)) g2 = Ok ss ->
      Forall state_diag (h_states (hc_net h)) -> Forall state_diag ss).
    { intros g2 ss E1 E2 F. apply bind_ok_inv in E1. destruct E1 as (g & Eg & E1). eapply Forall_wr; [exact F | | exact E2]. eapply fire_keeps; [exact E1 |]. eapply rd_Forall; eauto. }
    destruct (hp_est (hc_par h)).
    3: {
    apply bind_ok_inv in H. destruct H as (g & Eg & H). apply bind_ok_inv in H. destruct H as (g2 & Eg2 & H). apply bind_ok_inv in H. destruct H as (ss & Es & H). injection H as <-.
    repeat split. intros F. eapply L; [| exact Es | exact F]. rewrite Eg. exact Eg2. }
    all: apply bind_ok_inv in H; destruct H as (((ss & o) & v) & E & H); injection H as <-; repeat split; cbn [hc_net hc_set_run hc_set_net nt_states h_states]; intros F.
    all: apply (iterM_inv_ok (fun _ s => Forall state_diag (fst (fst s)))) in E; [exact E | exact F |].
    all: intros k ((s1 & o1) & z1) s' _ F1 E1; cbn [fst] in F1; apply bind_ok_inv in E1; destruct E1 as (g & Eg & E1); apply bind_ok_inv in E1; destruct E1 as (g2 & Eg2 & E1).
    all: apply bind_ok_inv in E1; destruct E1 as (s2 & Es2 & E1); apply bind_ok_inv in E1; destruct E1 as (ww & _ & E1); apply bind_ok_inv in E1; destruct E1 as ((o2 & v2) & _ & E1); injection E1 as <-; cbn [fst].
    all: eapply Forall_wr; [exact F1 | | exact Es2]; eapply fire_keeps; [exact Eg2 |]; eapply rd_Forall; eauto.
  Qed.

  Lemma mapM_kept (f : hclass A -> res (hclass A)) (ms ms' : cls) : (forall h h', f h = Ok h' -> kept h h') -> mapM (fun e => let* h := f (snd e) in Ok (fst e, h)) ms = Ok ms' ->
    length ms' = length ms /\ map fst ms' = map fst ms /\ forall j l h, nth_error ms j = Some (l, h) -> exists h', nth_error ms' j = Some (l, h') /\ kept h h'.
  Proof.
    intros Hf. revert ms'. induction ms as [| (l, h) ms IH]; cbn [mapM]; intros ms' H; [injection H as <-; split; [reflexivity |]; split; [reflexivity |]; intros [|] ? ? E; discriminate |].
    apply bind_ok_inv in H. destruct H as (e & E & H). apply bind_ok_inv in E. destruct E as (h' & Eh & E). injection E as <-. apply bind_ok_inv in H. destruct H as (t & Et & H). injection H as <-.
    destruct (IH t Et) as (L & M & K). split; [cbn; now f_equal |]. split; [cbn; now f_equal |]. intros [| j] l1 h1 E; [cbn in E; injection E as <- <-; exists h'; split; [reflexivity | now apply Hf] | now apply K].
  Qed.

  (** Results of a step, class by class. *)
  Definition after (ms ms2 : cls) : Prop :=
    length ms2 = length ms /\
    (forall j l h, nth_error ms j = Some (l, h) -> exists h2, nth_error ms2 j = Some (l, h2) /\
       (hc_par h2 = hc_par h /\ h_trans (hc_net h2) = h_trans (hc_net h) /\ h_exit (hc_net h2) = h_exit (hc_net h) /\ (Forall state_diag (h_states (hc_net h)) -> Forall state_diag (h_states (hc_net h2)))) /\
       num_in 0 (bpow radix2 700) (h_inst (hc_run h2)) /\
       forall k, (k < hc_n h)%nat -> num_in 0 1 (ent (h_a0 (hc_run h2)) k) /\ num_in 0 1 (ent (h_a1 (hc_run h2)) k) /\ num_in 0 1 (ent (h_a2 (hc_run h2)) k)) /\
    exists j l h2 k, nth_error ms2 j = Some (l, h2) /\ (k < hc_n h2)%nat /\ bpow radix2 (-60) <= fval (ent (h_a0 (hc_run h2)) k) /\ 0 < fval (h_inst (hc_run h2)).

  Lemma stepped_after ms ms2 : stepped fexp fln ms ms2 -> after ms ms2.
  Proof.
    intros (L & S & (l & h2 & k & I & K)). split; [exact L |]. split.
    - intros j l1 h1 E. destruct (S j l1 h1 E) as (h & E2 & (_ & _ & _ & P & _ & N) & Q). exists h. split; [exact E2 |]. split; [rewrite P, N; auto | exact Q].
    - apply In_nth_error in I. destruct I as (j & Ej). exists j, l, h2, k. auto.
  Qed.
  Lemma after_kept ms ms2 ms3 : after ms ms2 -> length ms3 = length ms2 -> (forall j l h, nth_error ms2 j = Some (l, h) -> exists h', nth_error ms3 j = Some (l, h') /\ kept h h') -> after ms ms3.
  Proof.
    intros (L & S & (j0 & l0 & h0 & k0 & E0 & K0 & B0 & P0)) L3 K. split; [congruence |]. split.
    - intros j l h E. destruct (S j l h E) as (h2 & E2 & (S1 & S2 & S3 & S4) & S5 & S6). destruct (K j l h2 E2) as (h3 & E3 & (K1 & K2 & K3 & K4 & K5 & K6 & K7 & K8)).
      exists h3. split; [exact E3 |]. rewrite K1, K2, K3, K5, K6, K7, K8. split; [split; [exact S1 |]; split; [exact S2 |]; split; [exact S3 | auto] |]. auto.
    - destruct (K j0 l0 h0 E0) as (h3 & E3 & (K1 & K2 & K3 & K4 & K5 & K6 & K7 & K8)). exists j0, l0, h3, k0. rewrite K5, K8. split; [exact E3 |]. split; [unfold hc_n; rewrite K1; exact K0 | auto].
  Qed.

  Lemma after_model (m m' : hhmm A) : model_left_right m -> after (hh_cls m) (hh_cls m') -> hh_hier m' = hh_hier m -> hh_prior m' = hh_prior m -> hh_trans m' = hh_trans m -> hh_exit m' = hh_exit m ->
    model_left_right m' /\ forward_f64 m' /\ hh_size m' = hh_size m.
  Proof.
    intros (Hh & Ne & Hs & Cl & T1 & T2) (L & S & (j0 & l0 & h0 & k0 & E0 & K0 & B0 & P0)) E1 E2 E3 E4. rewrite Forall_forall in Cl.
    assert (B : forall l h2, In (l, h2) (hh_cls m') -> exists j h, nth_error (hh_cls m) j = Some (l, h) /\ nth_error (hh_cls m') j = Some (l, h2)).
    { intros l h2 I. apply In_nth_error in I. destruct I as (j & Ej). assert (Hj : (j < length (hh_cls m))%nat) by (rewrite <- L; apply nth_error_Some; congruence).
      destruct (nth_error (hh_cls m) j) as [(l1, h) |] eqn:E; [| apply nth_error_None in E; lia]. destruct (S j l1 h E) as (h3 & F & _). assert (Q : Some (l1, h3) = Some (l, h2)) by congruence. injection Q as -> ->. eauto. }
    assert (SZ : hh_size m' = hh_size m) by exact L.
    assert (ST : states_of (hh_cls m') = states_of (hh_cls m)).
    { assert (Q : map (fun e => hc_n (snd e)) (hh_cls m') = map (fun e => hc_n (snd e)) (hh_cls m)).
      { apply nth_ext with 0%nat 0%nat; [now rewrite !map_length |]. intros j Hj. rewrite map_length, L in Hj. destruct (nth_error (hh_cls m) j) as [(l, h) |] eqn:E; [| apply nth_error_None in E; lia].
        destruct (S j l h E) as (h2 & F & (P & _) & _). apply (map_nth_error (fun e => hc_n (snd e))) in E. apply (map_nth_error (fun e => hc_n (snd e))) in F.
        rewrite (nth_error_nth _ _ 0%nat E), (nth_error_nth _ _ 0%nat F). cbn [snd]. unfold hc_n. now rewrite P. }
      assert (G : forall ms : cls, states_of ms = fold_right Nat.add 0%nat (map (fun e => hc_n (snd e)) ms)) by (induction ms as [| e ms IH]; [reflexivity |]; cbn; now rewrite <- IH). rewrite !G. now rewrite Q. }
    split; [| split; [| exact SZ]].
    - split; [congruence |]. split; [intros C; rewrite C in L; destruct (hh_cls m); [congruence | discriminate] |]. split; [now rewrite ST |]. split.
      + rewrite Forall_forall. intros (l, h2) I. destruct (B l h2 I) as (j & h & F1 & F2). destruct (S j l h F1) as (h3 & F3 & (P1 & P2 & P3 & P4) & _). assert (Q : Some (l, h3) = Some (l, h2)) by congruence. injection Q as ->.
        destruct (Cl _ (nth_error_In _ _ F1)) as (C1 & C2 & C3 & C4 & C5 & C6). cbn [snd] in *. unfold class_left_right, hc_mode, hc_n in *. rewrite P1, P2, P3. split; [exact C1 |]. split; [exact C2 |]. split; [auto |]. auto.
      + rewrite SZ, E2, E3, E4. auto.
    - split.
      + intros l h2 k I Hk. destruct (B l h2 I) as (j & h & F1 & F2). destruct (S j l h F1) as (h3 & F3 & (P1 & _) & _ & P). assert (Q : Some (l, h3) = Some (l, h2)) by congruence. injection Q as ->. apply P. unfold hc_n in *. now rewrite <- P1.
      + exists l0, h0, k0. split; [eapply nth_error_In, E0 | auto].
  Qed.

  Lemma filter_step (m m' : hhmm A) x : model_left_right m -> (hh_started m = true -> forward_f64 m) -> frame_f64 x -> hh_filter (A := A) x m = Ok m' ->
    model_left_right m' /\ hh_started m' = true /\ forward_f64 m' /\ hh_size m' = hh_size m /\ parts_f64 (hh_size m') (ent (rs_inst (hh_res m'))) (ent (rs_instn (hh_res m'))).
  Proof.
    intros M Fw Fx H. unfold hh_filter in H. apply bind_ok_inv in H. destruct H as (m1 & E1 & H).
    destruct (forward_step fexp fln LM m m1 x M Fw Fx E1) as (St & S1 & S2 & S3 & S4 & S5 & S6 & S7). apply stepped_after in St.
    apply bind_ok_inv in H. destruct H as (ms & Ep & H). destruct (mapM_kept _ _ _ post_kept Ep) as (L1 & _ & K1). assert (A2 := after_kept _ _ _ St L1 K1).
    apply bind_ok_inv in H. destruct H as (r & Er & H).
    assert (Pa : parts_f64 (hh_size m) (ent (rs_inst r)) (ent (rs_instn r))).
    { assert (Rp := results_parts fexp fln _ _ _ _ _ Er). cbv zeta in Rp. rewrite map_length in Rp. destruct A2 as (L2 & B2 & (j0 & l0 & h0 & k0 & F0 & _ & _ & P0)).
      assert (Ls : length ms = hh_size m) by exact L2. rewrite Ls in Rp.
      assert (Mi := proj1 (proj2 (proj2 M))). assert (Cl := proj1 (proj2 (proj2 (proj2 M)))). rewrite Forall_forall in Cl.
      assert (Sz : (Z.of_nat (hh_size m) < 2 ^ 32)%Z).
      { assert (Q : (hh_size m <= states_of (hh_cls m))%nat) by (apply states_size; intros l h I; apply (Cl (l, h) I)). lia. }
      assert (Bi : forall i, (i < hh_size m)%nat -> num_in 0 (bpow radix2 700) (ent (rs_inst r) i)).
      { intros i Hi. assert (Q : ent (rs_inst r) i = nth i (map (fun e : string * hclass A => h_inst (hc_run (snd e))) ms) (S754_zero false)) by exact (proj1 (Rp i Hi)). rewrite Q. destruct (nth_error (hh_cls m) i) as [(l, h) |] eqn:E; [| apply nth_error_None in E; unfold hh_size in Hi; lia].
        destruct (B2 i l h E) as (h2 & F & _ & G & _). apply (map_nth_error (fun e : string * hclass A => h_inst (hc_run (snd e)))) in F. assert (Y := nth_error_nth (A := f64) _ _ (S754_zero false) F). change (num A) with f64 in *. rewrite Y. exact G. }
      assert (J0 : (j0 < hh_size m)%nat) by (rewrite <- Ls; apply nth_error_Some; congruence).
      assert (Q0 : 0 < fval (ent (rs_inst r) j0)).
      { assert (Q : ent (rs_inst r) j0 = nth j0 (map (fun e : string * hclass A => h_inst (hc_run (snd e))) ms) (S754_zero false)) by exact (proj1 (Rp j0 J0)). rewrite Q. apply (map_nth_error (fun e : string * hclass A => h_inst (hc_run (snd e)))) in F0. assert (Y := nth_error_nth (A := f64) _ _ (S754_zero false) F0). change (num A) with f64 in *. rewrite Y. exact P0. }
      assert (Nn : forall i, (i < hh_size m)%nat -> nn (ent (rs_inst r) i)) by (intros i Hi; apply nonneg_nn; eapply num_in_nonneg; [| apply Bi, Hi]; apply Rle_refl).
      assert (Ba : forall i, (i < hh_size m)%nat -> num_in (- bpow radix2 700) (bpow radix2 700) (ent (rs_inst r) i)) by (intros i Hi; eapply num_in_weaken; [apply Bi, Hi | assert (Q := bp0 700); lra | apply Rle_refl]).
      assert (LB : bpow radix2 700 <= bpow radix2 950) by (apply bpow_le; lia).
      destruct (nsum_abs fexp fln (bpow radix2 700) (hh_size m) _ ltac:(lia) (bp0 _) LB Ba) as (_ & N & _).
      destruct (nsum_nn fexp fln (hh_size m) _ Nn) as (_ & Q). destruct (Q N) as (Q1 & _).
      apply (parts_of fexp fln); [exact Nn | exact N | | intros i Hi; apply (Rp i Hi)]. apply Rlt_le_trans with (1 := Q0). apply Q1, J0. }
    assert (F : forall ms' r', after (hh_cls m) ms' -> rs_inst r' = rs_inst r -> rs_instn r' = rs_instn r -> m' = hh_set_res r' (hh_set_cls ms' m1) ->
      model_left_right m' /\ hh_started m' = true /\ forward_f64 m' /\ hh_size m' = hh_size m /\ parts_f64 (hh_size m') (ent (rs_inst (hh_res m'))) (ent (rs_instn (hh_res m')))).
    { intros ms' r' Af R1 R2 ->. destruct (after_model m (hh_set_res r' (hh_set_cls ms' m1)) M Af S2 S3 S4 S5) as (X1 & X2 & X3).
      split; [exact X1 |]. split; [exact S1 |]. split; [exact X2 |]. split; [exact X3 |]. rewrite X3. cbn [hh_res hh_set_res]. rewrite R1, R2. exact Pa. }
    destruct (negb (hh_bim m1)).
    - injection H as <-. apply (F ms r); auto.
    - apply bind_ok_inv in H. destruct H as (no & _ & H). apply bind_ok_inv in H. destruct H as (ms' & Em & H). destruct (mapM_kept _ _ _ (regression_kept x) Em) as (L2 & _ & K2). assert (A3 := after_kept _ _ _ A2 L2 K2).
      apply bind_ok_inv in H. destruct H as ((o & c) & _ & H). injection H as <-. eapply (F ms'); [exact A3 | | | reflexivity]; reflexivity.
  Qed.

  Lemma filter_seq xs : forall (m m' : hhmm A), model_left_right m -> (hh_started m = true -> forward_f64 m) -> Forall frame_f64 xs -> hh_filters (A := A) xs m = Ok m' -> xs <> [] ->
    hh_size m' = hh_size m /\ forward_f64 m' /\ parts_f64 (hh_size m') (ent (rs_inst (hh_res m'))) (ent (rs_instn (hh_res m'))).
  Proof.
    induction xs as [| x xs IH]; intros m m' M Fw Fx H Ne; [congruence |]. inversion Fx as [| ? ? F1 F2]; subst. cbn [hh_filters] in H. apply bind_ok_inv in H. destruct H as (m1 & E1 & H).
    destruct (filter_step m m1 x M Fw F1 E1) as (M1 & _ & W1 & Z1 & P1). destruct xs as [| y xs].
    - cbn [hh_filters] in H. injection H as <-. auto.
    - destruct (IH m1 m' M1 (fun _ => W1) F2 H ltac:(congruence)) as (Z2 & W2 & P2). split; [congruence | auto].
  Qed.
End Filter.
