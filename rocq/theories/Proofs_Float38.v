(** Regression with hierarchical models, frame after frame, in binary64. *)
From Coq Require Import String ZArith QArith Reals Lra Lia Bool List Arith.
From Coq Require Import Floats.SpecFloat.
From Flocq Require Import Core.Core.
From Flocq Require Import IEEE754.BinarySingleNaN.
From Verif Require Import Base BaseFacts Arith Spec_Float Spec_Float2 Spec_Float3 Spec_Float4 Spec_Float6 Spec_Float7 Proofs_Float1 Proofs_Float2 Proofs_Float3 Proofs_Float4 Proofs_Float5 Proofs_Float6 Proofs_Float7 Proofs_Float8 Proofs_Float9 Proofs_Float10 Proofs_Float11 Proofs_Float12 Proofs_Float13 Proofs_Float14 Proofs_Float15 Proofs_Float16 Proofs_Float21 Proofs_Float22 Proofs_Float24 Proofs_Float26 Proofs_Float27 Proofs_Float28 Proofs_Float30 Proofs_Float31 Proofs_Float32 Proofs_Float33 Proofs_Float35 Proofs_Float36 Proofs_Float37.
From Verif Require Import Model_Map Model_Ring Model_Phrase Model_Gaussian Model_Config Model_KMeans Model_GMM Model_HMM Model_HHMM Model_Single Model_Single2 Model_Single3 Model_Single4.
Import ListNotations.
Local Open Scope R_scope.
#[local] Existing Instance Proofs_Float1.Hprec.
#[local] Existing Instance Proofs_Float1.Hmax.

Local Notation fadd := (SFadd fprec femax).
Local Notation fmul := (SFmul fprec femax).
Local Notation fdiv := (SFdiv fprec femax).

Section Run.
  Variables fexp fln : f64 -> f64.
  Hypothesis LM : libm_f64 fexp fln.
  Local Notation A := (FA fexp fln).
  Local Notation cls := (list (string * hclass A)).

  Lemma mget_key (ms : cls) l g : mget String.eqb ms l = Some g -> In (l, g) ms.
  Proof. induction ms as [| (k, v) ms IH]; cbn [mget]; intros H; [discriminate |]. destruct (String.eqb_spec l k) as [-> | D]; [injection H as <-; now left | right; auto]. Qed.
  Lemma state_diag_kept (g g' : gclass A) : kept fexp fln g g' -> state_diag g -> state_diag g'.
  Proof. intros (K1 & K2 & K3 & K4 & K5 & K6) S. unfold state_diag, class_f64, gc_n in *. rewrite K4, K5, K6. exact S. Qed.
  Lemma wregression_kept x (h h' : hclass A) : hm_regression_with (A := A) as_single x h = Ok h' -> Proofs_Float12.kept fexp fln h h'.
  Proof.
    intros H. destruct (wreg_inv fexp fln (fun _ => True) x h h' ltac:(auto) ltac:(apply Forall_forall; auto) H) as (no & _ & (_ & _ & _ & _ & K5 & _ & K7 & _) & Ex & Er & _).
    split; [exact K5 |]. split; [exact K7 |]. split; [exact Ex |]. split; [| rewrite Er; repeat split].
    intros F. destruct (wreg_inv fexp fln state_diag x h h' (fun g g' K => state_diag_kept g g' K) F H) as (_ & _ & (_ & _ & _ & _ & _ & _ & _ & K8) & _). exact (K8 F).
  Qed.

  (** What the forward pass does not change. *)
  Lemma forward_fixed x (m m1 : hhmm A) : hh_hier m = true -> hh_forward (A := A) x m = Ok m1 -> hh_dim m1 = hh_dim m /\ hh_din m1 = hh_din m /\ hh_est m1 = hh_est m.
  Proof.
    intros Hh H. unfold hh_forward in H. rewrite Hh in H. destruct (hh_started m).
    - unfold hh_forward_update in H. apply bind_ok_inv in H. destruct H as (v1 & _ & H). apply bind_ok_inv in H. destruct H as (v2 & _ & H). apply bind_ok_inv in H. destruct H as ((ms & norm) & _ & H). apply bind_ok_inv in H. destruct H as (ms2 & _ & H). injection H as <-. repeat split.
    - unfold hh_forward_init in H. apply bind_ok_inv in H. destruct H as ((ms & norm) & _ & H). apply bind_ok_inv in H. destruct H as (ms2 & _ & H). injection H as <-. repeat split.
  Qed.

  Section Model.
    Variables (N D DI : nat) (P : gclass A -> Prop) (Q : hmmP A -> Prop).
    Hypothesis PK : forall g g', kept fexp fln g g' -> P g -> P g'.

    Definition fits (h : hclass A) : Prop := hc_hier h = true /\ hc_dim h = D /\ hc_din h = DI /\ (hc_n h <= N)%nat /\ Forall P (h_states (hc_net h)) /\ Q (hc_par h).
    (** A class ready for the regression. *)
    Definition able (h : hclass A) : Prop := fits h /\ unit_alpha fexp fln h /\ hwindow fexp fln h.
    Definition hier_inv (m : hhmm A) : Prop := model_left_right m /\ (hh_started m = true -> forward_f64 m) /\ hh_bim m = true /\ Forall (fun e => fits (snd e)) (hh_cls m).

    Lemma hier_step (m m' : hhmm A) x : hier_inv m -> frame_f64 x -> hh_filter_with (A := A) as_single x m = Ok m' ->
      hier_inv m' /\ hh_dim m' = hh_dim m /\ hh_din m' = hh_din m /\ hh_est m' = hh_est m /\ hh_size m' = hh_size m /\ forward_f64 m' /\
      (forall e', In e' (hh_cls m') -> exists h, able h /\ hm_regression_with (A := A) as_single x h = Ok (snd e') /\ hc_par (snd e') = hc_par h /\ h_a0 (hc_run (snd e')) = h_a0 (hc_run h) /\ h_a1 (hc_run (snd e')) = h_a1 (hc_run h)) /\
      (hh_est m = Likeliest -> exists h', In (rs_likeliest (hh_res m'), h') (hh_cls m') /\ rs_out (hh_res m') = h_out (hc_run h') /\ rs_ocov (hh_res m') = h_ocov (hc_run h')).
    Proof.
      intros (M & Fw & Bi & Fi) Fx H. unfold hh_filter_with in H. apply bind_ok_inv in H. destruct H as (m1 & E1 & H). assert (Hh : hh_hier m = true) by apply M.
      assert (E1' : hh_forward (A := A) x m = Ok m1) by (unfold hh_forward_with in E1; unfold hh_forward; rewrite Hh in *; exact E1).
      destruct (forward_fixed x m m1 Hh E1') as (X1 & X2 & X3).
      destruct (forward_step fexp fln LM m m1 x M Fw Fx E1') as (St & S1 & S2 & S3 & S4 & S5 & S6 & S7).
      assert (Fi1 : forall e1, In e1 (hh_cls m1) -> fits (snd e1) /\ unit_alpha fexp fln (snd e1)).
      { intros (l1, h1) I. destruct St as (L & Sd & _). apply In_nth_error in I. destruct I as (j & Ej). assert (Hj : (j < length (hh_cls m))%nat) by (rewrite <- L; apply nth_error_Some; congruence).
        destruct (nth_error (hh_cls m) j) as [(l0, h0) |] eqn:E0; [| apply nth_error_None in E0; lia]. destruct (Sd j l0 h0 E0) as (h2 & E2 & (C1 & C2 & C3 & C4 & C5 & C6) & _ & C7). rewrite E2 in Ej. injection Ej as -> ->. cbn [snd].
        rewrite Forall_forall in Fi. destruct (Fi _ (nth_error_In _ _ E0)) as (F1 & F2 & F3 & F4 & F5 & F6). cbn [snd] in *. assert (Nq : hc_n h1 = hc_n h0) by (unfold hc_n; now rewrite C4).
        split; [unfold fits; rewrite Nq, C2, C3, C4, C5, C6; auto 10 |]. intros k Hk. rewrite Nq in Hk. destruct (C7 k Hk) as (Q1 & Q2 & _). auto. }
      apply stepped_after in St. apply bind_ok_inv in H. destruct H as (ms & Ep & H). destruct (mapM_kept fexp fln _ _ _ (post_kept fexp fln) Ep) as (L1 & _ & K1). assert (A2 := after_kept fexp fln _ _ _ St L1 K1).
      destruct (mapM_pairs fexp fln _ _ _ Ep) as (_ & D2).
      assert (Fi2 : forall e2, In e2 ms -> able (snd e2)).
      { intros e2 I. destruct (D2 e2 I) as (e1 & I1 & Eq). destruct (Fi1 e1 I1) as (F & U). destruct (post_hier fexp fln _ _ Eq) as (W & r & Eh & R0 & R1). rewrite Eh in *. split; [exact F |]. split; [| exact W].
        intros k Hk. cbn [hc_run hc_set_run]. rewrite R0, R1. exact (U k Hk). }
      apply bind_ok_inv in H. destruct H as (r & Er & H). rewrite S7, Bi in H. cbn [negb] in H. apply bind_ok_inv in H. destruct H as (no & Eno & H). apply bind_ok_inv in H. destruct H as (ms3 & E3 & H).
      destruct (mapM_kept fexp fln _ _ _ (wregression_kept x) E3) as (L3 & _ & K3). assert (A3 := after_kept fexp fln _ _ _ A2 L3 K3). destruct (mapM_pairs fexp fln _ _ _ E3) as (_ & D3).
      assert (Fi3 : forall e3, In e3 ms3 -> exists h, able h /\ hm_regression_with (A := A) as_single x h = Ok (snd e3) /\ fits (snd e3) /\ hc_par (snd e3) = hc_par h /\ h_a0 (hc_run (snd e3)) = h_a0 (hc_run h) /\ h_a1 (hc_run (snd e3)) = h_a1 (hc_run h)).
      { intros e3 I. destruct (D3 e3 I) as (e2 & I2 & Eq). assert (Ab := Fi2 e2 I2). exists (snd e2). split; [exact Ab |]. split; [exact Eq |]. destruct Ab as ((F1 & F2 & F3 & F4 & F5 & F6) & _ & _).
        destruct (wreg_inv fexp fln P x _ _ PK F5 Eq) as (_ & _ & (_ & J2 & J3 & J4 & J5 & _ & _ & J8) & _ & Jr & _). split; [unfold fits, hc_n in *; rewrite J2, J3, J4, J5; auto 10 |]. split; [exact J5 |]. rewrite Jr. split; reflexivity. }
      apply bind_ok_inv in H. destruct H as ((o & c) & Eo & H). injection H as <-.
      match goal with |- hier_inv ?mm /\ _ => set (m' := mm) end.
      destruct (after_model fexp fln m m' M A3 S2 S3 S4 S5) as (Y1 & Y2 & Y3).
      split; [split; [exact Y1 |]; split; [intros _; exact Y2 |]; split; [exact (eq_trans S7 Bi) |]; apply Forall_forall; intros e I; destruct (Fi3 e I) as (_ & _ & _ & F & _); exact F |].
      split; [exact X1 |]. split; [exact X2 |]. split; [exact X3 |]. split; [exact Y3 |]. split; [exact Y2 |].
      split; [intros e I; destruct (Fi3 e I) as (h & B1 & B2 & _ & B3); exists h; auto |].
      intros Es. rewrite X3, Es in Eo. destruct (mget _ _ _) as [g |] eqn:Eg; [| discriminate]. injection Eo as <- <-. exists g. split; [exact (mget_key _ _ _ Eg) |]. split; reflexivity.
    Qed.

    Lemma hier_seq xs : forall (m m' : hhmm A), hier_inv m -> Forall frame_f64 xs -> hh_filters_with (A := A) as_single xs m = Ok m' ->
      hier_inv m' /\ hh_dim m' = hh_dim m /\ hh_din m' = hh_din m /\ hh_est m' = hh_est m /\ hh_size m' = hh_size m.
    Proof.
      induction xs as [| x xs IH]; intros m m' I F H; cbn [hh_filters_with] in H; [injection H as <-; auto |]. inversion F as [| ? ? F1 F2]; subst.
      apply bind_ok_inv in H. destruct H as (m1 & E1 & H). destruct (hier_step m m1 x I F1 E1) as (I1 & Q1 & Q2 & Q3 & Q4 & _). destruct (IH m1 m' I1 F2 H) as (J1 & J2 & J3 & J4 & J5). split; [exact J1 |]. repeat split; congruence.
    Qed.
    Lemma filters_app xs x : forall m m' : hhmm A, hh_filters_with (A := A) as_single (xs ++ [x]) m = Ok m' -> exists m1, hh_filters_with (A := A) as_single xs m = Ok m1 /\ hh_filter_with (A := A) as_single x m1 = Ok m'.
    Proof.
      induction xs as [| y xs IH]; intros m m' H; cbn [app hh_filters_with] in H.
      - apply bind_ok_inv in H. destruct H as (m1 & E1 & H). injection H as <-. exists m. split; [reflexivity | exact E1].
      - apply bind_ok_inv in H. destruct H as (m1 & E1 & H). destruct (IH m1 m' H) as (m2 & Q1 & Q2). exists m2. split; [| exact Q2]. cbn [hh_filters_with]. rewrite E1. exact Q1.
    Qed.
  End Model.
End Run.
