(** Models without the hierarchical mode in binary64. *)
From Coq Require Import String ZArith QArith Reals Lra Lia Bool List Arith.
From Coq Require Import Floats.SpecFloat.
From Flocq Require Import Core.Core IEEE754.BinarySingleNaN.
From Verif Require Import Base BaseFacts Arith Spec_Float Spec_Float2 Spec_Float3 Spec_Float4 Proofs_Float1 Proofs_Float2 Proofs_Float3 Proofs_Float4 Proofs_Float5 Proofs_Float6 Proofs_Float7 Proofs_Float8 Proofs_Float9 Proofs_Float12 Proofs_Float13 Proofs_Float14 Proofs_Float15 Proofs_Float16.
From Verif Require Import Model_Map Model_Ring Model_Gaussian Model_Config Model_KMeans Model_GMM Model_HMM Model_HHMM.
Import ListNotations.
Local Open Scope R_scope.

#[local] Existing Instance Proofs_Float1.Hprec.
#[local] Existing Instance Proofs_Float1.Hmax.

Section FlatModel.
  Variables fexp fln : f64 -> f64.
  Hypothesis LM : libm_f64 fexp fln.
  Local Notation A := (FA fexp fln).
  Local Notation cls := (list (string * hclass A)).

  Lemma mapM_each (f : hclass A -> res (hclass A)) (P Q : hclass A -> Prop) (ms ms' : cls) : (forall h h', P h -> f h = Ok h' -> Q h') ->
    mapM (fun e => let* h := f (snd e) in Ok (fst e, h)) ms = Ok ms' -> Forall (fun e => P (snd e)) ms -> length ms' = length ms /\ Forall (fun e => Q (snd e)) ms'.
  Proof.
    intros Hf. revert ms'. induction ms as [| (l, h) ms IH]; cbn [mapM]; intros ms' H F; [injection H as <-; split; [reflexivity | constructor] |].
    apply bind_ok_inv in H. destruct H as (e & E & H). apply bind_ok_inv in E. destruct E as (h' & Eh & E). injection E as <-. apply bind_ok_inv in H. destruct H as (t & Et & H). injection H as <-.
    inversion F as [| ? ? F1 F2]; subst. destruct (IH t Et F2) as (L & K). split; [cbn; now f_equal |]. constructor; [| exact K]. cbn [snd] in *. eapply Hf; eauto.
  Qed.

  (** A class that has filtered, with its results. *)
  Definition done (h : hclass A) : Prop := class_flat h /\ running fexp fln h /\ results_ok fexp fln h.
  Definition ready (h : hclass A) : Prop := class_flat h /\ (h_started (hc_run h) = true -> running fexp fln h).
  Lemma done_ready h : done h -> ready h. Proof. intros (C & R & _). split; auto. Qed.

  Lemma results_flat (ms : cls) r0 r : (1 <= length ms)%nat -> (Z.of_nat (length ms) < 2 ^ 32)%Z -> Forall (fun e => results_ok fexp fln (snd e)) ms ->
    update_results (A := A) (map fst ms) (map (fun e : string * hclass A => h_inst (hc_run (snd e))) ms) (map (fun e : string * hclass A => h_log (hc_run (snd e))) ms) r0 = Ok r ->
    parts_f64 (length ms) (ent (rs_inst r)) (ent (rs_instn r)) /\ parts_f64 (length ms) (ent (rs_sm r)) (ent (rs_smn r)).
  Proof.
    intros Hn Ln F Er. assert (Er0 := results_parts fexp fln _ _ _ _ _ Er). clear Er. rename Er0 into Er. cbv zeta in Er. rewrite map_length in Er. set (n := length ms) in *.
    assert (O : forall i, (i < n)%nat -> exists e, nth_error ms i = Some e /\ results_ok fexp fln (snd e)).
    { intros i Hi. destruct (nth_error ms i) eqn:E; [| apply nth_error_None in E; lia]. eexists. split; [reflexivity |]. rewrite Forall_forall in F. eapply F, nth_error_In, E. }
    assert (I : forall i, (i < n)%nat -> num_in (bpow radix2 (-790)) (bpow radix2 790) (ent (rs_inst r) i)).
    { intros i Hi. destruct (O i Hi) as (e & E & (L & _)). assert (Q := proj1 (Er i Hi)). apply (map_nth_error (fun e : string * hclass A => h_inst (hc_run (snd e)))) in E.
      assert (Y := nth_error_nth (A := f64) _ _ (S754_zero false) E). assert (Z : ent (rs_inst r) i = h_inst (hc_run (snd e))) by exact (eq_trans Q Y). rewrite Z. exact L. }
    assert (M : forall i, (i < n)%nat -> num_in (bpow radix2 (-900)) (bpow radix2 900) (ent (rs_sm r) i)).
    { intros i Hi. destruct (O i Hi) as (e & E & (_ & L & _)). assert (Q := proj1 (proj2 (proj2 (Er i Hi)))). apply (map_nth_error (fun e : string * hclass A => h_log (hc_run (snd e)))) in E.
      assert (Y := nth_error_nth (A := f64) _ _ (S754_zero false) E). assert (Z : ent (rs_sm r) i = fexp (h_log (hc_run (snd e)))) by exact (eq_trans Q (f_equal fexp Y)). rewrite Z. exact (exp_mid _ _ LM _ L). }
    assert (T : forall a b (l q : list f64), 0 < a -> b <= bpow radix2 950 -> (forall i, (i < n)%nat -> num_in a b (ent l i)) ->
      (forall i, (i < n)%nat -> ent q i = SFdiv fprec femax (ent l i) (nsum (A := A) n (ent l))) -> parts_f64 n (ent l) (ent q)).
    { intros a b l q Pa Lb Hl Hq. assert (Pb : 0 <= b). { destruct (Hl 0%nat ltac:(lia)) as (_ & _ & B). lra. }
      assert (Nn : forall i, (i < n)%nat -> nn (ent l i)). { intros i Hi. destruct (Hl i Hi) as (V & N & B). split; [exact V | right; split; [exact N | lra]]. }
      destruct (nsum_abs fexp fln b n (ent l) ltac:(lia) Pb Lb) as (V & N & _).
      { intros i Hi. destruct (Hl i Hi) as (V & N & B). split; [exact V | split; [exact N | lra]]. }
      apply (parts_of fexp fln); auto. destruct (nsum_nn fexp fln n _ Nn) as (_ & Q). destruct (Q N) as (Q1 & _). destruct (Q1 0%nat ltac:(lia)) as (_ & Q2). destruct (Hl 0%nat ltac:(lia)) as (_ & _ & B). lra. }
    split.
    - apply (T (bpow radix2 (-790)) (bpow radix2 790)); [apply bpow_gt_0 | apply bpow_le; lia | exact I |]. intros i Hi. apply (Er i Hi).
    - apply (T (bpow radix2 (-900)) (bpow radix2 900)); [apply bpow_gt_0 | apply bpow_le; lia | exact M |]. intros i Hi. apply (Er i Hi).
  Qed.

  Lemma flat_step (m m' : hhmm A) x : hh_hier m = false -> hh_cls m <> [] -> (Z.of_nat (hh_size m) < 2 ^ 32)%Z -> Forall (fun e => ready (snd e)) (hh_cls m) -> frame_f64 x -> hh_filter (A := A) x m = Ok m' ->
    hh_hier m' = false /\ hh_size m' = hh_size m /\ Forall (fun e => done (snd e)) (hh_cls m') /\
    parts_f64 (hh_size m) (ent (rs_inst (hh_res m'))) (ent (rs_instn (hh_res m'))) /\ parts_f64 (hh_size m) (ent (rs_sm (hh_res m'))) (ent (rs_smn (hh_res m'))).
  Proof.
    intros Hh Ne Hs Rd Fx H. unfold hh_filter in H. apply bind_ok_inv in H. destruct H as (m1 & E1 & H). unfold hh_forward in E1. rewrite Hh in E1.
    apply bind_ok_inv in E1. destruct E1 as (ms1 & M1 & E1). apply bind_ok_inv in E1. destruct E1 as (inst & _ & E1). injection E1 as <-. cbn [hh_cls hh_set_res hh_set_cls hh_res hh_bim hh_est hh_cmode hh_dim hh_din] in H.
    assert (D1 := mapM_each (hm_filter (A := A) x) ready done _ _ (fun h h' (R : ready h) E => proj2 (filter_flat fexp fln LM x h h' (proj1 R) (proj2 R) Fx E)) M1 Rd). destruct D1 as (L1 & D1).
    apply bind_ok_inv in H. destruct H as (ms2 & M2 & H).
    assert (D2 := mapM_each (hm_post (A := A)) done done _ _ (fun h h' (R : done h) E => proj2 (good_post fexp fln LM h h' (proj1 R) (proj1 (proj2 R)) (proj1 (proj2 (proj2 R))) E)) M2 D1). destruct D2 as (L2 & D2).
    apply bind_ok_inv in H. destruct H as (r & Er & H).
    assert (Ln : length ms2 = hh_size m) by (unfold hh_size; congruence).
    assert (Pos : (1 <= hh_size m)%nat) by (unfold hh_size; destruct (hh_cls m); [congruence | cbn; lia]).
    assert (RO : Forall (fun e => results_ok fexp fln (snd e)) ms2) by (rewrite Forall_forall in *; intros e I; apply (D2 e I)).
    assert (PP := results_flat ms2 _ r ltac:(lia) ltac:(lia) RO Er). destruct PP as (P1 & P2).
    rewrite Ln in P1, P2.
    destruct (negb (hh_bim m)).
    - injection H as <-. split; [exact Hh |]. split; [exact Ln |]. split; [exact D2 |]. split; [exact P1 | exact P2].
    - apply bind_ok_inv in H. destruct H as (no & _ & H). apply bind_ok_inv in H. destruct H as (ms3 & M3 & H). apply bind_ok_inv in H. destruct H as ((o & c) & _ & H). injection H as <-.
      assert (D3 := mapM_each (hm_regression (A := A) x) done done _ _ (fun h h' (R : done h) E => proj2 (good_regression fexp fln x h h h' (conj (conj eq_refl (conj eq_refl (conj eq_refl (conj eq_refl (fun F => F))))) R) E)) M3 D2).
      destruct D3 as (L3 & D3). split; [exact Hh |]. split; [cbn; unfold hh_size in *; cbn; congruence |]. split; [exact D3 |]. split; [exact P1 | exact P2].
  Qed.

  Lemma flat_seq xs : forall (m m' : hhmm A), hh_hier m = false -> hh_cls m <> [] -> (Z.of_nat (hh_size m) < 2 ^ 32)%Z -> Forall (fun e => ready (snd e)) (hh_cls m) -> Forall frame_f64 xs -> xs <> [] ->
    hh_filters (A := A) xs m = Ok m' -> hh_size m' = hh_size m /\ Forall (fun e => done (snd e)) (hh_cls m') /\
    parts_f64 (hh_size m) (ent (rs_inst (hh_res m'))) (ent (rs_instn (hh_res m'))) /\ parts_f64 (hh_size m) (ent (rs_sm (hh_res m'))) (ent (rs_smn (hh_res m'))).
  Proof.
    induction xs as [| x xs IH]; intros m m' Hh Ne Hs Rd Fx NE H; [congruence |]. inversion Fx as [| ? ? F1 F2]; subst. cbn [hh_filters] in H. apply bind_ok_inv in H. destruct H as (m1 & E1 & H).
    destruct (flat_step m m1 x Hh Ne Hs Rd F1 E1) as (S1 & S2 & S3 & S4 & S5).
    destruct xs as [| y xs]; [cbn in H; injection H as <-; auto |]. rewrite <- S2. apply (IH m1 m'); auto; [| lia | | discriminate].
    - intros E. apply Ne. unfold hh_size in S2. rewrite E in S2. destruct (hh_cls m); [reflexivity | discriminate].
    - rewrite Forall_forall in *. intros e I. apply done_ready, S3, I.
  Qed.
End FlatModel.
