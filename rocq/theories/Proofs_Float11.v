(** Recognition with hierarchical models in binary64. *)
From Coq Require Import String ZArith QArith Reals Lra Lia Bool List Arith.
From Coq Require Import Floats.SpecFloat.
From Flocq Require Import Core.Core IEEE754.BinarySingleNaN.
From Verif Require Import Base BaseFacts Arith Spec_Float Spec_Float2 Spec_Float3 Proofs_Float1 Proofs_Float2 Proofs_Float3 Proofs_Float4 Proofs_Float5 Proofs_Float6 Proofs_Float7 Proofs_Float8 Proofs_Float9 Proofs_Single2 Proofs_Single3 Proofs_Float10.
From Verif Require Import Model_Map Model_Ring Model_Gaussian Model_Config Model_KMeans Model_GMM Model_HMM Model_HHMM.
Import ListNotations.
Local Open Scope R_scope.

#[local] Existing Instance Proofs_Float1.Hprec.
#[local] Existing Instance Proofs_Float1.Hmax.

Section Step.
  Variables fexp fln : f64 -> f64.
  Hypothesis LM : libm_f64 fexp fln.
  Local Notation A := (FA fexp fln).
  Local Notation cls := (list (string * hclass A)).

  Lemma mapM_len {X Y} (f : X -> res Y) : forall l l', mapM f l = Ok l' -> length l' = length l.
  Proof.
    induction l as [| x l IH]; cbn [mapM]; intros l' H; [injection H as <-; reflexivity |].
    apply bind_ok_inv in H. destruct H as (y & _ & H). apply bind_ok_inv in H. destruct H as (t & Et & H). injection H as <-. cbn. f_equal. now apply IH.
  Qed.

  Lemma concat_len : forall (ms : cls) (tss : list (list f64)), length tss = length ms ->
    (forall j e ts, nth_error ms j = Some e -> nth_error tss j = Some ts -> (length ts <= hc_n (snd e))%nat) -> (length (concat tss) <= states_of ms)%nat.
  Proof.
    induction ms as [| e ms IH]; intros [| ts tss] L H; cbn in L; try lia; [reflexivity |]. cbn [concat states_of fold_right]. rewrite app_length.
    assert (H0 := H 0%nat e ts eq_refl eq_refl). assert (H1 : (length (concat tss) <= states_of ms)%nat) by (apply IH; [lia |]; intros j e' t' E1 E2; apply (H (S j)); auto). unfold states_of in H1. lia.
  Qed.
  Lemma states_class (ms : cls) l h : In (l, h) ms -> (hc_n h <= states_of ms)%nat.
  Proof. induction ms as [| e ms IH]; intros I; [destruct I |]. destruct I as [-> | I]; cbn [states_of fold_right snd]; [lia |]. specialize (IH I). unfold states_of in IH. lia. Qed.
  Lemma states_size (ms : cls) : (forall l h, In (l, h) ms -> (1 <= hc_n h)%nat) -> (length ms <= states_of ms)%nat.
  Proof.
    induction ms as [| (l, h) ms IH]; intros H; [reflexivity |]. cbn [states_of fold_right snd length]. assert (H0 := H l h (or_introl eq_refl)). assert (H1 := IH (fun l' h' I => H l' h' (or_intror I))). unfold states_of in H1. lia.
  Qed.

  (** The result of a step on the classes. *)
  Definition stepped (ms ms2 : cls) : Prop :=
    length ms2 = length ms /\
    (forall j l h, nth_error ms j = Some (l, h) -> exists h2, nth_error ms2 j = Some (l, h2) /\ same_class fexp fln h h2 /\ num_in 0 (bpow radix2 700) (h_inst (hc_run h2)) /\
       forall k, (k < hc_n h)%nat -> num_in 0 1 (ent (h_a0 (hc_run h2)) k) /\ num_in 0 1 (ent (h_a1 (hc_run h2)) k) /\ num_in 0 1 (ent (h_a2 (hc_run h2)) k)) /\
    exists l h2 k, In (l, h2) ms2 /\ (k < hc_n h2)%nat /\ bpow radix2 (-60) <= fval (ent (h_a0 (hc_run h2)) k) /\ 0 < fval (h_inst (hc_run h2)).

  Lemma scaled (lo : nat -> hclass A -> Prop) (ms ms1 ms2 : cls) (tss : list (list f64)) (norm : f64) : (Z.of_nat (states_of ms) < 2 ^ 32)%Z ->
    length ms1 = length ms -> length tss = length ms -> norm = fold_left fadd (concat tss) (S754_zero false) ->
    (forall j l h, nth_error ms j = Some (l, h) -> exists h' ts, nth_error ms1 j = Some (l, h') /\ nth_error tss j = Some ts /\ class_ok fexp fln (lo j h) h h' ts) ->
    (exists j l h, nth_error ms j = Some (l, h) /\ lo j h) ->
    scale_all (A := A) norm ms1 = Ok ms2 -> stepped ms ms2.
  Proof.
    intros Hs L1 L2 En Hc (j0 & l0 & h0 & E0 & Lo) H.
    assert (Lc : (length (concat tss) <= states_of ms)%nat).
    { apply concat_len; [exact L2 |]. intros j (l, h) ts E1 E2. destruct (Hc j l h E1) as (h' & ts' & _ & F & C). assert (Q : Some ts' = Some ts) by (rewrite <- F; exact E2). injection Q as ->. apply C. }
    assert (Ic : forall t, In t (concat tss) -> exists j l h h' ts, nth_error ms j = Some (l, h) /\ nth_error ms1 j = Some (l, h') /\ nth_error tss j = Some ts /\ In t ts /\ class_ok fexp fln (lo j h) h h' ts).
    { intros t It. apply in_concat in It. destruct It as (ts & I1 & I2). apply In_nth_error in I1. destruct I1 as (j & Ej).
      assert (Hj : (j < length ms)%nat) by (rewrite <- L2; apply nth_error_Some; congruence). destruct (nth_error ms j) as [(l, h) |] eqn:E; [| apply nth_error_None in E; lia].
      destruct (Hc j l h E) as (h' & ts' & F1 & F2 & C). assert (Q : Some ts' = Some ts) by (rewrite <- F2; exact Ej). injection Q as ->. exists j, l, h, h', ts. auto. }
    assert (Ci : forall j ts t, nth_error tss j = Some ts -> In t ts -> In t (concat tss)) by (intros j ts t E I; apply in_concat; exists ts; split; [eapply nth_error_In, E | exact I]).
    destruct (Hc j0 l0 h0 E0) as (h0' & ts0 & _ & F0 & C0). destruct C0 as (_ & _ & _ & _ & _ & _ & C0). destruct (C0 Lo) as (t0 & I0 & B0).
    destruct (total fexp fln (concat tss) (bpow radix2 (-960))) as (Pn & Ln & _ & Mx & (y & Iy & My)).
    { assert (I := Ci _ _ _ F0 I0). intros C. rewrite C in I. destruct I. }
    { lia. }
    { intros t It. destruct (Ic t It) as (j & l & h & h' & ts & _ & _ & _ & I & (_ & _ & _ & C & _)). eapply num_in_weaken; [apply C, I | apply Rle_refl | apply bpow_le; lia]. }
    { exists t0. split; [eapply Ci; eauto | exact B0]. }
    rewrite <- En in *. assert (Pos : 0 < fval norm) by (eapply Rlt_le_trans; [apply bpow_gt_0 | exact Ln]).
    assert (Sc : forall j l h', nth_error ms1 j = Some (l, h') -> exists a0 a1 a2, nth_error ms2 j = Some (l, hc_set_run (rn_alpha_h a0 a1 a2 (hc_run h')) h') /\
      forall k, (k < hc_n h')%nat -> ent a0 k = fdiv (ent (h_a0 (hc_run h')) k) norm /\ ent a1 k = fdiv (ent (h_a1 (hc_run h')) k) norm /\ ent a2 k = fdiv (ent (h_a2 (hc_run h')) k) norm).
    { intros j l h' E. unfold scale_all in H. destruct (mapM_nth _ _ _ _ _ H E) as (e2 & E2 & N2). cbv zeta in E2. cbn [snd fst] in E2.
      apply bind_ok_inv in E2. destruct E2 as (a0 & X0 & E2). apply bind_ok_inv in E2. destruct E2 as (a1 & X1 & E2). apply bind_ok_inv in E2. destruct E2 as (a2 & X2 & E2). injection E2 as <-.
      exists a0, a1, a2. split; [exact N2 |]. unfold scale_vec in *. intros k Hk. unfold ent.
      destruct (each_spec (X := f64) _ (fun v => fdiv v norm) _ _ (S754_zero false) X0) as (_ & Y0). destruct (each_spec (X := f64) _ (fun v => fdiv v norm) _ _ (S754_zero false) X1) as (_ & Y1). destruct (each_spec (X := f64) _ (fun v => fdiv v norm) _ _ (S754_zero false) X2) as (_ & Y2). auto. }
    split; [| split].
    - rewrite <- L1. eapply mapM_len, H.
    - intros j l h E. destruct (Hc j l h E) as (h' & ts & F1 & F2 & (C1 & C2 & _ & _ & C5 & _)). destruct (Sc j l h' F1) as (a0 & a1 & a2 & G1 & G2).
      eexists. split; [exact G1 |]. split; [exact C1 |]. split; [exact C2 |]. cbn [hc_run hc_set_run rn_alpha_h h_a0 h_a1 h_a2].
      destruct C1 as (_ & _ & _ & Cp & _). assert (Nn : hc_n h' = hc_n h) by (unfold hc_n; now rewrite Cp).
      intros k Hk. destruct (G2 k) as (X0 & X1 & X2); [lia |]. rewrite X0, X1, X2. destruct (C5 k Hk) as (D0 & D1 & D2).
      assert (Q : forall a, below ts a -> num_in 0 1 (fdiv a norm)).
      { intros a (Pa & t & It & Lt). apply div_part; auto. apply Rle_trans with (1 := Lt). apply Mx. eapply Ci; eauto. }
      auto.
    - destruct (Ic y Iy) as (j & l & h & h' & ts & F1 & F2 & F3 & I & (C1 & C2 & _ & C4 & C5 & C6 & _)). destruct (C6 y I) as (k & Hk & Lk & Uk). destruct (Sc j l h' F2) as (a0 & a1 & a2 & G1 & G2).
      assert (Nn : hc_n h' = hc_n h) by (destruct C1 as (_ & _ & _ & Cp & _); unfold hc_n; now rewrite Cp).
      assert (Ly : bpow radix2 (-993) <= fval y).
      { apply (Rmult_le_reg_l (bpow radix2 33)); [apply bpow_gt_0 |]. rewrite <- bpow_plus. change (33 + -993)%Z with (-960)%Z. lra. }
      assert (Lh : bpow radix2 (-54) * fval norm <= fval (ent (h_a0 (hc_run h')) k)).
      { apply Rle_trans with (2 := Lk). apply Rle_trans with (bpow radix2 (-20) * fval y / 2).
        - apply Rle_trans with (bpow radix2 (-21) * fval y); [| right; change (-21)%Z with (-20 + -1)%Z; rewrite bpow_plus; change (bpow radix2 (-1)) with (/ 2); field].
          apply Rle_trans with (bpow radix2 (-54) * (bpow radix2 33 * fval y)); [apply Rmult_le_compat_l; [apply bp0 | exact My] |].
          rewrite <- Rmult_assoc, <- bpow_plus. apply Rle_refl.
        - apply rnd_half. apply Rle_trans with (bpow radix2 (-20) * bpow radix2 (-993)); [rewrite <- bpow_plus; apply bpow_le; lia | apply Rmult_le_compat_l; [apply bp0 | exact Ly]]. }
      destruct (C5 k Hk) as ((Pa & t & It & Lt) & _). assert (La : fval (ent (h_a0 (hc_run h')) k) <= fval norm) by (apply Rle_trans with (1 := Lt), Mx; eapply Ci; eauto).
      exists l, (hc_set_run (rn_alpha_h a0 a1 a2 (hc_run h')) h'), k. split; [eapply nth_error_In, G1 |]. cbn [hc_run hc_set_run rn_alpha_h h_a0 h_inst]. change (hc_n (hc_set_run (rn_alpha_h a0 a1 a2 (hc_run h')) h')) with (hc_n h'). split; [lia |].
      destruct (G2 k ltac:(lia)) as (-> & _). destruct (div_part _ _ Pa Pn Pos La) as (_ & ->). split.
      + rewrite <- (rnd_bpow (-60)) by lia. apply rnd_le. apply Rle_trans with (bpow radix2 (-54)); [apply bpow_le; lia |].
        apply (Rmult_le_reg_r (fval norm)); [exact Pos |]. unfold Rdiv. rewrite Rmult_assoc, Rinv_l by lra. lra.
      + apply Rlt_le_trans with (2 := Uk). apply Rlt_le_trans with (2 := Lh). apply Rmult_lt_0_compat; [apply bpow_gt_0 | exact Pos].
  Qed.

  (** The forward step. *)
  Lemma forward_step (m m1 : hhmm A) x : model_left_right m -> (hh_started m = true -> forward_f64 m) -> frame_f64 x -> hh_forward (A := A) x m = Ok m1 ->
    stepped (hh_cls m) (hh_cls m1) /\ hh_started m1 = true /\ hh_hier m1 = hh_hier m /\ hh_prior m1 = hh_prior m /\ hh_trans m1 = hh_trans m /\ hh_exit m1 = hh_exit m /\ hh_res m1 = hh_res m /\ hh_bim m1 = hh_bim m.
  Proof.
    intros (Hh & Ne & Hs & Cl & T1 & T2) Fw Fx H. rewrite Forall_forall in Cl.
    assert (Cl' : forall l h, In (l, h) (hh_cls m) -> class_left_right h) by (intros l h I; apply (Cl (l, h) I)).
    assert (N1 : forall l h, In (l, h) (hh_cls m) -> (1 <= hc_n h)%nat) by (intros l h I; apply (Cl' l h I)).
    assert (Sz := states_size _ N1). fold (hh_size m) in Sz.
    assert (Ix : forall j l h, nth_error (hh_cls m) j = Some (l, h) -> (j < hh_size m)%nat) by (intros j l h E; apply nth_error_Some; congruence).
    unfold hh_forward in H. rewrite Hh in H. destruct (hh_started m) eqn:St.
    - specialize (Fw eq_refl). destruct Fw as (Fa & (lw & hw & kw & Iw & Kw & Lw)).
      unfold hh_forward_update in H. apply bind_ok_inv in H. destruct H as (v1 & E1 & H). apply bind_ok_inv in H. destruct H as (v2 & E2 & H).
      apply bind_ok_inv in H. destruct H as ((ms & norm) & Es & H). apply bind_ok_inv in H. destruct H as (ms2 & Ec & H). injection H as <-.
      cbn [hh_cls hh_set_front hh_set_cls hh_started hh_hier hh_prior hh_trans hh_exit hh_res hh_bim]. split; [| repeat split; exact St].
      assert (Bn : forall l h, In (l, h) (hh_cls m) -> (Z.of_nat (hc_n h) < 2 ^ 32)%Z) by (intros l h I; assert (Q := states_class _ _ _ I); lia).
      assert (W1 := masses_in fexp fln h_a1 (hh_cls m) (hh_v1 m) v1 (fun l h I => conj (Bn l h I) (fun k Hk => proj1 (proj2 (Fa l h k I Hk)))) E1).
      assert (W2 := masses_in fexp fln h_a2 (hh_cls m) (hh_v2 m) v2 (fun l h I => conj (Bn l h I) (fun k Hk => proj2 (proj2 (Fa l h k I Hk)))) E2).
      assert (Zs : (Z.of_nat (hh_size m) < 2 ^ 32)%Z) by lia.
      set (lo := fun i h => exists k, (k < hc_n h)%nat /\ forall w, frontier (A := A) m v1 v2 i h k = Ok w -> bpow radix2 (-160) <= fval w).
      destruct (sweep_inv fexp fln (update_class (A := A) m v1 v2 x) (fun i h h' ts => class_ok fexp fln (lo i h) h h' ts) (hh_cls m) 0 (S754_zero false) ms norm) as (tss & L1 & L2 & En & Hc); [| exact Es |].
      { cbn [Nat.add]. intros j l h nm h' nm' E U. assert (I := nth_error_In _ _ E). apply (update_ok fexp fln LM m v1 v2 x j h nm h' nm' Fx (Cl' l h I) (Bn l h I)); [| apply T1; eapply Ix, E | exact U].
        intros k w Hk Ef. apply (frontier_in fexp fln m v1 v2 (conj T1 T2) Zs W1 W2 h (Cl' l h I) (fun k Hk => proj1 (Fa l h k I Hk)) j k w (Ix _ _ _ E) Hk Ef). }
      cbn [Nat.add] in Hc. apply (scaled lo (hh_cls m) ms ms2 tss norm Hs L1 L2 En Hc); [| exact Ec].
      apply In_nth_error in Iw. destruct Iw as (j & Ej). exists j, lw, hw. split; [exact Ej |]. assert (I := nth_error_In _ _ Ej).
      apply (frontier_low fexp fln m v1 v2 (conj T1 T2) Zs W1 W2 hw (Cl' _ _ I) (fun k Hk => proj1 (Fa lw hw k I Hk)) j kw (Ix _ _ _ Ej) Kw Lw).
    - unfold hh_forward_init in H. apply bind_ok_inv in H. destruct H as ((ms & norm) & Es & H). apply bind_ok_inv in H. destruct H as (ms2 & Ec & H). injection H as <-.
      cbn [hh_cls hh_set_front hh_set_cls hh_started hh_hier hh_prior hh_trans hh_exit hh_res hh_bim]. split; [| repeat split].
      destruct (sweep_inv fexp fln (init_class (A := A) (hh_prior m) x) (fun i h h' ts => class_ok fexp fln True h h' ts) (hh_cls m) 0 (S754_zero false) ms norm) as (tss & L1 & L2 & En & Hc); [| exact Es |].
      { cbn [Nat.add]. intros j l h nm h' nm' E U. assert (I := nth_error_In _ _ E). apply (init_ok fexp fln LM (hh_prior m) x j h nm h' nm' Fx (Cl' l h I)); [apply T1; eapply Ix, E | exact U]. }
      cbn [Nat.add] in Hc. apply (scaled (fun _ _ => True) (hh_cls m) ms ms2 tss norm Hs L1 L2 En Hc); [| exact Ec].
      destruct (hh_cls m) as [| (l, h) t]; [congruence |]. exists 0%nat, l, h. split; [reflexivity | exact I].
  Qed.
End Step.
