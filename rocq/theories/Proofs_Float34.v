(** The outputs of classes that filter and predict by themselves, in binary64. *)
From Coq Require Import String ZArith QArith Reals Lra Lia Bool List Arith.
From Coq Require Import Floats.SpecFloat.
From Flocq Require Import Core.Core IEEE754.BinarySingleNaN.
From Verif Require Import Base BaseFacts Arith Spec_Float Spec_Float2 Spec_Float3 Spec_Float4 Spec_Float6 Spec_Float7 Proofs_Float1 Proofs_Float2 Proofs_Float3 Proofs_Float4 Proofs_Float5 Proofs_Float6 Proofs_Float7 Proofs_Float8 Proofs_Float9 Proofs_Float12 Proofs_Float13 Proofs_Float14 Proofs_Float15 Proofs_Float16 Proofs_Float17 Proofs_Float26 Proofs_Float27 Proofs_Float28 Proofs_Float30 Proofs_Float31 Proofs_Float32 Proofs_Float33.
From Verif Require Import Model_Map Model_Ring Model_Phrase Model_Gaussian Model_Config Model_KMeans Model_GMM Model_HMM Model_HHMM Model_Single Model_Single2 Model_Single3 Model_Single4.
Import ListNotations.
Local Open Scope R_scope.

#[local] Existing Instance Proofs_Float1.Hprec.
#[local] Existing Instance Proofs_Float1.Hmax.

Lemma fma1_zero w : num_in 0 1 w -> fma1 (S754_zero false) w (S754_zero false) = S754_zero false.
Proof. intros (_ & N & _). destruct w as [s | s | | s m e]; try discriminate; destruct s; reflexivity. Qed.

Section Out.
  Variables fexp fln : f64 -> f64.
  Hypothesis LM : libm_f64 fexp fln.
  Local Notation A := (FA fexp fln).

  Lemma hwith_seq (P : gclass A -> Prop) xs x : (forall g g', kept fexp fln g g' -> P g -> P g') -> (forall g, P g -> state_flat g) -> forall (m m' : hhmm A),
    hh_hier m = false -> hh_cls m <> [] -> (Z.of_nat (hh_size m) < 2 ^ 32)%Z -> Forall (fun e => set fexp fln P (snd e)) (hh_cls m) -> Forall frame_f64 (xs ++ [x]) ->
    hh_filters_with (A := A) as_single (xs ++ [x]) m = Ok m' ->
    exists m0, hh_hier m0 = false /\ hh_cls m0 <> [] /\ hh_size m0 = hh_size m /\ Forall (fun e => set fexp fln P (snd e)) (hh_cls m0) /\ frame_f64 x /\
      (hh_bim m0 = hh_bim m /\ hh_dim m0 = hh_dim m /\ hh_din m0 = hh_din m /\ hh_cmode m0 = hh_cmode m) /\
      (forall e0, In e0 (hh_cls m0) -> exists e, In e (hh_cls m) /\ hkept fexp fln P (snd e) (snd e0)) /\ hh_filter_with (A := A) as_single x m0 = Ok m'.
  Proof.
    intros PK PF. induction xs as [| y xs IH]; intros m m' Hh Ne Hs Rd Fx H; cbn [app hh_filters_with] in H; apply bind_ok_inv in H; destruct H as (m1 & E1 & H); inversion Fx as [| ? ? F1 F2]; subst.
    - injection H as <-. exists m. repeat (split; [first [assumption | reflexivity] |]). split; [repeat split |]. split; [| exact E1]. intros e I. exists e. split; [exact I | repeat split; auto].
    - destruct (hwith_step fexp fln LM P PK PF m m1 y Hh Ne Hs Rd F1 E1) as (S1 & S2 & S3 & S4 & S5 & S6 & S7 & S8 & _).
      destruct (IH m1 m') as (m0 & Q1 & Q2 & Q3 & Q4 & Q5 & (Q6 & Q7 & Q8 & Q9) & Q10 & Q11); try assumption; try congruence.
      + intros E. apply Ne. unfold hh_size in S6. rewrite E in S6. destruct (hh_cls m); [reflexivity | discriminate].
      + eapply Forall_impl; [| exact S7]. intros e. apply ran_set.
      + exists m0. split; [exact Q1 |]. split; [exact Q2 |]. split; [congruence |]. split; [exact Q4 |]. split; [exact Q5 |]. split; [repeat split; congruence |]. split; [| exact Q11].
        intros e0 I0. destruct (Q10 e0 I0) as (e1 & I1 & K1). destruct (S8 e1 I1) as (e & I & K). exists e. split; [exact I | eapply hkept_trans; eauto].
  Qed.

  (** What a frame does not change in a class. *)
  Definition shape (N : nat) (m : hhmm A) (h : hclass A) : Prop := hc_dim h = hh_dim m /\ hc_din h = hh_din m /\ (hc_n h <= N)%nat.
  Lemma shape_kept P N (m m0 : hhmm A) h h' : hh_dim m0 = hh_dim m -> hh_din m0 = hh_din m -> hkept fexp fln P h h' -> shape N m h -> shape N m0 h'.
  Proof. intros E1 E2 (_ & K2 & K3 & _ & K5 & _) (S1 & S2 & S3). unfold shape, hc_n in *. rewrite K2, K3, K5, E1, E2. auto. Qed.
  Lemma some_kept P h h' : hkept fexp fln P h h' -> window_some h -> window_some h'.
  Proof. intros (_ & _ & _ & _ & K5 & _) H. unfold window_some, hc_n in *. rewrite K5. exact H. Qed.
  Lemma none_kept P h h' : hkept fexp fln P h h' -> window_none h -> window_none h'.
  Proof. intros (_ & _ & _ & _ & K5 & _) H. unfold window_none, hc_n in *. rewrite K5. exact H. Qed.

  Section Frame.
    Variables (P : gclass A -> Prop) (N G d : nat) (m m' : hhmm A) (x : list f64).
    Hypothesis PK : forall g g', kept fexp fln g g' -> P g -> P g'.
    Hypothesis PS : forall g, P g -> state_reg fexp fln G (hh_dim m) (hh_din m) g.
    Hypothesis Hh : hh_hier m = false.
    Hypothesis Ne : hh_cls m <> [].
    Hypothesis Hs : (Z.of_nat (hh_size m) <= 2 ^ 20)%Z.
    Hypothesis Hn : (Z.of_nat N <= 2 ^ 20)%Z.
    Hypothesis HG : (Z.of_nat G <= 2 ^ 20)%Z.
    Hypothesis Rd : Forall (fun e => set fexp fln P (snd e) /\ shape N m (snd e)) (hh_cls m).
    Hypothesis Fx : frame_f64 x.
    Hypothesis Bi : hh_bim m = true.
    Hypothesis Hd : (hh_din m + d < hh_dim m)%nat.
    Hypothesis H : hh_filter_with (A := A) as_single x m = Ok m'.

    Lemma frame_step : hh_size m' = hh_size m /\ exists r : results A, parts_f64 (hh_size m) (ent (rs_sm r)) (ent (rs_smn r)) /\
      (forall e', In e' (hh_cls m') -> exists e h, In e (hh_cls m) /\ hkept fexp fln P (snd e) h /\ shape N m h /\ ran fexp fln P h /\ hm_regression_with (A := A) as_single x h = Ok (snd e')) /\
      match hh_est m with
      | Likeliest => exists e, In e (hh_cls m') /\ rs_out (hh_res m') = h_out (hc_run (snd e)) /\ rs_ocov (hh_res m') = h_ocov (hc_run (snd e))
      | Mixture => mix_outputs_with (A := A) as_single (hh_cmode m) (hh_dim m - hh_din m) (rs_smn r) (map (fun e => (h_out (hc_run (snd e)), h_ocov (hc_run (snd e)))) (hh_cls m')) = Ok (rs_out (hh_res m'), rs_ocov (hh_res m'))
      end.
    Proof.
      destruct (hwith_step fexp fln LM P PK (fun g p => proj1 (PS g p)) m m' x Hh Ne ltac:(lia) ltac:(eapply Forall_impl; [| exact Rd]; intros e (Q & _); exact Q) Fx H) as (_ & _ & _ & _ & _ & S6 & _ & _ & S9).
      destruct (S9 Bi) as (no & r & En & Pa & Cl & O). unfold usub in En. destruct (Nat.leb_spec (hh_din m) (hh_dim m)) as [L | L]; [| discriminate]. injection En as <-.
      split; [exact S6 |]. exists r. split; [exact Pa |]. split; [| exact O]. intros e' I. destruct (Cl e' I) as (e & h & Ie & K & R & E). exists e, h. split; [exact Ie |]. split; [exact K |]. split; [| auto].
      apply (shape_kept P N m m _ _ eq_refl eq_refl K). apply (proj1 (Forall_forall _ _) Rd e Ie).
    Qed.

    Lemma frame_sizes (b : Z) n : (n <= N)%nat -> INR n <= INR N /\ 0 <= (INR G + 2 * INR N) * bpow radix2 (b - 20) <= 3 * bpow radix2 b /\ 1 <= INR (hh_size m).
    Proof.
      intros L. assert (E20 : bpow radix2 (b - 20) = bpow radix2 b * / 1048576) by (unfold Zminus; rewrite bpow_plus; reflexivity). rewrite E20. assert (B0 := bpow_gt_0 radix2 b).
      assert (INR G <= 1048576) by (rewrite INR_IZR_INZ; apply IZR_le; lia). assert (INR N <= 1048576) by (rewrite INR_IZR_INZ; apply IZR_le; lia). assert (P1 := pos_INR G). assert (P2 := pos_INR N).
      split; [now apply le_INR |]. split; [split; nra |]. apply (le_INR 1). unfold hh_size. destruct (hh_cls m); [congruence | cbn; lia].
    Qed.
    Lemma class_ran e' : In e' (hh_cls m') -> exists e h, In e (hh_cls m) /\ hkept fexp fln P (snd e) h /\ ran fexp fln P h /\ hm_regression_with (A := A) as_single x h = Ok (snd e') /\
      (1 <= hc_n h)%nat /\ (hc_n h <= N)%nat /\ (hc_din h + d < hc_dim h)%nat /\ hc_hier h = false /\ (forall k, (k < hc_n h)%nat -> num_in 0 1 (ent (h_alpha (hc_run h)) k)) /\
      Forall (state_reg fexp fln G (hc_dim h) (hc_din h)) (h_states (hc_net h)).
    Proof.
      intros I. destruct frame_step as (_ & r & _ & Cl & _). destruct (Cl e' I) as (e & h & Ie & K & (S1 & S2 & S3) & R & E). exists e, h. assert (R0 := R). destruct R0 as ((C & (_ & Al & _) & _) & _ & _ & F).
      split; [exact Ie |]. split; [exact K |]. split; [exact R |]. split; [exact E |]. split; [apply C |]. split; [exact S3 |]. rewrite S1, S2. split; [exact Hd |]. split; [apply C |]. split; [apply Al |].
      eapply Forall_impl; [| exact F]. exact PS.
    Qed.

    Lemma class_near b lo hi : (-100 <= b <= 98)%Z -> (forall g, P g -> means_in d lo hi g) -> Forall (fun e => window_some (snd e)) (hh_cls m) -> range_in b lo hi ->
      forall e', In e' (hh_cls m') -> near lo hi ((INR G + 2 * INR N) * bpow radix2 (b - 20)) (ent (h_out (hc_run (snd e'))) d).
    Proof.
      intros Hb Hm Hw R e' I. destruct (class_ran e' I) as (e & h & Ie & K & (_ & T & W & F) & E & N1 & N2 & D1 & D2 & D3 & D4).
      destruct (class_hout fexp fln LM G d b x h (snd e') Hb HG N1 ltac:(lia) D1 Fx D2 D3 T W D4 E lo hi (some_kept P _ _ K (proj1 (Forall_forall _ _) Hw e Ie)) ltac:(eapply Forall_impl; [| exact F]; exact Hm) R) as (V & Nm & Q).
      split; [exact V |]. split; [exact Nm |]. destruct (frame_sizes b _ N2) as (L & _). assert (B1 := bpow_gt_0 radix2 (b - 20)). nra.
    Qed.
    Lemma class_var b hi : (-100 <= b <= 98)%Z -> (forall g, P g -> variances_in d hi g) -> Forall (fun e => hp_mode (hc_par (snd e)) = Diagonal) (hh_cls m) -> 0 <= hi <= bpow radix2 b ->
      forall e', In e' (hh_cls m') -> num_in 0 (hi + (INR G + 2 * INR N) * bpow radix2 (b - 20)) (ent (h_ocov (hc_run (snd e'))) d).
    Proof.
      intros Hb Hm Hw R e' I. destruct (class_ran e' I) as (e & h & Ie & K & (_ & T & W & F) & E & N1 & N2 & D1 & D2 & D3 & D4).
      assert (Md : hp_mode (hc_par h) = Diagonal) by (destruct K as (_ & _ & _ & _ & K5 & _); rewrite K5; exact (proj1 (Forall_forall _ _) Hw e Ie)).
      destruct (class_hcov fexp fln LM G d b x h (snd e') Hb HG N1 ltac:(lia) D1 Fx D2 D3 T W D4 E hi Md ltac:(eapply Forall_impl; [| exact F]; exact Hm) R) as (V & Nm & Q).
      split; [exact V |]. split; [exact Nm |]. destruct (frame_sizes b _ N2) as (L & _). assert (B1 := bpow_gt_0 radix2 (b - 20)). nra.
    Qed.
    Lemma class_zero e' : Forall (fun e => window_none (snd e)) (hh_cls m) -> In e' (hh_cls m') -> ent (h_out (hc_run (snd e'))) d = S754_zero false.
    Proof.
      intros Hw I. destruct (class_ran e' I) as (e & h & Ie & K & (_ & T & W & F) & E & N1 & N2 & D1 & D2 & D3 & D4). destruct (none_kept P _ _ K (proj1 (Forall_forall _ _) Hw e Ie)) as (W1 & W2).
      eapply (class_one fexp fln); eauto; lia.
    Qed.

    Lemma hmodel_out b lo hi : (-100 <= b <= 98)%Z -> (forall g, P g -> means_in d lo hi g) -> Forall (fun e => window_some (snd e)) (hh_cls m) -> range_in b lo hi ->
      near lo hi ((INR G + 2 * INR N + 3 * INR (hh_size m)) * bpow radix2 (b - 20)) (ent (rs_out (hh_res m')) d).
    Proof.
      intros Hb Hm Hw R. assert (B0 := bpow_gt_0 radix2 b). assert (B1 := bpow_gt_0 radix2 (b - 20)). assert (Cl := class_near b lo hi Hb Hm Hw R).
      destruct (frame_sizes b 0 ltac:(lia)) as (_ & CB & N1). set (c := (INR G + 2 * INR N) * bpow radix2 (b - 20)) in *.
      assert (Ec : (INR G + 2 * INR N + 3 * INR (hh_size m)) * bpow radix2 (b - 20) = c + 3 * INR (hh_size m) * bpow radix2 (b - 20)) by (unfold c; ring). rewrite Ec.
      destruct frame_step as (Ln & r & Pa & _ & Q1). assert (H1 : (1 <= hh_size m)%nat) by (unfold hh_size; destruct (hh_cls m); [congruence | cbn; lia]).
      destruct (hh_est m).
      - destruct Q1 as (e & I & Eo & _). rewrite Eo. destruct (Cl e I) as (V & Nm & Q). split; [exact V |]. split; [exact Nm |]. nra.
      - destruct (mix_out fexp fln _ _ _ _ _ _ Q1 d ltac:(lia)) as (o & O0 & On & Os). rewrite map_length in On, Os. change (length (hh_cls m')) with (hh_size m') in On, Os. rewrite Ln in On, Os. set (n := hh_size m) in *.
        assert (Pt := parts_total n _ (ent (rs_smn r)) H1 ltac:(lia) Pa). assert (P2 := parts_sum_le2 n (ent (rs_smn r)) H1 Hs Pt). rewrite <- On.
        set (s := fun i => match nth_error (hh_cls m') i with Some e => ent (h_out (hc_run (snd e))) d | None => S754_zero false end).
        assert (Os' : forall i, (i < n)%nat -> o (S i) = fma1 (o i) (ent (rs_smn r) i) (s i) /\ near lo hi c (s i)).
        { intros i Hi. destruct (Os i Hi) as (e & Ne' & E). rewrite nth_error_map in Ne'. unfold s. destruct (nth_error (hh_cls m') i) as [e' |] eqn:Ei; [| discriminate]. injection Ne' as <-. split; [exact E | apply Cl; eapply nth_error_In, Ei]. }
        destruct R as (R1 & R2). assert (E2 : bpow radix2 (b + 2) = 4 * bpow radix2 b) by (rewrite bpow_plus; change (bpow radix2 2) with 4; ring).
        assert (E3 : bpow radix2 (b + 2 - 20) = 4 * bpow radix2 (b - 20)) by (replace (b + 2 - 20)%Z with (2 + (b - 20))%Z by ring; rewrite bpow_plus; reflexivity).
        destruct (acc_hull (b + 2) n (ent (rs_smn r)) s o ltac:(lia) Hs ltac:(intros i Hi; apply (proj2 Pa i Hi)) P2
          ltac:(intros i Hi; destruct (Os' i Hi) as (_ & V & Nm & Q); split; [exact V |]; split; [exact Nm | lra]) ltac:(rewrite O0; repeat split) ltac:(intros i Hi; apply (Os' i Hi))
          (lo - c) (hi + c) H1 Pt ltac:(lra) ltac:(lra) ltac:(intros i Hi; destruct (Os' i Hi) as (_ & _ & _ & Q); exact Q)) as (V & Nm & Q).
        split; [exact V |]. split; [exact Nm |]. rewrite E3 in Q. lra.
    Qed.

    Lemma hmodel_cov b hi : (-100 <= b <= 98)%Z -> hh_cmode m = Diagonal -> (forall g, P g -> variances_in d hi g) -> Forall (fun e => hp_mode (hc_par (snd e)) = Diagonal) (hh_cls m) -> 0 <= hi <= bpow radix2 b ->
      num_in 0 (hi + (INR G + 2 * INR N + 3 * INR (hh_size m)) * bpow radix2 (b - 20)) (ent (rs_ocov (hh_res m')) d).
    Proof.
      intros Hb Md Hm Hw R. assert (B0 := bpow_gt_0 radix2 b). assert (B1 := bpow_gt_0 radix2 (b - 20)). assert (Cl := class_var b hi Hb Hm Hw R).
      destruct (frame_sizes b 0 ltac:(lia)) as (_ & CB & N1). set (c := (INR G + 2 * INR N) * bpow radix2 (b - 20)) in *.
      assert (Ec : (INR G + 2 * INR N + 3 * INR (hh_size m)) * bpow radix2 (b - 20) = c + 3 * INR (hh_size m) * bpow radix2 (b - 20)) by (unfold c; ring). rewrite Ec.
      destruct frame_step as (Ln & r & Pa & _ & Q1). assert (H1 : (1 <= hh_size m)%nat) by (unfold hh_size; destruct (hh_cls m); [congruence | cbn; lia]).
      destruct (hh_est m).
      - destruct Q1 as (e & I & _ & Eo). rewrite Eo. destruct (Cl e I) as (V & Nm & Q). split; [exact V |]. split; [exact Nm |]. nra.
      - rewrite Md in Q1. destruct (mix_cov fexp fln _ _ _ _ _ Q1 d ltac:(lia)) as (o & O0 & On & Os). rewrite map_length in On, Os. change (length (hh_cls m')) with (hh_size m') in On, Os. rewrite Ln in On, Os. set (n := hh_size m) in *.
        assert (Pt := parts_total n _ (ent (rs_smn r)) H1 ltac:(lia) Pa). assert (P2 := parts_sum_le2 n (ent (rs_smn r)) H1 Hs Pt). rewrite <- On.
        set (s := fun i => match nth_error (hh_cls m') i with Some e => ent (h_ocov (hc_run (snd e))) d | None => S754_zero false end).
        assert (Os' : forall i, (i < n)%nat -> o (S i) = fma1 (o i) (ent (rs_smn r) i) (s i) /\ num_in 0 (hi + c) (s i)).
        { intros i Hi. destruct (Os i Hi) as (e & Ne' & E). rewrite nth_error_map in Ne'. unfold s. destruct (nth_error (hh_cls m') i) as [e' |] eqn:Ei; [| discriminate]. injection Ne' as <-. split; [exact E | apply Cl; eapply nth_error_In, Ei]. }
        assert (E2 : bpow radix2 (b + 2) = 4 * bpow radix2 b) by (rewrite bpow_plus; change (bpow radix2 2) with 4; ring).
        assert (E3 : bpow radix2 (b + 2 - 20) = 4 * bpow radix2 (b - 20)) by (replace (b + 2 - 20)%Z with (2 + (b - 20))%Z by ring; rewrite bpow_plus; reflexivity).
        destruct (acc_nonneg (b + 2) n (ent (rs_smn r)) s o ltac:(lia) Hs ltac:(intros i Hi; apply (proj2 Pa i Hi)) P2
          ltac:(intros i Hi; destruct (Os' i Hi) as (_ & V & Nm & Q); split; [exact V |]; split; [exact Nm | lra]) ltac:(rewrite O0; repeat split) ltac:(intros i Hi; apply (Os' i Hi))
          (hi + c) H1 ltac:(apply Pt) ltac:(lra) ltac:(intros i Hi; destruct (Os' i Hi) as (_ & _ & _ & Q); exact Q)) as (V & Nm & Q).
        split; [exact V |]. split; [exact Nm |]. rewrite E3 in Q. lra.
    Qed.

    Lemma hmodel_zero : Forall (fun e => window_none (snd e)) (hh_cls m) -> ent (rs_out (hh_res m')) d = S754_zero false.
    Proof.
      intros Hw. assert (Cl := fun e' => class_zero e' Hw). destruct frame_step as (Ln & r & Pa & _ & Q1). destruct (hh_est m).
      - destruct Q1 as (e & I & Eo & _). rewrite Eo. exact (Cl e I).
      - destruct (mix_out fexp fln _ _ _ _ _ _ Q1 d ltac:(lia)) as (o & O0 & On & Os). rewrite map_length in On, Os. change (length (hh_cls m')) with (hh_size m') in On, Os. rewrite Ln in On, Os. rewrite <- On.
        assert (Z : forall i, (i <= hh_size m)%nat -> o i = S754_zero false); [| apply Z; lia]. induction i as [| i IH]; intros Hi; [exact O0 |]. destruct (Os i ltac:(lia)) as (e & Ee & ->). rewrite IH by lia.
        rewrite nth_error_map in Ee. destruct (nth_error (hh_cls m') i) as [e' |] eqn:Ei; [| discriminate]. injection Ee as <-. cbn [fst]. rewrite (Cl e' (nth_error_In _ _ Ei)). apply fma1_zero. apply (proj2 Pa i ltac:(lia)).
    Qed.
  End Frame.
End Out.
