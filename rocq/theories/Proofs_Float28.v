(** Regression with several mixtures of doubles. *)
From Coq Require Import String ZArith QArith Reals Lra Lia Bool List Arith.
From Coq Require Import Floats.SpecFloat.
From Flocq Require Import Core.Core.
From Verif Require Import Base BaseFacts Arith Spec_Float Spec_Float2 Spec_Float3 Spec_Float6 Proofs_Float1 Proofs_Float2 Proofs_Float3 Proofs_Float4 Proofs_Float6 Proofs_Float7 Proofs_Float21 Proofs_Float22 Proofs_Float24 Proofs_Float26 Proofs_Float27.
From Verif Require Import Model_Map Model_Ring Model_Phrase Model_Gaussian Model_Config Model_KMeans Model_GMM Model_Single Model_Single2 Model_Single3.
Import ListNotations.
Local Open Scope R_scope.

Section Many.
  Variables fexp fln : f64 -> f64.
  Hypothesis LM : libm_f64 fexp fln.
  Local Notation A := (FA fexp fln).

  Lemma mget_in (ms : list (string * gclass A)) l g : mget String.eqb ms l = Some g -> exists e, In e ms /\ snd e = g.
  Proof. induction ms as [| (k, v) ms IH]; cbn [mget]; intros H; [discriminate |]. destruct (String.eqb l k); [injection H as <-; exists (k, v); split; [now left | reflexivity] | destruct (IH H) as (e & I & E); exists e; split; [now right | exact E]]. Qed.

  (** The members that recognition leaves. *)
  Lemma filter_with_inv (m m' : gmm A) x : gm_filter_with (A := A) as_single x m = Ok m' ->
    exists r, update_results (A := A) (map fst (gm_models m')) (map (fun e => gc_inst (snd e)) (gm_models m')) (map (fun e => gc_log (snd e)) (gm_models m')) (gm_res m) = Ok r /\
      mapM (fun e : string * gclass A => let* g := gm_filter1_with (A := A) as_single x (snd e) in Ok (fst e, g)) (gm_models m) = Ok (gm_models m') /\
      gm_bim m' = gm_bim m /\ gm_dim m' = gm_dim m /\ gm_din m' = gm_din m /\ gm_est m' = gm_est m /\ gm_cmode m' = gm_cmode m /\
      (rs_inst (gm_res m') = rs_inst r /\ rs_instn (gm_res m') = rs_instn r /\ rs_sm (gm_res m') = rs_sm r /\ rs_smn (gm_res m') = rs_smn r) /\
      (gm_bim m = true -> exists no, usub (gm_dim m) (gm_din m) = Ok no /\
        match gm_est m with
        | Likeliest => exists e, In e (gm_models m') /\ rs_out (gm_res m') = gc_out (snd e) /\ rs_ocov (gm_res m') = gc_ocov (snd e)
        | Mixture => mix_outputs_with (A := A) as_single (gm_cmode m) no (rs_smn r) (map (fun e => (gc_out (snd e), gc_ocov (snd e))) (gm_models m')) = Ok (rs_out (gm_res m'), rs_ocov (gm_res m'))
        end).
  Proof.
    intros H. unfold gm_filter_with in H. apply bind_ok_inv in H. destruct H as (ms & Em & H). apply bind_ok_inv in H. destruct H as (r & Er & H). cbv zeta in H. cbn [gm_bim gm_set] in H. exists r.
    destruct (gm_bim m) eqn:B; cbn [negb] in H.
    - apply bind_ok_inv in H. destruct H as (no & Eno & H). cbn [gm_est gm_set gm_dim gm_din gm_cmode] in *. destruct (gm_est m) eqn:Es.
      + destruct (mget _ _ _) as [g |] eqn:G; [| discriminate]. injection H as <-. cbn [gm_models gm_res gm_set gm_bim gm_dim gm_din gm_est gm_cmode rs_inst rs_instn rs_sm rs_smn rs_out rs_ocov].
        split; [exact Er |]. split; [exact Em |]. repeat (split; [reflexivity || assumption |]). split; [repeat split |]. intros _. exists no. split; [exact Eno |]. destruct (mget_in _ _ _ G) as (e & I & E). exists e. now rewrite E.
      + apply bind_ok_inv in H. destruct H as ((o & c) & Eo & H). injection H as <-. cbn [gm_models gm_res gm_set gm_bim gm_dim gm_din gm_est gm_cmode rs_inst rs_instn rs_sm rs_smn rs_out rs_ocov].
        split; [exact Er |]. split; [exact Em |]. repeat (split; [reflexivity || assumption |]). split; [repeat split |]. intros _. exists no. split; [exact Eno | exact Eo].
    - injection H as <-. cbn [gm_models gm_res gm_set gm_bim gm_dim gm_din gm_est gm_cmode]. split; [exact Er |]. split; [exact Em |]. repeat (split; [reflexivity || assumption |]). split; [repeat split |]. intros; discriminate.
  Qed.

  (** A property of the classes that recognition leaves. *)
  Lemma model_with_step (P : gclass A -> Prop) (m m' : gmm A) x : (forall g g', kept fexp fln g g' -> P g -> P g') -> model_diag m -> frame_f64 x -> Forall (fun e => P (snd e)) (gm_models m) -> gm_filter_with (A := A) as_single x m = Ok m' ->
    model_diag m' /\ length (gm_models m') = length (gm_models m) /\ Forall (fun e => lik_ok fexp fln (snd e)) (gm_models m') /\ Forall (fun e => P (snd e)) (gm_models m').
  Proof.
    intros Pk (Ln & D) Fx HP H. destruct (filter_with_inv m m' x H) as (r & _ & Em & _). clear H.
    assert (G : forall l l', Forall (fun e : string * gclass A => class_diag (snd e)) l -> Forall (fun e => P (snd e)) l -> mapM (fun e : string * gclass A => let* g := gm_filter1_with (A := A) as_single x (snd e) in Ok (fst e, g)) l = Ok l' ->
      Forall (fun e => class_diag (snd e)) l' /\ length l' = length l /\ Forall (fun e => lik_ok fexp fln (snd e)) l' /\ Forall (fun e => P (snd e)) l').
    { clear - LM Fx Pk. induction l as [| e l IH]; cbn [mapM]; intros l' F FP H; [injection H as <-; auto |]. inversion F as [| ? ? F1 F2]; subst. inversion FP as [| ? ? G1 G2]; subst.
      apply bind_ok_inv in H. destruct H as (e' & E1 & H). apply bind_ok_inv in E1. destruct E1 as (g & Eg & E1). injection E1 as <-.
      apply bind_ok_inv in H. destruct H as (t & Et & H). injection H as <-. destruct (IH t F2 G2 Et) as (I1 & I2 & I3 & I4). destruct (filter1_with_step fexp fln LM x (snd e) g F1 Fx Eg) as (S1 & S2 & S3 & _).
      split; [constructor; auto |]. split; [cbn; now f_equal |]. split; constructor; auto. cbn [snd]. eapply Pk; eauto. }
    destruct (G _ _ D HP Em) as (G1 & G2 & G3 & G4). unfold model_diag. rewrite G2. auto.
  Qed.

  (** The weighted outputs of the classes. *)
  Lemma mix_out mode no w (outs : list (list f64 * list f64)) oo vv : mix_outputs_with (A := A) as_single mode no w outs = Ok (oo, vv) ->
    forall d, (d < no)%nat -> exists o : nat -> f64, o 0%nat = S754_zero false /\ o (length outs) = ent oo d /\
      forall i, (i < length outs)%nat -> exists e, nth_error outs i = Some e /\ o (S i) = fma1 (o i) (ent w i) (ent (fst e) d).
  Proof.
    intros Ei d Hd. unfold mix_outputs_with in Ei. apply iterM_seq in Ei. destruct Ei as (st & E0 & En & Es).
    exists (fun c => ent (fst (st c)) d). split; [rewrite E0; cbn [fst]; unfold ent; apply nth_repeat |]. split; [exact (f_equal (fun p => ent (fst p) d) En) |].
    intros c Hc. specialize (Es c Hc). cbv beta in Es. apply bind_ok_inv in Es. destruct Es as ((yo & yc) & Ek & Es). apply bind_ok_inv in Es. destruct Es as (b & Eb & Es).
    assert (Nk : nth_error outs c = Some (yo, yc)) by (change (num A) with f64 in Ek; unfold rd in Ek; destruct (nth_error outs c); [now injection Ek as -> | discriminate]).
    exists (yo, yc). split; [exact Nk |]. destruct (st c) as (o1, v1). destruct (st (S c)) as (o2, v2). cbn [fst].
    apply (pair_loop no yo (fun a yd => as_single (nadd (a := A) a (nmul (a := A) b yd))) _ (S754_zero false)) in Es. destruct Es as (_ & I & _).
    destruct (I d Hd) as (Q & _). unfold fma1. assert (B : ent w c = b) by (apply (rd_nth _ _ _ _ Eb)). rewrite B. exact Q.
  Qed.
  Lemma mix_cov no w (outs : list (list f64 * list f64)) oo vv : mix_outputs_with (A := A) as_single Diagonal no w outs = Ok (oo, vv) ->
    forall d, (d < no)%nat -> exists o : nat -> f64, o 0%nat = S754_zero false /\ o (length outs) = ent vv d /\
      forall i, (i < length outs)%nat -> exists e, nth_error outs i = Some e /\ o (S i) = fma1 (o i) (ent w i) (ent (snd e) d).
  Proof.
    intros Ei d Hd. unfold mix_outputs_with in Ei. apply iterM_seq in Ei. destruct Ei as (st & E0 & En & Es).
    exists (fun c => ent (snd (st c)) d). split; [rewrite E0; cbn [snd]; unfold ent; apply nth_repeat |]. split; [exact (f_equal (fun p => ent (snd p) d) En) |].
    intros c Hc. specialize (Es c Hc). cbv beta in Es. apply bind_ok_inv in Es. destruct Es as ((yo & yc) & Ek & Es). apply bind_ok_inv in Es. destruct Es as (b & Eb & Es).
    assert (Nk : nth_error outs c = Some (yo, yc)) by (change (num A) with f64 in Ek; unfold rd in Ek; destruct (nth_error outs c); [now injection Ek as -> | discriminate]).
    exists (yo, yc). split; [exact Nk |]. destruct (st c) as (o1, v1). destruct (st (S c)) as (o2, v2). cbn [snd].
    apply (pair_loop no yo (fun a yd => as_single (nadd (a := A) a (nmul (a := A) b yd))) _ (S754_zero false)) in Es. destruct Es as (_ & _ & Q).
    apply (vec_loop no yc (fun a c => as_single (nadd (a := A) a (nmul (a := A) b c))) (S754_zero false)) in Q. destruct Q as (_ & I).
    destruct (I d Hd) as (Q & _). unfold fma1. assert (B : ent w c = b) by (apply (rd_nth _ _ _ _ Eb)). rewrite B. exact Q.
  Qed.

  Lemma means_kept d lo hi (g g' : gclass A) : kept fexp fln g g' -> means_in d lo hi g -> means_in d lo hi g'.
  Proof. intros (_ & _ & K3 & _ & _ & K6) H. unfold means_in. rewrite K3, K6. exact H. Qed.

  (** ** One frame *)
  Section Frame.
    Variables (C d : nat) (m m' : gmm A) (x : list f64).
    Hypothesis D : model_diag m.
    Hypothesis Fx : frame_f64 x.
    Hypothesis H1 : (1 <= length (gm_models m))%nat.
    Hypothesis H2 : (Z.of_nat (length (gm_models m)) <= 2 ^ 20)%Z.
    Hypothesis HC : (Z.of_nat C <= 2 ^ 20)%Z.
    Hypothesis Bi : gm_bim m = true.
    Hypothesis Hd : (gm_din m + d < gm_dim m)%nat.
    Hypothesis Rg : Forall (fun e => regresses m (snd e) /\ (gc_n (snd e) <= C)%nat) (gm_models m).
    Hypothesis H : gm_filter_with (A := A) as_single x m = Ok m'.

    Lemma frame_parts : exists l, parts_f64 (length (gm_models m')) l (ent (rs_smn (gm_res m'))).
    Proof.
      destruct (model_with_step (fun _ => True) m m' x ltac:(auto) D Fx ltac:(apply Forall_forall; auto) H) as ((Ln & _) & L & F & _). destruct (filter_with_inv m m' x H) as (r & Er & _ & _ & _ & _ & _ & _ & (_ & _ & _ & E) & _).
      destruct (results_ok fexp fln LM (gm_models m') _ r ltac:(lia) Ln F Er) as (_ & P). eexists. rewrite E. exact P.
    Qed.
    Lemma class_of e' : In e' (gm_models m') -> exists e : string * gclass A, In e (gm_models m) /\ class_diag (snd e) /\ gm_filter1_with (A := A) as_single x (snd e) = Ok (snd e') /\ gc_bim (snd e) = true /\ (gc_din (snd e) + d < gc_dim (snd e))%nat /\ (gc_n (snd e) <= C)%nat.
    Proof.
      intros I. destruct (filter_with_inv m m' x H) as (r & _ & Em & _). destruct (In_nth_error _ _ I) as (i & Ei). destruct (mapM_back _ _ _ _ _ Em Ei) as (e & Ee & Q). apply bind_ok_inv in Q. destruct Q as (g & Eg & Q). injection Q as <-.
      assert (Ie := nth_error_In _ _ Ee). exists e. split; [exact Ie |]. split; [exact (proj1 (Forall_forall _ _) (proj2 D) e Ie) |]. split; [exact Eg |]. destruct (proj1 (Forall_forall _ _) Rg e Ie) as ((R1 & R2 & R3) & R4). rewrite R2, R3. auto.
    Qed.
    Lemma count_eq : length (gm_models m') = length (gm_models m).
    Proof. apply (model_with_step (fun _ => True) m m' x ltac:(auto) D Fx ltac:(apply Forall_forall; auto) H). Qed.
    Lemma C_le (b : Z) n : (n <= C)%nat -> INR n * bpow radix2 (b - 20) <= INR C * bpow radix2 (b - 20) <= bpow radix2 b.
    Proof.
      intros L. assert (E20 : bpow radix2 (b - 20) = bpow radix2 b * / 1048576) by (unfold Zminus; rewrite bpow_plus; reflexivity). rewrite E20. assert (B0 := bpow_gt_0 radix2 b).
      assert (INR C <= 1048576) by (rewrite INR_IZR_INZ; apply IZR_le; lia). assert (INR n <= INR C) by (now apply le_INR). nra.
    Qed.

    Lemma model_out b lo hi : (-100 <= b <= 98)%Z -> Forall (fun e => means_in d lo hi (snd e)) (gm_models m) -> range_in b lo hi ->
      near lo hi ((INR C + 2 * INR (length (gm_models m))) * bpow radix2 (b - 20)) (ent (rs_out (gm_res m')) d).
    Proof.
      intros Hb Hm R. assert (B0 := bpow_gt_0 radix2 b). assert (B1 := bpow_gt_0 radix2 (b - 20)).
      assert (Cl : forall e', In e' (gm_models m') -> near lo hi (INR C * bpow radix2 (b - 20)) (ent (gc_out (snd e')) d)).
      { intros e' I. destruct (class_of e' I) as (e & Ie & De & Ee & Be & Hde & Ne).
        destruct (class_out fexp fln LM b lo hi d x (snd e) (snd e') ltac:(lia) ltac:(lia) De Fx Be Ee Hde (proj1 (Forall_forall _ _) Hm e Ie) R) as (V & N & Q).
        split; [exact V |]. split; [exact N |]. destruct (C_le b _ Ne). lra. }
      destruct (C_le b 0 ltac:(lia)) as (_ & CB). assert (N1 : 1 <= INR (length (gm_models m))) by (apply (le_INR 1); exact H1).
      destruct (filter_with_inv m m' x H) as (r & _ & _ & _ & _ & _ & _ & _ & (_ & _ & _ & Esm) & Q). destruct (Q Bi) as (no & Eno & Q1). clear Q.
      unfold usub in Eno. destruct (Nat.leb_spec (gm_din m) (gm_dim m)) as [L | L]; [| discriminate]. injection Eno as <-.
      destruct (gm_est m).
      - destruct Q1 as (e & I & Eo & _). rewrite Eo. destruct (Cl e I) as (V & N & Q). split; [exact V |]. split; [exact N |]. nra.
      - destruct (mix_out _ _ _ _ _ _ Q1 d ltac:(lia)) as (o & O0 & On & Os). rewrite map_length in On, Os. destruct frame_parts as (l & P). rewrite Esm in P. rewrite count_eq in *. set (n := length (gm_models m)) in *.
        assert (Pt := parts_total n l (ent (rs_smn r)) H1 ltac:(lia) P). assert (P2 := parts_sum_le2 n (ent (rs_smn r)) H1 H2 Pt). rewrite <- On.
        set (s := fun i => match nth_error (gm_models m') i with Some e => ent (gc_out (snd e)) d | None => S754_zero false end).
        assert (Os' : forall i, (i < n)%nat -> o (S i) = fma1 (o i) (ent (rs_smn r) i) (s i) /\ near lo hi (INR C * bpow radix2 (b - 20)) (s i)).
        { intros i Hi. destruct (Os i Hi) as (e & Ne & E). rewrite nth_error_map in Ne. unfold s. destruct (nth_error (gm_models m') i) as [e' |] eqn:Ei; [| discriminate]. injection Ne as <-. split; [exact E | apply Cl; eapply nth_error_In, Ei]. }
        destruct R as (R1 & R2). assert (E2 : bpow radix2 (b + 1) = 2 * bpow radix2 b) by (rewrite bpow_plus; change (bpow radix2 1) with 2; ring).
        assert (E3 : bpow radix2 (b + 1 - 20) = 2 * bpow radix2 (b - 20)) by (replace (b + 1 - 20)%Z with (1 + (b - 20))%Z by ring; rewrite bpow_plus; reflexivity).
        destruct (acc_hull (b + 1) n (ent (rs_smn r)) s o ltac:(lia) H2 ltac:(intros i Hi; apply (proj2 P i Hi)) P2
          ltac:(intros i Hi; destruct (Os' i Hi) as (_ & V & N & Q); split; [exact V |]; split; [exact N | lra]) ltac:(rewrite O0; repeat split) ltac:(intros i Hi; apply (Os' i Hi))
          (lo - INR C * bpow radix2 (b - 20)) (hi + INR C * bpow radix2 (b - 20)) H1 Pt ltac:(lra) ltac:(lra) ltac:(intros i Hi; destruct (Os' i Hi) as (_ & _ & _ & Q); exact Q)) as (V & N & Q).
        split; [exact V |]. split; [exact N |]. rewrite E3 in Q. nra.
    Qed.

    Lemma model_cov b hi : (-100 <= b <= 98)%Z -> gm_cmode m = Diagonal -> Forall (fun e => variances_in d hi (snd e)) (gm_models m) -> hi <= bpow radix2 b ->
      num_in 0 (hi + (INR C + 2 * INR (length (gm_models m))) * bpow radix2 (b - 20)) (ent (rs_ocov (gm_res m')) d).
    Proof.
      intros Hb Md Hm R. assert (B0 := bpow_gt_0 radix2 b). assert (B1 := bpow_gt_0 radix2 (b - 20)).
      assert (Cl : forall e', In e' (gm_models m') -> num_in 0 (hi + INR C * bpow radix2 (b - 20)) (ent (gc_ocov (snd e')) d)).
      { intros e' I. destruct (class_of e' I) as (e & Ie & De & Ee & Be & Hde & Ne).
        destruct (class_cov fexp fln LM b hi d x (snd e) (snd e') ltac:(lia) ltac:(lia) De Fx Be Ee Hde (proj1 (Forall_forall _ _) Hm e Ie) R) as (V & N & Q).
        split; [exact V |]. split; [exact N |]. destruct (C_le b _ Ne). lra. }
      destruct (C_le b 0 ltac:(lia)) as (_ & CB). assert (N1 : 1 <= INR (length (gm_models m))) by (apply (le_INR 1); exact H1).
      destruct (filter_with_inv m m' x H) as (r & _ & _ & _ & _ & _ & _ & _ & (_ & _ & _ & Esm) & Q). destruct (Q Bi) as (no & Eno & Q1). clear Q.
      unfold usub in Eno. destruct (Nat.leb_spec (gm_din m) (gm_dim m)) as [L | L]; [| discriminate]. injection Eno as <-.
      destruct (gm_est m).
      - destruct Q1 as (e & I & _ & Eo). rewrite Eo. destruct (Cl e I) as (V & N & Q). split; [exact V |]. split; [exact N |]. nra.
      - rewrite Md in Q1. destruct (mix_cov _ _ _ _ _ Q1 d ltac:(lia)) as (o & O0 & On & Os). rewrite map_length in On, Os. destruct frame_parts as (l & P). rewrite Esm in P. rewrite count_eq in *. set (n := length (gm_models m)) in *.
        assert (Pt := parts_total n l (ent (rs_smn r)) H1 ltac:(lia) P). assert (P2 := parts_sum_le2 n (ent (rs_smn r)) H1 H2 Pt). rewrite <- On.
        set (s := fun i => match nth_error (gm_models m') i with Some e => ent (gc_ocov (snd e)) d | None => S754_zero false end).
        assert (Os' : forall i, (i < n)%nat -> o (S i) = fma1 (o i) (ent (rs_smn r) i) (s i) /\ num_in 0 (hi + INR C * bpow radix2 (b - 20)) (s i)).
        { intros i Hi. destruct (Os i Hi) as (e & Ne & E). rewrite nth_error_map in Ne. unfold s. destruct (nth_error (gm_models m') i) as [e' |] eqn:Ei; [| discriminate]. injection Ne as <-. split; [exact E | apply Cl; eapply nth_error_In, Ei]. }
        assert (E2 : bpow radix2 (b + 1) = 2 * bpow radix2 b) by (rewrite bpow_plus; change (bpow radix2 1) with 2; ring).
        assert (E3 : bpow radix2 (b + 1 - 20) = 2 * bpow radix2 (b - 20)) by (replace (b + 1 - 20)%Z with (1 + (b - 20))%Z by ring; rewrite bpow_plus; reflexivity).
        destruct (acc_nonneg (b + 1) n (ent (rs_smn r)) s o ltac:(lia) H2 ltac:(intros i Hi; apply (proj2 P i Hi)) P2
          ltac:(intros i Hi; destruct (Os' i Hi) as (_ & V & N & Q); split; [exact V |]; split; [exact N | lra]) ltac:(rewrite O0; repeat split) ltac:(intros i Hi; apply (Os' i Hi))
          (hi + INR C * bpow radix2 (b - 20)) H1 (proj2 Pt) ltac:(lra) ltac:(intros i Hi; destruct (Os' i Hi) as (_ & _ & _ & Q); exact Q)) as (V & N & Q).
        split; [exact V |]. split; [exact N |]. rewrite E3 in Q. nra.
    Qed.
  End Frame.

  (** ** Sequences of frames *)
  Lemma with_seq (P : gclass A -> Prop) xs x (m m' : gmm A) : (forall g g', kept fexp fln g g' -> P g -> P g') -> model_diag m -> Forall frame_f64 (xs ++ [x]) -> Forall (fun e => P (snd e)) (gm_models m) ->
    foldM (fun m x => gm_filter_with (A := A) as_single x m) (xs ++ [x]) m = Ok m' ->
    exists m0, model_diag m0 /\ length (gm_models m0) = length (gm_models m) /\ frame_f64 x /\ Forall (fun e => P (snd e)) (gm_models m0) /\
      (gm_bim m0 = gm_bim m /\ gm_dim m0 = gm_dim m /\ gm_din m0 = gm_din m /\ gm_cmode m0 = gm_cmode m) /\ gm_filter_with (A := A) as_single x m0 = Ok m'.
  Proof.
    intros Pk D F HP H. apply foldM_snoc in H. destruct H as (m0 & E & H). apply Forall_app in F. destruct F as (F1 & F2). inversion F2; subst. exists m0.
    apply (foldM_keeps _ (fun t => model_diag t /\ length (gm_models t) = length (gm_models m) /\ Forall (fun e => P (snd e)) (gm_models t) /\ (gm_bim t = gm_bim m /\ gm_dim t = gm_dim m /\ gm_din t = gm_din m /\ gm_cmode t = gm_cmode m)) frame_f64) in E; [tauto | | | exact F1].
    - intros s y s' (P1 & P2 & P3 & P4) Q Es. destruct (model_with_step P s s' y Pk P1 Q P3 Es) as (R1 & R2 & _ & R3). destruct (filter_with_inv s s' y Es) as (_ & _ & _ & B1 & B2 & B3 & _ & B4 & _).
      split; [exact R1 |]. split; [congruence |]. split; [exact R3 |]. rewrite B1, B2, B3, B4. exact P4.
    - split; [exact D |]. split; [reflexivity |]. split; [exact HP |]. repeat split.
  Qed.
End Many.
