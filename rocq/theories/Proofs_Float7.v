(** Recognition in binary64: sequences of frames, any mixture, normalised weights. *)
From Coq Require Import String ZArith QArith Reals Lra Lia Bool List Arith.
From Coq Require Import Floats.SpecFloat.
From Flocq Require Import Core.Core IEEE754.BinarySingleNaN.
From Verif Require Import Base BaseFacts Arith Spec_Float Spec_Float2 Proofs_Float1 Proofs_Float2 Proofs_Float3 Proofs_Float4 Proofs_Float5 Proofs_Float6 Model_Map Model_Ring Model_Gaussian Model_Config Model_KMeans Model_GMM.
Import ListNotations.
Local Open Scope R_scope.

Section Seq.
  Variables fexp fln : f64 -> f64.
  Local Notation A := (FA fexp fln).

  Lemma foldM_snoc {S X} (f : S -> X -> res S) l x s s' : foldM f (l ++ [x]) s = Ok s' -> exists t, foldM f l s = Ok t /\ f t x = Ok s'.
  Proof.
    revert s. induction l as [| y l IH]; intros s H; cbn in H.
    - exists s. split; [reflexivity |]. apply bind_ok_inv in H. destruct H as (t & E & H). injection H as <-. exact E.
    - apply bind_ok_inv in H. destruct H as (t & E & H). destruct (IH t H) as (u & E1 & E2). exists u. cbn. rewrite E. auto.
  Qed.
  Lemma foldM_keeps {S X} (f : S -> X -> res S) (P : S -> Prop) (Q : X -> Prop) : (forall s x s', P s -> Q x -> f s x = Ok s' -> P s') ->
    forall l s s', P s -> Forall Q l -> foldM f l s = Ok s' -> P s'.
  Proof.
    intros H. induction l as [| x l IH]; intros s s' Ps F E; [injection E as <-; exact Ps |]. inversion F as [| ? ? F1 F2]; subst. cbn in E. apply bind_ok_inv in E. destruct E as (t & E1 & E2). apply (IH t s'); [apply (H s x t) | |]; assumption.
  Qed.

  Lemma diag_seq (LM : libm_f64 fexp fln) xs x m m' : model_diag (fexp := fexp) (fln := fln) m -> Forall frame_f64 (xs ++ [x]) -> foldM (fun m x => gm_filter (A := A) x m) (xs ++ [x]) m = Ok m' ->
    exists m0, model_diag (fexp := fexp) (fln := fln) m0 /\ length (gm_models m0) = length (gm_models m) /\ frame_f64 x /\ gm_filter (A := A) x m0 = Ok m'.
  Proof.
    intros D F H. apply foldM_snoc in H. destruct H as (m0 & E & H). apply Forall_app in F. destruct F as (F1 & F2). inversion F2; subst.
    exists m0. apply (foldM_keeps _ (fun t => model_diag t /\ length (gm_models t) = length (gm_models m)) frame_f64) in E; [tauto | | auto | exact F1].
    intros s y s' (P & L) Q Es. destruct (model_step fexp fln LM s y s' P Q Es) as (P' & L' & _). split; [exact P' | congruence].
  Qed.

  (** Any mixture. *)
  Lemma any_step (He : on_f64 fexp) m x m' : model_f64 (fexp := fexp) (fln := fln) m -> frame_f64 x -> gm_filter (A := A) x m = Ok m' ->
    model_f64 (fexp := fexp) (fln := fln) m' /\ length (gm_models m') = length (gm_models m) /\ Forall (fun e : string * gclass A => positive (gc_inst (A := A) (snd e))) (gm_models m').
  Proof.
    intros D Fx H. destruct (filter_inv fexp fln m m' x H) as (r & _ & _ & _ & _ & _ & _ & _ & Em). clear H. unfold model_f64 in *.
    revert D Em. generalize (gm_models m) (gm_models m'). intros l. induction l as [| e l IH]; cbn [mapM]; intros l' F H; [injection H as <-; auto |]. inversion F as [| ? ? F1 F2]; subst.
    apply bind_ok_inv in H. destruct H as (e' & E1 & H). apply bind_ok_inv in E1. destruct E1 as (g & Eg & E1). injection E1 as <-.
    apply bind_ok_inv in H. destruct H as (t & Et & H). injection H as <-. destruct (IH t F2 Et) as (I1 & I2 & I3).
    destruct (filter1_inv fexp fln x (snd e) g Eg) as (h & Hh & E1 & _ & _ & E4 & E5 & E6 & _). destruct (likelihood_keeps fexp fln x [] (snd e) h Hh) as (K1 & K2 & K3).
    destruct (class_lik fexp fln He (snd e) x h F1 Fx Hh) as (P & _).
    split; [constructor; [| exact I1] |].
    - cbn [snd]. unfold class_f64, gc_n in *. rewrite E4, E5, E6, K1, K2, K3. exact F1.
    - split; [cbn; now f_equal | constructor; [cbn [snd]; rewrite E1; exact P | exact I3]].
  Qed.

  Lemma any_results (He : on_f64 fexp) m x m' : model_f64 (fexp := fexp) (fln := fln) m -> frame_f64 x -> gm_filter (A := A) x m = Ok m' ->
    let n := length (gm_models m) in let at_ (l : list f64) := fun i => nth i l (S754_zero false) in let r := gm_res m' in
    (forall i, (i < n)%nat -> positive (at_ (rs_inst r) i)) /\
    ((1 <= n)%nat -> is_num (nsum (A := A) n (at_ (rs_inst r))) = true -> parts_f64 n (at_ (rs_inst r)) (at_ (rs_instn r))).
  Proof.
    intros D Fx H. cbv zeta. destruct (any_step He m x m' D Fx H) as (_ & Le & F). rewrite <- Le.
    destruct (filter_inv fexp fln m m' x H) as (r & Er & -> & -> & _). assert (Er0 := results_parts fexp fln _ _ _ _ _ Er). clear Er. rename Er0 into Er. cbv zeta in Er. rewrite map_length in Er. set (n := length (gm_models m')) in *.
    assert (P : forall i, (i < n)%nat -> positive (nth i (rs_inst r) (S754_zero false))).
    { intros i Hi. destruct (Er i Hi) as (-> & _). destruct (nth_error (gm_models m') i) as [e |] eqn:E; [| apply nth_error_None in E; lia].
      rewrite Forall_forall in F. erewrite nth_error_nth; [eapply F, nth_error_In, E |]. rewrite nth_error_map, E. reflexivity. }
    split; [exact P |]. intros Hn N.
    assert (Nn : forall i, (i < n)%nat -> nn (nth i (rs_inst r) (S754_zero false))). { intros i Hi. destruct (P i Hi) as (V & [E | (Z & L)]); (split; [exact V |]); [now left | right; split; [exact Z | lra]]. }
    apply (parts_of fexp fln); auto.
    - destruct (nsum_nn fexp fln n _ Nn) as (_ & Q). destruct (Q N) as (Q1 & _). destruct (Q1 0%nat ltac:(lia)) as ((_ & N0 & _) & Q2). destruct (P 0%nat ltac:(lia)) as (_ & [E | (_ & L)]); [rewrite E in N0; discriminate | exact (Rlt_le_trans _ _ _ L Q2)].
    - intros i Hi. apply Er, Hi.
  Qed.

  Lemma any_seq (He : on_f64 fexp) xs x m m' : model_f64 (fexp := fexp) (fln := fln) m -> Forall frame_f64 (xs ++ [x]) -> foldM (fun m x => gm_filter (A := A) x m) (xs ++ [x]) m = Ok m' ->
    exists m0, model_f64 (fexp := fexp) (fln := fln) m0 /\ length (gm_models m0) = length (gm_models m) /\ frame_f64 x /\ gm_filter (A := A) x m0 = Ok m'.
  Proof.
    intros D F H. apply foldM_snoc in H. destruct H as (m0 & E & H). apply Forall_app in F. destruct F as (F1 & F2). inversion F2; subst.
    exists m0. apply (foldM_keeps _ (fun t => model_f64 t /\ length (gm_models t) = length (gm_models m)) frame_f64) in E; [tauto | | auto | exact F1].
    intros s y s' (P & L) Q Es. destruct (any_step He s y s' P Q Es) as (P' & L' & _). split; [exact P' | congruence].
  Qed.

  (** Normalised weights. *)
  Lemma rsum_tab_le n (f : nat -> f64) b : (forall i, (i < n)%nat -> fval (f i) <= b) -> rsum (tab n f) <= INR n * b.
  Proof.
    induction n as [| n IH]; intros H; [cbn; lra |]. unfold tab in *. rewrite seq_S, map_app. cbn [map]. rewrite rsum_app, S_INR. specialize (IH ltac:(intros; apply H; lia)). specialize (H n ltac:(lia)). cbn [Nat.add]. lra.
  Qed.
  Lemma max_ge n (f : nat -> f64) : (1 <= n)%nat -> exists i, (i < n)%nat /\ rsum (tab n f) <= INR n * fval (f i).
  Proof.
    intros Hn. assert (M : exists i, (i < n)%nat /\ forall j, (j < n)%nat -> fval (f j) <= fval (f i)).
    { induction n as [| n IH]; [lia |]. destruct (Nat.eq_dec n 0) as [-> | D]; [exists 0%nat; split; [lia |]; intros j Hj; replace j with 0%nat by lia; lra |].
      destruct (IH ltac:(lia)) as (i & Hi & M). destruct (Rle_or_lt (fval (f n)) (fval (f i))) as [L | L].
      - exists i. split; [lia |]. intros j Hj. destruct (Nat.eq_dec j n) as [-> | ]; [exact L | apply M; lia].
      - exists n. split; [lia |]. intros j Hj. destruct (Nat.eq_dec j n) as [-> | ]; [lra | specialize (M j ltac:(lia)); lra]. }
    destruct M as (i & Hi & M). exists i. split; [exact Hi |]. now apply rsum_tab_le.
  Qed.

  Lemma inv_count n : (1 <= n)%nat -> (Z.of_nat n <= 2 ^ 32)%Z -> bpow radix2 (-32) <= / INR n <= 1.
  Proof.
    intros H1 H2. assert (P : 1 <= INR n) by (apply (le_INR 1); exact H1). assert (Q : INR n <= bpow radix2 32) by (rewrite INR_IZR_INZ; change (bpow radix2 32) with (IZR (2 ^ 32)); now apply IZR_le).
    split; [change (-32)%Z with (- (32))%Z; rewrite bpow_opp; apply Rinv_le; lra |]. rewrite <- Rinv_1. apply Rinv_le; lra.
  Qed.

  Lemma normalize_weights (g : gclass A) : (1 <= gc_n g)%nat -> (Z.of_nat (gc_n g) < 2 ^ 32)%Z -> length (gc_coef g) = gc_n g -> Forall num_nonneg (gc_coef g) ->
    is_num (nsum (A := A) (gc_n g) (fun c => nth c (gc_coef g) (S754_zero false))) = true -> weights_f64 (gc_n g) (gc_coef (gm_normalize (A := A) g)).
  Proof.
    intros Hn Ln L F N. unfold gm_normalize. cbv zeta. cbn [gc_coef gc_set_coef]. set (n := gc_n g) in *. set (w := gc_coef g) in *.
    assert (E0 : nsum (A := A) n (fun c => nth c w n0) = nsum (A := A) n (fun c => nth c w (S754_zero false))) by reflexivity. rewrite E0. clear E0.
    set (s := nsum (A := A) n (fun c => nth c w (S754_zero false))) in *.
    assert (Nn : forall i, (i < n)%nat -> nn (nth i w (S754_zero false))). { intros i Hi. apply nonneg_nn. rewrite Forall_forall in F. apply F, nth_In. lia. }
    destruct (nsum_nn fexp fln n _ Nn) as (Ps & Qs). change (nsum n (fun c => nth c w (S754_zero false))) with s in Ps, Qs.
    assert (Cs : SFltb (S754_zero false) s = Rlt_bool 0 (fval s)). { rewrite ltb_num; auto; [reflexivity | apply Ps]. }
    change (nltb n0 s) with (SFltb (S754_zero false) s). rewrite Cs. destruct (inv_count n Hn ltac:(lia)) as (I1 & I2).
    destruct (Rlt_bool_spec 0 (fval s)) as [P | P].
    - destruct (parts fexp fln n _ Nn N P) as (Sp & Q). split; [now rewrite map_length |].
      assert (In_i : forall i, (i < n)%nat -> nth_error (map (fun w => SFdiv fprec femax w s) w) i = Some (SFdiv fprec femax (nth i w (S754_zero false)) s)).
      { intros i Hi. rewrite nth_error_map, (nth_error_nth' w (S754_zero false)) by lia. reflexivity. }
      split.
      + apply Forall_forall. intros x Hx. apply In_nth_error in Hx. destruct Hx as (i & Hi). assert (Hi' : (i < n)%nat). { apply (f_equal (fun o => match o with Some _ => true | None => false end)) in Hi. destruct (le_lt_dec n i) as [G |]; [| assumption]. rewrite (proj2 (nth_error_None _ i)) in Hi by (rewrite map_length; lia). discriminate. }
        assert (Some x = Some (SFdiv fprec femax (nth i w (S754_zero false)) s)) by (rewrite <- In_i by exact Hi'; symmetry; exact Hi). injection H as ->. apply Q, Hi'.
      + destruct (max_ge n (fun c => nth c w (S754_zero false)) Hn) as (i & Hi & M). exists (SFdiv fprec femax (nth i w (S754_zero false)) s). split; [eapply nth_error_In, In_i, Hi |].
        destruct (Q i Hi) as (_ & B & _). eapply Rle_trans; [| exact B]. set (S := rsum _) in *.
        destruct (growth (n + 1) ltac:(lia)) as ((G1 & _) & G2).
        assert (X : / INR n <= fval (nth i w (S754_zero false)) / S).
        { assert (1 <= INR n) by (apply (le_INR 1); exact Hn). apply (Rmult_le_reg_r S); [exact Sp |]. unfold Rdiv. rewrite Rmult_assoc, Rinv_l, Rmult_1_r by lra.
          apply (Rmult_le_reg_l (INR n)); [lra |]. rewrite <- Rmult_assoc, Rinv_r, Rmult_1_l by lra. exact M. }
        assert (Y : bpow radix2 (-33) <= fval (nth i w (S754_zero false)) / S / (1 + uround) ^ (n + 1)).
        { apply (Rmult_le_reg_r ((1 + uround) ^ (n + 1))); [lra |]. unfold Rdiv at 1. rewrite Rmult_assoc, Rinv_l, Rmult_1_r by lra. apply Rle_trans with (bpow radix2 (-33) * bpow radix2 1).
          - apply Rmult_le_compat_l; [apply bpow_ge_0 |]. apply Rle_trans with (1 := G2). assert (bpow radix2 (-20) <= bpow radix2 0) by (apply bpow_le; lia). change (bpow radix2 0) with 1 in *. change (bpow radix2 1) with 2. lra.
          - rewrite <- bpow_plus. change (-33 + 1)%Z with (-32)%Z. lra. }
        assert (bpow radix2 (-200) + ufloor <= bpow radix2 (-33)).
        { unfold ufloor. apply Rle_trans with (bpow radix2 (-34) + bpow radix2 (-34)); [apply Rplus_le_compat; apply bpow_le; lia |]. change (-33)%Z with (1 + -34)%Z. rewrite (bpow_plus radix2 1 (-34)). change (bpow radix2 1) with 2. lra. }
        unfold Rdiv in *. lra.
    - set (d := SFdiv fprec femax (n1 (A := A)) (nN (A := A) n)). change (ndiv n1 (nN n)) with d.
      destruct (nN_val fexp fln n Hn ltac:(lia)) as (Vd & Nd & Ed). assert (V1 : is_f64 (n1 (A := A)) /\ is_num (n1 (A := A)) = true /\ fval (n1 (A := A)) = 1).
      { split; [vm_compute; reflexivity |]. split; [vm_compute; reflexivity |]. replace (n1 (A := A)) with (S754_finite false 4503599627370496 (-52)) by (vm_compute; reflexivity). unfold fval. cbn. unfold F2R. cbn. lra. }
      destruct V1 as (V1 & N1 & E1). assert (Z : bpow radix2 (-32) <= rnd (/ INR n) <= 1) by (split; [rewrite <- (rnd_bpow (-32)) by lia; now apply rnd_le | rewrite <- rnd_1; now apply rnd_le]).
      assert (B32 : 0 < bpow radix2 (-32)) by apply bpow_gt_0.
      destruct (f_div_num _ _ V1 Vd N1) as (Nq & Eq).
      + rewrite Ed. apply not_0_INR. lia.
      + rewrite E1, Ed. unfold Rdiv. rewrite Rmult_1_l. rewrite Rabs_pos_eq by lra. apply Rle_lt_trans with 1; [lra |]. change 1 with (bpow radix2 0). apply bpow_lt. lia.
      + rewrite E1, Ed in Eq. unfold Rdiv in Eq. rewrite Rmult_1_l in Eq. assert (D : num_in 0 1 d). { split; [now apply f_div_valid |]. split; [exact Nq |]. unfold d. rewrite Eq. lra. }
        split; [apply repeat_length |]. split; [apply Forall_forall; intros x Hx; apply repeat_spec in Hx; subst x; exact D |].
        exists d. split; [destruct n; [lia | now left] |]. unfold d. rewrite Eq. apply Rle_trans with (bpow radix2 (-32)); [apply bpow_le; lia | apply Z].
  Qed.
End Seq.
