(** Null likelihoods in the window. *)
From Coq Require Import String ZArith QArith Reals Lra Lia Bool List Arith.
From Coq Require Import Floats.SpecFloat.
From Flocq Require Import Core.Core IEEE754.BinarySingleNaN.
From Verif Require Import Base BaseFacts Arith Spec_Float Spec_Float2 Spec_Float3 Proofs_Float1 Proofs_Float2 Proofs_Float3 Proofs_Float4 Proofs_Float6 Proofs_Float7 Proofs_Single2 Proofs_Single3.
From Verif Require Import Model_Map Model_Ring Model_Gaussian Model_Config Model_KMeans Model_GMM Model_HMM Model_HHMM.
Import ListNotations.
Local Open Scope R_scope.

#[local] Existing Instance Proofs_Float1.Hprec.
#[local] Existing Instance Proofs_Float1.Hmax.

Section Null.
  Variables fexp fln : f64 -> f64.
  Local Notation A := (FA fexp fln).
  Local Notation minf := (S754_infinity true).

  Lemma add_minf_l y : y = minf \/ is_num y = true -> SFadd fprec femax minf y = minf.
  Proof. intros [-> | N]; [reflexivity |]. destruct y; try discriminate; reflexivity. Qed.
  Lemma add_minf_r y : y = minf \/ is_num y = true -> SFadd fprec femax y minf = minf.
  Proof. intros [-> | N]; [reflexivity |]. destruct y; try discriminate; reflexivity. Qed.

  Lemma div_count w : (1 <= w)%nat -> (Z.of_nat w <= 2 ^ 32)%Z -> SFdiv fprec femax minf (nN (A := A) w) = minf.
  Proof.
    intros H1 H2. destruct (nN_val fexp fln w H1 H2) as (V & N & E). cbv zeta in *. set (y := nN (A := A) w) in *. clearbody y.
    assert (P : 0 < fval y) by (rewrite E; apply lt_0_INR; lia). destruct y as [s | s | | s mm ee]; try discriminate; [cbn in P; lra |]. destruct s; [| reflexivity]. exfalso.
    unfold fval in P. cbn in P. assert (Q : F2R (Float radix2 (Z.neg mm) ee) < 0) by (apply F2R_lt_0; reflexivity). lra.
  Qed.

  Lemma window_get (b : ring f64) i v : (i < ring_size_t b)%nat -> ring_get b 0 i = Ok v -> nth_error (window_entries b) i = Some v.
  Proof.
    intros Hi E. unfold ring_get in E. destruct (length (r_data b) <=? 0)%nat; [discriminate |]. destruct (ring_size_t b <=? i)%nat; [discriminate |].
    apply bind_ok_inv in E. destruct E as (ch & Ec & E). destruct (rd_nth _ _ _ [] Ec) as (Q & _). unfold window_entries. rewrite Q.
    unfold rd in E. destruct (nth_error ch i) as [y |] eqn:X; [| discriminate]. injection E as <-. rewrite <- X. clear - Hi. revert i Hi ch. generalize (ring_size_t b) as n. induction n as [| n IH]; intros i Hi ch; [lia |].
    destruct ch as [| y ch]; [now destruct i |]. destruct i as [| i]; [reflexivity |]. cbn. apply IH. lia.
  Qed.

  Lemma smooth_null b p b' l : smooth (A := A) b p = Ok (b', l) -> null_window b' -> l = minf.
  Proof.
    intros H (Hz & F & I). unfold smooth in H. apply bind_ok_inv in H. destruct H as (b1 & _ & H). apply bind_ok_inv in H. destruct H as (s & Es & H). injection H as <- <-.
    rewrite Forall_forall in F. apply In_nth_error in I. destruct I as (j & Ej). change (num A) with f64 in *.
    assert (Lw : (length (window_entries b1) <= ring_size_t b1)%nat) by (unfold window_entries; rewrite firstn_length; lia).
    assert (Hj : (j < ring_size_t b1)%nat) by (eapply Nat.lt_le_trans; [apply nth_error_Some; intros C; rewrite C in Ej; discriminate | exact Lw]).
    assert (S : s = minf). { unfold accM in Es.
      apply (iterM_inv_ok (fun k (s : f64) => s = minf \/ (num_in (- sum_bound (bpow radix2 900) k) (sum_bound (bpow radix2 900) k) s /\ (k <= j)%nat))) in Es.
      - destruct Es as [E | (_ & E)]; [exact E | lia].
      - right. split; [apply sum_bound_0 | lia].
      - intros k x y Hk Hx E. apply bind_ok_inv in E. destruct E as (v & Ev & E). injection E as <-. apply window_get in Ev; [| exact Hk]. change (nadd (a := A) x v) with (SFadd fprec femax x v).
        assert (Fv := F v (nth_error_In _ _ Ev)). destruct Hx as [-> | (Hx & Lk)].
        + left. apply add_minf_l. destruct Fv as [(_ & N & _) | ->]; auto.
        + destruct Fv as [Fv | ->]; [| left; apply add_minf_r; right; apply Hx]. right. split.
          * apply sum_step; auto; [lia | apply bpow_ge_0 | apply bpow_le; lia].
          * destruct (Nat.eq_dec k j) as [-> | D]; [| lia]. assert (Q : Some (A := f64) v = Some minf) by exact (eq_trans (eq_sym Ev) Ej). injection Q as ->. destruct Fv as (_ & N & _). discriminate. }
    subst s. apply div_count; [lia | exact Hz].
  Qed.

  (** The log-likelihood of a class is the smoothed one. *)
  Definition smoothed (h : hclass A) : Prop := exists b p, smooth (A := A) b p = Ok (h_buf (hc_run h), h_log (hc_run h)).
  Lemma post_smoothed (h h' : hclass A) : hm_post (A := A) h = Ok h' -> smoothed h'.
  Proof.
    intros H. unfold hm_post in H. apply bind_ok_inv in H. destruct H as (h1 & E1 & H).
    unfold hm_results in H. cbv zeta in H. apply bind_ok_inv in H. destruct H as ((b & l) & Es & H). apply bind_ok_inv in H. destruct H as (p & _ & H). injection H as <-. exists (h_buf (hc_run h1)), (h_inst (hc_run h1)). exact Es.
  Qed.
  Lemma regression_log x (h h' : hclass A) : hm_regression (A := A) x h = Ok h' -> h_buf (hc_run h') = h_buf (hc_run h) /\ h_log (hc_run h') = h_log (hc_run h).
  Proof.
    intros H. unfold hm_regression in H. cbv zeta in H. apply bind_ok_inv in H. destruct H as (no & _ & H). destruct (hp_est (hc_par h)).
    3: { apply bind_ok_inv in H. destruct H as (g & Eg & H). apply bind_ok_inv in H. destruct H as (g2 & Eg2 & H). apply bind_ok_inv in H. destruct H as (ss & Es & H). injection H as <-. split; reflexivity. }
    all: apply bind_ok_inv in H; destruct H as (((ss & o) & v) & E & H); injection H as <-; split; reflexivity.
  Qed.

  Lemma filter_null (m m' : hhmm A) x : hh_filter (A := A) x m = Ok m' -> fexp minf = S754_zero false ->
    (forall i l h, nth_error (hh_cls m') i = Some (l, h) -> null_window (h_buf (hc_run h)) -> ent (rs_log (hh_res m')) i = minf /\ ent (rs_sm (hh_res m')) i = S754_zero false) /\
    (Forall (fun e : string * hclass A => null_window (h_buf (hc_run (snd e)))) (hh_cls m') -> forall i, (i < hh_size m')%nat -> ent (rs_smn (hh_res m')) i = S754_nan).
  Proof.
    intros H Ex. unfold hh_filter in H. apply bind_ok_inv in H. destruct H as (m1 & _ & H). apply bind_ok_inv in H. destruct H as (ms & Ep & H). apply bind_ok_inv in H. destruct H as (r & Er & H).
    assert (P : forall i l h, nth_error ms i = Some (l, h) -> smoothed h).
    { assert (G : forall c c' : list (string * hclass A), mapM (fun e => let* h := hm_post (A := A) (snd e) in Ok (fst e, h)) c = Ok c' -> Forall (fun e => smoothed (snd e)) c').
      { induction c as [| e c IH]; cbn [mapM]; intros c' E; [injection E as <-; constructor |]. apply bind_ok_inv in E. destruct E as (e' & E1 & E). apply bind_ok_inv in E1. destruct E1 as (h & Eh & E1). injection E1 as <-.
        apply bind_ok_inv in E. destruct E as (t & Et & E). injection E as <-. constructor; [eapply post_smoothed, Eh | now apply IH]. }
      intros i l h E. specialize (G _ _ Ep). rewrite Forall_forall in G. apply (G (l, h)). eapply nth_error_In, E. }
    assert (Rp := results_parts fexp fln _ _ _ _ _ Er). cbv zeta in Rp. rewrite map_length in Rp.
    assert (W : (forall i l h, nth_error ms i = Some (l, h) -> null_window (h_buf (hc_run h)) -> ent (rs_log r) i = minf /\ ent (rs_sm r) i = S754_zero false) /\
      (Forall (fun e : string * hclass A => null_window (h_buf (hc_run (snd e)))) ms -> forall i, (i < length ms)%nat -> ent (rs_smn r) i = S754_nan)).
    { assert (W1 : forall i l h, nth_error ms i = Some (l, h) -> null_window (h_buf (hc_run h)) -> ent (rs_log r) i = minf /\ ent (rs_sm r) i = S754_zero false).
      { intros i l h E N. assert (Hi : (i < length ms)%nat) by (apply nth_error_Some; congruence). destruct (P i l h E) as (b & p & Es). assert (Q := smooth_null _ _ _ _ Es N).
        destruct (Rp i Hi) as (_ & R1 & R2 & _). apply (map_nth_error (fun e : string * hclass A => h_log (hc_run (snd e)))) in E. assert (Y := nth_error_nth (A := f64) _ _ (S754_zero false) E). cbn [snd] in Y.
        assert (Y' : nth i (map (fun e : string * hclass A => h_log (hc_run (snd e))) ms) (S754_zero false) = minf) by (rewrite <- Q; exact Y).
        split; [exact (eq_trans R1 Y') |]. rewrite <- Ex. exact (eq_trans R2 (f_equal fexp Y')). }
      split; [exact W1 |]. intros F i Hi. rewrite Forall_forall in F.
      assert (Z : forall j, (j < length ms)%nat -> ent (rs_sm r) j = S754_zero false).
      { intros j Hj. destruct (nth_error ms j) as [(l, h) |] eqn:E; [| apply nth_error_None in E; lia]. apply (W1 j l h E). apply (F (l, h)). eapply nth_error_In, E. }
      destruct (Rp i Hi) as (_ & _ & _ & _ & R). assert (S0 : forall n, (n <= length ms)%nat -> nsum (A := A) n (ent (rs_sm r)) = S754_zero false).
      { induction n as [| n IH]; intros Hn; [reflexivity |]. cbn [nsum]. assert (X := IH ltac:(lia)). assert (X2 := Z n ltac:(lia)). change (num A) with f64 in *. rewrite X, X2. reflexivity. }
      assert (S1 := S0 (length ms) (le_n _)). assert (Zi := Z i Hi). unfold ent in *. change (num A) with f64 in *. rewrite R. fold f64 in *. rewrite S1, Zi. reflexivity. }
    destruct (negb (hh_bim m1)).
    - injection H as <-. exact W.
    - apply bind_ok_inv in H. destruct H as (no & _ & H). apply bind_ok_inv in H. destruct H as (ms' & Em & H). apply bind_ok_inv in H. destruct H as ((o & c) & _ & H). injection H as <-.
      assert (K : length ms' = length ms /\ forall i l h', nth_error ms' i = Some (l, h') -> exists h, nth_error ms i = Some (l, h) /\ h_buf (hc_run h') = h_buf (hc_run h)).
      { clear - Em. revert ms' Em. induction ms as [| (l, h) ms IH]; cbn [mapM]; intros ms' E; [injection E as <-; split; [reflexivity |]; intros [|] ? ? X; discriminate |].
        apply bind_ok_inv in E. destruct E as (e' & E1 & E). apply bind_ok_inv in E1. destruct E1 as (h1 & Eh & E1). injection E1 as <-. apply bind_ok_inv in E. destruct E as (t & Et & E). injection E as <-.
        destruct (IH t Et) as (L & K). split; [cbn; now f_equal |]. intros [| i] l1 h2 X; [cbn in X; injection X as <- <-; exists h; split; [reflexivity |]; now destruct (regression_log _ _ _ Eh) | now apply K]. }
      destruct K as (L & K). destruct W as (W1 & W2). cbn [hh_cls hh_res hh_set_res hh_set_cls rs_log rs_sm rs_smn]. split.
      + intros i l h E N. destruct (K i l h E) as (h0 & E0 & B). rewrite B in N. exact (W1 i l h0 E0 N).
      + intros F i Hi. unfold hh_size in Hi. cbn [hh_cls hh_set_res hh_set_cls] in Hi. rewrite L in Hi. apply W2; [| exact Hi]. rewrite Forall_forall in *. intros (l, h) I. apply In_nth_error in I. destruct I as (j & Ej). cbn [snd].
        destruct (nth_error ms' j) as [(l1, h1) |] eqn:E1; [| apply nth_error_None in E1; rewrite L in E1; assert (j < length ms)%nat by (apply nth_error_Some; congruence); lia].
        destruct (K j l1 h1 E1) as (h0 & E0 & B). assert (Q : Some (l1, h0) = Some (l, h)) by congruence. injection Q as -> ->. rewrite <- B. apply (F (l, h1)). eapply nth_error_In, E1.
  Qed.
End Null.
