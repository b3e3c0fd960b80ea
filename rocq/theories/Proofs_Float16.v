(** Sequences of frames with classes that filter by themselves, in binary64. *)
From Coq Require Import String ZArith QArith Reals Lra Lia Bool List Arith.
From Coq Require Import Floats.SpecFloat.
From Flocq Require Import Core.Core IEEE754.BinarySingleNaN.
From Verif Require Import Base BaseFacts Arith Spec_Float Spec_Float2 Spec_Float3 Spec_Float4 Proofs_Float1 Proofs_Float2 Proofs_Float3 Proofs_Float4 Proofs_Float5 Proofs_Float6 Proofs_Float7 Proofs_Float8 Proofs_Float9 Proofs_Float12 Proofs_Float13 Proofs_Float14 Proofs_Float15.
From Verif Require Import Model_Map Model_Ring Model_Gaussian Model_Config Model_KMeans Model_GMM Model_HMM Model_HHMM.
Import ListNotations.
Local Open Scope R_scope.

#[local] Existing Instance Proofs_Float1.Hprec.
#[local] Existing Instance Proofs_Float1.Hmax.
Local Notation fadd := (SFadd fprec femax).
Local Notation fmul := (SFmul fprec femax).
Local Notation fdiv := (SFdiv fprec femax).

Section Flat.
  Variables fexp fln : f64 -> f64.
  Hypothesis LM : libm_f64 fexp fln.
  Local Notation A := (FA fexp fln).

  (** What no part of a filtering step changes. *)
  Definition static (h h' : hclass A) : Prop :=
    hc_hier h' = hc_hier h /\ hc_par h' = hc_par h /\ h_prior (hc_net h') = h_prior (hc_net h) /\ h_trans (hc_net h') = h_trans (hc_net h) /\
    (Forall state_flat (h_states (hc_net h)) -> Forall state_flat (h_states (hc_net h'))).
  Lemma static_trans h1 h2 h3 : static h1 h2 -> static h2 h3 -> static h1 h3.
  Proof. intros (A1 & A2 & A3 & A4 & A5) (B1 & B2 & B3 & B4 & B5). unfold static. rewrite B1, B2, B3, B4. auto 10. Qed.

  (** The state of a class that has filtered. *)
  Definition running (h : hclass A) : Prop := h_started (hc_run h) = true /\ alpha_f64 h /\ win (h_buf (hc_run h)).
  Definition results_ok (h : hclass A) : Prop :=
    num_in (bpow radix2 (-790)) (bpow radix2 790) (h_inst (hc_run h)) /\ num_in (- 600) 600 (h_log (hc_run h)) /\ num_in 0 (1 + bpow radix2 (-18)) (h_prog (hc_run h)).

  Lemma win_shape b : win b -> length (r_data b) = 1%nat /\ (1 <= r_length b)%nat /\ (Z.of_nat (r_length b) < 2 ^ 32)%Z /\ length (nth 0 (r_data b) []) = r_length b.
  Proof. intros (W1 & W2 & W3 & W4 & _). repeat split; auto. lia. Qed.
  Lemma static_class h h' : class_flat h -> static h h' -> win (h_buf (hc_run h')) -> class_flat h'.
  Proof.
    intros (C1 & C2 & C3 & C4 & C5 & _) (S1 & S2 & S3 & S4 & S5) W. unfold class_flat, hc_n, hc_mode in *. rewrite S1, S2, S3, S4. repeat (split; [now auto |]). now apply win_shape.
  Qed.

  Lemma forward_flat x (h h' : hclass A) : class_flat h -> (h_started (hc_run h) = true -> running h) -> frame_f64 x -> hm_forward (A := A) x h = Ok h' ->
    static h h' /\ running h' /\ num_in (bpow radix2 (-790)) (bpow radix2 790) (h_inst (hc_run h')).
  Proof.
    intros (C1 & C2 & C3 & C4 & C5 & (B1 & B2 & B3 & B4)) R Fx H. unfold hm_forward in H. cbv zeta in H. apply bind_ok_inv in H. destruct H as ((al, ct) & E & H).
    assert (Ob : forall k v, hm_obs (A := A) h x k = Ok v -> num_in (bpow radix2 (-638)) (bpow radix2 570) v) by (intros k v Ev; eapply (flat_obs fexp fln LM); eauto).
    assert (G : alphas (hc_n h) al /\ scaling ct).
    { destruct (h_started (hc_run h)) eqn:St; [eapply (update_flat fexp fln); eauto; apply (R eq_refl) | eapply (init_flat fexp fln); eauto]. }
    destruct G as (G1 & G2). injection H as <-. split; [repeat split; auto |]. split; [| exact (inst_in fexp fln ct G2)].
    split; [reflexivity |]. split; [exact G1 |]. destruct (h_started (hc_run h)); [apply (R eq_refl) |].
    cbn. split; [exact B1 |]. split; [exact B3 |]. split; [exact B2 |]. split; [exact B4 |]. cbn. lia.
  Qed.

  (** The likeliest state has a forward variable that is not small. *)
  Lemma window_flat (h h1 : hclass A) : hc_hier h = false -> (1 <= hc_n h)%nat -> (Z.of_nat (hc_n h) < 2 ^ 32)%Z -> alpha_f64 h -> hm_window (A := A) h = Ok h1 ->
    exists lk lo hi nm, h1 = hc_set_run (rn_window lk lo hi nm (hc_run h)) h /\ (hi <= hc_n h)%nat /\
      nm = nsum (A := A) (hi - lo) (fun k => ent (h_alpha (hc_run h)) (lo + k)) /\ ((lo < hi)%nat -> num_in (bpow radix2 (-33)) (bpow radix2 33) nm) /\ (hc_n h = 1 -> hi = 0)%nat /\ (2 <= hc_n h -> lo < hi)%nat.
  Proof.
    intros C1 HN ZN (AL & (k0 & Hk0 & Bk0)) H. unfold hm_window in H. cbv zeta in H. unfold hm_weight in H. rewrite C1 in H.
    apply bind_ok_inv in H. destruct H as (w0 & E0 & H). apply bind_ok_inv in H. destruct H as ((lk, y) & El & H). apply bind_ok_inv in H. destruct H as (nm & Em & H). injection H as <-.
    set (al := h_alpha (hc_run h)) in *. apply ent_rd in E0.
    assert (L : (lk < hc_n h)%nat /\ bpow radix2 (-33) <= fval (ent al lk)).
    { assert (I : (lk < 1 + (hc_n h - 1))%nat /\ y = ent al lk /\ forall i, (i < 1 + (hc_n h - 1))%nat -> fval (ent al i) <= fval (ent al lk)).
      { refine (iterM_inv_ok (fun k s => (fst s < 1 + k)%nat /\ snd s = ent al (fst s) /\ forall i, (i < 1 + k)%nat -> fval (ent al i) <= fval (ent al (fst s))) _ _ _ (lk, y) _ _ El).
        - cbn [fst snd]. split; [lia |]. split; [symmetry; exact E0 |]. intros i Hi. replace i with 0%nat by lia. apply Rle_refl.
        - intros k (c, v) s' Hk (J1 & J2 & J3) E. cbn [fst snd] in *. apply bind_ok_inv in E. destruct E as (w & Ew & E). apply ent_rd in Ew. rewrite Nat.add_comm in Ew. cbn [Nat.add] in Ew.
          destruct (AL c ltac:(lia)) as (Vc & Nc & _). destruct (AL (S k) ltac:(lia)) as (Vk & Nk & _). fold al in Vc, Nc, Vk, Nk.
          assert (Q : nltb (a := A) v w = Rlt_bool (fval (ent al c)) (fval (ent al (S k)))). { rewrite J2, <- Ew. exact (ltb_num _ _ Vc Vk Nc Nk). }
          rewrite Q in E. destruct (Rlt_bool_spec (fval (ent al c)) (fval (ent al (S k)))) as [X | X]; injection E as <-; cbn [fst snd].
          + rewrite Nat.add_comm. cbn [Nat.add]. split; [lia |]. split; [symmetry; exact Ew |]. intros i Hi. destruct (Nat.eq_dec i (S k)) as [-> | D]; [apply Rle_refl |]. specialize (J3 i ltac:(lia)). lra.
          + split; [lia |]. split; [exact J2 |]. intros i Hi. destruct (Nat.eq_dec i (S k)) as [-> | D]; [exact X | apply J3; lia]. }
      destruct I as (I1 & _ & I3). split; [lia |]. apply Rle_trans with (1 := Bk0). apply I3. lia. }
    destruct L as (L1 & L2). destruct (accM_nsum fexp fln _ _ _ Em) as (g & G1 & G2).
    set (lo := (lk - hc_n h / 2)%nat) in *. set (hi := Nat.min (lk + hc_n h / 2) (hc_n h)) in *.
    assert (G3 : nm = nsum (A := A) (hi - lo) (fun k => ent al (lo + k))). { refine (eq_trans G2 _). apply (nsum_ext fexp fln). intros i Hi. specialize (G1 i Hi). apply ent_rd in G1. symmetry. exact G1. }
    exists lk, lo, hi, nm. split; [reflexivity |]. split; [apply Nat.le_min_r |]. split; [exact G3 |].
    assert (X1 : (hc_n h = 1 -> hi = 0)%nat). { intros N1. unfold hi. rewrite N1 in *. cbn. lia. }
    assert (X2 : (2 <= hc_n h -> lo < hi)%nat). { intros N2. unfold lo, hi. assert (D : (1 <= hc_n h / 2)%nat) by (apply Nat.div_le_lower_bound; lia). lia. }
    split; [| auto]. intros Hl.
    assert (Hm : (lo <= lk < hi)%nat). { unfold lo, hi in *. destruct (Nat.eq_dec (hc_n h / 2) 0) as [Z | Z]; [rewrite Z in Hl; lia | lia]. }
    assert (Hhi : (hi <= hc_n h)%nat) by apply Nat.le_min_r.
    assert (Z0 : num_in 0 (bpow radix2 0) (n0 (A := A))). { split; [reflexivity |]. split; [reflexivity |]. split; [apply Rle_refl | apply bp0]. }
    assert (F : forall k v, (k < hi - lo)%nat -> rd al (lo + k) = Ok v -> num_in 0 (bpow radix2 0) v). { intros k v Hk Ev. apply ent_rd in Ev. subst v. apply AL. lia. }
    destruct (acc_in fexp fln 0 (hi - lo) _ (n0 (A := A)) nm ltac:(lia) ltac:(lia) Z0 F Em) as ((V & N & B) & _ & M). split; [exact V |]. split; [exact N |]. split; [| apply B].
    destruct (accM_reads fexp fln _ _ _ _ (lk - lo)%nat Em ltac:(lia)) as (v & Ev). assert (Q := M (lk - lo)%nat v ltac:(lia) Ev). apply ent_rd in Ev. replace (lo + (lk - lo))%nat with lk in Ev by lia. subst v. lra.
  Qed.

  Lemma post_flat (h h' : hclass A) : class_flat h -> running h -> num_in (bpow radix2 (-790)) (bpow radix2 790) (h_inst (hc_run h)) -> hm_post (A := A) h = Ok h' ->
    static h h' /\ running h' /\ results_ok h'.
  Proof.
    intros (C1 & C2 & C3 & C4 & C5 & _) (R1 & R2 & R3) I H. unfold hm_post in H. apply bind_ok_inv in H. destruct H as (h1 & E1 & H).
    destruct (window_flat h h1 C1 C2 C3 R2 E1) as (lk & lo & hi & nm & -> & W1 & W2 & W3 & W4 & W5).
    unfold hm_results in H. cbv zeta in H. apply bind_ok_inv in H. destruct H as ((b & l) & Eb & H). apply bind_ok_inv in H. destruct H as (p & Ep & H). injection H as <-.
    cbn [hc_run hc_set_run h_inst h_buf rn_window h_wmin h_wmax h_wnorm hc_hier hc_n hc_par] in *.
    assert (I' : num_in (bpow radix2 (-800)) (bpow radix2 800) (h_inst (hc_run h))) by (eapply num_in_weaken; [exact I | apply bpow_le; lia | apply bpow_le; lia]).
    destruct (smooth_win fexp fln LM _ _ _ _ R3 I' Eb) as (S1 & S2).
    split; [repeat split; auto |]. split; [split; [exact R1 |]; split; [exact R2 | exact S1] |]. split; [exact I |]. split; [exact S2 |].
    cbn [hc_run hc_set_run h_prog rn_log rn_buf rn_window].
    destruct (accM_nsum fexp fln _ _ _ Ep) as (t & T1 & T2). unfold hm_weight in T1. cbn [hc_hier hc_set_run hc_run rn_window h_alpha] in T1. rewrite C1 in T1.
    set (al := h_alpha (hc_run h)) in *.
    assert (T : forall k, (k < hi - lo)%nat -> t k = fdiv (fmul (ent al (lo + k)) (nN (A := A) (lo + k))) (nsum (A := A) (hi - lo) (fun k => ent al (lo + k)))).
    { intros k Hk. specialize (T1 k Hk). apply bind_ok_inv in T1. destruct T1 as (w & Ew & T1). apply ent_rd in Ew. cbn [bind] in T1. injection T1 as T1. rewrite <- T1, <- W2, <- Ew. reflexivity. }
    change (hc_n (hc_set_run (rn_window lk lo hi nm (hc_run h)) h)) with (hc_n h) in *.
    destruct (Nat.eq_dec (hc_n h) 1) as [N1 | N1].
    - rewrite (W4 N1) in T2. assert (Q : p = S754_zero false) by exact T2. rewrite Q, N1. change (num_in 0 (1 + bpow radix2 (-18)) (S754_zero false)).
      split; [reflexivity |]. split; [reflexivity |]. assert (X := bp0 (-18)). cbn [fval SF2R]. lra.
    - replace (hc_n h - 1 =? 0)%nat with false by (symmetry; apply Nat.eqb_neq; lia).
      assert (Q : p = nsum (A := A) (hi - lo) t) by exact T2. rewrite Q. assert (Hl : (lo < hi)%nat) by (apply W5; lia). rewrite W2 in W3.
      apply (progress_in fexp fln (hi - lo) (hc_n h - 1) lo (fun k => ent al (lo + k)) t); [lia | lia | lia | | exact (W3 Hl) | exact T].
      intros k Hk. split; [lia |]. apply R2. lia.
  Qed.

  Lemma fire_flat x (g g2 : gclass A) : (let* g := gm_likelihood (A := A) x [] g in gm_regression x g) = Ok g2 -> state_flat g -> state_flat g2.
  Proof.
    intros H D. apply bind_ok_inv in H. destruct H as (g1 & E1 & H). destruct (likelihood_keeps fexp fln x [] g g1 E1) as (K1 & K2 & K3).
    unfold gm_regression in H. apply bind_ok_inv in H. destruct H as (no & _ & H). apply bind_ok_inv in H. destruct H as ((o & v) & _ & H). injection H as <-.
    unfold state_flat, state_diag, class_f64, gc_n in *. cbn [gc_coef gc_comp gc_par gc_set_out]. rewrite K1, K2, K3. exact D.
  Qed.

  Lemma regression_flat x (h h' : hclass A) : hm_regression (A := A) x h = Ok h' ->
    static h h' /\ h_started (hc_run h') = h_started (hc_run h) /\ h_alpha (hc_run h') = h_alpha (hc_run h) /\ h_buf (hc_run h') = h_buf (hc_run h) /\
    h_inst (hc_run h') = h_inst (hc_run h) /\ h_log (hc_run h') = h_log (hc_run h) /\ h_prog (hc_run h') = h_prog (hc_run h).
  Proof.
    intros H. unfold hm_regression in H. cbv zeta in H. apply bind_ok_inv in H. destruct H as (no & _ & H).
    destruct (hp_est (hc_par h)).
    3: {
    apply bind_ok_inv in H. destruct H as (g & Eg & H). apply bind_ok_inv in H. destruct H as (g2 & Eg2 & H). apply bind_ok_inv in H. destruct H as (ss & Es & H). injection H as <-.
    repeat split. intros F. eapply (Forall_wr _ _ _ _ _ F); [| exact Es]. eapply fire_flat; [exact Eg2 |]. eapply rd_Forall; eauto. }
    all: apply bind_ok_inv in H; destruct H as (((ss & o) & v) & E & H); injection H as <-; repeat split; cbn [hc_net hc_set_run hc_set_net nt_states h_states]; intros F.
    all: apply (iterM_inv_ok (fun _ s => Forall state_flat (fst (fst s)))) in E; [exact E | exact F |].
    all: intros k ((s1 & o1) & z1) s' _ F1 E1; cbn [fst] in F1; apply bind_ok_inv in E1; destruct E1 as (g & Eg & E1); apply bind_ok_inv in E1; destruct E1 as (g2 & Eg2 & E1).
    all: apply bind_ok_inv in E1; destruct E1 as (s2 & Es2 & E1); apply bind_ok_inv in E1; destruct E1 as (ww & _ & E1); apply bind_ok_inv in E1; destruct E1 as ((o2 & v2) & _ & E1); injection E1 as <-; cbn [fst].
    all: eapply Forall_wr; [exact F1 | | exact Es2]; eapply fire_flat; [exact Eg2 |]; eapply rd_Forall; eauto.
  Qed.

  (** A class and its results after something that keeps them. *)
  Definition good (h h' : hclass A) : Prop := static h h' /\ class_flat h' /\ running h' /\ results_ok h'.
  Lemma good_post h h' : class_flat h -> running h -> num_in (bpow radix2 (-790)) (bpow radix2 790) (h_inst (hc_run h)) -> hm_post (A := A) h = Ok h' -> good h h'.
  Proof. intros C R I H. destruct (post_flat h h' C R I H) as (S1 & S2 & S3). split; [exact S1 |]. split; [eapply static_class; [exact C | exact S1 | apply S2] | auto]. Qed.
  Lemma good_regression x h h1 h2 : good h h1 -> hm_regression (A := A) x h1 = Ok h2 -> good h h2.
  Proof.
    intros (S & C & (R1 & R2 & R3) & R) H. destruct (regression_flat x h1 h2 H) as (S' & E1 & E2 & E3 & E4 & E5 & E6).
    split; [eapply static_trans; eauto |]. split; [eapply static_class; [exact C | exact S' | rewrite E3; exact R3] |]. split.
    - split; [congruence |]. split; [| rewrite E3; exact R3]. destruct S' as (_ & P & _). unfold alpha_f64, hc_n in *. rewrite E2, P. exact R2.
    - unfold results_ok in *. rewrite E4, E5, E6. exact R.
  Qed.
  Lemma good_trans h1 h2 h3 : good h1 h2 -> good h2 h3 -> good h1 h3.
  Proof. intros (S1 & _) (S2 & R). split; [eapply static_trans; eauto | exact R]. Qed.

  Lemma filter_flat x (h h' : hclass A) : class_flat h -> (h_started (hc_run h) = true -> running h) -> frame_f64 x -> hm_filter (A := A) x h = Ok h' -> good h h'.
  Proof.
    intros C R Fx H. unfold hm_filter in H. apply bind_ok_inv in H. destruct H as (h1 & E1 & H). apply bind_ok_inv in H. destruct H as (h2 & E2 & H). apply bind_ok_inv in H. destruct H as (h3 & E3 & H).
    destruct (forward_flat x h h1 C R Fx E1) as (S1 & S2 & S3). assert (C1 : class_flat h1) by (eapply static_class; [exact C | exact S1 | apply S2]).
    assert (P : hm_post (A := A) h1 = Ok h3) by (unfold hm_post; rewrite E2; exact E3). assert (G := good_post h1 h3 C1 S2 S3 P).
    assert (G' : good h h3) by (destruct G as (G1 & G2); split; [eapply static_trans; eauto | exact G2]).
    destruct (hc_bim h3); [eapply good_regression; eauto | injection H as <-; exact G'].
  Qed.
End Flat.
