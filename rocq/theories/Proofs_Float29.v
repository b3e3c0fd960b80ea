(** Regression with trained mixtures of doubles. *)
From Coq Require Import String ZArith QArith Reals Lra Lia Bool List Arith.
From Coq Require Import Floats.SpecFloat.
From Flocq Require Import Core.Core.
From Verif Require Import Base BaseFacts Arith Spec_Float Spec_Float2 Spec_Float3 Spec_Float5 Spec_Float6 Proofs_Float4 Proofs_Float7 Proofs_Float20 Proofs_Float21 Proofs_Float24 Proofs_Float25 Proofs_Float26 Proofs_Float27 Proofs_Float28.
From Verif Require Import Model_Map Model_Ring Model_Phrase Model_Gaussian Model_Config Model_KMeans Model_GMM Model_Single Model_Single2 Model_Single3.
Import ListNotations.
Local Open Scope R_scope.

Section Trained.
  Variables fexp fln : f64 -> f64.
  Hypothesis LM : libm_f64 fexp fln.
  Local Notation A := (FA fexp fln).

  Definition same_shape (k s : gauss A) : Prop := g_mode s = g_mode k /\ g_bim s = g_bim k /\ g_dim s = g_dim k /\ g_din s = g_din k /\ g_cov s = g_cov k.
  Lemma inverse_out (k k' : gauss A) : g_mode k = Diagonal -> g_bim k = true -> runm (g_update_inv (A := A)) k = Ok k' ->
    same_shape k k' /\ forall d, (g_din k + d < g_dim k)%nat -> ent (g_out k') d = ent (g_cov k) (g_din k + d).
  Proof.
    intros M Bi H. unfold runm in H. destruct (g_update_inv k) as [s r] eqn:E. destruct r as [u | |]; try discriminate. injection H as <-.
    unfold g_update_inv in E. unfold sbind at 1, sget at 1 in E. rewrite M in E. unfold sbind at 1 in E.
    match type of E with (let (_, _) := ?m k in _) = _ => destruct (m k) as [s1 r] eqn:E1 end. destruct r as [u1 | |]; try discriminate.
    assert (I : same_shape k s1).
    { clear E. unfold sbind at 1, smod at 1 in E1. unfold sbind at 1, smod at 1 in E1. cbv beta in E1.
      refine (foreach_inv (fun _ => same_shape k) _ (g_dim k) 0 _ s1 u1 _ _ E1).
      - repeat split.
      - intros i t t' v _ I Q. unfold sbind at 1, sget in Q. unfold sbind at 1, slift at 1 in Q.
        destruct (rd (g_cov t) i) as [c | |]; try discriminate. destruct (nleb _ _); [discriminate |].
        unfold sbind at 1, slift at 1 in Q. destruct (wr (g_inv t) i _) as [w | |]; try discriminate. unfold sbind at 1, smod at 1 in Q. unfold sbind at 1, smod at 1 in Q.
        destruct (g_bim _ && _)%bool.
        + cbn [swhen] in Q. unfold sbind at 1, slift at 1 in Q. destruct (wr (g_inv_in t) i _) as [w2 | |]; try discriminate. unfold sbind at 1, smod in Q. injection Q as <- _. exact I.
        + cbn [swhen] in Q. injection Q as <- _. exact I. }
    destruct I as (I1 & I2 & I3 & I4 & I5). rewrite Bi in E. cbn [swhen] in E. unfold g_update_out in E. unfold sbind at 1, sget at 1 in E. rewrite I2, Bi in E. cbn [negb] in E.
    unfold sbind at 1, slift at 1 in E. rewrite I1, M, I3, I4, I5 in E. destruct (usub (g_dim k) (g_din k)) as [no | |] eqn:Eno; try discriminate.
    unfold sbind at 1, slift at 1 in E. match type of E with context [iterM ?a ?b ?c] => destruct (iterM a b c) as [o | |] eqn:Ei end; try discriminate. injection E as <- _. split; [repeat split; cbn; assumption |].
    intros d Hd. unfold usub in Eno. destruct (Nat.leb_spec (g_din k) (g_dim k)); [| discriminate]. injection Eno as <-.
    destruct (fill_spec _ (fun i => rd (g_cov k) (g_din k + i)) (fun v => v) _ o (S754_zero false) Ei) as (_ & Q). destruct (Q d ltac:(lia)) as (v & Ev & En).
    cbn [g_out g_set_out]. exact (eq_trans En (eq_sym (proj1 (rd_nth _ _ _ _ Ev)))).
  Qed.

  Lemma update_shape (g g' : gclass A) frames lp : gm_update_with (A := A) as_single frames g = Ok (g', lp) -> reg_shape g ->
    gc_bim g' = gc_bim g /\ gc_dim g' = gc_dim g /\ gc_din g' = gc_din g /\ gc_par g' = gc_par g /\ reg_shape g' /\
    Forall (fun k : gauss A => forall d, (g_din k + d < g_dim k)%nat -> ent (g_out k) d = ent (g_cov k) (g_din k + d)) (gc_comp g').
  Proof.
    intros H Hs. unfold gm_update_with in H. apply bind_ok_inv in H. destruct H as (((ps & E) & lp') & _ & H). apply bind_ok_inv in H. destruct H as (cs1 & E1 & H). apply bind_ok_inv in H. destruct H as (cs2 & E2 & H). cbv zeta in H.
    apply bind_ok_inv in H. destruct H as (g1 & E3 & H). apply bind_ok_inv in H. destruct H as (g2 & E4 & H). injection H as <- _.
    set (P := fun k : gauss A => g_mode k = Diagonal /\ g_bim k = true /\ g_dim k = gc_dim g /\ g_din k = gc_din g).
    assert (F1 : Forall P cs1).
    { apply Forall_forall. intros k I. destruct (In_nth_error _ _ I) as (c & Ec). destruct (tabM_each _ _ _ _ _ E1 Ec) as (_ & Q). apply bind_ok_inv in Q. destruct Q as (k0 & Ek & Q). apply bind_ok_inv in Q. destruct Q as (e & _ & Q). apply bind_ok_inv in Q. destruct Q as (m & _ & Q). injection Q as <-.
      exact (rd_Forall P _ _ _ Hs Ek). }
    assert (F2 : Forall P cs2).
    { apply Forall_forall. intros k I. destruct (In_nth_error _ _ I) as (c & Ec). destruct (tabM_each _ _ _ _ _ E2 Ec) as (_ & Q). apply bind_ok_inv in Q. destruct Q as (k0 & Ek & Q). apply bind_ok_inv in Q. destruct Q as (e & _ & Q). cbv zeta in Q. apply bind_ok_inv in Q. destruct Q as (m & _ & Q). injection Q as <-.
      exact (rd_Forall P _ _ _ F1 Ek). }
    unfold gm_offset in E3. apply bind_ok_inv in E3. destruct E3 as (cs3 & E3 & Q). injection Q as <-. cbn [gc_comp gc_set_comp gc_set_coef gc_reg] in E3.
    assert (F3 : Forall P cs3).
    { refine (mapM_Forall P P _ _ _ E3 F2 _). intros k k' Pk Q. unfold runm in Q. destruct (g_regularize _ k) as [s r] eqn:Er. destruct r; try discriminate. injection Q as <-.
      unfold g_regularize in Er. unfold sbind at 1, sget at 1 in Er. unfold sbind at 1, slift at 1 in Er. match type of Er with context [iterM ?a ?b ?c] => destruct (iterM a b c) as [o | |] end; try discriminate. injection Er as <- _. exact Pk. }
    unfold gm_inverses in E4. apply bind_ok_inv in E4. destruct E4 as (cs4 & E4 & Q). injection Q as <-. cbn [gc_comp gc_set_comp gc_set_coef] in E4.
    assert (E5 : mapM (runm g_update_inv) cs3 = Ok cs4) by (unfold rethrow in E4; destruct (mapM (runm g_update_inv) cs3); [exact E4 | discriminate..]).
    split; [reflexivity |]. split; [reflexivity |]. split; [reflexivity |]. split; [reflexivity |]. cbn [gc_comp gc_set_comp gc_dim gc_din].
    assert (F4 : Forall (fun k : gauss A => P k /\ forall d, (g_din k + d < g_dim k)%nat -> ent (g_out k) d = ent (g_cov k) (g_din k + d)) cs4).
    { refine (mapM_Forall P _ _ _ _ E5 F3 _). intros k k' (P1 & P2 & P3 & P4) Q. destruct (inverse_out k k' P1 P2 Q) as ((S1 & S2 & S3 & S4 & S5) & O). unfold P. rewrite S1, S2, S3, S4, S5. auto 10. }
    split; (eapply Forall_impl; [| exact F4]); intros k (Pk & Ok'); [exact Pk | exact Ok'].
  Qed.

  Lemma updates_shape frames : forall n (g g' : gclass A), gm_updates_with (A := A) as_single n frames g = Ok g' -> reg_shape g -> reg_shape g' /\ gc_bim g' = gc_bim g /\ gc_dim g' = gc_dim g /\ gc_din g' = gc_din g.
  Proof.
    induction n as [| n IH]; intros g g' H Hs; cbn [gm_updates_with] in H; [injection H as <-; auto |]. apply bind_ok_inv in H. destruct H as ((g1 & lp) & E & H).
    destruct (update_shape g g1 frames lp E Hs) as (B1 & B2 & B3 & _ & B4 & _). destruct (IH g1 g' H B4) as (C1 & C2 & C3 & C4). split; [exact C1 |]. split; [congruence |]. split; congruence.
  Qed.

  (** Sequences of frames with one class. *)
  Lemma class_seq xs x (g g' : gclass A) : class_diag g -> Forall frame_f64 (xs ++ [x]) -> foldM (fun g x => gm_filter1_with (A := A) as_single x g) (xs ++ [x]) g = Ok g' ->
    exists g0, class_diag g0 /\ frame_f64 x /\ kept fexp fln g g0 /\ gm_filter1_with (A := A) as_single x g0 = Ok g'.
  Proof.
    intros D F H. apply foldM_snoc in H. destruct H as (g0 & E & H). apply Forall_app in F. destruct F as (F1 & F2). inversion F2; subst. exists g0.
    apply (foldM_keeps _ (fun t => class_diag t /\ kept fexp fln g t) frame_f64) in E; [tauto | | split; [exact D | repeat split] | exact F1].
    intros s y s' (P1 & P2) Q Es. destruct (filter1_with_step fexp fln LM y s s' P1 Q Es) as (R1 & _ & R2 & _). split; [exact R1 |].
    destruct P2 as (K1 & K2 & K3 & K4 & K5 & K6). destruct R2 as (L1 & L2 & L3 & L4 & L5 & L6). unfold kept. rewrite L1, L2, L3, L4, L5, L6. auto 10.
  Qed.
  Lemma mapM_nth {X Y} (f : X -> res Y) : forall l l' i x, mapM f l = Ok l' -> nth_error l i = Some x -> exists y, f x = Ok y /\ nth_error l' i = Some y.
  Proof.
    induction l as [| a l IH]; intros l' i x E H; [destruct i; discriminate |]. cbn in E. apply bind_ok_inv in E. destruct E as (b & Eb & E). apply bind_ok_inv in E. destruct E as (bs & Ebs & E). injection E as <-.
    destruct i as [| i]; [injection H as <-; now exists b | exact (IH bs i x Ebs H)].
  Qed.
  Lemma either {X} (P : X -> Prop) : forall (l : list X) (Q : nat -> X -> Prop), (forall c k, nth_error l c = Some k -> P k \/ Q c k) -> Forall P l \/ exists c k, nth_error l c = Some k /\ Q c k.
  Proof.
    induction l as [| a l IH]; intros Q H; [now left |]. destruct (H 0%nat a eq_refl) as [Pa | Qa]; [| right; now exists 0%nat, a].
    destruct (IH (fun c => Q (S c)) (fun c k => H (S c) k)) as [F | (c & k & N & Qk)]; [left; now constructor | right; now exists (S c), k].
  Qed.
  (** The trained class, after any frames. *)
  Lemma trained_out b d (g g' g'' : gclass A) frames n xs x : (0 <= b <= 48)%Z -> class_em g -> reg_shape g -> gc_bim g = true -> window_empty (gc_buf g) -> (Z.of_nat (gc_n g) <= 2 ^ 20)%Z -> (gc_din g + d < gc_dim g)%nat ->
    frames_in b frames -> reg_in b (gc_dim g) (gc_reg g) -> (1 <= length frames)%nat -> (Z.of_nat (length frames) <= 2 ^ 32)%Z ->
    gm_updates_with (A := A) as_single (S n) frames g = Ok g' -> Forall frame_f64 (xs ++ [x]) -> foldM (fun g x => gm_filter1_with (A := A) as_single x g) (xs ++ [x]) g' = Ok g'' ->
    (exists c k, nth_error (gc_comp g') c = Some k /\ dead (gc_dim g) k /\ fval (ent (gc_coef g') c) = 0 /\ ent (gc_out g'') d = S754_nan) \/
    (Forall (sound b (gc_dim g) (gc_reg g)) (gc_comp g') /\ near (- bpow radix2 b) (bpow radix2 b) (INR (gc_n g) * bpow radix2 (b - 20)) (ent (gc_out g'') d) /\
     num_in 0 (bpow radix2 (2 * b + 3) + INR (gc_n g) * bpow radix2 (2 * b + 3 - 20)) (ent (gc_ocov g'') d)).
  Proof.
    intros Hb Hg Hs Bi Wi N1 Hd Hf Hr H1 H2 H Hx Hq. destruct (updates_last fexp fln frames n g g' H) as (g1 & lp & E1 & E2). assert (Ff := frames_f64 b frames Hf).
    destruct (updates_class fexp fln LM frames Ff H1 H2 n g g1 Hg E1) as (C1 & _ & P1 & D1 & R1 & B1). destruct (updates_shape frames n g g1 E1 Hs) as (S1 & S2 & _ & S4).
    assert (Hr1 : reg_in b (gc_dim g1) (gc_reg g1)) by (rewrite D1, R1; exact Hr).
    destruct (update_comps fexp fln LM b g1 g' frames lp ltac:(lia) C1 Hf Hr1 H1 H2 E2) as (L & Q). destruct (update_class fexp fln LM g1 g' frames lp C1 Ff H1 H2 E2) as (C2 & _ & _ & P2 & D2 & R2 & B2).
    destruct (update_shape g1 g' frames lp E2 S1) as (T1 & _ & T3 & _ & T4 & T5). rewrite D1, R1 in Q.
    assert (Nn : gc_n g' = gc_n g) by (unfold gc_n; now rewrite P2, P1). assert (Mm : gc_mode g' = Diagonal) by apply C2.
    assert (Db : class_diag g') by (apply em_diag; [exact C2 | rewrite B2, B1; exact Wi]).
    destruct (class_seq xs x g' g'' Db Hx Hq) as (g0 & D0 & Fx & (K1 & K2 & K3 & K4 & K5 & K6) & Eq). clear Hq. rewrite T1, S2, Bi in K1. rewrite D2, D1 in K2. rewrite T3, S4 in K3. assert (Nn0 : gc_n g0 = gc_n g) by (unfold gc_n in *; rewrite K4; exact Nn).
    assert (Hd0 : (gc_din g0 + d < gc_dim g0)%nat) by (rewrite K2, K3; exact Hd).
    destruct (either (sound b (gc_dim g) (gc_reg g)) (gc_comp g') (fun c k => dead (gc_dim g) k /\ fval (ent (gc_coef g') c) = 0) (fun c k Nc => proj1 (Q c k Nc))) as [Fs | (c & k & Nc & Dk & Wz)].
    - right. split; [exact Fs |]. split.
      + rewrite <- Nn0. apply (class_out fexp fln LM b _ _ d x g0 g'' ltac:(lia)); try assumption; [rewrite Nn0; exact N1 | | split; lra].
        unfold means_in. rewrite K6, K3. apply Forall_forall. intros k I. destruct (proj1 (Forall_forall _ _) T4 k I) as (_ & _ & _ & G). split; [rewrite G, T3; exact S4 |]. apply (proj1 (Forall_forall _ _) Fs k I). exact Hd.
      + rewrite <- Nn0. apply (class_cov fexp fln LM (2 * b + 3) _ d x g0 g'' ltac:(lia)); try assumption; [rewrite Nn0; exact N1 | | lra].
        split; [unfold gc_mode in *; now rewrite K4 |]. rewrite K6. apply Forall_forall. intros k I. destruct (proj1 (Forall_forall _ _) T4 k I) as (_ & _ & G1 & G). rewrite T3, S4 in G. rewrite D2, D1 in G1.
        assert (O := proj1 (Forall_forall _ _) T5 k I d ltac:(rewrite G, G1; exact Hd)). rewrite G in O. apply (eq_ind_r (fun v => num_in 0 _ v)) with (2 := O).
        destruct (proj1 (Forall_forall _ _) Fs k I _ Hd) as (_ & (V1 & V2 & V3 & V4) & _). split; [exact V1 |]. split; [exact V2 |]. split; [| exact V4].
        destruct (Hr _ Hd) as (_ & _ & X & _). assert (Y := bpow_ge_0 radix2 (-1000)). lra.
    - left. exists c, k. split; [exact Nc |]. split; [exact Dk |]. split; [exact Wz |].
      assert (I := nth_error_In _ _ Nc). destruct (proj1 (Forall_forall _ _) T4 k I) as (_ & _ & _ & G). rewrite T3, S4 in G.
      assert (Lc : (c < gc_n g)%nat) by (replace (gc_n g) with (gc_n g1) by (unfold gc_n; now rewrite P1); rewrite <- L; apply nth_error_Some; congruence).
      refine (class_nan fexp fln d x g0 g'' c k (diag_modes fexp fln g0 D0) K1 Eq Hd0 _ _ _); [rewrite Nn0; exact Lc | rewrite K6; exact Nc | rewrite G; apply Dk; exact Hd].
  Qed.

  (** A class without an output spoils the outputs of the Mixture estimator. *)
  Lemma mixture_nan d x (m m' : gmm A) e c k : gm_est m = Mixture -> gm_bim m = true -> Forall (fun e : string * gclass A => Forall (fun k : gauss A => g_mode k = Diagonal) (gc_comp (snd e))) (gm_models m) ->
    gm_filter_with (A := A) as_single x m = Ok m' -> (gm_din m + d < gm_dim m)%nat -> In e (gm_models m) -> regresses m (snd e) -> (c < gc_n (snd e))%nat -> nth_error (gc_comp (snd e)) c = Some k ->
    ent (g_mean k) (g_din k + d) = S754_nan -> ent (rs_out (gm_res m')) d = S754_nan.
  Proof.
    intros Es Bi Fm H Hd I (R1 & R2 & R3) Hc Nk En. destruct (filter_with_inv fexp fln m m' x H) as (r & _ & Em & _ & _ & _ & _ & _ & _ & X). destruct (X Bi) as (no & Eno & Y). rewrite Es in Y.
    unfold usub in Eno. destruct (Nat.leb_spec (gm_din m) (gm_dim m)) as [L | L]; [| discriminate]. injection Eno as <-.
    destruct (In_nth_error _ _ I) as (i & Ni). destruct (mapM_nth _ _ _ _ _ Em Ni) as (e' & Ee & Ne'). apply bind_ok_inv in Ee. destruct Ee as (g' & Eg & Ee). injection Ee as <-.
    assert (Out : ent (gc_out g') d = S754_nan).
    { refine (class_nan fexp fln d x (snd e) g' c k _ R1 Eg _ Hc Nk En); [exact (proj1 (Forall_forall _ _) Fm e I) | rewrite R2, R3; exact Hd]. }
    destruct (mix_out fexp fln _ _ _ _ _ _ Y d ltac:(lia)) as (o & _ & On & Os). rewrite <- On. set (outs := map _ (gm_models m')) in *.
    assert (Ni' : nth_error outs i = Some (gc_out g', gc_ocov g')) by (unfold outs; rewrite nth_error_map, Ne'; reflexivity).
    assert (Li : (i < length outs)%nat) by (apply nth_error_Some; congruence). match goal with |- o ?n = _ => change (i < n)%nat in Li; set (N := n) in * end.
    assert (G : forall j, (i < j <= N)%nat -> o j = S754_nan).
    { induction j as [| j IH]; intros Hj; [lia |]. destruct (Os j ltac:(lia)) as (p & Np & ->). destruct (Nat.eq_dec j i) as [-> | Dj].
      - assert (Ep : Some p = Some (gc_out g', gc_ocov g')) by exact (eq_trans (eq_sym Np) Ni'). injection Ep as ->. cbn [fst]. rewrite Out. unfold fma1. replace (SFmul fprec femax (ent (rs_smn r) i) S754_nan) with S754_nan by (destruct (ent (rs_smn r) i); reflexivity). now destruct (o i).
      - rewrite IH by lia. reflexivity. }
    apply G. lia.
  Qed.
End Trained.
