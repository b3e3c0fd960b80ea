(** The output covariances of mixtures with several classes. *)
From Coq Require Import String List Bool Arith ZArith Reals Lra Lia.
From Verif Require Import Base Arith BaseFacts RFacts Model_Map Model_Ring Model_Phrase Model_Gaussian Model_Config Model_GMM
  Proofs_GMM Proofs_Gaussian Proofs_KMeans Proofs_GMM3 Proofs_GMM4 Spec_Common Spec_Matrix Spec_Gaussian Spec_GMM Spec_HMM Spec_OCov Proofs_OCov.
Import ListNotations.
Local Open Scope list_scope.
Local Open Scope R_scope.

Lemma track_ocov : forall g xs h x j, class_track g xs h -> class_ocov h x j = class_ocov g x j.
Proof.
  intros g xs h x j (T1 & T2 & T3 & T4 & T5 & T6 & T7 & T8 & T9 & T10). unfold class_ocov, posterior, mix_lik, weight, comp_at, gc_n. rewrite T5, T6, T7. reflexivity.
Qed.

(** One observation of one class. *)
Lemma filter1_ocov : forall g xs h h' (x : list R), gm_ready g -> (1 <= gc_win g)%nat -> class_track g xs h -> gc_bim g = true -> length x = gc_din g -> gm_filter1 (A := RA) x h = Ok h' ->
  length (gc_ocov h') = csize (gc_mode g) (gc_dim g - gc_din g) /\ forall j, (j < csize (gc_mode g) (gc_dim g - gc_din g))%nat -> nth j (gc_ocov h') 0 = class_ocov g x j.
Proof.
  intros g xs h h' x Rg HW T HB Lx EF. pose proof (track_ready g xs h T Rg) as Rh. pose proof T as (T1 & T2 & T3 & T4 & T5 & T6 & T7 & T8 & T9 & T10).
  assert (N : gc_n h = gc_n g) by (unfold gc_n; rewrite T5; reflexivity). assert (M : gc_mode h = gc_mode g) by (unfold gc_mode; rewrite T5; reflexivity).
  destruct (likelihood_ok h x (gc_win h) (map (fun x => ln (mix_lik g x)) xs) Rh) as (b & buf & E & LB & VB & WB).
  { rewrite T4. exact HW. }
  { unfold obs_dim. rewrite T1, T3, HB. exact Lx. }
  { rewrite T4. exact T10. }
  unfold gm_filter1 in EF. change (num RA) with R in *. rewrite E in EF. cbn [bind] in EF.
  match type of EF with (if gc_bim ?k then _ else _) = _ => set (h1 := k) in * end.
  change (gc_bim h1) with (gc_bim h) in EF. rewrite T1, HB in EF.
  destruct (regression_ocov h1 x) as (o & v & ER & L1 & L2 & V).
  { destruct Rh as ((H1 & H2 & H3 & H4 & H5) & _). split; [exact H1|]. split; [exact H2|]. split; [exact H3|]. split; [exact LB|exact H5]. }
  { exact (proj1 (proj2 Rh)). }
  { change (gc_bim h1) with (gc_bim h). congruence. }
  { change (gc_din h1) with (gc_din h). congruence. }
  { intros c Hc. exact (VB c Hc). }
  rewrite ER in EF. injection EF as <-. change (gc_ocov (gc_set_out (A := RA) o v h1)) with v.
  change (gc_dim h1) with (gc_dim h) in *. change (gc_din h1) with (gc_din h) in *. change (gc_mode h1) with (gc_mode h) in *. rewrite T2, T3, M in *. split; [exact L2|].
  intros j Hj. etransitivity; [exact (V j Hj)|]. exact (track_ocov g xs h x j T).
Qed.

(** Several classes. *)
Lemma mix_outputs_cov : forall mode no (w : list R) (outs : list (list R * list R)), length w = length outs ->
  (forall i, (i < length outs)%nat -> length (fst (nth i outs ([], []))) = no /\ length (snd (nth i outs ([], []))) = csize mode no) ->
  exists o v, mix_outputs (A := RA) mode no w outs = Ok (o, v) /\ length v = csize mode no /\
    forall j, (j < csize mode no)%nat -> nth j v 0 = Rsum (length outs) (fun i => nth i w 0 * nth j (snd (nth i outs ([], []))) 0).
Proof.
  intros mode no w outs Lw Ho. unfold mix_outputs. rewrite n0_RA. change (num RA) with R in *.
  match goal with |- context [iterM (length outs) ?F ?s0] =>
    destruct (iterM_inv (fun c (s : list R * list R) => length (fst s) = no /\ length (snd s) = csize mode no /\
      forall j, (j < csize mode no)%nat -> nth j (snd s) 0 = Rsum c (fun i => nth i w 0 * nth j (snd (nth i outs ([], []))) 0)) (length outs) F s0) as ((o, v) & E & L1 & L2 & V) end.
  - cbn [fst snd]. split; [apply repeat_length|]. split; [destruct mode; apply repeat_length|]. intros d Hd. cbn [Rsum]. apply nth_repeat.
  - intros c (o, v) Hc (L1 & L2 & V). cbn [fst snd] in *. destruct (Ho c Hc) as (LO & LV).
    rewrite (rd_nth outs c ([], [])) by exact Hc. destruct (nth c outs ([], [])) as (yo, yc) eqn:EY. cbn [bind fst snd] in *. rewrite (rd_nth w c 0) by lia. cbn [bind].
    destruct (mix_step mode no (nth c w 0) (nth c w 0) yo yc o v) as (o' & v' & E & L1' & L2' & _ & V2); [lia|lia|exact L1|exact L2|].
    exists (o', v'). split; [exact E|]. cbn [fst snd]. split; [exact L1'|]. split; [exact L2'|]. intros d Hd. rewrite V2, V by exact Hd. cbn [Rsum]. rewrite EY. reflexivity.
  - exists o, v. split; [exact E|]. cbn [fst snd] in *. auto.
Qed.

Lemma bind_inv : forall {X Y} (a : res X) (k : X -> res Y) y, bind a k = Ok y -> exists x, a = Ok x /\ k x = Ok y.
Proof. intros X Y a k y H. destruct a; try discriminate. eexists. split; [reflexivity|exact H]. Qed.

Lemma filter_inv : forall (m m' : gmm RA) x, gm_filter (A := RA) x m = Ok m' -> gm_bim m = true -> (gm_din m <= gm_dim m)%nat ->
  mapM (fun e : string * gclass RA => let* g := gm_filter1 (A := RA) x (snd e) in Ok (fst e, g)) (gm_models m) = Ok (gm_models m') /\
  match gm_est m with
  | Likeliest => exists g, mget String.eqb (gm_models m') (rs_likeliest (gm_res m')) = Some g /\ rs_ocov (gm_res m') = gc_ocov g
  | Mixture => mix_outputs (A := RA) (gm_cmode m) (gm_dim m - gm_din m) (rs_smn (gm_res m')) (map (fun e => (gc_out (snd e), gc_ocov (snd e))) (gm_models m')) = Ok (rs_out (gm_res m'), rs_ocov (gm_res m'))
  end.
Proof.
  intros m m' x H B HD. unfold gm_filter in H. apply bind_inv in H. destruct H as (ms & Em & H). apply bind_inv in H. destruct H as (r & Er & H). cbv zeta in H. cbn [gm_bim gm_set] in H. rewrite B in H. cbn [negb] in H.
  apply bind_inv in H. destruct H as (no & Eno & H). cbn [gm_est gm_set gm_dim gm_din gm_cmode] in *. unfold usub in Eno. apply Nat.leb_le in HD. rewrite HD in Eno. injection Eno as <-. destruct (gm_est m).
  - destruct (mget _ _ _) as [g |] eqn:G; [| discriminate]. injection H as <-. cbn [gm_models gm_res gm_set rs_likeliest rs_ocov]. split; [exact Em|]. exists g. split; [exact G|reflexivity].
  - apply bind_inv in H. destruct H as ((o & c) & Eo & H). injection H as <-. cbn [gm_models gm_res gm_set rs_smn rs_out rs_ocov]. split; [exact Em|exact Eo].
Qed.

Lemma mapM_at : forall {X Y} (f : X -> res Y) l l', mapM f l = Ok l' -> forall i dx dy, (i < length l)%nat -> f (nth i l dx) = Ok (nth i l' dy).
Proof.
  induction l as [|x l IH]; intros l' E i dx dy Hi; [cbn in Hi; lia|]. cbn [mapM] in E. apply bind_inv in E. destruct E as (y & Ey & E). apply bind_inv in E. destruct E as (t & Et & E). injection E as <-.
  destruct i; cbn [nth]; [exact Ey|]. apply IH; [exact Et|cbn in Hi; lia].
Qed.

(** The covariances of the classes and of the model after any observations. *)
Lemma filters_gcov : forall (m : gmm RA) xs x, model_usable m -> gm_bim m = true -> Forall (fun x => length x = gm_din m) (xs ++ [x]) ->
  exists m0 m', gm_reset m = Ok m0 /\ foldM (fun m x => gm_filter (A := RA) x m) (xs ++ [x]) m0 = Ok m' /\ model_report m xs x (gm_res m') /\
    (forall i, (i < length (gm_models m))%nat -> fst (nth i (gm_models m') no_class) = label_at m i /\
      forall j, (j < csize (gc_mode (class_at m i)) (gm_dim m - gm_din m))%nat -> nth j (gc_ocov (class_at m' i)) 0 = class_ocov (class_at m i) x j) /\
    match gm_est m with
    | Likeliest => forall b, (b < length (gm_models m))%nat -> rs_likeliest (gm_res m') = label_at m b -> rs_ocov (gm_res m') = gc_ocov (class_at m' b) /\ length (rs_ocov (gm_res m')) = csize (gc_mode (class_at m b)) (gm_dim m - gm_din m)
    | Mixture => length (rs_ocov (gm_res m')) = csize (gm_cmode m) (gm_dim m - gm_din m) /\
        forall j, (j < csize (gm_cmode m) (gm_dim m - gm_din m))%nat -> nth j (rs_ocov (gm_res m')) 0 = Rsum (length (gm_models m)) (fun i => nth i (rs_smn (gm_res m')) 0 * class_ocov (class_at m i) x j)
    end.
Proof.
  intros m xs x U B F. assert (F' := F). apply Forall_app in F'. destruct F' as (F1 & F2). pose proof (Forall_inv F2) as Lx. cbv beta in Lx.
  assert (FO : forall l : list (list R), Forall (fun x => length x = gm_din m) l -> Forall (fun x => length x = model_obs_dim m) l) by (intros l; unfold model_obs_dim; rewrite B; auto).
  destruct (gm_filters_ok m xs U (FO _ F1)) as (m0 & m1 & E0 & E1 & T & _).
  destruct (gm_filter_ok m xs m1 x U T) as (m2 & E2 & T2 & RP); [unfold model_obs_dim; rewrite B; exact Lx|].
  exists m0, m2. split; [exact E0|]. split; [rewrite (foldM_snoc _ _ _ _ _ E1); exact E2|]. split; [exact RP|].
  pose proof (usable_dims m U B) as HD. pose proof T as (S1 & S2 & S3 & S4 & S5 & SF & _). pose proof T2 as (_ & _ & _ & _ & _ & SF2 & SS).
  destruct (filter_inv m1 m2 x E2) as (EM & EO); [congruence|lia|]. rewrite S2, S3, S4, S5 in EO. pose proof U as (NE & ND & FC). set (n := length (gm_models m)) in *.
  assert (L1 : length (gm_models m1) = n) by (symmetry; eapply Proofs_KMeans.Forall2_len; exact SF). assert (L2 : length (gm_models m2) = n) by (symmetry; eapply Proofs_KMeans.Forall2_len; exact SF2).
  assert (CL : forall i, (i < n)%nat -> fst (nth i (gm_models m2) no_class) = label_at m i /\ length (gc_ocov (class_at m2 i)) = csize (gc_mode (class_at m i)) (gm_dim m - gm_din m) /\
      forall j, (j < csize (gc_mode (class_at m i)) (gm_dim m - gm_din m))%nat -> nth j (gc_ocov (class_at m2 i)) 0 = class_ocov (class_at m i) x j).
  { intros i Hi. split; [exact (proj1 (Forall2_at _ _ _ SF2 i no_class no_class Hi))|]. destruct (Forall2_at _ _ _ SF i no_class no_class Hi) as (_ & CT).
    rewrite Forall_forall in FC. destruct (FC (nth i (gm_models m) no_class)) as ((Rg & HW & _) & C1 & C2 & C3 & _); [apply nth_In; exact Hi|].
    pose proof (mapM_at _ _ _ EM i no_class no_class ltac:(lia)) as Ei. apply bind_inv in Ei. destruct Ei as (g & Eg & Ei). injection Ei as Ei.
    destruct (filter1_ocov _ xs _ g x Rg HW CT) as (Q1 & Q2); [exact (eq_trans C1 B)|exact (eq_trans Lx (eq_sym C3))|exact Eg|]. rewrite C2, C3 in *. unfold class_at. change (num RA) with R in *. rewrite <- Ei. split; [exact Q1|exact Q2]. }
  split; [intros i Hi; destruct (CL i Hi) as (A1 & _ & A3); split; [exact A1|exact A3]|].
  destruct (gm_est m) eqn:EST.
  - intros b Hb LB. destruct EO as (g & G & ->). rewrite LB in G. rewrite <- (proj1 (CL b Hb)) in G.
    assert (EL : map fst (gm_models m2) = map fst (gm_models m)).
    { apply (nth_ext_len _ _ EmptyString); [rewrite !map_length; exact L2|]. intros i Hi. rewrite map_length in Hi. rewrite !(nth_map_in fst _ i _ no_class) by (first [exact Hi|unfold n in *; lia]). apply CL. lia. }
    rewrite (mget_nth _ b no_class) in G; [|rewrite EL; exact ND|lia]. injection G as <-. split; [reflexivity|]. apply CL. exact Hb.
  - assert (MD : forall i, (i < n)%nat -> gc_mode (class_at m i) = gm_cmode m /\ length (gc_out (class_at m2 i)) = (gm_dim m - gm_din m)%nat).
    { intros i Hi. rewrite Forall_forall in FC. destruct (FC (nth i (gm_models m) no_class)) as ((Rg & HW & _) & C1 & C2 & C3 & C4); [apply nth_In; exact Hi|]. split; [exact (C4 B EST)|].
      destruct (Forall2_at _ _ _ SF i no_class no_class Hi) as (_ & CT). pose proof (mapM_at _ _ _ EM i no_class no_class ltac:(lia)) as Ei. apply bind_inv in Ei. destruct Ei as (g & Eg & Ei). injection Ei as Ei.
      destruct (filter1_ok _ xs _ x Rg HW CT) as (g2 & E3 & _ & (_ & _ & _ & CO)); [unfold obs_dim; rewrite C1, B; exact (eq_trans Lx (eq_sym C3))|]. assert (Q : Ok g = Ok g2) by (rewrite <- Eg; exact E3). injection Q as <-.
      destruct (CO ltac:(congruence)) as (LO & _). rewrite C2, C3 in LO. unfold class_at. change (num RA) with R in *. rewrite <- Ei. exact LO. }
    match type of EO with mix_outputs _ _ ?w ?outs = _ => destruct (mix_outputs_cov (gm_cmode m) (gm_dim m - gm_din m) w outs) as (o & v & E & LV & V) end.
    { rewrite map_length. destruct SS as (_ & _ & _ & SS & _). fold n in SS. change (num RA) with R in *. lia. }
    { intros i Hi. rewrite map_length in Hi. change (num RA) with R in *. rewrite (nth_map_in _ _ i _ no_class) by exact Hi. cbn [fst snd]. rewrite L2 in Hi. destruct (MD i Hi) as (M1 & M2). destruct (CL i Hi) as (_ & A2 & _). rewrite M1 in A2. split; [exact M2|exact A2]. }
    rewrite EO in E. injection E as Eo Ev. rewrite Ev. split; [exact LV|]. intros j Hj. rewrite (V j Hj). rewrite map_length. change (num RA) with R in *. rewrite L2. apply Rsum_ext. intros i Hi. f_equal.
    rewrite (nth_map_in _ _ i _ no_class) by (change (num RA) with R in *; lia). cbn [fst snd]. destruct (MD i Hi) as (M1 & _). destruct (CL i Hi) as (_ & _ & A3). rewrite M1 in A3. exact (A3 j Hj).
Qed.
