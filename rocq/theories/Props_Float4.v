(** C98: training of Gaussian mixtures in double precision. *)
From Coq Require Import String ZArith QArith Reals Lra Lia Bool List Arith.
From Coq Require Import Floats.SpecFloat.
From Flocq Require Import Core.Core.
From Verif Require Import Base BaseFacts Arith Model_Ring Model_Gaussian Model_Config Model_KMeans Model_GMM Model_Single Model_Single2 Spec_Float Spec_Float2 Spec_Float3 Spec_Float5.
From Verif Require Import Proofs_Float4 Proofs_Float24 Proofs_Float25 Props_Float.
Import ListNotations.
Local Open Scope R_scope.

(** An EM update with Diagonal covariances, on frames of any doubles: the class has doubles in all its members, no
    inverse variance is negative, the weights are numbers between 0 and 1 that sum to 1 up to rounding, and the
    log-likelihood is a number. *)
Theorem C98_update : forall fexp fln (g g' : gclass (FA fexp fln)) frames lp, libm_f64 fexp fln -> class_em g -> Forall frame_f64 frames ->
  (1 <= length frames)%nat -> (Z.of_nat (length frames) <= 2 ^ 32)%Z -> gm_update_with (A := FA fexp fln) as_single frames g = Ok (g', lp) ->
  class_em g' /\ weights_total g' /\ num_in (- (600 * INR (length frames))) (600 * INR (length frames)) lp.
Proof. intros fexp fln g g' frames lp LM Hg Hf H1 H2 H. destruct (update_class fexp fln LM g g' frames lp Hg Hf H1 H2 H) as (C & W & L & _). auto. Qed.
Print Assumptions C98_update.

(** The same from the allocation of the class: initialisation with K-Means, then any number of updates. *)
Theorem C98_training : forall fexp fln (g0 g1 g2 g3 : gclass (FA fexp fln)) (data : kdata (FA fexp fln)) dev k, libm_f64 fexp fln ->
  gc_mode g0 = Diagonal -> (1 <= gc_n g0)%nat -> (Z.of_nat (gc_n g0) < 2 ^ 32)%Z -> is_f64 (gp_abs (gc_par g0)) -> is_f64 (gp_rel (gc_par g0)) ->
  Forall is_f64 dev -> Forall (Forall frame_f64) data -> (1 <= length (concat data))%nat -> (Z.of_nat (length (concat data)) <= 2 ^ 32)%Z ->
  gm_allocate (A := FA fexp fln) g0 = Ok g1 -> gm_init_with (A := FA fexp fln) mul_single data dev g1 = Ok g2 -> gm_updates_with (A := FA fexp fln) as_single k (concat data) g2 = Ok g3 ->
  class_em g3 /\ weights_total g3 /\ gc_reg g3 = map (fun s => nmax (A := FA fexp fln) (gp_abs (gc_par g0)) (SFmul fprec femax (gp_rel (gc_par g0)) s)) dev.
Proof.
  intros fexp fln g0 g1 g2 g3 data dev k LM M N1 N2 Va Vr Vd Hd H1 H2 E1 E2 E3. destruct (allocate_raw fexp fln g0 g1 M E1) as (R & P1 & D1 & _).
  assert (Q : gc_n g1 = gc_n g0) by (unfold gm_allocate in E1; apply bind_ok_inv in E1; destruct E1 as (c & _ & E1); injection E1 as <-; reflexivity).
  destruct (init_ok fexp fln g1 g2 data dev R) as (C & W & P2 & D2 & _ & Er); try (rewrite ?Q, ?P1; assumption).
  assert (Fc : Forall frame_f64 (concat data)) by (apply Forall_concat; exact Hd).
  destruct (updates_class fexp fln LM (concat data) Fc H1 H2 k g2 g3 C E3) as (C' & W' & P3 & D3 & R3 & _). split; [exact C' |]. split; [apply W'; now right |].
  rewrite R3, Er, P1. reflexivity.
Qed.
Print Assumptions C98_training.

(** With values of at most [2^b] and a usable regularisation, a component has numbers in all its members, within
    bounds that do not depend on the number of frames or on the class before the update; or its weight is zero
    and it has no mean.  In that case the next update gives it a mean and a weight again. *)
Theorem C98_components : forall fexp fln b (g g' : gclass (FA fexp fln)) frames k, libm_f64 fexp fln -> (0 <= b <= 100)%Z -> class_em g -> frames_in b frames -> reg_in b (gc_dim g) (gc_reg g) ->
  (1 <= length frames)%nat -> (Z.of_nat (length frames) <= 2 ^ 32)%Z -> gm_updates_with (A := FA fexp fln) as_single (S k) frames g = Ok g' ->
  length (gc_comp g') = gc_n g /\
  forall c comp, nth_error (gc_comp g') c = Some comp ->
    (sound b (gc_dim g) (gc_reg g) comp \/ (dead (gc_dim g) comp /\ fval (ent (gc_coef g') c) = 0)) /\
    (forall g'' lp comp', fval (ent (gc_coef g') c) = 0 -> gm_update_with (A := FA fexp fln) as_single frames g' = Ok (g'', lp) -> nth_error (gc_comp g'') c = Some comp' ->
       sound b (gc_dim g) (gc_reg g) comp' /\ bpow radix2 (-936) <= fval (ent (gc_coef g'') c)).
Proof.
  intros fexp fln b g g' frames k LM Hb Hg Hf Hr H1 H2 H. destruct (updates_last fexp fln frames k g g' H) as (g1 & lp & E1 & E2). assert (Ff := frames_f64 b frames Hf).
  destruct (updates_class fexp fln LM frames Ff H1 H2 k g g1 Hg E1) as (C1 & _ & P1 & D1 & R1 & _).
  assert (Hr1 : reg_in b (gc_dim g1) (gc_reg g1)) by (rewrite D1, R1; exact Hr).
  destruct (update_comps fexp fln LM b g1 g' frames lp Hb C1 Hf Hr1 H1 H2 E2) as (L & Q). destruct (update_class fexp fln LM g1 g' frames lp C1 Ff H1 H2 E2) as (C2 & _ & _ & P2 & D2 & R2 & _).
  assert (N1 : gc_n g1 = gc_n g) by (unfold gc_n; rewrite P1; reflexivity). rewrite D1, R1 in Q. split; [congruence |]. intros c comp Nc. split; [apply (Q c comp Nc) |].
  intros g'' lp2 comp' Wz E3 Nc'. assert (Hr2 : reg_in b (gc_dim g') (gc_reg g')) by (rewrite D2, R2; exact Hr1).
  destruct (update_comps fexp fln LM b g' g'' frames lp2 Hb C2 Hf Hr2 H1 H2 E3) as (_ & Q2). destruct (Q2 c comp' Nc') as (_ & X). rewrite D2, R2, D1, R1 in X. exact (X Wz).
Qed.
Print Assumptions C98_components.

(** Recognition with trained classes (C94): the posteriors are right after any frames of any doubles. *)
Theorem C98_recognition : forall fexp fln (m m' : gmm (FA fexp fln)) xs x, libm_f64 fexp fln -> (1 <= length (gm_models m))%nat -> (Z.of_nat (length (gm_models m)) < 2 ^ 32)%Z ->
  Forall (fun e => exists g frames k, class_em g /\ window_empty (gc_buf g) /\ Forall frame_f64 frames /\ (1 <= length frames)%nat /\ (Z.of_nat (length frames) <= 2 ^ 32)%Z /\
    gm_updates_with (A := FA fexp fln) as_single k frames g = Ok (snd e)) (gm_models m) ->
  Forall frame_f64 (xs ++ [x]) -> foldM (fun m x => gm_filter (A := FA fexp fln) x m) (xs ++ [x]) m = Ok m' ->
  let n := length (gm_models m) in let r := gm_res m' in
  parts_f64 n (ent (rs_inst r)) (ent (rs_instn r)) /\ parts_f64 n (ent (rs_sm r)) (ent (rs_smn r)).
Proof.
  intros fexp fln m m' xs x LM H1 H2 Hm Hx H. apply (C94_diagonal fexp fln m m' xs x LM); try assumption. split; [exact H2 |].
  eapply Forall_impl; [| exact Hm]. intros e (g & frames & k & Hg & Hw & Hf & F1 & F2 & E). destruct (updates_class fexp fln LM frames Hf F1 F2 k g (snd e) Hg E) as (C & _ & _ & _ & _ & B).
  apply em_diag; [exact C | rewrite B; exact Hw].
Qed.
Print Assumptions C98_recognition.

(** *** Concrete cases *)
Module Train.
  Import Props_Float.Ex.
  Local Open Scope Q_scope.
  Definition exp1 (x : f64) : f64 := match x with S754_nan => S754_nan | _ => if SFltb x (d (- 600)) then d 0 else d 1 end.
  Definition A := FA exp1 ln0.
  Definition par : gmmP A := mkGmmP (A := A) 2 (d (1 # 1000)) (d (1 # 100)) Diagonal.
  (** A class before the training, and two phrases. *)
  Definition g0 : gclass A := mkGC (A := A) false 1 0 2 par [] [] [] [] (mkRing [[d 0; d 0]] 2 0 false) (d 0) (d 0) [] [].
  Definition data : kdata A := [[[d 0]; [d (1 # 10)]; [d 3]; [d (7 # 2)]]; [[d (1 # 5)]; [d 0]; [d 3]; [d 4]]].
  Definition dev : list f64 := [d 2].
  (** A class whose second component is far from the frames and has a tiny weight. *)
  Definition k (mean : Q) : gauss A := mkGauss (A := A) false 1 1 0 None Diagonal [d mean] [d (1 # 1000)] [d 1000] (d (1 # 1000)) [] (d 0) [] None.
  Definition far : gclass A := mkGC (A := A) false 1 0 2 par [d 1; d (1 # (10 ^ 143))] [k 0; k 1000] [d 0; d 0] [d (1 # 1000)] (mkRing [[d 0; d 0]] 2 0 false) (d 0) (d 0) [] [].
  Definition frames : list (list f64) := [[d 0]; [d (1 # 100)]].
  Local Open Scope R_scope.

  Lemma libm1 : libm_f64 exp1 ln0.
  Proof.
    assert (B1 : bpow radix2 (-900) <= 1) by (change 1 with (bpow radix2 0); apply bpow_le; lia).
    assert (B2 : 1 <= bpow radix2 900) by (change 1 with (bpow radix2 0); apply bpow_le; lia).
    assert (E : forall x, exp1 x = S754_nan \/ exp1 x = d 0 \/ exp1 x = d 1) by (intros []; cbn [exp1]; auto; destruct (SFltb _ _); auto).
    assert (EN : forall x, x <> S754_nan -> exp1 x <> S754_nan) by (intros [] H; cbn [exp1]; try congruence; destruct (SFltb _ _); vm_compute; discriminate).
    destruct libm as [_ X2 _ _ _ X6]. split; [| exact X2 | | reflexivity | | exact X6].
    - intros x _. destruct (E x) as [-> | [-> | ->]]; [reflexivity | apply d0 | apply d1].
    - intros x _ H. assert (x <> S754_nan) by (intros ->; destruct H as [H | (H & _)]; discriminate). destruct (E x) as [Q | [-> | ->]]; [now apply EN in Q | eapply weak; [apply d0 | lra | lra] | eapply weak; [apply d1 | lra | lra]].
    - intros x (V & N & B). assert (V6 : is_f64 (d (- 600)) /\ is_num (d (- 600)) = true) by (split; vm_compute; reflexivity).
      assert (F6 : fval (d (- 600)) = - 600) by (rewrite (val _ true 5277655813324800 (-43)) by (vm_compute; reflexivity); cbn; lra).
      assert (L : SFltb x (d (- 600)) = false) by (rewrite Proofs_Float2.ltb_num by (try assumption; apply V6); apply Raux.Rlt_bool_false; rewrite F6; lra).
      assert (Q : exp1 x = d 1) by (unfold exp1; destruct x; try discriminate; rewrite L; reflexivity). rewrite Q. eapply weak; [apply d1 | lra | lra].
  Qed.

  (** Training of [g0]: allocation, initialisation and three updates. *)
  Definition trained : res (gclass A) := bind (gm_allocate (A := A) g0) (fun g1 => bind (gm_init_with (A := A) mul_single data dev g1) (fun g2 => gm_updates_with (A := A) as_single 3 (concat data) g2)).
  Definition show (g : gclass A) := (gc_coef g, map g_mean (gc_comp g), map g_cov (gc_comp g)).

  Lemma frames_ok : frames_in 0 frames.
  Proof.
    assert (X : num_in (- bpow radix2 0) (bpow radix2 0) (d (1 # 100))).
    { split; [vm_compute; reflexivity |]. split; [vm_compute; reflexivity |]. rewrite (val _ false 5764607523034235 (-59)) by (vm_compute; reflexivity). cbn. lra. }
    constructor; [constructor; [eapply weak; [apply d0 | cbn; lra | cbn; lra] | constructor] |]. constructor; [constructor; [exact X | constructor] | constructor].
  Qed.
  Lemma reg_ok : reg_in 0 1 [d (1 # 1000)].
  Proof.
    intros i Hi. assert (i = 0)%nat by lia. subst i. cbn [ent nth]. split; [vm_compute; reflexivity |]. split; [vm_compute; reflexivity |].
    change (ent [d (1 # 1000)] 0) with (d (1 # 1000)). rewrite (val _ false 4611686018427388 (-62)) by (vm_compute; reflexivity).
    assert (bpow radix2 (-1000) <= bpow radix2 (-12)) by (apply bpow_le; lia). change (bpow radix2 (-12)) with (/ 4096) in *. change (bpow radix2 (2 * 0 + 2)) with 4. cbn -[bpow] in *. change (bpow radix2 (-62)) with (/ 4611686018427387904). lra.
  Qed.
  Lemma far_ok : class_em far.
  Proof.
    assert (W1 : num_in 0 1 (d 1)) by (eapply weak; [apply d1 | lra | lra]).
    assert (W2 : num_in 0 1 (d (1 # (10 ^ 143)))).
    { split; [vm_compute; reflexivity |]. split; [vm_compute; reflexivity |].
      assert (E : exists p e, d (1 # (10 ^ 143)) = S754_finite false p e /\ (Z.pos p <= 2 ^ 53)%Z /\ (e <= -53)%Z) by (eexists; eexists; split; [vm_compute; reflexivity |]; split; vm_compute; discriminate).
      destruct E as (p & e & E & Hp & He). rewrite (val _ false p e E). cbn [cond_Zopp]. split; [apply Rmult_le_pos; [apply IZR_le; lia | apply bpow_ge_0] |].
      apply Rle_trans with (bpow radix2 53 * bpow radix2 (-53)); [| rewrite <- bpow_plus; cbn; lra]. apply Rmult_le_compat; [apply IZR_le; lia | apply bpow_ge_0 | change (bpow radix2 53) with (IZR (2 ^ 53)); now apply IZR_le | now apply bpow_le]. }
    assert (G : forall q, is_f64 (d q) -> gauss_f64 (k q) /\ gauss_diag (k q)).
    { intros q Hq. split; [repeat split; repeat constructor; auto; vm_compute; reflexivity |]. split; [reflexivity |]. constructor; [| constructor]. right. split; [vm_compute; reflexivity |]. right. split; [vm_compute; reflexivity |].
      rewrite (val _ false 8796093022208000 (-43)) by (vm_compute; reflexivity). cbn. lra. }
    destruct (G 0%Q ltac:(vm_compute; reflexivity)) as (G1 & G2). destruct (G 1000%Q ltac:(vm_compute; reflexivity)) as (G3 & G4).
    split; [split; [split; [split; [reflexivity |]; split; [constructor; [exact W1 | constructor; [exact W2 | constructor]] |] |] |] |].
    - exists (d 1). split; [now left |]. destruct d1 as (_ & _ & B). apply Rle_trans with (bpow radix2 0); [apply bpow_le; lia | exact (proj1 B)].
    - constructor; [exact G1 | constructor; [exact G3 | constructor]].
    - split; [constructor; [exact G2 | constructor; [exact G4 | constructor]] | cbn; lia].
    - split; [reflexivity |]. split; [| constructor; [vm_compute; reflexivity | constructor]].
      constructor; [| constructor; [| constructor]]; (split; [reflexivity | constructor; [vm_compute; reflexivity | constructor]]).
  Qed.
End Train.

(** A component can lose its mean: its weight times the smallest likelihood underflows, and so does the division
    by the likelihood of the frame (over 1), for all the frames; a product that is exactly zero would be replaced
    by 1e-100. *)
Theorem C98_lost_component : exists fexp fln (g g' : gclass (FA fexp fln)) frames lp k, libm_f64 fexp fln /\ class_em g /\ frames_in 0 frames /\ reg_in 0 (gc_dim g) (gc_reg g) /\ (1 <= length frames)%nat /\
  gm_update_with (A := FA fexp fln) as_single frames g = Ok (g', lp) /\ 0 < fval (ent (gc_coef g) 1) /\ nth_error (gc_comp g') 1 = Some k /\ dead (gc_dim g) k.
Proof.
  exists Train.exp1, Ex.ln0, Train.far. assert (Q : match gm_update_with (A := Train.A) as_single Train.frames Train.far with Ok (g', lp) => match nth_error (gc_comp g') 1 with Some k => Some (g_mean k, g_cov k, g_inv k) | None => None end | _ => None end = Some ([S754_nan], [S754_nan], [S754_nan])) by (vm_compute; reflexivity).
  remember (gm_update_with (A := Train.A) as_single Train.frames Train.far) as r eqn:E. destruct r as [(g', lp) | |]; [| discriminate Q | discriminate Q]. symmetry in E. destruct (nth_error (gc_comp g') 1) as [k |] eqn:N; [| discriminate Q].
  injection Q as Q1 Q2 Q3. exists g', Train.frames, lp, k. split; [exact Train.libm1 |]. split; [exact Train.far_ok |]. split; [exact Train.frames_ok |]. split; [exact Train.reg_ok |]. split; [cbn; lia |]. split; [exact E |]. split; [| split; [exact N |]].
  - assert (P : exists p e, ent (gc_coef Train.far) 1 = S754_finite false p e) by (eexists; eexists; vm_compute; reflexivity). destruct P as (p & e & P). apply (eq_ind_r (fun v => 0 < fval v)) with (2 := P). change (0 < F2R (beta := radix2) {| Fnum := Z.pos p; Fexp := e |}). now apply F2R_gt_0.
  - intros i Hi. assert (i = 0)%nat by (cbn in Hi; lia). subst i. split; [exact (f_equal (fun l => nth 0 l (S754_zero false)) Q1) |]. split; [exact (f_equal (fun l => nth 0 l (S754_zero false)) Q2) | exact (f_equal (fun l => nth 0 l (S754_zero false)) Q3)].
Qed.
Print Assumptions C98_lost_component.

(** The hypotheses of the theorems hold for these two classes; the far component is back after two updates. *)
Example C98_training_meets : libm_f64 Train.exp1 Ex.ln0 /\ gc_mode Train.g0 = Diagonal /\ gc_n Train.g0 = 2%nat /\ is_f64 (gp_abs (gc_par Train.g0)) /\ is_f64 (gp_rel (gc_par Train.g0)) /\
  Forall is_f64 Train.dev /\ Forall (Forall frame_f64) Train.data /\ length (concat Train.data) = 8%nat /\ (exists g, Train.trained = Ok g) /\ window_empty (gc_buf Train.g0).
Proof.
  split; [exact Train.libm1 |]. split; [reflexivity |]. split; [reflexivity |]. split; [vm_compute; reflexivity |]. split; [vm_compute; reflexivity |]. split; [constructor; [vm_compute; reflexivity | constructor] |].
  split; [repeat constructor; vm_compute; reflexivity |]. split; [reflexivity |]. split; [| split; [reflexivity |]; split; [cbn; lia |]; split; [cbn; lia |]; split; reflexivity].
  assert (Q : match Train.trained with Ok _ => true | _ => false end = true) by (vm_compute; reflexivity). destruct Train.trained as [g | |]; [| discriminate Q | discriminate Q]. now exists g.
Qed.
Example C98_components_meets : class_em Train.far /\ frames_in 0 Train.frames /\ reg_in 0 (gc_dim Train.far) (gc_reg Train.far) /\
  match gm_updates_with (A := Train.A) as_single 2 Train.frames Train.far with Ok g => Some (map (fun v => SFltb (Ex.d 0) v) (gc_coef g), map (fun k : gauss Train.A => map is_num (g_mean k)) (gc_comp g)) | _ => None end = Some ([true; true], [[true]; [true]]).
Proof. split; [exact Train.far_ok |]. split; [exact Train.frames_ok |]. split; [exact Train.reg_ok | vm_compute; reflexivity]. Qed.
