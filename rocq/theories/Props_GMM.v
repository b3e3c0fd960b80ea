(** C50-C55, C74: Gaussian mixtures. *)
From Coq Require Import String List Bool Arith ZArith QArith Reals Lra Lia.
From Verif Require Import Base BaseFacts Arith RFacts RComp Model_Map Model_Ring Model_Phrase Model_Gaussian Model_Config Model_KMeans Model_GMM
  Spec_Common Spec_Matrix Spec_Det Spec_Gaussian Spec_GMM Proofs_Ring Proofs_Gaussian Proofs_KMeans Proofs_GMM Proofs_GMM2 Proofs_GMM3 Proofs_GMM4.
Import ListNotations.
Local Open Scope list_scope.
Local Open Scope R_scope.

(** The concrete class of the examples: two components of dimension 1, trained on one phrase of four frames. *)
Definition ex_par (m : cmode) : gmmP RA := mkGmmP (A := RA) 2 1 1 m.
Definition ex_new (m : cmode) : gclass RA := mkGC (A := RA) false 1 0 3 (ex_par m) [] [] [] [] (ring_new (0 : num RA) 1 3) 0 0 [] [].
Definition ex_data : list (list (list R)) := [[[0]; [1]; [5]; [6]]].
Lemma ex_facts : forall m, (1 <= gc_n (ex_new m))%nat /\ good_dims (ex_new m) /\ length [1] = gc_dim (ex_new m) /\ ex_data <> [] /\
  Forall (Forall (fun x => length x = gc_dim (ex_new m))) ex_data /\ (1 <= seg_count (A := RA) (gc_n (ex_new m)) ex_data)%nat /\ strong_abs (ex_new m).
Proof.
  intro m. split; [cbn; lia|]. split; [unfold good_dims; cbn; lia|]. split; [reflexivity|]. split; [discriminate|]. split; [repeat constructor|]. split; [cbn; lia|].
  unfold strong_abs, eps9. destruct m; cbn; lra.
Qed.

(** C50 *)
Theorem C50_training_weights : forall (g0 : gclass RA) (dev : list R) (data : list (list (list R))) k,
  (1 <= gc_n g0)%nat -> good_dims g0 -> length dev = gc_dim g0 -> data <> [] -> Forall (Forall (fun x => length x = gc_dim g0)) data ->
  (1 <= seg_count (A := RA) (gc_n g0) data)%nat -> strong_abs g0 ->
  exists g1 g2 g3, gm_allocate g0 = Ok g1 /\ gm_init (A := RA) data dev g1 = Ok g2 /\ gm_updates (A := RA) k (concat data) g2 = Ok g3 /\
    distribution (gc_n g0) (weight g2) /\ distribution (gc_n g0) (weight g3) /\
    exists masses lp, gm_estep g3 (concat data) = Ok (map (fun x => tab (gc_n g0) (resp g3 x)) (concat data), masses, lp) /\
      forall x, In x (concat data) -> (forall c, (c < gc_n g0)%nat -> 0 < resp g3 x c) /\ Rsum (gc_n g0) (resp g3 x) = 1.
Proof.
  intros g0 dev data k Hn HD Ld Hne Hf Hseg SA. destruct (alloc_shape g0 Hn HD) as (g1 & E1 & S1 & B1 & D1 & I1 & W1 & P1 & _).
  assert (N1 : gc_n g1 = gc_n g0) by (unfold gc_n; rewrite P1; reflexivity).
  destruct (init_total g1 dev data S1) as (g2 & k' & E2 & _ & R2 & SR2 & _ & _ & D2 & _ & _ & P2 & _).
  { rewrite D1. exact Ld. } { exact Hne. } { rewrite D1. exact Hf. } { rewrite N1. exact Hseg. }
  { unfold strong_abs, gc_mode in *. rewrite P1. exact SA. }
  assert (N2 : gc_n g2 = gc_n g0) by (unfold gc_n; rewrite P2, P1; reflexivity).
  assert (HC : concat data <> []).
  { intro E. assert (X : seg_count (A := RA) (gc_n g0) data = 0%nat); [|lia]. clear -E Hn. unfold seg_count.
    assert (F : forall p, In p data -> p = []). { intros p Hp. destruct p as [|x p]; [reflexivity|]. exfalso. assert (In x (concat data)) by (apply in_concat; exists (x :: p); split; [exact Hp|left; reflexivity]). rewrite E in H. contradiction. }
    clear E. induction data as [|p data IH]; [reflexivity|]. cbn. rewrite (F p (or_introl eq_refl)). cbn [length]. rewrite Nat.div_0_l by lia. cbn. apply IH. intros q Hq. apply F. right. exact Hq. }
  assert (HF : Forall (fun x => length x = gc_dim g2) (concat data)).
  { rewrite D2, D1. apply Forall_forall. intros x Hx. apply in_concat in Hx. destruct Hx as (p & Hp & Hx). rewrite Forall_forall in Hf. specialize (Hf p Hp). rewrite Forall_forall in Hf. apply Hf, Hx. }
  destruct (updates_ok k (concat data) g2 R2 SR2 HC HF) as (g3 & E3 & R3 & SC). pose proof SC as (_ & D3 & _ & _ & P3 & _).
  assert (N3 : gc_n g3 = gc_n g0) by (unfold gc_n; rewrite P3, P2, P1; reflexivity).
  exists g1, g2, g3. split; [exact E1|]. split; [exact E2|]. split; [exact E3|]. destruct R2 as (_ & _ & DW2). rewrite N2 in DW2. split; [exact DW2|].
  destruct R3 as (S3 & I3 & DW3). pose proof DW3 as DW3'. rewrite N3 in DW3. split; [exact DW3|].
  pose proof (estep_ok g3 S3 I3 (concat data)) as EE. rewrite N3 in EE. eexists _, _. split; [apply EE; rewrite D3; exact HF|].
  intros x Hx. rewrite <- N3. split; [intros c Hc; apply resp_pos|apply resp_sum]; try exact (proj1 S3); try exact (proj1 DW3'); exact Hc.
Qed.
Print Assumptions C50_training_weights.
Example C50_meets : forall m, (1 <= gc_n (ex_new m))%nat /\ good_dims (ex_new m) /\ length [1] = gc_dim (ex_new m) /\ ex_data <> [] /\
  Forall (Forall (fun x => length x = gc_dim (ex_new m))) ex_data /\ (1 <= seg_count (A := RA) (gc_n (ex_new m)) ex_data)%nat /\ strong_abs (ex_new m).
Proof. exact ex_facts. Qed.
(** Whatever the regularisation, an update that returns leaves a distribution. *)
Theorem C50_any_update : forall (g : gclass RA) frames g' lp, gm_ready g -> Forall (fun x => length x = gc_dim g) frames -> frames <> [] ->
  (gc_dim g <= length (gc_reg g))%nat -> gm_update (A := RA) frames g = Ok (g', lp) -> distribution (gc_n g) (weight g').
Proof. intros g frames g' lp (S & I & D) Hf Hne Hr E. destruct (update_partial g frames S I (proj1 D) Hf Hne Hr g' lp E) as ((_ & _ & _ & _ & W & _) & _). exact W. Qed.
Print Assumptions C50_any_update.

(** A ready class, from the example. *)
Lemma ex_ready : forall m, exists g : gclass RA, gm_ready g /\ strong_reg g /\ gc_dim g = 1%nat /\ gc_n g = 2%nat /\ gc_mode g = m /\ gc_bim g = false /\ gc_din g = 0%nat /\ gc_win g = 3%nat.
Proof.
  intro m. destruct (ex_facts m) as (Hn & HD & Ld & Hne & Hf & Hseg & SA). destruct (alloc_shape (ex_new m) Hn HD) as (g1 & E1 & S1 & B1 & D1 & I1 & W1 & P1 & _).
  destruct (init_total g1 [1] ex_data S1) as (g2 & k' & E2 & _ & R2 & SR2 & _ & B2 & D2 & I2 & W2 & P2 & _).
  { rewrite D1. exact Ld. } { exact Hne. } { rewrite D1. exact Hf. } { unfold gc_n. rewrite P1. exact Hseg. }
  { unfold strong_abs, gc_mode in *. rewrite P1. exact SA. }
  exists g2. split; [exact R2|]. split; [exact SR2|]. unfold gc_n, gc_mode. rewrite D2, D1, P2, P1, B2, B1, I2, I1, W2, W1. auto 10.
Qed.
Example C50_any_update_meets : exists (g : gclass RA) frames r, gm_ready g /\ Forall (fun x => length x = gc_dim g) frames /\ frames <> [] /\ (gc_dim g <= length (gc_reg g))%nat /\
  gm_update (A := RA) frames g = Ok r.
Proof.
  destruct (ex_ready Full) as (g & R & SR & D & _). exists g, [[0]; [2]]. pose proof R as (S & I & W).
  destruct (update_total g [[0]; [2]] S I (proj1 W) ltac:(rewrite D; repeat constructor) ltac:(discriminate) (proj1 SR) SR) as (g' & E & _).
  eexists. split; [exact R|]. split; [rewrite D; repeat constructor|]. split; [discriminate|]. split; [exact (proj1 SR)|exact E].
Qed.

(** C51 *)
Theorem C51_update_moments : forall (g : gclass RA) frames, gm_ready g -> Forall (fun x => length x = gc_dim g) frames -> frames <> [] ->
  (gc_dim g <= length (gc_reg g))%nat ->
  (forall g' lp, gm_update (A := RA) frames g = Ok (g', lp) ->
     after_update g frames g' /\ lp = Rlsum (map (fun x => ln (Rsum (gc_n g) (score g x))) frames)) /\
  (strong_reg g -> exists g' lp, gm_update (A := RA) frames g = Ok (g', lp) /\ gm_ready g') /\
  (gc_mode g = Full -> forall c, (c < gc_n g)%nat ->
     (forall i j, new_cov g frames c i j = new_cov g frames c j i) /\
     forall rho, (forall d, (d < gc_dim g)%nat -> rho <= nth d (gc_reg g) 0) -> pd_margin (gc_dim g) (new_cov g frames c) rho).
Proof.
  intros g frames (S & I & D) Hf Hne Hr. split; [exact (update_partial g frames S I (proj1 D) Hf Hne Hr)|]. split.
  - intro SR. destruct (update_total g frames S I (proj1 D) Hf Hne Hr SR) as (g' & E & _ & R). eexists _, _. split; [exact E|exact R].
  - intros HM c Hc. split.
    + intros i j. unfold new_cov. rewrite HM. rewrite (Nat.eqb_sym j i). destruct (Nat.eqb_spec i j) as [EQ|NE]; [subst j; reflexivity|]. unfold wcov. f_equal. apply Rlsum_map_ext. intros. ring.
    + intros rho Hrho. apply new_cov_pd; try assumption. exact (proj1 D).
Qed.
Print Assumptions C51_update_moments.
Example C51_meets : exists g : gclass RA, gm_ready g /\ gc_mode g = Full /\ gc_n g = 2%nat /\ Forall (fun x => length x = gc_dim g) [[0]; [2]] /\ strong_reg g.
Proof. destruct (ex_ready Full) as (g & R & SR & D & N & M & _). exists g. split; [exact R|]. split; [exact M|]. split; [exact N|]. split; [rewrite D; repeat constructor|exact SR]. Qed.

(** With a positive regularisation below the pivot threshold, an update of a Full class can throw although
    the new covariance is positive definite: here for one component and equal frames. *)
Lemma inv_small : forall k : gauss RA, g_mode k = Full -> g_dim k = 1%nat -> length (g_cov k) = 1%nat -> 0 < gcov k 0 0 < eps9 -> runm g_update_inv k = Throw RuntimeError.
Proof.
  intros [bi di lo dn hi mo me co iv de vi dt ou ow] HM HD HL HC. cbn in HM, HD, HL. subst. destruct co as [|x [|]]; try discriminate. unfold gcov, stored, rcell, eps9 in HC. cbn in HC.
  rcomp; try reflexivity.
Qed.
Theorem C51_small_regularisation_refuted : forall (g : gclass RA) n (v r : R), gm_ready g -> gc_mode g = Full -> gc_n g = 1%nat -> gc_dim g = 1%nat ->
  gc_reg g = [r] -> 0 < r < eps9 -> (0 < n)%nat -> gm_update (A := RA) (repeat [v] n) g = Throw RuntimeError.
Proof.
  intros g n v r (S & I & D) HM HN HD HR Hr Hn.
  assert (Hf : Forall (fun x : list R => length x = gc_dim g) (repeat [v] n)) by (apply Forall_forall; intros x Hx; apply repeat_spec in Hx; subst x; rewrite HD; reflexivity).
  assert (Hne : repeat [v] n <> []) by (destruct n; [lia|discriminate]).
  destruct (update_pre g (repeat [v] n) S I Hf) as (cs & L & T & U).
  { rewrite HD, HR. cbn. lia. }
  rewrite U. unfold gm_inverses. cbn [gc_comp gc_set_comp]. rewrite HN in L. destruct cs as [|k [|]]; try discriminate. destruct (T 0%nat ltac:(lia)) as ((W & _ & FD & _ & FM) & _ & C). cbn [nth] in C, W, FD, FM.
  cbn [mapM]. rewrite (inv_small k); [reflexivity|rewrite FM; exact HM|rewrite FD; exact HD| |].
  - destruct W as (_ & W & _). rewrite W, FM, FD, HM, HD. reflexivity.
  - rewrite C by (rewrite HD; lia). unfold new_cov. cbn [Nat.eqb]. rewrite HR. cbn [nth]. replace (wcov g (repeat [v] n) 0 0 0) with 0; [lra|].
    assert (MS : 0 < mass g (repeat [v] n) 0) by (apply mass_pos; try assumption; [exact (proj1 S)|exact (proj1 D)|lia]).
    assert (WM : wmean g (repeat [v] n) 0 0 = v).
    { unfold wmean. rewrite (Rlsum_map_ext _ (fun x => v * resp g x 0)); [rewrite Rlsum_map_scal; fold (mass g (repeat [v] n) 0); field; lra|]. intros x Hx. apply repeat_spec in Hx. subst x. cbn. ring. }
    unfold wcov. rewrite WM. rewrite (Rlsum_map_ext _ (fun x => 0 * resp g x 0)); [rewrite Rlsum_map_scal; lra|]. intros x Hx. apply repeat_spec in Hx. subst x. cbn. ring.
Qed.
Print Assumptions C51_small_regularisation_refuted.
Definition ex_small (r : R) : gclass RA := mkGC (A := RA) false 1 0 1 (mkGmmP (A := RA) 1 0 r Full) [1]
  [mkGauss (A := RA) false 1 1 0 (Some 0%nat) Full [0] [1] [1] 1 [] 1 [] (Some 0%nat)] [0] [r] (ring_new (0 : num RA) 1 1) 0 0 [] [].
Lemma ex_small_ready : forall r, gm_ready (ex_small r).
Proof.
  intro r. split; [|split].
  - unfold gm_shape. split; [cbn; lia|]. do 3 (split; [reflexivity|]). constructor; [|constructor]. unfold fits_class, wf_gauss. cbn. repeat split; discriminate.
  - constructor; [|constructor]. unfold inverted. cbn. split; [|split; [unfold gcov, stored, rcell; cbn; try lra|split; [lra|discriminate]]].
    intros i j Hi Hj. assert (i = 0%nat) by lia. assert (j = 0%nat) by lia. subst. unfold mmul, gcov, ginv, stored, rcell, delta. cbn. split; lra.
  - split; [intros c Hc; assert (c = 0%nat) by (cbn in Hc; lia); subst; unfold weight; cbn; lra|]. unfold weight. cbn. lra.
Qed.
Example C51_small_meets : let r := / 10000000000 in gm_ready (ex_small r) /\ gc_mode (ex_small r) = Full /\ gc_n (ex_small r) = 1%nat /\ gc_dim (ex_small r) = 1%nat /\
  gc_reg (ex_small r) = [r] /\ 0 < r < eps9.
Proof. cbv zeta. split; [apply ex_small_ready|]. do 4 (split; [reflexivity|]). unfold eps9. lra. Qed.

(** C52 *)
Lemma report_dist : forall m xs x r, model_usable m -> model_report m xs x r ->
  distribution (length (gm_models m)) (fun i => nth i (rs_instn r) 0) /\ distribution (length (gm_models m)) (fun i => nth i (rs_smn r) 0).
Proof.
  intros m xs x r (NE & _ & F) (R1 & R2 & R3 & R4 & R5 & _). assert (Hn : (1 <= length (gm_models m))%nat) by (destruct (gm_models m); [contradiction|cbn; lia]).
  assert (P1 : forall i, (i < length (gm_models m))%nat -> 0 < nth i (rs_inst r) 0).
  { intros i Hi. rewrite R1 by exact Hi. rewrite Forall_forall in F. destruct (F (nth i (gm_models m) no_class)) as ((((H1 & _) & _ & D) & _) & _); [apply nth_In, Hi|]. apply mix_lik_pos; [exact H1|exact D]. }
  assert (P2 : forall i, (i < length (gm_models m))%nat -> 0 < nth i (rs_sm r) 0) by (intros i Hi; rewrite R3 by exact Hi; apply exp_pos).
  assert (Q1 : 0 < Rsum (length (gm_models m)) (fun i => nth i (rs_inst r) 0)) by (apply Rsum_pos; [lia|exact P1]).
  assert (Q2 : 0 < Rsum (length (gm_models m)) (fun i => nth i (rs_sm r) 0)) by (apply Rsum_pos; [lia|exact P2]).
  split; split.
  - intros i Hi. rewrite R4 by exact Hi. left. apply Rdiv_lt_0_compat; [apply P1, Hi|exact Q1].
  - rewrite (Rsum_ext _ _ _ R4), Rsum_div. field. lra.
  - intros i Hi. rewrite R5 by exact Hi. left. apply Rdiv_lt_0_compat; [apply P2, Hi|exact Q2].
  - rewrite (Rsum_ext _ _ _ R5), Rsum_div. field. lra.
Qed.
Lemma dist_le1 : forall n w i, distribution n w -> (i < n)%nat -> 0 <= w i <= 1.
Proof. intros n w i (P & S) Hi. split; [apply P, Hi|]. rewrite <- S. apply (Rsum_term_le n w i); [exact P|exact Hi]. Qed.

Theorem C52_posteriors : forall (m : gmm RA) xs x, model_usable m -> Forall (fun x => length x = model_obs_dim m) (xs ++ [x]) ->
  exists m0 m', gm_reset m = Ok m0 /\ foldM (fun m x => gm_filter (A := RA) x m) (xs ++ [x]) m0 = Ok m' /\
    let n := length (gm_models m) in let r := gm_res m' in
    map fst (gm_models m') = map fst (gm_models m) /\
    distribution n (fun i => nth i (rs_instn r) 0) /\ distribution n (fun i => nth i (rs_smn r) 0) /\
    (forall i, (i < n)%nat -> 0 <= nth i (rs_instn r) 0 <= 1 /\ 0 <= nth i (rs_smn r) 0 <= 1) /\
    (forall i, (i < n)%nat -> nth i (rs_instn r) 0 = mix_lik (class_at m i) x / Rsum n (fun j => mix_lik (class_at m j) x)) /\
    (forall i, (i < n)%nat -> nth i (rs_smn r) 0 = exp (nth i (rs_log r) 0) / Rsum n (fun j => exp (nth j (rs_log r) 0))) /\
    exists b, first_max n (fun i => nth i (rs_log r) 0) b /\ rs_likeliest r = label_at m b.
Proof.
  intros m xs x U F. destruct (gm_filters_ok m (xs ++ [x]) U F) as (m0 & m' & E0 & E & T & RP). exists m0, m'. split; [exact E0|]. split; [exact E|]. cbv zeta.
  specialize (RP xs x eq_refl). destruct (report_dist m xs x (gm_res m') U RP) as (D1 & D2). pose proof RP as (R1 & R2 & R3 & R4 & R5 & b & FM & LK & _).
  split. { destruct T as (_ & _ & _ & _ & _ & T & _). clear -T. induction T as [|e e' l l' (H & _) T IH]; [reflexivity|]. cbn [map]. rewrite H, IH. reflexivity. }
  split; [exact D1|]. split; [exact D2|]. split; [intros i Hi; split; [apply (dist_le1 _ _ i D1 Hi)|apply (dist_le1 _ _ i D2 Hi)]|].
  split; [intros i Hi; rewrite R4 by exact Hi; rewrite R1 by exact Hi; f_equal; apply Rsum_ext; exact R1|].
  split; [intros i Hi; rewrite R5 by exact Hi; rewrite R3 by exact Hi; f_equal; apply Rsum_ext; exact R3|].
  exists b. split; [exact FM|exact LK].
Qed.
Print Assumptions C52_posteriors.

(** A model with two classes, unimodal; and bimodal with one output. *)
Definition ex_gauss (bim : bool) (y : R) : gauss RA :=
  if bim then mkGauss (A := RA) true 2 2 1 (Some 1%nat) Diagonal [0; y] [1; 1] [1; 1] 1 [1] 1 [1] (Some 0%nat)
  else mkGauss (A := RA) false 1 1 0 (Some 0%nat) Full [y] [1] [1] 1 [] 1 [] (Some 0%nat).
Definition ex_class (bim : bool) (y1 y2 : R) : gclass RA :=
  mkGC (A := RA) bim (if bim then 2 else 1) (if bim then 1 else 0) 2 (mkGmmP (A := RA) 2 0 1 (if bim then Diagonal else Full)) [/ 4; 3 / 4]
    [ex_gauss bim y1; ex_gauss bim y2] [0; 0] (if bim then [1; 1] else [1]) (ring_new (0 : num RA) 1 2) 0 0 (if bim then [0] else []) (if bim then [0] else []).
Definition ex_model (bim : bool) (est : restimator) : gmm RA :=
  mkGMM (A := RA) bim (if bim then 2 else 1) (if bim then 1 else 0) est (if bim then Diagonal else Full)
    [("a"%string, ex_class bim 0 1); ("b"%string, ex_class bim 5 7)] (mkRes (A := RA) [] [] [] [] [] EmptyString [] []).
Lemma ex_model_usable : forall bim est, model_usable (ex_model bim est).
Proof.
  assert (C : forall bim y1 y2, class_usable (ex_class bim y1 y2)).
  { intros bim y1 y2. split; [|split; [cbn; lia|apply ring_new_wf]]. split; [|split].
    - unfold gm_shape. split; [cbn; lia|]. do 3 (split; [reflexivity|]). destruct bim; repeat constructor; discriminate.
    - assert (IV : forall y, inverted (ex_gauss bim y)).
      { intro y. destruct bim; unfold inverted.
        - assert (Z : forall i, (i < 2)%nat -> i = 0%nat \/ i = 1%nat) by (intros; lia).
          split; [intros i j Hi Hj; destruct (Z i Hi), (Z j Hj); subst; unfold mmul, gcov, ginv, stored, rcell, delta; cbn; split; lra|].
          split; [unfold gcov, stored, rcell; cbn; lra|]. split; [cbn; lra|]. intros _. split; [intros i j Hi Hj; cbn in Hi, Hj; assert (i = 0%nat) by lia; assert (j = 0%nat) by lia; subst; unfold mmul, gcov, ginv_in, stored, rcell, delta; cbn; split; lra|].
          split; [unfold gcov, stored, rcell; cbn; lra|]. split; [cbn; lra|]. split; [reflexivity|]. intros i j Hi Hj. cbn in Hi, Hj. assert (i = 0%nat) by lia. assert (j = 0%nat) by lia. subst. unfold gout, gcov, ginv_in, stored. cbn. lra.
        - split; [intros i j Hi Hj; cbn in Hi, Hj; assert (i = 0%nat) by lia; assert (j = 0%nat) by lia; subst; unfold mmul, gcov, ginv, stored, rcell, delta; cbn; split; lra|].
          split; [unfold gcov, stored, rcell; cbn; lra|]. split; [cbn; lra|]. discriminate. }
      constructor; [apply IV|constructor; [apply IV|constructor]].
    - split; [intros c Hc; assert (c = 0%nat \/ c = 1%nat) as [|] by (cbn in Hc; lia); subst; unfold weight; cbn; lra|]. unfold weight. cbn. lra. }
  intros bim est. split; [discriminate|]. split.
  - cbn. constructor; [intros [E|[]]; discriminate|]. constructor; [intros []|constructor].
  - constructor; [|constructor; [|constructor]]; (split; [apply C|destruct bim; cbn; auto]).
Qed.
Example C52_meets : forall bim est, model_usable (ex_model bim est) /\ length (gm_models (ex_model bim est)) = 2%nat /\ Forall (fun x => length x = model_obs_dim (ex_model bim est)) ([[1]; [2]] ++ [[3]]).
Proof. intros. split; [apply ex_model_usable|]. split; [reflexivity|]. destruct bim; repeat constructor. Qed.

(** C53 *)
Theorem C53_window_mean : forall (m : gmm RA) xs x, model_usable m -> Forall (fun x => length x = model_obs_dim m) (xs ++ [x]) ->
  exists m0 m', gm_reset m = Ok m0 /\ foldM (fun m x => gm_filter (A := RA) x m) (xs ++ [x]) m0 = Ok m' /\
    forall i, (i < length (gm_models m))%nat ->
      nth i (rs_inst (gm_res m')) 0 = mix_lik (class_at m i) x /\
      let lls := last_n (gc_win (class_at m i)) (map (fun x => ln (mix_lik (class_at m i) x)) (xs ++ [x])) in
      length lls = Nat.min (S (length xs)) (gc_win (class_at m i)) /\
      nth i (rs_log (gm_res m')) 0 = Rlsum lls / INR (length lls).
Proof.
  intros m xs x U F. destruct (gm_filters_ok m (xs ++ [x]) U F) as (m0 & m' & E0 & E & T & RP). exists m0, m'. split; [exact E0|]. split; [exact E|].
  destruct (RP xs x eq_refl) as (R1 & R2 & _). intros i Hi. split; [apply R1, Hi|]. cbv zeta. split.
  - unfold last_n. rewrite skipn_length, map_length, app_length. cbn [length]. lia.
  - rewrite (R2 i Hi). reflexivity.
Qed.
Print Assumptions C53_window_mean.
(** Three observations and a window of two: the first one is forgotten. *)
Example C53_meets : model_usable (ex_model false Likeliest) /\ Forall (fun x => length x = model_obs_dim (ex_model false Likeliest)) ([[1]; [2]] ++ [[3]]) /\
  (gc_win (class_at (ex_model false Likeliest) 0) = 2)%nat /\ last_n 2 [1; 2; 3] = [2; 3].
Proof. split; [apply ex_model_usable|]. split; [repeat constructor|]. split; reflexivity. Qed.

(** C54 *)
Theorem C54_convex : forall (m : gmm RA) xs x, model_usable m -> gm_bim m = true -> Forall (fun x => length x = gm_din m) (xs ++ [x]) ->
  exists m0 m', gm_reset m = Ok m0 /\ foldM (fun m x => gm_filter (A := RA) x m) (xs ++ [x]) m0 = Ok m' /\
    let n := length (gm_models m) in let r := gm_res m' in
    length (rs_out r) = (gm_dim m - gm_din m)%nat /\
    (forall i, (i < n)%nat -> distribution (gc_n (class_at m i)) (posterior (class_at m i) x)) /\
    (gm_est m = Likeliest -> exists b, first_max n (fun i => nth i (rs_log r) 0) b /\
       forall d, (d < gm_dim m - gm_din m)%nat -> nth d (rs_out r) 0 = Rsum (gc_n (class_at m b)) (fun c => posterior (class_at m b) x c * comp_out (comp_at (class_at m b) c) x d)) /\
    (gm_est m = Mixture -> distribution n (fun i => nth i (rs_smn r) 0) /\
       forall d, (d < gm_dim m - gm_din m)%nat -> nth d (rs_out r) 0 =
         Rsum n (fun i => nth i (rs_smn r) 0 * Rsum (gc_n (class_at m i)) (fun c => posterior (class_at m i) x c * comp_out (comp_at (class_at m i) c) x d))) /\
    forall d lo hi, (d < gm_dim m - gm_din m)%nat ->
      (forall i c, (i < n)%nat -> (c < gc_n (class_at m i))%nat -> lo <= comp_out (comp_at (class_at m i) c) x d <= hi) -> lo <= nth d (rs_out r) 0 <= hi.
Proof.
  intros m xs x U B F. destruct (gm_filters_ok m (xs ++ [x]) U) as (m0 & m' & E0 & E & T & RP); [unfold model_obs_dim; rewrite B; exact F|]. exists m0, m'. split; [exact E0|]. split; [exact E|]. cbv zeta.
  specialize (RP xs x eq_refl). destruct (report_dist m xs x (gm_res m') U RP) as (_ & D2). destruct RP as (_ & _ & _ & _ & _ & b & FM & _ & RO). destruct (RO B) as (LO & VO). clear RO. pose proof (proj1 FM) as Hb.
  assert (PD : forall i, (i < length (gm_models m))%nat -> distribution (gc_n (class_at m i)) (posterior (class_at m i) x)).
  { intros i Hi. destruct U as (_ & _ & FU). rewrite Forall_forall in FU. destruct (FU (nth i (gm_models m) no_class)) as ((((H1 & _) & _ & D) & _) & _); [apply nth_In, Hi|]. apply posterior_dist; [exact H1|exact D]. }
  split; [exact LO|]. split; [exact PD|]. split; [intro HE; exists b; split; [exact FM|]; intros d Hd; rewrite (VO d Hd), HE; reflexivity|].
  split; [intro HE; split; [exact D2|]; intros d Hd; rewrite (VO d Hd), HE; reflexivity|].
  intros d lo hi Hd HB. rewrite (VO d Hd). destruct (gm_est m).
  - apply (convex_bounds _ (posterior (class_at m b) x)); [apply PD, Hb|]. intros c Hc. apply HB; assumption.
  - apply (convex_bounds _ (fun i => nth i (rs_smn (gm_res m')) 0) (fun i => class_out (class_at m i) x d)); [exact D2|].
    intros i Hi. apply (convex_bounds _ (posterior (class_at m i) x)); [apply PD, Hi|]. intros c Hc. apply HB; assumption.
Qed.
Print Assumptions C54_convex.
Example C54_meets : forall est, model_usable (ex_model true est) /\ gm_bim (ex_model true est) = true /\ Forall (fun x => length x = gm_din (ex_model true est)) ([[1]; [2]] ++ [[3]]) /\
  (0 < gm_dim (ex_model true est) - gm_din (ex_model true est))%nat.
Proof. intro est. split; [apply ex_model_usable|]. split; [reflexivity|]. split; [repeat constructor|cbn; lia]. Qed.

(** C55: [filter] is safe for consistent modes, or when only the likeliest class is used (C54 gives it for
    any history; here from any state reached by filtering). *)
Theorem C55_consistent_modes : forall (m : gmm RA) xs, model_usable m -> Forall (fun x => length x = model_obs_dim m) xs ->
  exists m0 m', gm_reset m = Ok m0 /\ foldM (fun m x => gm_filter (A := RA) x m) xs m0 = Ok m'.
Proof. intros m xs U F. destruct (gm_filters_ok m xs U F) as (m0 & m' & E0 & E & _). exists m0, m'. auto. Qed.
Print Assumptions C55_consistent_modes.
Example C55_meets : model_usable (ex_model true Mixture) /\ Forall (fun x => length x = model_obs_dim (ex_model true Mixture)) [[1]; [2]].
Proof. split; [apply ex_model_usable|repeat constructor]. Qed.
(** A Diagonal class with two outputs under the default mode Full, in every arithmetic in which the
    determinant 1 is not 0. *)
Definition bad_model (A : arith) : gmm A :=
  let one := n1 (A := A) in let zero := n0 (A := A) in
  mkGMM (A := A) true 3 1 Mixture Full [("a"%string, mkGC (A := A) true 3 1 2 (mkGmmP (A := A) 1 zero one Diagonal) [one]
    [mkGauss (A := A) true 3 2 1 (Some 2%nat) Diagonal [zero; zero; zero] [one; one; one] [one; one; one] one [one] one [one; one] (Some 0%nat)] [zero] [one; one; one]
    (ring_new zero 1 2) zero zero [zero; zero] [zero; zero])] (mkRes (A := A) [] [] [] [] [] EmptyString [] []).
Theorem C55_refuted : forall A : arith, neqb (n1 (A := A)) n0 = false ->
  exists m0, gm_reset (bad_model A) = Ok m0 /\ gm_filter (A := A) [n0 (A := A)] m0 = UB.
Proof.
  intros A H1. eexists. split; [reflexivity|]. cbv -[n0 n1 neqb g_density nadd nmul nsub ndiv nexp nln nN nZ nofQ nisnan nisinf nltb nleb]. rewrite !H1. cbv -[n0 n1 neqb g_density nadd nmul nsub ndiv nexp nln nN nZ nofQ nisnan nisinf nltb nleb]. reflexivity.
Qed.
Print Assumptions C55_refuted.
Example C55_refuted_meets : neqb (n1 (A := RA)) n0 = false /\ forall fexp fln, neqb (n1 (A := FA fexp fln)) n0 = false.
Proof.
  split; [|reflexivity]. rewrite n0_RA, n1_RA. cbn [neqb RA]. destruct (Req_EM_T 1 0); [lra|reflexivity].
Qed.

(** C74 *)
Theorem C74_initialisation : forall (g0 : gclass RA) (dev : list R) (data : list (list (list R))),
  (1 <= gc_n g0)%nat -> good_dims g0 -> length dev = gc_dim g0 -> data <> [] -> Forall (Forall (fun x => length x = gc_dim g0)) data ->
  (1 <= seg_count (A := RA) (gc_n g0) data)%nat -> strong_abs g0 ->
  exists g1 g2 k, gm_allocate g0 = Ok g1 /\ gm_init (A := RA) data dev g1 = Ok g2 /\
    km_train (A := RA) (gc_dim g0) data [] (fun _ => n0 (A := RA)) (init_kmeans (gc_n g0)) = Ok k /\ gm_ready g2 /\
    (forall c, (c < gc_n g0)%nat -> weight g2 c = / INR (gc_n g0)) /\
    (forall c d, (c < gc_n g0)%nat -> (d < gc_dim g0)%nat -> gmean (comp_at g2 c) d = nth (c * gc_dim g0 + d) (km_centers k) 0) /\
    (forall c i j, (c < gc_n g0)%nat -> (i < gc_dim g0)%nat -> (j < gc_dim g0)%nat -> gcov (comp_at g2 c) i j = init_cov g0 dev data c i j).
Proof.
  intros g0 dev data Hn HD Ld Hne Hf Hseg SA. destruct (alloc_shape g0 Hn HD) as (g1 & E1 & S1 & B1 & D1 & I1 & W1 & P1 & _).
  assert (N1 : gc_n g1 = gc_n g0) by (unfold gc_n; rewrite P1; reflexivity).
  destruct (init_total g1 dev data S1) as (g2 & k' & E2 & EK & R2 & SR2 & _ & _ & D2 & _ & _ & P2 & VW & VM & VC).
  { rewrite D1. exact Ld. } { exact Hne. } { rewrite D1. exact Hf. } { rewrite N1. exact Hseg. }
  { unfold strong_abs, gc_mode in *. rewrite P1. exact SA. }
  exists g1, g2, k'. rewrite N1, D1 in *. split; [exact E1|]. split; [exact E2|]. split; [exact EK|]. split; [exact R2|]. split; [exact VW|]. split; [intros; apply VM; assumption|].
  intros c i j Hc Hi Hj. rewrite VC by assumption. unfold init_cov, init_reg, gc_mode, gc_n. rewrite P1. reflexivity.
Qed.
Print Assumptions C74_initialisation.
Example C74_meets : forall m, (1 <= gc_n (ex_new m))%nat /\ good_dims (ex_new m) /\ length [1] = gc_dim (ex_new m) /\ ex_data <> [] /\
  Forall (Forall (fun x => length x = gc_dim (ex_new m))) ex_data /\ (1 <= seg_count (A := RA) (gc_n (ex_new m)) ex_data)%nat /\ strong_abs (ex_new m).
Proof. exact ex_facts. Qed.

(** A phrase with fewer frames than components: the segments are empty and the covariances are not numbers,
    in binary64, with no error. *)
Definition nan_class (fexp fln : f64 -> f64) (m : cmode) : gclass (FA fexp fln) :=
  let A := FA fexp fln in
  mkGC (A := A) false 1 0 3 (mkGmmP (A := A) 2 (n0 (A := A)) (n1 (A := A)) m) [] [] [] [] (ring_new (n0 (A := A)) 1 3) (n0 (A := A)) (n0 (A := A)) [] [].
Theorem C74_short_phrase_refuted : forall fexp fln m, let A := FA fexp fln in
  exists g1 g2, gm_allocate (nan_class fexp fln m) = Ok g1 /\ gm_init (A := A) [[[n1 (A := A)]]] [n1 (A := A)] g1 = Ok g2 /\
    forallb (fun k => forallb (nisnan (a := A)) (g_cov k)) (gc_comp g2) = true /\ length (gc_comp g2) = 2%nat.
Proof.
  intros fexp fln m A. assert (X : match gm_allocate (nan_class fexp fln m) with Ok g1 => match gm_init (A := A) [[[n1 (A := A)]]] [n1 (A := A)] g1 with
    Ok g2 => forallb (fun k => forallb (nisnan (a := A)) (g_cov k)) (gc_comp g2) && Nat.eqb (length (gc_comp g2)) 2 | _ => false end | _ => false end = true).
  { subst A. destruct m; vm_compute; reflexivity. }
  destruct (gm_allocate (nan_class fexp fln m)) as [g1| |]; try discriminate. destruct (gm_init [[[n1 (A := A)]]] [n1 (A := A)] g1) as [g2| |] eqn:E; try discriminate.
  apply andb_prop in X. destruct X as (X1 & X2). apply Nat.eqb_eq in X2. exists g1, g2. auto.
Qed.
Print Assumptions C74_short_phrase_refuted.
