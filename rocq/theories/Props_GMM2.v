(** C85: expectation-maximisation on mixtures and the likelihood of the training data. *)
From Coq Require Import String List Bool Arith ZArith Reals Lra Lia.
From Verif Require Import Base BaseFacts Arith RFacts Model_Ring Model_Gaussian Model_Config Model_KMeans Model_GMM
  Spec_Common Spec_Matrix Spec_Det Spec_Gaussian Spec_KMeans Spec_GMM Spec_EM Proofs_Gaussian Proofs_KMeans Proofs_GMM Proofs_GMM2 Proofs_GMM3 Proofs_GMM4 Proofs_PD Proofs_EM Proofs_EM2 Proofs_EM3.
Import ListNotations.
Local Open Scope list_scope.
Local Open Scope R_scope.

(** C85 *)
(** An update raises the likelihood, less the part of the regularisation and what the floor of the densities
    adds; it returns the likelihood before. *)
Theorem C85_update : forall (g : gclass RA) frames g' lp, gm_ready g -> proper g -> Forall (fun x => length x = gc_dim g) frames -> frames <> [] ->
  (gc_dim g <= length (gc_reg g))%nat -> gm_update (A := RA) frames g = Ok (g', lp) -> gm_ready g' -> proper g' ->
  lp = frames_ll g frames /\
  frames_ll g frames - reg_part g frames g - floor_part g frames <= frames_ll g' frames - reg_part g frames g' /\
  (above_floor g frames -> frames_ll g frames - reg_part g frames g <= frames_ll g' frames - reg_part g frames g') /\
  ((forall d, (d < gc_dim g)%nat -> nth d (gc_reg g) 0 = 0) -> above_floor g frames -> frames_ll g frames <= frames_ll g' frames).
Proof.
  intros g frames g' lp Rg Pg Hf Hne Hr E Rg' Pg'. pose proof Rg as (S & I & D). destruct (update_partial g frames S I (proj1 D) Hf Hne Hr g' lp E) as (AU & ->).
  pose proof (em_step g g' frames Rg Pg Rg' Pg' AU Hf Hne) as M. split; [apply frames_ll_score, Pg|]. split; [exact M|]. split.
  - intro AF. rewrite (floor_part_0 g frames AF) in M. lra.
  - intros Z AF. rewrite (floor_part_0 g frames AF) in M. assert (RZ : forall h, reg_part g frames h = 0).
    { intro h. unfold reg_part. rewrite Rsum_zero; [ring|]. intros c Hc. rewrite Rsum_zero; [ring|]. intros d Hd. rewrite (Z d Hd). ring. }
    rewrite !RZ in M. lra.
Qed.
Print Assumptions C85_update.

(** In a training that starts from the initialisation, after any number of updates: the two next updates
    return likelihoods that satisfy the same inequality, and the second one is lower than the first one by at
    most half the dimension per frame, if no density is below the floor. *)
Theorem C85_training : forall (g0 : gclass RA) (dev : list R) (data : list (list (list R))) k,
  (1 <= gc_n g0)%nat -> good_dims g0 -> length dev = gc_dim g0 -> data <> [] -> Forall (Forall (fun x => length x = gc_dim g0)) data ->
  (1 <= seg_count (A := RA) (gc_n g0) data)%nat -> strong_abs g0 ->
  exists g1 g2 g g' g'' lp lp', gm_allocate g0 = Ok g1 /\ gm_init (A := RA) data dev g1 = Ok g2 /\ gm_updates (A := RA) k (concat data) g2 = Ok g /\
    gm_update (A := RA) (concat data) g = Ok (g', lp) /\ gm_update (A := RA) (concat data) g' = Ok (g'', lp') /\
    lp = frames_ll g (concat data) /\ lp' = frames_ll g' (concat data) /\
    lp - reg_part g (concat data) g - floor_part g (concat data) <= lp' - reg_part g (concat data) g' /\
    lp - / 2 * (INR (gc_dim g0) * INR (length (concat data))) - floor_part g (concat data) <= lp' /\
    (above_floor g (concat data) -> lp - / 2 * (INR (gc_dim g0) * INR (length (concat data))) <= lp').
Proof.
  intros g0 dev data k Hn HD Ld Hne Hf Hseg SA.
  destruct (training_reg g0 dev data k Hn HD Ld Hne Hf Hseg SA) as (HC & HF & g1 & g2 & g & E1 & E2 & E3 & R3 & SR3 & RG3 & D3 & N3 & ER3).
  pose proof (reg_proper g SR3 RG3) as P3. rewrite <- D3 in HF. pose proof R3 as (Sh & I & D).
  destruct (update_total g (concat data) Sh I (proj1 D) HF HC (proj1 SR3) SR3) as (g' & E & AU & R').
  pose proof (reg_update g _ g' R3 HC AU) as RG'. pose proof AU as ((T1 & T2 & T3 & T4 & T5 & T6 & T7 & T8) & _).
  assert (SR' : strong_reg g') by (unfold strong_reg, gc_mode in *; rewrite T2, T5, T7; exact SR3).
  pose proof (reg_proper g' SR' RG') as P'. pose proof R' as (Sh' & I' & D'). assert (HF' := HF). rewrite <- T2 in HF'.
  destruct (update_total g' (concat data) Sh' I' (proj1 D') HF' HC (proj1 SR') SR') as (g'' & E' & _ & _).
  destruct (C85_update g (concat data) g' _ R3 P3 HF HC (proj1 SR3) E R' P') as (L1 & M & _).
  pose proof (reg_part_le g (concat data) R3 HC P3 RG3) as B1. rewrite D3 in B1.
  assert (B2 : 0 <= reg_part g (concat data) g').
  { apply reg_part_nonneg; try assumption; [unfold gc_n; rewrite T5; reflexivity|]. intros d Hd. left. apply strong_pos; assumption. }
  rewrite frames_ll_score in E by exact P3. rewrite frames_ll_score in E' by exact P'.
  exists g1, g2, g, g', g'', (frames_ll g (concat data)), (frames_ll g' (concat data)).
  split; [exact E1|]. split; [exact E2|]. split; [exact E3|]. split; [exact E|]. split; [exact E'|]. split; [reflexivity|]. split; [reflexivity|]. split; [exact M|]. split; [lra|].
  intro AF. rewrite (floor_part_0 g (concat data) AF) in M. lra.
Qed.
Print Assumptions C85_training.

(** The training of the examples: two components on one phrase of two frames, -1 and 1. *)
Definition duo_new (m : cmode) : gclass RA :=
  mkGC (A := RA) false 1 0 3 (mkGmmP (A := RA) 2 (/ 100) (/ 2) m) [] [] [] [] (ring_new (0 : num RA) 1 3) 0 0 [] [].
Example C85_training_meets : forall m, (1 <= gc_n (duo_new m))%nat /\ good_dims (duo_new m) /\ length [1] = gc_dim (duo_new m) /\ [duo_frames] <> [] /\
  Forall (Forall (fun x => length x = gc_dim (duo_new m))) [duo_frames] /\ (1 <= seg_count (A := RA) (gc_n (duo_new m)) [duo_frames])%nat /\ strong_abs (duo_new m).
Proof.
  intro m. split; [cbn; lia|]. split; [unfold good_dims; cbn; lia|]. split; [reflexivity|]. split; [discriminate|]. split; [unfold duo_frames; repeat constructor|]. split; [cbn; lia|].
  unfold strong_abs, eps9. destruct m; cbn; lra.
Qed.

Lemma duo_start : forall m, exists g1 g2, gm_allocate (duo_new m) = Ok g1 /\ gm_init (A := RA) [duo_frames] [1] g1 = Ok g2 /\ duo g2 1 (/ 2) /\ gc_reg g2 = [/ 2] /\ strong_reg g2 /\ gc_mode g2 = m.
Proof.
  intro m. destruct (C85_training_meets m) as (Hn & HD & Ld & Hne & Hf & Hseg & SA). destruct (alloc_shape (duo_new m) Hn HD) as (g1 & E1 & S1 & B1 & D1 & I1 & W1 & P1 & _).
  assert (N1 : gc_n g1 = 2%nat) by (unfold gc_n; rewrite P1; reflexivity).
  destruct (init_total g1 [1] [duo_frames] S1) as (g2 & k' & E2 & EK & R2 & SR2 & ER & B2 & D2 & I2 & W2 & P2 & VW & VM & VC).
  { rewrite D1. exact Ld. } { exact Hne. } { rewrite D1. exact Hf. } { rewrite N1. exact Hseg. }
  { unfold strong_abs, gc_mode in *. rewrite P1. exact SA. }
  exists g1, g2. split; [exact E1|]. split; [exact E2|]. rewrite D1 in *. cbn [gc_dim duo_new] in *. rewrite N1 in *.
  destruct duo_train as (k & EK' & C0 & C1). rewrite EK' in EK. injection EK as <-.
  assert (RE : init_reg g1 [1] = [/ 2]). { unfold init_reg. rewrite P1. cbn [map gp_abs gp_rel gc_par duo_new]. f_equal. apply Rmax_left. lra. }
  split; [|split; [rewrite ER; exact RE|split; [exact SR2|unfold gc_mode; rewrite P2, P1; reflexivity]]].
  split; [exact R2|]. split; [unfold gc_n; rewrite P2, P1; reflexivity|]. split; [exact D2|].
  rewrite !VW, !VM, !VC by lia. cbn [Nat.mul Nat.add]. rewrite C0, C1. unfold init_cov. rewrite N1, RE. cbn [Nat.eqb].
  split; [cbn; lra|]. split; [cbn; lra|]. split; [reflexivity|]. split; [reflexivity|].
  unfold plain_cov, avg, seg_frames, duo_frames, Rlsum. cbn. split; field.
Qed.

(** The likelihood itself can go down, with every density above the floor. *)
Theorem C85_likelihood_refuted : forall m, exists (g0 : gclass RA) dev data g1 g2 g3 g4 lp lp',
  gc_mode g0 = m /\ (1 <= gc_n g0)%nat /\ good_dims g0 /\ length dev = gc_dim g0 /\ Forall (Forall (fun x => length x = gc_dim g0)) data /\
  (1 <= seg_count (A := RA) (gc_n g0) data)%nat /\ strong_abs g0 /\
  gm_allocate g0 = Ok g1 /\ gm_init (A := RA) data dev g1 = Ok g2 /\ gm_update (A := RA) (concat data) g2 = Ok (g3, lp) /\ gm_update (A := RA) (concat data) g3 = Ok (g4, lp') /\
  above_floor g2 (concat data) /\ above_floor g3 (concat data) /\ lp' < lp.
Proof.
  intro m. destruct (C85_training_meets m) as (Hn & HD & Ld & Hne & Hf & Hseg & SA). destruct (duo_start m) as (g1 & g2 & E1 & E2 & DU & ER & SR & _).
  pose proof DU as (R2 & N2 & D2 & _). pose proof R2 as (Sh & I & D).
  change (concat [duo_frames]) with duo_frames.
  destruct (update_total g2 duo_frames Sh I (proj1 D) ltac:(rewrite D2; unfold duo_frames; repeat constructor) ltac:(discriminate) (proj1 SR) SR) as (g3 & E3 & AU & R3).
  pose proof AU as ((T1 & T2 & T3 & T4 & T5 & T6 & T7 & T8) & _). pose proof R3 as (Sh3 & I3 & D3).
  assert (SR3 : strong_reg g3) by (unfold strong_reg, gc_mode in *; rewrite T2, T5, T7; exact SR).
  destruct (update_total g3 duo_frames Sh3 I3 (proj1 D3) ltac:(rewrite T2, D2; unfold duo_frames; repeat constructor) ltac:(discriminate) (proj1 SR3) SR3) as (g4 & E4 & _ & _).
  destruct (duo_down g2 g3 DU ltac:(rewrite ER; reflexivity) R3 AU) as (LT & A2 & A3).
  assert (P2 : forall c, (c < gc_n g2)%nat -> 0 < weight g2 c). { intros c Hc. destruct DU as (_ & _ & _ & W0 & W1 & _). rewrite N2 in Hc. assert (c = 0 \/ c = 1)%nat as [-> | ->] by lia; lra. }
  assert (P3 : proper g3). { apply (reg_proper g3 SR3). apply (reg_update g2 duo_frames g3 R2 ltac:(discriminate) AU). }
  rewrite frames_ll_score in E4 by exact P3.
  assert (E3' : Rlsum (map (fun x => ln (Rsum (gc_n g2) (score g2 x))) duo_frames) = frames_ll g2 duo_frames).
  { unfold frames_ll. apply Rlsum_map_ext. intros x Hx. f_equal. apply Rsum_ext. intros c Hc. apply score_eq, P2, Hc. }
  rewrite E3' in E3.
  exists (duo_new m), [1], [duo_frames], g1, g2, g3, g4, (frames_ll g2 duo_frames), (frames_ll g3 duo_frames). change (concat [duo_frames]) with duo_frames. cbn [gc_mode].
  split; [reflexivity|]. repeat (split; [assumption|]). exact LT.
Qed.
Print Assumptions C85_likelihood_refuted.

(** Without regularisation: the same class, its regularisation set to zero, in Diagonal mode. *)
Example C85_update_meets : exists (g g' : gclass RA) lp, gm_ready g /\ proper g /\ Forall (fun x => length x = gc_dim g) duo_frames /\ duo_frames <> [] /\
  (gc_dim g <= length (gc_reg g))%nat /\ gm_update (A := RA) duo_frames g = Ok (g', lp) /\ gm_ready g' /\ proper g' /\ gc_n g = 2%nat /\
  (forall d, (d < gc_dim g)%nat -> nth d (gc_reg g) 0 = 0) /\ above_floor g duo_frames.
Proof.
  destruct (duo_start Diagonal) as (g1 & g2 & E1 & E2 & DU & ER & SR & MD). set (g := gc_set_reg (A := RA) [0] g2).
  assert (DG : duo g 1 (/ 2)) by exact DU. pose proof DG as (Rg & N & D & W0 & W1 & M0 & M1 & S0 & S1).
  assert (Hf : Forall (fun x : list R => length x = gc_dim g) duo_frames) by (rewrite D; unfold duo_frames; repeat constructor).
  assert (Pg : proper g).
  { intros c Hc. rewrite N in Hc. rewrite D.
    assert (CV : gcov (comp_at g c) 0 0 = / 2) by (assert (c = 0 \/ c = 1)%nat as [-> | ->] by lia; assumption).
    split; [assert (c = 0 \/ c = 1)%nat as [-> | ->] by lia; lra|]. split.
    - intros i j Hi Hj. assert (i = 0)%nat as -> by lia. assert (j = 0)%nat as -> by lia. reflexivity.
    - intros x (i & Hi & Hx). assert (i = 0)%nat as -> by lia. unfold qform. cbn [Rsum]. rewrite CV. assert (0 < x 0%nat * x 0%nat) by (apply Rsqr_pos_lt; exact Hx). lra. }
  assert (MD' : gc_mode g = Diagonal) by exact MD.
  assert (WP : forall c, (c < gc_n g)%nat -> 0 < wcov g duo_frames c 0 0).
  { intros c Hc. unfold wcov. apply Rdiv_lt_0_compat; [|apply mass_pos; try assumption; [apply Rg|apply Rg|discriminate]].
    set (w := wmean g duo_frames c 0). unfold duo_frames, Rlsum. cbn [map fold_right nth].
    assert (R1 : 0 < resp g [-1] c) by (apply resp_pos; try assumption; apply Rg). assert (R2 : 0 < resp g [1] c) by (apply resp_pos; try assumption; apply Rg).
    rewrite !Rmult_assoc. destruct (Req_dec w 1) as [->|NE].
    - apply Rplus_lt_le_0_compat; [apply Rmult_lt_0_compat; lra|]. lra.
    - apply Rplus_le_lt_0_compat; [apply Rmult_le_pos; [lra|apply Rle_0_sqr]|]. assert (0 < (1 - w) * (1 - w)) by (apply Rsqr_pos_lt; lra). pose proof (Rmult_lt_0_compat _ _ R2 H). lra. }
  destruct (update_invertible g duo_frames Rg Hf ltac:(discriminate) ltac:(rewrite D; cbn; lia)) as (g' & E & AU & R').
  { intros c k Hc ((_ & _ & FD & _ & FM) & _ & V). unfold pos_cov. rewrite FM, MD'. intros d Hd. rewrite FD, D in Hd. assert (d = 0)%nat as -> by lia.
    rewrite V by (rewrite D; lia). unfold new_cov. cbn [Nat.eqb]. pose proof (WP c Hc). change (gc_reg g) with [0]. cbn [nth]. lra. }
  assert (P' : proper g').
  { pose proof (reg_update g duo_frames g' Rg ltac:(discriminate) AU) as RG. destruct AU as ((T1 & T2 & T3 & T4 & T5 & T6 & T7 & T8) & L1 & L2 & W & _ & M & V).
    assert (N' : gc_n g' = gc_n g) by (unfold gc_n; rewrite T5; reflexivity).
    intros c Hc. destruct (RG c Hc) as (WC & _). split; [exact WC|]. rewrite T2, D. rewrite N' in Hc. split.
    - intros i j Hi Hj. assert (i = 0)%nat as -> by lia. assert (j = 0)%nat as -> by lia. reflexivity.
    - intros x (i & Hi & Hx). assert (i = 0)%nat as -> by lia. unfold qform. cbn [Rsum]. rewrite (V c Hc 0%nat 0%nat) by (rewrite D; lia). unfold new_cov. cbn [Nat.eqb].
      pose proof (WP c Hc). assert (0 < x 0%nat * x 0%nat) by (apply Rsqr_pos_lt; exact Hx). pose proof (Rmult_lt_0_compat _ _ H H0). change (gc_reg g) with [0]. cbn [nth]. lra. }
  exists g, g'. eexists. split; [exact Rg|]. split; [exact Pg|]. split; [exact Hf|]. split; [discriminate|]. split; [rewrite D; cbn; lia|]. split; [exact E|]. split; [exact R'|]. split; [exact P'|].
  split; [exact N|]. split; [|apply (duo_above g 1 (/ 2) DG); lra]. intros d Hd. rewrite D in Hd. assert (d = 0)%nat as -> by lia. reflexivity.
Qed.
