(** The classes met during training, and how far an update can lower the likelihood. *)
From Coq Require Import String List Bool Arith Lia Reals Lra.
From Verif Require Import Base BaseFacts Arith RFacts Model_Gaussian Model_KMeans Model_GMM Spec_Common Spec_Matrix Spec_Det Spec_Gaussian Spec_GMM Spec_EM
  Proofs_DetFacts Proofs_Gaussian Proofs_KMeans Proofs_GMM Proofs_GMM2 Proofs_GMM3 Proofs_GMM4 Proofs_HMM11 Proofs_PD Proofs_EM.
Import ListNotations.
Local Open Scope R_scope.

Lemma qform_delta : forall n A d, (d < n)%nat -> qform n A (delta d) = A d d.
Proof.
  intros n A d Hd. rewrite qform_ip, ip_delta_l by exact Hd. rewrite (Rsum_single n d); [unfold delta; rewrite Nat.eqb_refl; ring|exact Hd|].
  intros k _ Hne. unfold delta. destruct (Nat.eqb_spec d k); [congruence|ring].
Qed.

Lemma qform_diag : forall n a x, qform n (fun i j => if Nat.eqb i j then a i else 0) x = Rsum n (fun i => a i * (x i * x i)).
Proof.
  intros n a x. unfold qform. apply Rsum_ext. intros i Hi. rewrite (Rsum_single n i); [rewrite Nat.eqb_refl; ring|exact Hi|].
  intros j _ Hne. destruct (Nat.eqb_spec i j); [congruence|ring].
Qed.

Lemma qform_plus : forall n A B x, qform n (fun i j => A i j + B i j) x = qform n A x + qform n B x.
Proof. intros. unfold qform. rewrite <- Rsum_plus. apply Rsum_ext. intros. rewrite <- Rsum_plus. apply Rsum_ext. intros. ring. Qed.

Lemma wsq_pos : forall n a (x : nat -> R), (forall i, (i < n)%nat -> 0 < a i) -> (exists i, (i < n)%nat /\ x i <> 0) -> 0 < Rsum n (fun i => a i * (x i * x i)).
Proof.
  intros n a x H (i & Hi & Hx). apply (Rsum_pos_one n _ i); [|exact Hi|].
  - intros j Hj. apply Rmult_le_pos; [left; apply H, Hj|apply Rle_0_sqr].
  - apply Rmult_lt_0_compat; [apply H, Hi|]. apply Rsqr_pos_lt. exact Hx.
Qed.

Lemma strong_pos : forall g, strong_reg g -> forall d, (d < gc_dim g)%nat -> 0 < nth d (gc_reg g) 0.
Proof.
  intros g (_ & H) d Hd. specialize (H d Hd). destruct (gc_mode g); [|exact H]. unfold eps9 in H. assert (0 < / 10 ^ 9) by (apply Rinv_0_lt_compat, pow_lt; lra). lra.
Qed.

Lemma reg_proper : forall g, strong_reg g -> regularised g -> proper g.
Proof.
  intros g SR RG c Hc. destruct (RG c Hc) as (W & V & sV & pV & E). split; [exact W|]. split.
  - intros i j Hi Hj. rewrite (E i j Hi Hj), (E j i Hj Hi). rewrite (Nat.eqb_sym j i). destruct (Nat.eqb_spec i j) as [->|]; [reflexivity|]. destruct (gc_mode g); [apply sV; assumption|reflexivity].
  - intros x Hx. destruct (gc_mode g) eqn:M.
    + rewrite (qform_ext (gc_dim g) _ (fun i j => V i j + if Nat.eqb i j then nth i (gc_reg g) 0 else 0)).
      * rewrite qform_plus, (qform_diag _ (fun i => nth i (gc_reg g) 0)). pose proof (pV x). pose proof (wsq_pos _ (fun i => nth i (gc_reg g) 0) x (strong_pos g SR) Hx). cbv beta in *. lra.
      * intros i j Hi Hj. rewrite E by assumption. destruct (Nat.eqb_spec i j) as [->|]; [reflexivity|ring].
    + rewrite (qform_ext (gc_dim g) _ (fun i j => if Nat.eqb i j then V i i + nth i (gc_reg g) 0 else 0)) by (intros; apply E; assumption).
      rewrite (qform_diag _ (fun i => V i i + nth i (gc_reg g) 0)). apply (wsq_pos _ (fun i => V i i + nth i (gc_reg g) 0)); [|exact Hx].
      intros i Hi. pose proof (pV (delta i)). rewrite qform_delta in H by exact Hi. pose proof (strong_pos g SR i Hi). lra.
Qed.

Lemma reg_update : forall g frames g', gm_ready g -> frames <> [] -> after_update g frames g' -> regularised g'.
Proof.
  intros g frames g' (Sh & I & D) Hne (SC & L1 & L2 & W & _ & M & V) c Hc. destruct SC as (_ & ED & _ & _ & EP & _ & ER & _).
  assert (EN : gc_n g' = gc_n g) by (unfold gc_n; rewrite EP; reflexivity). assert (EM : gc_mode g' = gc_mode g) by (unfold gc_mode; rewrite EP; reflexivity).
  rewrite EN in Hc. rewrite ED, EM, ER. split.
  - rewrite (W c Hc). apply Rdiv_lt_0_compat; [apply mass_pos; try assumption; [apply Sh|apply D]|]. apply lt_0_INR. destruct frames; [contradiction|cbn; lia].
  - exists (wcov g frames c). split; [|split].
    + intros i j _ _. unfold wcov. f_equal. apply Rlsum_map_ext. intros. ring.
    + intro x. apply wcov_psd; try assumption. apply D.
    + intros i j Hi Hj. rewrite (V c Hc i j Hi Hj). unfold new_cov. destruct (Nat.eqb_spec i j) as [->|]; reflexivity.
Qed.

Lemma reg_init : forall (g g' : gclass RA) (dev : list R) (data : kdata RA), gm_shape g -> length dev = gc_dim g -> (1 <= seg_count (gc_n g) data)%nat ->
  gc_dim g' = gc_dim g -> gc_par g' = gc_par g -> gc_reg g' = init_reg g dev -> (forall c, (c < gc_n g)%nat -> 0 < weight g' c) ->
  (forall c, (c < gc_n g)%nat -> forall i j, (i < gc_dim g)%nat -> (j < gc_dim g)%nat -> gcov (comp_at g' c) i j = init_cov g dev data c i j) -> regularised g'.
Proof.
  intros g g' dev data Hs Hdev Hseg ED EP ER W V c Hc.
  assert (EN : gc_n g' = gc_n g) by (unfold gc_n; rewrite EP; reflexivity). assert (EM : gc_mode g' = gc_mode g) by (unfold gc_mode; rewrite EP; reflexivity).
  rewrite EN in Hc. rewrite ED, EM, ER. split; [apply W, Hc|]. pose proof (seg_nonempty g dev data Hdev Hseg c Hc) as NE.
  exists (plain_cov (seg_frames (gc_n g) c data)). split; [|split].
  - intros i j _ _. unfold plain_cov, avg at 1 4. f_equal. apply Rlsum_map_ext. intros. ring.
  - intro v. apply (plain_cov_psd _ _ v NE).
  - intros i j Hi Hj. rewrite (V c Hc i j Hi Hj). unfold init_cov. destruct (Nat.eqb_spec i j) as [->|]; reflexivity.
Qed.

Section Bound.
  Variables (g : gclass RA) (frames : list (list R)).
  Hypothesis Rg : gm_ready g.
  Hypothesis Hne : frames <> [].

  Lemma comp_inv : forall c, (c < gc_n g)%nat -> is_inverse (gc_dim g) (gcov (comp_at g c)) (ginv (comp_at g c)) /\ g_mode (comp_at g c) = gc_mode g /\ g_dim (comp_at g c) = gc_dim g.
  Proof.
    intros c Hc. destruct Rg as ((_ & _ & Lc & _ & F) & I & _).
    pose proof (Forall_nth_at _ _ no_gauss F c ltac:(rewrite Lc; exact Hc)) as (_ & _ & Ed & _ & Em).
    pose proof (Forall_nth_at _ _ no_gauss I c ltac:(rewrite Lc; exact Hc)) as (Ic & _).
    fold (comp_at g c) in *. rewrite Ed in Ic. auto.
  Qed.

  Lemma reg_part_le : proper g -> regularised g -> reg_part g frames g <= / 2 * (INR (gc_dim g) * INR (length frames)).
  Proof.
    intros Pg RG. unfold reg_part. apply Rmult_le_compat_l; [lra|].
    rewrite <- (mass_sum g frames) by apply Rg. rewrite (Rmult_comm (INR _)), <- Rsum_scal_r. apply Rsum_le. intros c Hc.
    apply Rmult_le_compat_l; [left; apply mass_pos; try assumption; apply Rg|].
    destruct (RG c Hc) as (_ & V & sV & pV & E). destruct (Pg c Hc) as (_ & sC & pC). destruct (comp_inv c Hc) as (Ic & Em & _).
    pose proof (trace_nonneg _ _ _ V sC pC Ic pV) as T. rewrite <- (inverse_trace _ _ _ sC Ic).
    replace (trace (gc_dim g) (ginv (comp_at g c)) V) with
      (trace (gc_dim g) (ginv (comp_at g c)) (gcov (comp_at g c)) - Rsum (gc_dim g) (fun d => nth d (gc_reg g) 0 * ginv (comp_at g c) d d)) in T; [lra|].
    unfold trace. rewrite <- Rsum_minus. apply Rsum_ext. intros i Hi.
    replace (nth i (gc_reg g) 0 * ginv (comp_at g c) i i) with (Rsum (gc_dim g) (fun j => if Nat.eqb i j then nth j (gc_reg g) 0 * ginv (comp_at g c) j j else 0)).
    - rewrite <- Rsum_minus. apply Rsum_ext. intros j Hj. rewrite (E i j Hi Hj). destruct (Nat.eqb_spec i j) as [->|Hij]; [ring|].
      destruct (gc_mode g); [ring|]. unfold ginv, stored. rewrite Em. destruct (Nat.eqb_spec i j); [congruence|ring].
    - rewrite (Rsum_single _ i); [rewrite Nat.eqb_refl; reflexivity|exact Hi|]. intros j _ Hij. destruct (Nat.eqb_spec i j); [congruence|reflexivity].
  Qed.
End Bound.

Lemma reg_part_nonneg : forall g frames h, gm_ready g -> frames <> [] -> gm_ready h -> proper h -> gc_n h = gc_n g -> gc_dim h = gc_dim g ->
  (forall d, (d < gc_dim g)%nat -> 0 <= nth d (gc_reg g) 0) -> 0 <= reg_part g frames h.
Proof.
  intros g frames h Rg Hne Rh Ph EN ED HR. unfold reg_part. apply Rmult_le_pos; [lra|]. apply Rsum_nonneg. intros c Hc.
  apply Rmult_le_pos; [left; apply mass_pos; try assumption; apply Rg|]. apply Rsum_nonneg. intros d Hd. apply Rmult_le_pos; [apply HR, Hd|].
  rewrite <- EN in Hc. destruct (comp_inv h Rh c Hc) as (Ic & _). destruct (Ph c Hc) as (_ & sC & pC).
  rewrite <- ED in Hd. rewrite <- (qform_delta (gc_dim h) (ginv (comp_at h c)) d Hd). exact (inv_psd _ _ _ _ sC pC Ic).
Qed.

Lemma floor_part_0 : forall g frames, above_floor g frames -> floor_part g frames = 0.
Proof.
  intros g frames H. unfold floor_part. rewrite (Rlsum_map_ext _ (fun _ => 0)); [rewrite Rlsum_map_const; ring|].
  intros x Hx. apply Rsum_zero. intros c Hc. unfold comp_lik. fold (comp_pdf (comp_at g c) x). rewrite Rmax_right by (apply H; assumption). ring.
Qed.

Lemma frames_ll_score : forall g frames, proper g -> Rlsum (map (fun x => ln (Rsum (gc_n g) (score g x))) frames) = frames_ll g frames.
Proof.
  intros g frames P. unfold frames_ll. apply Rlsum_map_ext. intros x Hx. f_equal. apply Rsum_ext. intros c Hc. apply score_eq, P, Hc.
Qed.

(** ** Updates whose covariances can be inverted, whatever the regularisation *)
Lemma update_invertible : forall g frames, gm_ready g -> Forall (fun x => length x = gc_dim g) frames -> frames <> [] -> (gc_dim g <= length (gc_reg g))%nat ->
  (forall c k, (c < gc_n g)%nat -> trained_comp g frames c k -> pos_cov k) ->
  exists g', gm_update (A := RA) frames g = Ok (g', Rlsum (map (fun x => ln (Rsum (gc_n g) (score g x))) frames)) /\ after_update g frames g' /\ gm_ready g'.
Proof.
  intros g frames (Hs & Hi & D0) Hf Hne Hr PC. destruct (update_pre g frames Hs Hi Hf Hr) as (cs & L & T & U). rewrite U.
  set (g1 := gc_set_comp cs _) in *. destruct (inverses_ok g1) as (cs' & EI & F).
  { apply (Forall_at _ _ no_gauss). unfold g1. cbn [gc_comp gc_set_comp]. rewrite L. intros c Hc. pose proof (T c Hc) as TC. split; [exact (proj1 (proj1 TC))|exact (PC c _ Hc TC)]. }
  rewrite EI. cbn [bind]. unfold g1 in *. cbn [gc_comp gc_set_comp] in *. eexists. split; [reflexivity|].
  assert (FS : Forall2 same_params cs cs'). { clear -F. induction F as [|k k' l l' (P & _) F IH]; constructor; assumption. }
  pose proof (update_returns g frames Hs (proj1 D0) Hf Hne Hr cs cs' L T FS) as AU. split; [exact AU|].
  assert (L' : length cs' = gc_n g) by (rewrite <- (Forall2_len _ _ _ F); exact L).
  destruct Hs as (H1 & _ & _ & HB & _). destruct AU as (_ & LC & _ & _ & D & _).
  split; [split; [exact H1|split; [exact LC|split; [exact L'|split; [exact HB|]]]]|split; [|exact D]]; apply (Forall_at _ _ no_gauss);
    cbn [gc_comp gc_set_comp]; intros c Hc; rewrite L' in Hc; destruct (Forall2_at _ _ _ F c no_gauss no_gauss ltac:(rewrite L; exact Hc)) as (SP & W & I).
  - destruct (T c Hc) as (FC & _). exact (fits_same g _ _ FC SP W).
  - exact I.
Qed.

(** ** Training *)
Lemma training_reg : forall (g0 : gclass RA) (dev : list R) (data : list (list (list R))) k,
  (1 <= gc_n g0)%nat -> good_dims g0 -> length dev = gc_dim g0 -> data <> [] -> Forall (Forall (fun x => length x = gc_dim g0)) data ->
  (1 <= seg_count (A := RA) (gc_n g0) data)%nat -> strong_abs g0 ->
  concat data <> [] /\ Forall (fun x => length x = gc_dim g0) (concat data) /\
  exists g1 g2 g3, gm_allocate g0 = Ok g1 /\ gm_init (A := RA) data dev g1 = Ok g2 /\ gm_updates (A := RA) k (concat data) g2 = Ok g3 /\
    gm_ready g3 /\ strong_reg g3 /\ regularised g3 /\ gc_dim g3 = gc_dim g0 /\ gc_n g3 = gc_n g0 /\ gc_reg g3 = init_reg g0 dev.
Proof.
  intros g0 dev data k Hn HD Ld Hne Hf Hseg SA. destruct (alloc_shape g0 Hn HD) as (g1 & E1 & S1 & B1 & D1 & I1 & W1 & P1 & _).
  assert (N1 : gc_n g1 = gc_n g0) by (unfold gc_n; rewrite P1; reflexivity).
  assert (SA1 : strong_abs g1) by (unfold strong_abs, gc_mode in *; rewrite P1; exact SA).
  destruct (init_total g1 dev data S1) as (g2 & k' & E2 & _ & R2 & SR2 & ER2 & _ & D2 & _ & _ & P2 & VW & _ & VC); try assumption.
  { rewrite D1. exact Ld. } { rewrite D1. exact Hf. } { rewrite N1. exact Hseg. }
  assert (N2 : gc_n g2 = gc_n g0) by (unfold gc_n; rewrite P2, P1; reflexivity).
  assert (RG2 : regularised g2).
  { apply (reg_init g1 g2 dev data S1); try assumption; [rewrite D1; exact Ld|rewrite N1; exact Hseg|]. intros c Hc. rewrite (VW c Hc). apply Rinv_0_lt_compat, lt_0_INR. rewrite N1. lia. }
  assert (HC : concat data <> []).
  { intro E. assert (X : seg_count (A := RA) (gc_n g0) data = 0%nat); [|lia]. clear -E Hn. unfold seg_count.
    assert (F : forall p, In p data -> p = []). { intros p Hp. destruct p as [|x p]; [reflexivity|]. exfalso. assert (In x (concat data)) by (apply in_concat; exists (x :: p); split; [exact Hp|left; reflexivity]). rewrite E in H. contradiction. }
    clear E. induction data as [|p data IH]; [reflexivity|]. cbn. rewrite (F p (or_introl eq_refl)). cbn [length]. rewrite Nat.div_0_l by lia. cbn. apply IH. intros q Hq. apply F. right. exact Hq. }
  assert (HF : Forall (fun x => length x = gc_dim g0) (concat data)).
  { apply Forall_forall. intros x Hx. apply in_concat in Hx. destruct Hx as (p & Hp & Hx). rewrite Forall_forall in Hf. specialize (Hf p Hp). rewrite Forall_forall in Hf. apply Hf, Hx. }
  split; [exact HC|]. split; [exact HF|].
  assert (ER : gc_reg g2 = init_reg g0 dev) by (rewrite ER2; unfold init_reg; rewrite P1; reflexivity).
  assert (D20 : gc_dim g2 = gc_dim g0) by congruence.
  assert (X : exists g3, gm_updates (A := RA) k (concat data) g2 = Ok g3 /\ gm_ready g3 /\ strong_reg g3 /\ regularised g3 /\ gc_dim g3 = gc_dim g0 /\ gc_n g3 = gc_n g0 /\ gc_reg g3 = init_reg g0 dev).
  { clear E2 VC VW. clear S1 D2 P2 ER2. revert g2 R2 SR2 RG2 N2 ER D20. induction k as [|k IH]; intros g2 R2 SR2 RG2 N2 ER D20; cbn [gm_updates].
    - exists g2. auto 10.
    - pose proof R2 as (Sh & I & D). destruct (update_total g2 (concat data) Sh I (proj1 D) ltac:(rewrite D20; exact HF) HC (proj1 SR2) SR2) as (g & E & AU & R).
      rewrite E. cbn [bind]. pose proof (reg_update g2 _ g R2 HC AU) as RG. destruct AU as ((T1 & T2 & T3 & T4 & T5 & T6 & T7 & T8) & _). apply IH.
      + exact R.
      + unfold strong_reg, gc_mode in *. rewrite T2, T5, T7. exact SR2.
      + exact RG.
      + unfold gc_n in *. rewrite T5. exact N2.
      + congruence.
      + congruence. }
  destruct X as (g3 & E3 & R). exists g1, g2, g3. auto.
Qed.
