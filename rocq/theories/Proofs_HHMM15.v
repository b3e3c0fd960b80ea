(** Labels after class operations; masses and exits after a reset; class posteriors. *)
From Coq Require Import String List Bool Arith ZArith QArith Reals Lra Lia.
From Verif Require Import Base BaseFacts Arith RFacts Model_Map Model_Ring Model_Gaussian Model_Config Model_KMeans Model_GMM Model_HMM Model_HHMM
  Spec_Common Spec_Matrix Spec_Gaussian Spec_GMM Spec_HMM Spec_HHMM Spec_HHMM2 Spec_HHMM3 Spec_HHMM4 Spec_HHMM5
  Proofs_Map Proofs_GMM Proofs_HMM4 Proofs_HMM5 Proofs_HHMM Proofs_HHMM4 Proofs_HHMM6 Proofs_HHMM7 Proofs_HHMM8 Proofs_HHMM11 Proofs_HHMM12.
Import ListNotations.
Local Open Scope list_scope.

Section Labels.
  Context {A : arith}.
  Lemma in_mput_keys : forall V (ms : list (string * V)) k v l, In l (map fst (mput String.eqb String.ltb ms k v)) <-> l = k \/ In l (map fst ms).
  Proof.
    intros V ms k v l. induction ms as [|(k' & v') ms IH]; [cbn; intuition|]. cbn [mput]. destruct (String.eqb_spec k k') as [->|D].
    - cbn. intuition.
    - destruct (String.ltb k k'); cbn; [intuition|]. cbn in IH. rewrite IH. intuition.
  Qed.
  Lemma in_filter_keys : forall V (f : string -> bool) (ms : list (string * V)) l, In l (map fst (filter (fun e => f (fst e)) ms)) <-> In l (map fst ms) /\ f l = true.
  Proof.
    intros V f ms l. rewrite !in_map_iff. split.
    - intros (e & E & H). apply filter_In in H. destruct H as (H1 & H2). subst l. split; [exists e; auto|exact H2].
    - intros ((e & E & H) & F). exists e. split; [exact E|]. apply filter_In. subst l. auto.
  Qed.
  Lemma set_labels : forall ms (m : hhmm A), hh_labels (hh_set_cls ms m) = map fst ms.
  Proof. reflexivity. Qed.

  Lemma apply_labels : forall (o : hh_op A) m, class_op o -> settled m -> exists m' e, hh_apply o m = Ok (m', e) /\ settled m' /\
    (e = None \/ exists l, o = ORemove l /\ ~ In l (hh_labels m) /\ e = Some OutOfRange) /\
    forall l, In l (hh_labels m') <-> label_after o (fun l => In l (hh_labels m)) l.
  Proof.
    intros o m HO HS. destruct o as [u f k|k| |failed| | |k h| | |]; try contradiction; cbn [hh_apply label_after].
    - destruct (apply_settled (OAdd u f k) m HO HS) as (m' & e & E & S' & HE). exists m', e. split; [exact E|]. split; [exact S'|]. split; [exact HE|].
      cbn [hh_apply] in E. unfold hh_add in E. set (ms := mput _ _ _ _ _) in E.
      assert (S1 : settled (hh_set_cls ms m)).
      { destruct HS as (H1 & H2 & H3 & H4). split; [exact H1|]. split; [|split; [exact H3|exact H4]]. cbn [hh_cls hh_set_cls]. apply Forall_forall. intros (l & h) Hin. apply in_mput in Hin. rewrite Forall_forall in H2.
        destruct Hin as [Hin|Hin].
        - inversion Hin; subst. destruct (mget String.eqb (hh_cls m) k) as [h0|] eqn:G; [|split; [reflexivity|apply H4]]. apply (mget_in _ String.eqb_eq) in G. destruct (H2 _ G) as (F1 & F2). split; [exact F1|]. apply H4.
        - apply H2, Hin. }
      destruct (update_settled _ S1) as (m2 & E2 & _ & EL). rewrite E2 in E. inversion E; subst. unfold hh_labels. rewrite EL. cbn [hh_cls hh_set_cls]. intro l. unfold ms. apply in_mput_keys.
    - unfold hh_remove. destruct (mget String.eqb (hh_cls m) k) as [h|] eqn:G.
      + set (ms := mdel _ _ _). assert (S1 : settled (hh_set_cls ms m)) by apply (filter_steady _ m HS). destruct (reset_settled _ S1) as (m1 & E1 & S2 & L1 & _). cbn [bind]. rewrite E1. cbn [bind]. destruct (update_settled _ S2) as (m2 & E2 & S3 & L2). rewrite E2.
        exists m2, None. split; [reflexivity|]. split; [exact S3|]. split; [left; reflexivity|]. intro l. unfold hh_labels. rewrite L2, L1. cbn [hh_cls hh_set_cls]. unfold ms, mdel. rewrite (in_filter_keys _ (fun l => negb (String.eqb k l))). destruct (String.eqb_spec k l); cbn; intuition congruence.
      + exists m, (Some OutOfRange). assert (NI : ~ In k (hh_labels m)).
        { unfold hh_labels. intro Hin. apply in_map_iff in Hin. destruct Hin as ((k' & h) & <- & Hin). cbn in G. revert G Hin. generalize (hh_cls m). induction l as [|(a & b) l IH]; [intros _ []|]. cbn. destruct (String.eqb_spec k' a); [discriminate|]. intros G [Heq|Hin]; [congruence|]. exact (IH G Hin). }
        split; [reflexivity|]. split; [exact HS|]. split; [right; exists k; auto|]. intro l. split; [intro H; split; [exact H|intros ->; contradiction]|intros (H & _); exact H].
    - destruct (apply_settled OClear m I HS) as (m' & e & E & S' & HE). exists m', e. split; [exact E|]. split; [exact S'|]. split; [exact HE|]. cbn [hh_apply] in E. unfold hh_clear in E.
      assert (S1 : settled (hh_set_cls [] m)) by (destruct HS as (H1 & H2 & H3 & H4); split; [exact H1|split; [constructor|split; assumption]]). destruct (reset_settled _ S1) as (m1 & E1 & _ & L1 & _). rewrite E1 in E. cbn [bind] in E. inversion E; subst. intro l. unfold hh_labels. cbn [hh_cls hh_set_top]. rewrite L1. cbn. tauto.
    - unfold hh_join. set (ms := filter _ _). assert (S1 : settled (hh_set_cls ms m)) by apply (filter_steady _ m HS). destruct (reset_settled _ S1) as (m1 & E1 & S2 & L1 & _). rewrite E1. cbn [bind]. destruct (update_settled _ S2) as (m2 & E2 & S3 & L2). rewrite E2.
      exists m2, None. split; [reflexivity|]. split; [exact S3|]. split; [left; reflexivity|]. intro l. unfold hh_labels. rewrite L2, L1. cbn [hh_cls hh_set_cls]. unfold ms. rewrite (in_filter_keys _ (fun l => negb (failed l))). rewrite negb_true_iff. tauto.
    - destruct (reset_settled _ HS) as (m1 & E1 & S2 & L1 & _). rewrite E1. cbn [bind]. exists m1, None. split; [reflexivity|]. split; [exact S2|]. split; [left; reflexivity|]. intro l. unfold hh_labels. rewrite L1. tauto.
    - destruct (apply_settled (OContents k h) m HO HS) as (m' & e & E & S' & HE). exists m', e. split; [exact E|]. split; [exact S'|]. split; [exact HE|]. cbn [hh_apply] in E. inversion E; subst. intro l. unfold hh_labels. cbn [hh_cls hh_set_cls]. rewrite map_map.
      rewrite (map_ext _ fst); [tauto|]. intros (a & b). cbn. destruct (String.eqb k a); reflexivity.
  Qed.
End Labels.

Local Open Scope R_scope.

(** The first observation after a second reset, with an Ergodic class. *)
Lemma mass_below : forall m x, hh_resettable m -> (forall c, (c < hh_size m)%nat -> 0 <= left_over m (hh_left m) c) -> length x = hh_obs_dim m -> (exists c, (c < hh_size m)%nat /\ hc_mode (hcl m c) = Ergodic) ->
  exists m2, hh_plays [[x]; [x]] m = Ok m2 /\ hh_mass m2 < 1.
Proof.
  intros m x HR HL Lx (c & Hc & HM). pose proof HR as (HU & _ & _). pose proof (hh_same_refl m HU) as SR. assert (FX : Forall (fun x => length x = hh_obs_dim m) [x]) by (constructor; [exact Lx|constructor]).
  destruct (play_ok m m [x] HR SR HR HL FX) as (m1 & m2 & E1 & E2 & S1 & F1 & L1 & A1 & R2 & L2).
  assert (I1 : forall c, (c < hh_size m)%nat -> 0 <= left_over m (hh_left m1) c) by (intros d Hd; rewrite (left_of m _ (hh_left m) d (L1 d Hd)); apply HL; exact Hd).
  destruct (hh_filters_report m m1 HU S1 F1 I1 [] x FX) as (m2' & E2' & AT2 & CR & _ & _). cbn [app] in E2', CR, AT2. assert (EQ : Ok m2' = Ok m2) by (transitivity (hh_filters (A := RA) [x] m1); [symmetry; exact E2'|exact E2]). inversion EQ; subst m2'.
  assert (HI : hh_left m2 c = hh_inst m (hh_left m1) [x] c) by (destruct (CR c Hc) as (HH & _); exact HH).
  destruct (play_ok m m2 [x] HR ltac:(exact (proj1 AT2)) R2 L2 FX) as (m3 & m4 & E3 & E4 & S3 & F3 & L3 & A3 & R4 & L4).
  exists m4. split. { unfold hh_plays. cbn [foldM]. rewrite E1. cbn [bind]. rewrite E2. cbn [bind]. rewrite E3. cbn [bind]. rewrite E4. reflexivity. }
  rewrite (mass_ok m (hh_left m3) [x] m4 HU ltac:(discriminate) A3). cbn [hh_scale].
  assert (P3 : forall d, (d < hh_size m)%nat -> 0 <= left_over m (hh_left m3) d) by (intros d Hd; rewrite (left_of m _ (hh_left m2) d (L3 d Hd)); apply L2; exact Hd).
  assert (PC : 0 < left_over m (hh_left m3) c). { rewrite (left_of m _ (hh_left m2) c (L3 c Hc)). unfold left_over. rewrite HM, HI. apply inst_at_pos; try assumption. discriminate. }
  pose proof (hh_lik_pos m HU [x] ltac:(discriminate)) as LP. assert (0 < Rsum (hh_size m) (left_over m (hh_left m3))) by (apply Rsum_pos_one with c; assumption).
  apply Rmult_lt_reg_r with (hh_lik m [x] + Rsum (hh_size m) (left_over m (hh_left m3))); [lra|]. unfold Rdiv. rewrite Rmult_assoc, Rinv_l by lra. lra.
Qed.

(** The exit likelihoods after the first observation are those from before the reset. *)
Lemma exits_stale : forall m x, hh_resettable m -> (forall c, (c < hh_size m)%nat -> 0 <= left_over m (hh_left m) c) -> length x = hh_obs_dim m ->
  exists m2, hh_plays [[x]] m = Ok m2 /\ forall c, (c < hh_size m)%nat -> h_exlik (hc_run (hcl m2 c)) = h_exlik (hc_run (hcl m c)) /\ h_exratio (hc_run (hcl m2 c)) = h_exratio (hc_run (hcl m c)).
Proof.
  intros m x HR HL Lx. pose proof HR as (HU & _ & _). destruct (hh_reset_ok m HR) as (m1 & E1 & S1 & F1 & L1). assert (FX : Forall (fun x => length x = hh_obs_dim m) [x]) by (constructor; [exact Lx|constructor]).
  assert (I1 : forall c, (c < hh_size m)%nat -> 0 <= left_over m (hh_left m1) c) by (intros d Hd; rewrite (left_of m _ (hh_left m) d (proj1 (L1 d Hd))); apply HL; exact Hd).
  destruct (hh_filters_report m m1 HU S1 F1 I1 [] x FX) as (m2 & E2 & _ & _ & XS & _). cbn [app] in E2. exists m2. split; [unfold hh_plays; cbn [foldM]; rewrite E1; cbn [bind]; change (num RA) with R in *; rewrite E2; reflexivity|].
  intros c Hc. destruct (XS eq_refl c Hc) as (H1 & H2). destruct (L1 c Hc) as (_ & H3 & H4). split; congruence.
Qed.

(** The normalised instantaneous likelihoods are the class posteriors. *)
Lemma class_posterior : forall m u xs, hh_usable m -> (forall c, (c < hh_size m)%nat -> 0 <= left_over m u c) -> xs <> [] ->
  ((2 <= length xs)%nat \/ forall c, (c < hh_size m)%nat -> hc_mode (hcl m c) = LeftRight) -> forall c, (c < hh_size m)%nat -> hh_inst m u xs c / Rsum (hh_size m) (hh_inst m u xs) = hh_class m xs c.
Proof.
  intros m u xs HU HL Hne HX c Hc. pose proof (hh_lik_pos m HU xs Hne) as LP. pose proof (scale_le m u (removelast xs) HU HL) as SP.
  assert (E : forall d, (d < hh_size m)%nat -> hh_inst m u xs d = hh_scale m u (removelast xs) * hh_lik m xs * hh_class m xs d).
  { intros d Hd. unfold hh_inst. replace (match xs with [_] => left_over m u d | _ => 0 end) with 0; [ring|]. destruct xs as [|x [|y xs]]; [contradiction| |reflexivity]. destruct HX as [HX|HX]; [cbn in HX; lia|]. unfold left_over. rewrite HX by exact Hd. reflexivity. }
  rewrite (E c Hc). rewrite (Rsum_ext _ _ (fun d => hh_scale m u (removelast xs) * hh_lik m xs * hh_class m xs d)) by exact E. rewrite Rsum_scal_l, (hh_total m HU xs Hne). field. split; lra.
Qed.
(** Their sum is the likelihood of the observation. *)
Lemma inst_total : forall m u xs, hh_usable m -> xs <> [] -> (forall c, (c < hh_size m)%nat -> hc_mode (hcl m c) = LeftRight) -> Rsum (hh_size m) (hh_inst m u xs) = hh_lik m xs.
Proof.
  intros m u xs HU Hne HX. pose proof (hh_lik_pos m HU) as LP.
  assert (LZ : forall d, (d < hh_size m)%nat -> left_over m u d = 0) by (intros d Hd; unfold left_over; rewrite HX by exact Hd; reflexivity).
  assert (SC : forall ys, hh_scale m u ys = 1). { intros [|y [|z ys]]; [reflexivity| |reflexivity]. cbn [hh_scale]. rewrite (Rsum_zero _ (left_over m u)) by exact LZ. specialize (LP [y] ltac:(discriminate)). rewrite Rplus_0_r. apply Rinv_r. lra. }
  rewrite (Rsum_ext _ _ (fun d => hh_lik m xs * hh_class m xs d)).
  - rewrite Rsum_scal_l, (hh_total m HU xs Hne). ring.
  - intros d Hd. unfold hh_inst. rewrite SC. replace (match xs with [_] => left_over m u d | _ => 0 end) with 0; [ring|]. destruct xs as [|x [|y xs]]; [reflexivity| |reflexivity]. symmetry. apply LZ, Hd.
Qed.
