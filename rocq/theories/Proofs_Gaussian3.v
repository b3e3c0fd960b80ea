From Coq Require Import String List Bool Arith Lia ZArith Reals Lra.
From Verif Require Import Base BaseFacts Arith RFacts Model_Json Proofs_Json Model_Phrase Model_Matrix Spec_Matrix Proofs_MatrixGen Proofs_Matrix
  Spec_Det Proofs_DetFacts Proofs_Det Model_Gaussian Spec_Gaussian Proofs_Gaussian Proofs_Gaussian2.
Import ListNotations.
Local Open Scope R_scope.

Lemma gcov_same : forall g g' : gauss RA, same_params g g' -> gcov g' = gcov g.
Proof. intros g g' (E1 & E2 & E3 & E4 & E5 & E6). unfold gcov. rewrite E2, E4, E6. reflexivity. Qed.
Lemma gmean_same : forall g g' : gauss RA, same_params g g' -> gmean g' = gmean g.
Proof. intros g g' (E1 & E2 & E3 & E4 & E5 & E6). unfold gmean. rewrite E5. reflexivity. Qed.

(** ** C29 *)
Lemma update_density : forall g : gauss RA, wf_gauss g -> pos_cov g ->
  exists g', g_update_inv g = (g', Ok tt) /\ same_params g g' /\ wf_gauss g' /\
    forall x B, (g_dim g <= length x)%nat -> is_inverse (g_dim g) (gcov g) B ->
      g_likelihood g' x = Ok (Rmax min_likelihood (normal_pdf (g_dim g) (gcov g) B (gmean g) (fun i => nth i x 0))).
Proof.
  intros g W P. destruct (update_inv_ok g W P) as (g' & E & S & W' & I). exists g'. do 3 (split; auto).
  intros x B Hx HB. pose proof S as (_ & Ed & _). rewrite (likelihood_inverted g' x B); auto; rewrite <- ?Ed, ?(gcov_same _ _ S), ?(gmean_same _ _ S); auto.
Qed.

(** ** C30 *)
Lemma inverted_diag : forall n c a, is_inverse n (stored Diagonal n c) (stored Diagonal n a) ->
  forall i, (i < n)%nat -> nth i c 0 * nth i a 0 = 1.
Proof.
  intros n c a H i Hi. destruct (H i i Hi Hi) as (H1 & _). unfold mmul, stored, delta in H1.
  rewrite (Rsum_single n i) in H1; auto.
  - rewrite Nat.eqb_refl in H1. exact H1.
  - intros k Hk Hne. replace (i =? k)%nat with false by (symmetry; apply Nat.eqb_neq; auto). lra.
Qed.

Lemma inverted_input : forall g : gauss RA, wf_gauss g -> inverted g -> g_bim g = true ->
  forall i j, (i < g_din g)%nat -> (j < g_din g)%nat ->
  (match g_mode g with Full => ginv_in g | Diagonal => ginv g end) i j = ginv_in g i j.
Proof.
  intros g (_ & _ & _ & L4) (I1 & _ & _ & I2) HB i j Hi Hj. destruct (I2 HB) as (I3 & _). destruct (L4 HB) as (Hle & _).
  unfold gcov, ginv, ginv_in in *. destruct (g_mode g); auto.
  pose proof (inverted_diag _ _ _ I1 i ltac:(lia)) as E1. 
  assert (I4 : is_inverse (g_din g) (stored Diagonal (g_din g) (g_cov g)) (stored Diagonal (g_din g) (g_inv_in g))) by exact I3.
  pose proof (inverted_diag _ _ _ I4 i Hi) as E2. unfold stored. destruct (Nat.eqb i j); auto.
  apply Rmult_eq_reg_l with (nth i (g_cov g) 0). { exact (eq_trans E1 (eq_sym E2)). }
  intro Z. apply R1_neq_R0. rewrite <- E1. etransitivity; [apply (f_equal (fun z => z * _)); exact Z|apply Rmult_0_l].
Qed.

Lemma likelihood_input_inverted : forall (g : gauss RA) x B, wf_gauss g -> inverted g -> g_bim g = true ->
  (g_din g <= length x)%nat -> is_inverse (g_din g) (gcov g) B ->
  g_likelihood_input g x = Ok (Rmax min_likelihood (normal_pdf (g_din g) (gcov g) B (gmean g) (fun i => nth i x 0))).
Proof.
  intros g x B W I HB Hx HI. pose proof I as (_ & _ & _ & I2). destruct (I2 HB) as (I3 & HD & HP & _).
  rewrite likelihood_input_R by (auto; lra). unfold normal_pdf. rewrite HD. rewrite (qform_ext (g_din g) _ B). reflexivity.
  intros i j Hi Hj. rewrite (inverted_input g W I HB i j Hi Hj). apply (is_inverse_unique _ _ _ _ I3 HI); auto.
Qed.

Lemma normal_pdf_ext : forall n C C' B mu mu' x, (forall i j, (i < n)%nat -> (j < n)%nat -> C i j = C' i j) ->
  (forall i, (i < n)%nat -> mu i = mu' i) -> normal_pdf n C B mu x = normal_pdf n C' B mu' x.
Proof.
  intros. unfold normal_pdf. rewrite (Rdet_ext' n C C') by auto. rewrite (qform_ext_vec n B _ (fun i => x i - mu' i)). reflexivity.
  intros. rewrite H0; auto.
Qed.

Lemma input_submodel : forall (g h : gauss RA) x, wf_gauss g -> pos_cov g -> g_bim g = true ->
  wf_gauss h -> pos_cov h -> g_dim h = g_din g ->
  (forall i, (i < g_din g)%nat -> gmean h i = gmean g i) ->
  (forall i j, (i < g_din g)%nat -> (j < g_din g)%nat -> gcov h i j = gcov g i j) ->
  (g_din g <= length x)%nat ->
  exists g' h', g_update_inv g = (g', Ok tt) /\ g_update_inv h = (h', Ok tt) /\
    g_likelihood_input g' x = g_likelihood h' x.
Proof.
  intros g h x Wg Pg HB Wh Ph Hd Hm Hc Hx.
  destruct (update_inv_ok g Wg Pg) as (g' & Eg & Sg & Wg' & Ig). destruct (update_inv_ok h Wh Ph) as (h' & Eh & Sh & Wh' & Ih).
  exists g', h'. do 2 (split; auto). pose proof Sg as (Bg & Dg & Ng & Mg & _). pose proof Sh as (_ & Dh & _).
  pose proof Ih as (Ih1 & _).
  assert (HB' : g_bim g' = true) by congruence.
  assert (GI : is_inverse (g_din g') (gcov g') (ginv h')).
  { rewrite <- Ng. apply (is_inverse_ext (g_din g) (gcov h') _ (ginv h')); auto. rewrite <- Hd, Dh. exact Ih1.
    intros. rewrite (gcov_same _ _ Sh), (gcov_same _ _ Sg). auto. }
  rewrite (likelihood_input_inverted g' x (ginv h')) by (auto; lia).
  rewrite (likelihood_inverted h' x (ginv h')); auto; [|lia].
  rewrite <- Dh, Hd, <- Ng, (gcov_same _ _ Sh), (gcov_same _ _ Sg), (gmean_same _ _ Sh), (gmean_same _ _ Sg).
  rewrite (normal_pdf_ext (g_din g) (gcov g) (gcov h) (ginv h') (gmean g) (gmean h)). reflexivity.
  intros. symmetry. auto. intros. symmetry. auto.
Qed.

(** ** C32 *)
Lemma regression_R : forall (g : gauss RA) x B, wf_gauss g -> inverted g -> g_bim g = true ->
  (g_din g <= length x)%nat -> is_inverse (g_din g) (gcov g) B ->
  g_regression g x = Ok (tab (g_dim g - g_din g) (cond_mean g B (fun i => nth i x 0))).
Proof.
  intros g x B W I HB Hx HI. pose proof W as (L1 & L2 & _ & L4). destruct (L4 HB) as (Hle & L5).
  pose proof I as (_ & _ & _ & I2). destruct (I2 HB) as (I3 & _).
  unfold g_regression. rewrite HB. cbn [negb]. unfold usub. replace (g_din g <=? g_dim g)%nat with true by (symmetry; apply Nat.leb_le; auto).
  cbn [bind]. apply tabM_ok. intros d Hd. change (num RA) with R in *. rewrite rd_R by lia. cbn [bind]. unfold cond_mean.
  destruct (g_mode g) eqn:HM; cbn [csize] in *.
  - rewrite (accM_ok (g_din g) _ (fun e => gcov g (g_din g + d)%nat e * Rsum (g_din g) (fun f => B e f * (nth f x 0 - gmean g f)))).
    + reflexivity.
    + intros e He. rewrite (accM_ok (g_din g) _ (fun f => B e f * (nth f x 0 - gmean g f))).
      * cbn [bind]. rewrite rd_R by (rewrite L2; apply idx_lt; lia). cbn [bind]. apply (f_equal (@Ok _)). cbn [nmul RA].
        rewrite n0_RA, Rplus_0_l. unfold gcov. rewrite HM. unfold stored, rcell. rewrite (Nat.add_comm d). reflexivity.
      * intros f Hf. rewrite rd_R by (rewrite L5; apply idx_lt; auto). cbn [bind]. rewrite !rd_R by lia. cbn [bind].
        apply (f_equal (@Ok _)). cbn [nmul nsub RA]. rewrite <- (is_inverse_unique _ _ _ _ I3 HI e f He Hf).
        unfold ginv_in. rewrite HM. reflexivity.
  - apply (f_equal (@Ok _)). rewrite Rsum_zero. { unfold gmean. symmetry. apply Rplus_0_r. }
    intros e He. unfold gcov. rewrite HM. unfold stored. replace (g_din g + d =? e)%nat with false by (symmetry; apply Nat.eqb_neq; lia). lra.
Qed.

Lemma update_regression : forall g : gauss RA, wf_gauss g -> pos_cov g -> g_bim g = true ->
  exists g', g_update_inv g = (g', Ok tt) /\
    forall B, is_inverse (g_din g) (gcov g) B ->
      (forall x, (g_din g <= length x)%nat ->
         g_regression g' x = Ok (tab (g_dim g - g_din g) (cond_mean g B (fun i => nth i x 0)))) /\
      length (g_out g') = csize (g_mode g) (g_dim g - g_din g) /\
      forall i j, (i < g_dim g - g_din g)%nat -> (j < g_dim g - g_din g)%nat ->
        gout g' i j = gcov g (g_din g + i)%nat (g_din g + j)%nat -
          Rsum (g_din g) (fun k => Rsum (g_din g) (fun l =>
            gcov g (g_din g + i)%nat k * B k l * gcov g l (g_din g + j)%nat)).
Proof.
  intros g W P HB. destruct (update_inv_ok g W P) as (g' & E & S & W' & I). exists g'. split; auto.
  intros B HI. pose proof S as (Eb & Ed & En & Em & _).
  assert (HB' : g_bim g' = true) by congruence.
  pose proof I as (_ & _ & _ & I2). destruct (I2 HB') as (I3 & _ & _ & Lo & Ho).
  rewrite <- ?En, <- ?Ed, <- ?Em, (gcov_same _ _ S) in *. split; [|split]; auto.
  - intros x Hx. rewrite (regression_R g' x B); auto; rewrite <- ?En, ?(gcov_same _ _ S); auto.
    rewrite <- Ed. unfold cond_mean. rewrite <- En, (gcov_same _ _ S), (gmean_same _ _ S). reflexivity.
  - intros i j Hi Hj. rewrite Ho by auto. apply f_equal. apply Rsum_ext. intros k Hk. apply Rsum_ext. intros l Hl.
    rewrite (is_inverse_unique _ _ _ _ I3 HI k l Hk Hl). reflexivity.
Qed.

(** ** C31 *)
Lemma diag_pd : forall n (C : nat -> nat -> R) rho, (forall i j, (i < n)%nat -> (j < n)%nat -> i <> j -> C i j = 0) ->
  (forall d, (d < n)%nat -> rho <= C d d) -> pd_margin n C rho.
Proof.
  intros n C rho H0 H x.
  rewrite (qform_ext n C (fun i j => if Nat.eqb i j then C i i else 0)).
  - rewrite (qform_diag n (fun i => C i i)). rewrite <- Rsum_scal_l. apply Rsum_le. intros i Hi. specialize (H i Hi).
    pose proof (Rle_0_sqr (x i)). unfold Rsqr in *. nra.
  - intros i j Hi Hj. destruct (Nat.eqb_spec i j) as [->|]; auto.
Qed.

Lemma modes_agree : forall g h : gauss RA, wf_gauss g -> wf_gauss h -> g_mode g = Diagonal -> g_mode h = Full ->
  g_bim h = g_bim g -> g_dim h = g_dim g -> g_din h = g_din g -> g_mean h = g_mean g ->
  (forall i j, (i < g_dim g)%nat -> (j < g_dim g)%nat -> gcov h i j = gcov g i j) ->
  (forall d, (d < g_dim g)%nat -> eps9 <= gcov g d d) ->
  exists g' h', g_update_inv g = (g', Ok tt) /\ g_update_inv h = (h', Ok tt) /\
    g_det g' = g_det h' /\
    (forall i j, (i < g_dim g)%nat -> (j < g_dim g)%nat -> ginv g' i j = ginv h' i j) /\
    (forall x, length x = g_dim g -> g_likelihood g' x = g_likelihood h' x) /\
    (g_bim g = true -> g_det_in g' = g_det_in h' /\
      (forall i j, (i < g_dim g - g_din g)%nat -> (j < g_dim g - g_din g)%nat -> gout g' i j = gout h' i j) /\
      forall x y, length x = g_din g -> length y = (g_dim g - g_din g)%nat ->
        g_likelihood_input g' x = g_likelihood_input h' x /\
        g_likelihood_bimodal g' x y = g_likelihood_bimodal h' x y /\
        g_regression g' x = g_regression h' x).
Proof.
  intros g h Wg Wh Mg Mh Hb Hd Hn Hmean Hc Hpos.
  assert (Off : forall i j, i <> j -> gcov g i j = 0).
  { intros i j Hij. unfold gcov. rewrite Mg. unfold stored. apply Nat.eqb_neq in Hij. rewrite Hij. reflexivity. }
  assert (Pg : pos_cov g). { unfold pos_cov. rewrite Mg. intros d Hd'. specialize (Hpos d Hd'). pose proof eps9_pos. lra. }
  assert (Ph : pos_cov h).
  { unfold pos_cov. rewrite Mh. exists eps9. split; [lra|]. rewrite Hd. apply (pd_margin_ext _ (gcov g)). { intros. symmetry. auto. } apply diag_pd; auto. }
  destruct (update_inv_ok g Wg Pg) as (g' & Eg & Sg & Wg' & Ig). destruct (update_inv_ok h Wh Ph) as (h' & Eh & Sh & Wh' & Ih).
  exists g', h'. do 2 (split; auto).
  pose proof Sg as (Bg & Dg & Ng & _). pose proof Sh as (Bh & Dh & Nh & _).
  pose proof (gcov_same _ _ Sg) as Cg. pose proof (gcov_same _ _ Sh) as Ch. pose proof (gmean_same _ _ Sg) as Gg. pose proof (gmean_same _ _ Sh) as Gh.
  assert (GM : gmean h = gmean g) by (unfold gmean; rewrite Hmean; reflexivity).
  pose proof Ig as (I1 & D1 & P1 & Ig2). pose proof Ih as (I1' & D1' & P1' & Ih2).
  rewrite Cg, <- Dg in I1, D1. rewrite Ch, <- Dh, Hd in I1', D1'.
  assert (I1'' : is_inverse (g_dim g) (gcov g) (ginv h')) by (apply (is_inverse_ext _ (gcov h) _ (ginv h')); auto).
  assert (LK : forall x, (g_dim g <= length x)%nat -> g_likelihood g' x = g_likelihood h' x).
  { intros x Hx. rewrite (likelihood_inverted g' x (ginv h')) by (auto; rewrite ?Cg, <- ?Dg; auto).
    rewrite (likelihood_inverted h' x (ginv h')) by (auto; rewrite ?Ch, <- ?Dh, ?Hd; auto).
    rewrite Cg, <- Dg, Gg, Ch, <- Dh, Hd, Gh, GM. rewrite (normal_pdf_ext (g_dim g) (gcov g) (gcov h) (ginv h') (gmean g) (gmean g)). reflexivity.
    intros; symmetry; auto. auto. }
  split; [|split; [|split]].
  - rewrite D1, D1'. apply Rdet_ext'. intros. symmetry. auto.
  - intros i j Hi Hj. apply (is_inverse_unique _ _ _ _ I1 I1''); auto.
  - intros x Hx. apply LK. lia.
  - intros HB. assert (HB1 : g_bim g' = true) by congruence. assert (HB2 : g_bim h' = true) by congruence.
    destruct Wg as (_ & _ & _ & L4). destruct (L4 HB) as (Hle & _).
    assert (Hci : forall i j, (i < g_din g)%nat -> (j < g_din g)%nat -> gcov h i j = gcov g i j) by (intros; apply Hc; lia).
    destruct (Ig2 HB1) as (J1 & K1 & Q1 & Lo & Ho). destruct (Ih2 HB2) as (J1' & K1' & Q1' & Lo' & Ho').
    rewrite Cg, <- Ng in J1, K1. rewrite Ch, <- Nh, Hn in J1', K1'.
    assert (J1'' : is_inverse (g_din g) (gcov g) (ginv_in h')) by (apply (is_inverse_ext _ (gcov h) _ (ginv_in h')); auto).
    split; [|split].
    + rewrite K1, K1'. apply Rdet_ext'. intros. symmetry. auto.
    + intros i j Hi Hj. rewrite Ho by (rewrite <- ?Dg, <- ?Ng; auto). rewrite Ho' by (rewrite <- ?Dh, <- ?Nh, ?Hd, ?Hn; auto).
      rewrite Cg, <- Ng, Ch, <- Nh, Hn. rewrite Hc by lia. apply f_equal. apply Rsum_ext. intros k Hk. apply Rsum_ext. intros l Hl.
      rewrite !Hc by lia. rewrite (is_inverse_unique _ _ _ _ J1 J1'' k l Hk Hl). reflexivity.
    + intros x y Hx Hy. split; [|split].
      * rewrite (likelihood_input_inverted g' x (ginv_in h')) by (auto; rewrite ?Cg, <- ?Ng; auto; change (num RA) with R in *; lia).
        rewrite (likelihood_input_inverted h' x (ginv_in h')) by (auto; rewrite ?Ch, <- ?Nh, ?Hn; auto; change (num RA) with R in *; lia).
        rewrite Cg, <- Ng, Gg, Ch, <- Nh, Hn, Gh, GM. rewrite (normal_pdf_ext (g_din g) (gcov g) (gcov h) (ginv_in h') (gmean g) (gmean g)). reflexivity.
        intros; symmetry; auto. auto.
      * rewrite !likelihood_bimodal_R by (auto; congruence). apply LK. rewrite app_length. change (num RA) with R in *. lia.
      * rewrite (regression_R g' x (ginv_in h')) by (auto; rewrite ?Cg, <- ?Ng; auto; change (num RA) with R in *; lia).
        rewrite (regression_R h' x (ginv_in h')) by (auto; rewrite ?Ch, <- ?Nh, ?Hn; auto; change (num RA) with R in *; lia).
        rewrite <- Dg, <- Ng, <- Dh, <- Nh, Hd, Hn. apply (f_equal (@Ok _)). apply tab_ext. intros d Hd'. unfold cond_mean.
        rewrite Cg, <- Ng, Gg, Ch, <- Nh, Hn, Gh, GM. apply f_equal. apply Rsum_ext. intros e He. rewrite Hc by lia. reflexivity.
Qed.
