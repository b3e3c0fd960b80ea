From Coq Require Import List Bool Arith Lia Reals Lra.
From Verif Require Import Base BaseFacts Arith RFacts Model_Phrase Model_Matrix Spec_Matrix Proofs_MatrixGen Proofs_Matrix
  Spec_Det Proofs_DetFacts Proofs_Det Model_Gaussian Spec_Gaussian.
Import ListNotations.
Local Open Scope R_scope.

(** ** Sums and products *)
Lemma accM_ok : forall n (f : nat -> res R) g a,
  (forall i, (i < n)%nat -> f i = Ok (g i)) -> @accM RA n f a = Ok (a + Rsum n g).
Proof.
  unfold accM. induction n; intros f g a H.
  - cbn. apply (f_equal (@Ok _)). change (num RA) with R in *. lra.
  - cbn [iterM]. rewrite (IHn f g a) by (intros; apply H; lia). cbn [bind]. rewrite H by lia. cbn [bind Rsum].
    apply (f_equal (@Ok _)). cbn [nadd RA]. change (num RA) with R in *. lra.
Qed.

Fixpoint Rprod (n : nat) (f : nat -> R) : R := match n with O => 1 | S n => Rprod n f * f n end.

Lemma Rprod_first : forall n f, Rprod (S n) f = f O * Rprod n (fun i => f (S i)).
Proof. induction n; intros f. cbn. lra. cbn [Rprod] in *. rewrite IHn. lra. Qed.

Lemma Rprod_pos : forall n f, (forall i, (i < n)%nat -> 0 < f i) -> 0 < Rprod n f.
Proof. induction n; intros f H. cbn; lra. cbn [Rprod]. apply Rmult_lt_0_compat; auto. Qed.

Lemma Rdet_diag : forall n A, (forall i j, (i < n)%nat -> (j < n)%nat -> i <> j -> A i j = 0) ->
  Rdet n A = Rprod n (fun i => A i i).
Proof.
  induction n; intros A H; [reflexivity|]. rewrite Rdet_S, Rprod_first.
  rewrite (Rsum_single (S n) 0); try lia.
  - rewrite (Rdet_ext' n _ (fun i k => A (S i) (S k))).
    2:{ intros. reflexivity. }
    rewrite IHn by (intros; apply H; lia). unfold sg. cbn. lra.
  - intros j Hj Hne. rewrite (H O j) by lia. lra.
Qed.

Lemma npow_RA : forall x n, @npow RA x n = x ^ n.
Proof. induction n; cbn [npow]. apply n1_RA. rewrite IHn. cbn. change (num RA) with R in *. ring. Qed.

(** ** Matrices *)
Lemma is_inverse_ext : forall n A A' B B', is_inverse n A B ->
  (forall i j, (i < n)%nat -> (j < n)%nat -> A i j = A' i j) ->
  (forall i j, (i < n)%nat -> (j < n)%nat -> B i j = B' i j) -> is_inverse n A' B'.
Proof.
  intros n A A' B B' H HA HB i j Hi Hj. destruct (H i j Hi Hj) as (H1 & H2). split.
  - rewrite <- H1. apply mmul_ext; intros; symmetry; auto.
  - rewrite <- H2. apply mmul_ext; intros; symmetry; auto.
Qed.

Lemma is_inverse_unique : forall n A B B', is_inverse n A B -> is_inverse n A B' ->
  forall i j, (i < n)%nat -> (j < n)%nat -> B i j = B' i j.
Proof.
  intros n A B B' H H' i j Hi Hj.
  transitivity (mmul n (mmul n B A) B' i j).
  - rewrite mmul_assoc. transitivity (mmul n B delta i j).
    + unfold mmul, delta. rewrite (Rsum_single n j); auto. rewrite Nat.eqb_refl. lra.
      intros k Hk Hne. apply Nat.eqb_neq in Hne. rewrite Hne. lra.
    + apply mmul_ext; auto. intros l Hl. symmetry. apply (proj1 (H' l j Hl Hj)).
  - transitivity (mmul n delta B' i j).
    + apply mmul_ext; auto. intros l Hl. apply (proj2 (H i l Hi Hl)).
    + unfold mmul, delta. rewrite (Rsum_single n i); auto. rewrite Nat.eqb_refl. lra.
      intros k Hk Hne. replace (i =? k)%nat with false; [lra|]. symmetry. apply Nat.eqb_neq. auto.
Qed.

Lemma is_inverse_diag : forall n (a : nat -> R), (forall d, (d < n)%nat -> a d <> 0) ->
  is_inverse n (fun i j => if Nat.eqb i j then a i else 0) (fun i j => if Nat.eqb i j then 1 / a i else 0).
Proof.
  intros n a H i j Hi Hj. unfold mmul, delta. split; rewrite (Rsum_single n i); auto; try (rewrite Nat.eqb_refl).
  - destruct (Nat.eqb_spec i j) as [->|]; [field; auto|lra].
  - intros k Hk Hne. replace (i =? k)%nat with false by (symmetry; apply Nat.eqb_neq; auto). lra.
  - destruct (Nat.eqb_spec i j) as [->|]; [field; auto|lra].
  - intros k Hk Hne. replace (i =? k)%nat with false by (symmetry; apply Nat.eqb_neq; auto). lra.
Qed.

Lemma qform_ext : forall n A B x, (forall i j, (i < n)%nat -> (j < n)%nat -> A i j = B i j) -> qform n A x = qform n B x.
Proof. intros. unfold qform. apply Rsum_ext. intros. apply Rsum_ext. intros. rewrite H; auto. Qed.

Lemma qform_ext_vec : forall n A x y, (forall i, (i < n)%nat -> x i = y i) -> qform n A x = qform n A y.
Proof. intros. unfold qform. apply Rsum_ext. intros. apply Rsum_ext. intros. rewrite !H; auto. Qed.

Lemma Rsum_zero_tail : forall n m f, (m <= n)%nat -> (forall i, (m <= i < n)%nat -> f i = 0) -> Rsum n f = Rsum m f.
Proof.
  intros n m f Hm H. replace n with (m + (n - m))%nat by lia. rewrite Rsum_split.
  rewrite (Rsum_zero (n - m)). lra. intros. apply H. lia.
Qed.

(** A leading principal block of a positive definite matrix is positive definite. *)
Lemma pd_margin_block : forall n m A rho, (m <= n)%nat -> pd_margin n A rho -> pd_margin m A rho.
Proof.
  intros n m A rho Hm H x. specialize (H (fun i => if Nat.ltb i m then x i else 0)).
  assert (E1 : Rsum n (fun i => (if Nat.ltb i m then x i else 0) * (if Nat.ltb i m then x i else 0)) = Rsum m (fun i => x i * x i)).
  { rewrite (Rsum_zero_tail n m); auto.
    - apply Rsum_ext. intros. apply Nat.ltb_lt in H0. rewrite H0. lra.
    - intros i Hi. replace (Nat.ltb i m) with false by (symmetry; apply Nat.ltb_ge; lia). lra. }
  assert (E2 : qform n A (fun i => if Nat.ltb i m then x i else 0) = qform m A x).
  { unfold qform. rewrite (Rsum_zero_tail n m); auto.
    - apply Rsum_ext. intros i Hi. rewrite (Rsum_zero_tail n m); auto.
      + apply Rsum_ext. intros j Hj. apply Nat.ltb_lt in Hi. rewrite Hi. apply Nat.ltb_lt in Hj. rewrite Hj. lra.
      + intros j Hj. replace (Nat.ltb j m) with false by (symmetry; apply Nat.ltb_ge; lia). lra.
    - intros i Hi. apply Rsum_zero. intros j Hj. replace (Nat.ltb i m) with false by (symmetry; apply Nat.ltb_ge; lia). lra. }
  cbv beta in H. rewrite E1, E2 in H. exact H.
Qed.

Lemma pd_margin_ext : forall n A B rho, (forall i j, (i < n)%nat -> (j < n)%nat -> A i j = B i j) -> pd_margin n A rho -> pd_margin n B rho.
Proof. intros n A B rho H HA x. rewrite <- (qform_ext n A B x H). apply HA. Qed.

Lemma bind_eq : forall {X Y} (m : res X) (f : X -> res Y) a y, m = Ok a -> f a = y -> bind m f = y.
Proof. intros. subst. reflexivity. Qed.

(** ** Reading stored vectors *)
Lemma rd_R : forall (v : list R) i, (i < length v)%nat -> rd v i = Ok (nth i v 0).
Proof. intros. apply rd_ok. auto. Qed.

Section Quad.
  Variables (n : nat) (inv mu x : list R).
  Hypothesis (Hm : (n <= length mu)%nat) (Hx : (n <= length x)%nat).
  Let e i := nth i x 0 - nth i mu 0.
  Let diff i := (let* a := rd x i in let* b := rd mu i in Ok (@nsub RA a b)).

  Lemma diff_ok : forall i, (i < n)%nat -> diff i = Ok (e i).
  Proof. intros. unfold diff. rewrite !rd_R by lia. reflexivity. Qed.

  Lemma quad_full : length inv = (n * n)%nat ->
    @accM RA n (fun l =>
      let* tmp := @accM RA n (fun k =>
        let* c := rd inv (l * n + k) in let* e := diff k in Ok (@nmul RA c e)) n0 in
      let* e := diff l in Ok (@nmul RA e tmp)) n0 = Ok (qform n (stored Full n inv) e).
  Proof.
    intros HL. rewrite (accM_ok n _ (fun l => e l * Rsum n (fun k => rcell n inv l k * e k))).
    - apply (f_equal (@Ok _)). rewrite n0_RA, Rplus_0_l. unfold qform. apply Rsum_ext. intros l Hl.
      rewrite <- Rsum_scal_l. apply Rsum_ext. intros k Hk. unfold stored. lra.
    - intros l Hl. rewrite (accM_ok n _ (fun k => rcell n inv l k * e k)).
      + cbn [bind]. rewrite diff_ok by auto. cbn [bind]. rewrite n0_RA, Rplus_0_l. reflexivity.
      + intros k Hk. rewrite rd_R by (rewrite HL; apply idx_lt; auto). cbn [bind]. rewrite diff_ok by auto. reflexivity.
  Qed.

  Lemma qform_diag : forall (a y : nat -> R), qform n (fun i j => if Nat.eqb i j then a i else 0) y = Rsum n (fun l => a l * y l * y l).
  Proof.
    intros. unfold qform. apply Rsum_ext. intros i Hi. rewrite (Rsum_single n i); auto.
    - rewrite Nat.eqb_refl. lra.
    - intros j Hj Hne. replace (i =? j)%nat with false by (symmetry; apply Nat.eqb_neq; auto). lra.
  Qed.

  Lemma quad_diag : (n <= length inv)%nat ->
    @accM RA n (fun l => let* c := rd inv l in let* e := diff l in Ok (@nmul RA (@nmul RA c e) e)) n0
    = Ok (qform n (stored Diagonal n inv) e).
  Proof.
    intros HL. rewrite (accM_ok n _ (fun l => nth l inv 0 * e l * e l)).
    - apply (f_equal (@Ok _)). rewrite n0_RA, Rplus_0_l. symmetry. apply (qform_diag (fun i => nth i inv 0)).
    - intros l Hl. rewrite rd_R by lia. cbn [bind]. rewrite diff_ok by auto. reflexivity.
  Qed.
End Quad.

Lemma floor_RA : @floor180 RA = min_likelihood.
Proof.
  unfold floor180, min_likelihood. cbn [nofQ RA]. unfold Q2R. cbn [QArith_base.Qnum QArith_base.Qden].
  rewrite Rmult_1_l. f_equal. rewrite pow_IZR. f_equal.
Qed.

Lemma density_RA : forall q det n,
  @g_density RA q det n = Rmax min_likelihood (exp (- / 2 * q) / sqrt (det * (2 * PI) ^ n)).
Proof.
  intros. unfold g_density. rewrite floor_RA, npow_RA, nZ_RA. cbn [nisnan nisinf RA npi nmul nsqrt ndiv nexp].
  rewrite !orb_false_r.
  replace (@nofQ RA (QArith_base.Qmake (-1) 2)) with (- / 2) by (cbn; unfold Q2R; cbn; lra).
  change (num RA) with R in *. set (p := _ / _). cbn [nltb RA]. unfold Rmax. destruct (Rlt_dec p min_likelihood), (Rle_dec min_likelihood p); auto; lra.
Qed.

(** ** Likelihoods *)
Lemma likelihood_R : forall (g : gauss RA) x, wf_gauss g -> (g_dim g <= length x)%nat -> g_det g <> 0 ->
  g_likelihood g x = Ok (Rmax min_likelihood
    (exp (- / 2 * qform (g_dim g) (ginv g) (fun i => nth i x 0 - gmean g i)) / sqrt (g_det g * (2 * PI) ^ g_dim g))).
Proof.
  intros g x (L1 & L2 & L3 & _) Hx Hd. unfold g_likelihood.
  replace (neqb (g_det g) n0) with false by (symmetry; rewrite n0_RA; apply neqb_RA_false; auto).
  rewrite <- density_RA. unfold ginv, gmean. destruct (g_mode g) eqn:EM; cbn [csize] in *; cbv zeta; change (num RA) with R in *.
  - eapply bind_eq; [apply (quad_full (g_dim g) (g_inv g) (g_mean g) x); lia || auto|reflexivity].
  - eapply bind_eq; [apply (quad_diag (g_dim g) (g_inv g) (g_mean g) x); lia || auto|reflexivity].
Qed.

Lemma likelihood_throws : forall (g : gauss RA) x, wf_gauss g -> (g_dim g <= length x)%nat ->
  (g_likelihood g x = Throw RuntimeError <-> g_det g = 0) /\
  (g_det g <> 0 -> exists p, g_likelihood g x = Ok p).
Proof.
  intros g x W Hx. split; [split|].
  - intros H. destruct (Req_dec (g_det g) 0) as [|N]; auto. rewrite likelihood_R in H by auto. discriminate.
  - intros E. unfold g_likelihood. rewrite E. replace (@neqb RA 0 n0) with true; auto. symmetry. rewrite n0_RA. apply neqb_RA_true. auto.
  - intros N. rewrite likelihood_R by auto. eauto.
Qed.

Lemma likelihood_inverted : forall (g : gauss RA) x B, wf_gauss g -> inverted g -> (g_dim g <= length x)%nat ->
  is_inverse (g_dim g) (gcov g) B ->
  g_likelihood g x = Ok (Rmax min_likelihood
    (normal_pdf (g_dim g) (gcov g) B (gmean g) (fun i => nth i x 0))).
Proof.
  intros g x B W (HI & HD & HP & _) Hx HB. rewrite likelihood_R by (auto; lra). unfold normal_pdf. rewrite HD.
  rewrite (qform_ext (g_dim g) (ginv g) B). reflexivity. intros. apply (is_inverse_unique _ _ _ _ HI HB); auto.
Qed.

(** The floor holds for every arithmetic, binary64 included. *)
Lemma density_floor : forall (A : arith) q det n, let p := @g_density A q det n in
  p = floor180 \/ (nltb p floor180 = false /\ nisnan p = false /\ nisinf (nabs p) = false).
Proof.
  intros. unfold p, g_density. destruct (_ || _ || _) eqn:E; auto. right.
  apply orb_false_iff in E. destruct E as (E & E3). apply orb_false_iff in E. destruct E. auto.
Qed.

Lemma likelihood_floor : forall (A : arith) (g : gauss A) x p,
  g_likelihood g x = Ok p \/ g_likelihood_input g x = Ok p \/ (exists y, g_likelihood_bimodal g x y = Ok p) ->
  p = floor180 \/ (nltb p floor180 = false /\ nisnan p = false /\ nisinf (nabs p) = false).
Proof.
  intros A g x p [H|[H|(y & H)]].
  - unfold g_likelihood in H. destruct (neqb _ _); [discriminate|]. apply bind_ok_inv in H. destruct H as (q & _ & H).
    inversion H. apply density_floor.
  - unfold g_likelihood_input in H. destruct (negb _); [discriminate|]. destruct (neqb _ _); [discriminate|].
    apply bind_ok_inv in H. destruct H as (q & _ & H). inversion H. apply density_floor.
  - unfold g_likelihood_bimodal in H. destruct (negb _); [discriminate|]. destruct (neqb _ _); [discriminate|].
    apply bind_ok_inv in H. destruct H as (no & _ & H). apply bind_ok_inv in H. destruct H as (q & _ & H).
    inversion H. apply density_floor.
Qed.

(** ** Bimodal likelihoods *)
Lemma likelihood_input_R : forall (g : gauss RA) x, wf_gauss g -> g_bim g = true -> (g_din g <= length x)%nat ->
  g_det_in g <> 0 ->
  g_likelihood_input g x = Ok (Rmax min_likelihood
    (exp (- / 2 * qform (g_din g) (match g_mode g with Full => ginv_in g | Diagonal => ginv g end)
            (fun i => nth i x 0 - gmean g i)) / sqrt (g_det_in g * (2 * PI) ^ g_din g))).
Proof.
  intros g x (L1 & L2 & L3 & L4) HB Hx Hd. destruct (L4 HB) as (Hle & L5). unfold g_likelihood_input. rewrite HB. cbn [negb].
  replace (neqb (g_det_in g) n0) with false by (symmetry; rewrite n0_RA; apply neqb_RA_false; auto).
  rewrite <- density_RA. unfold ginv, ginv_in, gmean. destruct (g_mode g) eqn:EM; cbn [csize] in *; cbv zeta; change (num RA) with R in *.
  - eapply bind_eq; [apply (quad_full (g_din g) (g_inv_in g) (g_mean g) x); lia || auto|reflexivity].
  - eapply bind_eq; [apply (quad_diag (g_din g) (g_inv g) (g_mean g) x); lia || auto|reflexivity].
Qed.

Lemma likelihood_bimodal_R : forall (g : gauss RA) x y, wf_gauss g -> g_bim g = true ->
  length x = g_din g -> length y = (g_dim g - g_din g)%nat ->
  g_likelihood_bimodal g x y = g_likelihood g (x ++ y).
Proof.
  intros g x y W HB Hx Hy. pose proof W as (L1 & L2 & L3 & L4). destruct (L4 HB) as (Hle & L5).
  assert (HL : length (x ++ y) = g_dim g) by (rewrite app_length; lia).
  unfold g_likelihood_bimodal. rewrite HB. cbn [negb].
  destruct (neqb (g_det g) n0) eqn:ED.
  { unfold g_likelihood. rewrite ED. reflexivity. }
  rewrite likelihood_R; auto; try lia.
  2:{ rewrite n0_RA in ED. apply neqb_RA_false in ED. auto. }
  rewrite <- density_RA. unfold usub. replace (g_din g <=? g_dim g)%nat with true by (symmetry; apply Nat.leb_le; auto).
  cbn [bind]. unfold ginv, gmean. set (n := g_dim g) in *. set (m := g_din g) in *.
  set (e := fun i => nth i (x ++ y) 0 - nth i (g_mean g) 0).
  change (num RA) with R in *.
  assert (SP : forall f, Rsum n f = Rsum m f + Rsum (n - m) (fun k => f (m + k)%nat)) by (intros; rewrite <- Rsum_split; f_equal; lia).
  assert (DX : forall i, (i < m)%nat -> (let* a := rd x i in let* b := rd (g_mean g) i in Ok (@nsub RA a b)) = Ok (e i)).
  { intros. rewrite !rd_R by lia. cbn [bind]. unfold e. rewrite app_nth1 by lia. reflexivity. }
  assert (DY : forall i, (i < n - m)%nat -> (let* a := rd y i in let* b := rd (g_mean g) (m + i) in Ok (@nsub RA a b)) = Ok (e (m + i)%nat)).
  { intros. rewrite !rd_R by lia. cbn [bind]. unfold e. rewrite app_nth2 by lia. replace (m + i - length x)%nat with i by lia. reflexivity. }
  cbv zeta. destruct (g_mode g) eqn:EM; cbn [csize] in *.
  - rewrite (accM_ok n _ (fun l => e l * Rsum n (fun k => rcell n (g_inv g) l k * e k))).
    + cbn [bind]. apply (f_equal (@Ok _)). f_equal. rewrite n0_RA, Rplus_0_l. unfold qform. apply Rsum_ext. intros l Hl.
      rewrite <- Rsum_scal_l. apply Rsum_ext. intros k Hk. unfold stored. fold e. unfold e. lra.
    + intros l Hl. rewrite (accM_ok m _ (fun k => rcell n (g_inv g) l k * e k)).
      2:{ intros k Hk. rewrite rd_R by (rewrite L3; apply idx_lt; lia). cbn [bind]. rewrite DX by auto. reflexivity. }
      cbn [bind]. rewrite (accM_ok (n - m) _ (fun k => rcell n (g_inv g) l (m + k) * e (m + k)%nat)).
      2:{ intros k Hk. rewrite rd_R by (rewrite L3, <- Nat.add_assoc; apply idx_lt; lia). cbn [bind]. rewrite DY by auto.
          unfold rcell. rewrite Nat.add_assoc. reflexivity. }
      cbn [bind]. eapply (bind_eq _ _ (e l)).
      { destruct (Nat.ltb_spec l m). apply DX; auto. rewrite DY by lia. f_equal. f_equal. lia. }
      apply (f_equal (@Ok _)). cbn [nmul RA]. f_equal. rewrite n0_RA, Rplus_0_l.
      rewrite (SP (fun k => rcell n (g_inv g) l k * e k)). reflexivity.
  - rewrite (accM_ok m _ (fun l => nth l (g_inv g) 0 * e l * e l)).
    2:{ intros l Hl. rewrite rd_R by lia. cbn [bind]. rewrite DX by auto. reflexivity. }
    cbn [bind]. rewrite (accM_ok (n - m) _ (fun l => nth (m + l) (g_inv g) 0 * e (m + l)%nat * e (m + l)%nat)).
    2:{ intros l Hl. rewrite rd_R by lia. cbn [bind]. rewrite DY by auto. reflexivity. }
    cbn [bind]. apply (f_equal (@Ok _)). f_equal. rewrite n0_RA, Rplus_0_l.
    transitivity (Rsum n (fun l => nth l (g_inv g) 0 * e l * e l)).
    + rewrite (SP (fun l => nth l (g_inv g) 0 * e l * e l)). reflexivity.
    + symmetry. apply (qform_diag n (fun i => nth i (g_inv g) 0) e).
Qed.
