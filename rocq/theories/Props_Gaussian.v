(** Properties of Gaussian distributions. *)
From Coq Require Import String List Bool Arith Lia ZArith QArith Reals Lra Psatz.
From Coq Require Import Floats.SpecFloat.
From Verif Require Import Base BaseFacts Arith RFacts RComp Model_Json Model_Phrase Model_Matrix Spec_Matrix Spec_Det Proofs_Det
  Model_Gaussian Model_Ellipse Spec_Gaussian Proofs_Gaussian Proofs_Gaussian2 Proofs_Gaussian3 Proofs_Gaussian4 Proofs_Ellipse.
Import ListNotations.
Local Open Scope R_scope.

(** A bimodal distribution with full covariance, and the two-dimensional diagonal one, used by the
    examples below. *)
Definition ex_full : gauss RA := mkGauss (A:=RA) true 2 2 1 (Some 1%nat) Full [0; 1] [2; 1; 1; 2] [0; 0; 0; 0] 0 [0] 0 [] (Some 0%nat).
Definition ex_diag : gauss RA := mkGauss (A:=RA) true 2 2 1 (Some 1%nat) Diagonal [0; 1] [2; 3] [0; 0] 0 [0] 0 [] (Some 0%nat).
Definition ex_both : gauss RA := mkGauss (A:=RA) true 2 2 1 (Some 1%nat) Full [0; 1] [2; 0; 0; 3] [0; 0; 0; 0] 0 [0] 0 [] (Some 0%nat).
Definition ex_sub : gauss RA := mkGauss (A:=RA) false 1 1 0 (Some 0%nat) Diagonal [0] [2] [0] 0 [] 0 [] (Some 0%nat).

Ltac two i := destruct i as [|[|i]]; [| |lia].

Example ex_full_ok : wf_gauss ex_full /\ pos_cov ex_full /\ is_inverse 2 (gcov ex_full) (fun i j => if Nat.eqb i j then 2 / 3 else - (1 / 3)) /\
  is_inverse 1 (gcov ex_full) (fun _ _ => / 2).
Proof.
  split; [unfold wf_gauss; cbn; repeat split; auto|]. split; [|split].
  - change (exists rho, eps9 <= rho /\ pd_margin 2 (gcov ex_full) rho). exists 1. unfold pd_margin, qform, gcov, stored, rcell, eps9. cbn. unfold Q2R. cbn. split; [lra|]. intro x.
    assert (0 <= (x 0%nat + x 1%nat) * (x 0%nat + x 1%nat)) by apply Rle_0_sqr. lra.
  - intros i j Hi Hj. two i; two j; unfold mmul, gcov, stored, rcell, delta; cbn; lra.
  - intros i j Hi Hj. replace i with 0%nat by lia. replace j with 0%nat by lia. unfold mmul, gcov, stored, rcell, delta; cbn; lra.
Qed.
Example ex_diag_ok : wf_gauss ex_diag /\ pos_cov ex_diag /\ (forall d, (d < 2)%nat -> eps9 <= gcov ex_diag d d) /\ wf_gauss ex_both /\
  (forall i j, (i < 2)%nat -> (j < 2)%nat -> gcov ex_both i j = gcov ex_diag i j).
Proof.
  split; [unfold wf_gauss; cbn; repeat split; auto|]. split; [|split; [|split]].
  - intros d Hd. cbn in Hd. two d; unfold gcov; cbn; lra.
  - intros d Hd. unfold eps9. two d; unfold gcov; cbn; unfold Q2R; cbn; lra.
  - unfold wf_gauss; cbn; repeat split; auto.
  - intros i j Hi Hj. two i; two j; reflexivity.
Qed.

(** C29: after updateInverseCovariance, likelihoods are normal densities, floored; the inverse of
    the covariance is any two-sided inverse, the determinant the Leibniz-style one of [Rdet]. *)
Theorem C29_density : forall g : gauss RA, wf_gauss g -> pos_cov g ->
  exists g', g_update_inv g = (g', Ok tt) /\ same_params g g' /\ wf_gauss g' /\
    forall x B, (g_dim g <= length x)%nat -> is_inverse (g_dim g) (gcov g) B ->
      g_likelihood g' x = Ok (Rmax min_likelihood (normal_pdf (g_dim g) (gcov g) B (gmean g) (fun i => nth i x 0))).
Proof. exact update_density. Qed.
Print Assumptions C29_density.
Example C29_meets : wf_gauss ex_full /\ pos_cov ex_full /\
  exists B, is_inverse (g_dim ex_full) (gcov ex_full) B.
Proof. destruct ex_full_ok as (? & ? & ? & _). eauto. Qed.

Theorem C29_throws : forall (g : gauss RA) x, wf_gauss g -> (g_dim g <= length x)%nat ->
  (g_likelihood g x = Throw RuntimeError <-> g_det g = 0) /\
  (g_det g <> 0 -> exists p, g_likelihood g x = Ok p).
Proof. exact likelihood_throws. Qed.
Print Assumptions C29_throws.
Example C29_throws_meets : wf_gauss ex_full /\ (g_dim ex_full <= length [1; 2])%nat.
Proof. split; [apply ex_full_ok|cbn; auto]. Qed.

(** In every arithmetic, binary64 included: never below the floor, never NaN, never infinite. *)
Theorem C29_floor : forall (A : arith) (g : gauss A) x p,
  g_likelihood g x = Ok p \/ g_likelihood_input g x = Ok p \/ (exists y, g_likelihood_bimodal g x y = Ok p) ->
  p = floor180 \/ (nltb p floor180 = false /\ nisnan p = false /\ nisinf (nabs p) = false).
Proof. exact likelihood_floor. Qed.
Print Assumptions C29_floor.
(** Three outcomes in binary64: an ordinary density, a floored one, a NaN replaced by the floor. *)
Example C29_floor_meets : exists p q r : f64,
  let A := FA (fun _ => f64_ofQ (inject_Z 1)) (fun x => x) in
  let g det := mkGauss (A:=A) false 1 1 0 (Some 0%nat) Diagonal [f64_ofQ (inject_Z 0)] [f64_ofQ (inject_Z 1)] [f64_ofQ (inject_Z 1)] det [] (f64_ofQ (inject_Z 0)) [] (Some 0%nat) in
  g_likelihood (g (f64_ofQ (inject_Z 1))) [f64_ofQ (inject_Z 0)] = Ok p /\ p <> f64_ofQ (1 # (10 ^ 180)) /\
  g_likelihood (g (S754_infinity false)) [f64_ofQ (inject_Z 0)] = Ok q /\ q = f64_ofQ (1 # (10 ^ 180)) /\
  g_likelihood (g S754_nan) [f64_ofQ (inject_Z 0)] = Ok r /\ r = f64_ofQ (1 # (10 ^ 180)).
Proof. do 3 eexists. cbv zeta. repeat split; try (vm_compute; reflexivity). vm_compute. discriminate. Qed.

(** C30 *)
Theorem C30_bimodal_is_joint : forall (g : gauss RA) x y, wf_gauss g -> g_bim g = true ->
  length x = g_din g -> length y = (g_dim g - g_din g)%nat ->
  g_likelihood_bimodal g x y = g_likelihood g (x ++ y).
Proof. exact likelihood_bimodal_R. Qed.
Print Assumptions C30_bimodal_is_joint.
Example C30_meets : wf_gauss ex_full /\ g_bim ex_full = true /\ length [5] = g_din ex_full /\ length [7] = (g_dim ex_full - g_din ex_full)%nat.
Proof. split; [apply ex_full_ok|cbn; auto]. Qed.

(** The input likelihood is the likelihood of any model of the input columns, in either mode. *)
Theorem C30_input_is_submodel : forall (g h : gauss RA) x, wf_gauss g -> pos_cov g -> g_bim g = true ->
  wf_gauss h -> pos_cov h -> g_dim h = g_din g ->
  (forall i, (i < g_din g)%nat -> gmean h i = gmean g i) ->
  (forall i j, (i < g_din g)%nat -> (j < g_din g)%nat -> gcov h i j = gcov g i j) ->
  (g_din g <= length x)%nat ->
  exists g' h', g_update_inv g = (g', Ok tt) /\ g_update_inv h = (h', Ok tt) /\
    g_likelihood_input g' x = g_likelihood h' x.
Proof. exact input_submodel. Qed.
Print Assumptions C30_input_is_submodel.
Example C30_sub_meets : wf_gauss ex_sub /\ pos_cov ex_sub /\ g_dim ex_sub = g_din ex_full /\
  (forall i, (i < g_din ex_full)%nat -> gmean ex_sub i = gmean ex_full i) /\
  (forall i j, (i < g_din ex_full)%nat -> (j < g_din ex_full)%nat -> gcov ex_sub i j = gcov ex_full i j).
Proof.
  split; [unfold wf_gauss; cbn; repeat split; discriminate|]. split; [|split; [reflexivity|split]].
  - intros d Hd. cbn in Hd. replace d with 0%nat by lia. unfold gcov; cbn; lra.
  - intros i Hi. cbn in Hi. replace i with 0%nat by lia. reflexivity.
  - intros i j Hi Hj. cbn in Hi, Hj. replace i with 0%nat by lia. replace j with 0%nat by lia. reflexivity.
Qed.

(** C31: Diagonal and Full agree, for variances of at least the pivot threshold 1e-9. *)
Theorem C31_modes_agree : forall g h : gauss RA, wf_gauss g -> wf_gauss h -> g_mode g = Diagonal -> g_mode h = Full ->
  g_bim h = g_bim g -> g_dim h = g_dim g -> g_din h = g_din g -> g_mean h = g_mean g ->
  (forall i j, (i < g_dim g)%nat -> (j < g_dim g)%nat -> gcov h i j = gcov g i j) ->
  (forall d, (d < g_dim g)%nat -> eps9 <= gcov g d d) ->
  exists g' h', g_update_inv g = (g', Ok tt) /\ g_update_inv h = (h', Ok tt) /\
    g_det g' = g_det h' /\
    (forall i j, (i < g_dim g)%nat -> (j < g_dim g)%nat -> ginv g' i j = ginv h' i j) /\
    (forall x, length x = g_dim g -> g_likelihood g' x = g_likelihood h' x) /\
    (g_bim g = true -> g_det_in g' = g_det_in h' /\
      (forall i j, (i < g_dim g - g_din g)%nat -> (j < g_dim g - g_din g)%nat -> gout g' i j = gout h' i j) /\
      forall x y, length x = g_din g -> length y = (g_dim g - g_din g)%nat ->
        g_likelihood_input g' x = g_likelihood_input h' x /\
        g_likelihood_bimodal g' x y = g_likelihood_bimodal h' x y /\
        g_regression g' x = g_regression h' x).
Proof. exact modes_agree. Qed.
Print Assumptions C31_modes_agree.
Example C31_meets : wf_gauss ex_diag /\ wf_gauss ex_both /\ g_mode ex_diag = Diagonal /\ g_mode ex_both = Full /\
  (forall i j, (i < 2)%nat -> (j < 2)%nat -> gcov ex_both i j = gcov ex_diag i j) /\
  (forall d, (d < 2)%nat -> eps9 <= gcov ex_diag d d).
Proof. destruct ex_diag_ok as (? & ? & ? & ? & ?). auto 10. Qed.

(** Below the threshold Full mode refuses a covariance that Diagonal mode accepts. *)
Theorem C31_small_variance_refuted : exists g h : gauss RA, wf_gauss g /\ wf_gauss h /\ g_mode g = Diagonal /\ g_mode h = Full /\
  g_dim g = 1%nat /\ g_dim h = 1%nat /\ 0 < gcov g 0 0 /\ gcov h 0 0 = gcov g 0 0 /\
  snd (g_update_inv g) = Ok tt /\ snd (g_update_inv h) = Throw RuntimeError.
Proof.
  exists (mkGauss (A:=RA) false 1 1 0 (Some 0%nat) Diagonal [0] [/ 10000000000] [0] 0 [] 0 [] (Some 0%nat)).
  exists (mkGauss (A:=RA) false 1 1 0 (Some 0%nat) Full [0] [/ 10000000000] [0] 0 [] 0 [] (Some 0%nat)).
  split; [unfold wf_gauss; cbn; repeat split; discriminate|]. split; [unfold wf_gauss; cbn; repeat split; discriminate|].
  do 4 (split; [reflexivity|]). split; [unfold gcov; cbn; lra|]. split; [reflexivity|]. split; rcomp; reflexivity.
Qed.
Print Assumptions C31_small_variance_refuted.

(** C32 *)
Theorem C32_conditional_mean : forall g : gauss RA, wf_gauss g -> pos_cov g -> g_bim g = true ->
  exists g', g_update_inv g = (g', Ok tt) /\
    forall B, is_inverse (g_din g) (gcov g) B ->
      (forall x, (g_din g <= length x)%nat ->
         g_regression g' x = Ok (tab (g_dim g - g_din g) (cond_mean g B (fun i => nth i x 0)))) /\
      length (g_out g') = csize (g_mode g) (g_dim g - g_din g) /\
      forall i j, (i < g_dim g - g_din g)%nat -> (j < g_dim g - g_din g)%nat ->
        gout g' i j = gcov g (g_din g + i)%nat (g_din g + j)%nat -
          Rsum (g_din g) (fun k => Rsum (g_din g) (fun l =>
            gcov g (g_din g + i)%nat k * B k l * gcov g l (g_din g + j)%nat)).
Proof. exact update_regression. Qed.
Print Assumptions C32_conditional_mean.
(** For [ex_full] and input 4: 1 + 1/2 * 4. *)
Example C32_meets : wf_gauss ex_full /\ pos_cov ex_full /\ g_bim ex_full = true /\
  is_inverse (g_din ex_full) (gcov ex_full) (fun _ _ => / 2) /\ cond_mean ex_full (fun _ _ => / 2) (fun _ => 4) 0 = 3.
Proof.
  destruct ex_full_ok as (? & ? & _ & ?). split; auto. split; auto. split; auto. split; auto.
  unfold cond_mean, gmean, gcov, stored, rcell. cbn. lra.
Qed.
(** In Diagonal mode the prediction is the mean. *)
Theorem C32_diagonal_mean : forall (g : gauss RA) B x d, g_mode g = Diagonal -> cond_mean g B x d = gmean g (g_din g + d).
Proof.
  intros g B x d HM. unfold cond_mean. rewrite Rsum_zero; [lra|]. intros e He. unfold gcov. rewrite HM. unfold stored.
  replace (g_din g + d =? e)%nat with false by (symmetry; apply Nat.eqb_neq; lia). lra.
Qed.
Print Assumptions C32_diagonal_mean.
Example C32_diagonal_meets : g_mode ex_diag = Diagonal /\ gmean ex_diag (g_din ex_diag + 0) = 1.
Proof. split; reflexivity. Qed.

(** C33: in every arithmetic. *)
Theorem C33_full_round_trip : forall (A : arith) (cv : conv A) tmp (g h : gauss A), g_mode g = Full -> wf_gauss g ->
  (g_bim g = true \/ g_din g = 0%nat /\ g_inv_in g = []) -> int_range (g_dim g) -> int_range (g_din g) ->
  exists j, g_toJson g = Ok j /\ g_fromJson cv tmp j h = (reloaded tmp g, Ok tt).
Proof. intro A. exact full_trip. Qed.
Print Assumptions C33_full_round_trip.
Example C33_meets : wf_gauss ex_full /\ g_mode ex_full = Full /\ int_range (g_dim ex_full) /\ int_range (g_din ex_full).
Proof. split; [apply ex_full_ok|]. repeat split. Qed.
(** Diagonal covariance, or an input dimension on a unimodal distribution: never read back. *)
Theorem C33_sizes_refuted : forall (A : arith) (cv : conv A) tmp (g h : gauss A), wf_gauss g ->
  int_range (g_dim g) -> int_range (g_din g) ->
  (g_mode g = Diagonal /\ (1 < g_dim g)%nat \/ g_bim g = false /\ g_inv_in g = [] /\ (0 < g_din g)%nat) ->
  exists j, g_toJson g = Ok j /\ g_fromJson cv tmp j h = (h, Throw JsonValueError).
Proof. intro A. exact bad_size_trip. Qed.
Print Assumptions C33_sizes_refuted.
(** Both cases occur: the second by setting the dimension (2) and then the input dimension (1) of a
    new unimodal distribution. *)
Example C33_sizes_meets : (wf_gauss ex_diag /\ g_mode ex_diag = Diagonal /\ (1 < g_dim ex_diag)%nat) /\
  forall (A : arith) (cv : conv A), exists g w g',
    g_new 0 false 1 0 Full = Ok g /\
    g_step cv (GSetDin 0 1) (fst (g_step cv (GSetDim 0 2) [Some g])) = (w, Ok tt) /\ w = [Some g'] /\
    wf_gauss g' /\ g_bim g' = false /\ g_inv_in g' = [] /\ (0 < g_din g')%nat.
Proof.
  split; [split; [apply ex_diag_ok|cbn; auto]|].
  intros A cv.
  set (g' := mkGauss (A:=A) false 2 1 1 (Some 1%nat) Full [n0; n0] [n0; n0; n0; n0] [n0; n0; n0; n0] n0 [] n0 [] (Some 0%nat)).
  exists (mkGauss (A:=A) false 1 1 0 (Some 0%nat) Full [n0] [n0] [n0] n0 [] n0 [] (Some 0%nat)), [Some g'], g'.
  split; [reflexivity|]. split; [reflexivity|]. split; [reflexivity|].
  unfold wf_gauss. cbn. repeat split; auto; discriminate.
Qed.
(** The output covariance is lost. *)
Theorem C33_output_covariance_refuted : forall (A : arith) (cv : conv A) tmp (g h : gauss A), g_mode g = Full -> wf_gauss g ->
  g_bim g = true -> int_range (g_dim g) -> int_range (g_din g) -> g_out g <> [] ->
  exists j h', g_toJson g = Ok j /\ g_fromJson cv tmp j h = (h', Ok tt) /\ g_out h' <> g_out g.
Proof.
  intros A cv tmp g h HM W HB H1 H2 Ho. destruct (full_trip cv tmp g h HM W (or_introl HB) H1 H2) as (j & E1 & E2).
  exists j, (reloaded tmp g). split; [exact E1|]. split; [exact E2|]. cbn. congruence.
Qed.
Print Assumptions C33_output_covariance_refuted.
Example C33_output_meets : exists g', g_update_inv ex_full = (g', Ok tt) /\ g_mode g' = Full /\ wf_gauss g' /\ g_bim g' = true /\
  int_range (g_dim g') /\ int_range (g_din g') /\ g_out g' <> [].
Proof.
  destruct ex_full_ok as (W & P & _ & I). destruct (update_inv_ok ex_full W P) as (g' & E & S & W' & I').
  exists g'. split; auto. destruct S as (S1 & S2 & S3 & S4 & _). rewrite <- S1, <- S2, <- S3, <- S4. split; [reflexivity|]. split; [exact W'|].
  do 3 (split; [reflexivity|]). intro Z. destruct I' as (_ & _ & _ & I2). destruct (I2 (eq_sym S1)) as (_ & _ & _ & L & _).
  rewrite Z, <- S2, <- S3, <- S4 in L. discriminate.
Qed.

(** C34: an object that registered its own listener reacts (also after copy construction) ... *)
Theorem C34_own_listener : forall (A : arith) (cv : conv A) (w : gworld A) k (g : gauss A) n,
  nth_error w k = Some (Some g) -> g_owner g = Some k ->
  (g_dim_min g <= n)%nat -> (1 <= n)%nat -> (g_bim g = true -> (g_din g <= n)%nat) ->
  exists g', g_step cv (GSetDim k n) w = (upd w k (Some g'), Ok tt) /\
    nth_error (upd w k (Some g')) k = Some (Some g') /\ wf_gauss g' /\ g_owner g' = Some k /\
    g_dim g' = n /\ g_din g' = g_din g /\ g_din_max g' = Some (n - 1)%nat /\ g_bim g' = g_bim g /\ g_mode g' = g_mode g /\
    g_mean g' = vresize n n0 (g_mean g).
Proof. intro A. exact own_dim. Qed.
Print Assumptions C34_own_listener.
Theorem C34_copy_listener : forall (A : arith) (cv : conv A) (w : gworld A) s (t : gauss A), nth_error w s = Some (Some t) ->
  exists w1 c, g_step cv (GCopy s) w = (w1, Ok tt) /\ nth_error w1 (length w) = Some (Some c) /\
    same_params t c /\ g_owner c = Some (length w) /\ g_inv c = g_inv t /\ g_det c = g_det t /\
    g_inv_in c = g_inv_in t /\ g_det_in c = g_det_in t /\ g_out c = g_out t /\ 
    g_dim_min c = g_dim_min t /\ g_din_max c = g_din_max t.
Proof. intro A. exact copied_dim. Qed.
Print Assumptions C34_copy_listener.
(** ... an assigned one does not: its dimension changes, its vectors do not ... *)
Theorem C34_assigned_refuted : forall (A : arith) (cv : conv A) (w : gworld A) k s (g t : gauss A) n, k <> s ->
  nth_error w k = Some (Some g) -> nth_error w s = Some (Some t) -> g_owner t = Some s -> (g_dim_min t <= n)%nat ->
  exists w1 w2, g_step cv (GAssign k s) w = (w1, Ok tt) /\ nth_error w1 k = Some (Some t) /\
    g_step cv (GSetDim k n) w1 = (w2, Ok tt) /\
    nth_error w2 k = Some (Some (g_set_dims n (g_din t) (g_din_max t) t)).
Proof. intro A. exact assigned_dim. Qed.
Print Assumptions C34_assigned_refuted.
(** ... and an object read from JSON calls a destroyed listener. *)
Theorem C34_reloaded_refuted : forall (A : arith) (cv : conv A) (w : gworld A) k (g : gauss A) root w1 n,
  nth_error w k = Some (Some g) ->
  g_step cv (GFromJson k root) w = (w1, Ok tt) -> snd (g_step cv (GSetDim k n) w1) = UB.
Proof. intro A. exact reloaded_dim. Qed.
Print Assumptions C34_reloaded_refuted.
(** Two new distributions meet the hypotheses; after the assignment and the change of dimension a
    likelihood reads outside the mean; reading back the JSON form succeeds. *)
Example C34_meets : forall (A : arith) (cv : conv A), exists g t w2 h j,
  g_new 0 false 1 0 Full = Ok g /\ g_new 1 false 1 0 Full = Ok t /\
  g_owner g = Some 0%nat /\ g_owner t = Some 1%nat /\ (g_dim_min t <= 2)%nat /\
  g_step cv (GSetDim 0 2) (fst (g_step cv (GAssign 0 1) [Some g; Some t])) = (w2, Ok tt) /\
  nth_error w2 0 = Some (Some h) /\ g_dim h = 2%nat /\ length (g_mean h) = 1%nat /\
  g_toJson g = Ok j /\ snd (g_step cv (GFromJson 0 j) [Some g; Some t]) = Ok tt.
Proof.
  intros A cv.
  exists (mkGauss (A:=A) false 1 1 0 (Some 0%nat) Full [n0] [n0] [n0] n0 [] n0 [] (Some 0%nat)).
  set (t := mkGauss (A:=A) false 1 1 0 (Some 0%nat) Full [n0] [n0] [n0] n0 [] n0 [] (Some 1%nat)).
  set (h := mkGauss (A:=A) false 2 1 0 (Some 0%nat) Full [n0] [n0] [n0] n0 [] n0 [] (Some 1%nat)).
  exists t, [Some h; Some t], h.
  eexists. do 4 (split; [reflexivity|]). split; [cbn; auto|]. do 5 (split; [reflexivity|]). reflexivity.
Qed.

(** C69: changing the covariance mode keeps the distribution, setting the current mode does not. *)
Theorem C69_full_to_diagonal : forall (cv : conv RA) (w : gworld RA) k (g : gauss RA),
  nth_error w k = Some (Some g) -> g_owner g = Some k -> wf_gauss g -> g_mode g = Full ->
  (forall d, (d < g_dim g)%nat -> 0 < gcov g d d) ->
  exists g', g_step cv (GSetMode k Diagonal) w = (upd w k (Some g'), Ok tt) /\ g_mode g' = Diagonal /\
    g_bim g' = g_bim g /\ g_dim g' = g_dim g /\ g_din g' = g_din g /\ g_mean g' = g_mean g /\
    (forall d, (d < g_dim g)%nat -> gcov g' d d = gcov g d d) /\ wf_gauss g' /\ inverted g'.
Proof. exact switch_diag. Qed.
Print Assumptions C69_full_to_diagonal.
Theorem C69_diagonal_to_full : forall (cv : conv RA) (w : gworld RA) k (g : gauss RA),
  nth_error w k = Some (Some g) -> g_owner g = Some k -> wf_gauss g -> g_mode g = Diagonal ->
  (forall d, (d < g_dim g)%nat -> eps9 <= gcov g d d) ->
  exists g', g_step cv (GSetMode k Full) w = (upd w k (Some g'), Ok tt) /\ g_mode g' = Full /\
    g_bim g' = g_bim g /\ g_dim g' = g_dim g /\ g_din g' = g_din g /\ g_mean g' = g_mean g /\
    (forall i j, (i < g_dim g)%nat -> (j < g_dim g)%nat -> gcov g' i j = gcov g i j) /\ wf_gauss g' /\ inverted g'.
Proof. exact switch_full. Qed.
Print Assumptions C69_diagonal_to_full.
Example C69_meets : wf_gauss ex_full /\ g_owner ex_full = Some 0%nat /\ (forall d, (d < g_dim ex_full)%nat -> 0 < gcov ex_full d d) /\
  wf_gauss ex_diag /\ g_owner ex_diag = Some 0%nat /\ (forall d, (d < g_dim ex_diag)%nat -> eps9 <= gcov ex_diag d d).
Proof.
  split; [apply ex_full_ok|]. split; [reflexivity|]. split; [|split; [apply ex_diag_ok|split; [reflexivity|apply ex_diag_ok]]].
  intros d Hd. cbn in Hd. two d; unfold gcov, stored, rcell; cbn; lra.
Qed.
Theorem C69_diagonal_again_refuted : forall (A : arith) (cv : conv A) (w : gworld A) k (g : gauss A),
  nth_error w k = Some (Some g) -> g_owner g = Some k -> wf_gauss g -> g_mode g = Diagonal -> (2 <= g_dim g)%nat ->
  snd (g_step cv (GSetMode k Diagonal) w) = UB.
Proof. intro A. exact mode_again_diag. Qed.
Print Assumptions C69_diagonal_again_refuted.
Theorem C69_full_again_refuted : forall (cv : conv RA) (w : gworld RA) k (g : gauss RA),
  nth_error w k = Some (Some g) -> g_owner g = Some k -> wf_gauss g -> g_mode g = Full ->
  (forall d, (d < g_dim g)%nat -> eps9 <= gcov g 0 d) ->
  exists g', g_step cv (GSetMode k Full) w = (upd w k (Some g'), Ok tt) /\ g_mode g' = Full /\ g_dim g' = g_dim g /\
    forall i j, (i < g_dim g)%nat -> (j < g_dim g)%nat -> gcov g' i j = if Nat.eqb i j then gcov g 0 i else 0.
Proof. exact mode_again_full. Qed.
Print Assumptions C69_full_again_refuted.
(** [ex_full], with covariance (2 1; 1 2), becomes (2 0; 0 1). *)
Example C69_again_meets : wf_gauss ex_full /\ (forall d, (d < g_dim ex_full)%nat -> eps9 <= gcov ex_full 0 d) /\ gcov ex_full 0 1 = 1 /\ gcov ex_full 1 1 = 2.
Proof.
  split; [apply ex_full_ok|]. split; [|split; reflexivity].
  intros d Hd. cbn in Hd. unfold eps9. two d; unfold gcov, stored, rcell; cbn; unfold Q2R; cbn; lra.
Qed.

(** C70: confidence ellipses. *)
Theorem C70_round_trip : forall (g : gauss RA) d1 d2, wf_gauss g -> pos_cov g -> g_mode g = Full ->
  (d1 < g_dim g)%nat -> (d2 < g_dim g)%nat -> gcov g d1 d2 <> 0 -> gcov g d2 d1 = gcov g d1 d2 ->
  0 <= gcov g d1 d1 -> 0 <= gcov g d2 d2 -> 0 <= gcov g d1 d1 * gcov g d2 d2 - gcov g d1 d2 * gcov g d1 d2 ->
  exists e, g_toEllipse (A:=RA) atan g d1 d2 = Ok e /\ g_fromEllipse (A:=RA) tan e d1 d2 g = g_update_inv g.
Proof. exact g_ellipse_trip. Qed.
Print Assumptions C70_round_trip.
Example C70_meets : wf_gauss ex_full /\ pos_cov ex_full /\ gcov ex_full 0 1 = 1 /\ gcov ex_full 1 0 = 1 /\
  gcov ex_full 0 0 * gcov ex_full 1 1 - gcov ex_full 0 1 * gcov ex_full 0 1 = 3.
Proof. split; [apply ex_full_ok|]. split; [apply ex_full_ok|]. split; [reflexivity|]. split; [reflexivity|]. unfold gcov, stored, rcell; cbn; lra. Qed.

(** The ellipse describes the covariance: its half-axes are scaled square roots of the eigenvalues
    and the direction of its angle is an eigenvector of the largest one. *)
Theorem C70_axes : forall (x y a b c : R), b <> 0 -> 0 <= a -> 0 <= c -> 0 <= a * c - b * b ->
  exists e1 e2, 0 <= e2 <= e1 /\ e1 + e2 = a + c /\ e1 * e2 = a * c - b * b /\
    let e := cov2ellipse (A:=RA) atan x y a b c in
    e_x e = x /\ e_y e = y /\
    e_width e * e_width e = 5991 / 1000 * e1 /\ e_height e * e_height e = 5991 / 1000 * e2 /\
    a * 1 + b * tan (e_angle e) = e1 * 1 /\ b * 1 + c * tan (e_angle e) = e1 * tan (e_angle e).
Proof. exact ellipse_axes. Qed.
Print Assumptions C70_axes.
Example C70_axes_meets : (1 : R) <> 0 /\ 0 <= 2 /\ 0 <= 2 * 2 - 1 * 1.
Proof. repeat split; lra. Qed.
(** Axis-aligned ellipses do not survive: in binary64, for every [atan] and [tan] that map 0 to 0,
    the variances 2 and 1 come back as NaN and no exception is thrown. *)
Theorem C70_axis_aligned_refuted : forall fexp fln fatan ftan : f64 -> f64,
  fatan (S754_zero false) = S754_zero false -> ftan (S754_zero false) = S754_zero false ->
  exists (g g' : gauss (FA fexp fln)) e,
    g_cov g = [f64_ofQ (inject_Z 2); f64_ofQ (inject_Z 1)] /\ g_mode g = Diagonal /\ wf_gauss g /\
    g_toEllipse (A:=FA fexp fln) fatan g 0 1 = Ok e /\
    g_fromEllipse (A:=FA fexp fln) ftan e 0 1 g = (g', Ok tt) /\ g_cov g' = [S754_nan; S754_nan].
Proof. exact ellipse_nan. Qed.
Print Assumptions C70_axis_aligned_refuted.
