(** C95: initial variances computed with single precision products. *)
From Coq Require Import String ZArith QArith Reals Lra Lia Bool List Arith.
From Coq Require Import Floats.SpecFloat.
From Flocq Require Import Core.Core.
From Verif Require Import Base BaseFacts Arith Model_Ring Model_Gaussian Model_Config Model_KMeans Model_GMM Model_Single Spec_Float Spec_Single.
From Verif Require Import Proofs_Single1 Proofs_Single2 Proofs_Single3.
Import ListNotations.
Local Open Scope R_scope.

(** A dimension that is [v] in all the frames of all the phrases: its initial variance, in every component,
    is the rounding error of the single precision square of [v], exactly; it does not depend on the number of
    phrases, frames or components. *)
Theorem C95_constant_dimension : forall fexp fln d v (data : kdata (FA fexp fln)) (g g' : gclass (FA fexp fln)) c k,
  single v -> constant_at d v data -> data <> [] -> (d < gc_dim g)%nat ->
  (1 <= seg_count (A := FA fexp fln) (gc_n g) data)%nat -> (Z.of_nat (seg_count (A := FA fexp fln) (gc_n g) data) < 2 ^ 29)%Z ->
  gm_init_cov_with (A := FA fexp fln) mul_single data g = Ok g' -> nth_error (gc_comp g') c = Some k ->
  exists x, rd (g_cov k) (variance_index (gc_mode g) (gc_dim g) d) = Ok x /\ is_f64 x /\ is_num x = true /\
    fval x = round_single (fval v * fval v) - fval v * fval v.
Proof. exact init_variance. Qed.
Print Assumptions C95_constant_dimension.

(** It is 0 for the values of at most 12 bits. *)
Theorem C95_short_values : forall fexp fln d v i e (data : kdata (FA fexp fln)) (g g' : gclass (FA fexp fln)) c k,
  single v -> fval v = IZR i * bpow radix2 e -> (Z.abs i <= 2 ^ 12)%Z -> (-50 <= e)%Z ->
  constant_at d v data -> data <> [] -> (d < gc_dim g)%nat ->
  (1 <= seg_count (A := FA fexp fln) (gc_n g) data)%nat -> (Z.of_nat (seg_count (A := FA fexp fln) (gc_n g) data) < 2 ^ 29)%Z ->
  gm_init_cov_with (A := FA fexp fln) mul_single data g = Ok g' -> nth_error (gc_comp g') c = Some k ->
  exists x, rd (g_cov k) (variance_index (gc_mode g) (gc_dim g) d) = Ok x /\ is_num x = true /\ fval x = 0.
Proof.
  intros fexp fln d v i e data g g' c k Sv Ev Hi He Cv Hne Hd H1 Hn H Hk.
  destruct (init_variance fexp fln d v data g g' c k Sv Cv Hne Hd H1 Hn H Hk) as (x & Ex & _ & Nx & Fx). exists x. split; [exact Ex |]. split; [exact Nx |].
  rewrite Fx. exact (square_exact v i e Ev Hi He).
Qed.
Print Assumptions C95_short_values.

(** With Diagonal covariances, when that error is negative and not compensated by the regularisation [r] of the
    dimension, the initialisation never succeeds, whatever the other dimensions hold. *)
Theorem C95_training_fails : forall fexp fln d v (data : kdata (FA fexp fln)) (dev : list f64) s (g g' : gclass (FA fexp fln)),
  gc_mode g = Diagonal -> (1 <= gc_n g)%nat -> Forall (fun k => g_mode k = Diagonal /\ g_dim k = gc_dim g) (gc_comp g) ->
  single v -> constant_at d v data -> data <> [] -> (d < gc_dim g)%nat ->
  (1 <= seg_count (A := FA fexp fln) (gc_n g) data)%nat -> (Z.of_nat (seg_count (A := FA fexp fln) (gc_n g) data) < 2 ^ 29)%Z ->
  rd dev d = Ok s ->
  let r := nmax (A := FA fexp fln) (gp_abs (gc_par g)) (nmul (a := FA fexp fln) (gp_rel (gc_par g)) s) in
  num_nonneg r -> round_single (fval v * fval v) - fval v * fval v + fval r <= 0 ->
  gm_init_with (A := FA fexp fln) mul_single data dev g <> Ok g'.
Proof. exact init_fails. Qed.
Print Assumptions C95_training_fails.

(** *** A concrete case: the default parameters but the covariance mode, a phrase of thirty frames, with the
    second dimension constantly 200.3 (as a [float]), or constantly 200.25. *)
Module ExS.
  Definition d (q : Q) : f64 := f64_ofQ q.
  Definition A := FA (fun x => x) (fun x => x).
  Definition v1 : f64 := d (13126861 # 65536).
  Definition v2 : f64 := d (801 # 4).
  Definition par : gmmP A := mkGmmP (A := A) 10 (gp_rel (gmmP_new (A := A))) (gp_abs (gmmP_new (A := A))) Diagonal.
  Definition g0 : gclass A := mkGC (A := A) false 2 0 2 par [] [] [] [] (mkRing [[d 0; d 0]] 2 0 false) (d 0) (d 0) [] [].
  Definition g : gclass A := match gm_allocate g0 with Ok g => g | _ => g0 end.
  Definition data (v : f64) : kdata A := [map (fun i => [d (inject_Z (Z.of_nat i)); v]) (seq 0 30)].
  Definition dev : list f64 := [d 9; d 0].
  Definition status {X} (r : res X) : option exn := match r with Throw e => Some e | _ => None end.

  Lemma val (x : f64) (s : bool) p e : x = S754_finite s p e -> fval x = IZR (SpecFloat.cond_Zopp s (Zpos p)) * bpow radix2 e.
  Proof. intros ->. reflexivity. Qed.
  Lemma v1_val : fval v1 = 13126861 * bpow radix2 (-16).
  Proof. rewrite (val _ false 7047429836767232 (-45)) by (vm_compute; reflexivity). cbn -[bpow]. replace 7047429836767232 with (13126861 * 536870912) by lra. change 536870912 with (bpow radix2 29). rewrite Rmult_assoc, <- bpow_plus. reflexivity. Qed.
  Lemma v2_val : fval v2 = 801 * bpow radix2 (-2).
  Proof. rewrite (val _ false 7045670510788608 (-45)) by (vm_compute; reflexivity). cbn -[bpow]. replace 7045670510788608 with (801 * 8796093022208) by lra. change 8796093022208 with (bpow radix2 43). rewrite Rmult_assoc, <- bpow_plus. reflexivity. Qed.
  Lemma single1 : single v1.
  Proof. split; [vm_compute; reflexivity |]. split; [vm_compute; reflexivity |]. exists 13126861%Z, (-16)%Z. split; [exact v1_val |]. split; [reflexivity | lia]. Qed.
  Lemma single2 : single v2.
  Proof. split; [vm_compute; reflexivity |]. split; [vm_compute; reflexivity |]. exists 801%Z, (-2)%Z. split; [exact v2_val |]. split; [reflexivity | lia]. Qed.
  Lemma constant v : constant_at 1 v (data v).
  Proof. constructor; [| constructor]. apply Forall_map, Forall_forall. intros i _. reflexivity. Qed.
  Definition reg : f64 := nmax (A := A) (gp_abs par) (nmul (a := A) (gp_rel par) (d 0)).
  Lemma reg_val : fval reg = 1152921504606847 * bpow radix2 (-60).
  Proof. rewrite (val _ false 4611686018427388 (-62)) by (vm_compute; reflexivity). cbn -[bpow]. replace 4611686018427388 with (1152921504606847 * 4) by lra. change 4 with (bpow radix2 2). rewrite Rmult_assoc, <- bpow_plus. reflexivity. Qed.
  Lemma error1 : round_single (fval v1 * fval v1) - fval v1 * fval v1 + fval reg <= 0.
  Proof.
    destruct (mul_single_val v1 single1) as (_ & _ & <-). rewrite (val (mul_single v1 v1) false 5514063161327616 (-37)) by (vm_compute; reflexivity).
    rewrite v1_val, reg_val. cbn -[bpow].
    replace (bpow radix2 (-37)) with (8388608 * bpow radix2 (-60)) by (change 8388608 with (bpow radix2 23); rewrite <- bpow_plus; reflexivity).
    replace (bpow radix2 (-16)) with (16384 * bpow radix2 (-30)) by (change 16384 with (bpow radix2 14); rewrite <- bpow_plus; reflexivity).
    replace (bpow radix2 (-60)) with (bpow radix2 (-30) * bpow radix2 (-30)) by (rewrite <- bpow_plus; reflexivity).
    assert (0 < bpow radix2 (-30)) by apply bpow_gt_0. nra.
  Qed.
End ExS.

Example C95_training_fails_meets :
  gc_mode ExS.g = Diagonal /\ (1 <= gc_n ExS.g)%nat /\ Forall (fun k => g_mode k = Diagonal /\ g_dim k = gc_dim ExS.g) (gc_comp ExS.g) /\
  single ExS.v1 /\ constant_at 1 ExS.v1 (ExS.data ExS.v1) /\ seg_count (A := ExS.A) 10 (ExS.data ExS.v1) = 3%nat /\ num_nonneg ExS.reg /\
  round_single (fval ExS.v1 * fval ExS.v1) - fval ExS.v1 * fval ExS.v1 + fval ExS.reg <= 0 /\
  ExS.status (gm_init_with (A := ExS.A) mul_single (ExS.data ExS.v1) ExS.dev ExS.g) = Some RuntimeError.
Proof.
  split; [reflexivity |]. split; [cbn; lia |]. split; [repeat constructor |]. split; [exact ExS.single1 |]. split; [apply ExS.constant |]. split; [reflexivity |].
  split. { split; [vm_compute; reflexivity |]. split; [vm_compute; reflexivity |]. rewrite ExS.reg_val. apply Rmult_le_pos; [lra | apply bpow_ge_0]. }
  split; [exact ExS.error1 | vm_compute; reflexivity].
Qed.

(** 200.25 has 10 bits: the same training succeeds, and the initial variance is 0. *)
Example C95_short_values_meets :
  single ExS.v2 /\ fval ExS.v2 = 801 * bpow radix2 (-2) /\ constant_at 1 ExS.v2 (ExS.data ExS.v2) /\
  (exists g', gm_init_with (A := ExS.A) mul_single (ExS.data ExS.v2) ExS.dev ExS.g = Ok g') /\
  match gm_init_cov_with (A := ExS.A) mul_single (ExS.data ExS.v2) ExS.g with Ok g' => map (fun k => rd (g_cov k) 1) (gc_comp g') | _ => [] end = repeat (Ok (ExS.d 0)) 10.
Proof.
  split; [exact ExS.single2 |]. split; [exact ExS.v2_val |]. split; [apply ExS.constant |]. split; [| vm_compute; reflexivity].
  assert (Q : match gm_init_with (A := ExS.A) mul_single (ExS.data ExS.v2) ExS.dev ExS.g with Ok _ => true | _ => false end = true) by (vm_compute; reflexivity).
  destruct (gm_init_with (A := ExS.A) mul_single (ExS.data ExS.v2) ExS.dev ExS.g) as [g' | |]; [| discriminate..]. exists g'. reflexivity.
Qed.

Example C95_constant_dimension_meets : single ExS.v1 /\ constant_at 1 ExS.v1 (ExS.data ExS.v1) /\
  match gm_init_cov_with (A := ExS.A) mul_single (ExS.data ExS.v1) ExS.g with Ok g' => forallb (fun k => match rd (A := f64) (g_cov (A := ExS.A) k) 1 with Ok x => SFltb x (ExS.d (- 1 # 1000)) | _ => false end) (gc_comp g') && (length (gc_comp g') =? 10)%nat | _ => false end = true.
Proof. split; [exact ExS.single1 |]. split; [apply ExS.constant | vm_compute; reflexivity]. Qed.
