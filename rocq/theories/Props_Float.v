(** C94: recognition with Gaussian mixtures in double precision. *)
From Coq Require Import String ZArith QArith Reals Lra Lia Bool List Arith.
From Coq Require Import Floats.SpecFloat.
From Flocq Require Import Core.Core.
From Verif Require Import Base BaseFacts Arith Model_Ring Model_Gaussian Model_Config Model_KMeans Model_GMM Spec_Float Spec_Float2.
From Verif Require Import Proofs_Float4 Proofs_Float6 Proofs_Float7.
Import ListNotations.
Local Open Scope R_scope.

(** Entry [i] of a result vector. *)
Local Notation ent l := (fun i => nth i l (S754_zero false)).

(** With Diagonal covariances, after any number of frames of any doubles, the instant and the smoothed
    posteriors are numbers between 0 and 1, which are the likelihoods divided by their sum up to rounding. *)
Theorem C94_diagonal : forall fexp fln (m m' : gmm (FA fexp fln)) xs x, libm_f64 fexp fln ->
  model_diag m -> (1 <= length (gm_models m))%nat -> Forall frame_f64 (xs ++ [x]) ->
  foldM (fun m x => gm_filter (A := FA fexp fln) x m) (xs ++ [x]) m = Ok m' ->
  let n := length (gm_models m) in let r := gm_res m' in
  parts_f64 n (ent (rs_inst r)) (ent (rs_instn r)) /\ parts_f64 n (ent (rs_sm r)) (ent (rs_smn r)).
Proof.
  intros fexp fln m m' xs x LM D Hn F H. cbv zeta. destruct (diag_seq fexp fln LM xs x m m' D F H) as (m0 & D0 & L0 & Fx & E). rewrite <- L0 in *.
  exact (results_diag fexp fln LM m0 x m' D0 Fx E Hn).
Qed.
Print Assumptions C94_diagonal.

(** Any mixture, whatever its means, covariances and determinants, even NaN: no likelihood is zero, negative
    or NaN, and the instant posteriors are right unless the sum of the likelihoods overflows. *)
Theorem C94_any_mixture : forall fexp fln (m m' : gmm (FA fexp fln)) xs x, on_f64 fexp ->
  model_f64 m -> (1 <= length (gm_models m))%nat -> Forall frame_f64 (xs ++ [x]) ->
  foldM (fun m x => gm_filter (A := FA fexp fln) x m) (xs ++ [x]) m = Ok m' ->
  let n := length (gm_models m) in let r := gm_res m' in
  (forall i, (i < n)%nat -> positive (nth i (rs_inst r) (S754_zero false))) /\
  (is_num (nsum (A := FA fexp fln) n (ent (rs_inst r))) = true -> parts_f64 n (ent (rs_inst r)) (ent (rs_instn r))).
Proof.
  intros fexp fln m m' xs x He D Hn F H. cbv zeta. destruct (any_seq fexp fln He xs x m m' D F H) as (m0 & D0 & L0 & Fx & E). rewrite <- L0 in *.
  destruct (any_results fexp fln He m0 x m' D0 Fx E) as (P & Q). split; [exact P | intros N; now apply Q].
Qed.
Print Assumptions C94_any_mixture.

(** Normalised weights are as C94_diagonal and C94_any_mixture ask, whatever the weights before, as long as they are numbers and
    their sum does not overflow: null weights become equal ones. *)
Theorem C94_weights : forall fexp fln (g : gclass (FA fexp fln)),
  (1 <= gc_n g)%nat -> (Z.of_nat (gc_n g) < 2 ^ 32)%Z -> length (gc_coef g) = gc_n g -> Forall num_nonneg (gc_coef g) ->
  is_num (nsum (A := FA fexp fln) (gc_n g) (ent (gc_coef g))) = true -> weights_f64 (gc_n g) (gc_coef (gm_normalize g)).
Proof. exact normalize_weights. Qed.
Print Assumptions C94_weights.

(** *** A concrete case: two classes of two components, five frames with a NaN and an infinity. *)
Module Ex.
  Definition d (q : Q) : f64 := f64_ofQ q.
  Definition exp0 (x : f64) : f64 := match x with S754_nan => S754_nan | _ => if SFltb x (d (- 10)) then d (1 # 1024) else d 1 end.
  Definition ln0 (x : f64) : f64 := match x with S754_nan => S754_nan | _ => if SFltb x (d (1 # 1000)) then d (- 80) else d 0 end.
  Definition A := FA exp0 ln0.
  Definition k (mean : Q) : gauss A := mkGauss (A := A) false 1 1 0 None Diagonal [d mean] [d 1] [d 1] (d 1) [] (d 0) [] None.
  Definition c (a b : Q) : gclass A := mkGC (A := A) false 1 0 2 (mkGmmP (A := A) 2 (d (1 # 100)) (d (1 # 100)) Diagonal) [d (1 # 2); d (1 # 2)] [k a; k b] [d 0; d 0] [d 0]
    (mkRing [[d 0; d 0]] 2 0 false) (d 0) (d 0) [] [].
  Definition z2 : list f64 := [d 0; d 0].
  Definition m : gmm A := mkGMM (A := A) false 1 0 Likeliest Diagonal [("a"%string, c 0 4); ("b"%string, c 20 24)] (mkRes (A := A) z2 z2 z2 z2 z2 ""%string [] []).
  Definition frames : list (list f64) := [[d 0]; [S754_nan]; [d 24]; [S754_infinity true]; [d 21]].
  (** All the parts of the first class after each frame. *)
  Definition first_part (xs : list (list f64)) : option (f64 * f64) :=
    match foldM (fun m x => gm_filter (A := A) x m) xs m with Ok m' => Some (nth 0 (rs_instn (gm_res m')) S754_nan, nth 0 (rs_smn (gm_res m')) S754_nan) | _ => None end.

  Lemma val (x : f64) (s : bool) p e : x = S754_finite s p e -> fval x = IZR (cond_Zopp s (Zpos p)) * bpow radix2 e.
  Proof. intros ->. reflexivity. Qed.
  Lemma d1 : num_in 1 1 (d 1).
  Proof. split; [vm_compute; reflexivity |]. split; [vm_compute; reflexivity |]. rewrite (val _ false 4503599627370496 (-52)) by (vm_compute; reflexivity). cbn. lra. Qed.
  Lemma dh : num_in (/ 2) (/ 2) (d (1 # 2)).
  Proof. split; [vm_compute; reflexivity |]. split; [vm_compute; reflexivity |]. rewrite (val _ false 4503599627370496 (-53)) by (vm_compute; reflexivity). cbn. lra. Qed.
  Lemma dk : num_in (/ 1024) (/ 1024) (d (1 # 1024)).
  Proof. split; [vm_compute; reflexivity |]. split; [vm_compute; reflexivity |]. rewrite (val _ false 4503599627370496 (-62)) by (vm_compute; reflexivity). cbn. lra. Qed.
  Lemma d80 : num_in (- 80) (- 80) (d (- 80)).
  Proof. split; [vm_compute; reflexivity |]. split; [vm_compute; reflexivity |]. rewrite (val _ true 5629499534213120 (-46)) by (vm_compute; reflexivity). cbn. lra. Qed.
  Lemma d0 : num_in 0 0 (d 0).
  Proof. split; [vm_compute; reflexivity |]. split; [vm_compute; reflexivity |]. cbn. lra. Qed.
  Lemma weak a b a' b' x : num_in a b x -> a' <= a -> b <= b' -> num_in a' b' x.
  Proof. intros (V & N & B) H1 H2. split; [exact V |]. split; [exact N | lra]. Qed.

  Lemma libm : libm_f64 exp0 ln0.
  Proof.
    assert (B1 : bpow radix2 (-900) <= / 1024) by (change (/ 1024) with (bpow radix2 (-10)); apply bpow_le; lia).
    assert (B2 : 1 <= bpow radix2 900) by (change 1 with (bpow radix2 0); apply bpow_le; lia).
    assert (E : forall x, exp0 x = S754_nan \/ exp0 x = d (1 # 1024) \/ exp0 x = d 1) by (intros []; cbn [exp0]; auto; destruct (SFltb _ _); auto).
    assert (EN : forall x, x <> S754_nan -> exp0 x <> S754_nan) by (intros [] H; cbn [exp0]; try congruence; destruct (SFltb _ _); vm_compute; discriminate).
    assert (L : forall x, ln0 x = S754_nan \/ ln0 x = d (- 80) \/ ln0 x = d 0) by (intros []; cbn [ln0]; auto; destruct (SFltb _ _); auto).
    assert (LN : forall x, x <> S754_nan -> ln0 x <> S754_nan) by (intros [] H; cbn [ln0]; try congruence; destruct (SFltb _ _); vm_compute; discriminate).
    split.
    - intros x _. destruct (E x) as [-> | [-> | ->]]; [reflexivity | apply dk | apply d1].
    - intros x _. destruct (L x) as [-> | [-> | ->]]; [reflexivity | apply d80 | apply d0].
    - intros x _ H. assert (x <> S754_nan) by (intros ->; destruct H as [H | (H & _)]; discriminate). destruct (E x) as [Q | [-> | ->]]; [now apply EN in Q | eapply weak; [apply dk | lra | lra] | eapply weak; [apply d1 | lra | lra]].
    - reflexivity.
    - intros x (_ & N & _). assert (x <> S754_nan) by (intros ->; discriminate). destruct (E x) as [Q | [-> | ->]]; [now apply EN in Q | eapply weak; [apply dk | lra | lra] | eapply weak; [apply d1 | lra | lra]].
    - intros x (_ & N & _). assert (x <> S754_nan) by (intros ->; discriminate). destruct (L x) as [Q | [-> | ->]]; [now apply LN in Q | eapply weak; [apply d80 | lra | lra] | eapply weak; [apply d0 | lra | lra]].
  Qed.

  Lemma class_ok a b : is_f64 (d a) -> is_f64 (d b) -> class_diag (c a b).
  Proof.
    intros Ha Hb. assert (W : num_in 0 1 (d (1 # 2))) by (eapply weak; [apply dh | lra | lra]). assert (I : not_negative (d 1)) by (destruct d1 as (V & N & B); right; split; [exact V | right; split; [exact N | lra]]).
    assert (G : forall q, is_f64 (d q) -> gauss_f64 (k q)) by (intros q Hq; repeat split; repeat constructor; auto; vm_compute; reflexivity).
    assert (K : forall q, gauss_diag (k q)) by (intros q; split; [reflexivity | constructor; [exact I | constructor]]).
    split; [split; [split; [reflexivity | split; [constructor; [exact W | constructor; [exact W | constructor]] |]] |] |].
    - exists (d (1 # 2)). split; [now left |]. destruct dh as (_ & _ & B). apply Rle_trans with (bpow radix2 (-1)); [apply bpow_le; lia | change (bpow radix2 (-1)) with (/ 2); apply B].
    - constructor; [now apply G | constructor; [now apply G | constructor]].
    - split; [constructor; [apply K | constructor; [apply K | constructor]] |]. split; [cbn; lia |]. split; [reflexivity |]. split; [cbn; lia |]. split; [cbn; lia |]. split; [reflexivity |]. cbn. lia.
  Qed.
  Lemma model_ok : model_diag m.
  Proof. split; [cbn; lia |]. constructor; [| constructor; [| constructor]]; apply class_ok; vm_compute; reflexivity. Qed.
  Lemma runs : exists m', foldM (fun m x => gm_filter (A := A) x m) frames m = Ok m' /\ is_num (nsum (A := A) 2 (ent (rs_inst (gm_res m')))) = true.
  Proof.
    assert (Q : match foldM (fun m x => gm_filter (A := A) x m) frames m with Ok m' => is_num (nsum (A := A) 2 (ent (rs_inst (gm_res m')))) | _ => false end = true) by (vm_compute; reflexivity).
    destruct (foldM (fun m x => gm_filter (A := A) x m) frames m) as [m' | |]; [| discriminate..]. exists m'. split; [reflexivity | exact Q].
  Qed.
End Ex.

(** Frames with a NaN and an infinity are accepted; before them, a frame of the first class. *)
Example C94_diagonal_meets : libm_f64 Ex.exp0 Ex.ln0 /\ model_diag Ex.m /\ (1 <= length (gm_models Ex.m))%nat /\ Forall frame_f64 Ex.frames /\
  (exists m', foldM (fun m x => gm_filter (A := Ex.A) x m) Ex.frames Ex.m = Ok m') /\
  option_map (fun p => (SFltb (Ex.d (9 # 10)) (fst p), SFltb (Ex.d (9 # 10)) (snd p))) (Ex.first_part (firstn 1 Ex.frames)) = Some (true, true) /\
  option_map (fun p => (SFeqb (Ex.d (1 # 2)) (fst p), f64_isnan (snd p))) (Ex.first_part (firstn 2 Ex.frames)) = Some (true, false) /\
  option_map (fun p => (SFltb (fst p) (Ex.d (1 # 10)), f64_isnan (snd p))) (Ex.first_part Ex.frames) = Some (true, false).
Proof.
  split; [exact Ex.libm |]. split; [exact Ex.model_ok |]. split; [cbn; lia |]. split; [repeat constructor; vm_compute; reflexivity |].
  split; [destruct Ex.runs as (m' & E & _); exists m'; exact E |]. split; [vm_compute; reflexivity |]. split; [vm_compute; reflexivity |]. vm_compute; reflexivity.
Qed.

Example C94_any_mixture_meets : on_f64 Ex.exp0 /\ model_f64 Ex.m /\ (exists m', foldM (fun m x => gm_filter (A := Ex.A) x m) Ex.frames Ex.m = Ok m' /\
  is_num (nsum (A := Ex.A) 2 (ent (rs_inst (gm_res m')))) = true).
Proof.
  split; [apply Ex.libm |]. split; [destruct Ex.model_ok as (_ & F); eapply Forall_impl; [| exact F]; intros e C; apply C |].
  exact Ex.runs.
Qed.

(** Weights that are all zero, and weights that are not normalised. *)
Example C94_weights_meets :
  let g := Ex.c 0 4 in let z := gc_set_coef (A := Ex.A) Ex.z2 g in let w := gc_set_coef (A := Ex.A) [Ex.d 3; Ex.d 1] g in
  (is_num (nsum (A := Ex.A) 2 (ent (gc_coef z))) = true /\ Forall num_nonneg (gc_coef z) /\ gc_coef (gm_normalize z) = [Ex.d (1 # 2); Ex.d (1 # 2)]) /\
  (is_num (nsum (A := Ex.A) 2 (ent (gc_coef w))) = true /\ gc_coef (gm_normalize w) = [Ex.d (3 # 4); Ex.d (1 # 4)]).
Proof.
  cbv zeta. split; [split; [vm_compute; reflexivity |]; split; [| vm_compute; reflexivity] | split; vm_compute; reflexivity].
  destruct Ex.d0 as (V & N & B). repeat constructor; auto; apply B.
Qed.
