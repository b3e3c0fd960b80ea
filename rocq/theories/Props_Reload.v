(** Copies and saved models: C80 and C81. *)
From Coq Require Import String List Bool Arith ZArith QArith Lia Sorted SpecFloat.
From Verif Require Import Base Arith Model_Json Model_Map Model_Ring Model_Gaussian Model_Shared Model_Config Model_KMeans Model_GMM Model_HMM Model_HHMM Model_Reload
  Spec_Gaussian Spec_Shared Spec_Config Spec_Reload Proofs_Rel Proofs_Reload1 Proofs_Reload2 Proofs_Reload3 Proofs_Reload4 Proofs_Reload5.
Import ListNotations.
Local Open Scope nat_scope.
Local Open Scope list_scope.

(** C80: a trained mixture model written as JSON and read again, by the constructor or into an existing
    model, reports the same as the original for every sequence of observations, once both are reset ... *)
Theorem C80_same_recognition : forall (A : arith) u (cv : conv A) (m : gmodel A), trained_gmm cv m -> Forall (fun e => loadable (snd e)) (gq_cls m) ->
  exists j t, gq_toJson m = Ok j /\ gq_ofJson u cv j = Ok t /\ same_recognition (gq_view m) (gq_view t) /\
    forall m0, exists t0, gq_fromJson u cv j m0 = (t0, Ok tt) /\ same_recognition (gq_view m) (gq_view t0).
Proof. intros A. exact gq_loaded_same. Qed.
Print Assumptions C80_same_recognition.
(** ... but with diagonal covariances in two dimensions or more, what was written cannot be read ... *)
Theorem C80_diagonal_refuted : forall (A : arith) u (cv : conv A) (m : gmodel A), trained_gmm cv m -> Exists (fun e => ~ loadable (snd e)) (gq_cls m) ->
  exists j, gq_toJson m = Ok j /\ gq_ofJson u cv j = Throw JsonValueError /\ forall m0, gq_fromJson u cv j m0 = (m0, Throw JsonValueError).
Proof.
  intros A u cv m T E. destruct (gq_fails u cv m T E) as (j & J1 & J2). exists j. split; [exact J1|]. split; [exact J2|]. intro m0. unfold gq_fromJson. rewrite J2. reflexivity.
Qed.
Print Assumptions C80_diagonal_refuted.
(** ... and a model constructed from JSON that filters before it is reset writes outside its results, for
    every observation that the original can filter. *)
Theorem C80_before_reset_refuted : forall (A : arith) u (cv : conv A) (m : gmodel A) j t x m', trained_gmm cv m -> Forall (fun e => loadable (snd e)) (gq_cls m) ->
  gq_toJson m = Ok j -> gq_ofJson u cv j = Ok t -> gmm_recognise [x] (gq_view m) = Ok m' -> gm_filter x (gq_view t) = UB.
Proof. intros A. exact gq_unready. Qed.
Print Assumptions C80_before_reset_refuted.
(** A class that has been allocated, initialised and updated any number of times is trained in this sense;
    the mixture coefficients are [float] in C++. *)
Theorem C80_training : forall (A : arith) (cv : conv A) g0 g1 g2 g3 data dev k frames,
  gmmP_ok cv (gc_par g0) -> dims_ok (gc_bim g0) (gc_dim g0) (gc_din g0) -> one_channel (gc_buf g0) ->
  gm_allocate g0 = Ok g1 -> gm_init data dev g1 = Ok g2 -> gm_updates k frames g2 = Ok g3 -> Forall (is_float cv) (gc_coef g3) -> trained cv g3.
Proof. intros A. exact training_trains. Qed.
Print Assumptions C80_training.

(** Two classes of two components, initialised from a phrase and updated once. *)
Definition DA : arith := FA (fun x => if SFltb x (f64_ofQ (inject_Z (-1000))) then f64_ofQ (1 # 2) else f64_ofQ (inject_Z 1)) (fun x => x).
Definition d_cv : conv DA := mkConv (A := DA) to_float32 (fun _ => None) (fun _ => EmptyString).
Definition d_num (z : Z) : num DA := nZ z.
Definition d_phrase : list (list (num DA)) := map (map d_num) [[0; 0]; [1; 2]; [4; 0]; [5; 2]]%Z.
Definition d_raw (bim : bool) (mode : cmode) : gclass DA :=
  mkGC (A := DA) bim 2 (if bim then 1 else 0) 3 (mkGmmP (A := DA) 2 (d_num 1) (d_num 1) mode) [] [] [] [] (ring_new n0 1 1) n0 n0 [] [].
Definition d_steps (bim : bool) (mode : cmode) : res (gclass DA * gclass DA * gclass DA) :=
  let* g1 := gm_allocate (d_raw bim mode) in
  let* g2 := gm_init [d_phrase] [d_num 1; d_num 1] g1 in
  let* g3 := gm_updates 1 d_phrase g2 in
  Ok (g1, g2, g3).
Definition d_class (bim : bool) (mode : cmode) : gclass DA := match d_steps bim mode with Ok (_, _, g) => g | _ => d_raw bim mode end.
Definition d_shared (bim : bool) : shared DA :=
  mkShared (A := DA) bim 2 (if bim then 2 else 1) (if bim then 1 else 0) (if bim then 1 else 0) 1 ["x"; "y"]%string 2 10 0 (d_num 1) 3 (Some 0).
Definition d_gmm (bim : bool) (mode : cmode) : gmodel DA :=
  mkGM (A := DA) (d_shared bim) (mkConfig (mkGmmP (A := DA) 2 (d_num 1) (d_num 1) mode) 0%Z 1%Z []) [("a", d_class bim mode); ("b", d_class bim mode)]%string empty_results.

Lemma d_trained : forall bim mode, trained d_cv (d_class bim mode).
Proof.
  intros bim mode.
  assert (X : match d_steps bim mode with Ok (_, _, g) => forallb (fun w => SFeqb (to_float32 w) w) (gc_coef g) | _ => false end = true) by (destruct bim, mode; vm_compute; reflexivity).
  unfold d_class. unfold d_steps in *.
  destruct (gm_allocate (d_raw bim mode)) as [g1| |] eqn:E1; try discriminate. cbn [bind] in *.
  destruct (gm_init [d_phrase] [d_num 1; d_num 1] g1) as [g2| |] eqn:E2; try discriminate. cbn [bind] in *.
  destruct (gm_updates 1 d_phrase g2) as [g3| |] eqn:E3; try discriminate. cbn [bind] in *.
  eapply C80_training; [| | |exact E1|exact E2|exact E3|].
  - split; [cbn; lia|]. split; [cbn; lia|]. split; vm_compute; reflexivity.
  - destruct bim; (split; [unfold int_range; cbn; lia|cbn; lia]).
  - exists [n0]. split; reflexivity.
  - assert (Y : match d_steps bim mode with Ok (_, _, g) => map (c_float d_cv) (gc_coef g) = gc_coef g | _ => False end) by (destruct bim, mode; vm_compute; reflexivity).
    unfold d_steps in Y. rewrite E1 in Y. cbn [bind] in Y. rewrite E2 in Y. cbn [bind] in Y. rewrite E3 in Y. cbn [bind] in Y.
    clear - Y. induction (gc_coef g3) as [|w l IH]; [constructor|]. cbn [map] in Y. injection Y as Y1 Y2. constructor; [exact Y1|apply IH; exact Y2].
Qed.

Example C80_meets : forall bim mode,
  trained_gmm d_cv (d_gmm bim mode) /\
  (match mode with Full => Forall (fun e => loadable (snd e)) (gq_cls (d_gmm bim mode)) | Diagonal => Exists (fun e => ~ loadable (snd e)) (gq_cls (d_gmm bim mode)) end) /\
  exists m', gmm_recognise [if bim then [d_num 1] else [d_num 1; d_num 2]] (gq_view (d_gmm bim mode)) = Ok m'.
Proof.
  intros bim mode.
  assert (SH : shares (d_shared bim) (gc_bim (d_class bim mode)) (gc_dim (d_class bim mode)) (gc_din (d_class bim mode)) (gc_win (d_class bim mode)) /\ gc_mode (d_class bim mode) = mode /\ gc_dim (d_class bim mode) = 2).
  { unfold shares. destruct bim, mode; vm_compute; auto 10. }
  destruct SH as (SH & SM & SD). split; [|split].
  - split; [|split; [|split; [|split; [|split]]]].
    + unfold storable. destruct bim; cbn; repeat split; auto; try lia; repeat constructor.
    + vm_compute. reflexivity.
    + split; [cbn; lia|]. split; [cbn; lia|]. split; [|split; [constructor|constructor]]. split; [cbn; lia|]. split; [cbn; lia|]. split; vm_compute; reflexivity.
    + discriminate.
    + repeat constructor.
    + constructor; [|constructor; [|constructor]]; (split; [apply d_trained|exact SH]).
  - destruct mode; [constructor; [|constructor; [|constructor]]; left; exact SM|]. left. unfold loadable. cbn [snd]. rewrite SM, SD. intros [H|H]; discriminate.
  - assert (X : match gmm_recognise [if bim then [d_num 1] else [d_num 1; d_num 2]] (gq_view (d_gmm bim mode)) with Ok _ => true | _ => false end = true) by (destruct bim, mode; vm_compute; reflexivity).
    destruct (gmm_recognise _ _); try discriminate. eauto.
Qed.

(** C81: a copy of a mixture model, made by the copy constructor or by assignment to another model, reports
    the same as the original once both are reset ... *)
Theorem C81_copies : forall (A : arith) u (m : gmodel A), ready_gmm m ->
  same_recognition (gq_view m) (gq_view (gq_copy u m)) /\ forall d, same_recognition (gq_view m) (gq_view (gq_assign u d m)).
Proof. intros A u m R. split; [apply gq_copy_same; exact R|intro d; apply gq_assign_same; exact R]. Qed.
Print Assumptions C81_copies.
Theorem C81_class : forall (A : arith) u (g : gclass A), length (gc_beta g) = gc_n g -> one_channel (gc_buf g) -> same_recognition1 g (gc_copy u g).
Proof. intros A u g L O. apply same1; [apply copy_sim; exact L|exact O|apply new_channel]. Qed.
Print Assumptions C81_class.
(** ... but until then the log-likelihood that it reports is not smoothed, whatever the window. *)
Theorem C81_window_refuted : forall (A : arith) u (g a : gclass A) xs, xs <> [] -> filter_class xs (gc_copy u g) = Ok a ->
  gc_log a = ((n0 + nln (gc_inst a)) / nN 1)%num.
Proof. intros A u g a xs NE H. apply (filter_class_one xs (gc_copy u g)); auto. exists n0. auto. Qed.
Print Assumptions C81_window_refuted.
Example C81_meets : forall bim mode u, let g := d_class bim mode in
  let far := if bim then [d_num 1000] else [d_num 1000; d_num 0] in let near := if bim then [d_num 1] else [d_num 1; d_num 0] in
  ready_gmm (d_gmm bim mode) /\ length (gc_beta g) = gc_n g /\ one_channel (gc_buf g) /\
  exists x y, shown gc_log (filter_class [near; far] (gc_copy u g)) = Ok x /\ shown gc_log (filter_class [near; far] (gm_reset1 g)) = Ok y /\ SFeqb x y = false.
Proof.
  intros bim mode u g far near. destruct (d_trained bim mode) as (_ & _ & _ & _ & _ & _ & LB & OC).
  assert (B : gc_bim g = bim) by (subst g; destruct bim, mode; vm_compute; reflexivity).
  split; [split; [discriminate|]|].
  - constructor; [|constructor; [|constructor]]; (split; [exact B|split; [exact LB|exact OC]]).
  - split; [exact LB|]. split; [exact OC|].
    assert (X : match shown gc_log (filter_class [near; far] (gc_copy u g)), shown gc_log (filter_class [near; far] (gm_reset1 g)) with Ok x, Ok y => SFeqb x y | _, _ => true end = false).
    { subst g far near. destruct u, bim, mode; vm_compute; reflexivity. }
    destruct (shown gc_log (filter_class [near; far] (gc_copy u g))) as [x| |]; try discriminate.
    destruct (shown gc_log (filter_class [near; far] (gm_reset1 g))) as [y| |]; try discriminate. exists x, y. auto.
Qed.
