(** C99: regression with Gaussian mixtures in double precision. *)
From Coq Require Import String ZArith QArith Reals Lra Lia Bool List Arith.
From Coq Require Import Floats.SpecFloat.
From Flocq Require Import Core.Core.
From Verif Require Import Base BaseFacts Arith Model_Ring Model_Gaussian Model_Config Model_KMeans Model_GMM Model_Single Model_Single2 Model_Single3 Spec_Float Spec_Float2 Spec_Float3 Spec_Float5 Spec_Float6.
From Verif Require Import Proofs_Float4 Proofs_Float24 Proofs_Float25 Proofs_Float27 Proofs_Float28 Proofs_Float29 Props_Float Props_Float4.
Import ListNotations.
Local Open Scope R_scope.

(** One class with Diagonal covariances, after any frames of any doubles: each output is between the means of the
    components up to the rounding to single precision, and each output variance is at most the largest one. *)
Theorem C99_class : forall fexp fln b lo hi d (g g' : gclass (FA fexp fln)) xs x, libm_f64 fexp fln -> (-100 <= b <= 100)%Z -> (Z.of_nat (gc_n g) <= 2 ^ 20)%Z ->
  class_diag g -> gc_bim g = true -> (gc_din g + d < gc_dim g)%nat -> Forall frame_f64 (xs ++ [x]) -> foldM (fun g x => gm_filter1_with (A := FA fexp fln) as_single x g) (xs ++ [x]) g = Ok g' ->
  let e := INR (gc_n g) * bpow radix2 (b - 20) in
  (means_in d lo hi g -> range_in b lo hi -> near lo hi e (ent (gc_out g') d)) /\
  (variances_in d hi g -> hi <= bpow radix2 b -> num_in 0 (hi + e) (ent (gc_ocov g') d)).
Proof.
  intros fexp fln b lo hi d g g' xs x LM Hb Hn Hg Bi Hd Hx H. cbv zeta. destruct (class_seq fexp fln LM xs x g g' Hg Hx H) as (g0 & D0 & Fx & K & E). assert (K0 := K). destruct K0 as (K1 & K2 & K3 & K4 & K5 & K6).
  assert (N : gc_n g0 = gc_n g) by (unfold gc_n; now rewrite K4). rewrite <- N. split.
  - intros Hm Hr. apply (class_out fexp fln LM b lo hi d x g0 g' Hb); try assumption; [rewrite N; exact Hn | rewrite K1; exact Bi | rewrite K2, K3; exact Hd | exact (means_kept fexp fln d lo hi g g0 K Hm)].
  - intros (Hm & Hv) Hr. apply (class_cov fexp fln LM b hi d x g0 g' Hb); try assumption; [rewrite N; exact Hn | rewrite K1; exact Bi | rewrite K2, K3; exact Hd |]. split; [unfold gc_mode; rewrite K4; exact Hm | rewrite K6; exact Hv].
Qed.
Print Assumptions C99_class.

(** The whole model, with the outputs of the likeliest class or the mixture of the outputs of the classes. *)
Theorem C99_model : forall fexp fln b lo hi C d (m m' : gmm (FA fexp fln)) xs x, libm_f64 fexp fln -> (-100 <= b <= 98)%Z -> (1 <= length (gm_models m))%nat -> (Z.of_nat (length (gm_models m)) <= 2 ^ 20)%Z -> (Z.of_nat C <= 2 ^ 20)%Z ->
  model_diag m -> gm_bim m = true -> (gm_din m + d < gm_dim m)%nat -> Forall (fun e => regresses m (snd e) /\ (gc_n (snd e) <= C)%nat) (gm_models m) ->
  Forall frame_f64 (xs ++ [x]) -> foldM (fun m x => gm_filter_with (A := FA fexp fln) as_single x m) (xs ++ [x]) m = Ok m' ->
  let e := (INR C + 2 * INR (length (gm_models m))) * bpow radix2 (b - 20) in
  (Forall (fun e => means_in d lo hi (snd e)) (gm_models m) -> range_in b lo hi -> near lo hi e (ent (rs_out (gm_res m')) d)) /\
  (gm_cmode m = Diagonal -> Forall (fun e => variances_in d hi (snd e)) (gm_models m) -> hi <= bpow radix2 b -> num_in 0 (hi + e) (ent (rs_ocov (gm_res m')) d)).
Proof.
  intros fexp fln b lo hi C d m m' xs x LM Hb H1 H2 HC Hm Bi Hd Hr Hx H. cbv zeta.
  assert (KR : forall g g' : gclass (FA fexp fln), kept fexp fln g g' -> regresses m g /\ (gc_n g <= C)%nat -> regresses m g' /\ (gc_n g' <= C)%nat).
  { intros g g' (K1 & K2 & K3 & K4 & _) ((R1 & R2 & R3) & L). unfold regresses, gc_n in *. rewrite K1, K2, K3, K4. auto. }
  split.
  - intros Hs Rg. destruct (with_seq fexp fln LM (fun g => (regresses m g /\ (gc_n g <= C)%nat) /\ means_in d lo hi g) xs x m m') as (m0 & D0 & L0 & Fx & F0 & (B1 & B2 & B3 & B4) & E); try assumption.
    + intros g g' K (P1 & P2). split; [exact (KR g g' K P1) | exact (means_kept fexp fln d lo hi g g' K P2)].
    + apply Forall_forall. intros e I. split; [exact (proj1 (Forall_forall _ _) Hr e I) | exact (proj1 (Forall_forall _ _) Hs e I)].
    + rewrite <- L0. apply (model_out fexp fln LM C d m0 m' x); try assumption; try (rewrite ?L0, ?B1, ?B2, ?B3; assumption).
      * eapply Forall_impl; [| exact F0]. intros e (((R1 & R2 & R3) & L) & _). unfold regresses. rewrite B2, B3. auto.
      * eapply Forall_impl; [| exact F0]. intros e (_ & Q). exact Q.
  - intros Cm Hs Rg. destruct (with_seq fexp fln LM (fun g => (regresses m g /\ (gc_n g <= C)%nat) /\ variances_in d hi g) xs x m m') as (m0 & D0 & L0 & Fx & F0 & (B1 & B2 & B3 & B4) & E); try assumption.
    + intros g g' K (P1 & (P2 & P3)). split; [exact (KR g g' K P1) |]. destruct K as (_ & _ & _ & K4 & _ & K6). split; [unfold gc_mode; rewrite K4; exact P2 | rewrite K6; exact P3].
    + apply Forall_forall. intros e I. split; [exact (proj1 (Forall_forall _ _) Hr e I) | exact (proj1 (Forall_forall _ _) Hs e I)].
    + rewrite <- L0. apply (model_cov fexp fln LM C d m0 m' x); try assumption; try (rewrite ?L0, ?B1, ?B2, ?B3, ?B4; assumption).
      * eapply Forall_impl; [| exact F0]. intros e (((R1 & R2 & R3) & L) & _). unfold regresses. rewrite B2, B3. auto.
      * eapply Forall_impl; [| exact F0]. intros e (_ & Q). exact Q.
Qed.
Print Assumptions C99_model.

(** A class from its training (C98): the outputs are within the bound of the training data, or the training left a
    component without a mean, and then they are NaN although its weight is zero. *)
Theorem C99_trained : forall fexp fln b d (g g' g'' : gclass (FA fexp fln)) frames n xs x, libm_f64 fexp fln -> (0 <= b <= 48)%Z -> class_em g -> reg_shape g -> gc_bim g = true -> window_empty (gc_buf g) ->
  (Z.of_nat (gc_n g) <= 2 ^ 20)%Z -> (gc_din g + d < gc_dim g)%nat -> frames_in b frames -> reg_in b (gc_dim g) (gc_reg g) -> (1 <= length frames)%nat -> (Z.of_nat (length frames) <= 2 ^ 32)%Z ->
  gm_updates_with (A := FA fexp fln) as_single (S n) frames g = Ok g' -> Forall frame_f64 (xs ++ [x]) -> foldM (fun g x => gm_filter1_with (A := FA fexp fln) as_single x g) (xs ++ [x]) g' = Ok g'' ->
  (exists c k, nth_error (gc_comp g') c = Some k /\ dead (gc_dim g) k /\ fval (ent (gc_coef g') c) = 0 /\ ent (gc_out g'') d = S754_nan) \/
  (Forall (sound b (gc_dim g) (gc_reg g)) (gc_comp g') /\ near (- bpow radix2 b) (bpow radix2 b) (INR (gc_n g) * bpow radix2 (b - 20)) (ent (gc_out g'') d) /\
   num_in 0 (bpow radix2 (2 * b + 3) + INR (gc_n g) * bpow radix2 (2 * b + 3 - 20)) (ent (gc_ocov g'') d)).
Proof. intros. eapply trained_out; eassumption. Qed.
Print Assumptions C99_trained.

(** With the Mixture estimator, one component without a mean makes the outputs of the whole model NaN, for any input
    and whatever the weights. *)
Theorem C99_lost : forall fexp fln d x (m m' : gmm (FA fexp fln)) e c k, gm_est m = Mixture -> gm_bim m = true ->
  Forall (fun e : string * gclass (FA fexp fln) => Forall (fun k : gauss (FA fexp fln) => g_mode k = Diagonal) (gc_comp (snd e))) (gm_models m) ->
  gm_filter_with (A := FA fexp fln) as_single x m = Ok m' -> (gm_din m + d < gm_dim m)%nat -> In e (gm_models m) -> regresses m (snd e) -> (c < gc_n (snd e))%nat -> nth_error (gc_comp (snd e)) c = Some k ->
  ent (g_mean k) (g_din k + d) = S754_nan -> ent (rs_out (gm_res m')) d = S754_nan.
Proof. exact mixture_nan. Qed.
Print Assumptions C99_lost.

(** *** Concrete cases *)
Module Reg.
  Import Props_Float.Ex.
  Import Props_Float4.Train.
  Local Open Scope Q_scope.
  Definition k (mean out : Q) : gauss A := mkGauss (A := A) true 2 1 1 None Diagonal [d mean; d out] [d (1 # 1000); d (1 # 1000)] [d 1000; d 1000] (d (1 # 1000000)) [d 1000] (d (1 # 1000)) [d (1 # 1000)] None.
  Definition c (w1 w2 m1 o1 m2 o2 : Q) : gclass A := mkGC (A := A) true 2 1 2 par [d w1; d w2] [k m1 o1; k m2 o2] [d 0; d 0] [d (1 # 1000); d (1 # 1000)] (mkRing [[d 0; d 0]] 2 0 false) (d 0) (d 0) [] [].
  Definition g1 : gclass A := c (1 # 2) (1 # 2) 0 (1 # 4) 4 (3 # 4).
  Definition z2 : list f64 := [d 0; d 0].
  Definition m (est : restimator) : gmm A := mkGMM (A := A) true 2 1 est Diagonal [("a"%string, g1); ("b"%string, c (1 # 4) (3 # 4) 20 (3 # 4) 24 (1 # 2))] (mkRes (A := A) z2 z2 z2 z2 z2 ""%string [] []).
  Definition inputs : list (list f64) := [[d 0]; [S754_nan]; [d 24]; [S754_infinity true]; [d 21]].
  (** A class whose second component is far from the frames and has a tiny weight. *)
  Definition far2 : gclass A := c 1 (1 # (10 ^ 143)) 0 0 1000 1.
  Definition frames2 : list (list f64) := [[d 0; d (1 # 100)]; [d (1 # 100); d 0]].
  Local Open Scope R_scope.

  Lemma dq : num_in (/ 4) (/ 4) (d (1 # 4)).
  Proof. split; [vm_compute; reflexivity |]. split; [vm_compute; reflexivity |]. rewrite (val _ false 4503599627370496 (-54)) by (vm_compute; reflexivity). cbn. lra. Qed.
  Lemma d34 : num_in (3 / 4) (3 / 4) (d (3 # 4)).
  Proof. split; [vm_compute; reflexivity |]. split; [vm_compute; reflexivity |]. rewrite (val _ false 6755399441055744 (-53)) by (vm_compute; reflexivity). cbn. lra. Qed.
  Lemma k_ok a b : is_f64 (d a) -> is_f64 (d b) -> gauss_f64 (k a b) /\ gauss_diag (k a b).
  Proof.
    intros Ha Hb. assert (I : not_negative (d 1000)).
    { right. split; [vm_compute; reflexivity |]. right. split; [vm_compute; reflexivity |]. rewrite (val _ false 8796093022208000 (-43)) by (vm_compute; reflexivity). cbn. lra. }
    split; [repeat split; repeat constructor; auto; vm_compute; reflexivity |]. split; [reflexivity |]. constructor; [exact I | constructor; [exact I | constructor]].
  Qed.
  Lemma c_ok w1 w2 m1 o1 m2 o2 : num_in (/ 4) 1 (d w1) -> num_in 0 1 (d w2) -> is_f64 (d m1) -> is_f64 (d o1) -> is_f64 (d m2) -> is_f64 (d o2) -> class_em (c w1 w2 m1 o1 m2 o2).
  Proof.
    intros H1 H2 M1 O1 M2 O2. destruct (k_ok m1 o1 M1 O1) as (G1 & G2). destruct (k_ok m2 o2 M2 O2) as (G3 & G4).
    split; [split; [split; [split; [reflexivity |]; split; [constructor; [eapply weak; [exact H1 | lra | lra] | constructor; [exact H2 | constructor]] |] |] |] |].
    - exists (d w1). split; [now left |]. destruct H1 as (_ & _ & B). apply Rle_trans with (bpow radix2 (-2)); [apply bpow_le; lia | change (bpow radix2 (-2)) with (/ 4); apply B].
    - constructor; [exact G1 | constructor; [exact G3 | constructor]].
    - split; [constructor; [exact G2 | constructor; [exact G4 | constructor]] | cbn; lia].
    - split; [reflexivity |]. split; [| constructor; [vm_compute; reflexivity | constructor; [vm_compute; reflexivity | constructor]]].
      constructor; [| constructor; [| constructor]]; (split; [reflexivity | constructor; [vm_compute; reflexivity | constructor; [vm_compute; reflexivity | constructor]]]).
  Qed.
  Lemma window w1 w2 m1 o1 m2 o2 : window_empty (gc_buf (c w1 w2 m1 o1 m2 o2)).
  Proof. split; [reflexivity |]. split; [cbn; lia |]. split; [cbn; lia |]. split; reflexivity. Qed.
  Lemma m_ok est : model_diag (m est) /\ Forall (fun e => means_in 0 (/ 4) (3 / 4) (snd e)) (gm_models (m est)) /\ Forall (fun e => variances_in 0 (3 / 4) (snd e)) (gm_models (m est)).
  Proof.
    assert (V : num_in 0 (3 / 4) (d (1 # 1000))).
    { split; [vm_compute; reflexivity |]. split; [vm_compute; reflexivity |]. rewrite (val _ false 4611686018427388 (-62)) by (vm_compute; reflexivity). cbn -[bpow]. change (bpow radix2 (-62)) with (/ 4611686018427387904). lra. }
    assert (Q1 : num_in (/ 4) (3 / 4) (d (1 # 4))) by (eapply weak; [apply dq | lra | lra]). assert (Q3 : num_in (/ 4) (3 / 4) (d (3 # 4))) by (eapply weak; [apply d34 | lra | lra]). assert (Q2 : num_in (/ 4) (3 / 4) (d (1 # 2))) by (eapply weak; [apply dh | lra | lra]).
    split; [split; [cbn; lia |] |].
    - constructor; [| constructor; [| constructor]]; (apply em_diag; [| apply window]); apply c_ok; try (vm_compute; reflexivity).
      + eapply weak; [apply dh | lra | lra].
      + eapply weak; [apply dh | lra | lra].
      + eapply weak; [apply dq | lra | lra].
      + eapply weak; [apply d34 | lra | lra].
    - split; (constructor; [| constructor; [| constructor]]).
      + constructor; [split; [reflexivity | exact Q1] | constructor; [split; [reflexivity | exact Q3] | constructor]].
      + constructor; [split; [reflexivity | exact Q3] | constructor; [split; [reflexivity | exact Q2] | constructor]].
      + split; [reflexivity |]. constructor; [exact V | constructor; [exact V | constructor]].
      + split; [reflexivity |]. constructor; [exact V | constructor; [exact V | constructor]].
  Qed.
  (** The output of the model after all the inputs, compared with some numbers. *)
  Definition shown (est : restimator) (a b : Q) : option (bool * bool) :=
    match foldM (fun m x => gm_filter_with (A := A) as_single x m) inputs (m est) with Ok m' => let o := ent (rs_out (gm_res m')) 0 in Some (SFltb (d a) o, SFltb o (d b)) | _ => None end.
  (** The output of the far class after [n] updates and two frames. *)
  Definition after (n : nat) : option (list (list bool) * bool) :=
    match bind (gm_updates_with (A := A) as_single n frames2 far2) (fun g => bind (foldM (fun g x => gm_filter1_with (A := A) as_single x g) [[S754_nan]; [d 0]] g) (fun g' => Ok (g, g'))) with
    | Ok (g, g') => Some (map (fun k : gauss A => map is_num (g_mean k)) (gc_comp g), is_num (ent (gc_out g') 0))
    | _ => None
    end.
  Lemma frames2_ok : frames_in 0 frames2.
  Proof.
    assert (X : num_in (- bpow radix2 0) (bpow radix2 0) (d (1 # 100))).
    { split; [vm_compute; reflexivity |]. split; [vm_compute; reflexivity |]. rewrite (val _ false 5764607523034235 (-59)) by (vm_compute; reflexivity). cbn. lra. }
    assert (Y : num_in (- bpow radix2 0) (bpow radix2 0) (d 0)) by (eapply weak; [apply d0 | cbn; lra | cbn; lra]).
    constructor; [constructor; [exact Y | constructor; [exact X | constructor]] |]. constructor; [constructor; [exact X | constructor; [exact Y | constructor]] | constructor].
  Qed.
  Lemma reg2_ok : reg_in 0 2 [d (1 # 1000); d (1 # 1000)].
  Proof. assert (Z := reg_ok). intros [| [| i]] Hi; [exact (Z 0%nat ltac:(lia)) | exact (Z 0%nat ltac:(lia)) | lia]. Qed.
  Lemma far2_ok : class_em far2.
  Proof.
    assert (W := far_ok). destruct W as ((((_ & W & _) & _) & _) & _). assert (W3 : num_in 0 1 (d (1 # (10 ^ 143)))) by (apply (proj1 (Forall_forall _ _) W); right; now left).
    apply c_ok; try (vm_compute; reflexivity); [eapply weak; [apply d1 | lra | lra] | exact W3].
  Qed.
End Reg.

(** Frames with a NaN and an infinity; the last one is closest to the second class. *)
Example C99_model_meets : libm_f64 Train.exp1 Ex.ln0 /\ (forall est, model_diag (Reg.m est) /\ gm_bim (Reg.m est) = true /\ Forall (fun e => regresses (Reg.m est) (snd e) /\ (gc_n (snd e) <= 2)%nat) (gm_models (Reg.m est)) /\
    Forall (fun e => means_in 0 (/ 4) (3 / 4) (snd e)) (gm_models (Reg.m est)) /\ Forall (fun e => variances_in 0 (3 / 4) (snd e)) (gm_models (Reg.m est)) /\ gm_cmode (Reg.m est) = Diagonal) /\
  range_in 0 (/ 4) (3 / 4) /\ Forall frame_f64 Reg.inputs /\ (exists m', foldM (fun m x => gm_filter_with (A := Train.A) as_single x m) Reg.inputs (Reg.m Mixture) = Ok m') /\
  Reg.shown Likeliest (1 # 2) (4 # 5) = Some (true, true) /\ Reg.shown Mixture (1 # 4) (3 # 4) = Some (true, true).
Proof.
  split; [exact Train.libm1 |]. split.
  - intros est. destruct (Reg.m_ok est) as (D & M & V). split; [exact D |]. split; [reflexivity |]. split; [| split; [exact M | split; [exact V | reflexivity]]].
    constructor; [| constructor; [| constructor]]; (split; [split; [reflexivity | split; reflexivity] | cbn; lia]).
  - split; [split; cbn; lra |]. split; [repeat constructor; vm_compute; reflexivity |]. split; [| split; vm_compute; reflexivity].
    assert (Q : match foldM (fun m x => gm_filter_with (A := Train.A) as_single x m) Reg.inputs (Reg.m Mixture) with Ok _ => true | _ => false end = true) by (vm_compute; reflexivity).
    match type of Q with match ?t with _ => _ end = _ => destruct t as [m' | |] end; [now exists m' | discriminate Q | discriminate Q].
Qed.

(** After one update the far component has no mean and the output is NaN; after two the component is back. *)
Example C99_trained_meets : class_em Reg.far2 /\ reg_shape Reg.far2 /\ gc_bim Reg.far2 = true /\ window_empty (gc_buf Reg.far2) /\ frames_in 0 Reg.frames2 /\ reg_in 0 (gc_dim Reg.far2) (gc_reg Reg.far2) /\
  Reg.after 1 = Some ([[true; true]; [false; false]], false) /\ Reg.after 2 = Some ([[true; true]; [true; true]], true).
Proof.
  split; [exact Reg.far2_ok |]. split; [constructor; [| constructor; [| constructor]]; (split; [reflexivity | split; [reflexivity | split; reflexivity]]) |]. split; [reflexivity |]. split; [apply Reg.window |].
  split; [exact Reg.frames2_ok |]. split; [exact Reg.reg2_ok |]. split; vm_compute; reflexivity.
Qed.

Example C99_class_meets : class_diag Reg.g1 /\ gc_bim Reg.g1 = true /\ (gc_din Reg.g1 + 0 < gc_dim Reg.g1)%nat /\ means_in 0 (/ 4) (3 / 4) Reg.g1 /\ variances_in 0 (3 / 4) Reg.g1 /\
  match foldM (fun g x => gm_filter1_with (A := Train.A) as_single x g) (Reg.inputs ++ [[Ex.d 4]]) Reg.g1 with Ok g => Some (gc_out g) | _ => None end = Some [Ex.d (3 # 4)].
Proof.
  destruct (Reg.m_ok Likeliest) as ((_ & D) & M & V). assert (I : In ("a"%string, Reg.g1) (gm_models (Reg.m Likeliest))) by now left.
  split; [exact (proj1 (Forall_forall _ _) D _ I) |]. split; [reflexivity |]. split; [cbn; lia |]. split; [exact (proj1 (Forall_forall _ _) M _ I) |]. split; [exact (proj1 (Forall_forall _ _) V _ I) | vm_compute; reflexivity].
Qed.

(** The far class after one update, as a second class of the model: the outputs of the first class are lost too. *)
Example C99_lost_meets :
  match gm_updates_with (A := Train.A) as_single 1 Reg.frames2 Reg.far2 with
  | Ok g =>
      let m := gm_set (A := Train.A) [("a"%string, Reg.g1); ("b"%string, g)] (gm_res (Reg.m Mixture)) (Reg.m Mixture) in
      match nth_error (gc_comp g) 1, gm_filter_with (A := Train.A) as_single [Ex.d 0] m with
      | Some k, Ok m' => Some (map (fun k : gauss Train.A => g_mode k) (gc_comp g), (gc_bim g, gc_dim g, gc_din g), ent (g_mean k) (g_din k + 0), map (fun e : string * gclass Train.A => map is_num (gc_out (snd e))) (gm_models m'), rs_out (gm_res m'))
      | _, _ => None
      end
  | _ => None
  end = Some ([Diagonal; Diagonal], (true, 2%nat, 1%nat), S754_nan, [[true]; [false]], [S754_nan]).
Proof. vm_compute. reflexivity. Qed.
