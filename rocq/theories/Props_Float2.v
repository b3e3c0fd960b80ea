(** C96: recognition with hierarchical models in double precision. *)
From Coq Require Import String ZArith QArith Reals Lra Lia Bool List Arith.
From Coq Require Import Floats.SpecFloat.
From Flocq Require Import Core.Core.
From Verif Require Import Base BaseFacts Arith Model_Ring Model_Gaussian Model_Config Model_KMeans Model_GMM Model_HMM Model_HHMM Spec_Float Spec_Float2 Spec_Float3.
From Verif Require Import Proofs_Float1 Proofs_Float2 Proofs_Float12 Proofs_Float13.
Import ListNotations.
Local Open Scope R_scope.

(** After any number of frames of any doubles, the forward variables are numbers between 0 and 1, one of them
    is not small, and the instant posteriors are the likelihoods divided by their sum up to rounding. *)
Theorem C96_forward : forall fexp fln (m m' : hhmm (FA fexp fln)) xs, libm_f64 fexp fln ->
  model_left_right m -> hh_started m = false -> xs <> [] -> Forall frame_f64 xs ->
  hh_filters (A := FA fexp fln) xs m = Ok m' ->
  hh_size m' = hh_size m /\ forward_f64 m' /\ parts_f64 (hh_size m) (ent (rs_inst (hh_res m'))) (ent (rs_instn (hh_res m'))).
Proof.
  intros fexp fln m m' xs LM M St Ne F H. destruct (filter_seq fexp fln LM xs m m' M) as (Z & W & P); auto; [congruence |].
  split; [exact Z |]. split; [exact W |]. now rewrite <- Z.
Qed.
Print Assumptions C96_forward.

(** A frame at which the likelihood of a class is 0 makes its smoothed likelihood 0 for as long as the window
    holds that frame; when every class has had such a frame, all the smoothed posteriors are NaN. *)
Theorem C96_null_likelihood : forall fexp fln (m m' : hhmm (FA fexp fln)) x, fexp (S754_infinity true) = S754_zero false ->
  hh_filter (A := FA fexp fln) x m = Ok m' ->
  (forall i l h, nth_error (hh_cls m') i = Some (l, h) -> null_window (h_buf (hc_run h)) ->
     ent (rs_log (hh_res m')) i = S754_infinity true /\ ent (rs_sm (hh_res m')) i = S754_zero false) /\
  (Forall (fun e : string * hclass (FA fexp fln) => null_window (h_buf (hc_run (snd e)))) (hh_cls m') ->
     forall i, (i < hh_size m')%nat -> ent (rs_smn (hh_res m')) i = S754_nan).
Proof. intros fexp fln m m' x Ex H. exact (filter_null fexp fln m m' x H Ex). Qed.
Print Assumptions C96_null_likelihood.

(** *** A concrete case: two classes of two states; the second class, then the first. *)
Module Ex.
  Definition d (q : Q) : f64 := f64_ofQ q.
  Definition exp0 (x : f64) : f64 :=
    match x with S754_nan => S754_nan | _ => if SFltb x (d (- 700)) then S754_zero false else if SFltb x (d (- 10)) then d (1 # 1024) else d 1 end.
  Definition ln0 (x : f64) : f64 :=
    match x with S754_nan => S754_nan | S754_zero _ => S754_infinity true | _ => if SFltb x (d (1 # 1000)) then d (- 80) else d 0 end.
  Definition A := FA exp0 ln0.
  Definition k (mean : Q) : gauss A := mkGauss (A := A) false 1 1 0 None Diagonal [d mean] [d 1] [d 1] (d 1) [] (d 0) [] None.
  Definition st (a : Q) : gclass A := mkGC (A := A) false 1 0 1 (mkGmmP (A := A) 1 (d (1 # 100)) (d (1 # 100)) Diagonal) [d 1] [k a] [d 0] [d 0]
    (mkRing [[d 0]] 1 0 false) (d 0) (d 0) [] [].
  Definition z2 : list f64 := [d 0; d 0].
  Definition cl (a b : Q) : hclass A := mkHC (A := A) false 1 0 8 (mkHmmP (A := A) 2 1 (d (1 # 100)) (d (1 # 100)) Diagonal LeftRight RFull true) true
    (mkNet (A := A) [st a; st b] [] [d (1 # 2); d (1 # 2); d 1; d 0] [d 0; d (1 # 10)])
    (mkRun (A := A) [] z2 z2 z2 false (mkRing [repeat (d 0) 8] 8 0 false) (d 0) (d 0) (d 0) (d 0) (d 0) 0 0 0 (d 0) [] []).
  Definition h2 : list f64 := [d (1 # 2); d (1 # 2)].
  Definition m : hhmm A := mkHH (A := A) false 1 0 8 Likeliest Diagonal true (fun _ => hmmP_new) h2 [h2; h2] [d (1 # 10); d (1 # 10)]
    [("a"%string, cl 100 200); ("b"%string, cl (-100) (-200))] z2 z2 false (mkRes (A := A) z2 z2 z2 z2 z2 ""%string [] []).
  Definition frames : list (list f64) := map (fun q => [d q]) [-100; -100; -200; -200; 100; 100]%Q.
  Definition after {X} (xs : list (list f64)) (f : hhmm A -> X) : option X := match hh_filters (A := A) xs m with Ok m' => Some (f m') | _ => None end.

  Lemma val (x : f64) (s : bool) p e : x = S754_finite s p e -> fval x = IZR (cond_Zopp s (Zpos p)) * bpow radix2 e.
  Proof. intros ->. reflexivity. Qed.
  Ltac num p e := split; [vm_compute; reflexivity |]; split; [vm_compute; reflexivity |]; rewrite (val _ _ p e) by (vm_compute; reflexivity); cbn; lra.
  Lemma d1 : num_in 1 1 (d 1).
  Proof. split; [vm_compute; reflexivity |]. split; [vm_compute; reflexivity |]. rewrite (val _ false 4503599627370496 (-52)) by (vm_compute; reflexivity). cbn. lra. Qed.
  Lemma dh : num_in (/ 2) (/ 2) (d (1 # 2)).
  Proof. split; [vm_compute; reflexivity |]. split; [vm_compute; reflexivity |]. rewrite (val _ false 4503599627370496 (-53)) by (vm_compute; reflexivity). cbn. lra. Qed.
  Lemma dt : num_in (/ 16) (/ 8) (d (1 # 10)).
  Proof. split; [vm_compute; reflexivity |]. split; [vm_compute; reflexivity |]. rewrite (val _ false 7205759403792794 (-56)) by (vm_compute; reflexivity). cbn. lra. Qed.
  Lemma dk : num_in (/ 1024) (/ 1024) (d (1 # 1024)).
  Proof. split; [vm_compute; reflexivity |]. split; [vm_compute; reflexivity |]. rewrite (val _ false 4503599627370496 (-62)) by (vm_compute; reflexivity). cbn. lra. Qed.
  Lemma d80 : num_in (- 80) (- 80) (d (- 80)).
  Proof. split; [vm_compute; reflexivity |]. split; [vm_compute; reflexivity |]. rewrite (val _ true 5629499534213120 (-46)) by (vm_compute; reflexivity). cbn. lra. Qed.
  Lemma d700 : num_in (- 700) (- 700) (d (- 700)).
  Proof. split; [vm_compute; reflexivity |]. split; [vm_compute; reflexivity |]. rewrite (val _ true 6157265115545600 (-43)) by (vm_compute; reflexivity). cbn. lra. Qed.
  Lemma d0 : num_in 0 0 (d 0).
  Proof. split; [vm_compute; reflexivity |]. split; [vm_compute; reflexivity |]. cbn. lra. Qed.
  Lemma weak a b a' b' x : num_in a b x -> a' <= a -> b <= b' -> num_in a' b' x.
  Proof. intros (V & N & B) H1 H2. split; [exact V |]. split; [exact N | lra]. Qed.
  Lemma z0 : num_in 0 0 (S754_zero false).
  Proof. split; [reflexivity |]. split; [reflexivity |]. cbn. lra. Qed.

  Lemma libm : libm_f64 exp0 ln0.
  Proof.
    assert (B1 : bpow radix2 (-900) <= / 1024) by (change (/ 1024) with (bpow radix2 (-10)); apply bpow_le; lia).
    assert (B2 : 1 <= bpow radix2 900) by (change 1 with (bpow radix2 0); apply bpow_le; lia).
    assert (E : forall x, exp0 x = S754_nan \/ exp0 x = S754_zero false \/ exp0 x = d (1 # 1024) \/ exp0 x = d 1) by (intros []; cbn [exp0]; auto; destruct (SFltb _ (d (- 700))); auto; destruct (SFltb _ _); auto).
    assert (EN : forall x, x <> S754_nan -> exp0 x <> S754_nan) by (intros [] H; cbn [exp0]; try congruence; destruct (SFltb _ (d (- 700))); try discriminate; destruct (SFltb _ _); vm_compute; discriminate).
    assert (L : forall x, ln0 x = S754_nan \/ ln0 x = S754_infinity true \/ ln0 x = d (- 80) \/ ln0 x = d 0) by (intros []; cbn [ln0]; auto; destruct (SFltb _ _); auto).
    split.
    - intros x _. destruct (E x) as [-> | [-> | [-> | ->]]]; [reflexivity | reflexivity | apply dk | apply d1].
    - intros x _. destruct (L x) as [-> | [-> | [-> | ->]]]; [reflexivity | reflexivity | apply d80 | apply d0].
    - intros x _ H. assert (x <> S754_nan) by (intros ->; destruct H as [H | (H & _)]; discriminate).
      destruct (E x) as [Q | [-> | [-> | ->]]]; [now apply EN in Q | eapply weak; [apply z0 | lra | lra] | eapply weak; [apply dk | lra | lra] | eapply weak; [apply d1 | lra | lra]].
    - reflexivity.
    - intros x (V & N & B). assert (T : SFltb x (d (- 700)) = false).
      { destruct d700 as (V7 & N7 & B7). rewrite ltb_num by assumption. apply Rlt_bool_false. lra. }
      assert (Q : exp0 x = if SFltb x (d (- 10)) then d (1 # 1024) else d 1) by (destruct x; try discriminate; cbn [exp0]; rewrite T; reflexivity).
      rewrite Q. destruct (SFltb x (d (- 10))); [eapply weak; [apply dk | lra | lra] | eapply weak; [apply d1 | lra | lra]].
    - intros x (V & N & B). assert (P := bpow_gt_0 radix2 (-800)). assert (Q : ln0 x = if SFltb x (d (1 # 1000)) then d (- 80) else d 0).
      { destruct x; try discriminate; [cbn in B; lra | reflexivity]. }
      rewrite Q. destruct (SFltb x (d (1 # 1000))); [eapply weak; [apply d80 | lra | lra] | eapply weak; [apply d0 | lra | lra]].
  Qed.

  Lemma state_ok a : is_f64 (d a) -> state_diag (st a).
  Proof.
    intros Ha. assert (W : num_in 0 1 (d 1)) by (eapply weak; [apply d1 | lra | lra]). assert (I : not_negative (d 1)) by (destruct d1 as (V & N & B); right; split; [exact V | right; split; [exact N | lra]]).
    split; [split; [split; [reflexivity | split; [constructor; [exact W | constructor] |]] |] |].
    - exists (d 1). split; [now left |]. destruct d1 as (_ & _ & B). apply Rle_trans with (bpow radix2 0); [apply bpow_le; lia | apply B].
    - constructor; [| constructor]. repeat split; repeat constructor; auto; vm_compute; reflexivity.
    - split; [constructor; [split; [reflexivity | constructor; [exact I | constructor]] | constructor] | cbn; lia].
  Qed.
  Lemma big x : num_in (/ 16) 1 x -> bpow radix2 (-100) <= fval x.
  Proof. intros (_ & _ & B). apply Rle_trans with (bpow radix2 (-4)); [apply bpow_le; lia | change (bpow radix2 (-4)) with (/ 16); lra]. Qed.
  Lemma class_ok a b : is_f64 (d a) -> is_f64 (d b) -> class_left_right (cl a b).
  Proof.
    intros Ha Hb. split; [reflexivity |]. split; [cbn; lia |]. split; [constructor; [now apply state_ok | constructor; [now apply state_ok | constructor]] |].
    assert (X1 : num_in 0 1 (d 1)) by (eapply weak; [apply d1 | lra | lra]). assert (Xh : num_in 0 1 (d (1 # 2))) by (eapply weak; [apply dh | lra | lra]). assert (X0 : num_in 0 1 (d 0)) by (eapply weak; [apply d0 | lra | lra]).
    split; [intros [| [| [| [| i]]]] Hi; [exact Xh | exact Xh | exact X1 | exact X0 | cbn in Hi; lia] |].
    assert (S : bpow radix2 (-20) <= / 2) by (change (/ 2) with (bpow radix2 (-1)); apply bpow_le; lia).
    split; [intros [| [| i]] Hi; [eapply weak; [apply d0 | lra | lra] | eapply weak; [apply dt | lra | lra] | cbn in Hi; lia] |].
    intros [| [| i]] Hi; [left; apply big; eapply weak; [apply dh | lra | lra] | left; apply big; eapply weak; [apply d1 | lra | lra] | cbn in Hi; lia].
  Qed.
  Lemma model_ok : model_left_right m.
  Proof.
    assert (Xh : num_in 0 1 (d (1 # 2))) by (eapply weak; [apply dh | lra | lra]). assert (Xt : num_in 0 1 (d (1 # 10))) by (eapply weak; [apply dt | lra | lra]).
    assert (Ph : num_in (bpow radix2 (-100)) 1 (d (1 # 2))). { destruct dh as (V & N & B). split; [exact V |]. split; [exact N |]. split; [apply big; eapply weak; [apply dh | lra | lra] | lra]. }
    split; [reflexivity |]. split; [discriminate |]. split; [cbn; lia |].
    split; [constructor; [| constructor; [| constructor]]; apply class_ok; vm_compute; reflexivity |].
    split; [intros [| [| i]] Hi; [split; [exact Ph | exact Xt] | split; [exact Ph | exact Xt] | cbn in Hi; lia] |].
    intros [| [| i]] [| [| j]] Hi Hj; try (cbn in Hi, Hj; lia); exact Xh.
  Qed.
  Lemma runs : exists m', hh_filters (A := FA exp0 ln0) frames m = Ok m' /\ rs_smn (hh_res m') = [S754_nan; S754_nan].
  Proof.
    assert (Q : match hh_filters (A := FA exp0 ln0) frames m with Ok m' => Some (rs_smn (hh_res m')) | _ => None end = Some [S754_nan; S754_nan]) by (vm_compute; reflexivity).
    destruct (hh_filters (A := FA exp0 ln0) frames m) as [m' | |]; [| discriminate..]. exists m'. split; [reflexivity |]. now injection Q.
  Qed.
End Ex.

(** The hypotheses are met; the frames are recognised one class after the other. *)
Example C96_forward_meets : libm_f64 Ex.exp0 Ex.ln0 /\ model_left_right Ex.m /\ hh_started Ex.m = false /\ Forall frame_f64 Ex.frames /\
  (exists m', hh_filters (A := FA Ex.exp0 Ex.ln0) Ex.frames Ex.m = Ok m') /\
  Ex.after (firstn 4 Ex.frames) (fun m' => map (SFltb (Ex.d (9 # 10))) (rs_instn (hh_res m'))) = Some [false; true] /\
  Ex.after (firstn 5 Ex.frames) (fun m' => map (SFltb (Ex.d (9 # 10))) (rs_instn (hh_res m'))) = Some [true; false] /\
  Ex.after [[S754_nan]; [S754_infinity true]; [Ex.d 100]] (fun m' => map (SFltb (Ex.d (9 # 10))) (rs_instn (hh_res m'))) = Some [true; false].
Proof.
  split; [exact Ex.libm |]. split; [exact Ex.model_ok |]. split; [reflexivity |]. split; [repeat constructor; vm_compute; reflexivity |].
  split; [destruct Ex.runs as (m' & E & _); now exists m' |]. split; [vm_compute; reflexivity |]. split; vm_compute; reflexivity.
Qed.

(** The smoothed posteriors need not be numbers: all of them are NaN after six frames, all numbers, that the
    instant posteriors recognise. *)
Theorem C96_smoothed_refuted : ~ (forall fexp fln (m m' : hhmm (FA fexp fln)) xs, libm_f64 fexp fln ->
  model_left_right m -> hh_started m = false -> xs <> [] -> Forall (Forall (fun x => is_f64 x /\ is_num x = true)) xs ->
  hh_filters (A := FA fexp fln) xs m = Ok m' ->
  exists i, (i < hh_size m)%nat /\ is_num (ent (rs_smn (hh_res m')) i) = true).
Proof.
  intros H. destruct Ex.runs as (m' & E & Q).
  destruct (H Ex.exp0 Ex.ln0 Ex.m m' Ex.frames Ex.libm Ex.model_ok eq_refl ltac:(discriminate) ltac:(repeat constructor; vm_compute; reflexivity) E) as (i & Hi & N).
  rewrite Q in N. destruct i as [| [| i]]; [discriminate | discriminate | cbn in Hi; lia].
Qed.
Print Assumptions C96_smoothed_refuted.

(** The likelihoods that are 0 in that run, and what they do to the other results: the progress of the class
    and its exit ratio are NaN, and the first class keeps a smoothed posterior of 0 while it is recognised. *)
Example C96_null_likelihood_meets : Ex.exp0 (S754_infinity true) = S754_zero false /\
  Ex.after (firstn 2 Ex.frames) (fun m' => (rs_inst (hh_res m'), map (fun e => (h_prog (hc_run (snd e)), h_exratio (hc_run (snd e)))) (firstn 1 (hh_cls m')))) =
    Some ([S754_zero false; S754_finite false 7186705221432913 (-55)], [(S754_nan, S754_nan)]) /\
  Ex.after (firstn 5 Ex.frames) (fun m' => (map (SFltb (Ex.d (9 # 10))) (rs_instn (hh_res m')), map (SFltb (Ex.d (9 # 10))) (rs_smn (hh_res m')))) = Some ([true; false], [false; true]) /\
  Ex.after Ex.frames (fun m' => map (fun e : string * hclass Ex.A => existsb (fun x => match x with S754_infinity true => true | _ => false end) (window_entries (h_buf (hc_run (snd e))))) (hh_cls m')) = Some [true; true].
Proof. split; [reflexivity |]. split; [vm_compute; reflexivity |]. split; vm_compute; reflexivity. Qed.
