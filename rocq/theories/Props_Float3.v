(** C97: recognition with hidden Markov models, without the hierarchical mode, in double precision. *)
From Coq Require Import String ZArith QArith Reals Lra Lia Bool List Arith.
From Coq Require Import Floats.SpecFloat.
From Flocq Require Import Core.Core.
From Verif Require Import Base BaseFacts Arith Model_Ring Model_Gaussian Model_Config Model_KMeans Model_GMM Model_HMM Model_HHMM Spec_Float Spec_Float2 Spec_Float3 Spec_Float4.
From Verif Require Import Proofs_Float1 Proofs_Float2 Proofs_Float16 Proofs_Float17.
From Verif Require Props_Float2.
Import ListNotations.
Local Open Scope R_scope.

(** After any number of frames of any doubles: the forward variables of every class are numbers between 0 and 1
    and one of them is not small; its likelihood is a positive number far from underflow and overflow; its
    smoothed log-likelihood is a number; its progress is a number between 0 and 1, up to rounding.  The instant
    and the smoothed posteriors are the likelihoods divided by their sum, up to rounding. *)
Theorem C97_flat : forall fexp fln (m m' : hhmm (FA fexp fln)) xs, libm_f64 fexp fln ->
  model_flat m -> (forall l h, In (l, h) (hh_cls m) -> h_started (hc_run h) = false) -> xs <> [] -> Forall frame_f64 xs ->
  hh_filters (A := FA fexp fln) xs m = Ok m' ->
  hh_size m' = hh_size m /\
  (forall l h, In (l, h) (hh_cls m') -> alpha_f64 h /\ num_in (bpow radix2 (-790)) (bpow radix2 790) (h_inst (hc_run h)) /\
     num_in (- 600) 600 (h_log (hc_run h)) /\ num_in 0 (1 + bpow radix2 (-18)) (h_prog (hc_run h))) /\
  parts_f64 (hh_size m) (ent (rs_inst (hh_res m'))) (ent (rs_instn (hh_res m'))) /\
  parts_f64 (hh_size m) (ent (rs_sm (hh_res m'))) (ent (rs_smn (hh_res m'))).
Proof.
  intros fexp fln m m' xs LM (M1 & M2 & M3 & M4) St Ne F H.
  assert (Rd : Forall (fun e => ready fexp fln (snd e)) (hh_cls m)).
  { rewrite Forall_forall in *. intros (l, h) I. split; [apply (M4 _ I) |]. intros S. cbn in S. assert (Z := St l h I). exfalso. exact (Bool.diff_true_false (eq_trans (eq_sym S) Z)). }
  destruct (flat_seq fexp fln LM xs m m' M1 M2 M3 Rd F Ne H) as (Z & D & P1 & P2).
  split; [exact Z |]. split; [| split; [exact P1 | exact P2]]. rewrite Forall_forall in D. intros l h I. destruct (D _ I) as (_ & (_ & R & _) & (I1 & I2 & I3)). auto.
Qed.
Print Assumptions C97_flat.

(** *** A concrete case: a left-right class and an ergodic one, and the frames of C96. *)
Module Ex.
  Import Props_Float2.Ex.
  Definition flat (mode : tmode) (pr tr : list f64) (a b : Q) : hclass A := mkHC (A := A) false 1 0 8 (mkHmmP (A := A) 2 1 (d (1 # 100)) (d (1 # 100)) Diagonal mode RFull true) false
    (mkNet (A := A) [st a; st b] pr tr [])
    (mkRun (A := A) z2 [] [] [] false (mkRing [repeat (d 0) 8] 8 0 false) (d 0) (d 0) (d 0) (d 0) (d 0) 0 0 0 (d 0) [] []).
  Definition q (l : list Q) : list f64 := map d l.
  Local Open Scope Q_scope.
  Definition m : hhmm A := mkHH (A := A) false 1 0 8 Likeliest Diagonal false (fun _ => hmmP_new) h2 [h2; h2] [d (1 # 10); d (1 # 10)]
    [("a"%string, flat LeftRight [] (q [1 # 2; 1 # 2; 1; 1 # 10]) 100 200); ("b"%string, flat Ergodic (q [1; 0]) (q [1 # 2; 1 # 2; 0; 1]) (-100) (-200))] z2 z2 false (mkRes (A := A) z2 z2 z2 z2 z2 ""%string [] []).
  Definition after {X} (xs : list (list f64)) (f : hhmm A -> X) : option X := match hh_filters (A := A) xs m with Ok m' => Some (f m') | _ => None end.

  Local Open Scope R_scope.
  Lemma n0' : num_in 0 1 (d 0). Proof. eapply weak; [apply d0 | lra | lra]. Qed.
  Lemma n1' : num_in 0 1 (d 1). Proof. eapply weak; [apply d1 | lra | lra]. Qed.
  Lemma nh : num_in 0 1 (d (1 # 2)). Proof. eapply weak; [apply dh | lra | lra]. Qed.
  Lemma nt : num_in 0 1 (d (1 # 10)). Proof. eapply weak; [apply dt | lra | lra]. Qed.
  Lemma b1 : bpow radix2 (-100) <= fval (d 1). Proof. apply big. eapply weak; [apply d1 | lra | lra]. Qed.
  Lemma bh : bpow radix2 (-100) <= fval (d (1 # 2)). Proof. apply big. eapply weak; [apply dh | lra | lra]. Qed.
  Lemma class_ok mode pr tr a b : transitions_f64 mode 2 pr tr -> is_f64 (d a) -> is_f64 (d b) -> class_flat (flat mode pr tr a b).
  Proof.
    intros T Ha Hb. assert (S : forall a, is_f64 (d a) -> state_flat (st a)).
    { intros c Hc. split; [now apply state_ok |]. exists (d 1). split; [now left |]. apply Rle_trans with (bpow radix2 0); [apply bpow_le; lia | apply d1]. }
    split; [reflexivity |]. split; [cbn; lia |]. split; [cbn; lia |]. split; [constructor; [now apply S | constructor; [now apply S | constructor]] |]. split; [exact T |]. cbn. repeat split; lia.
  Qed.
  Lemma model_ok : model_flat m.
  Proof.
    split; [reflexivity |]. split; [discriminate |]. split; [cbn; lia |]. constructor; [| constructor; [| constructor]]; apply class_ok; try (vm_compute; reflexivity).
    - split.
      + intros [| [| [| [| k]]]] Hk; [exact nh | exact nh | exact n1' | exact nt | lia].
      + intros [| [| k]] Hk; [left; exact bh | left; exact b1 | lia].
    - split; [intros [| [| k]] Hk; [exact n1' | exact n0' | lia] |]. split; [exists 0%nat; split; [lia | exact b1] |]. split.
      + intros [| [| k]] [| [| j]] Hk Hj; try lia; [exact nh | exact nh | exact n0' | exact n1'].
      + intros [| [| k]] Hk; [exists 0%nat; split; [lia | exact bh] | exists 1%nat; split; [lia | exact b1] | lia].
  Qed.
End Ex.

(** The frames of C96 are recognised, NaN and infinities included; here the smoothed posteriors are numbers. *)
Example C97_flat_meets : libm_f64 Props_Float2.Ex.exp0 Props_Float2.Ex.ln0 /\ model_flat Ex.m /\ Forall (fun e => h_started (hc_run (snd e)) = false) (hh_cls Ex.m) /\ Forall frame_f64 Props_Float2.Ex.frames /\
  Ex.after (firstn 4 Props_Float2.Ex.frames) (fun m' => (map (SFltb (Props_Float2.Ex.d (9 # 10))) (rs_instn (hh_res m')), map is_num (rs_smn (hh_res m')))) = Some ([false; true], [true; true]) /\
  Ex.after Props_Float2.Ex.frames (fun m' => (map (SFltb (Props_Float2.Ex.d (9 # 10))) (rs_instn (hh_res m')), map is_num (rs_smn (hh_res m')))) = Some ([true; false], [true; true]) /\
  Ex.after [[S754_nan]; [S754_infinity true]; [Props_Float2.Ex.d 100]] (fun m' => map (SFltb (Props_Float2.Ex.d (9 # 10))) (rs_instn (hh_res m'))) = Some [true; false].
Proof.
  split; [exact Props_Float2.Ex.libm |]. split; [exact Ex.model_ok |]. split; [repeat constructor |]. split; [repeat constructor; vm_compute; reflexivity |].
  split; [vm_compute; reflexivity |]. split; vm_compute; reflexivity.
Qed.
