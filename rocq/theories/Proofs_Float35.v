(** Regression with a class of a hierarchical model, in binary64. *)
From Coq Require Import String ZArith QArith Reals Lra Lia Bool List Arith.
From Coq Require Import Floats.SpecFloat.
From Flocq Require Import Core.Core.
From Verif Require Import Base BaseFacts Arith Spec_Float Spec_Float2 Spec_Float3 Spec_Float4 Spec_Float6 Spec_Float7 Proofs_Float1 Proofs_Float2 Proofs_Float3 Proofs_Float4 Proofs_Float5 Proofs_Float6 Proofs_Float7 Proofs_Float8 Proofs_Float9 Proofs_Float12 Proofs_Float13 Proofs_Float14 Proofs_Float15 Proofs_Float16 Proofs_Float21 Proofs_Float22 Proofs_Float24 Proofs_Float26 Proofs_Float27 Proofs_Float30 Proofs_Float31 Proofs_Float32 Proofs_Float33.
From Verif Require Import Model_Map Model_Ring Model_Phrase Model_Gaussian Model_Config Model_KMeans Model_GMM Model_HMM Model_HHMM Model_Single Model_Single2 Model_Single3 Model_Single4.
Import ListNotations.
Local Open Scope R_scope.

Local Notation fadd := (SFadd fprec femax).
Local Notation fmul := (SFmul fprec femax).
Local Notation fdiv := (SFdiv fprec femax).

Section Reg.
  Variables fexp fln : f64 -> f64.
  Hypothesis LM : libm_f64 fexp fln.
  Local Notation A := (FA fexp fln).
  Local Notation fire x g := (let* g := gm_likelihood (A := A) x [] g in gm_regression_with (A := A) as_single x g).
  Local Notation rlo := (rlo fexp fln).
  Local Notation rhi := (rhi fexp fln).
  Local Notation rnc := (rnc fexp fln).

  (** The loop of the regression over [n] states from [lo]. *)
  Lemma wreg_loop (P : gclass A -> Prop) x (wf : nat -> res f64) mode no lo n (nc : f64) (ss0 ss : list (gclass A)) (o0 v0 o v : list f64) : (forall g g', kept fexp fln g g' -> P g -> P g') -> Forall P ss0 ->
    iterM n (fun k s =>
          let '(ss, o, v) := s in
          let* g := rd ss (lo + k) in
          let* g := fire x g in
          let* ss := wr ss (lo + k) g in
          let* w := wf (lo + k)%nat in
          let* (o, v) := iterM no (fun d s =>
            let '(o, v) := s in
            let* a := rd o d in
            let* y := rd (gc_out g) d in
            let* o := wr o d (as_single (nadd (a := A) a (ndiv (a := A) (nmul (a := A) w y) nc))) in
            let* v := match mode with
              | Full => iterM no (fun d2 v =>
                  let* a := rd v (d * no + d2) in
                  let* c := rd (gc_ocov g) (d * no + d2) in
                  wr v (d * no + d2) (as_single (nadd (a := A) a (ndiv (a := A) (nmul (a := A) (nmul (a := A) w w) c) nc)))) v
              | Diagonal =>
                  let* a := rd v d in
                  let* c := rd (gc_ocov g) d in
                  wr v d (as_single (nadd (a := A) a (ndiv (a := A) (nmul (a := A) (nmul (a := A) w w) c) nc)))
              end in
            Ok (o, v)) (o, v) in
          Ok (ss, o, v)) (ss0, o0, v0) = Ok (ss, o, v) ->
    Forall P ss /\
    (forall d, (d < no)%nat -> exists q y : nat -> f64, q 0%nat = ent o0 d /\ q n = ent o d /\
      forall k, (k < n)%nat -> (exists w, wf (lo + k)%nat = Ok w /\ q (S k) = as_single (fadd (q k) (fdiv (fmul w (y k)) nc))) /\ exists g g2, P g /\ fire x g = Ok g2 /\ y k = ent (gc_out g2) d).
  Proof.
    intros PK F E. assert (FP : forall g g2, fire x g = Ok g2 -> P g -> P g2) by (intros g g2 Q; destruct (fire_kept fexp fln x g g2 Q) as (_ & _ & _ & _ & K); exact (PK _ _ K)).
    apply iterM_seq in E. destruct E as (st & E0 & En & Es).
    assert (Ex : forall k, (k < n)%nat -> Forall P (fst (fst (st k))) -> Forall P (fst (fst (st (S k)))) /\ exists g g2, P g /\ fire x g = Ok g2 /\
      (forall d, (d < no)%nat -> exists w, wf (lo + k)%nat = Ok w /\ ent (snd (fst (st (S k)))) d = as_single (fadd (ent (snd (fst (st k))) d) (fdiv (fmul w (ent (gc_out g2) d)) nc)))).
    { intros k Hk Fk. specialize (Es k Hk). cbv beta in Es. destruct (st k) as ((s1 & o1) & v1). destruct (st (S k)) as ((s2 & o2) & v2). cbn [fst snd] in *.
      apply bind_ok_inv in Es. destruct Es as (g & Eg & Es). apply bind_ok_inv in Es. destruct Es as (g2 & Eg2 & Es). apply bind_ok_inv in Es. destruct Es as (s3 & Es3 & Es). apply bind_ok_inv in Es. destruct Es as (w & Ew & Es). apply bind_ok_inv in Es. destruct Es as ((o3 & v3) & Ei & Es).
      assert (X1 : o3 = o2) by exact (f_equal (fun r => match r with Ok p => snd (fst p) | _ => o3 end) Es). assert (X2 : v3 = v2) by exact (f_equal (fun r => match r with Ok p => snd p | _ => v3 end) Es). assert (X3 : s3 = s2) by exact (f_equal (fun r => match r with Ok p => fst (fst p) | _ => s3 end) Es). subst o3 v3 s3.
      assert (Pg : P g) by (eapply rd_Forall; eauto). split; [eapply Forall_wr; [exact Fk | eapply FP; eauto | exact Es3] |]. exists g, g2. split; [exact Pg |]. split; [exact Eg2 |].
      apply (pair_loop no (gc_out g2) (fun a yd => as_single (nadd (a := A) a (ndiv (a := A) (nmul (a := A) w yd) nc))) _ (S754_zero false)) in Ei. destruct Ei as (_ & I & V).
      intros d Hd; destruct (I d Hd) as (Q & _); exists w; split; [exact Ew | exact Q]. }
    assert (St : forall k, (k <= n)%nat -> Forall P (fst (fst (st k)))).
    { induction k as [| k IH]; intros Hk; [rewrite E0; exact F |]. apply (Ex k ltac:(lia)). apply IH. lia. }
    split; [assert (Q := St n (le_n n)); rewrite En in Q; exact Q |].
    intros d Hd. destruct (finite_choice (S754_zero false) (fun k y => (exists w, wf (lo + k)%nat = Ok w /\ ent (snd (fst (st (S k)))) d = as_single (fadd (ent (snd (fst (st k))) d) (fdiv (fmul w y) nc))) /\ exists g g2, P g /\ fire x g = Ok g2 /\ y = ent (gc_out g2) d) n) as (y & Y).
      { intros k Hk. destruct (Ex k Hk (St k ltac:(lia))) as (_ & g & g2 & Pg & Eg & Q). exists (ent (gc_out g2) d). split; [exact (Q d Hd) | exists g, g2; auto]. }
      exists (fun k => ent (snd (fst (st k))) d), y. split; [rewrite E0; reflexivity |]. split; [rewrite En; reflexivity | exact Y].
  Qed.

  (** The regression of a class: what it keeps, and the outputs. *)
  Lemma wreg_inv (P : gclass A -> Prop) x (h h' : hclass A) : (forall g g', kept fexp fln g g' -> P g -> P g') -> Forall P (h_states (hc_net h)) -> hm_regression_with (A := A) as_single x h = Ok h' ->
    exists no, usub (hc_dim h) (hc_din h) = Ok no /\ hkept fexp fln P h h' /\ h_exit (hc_net h') = h_exit (hc_net h) /\ hc_run h' = rn_out (h_out (hc_run h')) (h_ocov (hc_run h')) (hc_run h) /\
    match hp_est (hc_par h) with
    | RLikeliest => exists g g2, P g /\ fire x g = Ok g2 /\ h_out (hc_run h') = gc_out g2
    | _ =>
        (forall d, (d < no)%nat -> exists o y : nat -> f64, o 0%nat = S754_zero false /\ o (rhi h - rlo h)%nat = ent (h_out (hc_run h')) d /\
          forall k, (k < rhi h - rlo h)%nat -> (exists w, hm_weight (A := A) h (rlo h + k) = Ok w /\ o (S k) = as_single (fadd (o k) (fdiv (fmul w (y k)) (rnc h)))) /\ exists g g2, P g /\ fire x g = Ok g2 /\ y k = ent (gc_out g2) d)
    end.
  Proof.
    intros PK F H. unfold hm_regression_with in H. cbv zeta in H. apply bind_ok_inv in H. destruct H as (no & Eno & H). exists no. split; [exact Eno |].
    unfold Proofs_Float32.rlo, Proofs_Float32.rhi, Proofs_Float32.rnc.
    destruct (hp_est (hc_par h)) eqn:Est.
    - apply bind_ok_inv in H. destruct H as (((ss & o) & v) & E & H). injection H as <-. cbn [hc_run hc_set_run hc_net hc_set_net nt_states h_states h_out h_ocov rn_out].
      destruct (wreg_loop P x (hm_weight (A := A) h) _ no 0 _ _ _ ss _ _ o v PK F E) as (L1 & L2). split; [repeat split; auto |]. split; [reflexivity |]. split; [reflexivity |].
      intros d Hd. destruct (L2 d Hd) as (q & y & Q0 & Q). exists q, y. split; [rewrite Q0; unfold ent; apply nth_repeat | exact Q].
    - apply bind_ok_inv in H. destruct H as (((ss & o) & v) & E & H). injection H as <-. cbn [hc_run hc_set_run hc_net hc_set_net nt_states h_states h_out h_ocov rn_out].
      destruct (wreg_loop P x (hm_weight (A := A) h) _ no _ _ _ _ ss _ _ o v PK F E) as (L1 & L2). split; [repeat split; auto |]. split; [reflexivity |]. split; [reflexivity |].
      intros d Hd. destruct (L2 d Hd) as (q & y & Q0 & Q). exists q, y. split; [rewrite Q0; unfold ent; apply nth_repeat | exact Q].
    - assert (FP : forall g g2, fire x g = Ok g2 -> P g -> P g2) by (intros g g2 E; destruct (fire_kept fexp fln x g g2 E) as (_ & _ & _ & _ & K); exact (PK _ _ K)).
      apply bind_ok_inv in H. destruct H as (g & Eg & H). apply bind_ok_inv in H. destruct H as (g2 & Eg2 & H). apply bind_ok_inv in H. destruct H as (ss & Es & H). injection H as <-. assert (Pg : P g) by (eapply rd_Forall; eauto).
      split; [repeat split; intros _; eapply (Forall_wr _ _ _ _ _ F); [| exact Es]; eapply FP; eauto |]. split; [reflexivity |]. split; [reflexivity |].
      exists g, g2. split; [exact Pg |]. split; [exact Eg2 | reflexivity].
  Qed.
End Reg.
