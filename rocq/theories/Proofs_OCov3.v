(** The output covariances of models of several hidden Markov models. *)
From Coq Require Import String List Bool Arith ZArith Reals Lra Lia.
From Verif Require Import Base Arith BaseFacts RFacts Model_Map Model_Ring Model_Phrase Model_Gaussian Model_Config Model_GMM Model_HMM Model_HHMM
  Proofs_GMM Proofs_Gaussian Proofs_KMeans Proofs_GMM3 Proofs_GMM4 Spec_Common Spec_Matrix Spec_Gaussian Spec_GMM Spec_HMM Spec_HHMM Spec_OCov Proofs_OCov Proofs_OCov2.
Import ListNotations.
Local Open Scope list_scope.
Local Open Scope R_scope.

Lemma rd_within : forall {X} (v : list X) i x, rd v i = Ok x -> (i < length v)%nat.
Proof. intros X v i x H. destruct (Nat.lt_ge_cases i (length v)) as [L|L]; [exact L|]. rewrite (rd_ub v i L) in H. discriminate. Qed.

(** A loop that ends well ran its last step. *)
Lemma iterM_last : forall {S} n (f : nat -> S -> res S) s s', iterM (Datatypes.S n) f s = Ok s' -> exists s1, f n s1 = Ok s'.
Proof. intros S n f s s' H. cbn [iterM] in H. apply bind_inv in H. destruct H as (s1 & _ & H). exists s1. exact H. Qed.

(** What [mix_outputs] gives whenever it ends well. *)
Lemma mix_outputs_cov_ok : forall mode no (w : list R) (outs : list (list R * list R)) o v, mix_outputs (A := RA) mode no w outs = Ok (o, v) ->
  length o = no /\ length v = csize mode no /\
  (forall d, (d < no)%nat -> nth d o 0 = Rsum (length outs) (fun i => nth i w 0 * nth d (fst (nth i outs ([], []))) 0)) /\
  forall j, (j < csize mode no)%nat -> nth j v 0 = Rsum (length outs) (fun i => nth i w 0 * nth j (snd (nth i outs ([], []))) 0).
Proof.
  intros mode no w outs o v H. unfold mix_outputs in H. rewrite n0_RA in H. change (num RA) with R in *.
  refine (iterM_inv_ok (fun c (s : list R * list R) => length (fst s) = no /\ length (snd s) = csize mode no /\
    (forall d, (d < no)%nat -> nth d (fst s) 0 = Rsum c (fun i => nth i w 0 * nth d (fst (nth i outs ([], []))) 0)) /\
    (forall j, (j < csize mode no)%nat -> nth j (snd s) 0 = Rsum c (fun i => nth i w 0 * nth j (snd (nth i outs ([], []))) 0))) (length outs) _ _ _ _ _ H); clear H o v.
  - cbn [fst snd]. split; [apply repeat_length|]. split; [destruct mode; apply repeat_length|]. split; intros d Hd; cbn [Rsum]; apply nth_repeat.
  - intros c (o, v) s' Hc (L1 & L2 & V1 & V2) H. cbn [fst snd] in *. rewrite (rd_nth outs c ([], [])) in H by exact Hc. destruct (nth c outs ([], [])) as (yo, yc) eqn:EY. cbn [bind] in H.
    apply bind_inv in H. destruct H as (b & Eb & H). pose proof (rd_within _ _ _ Eb) as Lb. rewrite (rd_nth w c 0 Lb) in Eb. injection Eb as <-.
    assert (LL : (no <= length yo)%nat /\ (csize mode no <= length yc)%nat).
    { destruct no as [|p]; [split; [lia|destruct mode; cbn; lia]|]. apply iterM_last in H. destruct H as ((o1, v1) & H). apply bind_inv in H. destruct H as (a & _ & H). apply bind_inv in H. destruct H as (y & Ey & H). apply rd_within in Ey. split; [lia|].
      apply bind_inv in H. destruct H as (o2 & _ & H). apply bind_inv in H. destruct H as (v2 & H & _). destruct mode; cbn [csize].
      - apply iterM_last in H. destruct H as (v3 & H). apply bind_inv in H. destruct H as (a3 & _ & H). apply bind_inv in H. destruct H as (c3 & E3 & _). apply rd_within in E3. lia.
      - apply bind_inv in H. destruct H as (a3 & _ & H). apply bind_inv in H. destruct H as (c3 & E3 & _). apply rd_within in E3. lia. }
    destruct (mix_step mode no (nth c w 0) (nth c w 0) yo yc o v (proj1 LL) (proj2 LL) L1 L2) as (o' & v' & E & L1' & L2' & W1 & W2).
    assert (Q : Ok (o', v') = Ok s') by (rewrite <- E; exact H). injection Q as <-. cbn [fst snd]. split; [exact L1'|]. split; [exact L2'|].
    split; [intros d Hd; rewrite W1, V1 by exact Hd|intros j Hj; rewrite W2, V2 by exact Hj]; cbn [Rsum]; rewrite EY; reflexivity.
Qed.

(** The results of a model after an observation, from those of its classes. *)
Lemma hh_filter_inv : forall (m m' : hhmm RA) x, hh_filter (A := RA) x m = Ok m' -> hh_bim m' = true ->
  match hh_est m' with
  | Likeliest => exists h, mget String.eqb (hh_cls m') (rs_likeliest (hh_res m')) = Some h /\ rs_out (hh_res m') = h_out (hc_run h) /\ rs_ocov (hh_res m') = h_ocov (hc_run h)
  | Mixture => mix_outputs (A := RA) (hh_cmode m') (hh_dim m' - hh_din m') (rs_smn (hh_res m')) (map (fun e => (h_out (hc_run (snd e)), h_ocov (hc_run (snd e)))) (hh_cls m')) = Ok (rs_out (hh_res m'), rs_ocov (hh_res m'))
  end.
Proof.
  intros m m' x H B. unfold hh_filter in H. apply bind_inv in H. destruct H as (m1 & _ & H). apply bind_inv in H. destruct H as (ms & _ & H). apply bind_inv in H. destruct H as (r & _ & H).
  destruct (hh_bim m1) eqn:B1; cbn [negb] in H.
  - apply bind_inv in H. destruct H as (no & Eno & H). apply bind_inv in H. destruct H as (ms2 & _ & H). apply bind_inv in H. destruct H as ((o, c) & Eo & H). injection H as <-.
    assert (NO : (hh_dim m1 - hh_din m1)%nat = no) by (unfold usub in Eno; destruct (hh_din m1 <=? hh_dim m1)%nat; [injection Eno as <-; reflexivity|discriminate]).
    cbn [hh_est hh_cmode hh_dim hh_din hh_res hh_cls hh_set_res hh_set_cls rs_smn rs_out rs_ocov rs_likeliest]. rewrite NO. destruct (hh_est m1); [|exact Eo].
    destruct (mget _ _ _) as [h|] eqn:G; [|discriminate]. injection Eo as <- <-. exists h. split; [first [exact G|reflexivity]|split; reflexivity].
  - injection H as <-. cbn [hh_bim hh_set_res hh_set_cls] in B. congruence.
Qed.
