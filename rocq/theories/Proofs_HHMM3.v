(** The hierarchical forward step. *)
From Coq Require Import String List Bool Arith ZArith Reals Lra Lia.
From Verif Require Import Base Arith BaseFacts RFacts Model_Ring Model_Phrase Model_Gaussian Model_Config Model_GMM Model_HMM Model_HHMM
  Proofs_Gaussian Proofs_KMeans Proofs_GMM Spec_Common Spec_Matrix Spec_Gaussian Spec_GMM Spec_HMM Spec_HHMM Proofs_HMM Proofs_HMM2 Proofs_HMM3 Proofs_HMM4 Proofs_HMM5 Proofs_HHMM Proofs_HHMM2.
Import ListNotations.
Local Open Scope list_scope.
Local Open Scope R_scope.

Section Step.
  Variable m : hhmm RA.
  Hypothesis HU : hh_usable m.
  Let n := hh_size m.
  Let Nc c := hc_n (hcl m c).

  Lemma level_ok : forall (lev : hrun RA -> list R) (ms : list (string * hclass RA)) (v : list R) (g : nat -> nat -> R), length ms = n -> length v = n ->
    (forall c, (c < n)%nat -> hc_n (snd (nth c ms no_hclass)) = Nc c /\ length (lev (hc_run (snd (nth c ms no_hclass)))) = Nc c /\
      forall j, (j < Nc c)%nat -> nth j (lev (hc_run (snd (nth c ms no_hclass)))) 0 = g c j) ->
    exists v', level_masses (A := RA) lev ms v = Ok v' /\ length v' = n /\ forall c, (c < n)%nat -> nth c v' 0 = Rsum (Nc c) (g c).
  Proof.
    intros lev ms v g Lm Lv H. unfold level_masses. rewrite Lm.
    destruct (wr_loop n 0 (fun c => let* e := rd ms c in accM (A := RA) (hc_n (snd e)) (rd (lev (hc_run (snd e)))) 0) (fun c => Rsum (Nc c) (g c)) v) as (v' & E & L & V).
    { change (num RA) with R in *. lia. }
    { intros c Hc. destruct (H c Hc) as (H1 & H2 & H3). eapply bind_eq; [apply (rd_nth _ _ no_hclass); rewrite Lm; exact Hc|]. cbv beta. rewrite H1. rewrite (accM_ok _ _ (g c)); [apply (f_equal (@Ok R)); ring|].
      intros j Hj. rewrite <- H3 by exact Hj. apply rd_nth. change (num RA) with R in *. lia. }
    exists v'. split.
    - refine (eq_trans _ E). apply iterM_ext. intros c s Hc. cbn [Nat.add]. rewrite n0_RA. destruct (rd ms c); reflexivity.
    - split; [change (num RA) with R in *; lia|]. intros c Hc. rewrite V. cbn [Nat.leb andb Nat.add]. destruct (Nat.ltb_spec c n); [|lia]. rewrite Nat.sub_0_r. reflexivity.
  Qed.

  Lemma update_class_ok : forall m' v1 v2 B c h' x nm, hh_same m m' -> (c < n)%nat -> hmm_same (hcl m c) h' -> length x = hh_obs_dim m ->
    length v1 = n -> length v2 = n -> (forall d, (d < n)%nat -> nth d v1 0 = Rsum (Nc d) (fun j => B d j 1%nat)) -> (forall d, (d < n)%nat -> nth d v2 0 = Rsum (Nc d) (fun j => B d j 2%nat)) ->
    length (h_a0 (hc_run h')) = Nc c -> length (h_a1 (hc_run h')) = Nc c -> length (h_a2 (hc_run h')) = Nc c -> (forall j, (j < Nc c)%nat -> nth j (h_a0 (hc_run h')) 0 = B c j 0%nat) ->
    let g k e := front m B c k * split_at m c k e * mix_lik (state_at (hcl m c) k) x in
    exists a0 a1 a2, update_class (A := RA) m' v1 v2 x c h' nm =
      Ok (hc_set_run (rn_exit (A := RA) (Rsum (Nc c) (fun k => g k 1%nat + g k 2%nat)) (Rsum (Nc c) (fun k => g k 1%nat + g k 2%nat) / Rsum (Nc c) (fun k => g k 0%nat + g k 1%nat + g k 2%nat))
        (rn_inst (A := RA) (Rsum (Nc c) (fun k => g k 0%nat + g k 1%nat + g k 2%nat)) (rn_alpha_h (A := RA) a0 a1 a2 (hc_run h')))) h', nm + Rsum (Nc c) (fun k => g k 0%nat + g k 1%nat + g k 2%nat)) /\
      length a0 = Nc c /\ length a1 = Nc c /\ length a2 = Nc c /\
      forall k, (k < Nc c)%nat -> nth k a0 0 = g k 0%nat /\ nth k a1 0 = g k 1%nat /\ nth k a2 0 = g k 2%nat.
  Proof.
    intros m' v1 v2 B c h' x nm SM Hc HS Lx L1 L2 V1 V2 L0 L01 L02 V0 g. destruct (same_n (hcl m c) h' HS) as (EN & EM). pose proof HS as (_ & _ & _ & _ & _ & _ & _ & _ & Ee & _).
    destruct (cls_in m HU c Hc) as (_ & _ & _ & _ & _ & LX & _). pose proof (top_ok m HU) as (_ & _ & _ & _ & T5 & _). pose proof SM as (_ & _ & _ & _ & _ & _ & _ & _ & _ & Mq & _).
    assert (RQ : exists q : R, rd (hh_exit m) c = Ok q /\ forall k e, split_at m c k e = match e with O => 1 - exit_at (hcl m c) k | 1%nat => (1 - q) * exit_at (hcl m c) k | _ => q * exit_at (hcl m c) k end).
    { exists (nth c (hh_exit m) 0). split; [apply rd_nth; unfold n in Hc; change (num RA) with R in *; lia|reflexivity]. }
    destruct RQ as (q & RQ & SP).
    unfold update_class. rewrite EN. change (hc_n (hcl m c)) with (Nc c) in *.
    assert (EF : tabM (Nc c) (frontier (A := RA) m' v1 v2 c h') = Ok (tab (Nc c) (front m B c))) by (apply tabM_ok; intros k Hk; apply (frontier_ok m HU); assumption).
    rewrite EF, bind_Ok. rewrite Ee, Mq.
    match goal with |- context [iterM (Nc c) ?F ?s0] =>
      destruct (iterM_inv (fun k (s : list R * list R * list R * R * R * R) => let '(a0, a1, a2, ex, inst, norm) := s in
        length a0 = Nc c /\ length a1 = Nc c /\ length a2 = Nc c /\ (forall j, (j < k)%nat -> nth j a0 0 = g j 0%nat /\ nth j a1 0 = g j 1%nat /\ nth j a2 0 = g j 2%nat) /\
        ex = Rsum k (fun k => g k 1%nat + g k 2%nat) /\ inst = Rsum k (fun k => g k 0%nat + g k 1%nat + g k 2%nat) /\ norm = nm + Rsum k (fun k => g k 0%nat + g k 1%nat + g k 2%nat)) (Nc c) F s0) as (s & E & I) end.
    - split; [exact L0|]. split; [exact L01|]. split; [exact L02|]. split; [intros j Hj; lia|]. cbn [Rsum]. rewrite n0_RA, Rplus_0_r. repeat split.
    - intros k (((((a0, a1), a2), ex), inst), norm) Hk (I1 & I2 & I3 & I4 & I5 & I6 & I7).
      rewrite (same_obs m HU h' c x k Hc Hk HS Lx), bind_Ok.
      assert (RF : rd (tab (Nc c) (front m B c)) k = Ok (front m B c k)) by (rewrite (rd_nth _ k 0) by (rewrite tab_length; exact Hk); rewrite nth_tab by exact Hk; reflexivity).
      assert (RX : rd (h_exit (hc_net (hcl m c))) k = Ok (exit_at (hcl m c) k)) by (apply rd_nth; change (num RA) with R in *; lia).
      eexists. split.
      + eapply bind_eq; [exact RF|]. cbv beta zeta. eapply bind_eq; [exact RQ|]. cbv beta. eapply bind_eq; [exact RX|]. cbv beta.
        eapply bind_eq; [apply wr_ok; change (num RA) with R in *; lia|]. eapply bind_eq; [apply wr_ok; change (num RA) with R in *; lia|]. eapply bind_eq; [apply wr_ok; change (num RA) with R in *; lia|]. reflexivity.
      + rewrite n1_RA. cbn [nmul nsub nadd RA]. change (num RA) with R in *.
        assert (G0 : (1 - exit_at (hcl m c) k) * (mix_lik (state_at (hcl m c) k) x * front m B c k) = g k 0%nat) by (unfold g; rewrite SP; ring).
        assert (G1 : (1 - q) * exit_at (hcl m c) k * (mix_lik (state_at (hcl m c) k) x * front m B c k) = g k 1%nat) by (unfold g; rewrite SP; ring).
        assert (G2 : q * exit_at (hcl m c) k * (mix_lik (state_at (hcl m c) k) x * front m B c k) = g k 2%nat) by (unfold g; rewrite SP; ring).
        rewrite G0, G1, G2. rewrite !upd_length. repeat (split; [assumption|]). split.
        { intros j Hj. destruct (Nat.eq_dec j k) as [->|Nj].
          - rewrite !nth_upd_eq by lia. repeat split.
          - rewrite !nth_upd_neq by lia. apply I4. lia. }
        cbn [Rsum]. rewrite I5, I6, I7. split; [reflexivity|]. split; [reflexivity|]. rewrite Rplus_assoc. f_equal. f_equal. unfold g. 
        transitivity (mix_lik (state_at (hcl m c) k) x * front m B c k * (split_at m c k 0 + split_at m c k 1 + split_at m c k 2)); [rewrite split_sum; ring|ring].
    - destruct s as (((((a0, a1), a2), ex), inst), norm). destruct I as (I1 & I2 & I3 & I4 & I5 & I6 & I7). exists a0, a1, a2. split; [|split; [exact I1|split; [exact I2|split; [exact I3|exact I4]]]].
      eapply bind_eq; [exact E|]. cbv beta iota. rewrite <- I7, <- I6, <- I5. reflexivity.
  Qed.
End Step.
