(** One step of the hierarchical forward algorithm computes the forward variables of the flattened model. *)
From Coq Require Import String List Bool Arith ZArith Reals Lra Lia.
From Verif Require Import Base Arith BaseFacts RFacts Model_Ring Model_Phrase Model_Gaussian Model_Config Model_GMM Model_HMM Model_HHMM
  Proofs_Gaussian Proofs_KMeans Proofs_GMM Spec_Common Spec_Matrix Spec_Gaussian Spec_GMM Spec_HMM Spec_HHMM Proofs_HMM Proofs_HMM2 Proofs_HMM3 Proofs_HMM4 Proofs_HMM5 Proofs_HHMM.
Import ListNotations.
Local Open Scope list_scope.
Local Open Scope R_scope.

Ltac rl := change (num RA) with R in *; lia.

Ltac rdok d := eapply bind_eq; [apply (rd_nth _ _ d); rl|]; cbv beta.
Ltac stp H := eapply bind_eq; [apply H; first [assumption | cbn [trans_size]; nia]|]; cbv beta.

Lemma mapM_at : forall {X Y} (Q : nat -> Y -> Prop) (f : X -> res Y) (l : list X) d d', (forall i, (i < length l)%nat -> exists y, f (nth i l d) = Ok y /\ Q i y) ->
  exists ys, mapM f l = Ok ys /\ length ys = length l /\ forall i, (i < length l)%nat -> Q i (nth i ys d').
Proof.
  intros X Y Q f l d d'. revert Q. induction l as [|x l IH]; intros Q H; cbn [mapM].
  - exists []. split; [reflexivity|]. split; [reflexivity|]. cbn. lia.
  - destruct (H 0%nat) as (y & E & Qy); [cbn; lia|]. cbn [nth] in E. rewrite E, bind_Ok. destruct (IH (fun i => Q (S i))) as (ys & E' & L & V).
    { intros i Hi. apply (H (S i)). cbn. lia. }
    rewrite E', bind_Ok. exists (y :: ys). split; [reflexivity|]. split; [cbn; congruence|]. intros [|i] Hi; [exact Qy|]. apply V. cbn in Hi. lia.
Qed.

Lemma sweep_at : forall (Q : nat -> hclass RA -> Prop) (g : nat -> R) (f : nat -> hclass RA -> R -> res (hclass RA * R)) ms i0 norm,
  (forall i nm, (i < length ms)%nat -> exists h, f (i0 + i)%nat (snd (nth i ms no_hclass)) nm = Ok (h, nm + g i) /\ Q i h) ->
  exists ms', sweep (A := RA) f i0 ms norm = Ok (ms', norm + Rsum (length ms) g) /\ length ms' = length ms /\
    forall i, (i < length ms)%nat -> fst (nth i ms' no_hclass) = fst (nth i ms no_hclass) /\ Q i (snd (nth i ms' no_hclass)).
Proof.
  intros Q g f ms. revert Q g. induction ms as [|(l, h) ms IH]; intros Q g i0 norm H; cbn [sweep].
  - exists []. split; [cbn [length Rsum]; rewrite Rplus_0_r; reflexivity|]. split; [reflexivity|]. cbn. lia.
  - destruct (H 0%nat norm) as (h' & E & Qh); [cbn; lia|]. cbn [nth snd] in E. rewrite Nat.add_0_r in E. rewrite E, bind_Ok.
    destruct (IH (fun i => Q (S i)) (fun i => g (S i)) (S i0) (norm + g 0%nat)) as (ms' & E' & L & V).
    { intros i nm Hi. destruct (H (S i) nm) as (h1 & E1 & Q1); [cbn; lia|]. exists h1. split; [|exact Q1]. replace (S i0 + i)%nat with (i0 + S i)%nat by lia. exact E1. }
    rewrite E', bind_Ok. exists ((l, h') :: ms'). split.
    + apply f_equal. f_equal. cbn [length]. rewrite Rsum_first. change (num RA) with R in *. ring.
    + split; [cbn; congruence|]. intros [|i] Hi; [split; [reflexivity|exact Qh]|]. apply V. cbn in Hi. lia.
Qed.

Section Step.
  Variable m : hhmm RA.
  Hypothesis HU : hh_usable m.
  Let n := hh_size m.
  Let Nc c := hc_n (hcl m c).

  Lemma same_size : forall m', hh_same m m' -> hh_size m' = n.
  Proof. intros m' (_ & _ & _ & _ & _ & _ & _ & _ & _ & _ & F). apply Forall2_len in F. unfold hh_size, n, hh_size. congruence. Qed.
  Lemma same_cls : forall m' c, hh_same m m' -> (c < n)%nat -> hlabel m' c = hlabel m c /\ hmm_same (hcl m c) (hcl m' c).
  Proof. intros m' c (_ & _ & _ & _ & _ & _ & _ & _ & _ & _ & F) Hc. apply (Forall2_at _ _ _ F c no_hclass no_hclass). exact Hc. Qed.
  Lemma same_obs : forall h' c x k, (c < n)%nat -> (k < Nc c)%nat -> hmm_same (hcl m c) h' -> length x = hh_obs_dim m -> hm_obs h' x k = Ok (mix_lik (state_at (hcl m c) k) x).
  Proof.
    intros h' c x k Hc Hk S Lx. apply (obs_at (hcl m c) (cls_use m HU c Hc) h' x k S Hk). unfold hmm_obs_dim. destruct (cls_in m HU c Hc) as (_ & E1 & E2 & E3 & _). rewrite E1, E2, E3. exact Lx.
  Qed.

  (** ** The first frame *)
  Lemma init_class_ok : forall h' c x nm, (c < n)%nat -> hmm_same (hcl m c) h' -> length x = hh_obs_dim m ->
    exists a0 inst, init_class (A := RA) (hh_prior m) x c h' nm = Ok (hc_set_run (rn_inst (A := RA) inst (rn_alpha_h (A := RA) a0 (repeat 0 (Nc c)) (repeat 0 (Nc c)) (hc_run h'))) h', nm + inst) /\
      length a0 = Nc c /\ (forall k, (k < Nc c)%nat -> nth k a0 0 = start_at m c k * mix_lik (state_at (hcl m c) k) x) /\
      inst = left_over m (fun _ => h_inst (hc_run h')) c + Rsum (Nc c) (fun k => start_at m c k * mix_lik (state_at (hcl m c) k) x).
  Proof.
    intros h' c x nm Hc S Lx. destruct (same_n (hcl m c) h' S) as (EN & EM). pose proof (cls_use m HU c Hc) as (U1 & U2 & U3 & U4 & U5 & U6). pose proof (top_ok m HU) as (T1 & _). pose proof S as (_ & _ & _ & _ & _ & _ & Ep & _).
    pose proof (fun k Hk => same_obs h' c x k Hc Hk S Lx) as OB. unfold init_class. rewrite EN, EM, Ep, n0_RA. change (hc_n (hcl m c)) with (Nc c) in *. unfold left_over, start_at, entry, hc_prior, prior_at. destruct (hc_mode (hcl m c)) eqn:HM.
    - destruct (U5 eq_refl) as (L5 & _). change (num RA) with R in *.
      assert (RP : forall k, (k < Nc c)%nat -> rd (h_prior (hc_net (hcl m c))) k = Ok (nth k (h_prior (hc_net (hcl m c))) 0)) by (intros k Hk; apply rd_nth; rl).
      assert (AL : iterM (Nc c) (fun j (s : list R * R) => let* v := (let* p := rd (h_prior (hc_net (hcl m c))) j in let* o := hm_obs h' x j in Ok (p * o)) in let* al := wr (fst s) j v in Ok (al, snd s + v)) (repeat 0 (Nc c), h_inst (hc_run h')) =
        Ok (tab (Nc c) (fun k => nth k (h_prior (hc_net (hcl m c))) 0 * mix_lik (state_at (hcl m c) k) x), h_inst (hc_run h') + Rsum (Nc c) (fun k => nth k (h_prior (hc_net (hcl m c))) 0 * mix_lik (state_at (hcl m c) k) x))).
      { apply (acc_loop (Nc c) (fun j => let* p := rd (h_prior (hc_net (hcl m c))) j in let* o := hm_obs h' x j in Ok (p * o))); [apply repeat_length|].
        intros j Hj. rewrite (rd_nth (h_prior (hc_net (hcl m c))) j 0) by rl. rewrite bind_Ok, OB by exact Hj. reflexivity. }
      eexists _, _. split.
      + eapply bind_eq; [eapply eq_trans; [|exact AL]|reflexivity].
        apply iterM_ext. intros k (al, s) Hk. refine (eq_trans (bind_eq _ _ _ _ (RP k Hk) eq_refl) _). symmetry. refine (eq_trans (f_equal (fun z => bind z _) (bind_eq _ _ _ _ (RP k Hk) eq_refl)) _). cbv beta. rewrite OB by exact Hk. rewrite !bind_Ok. reflexivity.
      + split; [apply tab_length|split; [intros k Hk; rewrite nth_tab by exact Hk; reflexivity|reflexivity]].
    - fold n in T1. set (p := nth c (hh_prior m) 0 * mix_lik (state_at (hcl m c) 0) x).
      exists (upd (repeat 0 (Nc c)) 0 p), p. split.
      { apply (bind_eq _ _ (upd (repeat 0 (Nc c)) 0 p, p)); [|reflexivity]. eapply bind_eq; [apply (rd_nth _ _ 0); rl|]. rewrite OB by exact U1. rewrite bind_Ok. rewrite wr_ok by (rewrite repeat_length; exact U1). rewrite bind_Ok. reflexivity. }
      split; [rewrite upd_length, repeat_length; reflexivity|]. change (num RA) with R in *. split.
      + intros [|k] Hk; [rewrite nth_upd_eq by (rewrite repeat_length; exact U1); change (p = nth c (hh_prior m) 0 * 1 * mix_lik (state_at (hcl m c) 0) x); rewrite Rmult_1_r; reflexivity|]. rewrite nth_upd_neq by lia. cbn [Nat.eqb]. rewrite nth_repeat. ring.
      + rewrite (Rsum_single (Nc c) 0); [change (p = 0 + nth c (hh_prior m) 0 * 1 * mix_lik (state_at (hcl m c) 0) x); rewrite Rmult_1_r, Rplus_0_l; reflexivity|exact U1|]. intros i _ Hi. destruct (Nat.eqb_spec i 0); [contradiction|ring].
  Qed.

  (** ** The next frames *)
  Lemma frontier_ok : forall m' v1 v2 B c h' k, hh_same m m' -> (c < n)%nat -> (k < Nc c)%nat -> hmm_same (hcl m c) h' ->
    length v1 = n -> length v2 = n -> (forall d, (d < n)%nat -> nth d v1 0 = Rsum (Nc d) (fun j => B d j 1%nat)) -> (forall d, (d < n)%nat -> nth d v2 0 = Rsum (Nc d) (fun j => B d j 2%nat)) ->
    length (h_a0 (hc_run h')) = Nc c -> (forall j, (j < Nc c)%nat -> nth j (h_a0 (hc_run h')) 0 = B c j 0%nat) ->
    frontier (A := RA) m' v1 v2 c h' k = Ok (front m B c k).
  Proof.
    intros m' v1 v2 B c h' k SM Hc Hk HS L1 L2 V1 V2 L0 V0. destruct (same_n (hcl m c) h' HS) as (EN & EM). pose proof (same_size m' SM) as ES.
    pose proof (cls_use m HU c Hc) as (U1 & U2 & U3 & (U4 & _) & U5 & U6). destruct (cls_in m HU c Hc) as (_ & _ & _ & _ & _ & LX & _ & _ & _). pose proof (top_ok m HU) as (T1 & _ & T2 & T3 & _).
    pose proof HS as (_ & _ & _ & _ & _ & _ & Ep & Et & Ee & _). destruct SM as (_ & _ & _ & _ & _ & _ & _ & Mp & Mt & _).
    unfold frontier. rewrite EN, EM, ES, Ep, Et, Ee, Mp, Mt, n0_RA, n1_RA. change (hc_n (hcl m c)) with (Nc c) in *. fold n in T1, T2, T3.
    change (num RA) with R in *.
    assert (EN' : forall d, (d < n)%nat -> (let* a := rd v1 d in let* row := rd (hh_trans m) d in let* t := rd row c in let* p := rd (hh_prior m) c in let* b := rd v2 d in Ok (nadd (a := RA) (nmul (a := RA) a t) (nmul (a := RA) p b))) =
      Ok (Rsum (Nc d) (fun j => B d j 1%nat) * top_trans m d c + Rsum (Nc d) (fun j => B d j 2%nat) * top_prior m c)).
    { intros d Hd. destruct (T3 d Hd) as (T4 & _). rdok 0. rdok (@nil R). rdok 0. rdok 0. rdok 0. rewrite V1, V2 by exact Hd. apply (f_equal (@Ok R)). cbn [nadd nmul RA]. unfold top_trans, top_prior. change (num RA) with R in *. ring. }
    assert (RT : forall q, (q < trans_size (Nc c) (hc_mode (hcl m c)))%nat -> rd (h_trans (hc_net (hcl m c))) q = Ok (nth q (h_trans (hc_net (hcl m c))) 0)) by (intros q Hq; apply rd_nth; change (num RA) with R in *; rewrite U4; exact Hq).
    assert (RE : forall j, (j < Nc c)%nat -> rd (h_exit (hc_net (hcl m c))) j = Ok (exit_at (hcl m c) j)) by (intros j Hj; apply rd_nth; change (num RA) with R in *; lia).
    assert (RA0 : forall j, (j < Nc c)%nat -> rd (h_a0 (hc_run h')) j = Ok (B c j 0%nat)) by (intros j Hj; rewrite (rd_nth _ j 0) by (change (num RA) with R in *; lia); rewrite V0 by exact Hj; reflexivity).
    unfold front, entry, hc_prior, prior_at, inner. change (hc_n (hcl m c)) with (Nc c). destruct (hc_mode (hcl m c)) eqn:HM.
    - destruct (U5 eq_refl) as (L5 & _). change (num RA) with R in *.
      rewrite (accM_ok _ _ (fun j => B c j 0%nat * (nth (j * Nc c + k) (h_trans (hc_net (hcl m c))) 0 / (1 - exit_at (hcl m c) j)))).
      2:{ intros j Hj. stp RT. stp RE. stp RA0. apply (f_equal (@Ok R)). cbn [nmul ndiv nsub RA]. change (num RA) with R in *. ring. }
      rewrite bind_Ok.
      rewrite (accM_ok _ _ (fun d => (Rsum (Nc d) (fun j => B d j 1%nat) * top_trans m d c + Rsum (Nc d) (fun j => B d j 2%nat) * top_prior m c) * nth k (h_prior (hc_net (hcl m c))) 0)).
      2:{ intros d Hd. rdok 0. stp EN'. apply (f_equal (@Ok R)). cbn [nmul RA]. change (num RA) with R in *. ring. }
      apply (f_equal (@Ok R)). rewrite Rsum_scal_r. rewrite Rplus_0_l. reflexivity.
    - cbn [trans_size] in RT. destruct (Nat.eqb_spec k 0) as [->|Nk].
      + stp RT. stp RA0. rewrite (accM_ok _ _ _ _ EN'). apply (f_equal (@Ok R)). cbn [nmul RA].
        rewrite (Rsum_single (Nc c) 0); [|exact U1|intros j _ Hj; destruct (Nat.eqb_spec 0 j); [lia|]; destruct (Nat.eqb_spec 0 (S j)); [lia|]; ring].
        cbn [Nat.eqb Nat.mul]. unfold Rdiv. rewrite Rinv_1, !Rmult_1_r, Rplus_0_r. f_equal. apply Rmult_comm.
      + stp RT. stp RE. stp RA0. stp RT. stp RE. stp RA0.
        apply (f_equal (@Ok R)). cbn [nadd nmul ndiv nsub RA]. rewrite Rmult_0_r, Rplus_0_r.
        rewrite (Rsum_ext _ _ (fun j => (if (j =? k)%nat then B c k 0%nat * (nth (k * 2) (h_trans (hc_net (hcl m c))) 0 / (1 - exit_at (hcl m c) k)) else 0) +
          (if (j =? k - 1)%nat then B c (k - 1)%nat 0%nat * (nth ((k - 1) * 2 + 1) (h_trans (hc_net (hcl m c))) 0 / (1 - exit_at (hcl m c) (k - 1))) else 0))).
        * rewrite Rsum_plus. rewrite (Rsum_single _ k) by (lia || (intros i _ Hi; destruct (Nat.eqb_spec i k); [contradiction|reflexivity])).
          rewrite (Rsum_single _ (k - 1)) by (lia || (intros i _ Hi; destruct (Nat.eqb_spec i (k - 1)); [contradiction|reflexivity])). rewrite !Nat.eqb_refl. ring.
        * intros j Hj. rewrite Rmult_plus_distr_l. f_equal.
          -- rewrite (Nat.eqb_sym j k). destruct (Nat.eqb_spec k j) as [E|Ne]; [|ring]. subst j. destruct (Nat.eqb_spec k 0); [lia|]. replace (2 * k)%nat with (k * 2)%nat by lia. reflexivity.
          -- destruct (Nat.eqb_spec k (S j)) as [E|Ne], (Nat.eqb_spec j (k - 1)) as [E'|Ne']; try lia; try ring. subst j. replace (2 * (k - 1) + 1)%nat with ((k - 1) * 2 + 1)%nat by lia. reflexivity.
  Qed.
End Step.
