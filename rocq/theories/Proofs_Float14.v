(** The forward recursion of one class in binary64. *)
From Coq Require Import String ZArith QArith Reals Lra Lia Bool List Arith.
From Coq Require Import Floats.SpecFloat.
From Flocq Require Import Core.Core IEEE754.BinarySingleNaN.
From Verif Require Import Base BaseFacts Arith Spec_Float Spec_Float2 Spec_Float3 Spec_Float4 Proofs_Float1 Proofs_Float2 Proofs_Float3 Proofs_Float4 Proofs_Float5 Proofs_Float6 Proofs_Float7 Proofs_Float8 Proofs_Float9 Proofs_Float12.
From Verif Require Import Model_Map Model_Ring Model_Gaussian Model_Config Model_KMeans Model_GMM Model_HMM Model_HHMM.
Import ListNotations.
Local Open Scope R_scope.

#[local] Existing Instance Proofs_Float1.Hprec.
#[local] Existing Instance Proofs_Float1.Hmax.
Local Notation fadd := (SFadd fprec femax).
Local Notation fmul := (SFmul fprec femax).
Local Notation fdiv := (SFdiv fprec femax).

Section Obs.
  Variables fexp fln : f64 -> f64.
  Hypothesis LM : libm_f64 fexp fln.
  Local Notation A := (FA fexp fln).

  Lemma comp_low (g : gclass A) x c v w : state_diag g -> frame_f64 x -> gm_obs (A := A) g x c = Ok v \/ gm_obs_input (A := A) g x c = Ok v ->
    nth_error (gc_coef g) c = Some w -> bpow radix2 (-40) <= fval w -> bpow radix2 (-638) <= fval v.
  Proof.
    intros (((Lw & Fw & _) & Fk) & K & _) Fx H E2 Bw. assert (He := exp_doubles _ _ LM).
    assert (G : forall t k p, rd (gc_coef g) c = Ok t -> rd (gc_comp g) c = Ok k -> (g_likelihood (A := A) k x = Ok p \/ g_likelihood_input (A := A) k x = Ok p) -> v = SFmul fprec femax t p -> bpow radix2 (-638) <= fval v).
    { intros t k p Ew Ek Ep ->. unfold rd in Ew, Ek. destruct (nth_error (gc_comp g) c) eqn:E1; [| discriminate]. rewrite E2 in Ew.
      injection Ek as <-. injection Ew as <-. rewrite Forall_forall in Fw, Fk, K. apply nth_error_In in E1.
      assert (P : num_nonneg p /\ bpow radix2 (-598) <= fval p). { destruct Ep as [Ep | Ep]; [eapply (lik_num fexp fln He) | eapply (lik_input_num fexp fln He)]; eauto. }
      assert (U : fval p <= bpow radix2 537) by (eapply (lik_le fexp fln LM); eauto).
      destruct P as ((P1 & P2 & P3) & Lp). assert (W := Fw _ (nth_error_In _ _ E2)).
      change (-638)%Z with (-40 + -598)%Z. assert (M := mul_weight _ p W (conj P1 (conj P2 P3))). destruct M as (_ & M & _). rewrite M.
      rewrite <- (rnd_bpow (-40 + -598)) by lia. apply rnd_le. rewrite bpow_plus. apply Rmult_le_compat; [apply bp0 | apply bp0 | exact Bw | exact Lp]. }
    destruct H as [H | H].
    - unfold gm_obs in H. destruct (gc_n g <=? c)%nat; [discriminate |].
      apply bind_ok_inv in H. destruct H as (t & Ew & H). apply bind_ok_inv in H. destruct H as (k & Ek & H). apply bind_ok_inv in H. destruct H as (p & Ep & H).
      injection H as H. apply (G t k p); auto.
    - unfold gm_obs_input in H. destruct (negb (gc_bim g)); [discriminate |].
      apply bind_ok_inv in H. destruct H as (t & Ew & H). apply bind_ok_inv in H. destruct H as (k & Ek & H). apply bind_ok_inv in H. destruct H as (p & Ep & H).
      injection H as H. apply (G t k p); auto.
  Qed.

  Lemma accM_reads n (f : nat -> res f64) a s i : accM (A := A) n f a = Ok s -> (i < n)%nat -> exists v, f i = Ok v.
  Proof.
    intros H. unfold accM in H. refine (iterM_inv_ok (fun k _ => (i < k)%nat -> exists v, f i = Ok v) n _ a s _ _ H); [lia |].
    intros k b c Hk I E L. apply bind_ok_inv in E. destruct E as (v & Ev & _). destruct (Nat.eq_dec i k) as [-> | D]; [eauto | apply I; lia].
  Qed.

  Lemma state_flat_obs (g : gclass A) x (f : nat -> res f64) s : state_flat g -> frame_f64 x -> (forall c v, f c = Ok v -> gm_obs (A := A) g x c = Ok v \/ gm_obs_input (A := A) g x c = Ok v) ->
    accM (A := A) (gc_n g) f n0 = Ok s -> num_in (bpow radix2 (-638)) (bpow radix2 570) s.
  Proof.
    intros (D & w0 & Iw & Pw) Fx Hf H. pose proof D as (((Lw & Fw & _) & Fk) & K & Ln).
    assert (Z0 : num_in 0 (bpow radix2 537) (n0 (A := A))). { split; [reflexivity |]. split; [reflexivity |]. split; [apply Rle_refl | apply bp0]. }
    assert (F : forall c v, (c < gc_n g)%nat -> f c = Ok v -> num_in 0 (bpow radix2 537) v) by (intros c v _ E; eapply (comp_obs fexp fln LM); eauto).
    destruct (acc_in fexp fln 537 (gc_n g) f (n0 (A := A)) s Ln ltac:(lia) Z0 F H) as ((V & N & B) & _ & M).
    split; [exact V |]. split; [exact N |]. split; [| apply B].
    apply (In_nth_error (A := f64)) in Iw. destruct Iw as (c & Ec). assert (Hc : (c < gc_n g)%nat) by (rewrite <- Lw; apply nth_error_Some; congruence).
    destruct (accM_reads _ _ _ _ c H Hc) as (v & Ev).
    apply Rle_trans with (fval v); [eapply comp_low; eauto | eapply M; eauto].
  Qed.

  Lemma flat_obs (h : hclass A) x k v : Forall state_flat (h_states (hc_net h)) -> frame_f64 x -> hm_obs (A := A) h x k = Ok v -> num_in (bpow radix2 (-638)) (bpow radix2 570) v.
  Proof.
    intros D Fx H. unfold hm_obs in H. apply bind_ok_inv in H. destruct H as (g & Eg & H). rewrite Forall_forall in D.
    assert (Dg : state_flat g). { apply D. unfold rd in Eg. destruct (nth_error (h_states (hc_net h)) k) eqn:E; [| discriminate]. injection Eg as <-. eapply nth_error_In, E. }
    destruct (hc_bim h); [apply (state_flat_obs g x (gm_obs_input (A := A) g x) v) | apply (state_flat_obs g x (gm_obs (A := A) g x) v)]; auto.
  Qed.
End Obs.

Lemma inv_bpow x i j : bpow radix2 i <= x <= bpow radix2 j -> bpow radix2 (- j) <= / x <= bpow radix2 (- i).
Proof. intros (L & U). assert (P := bpow_gt_0 radix2 i). rewrite !bpow_opp. split; apply Rinv_le_contravar; lra. Qed.

Section Forward.
  Variables fexp fln : f64 -> f64.
  Local Notation A := (FA fexp fln).

  (** Vectors of [n] numbers between 0 and 1, one of which is at least 2^-33. *)
  Definition alphas (n : nat) (al : list f64) : Prop :=
    (forall k, (k < n)%nat -> num_in 0 1 (ent al k)) /\ exists k, (k < n)%nat /\ bpow radix2 (-33) <= fval (ent al k).
  Definition scaling (ct : f64) : Prop := num_in (bpow radix2 (-790)) (bpow radix2 790) ct.

  (** Dividing terms by their sum, or by a number that is close to it. *)
  Lemma scale_by n (al al' : list f64) (norm : f64) :
    (forall k, (k < n)%nat -> num_in 0 (bpow radix2 700) (ent al k) /\ fval (ent al k) <= fval norm) -> is_f64 norm -> is_num norm = true -> bpow radix2 (-780) <= fval norm ->
    (exists k, (k < n)%nat /\ fval norm <= bpow radix2 33 * fval (ent al k)) -> scale_vec (A := A) n norm al = Ok al' ->
    alphas n al' /\ num_in (bpow radix2 (-780)) (bpow radix2 740) norm /\ scaling (fdiv (n1 (A := A)) norm).
  Proof.
    intros F V N Lo (k0 & Hk0 & B0) H. unfold scale_vec in H.
    assert (Hi' : fval norm <= bpow radix2 740).
    { apply Rle_trans with (1 := B0). destruct (F k0 Hk0) as ((_ & _ & Bk) & _). change 740%Z with (33 + 707)%Z. rewrite bpow_plus. apply Rmult_le_compat_l; [apply bp0 |].
      apply Rle_trans with (bpow radix2 700); [apply Bk | apply bpow_le; lia]. }
    assert (P0 : 0 < fval norm) by (eapply Rlt_le_trans; [apply bpow_gt_0 | exact Lo]).
    destruct (each_spec n (fun v => fdiv v norm) al al' (S754_zero false) H) as (_ & E0).
    assert (E : forall k, (k < n)%nat -> ent al' k = fdiv (ent al k) norm) by (intros k Hk; exact (E0 k Hk)).
    split; [split |].
    - intros k Hk. rewrite E by exact Hk. destruct (F k Hk) as ((V1 & N1 & B1) & Up). apply div_part; [split; [exact V1 | split; [exact N1 | apply B1]] | split; [exact V | split; [exact N | lra]] | exact P0 | exact Up].
    - exists k0. split; [exact Hk0 |]. rewrite E by exact Hk0. destruct (F k0 Hk0) as ((V1 & N1 & B1) & Up).
      destruct (div_part (ent al k0) norm) as (_ & D); [split; [exact V1 | split; [exact N1 | apply B1]] | split; [exact V | split; [exact N | lra]] | exact P0 | exact Up |].
      rewrite D, <- (rnd_bpow (-33)) by lia. apply rnd_le. apply Rmult_le_reg_r with (fval norm); [exact P0 |]. unfold Rdiv. rewrite Rmult_assoc, Rinv_l, Rmult_1_r by lra.
      apply Rmult_le_reg_l with (bpow radix2 33); [apply bpow_gt_0 |]. rewrite <- Rmult_assoc, <- bpow_plus. change (bpow radix2 (33 + -33)) with 1. lra.
    - split; [split; [exact V |]; split; [exact N |]; split; [exact Lo | exact Hi'] |].
      destruct (FA_n1 fexp fln) as (V1 & N1 & E1).
      assert (R : bpow radix2 (-740) <= / fval norm <= bpow radix2 780) by (apply (inv_bpow _ (-780) 740); lra).
      assert (D := f_div_num (n1 (A := A)) norm V1 V N1 ltac:(lra)). rewrite E1 in D. unfold Rdiv in D. rewrite Rmult_1_l in D.
      assert (RR : bpow radix2 (-740) <= rnd (/ fval norm) <= bpow radix2 780) by (split; [rewrite <- (rnd_bpow (-740)) by lia | rewrite <- (rnd_bpow 780) by lia]; apply rnd_le; lra).
      destruct D as (D1 & D2). { rewrite Rabs_pos_eq; [| apply Rle_trans with (2 := proj1 RR); apply bp0]. apply Rle_lt_trans with (1 := proj2 RR). apply bpow_lt. lia. }
      split; [apply f_div_valid; assumption |]. split; [exact D1 |]. rewrite D2. split; [apply Rle_trans with (2 := proj1 RR); apply bpow_le; lia | apply Rle_trans with (1 := proj2 RR); apply bpow_le; lia].
  Qed.

  Lemma sum_terms n (al : list f64) (norm : f64) : (1 <= n)%nat -> (Z.of_nat n < 2 ^ 32)%Z ->
    (forall k, (k < n)%nat -> num_in 0 (bpow radix2 700) (ent al k)) -> (exists k, (k < n)%nat /\ bpow radix2 (-780) <= fval (ent al k)) ->
    norm = nsum (A := A) n (ent al) ->
    (forall k, (k < n)%nat -> num_in 0 (bpow radix2 700) (ent al k) /\ fval (ent al k) <= fval norm) /\ is_f64 norm /\ is_num norm = true /\ bpow radix2 (-780) <= fval norm /\
    (exists k, (k < n)%nat /\ fval norm <= bpow radix2 33 * fval (ent al k)).
  Proof.
    intros Hn Zn F (k0 & Hk0 & B0) En.
    assert (T := total fexp fln (tab n (ent al)) (bpow radix2 (-780))).
    assert (L : length (tab n (ent al)) = n) by (unfold tab; now rewrite map_length, seq_length).
    assert (I : forall y, In y (tab n (ent al)) -> exists k, (k < n)%nat /\ y = ent al k).
    { intros y Iy. unfold tab in Iy. apply in_map_iff in Iy. destruct Iy as (k & <- & Ik). apply in_seq in Ik. exists k. split; [lia | reflexivity]. }
    assert (J : forall k, (k < n)%nat -> In (ent al k) (tab n (ent al))).
    { intros k Hk. unfold tab. apply in_map, in_seq. lia. }
    assert (Q : fold_left fadd (tab n (ent al)) (S754_zero false) = norm).
    { refine (eq_trans (fold_nsum fexp fln _) _). rewrite En. refine (eq_trans (f_equal (fun q => nsum (A := A) q _) L) _). apply nsum_ext. intros i Hi. unfold ent at 1. unfold tab. rewrite nth_indep with (d' := ent al 0) by (rewrite map_length, seq_length; exact Hi).
      rewrite map_nth. now rewrite seq_nth. }
    cbv zeta in T. rewrite Q, L in T. destruct T as (Nn & Lo & Hi & Up & (y & Iy & By)).
    - intros E. rewrite E in L. cbn in L. lia.
    - exact Zn.
    - intros y Iy. destruct (I y Iy) as (k & Hk & ->). eapply num_in_weaken; [apply F, Hk | lra | apply bpow_le; lia].
    - exists (ent al k0). split; [now apply J | exact B0].
    - destruct Nn as (V & N & P). split; [intros k Hk; split; [now apply F | apply Up, J, Hk] |]. split; [exact V |]. split; [exact N |]. split; [exact Lo |].
      destruct (I y Iy) as (k & Hk & ->). exists k. split; [exact Hk | exact By].
  Qed.

  (** The likelihood of the frame, back from the scaling. *)
  Lemma inst_in ct : scaling ct -> num_in (bpow radix2 (-790)) (bpow radix2 790) (fdiv (n1 (A := A)) ct).
  Proof.
    intros (V & N & B). destruct (FA_n1 fexp fln) as (V1 & N1 & E1). assert (P0 : 0 < fval ct) by (eapply Rlt_le_trans; [apply bpow_gt_0 | apply B]).
    assert (R : bpow radix2 (-790) <= / fval ct <= bpow radix2 790).
    { apply (inv_bpow _ (-790) 790). exact B. }
    assert (D := f_div_num (n1 (A := A)) ct V1 V N1 ltac:(lra)). rewrite E1 in D. unfold Rdiv in D. rewrite Rmult_1_l in D.
    assert (RR : bpow radix2 (-790) <= rnd (/ fval ct) <= bpow radix2 790) by (split; [rewrite <- (rnd_bpow (-790)) by lia | rewrite <- (rnd_bpow 790) by lia]; apply rnd_le; lra).
    destruct D as (D1 & D2). { rewrite Rabs_pos_eq; [| apply Rle_trans with (2 := proj1 RR); apply bp0]. apply Rle_lt_trans with (1 := proj2 RR). apply bpow_lt. lia. }
    split; [apply f_div_valid; assumption |]. split; [exact D1 |]. now rewrite D2.
  Qed.

  (** Writing [n] terms in order while adding them up. *)
  Lemma write_sum n (f : nat -> res f64) (al al' : list f64) (norm : f64) :
    iterM n (fun j s => let* v := f j in let* al := wr (fst s) j v in Ok (al, fadd (snd s) v)) (al, n0 (A := A)) = Ok (al', norm) ->
    norm = nsum (A := A) n (ent al') /\ forall j, (j < n)%nat -> f j = Ok (ent al' j).
  Proof.
    intros H. assert (G : norm = nsum (A := A) n (ent al') /\ (forall j, (j < n)%nat -> f j = Ok (ent al' j))); [| exact G].
    refine (iterM_inv_ok (fun k s => snd s = nsum (A := A) k (ent (fst s)) /\ forall j, (j < k)%nat -> f j = Ok (ent (fst s) j)) n _ (al, n0 (A := A)) (al', norm) _ _ H).
    - split; [reflexivity | lia].
    - intros k (a1, s1) s2 Hk (I1 & I2) E. cbn [fst snd] in *. apply bind_ok_inv in E. destruct E as (v & Ev & E). apply bind_ok_inv in E. destruct E as (a2 & Ea & E). injection E as <-. cbn [fst snd].
      destruct (wr_nth _ _ _ _ (S754_zero false) Ea) as (_ & W1 & W2). split.
      + assert (Q : nsum (A := A) k (ent a2) = nsum (A := A) k (ent a1)) by (apply nsum_ext; intros i Hi; apply W2; lia).
        rewrite I1, <- Q. assert (T : ent a2 k = v) by exact W1. rewrite <- T. reflexivity.
      + intros j Hj. destruct (Nat.eq_dec j k) as [-> | D]; [rewrite Ev; f_equal; symmetry; exact W1 |]. rewrite I2 by lia. f_equal. symmetry. apply W2. exact D.
  Qed.

  Lemma bpow0 : num_in 0 1 (n1 (A := A)). Proof. destruct (FA_n1 fexp fln) as (V & N & E). split; [exact V |]. split; [exact N |]. rewrite E. lra. Qed.
  Lemma mul01 a p : num_in 0 1 a -> num_in 0 1 p -> num_in 0 1 (fmul a p) /\ (bpow radix2 (-33) <= fval a -> bpow radix2 (-100) <= fval p -> bpow radix2 (-133) <= fval (fmul a p)).
  Proof.
    intros Ia Ip. destruct (mul_in a p 0 0 Ia Ip ltac:(lia)) as (I & E). split; [exact I |]. intros La Lp. rewrite E. change (-133)%Z with (-33 + -100)%Z. rewrite <- (rnd_bpow (-33 + -100)) by lia. apply rnd_le. rewrite bpow_plus.
    apply Rmult_le_compat; auto; apply bp0.
  Qed.
  Lemma term_in v o i : num_in 0 (bpow radix2 33) v -> num_in (bpow radix2 (-638)) (bpow radix2 570) o -> (-140 <= i)%Z ->
    num_in 0 (bpow radix2 700) (fmul v o) /\ (bpow radix2 i <= fval v -> bpow radix2 (-780) <= fval (fmul v o)).
  Proof.
    intros Iv Io Hi. assert (Io' : num_in 0 (bpow radix2 570) o) by (eapply num_in_weaken; [exact Io | apply bp0 | lra]).
    destruct (mul_in v o 33 570 Iv Io' ltac:(lia)) as (I & E). split; [eapply num_in_weaken; [exact I | lra | apply bpow_le; lia] |]. intros L. rewrite E.
    apply Rle_trans with (bpow radix2 (-140 + -638)); [apply bpow_le; lia |]. rewrite <- (rnd_bpow (-140 + -638)) by lia. apply rnd_le. rewrite bpow_plus.
    destruct Io as (_ & _ & Bo). apply Rmult_le_compat; [apply bp0 | apply bp0 | | apply Bo]. apply Rle_trans with (bpow radix2 i); [now apply bpow_le | exact L].
  Qed.

  (** Forward variables before their scaling, with their sum. *)
  Definition raw (N : nat) (al1 : list f64) (norm : f64) : Prop :=
    (forall k, (k < N)%nat -> num_in 0 (bpow radix2 700) (ent al1 k) /\ fval (ent al1 k) <= fval norm) /\ is_f64 norm /\ is_num norm = true /\ bpow radix2 (-780) <= fval norm /\
    (exists k, (k < N)%nat /\ fval norm <= bpow radix2 33 * fval (ent al1 k)).
  Lemma init_raw N mode (prior tr : list f64) (obs : nat -> res f64) (alpha al : list f64) ct : (1 <= N)%nat -> (Z.of_nat N < 2 ^ 32)%Z -> transitions_f64 mode N prior tr ->
    (forall k v, obs k = Ok v -> num_in (bpow radix2 (-638)) (bpow radix2 570) v) -> forward_init (A := A) N mode prior obs alpha = Ok (al, ct) ->
    exists al1 norm, raw N al1 norm /\ (norm = nsum (A := A) N (ent al1) \/ (fval (ent al1 0) = fval norm /\ forall k, (0 < k < N)%nat -> ent al1 k = S754_zero false)) /\ scale_vec (A := A) N norm al1 = Ok al /\ ct = fdiv (n1 (A := A)) norm.
  Proof.
    intros HN ZN TR Ob H. unfold forward_init in H. apply bind_ok_inv in H. destruct H as ((al1, norm) & E & H).
    assert (G : raw N al1 norm /\ (norm = nsum (A := A) N (ent al1) \/ (fval (ent al1 0) = fval norm /\ forall k, (0 < k < N)%nat -> ent al1 k = S754_zero false))).
    { destruct mode.
      - destruct TR as (P1 & (k0 & Hk0 & P2) & _).
        assert (W := write_sum N (fun i => let* p := rd prior i in let* o := obs i in Ok (fmul p o)) alpha al1 norm).
        destruct W as (W1 & W2). { refine (eq_trans _ E). apply iterM_ext. intros i s Hi. change (num A) with f64 in *. destruct (rd prior i); [| reflexivity..]. cbn. destruct (obs i); reflexivity. }
        assert (T : forall k, (k < N)%nat -> num_in 0 (bpow radix2 700) (ent al1 k) /\ (bpow radix2 (-100) <= fval (ent prior k) -> bpow radix2 (-780) <= fval (ent al1 k))).
        { intros k Hk. specialize (W2 k Hk). cbv beta in W2. apply bind_ok_inv in W2. destruct W2 as (p & Ep & W2). apply bind_ok_inv in W2. destruct W2 as (o & Eo & W2). injection W2 as <-.
          apply ent_rd in Ep. subst p. apply term_in; [eapply num_in_weaken; [now apply P1 | lra | change 1 with (bpow radix2 0); apply bpow_le; lia] | eapply Ob; eauto | lia]. }
        split; [| left; exact W1]. apply sum_terms; auto. { intros k Hk. now apply T. } exists k0. split; [exact Hk0 | now apply T].
      - apply bind_ok_inv in E. destruct E as (o & Eo & E). apply bind_ok_inv in E. destruct E as (a1 & Ea & E). remember (nadd (a := A) n0 o) as nn eqn:En. injection E as <- <-. assert (En' : nn = fadd (S754_zero false) o) by exact En. clear En.
        assert (Io := Ob _ _ Eo). destruct Io as (Vo & No & Bo). destruct (wr_nth _ _ _ _ (S754_zero false) Ea) as (_ & W1 & W2).
        assert (Po : 0 < fval o) by (eapply Rlt_le_trans; [apply bpow_gt_0 | apply Bo]).
        destruct (f_add_num (S754_zero false) o eq_refl Vo eq_refl No) as [(S1 & S2) | (s & S1 & S2 & S3)].
        2: { exfalso. change (fval (S754_zero false)) with 0 in S2. rewrite Rplus_0_l, (rnd_fval o Vo) in S2. rewrite Rabs_pos_eq in S2 by lra. assert (Q : bpow radix2 570 < bpow radix2 1024) by (apply bpow_lt; lia). lra. }
        change (fval (S754_zero false)) with 0 in S2. rewrite Rplus_0_l, (rnd_fval o Vo) in S2.
        rewrite <- En' in S1, S2. split; [| right; split; [assert (Q : ent a1 0 = o) by exact W1; rewrite Q; symmetry; exact S2 | intros k Hk; unfold ent; refine (eq_trans (W2 k ltac:(lia)) _); apply nth_repeat]]. split; [| split; [rewrite En'; apply f_add_valid; [reflexivity | exact Vo] |]; split; [exact S1 |]; split].
        + intros k Hk. destruct (Nat.eq_dec k 0) as [-> | D].
          * assert (Q : ent a1 0 = o) by exact W1. rewrite Q. split; [eapply num_in_weaken; [split; [exact Vo | split; [exact No | exact Bo]] | apply bp0 | apply bpow_le; lia] |]. apply Req_le. symmetry. exact S2.
          * assert (Q : ent a1 k = S754_zero false). { unfold ent. refine (eq_trans (W2 k D) _). apply nth_repeat. }
            rewrite Q. split; [split; [reflexivity |]; split; [reflexivity |]; split; [apply Rle_refl | apply bp0] |]. change (0 <= fval nn). lra.
        + apply Rle_trans with (bpow radix2 (-638)); [apply bpow_le; lia |]. apply Rle_trans with (fval o); [apply Bo |]. apply Req_le. symmetry. exact S2.
        + exists 0%nat. split; [lia |]. assert (Q : ent a1 0 = o) by exact W1. rewrite Q. rewrite S2.
          assert (Q1 : 1 <= bpow radix2 33) by (change 1 with (bpow radix2 0); apply bpow_le; lia). nra. }
    destruct G as (G & Gs). assert (G0 := G). destruct G0 as (G1 & G2 & G3 & G4 & G5). assert (P0 : 0 < fval norm) by (eapply Rlt_le_trans; [apply bpow_gt_0 | exact G4]).
    assert (Q : (n0 (A := A) <? norm)%num = true). { change (SFltb (S754_zero false) norm = true). rewrite ltb_num; [| reflexivity | exact G2 | reflexivity | exact G3]. apply Rlt_bool_true. exact P0. }
    rewrite Q in H. apply bind_ok_inv in H. destruct H as (al2 & Es & H). injection H as <- <-. exists al1, norm. auto.
  Qed.
  Lemma init_flat N mode (prior tr : list f64) (obs : nat -> res f64) (alpha al : list f64) ct : (1 <= N)%nat -> (Z.of_nat N < 2 ^ 32)%Z -> transitions_f64 mode N prior tr ->
    (forall k v, obs k = Ok v -> num_in (bpow radix2 (-638)) (bpow radix2 570) v) -> forward_init (A := A) N mode prior obs alpha = Ok (al, ct) -> alphas N al /\ scaling ct.
  Proof.
    intros HN ZN TR Ob H. destruct (init_raw N mode prior tr obs alpha al ct HN ZN TR Ob H) as (al1 & norm & (G1 & G2 & G3 & G4 & G5) & _ & Es & ->).
    destruct (scale_by N al1 al norm G1 G2 G3 G4 G5 Es) as (S1 & _ & S2). split; [exact S1 | exact S2].
  Qed.

  Lemma forward_in_flat N mode (prior tr prev : list f64) : (1 <= N)%nat -> (Z.of_nat N < 2 ^ 32)%Z -> transitions_f64 mode N prior tr -> alphas N prev ->
    (forall j v, (j < N)%nat -> forward_in (A := A) N mode tr prev j = Ok v -> num_in 0 (bpow radix2 33) v) /\
    exists j, (j < N)%nat /\ forall v, forward_in (A := A) N mode tr prev j = Ok v -> bpow radix2 (-133) <= fval v.
  Proof.
    intros HN ZN TR (P1 & k0 & Hk0 & P2). destruct mode.
    - destruct TR as (_ & _ & T1 & T2).
      assert (F : forall j i v, (j < N)%nat -> (i < N)%nat -> (let* a := rd prev i in let* p := rd tr (i * N + j) in Ok (fmul a p)) = Ok v -> num_in 0 (bpow radix2 0) v /\ v = fmul (ent prev i) (ent tr (i * N + j))).
      { intros j i v Hj Hi E. apply bind_ok_inv in E. destruct E as (a & Ea & E). apply bind_ok_inv in E. destruct E as (p & Ep & E). injection E as <-. apply ent_rd in Ea, Ep. subst a p. split; [| reflexivity]. exact (proj1 (mul01 _ _ (P1 i Hi) (T1 i j Hi Hj))). }
      assert (Z0 : num_in 0 (bpow radix2 0) (n0 (A := A))). { split; [reflexivity |]. split; [reflexivity |]. split; [apply Rle_refl | apply bp0]. }
      split.
      + intros j v Hj E. unfold forward_in in E. destruct (acc_in fexp fln 0 N _ (n0 (A := A)) v ZN ltac:(lia) Z0 (fun i w Hi Ei => proj1 (F j i w Hj Hi Ei)) E) as (I & _). exact I.
      + destruct (T2 k0 Hk0) as (j & Hj & B). exists j. split; [exact Hj |]. intros v E. unfold forward_in in E.
        destruct (acc_in fexp fln 0 N _ (n0 (A := A)) v ZN ltac:(lia) Z0 (fun i w Hi Ei => proj1 (F j i w Hj Hi Ei)) E) as (_ & _ & M).
        destruct (accM_reads fexp fln N _ _ _ k0 E Hk0) as (w & Ew). apply Rle_trans with (fval w); [| exact (M k0 w Hk0 Ew)]. destruct (F j k0 w Hj Hk0 Ew) as (_ & ->). exact (proj2 (mul01 _ _ (P1 k0 Hk0) (T1 k0 j Hk0 Hj)) P2 B).
    - destruct TR as (T1 & T2).
      assert (G : forall a p b q, num_in 0 1 a -> num_in 0 1 p -> num_in 0 1 b -> num_in 0 1 q -> let v := fadd (fadd (S754_zero false) (fmul a p)) (fmul b q) in
        num_in 0 (bpow radix2 33) v /\ (bpow radix2 (-33) <= fval a -> bpow radix2 (-100) <= fval p -> bpow radix2 (-133) <= fval v) /\ (bpow radix2 (-33) <= fval b -> bpow radix2 (-100) <= fval q -> bpow radix2 (-133) <= fval v)).
      { intros a p b q Ia Ip Ib Iq v. destruct (mul01 a p Ia Ip) as (M1 & L1). destruct (mul01 b q Ib Iq) as (M2 & L2).
        assert (Z0 : num_in 0 (bpow radix2 0) (S754_zero false)). { split; [reflexivity |]. split; [reflexivity |]. split; [apply Rle_refl | apply bp0]. }
        destruct (add_in (S754_zero false) (fmul a p) 0 Z0 M1 ltac:(lia)) as (S1 & _ & S2). assert (M2' : num_in 0 (bpow radix2 (0 + 1)) (fmul b q)) by (eapply num_in_weaken; [exact M2 | lra | cbn; lra]).
        destruct (add_in (fadd (S754_zero false) (fmul a p)) (fmul b q) (0 + 1) S1 M2' ltac:(lia)) as (S3 & S4 & S5). fold v in S3, S4, S5.
        split; [eapply num_in_weaken; [exact S3 | lra | apply bpow_le; lia] |]. split; intros X Y; [specialize (L1 X Y) | specialize (L2 X Y)]; lra. }
      assert (K : forall j v, forward_in (A := A) N LeftRight tr prev j = Ok v -> exists i, v = fadd (fadd (S754_zero false) (fmul (ent prev j) (ent tr (j * 2)))) (fmul (ent prev i) (ent tr (i * 2 + 1))) /\
        i = (if (0 <? j)%nat then j - 1 else N - 1)%nat).
      { intros j v E. unfold forward_in in E. apply bind_ok_inv in E. destruct E as (a & Ea & E). apply bind_ok_inv in E. destruct E as (p & Ep & E). apply ent_rd in Ea, Ep. subst a p.
        destruct (0 <? j)%nat; apply bind_ok_inv in E; destruct E as (b & Eb & E); apply bind_ok_inv in E; destruct E as (q & Eq & E); injection E as <-; apply ent_rd in Eb, Eq; subst b q; eexists; (split; [| reflexivity]); [reflexivity |].
        replace (N * 2 - 1)%nat with ((N - 1) * 2 + 1)%nat by lia. reflexivity. }
      split.
      + intros j v Hj E. destruct (K j v E) as (i & -> & Ei). apply G; [apply P1 | apply T1 | apply P1 | apply T1]; destruct (0 <? j)%nat; lia.
      + destruct (T2 k0 Hk0) as [B | B].
        * exists k0. split; [exact Hk0 |]. intros v E. destruct (K k0 v E) as (i & -> & Ei). assert (Hi : (i < N)%nat) by (destruct (0 <? k0)%nat; lia).
          assert (X1 : num_in 0 1 (ent tr (k0 * 2))) by (apply T1; lia). assert (X2 : num_in 0 1 (ent tr (i * 2 + 1))) by (apply T1; lia).
          destruct (G _ _ _ _ (P1 k0 Hk0) X1 (P1 i Hi) X2) as (_ & G1 & _). exact (G1 P2 B).
        * assert (X : exists j, (j < N)%nat /\ (if (0 <? j)%nat then j - 1 else N - 1)%nat = k0).
          { destruct (Nat.eq_dec k0 (N - 1)) as [-> | D]; [exists 0%nat; split; [lia | reflexivity] |]. exists (k0 + 1)%nat. split; [lia |]. replace (0 <? k0 + 1)%nat with true by (symmetry; apply Nat.ltb_lt; lia). lia. }
          destruct X as (j & Hj & Ej). exists j. split; [exact Hj |]. intros v E. destruct (K j v E) as (i & -> & Ei). rewrite Ej in Ei. subst i.
          assert (X1 : num_in 0 1 (ent tr (j * 2))) by (apply T1; lia). assert (X2 : num_in 0 1 (ent tr (k0 * 2 + 1))) by (apply T1; lia).
          destruct (G _ _ _ _ (P1 j Hj) X1 (P1 k0 Hk0) X2) as (_ & _ & G1). exact (G1 P2 B).
  Qed.

  Lemma tiny_val : is_f64 (nofQ (a := A) (1 # (10 ^ 300))) /\ is_num (nofQ (a := A) (1 # (10 ^ 300))) = true /\ fval (nofQ (a := A) (1 # (10 ^ 300))) <= bpow radix2 (-900).
  Proof.
    assert (E : exists p, nofQ (a := A) (1 # (10 ^ 300)) = S754_finite false p (-1049) /\ (p < 2 ^ 53)%positive) by (eexists; split; [vm_compute; reflexivity | vm_compute; reflexivity]).
    destruct E as (p & E & B). split; [vm_compute; reflexivity |]. rewrite E. split; [reflexivity |]. unfold fval, SF2R, F2R. cbn [Fnum Fexp cond_Zopp].
    apply Rle_trans with (bpow radix2 53 * bpow radix2 (-1049)); [apply Rmult_le_compat_r; [apply bp0 |] | rewrite <- bpow_plus; apply bpow_le; lia].
    rewrite <- (IZR_Zpower radix2 53) by lia. apply IZR_le. change (radix2 ^ 53)%Z with (Z.pos (2 ^ 53)). lia.
  Qed.

  Lemma update_raw N mode (prior tr : list f64) (obs : nat -> res f64) (alpha al : list f64) ct : (1 <= N)%nat -> (Z.of_nat N < 2 ^ 32)%Z -> transitions_f64 mode N prior tr -> alphas N alpha ->
    (forall k v, obs k = Ok v -> num_in (bpow radix2 (-638)) (bpow radix2 570) v) -> forward_update (A := A) N mode tr obs alpha = Ok (al, ct) ->
    exists al1 norm, raw N al1 norm /\ norm = nsum (A := A) N (ent al1) /\ scale_vec (A := A) N norm al1 = Ok al /\ ct = fdiv (n1 (A := A)) norm.
  Proof.
    intros HN ZN TR AL Ob H. unfold forward_update in H. apply bind_ok_inv in H. destruct H as ((al1, norm) & E & H).
    destruct (forward_in_flat N mode prior tr alpha HN ZN TR AL) as (FI & (j0 & Hj0 & FL)).
    assert (W := write_sum N (fun j => let* v := forward_in (A := A) N mode tr alpha j in let* o := obs j in Ok (fmul v o)) alpha al1 norm).
    destruct W as (W1 & W2). { refine (eq_trans _ E). apply iterM_ext. intros i s Hi. change (num A) with f64 in *. destruct (forward_in (A := A) N mode tr alpha i); [| reflexivity..]. cbn. destruct (obs i); reflexivity. }
    assert (T : forall k, (k < N)%nat -> num_in 0 (bpow radix2 700) (ent al1 k) /\ (k = j0 -> bpow radix2 (-780) <= fval (ent al1 k))).
    { intros k Hk. specialize (W2 k Hk). cbv beta in W2. apply bind_ok_inv in W2. destruct W2 as (p & Ep & W2). apply bind_ok_inv in W2. destruct W2 as (o & Eo & W2). injection W2 as <-.
      destruct (term_in p o (-133)) as (T1 & T2); [eapply FI; eauto | eapply Ob; eauto | lia |]. split; [exact T1 |]. intros ->. apply T2. now apply FL. }
    assert (G := sum_terms N al1 norm HN ZN (fun k Hk => proj1 (T k Hk)) (ex_intro _ j0 (conj Hj0 (proj2 (T j0 Hj0) eq_refl))) W1).
    assert (G0 := G). destruct G0 as (G1 & G2 & G3 & G4 & G5). destruct tiny_val as (V3 & N3 & B3).
    assert (Q : (nofQ (1 # (10 ^ 300)) <? norm)%num = true).
    { change (SFltb (nofQ (a := A) (1 # (10 ^ 300))) norm = true). rewrite ltb_num; auto. apply Rlt_bool_true. apply Rle_lt_trans with (1 := B3). apply Rlt_le_trans with (2 := G4). apply bpow_lt. lia. }
    rewrite Q in H. apply bind_ok_inv in H. destruct H as (al2 & Es & H). injection H as <- <-. exists al1, norm. auto.
  Qed.
  Lemma update_flat N mode (prior tr : list f64) (obs : nat -> res f64) (alpha al : list f64) ct : (1 <= N)%nat -> (Z.of_nat N < 2 ^ 32)%Z -> transitions_f64 mode N prior tr -> alphas N alpha ->
    (forall k v, obs k = Ok v -> num_in (bpow radix2 (-638)) (bpow radix2 570) v) -> forward_update (A := A) N mode tr obs alpha = Ok (al, ct) -> alphas N al /\ scaling ct.
  Proof.
    intros HN ZN TR AL Ob H. destruct (update_raw N mode prior tr obs alpha al ct HN ZN TR AL Ob H) as (al1 & norm & (G1 & G2 & G3 & G4 & G5) & _ & Es & ->).
    destruct (scale_by N al1 al norm G1 G2 G3 G4 G5 Es) as (S1 & _ & S2). split; [exact S1 | exact S2].
  Qed.
End Forward.
