(** Recognition with Gaussian mixtures in binary64. *)
From Coq Require Import String ZArith QArith Reals Lra Lia Bool List Arith.
From Coq Require Import Floats.SpecFloat.
From Flocq Require Import Core.Core IEEE754.BinarySingleNaN.
From Verif Require Import Base BaseFacts Arith Spec_Float Spec_Float2 Proofs_Float1 Proofs_Float2 Proofs_Float3 Model_Map Model_Ring Model_Gaussian Model_Config Model_KMeans Model_GMM.
Import ListNotations.
Local Open Scope R_scope.

(** ** Loops that fill a vector *)
Lemma rd_nth {X} (v : list X) i x d : rd v i = Ok x -> nth i v d = x /\ (i < length v)%nat.
Proof.
  unfold rd. destruct (nth_error v i) eqn:E; [| discriminate]. intros Q. injection Q as <-.
  split; [now apply nth_error_nth | apply nth_error_Some; congruence].
Qed.
Lemma wr_nth {X} (v w : list X) i x d : wr v i x = Ok w -> length w = length v /\ nth i w d = x /\ forall j, j <> i -> nth j w d = nth j v d.
Proof.
  unfold wr. destruct (i <? length v)%nat eqn:E; [| discriminate]. apply Nat.ltb_lt in E. intros Q. injection Q as <-. revert i E.
  induction v as [| y v IH]; intros i E; [cbn in E; lia |]. destruct i as [| i]; cbn [upd].
  - split; [reflexivity |]. split; [reflexivity |]. intros [| j] H; [lia | reflexivity].
  - cbn in E. destruct (IH i ltac:(lia)) as (L & N & O). cbn. split; [now f_equal |]. split; [exact N |]. intros [| j] H; [reflexivity |]. apply O. lia.
Qed.
Lemma fill_spec {X Y} n (f : nat -> res Y) (h : Y -> X) (v w : list X) d :
  iterM n (fun i v => let* x := f i in wr v i (h x)) v = Ok w -> length w = length v /\ forall i, (i < n)%nat -> exists x, f i = Ok x /\ nth i w d = h x.
Proof.
  intros H. apply (iterM_inv_ok (fun k w => length w = length v /\ forall i, (i < k)%nat -> exists x, f i = Ok x /\ nth i w d = h x)) in H; [exact H | |].
  - split; [reflexivity | intros; lia].
  - intros k a b Hk (L & I) E. apply bind_ok_inv in E. destruct E as (x & E & W). destruct (wr_nth _ _ _ _ d W) as (L' & N & O).
    split; [congruence |]. intros i Hi. destruct (Nat.eq_dec i k) as [-> | D]; [exists x; auto |]. rewrite O by exact D. apply I. lia.
Qed.
Lemma each_spec {X} n (h : X -> X) (v w : list X) d :
  iterM n (fun i v => let* x := rd v i in wr v i (h x)) v = Ok w -> length w = length v /\ forall i, (i < n)%nat -> nth i w d = h (nth i v d).
Proof.
  intros H. apply (iterM_inv_ok (fun k w => length w = length v /\ forall i, nth i w d = if (i <? k)%nat then h (nth i v d) else nth i v d)) in H.
  - destruct H as (L & H). split; [exact L |]. intros i Hi. rewrite H. apply Nat.ltb_lt in Hi. now rewrite Hi.
  - split; reflexivity.
  - intros k a b Hk (L & I) E. apply bind_ok_inv in E. destruct E as (x & E & W). destruct (wr_nth _ _ _ _ d W) as (L' & N & O). destruct (rd_nth _ _ _ d E) as (R & _).
    split; [congruence |]. intros i. destruct (Nat.eq_dec i k) as [-> | D].
    + rewrite N, <- R, I, Nat.ltb_irrefl. replace (k <? S k)%nat with true by (symmetry; apply Nat.ltb_lt; lia). reflexivity.
    + rewrite O by exact D. rewrite I. destruct (i <? k)%nat eqn:F; destruct (i <? S k)%nat eqn:G; try reflexivity; rewrite ?Nat.ltb_lt, ?Nat.ltb_ge in *; lia.
Qed.

Section Rec.
  Variables fexp fln : f64 -> f64.
  Hypothesis He : on_f64 fexp.
  Local Notation A := (FA fexp fln).

  Lemma nsum_ext n (f g : nat -> f64) : (forall i, (i < n)%nat -> f i = g i) -> nsum (A := A) n f = nsum (A := A) n g.
  Proof. induction n; intros H; [reflexivity |]. cbn [nsum]. rewrite IHn by (intros; apply H; lia). rewrite H by lia. reflexivity. Qed.

  (** A weighted likelihood. *)
  Definition scored (w v : f64) : Prop := exists p, num_nonneg p /\ bpow radix2 (-598) <= fval p /\ v = SFmul fprec femax w p.

  Lemma obs_scored g x c v : class_f64 g -> frame_f64 x -> (if gc_bim g then gm_obs_input (A := A) g x c else gm_obs (A := A) g x c) = Ok v ->
    exists w, nth_error (gc_coef g) c = Some w /\ scored w v.
  Proof.
    intros (W & K) Fx H.
    assert (G : forall w k p, rd (gc_coef g) c = Ok w -> rd (gc_comp g) c = Ok k -> (g_likelihood k x = Ok p \/ g_likelihood_input k x = Ok p) -> v = SFmul fprec femax w p ->
      exists w, nth_error (gc_coef g) c = Some w /\ scored w v).
    { intros w k p Ew Ek Ep ->. assert (Gk : gauss_f64 k). { unfold rd in Ek. destruct (nth_error (gc_comp g) c) eqn:E; [| discriminate]. injection Ek as <-. rewrite Forall_forall in K. eapply K, nth_error_In, E. }
      exists w. split; [unfold rd in Ew; destruct (nth_error (gc_coef g) c); congruence |]. exists p.
      destruct Ep as [Ep | Ep]; [destruct (lik_num fexp fln He k x p Gk Fx Ep) | destruct (lik_input_num fexp fln He k x p Gk Fx Ep)]; auto. }
    destruct (gc_bim g) eqn:B.
    - unfold gm_obs_input in H. rewrite B in H. cbn [negb] in H.
      apply bind_ok_inv in H. destruct H as (w & Ew & H). apply bind_ok_inv in H. destruct H as (k & Ek & H). apply bind_ok_inv in H. destruct H as (p & Ep & H).
      injection H as H. apply (G w k p); auto.
    - unfold gm_obs in H. destruct (gc_n g <=? c)%nat; [discriminate |].
      apply bind_ok_inv in H. destruct H as (w & Ew & H). apply bind_ok_inv in H. destruct H as (k & Ek & H). apply bind_ok_inv in H. destruct H as (p & Ep & H).
      injection H as H. apply (G w k p); auto.
  Qed.

  Lemma scored_nn w v : num_in 0 1 w -> scored w v -> num_nonneg v.
  Proof. intros W (p & P & L & ->). now apply mul_weight. Qed.
  Lemma scored_pos w v : num_in 0 1 w -> bpow radix2 (-200) <= fval w -> scored w v -> bpow radix2 (-798) <= fval v.
  Proof.
    intros W Lw (p & P & L & ->). destruct (mul_weight w p W P) as (_ & -> & _). rewrite <- rnd_bpow by lia. apply rnd_le.
    change (-798)%Z with (-200 + -598)%Z. rewrite bpow_plus. apply Rmult_le_compat; auto; apply bpow_ge_0.
  Qed.

  (** The likelihood of one class, and the responsibilities of its components. *)
  Lemma class_lik g x g' : class_f64 g -> frame_f64 x -> gm_likelihood (A := A) x [] g = Ok g' ->
    positive (gc_inst g') /\ (is_num (gc_inst g') = true -> bpow radix2 (-798) <= fval (gc_inst g') /\ forall c, (c < gc_n g)%nat -> num_in 0 1 (nth c (gc_beta g') (S754_zero false))).
  Proof.
    intros C Fx H. unfold gm_likelihood in H. apply bind_ok_inv in H. destruct H as (b & Eb & H). cbv zeta in H. set (lik := nsum (gc_n g) _) in H.
    apply bind_ok_inv in H. destruct H as (b' & Eb' & H). apply bind_ok_inv in H. destruct H as ((buf & l) & Es & H). injection H as <-. cbn [gc_inst gc_beta gc_set_buf gc_set_beta].
    destruct (fill_spec (gc_n g) (fun c => if gc_bim g then gm_obs_input g x c else gm_obs g x c) (fun p => p) (gc_beta g) b (S754_zero false) Eb) as (Lb & Nb).
    destruct (each_spec (gc_n g) (fun v => (v / lik)%num) b b' (S754_zero false) Eb') as (Lb' & Nb').
    pose proof C as ((Lw & Fw & (w0 & Iw & Pw)) & Fk). rewrite Forall_forall in Fw.
    assert (S : forall c, (c < gc_n g)%nat -> exists w, nth_error (gc_coef g) c = Some w /\ num_in 0 1 w /\ scored w (nth c b (S754_zero false))).
    { intros c Hc. destruct (Nb c Hc) as (v & Ev & ->). destruct (obs_scored g x c v C Fx Ev) as (w & Ew & Sw). exists w. split; [exact Ew |]. split; [apply Fw; eapply nth_error_In, Ew | exact Sw]. }
    destruct (nsum_nn fexp fln (gc_n g) (fun c => nth c b (S754_zero false))) as (P & Q).
    { intros c Hc. destruct (S c Hc) as (w & _ & W & Sw). apply nonneg_nn. eapply scored_nn; eauto. }
    change (nsum (gc_n g) (fun c => nth c b (S754_zero false))) with lik in P, Q.
    assert (M : is_num lik = true -> bpow radix2 (-798) <= fval lik).
    { intros N. destruct (Q N) as (Q1 & _). apply In_nth_error in Iw. destruct Iw as (c & Ec).
      assert (Hc : (c < gc_n g)%nat) by (rewrite <- Lw; apply nth_error_Some; congruence).
      destruct (S c Hc) as (w & Ew & W & Sw). assert (Some w = Some w0) by (rewrite <- Ew; exact Ec). assert (w = w0) by congruence. subst w. eapply Rle_trans; [eapply scored_pos; eauto | apply Q1, Hc]. }
    split.
    - destruct P as (V & [-> | (N & _)]); [split; [reflexivity | now left] |]. split; [exact V |]. right. split; [exact N |]. eapply Rlt_le_trans; [apply bpow_gt_0 | apply M, N].
    - intros N. split; [apply M, N |]. intros c Hc. rewrite (Nb' c Hc). destruct (Q N) as (Q1 & _). destruct (Q1 c Hc) as (T1 & T2).
      apply div_part; [exact T1 | apply nn_num; [exact P | exact N] | eapply Rlt_le_trans; [apply bpow_gt_0 | apply M, N] | exact T2].
  Qed.

  (** The class-level results. *)
  Lemma results_parts labels insts logs r r' : update_results (A := A) labels insts logs r = Ok r' ->
    let n := length labels in let z := S754_zero false in
    (forall i, (i < n)%nat -> nth i (rs_inst r') z = nth i insts z /\ nth i (rs_log r') z = nth i logs z /\ nth i (rs_sm r') z = fexp (nth i logs z) /\
       nth i (rs_instn r') z = SFdiv fprec femax (nth i (rs_inst r') z) (nsum (A := A) n (fun i => nth i (rs_inst r') z)) /\
       nth i (rs_smn r') z = SFdiv fprec femax (nth i (rs_sm r') z) (nsum (A := A) n (fun i => nth i (rs_sm r') z))).
  Proof.
    intros H. cbv zeta. unfold update_results in H. cbv zeta in H.
    apply bind_ok_inv in H. destruct H as (v1 & E1 & H). apply bind_ok_inv in H. destruct H as (v2 & E2 & H). apply bind_ok_inv in H. destruct H as (v3 & E3 & H).
    apply bind_ok_inv in H. destruct H as (v4 & E4 & H). apply bind_ok_inv in H. destruct H as (v5 & E5 & H). injection H as <-. cbn [rs_inst rs_log rs_sm rs_instn rs_smn].
    set (z := S754_zero false). set (n := length labels) in *.
    apply (fill_spec n (rd insts) (fun x => x) _ _ z) in E1. apply (fill_spec n (rd logs) (fun x => x) _ _ z) in E2. apply (fill_spec n (rd logs) nexp _ _ z) in E3.
    destruct E1 as (_ & E1), E2 as (_ & E2), E3 as (_ & E3).
    assert (G1 : forall i, (i < n)%nat -> nth i v1 z = nth i insts z) by (intros i Hi; destruct (E1 i Hi) as (x & R & ->); apply (rd_nth _ _ _ z) in R; symmetry; apply R).
    assert (G3 : forall i, (i < n)%nat -> nth i v3 z = fexp (nth i logs z)) by (intros i Hi; destruct (E3 i Hi) as (x & R & ->); apply (rd_nth _ _ _ z) in R; destruct R as (R & _); subst x; reflexivity).
    assert (X1 : nsum (A := A) n (fun i => nth i v1 z) = nsum (A := A) n (fun i => nth i insts z)) by now apply nsum_ext.
    assert (X3 : nsum (A := A) n (fun i => nth i v3 z) = nsum (A := A) n (fun i => fexp (nth i logs z))) by now apply nsum_ext.
    set (ni := nsum n (fun i => nth i insts n0)) in *. set (ns := nsum n (fun i => nexp (nth i logs n0))) in *.
    apply (fill_spec n (rd insts) (fun x => (x / ni)%num) _ _ z) in E4. apply (fill_spec n (rd logs) (fun x => (nexp x / ns)%num) _ _ z) in E5.
    destruct E4 as (_ & E4), E5 as (_ & E5).
    intros i Hi. split; [now apply G1 |]. split; [destruct (E2 i Hi) as (x & R & ->); apply (rd_nth _ _ _ z) in R; symmetry; apply R |]. split; [now apply G3 |].
    rewrite X1, X3, G1, G3 by exact Hi. split.
    - destruct (E4 i Hi) as (x & R & ->). apply (rd_nth _ _ _ z) in R. destruct R as (R & _); subst x. reflexivity.
    - destruct (E5 i Hi) as (x & R & ->). apply (rd_nth _ _ _ z) in R. destruct R as (R & _); subst x. reflexivity.
  Qed.

  Lemma parts_of n (l q : nat -> f64) : (forall i, (i < n)%nat -> nn (l i)) -> is_num (nsum (A := A) n l) = true -> 0 < fval (nsum (A := A) n l) ->
    (forall i, (i < n)%nat -> q i = SFdiv fprec femax (l i) (nsum (A := A) n l)) -> parts_f64 n l q.
  Proof.
    intros H N P E. destruct (parts fexp fln n l H N P) as (Z & Q). split; [exact Z |]. intros i Hi. rewrite (E i Hi). now apply Q.
  Qed.

  (** What filtering does to the classes and to the results. *)
  Lemma filter_inv (m m' : gmm A) x : gm_filter (A := A) x m = Ok m' ->
    exists r, update_results (A := A) (map fst (gm_models m')) (map (fun e => gc_inst (snd e)) (gm_models m')) (map (fun e => gc_log (snd e)) (gm_models m')) (gm_res m) = Ok r /\
      rs_inst (gm_res m') = rs_inst r /\ rs_instn (gm_res m') = rs_instn r /\ rs_sm (gm_res m') = rs_sm r /\ rs_smn (gm_res m') = rs_smn r /\ rs_log (gm_res m') = rs_log r /\
      rs_likeliest (gm_res m') = rs_likeliest r /\
      mapM (fun e => let* g := gm_filter1 x (snd e) in Ok (fst e, g)) (gm_models m) = Ok (gm_models m').
  Proof.
    intros H. unfold gm_filter in H. apply bind_ok_inv in H. destruct H as (ms & Em & H). apply bind_ok_inv in H. destruct H as (r & Er & H). cbv zeta in H. cbn [gm_bim gm_set] in H.
    destruct (negb (gm_bim m)); [injection H as <-; exists r; cbn [gm_models gm_res gm_set]; auto 10 |].
    apply bind_ok_inv in H. destruct H as (no & _ & H). destruct (gm_est _).
    - destruct (mget _ _ _); [| discriminate]. injection H as <-. exists r. cbn [gm_models gm_res gm_set rs_inst rs_instn rs_sm rs_smn rs_log rs_likeliest]. auto 10.
    - apply bind_ok_inv in H. destruct H as ((o & c) & _ & H). injection H as <-. exists r. cbn [gm_models gm_res gm_set rs_inst rs_instn rs_sm rs_smn rs_log rs_likeliest]. auto 10.
  Qed.

  Lemma filter1_inv x (g g' : gclass A) : gm_filter1 x g = Ok g' -> exists h, gm_likelihood (A := A) x [] g = Ok h /\ gc_inst g' = gc_inst h /\ gc_log g' = gc_log h /\ gc_beta g' = gc_beta h /\
    gc_coef g' = gc_coef h /\ gc_comp g' = gc_comp h /\ gc_par g' = gc_par h /\ gc_buf g' = gc_buf h.
  Proof.
    intros H. unfold gm_filter1 in H. apply bind_ok_inv in H. destruct H as (h & E & H). exists h. split; [exact E |]. destruct (gc_bim h).
    - unfold gm_regression in H. apply bind_ok_inv in H. destruct H as (no & _ & H). apply bind_ok_inv in H. destruct H as ((o & v) & _ & H). injection H as <-. cbn. auto 10.
    - injection H as <-. auto 10.
  Qed.
  Lemma likelihood_keeps x y (g g' : gclass A) : gm_likelihood (A := A) x y g = Ok g' -> gc_coef g' = gc_coef g /\ gc_comp g' = gc_comp g /\ gc_par g' = gc_par g.
  Proof.
    intros H. unfold gm_likelihood in H. apply bind_ok_inv in H. destruct H as (b & _ & H). cbv zeta in H.
    apply bind_ok_inv in H. destruct H as (b' & _ & H). apply bind_ok_inv in H. destruct H as ((buf & l) & _ & H). injection H as <-. auto.
  Qed.
End Rec.
