(** Regression with mixtures of doubles. *)
From Coq Require Import String ZArith QArith Reals Lra Lia Bool List Arith.
From Coq Require Import Floats.SpecFloat.
From Flocq Require Import Core.Core.
From Verif Require Import Base BaseFacts Arith Spec_Float Spec_Float2 Spec_Float3 Spec_Float6 Proofs_Float1 Proofs_Float2 Proofs_Float3 Proofs_Float4 Proofs_Float6 Proofs_Float7 Proofs_Float21 Proofs_Float22 Proofs_Float24 Proofs_Float26.
From Verif Require Import Model_Map Model_Ring Model_Phrase Model_Gaussian Model_Config Model_KMeans Model_GMM Model_Single Model_Single2 Model_Single3.
Import ListNotations.
Local Open Scope R_scope.

(** ** Loops *)
Lemma iterM_seq {S} n (f : nat -> S -> res S) : forall s s', iterM n f s = Ok s' -> exists st : nat -> S, st 0%nat = s /\ st n = s' /\ forall c, (c < n)%nat -> f c (st c) = Ok (st (Datatypes.S c)).
Proof.
  induction n as [| n IH]; intros s s' H; cbn [iterM] in H.
  - injection H as <-. exists (fun _ => s). split; [reflexivity |]. split; [reflexivity | intros; lia].
  - apply bind_ok_inv in H. destruct H as (t & E & H). destruct (IH s t E) as (st & E0 & En & Es). exists (fun c => if (c =? Datatypes.S n)%nat then s' else st c).
    split; [exact E0 |]. split; [now rewrite Nat.eqb_refl |]. intros c Hc. rewrite (proj2 (Nat.eqb_neq c (Datatypes.S n))) by lia.
    destruct (Nat.eqb_spec (Datatypes.S c) (Datatypes.S n)) as [D | D]; [assert (c = n) by lia; subst c; rewrite En; exact H | apply Es; lia].
Qed.

Lemma pair_loop {X} no (y : list X) (h : X -> X -> X) (V : nat -> list X -> res (list X)) z o v o' v' :
  iterM no (fun d s => let '(o, v) := s in let* a := rd o d in let* yd := rd y d in let* o := wr o d (h a yd) in let* v := V d v in Ok (o, v)) (o, v) = Ok (o', v') ->
  length o' = length o /\ (forall d, (d < no)%nat -> nth d o' z = h (nth d o z) (nth d y z) /\ (d < length y)%nat) /\ iterM no V v = Ok v'.
Proof.
  intros H.
  apply (iterM_inv_ok (fun k s => length (fst s) = length o /\ (forall d, (d < k)%nat -> nth d (fst s) z = h (nth d o z) (nth d y z) /\ (d < length y)%nat) /\
    (forall d, (k <= d)%nat -> nth d (fst s) z = nth d o z) /\ iterM k V v = Ok (snd s))) in H; [cbn [fst snd] in H; tauto | |].
  - cbn. repeat split; intros; lia.
  - clear H. intros k (o1, v1) (o2, v2) Hk (L & I & K & E) H. cbn [fst snd] in *. apply bind_ok_inv in H. destruct H as (a & Ea & H). apply bind_ok_inv in H. destruct H as (yd & Ey & H).
    apply bind_ok_inv in H. destruct H as (o3 & Eo & H). apply bind_ok_inv in H. destruct H as (v3 & Ev & H). injection H as <- <-.
    destruct (rd_nth _ _ _ z Ea) as (Na & _). destruct (rd_nth _ _ _ z Ey) as (Ny & Ly). destruct (wr_nth _ _ _ _ z Eo) as (Lw & Nw & Ow).
    split; [congruence |]. split; [| split].
    + intros d Hd. destruct (Nat.eq_dec d k) as [-> | D]; [rewrite Nw, Ny, <- Na, K by lia; auto |]. rewrite Ow by exact D. apply I. lia.
    + intros d Hd. rewrite Ow by lia. apply K. lia.
    + cbn [iterM]. rewrite E. exact Ev.
Qed.

Lemma vec_loop {X} no (y : list X) (h : X -> X -> X) z v v' :
  iterM no (fun d v => let* a := rd v d in let* c := rd y d in wr v d (h a c)) v = Ok v' ->
  length v' = length v /\ (forall d, (d < no)%nat -> nth d v' z = h (nth d v z) (nth d y z) /\ (d < length y)%nat).
Proof.
  intros H. apply (iterM_inv_ok (fun k s => length s = length v /\ (forall d, (d < k)%nat -> nth d s z = h (nth d v z) (nth d y z) /\ (d < length y)%nat) /\
    (forall d, (k <= d)%nat -> nth d s z = nth d v z))) in H; [tauto | |].
  - repeat split; intros; lia.
  - clear H. intros k v1 v2 Hk (L & I & K) H. apply bind_ok_inv in H. destruct H as (a & Ea & H). apply bind_ok_inv in H. destruct H as (yd & Ey & Eo).
    destruct (rd_nth _ _ _ z Ea) as (Na & _). destruct (rd_nth _ _ _ z Ey) as (Ny & Ly). destruct (wr_nth _ _ _ _ z Eo) as (Lw & Nw & Ow).
    split; [congruence |]. split.
    + intros d Hd. destruct (Nat.eq_dec d k) as [-> | D]; [rewrite Nw, Ny, <- Na, K by lia; auto |]. rewrite Ow by exact D. apply I. lia.
    + intros d Hd. rewrite Ow by lia. apply K. lia.
Qed.

Section Reg.
  Variables fexp fln : f64 -> f64.
  Hypothesis LM : libm_f64 fexp fln.
  Local Notation A := (FA fexp fln).

  (** ** A class *)
  (** The prediction of a Diagonal component. *)
  Lemma comp_reg (k : gauss A) x y : g_mode k = Diagonal -> g_regression_with (A := A) as_single k x = Ok y ->
    forall d, (d < length y)%nat -> ent y d = as_single (ent (g_mean k) (g_din k + d)).
  Proof.
    intros M H d Hd. unfold g_regression_with in H. rewrite M in H. destruct (g_bim k); [| discriminate]. cbn [negb] in H. cbv zeta in H. apply bind_ok_inv in H. destruct H as (no & _ & H).
    assert (L := tabM_length _ _ _ H). assert (E := tabM_inv _ _ _ H d (S754_zero false) ltac:(lia)). cbv beta in E. apply bind_ok_inv in E. destruct E as (mu & Em & E).
    destruct (rd_nth _ _ _ (S754_zero false) Em) as (N & _). apply (f_equal (fun r => match r with Ok v => v | _ => S754_zero false end)) in E. cbn beta iota in E. exact (eq_trans (eq_sym E) (f_equal as_single (eq_sym N))).
  Qed.

  Lemma reg_out (g g' : gclass A) x : gm_regression_with (A := A) as_single x g = Ok g' -> Forall (fun k : gauss A => g_mode k = Diagonal) (gc_comp g) ->
    exists no, usub (gc_dim g) (gc_din g) = Ok no /\ length (gc_out g') = no /\ g' = gc_set_out (gc_out g') (gc_ocov g') g /\
    forall d, (d < no)%nat -> exists o : nat -> f64, o 0%nat = S754_zero false /\ o (gc_n g) = ent (gc_out g') d /\
      forall c, (c < gc_n g)%nat -> exists k : gauss A, nth_error (gc_comp g) c = Some k /\ o (S c) = fma1 (o c) (ent (gc_beta g) c) (as_single (ent (g_mean k) (g_din k + d))).
  Proof.
    intros H Hk. unfold gm_regression_with in H. apply bind_ok_inv in H. destruct H as (no & Eno & H). apply bind_ok_inv in H. destruct H as ((o & v) & Ei & H). injection H as <-. exists no. split; [exact Eno |].
    cbn [gc_out gc_ocov gc_set_out]. apply iterM_seq in Ei. destruct Ei as (st & E0 & En & Es).
    assert (St : forall c, (c < gc_n g)%nat -> exists k : gauss A, nth_error (gc_comp g) c = Some k /\ length (fst (st (S c))) = length (fst (st c)) /\
      forall d, (d < no)%nat -> ent (fst (st (S c))) d = fma1 (ent (fst (st c)) d) (ent (gc_beta g) c) (as_single (ent (g_mean k) (g_din k + d)))).
    { intros c Hc. specialize (Es c Hc). cbv beta in Es. apply bind_ok_inv in Es. destruct Es as (k & Ek & Es). apply bind_ok_inv in Es. destruct Es as (y & Ey & Es). apply bind_ok_inv in Es. destruct Es as (b & Eb & Es).
      assert (Nk : nth_error (gc_comp g) c = Some k) by (unfold rd in Ek; destruct (nth_error (gc_comp g) c); [now injection Ek as -> | discriminate]).
      exists k. split; [exact Nk |]. destruct (st c) as (o1, v1). destruct (st (S c)) as (o2, v2). cbn [fst].
      apply (pair_loop no y (fun a yd => as_single (nadd (a := A) a (nmul (a := A) b yd))) _ (S754_zero false)) in Es. destruct Es as (L & I & _). split; [exact L |].
      intros d Hd. destruct (I d Hd) as (Q & Ly). unfold fma1. assert (B : ent (gc_beta g) c = b) by (apply (rd_nth _ _ _ _ Eb)). rewrite B.
      rewrite <- (comp_reg k x y); [exact Q | exact (proj1 (Forall_forall _ _) Hk k (nth_error_In _ _ Nk)) | exact Ey | exact Ly]. }
    split; [| split; [reflexivity |]].
    - change o with (fst (o, v)). rewrite <- En. assert (G : forall c, (c <= gc_n g)%nat -> length (fst (st c)) = no).
      { induction c as [| c IH]; intros Hc; [rewrite E0; cbn [fst]; apply repeat_length |]. destruct (St c ltac:(lia)) as (_ & _ & L & _). rewrite L. apply IH. lia. }
      apply G. lia.
    - intros d Hd. exists (fun c => ent (fst (st c)) d). split; [rewrite E0; cbn [fst]; unfold ent; apply nth_repeat |]. split; [rewrite En; reflexivity |].
      intros c Hc. destruct (St c Hc) as (k & Nk & _ & Q). exists k. split; [exact Nk |]. apply Q, Hd.
  Qed.

  Lemma reg_cov (g g' : gclass A) x : gm_regression_with (A := A) as_single x g = Ok g' -> gc_mode g = Diagonal ->
    exists no, usub (gc_dim g) (gc_din g) = Ok no /\
    forall d, (d < no)%nat -> exists o : nat -> f64, o 0%nat = S754_zero false /\ o (gc_n g) = ent (gc_ocov g') d /\
      forall c, (c < gc_n g)%nat -> exists k : gauss A, nth_error (gc_comp g) c = Some k /\ o (S c) = fma1 (o c) (SFmul fprec femax (ent (gc_beta g) c) (ent (gc_beta g) c)) (ent (g_out k) d).
  Proof.
    intros H M. unfold gm_regression_with in H. rewrite M in H. apply bind_ok_inv in H. destruct H as (no & Eno & H). apply bind_ok_inv in H. destruct H as ((o & v) & Ei & H). injection H as <-. exists no. split; [exact Eno |].
    cbn [gc_out gc_ocov gc_set_out]. apply iterM_seq in Ei. destruct Ei as (st & E0 & En & Es).
    assert (St : forall c, (c < gc_n g)%nat -> exists k : gauss A, nth_error (gc_comp g) c = Some k /\
      forall d, (d < no)%nat -> ent (snd (st (S c))) d = fma1 (ent (snd (st c)) d) (SFmul fprec femax (ent (gc_beta g) c) (ent (gc_beta g) c)) (ent (g_out k) d)).
    { intros c Hc. specialize (Es c Hc). cbv beta in Es. apply bind_ok_inv in Es. destruct Es as (k & Ek & Es). apply bind_ok_inv in Es. destruct Es as (y & Ey & Es). apply bind_ok_inv in Es. destruct Es as (b & Eb & Es).
      assert (Nk : nth_error (gc_comp g) c = Some k) by (unfold rd in Ek; destruct (nth_error (gc_comp g) c); [now injection Ek as -> | discriminate]).
      exists k. split; [exact Nk |]. destruct (st c) as (o1, v1). destruct (st (S c)) as (o2, v2). cbn [snd].
      apply (pair_loop no y (fun a yd => as_single (nadd (a := A) a (nmul (a := A) b yd))) _ (S754_zero false)) in Es. destruct Es as (_ & _ & Q).
      apply (vec_loop no (g_out k) (fun a c => as_single (nadd (a := A) a (nmul (a := A) (nmul (a := A) b b) c))) (S754_zero false)) in Q. destruct Q as (_ & I).
      intros d Hd. destruct (I d Hd) as (Q & _). unfold fma1. assert (B : ent (gc_beta g) c = b) by (apply (rd_nth _ _ _ _ Eb)). rewrite B. exact Q. }
    intros d Hd. exists (fun c => ent (snd (st c)) d). split; [rewrite E0; cbn [snd]; unfold ent; apply nth_repeat |]. split; [rewrite En; reflexivity |].
    intros c Hc. destruct (St c Hc) as (k & Nk & Q). exists k. split; [exact Nk |]. apply Q, Hd.
  Qed.

  Lemma lik_shape x y (g h : gclass A) : gm_likelihood (A := A) x y g = Ok h -> exists bt bf i l, h = gc_set_buf bf i l (gc_set_beta bt g).
  Proof.
    intros H. unfold gm_likelihood in H. apply bind_ok_inv in H. destruct H as (b & _ & H). cbv zeta in H. apply bind_ok_inv in H. destruct H as (b' & _ & H). apply bind_ok_inv in H. destruct H as ((buf & l) & _ & H).
    injection H as <-. eauto.
  Qed.

  (** What a frame leaves of a class. *)
  Definition kept (g g' : gclass A) : Prop :=
    gc_bim g' = gc_bim g /\ gc_dim g' = gc_dim g /\ gc_din g' = gc_din g /\ gc_par g' = gc_par g /\ gc_coef g' = gc_coef g /\ gc_comp g' = gc_comp g.
  Lemma filter1_with_step x (g g' : gclass A) : class_diag g -> frame_f64 x -> gm_filter1_with (A := A) as_single x g = Ok g' ->
    class_diag g' /\ lik_ok fexp fln g' /\ kept g g' /\
    exists h, kept g h /\ (exists l, parts_f64 (gc_n g) l (ent (gc_beta h))) /\ (gc_bim g = true -> gm_regression_with (A := A) as_single x h = Ok g').
  Proof.
    intros D Fx H. unfold gm_filter1_with in H. apply bind_ok_inv in H. destruct H as (h & Eh & H). destruct (lik_step fexp fln LM g x h D Fx Eh) as (Dh & Lh & Ph).
    assert (Kh : kept g h) by (destruct (lik_shape x [] g h Eh) as (bt & bf & i & l & ->); repeat split).
    assert (G : exists o v, g' = h \/ g' = gc_set_out o v h).
    { destruct (gc_bim h); [| injection H as <-; exists [], []; now left]. unfold gm_regression_with in H. apply bind_ok_inv in H. destruct H as (no & _ & H). apply bind_ok_inv in H. destruct H as ((o & v) & _ & H). injection H as <-. exists o, v. now right. }
    destruct G as (o & v & G).
    split; [destruct G as [-> | ->]; exact Dh |]. split; [destruct G as [-> | ->]; exact Lh |]. split; [destruct G as [-> | ->]; exact Kh |].
    exists h. split; [exact Kh |]. split; [exact Ph |]. intros B. destruct Kh as (Kb & _). rewrite Kb, B in H. exact H.
  Qed.

  Lemma class_some g : class_diag (fexp := fexp) (fln := fln) g -> (1 <= gc_n g)%nat.
  Proof. intros (((L & _ & (w & I & _)) & _) & _). destruct (gc_coef g); [destruct I | cbn in L; lia]. Qed.

  Lemma diag_modes g : class_diag (fexp := fexp) (fln := fln) g -> Forall (fun k : gauss A => g_mode k = Diagonal) (gc_comp g).
  Proof. intros (_ & K & _). eapply Forall_impl; [| exact K]. intros k Hk. apply Hk. Qed.

  Lemma parts_sum_le2 n (q : nat -> f64) : (1 <= n)%nat -> (Z.of_nat n <= 2 ^ 20)%Z -> 1 - INR n * bpow radix2 (-50) <= rs n (fun i => fval (q i)) <= 1 + INR n * bpow radix2 (-50) ->
    rs n (fun i => fval (q i)) <= 2.
  Proof. intros H1 H2 (_ & H). apply Rle_trans with (1 := H). change (bpow radix2 (-50)) with (/ 1125899906842624). assert (INR n <= 1048576) by (rewrite INR_IZR_INZ; apply IZR_le; lia). lra. Qed.

  (** Responsibilities that are parts: the outputs are between the means. *)
  Lemma reg_near b lo hi d x (h g' : gclass A) l : (-100 <= b <= 100)%Z -> (1 <= gc_n h)%nat -> (Z.of_nat (gc_n h) <= 2 ^ 20)%Z -> Forall (fun k : gauss A => g_mode k = Diagonal) (gc_comp h) -> parts_f64 (gc_n h) l (ent (gc_beta h)) ->
    gm_regression_with (A := A) as_single x h = Ok g' -> (gc_din h + d < gc_dim h)%nat -> means_in d lo hi h -> range_in b lo hi -> near lo hi (INR (gc_n h) * bpow radix2 (b - 20)) (ent (gc_out g') d).
  Proof.
    intros Hb N1 Hn Mh P Er Hd Hm (R1 & R2).
    destruct (reg_out h g' x Er Mh) as (no & Eno & _ & _ & Q).
    unfold usub in Eno. destruct (Nat.leb_spec (gc_din h) (gc_dim h)) as [L | L]; [| discriminate]. injection Eno as <-.
    destruct (Q d ltac:(lia)) as (o & O0 & On & Os). rewrite <- On.
    assert (Pt := parts_total (gc_n h) l (ent (gc_beta h)) N1 ltac:(lia) P). assert (P2 := parts_sum_le2 (gc_n h) (ent (gc_beta h)) N1 Hn Pt).
    assert (B0 := bpow_gt_0 radix2 b). set (B := bpow radix2 b) in *.
    set (s := fun c => match nth_error (gc_comp h) c with Some k => as_single (ent (g_mean k) (gc_din h + d)) | None => S754_zero false end).
    assert (Sk : forall c, (c < gc_n h)%nat -> num_in (- B) B (s c) /\ lo - B * / 8388608 <= fval (s c) <= hi + B * / 8388608).
    { intros c Hc. destruct (Os c Hc) as (k & Nk & _). unfold s. rewrite Nk. destruct (proj1 (Forall_forall _ _) Hm k (nth_error_In _ _ Nk)) as (_ & V & N & C).
      assert (Ab : Rabs (fval (ent (g_mean k) (gc_din h + d))) <= B) by (apply Rabs_le; lra).
      destruct (as_single_in b _ ltac:(lia) V N Ab) as (V1 & N1' & A1). destruct (as_single_err _ V N) as (_ & _ & E & _); [apply Rle_trans with (1 := Ab); apply bpow_le; lia |].
      apply Rabs_le_inv in E. apply Rabs_le_inv in A1. assert (F150 : bpow radix2 (-150) <= B * / 16777216). { unfold B. change (/ 16777216) with (/ bpow radix2 24). rewrite <- bpow_opp, <- bpow_plus. apply bpow_le. lia. }
      change (bpow radix2 (-24)) with (/ 16777216) in E. fold B in A1. split; [split; [exact V1 |]; split; [exact N1' | lra] |]. lra. }
    assert (Os' : forall c, (c < gc_n h)%nat -> o (S c) = fma1 (o c) (ent (gc_beta h) c) (s c)).
    { intros c Hc. destruct (Os c Hc) as (k & Nk & E). unfold s. rewrite Nk. destruct (proj1 (Forall_forall _ _) Hm k (nth_error_In _ _ Nk)) as (Ek & _). rewrite <- Ek. exact E. }
    assert (X := acc_hull b (gc_n h) (ent (gc_beta h)) s o Hb Hn ltac:(intros c Hc; apply (proj2 P c Hc)) P2 ltac:(intros c Hc; apply (Sk c Hc)) ltac:(rewrite O0; repeat split) Os' (lo - B * / 8388608) (hi + B * / 8388608) N1 Pt).
    fold B in X. destruct X as (V & N & C); [lra | lra | intros c Hc; apply (Sk c Hc) |]. split; [exact V |]. split; [exact N |].
    assert (E20 : bpow radix2 (b - 20) = B * / 1048576) by (unfold Zminus; rewrite bpow_plus; reflexivity). rewrite E20 in *. assert (1 <= INR (gc_n h)) by (apply (le_INR 1); exact N1). nra.
  Qed.

  Lemma class_out b lo hi d x (g g' : gclass A) : (-100 <= b <= 100)%Z -> (Z.of_nat (gc_n g) <= 2 ^ 20)%Z -> class_diag g -> frame_f64 x -> gc_bim g = true -> gm_filter1_with (A := A) as_single x g = Ok g' ->
    (gc_din g + d < gc_dim g)%nat -> means_in d lo hi g -> range_in b lo hi -> near lo hi (INR (gc_n g) * bpow radix2 (b - 20)) (ent (gc_out g') d).
  Proof.
    intros Hb Hn D Fx Bi H Hd Hm R. destruct (filter1_with_step x g g' D Fx H) as (_ & _ & _ & h & (K1 & K2 & K3 & K4 & K5 & K6) & (l & P) & Er). specialize (Er Bi).
    assert (Nh : gc_n h = gc_n g) by (unfold gc_n; now rewrite K4). rewrite <- Nh in *.
    apply (reg_near b lo hi d x h g' l); auto; [rewrite Nh; exact (class_some g D) | rewrite K6; now apply diag_modes | now rewrite K2, K3 | unfold means_in; rewrite K3, K6; exact Hm].
  Qed.

  Lemma square_weight w : num_in 0 1 w -> num_in 0 1 (SFmul fprec femax w w) /\ fval (SFmul fprec femax w w) <= fval w.
  Proof.
    intros Hw. assert (H0 := Hw). destruct Hw as (V & N & B). destruct (mul_weight w w H0) as ((V1 & N1 & P1) & _ & L1); [split; [exact V |]; split; [exact N | lra] |].
    split; [split; [exact V1 |]; split; [exact N1 | lra] | exact L1].
  Qed.

  Lemma reg_var b hi d x (h g' : gclass A) l : (-100 <= b <= 100)%Z -> (1 <= gc_n h)%nat -> (Z.of_nat (gc_n h) <= 2 ^ 20)%Z -> parts_f64 (gc_n h) l (ent (gc_beta h)) ->
    gm_regression_with (A := A) as_single x h = Ok g' -> (gc_din h + d < gc_dim h)%nat -> variances_in d hi h -> hi <= bpow radix2 b -> num_in 0 (hi + INR (gc_n h) * bpow radix2 (b - 20)) (ent (gc_ocov g') d).
  Proof.
    intros Hb N1 Hn P Er Hd (Mh & Hm) R2.
    destruct (reg_cov h g' x Er Mh) as (no & Eno & Q).
    unfold usub in Eno. destruct (Nat.leb_spec (gc_din h) (gc_dim h)) as [L | L]; [| discriminate]. injection Eno as <-.
    destruct (Q d ltac:(lia)) as (o & O0 & On & Os). rewrite <- On.
    assert (Pt := parts_total (gc_n h) l (ent (gc_beta h)) N1 ltac:(lia) P). assert (P2 := parts_sum_le2 (gc_n h) (ent (gc_beta h)) N1 Hn Pt).
    assert (B0 := bpow_gt_0 radix2 b). set (B := bpow radix2 b) in *.
    set (w := fun c => SFmul fprec femax (ent (gc_beta h) c) (ent (gc_beta h) c)).
    assert (Hw : forall c, (c < gc_n h)%nat -> num_in 0 1 (w c) /\ fval (w c) <= fval (ent (gc_beta h) c)) by (intros c Hc; apply square_weight, (proj2 P c Hc)).
    assert (Sw : rs (gc_n h) (fun c => fval (w c)) <= rs (gc_n h) (fun c => fval (ent (gc_beta h) c))) by (apply rs_le; intros c Hc; apply (Hw c Hc)).
    set (s := fun c => match nth_error (gc_comp h) c with Some k => ent (g_out k) d | None => S754_zero false end).
    assert (Sk : forall c, (c < gc_n h)%nat -> num_in 0 hi (s c)) by (intros c Hc; destruct (Os c Hc) as (k & Nk & _); unfold s; rewrite Nk; exact (proj1 (Forall_forall _ _) Hm k (nth_error_In _ _ Nk))).
    assert (Os' : forall c, (c < gc_n h)%nat -> o (S c) = fma1 (o c) (w c) (s c)) by (intros c Hc; destruct (Os c Hc) as (k & Nk & E); unfold s; rewrite Nk; exact E).
    assert (X := acc_nonneg b (gc_n h) w s o Hb Hn ltac:(intros c Hc; apply (Hw c Hc)) ltac:(lra)).
    fold B in X. destruct (X ltac:(intros c Hc; destruct (Sk c Hc) as (V & N & C); split; [exact V |]; split; [exact N | lra]) ltac:(rewrite O0; repeat split) Os' hi N1 ltac:(lra) ltac:(lra) ltac:(intros c Hc; apply (Sk c Hc))) as (V & N & C).
    split; [exact V |]. split; [exact N |]. assert (0 <= INR (gc_n h) * bpow radix2 (b - 20)) by (apply Rmult_le_pos; [apply pos_INR | apply bpow_ge_0]). lra.
  Qed.

  Lemma class_cov b hi d x (g g' : gclass A) : (-100 <= b <= 100)%Z -> (Z.of_nat (gc_n g) <= 2 ^ 20)%Z -> class_diag g -> frame_f64 x -> gc_bim g = true -> gm_filter1_with (A := A) as_single x g = Ok g' ->
    (gc_din g + d < gc_dim g)%nat -> variances_in d hi g -> hi <= bpow radix2 b -> num_in 0 (hi + INR (gc_n g) * bpow radix2 (b - 20)) (ent (gc_ocov g') d).
  Proof.
    intros Hb Hn D Fx Bi H Hd (Md & Hm) R2. destruct (filter1_with_step x g g' D Fx H) as (_ & _ & _ & h & (K1 & K2 & K3 & K4 & K5 & K6) & (l & P) & Er). specialize (Er Bi).
    assert (Nh : gc_n h = gc_n g) by (unfold gc_n; now rewrite K4). rewrite <- Nh in *.
    apply (reg_var b hi d x h g' l); auto; [rewrite Nh; exact (class_some g D) | now rewrite K2, K3 |]. split; [unfold gc_mode in *; rewrite K4; exact Md | rewrite K6; exact Hm].
  Qed.

  (** A component without mean spoils the outputs. *)
  Lemma class_nan d x (g g' : gclass A) c k : Forall (fun k : gauss A => g_mode k = Diagonal) (gc_comp g) -> gc_bim g = true -> gm_filter1_with (A := A) as_single x g = Ok g' ->
    (gc_din g + d < gc_dim g)%nat -> (c < gc_n g)%nat -> nth_error (gc_comp g) c = Some k -> ent (g_mean k) (g_din k + d) = S754_nan -> ent (gc_out g') d = S754_nan.
  Proof.
    intros M Bi H Hd Hc Nk E. unfold gm_filter1_with in H. apply bind_ok_inv in H. destruct H as (h & Eh & H). destruct (lik_shape x [] g h Eh) as (bt & bf & i & l & ->). cbn [gc_bim gc_set_buf gc_set_beta] in H. rewrite Bi in H.
    match type of H with gm_regression_with _ _ ?v = _ => set (h := v) in * end.
    destruct (reg_out h g' x H M) as (no & Eno & _ & _ & Q). change (gc_dim h) with (gc_dim g) in Eno. change (gc_din h) with (gc_din g) in Eno. unfold usub in Eno. destruct (Nat.leb_spec (gc_din g) (gc_dim g)) as [L | L]; [| discriminate]. injection Eno as <-.
    destruct (Q d ltac:(lia)) as (o & _ & On & Os). rewrite <- On. change (gc_n h) with (gc_n g) in *. change (gc_comp h) with (gc_comp g) in *.
    assert (G : forall j, (c < j <= gc_n g)%nat -> o j = S754_nan).
    { induction j as [| j IH]; intros Hj; [lia |]. destruct (Os j ltac:(lia)) as (k' & Nk' & ->). destruct (Nat.eq_dec j c) as [-> | Dj].
      - assert (k' = k) by congruence. subst k'. rewrite E. unfold fma1. change (as_single S754_nan) with S754_nan. replace (SFmul fprec femax (ent (gc_beta h) c) S754_nan) with S754_nan by (destruct (ent (gc_beta h) c); reflexivity). now destruct (o c).
      - rewrite IH by lia. reflexivity. }
    apply G. lia.
  Qed.
End Reg.
