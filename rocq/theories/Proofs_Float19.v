(** The E step of the mixtures and the new weights in binary64. *)
From Coq Require Import String ZArith QArith Reals Lra Lia Bool List Arith.
From Coq Require Import Floats.SpecFloat.
From Flocq Require Import Core.Core IEEE754.BinarySingleNaN.
From Verif Require Import Base BaseFacts Arith RFacts Spec_Float Spec_Float2 Spec_Float3 Spec_Float5 Proofs_Float1 Proofs_Float2 Proofs_Float3 Proofs_Float4 Proofs_Float5 Proofs_Float6 Proofs_Float7 Proofs_Float8 Proofs_Float18.
From Verif Require Import Model_Map Model_Ring Model_Gaussian Model_Config Model_KMeans Model_GMM Model_Single Model_Single2.
Import ListNotations.
Local Open Scope R_scope.

#[local] Existing Instance Proofs_Float1.Hprec.
#[local] Existing Instance Proofs_Float1.Hmax.

Section Steps.
  Variables fexp fln : f64 -> f64.
  Hypothesis LM : libm_f64 fexp fln.
  Local Notation A := (FA fexp fln).

  (** Responsibility of component [c] for frame [t]. *)
  Definition resp (ps : list (list f64)) (c t : nat) : f64 := ent (nth t ps []) c.

  Definition estep_inv (g : gclass A) (T : nat) (s : list (list f64) * list f64 * f64) : Prop :=
    let '(ps, E, lp) := s in
    length ps = T /\ (forall t, (t < T)%nat -> shares (gc_n g) (nth t ps [])) /\ length E = gc_n g /\
    (forall c, (c < gc_n g)%nat -> ent E c = nsum (A := A) T (resp ps c)) /\ num_in (- sum_bound 560 T) (sum_bound 560 T) lp /\
    (forall c, (c < gc_n g)%nat -> fval (ent (gc_coef g) c) = 0 -> forall t, (t < T)%nat -> bpow radix2 (-904) <= fval (resp ps c t)).

  Lemma estep_ok (g : gclass A) : state_diag g -> forall frames s, Forall frame_f64 frames -> (Z.of_nat (length frames) <= 2 ^ 32)%Z ->
    gm_estep (A := A) g frames = Ok s -> estep_inv g (length frames) s.
  Proof.
    intros Sg frames. induction frames as [| x frames IH] using rev_ind; intros s F Hl H.
    - injection H as <-. split; [reflexivity |]. split; [intros; cbn in *; lia |]. split; [apply repeat_length |]. split; [| split; [| intros; cbn in *; lia]].
      + intros c Hc. unfold ent. cbn. apply (nth_repeat (A := f64)).
      + apply sum_bound_0.
    - rewrite app_length in Hl. cbn in Hl. apply Forall_app in F. destruct F as (F & Fx). apply Forall_inv in Fx.
      unfold gm_estep in H. apply foldM_snoc in H. destruct H as (((ps, E), lp) & H1 & H).
      assert (I := IH _ F ltac:(lia) H1). destruct I as (L1 & S1 & L2 & E1 & B1 & Z1). change (num A) with f64 in *.
      destruct (frame_shares fexp fln LM g x ps E lp s Sg Fx H) as (r & norm & -> & Sr & Bn & Zr). unfold estep_inv. change (num A) with f64 in *.
      assert (Lf : length (frames ++ [x]) = S (length frames)) by (rewrite app_length; cbn; lia). rewrite Lf.
      assert (Nt : forall t, (t < length frames)%nat -> nth t (ps ++ [r]) [] = nth t ps []) by (intros t Ht; apply app_nth1; lia).
      assert (Nl : nth (length frames) (ps ++ [r]) [] = r) by (rewrite <- L1, app_nth2, Nat.sub_diag by lia; reflexivity).
      split; [rewrite app_length; cbn; lia |]. split.
      { intros t Ht. destruct (Nat.eq_dec t (length frames)) as [-> | Ne]; [rewrite Nl; exact Sr | rewrite Nt by lia; apply S1; lia]. }
      split; [apply tab_length |]. split.
      { intros c Hc. unfold ent at 1. rewrite nth_tab by exact Hc. cbn [nsum]. unfold resp at 2. rewrite Nl. rewrite (E1 c Hc).
        apply (f_equal (fun v => SFadd fprec femax v (ent r c))). apply (nsum_ext fexp fln). intros t Ht. unfold resp. now rewrite Nt. }
      split.
      { apply sum_step; [lia | lra | | exact B1 |].
        - change 560 with (IZR 560). apply Rle_trans with (bpow radix2 10); [apply IZR_le; cbn; lia | apply bpow_le; lia].
        - apply (ln_mid _ _ LM). eapply num_in_weaken; [exact Bn | apply bpow_le; lia | apply bpow_le; lia]. }
      intros c Hc Z t Ht. unfold resp. destruct (Nat.eq_dec t (length frames)) as [-> | Ne]; [rewrite Nl; now apply Zr | rewrite Nt by lia; apply Z1; auto; lia].
  Qed.

  (** A sum of at most 2^32 numbers between 0 and 1. *)
  Lemma sum_unit T (f : nat -> f64) : (Z.of_nat T <= 2 ^ 32)%Z -> (forall t, (t < T)%nat -> num_in 0 1 (f t)) ->
    num_in 0 (INR T) (nsum (A := A) T f) /\ Rsum T (fun t => fval (f t)) / (1 + uround) ^ T <= fval (nsum (A := A) T f) <= Rsum T (fun t => fval (f t)) * (1 + uround) ^ T /\
    forall t, (t < T)%nat -> fval (f t) <= fval (nsum (A := A) T f).
  Proof.
    intros HT Hf. assert (N : forall t, (t < T)%nat -> nn (f t)) by (intros t Ht; destruct (Hf t Ht) as (V & N & B); split; [exact V | right; split; [exact N | lra]]).
    assert (Q := nsum_abs fexp fln 1 T f HT ltac:(lra) ltac:(change 1 with (bpow radix2 0); apply bpow_le; lia)). destruct Q as (V & Nu & _).
    { intros t Ht. eapply num_in_weaken; [apply Hf, Ht | lra | lra]. }
    destruct (nsum_nn fexp fln T f N) as (_ & Q). destruct (Q Nu) as (Q1 & Q2). rewrite rsum_tab in Q2. split; [| split; [exact Q2 | intros t Ht; apply Q1, Ht]].
    assert (U : forall k, (k <= T)%nat -> num_in 0 (INR k) (nsum (A := A) k f)).
    { induction k as [| k IH]; intros Hk; [split; [reflexivity |]; split; [reflexivity |]; split; [apply Rle_refl | apply Rle_refl] |].
      destruct (IH ltac:(lia)) as (Vk & Nk & Bk). destruct (Hf k ltac:(lia)) as (Vf & Nf & Bf). cbn [nsum].
      destruct (add_nn (nsum (A := A) k f) (f k)) as (Vs & Es); [split; [exact Vk | right; split; [exact Nk | lra]] | apply N; lia |].
      destruct (nN_val fexp fln (S k) ltac:(lia) ltac:(lia)) as (Vn & Nn & En).
      assert (R : rnd (fval (nsum (A := A) k f) + fval (f k)) <= INR (S k)).
      { rewrite <- En, <- (rnd_fval _ Vn), En. apply rnd_le. rewrite S_INR. lra. }
      change (num_in 0 (INR (S k)) (SFadd fprec femax (nsum (A := A) k f) (f k))).
      destruct (f_add_num (nsum (A := A) k f) (f k) Vk Vf Nk Nf) as [(Na & Ea) | (s & Ei & Bi & _)].
      - destruct (Es Na) as (_ & _ & _ & G1 & _). split; [apply Vs |]. split; [exact Na |]. rewrite Ea in *. lra.
      - exfalso. rewrite Rabs_pos_eq in Bi by (apply rnd_nonneg; lra). assert (INR (S k) < bpow radix2 1024).
        { apply Rle_lt_trans with (bpow radix2 32); [| apply bpow_lt; lia]. rewrite INR_IZR_INZ. change (bpow radix2 32) with (IZR (2 ^ 32)). apply IZR_le. lia. }
        lra. }
    apply U. lia.
  Qed.

  Lemma new_weight T e : (1 <= T)%nat -> (Z.of_nat T <= 2 ^ 32)%Z -> num_in 0 (INR T) e ->
    let w := SFdiv fprec femax e (nN (A := A) T) in num_in 0 1 w /\ fval w = rnd (fval e / INR T) /\ (fval e = 0 -> fval w = 0) /\ (bpow radix2 (-904) <= fval e -> bpow radix2 (-936) <= fval w).
  Proof.
    intros H1 HT (V & N & B) w. destruct (nN_val fexp fln T H1 HT) as (Vn & Nn & En). assert (P : 0 < INR T) by (apply lt_0_INR; lia).
    destruct (div_part e (nN (A := A) T)) as (I & E); [split; [exact V |]; split; [exact N | apply B] | split; [exact Vn |]; split; [exact Nn | rewrite En; lra] | rewrite En; exact P | rewrite En; apply B |].
    fold w in I, E. rewrite En in E. split; [exact I |]. split; [exact E |]. split.
    - intros Z. rewrite E, Z. unfold Rdiv. rewrite Rmult_0_l. apply rnd_0.
    - intros L. rewrite E, <- (rnd_bpow (-936)) by lia. apply rnd_le. apply Rle_trans with (bpow radix2 (-904) * bpow radix2 (-32)); [rewrite <- bpow_plus; apply bpow_le; lia |].
      apply Rmult_le_compat; [apply bpow_ge_0 | apply bpow_ge_0 | exact L |]. apply (inv_count T H1 HT).
  Qed.
End Steps.

Section Weights.
  Variables fexp fln : f64 -> f64.
  Local Notation A := (FA fexp fln).

  Lemma new_weights (g : gclass A) T ps E lp : estep_inv fexp fln g T (ps, E, lp) -> (1 <= T)%nat -> (Z.of_nat T <= 2 ^ 32)%Z -> (Z.of_nat (gc_n g) < 2 ^ 32)%Z ->
    let coef : list f64 := tab (A := f64) (gc_n g) (fun c => SFdiv fprec femax (ent E c) (nN (A := A) T)) in
    weights_f64 (gc_n g) coef /\ 1 - bpow radix2 (-17) <= rsum coef <= 1 + bpow radix2 (-17).
  Proof.
    intros (L1 & Sh & L2 & Es & _ & _) H1 HT Hn coef. set (n := gc_n g) in *. set (R := fun c => Rsum T (fun t => fval (resp ps c t))).
    set (e := bpow radix2 (-20)). assert (He : 0 < e < / 1000) by (split; [apply bpow_gt_0 | change e with (/ IZR 1048576); lra]).
    assert (D : bpow radix2 (-19) = 2 * e) by (unfold e; change (-19)%Z with (1 + -20)%Z; rewrite bpow_plus; reflexivity).
    assert (D7 : bpow radix2 (-17) = 8 * e) by (unfold e; change (-17)%Z with (3 + -20)%Z; rewrite bpow_plus; reflexivity).
    assert (P : 0 < INR T) by (apply lt_0_INR; lia).
    assert (U : forall c, (c < n)%nat -> num_in 0 (INR T) (ent E c) /\ R c / (1 + uround) ^ T <= fval (ent E c) <= R c * (1 + uround) ^ T).
    { intros c Hc. rewrite (Es c Hc). destruct (sum_unit fexp fln T (resp ps c) HT) as (U1 & U2 & _); [intros t Ht; apply (Sh t Ht), Hc |]. split; [exact U1 | exact U2]. }
    destruct (growth T HT) as ((G1 & _) & G2). fold e in G2. set (G := (1 + uround) ^ T) in *. destruct (inv_growth G e ltac:(lra) (conj G1 G2)) as (I1 & I2).
    destruct (growth 1 ltac:(cbn; lia)) as ((g1 & _) & g2). fold e in g2. rewrite pow_1 in g1, g2. destruct (inv_growth _ e ltac:(lra) (conj g1 g2)) as (i1 & i2).
    assert (Rn : forall c, (c < n)%nat -> 0 <= R c). { intros c Hc. apply Rsum_nonneg. intros t Ht. apply (Sh t Ht), Hc. }
    assert (Rt : INR T * (1 - 2 * e) <= Rsum n R <= INR T * (1 + 2 * e)).
    { unfold R. rewrite Rsum_swap, <- D. split.
      - rewrite <- Rsum_const. apply Rsum_le. intros t Ht. apply (Sh t Ht).
      - rewrite <- Rsum_const. apply Rsum_le. intros t Ht. apply (Sh t Ht). }
    assert (W : forall c, (c < n)%nat -> num_in 0 1 (ent coef c) /\ R c * (/ INR T * (/ G * / (1 + uround))) - ufloor <= fval (ent coef c) <= R c * (/ INR T * (G * (1 + uround))) + ufloor).
    { intros c Hc. destruct (U c Hc) as (Uc & Bc). assert (Ec : ent coef c = SFdiv fprec femax (ent E c) (nN (A := A) T)) by (unfold ent at 1, coef; now rewrite nth_tab). rewrite Ec.
      destruct (new_weight fexp fln T (ent E c) H1 HT Uc) as (Iw & -> & _). split; [exact Iw |]. assert (Q : 0 <= fval (ent E c) / INR T) by (apply Rmult_le_pos; [apply Uc | left; now apply Rinv_0_lt_compat]).
      assert (Hi : 0 < / INR T) by now apply Rinv_0_lt_compat. destruct (rnd_any _ Q) as (A1 & A2). unfold Rdiv in *. split.
      - eapply Rle_trans; [| exact A1]. apply Rplus_le_compat_r. replace (R c * (/ INR T * (/ G * / (1 + uround)))) with (R c * / G * / INR T * / (1 + uround)) by ring.
        apply Rmult_le_compat_r; [lra |]. apply Rmult_le_compat_r; [lra | apply Bc].
      - eapply Rle_trans; [exact A2 |]. apply Rplus_le_compat_r. replace (R c * (/ INR T * (G * (1 + uround)))) with (R c * G * / INR T * (1 + uround)) by ring.
        apply Rmult_le_compat_r; [lra |]. apply Rmult_le_compat_r; [lra | apply Bc]. }
    assert (F := count_floor n ltac:(lia)). assert (Fe : bpow radix2 (-1000) <= e / 1000).
    { apply Rle_trans with (bpow radix2 (-30)); [apply bpow_le; lia |]. unfold e. change (-30)%Z with (-20 + -10)%Z. rewrite bpow_plus. unfold Rdiv. apply Rmult_le_compat_l; [apply bpow_ge_0 |]. change (bpow radix2 (-10)) with (/ 1024). lra. }
    assert (Lc : length (A := f64) coef = n) by apply tab_length.
    assert (St : 1 - 8 * e <= rsum coef <= 1 + 8 * e).
    { rewrite rsum_list, Lc. set (X := Rsum n R) in *. assert (Hx : 1 - 2 * e <= X * / INR T <= 1 + 2 * e).
      { split; apply (Rmult_le_reg_r (INR T)); try lra; rewrite Rmult_assoc, Rinv_l by lra; lra. }
      split.
      - apply Rle_trans with (Rsum n (fun c => R c * (/ INR T * (/ G * / (1 + uround))) - ufloor)); [| apply Rsum_le; intros c Hc; apply (W c Hc)].
        rewrite Rsum_minus, Rsum_const, Rsum_scal_r. fold X. rewrite <- Rmult_assoc. set (y := X * / INR T) in *.
        assert ((1 - e) * (1 - e) <= / G * / (1 + uround)) by (apply Rmult_le_compat; lra). set (z := / G * / (1 + uround)) in *.
        assert ((1 - 2 * e) * ((1 - e) * (1 - e)) <= y * z) by (apply Rmult_le_compat; [lra | nra | lra | lra]). nra.
      - apply Rle_trans with (Rsum n (fun c => R c * (/ INR T * (G * (1 + uround))) + ufloor)); [apply Rsum_le; intros c Hc; apply (W c Hc) |].
        rewrite Rsum_plus, Rsum_const, Rsum_scal_r. fold X. rewrite <- Rmult_assoc. set (y := X * / INR T) in *.
        assert (G * (1 + uround) <= (1 + e) * (1 + e)) by (apply Rmult_le_compat; lra). assert (1 <= G * (1 + uround)) by nra. set (z := G * (1 + uround)) in *.
        assert (y * z <= (1 + 2 * e) * ((1 + e) * (1 + e))) by (apply Rmult_le_compat; lra). nra. }
    rewrite D7. split; [| exact St]. split; [exact Lc |]. split.
    - apply Forall_forall. intros w Iw. destruct (In_nth_error _ _ Iw) as (c & Ec). assert (Hc : (c < n)%nat) by (rewrite <- Lc; apply nth_error_Some; congruence).
      destruct (W c Hc) as (Iw2 & _). unfold ent in Iw2. rewrite (nth_error_nth _ _ _ Ec) in Iw2. exact Iw2.
    - assert (Hn1 : (1 <= n)%nat). { destruct (Nat.eq_dec n 0) as [Z | Z]; [exfalso | lia]. clear - Z St He Lc. destruct coef; [cbn in St; lra | cbn in Lc; lia]. }
      destruct (max_ge n (ent coef) Hn1) as (c & Hc & M). rewrite <- Lc in M at 1. rewrite <- tab_ent in M. exists (ent coef c). split.
      + unfold ent. apply nth_In. lia.
      + destruct (inv_count n Hn1 ltac:(lia)) as (V1 & _). assert (Pn : 0 < INR n) by (apply lt_0_INR; lia).
        apply Rle_trans with (bpow radix2 (-32) * / 2). { change (/ 2) with (bpow radix2 (-1)). rewrite <- bpow_plus. apply bpow_le. lia. }
        apply (Rmult_le_reg_l (INR n)); [exact Pn |]. apply Rle_trans with (rsum coef); [| exact M]. apply Rle_trans with (/ 2); [| lra].
        rewrite <- Rmult_assoc. rewrite <- (Rmult_1_l (/ 2)) at 2. apply Rmult_le_compat_r; [lra |]. apply Rle_trans with (INR n * / INR n); [apply Rmult_le_compat_l; lra | rewrite Rinv_r; lra].
  Qed.
End Weights.
