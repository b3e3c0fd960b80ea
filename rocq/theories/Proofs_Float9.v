(** One step of the hierarchical forward algorithm in binary64: the frontier and the totals. *)
From Coq Require Import String ZArith QArith Reals Lra Lia Bool List Arith.
From Coq Require Import Floats.SpecFloat.
From Flocq Require Import Core.Core IEEE754.BinarySingleNaN.
From Verif Require Import Base BaseFacts Arith Spec_Float Spec_Float2 Spec_Float3 Proofs_Float1 Proofs_Float2 Proofs_Float3 Proofs_Float4 Proofs_Float5 Proofs_Float6 Proofs_Float7 Proofs_Float8.
From Verif Require Import Model_Map Model_Ring Model_Gaussian Model_Config Model_KMeans Model_GMM Model_HMM Model_HHMM.
Import ListNotations.
Local Open Scope R_scope.

#[local] Existing Instance Proofs_Float1.Hprec.
#[local] Existing Instance Proofs_Float1.Hmax.

Notation fadd := (SFadd fprec femax).
Notation fmul := (SFmul fprec femax).
Notation fdiv := (SFdiv fprec femax).
Notation fsub := (SFsub fprec femax).

Lemma ent_rd l i x : rd l i = Ok x -> ent l i = x.
Proof. intros H. now destruct (rd_nth (X := f64) _ _ _ (S754_zero false) H). Qed.

Lemma add_step B k a v : (Z.of_nat (S k) <= 2 ^ 32)%Z -> 0 <= B -> B <= bpow radix2 950 -> num_in 0 (sum_bound B k) a -> num_in 0 B v ->
  num_in 0 (sum_bound B (S k)) (fadd a v) /\ fval a <= fval (fadd a v) /\ fval v <= fval (fadd a v).
Proof.
  intros Hk PB LB Ha Hv. pose proof Ha as (Va & Na & Ba). pose proof Hv as (Vv & Nv & Bv).
  assert (Ha' : num_in (- sum_bound B k) (sum_bound B k) a) by (eapply num_in_weaken; [exact Ha | lra | apply Rle_refl]).
  assert (Hv' : num_in (- B) B v) by (eapply num_in_weaken; [exact Hv | lra | apply Rle_refl]).
  destruct (sum_step B k a v Hk PB LB Ha' Hv') as (V & N & C).
  assert (Pa : nn a) by (apply nonneg_nn; split; [exact Va | split; [exact Na | lra]]). assert (Pv : nn v) by (apply nonneg_nn; split; [exact Vv | split; [exact Nv | lra]]).
  destruct (add_nn a v Pa Pv) as (_ & Q). destruct (Q N) as (_ & _ & _ & Q1 & Q2). split; [| auto]. split; [exact V |]. split; [exact N |]. lra.
Qed.

(** The total of a list, and its largest term. *)
Lemma fold_nsum fexp fln l : fold_left fadd l (S754_zero false) = nsum (A := FA fexp fln) (length l) (ent l).
Proof.
  induction l as [| x l IH] using rev_ind; [reflexivity |]. rewrite fold_left_app, app_length, Nat.add_1_r. cbn [fold_left nsum]. rewrite IH.
  assert (E : nsum (A := FA fexp fln) (length l) (ent (l ++ [x])) = nsum (A := FA fexp fln) (length l) (ent l)) by (apply nsum_ext; intros i Hi; unfold ent; now rewrite app_nth1).
  rewrite E. f_equal. unfold ent. rewrite app_nth2 by lia. now rewrite Nat.sub_diag.
Qed.

Lemma total (fexp fln : f64 -> f64) (l : list f64) b : l <> [] -> (Z.of_nat (length l) < 2 ^ 32)%Z -> (forall y, In y l -> num_in 0 (bpow radix2 800) y) -> (exists y, In y l /\ b <= fval y) ->
  let s := fold_left fadd l (S754_zero false) in
  num_nonneg s /\ b <= fval s /\ fval s <= bpow radix2 833 /\ (forall y, In y l -> fval y <= fval s) /\ exists y, In y l /\ fval s <= bpow radix2 33 * fval y.
Proof.
  intros Ne Hn Hl (y0 & I0 & L0). cbv zeta. rewrite (fold_nsum fexp fln). set (n := length l) in *.
  assert (Ln : (1 <= n)%nat) by (subst n; destruct l; [congruence | cbn; lia]).
  assert (E : forall i, (i < n)%nat -> num_in 0 (bpow radix2 800) (ent l i)) by (intros i Hi; apply Hl, nth_In, Hi).
  assert (E' : forall i, (i < n)%nat -> num_in (- bpow radix2 800) (bpow radix2 800) (ent l i)).
  { intros i Hi. eapply num_in_weaken; [apply E, Hi | assert (H := bp0 800); lra | apply Rle_refl]. }
  assert (B : bpow radix2 800 <= bpow radix2 950) by (apply bpow_le; lia).
  destruct (nsum_abs fexp fln (bpow radix2 800) n (ent l) ltac:(lia) (bp0 _) B E') as (V & N & _ & U).
  destruct (nsum_nn fexp fln n (ent l)) as (P & Q). { intros i Hi. apply nonneg_nn. eapply num_in_nonneg; [| apply E, Hi]. apply Rle_refl. }
  destruct (Q N) as (Q1 & _ & Q2).
  assert (M : forall y, In y l -> fval y <= fval (nsum (A := FA fexp fln) n (ent l))).
  { intros y Iy. apply (In_nth _ _ (S754_zero false)) in Iy. destruct Iy as (i & Hi & <-). now apply Q1. }
  split; [apply nn_num; auto |]. split; [apply Rle_trans with (1 := L0), M, I0 |]. split.
  { apply Rle_trans with (1 := U). eapply Rle_trans; [apply sum_bound_le; [lia | apply bp0] |]. rewrite <- bpow_plus. apply bpow_le. lia. }
  split; [exact M |].
  destruct (max_ge n (ent l) Ln) as (i & Hi & Mi). exists (ent l i). split; [apply nth_In, Hi |].
  apply Rle_trans with (1 := Q2). apply Rle_trans with (sum_bound (fval (ent l i)) n); [| apply sum_bound_le; [lia | apply E, Hi]].
  unfold sum_bound. apply Rmult_le_compat_r; [| exact Mi]. apply pow_le. assert (H := uround_pos). lra.
Qed.

(** The sweep over the classes. *)
Section Sweep.
  Variables fexp fln : f64 -> f64.
  Local Notation A := (FA fexp fln).

  Lemma sweep_inv (f : nat -> hclass A -> f64 -> res (hclass A * f64)) (P : nat -> hclass A -> hclass A -> list f64 -> Prop) :
    forall ms i norm ms' norm',
    (forall j l h norm h' norm', nth_error ms j = Some (l, h) -> f (i + j)%nat h norm = Ok (h', norm') -> exists ts, P (i + j)%nat h h' ts /\ norm' = fold_left fadd ts norm) ->
    sweep (A := A) f i ms norm = Ok (ms', norm') ->
    exists tss, length ms' = length ms /\ length tss = length ms /\ norm' = fold_left fadd (concat tss) norm /\
      forall j l h, nth_error ms j = Some (l, h) -> exists h' ts, nth_error ms' j = Some (l, h') /\ nth_error tss j = Some ts /\ P (i + j)%nat h h' ts.
  Proof.
    induction ms as [| (l, h) ms IH]; intros i norm ms' norm' Hf H; cbn [sweep] in H.
    - injection H as <- <-. exists []. split; [reflexivity |]. split; [reflexivity |]. split; [reflexivity |]. intros [|] ? ? E; discriminate.
    - apply bind_ok_inv in H. destruct H as ((h' & n1) & E1 & H). apply bind_ok_inv in H. destruct H as ((ms1 & n2) & E2 & H). injection H as <- <-.
      assert (E1' : f (i + 0)%nat h norm = Ok (h', n1)) by (rewrite Nat.add_0_r; exact E1).
      destruct (Hf 0%nat l h norm h' n1 eq_refl E1') as (ts & Pt & ->). rewrite Nat.add_0_r in Pt.
      destruct (IH (S i) (fold_left fadd ts norm) ms1 n2) as (tss & L1 & L2 & Q & R); [| exact E2 |].
      { intros j l' h1 nm h2 nm' E F. replace (S i + j)%nat with (i + S j)%nat in * by lia. eapply (Hf (S j)); eauto. }
      exists (ts :: tss). split; [cbn; now f_equal |]. split; [cbn; now f_equal |]. split; [cbn [concat]; rewrite fold_left_app; exact Q |].
      intros [| j] l1 h1 E.
      + cbn in E. injection E as <- <-. exists h', ts. split; [reflexivity |]. split; [reflexivity |]. now rewrite Nat.add_0_r.
      + destruct (R j l1 h1 E) as (h2 & t2 & F1 & F2 & F3). exists h2, t2. split; [exact F1 |]. split; [exact F2 |]. replace (i + S j)%nat with (S i + j)%nat by lia. exact F3.
  Qed.

  (** What a step leaves alone in a class. *)
  Definition same_class (h h' : hclass A) : Prop :=
    hc_bim h' = hc_bim h /\ hc_dim h' = hc_dim h /\ hc_din h' = hc_din h /\ hc_par h' = hc_par h /\ hc_hier h' = hc_hier h /\ hc_net h' = hc_net h.

  (** The frontier. *)
  Section Frontier.
    Variable m : hhmm A.
    Variables v1 v2 : list f64.
    Hypothesis TOP : (forall i, (i < hh_size m)%nat -> num_in (bpow radix2 (-100)) 1 (ent (hh_prior m) i) /\ num_in 0 1 (ent (hh_exit m) i)) /\
      (forall i j, (i < hh_size m)%nat -> (j < hh_size m)%nat -> num_in 0 1 (ent (nth i (hh_trans m) []) j)).
    Hypothesis SIZE : (Z.of_nat (hh_size m) < 2 ^ 32)%Z.
    Hypothesis V1 : forall c, (c < hh_size m)%nat -> num_in 0 (bpow radix2 33) (ent v1 c).
    Hypothesis V2 : forall c, (c < hh_size m)%nat -> num_in 0 (bpow radix2 33) (ent v2 c).

    Lemma enter_in i src w : (i < hh_size m)%nat -> (src < hh_size m)%nat ->
      (let* a := rd v1 src in let* row := rd (hh_trans m) src in let* t := rd row i in let* p := rd (hh_prior m) i in let* b := rd v2 src in Ok (nadd (a := A) (nmul (a := A) a t) (nmul (a := A) p b))) = Ok w ->
      num_in 0 (bpow radix2 34) w.
    Proof.
      intros Hi Hs H. destruct TOP as (T1 & T2).
      apply bind_ok_inv in H. destruct H as (a & Ea & H). apply bind_ok_inv in H. destruct H as (row & Er & H). apply bind_ok_inv in H. destruct H as (t & Et & H).
      apply bind_ok_inv in H. destruct H as (p & Ep & H). apply bind_ok_inv in H. destruct H as (b & Eb & H). injection H as <-.
      apply ent_rd in Ea, Et, Ep, Eb. destruct (rd_nth _ _ _ [] Er) as (<- & _).
      assert (Xa := V1 src Hs). rewrite Ea in Xa. assert (Xb := V2 src Hs). rewrite Eb in Xb.
      assert (Xt := T2 src i Hs Hi). rewrite Et in Xt. destruct (T1 i Hi) as (Xp & _). rewrite Ep in Xp.
      change 1 with (bpow radix2 0) in Xt, Xp. assert (Xp' : num_in 0 (bpow radix2 0) p) by (eapply num_in_weaken; [exact Xp | apply bp0 | apply Rle_refl]).
      destruct (mul_in a t 33 0 Xa Xt ltac:(lia)) as (M1 & _). destruct (mul_in p b 0 33 Xp' Xb ltac:(lia)) as (M2 & _). change (33 + 0)%Z with 33%Z in M1. change (0 + 33)%Z with 33%Z in M2.
      now destruct (add_in _ _ 33 M1 M2 ltac:(lia)) as (S1 & _).
    Qed.

    Variable h : hclass A.
    Hypothesis LR : class_left_right h.
    Hypothesis A0 : forall k, (k < hc_n h)%nat -> num_in 0 1 (ent (h_a0 (hc_run h)) k).

    (** [t / (1 - e) * a]. *)
    Lemma inner_in j k t e a : (k < hc_n h)%nat -> (j < 2 * hc_n h)%nat -> rd (h_trans (hc_net h)) j = Ok t -> rd (h_exit (hc_net h)) k = Ok e -> rd (h_a0 (hc_run h)) k = Ok a ->
      num_in 0 (bpow radix2 20) (fmul (fdiv t (fsub (n1 (A := A)) e)) a) /\
      (bpow radix2 (-100) <= fval t -> bpow radix2 (-60) <= fval a -> bpow radix2 (-160) <= fval (fmul (fdiv t (fsub (n1 (A := A)) e)) a)).
    Proof.
      intros Hk Hj Et Ee Ea. pose proof LR as (_ & _ & _ & Tr & Ex & _). apply ent_rd in Et, Ee, Ea.
      assert (Xt := Tr j Hj). rewrite Et in Xt. assert (Xe := Ex k Hk). rewrite Ee in Xe. assert (Xa := A0 k Hk). rewrite Ea in Xa. change 1 with (bpow radix2 0) in Xt, Xa.
      assert (Rb : rnd (bpow radix2 (-20)) = bpow radix2 (-20)) by (apply rnd_bpow; lia).
      assert (D := comp_in fexp fln e (bpow radix2 (-20)) Xe Rb (bp0 _)).
      destruct (div_in t _ 0 (-20) Xt D ltac:(lia)) as (Q1 & Q2). change (0 - -20)%Z with 20%Z in Q1.
      destruct (mul_in _ a 20 0 Q1 Xa ltac:(lia)) as (M & _). split; [exact M |]. intros Lt La.
      change (-160)%Z with (-100 + -60)%Z. apply mul_low; [| | lra | exact La | lia].
      - eapply num_in_weaken; [exact Q1 | apply Rle_refl | apply bpow_le; lia].
      - eapply num_in_weaken; [exact Xa | apply Rle_refl | apply bpow_le; lia].
    Qed.

    Lemma frontier_in i k w : (i < hh_size m)%nat -> (k < hc_n h)%nat -> frontier (A := A) m v1 v2 i h k = Ok w -> num_in 0 (bpow radix2 70) w.
    Proof.
      intros Hi Hk H. unfold frontier in H. cbv zeta in H. pose proof LR as (Mo & N1 & _ & Tr & Ex & _). rewrite Mo in H. destruct (k =? 0)%nat eqn:K.
      - apply bind_ok_inv in H. destruct H as (t & Et & H). apply bind_ok_inv in H. destruct H as (a & Ea & H). apply ent_rd in Et, Ea.
        assert (Xt := Tr 0%nat ltac:(lia)). rewrite Et in Xt. assert (Xa := A0 0%nat ltac:(lia)). rewrite Ea in Xa. change 1 with (bpow radix2 0) in Xt, Xa.
        destruct (mul_in t a 0 0 Xt Xa ltac:(lia)) as (M & _).
        assert (M' : num_in 0 (bpow radix2 34) (fmul t a)) by (eapply num_in_weaken; [exact M | apply Rle_refl | apply bpow_le; lia]).
        match type of H with accM _ ?f _ = _ => assert (F : forall src v, (src < hh_size m)%nat -> f src = Ok v -> num_in 0 (bpow radix2 34) v) end.
        { intros src v Hs E. eapply enter_in; [exact Hi | exact Hs | exact E]. }
        assert (C34 : (-1000 <= 34 <= 900)%Z) by lia.
        destruct (acc_in fexp fln 34 (hh_size m) _ (fmul t a) w SIZE C34 M' F H) as (S & _).
        eapply num_in_weaken; [exact S | apply Rle_refl | apply bpow_le; lia].
      - apply Nat.eqb_neq in K. apply bind_ok_inv in H. destruct H as (t & Et & H). apply bind_ok_inv in H. destruct H as (e & Ee & H). apply bind_ok_inv in H. destruct H as (a & Ea & H).
        apply bind_ok_inv in H. destruct H as (t' & Et' & H). apply bind_ok_inv in H. destruct H as (e' & Ee' & H). apply bind_ok_inv in H. destruct H as (a' & Ea' & H). injection H as <-.
        destruct (inner_in (k * 2) k t e a Hk ltac:(lia) Et Ee Ea) as (I1 & _). destruct (inner_in ((k - 1) * 2 + 1) (k - 1) t' e' a' ltac:(lia) ltac:(lia) Et' Ee' Ea') as (I2 & _).
        assert (Z0 : num_in 0 (bpow radix2 20) (n0 (A := A))). { split; [reflexivity |]. split; [reflexivity |]. split; [apply Rle_refl | apply bp0]. }
        destruct (add_in _ _ 20 Z0 I1 ltac:(lia)) as (S1 & _).
        assert (I2' : num_in 0 (bpow radix2 (20 + 1)) (fmul (fdiv t' (fsub (n1 (A := A)) e')) a')) by (eapply num_in_weaken; [exact I2 | apply Rle_refl | apply bpow_le; lia]).
        destruct (add_in _ _ (20 + 1) S1 I2' ltac:(lia)) as (S2 & _).
        eapply num_in_weaken; [exact S2 | apply Rle_refl | apply bpow_le; lia].
    Qed.

    Lemma frontier_low i k : (i < hh_size m)%nat -> (k < hc_n h)%nat -> bpow radix2 (-60) <= fval (ent (h_a0 (hc_run h)) k) ->
      exists k', (k' < hc_n h)%nat /\ forall w, frontier (A := A) m v1 v2 i h k' = Ok w -> bpow radix2 (-160) <= fval w.
    Proof.
      intros Hi Hk La. pose proof LR as (Mo & N1 & _ & Tr & Ex & Go).
      assert (T : forall j w, (0 < j < hc_n h)%nat -> frontier (A := A) m v1 v2 i h j = Ok w ->
        (bpow radix2 (-100) <= fval (ent (h_trans (hc_net h)) (j * 2)) -> bpow radix2 (-60) <= fval (ent (h_a0 (hc_run h)) j) -> bpow radix2 (-160) <= fval w) /\
        (bpow radix2 (-100) <= fval (ent (h_trans (hc_net h)) ((j - 1) * 2 + 1)) -> bpow radix2 (-60) <= fval (ent (h_a0 (hc_run h)) (j - 1)) -> bpow radix2 (-160) <= fval w)).
      { intros j w Hj H. unfold frontier in H. cbv zeta in H. rewrite Mo in H. replace (j =? 0)%nat with false in H by (symmetry; apply Nat.eqb_neq; lia).
        apply bind_ok_inv in H. destruct H as (t & Et & H). apply bind_ok_inv in H. destruct H as (e & Ee & H). apply bind_ok_inv in H. destruct H as (a & Ea & H).
        apply bind_ok_inv in H. destruct H as (t' & Et' & H). apply bind_ok_inv in H. destruct H as (e' & Ee' & H). apply bind_ok_inv in H. destruct H as (a' & Ea' & H). injection H as <-.
        destruct (inner_in (j * 2) j t e a ltac:(lia) ltac:(lia) Et Ee Ea) as (I1 & L1). destruct (inner_in ((j - 1) * 2 + 1) (j - 1) t' e' a' ltac:(lia) ltac:(lia) Et' Ee' Ea') as (I2 & L2).
        assert (Z0 : num_in 0 (bpow radix2 20) (n0 (A := A))). { split; [reflexivity |]. split; [reflexivity |]. split; [apply Rle_refl | apply bp0]. }
        destruct (add_in _ _ 20 Z0 I1 ltac:(lia)) as (S1 & _ & G1).
        assert (I2' : num_in 0 (bpow radix2 (20 + 1)) (fmul (fdiv t' (fsub (n1 (A := A)) e')) a')) by (eapply num_in_weaken; [exact I2 | apply Rle_refl | apply bpow_le; lia]).
        destruct (add_in _ _ (20 + 1) S1 I2' ltac:(lia)) as (S2 & G2 & G3).
        apply ent_rd in Et, Ea, Et', Ea'. rewrite Et, Ea, Et', Ea'. split; intros C1 C2.
        - specialize (L1 C1 C2). apply Rle_trans with (1 := L1). apply Rle_trans with (1 := G1). exact G2.
        - specialize (L2 C1 C2). apply Rle_trans with (1 := L2). exact G3. }
      destruct (Go k Hk) as [G | (Hk1 & G)].
      - exists k. split; [exact Hk |]. intros w H. destruct (Nat.eq_dec k 0) as [-> | D]; [| destruct (T k w ltac:(lia) H) as (X & _); auto].
        unfold frontier in H. cbv zeta in H. rewrite Mo in H. cbn [Nat.eqb] in H.
        apply bind_ok_inv in H. destruct H as (t & Et & H). apply bind_ok_inv in H. destruct H as (a & Ea & H). apply ent_rd in Et, Ea.
        assert (Xt := Tr 0%nat ltac:(lia)). rewrite Et in Xt. assert (Xa := A0 0%nat ltac:(lia)). rewrite Ea in Xa. change 1 with (bpow radix2 0) in Xt, Xa.
        destruct (mul_in t a 0 0 Xt Xa ltac:(lia)) as (M & _).
        assert (M' : num_in 0 (bpow radix2 34) (fmul t a)) by (eapply num_in_weaken; [exact M | apply Rle_refl | apply bpow_le; lia]).
        match type of H with accM _ ?f _ = _ => assert (F : forall src v, (src < hh_size m)%nat -> f src = Ok v -> num_in 0 (bpow radix2 34) v) end.
        { intros src v Hs E. eapply enter_in; [exact Hi | exact Hs | exact E]. }
        assert (C34 : (-1000 <= 34 <= 900)%Z) by lia.
        destruct (acc_in fexp fln 34 (hh_size m) _ (fmul t a) w SIZE C34 M' F H) as (_ & S & _).
        apply Rle_trans with (2 := S). cbn [Nat.mul] in G. rewrite Et in G. rewrite Ea in La. change (-160)%Z with (-100 + -60)%Z. apply mul_low; auto; [| | lia].
        + eapply num_in_weaken; [exact Xt | apply Rle_refl | apply bpow_le; lia].
        + eapply num_in_weaken; [exact Xa | apply Rle_refl | apply bpow_le; lia].
      - exists (k + 1)%nat. split; [exact Hk1 |]. intros w H. destruct (T (k + 1)%nat w ltac:(lia) H) as (_ & X). replace (k + 1 - 1)%nat with k in X by lia. auto.
    Qed.
  End Frontier.

  (** The masses of an exit level. *)
  Lemma masses_in (lev : hrun A -> list f64) (ms : list (string * hclass A)) v v' :
    (forall l h, In (l, h) ms -> (Z.of_nat (hc_n h) < 2 ^ 32)%Z /\ forall k, (k < hc_n h)%nat -> num_in 0 1 (ent (lev (hc_run h)) k)) ->
    level_masses (A := A) lev ms v = Ok v' -> forall c, (c < length ms)%nat -> num_in 0 (bpow radix2 33) (ent v' c).
  Proof.
    intros Hm H. unfold level_masses in H.
    refine (iterM_inv_ok (fun k v => forall c, (c < k)%nat -> num_in 0 (bpow radix2 33) (ent v c)) (length ms) _ v v' _ _ H); [intros; lia |].
    intros k a b Hk I E c Hc. apply bind_ok_inv in E. destruct E as ((l & h) & Ee & E). apply bind_ok_inv in E. destruct E as (s & Es & E). cbn [snd] in Es.
    assert (Ih : In (l, h) ms). { unfold rd in Ee. destruct (nth_error ms k) eqn:X; [| discriminate]. injection Ee as ->. eapply nth_error_In, X. }
    destruct (Hm l h Ih) as (Ln & B). destruct (wr_nth (X := f64) _ _ _ _ (S754_zero false) E) as (_ & Nw & Ow). unfold ent in *.
    destruct (Nat.eq_dec c k) as [-> | D]; [| rewrite (Ow c D); apply I; lia]. rewrite Nw.
    assert (Z0 : num_in 0 (bpow radix2 0) (n0 (A := A))). { split; [reflexivity |]. split; [reflexivity |]. split; [apply Rle_refl | apply bp0]. }
    destruct (acc_in fexp fln 0 (hc_n h) (rd (lev (hc_run h))) (n0 (A := A)) s Ln ltac:(lia) Z0) with (2 := Es) as (S & _); [| exact S].
    intros j x Hj Ex. apply (rd_nth (X := f64) _ _ _ (S754_zero false)) in Ex. destruct Ex as (<- & _). apply B, Hj.
  Qed.
End Sweep.
