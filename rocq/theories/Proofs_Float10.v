(** The first frame and the next ones for one class, in binary64. *)
From Coq Require Import String ZArith QArith Reals Lra Lia Bool List Arith.
From Coq Require Import Floats.SpecFloat.
From Flocq Require Import Core.Core IEEE754.BinarySingleNaN.
From Verif Require Import Base BaseFacts Arith Spec_Float Spec_Float2 Spec_Float3 Proofs_Float1 Proofs_Float2 Proofs_Float3 Proofs_Float4 Proofs_Float5 Proofs_Float6 Proofs_Float7 Proofs_Float8 Proofs_Float9 Proofs_Single2.
From Verif Require Import Model_Map Model_Ring Model_Gaussian Model_Config Model_KMeans Model_GMM Model_HMM Model_HHMM.
Import ListNotations.
Local Open Scope R_scope.

#[local] Existing Instance Proofs_Float1.Hprec.
#[local] Existing Instance Proofs_Float1.Hmax.

Lemma tabM_nth {X} n (f : nat -> res X) l : tabM n f = Ok l -> forall c x, rd l c = Ok x -> f c = Ok x.
Proof.
  intros H c x R. unfold rd in R. destruct (nth_error l c) as [y |] eqn:E; [| discriminate]. injection R as ->. now destruct (nth_tabM _ _ _ _ _ H E).
Qed.

Section Class.
  Variables fexp fln : f64 -> f64.
  Hypothesis LM : libm_f64 fexp fln.
  Local Notation A := (FA fexp fln).

  Definition below (ts : list f64) (a : f64) : Prop := num_nonneg a /\ exists t, In t ts /\ fval a <= fval t.
  (** What one class contributes: the terms [ts] of the total, of which its forward variables are parts. *)
  Definition class_ok (lo : Prop) (h h' : hclass A) (ts : list f64) : Prop :=
    same_class fexp fln h h' /\ num_in 0 (bpow radix2 700) (h_inst (hc_run h')) /\ (1 <= length ts <= hc_n h)%nat /\
    (forall t, In t ts -> num_in 0 (bpow radix2 640) t) /\
    (forall k, (k < hc_n h)%nat -> below ts (ent (h_a0 (hc_run h')) k) /\ below ts (ent (h_a1 (hc_run h')) k) /\ below ts (ent (h_a2 (hc_run h')) k)) /\
    (forall t, In t ts -> exists k, (k < hc_n h)%nat /\ rnd (bpow radix2 (-20) * fval t) <= fval (ent (h_a0 (hc_run h')) k) <= fval (h_inst (hc_run h'))) /\
    (lo -> exists t, In t ts /\ bpow radix2 (-960) <= fval t).

  Lemma init_ok prior x i h norm h' norm' : frame_f64 x -> class_left_right h -> num_in (bpow radix2 (-100)) 1 (ent prior i) ->
    init_class (A := A) prior x i h norm = Ok (h', norm') -> exists ts, class_ok True h h' ts /\ norm' = fold_left fadd ts norm.
  Proof.
    intros Fx (Mo & N1 & St & _) Pr H. unfold init_class in H. cbv zeta in H. rewrite Mo in H. apply bind_ok_inv in H. destruct H as ((a0 & inst) & E & H).
    injection H as <- <-. apply bind_ok_inv in E. destruct E as (p & Ep & E). apply bind_ok_inv in E. destruct E as (o & Eo & E). apply bind_ok_inv in E. destruct E as (a & Ea & E). injection E as <- <-.
    apply ent_rd in Ep. rewrite Ep in Pr. assert (Ho := hm_obs_in fexp fln LM h x 0 o St Fx Eo). exists [nmul (a := A) p o]. split; [| reflexivity]. change (nmul (a := A) p o) with (fmul p o) in *. set (t := fmul p o) in *.
    change 1 with (bpow radix2 0) in Pr. assert (Pr' : num_in 0 (bpow radix2 0) p) by (eapply num_in_weaken; [exact Pr | apply bp0 | apply Rle_refl]).
    assert (Ho' : num_in 0 (bpow radix2 570) o) by (eapply num_in_weaken; [exact Ho | apply bp0 | apply Rle_refl]).
    destruct (mul_in p o 0 570 Pr' Ho' ltac:(lia)) as (M & Et). fold t in M, Et. change (0 + 570)%Z with 570%Z in M.
    assert (Lt : bpow radix2 (-898) <= fval t).
    { rewrite Et. rewrite <- (rnd_bpow (-898)) by lia. apply rnd_le. change (-898)%Z with (-100 + -798)%Z. rewrite bpow_plus. apply Rmult_le_compat; try apply bp0; [apply Pr | apply Ho]. }
    assert (Pt : num_nonneg t) by (eapply num_in_nonneg; [| exact M]; apply Rle_refl).
    assert (Bt : below [t] t) by (split; [exact Pt | exists t; split; [now left | apply Rle_refl]]).
    assert (Bz : forall k, below [t] (ent (repeat (n0 (A := A)) (hc_n h)) k)).
    { intros k. assert (E : ent (repeat (n0 (A := A)) (hc_n h)) k = S754_zero false) by (unfold ent; apply (@nth_repeat f64)). rewrite E. split; [apply zero_nonneg |]. exists t. split; [now left |]. apply Pt. }
    assert (Ba : forall k, ent a k = t \/ ent a k = ent (repeat (n0 (A := A)) (hc_n h)) k).
    { intros k. destruct (wr_nth (X := f64) _ _ _ _ (S754_zero false) Ea) as (_ & Nw & Ow). unfold ent. destruct (Nat.eq_dec k 0) as [-> | D]; [left; exact Nw | right; exact (Ow k D)]. }
    assert (A0 : ent a 0 = t). { destruct (wr_nth (X := f64) _ _ _ _ (S754_zero false) Ea) as (_ & Nw & _). exact Nw. }
    split; [repeat split |]. cbn [hc_run hc_set_run h_inst h_a0 h_a1 h_a2 rn_inst rn_alpha_h].
    split; [eapply num_in_weaken; [exact M | apply Rle_refl | apply bpow_le; lia] |]. split; [cbn; lia |].
    split; [intros y [<- | []]; eapply num_in_weaken; [exact M | apply Rle_refl | apply bpow_le; lia] |].
    split; [intros k Hk; split; [destruct (Ba k) as [-> | ->]; auto | auto] |].
    split.
    - intros y [<- | []]. exists 0%nat. split; [lia |]. rewrite A0. split; [| apply Rle_refl]. rewrite <- (rnd_fval t) at 2 by apply Pt. apply rnd_le.
      rewrite <- (Rmult_1_l (fval t)) at 2. apply Rmult_le_compat_r; [apply Pt |]. change 1 with (bpow radix2 0). apply bpow_le. lia.
    - intros _. exists t. split; [now left |]. apply Rle_trans with (2 := Lt). apply bpow_le. lia.
  Qed.

  (** One state. *)
  Definition state_ok (t b0 b1 b2 : f64) : Prop :=
    num_in 0 (bpow radix2 640) t /\ num_in 0 (fval t) b0 /\ num_in 0 (fval t) b1 /\ num_in 0 (fval t) b2 /\ rnd (bpow radix2 (-20) * fval t) <= fval b0.

  Lemma state_step o f q e : num_in (bpow radix2 (-798)) (bpow radix2 570) o -> num_in 0 (bpow radix2 70) f -> num_in 0 1 q -> num_in 0 (1 - bpow radix2 (-20)) e ->
    let t := fmul o f in
    state_ok t (fmul (fsub (n1 (A := A)) e) t) (fmul (fmul (fsub (n1 (A := A)) q) e) t) (fmul (fmul q e) t) /\
    (bpow radix2 (-160) <= fval f -> bpow radix2 (-960) <= fval t).
  Proof.
    intros Ho Hf Hq He t. assert (Ho' : num_in 0 (bpow radix2 570) o) by (eapply num_in_weaken; [exact Ho | apply bp0 | apply Rle_refl]).
    destruct (mul_in o f 570 70 Ho' Hf ltac:(lia)) as (M & Et). fold t in M, Et. change (570 + 70)%Z with 640%Z in M.
    assert (Pt : num_nonneg t) by (eapply num_in_nonneg; [| exact M]; apply Rle_refl).
    assert (Rb : rnd (bpow radix2 (-20)) = bpow radix2 (-20)) by (apply rnd_bpow; lia). assert (D := comp_in fexp fln e (bpow radix2 (-20)) He Rb (bp0 _)).
    assert (Hq0 : num_in 0 (1 - 0) q) by (eapply num_in_weaken; [exact Hq | apply Rle_refl | lra]).
    assert (Dq := comp_in fexp fln q 0 Hq0 rnd_0 (Rle_refl 0)).
    assert (He1 : num_in 0 (bpow radix2 0) e). { eapply num_in_weaken; [exact He | apply Rle_refl |]. assert (H := bp0 (-20)). change (bpow radix2 0) with 1. lra. }
    change 1 with (bpow radix2 0) in Dq at 1. pose proof Hq as Hq'. change 1 with (bpow radix2 0) in Hq'.
    destruct (mul_in _ e 0 0 Dq He1 ltac:(lia)) as (M1 & _). destruct (mul_in q e 0 0 Hq' He1 ltac:(lia)) as (M2 & _). change (bpow radix2 (0 + 0)) with 1 in M1, M2.
    assert (D0 : num_in 0 1 (fsub (n1 (A := A)) e)) by (eapply num_in_weaken; [exact D | apply bp0 | apply Rle_refl]).
    destruct (mul_weight _ t D0 Pt) as ((X1 & X2 & X3) & X4 & X5). destruct (mul_weight _ t M1 Pt) as ((Y1 & Y2 & Y3) & Y4 & Y5). destruct (mul_weight _ t M2 Pt) as ((W1 & W2 & W3) & W4 & W5).
    split; [split; [exact M |]; split; [split; [exact X1 | split; [exact X2 | split; [exact X3 | exact X5]]] |]; split; [split; [exact Y1 | split; [exact Y2 | split; [exact Y3 | exact Y5]]] |];
      split; [split; [exact W1 | split; [exact W2 | split; [exact W3 | exact W5]]] |] |].
    - rewrite X4. apply rnd_le. apply Rmult_le_compat_r; [apply Pt | apply D].
    - intros Lf. rewrite Et. rewrite <- (rnd_bpow (-960)) by lia. apply rnd_le. apply Rle_trans with (bpow radix2 (-798 + -160)); [apply bpow_le; lia |]. rewrite bpow_plus. apply Rmult_le_compat; try apply bp0; [apply Ho | exact Lf].
  Qed.

  Lemma update_ok (m : hhmm A) v1 v2 x i h norm h' norm' : frame_f64 x -> class_left_right h -> (Z.of_nat (hc_n h) < 2 ^ 32)%Z ->
    (forall k w, (k < hc_n h)%nat -> frontier (A := A) m v1 v2 i h k = Ok w -> num_in 0 (bpow radix2 70) w) -> num_in 0 1 (ent (hh_exit m) i) ->
    update_class (A := A) m v1 v2 x i h norm = Ok (h', norm') ->
    exists ts, class_ok (exists k, (k < hc_n h)%nat /\ forall w, frontier (A := A) m v1 v2 i h k = Ok w -> bpow radix2 (-160) <= fval w) h h' ts /\ norm' = fold_left fadd ts norm.
  Proof.
    intros Fx LR Ln Hfr Hq H. pose proof LR as (Mo & N1 & St & _ & Ex & _). unfold update_class in H. cbv zeta in H.
    apply bind_ok_inv in H. destruct H as (front & Ef & H). apply bind_ok_inv in H. destruct H as (s & Es & H).
    apply (iterM_inv_ok (fun k s => let '(a0, a1, a2, _, inst, nm) := s in exists ts : list f64, length ts = k /\ nm = fold_left fadd ts norm /\ num_in 0 (sum_bound (bpow radix2 642) k) inst /\
      forall j, (j < k)%nat -> state_ok (ent ts j) (ent a0 j) (ent a1 j) (ent a2 j) /\ fval (ent a0 j) <= fval inst /\
        exists w, frontier (A := A) m v1 v2 i h j = Ok w /\ (bpow radix2 (-160) <= fval w -> bpow radix2 (-960) <= fval (ent ts j)))) in Es.
    - destruct s as (((((a0 & a1) & a2) & ex) & inst) & nm). destruct Es as (ts & Lt & En & Bi & J). injection H as <- <-. exists ts. split; [| exact En].
      split; [repeat split |]. cbn [hc_run hc_set_run h_inst h_a0 h_a1 h_a2 rn_inst rn_alpha_h rn_exit].
      assert (It : forall t, In t ts -> exists j, (j < hc_n h)%nat /\ ent ts j = t). { intros t It. apply (In_nth (A := f64) _ _ (S754_zero false)) in It. destruct It as (j & Hj & Ej). exists j. split; [lia | exact Ej]. }
      assert (Ie : forall j, (j < hc_n h)%nat -> In (ent ts j) ts) by (intros j Hj; unfold ent; apply nth_In; rewrite <- Lt in Hj; exact Hj).
      split; [eapply num_in_weaken; [exact Bi | apply Rle_refl |]; eapply Rle_trans; [apply sum_bound_le; [lia | apply bp0] |]; rewrite <- bpow_plus; apply bpow_le; lia |].
      split; [lia |]. split; [intros t T; destruct (It t T) as (j & Hj & <-); apply (J j Hj) |].
      split.
      { intros k Hk. destruct (J k Hk) as ((S1 & S2 & S3 & S4 & _) & _).
        assert (Q : forall b, num_in 0 (fval (ent ts k)) b -> below ts b) by (intros b Hb; split; [eapply num_in_nonneg; [| exact Hb]; apply Rle_refl | exists (ent ts k); split; [apply Ie, Hk | apply Hb]]).
        auto. }
      split.
      { intros t T. destruct (It t T) as (j & Hj & <-). exists j. split; [exact Hj |]. destruct (J j Hj) as ((_ & _ & _ & _ & S5) & S6 & _). auto. }
      intros (k & Hk & Lk). destruct (J k Hk) as (_ & _ & w & Ew & Lw). exists (ent ts k). split; [apply Ie, Hk | apply Lw, Lk, Ew].
    - exists []. split; [reflexivity |]. split; [reflexivity |]. split; [| intros; lia]. unfold sum_bound. cbn [INR pow]. split; [reflexivity |]. split; [reflexivity |]. change (fval (n0 (A := A))) with 0. lra.
    - clear s H Es. intros k (((((a0 & a1) & a2) & ex) & inst) & nm) s' Hk (ts & Lt & En & Bi & J) E.
      apply bind_ok_inv in E. destruct E as (o & Eo & E). apply bind_ok_inv in E. destruct E as (f & Er & E). apply bind_ok_inv in E. destruct E as (q & Eq & E). apply bind_ok_inv in E. destruct E as (e & Ee & E).
      apply bind_ok_inv in E. destruct E as (b2 & Eb2 & E). apply bind_ok_inv in E. destruct E as (b1 & Eb1 & E). apply bind_ok_inv in E. destruct E as (b0 & Eb0 & E). injection E as <-.
      assert (Ho := hm_obs_in fexp fln LM h x k o St Fx Eo). assert (Ew := tabM_nth _ _ _ Ef k f Er). assert (Hf := Hfr k f Hk Ew).
      apply ent_rd in Eq, Ee. rewrite Eq in Hq. assert (He := Ex k Hk). rewrite Ee in He.
      destruct (state_step o f q e Ho Hf Hq He) as (S & Lo). set (t := fmul o f) in *.
      change (nmul (a := A) o f) with t in *. change (nsub (a := A) n1 e) with (fsub (n1 (A := A)) e) in *. change (nsub (a := A) n1 q) with (fsub (n1 (A := A)) q) in *.
      change (nmul (a := A) (fsub (n1 (A := A)) e) t) with (fmul (fsub (n1 (A := A)) e) t) in *.
      change (nmul (a := A) (nmul (a := A) (fsub (n1 (A := A)) q) e) t) with (fmul (fmul (fsub (n1 (A := A)) q) e) t) in *.
      change (nmul (a := A) (nmul (a := A) q e) t) with (fmul (fmul q e) t) in *.
      set (u0 := fmul (fsub (n1 (A := A)) e) t) in *. set (u1 := fmul (fmul (fsub (n1 (A := A)) q) e) t) in *. set (u2 := fmul (fmul q e) t) in *.
      change (num A) with f64 in *.
      destruct (wr_nth (X := f64) _ _ _ _ (S754_zero false) Eb0) as (_ & Nw0 & Ow0). destruct (wr_nth (X := f64) _ _ _ _ (S754_zero false) Eb1) as (_ & Nw1 & Ow1). destruct (wr_nth (X := f64) _ _ _ _ (S754_zero false) Eb2) as (_ & Nw2 & Ow2).
      pose proof S as (S1 & S2 & S3 & S4 & S5).
      assert (U : forall b, num_in 0 (fval t) b -> num_in 0 (bpow radix2 640) b) by (intros b Hb; eapply num_in_weaken; [exact Hb | apply Rle_refl | apply S1]).
      destruct (add_in u0 u1 640 (U _ S2) (U _ S3) ltac:(lia)) as (P1 & P2 & _).
      assert (U2 : num_in 0 (bpow radix2 (640 + 1)) u2) by (eapply num_in_weaken; [apply U, S4 | apply Rle_refl | apply bpow_le; lia]).
      destruct (add_in _ u2 (640 + 1) P1 U2 ltac:(lia)) as (P3 & P4 & _). change (640 + 1 + 1)%Z with 642%Z in P3.
      assert (LB : bpow radix2 642 <= bpow radix2 950) by (apply bpow_le; lia).
      destruct (add_step (bpow radix2 642) k inst _ ltac:(lia) (bp0 _) LB Bi P3) as (P5 & P6 & P7).
      exists (ts ++ [t]). split; [rewrite app_length, Lt; cbn; lia |]. split; [rewrite fold_left_app; cbn [fold_left]; change f64 with spec_float in *; rewrite <- En; reflexivity |]. split; [exact P5 |].
      intros j Hj. change (nadd (a := A) inst (nadd (a := A) (nadd (a := A) u0 u1) u2)) with (fadd inst (fadd (fadd u0 u1) u2)). unfold ent in *. destruct (Nat.eq_dec j k) as [-> | D].
      + rewrite Nw0, Nw1, Nw2. rewrite app_nth2 by lia. rewrite Lt, Nat.sub_diag. cbn [nth]. split; [exact S |]. split; [exact (Rle_trans _ _ _ (Rle_trans _ _ _ P2 P4) P7) |]. exists f. auto.
      + rewrite (Ow0 j D), (Ow1 j D), (Ow2 j D). rewrite app_nth1 by lia. destruct (J j ltac:(lia)) as (J1 & J2 & J3). split; [exact J1 |]. split; [exact (Rle_trans _ _ _ J2 P6) | exact J3].
  Qed.
End Class.
