(** Products, sums and quotients of bounded doubles; the likelihood of a state. *)
From Coq Require Import String ZArith QArith Reals Lra Lia Bool List Arith.
From Coq Require Import Floats.SpecFloat.
From Flocq Require Import Core.Core IEEE754.BinarySingleNaN.
From Verif Require Import Base BaseFacts Arith Spec_Float Spec_Float2 Spec_Float3 Proofs_Float1 Proofs_Float2 Proofs_Float3 Proofs_Float4 Proofs_Float5 Proofs_Float6 Proofs_Float7.
From Verif Require Import Model_Map Model_Ring Model_Gaussian Model_Config Model_KMeans Model_GMM Model_HMM Model_HHMM.
Import ListNotations.
Local Open Scope R_scope.

#[local] Existing Instance Proofs_Float1.Hprec.
#[local] Existing Instance Proofs_Float1.Hmax.

Lemma num_in_weaken a b c d x : num_in a b x -> c <= a -> b <= d -> num_in c d x.
Proof. intros (V & N & B) H1 H2. split; [exact V |]. split; [exact N | lra]. Qed.
Lemma num_in_nonneg a b x : 0 <= a -> num_in a b x -> num_nonneg x.
Proof. intros H (V & N & B). split; [exact V |]. split; [exact N | lra]. Qed.

Lemma bp0 e : 0 <= bpow radix2 e.
Proof. apply bpow_ge_0. Qed.

(** Powers of two as bounds. *)
Lemma mul_in x y i j : num_in 0 (bpow radix2 i) x -> num_in 0 (bpow radix2 j) y -> (-1074 <= i + j <= 1000)%Z -> num_in 0 (bpow radix2 (i + j)) (SFmul fprec femax x y) /\ fval (SFmul fprec femax x y) = rnd (fval x * fval y).
Proof.
  intros (Vx & Nx & Bx) (Vy & Ny & By) L.
  assert (B : 0 <= fval x * fval y <= bpow radix2 (i + j)).
  { split; [apply Rmult_le_pos; lra |]. rewrite bpow_plus. apply Rmult_le_compat; lra. }
  assert (Q : 0 <= rnd (fval x * fval y) <= bpow radix2 (i + j)).
  { split; [apply rnd_nonneg; lra |]. rewrite <- (rnd_bpow (i + j)) by lia. apply rnd_le. lra. }
  destruct (f_mul_num x y Vx Vy Nx Ny) as (N & E).
  { rewrite Rabs_pos_eq by lra. apply Rle_lt_trans with (1 := proj2 Q). apply bpow_lt. lia. }
  split; [| exact E]. split; [now apply f_mul_valid |]. split; [exact N |]. now rewrite E.
Qed.
Lemma mul_low x y i j : num_in 0 (bpow radix2 500) x -> num_in 0 (bpow radix2 500) y -> bpow radix2 i <= fval x -> bpow radix2 j <= fval y -> (-1074 <= i + j)%Z -> bpow radix2 (i + j) <= fval (SFmul fprec femax x y).
Proof.
  intros X Y Lx Ly L. destruct (mul_in x y 500 500 X Y ltac:(lia)) as (_ & ->). rewrite <- (rnd_bpow (i + j)) by lia. apply rnd_le. rewrite bpow_plus. apply Rmult_le_compat; auto using bp0.
Qed.
Lemma add_in x y i : num_in 0 (bpow radix2 i) x -> num_in 0 (bpow radix2 i) y -> (-1074 <= i <= 1000)%Z ->
  num_in 0 (bpow radix2 (i + 1)) (SFadd fprec femax x y) /\ fval x <= fval (SFadd fprec femax x y) /\ fval y <= fval (SFadd fprec femax x y).
Proof.
  intros (Vx & Nx & Bx) (Vy & Ny & By) L.
  assert (B : 0 <= fval x + fval y <= bpow radix2 (i + 1)). { split; [lra |]. rewrite bpow_plus. change (bpow radix2 1) with 2. lra. }
  assert (Q : 0 <= rnd (fval x + fval y) <= bpow radix2 (i + 1)).
  { split; [apply rnd_nonneg; lra |]. rewrite <- (rnd_bpow (i + 1)) by lia. apply rnd_le. lra. }
  destruct (f_add_num x y Vx Vy Nx Ny) as [(N & E) | (s & _ & C & _)].
  - split; [split; [now apply f_add_valid | split; [exact N | now rewrite E]] |]. rewrite E. split; [apply rnd_le_x; auto; lra | rewrite Rplus_comm; apply rnd_le_x; auto; lra].
  - exfalso. rewrite Rabs_pos_eq in C by lra. assert (bpow radix2 (i + 1) < bpow radix2 1024) by (apply bpow_lt; lia). lra.
Qed.

(** [1 - e]. *)
Lemma FA_n1 fexp fln : is_f64 (n1 (A := FA fexp fln)) /\ is_num (n1 (A := FA fexp fln)) = true /\ fval (n1 (A := FA fexp fln)) = 1.
Proof.
  destruct (nN_val fexp fln 1 ltac:(lia) ltac:(lia)) as (V & N & E). cbv zeta in *. assert (X : nN (A := FA fexp fln) 1 = n1 (A := FA fexp fln)) by reflexivity.
  rewrite X in *. split; [exact V |]. split; [exact N |]. rewrite E. reflexivity.
Qed.
Lemma comp_in fexp fln e b : num_in 0 (1 - b) e -> rnd b = b -> 0 <= b -> num_in b 1 (SFsub fprec femax (n1 (A := FA fexp fln)) e).
Proof.
  intros (V & N & B) Rb Pb. destruct (FA_n1 fexp fln) as (V1 & N1 & E1). set (o := n1 (A := FA fexp fln)) in *.
  assert (O : forall z, is_f64 z -> is_f64 (SFopp z) /\ fval (SFopp z) = - fval z /\ is_num (SFopp z) = is_num z).
  { clear. intros z Vz. split; [| split].
    - destruct (as_bin z Vz) as (b & -> & _ & _). clear. destruct b; try reflexivity. exact e0.
    - clear. destruct z as [s | s | | s m e]; unfold fval; cbn; [ring.. |]. rewrite <- F2R_Zopp. now destruct s.
    - now destruct z. }
  destruct (O e V) as (V' & F' & N'). assert (Es : SFsub fprec femax o e = SFadd fprec femax o (SFopp e)).
  { subst o. clear. destruct e as [s | s | | s m x]; try reflexivity; cbn; destruct s; try reflexivity. }
  assert (Q : b <= rnd (fval o + fval (SFopp e)) <= 1).
  { rewrite F', E1. split; [rewrite <- Rb at 1; apply rnd_le; lra | rewrite <- rnd_1 at 2; apply rnd_le; lra]. }
  rewrite Es. destruct (f_add_num o (SFopp e) V1 V' N1 ltac:(now rewrite N')) as [(Nn & E) | (s & _ & C & _)].
  - split; [now apply f_add_valid |]. split; [exact Nn |]. rewrite E. exact Q.
  - exfalso. rewrite Rabs_pos_eq in C by lra. assert (bpow radix2 0 < bpow radix2 1024) by (apply bpow_lt; lia). change (bpow radix2 0) with 1 in H. lra.
Qed.

(** A quotient by a number that is at most 1. *)
Lemma div_in t d i j : num_in 0 (bpow radix2 i) t -> num_in (bpow radix2 j) 1 d -> (-1074 <= i - j <= 1000)%Z ->
  num_in 0 (bpow radix2 (i - j)) (SFdiv fprec femax t d) /\ fval t <= fval (SFdiv fprec femax t d).
Proof.
  intros (Vt & Nt & Bt) (Vd & Nd & Bd) L. assert (Pd : 0 < bpow radix2 j) by apply bpow_gt_0.
  assert (B : fval t <= fval t / fval d <= bpow radix2 (i - j)).
  { assert (I : 1 <= / fval d <= bpow radix2 (- j)).
    { split; [rewrite <- Rinv_1 at 1; apply Rinv_le_contravar; lra |]. rewrite bpow_opp. apply Rinv_le_contravar; lra. }
    unfold Rdiv. split; [rewrite <- (Rmult_1_r (fval t)) at 1; apply Rmult_le_compat_l; lra |]. unfold Zminus. rewrite bpow_plus. apply Rmult_le_compat; lra. }
  assert (Q : fval t <= rnd (fval t / fval d) <= bpow radix2 (i - j)).
  { split; [rewrite <- (rnd_fval t Vt) at 1; apply rnd_le; lra |]. rewrite <- (rnd_bpow (i - j)) by lia. apply rnd_le. lra. }
  destruct (f_div_num t d Vt Vd Nt ltac:(lra)) as (N & E).
  { rewrite Rabs_pos_eq by lra. apply Rle_lt_trans with (1 := proj2 Q). apply bpow_lt. lia. }
  rewrite E. split; [| lra]. split; [now apply f_div_valid |]. split; [exact N |]. rewrite E. lra.
Qed.

Lemma rnd_half x : bpow radix2 (-1020) <= x -> x / 2 <= rnd x.
Proof.
  intros L. assert (P := bpow_gt_0 radix2 (-1020)). destruct (rnd_any x ltac:(lra)) as (H & _). apply Rle_trans with (2 := H).
  assert (U : 0 < uround <= / 4). { split; [apply uround_pos |]. unfold uround. change (/ 4) with (bpow radix2 (-2)). apply bpow_le. lia. }
  assert (F : ufloor <= x / 4). { unfold ufloor. apply Rle_trans with (bpow radix2 (-1020) / 4); [| lra]. change (bpow radix2 (-1020) / 4) with (bpow radix2 (-1020) * bpow radix2 (-2)). rewrite <- bpow_plus. apply bpow_le. lia. }
  assert (D : x * (3 / 4) <= x / (1 + uround)). { unfold Rdiv at 2. apply Rmult_le_compat_l; [lra |]. apply (Rmult_le_reg_r (1 + uround)); [lra |]. rewrite Rinv_l by lra. lra. }
  lra.
Qed.

(** Sums of bounded terms. *)
Section Acc.
  Variables fexp fln : f64 -> f64.
  Local Notation A := (FA fexp fln).

  Lemma sum_bound_mono B k : 0 <= B -> sum_bound B k <= sum_bound B (S k).
  Proof.
    intros PB. unfold sum_bound. destruct uround_pos as (U & _). rewrite S_INR. assert (P := pos_INR k). assert (G : 0 < (1 + uround) ^ k) by (apply pow_lt; lra).
    apply Rmult_le_compat; [now apply Rmult_le_pos | lra | apply Rmult_le_compat_r; lra |]. cbn [pow]. rewrite <- (Rmult_1_l ((1 + uround) ^ k)) at 1. apply Rmult_le_compat_r; lra.
  Qed.

  Lemma acc_in i n (f : nat -> res f64) a s : (Z.of_nat n < 2 ^ 32)%Z -> (-1000 <= i <= 900)%Z -> num_in 0 (bpow radix2 i) a ->
    (forall k v, (k < n)%nat -> f k = Ok v -> num_in 0 (bpow radix2 i) v) -> accM (A := A) n f a = Ok s ->
    num_in 0 (bpow radix2 (i + 33)) s /\ fval a <= fval s /\ forall k v, (k < n)%nat -> f k = Ok v -> fval v <= fval s.
  Proof.
    intros Hn Hi Ha Hf H. unfold accM in H.
    assert (PB := bp0 i). assert (LB : bpow radix2 i <= bpow radix2 950) by (apply bpow_le; lia).
    apply (iterM_inv_ok (fun k (s : f64) => num_in 0 (sum_bound (bpow radix2 i) (S k)) s /\ fval a <= fval s /\ forall j v, (j < k)%nat -> f j = Ok v -> fval v <= fval s)) in H.
    - destruct H as (H1 & H2 & H3). split; [| auto]. eapply num_in_weaken; [exact H1 | lra |]. eapply Rle_trans; [apply sum_bound_le; [lia | exact PB] |]. rewrite <- bpow_plus. apply bpow_le. lia.
    - split; [| split; [apply Rle_refl | intros; lia]]. eapply num_in_weaken; [exact Ha | lra |]. unfold sum_bound. destruct uround_pos as (U & _). cbn [pow INR].
      rewrite Rmult_1_l, Rmult_1_r. rewrite <- (Rmult_1_r (bpow radix2 i)) at 1. apply Rmult_le_compat_l; lra.
    - intros k x y Hk (X1 & X2 & X3) E. apply bind_ok_inv in E. destruct E as (v & Ev & E). injection E as <-. change (nadd (a := A) x v) with (SFadd fprec femax x v).
      assert (Hv := Hf k v Hk Ev). pose proof X1 as (Vx & Nx & Bx). pose proof Hv as (Vv & Nv & Bv).
      assert (X1' : num_in (- sum_bound (bpow radix2 i) (S k)) (sum_bound (bpow radix2 i) (S k)) x). { eapply num_in_weaken; [exact X1 | lra | apply Rle_refl]. }
      assert (Hv' : num_in (- bpow radix2 i) (bpow radix2 i) v) by (eapply num_in_weaken; [exact Hv | lra | apply Rle_refl]).
      destruct (sum_step (bpow radix2 i) (S k) x v ltac:(lia) PB LB X1' Hv') as (V & N & B).
      assert (Nx' : nn x) by (apply nonneg_nn; split; [exact Vx | split; [exact Nx | lra]]). assert (Nv' : nn v) by (apply nonneg_nn; split; [exact Vv | split; [exact Nv | lra]]).
      destruct (add_nn x v Nx' Nv') as (_ & Q). destruct (Q N) as (_ & _ & _ & Q1 & Q2).
      split; [split; [exact V | split; [exact N | split; [lra | apply B]]] |]. split; [lra |]. intros j w Hj Ew. destruct (Nat.eq_dec j k) as [-> | D]; [assert (w = v) by congruence; subst; exact Q2 |].
      apply Rle_trans with (fval x); [apply (X3 j w); [lia | exact Ew] | exact Q1].
  Qed.
End Acc.

(** The likelihood of a state. *)
Section Obs.
  Variables fexp fln : f64 -> f64.
  Hypothesis LM : libm_f64 fexp fln.
  Local Notation A := (FA fexp fln).

  Lemma comp_obs (g : gclass A) x c v : state_diag g -> frame_f64 x -> gm_obs (A := A) g x c = Ok v \/ gm_obs_input (A := A) g x c = Ok v ->
    num_in 0 (bpow radix2 537) v /\ exists w, nth_error (gc_coef g) c = Some w /\ (bpow radix2 (-200) <= fval w -> bpow radix2 (-798) <= fval v).
  Proof.
    intros (((Lw & Fw & _) & Fk) & K & _) Fx H. assert (He := exp_doubles _ _ LM).
    assert (G : forall w k p, rd (gc_coef g) c = Ok w -> rd (gc_comp g) c = Ok k -> (g_likelihood (A := A) k x = Ok p \/ g_likelihood_input (A := A) k x = Ok p) -> v = SFmul fprec femax w p ->
      num_in 0 (bpow radix2 537) v /\ exists w, nth_error (gc_coef g) c = Some w /\ (bpow radix2 (-200) <= fval w -> bpow radix2 (-798) <= fval v)).
    { intros w k p Ew Ek Ep ->. unfold rd in Ew, Ek. destruct (nth_error (gc_comp g) c) eqn:E1; [| discriminate]. destruct (nth_error (gc_coef g) c) as [t |] eqn:E2; [| discriminate].
      injection Ek as <-. injection Ew as <-. rewrite Forall_forall in Fw, Fk, K. apply nth_error_In in E1.
      assert (P : num_nonneg p /\ bpow radix2 (-598) <= fval p). { destruct Ep as [Ep | Ep]; [eapply (lik_num fexp fln He) | eapply (lik_input_num fexp fln He)]; eauto. }
      destruct P as (P & Lp). assert (W := Fw _ (nth_error_In _ _ E2)). destruct (mul_weight _ p W P) as ((V1 & N1 & P1) & E & M).
      split.
      - split; [exact V1 |]. split; [exact N1 |]. split; [exact P1 |]. apply Rle_trans with (1 := M). eapply (lik_le fexp fln LM); eauto.
      - exists t. split; [reflexivity |]. intros L. eapply (scored_pos t _ W L). exists p. auto. }
    destruct H as [H | H].
    - unfold gm_obs in H. destruct (gc_n g <=? c)%nat; [discriminate |].
      apply bind_ok_inv in H. destruct H as (w & Ew & H). apply bind_ok_inv in H. destruct H as (k & Ek & H). apply bind_ok_inv in H. destruct H as (p & Ep & H).
      injection H as H. apply (G w k p); auto.
    - unfold gm_obs_input in H. destruct (negb (gc_bim g)); [discriminate |].
      apply bind_ok_inv in H. destruct H as (w & Ew & H). apply bind_ok_inv in H. destruct H as (k & Ek & H). apply bind_ok_inv in H. destruct H as (p & Ep & H).
      injection H as H. apply (G w k p); auto.
  Qed.

  Lemma state_obs (g : gclass A) x (f : nat -> res f64) s : state_diag g -> frame_f64 x -> (forall c v, f c = Ok v -> gm_obs (A := A) g x c = Ok v \/ gm_obs_input (A := A) g x c = Ok v) ->
    accM (A := A) (gc_n g) f n0 = Ok s -> num_in (bpow radix2 (-798)) (bpow radix2 570) s.
  Proof.
    intros D Fx Hf H. pose proof D as (((Lw & Fw & (w0 & Iw & Pw)) & Fk) & K & Ln).
    assert (Z0 : num_in 0 (bpow radix2 537) (n0 (A := A))). { split; [reflexivity |]. split; [reflexivity |]. split; [apply Rle_refl | apply bp0]. }
    assert (F : forall c v, (c < gc_n g)%nat -> f c = Ok v -> num_in 0 (bpow radix2 537) v) by (intros c v _ E; eapply comp_obs; eauto).
    assert (I : forall i, (i < gc_n g)%nat -> exists v, f i = Ok v).
    { intros i Hi. unfold accM in H. assert (T : forall n a s, iterM n (fun i s => let* x := f i in Ok (nadd (a := A) s x)) a = Ok s -> (i < n)%nat -> exists v, f i = Ok v).
      { clear. intros n a s H. refine (iterM_inv_ok (fun k _ => (i < k)%nat -> exists v, f i = Ok v) n _ a s _ _ H); [lia |].
        intros k b c Hk I E L. apply bind_ok_inv in E. destruct E as (v & Ev & _). destruct (Nat.eq_dec i k) as [-> | D]; [eauto | apply I; lia]. }
      eapply T; eauto. }
    destruct (acc_in fexp fln 537 (gc_n g) f (n0 (A := A)) s Ln ltac:(lia) Z0 F H) as ((V & N & B) & _ & M).
    split; [exact V |]. split; [exact N |]. split; [| apply B].
    apply In_nth_error in Iw. destruct Iw as (c & Ec). assert (Hc : (c < gc_n g)%nat) by (rewrite <- Lw; apply nth_error_Some; congruence).
    destruct (I c Hc) as (v & Ev). destruct (comp_obs g x c v D Fx (Hf c v Ev)) as (_ & w & Ew & Lv). assert (Q : Some w = Some w0) by (rewrite <- Ew; exact Ec). injection Q as ->.
    apply Rle_trans with (fval v); [now apply Lv | eapply M; eauto].
  Qed.

  Lemma hm_obs_in (h : hclass A) x k v : Forall state_diag (h_states (hc_net h)) -> frame_f64 x -> hm_obs (A := A) h x k = Ok v -> num_in (bpow radix2 (-798)) (bpow radix2 570) v.
  Proof.
    intros D Fx H. unfold hm_obs in H. apply bind_ok_inv in H. destruct H as (g & Eg & H). rewrite Forall_forall in D.
    assert (Dg : state_diag g). { apply D. unfold rd in Eg. destruct (nth_error (h_states (hc_net h)) k) eqn:E; [| discriminate]. injection Eg as <-. eapply nth_error_In, E. }
    destruct (hc_bim h); [apply (state_obs g x (gm_obs_input (A := A) g x) v) | apply (state_obs g x (gm_obs (A := A) g x) v)]; auto.
  Qed.
End Obs.
