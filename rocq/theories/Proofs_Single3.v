(** A variance that is not positive: the initialisation fails. *)
From Coq Require Import ZArith Reals Lra Lia Bool List.
From Coq Require Import Floats.SpecFloat.
From Flocq Require Import Core.Core IEEE754.BinarySingleNaN.
From Verif Require Import Base BaseFacts Arith Model_Gaussian Model_Config Model_KMeans Model_GMM Spec_Gaussian Spec_Float Spec_Single Proofs_Float1 Proofs_Float2 Model_Single Proofs_GMM Proofs_Float4 Proofs_Float6 Proofs_Single1 Proofs_Single2.
Import ListNotations.

Section Fail.
  Context {A : arith}.

  Lemma foreach_reach {X} (f : X -> stm (gauss A) unit) d : (forall x, keeps (f x)) -> forall l s s' u, sforeach l f s = (s', Ok u) -> In d l ->
    exists s1 s2 u2, same_params s s1 /\ f d s1 = (s2, Ok u2).
  Proof.
    intros K. induction l as [| x l IH]; intros s s' u H I; [contradiction |]. cbn [sforeach] in H. unfold sbind in H. destruct (f x s) as [s1 r] eqn:E. destruct r as [u1 | |]; try discriminate.
    destruct I as [-> | I]; [exists s, s1, u1; split; [apply sp_refl | exact E] |]. destruct (IH s1 s' u H I) as (t1 & t2 & u2 & P & Q). exists t1, t2, u2. split; [| exact Q].
    eapply sp_trans; [| exact P]. pose proof (K x s) as Kx. rewrite E in Kx. exact Kx.
  Qed.

  Lemma inverse_positive (k k' : gauss A) d c : g_mode k = Diagonal -> (d < g_dim k)%nat -> rd (g_cov k) d = Ok c -> runm g_update_inv k = Ok k' -> nleb c n0 = false.
  Proof.
    intros M Hd Hc H. unfold runm in H. destruct (g_update_inv k) as [s r] eqn:E. destruct r as [u | |]; try discriminate. clear H.
    unfold g_update_inv in E. unfold sbind at 1, sget at 1 in E. rewrite M in E. unfold sbind at 1 in E.
    match type of E with (let (_, _) := ?m k in _) = _ => destruct (m k) as [s1 r] eqn:E1 end. destruct r as [u1 | |]; try discriminate. clear E.
    unfold sbind at 1, smod at 1 in E1. unfold sbind at 1, smod at 1 in E1.
    eapply (foreach_reach _ d) in E1.
    - destruct E1 as (t1 & t2 & u2 & (_ & _ & _ & _ & _ & P) & Q). unfold sbind at 1, sget in Q. unfold sbind at 1, slift at 1 in Q.
      assert (R : rd (g_cov t1) d = Ok c) by (rewrite <- P; exact Hc). rewrite R in Q. destruct (nleb c n0); [discriminate | reflexivity].
    - intros j. apply keeps_bind; [apply keeps_get |]. intro g'. apply keeps_bind; [apply keeps_lift |]. intro c'.
      destruct (c' <=? n0)%num; [apply keeps_throw |]. apply keeps_bind; [apply keeps_lift |]. intro v.
      apply keeps_bind; [apply keeps_mod; intro; repeat split |]. intros _. apply keeps_bind; [apply keeps_mod; intro; repeat split |]. intros _.
      apply keeps_when. apply keeps_bind; [apply keeps_lift |]. intro v'. apply keeps_bind; [apply keeps_mod; intro; repeat split |]. intros _. apply keeps_mod; intro; repeat split.
    - apply in_seq. lia.
  Qed.

  Lemma regularize_diag (r : list (num A)) (k k' : gauss A) d x y : g_mode k = Diagonal -> (d < g_dim k)%nat -> rd (g_cov k) d = Ok x -> rd r d = Ok y -> runm (g_regularize r) k = Ok k' ->
    g_mode k' = Diagonal /\ g_dim k' = g_dim k /\ rd (g_cov k') d = Ok (nadd x y).
  Proof.
    intros M Hd Hx Hy H. unfold runm, g_regularize, sbind, sget, slift, smod in H.
    destruct (iterM _ _ (g_cov k)) as [c | |] eqn:E; try discriminate. injection H as <-. cbn [g_mode g_dim g_cov g_set_cov]. split; [exact M |]. split; [reflexivity |].
    rewrite M in E. revert E. intros E.
    assert (I : rd c d = Ok (if (d <? g_dim k)%nat then nadd x y else x)).
    { apply (iterM_inv_ok (fun j c => rd c d = Ok (if (d <? j)%nat then nadd x y else x))) in E; [exact E | exact Hx |].
      intros i s s' Hi Hs Es. apply bind_ok_inv in Es. destruct Es as (a & Ea & Es). apply bind_ok_inv in Es. destruct Es as (b & Eb & Es).
      unfold wr in Es. destruct (Nat.ltb_spec i (length s)) as [L |]; [| discriminate]. injection Es as <-. unfold rd.
      destruct (Nat.eq_dec i d) as [-> | N].
      - rewrite nth_error_upd_eq by exact L. rewrite Hs in Ea. rewrite Nat.ltb_irrefl in Ea. injection Ea as <-. rewrite Hy in Eb. injection Eb as <-. destruct (Nat.ltb_spec d (Datatypes.S d)); [reflexivity | lia].
      - rewrite nth_error_upd_neq by exact N. fold (rd s d). rewrite Hs. destruct (Nat.ltb_spec d i), (Nat.ltb_spec d (Datatypes.S i)); try lia; reflexivity. }
    rewrite I. destruct (Nat.ltb_spec d (g_dim k)); [reflexivity | lia].
  Qed.

  Lemma mapM_nth {X Y} (f : X -> res Y) l l' i x : mapM f l = Ok l' -> nth_error l i = Some x -> exists y, f x = Ok y /\ nth_error l' i = Some y.
  Proof.
    revert l' i. induction l as [| a l IH]; intros l' i H E; [destruct i; discriminate |]. cbn [mapM] in H. apply bind_ok_inv in H. destruct H as (y & Ey & H). apply bind_ok_inv in H. destruct H as (r & Er & H). injection H as <-.
    destruct i as [| i]; cbn in E; [injection E as <-; exists y; split; [exact Ey | reflexivity] |]. exact (IH r i Er E).
  Qed.

  (** The steps before the variances keep the sizes and the mode, and fix the regularisation. *)
  Lemma default_keeps (dev : list (num A)) (g h : gclass A) : gm_default dev g = Ok h ->
    gc_par h = gc_par g /\ gc_dim h = gc_dim g /\ gc_reg h = map (fun s => nmax (gp_abs (gc_par g)) (nmul (gp_rel (gc_par g)) s)) dev /\
    (Forall (fun k => g_mode k = Diagonal /\ g_dim k = gc_dim g) (gc_comp g) -> Forall (fun k => g_mode k = Diagonal /\ g_dim k = gc_dim g) (gc_comp h)).
  Proof.
    intros H. unfold gm_default in H. apply bind_ok_inv in H. destruct H as (cs & E & H). cbv zeta in H. injection H as <-. cbn. split; [reflexivity |]. split; [reflexivity |]. split; [reflexivity |].
    intros F. rewrite Forall_forall in *. intros k Hk. apply In_nth_error in Hk. destruct Hk as (i & Hi). destruct (nth_tabM _ _ _ _ _ E Hi) as (Ek & _). cbv beta in Ek.
    apply bind_ok_inv in Ek. destruct Ek as (k0 & E0 & Ek). apply rd_In in E0. apply F in E0. unfold runm, g_regularize, sbind, sget, slift, smod in Ek.
    destruct (iterM _ _ _) as [c | |] in Ek; try discriminate. injection Ek as <-. exact E0.
  Qed.
  Lemma means_keeps (data : kdata A) (g h : gclass A) : gm_init_means data g = Ok h ->
    gc_par h = gc_par g /\ gc_dim h = gc_dim g /\ gc_reg h = gc_reg g /\
    (Forall (fun k => g_mode k = Diagonal /\ g_dim k = gc_dim g) (gc_comp g) -> Forall (fun k => g_mode k = Diagonal /\ g_dim k = gc_dim g) (gc_comp h)).
  Proof.
    intros H. unfold gm_init_means in H. destruct data as [| ph data]; [injection H as <-; tauto |]. cbv zeta in H. apply bind_ok_inv in H. destruct H as (km & _ & H). apply bind_ok_inv in H. destruct H as (cs & E & H). injection H as <-. cbn.
    split; [reflexivity |]. split; [reflexivity |]. split; [reflexivity |].
    intros F. rewrite Forall_forall in *. intros k Hk. apply In_nth_error in Hk. destruct Hk as (i & Hi). destruct (nth_tabM _ _ _ _ _ E Hi) as (Ek & _). cbv beta in Ek.
    apply bind_ok_inv in Ek. destruct Ek as (k0 & E0 & Ek). apply bind_ok_inv in Ek. destruct Ek as (m & _ & Ek). injection Ek as <-. cbn. apply rd_In in E0. exact (F _ E0).
  Qed.
  Lemma cov_keeps pm (data : kdata A) (g h : gclass A) : gm_init_cov_with pm data g = Ok h -> data <> [] ->
    gc_reg h = gc_reg g /\ length (gc_comp h) = gc_n g /\
    (Forall (fun k => g_mode k = Diagonal /\ g_dim k = gc_dim g) (gc_comp g) -> Forall (fun k => g_mode k = Diagonal /\ g_dim k = gc_dim g) (gc_comp h)).
  Proof.
    intros H Hne. unfold gm_init_cov_with in H. destruct data as [| ph data]; [contradiction |]. cbv zeta in H. apply bind_ok_inv in H. destruct H as (cs & E & H). injection H as <-. cbn.
    split; [reflexivity |]. split; [exact (tabM_length _ _ _ E) |].
    intros F. rewrite Forall_forall in *. intros k Hk. apply In_nth_error in Hk. destruct Hk as (i & Hi). destruct (nth_tabM _ _ _ _ _ E Hi) as (Ek & _). cbv beta in Ek.
    apply bind_ok_inv in Ek. destruct Ek as (k0 & E0 & Ek). apply bind_ok_inv in Ek. destruct Ek as (m & _ & Ek). injection Ek as <-. cbn. apply rd_In in E0. exact (F _ E0).
  Qed.
End Fail.

(** ** The initialisation *)
Local Open Scope R_scope.
Lemma leb_zero x : is_f64 x -> (is_num x = true -> fval x <= 0) -> x <> S754_nan -> x <> S754_infinity false -> SFleb x (S754_zero false) = true.
Proof.
  intros V H N I. destruct x as [s | s | | s m e].
  - destruct s; reflexivity.
  - destruct s; [reflexivity | contradiction].
  - contradiction.
  - destruct s; [reflexivity |]. exfalso. specialize (H eq_refl). unfold fval, SF2R in H. assert (0 < @F2R radix2 {| Fnum := cond_Zopp false (Z.pos m); Fexp := e |}) by (apply F2R_gt_0; reflexivity). lra.
Qed.

Lemma sum_not_positive x r : is_f64 x -> is_num x = true -> num_nonneg r -> fval x + fval r <= 0 -> SFleb (SFadd fprec femax x r) (S754_zero false) = true.
Proof.
  intros Vx Nx (Vr & Nr & Pr) H. assert (L : rnd (fval x + fval r) <= 0) by (rewrite <- rnd_0; now apply rnd_le).
  destruct (f_add_num x r Vx Vr Nx Nr) as [(N & E) | (t & _ & O & _)].
  - apply leb_zero; [now apply f_add_valid | intros _; rewrite E; exact L | |]; intros Q; rewrite Q in N; discriminate.
  - exfalso. assert (B := rnd_le_x x (fval r) Vx Pr). assert (C := fval_lt x Vx). apply Rabs_def2 in C. rewrite Rabs_left1 in O by exact L. lra.
Qed.

Section Init.
  Variables fexp fln : f64 -> f64.
  Let A := FA fexp fln.

  Lemma init_fails d v (data : kdata A) (dev : list f64) s (g g' : gclass A) : gc_mode g = Diagonal -> (1 <= gc_n g)%nat -> Forall (fun k => g_mode k = Diagonal /\ g_dim k = gc_dim g) (gc_comp g) ->
    single v -> constant_at d v data -> data <> [] -> (d < gc_dim g)%nat -> (1 <= seg_count (A := A) (gc_n g) data)%nat -> (Z.of_nat (seg_count (A := A) (gc_n g) data) < 2 ^ 29)%Z ->
    rd dev d = Ok s -> let r := nmax (A := A) (gp_abs (gc_par g)) (nmul (a := A) (gp_rel (gc_par g)) s) in
    num_nonneg r -> round_single (fval v * fval v) - fval v * fval v + fval r <= 0 -> gm_init_with (A := A) mul_single data dev g <> Ok g'.
  Proof.
    intros M H1 Fk Sv Cv Hne Hd Hs1 Hs2 Es r Hr Hle H. unfold gm_init_with in H.
    apply bind_ok_inv in H. destruct H as (g1 & E1 & H). apply bind_ok_inv in H. destruct H as (g2 & E2 & H). apply bind_ok_inv in H. destruct H as (g3 & E3 & H). apply bind_ok_inv in H. destruct H as (g4 & E4 & H).
    destruct (default_keeps (A := A) _ _ _ E1) as (P1 & D1 & R1 & F1). destruct (means_keeps (A := A) _ _ _ E2) as (P2 & D2 & R2 & F2). destruct (cov_keeps (A := A) _ _ _ _ E3 Hne) as (R3 & L3 & F3).
    specialize (F1 Fk). rewrite D1 in F2. specialize (F2 F1). rewrite D2, D1 in F3. specialize (F3 F2).
    assert (N2 : gc_n g2 = gc_n g) by (unfold gc_n; rewrite P2, P1; reflexivity).
    destruct (gc_comp g3) as [| k rest] eqn:EC; [rewrite N2 in L3; cbn in L3; lia |].
    assert (Hk : nth_error (gc_comp g3) 0 = Some k) by (rewrite EC; reflexivity).
    assert (Hd2 : (d < gc_dim g2)%nat) by (rewrite D2, D1; exact Hd). rewrite <- N2 in Hs1, Hs2.
    destruct (init_variance fexp fln d v data g2 g3 0 k Sv Cv Hne Hd2 Hs1 Hs2 E3 Hk) as (x & Ex & Vx & Nx & Fx).
    assert (M2 : gc_mode g2 = Diagonal) by (unfold gc_mode in *; rewrite P2, P1; exact M). fold A in Ex. rewrite M2 in Ex. cbn [variance_index] in Ex.
    apply Forall_inv in F3. destruct F3 as (Mk & Dk).
    unfold gm_offset in E4. apply bind_ok_inv in E4. destruct E4 as (cs & E4 & Q). injection Q as <-.
    destruct (mapM_nth _ _ _ _ _ E4 Hk) as (k4 & Ek4 & Hk4).
    assert (Er : rd (gc_reg g3) d = Ok r). { rewrite R3, R2, R1. unfold rd in Es |- *. change (num A) with f64 in *. rewrite nth_error_map. destruct (nth_error dev d); [| discriminate]. injection Es as ->. reflexivity. }
    assert (Hdk : (d < g_dim k)%nat) by (rewrite Dk; exact Hd).
    destruct (regularize_diag (A := A) _ _ _ d x r Mk Hdk Ex Er Ek4) as (M4 & D4 & X4).
    unfold gm_inverses in H. cbn [gc_comp gc_set_comp] in H. destruct (mapM (runm g_update_inv) cs) as [ds | |] eqn:E5; try discriminate.
    destruct (mapM_nth _ _ _ _ _ E5 Hk4) as (k5 & Ek5 & _). assert (Hd4 : (d < g_dim k4)%nat) by (rewrite D4; exact Hdk). assert (Z := inverse_positive (A := A) _ _ d _ M4 Hd4 X4 Ek5).
    assert (Z' := sum_not_positive x r Vx Nx Hr ltac:(rewrite Fx; exact Hle)). exact (Bool.diff_true_false (eq_trans (eq_sym Z') Z)).
  Qed.
End Init.

(** ** Values whose square is a single precision number *)
Lemma square_exact v k e : fval v = IZR k * bpow radix2 e -> (Z.abs k <= 2 ^ 12)%Z -> (-50 <= e)%Z -> round_single (fval v * fval v) - fval v * fval v = 0.
Proof.
  intros E Hk He. assert (F : generic_format radix2 (FLT_exp (-149) 24) (fval v * fval v)).
  { replace (fval v * fval v) with (IZR (k * k) * bpow radix2 (e + e)) by (rewrite E, mult_IZR, bpow_plus; ring).
    destruct (Z.eq_dec (Z.abs k) (2 ^ 12)) as [Q | Q].
    - replace (k * k)%Z with (2 ^ 24)%Z by (replace (k * k)%Z with (Z.abs k * Z.abs k)%Z by lia; rewrite Q; reflexivity).
      replace (IZR (2 ^ 24) * bpow radix2 (e + e)) with (bpow radix2 (24 + (e + e))) by (rewrite bpow_plus; reflexivity). apply generic_format_bpow. unfold FLT_exp. lia.
    - apply format_small; [reflexivity | | lia]. replace (Z.abs (k * k)) with (Z.abs k * Z.abs k)%Z by lia. change (2 ^ 24)%Z with (2 ^ 12 * 2 ^ 12)%Z. nia. }
  unfold round_single. rewrite round_generic; [ring | apply valid_rnd_N | exact F].
Qed.
