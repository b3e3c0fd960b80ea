(** The initialisation of a mixture in binary64: every member is a double. *)
From Coq Require Import String ZArith QArith Reals Lra Lia Bool List Arith.
From Coq Require Import Floats.SpecFloat.
From Flocq Require Import Core.Core IEEE754.BinarySingleNaN.
From Verif Require Import Base BaseFacts Arith RFacts Spec_Float Spec_Float2 Spec_Float3 Spec_Float5 Proofs_Float1 Proofs_Float2 Proofs_Float3 Proofs_Float4 Proofs_Float5 Proofs_Float6 Proofs_Float7 Proofs_Float8 Proofs_Float18 Proofs_Float19 Proofs_Float20 Proofs_Float21 Proofs_Float23.
From Verif Require Import Model_Map Model_Ring Model_Phrase Model_Gaussian Model_Config Model_KMeans Model_GMM Model_Single Model_Single2.
Import ListNotations.
Local Open Scope R_scope.

#[local] Existing Instance Proofs_Float1.Hprec.
#[local] Existing Instance Proofs_Float1.Hmax.

Lemma of_single_valid y : is_f64 (of_single y).
Proof. destruct y as [s | s | | s m e]; try reflexivity. unfold of_single. rewrite bn_equiv. apply bin_f64. Qed.

Lemma foldM_inv {S X} (P : S -> Prop) (f : S -> X -> res S) l : (forall s x s', In x l -> P s -> f s x = Ok s' -> P s') -> forall s s', P s -> foldM f l s = Ok s' -> P s'.
Proof.
  intros Hf. induction l as [| x l IH]; intros s s' Hs H; cbn [foldM] in H; [injection H as <-; exact Hs |].
  apply bind_ok_inv in H. destruct H as (s1 & E & H). apply (IH ltac:(intros; eapply Hf; eauto; now right) s1 s'); [| exact H]. eapply Hf; [now left | exact Hs | exact E].
Qed.
Lemma tabM_Forall {X} (P : X -> Prop) n f (v : list X) : tabM n f = Ok v -> (forall i x, (i < n)%nat -> f i = Ok x -> P x) -> Forall P v.
Proof.
  intros H Hf. apply Forall_forall. intros x I. destruct (In_nth_error _ _ I) as (c & Ec). destruct (tabM_each _ _ _ _ _ H Ec) as (Hc & Ef). exact (Hf c x Hc Ef).
Qed.
Lemma mapM_Forall {X Y} (P : X -> Prop) (Q : Y -> Prop) (f : X -> res Y) l l' : mapM f l = Ok l' -> Forall P l -> (forall x y, P x -> f x = Ok y -> Q y) -> Forall Q l'.
Proof.
  intros H Hl Hf. apply Forall_forall. intros y I. destruct (In_nth_error _ _ I) as (c & Ec). destruct (mapM_back _ _ _ _ _ H Ec) as (x & Ex & Ef).
  apply (Hf x y); [exact (proj1 (Forall_forall _ _) Hl x (nth_error_In _ _ Ex)) | exact Ef].
Qed.

Lemma in_firstn {X} (y : X) n l : In y (firstn n l) -> In y l.
Proof. intros H. rewrite <- (firstn_skipn n l). apply in_or_app. now left. Qed.

Section Init.
  Variables fexp fln : f64 -> f64.
  Local Notation A := (FA fexp fln).
  Local Notation okl := (Forall is_f64).

  Lemma nN_valid w : is_f64 (nN (A := A) w).
  Proof.
    destruct w as [| w]; [reflexivity |]. set (p := Pos.of_succ_nat w).
    assert (E : nN (A := A) (S w) = SFdiv fprec femax (S754_finite false p 0) (S754_finite false 1 0)) by reflexivity. rewrite E. clear E.
    assert (C := Bdiv_correct_aux fprec femax _ _ mode_NE false p 0 false 1 0). cbv zeta in C. cbn [cond_Zopp xorb] in C.
    assert (E : SFdiv fprec femax (S754_finite false p 0) (S754_finite false 1 0) = let '(mz, ez, lz) := SFdiv_core_binary fprec femax (Z.pos p) 0 1 0 in binary_round_aux fprec femax mode_NE false mz ez lz).
    { unfold SFdiv. cbn [xorb]. destruct (SFdiv_core_binary fprec femax (Z.pos p) 0 1 0) as ((mz, ez), lz). apply bra_equiv. }
    rewrite E. apply C.
  Qed.

  (** *** K-Means *)
  Lemma km_frame_valid clusters dim prev s frame s' : okl (fst s) -> frame_f64 frame -> km_frame (A := A) clusters dim prev s frame = Ok s' -> okl (fst s').
  Proof.
    intros Hs Hf H. unfold km_frame in H. apply bind_ok_inv in H. destruct H as (m & _ & H). apply bind_ok_inv in H. destruct H as (n & _ & H). apply bind_ok_inv in H. destruct H as (ns & _ & H).
    apply bind_ok_inv in H. destruct H as (cs & Ec & H). injection H as <-. cbn [fst]. unfold km_add in Ec.
    refine (iterM_inv_ok (fun _ cs => okl cs) _ _ _ _ Hs _ Ec). intros i c c' _ Hc E. apply bind_ok_inv in E. destruct E as (a & Ea & E). apply bind_ok_inv in E. destruct E as (x & Ex & E).
    refine (wr_Forall is_f64 _ _ _ _ Hc _ E). apply f_add_valid; [exact (rd_Forall is_f64 _ _ _ Hc Ea) | exact (rd_Forall is_f64 _ _ _ Hf Ex)].
  Qed.
  Lemma km_update_valid clusters dim prev (data : kdata A) cs : Forall (Forall frame_f64) data -> km_update (A := A) clusters dim prev data = Ok cs -> okl cs.
  Proof.
    intros Hd H. unfold km_update in H. apply bind_ok_inv in H. destruct H as (s & Es & H).
    assert (Fs : okl (fst s)).
    { refine (foldM_inv (fun s : list f64 * list nat => okl (fst s)) _ _ _ _ _ _ Es).
      - intros s0 p s1 Ip H0 E. refine (foldM_inv (fun s : list f64 * list nat => okl (fst s)) _ _ _ _ _ H0 E). intros s2 x s3 Ix H2 E2.
        apply (km_frame_valid _ _ _ _ _ _ H2) in E2; [exact E2 |]. exact (proj1 (Forall_forall _ _) (proj1 (Forall_forall _ _) Hd p Ip) x Ix).
      - cbn [fst]. apply Forall_forall. intros y Iy. apply repeat_spec in Iy. subst y. reflexivity. }
    refine (iterM_inv_ok (fun _ cs => okl cs) _ _ _ _ Fs _ H). intros i c c' _ Hc E. apply bind_ok_inv in E. destruct E as (n & _ & E). destruct (0 <? n)%nat; [| injection E as <-; exact Hc].
    refine (iterM_inv_ok (fun _ cs => okl cs) _ _ _ _ Hc _ E). intros j d d' _ Hdd E2. apply bind_ok_inv in E2. destruct E2 as (a & Ea & E2).
    refine (wr_Forall is_f64 _ _ _ _ Hdd _ E2). apply f_div_valid; [exact (rd_Forall is_f64 _ _ _ Hdd Ea) | apply nN_valid].
  Qed.
  Lemma km_loop_valid n clusters dim thr (data : kdata A) : Forall (Forall frame_f64) data -> forall cs cs', okl cs -> km_loop (A := A) n clusters dim thr data cs = Ok cs' -> okl cs'.
  Proof.
    intros Hd. induction n as [| n IH]; intros cs cs' Hc H; cbn [km_loop] in H; [injection H as <-; exact Hc |].
    apply bind_ok_inv in H. destruct H as (c1 & E1 & H). apply km_update_valid in E1; [| exact Hd]. apply bind_ok_inv in H. destruct H as (b & _ & H). destruct b; [injection H as <-; exact E1 | exact (IH c1 cs' E1 H)].
  Qed.
  Lemma vresize_valid n (l : list f64) : okl l -> okl (vresize n (S754_zero false) l).
  Proof. intros H. unfold vresize. apply Forall_app. split; [apply Forall_forall; intros y Iy; exact (proj1 (Forall_forall _ _) H y (in_firstn _ _ _ Iy)) |]. apply Forall_forall. intros y Iy. apply repeat_spec in Iy. subst y. reflexivity. Qed.
  Lemma km_train_valid dim (data : kdata A) dev rn (k k' : kmeans A) : Forall (Forall frame_f64) data -> okl (km_centers k) -> km_first k = true -> km_train (A := A) dim data dev rn k = Ok k' -> okl (km_centers k').
  Proof.
    intros Hd Hc Hfst H. unfold km_train in H. destruct data as [| first data]; [injection H as <-; exact Hc |]. destruct (km_dim k); [| discriminate]. cbv zeta in H.
    apply bind_ok_inv in H. destruct H as (cs & Ec & H). apply bind_ok_inv in H. destruct H as (cs2 & E2 & H). injection H as <-. cbn [km_centers]. refine (km_loop_valid _ _ _ _ _ Hd _ _ _ E2).
    rewrite Hfst in Ec. unfold km_init_first in Ec. inversion Hd as [| ? ? Hf _]; subst.
    refine (iterM_inv_ok (fun _ cs => okl cs) _ _ _ _ (vresize_valid _ _ Hc) _ Ec). intros i c c' _ Hcc E. apply bind_ok_inv in E. destruct E as (c1 & E1 & E).
    assert (F1 : okl c1).
    { refine (iterM_inv_ok (fun _ cs => okl cs) _ _ _ _ Hcc _ E1). intros j d d' _ Hdd Ej. refine (wr_Forall is_f64 _ _ _ _ Hdd _ Ej). reflexivity. }
    refine (iterM_inv_ok (fun _ cs => okl cs) _ _ _ _ F1 _ E). intros j d d' _ Hdd Ej. refine (iterM_inv_ok (fun _ cs => okl cs) _ _ _ _ Hdd _ Ej). intros l e e' _ He El.
    apply bind_ok_inv in El. destruct El as (fr & Efr & El). apply bind_ok_inv in El. destruct El as (x & Ex & El). apply bind_ok_inv in El. destruct El as (y & Ey & El).
    refine (wr_Forall is_f64 _ _ _ _ He _ El). apply f_add_valid; [exact (rd_Forall is_f64 _ _ _ He Ey) |]. apply f_div_valid; [| apply nN_valid].
    exact (rd_Forall is_f64 _ _ _ (rd_Forall frame_f64 _ _ _ Hf Efr) Ex).
  Qed.

  (** *** The class *)
  Definition comp_ok (n : nat) (k : gauss A) : Prop := gauss_f64 k /\ gauss_diag k /\ g_dim k = n /\ okl (g_cov k).

  Lemma offset_ok (g g' : gclass A) n : Forall (comp_ok n) (gc_comp g) -> okl (gc_reg g) -> gm_offset (A := A) g = Ok g' -> exists cs, g' = gc_set_comp cs g /\ Forall (comp_ok n) cs /\ length cs = length (gc_comp g).
  Proof.
    intros Hk Hr H. unfold gm_offset in H. apply bind_ok_inv in H. destruct H as (cs & E & H). injection H as <-. exists cs. split; [reflexivity |]. split; [| exact (mapM_length _ _ _ E)].
    refine (mapM_Forall _ _ _ _ _ E Hk _). intros k k' (F & D & Dm & C) Ek. pose proof D as (M & Dv). destruct (regularize_result fexp fln (gc_reg g) k k' M Hr C Ek) as (c & -> & Fc & _).
    split; [exact F |]. split; [exact D |]. split; [exact Dm | exact Fc].
  Qed.
  Lemma inverses_ok (g g' : gclass A) n : Forall (comp_ok n) (gc_comp g) -> gm_inverses (A := A) g = Ok g' -> exists cs, g' = gc_set_comp cs g /\ Forall (comp_ok n) cs /\ length cs = length (gc_comp g).
  Proof.
    intros Hk H. unfold gm_inverses in H. apply bind_ok_inv in H. destruct H as (cs & E & H). injection H as <-. exists cs. split; [reflexivity |].
    assert (E' : mapM (runm (g_update_inv (A := A))) (gc_comp g) = Ok cs) by (destruct (mapM (runm g_update_inv) (gc_comp g)); cbn in E; try discriminate; exact E). split; [| exact (mapM_length _ _ _ E')].
    refine (mapM_Forall _ _ _ _ _ E' Hk _). intros k k' (F & D & Dm & C) Ek. pose proof (inverse_result fexp fln k k' F D C Ek) as (I1 & I2 & I3 & I4 & I5 & I6 & I7 & I8 & I9 & I10 & I11).
    pose proof F as (F1 & _). split; [split; [rewrite I3; exact F1 | auto] |]. split; [split; assumption |]. split; [rewrite I2; exact Dm |]. rewrite I4. exact C.
  Qed.

  (** Equal weights. *)
  Lemma equal_weights n : (1 <= n)%nat -> (Z.of_nat n < 2 ^ 32)%Z -> let w := SFdiv fprec femax (n1 (A := A)) (nN (A := A) n) in
    let l := repeat (SFdiv fprec femax w (nsum (A := A) n (fun _ => w))) n in weights_f64 n l /\ 1 - bpow radix2 (-17) <= rsum l <= 1 + bpow radix2 (-17).
  Proof.
    intros H1 H2 w l. destruct (one_in fexp fln) as (V1 & N1 & B1). assert (E1 : fval (n1 (A := A)) = 1) by lra. destruct (nN_val fexp fln n H1 ltac:(lia)) as (V2 & N2 & E2).
    assert (Pn : 1 <= INR n) by (change 1 with (INR 1); now apply le_INR).
    assert (Un : INR n <= bpow radix2 32) by (rewrite INR_IZR_INZ; change (bpow radix2 32) with (IZR (2 ^ 32)); apply IZR_le; lia).
    assert (R : bpow radix2 (-32) <= rnd (1 / INR n) <= 1).
    { split; [rewrite <- (rnd_bpow (-32)) by lia | rewrite <- rnd_1 at 2]; apply rnd_le; unfold Rdiv; rewrite Rmult_1_l.
      - change (-32)%Z with (- (32))%Z. rewrite bpow_opp. apply Rinv_le_contravar; lra.
      - rewrite <- Rinv_1. apply Rinv_le_contravar; lra. }
    assert (W : num_in 0 1 w /\ bpow radix2 (-32) <= fval w).
    { destruct (f_div_num (n1 (A := A)) (nN (A := A) n) V1 V2 N1 ltac:(lra)) as (X & Y).
      - rewrite E1, E2. rewrite Rabs_pos_eq by (pose proof (bpow_gt_0 radix2 (-32)); lra). apply Rle_lt_trans with (1 := proj2 R). change 1 with (bpow radix2 0). apply bpow_lt. lia.
      - fold w in X, Y. rewrite E1, E2 in Y. pose proof (bpow_gt_0 radix2 (-32)). split; [split; [apply f_div_valid; assumption |]; split; [exact X |]; lra | lra]. }
    destruct W as (W & Wl). destruct (sum_unit fexp fln n (fun _ => w) ltac:(lia) ltac:(auto)) as ((Vs & Ns & _) & _ & Ge). specialize (Ge 0%nat ltac:(lia)).
    assert (Ps : 0 < fval (nsum (A := A) n (fun _ => w))) by (pose proof (bpow_gt_0 radix2 (-32)); lra).
    destruct (parts fexp fln n (fun _ => w)) as (PS & Pp); [intros i _; apply nonneg_nn; destruct W as (X & Y & Z & _); split; [exact X |]; split; assumption | exact Ns | exact Ps |].
    set (q := SFdiv fprec femax w (nsum (A := A) n (fun _ => w))) in *.
    assert (Lt : l = tab n (fun _ => q)) by (unfold l; clear; unfold tab; generalize 0%nat as a; generalize q as y; clear q w; intros y; induction n as [| n IH]; intros a; [reflexivity | cbn; f_equal; apply IH]).
    assert (Tot := sum_parts n (fun _ => w) (fun _ => q) H2 (conj PS Pp)). cbv beta in Tot. assert (Et : rsum l = Rsum n (fun _ => fval q)) by (rewrite Lt; apply rsum_tab). rewrite <- Et in Tot.
    assert (Q : INR n * fval q = rsum l). { rewrite Et. clear. generalize q as y. clear q w. intros y. induction n as [| n IH]; [cbn; ring |]. rewrite S_INR. cbn [Rsum]. rewrite <- IH. ring. }
    assert (B19 : bpow radix2 (-19) = bpow radix2 (-17) / 4) by (change (-17)%Z with (-19 + 2)%Z; rewrite bpow_plus; change (bpow radix2 2) with 4; field).
    assert (B17 : 0 < bpow radix2 (-17) <= / 2) by (split; [apply bpow_gt_0 | change (/ 2) with (bpow radix2 (-1)); apply bpow_le; lia]).
    destruct (Pp 0%nat ltac:(lia)) as (Iq & _). cbv beta in Iq.
    split; [| lra]. split; [apply repeat_length |]. split; [apply Forall_forall; intros y Iy; apply repeat_spec in Iy; subst y; exact Iq |].
    exists q. split; [unfold l; destruct n; [lia | now left] |].
    assert (/ 2 <= bpow radix2 32 * fval q). { apply Rle_trans with (INR n * fval q); [lra |]. apply Rmult_le_compat_r; [apply Iq | exact Un]. }
    apply Rle_trans with (bpow radix2 (-33)); [apply bpow_le; lia |]. apply Rmult_le_reg_l with (bpow radix2 32); [apply bpow_gt_0 |]. rewrite <- bpow_plus. change (bpow radix2 (32 + -33)) with (/ 2). lra.
  Qed.

  (** A class as [allocate] leaves it. *)
  Definition raw (g : gclass A) : Prop := Forall (comp_ok (gc_dim g)) (gc_comp g) /\ gc_mode g = Diagonal.

  Lemma allocate_raw (g g' : gclass A) : gc_mode g = Diagonal -> gm_allocate (A := A) g = Ok g' -> raw g' /\ gc_par g' = gc_par g /\ gc_dim g' = gc_dim g /\ gc_buf g' = gc_buf g.
  Proof.
    intros M H. unfold gm_allocate in H. apply bind_ok_inv in H. destruct H as (c & Ec & H). injection H as <-. split; [| repeat split]. split; [| exact M].
    cbn [gc_comp gc_set_comp]. apply Forall_forall. intros k Ik. apply repeat_spec in Ik. subst k. rewrite M in Ec. unfold g_new in Ec. destruct (gc_dim g <? _)%nat eqn:E1; [discriminate |]. cbv zeta in Ec.
    destruct (_ <? gc_din g)%nat; [discriminate |]. injection Ec as <-. unfold g_allocate. cbn [g_dim g_din g_mode g_mean g_cov g_inv g_inv_in g_bim]. cbv zeta.
    assert (Z : forall n, okl (vresize n (n0 (A := A)) [])) by (intros n; apply vresize_valid; constructor).
    assert (Q : forall n, Forall not_negative (vresize n (n0 (A := A)) [])).
    { intros n. unfold vresize. apply Forall_app. split; [rewrite firstn_nil; constructor |]. apply Forall_forall. intros y Iy. apply repeat_spec in Iy. subst y. right. split; [reflexivity |]. right. split; [reflexivity |]. change (0 <= fval (S754_zero false)). apply Rle_refl. }
    destruct (gc_bim g); cbn; (split; [split; [apply Z |]; split; [apply Z |]; split; [first [apply Z | constructor] | split; reflexivity] |]; split; [split; [reflexivity | apply Q] | split; [reflexivity | apply Z]]).
  Qed.

  Lemma max_valid x y : is_f64 x -> is_f64 y -> is_f64 (nmax (A := A) x y).
  Proof. intros Hx Hy. unfold nmax. match goal with |- context [if ?c then _ else _] => destruct c end; assumption. Qed.

  Lemma init_ok (g g' : gclass A) (data : kdata A) dev : raw g -> (1 <= gc_n g)%nat -> (Z.of_nat (gc_n g) < 2 ^ 32)%Z ->
    is_f64 (gp_abs (gc_par g)) -> is_f64 (gp_rel (gc_par g)) -> okl dev -> Forall (Forall frame_f64) data ->
    gm_init_with (A := A) mul_single data dev g = Ok g' ->
    class_em g' /\ weights_total g' /\ gc_par g' = gc_par g /\ gc_dim g' = gc_dim g /\ gc_buf g' = gc_buf g /\
    gc_reg g' = map (fun s => nmax (A := A) (gp_abs (gc_par g)) (SFmul fprec femax (gp_rel (gc_par g)) s)) dev.
  Proof.
    intros (Hk & M) N1 N2 Va Vr Vd Hd H. unfold gm_init_with in H.
    apply bind_ok_inv in H. destruct H as (g1 & H1 & H). apply bind_ok_inv in H. destruct H as (g2 & H2 & H). apply bind_ok_inv in H. destruct H as (g3 & H3 & H). apply bind_ok_inv in H. destruct H as (g4 & H4 & H5).
    (* default *)
    unfold gm_default in H1. cbv zeta in H1. match type of H1 with context [gc_set_coef ?x _] => remember x as w eqn:Ew end. apply bind_ok_inv in H1. destruct H1 as (cs1 & T1 & H1). injection H1 as <-.
    set (reg := map (fun s : num A => nmax (A := A) (gp_abs (gc_par g)) (nmul (a := A) (gp_rel (gc_par g)) s)) dev) in *.
    assert (Fr : okl reg). { apply Forall_forall. intros y Iy. apply in_map_iff in Iy. destruct Iy as (s & <- & Is). apply max_valid; [exact Va |]. apply f_mul_valid; [exact Vr | exact (proj1 (Forall_forall _ _) Vd s Is)]. }
    assert (K1 : Forall (comp_ok (gc_dim g)) cs1).
    { refine (tabM_Forall _ _ _ _ T1 _). intros c k' Hc Ek. cbv beta in Ek. apply bind_ok_inv in Ek. destruct Ek as (k & Rk & Ek). rewrite M in Ek. destruct (rd_Forall _ _ _ _ Hk Rk) as (F & D & Dm & C). pose proof D as (Mk & Dv).
      assert (Fz : okl (repeat (n0 (A := A)) (gc_dim g))) by (apply Forall_forall; intros y Iy; apply repeat_spec in Iy; subst y; reflexivity).
      destruct (regularize_result fexp fln reg (g_set_cov (A := A) (repeat (n0 (A := A)) (gc_dim g)) k) k' Mk Fr Fz Ek) as (c' & -> & Fc & _).
      split; [exact F |]. split; [exact D |]. split; [exact Dm | exact Fc]. }
    (* means *)
    assert (K2 : exists cs2, g2 = gc_set_reg reg (gc_set_comp cs2 (gc_set_coef w g)) /\ Forall (comp_ok (gc_dim g)) cs2).
    { unfold gm_init_means in H2. destruct data as [| p0 data]; [injection H2 as <-; exists cs1; split; [reflexivity | exact K1] |]. cbv zeta in H2. apply bind_ok_inv in H2. destruct H2 as (km & Ekm & H2).
      apply bind_ok_inv in H2. destruct H2 as (cs2 & T2 & H2). injection H2 as <-. exists cs2. split; [reflexivity |].
      assert (Fkm : okl (km_centers km)) by (refine (km_train_valid _ _ _ _ _ _ Hd _ _ Ekm); [constructor | reflexivity]).
      refine (tabM_Forall _ _ _ _ T2 _). intros c k' Hc Ek. cbv beta in Ek. apply bind_ok_inv in Ek. destruct Ek as (k & Rk & Ek). apply bind_ok_inv in Ek. destruct Ek as (m & Em & Ek). injection Ek as <-.
      cbn [gc_comp gc_set_reg gc_set_comp] in Rk. destruct (rd_Forall _ _ _ _ K1 Rk) as ((F1 & F2) & D & Dm & C). split; [split; [| exact F2] |].
      - cbn [g_mean g_set_mean]. refine (iterM_inv_ok (fun _ m => okl m) _ _ _ _ F1 _ Em). intros i s s' _ Hs Es. apply bind_ok_inv in Es. destruct Es as (v & Ev & Es). refine (wr_Forall is_f64 _ _ _ _ Hs _ Es). exact (rd_Forall is_f64 _ _ _ Fkm Ev).
      - split; [exact D |]. split; [exact Dm | exact C]. }
    destruct K2 as (cs2 & -> & K2).
    (* covariances *)
    assert (K3 : exists cs3, g3 = gc_set_reg reg (gc_set_comp cs3 (gc_set_coef w g)) /\ Forall (comp_ok (gc_dim g)) cs3).
    { unfold gm_init_cov_with in H3. destruct data as [| p0 data]; [injection H3 as <-; exists cs2; split; [reflexivity | exact K2] |]. remember (p0 :: data) as dd eqn:Edd. cbv zeta in H3.
      apply bind_ok_inv in H3. destruct H3 as (cs3 & T3 & H3). injection H3 as <-. exists cs3. split; [reflexivity |].
      assert (Acc : forall c f s, (forall x v, frame_f64 x -> f x = Ok v -> is_f64 v) -> seg_acc (A := A) (gc_n g) c f dd = Ok s -> is_f64 s).
      { intros c f s Hf Hs. unfold seg_acc in Hs. refine (foldM_inv is_f64 _ _ _ _ _ _ Hs); [| reflexivity]. intros s0 p s1 Ip V0 E. cbv zeta in E. refine (accM_f64 fexp fln _ _ _ _ V0 _ E).
        intros i v _ Ev. apply bind_ok_inv in Ev. destruct Ev as (x & Ex & Ev). apply (Hf x v); [| exact Ev]. exact (rd_Forall frame_f64 _ _ _ (proj1 (Forall_forall _ _) Hd p Ip) Ex). }
      assert (Fn := nN_valid (seg_count (A := A) (gc_n g) dd)).
      refine (tabM_Forall _ _ _ _ T3 _). intros c k' Hc Ek. cbv beta in Ek. apply bind_ok_inv in Ek. destruct Ek as (k & Rk & Ek). cbn [gc_mode gc_set_reg gc_set_comp gc_set_coef gc_par gc_n gc_dim gc_comp] in Rk, Ek.
      change (gc_mode (gc_set_reg reg (gc_set_comp cs2 (gc_set_coef w g)))) with (gc_mode g) in Ek. rewrite M in Ek. apply bind_ok_inv in Ek. destruct Ek as (cov & Ecov & Ek). injection Ek as <-.
      destruct (rd_Forall _ _ _ _ K2 Rk) as (F & D & Dm & C). split; [exact F |]. split; [exact D |]. split; [exact Dm |]. cbn [g_cov g_set_cov].
      refine (tabM_Forall is_f64 _ _ _ Ecov _). intros d v Hdd Ev. cbv beta in Ev. apply bind_ok_inv in Ev. destruct Ev as (s & Es & Ev). apply bind_ok_inv in Ev. destruct Ev as (m1 & Em & Ev). rewrite Em in Ev. cbn [bind] in Ev. injection Ev as <-.
      apply bind_ok_inv in Em. destruct Em as (s1 & Es1 & Em). injection Em as <-.
      assert (Vs : is_f64 s).
      { refine (Acc c _ s _ Es). intros x v Hx Ev. apply bind_ok_inv in Ev. destruct Ev as (a & _ & Ev). apply bind_ok_inv in Ev. destruct Ev as (b & _ & Ev). injection Ev as <-. unfold mul_single. apply of_single_valid. }
      assert (Vs1 : is_f64 s1) by (refine (Acc c _ s1 _ Es1); intros x v Hx Ev; exact (rd_Forall is_f64 _ _ _ Hx Ev)).
      apply f_sub_valid; [now apply f_div_valid |]. apply f_mul_valid; now apply f_div_valid. }
    destruct K3 as (cs3 & -> & K3).
    destruct (offset_ok (gc_set_reg reg (gc_set_comp cs3 (gc_set_coef w g))) g4 (gc_dim g) K3 Fr H4) as (cs4 & -> & K4 & _). destruct (inverses_ok (gc_set_comp cs4 (gc_set_reg reg (gc_set_comp cs3 (gc_set_coef w g)))) g' (gc_dim g) K4 H5) as (cs5 & -> & K5 & _).
    destruct (equal_weights (gc_n g) N1 N2) as (W & Wt). assert (W' : weights_f64 (gc_n g) w) by (rewrite Ew; exact W). assert (Wt' : 1 - bpow radix2 (-17) <= rsum w <= 1 + bpow radix2 (-17)) by (rewrite Ew; exact Wt).
    split; [| split; [exact Wt' | split; [reflexivity |]; split; [reflexivity |]; split; reflexivity]].
    assert (Each : forall P : gauss A -> Prop, (forall k, comp_ok (gc_dim g) k -> P k) -> Forall P cs5) by (intros P HP; apply Forall_forall; intros k Ik; apply HP; exact (proj1 (Forall_forall _ _) K5 k Ik)).
    split; [| split; [exact M |]; split; [apply Each; intros k (_ & _ & X & Y); split; assumption | exact Fr]].
    split; [split; [exact W' | apply Each; intros k (X & _); exact X] |]. split; [apply Each; intros k (_ & X & _); exact X | exact N2].
  Qed.
End Init.
