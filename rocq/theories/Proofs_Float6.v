(** Recognition with Diagonal mixtures in binary64: nothing overflows. *)
From Coq Require Import String ZArith QArith Reals Lra Lia Bool List Arith.
From Coq Require Import Floats.SpecFloat.
From Flocq Require Import Core.Core IEEE754.BinarySingleNaN.
From Verif Require Import Base BaseFacts Arith Spec_Float Spec_Float2 Proofs_Float1 Proofs_Float2 Proofs_Float3 Proofs_Float4 Proofs_Float5 Model_Map Model_Ring Model_Gaussian Model_Config Model_KMeans Model_GMM.
Import ListNotations.
Local Open Scope R_scope.

#[local] Existing Instance Proofs_Float1.Hprec.
#[local] Existing Instance Proofs_Float1.Hmax.

(** ** Bounds *)
Lemma num_in_abs b x : num_in (- b) b x <-> is_f64 x /\ is_num x = true /\ Rabs (fval x) <= b.
Proof.
  unfold num_in. split; intros (V & N & B); (split; [exact V | split; [exact N |]]).
  - apply Rabs_le. lra.
  - apply Rabs_le_inv in B. lra.
Qed.

Lemma rnd_opp x : rnd (- x) = - rnd x.
Proof. unfold rnd. apply round_NE_opp. Qed.
Lemma rnd_add_abs x y : is_f64 x -> is_f64 y -> Rabs (rnd (fval x + fval y)) <= Rabs (fval x + fval y) * (1 + uround).
Proof.
  intros Vx Vy. destruct (Rle_or_lt 0 (fval x + fval y)) as [P | P].
  - rewrite !Rabs_pos_eq by (try apply rnd_nonneg; exact P). apply rnd_add; auto.
  - assert (O : forall z, is_f64 z -> is_f64 (SFopp z) /\ fval (SFopp z) = - fval z).
    { intros z Vz. split.
      - destruct (as_bin z Vz) as (b & -> & _ & _). clear. destruct b; try reflexivity. exact e0.
      - clear. destruct z as [s | s | | s m e]; unfold fval; cbn; [ring.. |]. rewrite <- F2R_Zopp. now destruct s. }
    destruct (O x Vx) as (Vx' & Ex), (O y Vy) as (Vy' & Ey). assert (P' : 0 <= fval (SFopp x) + fval (SFopp y)) by lra.
    assert (Q := rnd_add (SFopp x) (SFopp y) Vx' Vy' P'). rewrite Ex, Ey in Q. replace (- fval x + - fval y) with (- (fval x + fval y)) in Q by ring. rewrite rnd_opp in Q.
    rewrite (Rabs_left (fval x + fval y)) by lra. rewrite <- (Rabs_Ropp (rnd _)), Rabs_pos_eq; [apply Q |].
    rewrite <- rnd_opp. apply rnd_nonneg. lra.
Qed.

(** The growth of [k] rounding errors, for [k] below 2^32. *)
Lemma growth k : (Z.of_nat k <= 2 ^ 32)%Z -> 1 <= (1 + uround) ^ k <= 1 + 2 * INR k * uround /\ (1 + uround) ^ k <= 1 + bpow radix2 (-20).
Proof.
  assert (U := uround_pos). intros H.
  assert (I : forall k, (Z.of_nat k <= 2 ^ 32)%Z -> INR k * uround <= bpow radix2 (-21)).
  { intros j Hj. rewrite INR_IZR_INZ. apply Rle_trans with (bpow radix2 32 * uround).
    - apply Rmult_le_compat_r; [lra |]. change (bpow radix2 32) with (IZR (2 ^ 32)). now apply IZR_le.
    - unfold uround. rewrite <- bpow_plus. apply Rle_refl. }
  assert (G : 1 <= (1 + uround) ^ k <= 1 + 2 * INR k * uround).
  { induction k as [| k IH]; [cbn; lra |]. destruct (IH ltac:(lia)) as (G1 & G2). specialize (I k ltac:(lia)). rewrite <- tech_pow_Rmult, S_INR.
    assert (B : bpow radix2 (-21) <= / 2) by (change (/ 2) with (bpow radix2 (-1)); apply bpow_le; lia).
    split; [nra |]. apply Rle_trans with ((1 + uround) * (1 + 2 * INR k * uround)); [apply Rmult_le_compat_l; lra |].
    assert (0 <= INR k) by apply pos_INR. nra. }
  split; [exact G |]. apply Rle_trans with (1 := proj2 G). specialize (I k H).
  replace (bpow radix2 (-20)) with (2 * bpow radix2 (-21)) by (change 2 with (bpow radix2 1); rewrite <- bpow_plus; reflexivity). lra.
Qed.

Definition sum_bound (B : R) (k : nat) : R := INR k * B * (1 + uround) ^ k.
Lemma sum_step B k a v : (Z.of_nat (S k) <= 2 ^ 32)%Z -> 0 <= B -> B <= bpow radix2 950 -> num_in (- sum_bound B k) (sum_bound B k) a -> num_in (- B) B v ->
  num_in (- sum_bound B (S k)) (sum_bound B (S k)) (SFadd fprec femax a v).
Proof.
  intros Hk PB LB Ha Hv. apply num_in_abs in Ha, Hv. apply num_in_abs. destruct Ha as (Va & Na & Ba), Hv as (Vv & Nv & Bv). assert (U := uround_pos).
  assert (S1 : Rabs (rnd (fval a + fval v)) <= sum_bound B (S k)).
  { eapply Rle_trans; [now apply rnd_add_abs |]. unfold sum_bound in *. rewrite <- tech_pow_Rmult, S_INR.
    assert (T := Rabs_triang (fval a) (fval v)). destruct (growth k ltac:(lia)) as ((G & _) & _).
    apply Rle_trans with ((INR k * B * (1 + uround) ^ k + B) * (1 + uround)); [apply Rmult_le_compat_r; lra |].
    replace ((INR k + 1) * B * ((1 + uround) * (1 + uround) ^ k)) with ((INR k * B * (1 + uround) ^ k + B * (1 + uround) ^ k) * (1 + uround)) by ring.
    apply Rmult_le_compat_r; [lra |]. apply Rplus_le_compat_l. rewrite <- (Rmult_1_r B) at 1. apply Rmult_le_compat_l; lra. }
  assert (S2 : sum_bound B (S k) < bpow radix2 1024).
  { unfold sum_bound. destruct (growth (S k) Hk) as ((G1 & _) & G2). apply Rle_lt_trans with (bpow radix2 32 * bpow radix2 950 * bpow radix2 1).
    - apply Rmult_le_compat; [apply Rmult_le_pos; [apply pos_INR | exact PB] | lra | apply Rmult_le_compat; [apply pos_INR | exact PB | | exact LB] |].
      + rewrite INR_IZR_INZ. change (bpow radix2 32) with (IZR (2 ^ 32)). now apply IZR_le.
      + apply Rle_trans with (1 := G2). assert (bpow radix2 (-20) <= bpow radix2 0) by (apply bpow_le; lia). change (bpow radix2 0) with 1 in *. change (bpow radix2 1) with 2. lra.
    - rewrite <- !bpow_plus. apply bpow_lt. lia. }
  split; [now apply f_add_valid |]. destruct (f_add_num a v Va Vv Na Nv) as [(N & E) | (s & _ & O & _)].
  - rewrite E. auto.
  - exfalso. lra.
Qed.
Lemma sum_bound_le B k : (Z.of_nat k <= 2 ^ 32)%Z -> 0 <= B -> sum_bound B k <= bpow radix2 33 * B.
Proof.
  intros Hk PB. unfold sum_bound. destruct (growth k Hk) as ((G1 & _) & G2).
  replace (bpow radix2 33 * B) with (bpow radix2 32 * B * bpow radix2 1) by (change 33%Z with (32 + 1)%Z; rewrite bpow_plus; ring).
  apply Rmult_le_compat; [apply Rmult_le_pos; [apply pos_INR | exact PB] | lra | apply Rmult_le_compat_r; [exact PB |] |].
  - rewrite INR_IZR_INZ. change (bpow radix2 32) with (IZR (2 ^ 32)). now apply IZR_le.
  - apply Rle_trans with (1 := G2). assert (bpow radix2 (-20) <= bpow radix2 0) by (apply bpow_le; lia). change (bpow radix2 0) with 1 in *. change (bpow radix2 1) with 2. lra.
Qed.
Lemma sum_bound_0 B : num_in (- sum_bound B 0) (sum_bound B 0) (S754_zero false).
Proof. apply num_in_abs. split; [reflexivity | split; [reflexivity |]]. unfold sum_bound. cbn. rewrite Rabs_R0. lra. Qed.

(** ** Counts *)
Lemma nN_val fexp fln w : (1 <= w)%nat -> (Z.of_nat w <= 2 ^ 32)%Z -> let d := nN (A := FA fexp fln) w in is_f64 d /\ is_num d = true /\ fval d = INR w.
Proof.
  intros H1 H2. cbv zeta. destruct w as [| w]; [lia |]. set (p := Pos.of_succ_nat w).
  assert (E : nN (A := FA fexp fln) (S w) = SFdiv fprec femax (S754_finite false p 0) (S754_finite false 1 0)) by reflexivity. rewrite E. clear E.
  assert (C := Bdiv_correct_aux fprec femax _ _ mode_NE false p 0 false 1 0). cbv zeta in C. cbn [cond_Zopp xorb] in C.
  assert (X : F2R (beta := radix2) {| Fnum := Z.pos p; Fexp := 0 |} / F2R (beta := radix2) {| Fnum := 1; Fexp := 0 |} = INR (S w)).
  { unfold F2R. cbn [Fnum Fexp bpow]. unfold Rdiv. rewrite !Rmult_1_r, Rinv_1, Rmult_1_r. rewrite INR_IZR_INZ. f_equal. }
  rewrite X in C.
  assert (R : rnd (INR (S w)) = INR (S w)).
  { unfold rnd. apply round_generic; [apply valid_rnd_N |]. apply (generic_format_FLT radix2 (-1074) 53). apply (FLT_spec _ _ _ _ {| Fnum := Z.pos p; Fexp := 0 |}).
    - unfold F2R. cbn [Fnum Fexp bpow]. rewrite Rmult_1_r, INR_IZR_INZ. f_equal.
    - cbn [Fnum]. unfold p. change (radix_val radix2) with 2%Z. lia.
    - cbn [Fexp]. lia. }
  assert (L : Rlt_bool (Rabs (rnd (INR (S w)))) (bpow radix2 femax) = true).
  { apply Rlt_bool_true. rewrite R, Rabs_pos_eq by apply pos_INR. apply Rle_lt_trans with (bpow radix2 32); [| apply bpow_lt; reflexivity].
    rewrite INR_IZR_INZ. change (bpow radix2 32) with (IZR (2 ^ 32)). now apply IZR_le. }
  change (round radix2 fexp64 (round_mode mode_NE) (INR (S w))) with (rnd (INR (S w))) in C. rewrite L in C. rewrite R in C.
  assert (E : SFdiv fprec femax (S754_finite false p 0) (S754_finite false 1 0) = let '(mz, ez, lz) := SFdiv_core_binary fprec femax (Z.pos p) 0 1 0 in binary_round_aux fprec femax mode_NE false mz ez lz).
  { unfold SFdiv. cbn [xorb]. destruct (SFdiv_core_binary fprec femax (Z.pos p) 0 1 0) as ((mz, ez), lz). apply bra_equiv. }
  rewrite E. destruct C as (V & F & N & _). split; [exact V |]. split; [| exact F].
  destruct (let '(mz, ez, lz) := _ in _) as [| | |]; try reflexivity; discriminate.
Qed.

Section Diag.
  Variables fexp fln : f64 -> f64.
  Hypothesis LM : libm_f64 fexp fln.
  Local Notation A := (FA fexp fln).
  Let He : on_f64 fexp := exp_doubles _ _ LM.

  Lemma nsum_abs B n (f : nat -> f64) : (Z.of_nat n <= 2 ^ 32)%Z -> 0 <= B -> B <= bpow radix2 950 -> (forall i, (i < n)%nat -> num_in (- B) B (f i)) ->
    num_in (- sum_bound B n) (sum_bound B n) (nsum (A := A) n f).
  Proof.
    intros Hn PB LB Hf. induction n as [| n IH]; [apply sum_bound_0 |]. cbn [nsum]. apply sum_step; auto.
    - apply IH; [lia |]. intros i Hi. apply Hf. lia.
  Qed.
  Lemma accM_abs B n (f : nat -> res f64) s : (Z.of_nat n <= 2 ^ 32)%Z -> 0 <= B -> B <= bpow radix2 950 -> (forall i v, (i < n)%nat -> f i = Ok v -> num_in (- B) B v) ->
    accM (A := A) n f n0 = Ok s -> num_in (- sum_bound B n) (sum_bound B n) s.
  Proof.
    intros Hn PB LB Hf H. unfold accM in H. apply (iterM_inv_ok (fun k a => num_in (- sum_bound B k) (sum_bound B k) a)) in H; [exact H | apply sum_bound_0 |].
    intros i x y Hi Hx E. apply bind_ok_inv in E. destruct E as (v & Ev & E). injection E as <-. apply sum_step; auto; [lia | eapply Hf; eauto].
  Qed.

  (** The window. *)
  Definition win (b : ring f64) : Prop :=
    length (r_data b) = 1%nat /\ (Z.of_nat (r_length b) < 2 ^ 32)%Z /\ (r_index b < r_length b)%nat /\ length (nth 0 (r_data b) []) = r_length b /\
    forall i, (i < ring_size_t b)%nat -> num_in (- 560) 560 (nth i (nth 0 (r_data b) []) (S754_zero false)).

  Lemma push_win b v b' : win b -> num_in (- 560) 560 v -> ring_push1 b v = Ok b' -> win b' /\ (1 <= ring_size_t b' <= r_length b')%nat.
  Proof.
    intros (L1 & L2 & I & L3 & W) Hv H. destruct b as [data len idx full]. cbn [r_data r_length r_index] in *. destruct data as [| ch [|]]; cbn in L1; try lia. cbn [nth] in *.
    unfold ring_push1 in H. cbn [r_data length] in H. cbn [Nat.ltb Nat.leb rd nth_error bind r_index] in H. destruct (wr ch idx v) as [ch' | |] eqn:Ew; try discriminate. cbn in H.
    unfold ring_advance in H. cbn [r_length r_index r_full] in H. destruct (len =? 0)%nat; [discriminate |]. injection H as <-.
    destruct (wr_nth (X := f64) _ _ _ _ (S754_zero false) Ew) as (Lw & Nw & Ow). fold f64 in *. unfold win, ring_size_t in *. cbn [r_data r_length r_index r_full nth length] in *.
    assert (M : (S idx mod len < len)%nat) by (apply Nat.mod_upper_bound; lia).
    assert (Y : (S idx =? len)%nat = false -> S idx mod len = S idx) by (intros E; apply Nat.eqb_neq in E; apply Nat.mod_small; lia).
    change (match len with 0%nat => false | S m' => (idx =? m')%nat end) with (S idx =? len)%nat in *.
    split; [split; [reflexivity |]; split; [exact L2 |]; split; [exact M |]; split; [exact (eq_trans Lw L3) |] |].
    - intros i Hi. destruct (Nat.eq_dec i idx) as [-> | D]; [now rewrite Nw |]. rewrite Ow by exact D. apply W.
      destruct (S idx =? len)%nat eqn:E; [apply Nat.eqb_eq in E; destruct full; lia |]. rewrite (Y eq_refl) in Hi. destruct full; lia.
    - destruct (S idx =? len)%nat eqn:E; [lia |]. rewrite (Y eq_refl). destruct full; lia.
  Qed.

  Lemma get_win (b : ring f64) i v : win b -> (i < ring_size_t b)%nat -> ring_get b 0 i = Ok v -> num_in (- 560) 560 v.
  Proof.
    intros (L1 & L2 & I & L3 & Wi) Hi E. unfold ring_get in E. rewrite L1 in E. cbn [Nat.leb] in E. destruct (ring_size_t b <=? i)%nat; [discriminate |].
    apply bind_ok_inv in E. destruct E as (ch & Ec & E). destruct (rd_nth _ _ _ [] Ec) as (<- & _). destruct (rd_nth _ _ _ (S754_zero false) E) as (<- & _). now apply Wi.
  Qed.
  Lemma mean_bound s w : (1 <= w)%nat -> (Z.of_nat w <= 2 ^ 32)%Z -> num_in (- sum_bound 560 w) (sum_bound 560 w) s -> num_in (- 600) 600 (SFdiv fprec femax s (nN (A := A) w)).
  Proof.
    intros H1 H2 Hs. destruct (nN_val fexp fln w H1 H2) as (Vd & Nd & Ed). apply num_in_abs in Hs. destruct Hs as (Vs & Ns & Bs). apply num_in_abs.
    assert (Pw : 1 <= INR w) by (apply (le_INR 1); exact H1).
    assert (B : Rabs (fval s / INR w) <= 576).
    { unfold Rdiv. rewrite Rabs_mult, (Rabs_pos_eq (/ INR w)) by (left; apply Rinv_0_lt_compat; lra). apply (Rmult_le_reg_r (INR w)); [lra |]. rewrite Rmult_assoc, Rinv_l, Rmult_1_r by lra.
      apply Rle_trans with (1 := Bs). unfold sum_bound. destruct (growth w H2) as ((G1 & _) & G2).
      assert (bpow radix2 (-20) <= / 256) by (change (/ 256) with (bpow radix2 (-8)); apply bpow_le; lia).
      rewrite (Rmult_comm 576), Rmult_assoc. apply Rmult_le_compat_l; [lra |]. lra. }
    set (c := S754_finite false 5066549580791808 (-43)).
    assert (Ec : fval c = 576) by (unfold c, fval; cbn; unfold F2R; cbn; lra). assert (Rc : rnd 576 = 576) by (rewrite <- Ec; apply rnd_fval; reflexivity).
    assert (R : Rabs (rnd (fval s / INR w)) <= 576).
    { apply Rabs_le_inv in B. apply Rabs_le. split; [rewrite <- Rc, <- rnd_opp | rewrite <- Rc]; apply rnd_le; apply B. }
    split; [now apply f_div_valid |]. destruct (f_div_num s (nN (A := A) w) Vs Vd Ns) as (N & E).
    - rewrite Ed. lra.
    - rewrite Ed. apply Rle_lt_trans with (1 := R). apply Rlt_le_trans with (bpow radix2 10); [cbn; lra | apply bpow_le; lia].
    - rewrite E, Ed. split; [exact N | lra].
  Qed.

  Lemma smooth_win b p b' l : win b -> num_in (bpow radix2 (- 800)) (bpow radix2 800) p -> smooth (A := A) b p = Ok (b', l) -> win b' /\ num_in (- 600) 600 l.
  Proof.
    intros Wb Hp H. unfold smooth in H. apply bind_ok_inv in H. destruct H as (b1 & E1 & H). apply bind_ok_inv in H. destruct H as (s & Es & H). injection H as <- <-.
    destruct (push_win b _ b1 Wb (ln_mid _ _ LM p Hp) E1) as (W & Sz). pose proof W as (L1 & L2 & I & L3 & Wi). split; [exact W |].
    apply mean_bound; [lia | lia |]. eapply accM_abs; [lia | lra | | | exact Es].
    - apply Rle_trans with (bpow radix2 10); [cbn; lra | apply bpow_le; lia].
    - intros i v Hi E. exact (get_win b1 i v W Hi E).
  Qed.

  (** One class. *)
  Lemma obs_le g x c v : class_diag (fexp := fexp) (fln := fln) g -> frame_f64 x -> (if gc_bim g then gm_obs_input (A := A) g x c else gm_obs (A := A) g x c) = Ok v -> fval v <= bpow radix2 537.
  Proof.
    intros (C & K & _) Fx H. pose proof C as ((_ & Fw & _) & Fk).
    assert (G : forall w k p, rd (gc_coef g) c = Ok w -> rd (gc_comp g) c = Ok k -> (g_likelihood (A := A) k x = Ok p \/ g_likelihood_input (A := A) k x = Ok p) -> v = SFmul fprec femax w p -> fval v <= bpow radix2 537).
    { intros w k p Ew Ek Ep ->. unfold rd in Ew, Ek. destruct (nth_error (gc_comp g) c) eqn:E1; [| discriminate]. destruct (nth_error (gc_coef g) c) eqn:E2; [| discriminate].
      injection Ek as <-. injection Ew as <-. rewrite Forall_forall in Fw, Fk, K. apply nth_error_In in E1. apply nth_error_In in E2.
      assert (P : num_nonneg p). { destruct Ep as [Ep | Ep]; [eapply (lik_num fexp fln He) | eapply (lik_input_num fexp fln He)]; eauto. }
      destruct (mul_weight _ p (Fw _ E2) P) as (_ & _ & M). apply Rle_trans with (1 := M). eapply (lik_le fexp fln LM); eauto. }
    destruct (gc_bim g) eqn:B.
    - unfold gm_obs_input in H. rewrite B in H. cbn [negb] in H.
      apply bind_ok_inv in H. destruct H as (w & Ew & H). apply bind_ok_inv in H. destruct H as (k & Ek & H). apply bind_ok_inv in H. destruct H as (p & Ep & H).
      injection H as H. apply (G w k p); auto.
    - unfold gm_obs in H. destruct (gc_n g <=? c)%nat; [discriminate |].
      apply bind_ok_inv in H. destruct H as (w & Ew & H). apply bind_ok_inv in H. destruct H as (k & Ek & H). apply bind_ok_inv in H. destruct H as (p & Ep & H).
      injection H as H. apply (G w k p); auto.
  Qed.

  Definition lik_ok (g : gclass A) : Prop := num_in (bpow radix2 (-798)) (bpow radix2 570) (gc_inst g) /\ num_in (- 600) 600 (gc_log g).

  Lemma lik_step g x h : class_diag (fexp := fexp) (fln := fln) g -> frame_f64 x -> gm_likelihood (A := A) x [] g = Ok h ->
    class_diag (fexp := fexp) (fln := fln) h /\ lik_ok h /\ exists l, parts_f64 (gc_n g) l (fun c => nth c (gc_beta h) (S754_zero false)).
  Proof.
    intros D Fx Hh.
    destruct (likelihood_keeps fexp fln x [] g h Hh) as (K1 & K2 & K3). pose proof D as (C & K & Ln & Wb).
    destruct (class_lik fexp fln He g x h C Fx Hh) as (P & Q).
    assert (N : num_in (bpow radix2 (-798)) (bpow radix2 570) (gc_inst h) /\ (num_in (bpow radix2 (-798)) (bpow radix2 570) (gc_inst h) -> win (gc_buf h) /\ num_in (- 600) 600 (gc_log h) /\ exists l, parts_f64 (gc_n g) l (fun c => nth c (gc_beta h) (S754_zero false)))).
    { unfold gm_likelihood in Hh. apply bind_ok_inv in Hh. destruct Hh as (b & Eb & Hh). cbv zeta in Hh. set (lik := nsum (gc_n g) _) in Hh.
      apply bind_ok_inv in Hh. destruct Hh as (b' & Eb' & Hh). apply bind_ok_inv in Hh. destruct Hh as ((buf & l) & Es & Hh). injection Hh as <-. cbn [gc_inst gc_beta gc_set_buf gc_set_beta gc_buf gc_log] in *.
      destruct (fill_spec (gc_n g) (fun c => if gc_bim g then gm_obs_input g x c else gm_obs g x c) (fun p => p) (gc_beta g) b (S754_zero false) Eb) as (Lb & Nb).
      split.
      - assert (Hs : forall c, (c < gc_n g)%nat -> num_in (- bpow radix2 537) (bpow radix2 537) (nth c b (S754_zero false))).
        { intros c Hc. destruct (Nb c Hc) as (v & Ev & ->). destruct (obs_scored fexp fln He g x c v C Fx Ev) as (w & Ew & Sw).
          pose proof C as ((_ & Fw & _) & _). rewrite Forall_forall in Fw. destruct (scored_nn w v (Fw _ (nth_error_In _ _ Ew)) Sw) as (Vv & Nv & Pv).
          split; [exact Vv |]. split; [exact Nv |]. assert (0 <= bpow radix2 537) by apply bpow_ge_0. split; [lra |]. eapply obs_le; eauto. }
        assert (B : bpow radix2 537 <= bpow radix2 950) by (apply bpow_le; lia).
        destruct (nsum_abs (bpow radix2 537) (gc_n g) _ ltac:(lia) (bpow_ge_0 _ _) B Hs) as (V & N & _ & U). change (nsum (gc_n g) _) with lik in V, N, U.
        split; [exact V |]. split; [exact N |]. split; [apply Q, N |]. apply Rle_trans with (1 := U). eapply Rle_trans; [apply sum_bound_le; [lia | apply bpow_ge_0] |]. rewrite <- bpow_plus. apply Rle_refl.
      - intros (V & N & L). destruct (smooth_win (gc_buf g) lik buf l Wb) as (W1 & W2); [| exact Es | split; [exact W1 |]; split; [exact W2 |]].
        + split; [exact V |]. split; [exact N |]. split; [eapply Rle_trans; [| apply L]; apply bpow_le; lia | eapply Rle_trans; [apply L |]; apply bpow_le; lia].
        + destruct (each_spec (gc_n g) (fun v => (v / lik)%num) b b' (S754_zero false) Eb') as (_ & Nb'). exists (fun c => nth c b (S754_zero false)).
          apply (parts_of fexp fln); [| exact N | exact (Rlt_le_trans _ _ _ (bpow_gt_0 _ _) (proj1 L)) | exact Nb'].
          intros c Hc. destruct (Nb c Hc) as (v & Ev & ->). destruct (obs_scored fexp fln He g x c v C Fx Ev) as (w & Ew & Sw). pose proof C as ((_ & Fw & _) & _). rewrite Forall_forall in Fw. apply nonneg_nn. exact (scored_nn w v (Fw _ (nth_error_In _ _ Ew)) Sw). }
    destruct N as (N & S). destruct (S N) as (S1 & S2 & S3). split; [| split; [split; [exact N | exact S2] | exact S3]].
    unfold class_diag, class_f64, gc_n in *. rewrite K1, K2, K3. split; [exact C |]. split; [exact K |]. split; [exact Ln | exact S1].
  Qed.
  Lemma class_step g x g' : class_diag (fexp := fexp) (fln := fln) g -> frame_f64 x -> gm_filter1 (A := A) x g = Ok g' -> class_diag (fexp := fexp) (fln := fln) g' /\ lik_ok g'.
  Proof.
    intros D Fx H. destruct (filter1_inv fexp fln x g g' H) as (h & Hh & E1 & E2 & E3 & E4 & E5 & E6 & E7).
    destruct (lik_step g x h D Fx Hh) as (C & L & _). unfold lik_ok in *. rewrite E1, E2. split; [| exact L].
    unfold class_diag, class_f64, gc_n in *. rewrite E4, E5, E6, E7. exact C.
  Qed.
  Lemma model_step m x m' : model_diag (fexp := fexp) (fln := fln) m -> frame_f64 x -> gm_filter (A := A) x m = Ok m' ->
    model_diag (fexp := fexp) (fln := fln) m' /\ length (gm_models m') = length (gm_models m) /\ Forall (fun e => lik_ok (snd e)) (gm_models m').
  Proof.
    intros (Ln & D) Fx H. destruct (filter_inv fexp fln m m' x H) as (r & _ & _ & _ & _ & _ & _ & _ & Em). clear H.
    assert (G : forall l l', Forall (fun e : string * gclass A => class_diag (snd e)) l -> mapM (fun e : string * gclass A => let* g := gm_filter1 (A := A) x (snd e) in Ok (fst e, g)) l = Ok l' ->
      Forall (fun e => class_diag (snd e)) l' /\ length l' = length l /\ Forall (fun e => lik_ok (snd e)) l').
    { clear - LM He Fx. induction l as [| e l IH]; cbn [mapM]; intros l' F H; [injection H as <-; auto |]. inversion F as [| ? ? F1 F2]; subst.
      apply bind_ok_inv in H. destruct H as (e' & E1 & H). apply bind_ok_inv in E1. destruct E1 as (g & Eg & E1). injection E1 as <-.
      apply bind_ok_inv in H. destruct H as (t & Et & H). injection H as <-. destruct (IH t F2 Et) as (I1 & I2 & I3). destruct (class_step (snd e) x g F1 Fx Eg) as (S1 & S2).
      split; [constructor; auto |]. split; [cbn; now f_equal | constructor; auto]. }
    destruct (G _ _ D Em) as (G1 & G2 & G3). unfold model_diag. rewrite G2. auto.
  Qed.

  Lemma results_ok (ms : list (string * gclass A)) r0 r : (1 <= length ms)%nat -> (Z.of_nat (length ms) < 2 ^ 32)%Z -> Forall (fun e => lik_ok (snd e)) ms ->
    update_results (A := A) (map fst ms) (map (fun e => gc_inst (snd e)) ms) (map (fun e => gc_log (snd e)) ms) r0 = Ok r ->
    let at_ (l : list f64) := fun i => nth i l (S754_zero false) in
    parts_f64 (length ms) (at_ (rs_inst r)) (at_ (rs_instn r)) /\ parts_f64 (length ms) (at_ (rs_sm r)) (at_ (rs_smn r)).
  Proof.
    intros Hn Ln F Er. cbv zeta. assert (Er0 := results_parts fexp fln _ _ _ _ _ Er). clear Er. rename Er0 into Er. cbv zeta in Er. rewrite map_length in Er. set (n := length ms) in *.
    assert (O : forall i, (i < n)%nat -> exists e, nth_error (ms) i = Some e /\ lik_ok (snd e)).
    { intros i Hi. destruct (nth_error (ms) i) eqn:E; [| apply nth_error_None in E; lia]. eexists. split; [reflexivity |]. rewrite Forall_forall in F. eapply F, nth_error_In, E. }
    assert (I : forall i, (i < n)%nat -> num_in (bpow radix2 (-798)) (bpow radix2 570) (nth i (rs_inst r) (S754_zero false))).
    { intros i Hi. destruct (Er i Hi) as (-> & _). destruct (O i Hi) as (e & E & (L & _)). erewrite nth_error_nth; [exact L |]. rewrite nth_error_map, E. reflexivity. }
    assert (M : forall i, (i < n)%nat -> num_in (bpow radix2 (-900)) (bpow radix2 900) (nth i (rs_sm r) (S754_zero false))).
    { intros i Hi. destruct (Er i Hi) as (_ & _ & -> & _). apply (exp_mid _ _ LM). destruct (O i Hi) as (e & E & (_ & L)). erewrite nth_error_nth; [exact L |]. rewrite nth_error_map, E. reflexivity. }
    assert (T : forall a b (l q : list f64), 0 < a -> b <= bpow radix2 950 -> (forall i, (i < n)%nat -> num_in a b (nth i l (S754_zero false))) ->
      (forall i, (i < n)%nat -> nth i q (S754_zero false) = SFdiv fprec femax (nth i l (S754_zero false)) (nsum (A := A) n (fun i => nth i l (S754_zero false)))) ->
      parts_f64 n (fun i => nth i l (S754_zero false)) (fun i => nth i q (S754_zero false))).
    { intros a b l q Pa Lb Hl Hq. assert (Pb : 0 <= b). { destruct (Hl 0%nat ltac:(lia)) as (_ & _ & B). lra. }
      assert (Nn : forall i, (i < n)%nat -> nn (nth i l (S754_zero false))). { intros i Hi. destruct (Hl i Hi) as (V & N & B). split; [exact V | right; split; [exact N | lra]]. }
      destruct (nsum_abs b n (fun i => nth i l (S754_zero false)) ltac:(lia) Pb Lb) as (V & N & _).
      { intros i Hi. destruct (Hl i Hi) as (V & N & B). split; [exact V | split; [exact N | lra]]. }
      apply (parts_of fexp fln); auto. destruct (nsum_nn fexp fln n _ Nn) as (_ & Q). destruct (Q N) as (Q1 & _). destruct (Q1 0%nat ltac:(lia)) as (_ & Q2). destruct (Hl 0%nat ltac:(lia)) as (_ & _ & B). lra. }
    split.
    - apply (T (bpow radix2 (-798)) (bpow radix2 570)); [apply bpow_gt_0 | apply bpow_le; lia | exact I |]. intros i Hi. apply Er, Hi.
    - apply (T (bpow radix2 (-900)) (bpow radix2 900)); [apply bpow_gt_0 | apply bpow_le; lia | exact M |]. intros i Hi. apply Er, Hi.
  Qed.
  Lemma results_diag m x m' : model_diag (fexp := fexp) (fln := fln) m -> frame_f64 x -> gm_filter (A := A) x m = Ok m' ->
    let n := length (gm_models m) in let at_ (l : list f64) := fun i => nth i l (S754_zero false) in let r := gm_res m' in
    (1 <= n)%nat -> parts_f64 n (at_ (rs_inst r)) (at_ (rs_instn r)) /\ parts_f64 n (at_ (rs_sm r)) (at_ (rs_smn r)).
  Proof.
    intros D Fx H. cbv zeta. intros Hn. destruct (model_step m x m' D Fx H) as ((Ln & _) & Le & F). rewrite <- Le in *.
    destruct (filter_inv fexp fln m m' x H) as (r & Er & -> & -> & -> & -> & _). exact (results_ok (gm_models m') _ r Hn Ln F Er).
  Qed.
End Diag.
