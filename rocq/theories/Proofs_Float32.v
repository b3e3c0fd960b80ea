(** Regression with a class of states, in binary64. *)
From Coq Require Import String ZArith QArith Reals Lra Lia Bool List Arith.
From Coq Require Import Floats.SpecFloat.
From Flocq Require Import Core.Core.
From Verif Require Import Base BaseFacts Arith Spec_Float Spec_Float2 Spec_Float3 Spec_Float4 Spec_Float6 Spec_Float7 Proofs_Float1 Proofs_Float2 Proofs_Float3 Proofs_Float4 Proofs_Float5 Proofs_Float6 Proofs_Float7 Proofs_Float8 Proofs_Float9 Proofs_Float12 Proofs_Float13 Proofs_Float14 Proofs_Float15 Proofs_Float16 Proofs_Float21 Proofs_Float22 Proofs_Float24 Proofs_Float26 Proofs_Float27 Proofs_Float30 Proofs_Float31.
From Verif Require Import Model_Map Model_Ring Model_Phrase Model_Gaussian Model_Config Model_KMeans Model_GMM Model_HMM Model_HHMM Model_Single Model_Single2 Model_Single3 Model_Single4.
Import ListNotations.
Local Open Scope R_scope.

Local Notation fadd := (SFadd fprec femax).
Local Notation fmul := (SFmul fprec femax).
Local Notation fdiv := (SFdiv fprec femax).

Lemma finite_choice {X} (z : X) (Q : nat -> X -> Prop) n : (forall k, (k < n)%nat -> exists y, Q k y) -> exists f : nat -> X, forall k, (k < n)%nat -> Q k (f k).
Proof.
  induction n as [| n IH]; intros H; [exists (fun _ => z); intros; lia |]. destruct IH as (f & F); [intros; apply H; lia |]. destruct (H n ltac:(lia)) as (y & Y).
  exists (fun k => if (k =? n)%nat then y else f k). intros k Hk. destruct (Nat.eqb_spec k n) as [-> | D]; [exact Y | apply F; lia].
Qed.

Section Reg.
  Variables fexp fln : f64 -> f64.
  Hypothesis LM : libm_f64 fexp fln.
  Local Notation A := (FA fexp fln).
  Local Notation fire x g := (let* g := gm_likelihood (A := A) x [] g in gm_regression_with (A := A) as_single x g).

  Definition rlo (h : hclass A) : nat := match hp_est (hc_par h) with RFull => 0%nat | _ => h_wmin (hc_run h) end.
  Definition rhi (h : hclass A) : nat := match hp_est (hc_par h) with RFull => hc_n h | _ => h_wmax (hc_run h) end.
  Definition rnc (h : hclass A) : f64 := let nc := match hp_est (hc_par h) with RFull => n1 (A := A) | _ => h_wnorm (hc_run h) end in if (nc <=? n0 (A := A))%num then n1 (A := A) else nc.

  (** What a frame leaves of a class. *)
  Definition hkept (P : gclass A -> Prop) (h h' : hclass A) : Prop :=
    hc_bim h' = hc_bim h /\ hc_dim h' = hc_dim h /\ hc_din h' = hc_din h /\ hc_hier h' = hc_hier h /\ hc_par h' = hc_par h /\
    h_prior (hc_net h') = h_prior (hc_net h) /\ h_trans (hc_net h') = h_trans (hc_net h) /\ (Forall P (h_states (hc_net h)) -> Forall P (h_states (hc_net h'))).
  Lemma hkept_run P r h : hkept P h (hc_set_run r h). Proof. repeat split; auto. Qed.
  Lemma hkept_trans P h1 h2 h3 : hkept P h1 h2 -> hkept P h2 h3 -> hkept P h1 h3.
  Proof. intros (A1 & A2 & A3 & A4 & A5 & A6 & A7 & A8) (B1 & B2 & B3 & B4 & B5 & B6 & B7 & B8). unfold hkept. rewrite B1, B2, B3, B4, B5, B6, B7. auto 12. Qed.

  (** The loop of the regression over [n] states from [lo]. *)
  Lemma hreg_loop (P : gclass A -> Prop) x (al : list f64) mode no lo n (nc : f64) (ss0 ss : list (gclass A)) (o0 v0 o v : list f64) : (forall g g', kept fexp fln g g' -> P g -> P g') -> Forall P ss0 ->
    iterM n (fun k s =>
          let '(ss, o, v) := s in
          let* g := rd ss (lo + k) in
          let* g := fire x g in
          let* ss := wr ss (lo + k) g in
          let* w := rd al (lo + k) in
          let* (o, v) := iterM no (fun d s =>
            let '(o, v) := s in
            let* a := rd o d in
            let* y := rd (gc_out g) d in
            let* o := wr o d (as_single (nadd (a := A) a (ndiv (a := A) (nmul (a := A) w y) nc))) in
            let* v := match mode with
              | Full => iterM no (fun d2 v =>
                  let* a := rd v (d * no + d2) in
                  let* c := rd (gc_ocov g) (d * no + d2) in
                  wr v (d * no + d2) (as_single (nadd (a := A) a (ndiv (a := A) (nmul (a := A) (nmul (a := A) w w) c) nc)))) v
              | Diagonal =>
                  let* a := rd v d in
                  let* c := rd (gc_ocov g) d in
                  wr v d (as_single (nadd (a := A) a (ndiv (a := A) (nmul (a := A) (nmul (a := A) w w) c) nc)))
              end in
            Ok (o, v)) (o, v) in
          Ok (ss, o, v)) (ss0, o0, v0) = Ok (ss, o, v) ->
    Forall P ss /\
    (forall d, (d < no)%nat -> exists q y : nat -> f64, q 0%nat = ent o0 d /\ q n = ent o d /\
      forall k, (k < n)%nat -> q (S k) = as_single (fadd (q k) (fdiv (fmul (ent al (lo + k)) (y k)) nc)) /\ exists g g2, P g /\ fire x g = Ok g2 /\ y k = ent (gc_out g2) d) /\
    (mode = Diagonal -> forall d, (d < no)%nat -> exists q y : nat -> f64, q 0%nat = ent v0 d /\ q n = ent v d /\
      forall k, (k < n)%nat -> q (S k) = as_single (fadd (q k) (fdiv (fmul (fmul (ent al (lo + k)) (ent al (lo + k))) (y k)) nc)) /\ exists g g2, P g /\ fire x g = Ok g2 /\ y k = ent (gc_ocov g2) d).
  Proof.
    intros PK F E. assert (FP : forall g g2, fire x g = Ok g2 -> P g -> P g2) by (intros g g2 Q; destruct (fire_kept fexp fln x g g2 Q) as (_ & _ & _ & _ & K); exact (PK _ _ K)).
    apply iterM_seq in E. destruct E as (st & E0 & En & Es).
    assert (Ex : forall k, (k < n)%nat -> Forall P (fst (fst (st k))) -> Forall P (fst (fst (st (S k)))) /\ exists g g2, P g /\ fire x g = Ok g2 /\
      (forall d, (d < no)%nat -> ent (snd (fst (st (S k)))) d = as_single (fadd (ent (snd (fst (st k))) d) (fdiv (fmul (ent al (lo + k)) (ent (gc_out g2) d)) nc))) /\
      (mode = Diagonal -> forall d, (d < no)%nat -> ent (snd (st (S k))) d = as_single (fadd (ent (snd (st k)) d) (fdiv (fmul (fmul (ent al (lo + k)) (ent al (lo + k))) (ent (gc_ocov g2) d)) nc)))).
    { intros k Hk Fk. specialize (Es k Hk). cbv beta in Es. destruct (st k) as ((s1 & o1) & v1). destruct (st (S k)) as ((s2 & o2) & v2). cbn [fst snd] in *.
      apply bind_ok_inv in Es. destruct Es as (g & Eg & Es). apply bind_ok_inv in Es. destruct Es as (g2 & Eg2 & Es). apply bind_ok_inv in Es. destruct Es as (s3 & Es3 & Es). apply bind_ok_inv in Es. destruct Es as (w & Ew & Es). apply bind_ok_inv in Es. destruct Es as ((o3 & v3) & Ei & Es).
      assert (X1 : o3 = o2) by exact (f_equal (fun r => match r with Ok p => snd (fst p) | _ => o3 end) Es). assert (X2 : v3 = v2) by exact (f_equal (fun r => match r with Ok p => snd p | _ => v3 end) Es). assert (X3 : s3 = s2) by exact (f_equal (fun r => match r with Ok p => fst (fst p) | _ => s3 end) Es). subst o3 v3 s3.
      assert (Pg : P g) by (eapply rd_Forall; eauto). split; [eapply Forall_wr; [exact Fk | eapply FP; eauto | exact Es3] |]. exists g, g2. split; [exact Pg |]. split; [exact Eg2 |].
      apply (pair_loop no (gc_out g2) (fun a yd => as_single (nadd (a := A) a (ndiv (a := A) (nmul (a := A) w yd) nc))) _ (S754_zero false)) in Ei. destruct Ei as (_ & I & V).
      assert (W : ent al (lo + k) = w) by (apply (rd_nth _ _ _ _ Ew)). rewrite W.
      split; [intros d Hd; destruct (I d Hd) as (Q & _); exact Q |]. intros Dm d Hd. rewrite Dm in V.
      apply (vec_loop no (gc_ocov g2) (fun a c => as_single (nadd (a := A) a (ndiv (a := A) (nmul (a := A) (nmul (a := A) w w) c) nc))) (S754_zero false)) in V. destruct V as (_ & V). destruct (V d Hd) as (Q & _). exact Q. }
    assert (St : forall k, (k <= n)%nat -> Forall P (fst (fst (st k)))).
    { induction k as [| k IH]; intros Hk; [rewrite E0; exact F |]. apply (Ex k ltac:(lia)). apply IH. lia. }
    split; [assert (Q := St n (le_n n)); rewrite En in Q; exact Q |]. split.
    - intros d Hd. destruct (finite_choice (S754_zero false) (fun k y => ent (snd (fst (st (S k)))) d = as_single (fadd (ent (snd (fst (st k))) d) (fdiv (fmul (ent al (lo + k)) y) nc)) /\ exists g g2, P g /\ fire x g = Ok g2 /\ y = ent (gc_out g2) d) n) as (y & Y).
      { intros k Hk. destruct (Ex k Hk (St k ltac:(lia))) as (_ & g & g2 & Pg & Eg & Q & _). exists (ent (gc_out g2) d). split; [exact (Q d Hd) | exists g, g2; auto]. }
      exists (fun k => ent (snd (fst (st k))) d), y. split; [rewrite E0; reflexivity |]. split; [rewrite En; reflexivity | exact Y].
    - intros Dm d Hd. destruct (finite_choice (S754_zero false) (fun k y => ent (snd (st (S k))) d = as_single (fadd (ent (snd (st k)) d) (fdiv (fmul (fmul (ent al (lo + k)) (ent al (lo + k))) y) nc)) /\ exists g g2, P g /\ fire x g = Ok g2 /\ y = ent (gc_ocov g2) d) n) as (y & Y).
      { intros k Hk. destruct (Ex k Hk (St k ltac:(lia))) as (_ & g & g2 & Pg & Eg & _ & Q). exists (ent (gc_ocov g2) d). split; [exact (Q Dm d Hd) | exists g, g2; auto]. }
      exists (fun k => ent (snd (st k)) d), y. split; [rewrite E0; reflexivity |]. split; [rewrite En; reflexivity | exact Y].
  Qed.

  (** The regression of a class: what it keeps, and the outputs. *)
  Lemma hreg_inv (P : gclass A -> Prop) x (h h' : hclass A) : (forall g g', kept fexp fln g g' -> P g -> P g') -> hc_hier h = false -> Forall P (h_states (hc_net h)) -> hm_regression_with (A := A) as_single x h = Ok h' ->
    exists no, usub (hc_dim h) (hc_din h) = Ok no /\ hkept P h h' /\ hc_run h' = rn_out (h_out (hc_run h')) (h_ocov (hc_run h')) (hc_run h) /\
    match hp_est (hc_par h) with
    | RLikeliest => exists g g2, P g /\ fire x g = Ok g2 /\ h_out (hc_run h') = gc_out g2 /\ h_ocov (hc_run h') = repeat (S754_zero false) (match hp_mode (hc_par h) with Full => no * no | Diagonal => no end)
    | _ =>
        (forall d, (d < no)%nat -> exists o y : nat -> f64, o 0%nat = S754_zero false /\ o (rhi h - rlo h)%nat = ent (h_out (hc_run h')) d /\
          forall k, (k < rhi h - rlo h)%nat -> o (S k) = as_single (fadd (o k) (fdiv (fmul (ent (h_alpha (hc_run h)) (rlo h + k)) (y k)) (rnc h))) /\ exists g g2, P g /\ fire x g = Ok g2 /\ y k = ent (gc_out g2) d) /\
        (hp_mode (hc_par h) = Diagonal -> forall d, (d < no)%nat -> exists o y : nat -> f64, o 0%nat = S754_zero false /\ o (rhi h - rlo h)%nat = ent (h_ocov (hc_run h')) d /\
          forall k, (k < rhi h - rlo h)%nat -> o (S k) = as_single (fadd (o k) (fdiv (fmul (fmul (ent (h_alpha (hc_run h)) (rlo h + k)) (ent (h_alpha (hc_run h)) (rlo h + k))) (y k)) (rnc h))) /\ exists g g2, P g /\ fire x g = Ok g2 /\ y k = ent (gc_ocov g2) d)
    end.
  Proof.
    intros PK Hh F H. unfold hm_regression_with in H. cbv zeta in H. apply bind_ok_inv in H. destruct H as (no & Eno & H). exists no. split; [exact Eno |].
    unfold hm_weight in H. rewrite Hh in H. unfold rlo, rhi, rnc.
    destruct (hp_est (hc_par h)) eqn:Est.
    - apply bind_ok_inv in H. destruct H as (((ss & o) & v) & E & H). injection H as <-. cbn [hc_run hc_set_run hc_net hc_set_net nt_states h_states h_out h_ocov rn_out].
      destruct (hreg_loop P x _ _ no 0 _ _ _ ss _ _ o v PK F E) as (L1 & L2 & L3). split; [repeat split; auto |]. split; [reflexivity |]. split.
      + intros d Hd. destruct (L2 d Hd) as (q & y & Q0 & Q). exists q, y. split; [rewrite Q0; unfold ent; apply nth_repeat | exact Q].
      + intros Dm d Hd. rewrite Dm in L3. destruct (L3 eq_refl d Hd) as (q & y & Q0 & Q). exists q, y. split; [rewrite Q0; unfold ent; apply nth_repeat | exact Q].
    - apply bind_ok_inv in H. destruct H as (((ss & o) & v) & E & H). injection H as <-. cbn [hc_run hc_set_run hc_net hc_set_net nt_states h_states h_out h_ocov rn_out].
      destruct (hreg_loop P x _ _ no _ _ _ _ ss _ _ o v PK F E) as (L1 & L2 & L3). split; [repeat split; auto |]. split; [reflexivity |]. split.
      + intros d Hd. destruct (L2 d Hd) as (q & y & Q0 & Q). exists q, y. split; [rewrite Q0; unfold ent; apply nth_repeat | exact Q].
      + intros Dm d Hd. rewrite Dm in L3. destruct (L3 eq_refl d Hd) as (q & y & Q0 & Q). exists q, y. split; [rewrite Q0; unfold ent; apply nth_repeat | exact Q].
    - assert (FP : forall g g2, fire x g = Ok g2 -> P g -> P g2) by (intros g g2 E; destruct (fire_kept fexp fln x g g2 E) as (_ & _ & _ & _ & K); exact (PK _ _ K)).
      apply bind_ok_inv in H. destruct H as (g & Eg & H). apply bind_ok_inv in H. destruct H as (g2 & Eg2 & H). apply bind_ok_inv in H. destruct H as (ss & Es & H). injection H as <-. assert (Pg : P g) by (eapply rd_Forall; eauto).
      split; [repeat split; intros _; eapply (Forall_wr _ _ _ _ _ F); [| exact Es]; eapply FP; eauto |]. split; [reflexivity |].
      exists g, g2. split; [exact Pg |]. split; [exact Eg2 |]. split; reflexivity.
  Qed.

  (** ** The outputs of a class *)
  Section Class.
    Variables (G d : nat) (b : Z) (x : list f64) (h h' : hclass A).
    Hypothesis Hb : (-100 <= b <= 98)%Z.
    Hypothesis HG : (Z.of_nat G <= 2 ^ 20)%Z.
    Hypothesis HN : (1 <= hc_n h)%nat.
    Hypothesis HN2 : (Z.of_nat (hc_n h) <= 2 ^ 20)%Z.
    Hypothesis Hd : (hc_din h + d < hc_dim h)%nat.
    Hypothesis Fx : frame_f64 x.
    Hypothesis Hh : hc_hier h = false.
    Hypothesis AL : forall k, (k < hc_n h)%nat -> num_in 0 1 (ent (h_alpha (hc_run h)) k).
    Hypothesis TL : total (hc_n h) (ent (h_alpha (hc_run h))).
    Hypothesis WN : windowed fexp fln h.
    Hypothesis SR : Forall (state_reg fexp fln G (hc_dim h) (hc_din h)) (h_states (hc_net h)).
    Hypothesis H : hm_regression_with (A := A) as_single x h = Ok h'.

    Lemma rnc_pos (nc : f64) : num_in (bpow radix2 (-33)) (bpow radix2 33) nc -> (if (nleb (a := A) nc (n0 (A := A))) then n1 (A := A) else nc) = nc.
    Proof.
      intros (V & N & B). assert (P : 0 < fval nc) by (eapply Rlt_le_trans; [apply bpow_gt_0 | apply B]).
      assert (Q : nleb (a := A) nc (n0 (A := A)) = false); [| now rewrite Q]. change (SFleb nc (S754_zero false) = false). rewrite leb_num; auto; [| reflexivity]. apply Rle_bool_false. exact P.
    Qed.

    Lemma class_shares : (rlo h < rhi h)%nat -> shares (h_alpha (hc_run h)) (rlo h) (rhi h - rlo h) (rnc h) /\ (rhi h <= hc_n h)%nat.
    Proof.
      unfold rlo, rhi, rnc. cbv zeta. destruct WN as (W1 & W2 & W3 & W4 & W5). assert (X : forall lo hi nc, h_wmin (hc_run h) = lo -> h_wmax (hc_run h) = hi -> h_wnorm (hc_run h) = nc -> (lo < hi)%nat ->
        shares (h_alpha (hc_run h)) lo (hi - lo) (if nleb (a := A) nc (n0 (A := A)) then n1 (A := A) else nc) /\ (hi <= hc_n h)%nat).
      { intros lo hi nc <- <- <- L. rewrite rnc_pos by now apply W3. split; [| exact W1]. apply (shares_window fexp fln); [lia | lia | intros k Hk; apply AL; lia | exact W2 | now apply W3]. }
      destruct (hp_est (hc_par h)); [| intros L; now apply X..]. intros _. rewrite Nat.sub_0_r. assert (S := shares_full fexp fln (hc_n h) (h_alpha (hc_run h)) HN AL TL). rewrite rnc_pos by apply S. split; [exact S | lia].
    Qed.
    Lemma class_G : 0 <= INR G * bpow radix2 (b - 20) <= bpow radix2 b.
    Proof.
      assert (E20 : bpow radix2 (b - 20) = bpow radix2 b * / 1048576) by (unfold Zminus; rewrite bpow_plus; reflexivity). rewrite E20. assert (B0 := bpow_gt_0 radix2 b).
      assert (INR G <= 1048576) by (rewrite INR_IZR_INZ; apply IZR_le; lia). assert (P := pos_INR G). nra.
    Qed.
    Lemma class_no no : usub (hc_dim h) (hc_din h) = Ok no -> (d < no)%nat.
    Proof. unfold usub. destruct (Nat.leb_spec (hc_din h) (hc_dim h)) as [L | L]; [| discriminate]. intros E. injection E as <-. lia. Qed.
    Lemma b1 : bpow radix2 (b + 1) = 2 * bpow radix2 b /\ bpow radix2 (b + 1 - 20) = 2 * bpow radix2 (b - 20).
    Proof. split; [rewrite bpow_plus; change (bpow radix2 1) with 2; ring | replace (b + 1 - 20)%Z with (1 + (b - 20))%Z by ring; rewrite bpow_plus; reflexivity]. Qed.
    Lemma count_le n : (n <= hc_n h)%nat -> INR n <= INR (hc_n h). Proof. apply le_INR. Qed.
    Lemma v_nonneg n nc : (forall i, (i < n)%nat -> num_in 0 1 (ent (h_alpha (hc_run h)) (rlo h + i)) /\ fval (ent (h_alpha (hc_run h)) (rlo h + i)) <= 2 * fval nc) -> num_in (bpow radix2 (-33)) (bpow radix2 33) nc ->
      forall i, (i < n)%nat -> 0 <= fval (ent (h_alpha (hc_run h)) (rlo h + i)) / fval nc.
    Proof. intros S2 (_ & _ & B) i Hi. destruct (S2 i Hi) as ((_ & _ & B1) & _). apply Rmult_le_pos; [apply B1 |]. apply Rlt_le, Rinv_0_lt_compat. eapply Rlt_le_trans; [apply bpow_gt_0 | apply B]. Qed.
    Lemma sum2 n : (n <= hc_n h)%nat -> forall s, s <= 1 + INR n * bpow radix2 (-40) -> s <= 2.
    Proof.
      intros Ln s Hs. apply Rle_trans with (1 := Hs). change (bpow radix2 (-40)) with (/ 1099511627776). assert (INR n <= 1048576) by (rewrite INR_IZR_INZ; apply IZR_le; lia). lra.
    Qed.

    Lemma class_hout lo hi : (hp_est (hc_par h) = RWindowed -> 2 <= hc_n h)%nat -> Forall (fun g => means_in d lo hi g) (h_states (hc_net h)) -> range_in b lo hi ->
      near lo hi ((INR G + 2 * INR (hc_n h)) * bpow radix2 (b - 20)) (ent (h_out (hc_run h')) d).
    Proof.
      intros W2 Hm R. set (P := fun g : gclass A => state_reg fexp fln G (hc_dim h) (hc_din h) g /\ means_in d lo hi g).
      assert (PK : forall g g', kept fexp fln g g' -> P g -> P g') by (intros g g' K (P1 & P2); split; [eapply state_reg_kept; eauto | eapply means_kept; eauto]).
      assert (FP : Forall P (h_states (hc_net h))) by (apply Forall_forall; intros g I; split; [exact (proj1 (Forall_forall _ _) SR g I) | exact (proj1 (Forall_forall _ _) Hm g I)]).
      destruct (hreg_inv P x h h' PK Hh FP H) as (no & Eno & _ & _ & Q). assert (Ld := class_no no Eno).
      assert (B0 := bpow_gt_0 radix2 b). assert (B1 := bpow_gt_0 radix2 (b - 20)). destruct class_G as (CG0 & CG). assert (N1 : 1 <= INR (hc_n h)) by (apply (le_INR 1); exact HN).
      assert (Fi : forall g g2, P g -> fire x g = Ok g2 -> near lo hi (INR G * bpow radix2 (b - 20)) (ent (gc_out g2) d)).
      { intros g g2 (P1 & P2) E. apply (fire_near fexp fln LM G (hc_dim h) (hc_din h) d b x g g2); auto. lia. }
      assert (Main : forall o y : nat -> f64, (rlo h < rhi h)%nat -> o 0%nat = S754_zero false -> o (rhi h - rlo h)%nat = ent (h_out (hc_run h')) d ->
        (forall k, (k < rhi h - rlo h)%nat -> o (S k) = as_single (fadd (o k) (fdiv (fmul (ent (h_alpha (hc_run h)) (rlo h + k)) (y k)) (rnc h))) /\ exists g g2, P g /\ fire x g = Ok g2 /\ y k = ent (gc_out g2) d) ->
        near lo hi ((INR G + 2 * INR (hc_n h)) * bpow radix2 (b - 20)) (ent (h_out (hc_run h')) d)).
      { intros o y Lt O0 On Os. destruct (class_shares Lt) as ((S1 & S2 & S3) & Lh). set (n := (rhi h - rlo h)%nat) in *. destruct b1 as (E2 & E3). destruct R as (R1 & R2).
        assert (Y : forall k, (k < n)%nat -> near lo hi (INR G * bpow radix2 (b - 20)) (y k)) by (intros k Hk; destruct (Os k Hk) as (_ & g & g2 & Pg & Eg & ->); exact (Fi g g2 Pg Eg)).
        set (v := fun i => fval (ent (h_alpha (hc_run h)) (rlo h + i)) / fval (rnc h)) in *.
        assert (T := acct_hull (b + 1) n v (fun i => fval (y i)) (fun k => fdiv (fmul (ent (h_alpha (hc_run h)) (rlo h + k)) (y k)) (rnc h)) o). rewrite <- On.
        destruct T with (lo := lo - INR G * bpow radix2 (b - 20)) (hi := hi + INR G * bpow radix2 (b - 20)) as (V & N & C).
        - lia.
        - lia.
        - exact (v_nonneg n (rnc h) S2 S1).
        - apply (sum2 n ltac:(lia)), S3.
        - intros i Hi. destruct (Y i Hi) as (_ & _ & C). rewrite E2. lra.
        - intros i Hi. destruct (S2 i Hi) as (A1 & A2). destruct (Y i Hi) as (V & N & C). apply (term_err (b + 1)); auto; [lia |]. split; [exact V |]. split; [exact N |]. rewrite E2. lra.
        - rewrite O0. repeat split.
        - intros i Hi. apply (Os i Hi).
        - lia.
        - exact S3.
        - rewrite E2. lra.
        - rewrite E2. lra.
        - intros i Hi. apply (Y i Hi).
        - split; [exact V |]. split; [exact N |]. rewrite E3 in C. assert (Nn := count_le n ltac:(lia)). assert (0 <= INR n) by apply pos_INR. nra. }
      assert (Lt : hp_est (hc_par h) <> RLikeliest -> (rlo h < rhi h)%nat). { unfold rlo, rhi. destruct WN as (_ & _ & _ & _ & W5). destruct (hp_est (hc_par h)); intros NE; [lia | apply W5, W2; reflexivity | congruence]. }
      destruct (hp_est (hc_par h)) eqn:Est.
      - destruct Q as (Q & _). destruct (Q d Ld) as (o & y & O0 & On & Os). apply (Main o y); auto. apply Lt; discriminate.
      - destruct Q as (Q & _). destruct (Q d Ld) as (o & y & O0 & On & Os). apply (Main o y); auto. apply Lt; discriminate.
      - destruct Q as (g & g2 & Pg & Eg & Eo & _). rewrite Eo. destruct (Fi g g2 Pg Eg) as (V & N & C). split; [exact V |]. split; [exact N |]. nra.
    Qed.

    Lemma class_hcov hi : hp_mode (hc_par h) = Diagonal -> Forall (fun g => variances_in d hi g) (h_states (hc_net h)) -> 0 <= hi <= bpow radix2 b ->
      num_in 0 (hi + (INR G + 2 * INR (hc_n h)) * bpow radix2 (b - 20)) (ent (h_ocov (hc_run h')) d).
    Proof.
      intros Dm Hm R. set (P := fun g : gclass A => state_reg fexp fln G (hc_dim h) (hc_din h) g /\ variances_in d hi g).
      assert (PK : forall g g', kept fexp fln g g' -> P g -> P g') by (intros g g' K (P1 & P2); split; [eapply state_reg_kept; eauto | eapply vars_kept; eauto]).
      assert (FP : Forall P (h_states (hc_net h))) by (apply Forall_forall; intros g I; split; [exact (proj1 (Forall_forall _ _) SR g I) | exact (proj1 (Forall_forall _ _) Hm g I)]).
      destruct (hreg_inv P x h h' PK Hh FP H) as (no & Eno & _ & _ & Q). assert (Ld := class_no no Eno).
      assert (B0 := bpow_gt_0 radix2 b). assert (B1 := bpow_gt_0 radix2 (b - 20)). destruct class_G as (CG0 & CG). assert (N1 : 1 <= INR (hc_n h)) by (apply (le_INR 1); exact HN).
      assert (Z0 : num_in 0 (hi + (INR G + 2 * INR (hc_n h)) * bpow radix2 (b - 20)) (S754_zero false)).
      { split; [reflexivity |]. split; [reflexivity |]. assert (0 <= (INR G + 2 * INR (hc_n h)) * bpow radix2 (b - 20)) by (apply Rmult_le_pos; [pose proof (pos_INR G); lra | lra]). change (fval (S754_zero false)) with 0. lra. }
      assert (Main : forall o y : nat -> f64, o 0%nat = S754_zero false -> o (rhi h - rlo h)%nat = ent (h_ocov (hc_run h')) d ->
        (forall k, (k < rhi h - rlo h)%nat -> o (S k) = as_single (fadd (o k) (fdiv (fmul (fmul (ent (h_alpha (hc_run h)) (rlo h + k)) (ent (h_alpha (hc_run h)) (rlo h + k))) (y k)) (rnc h))) /\ exists g g2, P g /\ fire x g = Ok g2 /\ y k = ent (gc_ocov g2) d) ->
        num_in 0 (hi + (INR G + 2 * INR (hc_n h)) * bpow radix2 (b - 20)) (ent (h_ocov (hc_run h')) d)).
      { intros o y O0 On Os. destruct (Nat.lt_ge_cases (rlo h) (rhi h)) as [Lt | Ge].
        2: { replace (rhi h - rlo h)%nat with 0%nat in On by lia. rewrite <- On, O0. exact Z0. }
        destruct (class_shares Lt) as ((S1 & S2 & S3) & Lh). set (n := (rhi h - rlo h)%nat) in *. destruct b1 as (E2 & E3).
        assert (Y : forall k, (k < n)%nat -> num_in 0 (hi + INR G * bpow radix2 (b - 20)) (y k)).
        { intros k Hk. destruct (Os k Hk) as (_ & g & g2 & (P1 & P2) & Eg & ->). apply (fire_var fexp fln LM G (hc_dim h) (hc_din h) d b x g g2); auto; [lia | lra]. }
        set (w := fun i => fmul (ent (h_alpha (hc_run h)) (rlo h + i)) (ent (h_alpha (hc_run h)) (rlo h + i))).
        assert (Hw : forall i, (i < n)%nat -> num_in 0 1 (w i) /\ fval (w i) <= fval (ent (h_alpha (hc_run h)) (rlo h + i))) by (intros i Hi; apply square_weight, S2, Hi).
        assert (C0 : 0 < fval (rnc h)) by (destruct S1 as (_ & _ & B); eapply Rlt_le_trans; [apply bpow_gt_0 | apply B]). assert (I0 := Rinv_0_lt_compat _ C0).
        assert (Vn : forall i, (i < n)%nat -> 0 <= fval (w i) / fval (rnc h)) by (intros i Hi; apply Rmult_le_pos; [apply (Hw i Hi) | lra]).
        assert (S3' : rs n (fun i => fval (w i) / fval (rnc h)) <= 1 + INR n * bpow radix2 (-40)) by (apply Rle_trans with (2 := proj2 S3); apply rs_le; intros i Hi; apply Rmult_le_compat_r; [lra | apply (Hw i Hi)]).
        assert (T := acct_nonneg (b + 1) n (fun i => fval (w i) / fval (rnc h)) (fun i => fval (y i)) (fun k => fdiv (fmul (w k) (y k)) (rnc h)) o). rewrite <- On.
        destruct T with (hi := hi + INR G * bpow radix2 (b - 20)) as (V & N & C).
        - lia.
        - lia.
        - exact Vn.
        - apply (sum2 n ltac:(lia)), S3'.
        - intros i Hi. destruct (Y i Hi) as (_ & _ & C). rewrite E2. lra.
        - intros i Hi. destruct (S2 i Hi) as (A1 & A2). destruct (Hw i Hi) as (A3 & A4). destruct (Y i Hi) as (V & N & C). apply (term_err (b + 1)); auto; [lia | | lra]. split; [exact V |]. split; [exact N |]. rewrite E2. lra.
        - rewrite O0. repeat split.
        - intros i Hi. apply (Os i Hi).
        - exact S3'.
        - lra.
        - rewrite E2. lra.
        - intros i Hi. apply (Y i Hi).
        - split; [exact V |]. split; [exact N |]. rewrite E3 in C. assert (Nn := count_le n ltac:(lia)). assert (0 <= INR n) by apply pos_INR. nra. }
      destruct (hp_est (hc_par h)) eqn:Est.
      - destruct Q as (_ & Q). destruct (Q Dm d Ld) as (o & y & O0 & On & Os). apply (Main o y); auto.
      - destruct Q as (_ & Q). destruct (Q Dm d Ld) as (o & y & O0 & On & Os). apply (Main o y); auto.
      - destruct Q as (g & g2 & Pg & Eg & _ & Eo). rewrite Eo. unfold ent. rewrite nth_repeat. exact Z0.
    Qed.

    (** One state: the window is empty. *)
    Lemma class_one : hp_est (hc_par h) = RWindowed -> hc_n h = 1%nat -> ent (h_out (hc_run h')) d = S754_zero false.
    Proof.
      intros Est N1. set (P := fun g : gclass A => state_reg fexp fln G (hc_dim h) (hc_din h) g).
      assert (PK : forall g g', kept fexp fln g g' -> P g -> P g') by (intros g g' K P1; eapply state_reg_kept; eauto).
      destruct (hreg_inv P x h h' PK Hh SR H) as (no & Eno & _ & _ & Q). rewrite Est in Q. destruct Q as (Q & _). destruct (Q d (class_no no Eno)) as (o & y & O0 & On & _). rewrite <- On.
      assert (E : (rhi h - rlo h)%nat = 0%nat); [| rewrite E; exact O0]. unfold rhi, rlo. rewrite Est. destruct WN as (_ & _ & _ & W4 & _). rewrite (W4 N1). reflexivity.
    Qed.
  End Class.
End Reg.
