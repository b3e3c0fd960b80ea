(** The M step of the mixtures in binary64. *)
From Coq Require Import String ZArith QArith Reals Lra Lia Bool List Arith.
From Coq Require Import Floats.SpecFloat.
From Flocq Require Import Core.Core IEEE754.BinarySingleNaN.
From Verif Require Import Base BaseFacts Arith RFacts Spec_Float Spec_Float2 Spec_Float3 Spec_Float5 Proofs_Float1 Proofs_Float2 Proofs_Float3 Proofs_Float4 Proofs_Float5 Proofs_Float6 Proofs_Float7 Proofs_Float8 Proofs_Float18 Proofs_Float19 Proofs_Float20.
From Verif Require Import Model_Map Model_Ring Model_Phrase Model_Gaussian Model_Config Model_KMeans Model_GMM Model_Single Model_Single2.
Import ListNotations.
Local Open Scope R_scope.

#[local] Existing Instance Proofs_Float1.Hprec.
#[local] Existing Instance Proofs_Float1.Hmax.

Lemma as_single_valid x : is_f64 x -> is_f64 (as_single x).
Proof.
  intros V. unfold as_single. assert (G : forall y, is_f64 (of_single y) \/ exists s m e, y = S754_finite s m e) by (intros [s | s | | s m e]; [left; reflexivity.. | right; eauto]).
  destruct (G (to_single x)) as [H | (s & m & e & ->)]; [exact H |]. unfold of_single. rewrite bn_equiv. apply bin_f64.
Qed.

Section MStep.
  Variables fexp fln : f64 -> f64.
  Hypothesis LM : libm_f64 fexp fln.
  Local Notation A := (FA fexp fln).

  (** The sums that the new mean and variance of dimension [d] come from. *)
  Definition mean_sum (ps frames : list (list f64)) (c d : nat) : res f64 :=
    gm_wsum (A := A) ps frames c (fun w x => let* v := rd x d in Ok (nmul (a := A) w v)).
  Definition dev_sum (ps frames : list (list f64)) (c d : nat) (mean : list f64) : res f64 :=
    gm_wsum (A := A) ps frames c (fun w x => let* a := (let* v := rd x d in let* m := rd mean d in Ok (nsub (a := A) v m)) in
      let* b := (let* v := rd x d in let* m := rd mean d in Ok (nsub (a := A) v m)) in Ok (nmul (a := A) (nmul (a := A) w (as_single a)) (as_single b))).

  Lemma wsum_valid ps frames c f s : Forall (Forall is_f64) ps -> Forall frame_f64 frames -> (forall w x v, is_f64 w -> frame_f64 x -> f w x = Ok v -> is_f64 v) ->
    gm_wsum (A := A) ps frames c f = Ok s -> is_f64 s.
  Proof.
    intros Fp Ff Hf H. unfold gm_wsum in H. eapply (accM_f64 fexp fln); [| | exact H]; [reflexivity |]. intros i v _ E. cbv beta in E.
    apply bind_ok_inv in E. destruct E as (p & Ep & E). apply bind_ok_inv in E. destruct E as (w & Ew & E). apply bind_ok_inv in E. destruct E as (x & Ex & E).
    apply (Hf w x v); [exact (rd_Forall is_f64 _ _ _ (rd_Forall _ _ _ _ Fp Ep) Ew) | exact (rd_Forall frame_f64 _ _ _ Ff Ex) | exact E].
  Qed.

  Lemma mean_result n ps frames E c (k k' : gauss A) : Forall (Forall is_f64) ps -> Forall frame_f64 frames -> Forall is_f64 E -> Forall is_f64 (g_mean k) ->
    gm_mean (A := A) n ps frames E c k = Ok k' -> exists m, k' = g_set_mean (A := A) m k /\ Forall is_f64 m /\ forall d, (d < n)%nat -> exists s, mean_sum ps frames c d = Ok s /\ ent m d = SFdiv fprec femax s (ent E c).
  Proof.
    intros Fp Ff Fe Fm H. unfold gm_mean in H. apply bind_ok_inv in H. destruct H as (e & Ee & H). apply bind_ok_inv in H. destruct H as (m & Em & H). injection H as <-. exists m. split; [reflexivity |].
    assert (Ve : is_f64 e) by exact (rd_Forall is_f64 _ _ _ Fe Ee). destruct (rd_nth (X := f64) _ _ _ (S754_zero false) Ee) as (Re & _).
    assert (V : forall d s, mean_sum ps frames c d = Ok s -> is_f64 s).
    { intros d s Hs. refine (wsum_valid ps frames c _ s Fp Ff _ Hs). intros w x v Hw Hx E0. apply bind_ok_inv in E0. destruct E0 as (y & Ey & E0). injection E0 as <-. apply f_mul_valid; [exact Hw | exact (rd_Forall is_f64 _ _ _ Hx Ey)]. }
    split.
    - refine (iterM_inv_ok (fun _ m => Forall is_f64 m) _ _ _ _ Fm _ Em). intros i s s' _ Hs Es. apply bind_ok_inv in Es. destruct Es as (a & Ea & Es).
      refine (wr_Forall is_f64 _ _ _ _ Hs _ Es). apply f_div_valid; [exact (V i a Ea) | exact Ve].
    - intros d Hd. destruct (fill_spec n _ _ _ _ (S754_zero false) Em) as (_ & Fs). destruct (Fs d Hd) as (s & Es & Vs). exists s. split; [exact Es |]. unfold ent at 2. rewrite Re. exact Vs.
  Qed.

  Lemma cov_result n ps frames E c (k k' : gauss A) : Forall (Forall is_f64) ps -> Forall frame_f64 frames -> Forall is_f64 E -> Forall is_f64 (g_mean k) -> Forall is_f64 (g_cov k) ->
    gm_cov_with (A := A) as_single Diagonal n ps frames E c k = Ok k' -> exists v, k' = g_set_cov (A := A) v k /\ Forall is_f64 v /\ forall d, (d < n)%nat -> exists s, dev_sum ps frames c d (g_mean k) = Ok s /\ ent v d = SFdiv fprec femax s (ent E c).
  Proof.
    intros Fp Ff Fe Fm Fc H. unfold gm_cov_with in H. apply bind_ok_inv in H. destruct H as (e & Ee & H). cbv zeta in H. apply bind_ok_inv in H. destruct H as (m & Em & H). injection H as <-. exists m. split; [reflexivity |].
    assert (Ve : is_f64 e) by exact (rd_Forall is_f64 _ _ _ Fe Ee). destruct (rd_nth (X := f64) _ _ _ (S754_zero false) Ee) as (Re & _).
    assert (V : forall d s, dev_sum ps frames c d (g_mean k) = Ok s -> is_f64 s).
    { intros d s Hs. refine (wsum_valid ps frames c _ s Fp Ff _ Hs). intros w x v Hw Hx E0.
      assert (G : forall a, (let* v := rd x d in let* m := rd (g_mean k) d in Ok (nsub (a := A) v m)) = Ok a -> is_f64 (as_single a)).
      { intros a Ea. apply bind_ok_inv in Ea. destruct Ea as (y & Ey & Ea). apply bind_ok_inv in Ea. destruct Ea as (z & Ez & Ea). injection Ea as <-.
        apply as_single_valid, f_sub_valid; [exact (rd_Forall is_f64 _ _ _ Hx Ey) | exact (rd_Forall is_f64 _ _ _ Fm Ez)]. }
      apply bind_ok_inv in E0. destruct E0 as (a & Ea & E0). apply bind_ok_inv in E0. destruct E0 as (b & Eb & E0). injection E0 as <-.
      apply f_mul_valid; [apply f_mul_valid; [exact Hw |] |]; apply G; assumption. }
    split.
    - refine (iterM_inv_ok (fun _ m => Forall is_f64 m) _ _ _ _ Fc _ Em). intros i s s' _ Hs Es. apply bind_ok_inv in Es. destruct Es as (a & Ea & Es).
      apply bind_ok_inv in Ea. destruct Ea as (a0 & Ea0 & Ea). injection Ea as <-.
      refine (wr_Forall is_f64 _ _ _ _ Hs _ Es). apply f_div_valid; [exact (V i a0 Ea0) | exact Ve].
    - intros d Hd. destruct (fill_spec n _ (fun x => x) _ _ (S754_zero false) Em) as (_ & Fs). destruct (Fs d Hd) as (s & Es & Vs).
      apply bind_ok_inv in Es. destruct Es as (a0 & Ea0 & Es). injection Es as Es. exists a0. split; [exact Ea0 |]. unfold ent at 2. rewrite Re. refine (eq_trans Vs _). symmetry. exact Es.
  Qed.
End MStep.

Section Update.
  Variables fexp fln : f64 -> f64.
  Hypothesis LM : libm_f64 fexp fln.
  Local Notation A := (FA fexp fln).

  (** The new component [c] of a class with regularisation [reg] and [n] dimensions. *)
  Definition next_comp (n : nat) (reg : list f64) ps frames (E : list f64) (c : nat) (k' : gauss A) : Prop :=
    forall d, (d < n)%nat -> exists s s2, mean_sum fexp fln ps frames c d = Ok s /\ ent (g_mean k') d = SFdiv fprec femax s (ent E c) /\
      dev_sum fexp fln ps frames c d (g_mean k') = Ok s2 /\ ent (g_cov k') d = SFadd fprec femax (SFdiv fprec femax s2 (ent E c)) (ent reg d) /\
      (d < length (A := f64) (g_inv k'))%nat /\ ent (g_inv k') d = SFdiv fprec femax (n1 (A := A)) (ent (g_cov k') d).

  Lemma tabM_each {X} n (f : nat -> res X) v c x : tabM n f = Ok v -> nth_error v c = Some x -> (c < n)%nat /\ f c = Ok x.
  Proof.
    intros H E. assert (L := tabM_length _ _ _ H). assert (Hc : (c < n)%nat) by (rewrite <- L; apply nth_error_Some; congruence). split; [exact Hc |].
    rewrite (tabM_inv n f v H c x Hc). f_equal. apply (nth_error_nth _ _ _ E).
  Qed.
  Lemma mapM_back {X Y} (f : X -> res Y) l l' i y : mapM f l = Ok l' -> nth_error l' i = Some y -> exists x, nth_error l i = Some x /\ f x = Ok y.
  Proof.
    revert l' i. induction l as [| a l IH]; intros l' i H E; cbn [mapM] in H; [injection H as <-; destruct i; discriminate |].
    apply bind_ok_inv in H. destruct H as (y0 & Ey & H). apply bind_ok_inv in H. destruct H as (r & Er & H). injection H as <-.
    destruct i as [| i]; cbn in E; [injection E as <-; exists a; split; [reflexivity | exact Ey] |]. exact (IH r i Er E).
  Qed.

  Lemma update_result (g g' : gclass A) frames lp : class_em g -> Forall frame_f64 frames -> (1 <= length frames)%nat -> (Z.of_nat (length frames) <= 2 ^ 32)%Z ->
    gm_update_with (A := A) as_single frames g = Ok (g', lp) ->
    class_em g' /\ weights_total g' /\ num_in (- sum_bound 560 (length frames)) (sum_bound 560 (length frames)) lp /\
    gc_par g' = gc_par g /\ gc_dim g' = gc_dim g /\ gc_reg g' = gc_reg g /\ gc_buf g' = gc_buf g /\
    exists ps E, estep_inv fexp fln g (length frames) (ps, E, lp) /\ (forall c, (c < gc_n g)%nat -> ent (gc_coef g') c = SFdiv fprec femax (ent E c) (nN (A := A) (length frames))) /\
      length (gc_comp g') = gc_n g /\ forall c k', nth_error (gc_comp g') c = Some k' -> next_comp (gc_dim g) (gc_reg g) ps frames E c k'.
  Proof.
    intros (Sg & Mg & Kg & Rg) Ff H1 HT H. pose proof Sg as (((Lw & Fw & _) & Fk) & Dk & Hn). unfold gm_update_with in H.
    destruct (gm_estep (A := A) g frames) as [((ps, E), lp0) | |] eqn:Ee; try discriminate. assert (I := estep_ok fexp fln LM g Sg frames _ Ff HT Ee).
    cbn [bind] in H. apply bind_ok_inv in H. destruct H as (cs1 & T1 & H). apply bind_ok_inv in H. destruct H as (cs2 & T2 & H). cbv zeta in H.
    apply bind_ok_inv in H. destruct H as (g1 & Og & H). apply bind_ok_inv in H. destruct H as (g2 & Ig & H). injection H as -> ->.
    unfold gm_offset in Og. apply bind_ok_inv in Og. destruct Og as (cs3 & T3 & Og). injection Og as <-.
    unfold gm_inverses in Ig. apply bind_ok_inv in Ig. destruct Ig as (cs4 & T4 & Ig). injection Ig as <-. cbn [gc_comp gc_set_comp gc_set_coef gc_reg] in T3, T4.
    assert (T4' : mapM (runm (g_update_inv (A := A))) cs3 = Ok cs4) by (destruct (mapM (runm g_update_inv) cs3); cbn in T4; try discriminate; exact T4). clear T4.
    change (num A) with f64 in *. pose proof I as (L1 & Sh & L2 & Es & Bl & _).
    assert (Fp : Forall (Forall is_f64) ps).
    { apply Forall_forall. intros r Ir. destruct (In_nth _ _ [] Ir) as (t & Ht & <-). rewrite L1 in Ht. destruct (Sh t Ht) as (Lr & Sr & _). apply Forall_forall. intros v Iv.
      destruct (In_nth _ _ (S754_zero false) Iv) as (c & Hc & <-). exact (proj1 (Sr c (eq_ind _ (fun n => (c < n)%nat) Hc _ Lr))). }
    assert (Fe : Forall is_f64 E).
    { apply Forall_forall. intros v Iv. destruct (In_nth _ _ (S754_zero false) Iv) as (c & Hc & <-). assert (Hc' := eq_ind _ (fun n => (c < n)%nat) Hc _ L2). clear Hc. rename Hc' into Hc. change (is_f64 (ent E c)). rewrite (Es c Hc).
      apply (sum_unit fexp fln (length frames) (resp ps c) HT). intros t Ht. apply (Sh t Ht), Hc. }
    assert (C : forall c k', nth_error cs4 c = Some k' -> (c < gc_n g)%nat /\ gauss_f64 k' /\ gauss_diag k' /\ g_dim k' = gc_dim g /\ Forall is_f64 (g_cov k') /\ next_comp (gc_dim g) (gc_reg g) ps frames E c k').
    { intros c k4 N4. destruct (mapM_back _ _ _ _ _ T4' N4) as (k3 & N3 & K4). destruct (mapM_back _ _ _ _ _ T3 N3) as (k2 & N2 & K3).
      destruct (tabM_each _ _ _ _ _ T2 N2) as (Hc & K2). cbv beta in K2. apply bind_ok_inv in K2. destruct K2 as (k1 & R1 & K2). unfold rd in R1. destruct (nth_error cs1 c) as [k1' |] eqn:N1; [| discriminate]. injection R1 as ->.
      destruct (tabM_each _ _ _ _ _ T1 N1) as (_ & K1). cbv beta in K1. apply bind_ok_inv in K1. destruct K1 as (k & R0 & K1). assert (Ik := rd_Forall _ _ _ _ Fk R0). assert (Id := rd_Forall _ _ _ _ Dk R0). assert (Ig := rd_Forall _ _ _ _ Kg R0).
      destruct Ig as (Dm & Fc). pose proof Ik as (F1 & F2 & F3 & F4 & F5). pose proof Id as (M & Dv).
      destruct (mean_result fexp fln (gc_dim g) ps frames E c k k1 Fp Ff Fe F1 K1) as (m & -> & Fm & Vm).
      rewrite Mg in K2. destruct (cov_result fexp fln (gc_dim g) ps frames E c (g_set_mean (A := A) m k) k2 Fp Ff Fe Fm Fc K2) as (v & -> & Fv & Vv). cbn [g_mean g_set_mean] in Vv.
      destruct (regularize_result fexp fln (gc_reg g) (g_set_cov (A := A) v (g_set_mean (A := A) m k)) k3 M Rg Fv K3) as (v2 & -> & Fv2 & Vv2). cbn [g_dim g_cov g_set_cov g_set_mean] in Vv2.
      assert (G3 : gauss_f64 (fexp := fexp) (fln := fln) (g_set_cov (A := A) v2 (g_set_cov (A := A) v (g_set_mean (A := A) m k)))) by (repeat split; cbn; assumption).
      assert (D3 : gauss_diag (fexp := fexp) (fln := fln) (g_set_cov (A := A) v2 (g_set_cov (A := A) v (g_set_mean (A := A) m k)))) by (split; cbn; assumption).
      assert (R := inverse_result fexp fln _ k4 G3 D3 Fv2 K4). destruct R as (I1 & I2 & I3 & I4 & I5 & I6 & I7 & I8 & I9 & I10 & I11). cbn [g_dim g_mean g_cov g_inv g_set_cov g_set_mean] in I2, I3, I4, I5, I6.
      split; [exact Hc |]. split; [split; [rewrite I3; exact Fm | auto] |]. split; [split; assumption |]. split; [rewrite I2; exact Dm |]. split; [rewrite I4; exact Fv2 |].
      intros d Hd. destruct (Vm d Hd) as (s & S1 & S2). destruct (Vv d Hd) as (s2 & S3 & S4). destruct (Vv2 d) as (S5 & _); [rewrite Dm; exact Hd |]. destruct (I6 d) as (S6 & _ & S7); [rewrite Dm; exact Hd |].
      exists s, s2. rewrite I3, I4. split; [exact S1 |]. split; [exact S2 |]. split; [exact S3 |]. split; [rewrite S5, S4; reflexivity |]. split; [exact (eq_ind_r (fun n => (d < n)%nat) S6 I5) | exact S7]. }
    assert (L4 : length cs4 = gc_n g) by (rewrite (mapM_length _ _ _ T4'), (mapM_length _ _ _ T3); apply (tabM_length _ _ _ T2)).
    destruct (new_weights fexp fln g (length frames) ps E lp I H1 HT Hn) as (W & Wt).
    assert (Each : forall P : gauss A -> Prop, (forall c k', nth_error cs4 c = Some k' -> P k') -> Forall P cs4).
    { intros P HP. apply Forall_forall. intros x Ix. destruct (In_nth_error _ _ Ix) as (c & Ec). exact (HP c x Ec). }
    split.
    - split; [| split; [exact Mg |]; split; [apply Each; intros c k' N; destruct (C c k' N) as (_ & _ & _ & X & Y & _); split; [exact X | exact Y] | exact Rg]].
      split; [split; [exact W | apply Each; intros c k' N; apply (C c k' N)] |]. split; [apply Each; intros c k' N; apply (C c k' N) | exact Hn].
    - split; [exact Wt |]. split; [exact Bl |]. split; [reflexivity |]. split; [reflexivity |]. split; [reflexivity |]. split; [reflexivity |].
      exists ps, E. split; [exact I |]. split; [intros c Hc; unfold ent at 1; cbn; rewrite nth_tab by exact Hc; reflexivity |]. split; [exact L4 |]. intros c k' N. apply (C c k' N).
  Qed.
End Update.
