(** Baum-Welch: the new parameters of a state. *)
From Coq Require Import String List Bool Arith ZArith Reals Lra Lia.
From Verif Require Import Base Arith BaseFacts RFacts Model_Ring Model_Gaussian Model_Config Model_GMM Model_HMM
  Proofs_Gaussian Proofs_Gaussian2 Proofs_Gaussian3 Proofs_KMeans Proofs_GMM Spec_Common Spec_Matrix Spec_Gaussian Spec_GMM Spec_HMM Proofs_HMM7.
Import ListNotations.
Local Open Scope list_scope.
Local Open Scope R_scope.

Lemma ratio_pos : forall x y, 0 < y -> ratio x y = x / y.
Proof. intros. unfold ratio. destruct (Req_EM_T y 0); [lra|reflexivity]. Qed.
Lemma ratio_zero : forall x, ratio x 0 = 0.
Proof. intros. unfold ratio. destruct (Req_EM_T 0 0); [reflexivity|lra]. Qed.

Section State.
  Variables (g : gclass RA) (L : list ((nat -> R) * list R)).
  Hypothesis Hs : gm_shape g.
  Hypothesis Hr : strong_reg g.
  Hypothesis HL : Forall (fun p => length (snd p) = gc_dim g /\ forall c, (c < gc_n g)%nat -> 0 <= fst p c) L.
  Let ws := map (fun p => tab (gc_n g) (fst p)) L.
  Let frames := map snd L.
  Let n := gc_dim g.
  Let G := gc_n g.

  Lemma mwsum : forall c (f : R -> list R -> res R) F, (c < G)%nat -> (forall p, In p L -> f (fst p c) (snd p) = Ok (F (fst p c) (snd p))) ->
    gm_wsum (A := RA) ws frames c f = Ok (Rlsum (map (fun p => F (fst p c) (snd p)) L)).
  Proof.
    intros c f F Hc Hf. unfold gm_wsum. rewrite n0_RA. unfold frames. rewrite map_length. rewrite (Rlsum_nth ((fun _ => 0), [])).
    match goal with |- _ = Ok ?r => replace r with (0 + r) by ring end. apply accM_ok. intros i Hi. unfold ws.
    rewrite (rd_nth _ i []) by (rewrite map_length; exact Hi). rewrite (nth_map_lt _ L i [] ((fun _ => 0), [])) by exact Hi. cbn [bind].
    rewrite (rd_nth _ c 0) by (rewrite tab_length; exact Hc). rewrite nth_tab by exact Hc. cbn [bind]. change (num RA) with R in *.
    rewrite (rd_nth _ i []) by (rewrite map_length; exact Hi). rewrite (nth_map_lt _ L i [] ((fun _ => 0), [])) by exact Hi. cbn [bind]. apply Hf. apply nth_In. exact Hi.
  Qed.

  Lemma mass_nonneg : forall c, (c < G)%nat -> 0 <= m_mass L c.
  Proof. intros c Hc. unfold m_mass. apply Rlsum_nonneg. intros y Hy. apply in_map_iff in Hy. destruct Hy as (p & <- & Hp). rewrite Forall_forall in HL. apply HL; assumption. Qed.

  Lemma mass_zero : forall c F, (c < G)%nat -> m_mass L c = 0 -> Rlsum (map (fun p => fst p c * F p) L) = 0.
  Proof.
    intros c F Hc. unfold m_mass. induction HL as [|p l (_ & P) H IH]; [reflexivity|]. cbn [map]. unfold Rlsum. cbn [fold_right].
    fold (Rlsum (map (fun p => fst p c) l)). fold (Rlsum (map (fun p => fst p c * F p) l)). intro E.
    assert (Q : 0 <= Rlsum (map (fun p => fst p c) l)). { apply Rlsum_nonneg. intros y Hy. apply in_map_iff in Hy. destruct Hy as (q & <- & Hq). rewrite Forall_forall in H. apply H; assumption. }
    specialize (P c Hc). rewrite (IH H) by lra. replace (fst p c) with 0 by lra. ring.
  Qed.

  (** The sum divided by the total when it is positive. *)
  Lemma over_mass : forall c F, (c < G)%nat ->
    (if nltb (a := RA) 0 (m_mass L c) then Rlsum (map (fun p => fst p c * F p) L) / m_mass L c else Rlsum (map (fun p => fst p c * F p) L)) =
    ratio (Rlsum (map (fun p => fst p c * F p) L)) (m_mass L c).
  Proof.
    intros c F Hc. destruct (nltb (a := RA) 0 (m_mass L c)) eqn:E.
    - apply nltb_RA_true in E. rewrite ratio_pos by exact E. reflexivity.
    - apply nltb_RA_false in E. pose proof (mass_nonneg c Hc). assert (Z : m_mass L c = 0) by lra. rewrite Z, ratio_zero. apply mass_zero; assumption.
  Qed.

  Lemma hmean_ok : forall c (k : gauss RA), (c < G)%nat -> fits_class g k ->
    exists k', hm_mean (A := RA) n ws frames (m_mass L c) c k = Ok k' /\ fits_class g k' /\ g_cov k' = g_cov k /\
      g_mean k' = tab n (m_mean L c).
  Proof.
    intros c k Hc ((W1 & W2 & W3 & W4) & FB & FD & FI & FM). exists (g_set_mean (A := RA) (tab n (m_mean L c)) k). split; [|split; [|split; reflexivity]].
    - unfold hm_mean. apply (bind_eq _ _ (tab n (m_mean L c))); [|reflexivity]. apply tabM_ok. intros d Hd.
      apply (bind_eq _ _ (Rlsum (map (fun p => fst p c * nth d (snd p) 0) L))).
      + apply (mwsum c _ (fun w x => w * nth d x 0) Hc). intros p Hp. rewrite Forall_forall in HL. destruct (HL p Hp) as (Lp & _). change (num RA) with R in *.
        rewrite (rd_nth (snd p) d 0) by (rewrite Lp; exact Hd). reflexivity.
      + cbn [nisnan RA]. rewrite n0_RA. cbn [ndiv RA]. apply (f_equal (@Ok R)). apply (over_mass c (fun p => nth d (snd p) 0) Hc).
    - split; [|cbn; auto]. unfold wf_gauss. cbn. split; [rewrite tab_length; symmetry; exact FD|auto].
  Qed.

  Lemma m_cov_sym : forall c i j, m_cov L c i j = m_cov L c j i.
  Proof. intros. unfold m_cov. f_equal. apply Rlsum_map_ext. intros. ring. Qed.

  Lemma hcov_ok : forall c (k : gauss RA), (c < G)%nat -> fits_class g k -> g_mean k = tab n (m_mean L c) ->
    exists k', hm_cov (A := RA) (gc_mode g) n ws frames (m_mass L c) c k = Ok k' /\ fits_class g k' /\ g_mean k' = g_mean k /\
      forall i j, (i < n)%nat -> (j < n)%nat -> gcov k' i j = match gc_mode g with Full => m_cov L c i j | Diagonal => if Nat.eqb i j then m_cov L c i i else 0 end.
  Proof.
    intros c k Hc ((W1 & W2 & W3 & W4) & FB & FD & FI & FM) HM.
    set (S := fun d1 d2 => Rlsum (map (fun p => fst p c * ((nth d1 (snd p) 0 - m_mean L c d1) * (nth d2 (snd p) 0 - m_mean L c d2))) L)).
    assert (ES : forall d1 d2, (d1 < n)%nat -> (d2 < n)%nat ->
      gm_wsum (A := RA) ws frames c (fun w x => let* a := (let* v := rd x d1 in let* m := rd (g_mean k) d1 in Ok (nsub (a := RA) v m)) in
        let* b := (let* v := rd x d2 in let* m := rd (g_mean k) d2 in Ok (nsub (a := RA) v m)) in Ok (nmul (a := RA) (nmul (a := RA) w a) b)) = Ok (S d1 d2)).
    { intros d1 d2 H1 H2. unfold S. apply (mwsum c _ (fun w x => w * ((nth d1 x 0 - m_mean L c d1) * (nth d2 x 0 - m_mean L c d2))) Hc). intros p Hp. rewrite Forall_forall in HL. destruct (HL p Hp) as (Lp & _).
      change (num RA) with R in *. rewrite HM. rewrite (rd_nth (snd p) d1 0), (rd_nth (snd p) d2 0) by (rewrite Lp; assumption).
      rewrite (rd_nth (tab n (m_mean L c)) d1 0), (rd_nth (tab n (m_mean L c)) d2 0) by (rewrite tab_length; assumption). cbn [bind]. rewrite !nth_tab by assumption.
      cbn [nmul nsub RA]. apply (f_equal (@Ok R)). ring. }
    assert (ER : forall d1 d2, (if nltb (a := RA) 0 (m_mass L c) then S d1 d2 / m_mass L c else S d1 d2) = m_cov L c d1 d2).
    { intros d1 d2. unfold S. rewrite (over_mass c (fun p => (nth d1 (snd p) 0 - m_mean L c d1) * (nth d2 (snd p) 0 - m_mean L c d2)) Hc). unfold m_cov. f_equal. apply Rlsum_map_ext. intros. ring. }
    assert (EZ : forall d1 d2, nltb (a := RA) 0 (m_mass L c) = false -> m_cov L c d1 d2 = 0).
    { intros d1 d2 E. apply nltb_RA_false in E. pose proof (mass_nonneg c Hc). unfold m_cov. replace (m_mass L c) with 0 by lra. apply ratio_zero. }
    unfold hm_cov. rewrite n0_RA. rewrite FM, FD in W2. destruct (gc_mode g) eqn:M; cbn [csize] in W2.
    - exists (g_set_cov (A := RA) (tab (n * n) (fun q => m_cov L c (q / n) (q mod n))) k). split; [|split; [|split; [reflexivity|]]].
      + eapply bind_eq; [|reflexivity]. apply tabM_ok. intros q Hq. assert (N0 : n <> 0%nat) by (intro Z; rewrite Z in Hq; cbn in Hq; lia).
        assert (D1 : (q / n < n)%nat) by (apply Nat.div_lt_upper_bound; [exact N0|exact Hq]). assert (D2 : (q mod n < n)%nat) by (apply Nat.mod_upper_bound; exact N0).
        cbv zeta. pose proof (ER (q / n) (q mod n))%nat as R1. pose proof (EZ (q / n) (q mod n))%nat as R2.
        assert (SS : S (Nat.min (q / n) (q mod n)) (Nat.max (q / n) (q mod n)) = S (q / n)%nat (q mod n)).
        { destruct (Nat.le_ge_cases (q / n) (q mod n)) as [X|X]; [rewrite Nat.min_l, Nat.max_r by exact X; reflexivity|]. rewrite Nat.min_r, Nat.max_l by exact X. unfold S. apply Rlsum_map_ext. intros. ring. }
        change (num RA) with R in *. destruct (nltb (a := RA) 0 (m_mass L c)).
        * rewrite ES by lia. cbn [bind ndiv RA]. rewrite SS. change (num RA) with R in *. rewrite R1. reflexivity.
        * destruct (Nat.leb_spec (q / n) (q mod n)).
          -- rewrite ES by assumption. rewrite R1. reflexivity.
          -- rewrite R2 by reflexivity. reflexivity.
      + split; [|rewrite M; exact (conj FB (conj FD (conj FI FM)))]. unfold wf_gauss. cbn. rewrite FM, FD. cbn [csize]. rewrite FM, FD in W3. rewrite FD in W1. rewrite FM in W4. rewrite FD in W4. split; [exact W1|]. split; [apply tab_length|auto].
      + intros i j Hi Hj. unfold gcov. cbn [g_mode g_dim g_cov g_set_cov]. rewrite FM, FD. cbn [stored]. unfold rcell. fold n. rewrite nth_tab by (apply flat_lt; assumption).
        rewrite Nat.add_comm. rewrite Nat.div_add, Nat.mod_add by lia. rewrite Nat.div_small, Nat.mod_small by assumption. reflexivity.
    - exists (g_set_cov (A := RA) (tab n (fun d => m_cov L c d d)) k). split; [|split; [|split; [reflexivity|]]].
      + eapply bind_eq; [|reflexivity]. apply tabM_ok. intros d Hd. eapply bind_eq; [apply ES; assumption|]. apply (f_equal (@Ok R)). apply (ER d d).
      + split; [|rewrite M; exact (conj FB (conj FD (conj FI FM)))]. unfold wf_gauss. cbn. rewrite FM, FD. cbn [csize]. rewrite FM, FD in W3. rewrite FD in W1. rewrite FM in W4. rewrite FD in W4. split; [exact W1|]. split; [apply tab_length|auto].
      + intros i j Hi Hj. unfold gcov. cbn [g_mode g_dim g_cov g_set_cov]. rewrite FM, FD. cbn [stored]. destruct (Nat.eqb i j); [|reflexivity]. rewrite nth_tab by assumption. reflexivity.
  Qed.

  Lemma m_cov_psd : forall c v, (c < G)%nat -> 0 <= qform n (m_cov L c) v.
  Proof.
    intros c v Hc. pose proof (mass_nonneg c Hc) as M0. destruct (Req_EM_T (m_mass L c) 0) as [Z|Z].
    - rewrite (qform_ext n _ (fun _ _ => 0)); [unfold qform; apply Rsum_nonneg; intros; apply Rsum_nonneg; intros; lra|]. intros. unfold m_cov. rewrite Z. apply ratio_zero.
    - assert (P : 0 < m_mass L c) by lra. rewrite (qform_ext n _ (fun i j => Rlsum (map (fun p => fst p c * (nth i (snd p) 0 - m_mean L c i) * (nth j (snd p) 0 - m_mean L c j)) L) / m_mass L c)).
      + apply (outer_psd L (fun p => fst p c) (fun p d => nth d (snd p) 0 - m_mean L c d)); [exact P|]. intros p Hp. rewrite Forall_forall in HL. apply HL; assumption.
      + intros. unfold m_cov. apply ratio_pos. exact P.
  Qed.

  Lemma m_cov_diag : forall c d, (c < G)%nat -> 0 <= m_cov L c d d.
  Proof.
    intros c d Hc. pose proof (mass_nonneg c Hc) as M0. unfold m_cov. destruct (Req_EM_T (m_mass L c) 0) as [Z|Z]; [rewrite Z, ratio_zero; lra|].
    rewrite ratio_pos by lra. apply Rmult_le_pos; [|left; apply Rinv_0_lt_compat; lra]. apply Rlsum_nonneg. intros y Hy. apply in_map_iff in Hy. destruct Hy as (p & <- & Hp).
    rewrite Rmult_assoc. apply Rmult_le_pos; [|apply Rle_0_sqr]. rewrite Forall_forall in HL. apply HL; assumption.
  Qed.

  Lemma normal_coefs : let g1 := gm_normalize (A := RA) (gc_set_coef (A := RA) (tab G (m_mass L)) g) in
    length (gc_coef g1) = G /\ distribution G (weight g1) /\ gc_comp g1 = gc_comp g /\ same_class g g1 /\
    (forall c, (c < G)%nat -> 0 < Rsum G (m_mass L) -> weight g1 c = m_mass L c / Rsum G (m_mass L)).
  Proof.
    cbv zeta. unfold gm_normalize. rewrite nsum_RA. change (gc_n (gc_set_coef (A := RA) (tab G (m_mass L)) g)) with G. cbn [gc_coef gc_set_coef]. rewrite n0_RA.
    assert (SE : Rsum G (fun c => nth c (tab G (m_mass L)) 0) = Rsum G (m_mass L)) by (apply Rsum_ext; intros; rewrite nth_tab by assumption; reflexivity).
    assert (G1 : 0 < INR G) by (apply lt_0_INR; destruct Hs; unfold G; lia).
    unfold weight. cbn [gc_coef gc_set_coef gc_comp]. change (num RA) with R in *. rewrite SE.
    assert (S0 : 0 <= Rsum G (m_mass L)) by (apply Rsum_nonneg; intros; apply mass_nonneg; assumption).
    destruct (nltb (a := RA) 0 (Rsum G (m_mass L))) eqn:E.
    - apply nltb_RA_true in E. assert (MT : map (fun w : R => w / Rsum G (m_mass L)) (tab G (m_mass L)) = tab G (fun c => m_mass L c / Rsum G (m_mass L))) by (unfold tab; rewrite map_map; reflexivity).
      cbn [ndiv RA]. change (num RA) with R in *. rewrite MT.
      split; [apply tab_length|]. split; [|split; [reflexivity|split; [unfold same_class; cbn; repeat split|]]].
      + split; [intros c Hc; rewrite nth_tab by exact Hc; apply Rmult_le_pos; [apply mass_nonneg; exact Hc|left; apply Rinv_0_lt_compat; exact E]|].
        rewrite (Rsum_ext _ _ (fun c => m_mass L c / Rsum G (m_mass L))) by (intros; rewrite nth_tab by assumption; reflexivity). rewrite Rsum_div. field. lra.
      + intros c Hc _. rewrite nth_tab by exact Hc. reflexivity.
    - apply nltb_RA_false in E. rewrite n1_RA, nN_RA. cbn [ndiv RA]. change (num RA) with R in *. split; [apply repeat_length|]. split; [|split; [reflexivity|split; [unfold same_class; cbn; repeat split|intros; lra]]].
      assert (HW : forall c, (c < G)%nat -> nth c (repeat (1 / INR G) G) 0 = / INR G) by (intros; rewrite (nth_indep _ 0 (1 / INR G)) by (rewrite repeat_length; assumption); rewrite nth_repeat; unfold Rdiv; ring).
      split; [intros c Hc; rewrite HW by exact Hc; left; apply Rinv_0_lt_compat; exact G1|]. rewrite (Rsum_ext _ _ (fun _ => / INR G)) by exact HW. rewrite Rsum_const. field. lra.
  Qed.

  Lemma reestimate : exists g', (let* E := tabM G (fun c => accM (A := RA) (length frames) (fun t => let* p := rd ws t in rd p c) (n0 (A := RA))) in
      let g := gm_normalize (A := RA) (gc_set_coef (A := RA) E g) in
      let* cs := tabM G (fun c => let* k := rd (gc_comp g) c in let* e := rd E c in
        let* k := hm_mean (A := RA) n ws frames e c k in hm_cov (A := RA) (gc_mode g) n ws frames e c k) in
      let* g := gm_offset (gc_set_comp cs g) in gm_inverses g) = Ok g' /\ state_moments L g g' /\ gm_ready g'.
  Proof.
    assert (E0 : tabM G (fun c => accM (A := RA) (length frames) (fun t => let* p := rd ws t in rd p c) (n0 (A := RA))) = Ok (tab G (m_mass L))).
    { apply tabM_ok. intros c Hc. rewrite n0_RA. unfold m_mass. rewrite (Rlsum_nth ((fun _ => 0), [])). unfold frames. rewrite map_length.
      match goal with |- _ = Ok ?r => replace r with (0 + r) by ring end. apply accM_ok. intros i Hi. unfold ws. rewrite (rd_nth _ i []) by (rewrite map_length; exact Hi).
      rewrite (nth_map_lt _ L i [] ((fun _ => 0), [])) by exact Hi. cbn [bind]. rewrite (rd_nth _ c 0) by (rewrite tab_length; exact Hc). rewrite nth_tab by exact Hc. reflexivity. }
    change (num RA) with R in *. rewrite E0. cbn [bind]. destruct normal_coefs as (LC & DC & CC & SC & WC). set (g1 := gm_normalize (A := RA) (gc_set_coef (A := RA) (tab G (m_mass L)) g)) in *. clearbody g1.
    pose proof SC as (S1 & S2 & S3 & S4 & S5 & S6 & S7 & S8). assert (MM : gc_mode g1 = gc_mode g) by (unfold gc_mode; rewrite S5; reflexivity). assert (NN : gc_n g1 = G) by (unfold gc_n; rewrite S5; reflexivity).
    pose proof Hs as (Z1 & Z2 & Z3 & Z4 & Z5).
    match goal with |- context [tabM G ?F] => destruct (tabM_ex no_gauss (fun c k => fits_class g k /\ g_mean k = tab n (m_mean L c) /\
        forall i j, (i < n)%nat -> (j < n)%nat -> gcov k i j = match gc_mode g with Full => m_cov L c i j | Diagonal => if Nat.eqb i j then m_cov L c i i else 0 end) G F) as (cs & E1 & L1 & P1) end.
    { intros c Hc. rewrite CC. rewrite (rd_comp g Hs c Hc). cbn [bind]. rewrite (rd_nth _ c 0) by (rewrite tab_length; exact Hc). rewrite nth_tab by exact Hc. cbn [bind].
      destruct (hmean_ok c _ Hc (comp_fits g Hs c Hc)) as (k1 & -> & F1 & _ & M1). cbn [bind]. rewrite MM. destruct (hcov_ok c k1 Hc F1 M1) as (k2 & Q2 & F2 & M2 & V2). exists k2. split; [exact Q2|]. split; [exact F2|]. split; [rewrite M2; exact M1|exact V2]. }
    rewrite E1. cbn [bind].
    assert (FF : forall k, fits_class g k -> fits_class g1 k) by (intros k H; unfold fits_class in *; rewrite S1, S2, S3, MM; exact H).
    assert (FB : forall k, fits_class g1 k -> fits_class g k) by (intros k H; unfold fits_class in *; rewrite S1, S2, S3, MM in H; exact H).
    destruct (offset_ok (gc_set_comp cs g1)) as (cs2 & E2 & F2).
    { apply (Forall_at _ _ no_gauss). cbn [gc_comp gc_set_comp]. rewrite L1. intros c Hc. apply FF. exact (proj1 (P1 c Hc)). }
    { cbn [gc_dim gc_reg gc_set_comp]. change (num RA) with R in *. rewrite S2, S7. exact (proj1 Hr). }
    rewrite E2. cbn [bind]. cbn [gc_comp gc_set_comp gc_dim gc_reg] in F2. rewrite S2, S7 in F2.
    assert (L2 : length cs2 = G) by (rewrite <- (Forall2_len _ _ _ F2); exact L1).
    assert (P2 : forall c, (c < G)%nat -> fits_class g (nth c cs2 no_gauss) /\ (forall d, (d < n)%nat -> gmean (nth c cs2 no_gauss) d = m_mean L c d) /\
      forall i j, (i < n)%nat -> (j < n)%nat -> gcov (nth c cs2 no_gauss) i j = m_newcov L (gc_mode g) (gc_reg g) c i j).
    { intros c Hc. destruct (P1 c Hc) as (_ & M1 & V1). destruct (Forall2_at _ _ _ F2 c no_gauss no_gauss ltac:(rewrite L1; exact Hc)) as (FC & M2 & V2).
      split; [apply FB; exact FC|]. split; [intros d Hd; unfold gmean; rewrite M2, M1, nth_tab by exact Hd; reflexivity|].
      intros i j Hi Hj. rewrite (V2 i j Hi Hj), (V1 i j Hi Hj). unfold m_newcov. destruct (Nat.eqb_spec i j) as [EQ|NE]; [subst j; destruct (gc_mode g); reflexivity|]. destruct (gc_mode g); lra. }
    destruct Hr as (Hr1 & Hr2).
    assert (PP : forall c, (c < G)%nat -> pos_cov (nth c cs2 no_gauss)).
    { intros c Hc. destruct (P2 c Hc) as ((W & _ & FD & _ & FM) & _ & V). unfold pos_cov. rewrite FM, FD. destruct (gc_mode g) eqn:HM.
      - exists eps9. split; [lra|]. intro v. fold n. rewrite (qform_ext n _ (fun i j => m_cov L c i j + if Nat.eqb i j then nth i (gc_reg g) 0 else 0)).
        + apply (regularized_pd n _ (fun i => nth i (gc_reg g) 0) eps9 (fun v => m_cov_psd c v Hc)). exact Hr2.
        + intros i j Hi Hj. rewrite (V i j Hi Hj). unfold m_newcov. destruct (Nat.eqb_spec i j) as [EQ|NE]; [subst j; reflexivity|lra].
      - intros d Hd. rewrite (V d d Hd Hd). unfold m_newcov. rewrite Nat.eqb_refl. pose proof (m_cov_diag c d Hc). specialize (Hr2 d Hd). change (num RA) with R in *. lra. }
    destruct (inverses_ok (gc_set_comp cs2 (gc_set_comp cs g1))) as (cs3 & E3 & F3).
    { apply (Forall_at _ _ no_gauss). cbn [gc_comp gc_set_comp]. rewrite L2. intros c Hc. split; [exact (proj1 (proj1 (P2 c Hc)))|exact (PP c Hc)]. }
    rewrite E3. cbn [gc_comp gc_set_comp] in F3. assert (L3 : length cs3 = G) by (rewrite <- (Forall2_len _ _ _ F3); exact L2).
    assert (P3 : forall c, (c < G)%nat -> same_params (nth c cs2 no_gauss) (nth c cs3 no_gauss) /\ wf_gauss (nth c cs3 no_gauss) /\ inverted (nth c cs3 no_gauss)).
    { intros c Hc. apply (Forall2_at _ _ _ F3). rewrite L2. exact Hc. }
    eexists. split; [reflexivity|]. split.
    - split; [exact SC|]. split; [intros c Hc HP; apply WC; assumption|]. split; intros c Hc; destruct (P2 c Hc) as (_ & M & V); destruct (P3 c Hc) as (SP & _); unfold comp_at; cbn [gc_comp gc_set_comp].
      + intros d Hd. rewrite (gmean_same _ _ SP). apply M, Hd.
      + intros i j Hi Hj. rewrite (gcov_same _ _ SP). apply V; assumption.
    - unfold gm_ready, gm_shape. change (gc_n (gc_set_comp cs3 (gc_set_comp cs2 (gc_set_comp cs g1)))) with (gc_n g1). rewrite NN. cbn [gc_coef gc_comp gc_beta gc_set_comp]. rewrite S6.
      split; [split; [exact Z1|split; [exact LC|split; [exact L3|split; [exact Z4|]]]]|split; [|exact DC]].
      + apply (Forall_at _ _ no_gauss). rewrite L3. intros c Hc. destruct (P3 c Hc) as (SP & W & _). apply FF. exact (fits_same g _ _ (proj1 (P2 c Hc)) SP W).
      + apply (Forall_at _ _ no_gauss). rewrite L3. intros c Hc. exact (proj2 (proj2 (P3 c Hc))).
  Qed.
End State.
