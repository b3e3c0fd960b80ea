(** The hierarchical forward step, in terms of posteriors of the flattened model. *)
From Coq Require Import String List Bool Arith ZArith Reals Lra Lia.
From Verif Require Import Base Arith BaseFacts RFacts Model_Ring Model_Phrase Model_Gaussian Model_Config Model_GMM Model_HMM Model_HHMM
  Proofs_Gaussian Proofs_KMeans Proofs_GMM Spec_Common Spec_Matrix Spec_Gaussian Spec_GMM Spec_HMM Spec_HHMM Proofs_HMM Proofs_HMM2 Proofs_HMM3 Proofs_HMM4 Proofs_HMM5 Proofs_HHMM Proofs_HHMM2 Proofs_HHMM3.
Import ListNotations.
Local Open Scope list_scope.
Local Open Scope R_scope.

Lemma scale_all_ok : forall norm (ms : list (string * hclass RA)), (forall i, (i < length ms)%nat -> let h := snd (nth i ms no_hclass) in
    length (h_a0 (hc_run h)) = hc_n h /\ length (h_a1 (hc_run h)) = hc_n h /\ length (h_a2 (hc_run h)) = hc_n h) ->
  exists ms', scale_all (A := RA) norm ms = Ok ms' /\ length ms' = length ms /\ forall i, (i < length ms)%nat -> let h := snd (nth i ms no_hclass) in
    nth i ms' no_hclass = (fst (nth i ms no_hclass), hc_set_run (rn_alpha_h (A := RA) (tab (hc_n h) (fun k => nth k (h_a0 (hc_run h)) 0 / norm)) (tab (hc_n h) (fun k => nth k (h_a1 (hc_run h)) 0 / norm))
      (tab (hc_n h) (fun k => nth k (h_a2 (hc_run h)) 0 / norm)) (hc_run h)) h).
Proof.
  intros norm ms H. unfold scale_all. apply (mapM_at (fun i y => let h := snd (nth i ms no_hclass) in
    y = (fst (nth i ms no_hclass), hc_set_run (rn_alpha_h (A := RA) (tab (hc_n h) (fun k => nth k (h_a0 (hc_run h)) 0 / norm)) (tab (hc_n h) (fun k => nth k (h_a1 (hc_run h)) 0 / norm))
      (tab (hc_n h) (fun k => nth k (h_a2 (hc_run h)) 0 / norm)) (hc_run h)) h)) _ ms no_hclass no_hclass).
  intros i Hi. destruct (H i Hi) as (L0 & L1 & L2). eexists. split; [|reflexivity]. cbv beta zeta.
  eapply bind_eq; [apply scale_vec_ok; exact L0|]. eapply bind_eq; [apply scale_vec_ok; exact L1|]. eapply bind_eq; [apply scale_vec_ok; exact L2|]. reflexivity.
Qed.

Lemma ratio_cancel : forall l p x y : R, l <> 0 -> p <> 0 -> y <> 0 -> l * (p * x) / (l * (p * y)) = x / y.
Proof. intros. field. auto. Qed.

Lemma scaled_cancel : forall l p x : R, l <> 0 -> p <> 0 -> l * (p * x) / (l * p) = 1 * x.
Proof. intros. field. auto. Qed.

Section Step.
  Variable m : hhmm RA.
  Hypothesis HU : hh_usable m.
  Local Notation n := (hh_size m).
  Local Notation Nc c := (hc_n (hcl m c)).

  Lemma lik_first : forall x, hh_lik m [x] = Rsum n (fun c => Rsum (Nc c) (fun k => start_at m c k * mix_lik (state_at (hcl m c) k) x)).
  Proof. intros x. unfold hh_lik, flat_bs. cbn [map inst_lik]. rewrite seq_iter. cbn [fiter fold_left]. apply first_total. Qed.
  Lemma filt_first : forall x c k e, (c < n)%nat -> (k < Nc c)%nat -> (e < 3)%nat -> hh_lik m [x] * hh_filtering m [x] c k e = (if Nat.eqb e 0 then start_at m c k else 0) * mix_lik (state_at (hcl m c) k) x.
  Proof.
    intros x c k e Hc Hk He. pose proof (hh_lik_pos m HU [x] ltac:(discriminate)) as P. unfold hh_filtering, filtering. destruct (live_at m c k e Hc Hk He) as (_ & _ & _ & L).
    unfold hh_lik in *. unfold flat_bs in *. cbn [map length Nat.sub inst_lik] in *. pose proof (end_iter (hcount m) (flat_pi m) (flat_a m) (flat_b m x) [] _ L) as E. cbn [length fiter fold_left] in E. rewrite E.
    rewrite <- (first_flat m x c k e Hc Hk He). field. lra.
  Qed.

  Lemma filt_next : forall xs x l B, xs <> [] -> (forall c k e, (c < n)%nat -> (k < Nc c)%nat -> (e < 3)%nat -> B c k e = l * hh_filtering m xs c k e) ->
    forall d k f, (d < n)%nat -> (k < Nc d)%nat -> (f < 3)%nat -> front m B d k * split_at m d k f * mix_lik (state_at (hcl m d) k) x = l * (hh_lik m (xs ++ [x]) * hh_filtering m (xs ++ [x]) d k f).
  Proof.
    intros xs x l B Hx HB d k f Hd Hk Hf. destruct (live_at m d k f Hd Hk Hf) as (_ & _ & _ & L).
    rewrite <- (fstep_flat m (fun s => l * filtering (hcount m) (flat_pi m) (flat_a m) (flat_bs m xs) s) B x) by (assumption || (intros; symmetry; apply HB; assumption)).
    unfold hh_lik, hh_filtering. replace (flat_bs m (xs ++ [x])) with (flat_bs m xs ++ [flat_b m x]) by (unfold flat_bs; rewrite map_app; reflexivity).
    apply (forward_scaled _ (flat_pi m) _ (flat_bs m xs)).
    - destruct xs; [contradiction|discriminate].
    - apply (flat_facts m HU xs Hx).
    - replace (flat_bs m xs ++ [flat_b m x]) with (flat_bs m (xs ++ [x])) by (unfold flat_bs; rewrite map_app; reflexivity). apply (flat_facts m HU (xs ++ [x])). destruct xs; discriminate.
    - reflexivity.
    - exact L.
  Qed.

  Lemma scale_snoc : forall u xs x, xs <> [] -> hh_scale m u (xs ++ [x]) = 1.
  Proof. intros u [|x0 [|x1 xs]] x H; [contradiction| |]; reflexivity. Qed.
  Lemma single_snoc : forall (xs : list (list R)) x (a b : R), xs <> [] -> match xs ++ [x] with [_] => a | _ => b end = b.
  Proof. intros [|x0 [|x1 xs]] x a b H; [contradiction| |]; reflexivity. Qed.
  Lemma scale_pos : forall u xs, (forall c, (c < n)%nat -> 0 <= left_over m u c) -> 0 < hh_scale m u xs.
  Proof.
    intros u xs H. unfold hh_scale. destruct xs as [|x [|y xs]]; try lra. pose proof (hh_lik_pos m HU [x] ltac:(discriminate)). assert (0 <= Rsum (hh_size m) (left_over m u)) by (apply Rsum_nonneg; exact H). apply Rdiv_lt_0_compat; lra.
  Qed.
  Lemma inst_at_pos : forall u xs c, (forall c, (c < n)%nat -> 0 <= left_over m u c) -> xs <> [] -> (c < n)%nat -> 0 < hh_inst m u xs c.
  Proof.
    intros u xs c H Hx Hc. unfold hh_inst. apply Rplus_lt_le_0_compat.
    - apply Rmult_lt_0_compat; [apply scale_pos; exact H|]. apply Rmult_lt_0_compat; [apply hh_lik_pos; assumption|apply hh_class_pos; assumption].
    - destruct xs as [|x [|y xs]]; try lra. apply H. exact Hc.
  Qed.

  (** [m1] is [m'] after the forward step with [x]. *)
  Definition stepped (u : nat -> R) (xs : list (list R)) (x : list R) (m' m1 : hhmm RA) : Prop :=
    hh_same m m1 /\ hh_res m1 = hh_res m' /\ length (hh_v1 m1) = n /\ length (hh_v2 m1) = n /\ hh_started m1 = true /\
    forall c, (c < n)%nat -> let r := hc_run (hcl m1 c) in
      length (h_a0 r) = Nc c /\ length (h_a1 r) = Nc c /\ length (h_a2 r) = Nc c /\
      (forall k, (k < Nc c)%nat -> nth k (h_a0 r) 0 = hh_scale m u (xs ++ [x]) * hh_filtering m (xs ++ [x]) c k 0 /\
        nth k (h_a1 r) 0 = hh_scale m u (xs ++ [x]) * hh_filtering m (xs ++ [x]) c k 1 /\ nth k (h_a2 r) 0 = hh_scale m u (xs ++ [x]) * hh_filtering m (xs ++ [x]) c k 2) /\
      h_inst r = hh_inst m u (xs ++ [x]) c /\ h_buf r = h_buf (hc_run (hcl m' c)) /\
      (xs <> [] -> h_exlik r = hh_scale m u xs * (hh_lik m (xs ++ [x]) * Rsum (Nc c) (fun k => hh_filtering m (xs ++ [x]) c k 1 + hh_filtering m (xs ++ [x]) c k 2)) /\
        h_exratio r = Rsum (Nc c) (fun k => hh_filtering m (xs ++ [x]) c k 1 + hh_filtering m (xs ++ [x]) c k 2) / hh_class m (xs ++ [x]) c) /\
      (xs = [] -> h_exlik r = h_exlik (hc_run (hcl m' c)) /\ h_exratio r = h_exratio (hc_run (hcl m' c))).

  Lemma same_of : forall m1 m', hh_same m m' -> hh_bim m1 = hh_bim m' -> hh_dim m1 = hh_dim m' -> hh_din m1 = hh_din m' -> hh_win m1 = hh_win m' -> hh_est m1 = hh_est m' -> hh_cmode m1 = hh_cmode m' -> hh_hier m1 = hh_hier m' ->
    hh_prior m1 = hh_prior m' -> hh_trans m1 = hh_trans m' -> hh_exit m1 = hh_exit m' -> length (hh_cls m1) = n ->
    (forall c, (c < n)%nat -> hlabel m1 c = hlabel m c /\ hmm_same (hcl m c) (hcl m1 c)) -> hh_same m m1.
  Proof.
    intros m1 m' (S1 & S2 & S3 & S4 & S5 & S6 & S7 & S8 & S9 & S10 & S11) E1 E2 E3 E4 E5 E6 E7 E8 E9 E10 L H. unfold hh_same. rewrite E1, E2, E3, E4, E5, E6, E7, E8, E9, E10.
    repeat (split; [assumption|]). apply (Forall2_nth _ _ _ no_hclass no_hclass); [symmetry; exact L|]. intros c Hc. exact (H c Hc).
  Qed.

  Lemma finish : forall u xs x m' (v1 v2 : list R) (ms1 : list (string * hclass RA)) norm g, hh_same m m' -> length v1 = n -> length v2 = n -> length ms1 = n ->
    (forall c, (c < n)%nat -> fst (nth c ms1 no_hclass) = hlabel m' c /\ let h1 := snd (nth c ms1 no_hclass) in let r := hc_run h1 in
      hmm_same (hcl m c) h1 /\ length (h_a0 r) = Nc c /\ length (h_a1 r) = Nc c /\ length (h_a2 r) = Nc c /\
      (forall k, (k < Nc c)%nat -> nth k (h_a0 r) 0 = g c k 0%nat /\ nth k (h_a1 r) 0 = g c k 1%nat /\ nth k (h_a2 r) 0 = g c k 2%nat) /\
      h_inst r = hh_inst m u (xs ++ [x]) c /\ h_buf r = h_buf (hc_run (hcl m' c)) /\
      (xs <> [] -> h_exlik r = hh_scale m u xs * (hh_lik m (xs ++ [x]) * Rsum (Nc c) (fun k => hh_filtering m (xs ++ [x]) c k 1 + hh_filtering m (xs ++ [x]) c k 2)) /\
        h_exratio r = Rsum (Nc c) (fun k => hh_filtering m (xs ++ [x]) c k 1 + hh_filtering m (xs ++ [x]) c k 2) / hh_class m (xs ++ [x]) c) /\
      (xs = [] -> h_exlik r = h_exlik (hc_run (hcl m' c)) /\ h_exratio r = h_exratio (hc_run (hcl m' c)))) ->
    (forall c k e, (c < n)%nat -> (k < Nc c)%nat -> (e < 3)%nat -> g c k e / norm = hh_scale m u (xs ++ [x]) * hh_filtering m (xs ++ [x]) c k e) ->
    exists ms2, scale_all (A := RA) norm ms1 = Ok ms2 /\ stepped u xs x m' (hh_set_front (A := RA) v1 v2 true (hh_set_cls (A := RA) ms2 m')).
  Proof.
    intros u xs x m' v1 v2 ms1 norm g SM L1 L2 LM HC HG.
    assert (EN : forall c, (c < n)%nat -> hc_n (snd (nth c ms1 no_hclass)) = Nc c) by (intros c Hc; destruct (HC c Hc) as (_ & HS & _); apply (same_n (hcl m c) _ HS)).
    destruct (scale_all_ok norm ms1) as (ms2 & E & L & V).
    { intros c Hc. rewrite LM in Hc. destruct (HC c Hc) as (_ & _ & A0 & A1 & A2 & _). cbv zeta. rewrite EN by exact Hc. auto. }
    rewrite LM in L, V. exists ms2. split; [exact E|].
    assert (EC : forall c, (c < n)%nat -> hcl (hh_set_front (A := RA) v1 v2 true (hh_set_cls (A := RA) ms2 m')) c = hc_set_run (rn_alpha_h (A := RA) (tab (Nc c) (fun k => nth k (h_a0 (hc_run (snd (nth c ms1 no_hclass)))) 0 / norm))
      (tab (Nc c) (fun k => nth k (h_a1 (hc_run (snd (nth c ms1 no_hclass)))) 0 / norm)) (tab (Nc c) (fun k => nth k (h_a2 (hc_run (snd (nth c ms1 no_hclass)))) 0 / norm)) (hc_run (snd (nth c ms1 no_hclass)))) (snd (nth c ms1 no_hclass))).
    { intros c Hc. specialize (V c Hc). cbv zeta in V. rewrite EN in V by exact Hc. unfold hcl. cbn [hh_cls hh_set_front hh_set_cls]. rewrite V. reflexivity. }
    split; [|split; [reflexivity|split; [exact L1|split; [exact L2|split; [reflexivity|]]]]].
    - apply (same_of _ m'); try reflexivity; [exact SM|exact L|]. intros c Hc. destruct (HC c Hc) as (F & HS & _). cbv zeta in HS. split; [|rewrite EC by exact Hc; exact HS].
      specialize (V c Hc). cbv zeta in V. unfold hlabel. cbn [hh_cls hh_set_front hh_set_cls]. rewrite V. cbn [fst]. rewrite F. apply (same_cls m m' c SM Hc).
    - intros c Hc. cbv zeta. rewrite EC by exact Hc. destruct (HC c Hc) as (_ & HS & A0 & A1 & A2 & VV & I & Bf & X). cbv zeta in *.
      cbn [hc_run hc_set_run h_a0 h_a1 h_a2 h_inst h_buf h_exlik h_exratio rn_alpha_h]. rewrite !tab_length. split; [reflexivity|]. split; [reflexivity|]. split; [reflexivity|]. split; [|split; [exact I|split; [exact Bf|exact X]]].
      intros k Hk. rewrite !nth_tab by exact Hk. destruct (VV k Hk) as (-> & -> & ->). rewrite !HG by (assumption || lia). auto.
  Qed.

  Lemma forward_ok : forall u xs m' x, hh_hier m = true -> (forall c, (c < n)%nat -> 0 <= left_over m u c) -> hh_at m u xs m' -> length x = hh_obs_dim m ->
    exists m1, hh_forward (A := RA) x m' = Ok m1 /\ stepped u xs x m' m1.
  Proof.
    intros u xs m' x HH HL (SM & RS & LV1 & LV2 & CL & ST) Lx. pose proof (same_size m m' SM) as ES. pose proof SM as (_ & _ & _ & _ & _ & _ & M7 & M8 & M9 & M10 & _).
    unfold hh_forward. rewrite M7, HH, ST. pose proof (fun c Hc => same_cls m m' c SM Hc) as SC.
    destruct xs as [|x0 xs].
    - unfold hh_forward_init. rewrite M8, n0_RA. set (tot c := left_over m u c + Rsum (Nc c) (fun k => start_at m c k * mix_lik (state_at (hcl m c) k) x)).
      destruct (sweep_at (fun c h1 => exists a0, h1 = hc_set_run (rn_inst (A := RA) (tot c) (rn_alpha_h (A := RA) a0 (repeat 0 (Nc c)) (repeat 0 (Nc c)) (hc_run (hcl m' c)))) (hcl m' c) /\
          length a0 = Nc c /\ forall k, (k < Nc c)%nat -> nth k a0 0 = start_at m c k * mix_lik (state_at (hcl m c) k) x) tot (init_class (A := RA) (hh_prior m) x) (hh_cls m') 0 0) as (ms1 & E1 & L1 & V1).
      { intros c nm Hc. change (length (hh_cls m')) with (hh_size m') in Hc. rewrite ES in Hc. destruct (SC c Hc) as (_ & Sc). destruct (init_class_ok m HU (hcl m' c) c x nm Hc Sc Lx) as (a0 & inst & E & L & V & EI).
        destruct (CL c Hc) as (_ & CI). cbv zeta in CI. assert (inst = tot c) as -> by (rewrite EI; unfold tot; f_equal; unfold left_over; destruct (hc_mode (hcl m c)); [exact CI|reflexivity]).
        eexists. split; [exact E|]. exists a0. split; [reflexivity|]. split; [exact L|exact V]. }
      change (length (hh_cls m')) with (hh_size m') in *. rewrite ES in L1, V1, E1. rewrite Rplus_0_l in E1.
      pose proof (hh_lik_pos m HU [x] ltac:(discriminate)) as LP. assert (TOT : Rsum n tot = hh_lik m [x] + Rsum n (left_over m u)) by (unfold tot; rewrite Rsum_plus, lik_first; ring).
      assert (LO : 0 <= Rsum n (left_over m u)) by (apply Rsum_nonneg; exact HL).
      destruct (finish u [] x m' (hh_v1 m') (hh_v2 m') ms1 (Rsum n tot) (fun c k e => (if Nat.eqb e 0 then start_at m c k else 0) * mix_lik (state_at (hcl m c) k) x) SM LV1 LV2 L1) as (ms2 & E2 & ST2).
      + intros c Hc. destruct (V1 c Hc) as (F & a0 & Eh & La & Va). split; [exact F|]. cbv zeta. rewrite Eh. split; [apply (SC c Hc)|]. cbn [hc_run hc_set_run h_a0 h_a1 h_a2 h_inst h_buf rn_inst rn_alpha_h]. rewrite !repeat_length.
        split; [exact La|]. split; [reflexivity|]. split; [reflexivity|]. split; [|split; [|split; [reflexivity|split; [congruence|split; reflexivity]]]].
        * intros k Hk. rewrite nth_repeat. cbn [Nat.eqb]. split; [apply Va; exact Hk|]. split; symmetry; apply Rmult_0_l.
        * unfold hh_inst, tot. cbn [app removelast hh_scale]. rewrite Rplus_comm. f_equal. rewrite Rmult_1_l. unfold hh_class. rewrite <- Rsum_scal_l. apply Rsum_ext. intros k Hk. rewrite !Rmult_plus_distr_l. rewrite !filt_first by (assumption || lia). cbn [Nat.eqb]. ring.
      + intros c k e Hc Hk He. cbn [app]. rewrite <- filt_first by assumption. rewrite TOT. unfold hh_scale. cbv beta iota. unfold Rdiv. rewrite !Rmult_assoc. f_equal. apply Rmult_comm.
      + eexists. split; [|exact ST2]. eapply bind_eq; [exact E1|]. cbv beta iota. eapply bind_eq; [exact E2|]. reflexivity.
    - set (l := hh_scale m u (x0 :: xs)) in *. set (B c k e := l * hh_filtering m (x0 :: xs) c k e). unfold hh_forward_update.
      destruct (level_ok m h_a1 (hh_cls m') (hh_v1 m') (fun c j => B c j 1%nat) ES LV1) as (v1 & E1 & Lv1 & V1).
      { intros c Hc. destruct (CL c Hc) as (A0 & A1 & A2 & VV & _). split; [apply (same_n (hcl m c)); apply (SC c Hc)|]. split; [exact A1|]. intros j Hj. apply (VV j Hj). }
      destruct (level_ok m h_a2 (hh_cls m') (hh_v2 m') (fun c j => B c j 2%nat) ES LV2) as (v2 & E2 & Lv2 & V2).
      { intros c Hc. destruct (CL c Hc) as (A0 & A1 & A2 & VV & _). split; [apply (same_n (hcl m c)); apply (SC c Hc)|]. split; [exact A2|]. intros j Hj. apply (VV j Hj). }
      rewrite E1, bind_Ok, E2, bind_Ok, n0_RA. set (xs' := (x0 :: xs) ++ [x]) in *.
      assert (Hx' : xs' <> []) by discriminate.
      assert (FN : forall d k f, (d < n)%nat -> (k < Nc d)%nat -> (f < 3)%nat -> front m B d k * split_at m d k f * mix_lik (state_at (hcl m d) k) x = l * (hh_lik m xs' * hh_filtering m xs' d k f)).
      { apply filt_next; [discriminate|]. intros. reflexivity. }
      assert (LP : 0 < l) by (apply scale_pos; exact HL). pose proof (hh_lik_pos m HU xs' Hx') as HP.
      set (ex c := l * (hh_lik m xs' * Rsum (Nc c) (fun k => hh_filtering m xs' c k 1 + hh_filtering m xs' c k 2))). set (tot c := l * (hh_lik m xs' * hh_class m xs' c)).
      destruct (sweep_at (fun c h1 => exists a0 a1 a2, h1 = hc_set_run (rn_exit (A := RA) (ex c) (ex c / tot c) (rn_inst (A := RA) (tot c) (rn_alpha_h (A := RA) a0 a1 a2 (hc_run (hcl m' c))))) (hcl m' c) /\
          length a0 = Nc c /\ length a1 = Nc c /\ length a2 = Nc c /\ forall k, (k < Nc c)%nat -> nth k a0 0 = l * (hh_lik m xs' * hh_filtering m xs' c k 0) /\ nth k a1 0 = l * (hh_lik m xs' * hh_filtering m xs' c k 1) /\ nth k a2 0 = l * (hh_lik m xs' * hh_filtering m xs' c k 2))
          tot (update_class (A := RA) m' v1 v2 x) (hh_cls m') 0 0) as (ms1 & E3 & L1 & V3).
      { intros c nm Hc. change (length (hh_cls m')) with (hh_size m') in Hc. rewrite ES in Hc. destruct (SC c Hc) as (_ & Sc). destruct (CL c Hc) as (A0 & A1 & A2 & VV & _).
        destruct (update_class_ok m HU m' v1 v2 B c (hcl m' c) x nm SM Hc Sc Lx Lv1 Lv2 V1 V2 A0 A1 A2 (fun j Hj => proj1 (VV j Hj))) as (a0 & a1 & a2 & E & La0 & La1 & La2 & Va). cbv beta zeta in E, Va. cbn [Nat.add]. change (snd (nth c (hh_cls m') no_hclass)) with (hcl m' c).
        assert (EX : Rsum (Nc c) (fun k => front m B c k * split_at m c k 1 * mix_lik (state_at (hcl m c) k) x + front m B c k * split_at m c k 2 * mix_lik (state_at (hcl m c) k) x) = ex c).
        { unfold ex. rewrite <- !Rsum_scal_l. apply Rsum_ext. intros k Hk. rewrite !FN by (assumption || lia). ring. }
        assert (ET : Rsum (Nc c) (fun k => front m B c k * split_at m c k 0 * mix_lik (state_at (hcl m c) k) x + front m B c k * split_at m c k 1 * mix_lik (state_at (hcl m c) k) x + front m B c k * split_at m c k 2 * mix_lik (state_at (hcl m c) k) x) = tot c).
        { unfold tot, hh_class. rewrite <- !Rsum_scal_l. apply Rsum_ext. intros k Hk. rewrite !FN by (assumption || lia). ring. }
        rewrite EX, ET in E. eexists. split; [exact E|]. exists a0, a1, a2. split; [reflexivity|]. repeat (split; [assumption|]). intros k Hk. destruct (Va k Hk) as (-> & -> & ->). rewrite !FN by (assumption || lia). auto. }
      change (length (hh_cls m')) with (hh_size m') in *. rewrite ES in L1, V3, E3. rewrite Rplus_0_l in E3.
      assert (TOT : Rsum n tot = l * hh_lik m xs') by (unfold tot; rewrite (Rsum_ext n _ (fun c => l * hh_lik m xs' * hh_class m xs' c)) by (intros; ring); rewrite Rsum_scal_l; pose proof (hh_total m HU xs' Hx') as HT; rewrite HT; ring).
      destruct (finish u (x0 :: xs) x m' v1 v2 ms1 (Rsum n tot) (fun c k e => l * (hh_lik m xs' * hh_filtering m xs' c k e)) SM Lv1 Lv2 L1) as (ms2 & E4 & ST2).
      + intros c Hc. destruct (V3 c Hc) as (F & a0 & a1 & a2 & Eh & La0 & La1 & La2 & Va). split; [exact F|]. cbv zeta. rewrite Eh. split; [apply (SC c Hc)|]. cbn [hc_run hc_set_run h_a0 h_a1 h_a2 h_inst h_buf h_exlik h_exratio rn_inst rn_alpha_h rn_exit].
        repeat (split; [assumption|]). split; [|split; [reflexivity|split; [|discriminate]]].
        * fold xs'. unfold hh_inst, xs'. rewrite removelast_last. rewrite single_snoc by discriminate. fold xs'. fold l. unfold tot. symmetry. apply Rplus_0_r.
        * intros _. fold xs' l. split; [reflexivity|]. unfold ex, tot. pose proof (hh_class_pos m HU xs' c Hx' Hc) as CP. apply ratio_cancel; apply Rgt_not_eq; assumption.
      + intros c k e Hc Hk He. rewrite TOT. unfold xs'. rewrite scale_snoc by discriminate. fold xs'. apply scaled_cancel; apply Rgt_not_eq; assumption.
      + eexists. split; [|exact ST2]. eapply bind_eq; [exact E3|]. cbv beta iota. eapply bind_eq; [exact E4|]. rewrite ST. reflexivity.
  Qed.
End Step.
