(** Training a hidden Markov model leaves every state with its inverses up to date. *)
From Coq Require Import String List Bool Arith ZArith Lia QArith.
From Verif Require Import Base BaseFacts Arith Model_Json Model_Ring Model_Gaussian Model_Config Model_KMeans Model_GMM Model_HMM Model_Reload
  Spec_Gaussian Spec_Config Spec_Reload Proofs_Rel Proofs_Reload1 Proofs_Reload2 Proofs_Reload3 Proofs_Reload5.
Import ListNotations.
Local Open Scope nat_scope.
Local Open Scope list_scope.

Section HTraining.
  Context {A : arith}.
  Local Notation T := (num A).

  (** A state of the class. *)
  Definition state_par (h : hclass A) : gmmP A := mkGmmP (hp_gauss (hc_par h)) (hp_rel (hc_par h)) (hp_abs (hc_par h)) (hp_mode (hc_par h)).
  Definition state_inv (h : hclass A) (g : gclass A) : Prop :=
    sized g /\ gc_bim g = hc_bim h /\ gc_dim g = hc_dim h /\ gc_din g = hc_din h /\ gc_win g = hc_win h /\ gc_par g = state_par h /\ gc_buf g = ring_new n0 1 1.
  Lemma state_kept : forall h g g', state_inv h g -> sized g' -> kept g g' -> state_inv h g'.
  Proof. intros h g g' (S & E1 & E2 & E3 & E4 & E5 & E6) S' (K1 & K2 & K3 & K4 & K5 & K6 & K7). unfold state_inv. split; [exact S'|]. repeat split; congruence. Qed.

  (** The members that training does not change. *)
  Definition hkept (h k : hclass A) : Prop :=
    hc_bim k = hc_bim h /\ hc_dim k = hc_dim h /\ hc_din k = hc_din h /\ hc_win k = hc_win h /\ hc_par k = hc_par h /\ hc_hier k = hc_hier h /\ h_buf (hc_run k) = h_buf (hc_run h).
  Lemma hkept_refl : forall h, hkept h h.
  Proof. unfold hkept. auto 10. Qed.
  Lemma hkept_trans : forall a b c, hkept a b -> hkept b c -> hkept a c.
  Proof. unfold hkept. intuition congruence. Qed.
  Lemma state_hkept : forall h k g, hkept h k -> state_inv h g -> state_inv k g.
  Proof. intros h k g (K1 & K2 & K3 & K4 & K5 & K6 & K7) S. unfold state_inv, state_par in *. rewrite K1, K2, K3, K4, K5. exact S. Qed.

  (** The network has the right sizes. *)
  Definition net_sized (h : hclass A) : Prop :=
    let N := hc_n h in let n := hc_net h in
    length (h_states n) = N /\ Forall (state_inv h) (h_states n) /\
    (hc_mode h = Ergodic -> length (h_prior n) = N) /\ (hc_mode h = LeftRight -> h_prior n = []) /\
    length (h_trans n) = (match hc_mode h with Ergodic => N * N | LeftRight => 2 * N end) /\ length (h_exit n) = N.
  Definition cur (h : hclass A) : Prop := Forall (fun g => Forall (current_comp g) (gc_comp g)) (h_states (hc_net h)).

  Lemma tab_state : forall h n f (ss : list (gclass A)) ss', Forall (state_inv h) ss -> tabM n (fun i => let* g := rd ss i in f i g) = Ok ss' ->
    (forall i g g', state_inv h g -> f i g = Ok g' -> state_inv h g') -> length ss' = n /\ Forall (state_inv h) ss'.
  Proof.
    intros h n f ss ss' F H G. split; [apply tabM_len in H; exact H|]. eapply tab_all; [|exact H]. intros i x E. apply bind_ok_inv in E. destruct E as (g & E1 & E). eapply G; [|exact E]. eapply rd_all; [exact F|exact E1].
  Qed.

  Lemma allocate_net : forall h k, hc_hier h = true -> dims_ok (hc_bim h) (hc_dim h) (hc_din h) -> hm_allocate h = Ok k -> net_sized k /\ hkept h k.
  Proof.
    intros h k HT D H. unfold hm_allocate in H. apply bind_ok_inv in H. destruct H as (g & H1 & H).
    destruct (allocate_sized (new_mixture h 1) g D H1) as (S & E1 & E2 & E3 & E4 & E5 & E6). cbn [hc_hier hc_set_net hc_set_run] in H. rewrite HT in H.
    unfold hm_exit_default in H. cbn [hc_hier hc_set_net hc_set_run] in H. rewrite HT in H. cbn [negb] in H. apply bind_ok_inv in H. destruct H as (e & HE & H). injection H as <-.
    unfold exit_default in HE. apply wr_length in HE. rewrite vresize_length in HE.
    split; [|unfold hkept; cbn; auto 10]. unfold net_sized, hc_n, hc_mode in *. cbn -[vresize] in *. repeat split.
    - apply repeat_length.
    - apply Forall_forall. intros x Hx. apply repeat_spec in Hx. subst x. unfold state_inv, state_par. cbn in E1, E2, E3, E4, E5, E6 |- *. rewrite E1, E2, E3, E4, E5, E6. auto 10.
    - intros ->. apply vresize_length.
    - intros ->. reflexivity.
    - rewrite vresize_length. destruct (hp_trans (hc_par h)); lia.
    - exact HE.
  Qed.

  Lemma default_net : forall dev h k, net_sized h -> hm_default dev h = Ok k -> net_sized k /\ hkept h k.
  Proof.
    intros dev h k (S1 & S2 & S3 & S4 & S5 & S6) H. unfold hm_default in H. apply bind_ok_inv in H. destruct H as ([pr tr] & H1 & H). apply bind_ok_inv in H. destruct H as (ss & H2 & H). injection H as <-.
    assert (K : hkept h (hc_set_net (mkNet ss pr tr (h_exit (hc_net h))) h)) by (unfold hkept; cbn; auto 10). split; [|exact K].
    destruct (tab_state h _ (fun _ g => gm_default dev g) _ _ S2 H2) as (L & F).
    { intros _ g g' SI E. destruct (default_sized dev g g') as (Z1 & Z2); [apply SI|exact E|]. eapply state_kept; eauto. }
    unfold net_sized, hc_n, hc_mode in *. cbn in *. split; [exact L|]. split; [eapply Forall_impl; [|exact F]; intros g Hg; eapply state_hkept; [exact K|exact Hg]|].
    destruct (hp_trans (hc_par h)).
    - injection H1 as <- <-. rewrite !repeat_length. repeat split; auto; discriminate.
    - apply bind_ok_inv in H1. destruct H1 as (t & H1 & E). injection E as <- <-. unfold set_leftright in H1. apply bind_ok_inv in H1. destruct H1 as (t' & E1 & E2).
      apply wr_length in E2. apply wr_length in E1. rewrite repeat_length in E1. repeat split; auto; lia.
  Qed.

  Lemma fit_shaped : forall h k data dev f, dims_ok (hc_bim h) (hc_dim h) (hc_din h) -> gm_fit h k data dev = Ok f ->
    sized f /\ gc_dim f = hc_dim h /\ gc_par f = state_par h.
  Proof.
    intros h k data dev f D H. unfold gm_fit in H. apply bind_ok_inv in H. destruct H as (g1 & H1 & H). apply bind_ok_inv in H. destruct H as (g2 & H2 & H).
    destruct (allocate_sized (new_mixture h (hc_win h)) g1 D H1) as (S1 & E1 & E2 & E3 & E4 & E5 & E6).
    destruct (init_current _ _ _ _ S1 H2) as (S2 & K2 & C2). destruct (updates_current _ _ _ _ S2 C2 H) as (S3 & K3 & C3).
    destruct (kept_trans _ _ _ K2 K3) as (Q1 & Q2 & Q3 & Q4 & Q5 & _). split; [exact S3|]. rewrite Q2, Q5, E2, E5. split; reflexivity.
  Qed.

  Lemma adopt_inv : forall h f g g', sized f -> gc_dim f = hc_dim h -> gc_par f = state_par h -> state_inv h g -> adopt f g = Ok g' -> state_inv h g'.
  Proof.
    intros h f g g' SF DF PF SI H. unfold adopt in H. refine (iterM_inv_ok (fun _ g => state_inv h g) _ _ g g' SI _ H).
    intros c a b _ SA E. apply bind_ok_inv in E. destruct E as (s & E1 & E). apply bind_ok_inv in E. destruct E as (k & E2 & E). apply bind_ok_inv in E. destruct E as (cs & E3 & E).
    pose proof SA as (SZ & A1 & A2 & A3 & A4 & A5 & A6). destruct SF as (F1 & F2 & F3 & F4). destruct SZ as (Z1 & Z2 & Z3 & Z4).
    assert (SS : shaped f s) by (eapply rd_all; [exact F2|exact E1]). assert (SK : shaped a k) by (eapply rd_all; [exact Z2|exact E2]).
    assert (LM : length (g_mean s) = length (g_mean k)).
    { destruct SS as ((W1 & _) & _ & D1 & _). destruct SK as ((W1' & _) & _ & D1' & _). congruence. }
    assert (LC : length (g_cov s) = length (g_cov k)).
    { rewrite (shaped_csize _ _ SS), (shaped_csize _ _ SK). unfold gc_mode. rewrite PF, A5, DF, A2. reflexivity. }
    assert (FC : Forall (shaped a) cs).
    { assert (SN : shaped a (g_set_cov (g_cov s) (g_set_mean (g_mean s) k))) by (apply shaped_cov; [apply shaped_mean; [exact SK|exact LM]|exact LC]).
      unfold wr in E3. destruct (c <? length (gc_comp a)); [|discriminate]. injection E3 as <-. clear - Z2 SN. revert c. induction Z2 as [|y l Hy Hl IH]; intros [|c]; cbn; auto. }
    destruct (set_comp_sized a cs (conj Z1 (conj Z2 (conj Z3 Z4)))) as (SZ' & K'); [rewrite (wr_length _ _ _ _ E3); exact Z1|exact FC|].
    destruct (inverses_current _ _ SZ' E) as (SZ'' & K'' & _). eapply state_kept; [exact SA|exact SZ''|]. exact (kept_trans _ _ _ K' K'').
  Qed.

  Lemma init_net : forall iters devs dev data h k, dims_ok (hc_bim h) (hc_dim h) (hc_din h) -> net_sized h -> hm_init iters devs dev data h = Ok k -> net_sized k /\ hkept h k.
  Proof.
    intros iters devs dev data h k D NS H. unfold hm_init in H. destruct data as [|p data]; [injection H as <-; split; [exact NS|apply hkept_refl]|].
    apply bind_ok_inv in H. destruct H as (h1 & H1 & H). destruct (default_net _ _ _ NS H1) as (N1 & K1). set (dat := p :: data) in *. clearbody dat.
    unfold hm_init_states in H. apply bind_ok_inv in H. destruct H as (ss & H2 & H). injection H as <-.
    pose proof N1 as (S1 & S2 & S3 & S4 & S5 & S6). pose proof K1 as (Q1 & Q2 & Q3 & Q4 & Q5 & Q6 & Q7).
    assert (D1 : dims_ok (hc_bim h1) (hc_dim h1) (hc_din h1)) by (rewrite Q1, Q2, Q3; exact D).
    destruct (tab_state h1 _ (fun s g => match seg_data (hc_n h1) s dat with [] => Ok g | sd => let* f := gm_fit h1 (iters s) sd (devs s) in adopt f g end) _ _ S2 H2) as (L & F).
    { intros s g g' SI E. destruct (seg_data (hc_n h1) s dat); [injection E as <-; exact SI|]. apply bind_ok_inv in E. destruct E as (f & E1 & E).
      destruct (fit_shaped _ _ _ _ _ D1 E1) as (SF & DF & PF). eapply adopt_inv; eauto. }
    split; [|eapply hkept_trans; [exact K1|unfold hkept; cbn; auto 10]]. unfold net_sized, hc_n, hc_mode in *. cbn in *. auto 20.
  Qed.

  Lemma state_update : forall h frames es i g g', state_inv h g -> hm_state h frames es i g = Ok g' -> state_inv h g' /\ Forall (current_comp g') (gc_comp g').
  Proof.
    intros h frames es i g g' SI H. unfold hm_state in H. apply bind_ok_inv in H. destruct H as (ws & _ & H). apply bind_ok_inv in H. destruct H as (E & HE & H). apply tabM_len in HE.
    pose proof SI as ((Z1 & Z2 & Z3 & Z4) & A1 & A2 & A3 & A4 & A5 & A6).
    assert (EG : hp_gauss (hc_par h) = gc_n g) by (unfold gc_n; rewrite A5; reflexivity). assert (EM : hp_mode (hc_par h) = gc_mode g) by (unfold gc_mode; rewrite A5; reflexivity).
    set (g1 := gm_normalize (gc_set_coef E g)) in H.
    assert (S1 : sized g1 /\ kept g g1 /\ gc_comp g1 = gc_comp g).
    { unfold g1, gm_normalize. cbn [gc_coef gc_set_coef]. match goal with |- context [gc_set_coef (if ?b then ?x else ?y) _] => set (l := if b then x else y); assert (LL : length l = gc_n g) by (unfold l; destruct b; [rewrite map_length; congruence|apply repeat_length]); clearbody l end. unfold sized, kept, gc_n, gc_mode, shaped in *. cbn. auto 20. }
    destruct S1 as (S1 & K1 & C1). apply bind_ok_inv in H. destruct H as (cs & HC & H). apply bind_ok_inv in H. destruct H as (g2 & H2 & H3).
    assert (FC : Forall (shaped g1) cs).
    { eapply tab_all; [|exact HC]. intros c x G. apply bind_ok_inv in G. destruct G as (k & G1 & G). apply bind_ok_inv in G. destruct G as (e & _ & G). apply bind_ok_inv in G. destruct G as (k2 & G2 & G).
      assert (SK : shaped g1 k) by (eapply rd_all; [apply S1|exact G1]).
      unfold hm_mean in G2. apply bind_ok_inv in G2. destruct G2 as (m & G2 & Q). injection Q as <-. apply tabM_len in G2.
      assert (DG : gc_dim g1 = hc_dim h) by (destruct K1 as (_ & -> & _); exact A2).
      assert (SK2 : shaped g1 (g_set_mean m k)).
      { apply shaped_mean; auto. destruct SK as ((W1 & _) & _ & D1 & _). congruence. }
      unfold hm_cov in G. apply bind_ok_inv in G. destruct G as (cov & G3 & Q). injection Q as <-. apply shaped_cov; auto. rewrite (shaped_csize _ _ SK2), DG.
      assert (EM1 : gc_mode g1 = hp_mode (hc_par h)) by (unfold gc_mode in *; destruct K1 as (_ & _ & _ & _ & -> & _); congruence). rewrite EM1.
      destruct (hp_mode (hc_par h)); apply tabM_len in G3; exact G3. }
    assert (NG : gc_n g1 = gc_n g) by (unfold gc_n; destruct K1 as (_ & _ & _ & _ & -> & _); reflexivity).
    destruct (set_comp_sized g1 cs S1) as (S2 & K2); [apply tabM_len in HC; congruence|exact FC|].
    destruct (offset_sized _ _ S2 H2) as (S3 & K3). destruct (inverses_current _ _ S3 H3) as (S4 & K4 & _ & C). split; [|exact C]. eapply state_kept; [exact SI|exact S4|]. eauto using kept_trans.
  Qed.

  Lemma update_net : forall data h k lp, net_sized h -> hm_update data h = Ok (k, lp) -> net_sized k /\ hkept h k /\ cur k.
  Proof.
    intros data h k lp (S1 & S2 & S3 & S4 & S5 & S6) H. unfold hm_update in H. apply bind_ok_inv in H. destruct H as ([es al] & _ & H). apply bind_ok_inv in H. destruct H as (ss & HS & H).
    apply bind_ok_inv in H. destruct H as (pr & HP & H). apply bind_ok_inv in H. destruct H as (tr & HT & H). injection H as <- _.
    destruct (tab_state h _ (fun i g => hm_state h (concat data) es i g) _ _ S2 HS) as (L & F).
    { intros i g g' SI E. eapply state_update; eauto. }
    assert (C : Forall (fun g => Forall (current_comp g) (gc_comp g)) ss).
    { eapply tab_all; [|exact HS]. intros i x E. apply bind_ok_inv in E. destruct E as (g & E1 & E). eapply state_update; [|exact E]. eapply rd_all; [exact S2|exact E1]. }
    unfold hm_trans in HT. apply tabM_len in HT.
    split; [|split; [unfold hkept; cbn; auto 10|exact C]]. unfold net_sized, hc_n, hc_mode in *. cbn in *. split; [exact L|]. split; [exact F|].
    destruct (hp_trans (hc_par h)).
    - split; [|split; [discriminate|split; [exact HT|exact S6]]]. intros _. unfold hm_prior in HP. apply bind_ok_inv in HP. destruct HP as (p & HP1 & HP). apply bind_ok_inv in HP. destruct HP as (s & _ & HP). injection HP as <-.
      apply tabM_len in HP1. destruct (nltb n0 s); rewrite ?map_length; exact HP1.
    - injection HP as <-. split; [discriminate|]. split; [exact S4|]. split; [lia|exact S6].
  Qed.

  Lemma updates_net : forall k data h h', net_sized h -> hm_updates k data h = Ok h' -> net_sized h' /\ hkept h h' /\ (k <> 0 \/ cur h -> cur h').
  Proof.
    induction k as [|k IH]; intros data h h' NS H; cbn in H; [injection H as <-; split; [exact NS|split; [apply hkept_refl|intros [Z|Z]; [congruence|exact Z]]]|].
    apply bind_ok_inv in H. destruct H as ([h1 lp] & H1 & H). destruct (update_net _ _ _ _ NS H1) as (N1 & K1 & C1). destruct (IH _ _ _ N1 H) as (N2 & K2 & C2).
    split; [exact N2|]. split; [eapply hkept_trans; eassumption|]. intros _. apply C2. right. exact C1.
  Qed.

  Lemma normalize_len : forall N mode (tr tr' : list T), normalize_trans N mode tr = Ok tr' -> length tr' = length tr.
  Proof.
    intros N mode tr tr' H. unfold normalize_trans in H. destruct mode.
    - eapply iter_len; [|exact H]. intros i a b E. apply bind_ok_inv in E. destruct E as (s & _ & E). eapply iter_len; [|exact E]. intros j a' b' E'. apply bind_ok_inv in E'. destruct E' as (v & _ & E'). rewrite (wr_length _ _ _ _ E'). reflexivity.
    - eapply iter_len; [|exact H]. intros i a b E. apply bind_ok_inv in E. destruct E as (x & _ & E). apply bind_ok_inv in E. destruct E as (y & _ & E). apply bind_ok_inv in E. destruct E as (w & E1 & E).
      rewrite (wr_length _ _ _ _ E), (wr_length _ _ _ _ E1). reflexivity.
  Qed.
  Lemma normalize_prior_len : forall N mode (pr pr' : list T), normalize_prior N mode pr = Ok pr' -> length pr' = length pr.
  Proof.
    intros N mode pr pr' H. unfold normalize_prior in H. destruct mode; [|injection H as <-; reflexivity]. apply bind_ok_inv in H. destruct H as (s & _ & H).
    eapply iter_len; [|exact H]. intros i a b E. apply bind_ok_inv in E. destruct E as (v & _ & E). rewrite (wr_length _ _ _ _ E). reflexivity.
  Qed.

  Lemma terminate_net : forall h k, net_sized h -> hm_terminate h = Ok k -> net_sized k /\ hkept h k /\ h_states (hc_net k) = h_states (hc_net h).
  Proof.
    intros h k (S1 & S2 & S3 & S4 & S5 & S6) H. unfold hm_terminate in H. apply bind_ok_inv in H. destruct H as (tr & HT & H). apply bind_ok_inv in H. destruct H as (pr & HP & H). injection H as <-.
    apply normalize_len in HT. apply normalize_prior_len in HP. split; [|split; [unfold hkept; cbn; auto 10|reflexivity]]. unfold net_sized, hc_n, hc_mode in *. cbn. rewrite HT, HP.
    repeat split; auto. intro M. specialize (S4 M). rewrite S4 in HP. destruct pr; [reflexivity|discriminate].
  Qed.

  Lemma hm_training : forall (cv : conv A) iters devs dev k data h0 h,
    hmmP_ok cv (hc_par h0) -> dims_ok (hc_bim h0) (hc_dim h0) (hc_din h0) -> hc_hier h0 = true -> one_channel (h_buf (hc_run h0)) ->
    hm_train iters devs dev (S k) data h0 = Ok h -> Forall (fun g => Forall (is_float cv) (gc_coef g)) (h_states (hc_net h)) ->
    forall p t e, length p = length (h_prior (hc_net h)) -> length t = length (h_trans (hc_net h)) -> length e = length (h_exit (hc_net h)) ->
      Forall (is_float cv) p -> Forall (is_float cv) t -> Forall (is_float cv) e ->
      let h' := hc_set_net (mkNet (A := A) (h_states (hc_net h)) p t e) h in trained_hmm cv h' /\ (hc_mode h = LeftRight -> ready_hmm true h').
  Proof.
    intros cv iters devs dev k data h0 h P D HT OC H FC p t e LP LT LE FP FT FX h'. unfold hm_train in H.
    apply bind_ok_inv in H. destruct H as (h1 & H1 & H). destruct (allocate_net _ _ HT D H1) as (N1 & K1).
    assert (D1 : dims_ok (hc_bim h1) (hc_dim h1) (hc_din h1)) by (destruct K1 as (-> & -> & -> & _); exact D).
    apply bind_ok_inv in H. destruct H as (h2 & H2 & H). destruct (init_net _ _ _ _ _ _ D1 N1 H2) as (N2 & K2).
    apply bind_ok_inv in H. destruct H as (h3 & H3 & H). destruct (updates_net _ _ _ _ N2 H3) as (N3 & K3 & C3).
    destruct (terminate_net _ _ N3 H) as (N4 & K4 & ES). assert (C4 : cur h) by (unfold cur; rewrite ES; apply C3; left; discriminate).
    destruct (hkept_trans _ _ _ (hkept_trans _ _ _ (hkept_trans _ _ _ K1 K2) K3) K4) as (Q1 & Q2 & Q3 & Q4 & Q5 & Q6 & Q7).
    destruct N4 as (S1 & S2 & S3 & S4 & S5 & S6).
    assert (S4' : hc_mode h = LeftRight -> p = []) by (intro M; rewrite (S4 M) in LP; destruct p; [reflexivity|discriminate]). rewrite <- LP in S3. rewrite <- LT in S5. rewrite <- LE in S6. split.
    - assert (PG : gmmP_ok cv (state_par h)).
      { destruct P as (P1 & P2 & P3 & P4 & P5 & P6). unfold gmmP_ok, state_par. cbn. rewrite Q5. auto. }
      assert (FS : Forall (state_of cv h) (h_states (hc_net h))).
      { unfold cur in C4. rewrite Forall_forall in C4, S2, FC. apply Forall_forall. intros g Hg. specialize (C4 g Hg). specialize (FC g Hg). pose proof (S2 g Hg) as ((Z1 & Z2 & Z3 & Z4) & A1 & A2 & A3 & A4 & A5 & A6).
        assert (TG : trained cv g).
        { unfold trained. rewrite A1, A2, A3, A5, A6, Q1, Q2, Q3. split; [exact PG|]. split; [exact D|]. repeat (split; [assumption|]). apply new_channel. }
        unfold state_of. split; [exact TG|]. unfold gc_n, gc_mode. rewrite A5. cbn. auto 10. }
      unfold trained_hmm. cbv zeta. split; [unfold h'; cbn; rewrite Q5; exact P|]. split; [unfold h'; cbn; rewrite Q1, Q2, Q3; exact D|]. unfold h', hc_n, hc_mode in *. cbn in *. auto 20.
    - intro LR. unfold ready_hmm. unfold h', hc_n, hc_mode in *. cbn in *. rewrite Q6, Q7. split; [|split; [exact OC|split; [rewrite LR in *; cbn; exact S5|auto]]].
      eapply Forall_impl; [|exact S2]. intros g ((Z1 & Z2 & Z3 & Z4) & A1 & A2 & A3 & A4 & A5 & A6). unfold ready_state. rewrite A6. split; [exact Z4|]. split; [apply new_channel|]. cbn. auto.
  Qed.
End HTraining.
