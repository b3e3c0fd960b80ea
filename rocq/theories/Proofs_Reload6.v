(** Hidden Markov models: two classes with the same parameters recognise alike. *)
From Coq Require Import String List Bool Arith ZArith Lia QArith.
From Verif Require Import Base BaseFacts Arith Model_Json Model_Ring Model_Phrase Model_Gaussian Model_Config Model_GMM Model_HMM Model_HHMM Model_Reload Spec_Gaussian Spec_Reload
  Proofs_Rel Proofs_Reload1 Proofs_Reload2 Proofs_Reload4.
Import ListNotations.
Local Open Scope nat_scope.
Local Open Scope list_scope.

Section HClass.
  Context {A : arith}.
  Local Notation T := (num A).

  (** Same parameters; the states are mixtures that recognise alike without a reset. *)
  Definition net_sim (n n' : hnet A) : Prop :=
    Forall2 gsim (h_states n) (h_states n') /\ h_prior n = h_prior n' /\ h_trans n = h_trans n' /\ h_exit n = h_exit n'.
  Definition stat (h k : hclass A) : Prop :=
    hc_bim h = hc_bim k /\ hc_dim h = hc_dim k /\ hc_din h = hc_din k /\ hc_win h = hc_win k /\
    hc_n h = hc_n k /\ hc_mode h = hc_mode k /\ hp_mode (hc_par h) = hp_mode (hc_par k) /\ hp_est (hc_par h) = hp_est (hc_par k).
  Definition hsim0 (h k : hclass A) : Prop := stat h k /\ net_sim (hc_net h) (hc_net k).
  Definition hsim (h k : hclass A) : Prop := hsim0 h k /\ hc_hier h = hc_hier k /\ ring_eqv (h_buf (hc_run h)) (h_buf (hc_run k)).

  (** Same forward variables. *)
  Definition warm_run (hier : bool) (r s : hrun A) : Prop :=
    if hier then h_a0 r = h_a0 s /\ h_a1 r = h_a1 s /\ h_a2 r = h_a2 s
    else h_started r = true /\ h_started s = true /\ h_alpha r = h_alpha s.
  Definition warm (h k : hclass A) : Prop := hsim h k /\ warm_run (hc_hier h) (hc_run h) (hc_run k).
  Definition L1 (h k : hclass A) : Prop := warm h k /\ h_inst (hc_run h) = h_inst (hc_run k).
  Definition L2 (h k : hclass A) : Prop := L1 h k /\ h_like (hc_run h) = h_like (hc_run k) /\ h_wmin (hc_run h) = h_wmin (hc_run k) /\
    h_wmax (hc_run h) = h_wmax (hc_run k) /\ h_wnorm (hc_run h) = h_wnorm (hc_run k).
  Definition L3 (h k : hclass A) : Prop := L2 h k /\ h_log (hc_run h) = h_log (hc_run k) /\ h_prog (hc_run h) = h_prog (hc_run k).
  Definition L4 (h k : hclass A) : Prop := L3 h k /\ h_out (hc_run h) = h_out (hc_run k) /\ h_ocov (hc_run h) = h_ocov (hc_run k).

  Lemma states_obs : forall x i (h k : hclass A), hc_bim h = hc_bim k -> Forall2 gsim (h_states (hc_net h)) (h_states (hc_net k)) -> hm_obs h x i = hm_obs k x i.
  Proof.
    intros x i h k B F. unfold hm_obs. rewrite B. apply rr_eq. eapply rr_bind; [apply forall2_rd; exact F|]. intros a b [S _]. apply rr_refl.
    rewrite (obs_all_sim _ _ _ S), (obs_input_all_sim _ _ _ S). reflexivity.
  Qed.
  Lemma obs_hsim : forall x i (h k : hclass A), hsim0 h k -> hm_obs h x i = hm_obs k x i.
  Proof. intros x i h k (S & F & _). apply states_obs; [apply S|exact F]. Qed.

  Lemma weight_sim : forall (h k : hclass A) i, warm h k -> hm_weight h i = hm_weight k i.
  Proof.
    intros h k i ((_ & E & _) & W). unfold hm_weight. rewrite <- E. destruct (hc_hier h); cbn in W.
    - destruct W as (-> & -> & _). reflexivity.
    - destruct W as (_ & _ & ->). reflexivity.
  Qed.

  Lemma window_sim : forall (h k : hclass A), L1 h k -> res_rel L2 (hm_window h) (hm_window k).
  Proof.
    intros h k (W & I). pose proof W as ((( S & NS) & E & RE) & WR). assert (EN : hc_n h = hc_n k) by apply S.
    unfold hm_window. rewrite (weight_sim h k 0 W), EN. apply rr_step. intros w0 _.
    rewrite (iterM_ext (hc_n k - 1) _ (fun j s => let* w := hm_weight k (j + 1) in Ok (if (snd s <? w)%num then (j + 1, w) else s))) by (intros; rewrite (weight_sim h k) by exact W; reflexivity).
    apply rr_step. intros [like m] _. rewrite (accM_ext _ (fun j => hm_weight h (like - hc_n k / 2 + j)) (fun j => hm_weight k (like - hc_n k / 2 + j))) by (intros; apply weight_sim; exact W).
    apply rr_step. intros norm _. constructor. unfold L2, L1, warm, hsim, hsim0, stat in *. cbn. unfold warm_run in *. cbn. tauto.
  Qed.

  Lemma results_sim : forall (h k : hclass A), L2 h k -> res_rel L3 (hm_results h) (hm_results k).
  Proof.
    intros h k ((W & I) & EL & E1 & E2 & E3). pose proof W as (((S & NS) & E & RE) & WR). assert (EN : hc_n h = hc_n k) by apply S.
    unfold hm_results. rewrite I, E1, E2, E3, EN, <- E. eapply rr_bind; [apply smooth_sim; exact RE|]. intros [b1 l1] [b2 l2] [RE' EQ]. cbn in RE', EQ. subst l2.
    rewrite (accM_ext _ _ (fun j => let* w := hm_weight k (h_wmin (hc_run k) + j) in
      let* w := if hc_hier h then let* c := rd (h_a2 (hc_run k)) (h_wmin (hc_run k) + j) in Ok (w + c)%num else Ok w in Ok (w * nN (h_wmin (hc_run k) + j) / h_wnorm (hc_run k))%num)).
    2:{ intros j _. rewrite (weight_sim h k) by exact W. unfold warm_run in WR. destruct (hc_hier h); [|reflexivity]. destruct WR as (_ & _ & ->). reflexivity. }
    apply rr_step. intros p _. constructor. unfold L3, L2, L1, warm, hsim, hsim0, stat in *. cbn. unfold warm_run in *. cbn. tauto.
  Qed.

  Lemma post_sim : forall (h k : hclass A), L1 h k -> res_rel L3 (hm_post h) (hm_post k).
  Proof. intros h k H. unfold hm_post. eapply rr_bind; [apply window_sim; exact H|]. intros a b H2. apply results_sim. exact H2. Qed.

  Lemma fire_sim : forall x g h, gsim g h ->
    res_rel (fun a b => gsim a b /\ gc_out a = gc_out b /\ gc_ocov a = gc_ocov b) (let* g := gm_likelihood x [] g in gm_regression x g) (let* g := gm_likelihood x [] h in gm_regression (A := A) x g).
  Proof.
    intros x g h S. eapply rr_bind; [apply likelihood_sim; exact S|]. intros a b (S1 & _ & _ & EB & _). eapply rr_impl; [apply regression_sim; assumption|]. cbn. tauto.
  Qed.

  Lemma regression_hsim : forall x (h k : hclass A), L3 h k -> res_rel L4 (hm_regression x h) (hm_regression x k).
  Proof.
    intros x h k H. pose proof H as (((W & I) & EL & E1 & E2 & E3) & EG & EP). pose proof W as (((S & NS) & E & RE) & WR). pose proof NS as (FS & P1 & P2 & P3).
    pose proof S as (S1 & S2 & S3 & S4 & EN & S6 & S7 & S8).
    unfold hm_regression. rewrite S2, S3, S7, S8, EL, E1, E2, E3, EN. apply rr_step. intros no _.
    set (z := repeat n0 match hp_mode (hc_par k) with Full => no * no | Diagonal => no end).
    assert (FIN : forall ss ss' o v, Forall2 gsim ss ss' -> res_rel L4
      (Ok (hc_set_run (rn_out o v (hc_run h)) (hc_set_net (nt_states ss (hc_net h)) h))) (Ok (hc_set_run (rn_out o v (hc_run k)) (hc_set_net (nt_states ss' (hc_net k)) k)))).
    { intros ss ss' o v F. constructor. unfold L4, L3, L2, L1, warm, hsim, hsim0, net_sim, stat in *. cbn. unfold warm_run in *. cbn. tauto. }
    assert (FOLD : forall lo hi (f : nat -> list (gclass A) * list T * list T -> res (list (gclass A) * list T * list T)) f',
      (forall j ss ss' o v, Forall2 gsim ss ss' -> res_rel (fun p q => Forall2 gsim (fst (fst p)) (fst (fst q)) /\ snd (fst p) = snd (fst q) /\ snd p = snd q) (f j (ss, o, v)) (f' j (ss', o, v))) ->
      res_rel L4 (let* (ss, o, v) := iterM (hi - lo) f (h_states (hc_net h), repeat n0 no, z) in Ok (hc_set_run (rn_out o v (hc_run h)) (hc_set_net (nt_states ss (hc_net h)) h)))
        (let* (ss, o, v) := iterM (hi - lo) f' (h_states (hc_net k), repeat n0 no, z) in Ok (hc_set_run (rn_out o v (hc_run k)) (hc_set_net (nt_states ss (hc_net k)) k)))).
    { intros lo hi f f' F. eapply rr_bind.
      - apply (rr_iter (hi - lo) (fun _ (p q : list (gclass A) * list T * list T) => Forall2 gsim (fst (fst p)) (fst (fst q)) /\ snd (fst p) = snd (fst q) /\ snd p = snd q)); [cbn; auto|].
        intros j [[ss o] v] [[ss' o'] v'] _ (Fs & Eo & Ev). cbn in Fs, Eo, Ev. subst o' v'. apply F. exact Fs.
      - intros [[ss o] v] [[ss' o'] v'] (Fs & Eo & Ev). cbn in Fs, Eo, Ev. subst o' v'. apply FIN. exact Fs. }
    assert (STEP : forall i nc ss ss' o v, Forall2 gsim ss ss' -> res_rel (fun p q => Forall2 gsim (fst (fst p)) (fst (fst q)) /\ snd (fst p) = snd (fst q) /\ snd p = snd q)
      (let* g := rd ss i in let* g := (let* g := gm_likelihood x [] g in gm_regression x g) in let* ss := wr ss i g in let* w := hm_weight h i in
        let* (o, v) := iterM no (fun d s => let '(o, v) := s in let* a := rd o d in let* y := rd (gc_out g) d in let* o := wr o d (a + w * y / nc)%num in
          let* v := match hp_mode (hc_par k) with
            | Full => iterM no (fun d2 v => let* a := rd v (d * no + d2) in let* c := rd (gc_ocov g) (d * no + d2) in wr v (d * no + d2) (a + w * w * c / nc)%num) v
            | Diagonal => let* a := rd v d in let* c := rd (gc_ocov g) d in wr v d (a + w * w * c / nc)%num end in Ok (o, v)) (o, v) in Ok (ss, o, v))
      (let* g := rd ss' i in let* g := (let* g := gm_likelihood x [] g in gm_regression x g) in let* ss := wr ss' i g in let* w := hm_weight k i in
        let* (o, v) := iterM no (fun d s => let '(o, v) := s in let* a := rd o d in let* y := rd (gc_out g) d in let* o := wr o d (a + w * y / nc)%num in
          let* v := match hp_mode (hc_par k) with
            | Full => iterM no (fun d2 v => let* a := rd v (d * no + d2) in let* c := rd (gc_ocov g) (d * no + d2) in wr v (d * no + d2) (a + w * w * c / nc)%num) v
            | Diagonal => let* a := rd v d in let* c := rd (gc_ocov g) d in wr v d (a + w * w * c / nc)%num end in Ok (o, v)) (o, v) in Ok (ss, o, v))).
    { intros i nc ss ss' o v F. eapply rr_bind; [apply forall2_rd; exact F|]. intros a b Sab. eapply rr_bind; [apply fire_sim; exact Sab|]. intros a' b' (S' & Eo & Ec).
      eapply rr_bind; [apply forall2_wr; eassumption|]. intros s1 s2 F2. rewrite (weight_sim h k) by exact W. rewrite Eo, Ec. apply rr_step. intros w _. apply rr_step. intros [o1 v1] _. constructor. cbn. auto. }
    destruct (hp_est (hc_par k)).
    - apply (FOLD 0 (hc_n k)). intros. apply STEP. assumption.
    - apply (FOLD (h_wmin (hc_run k)) (h_wmax (hc_run k))). intros. apply STEP. assumption.
    - eapply rr_bind; [apply forall2_rd; exact FS|]. intros a b Sab. eapply rr_bind; [apply fire_sim; exact Sab|]. intros a' b' (S' & Eo & Ec).
      eapply rr_bind; [apply forall2_wr; eassumption|]. intros s1 s2 F2. rewrite Eo. apply FIN. exact F2.
  Qed.

  (** ** One class on its own *)
  Definition cold (h k : hclass A) : Prop :=
    hsim h k /\ if hc_hier h then hc_mode h = LeftRight
      else h_started (hc_run h) = false /\ h_started (hc_run k) = false /\
        (hc_mode h = Ergodic -> length (h_alpha (hc_run h)) = hc_n h /\ length (h_alpha (hc_run k)) = hc_n h).
  Definition ready (w : bool) (h k : hclass A) : Prop := if w then warm h k else cold h k.

  Lemma forward_update_ext : forall N mode tr o o' (al : list T), (forall i, o i = o' i) -> forward_update N mode tr o al = forward_update N mode tr o' al.
  Proof.
    intros N mode tr o o' al H. unfold forward_update. erewrite iterM_ext; [reflexivity|]. intros i s _. cbn beta. rewrite H. reflexivity.
  Qed.
  Lemma forward_init_sim : forall N mode pr o o' (al al' : list T), (forall i, o i = o' i) -> (mode = Ergodic -> length al = N /\ length al' = N) ->
    forward_init N mode pr o al = forward_init N mode pr o' al'.
  Proof.
    intros N mode pr o o' al al' H L. unfold forward_init. destruct mode.
    - destruct (L eq_refl) as [L1' L2']. f_equal. apply rr_eq.
      eapply rr_impl; [apply (rr_iter N (fun i (s s' : list T * T) => agree i (fst s) (fst s') /\ length (fst s) = N /\ snd s = snd s'))|].
      + cbn. split; [apply agree_0; congruence|]. auto.
      + intros i [a n] [b n'] Hi (AG & LA & EN). cbn [fst snd] in *. subst n'. rewrite H. apply rr_step. intros p _. apply rr_step. intros q _.
        eapply rr_bind; [apply rr_know; apply agree_wr; exact AG|]. intros a' b' (AG' & Ha & _). constructor. cbn. split; [exact AG'|]. split; [|reflexivity]. rewrite (wr_length _ _ _ _ Ha). exact LA.
      + intros [a n] [b n'] (AG & LA & EN). cbn [fst snd] in *. f_equal; [|exact EN]. eapply agree_all; [exact AG|]. lia.
    - rewrite H. reflexivity.
  Qed.

  Lemma clear_eqv : forall r s : ring T, ring_eqv r s -> ring_eqv (ring_clear r) (ring_clear s).
  Proof.
    intros r s (a & b & D1 & D2 & L1' & L2' & EL & EI & _). exists a, b. cbn. repeat split; auto. right. split; auto. unfold ring_size_t. cbn. intros i Hi. lia.
  Qed.

  Lemma forward_hsim : forall w x (h k : hclass A), hc_hier h = false -> ready w h k -> res_rel L1 (hm_forward x h) (hm_forward x k).
  Proof.
    intros w x h k HF R.
    assert (HS : hsim h k) by (destruct w; apply R).
    pose proof HS as (((S1 & S2 & S3 & S4 & EN & S6 & S7 & S8) & FS & P1 & P2 & P3) & E & RE). unfold hm_forward. rewrite EN, S6, P1, P2.
    assert (FIN : forall al ct b1 b2, ring_eqv b1 b2 ->
      L1 (hc_set_run (rn_inst (n1 / ct)%num (rn_started true (rn_buf b1 (rn_alpha al (hc_run h))))) h) (hc_set_run (rn_inst (n1 / ct)%num (rn_started true (rn_buf b2 (rn_alpha al (hc_run k))))) k)).
    { intros al ct b1 b2 HB. unfold L1, warm, hsim, hsim0, stat, net_sim. cbn. unfold warm_run. rewrite HF. cbn. rewrite HF in E. unfold hc_n, hc_mode in *. cbn. tauto. }
    destruct w; cbn in R.
    - destruct R as (_ & WR). unfold warm_run in WR. rewrite HF in WR. destruct WR as (T1 & T2 & EA). rewrite T1, T2, EA.
      rewrite (forward_update_ext _ _ _ (hm_obs h x) (hm_obs k x)) by (intro i; apply states_obs; auto).
      apply rr_step. intros [al ct] _. constructor. apply FIN. exact RE.
    - destruct R as (_ & C). rewrite HF in C. destruct C as (T1 & T2 & LA). rewrite T1, T2.
      rewrite (forward_init_sim _ _ _ (hm_obs h x) (hm_obs k x) _ (h_alpha (hc_run k))).
      + apply rr_step. intros [al ct] _. constructor. apply FIN. apply clear_eqv. exact RE.
      + intro i. apply states_obs; auto.
      + intro M. rewrite <- S6 in M. rewrite <- EN. apply LA. exact M.
  Qed.

  Lemma hfilter_sim : forall w x (h k : hclass A), hc_hier h = false -> ready w h k -> res_rel L3 (hm_filter x h) (hm_filter x k).
  Proof.
    intros w x h k HF R. unfold hm_filter. eapply rr_bind; [eapply forward_hsim; eassumption|]. intros a b H1. eapply rr_bind; [apply window_sim; exact H1|]. intros a' b' H2.
    eapply rr_bind; [apply results_sim; exact H2|]. intros p q H3. assert (EB : hc_bim p = hc_bim q) by apply H3. rewrite EB. destruct (hc_bim q); [|constructor; exact H3].
    eapply rr_impl; [apply regression_hsim; exact H3|]. intros r s H4. apply H4.
  Qed.

  (** Flags that the steps keep. *)
  Definition kept (h a : hclass A) : Prop := hc_hier a = hc_hier h /\ hc_bim a = hc_bim h.
  Lemma window_kept : forall (h a : hclass A), hm_window h = Ok a -> kept h a.
  Proof.
    intros h a H. unfold hm_window in H. apply bind_ok_inv in H. destruct H as (w & _ & H). apply bind_ok_inv in H. destruct H as ([l q] & _ & H).
    apply bind_ok_inv in H. destruct H as (n & _ & H). injection H as <-. split; reflexivity.
  Qed.
  Lemma results_kept : forall (h a : hclass A), hm_results h = Ok a -> kept h a.
  Proof.
    intros h a H. unfold hm_results in H. apply bind_ok_inv in H. destruct H as ([b l] & _ & H). apply bind_ok_inv in H. destruct H as (p & _ & H). injection H as <-. split; reflexivity.
  Qed.
  Lemma hregression_kept : forall x (h a : hclass A), hm_regression x h = Ok a -> kept h a.
  Proof.
    intros x h a H. unfold hm_regression in H. apply bind_ok_inv in H. destruct H as (no & _ & H).
    destruct (hp_est (hc_par h)).
    1,2: apply bind_ok_inv in H; destruct H as ([[ss o] v] & _ & H); injection H as <-; split; reflexivity.
    apply bind_ok_inv in H. destruct H as (g & _ & H). apply bind_ok_inv in H. destruct H as (g' & _ & H). apply bind_ok_inv in H. destruct H as (ss & _ & H). injection H as <-. split; reflexivity.
  Qed.
  Lemma kept_trans : forall a b c : hclass A, kept a b -> kept b c -> kept a c.
  Proof. intros a b c [H1 H2] [H3 H4]. split; congruence. Qed.
  Lemma forward_kept : forall x (h a : hclass A), hm_forward x h = Ok a -> kept h a.
  Proof. intros x h a H. unfold hm_forward in H. apply bind_ok_inv in H. destruct H as ([al ct] & _ & H). injection H as <-. split; reflexivity. Qed.
  Lemma post_kept : forall (h a : hclass A), hm_post h = Ok a -> kept h a.
  Proof. intros h a H. unfold hm_post in H. apply bind_ok_inv in H. destruct H as (b & H1 & H). eapply kept_trans; [apply window_kept; exact H1|apply results_kept; exact H]. Qed.
  Lemma hfilter_kept : forall x (h a : hclass A), hm_filter x h = Ok a -> kept h a.
  Proof.
    intros x h a H. unfold hm_filter in H. apply bind_ok_inv in H. destruct H as (b & H1 & H). apply bind_ok_inv in H. destruct H as (c & H2 & H). apply bind_ok_inv in H. destruct H as (d & H3 & H).
    assert (K : kept h d) by (eapply kept_trans; [eapply forward_kept; exact H1|eapply kept_trans; [apply window_kept; exact H2|apply results_kept; exact H3]]).
    destruct (hc_bim d); [|injection H as <-; exact K]. eapply kept_trans; [exact K|]. eapply hregression_kept. exact H.
  Qed.

  (** ** One class within a hierarchical model *)
  Lemma init_class_sim : forall pr x i norm (h k : hclass A), hc_hier h = true -> cold h k ->
    res_rel (fun p q => L1 (fst p) (fst q) /\ kept h (fst p) /\ snd p = snd q) (init_class pr x i h norm) (init_class pr x i k norm).
  Proof.
    intros pr x i norm h k HT (HS & C). rewrite HT in C. pose proof HS as (((S1 & S2 & S3 & S4 & EN & S6 & S7 & S8) & FS & P1 & P2 & P3) & E & RE).
    unfold init_class. rewrite <- S6, C, EN, (states_obs x 0 h k) by auto. apply rr_step. intros [a0 inst] _. constructor.
    cbn [fst snd]. split; [|split; [split; reflexivity|reflexivity]]. unfold L1, warm, hsim, hsim0, stat, net_sim. cbn. unfold warm_run. rewrite HT. cbn. rewrite HT in E. unfold hc_n, hc_mode in *. cbn. tauto.
  Qed.

  Definition top_sim (m n : hhmm A) : Prop := hh_prior m = hh_prior n /\ hh_trans m = hh_trans n /\ hh_exit m = hh_exit n /\ hh_size m = hh_size n.

  Lemma tabM_ext : forall {X} n (f g : nat -> res X), (forall i, i < n -> f i = g i) -> tabM n f = tabM n g.
  Proof. induction n; intros f g H; cbn; auto. rewrite (IHn f g) by auto. rewrite (H n) by lia. reflexivity. Qed.

  Lemma frontier_sim : forall m n v1 v2 i (h k : hclass A) j, hc_hier h = true -> warm h k -> top_sim m n -> frontier m v1 v2 i h j = frontier n v1 v2 i k j.
  Proof.
    intros m n v1 v2 i h k j HT (HS & WR) (T1 & T2 & T3 & T4). pose proof HS as (((S1 & S2 & S3 & S4 & EN & S6 & S7 & S8) & FS & P1 & P2 & P3) & E & RE).
    unfold warm_run in WR. rewrite HT in WR. destruct WR as (W0 & W1 & W2). unfold frontier. rewrite S6, EN, P1, P2, P3, W0, T1, T2, T4. reflexivity.
  Qed.

  Lemma update_class_sim : forall m n v1 v2 x i norm (h k : hclass A), hc_hier h = true -> warm h k -> top_sim m n ->
    res_rel (fun p q => L1 (fst p) (fst q) /\ kept h (fst p) /\ snd p = snd q) (update_class m v1 v2 x i h norm) (update_class n v1 v2 x i k norm).
  Proof.
    intros m n v1 v2 x i norm h k HT W TS. pose proof W as (HS & WR). pose proof TS as (T1 & T2 & T3 & T4). pose proof HS as (((S1 & S2 & S3 & S4 & EN & S6 & S7 & S8) & FS & P1 & P2 & P3) & E & RE).
    unfold warm_run in WR. rewrite HT in WR. destruct WR as (W0 & W1 & W2). unfold update_class. rewrite EN.
    rewrite (tabM_ext _ (frontier m v1 v2 i h) (frontier n v1 v2 i k)) by (intros; apply frontier_sim; auto). apply rr_step. intros front _. rewrite W0, W1, W2, T3, P3.
    match goal with |- res_rel _ (bind (iterM ?N ?f ?s) _) (bind (iterM ?N ?f' ?s) _) => assert (EQ : iterM N f s = iterM N f' s) end.
    { apply iterM_ext. intros j [[[[[a0 a1] a2] ex] inst] nm] _. rewrite (states_obs x j h k) by auto. reflexivity. }
    rewrite EQ. apply rr_step. intros [[[[[a0 a1] a2] ex] inst] nm] _. constructor. cbn [fst snd]. split; [|split; [split; reflexivity|reflexivity]].
    unfold L1, warm, hsim, hsim0, stat, net_sim. cbn. unfold warm_run. rewrite HT. cbn. rewrite HT in E. unfold hc_n, hc_mode in *. cbn. tauto.
  Qed.

  Lemma sweep_sim : forall (R Q : hclass A -> hclass A -> Prop) f f' ms ms' i norm, Forall2 (entry R) ms ms' ->
    (forall i h k norm, R h k -> res_rel (fun p q => Q (fst p) (fst q) /\ snd p = snd q) (f i h norm) (f' i k norm)) ->
    res_rel (fun p q => Forall2 (entry Q) (fst p) (fst q) /\ snd p = snd q) (sweep f i ms norm) (sweep f' i ms' norm).
  Proof.
    intros R Q f f' ms ms' i norm H F. revert i norm. induction H as [|[l h] [l' k] ms ms' [EL R0] H IH]; intros i norm; cbn [sweep].
    - constructor. cbn. auto.
    - cbn [fst snd] in *. subst l'. eapply rr_bind; [apply F; exact R0|]. intros [h' n1'] [k' n2'] [Q0 EN]. cbn [fst snd] in *. subst n2'.
      eapply rr_bind; [apply IH|]. intros [m1 n2] [m2 n3] [F2 EN]. cbn [fst snd] in *. subst n3. constructor. cbn [fst snd]. split; [|reflexivity]. constructor; [split; auto|exact F2].
  Qed.

  Lemma scale_sim : forall hier norm ms ms', Forall2 (entry (fun h k => L1 h k /\ hc_hier h = true /\ hc_bim h = hier)) ms ms' ->
    res_rel (Forall2 (entry (fun h k => L1 h k /\ hc_hier h = true /\ hc_bim h = hier))) (scale_all norm ms) (scale_all norm ms').
  Proof.
    intros hier norm ms ms' F. unfold scale_all. eapply rr_map; [exact F|]. intros [l h] [l' k] [EL [[(HS & WR) I] [HT HB]]]. cbn [fst snd] in *. subst l'.
    unfold warm_run in WR. rewrite HT in WR. destruct WR as (W0 & W1 & W2). pose proof HS as (((S1 & S2 & S3 & S4 & EN & S6 & S7 & S8) & FS & P1 & P2 & P3) & E & RE).
    rewrite EN, W0, W1, W2. apply rr_step. intros a0 _. apply rr_step. intros a1 _. apply rr_step. intros a2 _. constructor. split; [reflexivity|].
    cbn [snd]. split; [|split; [exact HT|exact HB]]. unfold L1, warm, hsim, hsim0, stat, net_sim. cbn. unfold warm_run. rewrite HT. cbn. rewrite HT in E. unfold hc_n, hc_mode in *. cbn. tauto.
  Qed.
End HClass.
