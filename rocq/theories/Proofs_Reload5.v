(** Training leaves every component with its inverses up to date. *)
From Coq Require Import String List Bool Arith ZArith Lia.
From Verif Require Import Base BaseFacts Arith Model_Json Model_Ring Model_Gaussian Model_Config Model_KMeans Model_GMM Model_HMM Model_Reload
  Spec_Gaussian Spec_Config Spec_Reload Proofs_Rel Proofs_Reload1 Proofs_Reload2 Proofs_Reload3.
Import ListNotations.
Local Open Scope nat_scope.
Local Open Scope list_scope.

Section Training.
  Context {A : arith}.
  Local Notation T := (num A).

  Lemma iter_len : forall {X} n (f : nat -> list X -> res (list X)) d d', (forall i a b, f i a = Ok b -> length b = length a) -> iterM n f d = Ok d' -> length d' = length d.
  Proof. intros X n f d d' F H. refine (iterM_inv_ok (fun _ v => length v = length d) n f d d' eq_refl _ H). intros i a b _ L G. rewrite (F i a b G). exact L. Qed.

  Lemma tab_all : forall {X} (P : X -> Prop) n f v, (forall i x, f i = Ok x -> P x) -> tabM n f = Ok v -> Forall P v.
  Proof.
    intros X P n f. induction n as [|n IH]; intros v F H; cbn in H; [injection H as <-; constructor|].
    apply bind_ok_inv in H. destruct H as (w & H1 & H). apply bind_ok_inv in H. destruct H as (x & H2 & H). injection H as <-.
    apply Forall_app. split; [apply IH; auto|]. constructor; [eapply F; exact H2|constructor].
  Qed.
  Lemma map_all : forall {X Y} (P : X -> Prop) (Q : Y -> Prop) (f : X -> res Y) l v, Forall P l -> (forall x y, P x -> f x = Ok y -> Q y) -> mapM f l = Ok v -> Forall Q v.
  Proof.
    intros X Y P Q f l v H F. revert v. induction H as [|x l Hx _ IH]; intros v E; cbn in E; [injection E as <-; constructor|].
    apply bind_ok_inv in E. destruct E as (y & E1 & E). apply bind_ok_inv in E. destruct E as (ys & E2 & E). injection E as <-. constructor; eauto.
  Qed.
  Lemma rd_all : forall {X} (P : X -> Prop) l i x, Forall P l -> rd l i = Ok x -> P x.
  Proof. intros X P l i x F H. unfold rd in H. destruct (nth_error l i) eqn:E; [|discriminate]. injection H as <-. rewrite Forall_forall in F. apply F. eapply nth_error_In. exact E. Qed.

  (** A component of the class with the right sizes. *)
  Definition shaped (g : gclass A) (k : gauss A) : Prop :=
    wf_gauss k /\ g_bim k = gc_bim g /\ g_dim k = gc_dim g /\ g_din k = gc_din g /\ g_mode k = gc_mode g /\ (g_bim k = false -> g_inv_in k = []).

  Lemma shaped_cov : forall g k c, shaped g k -> length c = length (g_cov k) -> shaped g (g_set_cov c k).
  Proof. intros g k c ((W1 & W2 & W3 & W4) & S) L. unfold shaped, wf_gauss. cbn. rewrite L. tauto. Qed.
  Lemma shaped_mean : forall g k c, shaped g k -> length c = length (g_mean k) -> shaped g (g_set_mean c k).
  Proof. intros g k c ((W1 & W2 & W3 & W4) & S) L. unfold shaped, wf_gauss. cbn. rewrite L. tauto. Qed.
  Lemma shaped_csize : forall g k, shaped g k -> length (g_cov k) = csize (gc_mode g) (gc_dim g).
  Proof. intros g k ((W1 & W2 & W3 & W4) & _ & D & _ & M & _). rewrite W2, D, M. reflexivity. Qed.

  Lemma shaped_regularize : forall g k r k', shaped g k -> runm (g_regularize r) k = Ok k' -> shaped g k'.
  Proof.
    intros g k r k' S H. unfold g_regularize in H. rewrite run_get, run_lift in H. apply bind_ok_inv in H. destruct H as (c & H1 & H). rewrite run_mod in H. injection H as <-.
    apply shaped_cov; auto. eapply iter_len; [|exact H1]. intros i a b G. apply bind_ok_inv in G. destruct G as (x & _ & G). apply bind_ok_inv in G. destruct G as (y & _ & G).
    rewrite (wr_length _ _ _ _ G). reflexivity.
  Qed.

  Lemma shaped_current : forall g k k', shaped g k -> runm g_update_inv k = Ok k' -> current_comp g k'.
  Proof.
    intros g k k' (W & B & D & DI & M & IV) H. destruct (inv_twice k k' W H) as (T2 & W2 & F). pose proof F as (F1 & F2 & F3 & F4 & F5 & F6 & F7 & F8 & F9).
    unfold current_comp. rewrite F1, F2, F4, F6. refine (conj W2 (conj B (conj D (conj DI (conj M (conj _ T2)))))). intro BF.
    pose proof (inv_sim k k W W ltac:(unfold same_params; auto 10)) as RR. rewrite H in RR. inversion RR as [a b (_ & _ & _ & _ & _ & Q & _) E1 E2| |]; subst.
    destruct (Q BF) as (Q1 & _). rewrite Q1. apply IV. exact BF.
  Qed.
  Lemma current_shaped : forall g k, current_comp g k -> shaped g k.
  Proof. intros g k H. unfold current_comp in H. unfold shaped. tauto. Qed.

  (** The class, apart from its parameters, has the right sizes. *)
  Definition sized (g : gclass A) : Prop :=
    length (gc_comp g) = gc_n g /\ Forall (shaped g) (gc_comp g) /\ length (gc_coef g) = gc_n g /\ length (gc_beta g) = gc_n g.
  (** The members that training does not change. *)
  Definition kept (g h : gclass A) : Prop :=
    gc_bim h = gc_bim g /\ gc_dim h = gc_dim g /\ gc_din h = gc_din g /\ gc_win h = gc_win g /\ gc_par h = gc_par g /\ gc_beta h = gc_beta g /\ gc_buf h = gc_buf g.
  Lemma kept_trans : forall a b c, kept a b -> kept b c -> kept a c.
  Proof. unfold kept. intuition congruence. Qed.
  Lemma kept_shaped : forall g h k, kept g h -> shaped g k -> shaped h k.
  Proof. intros g h k (K1 & K2 & K3 & K4 & K5 & _) S. unfold shaped, gc_mode in *. rewrite K1, K2, K3, K5. exact S. Qed.

  (** Replacing the components. *)
  Lemma set_comp_sized : forall g cs, sized g -> length cs = gc_n g -> Forall (shaped g) cs -> sized (gc_set_comp cs g) /\ kept g (gc_set_comp cs g).
  Proof. intros g cs (S1 & S2 & S3 & S4) L F. unfold sized, kept, gc_n, shaped, gc_mode in *. cbn. auto 20. Qed.

  Lemma tabM_len : forall {X} n (f : nat -> res X) v, tabM n f = Ok v -> length v = n.
  Proof. intros X n f v H. apply tabM_length in H. exact H. Qed.

  Lemma offset_sized : forall g h, sized g -> gm_offset g = Ok h -> sized h /\ kept g h.
  Proof.
    intros g h S H. unfold gm_offset in H. apply bind_ok_inv in H. destruct H as (cs & H1 & H). injection H as <-. apply set_comp_sized; auto.
    - rewrite (mapM_length _ _ _ H1). apply S.
    - eapply map_all; [apply S| |exact H1]. intros x y. apply shaped_regularize.
  Qed.
  Lemma inverses_current : forall g h, sized g -> gm_inverses g = Ok h -> sized h /\ kept g h /\ gc_coef h = gc_coef g /\ Forall (current_comp h) (gc_comp h).
  Proof.
    intros g h S H. unfold gm_inverses in H. apply bind_ok_inv in H. destruct H as (cs & H1 & H). injection H as <-.
    destruct (mapM (runm g_update_inv) (gc_comp g)) as [cs'| |] eqn:E; try discriminate. injection H1 as ->.
    assert (F : Forall (current_comp g) cs) by (eapply map_all; [apply S| |exact E]; intros x y; apply shaped_current).
    assert (SK : sized (gc_set_comp cs g) /\ kept g (gc_set_comp cs g)).
    { apply set_comp_sized; auto; [rewrite (mapM_length _ _ _ E); apply S|]. eapply Forall_impl; [|exact F]. intros k. apply current_shaped. }
    split; [apply SK|]. split; [apply SK|]. split; [reflexivity|]. exact F.
  Qed.

  Lemma default_sized : forall dev g h, sized g -> gm_default dev g = Ok h -> sized h /\ kept g h.
  Proof.
    intros dev g h S H. unfold gm_default in H. apply bind_ok_inv in H. destruct H as (cs & H1 & H). injection H as <-.
    assert (SK : sized (gc_set_comp cs g) /\ kept g (gc_set_comp cs g)).
    { apply set_comp_sized; auto; [apply tabM_len in H1; exact H1|]. eapply tab_all; [|exact H1]. intros c x G. apply bind_ok_inv in G. destruct G as (k & G1 & G).
      assert (SH : shaped g k) by (eapply rd_all; [apply S|exact G1]). eapply shaped_regularize; [|exact G]. apply shaped_cov; auto.
      rewrite (shaped_csize g k SH). destruct (gc_mode g); cbn; apply repeat_length. }
    destruct SK as ((S1 & S2 & S3 & S4) & K). unfold sized, kept, gc_n, gc_mode, shaped in *. cbn in *. rewrite repeat_length. auto 20.
  Qed.

  Lemma means_sized : forall data g h, sized g -> gm_init_means data g = Ok h -> sized h /\ kept g h.
  Proof.
    intros data g h S H. unfold gm_init_means in H. destruct data as [|p data]; [injection H as <-; split; [exact S|unfold kept; auto 20]|].
    apply bind_ok_inv in H. destruct H as (km & _ & H). apply bind_ok_inv in H. destruct H as (cs & H1 & H). injection H as <-.
    apply set_comp_sized; auto; [apply tabM_len in H1; exact H1|]. eapply tab_all; [|exact H1]. intros c x G. apply bind_ok_inv in G. destruct G as (k & G1 & G).
    apply bind_ok_inv in G. destruct G as (m & G2 & G). injection G as <-. apply shaped_mean; [eapply rd_all; [apply S|exact G1]|].
    eapply iter_len; [|exact G2]. intros i a b Q. apply bind_ok_inv in Q. destruct Q as (v & _ & Q). rewrite (wr_length _ _ _ _ Q). reflexivity.
  Qed.

  Lemma cov_sized : forall data g h, sized g -> gm_init_cov data g = Ok h -> sized h /\ kept g h.
  Proof.
    intros data g h S H. unfold gm_init_cov in H. destruct data as [|p data]; [injection H as <-; split; [exact S|unfold kept; auto 20]|].
    apply bind_ok_inv in H. destruct H as (cs & H1 & H). injection H as <-.
    apply set_comp_sized; auto; [apply tabM_len in H1; exact H1|]. eapply tab_all; [|exact H1]. intros c x G. apply bind_ok_inv in G. destruct G as (k & G1 & G).
    apply bind_ok_inv in G. destruct G as (m & G2 & G). injection G as <-. assert (SH : shaped g k) by (eapply rd_all; [apply S|exact G1]). apply shaped_cov; auto.
    rewrite (shaped_csize g k SH). destruct (gc_mode g); cbn; apply tabM_len in G2; exact G2.
  Qed.

  Lemma init_current : forall data dev g h, sized g -> gm_init data dev g = Ok h -> sized h /\ kept g h /\ Forall (current_comp h) (gc_comp h).
  Proof.
    intros data dev g h S H. unfold gm_init in H.
    apply bind_ok_inv in H. destruct H as (g1 & H1 & H). destruct (default_sized _ _ _ S H1) as (S1 & K1).
    apply bind_ok_inv in H. destruct H as (g2 & H2 & H). destruct (means_sized _ _ _ S1 H2) as (S2 & K2).
    apply bind_ok_inv in H. destruct H as (g3 & H3 & H). destruct (cov_sized _ _ _ S2 H3) as (S3 & K3).
    apply bind_ok_inv in H. destruct H as (g4 & H4 & H). destruct (offset_sized _ _ S3 H4) as (S4 & K4).
    destruct (inverses_current _ _ S4 H) as (S5 & K5 & _ & C). split; [exact S5|]. split; [|exact C]. eauto using kept_trans.
  Qed.

  Lemma update_current : forall frames g h l, sized g -> gm_update frames g = Ok (h, l) -> sized h /\ kept g h /\ Forall (current_comp h) (gc_comp h).
  Proof.
    intros frames g h l S H. unfold gm_update in H. apply bind_ok_inv in H. destruct H as ([[ps E] lp] & _ & H).
    apply bind_ok_inv in H. destruct H as (cs1 & H1 & H). apply bind_ok_inv in H. destruct H as (cs2 & H2 & H).
    assert (F1 : Forall (shaped g) cs1).
    { eapply tab_all; [|exact H1]. intros c x G. apply bind_ok_inv in G. destruct G as (k & G1 & G). unfold gm_mean in G. apply bind_ok_inv in G. destruct G as (e & _ & G).
      apply bind_ok_inv in G. destruct G as (m & G2 & G). injection G as <-. apply shaped_mean; [eapply rd_all; [apply S|exact G1]|].
      eapply iter_len; [|exact G2]. intros i a b Q. apply bind_ok_inv in Q. destruct Q as (v & _ & Q). rewrite (wr_length _ _ _ _ Q). reflexivity. }
    assert (F2 : Forall (shaped g) cs2).
    { eapply tab_all; [|exact H2]. intros c x G. apply bind_ok_inv in G. destruct G as (k & G1 & G). unfold gm_cov in G. apply bind_ok_inv in G. destruct G as (e & _ & G).
      apply bind_ok_inv in G. destruct G as (m & G2 & G). injection G as <-. apply shaped_cov; [eapply rd_all; [exact F1|exact G1]|]. destruct (gc_mode g).
      - eapply iter_len; [|exact G2]. intros i a b Q. cbn beta in Q. eapply iter_len; [|exact Q]. intros i' a' b' Q'. cbn beta in Q'.
        apply bind_ok_inv in Q'. destruct Q' as (v & _ & Q'). apply bind_ok_inv in Q'. destruct Q' as (w & Q1 & Q'). apply wr_length in Q1.
        destruct (i' =? 0); [injection Q' as <-; exact Q1|]. apply wr_length in Q'. congruence.
      - eapply iter_len; [|exact G2]. intros i a b Q. apply bind_ok_inv in Q. destruct Q as (v & _ & Q). rewrite (wr_length _ _ _ _ Q). reflexivity. }
    apply bind_ok_inv in H. destruct H as (g3 & H3 & H). apply bind_ok_inv in H. destruct H as (g4 & H4 & H). injection H as <- <-.
    set (coef := tab (gc_n g) _) in H3.
    assert (SK : sized (gc_set_comp cs2 (gc_set_coef coef g)) /\ kept g (gc_set_comp cs2 (gc_set_coef coef g))).
    { destruct (set_comp_sized g cs2 S (tabM_len _ _ _ H2) F2) as ((S1 & S2 & S3 & S4) & K). unfold sized, kept, gc_n, gc_mode, shaped, coef in *. cbn in *.
      rewrite tab_length. auto 20. }
    destruct SK as (SK1 & SK2). destruct (offset_sized _ _ SK1 H3) as (S4 & K4). destruct (inverses_current _ _ S4 H4) as (S5 & K5 & _ & C).
    split; [exact S5|]. split; [|exact C]. eauto using kept_trans.
  Qed.

  Lemma updates_current : forall k frames g h, sized g -> Forall (current_comp g) (gc_comp g) -> gm_updates k frames g = Ok h ->
    sized h /\ kept g h /\ Forall (current_comp h) (gc_comp h).
  Proof.
    induction k as [|k IH]; intros frames g h S C H; cbn in H; [injection H as <-; split; [exact S|split; [unfold kept; auto 20|exact C]]|].
    apply bind_ok_inv in H. destruct H as ([g1 lp] & H1 & H). destruct (update_current _ _ _ _ S H1) as (S1 & K1 & C1).
    destruct (IH _ _ _ S1 C1 H) as (S2 & K2 & C2). split; [exact S2|]. split; [eauto using kept_trans|exact C2].
  Qed.

  Lemma allocate_sized : forall g h, dims_ok (gc_bim g) (gc_dim g) (gc_din g) -> gm_allocate g = Ok h -> sized h /\
    gc_bim h = gc_bim g /\ gc_dim h = gc_dim g /\ gc_din h = gc_din g /\ gc_win h = gc_win g /\ gc_par h = gc_par g /\ gc_buf h = gc_buf g.
  Proof.
    intros g h D H. unfold gm_allocate in H. apply bind_ok_inv in H. destruct H as (c & H1 & H). injection H as <-. unfold sized, gc_n, gc_mode, shaped. cbn -[vresize].
    rewrite repeat_length, !vresize_length. repeat split; auto. apply Forall_forall. intros k Hk. apply repeat_spec in Hk. subst k.
    unfold g_new in H1. destruct (gc_bim g) eqn:B.
    - destruct (gc_dim g <? 2); [discriminate|]. destruct (gc_dim g - 1 <? gc_din g) eqn:L; [discriminate|]. injection H1 as <-. apply Nat.ltb_ge in L.
      unfold g_allocate. cbn -[vresize]. unfold wf_gauss, csize. cbn -[vresize]. rewrite !vresize_length. unfold gc_mode. repeat split; auto; try discriminate. lia.
    - destruct (gc_dim g <? 1); [discriminate|]. destruct (0 <? gc_din g) eqn:L; [discriminate|]. injection H1 as <-.
      unfold g_allocate. cbn -[vresize]. unfold wf_gauss, csize. cbn -[vresize]. rewrite !vresize_length. unfold gc_mode. repeat split; auto; try discriminate.
  Qed.

  (** A class that has been allocated, initialised and updated any number of times. *)
  Lemma training_trains : forall (cv : conv A) g0 g1 g2 g3 data dev k frames,
    gmmP_ok cv (gc_par g0) -> dims_ok (gc_bim g0) (gc_dim g0) (gc_din g0) -> one_channel (gc_buf g0) ->
    gm_allocate g0 = Ok g1 -> gm_init data dev g1 = Ok g2 -> gm_updates k frames g2 = Ok g3 -> Forall (is_float cv) (gc_coef g3) -> trained cv g3.
  Proof.
    intros cv g0 g1 g2 g3 data dev k frames P D O H1 H2 H3 F.
    destruct (allocate_sized _ _ D H1) as (S1 & A1 & A2 & A3 & A4 & A5 & A6). destruct (init_current _ _ _ _ S1 H2) as (S2 & K2 & C2).
    destruct (updates_current _ _ _ _ S2 C2 H3) as (S3 & K3 & C3). pose proof (kept_trans _ _ _ K2 K3) as (Q1 & Q2 & Q3 & Q4 & Q5 & Q6 & Q7).
    destruct S3 as (L1 & L2 & L3 & L4). unfold trained. rewrite Q1, Q2, Q3, Q5, Q7, A1, A2, A3, A5, A6. auto 20.
  Qed.
End Training.
