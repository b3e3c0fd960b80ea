(** Adding and removing classes, with and without the hierarchy. *)
From Coq Require Import String List Bool Arith ZArith QArith Reals Lra Lia.
From Verif Require Import Base Arith BaseFacts RFacts Proofs_KMeans Model_Map Model_Ring Model_Phrase Model_Gaussian Model_Config Model_GMM Model_HMM Model_HHMM Proofs_Map Proofs_Gaussian
  Spec_Common Spec_GMM Spec_HMM Spec_HHMM Spec_HHMM2 Spec_HHMM3 Proofs_HMM5 Proofs_HHMM2 Proofs_HHMM8 Proofs_HHMM9 Proofs_HHMM10.
Import ListNotations.
Local Open Scope nat_scope.
Local Open Scope list_scope.

Section Classes.
  Context {A : arith}.

  Lemma exit_default_ok : forall (h : hclass A), hc_hier h = true -> 1 <= hc_n h -> exists h', hm_exit_default h = Ok h' /\ hc_hier h' = true /\ hc_n h' = hc_n h.
  Proof.
    intros h Hh HN. unfold hm_exit_default, exit_default. rewrite Hh. cbn [negb]. rewrite wr_ok by (rewrite vresize_length; lia). eexists. split; [reflexivity|]. split; [exact Hh|reflexivity].
  Qed.
  Lemma exits_fine : forall ms : list (string * hclass A), Forall steady ms -> exists ms', exits_default ms = Ok (ms', None) /\ map fst ms' = map fst ms /\ Forall steady ms'.
  Proof.
    induction ms as [|[l h] ms IH]; intros F; cbn [exits_default]; [exists []; auto|]. inversion F as [|? ? (F1 & F2) F3]; subst. destruct (exit_default_ok h F1 F2) as (h' & -> & H1 & H2). destruct (IH F3) as (ms' & -> & EL & F').
    eexists. split; [reflexivity|]. cbn [map fst]. rewrite EL. split; [reflexivity|]. constructor; [|exact F']. split; cbn [snd] in *; [exact H1|]. rewrite H2. exact F2.
  Qed.
  Lemma exits_throw : forall ms : list (string * hclass A), Forall (fun e : string * hclass A => hc_hier (snd e) = true -> 1 <= hc_n (snd e)) ms -> Exists (fun e : string * hclass A => hc_hier (snd e) = false) ms ->
    exists ms', exits_default ms = Ok (ms', Some RuntimeError) /\ map fst ms' = map fst ms.
  Proof.
    induction ms as [|[l h] ms IH]; intros F X; [inversion X|]. inversion F as [|? ? F1 F2]; subst. cbn [exits_default]. destruct (hc_hier h) eqn:Hh.
    - destruct (exit_default_ok h Hh (F1 Hh)) as (h' & -> & _). destruct IH as (ms' & -> & EL); [exact F2|inversion X as [? ? C|? ? X1]; subst; [cbn in C; congruence|exact X1]|]. eexists. split; [reflexivity|]. cbn [map fst]. rewrite EL. reflexivity.
    - unfold hm_exit_default. rewrite Hh. cbn [negb]. eexists. split; reflexivity.
  Qed.

  (** ** Hierarchical: no exception *)
  Lemma mapM_reset : forall (b : bool) (ms : list (string * hclass A)), Forall (fun e : string * hclass A => hc_hier (if b then hc_set_hier true (snd e) else snd e) = true /\ 1 <= hc_n (snd e)) ms ->
    exists ms', mapM (fun e : string * hclass A => let* h := hm_reset (if b then hc_set_hier true (snd e) else snd e) in Ok (fst e, h)) ms = Ok ms' /\ map fst ms' = map fst ms /\ Forall steady ms'.
  Proof.
    intros b. induction ms as [|[l h] ms IH]; intros F; cbn [mapM]; [exists []; auto|]. inversion F as [|? ? (F1 & F2) F3]; subst. destruct (IH F3) as (ms' & E & EL & F'). cbn [snd fst] in *.
    unfold hm_reset at 1. rewrite F1. cbn [bind]. rewrite E. cbn [bind]. eexists. split; [reflexivity|]. cbn [map fst]. rewrite EL. split; [reflexivity|]. constructor; [|exact F']. split; cbn [snd hc_set_run hc_hier]; [exact F1|]. destruct b; exact F2.
  Qed.
  Lemma reset_settled : forall m : hhmm A, settled m -> exists m', hh_reset m = Ok m' /\ settled m' /\ map fst (hh_cls m') = map fst (hh_cls m) /\ hh_prior m' = hh_prior m.
  Proof.
    intros m (H1 & H2 & H3 & H4). unfold hh_reset, reset_all. destruct (mapM_reset false (hh_cls m)) as (ms & E & EL & F); [exact H2|]. cbv iota in E. rewrite E. cbn [bind].
    destruct (mapM_reset true ms) as (ms2 & E2 & EL2 & F2); [eapply Forall_impl; [|exact F]; intros e (_ & Q); split; [reflexivity|exact Q]|]. cbv iota in E2. rewrite H1.
    assert (K : forall r v1 v2 s, let m' := hh_set_res r (hh_set_front v1 v2 s (hh_set_cls ms2 m)) in settled m' /\ map fst (hh_cls m') = map fst (hh_cls m) /\ hh_prior m' = hh_prior m).
    { intros r v1 v2 s m'. split; [|split; [exact (eq_trans EL2 EL)|reflexivity]]. split; [exact H1|]. split; [exact F2|]. split; [exact H3|exact H4]. }
    destruct (hh_bim m) eqn:B; [unfold usub; pose proof (H3 eq_refl) as Q; apply Nat.leb_le in Q; rewrite Q|]; cbn [bind]; rewrite E2; cbn [bind]; eexists; (split; [reflexivity|apply K]).
  Qed.
  Lemma update_settled : forall m : hhmm A, settled m -> exists m', hh_update_top m = Ok (m', None) /\ settled m' /\ map fst (hh_cls m') = map fst (hh_cls m).
  Proof.
    intros m HS. pose proof HS as (H1 & H2 & H3 & H4). unfold hh_update_top. destruct (Nat.eqb (hh_size m) (length (hh_prior m))); [exists m; auto|]. destruct (exits_fine (hh_cls m) H2) as (ms & E & EL & F).
    cbn [hh_cls hh_set_top]. rewrite E. cbn [bind]. eexists. split; [reflexivity|]. split; [|exact EL]. split; [exact H1|]. split; [exact F|]. split; [exact H3|exact H4].
  Qed.
  Lemma filter_steady : forall f (m : hhmm A), settled m -> settled (hh_set_cls (filter f (hh_cls m)) m).
  Proof.
    intros f m (H1 & H2 & H3 & H4). split; [exact H1|]. split; [|split; [exact H3|exact H4]]. cbn [hh_cls hh_set_cls]. rewrite Forall_forall in *. intros e He. apply filter_In in He. apply H2. apply He.
  Qed.

  Lemma apply_settled : forall (o : hh_op A) (m : hhmm A), class_op o -> settled m -> exists m' e, hh_apply o m = Ok (m', e) /\ settled m' /\ (e = None \/ exists l, o = ORemove l /\ ~ In l (map fst (hh_cls m)) /\ e = Some OutOfRange).
  Proof.
    intros o m HO HS. pose proof HS as (H1 & H2 & H3 & H4). destruct o as [u f l|l| |failed| |i p|l h|b|x|]; cbn [hh_apply class_op] in *; try contradiction.
    - unfold hh_add. destruct (update_settled (hh_set_cls (mput String.eqb String.ltb (hh_cls m) l (let h := match mget String.eqb (hh_cls m) l with Some h => h | None => new_class u f m end in hc_set_par (hmmP_assign (hc_par h) (hh_cfg m l)) h)) m)) as (m' & E & S' & _).
      { split; [exact H1|]. split; [|split; [exact H3|exact H4]]. cbn [hh_cls hh_set_cls]. rewrite Forall_forall in *. intros e He. apply in_mput in He. destruct He as [->|He]; [|apply H2; exact He]. split; [|exact (H4 l)].
        cbn [snd hc_set_par hc_hier]. destruct (mget String.eqb (hh_cls m) l) eqn:G; [|reflexivity]. apply (mget_in _ String.eqb_eq) in G. apply (H2 _ G). }
      exists m', None. auto.
    - unfold hh_remove. destruct (mget String.eqb (hh_cls m) l) eqn:G.
      + destruct (reset_settled _ (filter_steady (fun p => negb (String.eqb l (fst p))) m HS)) as (m1 & E1 & S1 & _). unfold mdel. rewrite E1. cbn [bind]. destruct (update_settled m1 S1) as (m2 & E2 & S2 & _). exists m2, None. auto.
      + exists m, (Some OutOfRange). split; [reflexivity|]. split; [exact HS|]. right. exists l. split; [reflexivity|]. split; [|reflexivity].
        intros Hin. clear -G Hin. induction (hh_cls m) as [|[a b] ms IH]; cbn in *; [exact Hin|]. destruct (String.eqb l a) eqn:Q; [discriminate|]. destruct Hin as [->|Hin]; [rewrite String.eqb_refl in Q; discriminate|]. exact (IH G Hin).
    - unfold hh_clear. destruct (reset_settled (hh_set_cls [] m)) as (m1 & E1 & S1 & _); [split; [exact H1|]; split; [constructor|]; split; [exact H3|exact H4]|]. rewrite E1. cbn [bind]. eexists. exists None. split; [reflexivity|]. split; [exact S1|auto].
    - unfold hh_join. destruct (reset_settled _ (filter_steady (fun e => negb (failed (fst e))) m HS)) as (m1 & E1 & S1 & _). rewrite E1. cbn [bind]. destruct (update_settled m1 S1) as (m2 & E2 & S2 & _). exists m2, None. auto.
    - destruct (reset_settled m HS) as (m1 & E1 & S1 & _). rewrite E1. exists m1, None. auto.
    - eexists. exists None. split; [reflexivity|]. split; [|auto]. split; [exact H1|]. split; [|split; [exact H3|exact H4]]. cbn [hh_cls hh_set_cls]. rewrite Forall_forall in *. intros e He. apply in_map_iff in He. destruct He as (e0 & <- & He0).
      destruct (String.eqb l (fst e0)); [exact HO|apply H2; exact He0].
  Qed.

  Lemma run_settled : forall (os : list (hh_op A)) (m : hhmm A), Forall class_op os -> settled m -> exists m', hh_run os m = Ok m' /\ settled m'.
  Proof.
    unfold hh_run. induction os as [|o os IH]; intros m HO HS; cbn [foldM]; [exists m; auto|]. inversion HO as [|? ? O1 O2]; subst. destruct (apply_settled o m O1 HS) as (m1 & e & -> & S1 & _). cbn [bind]. exact (IH m1 O2 S1).
  Qed.

  (** ** Not hierarchical: exceptions *)
  Lemma mput_new : forall V (ms : list (string * V)) l v, ~ In l (map fst ms) -> length (mput String.eqb String.ltb ms l v) = S (length ms) /\ (forall e, In e ms -> In e (mput String.eqb String.ltb ms l v)) /\ In (l, v) (mput String.eqb String.ltb ms l v).
  Proof.
    induction ms as [|[a b] ms IH]; intros l v H; cbn [mput]; [cbn; auto|]. destruct (String.eqb l a) eqn:Q; [exfalso; apply H; left; apply String.eqb_eq in Q; auto|]. destruct (String.ltb l a); [cbn [length]; split; [reflexivity|]; split; [intros e He; right; exact He|left; reflexivity]|].
    destruct (IH l v) as (I1 & I2 & I3); [intros C; apply H; right; exact C|]. cbn [length]. rewrite I1. split; [reflexivity|]. split; [intros e [->|He]; [left; reflexivity|right; apply I2; exact He]|right; exact I3].
  Qed.

  Lemma add_throws : forall u f l (m : hhmm A), hh_cls m <> [] -> Forall (fun e : string * hclass A => hc_hier (snd e) = false) (hh_cls m) -> ~ In l (map fst (hh_cls m)) -> length (hh_prior m) = hh_size m -> 1 <= hp_states (hh_cfg m l) ->
    exists m', hh_add u f l m = Ok (m', Some RuntimeError) /\ In l (map fst (hh_cls m')) /\ hh_size m' = S (hh_size m).
  Proof.
    intros u f l m NE F NI LP HN. unfold hh_add. destruct (mget String.eqb (hh_cls m) l) eqn:G; [exfalso; apply NI; apply (mget_in _ String.eqb_eq) in G; apply in_map_iff; eexists; split; [|exact G]; reflexivity|].
    destruct (mput_new _ (hh_cls m) l (hc_set_par (hmmP_assign (hc_par (new_class u f m)) (hh_cfg m l)) (new_class u f m)) NI) as (M1 & M2 & M3). set (cs := mput String.eqb String.ltb (hh_cls m) l (hc_set_par (hmmP_assign (hc_par (new_class u f m)) (hh_cfg m l)) (new_class u f m))) in *.
    unfold hh_update_top. destruct (Nat.eqb_spec (hh_size (hh_set_cls cs m)) (length (hh_prior (hh_set_cls cs m)))) as [C|_].
    { exfalso. unfold hh_size in *. cbn [hh_cls hh_set_cls hh_prior] in C. lia. }
    cbn [hh_cls hh_set_cls hh_set_top]. destruct (exits_throw cs) as (ms & E & EL).
    - rewrite Forall_forall in *. intros e He Hh. unfold cs in He. apply in_mput in He. destruct He as [->|He]; [exact HN|rewrite (F e He) in Hh; discriminate].
    - destruct (hh_cls m) as [|e es] eqn:EC; [contradiction|]. apply Exists_exists. exists e. split; [apply M2; left; reflexivity|]. inversion F; assumption.
    - rewrite E. cbn [bind]. eexists. split; [reflexivity|]. cbn [hh_cls hh_set_cls hh_set_top hh_size]. split; [rewrite EL; apply in_map_iff; eexists; split; [|exact M3]; reflexivity|]. unfold hh_size. cbn [hh_cls hh_set_cls hh_set_top]. rewrite <- (map_length fst ms), EL, map_length. exact M1.
  Qed.

  Lemma update_throws : forall m : hhmm A, hh_cls m <> [] -> Forall (fun e : string * hclass A => hc_hier (snd e) = false) (hh_cls m) -> length (hh_prior m) <> hh_size m -> exists m', hh_update_top m = Ok (m', Some RuntimeError) /\ map fst (hh_cls m') = map fst (hh_cls m).
  Proof.
    intros m NE F LP. unfold hh_update_top. destruct (Nat.eqb_spec (hh_size m) (length (hh_prior m))) as [C|_]; [congruence|]. cbn [hh_cls hh_set_top]. destruct (exits_throw (hh_cls m)) as (ms & E & EL).
    - rewrite Forall_forall in *. intros e He Hh. rewrite (F e He) in Hh; discriminate.
    - destruct (hh_cls m) as [|e es] eqn:EC; [contradiction|]. apply Exists_cons_hd. inversion F; assumption.
    - rewrite E. cbn [bind]. eexists. split; [reflexivity|exact EL].
  Qed.
End Classes.

Lemma mapM_hier : forall b (ms ms' : list (string * hclass RA)), mapM (fun e => let* h := hm_reset (A := RA) (hc_set_hier b (snd e)) in Ok (fst e, h)) ms = Ok ms' -> Forall (fun e : string * hclass RA => hc_hier (snd e) = b) ms'.
Proof.
  intros b. induction ms as [|e ms IH]; intros ms' H; cbn [mapM] in H; [injection H as <-; constructor|]. inv_bind H. inv_bind H. injection H as <-. constructor; [|apply IH; reflexivity]. inv_bind E. injection E as <-. cbn [snd].
  unfold hm_reset in E1. cbn [hc_set_hier hc_hier] in E1. destruct b; [injection E1 as <-; reflexivity|]. inv_bind E1. injection E1 as <-. reflexivity.
Qed.
Lemma reset_flags : forall m m' : hhmm RA, hh_reset (A := RA) m = Ok m' -> Forall (fun e : string * hclass RA => hc_hier (snd e) = hh_hier m) (hh_cls m').
Proof. intros m m' H. unfold hh_reset in H. inv_bind H. inv_bind H. pairs. inv_bind H. injection H as <-. exact (mapM_hier _ _ _ E1). Qed.

Lemma hn_filter : forall f m, hn_usable m -> filter f (hh_cls m) <> [] -> hn_usable (hh_set_cls (A := RA) (filter f (hh_cls m)) m).
Proof.
  intros f m (U1 & U2 & U3 & U4 & U5) NE. unfold hn_usable, hh_size. cbn [hh_cls hh_set_cls hh_hier]. split; [destruct (filter f (hh_cls m)); [contradiction|cbn; lia]|]. split; [|split; [|split; [exact U4|exact U5]]].
  - clear -U2. induction (hh_cls m) as [|e l IH]; [constructor|]. inversion U2 as [|? ? N1 N2]; subst. cbn [filter]. destruct (f e); [|apply IH; exact N2]. cbn [map]. constructor; [|apply IH; exact N2].
    intros C. apply N1. apply in_map_iff in C. destruct C as (e' & Q & C). apply filter_In in C. apply in_map_iff. exists e'. split; [exact Q|apply C].
  - rewrite Forall_forall in *. intros e He. apply filter_In in He. exact (U3 e (proj1 He)).
Qed.

Lemma shrink_throws : forall f m, hn_usable m -> Forall (fun e : string * hclass RA => ring_wf 1 (h_buf (hc_run (snd e)))) (hh_cls m) -> filter f (hh_cls m) <> [] -> length (filter f (hh_cls m)) <> hh_size m -> length (hh_prior m) = hh_size m ->
  exists m', (let* m := hh_reset (A := RA) (hh_set_cls (A := RA) (filter f (hh_cls m)) m) in hh_update_top (A := RA) m) = Ok (m', Some RuntimeError) /\ map fst (hh_cls m') = map fst (filter f (hh_cls m)).
Proof.
  intros f m U F NE LN LP. destruct (hn_reset _ (hn_filter f m U NE)) as (m1 & E & EL & _).
  { cbn [hh_cls hh_set_cls]. rewrite Forall_forall in *. intros e He. apply filter_In in He. exact (F e (proj1 He)). }
  cbn [hh_cls hh_set_cls] in EL. assert (ES : hh_size m1 = length (filter f (hh_cls m))) by (unfold hh_size; rewrite <- (map_length fst (hh_cls m1)), EL, map_length; reflexivity).
  destruct (update_throws m1) as (m2 & E2 & EL2).
  - intros C. unfold hh_size in ES. rewrite C in ES. destruct (filter f (hh_cls m)); [contradiction|discriminate].
  - pose proof (reset_flags _ _ E) as RF. destruct U as (_ & _ & _ & U4 & _). cbn [hh_hier hh_set_cls] in RF. rewrite U4 in RF. exact RF.
  - destruct (reset_top _ _ E) as ((P & _) & _). rewrite P. cbn [hh_prior hh_set_cls]. congruence.
  - exists m2. split; [eapply bind_eq; [exact E|exact E2]|]. rewrite EL2. exact EL.
Qed.
