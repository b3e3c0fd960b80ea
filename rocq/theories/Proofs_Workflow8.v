(** Training of one class of a hidden Markov model from its phrases. *)
From Coq Require Import String List Bool Arith Lia ZArith Reals Lra.
From Verif Require Import Base BaseFacts Arith RFacts Model_Map Model_Ring Model_Phrase Model_TrainingSet Model_Gaussian Model_Config Model_KMeans Model_GMM
  Model_HMM Model_HHMM Model_Shared Model_Train Model_Reload Model_Workflow Model_Workflow2 Spec_Common Spec_Phrase Spec_TrainingSet Spec_Train Spec_Shared Spec_Matrix Spec_Gaussian Spec_GMM
  Spec_HMM Spec_HMMInit Spec_EM2 Spec_HHMM Spec_Workflow Spec_Workflow2
  Proofs_Map Proofs_Phrase Proofs_PhraseStats Proofs_TrainingStats Proofs_Train Proofs_GMM Proofs_GMM4 Proofs_HMM11 Proofs_HMM10 Proofs_HMM12 Proofs_HMM14 Props_HMM
  Proofs_Workflow Proofs_Workflow2 Proofs_Workflow4 Proofs_Workflow7.
Import ListNotations.
Local Open Scope list_scope.
Local Open Scope nat_scope.

Local Notation phrase := (phrase (A:=RA)).

(** ** The driver, with an end that does something *)

Lemma loop_rounds2 : forall {A : arith} {M} (h : hooks A M) (p : em_settings A) (I : nat -> M -> Prop) (step : M -> M -> num A -> Prop) (F : M -> M -> Prop),
  (forall a b : num A, nisnan (pct_change a b b) = false) ->
  (forall n m, n < 1000 -> I n m -> exists m' x, h_update h m = (m', Ok x) /\ I (S n) m' /\ step m m' x) ->
  (forall n m, I n m -> exists m', h_finish h m = (m', Ok tt) /\ F m m') ->
  forall fuel old s, I (t_it s) (t_m s) -> 1000 <= fuel + t_it s ->
  exists s' n m', em_loop h p (fun _ => false) fuel false old s = (s', Returned) /\ t_status s' = Done /\
    I n m' /\ F m' (t_m s') /\ rounds p step (t_it s) old (t_ll s) (t_m s) m'.
Proof.
  intros A M h p I step F NN HU HF. induction fuel as [|fuel IH]; intros old s HI L; cbn [em_loop]; destruct (has_converged p (t_it s) (t_ll s) old) eqn:E.
  - unfold check_cancel, terminate. cbn [t_m tchecked]. destruct (HF _ _ HI) as (m' & E' & F'). rewrite E'. eexists _, _, _. split; [reflexivity|]. split; [reflexivity|]. split; [exact HI|]. split; [exact F'|].
    apply rounds_stop. apply converged_rule. exact E.
  - exfalso. unfold has_converged in E. rewrite (proj2 (Nat.leb_le 1000 (t_it s))) in E by lia. discriminate.
  - unfold check_cancel, terminate. cbn [t_m tchecked]. destruct (HF _ _ HI) as (m' & E' & F'). rewrite E'. eexists _, _, _. split; [reflexivity|]. split; [reflexivity|]. split; [exact HI|]. split; [exact F'|].
    apply rounds_stop. apply converged_rule. exact E.
  - assert (LT : t_it s < 1000). { apply Nat.nle_gt. intro C. unfold has_converged in E. rewrite (proj2 (Nat.leb_le 1000 (t_it s))) in E by exact C. discriminate. }
    unfold check_cancel. cbn [t_m tchecked]. destruct (HU _ (t_m s) LT HI) as (m' & x & E1 & I' & St). rewrite E1. cbn [t_ll tset_ll tcount tset_m tchecked].
    rewrite NN. cbn [andb orb].
    match goal with |- context [em_loop h p _ fuel false ?o ?st] => destruct (IH o st) as (s' & n & m'' & E2 & D & I2 & FF & RD) end.
    + exact I'.
    + cbn. lia.
    + exists s', n, m''. split; [exact E2|]. split; [exact D|]. split; [exact I2|]. split; [exact FF|].
      apply (rounds_next p step _ _ _ _ m' x); [intro C; apply converged_rule in C; congruence|exact St|]. exact RD.
Qed.

Lemma train_rounds2 : forall {A : arith} {M} (h : hooks A M) (p : em_settings A) (I : nat -> M -> Prop) (step : M -> M -> num A -> Prop) (F : M -> M -> Prop) m m1 m2,
  (forall a b : num A, nisnan (pct_change a b b) = false) ->
  (forall n m, n < 1000 -> I n m -> exists m' x, h_update h m = (m', Ok x) /\ I (S n) m' /\ step m m' x) ->
  (forall n m, I n m -> exists m', h_finish h m = (m', Ok tt) /\ F m m') ->
  h_allocate h m = (m1, Ok tt) -> h_init h m1 = (m2, Ok tt) -> I 0 m2 ->
  exists s' n m', em_train h p (fun _ => false) 1000 false (train_start m) = (s', Returned) /\ t_status s' = Done /\
    I n m' /\ F m' (t_m s') /\ rounds p step 0 lowest lowest m2 m'.
Proof.
  intros A M h p I step F m m1 m2 NN HU HF Ea Ei HI. unfold em_train. cbn [t_m tset_status tset_locked train_start]. rewrite Ea.
  unfold check_cancel. cbn [t_m tset_m tchecked]. rewrite Ei.
  match goal with |- context [em_loop h p _ 1000 false ?o ?st] => destruct (loop_rounds2 h p I step F NN HU HF 1000 o st) as (s' & n & m' & E & D & I' & FF & RD) end.
  - exact HI.
  - lia.
  - exists s', n, m'. auto.
Qed.

(** ** The updates *)

Lemma hupdates_snoc : forall n data (g h h' : hclass RA) x, hm_updates (A := RA) n data g = Ok h -> hm_update (A := RA) data h = Ok (h', x) ->
  hm_updates (A := RA) (S n) data g = Ok h'.
Proof.
  induction n as [|n IH]; intros data g h h' x E U.
  - cbn [hm_updates] in *. injection E as ->. rewrite U. reflexivity.
  - cbn [hm_updates] in E |- *. destruct (hm_update data g) as [[g1 y]| |] eqn:E1; cbn [bind] in E |- *; try discriminate.
    apply (IH data g1 h h' x E U).
Qed.

Definition hem_step (data : list (list (list R))) (g h : hclass RA) (x : num RA) : Prop :=
  hm_update (A := RA) data g = Ok (h, x) /\ x = phrases_ll g data.

Lemma hrounds_count : forall p data n old ll g h, rounds (A := RA) p (hem_step data) n old ll g h ->
  forall g2, hm_updates (A := RA) n data g2 = Ok g -> hll_after data g2 n ll -> hll_after data g2 (n - 1) old ->
  exists m, n <= m /\ hm_updates (A := RA) m data g2 = Ok h /\
    (exists prev ll, hll_after data g2 (m - 1) prev /\ hll_after data g2 m ll /\ stop_rule p m prev ll) /\
    (forall k, n <= k < m -> exists prev ll, hll_after data g2 (k - 1) prev /\ hll_after data g2 k ll /\ ~ stop_rule p k prev ll).
Proof.
  intros p data n old ll g h H. induction H as [n old ll g S|n old ll g g' x h NS (St & Sx) H IH]; intros g2 E L1 L2.
  - exists n. split; [lia|]. split; [exact E|]. split; [exists old, ll; auto|]. intros k Hk. lia.
  - destruct (IH g2) as (m & Hm & E' & ST & BE).
    + exact (hupdates_snoc n data g2 g g' x E St).
    + cbn [hll_after]. exists g. auto.
    + rewrite Nat.sub_succ, Nat.sub_0_r. exact L1.
    + exists m. split; [lia|]. split; [exact E'|]. split; [exact ST|]. intros k Hk. destruct (Nat.eq_dec k n) as [->|N]; [exists old, ll; auto|apply BE; lia].
Qed.

Lemma hrounds_stop_at : forall p data g2 h, 1 <= em_min p -> rounds (A := RA) p (hem_step data) 0 lowest lowest g2 h ->
  exists n, hm_updates (A := RA) n data g2 = Ok h /\ hstops_at p data g2 n.
Proof.
  intros p data g2 h Hm H. destruct (hrounds_count p data 0 _ _ g2 h H g2 eq_refl eq_refl eq_refl) as (n & _ & E & (a & b & A1 & A2 & A3) & BE).
  exists n. split; [exact E|]. split; [|split; [exists a, b; auto|]].
  - destruct n; [exfalso; exact (not_at_0 p a b Hm A3)|lia].
  - intros k Hk. apply BE. lia.
Qed.

(** ** The result does not depend on anything else *)

Lemma hll_after_fun : forall data g n x y, hll_after data g n x -> hll_after data g n y -> x = y.
Proof. intros data g [|n] x y H H'; cbn in *; [congruence|]. destruct H as (a & E & ->). destruct H' as (b & E' & ->). congruence. Qed.
Lemma hstops_at_fun : forall p data g n n', hstops_at p data g n -> hstops_at p data g n' -> n = n'.
Proof.
  assert (L : forall p data g n n', hstops_at p data g n -> hstops_at p data g n' -> ~ n < n').
  { intros p data g n n' (P & (a & b & A1 & A2 & A3) & _) (_ & _ & Q) C. destruct (Q n ltac:(lia)) as (c & d & B1 & B2 & B3).
    rewrite (hll_after_fun _ _ _ _ _ A1 B1), (hll_after_fun _ _ _ _ _ A2 B2) in A3. exact (B3 A3). }
  intros p data g n n' H H'. pose proof (L _ _ _ _ _ H H'). pose proof (L _ _ _ _ _ H' H). lia.
Qed.
Lemma piece_rounds_fun : forall p h data s k k', piece_rounds p h data s k -> piece_rounds p h data s k' -> k = k'.
Proof.
  intros p h data s k k' (g1 & g2 & E1 & E2 & S) (g1' & g2' & E1' & E2' & S'). rewrite E1 in E1'. injection E1' as <-. rewrite E2 in E2'. injection E2' as <-.
  exact (stops_at_fun _ _ _ _ _ S S').
Qed.
Lemma tabM_agree : forall {X} n (f g : nat -> res X), (forall i, i < n -> f i = g i) -> tabM n f = tabM n g.
Proof. intros X n f g H. induction n as [|n IH]; cbn [tabM]; [reflexivity|]. rewrite IH by (intros; apply H; lia). rewrite H by lia. reflexivity. Qed.
Lemma default_frame : forall dev (h h' : hclass RA), hm_default (A := RA) dev h = Ok h' -> hc_par h' = hc_par h /\ hc_bim h' = hc_bim h /\ hc_dim h' = hc_dim h /\ hc_din h' = hc_din h /\ hc_win h' = hc_win h /\
  h_exit (hc_net h') = h_exit (hc_net h) /\ hc_run h' = hc_run h /\ hc_hier h' = hc_hier h.
Proof.
  intros dev h h' H. unfold hm_default in H.
  destruct (match hc_mode h with Ergodic => _ | LeftRight => _ end) as [[pr tr]| |]; cbn [bind] in H; try discriminate.
  destruct (tabM (A := gclass RA) _ _) as [ss| |]; cbn [bind] in H; try discriminate. injection H as <-. cbn. auto 10.
Qed.
Lemma init_agree : forall iters iters' devs dev data (h : hclass RA), (forall s, s < hc_n h -> iters s = iters' s) -> hm_init (A := RA) iters devs dev data h = hm_init (A := RA) iters' devs dev data h.
Proof.
  intros iters iters' devs dev data h H. unfold hm_init. destruct data as [|ph data]; [reflexivity|]. destruct (hm_default dev h) as [h'| |] eqn:E; cbn [bind]; [|reflexivity..].
  unfold hm_init_states. pose proof (default_frame dev h h' E) as (P & _). assert (N : hc_n h' = hc_n h) by (unfold hc_n; rewrite P; reflexivity).
  match goal with |- bind ?a ?f = bind ?b ?f => cut (a = b); [intros ->; reflexivity|] end. apply tabM_agree.
  intros i Hi. rewrite (H i) by lia. reflexivity.
Qed.
Lemma started_fun : forall p h data h2 h2', started_from p h data h2 -> started_from p h data h2' -> h2 = h2'.
Proof.
  intros p h data h2 h2' (it & h1 & P & E1 & E2) (it' & h1' & P' & E1' & E2'). rewrite E1 in E1'. injection E1' as <-.
  assert (N : hc_n h1 = hc_n h).
  { unfold hm_allocate in E1. destruct (gm_allocate _) as [g| |]; cbn [bind] in E1; try discriminate. cbn [hc_hier hc_set_net hc_set_run] in E1. destruct (hc_hier h); [|injection E1 as <-; reflexivity].
    unfold hm_exit_default in E1. cbn [hc_hier hc_set_net hc_set_run] in E1. destruct (hc_hier h); cbn [negb] in E1; [|discriminate]. destruct (exit_default _ _) as [e| |]; cbn [bind] in E1; try discriminate. injection E1 as <-. reflexivity. }
  rewrite (init_agree it it') in E2; [congruence|]. intros s Hs. rewrite N in Hs. exact (piece_rounds_fun _ _ _ _ _ _ (P s Hs) (P' s Hs)).
Qed.
Lemma hlearned_fun : forall p h0 data h h', hlearned p h0 data h -> hlearned p h0 data h' -> h = h'.
Proof.
  intros p h0 data h h' (h2 & h3 & n & S & E & H & T) (h2' & h3' & n' & S' & E' & H' & T'). rewrite (started_fun _ _ _ _ _ S' S) in *.
  rewrite (hstops_at_fun _ _ _ _ _ H' H) in E'. congruence.
Qed.

(** ** The initialisation *)

Lemma choice_below : forall N (P : nat -> nat -> Prop), (forall s, s < N -> exists k, P s k) -> exists f, forall s, s < N -> P s (f s).
Proof.
  induction N as [|N IH]; intros P H; [exists (fun _ => 0); intros; lia|]. destruct (IH P) as (f & Hf); [intros; apply H; lia|]. destruct (H N) as (k & Hk); [lia|].
  exists (fun s => if s =? N then k else f s). intros s Hs. destruct (Nat.eqb_spec s N) as [->|]; [exact Hk|apply Hf; lia].
Qed.

(** The members of a class that the initialisation reads. *)
Definition same_frame (h0 h : hclass RA) : Prop := hc_bim h = hc_bim h0 /\ hc_dim h = hc_dim h0 /\ hc_din h = hc_din h0 /\ hc_win h = hc_win h0 /\ hc_par h = hc_par h0.
Lemma same_mixture : forall h0 h : hclass RA, same_frame h0 h -> new_mixture h (hc_win h) = new_mixture h0 (hc_win h0) /\ hc_n h = hc_n h0.
Proof. intros h0 h (B & D & I & W & P). unfold new_mixture, hc_n. rewrite B, D, I, W, P. split; reflexivity. Qed.

Lemma trainable_dims : forall h devs dev data, hmm_trainable h devs dev data -> (hc_bim h = true -> 1 <= hc_din h) -> set_dims (hc_bim h) (hc_dim h) (hc_din h).
Proof. intros h devs dev data (_ & _ & _ & D & _) H. unfold hmm_dims in D. unfold set_dims. destruct (hc_bim h); [specialize (H eq_refl); lia|exact D]. Qed.

Lemma init_state_ok : forall p (h0 h : hclass RA) ps cs devs dev s, same_frame h0 h -> 1 <= em_min p -> Forall2 rep ps cs -> (forall c, In c cs -> fits_set h0 c) ->
  hmm_trainable h0 devs dev (map (frames_of (A := RA)) cs) -> (hc_bim h0 = true -> 1 <= hc_din h0) -> s < hc_n h0 ->
  let data := map (frames_of (A := RA)) cs in
  exists k, piece_rounds p h0 data s k /\ forall g, init_state p h ps s g =
    match seg_data (A := RA) (hc_n h) s data with [] => Ok g | sd => let* f := gm_fit h k sd (piece_devs h0 data s) in adopt f g end.
Proof.
  intros p h0 h ps cs devs dev s SF Hp HF HC HT HI Hs data. pose proof (trainable_dims _ _ _ _ HT HI) as SD. pose proof HT as (T1 & T2 & T3 & T4 & T5 & _ & _ & (_ & T8) & T9).
  pose proof (same_mixture h0 h SF) as (SM & SN). destruct SF as (F1 & F2 & F3 & F4 & F5).
  destruct (state_pieces_ok h s ps cs HF) as (qs & cs' & EQ & RQ & DQ & PQ).
  { intros c Hc. unfold fits_set. rewrite F1, F2, F3. apply HC. exact Hc. } { rewrite F1, F2, F3. exact SD. } { rewrite SN. exact Hs. }
  fold data in PQ. rewrite SN in *. change (num RA) with R in *.
  destruct (seg_data_ok (hc_n h0) (hp_gauss (hc_par h0)) s data T1 T2 Hs T9) as (S1 & S2 & S3). rewrite (seg_pieces _ s data Hs) in S1, S2, S3 |- *.
  assert (EX : exists c, In c cs' /\ hp_gauss (hc_par h0) <= length (frames_of c)).
  { apply Exists_exists in T9. destruct T9 as (ph & H1 & H2). assert (In (piece (hc_n h0) s ph) (pieces (hc_n h0) s data)) as K.
    { unfold pieces. apply in_map, filter_In. split; [exact H1|]. apply Nat.leb_le. change (num RA) with R in *. nia. }
    rewrite <- PQ in K. apply in_map_iff in K. destruct K as (c & K1 & K2). exists c. split; [exact K2|]. rewrite K1. unfold piece. rewrite map_length, seq_length. apply Nat.div_le_lower_bound; [lia|exact H2]. }
  destruct (class_learned p (new_mixture h (hc_win h)) (map owned qs) cs' Hp RQ) as (st & E & _ & LE & _).
  { intros c Hc. rewrite (DQ c Hc). reflexivity. } { unfold gc_n, new_mixture. cbn. rewrite F5. exact T2. }
  { unfold good_dims, new_mixture. cbn. unfold hmm_dims in T4. rewrite F1, F2, F3. exact T4. }
  { unfold strong_abs, gc_mode, new_mixture. cbn. unfold hmm_abs in T5. rewrite F5. exact T5. }
  { unfold gc_n, new_mixture. cbn. rewrite F5. exact EX. }
  destruct LE as (g1 & g2 & n & E1 & E2 & E3 & ST). rewrite owned_hooks in E. change (num RA) with R in *. rewrite PQ in E2, E3, ST.
  exists n. split.
  - exists g1, g2. rewrite <- SM. split; [exact E1|]. unfold piece_devs. rewrite <- F2. split; [exact E2|exact ST].
  - intro g. unfold init_state. rewrite EQ. cbn [bind]. 
    assert (NQ : qs <> []). { intros ->. inversion RQ; subst. apply S1. rewrite <- PQ. reflexivity. }
    destruct qs as [|q qs]; [contradiction|]. change (gc_dim (new_mixture h (hc_win h))) with (hc_dim h) in E. rewrite E.
    unfold gm_fit, piece_devs. rewrite <- F2. destruct (pieces (hc_n h0) s data) as [|sd sds] eqn:EP; [contradiction|].
    change (gc_dim (new_mixture h (hc_win h))) with (hc_dim h) in E2.
    rewrite E1. cbn [bind]. change (num RA) with R in *. rewrite E2. cbn [bind]. rewrite E3. reflexivity.
Qed.

Lemma init_set_ok : forall p (h0 h : hclass RA) ps cs devs, same_frame h0 h -> 1 <= em_min p -> Forall2 rep ps cs -> (forall c, In c cs -> fits_set h0 c) -> (hc_bim h0 = true -> 1 <= hc_din h0) ->
  let data := map (frames_of (A := RA)) cs in
  hmm_trainable h0 devs (deviations (hc_dim h0) (concat data)) data ->
  exists iters, (forall s, s < hc_n h0 -> piece_rounds p h0 data s (iters s)) /\
    hm_init_set p (hc_dim h0) ps h = hm_init (A := RA) iters (piece_devs h0 data) (deviations (hc_dim h0) (concat data)) data h.
Proof.
  intros p h0 h ps cs devs SF Hp HF HC HI data HT.
  assert (DD : forall c, In c cs -> s_dim c = hc_dim h0) by (intros c Hc; apply (HC c Hc)).
  unfold hm_init_set. pose proof (ts_stddev_ok (hc_dim h0) ps cs HF DD) as DV. rewrite all_frames_concat in DV.
  destruct (choice_below (hc_n h0) (fun s k => piece_rounds p h0 data s k /\ forall h', same_frame h0 h' -> forall g, init_state p h' ps s g =
    match seg_data (A := RA) (hc_n h') s data with [] => Ok g | sd => let* f := gm_fit h' k sd (piece_devs h0 data s) in adopt f g end)) as (iters & HIT).
  { intros s Hs. destruct (init_state_ok p h0 h0 ps cs _ _ s ltac:(repeat split) Hp HF HC HT HI Hs) as (k & PR & _). exists k. split; [exact PR|]. intros h' SF' g.
    destruct (init_state_ok p h0 h' ps cs _ _ s SF' Hp HF HC HT HI Hs) as (k' & PR' & Q). rewrite (piece_rounds_fun _ _ _ _ _ _ PR PR'). apply Q. }
  exists iters. split; [intros s Hs; apply (HIT s Hs)|]. unfold hm_init.
  assert (ND : data <> []) by apply HT. destruct HF as [|p0 c0 ps cs R0 HF]; [contradiction|]. fold data. change (num RA) with R in *. 
  destruct data as [|d0 data'] eqn:ED; [discriminate|]. rewrite <- ED in *. rewrite DV. cbn [bind]. fold data. unfold deviations.
  destruct (hm_default _ h) as [h'| |] eqn:EH; cbn [bind]; [|reflexivity..]. unfold hm_init_states.
  pose proof (default_frame _ _ _ EH) as (P & B & D & I & W & _). destruct SF as (F1 & F2 & F3 & F4 & F5).
  assert (SF' : same_frame h0 h') by (repeat split; congruence). pose proof (same_mixture h0 h' SF') as (_ & SN).
  match goal with |- bind ?a ?f = bind ?b ?f => cut (a = b); [intros ->; reflexivity|] end. apply tabM_agree. intros s Hs. destruct (rd (h_states (hc_net h')) s) as [g| |]; cbn [bind]; [|reflexivity..].
  rewrite SN in Hs. exact (proj2 (HIT s Hs) h' SF' g).
Qed.

(** ** What training does not change *)

Definition kept_more (h h' : hclass RA) : Prop := h_exit (hc_net h') = h_exit (hc_net h) /\ h_inst (hc_run h') = h_inst (hc_run h).

Lemma init_kept : forall iters devs dev data (h h' : hclass RA), hm_init (A := RA) iters devs dev data h = Ok h' -> kept_more h h'.
Proof.
  intros iters devs dev data h h' H. unfold hm_init in H. destruct data as [|ph data]; [injection H as <-; split; reflexivity|].
  destruct (hm_default dev h) as [k| |] eqn:E; cbn [bind] in H; try discriminate. pose proof (default_frame dev h k E) as (_ & _ & _ & _ & _ & X & RN & _).
  unfold hm_init_states in H. destruct (tabM (A := gclass RA) _ _) as [ss| |]; cbn [bind] in H; try discriminate. injection H as <-. split; cbn; congruence.
Qed.
Lemma update_kept_more : forall data (h h' : hclass RA) lp, hm_update (A := RA) data h = Ok (h', lp) -> kept_more h h'.
Proof.
  intros data h h' lp H. unfold hm_update in H. destruct (hm_esteps h _ data) as [[es al]| |]; cbn [bind] in H; try discriminate.
  destruct (tabM (A := gclass RA) _ _) as [ss| |]; cbn [bind] in H; try discriminate.
  destruct (match hc_mode h with Ergodic => _ | LeftRight => _ end) as [pr| |]; cbn [bind] in H; try discriminate.
  destruct (hm_trans _ _ es) as [tr| |]; cbn [bind] in H; try discriminate. injection H as <- _. split; reflexivity.
Qed.
Lemma terminate_kept_more : forall h h' : hclass RA, hm_terminate (A := RA) h = Ok h' -> kept_more h h'.
Proof.
  intros h h' H. unfold hm_terminate in H. destruct (normalize_trans _ _ _) as [tr| |]; cbn [bind] in H; try discriminate.
  destruct (normalize_prior _ _ _) as [pr| |]; cbn [bind] in H; try discriminate. injection H as <-. split; reflexivity.
Qed.
Lemma exit_default_last : forall N, 1 <= N -> forall ex : list R, ex = [] \/ ex = last_exit N -> exit_default (A := RA) N ex = Ok (last_exit N).
Proof.
  intros N HN ex HE. assert (V : vresize N (n0 (A := RA)) ex = repeat 0%R N \/ vresize N (n0 (A := RA)) ex = last_exit N).
  { destruct HE as [->| ->].
    - left. unfold vresize. rewrite n0_RA. cbn. rewrite firstn_nil. cbn. f_equal. lia.
    - right. unfold vresize. assert (L : @length R (last_exit N) = N) by apply tab_length. change (num RA) with R. rewrite <- L at 1. rewrite firstn_all, L, Nat.sub_diag. apply app_nil_r. }
  unfold exit_default. rewrite wr_ok by (rewrite vresize_length; lia). f_equal.
  assert (Q : nofQ (a := RA) (QArith_base.Qmake 1 10) = (/ 10)%R) by (cbn; unfold Q2R; cbn; lra). change (num RA) with R in *. rewrite Q.
  apply (nth_ext _ _ 0%R 0%R).
  - rewrite upd_length, vresize_length. unfold last_exit. rewrite tab_length. reflexivity.
  - rewrite upd_length, vresize_length. intros i Hi. destruct (Nat.eq_dec i (N - 1)) as [->|Hd].
    + rewrite nth_upd_eq by (rewrite vresize_length; lia). unfold last_exit. rewrite nth_tab by lia. rewrite Nat.eqb_refl. reflexivity.
    + rewrite nth_upd_neq by lia. unfold last_exit. rewrite nth_tab by lia. rewrite (proj2 (Nat.eqb_neq _ _) Hd). destruct V as [-> | ->]; [apply nth_repeat|]. unfold last_exit. rewrite nth_tab by lia. rewrite (proj2 (Nat.eqb_neq _ _) Hd). reflexivity.
Qed.
Lemma allocate_kept_more : forall h h' : hclass RA, 1 <= hc_n h -> h_exit (hc_net h) = last_exit (hc_n h) -> hm_allocate (A := RA) h = Ok h' -> kept_more h h'.
Proof.
  intros h h' Hn HE H. unfold hm_allocate in H. destruct (gm_allocate _) as [g| |]; cbn [bind] in H; try discriminate.
  set (k := hc_set_net _ _) in H. assert (X1 : hc_hier k = hc_hier h) by reflexivity. assert (X2 : hc_n k = hc_n h) by reflexivity. assert (X3 : h_exit (hc_net k) = last_exit (hc_n h)) by exact HE.
  assert (X4 : h_inst (hc_run k) = h_inst (hc_run h)) by reflexivity. clearbody k.
  destruct (hc_hier k) eqn:EH; [|injection H as <-; split; congruence].
  unfold hm_exit_default in H. rewrite EH in H. cbn [negb] in H. rewrite X2, X3, (exit_default_last (hc_n h) Hn _ (or_intror eq_refl)) in H. cbn [bind] in H. injection H as <-. split; [cbn; congruence|exact X4].
Qed.
Lemma kept_more_trans : forall a b c, kept_more a b -> kept_more b c -> kept_more a c.
Proof. intros a b c (A1 & A2) (B1 & B2). split; congruence. Qed.

(** ** One class *)

Lemma hclass_learned : forall p (h0 : hclass RA) ps cs, 1 <= em_min p -> Forall2 rep ps cs -> (forall c, In c cs -> fits_set h0 c) -> (hc_bim h0 = true -> 1 <= hc_din h0) ->
  let data := map (frames_of (A := RA)) cs in
  hmm_trainable h0 (piece_devs h0 data) (deviations (hc_dim h0) (concat data)) data -> h_exit (hc_net h0) = last_exit (hc_n h0) ->
  (hc_mode h0 = LeftRight /\ (INR (length (concat data)) <= 10 ^ 90)%R \/ forall h2, started_from p h0 data h2 -> rows_kept 1000 data h2) ->
  exists s', em_train (hm_hooks p (hc_dim h0) ps) p (fun _ => false) 1000 false (train_start h0) = (s', Returned) /\ t_status s' = Done /\
    hlearned p h0 data (t_m s') /\ hmm_ready (t_m s') /\ stochastic (hc_n h0) (hc_mode h0) (h_trans (hc_net (t_m s'))) /\ frame_kept h0 (t_m s') /\ kept_more h0 (t_m s').
Proof.
  intros p h0 ps cs Hp HF HC HI data HT HE HK. pose proof HT as (T1 & _ & _ & _ & _ & _ & _ & T8 & _).
  destruct (init_ready (fun _ => 0) _ _ _ _ HT) as (h1 & _ & E1 & _). 
  assert (FK1 : same_frame h0 h1).
  { destruct (init_ready (fun _ => 0) _ _ _ _ HT) as (h1' & h2' & E1' & _). destruct (allocate_ok h0 T1 ltac:(apply HT) ltac:(apply HT)) as (k & g & EK & _ & _ & _ & _ & _ & _ & _ & _ & _ & _ & _ & K & _).
    rewrite E1 in EK. injection EK as <-. destruct K as (K1 & K2 & K3 & K4 & K5 & _). repeat split; assumption. }
  destruct (init_set_ok p h0 h1 ps cs _ FK1 Hp HF HC HI HT) as (iters & PI & EI).
  destruct (init_ready iters _ _ _ _ HT) as (h1' & h2 & E1' & E2 & R2 & S2 & FK & _). rewrite E1 in E1'. injection E1' as <-.
  assert (SF : started_from p h0 data h2) by (exists iters, h1; auto).
  assert (PO : phrases_of h2 data). { unfold phrases_of in *. destruct FK as (_ & D & _). rewrite D. exact T8. }
  assert (RK : rows_kept 1000 data h2).
  { destruct HK as [(M & L)|K]; [|apply K; exact SF]. apply lr_kept; [exact R2|exact PO| |exact L]. destruct FK as (_ & _ & _ & _ & P & _). unfold hc_mode in *. rewrite P. exact M. }
  assert (KM2 : kept_more h0 h2) by (eapply kept_more_trans; [apply (allocate_kept_more h0 h1 T1 HE E1)|exact (init_kept _ _ _ _ _ _ E2)]).
  destruct (train_rounds2 (hm_hooks p (hc_dim h0) ps) p
    (fun n h => hmm_ready h /\ hmm_kept h2 h /\ phrases_of h data /\ rows_kept (1000 - n) data h /\ kept_more h0 h) (hem_step data) (fun h h' => hm_terminate (A := RA) h = Ok h') h0 h1 h2 real_not_nan)
    as (s' & n & h3 & E & D & (I1 & I2 & I3 & I4 & I5) & TM & RD).
  - intros n h Hn (R1 & K1 & P1 & RK1 & KM1). destruct (C75_update h data R1 P1) as (h' & lp & EU & EL & _).
    replace (1000 - n) with (S (1000 - S n)) in RK1 by lia. pose proof RK1 as (RK2 & RK3). specialize (RK3 h' lp EU).
    destruct (updates_kept 1 h data R1 P1) as (h'' & EU' & R' & K'); [split; [exact RK2|intros; exact I]|]. cbn [hm_updates] in EU'. rewrite EU in EU'. cbn [bind] in EU'. injection EU' as <-.
    exists h', lp. cbn [h_update hm_hooks]. rewrite (reps_data ps cs HF). cbn [bind]. fold data. change (num RA) with R in *. rewrite EU. split; [reflexivity|].
    split; [|split; [exact EU|exact EL]]. split; [exact R'|]. destruct K1 as (A1 & A2 & A3 & A4 & A5 & A6 & A7 & A8 & A9). destruct K' as (B1 & B2 & B3 & B4 & B5 & B6 & B7 & B8 & B9).
    split; [repeat split; congruence|]. split; [unfold phrases_of in *; rewrite B2; exact P1|]. split; [exact RK3|]. eapply kept_more_trans; [exact KM1|exact (update_kept_more _ _ _ _ EU)].
  - intros m h (R1 & _). cbn [h_finish hm_hooks]. 
    pose proof R1 as (U1 & _ & J1 & _). destruct (terminate_ok h U1 J1) as (h' & EH & _). exists h'. rewrite EH. split; reflexivity.
  - cbn [h_allocate hm_hooks]. rewrite E1. reflexivity.
  - cbn [h_init hm_hooks]. rewrite EI. fold data. change (num RA) with R in *. rewrite E2. reflexivity.
  - split; [exact R2|]. split; [repeat split|]. split; [exact PO|]. split; [exact RK|exact KM2].
  - exists s'. split; [exact E|]. split; [exact D|]. destruct (hrounds_stop_at p data h2 h3 Hp RD) as (k & EN & SN).
    split; [exists h2, h3, k; auto|]. destruct (terminate_ready h3 (t_m s') I1 TM) as (RT & ST). split; [exact RT|].
    pose proof (frame_chain h0 h2 h3 FK I2) as FC. pose proof FC as (_ & _ & _ & _ & PP & _). unfold hc_n, hc_mode in ST. rewrite PP in ST. split; [exact ST|].
    split; [|eapply kept_more_trans; [exact I5|exact (terminate_kept_more _ _ TM)]].
    pose proof I1 as (U3 & _ & J3 & _). destruct (terminate_ok h3 U3 J3) as (h4 & E4 & _ & _ & _ & _ & _ & _ & K4). rewrite E4 in TM. injection TM as EQ. rewrite <- EQ. exact (frame_chain _ _ _ FC K4).
Qed.
