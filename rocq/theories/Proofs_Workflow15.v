(** Training a class of a hidden Markov model again: what it had learned and the state it was in do not
    matter, its exit probabilities apart. *)
From Coq Require Import String List Bool Arith ZArith Reals Lia Lra Qreals.
From Verif Require Import Base BaseFacts Arith RFacts Model_Map Model_Ring Model_Phrase Model_TrainingSet Model_Gaussian Model_Config Model_KMeans Model_GMM Model_HMM Model_HHMM Model_Shared
  Model_Train Model_Reload Model_Workflow Model_Workflow2 Model_Workflow4 Spec_Common Spec_Phrase Spec_TrainingSet Spec_Train Spec_Shared Spec_Matrix Spec_Gaussian Spec_GMM Spec_HMM Spec_HMMInit
  Spec_EM2 Spec_HHMM Spec_Reload Spec_Workflow Spec_Workflow2 Spec_Workflow4 Proofs_Rel Proofs_Reload6
  Proofs_Map Proofs_Phrase Proofs_PhraseStats Proofs_TrainingStats Proofs_Train Proofs_GMM Proofs_GMM4 Proofs_HMM11 Proofs_HMM10 Proofs_HMM12 Proofs_HMM14 Props_HMM
  Proofs_Workflow Proofs_Workflow2 Proofs_Workflow4 Proofs_Workflow7 Proofs_Workflow8.
Import ListNotations.
Local Open Scope list_scope.
Local Open Scope nat_scope.

Lemma hsame_refl : forall h : hclass RA, same_hclass h h.
Proof. intro h. repeat split. Qed.
Lemma hsame_sym : forall h k : hclass RA, same_hclass h k -> same_hclass k h.
Proof. intros h k (E1 & E2 & E3 & E4 & E5 & E6 & E7 & E8). repeat split; congruence. Qed.
Lemma hsame_trans : forall h k j : hclass RA, same_hclass h k -> same_hclass k j -> same_hclass h j.
Proof. intros h k j (E1 & E2 & E3 & E4 & E5 & E6 & E7 & E8) (F1 & F2 & F3 & F4 & F5 & F6 & F7 & F8). repeat split; congruence. Qed.

(** ** The steps of the training do not look at the rest *)
Definition alpha_sized (h : hclass RA) : Prop := hc_mode h = Ergodic -> length (h_alpha (hc_run h)) = hc_n h.
(** After allocation. *)
Definition same_alloc (h k : hclass RA) : Prop :=
  same_frame k h /\ h_states (hc_net h) = h_states (hc_net k) /\ (hc_mode h = LeftRight -> h_prior (hc_net h) = h_prior (hc_net k)) /\ alpha_sized h /\ alpha_sized k.
(** After initialisation. *)
Definition alphas (h : hclass RA) (al al' : list R) : Prop := al = al' \/ (hc_mode h = Ergodic -> length al = hc_n h /\ length al' = hc_n h).
Definition same_net (h k : hclass RA) : Prop := same_hclass h k /\ alphas h (h_alpha (hc_run h)) (h_alpha (hc_run k)).

Lemma hallocate_same : forall h k h1 k1 : hclass RA, same_frame k h -> hm_allocate (A := RA) h = Ok h1 -> hm_allocate (A := RA) k = Ok k1 -> same_alloc h1 k1.
Proof.
  intros h k h1 k1 (E1 & E2 & E3 & E4 & E5) A B. unfold hm_allocate in A, B. unfold new_mixture, hc_mode, hc_n in A, B. rewrite E1, E2, E3, E4, E5 in A.
  destruct (gm_allocate _) as [g| |]; cbn [bind] in A, B; try discriminate.
  match type of A with (if hc_hier ?x then _ else _) = _ => set (x1 := x) in A end. match type of B with (if hc_hier ?x then _ else _) = _ => set (y1 := x) in B end.
  assert (S : same_alloc x1 y1).
  { repeat split; unfold x1, y1, hc_set_net, hc_set_run, hc_mode, hc_n; cbn; try congruence.
    - unfold hc_mode; cbn. rewrite E5. intros ->. reflexivity.
    - unfold alpha_sized, hc_n; cbn. rewrite E5. intros _. apply vresize_length.
    - unfold alpha_sized, hc_n; cbn. intros _. apply vresize_length. }
  assert (X : forall a b : hclass RA, (if hc_hier a then hm_exit_default a else Ok a) = Ok b -> exists e, b = hc_set_net (nt_exit (A := RA) e (hc_net a)) a).
  { intros a b H. destruct (hc_hier a) eqn:EH.
    - unfold hm_exit_default in H. rewrite EH in H. cbn [negb] in H. destruct (exit_default _ _) as [e| |]; cbn [bind] in H; try discriminate. injection H as <-. exists e. reflexivity.
    - injection H as <-. exists (h_exit (hc_net a)). destruct a as [? ? ? ? ? ? [] ?]. reflexivity. }
  destruct (X _ _ A) as (e & ->). destruct (X _ _ B) as (f & ->). clear -S. unfold same_alloc, same_frame, alpha_sized, hc_mode, hc_n in *. cbn. exact S.
Qed.

Lemma hdefault_same : forall dev (h k : hclass RA), same_alloc h k -> res_rel same_net (hm_default (A := RA) dev h) (hm_default (A := RA) dev k).
Proof.
  intros dev h k ((E1 & E2 & E3 & E4 & E5) & ES & EP & Al & Al'). unfold hm_default. unfold hc_mode, hc_n in *. rewrite E5, ES in *.
  destruct (hp_trans (hc_par k)) eqn:MO.
  - unfold set_ergodic. cbn [bind]. match goal with |- res_rel _ (bind ?m _) _ => destruct m end; cbn [bind]; constructor.
    unfold same_net, alphas, alpha_sized, same_hclass, hc_mode, hc_n in *. cbn. rewrite E5 in *. split; [repeat split; auto; congruence|right; auto].
  - rewrite EP by reflexivity. destruct (set_leftright (A := RA) (hp_states (hc_par k))) as [t| |]; cbn [bind]; [|constructor|constructor].
    match goal with |- res_rel _ (bind ?m _) _ => destruct m end; cbn [bind]; constructor.
    unfold same_net, alphas, alpha_sized, same_hclass, hc_mode, hc_n in *. cbn. rewrite E5 in *. split; [repeat split; auto; congruence|right; auto].
Qed.

Lemma same_net_frame : forall h k : hclass RA, same_net h k -> same_frame k h.
Proof. intros h k ((E1 & E2 & E3 & E4 & E5 & _) & _). repeat split; assumption. Qed.

Lemma hinit_same : forall iters devs dev data (h k : hclass RA), same_alloc h k -> data <> [] -> res_rel same_net (hm_init (A := RA) iters devs dev data h) (hm_init (A := RA) iters devs dev data k).
Proof.
  intros iters devs dev data h k S ND. unfold hm_init. destruct data as [|ph data]; [contradiction|]. eapply rr_bind; [apply hdefault_same, S|]. intros a b Q.
  pose proof (same_net_frame a b Q) as FR. destruct (same_mixture b a FR) as (NM & NN). pose proof Q as ((E1 & E2 & E3 & E4 & E5 & E6 & E7 & E8) & Al). unfold hm_init_states, gm_fit. rewrite NM, NN, E6.
  match goal with |- res_rel _ (bind ?m _) _ => destruct m end; cbn [bind]; constructor. unfold same_net, alphas, same_hclass, hc_mode, hc_n in *. cbn. split; [repeat split; auto; congruence|exact Al].
Qed.

(** The forward variables are overwritten. *)
Lemma forward_backward_alpha : forall N mode (prior tr al al' : list R) obs0 B C, (mode = Ergodic -> length al = N /\ length al' = N) ->
  forward_backward (A := RA) N mode prior tr al obs0 B C = forward_backward (A := RA) N mode prior tr al' obs0 B C.
Proof. intros. unfold forward_backward. rewrite (forward_init_sim (A := RA) N mode prior obs0 obs0 al al'); [reflexivity|reflexivity|assumption]. Qed.

Lemma hestep_same : forall ph (h k : hclass RA) al al', same_hclass h k -> alphas h al al' -> hm_estep (A := RA) h al ph = hm_estep (A := RA) k al' ph.
Proof.
  intros ph h k al al' (E1 & E2 & E3 & E4 & E5 & E6 & E7 & E8) Al. unfold alphas, hm_estep, hm_frame_comp, hm_frame_obs, hc_mode, hc_n in *. rewrite E1, E3, E5, E6, E7, E8 in *.
  match goal with |- bind ?m _ = _ => destruct m as [B| |] end; cbn [bind]; try reflexivity. match goal with |- bind ?m _ = _ => destruct m as [C| |] end; cbn [bind]; try reflexivity.
  destruct Al as [->|Al]; [reflexivity|]. apply forward_backward_alpha, Al.
Qed.
Lemma hesteps_same : forall data (h k : hclass RA) al al', same_hclass h k -> alphas h al al' ->
  res_rel (fun a b => fst a = fst b /\ alphas h (snd a) (snd b)) (hm_esteps (A := RA) h al data) (hm_esteps (A := RA) k al' data).
Proof.
  induction data as [|ph data IH]; intros h k al al' S Al; cbn [hm_esteps]; [constructor; auto|].
  destruct ph as [|x ph].
  - cbn [bind]. eapply rr_bind; [apply (IH h k al al' S Al)|]. intros [es a] [es' b] (Q & Q'). cbn [fst snd] in Q, Q'. subst es'. constructor. auto.
  - rewrite (hestep_same (x :: ph) h k al al' S Al). destruct (hm_estep k al' (x :: ph)) as [[e a]| |]; cbn [bind]; [|constructor|constructor].
    eapply rr_bind; [apply (IH h k a a S (or_introl eq_refl))|]. intros [es a'] [es' b'] (Q & Q'). cbn [fst snd] in Q, Q'. subst es'. constructor. auto.
Qed.
Lemma hupdate_same : forall data (h k : hclass RA), same_net h k -> res_rel (fun a b => same_net (fst a) (fst b) /\ snd a = snd b) (hm_update (A := RA) data h) (hm_update (A := RA) data k).
Proof.
  intros data h k (S & Al). unfold hm_update. eapply rr_bind; [apply hesteps_same; eassumption|]. intros [es a] [es' b] (Q & Q'). cbn [fst snd] in Q, Q'. subst es'.
  pose proof S as (E1 & E2 & E3 & E4 & E5 & E6 & E7 & E8). unfold hm_state, alphas, hc_mode, hc_n in *. rewrite E2, E5, E6, E7 in *.
  match goal with |- res_rel _ (bind ?m _) _ => destruct m end; cbn [bind]; [|constructor|constructor].
  match goal with |- res_rel _ (bind ?m _) _ => destruct m end; cbn [bind]; [|constructor|constructor].
  match goal with |- res_rel _ (bind ?m _) _ => destruct m end; cbn [bind]; constructor. split; [|reflexivity].
  unfold same_net, alphas, same_hclass, hc_mode, hc_n in *. cbn. rewrite E5. split; [repeat split; congruence|exact Q'].
Qed.
Lemma hupdates_same : forall n data (h k : hclass RA), same_net h k -> res_rel same_net (hm_updates (A := RA) n data h) (hm_updates (A := RA) n data k).
Proof.
  induction n as [|n IH]; intros data h k S; cbn [hm_updates]; [constructor; exact S|]. eapply rr_bind; [apply hupdate_same, S|]. intros [a x] [b y] (Q & _). apply IH, Q.
Qed.
Lemma hterminate_same : forall h k : hclass RA, same_net h k -> res_rel same_net (hm_terminate (A := RA) h) (hm_terminate (A := RA) k).
Proof.
  intros h k (S & Al). pose proof S as (E1 & E2 & E3 & E4 & E5 & E6 & E7 & E8). unfold hm_terminate, alphas, hc_mode, hc_n in *. rewrite E5, E6, E7, E8 in *.
  match goal with |- res_rel _ (bind ?m _) _ => destruct m end; cbn [bind]; [|constructor|constructor].
  match goal with |- res_rel _ (bind ?m _) _ => destruct m end; cbn [bind]; constructor.
  unfold same_net, alphas, same_hclass, hc_mode, hc_n in *. cbn. rewrite E5. split; [repeat split; congruence|exact Al].
Qed.

(** ** The whole training *)
Lemma hll_same : forall data (h k : hclass RA), same_hclass h k -> phrases_ll h data = phrases_ll k data.
Proof.
  intros data h k (E1 & E2 & E3 & E4 & E5 & E6 & E7 & E8). unfold phrases_ll. f_equal. apply map_ext. intro ph. f_equal.
  unfold hc_prior, hc_trans, frame_liks, state_at, hc_n, hc_mode. rewrite E5, E6, E7, E8. reflexivity.
Qed.
Lemma new_trans_same : forall data (h k : hclass RA) i j, same_hclass h k -> new_trans h data i j = new_trans k data i j.
Proof.
  intros data h k i j (E1 & E2 & E3 & E4 & E5 & E6 & E7 & E8).
  unfold new_trans, moves, visits, occupancy, occupancy2, hc_prior, hc_trans, frame_liks, state_at, hc_n, hc_mode. rewrite E5, E6, E7, E8. reflexivity.
Qed.
Lemma rows_same : forall n data (h k : hclass RA), same_net h k -> rows_kept n data k -> rows_kept n data h.
Proof.
  induction n as [|n IH]; intros data h k S; cbn [rows_kept]; [auto|]. intros (R1 & R2). pose proof S as ((_ & _ & _ & _ & E5 & _) & _). split.
  - intros i Hi. unfold hc_n in *. rewrite E5 in *. rewrite (Rsum_ext _ (new_trans h data i) (new_trans k data i)); [apply R1, Hi|]. intros j _. apply new_trans_same, S.
  - intros h' lp E. pose proof (hupdate_same data h k S) as U. rewrite E in U. inversion U as [a b (P & Q) Ea Eb| |]; subst. destruct b as [k' lp']. cbn [fst snd] in *. apply (IH data h' k' P). eapply R2. eauto.
Qed.

Lemma hll_after_same : forall data (h k : hclass RA) n x, same_net h k -> hll_after data h n x -> hll_after data k n x.
Proof.
  intros data h k [|n] x H; cbn [hll_after]; [auto|]. intros (g' & E & X). pose proof (hupdates_same n data h k H) as U. rewrite E in U. inversion U as [a b P Ea Eb| |]; subst.
  exists b. split; [reflexivity|]. apply hll_same, P.
Qed.
Lemma hstops_same : forall p data (h k : hclass RA) n, same_net h k -> hstops_at p data h n -> hstops_at p data k n.
Proof.
  intros p data g h n H (N & (a & b & A1 & A2 & A3) & B). split; [exact N|]. split.
  - exists a, b. split; [|split]; try assumption; eapply hll_after_same; eauto.
  - intros k Hk. destruct (B k Hk) as (c & d & B1 & B2 & B3). exists c, d. split; [|split]; try assumption; eapply hll_after_same; eauto.
Qed.

Lemma piece_rounds_frame : forall p h k data s n, same_frame k h -> piece_rounds p h data s n -> piece_rounds p k data s n.
Proof.
  intros p h k data s n F H. destruct (same_mixture k h F) as (NM & NN). destruct F as (_ & D & _). unfold piece_rounds, piece_devs in *. rewrite NM, NN, D in H. exact H.
Qed.
Lemma piece_devs_frame : forall (h k : hclass RA) data s, same_frame k h -> piece_devs h data s = piece_devs k data s.
Proof. intros h k data s F. destruct (same_mixture k h F) as (_ & NN). destruct F as (_ & D & _). unfold piece_devs. rewrite NN, D. reflexivity. Qed.

Lemma init_devs : forall iters devs devs' dev data (h : hclass RA), (forall s, devs s = devs' s) -> hm_init (A := RA) iters devs dev data h = hm_init (A := RA) iters devs' dev data h.
Proof.
  intros iters devs devs' dev data h E. unfold hm_init. destruct data as [|ph data]; [reflexivity|]. destruct (hm_default dev h) as [h1| |]; cbn [bind]; try reflexivity. unfold hm_init_states.
  f_equal. apply tabM_agree. intros i Hi. destruct (rd (h_states (hc_net h1)) i); cbn [bind]; try reflexivity. destruct (seg_data (hc_n h1) i (ph :: data)); [reflexivity|]. rewrite E. reflexivity.
Qed.

Lemma started_same : forall p (h0 k0 h2 k1 : hclass RA) data, same_frame k0 h0 -> data <> [] -> started_from p h0 data h2 -> hm_allocate (A := RA) k0 = Ok k1 ->
  exists k2, started_from p k0 data k2 /\ same_net h2 k2.
Proof.
  intros p h0 k0 h2 k1 data F ND (iters & h1 & PR & EA & EI) EK. destruct (same_mixture k0 h0 F) as (_ & NN). pose proof F as (_ & D & _).
  pose proof (hinit_same iters (piece_devs h0 data) (deviations (hc_dim h0) (concat data)) data h1 k1 (hallocate_same h0 k0 h1 k1 F EA EK) ND) as U.
  rewrite EI in U. inversion U as [a b P Ea Eb| |]; subst. exists b. split; [|exact P]. exists iters, k1. split; [|split; [exact EK|]].
  - intros s Hs. apply (piece_rounds_frame p h0 k0 data s _ F), PR. rewrite NN. exact Hs.
  - rewrite <- D, <- (init_devs iters (piece_devs h0 data) (piece_devs k0 data)); [symmetry; exact Eb|]. intro s. apply piece_devs_frame, F.
Qed.

Lemma hlearned_same : forall p data (h0 k0 h k : hclass RA), same_frame k0 h0 -> data <> [] -> hlearned p h0 data h -> hlearned p k0 data k -> same_hclass h k.
Proof.
  intros p data h0 k0 h k F ND (h2 & h3 & n & A1 & A2 & A3 & A4) (k2 & k3 & n' & B1 & B2 & B3 & B4).
  pose proof B1 as (it & k1 & _ & EK & _). destruct (started_same p h0 k0 h2 k1 data F ND A1 EK) as (k2' & SK & Q).
  rewrite (started_fun p k0 data k2' k2 SK B1) in Q. pose proof (hstops_same p data h2 k2 n Q A3) as S4. rewrite (hstops_at_fun p data k2 n n' S4 B3) in *.
  pose proof (hupdates_same n' data h2 k2 Q) as W. rewrite A2, B2 in W. inversion W as [a b P Ea Eb| |]; subst.
  pose proof (hterminate_same h3 k3 P) as V. rewrite A4, B4 in V. inversion V as [a b P' Ea Eb| |]; subst. apply P'.
Qed.

(** ** Exit probabilities *)
Lemma renewed_ok : forall N (ex : list R), 1 <= N -> exit_default (A := RA) N ex = Ok (renewed_exit N ex).
Proof.
  intros N ex HN. unfold exit_default. rewrite wr_ok by (rewrite vresize_length; lia). f_equal.
  assert (Q : nofQ (a := RA) (QArith_base.Qmake 1 10) = (/ 10)%R) by (cbn; unfold Q2R; cbn; lra). change (num RA) with R in *. rewrite Q.
  apply (nth_ext _ _ 0%R 0%R).
  - rewrite upd_length, vresize_length. unfold renewed_exit. rewrite tab_length. reflexivity.
  - rewrite upd_length, vresize_length. intros i Hi. unfold renewed_exit. rewrite nth_tab by exact Hi. destruct (Nat.eqb_spec i (N - 1)) as [->|Hd].
    + rewrite nth_upd_eq by (rewrite vresize_length; lia). reflexivity.
    + rewrite nth_upd_neq by lia. unfold vresize. rewrite n0_RA. change (num RA) with R in *. destruct (Nat.lt_ge_cases i (length ex)) as [Hl|Hl].
      * rewrite app_nth1 by (rewrite firstn_length; lia). rewrite <- (firstn_skipn N ex) at 2. rewrite app_nth1 by (rewrite firstn_length; lia). reflexivity.
      * rewrite app_nth2 by (rewrite firstn_length; lia). rewrite nth_repeat. symmetry. apply nth_overflow, Hl.
Qed.

Lemma allocate_exit : forall h h' : hclass RA, 1 <= hc_n h -> hc_hier h = true -> hm_allocate (A := RA) h = Ok h' ->
  h_exit (hc_net h') = renewed_exit (hc_n h) (h_exit (hc_net h)) /\ h_inst (hc_run h') = h_inst (hc_run h).
Proof.
  intros h h' Hn HH H. unfold hm_allocate in H. destruct (gm_allocate _) as [g| |]; cbn [bind] in H; try discriminate.
  set (k := hc_set_net _ _) in H. assert (X1 : hc_hier k = hc_hier h) by reflexivity. assert (X2 : hc_n k = hc_n h) by reflexivity. assert (X3 : h_exit (hc_net k) = h_exit (hc_net h)) by reflexivity.
  assert (X4 : h_inst (hc_run k) = h_inst (hc_run h)) by reflexivity. clearbody k. rewrite X1, HH in H.
  unfold hm_exit_default in H. rewrite X1, HH in H. cbn [negb] in H. rewrite X2, X3, (renewed_ok (hc_n h) _ Hn) in H. cbn [bind] in H. injection H as <-. split; [reflexivity|exact X4].
Qed.

Lemma hclass_learned2 : forall p (h0 : hclass RA) ps cs, 1 <= em_min p -> Forall2 rep ps cs -> (forall c, In c cs -> fits_set h0 c) -> (hc_bim h0 = true -> 1 <= hc_din h0) ->
  let data := map (frames_of (A := RA)) cs in
  hmm_trainable h0 (piece_devs h0 data) (deviations (hc_dim h0) (concat data)) data -> hc_hier h0 = true ->
  (hc_mode h0 = LeftRight /\ (INR (length (concat data)) <= 10 ^ 90)%R \/ forall h2, started_from p h0 data h2 -> rows_kept 1000 data h2) ->
  exists s', em_train (hm_hooks p (hc_dim h0) ps) p (fun _ => false) 1000 false (train_start h0) = (s', Returned) /\ t_status s' = Done /\
    hlearned p h0 data (t_m s') /\ hmm_ready (t_m s') /\ stochastic (hc_n h0) (hc_mode h0) (h_trans (hc_net (t_m s'))) /\ frame_kept h0 (t_m s') /\ h_exit (hc_net (t_m s')) = renewed_exit (hc_n h0) (h_exit (hc_net h0)) /\ h_inst (hc_run (t_m s')) = h_inst (hc_run h0).
Proof.
  intros p h0 ps cs Hp HF HC HI data HT HE HK. pose proof HT as (T1 & _ & _ & _ & _ & _ & _ & T8 & _).
  destruct (init_ready (fun _ => 0) _ _ _ _ HT) as (h1 & _ & E1 & _). 
  assert (FK1 : same_frame h0 h1).
  { destruct (init_ready (fun _ => 0) _ _ _ _ HT) as (h1' & h2' & E1' & _). destruct (allocate_ok h0 T1 ltac:(apply HT) ltac:(apply HT)) as (k & g & EK & _ & _ & _ & _ & _ & _ & _ & _ & _ & _ & _ & K & _).
    rewrite E1 in EK. injection EK as <-. destruct K as (K1 & K2 & K3 & K4 & K5 & _). repeat split; assumption. }
  destruct (init_set_ok p h0 h1 ps cs _ FK1 Hp HF HC HI HT) as (iters & PI & EI).
  destruct (init_ready iters _ _ _ _ HT) as (h1' & h2 & E1' & E2 & R2 & S2 & FK & _). rewrite E1 in E1'. injection E1' as <-.
  assert (SF : started_from p h0 data h2) by (exists iters, h1; auto).
  assert (PO : phrases_of h2 data). { unfold phrases_of in *. destruct FK as (_ & D & _). rewrite D. exact T8. }
  assert (RK : rows_kept 1000 data h2).
  { destruct HK as [(M & L)|K]; [|apply K; exact SF]. apply lr_kept; [exact R2|exact PO| |exact L]. destruct FK as (_ & _ & _ & _ & P & _). unfold hc_mode in *. rewrite P. exact M. }
  pose proof (init_kept _ _ _ _ _ _ E2) as KM2. destruct (allocate_exit h0 h1 T1 HE E1) as (XE & XI).
  destruct (train_rounds2 (hm_hooks p (hc_dim h0) ps) p
    (fun n h => hmm_ready h /\ hmm_kept h2 h /\ phrases_of h data /\ rows_kept (1000 - n) data h /\ kept_more h1 h) (hem_step data) (fun h h' => hm_terminate (A := RA) h = Ok h') h0 h1 h2 real_not_nan)
    as (s' & n & h3 & E & D & (I1 & I2 & I3 & I4 & I5) & TM & RD).
  - intros n h Hn (R1 & K1 & P1 & RK1 & KM1). destruct (C75_update h data R1 P1) as (h' & lp & EU & EL & _).
    replace (1000 - n) with (S (1000 - S n)) in RK1 by lia. pose proof RK1 as (RK2 & RK3). specialize (RK3 h' lp EU).
    destruct (updates_kept 1 h data R1 P1) as (h'' & EU' & R' & K'); [split; [exact RK2|intros; exact I]|]. cbn [hm_updates] in EU'. rewrite EU in EU'. cbn [bind] in EU'. injection EU' as <-.
    exists h', lp. cbn [h_update hm_hooks]. rewrite (reps_data ps cs HF). cbn [bind]. fold data. change (num RA) with R in *. rewrite EU. split; [reflexivity|].
    split; [|split; [exact EU|exact EL]]. split; [exact R'|]. destruct K1 as (A1 & A2 & A3 & A4 & A5 & A6 & A7 & A8 & A9). destruct K' as (B1 & B2 & B3 & B4 & B5 & B6 & B7 & B8 & B9).
    split; [repeat split; congruence|]. split; [unfold phrases_of in *; rewrite B2; exact P1|]. split; [exact RK3|]. eapply kept_more_trans; [exact KM1|exact (update_kept_more _ _ _ _ EU)].
  - intros m h (R1 & _). cbn [h_finish hm_hooks]. 
    pose proof R1 as (U1 & _ & J1 & _). destruct (terminate_ok h U1 J1) as (h' & EH & _). exists h'. rewrite EH. split; reflexivity.
  - cbn [h_allocate hm_hooks]. rewrite E1. reflexivity.
  - cbn [h_init hm_hooks]. rewrite EI. fold data. change (num RA) with R in *. rewrite E2. reflexivity.
  - split; [exact R2|]. split; [repeat split|]. split; [exact PO|]. split; [exact RK|exact KM2].
  - exists s'. split; [exact E|]. split; [exact D|]. destruct (hrounds_stop_at p data h2 h3 Hp RD) as (k & EN & SN).
    split; [exists h2, h3, k; auto|]. destruct (terminate_ready h3 (t_m s') I1 TM) as (RT & ST). split; [exact RT|].
    pose proof (frame_chain h0 h2 h3 FK I2) as FC. pose proof FC as (_ & _ & _ & _ & PP & _). unfold hc_n, hc_mode in ST. rewrite PP in ST. split; [exact ST|].
    destruct (kept_more_trans _ _ _ I5 (terminate_kept_more _ _ TM)) as (XE' & XI'). split; [|split; congruence].
    pose proof I1 as (U3 & _ & J3 & _). destruct (terminate_ok h3 U3 J3) as (h4 & E4 & _ & _ & _ & _ & _ & _ & K4). rewrite E4 in TM. injection TM as EQ. rewrite <- EQ. exact (frame_chain _ _ _ FC K4).
Qed.
