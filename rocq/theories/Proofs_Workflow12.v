(** Training a class again: what it had learned and the state it was in do not matter. *)
From Coq Require Import String List Bool Arith ZArith Reals Lia.
From Verif Require Import Base BaseFacts Arith RFacts Model_Map Model_Ring Model_Phrase Model_TrainingSet Model_Gaussian Model_Config Model_KMeans Model_GMM Model_Shared
  Model_Train Model_Reload Model_Workflow Model_Workflow3 Spec_Common Spec_GMM Spec_Reload Spec_Workflow Spec_Workflow3 Proofs_Rel Proofs_Reload6 Proofs_Workflow4.
Import ListNotations.
Local Open Scope list_scope.
Local Open Scope nat_scope.

Section Static.
  Context {A : arith}.
  Local Notation T := (num A).

  Lemma same_refl : forall g : gclass A, same_class g g.
  Proof. intro g. repeat split. Qed.
  Lemma same_sym : forall g h : gclass A, same_class g h -> same_class h g.
  Proof. intros g h (E1 & E2 & E3 & E4 & E5 & E6 & E7 & E8). repeat split; congruence. Qed.
  Lemma same_trans : forall g h k : gclass A, same_class g h -> same_class h k -> same_class g k.
  Proof. intros g h k (E1 & E2 & E3 & E4 & E5 & E6 & E7 & E8) (F1 & F2 & F3 & F4 & F5 & F6 & F7 & F8). repeat split; congruence. Qed.

  Definition same_start (g h : gclass A) : Prop :=
    gc_bim g = gc_bim h /\ gc_dim g = gc_dim h /\ gc_din g = gc_din h /\ gc_win g = gc_win h /\ gc_par g = gc_par h.
  Definition same_alloc (g h : gclass A) : Prop := same_start g h /\ gc_comp g = gc_comp h.

  Lemma allocate_same : forall g h : gclass A, same_start g h -> res_rel same_alloc (gm_allocate g) (gm_allocate h).
  Proof.
    intros g h (E1 & E2 & E3 & E4 & E5). unfold gm_allocate, gc_mode, gc_n. rewrite E1, E2, E3, E5.
    destruct (g_new 0 (gc_bim h) (gc_dim h) (gc_din h) (gp_mode (gc_par h))); cbn [bind]; [|constructor|constructor].
    constructor. repeat split; assumption.
  Qed.

  Lemma default_same : forall dev (g h : gclass A), same_alloc g h -> res_rel same_class (gm_default dev g) (gm_default dev h).
  Proof.
    intros dev g h ((E1 & E2 & E3 & E4 & E5) & E6). unfold gm_default, gc_mode, gc_n. rewrite E2, E5, E6.
    match goal with |- res_rel _ (bind ?m _) _ => destruct m end; cbn [bind]; [|constructor|constructor].
    constructor. repeat split; assumption.
  Qed.

  Lemma means_same : forall data (g h : gclass A), same_class g h -> res_rel same_class (gm_init_means data g) (gm_init_means data h).
  Proof.
    intros data g h H. unfold gm_init_means. destruct data; [constructor; exact H|]. destruct H as (E1 & E2 & E3 & E4 & E5 & E6 & E7 & E8).
    unfold gc_n. rewrite E2, E5, E7. match goal with |- res_rel _ (bind ?m _) _ => destruct m end; cbn [bind]; [|constructor|constructor].
    match goal with |- res_rel _ (bind ?m _) _ => destruct m end; cbn [bind]; [|constructor|constructor].
    constructor. repeat split; assumption.
  Qed.

  Lemma cov_same : forall data (g h : gclass A), same_class g h -> res_rel same_class (gm_init_cov data g) (gm_init_cov data h).
  Proof.
    intros data g h H. unfold gm_init_cov. destruct data; [constructor; exact H|]. destruct H as (E1 & E2 & E3 & E4 & E5 & E6 & E7 & E8).
    unfold gc_n, gc_mode. rewrite E2, E5, E7. match goal with |- res_rel _ (bind ?m _) _ => destruct m end; cbn [bind]; [|constructor|constructor].
    constructor. repeat split; assumption.
  Qed.

  Lemma offset_same : forall g h : gclass A, same_class g h -> res_rel same_class (gm_offset g) (gm_offset h).
  Proof.
    intros g h (E1 & E2 & E3 & E4 & E5 & E6 & E7 & E8). unfold gm_offset. rewrite E7, E8.
    match goal with |- res_rel _ (bind ?m _) _ => destruct m end; cbn [bind]; [|constructor|constructor]. constructor. repeat split; assumption.
  Qed.

  Lemma inverses_same : forall g h : gclass A, same_class g h -> res_rel same_class (gm_inverses g) (gm_inverses h).
  Proof.
    intros g h (E1 & E2 & E3 & E4 & E5 & E6 & E7 & E8). unfold gm_inverses. rewrite E7.
    match goal with |- res_rel _ (bind ?m _) _ => destruct m end; cbn [bind]; [|constructor|constructor]. constructor. repeat split; assumption.
  Qed.

  Lemma init_same : forall data dev (g h : gclass A), same_alloc g h -> res_rel same_class (gm_init data dev g) (gm_init data dev h).
  Proof.
    intros data dev g h H. unfold gm_init. eapply rr_bind; [apply default_same, H|]. intros a b Hab.
    eapply rr_bind; [apply means_same, Hab|]. intros a' b' Hab'.
    eapply rr_bind; [apply cov_same, Hab'|]. intros a2 b2 H2.
    eapply rr_bind; [apply offset_same, H2|]. intros a3 b3 H3. apply inverses_same, H3.
  Qed.

  Lemma frame_obs_same : forall (g h : gclass A) x c, same_class g h -> gm_frame_obs g x c = gm_frame_obs h x c.
  Proof.
    intros g h x c (E1 & E2 & E3 & E4 & E5 & E6 & E7 & E8). unfold gm_frame_obs, gm_obs_bim, gm_obs, gc_n. rewrite E1, E3, E5, E6, E7. reflexivity.
  Qed.

  Lemma estep_same : forall (g h : gclass A) frames, same_class g h -> gm_estep g frames = gm_estep h frames.
  Proof.
    intros g h frames H. pose proof H as (E1 & E2 & E3 & E4 & E5 & E6 & E7 & E8). unfold gm_estep, gc_n. rewrite E5.
    generalize (([], repeat n0 (gp_gauss (gc_par h)), n0) : list (list T) * list T * T).
    induction frames as [|x frames IH]; intros s; [reflexivity|]. cbn [foldM].
    assert (E : gm_estep_frame g s x = gm_estep_frame h s x).
    { unfold gm_estep_frame, gc_n. rewrite E5. destruct s as [[ps E] lp].
      replace (tabM (gp_gauss (gc_par h)) (fun c => let* v := gm_frame_obs g x c in Ok (gm_fix v)))
        with (tabM (gp_gauss (gc_par h)) (fun c => let* v := gm_frame_obs h x c in Ok (gm_fix v))); [reflexivity|].
      apply tabM_ext. intros c _. rewrite (frame_obs_same g h x c H). reflexivity. }
    rewrite E. destruct (gm_estep_frame h s x); cbn [bind]; [apply IH|reflexivity|reflexivity].
  Qed.

  Lemma update_same : forall frames (g h : gclass A), same_class g h ->
    res_rel (fun a b => same_class (fst a) (fst b) /\ snd a = snd b) (gm_update frames g) (gm_update frames h).
  Proof.
    intros frames g h H. pose proof H as (E1 & E2 & E3 & E4 & E5 & E6 & E7 & E8). unfold gm_update, gc_n, gc_mode. rewrite (estep_same g h frames H), E2, E5, E7.
    destruct (gm_estep h frames) as [[[ps E] lp]|e|]; cbn [bind]; [|constructor|constructor].
    match goal with |- res_rel _ (bind ?m _) _ => destruct m end; cbn [bind]; [|constructor|constructor].
    match goal with |- res_rel _ (bind ?m _) _ => destruct m end; cbn [bind]; [|constructor|constructor].
    eapply rr_bind; [apply offset_same|].
    { repeat split; assumption. }
    intros p q Hpq. eapply rr_bind; [apply inverses_same, Hpq|]. intros p' q' Hpq'. constructor. split; [exact Hpq'|reflexivity].
  Qed.

  Lemma updates_same : forall n frames (g h : gclass A), same_class g h -> res_rel same_class (gm_updates n frames g) (gm_updates n frames h).
  Proof.
    induction n as [|n IH]; intros frames g h H; cbn [gm_updates]; [constructor; exact H|].
    eapply rr_bind; [apply update_same, H|]. intros [a x] [b y] (Hab & _). apply IH, Hab.
  Qed.
End Static.

Lemma loglik_same : forall frames (g h : gclass RA), same_class g h -> data_loglik g frames = data_loglik h frames.
Proof.
  intros frames g h (E1 & E2 & E3 & E4 & E5 & E6 & E7 & E8). unfold data_loglik, gc_n. rewrite E5. f_equal. apply map_ext. intro x. f_equal.
  apply Rsum_ext. intros c Hc. unfold score, weight, comp_at. rewrite ?E1, ?E3, ?E6, ?E7. reflexivity.
Qed.

Lemma ll_after_same : forall frames (g h : gclass RA) k x, same_class g h -> ll_after frames g k x -> ll_after frames h k x.
Proof.
  intros frames g h [|k] x H; cbn [ll_after]; [auto|]. intros (g' & E & X). pose proof (updates_same (A := RA) k frames g h H) as U. rewrite E in U. inversion U as [a b P Ea Eb| |]; subst.
  exists b. split; [reflexivity|]. apply loglik_same, P.
Qed.

Lemma stops_same : forall p frames (g h : gclass RA) n, same_class g h -> stops_at p frames g n -> stops_at p frames h n.
Proof.
  intros p frames g h n H (N & (a & b & A1 & A2 & A3) & B). split; [exact N|]. split.
  - exists a, b. split; [|split]; try assumption; eapply ll_after_same; eauto.
  - intros k Hk. destruct (B k Hk) as (c & d & B1 & B2 & B3). exists c, d. split; [|split]; try assumption; eapply ll_after_same; eauto.
Qed.

Lemma learned_same : forall p data (g0 h0 g h : gclass RA), same_start g0 h0 -> learned p g0 data g -> learned p h0 data h -> same_class g h.
Proof.
  intros p data g0 h0 g h S (g1 & g2 & n & A1 & A2 & A3 & A4) (h1 & h2 & n' & B1 & B2 & B3 & B4).
  pose proof (allocate_same g0 h0 S) as U. rewrite A1, B1 in U. inversion U as [a b P| |]; subst.
  pose proof S as (_ & D & _). rewrite D in A2.
  pose proof (init_same (A := RA) data (deviations (gc_dim h0) (concat data)) g1 h1 P) as V. change (num RA) with R in *. rewrite A2, B2 in V. inversion V as [a b Q| |]; subst.
  pose proof (stops_same p _ g2 h2 n Q A4) as S4. rewrite (stops_at_fun p _ h2 n n' S4 B4) in *.
  pose proof (updates_same (A := RA) n' (concat data) g2 h2 Q) as W. change (num RA) with R in *. rewrite A3, B3 in W. inversion W; subst. assumption.
Qed.
