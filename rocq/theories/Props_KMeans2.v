(** C103, C104: the life of a K-Means object, its settings and its files. *)
From Coq Require Import String List Bool Arith Lia ZArith QArith Reals Lra.
From Verif Require Import Base BaseFacts Arith RFacts Model_Json Model_Phrase Model_TrainingSet Model_Config Model_KMeans Model_Workflow Model_KMeans2
  Spec_TrainingSet Spec_Workflow Spec_KMeans Spec_KMeans2 Proofs_KMeans Proofs_KMeans2 Proofs_KMeans3 Proofs_KMeans4 Props_Workflow.
Import ListNotations.
Local Open Scope R_scope.

(** ** C103 *)

(** Any sequence of calls on an object that starts with at least one cluster goes wrong exactly if it filters an
    observation of the right size when the number of clusters is larger than at the last training or than at the
    last reset. *)
Theorem C103_calls : forall n ops, (1 <= n)%nat -> Forall with_recordings ops ->
  (all_allowed ops (view_new n) -> exists k, km_run ops (km_new n) = Ok k) /\
  (~ all_allowed ops (view_new n) -> km_run ops (km_new n) = UB).
Proof.
  intros n ops Hn W. destruct (run_fits ops (km_new n) (view_new n) (fits_new n Hn) W) as (H1 & H2). split; [|exact H2]. intro AL. destruct (H1 AL) as (k & E & _). exists k. exact E.
Qed.
Print Assumptions C103_calls.

(** Two clusters, trained with the recordings of two classes; filtered, retrained with more clusters. *)
Definition ex_calls (w : world RA) : list (kop RA) :=
  [KFilter (A := RA) [1; 2]; KSet (A := RA) (EClusters (A := RA) 2); KFirst (A := RA) true; KTrain (A := RA) w 0 (fun _ => 0); KReset (A := RA); KFilter (A := RA) [3]; KSet (A := RA) (EClusters (A := RA) 0); KSet (A := RA) (EThr (A := RA) (-1)); KSet (A := RA) (EClusters (A := RA) 1); KFilter (A := RA) [4];
   KSet (A := RA) (EClusters (A := RA) 3); KLoad (A := RA) (JNull (A := RA)); KFilter (A := RA) [1; 2; 3]; KTrain (A := RA) w 0 (fun _ => 1); KReset (A := RA); KFilter (A := RA) [5]].
Example C103_calls_meets : exists w t, recorded w 0 t (ex_recs false) /\ Forall with_recordings (ex_calls w) /\ all_allowed (ex_calls w) (view_new 1) /\
  view_run (ex_calls w) (view_new 1) = mkView 1 3 3 3 /\
  ~ all_allowed [KTrain (A := RA) w 0 (fun _ => 0); KFilter (A := RA) [3]] (view_new 1) /\ ~ all_allowed [KTrain (A := RA) w 0 (fun _ => 0); KSet (A := RA) (EClusters (A := RA) 2); KReset (A := RA); KFilter (A := RA) [3]] (view_new 1).
Proof.
  destruct (ex_recorded false) as (w & t & H & _ & D & _). exists w, t. split; [exact H|].
  assert (P : t_phrases t <> []). { destruct (recorded_data w 0 t _ H) as (_ & _ & _ & _ & _ & _ & E & _). intro X. apply E in X. discriminate. }
  assert (V : forall rnd v, view_step (KTrain (A := RA) w 0 rnd) v = mkView 1 (v_clusters v) (v_reset v) (v_clusters v)).
  { intros rnd v. cbn [view_step]. rewrite (proj1 (proj2 H)). destruct (t_phrases t); [contradiction|]. rewrite D. reflexivity. }
  split; [repeat constructor; exists t, (ex_recs false); exact H|]. split; [|split; [|split]].
  - unfold ex_calls. cbn [all_allowed]. rewrite !V. unfold ready. cbn. repeat (match goal with |- _ /\ _ => split | |- _ -> _ => intro end); try exact I; try discriminate; unfold ready; cbn; lia.
  - unfold ex_calls, view_run. cbn [fold_left]. rewrite !V. reflexivity.
  - cbn [all_allowed]. rewrite V. unfold allowed, ready. cbn. intros (_ & X & _). specialize (X eq_refl). lia.
  - cbn [all_allowed]. rewrite V. unfold allowed, ready. cbn. intros (_ & _ & _ & X & _). specialize (X eq_refl). lia.
Qed.

(** What filtering answers after any such calls. *)
Theorem C103_answers : forall n ops k obs, (1 <= n)%nat -> Forall with_recordings ops -> all_allowed ops (view_new n) -> km_run ops (km_new n) = Ok k ->
  let v := view_run ops (view_new n) in
  (length obs <> v_dim v -> km_filter obs k = Throw RuntimeError) /\
  (length obs = v_dim v -> ready v -> exists k', km_filter obs k = Ok k' /\ km_centers k' = km_centers k /\
     (forall c, (c < v_clusters v)%nat -> nth c (km_dist k') 0 = sqrt (sqd (v_dim v) obs (km_centers k) c)) /\
     ((exists c, (c < v_clusters v)%nat /\ sqrt (sqd (v_dim v) obs (km_centers k) c) < flt_max (A := RA)) -> nearest (v_clusters v) (v_dim v) (km_centers k) obs (km_likeliest k'))).
Proof.
  intros n ops k obs Hn W AL E v. destruct (run_fits ops (km_new n) (view_new n) (fits_new n Hn) W) as (H & _). destruct (H AL) as (k1 & E1 & F). rewrite E in E1. injection E1 as <-.
  fold v in F. destruct F as (F1 & F2 & F3 & F4 & F5 & F6 & F7). split.
  - intro X. exact (filter_wrong RA obs k (v_dim v) F1 X).
  - intros X (R1 & R2). destruct (filter_some obs k (v_dim v) F1 X) as (ds & l & Q & L & V1 & V2).
    + change (num RA) with R in *. rewrite F3, F5. apply Nat.mul_le_mono_r, R1.
    + change (num RA) with R in *. rewrite F4, F5. exact R2.
    + rewrite F5 in V1, V2. eexists. split; [exact Q|]. split; [reflexivity|]. split; [exact V1|exact V2].
Qed.
Print Assumptions C103_answers.
Example C103_answers_meets : exists w k, Forall with_recordings (ex_calls w) /\ all_allowed (ex_calls w) (view_new 1) /\ km_run (ex_calls w) (km_new 1) = Ok k /\
  length [7] = v_dim (view_run (ex_calls w) (view_new 1)) /\ ready (view_run (ex_calls w) (view_new 1)).
Proof.
  destruct C103_calls_meets as (w & t & _ & W & AL & V & _). destruct (proj1 (C103_calls 1 (ex_calls w) ltac:(lia) W) AL) as (k & E).
  exists w, k. split; [exact W|]. split; [exact AL|]. split; [exact E|]. rewrite V. split; [reflexivity|]. split; cbn; lia.
Qed.

(** The settings are the ones assigned last (an assignment that is out of range counts for nothing), and a training makes
    the centers out of them and of the recordings: from the centers of the initialisation, updates follow each other until
    one settles or the number of iterations is reached; there is at least one. *)
Theorem C103_training : forall n ops k w i t recs rnd, (1 <= n)%nat -> Forall with_recordings ops -> all_allowed ops (view_new n) -> km_run ops (km_new n) = Ok k ->
  recorded w i t recs -> recs <> [] ->
  let p := kmP_run (settings_of ops) (km_par (km_new (A := RA) n)) in
  (1 <= kp_clusters p)%nat /\ (1 <= kp_maxit p)%nat /\
  exists init k', km_train_set w i rnd k = Ok k' /\
    starts (first_of ops false) (kp_clusters p) (t_dim t) recs rnd init /\
    run_updates (kp_clusters p) (t_dim t) (kp_thr p) (concat (map snd recs)) (kp_maxit p) init (km_centers k') /\
    km_par k' = p /\ km_dim k' = Some (t_dim t) /\ km_dist k' = km_dist k.
Proof.
  intros n ops k w i t recs rnd Hn W AL E H NE p. destruct (run_fits ops (km_new n) (view_new n) (fits_new n Hn) W) as (HF & _). destruct (HF AL) as (k1 & E1 & F). rewrite E in E1. injection E1 as <-.
  destruct F as (F1 & F2 & F3 & F4 & F5 & F6 & F7). destruct (run_par ops (km_new n) k E) as (P & Q). fold p in P. assert (PF : km_first (km_new (A := RA) n) = false) by reflexivity. rewrite PF in Q.
  rewrite <- P, <- Q. cbn [km_par kp_clusters kp_maxit kp_thr]. split; [rewrite F5; exact F6|]. split; [exact F7|].
  destruct (train_set_ok w i t recs rnd k H NE) as (init & cs & T1 & T2 & T3 & T4); [rewrite F1; discriminate|rewrite F5; exact F6|].
  exists init. eexists. split; [exact T1|]. split; [exact T3|]. split; [exact T4|]. split; [reflexivity|]. split; reflexivity.
Qed.
Print Assumptions C103_training.
Example C103_training_meets : exists w k t, Forall with_recordings (ex_calls w) /\ all_allowed (ex_calls w) (view_new 1) /\ km_run (ex_calls w) (km_new 1) = Ok k /\
  recorded w 0 t (ex_recs false) /\ ex_recs false <> [] /\ kmP_run (settings_of (ex_calls w)) (km_par (km_new (A := RA) 1)) = mkKmP (A := RA) 3 50 (nofQ (a := RA) (1 # 100000000000000000000)) /\ first_of (ex_calls w) false = true.
Proof.
  destruct C103_calls_meets as (w & t & H & W & AL & V & _). destruct (proj1 (C103_calls 1 (ex_calls w) ltac:(lia) W) AL) as (k & E).
  exists w, k, t. split; [exact W|]. split; [exact AL|]. split; [exact E|]. split; [exact H|]. split; [discriminate|]. split; [|reflexivity]. cbn. unfold kmP_edit, kmP_set, km_par, km_new. cbn [kp_clusters kp_maxit kp_thr km_clusters km_maxit km_thr].
  assert (N : @nltb RA (-1) (n0 (A := RA)) = true) by (rewrite n0_RA; cbn [nltb RA]; destruct (Rlt_dec (-1) 0); [reflexivity|exfalso; lra]).
  rewrite N. reflexivity.
Qed.

(** Nothing of what an object learned before matters: two objects with the same settings, trained with sets that hold the
    same recordings (with the same random numbers), have the same centers. *)
Theorem C103_history : forall (k1 k2 a b : kmeans RA) w1 i1 t1 w2 i2 t2 recs rnd, recorded w1 i1 t1 recs -> recorded w2 i2 t2 recs -> recs <> [] -> t_dim t1 = t_dim t2 ->
  km_dim k1 <> None -> km_dim k2 <> None -> (1 <= km_clusters k1)%nat -> km_par k1 = km_par k2 -> km_first k1 = km_first k2 ->
  km_train_set w1 i1 rnd k1 = Ok a -> km_train_set w2 i2 rnd k2 = Ok b -> km_centers a = km_centers b.
Proof.
  intros k1 k2 a b w1 i1 t1 w2 i2 t2 recs rnd H1 H2 NE D K1 K2 C P F Ea Eb. unfold km_par in P. injection P as P1 P2 P3.
  destruct (train_set_ok w1 i1 t1 recs rnd k1 H1 NE K1 C) as (i & c & T1 & _ & T3 & T4). destruct (train_set_ok w2 i2 t2 recs rnd k2 H2 NE K2) as (i' & c' & T1' & _ & T3' & T4'); [congruence|].
  rewrite Ea in T1. injection T1 as ->. rewrite Eb in T1'. injection T1' as ->. cbn [km_centers].
  rewrite <- F, <- P1, <- D in T3'. rewrite <- P1, <- P2, <- P3, <- D in T4'. pose proof (starts_det _ _ _ _ _ _ _ T3 T3') as <-. exact (run_updates_det _ _ _ _ _ _ _ _ T4 T4').
Qed.
Print Assumptions C103_history.
Example C103_history_meets : exists w k t, recorded w 0 t (ex_recs false) /\ km_run (ex_calls w) (km_new 1) = Ok k /\
  let k2 := km_set_first true (km_set_par (km_par k) (km_new (A := RA) 7)) in
  km_dim k <> None /\ km_dim k2 <> None /\ (1 <= km_clusters k)%nat /\ km_par k = km_par k2 /\ km_first k = km_first k2.
Proof.
  destruct C103_calls_meets as (w & t & H & W & AL & V & _).
  destruct (run_fits (ex_calls w) (km_new 1) (view_new 1) (fits_new 1 ltac:(lia)) W) as (HF & _). destruct (HF AL) as (k & E & F1 & _ & _ & _ & F5 & F6 & _).
  exists w, k, t. split; [exact H|]. split; [exact E|]. split; [rewrite F1; discriminate|]. split; [discriminate|]. split; [rewrite F5; exact F6|]. split; [reflexivity|].
  rewrite (proj2 (run_par _ _ _ E)). reflexivity.
Qed.

(** Once all centers are equal no update changes them: the program, which then compares a number that is no
    number with the threshold and goes on, ends with the same centers as if it had stopped. *)
Theorem C103_equal : forall clusters dim prev frames cs cs', (1 <= clusters)%nat -> averaged clusters dim prev frames cs -> mean_gap clusters dim cs = 0 ->
  averaged clusters dim cs frames cs' -> cs' = cs.
Proof. exact equal_fixed. Qed.
Print Assumptions C103_equal.
Example C103_equal_meets : averaged 2 1 [0; 5] [[1]; [-1]] [0; 0] /\ mean_gap 2 1 [0; 0] = 0.
Proof.
  split.
  - split; [reflexivity|]. exists [0; 0]%nat. split.
    + assert (Nr : forall x, -1 <= x <= 1 -> nearest 2 1 [0; 5] [x] 0).
      { intros x H. split; [lia|]. split; [|intros; lia]. intros j Hj. destruct j as [|[|j]]; [| |lia]; unfold sqd; cbn; nra. }
      constructor; [apply Nr; lra|]. constructor; [apply Nr; lra|]. constructor.
    + intros [|[|k]] [|d] Hk Hd; try lia; unfold members, mean_at; cbn; lra.
  - unfold mean_gap, between. cbn. replace ((0 - 0) * (0 - 0)) with 0 by ring. rewrite ?Rplus_0_l, ?sqrt_0. unfold Rdiv. ring.
Qed.

(** ** C104 *)

(** Reading back the JSON form of the settings restores them, whatever the settings were before. *)
Theorem C104_settings : forall (A : arith) (cv : conv A) (p q : kmP A), kmP_ok cv p -> kmP_fromJson cv (kmP_toJson p) q = (p, Ok tt).
Proof. exact @km_round_trip. Qed.
Print Assumptions C104_settings.

(** All settings that can be made with values of the right types can be restored, the default ones included. *)
Theorem C104_reachable : forall (A : arith) (cv : conv A) es, Forall (edit_typed cv) es -> default_thr cv -> kmP_ok cv (kmP_run es (kmP_new (A := A))).
Proof. intros A cv es F (H1 & H2 & H3). apply run_ok; [assumption|]. split; [cbn; lia|]. split; [cbn; lia|]. split; [exact H1|]. split; [exact H2|exact H3]. Qed.
Print Assumptions C104_reachable.
Example C104_reachable_meets : let cv := mkConv (A := RA) (fun x => x) (fun _ => None) (fun _ => ""%string) in
  default_thr cv /\ Forall (edit_typed cv) [EClusters (A := RA) 0; EClusters (A := RA) (2 ^ 3); EThr (A := RA) (1 / 2)] /\
  kmP_run [EClusters (A := RA) 0; EClusters (A := RA) (2 ^ 3); EThr (A := RA) (1 / 2)] kmP_new = mkKmP (A := RA) 8 50 (1 / 2).
Proof.
  cbv zeta. split; [|split].
  - assert (X : 0 < @nofQ RA (1 # 100000000000000000000) < 1) by (cbn [nofQ RA]; unfold Q2R; cbn [Qnum Qden]; lra).
    assert (M : 1 < flt_max (A := RA)) by (unfold flt_max; rewrite nZ_RA; lra). unfold default_thr. cbv zeta. cbn [c_float]. rewrite n0_RA. cbn [nltb RA].
    split; [destruct (Rlt_dec _ _); [exfalso; lra|reflexivity]|]. split; [destruct (Rlt_dec _ _); [exfalso; lra|reflexivity]|reflexivity].
  - repeat constructor; cbn; lia.
  - assert (N1 : @nltb RA (1 / 2) (n0 (A := RA)) = false) by (rewrite n0_RA; cbn [nltb RA]; destruct (Rlt_dec (1 / 2) 0); [exfalso; lra|reflexivity]).
    assert (N2 : @nltb RA (flt_max (A := RA)) (1 / 2) = false) by (unfold flt_max; rewrite nZ_RA; cbn [nltb RA]; destruct (Rlt_dec _ _); [exfalso; lra|reflexivity]).
    unfold kmP_run, kmP_edit, kmP_set. cbn [fold_left Nat.ltb Nat.leb kp_clusters kp_maxit kp_thr kmP_new]. rewrite N1, N2. reflexivity.
Qed.

(** Whatever the document, loading settings either throws and changes nothing or gives settings inside their
    limits. *)
Theorem C104_load : forall (A : arith) (cv : conv A) root (p : kmP A),
  (exists e, kmP_fromJson cv root p = (p, Throw e)) \/ (exists q, kmP_fromJson cv root p = (q, Ok tt) /\ within_limits q).
Proof. exact @km_load. Qed.
Print Assumptions C104_load.

(** A document without the number of clusters is rejected; one without the threshold is accepted, and the threshold is
    then 0 instead of its default. *)
Theorem C104_missing : forall (A : arith) (cv : conv A) (p : kmP A),
  (forall o, lookup o "clusters" = None -> kmP_fromJson cv (JObj o) p = (p, Throw DomainError)) /\
  (nltb (n0 (A := A)) n0 = false -> nltb (flt_max (A := A)) n0 = false -> forall o c m, lookup o "clusters" = Some (JInt (to_int c)) -> lookup o "max_iterations" = Some (JInt (to_int m)) ->
    lookup o "relative_distance_threshold" = None -> (1 <= Z.of_nat c < 2 ^ 32)%Z -> (1 <= Z.of_nat m < 2 ^ 32)%Z -> kmP_fromJson cv (JObj o) p = (mkKmP c m n0, Ok tt)).
Proof.
  intros A cv p. split.
  - intros o L. unfold kmP_fromJson, kmP_ofJson, jmember_int, jmember. rewrite L. reflexivity.
  - intros N1 N2 o c m L1 L2 L3 Hc Hm. unfold kmP_fromJson, kmP_ofJson. rewrite (member_int cv o _ c L1) by lia. cbn [bind]. rewrite (proj2 (int_round c ltac:(lia))). cbn [kmP_set].
    destruct (Nat.ltb_spec c 1); [lia|]. cbn [bind]. rewrite (member_int cv o _ m L2) by lia. cbn [bind]. rewrite (proj2 (int_round m ltac:(lia))). cbn [kmP_set]. destruct (Nat.ltb_spec m 1); [lia|]. cbn [bind].
    unfold jmember_float, jmember. rewrite L3. cbn [bind as_float kmP_set]. rewrite N1, N2. reflexivity.
Qed.
Print Assumptions C104_missing.
Example C104_missing_meets : @nltb RA n0 n0 = false /\ @nltb RA flt_max n0 = false /\
  let o := [("clusters"%string, JInt (A := RA) (to_int 3)); ("max_iterations"%string, JInt (A := RA) (to_int 20))] in
  lookup o "clusters" = Some (JInt (to_int 3)) /\ lookup o "max_iterations" = Some (JInt (to_int 20)) /\ lookup o "relative_distance_threshold" = None /\ lookup o "gaussians" = None.
Proof.
  rewrite n0_RA. unfold flt_max. rewrite nZ_RA. cbn [nltb RA]. split; [destruct (Rlt_dec _ _); [exfalso; lra|reflexivity]|]. split; [destruct (Rlt_dec _ _); [exfalso; lra|reflexivity]|]. repeat split.
Qed.

(** The model itself is not saved: loading what an object has saved leaves the target as it was, so that a new object
    never answers. *)
Theorem C104_model_refuted : forall (src : kmeans RA) n obs, (1 <= n)%nat ->
  (forall dst, km_fromJson (km_toJson src) dst = dst) /\
  (km_filter obs (km_reset (km_fromJson (km_toJson src) (km_new n))) = if (length obs =? 1)%nat then UB else Throw RuntimeError).
Proof.
  intros src n obs Hn. split; [reflexivity|]. cbn [km_fromJson]. destruct (Nat.eqb_spec (length obs) 1) as [E|E].
  - apply (filter_out obs (km_reset (km_new n)) 1 0); [lia|reflexivity|exact E|reflexivity|left; cbn; lia].
  - exact (filter_wrong RA obs (km_reset (km_new n)) 1 eq_refl E).
Qed.
Print Assumptions C104_model_refuted.
Example C104_model_refuted_meets : exists w k : kmeans RA, km_filter (A := RA) [3] w = Ok k /\ km_filter (A := RA) [3] (km_fromJson (km_toJson w) (km_reset (km_new 1))) = UB.
Proof.
  set (w := mkKM (A := RA) (Some 1%nat) 1 50 (1 / 100) true [2] [0] 0).
  destruct (filter_some [3] w 1 eq_refl eq_refl) as (ds & l & E & _); [cbn; lia|cbn; lia|]. exists w. eexists. split; [exact E|].
  apply (filter_out [3] (km_reset (km_new 1)) 1 0); [lia|reflexivity|reflexivity|reflexivity|left; cbn; lia].
Qed.
