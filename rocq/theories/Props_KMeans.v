(** K-Means: properties C46-C49, C73. *)
From Coq Require Import List Bool Arith Lia Reals Lra Permutation.
From Verif Require Import Base BaseFacts Arith RFacts RComp Model_Gaussian Model_KMeans Spec_KMeans Proofs_KMeans.
Import ListNotations.
Local Open Scope R_scope.

(** Two phrases of one-dimensional frames and two previous centers, used by the examples below. *)
Definition ex_data : kdata RA := [[[0]; [1]]; [[10]; [12]; [14]]].
Definition ex_prev : list R := [0; 5].
Definition ex_km : kmeans RA := mkKM (A := RA) (Some 1%nat) 2 50 (1 / 100) true [] [] 0.

(** C46: an update of the centers does not increase the distortion. *)
Theorem C46_update : forall clusters dim prev (data : kdata RA), (1 <= clusters)%nat -> length prev = (clusters * dim)%nat ->
  Forall (Forall (fun x => length x = dim)) data ->
  exists cs, km_update (A := RA) clusters dim prev data = Ok cs /\ no_worse clusters dim (concat data) prev cs.
Proof.
  intros clusters dim prev data Hc Hp Hf. destruct (update_ok clusters dim prev data Hc Hp Hf) as (cs & E & A). exists cs. split; [exact E|].
  apply no_worse_intro; [exact Hc|]. intros e e'. apply averaged_distortion. exact A.
Qed.
Print Assumptions C46_update.

(** C46: training ends, with centers whose distortion is not larger than that of the initial ones, for
    every number of iterations, every threshold and both initialisations. *)
Theorem C46_train : forall dim (data : kdata RA) dev rnd (k : kmeans RA), data <> [] -> Forall (Forall (fun x => length x = dim)) data ->
  length dev = dim -> km_dim k <> None -> (1 <= km_clusters k)%nat ->
  exists init k',
    (if km_first k then km_init_first (km_clusters k) dim (hd [] data) (vresize (km_clusters k * dim) (n0 (A := RA)) (km_centers k))
     else km_init_random (km_clusters k) dim dev rnd (vresize (km_clusters k * dim) (n0 (A := RA)) (km_centers k))) = Ok init /\
    km_train dim data dev rnd k = Ok k' /\ km_dim k' = Some dim /\ km_clusters k' = km_clusters k /\ length (km_centers k') = (km_clusters k * dim)%nat /\
    no_worse (km_clusters k) dim (concat data) init (km_centers k').
Proof.
  intros dim data dev rnd k Hne Hf Hd Hk Hc. destruct (train_ok dim data dev rnd k Hne Hf Hd Hk Hc) as (init & k' & E1 & E2 & E3 & E4 & E5 & D).
  exists init, k'. repeat (split; [assumption|]). apply no_worse_intro; assumption.
Qed.
Print Assumptions C46_train.

Lemma min2 : forall f v, (f O = v /\ v <= f 1%nat) \/ (f 1%nat = v /\ v <= f O) -> is_min 2 f v.
Proof.
  intros f v H. split.
  - destruct H as [(H & _)|(H & _)]; [exists O|exists 1%nat]; auto.
  - intros j Hj. assert (Hj' : j = 0%nat \/ j = 1%nat) by lia. destruct Hj' as [->| ->]; destruct H as [(H & H')|(H & H')]; lra.
Qed.

Example C46_meets : (1 <= 2)%nat /\ length ex_prev = (2 * 1)%nat /\ Forall (Forall (fun x => length x = 1%nat)) ex_data /\
  ex_data <> [] /\ length [3] = 1%nat /\ km_dim ex_km <> None /\ (1 <= km_clusters ex_km)%nat /\
  (* the distortion really decreases: 0 + 1 + 25 + 49 + 81 before *)
  distortion 2 1 ex_prev (concat ex_data) 156.
Proof.
  repeat (split; [try (repeat constructor); try discriminate; cbn; lia|]). exists [0; 1; 25; 49; 81]. split; [|cbn; lra].
  cbn [ex_data concat app]. unfold ex_prev.
  repeat (constructor; [apply min2; unfold sqd; cbn [Rsum nth Nat.mul Nat.add]; lra|]). constructor.
Qed.

(** C47: after an update every center is the mean of the frames of its cluster, or the origin, and every
    frame belongs to the cluster of its nearest previous center and to no other. *)
Theorem C47_means : forall clusters dim prev (data : kdata RA), (1 <= clusters)%nat -> length prev = (clusters * dim)%nat ->
  Forall (Forall (fun x => length x = dim)) data ->
  exists cs labels, km_update (A := RA) clusters dim prev data = Ok cs /\ length cs = (clusters * dim)%nat /\
    Forall2 (nearest clusters dim prev) (concat data) labels /\
    Permutation (flat_map (members (concat data) labels) (seq 0 clusters)) (concat data) /\
    (forall k d, (k < clusters)%nat -> (d < dim)%nat -> nth (k * dim + d) cs 0 = mean_at d (members (concat data) labels k)).
Proof.
  intros clusters dim prev data Hc Hp Hf. destruct (update_ok clusters dim prev data Hc Hp Hf) as (cs & E & L & labels & F & M). exists cs, labels.
  split; [exact E|]. split; [exact L|]. split; [exact F|]. split; [|exact M]. apply members_partition; [exact (Forall2_len _ _ _ F)|].
  clear M. induction F as [|x l xs ls (H & _) F IH]; constructor; auto.
Qed.
Print Assumptions C47_means.

(** C47: the nearest center of a frame is unique, so the clusters are determined by the previous centers. *)
Theorem C47_unique : forall clusters dim prev x j k, nearest clusters dim prev x j -> nearest clusters dim prev x k -> j = k.
Proof. exact nearest_unique. Qed.
Print Assumptions C47_unique.

Example C47_meets : (1 <= 2)%nat /\ length ex_prev = (2 * 1)%nat /\ Forall (Forall (fun x => length x = 1%nat)) ex_data /\
  nearest 2 1 ex_prev [10] 1 /\ mean_at 0 (members (concat ex_data) [0; 0; 1; 1; 1]%nat 1) = 12 /\ mean_at 0 (members (concat ex_data) [0; 0; 1; 1; 1]%nat 2) = 0.
Proof.
  repeat (split; [try (repeat constructor); cbn; lia|]). split; [|split; [cbn; field|reflexivity]].
  unfold nearest, sqd, ex_prev. split; [lia|]. split; intros j Hj.
  - assert (Hj' : j = 0%nat \/ j = 1%nat) by lia. destruct Hj' as [->| ->]; cbn; lra.
  - replace j with 0%nat by lia. cbn. lra.
Qed.

(** C48: [filter] reports the distances to all the centers and the first nearest one. *)
Theorem C48_filter : forall obs (k : kmeans RA) dim, km_dim k = Some dim -> length obs = dim -> length (km_centers k) = (km_clusters k * dim)%nat ->
  exists k', km_filter obs (km_reset k) = Ok k' /\ length (km_dist k') = km_clusters k /\
    (forall c, (c < km_clusters k)%nat -> nth c (km_dist k') 0 = sqrt (sqd dim obs (km_centers k) c)) /\
    ((exists c, (c < km_clusters k)%nat /\ sqrt (sqd dim obs (km_centers k) c) < flt_max (A := RA)) -> nearest (km_clusters k) dim (km_centers k) obs (km_likeliest k')) /\
    km_centers k' = km_centers k /\ km_dim k' = km_dim k /\ km_clusters k' = km_clusters k.
Proof.
  intros obs k dim Hd Ho Hc. destruct (filter_ok obs (km_reset k) dim Hd Ho Hc) as (k' & E & L & D & N & _).
  { unfold km_reset. cbn [km_set_results km_clusters km_dist]. rewrite vresize_length. apply le_n. }
  exists k'. split; [exact E|]. split; [rewrite L; unfold km_reset; cbn [km_set_results km_dist]; apply vresize_length|]. split; [exact D|]. split; [exact N|].
  unfold km_filter in E. change (km_dim (km_reset k)) with (km_dim k) in E. rewrite Hd in E. destruct (negb (length obs =? dim)%nat); [discriminate|].
  match type of E with bind ?m _ = _ => destruct m as [((ds, mn), b)| |]; [|discriminate|discriminate] end. cbn [bind] in E. inversion E. repeat split.
Qed.
Print Assumptions C48_filter.

(** C48: it rejects observations of the wrong size (for every arithmetic). *)
Theorem C48_size : forall (A : arith) (obs : list (num A)) (k : kmeans A) dim, km_dim k = Some dim -> length obs <> dim -> km_filter obs k = Throw RuntimeError.
Proof. exact filter_wrong. Qed.
Print Assumptions C48_size.

(** C48: without a call of [reset] after the last change of the number of clusters, [filter] writes outside
    its results. *)
Theorem C48_no_reset_refuted : forall obs (k : kmeans RA) dim, km_dim k = Some dim -> length obs = dim -> length (km_centers k) = (km_clusters k * dim)%nat ->
  (length (km_dist k) < km_clusters k)%nat -> km_filter obs k = UB.
Proof. exact filter_short. Qed.
Print Assumptions C48_no_reset_refuted.

Definition ex_trained : kmeans RA := mkKM (A := RA) (Some 1%nat) 2 50 (1 / 100) true [1 / 2; 12] [] 0.

Example C48_meets : km_dim ex_trained = Some 1%nat /\ length [11] = 1%nat /\ length (km_centers ex_trained) = (km_clusters ex_trained * 1)%nat /\
  (exists c, (c < km_clusters ex_trained)%nat /\ sqrt (sqd 1 [11] (km_centers ex_trained) c) < flt_max (A := RA)) /\
  length [11; 12] <> 1%nat /\ (length (km_dist ex_trained) < km_clusters ex_trained)%nat.
Proof.
  repeat (split; [first [reflexivity|cbn; lia]|]). split; [|split; [discriminate|cbn; lia]].
  exists 1%nat. split; [cbn; lia|]. cbn [ex_trained km_centers]. unfold sqd. cbn [Rsum nth Nat.mul Nat.add].
  replace (0 + (11 - 12) * (11 - 12)) with 1 by lra. rewrite sqrt_1. unfold flt_max. rewrite nZ_RA. apply IZR_lt. lia.
Qed.

(** C49: a copy cannot be used: filtering or training it dereferences a null pointer. *)
Theorem C49_copy_refuted : forall (A : arith) (src : kmeans A) obs, km_filter obs (km_copy src) = UB /\ km_filter obs (km_reset (km_copy src)) = UB /\
  forall dim data dev rnd, data <> [] -> km_train dim data dev rnd (km_copy src) = UB.
Proof. intros A src obs. split; [reflexivity|]. split; [reflexivity|]. intros dim data dev rnd H. destruct data; [contradiction|reflexivity]. Qed.
Print Assumptions C49_copy_refuted.

(** C49: an assigned object of another dimension rejects every observation that the original accepts. *)
Theorem C49_assign_refuted : forall (A : arith) (src dst : kmeans A) d d' (obs : list (num A)), km_dim src = Some d -> km_dim dst = Some d' -> d <> d' -> length obs = d ->
  km_filter obs (km_reset (km_assign dst src)) = Throw RuntimeError.
Proof. intros A src dst d d' obs H1 H2 H3 H4. apply (filter_wrong A obs _ d'); [exact H2|]. congruence. Qed.
Print Assumptions C49_assign_refuted.

(** C49: an assigned object of the same dimension filters like the original. *)
Theorem C49_assign : forall obs (src dst : kmeans RA) dim, km_dim src = Some dim -> km_dim dst = Some dim -> length obs = dim -> length (km_centers src) = (km_clusters src * dim)%nat ->
  exists a b, km_filter obs (km_reset src) = Ok a /\ km_filter obs (km_reset (km_assign dst src)) = Ok b /\ km_likeliest a = km_likeliest b /\
    forall c, (c < km_clusters src)%nat -> nth c (km_dist a) 0 = nth c (km_dist b) 0.
Proof.
  intros obs src dst dim H1 H2 Ho Hc.
  destruct (assign_same obs (km_reset src) (km_reset (km_assign dst src)) dim H1 H2 Ho Hc) as (a & b & Ea & Eb & L & D).
  { unfold km_reset. cbn [km_set_results km_clusters km_dist km_assign]. rewrite vresize_length. apply le_n. }
  { unfold km_reset. cbn [km_set_results km_clusters km_dist km_assign]. rewrite vresize_length. apply le_n. }
  exists a, b. split; [exact Ea|]. split; [exact Eb|]. split; [exact L|exact D].
Qed.
Print Assumptions C49_assign.

Example C49_meets : km_dim ex_trained = Some 1%nat /\ km_dim (km_new (A := RA) 3) = Some 1%nat /\ length (km_centers ex_trained) = (km_clusters ex_trained * 1)%nat /\
  km_dim (mkKM (A := RA) (Some 2%nat) 1 50 0 true [1; 2] [] 0) = Some 2%nat /\ 1%nat <> 2%nat /\ length [5] = 1%nat /\ ex_data <> [].
Proof. repeat split; try reflexivity; discriminate. Qed.

(** C73: the biased initialisation puts center [k] at the mean of the [k]-th of [clusters] consecutive
    segments of equal length of the first phrase. *)
Theorem C73_biased : forall clusters dim phrase (cs : list R), Forall (fun x => length x = dim) phrase -> length cs = (clusters * dim)%nat ->
  exists cs', km_init_first (A := RA) clusters dim phrase cs = Ok cs' /\ length cs' = (clusters * dim)%nat /\
    forall k d, (k < clusters)%nat -> (d < dim)%nat ->
      nth (k * dim + d) cs' 0 = segment_mean phrase (k * (length phrase / clusters)) (length phrase / clusters) d.
Proof. exact init_first_ok. Qed.
Print Assumptions C73_biased.

(** C73: with fewer frames than clusters, all the centers start at the origin. *)
Theorem C73_short : forall clusters dim phrase (cs : list R), Forall (fun x => length x = dim) phrase -> length cs = (clusters * dim)%nat -> (length phrase < clusters)%nat ->
  km_init_first (A := RA) clusters dim phrase cs = Ok (repeat 0 (clusters * dim)).
Proof.
  intros clusters dim phrase cs Hf Hl Hs. destruct (init_first_ok clusters dim phrase cs Hf Hl) as (cs' & E & L & V). rewrite E. f_equal.
  apply (nth_ext _ _ 0 0); [rewrite repeat_length; exact L|]. intros q Hq. rewrite nth_repeat. change (num RA) with R in *. rewrite L in Hq.
  assert (Hd : dim <> O) by (intro; subst; lia).
  pose proof (Nat.div_mod q dim Hd) as Hq'. pose proof (Nat.mod_upper_bound q dim Hd). assert (q / dim < clusters)%nat by (apply Nat.div_lt_upper_bound; lia).
  replace q with (q / dim * dim + q mod dim)%nat by lia. rewrite V by assumption. rewrite (Nat.div_small _ _ Hs). unfold segment_mean. reflexivity.
Qed.
Print Assumptions C73_short.

(** C73: the random initialisation puts every center in the box of half-width the standard deviation around
    the origin, wherever the frames are. *)
Theorem C73_random : forall clusters dim dev rnd (cs : list R), (dim <= length dev)%nat -> length cs = (clusters * dim)%nat ->
  (forall i, 0 <= rnd i <= 1) -> (forall d, 0 <= nth d dev 0) ->
  exists cs', km_init_random (A := RA) clusters dim dev rnd cs = Ok cs' /\ length cs' = (clusters * dim)%nat /\
    forall k d, (k < clusters)%nat -> (d < dim)%nat -> - nth d dev 0 <= nth (k * dim + d) cs' 0 <= nth d dev 0.
Proof.
  intros clusters dim dev rnd cs Hd Hl Hr Hs. destruct (init_random_ok clusters dim dev rnd cs Hd Hl) as (cs' & E & L & V). exists cs'. split; [exact E|]. split; [exact L|].
  intros k d Hk Hd'. rewrite (V k d Hk Hd'). specialize (Hr (k * dim + d)%nat). specialize (Hs d).
  change (num RA) with R in *. generalize dependent (rnd (k * dim + d)%nat). generalize dependent (nth d dev 0). clear. intros s Hs r Hr. nra.
Qed.
Print Assumptions C73_random.

Example C73_meets : Forall (fun x => length x = 1%nat) (hd [] ex_data) /\ length ex_prev = (2 * 1)%nat /\ segment_mean [[0]; [1]; [4]; [6]; [9]] 2 2 0 = 5 /\
  (length [[1]] < 2)%nat /\ (1 <= length [3])%nat /\ (forall i : nat, 0 <= (1 / 3) <= 1) /\ (forall d, 0 <= nth d [3] 0).
Proof.
  split; [repeat constructor|]. split; [reflexivity|]. split; [unfold segment_mean; cbn; lra|]. split; [cbn; lia|]. split; [cbn; lia|].
  split; [intros; lra|]. intros [|[|d]]; cbn; lra.
Qed.
