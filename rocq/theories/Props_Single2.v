(** K-Means in single precision: property C102. *)
From Coq Require Import List Bool Arith ZArith QArith Reals Lia Lra.
From Coq Require Import Floats.SpecFloat.
From Flocq Require Import Core.Core IEEE754.BinarySingleNaN.
From Verif Require Import Base BaseFacts Arith RFacts Spec_Float Spec_Single Spec_KMeans Spec_Float8 Model_Single Model_Gaussian Model_Single5 Model_KMeans Proofs_Single4 Proofs_Single5 Proofs_Single6 Proofs_Single7 Proofs_Single8 Proofs_Single9 Proofs_KAny.
Import ListNotations.
Local Open Scope R_scope.

(** The zero and the one of binary32. *)
Local Notation z32 := (n0 (A := SA)).
Local Notation i32 := (n1 (A := SA)).

(** C102: for all floats, numbers or not, the filter answers, the likeliest cluster is one of the clusters, and no
    reported distance is smaller than that of the likeliest cluster. *)
Theorem C102_filter : forall (obs : list f32) (k : kmeans SA) dim, km_dim k = Some dim -> length obs = dim -> length (km_centers k) = (km_clusters k * dim)%nat ->
  (km_clusters k <= length (km_dist k))%nat -> (1 <= km_clusters k)%nat -> Forall is_f32 obs -> Forall is_f32 (km_centers k) ->
  exists k', km_filter (A := SA) obs k = Ok k' /\ (km_likeliest k' < km_clusters k)%nat /\
    forall c, (c < km_clusters k)%nat -> SFltb (nth c (km_dist k') z32) (nth (km_likeliest k') (km_dist k') z32) = false.
Proof.
  intros obs k dim Hd Ho Hl Hr Hc Vo Vc. destruct (filter_any (A := SA) obs k dim Hd Ho Hl Hr) as (k' & E & _ & D & B). exists k'. split; [exact E|].
  destruct (fscan_least (km_clusters k) (cdist (A := SA) dim obs (km_centers k)) Hc) as (F1 & F2); [intros j _; apply edist_dlike; assumption|]. rewrite <- B in F1, F2. split; [exact F1|].
  intros c H. rewrite (D c H), (D _ F1). apply F2. exact H.
Qed.
Print Assumptions C102_filter.

(** C102: for numbers of magnitude at most 2^41, the distances are numbers, their squares are the squared distances up
    to rounding, and the likeliest cluster is the nearest one up to rounding. *)
Theorem C102_accuracy : forall (obs : list f32) (k : kmeans SA) dim, km_dim k = Some dim -> length obs = dim -> length (km_centers k) = (km_clusters k * dim)%nat ->
  (km_clusters k <= length (km_dist k))%nat -> (1 <= km_clusters k)%nat -> (Z.of_nat dim < 2 ^ 24)%Z ->
  Forall (within (bpow radix2 41)) obs -> Forall (within (bpow radix2 41)) (km_centers k) ->
  exists k', km_filter (A := SA) obs k = Ok k' /\ near_nearest (km_clusters k) dim (vals (km_centers k)) (vals obs) (km_likeliest k') /\
    forall c, (c < km_clusters k)%nat -> let r := nth c (km_dist k') z32 in let s := sqd dim (vals obs) (vals (km_centers k)) c in
      is_num r = true /\ 0 <= fval r /\ s <= sone ^ (dim + 5) * (fval r ^ 2 + INR dim * stiny) /\ fval r ^ 2 <= sone ^ (dim + 5) * (s + INR dim * stiny).
Proof.
  intros obs k dim Hd Ho Hl Hr Hc H24 Wo Wc. destruct (within_parts _ _ Wo) as (Vo & No), (within_parts _ _ Wc) as (Vc & Nc).
  destruct (filter_any (A := SA) obs k dim Hd Ho Hl Hr) as (k' & E & _ & D & B). exists k'. split; [exact E|].
  destruct (fscan_least (km_clusters k) (cdist (A := SA) dim obs (km_centers k)) Hc) as (F1 & F2); [intros j _; apply edist_dlike; assumption|]. rewrite <- B in F1, F2. split.
  - split; [exact F1|]. intros j Hj. apply cdist_order; try assumption; try (apply cdist_num; assumption). apply F2. exact Hj.
  - intros c H. cbv zeta. rewrite (D c H). pose proof (cdist_num dim obs (km_centers k) c H24 Wo Wc) as N. split; [exact N|]. apply cdist_acc; assumption.
Qed.
Print Assumptions C102_accuracy.

(** C102: after a training with at most 2^22 frames of magnitude at most [B], from the first phrase, the centers are the
    means of their members up to rounding, and the frames belong to the nearest of the previous centers up to rounding. *)
Theorem C102_training : forall B dim (data : kdata SA) dev rnd (k : kmeans SA), 0 <= B <= bpow radix2 40 -> data <> [] -> km_dim k <> None -> km_first k = true ->
  (1 <= km_clusters k)%nat -> (1 <= km_maxit k)%nat -> (Z.of_nat dim < 2 ^ 24)%Z ->
  Forall (Forall (fun x => length x = dim /\ Forall (within B) x)) data -> (Z.of_nat (length (concat data)) <= 2 ^ 22)%Z ->
  exists k' prev labels, km_train (A := SA) dim data dev rnd k = Ok k' /\ length prev = (km_clusters k * dim)%nat /\
    Forall2 (near_nearest (km_clusters k) dim (vals prev)) (map vals (concat data)) labels /\
    near_means (km_clusters k) dim B (map vals (concat data)) labels (km_centers k') /\ Forall (within (bpow radix2 41)) (km_centers k').
Proof.
  intros B dim data dev rnd k HB Hne Hk Hf Hc Hm Hd F HN. destruct (train_acc B dim data dev rnd k HB Hne Hk Hf Hc Hm Hd F HN) as (k' & prev & labels & E & _ & _ & L & _ & R). exists k', prev, labels. split; [exact E|]. split; [exact L|exact R].
Qed.
Print Assumptions C102_training.

(** C102: the error grows with the number of frames.  A cluster with 2^25 frames or more, all equal to 1, has its
    center below 1/2: the sum stops at 2^24. *)
Theorem C102_many_refuted : forall n thr m cs ds dev rnd, (2 ^ 25 <= Z.of_nat n <= 2 ^ 32)%Z ->
  exists c k', km_train (A := SA) 1 [repeat [i32] n] dev rnd (mkKM (A := SA) (Some 1%nat) 1 (S m) thr true cs ds 0) = Ok k' /\ km_centers k' = [c] /\
    is_num c = true /\ fval c = round_single (IZR (2 ^ 24) / round_single (INR n)) /\ 0 <= fval c <= / 2.
Proof.
  intros n thr m cs ds dev rnd Hn. assert (E1 : i32 = one32) by (vm_compute; reflexivity). rewrite E1. unfold km_train. cbn [km_dim km_first km_clusters km_maxit km_thr km_centers]. cbv zeta.
  destruct (init_any (A := SA) 1 1 (repeat [one32] n) (vresize (1 * 1) z32 cs)) as (i & E & Li & _); [|apply vresize_length|].
  { apply Forall_forall. intros x Hx. apply repeat_spec in Hx. subst x. reflexivity. }
  match goal with |- context [km_init_first 1 1 ?p ?z] => assert (E' : km_init_first 1 1 p z = Ok i) by exact E end. rewrite E'. cbn [bind].
  destruct (loop_ones thr n m i Hn Li) as (c & E2 & R). match goal with |- context [km_loop (S m) 1 1 ?t ?p ?z] => assert (E2' : km_loop (S m) 1 1 t p z = Ok [c]) by exact E2 end. rewrite E2'. cbn [bind]. exists c. eexists. split; [reflexivity|]. split; [reflexivity|exact R].
Qed.
Print Assumptions C102_many_refuted.

(** C102: one value that is not a number, in one frame, undoes a training of two iterations or more: the first center
    is not a number, all the other centers are at the origin, and the second cluster is the likeliest one for every
    observation. *)
Theorem C102_nan_refuted : forall dim (data : kdata SA) dev rnd (k : kmeans SA) x d, km_dim k <> None -> km_first k = true -> (2 <= km_clusters k)%nat -> (2 <= km_maxit k)%nat -> (Z.of_nat dim < 2 ^ 24)%Z ->
  Forall (Forall (fun x => length x = dim)) data -> In x (concat data) -> (d < dim)%nat -> nan32 (nth d x z32) = true ->
  exists k', km_train (A := SA) dim data dev rnd k = Ok k' /\ nan32 (nth d (km_centers k') z32) = true /\ (forall q, (dim <= q < km_clusters k * dim)%nat -> nth q (km_centers k') z32 = z32) /\
    forall obs, length obs = dim -> Forall (within (bpow radix2 41)) obs -> exists k2, km_filter (A := SA) obs (km_reset k') = Ok k2 /\ km_likeliest k2 = 1%nat /\ nan32 (nth 0 (km_dist k2) z32) = true.
Proof.
  intros dim data dev rnd k x d Hk Hf Hc Hm H24 F Hx Hd N. apply is_nan in N. destruct (train_lost dim data dev rnd k x d Hk Hf Hc Hm Hd F Hx N) as (k' & E & D1 & D2 & _ & L). exists k'. split; [exact E|].
  pose proof L as (_ & L2 & L3). split; [change (num SA) with f32 in *; rewrite L2; reflexivity|]. split; [exact L3|]. intros obs Ho Wo.
  destruct (filter_lost (km_clusters k) dim d (km_reset k') obs D2 D1 Hc Hd H24 L) as (k2 & E2 & B & Z); [cbn; rewrite vresize_length; lia|exact Ho|exact Wo|].
  exists k2. split; [exact E2|]. split; [exact B|]. change (num SA) with f32 in *. rewrite Z. reflexivity.
Qed.
Print Assumptions C102_nan_refuted.

(** Two phrases in two clusters. *)
Definition ks_int (z : Z) : f32 := f32_ofQ (z # 1).
Definition ks_data : kdata SA := [[[ks_int 1]; [ks_int 2]; [ks_int 8]; [ks_int 9]]; [[ks_int 3]; [ks_int 10]]].
Definition ks_km : kmeans SA := mkKM (A := SA) (Some 1%nat) 2 5 (f32_ofQ (1 # 100)) true [] [] 0.
Definition ks_nan : kdata SA := [[[ks_int 1]; [ks_int 2]; [ks_int 8]; [ks_int 9]]; [[S754_nan]; [ks_int 10]]].

Lemma small_within m e : (Zpos m <= 16777216)%Z -> (e <= -20)%Z -> Rabs (fval (S754_finite false m e)) <= 16.
Proof.
  intros Hm He. assert (M : 0 <= IZR (Zpos m) <= IZR 16777216) by (split; [apply (IZR_le 0 (Zpos m)), Pos2Z.is_nonneg|apply (IZR_le (Zpos m) 16777216); exact Hm]). unfold fval, SF2R, F2R. cbn [Fnum Fexp cond_Zopp]. pose proof (bpow_ge_0 radix2 e) as P. rewrite Rabs_pos_eq by (apply Rmult_le_pos; [exact (proj1 M)|exact P]).
  apply Rle_trans with (IZR 16777216 * bpow radix2 (-20)); [apply Rmult_le_compat; [exact (proj1 M)|exact P|exact (proj2 M)|apply bpow_le; exact He]|]. change (bpow radix2 (-20)) with (/ IZR 1048576). lra.
Qed.
Lemma ks_within z : z = 1%Z \/ z = 2%Z \/ z = 3%Z \/ z = 8%Z \/ z = 9%Z \/ z = 10%Z -> within 16 (ks_int z).
Proof.
  intro H. assert (V : is_f32 (ks_int z)) by (destruct H as [->|[->|[->|[->|[->| ->]]]]]; vm_compute; reflexivity). split; [exact V|]. clear V.
  assert (E : exists m e, ks_int z = S754_finite false m e /\ (Zpos m <= 16777216)%Z /\ (e <= -20)%Z).
  { destruct H as [->|[->|[->|[->|[->| ->]]]]]; do 2 eexists; (split; [vm_compute; reflexivity|]; lia). }
  clear H. destruct E as (m & e & -> & Hm & He). split; [reflexivity|apply small_within; assumption].
Qed.

Example C102_training_meets : 0 <= 16 <= bpow radix2 40 /\ ks_data <> [] /\ km_dim ks_km <> None /\ km_first ks_km = true /\ (1 <= km_clusters ks_km)%nat /\ (1 <= km_maxit ks_km)%nat /\ (Z.of_nat 1 < 2 ^ 24)%Z /\
  Forall (Forall (fun x => length x = 1%nat /\ Forall (within 16) x)) ks_data /\ (Z.of_nat (length (concat ks_data)) <= 2 ^ 22)%Z /\
  (* the centers are 2 and 9 *)
  match km_train (A := SA) 1 ks_data [] (fun _ => S754_zero false) ks_km with Ok k' => Some (km_centers k') | _ => None end = Some [ks_int 2; ks_int 9].
Proof.
  split; [split; [lra|change (bpow radix2 40) with (IZR 1099511627776); lra]|]. do 6 (split; [first [discriminate|reflexivity|cbn; lia]|]). split; [|split; [cbn; lia|vm_compute; reflexivity]].
  unfold ks_data. repeat (first [solve [apply ks_within; auto 10]|apply Forall_cons|apply Forall_nil|split|reflexivity]).
Qed.

(** A distance that overflows and one that is not a number. *)
Definition ks_far : kmeans SA := mkKM (A := SA) (Some 1%nat) 3 5 (f32_ofQ (1 # 100)) true [S754_infinity false; S754_nan; ks_int 9] [S754_zero false; S754_zero false; S754_zero false] 0.
Example C102_filter_meets : km_dim ks_far = Some 1%nat /\ length [ks_int 8] = 1%nat /\ length (km_centers ks_far) = (km_clusters ks_far * 1)%nat /\ (km_clusters ks_far <= length (km_dist ks_far))%nat /\ (1 <= km_clusters ks_far)%nat /\
  Forall is_f32 [ks_int 8] /\ Forall is_f32 (km_centers ks_far) /\
  match km_filter (A := SA) [ks_int 8] ks_far with Ok k' => Some (km_dist k', km_likeliest k') | _ => None end = Some ([S754_infinity false; S754_nan; ks_int 1], 2%nat).
Proof. do 5 (split; [first [reflexivity|cbn; lia]|]). split; [constructor; [vm_compute; reflexivity|constructor]|]. split; [repeat constructor; vm_compute; reflexivity|vm_compute; reflexivity]. Qed.

Definition ks_two : kmeans SA := mkKM (A := SA) (Some 1%nat) 2 5 (f32_ofQ (1 # 100)) true [ks_int 2; ks_int 9] [S754_zero false; S754_zero false] 0.
Example C102_accuracy_meets : km_dim ks_two = Some 1%nat /\ length [ks_int 8] = 1%nat /\ length (km_centers ks_two) = (km_clusters ks_two * 1)%nat /\ (km_clusters ks_two <= length (km_dist ks_two))%nat /\ (1 <= km_clusters ks_two)%nat /\ (Z.of_nat 1 < 2 ^ 24)%Z /\
  Forall (within (bpow radix2 41)) [ks_int 8] /\ Forall (within (bpow radix2 41)) (km_centers ks_two) /\
  match km_filter (A := SA) [ks_int 8] ks_two with Ok k' => Some (km_likeliest k') | _ => None end = Some 1%nat.
Proof.
  assert (L : 16 <= bpow radix2 41) by (change (bpow radix2 41) with (IZR 2199023255552); lra).
  do 6 (split; [first [reflexivity|cbn; lia]|]). split; [repeat (first [apply Forall_cons|apply Forall_nil]); apply (within_le 16 _ _ L), ks_within; auto 10|]. split; [repeat (first [apply Forall_cons|apply Forall_nil]); apply (within_le 16 _ _ L), ks_within; auto 10|vm_compute; reflexivity].
Qed.

Example C102_nan_meets : km_dim ks_km <> None /\ km_first ks_km = true /\ (2 <= km_clusters ks_km)%nat /\ (2 <= km_maxit ks_km)%nat /\ (Z.of_nat 1 < 2 ^ 24)%Z /\ Forall (Forall (fun x => length x = 1%nat)) ks_nan /\
  In [S754_nan] (concat ks_nan) /\ (0 < 1)%nat /\ nan32 (nth 0 [S754_nan] z32) = true /\
  match km_train (A := SA) 1 ks_nan [] (fun _ => S754_zero false) ks_km with Ok k' => Some (km_centers k') | _ => None end = Some [S754_nan; S754_zero false].
Proof. do 5 (split; [first [discriminate|reflexivity|cbn; lia]|]). split; [repeat constructor|]. split; [cbn; auto 10|]. split; [lia|]. split; [reflexivity|vm_compute; reflexivity]. Qed.

Example C102_many_meets : (2 ^ 25 <= Z.of_nat (Z.to_nat (2 ^ 25)) <= 2 ^ 32)%Z.
Proof. rewrite Z2Nat.id by lia. lia. Qed.
