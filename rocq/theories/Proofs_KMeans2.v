(** The life of a K-Means object: proofs. *)
From Coq Require Import String List Bool Arith Lia ZArith Reals Lra.
From Verif Require Import Base BaseFacts Arith RFacts Model_Map Model_Json Model_Phrase Model_TrainingSet Model_Gaussian Model_Config Proofs_Gaussian Model_KMeans Model_Workflow Model_KMeans2
  Spec_Phrase Spec_TrainingSet Spec_Workflow Spec_KMeans Spec_KMeans2 Proofs_KMeans Proofs_Phrase Proofs_TrainingStats Proofs_TrainingSet7 Proofs_Workflow Proofs_Workflow2.
Import ListNotations.
Local Open Scope R_scope.

(** ** Filtering with some of the centers *)
Lemma euclid_some : forall clusters dim (x cs : list R) k, length x = dim -> (clusters * dim <= length cs)%nat -> (k < clusters)%nat ->
  euclid (A := RA) x 0 cs (k * dim) dim = Ok (sqrt (sqd dim x cs k)).
Proof. intros clusters dim x cs k Hx Hc Hk. rewrite euclid_ok by (change (num RA) with R in *; nia). reflexivity. Qed.

Lemma filter_some : forall obs (k : kmeans RA) dim, km_dim k = Some dim -> length obs = dim -> (km_clusters k * dim <= length (km_centers k))%nat ->
  (km_clusters k <= length (km_dist k))%nat ->
  exists ds l, km_filter obs k = Ok (km_set_results ds l k) /\ length ds = length (km_dist k) /\
    (forall c, (c < km_clusters k)%nat -> nth c ds 0 = sqrt (sqd dim obs (km_centers k) c)) /\
    ((exists c, (c < km_clusters k)%nat /\ sqrt (sqd dim obs (km_centers k) c) < flt_max (A := RA)) -> nearest (km_clusters k) dim (km_centers k) obs l).
Proof.
  intros obs k dim Hd Ho Hc Hn. unfold km_filter. rewrite Hd. change (num RA) with R in *. rewrite (proj2 (Nat.eqb_eq _ _) Ho). cbn [negb].
  set (D := fun c => sqd dim obs (km_centers k) c).
  pose (I := fun (i : nat) (s : list R * R * nat) => let '(ds, mn, best) := s in
    length ds = length (km_dist k) /\ (forall c, (c < i)%nat -> nth c ds 0 = sqrt (D c)) /\
    ((mn = flt_max (A := RA) /\ best = O /\ forall c, (c < i)%nat -> flt_max (A := RA) <= sqrt (D c)) \/
     ((best < i)%nat /\ mn = sqrt (D best) /\ mn < flt_max (A := RA) /\ (forall c, (c < i)%nat -> D best <= D c) /\ forall c, (c < best)%nat -> D best < D c))).
  match goal with |- context [iterM ?n ?f ?s] => destruct (iterM_inv I n f s) as (((ds, mn), best) & E & L & V & S) end.
  - split; [reflexivity|]. split; [intros; lia|]. left. repeat split. intros; lia.
  - intros i ((ds, mn), best) Hi (L & V & S). change (num RA) with R in *. rewrite (euclid_some (km_clusters k) dim obs (km_centers k) i Ho Hc Hi). cbn [bind]. fold (D i).
    rewrite wr_ok by lia. cbn [bind]. eexists. split; [reflexivity|].
    assert (V' : forall c, (c < Datatypes.S i)%nat -> nth c (upd ds i (sqrt (D i))) 0 = sqrt (D c)).
    { intros c Hc'. destruct (Nat.eq_dec c i) as [->|X]; [rewrite nth_upd_eq by lia; reflexivity|]. rewrite nth_upd_neq by lia. apply V. lia. }
    cbn [nltb RA]. assert (L' : length (upd ds i (sqrt (D i))) = length (km_dist k)) by (rewrite upd_length; exact L).
    destruct (Rlt_dec (sqrt (D i)) mn) as [Y|Y].
    + split; [exact L'|]. split; [exact V'|]. right. split; [lia|]. split; [reflexivity|].
      destruct S as [(-> & -> & S)|(B & -> & S0 & S1 & S2)].
      * split; [exact Y|]. split.
        -- intros c Hc'. destruct (Nat.eq_dec c i) as [->|X]; [apply Rle_refl|]. specialize (S c ltac:(lia)). apply Rlt_le. apply sqrt_lt_iff; [apply sqd_nonneg|apply sqd_nonneg|lra].
        -- intros c Hc'. specialize (S c Hc'). apply sqrt_lt_iff; [apply sqd_nonneg|apply sqd_nonneg|lra].
      * assert (Z : D i < D best) by (apply sqrt_lt_iff; [apply sqd_nonneg|apply sqd_nonneg|exact Y]).
        split; [lra|]. split.
        -- intros c Hc'. destruct (Nat.eq_dec c i) as [->|X]; [apply Rle_refl|]. specialize (S1 c ltac:(lia)). lra.
        -- intros c Hc'. specialize (S1 c Hc'). lra.
    + split; [exact L'|]. split; [exact V'|]. destruct S as [(-> & -> & S)|(B & -> & S0 & S1 & S2)].
      * left. repeat split. intros c Hc'. destruct (Nat.eq_dec c i) as [->|X]; [lra|]. apply S. lia.
      * right. split; [lia|]. split; [reflexivity|]. split; [exact S0|]. split; [|exact S2].
        intros c Hc'. destruct (Nat.eq_dec c i) as [->|X]; [|apply S1; lia].
        apply Rnot_lt_le. intro Z. apply Y. apply sqrt_lt_iff; [apply sqd_nonneg|apply sqd_nonneg|exact Z].
  - change (num RA) with R in *. rewrite E. cbn [bind]. exists ds, best. split; [reflexivity|]. split; [exact L|]. split; [exact V|].
    intros (c & Hc' & Z). destruct S as [(_ & _ & S)|(B & _ & _ & S1 & S2)]; [specialize (S c Hc'); exfalso; exact (Rlt_not_le _ _ Z S)|]. split; [exact B|]. split; [exact S1|exact S2].
Qed.

Lemma rd_out : forall {X} (v : list X) i, (length v <= i)%nat -> rd v i = UB.
Proof. intros X v i H. unfold rd. rewrite (proj2 (nth_error_None v i) H). reflexivity. Qed.
Lemma wr_out : forall {X} (v : list X) i x, (length v <= i)%nat -> wr v i x = UB.
Proof. intros X v i x H. unfold wr. destruct (Nat.ltb_spec i (length v)); [lia|reflexivity]. Qed.

(** Without centers or room for all clusters, filtering leaves its arrays. *)
Lemma euclid_out : forall (x cs : list R) j n, (1 <= n)%nat -> (n <= length x)%nat -> (length cs <= j)%nat -> euclid (A := RA) x 0 cs j n = UB.
Proof.
  intros x cs j n Hn Hx Hj. unfold euclid, accM.
  assert (H : forall m f (s : num RA), iterM (S m) (fun d s => let* y := (let* x := rd x (0 + d) in let* z := rd cs (j + d) in Ok (f x z)) in Ok (nadd s y)) s = UB).
  { induction m as [|m IH]; intros f s; [cbn [iterM]|cbn [iterM] in IH |- *; rewrite IH; reflexivity].
    cbn [bind]. rewrite (rd_nth x (0 + 0) 0) by lia. cbn [bind]. rewrite rd_out by (change (num RA) with R; lia). reflexivity. }
  destruct n as [|n]; [lia|]. rewrite (H n (fun x y : R => ((x - y) * (x - y))%R)). reflexivity.
Qed.

Lemma filter_out : forall obs (k : kmeans RA) dim n, (1 <= dim)%nat -> km_dim k = Some dim -> length obs = dim -> length (km_centers k) = (n * dim)%nat ->
  (n < km_clusters k \/ length (km_dist k) < km_clusters k)%nat -> km_filter obs k = UB.
Proof.
  intros obs k dim n H1 Hd Ho Hc Hn. unfold km_filter. rewrite Hd. change (num RA) with R in *. rewrite (proj2 (Nat.eqb_eq _ _) Ho). cbn [negb].
  match goal with |- context [iterM ?n ?f ?s] => set (F := f); set (s0 := s) end.
  set (q := Nat.min n (length (km_dist k))).
  assert (H : forall m, ((m <= q)%nat -> exists ds mn b, iterM m F s0 = Ok (ds, mn, b) /\ length ds = length (km_dist k)) /\
    ((q < m)%nat -> iterM m F s0 = UB)).
  { induction m as [|m (I1 & I2)].
    - split; [|lia]. intros _. cbn [iterM]. do 3 eexists. split; reflexivity.
    - cbn [iterM]. destruct (Nat.le_gt_cases m q) as [L|L].
      + destruct (I1 L) as (ds & mn & b & -> & Ld). cbn [bind]. unfold F. change (num RA) with R in *. destruct (Nat.le_gt_cases n m) as [Lm|Lm].
        * rewrite euclid_out by (change (num RA) with R in *; nia). split; [lia|reflexivity].
        * rewrite (euclid_some n dim obs (km_centers k) m Ho) by lia. cbn [bind]. split.
          -- intro. rewrite wr_ok by lia. cbn [bind]. match goal with |- context [if ?c then _ else _] => destruct c end; do 3 eexists; (split; [reflexivity|rewrite upd_length; exact Ld]).
          -- intro. rewrite wr_out by lia. reflexivity.
      + split; [lia|]. intros _. rewrite I2 by lia. reflexivity. }
  destruct (H (km_clusters k)) as (_ & H2). rewrite H2; [reflexivity|]. unfold q. change (num RA) with R in *. lia.
Qed.

(** ** The updates of a training *)
Definition max_move (clusters dim : nat) (prev cs : list R) : R :=
  (fix go n := match n with O => 0 | S n => if Rlt_dec (go n) (between dim prev n cs n) then between dim prev n cs n else go n end) clusters.
Lemma Rsum_step : forall n f, Rsum (S n) f = Rsum n f + f n.
Proof. reflexivity. Qed.
Lemma between_nonneg : forall dim a k b l, 0 <= between dim a k b l.
Proof. intros. apply sqrt_pos. Qed.
Lemma max_move_step : forall n dim prev cs, max_move (S n) dim prev cs = if Rlt_dec (max_move n dim prev cs) (between dim prev n cs n) then between dim prev n cs n else max_move n dim prev cs.
Proof. reflexivity. Qed.
Lemma max_move_ub : forall dim prev cs n, 0 <= max_move n dim prev cs /\ forall k, (k < n)%nat -> between dim prev k cs k <= max_move n dim prev cs.
Proof.
  intros dim prev cs. induction n as [|n (I0 & I)]; [split; [cbn; lra|intros; lia]|]. rewrite max_move_step. destruct (Rlt_dec _ _) as [L|L].
  - split; [apply between_nonneg|]. intros k Hk. destruct (Nat.eq_dec k n) as [->|]; [lra|]. specialize (I k ltac:(lia)). lra.
  - split; [exact I0|]. intros k Hk. destruct (Nat.eq_dec k n) as [->|]; [lra|]. apply I. lia.
Qed.
Lemma max_move_at : forall dim prev cs n, (1 <= n)%nat -> exists k, (k < n)%nat /\ max_move n dim prev cs = between dim prev k cs k.
Proof.
  intros dim prev cs. induction n as [|n IH]; intro Hn; [lia|]. rewrite max_move_step. destruct (Rlt_dec _ _) as [L|L]; [exists n; split; [lia|reflexivity]|].
  destruct n as [|n].
  - exists O. split; [lia|]. pose proof (between_nonneg dim prev 0 cs 0). cbn in L |- *. lra.
  - destruct (IH ltac:(lia)) as (k & Hk & E). exists k. split; [lia|exact E].
Qed.
Lemma settled_max : forall clusters dim thr prev cs, (1 <= clusters)%nat ->
  (max_move clusters dim prev cs / INR clusters / mean_gap clusters dim cs < thr <-> settled clusters dim thr prev cs).
Proof.
  intros clusters dim thr prev cs Hc. destruct (max_move_at dim prev cs clusters Hc) as (m & Hm & E). split.
  - intros H k Hk. eapply Rle_lt_trans; [|exact H]. unfold Rdiv. assert (0 <= / INR clusters) by (apply Rlt_le, Rinv_0_lt_compat, lt_0_INR; lia).
    assert (G : 0 <= mean_gap clusters dim cs).
    { unfold mean_gap, Rdiv. apply Rmult_le_pos.
      - apply Rsum_nonneg. intros i Hi. apply Rsum_nonneg. intros j Hj. destruct (i =? j)%nat; [lra|apply between_nonneg].
      - destruct (clusters * (clusters - 1))%nat as [|z] eqn:Z; [cbn; rewrite Rinv_0; lra|]. apply Rlt_le, Rinv_0_lt_compat, lt_0_INR. lia. }
    assert (0 <= / mean_gap clusters dim cs) by (destruct G as [G|<-]; [apply Rlt_le, Rinv_0_lt_compat, G|rewrite Rinv_0; lra]).
    apply Rmult_le_compat_r; [assumption|]. apply Rmult_le_compat_r; [assumption|]. apply max_move_ub, Hk.
  - intro H. rewrite E. apply H, Hm.
Qed.

Lemma stops_val : forall clusters dim thr prev cs, (1 <= clusters)%nat -> length prev = (clusters * dim)%nat -> length cs = (clusters * dim)%nat ->
  exists b, km_stops (A := RA) clusters dim thr prev cs = Ok b /\ (b = true <-> settled clusters dim thr prev cs).
Proof.
  intros clusters dim thr prev cs H1 Hp Hc. unfold km_stops.
  match goal with |- context [iterM ?n ?f ?s] => destruct (iterM_inv (fun i (q : R * R) =>
    fst q = Rsum i (fun k => Rsum clusters (fun l => if (k =? l)%nat then 0 else between dim cs k cs l)) /\ snd q = max_move i dim prev cs) n f s) as (x & E & V1 & V2) end.
  - rewrite n0_RA. split; reflexivity.
  - intros k s Hk (S1 & S2). match goal with |- context [iterM ?n ?f (fst s)] => destruct (iterM_inv (fun i (m : R) =>
      m = fst s + Rsum i (fun l => if (k =? l)%nat then 0 else between dim cs k cs l)) n f (fst s)) as (x & E & V) end.
    + cbn. lra.
    + intros l m Hl V. rewrite Rsum_step. destruct (k =? l)%nat; [eexists; split; [reflexivity|lra]|].
      rewrite euclid_ok by (change (num RA) with R in *; rewrite Hc; clear - Hk Hl; nia). cbn [bind]. eexists. split; [reflexivity|]. fold (between dim cs k cs l). cbn [nadd RA]. lra.
    + change (num RA) with R in *. rewrite E. cbn [bind]. rewrite euclid_ok by (change (num RA) with R in *; rewrite ?Hp, ?Hc; clear - Hk; nia). cbn [bind]. eexists. split; [reflexivity|]. cbn [fst snd].
      split; [rewrite V, S1, Rsum_step; reflexivity|]. rewrite max_move_step, <- S2. fold (between dim prev k cs k). cbn [nltb RA]. destruct (Rlt_dec _ _); reflexivity.
  - change (num RA) with R in *. rewrite E. cbn [bind]. eexists. split; [reflexivity|]. rewrite V1, V2. rewrite !nN_RA. rewrite <- (settled_max clusters dim thr prev cs H1). unfold mean_gap. cbn [nltb ndiv RA].
    destruct (Rlt_dec _ _) as [L|L]; split; intro H; solve [discriminate H|contradiction|reflexivity|exact L].
Qed.

Lemma loop_run : forall n clusters dim thr data cs, (1 <= clusters)%nat -> Forall (Forall (fun x => length x = dim)) data -> length cs = (clusters * dim)%nat ->
  exists cs', km_loop (A := RA) n clusters dim thr data cs = Ok cs' /\ length cs' = (clusters * dim)%nat /\ run_updates clusters dim thr (concat data) n cs cs'.
Proof.
  induction n as [|n IH]; intros clusters dim thr data cs Hc Hf Hl; cbn [km_loop].
  - exists cs. repeat split; auto. constructor.
  - destruct (update_ok clusters dim cs data Hc Hl Hf) as (c1 & E1 & A1). change (num RA) with R in *. rewrite E1. cbn [bind]. assert (L1 := proj1 A1).
    destruct (stops_val clusters dim thr cs c1 Hc Hl L1) as (b & E2 & B). change (num RA) with R in *. rewrite E2. cbn [bind]. destruct b.
    + exists c1. split; [reflexivity|]. split; [exact L1|]. apply ru_stop; [exact A1|apply B; reflexivity].
    + destruct (IH clusters dim thr data c1 Hc Hf L1) as (c2 & E3 & L2 & D). exists c2. split; [exact E3|]. split; [exact L2|].
      eapply ru_more; [exact A1| |exact D]. intro H. apply B in H. discriminate.
Qed.

(** ** Training with a training set *)
Lemma recorded_data : forall (w : world RA) i t recs, recorded w i t recs ->
  exists ps ss, phrases_of w t = Ok ps /\ Forall2 rep ps ss /\ map (frames_of (A := RA)) ss = map snd recs /\
    (forall s, In s ss -> s_dim s = t_dim t /\ s_bim s = t_bim t) /\ (t_phrases t = [] <-> recs = []) /\ (1 <= t_dim t)%nat.
Proof.
  intros w i t recs (_ & _ & _ & IR & _ & F). unfold phrases_of.
  assert (D : (1 <= t_dim t)%nat) by (unfold in_range, t_dim_min in IR; destruct (t_bim t); lia). clear IR.
  induction F as [|e r m recs (p & s & E & M & B & Dm & _ & _ & Fr) F IH].
  - exists [], []. split; [reflexivity|]. split; [constructor|]. split; [reflexivity|]. split; [intros s []|]. split; [tauto|exact D].
  - destruct IH as (ps & ss & E1 & E2 & E3 & E4 & _ & _). exists (p :: ps), (s :: ss). cbn [mapM map]. unfold rd at 1. rewrite E. cbn [bind]. rewrite E1. cbn [bind].
    split; [reflexivity|]. split; [constructor; [apply made_rep; exact M|exact E2]|]. split; [rewrite Fr, E3; reflexivity|].
    split; [intros s' [<-|Hs]; [auto|apply E4; exact Hs]|]. split; [split; discriminate|exact D].
Qed.

Lemma reps_pointers : forall ps ss, Forall2 rep ps ss -> mapM (pointer_frames (A := RA)) ps = Ok (map (frames_of (A := RA)) ss).
Proof.
  intros ps ss H. induction H as [|p s ps ss HR HF IH]; [reflexivity|]. cbn [mapM map]. rewrite (pointer_frames_ok p s HR). cbn [bind]. rewrite IH. reflexivity.
Qed.

Lemma train_set_ok : forall (w : world RA) i t recs rnd (k : kmeans RA), recorded w i t recs -> recs <> [] -> km_dim k <> None -> (1 <= km_clusters k)%nat ->
  exists init cs, km_train_set w i rnd k = Ok (mkKM (A := RA) (Some (t_dim t)) (km_clusters k) (km_maxit k) (km_thr k) (km_first k) cs (km_dist k) (km_likeliest k)) /\
    length cs = (km_clusters k * t_dim t)%nat /\
    starts (km_first k) (km_clusters k) (t_dim t) recs rnd init /\
    run_updates (km_clusters k) (t_dim t) (km_thr k) (concat (map snd recs)) (km_maxit k) init cs.
Proof.
  intros w i t recs rnd k H NE Hk Hc. destruct (recorded_data w i t recs H) as (ps & ss & E1 & E2 & E3 & E4 & E5 & E6).
  unfold km_train_set. destruct H as (_ & Hs & _). unfold set_at in Hs. destruct (nth_error (w_sets w) i) as [o|] eqn:Eo; [|discriminate]. subst o.
  destruct (t_phrases t) as [|e m] eqn:Et; [exfalso; apply NE, E5; reflexivity|].
  rewrite E1. cbn [bind].
  assert (Fd : Forall (Forall (fun x => length x = t_dim t)) (map snd recs)).
  { rewrite <- E3. apply Forall_map, Forall_forall. intros s Hs. rewrite <- (proj1 (E4 s Hs)).
    assert (X : exists p, rep p s). { clear - E2 Hs. induction E2 as [|p s0 ps ss R F IH]; [destruct Hs|]. destruct Hs as [->|Hs]; [exists p; exact R|apply IH, Hs]. }
    destruct X as (p & R). exact (frames_dim p s R). }
  assert (Dv : ts_stddev (t_dim t) ps = Ok (tab (t_dim t) (fun d => sqrt (Rvar (column (concat (map snd recs)) d))))).
  { rewrite (ts_stddev_ok (t_dim t) ps ss E2 (fun s Hs => proj1 (E4 s Hs))). replace (all_frames ss) with (concat (map snd recs)); [reflexivity|]. unfold all_frames. rewrite flat_map_concat_map, <- E3. reflexivity. }
  assert (Dt : mapM (phrase_frames (A := RA)) ps = Ok (map snd recs)) by (rewrite (reps_data ps ss E2), E3; reflexivity).
  assert (Dp : mapM (pointer_frames (A := RA)) ps = Ok (map snd recs)) by (rewrite (reps_pointers ps ss E2), E3; reflexivity).
  destruct recs as [|r recs]; [contradiction|]. unfold km_train. destruct (km_dim k) as [d0|] eqn:Ek; [|contradiction].
  destruct (km_first k) eqn:Ef; cbn [bind].
  - change (num RA) with R in *. rewrite Dt. cbn [bind]. assert (Ep : (if t_bim t then Ok [] else mapM (pointer_frames (A := RA)) ps) = Ok (if t_bim t then [] else map snd (r :: recs))) by (destruct (t_bim t); auto).
    change (num RA) with R in *. rewrite Ep. cbn [bind]. cbn [map].
    destruct (init_first_ok (km_clusters k) (t_dim t) (snd r) (vresize (km_clusters k * t_dim t) 0 (km_centers k))) as (init & I1 & I2 & I3); [inversion Fd; assumption|apply vresize_length|].
    change (num RA) with R in *. rewrite n0_RA, I1. cbn [bind].
    destruct (loop_run (km_maxit k) (km_clusters k) (t_dim t) (km_thr k) (snd r :: map snd recs) init Hc Fd I2) as (cs & L1 & L2 & L3). change (num RA) with R in *. rewrite L1. cbn [bind].
    exists init, cs. split; [reflexivity|]. split; [exact L2|]. split; [|exact L3]. split; [exact I2|]. exact I3.
  - change (num RA) with R in *. rewrite Dv. cbn [bind]. rewrite Dt. cbn [bind]. assert (Ep : (if t_bim t then Ok [] else mapM (pointer_frames (A := RA)) ps) = Ok (if t_bim t then [] else map snd (r :: recs))) by (destruct (t_bim t); auto).
    change (num RA) with R in *. rewrite Ep. cbn [bind]. cbn [map].
    destruct (init_random_ok (km_clusters k) (t_dim t) (tab (t_dim t) (fun d => sqrt (Rvar (column (concat (map snd (r :: recs))) d)))) rnd (vresize (km_clusters k * t_dim t) 0 (km_centers k))) as (init & I1 & I2 & I3); [rewrite tab_length; lia|apply vresize_length|].
    change (num RA) with R in *. rewrite n0_RA. cbn [map] in I1. rewrite I1. cbn [bind].
    destruct (loop_run (km_maxit k) (km_clusters k) (t_dim t) (km_thr k) (snd r :: map snd recs) init Hc Fd I2) as (cs & L1 & L2 & L3). change (num RA) with R in *. rewrite L1. cbn [bind].
    exists init, cs. split; [reflexivity|]. split; [exact L2|]. split; [|exact L3]. split; [exact I2|]. intros c d Hc' Hd. rewrite (I3 c d Hc' Hd). f_equal. rewrite nth_tab by exact Hd. reflexivity.
Qed.

Lemma train_set_none : forall (w : world RA) i t rnd (k : kmeans RA), recorded w i t [] -> km_train_set w i rnd k = Ok k.
Proof.
  intros w i t rnd k H. destruct (recorded_data w i t [] H) as (_ & _ & _ & _ & _ & _ & E5 & _). destruct H as (_ & Hs & _). unfold km_train_set, set_at in *.
  destruct (nth_error (w_sets w) i) as [o|]; [|discriminate]. subst o. rewrite (proj2 E5 eq_refl). reflexivity.
Qed.

(** ** Histories *)
Definition fits (k : kmeans RA) (v : kview) : Prop :=
  km_dim k = Some (v_dim v) /\ (1 <= v_dim v)%nat /\ length (km_centers k) = (v_trained v * v_dim v)%nat /\ length (km_dist k) = v_reset v /\
  km_clusters k = v_clusters v /\ (1 <= v_clusters v)%nat /\ (1 <= km_maxit k)%nat.

Lemma fits_new : forall n, (1 <= n)%nat -> fits (km_new (A := RA) n) (view_new n).
Proof. intros n H. unfold fits, km_new, view_new. cbn. repeat split; lia. Qed.

Definition after (r : res (kmeans RA)) (k : kmeans RA) : res (kmeans RA) := match r with Ok k => Ok k | Throw _ => Ok k | UB => UB end.

Lemma step_fits : forall o k v, fits k v -> with_recordings o -> allowed o v -> exists k', after (km_step o k) k = Ok k' /\ fits k' (view_step o v).
Proof.
  intros o k v (F1 & F2 & F3 & F4 & F5 & F6 & F7) W AL. destruct o as [e|b|w i rnd| |obs|root]; cbn [km_step].
  - destruct e as [n|n|x]; cbn [kmP_set view_step].
    + destruct (Nat.ltb_spec n 1), (Nat.leb_spec 1 n); try lia; cbn [bind after]; eexists; (split; [reflexivity|]); repeat split; cbn; auto; lia.
    + destruct (Nat.ltb_spec n 1); cbn [bind after]; eexists; (split; [reflexivity|]); repeat split; cbn; auto; lia.
    + match goal with |- context [if ?c then Throw _ else _] => destruct c end; cbn [bind after]; eexists; (split; [reflexivity|]); repeat split; cbn; auto; lia.
  - eexists. split; [reflexivity|]. repeat split; cbn; auto.
  - destruct W as (t & recs & H). cbn [view_step]. rewrite (proj1 (proj2 H)). destruct recs as [|r recs].
    + rewrite (train_set_none w i t rnd k H). destruct (recorded_data w i t [] H) as (_ & _ & _ & _ & _ & _ & E5 & _). rewrite (proj2 E5 eq_refl). exists k. repeat split; auto.
    + destruct (train_set_ok w i t (r :: recs) rnd k H) as (init & cs & -> & L & _); [discriminate|rewrite F1; discriminate|lia|]. cbn [after].
      destruct (recorded_data w i t (r :: recs) H) as (_ & _ & _ & _ & _ & _ & E5 & E6). destruct (t_phrases t) as [|e m]; [discriminate (proj1 E5 eq_refl)|].
      eexists. split; [reflexivity|]. repeat split; cbn; auto; rewrite <- F5; auto; lia.
  - eexists. split; [reflexivity|]. unfold km_reset. repeat split; cbn; auto. rewrite vresize_length. exact F5.
  - cbn [view_step]. destruct (Nat.eq_dec (length obs) (v_dim v)) as [E|E].
    + destruct (AL E) as (R1 & R2). destruct (filter_some obs k (v_dim v) F1 E) as (ds & l & -> & L & _).
      * change (num RA) with R in *. rewrite F3, F5. apply Nat.mul_le_mono_r, R1.
      * change (num RA) with R in *. rewrite F4, F5. exact R2.
      * eexists. split; [reflexivity|]. repeat split; cbn; auto. change (num RA) with R in *. rewrite L. exact F4.
    + rewrite (filter_wrong RA obs k (v_dim v) F1 E). exists k. repeat split; auto.
  - eexists. split; [reflexivity|]. repeat split; cbn; auto.
Qed.

Lemma step_bad : forall o k v, fits k v -> ~ allowed o v -> km_step o k = UB.
Proof.
  intros o k v (F1 & F2 & F3 & F4 & F5 & F6 & F7) NA. destruct o as [e|b|w i rnd| |obs|root]; cbn [allowed] in NA; try (exfalso; apply NA; exact I).
  cbn [km_step]. destruct (Nat.eq_dec (length obs) (v_dim v)) as [E|E]; [|exfalso; apply NA; intro; contradiction].
  apply (filter_out obs k (v_dim v) (v_trained v) F2 F1 E F3). change (num RA) with R in *. rewrite F4, F5.
  destruct (le_lt_dec (v_clusters v) (v_trained v)); [|left; lia]. destruct (le_lt_dec (v_clusters v) (v_reset v)); [|right; lia].
  exfalso. apply NA. intros _. split; assumption.
Qed.

Lemma allowed_dec : forall o v, {allowed o v} + {~ allowed o v}.
Proof.
  intros o v. destruct o; cbn [allowed]; auto. destruct (Nat.eq_dec (length obs) (v_dim v)) as [E|E]; [|left; intro; contradiction].
  unfold ready. destruct (le_lt_dec (v_clusters v) (v_trained v)), (le_lt_dec (v_clusters v) (v_reset v)); [left; auto|right|right|right]; intro H; specialize (H E); lia.
Qed.

Lemma run_cons : forall o ops (k : kmeans RA), km_run (o :: ops) k = match after (km_step o k) k with Ok k' => km_run ops k' | Throw e => Throw e | UB => UB end.
Proof. intros o ops k. cbn [km_run]. destruct (km_step o k); reflexivity. Qed.

Lemma run_fits : forall ops k v, fits k v -> Forall with_recordings ops ->
  (all_allowed ops v -> exists k', km_run ops k = Ok k' /\ fits k' (view_run ops v)) /\ (~ all_allowed ops v -> km_run ops k = UB).
Proof.
  induction ops as [|o ops IH]; intros k v F W.
  - split; [intros _; exists k; split; [reflexivity|exact F]|intro H; exfalso; apply H; exact I].
  - inversion W as [|? ? W1 W2]; subst. rewrite run_cons. cbn [all_allowed view_run fold_left]. destruct (allowed_dec o v) as [AL|NA].
    + destruct (step_fits o k v F W1 AL) as (k' & -> & F'). destruct (IH k' (view_step o v) F' W2) as (I1 & I2). split.
      * intros (_ & H). exact (I1 H).
      * intro H. apply I2. intro Q. apply H. split; assumption.
    + rewrite (step_bad o k v F NA). split; [intros (H & _); contradiction|reflexivity].
Qed.

Lemma run_app : forall ops ops' (k : kmeans RA), km_run (ops ++ ops') k = match km_run ops k with Ok k' => km_run ops' k' | r => r end.
Proof.
  induction ops as [|o ops IH]; intros ops' k; [reflexivity|]. cbn [app km_run]. destruct (km_step o k); [apply IH|apply IH|reflexivity].
Qed.
