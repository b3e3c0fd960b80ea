(** K-Means in any arithmetic: what the loops compute. *)
From Coq Require Import List Bool Arith Lia.
From Verif Require Import Base BaseFacts Arith Model_Gaussian Model_KMeans.
Import ListNotations.

Lemma rdn : forall {X} (v : list X) i d, i < length v -> rd v i = Ok (nth i v d).
Proof. intros X v i d H. unfold rd. rewrite (nth_error_nth' v d H). reflexivity. Qed.
(** The items with a given label. *)
Definition tagged {X} (items : list X) (labels : list nat) (k : nat) : list X := map fst (filter (fun e => snd e =? k) (combine items labels)).
Lemma tagged_app : forall {X} (a : list X) la b lb k, length a = length la -> tagged (a ++ b) (la ++ lb) k = tagged a la k ++ tagged b lb k.
Proof.
  unfold tagged. induction a as [|x a IH]; intros [|l la] b lb k H; cbn in H; try discriminate; [reflexivity|].
  cbn [app combine filter]. destruct (snd (x, l) =? k); cbn [map app]; rewrite IH by lia; reflexivity.
Qed.

Section Any.
  Context {A : arith}.
  Local Notation T := (num A).

  Lemma seg_any : forall n o (f : nat -> T -> res T) (g : nat -> T -> T) (z : T) (cs : list T), o + n <= length cs ->
    (forall d c, d < n -> f d c = Ok (g d c)) ->
    exists cs', iterM n (fun d cs => let* c := rd cs (o + d) in let* y := f d c in wr cs (o + d) y) cs = Ok cs' /\ length cs' = length cs /\
      forall q, nth q cs' z = if (o <=? q) && (q <? o + n) then g (q - o) (nth q cs z) else nth q cs z.
  Proof.
    intros n o f g z cs Hl Hf.
    destruct (iterM_inv (fun i s => length s = length cs /\ forall q, nth q s z = if (o <=? q) && (q <? o + i) then g (q - o) (nth q cs z) else nth q cs z)
      n (fun d cs => let* c := rd cs (o + d) in let* y := f d c in wr cs (o + d) y) cs) as (cs' & E & L & N).
    - split; [reflexivity|]. intro q. destruct (Nat.leb_spec o q), (Nat.ltb_spec q (o + 0)); try reflexivity. lia.
    - intros i s Hi (L & N). rewrite (rdn s (o + i) z) by lia. cbn [bind]. rewrite Hf by exact Hi. cbn [bind]. rewrite wr_ok by lia.
      eexists. split; [reflexivity|]. split; [rewrite upd_length; exact L|]. intro q. destruct (Nat.eq_dec q (o + i)) as [->|D].
      + rewrite nth_upd_eq by lia. rewrite N. destruct (Nat.leb_spec o (o + i)), (Nat.ltb_spec (o + i) (o + i)), (Nat.ltb_spec (o + i) (o + S i)); cbn [andb]; try lia.
        replace (o + i - o) with i by lia. reflexivity.
      + rewrite nth_upd_neq by lia. rewrite N. destruct (Nat.leb_spec o q), (Nat.ltb_spec q (o + i)), (Nat.ltb_spec q (o + S i)); cbn [andb]; try reflexivity; lia.
    - exists cs'. split; [exact E|]. split; [exact L|]. exact N.
  Qed.

  (** The distance computed between positions of two vectors, and to a center. *)
  Definition gap (x y : T) : T := ((x - y) * (x - y))%num.
  Definition edist (v : list T) (i : nat) (c : list T) (j n : nat) : T := nsqrt (nsum n (fun d => gap (nth (i + d) v n0) (nth (j + d) c n0))).
  Definition cdist (dim : nat) (x cs : list T) (k : nat) : T := edist x 0 cs (k * dim) dim.
  Lemma euclid_any : forall (v c : list T) i j n, i + n <= length v -> j + n <= length c -> euclid v i c j n = Ok (edist v i c j n).
  Proof.
    intros v c i j n Hi Hj. unfold euclid, edist, accM.
    assert (E : forall m, m <= n -> iterM m (fun d s => let* x := (let* x := rd v (i + d) in let* y := rd c (j + d) in Ok ((x - y) * (x - y))%num) in Ok (s + x)%num) n0 = Ok (nsum m (fun d => gap (nth (i + d) v n0) (nth (j + d) c n0)))).
    { induction m as [|m IH]; intro Hm; [reflexivity|]. cbn [iterM nsum]. rewrite IH by lia. cbn [bind]. rewrite (rdn v (i + m) n0), (rdn c (j + m) n0) by lia. reflexivity. }
    rewrite E by lia. reflexivity.
  Qed.
  Lemma euclid_cdist : forall clusters dim (x cs : list T) k, length x = dim -> length cs = clusters * dim -> k < clusters -> euclid x 0 cs (k * dim) dim = Ok (cdist dim x cs k).
  Proof. intros. apply euclid_any; [lia|nia]. Qed.

  (** The scan for the smallest of [f 0], ..., [f n]. *)
  Fixpoint scan (n : nat) (f : nat -> T) : T * nat :=
    match n with
    | O => (f 0, 0)
    | S n => let s := scan n f in if (f (S n) <? fst s)%num then (f (S n), S n) else s
    end.
  Lemma scan_fst : forall n f, fst (scan n f) = f (snd (scan n f)) /\ snd (scan n f) <= n.
  Proof. induction n as [|n IH]; intro f; cbn [scan]; [split; [reflexivity|cbn; lia]|]. destruct (IH f). destruct (f (S n) <? fst (scan n f))%num; cbn [fst snd]; split; auto; lia. Qed.
  Definition label_of (clusters dim : nat) (prev x : list T) : nat := snd (scan (clusters - 1) (cdist dim x prev)).
  Lemma label_lt : forall clusters dim prev x, 1 <= clusters -> label_of clusters dim prev x < clusters.
  Proof. intros. unfold label_of. pose proof (scan_fst (clusters - 1) (cdist dim x prev)). lia. Qed.
  Lemma member_any : forall clusters dim (cs x : list T), 1 <= clusters -> length x = dim -> length cs = clusters * dim -> km_member clusters dim cs x = Ok (label_of clusters dim cs x).
  Proof.
    intros clusters dim cs x Hc Hx Hl. unfold km_member. pose proof (euclid_cdist clusters dim x cs 0 Hx Hl ltac:(lia)) as E0. cbn [Nat.mul] in E0. rewrite E0. cbn [bind].
    assert (E : forall m, m <= clusters - 1 -> iterM m (fun k' s => let* d := euclid x 0 cs (S k' * dim) dim in Ok (if (d <? fst s)%num then (d, S k') else s)) (cdist dim x cs 0, 0) = Ok (scan m (cdist dim x cs))).
    { induction m as [|m IH]; intro Hm; [reflexivity|]. cbn [iterM scan]. rewrite IH by lia. cbn [bind]. rewrite (euclid_cdist clusters) by (assumption || lia). reflexivity. }
    cbv zeta. rewrite E by lia. reflexivity.
  Qed.

  (** Sums in the order of the frames. *)
  Definition asum (l : list T) : T := fold_left nadd l n0.
  Definition column (d : nat) (xs : list (list T)) : list T := map (fun x => nth d x n0) xs.
  Section Update.
    Context (clusters dim : nat) (prev : list T) (Hc : 1 <= clusters) (Hp : length prev = clusters * dim).
    Local Notation lab := (label_of clusters dim prev).
    Definition sums (done : list (list T)) (s : list T * list nat) : Prop :=
      length (fst s) = clusters * dim /\ length (snd s) = clusters /\
      forall k, k < clusters -> nth k (snd s) 0 = length (tagged done (map lab done) k) /\
        forall d, d < dim -> nth (k * dim + d) (fst s) n0 = asum (column d (tagged done (map lab done) k)).

    Lemma frame_any : forall done s x, length x = dim -> sums done s -> exists s', km_frame clusters dim prev s x = Ok s' /\ sums (done ++ [x]) s'.
    Proof.
      intros done (cs, ns) x Hx (L1 & L2 & S). cbn [fst snd] in *. unfold km_frame. cbn [fst snd]. rewrite member_any by assumption. cbn [bind].
      pose proof (label_lt clusters dim prev x Hc) as Hm. set (m := lab x) in *. rewrite (rdn ns m 0) by lia. cbn [bind]. rewrite wr_ok by lia. cbn [bind].
      destruct (seg_any dim (m * dim) (fun d c => let* y := rd x d in Ok (c + y)%num) (fun d c => (c + nth d x n0)%num) n0 cs) as (cs' & E & L & V).
      { rewrite L1. nia. }
      { intros d c Hd. rewrite (rdn x d n0) by lia. reflexivity. }
      assert (E' : km_add dim m x cs = Ok cs').
      { rewrite <- E. unfold km_add. apply iterM_ext. intros d s Hd. destruct (rd s (m * dim + d)); cbn [bind]; try reflexivity. destruct (rd x d); reflexivity. }
      rewrite E'. cbn [bind]. eexists. split; [reflexivity|]. unfold sums. cbn [fst snd]. split; [congruence|]. split; [rewrite upd_length; exact L2|].
      intros k Hk. destruct (S k Hk) as (S1 & S2). rewrite map_app, tagged_app by (rewrite map_length; reflexivity).
      assert (M1 : tagged [x] (map lab [x]) k = if m =? k then [x] else []) by (unfold tagged; cbn; fold m; destruct (m =? k); reflexivity).
      rewrite M1. rewrite app_length. split.
      - destruct (Nat.eqb_spec m k) as [E1|D]; cbn [length].
        + rewrite <- E1 in *. rewrite nth_upd_eq by lia. rewrite S1. lia.
        + rewrite nth_upd_neq by lia. rewrite S1. lia.
      - intros d Hd. unfold column. rewrite map_app. unfold asum. rewrite fold_left_app. rewrite V, (S2 d Hd). destruct (Nat.eqb_spec m k) as [E1|D]; cbn [map fold_left].
        + rewrite E1. destruct (Nat.leb_spec (k * dim) (k * dim + d)), (Nat.ltb_spec (k * dim + d) (k * dim + dim)); try lia. cbn [andb].
          replace (k * dim + d - k * dim) with d by lia. reflexivity.
        + destruct (Nat.leb_spec (m * dim) (k * dim + d)), (Nat.ltb_spec (k * dim + d) (m * dim + dim)); cbn [andb]; try reflexivity. exfalso. nia.
    Qed.
    Lemma frames_any : forall fs done s, Forall (fun x => length x = dim) fs -> sums done s -> exists s', foldM (km_frame clusters dim prev) fs s = Ok s' /\ sums (done ++ fs) s'.
    Proof.
      induction fs as [|x fs IH]; intros done s Hf S; cbn [foldM].
      - exists s. rewrite app_nil_r. auto.
      - inversion Hf as [|? ? Hx Hf']; subst. destruct (frame_any done s x Hx S) as (s1 & -> & S1). cbn [bind].
        destruct (IH (done ++ [x]) s1 Hf' S1) as (s2 & E & S2). exists s2. split; [exact E|]. rewrite <- app_assoc in S2. exact S2.
    Qed.
    Lemma phrases_any : forall data done s, Forall (Forall (fun x => length x = dim)) data -> sums done s ->
      exists s', foldM (fun s p => foldM (km_frame clusters dim prev) p s) data s = Ok s' /\ sums (done ++ concat data) s'.
    Proof.
      induction data as [|p data IH]; intros done s Hf S; cbn [foldM concat].
      - exists s. rewrite app_nil_r. auto.
      - inversion Hf as [|? ? Hx Hf']; subst. destruct (frames_any p done s Hx S) as (s1 & E1 & S1). rewrite E1. cbn [bind].
        destruct (IH (done ++ p) s1 Hf' S1) as (s2 & E & S2). exists s2. split; [exact E|]. rewrite <- app_assoc in S2. exact S2.
    Qed.
    Definition center_of (frames : list (list T)) (k d : nat) : T :=
      match tagged frames (map lab frames) k with [] => n0 | xs => (asum (column d xs) / nN (length xs))%num end.
    Lemma update_any : forall data, Forall (Forall (fun x => length x = dim)) data ->
      exists cs, km_update clusters dim prev data = Ok cs /\ length cs = clusters * dim /\ forall k d, k < clusters -> d < dim -> nth (k * dim + d) cs n0 = center_of (concat data) k d.
    Proof.
      intros data Hf. unfold km_update.
      destruct (phrases_any data [] (repeat n0 (clusters * dim), repeat 0 clusters) Hf) as ((cs, ns) & E & L1 & L2 & S).
      { unfold sums. cbn [fst snd]. rewrite !repeat_length. split; [reflexivity|]. split; [reflexivity|]. intros k Hk. split; [apply nth_repeat|]. intros. apply nth_repeat. }
      cbn [app fst snd] in *. rewrite E. cbn [bind fst snd]. set (fs := concat data) in *.
      pose (I := fun (i : nat) (v : list T) => length v = clusters * dim /\ forall k d, k < clusters -> d < dim ->
        nth (k * dim + d) v n0 = if k <? i then center_of fs k d else nth (k * dim + d) cs n0).
      match goal with |- context [iterM ?n ?f ?s] => destruct (iterM_inv I n f s) as (v & E2 & I1 & I2) end.
      - split; [exact L1|]. intros. reflexivity.
      - intros i v Hi (I1 & I2). rewrite (rdn ns i 0) by lia. cbn [bind]. destruct (S i Hi) as (S1 & S2). rewrite S1. set (xs := tagged fs (map lab fs) i) in *. destruct (Nat.ltb_spec 0 (length xs)) as [Z|Z].
        + destruct (seg_any dim (i * dim) (fun d c => Ok (c / nN (length xs))%num) (fun d c => (c / nN (length xs))%num) n0 v) as (v' & E' & L' & V').
          { rewrite I1. nia. }
          { reflexivity. }
          exists v'. split.
          { etransitivity; [|exact E']. apply iterM_ext. intros d s Hd. destruct (rd s (i * dim + d)); reflexivity. }
          split; [congruence|]. intros k d Hk Hd. rewrite V', (I2 k d Hk Hd).
          destruct (Nat.leb_spec (i * dim) (k * dim + d)), (Nat.ltb_spec (k * dim + d) (i * dim + dim)); cbn [andb].
          * assert (k = i) by nia. subst k. destruct (Nat.ltb_spec i i), (Nat.ltb_spec i (Datatypes.S i)); try lia. rewrite (S2 d Hd). unfold center_of. fold xs.
            destruct xs; [cbn in Z; lia|reflexivity].
          * destruct (Nat.ltb_spec k i), (Nat.ltb_spec k (Datatypes.S i)); try reflexivity; nia.
          * destruct (Nat.ltb_spec k i), (Nat.ltb_spec k (Datatypes.S i)); try reflexivity; nia.
          * destruct (Nat.ltb_spec k i), (Nat.ltb_spec k (Datatypes.S i)); try reflexivity; nia.
        + exists v. split; [reflexivity|]. split; [exact I1|]. intros k d Hk Hd. rewrite (I2 k d Hk Hd).
          destruct (Nat.ltb_spec k i), (Nat.ltb_spec k (Datatypes.S i)); try reflexivity; try lia. assert (k = i) by lia. subst k. rewrite (S2 d Hd). unfold center_of. fold xs.
          destruct xs; [reflexivity|cbn in Z; lia].
      - exists v. split; [exact E2|]. split; [exact I1|]. intros k d Hk Hd. rewrite (I2 k d Hk Hd). destruct (Nat.ltb_spec k clusters); [reflexivity|lia].
    Qed.
  End Update.

  (** The stopping test never fails. *)
  Lemma stops_any : forall clusters dim thr (prev cs : list T), length prev = clusters * dim -> length cs = clusters * dim -> exists b, km_stops clusters dim thr prev cs = Ok b.
  Proof.
    intros clusters dim thr prev cs Hp Hc. unfold km_stops.
    match goal with |- context [iterM clusters ?f ?s] => destruct (iterM_inv (fun _ _ => True) clusters f s) as (v & E & _) end; [exact I| |rewrite E; cbn [bind]; eexists; reflexivity].
    intros k s Hk _. match goal with |- context [iterM clusters ?f ?s] => destruct (iterM_inv (fun _ _ => True) clusters f s) as (w & E & _) end; [exact I| |].
    - intros l m Hl _. destruct (k =? l); [eauto|]. rewrite (euclid_any cs cs) by nia. cbn [bind]. eauto.
    - rewrite E. cbn [bind]. rewrite (euclid_any prev cs) by nia. cbn [bind]. eauto.
  Qed.

  (** Filtering. *)
  Fixpoint fscan (n : nat) (f : nat -> T) : T * nat :=
    match n with
    | O => (flt_max, 0)
    | S n => let s := fscan n f in if (f n <? fst s)%num then (f n, n) else s
    end.
  Lemma filter_any : forall obs (k : kmeans A) dim, km_dim k = Some dim -> length obs = dim -> length (km_centers k) = km_clusters k * dim -> km_clusters k <= length (km_dist k) ->
    exists k', km_filter obs k = Ok k' /\ length (km_dist k') = length (km_dist k) /\ (forall c, c < km_clusters k -> nth c (km_dist k') n0 = cdist dim obs (km_centers k) c) /\
      km_likeliest k' = snd (fscan (km_clusters k) (cdist dim obs (km_centers k))).
  Proof.
    intros obs k dim HD HO HC HL. unfold km_filter. rewrite HD. replace (length obs =? dim) with true by (symmetry; apply Nat.eqb_eq; exact HO). cbn [negb].
    set (f := cdist dim obs (km_centers k)).
    pose (I := fun (i : nat) (s : list T * T * nat) => let '(ds, mn, best) := s in length ds = length (km_dist k) /\ (forall c, c < i -> nth c ds n0 = f c) /\ (mn, best) = fscan i f).
    match goal with |- context [iterM ?n ?g ?s] => destruct (iterM_inv I n g s) as (((ds, mn), b) & E & I1 & I2 & I3) end.
    - cbn. split; [reflexivity|]. split; [intros; lia|reflexivity].
    - intros i ((ds, mn), b) Hi (I1 & I2 & I3). rewrite (euclid_cdist (km_clusters k)) by assumption. cbn [bind]. fold f. rewrite wr_ok by lia. cbn [bind].
      assert (Q : forall c, c < S i -> nth c (upd ds i (f i)) n0 = f c).
      { intros c Hc. destruct (Nat.eq_dec c i) as [->|D]; [apply nth_upd_eq; lia|]. rewrite nth_upd_neq by lia. apply I2. lia. }
      assert (F : fscan (S i) f = if (f i <? mn)%num then (f i, i) else (mn, b)) by (cbn [fscan]; rewrite <- I3; reflexivity).
      destruct (f i <? mn)%num; eexists; (split; [reflexivity|]); (split; [rewrite upd_length; exact I1|]); (split; [exact Q|]); symmetry; exact F.
    - rewrite E. cbn [bind]. eexists. split; [reflexivity|]. split; [exact I1|]. split; [exact I2|]. cbn. unfold f in *. rewrite <- I3. reflexivity.
  Qed.
End Any.
