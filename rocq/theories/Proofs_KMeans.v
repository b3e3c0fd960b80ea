(** K-Means: proofs. *)
From Coq Require Import List Bool Arith Lia Reals Lra Permutation.
From Verif Require Import Base BaseFacts Arith RFacts Model_Gaussian Proofs_Gaussian Model_KMeans Spec_KMeans.
Import ListNotations.
Local Open Scope R_scope.

(** ** Indices of rows and columns *)
Lemma flat_lt : forall c n k d, (k < c)%nat -> (d < n)%nat -> (k * n + d < c * n)%nat.
Proof. intros. nia. Qed.
Lemma flat_eq : forall n k d k' d', (d < n)%nat -> (d' < n)%nat -> (k * n + d = k' * n + d')%nat -> k = k' /\ d = d'.
Proof. intros. assert (k = k') by nia. subst. lia. Qed.

Lemma rd_nth : forall {X} (v : list X) i d, (i < length v)%nat -> rd v i = Ok (nth i v d).
Proof. intros X v i d H. unfold rd. rewrite (nth_error_nth' v d H). reflexivity. Qed.

(** A loop that rewrites the [n] slots from [o] on. *)
Lemma seg_loop : forall n o (f : nat -> R -> res R) (g : nat -> R -> R) (cs : list R), (o + n <= length cs)%nat ->
  (forall d c, (d < n)%nat -> f d c = Ok (g d c)) ->
  exists cs', iterM n (fun d cs => let* c := rd cs (o + d) in let* y := f d c in wr cs (o + d) y) cs = Ok cs' /\ length cs' = length cs /\
    forall q, nth q cs' 0 = if (o <=? q)%nat && (q <? o + n)%nat then g (q - o)%nat (nth q cs 0) else nth q cs 0.
Proof.
  intros n o f g cs Hl Hf.
  destruct (iterM_inv (fun i s => length s = length cs /\ forall q, nth q s 0 = if (o <=? q)%nat && (q <? o + i)%nat then g (q - o)%nat (nth q cs 0) else nth q cs 0)
    n (fun d cs => let* c := rd cs (o + d) in let* y := f d c in wr cs (o + d) y) cs) as (cs' & E & L & N).
  - split; [reflexivity|]. intro q. destruct (Nat.leb_spec o q), (Nat.ltb_spec q (o + 0)); try reflexivity. lia.
  - intros i s Hi (L & N). rewrite (rd_nth s (o + i) 0) by lia. cbn [bind]. rewrite Hf by exact Hi. cbn [bind]. rewrite wr_ok by lia.
    eexists. split; [reflexivity|]. split; [rewrite upd_length; exact L|]. intro q. destruct (Nat.eq_dec q (o + i)) as [->|D].
    + rewrite nth_upd_eq by lia. rewrite N. destruct (Nat.leb_spec o (o + i)), (Nat.ltb_spec (o + i) (o + i)), (Nat.ltb_spec (o + i) (o + S i)); cbn [andb]; try lia.
      replace (o + i - o)%nat with i by lia. reflexivity.
    + rewrite nth_upd_neq by lia. rewrite N. destruct (Nat.leb_spec o q), (Nat.ltb_spec q (o + i)), (Nat.ltb_spec q (o + S i)); cbn [andb]; try reflexivity; lia.
  - exists cs'. split; [exact E|]. split; [exact L|]. exact N.
Qed.

(** ** Distances *)
Lemma Rsq_nonneg : forall x, 0 <= x * x.
Proof. intro x. pose proof (Rle_0_sqr x) as H. exact H. Qed.
Lemma sqd_nonneg : forall dim x cs k, 0 <= sqd dim x cs k.
Proof. intros. apply Rsum_nonneg. intros. apply Rsq_nonneg. Qed.

Lemma euclid_ok : forall (v c : list R) i j n, (i + n <= length v)%nat -> (j + n <= length c)%nat ->
  euclid (A := RA) v i c j n = Ok (sqrt (Rsum n (fun d => (nth (i + d) v 0 - nth (j + d) c 0) * (nth (i + d) v 0 - nth (j + d) c 0)))).
Proof.
  intros v c i j n Hi Hj. unfold euclid. rewrite (accM_ok n _ (fun d => (nth (i + d) v 0 - nth (j + d) c 0) * (nth (i + d) v 0 - nth (j + d) c 0))).
  - cbn [bind]. rewrite n0_RA. apply (f_equal (@Ok _)). cbn [nsqrt RA]. f_equal. change (num RA) with R. lra.
  - intros d Hd. change (num RA) with R. rewrite (rd_nth v (i + d) 0), (rd_nth c (j + d) 0) by lia. reflexivity.
Qed.

Lemma euclid_center : forall clusters dim (x cs : list R) k, length x = dim -> length cs = (clusters * dim)%nat -> (k < clusters)%nat ->
  euclid (A := RA) x 0 cs (k * dim) dim = Ok (sqrt (sqd dim x cs k)).
Proof. intros clusters dim x cs k Hx Hc Hk. rewrite euclid_ok; [reflexivity|lia|nia]. Qed.

Lemma sqrt_lt_iff : forall a b, 0 <= a -> 0 <= b -> (sqrt a < sqrt b <-> a < b).
Proof. intros a b Ha Hb. split; [apply sqrt_lt_0; assumption|intro; apply sqrt_lt_1; assumption]. Qed.

(** ** Membership *)
Lemma nearest_unique : forall clusters dim cs x j k, nearest clusters dim cs x j -> nearest clusters dim cs x k -> j = k.
Proof.
  intros clusters dim cs x j k (J1 & J2 & J3) (K1 & K2 & K3). destruct (lt_eq_lt_dec j k) as [[L|E]|L]; [|exact E|].
  - specialize (K3 j L). specialize (J2 k K1). lra.
  - specialize (J3 k L). specialize (K2 j J1). lra.
Qed.

Lemma member_ok : forall clusters dim (cs x : list R), (1 <= clusters)%nat -> length x = dim -> length cs = (clusters * dim)%nat ->
  exists k, km_member (A := RA) clusters dim cs x = Ok k /\ nearest clusters dim cs x k.
Proof.
  intros clusters dim cs x Hc Hx Hl. unfold km_member.
  pose proof (euclid_center clusters dim x cs 0 Hx Hl ltac:(lia)) as E0. cbn [Nat.mul] in E0. rewrite E0. cbn [bind]. clear E0.
  pose (I := fun (i : nat) (s : R * nat) => fst s = sqrt (sqd dim x cs (snd s)) /\ (snd s <= i)%nat /\
    (forall j, (j <= i)%nat -> sqd dim x cs (snd s) <= sqd dim x cs j) /\ (forall j, (j < snd s)%nat -> sqd dim x cs (snd s) < sqd dim x cs j)).
  match goal with |- context [iterM ?n ?f ?s] => destruct (iterM_inv I n f s) as ((m, k) & E & I1 & I2 & I3 & I4) end.
  - repeat split; cbn [fst snd]; try lia. intros j Hj. replace j with 0%nat by lia. apply Rle_refl.
  - intros i (m, b) Hi (I1 & I2 & I3 & I4). cbn [fst snd] in *. rewrite (euclid_center clusters dim x cs (S i) Hx Hl) by lia. cbn [bind].
    eexists. split; [reflexivity|]. cbn [nltb RA]. rewrite I1. destruct (Rlt_dec (sqrt (sqd dim x cs (S i))) (sqrt (sqd dim x cs b))) as [L|L].
    + apply (proj1 (sqrt_lt_iff _ _ (sqd_nonneg _ _ _ _) (sqd_nonneg _ _ _ _))) in L. repeat split; cbn [fst snd]; try lia.
      * intros j Hj. destruct (Nat.eq_dec j (S i)) as [->|D]; [apply Rle_refl|]. exact (Rlt_le _ _ (Rlt_le_trans _ _ _ L (I3 j ltac:(lia)))).
      * intros j Hj. exact (Rlt_le_trans _ _ _ L (I3 j ltac:(lia))).
    + assert (sqd dim x cs b <= sqd dim x cs (S i)).
      { apply Rnot_lt_le. intro X. apply L. apply sqrt_lt_iff; auto using sqd_nonneg. }
      repeat split; cbn [fst snd]; try lia; auto. intros j Hj. destruct (Nat.eq_dec j (S i)) as [->|D]; [assumption|]. apply I3. lia.
  - change (num RA) with R in *. rewrite E. cbn [bind snd]. cbn [snd] in *. exists k. split; [reflexivity|]. repeat split; [lia| |exact I4]. intros j Hj. apply I3. lia.
Qed.

(** ** The sums of an update *)
Definition summed (clusters dim : nat) (prev : list R) (done : list (list R)) (s : list R * list nat) : Prop :=
  exists labels, Forall2 (nearest clusters dim prev) done labels /\
    length (fst s) = (clusters * dim)%nat /\ length (snd s) = clusters /\
    forall k, (k < clusters)%nat ->
      nth k (snd s) O = length (members done labels k) /\
      forall d, (d < dim)%nat -> nth (k * dim + d) (fst s) 0 = Rlsum (map (fun x => nth d x 0) (members done labels k)).

Lemma members_app : forall a la b lb k, length a = length la -> members (a ++ b) (la ++ lb) k = members a la k ++ members b lb k.
Proof.
  unfold members. induction a as [|x a IH]; intros [|l la] b lb k H; cbn in H; try discriminate; [reflexivity|].
  cbn [app combine filter]. destruct (snd (x, l) =? k)%nat; cbn [map app]; rewrite IH by lia; reflexivity.
Qed.

Lemma Forall2_len : forall {X Y} (P : X -> Y -> Prop) a b, Forall2 P a b -> length a = length b.
Proof. intros X Y P a b H. induction H; cbn; congruence. Qed.

Lemma frame_ok : forall clusters dim prev done s (x : list R), (1 <= clusters)%nat -> length prev = (clusters * dim)%nat -> length x = dim ->
  summed clusters dim prev done s -> exists s', km_frame (A := RA) clusters dim prev s x = Ok s' /\ summed clusters dim prev (done ++ [x]) s'.
Proof.
  intros clusters dim prev done (cs, ns) x Hc Hp Hx (labels & F & L1 & L2 & S). cbn [fst snd] in *. unfold km_frame. cbn [fst snd].
  destruct (member_ok clusters dim prev x Hc Hx Hp) as (m & -> & N). cbn [bind]. destruct N as (Nm & N). pose proof (conj Nm N) as NN.
  rewrite (rd_nth ns m O) by lia. cbn [bind]. rewrite wr_ok by lia. cbn [bind].
  destruct (seg_loop dim (m * dim) (fun d c => let* y := rd x d in Ok (c + y)) (fun d c => c + nth d x 0) cs) as (cs' & E & L & V).
  { rewrite L1. nia. }
  { intros d c Hd. rewrite (rd_nth x d 0) by lia. reflexivity. }
  assert (E' : km_add (A := RA) dim m x cs = Ok cs').
  { rewrite <- E. unfold km_add. apply iterM_ext. intros d s Hd. change (num RA) with R in *. destruct (rd s (m * dim + d)); cbn [bind]; try reflexivity. destruct (rd x d); reflexivity. }
  rewrite E'. cbn [bind]. eexists. split; [reflexivity|]. exists (labels ++ [m]). cbn [fst snd].
  split; [apply Forall2_app; [exact F|constructor; [exact NN|constructor]]|]. split; [congruence|]. split; [rewrite upd_length; exact L2|].
  intros k Hk. destruct (S k Hk) as (S1 & S2). rewrite members_app by exact (Forall2_len _ _ _ F).
  assert (M1 : members [x] [m] k = if (m =? k)%nat then [x] else []) by (unfold members; cbn; destruct (m =? k)%nat; reflexivity).
  rewrite M1. rewrite app_length. split.
  - destruct (Nat.eqb_spec m k) as [->|D]; cbn [length].
    + rewrite nth_upd_eq by lia. rewrite S1. lia.
    + rewrite nth_upd_neq by lia. rewrite S1. lia.
  - intros d Hd. rewrite map_app, Rlsum_app. rewrite V, (S2 d Hd). destruct (Nat.eqb_spec m k) as [->|D]; cbn [map Rlsum fold_right].
    + destruct (Nat.leb_spec (k * dim) (k * dim + d)), (Nat.ltb_spec (k * dim + d) (k * dim + dim)); try lia. cbn [andb].
      replace (k * dim + d - k * dim)%nat with d by lia. lra.
    + destruct (Nat.leb_spec (m * dim) (k * dim + d)), (Nat.ltb_spec (k * dim + d) (m * dim + dim)); cbn [andb]; try lra. exfalso. nia.
Qed.

Lemma frames_ok : forall clusters dim prev fs done s, (1 <= clusters)%nat -> length prev = (clusters * dim)%nat -> Forall (fun x => length x = dim) fs ->
  summed clusters dim prev done s -> exists s', foldM (km_frame (A := RA) clusters dim prev) fs s = Ok s' /\ summed clusters dim prev (done ++ fs) s'.
Proof.
  intros clusters dim prev. induction fs as [|x fs IH]; intros done s Hc Hp Hf S; cbn [foldM].
  - exists s. rewrite app_nil_r. auto.
  - inversion Hf as [|? ? Hx Hf']; subst. destruct (frame_ok clusters _ prev done s x Hc Hp eq_refl S) as (s1 & -> & S1). cbn [bind].
    destruct (IH (done ++ [x]) s1 Hc Hp Hf' S1) as (s2 & E & S2). exists s2. split; [exact E|]. rewrite <- app_assoc in S2. exact S2.
Qed.

Lemma phrases_ok : forall clusters dim prev data done s, (1 <= clusters)%nat -> length prev = (clusters * dim)%nat -> Forall (Forall (fun x => length x = dim)) data ->
  summed clusters dim prev done s ->
  exists s', foldM (fun s p => foldM (km_frame (A := RA) clusters dim prev) p s) data s = Ok s' /\ summed clusters dim prev (done ++ concat data) s'.
Proof.
  intros clusters dim prev. induction data as [|p data IH]; intros done s Hc Hp Hf S; cbn [foldM concat].
  - exists s. rewrite app_nil_r. auto.
  - inversion Hf as [|? ? Hx Hf']; subst. destruct (frames_ok clusters dim prev p done s Hc Hp Hx S) as (s1 & E1 & S1). change (num RA) with R in *. rewrite E1. cbn [bind].
    destruct (IH (done ++ p) s1 Hc Hp Hf' S1) as (s2 & E & S2). exists s2. split; [exact E|]. rewrite <- app_assoc in S2. exact S2.
Qed.

Lemma summed_nil : forall clusters dim prev, summed clusters dim prev [] (repeat 0 (clusters * dim), repeat O clusters).
Proof.
  intros clusters dim prev. exists []. cbn [fst snd]. rewrite !repeat_length. split; [constructor|]. split; [reflexivity|]. split; [reflexivity|]. intros k Hk. split; [apply nth_repeat|]. intros. apply nth_repeat.
Qed.

(** ** C47 *)
Lemma update_ok : forall clusters dim prev data, (1 <= clusters)%nat -> length prev = (clusters * dim)%nat -> Forall (Forall (fun x => length x = dim)) data ->
  exists cs, km_update (A := RA) clusters dim prev data = Ok cs /\ averaged clusters dim prev (concat data) cs.
Proof.
  intros clusters dim prev data Hc Hp Hf. unfold km_update. rewrite n0_RA.
  destruct (phrases_ok clusters dim prev data [] _ Hc Hp Hf (summed_nil clusters dim prev)) as ((cs, ns) & E & labels & F & L1 & L2 & S). cbn [app fst snd] in *.
  change (num RA) with R in *. rewrite E. cbn [bind fst snd].
  pose (I := fun (i : nat) (v : list R) => length v = (clusters * dim)%nat /\ forall k d, (k < clusters)%nat -> (d < dim)%nat ->
    nth (k * dim + d) v 0 = if (k <? i)%nat then mean_at d (members (concat data) labels k) else nth (k * dim + d) cs 0).
  match goal with |- context [iterM ?n ?f ?s] => destruct (iterM_inv I n f s) as (v & E2 & I1 & I2) end.
  - split; [exact L1|]. intros. reflexivity.
  - intros i v Hi (I1 & I2). rewrite (rd_nth ns i O) by lia. cbn [bind]. destruct (S i Hi) as (S1 & S2). rewrite S1. destruct (Nat.ltb_spec 0 (length (members (concat data) labels i))) as [Z|Z].
    + destruct (seg_loop dim (i * dim) (fun d c => Ok (c / INR (length (members (concat data) labels i)))) (fun d c => c / INR (length (members (concat data) labels i))) v) as (v' & E' & L' & V').
      { rewrite I1. nia. }
      { reflexivity. }
      exists v'. split.
      { etransitivity; [|exact E']. apply iterM_ext. intros d s Hd. change (num RA) with R in *. destruct (rd s (i * dim + d)); cbn [bind]; try reflexivity. rewrite nN_RA. reflexivity. }
      split; [congruence|]. intros k d Hk Hd. rewrite V', (I2 k d Hk Hd).
      destruct (Nat.leb_spec (i * dim) (k * dim + d)), (Nat.ltb_spec (k * dim + d) (i * dim + dim)); cbn [andb].
      * assert (k = i) by nia. subst k. destruct (Nat.ltb_spec i i), (Nat.ltb_spec i (Datatypes.S i)); try lia. rewrite (S2 d Hd). unfold mean_at.
        destruct (members (concat data) labels i); [cbn in Z; lia|reflexivity].
      * destruct (Nat.ltb_spec k i), (Nat.ltb_spec k (Datatypes.S i)); try reflexivity; nia.
      * destruct (Nat.ltb_spec k i), (Nat.ltb_spec k (Datatypes.S i)); try reflexivity; nia.
      * destruct (Nat.ltb_spec k i), (Nat.ltb_spec k (Datatypes.S i)); try reflexivity; nia.
    + exists v. split; [reflexivity|]. split; [exact I1|]. intros k d Hk Hd. rewrite (I2 k d Hk Hd).
      destruct (Nat.ltb_spec k i), (Nat.ltb_spec k (Datatypes.S i)); try reflexivity; try lia. assert (k = i) by lia. subst k. rewrite (S2 d Hd).
      destruct (members (concat data) labels i); [reflexivity|cbn in Z; lia].
  - exists v. split; [exact E2|]. split; [exact I1|]. exists labels. split; [exact F|]. intros k d Hk Hd. rewrite (I2 k d Hk Hd).
    destruct (Nat.ltb_spec k clusters); [reflexivity|lia].
Qed.

(** ** C46 *)
Lemma is_min_unique : forall n f u v, is_min n f u -> is_min n f v -> u = v.
Proof. intros n f u v ((i & Hi & <-) & Hu) ((j & Hj & <-) & Hv). specialize (Hu j Hj). specialize (Hv i Hi). lra. Qed.

Lemma is_min_exists : forall n f, (1 <= n)%nat -> exists v, is_min n f v.
Proof.
  intros n f Hn. destruct n as [|n]; [lia|]. clear Hn. induction n as [|n (v & (i & Hi & Ei) & Hv)].
  - exists (f O). split; [exists O; split; [lia|reflexivity]|]. intros j Hj. replace j with O by lia. lra.
  - destruct (Rle_dec v (f (S n))) as [L|L].
    + exists v. split; [exists i; split; [lia|exact Ei]|]. intros j Hj. destruct (Nat.eq_dec j (S n)) as [->|D]; [exact L|]. apply Hv. lia.
    + exists (f (S n)). split; [exists (S n); split; [lia|reflexivity]|]. intros j Hj. destruct (Nat.eq_dec j (S n)) as [->|D]; [lra|]. specialize (Hv j ltac:(lia)). lra.
Qed.

Lemma distortion_exists : forall clusters dim cs frames, (1 <= clusters)%nat -> exists e, distortion clusters dim cs frames e.
Proof.
  intros clusters dim cs frames Hc. induction frames as [|x frames (e & mins & F & E)].
  - exists 0, []. split; [constructor|reflexivity].
  - destruct (is_min_exists clusters (sqd dim x cs) Hc) as (v & Hv). exists (v + e), (v :: mins). split; [constructor; assumption|]. cbn. rewrite E. reflexivity.
Qed.

Lemma distortion_unique : forall clusters dim cs frames e e', distortion clusters dim cs frames e -> distortion clusters dim cs frames e' -> e = e'.
Proof.
  intros clusters dim cs frames e e' (m & F & ->) (m' & F' & ->). f_equal. revert m' F'. induction F as [|x v xs vs H F IH]; intros m' F'; inversion F'; subst; [reflexivity|].
  f_equal; [eapply is_min_unique; eassumption|apply IH; assumption].
Qed.

(** The sum of a cost over labelled frames, label by label. *)
Fixpoint labsum (f : list R -> nat -> R) (frames : list (list R)) (labels : list nat) : R :=
  match frames, labels with x :: fs, l :: ls => f x l + labsum f fs ls | _, _ => 0 end.

Lemma members_cons : forall x l fs ls k, members (x :: fs) (l :: ls) k = if (l =? k)%nat then x :: members fs ls k else members fs ls k.
Proof. intros. unfold members. cbn [combine filter snd]. destruct (l =? k)%nat; reflexivity. Qed.

Lemma labsum_group : forall f n frames labels, length frames = length labels -> Forall (fun l => (l < n)%nat) labels ->
  labsum f frames labels = Rsum n (fun k => Rlsum (map (fun x => f x k) (members frames labels k))).
Proof.
  intros f n. induction frames as [|x fs IH]; intros [|l ls] L F; cbn in L; try discriminate.
  - cbn. rewrite Rsum_zero; reflexivity.
  - inversion F as [|? ? Hl F']; subst. cbn [labsum]. rewrite (IH ls) by (auto; lia).
    rewrite (Rsum_ext n (fun k => Rlsum (map (fun x0 => f x0 k) (members (x :: fs) (l :: ls) k)))
      (fun k => (if (k =? l)%nat then f x l else 0) + Rlsum (map (fun x => f x k) (members fs ls k)))).
    + rewrite Rsum_plus. f_equal. symmetry. rewrite (Rsum_single n l); [rewrite Nat.eqb_refl; reflexivity|exact Hl|].
      intros i Hi D. destruct (Nat.eqb_spec i l); [contradiction|reflexivity].
    + intros k Hk. rewrite members_cons. rewrite (Nat.eqb_sym l k). destruct (Nat.eqb_spec k l) as [->|D]; [reflexivity|rewrite Rplus_0_l; reflexivity].
Qed.

Lemma sq_expand : forall (X : Type) (g : X -> R) c l,
  Rlsum (map (fun x => (g x - c) * (g x - c)) l) = Rlsum (map (fun x => g x * g x) l) - 2 * c * Rlsum (map g l) + INR (length l) * (c * c).
Proof.
  intros X g c. induction l as [|x l IH]; cbn [map Rlsum fold_right length]; [cbn; lra|].
  fold (Rlsum (map (fun x => (g x - c) * (g x - c)) l)). fold (Rlsum (map (fun x => g x * g x) l)). fold (Rlsum (map g l)). rewrite IH, S_INR. ring.
Qed.

Lemma mean_best : forall d pts c,
  Rlsum (map (fun x => (nth d x 0 - mean_at d pts) * (nth d x 0 - mean_at d pts)) pts) <= Rlsum (map (fun x => (nth d x 0 - c) * (nth d x 0 - c)) pts).
Proof.
  intros d pts c. destruct pts as [|p pts]; [cbn; lra|]. rewrite !(sq_expand _ (fun x => nth d x 0)). unfold mean_at.
  set (S := Rlsum (map (fun x => nth d x 0) (p :: pts))). set (Q := Rlsum (map (fun x => nth d x 0 * nth d x 0) (p :: pts))). set (n := INR (length (p :: pts))).
  assert (Hn : 0 < n) by (apply lt_0_INR; cbn; lia). clearbody S Q n.
  assert (H : Q - 2 * c * S + n * (c * c) - (Q - 2 * (S / n) * S + n * (S / n * (S / n))) = n * ((c - S / n) * (c - S / n))) by (field; lra).
  pose proof (Rmult_le_pos n _ (Rlt_le _ _ Hn) (Rsq_nonneg (c - S / n))). lra.
Qed.

Lemma averaged_better : forall clusters dim prev frames cs labels,
  Forall2 (nearest clusters dim prev) frames labels ->
  (forall k d, (k < clusters)%nat -> (d < dim)%nat -> nth (k * dim + d) cs 0 = mean_at d (members frames labels k)) ->
  labsum (fun x k => sqd dim x cs k) frames labels <= labsum (fun x k => sqd dim x prev k) frames labels.
Proof.
  intros clusters dim prev frames cs labels F M. pose proof (Forall2_len _ _ _ F) as L.
  assert (B : Forall (fun l => (l < clusters)%nat) labels).
  { clear M L. induction F as [|x l xs ls (H & _) F IH]; constructor; auto. }
  rewrite !(labsum_group _ clusters) by assumption. apply Rsum_le. intros k Hk. unfold sqd. rewrite !Rlsum_map_sum_swap. apply Rsum_le. intros d Hd.
  rewrite (M k d Hk Hd). apply mean_best.
Qed.

Lemma averaged_distortion : forall clusters dim prev frames cs e e', averaged clusters dim prev frames cs ->
  distortion clusters dim prev frames e -> distortion clusters dim cs frames e' -> e' <= e.
Proof.
  intros clusters dim prev frames cs e e' (_ & labels & F & M) (m & Fm & ->) (m' & Fm' & ->).
  pose proof (averaged_better clusters dim prev frames cs labels F M) as H. clear M.
  assert (H1 : labsum (fun x k => sqd dim x prev k) frames labels = Rlsum m).
  { clear H Fm' m'. revert m Fm. induction F as [|x l xs ls N F IH]; intros m Fm; inversion Fm as [|? v ? vs V Fm']; subst; [reflexivity|]. cbn [labsum]. rewrite (IH vs Fm').
    destruct N as (N1 & N2 & N3), V as ((j & Hj & <-) & V). cbn. f_equal. apply Rle_antisym; [apply N2; exact Hj|apply V; exact N1]. }
  assert (H2 : Rlsum m' <= labsum (fun x k => sqd dim x cs k) frames labels).
  { clear H H1 Fm m. revert m' Fm'. induction F as [|x l xs ls N F IH]; intros m' Fm'; inversion Fm' as [|? v ? vs V Fm]; subst; [cbn; lra|]. cbn [labsum].
    specialize (IH vs Fm). destruct N as (N1 & _), V as (_ & V). specialize (V l N1). cbn [Rlsum fold_right]. fold (Rlsum vs). lra. }
  lra.
Qed.

(** ** The loop *)
Lemma stops_ok : forall clusters dim thr prev cs, length prev = (clusters * dim)%nat -> length cs = (clusters * dim)%nat ->
  exists b, km_stops (A := RA) clusters dim thr prev cs = Ok b.
Proof.
  intros clusters dim thr prev cs Hp Hc. unfold km_stops.
  match goal with |- context [iterM ?n ?f ?s] => destruct (iterM_inv (fun _ _ => True) n f s) as (x & E & _) end.
  - exact I.
  - intros k s Hk _. match goal with |- context [iterM ?n ?f (fst s)] => destruct (iterM_inv (fun _ _ => True) n f (fst s)) as (x & E & _) end.
    + exact I.
    + intros l m Hl _. destruct (k =? l)%nat; [eexists; split; [reflexivity|exact I]|]. rewrite euclid_ok by (change (num RA) with R in *; rewrite Hc; clear - Hk Hl; nia). cbn [bind]. eexists. split; [reflexivity|exact I].
    + rewrite E. cbn [bind]. rewrite euclid_ok by (change (num RA) with R in *; rewrite ?Hp, ?Hc; clear - Hk; nia). cbn [bind]. eexists. split; [reflexivity|exact I].
  - rewrite E. cbn [bind]. eexists. reflexivity.
Qed.

Lemma loop_ok : forall n clusters dim thr data cs, (1 <= clusters)%nat -> Forall (Forall (fun x => length x = dim)) data -> length cs = (clusters * dim)%nat ->
  exists cs', km_loop (A := RA) n clusters dim thr data cs = Ok cs' /\ length cs' = (clusters * dim)%nat /\
    forall e e', distortion clusters dim cs (concat data) e -> distortion clusters dim cs' (concat data) e' -> e' <= e.
Proof.
  induction n as [|n IH]; intros clusters dim thr data cs Hc Hf Hl; cbn [km_loop].
  - exists cs. repeat split; auto. intros e e' H H'. rewrite (distortion_unique _ _ _ _ _ _ H H'). lra.
  - destruct (update_ok clusters dim cs data Hc Hl Hf) as (c1 & E1 & A1). change (num RA) with R in *. rewrite E1. cbn [bind]. destruct A1 as (L1 & A1).
    destruct (stops_ok clusters dim thr cs c1 Hl L1) as (b & E2). change (num RA) with R in *. rewrite E2. cbn [bind]. destruct b.
    + exists c1. repeat split; auto. intros e e'. apply averaged_distortion. split; assumption.
    + destruct (IH clusters dim thr data c1 Hc Hf L1) as (c2 & E3 & L2 & D). exists c2. repeat split; auto. intros e e' H H'.
      destruct (distortion_exists clusters dim c1 (concat data) Hc) as (e1 & H1). specialize (D e1 e' H1 H').
      pose proof (averaged_distortion clusters dim cs (concat data) c1 e e1 (conj L1 A1) H H1). lra.
Qed.

(** ** Initialisation *)
Lemma wr_loop : forall n o (f : nat -> res R) (g : nat -> R) (cs : list R), (o + n <= length cs)%nat -> (forall d, (d < n)%nat -> f d = Ok (g d)) ->
  exists cs', iterM n (fun d cs => let* y := f d in wr cs (o + d) y) cs = Ok cs' /\ length cs' = length cs /\
    forall q, nth q cs' 0 = if (o <=? q)%nat && (q <? o + n)%nat then g (q - o)%nat else nth q cs 0.
Proof.
  intros n o f g cs Hl Hf. destruct (seg_loop n o (fun d _ => f d) (fun d _ => g d) cs Hl (fun d _ H => Hf d H)) as (cs' & E & L & V).
  exists cs'. split; [|auto]. rewrite <- E. clear E. 
  assert (X : forall m (s : list R), (m <= n)%nat -> length s = length cs ->
    iterM m (fun d cs => let* y := f d in wr cs (o + d) y) s = iterM m (fun d cs => let* _ := rd cs (o + d) in let* y := f d in wr cs (o + d) y) s /\
    (forall s', iterM m (fun d cs => let* y := f d in wr cs (o + d) y) s = Ok s' -> length s' = length cs)).
  { induction m as [|m IH]; intros s Hm Hs; cbn [iterM]; [split; [reflexivity|intros s' X; inversion X; subst; exact Hs]|].
    destruct (IH s ltac:(lia) Hs) as (I1 & I2). rewrite <- I1. destruct (iterM m _ s) as [s1|x|] eqn:Es; cbn [bind]; [|split; [reflexivity|discriminate]..].
    specialize (I2 s1 eq_refl). rewrite Hf by lia. cbn [bind]. rewrite (rd_nth s1 (o + m) 0) by lia. cbn [bind]. split; [reflexivity|]. rewrite wr_ok by lia. intros s' X. inversion X. rewrite upd_length. exact I2. }
  apply (X n cs); lia.
Qed.

Lemma init_random_ok : forall clusters dim dev rnd (cs : list R), (dim <= length dev)%nat -> length cs = (clusters * dim)%nat ->
  exists cs', km_init_random (A := RA) clusters dim dev rnd cs = Ok cs' /\ length cs' = (clusters * dim)%nat /\
    forall k d, (k < clusters)%nat -> (d < dim)%nat -> nth (k * dim + d) cs' 0 = nth d dev 0 * (2 * rnd (k * dim + d)%nat - 1).
Proof.
  intros clusters dim dev rnd cs Hd Hl. unfold km_init_random.
  pose (I := fun (i : nat) (v : list R) => length v = (clusters * dim)%nat /\ forall k d, (k < i)%nat -> (d < dim)%nat -> nth (k * dim + d) v 0 = nth d dev 0 * (2 * rnd (k * dim + d)%nat - 1)).
  match goal with |- context [iterM ?n ?f ?s] => destruct (iterM_inv I n f s) as (v & E & I1 & I2) end.
  - split; [exact Hl|]. intros; lia.
  - intros i v Hi (I1 & I2).
    destruct (wr_loop dim (i * dim) (fun d => let* v := rd dev d in Ok (v * (2 * rnd (i * dim + d)%nat - 1))) (fun d => nth d dev 0 * (2 * rnd (i * dim + d)%nat - 1)) v) as (v' & E & L & V).
    + rewrite I1. nia.
    + intros d Hd'. rewrite (rd_nth dev d 0) by lia. reflexivity.
    + exists v'. split.
      * etransitivity; [|exact E]. apply iterM_ext. intros d s Hd'. change (num RA) with R in *. rewrite nZ_RA, n1_RA. destruct (rd dev d); reflexivity.
      * split; [congruence|]. intros k d Hk Hd'. rewrite V. destruct (Nat.leb_spec (i * dim) (k * dim + d)), (Nat.ltb_spec (k * dim + d) (i * dim + dim)); cbn [andb]; try (apply I2; [nia|assumption]).
        assert (k = i) by nia. subst k. replace (i * dim + d - i * dim)%nat with d by lia. reflexivity.
  - exists v. auto.
Qed.

Lemma init_first_ok : forall clusters dim phrase (cs : list R), Forall (fun x => length x = dim) phrase -> length cs = (clusters * dim)%nat ->
  exists cs', km_init_first (A := RA) clusters dim phrase cs = Ok cs' /\ length cs' = (clusters * dim)%nat /\
    forall k d, (k < clusters)%nat -> (d < dim)%nat -> nth (k * dim + d) cs' 0 = segment_mean phrase (k * (length phrase / clusters)) (length phrase / clusters) d.
Proof.
  intros clusters dim phrase cs Hf Hl. unfold km_init_first. change (num RA) with R in *. set (step := (length phrase / clusters)%nat).
  assert (Hs : (1 <= clusters)%nat -> (clusters * step <= length phrase)%nat) by (intro; unfold step; apply Nat.mul_div_le; lia). clearbody step.
  pose (I := fun (i : nat) (v : list R) => length v = (clusters * dim)%nat /\ forall k d, (k < i)%nat -> (d < dim)%nat -> nth (k * dim + d) v 0 = segment_mean phrase (k * step) step d).
  match goal with |- context [iterM clusters ?f ?s] => destruct (iterM_inv I clusters f s) as (v & E & I1 & I2) end.
  - split; [exact Hl|]. intros; lia.
  - intros i v Hi (I1 & I2).
    destruct (wr_loop dim (i * dim) (fun d => Ok 0) (fun d => 0) v) as (v0 & E0 & L0 & V0); [rewrite I1; nia|reflexivity|].
    assert (E0' : iterM dim (fun d (cs : list R) => wr cs (i * dim + d) (n0 (A := RA))) v = Ok v0).
    { rewrite <- E0. apply iterM_ext. intros. cbn [bind]. rewrite n0_RA. reflexivity. }
    change (num RA) with R in *. rewrite E0'. cbn [bind].
    pose (J := fun (t : nat) (w : list R) => length w = (clusters * dim)%nat /\ (forall q, (q < i * dim)%nat -> nth q w 0 = nth q v 0) /\
      forall d, (d < dim)%nat -> nth (i * dim + d) w 0 = Rsum t (fun t => nth d (nth (i * step + t) phrase []) 0 / INR step)).
    match goal with |- context [iterM step ?f v0] => destruct (iterM_inv J step f v0) as (w & Ew & J1 & J2 & J3) end.
    + split; [congruence|]. split.
      * intros q Hq. rewrite V0. destruct (Nat.leb_spec (i * dim) q); [lia|]. reflexivity.
      * intros d Hd. rewrite V0. destruct (Nat.leb_spec (i * dim) (i * dim + d)), (Nat.ltb_spec (i * dim + d) (i * dim + dim)); try lia. reflexivity.
    + intros t w Ht (J1 & J2 & J3). assert (Hb : (i * step + t < length phrase)%nat) by nia.
      assert (Hx : length (nth (i * step + t) phrase []) = dim) by (rewrite Forall_forall in Hf; apply Hf, nth_In, Hb).
      destruct (seg_loop dim (i * dim) (fun d y => let* x := rd (nth (i * step + t) phrase []) d in Ok (y + x / INR step)) (fun d y => y + nth d (nth (i * step + t) phrase []) 0 / INR step) w) as (w' & Ew & Lw & Vw).
      * rewrite J1. nia.
      * intros d c Hd. rewrite (rd_nth _ d 0) by lia. reflexivity.
      * exists w'. split.
        { etransitivity; [|exact Ew]. apply iterM_ext. intros d s Hd. change (num RA) with R in *. rewrite (rd_nth phrase (i * step + t) []) by exact Hb. cbn [bind].
          rewrite (rd_nth (nth (i * step + t) phrase []) d 0) by lia. cbn [bind]. destruct (rd s (i * dim + d)); cbn [bind]; try reflexivity. rewrite nN_RA. reflexivity. }
        split; [congruence|]. split.
        { intros q Hq. rewrite Vw. destruct (Nat.leb_spec (i * dim) q); [lia|]. apply J2. exact Hq. }
        { intros d Hd. rewrite Vw. destruct (Nat.leb_spec (i * dim) (i * dim + d)), (Nat.ltb_spec (i * dim + d) (i * dim + dim)); try lia. cbn [andb Rsum].
          replace (i * dim + d - i * dim)%nat with d by lia. rewrite (J3 d Hd). lra. }
    + exists w. split; [exact Ew|]. split; [exact J1|]. intros k d Hk Hd. destruct (Nat.eq_dec k i) as [->|D]; [exact (J3 d Hd)|].
      rewrite J2 by nia. apply I2; [lia|exact Hd].
  - exists v. auto.
Qed.

(** ** Filtering *)
Lemma filter_ok : forall obs (k : kmeans RA) dim, km_dim k = Some dim -> length obs = dim -> length (km_centers k) = (km_clusters k * dim)%nat ->
  (km_clusters k <= length (km_dist k))%nat ->
  exists k', km_filter obs k = Ok k' /\ length (km_dist k') = length (km_dist k) /\
    (forall c, (c < km_clusters k)%nat -> nth c (km_dist k') 0 = sqrt (sqd dim obs (km_centers k) c)) /\
    ((exists c, (c < km_clusters k)%nat /\ sqrt (sqd dim obs (km_centers k) c) < flt_max (A := RA)) -> nearest (km_clusters k) dim (km_centers k) obs (km_likeliest k')) /\
    ((forall c, (c < km_clusters k)%nat -> flt_max (A := RA) <= sqrt (sqd dim obs (km_centers k) c)) -> km_likeliest k' = 0%nat).
Proof.
  intros obs k dim Hd Ho Hc Hn. unfold km_filter. rewrite Hd. change (num RA) with R in *. rewrite (proj2 (Nat.eqb_eq _ _) Ho). cbn [negb].
  set (D := fun c => sqd dim obs (km_centers k) c).
  pose (I := fun (i : nat) (s : list R * R * nat) => let '(ds, mn, best) := s in
    length ds = length (km_dist k) /\ (forall c, (c < i)%nat -> nth c ds 0 = sqrt (D c)) /\
    ((mn = flt_max (A := RA) /\ best = O /\ forall c, (c < i)%nat -> flt_max (A := RA) <= sqrt (D c)) \/
     ((best < i)%nat /\ mn = sqrt (D best) /\ mn < flt_max (A := RA) /\ (forall c, (c < i)%nat -> D best <= D c) /\ forall c, (c < best)%nat -> D best < D c))).
  match goal with |- context [iterM ?n ?f ?s] => destruct (iterM_inv I n f s) as (((ds, mn), best) & E & L & V & S) end.
  - split; [reflexivity|]. split; [intros; lia|]. left. repeat split. intros; lia.
  - intros i ((ds, mn), best) Hi (L & V & S). change (num RA) with R in *. rewrite (euclid_center (km_clusters k) dim obs (km_centers k) i Ho Hc Hi). cbn [bind]. fold (D i).
    rewrite wr_ok by lia. cbn [bind]. eexists. split; [reflexivity|].
    assert (V' : forall c, (c < Datatypes.S i)%nat -> nth c (upd ds i (sqrt (D i))) 0 = sqrt (D c)).
    { intros c Hc'. destruct (Nat.eq_dec c i) as [->|X]; [rewrite nth_upd_eq by lia; reflexivity|]. rewrite nth_upd_neq by lia. apply V. lia. }
    cbn [nltb RA]. assert (L' : length (upd ds i (sqrt (D i))) = length (km_dist k)) by (rewrite upd_length; exact L).
    destruct (Rlt_dec (sqrt (D i)) mn) as [Y|Y].
    + split; [exact L'|]. split; [exact V'|]. right. split; [lia|]. split; [reflexivity|].
      destruct S as [(-> & -> & S)|(B & -> & S0 & S1 & S2)].
      * split; [exact Y|]. split.
        -- intros c Hc'. destruct (Nat.eq_dec c i) as [->|X]; [apply Rle_refl|]. specialize (S c ltac:(lia)). apply Rlt_le. apply sqrt_lt_iff; [apply sqd_nonneg|apply sqd_nonneg|lra].
        -- intros c Hc'. specialize (S c Hc'). apply sqrt_lt_iff; [apply sqd_nonneg|apply sqd_nonneg|lra].
      * assert (Z : D i < D best) by (apply sqrt_lt_iff; [apply sqd_nonneg|apply sqd_nonneg|exact Y]).
        split; [lra|]. split.
        -- intros c Hc'. destruct (Nat.eq_dec c i) as [->|X]; [apply Rle_refl|]. specialize (S1 c ltac:(lia)). lra.
        -- intros c Hc'. specialize (S1 c Hc'). lra.
    + split; [exact L'|]. split; [exact V'|]. destruct S as [(-> & -> & S)|(B & -> & S0 & S1 & S2)].
      * left. repeat split. intros c Hc'. destruct (Nat.eq_dec c i) as [->|X]; [lra|]. apply S. lia.
      * right. split; [lia|]. split; [reflexivity|]. split; [exact S0|]. split; [|exact S2].
        intros c Hc'. destruct (Nat.eq_dec c i) as [->|X]; [|apply S1; lia].
        apply Rnot_lt_le. intro Z. apply Y. apply sqrt_lt_iff; [apply sqd_nonneg|apply sqd_nonneg|exact Z].
  - change (num RA) with R in *. rewrite E. cbn [bind]. eexists. split; [reflexivity|]. cbn [km_set_results km_dist km_likeliest]. split; [exact L|]. split; [exact V|]. split.
    + intros (c & Hc' & Z). destruct S as [(_ & _ & S)|(B & _ & _ & S1 & S2)]; [specialize (S c Hc'); exfalso; exact (Rlt_not_le _ _ Z S)|]. split; [exact B|]. split; [exact S1|exact S2].
    + intros Z. destruct S as [(_ & -> & _)|(B & -> & S0 & _)]; [reflexivity|]. exfalso; exact (Rlt_not_le _ _ S0 (Z best B)).
Qed.

Lemma filter_wrong : forall (A : arith) (obs : list (num A)) (k : kmeans A) dim, km_dim k = Some dim -> length obs <> dim -> km_filter obs k = Throw RuntimeError.
Proof. intros A obs k dim Hd Ho. unfold km_filter. rewrite Hd. destruct (Nat.eqb_spec (length obs) dim); [contradiction|reflexivity]. Qed.

(** ** Training *)
Lemma train_ok : forall dim data dev rnd (k : kmeans RA), data <> [] -> Forall (Forall (fun x => length x = dim)) data -> length dev = dim ->
  km_dim k <> None -> (1 <= km_clusters k)%nat ->
  exists init k',
    (if km_first k then km_init_first (km_clusters k) dim (hd [] data) (vresize (km_clusters k * dim) (n0 (A := RA)) (km_centers k))
     else km_init_random (km_clusters k) dim dev rnd (vresize (km_clusters k * dim) (n0 (A := RA)) (km_centers k))) = Ok init /\
    km_train dim data dev rnd k = Ok k' /\ km_dim k' = Some dim /\ km_clusters k' = km_clusters k /\ length (km_centers k') = (km_clusters k * dim)%nat /\
    (forall e e', distortion (km_clusters k) dim init (concat data) e -> distortion (km_clusters k) dim (km_centers k') (concat data) e' -> e' <= e).
Proof.
  intros dim data dev rnd k Hne Hf Hd Hk Hc. destruct data as [|first rest]; [contradiction|]. unfold km_train. cbn [hd].
  destruct (km_dim k) as [d0|]; [|contradiction].
  assert (E : exists init, (if km_first k then km_init_first (km_clusters k) dim first (vresize (km_clusters k * dim) (n0 (A := RA)) (km_centers k))
     else km_init_random (km_clusters k) dim dev rnd (vresize (km_clusters k * dim) (n0 (A := RA)) (km_centers k))) = Ok init /\ length init = (km_clusters k * dim)%nat).
  { change (num RA) with R in *. destruct (km_first k).
    - destruct (init_first_ok (km_clusters k) dim first (vresize (km_clusters k * dim) 0 (km_centers k))) as (i & E & L & _).
      + inversion Hf; assumption.
      + apply vresize_length.
      + exists i. rewrite n0_RA. auto.
    - destruct (init_random_ok (km_clusters k) dim dev rnd (vresize (km_clusters k * dim) 0 (km_centers k))) as (i & E & L & _); [exact (Nat.eq_le_incl _ _ (eq_sym Hd))|apply vresize_length|].
      exists i. rewrite n0_RA. auto. }
  destruct E as (init & E & L). change (num RA) with R in *. rewrite E. cbn [bind].
  destruct (loop_ok (km_maxit k) (km_clusters k) dim (km_thr k) (first :: rest) init Hc Hf L) as (cs & E2 & L2 & D). change (num RA) with R in *. rewrite E2. cbn [bind].
  exists init. eexists. split; [reflexivity|]. split; [reflexivity|]. cbn [km_dim km_clusters km_centers]. auto.
Qed.

Lemma no_worse_intro : forall clusters dim frames cs cs', (1 <= clusters)%nat ->
  (forall e e', distortion clusters dim cs frames e -> distortion clusters dim cs' frames e' -> e' <= e) -> no_worse clusters dim frames cs cs'.
Proof.
  intros clusters dim frames cs cs' Hc H. destruct (distortion_exists clusters dim cs frames Hc) as (e & E), (distortion_exists clusters dim cs' frames Hc) as (e' & E').
  exists e, e'. auto.
Qed.

(** ** Every frame belongs to one cluster *)
Lemma flat_map_insert : forall (x : list R) l (g : nat -> list (list R)) n s, (s <= l < s + n)%nat ->
  Permutation (flat_map (fun k => if (l =? k)%nat then x :: g k else g k) (seq s n)) (x :: flat_map g (seq s n)).
Proof.
  intros x l g. assert (Z : forall n s, (l < s)%nat -> flat_map (fun k => if (l =? k)%nat then x :: g k else g k) (seq s n) = flat_map g (seq s n)).
  { induction n as [|n IH]; intros s H; [reflexivity|]. cbn [seq flat_map]. destruct (Nat.eqb_spec l s); [lia|]. rewrite IH by lia. reflexivity. }
  induction n as [|n IH]; intros s H; [lia|]. cbn [seq flat_map]. destruct (Nat.eqb_spec l s) as [->|D].
  - rewrite Z by lia. apply Permutation_refl.
  - etransitivity; [apply Permutation_app_head; apply IH; lia|]. symmetry. apply Permutation_middle.
Qed.

Lemma members_partition : forall n frames labels, length frames = length labels -> Forall (fun l => (l < n)%nat) labels ->
  Permutation (flat_map (members frames labels) (seq 0 n)) frames.
Proof.
  intro n. induction frames as [|x fs IH]; intros [|l ls] L F; cbn in L; try discriminate.
  - rewrite (flat_map_ext _ (fun _ => [])) by reflexivity. generalize (seq 0 n). intro q. induction q; [constructor|exact IHq].
  - inversion F as [|? ? Hl F']; subst. rewrite (flat_map_ext _ (fun k => if (l =? k)%nat then x :: members fs ls k else members fs ls k)) by (intro; apply members_cons).
    etransitivity; [apply flat_map_insert; lia|]. constructor. apply IH; auto.
Qed.

(** ** Filters before [reset] *)
Lemma filter_short : forall obs (k : kmeans RA) dim, km_dim k = Some dim -> length obs = dim -> length (km_centers k) = (km_clusters k * dim)%nat ->
  (length (km_dist k) < km_clusters k)%nat -> km_filter obs k = UB.
Proof.
  intros obs k dim Hd Ho Hc Hn. unfold km_filter. rewrite Hd. change (num RA) with R in *. rewrite (proj2 (Nat.eqb_eq _ _) Ho). cbn [negb].
  match goal with |- context [iterM ?n ?f ?s] => set (F := f); set (s0 := s) end.
  assert (H : forall m, (m <= km_clusters k)%nat -> ((m <= length (km_dist k))%nat -> exists ds mn b, iterM m F s0 = Ok (ds, mn, b) /\ length ds = length (km_dist k)) /\
    ((length (km_dist k) < m)%nat -> iterM m F s0 = UB)).
  { induction m as [|m IH]; intro Hm.
    - split; [|lia]. intros _. cbn [iterM]. do 3 eexists. split; reflexivity.
    - destruct (IH ltac:(lia)) as (I1 & I2). cbn [iterM]. destruct (Nat.le_gt_cases m (length (km_dist k))) as [L|L].
      + destruct (I1 L) as (ds & mn & b & -> & Ld). cbn [bind]. unfold F. change (num RA) with R in *. rewrite (euclid_center (km_clusters k) dim obs (km_centers k) m Ho Hc) by lia. cbn [bind]. split.
        * intro. rewrite wr_ok by lia. cbn [bind]. match goal with |- context [if ?c then _ else _] => destruct c end; do 3 eexists; (split; [reflexivity|rewrite upd_length; exact Ld]).
        * intro. unfold wr. destruct (Nat.ltb_spec m (length ds)); [lia|]. reflexivity.
      + split; [lia|]. intros _. rewrite I2 by lia. reflexivity. }
  destruct (H (km_clusters k) ltac:(lia)) as (_ & H2). rewrite H2 by exact Hn. reflexivity.
Qed.

Lemma near_dec : forall n (f : nat -> R) v, (exists c, (c < n)%nat /\ f c < v) \/ (forall c, (c < n)%nat -> v <= f c).
Proof.
  intros n f v. induction n as [|n [(c & Hc & H)|H]]; [right; intros; lia|left; exists c; split; [lia|exact H]|].
  destruct (Rlt_dec (f n) v) as [L|L]; [left; exists n; split; [lia|exact L]|]. right. intros c Hc. destruct (Nat.eq_dec c n) as [->|D]; [lra|]. apply H. lia.
Qed.

Lemma assign_same : forall obs (src dst : kmeans RA) dim, km_dim src = Some dim -> km_dim dst = Some dim -> length obs = dim -> length (km_centers src) = (km_clusters src * dim)%nat ->
  (km_clusters src <= length (km_dist src))%nat -> (km_clusters src <= length (km_dist dst))%nat ->
  exists a b, km_filter obs src = Ok a /\ km_filter obs (km_assign dst src) = Ok b /\ km_likeliest a = km_likeliest b /\
    forall c, (c < km_clusters src)%nat -> nth c (km_dist a) 0 = nth c (km_dist b) 0.
Proof.
  intros obs src dst dim H1 H2 Ho Hc Hs Hd.
  destruct (filter_ok obs src dim H1 Ho Hc Hs) as (a & Ea & _ & Da & Na & Za).
  destruct (filter_ok obs (km_assign dst src) dim H2 Ho Hc Hd) as (b & Eb & _ & Db & Nb & Zb). cbn [km_assign km_clusters km_centers] in *.
  exists a, b. split; [exact Ea|]. split; [exact Eb|]. split.
  - destruct (near_dec (km_clusters src) (fun c => sqrt (sqd dim obs (km_centers src) c)) (flt_max (A := RA))) as [N|N].
    + exact (nearest_unique _ _ _ _ _ _ (Na N) (Nb N)).
    + rewrite (Za N), (Zb N). reflexivity.
  - intros c Hc'. rewrite Da, Db by exact Hc'. reflexivity.
Qed.
