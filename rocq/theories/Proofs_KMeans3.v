(** K-Means whose centers are all equal: no update changes them any more. *)
From Coq Require Import List Bool Arith Lia Reals Lra.
From Verif Require Import Base BaseFacts Arith RFacts Model_KMeans Spec_KMeans Model_KMeans2 Spec_KMeans2 Proofs_KMeans Proofs_KMeans2.
Import ListNotations.
Local Open Scope R_scope.

Lemma members_near : forall clusters dim prev frames labels k x, Forall2 (nearest clusters dim prev) frames labels -> In x (members frames labels k) -> nearest clusters dim prev x k.
Proof.
  intros clusters dim prev frames labels k x H. induction H as [|y l fs ls N F IH]; [intros []|]. rewrite members_cons. destruct (Nat.eqb_spec l k) as [->|D]; [|exact IH].
  intros [<-|Hx]; [exact N|exact (IH Hx)].
Qed.

Lemma members_zero : forall frames labels, length frames = length labels -> Forall (fun l => l = O) labels ->
  members frames labels 0 = frames /\ forall k, (k <> 0)%nat -> members frames labels k = [].
Proof.
  induction frames as [|x fs IH]; intros [|l ls] L F; try discriminate; [split; [reflexivity|reflexivity]|]. inversion F as [|? ? F1 F2]; subst.
  injection L as L. destruct (IH ls L F2) as (I1 & I2). split; [rewrite members_cons; cbn [Nat.eqb]; rewrite I1; reflexivity|].
  intros k Hk. rewrite members_cons. destruct (Nat.eqb_spec 0 k); [lia|]. apply I2, Hk.
Qed.

Lemma diff_sum : forall dim prev i j pts,
  Rlsum (map (fun x => sqd dim x prev j - sqd dim x prev i) pts) =
  Rsum dim (fun d => (nth (i * dim + d) prev 0 - nth (j * dim + d) prev 0) *
    (2 * Rlsum (map (fun x => nth d x 0) pts) - INR (length pts) * (nth (i * dim + d) prev 0 + nth (j * dim + d) prev 0))).
Proof.
  intros dim prev i j. induction pts as [|x pts IH].
  - cbn [map length]. symmetry. transitivity (Rsum dim (fun _ => 0)); [apply Rsum_ext; intros; cbn; ring|]. clear. induction dim as [|n IH]; [reflexivity|]. cbn [Rsum]. rewrite IH. cbn. ring.
  - cbn [map length]. rewrite S_INR. cbn [Rlsum fold_right]. fold (Rlsum (map (fun x => sqd dim x prev j - sqd dim x prev i) pts)).
    rewrite IH. unfold sqd. rewrite <- Rsum_minus, <- Rsum_plus. apply Rsum_ext. intros d Hd.
    fold (Rlsum (map (fun x => nth d x 0) pts)). ring.
Qed.

Lemma mean_total : forall d pts, Rlsum (map (fun x => nth d x 0) pts) = INR (length pts) * mean_at d pts.
Proof.
  intros d [|x pts]; [cbn; ring|]. unfold mean_at. field. apply not_0_INR. cbn. lia.
Qed.

(** Two clusters with frames have different centers. *)
Lemma two_means : forall clusters dim prev frames labels i j, Forall2 (nearest clusters dim prev) frames labels -> (i < j)%nat -> (j < clusters)%nat ->
  members frames labels i <> [] -> members frames labels j <> [] ->
  (forall d, (d < dim)%nat -> mean_at d (members frames labels i) = mean_at d (members frames labels j)) -> False.
Proof.
  intros clusters dim prev frames labels i j H Hij Hj Ni Nj E.
  set (K := Rsum dim (fun d => (nth (i * dim + d) prev 0 - nth (j * dim + d) prev 0) *
    (2 * mean_at d (members frames labels i) - (nth (i * dim + d) prev 0 + nth (j * dim + d) prev 0)))).
  assert (G : forall k, (k = i \/ k = j)%nat -> Rlsum (map (fun x => sqd dim x prev j - sqd dim x prev i) (members frames labels k)) = INR (length (members frames labels k)) * K).
  { intros k Hk. rewrite diff_sum. unfold K. rewrite <- Rsum_scal_l. apply Rsum_ext. intros d Hd. rewrite mean_total.
    replace (mean_at d (members frames labels k)) with (mean_at d (members frames labels i)) by (destruct Hk as [->| ->]; [reflexivity|apply E, Hd]). ring. }
  assert (P : forall l : list (list R), l <> [] -> 0 < INR (length l)) by (intros [|x l] Hl; [contradiction|apply lt_0_INR; cbn; lia]).
  assert (Ki : 0 <= K).
  { assert (Q : 0 <= Rlsum (map (fun x => sqd dim x prev j - sqd dim x prev i) (members frames labels i))).
    { assert (X : forall x, In x (members frames labels i) -> 0 <= sqd dim x prev j - sqd dim x prev i).
      { intros x Hx. destruct (members_near _ _ _ _ _ _ _ H Hx) as (_ & Y & _). specialize (Y j Hj). lra. }
      revert X. generalize (members frames labels i). induction l as [|x l IH]; intro X; [cbn; lra|]. cbn [map Rlsum fold_right].
      pose proof (X x (or_introl eq_refl)). specialize (IH (fun y Hy => X y (or_intror Hy))). unfold Rlsum in IH. lra. }
    rewrite (G i (or_introl eq_refl)) in Q. pose proof (P _ Ni). destruct (Rle_or_lt 0 K) as [L|L]; [exact L|]. exfalso. nra. }
  assert (Kj : K < 0).
  { assert (Q : Rlsum (map (fun x => sqd dim x prev j - sqd dim x prev i) (members frames labels j)) < 0).
    { assert (X : forall x, In x (members frames labels j) -> sqd dim x prev j - sqd dim x prev i < 0).
      { intros x Hx. destruct (members_near _ _ _ _ _ _ _ H Hx) as (_ & _ & Y). specialize (Y i Hij). lra. }
      revert X Nj. generalize (members frames labels j). induction l as [|x l IH]; intros X Nj'; [contradiction|]. cbn [map Rlsum fold_right].
      pose proof (X x (or_introl eq_refl)). destruct l as [|y l]; [cbn; lra|].
      assert (Y : y :: l <> []) by discriminate. specialize (IH (fun z Hz => X z (or_intror Hz)) Y). unfold Rlsum in IH. lra. }
    rewrite (G j (or_intror eq_refl)) in Q. pose proof (P _ Nj). nra. }
  lra.
Qed.

Lemma gap_zero : forall clusters dim cs, (2 <= clusters)%nat -> mean_gap clusters dim cs = 0 ->
  forall k l d, (k < clusters)%nat -> (l < clusters)%nat -> (d < dim)%nat -> nth (k * dim + d) cs 0 = nth (l * dim + d) cs 0.
Proof.
  intros clusters dim cs Hc G k l d Hk Hl Hd. destruct (Nat.eq_dec k l) as [->|D]; [reflexivity|]. unfold mean_gap in G.
  assert (N : INR (clusters * (clusters - 1)) <> 0) by (apply not_0_INR; nia).
  assert (S : Rsum clusters (fun k => Rsum clusters (fun l => if (k =? l)%nat then 0 else between dim cs k cs l)) = 0).
  { apply (Rmult_eq_reg_r (/ INR (clusters * (clusters - 1)))); [|apply Rinv_neq_0_compat, N]. unfold Rdiv in G. rewrite G. ring. }
  assert (P : forall a b : nat, 0 <= (if (a =? b)%nat then 0 else between dim cs a cs b)) by (intros a b; destruct (a =? b)%nat; [lra|apply between_nonneg]).
  assert (S1 := Rsum_eq0 _ _ (fun a _ => Rsum_nonneg _ _ (fun b _ => P a b)) S k Hk). cbn beta in S1.
  assert (S2 := Rsum_eq0 _ _ (fun b _ => P k b) S1 l Hl). cbn beta in S2. rewrite (proj2 (Nat.eqb_neq k l) D) in S2. unfold between in S2.
  assert (Q : forall e, (e < dim)%nat -> 0 <= (nth (k * dim + e) cs 0 - nth (l * dim + e) cs 0) * (nth (k * dim + e) cs 0 - nth (l * dim + e) cs 0)) by (intros; apply Rsq_nonneg).
  apply sqrt_eq_0 in S2; [|apply Rsum_nonneg, Q]. assert (S3 := Rsum_eq0 _ _ Q S2 d Hd). cbn beta in S3. nra.
Qed.

Lemma sum_groups : forall clusters dim prev frames labels d, Forall2 (nearest clusters dim prev) frames labels ->
  Rlsum (map (fun x => nth d x 0) frames) = Rsum clusters (fun k => Rlsum (map (fun x => nth d x 0) (members frames labels k))).
Proof.
  intros clusters dim prev frames labels d H. rewrite <- (labsum_group (fun x _ => nth d x 0) clusters frames labels).
  - clear - H. induction H as [|x l fs ls _ _ IH]; [reflexivity|]. cbn [map Rlsum fold_right labsum]. rewrite <- IH. reflexivity.
  - exact (Forall2_len _ _ _ H).
  - clear - H. induction H as [|x l fs ls N _ IH]; constructor; [exact (proj1 N)|exact IH].
Qed.

Lemma empty_dec : forall n (f : nat -> list (list R)), (exists k, (k < n)%nat /\ f k = []) \/ (forall k, (k < n)%nat -> f k <> []).
Proof.
  intros n f. induction n as [|n [(k & Hk & E)|H]]; [right; intros; lia|left; exists k; split; [lia|exact E]|].
  destruct (f n) as [|x l] eqn:En; [left; exists n; split; [lia|exact En]|]. right. intros k Hk. destruct (Nat.eq_dec k n) as [->|]; [rewrite En; discriminate|apply H; lia].
Qed.

Lemma equal_fixed : forall clusters dim prev frames cs cs', (1 <= clusters)%nat -> averaged clusters dim prev frames cs -> mean_gap clusters dim cs = 0 ->
  averaged clusters dim cs frames cs' -> cs' = cs.
Proof.
  intros clusters dim prev frames cs cs' Hc (L & labels & N & V) G (L' & labels' & N' & V').
  assert (Z : forall k d, (k < clusters)%nat -> (d < dim)%nat -> nth (k * dim + d) cs' 0 = nth (k * dim + d) cs 0).
  2:{ apply (nth_ext cs' cs 0 0); [congruence|]. intros q Hq. rewrite L' in Hq. destruct (Nat.eq_dec dim 0) as [->|Hd]; [lia|].
      rewrite (Nat.div_mod q dim Hd). rewrite (Nat.mul_comm dim). apply Z; [apply Nat.div_lt_upper_bound; lia|apply Nat.mod_upper_bound, Hd]. }
  destruct (Nat.eq_dec clusters 1) as [->|H1].
  { assert (A0 : forall ls p, Forall2 (nearest 1 dim p) frames ls -> Forall (fun l => l = O) ls).
    { clear. intros ls p H. induction H as [|x l fs ls NN _ IH]; constructor; [destruct NN; lia|exact IH]. }
    intros k d Hk Hd. rewrite (V k d Hk Hd), (V' k d Hk Hd). assert (k = O) by lia. subst k.
    rewrite (proj1 (members_zero frames labels (Forall2_len _ _ _ N) (A0 _ _ N))), (proj1 (members_zero frames labels' (Forall2_len _ _ _ N') (A0 _ _ N'))). reflexivity. }
  assert (H2 : (2 <= clusters)%nat) by lia.
  assert (EQ := gap_zero clusters dim cs H2 G).
  assert (C0 : forall k d, (k < clusters)%nat -> (d < dim)%nat -> nth (k * dim + d) cs 0 = 0).
  { destruct (empty_dec clusters (members frames labels)) as [(e & He & Ee)|NE].
    - intros k d Hk Hd. rewrite (EQ k e d Hk He Hd), (V e d He Hd), Ee. reflexivity.
    - exfalso. apply (two_means clusters dim prev frames labels 0 1 N); [lia|lia|apply NE; lia|apply NE; lia|].
      intros d Hd. rewrite <- (V 0%nat d), <- (V 1%nat d) by lia. apply EQ; lia. }
  assert (T : forall d, (d < dim)%nat -> mean_at d frames = 0).
  { intros d Hd. assert (S : Rlsum (map (fun x => nth d x 0) frames) = 0).
    { rewrite (sum_groups clusters dim prev frames labels d N). apply Rsum_zero. intros k Hk. rewrite mean_total, <- (V k d Hk Hd), (C0 k d Hk Hd). ring. }
    destruct frames as [|x fs]; [reflexivity|]. unfold mean_at. rewrite S. unfold Rdiv. ring. }
  assert (A0 : Forall (fun l => l = O) labels').
  { clear - N' C0 Hc. induction N' as [|x l fs ls (B & _ & NN) _ IH]; constructor; [|exact IH]. destruct l as [|l]; [reflexivity|]. exfalso.
    specialize (NN O (Nat.lt_0_succ l)). assert (E : sqd dim x cs (S l) = sqd dim x cs 0); [|lra]. unfold sqd. apply Rsum_ext. intros d Hd. rewrite !C0 by lia. reflexivity. }
  destruct (members_zero frames labels' (Forall2_len _ _ _ N') A0) as (M0 & MS).
  intros k d Hk Hd. rewrite (V' k d Hk Hd), (C0 k d Hk Hd). destruct (Nat.eq_dec k 0) as [->|D]; [rewrite M0; apply T, Hd|rewrite (MS k D); reflexivity].
Qed.
