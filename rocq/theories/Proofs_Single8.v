(** K-Means in binary32: training, what is not a number, and many frames. *)
From Coq Require Import ZArith QArith Reals Lra Lia Bool List.
From Coq Require Import Floats.SpecFloat.
From Flocq Require Import Core.Core IEEE754.BinarySingleNaN.
From Verif Require Import Base BaseFacts Arith RFacts Spec_Float Spec_Single Spec_KMeans Spec_Float8 Model_Single Model_Single5 Model_KMeans Proofs_Float1 Proofs_Single1 Proofs_Single4 Proofs_Single5 Proofs_Single6 Proofs_Single7 Proofs_KAny.
Import ListNotations.
Local Open Scope R_scope.

#[local] Existing Instance Proofs_Single1.Sprec.
#[local] Existing Instance Proofs_Single1.Smax.
Local Notation g := sone.

(** ** One update *)
Lemma members_tagged (frames : list (list f32)) : forall labels k, members (map vals frames) labels k = map vals (tagged frames labels k).
Proof.
  unfold members, tagged. induction frames as [|x fs IH]; intros [|l ls] k; try reflexivity. cbn [map combine filter snd]. destruct (l =? k)%nat; cbn [map fst]; rewrite <- IH; reflexivity.
Qed.
Lemma tagged_incl {X} (items : list X) : forall labels k x, In x (tagged items labels k) -> In x items.
Proof. intros labels k x H. unfold tagged in H. apply in_map_iff in H. destruct H as ((a & b) & <- & H). apply filter_In in H. destruct H as (H & _). apply in_combine_l in H. exact H. Qed.
Lemma tagged_length {X} (items : list X) : forall labels k, (length (tagged items labels k) <= length items)%nat.
Proof.
  unfold tagged. induction items as [|x fs IH]; intros [|l ls] k; cbn [combine filter map length]; try lia. specialize (IH ls k). cbn [snd]. destruct (l =? k)%nat; cbn [map length]; lia.
Qed.
Lemma vals_column d (xs : list (list f32)) : vals (column (A := SA) d xs) = map (fun x => nth d x 0) (map vals xs).
Proof. unfold vals, column. rewrite !map_map. apply map_ext. intro x. change (map fval x) with (vals x). rewrite nth_vals. reflexivity. Qed.
Lemma label_near clusters dim prev x : (1 <= clusters)%nat -> (Z.of_nat dim < 2 ^ 24)%Z -> Forall (within (bpow radix2 41)) x -> Forall (within (bpow radix2 41)) prev ->
  near_nearest clusters dim (vals prev) (vals x) (label_of (A := SA) clusters dim prev x).
Proof.
  intros Hc Hd Wx Wp. split; [apply label_lt; exact Hc|]. intros j Hj. destruct (within_parts _ _ Wx) as (Vx & Nx), (within_parts _ _ Wp) as (Vp & Np).
  apply cdist_order; try assumption; try (apply cdist_num; assumption). unfold label_of. apply scan_least; [|lia]. intros i _. apply edist_dlike; assumption.
Qed.
Lemma nth_Forall_in {X} (P : X -> Prop) (l : list X) d n : length l = n -> (forall q, (q < n)%nat -> P (nth q l d)) -> Forall P l.
Proof. intros E H. apply Forall_nth. intros i d' Hi. rewrite (nth_indep l d' d) by exact Hi. apply H. lia. Qed.
Lemma update_acc B clusters dim prev (data : kdata SA) : 0 <= B <= bpow radix2 40 -> (1 <= clusters)%nat -> (Z.of_nat dim < 2 ^ 24)%Z ->
  length prev = (clusters * dim)%nat -> Forall (within (bpow radix2 41)) prev ->
  Forall (Forall (fun x => length x = dim /\ Forall (within B) x)) data -> (Z.of_nat (length (concat data)) <= 2 ^ 22)%Z ->
  exists cs labels, km_update (A := SA) clusters dim prev data = Ok cs /\ Forall2 (near_nearest clusters dim (vals prev)) (map vals (concat data)) labels /\
    near_means clusters dim B (map vals (concat data)) labels cs /\ Forall (within (bpow radix2 41)) cs.
Proof.
  intros (B0 & B1) Hc Hd Hp Wp F HN. assert (L : Forall (Forall (fun x : list f32 => length x = dim)) data).
  { eapply Forall_impl; [|exact F]. intros p Fp. eapply Forall_impl; [|exact Fp]. intros x (H & _). exact H. }
  assert (W : Forall (fun x => Forall (within B) x) (concat data)).
  { apply Forall_concat. eapply Forall_impl; [|exact F]. intros p Fp. eapply Forall_impl; [|exact Fp]. intros x (_ & H). exact H. }
  destruct (update_any (A := SA) clusters dim prev Hc Hp data L) as (cs & E & Lc & V). set (frames := concat data) in *. set (labels := map (label_of (A := SA) clusters dim prev) frames).
  assert (B40 : bpow radix2 41 = 2 * bpow radix2 40) by (change 41%Z with (1 + 40)%Z; rewrite bpow_plus; reflexivity). pose proof (bpow_gt_0 radix2 40) as P40.
  assert (K : forall k d, (k < clusters)%nat -> (d < dim)%nat -> let c := nth (k * dim + d) cs (n0 (A := SA)) in let xs := tagged frames labels k in
    within (bpow radix2 41) c /\ (xs = [] -> fval c = 0) /\ Rabs (fval c - mean_at d (map vals xs)) <= B * (g ^ (length xs + 2) - 1) + stiny).
  { intros k d Hk Hd'. cbv zeta. rewrite (V k d Hk Hd'). unfold center_of. fold labels. pose proof (tagged_length frames labels k) as TL. pose proof (tagged_incl frames labels k) as TI. pose proof stiny_pos as TP.
    destruct (tagged frames labels k) as [|x xs] eqn:T.
    - split; [apply zero_within; apply bpow_ge_0|]. split; [reflexivity|]. change (fval (n0 (A := SA))) with 0. cbn [map mean_at]. rewrite Rminus_0_r, Rabs_R0. pose proof (gpow (@length (list f32) [] + 2)). assert (0 <= B * (g ^ (@length (list f32) [] + 2) - 1)) by (apply Rmult_le_pos; lra). change (num SA) with f32 in *. lra.
    - set (ys := x :: xs) in *. set (l := (column (A := SA) d ys : list f32)). assert (Wl : Forall (within B) l).
      { apply Forall_forall. intros z Hz. unfold l, column in Hz. apply in_map_iff in Hz. destruct Hz as (y & <- & Hy). apply nth_within; [exact B0|]. apply (proj1 (Forall_forall _ _) W). apply TI. exact Hy. }
      assert (Le : length l = length ys) by (unfold l, column; apply map_length). assert (G3 : g ^ (length ys + 2) <= 3 / 2) by (apply gcap; lia).
      pose proof (mean_acc B l B0 Wl ltac:(rewrite Le; cbn; lia) ltac:(rewrite Le; lia)) as M. rewrite Le in M. cbv zeta in M.
      assert (O : INR (length ys) * B * g ^ (length ys + 2) < bpow radix2 127).
      { assert (N22 : INR (length ys) <= bpow radix2 22) by (rewrite INR_IZR_INZ; change (bpow radix2 22) with (IZR (2 ^ 22)); apply IZR_le; lia).
        pose proof (pos_INR (length ys)) as PN. assert (X : INR (length ys) * B <= bpow radix2 62) by (change 62%Z with (22 + 40)%Z; rewrite bpow_plus; apply Rmult_le_compat; lra).
        assert (Y : bpow radix2 63 < bpow radix2 127) by (apply bpow_lt; lia). assert (Z : bpow radix2 63 = 2 * bpow radix2 62) by (change 63%Z with (1 + 62)%Z; rewrite bpow_plus; reflexivity).
        pose proof (gpow (length ys + 2)) as G1. pose proof (bpow_gt_0 radix2 62). assert (0 <= INR (length ys) * B) by (apply Rmult_le_pos; lra). nra. }
      specialize (M O). destruct M as (M1 & M2 & M3 & M4). split; [|split; [discriminate|]].
      + split; [exact M1|]. split; [exact M2|]. eapply Rle_trans; [exact M4|]. rewrite B40. assert (stiny <= bpow radix2 38) by (apply bpow_le; lia). assert (bpow radix2 40 = 4 * bpow radix2 38) by (change 40%Z with (2 + 38)%Z; rewrite bpow_plus; reflexivity). pose proof (gpow (length ys + 2)) as G1. nra.
      + replace (mean_at d (map vals ys)) with (Rlsum (vals l) / INR (length ys)); [exact M3|]. unfold l. rewrite vals_column. unfold mean_at, ys. cbn [map length]. rewrite map_length. reflexivity. }
  assert (WC : Forall (within (bpow radix2 41)) cs).
  { apply (nth_Forall_in _ _ (n0 (A := SA)) (clusters * dim) Lc). intros q Hq. assert (D0 : dim <> 0%nat) by nia. rewrite (Nat.div_mod q dim D0). rewrite (Nat.mul_comm dim). apply K; [apply Nat.div_lt_upper_bound; nia|apply Nat.mod_upper_bound; exact D0]. }
  exists cs, labels. split; [exact E|]. split; [|split; [|exact WC]].
  - unfold labels. clear - Hc Hd Wp W B1 B40 P40. induction W as [|x fs Wx W IH]; cbn [map]; constructor; [|exact IH]. apply label_near; try assumption. eapply Forall_impl; [|exact Wx]. intros y. apply within_le. lra.
  - split; [exact Lc|]. split; [apply (within_parts _ _ WC)|]. intros k d Hk Hd'. destruct (K k d Hk Hd') as (_ & K2 & K3). rewrite members_tagged, nth_vals, map_length. split; [|exact K3]. intro H. apply K2. apply map_eq_nil in H. exact H.
Qed.
Lemma loop_acc B clusters dim thr (data : kdata SA) : 0 <= B <= bpow radix2 40 -> (1 <= clusters)%nat -> (Z.of_nat dim < 2 ^ 24)%Z ->
  Forall (Forall (fun x => length x = dim /\ Forall (within B) x)) data -> (Z.of_nat (length (concat data)) <= 2 ^ 22)%Z ->
  forall n init, length init = (clusters * dim)%nat -> Forall (within (bpow radix2 41)) init ->
  exists prev cs labels, km_loop (A := SA) (S n) clusters dim thr data init = Ok cs /\ length prev = (clusters * dim)%nat /\ Forall (within (bpow radix2 41)) prev /\
    Forall2 (near_nearest clusters dim (vals prev)) (map vals (concat data)) labels /\ near_means clusters dim B (map vals (concat data)) labels cs /\ Forall (within (bpow radix2 41)) cs.
Proof.
  intros HB Hc Hd F HN. induction n as [|n IH]; intros init Li Wi; destruct (update_acc B clusters dim init data HB Hc Hd Li Wi F HN) as (cs & labels & E & H1 & H2 & H3);
    destruct (stops_any (A := SA) clusters dim thr init cs Li (proj1 H2)) as (b & Eb).
  - exists init, cs, labels. cbn [km_loop]. rewrite E. cbn [bind]. rewrite Eb. cbn [bind]. destruct b; auto 10.
  - specialize (IH cs (proj1 H2) H3). destruct b.
    + exists init, cs, labels. cbn [km_loop]. rewrite E. cbn [bind]. rewrite Eb. cbn [bind]. auto 10.
    + destruct IH as (prev & cs' & labels' & E' & R). exists prev, cs', labels'. split; [|exact R]. change (km_loop (A := SA) (S (S n)) clusters dim thr data init) with (let* cs' := km_update (A := SA) clusters dim init data in let* stop := km_stops clusters dim thr init cs' in if stop then Ok cs' else km_loop (A := SA) (S n) clusters dim thr data cs'). rewrite E. cbn [bind]. rewrite Eb. cbn [bind]. exact E'.
Qed.

(** ** Not a number *)
Lemma add_nan_r x : SFadd sprec semax x S754_nan = S754_nan.
Proof. destruct x; reflexivity. Qed.
Lemma nsum_nan n (q : nat -> f32) i : (i < n)%nat -> q i = S754_nan -> nsum (A := SA) n q = S754_nan.
Proof.
  induction n as [|n IH]; intros Hi Q; [lia|]. cbn [nsum nadd SA]. destruct (Nat.eq_dec i n) as [->|D]; [rewrite Q; apply add_nan_r|]. rewrite IH by (assumption || lia). reflexivity.
Qed.
Lemma asum_nan (l : list f32) : In S754_nan l -> asum (A := SA) l = S754_nan.
Proof.
  induction l as [|x l IH] using rev_ind; intro H; [destruct H|]. rewrite asum_snoc. apply in_app_or in H. destruct H as [H|[->|[]]]; [rewrite IH by exact H; reflexivity|apply add_nan_r].
Qed.
Lemma edist_nan v i c j n d : (d < n)%nat -> nth (i + d) v (n0 (A := SA)) = S754_nan \/ nth (j + d) c (n0 (A := SA)) = S754_nan -> edist (A := SA) v i c j n = S754_nan.
Proof.
  intros Hd H. unfold edist. cbn [nsqrt SA]. rewrite (nsum_nan n _ d Hd); [reflexivity|]. unfold gap. cbn [nmul nsub SA]. destruct H as [H|H]; rewrite H; [reflexivity|]. match goal with |- SFmul _ _ (SFsub _ _ ?a _) _ = _ => destruct a; reflexivity end.
Qed.
Lemma scan_nan n (f : nat -> f32) : f 0%nat = S754_nan -> scan (A := SA) n f = (S754_nan, 0%nat).
Proof. intro H. induction n as [|n IH]; cbn [scan]; [rewrite H; reflexivity|]. rewrite IH. cbn [fst nltb SA]. rewrite ltb_nan_r. reflexivity. Qed.
Lemma label_nan clusters dim prev x d : (d < dim)%nat -> nth d x (n0 (A := SA)) = S754_nan \/ nth d prev (n0 (A := SA)) = S754_nan -> label_of (A := SA) clusters dim prev x = 0%nat.
Proof. intros Hd H. unfold label_of. rewrite scan_nan; [reflexivity|]. unfold cdist. apply (edist_nan _ _ _ _ _ d Hd). exact H. Qed.
Lemma stops_nan clusters dim thr prev cs d : (2 <= clusters)%nat -> (d < dim)%nat -> length prev = (clusters * dim)%nat -> length cs = (clusters * dim)%nat -> nth d cs (n0 (A := SA)) = S754_nan ->
  km_stops (A := SA) clusters dim thr prev cs = Ok false.
Proof.
  intros Hc Hd Hp Hl H. unfold km_stops.
  match goal with |- context [iterM clusters ?f ?z] => destruct (iterM_inv (fun k (s : num SA * num SA) => (1 <= k)%nat -> fst s = S754_nan) clusters f z) as (v & E & I) end; [intros; lia| |].
  - intros k s Hk I. match goal with |- context [iterM clusters ?f ?z] => destruct (iterM_inv (fun l (m : num SA) => (1 <= k)%nat \/ (2 <= l)%nat -> m = S754_nan) clusters f z) as (w & E & J) end.
    + intros [X|X]; [apply I; exact X|lia].
    + intros l m Hl' J. destruct (Nat.eqb_spec k l) as [->|D].
      * eexists. split; [reflexivity|]. intros [X|X]; apply J; [left; exact X|lia].
      * rewrite (euclid_any (A := SA) cs cs) by nia. cbn [bind]. eexists. split; [reflexivity|]. cbn [nadd SA]. intros [X|X]; [rewrite J by (left; exact X); reflexivity|].
        destruct (Nat.eq_dec l 1) as [->|D1].
        { destruct (Nat.eq_dec k 0) as [->|D0]; [|rewrite J by (left; lia); reflexivity]. rewrite (edist_nan cs (0 * dim) cs (1 * dim) dim d Hd) by (left; exact H). apply add_nan_r. }
        { rewrite J by (right; lia). reflexivity. }
    + rewrite E. cbn [bind]. rewrite (euclid_any (A := SA) prev cs) by nia. cbn [bind]. eexists. split; [reflexivity|]. intros _. cbn [fst]. apply J. right. exact Hc.
  - rewrite E. cbn [bind]. rewrite I by lia. cbn [ndiv nltb SA]. match goal with |- Ok (SFltb (SFdiv _ _ ?a (SFdiv _ _ S754_nan ?b)) _) = _ => destruct b; destruct a; reflexivity end.
Qed.
(** The first center is NaN at [d] and the others are at the origin. *)
Definition lost (clusters dim d : nat) (cs : list f32) : Prop :=
  length cs = (clusters * dim)%nat /\ nth d cs (n0 (A := SA)) = S754_nan /\ forall q, (dim <= q < clusters * dim)%nat -> nth q cs (n0 (A := SA)) = n0 (A := SA).
Lemma tagged_zero {X} (fs : list X) k : tagged fs (map (fun _ => 0%nat) fs) k = if (k =? 0)%nat then fs else [].
Proof. unfold tagged. induction fs as [|x fs IH]; [destruct (k =? 0)%nat; reflexivity|]. cbn [map combine filter snd]. destruct k; cbn [Nat.eqb map fst] in *; rewrite ?IH; reflexivity. Qed.
Lemma update_nan clusters dim prev (data : kdata SA) x d : (2 <= clusters)%nat -> (d < dim)%nat -> length prev = (clusters * dim)%nat -> Forall (Forall (fun x => length x = dim)) data ->
  In x (concat data) -> nth d x (n0 (A := SA)) = S754_nan ->
  exists cs, km_update (A := SA) clusters dim prev data = Ok cs /\ length cs = (clusters * dim)%nat /\ nth d cs (n0 (A := SA)) = S754_nan /\ (nth d prev (n0 (A := SA)) = S754_nan -> lost clusters dim d cs).
Proof.
  intros Hc Hd Hp F Hx H. destruct (update_any (A := SA) clusters dim prev ltac:(lia) Hp data F) as (cs & E & Lc & V). exists cs. split; [exact E|]. split; [exact Lc|].
  assert (N : nth d cs (n0 (A := SA)) = S754_nan).
  { change d with (0 * dim + d)%nat. rewrite V by lia. unfold center_of.
    assert (T : In x (tagged (concat data) (map (label_of (A := SA) clusters dim prev) (concat data)) 0)).
    { unfold tagged. apply in_map_iff. exists (x, 0%nat). split; [reflexivity|]. apply filter_In. split; [|reflexivity]. rewrite <- (label_nan clusters dim prev x d Hd (or_introl H)). clear - Hx. induction (concat data) as [|y l IH]; [destruct Hx|]. cbn [map combine]. destruct Hx as [->|Hx]; [left; reflexivity|right; apply IH; exact Hx]. }
    match goal with |- context [match ?z with [] => _ | _ => _ end] => set (xs := z) in * end. destruct xs as [|y ys] eqn:Q; [destruct T|]. rewrite asum_nan; [cbn [ndiv SA]; match goal with |- SFdiv _ _ S754_nan ?b = _ => destruct b; reflexivity end|].
    unfold column. apply in_map_iff. exists x. split; [exact H|exact T]. }
  split; [exact N|]. intro P. split; [exact Lc|]. split; [exact N|]. intros q Hq. assert (D0 : dim <> 0%nat) by lia. rewrite (Nat.div_mod q dim D0), (Nat.mul_comm dim). rewrite V; [|apply Nat.div_lt_upper_bound; nia|apply Nat.mod_upper_bound; exact D0]. unfold center_of.
  replace (map (label_of (A := SA) clusters dim prev) (concat data)) with (map (fun _ : list f32 => 0%nat) (concat data)) by (apply map_ext; intro y; symmetry; apply (label_nan clusters dim prev y d Hd); right; exact P).
  rewrite tagged_zero. assert (Q1 : (1 <= q / dim)%nat) by (apply Nat.div_le_lower_bound; lia). destruct (Nat.eqb_spec (q / dim) 0); [lia|reflexivity].
Qed.
Lemma loop_nan clusters dim thr (data : kdata SA) x d : (2 <= clusters)%nat -> (d < dim)%nat -> Forall (Forall (fun x => length x = dim)) data ->
  In x (concat data) -> nth d x (n0 (A := SA)) = S754_nan -> forall n init, length init = (clusters * dim)%nat -> (2 <= n)%nat \/ ((1 <= n)%nat /\ nth d init (n0 (A := SA)) = S754_nan) ->
  exists cs, km_loop (A := SA) n clusters dim thr data init = Ok cs /\ lost clusters dim d cs.
Proof.
  intros Hc Hd F Hx H. induction n as [|n IH]; intros init Li Hn; [lia|]. destruct (update_nan clusters dim init data x d Hc Hd Li F Hx H) as (cs & E & Lc & N & P).
  cbn [km_loop]. rewrite E. cbn [bind]. rewrite (stops_nan clusters dim thr init cs d Hc Hd Li Lc N). cbn [bind]. destruct (Nat.eq_dec n 0) as [->|D].
  - exists cs. split; [reflexivity|]. destruct Hn as [Hn|(_ & Hn)]; [lia|]. apply P. exact Hn.
  - apply IH; [exact Lc|]. right. split; [lia|exact N].
Qed.
Lemma fscan_lost n (f : nat -> f32) v : (2 <= n)%nat -> f 0%nat = S754_nan -> (forall j, (1 <= j < n)%nat -> f j = v) -> is_f32 v -> is_num v = true -> fval v <= bpow radix2 64 -> fscan (A := SA) n f = (v, 1%nat).
Proof.
  intros Hn F0 Fj V N L. destruct flt_max_val as (M1 & M2 & M3). assert (B : bpow radix2 64 < bpow radix2 100) by (apply bpow_lt; lia).
  assert (NU : forall x, is_num x = true -> nan32 x = false) by (intros x; destruct x; cbn; congruence).
  assert (X : SFltb v (flt_max (A := SA)) = true) by (apply ltb_ext; auto; rewrite !num_ext by assumption; lra).
  assert (Y : SFltb v v = false) by (destruct (SFltb v v) eqn:Q; [apply ltb_ext in Q; auto; lra|reflexivity]).
  assert (I : forall i, (2 <= i <= n)%nat -> fscan (A := SA) i f = (v, 1%nat)).
  { induction i as [|i IH]; intro Hi; [lia|]. destruct (Nat.eq_dec i 1) as [->|D].
    - cbn [fscan nltb SA]. rewrite F0. cbv zeta. change (SFltb S754_nan (fst (flt_max (A := SA), 0%nat))) with false. cbv iota. cbn [fst]. rewrite (Fj 1%nat) by lia. rewrite X. reflexivity.
    - cbn [fscan]. cbv zeta. rewrite IH by lia. cbn [fst nltb SA]. rewrite (Fj i) by lia. rewrite Y. reflexivity. }
  apply I. lia.
Qed.

(** ** Many frames *)
Definition one32 : f32 := S754_finite false 8388608 (-23).
Definition cap32 : f32 := S754_finite false 8388608 1.
Lemma one32_val : is_f32 one32 /\ is_num one32 = true /\ fval one32 = 1.
Proof. split; [reflexivity|]. split; [reflexivity|]. unfold fval, SF2R, F2R. cbn. lra. Qed.
Lemma cap32_val : is_f32 cap32 /\ is_num cap32 = true /\ fval cap32 = bpow radix2 24.
Proof. split; [reflexivity|]. split; [reflexivity|]. unfold fval, SF2R, F2R. cbn. lra. Qed.
Lemma cap_add : rs (bpow radix2 24 + 1) = bpow radix2 24.
Proof.
  destruct cap32_val as (V & N & E), one32_val as (V1 & N1 & E1). assert (X : SFadd sprec semax cap32 one32 = cap32) by (vm_compute; reflexivity).
  destruct (s_add_num cap32 one32 V V1 N N1) as (_ & Q); [|rewrite X, E, E1 in Q; symmetry; exact Q]. rewrite E, E1.
  apply Rle_lt_trans with (bpow radix2 25); [apply rs_abs_le; [lia|]|apply bpow_lt; lia]. rewrite Rabs_pos_eq; [|cbn; lra]. cbn. lra.
Qed.
Lemma asum_ones n : is_f32 (asum (A := SA) (repeat one32 n)) /\ is_num (asum (A := SA) (repeat one32 n)) = true /\ fval (asum (A := SA) (repeat one32 n)) = IZR (Z.min (Z.of_nat n) (2 ^ 24)).
Proof.
  destruct one32_val as (V1 & N1 & E1). induction n as [|n (V & N & E)]; [split; [reflexivity|]; split; [reflexivity|]; reflexivity|].
  assert (R : repeat one32 (S n) = repeat one32 n ++ [one32]) by (cbn [repeat]; apply repeat_cons). rewrite R, asum_snoc. set (s := asum (A := SA) (repeat one32 n)) in *.
  assert (Q : rs (fval s + fval one32) = IZR (Z.min (Z.of_nat (S n)) (2 ^ 24))).
  { rewrite E, E1. destruct (Z_lt_le_dec (Z.of_nat n) (2 ^ 24)) as [L|L].
    - rewrite Z.min_l by lia. rewrite Z.min_l by lia. rewrite <- plus_IZR. replace (Z.of_nat n + 1)%Z with (Z.of_nat (S n)) by lia. destruct (Z.eq_dec (Z.of_nat (S n)) (2 ^ 24)) as [X|X].
      + rewrite X. change (IZR (2 ^ 24)) with (bpow radix2 24). apply rs_bpow. lia.
      + rewrite <- (Rmult_1_r (IZR (Z.of_nat (S n)))). change 1 with (bpow radix2 0). apply rs_int; lia.
    - rewrite !Z.min_r by lia. change (IZR (2 ^ 24)) with (bpow radix2 24). apply cap_add. }
  destruct (s_add_num s one32 V V1 N N1) as (N' & E').
  { rewrite Q. rewrite Rabs_pos_eq by (apply IZR_le; lia). apply Rle_lt_trans with (bpow radix2 24); [change (bpow radix2 24) with (IZR (2 ^ 24)); apply IZR_le; lia|apply bpow_lt; lia]. }
  split; [apply s_add_valid; assumption|]. split; [exact N'|]. change (num SA) with f32 in *. rewrite E'. exact Q.
Qed.
Lemma mean_ones n : (2 ^ 25 <= Z.of_nat n <= 2 ^ 32)%Z -> let c := ndiv (a := SA) (asum (A := SA) (repeat one32 n)) (nN (A := SA) n) in
  is_f32 c /\ is_num c = true /\ fval c = rs (IZR (2 ^ 24) / rs (INR n)) /\ 0 <= fval c <= / 2.
Proof.
  intros Hn. cbv zeta. cbn [ndiv SA]. destruct (asum_ones n) as (V & N & E). destruct (nN_val32 n ltac:(lia) ltac:(lia)) as (V2 & N2 & E2). rewrite Z.min_r in E by lia. set (s := asum (A := SA) (repeat one32 n)) in *.
  assert (G : bpow radix2 25 <= rs (INR n)). { rewrite <- (rs_bpow 25) by lia. apply rs_le. rewrite INR_IZR_INZ. change (bpow radix2 25) with (IZR (2 ^ 25)). apply IZR_le. lia. }
  pose proof (bpow_gt_0 radix2 25) as P25. assert (Q : 0 <= IZR (2 ^ 24) / rs (INR n) <= / 2).
  { change (bpow radix2 25) with (IZR (2 ^ 25)) in *. assert (T : IZR (2 ^ 25) = 2 * IZR (2 ^ 24)) by (rewrite <- mult_IZR; reflexivity). split; [apply Rmult_le_pos; [apply IZR_le; lia|apply Rlt_le, Rinv_0_lt_compat; lra]|]. apply (Rmult_le_reg_r (rs (INR n))); [lra|]. unfold Rdiv. rewrite Rmult_assoc, Rinv_l by lra. lra. }
  assert (Q2 : 0 <= rs (IZR (2 ^ 24) / rs (INR n)) <= / 2). { split; [apply rs_nonneg; lra|]. assert (T : / 2 = bpow radix2 (-1)) by reflexivity. rewrite T. rewrite <- (rs_bpow (-1)) by lia. apply rs_le. rewrite <- T. lra. }
  assert (H2 : / 2 < bpow radix2 128) by (change (/ 2) with (bpow radix2 (-1)); apply bpow_lt; lia).
  destruct (s_div_num s (nN (A := SA) n) V V2 N) as (N3 & E3); change (num SA) with f32 in *; rewrite ?E2; [lra|rewrite E, Rabs_pos_eq; lra|]. rewrite E, E2 in E3. split; [apply s_div_valid; assumption|]. split; [exact N3|]. rewrite E3. split; [reflexivity|exact Q2].
Qed.
