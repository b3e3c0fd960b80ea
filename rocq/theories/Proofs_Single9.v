(** K-Means in binary32: initialisation with the first phrase and the whole training. *)
From Coq Require Import ZArith QArith Reals Lra Lia Bool List.
From Coq Require Import Floats.SpecFloat.
From Flocq Require Import Core.Core IEEE754.BinarySingleNaN.
From Verif Require Import Base BaseFacts Arith RFacts Spec_Float Spec_Single Spec_KMeans Spec_Float8 Model_Single Model_Gaussian Model_Single5 Model_KMeans Proofs_Float1 Proofs_Single1 Proofs_Single4 Proofs_Single5 Proofs_Single6 Proofs_Single7 Proofs_Single8 Proofs_KAny.
Import ListNotations.

Section Init.
  Context {A : arith}.
  Local Notation T := (num A).
  Local Open Scope nat_scope.
  (** The arithmetic of [km_init_first]. *)
  Definition segment_of (phrase : list (list T)) (o step d : nat) : T := nsum step (fun t => (nth d (nth (o + t) phrase []) n0 / nN step)%num).
  Lemma wr_any : forall n o (z : T) (cs : list T), o + n <= length cs ->
    exists cs', iterM n (fun d cs => wr cs (o + d) z) cs = Ok cs' /\ length cs' = length cs /\ forall q, nth q cs' n0 = if (o <=? q) && (q <? o + n) then z else nth q cs n0.
  Proof.
    intros n o z cs Hl. destruct (seg_any n o (fun _ _ => Ok z) (fun _ _ => z) n0 cs Hl ltac:(reflexivity)) as (cs' & E & L & N). exists cs'. split; [|split; [exact L|exact N]].
    match goal with |- iterM n ?f cs = _ => destruct (iterM_inv (fun i s => length s = length cs /\ iterM i (fun d cs => let* c := rd cs (o + d) in let* y := Ok z in wr cs (o + d) y) cs = Ok s) n f cs) as (s & E' & _ & E2) end.
    - split; reflexivity.
    - intros i s Hi (Ls & Es). rewrite wr_ok by lia. eexists. split; [reflexivity|]. split; [rewrite upd_length; exact Ls|]. cbn [iterM]. rewrite Es. cbn [bind]. rewrite (rdn s (o + i) z) by lia. cbn [bind]. apply wr_ok. lia.
    - rewrite E'. congruence.
  Qed.
  Lemma init_any : forall clusters dim phrase (cs : list T), Forall (fun x => length x = dim) phrase -> length cs = clusters * dim ->
    exists cs', km_init_first clusters dim phrase cs = Ok cs' /\ length cs' = clusters * dim /\
      forall k d, k < clusters -> d < dim -> nth (k * dim + d) cs' n0 = segment_of phrase (k * (length phrase / clusters)) (length phrase / clusters) d.
  Proof.
    intros clusters dim phrase cs Hf Hl. unfold km_init_first. set (step := length phrase / clusters).
    assert (Hs : 1 <= clusters -> clusters * step <= length phrase) by (intro; unfold step; apply Nat.mul_div_le; lia). clearbody step. cbv zeta.
    pose (I := fun (i : nat) (v : list T) => length v = clusters * dim /\ forall k d, k < i -> d < dim -> nth (k * dim + d) v n0 = segment_of phrase (k * step) step d).
    match goal with |- context [iterM clusters ?f ?s] => destruct (iterM_inv I clusters f s) as (v & E & I1 & I2) end.
    - split; [exact Hl|]. intros; lia.
    - intros i v Hi (I1 & I2). destruct (wr_any dim (i * dim) n0 v) as (v0 & E0 & L0 & V0); [rewrite I1; nia|]. rewrite E0. cbn [bind].
      pose (J := fun (t : nat) (w : list T) => length w = clusters * dim /\ (forall q, q < i * dim -> nth q w n0 = nth q v n0) /\
        forall d, d < dim -> nth (i * dim + d) w n0 = nsum t (fun t => (nth d (nth (i * step + t) phrase []) n0 / nN step)%num)).
      match goal with |- context [iterM step ?f v0] => destruct (iterM_inv J step f v0) as (w & Ew & J1 & J2 & J3) end.
      + split; [congruence|]. split.
        * intros q Hq. rewrite V0. destruct (Nat.leb_spec (i * dim) q); [lia|]. reflexivity.
        * intros d Hd. rewrite V0. destruct (Nat.leb_spec (i * dim) (i * dim + d)), (Nat.ltb_spec (i * dim + d) (i * dim + dim)); try lia. reflexivity.
      + intros t w Ht (J1 & J2 & J3). assert (Hb : i * step + t < length phrase) by nia.
        assert (Hx : length (nth (i * step + t) phrase []) = dim) by (rewrite Forall_forall in Hf; apply Hf, nth_In, Hb).
        destruct (seg_any dim (i * dim) (fun d y => Ok (y + nth d (nth (i * step + t) phrase []) n0 / nN step)%num) (fun d y => (y + nth d (nth (i * step + t) phrase []) n0 / nN step)%num) n0 w) as (w' & Ew & Lw & Vw).
        * rewrite J1. nia.
        * reflexivity.
        * exists w'. split.
          { etransitivity; [|exact Ew]. apply iterM_ext. intros d s Hd. rewrite (rdn phrase (i * step + t) []) by exact Hb. cbn [bind].
            rewrite (rdn (nth (i * step + t) phrase []) d n0) by lia. cbn [bind]. destruct (rd s (i * dim + d)); reflexivity. }
          split; [congruence|]. split.
          { intros q Hq. rewrite Vw. destruct (Nat.leb_spec (i * dim) q); [lia|]. apply J2. exact Hq. }
          { intros d Hd. rewrite Vw. destruct (Nat.leb_spec (i * dim) (i * dim + d)), (Nat.ltb_spec (i * dim + d) (i * dim + dim)); try lia. cbn [andb nsum].
            replace (i * dim + d - i * dim) with d by lia. rewrite (J3 d Hd). reflexivity. }
      + exists w. split; [exact Ew|]. split; [exact J1|]. intros k d Hk Hd. destruct (Nat.eq_dec k i) as [->|D]; [exact (J3 d Hd)|].
        rewrite J2 by nia. apply I2; [lia|exact Hd].
    - exists v. auto.
  Qed.
  Lemma nsum_asum : forall n (q : nat -> T), nsum n q = asum (map q (seq 0 n)).
  Proof. induction n as [|n IH]; intro q; [reflexivity|]. rewrite seq_S, map_app. unfold asum in *. rewrite fold_left_app. cbn [nsum map fold_left Nat.add]. rewrite IH. reflexivity. Qed.
End Init.

Local Open Scope R_scope.
#[local] Existing Instance Proofs_Single1.Sprec.
#[local] Existing Instance Proofs_Single1.Smax.
Local Notation g := sone.

Lemma segment_acc B (phrase : list (list f32)) o step d : 0 <= B <= bpow radix2 40 -> Forall (Forall (within B)) phrase -> (Z.of_nat step <= 2 ^ 22)%Z -> within (bpow radix2 41) (segment_of (A := SA) phrase o step d).
Proof.
  intros (B0 & B1) F Hs. pose proof sone_gt as G. pose proof stiny_pos as TP. pose proof isone as IG. pose proof (bpow_gt_0 radix2 38) as P38.
  assert (E40 : bpow radix2 40 = 4 * bpow radix2 38) by (change 40%Z with (2 + 38)%Z; rewrite bpow_plus; reflexivity). assert (E41 : bpow radix2 41 = 8 * bpow radix2 38) by (change 41%Z with (3 + 38)%Z; rewrite bpow_plus; reflexivity).
  destruct (Nat.eq_dec step 0) as [->|D]; [apply zero_within; apply bpow_ge_0|]. destruct (nN_val32 step ltac:(lia) ltac:(lia)) as (Vn & Nn & En).
  assert (N1 : 1 <= INR step) by (change 1 with (INR 1); apply le_INR; lia).
  destruct (normal_fact (INR step)) as (e & Fe & Ee). { rewrite Rabs_pos_eq by lra. apply Rle_trans with 1; [|exact N1]. change 1 with (bpow radix2 0). apply bpow_le. lia. }
  rewrite Ee in En. unfold fact in Fe. pose (C := B * (g * g) / INR step + stiny). assert (C0 : 0 <= C). { unfold C. assert (0 <= B * (g * g) / INR step). { apply Rmult_le_pos; [apply Rmult_le_pos; [lra|nra]|]. apply Rlt_le, Rinv_0_lt_compat. lra. } lra. }
  set (q := fun t => SFdiv sprec semax (nth d (nth (o + t) phrase []) (n0 (A := SA))) (nN (A := SA) step)).
  assert (Q : forall t, within C (q t)).
  { intro t. assert (W : within B (nth d (nth (o + t) phrase []) (n0 (A := SA)))).
    { apply nth_within; [exact B0|]. destruct (nth_in_or_default (o + t) phrase []) as [H | ->]; [|constructor]. apply (proj1 (Forall_forall _ _) F). exact H. }
    unfold q. set (x := nth d (nth (o + t) phrase []) (n0 (A := SA))) in *. destruct W as (Vx & Nx & Bx).
    assert (A : Rabs (fval x / (INR step * e)) <= B * g / INR step).
    { unfold Rdiv. rewrite Rabs_mult, Rabs_inv, (Rabs_pos_eq (INR step * e)) by (apply Rmult_le_pos; lra). rewrite Rinv_mult, Rmult_assoc, (Rmult_comm g).
      assert (I : / e <= g) by (rewrite <- (Rinv_inv g); apply Rinv_le_contravar; lra). assert (0 < / e) by (apply Rinv_0_lt_compat; lra). assert (0 < / INR step) by (apply Rinv_0_lt_compat; lra).
      apply Rmult_le_compat; [apply Rabs_pos|apply Rmult_le_pos; lra|exact Bx|apply Rmult_le_compat_l; lra]. }
    assert (A2 : Rabs (rs (fval x / (INR step * e))) <= C).
    { destruct (any_fact (fval x / (INR step * e))) as (e3 & t3 & F3 & T3 & ->). destruct (rs_fac (fval x / (INR step * e)) e3 F3) as (R3 & _). eapply Rle_trans; [apply (Rabs_triang _ t3)|]. unfold C.
      assert (X : g * Rabs (fval x / (INR step * e)) <= g * (B * g / INR step)) by (apply Rmult_le_compat_l; lra). replace (B * (g * g) / INR step) with (g * (B * g / INR step)) by (unfold Rdiv; ring). lra. }
    assert (CB : C < bpow radix2 128).
    { unfold C. assert (G3 : g ^ 2 <= 3 / 2) by (apply gcap; lia). cbn [pow] in G3. rewrite Rmult_1_r in G3. assert (X : B * (g * g) / INR step <= B * (g * g)). { apply (Rmult_le_reg_r (INR step)); [lra|]. unfold Rdiv. rewrite Rmult_assoc, Rinv_l by lra. assert (0 <= B * (g * g)) by (apply Rmult_le_pos; nra). nra. }
      assert (Y : B * (g * g) <= bpow radix2 40 * (3 / 2)) by (apply Rmult_le_compat; nra). assert (stiny <= bpow radix2 38) by (apply bpow_le; lia). assert (bpow radix2 41 < bpow radix2 128) by (apply bpow_lt; lia). lra. }
    assert (NZ : fval (nN (A := SA) step) <> 0) by (change (num SA) with f32 in *; rewrite En; nra).
    destruct (s_div_num x (nN (A := SA) step) Vx Vn Nx NZ) as (N3 & E3); change (num SA) with f32 in *; [rewrite En; lra|]. rewrite En in E3. split; [apply s_div_valid; assumption|]. split; [exact N3|]. rewrite E3. exact A2. }
  unfold segment_of. cbn [ndiv SA]. fold q. rewrite nsum_asum. set (l := (map q (seq 0 step) : list f32)). assert (Ll : length l = step) by (unfold l; rewrite map_length, seq_length; reflexivity).
  assert (Fl : Forall (within C) l). { apply Forall_forall. intros z Hz. apply in_map_iff in Hz. destruct Hz as (t & <- & _). apply Q. }
  assert (BD : INR step * C * g ^ step <= bpow radix2 41).
  { unfold C. replace (INR step * (B * (g * g) / INR step + stiny)) with (B * (g * g) + INR step * stiny) by (field; lra).
    assert (G3 : g ^ (step + 2) <= 3 / 2) by (apply gcap; lia). assert (G4 : g ^ step <= 3 / 2) by (apply gcap; lia). rewrite pow_add in G3. cbn [pow] in G3. rewrite Rmult_1_r in G3. pose proof (gpow step) as G1.
    assert (X1 : B * (g * g) * g ^ step <= bpow radix2 40 * (3 / 2)). { rewrite Rmult_assoc. rewrite (Rmult_comm (g * g)). apply Rmult_le_compat; [lra|apply Rmult_le_pos; nra|lra|lra]. }
    assert (X2 : INR step * stiny <= bpow radix2 22 * bpow radix2 (-150)). { apply Rmult_le_compat; [lra|lra| |apply Rle_refl]. rewrite INR_IZR_INZ. change (bpow radix2 22) with (IZR (2 ^ 22)). apply IZR_le. lia. }
    rewrite <- bpow_plus in X2. assert (X3 : bpow radix2 (22 + -150) <= bpow radix2 38) by (apply bpow_le; lia). assert (X4 : 0 <= INR step * stiny) by (apply Rmult_le_pos; lra).
    assert (X5 : INR step * stiny * g ^ step <= bpow radix2 38 * (3 / 2)) by (apply Rmult_le_compat; lra). lra. }
  destruct (asum_acc C l C0 Fl) as (V & N & _ & U); rewrite Ll in *; [|split; [exact V|split; [exact N|exact (Rle_trans _ _ _ U BD)]]].
  eapply Rle_lt_trans; [exact BD|apply bpow_lt; lia].
Qed.
Lemma train_acc B dim (data : kdata SA) dev rnd (k : kmeans SA) : 0 <= B <= bpow radix2 40 -> data <> [] -> km_dim k <> None -> km_first k = true -> (1 <= km_clusters k)%nat -> (1 <= km_maxit k)%nat -> (Z.of_nat dim < 2 ^ 24)%Z ->
  Forall (Forall (fun x => length x = dim /\ Forall (within B) x)) data -> (Z.of_nat (length (concat data)) <= 2 ^ 22)%Z ->
  exists k' prev labels, km_train (A := SA) dim data dev rnd k = Ok k' /\ km_dim k' = Some dim /\ km_clusters k' = km_clusters k /\ length prev = (km_clusters k * dim)%nat /\ Forall (within (bpow radix2 41)) prev /\
    Forall2 (near_nearest (km_clusters k) dim (vals prev)) (map vals (concat data)) labels /\ near_means (km_clusters k) dim B (map vals (concat data)) labels (km_centers k') /\ Forall (within (bpow radix2 41)) (km_centers k').
Proof.
  intros HB Hne Hk Hf Hc Hm Hd F HN. unfold km_train. destruct data as [|first rest]; [congruence|]. destruct (km_dim k); [|congruence]. rewrite Hf.
  pose proof (Forall_inv F) as F1. cbv beta in F1. assert (L1 : Forall (fun x : list f32 => length x = dim) first) by (eapply Forall_impl; [|exact F1]; intros x (H & _); exact H).
  assert (W1 : Forall (Forall (within B)) first) by (eapply Forall_impl; [|exact F1]; intros x (_ & H); exact H).
  destruct (init_any (A := SA) (km_clusters k) dim first (vresize (km_clusters k * dim) (n0 (A := SA)) (km_centers k)) L1 (vresize_length _ _ _)) as (i & E & Li & Vi).
  cbv zeta. rewrite E. cbn [bind]. assert (S : (Z.of_nat (length first / km_clusters k) <= 2 ^ 22)%Z).
  { assert (length first / km_clusters k <= length first)%nat by (apply Nat.div_le_upper_bound; nia). cbn [concat] in HN. rewrite app_length in HN. change (num SA) with f32 in *. lia. }
  assert (Wi : Forall (within (bpow radix2 41)) i).
  { apply (nth_Forall_in _ _ (n0 (A := SA)) (km_clusters k * dim) Li). intros q Hq. assert (D0 : dim <> 0%nat) by nia. rewrite (Nat.div_mod q dim D0), (Nat.mul_comm dim). change (num SA) with f32 in *.
    match goal with |- within _ ?z => replace z with (segment_of (A := SA) first (q / dim * (length first / km_clusters k)) (length first / km_clusters k) (q mod dim)) end.
    - apply segment_acc with B; assumption.
    - symmetry. apply Vi; [apply Nat.div_lt_upper_bound; nia|apply Nat.mod_upper_bound; exact D0]. }
  destruct (km_maxit k) as [|m]; [lia|]. destruct (loop_acc B (km_clusters k) dim (km_thr k) _ HB Hc Hd F HN m i Li Wi) as (prev & cs & labels & E2 & R1 & R2 & R3 & R4 & R5).
  eexists; exists prev, labels. rewrite E2. cbn [bind]. split; [reflexivity|]. cbn. auto 10.
Qed.
(** ** Not a number, from the training to the recognition *)
Lemma origin_dist clusters dim d cs obs c : lost clusters dim d cs -> (1 <= c < clusters)%nat -> cdist (A := SA) dim obs cs c = cdist (A := SA) dim obs (repeat (n0 (A := SA)) (clusters * dim)) c.
Proof.
  intros (L & _ & O) Hc. unfold cdist, edist. f_equal. assert (forall n, (n <= dim)%nat -> nsum (A := SA) n (fun e => gap (A := SA) (nth (0 + e) obs (n0 (A := SA))) (nth (c * dim + e) cs (n0 (A := SA)))) = nsum (A := SA) n (fun e => gap (A := SA) (nth (0 + e) obs (n0 (A := SA))) (nth (c * dim + e) (repeat (n0 (A := SA)) (clusters * dim)) (n0 (A := SA))))) as H.
  { induction n as [|n IH]; intro Hn; [reflexivity|]. cbn [nsum]. rewrite IH by lia. f_equal. f_equal. rewrite (O (c * dim + n)%nat) by nia. symmetry. apply nth_repeat. }
  apply H. lia.
Qed.
Lemma origin_all clusters dim obs c c' : cdist (A := SA) dim obs (repeat (n0 (A := SA)) (clusters * dim)) c = cdist (A := SA) dim obs (repeat (n0 (A := SA)) (clusters * dim)) c'.
Proof.
  unfold cdist, edist. f_equal. assert (forall n, nsum (A := SA) n (fun e => gap (A := SA) (nth (0 + e) obs (n0 (A := SA))) (nth (c * dim + e) (repeat (n0 (A := SA)) (clusters * dim)) (n0 (A := SA)))) = nsum (A := SA) n (fun e => gap (A := SA) (nth (0 + e) obs (n0 (A := SA))) (nth (c' * dim + e) (repeat (n0 (A := SA)) (clusters * dim)) (n0 (A := SA))))) as H.
  { induction n as [|n IH]; [reflexivity|]. cbn [nsum]. rewrite IH, !nth_repeat. reflexivity. }
  apply H.
Qed.
Lemma filter_lost clusters dim d (k : kmeans SA) obs : km_clusters k = clusters -> km_dim k = Some dim -> (2 <= clusters)%nat -> (d < dim)%nat -> (Z.of_nat dim < 2 ^ 24)%Z -> lost clusters dim d (km_centers k) -> (clusters <= length (km_dist k))%nat ->
  length obs = dim -> Forall (within (bpow radix2 41)) obs ->
  exists k', km_filter (A := SA) obs k = Ok k' /\ km_likeliest k' = 1%nat /\ nth 0 (km_dist k') (n0 (A := SA)) = S754_nan.
Proof.
  intros Hk Hdim Hc Hd Hd24 L Hl Ho Wo. subst clusters. destruct (filter_any (A := SA) obs k dim Hdim Ho (proj1 L) Hl) as (k' & E & _ & D & B). exists k'. split; [exact E|].
  assert (N0 : cdist (A := SA) dim obs (km_centers k) 0 = S754_nan) by (apply (edist_nan obs 0 (km_centers k) (0 * dim) dim d Hd); right; apply (proj1 (proj2 L))).
  split; [|rewrite D by lia; exact N0]. set (v := cdist (A := SA) dim obs (repeat (n0 (A := SA)) (km_clusters k * dim)) 1).
  assert (Wz : Forall (within (bpow radix2 41)) (repeat (n0 (A := SA)) (km_clusters k * dim))) by (apply Forall_forall; intros z Hz; apply repeat_spec in Hz; subst z; apply zero_within; apply bpow_ge_0).
  assert (Nv : is_num v = true) by (apply cdist_num; assumption). destruct (edist_dlike obs 0 (repeat (n0 (A := SA)) (km_clusters k * dim)) (1 * dim) dim (proj1 (within_parts _ _ Wo)) (proj1 (within_parts _ _ Wz))) as ((Vv & _) & Lv).
  rewrite B. rewrite (fscan_lost (km_clusters k) _ v Hc N0); [reflexivity| |exact Vv|exact Nv|apply Lv; exact Nv]. intros j Hj. rewrite (origin_dist _ _ _ _ _ _ L Hj). apply origin_all.
Qed.
Lemma train_lost dim (data : kdata SA) dev rnd (k : kmeans SA) x d : km_dim k <> None -> km_first k = true -> (2 <= km_clusters k)%nat -> (2 <= km_maxit k)%nat -> (d < dim)%nat ->
  Forall (Forall (fun x => length x = dim)) data -> In x (concat data) -> nth d x (n0 (A := SA)) = S754_nan ->
  exists k', km_train (A := SA) dim data dev rnd k = Ok k' /\ km_dim k' = Some dim /\ km_clusters k' = km_clusters k /\ km_dist k' = km_dist k /\ lost (km_clusters k) dim d (km_centers k').
Proof.
  intros Hk Hf Hc Hm Hd F Hx H. unfold km_train. destruct data as [|first rest]; [destruct Hx|]. destruct (km_dim k); [|congruence]. rewrite Hf. cbv zeta.
  destruct (init_any (A := SA) (km_clusters k) dim first (vresize (km_clusters k * dim) (n0 (A := SA)) (km_centers k)) (Forall_inv F) (vresize_length _ _ _)) as (i & E & Li & _). rewrite E. cbn [bind].
  destruct (loop_nan (km_clusters k) dim (km_thr k) _ x d Hc Hd F Hx H (km_maxit k) i Li (or_introl Hm)) as (cs & E2 & L). rewrite E2. cbn [bind]. eexists. split; [reflexivity|]. cbn. auto.
Qed.

(** ** Many frames *)
Lemma loop_ones thr n m init : (2 ^ 25 <= Z.of_nat n <= 2 ^ 32)%Z -> length init = 1%nat ->
  exists c, km_loop (A := SA) (S m) 1 1 thr [repeat [one32] n] init = Ok [c] /\ is_num c = true /\ fval c = rs (IZR (2 ^ 24) / rs (INR n)) /\ 0 <= fval c <= / 2.
Proof.
  intros Hn. set (c := ndiv (a := SA) (asum (A := SA) (repeat one32 n)) (nN (A := SA) n)). destruct (mean_ones n Hn) as (_ & M2 & M3 & M4). fold c in M2, M3, M4.
  assert (U : forall prev, length prev = 1%nat -> km_update (A := SA) 1 1 prev [repeat [one32] n] = Ok [c]).
  { intros prev Hp. destruct (update_any (A := SA) 1 1 prev ltac:(lia) Hp [repeat [one32] n]) as (cs & E & L & V).
    - constructor; [|constructor]. apply Forall_forall. intros x Hx. apply repeat_spec in Hx. subst x. reflexivity.
    - rewrite E. destruct cs as [|z [|? ?]]; try discriminate. specialize (V 0%nat 0%nat ltac:(lia) ltac:(lia)). cbn [Nat.mul Nat.add nth] in V. subst z. f_equal. f_equal. unfold center_of. cbn [concat]. rewrite app_nil_r.
      replace (map (label_of (A := SA) 1 1 prev) (repeat [one32] n)) with (map (fun _ : list f32 => 0%nat) (repeat [one32] n)) by (apply map_ext; reflexivity). rewrite tagged_zero. cbn [Nat.eqb].
      assert (C : column (A := SA) 0 (repeat [one32] n) = repeat one32 n) by (unfold column; clear; induction n as [|n IH]; [reflexivity|cbn [repeat map nth]; f_equal; exact IH]).
      destruct n as [|n']; [lia|]. change (ndiv (a := SA) (asum (A := SA) (column (A := SA) 0 (repeat [one32] (S n')))) (nN (A := SA) (length (repeat [one32] (S n')))) = c). rewrite C, repeat_length. reflexivity. }
  revert init. induction m as [|m IH]; intros init Hi; destruct (stops_any (A := SA) 1 1 thr init [c] Hi eq_refl) as (b & Eb).
  - exists c. cbn [km_loop]. rewrite (U init Hi). cbn [bind]. rewrite Eb. cbn [bind]. destruct b; auto.
  - change (km_loop (A := SA) (S (S m)) 1 1 thr [repeat [one32] n] init) with (let* cs' := km_update (A := SA) 1 1 init [repeat [one32] n] in let* stop := km_stops 1 1 thr init cs' in if stop then Ok cs' else km_loop (A := SA) (S m) 1 1 thr [repeat [one32] n] cs').
    rewrite (U init Hi). cbn [bind]. rewrite Eb. cbn [bind]. destruct b; [exists c; auto|]. apply IH. reflexivity.
Qed.
