(** Filtering with one class: window, results and regression. *)
From Coq Require Import String List Bool Arith ZArith Reals Lra Lia.
From Verif Require Import Base Arith BaseFacts RFacts Model_Ring Model_Phrase Model_Gaussian Model_Config Model_GMM Model_HMM
  Proofs_Ring Proofs_Gaussian Proofs_KMeans Proofs_GMM Proofs_GMM3 Spec_Common Spec_Matrix Spec_Gaussian Spec_GMM Spec_HMM Proofs_HMM Proofs_HMM2 Proofs_HMM3.
Import ListNotations.
Local Open Scope list_scope.
Local Open Scope R_scope.

(** ** The window *)
Lemma range_sum : forall N lo hi f, (lo <= hi)%nat -> (hi <= N)%nat ->
  Rsum (hi - lo) (fun k => f (lo + k)%nat) = Rsum N (fun i => if (lo <=? i)%nat && (i <? hi)%nat then f i else 0).
Proof.
  intros N lo hi f H1 H2. replace N with (lo + ((hi - lo) + (N - hi)))%nat at 1 by lia. rewrite Rsum_split, Rsum_split.
  rewrite (Rsum_zero lo). 2:{ intros i Hi. destruct (Nat.leb_spec lo i); [lia|reflexivity]. }
  rewrite (Rsum_zero (N - hi)). 2:{ intros i Hi. destruct (Nat.ltb_spec (lo + (hi - lo + i)) hi); [lia|]. rewrite andb_false_r. reflexivity. }
  rewrite Rplus_0_l, Rplus_0_r. apply Rsum_ext. intros i Hi. destruct (Nat.leb_spec lo (lo + i)), (Nat.ltb_spec (lo + i) hi); try lia. reflexivity.
Qed.

Lemma window_sum : forall N l f, (l < N)%nat ->
  Rsum (Nat.min (l + N / 2) N - (l - N / 2)) (fun k => f (l - N / 2 + k)%nat) = Rsum N (fun i => if in_window N l i then f i else 0).
Proof.
  intros N l f Hl. rewrite (range_sum N) by lia. apply Rsum_ext. intros i Hi. unfold in_window.
  destruct (Nat.leb_spec (l - N / 2) i), (Nat.leb_spec l (i + N / 2)); first [lia | reflexivity | idtac]; cbn [andb].
  destruct (Nat.ltb_spec i (Nat.min (l + N / 2) N)), (Nat.ltb_spec i (l + N / 2)); first [lia | reflexivity].
Qed.

Lemma in_window_self : forall N l, (2 <= N)%nat -> in_window N l l = true.
Proof.
  intros N l H. unfold in_window. assert (1 <= N / 2)%nat by (apply Nat.div_le_lower_bound; lia).
  destruct (Nat.leb_spec l (l + N / 2)), (Nat.ltb_spec l (l + N / 2)); first [lia | reflexivity].
Qed.

Lemma window_pos : forall N l w, (2 <= N)%nat -> distribution N w -> first_max N w l -> 0 < window_mass N l w.
Proof.
  intros N l w HN (Hw & Hs) (Hl & HM & _). unfold window_mass.
  assert (P : 0 < w l).
  { destruct (Rle_lt_dec (w l) 0) as [L|L]; [|exact L]. exfalso. assert (Rsum N w = 0); [|lra]. apply Rsum_zero. intros i Hi. specialize (HM i Hi). specialize (Hw i Hi). lra. }
  eapply Rlt_le_trans; [exact P|]. pose proof (Rsum_term_le N (fun i => if in_window N l i then w i else 0) l) as T. cbv beta in T. rewrite in_window_self in T by exact HN. apply T; [|exact Hl].
  intros j Hj. destruct (in_window N l j); [apply Hw, Hj|lra].
Qed.

Lemma window_ok : forall (h : hclass RA) w, (1 <= hc_n h)%nat -> (forall i, (i < hc_n h)%nat -> hm_weight h i = Ok (w i)) ->
  exists l, first_max (hc_n h) w l /\
    hm_window h = Ok (hc_set_run (rn_window (A := RA) l (l - hc_n h / 2) (Nat.min (l + hc_n h / 2) (hc_n h)) (window_mass (hc_n h) l w) (hc_run h)) h).
Proof.
  intros h w HN Hw. set (N := hc_n h) in *.
  destruct (iterM_inv (fun k (s : nat * R) => snd s = w (fst s) /\ first_max (S k) w (fst s)) (N - 1)
    (fun k (s : nat * R) => let* w := hm_weight h (k + 1) in Ok (if nltb (a := RA) (snd s) w then ((k + 1)%nat, w) else s)) (0%nat, w 0%nat)) as ((l & b) & E & Eb & F).
  - cbn [fst snd]. split; [reflexivity|]. split; [lia|]. split; intros i Hi; [replace i with 0%nat by lia; lra|lia].
  - intros k (l & b) Hk (Eb & Hl & HM & HF). cbn [fst snd] in *. subst b. replace (k + 1)%nat with (S k) by lia. rewrite Hw by lia. cbn [bind].
    destruct (nltb (a := RA) (w l) (w (S k))) eqn:C.
    + apply nltb_RA_true in C. eexists. split; [reflexivity|]. cbn [fst snd]. split; [reflexivity|]. split; [lia|]. split; intros i Hi.
      * destruct (Nat.eq_dec i (S k)) as [->|]; [lra|]. specialize (HM i ltac:(lia)). lra.
      * specialize (HM i ltac:(lia)). lra.
    + apply nltb_RA_false in C. eexists. split; [reflexivity|]. cbn [fst snd]. split; [reflexivity|]. split; [lia|]. split; intros i Hi; [|apply HF; exact Hi].
      destruct (Nat.eq_dec i (S k)) as [->|]; [exact C|apply HM; lia].
  - cbn [fst snd] in *. replace (S (N - 1)) with N in F by lia. exists l. split; [exact F|]. destruct F as (Hl & _).
    unfold hm_window. fold N. rewrite Hw by lia. cbn [bind]. eapply bind_eq; [exact E|]. cbv beta iota zeta.
    rewrite (accM_ok _ _ (fun k => w (l - N / 2 + k)%nat)). 2:{ intros k Hk. apply Hw. lia. }
    cbn [bind]. rewrite window_sum by exact Hl. rewrite n0_RA, Rplus_0_l. reflexivity.
Qed.

(** ** Results *)
(** [w2 i] is what the code counts for state [i] in the numerator of the progression. *)
Lemma results_ok : forall (h : hclass RA) w c l L vs, (l < hc_n h)%nat -> (1 <= L)%nat -> (forall i, (i < hc_n h)%nat -> hm_weight h i = Ok (w i)) ->
  (hc_hier h = true -> forall i, (i < hc_n h)%nat -> rd (h_a2 (hc_run h)) i = Ok (c i)) ->
  h_wmin (hc_run h) = (l - hc_n h / 2)%nat -> h_wmax (hc_run h) = Nat.min (l + hc_n h / 2) (hc_n h) -> window_of L vs (h_buf (hc_run h)) ->
  exists buf, hm_results h = Ok (hc_set_run (rn_log (A := RA) (window_mean L (vs ++ [ln (h_inst (hc_run h))]))
      (Rsum (hc_n h) (fun i => if in_window (hc_n h) l i then (if hc_hier h then w i + c i else w i) * INR i else 0) / h_wnorm (hc_run h) / INR (Nat.max 1 (hc_n h - 1)))
      (rn_buf (A := RA) buf (hc_run h))) h) /\ window_of L (vs ++ [ln (h_inst (hc_run h))]) buf.
Proof.
  intros h w c l L vs Hl HL Hw Hc E1 E2 HB. destruct (smooth_ok L vs _ (h_inst (hc_run h)) HL HB) as (buf & E & WB). exists buf. split; [|exact WB].
  unfold hm_results. eapply bind_eq; [exact E|]. cbv beta iota zeta. rewrite E1, E2. set (N := hc_n h) in *.
  rewrite (accM_ok _ _ (fun k => (if hc_hier h then w (l - N / 2 + k)%nat + c (l - N / 2 + k)%nat else w (l - N / 2 + k)%nat) * INR (l - N / 2 + k) / h_wnorm (hc_run h))).
  2:{ intros k Hk. rewrite Hw by lia. cbn [bind]. rewrite nN_RA. destruct (hc_hier h) eqn:Hh; [rewrite Hc by (try reflexivity; lia)|]; reflexivity. }
  cbn [bind]. apply (f_equal (@Ok _)). rewrite n0_RA, n1_RA. cbn [ndiv RA]. rewrite Rplus_0_l. f_equal. f_equal. f_equal.
  - rewrite Rsum_div. f_equal.
    exact (window_sum N l (fun i => (if hc_hier h then w i + c i else w i) * INR i) Hl).
  - destruct (Nat.eqb_spec (N - 1) 0) as [Z|Z]; [rewrite Z; reflexivity|]. rewrite nN_RA. rewrite Nat.max_r by lia. reflexivity.
Qed.

(** ** Regression *)
Lemma kept_refl : forall g : gclass RA, has_window (gc_buf g) -> state_kept g g.
Proof. intros g H. unfold state_kept. repeat (split; [reflexivity|]). exact H. Qed.
Lemma kept_trans : forall g g' g'', state_kept g g' -> state_kept g' g'' -> state_kept g g''.
Proof.
  intros g g' g'' (A1 & A2 & A3 & A4 & A5 & A6 & A7 & A8 & A9) (B1 & B2 & B3 & B4 & B5 & B6 & B7 & B8 & B9). unfold state_kept.
  rewrite B1, B2, B3, B4, B5, B6, B7, B8. repeat (split; [assumption|]). exact B9.
Qed.
Lemma kept_usable : forall h g g', state_usable h g -> state_kept g g' -> state_usable h g'.
Proof.
  intros h g g' (((H1 & H2 & H3 & H4 & H5) & Hi & D) & U1 & U2 & U3 & U4 & U5 & U6) (K1 & K2 & K3 & K4 & K5 & K6 & K7 & K8 & K9).
  assert (EN : gc_n g' = gc_n g) by (unfold gc_n; rewrite K4; reflexivity). assert (EM : gc_mode g' = gc_mode g) by (unfold gc_mode; rewrite K4; reflexivity).
  split; [|rewrite K1, K2, K3, EN, EM; repeat (split; [assumption|]); exact K9].
  split; [|split; [rewrite K6; exact Hi|]].
  - unfold gm_shape. rewrite EN, K5, K6, K8. repeat (split; [assumption|]). unfold fits_class in *. rewrite K1, K2, K3, EM. exact H5.
  - unfold distribution, weight in *. rewrite EN, K5. exact D.
Qed.
Lemma kept_same : forall g g' x, state_kept g g' -> mix_lik g' x = mix_lik g x /\ (forall d, class_out g' x d = class_out g x d).
Proof.
  intros g g' x (K1 & K2 & K3 & K4 & K5 & K6 & K7 & K8 & K9). unfold class_out, posterior, mix_lik, weight, comp_at, gc_n. rewrite K4, K5, K6. split; reflexivity.
Qed.

Lemma fire_ok : forall h g (x : list R), state_usable h g -> hc_bim h = true -> length x = hc_din h ->
  exists g', (let* g := gm_likelihood (A := RA) x [] g in gm_regression (A := RA) x g) = Ok g' /\ state_kept g g' /\
    length (gc_out g') = (hc_dim h - hc_din h)%nat /\ length (gc_ocov g') = csize (hp_mode (hc_par h)) (hc_dim h - hc_din h) /\
    forall d, (d < hc_dim h - hc_din h)%nat -> nth d (gc_out g') 0 = class_out g x d.
Proof.
  intros h g x (Rg & U1 & U2 & U3 & U4 & U5 & (L & vs & HL & HW)) HB Lx.
  assert (Lx' : length x = obs_dim g) by (unfold obs_dim; rewrite U1, HB, U3; exact Lx).
  destruct (likelihood_ok g x L vs Rg HL Lx' HW) as (b & buf & E & LB & VB & WB).
  set (g1 := gc_set_buf (A := RA) buf (mix_lik g x) (window_mean L (vs ++ [ln (mix_lik g x)])) (gc_set_beta (A := RA) b g)) in *.
  pose proof Rg as (Hs & Hi & D). pose proof Hs as (H1 & H2 & H3 & H4 & H5).
  assert (Hs1 : gm_shape g1). { unfold gm_shape. change (gc_n g1) with (gc_n g). repeat (split; [assumption|]). exact H5. }
  destruct (regression_ok g1 x Hs1) as (o & v & E2 & L1 & L2 & V).
  { exact Hi. }
  { change (gc_bim g1) with (gc_bim g). congruence. }
  { change (gc_din g1) with (gc_din g). congruence. }
  { intros c Hc. change (gc_beta g1) with b. exact (VB c Hc). }
  exists (gc_set_out (A := RA) o v g1). split; [rewrite E; cbn [bind]; exact E2|].
  split. { unfold state_kept. repeat (split; [try reflexivity|]); [exact (eq_trans LB (eq_sym H4))|]. exists L, (vs ++ [ln (mix_lik g x)]). split; [exact HL|exact WB]. }
  change (gc_dim g1) with (gc_dim g) in *. change (gc_din g1) with (gc_din g) in *. change (gc_mode g1) with (gc_mode g) in *. rewrite U2, U3 in L1, L2, V. rewrite U5 in L2.
  split; [exact L1|]. split; [exact L2|]. intros d Hd. change (gc_out (gc_set_out (A := RA) o v g1)) with o. rewrite V by exact Hd. reflexivity.
Qed.

Lemma Forall2_nth : forall X Y (P : X -> Y -> Prop) dx dy l m, length l = length m -> (forall i, (i < length l)%nat -> P (nth i l dx) (nth i m dy)) -> Forall2 P l m.
Proof.
  induction l as [|a l IH]; intros [|b m] H HP; try discriminate; [constructor|]. constructor; [apply (HP 0%nat); cbn; lia|].
  apply IH; [cbn in H; lia|]. intros i Hi. apply (HP (S i)). cbn. lia.
Qed.
Lemma bind_Ok : forall X Y (a : X) (f : X -> res Y), bind (Ok a) f = f a.
Proof. reflexivity. Qed.

Lemma mix_step_div : forall mode no (w nc : R) (y yc o v : list R), (no <= length y)%nat -> (csize mode no <= length yc)%nat -> length o = no -> length v = csize mode no ->
  exists o' v', iterM no (fun d (s : list R * list R) => let '(o, v) := s in
      let* a := rd o d in let* yd := rd y d in let* o := wr o d (a + w * yd / nc) in
      let* v := match mode with
        | Full => iterM no (fun d2 v => let* a := rd v (d * no + d2) in let* c := rd yc (d * no + d2) in wr v (d * no + d2) (a + w * w * c / nc)) v
        | Diagonal => let* a := rd v d in let* c := rd yc d in wr v d (a + w * w * c / nc) end in
      Ok (o, v)) (o, v) = Ok (o', v') /\ length o' = no /\ length v' = csize mode no /\
    (forall d, (d < no)%nat -> nth d o' 0 = nth d o 0 + w / nc * nth d y 0).
Proof.
  intros mode no w nc y yc o v H1 H2 H3 H4. destruct (mix_step mode no (w / nc) (w * w / nc) y yc o v H1 H2 H3 H4) as (o' & v' & E & L1 & L2 & V1 & _).
  exists o', v'. split; [|split; [exact L1|split; [exact L2|exact V1]]]. rewrite <- E. apply iterM_ext. intros d (o1, v1) Hd.
  destruct (rd o1 d) as [a| |]; cbn [bind]; try reflexivity. destruct (rd y d) as [yd| |]; cbn [bind]; try reflexivity.
  replace (a + w * yd / nc) with (a + w / nc * yd) by (unfold Rdiv; ring). destruct (wr o1 d (a + w / nc * yd)) as [o2| |]; cbn [bind]; try reflexivity.
  f_equal. destruct mode.
  - apply iterM_ext. intros d2 v2 Hd2. destruct (rd v2 (d * no + d2)) as [p| |]; cbn [bind]; try reflexivity. destruct (rd yc (d * no + d2)) as [q| |]; cbn [bind]; try reflexivity.
    f_equal. unfold Rdiv; ring.
  - destruct (rd v1 d) as [p| |]; cbn [bind]; try reflexivity. destruct (rd yc d) as [q| |]; cbn [bind]; try reflexivity. f_equal. unfold Rdiv; ring.
Qed.

Lemma hregression_ok : forall (h : hclass RA) (w : nat -> R) l (x : list R), (l < hc_n h)%nat -> (forall i, (i < hc_n h)%nat -> hm_weight h i = Ok (w i)) -> (forall i, (i < hc_n h)%nat -> 0 <= w i) ->
  length (h_states (hc_net h)) = hc_n h -> Forall (state_usable h) (h_states (hc_net h)) -> hc_bim h = true -> (hc_din h <= hc_dim h)%nat -> length x = hc_din h ->
  h_like (hc_run h) = l -> h_wmin (hc_run h) = (l - hc_n h / 2)%nat -> h_wmax (hc_run h) = Nat.min (l + hc_n h / 2) (hc_n h) -> h_wnorm (hc_run h) = window_mass (hc_n h) l w ->
  exists ss o v, hm_regression (A := RA) x h = Ok (hc_set_run (rn_out (A := RA) o v (hc_run h)) (hc_set_net (nt_states (A := RA) ss (hc_net h)) h)) /\
    Forall2 state_kept (h_states (hc_net h)) ss /\ length o = (hc_dim h - hc_din h)%nat /\ length v = csize (hp_mode (hc_par h)) (hc_dim h - hc_din h) /\
    forall d, (d < hc_dim h - hc_din h)%nat -> nth d o 0 = hmm_output h w l x d.
Proof.
  intros h w l x Hl Hw Hp Ls Fs HB Hd Lx El E1 E2 E3. set (N := hc_n h) in *. set (no := (hc_dim h - hc_din h)%nat). set (ss0 := h_states (hc_net h)) in *.
  assert (U : forall i, (i < N)%nat -> state_usable h (state_at h i)).
  { intros i Hi. rewrite Forall_forall in Fs. apply Fs. unfold state_at. apply nth_In. change (num RA) with R in *. fold ss0. lia. }
  assert (K0 : forall i, (i < N)%nat -> state_kept (state_at h i) (state_at h i)) by (intros i Hi; apply kept_refl; apply (U i Hi)).
  assert (KF : forall ss, length ss = N -> (forall i, (i < N)%nat -> state_kept (state_at h i) (nth i ss no_state)) -> Forall2 state_kept ss0 ss).
  { intros ss L H. apply (Forall2_nth _ _ _ no_state no_state); [congruence|]. intros i Hi. apply H. change (num RA) with R in *. lia. }
  assert (Loop : forall lo hi nc, (lo <= hi)%nat -> (hi <= N)%nat -> exists ss o v,
    iterM (hi - lo) (fun k s => let '(ss, o, v) := s in
          let* g := rd ss (lo + k)%nat in
          let* g := (let* g := gm_likelihood (A := RA) x [] g in gm_regression (A := RA) x g) in
          let* ss := wr ss (lo + k)%nat g in
          let* w := hm_weight h (lo + k) in
          let* (o, v) := iterM no (fun d (s : list R * list R) => let '(o, v) := s in
            let* a := rd o d in let* y := rd (gc_out g) d in let* o := wr o d (a + w * y / nc) in
            let* v := match hp_mode (hc_par h) with
              | Full => iterM no (fun d2 v => let* a := rd v (d * no + d2)%nat in let* c := rd (gc_ocov g) (d * no + d2)%nat in wr v (d * no + d2)%nat (a + w * w * c / nc)) v
              | Diagonal => let* a := rd v d in let* c := rd (gc_ocov g) d in wr v d (a + w * w * c / nc)
              end in
            Ok (o, v)) (o, v) in
          Ok (ss, o, v)) (ss0, repeat 0 no, repeat 0 (csize (hp_mode (hc_par h)) no)) = Ok (ss, o, v) /\
    Forall2 state_kept ss0 ss /\ length o = no /\ length v = csize (hp_mode (hc_par h)) no /\
    forall d, (d < no)%nat -> nth d o 0 = Rsum (hi - lo) (fun k => w (lo + k)%nat / nc * class_out (state_at h (lo + k)) x d)).
  { intros lo hi nc H1 H2.
    match goal with |- exists ss o v, iterM _ ?F ?s0 = _ /\ _ => destruct (iterM_inv (fun k (s : list (gclass RA) * list R * list R) => let '(ss, o, v) := s in
      length ss = N /\ (forall i, (i < N)%nat -> state_kept (state_at h i) (nth i ss no_state)) /\ (forall i, (lo + k <= i)%nat -> nth i ss no_state = state_at h i) /\
      length o = no /\ length v = csize (hp_mode (hc_par h)) no /\
      forall d, (d < no)%nat -> nth d o 0 = Rsum k (fun k => w (lo + k)%nat / nc * class_out (state_at h (lo + k)) x d)) (hi - lo) F s0) as (((ss & o) & v) & E & I1 & I2 & _ & I4 & I5 & I6) end.
    - split; [exact Ls|]. split; [exact K0|]. split; [reflexivity|]. split; [apply repeat_length|]. split; [apply repeat_length|]. intros d Hd'. cbn [Rsum]. apply nth_repeat.
    - intros k ((ss & o) & v) Hk (I1 & I2 & I3 & I4 & I5 & I6). rewrite (rd_nth ss (lo + k) no_state) by lia. rewrite (I3 (lo + k)%nat) by lia. rewrite bind_Ok.
      destruct (fire_ok h (state_at h (lo + k)) x (U (lo + k)%nat ltac:(lia)) HB Lx) as (g' & EF & KK & LO & LC & VO).
      destruct (mix_step_div (hp_mode (hc_par h)) no (w (lo + k)%nat) nc (gc_out g') (gc_ocov g') o v) as (o' & v' & EM & LO' & LV' & VO'); [fold no in LO; change (num RA) with R in *; lia|fold no in LC; change (num RA) with R in *; lia|exact I4|exact I5|].
      exists (upd ss (lo + k) g', o', v'). split.
      + eapply bind_eq; [exact EF|]. rewrite wr_ok by lia. rewrite bind_Ok. rewrite Hw by lia. rewrite bind_Ok. eapply bind_eq; [exact EM|]. reflexivity.
      + split; [rewrite upd_length; exact I1|]. split.
        { intros i Hi. destruct (Nat.eq_dec i (lo + k)) as [->|Ne]; [rewrite nth_upd_eq by lia; exact KK|rewrite nth_upd_neq by lia; apply I2; exact Hi]. }
        split; [intros i Hi; rewrite nth_upd_neq by lia; apply I3; lia|]. split; [exact LO'|]. split; [exact LV'|].
        intros d Hd'. rewrite VO' by exact Hd'. rewrite I6, VO by exact Hd'. reflexivity.
    - exists ss, o, v. split; [exact E|]. split; [apply KF; assumption|]. split; [exact I4|]. split; [exact I5|]. exact I6. }
  unfold hm_regression. unfold usub. rewrite (proj2 (Nat.leb_le _ _) Hd). rewrite bind_Ok. fold no.
  cbv zeta. rewrite ?n0_RA, ?n1_RA. change (num RA) with R.
  change (match hp_mode (hc_par h) with Full => (no * no)%nat | Diagonal => no end) with (csize (hp_mode (hc_par h)) no). cbv zeta.
  unfold hmm_output. destruct (hp_est (hc_par h)).
  - destruct (Loop 0%nat N 1 ltac:(lia) ltac:(lia)) as (ss & o & v & E & K & L1 & L2 & V). exists ss, o, v.
    split; [|split; [exact K|split; [exact L1|split; [exact L2|intros d Hd'; rewrite V by exact Hd'; rewrite Nat.sub_0_r; apply Rsum_ext; intros i Hi; cbn [Nat.add]; unfold Rdiv; rewrite Rinv_1, Rmult_1_r; reflexivity]]]].
    destruct (nleb (a := RA) 1 0) eqn:C; [apply nleb_RA_true in C; lra|]. eapply bind_eq; [exact E|]. reflexivity.
  - rewrite E1, E2, E3. fold N. set (W := window_mass N l w).
    destruct (Loop (l - N / 2)%nat (Nat.min (l + N / 2) N) (if nleb (a := RA) W 0 then 1 else W) ltac:(lia) ltac:(lia)) as (ss & o & v & E & K & L1 & L2 & V). exists ss, o, v.
    split; [|split; [exact K|split; [exact L1|split; [exact L2|]]]].
    + eapply bind_eq; [exact E|]. reflexivity.
    + intros d Hd'. rewrite V by exact Hd'. rewrite (window_sum N l (fun i => w i / (if nleb (a := RA) W 0 then 1 else W) * class_out (state_at h i) x d) Hl).
      apply Rsum_ext. intros i Hi. destruct (in_window N l i) eqn:IW; [|reflexivity]. destruct (nleb (a := RA) W 0) eqn:C; [|reflexivity]. apply nleb_RA_true in C.
      assert (Z : w i = 0).
      { pose proof (Rsum_term_le N (fun i => if in_window N l i then w i else 0) i) as T. cbv beta in T. rewrite IW in T. assert (w i <= W); [|specialize (Hp i Hi); lra].
        apply T; [|exact Hi]. intros j Hj. destruct (in_window N l j); [apply Hp, Hj|lra]. }
      rewrite Z. unfold Rdiv. rewrite !Rmult_0_l. reflexivity.
  - rewrite El. rewrite (rd_nth (h_states (hc_net h)) l no_state) by (fold ss0; change (num RA) with R in *; lia). rewrite bind_Ok.
    destruct (fire_ok h (state_at h l) x (U l Hl) HB Lx) as (g' & EF & KK & LO & LC & VO).
    exists (upd ss0 l g'), (gc_out g'), (repeat 0 (csize (hp_mode (hc_par h)) no)). split; [eapply bind_eq; [exact EF|]; rewrite wr_ok by (fold ss0; change (num RA) with R in *; lia); reflexivity|].
    split. { apply KF; [rewrite upd_length; exact Ls|]. intros i Hi. destruct (Nat.eq_dec i l) as [->|Ne]; [rewrite nth_upd_eq by (change (num RA) with R in *; lia); exact KK|rewrite nth_upd_neq by lia; apply K0; exact Hi]. }
    split; [exact LO|]. split; [apply repeat_length|]. exact VO.
Qed.
