(** The output covariances of mixtures and of hidden Markov models. *)
From Coq Require Import String List Bool Arith ZArith QArith Qreals Reals Lra Lia.
From Verif Require Import Base Arith BaseFacts RFacts Model_Ring Model_Phrase Model_Gaussian Model_Config Model_GMM Model_HMM
  Proofs_GMM Proofs_Gaussian Proofs_Gaussian2 Proofs_Gaussian3 Proofs_KMeans Proofs_Ring  Proofs_Ring Proofs_Gaussian Proofs_KMeans Proofs_GMM Proofs_GMM3 Spec_Common Spec_Matrix Spec_Gaussian Spec_GMM Spec_HMM Spec_OCov Proofs_HMM Proofs_HMM2 Proofs_HMM3 Proofs_HMM4 Proofs_HMM5.
Import ListNotations.
Local Open Scope list_scope.
Local Open Scope R_scope.

Lemma regression_ocov : forall (g : gclass RA) (x : list R), gm_shape g -> Forall inverted (gc_comp g) -> gc_bim g = true -> length x = gc_din g ->
  (forall c, (c < gc_n g)%nat -> nth c (gc_beta g) 0 = posterior g x c) ->
  exists o v, gm_regression (A := RA) x g = Ok (gc_set_out (A := RA) o v g) /\ length o = (gc_dim g - gc_din g)%nat /\ length v = csize (gc_mode g) (gc_dim g - gc_din g) /\
    forall j, (j < csize (gc_mode g) (gc_dim g - gc_din g))%nat -> nth j v 0 = class_ocov g x j.
Proof.
  intros g x Hs Hi HB Lx Hp. pose proof Hs as (H1 & H2 & H3 & H4 & H5). set (no := (gc_dim g - gc_din g)%nat). change (num RA) with R in *.
  assert (Hle : (gc_din g <= gc_dim g)%nat).
  { destruct (comp_fits g Hs 0%nat ltac:(lia)) as ((_ & _ & _ & W4) & FB & FD & FI & FM). rewrite FB in W4. destruct (W4 HB). lia. }
  unfold gm_regression. unfold usub. destruct (Nat.leb_spec (gc_din g) (gc_dim g)); [|lia]. cbn [bind]. fold no. rewrite n0_RA.
  match goal with |- context [iterM (gc_n g) ?F ?s0] =>
    destruct (iterM_inv (fun c (s : list R * list R) => length (fst s) = no /\ length (snd s) = csize (gc_mode g) no /\
      forall j, (j < csize (gc_mode g) no)%nat -> nth j (snd s) 0 = Rsum c (fun c => posterior g x c * posterior g x c * nth j (g_out (comp_at g c)) 0)) (gc_n g) F s0) as ((o, v) & E & L1 & L2 & V) end.
  - cbn [fst snd]. split; [apply repeat_length|]. split; [destruct (gc_mode g); apply repeat_length|]. intros j Hj. cbn [Rsum]. apply nth_repeat.
  - intros c (o, v) Hc (L1 & L2 & V). cbn [fst snd] in *. destruct (comp_fits g Hs c Hc) as (W & FB & FD & FI & FM). pose proof (comp_inv g Hs Hi c Hc) as I.
    rewrite HB in FB. pose proof I as (_ & _ & _ & I2). destruct (I2 FB) as (IV & _ & _ & LO & _).
    rewrite (rd_comp g Hs c Hc). cbn [bind].
    rewrite (regression_R (comp_at g c) x (ginv_in (comp_at g c)) W I FB); [|change (num RA) with R in *; lia|exact IV]. cbn [bind].
    rewrite (rd_nth (X := num RA) (gc_beta g) c 0) by (change (num RA) with R in *; lia). cbn [bind]. rewrite FD, FI in LO |- *. fold no in LO |- *. rewrite FM in LO. rewrite FM || idtac.
    destruct (mix_step (gc_mode g) no (nth c (gc_beta g) 0) (nth c (gc_beta g) 0 * nth c (gc_beta g) 0) (tab no (cond_mean (comp_at g c) (ginv_in (comp_at g c)) (fun i => nth i x 0))) (g_out (comp_at g c)) o v)
      as (o' & v' & E & L1' & L2' & _ & V2).
    { rewrite tab_length. apply le_n. }
    { change (num RA) with R in *. rewrite LO. apply le_n. }
    { exact L1. }
    { exact L2. }
    exists (o', v'). split; [exact E|]. cbn [fst snd]. split; [exact L1'|]. split; [exact L2'|]. intros j Hj. rewrite V2 by exact Hj. rewrite V by exact Hj. rewrite Hp by exact Hc. reflexivity.
  - exists o, v. split; [eapply bind_eq; [exact E|reflexivity]|]. cbn [fst snd] in *. split; [exact L1|]. split; [exact L2|]. exact V.
Qed.

Lemma fire_ocov : forall h g (x : list R), state_usable h g -> hc_bim h = true -> length x = hc_din h ->
  exists g', (let* g := gm_likelihood (A := RA) x [] g in gm_regression (A := RA) x g) = Ok g' /\ state_kept g g' /\
    length (gc_out g') = (hc_dim h - hc_din h)%nat /\ length (gc_ocov g') = csize (hp_mode (hc_par h)) (hc_dim h - hc_din h) /\
    forall j, (j < csize (hp_mode (hc_par h)) (hc_dim h - hc_din h))%nat -> nth j (gc_ocov g') 0 = class_ocov g x j.
Proof.
  intros h g x (Rg & U1 & U2 & U3 & U4 & U5 & (L & vs & HL & HW)) HB Lx.
  assert (Lx' : length x = obs_dim g) by (unfold obs_dim; rewrite U1, HB, U3; exact Lx).
  destruct (likelihood_ok g x L vs Rg HL Lx' HW) as (b & buf & E & LB & VB & WB).
  set (g1 := gc_set_buf (A := RA) buf (mix_lik g x) (window_mean L (vs ++ [ln (mix_lik g x)])) (gc_set_beta (A := RA) b g)) in *.
  pose proof Rg as (Hs & Hi & D). pose proof Hs as (H1 & H2 & H3 & H4 & H5).
  assert (Hs1 : gm_shape g1). { unfold gm_shape. change (gc_n g1) with (gc_n g). repeat (split; [assumption|]). exact H5. }
  destruct (regression_ocov g1 x Hs1) as (o & v & E2 & L1 & L2 & V).
  { exact Hi. }
  { change (gc_bim g1) with (gc_bim g). congruence. }
  { change (gc_din g1) with (gc_din g). congruence. }
  { intros c Hc. change (gc_beta g1) with b. exact (VB c Hc). }
  exists (gc_set_out (A := RA) o v g1). split; [rewrite E; cbn [bind]; exact E2|].
  split. { unfold state_kept. repeat (split; [try reflexivity|]); [exact (eq_trans LB (eq_sym H4))|]. exists L, (vs ++ [ln (mix_lik g x)]). split; [exact HL|exact WB]. }
  change (gc_dim g1) with (gc_dim g) in *. change (gc_din g1) with (gc_din g) in *. change (gc_mode g1) with (gc_mode g) in *. rewrite U2, U3 in L1, L2, V. rewrite U5 in L2, V.
  split; [exact L1|]. split; [exact L2|]. intros j Hj. change (gc_ocov (gc_set_out (A := RA) o v g1)) with v. rewrite V by exact Hj. reflexivity.
Qed.

Lemma kept_ocov : forall g g' x j, state_kept g g' -> class_ocov g' x j = class_ocov g x j.
Proof.
  intros g g' x j (K1 & K2 & K3 & K4 & K5 & K6 & K7 & K8 & K9). unfold class_ocov, posterior, mix_lik, weight, comp_at, gc_n. rewrite K4, K5, K6. reflexivity.
Qed.

Lemma mix_step_cov : forall mode no (w nc : R) (y yc o v : list R), (no <= length y)%nat -> (csize mode no <= length yc)%nat -> length o = no -> length v = csize mode no ->
  exists o' v', iterM no (fun d (s : list R * list R) => let '(o, v) := s in
      let* a := rd o d in let* yd := rd y d in let* o := wr o d (a + w * yd / nc) in
      let* v := match mode with
        | Full => iterM no (fun d2 v => let* a := rd v (d * no + d2) in let* c := rd yc (d * no + d2) in wr v (d * no + d2) (a + w * w * c / nc)) v
        | Diagonal => let* a := rd v d in let* c := rd yc d in wr v d (a + w * w * c / nc) end in
      Ok (o, v)) (o, v) = Ok (o', v') /\ length o' = no /\ length v' = csize mode no /\
    (forall j, (j < csize mode no)%nat -> nth j v' 0 = nth j v 0 + w * w / nc * nth j yc 0).
Proof.
  intros mode no w nc y yc o v H1 H2 H3 H4. destruct (mix_step mode no (w / nc) (w * w / nc) y yc o v H1 H2 H3 H4) as (o' & v' & E & L1 & L2 & _ & V2).
  exists o', v'. split; [|split; [exact L1|split; [exact L2|exact V2]]]. rewrite <- E. apply iterM_ext. intros d (o1, v1) Hd.
  destruct (rd o1 d) as [a| |]; cbn [bind]; try reflexivity. destruct (rd y d) as [yd| |]; cbn [bind]; try reflexivity.
  replace (a + w * yd / nc) with (a + w / nc * yd) by (unfold Rdiv; ring). destruct (wr o1 d (a + w / nc * yd)) as [o2| |]; cbn [bind]; try reflexivity.
  f_equal. destruct mode.
  - apply iterM_ext. intros d2 v2 Hd2. destruct (rd v2 (d * no + d2)) as [p| |]; cbn [bind]; try reflexivity. destruct (rd yc (d * no + d2)) as [q| |]; cbn [bind]; try reflexivity.
    f_equal. unfold Rdiv; ring.
  - destruct (rd v1 d) as [p| |]; cbn [bind]; try reflexivity. destruct (rd yc d) as [q| |]; cbn [bind]; try reflexivity. f_equal. unfold Rdiv; ring.
Qed.

Lemma hregression_ocov : forall (h : hclass RA) (w : nat -> R) l (x : list R), (l < hc_n h)%nat -> (forall i, (i < hc_n h)%nat -> hm_weight h i = Ok (w i)) -> (forall i, (i < hc_n h)%nat -> 0 <= w i) ->
  length (h_states (hc_net h)) = hc_n h -> Forall (state_usable h) (h_states (hc_net h)) -> hc_bim h = true -> (hc_din h <= hc_dim h)%nat -> length x = hc_din h ->
  h_like (hc_run h) = l -> h_wmin (hc_run h) = (l - hc_n h / 2)%nat -> h_wmax (hc_run h) = Nat.min (l + hc_n h / 2) (hc_n h) -> h_wnorm (hc_run h) = window_mass (hc_n h) l w ->
  exists ss o v, hm_regression (A := RA) x h = Ok (hc_set_run (rn_out (A := RA) o v (hc_run h)) (hc_set_net (nt_states (A := RA) ss (hc_net h)) h)) /\
    Forall2 state_kept (h_states (hc_net h)) ss /\ length o = (hc_dim h - hc_din h)%nat /\ length v = csize (hp_mode (hc_par h)) (hc_dim h - hc_din h) /\
    forall j, (j < csize (hp_mode (hc_par h)) (hc_dim h - hc_din h))%nat -> nth j v 0 =
      match hp_est (hc_par h) with
      | RFull => Rsum (hc_n h) (fun i => w i * w i * class_ocov (state_at h i) x j)
      | RWindowed => Rsum (hc_n h) (fun i => if in_window (hc_n h) l i then w i * w i / window_mass (hc_n h) l w * class_ocov (state_at h i) x j else 0)
      | RLikeliest => 0
      end.
Proof.
  intros h w l x Hl Hw Hp Ls Fs HB Hd Lx El E1 E2 E3. set (N := hc_n h) in *. set (no := (hc_dim h - hc_din h)%nat). set (ss0 := h_states (hc_net h)) in *.
  assert (U : forall i, (i < N)%nat -> state_usable h (state_at h i)).
  { intros i Hi. rewrite Forall_forall in Fs. apply Fs. unfold state_at. apply nth_In. change (num RA) with R in *. fold ss0. lia. }
  assert (K0 : forall i, (i < N)%nat -> state_kept (state_at h i) (state_at h i)) by (intros i Hi; apply kept_refl; apply (U i Hi)).
  assert (KF : forall ss, length ss = N -> (forall i, (i < N)%nat -> state_kept (state_at h i) (nth i ss no_state)) -> Forall2 state_kept ss0 ss).
  { intros ss L H. apply (Forall2_nth _ _ _ no_state no_state); [congruence|]. intros i Hi. apply H. change (num RA) with R in *. lia. }
  assert (Loop : forall lo hi nc, (lo <= hi)%nat -> (hi <= N)%nat -> exists ss o v,
    iterM (hi - lo) (fun k s => let '(ss, o, v) := s in
          let* g := rd ss (lo + k)%nat in
          let* g := (let* g := gm_likelihood (A := RA) x [] g in gm_regression (A := RA) x g) in
          let* ss := wr ss (lo + k)%nat g in
          let* w := hm_weight h (lo + k) in
          let* (o, v) := iterM no (fun d (s : list R * list R) => let '(o, v) := s in
            let* a := rd o d in let* y := rd (gc_out g) d in let* o := wr o d (a + w * y / nc) in
            let* v := match hp_mode (hc_par h) with
              | Full => iterM no (fun d2 v => let* a := rd v (d * no + d2)%nat in let* c := rd (gc_ocov g) (d * no + d2)%nat in wr v (d * no + d2)%nat (a + w * w * c / nc)) v
              | Diagonal => let* a := rd v d in let* c := rd (gc_ocov g) d in wr v d (a + w * w * c / nc)
              end in
            Ok (o, v)) (o, v) in
          Ok (ss, o, v)) (ss0, repeat 0 no, repeat 0 (csize (hp_mode (hc_par h)) no)) = Ok (ss, o, v) /\
    Forall2 state_kept ss0 ss /\ length o = no /\ length v = csize (hp_mode (hc_par h)) no /\
    forall j, (j < csize (hp_mode (hc_par h)) no)%nat -> nth j v 0 = Rsum (hi - lo) (fun k => w (lo + k)%nat * w (lo + k)%nat / nc * class_ocov (state_at h (lo + k)) x j)).
  { intros lo hi nc H1 H2.
    match goal with |- exists ss o v, iterM _ ?F ?s0 = _ /\ _ => destruct (iterM_inv (fun k (s : list (gclass RA) * list R * list R) => let '(ss, o, v) := s in
      length ss = N /\ (forall i, (i < N)%nat -> state_kept (state_at h i) (nth i ss no_state)) /\ (forall i, (lo + k <= i)%nat -> nth i ss no_state = state_at h i) /\
      length o = no /\ length v = csize (hp_mode (hc_par h)) no /\
      forall j, (j < csize (hp_mode (hc_par h)) no)%nat -> nth j v 0 = Rsum k (fun k => w (lo + k)%nat * w (lo + k)%nat / nc * class_ocov (state_at h (lo + k)) x j)) (hi - lo) F s0) as (((ss & o) & v) & E & I1 & I2 & _ & I4 & I5 & I6) end.
    - split; [exact Ls|]. split; [exact K0|]. split; [reflexivity|]. split; [apply repeat_length|]. split; [apply repeat_length|]. intros d Hd'. cbn [Rsum]. apply nth_repeat.
    - intros k ((ss & o) & v) Hk (I1 & I2 & I3 & I4 & I5 & I6). rewrite (rd_nth ss (lo + k) no_state) by lia. rewrite (I3 (lo + k)%nat) by lia. rewrite bind_Ok.
      destruct (fire_ocov h (state_at h (lo + k)) x (U (lo + k)%nat ltac:(lia)) HB Lx) as (g' & EF & KK & LO & LC & VO).
      destruct (mix_step_cov (hp_mode (hc_par h)) no (w (lo + k)%nat) nc (gc_out g') (gc_ocov g') o v) as (o' & v' & EM & LO' & LV' & VO'); [fold no in LO; change (num RA) with R in *; lia|fold no in LC; change (num RA) with R in *; lia|exact I4|exact I5|].
      exists (upd ss (lo + k) g', o', v'). split.
      + eapply bind_eq; [exact EF|]. rewrite wr_ok by lia. rewrite bind_Ok. rewrite Hw by lia. rewrite bind_Ok. eapply bind_eq; [exact EM|]. reflexivity.
      + split; [rewrite upd_length; exact I1|]. split.
        { intros i Hi. destruct (Nat.eq_dec i (lo + k)) as [->|Ne]; [rewrite nth_upd_eq by lia; exact KK|rewrite nth_upd_neq by lia; apply I2; exact Hi]. }
        split; [intros i Hi; rewrite nth_upd_neq by lia; apply I3; lia|]. split; [exact LO'|]. split; [exact LV'|].
        intros d Hd'. rewrite VO' by exact Hd'. rewrite I6, VO by exact Hd'. reflexivity.
    - exists ss, o, v. split; [exact E|]. split; [apply KF; assumption|]. split; [exact I4|]. split; [exact I5|]. exact I6. }
  unfold hm_regression. unfold usub. rewrite (proj2 (Nat.leb_le _ _) Hd). rewrite bind_Ok. fold no.
  cbv zeta. rewrite ?n0_RA, ?n1_RA. change (num RA) with R.
  change (match hp_mode (hc_par h) with Full => (no * no)%nat | Diagonal => no end) with (csize (hp_mode (hc_par h)) no). cbv zeta.
  destruct (hp_est (hc_par h)).
  - destruct (Loop 0%nat N 1 ltac:(lia) ltac:(lia)) as (ss & o & v & E & K & L1 & L2 & V). exists ss, o, v.
    split; [|split; [exact K|split; [exact L1|split; [exact L2|intros d Hd'; rewrite V by exact Hd'; rewrite Nat.sub_0_r; apply Rsum_ext; intros i Hi; cbn [Nat.add]; unfold Rdiv; rewrite Rinv_1, Rmult_1_r; reflexivity]]]].
    destruct (nleb (a := RA) 1 0) eqn:C; [apply nleb_RA_true in C; lra|]. eapply bind_eq; [exact E|]. reflexivity.
  - rewrite E1, E2, E3. fold N. set (W := window_mass N l w).
    destruct (Loop (l - N / 2)%nat (Nat.min (l + N / 2) N) (if nleb (a := RA) W 0 then 1 else W) ltac:(lia) ltac:(lia)) as (ss & o & v & E & K & L1 & L2 & V). exists ss, o, v.
    split; [|split; [exact K|split; [exact L1|split; [exact L2|]]]].
    + eapply bind_eq; [exact E|]. reflexivity.
    + intros d Hd'. rewrite V by exact Hd'. rewrite (window_sum N l (fun i => w i * w i / (if nleb (a := RA) W 0 then 1 else W) * class_ocov (state_at h i) x d) Hl).
      apply Rsum_ext. intros i Hi. destruct (in_window N l i) eqn:IW; [|reflexivity]. destruct (nleb (a := RA) W 0) eqn:C; [|reflexivity]. apply nleb_RA_true in C.
      assert (Z : w i = 0).
      { pose proof (Rsum_term_le N (fun i => if in_window N l i then w i else 0) i) as T. cbv beta in T. rewrite IW in T. assert (w i <= W); [|specialize (Hp i Hi); lra].
        apply T; [|exact Hi]. intros j Hj. destruct (in_window N l j); [apply Hp, Hj|lra]. }
      rewrite Z. unfold Rdiv. rewrite !Rmult_0_l. reflexivity.
  - rewrite El. rewrite (rd_nth (h_states (hc_net h)) l no_state) by (fold ss0; change (num RA) with R in *; lia). rewrite bind_Ok.
    destruct (fire_ocov h (state_at h l) x (U l Hl) HB Lx) as (g' & EF & KK & LO & LC & VO).
    exists (upd ss0 l g'), (gc_out g'), (repeat 0 (csize (hp_mode (hc_par h)) no)). split; [eapply bind_eq; [exact EF|]; rewrite wr_ok by (fold ss0; change (num RA) with R in *; lia); reflexivity|].
    split. { apply KF; [rewrite upd_length; exact Ls|]. intros i Hi. destruct (Nat.eq_dec i l) as [->|Ne]; [rewrite nth_upd_eq by (change (num RA) with R in *; lia); exact KK|rewrite nth_upd_neq by lia; apply K0; exact Hi]. }
    split; [exact LO|]. split; [apply repeat_length|]. intros j Hj. apply nth_repeat.
Qed.

Section Step.
  Variable h : hclass RA.
  Hypothesis HU : hmm_usable h.
  Local Notation N := (hc_n h).
  Local Notation hmm_at := (hmm_at h).

  Lemma step_ocov : forall xs vs h' x, hc_hier h = false -> hmm_at xs vs h' -> length x = hmm_obs_dim h ->
    hc_bim h = true -> exists h'' l, hm_filter (A := RA) x h' = Ok h'' /\ h_like (hc_run h'') = l /\ first_max N (hmm_filtering h (xs ++ [x])) l /\
      length (h_ocov (hc_run h'')) = csize (hp_mode (hc_par h)) (hc_dim h - hc_din h) /\ forall j, (j < csize (hp_mode (hc_par h)) (hc_dim h - hc_din h))%nat -> nth j (h_ocov (hc_run h'')) 0 = let w := hmm_filtering h (xs ++ [x]) in
      match hp_est (hc_par h) with
      | RFull => Rsum N (fun i => w i * w i * class_ocov (state_at h i) x j)
      | RWindowed => Rsum N (fun i => if in_window N l i then w i * w i / window_mass N l w * class_ocov (state_at h i) x j else 0)
      | RLikeliest => 0
      end.
  Proof.
    intros xs vs h' x Hh (S & M) Lx HB. destruct (step_forward h HU xs vs h' x Hh (conj S M) Lx) as (al & buf & E1 & W1 & L1 & V1). destruct (same_n h h' S) as (EN & EM).
    set (h1 := hc_set_run (rn_inst (A := RA) (hmm_inst h (xs ++ [x])) (rn_started true (rn_buf (A := RA) buf (rn_alpha (A := RA) al (hc_run h'))))) h') in *.
    assert (S1 : hmm_same h h1) by exact S. pose proof S as (F1 & F2 & F3 & F4 & F5 & F6 & F7 & F8 & F9 & F10). set (w := hmm_filtering h (xs ++ [x])) in *.
    assert (D : distribution N w) by (apply (filtering_dist h HU); destruct xs; discriminate).
    assert (Hw1 : forall i, (i < N)%nat -> hm_weight h1 i = Ok (w i)).
    { intros i Hi. unfold hm_weight. change (hc_hier h1) with (hc_hier h'). rewrite F6, Hh. change (h_alpha (hc_run h1)) with al. change (num RA) with R in *. rewrite (rd_nth (X := R) al i 0) by lia. rewrite V1 by exact Hi. reflexivity. }
    change (hc_n h') with (hc_n h1) in EN. pose proof HU as (U1 & U2 & U3 & U4 & U5 & U6). fold N in U1.
    destruct (window_ok h1 w) as (l & FM & E2); [rewrite EN; exact U1|rewrite EN; exact Hw1|]. rewrite EN in FM. rewrite EN in E2.
    set (h2 := hc_set_run (rn_window (A := RA) l (l - N / 2) (Nat.min (l + N / 2) N) (window_mass N l w) (hc_run h1)) h1) in *.
    assert (Hl : (l < N)%nat) by apply FM. assert (EN2 : hc_n h2 = N) by exact EN.
    destruct (results_ok h2 w (fun _ => 0) l (hc_win h) vs) as (buf' & E3 & W3).
    { rewrite EN2; exact Hl. } { exact U6. } { rewrite EN2. exact Hw1. } { intros C. change (hc_hier h2) with (hc_hier h') in C. rewrite F6, Hh in C. discriminate. }
    { rewrite EN2. reflexivity. } { rewrite EN2. reflexivity. } { exact W1. }
    change (h_inst (hc_run h2)) with (hmm_inst h (xs ++ [x])) in *. change (hc_hier h2) with (hc_hier h') in E3. rewrite F6, Hh, EN2 in E3. change (h_wnorm (hc_run h2)) with (window_mass N l w) in E3.
    fold (mean_position N l w) in E3.
    set (h3 := hc_set_run (rn_log (A := RA) (window_mean (hc_win h) (vs ++ [ln (hmm_inst h (xs ++ [x]))])) (mean_position N l w) (rn_buf (A := RA) buf' (hc_run h2))) h2) in *.
    unfold hm_filter. rewrite E1, bind_Ok, E2, bind_Ok, E3, bind_Ok. change (hc_bim h3) with (hc_bim h'). rewrite F1.
    assert (EN3 : hc_n h3 = N) by exact EN.
    rewrite HB. destruct (hregression_ocov h3 w l x) as (ss & o & v & E4 & K & LO & LV & VO).
      { rewrite EN3. exact Hl. } { rewrite EN3. exact Hw1. } { rewrite EN3. apply D. } { change (hc_n h3) with (hc_n h1). rewrite EN. exact (same_len h HU h' S). }
      { apply Forall_nth. intros i d Hi. rewrite (nth_indep _ d no_state Hi). change (h_states (hc_net h3)) with (h_states (hc_net h')) in *. change (nth i (h_states (hc_net h')) no_state) with (state_at h' i).
        rewrite (same_len h HU h' S) in Hi. destruct (same_state h HU h' S i Hi) as (_ & Q). unfold state_usable in *. change (hc_bim h3) with (hc_bim h'). change (hc_dim h3) with (hc_dim h'). change (hc_din h3) with (hc_din h'). change (hc_par h3) with (hc_par h'). rewrite F1, F2, F3, F5. exact Q. }
      { change (hc_bim h3) with (hc_bim h'). congruence. }
      { change (hc_din h3) with (hc_din h'). change (hc_dim h3) with (hc_dim h'). rewrite F2, F3. destruct (usable_state h HU 0%nat ltac:(lia)) as ((Hs & _) & B1 & B2 & B3 & _).
        pose proof Hs as (G1 & _). destruct (comp_fits _ Hs 0%nat ltac:(lia)) as ((_ & _ & _ & W4) & FB & FD & FI & _). rewrite FB, B1, HB in W4. destruct (W4 eq_refl). lia. }
      { change (hc_din h3) with (hc_din h'). rewrite F3. unfold hmm_obs_dim in Lx. rewrite HB in Lx. exact Lx. }
      { reflexivity. } { rewrite EN3. reflexivity. } { rewrite EN3. reflexivity. } { rewrite EN3. reflexivity. }
      eexists. exists l. split; [exact E4|]. split; [reflexivity|]. split; [exact FM|]. change (hc_dim h3) with (hc_dim h') in *. change (hc_din h3) with (hc_din h') in *. change (hc_par h3) with (hc_par h') in *.
      rewrite F2, F3 in *. rewrite F5 in *. split; [exact LV|]. intros j Hj. change (nth j v 0 = let w := w in match hp_est (hc_par h) with
      | RFull => Rsum N (fun i => w i * w i * class_ocov (state_at h i) x j)
      | RWindowed => Rsum N (fun i => if in_window N l i then w i * w i / window_mass N l w * class_ocov (state_at h i) x j else 0)
      | RLikeliest => 0
      end). cbv zeta. rewrite VO by exact Hj. rewrite EN3.
      assert (CO : forall i, (i < N)%nat -> class_ocov (state_at h3 i) x j = class_ocov (state_at h i) x j).
      { intros i Hi. destruct (same_state h HU h' S i Hi) as (Q & _). exact (kept_ocov _ _ x j Q). }
      destruct (hp_est (hc_par h)); [apply Rsum_ext; intros i Hi; rewrite CO by exact Hi; reflexivity|apply Rsum_ext; intros i Hi; rewrite CO by exact Hi; reflexivity|reflexivity].
  Qed.
End Step.

Lemma filters_ocov : forall h, hmm_usable h -> hmm_fresh h -> hc_bim h = true -> forall xs x, Forall (fun x => length x = hmm_obs_dim h) (xs ++ [x]) ->
  exists h', hm_filters (A := RA) (xs ++ [x]) h = Ok h' /\ first_max (hc_n h) (hmm_filtering h (xs ++ [x])) (h_like (hc_run h')) /\
    length (h_ocov (hc_run h')) = csize (hp_mode (hc_par h)) (hc_dim h - hc_din h) /\
    forall j, (j < csize (hp_mode (hc_par h)) (hc_dim h - hc_din h))%nat -> nth j (h_ocov (hc_run h')) 0 = let w := hmm_filtering h (xs ++ [x]) in
      match hp_est (hc_par h) with
      | RFull => Rsum (hc_n h) (fun i => w i * w i * class_ocov (state_at h i) x j)
      | RWindowed => Rsum (hc_n h) (fun i => if in_window (hc_n h) (h_like (hc_run h')) i then w i * w i / window_mass (hc_n h) (h_like (hc_run h')) w * class_ocov (state_at h i) x j else 0)
      | RLikeliest => 0
      end.
Proof.
  intros h U F HB xs x D. apply Forall_app in D. destruct D as (D & Dx). inversion Dx as [|? ? Lx _]; subst. destruct (filters_ok h U F xs D) as (h' & E & M).
  destruct (step_ocov h U xs (hmm_logs h xs) h' x (proj1 F) M Lx HB) as (h'' & l & E' & <- & R). exists h''. rewrite filters_snoc, E. split; [exact E'|]. exact R.
Qed.
