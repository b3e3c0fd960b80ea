(** Filtering with one class: the whole step and sequences of observations. *)
From Coq Require Import String List Bool Arith ZArith QArith Qreals Reals Lra Lia.
From Verif Require Import Base Arith BaseFacts RFacts Model_Ring Model_Phrase Model_Gaussian Model_Config Model_GMM Model_HMM
  Proofs_Ring Proofs_Gaussian Proofs_KMeans Proofs_GMM Proofs_GMM3 Spec_Common Spec_Matrix Spec_Gaussian Spec_GMM Spec_HMM Proofs_HMM Proofs_HMM2 Proofs_HMM3 Proofs_HMM4.
Import ListNotations.
Local Open Scope list_scope.
Local Open Scope R_scope.

Lemma trans_at_ge : forall N mode tr i j, (forall q, 0 <= nth q tr 0) -> 0 <= trans_at N mode tr i j.
Proof. intros N mode tr i j H. unfold trans_at. destruct mode; [apply H|]. pose proof (H (2 * i)%nat). pose proof (H (2 * i + 1)%nat). destruct (j =? i)%nat, (j =? S i mod N)%nat; lra. Qed.

Lemma prior_distribution : forall N mode pr, (1 <= N)%nat -> (mode = Ergodic -> length pr = N /\ distribution N (fun i => nth i pr 0)) -> distribution N (prior_at mode pr).
Proof.
  intros N mode pr HN H. destruct mode; [exact (proj2 (H eq_refl))|]. split; cbn [prior_at].
  - intros i Hi. destruct (i =? 0)%nat; lra.
  - rewrite (Rsum_single N 0); [reflexivity|lia|intros i Hi Ne; unfold prior_at; destruct (Nat.eqb_spec i 0); [contradiction|reflexivity]].
Qed.

Lemma Forall2_len : forall X Y (P : X -> Y -> Prop) l m, Forall2 P l m -> length l = length m.
Proof. induction 1; cbn; congruence. Qed.

Section Class.
  Variable h : hclass RA.
  Hypothesis HU : hmm_usable h.
  Let N := hc_n h.
  Let pi := hc_prior h.
  Let a := hc_trans h.
  Let lik x i := mix_lik (state_at h i) x.
  Let good b := forall j, (j < N)%nat -> min_likelihood <= b j.

  Lemma usable_pi : distribution N pi.
  Proof. destruct HU as (H1 & H2 & H3 & H4 & H5 & H6). apply prior_distribution; assumption. Qed.
  Lemma usable_a : forall i j, (i < N)%nat -> (j < N)%nat -> 0 <= a i j.
  Proof. destruct HU as (H1 & H2 & H3 & (_ & H4 & _) & H5 & H6). intros. apply trans_at_ge. exact H4. Qed.
  Lemma usable_r : forall i, (i < N)%nat -> min_row <= Rsum N (a i).
  Proof. destruct HU as (H1 & H2 & H3 & (_ & _ & H4) & H5 & H6). exact H4. Qed.
  Lemma usable_state : forall i, (i < N)%nat -> state_usable h (state_at h i).
  Proof. destruct HU as (H1 & H2 & H3 & _). intros i Hi. rewrite Forall_forall in H3. apply H3. apply nth_In. change (num RA) with R in *. rewrite H2. exact Hi. Qed.
  Lemma usable_lik : forall x, good (lik x).
  Proof. intros x j Hj. apply mix_lik_ge. apply (usable_state j Hj). Qed.
  Lemma usable_liks : forall xs, Forall good (hmm_liks h xs).
  Proof. intros xs. apply Forall_forall. intros b Hb. unfold hmm_liks in Hb. apply in_map_iff in Hb. destruct Hb as (x & <- & _). apply usable_lik. Qed.

  Lemma same_state : forall h', hmm_same h h' -> forall i, (i < N)%nat -> state_kept (state_at h i) (state_at h' i) /\ state_usable h (state_at h' i).
  Proof.
    intros h' (_ & _ & _ & _ & _ & _ & _ & _ & _ & F) i Hi. pose proof HU as (_ & H2 & _). change (num RA) with R in *.
    assert (K : state_kept (state_at h i) (state_at h' i)). { apply (Forall2_at _ _ _ F i no_state no_state). change (num RA) with R in *. rewrite H2. exact Hi. }
    split; [exact K|]. exact (kept_usable h _ _ (usable_state i Hi) K).
  Qed.
  Lemma same_len : forall h', hmm_same h h' -> length (h_states (hc_net h')) = N.
  Proof. intros h' (_ & _ & _ & _ & _ & _ & _ & _ & _ & F). pose proof HU as (_ & H2 & _). apply Forall2_len in F. change (num RA) with R in *. unfold N. lia. Qed.
  Lemma same_n : forall h', hmm_same h h' -> hc_n h' = N /\ hc_mode h' = hc_mode h.
  Proof. intros h' (_ & _ & _ & _ & E & _). unfold hc_n, hc_mode, N, hc_n. rewrite E. split; reflexivity. Qed.

  Lemma obs_at : forall h' x i, hmm_same h h' -> (i < N)%nat -> length x = hmm_obs_dim h -> hm_obs h' x i = Ok (lik x i).
  Proof.
    intros h' x i S Hi Lx. pose proof (same_len h' S) as L. destruct (same_state h' S i Hi) as (K & ((Hs & Hv & D) & U1 & U2 & U3 & _)).
    destruct S as (E1 & E2 & E3 & _). change (num RA) with R in *. unfold hm_obs. rewrite (rd_nth (h_states (hc_net h')) i no_state) by lia. rewrite bind_Ok. fold (state_at h' i). rewrite E1.
    unfold lik. destruct (kept_same _ _ x K) as (<- & _). unfold mix_lik. replace (Rsum _ _) with (0 + Rsum (gc_n (state_at h' i)) (fun c => weight (state_at h' i) c * obs_lik (comp_at (state_at h' i) c) x)) by ring.
    unfold gm_obs_all, gm_obs_input_all. rewrite n0_RA.
    assert (O : forall c, (c < gc_n (state_at h' i))%nat -> (if hc_bim h then gm_obs_input (state_at h' i) x c else gm_obs (state_at h' i) x c) = Ok (weight (state_at h' i) c * obs_lik (comp_at (state_at h' i) c) x)).
    { rewrite <- U1. intros c Hc. apply obs_ok; try assumption. unfold obs_dim. rewrite U1, U2, U3. exact Lx. }
    destruct (hc_bim h); apply accM_ok; exact O.
  Qed.

  (** The class after the observations [xs]; its buffer has received [vs]. *)
  Definition hmm_at (xs : list (list R)) (vs : list R) (h' : hclass RA) : Prop :=
    hmm_same h h' /\
    match xs with
    | [] => vs = [] /\ h_started (hc_run h') = false /\ ring_wf 1 (h_buf (hc_run h')) /\ r_length (h_buf (hc_run h')) = hc_win h /\ (hc_mode h = Ergodic -> length (h_alpha (hc_run h')) = N)
    | _ => h_started (hc_run h') = true /\ length (h_alpha (hc_run h')) = N /\ (forall i, (i < N)%nat -> nth i (h_alpha (hc_run h')) 0 = hmm_filtering h xs i) /\ window_of (hc_win h) vs (h_buf (hc_run h'))
    end.

  Lemma at_some : forall xs (P Q : Prop), xs <> [] -> Q -> match xs : list (list R) with [] => P | _ => Q end.
  Proof. intros [|] P Q H H'; [contradiction|exact H']. Qed.

  Lemma step_forward : forall xs vs h' x, hc_hier h = false -> hmm_at xs vs h' -> length x = hmm_obs_dim h ->
    exists al buf, hm_forward (A := RA) x h' = Ok (hc_set_run (rn_inst (A := RA) (hmm_inst h (xs ++ [x])) (rn_started true (rn_buf (A := RA) buf (rn_alpha (A := RA) al (hc_run h'))))) h') /\
      window_of (hc_win h) vs buf /\ length al = N /\ (forall i, (i < N)%nat -> nth i al 0 = hmm_filtering h (xs ++ [x]) i).
  Proof.
    intros xs vs h' x Hh (S & M) Lx. destruct (same_n h' S) as (EN & EM). pose proof HU as (U1 & U2 & U3 & (U4 & _) & U5 & U6).
    pose proof S as (_ & _ & _ & _ & _ & _ & Ep & Et & _). unfold hm_forward. rewrite EN, EM, Ep, Et. fold N in U1.
    destruct xs as [|x0 xs].
    - destruct M as (-> & M1 & M2 & M3 & M4). rewrite M1.
      destruct (forward_first N pi a U1 usable_pi (hc_mode h) (h_prior (hc_net h)) (h_alpha (hc_run h')) (hm_obs h' x) (lik x)) as (al & E & L & V).
      { reflexivity. } { apply usable_lik. } { intros j Hj. apply obs_at; assumption. } { intros He. split; [apply M4; exact He|apply U5; exact He]. }
      exists al, (ring_clear (h_buf (hc_run h'))). split; [|split; [|split; [exact L|exact V]]].
      + eapply bind_eq; [exact E|]. cbv beta iota. apply f_equal. f_equal. f_equal. rewrite n1_RA. cbn [ndiv RA]. unfold Rdiv. rewrite !Rmult_1_l. apply Rinv_inv.
      + exists (h_buf (hc_run h')). split; [exact M2|]. split; [exact M3|]. reflexivity.
    - destruct M as (M1 & M2 & M3 & M4). rewrite M1.
      destruct (forward_next N pi a U1 usable_pi usable_a usable_r (hc_mode h) (h_trans (hc_net h)) (h_alpha (hc_run h')) (hm_obs h' x) (hmm_liks h (x0 :: xs)) (lik x)) as (al & E & L & V).
      { discriminate. } { apply usable_liks. } { apply usable_lik. } { intros j Hj. apply obs_at; assumption. } { reflexivity. } { exact M2. } { exact U4. } { exact M3. }
      assert (EL : hmm_liks h ((x0 :: xs) ++ [x]) = hmm_liks h (x0 :: xs) ++ [lik x]) by (unfold hmm_liks; rewrite map_app; reflexivity).
      exists al, (h_buf (hc_run h')). split; [|split; [exact M4|split; [exact L|]]].
      + eapply bind_eq; [exact E|]. cbv beta iota. apply f_equal. f_equal. f_equal. unfold hmm_inst. rewrite EL. rewrite n1_RA. cbn [ndiv RA]. unfold Rdiv. rewrite !Rmult_1_l. apply Rinv_inv.
      + intros i Hi. unfold hmm_filtering. rewrite EL. apply V. exact Hi.
  Qed.

  Lemma filtering_dist : forall xs, xs <> [] -> distribution N (hmm_filtering h xs).
  Proof.
    intros xs Hx. apply (filtering_facts N pi a (proj1 HU) usable_pi usable_a usable_r (hmm_liks h xs)); [destruct xs; [contradiction|discriminate]|apply usable_liks].
  Qed.

  Lemma first_max_ext : forall n v w l, (forall i, (i < n)%nat -> v i = w i) -> first_max n v l -> first_max n w l.
  Proof. intros n v w l E (H1 & H2 & H3). split; [exact H1|]. split; intros i Hi; rewrite <- !E by lia; auto. Qed.
  Lemma window_mass_ext : forall n l v w, (forall i, (i < n)%nat -> v i = w i) -> window_mass n l v = window_mass n l w.
  Proof. intros n l v w E. apply Rsum_ext. intros i Hi. rewrite E by exact Hi. reflexivity. Qed.

  Lemma step_ok : forall xs vs h' x, hc_hier h = false -> hmm_at xs vs h' -> length x = hmm_obs_dim h ->
    exists h'', hm_filter (A := RA) x h' = Ok h'' /\ hmm_at (xs ++ [x]) (vs ++ [ln (hmm_inst h (xs ++ [x]))]) h'' /\
      h_inst (hc_run h'') = hmm_inst h (xs ++ [x]) /\ h_log (hc_run h'') = window_mean (hc_win h) (vs ++ [ln (hmm_inst h (xs ++ [x]))]) /\
      hmm_report h (hmm_filtering h (xs ++ [x])) x h''.
  Proof.
    intros xs vs h' x Hh (S & M) Lx. destruct (step_forward xs vs h' x Hh (conj S M) Lx) as (al & buf & E1 & W1 & L1 & V1). destruct (same_n h' S) as (EN & EM).
    set (h1 := hc_set_run (rn_inst (A := RA) (hmm_inst h (xs ++ [x])) (rn_started true (rn_buf (A := RA) buf (rn_alpha (A := RA) al (hc_run h'))))) h') in *.
    assert (S1 : hmm_same h h1) by exact S. pose proof S as (F1 & F2 & F3 & F4 & F5 & F6 & F7 & F8 & F9 & F10). set (w := hmm_filtering h (xs ++ [x])) in *.
    assert (D : distribution N w) by (apply filtering_dist; destruct xs; discriminate).
    assert (Hw1 : forall i, (i < N)%nat -> hm_weight h1 i = Ok (w i)).
    { intros i Hi. unfold hm_weight. change (hc_hier h1) with (hc_hier h'). rewrite F6, Hh. change (h_alpha (hc_run h1)) with al. change (num RA) with R in *. rewrite (rd_nth (X := R) al i 0) by lia. rewrite V1 by exact Hi. reflexivity. }
    change (hc_n h') with (hc_n h1) in EN. pose proof HU as (U1 & U2 & U3 & U4 & U5 & U6). fold N in U1.
    destruct (window_ok h1 w) as (l & FM & E2); [rewrite EN; exact U1|rewrite EN; exact Hw1|]. rewrite EN in FM. rewrite EN in E2.
    set (h2 := hc_set_run (rn_window (A := RA) l (l - N / 2) (Nat.min (l + N / 2) N) (window_mass N l w) (hc_run h1)) h1) in *.
    assert (Hl : (l < N)%nat) by apply FM. assert (EN2 : hc_n h2 = N) by exact EN.
    destruct (results_ok h2 w (fun _ => 0) l (hc_win h) vs) as (buf' & E3 & W3).
    { rewrite EN2; exact Hl. } { exact U6. } { rewrite EN2. exact Hw1. } { intros C. change (hc_hier h2) with (hc_hier h') in C. rewrite F6, Hh in C. discriminate. }
    { rewrite EN2. reflexivity. } { rewrite EN2. reflexivity. } { exact W1. }
    change (h_inst (hc_run h2)) with (hmm_inst h (xs ++ [x])) in *. change (hc_hier h2) with (hc_hier h') in E3. rewrite F6, Hh, EN2 in E3. change (h_wnorm (hc_run h2)) with (window_mass N l w) in E3.
    fold (mean_position N l w) in E3.
    set (h3 := hc_set_run (rn_log (A := RA) (window_mean (hc_win h) (vs ++ [ln (hmm_inst h (xs ++ [x]))])) (mean_position N l w) (rn_buf (A := RA) buf' (hc_run h2))) h2) in *.
    unfold hm_filter. rewrite E1, bind_Ok, E2, bind_Ok, E3, bind_Ok. change (hc_bim h3) with (hc_bim h'). rewrite F1.
    assert (AT : forall ss o v, Forall2 state_kept (h_states (hc_net h)) ss -> hmm_at (xs ++ [x]) (vs ++ [ln (hmm_inst h (xs ++ [x]))]) (hc_set_run (rn_out (A := RA) o v (hc_run h3)) (hc_set_net (nt_states (A := RA) ss (hc_net h3)) h3))).
    { intros ss o v K. split.
      - unfold hmm_same. repeat (split; [assumption|]). exact K.
      - apply at_some; [destruct xs; discriminate|]. split; [reflexivity|]. split; [exact L1|]. split; [exact V1|exact W3]. }
    assert (EN3 : hc_n h3 = N) by exact EN.
    destruct (hc_bim h) eqn:HB.
    - destruct (hregression_ok h3 w l x) as (ss & o & v & E4 & K & LO & LV & VO).
      { rewrite EN3. exact Hl. } { rewrite EN3. exact Hw1. } { rewrite EN3. apply D. } { change (hc_n h3) with (hc_n h1). rewrite EN. exact (same_len h' S). }
      { apply Forall_nth. intros i d Hi. rewrite (nth_indep _ d no_state Hi). change (h_states (hc_net h3)) with (h_states (hc_net h')) in *. change (nth i (h_states (hc_net h')) no_state) with (state_at h' i).
        rewrite (same_len h' S) in Hi. destruct (same_state h' S i Hi) as (_ & Q). unfold state_usable in *. change (hc_bim h3) with (hc_bim h'). change (hc_dim h3) with (hc_dim h'). change (hc_din h3) with (hc_din h'). change (hc_par h3) with (hc_par h'). rewrite F1, F2, F3, F5. rewrite HB in Q. exact Q. }
      { change (hc_bim h3) with (hc_bim h'). congruence. }
      { change (hc_din h3) with (hc_din h'). change (hc_dim h3) with (hc_dim h'). rewrite F2, F3. destruct (usable_state 0%nat ltac:(lia)) as ((Hs & _) & B1 & B2 & B3 & _).
        pose proof Hs as (G1 & _). destruct (comp_fits _ Hs 0%nat ltac:(lia)) as ((_ & _ & _ & W4) & FB & FD & FI & _). rewrite FB, B1, HB in W4. destruct (W4 eq_refl). lia. }
      { change (hc_din h3) with (hc_din h'). rewrite F3. unfold hmm_obs_dim in Lx. rewrite HB in Lx. exact Lx. }
      { reflexivity. } { rewrite EN3. reflexivity. } { rewrite EN3. reflexivity. } { rewrite EN3. reflexivity. }
      eexists. split; [exact E4|]. split.
      { apply AT. apply (Forall2_nth _ _ _ no_state no_state).
        - apply Forall2_len in K. change (h_states (hc_net h3)) with (h_states (hc_net h')) in K. rewrite (same_len h' S) in K. change (num RA) with R in *. rewrite U2. exact K.
        - intros i Hi. change (num RA) with R in *. rewrite U2 in Hi. destruct (same_state h' S i Hi) as (Q & _). apply (kept_trans _ (state_at h' i)); [exact Q|].
          apply (Forall2_at _ _ _ K i no_state no_state). change (h_states (hc_net h3)) with (h_states (hc_net h')). pose proof (same_len h' S). change (num RA) with R in *. lia. }
      split; [reflexivity|]. split; [reflexivity|]. split; [exact FM|]. split; [reflexivity|]. intros _. change (hc_dim h3) with (hc_dim h') in *. change (hc_din h3) with (hc_din h') in *. change (hc_par h3) with (hc_par h') in *.
      rewrite F2, F3 in *. rewrite F5 in *. split; [exact LO|]. split; [exact LV|]. intros d Hd. change (nth d o 0 = hmm_output h w l x d). rewrite VO by exact Hd.
      unfold hmm_output. change (hc_par h3) with (hc_par h'). rewrite F5, EN3. change (hc_n h) with N.
      assert (CO : forall i, (i < N)%nat -> class_out (state_at h3 i) x d = class_out (state_at h i) x d).
      { intros i Hi. destruct (same_state h' S i Hi) as (Q & _). exact (proj2 (kept_same _ _ x Q) d). }
      destruct (hp_est (hc_par h)); [apply Rsum_ext; intros i Hi; rewrite CO by exact Hi; reflexivity|apply Rsum_ext; intros i Hi; rewrite CO by exact Hi; reflexivity|apply CO; exact Hl].
    - eexists. split; [reflexivity|]. split; [|split; [reflexivity|split; [reflexivity|split; [exact FM|split; [reflexivity|intros C; congruence]]]]].
      specialize (AT (h_states (hc_net h')) (h_out (hc_run h3)) (h_ocov (hc_run h3)) F10). exact AT.
  Qed.
End Class.

Lemma filters_snoc : forall (A : arith) xs x (h : hclass A), hm_filters (xs ++ [x]) h = let* h := hm_filters xs h in hm_filter x h.
Proof.
  induction xs as [|y xs IH]; intros x h; cbn [app hm_filters bind].
  - destruct (hm_filter x h); reflexivity.
  - destruct (hm_filter y h) as [h'| |]; cbn [bind]; try reflexivity. apply IH.
Qed.

Lemma logs_snoc : forall h xs x, hmm_logs h (xs ++ [x]) = hmm_logs h xs ++ [ln (hmm_inst h (xs ++ [x]))].
Proof.
  intros h xs x. unfold hmm_logs, inst_logs, hmm_inst. set (bs := hmm_liks h xs). assert (E : hmm_liks h (xs ++ [x]) = bs ++ [fun i => mix_lik (state_at h i) x]) by (unfold bs, hmm_liks; rewrite map_app; reflexivity).
  rewrite E. rewrite app_length. cbn [length]. rewrite Nat.add_1_r, seq_S, map_app. cbn [map Nat.add]. f_equal.
  - apply map_ext_in. intros t Ht. apply in_seq in Ht. rewrite firstn_app. replace (S t - length bs)%nat with 0%nat by lia. cbn [firstn]. rewrite app_nil_r. reflexivity.
  - rewrite firstn_all2 by (rewrite app_length; cbn; lia). reflexivity.
Qed.

Lemma fresh_at : forall h, hmm_usable h -> hmm_fresh h -> hmm_at h [] [] h.
Proof.
  intros h (U1 & U2 & U3 & U4) (F1 & F2 & F3 & F4 & F5). split.
  - unfold hmm_same. repeat (split; [reflexivity|]). apply (Forall2_nth _ _ _ no_state no_state); [reflexivity|]. intros i Hi. apply kept_refl. rewrite Forall_forall in U3. apply (U3 (nth i (h_states (hc_net h)) no_state)). apply nth_In. exact Hi.
  - repeat (split; [try assumption; reflexivity|]). exact F5.
Qed.

Lemma filters_ok : forall h, hmm_usable h -> hmm_fresh h -> forall xs, Forall (fun x => length x = hmm_obs_dim h) xs ->
  exists h', hm_filters (A := RA) xs h = Ok h' /\ hmm_at h xs (hmm_logs h xs) h'.
Proof.
  intros h U F. induction xs as [|x xs IH] using rev_ind; intros D.
  - exists h. split; [reflexivity|]. exact (fresh_at h U F).
  - apply Forall_app in D. destruct D as (D & Dx). inversion Dx as [|? ? Lx _]; subst. destruct (IH D) as (h' & E & M).
    destruct (step_ok h U xs (hmm_logs h xs) h' x (proj1 F) M Lx) as (h'' & E' & M' & _). exists h''. rewrite filters_snoc, E. split; [exact E'|]. rewrite logs_snoc. exact M'.
Qed.

Lemma filters_report : forall h, hmm_usable h -> hmm_fresh h -> forall xs x, Forall (fun x => length x = hmm_obs_dim h) (xs ++ [x]) ->
  exists h', hm_filters (A := RA) (xs ++ [x]) h = Ok h' /\ hmm_at h (xs ++ [x]) (hmm_logs h (xs ++ [x])) h' /\
    h_inst (hc_run h') = hmm_inst h (xs ++ [x]) /\ h_log (hc_run h') = window_mean (hc_win h) (hmm_logs h (xs ++ [x])) /\ hmm_report h (hmm_filtering h (xs ++ [x])) x h'.
Proof.
  intros h U F xs x D. apply Forall_app in D. destruct D as (D & Dx). inversion Dx as [|? ? Lx _]; subst. destruct (filters_ok h U F xs D) as (h' & E & M).
  destruct (step_ok h U xs (hmm_logs h xs) h' x (proj1 F) M Lx) as (h'' & E' & M' & R). exists h''. rewrite filters_snoc, E. split; [exact E'|]. rewrite logs_snoc. split; [exact M'|exact R].
Qed.

(** ** Products of likelihoods *)
Lemma seq_pos : forall h xs, hmm_usable h -> xs <> [] -> 0 < seq_lik (hc_n h) (hc_prior h) (hc_trans h) (hmm_liks h xs).
Proof.
  intros h xs U Hx. apply (filtering_facts (hc_n h) (hc_prior h) (hc_trans h) (proj1 U) (usable_pi h U) (usable_a h U) (usable_r h U) (hmm_liks h xs)); [destruct xs; [contradiction|discriminate]|apply usable_liks; exact U].
Qed.

Lemma Rprod_app : forall l m, Rprod (l ++ m) = Rprod l * Rprod m.
Proof. induction l as [|x l IH]; intros m; unfold Rprod in *; cbn [app fold_right]; [ring|rewrite IH; ring]. Qed.

Lemma insts_snoc : forall xs x h, hm_insts (xs ++ [x]) h = let* l := hm_insts xs h in let* h := hm_filters (A := RA) xs h in let* h := hm_filter (A := RA) x h in Ok (l ++ [h_inst (hc_run h)]).
Proof.
  induction xs as [|y xs IH]; intros x h; cbn [app hm_filters hm_insts bind].
  - destruct (hm_filter (A := RA) x h); reflexivity.
  - destruct (hm_filter (A := RA) y h) as [h'| |]; cbn [bind]; try reflexivity. rewrite IH. destruct (hm_insts xs h') as [l| |]; cbn [bind]; try reflexivity.
    destruct (hm_filters (A := RA) xs h') as [h1| |]; cbn [bind]; try reflexivity. destruct (hm_filter (A := RA) x h1); reflexivity.
Qed.

Lemma insts_ok : forall h, hmm_usable h -> hmm_fresh h -> forall xs, Forall (fun x => length x = hmm_obs_dim h) xs ->
  exists l, hm_insts xs h = Ok l /\ length l = length xs /\ (xs <> [] -> Rprod l = seq_lik (hc_n h) (hc_prior h) (hc_trans h) (hmm_liks h xs)).
Proof.
  intros h U F. induction xs as [|x xs IH] using rev_ind; intros D.
  - exists []. split; [reflexivity|]. split; [reflexivity|]. congruence.
  - destruct (filters_report h U F xs x D) as (h' & E & _ & EI & _). apply Forall_app in D. destruct D as (D & _). destruct (IH D) as (l & El & Ll & Pl). destruct (filters_ok h U F xs D) as (h1 & E1 & _).
    exists (l ++ [h_inst (hc_run h')]). rewrite insts_snoc, El, E1. rewrite filters_snoc, E1 in E. rewrite !bind_Ok in *. rewrite E. split; [reflexivity|]. split; [rewrite !app_length; cbn; lia|]. intros _.
    rewrite Rprod_app, EI. unfold Rprod at 2. cbn [fold_right]. rewrite Rmult_1_r. unfold hmm_inst.
    change (num RA) with R in *. replace (hmm_liks h (xs ++ [x])) with (hmm_liks h xs ++ [fun i => mix_lik (state_at h i) x]) by (unfold hmm_liks; rewrite map_app; reflexivity).
    destruct xs as [|x0 xs].
    + cbn in El. injection El as <-. cbn [hmm_liks map app inst_lik Rprod fold_right]. ring.
    + rewrite (inst_snoc _ _ _ (hmm_liks h (x0 :: xs))) by discriminate. rewrite Pl by discriminate. field. apply Rgt_not_eq. apply (seq_pos h (x0 :: xs) U). discriminate.
Qed.

(** ** Reset *)
Lemma cyclic_usable : forall N mode tr, (2 <= N)%nat -> trans_usable N mode tr ->
  exists tr', cyclic (A := RA) N mode (nofQ (a := RA) (1 # 20)) tr = Ok tr' /\ trans_usable N mode tr' /\
    (forall q, q <> (match mode with Ergodic => (N - 1) * N | LeftRight => (N - 1) * 2 + 1 end)%nat -> nth q tr' 0 = nth q tr 0) /\
    nth (match mode with Ergodic => (N - 1) * N | LeftRight => (N - 1) * 2 + 1 end)%nat tr' 0 = / 20.
Proof.
  intros N mode tr HN (L & P & Hr). unfold cyclic. destruct (Nat.ltb_spec 1 N); [|lia]. set (p := nofQ (a := RA) (1 # 20)). assert (Ep : p = / 20) by (unfold p; cbn [nofQ RA]; unfold Q2R; cbn; lra).
  set (q0 := (match mode with Ergodic => (N - 1) * N | LeftRight => (N - 1) * 2 + 1 end)%nat). assert (Hq : (q0 < length tr)%nat) by (rewrite L; unfold q0, trans_size; destruct mode; nia).
  exists (upd tr q0 p). rewrite wr_ok by exact Hq. split; [reflexivity|]. assert (V : forall q, q <> q0 -> nth q (upd tr q0 p) 0 = nth q tr 0) by (intros q Nq; apply nth_upd_neq; lia).
  assert (V0 : nth q0 (upd tr q0 p) 0 = / 20) by (rewrite nth_upd_eq by exact Hq; exact Ep).
  split; [|split; [exact V|exact V0]]. split; [rewrite upd_length; exact L|].
  assert (P' : forall q, 0 <= nth q (upd tr q0 p) 0). { intros q. destruct (Nat.eq_dec q q0) as [->|Nq]; [rewrite V0; lra|rewrite V by exact Nq; apply P]. }
  split; [exact P'|]. intros i Hi. destruct (Nat.eq_dec i (N - 1)) as [->|Ni].
  - apply Rle_trans with (trans_at N mode (upd tr q0 p) (N - 1) 0).
    + assert (ET : / 20 <= trans_at N mode (upd tr q0 p) (N - 1) 0).
      { unfold trans_at. destruct mode; fold q0.
        - unfold q0 in *. rewrite Nat.add_0_r, V0. lra.
        - replace (S (N - 1)) with N by lia. rewrite Nat.mod_same by lia. rewrite Nat.eqb_refl. destruct (Nat.eqb_spec 0 (N - 1)); [lia|]. unfold q0 in *. replace (2 * (N - 1) + 1)%nat with ((N - 1) * 2 + 1)%nat by lia. rewrite V0. lra. }
      refine (Rle_trans _ _ _ _ ET). unfold min_row. apply Rinv_le_contravar; [lra|]. apply Rle_trans with (10 ^ 2); [lra|]. apply Rle_pow; [lra|lia].
    + apply (Rsum_term_le N (trans_at N mode (upd tr q0 p) (N - 1)) 0); [|lia]. intros j Hj. apply trans_at_ge. exact P'.
  - rewrite (Rsum_ext N _ (trans_at N mode tr i)); [apply Hr; exact Hi|]. intros j Hj. unfold trans_at, q0 in *. destruct mode; rewrite !V by nia; reflexivity.
Qed.

Lemma cyclic_one : forall mode tr p, cyclic (A := RA) 1 mode p tr = Ok tr.
Proof. reflexivity. Qed.

Lemma reset_usable : forall h, hmm_resettable h ->
  exists tr, hm_reset (A := RA) h = Ok (hc_set_run (rn_started false (rn_buf (A := RA) (ring_clear (ring_resize 0 (h_buf (hc_run h)) (hc_win h))) (hc_run h))) (hc_set_net (nt_trans (A := RA) tr (hc_net h)) h)) /\
    trans_usable (hc_n h) (hc_mode h) tr /\
    (forall q, ((2 <= hc_n h)%nat -> q <> (match hc_mode h with Ergodic => (hc_n h - 1) * hc_n h | LeftRight => (hc_n h - 1) * 2 + 1 end)%nat) -> nth q tr 0 = nth q (h_trans (hc_net h)) 0) /\
    ((2 <= hc_n h)%nat -> nth (match hc_mode h with Ergodic => (hc_n h - 1) * hc_n h | LeftRight => (hc_n h - 1) * 2 + 1 end)%nat tr 0 = / 20) /\
    (let h' := hc_set_run (rn_started false (rn_buf (A := RA) (ring_clear (ring_resize 0 (h_buf (hc_run h)) (hc_win h))) (hc_run h))) (hc_set_net (nt_trans (A := RA) tr (hc_net h)) h) in hmm_usable h' /\ hmm_fresh h').
Proof.
  intros h ((U1 & U2 & U3 & U4 & U5 & U6) & Hh & HR & HA). unfold hm_reset. rewrite Hh, n0_RA.
  assert (K : forall tr, trans_usable (hc_n h) (hc_mode h) tr -> let h' := hc_set_run (rn_started false (rn_buf (A := RA) (ring_clear (ring_resize 0 (h_buf (hc_run h)) (hc_win h))) (hc_run h))) (hc_set_net (nt_trans (A := RA) tr (hc_net h)) h) in hmm_usable h' /\ hmm_fresh h').
  { intros tr Ht h'. split.
    - repeat (split; [assumption|]). exact U6.
    - split; [exact Hh|]. split; [reflexivity|]. split; [|split; [|exact HA]].
      + apply ring_clear_wf. apply ring_resize_wf. exact HR.
      + exact (ring_resize_clear_length _ _ _). }
  destruct (Nat.eq_dec (hc_n h) 1) as [E1|E1].
  - exists (h_trans (hc_net h)). rewrite E1, cyclic_one. split; [reflexivity|]. rewrite <- E1 at 1. split; [rewrite E1 in U4; rewrite E1; exact U4|]. split; [reflexivity|]. split; [lia|]. apply K. exact U4.
  - destruct (cyclic_usable (hc_n h) (hc_mode h) (h_trans (hc_net h)) ltac:(lia) U4) as (tr & E & T1 & T2 & T3). exists tr. split; [eapply bind_eq; [exact E|]; reflexivity|].
    split; [exact T1|]. split; [intros q Hq; apply T2; apply Hq; lia|]. split; [intros _; exact T3|]. apply K. exact T1.
Qed.
