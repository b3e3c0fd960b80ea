(** Baum-Welch: the E-step of a class. *)
From Coq Require Import String List Bool Arith ZArith Reals Lra Lia.
From Verif Require Import Base Arith BaseFacts RFacts Model_Ring Model_Gaussian Model_Config Model_GMM Model_HMM
  Proofs_Gaussian Proofs_KMeans Proofs_GMM Spec_Common Spec_Matrix Spec_Gaussian Spec_GMM Spec_HMM Proofs_HMM Proofs_HMM2 Proofs_HMM3 Proofs_HMM4 Proofs_HMM5 Proofs_HMM6.
Import ListNotations.
Local Open Scope list_scope.
Local Open Scope R_scope.

Lemma comp_lik_ge : forall k x, min_likelihood <= comp_lik k x.
Proof. intros. unfold comp_lik. apply Rmax_l. Qed.
Lemma frame_lik_ge : forall g x, distribution (gc_n g) (weight g) -> min_likelihood <= frame_lik g x.
Proof. intros g x D. unfold frame_lik. apply Rle_mult_dist; [exact D|]. intros. apply comp_lik_ge. Qed.

Lemma nth_map_lt : forall {X Y} (f : X -> Y) l i d d', (i < length l)%nat -> nth i (map f l) d = f (nth i l d').
Proof. intros. rewrite (nth_indep _ d (f d')) by (rewrite map_length; assumption). apply map_nth. Qed.

Section Class.
  Variable h : hclass RA.
  Hypothesis HR : hmm_ready h.
  Let HU : hmm_usable h := proj1 HR.
  Let N := hc_n h.

  Lemma frame_comp_ok : forall i x c, (i < N)%nat -> length x = hc_dim h -> (c < hp_gauss (hc_par h))%nat ->
    hm_frame_comp (A := RA) h (state_at h i) x c = Ok (weight (state_at h i) c * comp_lik (comp_at (state_at h i) c) x).
  Proof.
    intros i x c Hi Lx Hc. destruct (usable_state h HU i Hi) as ((Hs & Hv & D) & U1 & U2 & U3 & U4 & U5 & _).
    unfold hm_frame_comp. rewrite <- U1, <- U3. apply (frame_obs_ok (state_at h i) Hs Hv x c); [rewrite U2; exact Lx|rewrite U4; exact Hc].
  Qed.

  Lemma frame_obs_all : forall i x, (i < N)%nat -> length x = hc_dim h -> hm_frame_obs (A := RA) h (state_at h i) x = Ok (frame_lik (state_at h i) x).
  Proof.
    intros i x Hi Lx. destruct (usable_state h HU i Hi) as (_ & U1 & U2 & U3 & U4 & _).
    unfold hm_frame_obs, gm_obs_bim_all, gm_obs_all, frame_lik. rewrite n0_RA. match goal with |- _ = Ok ?r => replace r with (0 + r) by ring end.
    pose proof (fun c => frame_comp_ok i x c Hi Lx) as F. unfold hm_frame_comp in F. rewrite <- U4 in F. destruct (hc_bim h); apply accM_ok; exact F.
  Qed.

  Lemma rd_state : forall i, (i < N)%nat -> rd (h_states (hc_net h)) i = Ok (state_at h i).
  Proof. intros i Hi. apply rd_nth. pose proof HU as (_ & L & _). change (num RA) with R in *. rewrite L. exact Hi. Qed.

  Lemma hm_estep_ok : forall (alpha : list R) ph, ph <> [] -> Forall (fun x => length x = hc_dim h) ph -> (hc_mode h = Ergodic -> length alpha = N) ->
    exists e al, hm_estep (A := RA) h alpha ph = Ok (e, al) /\ estep_exact h ph e /\ length al = N /\ 0 < seq_lik N (hc_prior h) (hc_trans h) (frame_liks h ph).
  Proof.
    intros alpha ph Hne Hf HA. pose proof HU as (U1 & U2 & U3 & U4 & U5 & U6). fold N in U1. pose proof HR as (_ & _ & NJ & _).
    destruct ph as [|x ph]; [contradiction|]. set (xs := x :: ph) in *. rewrite Forall_forall in Hf.
    set (C := map (fun x => tab N (fun i => if (hp_gauss (hc_par h) =? 1)%nat then [frame_lik (state_at h i) x] else tab (hp_gauss (hc_par h)) (fun c => weight (state_at h i) c * comp_lik (comp_at (state_at h i) c) x))) xs).
    assert (EB : mapM (fun x => tabM N (fun i => let* g := rd (h_states (hc_net h)) i in hm_frame_obs (A := RA) h g x)) xs = Ok (map (tab N) (frame_liks h xs))).
    { unfold frame_liks. rewrite map_map. apply mapM_ok. intros y Hy. apply tabM_ok. intros i Hi. rewrite rd_state by exact Hi. rewrite bind_Ok. apply frame_obs_all; [exact Hi|apply Hf; exact Hy]. }
    assert (EC : mapM (fun x => tabM N (fun i => let* g := rd (h_states (hc_net h)) i in
      if (hp_gauss (hc_par h) =? 1)%nat then let* o := hm_frame_obs (A := RA) h g x in Ok [o] else tabM (hp_gauss (hc_par h)) (hm_frame_comp (A := RA) h g x))) xs = Ok C).
    { unfold C. apply mapM_ok. intros y Hy. apply tabM_ok. intros i Hi. rewrite rd_state by exact Hi. rewrite bind_Ok. destruct (hp_gauss (hc_par h) =? 1)%nat.
      - rewrite frame_obs_all by (try exact Hi; apply Hf; exact Hy). reflexivity.
      - apply tabM_ok. intros c Hc. apply frame_comp_ok; [exact Hi|apply Hf; exact Hy|exact Hc]. }
    destruct (estep_ok N (hc_prior h) (hc_mode h) (h_trans (hc_net h)) U1 (usable_pi h HU) U4 (h_prior (hc_net h)) alpha
      (fun i => let* x := rd xs 0 in let* g := rd (h_states (hc_net h)) i in hm_frame_obs (A := RA) h g x) (fun i => frame_lik (state_at h i) x) (frame_liks h ph) C) as (gam & mix & eps & al & E & SP & LA & L1 & L2 & L3 & V1 & V2 & V3).
    { reflexivity. } { intros EM. split; [apply HA; exact EM|apply U5; exact EM]. } { exact NJ. }
    { apply Forall_forall. intros b Hb. change ((fun i => frame_lik (state_at h i) x) :: frame_liks h ph) with (frame_liks h xs) in Hb. unfold frame_liks in Hb. apply in_map_iff in Hb. destruct Hb as (y & <- & _).
      intros j Hj. apply frame_lik_ge. apply (usable_state h HU j Hj). }
    { intros i Hi. rewrite (rd_nth xs 0 []) by (cbn; lia). rewrite bind_Ok. rewrite rd_state by exact Hi. rewrite bind_Ok. apply frame_obs_all; [exact Hi|apply Hf; left; reflexivity]. }
    { unfold C, frame_liks. rewrite !map_length. reflexivity. }
    { intros t Ht. unfold C. unfold frame_liks in Ht. rewrite map_length in Ht. rewrite (nth_map_lt _ xs t [] []) by exact Ht. apply tab_length. }
    change ((fun i => frame_lik (state_at h i) x) :: frame_liks h ph) with (frame_liks h xs) in *. change (trans_at N (hc_mode h) (h_trans (hc_net h))) with (hc_trans h) in *.
    assert (LL : length (frame_liks h xs) = length xs) by (unfold frame_liks; apply map_length). assert (LP : length (frame_liks h ph) = length ph) by (unfold frame_liks; apply map_length).
    eexists. exists al. split; [unfold hm_estep; fold N; change (num RA) with R in *; rewrite EB, bind_Ok, EC, bind_Ok; exact E|]. split; [|split; [exact LA|exact SP]].
    unfold estep_exact. cbn [es_gamma es_mix es_eps es_lp]. rewrite LL in L1, L2, V1, V2. rewrite LP in L3, V3. assert (LS : length ph = (length xs - 1)%nat) by (unfold xs; cbn [length]; lia). rewrite LS in L3, V3.
    split; [exact L1|]. split; [exact L2|]. split; [exact L3|]. split; [exact V1|]. split; [|split; [exact V3|reflexivity]].
    intros t Ht. destruct (V2 t Ht) as (M1 & M2). split; [exact M1|]. intros i Hi. rewrite (M2 i Hi). unfold C. rewrite (nth_map_lt _ xs t [] [] Ht). rewrite nth_tab by exact Hi.
    destruct (usable_state h HU i Hi) as ((Hs & Hv & D) & S1 & S2 & S3 & S4 & S5 & _). change (at_lik N (hc_prior h) (hc_trans h) (frame_liks h xs) t i / seq_lik N (hc_prior h) (hc_trans h) (frame_liks h xs)) with (occupancy h xs t i).
    set (g := occupancy h xs t i). set (y := nth t xs []). unfold gamma_mix. rewrite nsum_RA, n0_RA. pose proof (frame_lik_ge (state_at h i) y D) as FG. pose proof min_lik_pos as MP.
    destruct (Nat.eqb_spec (hp_gauss (hc_par h)) 1) as [G1|G1].
    - cbn [map length Rsum nth]. rewrite Rplus_0_l. assert (NL : nltb (a := RA) 0 (frame_lik (state_at h i) y) = true) by (apply nltb_RA_true; lra). change (num RA) with R in *. rewrite NL. cbn [map length nth].
      split; [symmetry; exact G1|]. intros c Hc. replace c with 0%nat by lia. unfold occupancy_mix. fold g y. cbn [nth].
      assert (FE : frame_lik (state_at h i) y = weight (state_at h i) 0 * comp_lik (comp_at (state_at h i) 0) y) by (unfold frame_lik; rewrite S4, G1; cbn [Rsum]; ring).
      rewrite <- FE. cbn [nmul ndiv RA]. field. lra.
    - rewrite tab_length. rewrite (Rsum_ext _ _ (fun c => weight (state_at h i) c * comp_lik (comp_at (state_at h i) c) y)) by (intros c Hc; rewrite nth_tab by exact Hc; reflexivity).
      assert (FE : frame_lik (state_at h i) y = Rsum (hp_gauss (hc_par h)) (fun c => weight (state_at h i) c * comp_lik (comp_at (state_at h i) c) y)) by (unfold frame_lik; rewrite S4; reflexivity).
      rewrite <- FE. assert (NL : nltb (a := RA) 0 (frame_lik (state_at h i) y) = true) by (apply nltb_RA_true; lra). change (num RA) with R in *. rewrite NL. rewrite !map_length, tab_length. split; [reflexivity|].
      intros c Hc. unfold tab. rewrite !map_map. rewrite (nth_map_lt _ (seq 0 (hp_gauss (hc_par h))) c 0 0%nat) by (rewrite seq_length; exact Hc). rewrite seq_nth by exact Hc. cbn [nmul ndiv RA Nat.add]. unfold occupancy_mix. fold g y. field. lra.
  Qed.
End Class.
