(** Initialisation of a class. *)
From Coq Require Import String List Bool Arith ZArith Reals Lra Lia QArith Qreals.
From Verif Require Import Base Arith BaseFacts RFacts Model_Ring Proofs_Ring Model_Gaussian Model_Config Model_KMeans Model_GMM Model_HMM
  Proofs_Gaussian Proofs_Gaussian2 Proofs_Gaussian3 Proofs_KMeans Proofs_GMM Proofs_GMM2 Proofs_GMM4 Spec_Common Spec_Matrix Spec_Gaussian Spec_GMM Spec_HMM Spec_HMMInit
  Proofs_HMM Proofs_HMM2 Proofs_HMM3 Proofs_HMM4 Proofs_HMM5 Proofs_HMM6 Proofs_HMM7 Proofs_HMM8 Proofs_HMM9 Proofs_HMM10 Proofs_HMM11 Proofs_HMM12.
Import ListNotations.
Local Open Scope list_scope.
Local Open Scope R_scope.

Lemma piece_eq : forall N s (ph : list (list R)), (s < N)%nat -> firstn (length ph / N) (skipn (s * (length ph / N)) ph) = piece N s ph.
Proof.
  intros N s ph Hs. set (n := (length ph / N)%nat). pose proof (step_bound N s (length ph) Hs) as B. fold n in B.
  assert (L1 : length (firstn n (skipn (s * n) ph)) = n) by (rewrite firstn_length, skipn_length; lia).
  assert (L2 : length (piece N s ph) = n) by (unfold piece; rewrite map_length, seq_length; reflexivity).
  apply (nth_ext _ _ [] []); [congruence|]. intros i Hi. rewrite L1 in Hi. rewrite nth_firstn_lt by exact Hi. unfold piece. fold n.
  assert (E : nth i (map (fun t => nth (s * n + t) ph []) (seq 0 n)) [] = nth (s * n + i) ph []).
  { rewrite (nth_indep (map (fun t => nth (s * n + t) ph []) (seq 0 n)) [] (nth (s * n + 0) ph [])) by (rewrite map_length, seq_length; exact Hi).
    rewrite (map_nth (fun t => nth (s * n + t) ph []) (seq 0 n) 0%nat i). rewrite seq_nth by exact Hi. reflexivity. }
  rewrite E. clear E L1 L2.
  rewrite <- (firstn_skipn (s * n) ph) at 2. rewrite app_nth2 by (rewrite firstn_length; lia). rewrite firstn_length. f_equal. lia.
Qed.

Lemma seg_pieces : forall N s (data : list (list (list R))), (s < N)%nat -> seg_data (A := RA) N s data = pieces N s data.
Proof.
  intros N s data Hs. unfold seg_data, pieces. induction data as [|ph data IH]; [reflexivity|]. cbn [flat_map filter]. change (num RA) with R in *. rewrite IH. clear IH.
  destruct (Nat.leb_spec N (length ph)) as [H|H].
  - assert (length ph / N <> 0)%nat by (intro Z; apply Nat.div_small_iff in Z; lia). destruct (Nat.eqb_spec (length ph / N) 0); [contradiction|]. cbn [map app]. f_equal. apply piece_eq. exact Hs.
  - rewrite Nat.div_small by exact H. reflexivity.
Qed.

Lemma first_ergodic : forall N i j, (i < N)%nat -> (j < N)%nat -> trans_at N Ergodic (repeat (1 / INR N) (N * N)) i j = first_trans N Ergodic i j.
Proof.
  intros N i j Hi Hj. cbn [trans_at first_trans]. assert (i * N + j < N * N)%nat by nia. rewrite (nth_indep _ 0 (1 / INR N)) by (rewrite repeat_length; assumption). rewrite nth_repeat. unfold Rdiv. ring.
Qed.
Lemma first_leftright : forall N t i j, (1 <= N)%nat -> set_leftright (A := RA) N = Ok t -> (i < N)%nat -> (j < N)%nat -> trans_at N LeftRight t i j = first_trans N LeftRight i j.
Proof.
  intros N t i j HN E Hi Hj. unfold set_leftright in E. rewrite wr_ok in E by (rewrite repeat_length; lia). cbn [bind] in E. rewrite wr_ok in E by (rewrite upd_length, repeat_length; lia). injection E as <-.
  set (hf := nofQ (a := RA) (1 # 2)). assert (HF : hf = / 2) by (unfold hf; cbn; unfold Q2R; cbn; lra). rewrite n0_RA, n1_RA. change (num RA) with R in *.
  set (t := upd _ _ _).
  assert (V : forall q, (q < 2 * N)%nat -> nth q t 0 = if Nat.eqb q (2 * N - 1) then 0 else if Nat.eqb q (2 * N - 2) then 1 else / 2).
  { intros q Hq. unfold t. replace ((N - 1) * 2 + 1)%nat with (2 * N - 1)%nat by lia. replace ((N - 1) * 2)%nat with (2 * N - 2)%nat by lia. destruct (Nat.eqb_spec q (2 * N - 1)) as [->|D1]; [apply nth_upd_eq; rewrite upd_length, repeat_length; lia|].
    rewrite nth_upd_neq by auto. destruct (Nat.eqb_spec q (2 * N - 2)) as [->|D2]; [apply nth_upd_eq; rewrite repeat_length; lia|]. rewrite nth_upd_neq by auto. rewrite (nth_indep _ 0 hf) by (rewrite repeat_length; lia). rewrite nth_repeat. exact HF. }
  clearbody t. cbn [trans_at first_trans]. rewrite !V by lia. destruct (Nat.eqb_spec (S i) N) as [EN|EN].
  - replace (2 * i + 1)%nat with (2 * N - 1)%nat by lia. replace (2 * i)%nat with (2 * N - 2)%nat by lia. rewrite !Nat.eqb_refl. destruct (Nat.eqb_spec (2 * N - 2) (2 * N - 1)); [lia|]. destruct (j =? i)%nat, (j =? S i mod N)%nat; lra.
  - rewrite (Nat.mod_small (S i) N) by lia. repeat (match goal with |- context[Nat.eqb ?a ?b] => destruct (Nat.eqb_spec a b) end); cbn [orb]; try lia; lra.
Qed.

(** One component: every responsibility is one. *)
Lemma one_resp : forall (g : gclass RA) x, gc_n g = 1%nat -> 0 < score g x 0 -> resp g x 0 = 1.
Proof. intros g x H P. unfold resp. rewrite H. unfold Rsum. cbn. field. lra. Qed.

Lemma sum_ones : forall l : list (list R), Rlsum (map (fun _ => 1) l) = INR (length l).
Proof. induction l as [|x l IH]; [reflexivity|]. change (length (x :: l)) with (S (length l)). rewrite S_INR, <- IH. unfold Rlsum. cbn [map fold_right]. ring. Qed.
Lemma one_means : forall (g : gclass RA) frames d, gc_n g = 1%nat -> 0 <= weight g 0 -> frames <> [] -> wmean g frames 0 d = avg (fun x => nth d x 0) frames.
Proof.
  intros g frames d H W NE. unfold wmean, mass, avg.
  rewrite (map_ext (fun x => resp g x 0 * nth d x 0) (fun x => nth d x 0)) by (intro x; rewrite one_resp; [ring|exact H|apply score_pos; exact W]).
  rewrite (map_ext (fun x => resp g x 0) (fun _ => 1)) by (intro x; apply one_resp; [exact H|apply score_pos; exact W]). rewrite sum_ones. reflexivity.
Qed.
Lemma one_covs : forall (g : gclass RA) frames i j, gc_n g = 1%nat -> 0 <= weight g 0 -> frames <> [] -> wcov g frames 0 i j = plain_cov frames i j.
Proof.
  intros g frames i j H W NE. unfold wcov, plain_cov. rewrite !(one_means g frames) by assumption. unfold mass, avg at 1.
  rewrite (map_ext (fun x => resp g x 0 * (nth i x 0 - avg (fun x0 => nth i x0 0) frames) * (nth j x 0 - avg (fun x0 => nth j x0 0) frames))
    (fun x => (nth i x 0 - avg (fun y => nth i y 0) frames) * (nth j x 0 - avg (fun y => nth j y 0) frames))) by (intro x; rewrite one_resp; [ring|exact H|apply score_pos; exact W]).
  rewrite (map_ext (fun x => resp g x 0) (fun _ => 1)) by (intro x; apply one_resp; [exact H|apply score_pos; exact W]). rewrite sum_ones. reflexivity.
Qed.

Lemma one_updates : forall k frames (g f : gclass RA), gm_ready g -> strong_reg g -> gc_n g = 1%nat -> frames <> [] -> Forall (fun x => length x = gc_dim g) frames ->
  gm_updates (A := RA) (S k) frames g = Ok f ->
  (forall d, (d < gc_dim g)%nat -> gmean (comp_at f 0) d = avg (fun x => nth d x 0) frames) /\
  (forall i j, (i < gc_dim g)%nat -> (j < gc_dim g)%nat -> gcov (comp_at f 0) i j =
     if Nat.eqb i j then plain_cov frames i i + nth i (gc_reg g) 0 else match gc_mode g with Full => plain_cov frames i j | Diagonal => 0 end).
Proof.
  induction k as [|k IH]; intros frames g f Rg Sg N1 Hne Hf E.
  - cbn [gm_updates] in E. pose proof Rg as (Sh & I & D). destruct (update_total g frames Sh I (proj1 D) Hf Hne (proj1 Sg) Sg) as (g1 & E1 & (SC & L1 & L2 & _ & _ & VM & VC) & R1).
    change (num RA) with R in *. rewrite E1 in E. cbn [bind] in E. injection E as <-. rewrite N1 in VM, VC. assert (W : 0 <= weight g 0) by (apply (proj1 D); lia).
    split; [intros d Hd; rewrite VM by lia; apply one_means; assumption|]. intros i j Hi Hj. rewrite VC by lia. unfold new_cov. rewrite !one_covs by assumption. reflexivity.
  - cbn [gm_updates] in E. pose proof Rg as (Sh & I & D). destruct (update_total g frames Sh I (proj1 D) Hf Hne (proj1 Sg) Sg) as (g1 & E1 & (SC & L1 & L2 & _ & _ & VM & VC) & R1).
    change (num RA) with R in *. rewrite E1 in E. cbn [bind] in E. destruct SC as (S1 & S2 & S3 & S4 & S5 & S6 & S7 & S8).
    destruct (IH frames g1 f R1) as (M & C).
    + unfold strong_reg, gc_mode in *. rewrite S2, S5, S7. exact Sg.
    + unfold gc_n in *. rewrite S5. exact N1.
    + exact Hne.
    + rewrite S2. exact Hf.
    + exact E.
    + rewrite S2 in M, C. rewrite S7 in C. unfold gc_mode in *. rewrite S5 in C. split; assumption.
Qed.

Lemma coef_uniform : forall n c, (c < n)%nat -> nth c (repeat (/ INR n) n) 0 = / INR n.
Proof. intros n c H. rewrite (nth_indep _ 0 (/ INR n)) by (rewrite repeat_length; exact H). apply nth_repeat. Qed.

Lemma alloc_par : forall h h1 : hclass RA, hm_allocate (A := RA) h = Ok h1 -> Forall (fun g => gc_par g = class_par h) (h_states (hc_net h1)).
Proof.
  intros h h1 E. unfold hm_allocate in E. apply bind_ok_inv in E. destruct E as (g & E1 & E). unfold gm_allocate in E1. apply bind_ok_inv in E1. destruct E1 as (c & _ & E1). injection E1 as <-.
  cbn [hc_hier hc_set_net hc_set_run] in E. destruct (hc_hier h).
  - unfold hm_exit_default in E. destruct (negb _); [discriminate|]. apply bind_ok_inv in E. destruct E as (e & _ & E). injection E as <-. cbn. apply Forall_repeat. reflexivity.
  - injection E as <-. cbn. apply Forall_repeat. reflexivity.
Qed.

Lemma init_values : forall iters devs dev data h, hmm_trainable h devs dev data -> exists h1 h2, hm_allocate (A := RA) h = Ok h1 /\ hm_init (A := RA) iters devs dev data h1 = Ok h2 /\
  hmm_ready h2 /\ frame_kept h h2 /\ (forall i j, (i < hc_n h)%nat -> (j < hc_n h)%nat -> hc_trans h2 i j = first_trans (hc_n h) (hc_mode h) i j) /\ (forall i, (i < hc_n h)%nat -> hc_prior h2 i = first_prior (hc_n h) (hc_mode h) i) /\
  (forall s, (s < hc_n h)%nat -> state_value iters devs dev data h s (state_at h2 s)).
Proof.
  intros iters devs dev data h (HN & HG & HW & HD & HA & Ldev & Ldevs & (Hne & HF) & EX).
  destruct (allocate_ok h HN HG HD) as (h1 & g & E1 & S1 & Sg & B & D & I & W & Ng & Mg & Ag & Wg & Al & K1 & Pr). exists h1. pose proof K1 as (Q1 & Q2 & Q3 & Q4 & Q5 & Q6 & Q7 & Q8).
  assert (EN : hc_n h1 = hc_n h) by (unfold hc_n; rewrite Q5; reflexivity). assert (EM : hc_mode h1 = hc_mode h) by (unfold hc_mode; rewrite Q5; reflexivity).
  assert (SAg : strong_abs g) by (unfold strong_abs; rewrite Mg, Ag; exact HA).
  unfold hm_init. destruct data as [|ph0 data0] eqn:ED; [contradiction|]. rewrite <- ED in *. clear ph0 data0 ED.
  (* transitions *)
  assert (TR : exists pr tr, match hc_mode h1 with Ergodic => Ok (set_ergodic (A := RA) (hc_n h1)) | LeftRight => let* t := set_leftright (A := RA) (hc_n h1) in Ok (h_prior (hc_net h1), t) end = Ok (pr, tr) /\
    stochastic (hc_n h) (hc_mode h) tr /\ (hc_mode h = LeftRight -> no_jump (hc_n h) tr) /\ (hc_mode h = Ergodic -> length pr = hc_n h /\ distribution (hc_n h) (fun i => nth i pr 0)) /\
    (forall i j, (i < hc_n h)%nat -> (j < hc_n h)%nat -> trans_at (hc_n h) (hc_mode h) tr i j = first_trans (hc_n h) (hc_mode h) i j) /\ (forall i, (i < hc_n h)%nat -> prior_at (hc_mode h) pr i = first_prior (hc_n h) (hc_mode h) i)).
  { rewrite EM, EN. destruct (hc_mode h) eqn:M.
    - unfold set_ergodic. rewrite n1_RA, nN_RA. eexists. eexists. split; [reflexivity|]. split; [apply ergodic_usable; exact HN|]. split; [discriminate|]. split; [intros _; apply (distribution_const (hc_n h) HN)|]. split; [intros; apply first_ergodic; assumption|]. intros i Hi. cbn. rewrite (nth_indep _ 0 (1 / INR (hc_n h))) by (rewrite repeat_length; exact Hi). rewrite nth_repeat. unfold Rdiv. ring.
    - destruct (leftright_usable (hc_n h) HN) as (t & Et & St & Nt). change (num RA) with R in *. rewrite Et. cbn [bind]. eexists. eexists. split; [reflexivity|]. split; [exact St|]. split; [intros _; exact Nt|]. split; [discriminate|]. split; [intros; apply (first_leftright (hc_n h) t); assumption|]. intros; reflexivity. }
  destruct TR as (pr & tr & ET & ST & NJ & PD & FT & FP). unfold hm_default. change (num RA) with R in *. rewrite ET. cbn [bind].
  (* default states *)
  destruct (default_pos g dev Sg) as (gd & Ed & Sd & Pd & SRd & Dd & Bd & Dmd & Id & Wd & Pard & Bufd); [rewrite D; exact Ldev|exact SAg|].
  assert (PG : gc_par g = class_par h).
  { pose proof (alloc_par h h1 E1) as F. rewrite S1 in F. rewrite Forall_forall in F. apply F. destruct (hc_n h); [lia|left; reflexivity]. }
  assert (GD : gc_coef gd = repeat (/ INR (hp_gauss (hc_par h))) (hp_gauss (hc_par h)) /\ gc_reg gd = map (fun s => Rmax (hp_abs (hc_par h)) (hp_rel (hc_par h) * s)) dev).
  { destruct (default_ok g dev Sg) as (cs & Ecs & _); [rewrite D; exact Ldev|]. change (num RA) with R in *. rewrite Ed in Ecs. injection Ecs as ->. cbn [gc_coef gc_reg gc_set_reg gc_set_comp gc_set_coef]. unfold init_reg. rewrite PG, Ng. split; reflexivity. }
  destruct GD as (GC & GR).
  assert (ES : tabM (hc_n h1) (fun i => let* g := rd (h_states (hc_net h1)) i in gm_default (A := RA) dev g) = Ok (tab (hc_n h1) (fun _ => gd))).
  { apply tabM_ok. intros i Hi. rewrite S1. rewrite (rd_nth _ i g) by (rewrite repeat_length; lia). rewrite nth_repeat. cbn [bind]. exact Ed. }
  change (num RA) with R in *. rewrite ES. cbn [bind]. unfold hm_init_states.
  set (h1' := hc_set_net (A := RA) (mkNet (tab (hc_n h1) (fun _ => gd)) pr tr (h_exit (hc_net h1))) h1).
  change (hc_n h1') with (hc_n h1). change (h_states (hc_net h1')) with (tab (hc_n h1) (fun _ => gd)).
  assert (Nd : gc_n gd = hp_gauss (hc_par h)) by (unfold gc_n in *; rewrite Pard; exact Ng). assert (Md : gc_mode gd = hp_mode (hc_par h)) by (unfold gc_mode in *; rewrite Pard; exact Mg).
  destruct (tabM_ex no_state (fun s g' => (state_usable h g' /\ strong_reg g') /\ state_value iters devs dev data h s g') (hc_n h1) (fun s => let* g := rd (tab (hc_n h1) (fun _ => gd)) s in match seg_data (A := RA) (hc_n h1) s data with [] => Ok g | l :: l0 =>
      let* f := gm_fit (A := RA) h1' (iters s) (l :: l0) (devs s) in adopt (A := RA) f g end)) as (ss & Ess & Lss & Pss).
  { intros s Hs. rewrite (rd_nth _ s gd) by (rewrite tab_length; exact Hs). rewrite nth_tab by exact Hs. cbn [bind]. rewrite EN in *.
    destruct (seg_data_ok (hc_n h) (hp_gauss (hc_par h)) s data HN HG Hs EX) as (NE & CN & SC).
    destruct (fit_ok h1' (iters s) (seg_data (A := RA) (hc_n h) s data) (devs s)) as (f & Ef & Rf & Pf & Bf & Df & If & Nf & Mf).
    - change (hc_par h1') with (hc_par h1). rewrite Q5. exact HG.
    - unfold hmm_dims. change (hc_bim h1') with (hc_bim h1). change (hc_dim h1') with (hc_dim h1). change (hc_din h1') with (hc_din h1). rewrite Q1, Q2, Q3. exact HD.
    - unfold hmm_abs. change (hc_par h1') with (hc_par h1). rewrite Q5. exact HA.
    - change (hc_dim h1') with (hc_dim h1). rewrite Q2. apply Ldevs. exact Hs.
    - exact NE.
    - exact CN.
    - change (hc_dim h1') with (hc_dim h1). rewrite Q2. apply seg_data_frames. revert HF. apply Forall_impl. intros ph (_ & F). exact F.
    - change (hc_par h1') with (hc_par h1). rewrite Q5. exact SC.
    - change (hc_bim h1') with (hc_bim h1) in Bf. change (hc_dim h1') with (hc_dim h1) in Df. change (hc_din h1') with (hc_din h1) in If. change (hc_par h1') with (hc_par h1) in Nf, Mf. rewrite Q1 in Bf. rewrite Q2 in Df. rewrite Q3 in If. rewrite Q5 in Nf, Mf.
      pose proof Rf as ((F1 & F2 & F3 & F4 & F5) & _).
      destruct (adopt_ok f gd Sd Pd) as (g' & Eg & Rg & SC' & CE & AV).
      + replace (gc_n gd) with (gc_n g) by (rewrite Nd, Ng; reflexivity). exact Dd.
      + change (num RA) with R in *. rewrite F3, Nf, Nd. reflexivity.
      + revert F5. apply Forall_impl. intros k (X0 & X1 & X2 & X3 & X4). unfold fits_class. rewrite Bd, Dmd, Id, Md, B, D, I. split; [exact X0|]. rewrite X1, X2, X3, X4. auto.
      + exact Pf.
      + change (num RA) with R in *. exists g'. split.
        { destruct (seg_data (A := RA) (hc_n h) s data) as [|q qs]; [contradiction|]. apply (bind_eq _ _ f); [exact Ef|exact Eg]. }
        destruct SC' as (C1 & C2 & C3 & C4 & C5 & C6 & C7 & C8). split.
        { unfold state_usable, strong_reg, gc_n, gc_mode in *. rewrite C1, C2, C3, C5, C7, C8, Bd, Dmd, Id, Bufd. rewrite Dmd in SRd. split; [rewrite B, D, I; auto 10|exact SRd]. }
        exists f. split; [|split; [|split]].
        { rewrite <- (seg_pieces (hc_n h) s data Hs). unfold gm_fit in Ef. apply bind_ok_inv in Ef. destruct Ef as (g1 & F6 & Ef). apply bind_ok_inv in Ef. destruct Ef as (g2 & F7 & Ef).
          exists (new_mixture h1' (hc_win h1')), g1, g2. cbn. rewrite Q1, Q2, Q3, Q5. split; [reflexivity|]. split; [reflexivity|]. split; [reflexivity|]. split; [reflexivity|]. split; [exact F6|]. split; [exact F7|exact Ef]. }
        { intros c Hc. unfold weight. rewrite CE, GC. apply coef_uniform. exact Hc. }
        { intros c Hc. apply AV. rewrite Nd. exact Hc. }
        { intros d Hd. rewrite C7, GR. rewrite (nth_indep _ 0 (Rmax (hp_abs (hc_par h)) (hp_rel (hc_par h) * 0))) by (rewrite map_length, Ldev; exact Hd). rewrite (map_nth (fun s => Rmax (hp_abs (hc_par h)) (hp_rel (hc_par h) * s)) dev 0 d). reflexivity. } }
  assert (DN : data <> []) by exact Hne. destruct data as [|d0 data0] eqn:ED; [contradiction|]. cbn [bind]. rewrite <- ED in *.
  change (num RA) with R in *. rewrite Ess. cbn [bind]. eexists. split; [exact E1|]. split; [reflexivity|].
  rewrite EN in *. split; [|split; [exact K1|split; [|split]]].
  2:{ intros i j Hi Hj. unfold hc_trans. change (hc_n (hc_set_net (A := RA) _ _)) with (hc_n h1). change (hc_mode (hc_set_net (A := RA) _ _)) with (hc_mode h1). rewrite EN, EM. apply FT; assumption. }
  2:{ intros i Hi. unfold hc_prior. change (hc_mode (hc_set_net (A := RA) _ _)) with (hc_mode h1). rewrite EM. apply FP; assumption. }
  2:{ intros s Hs. apply Pss. exact Hs. }
  split; [|split; [|split]].
  - unfold hmm_usable. cbn [hc_net hc_set_net h_states nt_states h_trans h_prior]. change (hc_n (hc_set_net (A := RA) _ _)) with (hc_n h1). change (hc_mode (hc_set_net (A := RA) _ _)) with (hc_mode h1). rewrite EN, EM. split; [exact HN|]. split; [exact Lss|]. split.
    + apply (Forall_at _ _ no_state). change (num RA) with R in *. rewrite Lss. intros i Hi. destruct (Pss i Hi) as ((U & _) & _). unfold state_usable in *. cbn [hc_bim hc_dim hc_din hc_par hc_set_net h1']. rewrite Q1, Q2, Q3, Q5. exact U.
    + split; [apply stochastic_usable; exact ST|]. split; [exact PD|]. cbn. rewrite Q4. exact HW.
  - cbn [hc_net hc_set_net h_states nt_states]. apply (Forall_at _ _ no_state). change (num RA) with R in *. rewrite Lss. intros i Hi. apply Pss. exact Hi.
  - change (hc_n (hc_set_net (A := RA) _ _)) with (hc_n h1). change (hc_mode (hc_set_net (A := RA) _ _)) with (hc_mode h1). rewrite EN, EM. exact NJ.
  - change (hc_n (hc_set_net (A := RA) _ _)) with (hc_n h1). intros _. rewrite EN. exact Al.
Qed.


Lemma state_one : forall iters devs dev data h s g, hmm_trainable h devs dev data -> hp_gauss (hc_par h) = 1%nat -> (s < hc_n h)%nat -> (1 <= iters s)%nat ->
  state_usable h g -> state_value iters devs dev data h s g ->
  (forall d, (d < hc_dim h)%nat -> gmean (comp_at g 0) d = avg (fun x => nth d x 0) (concat (pieces (hc_n h) s data))) /\
  (forall i j, (i < hc_dim h)%nat -> (j < hc_dim h)%nat -> gcov (comp_at g 0) i j = regular_cov h (concat (pieces (hc_n h) s data)) (devs s) i j).
Proof.
  intros iters devs dev data h s g (HN & HG & HW & HD & HA & Ldev & Ldevs & (Hne & HF) & EX) G1 Hs HI U (f & FT & _ & V & _). specialize (Ldevs s Hs). rewrite G1 in *. destruct (V 0%nat ltac:(lia)) as (VM & VC).
  destruct FT as (g0 & g1 & g2 & F1 & F2 & F3 & F4 & F5 & F6 & F7). rewrite <- (seg_pieces (hc_n h) s data Hs) in *. set (sd := seg_data (A := RA) (hc_n h) s data) in *.
  destruct (seg_data_ok (hc_n h) 1 s data HN (le_n 1) Hs EX) as (NE & CN & SC). fold sd in NE, CN, SC.
  assert (N0 : gc_n g0 = 1%nat) by (unfold gc_n; rewrite F4; exact G1).
  destruct (alloc_shape g0) as (g1' & A1 & A2 & A3 & A4 & A5 & A6 & A7 & A8); [lia|unfold good_dims; rewrite F1, F2, F3; exact HD|]. rewrite F5 in A1. injection A1 as <-.
  assert (SF : Forall (Forall (fun x => length x = hc_dim h)) sd) by (apply seg_data_frames; revert HF; apply Forall_impl; intros ph (_ & F); exact F).
  assert (N1 : gc_n g1 = 1%nat) by (unfold gc_n in *; rewrite A7; exact N0).
  destruct (init_total g1 (devs s) sd A2) as (g2' & k' & I1 & _ & I3 & I4 & I5 & I6 & I7 & I8 & I9 & I10 & _ & _ & IC).
  { rewrite A4, F2. exact Ldevs. } { exact NE. } { rewrite A4, F2. exact SF. } { rewrite N1. exact SC. } { unfold strong_abs, gc_mode. rewrite A7, F4. exact HA. }
  change (num RA) with R in *. rewrite F6 in I1. injection I1 as <-.
  assert (N2 : gc_n g2 = 1%nat) by (unfold gc_n in *; rewrite I10; exact N1). assert (D2 : gc_dim g2 = hc_dim h) by congruence.
  assert (M2 : gc_mode g2 = hp_mode (hc_par h)) by (unfold gc_mode; rewrite I10, A7, F4; reflexivity).
  assert (FF : Forall (fun x => length x = gc_dim g2) (concat sd)). { rewrite D2. rewrite Forall_forall in *. intros x Hx. apply in_concat in Hx. destruct Hx as (ph & Hp & Hx). specialize (SF ph Hp). rewrite Forall_forall in SF. apply SF. exact Hx. }
  destruct (iters s) as [|k]; [lia|]. destruct (one_updates k (concat sd) g2 f I3 I4 N2 CN FF F7) as (OM & OC). rewrite D2 in OM, OC. rewrite M2, I5 in OC.
  assert (PP : Forall pos_cov (gc_comp g2)).
  { apply (init_pos g1 g2 (devs s) sd A2); try assumption; [rewrite A4, F2; exact Ldevs|rewrite N1; exact SC|unfold strong_abs, gc_mode; rewrite A7, F4; exact HA]. }
  destruct (updates_pos (S k) (concat sd) g2 I3 I4 PP CN FF) as (f' & UE & UR & (C1 & C2 & C3 & C4 & C5 & _) & _).
  change (num RA) with R in *. rewrite F7 in UE. injection UE as <-.
  destruct UR as ((_ & _ & L3 & _ & FF') & _). destruct U as (((_ & _ & L4 & _ & FG) & _) & UB & UD & UI & UN & UM & _).
  assert (NF : gc_n f = 1%nat) by (unfold gc_n in *; rewrite C5; exact N2). rewrite NF in L3. rewrite UN, G1 in L4.
  rewrite Forall_forall in FF', FG. destruct (FF' (comp_at f 0)) as (_ & _ & X2 & _ & X4); [apply nth_In; change (num RA) with R in *; lia|].
  destruct (FG (comp_at g 0)) as (_ & _ & Y2 & _ & Y4); [apply nth_In; change (num RA) with R in *; lia|].
  assert (EM : gc_mode f = hp_mode (hc_par h)) by (unfold gc_mode in *; rewrite C5; exact M2).
  split.
  - intros d Hd. rewrite <- OM by exact Hd. unfold gmean. rewrite VM. reflexivity.
  - intros i j Hi Hj. unfold gcov. rewrite VC, Y2, Y4, UD, UM. replace (stored (hp_mode (hc_par h)) (hc_dim h) (g_cov (comp_at f 0)) i j) with (gcov (comp_at f 0) i j) by (unfold gcov; rewrite X2, X4, C2, D2, EM; reflexivity).
    rewrite OC by assumption. unfold regular_cov, init_reg. rewrite A7, F4. unfold class_par. cbn [gp_abs gp_rel].
    rewrite (nth_indep _ 0 (Rmax (hp_abs (hc_par h)) (hp_rel (hc_par h) * 0))) by (rewrite map_length, Ldevs; exact Hi).
    rewrite (map_nth (fun s => Rmax (hp_abs (hc_par h)) (hp_rel (hc_par h) * s)) (devs s) 0 i). reflexivity.
Qed.

(** ** Phrases shorter than the number of states *)

Lemma run_reg_det : forall r (k k' : gauss RA), runm (g_regularize r) k = Ok k' -> g_det k' = g_det k /\ g_bim k' = g_bim k.
Proof.
  intros r k k' E. unfold runm, g_regularize, sbind, sget, slift, smod in E. cbn in E. destruct (iterM _ _ _); cbn in E; try discriminate. injection E as <-. split; reflexivity.
Qed.

Definition dead (h : hclass RA) (g : gclass RA) : Prop := (1 <= gc_n g)%nat /\ length (gc_coef g) = gc_n g /\ length (gc_comp g) = gc_n g /\ gc_bim g = hc_bim h /\ Forall (fun k : gauss RA => g_det k = 0 /\ g_bim k = hc_bim h) (gc_comp g).

Lemma accM_throw : forall n (f : nat -> res R) s e, (1 <= n)%nat -> f 0%nat = Throw e -> accM (A := RA) n f s = Throw e.
Proof. induction n as [|n IH]; intros f s e Hn F; [lia|]. unfold accM in *. cbn [iterM]. destruct n as [|n]; [cbn [iterM bind]; rewrite F; reflexivity|]. rewrite (IH f s e) by (try lia; exact F). reflexivity. Qed.
Lemma tabM_throw : forall X n (f : nat -> res X) e, (1 <= n)%nat -> f 0%nat = Throw e -> tabM n f = Throw e.
Proof. induction n as [|n IH]; intros f e Hn F; [lia|]. cbn [tabM]. destruct n as [|n]; [cbn [tabM bind]; rewrite F; reflexivity|]. rewrite (IH f e) by (try lia; exact F). reflexivity. Qed.

Lemma tabM_all : forall X (P : X -> Prop) n f v, (forall i x, f i = Ok x -> P x) -> tabM n f = Ok v -> Forall P v.
Proof.
  intros X P n f v H. revert v. induction n as [|n IH]; intros v E; cbn [tabM] in E; [injection E as <-; constructor|]. apply bind_ok_inv in E. destruct E as (v0 & E0 & E). apply bind_ok_inv in E. destruct E as (x & E1 & E). injection E as <-.
  apply Forall_app. split; [apply IH; exact E0|]. constructor; [apply (H n); exact E1|constructor].
Qed.

Lemma dead_obs : forall h g x, dead h g -> hm_frame_obs (A := RA) h g x = Throw RuntimeError.
Proof.
  intros h g x (N & LC & LK & B & F). rewrite Forall_forall in F. destruct (F (comp_at g 0)) as (D0 & DB); [apply nth_In; change (num RA) with R in *; lia|].
  assert (Z : @neqb RA (g_det (comp_at g 0)) (@n0 RA) = true) by (rewrite D0, n0_RA; cbn; destruct (Req_EM_T 0 0); [reflexivity|contradiction]).
  unfold hm_frame_obs, gm_obs_bim_all, gm_obs_all. destruct (hc_bim h).
  - apply accM_throw; [exact N|]. unfold gm_obs_bim. rewrite B. cbn [negb]. rewrite (rd_nth _ 0 (0 : R)) by (change (num RA) with R in *; lia). cbn [bind]. rewrite (rd_nth _ 0 no_gauss) by (change (num RA) with R in *; lia). cbn [bind].
    fold (comp_at g 0). unfold g_likelihood_bimodal. rewrite DB. cbn [negb]. rewrite Z. reflexivity.
  - apply accM_throw; [exact N|]. unfold gm_obs. destruct (Nat.leb_spec (gc_n g) 0); [lia|]. rewrite (rd_nth _ 0 (0 : R)) by (change (num RA) with R in *; lia). cbn [bind]. rewrite (rd_nth _ 0 no_gauss) by (change (num RA) with R in *; lia). cbn [bind].
    fold (comp_at g 0). unfold g_likelihood. rewrite Z. reflexivity.
Qed.

Lemma dead_update : forall h data, (1 <= hc_n h)%nat -> (1 <= length (h_states (hc_net h)))%nat -> dead h (state_at h 0) -> Exists (fun ph => ph <> []) data -> hm_update (A := RA) data h = Throw RuntimeError.
Proof.
  intros h data HN HL D EX. unfold hm_update. assert (E : forall al, hm_esteps (A := RA) h al data = Throw RuntimeError).
  { induction data as [|ph data IH]; intro al; [inversion EX|]. cbn [hm_esteps]. destruct ph as [|x ph].
    - cbn [bind]. rewrite IH; [reflexivity|]. inversion EX as [? ? X|? ? X]; subst; [contradiction|exact X].
    - unfold hm_estep. cbn [mapM]. rewrite (tabM_throw _ _ _ RuntimeError HN); [reflexivity|].
      rewrite (rd_nth _ 0 no_state) by (change (num RA) with R in *; lia). cbn [bind]. apply dead_obs. exact D. }
  rewrite E. reflexivity.
Qed.

Lemma seg_short : forall N s (data : list (list (list R))), Forall (fun ph => length ph < N)%nat data -> seg_data (A := RA) N s data = [].
Proof.
  intros N s data F. unfold seg_data. induction F as [|ph data H F IH]; [reflexivity|]. cbn [flat_map]. rewrite IH. rewrite Nat.div_small by exact H. reflexivity.
Qed.

Lemma short_throws : forall iters devs dev data k h, (1 <= hc_n h)%nat -> (1 <= hp_gauss (hc_par h))%nat -> hmm_dims h -> length dev = hc_dim h ->
  Forall (fun ph => length ph < hc_n h)%nat data -> Exists (fun ph => ph <> []) data ->
  (exists h1 h2, hm_allocate (A := RA) h = Ok h1 /\ hm_init (A := RA) iters devs dev data h1 = Ok h2 /\ hm_update (A := RA) data h2 = Throw RuntimeError) /\
  hm_train (A := RA) iters devs dev (S k) data h = Throw RuntimeError.
Proof.
  intros iters devs dev data k h HN HG HD Ldev HF EX.
  assert (X : exists h1 h2, hm_allocate (A := RA) h = Ok h1 /\ hm_init (A := RA) iters devs dev data h1 = Ok h2 /\ hm_update (A := RA) data h2 = Throw RuntimeError).
  2:{ split; [exact X|]. destruct X as (h1 & h2 & E1 & E2 & E3). unfold hm_train. change (num RA) with R in *. rewrite E1. cbn [bind]. rewrite E2. cbn [bind hm_updates]. rewrite E3. reflexivity. }
  destruct (allocate_ok h HN HG HD) as (h1 & g & E1 & S1 & Sg & B & D & I & W & Ng & Mg & Ag & Wg & Al & K1 & Pr). exists h1. pose proof K1 as (Q1 & Q2 & Q3 & Q4 & Q5 & Q6 & Q7 & Q8).
  assert (EN : hc_n h1 = hc_n h) by (unfold hc_n; rewrite Q5; reflexivity).
  assert (DG : Forall (fun k : gauss RA => g_det k = 0 /\ g_bim k = hc_bim h) (gc_comp g)).
  { assert (IG : In g (h_states (hc_net h1))) by (rewrite S1; destruct (hc_n h); [lia|left; reflexivity]).
    clear - E1 IG. unfold hm_allocate in E1. apply bind_ok_inv in E1. destruct E1 as (g' & E & E1). assert (G : g = g').
    { cbn [hc_hier hc_set_net hc_set_run] in E1. destruct (hc_hier h).
      - unfold hm_exit_default in E1. destruct (negb _); [discriminate|]. apply bind_ok_inv in E1. destruct E1 as (e & _ & E1). injection E1 as <-. cbn in IG. symmetry. apply repeat_spec in IG. auto.
      - injection E1 as <-. cbn in IG. apply repeat_spec in IG. auto. }
    subst g'. unfold gm_allocate in E. apply bind_ok_inv in E. destruct E as (c & E & E2). injection E2 as <-. cbn [gc_comp gc_set_comp]. apply Forall_forall. intros k Hk. apply repeat_spec in Hk. subst k.
    unfold g_new in E. destruct (_ <? _)%nat; [discriminate|]. destruct (_ <? _)%nat; [discriminate|]. injection E as <-. unfold g_allocate. cbn. destruct (hp_mode (hc_par h)); cbn; destruct (hc_bim h) eqn:HB; cbn; rewrite ?n0_RA; auto. }
  destruct (default_ok g dev Sg) as (cs & Ed & Lcs & Fcs & _); [rewrite D; exact Ldev|]. set (gd := gc_set_reg (A := RA) _ _) in Ed.
  unfold hm_init. destruct data as [|ph0 data0] eqn:EDT; [inversion EX|]. rewrite <- EDT in *. clear ph0 data0 EDT.
  unfold hm_default.
  assert (TR : exists p, match hc_mode h1 with Ergodic => Ok (set_ergodic (A := RA) (hc_n h1)) | LeftRight => let* t := set_leftright (A := RA) (hc_n h1) in Ok (h_prior (hc_net h1), t) end = Ok p).
  { rewrite EN. destruct (hc_mode h1); [eexists; reflexivity|]. destruct (leftright_usable (hc_n h) HN) as (t & Et & _). change (num RA) with R in *. rewrite Et. cbn [bind]. eexists. reflexivity. }
  destruct TR as ((pr & tr) & ET). change (num RA) with R in *. rewrite ET. cbn [bind].
  assert (ES : tabM (hc_n h1) (fun i => let* g := rd (h_states (hc_net h1)) i in gm_default (A := RA) dev g) = Ok (tab (hc_n h1) (fun _ => gd))).
  { apply tabM_ok. intros i Hi. rewrite S1. rewrite (rd_nth _ i g) by (rewrite repeat_length; lia). rewrite nth_repeat. cbn [bind]. exact Ed. }
  change (num RA) with R in *. rewrite ES. cbn [bind]. unfold hm_init_states.
  set (h1' := hc_set_net (A := RA) _ h1).
  change (hc_n h1') with (hc_n h1). change (h_states (hc_net h1')) with (tab (hc_n h1) (fun _ => gd)).
  assert (E2 : tabM (hc_n h1) (fun s => let* g := rd (tab (hc_n h1) (fun _ => gd)) s in match seg_data (A := RA) (hc_n h1) s data with [] => Ok g | l :: l0 =>
      let* f := gm_fit (A := RA) h1' (iters s) (l :: l0) (devs s) in adopt (A := RA) f g end) = Ok (tab (hc_n h1) (fun _ => gd))).
  { apply tabM_ok. intros i Hi. rewrite (rd_nth _ i gd) by (rewrite tab_length; exact Hi). rewrite nth_tab by exact Hi. cbn [bind]. rewrite seg_short by (rewrite EN; exact HF). reflexivity. }
  destruct data as [|d0 data0] eqn:EDT; [inversion EX|]. cbn [bind]. rewrite <- EDT in *. change (num RA) with R in *. rewrite E2. cbn [bind]. eexists. split; [exact E1|]. split; [reflexivity|].
  apply dead_update.
  - change (hc_n (hc_set_net (A := RA) _ _)) with (hc_n h1). lia.
  - cbn [hc_net hc_set_net h_states nt_states]. change (num RA) with R in *. rewrite tab_length. lia.
  - unfold state_at. cbn [hc_net hc_set_net h_states nt_states]. rewrite nth_tab by lia. unfold dead. change (hc_bim (hc_set_net (A := RA) _ _)) with (hc_bim h1). rewrite Q1. unfold gd. cbn [gc_comp gc_coef gc_bim gc_set_reg gc_set_comp gc_set_coef]. change (gc_n (gc_set_reg (A := RA) _ _)) with (gc_n g). change (num RA) with R in *. rewrite repeat_length.
    split; [lia|]. split; [reflexivity|]. split; [exact Lcs|]. split; [exact B|].
    unfold gm_default in Ed. apply bind_ok_inv in Ed. destruct Ed as (cs' & Ec & Ed). assert (Ecs : cs' = cs) by (injection Ed; intros; assumption). subst cs'.
    revert Ec. apply tabM_all. intros i x E. apply bind_ok_inv in E. destruct E as (k0 & Ek & E). apply run_reg_det in E. cbn [g_det g_bim g_set_cov] in E. destruct E as (-> & ->).
    rewrite Forall_forall in DG. apply DG. revert Ek. unfold rd. destruct (nth_error (gc_comp g) i) eqn:NE; [|discriminate]. intro Ek. injection Ek as <-. eapply nth_error_In. exact NE.
  - exact EX.
Qed.
