(** Training of one class of a mixture model from its phrases. *)
From Coq Require Import String List Bool Arith Lia ZArith Reals Lra.
From Verif Require Import Base BaseFacts Arith RFacts Model_Map Model_Ring Model_Phrase Model_TrainingSet Model_Gaussian Model_Config Model_KMeans Model_GMM
  Model_Shared Model_Train Model_Reload Model_Workflow Spec_Common Spec_Phrase Spec_TrainingSet Spec_Train Spec_Shared Spec_Matrix Spec_Gaussian Spec_GMM Spec_Workflow
  Proofs_Map Proofs_Phrase Proofs_PhraseStats Proofs_TrainingStats Proofs_Train Proofs_GMM Proofs_GMM2 Proofs_GMM3 Proofs_GMM4 Proofs_Workflow.
Import ListNotations.
Local Open Scope list_scope.
Local Open Scope nat_scope.

Local Notation phrase := (phrase (A:=RA)).

Lemma init_buf : forall data dev (g h : gclass RA), gm_init (A := RA) data dev g = Ok h -> gc_buf h = gc_buf g.
Proof.
  intros data dev g h H. unfold gm_init in H.
  destruct (gm_default dev g) as [a| |] eqn:E1; cbn [bind] in H; try discriminate.
  destruct (gm_init_means data a) as [b| |] eqn:E2; cbn [bind] in H; try discriminate.
  destruct (gm_init_cov data b) as [c| |] eqn:E3; cbn [bind] in H; try discriminate.
  destruct (gm_offset c) as [d| |] eqn:E4; cbn [bind] in H; try discriminate.
  assert (B1 : gc_buf a = gc_buf g).
  { unfold gm_default in E1. destruct (tabM (A := gauss RA) _ _) as [x| |]; cbn [bind] in E1; try discriminate. injection E1 as <-. reflexivity. }
  assert (B2 : gc_buf b = gc_buf a).
  { unfold gm_init_means in E2. destruct data; [injection E2 as <-; reflexivity|]. destruct (km_train _ _ _ _ _) as [k| |]; cbn [bind] in E2; try discriminate.
    destruct (tabM (A := gauss RA) _ _) as [x| |]; cbn [bind] in E2; try discriminate. injection E2 as <-. reflexivity. }
  assert (B3 : gc_buf c = gc_buf b).
  { unfold gm_init_cov in E3. destruct data; [injection E3 as <-; reflexivity|]. cbv zeta in E3.
    destruct (tabM (A := gauss RA) _ _) as [x| |]; cbn [bind] in E3; try discriminate. injection E3 as <-. reflexivity. }
  assert (B4 : gc_buf d = gc_buf c).
  { unfold gm_offset in E4. destruct (mapM _ _) as [x| |]; cbn [bind] in E4; try discriminate. injection E4 as <-. reflexivity. }
  unfold gm_inverses in H. destruct (rethrow _) as [x| |]; cbn [bind] in H; try discriminate. injection H as <-. cbn [gc_buf gc_set_comp]. congruence.
Qed.

(** ** Rounds of updates *)

Lemma updates_snoc : forall n frames (g h h' : gclass RA) x, gm_updates (A := RA) n frames g = Ok h -> gm_update (A := RA) frames h = Ok (h', x) ->
  gm_updates (A := RA) (S n) frames g = Ok h'.
Proof.
  induction n as [|n IH]; intros frames g h h' x E U.
  - cbn [gm_updates] in *. injection E as ->. rewrite U. reflexivity.
  - cbn [gm_updates] in E |- *. destruct (gm_update frames g) as [[g1 y]| |] eqn:E1; cbn [bind] in E |- *; try discriminate.
    apply (IH frames g1 h h' x E U).
Qed.

Definition em_step (frames : list (list R)) (g h : gclass RA) (x : num RA) : Prop :=
  gm_update (A := RA) frames g = Ok (h, x) /\ x = data_loglik g frames.

Lemma rounds_count : forall p frames n old ll g h, rounds (A := RA) p (em_step frames) n old ll g h ->
  forall g2, gm_updates (A := RA) n frames g2 = Ok g -> ll_after frames g2 n ll -> ll_after frames g2 (n - 1) old ->
  exists m, n <= m /\ gm_updates (A := RA) m frames g2 = Ok h /\
    (exists prev ll, ll_after frames g2 (m - 1) prev /\ ll_after frames g2 m ll /\ stop_rule p m prev ll) /\
    (forall k, n <= k < m -> exists prev ll, ll_after frames g2 (k - 1) prev /\ ll_after frames g2 k ll /\ ~ stop_rule p k prev ll).
Proof.
  intros p frames n old ll g h H. induction H as [n old ll g S|n old ll g g' x h NS (St & Sx) H IH]; intros g2 E L1 L2.
  - exists n. split; [lia|]. split; [exact E|]. split; [exists old, ll; auto|]. intros k Hk. lia.
  - destruct (IH g2) as (m & Hm & E' & ST & BE).
    + exact (updates_snoc n frames g2 g g' x E St).
    + cbn [ll_after]. exists g. auto.
    + rewrite Nat.sub_succ, Nat.sub_0_r. exact L1.
    + exists m. split; [lia|]. split; [exact E'|]. split; [exact ST|]. intros k Hk. destruct (Nat.eq_dec k n) as [->|N]; [exists old, ll; auto|apply BE; lia].
Qed.

Lemma not_at_0 : forall (p : em_settings RA) a b, 1 <= em_min p -> ~ stop_rule p 0 a b.
Proof. intros p a b H [C|[(C1 & C2)|(C1 & C2 & _)]]; lia. Qed.

Lemma rounds_stop_at : forall p frames g2 h, 1 <= em_min p -> rounds (A := RA) p (em_step frames) 0 lowest lowest g2 h ->
  exists n, gm_updates (A := RA) n frames g2 = Ok h /\ stops_at p frames g2 n.
Proof.
  intros p frames g2 h Hm H. destruct (rounds_count p frames 0 _ _ g2 h H g2 eq_refl eq_refl eq_refl) as (n & _ & E & (a & b & A1 & A2 & A3) & BE).
  exists n. split; [exact E|]. split; [|split; [exists a, b; auto|]].
  - destruct n; [exfalso; exact (not_at_0 p a b Hm A3)|lia].
  - intros k Hk. apply BE. lia.
Qed.

(** ** One class *)

Lemma reps_data : forall ps ss, Forall2 rep ps ss -> mapM (phrase_frames (A := RA)) ps = Ok (map (frames_of (A := RA)) ss).
Proof.
  intros ps ss H. induction H as [|p s ps ss HR HF IH]; [reflexivity|]. cbn [mapM map]. rewrite (phrase_frames_ok p s HR). cbn [bind]. rewrite IH. reflexivity.
Qed.

Lemma all_frames_concat : forall ss : list (contents RA), all_frames ss = concat (map (frames_of (A := RA)) ss).
Proof. intro ss. unfold all_frames. apply flat_map_concat_map. Qed.

Lemma seg_count_pos : forall G (data : list (list (list R))) ph, 1 <= G -> In ph data -> G <= length ph -> 1 <= seg_count (A := RA) G data.
Proof.
  intros G data ph HG Hin Hl. unfold seg_count.
  assert (P : forall l acc, acc <= fold_left (fun s (q : list (list R)) => s + length q / G) l acc).
  { induction l as [|q l IH]; intro acc; cbn [fold_left]; [lia|]. specialize (IH (acc + length q / G)). lia. }
  assert (Q : forall l acc, In ph l -> 1 <= fold_left (fun s (q : list (list R)) => s + length q / G) l acc).
  { induction l as [|q l IH]; intros acc Hi; [destruct Hi|]. cbn [fold_left]. destruct Hi as [->|Hi]; [|apply IH; exact Hi].
    assert (1 <= length ph / G) by (apply Nat.div_le_lower_bound; lia). specialize (P l (acc + length ph / G)). lia. }
  apply Q. exact Hin.
Qed.

Lemma real_not_nan : forall a b : num RA, nisnan (pct_change a b b) = false.
Proof. reflexivity. Qed.

Lemma class_learned : forall (p : em_settings RA) (g0 : gclass RA) ps ss, 1 <= em_min p ->
  Forall2 rep ps ss -> (forall s, In s ss -> s_dim s = gc_dim g0) -> 1 <= gc_n g0 -> good_dims g0 -> strong_abs g0 ->
  (exists s, In s ss /\ gc_n g0 <= length (frames_of s)) ->
  exists s', em_train (gm_hooks (gc_dim g0) ps) p (fun _ => false) 1000 false (train_start g0) = (s', Returned) /\ t_status s' = Done /\
    learned p g0 (map (frames_of (A := RA)) ss) (t_m s') /\ gm_ready (t_m s') /\
    gc_bim (t_m s') = gc_bim g0 /\ gc_dim (t_m s') = gc_dim g0 /\ gc_din (t_m s') = gc_din g0 /\ gc_win (t_m s') = gc_win g0 /\
    gc_par (t_m s') = gc_par g0 /\ gc_buf (t_m s') = gc_buf g0.
Proof.
  intros p g0 ps ss Hp HF Hd Hn GD SA (s0 & Hs0 & Hl0).
  destruct (alloc_shape g0 Hn GD) as (g1 & E1 & Sh1 & A1 & A2 & A3 & A4 & A5 & A6).
  set (data := map (frames_of (A := RA)) ss). set (frames := concat data).
  assert (DN : data <> []) by (unfold data; destruct ss; [destruct Hs0|discriminate]).
  assert (DD : Forall (Forall (fun x => length x = gc_dim g0)) data).
  { unfold data. clear -HF Hd. induction HF as [|q s ps ss HR HF IH]; cbn [map]; constructor.
    - rewrite <- (Hd s (or_introl eq_refl)). apply (frames_dim q s HR).
    - apply IH. intros. apply Hd. right. assumption. }
  assert (DF : Forall (fun x => length x = gc_dim g0) frames).
  { unfold frames. clear -DD. induction DD as [|a l H F IH]; cbn [concat]; [constructor|]. apply Forall_app. split; assumption. }
  assert (FN : frames <> []).
  { unfold frames, data. intro C. destruct (frames_of s0) as [|x l] eqn:Ex; [cbn in Hl0; lia|].
    assert (In x (concat (map (frames_of (A := RA)) ss))); [|rewrite C in H; destruct H]. apply in_concat. exists (frames_of s0). split; [apply in_map; exact Hs0|]. rewrite Ex. left. reflexivity. }
  assert (N1 : gc_n g1 = gc_n g0) by (unfold gc_n; rewrite A5; reflexivity).
  assert (SC : 1 <= seg_count (A := RA) (gc_n g1) data).
  { apply (seg_count_pos _ _ (frames_of s0)); rewrite ?N1; auto. unfold data. apply in_map. exact Hs0. }
  assert (SA1 : strong_abs g1) by (unfold strong_abs, gc_mode in *; rewrite A5; exact SA).
  set (dev := deviations (gc_dim g0) frames).
  assert (LD : length dev = gc_dim g1) by (unfold dev, deviations; rewrite tab_length, A2; reflexivity).
  destruct (init_total g1 dev data Sh1 LD DN) as (g2 & km & E2 & _ & R2 & S2 & _ & B1 & B2 & B3 & B4 & B5 & _).
  { rewrite A2. exact DD. } { exact SC. } { exact SA1. }
  pose proof (init_buf data dev g1 g2 E2) as B6.
  destruct (train_rounds (gm_hooks (gc_dim g0) ps) p
    (fun g => gm_ready g /\ strong_reg g /\ same_class g2 g) (em_step frames) g0 g1 g2 real_not_nan) as (s' & E & D & (I1 & I2 & I3) & RD).
  - intros g (R1 & S1 & C1). pose proof C1 as (C2 & C3 & C4 & C5 & C6 & C7 & C8 & C9).
    destruct (update_total g frames (proj1 R1) (proj1 (proj2 R1)) (proj1 (proj2 (proj2 R1)))) as (g' & EU & AU & RU); [|exact FN|exact (proj1 S1)|exact S1|].
    { rewrite C3, B2, A2. exact DF. }
    exists g', (data_loglik g frames). cbn [h_update gm_hooks]. rewrite (reps_data ps ss HF). cbn [bind]. fold data frames. change (num RA) with R in *. rewrite EU. split; [reflexivity|].
    pose proof (proj1 AU) as (Q1 & Q2 & Q3 & Q4 & Q5 & Q6 & Q7 & Q8).
    split; [|split; [exact EU|reflexivity]]. split; [exact RU|]. split; [unfold strong_reg, gc_mode in *; rewrite Q2, Q5, Q7; exact S1|].
    unfold same_class. repeat split; congruence.
  - reflexivity.
  - cbn [h_allocate gm_hooks]. rewrite E1. reflexivity.
  - cbn [h_init gm_hooks]. rewrite (ts_stddev_ok (gc_dim g0) ps ss HF Hd). cbn [bind]. rewrite (reps_data ps ss HF). cbn [bind].
    rewrite all_frames_concat. change (num RA) with R in *. fold data. fold frames. unfold dev, deviations in E2. rewrite E2. reflexivity.
  - split; [exact R2|]. split; [exact S2|]. unfold same_class. repeat split.
  - exists s'. split; [exact E|]. split; [exact D|].
    destruct (rounds_stop_at p frames g2 (t_m s') Hp RD) as (n & EN & SN).
    destruct I3 as (C2 & C3 & C4 & C5 & C6 & C7 & C8 & C9).
    split; [exists g1, g2, n; auto|]. split; [exact I1|]. repeat split; congruence.
Qed.
