(** Baum-Welch: one update of a class. *)
From Coq Require Import String List Bool Arith ZArith Reals Lra Lia.
From Verif Require Import Base Arith BaseFacts RFacts Model_Ring Model_Gaussian Model_Config Model_GMM Model_HMM
  Proofs_Gaussian Proofs_Gaussian2 Proofs_Gaussian3 Proofs_KMeans Proofs_GMM Spec_Common Spec_Matrix Spec_Gaussian Spec_GMM Spec_HMM
  Proofs_HMM Proofs_HMM2 Proofs_HMM3 Proofs_HMM4 Proofs_HMM5 Proofs_HMM6 Proofs_HMM7 Proofs_HMM8.
Import ListNotations.
Local Open Scope list_scope.
Local Open Scope R_scope.

(** ** Sums over paths are not negative *)
Lemma walk_nonneg : forall N (a : nat -> nat -> R) bs p i, (forall i j, (i < N)%nat -> (j < N)%nat -> 0 <= a i j) -> Forall (fun b => forall j, (j < N)%nat -> 0 <= b j) bs ->
  (i < N)%nat -> (forall t, (t < length p)%nat -> (nth t p N < N)%nat) -> 0 <= walk a i bs p.
Proof.
  induction bs as [|b bs IH]; intros p i Ha Hb Hi Hp; destruct p as [|j p]; cbn [walk]; try lra.
  pose proof (Hp 0%nat ltac:(cbn; lia)) as Hj. cbn in Hj. apply Rmult_le_pos; [apply Rmult_le_pos; [apply Ha; assumption|apply (Forall_inv Hb); exact Hj]|].
  apply IH; [exact Ha|exact (Forall_inv_tail Hb)|exact Hj|]. intros t Ht. apply (Hp (S t)). cbn. lia.
Qed.
Lemma path_nonneg : forall N pi (a : nat -> nat -> R) bs p, (forall i, (i < N)%nat -> 0 <= pi i) -> (forall i j, (i < N)%nat -> (j < N)%nat -> 0 <= a i j) -> Forall (fun b => forall j, (j < N)%nat -> 0 <= b j) bs ->
  In p (paths N (length bs)) -> 0 <= path_weight pi a bs p.
Proof.
  intros N pi a bs p Hpi Ha Hb Hp. unfold path_weight. destruct bs as [|b bs]; [lra|]. destruct p as [|j p]; [lra|].
  pose proof (fun t => in_paths_lt N _ _ t Hp) as L. pose proof (paths_length _ _ _ Hp) as LP. cbn [length] in *.
  pose proof (L 0%nat ltac:(lia)) as Hj. cbn in Hj. apply Rmult_le_pos; [apply Rmult_le_pos; [apply Hpi; exact Hj|apply (Forall_inv Hb); exact Hj]|].
  apply (walk_nonneg N); [exact Ha|exact (Forall_inv_tail Hb)|exact Hj|]. intros t Ht. apply (L (S t)). lia.
Qed.
Lemma at_lik_nonneg : forall N pi (a : nat -> nat -> R) bs t j, (forall i, (i < N)%nat -> 0 <= pi i) -> (forall i j, (i < N)%nat -> (j < N)%nat -> 0 <= a i j) -> Forall (fun b => forall j, (j < N)%nat -> 0 <= b j) bs ->
  0 <= at_lik N pi a bs t j.
Proof.
  intros. unfold at_lik. apply Rlsum_nonneg. intros y Hy. apply in_map_iff in Hy. destruct Hy as (p & <- & Hp). destruct (Nat.eqb _ _); [apply (path_nonneg N); assumption|lra].
Qed.
Lemma at_lik2_nonneg : forall N pi (a : nat -> nat -> R) bs t j k, (forall i, (i < N)%nat -> 0 <= pi i) -> (forall i j, (i < N)%nat -> (j < N)%nat -> 0 <= a i j) -> Forall (fun b => forall j, (j < N)%nat -> 0 <= b j) bs ->
  0 <= at_lik2 N pi a bs t j k.
Proof.
  intros. unfold at_lik2. apply Rlsum_nonneg. intros y Hy. apply in_map_iff in Hy. destruct Hy as (p & <- & Hp). destruct (_ && _); [apply (path_nonneg N); assumption|lra].
Qed.

Lemma Forall2_sum : forall {X Y} (P : X -> Y -> Prop) (f : X -> R) (g : Y -> R) l m, Forall2 P l m -> (forall x y, P x y -> f x = g y) -> Rlsum (map f l) = Rlsum (map g m).
Proof. induction 1 as [|x y l m H F IH]; intro E; [reflexivity|]. cbn [map]. unfold Rlsum. cbn [fold_right]. rewrite (E x y H). f_equal. exact (IH E). Qed.

Section Update.
  Variable h : hclass RA.
  Hypothesis HR : hmm_ready h.
  Lemma ready_usable : hmm_usable h.
  Proof. exact (proj1 HR). Qed.
  Let N := hc_n h.
  Let G := hp_gauss (hc_par h).

  Lemma liks_pos : forall ph, Forall (fun b : nat -> R => forall j, (j < N)%nat -> 0 <= b j) (frame_liks h ph).
  Proof.
    intro ph. apply Forall_forall. intros b Hb. unfold frame_liks in Hb. apply in_map_iff in Hb. destruct Hb as (x & <- & _). intros j Hj.
    pose proof (frame_lik_ge (state_at h j) x (proj2 (proj2 (proj1 (usable_state h ready_usable j Hj))))). pose proof min_lik_pos. lra.
  Qed.

  Section Phrase.
    Variable ph : list (list R).
    Hypothesis Hpos : 0 < seq_lik N (hc_prior h) (hc_trans h) (frame_liks h ph).
    Lemma occ_nonneg : forall t i, 0 <= occupancy h ph t i.
    Proof. intros. unfold occupancy. apply Rmult_le_pos; [|left; apply Rinv_0_lt_compat; exact Hpos]. apply at_lik_nonneg; [apply (usable_pi h ready_usable)|apply (usable_a h ready_usable)|apply liks_pos]. Qed.
    Lemma occ2_nonneg : forall t i j, 0 <= occupancy2 h ph t i j.
    Proof. intros. unfold occupancy2. apply Rmult_le_pos; [|left; apply Rinv_0_lt_compat; exact Hpos]. apply at_lik2_nonneg; [apply (usable_pi h ready_usable)|apply (usable_a h ready_usable)|apply liks_pos]. Qed.
    Lemma occ_sum : forall t, (t < length ph)%nat -> Rsum N (occupancy h ph t) = 1.
    Proof. intros t Ht. unfold occupancy. rewrite Rsum_div. fold N. rewrite at_lik_sum by (unfold frame_liks; rewrite map_length; exact Ht). field. lra. Qed.
    Lemma occ2_sum : forall t i, (S t < length ph)%nat -> Rsum N (occupancy2 h ph t i) = occupancy h ph t i.
    Proof. intros t i Ht. unfold occupancy2. rewrite Rsum_div. fold N. rewrite at_lik2_sum by (unfold frame_liks; rewrite map_length; exact Ht). reflexivity. Qed.
    Lemma occ_le : forall t i, (t < length ph)%nat -> (i < N)%nat -> occupancy h ph t i <= 1.
    Proof. intros t i Ht Hi. rewrite <- (occ_sum t Ht). apply (Rsum_term_le N (occupancy h ph t) i); [intros; apply occ_nonneg|exact Hi]. Qed.
    Lemma mix_nonneg : forall t i c, (i < N)%nat -> (c < G)%nat -> 0 <= occupancy_mix h ph t i c.
    Proof.
      intros t i c Hi Hc. destruct (usable_state h ready_usable i Hi) as ((_ & _ & D) & _ & _ & _ & S4 & _). unfold occupancy_mix. apply Rmult_le_pos; [apply occ_nonneg|].
      pose proof (frame_lik_ge (state_at h i) (nth t ph []) D). pose proof min_lik_pos. pose proof (comp_lik_ge (comp_at (state_at h i) c) (nth t ph [])).
      apply Rmult_le_pos; [|left; apply Rinv_0_lt_compat; lra]. apply Rmult_le_pos; [apply D; rewrite S4; exact Hc|lra].
    Qed.
    Lemma mix_sum : forall t i, (i < N)%nat -> Rsum G (occupancy_mix h ph t i) = occupancy h ph t i.
    Proof.
      intros t i Hi. destruct (usable_state h ready_usable i Hi) as ((_ & _ & D) & _ & _ & _ & S4 & _). unfold occupancy_mix. rewrite Rsum_scal_l, Rsum_div.
      assert (E : frame_lik (state_at h i) (nth t ph []) = Rsum G (fun c => weight (state_at h i) c * comp_lik (comp_at (state_at h i) c) (nth t ph []))) by (unfold frame_lik; rewrite S4; reflexivity).
      rewrite <- E. pose proof (frame_lik_ge (state_at h i) (nth t ph []) D). pose proof min_lik_pos. field. lra.
    Qed.
  End Phrase.

  Definition phrase_es (ph : list (list R)) (e : estep RA) : Prop :=
    ph <> [] /\ Forall (fun x => length x = hc_dim h) ph /\ estep_exact h ph e /\ 0 < seq_lik N (hc_prior h) (hc_trans h) (frame_liks h ph).

  Lemma esteps_ok : forall data (alpha : list R), Forall (fun ph => ph <> [] /\ Forall (fun x => length x = hc_dim h) ph) data -> (hc_mode h = Ergodic -> length alpha = N) ->
    exists es al, hm_esteps (A := RA) h alpha data = Ok (es, al) /\ Forall2 phrase_es data es /\ (hc_mode h = Ergodic -> length al = N).
  Proof.
    induction data as [|ph data IH]; intros alpha HD HA; cbn [hm_esteps]; [exists [], alpha; repeat split; [constructor|exact HA]|].
    destruct (Forall_inv HD) as (Hne & Hf). destruct (hm_estep_ok h HR alpha ph Hne Hf HA) as (e & al & E & X & L & P).
    assert (Q : (match ph with [] => Ok (mkES (A := RA) [] [] [] (n0 (A := RA)), alpha) | _ => hm_estep (A := RA) h alpha ph end) = Ok (e, al)) by (destruct ph; [contradiction|exact E]).
    change (num RA) with R in *. rewrite Q. cbn [bind]. destruct (IH al (Forall_inv_tail HD) (fun _ => L)) as (es & al' & E' & F & L'). change (num RA) with R in *. rewrite E'. cbn [bind].
    exists (e :: es), al'. split; [reflexivity|]. split; [constructor; [exact (conj Hne (conj Hf (conj X P)))|exact F]|exact L'].
  Qed.

  Variables (data : list (list (list R))) (es : list (estep RA)).
  Hypothesis HF : Forall2 phrase_es data es.

  Lemma data_dims : Forall (fun x => length x = hc_dim h) (concat data).
  Proof. clear -HF. induction HF as [|ph e d l (_ & H & _) F IH]; [constructor|]. cbn [concat]. apply Forall_app. split; [exact H|exact (IH F)]. Qed.

  Lemma lp_ok : fold_left (fun s e => nadd (a := RA) s (es_lp e)) es (n0 (A := RA)) = Rlsum (map (fun ph => ln (seq_lik N (hc_prior h) (hc_trans h) (frame_liks h ph))) data).
  Proof.
    rewrite n0_RA. cut (forall s : R, fold_left (fun s e => nadd (a := RA) s (es_lp e)) es s = s + Rlsum (map (fun ph => ln (seq_lik N (hc_prior h) (hc_trans h) (frame_liks h ph))) data)).
    { intro H. etransitivity; [apply H|]. match goal with |- ?l = ?r => change (@eq R l r) end. ring. }
    clear -HF. induction HF as [|ph e d l (_ & _ & X & _) F IH]; intro s; cbn [fold_left map]; [unfold Rlsum; cbn [fold_right]; match goal with |- ?l = ?r => change (@eq R l r) end; ring|].
    specialize (IH F). etransitivity; [apply IH|]. destruct X as (_ & _ & _ & _ & _ & _ & LP). rewrite LP. unfold Rlsum. cbn [fold_right nadd RA]. match goal with |- ?l = ?r => change (@eq R l r) end. fold N. ring.
  Qed.

  Lemma gamma_sum_ok : forall i, (i < N)%nat -> gamma_sum (A := RA) es i = Ok (visits h data i).
  Proof.
    intros i Hi. unfold gamma_sum. rewrite n0_RA. rewrite <- flat_map_concat_map.
    assert (Lg : forall g, In g (flat_map es_gamma es) -> length g = N).
    { intros g Hg. apply in_flat_map in Hg. destruct Hg as (e & He & Hg). destruct (In_nth _ _ (mkES (A := RA) [] [] [] 0) He) as (k & Hk & EK).
      pose proof (Forall2_len _ _ _ _ _ HF) as LL. pose proof (Forall2_at _ _ _ HF k [] (mkES (A := RA) [] [] [] 0) ltac:(rewrite LL; exact Hk)) as (_ & _ & X & _). rewrite EK in X.
      destruct X as (L1 & _ & _ & V & _). destruct (In_nth _ _ [] Hg) as (t & Ht & <-). apply V. rewrite <- L1. exact Ht. }
    assert (E : Rsum (length (flat_map es_gamma es)) (fun t => nth i (nth t (flat_map es_gamma es) []) 0) = visits h data i).
    { rewrite <- (Rlsum_nth [] (fun g : list R => nth i g 0)). rewrite Rlsum_flat_map. unfold visits. symmetry. apply (Forall2_sum phrase_es _ _ _ _ HF). intros ph e (_ & _ & X & _).
      destruct X as (L1 & _ & _ & V & _). rewrite (Rlsum_nth []). change (num RA) with R in *. rewrite L1. apply Rsum_ext. intros t Ht. destruct (V t Ht) as (_ & V'). symmetry. apply V'. exact Hi. }
    rewrite <- E. match goal with |- _ = Ok ?r => replace r with (0 + r) by ring end. apply accM_ok. intros t Ht. change (num RA) with R in *. rewrite (rd_nth _ t []) by exact Ht. cbn [bind].
    apply rd_nth. rewrite Lg by (apply nth_In; exact Ht). exact Hi.
  Qed.

  (** The entry [q] of the two-state posteriors. *)
  Definition eps_val (q : nat) (ph : list (list R)) (t : nat) : R :=
    match hc_mode h with
    | Ergodic => occupancy2 h ph t (q / N) (q mod N)
    | LeftRight => if (q mod 2 =? 0)%nat then occupancy2 h ph t (q / 2) (q / 2) else if (q / 2 <? N - 1)%nat then occupancy2 h ph t (q / 2) (q / 2 + 1) else 0
    end.
  Definition eps_reg (q : nat) : R :=
    match hc_mode h with
    | Ergodic => 0
    | LeftRight => if (q mod 2 =? 0)%nat then (if (q / 2 <? N - 1)%nat then reg5 else 2 * reg5) else if (q / 2 <? N - 1)%nat then reg5 else 0
    end.
  Lemma eps_entry : forall ph e t q, estep_exact h ph e -> (t < length ph - 1)%nat -> (q < trans_size N (hc_mode h))%nat ->
    length (nth t (es_eps e) []) = trans_size N (hc_mode h) /\ nth q (nth t (es_eps e) []) 0 = eps_val q ph t.
  Proof.
    intros ph e t q (_ & _ & _ & _ & _ & V & _) Ht Hq. destruct (V t Ht) as (L & V'). split; [exact L|]. unfold eps_val. fold N in V'. destruct (hc_mode h); cbn [trans_size] in *.
    - assert (N0 : N <> 0%nat) by (intro Z; rewrite Z in Hq; cbn in Hq; lia).
      rewrite <- (V' (q / N)%nat (q mod N)); [|apply Nat.div_lt_upper_bound; assumption|apply Nat.mod_upper_bound; exact N0]. f_equal. rewrite (Nat.div_mod q N N0) at 1. lia.
    - pose proof (Nat.div_mod q 2 ltac:(lia)) as DM. pose proof (Nat.mod_upper_bound q 2 ltac:(lia)) as MB. assert (Hi : (q / 2 < N)%nat) by (apply Nat.div_lt_upper_bound; lia). destruct (V' (q / 2)%nat Hi) as (V1 & V2).
      destruct (Nat.eqb_spec (q mod 2) 0) as [Z|Z]; (etransitivity; [|first [exact V1|exact V2]]); f_equal; lia.
  Qed.

  Lemma reg5_RA : @nofQ RA (QArith_base.Qmake 1 (10 ^ 5)) = reg5.
  Proof. cbn [nofQ RA]. unfold Q2R. cbn [QArith_base.Qnum QArith_base.Qden]. rewrite Rmult_1_l. unfold reg5. f_equal. rewrite pow_IZR. f_equal. Qed.
  Lemma reg5_pos : 0 < reg5.
  Proof. unfold reg5. apply Rinv_0_lt_compat. lra. Qed.

  Lemma trans_acc_ok : forall q, (q < trans_size N (hc_mode h))%nat ->
    trans_acc (A := RA) N (hc_mode h) es q = Ok (Rlsum (map (fun ph => eps_reg q + Rsum (length ph - 1) (eps_val q ph)) data)).
  Proof.
    intros q Hq. unfold trans_acc. cbv zeta. rewrite n0_RA. rewrite !reg5_RA.
    match goal with |- foldM ?F _ _ = _ => cut (forall s : R, foldM F es s = Ok (s + Rlsum (map (fun ph => eps_reg q + Rsum (length ph - 1) (eps_val q ph)) data))) end.
    { intro H. rewrite H. apply (f_equal (@Ok R)). ring. }
    clear -HF Hq G HR. induction HF as [|ph e d l (Hne & _ & X & _) F IH]; intro s; cbn [foldM map].
    { apply (f_equal (@Ok R)). unfold Rlsum. cbn [fold_right]. ring. }
    specialize (IH F). assert (STEP : forall s0, accM (A := RA) (length (es_eps e)) (fun t => let* v := rd (es_eps e) t in rd v q) s0 = Ok (s0 + Rsum (length ph - 1) (eps_val q ph))).
    { intro s0. pose proof X as (_ & _ & L3 & _). change (num RA) with R in *. rewrite L3. apply accM_ok. intros t Ht. rewrite (rd_nth _ t []) by (rewrite L3; exact Ht). cbn [bind].
      destruct (eps_entry ph e t q X Ht Hq) as (Le & Ve). change (num RA) with R in *. rewrite (rd_nth _ q 0) by (rewrite Le; exact Hq). rewrite Ve. reflexivity. }
    assert (GN : es_gamma e <> []). { destruct X as (L1 & _). intro Z. rewrite Z in L1. destruct ph; [contradiction|discriminate]. }
    destruct (es_gamma e) as [|g0 gs] eqn:EG; [contradiction|]. clear GN.
    apply (bind_eq _ _ (s + (eps_reg q + Rsum (length ph - 1) (eps_val q ph)))).
    2:{ rewrite IH. apply (f_equal (@Ok R)). unfold Rlsum. cbn [fold_right]. ring. }
    unfold eps_reg. destruct (hc_mode h) eqn:HM.
    - etransitivity; [apply STEP|]. apply (f_equal (@Ok R)). ring.
    - pose proof (Nat.mod_upper_bound q 2 ltac:(lia)) as MB. destruct (Nat.eqb_spec (q mod 2) 0) as [Z|Z].
      + rewrite Z. cbn [Nat.eqb andb]. destruct (q / 2 <? N - 1)%nat; (etransitivity; [apply STEP|]; apply (f_equal (@Ok R)); cbn [nadd RA]; ring).
      + replace (q mod 2 =? 1)%nat with true by (symmetry; apply Nat.eqb_eq; lia). cbn [andb]. destruct (q / 2 <? N - 1)%nat eqn:EL; cbn [negb].
        * etransitivity; [apply STEP|]. apply (f_equal (@Ok R)). cbn [nadd RA]. ring.
        * apply (f_equal (@Ok R)). rewrite (Rsum_zero _ (eps_val q ph)); [ring|]. intros t _. unfold eps_val. rewrite HM. replace (q mod 2 =? 0)%nat with false by (symmetry; apply Nat.eqb_neq; exact Z). rewrite EL. reflexivity.
  Qed.

  Lemma visits_nonneg : forall i, 0 <= visits h data i.
  Proof. intro i. unfold visits. apply Rlsum_nonneg. intros y Hy. apply in_map_iff in Hy. destruct Hy as (ph & <- & Hp). apply Rsum_nonneg. intros t _. apply occ_nonneg.
    destruct (In_nth _ _ [] Hp) as (k & Hk & <-). exact (proj2 (proj2 (proj2 (Forall2_at _ _ _ HF k [] (mkES (A := RA) [] [] [] 0) Hk)))). Qed.
  Lemma moves_nonneg : forall i j, 0 <= moves h data i j.
  Proof. intros i j. unfold moves. apply Rlsum_nonneg. intros y Hy. apply in_map_iff in Hy. destruct Hy as (ph & <- & Hp). apply Rsum_nonneg. intros t _. apply occ2_nonneg.
    destruct (In_nth _ _ [] Hp) as (k & Hk & <-). exact (proj2 (proj2 (proj2 (Forall2_at _ _ _ HF k [] (mkES (A := RA) [] [] [] 0) Hk)))). Qed.

  (** Entry [q] of the new transitions. *)
  Definition trans_val (q : nat) : R :=
    let w := match hc_mode h with Ergodic => N | LeftRight => 2%nat end in
    let s := Rlsum (map (fun ph => eps_reg q + Rsum (length ph - 1) (eps_val q ph)) data) in
    if match hc_mode h with Ergodic => false | LeftRight => (q mod 2 =? 1)%nat && negb (q / 2 <? N - 1)%nat end then 0
    else s / (visits h data (q / w) + 2 * reg5).

  Lemma hm_trans_ok : hm_trans (A := RA) N (hc_mode h) es = Ok (tab (trans_size N (hc_mode h)) trans_val).
  Proof.
    unfold hm_trans. set (w := match hc_mode h with Ergodic => N | LeftRight => 2%nat end).
    replace (N * w)%nat with (trans_size N (hc_mode h)) by (unfold w, trans_size; destruct (hc_mode h); lia). apply tabM_ok. intros q Hq.
    assert (Hi : (q / w < N)%nat). { unfold w, trans_size in *. destruct (hc_mode h); [|apply Nat.div_lt_upper_bound; lia]. apply Nat.div_lt_upper_bound; [intro Z; rewrite Z in Hq; cbn in Hq; lia|exact Hq]. }
    rewrite trans_acc_ok by exact Hq. cbn [bind]. rewrite gamma_sum_ok by exact Hi. cbn [bind]. rewrite !reg5_RA, nZ_RA. cbn [nadd nmul ndiv nisnan RA]. unfold trans_val. fold w.
    destruct (match hc_mode h with Ergodic => false | LeftRight => _ end) eqn:EB; [|reflexivity]. apply (f_equal (@Ok R)). unfold eps_reg, eps_val. destruct (hc_mode h); [discriminate|]. apply andb_prop in EB. destruct EB as (B1 & B2).
    apply Nat.eqb_eq in B1. rewrite B1. cbn [Nat.eqb]. apply negb_true_iff in B2. rewrite B2. rewrite (Rlsum_map_ext _ (fun _ => 0)); [rewrite Rlsum_map_const; ring|]. intros. rewrite Rsum_zero by reflexivity. ring.
  Qed.

  Lemma eps_sum : forall q i j, (forall ph t, eps_val q ph t = occupancy2 h ph t i j) -> Rlsum (map (fun ph => eps_reg q + Rsum (length ph - 1) (eps_val q ph)) data) = INR (length data) * eps_reg q + moves h data i j.
  Proof.
    intros q i j E. rewrite (Rlsum_map_plus (fun _ => eps_reg q)). rewrite Rlsum_map_const. f_equal. unfold moves. apply Rlsum_map_ext. intros. apply Rsum_ext. intros. apply E.
  Qed.

  Lemma trans_val_at : forall i j, (i < N)%nat -> (j < N)%nat -> trans_at N (hc_mode h) (tab (trans_size N (hc_mode h)) trans_val) i j = new_trans h data i j.
  Proof.
    intros i j Hi Hj. unfold trans_at, new_trans. fold N. destruct (hc_mode h) eqn:HM; cbn [trans_size].
    - rewrite nth_tab by (apply flat_lt; assumption). unfold trans_val. rewrite HM.
      assert (D1 : ((i * N + j) / N = i)%nat) by (rewrite Nat.add_comm, Nat.div_add by lia; rewrite Nat.div_small by exact Hj; reflexivity).
      assert (D2 : ((i * N + j) mod N = j)%nat) by (rewrite Nat.add_comm, Nat.mod_add by lia; apply Nat.mod_small; exact Hj).
      rewrite (eps_sum _ i j) by (intros; unfold eps_val; rewrite HM, D1, D2; reflexivity). rewrite D1. unfold eps_reg. rewrite HM. f_equal. ring.
    - rewrite !nth_tab by lia. unfold trans_val. rewrite HM.
      assert (D1 : (2 * i / 2 = i)%nat) by (rewrite Nat.mul_comm; apply Nat.div_mul; lia). assert (D2 : (2 * i mod 2 = 0)%nat) by (rewrite Nat.mul_comm; apply Nat.mod_mul; lia).
      assert (D3 : ((2 * i + 1) / 2 = i)%nat) by (replace (2 * i + 1)%nat with (1 + i * 2)%nat by lia; rewrite Nat.div_add by lia; reflexivity).
      assert (D4 : ((2 * i + 1) mod 2 = 1)%nat) by (replace (2 * i + 1)%nat with (1 + i * 2)%nat by lia; rewrite Nat.mod_add by lia; reflexivity).
      rewrite D1, D2, D3, D4. replace (0 =? 1)%nat with false by reflexivity. replace (1 =? 1)%nat with true by reflexivity. cbn [andb].
      rewrite (eps_sum (2 * i) i i) by (intros; unfold eps_val; rewrite HM, D1, D2; reflexivity).
      assert (R1 : eps_reg (2 * i) = if (i <? N - 1)%nat then reg5 else 2 * reg5) by (unfold eps_reg; rewrite HM, D1, D2; reflexivity). rewrite R1.
      destruct (Nat.ltb_spec i (N - 1)) as [L|L]; cbn [negb].
      + rewrite (eps_sum (2 * i + 1) i (S i)) by (intros; unfold eps_val; rewrite HM, D3, D4; cbn [Nat.eqb]; destruct (Nat.ltb_spec i (N - 1)); [replace (i + 1)%nat with (S i) by lia; reflexivity|lia]).
        assert (R2 : eps_reg (2 * i + 1) = reg5) by (unfold eps_reg; rewrite HM, D3, D4; cbn [Nat.eqb]; destruct (Nat.ltb_spec i (N - 1)); [reflexivity|lia]). rewrite R2.
        rewrite (Nat.mod_small (S i) N) by lia. destruct (Nat.eqb_spec j (S i)) as [E|E]; destruct (Nat.eqb_spec j i) as [D|D]; try lia; unfold Rdiv; ring.
      + destruct (Nat.eqb_spec j i) as [->|D]; [destruct (Nat.eqb i (S i mod N)); unfold Rdiv; ring|]. destruct (Nat.eqb_spec j (S i)); [lia|]. destruct (Nat.eqb j (S i mod N)); ring.
  Qed.

  Lemma trans_val_last : hc_mode h = LeftRight -> no_jump N (tab (trans_size N (hc_mode h)) trans_val).
  Proof.
    intro HM. unfold no_jump. pose proof ready_usable as (N1 & _). fold N in N1. rewrite HM. cbn [trans_size]. rewrite nth_tab by lia. unfold trans_val. rewrite HM.
    assert (D3 : ((2 * N - 1) / 2 = N - 1)%nat) by (replace (2 * N - 1)%nat with (1 + (N - 1) * 2)%nat by lia; rewrite Nat.div_add by lia; reflexivity).
    assert (D4 : ((2 * N - 1) mod 2 = 1)%nat) by (replace (2 * N - 1)%nat with (1 + (N - 1) * 2)%nat by lia; rewrite Nat.mod_add by lia; reflexivity).
    rewrite D3, D4. replace (1 =? 1)%nat with true by reflexivity. cbn [andb]. rewrite Nat.ltb_irrefl. reflexivity.
  Qed.
  Lemma trans_val_nonneg : forall q, 0 <= nth q (tab (trans_size N (hc_mode h)) trans_val) 0.
  Proof.
    intro q. destruct (Nat.lt_ge_cases q (trans_size N (hc_mode h))) as [L|L]; [|rewrite nth_overflow by (rewrite tab_length; exact L); lra]. rewrite nth_tab by exact L.
    unfold trans_val. pose proof reg5_pos. destruct (match hc_mode h with Ergodic => false | LeftRight => _ end); [lra|].
    apply Rmult_le_pos; [|left; apply Rinv_0_lt_compat; pose proof (visits_nonneg (q / match hc_mode h with Ergodic => N | LeftRight => 2 end)); lra].
    apply Rlsum_nonneg. intros y Hy. apply in_map_iff in Hy. destruct Hy as (ph & <- & Hp).
    assert (P : 0 < seq_lik N (hc_prior h) (hc_trans h) (frame_liks h ph)) by (destruct (In_nth _ _ [] Hp) as (k & Hk & <-); exact (proj2 (proj2 (proj2 (Forall2_at _ _ _ HF k [] (mkES (A := RA) [] [] [] 0) Hk))))).
    apply Rplus_le_le_0_compat.
    - unfold eps_reg. destruct (hc_mode h); [lra|]. destruct (_ =? _)%nat; destruct (_ <? _)%nat; lra.
    - apply Rsum_nonneg. intros t _. unfold eps_val. destruct (hc_mode h); [apply occ2_nonneg; exact P|]. destruct (_ =? _)%nat; [apply occ2_nonneg; exact P|]. destruct (_ <? _)%nat; [apply occ2_nonneg; exact P|lra].
  Qed.

  Lemma hm_prior_ok : data <> [] -> exists pr, hm_prior (A := RA) N es = Ok pr /\ length pr = N /\ (forall i, (i < N)%nat -> nth i pr 0 = new_prior h data i) /\ distribution N (fun i => nth i pr 0).
  Proof.
    intro Hne. pose proof (Forall2_len _ _ _ _ _ HF) as LL. set (z := mkES (A := RA) [] [] [] 0).
    assert (RD : forall k i, (k < length es)%nat -> (i < N)%nat -> (let* e := rd es k in let* g := rd (es_gamma e) 0 in rd g i) = Ok (occupancy h (nth k data []) 0 i)).
    { intros k i Hk Hi. rewrite (rd_nth es k z) by exact Hk. cbn [bind]. pose proof (Forall2_at _ _ _ HF k [] z ltac:(rewrite LL; exact Hk)) as (Hn & _ & X & _). destruct X as (L1 & _ & _ & V & _).
      assert (P : (0 < length (nth k data []))%nat) by (destruct (nth k data []); [contradiction|cbn; lia]). change (num RA) with R in *. rewrite (rd_nth _ 0 []) by (rewrite L1; exact P). cbn [bind].
      destruct (V 0%nat P) as (L & V'). change (num RA) with R in *. rewrite (rd_nth _ i 0) by (rewrite L; exact Hi). rewrite V' by exact Hi. reflexivity. }
    assert (LD : 0 < INR (length data)) by (apply lt_0_INR; destruct data; [contradiction|cbn; lia]).
    set (T := fun i => Rsum (length es) (fun k => occupancy h (nth k data []) 0 i)).
    assert (ET : forall i, T i = Rlsum (map (fun ph => occupancy h ph 0 i) data)) by (intro i; unfold T; rewrite (Rlsum_nth []), LL; reflexivity).
    assert (EK : forall k, (k < length es)%nat -> Rsum N (occupancy h (nth k data []) 0) = 1).
    { intros k Hk. pose proof (Forall2_at _ _ _ HF k [] z ltac:(rewrite LL; exact Hk)) as (Hn & _ & _ & P). apply occ_sum; [exact P|]. destruct (nth k data []); [contradiction|cbn; lia]. }
    assert (ES : Rsum (length es) (fun k => Rsum N (occupancy h (nth k data []) 0)) = INR (length data)) by (rewrite (Rsum_ext _ _ (fun _ => 1)) by exact EK; rewrite Rsum_const, LL; ring).
    exists (tab N (fun i => T i / INR (length data))). split.
    - unfold hm_prior. rewrite n0_RA.
      assert (E1 : tabM N (fun i => accM (A := RA) (length es) (fun k => let* e := rd es k in let* g := rd (es_gamma e) 0 in rd g i) 0) = Ok (tab N T)).
      { apply tabM_ok. intros i Hi. unfold T. match goal with |- _ = Ok ?r => replace r with (0 + r) by ring end. apply accM_ok. intros k Hk. apply RD; assumption. }
      assert (E2 : accM (A := RA) (length es) (fun k => accM (A := RA) N (fun i => let* e := rd es k in let* g := rd (es_gamma e) 0 in rd g i) 0) 0 = Ok (INR (length data))).
      { rewrite <- ES. match goal with |- _ = Ok ?r => replace r with (0 + r) by ring end. apply accM_ok. intros k Hk. match goal with |- _ = Ok ?r => replace r with (0 + r) by ring end. apply accM_ok. intros i Hi. apply RD; assumption. }
      change (num RA) with R in *. rewrite E1. cbn [bind]. rewrite E2. cbn [bind]. assert (NL : nltb (a := RA) 0 (INR (length data)) = true) by (apply nltb_RA_true; exact LD). change (num RA) with R in *. rewrite NL.
      unfold tab. rewrite map_map. reflexivity.
    - split; [apply tab_length|]. split; [intros i Hi; rewrite nth_tab by exact Hi; unfold new_prior; rewrite ET; reflexivity|]. split.
      + intros i Hi. rewrite nth_tab by exact Hi. apply Rmult_le_pos; [|left; apply Rinv_0_lt_compat; exact LD]. unfold T. apply Rsum_nonneg. intros k Hk. apply occ_nonneg. exact (proj2 (proj2 (proj2 (Forall2_at _ _ _ HF k [] z ltac:(rewrite LL; exact Hk))))).
      + rewrite (Rsum_ext _ _ (fun i => T i / INR (length data))) by (intros; rewrite nth_tab by assumption; reflexivity). rewrite Rsum_div. unfold T. rewrite Rsum_swap. etransitivity; [apply (f_equal (fun v => v / INR (length data)) ES)|]. field. lra.
  Qed.

  Lemma weighted_snd : forall i, map snd (weighted_frames h data i) = concat data.
  Proof.
    intro i. clear HF. unfold weighted_frames. induction data as [|ph d IH]; [reflexivity|]. cbn [flat_map concat]. rewrite map_app, IH. f_equal. rewrite map_map. cbn [snd].
    apply (nth_ext_len _ _ []); [rewrite map_length, seq_length; reflexivity|]. intros t Ht. rewrite map_length, seq_length in Ht. rewrite (nth_map_lt _ _ _ _ 0%nat) by (rewrite seq_length; exact Ht). rewrite seq_nth by exact Ht. reflexivity.
  Qed.
  Lemma weighted_rows : forall i, (i < N)%nat -> mapM (fun row => rd row i) (concat (map es_mix es)) = Ok (map (fun p => tab G (fst p)) (weighted_frames h data i)).
  Proof.
    intros i Hi. clear -HF Hi. unfold weighted_frames. induction HF as [|ph e d l (_ & _ & X & _) F IH]; [reflexivity|]. cbn [map concat flat_map]. rewrite map_app.
    assert (APP : forall Y Z (f : Y -> res Z) l1 l2 r1 r2, mapM f l1 = Ok r1 -> mapM f l2 = Ok r2 -> mapM f (l1 ++ l2) = Ok (r1 ++ r2)).
    { clear. induction l1 as [|y l1 IH]; intros l2 r1 r2 E1 E2; cbn [mapM app] in *; [inversion E1; exact E2|]. destruct (f y); try discriminate. cbn [bind] in *. destruct (mapM f l1) as [r| |] eqn:E; try discriminate. cbn [bind] in E1. inversion E1; subst.
      rewrite (IH l2 r r2 eq_refl E2). reflexivity. }
    apply APP; [|exact (IH F)]. destruct X as (_ & L2 & _ & _ & V & _). change (num RA) with R in *.
    rewrite (mapM_ok (fun row : list (list R) => rd row i) (fun row => nth i row [])).
    - apply (f_equal (@Ok _)). apply (nth_ext_len _ _ []); [rewrite !map_length, seq_length; exact L2|]. intros t Ht. rewrite map_length, L2 in Ht. rewrite (nth_map_lt _ _ _ _ []) by (rewrite L2; exact Ht). rewrite map_map.
      rewrite (nth_map_lt _ _ _ _ 0%nat) by (rewrite seq_length; exact Ht). rewrite seq_nth by exact Ht. cbn [fst Nat.add]. destruct (V t Ht) as (_ & V'). destruct (V' i Hi) as (Lc & Vc). change (num RA) with R in *.
      apply (nth_ext_len _ _ 0); [rewrite tab_length; exact Lc|]. intros c Hc. rewrite Lc in Hc. rewrite nth_tab by exact Hc. apply Vc. exact Hc.
    - intros row Hr. destruct (In_nth _ _ [] Hr) as (t & Ht & <-). rewrite L2 in Ht. apply rd_nth. rewrite (proj1 (V t Ht)). exact Hi.
  Qed.

  Lemma hm_state_ok : forall i, (i < N)%nat -> exists g', hm_state (A := RA) h (concat data) es i (state_at h i) = Ok g' /\ state_moments (weighted_frames h data i) (state_at h i) g' /\ gm_ready g'.
  Proof.
    intros i Hi. destruct (usable_state h ready_usable i Hi) as ((Hs & Hv & D) & S1 & S2 & S3 & S4 & S5 & S6).
    assert (SR : strong_reg (state_at h i)). { pose proof HR as (_ & F & _). rewrite Forall_forall in F. apply F. apply nth_In. pose proof ready_usable as (_ & L & _). change (num RA) with R in *. rewrite L. exact Hi. }
    destruct (reestimate (state_at h i) (weighted_frames h data i) Hs SR) as (g' & E & M & Rg).
    { apply Forall_forall. intros p Hp. unfold weighted_frames in Hp. apply in_flat_map in Hp. destruct Hp as (ph & Hph & Hp). apply in_map_iff in Hp. destruct Hp as (t & <- & Ht). apply in_seq in Ht. cbn [fst snd].
      destruct (In_nth _ _ [] Hph) as (k & Hk & EK). pose proof (Forall2_at _ _ _ HF k [] (mkES (A := RA) [] [] [] 0) Hk) as (_ & HD & _ & P). rewrite EK in *. split.
      - rewrite S2. rewrite Forall_forall in HD. apply HD. apply nth_In. lia.
      - intros c Hc. rewrite S4 in Hc. apply mix_nonneg; assumption. }
    exists g'. split; [|split; assumption]. rewrite <- E. unfold hm_state. cbv zeta. rewrite weighted_snd. rewrite weighted_rows by exact Hi. cbn [bind]. rewrite S4. fold G. rewrite S2, <- S5.
    destruct (tabM G _) as [E0|ex|]; cbn [bind]; try reflexivity.
  Qed.
End Update.
