(** Training class by class recognises like training at once. *)
From Coq Require Import String List Bool Arith ZArith Reals Lia Sorting.Sorted.
From Verif Require Import Base BaseFacts Arith RFacts Model_Map Model_Ring Model_Phrase Model_TrainingSet Model_Gaussian Model_Config Model_KMeans Model_GMM Model_Shared
  Model_Train Model_Reload Model_Workflow Model_Workflow3 Spec_Common Spec_Phrase Spec_TrainingSet Spec_Train Spec_Shared Spec_Matrix Spec_Gaussian Spec_GMM Spec_Reload
  Spec_Workflow Spec_Workflow2 Spec_Workflow3
  Proofs_Map Proofs_Ring Proofs_GMM Proofs_GMM2 Proofs_GMM3 Proofs_GMM4 Proofs_Shared Proofs_Reload2 Proofs_Reload4 Proofs_Workflow Proofs_Workflow2 Proofs_Workflow3
  Proofs_Workflow4 Proofs_Workflow6 Proofs_Workflow12 Proofs_Workflow13.
Import ListNotations.
Local Open Scope list_scope.
Local Open Scope nat_scope.

Local Notation world := (world RA).

Lemma sorted_same : forall a b : list string, StronglySorted (fun x y => String.ltb x y = true) a -> StronglySorted (fun x y => String.ltb x y = true) b ->
  (forall l, In l a <-> In l b) -> a = b.
Proof.
  induction a as [|x a IH]; intros b SA SB H.
  - destruct b as [|y b]; [reflexivity|]. exfalso. apply (proj2 (H y)). left. reflexivity.
  - destruct b as [|y b]; [exfalso; apply (proj1 (H x)); left; reflexivity|].
    inversion SA as [|? ? SA1 SA2]; subst. inversion SB as [|? ? SB1 SB2]; subst.
    assert (E : x = y).
    { destruct (proj1 (H x) (or_introl eq_refl)) as [Q|Q]; [congruence|]. destruct (proj2 (H y) (or_introl eq_refl)) as [Q'|Q']; [congruence|].
      pose proof (proj1 (Forall_forall _ _) SA2 y Q') as L1. pose proof (proj1 (Forall_forall _ _) SB2 x Q) as L2. cbn in L1, L2.
      pose proof (str_ltb_trans _ _ _ L1 L2) as L3. rewrite str_ltb_irrefl in L3. discriminate. }
    subst y. f_equal. apply IH; [assumption|assumption|]. intro l. split; intro Q.
    + destruct (proj1 (H l) (or_intror Q)) as [E|E]; [|exact E]. subst l. pose proof (proj1 (Forall_forall _ _) SA2 x Q) as L. cbn in L. rewrite str_ltb_irrefl in L. discriminate.
    + destruct (proj2 (H l) (or_intror Q)) as [E|E]; [|exact E]. subst l. pose proof (proj1 (Forall_forall _ _) SB2 x Q) as L. cbn in L. rewrite str_ltb_irrefl in L. discriminate.
Qed.

Lemma zip_entries : forall {X Y} (P : string -> X -> Prop) (Q : string -> Y -> Prop) (R : X -> Y -> Prop), (forall l x y, P l x -> Q l y -> R x y) ->
  forall ms ns, map fst ms = map fst ns -> Forall (fun e => P (fst e) (snd e)) ms -> Forall (fun e => Q (fst e) (snd e)) ns -> Forall2 (entry R) ms ns.
Proof.
  intros X Y P Q R H. induction ms as [|[l x] ms IH]; intros [|[l' y] ns] E FP FQ; try discriminate; [constructor|].
  cbn in E. injection E as -> E. inversion FP; subst. inversion FQ; subst. constructor; [split; [reflexivity|eapply H; eassumption]|apply IH; assumption].
Qed.

Lemma wf_channel : forall r : ring (num RA), ring_wf 1 r -> one_channel r.
Proof.
  intros r (L & C & _). destruct (r_data r) as [|a [|b d]] eqn:E; try discriminate. exists a. split; [exact E|]. exact (C 0 ltac:(lia)).
Qed.

Section Same.
  Variable u : junk RA.

  Lemma like_alike : forall s cf recs l g h, class_like u s cf recs l g -> class_like u s cf recs l h -> gsim0 g h.
  Proof.
    intros s cf recs l g h ((U1 & _) & g' & (L1 & _) & (E1 & E2 & E3 & E4 & E5 & E6 & E7 & E8)) ((U2 & _) & h' & (L2 & _) & (F1 & F2 & F3 & F4 & F5 & F6 & F7 & F8)).
    pose proof (learned_fun _ _ _ _ _ L1 L2) as Q. subst h'. unfold gsim0, gc_n, gc_mode. repeat (split; [congruence|]).
    split; [|split].
    - rewrite E7, <- F7. unfold comps_sim. clear. induction (gc_comp h); constructor; auto.
    - apply U1.
    - apply U2.
  Qed.

  Lemma same_trained : forall recs (m k : gmodel RA), recs <> [] -> trained_as u recs m -> trained_as u recs k -> gq_cf m = gq_cf k ->
    sp_bim (gq_sp m) = sp_bim (gq_sp k) -> sp_dim (gq_sp m) = sp_dim (gq_sp k) -> sp_din (gq_sp m) = sp_din (gq_sp k) -> sp_win (gq_sp m) = sp_win (gq_sp k) ->
    settings (gq_sp m) = settings (gq_sp k) -> same_recognition (gq_view m) (gq_view k).
  Proof.
    intros recs m k NE (S1 & L1 & F1) (S2 & L2 & F2) CF B D DI W ST.
    assert (LL : map fst (gq_cls m) = map fst (gq_cls k)).
    { apply sorted_same; [exact S1|exact S2|]. intro l. rewrite L1, L2. reflexivity. }
    assert (F2' : Forall (fun e => class_like u (gq_sp m) (gq_cf m) recs (fst e) (snd e)) (gq_cls k)).
    { apply Forall_forall. intros e He. rewrite CF. eapply (like_ext u (gq_sp k) (gq_sp m)); try (symmetry; assumption); [reflexivity|]. apply (proj1 (Forall_forall _ _) F2 e He). }
    apply same_models.
    - unfold msim0, gq_view. cbn [gm_bim gm_dim gm_din gm_est gm_cmode gm_models]. rewrite CF. repeat (split; [congruence|]). split.
      + intro Q. destruct recs as [|[l x] recs]; [congruence|]. pose proof (proj2 (L1 l) (or_introl eq_refl)) as I. rewrite Q in I. destruct I.
      + apply Forall_forall. intros e He. destruct (proj1 (Forall_forall _ _) F1 e He) as (_ & g' & (_ & _ & M3 & _) & (E1 & _)). congruence.
    - cbn [gq_view gm_models]. eapply zip_entries; [|exact LL|exact F1|exact F2']. cbv beta. intros l x y. apply like_alike.
    - cbn [gq_view gm_models]. eapply Forall_impl; [|exact F1]. intros e ((_ & _ & R1) & _). apply wf_channel, R1.
    - cbn [gq_view gm_models]. eapply Forall_impl; [|exact F2]. intros e ((_ & _ & R1) & _). apply wf_channel, R1.
  Qed.

  Lemma trained_at_once : forall (w : world) k t recs (m : gmodel RA), recorded w k t recs -> recs <> [] -> set_up (t_bim t) (gq_sp m) ->
    (forall l, In l (map fst recs) -> learnable (gq_cf m) recs l) ->
    exists m', gq_train u w k m = Ok m' /\ gq_cf m' = gq_cf m /\ fetched t (gq_sp m) (gq_sp m') /\ trained_as u recs m' /\ at_rest m'.
  Proof.
    intros w k t recs m H NE SU LE. destruct (trained u w k t recs m H NE SU LE) as (m' & gs & E & C1 & C2 & C3 & C4 & C5 & C6 & C7 & C8 & C9 & C10 & C11 & C12).
    exists m'. split; [exact E|]. split; [exact C1|]. split; [unfold fetched; auto 10|].
    assert (LK : Forall (fun e => class_like u (gq_sp m') (gq_cf m') recs (fst e) (snd e)) gs).
    { rewrite C1. eapply Forall_impl; [|exact C10]. intros e M. split; [apply M|]. exists (snd e). split; [exact M|apply same_refl]. }
    assert (LM : map fst (gq_cls m') = map fst gs) by (rewrite C11; destruct (cf_mt (gq_cf m) =? 0)%Z; [reflexivity|rewrite map_map; reflexivity]).
    assert (LC : Forall (fun e => class_like u (gq_sp m') (gq_cf m') recs (fst e) (snd e)) (gq_cls m')).
    { rewrite C11. destruct (cf_mt (gq_cf m) =? 0)%Z; [exact LK|]. apply Forall_forall. intros e He. apply in_map_iff in He. destruct He as (e' & <- & He).
      cbn [fst snd]. apply like_reset. apply (proj1 (Forall_forall _ _) LK e' He). }
    split; [|split].
    - unfold trained_as, label_sorted. rewrite LM. auto.
    - unfold label_sorted. rewrite LM. exact C8.
    - eapply Forall_impl; [|exact LC]. intros e ((_ & _ & R) & g' & (_ & _ & M3 & M4 & M5 & M6 & _) & (E1 & E2 & E3 & E4 & _)). split; [|exact R]. unfold shares. repeat split; congruence.
  Qed.

  Lemma fetched_trans : forall t s s1 s2, fetched t s s1 -> fetched t s1 s2 -> fetched t s s2 /\ sp_bim s1 = sp_bim s2 /\ sp_dim s1 = sp_dim s2 /\ sp_din s1 = sp_din s2 /\
    sp_win s1 = sp_win s2 /\ settings s1 = settings s2.
  Proof.
    intros t s s1 s2 (A1 & A2 & A3 & A4 & A5) (B1 & B2 & B3 & B4 & B5). unfold fetched. repeat split; try congruence; try apply B1; destruct A1 as (A1 & _), B1 as (B1 & _); congruence.
  Qed.

  Lemma fetched_dims : forall t s (m : gmodel RA), fetched t s (gq_sp m) -> same_dims t m.
  Proof. intros t s m (_ & A2 & A3 & _) _. split; [exact A2|]. intro B. rewrite A3, B. reflexivity. Qed.

  Lemma train_each : forall (w : world) k t recs ls (m : gmodel RA), recorded w k t recs -> (forall l, In l ls -> In l (map fst recs) /\ learnable (gq_cf m) recs l) ->
    set_up (t_bim t) (gq_sp m) -> at_rest m -> same_dims t m ->
    exists m', gq_train_each u w k ls m = (m', Ok tt) /\ gq_cf m' = gq_cf m /\ (ls = [] /\ m' = m \/ fetched t (gq_sp m) (gq_sp m')) /\ at_rest m' /\
      (forall l, In l (map fst (gq_cls m')) <-> In l ls \/ In l (map fst (gq_cls m))) /\
      (forall l, In l ls -> exists g, class_named m' l = Some g /\ class_like u (gq_sp m') (gq_cf m) recs l g) /\
      (forall l, ~ In l ls -> class_named m' l = class_named m l \/
         exists g n, class_named m l = Some g /\ class_named m' l = Some (Nat.iter n (gm_reset1 (A := RA)) g)).
  Proof.
    intros w k t recs. induction ls as [|l ls IH]; intros m H HL SU AR SD.
    - exists m. split; [reflexivity|]. split; [reflexivity|]. split; [left; split; reflexivity|]. split; [exact AR|]. split; [intro l; cbn; tauto|]. split; [intros l []|]. left. reflexivity.
    - destruct (HL l (or_introl eq_refl)) as (Hl & LE).
      destruct (train_one u w k t recs m l H Hl LE SU AR SD) as (m1 & E1 & C1 & F1 & N1 & A1 & L1 & G1 & O1).
      destruct (IH m1 H) as (m2 & E2 & C2 & F2 & A2 & L2 & G2 & O2).
      { intros l' Hl'. rewrite C1. apply HL. right. exact Hl'. }
      { apply F1. }
      { exact A1. }
      { eapply fetched_dims, F1. }
      exists m2. unfold gq_train_each, sforeach. unfold sbind. rewrite E1. split; [exact E2|]. split; [congruence|].
      assert (SP : fetched t (gq_sp m) (gq_sp m2) /\ sp_bim (gq_sp m1) = sp_bim (gq_sp m2) /\ sp_dim (gq_sp m1) = sp_dim (gq_sp m2) /\ sp_din (gq_sp m1) = sp_din (gq_sp m2) /\
        sp_win (gq_sp m1) = sp_win (gq_sp m2) /\ settings (gq_sp m1) = settings (gq_sp m2)).
      { destruct F2 as [(_ & ->)|F2]; [auto 10|]. eapply fetched_trans; eassumption. }
      destruct SP as (SP & X1 & X2 & X3 & X4 & X5). split; [right; exact SP|]. split; [exact A2|]. split; [|split].
      + intro l'. rewrite L2, L1. cbn. intuition congruence.
      + intros l' Hl'. destruct (in_dec string_dec l' ls) as [I|I]; [rewrite <- C1; apply G2, I|]. destruct Hl' as [<-|Hl']; [|contradiction].
        destruct G1 as (g & G1 & G1' & _).
        assert (LK : class_like u (gq_sp m2) (gq_cf m) recs l g) by (eapply (like_ext u (gq_sp m1) (gq_sp m2)); try eassumption; reflexivity).
        destruct (O2 l I) as [Q|(g' & n & Q1 & Q2)].
        * exists g. split; [congruence|exact LK].
        * assert (g' = g) by congruence. subst g'. exists (Nat.iter n (gm_reset1 (A := RA)) g). split; [exact Q2|]. clear - LK. induction n; [exact LK|]. apply like_reset, IHn.
      + intros l' NI. assert (NL : l' <> l) by (intro; subst; apply NI; left; reflexivity). assert (NI' : ~ In l' ls) by (intro; apply NI; right; assumption).
        pose proof (O1 l' NL) as O1'. destruct (O2 l' NI') as [Q|(g & n & Q1 & Q2)].
        * rewrite Q, O1'. destruct (cf_mt (gq_cf m) =? 0)%Z; [left; reflexivity|]. destruct (class_named m l') as [g|]; [|left; reflexivity].
          right. exists g, 1. split; reflexivity.
        * rewrite O1' in Q1. destruct (cf_mt (gq_cf m) =? 0)%Z; [right; exists g, n; auto|]. destruct (class_named m l') as [g0|]; [|discriminate]. cbn in Q1. injection Q1 as <-.
          right. exists g0, (S n). split; [reflexivity|]. rewrite Q2. f_equal. clear. induction n; [reflexivity|]. change (gm_reset1 (Nat.iter n (gm_reset1 (A := RA)) (gm_reset1 g0)) = gm_reset1 (Nat.iter (S n) (gm_reset1 (A := RA)) g0)). rewrite IHn. reflexivity.
  Qed.
End Same.

Lemma fill_short : forall (ins v : list R) n, length v < n -> iterM n (fun i v => let* x := rd ins i in wr v i x) v = UB.
Proof.
  intros ins v n. induction n as [|n IH]; intro L; [lia|]. cbn [iterM].
  destruct (Nat.eq_dec n (length v)) as [E|E]; [|rewrite IH by lia; reflexivity].
  assert (G : forall k, iterM k (fun i v => let* x := rd ins i in wr v i x) v = UB \/ exists v', iterM k (fun i v => let* x := rd ins i in wr v i x) v = Ok v' /\ length v' = length v).
  { clear. induction k as [|k IH]; [right; exists v; split; reflexivity|]. cbn [iterM]. destruct IH as [->|(v' & -> & L)]; [left; reflexivity|]. cbn [bind].
    unfold rd. destruct (nth_error ins k) as [x|]; cbn [bind]; [|left; reflexivity]. unfold wr. destruct (k <? length v') eqn:Q; [|left; reflexivity].
    right. eexists. split; [reflexivity|]. rewrite upd_length. exact L. }
  destruct (G n) as [->|(v' & -> & L')]; [reflexivity|]. cbn [bind]. unfold rd. destruct (nth_error ins n); cbn [bind]; [|reflexivity]. unfold wr.
  destruct (n <? length v') eqn:Q; [apply Nat.ltb_lt in Q; lia|reflexivity].
Qed.

Lemma filter_short : forall (m : gmodel RA) (x : list R), length (rs_inst (gq_res m)) < length (gq_cls m) ->
  Forall (fun e => gm_ready (snd e) /\ (exists W, 1 <= W /\ window_of W [] (gc_buf (snd e))) /\ length x = obs_dim (snd e)) (gq_cls m) ->
  gq_filter (A := RA) x m = UB.
Proof.
  intros m x RS F. unfold gq_filter, gm_filter, gq_view. cbn [gm_models gm_res].
  assert (E : exists ms, mapM (fun e : string * gclass RA => let* g := gm_filter1 (A := RA) x (snd e) in Ok (fst e, g)) (gq_cls m) = Ok ms).
  { clear RS. induction F as [|e l (R1 & (W & HW & B1) & L1) F IH]; [eexists; reflexivity|]. cbn [mapM].
    destruct (filter1_any (snd e) x W [] R1 HW B1 L1) as (h & ->). cbn [bind]. destruct IH as (ms & E). change (num RA) with R in *. rewrite E. cbn [bind]. eexists. reflexivity. }
  destruct E as (ms & E). pose proof (mapM_length _ _ _ E) as LM. change (num RA) with R in *. rewrite E. cbn [bind]. unfold update_results. rewrite map_length.
  change (num RA) with R in *. rewrite fill_short by lia. reflexivity.
Qed.

Section Grow.
  Variable u : junk RA.

  Lemma retrained : forall (w1 w2 : world) k1 k2 t1 t2 recs1 recs2 (m : gmodel RA) l, recorded w1 k1 t1 recs1 -> recorded w2 k2 t2 recs2 -> recs1 <> [] ->
    set_up (t_bim t1) (gq_sp m) -> t_bim t1 = t_bim t2 -> t_dim t1 = t_dim t2 -> t_din t1 = t_din t2 ->
    (forall l', In l' (map fst recs1) -> learnable (gq_cf m) recs1 l') -> (forall l', In l' (map fst recs2) -> learnable (gq_cf m) recs2 l') ->
    In l (map fst recs2) -> (forall l', l' <> l -> of_class l' recs1 = of_class l' recs2) ->
    exists m1 m2 m3, gq_train u w1 k1 m = Ok m1 /\ gq_train_one u w2 k2 l m1 = (m2, Ok tt) /\ gq_train u w2 k2 m = Ok m3 /\
      map fst (gq_cls m2) = map fst (gq_cls m3) /\ same_recognition (gq_view m2) (gq_view m3).
  Proof.
    intros w1 w2 k1 k2 t1 t2 recs1 recs2 m l H1 H2 NE SU B D DI LE1 LE2 Hl OC.
    destruct (trained_at_once u w1 k1 t1 recs1 m H1 NE SU LE1) as (m1 & E1 & C1 & F1 & (S1 & L1 & T1) & A1).
    assert (SU2 : set_up (t_bim t2) (gq_sp m)) by (rewrite <- B; exact SU).
    destruct (trained_at_once u w2 k2 t2 recs2 m H2 ltac:(intro Q; rewrite Q in Hl; destruct Hl) SU2 LE2) as (m3 & E3 & C3 & F3 & T3 & A3).
    destruct (train_one u w2 k2 t2 recs2 m1 l H2 Hl) as (m2 & E2 & C2 & F2 & N2 & A2 & L2 & (g & G1 & G2 & _) & O2).
    { rewrite C1. apply LE2, Hl. }
    { rewrite <- B. apply F1. }
    { exact A1. }
    { pose proof (fetched_dims t1 (gq_sp m) m1 F1) as Q. intro NC. destruct (Q NC) as (Q1 & Q2). split; [congruence|]. rewrite <- B, <- DI. exact Q2. }
    exists m1, m2, m3. split; [exact E1|]. split; [exact E2|]. split; [exact E3|].
    assert (FT : sp_bim (gq_sp m1) = sp_bim (gq_sp m2) /\ sp_dim (gq_sp m1) = sp_dim (gq_sp m2) /\ sp_din (gq_sp m1) = sp_din (gq_sp m2) /\ sp_win (gq_sp m1) = sp_win (gq_sp m2) /\
      settings (gq_sp m1) = settings (gq_sp m2)).
    { destruct F1 as ((P0 & _) & P1 & P2 & P3 & P4), F2 as ((Q0 & _) & Q1 & Q2 & Q3 & Q4). rewrite <- B, <- ?DI in Q2. repeat split; congruence. }
    destruct FT as (X1 & X2 & X3 & X4 & X5).
    assert (TR : trained_as u recs2 m2).
    { split; [apply A2|]. split.
      - intro l'. rewrite L2, L1. destruct (string_dec l' l) as [->|NL]; [tauto|]. rewrite <- !class_empty, (OC l' NL). tauto.
      - apply Forall_forall. intros [l' h] He. cbn [fst snd].
        assert (GM : class_named m2 l' = Some h).
        { eapply in_mget; eauto using String.eqb_eq, str_ltb_irrefl. apply A2. }
        rewrite C2. destruct (string_dec l' l) as [->|NL].
        + assert (h = g) by congruence. subst h. exact G2.
        + rewrite (O2 l' NL) in GM.
          assert (OLD : forall g', class_named m1 l' = Some g' -> class_like u (gq_sp m2) (gq_cf m1) recs2 l' g').
          { intros g' Q. apply mget_in in Q; [|apply String.eqb_eq]. eapply (like_ext u (gq_sp m1) (gq_sp m2) (gq_cf m1) recs1 recs2); try assumption; [apply OC, NL|].
            apply (proj1 (Forall_forall _ _) T1 _ Q). }
          destruct (cf_mt (gq_cf m1) =? 0)%Z; [apply OLD, GM|]. destruct (class_named m1 l') as [g'|]; [|discriminate]. cbn in GM. injection GM as <-. apply like_reset, OLD. reflexivity. }
    split.
    - apply sorted_same; [apply A2|apply A3|]. intro l'. rewrite (proj1 (proj2 TR)), (proj1 (proj2 T3)). reflexivity.
    - apply (same_trained u recs2); try assumption; try congruence.
      + intro Q. rewrite Q in Hl. destruct Hl.
      + destruct F2 as ((Q0 & _) & _), F3 as ((P0 & _) & _). congruence.
      + destruct F2 as (_ & Q & _), F3 as (_ & P & _). congruence.
      + destruct F2 as (_ & _ & Q & _), F3 as (_ & _ & P & _). congruence.
      + destruct F3 as (_ & _ & _ & _ & P), F1 as (_ & _ & _ & _ & Q). congruence.
      + destruct F3 as (_ & _ & _ & P & _), F1 as (_ & _ & _ & Q & _). congruence.
  Qed.

  Lemma each_at_once : forall (w : world) k t recs (m : gmodel RA) ls, recorded w k t recs -> recs <> [] -> set_up (t_bim t) (gq_sp m) -> at_rest m -> same_dims t m ->
    (forall l, In l (map fst recs) -> learnable (gq_cf m) recs l) ->
    (forall l, In l ls <-> In l (map fst recs)) -> (forall l, In l (map fst (gq_cls m)) -> In l (map fst recs)) ->
    exists m1 m2, gq_train u w k m = Ok m1 /\ gq_train_each u w k ls m = (m2, Ok tt) /\ map fst (gq_cls m1) = map fst (gq_cls m2) /\ same_recognition (gq_view m1) (gq_view m2).
  Proof.
    intros w k t recs m ls H NE SU AR SD LE HL OLD.
    destruct (trained_at_once u w k t recs m H NE SU LE) as (m1 & E1 & C1 & F1 & T1 & A1).
    destruct (train_each u w k t recs ls m H) as (m2 & E2 & C2 & F2 & A2 & L2 & G2 & O2); try assumption.
    { intros l Hl. apply HL in Hl. split; [exact Hl|apply LE, Hl]. }
    assert (F2' : fetched t (gq_sp m) (gq_sp m2)).
    { destruct F2 as [(-> & _)|F2]; [|exact F2]. exfalso. destruct recs as [|[a b] recs]; [congruence|]. destruct (proj2 (HL a) (or_introl eq_refl)). }
    exists m1, m2. split; [exact E1|]. split; [exact E2|].
    assert (TR : trained_as u recs m2).
    { split; [apply A2|]. split.
      - intro l. rewrite L2, HL. split; [intros [Q|Q]; [exact Q|apply OLD, Q]|auto].
      - apply Forall_forall. intros [l h] He. cbn [fst snd].
        assert (GM : class_named m2 l = Some h) by (eapply in_mget; eauto using String.eqb_eq, str_ltb_irrefl; apply A2).
        assert (I : In l ls). { apply HL. assert (Q : In l (map fst (gq_cls m2))) by (apply in_map_iff; exists (l, h); auto). apply L2 in Q. destruct Q as [Q|Q]; [apply HL, Q|apply OLD, Q]. }
        destruct (G2 l I) as (g & Q1 & Q2). assert (h = g) by congruence. subst h. rewrite C2. exact Q2. }
    split.
    - apply sorted_same; [apply A1|apply A2|]. intro l. rewrite (proj1 (proj2 T1)), (proj1 (proj2 TR)). reflexivity.
    - destruct F1 as ((P0 & _) & P1 & P2 & P3 & P4), F2' as ((Q0 & _) & Q1 & Q2 & Q3 & Q4). apply (same_trained u recs); try assumption; congruence.
  Qed.

  Lemma grown_unready : forall (w1 w2 : world) k1 k2 t1 t2 recs1 recs2 (m : gmodel RA) l, recorded w1 k1 t1 recs1 -> recorded w2 k2 t2 recs2 -> recs1 <> [] ->
    set_up (t_bim t1) (gq_sp m) -> t_bim t1 = t_bim t2 -> t_dim t1 = t_dim t2 -> t_din t1 = t_din t2 ->
    (forall l', In l' (map fst recs1) -> learnable (gq_cf m) recs1 l') -> In l (map fst recs2) -> learnable (gq_cf m) recs2 l -> ~ In l (map fst recs1) ->
    cf_mt (gq_cf m) = 0%Z ->
    exists m1 m1r m2, gq_train u w1 k1 m = Ok m1 /\ gq_reset m1 = Ok m1r /\ gq_train_one u w2 k2 l m1r = (m2, Ok tt) /\
      forall x, length x = input_dim (gq_sp m2) -> gq_filter (A := RA) x m2 = UB.
  Proof.
    intros w1 w2 k1 k2 t1 t2 recs1 recs2 m l H1 H2 NE SU B D DI LE1 Hl LEl NI SEQ.
    destruct (trained_at_once u w1 k1 t1 recs1 m H1 NE SU LE1) as (m1 & E1 & C1 & F1 & (S1 & L1 & T1) & A1).
    assert (SU1 : set_up (t_bim t1) (gq_sp m1)) by apply F1.
    destruct (reset_gq m1) as (r & ER & RS).
    { intro Q. destruct SU1 as (_ & M' & _). unfold modal_ok in M'. rewrite Q in M'. lia. }
    set (m1r := gq_set (gq_sp m1) (map (fun e => (fst e, gm_reset1 (snd e))) (gq_cls m1)) r m1) in *.
    assert (LM : map fst (gq_cls m1r) = map fst (gq_cls m1)) by (unfold m1r; cbn [gq_set gq_cls]; rewrite map_map; reflexivity).
    assert (CN : forall l', class_named m1r l' = option_map (gm_reset1 (A := RA)) (class_named m1 l')) by (intro l'; apply mget_resets).
    assert (AR : at_rest m1r).
    { split; [unfold label_sorted; rewrite LM; exact S1|]. unfold m1r. cbn [gq_set gq_cls gq_sp]. apply Forall_forall. intros e He. apply in_map_iff in He. destruct He as (e' & <- & He).
      destruct (proj1 (Forall_forall _ _) (proj2 A1) e' He) as (Q1 & Q2). split; [exact Q1|apply reset1_wf, Q2]. }
    destruct (train_one u w2 k2 t2 recs2 m1r l H2 Hl) as (m2 & E2 & C2 & F2 & N2 & A2 & L2 & (g & G1 & G2 & G3) & O2).
    { unfold m1r. cbn [gq_set gq_cf]. rewrite C1. exact LEl. }
    { rewrite <- B. exact SU1. }
    { exact AR. }
    { pose proof (fetched_dims t1 (gq_sp m) m1r F1) as Q. intro NC. destruct (Q NC) as (Q1 & Q2). split; [congruence|]. rewrite <- B, <- DI. exact Q2. }
    exists m1, m1r, m2. split; [exact E1|]. split; [exact ER|]. split; [exact E2|]. intros x Lx.
    assert (CF : (cf_mt (gq_cf m1r) =? 0)%Z = true) by (unfold m1r; cbn [gq_set gq_cf]; rewrite C1, SEQ; reflexivity).
    assert (NM : class_named m1r l = None).
    { rewrite CN. destruct (class_named m1 l) as [h|] eqn:Q; [|reflexivity]. exfalso. apply NI. rewrite <- L1. apply mget_label. unfold class_named in Q. congruence. }
    specialize (G3 CF NM).
    assert (RES : gq_res m2 = gq_res m1r).
    { clear - E2 CF. unfold gq_train_one in E2. destruct (nth_error (w_sets w2) k2) as [[t|]|]; try discriminate. destruct (one_prepare t _ l (gq_sp m1r)) as [s [[]| |]]; try discriminate.
      cbv zeta in E2. cbn [gq_set gq_cf gq_cls gq_res] in E2. rewrite CF in E2.
      destruct (gq_run_class _ _ _ _ _) as [[st []]| |]; try discriminate. injection E2 as <-. reflexivity. }
    apply filter_short.
    - rewrite RES. unfold m1r. cbn [gq_set gq_res]. destruct RS as (RS & _). change (num RA) with R in *. rewrite RS.
      assert (ND : forall ms : list (string * gclass RA), label_sorted ms -> NoDup (map fst ms)) by (intros ms Q; apply sorted_nodup, Q).
      pose proof (NoDup_incl_length (l := l :: map fst (gq_cls m1)) (l' := map fst (gq_cls m2))) as Q. rewrite map_length in Q. cbn [length] in Q. rewrite map_length in Q.
      apply Q.
      + constructor; [rewrite L1; exact NI|apply ND, S1].
      + intros l' [<-|Q']; apply L2; [left; reflexivity|right; rewrite LM; exact Q'].
    - apply Forall_forall. intros [l' h] He. cbn [snd].
      assert (GM : class_named m2 l' = Some h) by (eapply in_mget; eauto using String.eqb_eq, str_ltb_irrefl; apply A2).
      assert (SH : shares (gq_sp m2) (gc_bim h) (gc_dim h) (gc_din h) (gc_win h)) by apply (proj1 (Forall_forall _ _) (proj2 A2) _ He).
      assert (OD : length x = obs_dim h) by (destruct SH as (Q1 & Q2 & Q3 & Q4); unfold obs_dim; rewrite Q1, Q2, Q3; exact Lx).
      destruct (string_dec l' l) as [->|NL].
      + assert (h = g) by congruence. subst h. split; [apply G2|]. split; [|exact OD]. exists 1. split; [lia|]. rewrite G3. change (num RA) with R in *. rewrite n0_RA. exact empty_window.
      + rewrite (O2 l' NL), CF, CN in GM. destruct (class_named m1 l') as [g'|] eqn:Q; [|discriminate]. cbn in GM. injection GM as <-.
        apply mget_in in Q; [|apply String.eqb_eq]. destruct (proj1 (Forall_forall _ _) T1 _ Q) as (U & _). cbn [fst snd] in U.
        split; [apply (reset1_usable g' U)|]. split; [|exact OD]. exists (gc_win g'). split; [apply U|]. cbn [gm_reset1 gc_set_buf gc_buf]. change (num RA) with R in *. rewrite n0_RA. apply window_fresh. apply U.
  Qed.
End Grow.
