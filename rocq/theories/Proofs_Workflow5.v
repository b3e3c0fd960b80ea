(** A user who makes a training set and records into it. *)
From Coq Require Import String List Bool Arith Lia ZArith Reals Lra Sorting.Sorted.
From Verif Require Import Base BaseFacts Arith RFacts Model_Map Model_Attribute Model_Events Model_Phrase Model_TrainingSet Spec_Phrase Spec_TrainingSet Spec_Workflow
  Proofs_Map Proofs_Phrase Proofs_Phrase2 Proofs_Phrase3 Proofs_Phrase4 Proofs_PhraseStats Proofs_TrainingSet Proofs_TrainingSet2 Proofs_TrainingSet4 Proofs_TrainingSet5 Proofs_TrainingSet6 Proofs_TrainingSet7
  Proofs_Workflow3.
Import ListNotations.
Local Open Scope list_scope.
Local Open Scope nat_scope.

Local Notation phrase := (phrase (A:=RA)).
Local Notation world := (world RA).

(** All the calls return normally. *)
Definition runs (w : world) (ops : list (wop RA)) (w' : world) : Prop := world_run w ops = Ok (w', repeat (Ok tt) (length ops)).

Lemma runs_nil : forall w, runs w [] w.
Proof. reflexivity. Qed.

Lemma runs_cons : forall w o w1 ops w', world_step o w = (w1, Ok tt) -> runs w1 ops w' -> runs w (o :: ops) w'.
Proof. intros w o w1 ops w' E H. unfold runs in *. cbn [world_run length repeat]. rewrite E, H. reflexivity. Qed.

Lemma runs_app : forall a w w1 b w', runs w a w1 -> runs w1 b w' -> runs w (a ++ b) w'.
Proof.
  induction a as [|o a IH]; intros w w1 b w' H H'; cbn [app].
  - unfold runs in H. cbn in H. injection H as <-. exact H'.
  - unfold runs in H. cbn [world_run length repeat] in H. destruct (world_step o w) as [w2 out] eqn:E. destruct out as [[]|e|].
    + apply (runs_cons w o w2); [exact E|]. apply (IH w2 w1); [|exact H']. unfold runs.
      destruct (world_run w2 a) as [[w3 outs]| |]; cbn [bind] in H; try discriminate. congruence.
    + destruct (world_run w2 a) as [[w3 outs]| |]; cbn [bind] in H; try discriminate.
    + discriminate.
Qed.

Lemma runs_reachable : forall ops w, runs world_new ops w -> reachable w.
Proof.
  intros ops w H. exists ops, (repeat (Ok tt) (length ops)). split; [exact H|]. intros n o E _.
  assert (L : n < length ops) by (apply nth_error_Some; congruence). rewrite (nth_error_nth' _ (Ok tt)) by (rewrite repeat_length; exact L).
  f_equal. clear. revert n. induction ops as [|a ops IH]; intros [|n]; cbn; auto.
Qed.

Lemma up_to_date_iff : forall (w : world) k t, set_at w k = Some t -> valid (w_heap w) (t_phrases t) ->
  (up_to_date w k <-> updated (w_heap w) t = (t, Ok tt)).
Proof.
  intros w k t HS V. unfold up_to_date. rewrite (update_eq w k t HS V). destruct (updated (w_heap w) t) as [t' o]. cbn [fst snd].
  pose proof (set_at_lt _ _ _ HS) as L. split; intro H.
  - injection H as E ->. f_equal. pose proof (set_at_wput w k t' k L) as Q. rewrite E, HS, Nat.eqb_refl in Q. congruence.
  - injection H as -> ->. rewrite (wput_same _ _ _ HS). reflexivity.
Qed.

(** The relation between an entry of the set and a recording. *)
Definition entry_of (w : world) (bim : bool) (dim din : nat) (e : Z * nat) (r : recording) : Prop :=
  exists p s, nth_error (w_heap w) (snd e) = Some p /\ made p s /\
      s_bim s = bim /\ s_dim s = dim /\ (bim = true -> s_din s = din /\ length (s_in s) = length (s_out s)) /\
      p_label p = fst r /\ frames_of s = snd r.

(** The state while recording: the phrases are numbered as they come. *)
Definition rec_state (bim : bool) (dim din : nat) (w : world) (t : tset) (recs : list recording) : Prop :=
  set_at w 0 = Some t /\ up_to_date w 0 /\ in_range t /\ length (t_cols t) = dim /\
  t_own t = true /\ t_bim t = bim /\ t_dim t = dim /\ t_din t = din /\
  length (w_heap w) = length recs /\ t_phrases t = map (fun i => (Z.of_nat i, i)) (seq 0 (length recs)) /\
  Forall2 (entry_of w bim dim din) (t_phrases t) recs.

Lemma numbered_sorted : forall n, ksorted Z.ltb (map (fun i => (Z.of_nat i, i)) (seq 0 n)).
Proof.
  intro n. unfold ksorted. rewrite map_map. cbn [fst]. generalize 0. induction n as [|n IH]; intro a; cbn [seq map]; constructor; [apply IH|].
  apply Forall_forall. intros x Hx. apply in_map_iff in Hx. destruct Hx as (i & <- & Hi). apply in_seq in Hi. apply Z.ltb_lt. lia.
Qed.

Lemma numbered_valid : forall (h : list phrase) n, length h = n -> valid h (map (fun i => (Z.of_nat i, i)) (seq 0 n)).
Proof. intros h n L i id Hi. apply in_map_iff in Hi. destruct Hi as (j & E & Hj). injection E as _ <-. apply in_seq in Hj. lia. Qed.

(** Adding a phrase. *)
Lemma add_step : forall bim dim din (w : world) t recs lab, rec_state bim dim din w t recs ->
  exists w' t', world_step (WAdd 0 (Z.of_nat (length recs)) lab) w = (w', Ok tt) /\ rec_state bim dim din w' t' (recs ++ [(lab, [])]).
Proof.
  intros bim dim din w t recs lab (H & UD & RG & LC & OW & HB & HD & HI & LH & HP & HF). cbn [world_step]. unfold add_new.
  pose proof (set_at_lt _ _ _ H) as L. pose proof (numbered_valid (w_heap w) _ LH) as V. rewrite <- HP in V.
  set (n := length (w_heap w)). set (i := Z.of_nat (length recs)).
  destruct (fresh_phrase (A := RA) t lab _ (ev_add (p_events (phrase_new (A:=RA) (t_own t) (t_bim t))) 0 0) RG eq_refl) as (p1 & p2 & E1 & E2 & F).
  set (t1 := with_phrases (pput (t_phrases t) i n) t).
  unfold sbind at 1. rewrite (get_set_eq _ _ _ H). unfold sbind at 1. rewrite new_phrase_eq. fold n.
  unfold sbind at 1. rewrite (put_set_eq (mkWorld _ _) 0 t1 t H).
  assert (OP : forall (w1 : world) q q' m s, w1 = mkWorld (w_heap w ++ [q]) s -> m q = (q', Ok tt) ->
            on_phrase n m w1 = (mkWorld (w_heap w ++ [q']) s, Ok tt)).
  { intros w1 q q' m s -> Hm. rewrite (on_phrase_eq _ _ _ q q' (Ok tt)); auto; cbn [w_heap w_sets].
    - f_equal. f_equal. unfold n. clear. induction (w_heap w); simpl; auto. f_equal. auto.
    - rewrite nth_error_app2 by (unfold n; lia). unfold n. rewrite Nat.sub_diag. reflexivity. }
  unfold wput at 1. cbn [w_heap w_sets]. set (ss := upd (w_sets w) 0 (Some t1)).
  unfold sbind at 1. unfold add_listener. erewrite OP by reflexivity. cbn beta.
  unfold sbind at 1. erewrite OP; [|reflexivity|exact E1].
  unfold sbind at 1. erewrite OP; [|reflexivity|exact E2].
  unfold sbind at 1. erewrite OP by reflexivity.
  unfold sbind at 1. erewrite OP by reflexivity.
  set (p3 := set_label lab (set_cols (t_cols t) p2)) in *.
  set (w1 := mkWorld (w_heap w ++ [p3]) ss).
  assert (H1 : set_at w1 0 = Some t1). { unfold set_at, w1, ss. cbn [w_sets]. rewrite nth_error_upd_eq by auto. reflexivity. }
  assert (PP : t_phrases t1 = map (fun i => (Z.of_nat i, i)) (seq 0 (length (recs ++ [(lab, [] : list (list R))])))).
  { unfold t1, with_phrases. cbn [t_phrases]. unfold pput. rewrite (mput_last Z.eqb Z.ltb).
    - rewrite app_length. cbn [length]. rewrite Nat.add_1_r, seq_S, map_app, HP. cbn [map Nat.add]. unfold i, n. rewrite LH. reflexivity.
    - intros a b. apply Z.eqb_eq.
    - apply Zltb_trans.
    - intro a. apply Z.ltb_irrefl.
    - rewrite HP. apply numbered_sorted.
    - intros x Hx. rewrite HP, map_map in Hx. cbn [fst] in Hx. apply in_map_iff in Hx. destruct Hx as (j & <- & Hj). apply in_seq in Hj. apply Z.ltb_lt. unfold i. lia. }
  assert (LH1 : length (w_heap w1) = length (recs ++ [(lab, [] : list (list R))])) by (unfold w1; cbn [w_heap]; rewrite !app_length, LH; reflexivity).
  assert (V1 : valid (w_heap w1) (t_phrases t1)) by (rewrite PP; apply numbered_valid; exact LH1).
  destruct (update_range w1 0 t1 H1 V1 RG) as (w' & Eu).
  destruct (update_post _ _ _ _ H1 V1 Eu) as (Q1 & (t' & Q2 & Q3 & (A1 & A2 & A3 & A4 & A5)) & Q5 & Q6).
  exists w', t'. split; [exact Eu|]. unfold rec_state. cbn [t1 with_phrases t_own t_bim t_dim t_din t_cols] in A1, A2, A3, A4, A5.
  rewrite A1, A2, A3, A4, A5, Q1, LH1, Q3. split; [exact Q2|]. split; [exact Q6|].
  split; [unfold in_range; rewrite A2, A3, A4; exact RG|]. split; [exact LC|]. split; [exact OW|]. split; [exact HB|]. split; [exact HD|]. split; [exact HI|].
  split; [reflexivity|]. split; [exact PP|].
  assert (P1 : t_phrases t1 = t_phrases t ++ [(i, n)]).
  { rewrite PP, app_length, HP. cbn [length]. rewrite Nat.add_1_r, seq_S, map_app. cbn [map Nat.add]. unfold i, n. rewrite LH. reflexivity. }
  rewrite P1. apply Forall2_app.
  - assert (HX : forall e r, entry_of w bim dim din e r -> entry_of w' bim dim din e r).
    { intros e r (p & s & EE & rest). exists p, s. split; [|exact rest]. rewrite Q1. unfold w1. cbn [w_heap]. rewrite nth_error_app1; [exact EE|]. apply nth_error_Some. congruence. }
    clear -HF HX. induction HF; constructor; auto.
  - constructor; [|constructor]. destruct RG as (R1 & R2 & R3).
    assert (M0 : made (set_events (ev_add (p_events (phrase_new (A := RA) (t_own t) (t_bim t))) 0 0) (phrase_new (t_own t) (t_bim t))) (contents_new (A:=RA) (t_bim t))).
    { rewrite OW. apply made_events, made_new. }
    assert (M1 : made p1 (fst (spec_step (contents_new (A:=RA) (t_bim t)) (PSetDim (A:=RA) (t_dim t))))).
    { replace p1 with (fst (phrase_step false (PSetDim (A:=RA) (t_dim t)) (set_events (ev_add (p_events (phrase_new (A := RA) (t_own t) (t_bim t))) 0 0) (phrase_new (t_own t) (t_bim t))))).
      - apply made_op; [exact M0|]. cbn [op_fits contents_new s_bim s_din]. intro B. rewrite B in *. lia.
      - cbn [phrase_step]. rewrite E1. reflexivity. }
    assert (M2 : made p2 (fst (spec_step (fst (spec_step (contents_new (A:=RA) (t_bim t)) (PSetDim (A:=RA) (t_dim t)))) (PSetDimIn (A:=RA) (t_din t))))).
    { replace p2 with (fst (phrase_step false (PSetDimIn (A:=RA) (t_din t)) p1)); [|cbn [phrase_step]; rewrite E2; reflexivity]. apply made_op; [exact M1|exact I]. }
    exists p3, (fst (spec_step (fst (spec_step (contents_new (A:=RA) (t_bim t)) (PSetDim (A:=RA) (t_dim t)))) (PSetDimIn (A:=RA) (t_din t)))).
    split; [rewrite Q1; unfold w1; cbn [w_heap snd]; rewrite nth_error_app2 by (unfold n; lia); unfold n; rewrite Nat.sub_diag; reflexivity|].
    split; [apply made_label, made_cols, M2|].
    cbn [spec_step contents_new s_bim]. rewrite HB, HD, HI in *. rewrite (proj2 (Nat.ltb_ge _ _) R1). cbn [fst s_bim s_in_max s_dim].
    rewrite (proj2 (Nat.ltb_ge _ _) R2), (proj2 (Nat.ltb_ge _ _) R3). cbn [orb fst s_bim s_dim s_din s_in s_out]. repeat split. unfold frames_of. cbn [s_bim s_in s_out combine map]. destruct bim; reflexivity.
Qed.

(** Recording a frame into the last phrase. *)
Lemma record_step : forall bim dim din (w : world) t recs lab fs x, set_dims bim dim din -> rec_state bim dim din w t (recs ++ [(lab, fs)]) -> length x = dim ->
  exists w', world_step (WPhrase (length recs) (PRecord (A := RA) x)) w = (w', Ok tt) /\ rec_state bim dim din w' t (recs ++ [(lab, fs ++ [x])]).
Proof.
  intros bim dim din w t recs lab fs x SD (H & UD & RG & LC & OW & HB & HD & HI & LH & HP & HF) Lx. cbn [world_step].
  set (n := length recs) in *.
  assert (PP : t_phrases t = map (fun i => (Z.of_nat i, i)) (seq 0 n) ++ [(Z.of_nat n, n)]).
  { rewrite HP, app_length. cbn [length]. fold n. rewrite Nat.add_1_r, seq_S, map_app. reflexivity. }
  rewrite PP in HF. apply Forall2_app_inv_l in HF. destruct HF as (r1 & r2 & F1 & F2 & EQ).
  assert (X : exists r, r2 = [r] /\ entry_of w bim dim din (Z.of_nat n, n) r).
  { clear -F2. inversion F2 as [|? r ? l2 E F3]; subst. inversion F3; subst. eauto. }
  destruct X as (r & -> & (p & s & En & M & S1 & S2 & S3 & S4 & S5)). apply app_inj_tail in EQ. destruct EQ as (<- & <-).
  cbn [snd fst] in En, S4, S5. pose proof (made_rep p s M) as RP.
  assert (ST : exists s', spec_step s (PRecord (A := RA) x) = (s', Ok tt) /\ s_bim s' = s_bim s /\ s_dim s' = s_dim s /\ s_din s' = s_din s /\
            (s_bim s = true -> length (s_in s') = length (s_out s')) /\ frames_of s' = frames_of s ++ [x]).
  { cbn [spec_step]. rewrite S1, S2, Lx, Nat.eqb_refl. cbn [negb]. destruct bim.
    - destruct (S3 eq_refl) as (S3a & S3b). rewrite S3b, Nat.eqb_refl. cbn [negb]. eexists. split; [reflexivity|]. unfold with_frames, frames_of. cbn [s_bim s_dim s_din s_in s_out].
      rewrite S1. repeat split; auto. + intros _. rewrite !app_length, S3b. reflexivity.
      + change (num RA) with R in *. assert (CB : forall (a b : list (list R)) u v, length a = length b -> combine (a ++ [u]) (b ++ [v]) = combine a b ++ [(u, v)]).
        { clear. induction a as [|a0 a IH]; intros [|b0 b] u v L; cbn in *; try lia; [reflexivity|]. rewrite IH by lia. reflexivity. }
        rewrite (CB _ _ _ _ S3b), map_app. cbn [map fst snd]. rewrite firstn_skipn. reflexivity.
    - eexists. split; [reflexivity|]. unfold with_frames, frames_of. cbn [s_bim s_dim s_din s_in s_out]. rewrite S1. repeat split; auto. discriminate. }
  destruct ST as (s' & ES & T1 & T2 & T3 & T4 & T5).
  destruct (rep_step _ _ _ _ _ RP (I : op_fits s (PRecord (A := RA) x)) ES) as (p' & EP & RP').
  assert (M' : made p' s').
  { replace p' with (fst (phrase_step false (PRecord (A := RA) x) p)) by (rewrite EP; reflexivity). replace s' with (fst (spec_step s (PRecord (A := RA) x))) by (rewrite ES; reflexivity). apply made_op; [exact M|exact I]. }
  destruct (tame_step false (PRecord (A := RA) x) p p' (Ok tt) EP) as (LL & _).
  rewrite (on_phrase_eq w n _ p p' (Ok tt) En EP). eexists. split; [reflexivity|].
  assert (Ln : n < length (w_heap w)) by (apply nth_error_Some; congruence).
  assert (LH' : length (upd (w_heap w) n p') = length (recs ++ [(lab, fs ++ [x])])).
  { rewrite upd_length, LH, !app_length. reflexivity. }
  unfold rec_state. cbn [w_heap].
  assert (HS : set_at (mkWorld (upd (w_heap w) n p') (w_sets w)) 0 = Some t) by exact H.
  split; [exact HS|]. split.
  { assert (V : valid (w_heap w) (t_phrases t)) by (rewrite HP; apply numbered_valid; exact LH).
    apply (up_to_date_iff _ 0 t HS).
    - cbn [w_heap]. rewrite HP. apply numbered_valid. rewrite LH', !app_length. reflexivity.
    - cbn [w_heap]. rewrite (updated_ext (A := RA) (w_heap w) (upd (w_heap w) n p') t).
      + apply (up_to_date_iff w 0 t H V). exact UD.
      + intros id _. unfold lab_of. destruct (Nat.eq_dec id n) as [->|N]; [rewrite nth_error_upd_eq by exact Ln; rewrite En; exact LL|rewrite nth_error_upd_neq by auto; reflexivity]. }
  split; [exact RG|]. split; [exact LC|]. split; [exact OW|]. split; [exact HB|]. split; [exact HD|]. split; [exact HI|]. split; [exact LH'|].
  split; [rewrite HP, !app_length; reflexivity|]. rewrite PP. apply Forall2_app.
  - assert (B1 : Forall (fun e : Z * nat => snd e < n) (map (fun i => (Z.of_nat i, i)) (seq 0 n))).
    { apply Forall_forall. intros e He. apply in_map_iff in He. destruct He as (j & <- & Hj). apply in_seq in Hj. cbn. lia. }
    clear -F1 B1. clearbody n. induction F1 as [|e r l l' (q & s & E & rest) F IH]; constructor.
    + exists q, s. split; [|exact rest]. inversion B1; subst. cbn [w_heap]. rewrite nth_error_upd_neq by lia. exact E.
    + apply IH. inversion B1; subst. assumption.
  - constructor; [|constructor]. exists p', s'. cbn [w_heap snd fst]. split; [rewrite nth_error_upd_eq by exact Ln; reflexivity|]. split; [exact M'|].
    split; [congruence|]. split; [congruence|]. split.
    + intro B. split; [rewrite T3; apply S3; exact B|apply T4; congruence].
    + split; [congruence|]. cbn [snd]. rewrite T5, S5. reflexivity.
Qed.

Lemma record_frames : forall bim dim din xs (w : world) t recs lab fs, set_dims bim dim din -> rec_state bim dim din w t (recs ++ [(lab, fs)]) ->
  Forall (fun x => length x = dim) xs ->
  exists w', runs w (map (fun x => WPhrase (length recs) (PRecord (A := RA) x)) xs) w' /\ rec_state bim dim din w' t (recs ++ [(lab, fs ++ xs)]).
Proof.
  induction xs as [|x xs IH]; intros w t recs lab fs SD RS F.
  - exists w. split; [apply runs_nil|]. rewrite app_nil_r. exact RS.
  - inversion F as [|? ? Lx F']; subst. destruct (record_step _ _ _ w t recs lab fs x SD RS eq_refl) as (w1 & E & RS1).
    destruct (IH w1 t recs lab (fs ++ [x]) SD RS1 F') as (w' & E' & RS'). exists w'. split; [apply (runs_cons _ _ w1); assumption|]. rewrite <- app_assoc in RS'. exact RS'.
Qed.

Lemma record_all_ok : forall bim dim din recs (w : world) t pre, set_dims bim dim din -> rec_state bim dim din w t pre ->
  Forall (fun r : recording => Forall (fun x => length x = dim) (snd r)) recs ->
  exists w' t', runs w (record_all (length pre) recs) w' /\ rec_state bim dim din w' t' (pre ++ recs).
Proof.
  induction recs as [|[lab fs] recs IH]; intros w t pre SD RS F; cbn [record_all].
  - exists w, t. rewrite app_nil_r. split; [apply runs_nil|exact RS].
  - inversion F as [|? ? F1 F2]; subst. cbn [snd] in F1. destruct (add_step _ _ _ w t pre lab RS) as (w1 & t1 & E1 & RS1).
    destruct (record_frames _ _ _ fs w1 t1 pre lab [] SD RS1 F1) as (w2 & E2 & RS2). cbn [app] in RS2.
    destruct (IH w2 t1 (pre ++ [(lab, fs)]) SD RS2 F2) as (w3 & t3 & E3 & RS3). rewrite app_length in E3. cbn [length] in E3. rewrite Nat.add_1_r in E3.
    exists w3, t3. rewrite <- app_assoc in RS3. split; [|exact RS3]. apply (runs_app _ _ w2); [|exact E3].
    unfold record_one. cbn [fst snd]. apply (runs_cons _ _ w1); [exact E1|exact E2].
Qed.

Lemma script_ok : forall bim dim din recs, set_dims bim dim din -> Forall (fun r : recording => Forall (fun x => length x = dim) (snd r)) recs ->
  exists w t, runs world_new (record_script bim dim din recs) w /\ recorded w 0 t recs /\ t_bim t = bim /\ t_dim t = dim /\ t_din t = din.
Proof.
  intros bim dim din recs SD F. unfold record_script.
  set (t0 := mkTset true bim dim din (dim - 1) (vresize dim EmptyString (repeat EmptyString (t_dim_min bim))) [] [] []).
  assert (S1 : runs world_new [WNewSet true bim; WSetDim 0 dim; WSetDimIn 0 din] (mkWorld [] [Some t0])).
  { unfold set_dims in SD. apply (runs_cons _ _ (mkWorld [] [Some (tset_new true bim)])); [reflexivity|].
    apply (runs_cons _ _ (mkWorld [] [Some (mkTset true bim dim (t_din_min bim) (dim - 1) (vresize dim EmptyString (repeat EmptyString (t_dim_min bim))) [] [] [])])).
    - cbn -[vresize checkLimits Nat.max Nat.sub]. unfold tset_dimension, sbind, get_set, sget, slift, rd. cbn [sbind w_sets nth_error sret tset_new t_bim t_din t_din_max t_cols t_phrases t_dim_min].
      replace (checkLimits Nat.ltb dim (t_dim_min bim) (Nat.max dim (t_dim_min bim))) with (Ok tt); [reflexivity|].
      unfold checkLimits, t_dim_min. rewrite (proj2 (Nat.ltb_ge _ _)) by (destruct bim; lia). rewrite (proj2 (Nat.ltb_ge _ _)) by lia. reflexivity.
    - apply (runs_cons _ _ (mkWorld [] [Some t0])); [|apply runs_nil].
      cbn -[vresize checkLimits Nat.sub]. unfold tset_dimension_input, sbind, get_set, sget, slift, rd. cbn [sbind w_sets nth_error sret t_bim t_din t_din_max t_cols t_phrases t_subs].
      replace (checkLimits Nat.ltb din (t_din_min bim) (dim - 1)) with (Ok tt); [reflexivity|].
      unfold checkLimits, t_din_min. rewrite (proj2 (Nat.ltb_ge _ _)) by (destruct bim; lia). rewrite (proj2 (Nat.ltb_ge _ _)) by (destruct bim; lia). reflexivity. }
  assert (R0 : rec_state bim dim din (mkWorld [] [Some t0]) t0 []).
  { unfold rec_state. split; [reflexivity|]. split; [reflexivity|]. split; [unfold in_range, set_dims in *; cbn; destruct bim; lia|].
    split; [apply vresize_length|]. repeat split. constructor. }
  destruct (record_all_ok bim dim din recs _ t0 [] SD R0 F) as (w & t & E & RS). cbn [app length] in E, RS.
  exists w, t. pose proof (runs_app _ _ _ _ _ S1 E) as RN. split; [exact RN|].
  destruct RS as (H & UD & RG & LC & OW & HB & HD & HI & LH & HP & HF). split; [|auto].
  split; [apply (runs_reachable _ _ RN)|]. split; [exact H|]. split; [exact UD|]. split; [exact RG|]. split; [congruence|].
  rewrite HB, HD, HI. clear -HF. induction HF as [|e r l l' (p & s & Q1 & Q2 & Q3 & Q4 & Q5 & Q6) HF IH]; constructor; [|exact IH].
  exists p, s. repeat split; try apply Q6; auto. intro B. apply (Q5 B).
Qed.
