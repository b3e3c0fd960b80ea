(** Proofs about training sets: the effect of the operations (C24), assignment (C25), dimension
    changes (C28). *)
From Coq Require Import String List Bool Arith Lia ZArith.
From Verif Require Import Base BaseFacts Arith Model_Map Model_Attribute Model_Events Model_Json Model_Phrase
  Model_TrainingSet Spec_Phrase Spec_TrainingSet.
From Verif Require Import Proofs_Map Proofs_Phrase Proofs_Phrase2 Proofs_TrainingSet Proofs_TrainingSet2 Proofs_TrainingSet3 Proofs_TrainingSet4.
Import ListNotations.
Local Open Scope nat_scope.

Section Effects.
  Context {A : arith}.
  Local Notation phrase := (phrase (A:=A)).
  Local Notation world := (world A).

  Lemma in_range_check : forall t, in_range t -> check_of t = Ok tt.
  Proof.
    intros t (H1 & H2 & H3). unfold check_of, checkLimits, t_din_min.
    destruct (Nat.ltb_spec (t_din t) (if t_bim t then 1 else 0)); [lia|].
    destruct (Nat.ltb_spec (t_dim t - 1) (t_din t)); [lia|]. reflexivity.
  Qed.
  Lemma updated_phrases : forall (h : list phrase) t, t_phrases (fst (updated h t)) = t_phrases t /\
    same_attributes t (fst (updated h t)).
  Proof.
    intros h t. unfold updated. destruct (build _ _ _ _ _). simpl. repeat split; reflexivity.
  Qed.
  Lemma updated_ok : forall (h : list phrase) t, in_range t -> snd (updated h t) = Ok tt.
  Proof.
    intros h t H. unfold updated. rewrite (in_range_check _ H).
    pose proof (build_ok (sub0 t) (sub1 h t) (labels_of h (t_phrases t)) []) as E.
    destruct (build _ _ _ _ _). exact E.
  Qed.
  Lemma updated_twice : forall (h : list phrase) t, updated h (fst (updated h t)) = updated h t.
  Proof.
    intros h t. unfold updated at 2. destruct (build (check_of t) (sub0 t) (sub1 h t) (labels_of h (t_phrases t)) []) as [subs o] eqn:E.
    cbn [fst]. unfold updated.
    change (labels_of h (t_phrases (with_labels (labels_of h (t_phrases t)) subs t))) with (labels_of h (t_phrases t)).
    change (check_of (with_labels (labels_of h (t_phrases t)) subs t)) with (check_of t).
    change (sub0 (with_labels (labels_of h (t_phrases t)) subs t)) with (sub0 t).
    change (sub1 h (with_labels (labels_of h (t_phrases t)) subs t)) with (sub1 h t).
    rewrite E. reflexivity.
  Qed.

  Lemma update_post : forall (w w' : world) k t, set_at w k = Some t -> valid (w_heap w) (t_phrases t) ->
    update k w = (w', Ok tt) ->
    w_heap w' = w_heap w /\ (exists t', set_at w' k = Some t' /\ t_phrases t' = t_phrases t /\ same_attributes t t') /\
    (forall j, j <> k -> set_at w' j = set_at w j) /\ up_to_date w' k.
  Proof.
    intros w w' k t H V E. rewrite (update_eq _ _ _ H V) in E. inversion E as [[Ew Eo]].
    pose proof (set_at_lt _ _ _ H) as L. destruct (updated_phrases (w_heap w) t) as (U1 & U2).
    split; [reflexivity|]. split; [|split].
    - eexists. rewrite set_at_wput by auto. rewrite Nat.eqb_refl. split; [reflexivity|]. auto.
    - intros j N. rewrite set_at_wput by auto. destruct (Nat.eqb_spec j k); congruence.
    - unfold up_to_date. rewrite (update_eq _ k (fst (updated (w_heap w) t))).
      + cbn [w_heap wput]. rewrite updated_twice. unfold wput at 1. cbn [w_heap w_sets].
        rewrite Eo. f_equal. apply (wput_wput w).
      + rewrite set_at_wput by auto. rewrite Nat.eqb_refl. reflexivity.
      + rewrite U1. exact V.
  Qed.
  Lemma update_range : forall (w : world) k t, set_at w k = Some t -> valid (w_heap w) (t_phrases t) -> in_range t ->
    exists w', update k w = (w', Ok tt).
  Proof.
    intros w k t H V R. rewrite (update_eq _ _ _ H V). rewrite (updated_ok _ _ R). eauto.
  Qed.

  (** Reachable worlds: the updates have succeeded so far. *)
  Lemma run_reach : forall ops (w : world) outs, world_run world_new ops = Ok (w, outs) ->
    (forall n o, nth_error ops n = Some o -> updates o -> nth_error outs n = Some (Ok tt)) -> inv w.
  Proof.
    intros ops w outs H HO. eapply run_inv; eauto. split.
    - intros id p o c Hp. destruct id; discriminate.
    - intros j u Hj. destruct j; discriminate.
  Qed.

  Lemma inv_valid : forall (w : world) k t, inv w -> set_at w k = Some t -> valid (w_heap w) (t_phrases t).
  Proof. intros w k t I H. eapply shape_valid. apply (proj2 I k t H). Qed.

  Lemma pget_valid : forall (h : list phrase) m i id, valid h m -> pget m i = Some id -> id < length h.
  Proof. intros h m i id V H. unfold pget in H. apply (mget_in _ Z.eqb_eq) in H. eapply V; eauto. Qed.

  (** The phrase made by [addPhrase(index, label)]. *)
  Definition emptied (p : phrase) : phrase :=
    set_d1 (if p_bim p && p_own p then Null else p_d1 p) (set_d0 Null (set_max 0 (set_lens true 0 0 0 p))).
  Lemma on_dim_change_eq : forall (p : phrase) b, p_d0 p = Null -> (p_bim p = true -> p_own p = false -> p_d1 p = Null) ->
    on_dim_change false b p =
      (let q := emptied p in
       let q := set_cols (vresize (p_dim q) EmptyString (p_cols q)) q in
       if b then set_dims (p_dim q) (p_din q) (p_din_min q) (p_dim q - 1) q else q, Ok tt).
  Proof.
    intros [own bim e len ilen olen mx dim dmin din imin imax lab cols d0 d1 evs] b H0 H1.
    cbn [p_d0 p_d1 p_bim p_own] in *. subst d0.
    destruct b, bim, own; unfold on_dim_change, emptied; cbn -[vresize Nat.sub]; try reflexivity;
      rewrite (H1 eq_refl eq_refl); cbn -[vresize Nat.sub]; reflexivity.
  Qed.
  Lemma set_dimension_eq : forall (p : phrase) n, p_d0 p = Null -> (p_bim p = true -> p_own p = false -> p_d1 p = Null) ->
    p_dim_min p <= n ->
    set_dimension false n p = on_dim_change false true (set_dims n (p_din p) (p_din_min p) (p_din_max p) p).
  Proof.
    intros p n H0 H1 H2. unfold set_dimension, sbind at 1, sget, sbind at 1, slift, checkLimits.
    destruct (Nat.ltb_spec n (p_dim_min p)); [lia|]. destruct (Nat.ltb_spec (Nat.max n (p_dim_min p)) n); [lia|].
    reflexivity.
  Qed.
  Lemma set_dimension_input_eq : forall (p : phrase) n, p_din_min p <= n <= p_din_max p ->
    set_dimension_input false n p = on_dim_change false false (set_dims (p_dim p) n (p_din_min p) (p_din_max p) p).
  Proof.
    intros p n H2. unfold set_dimension_input, sbind at 1, sget, sbind at 1, slift, checkLimits.
    destruct (Nat.ltb_spec n (p_din_min p)); [lia|]. destruct (Nat.ltb_spec (p_din_max p) n); [lia|].
    reflexivity.
  Qed.

  Lemma fresh_phrase : forall t lab p ev, in_range t -> p = phrase_new (A:=A) (t_own t) (t_bim t) ->
    exists p1 p2, set_dimension false (t_dim t) (set_events ev p) = (p1, Ok tt) /\
      set_dimension_input false (t_din t) p1 = (p2, Ok tt) /\
      fresh_in t lab (set_label lab (set_cols (t_cols t) p2)).
  Proof.
    intros t lab p ev (R1 & R2 & R3) ->. set (p := set_events ev (phrase_new (t_own t) (t_bim t))).
    assert (P1 : p_d0 p = Null) by reflexivity.
    assert (P2 : p_d1 p = Null) by reflexivity.
    assert (P3 : p_dim_min p = if t_bim t then 2 else 1) by reflexivity.
    assert (P4 : p_din_min p = if t_bim t then 1 else 0) by reflexivity.
    assert (P5 : p_own p = t_own t) by reflexivity.
    assert (P6 : p_bim p = t_bim t) by reflexivity.
    clearbody p. unfold fresh_in. generalize dependent (t_dim t). generalize dependent (t_din t). intros din R2 dim R1 R3.
    rewrite set_dimension_eq by (auto; lia). rewrite on_dim_change_eq by auto.
    do 2 eexists. split; [reflexivity|].
    rewrite set_dimension_input_eq by (cbn -[Nat.sub]; rewrite P4; lia).
    rewrite on_dim_change_eq by (cbn; auto; intros Ex Ey; rewrite Ex, Ey; cbn; auto).
    split; [reflexivity|]. cbn -[vresize Nat.sub]. repeat split; auto.
  Qed.

  Lemma add_new_effect : forall (w : world) k t i lab, inv w -> set_at w k = Some t -> in_range t ->
    exists w' t' id p, world_step (WAdd k i lab) w = (w', Ok tt) /\
      set_at w' k = Some t' /\ same_attributes t t' /\
      getPhrase t' i = Some id /\ length (w_heap w) <= id /\
      nth_error (w_heap w') id = Some p /\ fresh_in t lab p /\
      (forall j, j <> i -> getPhrase t' j = getPhrase t j) /\
      (forall d, d < length (w_heap w) -> nth_error (w_heap w') d = nth_error (w_heap w) d) /\
      (forall j, j <> k -> set_at w' j = set_at w j).
  Proof.
    intros w k t i lab I H R. cbn [world_step]. unfold add_new.
    pose proof (set_at_lt _ _ _ H) as L. pose proof (inv_valid _ _ _ I H) as V.
    set (n := length (w_heap w)).
    destruct (fresh_phrase t lab _ (ev_add (p_events (phrase_new (A:=A) (t_own t) (t_bim t))) k k) R eq_refl) as (p1 & p2 & E1 & E2 & F).
    set (t1 := with_phrases (pput (t_phrases t) i n) t).
    unfold sbind at 1. rewrite (get_set_eq _ _ _ H). unfold sbind at 1. rewrite new_phrase_eq. fold n.
    unfold sbind at 1. rewrite (put_set_eq (mkWorld _ _) k t1 t H).
    assert (OP : forall (w1 : world) q q' m s, w1 = mkWorld (w_heap w ++ [q]) s -> m q = (q', Ok tt) ->
              on_phrase n m w1 = (mkWorld (w_heap w ++ [q']) s, Ok tt)).
    { intros w1 q q' m s -> Hm. rewrite (on_phrase_eq _ _ _ q q' (Ok tt)); auto; cbn [w_heap w_sets].
      - f_equal. f_equal. unfold n. clear. induction (w_heap w); simpl; auto. f_equal. auto.
      - rewrite nth_error_app2 by (unfold n; lia). unfold n. rewrite Nat.sub_diag. reflexivity. }
    unfold wput at 1. cbn [w_heap w_sets]. set (ss := upd (w_sets w) k (Some t1)).
    unfold sbind at 1. unfold add_listener. erewrite OP by reflexivity. cbn beta.
    unfold sbind at 1. erewrite OP; [|reflexivity|exact E1].
    unfold sbind at 1. erewrite OP; [|reflexivity|exact E2].
    unfold sbind at 1. erewrite OP by reflexivity.
    unfold sbind at 1. erewrite OP by reflexivity.
    set (p3 := set_label lab (set_cols (t_cols t) p2)) in *.
    set (w1 := mkWorld (w_heap w ++ [p3]) ss).
    assert (H1 : set_at w1 k = Some t1). { unfold set_at, w1, ss. cbn [w_sets]. rewrite nth_error_upd_eq by auto. reflexivity. }
    assert (V1 : valid (w_heap w1) (t_phrases t1)).
    { intros j id Hj. unfold w1. cbn [w_heap]. rewrite app_length. simpl. unfold t1, with_phrases in Hj. cbn [t_phrases] in Hj.
      unfold pput in Hj. apply in_mput in Hj. destruct Hj as [Hj|Hj]; [inversion Hj; unfold n; lia|]. apply V in Hj. lia. }
    destruct (update_range w1 k t1 H1 V1 R) as (w' & Eu).
    destruct (update_post _ _ _ _ H1 V1 Eu) as (Q1 & (t' & Q2 & Q3 & Q4) & Q5 & _).
    exists w', t', n, p3. split; [exact Eu|]. split; [exact Q2|]. split; [exact Q4|].
    unfold getPhrase. rewrite Q3. unfold t1, with_phrases. cbn [t_phrases]. unfold pget, pput.
    rewrite (mget_mput _ _ Z.eqb_eq), Z.eqb_refl. split; auto. split; [unfold n; lia|].
    rewrite Q1. unfold w1 at 1. cbn [w_heap]. rewrite nth_error_app2 by (unfold n; lia). unfold n at 1. rewrite Nat.sub_diag.
    split; [reflexivity|]. split; [exact F|]. split.
    { intros j Nj. rewrite (mget_mput _ _ Z.eqb_eq). destruct (Z.eqb_spec j i); congruence. }
    split.
    { intros d Hd. unfold w1. cbn [w_heap]. rewrite nth_error_app1 by auto. reflexivity. }
    intros j Nj. rewrite Q5 by auto. unfold set_at, w1, ss. cbn [w_sets]. rewrite nth_error_upd_neq by auto. reflexivity.
  Qed.

  Lemma remove_eq : forall (w : world) k t i, set_at w k = Some t -> valid (w_heap w) (t_phrases t) -> in_range t ->
    exists w' t', remove k i w = (w', Ok tt) /\ w_heap w' = w_heap w /\ set_at w' k = Some t' /\ same_attributes t t' /\
      t_phrases t' = mdel Z.eqb (t_phrases t) i /\ (forall j, j <> k -> set_at w' j = set_at w j).
  Proof.
    intros w k t i H V R. unfold remove. unfold sbind at 1. rewrite (mod_set_eq _ _ _ _ H).
    pose proof (set_at_lt _ _ _ H) as L.
    set (t1 := with_phrases (mdel Z.eqb (t_phrases t) i) t).
    assert (H1 : set_at (wput w k t1) k = Some t1). { rewrite set_at_wput by auto. rewrite Nat.eqb_refl. reflexivity. }
    assert (V1 : valid (w_heap (wput w k t1)) (t_phrases t1)).
    { intros j id Hj. unfold t1, with_phrases in Hj. cbn [t_phrases] in Hj. unfold mdel in Hj. apply filter_In in Hj. eapply V. apply Hj. }
    destruct (update_range _ k t1 H1 V1 R) as (w' & Eu).
    destruct (update_post _ _ _ _ H1 V1 Eu) as (Q1 & (t' & Q2 & Q3 & Q4) & Q5 & _).
    exists w', t'. split; [exact Eu|]. split; [rewrite Q1; reflexivity|]. split; auto. split; auto. split; [exact Q3|].
    intros j N. rewrite Q5 by auto. rewrite set_at_wput by auto. destruct (Nat.eqb_spec j k); congruence.
  Qed.

  Lemma remove_effect : forall (w : world) k t i, inv w -> set_at w k = Some t -> in_range t ->
    exists w' t', world_step (WRemove k i) w = (w', Ok tt) /\ w_heap w' = w_heap w /\
      set_at w' k = Some t' /\ same_attributes t t' /\
      (forall j, getPhrase t' j = if Z.eqb j i then None else getPhrase t j) /\
      (forall j, j <> k -> set_at w' j = set_at w j).
  Proof.
    intros w k t i I H R. destruct (remove_eq w k t i H (inv_valid _ _ _ I H) R) as (w' & t' & E & Q1 & Q2 & Q3 & Q4 & Q5).
    exists w', t'. repeat split; auto; try apply Q3.
    intro j. unfold getPhrase. rewrite Q4. unfold pget. apply (mget_mdel _ Z.eqb_eq).
  Qed.

  Lemma mdel_length : forall (m : list (Z * nat)) i id, pget m i = Some id -> length (mdel Z.eqb m i) < length m.
  Proof.
    induction m as [|[a b] m IH]; simpl; intros i id H; [discriminate|]. unfold pget in *. cbn [mget] in H.
    unfold mdel. cbn [filter fst]. destruct (Z.eqb_spec i a) as [->|N]; simpl.
    - assert (length (filter (fun p : Z * nat => negb (Z.eqb a (fst p))) m) <= length m)
        by (clear; induction m as [|c m IHm]; simpl; auto; destruct (negb _); simpl; lia).
      lia.
    - specialize (IH i id H). unfold mdel in IH. lia.
  Qed.

  Lemma find_label_ok : forall (h : list phrase) l m, valid h m -> ksorted Z.ltb m ->
    exists o, find_label h l m = Ok o /\
      match o with
      | Some i => exists id, pget m i = Some id /\ lab_of h id = l
      | None => forall i id, pget m i = Some id -> lab_of h id <> l
      end.
  Proof.
    induction m as [|[a b] m IH]; intros V S; cbn [find_label].
    - exists None. split; auto. discriminate.
    - destruct (rd_lab h b) as (p & E1 & E2 & _). { eapply V. simpl. eauto. }
      rewrite E1. cbn [bind]. rewrite E2. destruct (String.eqb_spec (lab_of h b) l) as [El|N].
      + exists (Some a). split; auto. exists b. split; auto. unfold pget. cbn [mget]. rewrite Z.eqb_refl. reflexivity.
      + unfold ksorted in S. cbn [map fst] in S. apply Sorted.StronglySorted_inv in S. destruct S as (S' & F'). rewrite Forall_forall in F'.
        destruct IH as (o & Eo & Ho); auto. { intros i id Hi. eapply V. simpl. eauto. }
        exists o. split; auto. destruct o as [i|].
        * destruct Ho as (id & G1 & G2). exists id. split; auto. unfold pget in *. cbn [mget].
          destruct (Z.eqb_spec i a) as [->|]; auto. apply (mget_in _ Z.eqb_eq) in G1.
          assert (Z.ltb a a = true) by (apply F'; apply (in_map fst) in G1; exact G1). rewrite Z.ltb_irrefl in *. discriminate.
        * intros i id. unfold pget in *. cbn [mget]. destruct (Z.eqb_spec i a); [|apply Ho].
          intro Hx. inversion Hx; subst. auto.
  Qed.

  Lemma remove_loop_eq : forall fuel (w : world) k t l, set_at w k = Some t -> valid (w_heap w) (t_phrases t) ->
    ksorted Z.ltb (t_phrases t) -> in_range t -> length (t_phrases t) < fuel ->
    exists w' t', remove_loop fuel k l w = (w', Ok tt) /\ w_heap w' = w_heap w /\ set_at w' k = Some t' /\ same_attributes t t' /\
      valid (w_heap w) (t_phrases t') /\
      (forall j, getPhrase t' j = match getPhrase t j with
                                  | Some id => if String.eqb (lab_of (w_heap w) id) l then None else Some id
                                  | None => None end) /\
      (forall j, j <> k -> set_at w' j = set_at w j).
  Proof.
    induction fuel as [|f IH]; intros w k t l H V S R L; [lia|].
    cbn [remove_loop]. unfold sbind at 1. rewrite (get_set_eq _ _ _ H). unfold sbind at 1. unfold sget at 1.
    unfold sbind at 1. unfold slift at 1. destruct (find_label_ok (w_heap w) l _ V S) as (o & Eo & Ho). rewrite Eo.
    destruct o as [i|].
    - destruct Ho as (id & G1 & G2). unfold sbind at 1.
      destruct (remove_eq w k t i H V R) as (w1 & t1 & E & Q1 & Q2 & Q3 & Q4 & Q5). rewrite E.
      destruct (IH w1 k t1 l) as (w' & t' & P1 & P2 & P3 & P4 & P5 & P6 & P7).
      + auto.
      + rewrite Q1, Q4. intros j d Hj. unfold mdel in Hj. apply filter_In in Hj. eapply V. apply Hj.
      + rewrite Q4. apply (mdel_sorted _ _). auto.
      + destruct Q3 as (_ & B1 & B2 & B3 & _). unfold in_range in *. rewrite B1, B2, B3. auto.
      + rewrite Q4. pose proof (mdel_length _ _ _ G1). lia.
      + exists w', t'. split; [exact P1|]. split; [congruence|]. split; auto. split.
        { destruct Q3 as (B1 & B2 & B3 & B4 & B5). destruct P4 as (C1 & C2 & C3 & C4 & C5). repeat split; congruence. }
        split; [rewrite <- Q1; auto|]. split.
        * intro j. rewrite P6, Q1. unfold getPhrase. rewrite Q4. unfold pget in *. rewrite (mget_mdel _ Z.eqb_eq).
          destruct (Z.eqb_spec j i) as [->|N]; auto. rewrite G1, G2, String.eqb_refl. reflexivity.
        * intros j N. rewrite P7, Q5; auto.
    - exists w, t. repeat split; auto. intro j. unfold getPhrase. destruct (pget (t_phrases t) j) as [id|] eqn:Ej; auto.
      specialize (Ho _ _ Ej). destruct (String.eqb_spec (lab_of (w_heap w) id) l); congruence.
  Qed.

  Lemma remove_class_effect : forall (w : world) k t l, inv w -> set_at w k = Some t -> in_range t ->
    exists w' t', world_step (WRemoveClass k l) w = (w', Ok tt) /\ w_heap w' = w_heap w /\
      set_at w' k = Some t' /\ same_attributes t t' /\
      (forall j id, getPhrase t' j = Some id <-> getPhrase t j = Some id /\ ~ has_label w l id) /\
      (forall j, j <> k -> set_at w' j = set_at w j).
  Proof.
    intros w k t l I H R. pose proof (inv_valid _ _ _ I H) as V. destruct (proj2 I k t H) as ((S1 & S2 & S3) & _).
    cbn [world_step]. unfold remove_class. unfold sbind at 1. rewrite (get_set_eq _ _ _ H). unfold sbind at 1.
    destruct (remove_loop_eq (S (length (t_phrases t))) w k t l H V S1 R) as (w1 & t1 & P1 & P2 & P3 & P4 & P5 & P6 & P7); [lia|].
    rewrite P1.
    assert (R1 : in_range t1). { destruct P4 as (_ & B1 & B2 & B3 & _). unfold in_range in *. rewrite B1, B2, B3. auto. }
    assert (V1 : valid (w_heap w1) (t_phrases t1)) by (rewrite P2; auto).
    destruct (update_range w1 k t1 P3 V1 R1) as (w' & Eu).
    destruct (update_post _ _ _ _ P3 V1 Eu) as (Q1 & (t' & Q2 & Q3 & Q4) & Q5 & _).
    exists w', t'. split; auto. split; [congruence|]. split; auto. split.
    { destruct P4 as (B1 & B2 & B3 & B4 & B5). destruct Q4 as (C1 & C2 & C3 & C4 & C5). repeat split; congruence. }
    split.
    - intros j id. assert (Eg : getPhrase t' j = getPhrase t1 j) by (unfold getPhrase; rewrite Q3; reflexivity).
      rewrite Eg, P6. destruct (getPhrase t j) as [d|] eqn:Ej.
      + assert (Hd : d < length (w_heap w)) by (exact (pget_valid _ _ _ _ V Ej)).
        pose proof (has_label_iff w l d Hd) as HI.
        destruct (String.eqb_spec (lab_of (w_heap w) d) l) as [El|Nl].
        * split; [discriminate|]. intros (Hx & Hn). inversion Hx; subst. tauto.
        * split; [intro Hx; inversion Hx; subst; split; auto; tauto|tauto].
      + split; [discriminate|]. intros (Hx & _). discriminate.
    - intros j N. rewrite Q5, P7; auto.
  Qed.

  Lemma assign_effect : forall (w w' : world) k src s, inv w -> k <> src -> set_at w src = Some s ->
    world_step (WAssign k src) w = (w', Ok tt) ->
    exists t, set_at w' k = Some t /\ deep_copy w s w' t /\ up_to_date w' k /\
      (forall j, j <> k -> view w' j = view w j) /\
      (forall id, In id (ids_of w' k) -> id < length (w_heap w') /\ forall j, j <> k -> ~ In id (ids_of w' j)).
  Proof.
    intros w w' k src s I N Hs E. cbn [world_step] in E. unfold tset_assign in E.
    destruct (Nat.eqb_spec k src); [congruence|].
    apply sbind_ok_inv in E. destruct E as (w1 & [] & E1 & E).
    apply mod_set_inv in E1; [|discriminate]. destruct E1 as (t0 & Hk & E1 & _).
    pose proof (set_at_lt _ _ _ Hk) as Lk.
    apply sbind_ok_inv in E. destruct E as (w2 & s' & E2 & E). apply get_set_inv in E2. destruct E2 as (-> & Hs1).
    assert (s' = s). { subst w1. rewrite set_at_wput in Hs1 by auto. destruct (Nat.eqb_spec src k); congruence. } subst s'.
    apply sbind_ok_inv in E. destruct E as (w2 & [] & E2 & E).
    erewrite put_set_eq in E2. 2: { subst w1. rewrite set_at_wput by auto. rewrite Nat.eqb_refl. reflexivity. }
    inversion E2 as [E3]. clear E2. subst w1. rewrite wput_wput in E3.
    set (t1 := mkTset (t_own s) (t_bim s) (t_dim s) (t_din s) (t_din_max s) (t_cols s) (t_labels s) [] []) in *.
    apply sbind_ok_inv in E. destruct E as (w3 & [] & E4 & E).
    destruct (proj2 I src s Hs) as ((S1 & S2 & S3) & _).
    assert (Hk2 : set_at w2 k = Some t1). { subst w2. rewrite set_at_wput by auto. rewrite Nat.eqb_refl. reflexivity. }
    assert (Hh2 : w_heap w2 = w_heap w) by (subst w2; reflexivity).
    destruct (copy_phrases_post (t_phrases s) w2 w3 k t1 S1 Hk2) as (m' & A1 & A2 & A3 & A4 & A5 & A6 & A7).
    { intros i _. reflexivity. } { intros i id. discriminate. }
    { rewrite Hh2. eapply inv_valid; eauto. } { exact E4. }
    rewrite Hh2 in *.
    assert (Gm : forall i id, pget m' i = Some id -> length (w_heap w) <= id < length (w_heap w3)).
    { intros i id Hi. specialize (A5 i). destruct (pget (t_phrases s) i).
      - destruct A5 as (id' & p & q & ev & B1 & B2 & _). rewrite B1 in Hi. inversion Hi; subst. auto.
      - rewrite A5 in Hi. discriminate. }
    assert (Sm : ksorted Z.ltb m').
    { assert (I2 : invX (eq k) w3).
      { eapply copy_phrases_inv; [|exact E4]. subst w2. eapply invX_put; [apply inv_any; exact I|exact Hk| |congruence].
        split; [constructor|]. split; [constructor|]. simpl. tauto. }
      destruct (proj2 I2 k _ A1) as ((Sx & _) & _). exact Sx. }
    assert (V3 : valid (w_heap w3) (t_phrases (with_phrases m' t1))).
    { intros i id Hi. cbn [with_phrases t_phrases] in Hi. apply (in_mget _ _ Z.eqb_eq Z.ltb_irrefl) in Hi; auto. apply (Gm i id) in Hi. lia. }
    destruct (update_post _ _ _ _ A1 V3 E) as (Q1 & (t' & Q2 & Q3 & (Q4 & Q4' & Q4'' & Q4''' & Q4'''')) & Q5 & Q6).
    assert (Gp : forall i, getPhrase t' i = pget m' i) by (intro i; unfold getPhrase; rewrite Q3; reflexivity).
    assert (Hin : forall id, In id (ids_of w' k) -> length (w_heap w) <= id < length (w_heap w3)).
    { intros id Hid. unfold ids_of in Hid. rewrite Q2, Q3 in Hid. cbn [with_phrases t_phrases] in Hid.
      apply in_map_iff in Hid. destruct Hid as ([i d] & <- & Hi). cbn [snd].
      apply (in_mget _ _ Z.eqb_eq Z.ltb_irrefl) in Hi; auto. apply (Gm i d). auto. }
    assert (Hset : forall j, j <> k -> set_at w' j = set_at w j).
    { intros j Nj. rewrite Q5, A3 by auto. subst w2. rewrite set_at_wput by auto. destruct (Nat.eqb_spec j k); congruence. }
    exists t'. split; [exact Q2|]. split; [|split; [exact Q6|split]].
    - repeat split; auto.
      + intro i. rewrite Gp. unfold getPhrase. specialize (A5 i). destruct (pget (t_phrases s) i) as [id|].
        * destruct A5 as (id' & p & q & ev & B1 & B2 & B3 & B4 & B5). exists id', p, q, ev. rewrite Q1. repeat split; auto. lia.
        * exact A5.
      + intros i j id Hi Hj. rewrite Gp in Hi, Hj. apply (A6 i j id); auto. apply Gm in Hi. lia.
    - intros j Nj. unfold view. rewrite (Hset j Nj). destruct (set_at w j) as [u|] eqn:Eu; auto. f_equal. f_equal.
      apply map_ext_in. intros [i id] He. cbn [snd]. rewrite Q1. pose proof (inv_valid _ _ _ I Eu _ _ He) as Hv.
      destruct (nth_error (w_heap w) id) as [p|] eqn:Ep; [apply A4; auto|]. apply nth_error_None in Ep. lia.
    - intros id Hid. apply Hin in Hid. rewrite Q1. split; [lia|]. intros j Nj Hx. unfold ids_of in Hx. rewrite (Hset j Nj) in Hx.
      destruct (set_at w j) as [u|] eqn:Eu; [|contradiction]. apply in_map_iff in Hx. destruct Hx as ([i d] & <- & Hi).
      pose proof (inv_valid _ _ _ I Eu _ _ Hi). simpl in Hid. lia.
  Qed.
End Effects.
