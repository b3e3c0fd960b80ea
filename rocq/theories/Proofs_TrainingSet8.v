(** Training sets: [fromJson] after [toJson]. *)
From Coq Require Import String List Bool Arith Lia ZArith Sorted.
From Verif Require Import Base BaseFacts Arith Model_Map Model_Attribute Model_Events Model_Json Model_Phrase Model_TrainingSet.
From Verif Require Import Spec_Phrase Spec_TrainingSet Proofs_Json Proofs_Phrase Proofs_Phrase2 Proofs_Phrase3 Proofs_Phrase4.
From Verif Require Import Proofs_Map Proofs_TrainingSet Proofs_TrainingSet2 Proofs_TrainingSet3 Proofs_TrainingSet4 Proofs_TrainingSet5 Proofs_TrainingSet6 Proofs_TrainingSet7.
Import ListNotations.
Local Open Scope nat_scope.

Section Json.
  Context {A : arith}.
  Local Notation phrase := (phrase (A:=A)).
  Local Notation world := (world A).

  Lemma up_to_date_mirrors : forall (w : world) k t, shape w k t -> set_at w k = Some t -> up_to_date w k -> mirrors w t.
  Proof.
    intros w k t S Hk U. pose proof (shape_valid _ _ _ S) as V. unfold up_to_date in U. rewrite (update_eq _ _ _ Hk V) in U.
    assert (E1 : snd (updated (w_heap w) t) = Ok tt) by congruence.
    assert (E2 : wput w k (fst (updated (w_heap w) t)) = w) by congruence.
    assert (E3 : fst (updated (w_heap w) t) = t).
    { assert (E4 : set_at (wput w k (fst (updated (w_heap w) t))) k = set_at w k) by (rewrite E2; reflexivity).
      rewrite set_at_wput in E4 by (eapply set_at_lt; eauto). rewrite Nat.eqb_refl in E4. congruence. }
    rewrite <- E3. apply (updated_mirrors w w k t); auto.
  Qed.

  Lemma Forall2_get : forall {X Y} (P : X -> Y -> Prop) l l', Forall2 P l l' -> forall y, In y l' -> exists x, In x l /\ P x y.
  Proof. induction 1; simpl; intros z []; subst; eauto. destruct (IHForall2 z) as (a & ? & ?); eauto. Qed.

  Lemma sorted_combine : forall (m : list (Z * nat)) n, ksorted Z.ltb m -> ksorted Z.ltb (combine (map fst m) (seq n (length m))).
  Proof.
    unfold ksorted. intros m n H. rewrite <- (map_length fst m). rewrite combine_keys. exact H.
  Qed.

  (** A loaded phrase and the copy made of it. *)
  Lemma json_round_trip : forall (cv : conv A) (w : world) k tk src t,
    ksorted Z.ltb (t_phrases t) -> set_at w k = Some tk -> set_at w src = Some t ->
    in_range t -> (Z.of_nat (t_dim t) < 2 ^ 31)%Z -> length (t_cols t) = t_dim t ->
    (forall e, In e (t_phrases t) -> (- 2 ^ 31 <= fst e < 2 ^ 31)%Z /\
       exists p s, nth_error (w_heap w) (snd e) = Some p /\ storable_phrase cv p s) ->
    exists j w' t', ts_toJson w t = Ok j /\ tset_fromJson cv k j w = (w', Ok tt) /\
      set_at w' k = Some t' /\ mirrors w' t' /\
      t_own t' = true /\ t_bim t' = t_bim t /\ t_dim t' = t_dim t /\ t_din t' = t_din t /\ t_cols t' = t_cols t /\
      (forall i, match getPhrase t i with
                 | None => getPhrase t' i = None
                 | Some id => exists p s id' q,
                     nth_error (w_heap w) id = Some p /\ storable_phrase cv p s /\
                     getPhrase t' i = Some id' /\ nth_error (w_heap w') id' = Some q /\
                     shows q (complete s) /\ p_label q = p_label p /\
                     p_cols q = vresize (s_dim s) EmptyString (p_cols p)
                 end) /\
      (forall id p, nth_error (w_heap w) id = Some p -> nth_error (w_heap w') id = Some p) /\
      (forall i, i < length (w_sets w) -> i <> k -> set_at w' i = set_at w i).
  Proof.
    intros cv w k tk src t Hso Hk Hsrc R Hd Hc HP.
    destruct (ofJson_effect cv w t R Hd Hc Hso HP) as (j & w1 & t1 & qs & Ej & E1 & Hl1 & Hsets & Ht1 & O1 & O2 & O3 & O4 & O5 & FL & Hh1 & Hp1).
    exists j. set (tmp := length (w_sets w)) in *.
    pose proof (set_at_lt _ _ _ Hk) as Lk. assert (Nk : k <> tmp) by (unfold tmp; lia).
    assert (Hk1 : set_at w1 k = Some tk) by (rewrite Hsets by auto; exact Hk).
    assert (Lk1 : k < length (w_sets w1)) by lia.
    set (s0 := mkTset (t_own t1) (t_bim t1) (t_dim t1) (t_din t1) (t_din_max t1) (t_cols t1) (t_labels t1) [] []).
    set (w2 := wput w1 k s0).
    assert (Hk2 : set_at w2 k = Some s0). { unfold w2. rewrite set_at_wput by auto. rewrite Nat.eqb_refl. reflexivity. }
    assert (Hlen : length (t_phrases t) = length qs) by (eapply Forall2_length; eauto).
    (* the loop of operator= *)
    pose (Q := fun (e : Z * nat) (q' : phrase) => exists q0 q, nth_error (w_heap w1) (snd e) = Some q0 /\ phrase_copy q0 = Ok q' /\
                 q0 = set_events [(tmp, tmp)] q /\ exists e0, fst e0 = fst e /\ pget (t_phrases t) (fst e) = Some (snd e0) /\ loads cv w e0 q).
    assert (Hcp : forall e, In e (t_phrases t1) -> exists q', Q e q' /\ p_events q' = []).
    { intros [i id] He. rewrite Hp1 in He.
      pose proof (sorted_combine _ (length (w_heap w)) Hso) as Sc.
      pose proof (in_mget _ _ Z.eqb_eq Z.ltb_irrefl _ _ _ Sc He) as Hg.
      pose proof (assoc_combine (loads cv w) (t_phrases t) qs (length (w_heap w)) (w_heap w) [] i FL eq_refl) as Ha.
      destruct (pget (t_phrases t) i) as [id0|] eqn:Eg; [|unfold pget in Ha; congruence].
      destruct Ha as (id' & q & Ha1 & Ha2 & Ha3). assert (id' = id) by (unfold pget in Ha1; congruence). subst id'.
      rewrite app_nil_r in Ha2.
      assert (Hq : nth_error (w_heap w1) id = Some (set_events [(tmp, tmp)] q)).
      { rewrite Hh1. rewrite <- (map_length fst) in He. apply combine_bound in He.
        rewrite nth_error_app2 in * by lia. rewrite nth_error_map, Ha2. reflexivity. }
      destruct Ha3 as (p & s & B1 & B2 & B3 & B4 & B5 & B6 & B7 & B8 & B9).
      destruct (phrase_copy_loaded q s [(tmp, tmp)] B3 B6 B7 B8) as (q' & C1 & C2 & C3 & C4 & C5).
      exists q'. split; [|auto].
      exists (set_events [(tmp, tmp)] q), q. cbn [fst snd]. split; auto. split; auto. split; auto.
      exists (i, id0). split; auto. split; auto. exists p, s. repeat split; auto; apply B2 || apply B3. }
    assert (Sp1 : ksorted Z.ltb (t_phrases t1)) by (rewrite Hp1; apply sorted_combine; auto).
    destruct (append_loop k fst Q (fun e =>
      do* p := get_phrase (snd e) in
      do* q := slift (phrase_copy p) in
      do* id := new_phrase q in
      do* _ := mod_set k (fun t => with_phrases (minsert Z.eqb Z.ltb (t_phrases t) (fst e) id) t) in
      add_listener k id) (w_heap w1) (t_phrases t1) (ksorted_map _ Sp1)) with (w := w2) (t := s0) (h := @nil phrase) as (qs' & FQ & Eloop).
    { intros e v u h He Hh Hku Hn. destruct (Hcp e He) as (q' & HQ & Hev). exists q'. split; auto.
      pose proof HQ as (q0 & q & G1 & G2 & _).
      unfold sbind at 1, get_phrase, sbind at 1, sget at 1, slift at 1. unfold rd. rewrite Hh.
      rewrite nth_error_app1 by (apply nth_error_Some; congruence). rewrite G1.
      unfold sbind at 1, slift at 1. rewrite G2.
      rewrite <- Hh. apply (register_eq k (fst e) q' v u Hku Hev Hn). }
    { unfold w2. cbn [wput w_heap]. rewrite app_nil_r. reflexivity. }
    { exact Hk2. } { constructor. } { intros x y []. }
    cbn [s0 t_phrases app] in Eloop. fold s0 in Eloop.
    set (m' := combine (map fst (t_phrases t1)) (seq (length (w_heap w2)) (length (t_phrases t1)))) in *.
    set (w3 := mkWorld (w_heap w2 ++ map (set_events [(k, k)]) qs') (upd (w_sets w2) k (Some (with_phrases m' s0)))) in *.
    assert (Lk2 : k < length (w_sets w2)) by (eapply set_at_lt; eauto).
    assert (Hk3 : set_at w3 k = Some (with_phrases m' s0)).
    { unfold set_at, w3. cbn [w_sets]. rewrite nth_error_upd_eq by auto. reflexivity. }
    assert (Lq : length (t_phrases t1) = length qs') by (eapply Forall2_length; eauto).
    assert (V3 : valid (w_heap w3) (t_phrases (with_phrases m' s0))).
    { intros i id Hi. cbn [with_phrases t_phrases] in Hi. unfold m' in Hi. rewrite <- (map_length fst (t_phrases t1)) in Hi.
      apply combine_bound in Hi. rewrite map_length in Hi. unfold w3. cbn [w_heap]. rewrite app_length, map_length. lia. }
    assert (R3 : in_range (with_phrases m' s0)).
    { unfold in_range in *. cbn [with_phrases t_bim t_dim t_din s0]. rewrite O2, O3, O4. exact R. }
    destruct (update_range w3 k _ Hk3 V3 R3) as (w4 & Eu).
    destruct (update_post _ _ _ _ Hk3 V3 Eu) as (Q1 & (t4 & Q2 & Q3 & (P1 & P2 & P3 & P4 & P5)) & Q5 & Q6).
    assert (Ht4 : set_at w4 tmp = Some t1).
    { rewrite Q5 by auto. unfold set_at, w3. cbn [w_sets]. rewrite nth_error_upd_neq by auto.
      fold (set_at w2 tmp). unfold w2. rewrite set_at_wput by auto. destruct (Nat.eqb_spec tmp k); [congruence|]. exact Ht1. }
    assert (Ltmp : tmp < length (w_sets w4)) by (eapply set_at_lt; eauto).
    set (w5 := mkWorld (w_heap w4) (upd (w_sets w4) tmp None)).
    assert (Hk5 : set_at w5 k = Some t4).
    { unfold set_at, w5. cbn [w_sets]. rewrite nth_error_upd_neq by auto. exact Q2. }
    assert (G : forall i, match pget (t_phrases t) i with
                 | None => getPhrase t4 i = None
                 | Some id => exists p s id' q,
                     nth_error (w_heap w) id = Some p /\ storable_phrase cv p s /\
                     getPhrase t4 i = Some id' /\ nth_error (w_heap w5) id' = Some (set_events [(k, k)] q) /\
                     shows (set_events [(k, k)] q) (complete s) /\ p_label q = p_label p /\
                     p_cols q = vresize (s_dim s) EmptyString (p_cols p)
                 end).
    { intro i. unfold getPhrase. rewrite Q3. cbn [with_phrases t_phrases].
      pose proof (assoc_combine Q (t_phrases t1) qs' (length (w_heap w2)) (w_heap w2) [] i FQ eq_refl) as Ha. fold m' in Ha.
      pose proof (assoc_combine (loads cv w) (t_phrases t) qs (length (w_heap w)) (w_heap w) [] i FL eq_refl) as Hb.
      rewrite <- Hp1 in Hb.
      destruct (pget (t_phrases t) i) as [id0|] eqn:Eg.
      - destruct Hb as (id1 & q1 & Hb1 & _). rewrite Hb1 in Ha.
        destruct Ha as (id' & q' & Ha1 & Ha2 & (q0 & q & G1 & G2 & -> & e0 & G4 & G5 & G6)).
        cbn [fst snd] in *. rewrite Eg in G5. inversion G5; subst id0; clear G5.
        destruct G6 as (p & s & B1 & B2 & B3 & B4 & B5 & B6 & B7 & B8 & B9).
        destruct (phrase_copy_loaded q s [(tmp, tmp)] B3 B6 B7 B8) as (q2 & C1 & C2 & C3 & C4 & C5).
        assert (q2 = q') by congruence. subst q2.
        exists p, s, id', q'. split; [exact B1|]. split; [exact B2|]. split; [exact Ha1|]. split; [|split; [apply C5|split; congruence]].
        unfold w5. cbn [w_heap]. rewrite Q1. unfold w3. cbn [w_heap]. rewrite app_nil_r in Ha2.
        assert (Hge : length (w_heap w2) <= id').
        { unfold pget in Ha1. apply (mget_in _ Z.eqb_eq) in Ha1. unfold m' in Ha1. rewrite <- (map_length fst (t_phrases t1)) in Ha1.
          apply combine_bound in Ha1. lia. }
        rewrite nth_error_app2 in * by lia. rewrite nth_error_map, Ha2. reflexivity.
      - rewrite Hb in Ha. exact Ha. }
    exists w5, t4. split; [exact Ej|]. split; [|split; [exact Hk5|]].
    - unfold tset_fromJson. unfold sbind at 1, sget at 1. fold tmp. unfold sbind at 1. rewrite E1.
      unfold sbind at 1. unfold tset_assign. destruct (Nat.eqb_spec k tmp); [contradiction|].
      unfold sbind at 1. unfold tclear. rewrite (mod_set_eq _ _ _ _ Hk1).
      unfold sbind at 1. erewrite (get_set_eq _ tmp).
      2: { rewrite set_at_wput by auto. destruct (Nat.eqb_spec tmp k); [congruence|]. exact Ht1. }
      unfold sbind at 1. erewrite put_set_eq. 2: { rewrite set_at_wput by auto. rewrite Nat.eqb_refl. reflexivity. }
      rewrite wput_wput. fold s0. fold w2. unfold sbind at 1. unfold copy_phrases. rewrite Eloop. rewrite Eu.
      unfold tset_destroy. unfold sbind at 1. rewrite (get_set_eq _ _ _ Ht4). unfold sbind at 1, sget at 1.
      unfold sbind at 1, slift at 1, wr. rewrite (proj2 (Nat.ltb_lt _ _)) by auto. reflexivity.
    - split; [|do 5 (split; [cbn [with_phrases t_own t_bim t_dim t_din t_cols s0] in *; congruence|]); split; [|split]].
      + assert (Sh : shape w4 k t4).
        { split; [rewrite Q3; apply sorted_combine; exact Sp1|]. split.
          - rewrite (update_eq _ _ _ Hk3 V3) in Eu.
            assert (Ew : w4 = wput w3 k (fst (updated (w_heap w3) (with_phrases m' s0)))) by congruence.
            assert (Et : t4 = fst (updated (w_heap w3) (with_phrases m' s0))).
            { rewrite Ew in Q2. rewrite set_at_wput in Q2 by (eapply set_at_lt; eauto). rewrite Nat.eqb_refl in Q2. congruence. }
            rewrite Et. apply updated_core.
          - intros i id Hi. rewrite Q3 in Hi. cbn [with_phrases t_phrases] in Hi.
            assert (Hm : In (i, id) m') by exact Hi. unfold m' in Hi. rewrite <- (map_length fst (t_phrases t1)) in Hi. apply combine_bound in Hi.
            rewrite map_length in Hi. rewrite Q1. unfold w3. cbn [w_heap].
            destruct (nth_error (map (set_events [(k, k)]) qs') (id - length (w_heap w2))) as [q|] eqn:Eq.
            + exists q. rewrite nth_error_app2 by lia. split; auto. rewrite nth_error_map in Eq.
              destruct (nth_error qs' (id - length (w_heap w2))); [|discriminate]. simpl in Eq. inversion Eq. cbn. auto.
            + apply nth_error_None in Eq. rewrite map_length in Eq. lia. }
        pose proof (up_to_date_mirrors _ _ _ Sh Q2 Q6) as M.
        unfold mirrors, has_label in *. unfold w5. cbn [w_heap]. exact M.
      + intro i. specialize (G i). unfold getPhrase at 1. destruct (pget (t_phrases t) i); auto.
        destruct G as (p & s & id' & q & H1 & H2 & H3 & H4 & H5 & H6 & H7). exists p, s, id', (set_events [(k, k)] q).
        do 5 (split; [assumption|]). split; [exact H6|exact H7].
      + intros id p Hp. unfold w5. cbn [w_heap]. rewrite Q1. unfold w3, w2. cbn [w_heap wput]. rewrite Hh1.
        rewrite <- app_assoc. rewrite nth_error_app1 by (apply nth_error_Some; congruence). exact Hp.
      + intros i Hi Ni. unfold set_at, w5. cbn [w_sets]. rewrite nth_error_upd_neq by (unfold tmp; lia). fold (set_at w4 i).
        rewrite Q5 by auto. unfold set_at, w3. cbn [w_sets]. rewrite nth_error_upd_neq by auto.
        fold (set_at w2 i). unfold w2. rewrite set_at_wput by auto. destruct (Nat.eqb_spec i k); [congruence|]. apply Hsets. auto.
  Qed.
End Json.

Lemma reachable_json : forall (A : arith) (cv : conv A) (w : world A) k tk src t,
  reachable w -> set_at w k = Some tk -> set_at w src = Some t ->
  in_range t -> (Z.of_nat (t_dim t) < 2 ^ 31)%Z -> length (t_cols t) = t_dim t ->
  (forall i id, getPhrase t i = Some id -> (- 2 ^ 31 <= i < 2 ^ 31)%Z /\
     exists p s, nth_error (w_heap w) id = Some p /\ storable_phrase cv p s) ->
  exists j w' t', ts_toJson w t = Ok j /\ tset_fromJson cv k j w = (w', Ok tt) /\
    set_at w' k = Some t' /\ mirrors w' t' /\
    t_own t' = true /\ t_bim t' = t_bim t /\ t_dim t' = t_dim t /\ t_din t' = t_din t /\ t_cols t' = t_cols t /\
    (forall i, match getPhrase t i with
               | None => getPhrase t' i = None
               | Some id => exists p s id' q,
                   nth_error (w_heap w) id = Some p /\ storable_phrase cv p s /\
                   getPhrase t' i = Some id' /\ nth_error (w_heap w') id' = Some q /\
                   shows q (complete s) /\ p_label q = p_label p /\
                   p_cols q = vresize (s_dim s) EmptyString (p_cols p)
               end) /\
    (forall id p, nth_error (w_heap w) id = Some p -> nth_error (w_heap w') id = Some p) /\
    (forall i, i < length (w_sets w) -> i <> k -> set_at w' i = set_at w i).
Proof.
  intros A cv w k tk src t HR Hk Hs R Hd Hc HP.
  assert (So : ksorted Z.ltb (t_phrases t)).
  { pose proof (reachable_inv _ HR) as I. apply (proj2 I src t Hs). }
  apply (json_round_trip cv w k tk src t); auto.
  intros [i id] He. apply (HP i id). unfold getPhrase, pget. apply (in_mget _ _ Z.eqb_eq Z.ltb_irrefl); auto.
Qed.
