(** Proofs about phrases, continued: emptiness, dimension changes, copies, JSON. *)
From Coq Require Import String List Bool Arith Lia ZArith.
From Verif Require Import Base BaseFacts Arith Model_Attribute Model_Events Model_Json Model_Phrase Spec_Phrase.
From Verif Require Import Proofs_Json Proofs_Phrase Proofs_Phrase2.
Import ListNotations.
Local Open Scope nat_scope.

Section PhraseMore.
  Context {A : arith}.
  Local Notation T := (num A).
  Local Notation block := (block (A:=A)).
  Local Notation phrase := (phrase (A:=A)).

  Lemma s_bim_step : forall (s : contents A) o, s_bim (fst (spec_step s o)) = s_bim s.
  Proof.
    intros s o. destruct o; simpl;
      repeat match goal with |- context [if ?b then _ else _] => destruct b eqn:? end; auto.
  Qed.

  Lemma rep_run_empty : forall ops (p : phrase) s s' outs,
    rep p s -> p_empty p = spec_empty s -> (s_bim s = true \/ no_partial_clear ops) ->
    dims_fit s ops -> spec_run s ops = (s', outs) ->
    exists p', phrase_run false p ops = Ok (p', outs) /\ rep p' s' /\ p_empty p' = spec_empty s'.
  Proof.
    induction ops as [|o ops IH]; intros p s s' outs H He Hc Hf Hr.
    - simpl in Hr. inversion Hr; subst. exists p. split; auto.
    - cbn [spec_run] in Hr. destruct (spec_step s o) as (s1, out) eqn:E1.
      destruct (spec_run s1 ops) as (s2, outs2) eqn:E2. inversion Hr; subst s2 outs; clear Hr.
      cbn [dims_fit] in Hf. destruct Hf as (Hfo & Hf). rewrite E1 in Hf. cbn [fst] in Hf.
      destruct (rep_step p s o s1 out H) as (p1 & S1 & R1); auto.
      assert (He1 : p_empty p1 = spec_empty s1).
      { pose proof (spec_step_safe s o) as Hsafe. rewrite E1 in Hsafe. cbn [snd] in Hsafe.
        destruct out as [[]|e|]; [|
          pose proof (phrase_throw_unchanged _ _ _ _ _ S1) as ->|congruence].
        - refine (empty_step p s o s1 p1 H R1 E1 S1 He _). destruct Hc as [Hc|Hc]; auto. right.
          specialize (Hc o (or_introl eq_refl)). destruct o; auto; contradiction.
        - assert (s1 = s) as ->.
          { clear - E1. destruct o; simpl in E1;
              repeat match type of E1 with context [if ?b then _ else _] => destruct b end;
              inversion E1; auto. }
          auto. }
      destruct (IH p1 s1 s' outs2 R1 He1) as (p2 & S2 & R2 & He2); auto.
      { destruct Hc as [Hc|Hc]; [left|right].
        - pose proof (s_bim_step s o) as Hb. rewrite E1 in Hb. cbn [fst] in Hb. congruence.
        - intros o' Ho'. apply Hc. right. auto. }
      exists p2. split; auto. cbn [phrase_run]. rewrite S1.
      pose proof (spec_step_safe s o) as Hsafe. rewrite E1 in Hsafe. cbn [snd] in Hsafe.
      rewrite S2. destruct out; cbn [bind]; auto. congruence.
  Qed.

  Lemma phrase_empty_history : forall bim ops (s : contents A) outs,
    bim = true \/ no_partial_clear ops ->
    dims_fit (contents_new bim) ops -> spec_run (contents_new bim) ops = (s, outs) ->
    exists p, phrase_run false (phrase_new true bim) ops = Ok (p, outs) /\ p_empty p = spec_empty s.
  Proof.
    intros bim ops s outs Hc Hf Hr.
    destruct (rep_run_empty ops (phrase_new true bim) (contents_new bim) s outs) as (p & E & _ & He); auto.
    - apply rep_new.
    - exists p. auto.
  Qed.

  (** A phrase obtained by a history is represented by the contents of that history. *)
  Lemma reached_rep : forall bim ops (p : phrase) outs,
    dims_fit (contents_new bim) ops ->
    phrase_run false (phrase_new true bim) ops = Ok (p, outs) ->
    rep p (fst (spec_run (contents_new bim) ops)).
  Proof.
    intros bim ops p outs Hf Hr. destruct (spec_run (contents_new bim) ops) as (s, o) eqn:E.
    destruct (rep_run ops _ _ s o (rep_new bim) Hf E) as (p' & E' & R').
    rewrite Hr in E'. inversion E'; subst. auto.
  Qed.

  (** C20 *)
  Lemma phrase_dimension_change : forall bim ops (p : phrase) outs o s',
    dims_fit (contents_new bim) ops ->
    phrase_run false (phrase_new true bim) ops = Ok (p, outs) ->
    (exists n, o = PSetDim n \/ o = PSetDimIn n) ->
    op_fits (fst (spec_run (contents_new bim) ops)) o ->
    spec_step (fst (spec_run (contents_new bim) ops)) o = (s', Ok tt) ->
    exists p', phrase_step false o p = (p', Ok tt) /\
      p_len p' = 0 /\ p_ilen p' = 0 /\ p_olen p' = 0 /\ p_empty p' = true /\
      p_dim p' = s_dim s' /\ p_din p' = s_din s' /\
      (forall i d, getValue p' i d = Throw OutOfRange) /\
      forall ops' s'' outs', dims_fit s' ops' -> spec_run s' ops' = (s'', outs') ->
        exists p'', phrase_run false p' ops' = Ok (p'', outs') /\ shows p'' s''.
  Proof.
    intros bim ops p outs o s' Hf Hr (n & Ho) Hfit Hs.
    pose proof (reached_rep _ _ _ _ Hf Hr) as R.
    destruct (rep_step p _ o s' (Ok tt) R Hfit Hs) as (p' & S' & R').
    exists p'. split; auto.
    assert (Hfr : s_in s' = [] /\ s_out s' = []).
    { destruct Ho; subst o; simpl in Hs;
        match type of Hs with context [if ?b then _ else _] => destruct b end; inversion Hs; auto. }
    destruct Hfr as (Hfi & Hfo).
    assert (Hempty : p_len p' = 0 /\ p_ilen p' = 0 /\ p_olen p' = 0 /\ p_empty p' = true).
    { clear - S' Ho. destruct Ho; subst o; unfold phrase_step in S';
        unfold set_dimension, set_dimension_input, on_dim_change, sbind, sget, smod, swhen, sret, slift in S';
        destruct (checkLimits _ _ _ _); try discriminate; pset;
        (destruct (p_own p); [destruct (delete_scalar false (p_d0 p)); try discriminate|]); pset;
        (destruct (p_bim p); pset; [try destruct (p_d1 p); try discriminate|]); pset;
        inversion S'; auto. }
    destruct Hempty as (? & ? & ? & ?).
    pose proof (rep_shows _ _ R') as (Q1 & Q2 & Q3 & Q4 & Q5 & Q6 & Q7).
    repeat split; auto.
    - intros i d. rewrite Q7. unfold spec_value. rewrite Hfi, Hfo.
      destruct (s_dim s' <=? d), (s_bim s'), (d <? s_din s'); auto; destruct i; auto.
    - intros ops' s'' outs' Hf' Hr'. destruct (rep_run _ _ _ _ _ R' Hf' Hr') as (p'' & E & R'').
      exists p''. split; auto. apply rep_shows; auto.
  Qed.

  (** C21 *)
  Lemma holds_alloc : forall (b : block) max d fr, holds b max d fr -> 0 < max ->
    exists c, b = Blk c /\ cells_of b (max * d) = Ok c.
  Proof.
    intros b max d fr (F & [(-> & -> & ->)|(c & -> & L & Hm & E)]) H; [lia|].
    exists c. split; auto. unfold cells_of. rewrite (proj2 (Nat.leb_le _ _)) by lia.
    rewrite firstn_all2 by lia. reflexivity.
  Qed.

  Lemma holds_not_wild : forall (b : block) max d fr, holds b max d fr -> delete_array b = Ok tt.
  Proof. intros b max d fr (_ & [(-> & _)|(c & -> & _)]); reflexivity. Qed.

  Lemma rep_destroy : forall (p : phrase) s, rep p s -> phrase_destroy p = Ok tt.
  Proof.
    intros p s (Hown & Hbim & Hdim & Hdin & Hdm & Him & Hix & Hl & Hd).
    unfold phrase_destroy. rewrite Hown, Hbim. destruct (s_bim s).
    - destruct Hd as (_ & _ & _ & _ & H0 & H1).
      rewrite (holds_not_wild _ _ _ _ H1). cbn [bind]. apply (holds_not_wild _ _ _ _ H0).
    - destruct Hd as (H0 & _). cbn [bind]. apply (holds_not_wild _ _ _ _ H0).
  Qed.

  Lemma rep_max : forall (p : phrase) s, rep p s -> spec_empty s = false -> 0 < p_max p.
  Proof.
    intros p s (Hown & Hbim & Hdim & Hdin & Hdm & Him & Hix & Hl & Hd) He.
    assert (Hm : forall (b : block) d fr, holds b (p_max p) d fr -> fr <> [] -> 0 < p_max p).
    { intros b d fr (_ & [(_ & _ & ->)|(c & _ & _ & Hle & _)]) Hne; [congruence|].
      destruct fr; [congruence|simpl in Hle; lia]. }
    unfold spec_empty in He. destruct (s_bim s).
    - destruct Hd as (_ & _ & _ & _ & H0 & H1).
      destruct (s_in s) eqn:Ei; [|apply (Hm _ _ _ H0); discriminate].
      destruct (s_out s) eqn:Eo; [discriminate|apply (Hm _ _ _ H1); discriminate].
    - destruct Hd as (H0 & Ho). rewrite Ho in He. destruct (s_in s) eqn:Ei; [discriminate|].
      apply (Hm _ _ _ H0); discriminate.
  Qed.

  Lemma copy_blocks_rep : forall (p : phrase) s, rep p s -> 0 < p_max p ->
    exists b0 b1, copy_blocks p = Ok (b0, b1) /\
      forall ev, rep (set_events ev (set_mem (p_max p) b0 b1 p)) s.
  Proof.
    intros p s (Hown & Hbim & Hdim & Hdin & Hdm & Him & Hix & Hl & Hd) Hmax.
    unfold copy_blocks. rewrite (proj2 (Nat.ltb_lt _ _)) by auto. cbv zeta. rewrite Hbim, Hdim, Hdin.
    unfold rep. destruct (s_bim s) eqn:Eb.
    - destruct Hd as (Hi & Ho & Hle & Hmle & H0 & H1).
      destruct (holds_alloc _ _ _ _ H0 Hmax) as (c0 & B0 & E0).
      destruct (holds_alloc _ _ _ _ H1 Hmax) as (c1 & B1 & E1).
      rewrite E0. cbn [bind]. unfold usub. rewrite (proj2 (Nat.leb_le _ _)) by auto. cbn [bind].
      rewrite E1. cbn [bind]. rewrite <- B0, <- B1.
      eexists _, _. split; [reflexivity|]. intro ev. cbn. intuition.
    - destruct Hd as (H0 & Ho).
      destruct (holds_alloc _ _ _ _ H0 Hmax) as (c0 & B0 & E0).
      rewrite E0. cbn [bind]. rewrite <- B0.
      eexists _, _. split; [reflexivity|]. intro ev. cbn. intuition.
  Qed.

  Lemma phrase_copy_equal : forall bim ops (p : phrase) outs,
    dims_fit (contents_new bim) ops ->
    phrase_run false (phrase_new true bim) ops = Ok (p, outs) ->
    let s := fst (spec_run (contents_new bim) ops) in
    spec_empty s = false \/ 0 < p_max p ->
    exists q, phrase_copy p = Ok q /\ shows q s /\ p_empty q = p_empty p /\
      p_label q = p_label p /\ p_cols q = p_cols p /\ phrase_destroy q = Ok tt /\
      forall ops' s' outs', dims_fit s ops' -> spec_run s ops' = (s', outs') ->
        exists q', phrase_run false q ops' = Ok (q', outs') /\ shows q' s'.
  Proof.
    intros bim ops p outs Hf Hr s He. pose proof (reached_rep _ _ _ _ Hf Hr) as R. fold s in R.
    destruct (copy_blocks_rep p s R (match He with or_introl E => rep_max _ _ R E | or_intror E => E end)) as (b0 & b1 & E & Rq).
    unfold phrase_copy. rewrite (proj1 R), E. cbn [bind].
    eexists. split; [reflexivity|]. specialize (Rq []). split; [apply rep_shows; exact Rq|].
    repeat split; auto.
    - eapply rep_destroy; exact Rq.
    - intros ops' s' outs' Hf' Hr'. destruct (rep_run _ _ _ _ _ Rq Hf' Hr') as (q' & E' & R').
      exists q'. split; auto. apply rep_shows; auto.
  Qed.

  Lemma phrase_assign_equal : forall bim ops (p : phrase) outs bim2 ops2 (d : phrase) outs2,
    dims_fit (contents_new bim) ops ->
    phrase_run false (phrase_new true bim) ops = Ok (p, outs) ->
    dims_fit (contents_new bim2) ops2 ->
    phrase_run false (phrase_new true bim2) ops2 = Ok (d, outs2) ->
    let s := fst (spec_run (contents_new bim) ops) in
    spec_empty s = false \/ 0 < p_max p ->
    exists q, phrase_assign d p = Ok q /\ shows q s /\ p_empty q = p_empty p /\
      p_label q = p_label p /\ p_cols q = p_cols p /\ phrase_destroy q = Ok tt /\
      forall ops' s' outs', dims_fit s ops' -> spec_run s ops' = (s', outs') ->
        exists q', phrase_run false q ops' = Ok (q', outs') /\ shows q' s'.
  Proof.
    intros bim ops p outs bim2 ops2 d outs2 Hf Hr Hf2 Hr2 s He.
    pose proof (reached_rep _ _ _ _ Hf Hr) as R. fold s in R.
    pose proof (reached_rep _ _ _ _ Hf2 Hr2) as Rd.
    pose proof (rep_destroy _ _ Rd) as Hd. unfold phrase_destroy in Hd.
    destruct (copy_blocks_rep p s R (match He with or_introl E => rep_max _ _ R E | or_intror E => E end)) as (b0 & b1 & E & Rq).
    unfold phrase_assign. rewrite Hd. cbn [bind]. rewrite (proj1 R), E. cbn [bind].
    eexists. split; [reflexivity|]. specialize (Rq (p_events d)). split; [apply rep_shows; exact Rq|].
    repeat split; auto.
    - eapply rep_destroy; exact Rq.
    - intros ops' s' outs' Hf' Hr'. destruct (rep_run _ _ _ _ _ Rq Hf' Hr') as (q' & E' & R').
      exists q'. split; auto. apply rep_shows; auto.
  Qed.

  Lemma phrase_copy_unallocated : forall bim ops (p : phrase) outs,
    dims_fit (contents_new bim) ops ->
    phrase_run false (phrase_new true bim) ops = Ok (p, outs) -> p_max p = 0 ->
    exists q, phrase_copy p = Ok q /\ phrase_destroy q = UB /\
    forall x, length x = p_dim q -> snd (record x q) = UB.
  Proof.
    intros bim ops p outs Hf Hr Hmax. pose proof (reached_rep _ _ _ _ Hf Hr) as R. destruct R as (Hown & Hbim & Hdim & Hdin & Hdm & Him & Hix & Hl & Hd).
    unfold phrase_copy, copy_blocks. rewrite Hown, Hmax. cbn [Nat.ltb Nat.leb bind]. eexists. split; [reflexivity|]. split.
    - unfold phrase_destroy. cbn. rewrite Hown. destruct (p_bim p); reflexivity.
    - intros x Hx. cbn in Hx. unfold record, sbind, sget. cbn. rewrite Hown. cbn. rewrite Hx, Nat.eqb_refl. cbn.
      assert (HE : (p_bim p && negb (p_ilen p =? p_olen p))%bool = false).
      { rewrite Hbim. destruct (s_bim _); [|reflexivity]. destruct Hd as (Hi & Ho & _ & _ & (_ & [(_ & _ & H0)|(c & _ & _ & H0 & _)]) & (_ & [(_ & _ & H1)|(c1 & _ & _ & H1 & _)]));
          rewrite Hi, Ho; rewrite ?H0, ?H1; rewrite ?Hmax in *; cbn [length] in *; try (apply Nat.le_0_r in H0); try (apply Nat.le_0_r in H1); rewrite ?H0, ?H1; reflexivity. }
      rewrite HE. cbn. destruct (p_bim p); cbn; reflexivity.
  Qed.

  (** C19 *)
  Lemma rdb_flat : forall (b : block) max d fr i, holds b max d fr -> i < length fr * d ->
    rdb b i = Ok (nth i (concat fr) n0).
  Proof.
    intros b max d fr i (F & [(-> & -> & ->)|(c & -> & L & Hm & E)]) Hi; [simpl in Hi; lia|].
    unfold rdb, rd. rewrite <- (nth_error_firstn_lt c (length fr * d)) by lia. rewrite E.
    assert (Hlen : i < length (concat fr)) by (rewrite (concat_length_const fr d F); lia).
    rewrite (map_nth_error Some _ _ (nth_error_nth' _ n0 Hlen)). reflexivity.
  Qed.

  Lemma firstn_concat : forall (fr : list (list T)) n d, Forall (fun x => length x = d) fr ->
    firstn (n * d) (concat fr) = concat (firstn n fr).
  Proof.
    induction fr; intros n d F; simpl.
    - rewrite !firstn_nil. reflexivity.
    - inversion F; subst. destruct n; simpl; auto.
      rewrite firstn_app. rewrite firstn_all2 by lia.
      replace (length a + n * length a - length a) with (n * length a) by lia.
      f_equal. apply IHfr. auto.
  Qed.

  Lemma tab_firstn : forall {X} n (l : list X) d, n <= length l -> tab n (fun i => nth i l d) = firstn n l.
  Proof.
    intros X n l d H. apply (nth_ext_len _ _ d); rewrite tab_length; [rewrite firstn_length; lia|].
    intros i Hi. rewrite nth_tab by auto. symmetry. 
    rewrite <- (firstn_skipn n l) at 2. rewrite app_nth1; auto. rewrite firstn_length. lia.
  Qed.

  Lemma array2json_block : forall (b : block) max d fr n, holds b max d fr -> n <= length fr ->
    array2json JReal (rdb b) (n * d) = Ok (JArr (map JReal (concat (firstn n fr)))).
  Proof.
    intros b max d fr n H Hn. pose proof H as (F & _).
    assert (n * d <= length fr * d) by (apply Nat.mul_le_mono_r; auto).
    rewrite (array2json_ok (n * d) (rdb b) JReal (fun i => nth i (concat fr) n0)).
    2: { intros i Hi. eapply rdb_flat; eauto. lia. }
    rewrite <- (firstn_concat fr n d F).
    rewrite <- (tab_firstn (n * d) (concat fr) n0) by (rewrite (concat_length_const fr d F); lia).
    unfold tab. rewrite map_map. reflexivity.
  Qed.

  Lemma load_block_ok : forall (cv : conv A) l n, length l = n -> (forall x, In x l -> c_float cv x = x) ->
    load_block cv (JArr (map JReal l)) n = Ok (Blk (map Some l)).
  Proof.
    intros cv l n Hn Hc. unfold load_block, json2array. rewrite map_length, (proj2 (Nat.eqb_eq _ _)) by auto.
    rewrite (fill_from_ok _ (fun j => match j with JReal x => Some x | _ => None end)).
    - cbn [bind]. rewrite map_length, Hn. simpl. rewrite skipn_all2 by (rewrite repeat_length; lia).
      rewrite app_nil_r, map_map. reflexivity.
    - intros j Hj. apply in_map_iff in Hj. destruct Hj as (x & <- & Hx). simpl. rewrite (Hc x Hx). reflexivity.
    - rewrite map_length, repeat_length. lia.
  Qed.

  Lemma iterM_wr : forall {X} n m (f : nat -> res X) g (d : X),
    (forall i, i < n -> f i = Ok (g i)) -> n <= m ->
    iterM n (fun i l => let* x := f i in wr l i x) (repeat d m) = Ok (tab n g ++ repeat d (m - n)).
  Proof.
    induction n; intros m f g d H Hn; [rewrite Nat.sub_0_r; reflexivity|].
    cbn [iterM]. rewrite (IHn m f g d) by (try lia; intros; apply H; lia). cbn [bind].
    rewrite H by lia. cbn [bind]. rewrite wr_ok by (rewrite app_length, tab_length, repeat_length; lia).
    f_equal. rewrite tab_S, <- app_assoc. replace (m - n) with (S (m - S n)) by lia.
    cbn [repeat app].
    pose proof (upd_app_exact (tab n g) (repeat d (m - S n)) d (g n)) as U. rewrite tab_length in U. exact U.
  Qed.

  Lemma to_unsigned_small : forall n, (Z.of_nat n < 2 ^ 31)%Z -> to_unsigned (Z.of_nat n) = n.
  Proof. intros n H. unfold to_unsigned. rewrite Z.mod_small by lia. apply Nat2Z.id. Qed.

  Lemma as_int_small : forall (cv : conv A) n, (Z.of_nat n < 2 ^ 31)%Z -> as_int cv (JInt (Z.of_nat n)) = Ok (Z.of_nat n).
  Proof.
    intros cv n H. unfold as_int. rewrite (proj2 (Z.leb_le _ _)) by lia. rewrite (proj2 (Z.ltb_lt _ _)) by lia.
    reflexivity.
  Qed.

  Lemma cols_loop : forall (cv : conv A) (cols : list string) m, length cols <= m ->
    iterM (length cols) (fun i c =>
      let* n := jindex (JArr (map JStr cols)) i (JStr "") in
      let* s := as_string cv n in wr c i s) (repeat EmptyString m)
    = Ok (vresize m EmptyString cols).
  Proof.
    intros cv cols m H.
    rewrite (iterM_ext _ _ (fun i c => let* s := (let* n := jindex (JArr (map JStr cols)) i (JStr "") in as_string cv n) in wr c i s)).
    2: { intros i c Hi. destruct (jindex (JArr (map JStr cols)) i (JStr "")); reflexivity. }
    rewrite (iterM_wr _ m _ (fun i => nth i cols EmptyString)).
    - rewrite tab_nth_self. unfold vresize. rewrite firstn_all2 by lia. reflexivity.
    - intros i Hi. cbn [jindex]. rewrite (map_nth_error JStr _ _ (nth_error_nth' cols EmptyString Hi)). reflexivity.
    - lia.
  Qed.

  Lemma combine_firstn_frames : forall (fr : list (list T)) d n, Forall (fun x => length x = d) fr ->
    Forall (fun x => length x = d) (firstn n fr).
  Proof.
    intros fr d n F. rewrite Forall_forall in *. intros x Hx. apply F.
    rewrite <- (firstn_skipn n fr). apply in_or_app. auto.
  Qed.

  Lemma holds_loaded : forall (fr : list (list T)) d, Forall (fun x => length x = d) fr ->
    holds (Blk (map Some (concat fr))) (length fr) d fr.
  Proof.
    intros fr d F. split; auto. right. eexists. split; [reflexivity|].
    rewrite map_length, (concat_length_const fr d F). repeat split; auto.
    apply firstn_all2. rewrite map_length, (concat_length_const fr d F). lia.
  Qed.

  Lemma size_le : forall s : contents A, s_bim s = true \/ s_out s = [] ->
    spec_size s <= length (s_in s) /\ (s_bim s = true -> spec_size s <= length (s_out s)).
  Proof. intros s H. unfold spec_size. destruct (s_bim s); split; lia || discriminate. Qed.

  Lemma size_complete : forall s : contents A, spec_size (complete s) = spec_size s.
  Proof.
    intros s. unfold complete, spec_size. cbn [s_bim s_in s_out]. destruct (s_bim s);
      rewrite !firstn_length; lia.
  Qed.

  Lemma in_concat_firstn : forall (fr : list (list T)) n v, In v (concat (firstn n fr)) ->
    exists x, In x fr /\ In v x.
  Proof.
    intros fr n v H. apply in_concat in H. destruct H as (x & Hx & Hv). exists x. split; auto.
    rewrite <- (firstn_skipn n fr). apply in_or_app. auto.
  Qed.

  Lemma phrase_ofJson_rep : forall cv (p : phrase) s,
    rep p s -> storable s -> floats cv s -> (if s_bim s then 1 <= s_din s else 1 <= s_dim s) ->
    length (p_cols p) <= s_dim s ->
    exists j q, phrase_toJson p = Ok j /\ phrase_ofJson cv j = Ok q /\ rep q (complete s) /\
      p_label q = p_label p /\ p_cols q = vresize (s_dim s) EmptyString (p_cols p) /\
      p_max q = spec_size s /\ p_empty q = (spec_size s =? 0) /\ p_events q = [].
  Proof.
    intros cv p s R (Hst & Hd & Hn) Hfl Hdin1 Hcols.
    pose proof R as (Hown & Hbim & Hdim & Hdin & Hdm & Him & Hix & Hl & Hdata).
    unfold phrase_toJson. rewrite Hbim, Hl, Hdim, Hdin.
    destruct (s_bim s) eqn:Eb.
    - destruct Hdata as (Hi & Ho & Hle & Hmle & H0 & H1).
      pose proof H0 as (F0 & _). pose proof H1 as (F1 & _).
      assert (Hn0 : spec_size s <= length (s_in s)) by (unfold spec_size; rewrite Eb; lia).
      assert (Hn1 : spec_size s <= length (s_out s)) by (unfold spec_size; rewrite Eb; lia).
      rewrite (array2json_block _ _ _ _ _ H0 Hn0). cbn [bind].
      unfold usub. rewrite (proj2 (Nat.leb_le _ _)) by lia. cbn [bind].
      rewrite (array2json_block _ _ _ _ _ H1 Hn1). cbn [bind].
      assert (Lk : forall mid : list (string * json A), (mid = [] /\ p_cols p = []) \/ mid = [("column_names"%string, JArr (map JStr (p_cols p)))] ->
        exists q, phrase_ofJson cv (JObj (([("bimodal", JBool true); ("dimension", JInt (Z.of_nat (s_dim s)));
          ("dimension_input", JInt (Z.of_nat (s_din s))); ("length", JInt (Z.of_nat (spec_size s)));
          ("label", JStr (p_label p))]%string ++ mid) ++
          [("data_input", JArr (map JReal (concat (firstn (spec_size s) (s_in s)))));
           ("data_output", JArr (map JReal (concat (firstn (spec_size s) (s_out s)))))]%string)) = Ok q /\
          rep q (complete s) /\ p_label q = p_label p /\ p_cols q = vresize (s_dim s) EmptyString (p_cols p) /\
          p_max q = spec_size s /\ p_empty q = (spec_size s =? 0) /\ p_events q = []).
      { intros mid Hmid. unfold phrase_ofJson.
        assert (G : forall k, (k = "data_input" \/ k = "data_output")%string -> 
           lookup (([("bimodal", JBool true); ("dimension", JInt (Z.of_nat (s_dim s)));
          ("dimension_input", JInt (Z.of_nat (s_din s))); ("length", JInt (Z.of_nat (spec_size s)));
          ("label", JStr (p_label p))]%string ++ mid) ++
          [("data_input", JArr (map JReal (concat (firstn (spec_size s) (s_in s)))));
           ("data_output", JArr (map JReal (concat (firstn (spec_size s) (s_out s)))))]%string) k =
           Some (if String.eqb k "data_input" then JArr (map JReal (concat (firstn (spec_size s) (s_in s))))
                 else JArr (map JReal (concat (firstn (spec_size s) (s_out s)))))).
        { intros k [-> | ->]; destruct Hmid as [(-> & _)| ->]; reflexivity. }
        cbn [jget jmember lookup app String.eqb Ascii.eqb Bool.eqb bind as_bool].
        rewrite (as_int_small cv (s_dim s) Hd). cbn [bind]. rewrite (to_unsigned_small _ Hd).
        unfold checkLimits.
        rewrite (proj2 (Nat.ltb_ge (s_dim s) 2)) by lia.
        rewrite (proj2 (Nat.ltb_ge (Nat.max (s_dim s) 2) (s_dim s))) by lia. cbn [orb bind].
        assert (Hdz : (Z.of_nat (s_din s) < 2 ^ 31)%Z) by lia.
        rewrite (as_int_small cv (s_din s) Hdz). cbn [bind]. rewrite (to_unsigned_small _ Hdz).
        rewrite (proj2 (Nat.ltb_ge (s_din s) 1)) by lia.
        rewrite (proj2 (Nat.ltb_ge (s_dim s - 1) (s_din s))) by lia. cbn [orb bind].
        set (names := match lookup _ "column_names"%string with Some v => v | None => JNull end).
        assert (Hnames : iterM (jsize names) (fun i c => let* n := jindex names i (JStr "") in
             let* s0 := as_string cv n in wr c i s0) (repeat EmptyString (s_dim s)) = Ok (vresize (s_dim s) EmptyString (p_cols p))).
        { unfold names. destruct Hmid as [(-> & Ec)| ->].
          - rewrite Ec. unfold vresize. cbn [length]. rewrite firstn_nil, Nat.sub_0_r. reflexivity.
          - cbn [lookup app String.eqb Ascii.eqb Bool.eqb jsize]. rewrite map_length. apply cols_loop. auto. }
        rewrite Hnames. cbn [bind as_string].
        rewrite (as_int_small cv _ Hn). cbn [bind]. rewrite (to_unsigned_small _ Hn).
        pose proof (G "data_input"%string (or_introl eq_refl)) as G0.
        pose proof (G "data_output"%string (or_intror eq_refl)) as G1.
        cbn [lookup app String.eqb Ascii.eqb Bool.eqb] in G0, G1.
        rewrite G0, G1. cbv iota beta.
        rewrite load_block_ok.
        3: { intros v Hv. apply in_concat_firstn in Hv. destruct Hv as (x & Hx & Hv).
             apply (Hfl x v); auto. apply in_or_app; auto. }
        2: { rewrite (concat_length_const _ _ (combine_firstn_frames _ _ _ F0)), firstn_length. f_equal. lia. }
        cbn [bind]. unfold usub. rewrite (proj2 (Nat.leb_le _ _)) by lia. cbn [bind].
        rewrite load_block_ok.
        3: { intros v Hv. apply in_concat_firstn in Hv. destruct Hv as (x & Hx & Hv).
             apply (Hfl x v); auto. apply in_or_app; auto. }
        2: { rewrite (concat_length_const _ _ (combine_firstn_frames _ _ _ F1)), firstn_length. f_equal. lia. }
        cbn [bind]. eexists. split; [reflexivity|]. split; [|repeat split; auto].
        assert (L0 : length (firstn (spec_size s) (s_in s)) = spec_size s) by (rewrite firstn_length; lia).
        assert (L1 : length (firstn (spec_size s) (s_out s)) = spec_size s) by (rewrite firstn_length; lia).
        unfold rep, complete. cbn [p_own p_bim p_empty p_len p_ilen p_olen p_max p_dim p_dim_min p_din
          p_din_min p_din_max p_label p_cols p_d0 p_d1 p_events s_bim s_dim s_din s_in_max s_in s_out].
        pose proof (size_complete s) as Hcs. unfold complete in Hcs. rewrite Hcs, Eb, L0, L1.
        pose proof (holds_loaded _ _ (combine_firstn_frames _ _ (spec_size s) F0)) as K0. rewrite L0 in K0.
        pose proof (holds_loaded _ _ (combine_firstn_frames _ _ (spec_size s) F1)) as K1. rewrite L1 in K1.
        repeat (split; [reflexivity || lia || assumption|]). assumption. }
      destruct (p_cols p) as [|c0 cs] eqn:Ec.
      + destruct (Lk [] (or_introl (conj eq_refl eq_refl))) as (q & E & Hq). eexists _, q.
        split; [reflexivity|]. split; [exact E|]. exact Hq.
      + destruct (Lk _ (or_intror eq_refl)) as (q & E & Hq). eexists _, q.
        split; [reflexivity|]. split; [exact E|]. exact Hq.
    - destruct Hdata as (H0 & Ho).
      pose proof H0 as (F0 & _).
      assert (Hn0 : spec_size s <= length (s_in s)) by (unfold spec_size; rewrite Eb; lia).
      rewrite (array2json_block _ _ _ _ _ H0 Hn0). cbn [bind].
      assert (Lk : forall mid : list (string * json A), (mid = [] /\ p_cols p = []) \/ mid = [("column_names"%string, JArr (map JStr (p_cols p)))] ->
        exists q, phrase_ofJson cv (JObj (([("bimodal", JBool false); ("dimension", JInt (Z.of_nat (s_dim s)));
          ("dimension_input", JInt (Z.of_nat (s_din s))); ("length", JInt (Z.of_nat (spec_size s)));
          ("label", JStr (p_label p))]%string ++ mid) ++
          [("data", JArr (map JReal (concat (firstn (spec_size s) (s_in s)))))]%string)) = Ok q /\
          rep q (complete s) /\ p_label q = p_label p /\ p_cols q = vresize (s_dim s) EmptyString (p_cols p) /\
          p_max q = spec_size s /\ p_empty q = (spec_size s =? 0) /\ p_events q = []).
      { intros mid Hmid. unfold phrase_ofJson.
        assert (G0 : 
           lookup (([("bimodal", JBool false); ("dimension", JInt (Z.of_nat (s_dim s)));
          ("dimension_input", JInt (Z.of_nat (s_din s))); ("length", JInt (Z.of_nat (spec_size s)));
          ("label", JStr (p_label p))]%string ++ mid) ++
          [("data", JArr (map JReal (concat (firstn (spec_size s) (s_in s)))))]%string) "data"%string =
           Some (JArr (map JReal (concat (firstn (spec_size s) (s_in s)))))).
        { destruct Hmid as [(-> & _)| ->]; reflexivity. }
        cbn [jget jmember lookup app String.eqb Ascii.eqb Bool.eqb bind as_bool].
        rewrite (as_int_small cv (s_dim s) Hd). cbn [bind]. rewrite (to_unsigned_small _ Hd).
        unfold checkLimits.
        rewrite (proj2 (Nat.ltb_ge (s_dim s) 1)) by lia.
        rewrite (proj2 (Nat.ltb_ge (Nat.max (s_dim s) 1) (s_dim s))) by lia. cbn [orb bind].
        assert (Hdz : (Z.of_nat (s_din s) < 2 ^ 31)%Z) by (rewrite Hst; reflexivity).
        rewrite (as_int_small cv (s_din s) Hdz). cbn [bind]. rewrite (to_unsigned_small _ Hdz).
        rewrite (proj2 (Nat.ltb_ge (s_din s) 0)) by lia.
        rewrite (proj2 (Nat.ltb_ge 0 (s_din s))) by lia. cbn [orb bind].
        set (names := match lookup _ "column_names"%string with Some v => v | None => JNull end).
        assert (Hnames : iterM (jsize names) (fun i c => let* n := jindex names i (JStr "") in
             let* s0 := as_string cv n in wr c i s0) (repeat EmptyString (s_dim s)) = Ok (vresize (s_dim s) EmptyString (p_cols p))).
        { unfold names. destruct Hmid as [(-> & Ec)| ->].
          - rewrite Ec. unfold vresize. cbn [length]. rewrite firstn_nil, Nat.sub_0_r. reflexivity.
          - cbn [lookup app String.eqb Ascii.eqb Bool.eqb jsize]. rewrite map_length. apply cols_loop. auto. }
        rewrite Hnames. cbn [bind as_string].
        rewrite (as_int_small cv _ Hn). cbn [bind]. rewrite (to_unsigned_small _ Hn).
        cbn [lookup app String.eqb Ascii.eqb Bool.eqb] in G0.
        rewrite G0. cbv iota beta.
        rewrite load_block_ok.
        3: { intros v Hv. apply in_concat_firstn in Hv. destruct Hv as (x & Hx & Hv).
             apply (Hfl x v); auto. apply in_or_app; auto. }
        2: { rewrite (concat_length_const _ _ (combine_firstn_frames _ _ _ F0)), firstn_length. f_equal. lia. }
        cbn [bind]. eexists. split; [reflexivity|]. split; [|repeat split; auto].
        assert (L0 : length (firstn (spec_size s) (s_in s)) = spec_size s) by (rewrite firstn_length; lia).
        unfold rep, complete. cbn [p_own p_bim p_empty p_len p_ilen p_olen p_max p_dim p_dim_min p_din
          p_din_min p_din_max p_label p_cols p_d0 p_d1 p_events s_bim s_dim s_din s_in_max s_in s_out].
        pose proof (size_complete s) as Hcs. unfold complete in Hcs. rewrite Hcs, Eb.
        pose proof (holds_loaded _ _ (combine_firstn_frames _ _ (spec_size s) F0)) as K0. rewrite L0 in K0.
        rewrite Ho, firstn_nil.
        repeat (split; [reflexivity || lia || assumption|]). reflexivity. }
      destruct (p_cols p) as [|c0 cs] eqn:Ec.
      + destruct (Lk [] (or_introl (conj eq_refl eq_refl))) as (q & E & Hq). eexists _, q.
        split; [reflexivity|]. split; [exact E|]. exact Hq.
      + destruct (Lk _ (or_intror eq_refl)) as (q & E & Hq). eexists _, q.
        split; [reflexivity|]. split; [exact E|]. exact Hq.
  Qed.
End PhraseMore.
