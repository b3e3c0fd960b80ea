(** Proofs about phrases: recording, clearing and dimension changes. *)
From Coq Require Import String List Bool Arith Lia ZArith.
From Verif Require Import Base BaseFacts Arith Model_Attribute Model_Events Model_Json Model_Phrase Spec_Phrase.
Import ListNotations.
Local Open Scope nat_scope.

(** Simplify records and run the state monad. *)
Ltac pset := unfold set_len, set_ilen, set_olen, set_empty, set_max, set_d0, set_d1, set_lens, set_mem,
    set_dims, set_cols in *; cbn [p_own p_bim p_empty p_len p_ilen p_olen p_max p_dim p_dim_min p_din
    p_din_min p_din_max p_label p_cols p_d0 p_d1 p_events] in *.
Ltac sstep := unfold sbind, sget, sret, sthrow, slift, sput, smod, swhen; pset.

Section PhraseProofs.
  Context {A : arith}.
  Local Notation T := (num A).
  Local Notation block := (block (A:=A)).
  Local Notation phrase := (phrase (A:=A)).

  (** The block [b], meant for [max] frames of [d] values, holds [fr]. *)
  Definition holds (b : block) (max d : nat) (fr : list (list T)) : Prop :=
    Forall (fun x => length x = d) fr /\
    ((b = Null /\ max = 0 /\ fr = []) \/
     exists c, b = Blk c /\ length c = max * d /\ length fr <= max /\
       firstn (length fr * d) c = map Some (concat fr)).

  Lemma concat_length_const : forall (fr : list (list T)) d,
    Forall (fun x => length x = d) fr -> length (concat fr) = length fr * d.
  Proof.
    induction fr; simpl; intros d H; auto. inversion H; subst.
    rewrite app_length, (IHfr (length a)); auto.
  Qed.

  Lemma holds_nil_null : forall d, holds Null 0 d [].
  Proof. intros. split; [constructor|]. left. auto. Qed.

  Lemma holds_clear : forall b max d fr, holds b max d fr -> holds b max d [].
  Proof.
    intros b max d fr (F & [(-> & -> & ->)|(c & -> & L & Hm & E)]).
    - apply holds_nil_null.
    - split; [constructor|]. right. exists c. simpl. repeat split; auto; lia.
  Qed.

  Lemma realloc_holds : forall b max k d fr, holds b max d fr ->
    exists b', reallocate b (max * d) ((max + k) * d) = Ok b' /\ holds b' (max + k) d fr.
  Proof.
    intros b max k d fr (F & [(-> & -> & ->)|(c & -> & L & Hm & E)]).
    - eexists. split; [reflexivity|]. split; [constructor|]. right.
      eexists. split; [reflexivity|]. rewrite repeat_length. simpl. repeat split; auto; lia.
    - assert (Hn : (if max * d <? (max + k) * d then max * d else (max + k) * d) = max * d).
      { destruct (Nat.ltb_spec (max * d) ((max + k) * d)); nia. }
      unfold reallocate. cbv zeta. rewrite Hn. unfold cells_of.
      rewrite (proj2 (Nat.leb_le _ _)) by lia. cbn [bind].
      eexists. split; [reflexivity|]. split; auto. right.
      eexists. split; [reflexivity|].
      rewrite app_length, firstn_length, repeat_length. split; [nia|]. split; [lia|].
      rewrite (firstn_all2 c) by lia. rewrite firstn_app.
      assert (length fr * d <= length c) by (rewrite L; apply Nat.mul_le_mono_r; auto).
      replace (length fr * d - length c) with 0 by lia. rewrite firstn_O, app_nil_r. exact E.
  Qed.

  Lemma upd_app_exact : forall {X} (l1 l2 : list X) y x, upd (l1 ++ y :: l2) (length l1) x = l1 ++ x :: l2.
  Proof. induction l1; simpl; intros; auto. f_equal. auto. Qed.

  Lemma copy_to_ok : forall x (l1 l2 l3 : list (option T)) off,
    length l2 = length x -> off = length l1 ->
    copy_to (Blk (l1 ++ l2 ++ l3)) off x = Ok (Blk (l1 ++ map Some x ++ l3)).
  Proof.
    induction x; simpl; intros l1 l2 l3 off H ->.
    - destruct l2; [reflexivity|discriminate].
    - destruct l2 as [|y l2]; [discriminate|]. simpl.
      rewrite wr_ok by (rewrite app_length; simpl; lia). cbn [bind].
      rewrite upd_app_exact.
      replace (l1 ++ Some a :: l2 ++ l3) with ((l1 ++ [Some a]) ++ l2 ++ l3)
        by (rewrite <- app_assoc; reflexivity).
      rewrite IHx; [|simpl in H; lia|rewrite app_length; simpl; lia].
      rewrite <- app_assoc. reflexivity.
  Qed.

  Lemma append_holds : forall b max d fr x,
    holds b max d fr -> length fr < max -> length x = d ->
    exists b', copy_to b (length fr * d) x = Ok b' /\ holds b' max d (fr ++ [x]).
  Proof.
    intros b max d fr x (F & [(-> & -> & ->)|(c & -> & L & Hm & E)]) Hlt Hx; [simpl in Hlt; lia|].
    set (o := length fr * d) in *.
    assert (Ho : o + d <= length c) by (unfold o; nia).
    assert (Hc : Blk c = Blk (firstn o c ++ firstn d (skipn o c) ++ skipn d (skipn o c))).
    { rewrite firstn_skipn, firstn_skipn. reflexivity. }
    rewrite Hc. rewrite copy_to_ok.
    2: { rewrite firstn_length, skipn_length. lia. }
    2: { rewrite firstn_length. lia. }
    eexists. split; [reflexivity|]. split.
    - apply Forall_app. split; auto.
    - right. eexists. split; [reflexivity|].
      rewrite !app_length, map_length, firstn_length, !skipn_length. split; [lia|].
      split; [cbn [length]; lia|].
      rewrite E. cbn [length].
      rewrite concat_app, map_app. simpl. rewrite app_nil_r.
      rewrite app_assoc. rewrite firstn_app.
      replace ((length fr + 1) * d) with (length (map Some (concat fr) ++ map Some x)).
      + rewrite firstn_all, Nat.sub_diag, firstn_O, app_nil_r. reflexivity.
      + rewrite app_length, !map_length, (concat_length_const fr d F). lia.
  Qed.

  Lemma nth_error_concat : forall (fr : list (list T)) d i k x,
    Forall (fun x => length x = d) fr -> nth_error fr i = Some x -> k < d ->
    nth_error (concat fr) (i * d + k) = nth_error x k.
  Proof.
    induction fr; intros d i k x F H Hk; [destruct i; discriminate|].
    inversion F; subst. destruct i; simpl in H.
    - inversion H; subst. simpl. rewrite nth_error_app1 by lia. reflexivity.
    - simpl. rewrite nth_error_app2 by lia.
      replace (length a + i * length a + k - length a) with (i * length a + k) by lia.
      apply (IHfr (length a) i k x); auto.
  Qed.

  Lemma nth_error_firstn_lt : forall {X} (l : list X) n i, i < n -> nth_error (firstn n l) i = nth_error l i.
  Proof. induction l; destruct n, i; simpl; intros; try lia; auto. apply IHl; lia. Qed.

  Lemma rdb_holds : forall b max d fr i k x,
    holds b max d fr -> nth_error fr i = Some x -> k < d ->
    exists y, nth_error x k = Some y /\ rdb b (i * d + k) = Ok y.
  Proof.
    intros b max d fr i k x (F & [(-> & -> & ->)|(c & -> & L & Hm & E)]) H Hk;
      [destruct i; discriminate|].
    pose proof (nth_error_concat fr d i k x F H Hk) as Hc.
    assert (Hx : length x = d).
    { rewrite Forall_forall in F. apply F. eapply nth_error_In; eauto. }
    destruct (nth_error x k) as [y|] eqn:Ey.
    2: { apply nth_error_None in Ey. lia. }
    exists y. split; auto.
    assert (Hi : i < length fr) by (apply nth_error_Some; congruence).
    unfold rdb, rd. rewrite <- (nth_error_firstn_lt c (length fr * d)) by nia.
    rewrite E. rewrite (map_nth_error Some _ _ Hc). reflexivity.
  Qed.

  (** The representation invariant of an own-memory phrase with contents [s]. *)
  Definition rep (p : phrase) (s : contents A) : Prop :=
    p_own p = true /\ p_bim p = s_bim s /\ p_dim p = s_dim s /\ p_din p = s_din s /\
    p_dim_min p = (if s_bim s then 2 else 1) /\
    p_din_min p = (if s_bim s then 1 else 0) /\ p_din_max p = s_in_max s /\
    p_len p = spec_size s /\
    (if s_bim s then
       p_ilen p = length (s_in s) /\ p_olen p = length (s_out s) /\
       s_din s <= s_dim s /\ s_in_max s <= s_dim s /\
       holds (p_d0 p) (p_max p) (s_din s) (s_in s) /\
       holds (p_d1 p) (p_max p) (s_dim s - s_din s) (s_out s)
     else holds (p_d0 p) (p_max p) (s_dim s) (s_in s) /\ s_out s = []).

  Lemma rep_new : forall bim, rep (phrase_new true bim) (contents_new bim).
  Proof.
    intros []; repeat split; simpl; auto using holds_nil_null; try lia; constructor.
  Qed.

  (** Growing the blocks. *)
  Lemma reallocateLength_rep : forall p s, rep p s ->
    exists p', reallocateLength p = (p', Ok tt) /\ rep p' s /\ p_max p' = p_max p + block_size.
  Proof.
    intros [own bim e len ilen olen mx dim dmin din imin imax lab cols d0 d1 ev] [sb sd si sm fi fo] H.
    unfold rep in *. cbn [p_own p_bim p_empty p_len p_ilen p_olen p_max p_dim p_dim_min p_din
      p_din_min p_din_max p_label p_cols p_d0 p_d1 p_events s_bim s_dim s_din s_in_max s_in s_out] in *.
    destruct H as (-> & -> & -> & -> & Hdm & Him & Hix & Hl & H).
    unfold reallocateLength. sstep. destruct sb.
    - destruct H as (-> & -> & Hle & Hmle & H0 & H1).
      destruct (realloc_holds _ _ block_size _ _ H0) as (b0 & E0 & H0').
      destruct (realloc_holds _ _ block_size _ _ H1) as (b1 & E1 & H1').
      rewrite E0. unfold usub. rewrite (proj2 (Nat.leb_le _ _)) by lia. rewrite E1.
      eexists. split; [reflexivity|]. pset. intuition.
    - destruct H as (H0 & Ho).
      destruct (realloc_holds _ _ block_size _ _ H0) as (b0 & E0 & H0').
      rewrite E0. eexists. split; [reflexivity|]. pset. intuition.
  Qed.

  Lemma grow_rep : forall p s (b : bool) n, rep p s ->
    (b = false -> n < p_max p) -> n <= p_max p ->
    exists p', swhen b reallocateLength p = (p', Ok tt) /\ rep p' s /\ n < p_max p'.
  Proof.
    intros p s b n H Hb Hn. destruct b; cbn [swhen].
    - destruct (reallocateLength_rep p s H) as (p' & E & R' & M). exists p'. split; auto. split; auto.
      rewrite M. unfold block_size. lia.
    - exists p. split; [reflexivity|]. split; auto.
  Qed.

  Lemma grow_cond : forall mx n, ((mx <=? n) || (mx =? 0)) = false -> n < mx.
  Proof. intros mx n H. apply orb_false_iff in H. destruct H as (H & _). apply Nat.leb_gt in H. lia. Qed.

  Lemma sbind_eq : forall {S X Y} (m : stm S X) (f : X -> stm S Y) s s' x,
    m s = (s', Ok x) -> sbind m f s = f x s'.
  Proof. intros. unfold sbind. rewrite H. reflexivity. Qed.

  Lemma rep_step : forall p s o s' out,
    rep p s -> op_fits s o -> spec_step s o = (s', out) ->
    exists p', phrase_step false o p = (p', out) /\ rep p' s'.
  Proof.
    intros p s o s' out H Hfit Hs.
    pose proof H as H'.
    destruct H' as (Hown & Hbim & Hdim & Hdin & Hdm & Him & Hix & Hl & Hd).
    destruct o as [x|x|x| | | |n|n]; simpl in Hs; unfold phrase_step.
    - (* record *)
      unfold record. unfold sbind at 1. unfold sget at 1. rewrite Hown. cbn [negb].
      rewrite Hbim, Hdim, Hdin.
      destruct (s_bim s) eqn:Eb.
      + destruct Hd as (Hi & Ho & Hle & Hmle & H0 & H1). cbn [andb]. rewrite Hi, Ho.
        destruct (length (s_in s) =? length (s_out s)) eqn:El; cbn [negb] in *.
        2: { inversion Hs; subst. exists p. split; [reflexivity|auto]. }
        apply Nat.eqb_eq in El.
        destruct (length x =? s_dim s) eqn:Ex; cbn [negb] in *.
        2: { inversion Hs; subst. exists p. split; [reflexivity|auto]. }
        apply Nat.eqb_eq in Ex. inversion Hs; subst s' out; clear Hs.
        assert (Hlen : p_len p = length (s_in s)).
        { rewrite Hl. unfold spec_size. rewrite Eb. lia. }
        assert (Hmx : length (s_in s) <= p_max p).
        { destruct H0 as (_ & [(_ & _ & ->)|(c & _ & _ & Hm & _)]); simpl; lia. }
        destruct (grow_rep p s ((p_max p <=? p_len p) || (p_max p =? 0)) (length (s_in s)) H) as (p1 & E1 & R1 & M1); auto.
        { intro Hg. apply grow_cond in Hg. lia. }
        rewrite (sbind_eq _ _ _ _ _ E1). clear E1.
        destruct p1 as [own bim e len ilen olen mx dim dmin din imin imax lab cols d0 d1 ev].
        destruct R1 as (Q1 & Q2 & Q3 & Q4 & Q5 & Q6 & Q7 & Q8 & Q9). rewrite Eb in *. pset.
        destruct Q9 as (Qi & Qo & _ & _ & K0 & K1).
        subst own bim dim din dmin imin imax ilen olen len.
        unfold slice. rewrite Nat.sub_0_r. cbn [Nat.leb andb skipn].
        assert (Hfx : length (firstn (s_din s) x) = s_din s) by (rewrite firstn_length; lia).
        assert (Hsx : length (skipn (s_din s) x) = s_dim s - s_din s) by (rewrite skipn_length; lia).
        destruct (append_holds _ _ _ _ (firstn (s_din s) x) K0 M1) as (b0 & B0 & K0'); auto.
        destruct (append_holds _ _ _ _ (skipn (s_din s) x) K1) as (b1 & B1 & K1'); auto; [lia|].
        assert (Hsl : firstn (s_dim s - s_din s) (skipn (s_din s) x) = skipn (s_din s) x).
        { apply firstn_all2. lia. }
        unfold usub. sstep.
        rewrite (proj2 (Nat.leb_le (s_din s) (length x))) by lia. rewrite B0. pset.
        rewrite (proj2 (Nat.leb_le (s_din s) (s_dim s))) by lia.
        rewrite (proj2 (Nat.leb_le (s_dim s) (length x))) by lia. cbn [andb]. rewrite Hsl.
        rewrite B1. pset.
        eexists. split; [reflexivity|]. unfold rep. pset. cbn [with_frames s_bim s_dim s_din s_in_max s_in s_out].
        rewrite Eb. rewrite !app_length. cbn [length].
        repeat split; auto; try lia.
        unfold spec_size. cbn [with_frames s_bim s_in s_out]. rewrite Eb, ?app_length. cbn [length]. lia.
        all: destruct K0', K1'; auto.
      + cbn [andb]. destruct Hd as (H0 & Ho).
        destruct (length x =? s_dim s) eqn:Ex; cbn [negb] in *.
        2: { inversion Hs; subst. exists p. split; [reflexivity|auto]. }
        apply Nat.eqb_eq in Ex. inversion Hs; subst s' out; clear Hs.
        assert (Hlen : p_len p = length (s_in s)).
        { rewrite Hl. unfold spec_size. rewrite Eb. lia. }
        assert (Hmx : length (s_in s) <= p_max p).
        { destruct H0 as (_ & [(_ & _ & ->)|(c & _ & _ & Hm & _)]); simpl; lia. }
        destruct (grow_rep p s ((p_max p <=? p_len p) || (p_max p =? 0)) (length (s_in s)) H) as (p1 & E1 & R1 & M1); auto.
        { intro Hg. apply grow_cond in Hg. lia. }
        rewrite (sbind_eq _ _ _ _ _ E1). clear E1.
        destruct p1 as [own bim e len ilen olen mx dim dmin din imin imax lab cols d0 d1 ev].
        destruct R1 as (Q1 & Q2 & Q3 & Q4 & Q5 & Q6 & Q7 & Q8 & Q9). rewrite Eb in *. pset.
        destruct Q9 as (K0 & _).
        subst own bim dim din dmin imin imax len.
        destruct (append_holds _ _ _ _ x K0 M1) as (b0 & B0 & K0'); auto.
        unfold spec_size in *. rewrite Eb in *.
        sstep. rewrite B0. pset.
        eexists. split; [reflexivity|]. unfold rep. pset. cbn [with_frames s_bim s_dim s_din s_in_max s_in s_out].
        rewrite Eb.
        repeat split; auto; try lia.
        unfold spec_size. cbn [with_frames s_bim s_in s_out]. rewrite Eb, ?app_length. cbn [length]. lia.
        all: destruct K0'; auto.
    - (* record_input *)
      unfold record_input. unfold sbind at 1. unfold sget at 1. rewrite Hown. cbn [negb].
      rewrite Hbim, Hdin. destruct (s_bim s) eqn:Eb; cbn [negb] in *.
      2: { inversion Hs; subst. exists p. split; [reflexivity|auto]. }
      destruct Hd as (Hi & Ho & Hle & Hmle & H0 & H1).
      destruct (length x =? s_din s) eqn:Ex; cbn [negb] in *.
      2: { inversion Hs; subst. exists p. split; [reflexivity|auto]. }
      apply Nat.eqb_eq in Ex. inversion Hs; subst s' out; clear Hs.
      assert (Hmx : length (s_in s) <= p_max p).
      { destruct H0 as (_ & [(_ & _ & ->)|(c & _ & _ & Hm & _)]); simpl; lia. }
      rewrite Hi.
      destruct (grow_rep p s ((p_max p <=? length (s_in s)) || (p_max p =? 0)) (length (s_in s)) H) as (p1 & E1 & R1 & M1); auto.
      { intro Hg. apply grow_cond in Hg. lia. }
      rewrite (sbind_eq _ _ _ _ _ E1). clear E1.
      destruct p1 as [own bim e len ilen olen mx dim dmin din imin imax lab cols d0 d1 ev].
      destruct R1 as (Q1 & Q2 & Q3 & Q4 & Q5 & Q6 & Q7 & Q8 & Q9). rewrite Eb in *. pset.
      destruct Q9 as (Qi & Qo & _ & _ & K0 & K1).
      subst own bim dim din dmin imin imax ilen olen len.
      destruct (append_holds _ _ _ _ x K0 M1) as (b0 & B0 & K0'); auto.
      unfold trim. sstep. rewrite B0. pset.
      eexists. split; [reflexivity|]. unfold rep. pset. cbn [with_frames s_bim s_dim s_din s_in_max s_in s_out].
      rewrite Eb, !app_length. cbn [length].
      repeat split; auto; try lia.
      unfold spec_size. cbn [with_frames s_bim s_in s_out]. rewrite Eb, ?app_length. cbn [length]. lia.
      all: destruct K0', K1; auto.
    - (* record_output *)
      unfold record_output. unfold sbind at 1. unfold sget at 1. rewrite Hown. cbn [negb].
      rewrite Hbim, Hdim, Hdin. destruct (s_bim s) eqn:Eb; cbn [negb] in *.
      2: { inversion Hs; subst. exists p. split; [reflexivity|auto]. }
      destruct Hd as (Hi & Ho & Hle & Hmle & H0 & H1).
      unfold sbind at 1. unfold slift at 1. unfold usub.
      rewrite (proj2 (Nat.leb_le (s_din s) (s_dim s))) by lia.
      destruct (length x =? s_dim s - s_din s) eqn:Ex; cbn [negb] in *.
      2: { inversion Hs; subst. exists p. split; [reflexivity|auto]. }
      apply Nat.eqb_eq in Ex. inversion Hs; subst s' out; clear Hs.
      assert (Hmx : length (s_out s) <= p_max p).
      { destruct H1 as (_ & [(_ & _ & ->)|(c & _ & _ & Hm & _)]); simpl; lia. }
      rewrite Ho.
      destruct (grow_rep p s ((p_max p <=? length (s_out s)) || (p_max p =? 0)) (length (s_out s)) H) as (p1 & E1 & R1 & M1); auto.
      { intro Hg. apply grow_cond in Hg. lia. }
      rewrite (sbind_eq _ _ _ _ _ E1). clear E1.
      destruct p1 as [own bim e len ilen olen mx dim dmin din imin imax lab cols d0 d1 ev].
      destruct R1 as (Q1 & Q2 & Q3 & Q4 & Q5 & Q6 & Q7 & Q8 & Q9). rewrite Eb in *. pset.
      destruct Q9 as (Qi & Qo & _ & _ & K0 & K1).
      subst own bim dim din dmin imin imax ilen olen len.
      destruct (append_holds _ _ _ _ x K1 M1) as (b0 & B0 & K0'); auto.
      unfold trim. sstep. rewrite B0. pset.
      eexists. split; [reflexivity|]. unfold rep. pset. cbn [with_frames s_bim s_dim s_din s_in_max s_in s_out].
      rewrite Eb, !app_length. cbn [length].
      repeat split; auto; try lia.
      unfold spec_size. cbn [with_frames s_bim s_in s_out]. rewrite Eb, ?app_length. cbn [length]. lia.
      all: destruct K0', K0; auto.
    - (* clear *)
      inversion Hs; subst s' out; clear Hs. unfold clear. sstep. rewrite Hown. cbn [negb].
      eexists. split; [reflexivity|]. unfold rep. pset. cbn [with_frames s_bim s_dim s_din s_in_max s_in s_out].
      unfold spec_size. cbn. rewrite Hown, Hbim, Hdim, Hdin, Hdm, Him, Hix.
      destruct (s_bim s); repeat split; try tauto; try (eapply holds_clear; apply Hd).
    - (* clearInput *)
      inversion Hs; subst s' out; clear Hs. unfold clearInput. sstep. rewrite Hown, Hbim. cbn [negb].
      unfold rep, spec_size in *. cbn [with_frames s_bim s_dim s_din s_in_max s_in s_out].
      destruct (s_bim s) eqn:Eb; cbn [negb]; unfold trim; sstep; rewrite Hbim;
        eexists; (split; [reflexivity|]); pset;
        rewrite Hown, Hdim, Hdin, Hdm, Him, Hix; try rewrite Hbim.
      + destruct Hd as (Hi & Ho & Hle & Hmle & H0 & H1). rewrite Ho. simpl.
        repeat split; auto; try apply H1; eapply holds_clear; eauto.
      + destruct Hd as (H0 & Ho). repeat split; auto. eapply holds_clear; eauto.
    - (* clearOutput *)
      inversion Hs; subst s' out; clear Hs. unfold clearOutput. sstep. rewrite Hown, Hbim. cbn [negb].
      unfold rep, spec_size in *. cbn [with_frames s_bim s_dim s_din s_in_max s_in s_out].
      destruct (s_bim s) eqn:Eb; cbn [negb]; unfold trim; sstep; rewrite Hbim;
        eexists; (split; [reflexivity|]); pset;
        rewrite Hown, Hdim, Hdin, Hdm, Him, Hix; try rewrite Hbim.
      + destruct Hd as (Hi & Ho & Hle & Hmle & H0 & H1). rewrite Hi. simpl.
        repeat split; auto; try apply H0; try (eapply holds_clear; eauto); lia.
      + destruct Hd as (H0 & Ho). repeat split; auto. eapply holds_clear; eauto.
    - (* dimension.set *)
      unfold set_dimension. sstep. rewrite Hdm. unfold checkLimits.
      rewrite (proj2 (Nat.ltb_ge (Nat.max n _) n)) by lia. rewrite orb_false_r.
      destruct (n <? (if s_bim s then 2 else 1)) eqn:En.
      { inversion Hs; subst. exists p. split; [reflexivity|auto]. }
      apply Nat.ltb_ge in En.
      inversion Hs; subst s' out; clear Hs.
      unfold on_dim_change. sstep. rewrite Hown, Hbim.
      assert (Hw : delete_scalar false (p_d0 p) = Ok tt).
      { assert (p_d0 p <> Wild).
        { intro Hw. rewrite Hw in Hd. destruct (s_bim s).
          - destruct Hd as (_ & _ & _ & _ & (_ & [(Hx & _)|(c & Hx & _)]) & _); discriminate.
          - destruct Hd as ((_ & [(Hx & _)|(c & Hx & _)]) & _); discriminate. }
        destruct (p_d0 p); auto; congruence. }
      rewrite Hw. cbn in Hfit.
      destruct (s_bim s) eqn:Eb; pset; eexists; (split; [reflexivity|]); unfold rep, spec_size; pset;
        cbn [s_bim s_dim s_din s_in_max s_in s_out length Nat.min]; rewrite ?Hown;
        repeat split; auto; try apply holds_nil_null; try constructor; auto; lia.
    - (* dimension_input.set *)
      unfold set_dimension_input. sstep. rewrite Him, Hix. unfold checkLimits.
      destruct ((n <? (if s_bim s then 1 else 0)) || (s_in_max s <? n)) eqn:En.
      { inversion Hs; subst. exists p. split; [reflexivity|auto]. }
      apply orb_false_iff in En. destruct En as (En & En'). apply Nat.ltb_ge in En, En'.
      inversion Hs; subst s' out; clear Hs.
      unfold on_dim_change. sstep. rewrite Hown, Hbim.
      assert (Hw : delete_scalar false (p_d0 p) = Ok tt).
      { assert (p_d0 p <> Wild).
        { intro Hw. rewrite Hw in Hd. destruct (s_bim s).
          - destruct Hd as (_ & _ & _ & _ & (_ & [(Hx & _)|(c & Hx & _)]) & _); discriminate.
          - destruct Hd as ((_ & [(Hx & _)|(c & Hx & _)]) & _); discriminate. }
        destruct (p_d0 p); auto; congruence. }
      rewrite Hw.
      destruct (s_bim s) eqn:Eb; pset; eexists; (split; [reflexivity|]); unfold rep, spec_size; pset;
        cbn [s_bim s_dim s_din s_in_max s_in s_out length Nat.min]; rewrite ?Hown;
        repeat split; auto; try apply holds_nil_null; try constructor; auto.
      all: try lia.
  Qed.
End PhraseProofs.
