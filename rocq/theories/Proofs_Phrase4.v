(** Proofs about phrases, continued: loading from JSON, rescaling, statistics. *)
From Coq Require Import String List Bool Arith Lia ZArith Reals Lra.
From Verif Require Import Base BaseFacts Arith RFacts Model_Attribute Model_Events Model_Json Model_Phrase Spec_Phrase.
From Verif Require Import Proofs_Json Proofs_Phrase Proofs_Phrase2 Proofs_Phrase3.
Import ListNotations.
Local Open Scope nat_scope.

Section PhraseJson.
  Context {A : arith}.
  Local Notation T := (num A).
  Local Notation block := (block (A:=A)).
  Local Notation phrase := (phrase (A:=A)).

  Lemma rep_cols : forall (p : phrase) s c, rep p s -> rep (set_cols c p) s.
  Proof. intros p s c H. exact H. Qed.
  Lemma rep_label : forall (p : phrase) s c, rep p s -> rep (set_label c p) s.
  Proof. intros p s c H. exact H. Qed.

  Lemma shows_nothing : forall (q : phrase) s b0 b1 ev,
    rep q s -> s_in s = [] -> s_out s = [] -> p_ilen q = 0 -> p_olen q = 0 ->
    shows (set_events ev (set_mem 0 b0 b1 q)) s.
  Proof.
    intros q s b0 b1 ev R Hi Ho Hil Hol.
    pose proof R as (Hown & Hbim & Hdim & Hdin & Hdm & Him & Hix & Hl & Hd).
    assert (Hl0 : p_len q = 0).
    { rewrite Hl. unfold spec_size. rewrite Hi, Ho. destruct (s_bim s); reflexivity. }
    split; [exact Hown|]. split; [exact Hbim|]. split; [exact Hdim|]. split; [exact Hdin|].
    split; [exact Hl|]. split; [intros _; rewrite Hi, Ho; split; [exact Hil|exact Hol]|].
    intros i d. unfold getValue, spec_value.
    cbn [set_events set_mem p_dim p_din p_bim p_len p_ilen p_olen p_d0 p_d1].
    rewrite Hbim, Hdim, Hdin, Hl0, Hil, Hol, Hi, Ho. cbn [Nat.leb].
    destruct (s_dim s <=? d), (s_bim s), (d <? s_din s); auto; destruct i; reflexivity.
  Qed.

  Lemma reached_dims : forall ops (s : contents A),
    (if s_bim s then 1 <= s_din s /\ 2 <= s_dim s else 1 <= s_dim s) ->
    let s' := fst (spec_run s ops) in
    s_bim s' = s_bim s /\ (if s_bim s' then 1 <= s_din s' /\ 2 <= s_dim s' else 1 <= s_dim s').
  Proof.
    induction ops as [|o ops IH]; intros s H; [simpl; auto|].
    cbn [spec_run]. destruct (spec_step s o) as (s1, out) eqn:E.
    assert (H1 : s_bim s1 = s_bim s /\ (if s_bim s1 then 1 <= s_din s1 /\ 2 <= s_dim s1 else 1 <= s_dim s1)).
    { pose proof (s_bim_step s o) as Hb. rewrite E in Hb. cbn [fst] in Hb. split; auto. rewrite Hb.
      destruct o; cbn [spec_step] in E.
      all: repeat match type of E with (if ?b then _ else _) = _ => destruct b eqn:? end;
        inversion E; subst s1; cbn; auto.
      - apply Nat.ltb_ge in Heqb. destruct (s_bim s); lia.
      - apply orb_false_iff in Heqb. destruct Heqb as (Ha & _). apply Nat.ltb_ge in Ha.
        destruct (s_bim s); lia. }
    destruct H1 as (Hb & H1). specialize (IH s1 H1). destruct (spec_run s1 ops) as (s2, outs).
    cbn [fst] in *. rewrite Hb in IH. exact IH.
  Qed.

  Lemma phrase_json_round_trip : forall cv bim ops (p0 : phrase) outs bim2 ops2 (d : phrase) outs2 names lab,
    dims_fit (contents_new bim) ops ->
    phrase_run false (phrase_new true bim) ops = Ok (p0, outs) ->
    dims_fit (contents_new bim2) ops2 ->
    phrase_run false (phrase_new true bim2) ops2 = Ok (d, outs2) ->
    let s := fst (spec_run (contents_new bim) ops) in
    let p := set_label lab (set_cols names p0) in
    storable s -> floats cv s -> length names <= s_dim s ->
    exists j q, phrase_toJson p = Ok j /\ phrase_fromJson cv d j = Ok q /\
      shows q (complete s) /\ p_label q = lab /\ p_cols q = vresize (s_dim s) EmptyString names /\
      p_empty q = (spec_size s =? 0) /\
      (0 < spec_size s -> forall ops' s' outs',
         dims_fit (complete s) ops' -> spec_run (complete s) ops' = (s', outs') ->
         exists q', phrase_run false q ops' = Ok (q', outs') /\ shows q' s').
  Proof.
    intros cv bim ops p0 outs bim2 ops2 d outs2 names lab Hf Hr Hf2 Hr2 s p Hst Hfl Hn.
    pose proof (reached_rep _ _ _ _ Hf Hr) as R0. fold s in R0.
    assert (R : rep p s) by exact R0.
    pose proof (reached_rep _ _ _ _ Hf2 Hr2) as Rd.
    assert (Hdims : if s_bim s then 1 <= s_din s /\ 2 <= s_dim s else 1 <= s_dim s).
    { unfold s. apply reached_dims. destruct bim; simpl; lia. }
    destruct (phrase_ofJson_rep cv p s R Hst Hfl) as (j & tmp & Ej & Et & Rt & Hlab & Hcols & Hmax & Hemp & Hev).
    { destruct (s_bim s); lia. }
    { exact Hn. }
    exists j. pose proof (rep_destroy _ _ Rd) as Hdd. unfold phrase_destroy in Hdd.
    pose proof (rep_destroy _ _ Rt) as Htd.
    assert (Hc : forall q : phrase, p_label q = p_label tmp -> p_cols q = p_cols tmp -> p_empty q = p_empty tmp ->
              p_label q = lab /\ p_cols q = vresize (s_dim s) EmptyString names /\ p_empty q = (spec_size s =? 0)).
    { intros q H1 H2 H3. rewrite H1, H2, H3. auto. }
    unfold phrase_fromJson. rewrite Et. cbn [bind]. unfold phrase_assign. rewrite Hdd. cbn [bind].
    rewrite (proj1 Rt).
    destruct (Nat.eq_dec (spec_size s) 0) as [Hz|Hz].
    - unfold copy_blocks. rewrite Hmax, Hz. cbn [Nat.ltb Nat.leb bind].
      eexists. split; [exact Ej|]. rewrite Htd. cbn [bind]. split; [reflexivity|].
      split.
      + pose proof Rt as (_ & Hb' & _ & _ & _ & _ & _ & Hl' & Hd').
        assert (Hi0 : s_in (complete s) = []) by (unfold complete; cbn; rewrite Hz; reflexivity).
        assert (Ho0 : s_out (complete s) = []) by (unfold complete; cbn; rewrite Hz; reflexivity).
        assert (p_ilen tmp = 0 /\ p_olen tmp = 0) as (Hi1 & Ho1).
        { clear - Et Hz Hl' Hmax. unfold phrase_ofJson in Et.
          repeat match type of Et with
          | bind ?m _ = Ok _ => destruct m; cbn [bind] in Et; try discriminate
          | (let '(_, _) := ?x in _) = Ok _ => destruct x
          | (if ?b then _ else _) = Ok _ => destruct b
          end; inversion Et; subst tmp; cbn in *; rewrite Hmax, Hz; auto. }
        apply shows_nothing; auto.
      + destruct (Hc (set_events (p_events d) (set_mem 0 Wild Wild tmp)) eq_refl eq_refl eq_refl) as (? & ? & ?).
        split; [assumption|]. split; [assumption|]. split; [rewrite Hz in *; assumption|]. intro Hlt. exfalso. lia.
    - destruct (copy_blocks_rep tmp (complete s) Rt) as (b0 & b1 & E & Rq); [lia|].
      rewrite E. cbn [bind]. eexists. split; [exact Ej|]. rewrite Htd. cbn [bind]. split; [reflexivity|].
      specialize (Rq (p_events d)). split; [apply rep_shows; exact Rq|].
      destruct (Hc (set_events (p_events d) (set_mem (p_max tmp) b0 b1 tmp)) eq_refl eq_refl eq_refl) as (? & ? & ?).
      repeat split; auto. intros _ ops' s' outs' Hf' Hr'.
      destruct (rep_run _ _ _ _ _ Rq Hf' Hr') as (q' & E' & R').
      exists q'. split; auto. apply rep_shows; auto.
  Qed.

  (** C23 *)
  Lemma rdb_app : forall (l1 l2 : list (option T)) x, rdb (Blk (l1 ++ Some x :: l2)) (length l1) = Ok x.
  Proof.
    intros. unfold rdb, rd. rewrite nth_error_app2, Nat.sub_diag by lia. reflexivity.
  Qed.

  Lemma wrb_app : forall (l1 l2 : list (option T)) y x,
    wrb (Blk (l1 ++ y :: l2)) (length l1) x = Ok (Blk (l1 ++ Some x :: l2)).
  Proof.
    intros. unfold wrb. rewrite wr_ok by (rewrite app_length; simpl; lia). cbn [bind].
    rewrite upd_app_exact. reflexivity.
  Qed.

  Lemma rescale_loop_ok : forall (l1 l3 : list (option T)) x offset gain k,
    length x <= length offset -> length x <= length gain -> k <= length x ->
    rescale_loop (Blk (l1 ++ map Some x ++ l3)) (length l1) 0 k offset gain
    = Ok (Blk (l1 ++ map Some (firstn k (affine offset gain x) ++ skipn k x) ++ l3)).
  Proof.
    intros l1 l3 x offset gain k Ho Hg. unfold rescale_loop. induction k; intros Hk.
    - reflexivity.
    - cbn [iterM]. rewrite IHk by lia. cbn [bind]. cbn [Nat.add].
      assert (Hla : length (affine offset gain x) = length x) by apply tab_length.
      assert (Hsk : skipn k x = nth k x n0 :: skipn (S k) x).
      { clear - Hk. revert k Hk. induction x; intros k Hk; simpl in *; [lia|]. destruct k; simpl; auto. apply IHx. lia. }
      assert (Hfk : firstn (S k) (affine offset gain x) = firstn k (affine offset gain x) ++
                 [((nth k x n0 - nth k offset n0) * nth k gain n0)%num]).
      { assert (Hn : nth k (affine offset gain x) n0 = ((nth k x n0 - nth k offset n0) * nth k gain n0)%num)
          by (unfold affine; rewrite nth_tab by lia; reflexivity).
        rewrite <- Hn. assert (Hk' : k < length (affine offset gain x)) by lia. clear - Hk'.
        revert k Hk'. generalize (affine offset gain x).
        induction l; intros k Hk; simpl in *; [lia|]. destruct k; simpl; auto. f_equal. apply IHl. lia. }
      set (fk := firstn k (affine offset gain x)) in *.
      assert (Hlk : length fk = k) by (unfold fk; rewrite firstn_length; lia).
      rewrite Hsk. rewrite map_app. cbn [map].
      replace (l1 ++ (map Some fk ++ Some (nth k x n0) :: map Some (skipn (S k) x)) ++ l3)
        with ((l1 ++ map Some fk) ++ Some (nth k x n0) :: (map Some (skipn (S k) x) ++ l3))
        by (rewrite <- !app_assoc; reflexivity).
      replace (length l1 + k) with (length (l1 ++ map Some fk)) by (rewrite app_length, map_length; lia).
      rewrite rdb_app. cbn [bind]. rewrite (rd_ok offset k n0), (rd_ok gain k n0) by lia. cbn [bind].
      rewrite wrb_app. rewrite Hfk. f_equal. f_equal. rewrite !map_app. cbn [map].
      rewrite <- !app_assoc. reflexivity.
  Qed.

  Lemma rescale_frame : forall (b : block) max d f1 x f2 offset gain,
    holds b max d (f1 ++ x :: f2) -> d <= length offset -> d <= length gain ->
    exists b', rescale_loop b (length f1 * d) 0 d offset gain = Ok b' /\
      holds b' max d (f1 ++ affine offset gain x :: f2).
  Proof.
    intros b max d f1 x f2 offset gain (F & [(-> & -> & Hn)|(c & -> & L & Hm & E)]) Ho Hg.
    { destruct f1; discriminate. }
    assert (Hx : length x = d).
    { rewrite Forall_forall in F. apply F. apply in_or_app. right. left. auto. }
    assert (F1 : Forall (fun y => length y = d) f1) by (apply Forall_app in F; tauto).
    set (n := length (f1 ++ x :: f2)) in *.
    assert (Hc : c = map Some (concat f1) ++ map Some x ++ (map Some (concat f2) ++ skipn (n * d) c)).
    { rewrite <- (firstn_skipn (n * d) c) at 1. rewrite E. rewrite concat_app. cbn [concat].
      rewrite !map_app, <- !app_assoc. reflexivity. }
    assert (Hlen1 : length f1 * d = length (map (@Some T) (concat f1)))
      by (rewrite map_length, (concat_length_const f1 d F1); reflexivity).
    assert (HB : Blk c = Blk (map Some (concat f1) ++ map Some x ++ (map Some (concat f2) ++ skipn (n * d) c)))
      by (f_equal; exact Hc).
    rewrite HB. clear HB. set (tl := skipn (n * d) c) in *.
    rewrite Hlen1.
    pose proof (rescale_loop_ok (map Some (concat f1)) (map Some (concat f2) ++ tl) x offset gain (length x)) as Q.
    rewrite (firstn_all2 (affine offset gain x)), skipn_all, app_nil_r in Q
      by (unfold affine; rewrite tab_length; lia).
    rewrite Hx in Q. rewrite Q by lia. clear Q.
    eexists. split; [reflexivity|].
    assert (Ha : length (affine offset gain x) = d) by (unfold affine; rewrite tab_length; auto).
    split.
    - apply Forall_app. apply Forall_app in F. destruct F as (Fa & Fb). split; auto. apply Forall_inv_tail in Fb.
      constructor; auto.
    - right. eexists. split; [reflexivity|].
      assert (Hn' : length (f1 ++ affine offset gain x :: f2) = n)
        by (unfold n; rewrite !app_length; reflexivity).
      rewrite Hn'. split; [|split; auto].
      + rewrite Hc in L. rewrite !app_length, !map_length in *. lia.
      + rewrite concat_app. cbn [concat]. rewrite !map_app.
        assert (Hl : length (map Some (concat f1) ++ map Some (affine offset gain x) ++ map Some (concat f2)) = n * d).
        { rewrite !app_length, !map_length, Ha.
          pose proof (concat_length_const _ _ F) as HC. rewrite concat_app in HC. cbn [concat] in HC.
          rewrite (app_length (concat f1)), (app_length x), Hx in HC. exact HC. }
        replace (map Some (concat f1) ++ map Some (affine offset gain x) ++ map Some (concat f2) ++ tl)
          with ((map Some (concat f1) ++ map Some (affine offset gain x) ++ map Some (concat f2)) ++ tl)
          by (rewrite <- !app_assoc; reflexivity).
        rewrite firstn_app, Hl.
        rewrite firstn_all2 by (rewrite Hl; auto). rewrite Nat.sub_diag, firstn_O, app_nil_r. reflexivity.
  Qed.

  Lemma rescale_rep : forall (p : phrase) s offset gain,
    rep p s -> s_bim s = false -> s_dim s <= length offset -> s_dim s <= length gain ->
    exists b0, rescale offset gain p = Ok (set_d0 b0 p) /\
      rep (set_d0 b0 p) (with_frames s (map (affine offset gain) (s_in s)) (s_out s)).
  Proof.
    intros p s offset gain R Hb Ho Hg.
    pose proof R as (Hown & Hbim & Hdim & Hdin & Hdm & Him & Hix & Hl & Hd).
    rewrite Hb in *. destruct Hd as (H0 & Hout).
    assert (Hlen : p_len p = length (s_in s)) by (rewrite Hl; unfold spec_size; rewrite Hb; auto).
    unfold rescale. rewrite Hlen.
    destruct (iterM_inv (fun t (q : phrase) => exists b, q = set_d0 b p /\
       holds b (p_max p) (s_dim s) (map (affine offset gain) (firstn t (s_in s)) ++ skipn t (s_in s)))
      (length (s_in s)) (fun t q => if p_bim q
        then let* b0 := rescale_loop (p_d0 q) (t * p_din q) 0 (p_din q) offset gain in
             let p0 := set_d0 b0 q in
             let* od := usub (p_dim p0) (p_din p0) in
             let* b1 := rescale_loop (p_d1 p0) (t * od) (p_din p0) (p_dim p0 - p_din p0) offset gain in
             Ok (set_d1 b1 p0)
        else let* b0 := rescale_loop (p_d0 q) (t * p_dim q) 0 (p_dim q) offset gain in Ok (set_d0 b0 q)) p)
      as (q & E & b & Hq & HB).
    - exists (p_d0 p). split; [destruct p; reflexivity|]. exact H0.
    - intros t q Ht (b & -> & HB). cbn [set_d0 set_mem p_bim p_d0 p_dim]. rewrite Hbim, Hdim.
      assert (Hsk : skipn t (s_in s) = nth t (s_in s) [] :: skipn (S t) (s_in s)).
      { clear - Ht. revert t Ht. induction (s_in s); intros t Ht; simpl in *; [lia|]. destruct t; simpl; auto. apply IHl. lia. }
      rewrite Hsk in HB.
      assert (Hf : map (affine offset gain) (firstn (S t) (s_in s)) =
         map (affine offset gain) (firstn t (s_in s)) ++ [affine offset gain (nth t (s_in s) [])]).
      { clear - Ht. revert t Ht. induction (s_in s); intros t Ht; simpl in *; [lia|]. destruct t; simpl; auto. f_equal. apply IHl. lia. }
      destruct (rescale_frame _ _ _ _ _ _ offset gain HB Ho Hg) as (b' & E' & HB').
      rewrite map_length, firstn_length, Nat.min_l in E' by lia. rewrite E'. cbn [bind].
      eexists. split; [reflexivity|]. exists b'. split; [reflexivity|].
      rewrite Hf, <- app_assoc. exact HB'.
    - exists b. subst q. split; [exact E|].
      rewrite firstn_all, skipn_all, app_nil_r in HB.
      unfold rep, set_d0, set_mem, with_frames, spec_size. cbn. rewrite Hb, map_length. intuition.
  Qed.

  Lemma phrase_rescale : forall ops (p : phrase) outs offset gain,
    dims_fit (contents_new false) ops ->
    phrase_run false (phrase_new true false) ops = Ok (p, outs) ->
    let s := fst (spec_run (contents_new false) ops) in
    s_dim s <= length offset -> s_dim s <= length gain ->
    exists p', rescale offset gain p = Ok p' /\
      shows p' (with_frames s (map (affine offset gain) (s_in s)) (s_out s)) /\
      p_label p' = p_label p /\ p_cols p' = p_cols p /\ p_empty p' = p_empty p /\
      p_len p' = p_len p /\ p_dim p' = p_dim p.
  Proof.
    intros ops p outs offset gain Hf Hr s Ho Hg.
    pose proof (reached_rep _ _ _ _ Hf Hr) as R. fold s in R.
    assert (Hb : s_bim s = false) by (unfold s; apply (reached_dims ops (contents_new false)); simpl; lia).
    destruct (rescale_rep p s offset gain R Hb Ho Hg) as (b0 & E & R').
    eexists. split; [exact E|]. split; [apply rep_shows; exact R'|]. repeat split; auto.
  Qed.
End PhraseJson.
