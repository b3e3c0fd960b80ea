(** Training sets: JSON round trip. *)
From Coq Require Import String List Bool Arith Lia ZArith Sorted.
From Verif Require Import Base BaseFacts Arith Model_Map Model_Attribute Model_Events Model_Json Model_Phrase Model_TrainingSet.
From Verif Require Import Spec_Phrase Spec_TrainingSet Proofs_Json Proofs_Phrase Proofs_Phrase2 Proofs_Phrase3 Proofs_Phrase4.
From Verif Require Import Proofs_Map Proofs_TrainingSet Proofs_TrainingSet2 Proofs_TrainingSet3 Proofs_TrainingSet4 Proofs_TrainingSet5 Proofs_TrainingSet6.
Import ListNotations.
Local Open Scope nat_scope.

Section Json.
  Context {A : arith}.
  Local Notation phrase := (phrase (A:=A)).
  Local Notation world := (world A).

  Lemma made_rep : forall (p : phrase) s, made p s -> rep p s.
  Proof.
    induction 1.
    - apply rep_new.
    - destruct (spec_step s o) as [s' out] eqn:E. destruct (rep_step _ _ _ _ _ IHmade H0 E) as (p' & E' & R').
      rewrite E'. exact R'.
    - exact IHmade.
    - exact IHmade.
    - exact IHmade.
    - destruct (copy_blocks_rep p s IHmade (rep_max _ _ IHmade H0)) as (b0 & b1 & E & Rq).
      unfold phrase_copy in H1. rewrite (proj1 IHmade), E in H1. cbn [bind] in H1. inversion H1; subst. apply Rq.
  Qed.

  (** The index is a member of its own. *)
  Lemma toJson_obj : forall (p : phrase) j, phrase_toJson p = Ok j -> exists o, j = JObj o /\ lookup o "index" = None.
  Proof.
    intros p j H. unfold phrase_toJson in H. destruct (p_bim p).
    - destruct (array2json _ _ _) as [di|e|]; try discriminate. cbn [bind] in H.
      destruct (usub _ _) as [od|e|]; try discriminate. cbn [bind] in H.
      destruct (array2json _ _ _) as [dout|e|]; try discriminate. cbn [bind] in H.
      inversion H; subst. eexists. split; [reflexivity|]. destruct (p_cols p); reflexivity.
    - destruct (array2json _ _ _) as [di|e|]; try discriminate. cbn [bind] in H.
      inversion H; subst. eexists. split; [reflexivity|]. destruct (p_cols p); reflexivity.
  Qed.

  Lemma lookup_app : forall {X} (o : list (string * X)) k v key, key <> k -> lookup (o ++ [(k, v)]) key = lookup o key.
  Proof.
    intros X o k v key N. induction o as [|[a b] o IH]; cbn [app lookup].
    - destruct (String.eqb_spec k key); congruence.
    - destruct (String.eqb a key); auto.
  Qed.
  Lemma lookup_new : forall {X} (o : list (string * X)) k v, lookup o k = None -> lookup (o ++ [(k, v)]) k = Some v.
  Proof.
    intros X o k v. induction o as [|[a b] o IH]; cbn [app lookup]; intro H.
    - rewrite String.eqb_refl. auto.
    - destruct (String.eqb a k); [discriminate|auto].
  Qed.

  Lemma ofJson_index : forall (cv : conv A) o v, phrase_ofJson cv (JObj (o ++ [("index"%string, v)])) = phrase_ofJson cv (JObj o).
  Proof.
    intros cv o v. unfold phrase_ofJson, jget, jmember.
    rewrite !(lookup_app o "index"%string v) by discriminate. reflexivity.
  Qed.

  Lemma ofJson_lens : forall (cv : conv A) j (q : phrase), phrase_ofJson cv j = Ok q -> p_ilen q = p_max q /\ p_olen q = p_max q.
  Proof.
    intros cv j q Et. unfold phrase_ofJson in Et.
    repeat match type of Et with
    | bind ?m _ = Ok _ => destruct m; cbn [bind] in Et; try discriminate
    | (let '(_, _) := ?x in _) = Ok _ => destruct x
    | (if ?b then _ else _) = Ok _ => destruct b
    end; inversion Et; subst q; cbn; auto.
  Qed.

  (** What becomes of one phrase. *)
  Definition loads (cv : conv A) (w : world) (e : Z * nat) (q : phrase) : Prop :=
    exists p s, nth_error (w_heap w) (snd e) = Some p /\ storable_phrase cv p s /\
      rep q (complete s) /\ p_label q = p_label p /\ p_cols q = vresize (s_dim s) EmptyString (p_cols p) /\
      p_max q = spec_size s /\ p_ilen q = p_max q /\ p_olen q = p_max q /\ p_events q = [].

  Lemma phrase_loads : forall (cv : conv A) (w : world) e p s, nth_error (w_heap w) (snd e) = Some p -> storable_phrase cv p s ->
    exists j q, (let* p := rd (w_heap w) (snd e) in let* j := phrase_toJson p in add_index (fst e) j) = Ok j /\
      jmember j "index" = Ok (JInt (fst e)) /\ phrase_ofJson cv j = Ok q /\ loads cv w e q.
  Proof.
    intros cv w [i id] p s Hp HS. cbn [fst snd] in *. pose proof HS as (M & Hst & Hfl & Hd & Hc).
    destruct (phrase_ofJson_rep cv p s (made_rep _ _ M) Hst Hfl Hd Hc) as (j & q & Ej & Eq & R & Hl & Hcol & Hmax & Hem & Hev).
    destruct (toJson_obj _ _ Ej) as (o & -> & Hi).
    destruct (ofJson_lens _ _ _ Eq) as (Hil & Hol).
    exists (JObj (o ++ [("index"%string, JInt i)])), q. split; [|split; [|split]].
    - unfold rd. rewrite Hp. cbn [bind]. rewrite Ej. reflexivity.
    - unfold jmember. rewrite (lookup_new _ _ _ Hi). reflexivity.
    - rewrite ofJson_index. exact Eq.
    - exists p, s. cbn [snd]. repeat split; auto; apply R || apply HS.
  Qed.

  Lemma mapM_Forall2 : forall {X Y} (f : X -> res Y) (P : X -> Y -> Prop) l,
    (forall x, In x l -> exists y, f x = Ok y /\ P x y) -> exists ys, mapM f l = Ok ys /\ Forall2 P l ys.
  Proof.
    intros X Y f P l. induction l as [|x l IH]; intros H; simpl.
    - exists []. split; auto.
    - destruct (H x) as (y & E & HP); [simpl; auto|]. destruct IH as (ys & E' & HF); [intros; apply H; simpl; auto|].
      exists (y :: ys). rewrite E. cbn [bind]. rewrite E'. split; auto.
  Qed.

  (** A loop that appends one phrase to the heap and registers it. *)
  Lemma append_loop : forall {X} k (key : X -> Z) (Q : X -> phrase -> Prop) (f : X -> stm world unit) (h0 : list phrase) l,
    StronglySorted (fun x y => Z.ltb (key x) (key y) = true) l ->
    (forall x (w : world) t h, In x l -> w_heap w = h0 ++ h -> set_at w k = Some t -> pget (t_phrases t) (key x) = None ->
       exists q, Q x q /\
         f x w = (mkWorld (w_heap w ++ [set_events [(k, k)] q])
                   (upd (w_sets w) k (Some (with_phrases (pput (t_phrases t) (key x) (length (w_heap w))) t))), Ok tt)) ->
    forall (w : world) t h, w_heap w = h0 ++ h -> set_at w k = Some t -> ksorted Z.ltb (t_phrases t) ->
      (forall x y, In x (map fst (t_phrases t)) -> In y l -> Z.ltb x (key y) = true) ->
      exists qs, Forall2 Q l qs /\
        sforeach l f w = (mkWorld (w_heap w ++ map (set_events [(k, k)]) qs)
          (upd (w_sets w) k (Some (with_phrases (t_phrases t ++ combine (map key l) (seq (length (w_heap w)) (length l))) t))), Ok tt).
  Proof.
    intros X k key Q f h0 l. induction l as [|x l IH]; intros HS HF w t h Hh Hk Hso Hlt.
    - exists []. split; [constructor|]. cbn [sforeach map combine seq length]. rewrite !app_nil_r.
      assert (E : with_phrases (t_phrases t) t = t) by (destruct t; reflexivity). rewrite E.
      pose proof (wput_same _ _ _ Hk) as Ew. unfold wput in Ew. unfold sret. f_equal. symmetry. exact Ew.
    - apply StronglySorted_inv in HS. destruct HS as (HS & HA). rewrite Forall_forall in HA.
      assert (Hnone : pget (t_phrases t) (key x) = None).
      { destruct (pget (t_phrases t) (key x)) as [id|] eqn:E; auto. unfold pget in E. apply (mget_in _ Z.eqb_eq) in E.
        apply (in_map fst) in E. cbn [fst] in E. pose proof (Hlt _ x E (or_introl eq_refl)) as Hc. rewrite Z.ltb_irrefl in Hc. discriminate. }
      destruct (HF x w t h (or_introl eq_refl) Hh Hk Hnone) as (q & HQ & E).
      assert (El : pput (t_phrases t) (key x) (length (w_heap w)) = t_phrases t ++ [(key x, length (w_heap w))]).
      { unfold pput. apply (mput_last _ _ Z.eqb_eq Zltb_trans Z.ltb_irrefl); auto. intros y Hy. apply Hlt; simpl; auto. }
      rewrite El in E.
      set (w1 := mkWorld (w_heap w ++ [set_events [(k, k)] q]) (upd (w_sets w) k (Some (with_phrases (t_phrases t ++ [(key x, length (w_heap w))]) t)))) in *.
      pose proof (set_at_lt _ _ _ Hk) as L.
      assert (Hk1 : set_at w1 k = Some (with_phrases (t_phrases t ++ [(key x, length (w_heap w))]) t)).
      { unfold set_at, w1. cbn [w_sets]. rewrite nth_error_upd_eq by auto. reflexivity. }
      destruct (IH HS ltac:(intros; eapply HF; simpl; eauto) w1 (with_phrases (t_phrases t ++ [(key x, length (w_heap w))]) t)
        (h ++ [set_events [(k, k)] q])) as (qs & HQs & Es).
      + unfold w1. cbn [w_heap]. rewrite Hh, app_assoc. reflexivity.
      + exact Hk1.
      + cbn [with_phrases t_phrases]. rewrite <- El. apply pput_sorted. auto.
      + cbn [with_phrases t_phrases]. intros a y Ha Hy. rewrite map_app in Ha. apply in_app_iff in Ha. destruct Ha as [Ha|[<-|[]]].
        * apply Hlt; simpl; auto.
        * apply HA. auto.
      + exists (q :: qs). split; [constructor; auto|]. cbn [sforeach]. unfold sbind. rewrite E. rewrite Es.
        unfold w1. cbn [w_heap w_sets with_phrases t_phrases map combine seq length]. rewrite app_length. cbn [length].
        rewrite <- !app_assoc. cbn [app]. rewrite Nat.add_1_r. f_equal. f_equal.
        assert (Eu : forall (X : Type) (v : list X) i a b, upd (upd v i a) i b = upd v i b).
        { clear. intros X v. induction v as [|z v IHv]; intros i a b; destruct i; simpl; auto. f_equal. apply IHv. }
        rewrite Eu. reflexivity.
  Qed.

  Lemma ksorted_map : forall (m : list (Z * nat)), ksorted Z.ltb m -> StronglySorted (fun x y => Z.ltb (fst x) (fst y) = true) m.
  Proof.
    unfold ksorted. induction m as [|e m IH]; cbn [map]; intro H; [constructor|].
    apply StronglySorted_inv in H. destruct H as (H1 & H2). constructor; auto.
    rewrite Forall_forall in *. intros x Hx. apply H2. apply in_map. auto.
  Qed.
  Lemma upd_upd : forall (X : Type) (v : list X) i a b, upd (upd v i a) i b = upd v i b.
  Proof. intros X v. induction v as [|z v IHv]; intros i a b; destruct i; simpl; auto. f_equal. apply IHv. Qed.

  Lemma upd_last : forall (X : Type) (v : list X) a b, upd (v ++ [a]) (length v) b = v ++ [b].
  Proof. intros X v a b. induction v; simpl; auto. f_equal; auto. Qed.

  (** Registering a new phrase. *)
  Lemma register_eq : forall k i (q : phrase) (w : world) t, set_at w k = Some t -> p_events q = [] ->
    pget (t_phrases t) i = None ->
    (do* id := new_phrase q in
     do* _ := mod_set k (fun t => with_phrases (minsert Z.eqb Z.ltb (t_phrases t) i id) t) in
     add_listener k id) w =
    (mkWorld (w_heap w ++ [set_events [(k, k)] q])
       (upd (w_sets w) k (Some (with_phrases (pput (t_phrases t) i (length (w_heap w))) t))), Ok tt).
  Proof.
    intros k i q w t Hk He Hn. unfold sbind at 1. rewrite new_phrase_eq.
    set (w1 := mkWorld (w_heap w ++ [q]) (w_sets w)).
    assert (Hk1 : set_at w1 k = Some t) by exact Hk.
    unfold sbind. rewrite (mod_set_eq _ _ _ _ Hk1).
    unfold add_listener. erewrite on_phrase_eq.
    2: { unfold wput, w1. cbn [w_heap]. rewrite nth_error_app2 by lia. rewrite Nat.sub_diag. reflexivity. }
    2: reflexivity.
    unfold wput, w1. cbn [w_heap w_sets]. rewrite upd_last. rewrite He. cbn [ev_add].
    unfold minsert, pput. unfold pget in Hn. rewrite Hn. reflexivity.
  Qed.

  Lemma phrase_copy_loaded : forall (q : phrase) s k', rep q (complete s) -> p_max q = spec_size s -> p_ilen q = p_max q -> p_olen q = p_max q ->
    exists q', phrase_copy (set_events k' q) = Ok q' /\ p_events q' = [] /\ p_label q' = p_label q /\ p_cols q' = p_cols q /\
      forall ev, shows (set_events ev q') (complete s).
  Proof.
    intros q s k' R Hm Hi Ho. unfold phrase_copy.
    change (p_own (set_events k' q)) with (p_own q). change (copy_blocks (set_events k' q)) with (copy_blocks q).
    rewrite (proj1 R). destruct (Nat.eq_dec (p_max q) 0) as [Z|Z].
    - unfold copy_blocks. rewrite Z. cbn [Nat.ltb Nat.leb bind]. eexists. split; [reflexivity|].
      do 3 (split; [reflexivity|]). intro ev.
      assert (N : spec_size s = 0) by lia.
      pose proof (shows_nothing q (complete s) Wild Wild ev R) as HS.
      change (p_max (set_events k' q)) with (p_max q). rewrite Z. apply HS; try lia.
      + unfold complete. cbn [s_in]. rewrite N. reflexivity.
      + unfold complete. cbn [s_out]. rewrite N. reflexivity.
    - destruct (copy_blocks_rep q (complete s) R) as (b0 & b1 & E & Rq); [lia|]. rewrite E. cbn [bind].
      eexists. split; [reflexivity|]. do 3 (split; [reflexivity|]).
      intro ev. apply rep_shows. exact (Rq ev).
  Qed.

  Lemma assoc_combine : forall (Q : Z * nat -> phrase -> Prop) m qs n (h1 h2 : list phrase) i,
    Forall2 Q m qs -> length h1 = n ->
    match pget m i with
    | None => pget (combine (map fst m) (seq n (length m))) i = None
    | Some id => exists id' q, pget (combine (map fst m) (seq n (length m))) i = Some id' /\
                   nth_error (h1 ++ qs ++ h2) id' = Some q /\ Q (i, id) q
    end.
  Proof.
    intros Q m qs n h1 h2 i H. revert n h1. induction H as [|[a b] q m qs HQ HF IH]; intros n h1 Hn.
    - reflexivity.
    - cbn [map length seq combine]. unfold pget in *. cbn [mget fst]. destruct (Z.eqb_spec i a) as [->|N].
      + exists n, q. split; auto. split; auto. rewrite nth_error_app2 by lia. rewrite Hn, Nat.sub_diag. reflexivity.
      + specialize (IH (S n) (h1 ++ [q])). rewrite <- app_assoc in IH. cbn [app] in IH. cbn [app].
        apply IH. rewrite app_length. simpl. lia.
  Qed.

  Lemma combine_keys : forall (l : list Z) n, map fst (combine l (seq n (length l))) = l.
  Proof. induction l; intros n; simpl; f_equal; auto. Qed.

  Lemma combine_bound : forall (l : list Z) n i id, In (i, id) (combine l (seq n (length l))) -> n <= id < n + length l.
  Proof. intros l n i id H. apply in_combine_r in H. apply in_seq in H. auto. Qed.

  Lemma Forall2_length : forall {X Y} (P : X -> Y -> Prop) l l', Forall2 P l l' -> length l = length l'.
  Proof. induction 1; simpl; auto. Qed.

  Lemma Forall2_map_r : forall {X Y Z} (f : Y -> Z) (P : X -> Y -> Prop) (P' : X -> Z -> Prop) l l',
    Forall2 P l l' -> (forall x y, In x l -> P x y -> P' x (f y)) -> Forall2 P' l (map f l').
  Proof.
    intros X Y Z f P P' l l' H. induction H; intros HI; simpl; constructor.
    - apply HI; simpl; auto.
    - apply IHForall2. intros; apply HI; simpl; auto.
  Qed.

  Definition restored (cv : conv A) (w : world) (e : Z * nat) (q : phrase) : Prop :=
    exists p s, nth_error (w_heap w) (snd e) = Some p /\ storable_phrase cv p s /\
      shows q (complete s) /\ p_label q = p_label p /\ p_cols q = vresize (s_dim s) EmptyString (p_cols p).

  (** Building the set from what [toJson] wrote. *)
  Lemma ofJson_effect : forall (cv : conv A) (w : world) t, in_range t -> (Z.of_nat (t_dim t) < 2 ^ 31)%Z ->
    length (t_cols t) = t_dim t -> ksorted Z.ltb (t_phrases t) ->
    (forall e, In e (t_phrases t) -> (- 2 ^ 31 <= fst e < 2 ^ 31)%Z /\
       exists p s, nth_error (w_heap w) (snd e) = Some p /\ storable_phrase cv p s) ->
    exists j w1 t1 qs, ts_toJson w t = Ok j /\ tset_ofJson cv j w = (w1, Ok tt) /\
      length (w_sets w1) = S (length (w_sets w)) /\
      (forall i, i < length (w_sets w) -> set_at w1 i = set_at w i) /\
      set_at w1 (length (w_sets w)) = Some t1 /\
      t_own t1 = true /\ t_bim t1 = t_bim t /\ t_dim t1 = t_dim t /\ t_din t1 = t_din t /\ t_cols t1 = t_cols t /\
      Forall2 (loads cv w) (t_phrases t) qs /\
      w_heap w1 = w_heap w ++ map (set_events [(length (w_sets w), length (w_sets w))]) qs /\
      t_phrases t1 = combine (map fst (t_phrases t)) (seq (length (w_heap w)) (length (t_phrases t))).
  Proof.
    intros cv w t R Hd Hc Hso HP.
    destruct (mapM_Forall2 (fun e => let* p := rd (w_heap w) (snd e) in let* j := phrase_toJson p in add_index (fst e) j)
      (fun e j => jmember j "index" = Ok (JInt (fst e)) /\ (- 2 ^ 31 <= fst e < 2 ^ 31)%Z /\ exists q, phrase_ofJson cv j = Ok q /\ loads cv w e q) (t_phrases t)) as (js & Ej & Fj).
    { intros e He. destruct (HP e He) as (Hi & p & s & Hp & HS). destruct (phrase_loads cv w e p s Hp HS) as (j & q & E1 & E2 & E3 & E4).
      exists j. split; auto. split; auto. split; auto. exists q. auto. }
    assert (Hnames : tabM (t_dim t) (fun i => if i <? length (t_cols t) then rd (t_cols t) i else Throw OutOfRange) = Ok (t_cols t)).
    { rewrite (tabM_ok _ _ (fun i => nth i (t_cols t) EmptyString)).
      - f_equal. rewrite <- Hc. apply tab_nth_self.
      - intros i Hi. rewrite Hc. rewrite (proj2 (Nat.ltb_lt _ _)) by lia. apply rd_ok. lia. }
    set (k := length (w_sets w)).
    set (j := JObj [("bimodal", JBool (t_bim t)); ("dimension", JInt (Z.of_nat (t_dim t)));
              ("dimension_input", JInt (Z.of_nat (t_din t))); ("column_names", JArr (map JStr (t_cols t)));
              ("phrases", JArr js)]%string).
    exists j.
    set (t1 := mkTset true (t_bim t) (t_dim t) (t_din t) (t_dim t - 1) (t_cols t) [] [] []).
    set (w0 := mkWorld (w_heap w) (w_sets w ++ [Some t1])).
    assert (Hk0 : set_at w0 k = Some t1).
    { unfold set_at, w0, k. cbn [w_sets]. rewrite nth_error_app2 by lia. rewrite Nat.sub_diag. reflexivity. }
    (* the loop over the phrases *)
    pose (Q := fun (x : (Z * nat) * json A) q => loads cv w (fst x) q).
    pose (body := fun j : json A =>
      do* i := slift (jmember j "index") in
      do* i := slift (as_int cv i) in
      do* p := slift (phrase_ofJson cv j) in
      do* id := new_phrase p in
      do* _ := mod_set k (fun t => with_phrases (minsert Z.eqb Z.ltb (t_phrases t) i id) t) in
      do* t := get_set k in
      match pget (t_phrases t) i with
      | Some id => add_listener k id
      | None => sub (A:=unit)
      end).
    assert (Hloop : exists qs, Forall2 Q (combine (t_phrases t) js) qs /\
      sforeach (combine (t_phrases t) js) (fun x => body (snd x)) w0 =
        (mkWorld (w_heap w0 ++ map (set_events [(k, k)]) qs)
          (upd (w_sets w0) k (Some (with_phrases (t_phrases t1 ++ combine (map (fun x => fst (fst x)) (combine (t_phrases t) js)) (seq (length (w_heap w0)) (length (combine (t_phrases t) js)))) t1))), Ok tt)).
    { apply (append_loop k (fun x => fst (fst x)) Q (fun x => body (snd x)) (w_heap w) (combine (t_phrases t) js)) with (h := []).
      - clear - Hso Fj. apply ksorted_map in Hso. induction Fj; [constructor|]. apply StronglySorted_inv in Hso. destruct Hso as (H1 & H2).
        cbn [combine]. constructor; auto. rewrite Forall_forall in *. intros [e j'] Hx. cbn [fst]. apply in_combine_l in Hx. apply H2. auto.
      - intros [e j'] v u h Hx Hh Hk Hn. cbn [fst snd] in *.
        assert (Hx' : jmember j' "index" = Ok (JInt (fst e)) /\ (- 2 ^ 31 <= fst e < 2 ^ 31)%Z /\ exists q, phrase_ofJson cv j' = Ok q /\ loads cv w e q).
        { clear - Fj Hx. induction Fj; cbn [combine] in Hx; [contradiction|]. destruct Hx as [Hx|Hx]; [inversion Hx; subst; auto|auto]. }
        destruct Hx' as (Hi & Hr & q & Eq & HL). exists q. split; [exact HL|].
        pose proof HL as (p & s & _ & _ & _ & _ & _ & _ & _ & _ & Hev).
        unfold body. unfold sbind at 1, slift at 1. rewrite Hi. unfold sbind at 1, slift at 1.
        assert (Ei : as_int cv (JInt (fst e)) = Ok (fst e)).
        { unfold as_int. rewrite (proj2 (Z.leb_le _ _)) by lia. rewrite (proj2 (Z.ltb_lt _ _)) by lia. reflexivity. }
        rewrite Ei. unfold sbind at 1, slift at 1. rewrite Eq.
        pose proof (register_eq k (fst e) q v u Hk Hev Hn) as Reg. rewrite <- Reg. clear Reg.
        unfold sbind at 1. rewrite new_phrase_eq.
        set (v1 := mkWorld (w_heap v ++ [q]) (w_sets v)). assert (Hk1 : set_at v1 k = Some u) by exact Hk.
        unfold sbind. rewrite new_phrase_eq. fold v1. rewrite (mod_set_eq _ _ _ _ Hk1). cbv beta.
        erewrite (get_set_eq (wput v1 k _)); [|rewrite set_at_wput by (eapply set_at_lt; exact Hk1); rewrite Nat.eqb_refl; reflexivity].
        cbn [with_phrases t_phrases]. unfold pget at 1. rewrite (mget_minsert _ _ Z.eqb_eq).
        unfold pget in Hn. rewrite Z.eqb_refl, Hn. reflexivity.
      - cbn [w0 w_heap]. rewrite app_nil_r. reflexivity.
      - exact Hk0.
      - constructor.
      - intros x y []. }
    destruct Hloop as (qs & FQ & Eloop).
    assert (Hlen : length (t_phrases t) = length js) by (eapply Forall2_length; eauto).
    assert (E1 : map (fun x : (Z * nat) * json A => fst (fst x)) (combine (t_phrases t) js) = map fst (t_phrases t)).
    { rewrite <- map_map. f_equal. clear - Hlen. revert js Hlen. induction (t_phrases t); intros [|y js] H; simpl in *; try discriminate; auto. f_equal. auto. }
    assert (E2 : length (combine (t_phrases t) js) = length (t_phrases t)) by (rewrite combine_length; lia).
    rewrite E1, E2 in Eloop. cbn [t1 t_phrases app w0 w_heap] in Eloop.
    assert (FL : Forall2 (loads cv w) (t_phrases t) qs).
    { clear - FQ Hlen. revert js Hlen FQ. revert qs. induction (t_phrases t); intros qs [|y js] H F; simpl in *; try discriminate; inversion F; subst; constructor; eauto. }
    assert (Ebody : sforeach js body w0 = sforeach (combine (t_phrases t) js) (fun x => body (snd x)) w0).
    { clear - Hlen. generalize w0. revert js Hlen. induction (t_phrases t); intros [|y js] H w1; simpl in *; try discriminate; auto.
      unfold sbind. destruct (body y w1) as [w2 [u|e|]]; auto. }
    rewrite Eloop in Ebody. fold w0 in Ebody.
    set (m' := combine (map fst (t_phrases t)) (seq (length (w_heap w)) (length (t_phrases t)))) in *.
    set (w2 := mkWorld (w_heap w ++ map (set_events [(k, k)]) qs) (upd (w_sets w0) k (Some (with_phrases m' t1)))) in *.
    assert (L0 : k < length (w_sets w0)) by (eapply set_at_lt; eauto).
    assert (Hk2 : set_at w2 k = Some (with_phrases m' t1)).
    { unfold set_at, w2. cbn [w_sets]. rewrite nth_error_upd_eq by auto. reflexivity. }
    assert (V2 : valid (w_heap w2) (t_phrases (with_phrases m' t1))).
    { intros i id Hi. cbn [with_phrases t_phrases] in Hi. unfold m' in Hi.
      rewrite <- (map_length fst (t_phrases t)) in Hi. apply combine_bound in Hi. rewrite map_length in Hi.
      unfold w2. cbn [w_heap]. rewrite app_length, map_length. rewrite <- (Forall2_length _ _ _ FL). lia. }
    assert (R2 : in_range (with_phrases m' t1)) by exact R.
    destruct (update_range w2 k _ Hk2 V2 R2) as (w3 & Eu).
    destruct (update_post _ _ _ _ Hk2 V2 Eu) as (Q1 & (t3 & Q2 & Q3 & (P1 & P2 & P3 & P4 & P5)) & Q5 & Q6).
    exists w3, t3, qs. split; [|split].
    - unfold ts_toJson. rewrite Hnames. cbn [bind]. rewrite Ej. reflexivity.
    - unfold tset_ofJson, j. cbn [jget jmember lookup String.eqb Ascii.eqb Bool.eqb].
      unfold sbind at 1, slift at 1. unfold sbind at 1, slift at 1. cbn [as_bool].
      unfold sbind at 1, slift at 1. unfold sbind at 1, slift at 1. rewrite (as_int_small cv _ Hd). rewrite (to_unsigned_small _ Hd).
      destruct R as (Ra & Rb & Rc).
      assert (Ck1 : checkLimits Nat.ltb (t_dim t) (t_dim_min (t_bim t)) (Nat.max (t_dim t) (t_dim_min (t_bim t))) = Ok tt).
      { unfold checkLimits, t_dim_min. rewrite (proj2 (Nat.ltb_ge _ _)) by lia. rewrite (proj2 (Nat.ltb_ge _ _)) by lia. reflexivity. }
      unfold sbind at 1, slift at 1. rewrite Ck1.
      assert (Hdi : (Z.of_nat (t_din t) < 2 ^ 31)%Z) by lia.
      unfold sbind at 1, slift at 1. unfold sbind at 1, slift at 1. rewrite (as_int_small cv _ Hdi). rewrite (to_unsigned_small _ Hdi).
      assert (Ck2 : checkLimits Nat.ltb (t_din t) (t_din_min (t_bim t)) (t_dim t - 1) = Ok tt).
      { unfold checkLimits, t_din_min. rewrite (proj2 (Nat.ltb_ge _ _)) by lia. rewrite (proj2 (Nat.ltb_ge _ _)) by lia. reflexivity. }
      unfold sbind at 1, slift at 1. rewrite Ck2.
      unfold sbind at 1, slift at 1. unfold sbind at 1, slift at 1. cbn [jsize]. rewrite map_length.
      rewrite cols_loop by lia.
      assert (Ev : vresize (t_dim t) EmptyString (t_cols t) = t_cols t).
      { unfold vresize. rewrite <- Hc. rewrite firstn_all, Nat.sub_diag. apply app_nil_r. }
      rewrite Ev. unfold sbind at 1, sget at 1. unfold sbind at 1, sput at 1. fold k. fold t1. fold w0.
      unfold sbind at 1, slift at 1. cbn [elements]. unfold sbind at 1. fold body. rewrite Ebody. exact Eu.
    - assert (Hl3 : length (w_sets w3) = S (length (w_sets w))).
      { rewrite (update_eq _ _ _ Hk2 V2) in Eu. inversion Eu. cbn [wput w_sets w2 w0]. rewrite !upd_length, app_length. simpl. lia. }
      split; [exact Hl3|]. split.
      { intros i Hi. rewrite Q5 by (unfold k; lia). unfold set_at, w2, w0. cbn [w_sets].
        rewrite nth_error_upd_neq by (unfold k; lia). rewrite nth_error_app1 by auto. reflexivity. }
      split; [exact Q2|]. repeat split; auto.
  Qed.
End Json.
