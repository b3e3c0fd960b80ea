(** Proofs about training sets: the invariant of every history. *)
From Coq Require Import String List Bool Arith Lia ZArith.
From Verif Require Import Base BaseFacts Arith Model_Map Model_Attribute Model_Events Model_Json Model_Phrase
  Model_TrainingSet Spec_Phrase Spec_TrainingSet.
From Verif Require Import Proofs_Map Proofs_Phrase Proofs_Phrase2 Proofs_TrainingSet.
Import ListNotations.
Local Open Scope nat_scope.

Section Histories.
  Context {A : arith}.
  Local Notation phrase := (phrase (A:=A)).
  Local Notation world := (world A).

  (** The heap has grown, phrases keep label and listeners. *)
  Definition hext (h h' : list phrase) : Prop :=
    forall id p, nth_error h id = Some p -> exists p', nth_error h' id = Some p' /\ p_label p' = p_label p /\
      incl (p_events p) (p_events p').

  Lemma hext_refl : forall h, hext h h.
  Proof. intros h id p H. exists p. split; auto. split; auto. apply incl_refl. Qed.
  Lemma hext_trans : forall a b c, hext a b -> hext b c -> hext a c.
  Proof.
    intros a b c H1 H2 id p H. destruct (H1 _ _ H) as (q & Hq & E & I). destruct (H2 _ _ Hq) as (r & Hr & E' & I').
    exists r. split; auto. split; [congruence|]. eapply incl_tran; eauto.
  Qed.
  Lemma hext_app : forall h p, hext h (h ++ [p]).
  Proof.
    intros h p id q H. exists q. split; [|split; [auto|apply incl_refl]].
    rewrite nth_error_app1; auto. apply nth_error_Some. congruence.
  Qed.
  Lemma hext_upd : forall h id p p', nth_error h id = Some p -> p_label p' = p_label p ->
    incl (p_events p) (p_events p') -> hext h (upd h id p').
  Proof.
    intros h id p p' H El Ei j q Hj. destruct (Nat.eq_dec j id) as [->|N].
    - rewrite nth_error_upd_eq by (apply nth_error_Some; congruence). exists p'. split; auto.
      assert (q = p) by congruence. subst. auto.
    - rewrite nth_error_upd_neq by auto. exists q. split; auto. split; auto. apply incl_refl.
  Qed.

  Lemma has_label_hext : forall (w w' : world) l id, hext (w_heap w) (w_heap w') -> id < length (w_heap w) ->
    (has_label w' l id <-> has_label w l id).
  Proof.
    intros w w' l id H L. destruct (nth_error (w_heap w) id) as [p|] eqn:E.
    2: { apply nth_error_None in E. lia. }
    destruct (H _ _ E) as (q & Hq & El & _). unfold has_label. rewrite E, Hq. split; intros (r & Hr & Er);
      inversion Hr; subst; eexists; split; eauto.
  Qed.

  (** [mirrors] only looks at the labels of the set's phrases. *)
  Lemma mirrors_ext : forall (w w' : world) t t',
    mirrors w t ->
    t_labels t' = t_labels t -> (forall i, getPhrase t' i = getPhrase t i) ->
    (forall l, option_map u_phrases (getPhrasesOfClass t' l) = option_map u_phrases (getPhrasesOfClass t l)) ->
    (forall i id l, getPhrase t i = Some id -> (has_label w' l id <-> has_label w l id)) ->
    mirrors w' t'.
  Proof.
    intros w w' t t' (M1 & M2 & M3) El Ep Es Eh. split; [|split].
    - intro l. rewrite El, M1. split; intros (i & id & H1 & H2); exists i, id.
      + rewrite Ep. split; auto. eapply Eh; eauto.
      + rewrite Ep in H1. split; auto. apply (Eh i id l); auto.
    - rewrite El. auto.
    - intro l. specialize (M3 l). specialize (Es l).
      destruct (getPhrasesOfClass t' l) as [u'|]; destruct (getPhrasesOfClass t l) as [u|]; simpl in Es; try discriminate.
      + injection Es as Es. rewrite El, Es. destruct M3 as (M3 & M4). split; auto.
        intros i id. rewrite M4, Ep. split; intros (H1 & H2); split; auto; eapply Eh; eauto.
      + intros i id H1 H2. rewrite Ep in H1. eapply M3; eauto. eapply Eh; eauto.
  Qed.

  Lemma shape_hext : forall (w w' : world) k t, shape w k t -> hext (w_heap w) (w_heap w') -> shape w' k t.
  Proof.
    intros w w' k t (S1 & S2 & S3) H. split; auto. split; auto. intros i id Hi.
    destruct (S3 _ _ Hi) as (p & Hp & Hl). destruct (H _ _ Hp) as (q & Hq & _ & I). eauto.
  Qed.

  Lemma invX_heap : forall X (w w' : world), invX X w -> w_sets w' = w_sets w -> hext (w_heap w) (w_heap w') ->
    evok (w_heap w') -> invX X w'.
  Proof.
    intros X w w' (E & H) Hs Hh Ev. split; auto. intros k t Hk.
    assert (Hk' : set_at w k = Some t) by (unfold set_at in *; rewrite Hs in Hk; auto).
    destruct (H _ _ Hk') as (S & M). split; [eapply shape_hext; eauto|]. intro N. specialize (M N).
    eapply mirrors_ext; eauto. intros i id l Hi. apply has_label_hext; auto.
    eapply shape_valid; eauto. apply getPhrase_in; [apply S|]. eauto.
  Qed.

  Lemma invX_mono : forall (X Y : nat -> Prop) (w : world), (forall k, X k -> Y k) -> invX X w -> invX Y w.
  Proof. intros X Y w H (E & I). split; auto. intros k t Hk. destruct (I _ _ Hk). split; auto. Qed.

  (** Calls on phrases. *)
  Lemma on_phrase_inv : forall (w w' : world) id m out, on_phrase id m w = (w', out) -> out <> UB ->
    exists p p', nth_error (w_heap w) id = Some p /\ m p = (p', out) /\
      w' = mkWorld (upd (w_heap w) id p') (w_sets w).
  Proof.
    intros w w' id m out H Hu. unfold on_phrase, get_phrase, put_phrase, sbind, sget, slift, sput, rd in H.
    destruct (nth_error (w_heap w) id) as [p|] eqn:E; [|inversion H; congruence].
    destruct (m p) as [p' o] eqn:Em. rewrite wr_ok in H by (apply nth_error_Some; congruence).
    inversion H; subst. eauto.
  Qed.
  Lemma on_phrase_eq : forall (w : world) id m p p' out, nth_error (w_heap w) id = Some p -> m p = (p', out) ->
    on_phrase id m w = (mkWorld (upd (w_heap w) id p') (w_sets w), out).
  Proof.
    intros w id m p p' out E Em. unfold on_phrase, get_phrase, put_phrase, sbind, sget, slift, sput, rd.
    rewrite E, Em. rewrite wr_ok by (apply nth_error_Some; congruence). reflexivity.
  Qed.

  (** A phrase call that keeps label and listeners. *)
  Definition tame (m : stm phrase unit) : Prop :=
    forall p p' out, m p = (p', out) -> p_label p' = p_label p /\ p_events p' = p_events p.

  Lemma tame_bind : forall {X} (m : stm phrase X) (f : X -> stm phrase unit),
    (forall p p' out, m p = (p', out) -> p_label p' = p_label p /\ p_events p' = p_events p) ->
    (forall x, tame (f x)) -> tame (sbind m f).
  Proof.
    intros X m f Hm Hf p p' out H. unfold sbind in H. destruct (m p) as [p1 [x|e|]] eqn:E.
    - destruct (Hm _ _ _ E) as (E1 & E2). destruct (Hf _ _ _ _ H) as (E3 & E4). split; congruence.
    - inversion H; subst. eauto.
    - inversion H; subst. eauto.
  Qed.
  Lemma tame_smod : forall f : phrase -> phrase, (forall p, p_label (f p) = p_label p /\ p_events (f p) = p_events p) -> tame (smod f).
  Proof. intros f H p p' out E. inversion E; subst. auto. Qed.
  Lemma tame_swhen : forall b m, tame m -> tame (swhen b m).
  Proof. intros [] m H; simpl; auto. intros p p' out E. inversion E; subst. auto. Qed.
  Lemma tame_throw : forall e, tame (sthrow e).
  Proof. intros e p p' out E. inversion E; subst. auto. Qed.
  Lemma tame_lift : forall r, tame (slift r).
  Proof. intros e p p' out E. inversion E; subst. auto. Qed.
  Lemma tame_ret : tame (sret tt).
  Proof. intros p p' out E. inversion E; subst. auto. Qed.

  Ltac tame_tac :=
    repeat first
      [ apply tame_throw | apply tame_ret | apply tame_lift
      | apply tame_smod; intros; split; reflexivity
      | apply tame_swhen
      | match goal with
        | |- tame (if ?b then _ else _) => destruct b
        | |- tame (sbind ?m _) => apply tame_bind; [|intros]
        | |- forall p p' out, slift _ p = _ -> _ => intros ? ? ? E; inversion E; subst; split; reflexivity
        | |- forall p p' out, sget p = _ -> _ => intros ? ? ? E; inversion E; subst; split; reflexivity
        | |- forall p p' out, smod _ p = _ -> _ => intros ? ? ? E; inversion E; subst; split; reflexivity
        | |- forall p p' out, ?m p = _ -> p_label p' = p_label p /\ p_events p' = p_events p => change (tame m)
        end ].

  Lemma tame_reallocate : tame reallocateLength.
  Proof. unfold reallocateLength. tame_tac. Qed.
  Lemma tame_dim_change : forall b b', tame (on_dim_change b b').
  Proof. intros. unfold on_dim_change. tame_tac. Qed.

  Lemma tame_step : forall b o, tame (phrase_step b o).
  Proof.
    intros b o. destruct o; simpl; unfold record, record_input, record_output, clear, clearInput, clearOutput,
      set_dimension, set_dimension_input, trim; tame_tac; try apply tame_reallocate; try apply tame_dim_change.
  Qed.

  Lemma evok_upd : forall h id p p', evok h -> nth_error h id = Some p -> (forall o c, In (o, c) (p_events p') -> c = o) ->
    evok (A:=A) (upd h id p').
  Proof.
    intros h id p p' E H He j q o c Hj Hi. destruct (Nat.eq_dec j id) as [->|N].
    - rewrite nth_error_upd_eq in Hj by (apply nth_error_Some; congruence). inversion Hj; subst. eauto.
    - rewrite nth_error_upd_neq in Hj by auto. eapply E; eauto.
  Qed.
  Lemma evok_app : forall h p, evok h -> (forall o c, In (o, c) (p_events p) -> c = o) -> evok (A:=A) (h ++ [p]).
  Proof.
    intros h p E He j q o c Hj Hi. destruct (Nat.lt_ge_cases j (length h)).
    - rewrite nth_error_app1 in Hj by auto. eapply E; eauto.
    - rewrite nth_error_app2 in Hj by auto. destruct (j - length h) as [|n]; simpl in Hj.
      + inversion Hj; subst. auto.
      + destruct n; discriminate.
  Qed.

  Lemma tame_keeps : forall X id m, tame m -> keeps (invX X) (on_phrase id m).
  Proof.
    intros X id m T w w' out I H Hu. destruct (on_phrase_inv _ _ _ _ _ H Hu) as (p & p' & Hp & Hm & ->).
    destruct (T _ _ _ Hm) as (E1 & E2). eapply invX_heap; eauto; simpl.
    - eapply hext_upd; eauto. rewrite E2. apply incl_refl.
    - eapply evok_upd; eauto. { apply I. } rewrite E2. intros. eapply (proj1 I); eauto.
  Qed.

  (** Listeners. *)
  Lemma ev_add_incl : forall (m : listeners nat) k c, incl m (ev_add m k c).
  Proof.
    induction m as [|[o d] m IH]; intros k c x H; simpl.
    - contradiction.
    - destruct (k <? o); [simpl; auto|]. destruct (k =? o); auto. destruct H as [->|H]; simpl; auto.
      right. apply IH. auto.
  Qed.
  Lemma ev_add_in : forall (m : listeners nat) k c x, In x (ev_add m k c) -> x = (k, c) \/ In x m.
  Proof.
    induction m as [|[o d] m IH]; intros k c x H; simpl in *.
    - intuition.
    - destruct (k <? o); simpl in H; [intuition|]. destruct (k =? o); simpl in H; auto.
      destruct H as [->|H]; auto. apply IH in H. intuition.
  Qed.
  Lemma ev_add_has : forall (m : listeners nat) k, (forall o c, In (o, c) m -> c = o) -> In (k, k) (ev_add m k k).
  Proof.
    induction m as [|[o d] m IH]; intros k H; simpl.
    - auto.
    - destruct (k <? o); [simpl; auto|]. destruct (Nat.eqb_spec k o) as [->|N].
      + left. f_equal. apply H. simpl. auto.
      + right. apply IH. intros. apply H. simpl. auto.
  Qed.

  Lemma add_listener_inv : forall (w w' : world) k id out, add_listener k id w = (w', out) -> out <> UB ->
    evok (w_heap w) ->
    out = Ok tt /\ w_sets w' = w_sets w /\ hext (w_heap w) (w_heap w') /\ evok (w_heap w') /\
    (exists p', nth_error (w_heap w') id = Some p' /\ In (k, k) (p_events p')) /\
    length (w_heap w') = length (w_heap w).
  Proof.
    intros w w' k id out H Hu Ev. unfold add_listener in H.
    destruct (on_phrase_inv _ _ _ _ _ H Hu) as (p & p' & Hp & Hm & ->). inversion Hm; subst. simpl.
    assert (He : forall o c, In (o, c) (p_events p) -> c = o) by (intros; eapply Ev; eauto).
    split; auto. split; auto. split; [|split; [|split]].
    - eapply hext_upd; eauto. apply ev_add_incl.
    - eapply evok_upd; eauto. intros o c Hc. simpl in Hc. apply ev_add_in in Hc. destruct Hc as [Hc|Hc]; auto.
      inversion Hc; auto.
    - eexists. split; [apply nth_error_upd_eq; apply nth_error_Some; congruence|]. simpl. apply ev_add_has; auto.
    - apply upd_length.
  Qed.

  (** Changing a set. *)
  Lemma invX_put : forall (X : nat -> Prop) (w : world) k t t', invX X w -> set_at w k = Some t ->
    shape w k t' -> (~ X k -> mirrors w t') -> invX X (wput w k t').
  Proof.
    intros X w k t t' (E & I) Hk S M. split; auto. intros j u Hj.
    rewrite set_at_wput in Hj by (eapply set_at_lt; eauto).
    destruct (Nat.eqb_spec j k) as [->|N].
    - inversion Hj; subst. split; auto.
    - destruct (I _ _ Hj). split; auto.
  Qed.

  Lemma updated_core : forall h t, t_phrases (fst (updated (A:=A) h t)) = t_phrases t /\
    ksorted String.ltb (t_subs (fst (updated h t))) /\ (snd (updated h t) = Ok tt \/ snd (updated h t) = Throw DomainError).
  Proof.
    intros h t. unfold updated.
    pose proof (build_sorted (check_of t) (sub0 t) (sub1 h t) (labels_of h (t_phrases t)) [] (Sorted.SSorted_nil _)) as S.
    assert (O : snd (build (check_of t) (sub0 t) (sub1 h t) (labels_of h (t_phrases t)) []) = Ok tt \/
                snd (build (check_of t) (sub0 t) (sub1 h t) (labels_of h (t_phrases t)) []) = Throw DomainError).
    { destruct (check_cases t) as [->| ->].
      - rewrite build_ok. auto.
      - destruct (labels_of _ _); simpl; auto. }
    destruct (build _ _ _ _ _) as [s o]. simpl in *. auto.
  Qed.

  Lemma update_inv : forall (X : nat -> Prop) (w w' : world) k out, invX X w -> update k w = (w', out) -> out = Ok tt ->
    invX (fun j => X j /\ j <> k) w'.
  Proof.
    intros X w w' k out I H ->. destruct (set_at w k) as [t|] eqn:Hk.
    2: { rewrite update_no_set in H by auto. inversion H. }
    destruct (proj2 I _ _ Hk) as (S & _).
    rewrite (update_eq _ _ _ Hk (shape_valid _ _ _ S)) in H. inversion H as [[Hw Ho]].
    destruct (updated_core (w_heap w) t) as (U1 & U2 & _).
    split; [apply I|]. intros j u Hj. simpl in Hj.
    rewrite set_at_wput in Hj by (eapply set_at_lt; eauto).
    destruct (Nat.eqb_spec j k) as [->|N].
    - inversion Hj; subst u. split.
      + split; [rewrite U1; apply S|]. split; [auto|]. rewrite U1. apply S.
      + intros _. apply (updated_mirrors w (wput w k (fst (updated (w_heap w) t))) k t); auto.
    - destruct (proj2 I _ _ Hj) as (S' & M'). split; auto.
  Qed.

  Lemma update_inv_only : forall (w w' : world) k out, invX (eq k) w -> update k w = (w', out) -> out = Ok tt -> inv w'.
  Proof.
    intros w w' k out I H E. eapply invX_mono; [|eapply update_inv; eauto]. simpl. intros j (-> & N). congruence.
  Qed.

  (** Adding a phrase. *)
  Lemma invX_add : forall (X : nat -> Prop) (w : world) k t m h', invX X w -> set_at w k = Some t -> X k ->
    hext (w_heap w) h' -> evok h' -> ksorted Z.ltb m ->
    (forall i id, In (i, id) m -> In (i, id) (t_phrases t) \/ exists p, nth_error h' id = Some p /\ In (k, k) (p_events p)) ->
    invX X (mkWorld h' (upd (w_sets w) k (Some (with_phrases m t)))).
  Proof.
    intros X w k t m h' I Hk Xk Hh Ev Sm Hm.
    assert (I' : invX X (mkWorld h' (w_sets w))) by (eapply invX_heap; eauto).
    change (mkWorld h' (upd (w_sets w) k (Some (with_phrases m t)))) with (wput (mkWorld h' (w_sets w)) k (with_phrases m t)).
    eapply invX_put with (t := t); auto.
    - destruct (proj2 I' k t Hk) as ((S1 & S2 & S3) & _). split; auto. split; auto. simpl. intros i id Hi.
      destruct (Hm _ _ Hi) as [H|H]; auto. apply S3 in H. auto.
    - intro. contradiction.
  Qed.
  Lemma pput_in : forall m i id x y, In (x, y) (pput m i id) -> In (x, y) m \/ (x = i /\ y = id).
  Proof. intros m i id x y H. apply in_mput in H. destruct H as [H|H]; auto. inversion H; auto. Qed.
  Lemma pput_sorted : forall m i id, ksorted Z.ltb m -> ksorted Z.ltb (pput m i id).
  Proof. intros. apply (mput_sorted _ _ Z.eqb_eq Zltb_trans Zltb_total). auto. Qed.

  Lemma new_phrase_eq : forall (w : world) p, new_phrase p w = (mkWorld (w_heap w ++ [p]) (w_sets w), Ok (length (w_heap w))).
  Proof. reflexivity. Qed.

  (** [phrases_\[i\] = id] followed by the registration of the listener. *)
  Lemma register_inv : forall (X : nat -> Prop) (w w1 w' : world) k t i id f out,
    invX X w -> X k -> set_at w k = Some t ->
    w1 = wput w k (with_phrases (f (t_phrases t) i id) t) ->
    (f = pput \/ f = minsert Z.eqb Z.ltb) ->
    id < length (w_heap w) ->
    add_listener k id w1 = (w', out) -> out <> UB -> invX X w' /\ out = Ok tt.
  Proof.
    intros X w w1 w' k t i id f out I Xk Hk -> Hf Hid H Hu.
    destruct (add_listener_inv _ _ _ _ _ H Hu (proj1 I)) as (-> & Hs & Hh & Ev & (p & Hp & Hl) & _).
    split; auto. destruct w' as [h' s']. simpl in *. subst s'.
    destruct (proj2 I k t Hk) as ((S1 & S2 & S3) & _).
    apply (invX_add X w k t); auto.
    - destruct Hf as [-> | ->]; [apply pput_sorted; auto|].
      apply (minsert_sorted _ _ Z.eqb_eq Zltb_trans Zltb_total). auto.
    - intros x y Hx.
      assert (In (x, y) (t_phrases t) \/ (x = i /\ y = id)).
      { destruct Hf as [-> | ->]; [apply pput_in; auto|]. unfold minsert in Hx.
        destruct (mget _ _ _); auto. apply pput_in. auto. }
      destruct H0 as [H0|(-> & ->)]; eauto.
  Qed.
End Histories.
