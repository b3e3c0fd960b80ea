(** Proofs about training sets: labels and classes. *)
From Coq Require Import String List Bool Arith Lia ZArith.
From Verif Require Import Base BaseFacts Arith Model_Map Model_Attribute Model_Events Model_Json Model_Phrase
  Model_TrainingSet Spec_Phrase Spec_TrainingSet.
From Verif Require Import Proofs_Map Proofs_Phrase Proofs_Phrase2.
Import ListNotations.
Local Open Scope nat_scope.

Section TrainingSetProofs.
  Context {A : arith}.
  Local Notation phrase := (phrase (A:=A)).
  Local Notation world := (world A).

  (** ** The state monad *)
  Lemma sbind_ok_inv : forall {S X Y} (m : stm S X) (f : X -> stm S Y) s s' y,
    sbind m f s = (s', Ok y) -> exists s1 x, m s = (s1, Ok x) /\ f x s1 = (s', Ok y).
  Proof.
    intros. unfold sbind in H. destruct (m s) as [s1 [x|e|]] eqn:E; try (inversion H; fail). eauto.
  Qed.

  Definition keeps {S X} (I : S -> Prop) (m : stm S X) : Prop :=
    forall s s' out, I s -> m s = (s', out) -> out <> UB -> I s'.

  Lemma keeps_bind : forall {S X Y} (I : S -> Prop) (m : stm S X) (f : X -> stm S Y),
    keeps I m -> (forall x, keeps I (f x)) -> keeps I (sbind m f).
  Proof.
    intros S X Y I m f Hm Hf s s' out Hs E Hu. unfold sbind in E.
    destruct (m s) as [s1 [x|e|]] eqn:E1.
    - apply (Hf x s1 s' out); auto. apply (Hm s s1 (Ok x)); auto. discriminate.
    - inversion E; subst. apply (Hm s s' (Throw e)); auto. discriminate.
    - inversion E; subst. congruence.
  Qed.
  Lemma keeps_lift : forall {S X} (I : S -> Prop) (r : res X), keeps I (slift r).
  Proof. intros S X I r s s' out Hs E _. inversion E; subst. auto. Qed.
  Lemma keeps_get : forall {S} (I : S -> Prop), keeps I sget.
  Proof. intros S I s s' out Hs E _. inversion E; subst. auto. Qed.
  Lemma keeps_ret : forall {S X} (I : S -> Prop) (x : X), keeps I (sret x).
  Proof. intros S X I x s s' out Hs E _. inversion E; subst. auto. Qed.
  Lemma keeps_throw : forall {S X} (I : S -> Prop) e, keeps (X:=X) I (sthrow (S:=S) e).
  Proof. intros S X I x s s' out Hs E _. inversion E; subst. auto. Qed.
  Lemma keeps_foreach : forall {S X} (I : S -> Prop) (l : list X) f,
    (forall x, In x l -> keeps I (f x)) -> keeps I (sforeach l f).
  Proof.
    intros S X I l f H. induction l; simpl.
    - apply keeps_ret.
    - apply keeps_bind; [apply H; simpl; auto|]. intros _. apply IHl. intros. apply H. simpl. auto.
  Qed.

  (** ** Worlds *)
  Definition wput (w : world) (k : nat) (t : tset) : world := mkWorld (w_heap w) (upd (w_sets w) k (Some t)).

  Lemma get_set_eq : forall (w : world) k t, set_at w k = Some t -> get_set k w = (w, Ok t).
  Proof.
    intros w k t H. unfold set_at in H. unfold get_set, sbind, sget, slift, rd.
    destruct (nth_error (w_sets w) k) as [o|]; [|discriminate]. subst. reflexivity.
  Qed.
  Lemma get_set_none : forall (w : world) k, set_at w k = None -> get_set k w = (w, UB).
  Proof.
    intros w k H. unfold set_at in H. unfold get_set, sbind, sget, slift, rd.
    destruct (nth_error (w_sets w) k) as [o|]; [|reflexivity]. subst. reflexivity.
  Qed.
  Lemma get_set_inv : forall (w w' : world) k t, get_set k w = (w', Ok t) -> w' = w /\ set_at w k = Some t.
  Proof.
    intros w w' k t H. destruct (set_at w k) as [t0|] eqn:E.
    - rewrite (get_set_eq _ _ _ E) in H. inversion H; subst. auto.
    - rewrite (get_set_none _ _ E) in H. inversion H.
  Qed.
  Lemma set_at_lt : forall (w : world) k t, set_at w k = Some t -> k < length (w_sets w).
  Proof.
    intros w k t H. unfold set_at in H. destruct (nth_error (w_sets w) k) eqn:E; [|discriminate].
    apply nth_error_Some. congruence.
  Qed.
  Lemma put_set_eq : forall (w : world) k t t0, set_at w k = Some t0 -> put_set k t w = (wput w k t, Ok tt).
  Proof.
    intros w k t t0 H. unfold put_set, sbind, sget, slift. rewrite wr_ok by (eapply set_at_lt; eauto). reflexivity.
  Qed.
  Lemma mod_set_eq : forall (w : world) k f t, set_at w k = Some t -> mod_set k f w = (wput w k (f t), Ok tt).
  Proof.
    intros w k f t H. unfold mod_set. unfold sbind at 1. rewrite (get_set_eq _ _ _ H).
    eapply put_set_eq; eauto.
  Qed.
  Lemma mod_set_inv : forall (w w' : world) k f o, mod_set k f w = (w', o) -> o <> UB ->
    exists t, set_at w k = Some t /\ w' = wput w k (f t) /\ o = Ok tt.
  Proof.
    intros w w' k f o H Hu. destruct (set_at w k) as [t|] eqn:E.
    - rewrite (mod_set_eq _ _ _ _ E) in H. inversion H; subst. eauto.
    - unfold mod_set, sbind at 1 in H. rewrite (get_set_none _ _ E) in H. inversion H; subst. congruence.
  Qed.
  Lemma set_at_wput : forall (w : world) k t k' , k < length (w_sets w) ->
    set_at (wput w k t) k' = if k' =? k then Some t else set_at w k'.
  Proof.
    intros w k t k' H. unfold set_at, wput. simpl. destruct (Nat.eqb_spec k' k) as [->|N].
    - rewrite nth_error_upd_eq by auto. reflexivity.
    - rewrite nth_error_upd_neq by auto. reflexivity.
  Qed.
  Lemma wput_wput : forall (w : world) k t t', wput (wput w k t) k t' = wput w k t'.
  Proof.
    intros. unfold wput. simpl. f_equal. generalize (w_sets w) k. induction l as [|a l IH]; intros [|n]; simpl; auto.
    f_equal. apply IH.
  Qed.
  Lemma wput_same : forall (w : world) k t, set_at w k = Some t -> wput w k t = w.
  Proof.
    intros [h s] k t H. unfold wput, set_at in *. simpl in *. f_equal. revert k H.
    induction s as [|a s IH]; intros [|n]; simpl; intro H; auto.
    - subst. reflexivity.
    - f_equal. apply IH. auto.
  Qed.

  (** ** [update] as a function *)
  Definition lab_of (h : list phrase) (id : nat) : string :=
    match nth_error h id with Some p => p_label p | None => EmptyString end.
  Definition valid (h : list phrase) (m : list (Z * nat)) : Prop :=
    forall i id, In (i, id) m -> id < length h.

  Definition labels_of (h : list phrase) (m : list (Z * nat)) : list string :=
    fold_left (fun acc e => sinsert String.eqb String.ltb acc (lab_of h (snd e))) m [].
  Definition class_of (h : list phrase) (l : string) (m : list (Z * nat)) : list (Z * nat) :=
    fold_left (fun acc e => if String.eqb (lab_of h (snd e)) l then pput acc (fst e) (snd e) else acc) m [].

  Lemma rd_lab : forall (h : list phrase) id, id < length h -> exists p, rd h id = Ok p /\ p_label p = lab_of h id
    /\ nth_error h id = Some p.
  Proof.
    intros h id H. unfold rd, lab_of. destruct (nth_error h id) eqn:E; eauto.
    apply nth_error_None in E. lia.
  Qed.

  Lemma collect_labels_eq : forall h m, valid h m -> collect_labels h m = Ok (labels_of h m).
  Proof.
    intros h m. unfold collect_labels, labels_of. generalize (@nil string).
    induction m as [|[i id] m IH]; intros acc H; simpl; auto.
    destruct (rd_lab h id) as (p & E1 & E2 & _). { eapply H. simpl. eauto. }
    rewrite E1. cbn [bind]. rewrite E2. apply IH. intros j k Hj. eapply H. simpl. eauto.
  Qed.
  Lemma select_eq : forall h l m, valid h m -> select h l m = Ok (class_of h l m).
  Proof.
    intros h l m. unfold select, class_of. generalize (@nil (Z * nat)).
    induction m as [|[i id] m IH]; intros acc H; simpl; auto.
    destruct (rd_lab h id) as (p & E1 & E2 & _). { eapply H. simpl. eauto. }
    rewrite E1. cbn [bind]. rewrite E2. apply IH. intros j k Hj. eapply H. simpl. eauto.
  Qed.

  Definition sub0 (t : tset) : subset :=
    mkSub (t_dim t) (t_din_min (t_bim t)) (t_dim t - 1)
      (vresize (t_dim t) EmptyString (repeat EmptyString (t_dim_min (t_bim t)))) [].
  Definition sub1 (h : list phrase) (t : tset) (l : string) : subset :=
    mkSub (t_dim t) (t_din t) (t_dim t - 1) (t_cols t) (class_of h l (t_phrases t)).

  Fixpoint build (ok : res unit) (f0 : subset) (f1 : string -> subset) (labs : list string)
      (subs : list (string * subset)) : list (string * subset) * res unit :=
    match labs with
    | [] => (subs, Ok tt)
    | l :: labs =>
        match ok with
        | Ok _ => build ok f0 f1 labs (mput String.eqb String.ltb subs l (f1 l))
        | o => (mput String.eqb String.ltb subs l f0, o)
        end
    end.
  Definition check_of (t : tset) : res unit :=
    checkLimits Nat.ltb (t_din t) (t_din_min (t_bim t)) (t_dim t - 1).

  Lemma mput_mput : forall (m : list (string * subset)) l u u',
    mput String.eqb String.ltb (mput String.eqb String.ltb m l u) l u' = mput String.eqb String.ltb m l u'.
  Proof.
    induction m as [|[a b] m IH]; intros l u u'; simpl.
    - rewrite String.eqb_refl. reflexivity.
    - destruct (String.eqb l a) eqn:E1; [|destruct (String.ltb l a) eqn:E2]; simpl.
      + rewrite String.eqb_refl. reflexivity.
      + rewrite String.eqb_refl. reflexivity.
      + rewrite E1, E2. f_equal. apply IH.
  Qed.

  Lemma update_labels_eq : forall labs (w : world) k t,
    set_at w k = Some t -> valid (w_heap w) (t_phrases t) ->
    let '(subs, o) := build (check_of t) (sub0 t) (sub1 (w_heap w) t) labs (t_subs t) in
    sforeach labs (update_label k) w = (wput w k (with_subs subs t), o).
  Proof.
    induction labs as [|l labs IH]; intros w k t H V.
    - simpl. unfold sret. rewrite wput_same; auto. destruct t; auto.
    - cbn [build sforeach]. unfold sbind at 1. unfold update_label. unfold sbind at 1.
      rewrite (get_set_eq _ _ _ H). unfold sbind at 1. rewrite (put_set_eq _ _ _ _ H).
      pose proof (set_at_lt _ _ _ H) as HL.
      unfold sbind at 1. unfold slift at 1. fold (check_of t).
      destruct (check_of t) as [[]|e|] eqn:Ec.
      + unfold sbind at 1. unfold sget at 1. cbn [w_heap wput]. unfold sbind at 1. unfold slift at 1.
        rewrite (select_eq _ _ _ V).
        rewrite (put_set_eq (wput w k (sub_put l (sub0 t) t)) k _ (sub_put l (sub0 t) t)).
        2: { rewrite set_at_wput by auto. rewrite Nat.eqb_refl. reflexivity. }
        rewrite wput_wput.
        change (mkSub (t_dim t) (t_din t) (t_dim t - 1) (t_cols t) (class_of (w_heap w) l (t_phrases t)))
          with (sub1 (w_heap w) t l).
        set (t' := sub_put l (sub1 (w_heap w) t l) t).
        assert (H' : set_at (wput w k t') k = Some t').
        { rewrite set_at_wput by auto. rewrite Nat.eqb_refl. reflexivity. }
        specialize (IH (wput w k t') k t' H' V).
        change (check_of t') with (check_of t) in IH. rewrite Ec in IH.
        change (sub0 t') with (sub0 t) in IH.
        change (sub1 (w_heap (wput w k t')) t') with (sub1 (w_heap w) t) in IH.
        change (t_subs t') with (mput String.eqb String.ltb (t_subs t) l (sub1 (w_heap w) t l)) in IH.
        destruct (build _ _ _ _ _) as [subs o]. rewrite wput_wput in IH. exact IH. 
      + reflexivity.
      + reflexivity.
  Qed.

  (** The set after [update], and the outcome. *)
  Definition updated (h : list phrase) (t : tset) : tset * res unit :=
    let labs := labels_of h (t_phrases t) in
    let '(subs, o) := build (check_of t) (sub0 t) (sub1 h t) labs [] in
    (with_labels labs subs t, o).

  Lemma update_eq : forall (w : world) k t, set_at w k = Some t -> valid (w_heap w) (t_phrases t) ->
    update k w = (wput w k (fst (updated (w_heap w) t)), snd (updated (w_heap w) t)).
  Proof.
    intros w k t H V. unfold update. unfold sbind at 1. rewrite (get_set_eq _ _ _ H).
    unfold sbind at 1. unfold sget. unfold sbind at 1. unfold slift at 1. rewrite (collect_labels_eq _ _ V).
    set (labs := labels_of _ _).
    unfold sbind at 1. rewrite (put_set_eq _ _ _ _ H).
    set (t1 := with_labels labs [] t).
    pose proof (set_at_lt _ _ _ H) as HL.
    assert (H1 : set_at (wput w k t1) k = Some t1).
    { rewrite set_at_wput by auto. rewrite Nat.eqb_refl. reflexivity. }
    pose proof (update_labels_eq labs (wput w k t1) k t1 H1 V) as E.
    change (check_of t1) with (check_of t) in E. change (sub0 t1) with (sub0 t) in E.
    change (sub1 (w_heap (wput w k t1)) t1) with (sub1 (w_heap w) t) in E. change (t_subs t1) with (@nil (string * subset)) in E.
    unfold updated. fold labs. destruct (build _ _ _ _ _) as [subs o]. rewrite E. rewrite wput_wput. reflexivity.
  Qed.

  Lemma update_no_set : forall (w : world) k, set_at w k = None -> update k w = (w, UB).
  Proof. intros w k H. unfold update, sbind at 1. rewrite (get_set_none _ _ H). reflexivity. Qed.

  Lemma check_cases : forall t, check_of t = Ok tt \/ check_of t = Throw DomainError.
  Proof. intro t. unfold check_of, checkLimits. destruct (_ || _); auto. Qed.

  Lemma build_ok : forall f0 f1 labs subs,
    snd (build (Ok tt) f0 f1 labs subs) = Ok tt.
  Proof. induction labs; intros; simpl; auto. Qed.

  Lemma build_get : forall f0 f1 labs subs l,
    mget String.eqb (fst (build (Ok tt) f0 f1 labs subs)) l =
      if existsb (String.eqb l) labs then Some (f1 l) else mget String.eqb subs l.
  Proof.
    induction labs as [|a labs IH]; intros subs l; simpl; auto.
    rewrite IH. rewrite (mget_mput _ _ String.eqb_eq).
    destruct (String.eqb_spec l a) as [->|N]; simpl; auto. destruct (existsb _ labs); auto.
  Qed.
  Lemma build_sorted : forall ok f0 f1 labs subs, ksorted String.ltb subs ->
    ksorted String.ltb (fst (build ok f0 f1 labs subs)).
  Proof.
    induction labs as [|a labs IH]; intros subs S; simpl; auto.
    assert (forall u, ksorted String.ltb (mput String.eqb String.ltb subs a u)).
    { intro. apply (mput_sorted _ _ String.eqb_eq str_ltb_trans str_ltb_total). auto. }
    destruct ok; simpl; auto.
  Qed.

  Lemma labels_in : forall h m l, In l (labels_of h m) <-> exists i id, In (i, id) m /\ lab_of h id = l.
  Proof.
    intros h m l. unfold labels_of.
    assert (G : forall acc, In l (fold_left (fun acc e => sinsert String.eqb String.ltb acc (lab_of h (snd e))) m acc)
      <-> In l acc \/ exists i id, In (i, id) m /\ lab_of h id = l).
    { induction m as [|[i id] m IH]; intro acc; simpl.
      - split; auto. intros [H|(i & id & [] & _)]; auto.
      - rewrite IH. rewrite (sinsert_in _ _ String.eqb_eq). split.
        + intros [[->|H]|(j & d & H & E)]; eauto 8.
        + intros [H|(j & d & [H|H] & E)]; eauto. { inversion H; subst. auto. } }
    rewrite G. split; auto. intros [[]|H]; auto.
  Qed.
  Lemma labels_sorted : forall h m, ssorted String.ltb (labels_of h m).
  Proof.
    intros h m. unfold labels_of.
    assert (G : forall acc, ssorted String.ltb acc -> ssorted String.ltb
      (fold_left (fun acc e => sinsert String.eqb String.ltb acc (lab_of h (snd e))) m acc)).
    { induction m as [|e m IH]; intros acc S; simpl; auto. apply IH.
      apply (sinsert_sorted _ _ String.eqb_eq str_ltb_trans str_ltb_total). auto. }
    apply G. constructor.
  Qed.

  Lemma class_get : forall h l m i id, ksorted Z.ltb m ->
    pget (class_of h l m) i = Some id <-> In (i, id) m /\ lab_of h id = l.
  Proof.
    intros h l m i id. unfold class_of.
    assert (G : forall m acc, ksorted Z.ltb m -> (forall j, In j (map fst m) -> pget acc j = None) ->
      (pget (fold_left (fun acc e => if String.eqb (lab_of h (snd e)) l then pput acc (fst e) (snd e) else acc) m acc) i
         = Some id <-> pget acc i = Some id \/ (In (i, id) m /\ lab_of h id = l))).
    { clear m. induction m as [|[j d] m IH]; intros acc S F; simpl.
      - split; auto. intros [H|([] & _)]; auto.
      - inversion S as [|? ? S' F']; subst. rewrite Forall_forall in F'.
        rewrite IH; auto.
        + destruct (String.eqb_spec (lab_of h d) l) as [E|N].
          * unfold pget, pput. rewrite (mget_mput _ _ Z.eqb_eq). destruct (Z.eqb_spec i j) as [->|Nij].
            -- assert (Hn : pget acc j = None) by (apply F; simpl; auto). unfold pget in *. split.
               ++ intros [H|(H & E2)].
                  ** inversion H; subst. right. auto.
                  ** right. auto.
               ++ intros [H|([H|H] & E')]; [congruence| |].
                  ** inversion H; subst. auto.
                  ** right. auto.
            -- split; [intros [H|(H & E')]; auto|]. intros [H|([H|H] & E')]; auto. inversion H; congruence.
          * split; [intros [H|(H & E')]; auto|]. intros [H|([H|H] & E')]; auto. inversion H; subst. congruence.
        + intros x Hx. assert (Z.ltb j x = true) by (apply F'; auto).
          destruct (String.eqb _ _); [|apply F; simpl; auto].
          unfold pget, pput. rewrite (mget_mput _ _ Z.eqb_eq). destruct (Z.eqb_spec x j) as [->|_].
          * rewrite Z.ltb_irrefl in H. discriminate.
          * apply F. simpl. auto. }
    intro S. rewrite G; auto. simpl. split; auto. intros [H|H]; auto. discriminate.
  Qed.

  (** ** The invariant *)
  Definition evok (h : list phrase) : Prop :=
    forall id p o c, nth_error h id = Some p -> In (o, c) (p_events p) -> c = o.

  Definition shape (w : world) (k : nat) (t : tset) : Prop :=
    ksorted Z.ltb (t_phrases t) /\ ksorted String.ltb (t_subs t) /\
    forall i id, In (i, id) (t_phrases t) ->
      exists p, nth_error (w_heap w) id = Some p /\ In (k, k) (p_events p).

  Definition invX (X : nat -> Prop) (w : world) : Prop :=
    evok (w_heap w) /\
    forall k t, set_at w k = Some t -> shape w k t /\ (~ X k -> mirrors w t).
  Definition inv : world -> Prop := invX (fun _ => False).

  Lemma shape_valid : forall (w : world) k t, shape w k t -> valid (w_heap w) (t_phrases t).
  Proof.
    intros w k t (_ & _ & H) i id Hi. destruct (H i id Hi) as (p & E & _). apply nth_error_Some. congruence.
  Qed.

  Lemma has_label_iff : forall (w : world) l id, id < length (w_heap w) -> (has_label w l id <-> lab_of (w_heap w) id = l).
  Proof.
    intros w l id H. unfold has_label. destruct (rd_lab _ _ H) as (p & _ & E & Ep). rewrite Ep. split.
    - intros (q & Hq & El). inversion Hq; subst. congruence.
    - intro. exists p. split; congruence.
  Qed.

  Lemma getPhrase_in : forall t i id, ksorted Z.ltb (t_phrases t) ->
    (getPhrase t i = Some id <-> In (i, id) (t_phrases t)).
  Proof.
    intros t i id S. unfold getPhrase, pget. split.
    - apply (mget_in _ Z.eqb_eq).
    - apply (in_mget _ _ Z.eqb_eq Z.ltb_irrefl). auto.
  Qed.

  Lemma updated_mirrors : forall (w w' : world) k t, shape w k t -> w_heap w' = w_heap w -> snd (updated (w_heap w) t) = Ok tt ->
    mirrors w' (fst (updated (w_heap w) t)).
  Proof.
    intros w w' k t S Hh HO. pose proof (shape_valid _ _ _ S) as V. destruct S as (S & _ & _).
    assert (HL : forall l id, (exists i, In (i, id) (t_phrases t)) -> (has_label w' l id <-> lab_of (w_heap w) id = l)).
    { intros l id (i & Hi). rewrite <- Hh. apply has_label_iff. rewrite Hh. eapply V; eauto. }
    unfold updated in *.
    assert (Hlab : t_labels (fst (let '(subs, o) := build (check_of t) (sub0 t) (sub1 (w_heap w) t)
        (labels_of (w_heap w) (t_phrases t)) [] in (with_labels (labels_of (w_heap w) (t_phrases t)) subs t, o)))
        = labels_of (w_heap w) (t_phrases t)) by (destruct (build _ _ _ _ _); reflexivity).
    assert (Hph : t_phrases (fst (let '(subs, o) := build (check_of t) (sub0 t) (sub1 (w_heap w) t)
        (labels_of (w_heap w) (t_phrases t)) [] in (with_labels (labels_of (w_heap w) (t_phrases t)) subs t, o)))
        = t_phrases t) by (destruct (build _ _ _ _ _); reflexivity).
    assert (Hsub : t_subs (fst (let '(subs, o) := build (check_of t) (sub0 t) (sub1 (w_heap w) t)
        (labels_of (w_heap w) (t_phrases t)) [] in (with_labels (labels_of (w_heap w) (t_phrases t)) subs t, o)))
        = fst (build (check_of t) (sub0 t) (sub1 (w_heap w) t) (labels_of (w_heap w) (t_phrases t)) []))
      by (destruct (build _ _ _ _ _); reflexivity).
    assert (HO' : snd (build (check_of t) (sub0 t) (sub1 (w_heap w) t) (labels_of (w_heap w) (t_phrases t)) []) = Ok tt)
      by (destruct (build _ _ _ _ _); exact HO).
    clear HO. set (t' := fst _) in *. clearbody t'.
    assert (GP : forall i id, getPhrase t' i = Some id <-> In (i, id) (t_phrases t)).
    { intros. rewrite getPhrase_in; rewrite Hph; auto. tauto. }
    assert (HLab : forall l, In l (labels_of (w_heap w) (t_phrases t)) <->
        exists i id, getPhrase t' i = Some id /\ has_label w' l id).
    { intro l. rewrite labels_in. split; intros (i & id & H1 & H2); exists i, id.
      - split; [apply GP; auto|]. apply HL; eauto.
      - apply GP in H1. split; auto. apply HL in H2; eauto. }
    split; [|split].
    - intro l. rewrite Hlab. auto.
    - rewrite Hlab. eapply ssorted_nodup; [apply str_ltb_irrefl|apply labels_sorted].
    - intro l. unfold getPhrasesOfClass. rewrite Hsub, Hlab.
      destruct (check_cases t) as [Ec|Ec]; rewrite Ec in *.
      + rewrite build_get. destruct (existsb (String.eqb l) _) eqn:Ee.
        * apply existsb_exists in Ee. destruct Ee as (l' & Hl & El). apply String.eqb_eq in El. subst l'.
          split; auto. intros i id. cbn [u_phrases sub1]. rewrite class_get by auto. rewrite GP.
          split; intros (H1 & H2); split; auto; apply HL in H2; eauto.
        * simpl. intros i id H1 H2.
          assert (In l (labels_of (w_heap w) (t_phrases t))) by (apply HLab; eauto).
          assert (existsb (String.eqb l) (labels_of (w_heap w) (t_phrases t)) = true).
          { apply existsb_exists. exists l. split; auto. apply String.eqb_refl. } congruence.
      + destruct (labels_of (w_heap w) (t_phrases t)) eqn:El; [|discriminate].
        simpl. intros i id H1 H2. apply (proj2 (HLab l)). eauto.
  Qed.
End TrainingSetProofs.
