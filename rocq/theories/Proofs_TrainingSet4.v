(** Proofs about training sets: what an operation leaves alone, and assignment (C25). *)
From Coq Require Import String List Bool Arith Lia ZArith.
From Verif Require Import Base BaseFacts Arith Model_Map Model_Attribute Model_Events Model_Json Model_Phrase
  Model_TrainingSet Spec_Phrase Spec_TrainingSet.
From Verif Require Import Proofs_Map Proofs_Phrase Proofs_Phrase2 Proofs_TrainingSet Proofs_TrainingSet2 Proofs_TrainingSet3.
Import ListNotations.
Local Open Scope nat_scope.

Section Frame.
  Context {A : arith}.
  Local Notation phrase := (phrase (A:=A)).
  Local Notation world := (world A).

  (** Set [k] and its phrases are the same in [w] as in [w0]. *)
  Definition same (k : nat) (t : tset) (w0 w : world) : Prop :=
    set_at w k = Some t /\
    forall id, In id (map snd (t_phrases t)) ->
      exists p, nth_error (w_heap w) id = Some p /\ nth_error (w_heap w0) id = Some p.

  Lemma keeps_bind_post : forall {S X Y} (I : S -> Prop) (m : stm S X) (f : X -> stm S Y),
    keeps I m -> (forall x w w1, I w -> m w = (w1, Ok x) -> keeps I (f x)) -> keeps I (sbind m f).
  Proof.
    intros S X Y I m f Hm Hf s s' out Hs E Hu. unfold sbind in E. destruct (m s) as [s1 [x|e|]] eqn:Em.
    - eapply Hf; [exact Hs|exact Em| |exact E|auto]. eapply Hm; [exact Hs|exact Em|discriminate].
    - inversion E; subst. eapply Hm; eauto. discriminate.
    - inversion E; subst. congruence.
  Qed.

  Section One.
    Context (k : nat) (t : tset) (w0 : world).
    Local Notation I := (same k t w0).

    Lemma f_get_set : forall j, keeps I (get_set j).
    Proof.
      intros j w w' out H E Hu. destruct (set_at w j) as [u|] eqn:Ej.
      - rewrite (get_set_eq _ _ _ Ej) in E. inversion E; subst; auto.
      - rewrite (get_set_none _ _ Ej) in E. inversion E; subst; congruence.
    Qed.
    Lemma f_put_set : forall j u, j <> k -> keeps I (put_set j u).
    Proof.
      intros j u N w w' out H E Hu. unfold put_set, sbind, sget, slift, wr in E.
      destruct (j <? length (w_sets w)) eqn:L; inversion E; subst; [|congruence].
      destruct H as (H1 & H2). split; auto. unfold set_at in *. simpl. rewrite nth_error_upd_neq by auto. auto.
    Qed.
    Lemma f_mod_set : forall j f, j <> k -> keeps I (mod_set j f).
    Proof. intros j f N. apply keeps_bind; [apply f_get_set|]. intro u. apply f_put_set. auto. Qed.
    Lemma f_on_phrase : forall id m, ~ In id (map snd (t_phrases t)) -> keeps I (on_phrase id m).
    Proof.
      intros id m N w w' out H E Hu. destruct (on_phrase_inv _ _ _ _ _ E Hu) as (p & p' & Hp & Hm & ->).
      destruct H as (H1 & H2). split; auto. intros d Hd. simpl. rewrite nth_error_upd_neq by congruence. auto.
    Qed.
    Lemma f_new_phrase : forall p, keeps I (new_phrase p).
    Proof.
      intros p w w' out H E Hu. rewrite new_phrase_eq in E. inversion E; subst. destruct H as (H1 & H2). split; auto.
      intros id Hd. destruct (H2 id Hd) as (q & E1 & E2). exists q. split; auto. simpl.
      rewrite nth_error_app1; auto. apply nth_error_Some. congruence.
    Qed.
    Lemma f_new_phrase_bind : forall p (f : nat -> stm world unit),
      (forall id, ~ In id (map snd (t_phrases t)) -> keeps I (f id)) -> keeps I (sbind (new_phrase p) f).
    Proof.
      intros p f Hf. apply keeps_bind_post; [apply f_new_phrase|]. intros id w w1 H E. apply Hf.
      rewrite new_phrase_eq in E. inversion E; subst. intro Hi. destruct (proj2 H _ Hi) as (q & E1 & _).
      assert (L : length (w_heap w) < length (w_heap w)) by (apply nth_error_Some; congruence). lia.
    Qed.
    Lemma f_get_phrase : forall id, keeps I (get_phrase id).
    Proof. intros id w w' out H E Hu. unfold get_phrase, sbind, sget, slift in E. inversion E; subst; auto. Qed.

    Lemma f_update_other : forall j, j <> k -> keeps I (update j).
    Proof.
      intros j N. unfold update. apply keeps_bind; [apply f_get_set|]. intro u. apply keeps_bind; [apply keeps_get|]. intro w1.
      apply keeps_bind; [apply keeps_lift|]. intro labs. apply keeps_bind; [apply f_put_set; auto|]. intros _.
      apply keeps_foreach. intros l _. unfold update_label. apply keeps_bind; [apply f_get_set|]. intro u1.
      apply keeps_bind; [apply f_put_set; auto|]. intros _. apply keeps_bind; [apply keeps_lift|]. intros _.
      apply keeps_bind; [apply keeps_get|]. intro w2. apply keeps_bind; [apply keeps_lift|]. intro ps. apply f_put_set; auto.
    Qed.

    Lemma updated_ext : forall (h h' : list phrase) u, (forall id, In id (map snd (t_phrases u)) -> lab_of (A:=A) h' id = lab_of h id) ->
      updated h' u = updated h u.
    Proof.
      intros h h' u H. unfold updated.
      assert (E1 : forall m acc, (forall id, In id (map snd m) -> lab_of h' id = lab_of h id) ->
        fold_left (fun acc e => sinsert String.eqb String.ltb acc (lab_of h' (snd e))) m acc =
        fold_left (fun acc (e : Z * nat) => sinsert String.eqb String.ltb acc (lab_of h (snd e))) m acc).
      { induction m as [|[i d] m IH]; intros acc Hm; simpl; auto. rewrite (Hm d) by (simpl; auto). apply IH.
        intros id Hi. apply Hm. simpl. auto. }
      assert (E2 : forall l m acc, (forall id, In id (map snd m) -> lab_of h' id = lab_of h id) ->
        fold_left (fun acc e => if String.eqb (lab_of h' (snd e)) l then pput acc (fst e) (snd e) else acc) m acc =
        fold_left (fun acc (e : Z * nat) => if String.eqb (lab_of h (snd e)) l then pput acc (fst e) (snd e) else acc) m acc).
      { induction m as [|[i d] m IH]; intros acc Hm; simpl; auto. rewrite (Hm d) by (simpl; auto). apply IH.
        intros id Hi. apply Hm. simpl. auto. }
      unfold labels_of. rewrite E1 by auto. generalize (fold_left (fun acc (e : Z * nat) => sinsert String.eqb String.ltb acc (lab_of h (snd e))) (t_phrases u) []).
      intro labs.
      assert (E3 : forall ok f0 labs subs, build ok f0 (sub1 h' u) labs subs = build ok f0 (sub1 h u) labs subs).
      { intros ok f0. induction labs0 as [|l ls IH]; intros subs; simpl; auto.
        assert (E4 : sub1 h' u l = sub1 h u l) by (unfold sub1, class_of; rewrite E2 by auto; reflexivity).
        destruct ok; auto. rewrite E4. apply IH. }
      rewrite E3. reflexivity.
    Qed.

    Lemma f_update_self : up_to_date w0 k -> set_at w0 k = Some t -> keeps I (update k).
    Proof.
      intros U H0 w w' out H E Hu. destruct H as (H1 & H2).
      assert (V0 : valid (w_heap w0) (t_phrases t)).
      { intros i id Hi. destruct (H2 id) as (p & _ & E2). { change id with (snd (i, id)). apply in_map. auto. }
        apply nth_error_Some. congruence. }
      assert (V : valid (w_heap w) (t_phrases t)).
      { intros i id Hi. destruct (H2 id) as (p & E2 & _). { change id with (snd (i, id)). apply in_map. auto. }
        apply nth_error_Some. congruence. }
      unfold up_to_date in U. rewrite (update_eq _ _ _ H0 V0) in U. inversion U as [[Uw Uo]].
      rewrite (update_eq _ _ _ H1 V) in E.
      rewrite (updated_ext (w_heap w0) (w_heap w)) in E.
      2: { intros id Hi. destruct (H2 id Hi) as (p & E1 & E2). unfold lab_of. rewrite E1, E2. reflexivity. }
      assert (Et : fst (updated (w_heap w0) t) = t).
      { assert (Hx : set_at (wput w0 k (fst (updated (w_heap w0) t))) k = set_at w0 k) by congruence.
        rewrite set_at_wput in Hx by (eapply set_at_lt; eauto). rewrite Nat.eqb_refl in Hx. congruence. }
      rewrite Et in E. rewrite (wput_same _ _ _ H1) in E. inversion E; subst. split; auto.
    Qed.

    Ltac ftac := repeat first
      [ apply f_put_set; [auto] | apply f_mod_set; [auto] | apply f_get_phrase | apply f_get_set
      | apply f_update_other; [auto] | apply f_on_phrase; [auto]
      | apply keeps_lift | apply keeps_get | apply keeps_ret | apply keeps_throw
      | apply f_new_phrase_bind; intros ? ?
      | apply keeps_bind; [|intro] ].

    Lemma ids_w0 : set_at w0 k = Some t -> ids_of w0 k = map snd (t_phrases t).
    Proof. intro H. unfold ids_of. rewrite H. reflexivity. Qed.

    Lemma frame_step : forall o w' out,
      set_at w0 k = Some t -> (forall id, In id (ids_of w0 k) -> id < length (w_heap w0)) ->
      spares k w0 o -> (up_to_date w0 k \/ silent_for k w0 o) ->
      world_step o w0 = (w', out) -> out <> UB -> same k t w0 w'.
    Proof.
      intros o w' out H0 V (N1 & N2) US E Hu. rewrite (ids_w0 H0) in *.
      assert (I0 : same k t w0 w0).
      { split; auto. intros id Hi. specialize (V id Hi). destruct (nth_error (w_heap w0) id) as [p|] eqn:Ep; eauto.
        apply nth_error_None in Ep. lia. }
      destruct o; cbn [op_set op_phrases world_step] in *;
        try (assert (Nk : k0 <> k) by congruence).
      - inversion E; subst. destruct I0 as (E1 & E2). split; auto. unfold set_at. simpl.
        rewrite nth_error_app1 by (eapply set_at_lt; eauto). exact H0.
      - revert E. match goal with |- ?m w0 = _ -> _ => assert (K : keeps (same k t w0) m) by ftac end. intro E. eapply K; eauto.
      - revert E. match goal with |- ?m w0 = _ -> _ => assert (K : keeps (same k t w0) m) by (unfold add_new, add_listener; ftac) end.
        intro E. eapply K; eauto.
      - revert E. match goal with |- ?m w0 = _ -> _ => assert (K : keeps (same k t w0) m) by (unfold add_copy, add_listener; ftac) end.
        intro E. eapply K; eauto.
      - assert (Ni : ~ In id (map snd (t_phrases t))) by (apply N2; simpl; auto).
        revert E. match goal with |- ?m w0 = _ -> _ => assert (K : keeps (same k t w0) m) by (unfold add_ptr, add_listener; ftac) end.
        intro E. eapply K; eauto.
      - revert E. match goal with |- ?m w0 = _ -> _ => assert (K : keeps (same k t w0) m) by (unfold remove; ftac) end.
        intro E. eapply K; eauto.
      - revert E. match goal with |- ?m w0 = _ -> _ => assert (K : keeps (same k t w0) m) end.
        { unfold remove_class. apply keeps_bind; [ftac|]. intro u. apply keeps_bind; [|intro; ftac].
          generalize (S (length (t_phrases u))). induction n as [|n IH]; cbn [remove_loop].
          - intros x x' o' _ Ex Hx. inversion Ex; subst. congruence.
          - ftac. destruct x1; ftac. unfold remove; ftac. exact IH. }
        intro E. eapply K; eauto.
      - revert E. match goal with |- ?m w0 = _ -> _ => assert (K : keeps (same k t w0) m) by (unfold tclear; ftac) end.
        intro E. eapply K; eauto.
      - unfold tset_dimension in E. unfold sbind at 1 in E. destruct (set_at w0 k0) as [u|] eqn:Eu.
        2: { rewrite (get_set_none _ _ Eu) in E. inversion E; subst; congruence. }
        rewrite (get_set_eq _ _ _ Eu) in E. unfold ids_of in N2. rewrite Eu in N2.
        revert E. match goal with |- ?m w0 = _ -> _ => assert (K : keeps (same k t w0) m) end.
        { ftac. apply keeps_foreach. intros e He. apply f_on_phrase. apply N2. apply in_map. auto. }
        intro E. eapply K; eauto.
      - unfold tset_dimension_input in E. unfold sbind at 1 in E. destruct (set_at w0 k0) as [u|] eqn:Eu.
        2: { rewrite (get_set_none _ _ Eu) in E. inversion E; subst; congruence. }
        rewrite (get_set_eq _ _ _ Eu) in E. unfold ids_of in N2. rewrite Eu in N2.
        revert E. match goal with |- ?m w0 = _ -> _ => assert (K : keeps (same k t w0) m) end.
        { ftac; apply keeps_foreach; intros e He; [apply f_on_phrase; apply N2; apply in_map; auto|ftac]. }
        intro E. eapply K; eauto.
      - unfold tset_columns in E. unfold sbind at 1 in E. destruct (set_at w0 k0) as [u|] eqn:Eu.
        2: { rewrite (get_set_none _ _ Eu) in E. inversion E; subst; congruence. }
        rewrite (get_set_eq _ _ _ Eu) in E. unfold ids_of in N2. rewrite Eu in N2.
        revert E. match goal with |- ?m w0 = _ -> _ => assert (K : keeps (same k t w0) m) end.
        { destruct (negb _); ftac; apply keeps_foreach; intros e He;
            [apply f_on_phrase; apply N2; apply in_map; auto|destruct (negb _); ftac]. }
        intro E. eapply K; eauto.
      - revert E. match goal with |- ?m w0 = _ -> _ => assert (K : keeps (same k t w0) m) end.
        { unfold tset_assign. destruct (k0 =? src); ftac; unfold tclear; ftac.
          unfold copy_phrases. apply keeps_foreach. intros e He. unfold add_listener. ftac. }
        intro E. eapply K; eauto.
      - unfold tset_copy in E. unfold sbind at 1 in E. destruct (set_at w0 src) as [u|] eqn:Eu.
        2: { rewrite (get_set_none _ _ Eu) in E. inversion E; subst; congruence. }
        rewrite (get_set_eq _ _ _ Eu) in E. unfold ids_of in N2. rewrite Eu in N2.
        unfold sbind at 1 in E. unfold sget in E. unfold sbind at 1 in E. unfold sput in E.
        pose proof (set_at_lt _ _ _ H0) as L.
        assert (Nk : length (w_sets w0) <> k) by lia.
        revert E. match goal with |- ?m ?w1 = _ -> _ => assert (K : keeps (same k t w0) m) end.
        { apply keeps_bind; [|intro; ftac]. apply keeps_foreach. intros e He.
          assert (Ni : ~ In (snd e) (map snd (t_phrases t))) by (apply N2; apply in_map; auto).
          unfold add_listener. ftac. }
        intro E. eapply K; [|exact E|auto]. destruct I0 as (E1 & E2). split; auto. unfold set_at. simpl.
        rewrite nth_error_app1 by auto. exact H0.
      - revert E. match goal with |- ?m w0 = _ -> _ => assert (K : keeps (same k t w0) m) end.
        { unfold tset_destroy. apply keeps_bind; [ftac|]. intro u. intros x x' o' Hx Ex Hx'. unfold sbind, sget, slift, sput, wr in Ex.
          destruct (k0 <? length (w_sets x)); inversion Ex; subst; [|congruence]. destruct Hx as (E1 & E2). split; auto.
          unfold set_at in *. simpl. rewrite nth_error_upd_neq by auto. auto. }
        intro E. eapply K; eauto.
      - assert (Ni : ~ In id (map snd (t_phrases t))) by (apply N2; simpl; auto).
        unfold sbind at 1 in E. destruct (on_phrase id (smod (set_label lab)) w0) as [w1 o1] eqn:E1.
        assert (Ho1 : o1 <> UB). { intros ->. inversion E; subst; congruence. }
        pose proof (f_on_phrase id _ Ni _ _ _ I0 E1 Ho1) as I1.
        destruct (on_phrase_inv _ _ _ _ _ E1 Ho1) as (p & p' & Hp & Hm & Ew). inversion Hm; subst p' o1. clear Hm.
        unfold sbind at 1 in E. unfold get_phrase at 1 in E. unfold sbind, sget, slift, rd in E.
        rewrite Ew in E at 1. cbn [w_heap] in E. rewrite nth_error_upd_eq in E by (apply nth_error_Some; congruence).
        revert E. match goal with |- ?m w1 = _ -> _ => assert (K : keeps (same k t w0) m) end.
        { unfold notify. apply keeps_foreach. intros c Hc. unfold ev_notify in Hc. apply in_map_iff in Hc.
          destruct Hc as ([o c0] & <- & Hc). simpl in Hc. cbn [fst]. destruct (Nat.eq_dec (snd (o, c0)) k) as [Ek|Nk].
          - destruct US as [U|S].
            + rewrite Ek. apply f_update_self; auto.
            + exfalso. cbn [silent_for] in S. apply (S p Hp). apply (in_map snd) in Hc. rewrite Ek in Hc. exact Hc.
          - apply f_update_other. auto. }
        intro E. eapply K; eauto.
      - assert (Ni : ~ In id (map snd (t_phrases t))) by (apply N2; simpl; auto). eapply (f_on_phrase id); eauto.
    Qed.
  End One.
End Frame.

Section Independence.
  Context {A : arith}.
  Local Notation phrase := (phrase (A:=A)).
  Local Notation world := (world A).

  Lemma same_view : forall k t (w0 w : world), set_at w0 k = Some t -> same k t w0 w -> view w k = view w0 k.
  Proof.
    intros k t w0 w H0 (H1 & H2). unfold view. rewrite H0, H1. f_equal. f_equal. apply map_ext_in.
    intros e He. destruct (H2 (snd e)) as (p & E1 & E2). { apply in_map. auto. } congruence.
  Qed.
  Lemma same_valid : forall k t (w0 w : world), same k t w0 w -> forall id, In id (ids_of w k) -> id < length (w_heap w).
  Proof.
    intros k t w0 w (H1 & H2) id Hi. unfold ids_of in Hi. rewrite H1 in Hi. destruct (H2 _ Hi) as (p & E & _).
    apply nth_error_Some. congruence.
  Qed.
  Lemma same_up_to_date : forall k t (w0 w : world), set_at w0 k = Some t -> same k t w0 w -> up_to_date w0 k -> up_to_date w k.
  Proof.
    intros k t w0 w H0 (H1 & H2) U.
    assert (V0 : valid (w_heap w0) (t_phrases t)).
    { intros i id Hi. destruct (H2 id) as (p & _ & E2). { change id with (snd (i, id)). apply in_map. auto. }
      apply nth_error_Some. congruence. }
    assert (V : valid (w_heap w) (t_phrases t)).
    { intros i id Hi. destruct (H2 id) as (p & E2 & _). { change id with (snd (i, id)). apply in_map. auto. }
      apply nth_error_Some. congruence. }
    unfold up_to_date in *. rewrite (update_eq _ _ _ H0 V0) in U. inversion U as [[Uw Uo]].
    rewrite (update_eq _ _ _ H1 V).
    rewrite (updated_ext (w_heap w0) (w_heap w)).
    2: { intros id Hi. destruct (H2 id Hi) as (p & E1 & E2). unfold lab_of. rewrite E1, E2. reflexivity. }
    assert (Et : fst (updated (w_heap w0) t) = t).
    { assert (Hx : set_at (wput w0 k (fst (updated (w_heap w0) t))) k = set_at w0 k) by congruence.
      rewrite set_at_wput in Hx by (eapply set_at_lt; eauto). rewrite Nat.eqb_refl in Hx. congruence. }
    rewrite Et, (wput_same _ _ _ H1). congruence.
  Qed.

  Lemma world_run_cons : forall o ops (w w' : world) outs, world_run w (o :: ops) = Ok (w', outs) ->
    exists w1 out outs', world_step o w = (w1, out) /\ out <> UB /\ world_run w1 ops = Ok (w', outs') /\ outs = out :: outs'.
  Proof.
    intros o ops w w' outs H. cbn [world_run] in H. destruct (world_step o w) as [w1 out].
    destruct out; try discriminate; destruct (world_run w1 ops) as [[w2 outs']|e'|] eqn:E; try discriminate;
      inversion H; subst; do 3 eexists; repeat split; eauto; discriminate.
  Qed.

  Lemma independent_run : forall ops k t (w w' : world) outs,
    set_at w k = Some t -> (forall id, In id (ids_of w k) -> id < length (w_heap w)) ->
    spares_all (fun w o => spares k w o /\ (up_to_date w k \/ silent_for k w o)) w ops ->
    world_run w ops = Ok (w', outs) -> view w' k = view w k.
  Proof.
    induction ops as [|o ops IH]; intros k t w w' outs H V HS HR.
    - inversion HR; subst; auto.
    - apply world_run_cons in HR. destruct HR as (w1 & out & outs' & E & Hu & HR & _).
      cbn [spares_all] in HS. destruct HS as ((S1 & S2) & HS). rewrite E in HS. cbn [fst] in HS.
      pose proof (frame_step k t w o w1 out H V S1 S2 E Hu) as Sm.
      rewrite (IH k t w1 w' outs' (proj1 Sm) (same_valid _ _ _ _ Sm) HS HR). eapply same_view; eauto.
  Qed.

  Lemma independent_up_to_date : forall ops k t (w w' : world) outs,
    set_at w k = Some t -> (forall id, In id (ids_of w k) -> id < length (w_heap w)) -> up_to_date w k ->
    spares_all (spares k) w ops ->
    world_run w ops = Ok (w', outs) -> view w' k = view w k /\ up_to_date w' k.
  Proof.
    induction ops as [|o ops IH]; intros k t w w' outs H V U HS HR.
    - inversion HR; subst; auto.
    - apply world_run_cons in HR. destruct HR as (w1 & out & outs' & E & Hu & HR & _).
      cbn [spares_all] in HS. destruct HS as (S1 & HS). rewrite E in HS. cbn [fst] in HS.
      pose proof (frame_step k t w o w1 out H V S1 (or_introl U) E Hu) as Sm.
      destruct (IH k t w1 w' outs' (proj1 Sm) (same_valid _ _ _ _ Sm) (same_up_to_date _ _ _ _ H Sm U) HS HR) as (E1 & E2).
      split; auto. rewrite E1. eapply same_view; eauto.
  Qed.

  (** The state after assignment. *)
  Lemma copy_phrases_post : forall m (w w' : world) k t, ksorted Z.ltb m -> set_at w k = Some t ->
    (forall i, In i (map fst m) -> pget (t_phrases t) i = None) ->
    (forall i id, pget (t_phrases t) i = Some id -> id < length (w_heap w)) ->
    valid (w_heap w) m ->
    copy_phrases k m w = (w', Ok tt) ->
    exists m', set_at w' k = Some (with_phrases m' t) /\ length (w_sets w') = length (w_sets w) /\
      (forall j, j <> k -> set_at w' j = set_at w j) /\
      (forall id p, nth_error (w_heap w) id = Some p -> nth_error (w_heap w') id = Some p) /\
      (forall i, match pget m i with
                 | None => pget m' i = pget (t_phrases t) i
                 | Some id => exists id' p q ev, pget m' i = Some id' /\ length (w_heap w) <= id' < length (w_heap w') /\
                     nth_error (w_heap w) id = Some p /\ phrase_copy p = Ok q /\
                     nth_error (w_heap w') id' = Some (set_events ev q)
                 end) /\
      (forall i j id, length (w_heap w) <= id -> pget m' i = Some id -> pget m' j = Some id -> i = j) /\
      length (w_heap w) <= length (w_heap w').
  Proof.
    induction m as [|[i0 src] m IH]; intros w w' k t S H F V Vm E.
    - inversion E; subst. exists (t_phrases t). repeat split; auto.
      + destruct t; auto.
      + intros i j id L H1 _. apply V in H1. lia.
    - unfold copy_phrases in E. cbn [sforeach] in E. apply sbind_ok_inv in E. destruct E as (w1 & [] & E1 & E).
      apply sbind_ok_inv in E1. destruct E1 as (w2 & p & E2 & E1).
      unfold get_phrase, sbind, sget, slift, rd in E2. destruct (nth_error (w_heap w) (snd (i0, src))) as [p0|] eqn:Hp; inversion E2; subst w2 p0. clear E2.
      cbn [snd] in Hp.
      apply sbind_ok_inv in E1. destruct E1 as (w2 & q & E2 & E1). unfold slift in E2. inversion E2 as [[Hw Hq]]. subst w2. clear E2.
      apply sbind_ok_inv in E1. destruct E1 as (w2 & id & E2 & E1). rewrite new_phrase_eq in E2. inversion E2; subst w2 id. clear E2.
      apply sbind_ok_inv in E1. destruct E1 as (w3 & [] & E2 & E1).
      apply mod_set_inv in E2; [|discriminate]. destruct E2 as (t1 & Hk & E2 & _).
      assert (t1 = t) by (unfold set_at in *; simpl in *; congruence). subst t1.
      set (n := length (w_heap w)) in *. cbn [fst] in E2.
      set (m1 := minsert Z.eqb Z.ltb (t_phrases t) i0 n) in *.
      unfold add_listener in E1. destruct (on_phrase_inv _ _ _ _ _ E1) as (p1 & p2 & Hp1 & Hm & Ew); [discriminate|].
      inversion Hm; subst p2. clear Hm. subst w3. cbn [w_heap w_sets wput] in Hp1, Ew.
      rewrite nth_error_app2 in Hp1 by (unfold n; lia). unfold n in Hp1. rewrite Nat.sub_diag in Hp1. inversion Hp1; subst p1. clear Hp1. fold n in Ew.
      pose proof (set_at_lt _ _ _ H) as Lk.
      assert (Hh : w_heap w1 = w_heap w ++ [set_events (ev_add (p_events q) k k) q]).
      { subst w1. cbn [w_heap]. unfold n. clear. induction (w_heap w); simpl; auto. f_equal. auto. }
      assert (Hk1 : set_at w1 k = Some (with_phrases m1 t)).
      { subst w1. unfold set_at. cbn [w_sets]. rewrite nth_error_upd_eq by auto. reflexivity. }
      assert (Hj1 : forall j, j <> k -> set_at w1 j = set_at w j).
      { intros j N. subst w1. unfold set_at. cbn [w_sets]. rewrite nth_error_upd_neq by auto. reflexivity. }
      assert (L1 : length (w_heap w1) = Datatypes.S n) by (rewrite Hh, app_length; simpl; unfold n; lia).
      assert (Ls : length (w_sets w1) = length (w_sets w)) by (subst w1; cbn [w_sets]; apply upd_length).
      assert (Fi : pget (t_phrases t) i0 = None) by (apply F; simpl; auto).
      assert (G1 : forall i, pget m1 i = if Z.eqb i i0 then Some n else pget (t_phrases t) i).
      { intro i. unfold m1, pget. rewrite (mget_minsert _ _ Z.eqb_eq). unfold pget in Fi. rewrite Fi. reflexivity. }
      unfold ksorted in S. cbn [map fst] in S. apply Sorted.StronglySorted_inv in S. destruct S as (S' & F'). rewrite Forall_forall in F'.
      assert (F1 : forall i, In i (map fst m) -> pget (t_phrases (with_phrases m1 t)) i = None).
      { intros i Hi. cbn [with_phrases t_phrases]. rewrite G1. pose proof (F' _ Hi) as Hlt. simpl in Hlt.
        destruct (Z.eqb_spec i i0) as [->|]; [rewrite Z.ltb_irrefl in Hlt; discriminate|]. apply F. simpl. auto. }
      assert (V1 : forall i id, pget (t_phrases (with_phrases m1 t)) i = Some id -> id < length (w_heap w1)).
      { intros i id. cbn [with_phrases t_phrases]. rewrite G1, L1. destruct (Z.eqb i i0); intro Hx.
        - inversion Hx; subst. unfold n. lia.
        - apply V in Hx. unfold n. lia. }
      assert (Vm1 : valid (w_heap w1) m).
      { intros i id Hi. rewrite L1. assert (id < length (w_heap w)) by (eapply Vm; simpl; eauto). unfold n. lia. }
      destruct (IH w1 w' k _ S' Hk1 F1 V1 Vm1 E) as (m' & A1 & A2 & A3 & A4 & A5 & A6 & A7).
      exists m'. rewrite L1 in *.
      assert (Hw1 : forall id p, nth_error (w_heap w) id = Some p -> nth_error (w_heap w1) id = Some p).
      { intros id p' Hx. rewrite Hh, nth_error_app1; auto. apply nth_error_Some. congruence. }
      split; [exact A1|]. split; [congruence|]. split.
      { intros j N. rewrite A3 by auto. auto. }
      split; [auto|]. split; [|split; [|unfold n in *; lia]].
      + intro i. unfold pget in *. cbn [mget]. destruct (Z.eqb_spec i i0) as [->|N].
        * specialize (A5 i0). assert (Hn : mget Z.eqb m i0 = None).
          { destruct (mget Z.eqb m i0) eqn:Ex; auto. apply (mget_in _ Z.eqb_eq) in Ex.
            assert (Z.ltb i0 i0 = true) by (apply F'; apply (in_map fst) in Ex; exact Ex). rewrite Z.ltb_irrefl in *. discriminate. }
          rewrite Hn in A5. cbn [with_phrases t_phrases] in A5. rewrite G1 in A5. rewrite Z.eqb_refl in A5.
          exists n, p, q, (ev_add (p_events q) k k). rewrite A5. split; auto. split; [unfold n; lia|]. split; auto. split; auto.
          apply A4. rewrite Hh, nth_error_app2 by (unfold n; lia). unfold n. rewrite Nat.sub_diag. reflexivity.
        * specialize (A5 i). destruct (mget Z.eqb m i) as [id|] eqn:Ei.
          -- destruct A5 as (id' & p' & q' & ev & B1 & B2 & B3 & B4 & B5). exists id', p', q', ev. split; auto. split; [unfold n in *; lia|].
             split; [|auto].
             (* the source phrase is not the copy just made *)
             rewrite Hh in B3. destruct (Nat.lt_ge_cases id n) as [Lt|Ge].
             ++ rewrite nth_error_app1 in B3 by auto. auto.
             ++ exfalso. apply (mget_in _ Z.eqb_eq) in Ei. assert (id < length (w_heap w)) by (eapply Vm; simpl; eauto). unfold n in *. lia.
          -- rewrite A5. cbn [with_phrases t_phrases]. rewrite G1. destruct (Z.eqb_spec i i0); congruence.
      + intros i j id L Hi Hj. destruct (Nat.eq_dec id n) as [->|Nn]; [|apply (A6 i j id); auto; unfold n in *; lia].
        assert (G : forall x, pget m' x = Some n -> x = i0).
        { intros x Hx. specialize (A5 x). destruct (pget m x) as [d|].
          - destruct A5 as (id' & _ & _ & _ & B1 & B2 & _). rewrite B1 in Hx. inversion Hx; subst. lia.
          - rewrite A5 in Hx. cbn [with_phrases t_phrases] in Hx. rewrite G1 in Hx.
            destruct (Z.eqb_spec x i0); auto. apply V in Hx. unfold n in *. lia. }
        rewrite (G i Hi), (G j Hj). reflexivity.
  Qed.
End Independence.
