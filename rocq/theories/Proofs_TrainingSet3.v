(** Proofs about training sets: every operation keeps labels and classes right (C24). *)
From Coq Require Import String List Bool Arith Lia ZArith.
From Verif Require Import Base BaseFacts Arith Model_Map Model_Attribute Model_Events Model_Json Model_Phrase
  Model_TrainingSet Spec_Phrase Spec_TrainingSet.
From Verif Require Import Proofs_Map Proofs_Phrase Proofs_Phrase2 Proofs_TrainingSet Proofs_TrainingSet2.
Import ListNotations.
Local Open Scope nat_scope.

Section Steps.
  Context {A : arith}.
  Local Notation phrase := (phrase (A:=A)).
  Local Notation world := (world A).

  Lemma inv_any : forall X (w : world), inv w -> invX X w.
  Proof. intros X w H. apply (invX_mono (fun _ => False)); [intros k []|exact H]. Qed.

  Lemma phrase_new_events : forall own bim, p_events (phrase_new (A:=A) own bim) = [].
  Proof. reflexivity. Qed.

  Lemma tame_set_dim : forall b n, tame (set_dimension (A:=A) b n).
  Proof. intros b n. exact (tame_step b (PSetDim n)). Qed.
  Lemma tame_set_din : forall b n, tame (set_dimension_input (A:=A) b n).
  Proof. intros b n. exact (tame_step b (PSetDimIn n)). Qed.

  (** A phrase call that keeps listeners but may change the label, on a phrase that only sets in
      [X] contain. *)
  Lemma relabel_inv : forall (X : nat -> Prop) (w w' : world) id lab out, invX X w ->
    (forall k t i, set_at w k = Some t -> In (i, id) (t_phrases t) -> X k) ->
    on_phrase id (smod (set_label lab)) w = (w', out) -> out <> UB -> invX X w' /\ out = Ok tt.
  Proof.
    intros X w w' id lab out I HX H Hu. destruct (on_phrase_inv _ _ _ _ _ H Hu) as (p & p' & Hp & Hm & ->).
    inversion Hm; subst. split; auto. clear H Hu Hm. split.
    - eapply evok_upd; eauto; [apply I|]. simpl. intros. eapply (proj1 I); eauto.
    - intros k t Hk. simpl in Hk. destruct (proj2 I k t Hk) as ((S1 & S2 & S3) & M). split.
      + split; auto. split; auto. intros i d Hi. destruct (S3 _ _ Hi) as (q & Hq & Hl). simpl.
        destruct (Nat.eq_dec d id) as [->|N].
        * rewrite nth_error_upd_eq by (apply nth_error_Some; congruence). eexists. split; eauto. simpl.
          assert (q = p) by congruence. subst. auto.
        * rewrite nth_error_upd_neq by auto. eauto.
      + intro Nx. specialize (M Nx). eapply mirrors_ext; eauto. intros i d l Hi.
        apply getPhrase_in in Hi; auto. unfold has_label. simpl.
        rewrite nth_error_upd_neq; [tauto|]. intros <-. apply Nx. eapply HX; eauto.
  Qed.

  Lemma step_new_set : forall (w : world) own bim, inv w ->
    inv (mkWorld (w_heap w) (w_sets w ++ [Some (tset_new own bim)])).
  Proof.
    intros w own bim (E & I). split; auto. intros k t Hk. unfold set_at in Hk. simpl in Hk.
    destruct (Nat.lt_ge_cases k (length (w_sets w))) as [L|L].
    - rewrite nth_error_app1 in Hk by auto. apply (I k t). exact Hk.
    - rewrite nth_error_app2 in Hk by auto. destruct (k - length (w_sets w)) as [|n]; simpl in Hk.
      2: { destruct n; discriminate. }
      inversion Hk; subst t. split.
      + split; [constructor|]. split; [constructor|]. simpl. tauto.
      + intros _. split; [|split; [constructor|]].
        * intro l. simpl. split; [tauto|]. intros (i & id & H & _). discriminate.
        * intro l. simpl. discriminate.
  Qed.

  Lemma step_add_new : forall (w w' : world) k i lab, inv w -> add_new k i lab w = (w', Ok tt) -> inv w'.
  Proof.
    intros w w' k i lab I H. unfold add_new in H.
    apply sbind_ok_inv in H. destruct H as (w1 & t & H1 & H). apply get_set_inv in H1. destruct H1 as (-> & Hk).
    apply sbind_ok_inv in H. destruct H as (w1 & id & H1 & H). rewrite new_phrase_eq in H1. inversion H1; subst w1 id. clear H1.
    set (p0 := phrase_new (t_own t) (t_bim t)) in *.
    set (w1 := mkWorld (w_heap w ++ [p0]) (w_sets w)) in *.
    assert (I1 : invX (eq k) w1).
    { eapply invX_heap; [apply inv_any; exact I| | |]; simpl; auto; [apply hext_app|].
      apply evok_app; [apply I|]. simpl. tauto. }
    assert (Hk1 : set_at w1 k = Some t) by exact Hk.
    apply sbind_ok_inv in H. destruct H as (w2 & [] & H2 & H). rewrite (put_set_eq _ _ _ _ Hk1) in H2. inversion H2 as [H3]. clear H2.
    apply sbind_ok_inv in H. destruct H as (w3 & [] & H2 & H).
    assert (I3 : invX (eq k) w3).
    { eapply (register_inv (eq k) w1 w2 w3 k t i (length (w_heap w)) pput (Ok tt)); eauto; try discriminate.
      unfold w1. simpl. rewrite app_length. simpl. lia. }
    assert (only : forall kk tt0 ii, set_at w3 kk = Some tt0 -> In (ii, length (w_heap w)) (t_phrases tt0) -> k = kk).
    { intros kk u ii Hu Hi. destruct (add_listener_inv _ _ _ _ _ H2) as (_ & Hs & _); [discriminate|subst w2; apply I1|].
      unfold set_at in Hu. rewrite Hs in Hu. subst w2. fold (set_at (wput w1 k (with_phrases (pput (t_phrases t) i (length (w_heap w))) t)) kk) in Hu.
      rewrite set_at_wput in Hu by (eapply set_at_lt; eauto). destruct (Nat.eqb_spec kk k); auto.
      assert (Hu' : set_at w kk = Some u) by exact Hu.
      destruct (proj2 I kk u Hu') as (Sh & _). pose proof (shape_valid _ _ _ Sh _ _ Hi). lia. }
    assert (sets : forall b m (wa wb : world) o, on_phrase b m wa = (wb, o) -> o <> UB -> w_sets wb = w_sets wa).
    { intros b m wa wb o Ho Hu. destruct (on_phrase_inv _ _ _ _ _ Ho Hu) as (? & ? & _ & _ & ->). reflexivity. }
    apply sbind_ok_inv in H. destruct H as (w4 & [] & H4 & H).
    pose proof (tame_keeps (eq k) _ _ (tame_set_dim false (t_dim t)) _ _ _ I3 H4 ltac:(discriminate)) as I4.
    apply sbind_ok_inv in H. destruct H as (w5 & [] & H5 & H).
    pose proof (tame_keeps (eq k) _ _ (tame_set_din false (t_din t)) _ _ _ I4 H5 ltac:(discriminate)) as I5.
    apply sbind_ok_inv in H. destruct H as (w6 & [] & H6 & H).
    assert (I6 : invX (eq k) w6).
    { eapply (tame_keeps (eq k)); [|exact I5|exact H6|discriminate]. apply tame_smod. intros; split; reflexivity. }
    apply sbind_ok_inv in H. destruct H as (w7 & [] & H7 & H).
    assert (I7 : invX (eq k) w7).
    { eapply relabel_inv; [exact I6| |exact H7|discriminate].
      intros kk u ii Hu Hi. apply (only kk u ii); auto. unfold set_at in *.
      rewrite (sets _ _ _ _ _ H6) in Hu by discriminate. rewrite (sets _ _ _ _ _ H5) in Hu by discriminate.
      rewrite (sets _ _ _ _ _ H4) in Hu by discriminate. exact Hu. }
    eapply update_inv_only; eauto.
  Qed.

  Lemma step_add_copy : forall (w w' : world) k i src, inv w -> add_copy k i src w = (w', Ok tt) -> inv w'.
  Proof.
    intros w w' k i src I H. unfold add_copy in H.
    apply sbind_ok_inv in H. destruct H as (w1 & p & H1 & H).
    assert (w1 = w). { unfold get_phrase, sbind, sget, slift in H1. inversion H1; auto. } subst w1. clear H1.
    apply sbind_ok_inv in H. destruct H as (w1 & q & H1 & H). unfold slift in H1. inversion H1 as [[Hw Hq]]. subst w1. clear H1.
    apply sbind_ok_inv in H. destruct H as (w1 & id & H1 & H). rewrite new_phrase_eq in H1. inversion H1; subst w1 id. clear H1.
    assert (He : p_events q = []).
    { unfold phrase_copy in Hq. destruct (p_own p); [|discriminate].
      destruct (copy_blocks p) as [[b0 b1]|e|]; try discriminate. inversion Hq; subst. reflexivity. }
    set (w1 := mkWorld (w_heap w ++ [q]) (w_sets w)) in *.
    assert (I1 : invX (eq k) w1).
    { eapply invX_heap; [apply inv_any; exact I| | |]; simpl; auto; [apply hext_app|].
      apply evok_app; [apply I|]. rewrite He. simpl. tauto. }
    apply sbind_ok_inv in H. destruct H as (w2 & [] & H2 & H).
    apply mod_set_inv in H2; [|discriminate]. destruct H2 as (t & Hk & E2 & _).
    apply sbind_ok_inv in H. destruct H as (w3 & [] & H3 & H).
    (* the listeners of the fresh copy are already empty *)
    assert (w3 = w2).
    { destruct (on_phrase_inv _ _ _ _ _ H3) as (p1 & p2 & Hp1 & Hm & ->); [discriminate|].
      inversion Hm; subst p2. subst w2. cbn [wput w_heap w_sets w1] in *.
      rewrite nth_error_app2 in Hp1 by lia. rewrite Nat.sub_diag in Hp1. inversion Hp1; subst p1.
      unfold wput. cbn [w_heap w_sets]. f_equal.
      assert (Hs : set_events [] q = q) by (destruct q; simpl in He; subst; reflexivity). rewrite Hs.
      clear. induction (w_heap w); simpl; auto. f_equal. auto. }
    subst w3. apply sbind_ok_inv in H. destruct H as (w3 & [] & H4 & H).
    assert (I3 : invX (eq k) w3).
    { eapply (register_inv (eq k) w1 w2 w3 k t i (length (w_heap w)) pput (Ok tt)); eauto; try discriminate.
      simpl. rewrite app_length. simpl. lia. }
    eapply update_inv_only; eauto.
  Qed.

  Lemma step_add_ptr : forall (w w' : world) k i id, inv w -> add_ptr k i id w = (w', Ok tt) -> inv w'.
  Proof.
    intros w w' k i id I H. unfold add_ptr in H.
    apply sbind_ok_inv in H. destruct H as (w2 & [] & H2 & H).
    apply mod_set_inv in H2; [|discriminate]. destruct H2 as (t & Hk & E2 & _).
    apply sbind_ok_inv in H. destruct H as (w3 & [] & H3 & H).
    assert (I3 : invX (eq k) w3).
    { eapply (register_inv (eq k) w w2 w3 k t i id pput (Ok tt)); eauto; try discriminate; [apply inv_any; auto|].
      unfold add_listener in H3. destruct (on_phrase_inv _ _ _ _ _ H3) as (p1 & p2 & Hp1 & _); [discriminate|]. subst w2. simpl in Hp1.
      apply nth_error_Some. congruence. }
    eapply update_inv_only; eauto.
  Qed.

  Lemma step_remove : forall (w w' : world) k i, inv w -> remove k i w = (w', Ok tt) -> inv w'.
  Proof.
    intros w w' k i I H. unfold remove in H.
    apply sbind_ok_inv in H. destruct H as (w2 & [] & H2 & H).
    apply mod_set_inv in H2; [|discriminate]. destruct H2 as (t & Hk & -> & _).
    eapply update_inv_only; [|eauto|auto]. pose proof (inv_any (eq k) _ I) as I'.
    eapply invX_put; eauto; [|congruence].
    destruct (proj2 I k t Hk) as ((S1 & S2 & S3) & _). split; [|split; auto].
    - simpl. apply (mdel_sorted _ _). auto.
    - simpl. intros j id Hj. unfold mdel in Hj. apply filter_In in Hj. eapply S3. apply Hj.
  Qed.

  Lemma step_remove_class : forall (w w' : world) k l, inv w -> remove_class k l w = (w', Ok tt) -> inv w'.
  Proof.
    intros w w' k l I H. unfold remove_class in H.
    apply sbind_ok_inv in H. destruct H as (w1 & t & H1 & H). apply get_set_inv in H1. destruct H1 as (-> & Hk).
    apply sbind_ok_inv in H. destruct H as (w1 & [] & H1 & H).
    assert (I1 : inv w1).
    { clear H. revert H1. generalize (S (length (t_phrases t))). clear Hk t. intro fuel. revert w I.
      induction fuel as [|f IH]; intros w I H1; simpl in H1; [discriminate|].
      apply sbind_ok_inv in H1. destruct H1 as (w2 & t & H2 & H1). apply get_set_inv in H2. destruct H2 as (-> & Hk).
      apply sbind_ok_inv in H1. destruct H1 as (w2 & w3 & H2 & H1). inversion H2; subst w2 w3. clear H2.
      apply sbind_ok_inv in H1. destruct H1 as (w2 & o & H2 & H1). unfold slift in H2. injection H2 as Ew _. subst w2.
      destruct o as [i|].
      - apply sbind_ok_inv in H1. destruct H1 as (w2 & [] & H3 & H1). apply (IH w2); auto.
        eapply step_remove; eauto.
      - inversion H1; subst. auto. }
    eapply update_inv_only; eauto. apply inv_any. auto.
  Qed.

  Lemma step_clear : forall (w w' : world) k out, inv w -> tclear k w = (w', out) -> out <> UB -> inv w'.
  Proof.
    intros w w' k out I H Hu. apply mod_set_inv in H; auto. destruct H as (t & Hk & -> & _).
    eapply invX_put; eauto.
    - split; [constructor|]. split; [constructor|]. simpl. tauto.
    - intros _. split; [|split; [constructor|]].
      + intro l. simpl. split; [tauto|]. intros (i & id & H & _). discriminate.
      + intro l. simpl. discriminate.
  Qed.

  (** Attribute changes keep the phrases and the classes. *)
  Lemma put_keeps_class : forall X (w : world) k t t', invX X w -> set_at w k = Some t ->
    t_phrases t' = t_phrases t -> t_labels t' = t_labels t -> ksorted String.ltb (t_subs t') ->
    (forall l, option_map u_phrases (getPhrasesOfClass t' l) = option_map u_phrases (getPhrasesOfClass t l)) ->
    invX X (wput w k t').
  Proof.
    intros X w k t t' I Hk Ep El Ss Es. destruct (proj2 I k t Hk) as ((S1 & S2 & S3) & M).
    eapply invX_put; eauto.
    - split; [rewrite Ep; auto|]. split; [auto|]. rewrite Ep. auto.
    - intro Nx. eapply mirrors_ext; eauto. { intro i. unfold getPhrase. rewrite Ep. reflexivity. } tauto.
  Qed.

  Definition classes_like (t t' : tset) : Prop :=
    forall l, option_map u_phrases (getPhrasesOfClass t' l) = option_map u_phrases (getPhrasesOfClass t l).

  Lemma mget_map : forall (f : string * subset -> subset) m l,
    mget String.eqb (map (fun e => (fst e, f e)) m) l = match mget String.eqb m l with Some u => Some (f (l, u)) | None => None end.
  Proof.
    induction m as [|[a u] m IH]; intro l; simpl; auto. destruct (String.eqb_spec l a) as [->|N]; auto.
  Qed.

  Lemma step_dimension : forall (w w' : world) k n out, inv w -> tset_dimension k n w = (w', out) -> out <> UB -> inv w'.
  Proof.
    intros w w' k n out I H Hu. unfold tset_dimension in H. unfold sbind at 1 in H.
    destruct (set_at w k) as [t|] eqn:Hk.
    2: { rewrite (get_set_none _ _ Hk) in H. inversion H; subst; congruence. }
    rewrite (get_set_eq _ _ _ Hk) in H. unfold sbind at 1 in H. unfold slift in H.
    destruct (checkLimits _ _ _ _) as [u|e|]; [|inversion H; subst; auto|inversion H; subst; congruence].
    unfold sbind at 1 in H. rewrite (put_set_eq _ _ _ _ Hk) in H.
    revert H. set (w1 := wput w k _). intro H.
    assert (I1 : inv w1).
    { eapply put_keeps_class; eauto. apply (proj2 I k t Hk). }
    revert H Hu. revert I1. generalize w1. generalize (t_phrases t). clear. intros m w1 I1 H Hu.
    revert H Hu. revert I1. unfold inv. revert w1 w' out.
    match goal with |- forall w1 w' out, _ -> ?m w1 = _ -> _ => change (keeps (invX (fun _ => False)) m) end.
    apply keeps_bind.
    - apply keeps_foreach. intros e _. apply tame_keeps. apply tame_set_dim.
    - intros _ w w2 o I2 H2 Hu2. apply mod_set_inv in H2; auto. destruct H2 as (t & Hk & -> & _).
      assert (Hm : forall l, mget String.eqb (map (fun e : string * subset => (fst e, mkSub n (u_din (snd e)) (u_din_max (snd e))
          (u_cols (snd e)) (u_phrases (snd e)))) (t_subs t)) l = match mget String.eqb (t_subs t) l with
          | Some u => Some (mkSub n (u_din u) (u_din_max u) (u_cols u) (u_phrases u)) | None => None end).
      { intro l. rewrite (mget_map (fun e => mkSub n (u_din (snd e)) (u_din_max (snd e)) (u_cols (snd e)) (u_phrases (snd e)))).
        destruct (mget _ _ _); auto. }
      eapply put_keeps_class; eauto.
      + simpl. unfold ksorted. rewrite map_map. simpl. apply (proj2 I2 k t Hk).
      + intro l. unfold getPhrasesOfClass. simpl. rewrite Hm. destruct (mget String.eqb (t_subs t) l); reflexivity.
  Qed.

  (** The loops over the sub-sets. *)
  Lemma subs_loop : forall X k (f : string * subset -> nat * nat * nat * list string) (chk : string * subset -> res unit) l (w w' : world) t out,
    invX X w -> set_at w k = Some t ->
    (forall e, In e l -> option_map u_phrases (getPhrasesOfClass t (fst e)) = Some (u_phrases (snd e))) ->
    sforeach l (fun e =>
      do* _ := slift (chk e) in
      mod_set k (sub_put (fst e) (let '(a, b, c, d) := f e in mkSub a b c d (u_phrases (snd e))))) w = (w', out) ->
    out <> UB -> invX X w'.
  Proof.
    induction l as [|e l IH]; intros w w' t out I Hk Hl H Hu; cbn [sforeach] in H.
    - inversion H; subst; auto.
    - unfold sbind at 1 in H. unfold sbind at 1 in H. unfold slift in H.
      destruct (chk e) as [u|x|]; [|inversion H; subst; auto|inversion H; subst; congruence].
      rewrite (mod_set_eq _ _ _ _ Hk) in H. revert H. set (t1 := sub_put _ _ t). intro H.
      assert (Hg : forall l0, option_map u_phrases (getPhrasesOfClass t1 l0) = option_map u_phrases (getPhrasesOfClass t l0)).
      { intro l0. unfold getPhrasesOfClass, t1, sub_put, with_subs. cbn [t_subs]. rewrite (mget_mput _ _ String.eqb_eq).
        destruct (String.eqb_spec l0 (fst e)) as [->|N]; auto. specialize (Hl e (or_introl eq_refl)).
        unfold getPhrasesOfClass in Hl. rewrite Hl. destruct (f e) as [[[a b] c] d]. reflexivity. }
      apply (IH (wput w k t1) w' t1 out); auto.
      + eapply put_keeps_class; eauto. unfold t1. simpl.
        apply (mput_sorted _ _ String.eqb_eq str_ltb_trans str_ltb_total). apply (proj2 I k t Hk).
      + rewrite set_at_wput by (eapply set_at_lt; eauto). rewrite Nat.eqb_refl. reflexivity.
      + intros e' He'. rewrite Hg. apply Hl. simpl. auto.
  Qed.

  Lemma sforeach_ext : forall {S X} (l : list X) (f g : X -> stm S unit) s,
    (forall x s, f x s = g x s) -> sforeach l f s = sforeach l g s.
  Proof.
    intros S X l f g s H. revert s. induction l as [|x l IH]; intro s; simpl; auto.
    unfold sbind. rewrite H. destruct (g x s) as [s1 [u|e|]]; auto.
  Qed.

  Lemma foreach_sets : forall (l : list (Z * nat)) (m : Z * nat -> stm phrase unit) (w w' : world) out,
    sforeach l (fun e => on_phrase (snd e) (m e)) w = (w', out) -> out <> UB -> w_sets w' = w_sets w.
  Proof.
    induction l as [|e l IH]; intros m w w' out H Hu; simpl in H.
    - inversion H; auto.
    - unfold sbind in H. destruct (on_phrase (snd e) (m e) w) as [w1 o] eqn:E.
      destruct o.
      + rewrite (IH _ _ _ _ H Hu). destruct (on_phrase_inv _ _ _ _ _ E) as (? & ? & _ & _ & ->); [discriminate|]. reflexivity.
      + destruct (on_phrase_inv _ _ _ _ _ E) as (? & ? & _ & _ & ->); [discriminate|]. inversion H. reflexivity.
      + inversion H; subst. congruence.
  Qed.

  Lemma step_dimension_input : forall (w w' : world) k n out, inv w -> tset_dimension_input k n w = (w', out) -> out <> UB -> inv w'.
  Proof.
    intros w w' k n out I H Hu. unfold tset_dimension_input in H. unfold sbind at 1 in H.
    destruct (set_at w k) as [t|] eqn:Hk.
    2: { rewrite (get_set_none _ _ Hk) in H. inversion H; subst; congruence. }
    rewrite (get_set_eq _ _ _ Hk) in H. unfold sbind at 1 in H. unfold slift at 1 in H.
    destruct (checkLimits _ _ _ _) as [u|e|]; [|inversion H; subst; auto|inversion H; subst; congruence].
    unfold sbind at 1 in H. rewrite (put_set_eq _ _ _ _ Hk) in H.
    revert H. set (t1 := with_dims _ _ _ _ t). intro H.
    pose proof (proj2 I k t Hk) as ((S1 & S2 & S3) & _).
    assert (I1 : inv (wput w k t1)) by (eapply put_keeps_class; eauto).
    unfold sbind at 1 in H.
    destruct (sforeach (t_phrases t) (fun e => on_phrase (snd e) (set_dimension_input false n)) (wput w k t1)) as [w2 o2] eqn:E2.
    assert (Ho2 : o2 <> UB) by (intros ->; inversion H; subst; congruence).
    assert (I2 : inv w2).
    { eapply (keeps_foreach (invX (fun _ => False))); [|exact I1|exact E2|auto].
      intros e _. apply tame_keeps. apply tame_set_din. }
    assert (Hk2 : set_at w2 k = Some t1).
    { unfold set_at. rewrite (foreach_sets _ (fun _ => set_dimension_input false n) _ _ _ E2 Ho2).
      fold (set_at (wput w k t1) k). rewrite set_at_wput by (eapply set_at_lt; eauto). rewrite Nat.eqb_refl. reflexivity. }
    destruct o2 as [u2|e|]; [|inversion H; subst; auto|congruence].
    eapply (subs_loop (fun _ => False) k (fun e => (u_dim (snd e), n, u_din_max (snd e), u_cols (snd e)))
             (fun e => checkLimits Nat.ltb n (t_din_min (t_bim t)) (u_din_max (snd e))) (t_subs t)); eauto.
    intros [l u3] He. unfold getPhrasesOfClass. simpl.
    rewrite (in_mget _ _ String.eqb_eq str_ltb_irrefl _ _ _ S2 He). reflexivity.
  Qed.

  Lemma step_columns : forall (w w' : world) k v out, inv w -> tset_columns k v w = (w', out) -> out <> UB -> inv w'.
  Proof.
    intros w w' k v out I H Hu. unfold tset_columns in H. unfold sbind at 1 in H.
    destruct (set_at w k) as [t|] eqn:Hk.
    2: { rewrite (get_set_none _ _ Hk) in H. inversion H; subst; congruence. }
    rewrite (get_set_eq _ _ _ Hk) in H. destruct (negb _); [inversion H; subst; auto|].
    unfold sbind at 1 in H. rewrite (put_set_eq _ _ _ _ Hk) in H.
    revert H. set (t1 := with_dims _ _ _ _ t). intro H.
    pose proof (proj2 I k t Hk) as ((S1 & S2 & S3) & _).
    assert (I1 : inv (wput w k t1)) by (eapply put_keeps_class; eauto).
    unfold sbind at 1 in H.
    destruct (sforeach (t_phrases t) (fun e => on_phrase (snd e) (smod (set_cols v))) (wput w k t1)) as [w2 o2] eqn:E2.
    assert (Ho2 : o2 <> UB) by (intros ->; inversion H; subst; congruence).
    assert (I2 : inv w2).
    { eapply (keeps_foreach (invX (fun _ => False))); [|exact I1|exact E2|auto].
      intros e _. apply tame_keeps. apply tame_smod. intros; split; reflexivity. }
    assert (Hk2 : set_at w2 k = Some t1).
    { unfold set_at. rewrite (foreach_sets _ (fun _ => smod (set_cols v)) _ _ _ E2 Ho2).
      fold (set_at (wput w k t1) k). rewrite set_at_wput by (eapply set_at_lt; eauto). rewrite Nat.eqb_refl. reflexivity. }
    destruct o2 as [u2|e|]; [|inversion H; subst; auto|congruence].
    eapply (subs_loop (fun _ => False) k (fun e => (u_dim (snd e), u_din (snd e), u_din_max (snd e), v))
             (fun e => if negb (length v =? length (u_cols (snd e))) then Throw DomainError else Ok tt) (t_subs t) w2 w' t1 out); auto.
    - intros [l u3] He. unfold getPhrasesOfClass. simpl.
      rewrite (in_mget _ _ String.eqb_eq str_ltb_irrefl _ _ _ S2 He). reflexivity.
    - etransitivity; [|exact H]. apply sforeach_ext. intros e s. destruct (negb _); reflexivity.
  Qed.

  (** Assignment. *)
  Lemma copy_events : forall (p q : phrase), phrase_copy p = Ok q -> p_events q = [].
  Proof.
    intros p q Hq. unfold phrase_copy in Hq. destruct (p_own p); [|discriminate].
    destruct (copy_blocks p) as [[b0 b1]|e|]; try discriminate. inversion Hq; subst. reflexivity.
  Qed.

  Lemma copy_phrases_inv : forall m (w w' : world) k, invX (eq k) w -> copy_phrases k m w = (w', Ok tt) -> invX (eq k) w'.
  Proof.
    induction m as [|e m IH]; intros w w' k I H; cbn [copy_phrases sforeach] in H.
    - inversion H; subst; auto.
    - unfold copy_phrases in H. cbn [sforeach] in H. apply sbind_ok_inv in H. destruct H as (w1 & [] & H1 & H).
      eapply IH; [|exact H]. clear H IH.
      apply sbind_ok_inv in H1. destruct H1 as (w2 & p & H2 & H1).
      assert (w2 = w). { unfold get_phrase, sbind, sget, slift in H2. inversion H2; auto. } subst w2. clear H2.
      apply sbind_ok_inv in H1. destruct H1 as (w2 & q & H2 & H1). unfold slift in H2. inversion H2 as [[Hw Hq]]. subst w2. clear H2.
      apply sbind_ok_inv in H1. destruct H1 as (w2 & id & H2 & H1). rewrite new_phrase_eq in H2. inversion H2; subst w2 id. clear H2.
      pose proof (copy_events _ _ Hq) as He.
      set (w2 := mkWorld (w_heap w ++ [q]) (w_sets w)) in *.
      assert (I2 : invX (eq k) w2).
      { eapply invX_heap; [exact I| | |]; simpl; auto; [apply hext_app|]. apply evok_app; [apply I|]. rewrite He. simpl. tauto. }
      apply sbind_ok_inv in H1. destruct H1 as (w3 & [] & H2 & H1).
      apply mod_set_inv in H2; [|discriminate]. destruct H2 as (t & Hk & E2 & _).
      eapply (register_inv (eq k) w2 w3 w1 k t (fst e) (length (w_heap w)) (minsert Z.eqb Z.ltb) (Ok tt)); eauto; try discriminate.
      simpl. rewrite app_length. simpl. lia.
  Qed.

  Lemma step_assign : forall (w w' : world) k src, inv w -> tset_assign k src w = (w', Ok tt) -> inv w'.
  Proof.
    intros w w' k src I H. unfold tset_assign in H. destruct (k =? src); [inversion H; subst; auto|].
    apply sbind_ok_inv in H. destruct H as (w1 & [] & H1 & H).
    pose proof (step_clear _ _ _ _ I H1 ltac:(discriminate)) as I1.
    apply mod_set_inv in H1; [|discriminate]. destruct H1 as (t & Hk & E1 & _).
    apply sbind_ok_inv in H. destruct H as (w2 & s & H2 & H). apply get_set_inv in H2. destruct H2 as (-> & Hs).
    apply sbind_ok_inv in H. destruct H as (w2 & [] & H2 & H).
    assert (Hk1 : exists t1, set_at w1 k = Some t1).
    { subst w1. rewrite set_at_wput by (eapply set_at_lt; eauto). rewrite Nat.eqb_refl. eauto. }
    destruct Hk1 as (t1 & Hk1). rewrite (put_set_eq _ _ _ _ Hk1) in H2. inversion H2; subst w2. clear H2.
    apply sbind_ok_inv in H. destruct H as (w3 & [] & H3 & H).
    eapply update_inv_only; [|exact H|auto]. eapply copy_phrases_inv; [|exact H3].
    eapply invX_put; eauto; [apply inv_any; exact I1| |congruence].
    split; [constructor|]. split; [constructor|]. simpl. tauto.
  Qed.

  (** The copy constructor. *)
  Lemma step_copy : forall (w w' : world) src, inv w -> tset_copy src w = (w', Ok tt) -> inv w'.
  Proof.
    intros w w' src I H. unfold tset_copy in H.
    apply sbind_ok_inv in H. destruct H as (w1 & s & H1 & H). apply get_set_inv in H1. destruct H1 as (-> & Hs).
    apply sbind_ok_inv in H. destruct H as (w1 & w2 & H1 & H). inversion H1; subst w1 w2. clear H1.
    apply sbind_ok_inv in H. destruct H as (w1 & [] & H1 & H). inversion H1; subst w1. clear H1.
    apply sbind_ok_inv in H. destruct H as (w2 & [] & H1 & H).
    set (k := length (w_sets w)) in *.
    eapply update_inv_only; [|exact H|auto]. clear H w'.
    assert (L : forall m (wa wb : world), evok (w_heap wa) ->
       sforeach m (fun e : Z * nat => do* p := get_phrase (snd e) in do* q := slift (phrase_copy p) in
         do* _ := slift (phrase_destroy q) in add_listener k (snd e)) wa = (wb, Ok tt) ->
       w_sets wb = w_sets wa /\ hext (w_heap wa) (w_heap wb) /\ evok (w_heap wb) /\
       forall i id, In (i, id) m -> exists p, nth_error (w_heap wb) id = Some p /\ In (k, k) (p_events p)).
    { induction m as [|e m IH]; intros wa wb Ev H; cbn [sforeach] in H.
      - inversion H; subst. split; auto. split; [apply hext_refl|]. split; auto. simpl. tauto.
      - apply sbind_ok_inv in H. destruct H as (wc & [] & H2 & H).
        apply sbind_ok_inv in H2. destruct H2 as (wd & p & H3 & H2).
        assert (wd = wa). { unfold get_phrase, sbind, sget, slift in H3. inversion H3; auto. } subst wd. clear H3.
        apply sbind_ok_inv in H2. destruct H2 as (wd & q & H3 & H2). unfold slift in H3. inversion H3; subst wd. clear H3.
        apply sbind_ok_inv in H2. destruct H2 as (wd & u & H3 & H2). unfold slift in H3. inversion H3; subst wd. clear H3.
        destruct (add_listener_inv _ _ _ _ _ H2) as (_ & Q1 & Q2 & Q3 & (p' & Hp & Hl) & _); [discriminate|auto|].
        destruct (IH _ _ Q3 H) as (R1 & R2 & R3 & R4). split; [congruence|]. split; [eapply hext_trans; eauto|]. split; auto.
        intros i id [He|Hi]; eauto. subst e. simpl in *. destruct (R2 _ _ Hp) as (p'' & Hp'' & _ & Hi). eauto. }
    destruct (L _ (mkWorld (w_heap w) (w_sets w ++ [Some (with_subs [] s)])) _ (proj1 I) H1) as (R1 & R2 & R3 & R4). simpl in R1, R2. clear L H1.
    split; auto. intros j t Hj. unfold set_at in Hj. rewrite R1 in Hj.
    destruct (Nat.lt_ge_cases j (length (w_sets w))) as [Lj|Lj].
    - rewrite nth_error_app1 in Hj by auto. assert (Hj' : set_at w j = Some t) by exact Hj.
      destruct (proj2 I j t Hj') as (S & M). split; [eapply shape_hext; eauto|].
      intros _. assert (M0 : mirrors w t) by (apply M; auto). eapply mirrors_ext; eauto. intros i id l Hi. apply has_label_hext; auto.
      eapply shape_valid; eauto. apply getPhrase_in; [apply S|]. eauto.
    - rewrite nth_error_app2 in Hj by auto. destruct (j - length (w_sets w)) as [|n] eqn:En; simpl in Hj.
      2: { destruct n; discriminate. }
      assert (j = k) by (unfold k; lia). subst j. inversion Hj; subst t. split; [|congruence].
      destruct (proj2 I src s Hs) as ((S1 & S2 & S3) & _).
      split; auto. split; [constructor|]. simpl. auto.
  Qed.

  (** Relabelling. *)
  Lemma step_label : forall (w w' : world) id lab, inv w -> world_step (WLabel id lab) w = (w', Ok tt) -> inv w'.
  Proof.
    intros w w' id lab I H. cbn [world_step] in H.
    apply sbind_ok_inv in H. destruct H as (w1 & [] & H1 & H).
    apply sbind_ok_inv in H. destruct H as (w2 & p & H2 & H).
    assert (Hw : w2 = w1 /\ nth_error (w_heap w1) id = Some p).
    { unfold get_phrase, sbind, sget, slift, rd in H2. destruct (nth_error (w_heap w1) id); inversion H2; auto. }
    destruct Hw as (-> & Hp). clear H2.
    destruct (on_phrase_inv _ _ _ _ _ H1) as (p0 & p1 & Hp0 & Hm & Ew); [discriminate|]. inversion Hm; subst p1. clear Hm.
    assert (p = set_label lab p0).
    { subst w1. simpl in Hp. rewrite nth_error_upd_eq in Hp by (apply nth_error_Some; congruence). congruence. }
    assert (Hev : p_events p = p_events p0) by (subst p; reflexivity).
    assert (HX : invX (fun k => In k (map snd (p_events p))) w1).
    { eapply relabel_inv; [apply inv_any; exact I| |exact H1|discriminate].
      intros k t i Hk Hi. destruct (proj2 I k t Hk) as ((_ & _ & S3) & _). destruct (S3 _ _ Hi) as (q & Hq & Hl).
      assert (q = p0) by congruence. subst q. rewrite Hev. change k with (snd (k, k)). apply in_map. auto. }
    unfold notify, ev_notify in H. clear - HX H. revert w1 HX H.
    generalize (p_events p). induction l as [|[o c] l IH]; intros w1 HX H.
    - cbn [map sforeach] in H. inversion H; subst. eapply invX_mono; [|exact HX]. simpl. tauto.
    - cbn [map sforeach] in H. apply sbind_ok_inv in H. destruct H as (w2 & [] & H2 & H). cbn [fst snd] in H2.
      eapply IH; [|exact H]. eapply invX_mono; [|eapply update_inv; eauto]. simpl. intros k ([->|Hk] & N); congruence || auto.
  Qed.

  Lemma step_inv : forall o (w w' : world) out, inv w -> world_step o w = (w', out) -> out <> UB ->
    (updates o -> out = Ok tt) -> inv w'.
  Proof.
    intros o w w' out I H Hu HO. destruct o; cbn [updates] in HO;
      try (specialize (HO Logic.I); subst out); cbn [world_step] in H.
    - inversion H; subst. apply step_new_set. auto.
    - unfold sbind in H. rewrite new_phrase_eq in H. inversion H; subst.
      eapply invX_heap; [exact I|reflexivity|apply hext_app|]. simpl. apply evok_app; [apply I|]. simpl. tauto.
    - eapply step_add_new; eauto.
    - eapply step_add_copy; eauto.
    - eapply step_add_ptr; eauto.
    - eapply step_remove; eauto.
    - eapply step_remove_class; eauto.
    - eapply step_clear; eauto.
    - eapply step_dimension; eauto.
    - eapply step_dimension_input; eauto.
    - eapply step_columns; eauto.
    - eapply step_assign; eauto.
    - eapply step_copy; eauto.
    - unfold tset_destroy in H. unfold sbind at 1 in H. destruct (set_at w k) as [t|] eqn:Hk.
      2: { rewrite (get_set_none _ _ Hk) in H. inversion H; subst; congruence. }
      rewrite (get_set_eq _ _ _ Hk) in H. unfold sbind, sget, slift, sput in H.
      rewrite wr_ok in H by (eapply set_at_lt; eauto). inversion H; subst.
      split; [apply I|]. intros j u Hj. unfold set_at in Hj. simpl in Hj.
      destruct (Nat.eq_dec j k) as [->|N].
      + rewrite nth_error_upd_eq in Hj by (eapply set_at_lt; eauto). discriminate.
      + rewrite nth_error_upd_neq in Hj by auto. apply (proj2 I j u). exact Hj.
    - eapply step_label; eauto.
    - eapply (tame_keeps (fun _ => False)); [apply tame_step|exact I|exact H|auto].
  Qed.

  Lemma run_inv : forall ops (w w' : world) outs, inv w -> world_run w ops = Ok (w', outs) ->
    (forall n o, nth_error ops n = Some o -> updates o -> nth_error outs n = Some (Ok tt)) -> inv w'.
  Proof.
    induction ops as [|o ops IH]; intros w w' outs I H HO; cbn [world_run] in H.
    - inversion H; subst; auto.
    - destruct (world_step o w) as [w1 out] eqn:E.
      assert (Hx : exists outs', out <> UB /\ world_run w1 ops = Ok (w', outs') /\ outs = out :: outs').
      { destruct out; try discriminate; destruct (world_run w1 ops) as [[w2 outs']|e'|]; try discriminate;
          inversion H; subst; exists outs'; repeat split; discriminate. }
      destruct Hx as (outs' & Hu & Hr & ->).
      eapply IH; [|exact Hr|].
      + eapply step_inv; eauto. intro U. specialize (HO 0 o eq_refl U). simpl in HO. congruence.
      + intros n o' Hn U. exact (HO (S n) o' Hn U).
  Qed.

  Lemma tset_mirrors : forall ops (w : world) outs,
    world_run world_new ops = Ok (w, outs) ->
    (forall n o, nth_error ops n = Some o -> updates o -> nth_error outs n = Some (Ok tt)) ->
    forall k t, set_at w k = Some t -> mirrors w t.
  Proof.
    intros ops w outs H HO k t Hk.
    assert (I : inv w).
    { eapply run_inv; eauto. split.
      - intros id p o c Hp. destruct id; discriminate.
      - intros j u Hj. destruct j; discriminate. }
    apply (proj2 I k t Hk). auto.
  Qed.
End Steps.
