(** Model objects: closed forms of the operations and the invariant of histories. *)
From Coq Require Import String List Bool Arith Lia.
From Verif Require Import Base BaseFacts Arith Model_Map Proofs_Map Model_Phrase Model_Gaussian Model_Shared Proofs_Shared Model_Train Model_Model Spec_Model.
From Verif Require Import Proofs_Gaussian Proofs_Gaussian4.
Import ListNotations.
Local Open Scope nat_scope.

Lemma upd_upd : forall {X} (v : list X) i x y, upd (upd v i x) i y = upd v i y.
Proof. intros X. induction v as [|z v IH]; intros [|i] x y; cbn; try reflexivity. rewrite IH. reflexivity. Qed.
Lemma nth_error_upd : forall {X} (v : list X) i j x y, nth_error v i = Some y ->
  nth_error (upd v i x) j = if j =? i then Some x else nth_error v j.
Proof.
  intros X v i j x y H. destruct (Nat.eqb_spec j i) as [->|N].
  - apply nth_error_upd_eq. apply nth_error_Some. congruence.
  - apply nth_error_upd_neq. congruence.
Qed.

Section Models.
  Context {A : arith}.
  Local Notation mworld := (mworld A).

  (** The limits of the shared parameters follow the mode. *)
  Definition lim (s : shared A) : Prop :=
    1 <= sp_dim s /\ sp_dim_min s = (if sp_bim s then 2 else 1) /\ (sp_bim s = true -> sp_din_min s = 1).

  Ltac rec := cbn [sp_bim sp_dim sp_dim_min sp_din sp_din_min sp_din_max sp_names sp_nsize sp_minit sp_maxit sp_pct sp_win sp_owner
    sp_set_bim sp_set_dim sp_set_din sp_set_names sp_set_em sp_set_owner fst snd].

  Lemma lim_min : forall s, lim s -> 1 <= sp_dim_min s.
  Proof. intros s (_ & -> & _). destruct (sp_bim s); lia. Qed.

  Lemma lim_set : forall o s, lim s -> lim (fst (sp_set o s)).
  Proof.
    intros o s L. pose proof (lim_min s L) as Hm. destruct L as (H1 & H2 & H3).
    destruct o as [[|]|n|n|l|n|n|x|n].
    - rewrite set_on_eq by exact H1. cbv zeta. destruct (Nat.ltb_spec (sp_dim s) 2); rec;
        (destruct (sp_din s <? 1); [match goal with |- context [?a <? 1] => destruct (a <? 1) end|]);
        unfold lim; rec; repeat split; auto; lia.
    - rewrite set_off_eq by exact H1. cbv zeta. destruct (0 <? sp_din_min s); unfold lim; rec; repeat split; auto; discriminate.
    - rewrite set_dim_eq by exact Hm. destruct (Nat.ltb_spec n (sp_dim_min s)); unfold lim; rec; repeat split; auto; lia.
    - unfold sp_set, sp_react, sp_assignS, sbind, sp_assign_value, sret. match goal with |- context [if ?b then Throw _ else _] => destruct b end; unfold lim; rec; repeat split; auto.
    - unfold sp_set, sp_react, sp_assignS, sbind, sp_assign_value, sret. match goal with |- context [if ?b then Throw _ else _] => destruct b end; unfold lim; rec; repeat split; auto.
    - unfold sp_set, sp_react, sp_assignS, sbind, sp_assign_value, sret. match goal with |- context [if ?b then Throw _ else _] => destruct b end; unfold lim; rec; repeat split; auto.
    - unfold lim. cbn. repeat split; auto.
    - unfold sp_set, sp_react, sp_assignS, sbind, sp_assign_value, sret. match goal with |- context [if ?b then Throw _ else _] => destruct b end; unfold lim; rec; repeat split; auto.
    - unfold sp_set, sp_react, sp_assignS, sbind, sp_assign_value, sret. match goal with |- context [if ?b then Throw _ else _] => destruct b end; unfold lim; rec; repeat split; auto.
  Qed.
  Lemma lim_new : forall id, lim (sp_new id).
  Proof. intro id. unfold lim, sp_new. rec. repeat split; auto. discriminate. Qed.
  Lemma lim_run : forall ops s, lim s -> lim (sp_run ops s).
  Proof. induction ops as [|o ops IH]; intros s L; cbn [sp_run]; [exact L|]. apply IH, lim_set, L. Qed.
  Lemma lim_copy : forall id s, lim s -> lim (sp_copy id s).
  Proof. intros id s L. exact L. Qed.

  (** 253-259, on the shared parameters alone. *)
  Definition sp_fetch (ts : tsview) : stm (shared A) unit :=
    do* _ := sp_set (SDim (ts_dim ts)) in
    do* s := sget in
    do* _ := swhen (sp_bim s) (sp_set (SDin (ts_din ts))) in
    sp_set (SNames (ts_names ts)).

  Lemma m_fetch_eq : forall p ts (w : mworld), m_fetch p ts w =
    match nth_error (mw_heap w) p with
    | Some s => let '(s', r) := sp_fetch ts s in (mkMW (upd (mw_heap w) p s') (mw_models w), r)
    | None => (w, UB)
    end.
  Proof.
    intros p ts w. unfold m_fetch, sp_fetch, sbind, sget, get_shared, on_shared. destruct (nth_error (mw_heap w) p) as [s|] eqn:E; [|reflexivity].
    destruct (sp_set (SDim (ts_dim ts)) s) as (s1, [[]|e|]); [|reflexivity..]. cbn [mw_heap mw_models].
    assert (E1 : nth_error (upd (mw_heap w) p s1) p = Some s1) by (rewrite (nth_error_upd _ _ _ _ _ E), Nat.eqb_refl; reflexivity).
    rewrite E1. destruct (sp_bim s1); cbn [swhen].
    - cbn [mw_heap mw_models]. rewrite E1.
      destruct (sp_set (SDin (ts_din ts)) s1) as (s2, [[]|e|]); rewrite ?upd_upd; [|reflexivity..].
      cbn [mw_heap mw_models]. rewrite (nth_error_upd _ _ _ _ _ E), Nat.eqb_refl.
      destruct (sp_set (SNames (ts_names ts)) s2) as (s3, r). rewrite upd_upd. reflexivity.
    - unfold sret. cbn [mw_heap mw_models]. rewrite E1.
      destruct (sp_set (SNames (ts_names ts)) s1) as (s3, r). rewrite upd_upd. reflexivity.
  Qed.

  (** What the shared parameters look like afterwards. *)
  Lemma fetch_fits : forall ts s, lim s -> fits (sp_bim s) ts -> exists s', sp_fetch ts s = (s', Ok tt) /\ lim s' /\
    sp_bim s' = sp_bim s /\ sp_dim s' = ts_dim ts /\ (sp_bim s = true -> sp_din s' = ts_din ts) /\ sp_names s' = ts_names ts /\ sp_win s' = sp_win s.
  Proof.
    intros ts s L (F1 & F2). pose proof (lim_min s L) as Hm. destruct L as (H1 & H2 & H3). unfold sp_fetch. unfold sbind at 1. rewrite set_dim_eq by exact Hm.
    destruct (Nat.ltb_spec (ts_dim ts) (sp_dim_min s)) as [X|_]; [rewrite H2 in X; destruct (sp_bim s); lia|].
    unfold sbind at 1, sget. rec. destruct (sp_bim s) eqn:B.
    - unfold swhen, sbind, sp_set at 1, sp_assignS, sbind, sp_assign_value, sp_react, sret. rec. rewrite (H3 eq_refl).
      destruct (Nat.ltb_spec (ts_din ts) 1); [lia|]. destruct (Nat.ltb_spec (ts_dim ts - 1) (ts_din ts)); [lia|]. cbn [orb]. rec.
      unfold sp_set, sp_assignS, sbind, sp_assign_value, sp_react, sret. rec. rewrite F2, Nat.eqb_refl. rewrite andb_false_r. eexists. split; [reflexivity|].
      unfold lim. rec. rewrite B. repeat split; auto; lia.
    - unfold swhen, sbind, sret. unfold sp_set, sp_assignS, sbind, sp_assign_value, sp_react, sret. rec. rewrite F2, Nat.eqb_refl, andb_false_r. eexists. split; [reflexivity|].
      unfold lim. rec. rewrite B. repeat split; auto; discriminate.
  Qed.

  Lemma fetch_refused : forall ts s, lim s -> ~ fits (sp_bim s) ts -> exists s', sp_fetch ts s = (s', Throw DomainError) /\ lim s' /\
    sp_bim s' = sp_bim s /\ sp_win s' = sp_win s.
  Proof.
    intros ts s L F. pose proof (lim_min s L) as Hm. destruct L as (H1 & H2 & H3). unfold sp_fetch. unfold sbind at 1. rewrite set_dim_eq by exact Hm.
    destruct (Nat.ltb_spec (ts_dim ts) (sp_dim_min s)) as [X|X].
    { exists s. unfold lim. auto 10. }
    unfold sbind at 1, sget. rec. unfold fits in F. destruct (sp_bim s) eqn:B; rewrite H2 in X.
    - unfold swhen, sbind, sp_set at 1, sp_assignS, sbind, sp_assign_value, sp_react, sret. rec. rewrite (H3 eq_refl).
      destruct (Nat.ltb_spec (ts_din ts) 1); cbn [orb].
      { eexists. split; [reflexivity|]. unfold lim. rec. rewrite B. repeat split; auto; lia. }
      destruct (Nat.ltb_spec (ts_dim ts - 1) (ts_din ts)).
      { eexists. split; [reflexivity|]. unfold lim. rec. rewrite B. repeat split; auto; lia. }
      unfold sp_set, sp_assignS, sbind, sp_assign_value, sp_react, sret. rec.
      destruct (Nat.eqb_spec (length (ts_names ts)) (ts_dim ts)) as [E|E]; [exfalso; apply F; repeat split; auto; lia|].
      destruct (Nat.ltb_spec 0 (ts_dim ts)); [|lia]. cbn [andb negb]. eexists. split; [reflexivity|]. unfold lim. rec. rewrite B. repeat split; auto; lia.
    - unfold swhen, sbind, sret. unfold sp_set, sp_assignS, sbind, sp_assign_value, sp_react, sret. rec.
      destruct (Nat.eqb_spec (length (ts_names ts)) (ts_dim ts)) as [E|E]; [exfalso; apply F; repeat split; auto; lia|].
      destruct (Nat.ltb_spec 0 (ts_dim ts)); [|lia]. cbn [andb negb]. eexists. split; [reflexivity|]. unfold lim. rec. rewrite B. repeat split; auto; try lia; discriminate.
  Qed.

  Lemma fits_dec : forall b ts, fits b ts \/ ~ fits b ts.
  Proof.
    intros b ts. unfold fits. destruct (Nat.eq_dec (length (ts_names ts)) (ts_dim ts)); [|right; tauto].
    destruct b; [destruct (le_dec 2 (ts_dim ts)); [destruct (le_dec 1 (ts_din ts)); [destruct (lt_dec (ts_din ts) (ts_dim ts))|]|]|destruct (le_dec 1 (ts_dim ts))]; tauto.
  Qed.

  Lemma lim_fetch : forall ts s, lim s -> lim (fst (sp_fetch ts s)).
  Proof.
    intros ts s L. destruct (fits_dec (sp_bim s) ts) as [F|F].
    - destruct (fetch_fits ts s L F) as (s' & -> & Q & _). exact Q.
    - destruct (fetch_refused ts s L F) as (s' & -> & Q & _). exact Q.
  Qed.

  (** Closed forms. *)
  Definition with_model (k : nat) (m : model) (w : mworld) : mworld := mkMW (mw_heap w) (upd (mw_models w) k m).
  Definition joined (m : model) : model := mkModel (md_sp m) false (filter (fun p => negb (failed (snd p))) (md_cls m)) (S (md_alldone m)).

  Lemma with_with : forall k m m' w, with_model k m' (with_model k m w) = with_model k m' w.
  Proof. intros. unfold with_model. cbn. rewrite upd_upd. reflexivity. Qed.
  Lemma get_with : forall k m m' (w : mworld), nth_error (mw_models w) k = Some m' -> get_model k (with_model k m w) = (with_model k m w, Ok m).
  Proof. intros. unfold get_model, with_model. cbn [mw_models]. rewrite (nth_error_upd _ _ _ _ _ H), Nat.eqb_refl. reflexivity. Qed.
  Lemma nth_with : forall k m m' (w : mworld) j, nth_error (mw_models w) k = Some m' -> nth_error (mw_models (with_model k m w)) j = if j =? k then Some m else nth_error (mw_models w) j.
  Proof. intros. unfold with_model. cbn [mw_models]. apply (nth_error_upd _ _ _ _ _ H). Qed.
  Lemma get_eq : forall k m (w : mworld), nth_error (mw_models w) k = Some m -> get_model k w = (w, Ok m).
  Proof. intros. unfold get_model. rewrite H. reflexivity. Qed.

  Lemma m_join_eq : forall k m (w : mworld), nth_error (mw_models w) k = Some m ->
    m_join k w = if md_training m then (with_model k (joined m) w, Ok tt) else (w, Ok tt).
  Proof.
    intros k m w H. unfold m_join. unfold sbind at 1. rewrite (get_eq k m w H). destruct (md_training m); [|reflexivity].
    unfold sbind at 1, put_model at 1. fold (with_model k (mkModel (md_sp m) false (filter (fun p => negb (failed (snd p))) (md_cls m)) (md_alldone m)) w).
    set (m1 := mkModel _ _ _ _). unfold m_reset, m_check. unfold sbind. rewrite (get_with k m1 m w H). cbn [md_training m1].
    unfold sret. rewrite (get_with k m1 m w H). unfold put_model. fold (with_model k (mkModel (md_sp m1) (md_training m1) (md_cls m1) (S (md_alldone m1))) (with_model k m1 w)).
    rewrite with_with. reflexivity.
  Qed.

  Definition rested (m : model) : model := if md_training m then joined m else m.

  Lemma with_same : forall k m (w : mworld), nth_error (mw_models w) k = Some m -> with_model k m w = w.
  Proof.
    intros k m [h l] H. unfold with_model. cbn [mw_heap mw_models] in *. f_equal. revert k H.
    induction l as [|x l IH]; intros [|k] H; cbn in *; try discriminate; [injection H as ->; reflexivity|]. rewrite IH by exact H. reflexivity.
  Qed.

  Lemma m_cancel_eq : forall k m (w : mworld), nth_error (mw_models w) k = Some m -> m_cancel k w = (with_model k (rested m) w, Ok tt).
  Proof.
    intros k m w H. unfold m_cancel, sbind. rewrite (get_eq k m w H). unfold rested. destruct (md_training m) eqn:E; cbn [swhen].
    - rewrite (m_join_eq k m w H), E. reflexivity.
    - rewrite (with_same k m w H). reflexivity.
  Qed.

  Lemma rested_idle : forall m, md_training (rested m) = false.
  Proof. intro m. unfold rested. destruct (md_training m) eqn:E; [reflexivity|exact E]. Qed.
  Lemma rested_sp : forall m, md_sp (rested m) = md_sp m.
  Proof. intro m. unfold rested. destruct (md_training m); reflexivity. Qed.
  Lemma rested_twice : forall m, rested (rested m) = rested m.
  Proof. intro m. unfold rested at 1. rewrite rested_idle. reflexivity. Qed.
  Lemma rested_in : forall m e, In e (md_cls (rested m)) -> In e (md_cls m).
  Proof. intros m e. unfold rested. destruct (md_training m); [|auto]. cbn. intro H. apply filter_In in H. tauto. Qed.

  Lemma m_check_eq : forall k m (w : mworld), nth_error (mw_models w) k = Some m -> m_check k w = (w, if md_training m then Throw RuntimeError else Ok tt).
  Proof. intros k m w H. unfold m_check, sbind. rewrite (get_eq k m w H). destruct (md_training m); reflexivity. Qed.

  Lemma m_clear_eq : forall k m (w : mworld), nth_error (mw_models w) k = Some m -> m_clear k w = (with_model k (md_set_cls [] (rested m)) w, Ok tt).
  Proof.
    intros k m w H. unfold m_clear. unfold sbind at 1. rewrite (m_cancel_eq k m w H). unfold sbind at 1. rewrite (get_with k _ m w H).
    unfold sbind, put_model. fold (with_model k (md_set_cls [] (rested m)) (with_model k (rested m) w)). rewrite with_with.
    unfold m_reset. erewrite m_check_eq by (rewrite (nth_with _ _ _ _ _ H), Nat.eqb_refl; reflexivity). cbn [md_set_cls md_training]. rewrite rested_idle. reflexivity.
  Qed.

  (** [addModelForClass] for a list of labels. *)
  Definition added (m : model) (ls : list string) : model :=
    md_set_cls (fold_left (fun l x => minsert String.eqb String.ltb l x (mkMC (md_sp m) Run)) ls (md_cls m)) m.
  Lemma add_all : forall ls k m (w : mworld), nth_error (mw_models w) k = Some m -> sforeach ls (m_add_class k) w = (with_model k (added m ls) w, Ok tt).
  Proof.
    induction ls as [|l ls IH]; intros k m w H; cbn [sforeach].
    - unfold added. cbn [fold_left]. replace (md_set_cls (md_cls m) m) with m by (destruct m; reflexivity). rewrite (with_same k m w H). reflexivity.
    - unfold sbind. unfold m_add_class at 1. unfold sbind. rewrite (get_eq k m w H). unfold put_model. set (m1 := md_set_cls _ m). fold (with_model k m1 w).
      rewrite (IH k m1) by (rewrite (nth_with _ _ _ _ _ H), Nat.eqb_refl; reflexivity). rewrite with_with. reflexivity.
  Qed.

  (** [train] up to the start of the classes, when the label part is left out. *)
  Lemma m_prepare_eq : forall k ts m s (w : mworld), nth_error (mw_models w) k = Some m -> nth_error (mw_heap w) (md_sp m) = Some s -> 1 <= ts_size ts ->
    let m1 := md_set_training true (md_set_cls [] (rested m)) in
    m_prepare k ts w = match sp_fetch ts s with
      | (s', Ok _) => (mkMW (upd (mw_heap w) (md_sp m) s') (upd (mw_models w) k (added m1 (ts_labels ts))), Ok tt)
      | (s', Throw e) => (mkMW (upd (mw_heap w) (md_sp m) s') (upd (mw_models w) k m1), Throw e)
      | (s', UB) => (mkMW (upd (mw_heap w) (md_sp m) s') (upd (mw_models w) k m1), UB)
      end.
  Proof.
    intros k ts m s w H Hs Hz m1. unfold m_prepare. replace (ts_size ts <? 1) with false by (symmetry; apply Nat.ltb_ge; exact Hz).
    unfold sbind at 1. rewrite (m_cancel_eq k m w H). unfold sbind at 1.
    rewrite (m_clear_eq k (rested m)) by (rewrite (nth_with _ _ _ _ _ H), Nat.eqb_refl; reflexivity). rewrite with_with, rested_twice.
    unfold sbind at 1. rewrite (get_with k _ m w H). unfold sbind at 1, put_model.
    fold (with_model k (md_set_training true (md_set_cls [] (rested m))) (with_model k (md_set_cls [] (rested m)) w)). rewrite with_with. fold m1.
    unfold sbind. rewrite m_fetch_eq. unfold with_model at 1. cbn [mw_heap]. replace (md_sp (md_set_cls [] (rested m))) with (md_sp m) by (symmetry; apply rested_sp).
    rewrite Hs. destruct (sp_fetch ts s) as (s', [[]|e|]); [|reflexivity..].
    erewrite add_all; [|cbn [mw_models]; apply (nth_with k m1 m w k) in H; rewrite Nat.eqb_refl in H; exact H].
    unfold with_model. cbn [mw_heap mw_models]. rewrite upd_upd. reflexivity.
  Qed.
End Models.
