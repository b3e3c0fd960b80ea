(** C43 and C45: failed trainings, copies and loads of models. *)
From Coq Require Import String List Bool Arith Lia.
From Verif Require Import Base BaseFacts Arith Model_Map Proofs_Map Model_Gaussian Model_Shared Proofs_Shared Model_Train Model_Model Spec_Model Proofs_Model Proofs_Model2.
Import ListNotations.
Local Open Scope nat_scope.
Local Open Scope list_scope.

Section Models.
  Context {A : arith}.
  Local Notation mworld := (mworld A).

  Lemma fold_get : forall ls (l : list (string * mclass)) v x,
    mget String.eqb (fold_left (fun l x => minsert String.eqb String.ltb l x v) ls l) x =
    match mget String.eqb l x with Some c => Some c | None => if existsb (String.eqb x) ls then Some v else None end.
  Proof.
    induction ls as [|y ls IH]; intros l v x; cbn [fold_left existsb]; [destruct (mget String.eqb l x); reflexivity|].
    rewrite IH, (mget_minsert _ _ String.eqb_eq). destruct (String.eqb_spec x y) as [->|N]; cbn [orb].
    - destruct (mget String.eqb l y); reflexivity.
    - reflexivity.
  Qed.

  (** C43.  After any history: if the training set fits the model, [train] starts training exactly the
      labels of the set, with the dimensions and column names of the set. *)
  Theorem C43_fits : forall ops k ts (s : shared A), params_of (m_run ops mw0) k = Some s -> 1 <= ts_size ts -> fits (sp_bim s) ts ->
    exists w' s', m_prepare k ts (m_run ops mw0) = (w', Ok tt) /\ params_of w' k = Some s' /\
      sp_dim s' = ts_dim ts /\ (sp_bim s = true -> sp_din s' = ts_din ts) /\ sp_names s' = ts_names ts /\
      training_of w' k = Some true /\ forall l, has_class w' k l <-> In l (ts_labels ts).
  Proof.
    intros ops k ts s P Hz F. set (w := m_run ops mw0) in *. pose proof (winv_reach ops : winv w) as I. clearbody w.
    unfold params_of in P. destruct (nth_error (mw_models w) k) as [m|] eqn:H; [|discriminate].
    rewrite (m_prepare_eq k ts m s w H P Hz). cbv zeta. destruct (fetch_fits ts s (wi_lim _ I _ _ P) F) as (s' & -> & _ & _ & E2 & E3 & E4 & _).
    eexists. exists s'. split; [reflexivity|]. unfold params_of, training_of, has_class. cbn [mw_models mw_heap]. rewrite (nth_error_upd _ _ _ _ _ H), Nat.eqb_refl.
    split; [|repeat (split; [assumption|]); split; [reflexivity|]].
    - cbn. rewrite rested_sp, (nth_error_upd _ _ _ _ _ P), Nat.eqb_refl. reflexivity.
    - intro l. split.
      + intros (m' & c & E & Hc). injection E as <-. cbn [added md_set_cls md_set_training md_cls] in Hc. rewrite fold_get in Hc. cbn [mget] in Hc.
        destruct (existsb (String.eqb l) (ts_labels ts)) eqn:X; [|discriminate]. apply existsb_exists in X. destruct X as (y & Hy & Ey). apply String.eqb_eq in Ey. subst y. exact Hy.
      + intro Hl. eexists. eexists. split; [reflexivity|]. cbn [added md_set_cls md_set_training md_cls]. rewrite fold_get. cbn [mget].
        replace (existsb (String.eqb l) (ts_labels ts)) with true; [reflexivity|]. symmetry. apply existsb_exists. exists l. split; [exact Hl|apply String.eqb_refl].
  Qed.

  (** C43 fails otherwise, always: [train] throws [domain_error]; the classes are lost and the model
      claims to be training, so that [reset], [filter] and copying throw. *)
  Theorem C43_unfit_refuted : forall ops k ts (s : shared A), params_of (m_run ops mw0) k = Some s -> 1 <= ts_size ts -> ~ fits (sp_bim s) ts ->
    exists w', m_prepare k ts (m_run ops mw0) = (w', Throw DomainError) /\ training_of w' k = Some true /\
      (forall l, ~ has_class w' k l) /\
      m_reset k w' = (w', Throw RuntimeError) /\ m_filter k w' = (w', Throw RuntimeError) /\ snd (m_copy k w') = Throw RuntimeError.
  Proof.
    intros ops k ts s P Hz F. set (w := m_run ops mw0) in *. pose proof (winv_reach ops : winv w) as I. clearbody w.
    unfold params_of in P. destruct (nth_error (mw_models w) k) as [m|] eqn:H; [|discriminate].
    rewrite (m_prepare_eq k ts m s w H P Hz). cbv zeta. destruct (fetch_refused ts s (wi_lim _ I _ _ P) F) as (s' & -> & _).
    eexists. split; [reflexivity|]. set (m1 := md_set_training true _). set (w' := mkMW _ _).
    assert (H1 : nth_error (mw_models w') k = Some m1) by (unfold w'; cbn [mw_models]; rewrite (nth_error_upd _ _ _ _ _ H), Nat.eqb_refl; reflexivity).
    assert (P1 : nth_error (mw_heap w') (md_sp m1) = Some s') by (unfold w', m1; cbn; rewrite rested_sp, (nth_error_upd _ _ _ _ _ P), Nat.eqb_refl; reflexivity).
    unfold training_of, has_class. rewrite H1. split; [reflexivity|]. split; [intros l (m' & c & E & Hc); injection E as <-; discriminate|].
    unfold m_reset, m_filter. rewrite (m_check_eq k m1 w' H1). split; [reflexivity|]. split; [reflexivity|].
    rewrite (m_copy_eq k m1 s' w' H1 P1). reflexivity.
  Qed.

  (** C43: [cancelTraining] or a fitting [train] gets the model out of that state, after announcing the
      end of a training that never started. *)
  Theorem C43_recovers : forall ops k ts (s : shared A), params_of (m_run ops mw0) k = Some s -> 1 <= ts_size ts -> ~ fits (sp_bim s) ts ->
    forall w', fst (m_prepare k ts (m_run ops mw0)) = w' ->
    (exists w'', m_cancel k w' = (w'', Ok tt) /\ training_of w'' k = Some false /\ m_reset k w'' = (w'', Ok tt)) /\
    (exists m' w'' m'', nth_error (mw_models w') k = Some m' /\ m_cancel k w' = (w'', Ok tt) /\ nth_error (mw_models w'') k = Some m'' /\ md_alldone m'' = S (md_alldone m')) /\
    forall ts', 1 <= ts_size ts' -> fits (sp_bim s) ts' -> snd (m_prepare k ts' w') = Ok tt.
  Proof.
    intros ops k ts s P Hz F w'. set (w := m_run ops mw0) in *. pose proof (winv_reach ops : winv w) as I. clearbody w.
    unfold params_of in P. destruct (nth_error (mw_models w) k) as [m|] eqn:H; [|discriminate].
    rewrite (m_prepare_eq k ts m s w H P Hz). cbv zeta. destruct (fetch_refused ts s (wi_lim _ I _ _ P) F) as (s' & -> & L' & B' & _). cbn [fst].
    intro Ew. set (m1 := md_set_training true (md_set_cls [] (rested m))) in *.
    assert (H1 : nth_error (mw_models w') k = Some m1) by (rewrite <- Ew; cbn [mw_models]; rewrite (nth_error_upd _ _ _ _ _ H), Nat.eqb_refl; reflexivity).
    assert (P1 : nth_error (mw_heap w') (md_sp m1) = Some s') by (rewrite <- Ew; unfold m1; cbn; rewrite rested_sp, (nth_error_upd _ _ _ _ _ P), Nat.eqb_refl; reflexivity).
    clear Ew. assert (N : forall x, nth_error (mw_models (with_model k x w')) k = Some x) by (intro x; rewrite (nth_with _ _ _ _ _ H1), Nat.eqb_refl; reflexivity).
    split; [|split].
    - exists (with_model k (rested m1) w'). rewrite (m_cancel_eq k m1 w' H1). split; [reflexivity|]. unfold training_of. rewrite N. split; [reflexivity|].
      unfold m_reset. rewrite (m_check_eq k _ _ (N _)). reflexivity.
    - exists m1, (with_model k (rested m1) w'), (rested m1). rewrite (m_cancel_eq k m1 w' H1), N. repeat split. exact H1.
    - intros ts' Hz' F'. rewrite (m_prepare_eq k ts' m1 s' w' H1 P1 Hz'). cbv zeta. rewrite <- B' in F'.
      destruct (fetch_fits ts' s' L' F') as (s'' & -> & _). reflexivity.
  Qed.

  (** C43, [train(ts, label)]: on a model at rest with classes, a training set of other dimensions is
      refused and nothing changes; without classes it is as above. *)
  Theorem C43_label : forall (w : mworld) k m (s : shared A) ts l, nth_error (mw_models w) k = Some m -> nth_error (mw_heap w) (md_sp m) = Some s ->
    md_training m = false -> md_cls m <> [] -> In l (ts_labels ts) ->
    sp_dim s <> ts_dim ts \/ (sp_bim s = true /\ sp_din s <> ts_din ts) ->
    m_prepare_label k ts l w = (w, Throw RuntimeError).
  Proof.
    intros w k m s ts l H Hs Ht Hc Hl D. unfold m_prepare_label.
    replace (existsb (String.eqb l) (ts_labels ts)) with true; [|symmetry; apply existsb_exists; exists l; split; [exact Hl|apply String.eqb_refl]]. cbn [negb].
    unfold sbind at 1. unfold m_cancel_label, sbind. rewrite (get_eq k m w H), Ht. cbn [andb swhen]. unfold sret. rewrite (get_eq k m w H).
    unfold get_shared. rewrite Hs. replace (0 <? length (md_cls m)) with true by (destruct (md_cls m); [congruence|reflexivity]). cbn [andb].
    match goal with |- context [if ?b then _ else _] => replace b with true end; [reflexivity|]. symmetry. apply orb_true_iff.
    destruct D as [D|(B & D)]; [left; apply negb_true_iff, Nat.eqb_neq; exact D|right; rewrite B; cbn [andb]; apply negb_true_iff, Nat.eqb_neq; exact D].
  Qed.

  Theorem C43_label_refuted : forall ops k ts l m (s : shared A), nth_error (mw_models (m_run ops mw0)) k = Some m ->
    params_of (m_run ops mw0) k = Some s -> md_training m = false -> md_cls m = [] -> In l (ts_labels ts) -> ~ fits (sp_bim s) ts ->
    exists w', m_prepare_label k ts l (m_run ops mw0) = (w', Throw DomainError) /\ training_of w' k = Some true.
  Proof.
    intros ops k ts l m s H P Ht Hc Hl F. set (w := m_run ops mw0) in *. pose proof (winv_reach ops : winv w) as I. clearbody w.
    unfold params_of in P. rewrite H in P. unfold m_prepare_label.
    replace (existsb (String.eqb l) (ts_labels ts)) with true; [|symmetry; apply existsb_exists; exists l; split; [exact Hl|apply String.eqb_refl]]. cbn [negb].
    unfold sbind at 1. unfold m_cancel_label, sbind at 1. rewrite (get_eq k m w H), Ht. cbn [andb swhen]. unfold sret.
    unfold sbind at 1. rewrite (get_eq k m w H). unfold sbind at 1. unfold get_shared. rewrite P, Hc. cbn [length Nat.ltb Nat.leb andb].
    unfold sbind, put_model. rewrite m_fetch_eq. cbn [mw_heap mw_models]. rewrite P.
    destruct (fetch_refused ts s (wi_lim _ I _ _ P) F) as (s' & -> & _). eexists. split; [reflexivity|].
    unfold training_of. cbn [mw_models]. rewrite (nth_error_upd _ _ _ _ _ H), Nat.eqb_refl. reflexivity.
  Qed.

  (** The effect of a new window length. *)
  Lemma set_win : forall (w : mworld) k m n, winv w -> nth_error (mw_models w) k = Some m -> 1 <= n ->
    exists s', m_set k (SWin n) w = (mkMW (upd (mw_heap w) (md_sp m) s') (mw_models w), Ok tt) /\ sp_win s' = n /\ md_sp m < length (mw_heap w).
  Proof.
    intros w k m n I H Hn. destruct (heap_at w k m I H) as (s & Hs & _). rewrite (m_set_eq k _ m s w H Hs).
    unfold sp_set, sbind, sp_assignS, sp_assign_value, sp_react, sret. destruct (Nat.ltb_spec n 1); [lia|]. eexists. split; [reflexivity|]. split; [reflexivity|].
    apply nth_error_Some. congruence.
  Qed.
  Lemma win_other : forall (w : mworld) p s' k l m c, nth_error (mw_models w) k = Some m -> mget String.eqb (md_cls m) l = Some c -> mc_sp c <> p ->
    class_window (mkMW (upd (mw_heap w) p s') (mw_models w)) k l = class_window w k l.
  Proof. intros w p s' k l m c H Hc N. unfold class_window. cbn [mw_heap mw_models]. rewrite H, Hc, nth_error_upd_neq by congruence. reflexivity. Qed.
  Lemma win_same : forall (w : mworld) p s' k l m c, nth_error (mw_models w) k = Some m -> mget String.eqb (md_cls m) l = Some c -> mc_sp c = p -> p < length (mw_heap w) ->
    class_window (mkMW (upd (mw_heap w) p s') (mw_models w)) k l = Some (sp_win s').
  Proof. intros w p s' k l m c H Hc <- L. unfold class_window. cbn [mw_heap mw_models]. rewrite H, Hc, nth_error_upd_eq by exact L. reflexivity. Qed.
  Lemma copied : forall (l : list (string * mclass)) x c, mget String.eqb l x = Some c ->
    mget String.eqb (map (fun e => (fst e, copy_class (snd e))) l) x = Some (copy_class c).
  Proof. induction l as [|(k, v) l IH]; intros x c H; cbn in *; [discriminate|]. destruct (String.eqb x k); [injection H as ->; reflexivity|auto]. Qed.

  (** C45.  A model whose classes use its own parameters: a new window length reaches all of them.  It
      is so after every successful [train]. *)
  Theorem C45_own : forall ops k l m c n, nth_error (mw_models (m_run ops mw0)) k = Some m -> mget String.eqb (md_cls m) l = Some c ->
    own_params (m_run ops mw0) k -> 1 <= n ->
    exists w', m_set k (SWin n) (m_run ops (mw0 (A := A))) = (w', Ok tt) /\ class_window w' k l = Some n.
  Proof.
    intros ops k l m c n H Hc (m' & H' & O) Hn. set (w := m_run ops mw0) in *. pose proof (winv_reach ops : winv w) as I. clearbody w.
    rewrite H in H'. injection H' as <-. destruct (set_win w k m n I H Hn) as (s' & -> & <- & L). eexists. split; [reflexivity|]. exact (win_same w _ s' k l m c H Hc (O l c Hc) L).
  Qed.
  Theorem C45_trained_own : forall ops k ts w', m_prepare k ts (m_run ops (mw0 (A := A))) = (w', Ok tt) -> 1 <= ts_size ts -> own_params w' k.
  Proof.
    intros ops k ts w' E Hz. set (w := m_run ops mw0) in *. pose proof (winv_reach ops : winv w) as I. clearbody w.
    destruct (nth_error (mw_models w) k) as [m|] eqn:H.
    2: { unfold m_prepare in E. replace (ts_size ts <? 1) with false in E by (symmetry; apply Nat.ltb_ge; exact Hz). unfold m_cancel, sbind, get_model in E. rewrite H in E. discriminate. }
    destruct (heap_at w k m I H) as (s & Hs & _). rewrite (m_prepare_eq k ts m s w H Hs Hz) in E. cbv zeta in E.
    destruct (sp_fetch ts s) as (s', [[]|e|]); try discriminate. injection E as <-. unfold own_params. cbn [mw_models].
    rewrite (nth_error_upd _ _ _ _ _ H), Nat.eqb_refl. eexists. split; [reflexivity|]. intros l c Hc. cbn [added md_set_cls md_set_training md_cls md_sp] in *.
    rewrite fold_get in Hc. cbn [mget] in Hc. destruct (existsb (String.eqb l) (ts_labels ts)); [|discriminate]. injection Hc as <-. reflexivity.
  Qed.

  (** C45 fails for every copy of every model with classes: a new window length for the copy is
      accepted, but the classes of the copy do not see it; if the source owns its classes, it is the
      parameters of the source that they obey. *)
  Theorem C45_copy_refuted : forall ops k l m c n, nth_error (mw_models (m_run ops mw0)) k = Some m -> md_training m = false ->
    mget String.eqb (md_cls m) l = Some c -> 1 <= n ->
    let w := m_run ops (mw0 (A := A)) in
    let k' := length (mw_models w) in
    exists w1 w2 s', m_copy k w = (w1, Ok tt) /\ m_set k' (SWin n) w1 = (w2, Ok tt) /\
      params_of w2 k' = Some s' /\ sp_win s' = n /\ class_window w2 k' l = class_window w k l /\
      (own_params w k -> exists w3, m_set k (SWin n) w1 = (w3, Ok tt) /\ class_window w3 k' l = Some n).
  Proof.
    intros ops k l m c n H Ht Hc Hn w k'. pose proof (winv_reach ops : winv w) as I.
    assert (Ew1 : fst (m_copy k w) = m_run [OCopy k] w) by reflexivity. fold w in H. clearbody w.
    destruct (heap_at w k m I H) as (s & Hs & L). destruct (wi_ok _ I k m H) as (X & Y).
    pose proof (winv_run [OCopy k] w I) as I1. rewrite <- Ew1 in I1. clear Ew1. rewrite (m_copy_eq k m s w H Hs) in *. cbv zeta in *. rewrite Ht in *. cbn [fst] in I1.
    set (mc := mkModel _ _ _ _) in *. set (w1 := mkMW _ _) in *.
    assert (Hk : nth_error (mw_models w1) k = Some m) by (unfold w1; cbn [mw_models]; rewrite nth_error_app1; [exact H|apply nth_error_Some; congruence]).
    assert (Hk' : nth_error (mw_models w1) k' = Some mc) by (unfold w1, k'; cbn [mw_models]; rewrite nth_error_app2, Nat.sub_diag by lia; reflexivity).
    assert (Hc' : mget String.eqb (md_cls mc) l = Some (copy_class c)) by (apply copied; exact Hc).
    assert (Z : mc_sp c < length (mw_heap w)) by (apply (Y (l, c)), (mget_in _ String.eqb_eq), Hc).
    destruct (set_win w1 k' mc n I1 Hk' Hn) as (s' & E2 & W & L2).
    eexists. exists (mkMW (upd (mw_heap w1) (md_sp mc) s') (mw_models w1)), s'. split; [reflexivity|]. split; [exact E2|].
    split; [unfold params_of; cbn [mw_models mw_heap]; rewrite Hk', nth_error_upd_eq by exact L2; reflexivity|]. split; [exact W|]. split.
    - rewrite (win_other w1 _ s' k' l mc _ Hk' Hc') by (cbn; lia). unfold class_window. rewrite Hk', Hc', H, Hc. cbn [copy_class mc_sp].
      unfold w1. cbn [mw_heap]. rewrite nth_error_app1 by exact Z. reflexivity.
    - intros (m0 & H0 & O). rewrite H in H0. injection H0 as <-. destruct (set_win w1 k m n I1 Hk Hn) as (s3 & -> & <- & L3). eexists. split; [reflexivity|].
      apply (win_same w1 _ s3 k' l mc _ Hk' Hc'); [cbn; exact (O l c Hc)|exact L3].
  Qed.

  (** C45, the other direction: nothing done to the parameters of the copy reaches the source. *)
  Theorem C45_source_safe : forall ops k m o, nth_error (mw_models (m_run ops mw0)) k = Some m -> md_training m = false ->
    let w := m_run ops (mw0 (A := A)) in
    let w1 := fst (m_copy k w) in
    let w2 := fst (m_set (length (mw_models w)) o w1) in
    nth_error (mw_models w2) k = Some m /\ params_of w2 k = params_of w k /\ forall l, class_window w2 k l = class_window w k l.
  Proof.
    intros ops k m o H Ht w. pose proof (winv_reach ops : winv w) as I. fold w in H. clearbody w. cbv zeta.
    destruct (heap_at w k m I H) as (s & Hs & L). destruct (wi_ok _ I k m H) as (X & Y).
    rewrite (m_copy_eq k m s w H Hs). cbv zeta. rewrite Ht. cbn [fst]. set (mc := mkModel _ _ _ _). set (w1 := mkMW _ _).
    assert (Hk' : nth_error (mw_models w1) (length (mw_models w)) = Some mc) by (unfold w1; cbn [mw_models]; rewrite nth_error_app2, Nat.sub_diag by lia; reflexivity).
    assert (Hs' : nth_error (mw_heap w1) (md_sp mc) = Some (sp_copy (length (mw_heap w)) s)) by (unfold w1, mc; cbn; rewrite nth_error_app2, Nat.sub_diag by lia; reflexivity).
    rewrite (m_set_eq _ o mc _ w1 Hk' Hs'). cbn [fst].
    assert (Hk : nth_error (mw_models w1) k = Some m) by (unfold w1; cbn [mw_models]; rewrite nth_error_app1; [exact H|apply nth_error_Some; congruence]).
    split; [exact Hk|].
    assert (G : forall p, p < length (mw_heap w) -> nth_error (upd (mw_heap w1) (md_sp mc) (fst (sp_set o (sp_copy (length (mw_heap w)) s)))) p = nth_error (mw_heap w) p).
    { intros p Hp. rewrite nth_error_upd_neq by (cbn; lia). unfold w1. cbn [mw_heap]. apply nth_error_app1, Hp. }
    split.
    - unfold params_of. cbn [mw_models mw_heap]. rewrite Hk, H. apply G, X.
    - intro l. unfold class_window. cbn [mw_models mw_heap]. rewrite Hk, H. destruct (mget String.eqb (md_cls m) l) as [c|] eqn:Hc; [|reflexivity].
      rewrite G; [reflexivity|]. apply (Y (l, c)), (mget_in _ String.eqb_eq), Hc.
  Qed.

  (** C45 fails in the same way for assignment. *)
  Theorem C45_assign_refuted : forall ops d k l x m c n, d <> k -> nth_error (mw_models (m_run ops mw0)) d = Some x -> md_training x = false ->
    nth_error (mw_models (m_run ops mw0)) k = Some m -> md_training m = false -> mget String.eqb (md_cls m) l = Some c -> 1 <= n ->
    let w := m_run ops (mw0 (A := A)) in
    exists w1 w2 s', m_assign d k w = (w1, Ok tt) /\ m_set d (SWin n) w1 = (w2, Ok tt) /\
      params_of w2 d = Some s' /\ sp_win s' = n /\ class_window w2 d l = class_window w k l.
  Proof.
    intros ops d k l x m c n Nd Hd Hx H Ht Hc Hn w. pose proof (winv_reach ops : winv w) as I. fold w in H, Hd.
    pose proof (winv_run [OAssign d k] w I) as I1. cbn [m_run m_step] in I1. clearbody w.
    destruct (heap_at w k m I H) as (s & Hs & L). destruct (wi_ok _ I k m H) as (X & Y).
    rewrite (m_assign_eq d k x m s w Hd H Hs) in *. replace (d =? k) with false in * by (symmetry; apply Nat.eqb_neq; exact Nd). rewrite Hx, Ht in *. cbn [fst] in I1.
    set (mc := mkModel _ _ _ _) in *. set (w1 := mkMW _ _) in *.
    assert (Hd' : nth_error (mw_models w1) d = Some mc) by (unfold w1; cbn [mw_models]; rewrite (nth_error_upd _ _ _ _ _ Hd), Nat.eqb_refl; reflexivity).
    assert (Hc' : mget String.eqb (md_cls mc) l = Some (copy_class c)) by (apply copied; exact Hc).
    assert (Z : mc_sp c < length (mw_heap w)) by (apply (Y (l, c)), (mget_in _ String.eqb_eq), Hc).
    destruct (set_win w1 d mc n I1 Hd' Hn) as (s' & E2 & W & L2).
    eexists. exists (mkMW (upd (mw_heap w1) (md_sp mc) s') (mw_models w1)), s'. split; [reflexivity|]. split; [exact E2|].
    split; [unfold params_of; cbn [mw_models mw_heap]; rewrite Hd', nth_error_upd_eq by exact L2; reflexivity|]. split; [exact W|].
    rewrite (win_other w1 _ s' d l mc _ Hd' Hc') by (cbn; lia). unfold class_window. rewrite Hd', Hc', H, Hc. cbn [copy_class mc_sp].
    unfold w1. cbn [mw_heap]. rewrite nth_error_app1 by exact Z. reflexivity.
  Qed.

  (** C45 fails for every load: the classes keep the window length of the document. *)
  Theorem C45_load_refuted : forall ops k m sets ls l n, nth_error (mw_models (m_run ops mw0)) k = Some m -> md_training m = false -> In l ls -> 1 <= n ->
    let w := m_run ops (mw0 (A := A)) in
    let file := fun id => sp_run sets (sp_new id) in
    exists w1 w2 s', m_load k file ls w = (w1, Ok tt) /\ m_set k (SWin n) w1 = (w2, Ok tt) /\
      params_of w2 k = Some s' /\ sp_win s' = n /\ class_window w2 k l = Some (sp_win (file (length (mw_heap w)))).
  Proof.
    intros ops k m sets ls l n H Ht Hl Hn w file. pose proof (winv_reach ops : winv w) as I. fold w in H.
    pose proof (winv_run [OLoad k sets ls] w I) as I1. cbn [m_run m_step] in I1. fold file in I1. clearbody w.
    rewrite (m_load_eq k file ls m w H) in *. cbv zeta in *. rewrite Ht in *. cbn [fst] in I1.
    set (mc := mkModel _ _ _ _) in *. set (w1 := mkMW _ _) in *.
    assert (Hd' : nth_error (mw_models w1) k = Some mc) by (unfold w1; cbn [mw_models]; rewrite (nth_error_upd _ _ _ _ _ H), Nat.eqb_refl; reflexivity).
    assert (Hc' : mget String.eqb (md_cls mc) l = Some (mkMC (length (mw_heap w)) Run)).
    { cbn [mc md_cls]. rewrite fold_get. cbn [mget]. replace (existsb (String.eqb l) ls) with true; [reflexivity|]. symmetry. apply existsb_exists. exists l. split; [exact Hl|apply String.eqb_refl]. }
    destruct (set_win w1 k mc n I1 Hd' Hn) as (s' & E2 & W & L2).
    eexists. exists (mkMW (upd (mw_heap w1) (md_sp mc) s') (mw_models w1)), s'. split; [reflexivity|]. split; [exact E2|].
    split; [unfold params_of; cbn [mw_models mw_heap]; rewrite Hd', nth_error_upd_eq by exact L2; reflexivity|]. split; [exact W|].
    rewrite (win_other w1 _ s' k l mc _ Hd' Hc') by (cbn; lia). unfold class_window. rewrite Hd', Hc'. cbn [mc_sp]. unfold w1. cbn [mw_heap].
    rewrite nth_error_app1 by (rewrite app_length; cbn; lia). rewrite nth_error_app2, Nat.sub_diag by lia. reflexivity.
  Qed.
End Models.
Print Assumptions C43_fits.
Print Assumptions C43_unfit_refuted.
Print Assumptions C43_recovers.
Print Assumptions C43_label.
Print Assumptions C43_label_refuted.
Print Assumptions C45_own.
Print Assumptions C45_trained_own.
Print Assumptions C45_copy_refuted.
Print Assumptions C45_source_safe.
Print Assumptions C45_assign_refuted.
Print Assumptions C45_load_refuted.

(** A bimodal model with two trained classes, a unimodal training set, and a copy. *)
Definition two_ts : tsview := mkTs 4 3 1 ["x"; "y"; "z"]%string ["b"; "a"]%string.
Definition uni_ts : tsview := mkTs 2 3 0 ["x"; "y"; "z"]%string ["c"]%string.
Definition trained_ops {A} : list (mop A) := [ONew true; OSet 0 (SWin 5); OPrepare 0 two_ts; OFinish 0 (fun _ => Done); ONew false].
Example C43_meets : forall {A : arith},
  (match params_of (m_run (trained_ops (A := A)) mw0) 0 with Some s => sp_bim s = true /\ sp_dim s = 3 | None => False end) /\
  (match nth_error (mw_models (m_run (trained_ops (A := A)) mw0)) 0 with
   | Some m => md_training m = false /\ map fst (md_cls m) = ["a"; "b"]%string | None => False end) /\
  (match nth_error (mw_models (m_run (trained_ops (A := A)) mw0)) 1 with
   | Some m => md_training m = false /\ md_cls m = [] | None => False end) /\
  fits true two_ts /\ ~ fits true uni_ts.
Proof.
  intros A. split; [vm_compute; split; reflexivity|]. split; [vm_compute; split; reflexivity|]. split; [vm_compute; split; reflexivity|].
  split; [split; [cbn; repeat split; lia|reflexivity]|]. intros ((_ & H & _) & _). cbn in H. lia.
Qed.
Definition owned_b {A} (w : mworld A) (k : nat) : bool :=
  match nth_error (mw_models w) k with Some m => forallb (fun e => mc_sp (snd e) =? md_sp m) (md_cls m) | None => false end.
Lemma owned_ok : forall {A} (w : mworld A) k, owned_b w k = true -> own_params w k.
Proof.
  intros A w k H. unfold owned_b in H. destruct (nth_error (mw_models w) k) as [m|] eqn:E; [|discriminate]. exists m. split; [exact E|].
  intros l c Hc. rewrite forallb_forall in H. apply Nat.eqb_eq. exact (H (l, c) (mget_in _ String.eqb_eq _ _ _ Hc)).
Qed.
Example C45_meets : forall {A : arith},
  (match nth_error (mw_models (m_run (trained_ops (A := A)) mw0)) 0 with
   | Some m => md_training m = false /\ map fst (md_cls m) = ["a"; "b"]%string | None => False end) /\
  own_params (m_run (trained_ops (A := A)) mw0) 0 /\
  (match nth_error (mw_models (m_run (trained_ops (A := A)) mw0)) 1 with Some m => md_training m = false | None => False end) /\
  class_window (m_run (trained_ops (A := A)) mw0) 0 "a"%string = Some 5 /\
  class_window (m_run (trained_ops (A := A) ++ [OCopy 0; OSet 2 (SWin 9)]) mw0) 2 "a"%string = Some 5 /\
  class_window (m_run (trained_ops (A := A) ++ [OCopy 0; OSet 0 (SWin 9)]) mw0) 2 "a"%string = Some 9.
Proof.
  intros A. split; [vm_compute; split; reflexivity|]. split; [apply owned_ok; vm_compute; reflexivity|].
  split; [vm_compute; reflexivity|]. split; [vm_compute; reflexivity|]. split; [vm_compute; reflexivity|]. vm_compute; reflexivity.
Qed.
