(** Model objects: the invariant of histories, and who uses which parameters. *)
From Coq Require Import String List Bool Arith Lia.
From Verif Require Import Base BaseFacts Arith Model_Map Proofs_Map Model_Phrase Model_Gaussian Model_Shared Proofs_Shared Model_Train Model_Model Spec_Model Proofs_Model.
Import ListNotations.
Local Open Scope nat_scope.

Section Models.
  Context {A : arith}.
  Local Notation mworld := (mworld A).

  Definition mok (n : nat) (m : model) : Prop := md_sp m < n /\ forall e, In e (md_cls m) -> mc_sp (snd e) < n.
  Record winv (w : mworld) : Prop := {
    wi_lim : forall p s, nth_error (mw_heap w) p = Some s -> lim s;
    wi_ok : forall k m, nth_error (mw_models w) k = Some m -> mok (length (mw_heap w)) m;
    wi_own : forall i j m m', nth_error (mw_models w) i = Some m -> nth_error (mw_models w) j = Some m' -> md_sp m = md_sp m' -> i = j }.

  Lemma winv_heap : forall (w : mworld) p s s', winv w -> nth_error (mw_heap w) p = Some s -> lim s' -> winv (mkMW (upd (mw_heap w) p s') (mw_models w)).
  Proof.
    intros w p s s' [I1 I2 I3] H L. constructor; cbn [mw_heap mw_models]; rewrite ?upd_length; auto.
    intros q x Hq. rewrite (nth_error_upd _ _ _ _ _ H) in Hq. destruct (q =? p); [injection Hq as <-; exact L|eauto].
  Qed.

  Lemma winv_model : forall (w : mworld) k m m', winv w -> nth_error (mw_models w) k = Some m -> mok (length (mw_heap w)) m' -> md_sp m' = md_sp m -> winv (with_model k m' w).
  Proof.
    intros w k m m' [I1 I2 I3] H M E. constructor; cbn [with_model mw_heap]; auto.
    - intros j x Hj. rewrite (nth_with _ _ _ _ _ H) in Hj. destruct (j =? k); [injection Hj as <-; exact M|eauto].
    - assert (G : forall i x, nth_error (mw_models (with_model k m' w)) i = Some x -> exists y, nth_error (mw_models w) i = Some y /\ md_sp y = md_sp x).
      { intros i x Hi. rewrite (nth_with _ _ _ _ _ H) in Hi. destruct (Nat.eqb_spec i k) as [->|]; [injection Hi as <-; exists m; auto|eauto]. }
      intros i j x y Hi Hj Ex. destruct (G i x Hi) as (x' & Hx & E1). destruct (G j y Hj) as (y' & Hy & E2). apply (I3 i j x' y' Hx Hy). congruence.
  Qed.

  Lemma mok_le : forall n n' m, n <= n' -> mok n m -> mok n' m.
  Proof. intros n n' m L (H1 & H2). split; [lia|]. intros e He. specialize (H2 e He). lia. Qed.

  (** A new object in the heap. *)
  Lemma winv_alloc : forall (w : mworld) s, winv w -> lim s -> winv (mkMW (mw_heap w ++ [s]) (mw_models w)).
  Proof.
    intros w s [I1 I2 I3] L. constructor; cbn [mw_heap mw_models]; auto.
    - intros p x Hp. destruct (Nat.lt_ge_cases p (length (mw_heap w))) as [X|X].
      + rewrite nth_error_app1 in Hp by exact X. eauto.
      + rewrite nth_error_app2 in Hp by exact X. destruct (p - length (mw_heap w)) as [|q]; [injection Hp as <-; exact L|destruct q; discriminate].
    - intros k m H. rewrite app_length. cbn. eapply mok_le; [|eauto]. lia.
  Qed.

  Lemma winv_add : forall (w : mworld) m, winv w -> mok (length (mw_heap w)) m ->
    (forall k x, nth_error (mw_models w) k = Some x -> md_sp x <> md_sp m) -> winv (mkMW (mw_heap w) (mw_models w ++ [m])).
  Proof.
    intros w m [I1 I2 I3] M D. assert (G : forall k x, nth_error (mw_models w ++ [m]) k = Some x -> nth_error (mw_models w) k = Some x \/ k = length (mw_models w) /\ x = m).
    { intros k x H. destruct (Nat.lt_ge_cases k (length (mw_models w))) as [X|X].
      - rewrite nth_error_app1 in H by exact X. auto.
      - rewrite nth_error_app2 in H by exact X. destruct (k - length (mw_models w)) as [|q] eqn:E; [|destruct q; discriminate]. injection H as <-. right. split; [lia|reflexivity]. }
    constructor; cbn [mw_heap mw_models]; auto.
    - intros k x H. destruct (G k x H) as [H1|(_ & ->)]; eauto.
    - intros i j x y Hi Hj E. destruct (G i x Hi) as [Hi'|(-> & ->)], (G j y Hj) as [Hj'|(-> & ->)]; auto.
      + exact (I3 i j x y Hi' Hj' E).
      + destruct (D i x Hi' E).
      + destruct (D j y Hj'). auto.
  Qed.

  Lemma winv_fresh : forall (w : mworld) k m m', winv w -> nth_error (mw_models w) k = Some m -> mok (length (mw_heap w)) m' ->
    (forall j x, nth_error (mw_models w) j = Some x -> md_sp x <> md_sp m') -> winv (with_model k m' w).
  Proof.
    intros w k m m' [I1 I2 I3] H M D. constructor; cbn [with_model mw_heap]; auto.
    - intros j x Hj. rewrite (nth_with _ _ _ _ _ H) in Hj. destruct (j =? k); [injection Hj as <-; exact M|eauto].
    - intros i j x y Hi Hj E. rewrite (nth_with k m' m w i H) in Hi. rewrite (nth_with k m' m w j H) in Hj.
      destruct (Nat.eqb_spec i k) as [->|Ni], (Nat.eqb_spec j k) as [->|Nj]; auto.
      + injection Hi as <-. destruct (D j y Hj). auto.
      + injection Hj as <-. destruct (D i x Hi). auto.
      + exact (I3 i j x y Hi Hj E).
  Qed.

  Lemma mok_cls : forall n m l b, mok n m -> (forall e, In e l -> mc_sp (snd e) < n) -> mok n (mkModel (md_sp m) b l (md_alldone m)).
  Proof. intros n m l b (H1 & H2) H. split; auto. Qed.
  Lemma mok_rested : forall n m, mok n m -> mok n (rested m).
  Proof. intros n m (H1 & H2). split; [rewrite rested_sp; exact H1|]. intros e He. apply H2, rested_in, He. Qed.

  Lemma minsert_in : forall (l : list (string * mclass)) x v e, In e (minsert String.eqb String.ltb l x v) -> e = (x, v) \/ In e l.
  Proof.
    intros l x v e. unfold minsert. destruct (mget String.eqb l x); [auto|]. induction l as [|(k', v') l IH]; cbn [mput].
    - intros [<-|[]]. auto.
    - destruct (String.eqb x k'); [intros [<-|H]; [auto|right; right; exact H]|]. destruct (String.ltb x k'); [intros [<-|H]; auto|].
      intros [<-|H]; [right; left; reflexivity|]. destruct (IH H) as [->|H']; [auto|right; right; exact H'].
  Qed.
  Lemma fold_in : forall ls (l : list (string * mclass)) v e, In e (fold_left (fun l x => minsert String.eqb String.ltb l x v) ls l) -> In e l \/ snd e = v /\ In (fst e) ls.
  Proof.
    induction ls as [|x ls IH]; intros l v e H; cbn [fold_left] in H; [auto|]. destruct (IH _ _ _ H) as [H'|(E & H')].
    - apply minsert_in in H'. destruct H' as [->|H']; [right; split; [reflexivity|left; reflexivity]|auto].
    - right. split; [exact E|right; exact H'].
  Qed.
  Lemma mok_added : forall n m ls, mok n m -> mok n (added m ls).
  Proof.
    intros n m ls (H1 & H2). split; [exact H1|]. cbn [added md_set_cls md_cls]. intros e He. apply fold_in in He. destruct He as [He|(-> & _)]; [auto|exact H1].
  Qed.

  Lemma winv_put2 : forall (w : mworld) k m m' s s', winv w -> nth_error (mw_models w) k = Some m -> nth_error (mw_heap w) (md_sp m) = Some s -> lim s' ->
    mok (length (mw_heap w)) m' -> md_sp m' = md_sp m -> winv (mkMW (upd (mw_heap w) (md_sp m) s') (upd (mw_models w) k m')).
  Proof.
    intros w k m m' s s' I H Hs L M E. pose proof (winv_heap w (md_sp m) s s' I Hs L) as I'.
    exact (winv_model _ k m m' I' H (eq_ind_r (fun n => mok n m') M (upd_length _ _ _)) E).
  Qed.

  Lemma heap_at : forall (w : mworld) k m, winv w -> nth_error (mw_models w) k = Some m -> exists s, nth_error (mw_heap w) (md_sp m) = Some s /\ lim s.
  Proof.
    intros w k m I H. destruct (wi_ok _ I k m H) as (H1 & _). destruct (nth_error (mw_heap w) (md_sp m)) as [s|] eqn:E; [|apply nth_error_None in E; lia].
    exists s. split; [reflexivity|exact (wi_lim _ I _ _ E)].
  Qed.

  Lemma m_set_eq : forall k o m s (w : mworld), nth_error (mw_models w) k = Some m -> nth_error (mw_heap w) (md_sp m) = Some s ->
    m_set k o w = (mkMW (upd (mw_heap w) (md_sp m) (fst (sp_set o s))) (mw_models w), snd (sp_set o s)).
  Proof.
    intros k o m s w H Hs. unfold m_set, sbind. rewrite (get_eq k m w H). unfold on_shared. rewrite Hs. destruct (sp_set o s); reflexivity.
  Qed.

  Lemma m_copy_eq : forall k m s (w : mworld), nth_error (mw_models w) k = Some m -> nth_error (mw_heap w) (md_sp m) = Some s ->
    m_copy k w = let h := mw_heap w ++ [sp_copy (length (mw_heap w)) s] in
      if md_training m then (mkMW h (mw_models w), Throw RuntimeError)
      else (mkMW h (mw_models w ++ [mkModel (length (mw_heap w)) false (map (fun e => (fst e, copy_class (snd e))) (md_cls m)) 0]), Ok tt).
  Proof.
    intros k m s w H Hs. unfold m_copy, sbind. rewrite (get_eq k m w H). unfold get_shared. rewrite Hs. unfold alloc_shared.
    destruct (md_training m); reflexivity.
  Qed.

  Lemma m_assign_eq : forall d k x m s (w : mworld), nth_error (mw_models w) d = Some x -> nth_error (mw_models w) k = Some m -> nth_error (mw_heap w) (md_sp m) = Some s ->
    m_assign d k w = if d =? k then (w, Ok tt) else if md_training x then (w, Throw RuntimeError) else if md_training m then (w, Throw RuntimeError) else
      (mkMW (mw_heap w ++ [sp_copy (length (mw_heap w)) s])
            (upd (mw_models w) d (mkModel (length (mw_heap w)) false (map (fun e => (fst e, copy_class (snd e))) (md_cls m)) (md_alldone x))), Ok tt).
  Proof.
    intros d k x m s w Hd H Hs. unfold m_assign. destruct (d =? k); [reflexivity|]. unfold sbind. rewrite (get_eq d x w Hd), (get_eq k m w H).
    destruct (md_training x); [reflexivity|]. destruct (md_training m); [reflexivity|]. unfold get_shared. rewrite Hs. reflexivity.
  Qed.

  Lemma m_load_eq : forall k f ls m (w : mworld), nth_error (mw_models w) k = Some m ->
    m_load k f ls w = let p := length (mw_heap w) in
      if md_training m then (mkMW (mw_heap w ++ [f p]) (mw_models w), Throw RuntimeError) else
      (mkMW ((mw_heap w ++ [f p]) ++ [sp_copy (S p) (f p)])
            (upd (mw_models w) k (mkModel (S p) false (fold_left (fun l x => minsert String.eqb String.ltb l x (mkMC p Run)) ls []) (md_alldone m))), Ok tt).
  Proof.
    intros k f ls m w H. cbv zeta. unfold m_load, sbind, alloc_shared. unfold get_model. cbn [mw_models]. rewrite H. destruct (md_training m); [reflexivity|].
    unfold get_shared. cbn [mw_heap mw_models]. rewrite nth_error_app2 by lia. rewrite Nat.sub_diag. cbn [nth_error].
    cbn [mw_heap mw_models]. rewrite app_length. cbn [length]. rewrite Nat.add_1_r. reflexivity.
  Qed.

  Lemma winv_step : forall o (w : mworld), winv w -> winv (fst (m_step o w)).
  Proof.
    intros o w I. destruct o as [b|k o|k ts|k ts l|k st|k|d k|k|k|k ops ls]; cbn [m_step].
    - unfold m_new, sbind, alloc_shared, on_shared. cbn [mw_heap mw_models]. rewrite nth_error_app2 by lia. rewrite Nat.sub_diag. cbn [nth_error].
      set (n := length (mw_heap w)). pose proof (lim_set (SBim b) _ (lim_new (A := A) n)) as L. destruct (sp_set (SBim b) (sp_new n)) as (s', r). cbn [fst] in L.
      assert (I1 : winv (mkMW (upd (mw_heap w ++ [sp_new n]) n s') (mw_models w))).
      { apply (winv_heap (mkMW (mw_heap w ++ [sp_new n]) (mw_models w)) n (sp_new n)); [apply winv_alloc; [exact I|apply lim_new]| |exact L].
        cbn [mw_heap]. unfold n. rewrite nth_error_app2 by lia. rewrite Nat.sub_diag. reflexivity. }
      destruct r as [[]|e|]; [|exact I1..]. unfold add_model. cbn [fst mw_heap mw_models]. apply (winv_add _ _ I1).
      + split; cbn [md_sp md_cls mw_heap]; [rewrite upd_length, app_length; cbn; unfold n; lia|intros e []].
      + cbn [mw_models md_sp]. intros k x Hk E. destruct (wi_ok _ I k x Hk) as (X & _). unfold n in E. lia.
    - destruct (nth_error (mw_models w) k) as [m|] eqn:H; [|unfold m_set, sbind, get_model; rewrite H; exact I].
      destruct (heap_at w k m I H) as (s & Hs & L). rewrite (m_set_eq k o m s w H Hs). cbn [fst]. apply (winv_heap w _ s); auto. apply lim_set, L.
    - destruct (Nat.ltb_spec (ts_size ts) 1) as [Z|Z]; [unfold m_prepare; replace (ts_size ts <? 1) with true by (symmetry; apply Nat.ltb_lt; exact Z); exact I|].
      destruct (nth_error (mw_models w) k) as [m|] eqn:H.
      2: { unfold m_prepare. replace (ts_size ts <? 1) with false by (symmetry; apply Nat.ltb_ge; exact Z). unfold m_cancel, sbind, get_model. rewrite H. exact I. }
      destruct (heap_at w k m I H) as (s & Hs & L). rewrite (m_prepare_eq k ts m s w H Hs Z). cbv zeta.
      assert (M1 : mok (length (mw_heap w)) (md_set_training true (md_set_cls [] (rested m)))).
      { split; [cbn; rewrite rested_sp; apply (wi_ok _ I k m H)|intros e []]. }
      pose proof (lim_fetch ts s L) as L'. destruct (sp_fetch ts s) as (s', [[]|e|]); cbn [fst] in *; apply (winv_put2 w k m _ s); auto; try (cbn; apply rested_sp).
      apply mok_added, M1.
    - destruct (nth_error (mw_models w) k) as [m|] eqn:H.
      2: { unfold m_prepare_label. destruct (negb _); [exact I|]. unfold m_cancel_label, sbind, get_model. rewrite H. exact I. }
      unfold m_prepare_label. destruct (negb _); [exact I|]. unfold sbind at 1.
      assert (C : exists m1, m_cancel_label k l w = (with_model k m1 w, Ok tt) /\ md_sp m1 = md_sp m /\ mok (length (mw_heap w)) m1).
      { unfold m_cancel_label, sbind. rewrite (get_eq k m w H). destruct (md_training m && _) eqn:B; cbn [swhen].
        - apply andb_prop in B. destruct B as (B & _). rewrite (m_join_eq k m w H), B. exists (joined m). split; [reflexivity|]. split; [reflexivity|].
          pose proof (mok_rested _ _ (wi_ok _ I k m H)) as Q. unfold rested in Q. rewrite B in Q. exact Q.
        - exists m. rewrite (with_same k m w H). split; [reflexivity|]. split; [reflexivity|]. exact (wi_ok _ I k m H). }
      destruct C as (m1 & -> & E1 & M1). pose proof (winv_model w k m m1 I H M1 E1) as I1.
      assert (H1 : nth_error (mw_models (with_model k m1 w)) k = Some m1) by (rewrite (nth_with _ _ _ _ _ H), Nat.eqb_refl; reflexivity).
      set (w1 := with_model k m1 w) in *. clearbody w1. unfold sbind at 1. rewrite (get_eq k m1 w1 H1).
      destruct (heap_at w1 k m1 I1 H1) as (s & Hs & L). unfold sbind at 1. unfold get_shared. rewrite Hs.
      match goal with |- context [if ?b then sthrow _ else _] => destruct b end; [exact I1|].
      unfold sbind, put_model. rewrite m_fetch_eq. cbn [mw_heap mw_models]. rewrite Hs. pose proof (lim_fetch ts s L) as L'.
      assert (M2 : mok (length (mw_heap w1)) (md_set_training true m1)) by (destruct (wi_ok _ I1 k m1 H1); split; auto).
      destruct (sp_fetch ts s) as (s', [[]|e|]); cbn [fst] in L'; try (apply (winv_put2 w1 k m1 _ s); auto; fail).
      set (w2 := mkMW _ _). assert (I2 : winv w2) by (apply (winv_put2 w1 k m1 _ s); auto).
      assert (H2 : nth_error (mw_models w2) k = Some (md_set_training true m1)) by (unfold w2; cbn [mw_models]; rewrite (nth_error_upd _ _ _ _ _ H1), Nat.eqb_refl; reflexivity).
      clearbody w2. pose proof (add_all [l] k _ w2 H2) as E. cbn [sforeach] in E. unfold sbind, sret in E. destruct (m_add_class k l w2) as (w3, [[]|e|]); try discriminate.
      cbn [fst] in *. injection E as ->. apply (winv_model w2 k _ _ I2 H2); [apply mok_added; exact (wi_ok _ I2 k _ H2)|reflexivity].
    - destruct (nth_error (mw_models w) k) as [m|] eqn:H; [|unfold m_finish, sbind, get_model; rewrite H; exact I].
      unfold m_finish, sbind, put_model. rewrite (get_eq k m w H). set (m1 := md_set_cls _ m). fold (with_model k m1 w).
      assert (M1 : mok (length (mw_heap w)) m1).
      { destruct (wi_ok _ I k m H) as (X & Y). split; [exact X|]. cbn. intros e He. apply in_map_iff in He. destruct He as (e0 & <- & He). exact (Y e0 He). }
      assert (H1 : nth_error (mw_models (with_model k m1 w)) k = Some m1) by (rewrite (nth_with _ _ _ _ _ H), Nat.eqb_refl; reflexivity).
      pose proof (winv_model w k m m1 I H M1 eq_refl) as I1. rewrite (m_join_eq k m1 _ H1). destruct (md_training m1) eqn:B; [|exact I1].
      cbn [fst]. pose proof (mok_rested _ _ M1) as Q. unfold rested in Q. rewrite B in Q. apply (winv_model _ k m1 _ I1 H1 Q). reflexivity.
    - destruct (nth_error (mw_models w) k) as [m|] eqn:H; [|unfold m_copy, sbind, get_model; rewrite H; exact I].
      destruct (heap_at w k m I H) as (s & Hs & L). rewrite (m_copy_eq k m s w H Hs). cbv zeta. pose proof (winv_alloc w (sp_copy (length (mw_heap w)) s) I (lim_copy _ _ L)) as I1.
      destruct (md_training m); [exact I1|]. cbn [fst]. apply (winv_add _ _ I1).
      + destruct (wi_ok _ I k m H) as (X & Y). split; cbn [md_sp md_cls mw_heap]; rewrite app_length; cbn [length]; [lia|]. intros e He. apply in_map_iff in He.
        destruct He as (e0 & <- & He). specialize (Y e0 He). cbn. lia.
      + cbn [mw_models md_sp]. intros j x Hj E. destruct (wi_ok _ I j x Hj) as (X & _). lia.
    - destruct (nth_error (mw_models w) d) as [x|] eqn:Hd.
      2: { unfold m_assign. destruct (d =? k); [exact I|]. unfold sbind, get_model. rewrite Hd. exact I. }
      destruct (nth_error (mw_models w) k) as [m|] eqn:H.
      2: { unfold m_assign. destruct (d =? k); [exact I|]. unfold sbind, get_model. rewrite Hd, H. exact I. }
      destruct (heap_at w k m I H) as (s & Hs & L). rewrite (m_assign_eq d k x m s w Hd H Hs). destruct (d =? k); [exact I|].
      destruct (md_training x); [exact I|]. destruct (md_training m); [exact I|]. cbn [fst].
      pose proof (winv_alloc w (sp_copy (length (mw_heap w)) s) I (lim_copy _ _ L)) as I1.
      apply (winv_fresh _ d x _ I1 Hd).
      + destruct (wi_ok _ I k m H) as (X & Y). split; cbn [md_sp md_cls mw_heap]; rewrite app_length; cbn [length]; [lia|]. intros e He. apply in_map_iff in He.
        destruct He as (e0 & <- & He). specialize (Y e0 He). cbn. lia.
      + cbn [mw_models md_sp]. intros j y Hj E. destruct (wi_ok _ I j y Hj) as (X & _). lia.
    - destruct (nth_error (mw_models w) k) as [m|] eqn:H; [|unfold m_cancel, sbind, get_model; rewrite H; exact I].
      rewrite (m_cancel_eq k m w H). cbn [fst]. apply (winv_model w k m _ I H); [apply mok_rested, (wi_ok _ I k m H)|apply rested_sp].
    - destruct (nth_error (mw_models w) k) as [m|] eqn:H; [|unfold m_clear, m_cancel, sbind, get_model; rewrite H; exact I].
      rewrite (m_clear_eq k m w H). cbn [fst]. apply (winv_model w k m _ I H); [|cbn; apply rested_sp].
      split; [cbn; rewrite rested_sp; apply (wi_ok _ I k m H)|intros e []].
    - set (f := fun id => sp_run ops (sp_new id)). assert (Lf : forall id, lim (f id)) by (intro; apply lim_run, lim_new).
      pose proof (winv_alloc w (f (length (mw_heap w))) I (Lf _)) as I1.
      destruct (nth_error (mw_models w) k) as [m|] eqn:H.
      2: { unfold m_load, sbind, alloc_shared, get_model. cbn [mw_models]. rewrite H. exact I1. }
      rewrite (m_load_eq k f ls m w H). cbv zeta. destruct (md_training m); [exact I1|]. cbn [fst].
      pose proof (winv_alloc _ (sp_copy (S (length (mw_heap w))) (f (length (mw_heap w)))) I1 (lim_copy _ _ (Lf _))) as I2. cbn [mw_heap mw_models] in I2.
      apply (winv_fresh _ k m _ I2 H).
      + split; cbn [md_sp md_cls mw_heap]; rewrite !app_length; cbn [length]; [lia|]. intros e He. apply fold_in in He. destruct He as [[]|(-> & _)]. cbn. lia.
      + cbn [mw_models md_sp]. intros j y Hj E. destruct (wi_ok _ I j y Hj) as (X & _). lia.
  Qed.

  Lemma winv_run : forall ops w, winv w -> winv (m_run ops w).
  Proof. induction ops as [|o ops IH]; intros w I; cbn [m_run]; [exact I|]. apply IH, winv_step, I. Qed.
  Lemma winv0 : winv mw0.
  Proof. constructor; cbn; intros; destruct k || destruct p || destruct i; discriminate. Qed.
  Lemma winv_reach : forall ops, winv (m_run ops mw0).
  Proof. intro ops. apply winv_run, winv0. Qed.
End Models.
