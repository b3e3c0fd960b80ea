(** Shared parameters: proofs. *)
From Coq Require Import String List Bool Arith ZArith QArith Lia.
From Verif Require Import Base BaseFacts Arith Model_Json Proofs_Json Model_Phrase Model_Gaussian Spec_Gaussian Model_Shared Spec_Shared.
From Verif Require Import Proofs_Gaussian Proofs_Gaussian2 Proofs_Gaussian4.
Import ListNotations.
Local Open Scope nat_scope.

Section Shared.
  Context {A : arith}.
  Local Notation T := (num A).

  (** What holds whatever was called. *)
  Definition sp_inv (s : shared A) : Prop :=
    1 <= sp_dim s /\ 1 <= sp_dim_min s /\ sp_dim_min s <= sp_dim s /\
    (sp_bim s = true -> sp_dim_min s = 2 /\ sp_din_min s = 1) /\
    (sp_din_min s = 0 \/ sp_din_min s = 1) /\
    1 <= sp_minit s /\ 1 <= sp_win s /\ nltb (sp_pct s) n0 = false /\
    ((sp_nsize s = 0 /\ sp_dim s = 1) \/ (sp_nsize s = sp_dim s /\ length (sp_names s) = sp_dim s)).

  Lemma on_dim_eq : forall s : shared A, 1 <= sp_dim s -> sp_on_dim s =
    (sp_set_names (vresize (sp_dim s) ""%string (sp_names s)) (sp_dim s)
       (sp_set_din (sp_din s) (sp_din_min s) (sp_dim s - 1) s), Ok tt).
  Proof.
    intros s H. unfold sp_on_dim, sbind, slift, sget, smod, usub.
    replace (1 <=? sp_dim s) with true by (symmetry; apply Nat.leb_le; lia). reflexivity.
  Qed.

  Ltac unf := unfold sp_set, sp_react, sp_on_bim, sp_own_dim, sp_own_din, sp_assignS, sbind, sget, smod, swhen, sret, sp_assign_value.
  Ltac rec := cbn [sp_bim sp_dim sp_dim_min sp_din sp_din_min sp_din_max sp_names sp_nsize sp_minit sp_maxit sp_pct sp_win sp_owner
    sp_set_bim sp_set_dim sp_set_din sp_set_names sp_set_em fst snd].
  Ltac tests := repeat match goal with
    | |- context [?a <? ?b] => first [replace (a <? b) with true by (symmetry; apply Nat.ltb_lt; lia)
                                     |replace (a <? b) with false by (symmetry; apply Nat.ltb_ge; lia)
                                     |destruct (Nat.ltb_spec a b)]
    | |- context [?a =? ?b] => destruct (Nat.eqb_spec a b)
    | |- context [nltb ?a n0] => destruct (nltb a n0) eqn:?
    end.

  (** What each call does, for an object that satisfies [sp_inv]. *)
  Lemma set_dim_eq : forall (s : shared A) n, 1 <= sp_dim_min s -> sp_set (SDim n) s =
    if n <? sp_dim_min s then (s, Throw DomainError)
    else (sp_set_names (vresize n ""%string (sp_names s)) n
            (sp_set_din (sp_din s) (sp_din_min s) (n - 1) (sp_set_dim n (sp_dim_min s) s)), Ok tt).
  Proof.
    intros s n H. unf. destruct (Nat.ltb_spec n (sp_dim_min s)) as [L|L]; [reflexivity|].
    rewrite on_dim_eq; [reflexivity|]. rec. lia.
  Qed.

  Lemma set_on_eq : forall s : shared A, 1 <= sp_dim s -> sp_set (SBim true) s =
    let s1 := if sp_dim s <? 2
              then sp_set_names (vresize 2 ""%string (sp_names s)) 2 (sp_set_din (sp_din s) (sp_din_min s) 1 (sp_set_dim 2 2 (sp_set_bim true s)))
              else sp_set_dim (sp_dim s) 2 (sp_set_bim true s) in
    let s2 := sp_set_din (sp_din s1) 1 (sp_din_max s1) s1 in
    if sp_din s2 <? 1
    then if sp_din_max s2 <? 1 then (s2, Throw DomainError) else (sp_set_din 1 1 (sp_din_max s2) s2, Ok tt)
    else (s2, Ok tt).
  Proof.
    intros [b d dm i im ix nm nz mi ma p w o] H. cbn [sp_dim] in H. cbv zeta. destruct (Nat.ltb_spec d 2) as [L|L].
    - assert (d = 1) by lia. subst d. destruct i; reflexivity.
    - unf. rec. replace (d <? 2) with false by (symmetry; apply Nat.ltb_ge; lia). rec.
      destruct (i <? 1); [|reflexivity]. unfold sp_assignS, sp_assign_value. rec. destruct ix; reflexivity.
  Qed.

  Lemma set_off_eq : forall s : shared A, 1 <= sp_dim s -> sp_set (SBim false) s =
    let s1 := sp_set_din (sp_din s) (sp_din_min s) 0 (sp_set_dim (sp_dim s) 1 (sp_set_bim false s)) in
    if 0 <? sp_din_min s then (s1, Throw DomainError) else (sp_set_din 0 (sp_din_min s) 0 s1, Ok tt).
  Proof.
    intros s H. cbv zeta. unf. rec.
    replace (sp_dim s <? 1) with false by (symmetry; apply Nat.ltb_ge; lia). rec.
    destruct (0 <? sp_din_min s); reflexivity.
  Qed.

  Lemma vresize2 : forall (l : list string), length (vresize 2 ""%string l) = 2.
  Proof. intro. apply vresize_len. Qed.

  Lemma sp_inv_set : forall o (s : shared A), sp_inv s -> sp_inv (fst (sp_set o s)).
  Proof.
    intros o s (H1 & H2 & H3 & H4 & H5 & H6 & H7 & H8 & H9).
    destruct o as [[|]|n|n|l|n|n|x|n].
    - rewrite set_on_eq by exact H1. cbv zeta. destruct (Nat.ltb_spec (sp_dim s) 2); rec;
        (destruct (sp_din s <? 1); [match goal with |- context [?a <? 1] => destruct (a <? 1) end|]);
        unfold sp_inv; rec; repeat split; auto; try lia;
        first [right; split; [reflexivity|apply vresize2]|destruct H9 as [[? ?]|?]; [lia|right; assumption]].
    - rewrite set_off_eq by exact H1. cbv zeta. destruct (0 <? sp_din_min s); unfold sp_inv; rec; repeat split; auto; try lia;
        discriminate.
    - rewrite set_dim_eq by exact H2. destruct (Nat.ltb_spec n (sp_dim_min s)); unfold sp_inv; rec; repeat split; auto; try lia;
        try (apply H4; assumption). right. split; [reflexivity|apply vresize_len].
    - unf. match goal with |- context [if ?b then Throw _ else _] => destruct b end; unfold sp_inv; rec; repeat split; auto; apply H4; assumption.
    - unf. destruct (Nat.ltb_spec 0 (sp_nsize s)) as [L|L]; destruct (Nat.eqb_spec (length l) (sp_nsize s)) as [E|E]; cbn [andb negb];
        unfold sp_inv; rec; repeat split; auto; try (apply H4; assumption).
      + right. destruct H9 as [[? ?]|[? ?]]; [lia|]. split; [assumption|]. rewrite E. assumption.
      + destruct H9 as [?|[? ?]]; [left; assumption|lia].
      + destruct H9 as [?|[? ?]]; [left; assumption|lia].
    - unf. destruct (Nat.ltb_spec n 1); unfold sp_inv; rec; repeat split; auto; try lia; apply H4; assumption.
    - unf. unfold sp_inv; rec; repeat split; auto; apply H4; assumption.
    - unf. destruct (nltb x n0) eqn:E; unfold sp_inv; rec; repeat split; auto; apply H4; assumption.
    - unf. destruct (Nat.ltb_spec n 1); unfold sp_inv; rec; repeat split; auto; try lia; apply H4; assumption.
  Qed.

  Lemma sp_inv_run : forall ops (s : shared A), sp_inv s -> sp_inv (sp_run ops s).
  Proof. induction ops; intros s H; cbn [sp_run]; [exact H|]. apply IHops. apply sp_inv_set, H. Qed.

  Lemma sp_inv_new : forall id, nltb (nofQ (1 # 100)) (n0 (A := A)) = false -> sp_inv (sp_new id).
  Proof. intros id H. unfold sp_inv, sp_new. rec. repeat split; auto; try lia; discriminate. Qed.

  (** Any history. *)
  Lemma always : forall id ops, nltb (nofQ (1 # 100)) (n0 (A := A)) = false ->
    let s : shared A := sp_run ops (sp_new id) in
    1 <= sp_dim s /\ (sp_bim s = true -> 2 <= sp_dim s) /\
    1 <= sp_minit s /\ 1 <= sp_win s /\ nltb (sp_pct s) n0 = false /\
    (sp_nsize s = 0 /\ sp_dim s = 1 \/ sp_nsize s = sp_dim s /\ length (sp_names s) = sp_dim s).
  Proof.
    intros id ops H s. destruct (sp_inv_run ops (sp_new id) (sp_inv_new id H)) as (H1 & H2 & H3 & H4 & H5 & H6 & H7 & H8 & H9).
    fold s in H1, H2, H3, H4, H5, H6, H7, H8, H9. repeat split; auto. intro B. destruct (H4 B). lia.
  Qed.

  (** Once bimodal, the lower limit of the input dimension is 1 for good. *)
  Lemma din_min_stays : forall o (s : shared A), sp_inv s -> sp_din_min s = 1 -> sp_din_min (fst (sp_set o s)) = 1.
  Proof.
    intros o s (H1 & H2 & _) E. destruct o as [[|]|n|n|l|n|n|x|n].
    - rewrite set_on_eq by exact H1. cbv zeta. destruct (sp_dim s <? 2); rec;
        (destruct (sp_din s <? 1); [match goal with |- context [?a <? 1] => destruct (a <? 1) end|]); reflexivity.
    - rewrite set_off_eq by exact H1. cbv zeta. destruct (0 <? sp_din_min s); exact E.
    - rewrite set_dim_eq by exact H2. destruct (n <? sp_dim_min s); exact E.
    - unf. match goal with |- context [if ?b then Throw _ else _] => destruct b end; exact E.
    - unf. match goal with |- context [if ?b then Throw _ else _] => destruct b end; exact E.
    - unf. destruct (n <? 1); exact E.
    - exact E.
    - unf. destruct (nltb x n0); exact E.
    - unf. destruct (n <? 1); exact E.
  Qed.

  Lemma din_min_run : forall ops (s : shared A), sp_inv s -> sp_din_min s = 1 \/ In (SBim true) ops -> sp_din_min (sp_run ops s) = 1.
  Proof.
    induction ops; intros s I H; cbn [sp_run]; [destruct H as [H|[]]; exact H|].
    apply IHops; [apply sp_inv_set, I|]. destruct H as [H|[H|H]].
    - left. apply din_min_stays; assumption.
    - left. subst a. destruct I as (H1 & _). rewrite set_on_eq by exact H1. cbv zeta. destruct (sp_dim s <? 2); rec;
        (destruct (sp_din s <? 1); [match goal with |- context [?a <? 1] => destruct (a <? 1) end|]); reflexivity.
    - right. exact H.
  Qed.

  Lemma off_refused : forall id ops, nltb (nofQ (1 # 100)) (n0 (A := A)) = false -> In (SBim true) ops ->
    let s : shared A := sp_run ops (sp_new id) in
    exists s', sp_set (SBim false) s = (s', Throw DomainError) /\ sp_bim s' = false /\ sp_din s' = sp_din s /\
      (forall n, snd (sp_set (SDin n) s') = Throw DomainError).
  Proof.
    intros id ops H I s. pose proof (sp_inv_new id H) as V. pose proof (din_min_run ops (sp_new id) V (or_intror I)) as E.
    pose proof (sp_inv_run ops _ V) as W. fold s in E, W. destruct W as (H1 & _).
    rewrite set_off_eq by exact H1. cbv zeta. rewrite E. cbn [Nat.ltb Nat.leb]. eexists. split; [reflexivity|]. rec.
    split; [reflexivity|]. split; [reflexivity|]. intro n. unf. rec. destruct n; reflexivity.
  Qed.

  (** Orderly histories. *)
  Definition ord_inv (s : shared A) : Prop :=
    modal_ok s /\ sp_din_max s < sp_dim s /\ sp_dim_min s = (if sp_bim s then 2 else 1) /\ sp_din_min s = (if sp_bim s then 1 else 0).

  Lemma orderly_run : forall ops (s : shared A), ord_inv s -> orderly ops s -> ord_inv (sp_run ops s).
  Proof.
    induction ops as [|o ops IH]; intros s I H; cbn [sp_run]; [exact I|].
    cbn [orderly] in H. destruct (sp_set o s) as [s' out] eqn:E. destruct H as (-> & C & H). cbn [fst].
    apply IH; [|exact H]. clear IH H. destruct I as (M & X & D & N). unfold modal_ok in M.
    assert (P : 1 <= sp_dim s) by (destruct (sp_bim s); lia).
    assert (P' : 1 <= sp_dim_min s) by (destruct (sp_bim s); lia).
    destruct o as [[|]|n|n|l|n|n|x|n].
    - rewrite set_on_eq in E by exact P. cbv zeta in E. revert E. destruct (Nat.ltb_spec (sp_dim s) 2) as [L|L]; rec.
      + destruct (Nat.ltb_spec (sp_din s) 1) as [L2|L2]; cbn [Nat.ltb Nat.leb]; intro E; injection E as <-;
          unfold ord_inv, modal_ok; rec; destruct (sp_bim s); repeat split; try lia.
      + destruct (Nat.ltb_spec (sp_din s) 1) as [L2|L2]; [destruct (sp_din_max s <? 1); [discriminate|]|]; intro E; injection E as <-;
          unfold ord_inv, modal_ok; rec; destruct (sp_bim s); repeat split; try lia.
    - rewrite set_off_eq in E by exact P. cbv zeta in E. revert E. destruct (Nat.ltb_spec 0 (sp_din_min s)); [discriminate|]; intro E; injection E as <-.
      unfold ord_inv, modal_ok; rec. destruct (sp_bim s); repeat split; lia.
    - rewrite set_dim_eq in E by exact P'. revert E. destruct (Nat.ltb_spec n (sp_dim_min s)); [discriminate|]; intro E; injection E as <-.
      unfold ord_inv, modal_ok; rec. destruct (sp_bim s); repeat split; lia.
    - revert E. unf. destruct (Nat.ltb_spec n (sp_din_min s)); [discriminate|]. destruct (Nat.ltb_spec (sp_din_max s) n); [discriminate|].
      cbn [orb]. intro E; injection E as <-. unfold ord_inv, modal_ok; rec. destruct (sp_bim s); repeat split; try lia; auto.
    - revert E. unf. match goal with |- context [if ?b then Throw _ else _] => destruct b end; [discriminate|].
      intro E; injection E as <-. unfold ord_inv, modal_ok; rec. auto.
    - revert E. unf. destruct (n <? 1); [discriminate|]. intro E; injection E as <-. unfold ord_inv, modal_ok; rec. auto.
    - revert E. unf. intro E; injection E as <-. unfold ord_inv, modal_ok; rec. auto.
    - revert E. unf. destruct (nltb x n0); [discriminate|]. intro E; injection E as <-. unfold ord_inv, modal_ok; rec. auto.
    - revert E. unf. destruct (n <? 1); [discriminate|]. intro E; injection E as <-. unfold ord_inv, modal_ok; rec. auto.
  Qed.

  Lemma orderly_ok : forall id ops, orderly ops (sp_new id : shared A) -> modal_ok (sp_run ops (sp_new id)).
  Proof.
    intros id ops H. apply (orderly_run ops (sp_new id)); [|exact H].
    unfold ord_inv, modal_ok, sp_new; rec. repeat split; lia.
  Qed.

  (** ** JSON *)
  Lemma names_read : forall (s : shared A), sp_nsize s = sp_dim s -> length (sp_names s) = sp_dim s ->
    tabM (length (sp_names s)) (fun i => if i <? sp_nsize s then rd (sp_names s) i else Throw OutOfRange) = Ok (sp_names s).
  Proof.
    intros s E L. rewrite (tabM_ok _ _ (fun i => nth i (sp_names s) ""%string)).
    - rewrite (tab_nth_self (sp_names s)). reflexivity.
    - intros i Hi. rewrite E, <- L. replace (i <? length (sp_names s)) with true by (symmetry; apply Nat.ltb_lt; exact Hi).
      unfold rd. rewrite (nth_error_nth' _ ""%string Hi). reflexivity.
  Qed.

  Lemma jsize_of_ok : forall (cv : conv A) o key (d : Z) n, lookup o key = Some (JInt (Z.of_nat n)) -> int_range n ->
    jsize_of cv (JObj o) key d = Ok n.
  Proof.
    intros cv o key d n H R. unfold jsize_of, jget. rewrite H. cbn [bind]. rewrite (as_int_size cv n R). cbn [bind]. apply as_size_nat.
  Qed.

  Ltac lk := cbn [lookup String.eqb Ascii.eqb Bool.eqb app].

  Lemma new_bim : forall b id, sp_set (SBim b) (sp_new id : shared A) =
    (mkShared b (if b then 2 else 1) (if b then 2 else 1) (if b then 1 else 0) (if b then 1 else 0) (if b then 1 else 0)
       (if b then [""; ""] else [])%string (if b then 2 else 0) 10 0 (nofQ (1 # 100)) 1 (Some id), Ok tt).
  Proof. destruct b; reflexivity. Qed.

  Lemma sp_trip : forall (cv : conv A) tmp (s h : shared A), storable s -> nltb (c_float cv (sp_pct s)) n0 = false ->
    exists j, sp_toJson s = Ok j /\ sp_fromJson cv tmp j h = (sp_reloaded cv tmp s, Ok tt).
  Proof.
    intros cv tmp [b d dm i im ix nm nz mi ma p w o] h (H1 & H2 & H3 & H4 & H5 & H6 & H7 & H8) HP.
    cbn [sp_bim sp_dim sp_dim_min sp_din sp_din_min sp_din_max sp_names sp_nsize sp_minit sp_maxit sp_pct sp_win sp_owner] in *.
    assert (R : int_range d /\ int_range i /\ int_range mi /\ int_range ma /\ int_range w).
    { repeat match goal with H : Forall _ (_ :: _) |- _ => inversion H; clear H; subst end. unfold int_range. auto. }
    destruct R as (R1 & R2 & R3 & R4 & R5). clear H8.
    unfold sp_toJson. rewrite names_read by assumption. cbn [bind sp_names]. destruct nm as [|x nm]; [cbn in H4; lia|].
    eexists. split; [reflexivity|]. set (names := x :: nm) in *.
    unfold sp_fromJson. match goal with |- context [sp_ofJsonS cv ?j _] => set (root := j) end.
    assert (E : sp_ofJsonS cv root (sp_new tmp) = (sp_reloaded cv tmp (mkShared b d dm i im ix names nz mi ma p w o), Ok tt)).
    { unfold sp_ofJsonS.
      apply (slift_ok _ _ _ b); [reflexivity|].
      eapply sbind_ok; [apply new_bim|].
      apply (slift_ok _ _ _ d); [apply jsize_of_ok; [reflexivity|exact R1]|].
      eapply sbind_ok. { rewrite set_dim_eq by (cbn; destruct b; lia). rec. replace (d <? (if b then 2 else 1)) with false; [reflexivity|].
        symmetry. apply Nat.ltb_ge. destruct b; [specialize (H3 eq_refl)|]; lia. }
      apply (slift_ok _ _ _ i); [apply jsize_of_ok; [reflexivity|exact R2]|].
      eapply sbind_ok. { unf. rec. replace (i <? (if b then 1 else 0)) with false; [replace (d - 1 <? i) with false; [reflexivity|]|].
        - symmetry. apply Nat.ltb_ge. lia.
        - symmetry. apply Nat.ltb_ge. destruct b; [specialize (H3 eq_refl)|]; lia. }
      apply (slift_ok _ _ _ mi); [apply jsize_of_ok; [reflexivity|exact R3]|].
      eapply sbind_ok. { unf. rec. replace (mi <? 1) with false; [reflexivity|]. symmetry. apply Nat.ltb_ge. lia. }
      apply (slift_ok _ _ _ ma); [apply jsize_of_ok; [reflexivity|exact R4]|].
      eapply sbind_ok. { unf. rec. reflexivity. }
      apply (slift_ok _ _ _ (c_float cv p)); [reflexivity|].
      eapply sbind_ok. { unf. rec. rewrite HP. reflexivity. }
      apply (slift_ok _ _ _ w); [apply jsize_of_ok; [reflexivity|exact R5]|].
      eapply sbind_ok. { unf. rec. replace (w <? 1) with false; [reflexivity|]. symmetry. apply Nat.ltb_ge. lia. }
      eapply sbind_ok; [reflexivity|]. rec.
      apply (slift_ok _ _ _ names).
      { change (jmember root "column_names") with (Ok (A:=json A) (JArr (map JStr names))). cbn [bind].
        rewrite (tabM_ok _ _ (fun k => nth k names ""%string)); [rewrite <- H4, (tab_nth_self names); reflexivity|].
        intros k Hk. unfold jindex. rewrite nth_error_map. rewrite <- H4 in Hk. rewrite (nth_error_nth' _ ""%string Hk). reflexivity. }
      unf. rec. rewrite H4, Nat.eqb_refl. cbn [negb]. rewrite andb_false_r. destruct b; reflexivity. }
    rewrite E. reflexivity.
  Qed.

  (** Names set before any dimension cannot be written. *)
  Lemma early_names : forall id x l, exists s : shared A,
    sp_set (SNames (x :: l)) (sp_new id) = (s, Ok tt) /\ sp_toJson s = Throw OutOfRange.
  Proof.
    intros id x l. eexists. split; [reflexivity|]. unfold sp_toJson. rec.
    assert (E : forall n, 0 < n -> tabM (A:=string) n (fun i => if i <? 0 then rd (x :: l) i else Throw OutOfRange) = Throw OutOfRange).
    { induction n; intro Hn; [lia|]. cbn [tabM]. destruct n; [reflexivity|]. rewrite IHn by lia. reflexivity. }
    unfold sp_new. rec. rewrite E by (cbn; lia). reflexivity.
  Qed.

  (** ** Listeners *)
  Lemma sp_assigned : forall (cv : conv A) (w : sworld A) k s (g t : shared A) n, k <> s ->
    nth_error w k = Some (Some g) -> nth_error w s = Some (Some t) -> sp_owner t = Some s -> sp_dim_min t <= n ->
    exists w1 w2, sp_step cv (SAssign k s) w = (w1, Ok tt) /\ nth_error w1 k = Some (Some t) /\
      sp_step cv (SSet k (SDim n)) w1 = (w2, Ok tt) /\
      nth_error w2 k = Some (Some (sp_set_dim n (sp_dim_min t) t)).
  Proof.
    intros cv w k s g t n Hks Hk Hs Ho Hmin. unfold sp_step. rewrite Hk, Hs.
    replace (k =? s) with false by (symmetry; apply Nat.eqb_neq; auto). unfold sp_assign.
    eexists. eexists. split; [reflexivity|]. split; [eapply nth_error_upd; eauto|].
    rewrite (nth_error_upd _ _ _ _ Hk). unfold sp_world_set, sp_assign_value.
    replace (n <? sp_dim_min t) with false by (symmetry; apply Nat.ltb_ge; lia).
    cbn [sp_owner sp_set_dim]. rewrite Ho. replace (s =? k) with false by (symmetry; apply Nat.eqb_neq; auto).
    rewrite nth_error_upd_neq by auto. rewrite Hs. split; [reflexivity|].
    eapply nth_error_upd. eapply nth_error_upd. eauto.
  Qed.

  Definition keeps {X} (m : stm (shared A) X) : Prop := forall s, sp_owner (fst (m s)) = sp_owner s.
  Lemma keeps_bind : forall {X Y} (m : stm (shared A) X) (f : X -> stm (shared A) Y), keeps m -> (forall x, keeps (f x)) -> keeps (sbind m f).
  Proof.
    intros X Y m f Hm Hf s. unfold sbind. specialize (Hm s). destruct (m s) as [s1 [x|e|]]; cbn [fst] in *; auto. rewrite <- Hm. apply Hf.
  Qed.
  Lemma keeps_lift : forall {X} (r : res X), keeps (slift r).
  Proof. intros X r s. reflexivity. Qed.
  Lemma keeps_get : keeps sget.
  Proof. intros s. reflexivity. Qed.
  Lemma keeps_when : forall b (m : stm (shared A) unit), keeps m -> keeps (swhen b m).
  Proof. intros [] m H s; [apply H|reflexivity]. Qed.
  Lemma keeps_mod : forall f : shared A -> shared A, (forall s, sp_owner (f s) = sp_owner s) -> keeps (smod f).
  Proof. intros f H s. apply H. Qed.
  Lemma keeps_assign : forall o, keeps (sp_assignS o).
  Proof. intros o s. unfold sp_assignS. destruct o; cbn [sp_assign_value]; try match goal with |- context [if ?b then _ else _] => destruct b end; reflexivity. Qed.
  Ltac keep := repeat first [apply keeps_bind; [|intro] | apply keeps_lift | apply keeps_get | apply keeps_when | apply keeps_assign
    | apply keeps_mod; intro; reflexivity].
  Lemma keeps_on_dim : keeps sp_on_dim.
  Proof. unfold sp_on_dim. keep. Qed.
  Lemma keeps_set : forall o, keeps (sp_set o).
  Proof.
    intro o. unfold sp_set. apply keeps_bind; [apply keeps_assign|]. intros _. destruct o; cbn [sp_react]; try (intro; reflexivity).
    - unfold sp_on_bim, sp_own_dim, sp_own_din. apply keeps_bind; [apply keeps_get|]. intro s. destruct (sp_bim s); keep; apply keeps_on_dim.
    - apply keeps_on_dim.
  Qed.
  Lemma keeps_ofJson : forall cv root, keeps (sp_ofJsonS cv root).
  Proof. intros. unfold sp_ofJsonS. repeat first [apply keeps_set | apply keeps_lift | apply keeps_get | apply keeps_bind; [|intro]]. Qed.

  Lemma sp_reload_dangles : forall (cv : conv A) (w : sworld A) k (g : shared A) root w1 o, nth_error w k = Some (Some g) ->
    sp_step cv (SFromJson k root) w = (w1, Ok tt) ->
    match snd (sp_step cv (SSet k o) w1) with Ok _ => False | Throw e => e = DomainError | UB => True end.
  Proof.
    intros cv w k g root w1 o Hk H. unfold sp_step in *. rewrite Hk in H. unfold sp_fromJson in H.
    pose proof (keeps_ofJson cv root (sp_new (length w))) as K.
    destruct (sp_ofJsonS cv root (sp_new (length w))) as [t [[]|e|]] eqn:E; try (inversion H; fail). injection H as <-.
    cbn [fst] in K. change (sp_owner (sp_new (length w) : shared A)) with (Some (length w)) in K.
    assert (Hlen : k < length w) by (apply nth_error_Some; congruence).
    rewrite nth_error_app1 by (rewrite upd_length; auto). rewrite (nth_error_upd _ _ _ _ Hk). unfold sp_assign, sp_world_set.
    assert (V : match sp_assign_value o t with Ok t' => sp_owner t' = Some (length w) | Throw e => e = DomainError | UB => True end).
    { destruct o; cbn [sp_assign_value]; try match goal with |- context [if ?b then _ else _] => destruct b end; cbn; auto. }
    destruct (sp_assign_value o t) as [t'|e|]; cbn [snd]; auto.
    rewrite V. replace (length w =? k) with false by (symmetry; apply Nat.eqb_neq; lia).
    rewrite nth_error_app2 by (rewrite upd_length; lia). rewrite upd_length, Nat.sub_diag. exact I.
  Qed.

  (** ** Accepted histories that end in an inconsistent object *)
  Lemma shrink_below : forall id n m, 2 <= n -> n <= m -> exists s1 s2 s3 s4 : shared A,
    sp_set (SBim true) (sp_new id) = (s1, Ok tt) /\ sp_set (SDim (S m)) s1 = (s2, Ok tt) /\
    sp_set (SDin m) s2 = (s3, Ok tt) /\ sp_set (SDim n) s3 = (s4, Ok tt) /\
    sp_bim s4 = true /\ sp_dim s4 = n /\ sp_din s4 = m.
  Proof.
    intros id n m Hn Hm. eexists; eexists; eexists; eexists. split; [apply (new_bim true)|].
    split. { rewrite set_dim_eq by (cbn; lia). rec. replace (S m <? 2) with false by (symmetry; apply Nat.ltb_ge; lia). reflexivity. }
    split. { unf. rec. replace (m <? 1) with false by (symmetry; apply Nat.ltb_ge; lia).
             replace (S m - 1 <? m) with false by (symmetry; apply Nat.ltb_ge; lia). reflexivity. }
    split. { rewrite set_dim_eq by (cbn; lia). rec. replace (n <? 2) with false by (symmetry; apply Nat.ltb_ge; lia). reflexivity. }
    rec. auto.
  Qed.

  Lemma unimodal_input : forall id n k, k < n -> exists s1 s2 : shared A,
    sp_set (SDim n) (sp_new id) = (s1, Ok tt) /\ sp_set (SDin k) s1 = (s2, Ok tt) /\
    sp_bim s2 = false /\ sp_dim s2 = n /\ sp_din s2 = k.
  Proof.
    intros id n k H. eexists; eexists.
    split. { rewrite set_dim_eq by (cbn; lia). unfold sp_new. rec. replace (n <? 1) with false by (symmetry; apply Nat.ltb_ge; lia). reflexivity. }
    split. { unf. rec. replace (k <? 0) with false by (symmetry; apply Nat.ltb_ge; lia).
             replace (n - 1 <? k) with false by (symmetry; apply Nat.ltb_ge; lia). reflexivity. }
    rec. auto.
  Qed.

  Lemma on_refused : forall id n, 2 <= n -> exists s1 s2 s3 : shared A,
    sp_set (SDim n) (sp_new id) = (s1, Ok tt) /\ sp_set (SBim false) s1 = (s2, Ok tt) /\
    sp_set (SBim true) s2 = (s3, Throw DomainError) /\ sp_bim s3 = true /\ sp_dim s3 = n /\ sp_din s3 = 0.
  Proof.
    intros id n H. eexists; eexists; eexists.
    split. { rewrite set_dim_eq by (cbn; lia). unfold sp_new. rec. replace (n <? 1) with false by (symmetry; apply Nat.ltb_ge; lia). reflexivity. }
    split. { rewrite set_off_eq by (rec; lia). cbv zeta. rec. reflexivity. }
    split. { rewrite set_on_eq by (rec; lia). cbv zeta. rec. replace (n <? 2) with false by (symmetry; apply Nat.ltb_ge; lia). rec. reflexivity. }
    rec. auto.
  Qed.
End Shared.
