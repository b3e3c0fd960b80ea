(** Proofs about the JSON array helpers. *)
From Coq Require Import String List Bool Arith Lia ZArith.
From Verif Require Import Base BaseFacts Arith Model_Json.
Import ListNotations.
Local Open Scope nat_scope.

Section JsonProofs.
  Context {A : arith}.
  Local Notation J := (json A).

  Lemma iterM_fill : forall {X} n (rd_a : nat -> res X) (inj : X -> J) f m,
    (forall i, i < n -> rd_a i = Ok (f i)) ->
    iterM n (fun i root => let* x := rd_a i in wr root i (inj x)) (repeat JNull (n + m))
    = Ok (tab n (fun i => inj (f i)) ++ repeat JNull m).
  Proof.
    induction n; intros rd_a inj f m H; [reflexivity|].
    cbn [iterM]. replace (S n + m) with (n + S m) by lia.
    rewrite (IHn rd_a inj f (S m)) by (intros; apply H; lia). cbn [bind].
    rewrite H by lia. cbn [bind]. rewrite wr_ok by (rewrite app_length, tab_length; simpl; lia).
    rewrite tab_S. f_equal.
    assert (L : length (tab n (fun i => inj (f i))) = n) by apply tab_length.
    rewrite <- L at 2. rewrite <- app_assoc. cbn [repeat app].
    generalize (tab n (fun i => inj (f i))) (inj (f n)). clear.
    induction l; intros x; [reflexivity|]. cbn [app length upd]. f_equal. apply IHl.
  Qed.

  Lemma array2json_ok : forall {X} n (rd_a : nat -> res X) (inj : X -> J) f,
    (forall i, i < n -> rd_a i = Ok (f i)) ->
    array2json inj rd_a n = Ok (JArr (tab n (fun i => inj (f i)))).
  Proof.
    intros. unfold array2json. replace (repeat JNull n) with (repeat (@JNull A) (n + 0)) by (f_equal; lia).
    rewrite (iterM_fill n rd_a inj f 0 H). cbn [bind]. simpl. rewrite app_nil_r. reflexivity.
  Qed.

  Lemma tab_nth_self : forall {X} (v : list X) d, tab (length v) (fun i => nth i v d) = v.
  Proof.
    intros. apply (nth_ext_len _ _ d); rewrite tab_length; auto. intros. rewrite nth_tab; auto.
  Qed.

  Lemma vector2json_ok : forall {X} (inj : X -> J) v, vector2json inj v = Ok (JArr (map inj v)).
  Proof.
    intros X inj v. unfold vector2json. destruct v as [|x0 v0] eqn:E; [reflexivity|]. rewrite <- E.
    rewrite (array2json_ok _ _ _ (fun i => nth i v x0)).
    - assert (M : map inj v = map inj (tab (length v) (fun i => nth i v x0))) by (rewrite tab_nth_self; reflexivity).
      rewrite M. unfold tab. rewrite map_map. reflexivity.
    - intros. apply rd_ok; auto.
  Qed.

  Lemma fill_from_ok : forall {X} (asX : J -> res X) g l i a,
    (forall j, In j l -> asX j = Ok (g j)) -> i + length l <= length a ->
    fill_from asX l i a = (firstn i a ++ map g l ++ skipn (i + length l) a, Ok tt).
  Proof.
    induction l as [|j l IH]; intros i a H Hl; simpl.
    - rewrite Nat.add_0_r, firstn_skipn. reflexivity.
    - rewrite H by (left; auto). simpl in Hl. rewrite wr_ok by lia.
      rewrite IH; [|intros; apply H; right; auto|rewrite upd_length; lia].
      f_equal. clear - Hl. replace (i + S (length l)) with (S i + length l) by lia.
      revert a Hl. generalize (map g l) (length l). intros ml k.
      induction i; intros [|y a] Hl; simpl in *; try lia; auto.
      f_equal. apply IHi. lia.
  Qed.

  Lemma fill_from_safe : forall {X} (asX : J -> res X) l i a,
    (forall j, asX j <> UB) -> i + length l <= length a ->
    snd (fill_from asX l i a) <> UB /\ length (fst (fill_from asX l i a)) = length a.
  Proof.
    induction l as [|j l IH]; intros i a H Hl; simpl.
    - split; [discriminate|reflexivity].
    - simpl in Hl. destruct (asX j) eqn:E; simpl; [|split; auto; discriminate|contradiction (H j E)].
      rewrite wr_ok by lia. destruct (IH (S i) (upd a i a0)) as (H1 & H2); auto.
      { rewrite upd_length. lia. }
      rewrite upd_length in H2. auto.
  Qed.

  (** C15 *)
  Lemma json_round_trip : forall {X} early (inj : X -> J) (asX : J -> res X) (v w : list X),
    (forall x, In x v -> asX (inj x) = Ok x) -> length w = length v ->
    exists j, vector2json inj v = Ok j /\ json2vector early asX j w (length v) = (v, Ok tt).
  Proof.
    intros X early inj asX v w H L. exists (JArr (map inj v)). split; [apply vector2json_ok|].
    unfold json2vector. destruct (early && (length v =? 0)) eqn:E.
    - apply andb_true_iff in E. destruct E as (_ & E). apply Nat.eqb_eq in E.
      destruct v; [|discriminate]. destruct w; [reflexivity|discriminate].
    - unfold json2array. rewrite map_length, Nat.eqb_refl.
      clear E. destruct v as [|x0 v0] eqn:E; [destruct w; [reflexivity|discriminate]|]. rewrite <- E in *.
      assert (exists g, forall j, In j (map inj v) -> asX j = Ok (g j)) as (g & Hg).
      { exists (fun j => match asX j with Ok x => x | _ => x0 end). intros j Hj.
        apply in_map_iff in Hj. destruct Hj as (x & <- & Hx). rewrite (H x Hx). reflexivity. }
      rewrite (fill_from_ok asX g) by (auto; rewrite map_length; lia).
      simpl. rewrite map_length, <- L, skipn_all, app_nil_r, map_map. f_equal.
      rewrite <- (map_id v) at 2. apply map_ext_in. intros x Hx.
      assert (asX (inj x) = Ok (g (inj x))) by (apply Hg; apply in_map; auto).
      rewrite (H x Hx) in H0. congruence.
  Qed.

  Lemma json_round_trip_types : forall (cv : conv A),
    (forall v w, length w = length v ->
       exists j, vector2json JReal v = Ok j /\ json2vector true (as_double (A:=A)) j w (length v) = (v, Ok tt)) /\
    (forall v w, (forall x, In x v -> c_float cv x = x) -> length w = length v ->
       exists j, vector2json JReal v = Ok j /\ json2vector true (as_float cv) j w (length v) = (v, Ok tt)) /\
    (forall v w, length w = length v ->
       exists j, vector2json JBool v = Ok j /\ json2vector true (as_bool (A:=A)) j w (length v) = (v, Ok tt)) /\
    (forall v w, length w = length v ->
       exists j, vector2json JStr v = Ok j /\ json2vector true (as_string cv) j w (length v) = (v, Ok tt)) /\
    (forall v w, (forall z, In z v -> (- 2 ^ 31 <= z < 2 ^ 31)%Z) -> length w = length v ->
       exists j, vector2json JInt v = Ok j /\ json2vector false (as_int cv) j w (length v) = (v, Ok tt)).
  Proof.
    intro cv. repeat split; intros v w H; try intro L; apply json_round_trip; auto.
    - intros x Hx. simpl. rewrite (H x Hx). reflexivity.
    - intros z Hz. specialize (H z Hz). unfold as_int.
      destruct (Z.leb_spec (- 2 ^ 31) z); [|lia]. destruct (Z.ltb_spec z (2 ^ 31)); [|lia]. reflexivity.
  Qed.

  Lemma json_rejects : forall {X} early (asX : J -> res X) root (w : list X) n,
    early = false \/ 0 < n ->
    (forall l, root <> JArr l) -> json2vector early asX root w n = (w, Throw JsonTypeError).
  Proof.
    intros X early asX root w n He H. unfold json2vector.
    destruct (early && (n =? 0)) eqn:E.
    { apply andb_true_iff in E. destruct E as (-> & E). apply Nat.eqb_eq in E. destruct He; [discriminate|lia]. }
    unfold json2array. destruct root; auto. contradiction (H l eq_refl).
  Qed.

  Lemma json_rejects_size : forall {X} early (asX : J -> res X) l (w : list X) n,
    early = false \/ 0 < n ->
    length l <> n -> json2vector early asX (JArr l) w n = (w, Throw JsonValueError).
  Proof.
    intros X early asX l w n He H. unfold json2vector.
    destruct (early && (n =? 0)) eqn:E.
    { apply andb_true_iff in E. destruct E as (-> & E). apply Nat.eqb_eq in E. destruct He; [discriminate|lia]. }
    unfold json2array. apply Nat.eqb_neq in H. rewrite H. reflexivity.
  Qed.

  Lemma json_no_overrun : forall {X} early (asX : J -> res X) root (w : list X) n,
    (forall j, asX j <> UB) -> n <= length w ->
    snd (json2vector early asX root w n) <> UB /\
    length (fst (json2vector early asX root w n)) = length w.
  Proof.
    intros X early asX root w n H L. unfold json2vector, json2array.
    destruct (early && (n =? 0)); [split; [discriminate|reflexivity]|].
    destruct root; try (split; [discriminate|reflexivity]).
    destruct (Nat.eqb_spec (length l) n); [|split; [discriminate|reflexivity]].
    apply fill_from_safe; auto. lia.
  Qed.
End JsonProofs.
