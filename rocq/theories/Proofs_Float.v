(** Facts about binary64 comparisons. *)
From Coq Require Import ZArith Bool Floats.SpecFloat Lia.
From Verif Require Import Base Arith.

Lemma SFcompare_antisym : forall x y,
  SFcompare y x = option_map CompOpp (SFcompare x y).
Proof.
  intros [s| s| |s m e] [s'| s'| |s' m' e']; simpl; try destruct s; try destruct s'; simpl; auto;
    rewrite (Z.compare_antisym e' e) || rewrite (Z.compare_antisym e e');
    destruct (Z.compare _ _); simpl; auto.
  all: change (Pos.compare_cont Eq m' m) with (Pos.compare m' m);
       change (Pos.compare_cont Eq m m') with (Pos.compare m m');
       rewrite (Pos.compare_antisym m m'); destruct (Pos.compare m m'); reflexivity.
Qed.

Lemma SFcompare_notnan : forall x y,
  f64_isnan x = false -> f64_isnan y = false -> SFcompare x y <> None.
Proof.
  intros [s| s| |s m e] [s'| s'| |s' m' e']; simpl; intros; try discriminate;
    try destruct s; try destruct s'; try discriminate;
    destruct (Z.compare _ _); try discriminate.
Qed.

Lemma SFltb_SFleb : forall x y,
  f64_isnan x = false -> f64_isnan y = false -> SFltb x y = false -> SFleb y x = true.
Proof.
  intros x y Hx Hy. unfold SFltb, SFleb. rewrite (SFcompare_antisym x y).
  pose proof (SFcompare_notnan x y Hx Hy). destruct (SFcompare x y) as [[]|]; simpl; congruence.
Qed.

From Verif Require Import Model_Attribute Spec_Common Proofs_Attribute.

Lemma f64_attr_in_range : forall (a a' : attr f64) v s calls,
  f64_isnan v = false -> f64_isnan (a_min a) = false -> f64_isnan (a_max a) = false ->
  attr_set (checkLimits SFltb) a v s = (a', Ok tt, calls) ->
  a_val a' = v /\ SFleb (a_min a') v = true /\ SFleb v (a_max a') = true.
Proof.
  unfold f64. intros a a' v s calls Hv H1 H2 H. apply attr_set_atomic in H.
  destruct H as [(_ & H & _)|(HR & _ & E1 & _ & E2 & E3 & _)]; [discriminate|].
  unfold in_range in HR. apply andb_true_iff in HR as [Ha Hb].
  apply negb_true_iff in Ha, Hb. rewrite E1, E2, E3.
  split; [reflexivity|]. split; apply SFltb_SFleb; assumption.
Qed.
