(** Settings of a K-Means object; trainings depend on the settings and the recordings only. *)
From Coq Require Import String List Bool Arith Lia ZArith Reals Lra.
From Verif Require Import Base BaseFacts Arith RFacts Model_Json Model_Phrase Model_TrainingSet Model_Config Model_KMeans Model_Workflow Model_KMeans2 Spec_Workflow
  Spec_KMeans Spec_KMeans2 Proofs_KMeans Proofs_KMeans2 Proofs_KMeans3.
Import ListNotations.
Local Open Scope R_scope.

(** ** Determinism *)
Lemma labels_unique : forall clusters dim prev frames a b, Forall2 (nearest clusters dim prev) frames a -> Forall2 (nearest clusters dim prev) frames b -> a = b.
Proof.
  intros clusters dim prev frames a b H. revert b. induction H as [|x l fs ls N F IH]; intros b Hb; inversion Hb; subst; [reflexivity|].
  f_equal; [eapply nearest_unique; eassumption|apply IH; assumption].
Qed.
Lemma flat_ext : forall clusters dim (a b : list R), length a = (clusters * dim)%nat -> length b = (clusters * dim)%nat ->
  (forall k d, (k < clusters)%nat -> (d < dim)%nat -> nth (k * dim + d) a 0 = nth (k * dim + d) b 0) -> a = b.
Proof.
  intros clusters dim a b La Lb Z. apply (nth_ext a b 0 0); [congruence|]. intros q Hq. rewrite La in Hq. destruct (Nat.eq_dec dim 0) as [->|Hd]; [lia|].
  rewrite (Nat.div_mod q dim Hd). rewrite (Nat.mul_comm dim). apply Z; [apply Nat.div_lt_upper_bound; lia|apply Nat.mod_upper_bound, Hd].
Qed.
Lemma averaged_det : forall clusters dim prev frames a b, averaged clusters dim prev frames a -> averaged clusters dim prev frames b -> a = b.
Proof.
  intros clusters dim prev frames a b (La & la & Na & Va) (Lb & lb & Nb & Vb). pose proof (labels_unique _ _ _ _ _ _ Na Nb) as <-.
  apply (flat_ext clusters dim); auto. intros k d Hk Hd. rewrite (Va k d Hk Hd), (Vb k d Hk Hd). reflexivity.
Qed.
Lemma run_updates_det : forall clusters dim thr frames n i a b, run_updates clusters dim thr frames n i a -> run_updates clusters dim thr frames n i b -> a = b.
Proof.
  intros clusters dim thr frames n i a b H. revert b. induction H as [i|n i c A S|n i c e A S H IH]; intros b Hb; inversion Hb; subst; auto.
  - eapply averaged_det; eassumption.
  - match goal with X : averaged _ _ i _ ?y |- _ => match y with c => fail 1 | _ => pose proof (averaged_det _ _ _ _ _ _ A X) as E; subst y end end. contradiction.
  - match goal with X : averaged _ _ i _ ?y |- _ => match y with c => fail 1 | _ => pose proof (averaged_det _ _ _ _ _ _ A X) as E; subst y end end. contradiction.
  - match goal with X : averaged _ _ i _ ?y |- _ => match y with c => fail 1 | _ => pose proof (averaged_det _ _ _ _ _ _ A X) as E; subst y end end. apply IH. assumption.
Qed.
Lemma starts_det : forall first clusters dim recs rnd a b, starts first clusters dim recs rnd a -> starts first clusters dim recs rnd b -> a = b.
Proof.
  intros first clusters dim recs rnd a b (La & Va) (Lb & Vb). apply (flat_ext clusters dim); auto. intros k d Hk Hd. rewrite (Va k d Hk Hd), (Vb k d Hk Hd). reflexivity.
Qed.

(** ** The settings of an object *)
Lemma step_par : forall o (k k' : kmeans RA), after (km_step o k) k = Ok k' -> km_par k' = kmP_run (settings_of [o]) (km_par k) /\ km_first k' = first_of [o] (km_first k).
Proof.
  intros o k k' H. destruct o as [e|b|w i rnd| |obs|root]; cbn [km_step] in H; cbn [settings_of flat_map app first_of fold_left kmP_run fold_left].
  - unfold kmP_edit. destruct (kmP_set e (km_par k)) as [p| |] eqn:E; cbn [bind after] in H; [| |discriminate]; injection H as <-; (split; [|reflexivity]); [destruct p; reflexivity|reflexivity].
  - injection H as <-. split; reflexivity.
  - unfold km_train_set in H. destruct (nth_error (w_sets w) i) as [[t|]|]; [|discriminate|discriminate].
    destruct (t_phrases t) as [|e m]; [injection H as <-; split; reflexivity|].
    destruct (phrases_of w t) as [ps| |]; cbn [bind after] in H; [|injection H as <-; split; reflexivity|discriminate].
    destruct (if km_first k then Ok [] else ts_stddev (t_dim t) ps) as [dev| |]; cbn [bind after] in H; [|injection H as <-; split; reflexivity|discriminate].
    destruct (mapM phrase_frames ps) as [data| |]; cbn [bind after] in H; [|injection H as <-; split; reflexivity|discriminate].
    destruct (if t_bim t then Ok [] else mapM pointer_frames ps) as [x| |]; cbn [bind after] in H; [|injection H as <-; split; reflexivity|discriminate].
    unfold km_train in H. destruct data as [|f data]; [injection H as <-; split; reflexivity|]. destruct (km_dim k) as [d0|]; [|discriminate].
    match type of H with context [bind ?r _] => destruct r as [c0| |] end; cbn [bind after] in H; [|injection H as <-; split; reflexivity|discriminate].
    match type of H with context [bind ?r _] => destruct r as [c1| |] end; cbn [bind after] in H; [|injection H as <-; split; reflexivity|discriminate].
    injection H as <-. split; reflexivity.
  - injection H as <-. split; reflexivity.
  - unfold km_filter in H. destruct (km_dim k) as [d0|]; [|discriminate]. destruct (negb (length obs =? d0)%nat); [injection H as <-; split; reflexivity|].
    match type of H with context [bind ?r _] => destruct r as [[[ds mn] best]| |] end; cbn [bind after] in H; [|injection H as <-; split; reflexivity|discriminate].
    injection H as <-. split; reflexivity.
  - injection H as <-. split; reflexivity.
Qed.

Lemma run_par : forall ops (k k' : kmeans RA), km_run ops k = Ok k' -> km_par k' = kmP_run (settings_of ops) (km_par k) /\ km_first k' = first_of ops (km_first k).
Proof.
  induction ops as [|o ops IH]; intros k k' H; [injection H as <-; split; reflexivity|]. rewrite run_cons in H.
  destruct (after (km_step o k) k) as [k1|e|] eqn:E; [|discriminate|discriminate]. destruct (step_par o k k1 E) as (P1 & P2). destruct (IH k1 k' H) as (P3 & P4).
  assert (X : settings_of (o :: ops) = settings_of [o] ++ settings_of ops) by (unfold settings_of; cbn [flat_map]; rewrite app_nil_r; reflexivity).
  rewrite X. unfold kmP_run in *. rewrite fold_left_app, <- P1. split; [exact P3|]. rewrite P4, P2. reflexivity.
Qed.

(** ** JSON *)
Section Json.
  Context {A : arith}.
  Variable cv : conv A.

  Lemma int_round : forall n, (Z.of_nat n < 2 ^ 32)%Z -> (- 2 ^ 31 <= to_int n < 2 ^ 31)%Z /\ to_unsigned (to_int n) = n.
  Proof.
    intros n H. unfold to_int, to_unsigned. destruct (Z.ltb_spec (Z.of_nat n) (2 ^ 31)).
    - split; [lia|]. rewrite Z.mod_small by lia. apply Nat2Z.id.
    - split; [lia|]. replace (Z.of_nat n - 2 ^ 32)%Z with (Z.of_nat n + (-1) * 2 ^ 32)%Z by lia. rewrite Z.mod_add by lia. rewrite Z.mod_small by lia. apply Nat2Z.id.
  Qed.

  Lemma member_int : forall o key n, lookup o key = Some (JInt (A := A) (to_int n)) -> (Z.of_nat n < 2 ^ 32)%Z -> jmember_int cv (JObj o) key = Ok (to_int n).
  Proof.
    intros o key n L H. unfold jmember_int, jmember. rewrite L. cbn [bind as_int]. destruct (int_round n H) as ((H1 & H2) & _).
    rewrite (proj2 (Z.leb_le _ _) H1), (proj2 (Z.ltb_lt _ _) H2). reflexivity.
  Qed.

  Lemma km_round_trip : forall p q : kmP A, kmP_ok cv p -> kmP_fromJson cv (kmP_toJson p) q = (p, Ok tt).
  Proof.
    intros p q ((C1 & C2) & (M1 & M2) & T1 & T2 & T3). unfold kmP_fromJson, kmP_ofJson, kmP_toJson.
    rewrite (member_int _ "clusters" (kp_clusters p)) by (auto; reflexivity). cbn [bind]. rewrite (proj2 (int_round _ C2)). unfold kmP_set at 1.
    destruct (Nat.ltb_spec (kp_clusters p) 1); [lia|]. cbn [bind].
    rewrite (member_int _ "max_iterations" (kp_maxit p)) by (auto; reflexivity). cbn [bind]. rewrite (proj2 (int_round _ M2)). unfold kmP_set at 1.
    destruct (Nat.ltb_spec (kp_maxit p) 1); [lia|]. cbn [bind kp_clusters].
    unfold jmember_float, jmember. cbn [lookup String.eqb Ascii.eqb Bool.eqb bind as_float]. rewrite T3. cbn [bind kmP_set kp_clusters kp_maxit]. rewrite T1, T2. cbn [orb].
    destruct p; reflexivity.
  Qed.

  Lemma set_ok : forall e (p q : kmP A), edit_typed cv e -> kmP_ok cv p -> kmP_set e p = Ok q -> kmP_ok cv q.
  Proof.
    intros e p q ET (C & M & T1 & T2 & T3) H. destruct e as [n|n|x]; cbn [kmP_set edit_typed] in *.
    - destruct (Nat.ltb_spec n 1); [discriminate|]. injection H as <-. unfold kmP_ok. cbn. repeat split; auto; lia.
    - destruct (Nat.ltb_spec n 1); [discriminate|]. injection H as <-. unfold kmP_ok. cbn. repeat split; auto; lia.
    - destruct (nltb x n0) eqn:E1; [discriminate|]. destruct (nltb flt_max x) eqn:E2; [discriminate|]. injection H as <-. unfold kmP_ok. cbn [kp_clusters kp_maxit kp_thr]. auto.
  Qed.
  Lemma run_ok : forall es (p : kmP A), Forall (edit_typed cv) es -> kmP_ok cv p -> kmP_ok cv (kmP_run es p).
  Proof.
    induction es as [|e es IH]; intros p F H; [exact H|]. inversion F; subst. apply IH; [assumption|]. unfold kmP_edit. destruct (kmP_set e p) eqn:E; [eapply set_ok; eassumption|exact H|exact H].
  Qed.

  (** A document that is not accepted changes nothing; an accepted one gives settings inside their limits. *)
  Lemma km_load : forall root (p : kmP A), (exists e, kmP_fromJson cv root p = (p, Throw e)) \/ (exists q, kmP_fromJson cv root p = (q, Ok tt) /\ within_limits q).
  Proof.
    intros root p. unfold kmP_fromJson. assert (H : (exists e, kmP_ofJson cv root = Throw e) \/ exists q, kmP_ofJson cv root = Ok q /\ within_limits q).
    2:{ destruct H as [(e & ->)|(q & -> & H)]; [left; eauto|right]. exists q. split; [destruct q; reflexivity|exact H]. }
    assert (I : forall key, (exists z, jmember_int cv root key = Ok z) \/ exists e, jmember_int cv root key = Throw e).
    { intro key. unfold jmember_int, jmember. destruct root as [|b|z|x|s|l|o]; cbn [bind as_int]; eauto. destruct (lookup o key) as [v|]; cbn [bind as_int]; eauto.
      destruct v as [|b|z|x|s|l|o']; cbn [as_int]; eauto; [destruct (_ && _); eauto|destruct (c_trunc cv x); eauto]. }
    assert (F : forall key, (exists z, jmember_float cv root key = Ok z) \/ exists e, jmember_float cv root key = Throw e).
    { intro key. unfold jmember_float, jmember. destruct root as [|b|z|x|s|l|o]; cbn [bind as_float]; eauto. destruct (lookup o key) as [v|]; cbn [bind as_float]; eauto.
      destruct v as [|b|z|x|s|l|o']; cbn [as_float]; eauto. }
    unfold kmP_ofJson.
    destruct (I "clusters"%string) as [(z & ->)|(e & ->)]; cbn [bind]; [|left; eauto]. cbn [kmP_set]. destruct (Nat.ltb_spec (to_unsigned z) 1) as [|L1]; cbn [bind]; [left; eauto|].
    destruct (I "max_iterations"%string) as [(y & ->)|(e & ->)]; cbn [bind]; [|left; eauto]. cbn [kmP_set]. destruct (Nat.ltb_spec (to_unsigned y) 1) as [|L2]; cbn [bind]; [left; eauto|].
    destruct (F "relative_distance_threshold"%string) as [(x & ->)|(e & ->)]; cbn [bind]; [|left; eauto]. cbn [kmP_set].
    destruct (nltb x n0) eqn:E1; [left; cbn; eauto|]. destruct (nltb flt_max x) eqn:E2; [left; cbn; eauto|]. right. cbn [orb]. eexists. split; [reflexivity|]. repeat split; cbn; auto.
  Qed.
End Json.
