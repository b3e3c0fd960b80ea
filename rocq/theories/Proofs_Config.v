(** Configurations: proofs. *)
From Coq Require Import String List Bool Arith ZArith QArith Lia Sorted.
From Verif Require Import Base Arith Model_Json Model_Map Proofs_Map Model_Gaussian Spec_Gaussian Proofs_Gaussian4 Model_Config Spec_Config.
Import ListNotations.
Local Open Scope nat_scope.

(** ** The parameters used for a label *)
Section Used.
  Context {P E V : Type}.
  Variables (pdef : P) (passign : P -> P -> P) (pedit : E -> P -> P) (view : P -> V) (vedit : E -> V -> V).
  Hypothesis view_assign : forall d s, view (passign d s) = view s.
  Hypothesis view_edit : forall e p, view (pedit e p) = vedit e (view p).

  Definition agrees (c : config P) (w : @wanted V) : Prop :=
    view (cf_def c) = fst w /\ forall l, option_map view (cget c l) = snd w l.

  Lemma cget_cput : forall (c : config P) l p l', cget (cput c l p) l' = if String.eqb l' l then Some p else cget c l'.
  Proof. intros. unfold cget, cput. cbn [cf_class]. apply (mget_mput _ _ String.eqb_eq). Qed.

  Lemma at_agrees : forall l c w, agrees c w -> agrees (cf_at pdef passign l c) (want vedit w (CTouch l)) /\
    exists p, cget (cf_at pdef passign l c) l = Some p /\ view p = wanted_for w l.
  Proof.
    intros l c w (D & C). unfold cf_at, want, wanted_for, change. pose proof (C l) as Cl. destruct (cget c l) as [p|] eqn:G; cbn [option_map] in Cl.
    - rewrite <- Cl. split.
      + split; [exact D|]. intro l'. cbn [snd]. destruct (String.eqb_spec l' l) as [->|N]; [rewrite G; reflexivity|apply C].
      + exists p. split; [exact G|reflexivity].
    - rewrite <- Cl. split.
      + split; [exact D|]. intro l'. rewrite cget_cput. cbn [snd]. destruct (String.eqb l' l); [cbn; rewrite view_assign, D; reflexivity|apply C].
      + eexists. rewrite cget_cput, String.eqb_refl. split; [reflexivity|]. rewrite view_assign. exact D.
  Qed.

  Lemma step_agrees : forall o c w, agrees c w -> agrees (cf_step pdef passign pedit o c) (want vedit w o).
  Proof.
    intros o c w H. destruct o as [e|l e|l| |l]; cbn [cf_step].
    - destruct H as (D & C). split; [cbn; rewrite view_edit, D; reflexivity|exact C].
    - unfold cf_edit_class. destruct (at_agrees l c w H) as ((D & C) & p & G & Vp). rewrite G. split; [exact D|].
      intro l'. rewrite cget_cput. specialize (C l'). cbn [want snd] in *. unfold change in *.
      destruct (String.eqb l' l); [cbn; rewrite view_edit, Vp; reflexivity|exact C].
    - apply at_agrees, H.
    - destruct H as (D & C). split; [exact D|]. intro l. reflexivity.
    - destruct H as (D & C). split; [exact D|]. intro l'. unfold cf_reset_label, cget. cbn [cf_class].
      rewrite (mget_mdel _ String.eqb_eq). cbn [want snd]. unfold change. destruct (String.eqb l' l); [reflexivity|apply C].
  Qed.

  Lemma run_agrees : forall ops c w, agrees c w -> agrees (cf_run pdef passign pedit ops c) (fold_left (want vedit) ops w).
  Proof. induction ops as [|o ops IH]; intros c w H; [exact H|]. apply IH, step_agrees, H. Qed.

  Lemma used_view : forall ops l old,
    view (cf_used passign l (cf_run pdef passign pedit ops (cf_new pdef)) old) = wanted_for (wants vedit (view pdef) ops) l.
  Proof.
    intros ops l old. unfold cf_used. rewrite view_assign.
    destruct (run_agrees ops (cf_new pdef) (view pdef, fun _ => None)) as (D & C); [split; [reflexivity|intro; reflexivity]|].
    unfold wants, wanted_for. rewrite <- (C l). destruct (cget _ l); cbn [option_map]; [reflexivity|exact D].
  Qed.
End Used.

(** ** JSON *)
Section Json.
  Context {A : arith} {P : Type}.
  Variables (cv : conv A) (pdef : P) (passign : P -> P -> P) (ptoJson : P -> json A) (pofJson : json A -> res P).
  Variables (ok : P -> Prop) (rnd : P -> P).
  Hypothesis trip : forall p, ok p -> pofJson (ptoJson p) = Ok (rnd p).

  Lemma members_ok : forall l m, ksorted (K:=string) (V:=P) String.ltb (m ++ map (fun e => (fst e, passign pdef (rnd (snd e)))) l) ->
    Forall (fun e => ok (snd e)) l ->
    cf_members pdef passign pofJson (map (fun e => (fst e, ptoJson (snd e))) l) m =
      Ok (m ++ map (fun e => (fst e, passign pdef (rnd (snd e)))) l).
  Proof.
    induction l as [|[k p] l IH]; intros m S F; cbn [map cf_members fst snd]; [rewrite app_nil_r; reflexivity|].
    inversion F; subst. cbn [snd] in *. rewrite trip by assumption. cbn [bind].
    assert (Sm : forall x, In x (map fst m) -> String.ltb x k = true /\ ksorted (K:=string) (V:=P) String.ltb m).
    { intros x Hx. unfold ksorted in S. rewrite map_app in S. clear -S Hx. revert S Hx.
      assert (G : forall a b, StronglySorted (fun a b => String.ltb a b = true) (a ++ k :: b) -> forall x, In x a -> String.ltb x k = true /\ StronglySorted (fun a b => String.ltb a b = true) a).
      { induction a as [|y a IH]; intros b S x0 Hx0; [destruct Hx0|]. cbn in S. inversion S; subst.
        assert (Sa : StronglySorted (fun a b => String.ltb a b = true) a).
        { destruct a as [|z a]; [constructor|]. apply (IH b H1 z). left. reflexivity. }
        split.
        - destruct Hx0 as [<-|Hx0]; [|apply (IH b H1 x0 Hx0)]. rewrite Forall_forall in H2. apply H2. apply in_or_app. right. left. reflexivity.
        - constructor; [exact Sa|]. rewrite Forall_forall in *. intros z Hz. apply H2. apply in_or_app. left. exact Hz. }
      intros S Hx. cbn [map fst] in S. apply (G _ _ S x Hx). }
    assert (Ks : ksorted (K:=string) (V:=P) String.ltb m).
    { destruct m as [|[y q] m]; [constructor|]. apply (Sm y). left. reflexivity. }
    assert (N : mget String.eqb m k = None).
    { destruct (mget String.eqb m k) eqn:G; [|reflexivity]. apply (mget_in _ String.eqb_eq) in G.
      destruct (Sm k) as (L & _); [apply in_map_iff; exists (k, p0); auto|]. rewrite str_ltb_irrefl in L. discriminate. }
    rewrite N. rewrite (mput_last _ _ String.eqb_eq str_ltb_trans str_ltb_irrefl) by (auto; intros x Hx; apply (Sm x Hx)).
    rewrite IH; [rewrite <- app_assoc; reflexivity| |assumption]. rewrite <- app_assoc. exact S.
  Qed.

  Lemma config_trip : forall s c, config_ok ok s ->
    cf_fromJson pdef passign pofJson cv (cf_toJson ptoJson s) c =
      (mkConfig (passign (cf_def c) (passign pdef (rnd (cf_def s)))) (cf_mt s) (cf_est s)
         (map (fun e => (fst e, passign pdef (rnd (snd e)))) (cf_class s)), Ok tt).
  Proof.
    intros [d mt est m] c (M & S & D & F & K). cbn [cf_def cf_mt cf_est cf_class] in *. unfold cf_fromJson, cf_ofJson, cf_toJson.
    cbn [cf_def cf_mt cf_est cf_class].
    assert (IM : as_int cv (JInt mt) = Ok mt).
    { rewrite <- (Z2Nat.id mt) by lia. apply as_int_size. unfold int_range. rewrite Z2Nat.id by lia. lia. }
    assert (IE : as_int cv (JInt est) = Ok est).
    { rewrite <- (Z2Nat.id est) by lia. apply as_int_size. unfold int_range. rewrite Z2Nat.id by lia. lia. }
    assert (Hm : cf_members pdef passign pofJson (map (fun e => (fst e, ptoJson (snd e))) m) [] =
                 Ok (map (fun e => (fst e, passign pdef (rnd (snd e)))) m)).
    { rewrite members_ok; [reflexivity| |exact F]. unfold ksorted. cbn [app]. rewrite map_map. cbn [fst]. exact K. }
    destruct m as [|e m].
    - cbn [app jmember jget lookup String.eqb Ascii.eqb Bool.eqb bind]. rewrite trip by exact D. cbn [bind]. rewrite IM. cbn [bind].
      rewrite IE. cbn [bind cf_members]. reflexivity.
    - set (o := JObj (map _ (e :: m))).
      cbn [app jmember jget lookup String.eqb Ascii.eqb Bool.eqb bind]. rewrite trip by exact D. cbn [bind]. rewrite IM. cbn [bind].
      rewrite IE. cbn [bind]. unfold o. cbn [bind]. rewrite Hm. reflexivity.
  Qed.
End Json.

(** ** Instances *)
Section Instances.
  Context {A : arith}.
  Variable cv : conv A.

  Lemma gmmP_assign_eq : forall d s : gmmP A, gmmP_assign d s = s.
  Proof. intros d []. reflexivity. Qed.

  Lemma pos_ok : forall (o : list (string * json A)) key n, lookup o key = Some (JInt (Z.of_nat n)) -> 1 <= n -> (Z.of_nat n < 2 ^ 31)%Z ->
    jmember_pos cv (JObj o) key = Ok n.
  Proof.
    intros o key n L H R. unfold jmember_pos, jmember_int, jmember. rewrite L. cbn [bind]. rewrite (as_int_size cv n R). cbn [bind].
    rewrite as_size_nat. cbn [bind]. replace (n <? 1) with false by (symmetry; apply Nat.ltb_ge; lia). reflexivity.
  Qed.
  Lemma reg_ok : forall (o : list (string * json A)) key x, lookup o key = Some (JReal x) -> nltb (c_float cv x) reg_min = false ->
    jmember_reg cv (JObj o) key = Ok (c_float cv x).
  Proof. intros o key x L H. unfold jmember_reg, jmember_float, jmember. rewrite L. cbn [bind as_float]. rewrite H. reflexivity. Qed.
  Lemma int_ok : forall (o : list (string * json A)) key z, lookup o key = Some (JInt z) -> (0 <= z <= 2)%Z ->
    jmember_int cv (JObj o) key = Ok z.
  Proof.
    intros o key z L H. unfold jmember_int, jmember. rewrite L. cbn [bind]. rewrite <- (Z2Nat.id z) by lia. apply as_int_size.
    unfold int_range. rewrite Z2Nat.id by lia. lia.
  Qed.

  Lemma gmm_trip : forall p : gmmP A, gmmP_ok cv p -> gmmP_ofJson cv (gmmP_toJson p) = Ok (gmmP_round cv p).
  Proof.
    intros p (H1 & H2 & H3 & H4). unfold gmmP_ofJson, gmmP_toJson.
    rewrite (pos_ok _ _ (gp_gauss p)) by (reflexivity || assumption). cbn [bind].
    rewrite (reg_ok _ _ (gp_rel p)) by (reflexivity || assumption). cbn [bind].
    rewrite (reg_ok _ _ (gp_abs p)) by (reflexivity || assumption). cbn [bind].
    rewrite (int_ok _ _ (mode_int (gp_mode p))) by (try reflexivity; destruct (gp_mode p); cbn; lia). cbn [bind].
    destruct (gp_mode p) eqn:E; cbn [int_mode mode_int Z.eqb bind]; unfold gmmP_round; rewrite E; reflexivity.
  Qed.

  Lemma hmm_trip : forall p : hmmP A, hmmP_ok cv p -> hmmP_ofJson cv (hmmP_toJson p) = Ok (hmmP_round cv (hp_hier p) p).
  Proof.
    intros p (H1 & H2 & H3 & H4 & H5 & H6). unfold hmmP_ofJson, hmmP_toJson.
    rewrite (pos_ok _ _ (hp_states p)) by (reflexivity || assumption). cbn [bind].
    rewrite (pos_ok _ _ (hp_gauss p)) by (reflexivity || assumption). cbn [bind].
    rewrite (reg_ok _ _ (hp_rel p)) by (reflexivity || assumption). cbn [bind].
    rewrite (reg_ok _ _ (hp_abs p)) by (reflexivity || assumption). cbn [bind].
    rewrite (int_ok _ _ (mode_int (hp_mode p))) by (try reflexivity; destruct (hp_mode p); cbn; lia). cbn [bind].
    assert (E1 : int_mode (mode_int (hp_mode p)) = Ok (hp_mode p)) by (destruct (hp_mode p); reflexivity). rewrite E1. cbn [bind].
    rewrite (int_ok _ _ (tmode_int (hp_trans p))) by (try reflexivity; destruct (hp_trans p); cbn; lia). cbn [bind].
    assert (E2 : int_tmode (tmode_int (hp_trans p)) = Ok (hp_trans p)) by (destruct (hp_trans p); reflexivity). rewrite E2. cbn [bind].
    rewrite (int_ok _ _ (restim_int (hp_est p))) by (try reflexivity; destruct (hp_est p); cbn; lia). cbn [bind].
    assert (E3 : int_restim (restim_int (hp_est p)) = Ok (hp_est p)) by (destruct (hp_est p); reflexivity). rewrite E3. cbn [bind].
    cbn [jmember lookup String.eqb Ascii.eqb Bool.eqb bind as_bool]. reflexivity.
  Qed.

  Lemma gmm_used : forall ops l old,
    cf_used gmmP_assign l (cf_run gmmP_new gmmP_assign gmmP_edit ops (cf_new gmmP_new)) old = wanted_for (wants gmmP_edit (gmmP_new : gmmP A) ops) l.
  Proof.
    intros ops l old. apply (used_view gmmP_new gmmP_assign gmmP_edit (fun p => p) gmmP_edit); [exact gmmP_assign_eq|reflexivity].
  Qed.

  Lemma hmm_used : forall ops l old,
    flat (cf_used hmmP_assign l (cf_run hmmP_new hmmP_assign hmmP_edit ops (cf_new hmmP_new)) old) =
      wanted_for (wants (fun e p => flat (hmmP_edit e p)) (hmmP_new : hmmP A) ops) l.
  Proof.
    intros ops l old. rewrite (used_view hmmP_new hmmP_assign hmmP_edit flat (fun e p => flat (hmmP_edit e p))); [reflexivity|reflexivity|].
    intros e []. destruct e; cbn [hmmP_edit flat]; try reflexivity; match goal with |- context [if ?b then _ else _] => destruct b end; reflexivity.
  Qed.

  Lemma gmm_config_trip : forall s c : config (gmmP A), config_ok (gmmP_ok cv) s ->
    cf_fromJson gmmP_new gmmP_assign (gmmP_ofJson cv) cv (cf_toJson gmmP_toJson s) c =
      (mkConfig (gmmP_round cv (cf_def s)) (cf_mt s) (cf_est s) (map (fun e => (fst e, gmmP_round cv (snd e))) (cf_class s)), Ok tt).
  Proof.
    intros s c H. rewrite (config_trip cv gmmP_new gmmP_assign gmmP_toJson (gmmP_ofJson cv) (gmmP_ok cv) (gmmP_round cv) gmm_trip s c H).
    rewrite !gmmP_assign_eq. f_equal.
  Qed.

  Lemma hmm_config_trip : forall s c : config (hmmP A), config_ok (hmmP_ok cv) s ->
    cf_fromJson hmmP_new hmmP_assign (hmmP_ofJson cv) cv (cf_toJson hmmP_toJson s) c =
      (mkConfig (hmmP_round cv (hp_hier (cf_def c)) (cf_def s)) (cf_mt s) (cf_est s)
         (map (fun e => (fst e, hmmP_round cv true (snd e))) (cf_class s)), Ok tt).
  Proof.
    intros s c H. rewrite (config_trip cv hmmP_new hmmP_assign hmmP_toJson (hmmP_ofJson cv) (hmmP_ok cv) (fun p => hmmP_round cv (hp_hier p) p) hmm_trip s c H).
    reflexivity.
  Qed.
End Instances.
