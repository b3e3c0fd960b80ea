(** Mixtures: saved and loaded. *)
From Coq Require Import String List Bool Arith ZArith Lia.
From Verif Require Import Base BaseFacts Arith Model_Json Model_Ring Model_Gaussian Model_Config Model_GMM Model_HMM Model_Reload Spec_Gaussian Spec_Config Spec_Reload
  Proofs_Json Proofs_Gaussian4 Proofs_Config Proofs_Rel Proofs_Reload1 Proofs_Reload2.
Import ListNotations.
Local Open Scope nat_scope.
Local Open Scope list_scope.

Section Trip.
  Context {A : arith}.
  Local Notation T := (num A).
  Local Notation J := (json A).

  (** One dimension: the diagonal form is the full one. *)
  Lemma diag_trip : forall (cv : conv A) tmp (g h : gauss A), wf_gauss g -> g_mode g = Diagonal -> g_dim g = 1 -> g_bim g = false -> g_din g = 0 -> g_inv_in g = [] ->
    exists j, g_toJson g = Ok j /\ g_fromJson cv tmp j h = (reloaded tmp g, Ok tt).
  Proof.
    intros cv tmp g h (L1 & L2 & L3 & L4) HM HD HB HI HV. rewrite HM, HD in *. cbn [csize] in *.
    unfold g_toJson. rewrite !vector2json_ok. cbn [bind]. eexists. split; [reflexivity|].
    unfold g_fromJson, g_ofJson. cbn [jget lookup jmember String.eqb Ascii.eqb Bool.eqb bind as_bool]. rewrite HD, HI, HM, HV, HB.
    rewrite (as_int_size cv 1) by (unfold int_range; cbn; lia). cbn [bind]. rewrite as_size_nat. cbn [bind].
    rewrite (as_int_size cv 0) by (unfold int_range; cbn; lia). cbn [bind]. rewrite as_size_nat. cbn [bind].
    assert (Em : as_int cv (JInt 1) = Ok 1%Z) by reflexivity. rewrite Em. cbn [bind Z.eqb Pos.eqb].
    unfold g_allocate. cbn [g_bim].
    rewrite outcome_trip; auto.
    cbn [bind]. change (1 * 1) with 1. rewrite outcome_trip; auto.
    cbn [bind]. rewrite outcome_trip; auto.
    cbn [bind as_double]. change (0 * 0) with 0. unfold outcome at 1. cbn [json2vector Nat.eqb andb fst snd bind as_double].
    unfold g_assign, reloaded. rewrite HM, HD, HB, HI, HV. reflexivity.
  Qed.

  Lemma comp_trip : forall (cv : conv A) g k, dims_ok (gc_bim g) (gc_dim g) (gc_din g) -> loadable g -> current_comp g k ->
    exists j, g_toJson k = Ok j /\ forall h, run_load (g_fromJson cv 0 j h) = Ok (reloaded 0 k).
  Proof.
    intros cv g k (R & D) LD (W & B & DM & DI & MO & IV & _).
    assert (F : forall h, exists j, g_toJson k = Ok j /\ g_fromJson cv 0 j h = (reloaded 0 k, Ok tt)).
    { intro h. destruct (g_mode k) eqn:EM.
      - apply full_trip; auto; [|rewrite DM; exact R|].
        + destruct (g_bim k) eqn:EB; [left; auto|right]. rewrite <- B in D. split; [|auto]. lia.
        + rewrite DI. unfold int_range in *. destruct (gc_bim g); lia.
      - destruct LD as [LD|LD]; [congruence|]. assert (BF : gc_bim g = false) by (destruct (gc_bim g); [lia|reflexivity]). rewrite BF in *.
        apply diag_trip; auto; try congruence. destruct D; congruence. }
    destruct (F k) as (j & J1 & _). exists j. split; [exact J1|]. intro h. destruct (F h) as (j' & J1' & J2). replace j with j' by congruence.
    rewrite J2. reflexivity.
  Qed.

  Lemma comp_fails : forall (cv : conv A) g k, dims_ok (gc_bim g) (gc_dim g) (gc_din g) -> ~ loadable g -> current_comp g k ->
    exists j, g_toJson k = Ok j /\ forall h, run_load (g_fromJson cv 0 j h) = Throw JsonValueError.
  Proof.
    intros cv g k (R & D) LD (W & B & DM & DI & MO & IV & _).
    assert (F : forall h, exists j, g_toJson k = Ok j /\ g_fromJson cv 0 j h = (h, Throw JsonValueError)).
    { intro h. apply bad_size_trip; auto.
      - rewrite DM; auto.
      - rewrite DI. unfold int_range in *. destruct (gc_bim g); lia.
      - left. rewrite MO, DM. unfold loadable in LD. destruct (gc_mode g); [tauto|]. split; auto. destruct (gc_bim g); lia. }
    destruct (F k) as (j & J1 & _). exists j. split; [exact J1|]. intro h. destruct (F h) as (j' & J1' & J2). replace j with j' by congruence.
    rewrite J2. reflexivity.
  Qed.

  (** ** Arrays of objects *)
  Lemma load_each_ok : forall {X} (load : J -> X -> res X) l xs c v, Forall2 (fun j x => forall h, load j h = Ok x) l xs -> c + length l = length v ->
    load_each load l c v = Ok (firstn c v ++ xs).
  Proof.
    intros X load l xs c v H. revert c v. induction H as [|j x l xs Hj H IH]; intros c v L; cbn [load_each length] in *.
    - rewrite app_nil_r, firstn_all2 by lia. reflexivity.
    - destruct (nth_error v c) as [y|] eqn:Ey; [|apply nth_error_None in Ey; lia]. unfold rd. rewrite Ey. cbn [bind]. rewrite Hj. cbn [bind].
      unfold wr. replace (c <? length v) with true by (symmetry; apply Nat.ltb_lt; lia). cbn [bind]. rewrite IH by (rewrite upd_len; lia). f_equal.
      rewrite (app_assoc _ [x] xs). f_equal. clear - L.
      assert (c < length v) by lia. clear L. revert c H. induction v; intros c H; [cbn in H; lia|]. destruct c; cbn in *; auto. f_equal. apply IHv. lia.
  Qed.

  Lemma load_each_fails : forall {X} (load : J -> X -> res X) j l v e, (forall h, load j h = Throw e) -> v <> [] -> load_each load (j :: l) 0 v = Throw e.
  Proof. intros X load j l [|x v] e H NE; [congruence|]. cbn. rewrite H. reflexivity. Qed.

  Lemma array_ok : forall {X} (save : X -> res J) l js, Forall2 (fun x j => save x = Ok j) l js ->
    array2json (fun j => j) (fun i => let* x := rd l i in save x) (length l) = Ok (JArr js).
  Proof.
    intros X save l js H. pose proof (forall2_length _ _ _ H) as L.
    rewrite (array2json_ok _ _ _ (fun i => nth i js JNull)).
    - rewrite L, tab_nth_self. reflexivity.
    - intros i Hi. destruct (nth_error l i) as [x|] eqn:Ex; [|apply nth_error_None in Ex; lia]. unfold rd. rewrite Ex. cbn.
      clear L Hi. revert i Ex. induction H; intros [|i] Ex; cbn in *; try discriminate; [injection Ex as <-; auto|]. apply IHForall2. exact Ex.
  Qed.

  Lemma forall_exists2 : forall {X Y} (P : X -> Y -> Prop) l, Forall (fun x => exists y, P x y) l -> exists ys, Forall2 P l ys.
  Proof. induction 1 as [|x l (y & Hy) _ (ys & IH)]; eexists; econstructor; eauto. Qed.

  Lemma float_trip : forall (cv : conv A) v w n, Forall (is_float cv) v -> length v = n -> length w = n ->
    Model_Gaussian.outcome (json2vector true (as_float cv) (JArr (map JReal v)) w n) = Ok v.
  Proof.
    intros cv v w n F L L'. destruct (proj1 (proj2 (json_round_trip_types cv)) v w) as (j & J1 & J2).
    - intros x Hx. rewrite Forall_forall in F. apply F. exact Hx.
    - congruence.
    - rewrite vector2json_ok in J1. injection J1 as <-. rewrite <- L, J2. reflexivity.
  Qed.

  (** ** A class *)
  Definition new_class (u : junk A) (bim : bool) (dim din win : nat) (p : gmmP A) : gclass A :=
    mkGC (A := A) bim dim din win p [] [] [] [] (ring_new n0 1 1) (jk_num u) (jk_num u) [] [].

  Lemma g_new_ok : forall bim dim din mode, dims_ok bim dim din -> exists c : gauss A, g_new 0 bim dim din mode = Ok c.
  Proof.
    intros bim dim din mode (_ & D). unfold g_new. destruct bim.
    - replace (dim <? 2) with false by (symmetry; apply Nat.ltb_ge; lia). replace (dim - 1 <? din) with false by (symmetry; apply Nat.ltb_ge; lia). eauto.
    - replace (dim <? 1) with false by (symmetry; apply Nat.ltb_ge; lia). replace (0 <? din) with false by (symmetry; apply Nat.ltb_ge; lia). eauto.
  Qed.

  Definition gc_json (l : string) (g : gclass A) (js : list J) : J :=
    JObj [("label", JStr l); ("mixture_coeffs", JArr (map JReal (gc_coef g))); ("parameters", gmmP_toJson (gc_par g)); ("components", JArr js)]%string.

  Lemma gc_json_ok : forall l (g : gclass A) js, length (gc_comp g) = gc_n g -> Forall2 (fun k j => g_toJson k = Ok j) (gc_comp g) js -> gc_toJson l g = Ok (gc_json l g js).
  Proof.
    intros l g js L H. unfold gc_toJson. rewrite vector2json_ok. cbn [bind]. rewrite <- L, (array_ok _ _ _ H). reflexivity.
  Qed.

  Lemma alloc_mk : forall b d i w p cf k be r bf x y o oc, gm_allocate (A := A) (mkGC (A := A) b d i w p cf k be r bf x y o oc) =
    let* c := g_new 0 b d i (gp_mode p) in Ok (mkGC (A := A) b d i w p (vresize (gp_gauss p) n0 cf) (repeat c (gp_gauss p)) (vresize (gp_gauss p) n0 be) r bf x y o oc).
  Proof. reflexivity. Qed.
  Lemma coef_mk : forall v b d i w p cf k be r bf x y o oc, gc_set_coef v (mkGC (A := A) b d i w p cf k be r bf x y o oc) = mkGC (A := A) b d i w p v k be r bf x y o oc.
  Proof. reflexivity. Qed.
  Lemma comp_mk : forall v b d i w p cf k be r bf x y o oc, gc_set_comp v (mkGC (A := A) b d i w p cf k be r bf x y o oc) = mkGC (A := A) b d i w p cf v be r bf x y o oc.
  Proof. reflexivity. Qed.

  Lemma gc_trip : forall u (cv : conv A) l g, trained cv g -> loadable g -> exists j h, gc_toJson l g = Ok j /\ jmember j "label" = Ok (JStr l) /\
    gc_ofJson u cv (gc_bim g) (gc_dim g) (gc_din g) (gc_win g) j = Ok (l, h) /\ gsim0 g h /\ gc_buf h = ring_new n0 1 1 /\ gc_par h = gmmP_round cv (gc_par g).
  Proof.
    intros u cv l g (P & D & LC & FC & LK & FK & LB & OC) LD.
    destruct (forall_exists2 (fun k j => g_toJson k = Ok j /\ forall h, run_load (g_fromJson cv 0 j h) = Ok (reloaded 0 k)) (gc_comp g)) as (js & HJ).
    { eapply Forall_impl; [|exact FK]. intros k Hk. eapply comp_trip; eauto. }
    assert (E1 : gc_toJson l g = Ok (gc_json l g js)) by (apply gc_json_ok; auto; eapply forall2_impl; [exact HJ|]; cbn; tauto).
    assert (HM : res_rel (Forall2 (fun k k' => gcore k = gcore k')) (mapM (runm g_update_inv) (gc_comp g)) (mapM (runm g_update_inv) (map (reloaded 0) (gc_comp g)))).
    { eapply (rr_map (fun k k' => current_comp g k /\ k' = reloaded 0 k)).
      - clear - FK. induction FK; cbn; constructor; auto.
      - intros k k' ((W & _) & ->). eapply rr_impl; [apply inv_sim; auto; unfold same_params; cbn; auto 10|].
        intros p q (_ & _ & H & _). exact H. }
    assert (HI : mapM (runm g_update_inv) (gc_comp g) = Ok (gc_comp g)).
    { clear - FK. induction FK as [|k ks (_ & _ & _ & _ & _ & _ & Hk) _ IH]; cbn; auto. rewrite Hk. cbn. rewrite IH. reflexivity. }
    rewrite HI in HM. inversion HM as [a b HF Ea Eb| |]; subst a.
    assert (E2 : exists h, gc_ofJson u cv (gc_bim g) (gc_dim g) (gc_din g) (gc_win g) (gc_json l g js) = Ok (l, h) /\ gsim0 g h /\ gc_buf h = ring_new n0 1 1 /\ gc_par h = gmmP_round cv (gc_par g)).
    { unfold gc_ofJson, gc_json. cbn [jmember lookup String.eqb Ascii.eqb Bool.eqb bind as_string]. rewrite gmm_trip by exact P. cbn [bind].
      rewrite gmmP_assign_eq. destruct (g_new_ok (gc_bim g) (gc_dim g) (gc_din g) (gp_mode (gmmP_round cv (gc_par g))) D) as (c & EC).
      rewrite alloc_mk, EC. cbn [bind]. unfold gc_n at 1. cbn [gc_par gc_coef gc_comp gp_gauss gmmP_round].
      rewrite float_trip; auto; [|unfold vresize; destruct (gc_par g); cbn; rewrite app_length, repeat_length, firstn_nil; cbn; lia].
      cbn [bind jitems]. erewrite load_each_ok with (xs := map (reloaded 0) (gc_comp g)).
      2:{ clear - HJ. induction HJ as [|k j ks js [_ Hk] _ IH]; cbn; constructor; auto. }
      2:{ rewrite repeat_length. rewrite <- (forall2_length _ _ _ HJ). unfold gc_n in LK. lia. }
      cbn [bind firstn app]. rewrite coef_mk, comp_mk. unfold gm_inverses. cbn [gc_comp]. rewrite <- Eb. cbn [rethrow bind]. rewrite comp_mk. eexists. split; [reflexivity|].
      unfold gsim0, gc_n, gc_mode in *. cbn -[vresize]. repeat split; auto; apply vresize_length. }
    destruct E2 as (h & E2 & E3). exists (gc_json l g js), h. split; [exact E1|]. split; [reflexivity|]. tauto.
  Qed.

  Lemma gc_fails : forall u (cv : conv A) l g, trained cv g -> ~ loadable g -> exists j, gc_toJson l g = Ok j /\ jmember j "label" = Ok (JStr l) /\
    gc_ofJson u cv (gc_bim g) (gc_dim g) (gc_din g) (gc_win g) j = Throw JsonValueError.
  Proof.
    intros u cv l g (P & D & LC & FC & LK & FK & LB & OC) LD.
    destruct (forall_exists2 (fun k j => g_toJson k = Ok j /\ forall h, run_load (g_fromJson cv 0 j h) = Throw JsonValueError) (gc_comp g)) as (js & HJ).
    { eapply Forall_impl; [|exact FK]. intros k Hk. eapply comp_fails; eauto. }
    assert (E1 : gc_toJson l g = Ok (gc_json l g js)) by (apply gc_json_ok; auto; eapply forall2_impl; [exact HJ|]; cbn; tauto).
    exists (gc_json l g js). split; [exact E1|]. split; [reflexivity|].
    unfold gc_ofJson, gc_json. cbn [jmember lookup String.eqb Ascii.eqb Bool.eqb bind as_string]. rewrite gmm_trip by exact P. cbn [bind].
    rewrite gmmP_assign_eq. destruct (g_new_ok (gc_bim g) (gc_dim g) (gc_din g) (gp_mode (gmmP_round cv (gc_par g))) D) as (c & EC).
    rewrite alloc_mk, EC. cbn [bind]. unfold gc_n at 1. cbn [gc_par gc_coef gc_comp gp_gauss gmmP_round].
    rewrite float_trip; auto; [|unfold vresize; destruct (gc_par g); cbn; rewrite app_length, repeat_length, firstn_nil; cbn; lia].
    cbn [bind jitems]. destruct P as (P & _). unfold gc_n in LK. destruct HJ as [|k j ks js [_ Hk] _]; [cbn in LK; lia|].
    rewrite load_each_fails with (e := JsonValueError); auto. destruct (gp_gauss (gc_par g)); [lia|discriminate].
  Qed.

  Lemma gsim0_trans : forall a b c : gclass A, gsim0 a b -> gsim0 b c -> gsim0 a c.
  Proof.
    intros a b c (A1 & A2 & A3 & A4 & A5 & A6 & A7 & A8 & A9 & A10) (B1 & B2 & B3 & B4 & B5 & B6 & B7 & B8 & B9 & B10).
    unfold gsim0. repeat split; try congruence. unfold comps_sim in *. clear - A8 B8. revert B8. generalize (gc_comp c). induction A8; intros l0 B8; inversion B8; subst; constructor; [congruence|auto].
  Qed.
End Trip.
