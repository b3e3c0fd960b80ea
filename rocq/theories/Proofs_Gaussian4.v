From Coq Require Import String List Bool Arith Lia ZArith Reals Lra.
From Verif Require Import Base BaseFacts Arith RFacts Model_Json Proofs_Json Model_Phrase Model_Matrix Spec_Matrix Proofs_MatrixGen Proofs_Matrix
  Spec_Det Proofs_DetFacts Proofs_Det Model_Gaussian Spec_Gaussian Proofs_Gaussian Proofs_Gaussian2 Proofs_Gaussian3.
Import ListNotations.

Section Any.
  Context {A : arith}.
  Notation T := (num A).
  Local Notation J := (json A).

  Local Arguments vresize : simpl never.

  (** ** C33 *)
  Lemma outcome_trip : forall (v w : list T) n, length v = n -> length w = n ->
    outcome (json2vector true as_double (JArr (map JReal v)) w n) = Ok v.
  Proof.
    intros v w n Hv Hw. subst n. unfold outcome.
    destruct (json_round_trip true JReal as_double v w) as (j & E1 & E2); auto.
    rewrite vector2json_ok in E1. injection E1 as <-. rewrite E2. reflexivity.
  Qed.

  Lemma vresize_len : forall {X} n (x : X) v, length (vresize n x v) = n.
  Proof. intros. unfold vresize. rewrite app_length, firstn_length, repeat_length. lia. Qed.

  Lemma as_int_size : forall (cv : conv A) n, int_range n -> as_int cv (JInt (Z.of_nat n)) = Ok (Z.of_nat n).
  Proof.
    intros cv n H. unfold as_int, int_range in *. cbn [as_int].
    match goal with |- context [if ?b then _ else _] => assert (E : b = true) end.
    { apply andb_true_intro. split; apply Z.leb_le || apply Z.ltb_lt; lia. }
    rewrite E. reflexivity.
  Qed.
  Lemma as_size_nat : forall n, as_size (Z.of_nat n) = Ok n.
  Proof. intros. unfold as_size. destruct (Z.of_nat n <? 0)%Z eqn:E; [apply Z.ltb_lt in E; lia|]. rewrite Nat2Z.id. reflexivity. Qed.

  Lemma full_trip : forall (cv : conv A) tmp (g h : gauss A), g_mode g = Full -> wf_gauss g ->
    (g_bim g = true \/ g_din g = 0 /\ g_inv_in g = []) -> int_range (g_dim g) -> int_range (g_din g) ->
    exists j, g_toJson g = Ok j /\ g_fromJson cv tmp j h = (reloaded tmp g, Ok tt).
  Proof.
    intros cv tmp g h HM (L1 & L2 & L3 & L4) HB R1 R2. rewrite HM in *. cbn [csize] in *.
    unfold g_toJson. rewrite !vector2json_ok. cbn [bind]. eexists. split; [reflexivity|].
    unfold g_fromJson, g_ofJson. cbn [jget lookup jmember String.eqb Ascii.eqb Bool.eqb bind as_bool].
    rewrite (as_int_size cv (g_dim g) R1). cbn [bind]. rewrite as_size_nat. cbn [bind].
    rewrite (as_int_size cv (g_din g) R2). cbn [bind]. rewrite as_size_nat. cbn [bind].
    rewrite HM. cbn [as_int Z.leb Z.ltb Z.compare Z.opp Z.pow Z.pow_pos Pos.iter Z.mul Pos.mul andb bind Z.eqb].
    assert (Hin : length (g_inv_in g) = g_din g * g_din g).
    { destruct HB as [HB | (H1 & H2)]; [apply L4; auto|rewrite H1, H2; reflexivity]. }
    rewrite outcome_trip; auto. 2:{ unfold g_allocate. destruct (g_bim g); cbn; solve [apply vresize_len | reflexivity]. }
    cbn [bind]. rewrite outcome_trip; auto. 2:{ unfold g_allocate. destruct (g_bim g); cbn; solve [apply vresize_len | reflexivity]. }
    cbn [bind]. rewrite outcome_trip; auto. 2:{ unfold g_allocate. destruct (g_bim g); cbn; solve [apply vresize_len | reflexivity]. }
    cbn [bind as_double]. rewrite outcome_trip; auto.
    2:{ unfold g_allocate. destruct (g_bim g) eqn:E; cbn; [apply vresize_len|]. destruct HB as [HB | (H1 & H2)]; [discriminate|rewrite H1; reflexivity]. }
    cbn [bind as_double]. unfold reloaded, g_assign. rewrite HM. reflexivity.
  Qed.

  Lemma bad_size_trip : forall (cv : conv A) tmp (g h : gauss A), wf_gauss g ->
    int_range (g_dim g) -> int_range (g_din g) ->
    (g_mode g = Diagonal /\ 1 < g_dim g \/ g_bim g = false /\ g_inv_in g = [] /\ 0 < g_din g) ->
    exists j, g_toJson g = Ok j /\ g_fromJson cv tmp j h = (h, Throw JsonValueError).
  Proof.
    intros cv tmp g h (L1 & L2 & L3 & L4) R1 R2 HB.
    unfold g_toJson. rewrite !vector2json_ok. cbn [bind]. eexists. split; [reflexivity|].
    unfold g_fromJson, g_ofJson. cbn [jget lookup jmember String.eqb Ascii.eqb Bool.eqb bind as_bool].
    rewrite (as_int_size cv (g_dim g) R1). cbn [bind]. rewrite as_size_nat. cbn [bind].
    rewrite (as_int_size cv (g_din g) R2). cbn [bind]. rewrite as_size_nat. cbn [bind].
    set (m := match g_mode g with Full => 0%Z | Diagonal => 1%Z end).
    assert (Em : as_int cv (JInt m) = Ok m) by (unfold m; destruct (g_mode g); reflexivity). rewrite Em. cbn [bind].
    assert (Eo : (if (m =? 0)%Z then Ok Full else if (m =? 1)%Z then Ok Diagonal else Throw DomainError) = Ok (g_mode g)) by (unfold m; destruct (g_mode g); reflexivity).
    rewrite Eo. cbn [bind].
    rewrite outcome_trip; auto. 2:{ unfold g_allocate. destruct (g_bim g); cbn; solve [apply vresize_len | reflexivity]. }
    cbn [bind]. destruct (g_mode g) eqn:HM; cbn [csize] in *.
    - destruct HB as [(HB & _)|(HB & Hin & Hd)]; [discriminate|].
      rewrite outcome_trip; auto. 2:{ unfold g_allocate. destruct (g_bim g); cbn; solve [apply vresize_len | reflexivity]. }
      cbn [bind]. rewrite outcome_trip; auto. 2:{ unfold g_allocate. destruct (g_bim g); cbn; solve [apply vresize_len | reflexivity]. }
      cbn [bind as_double]. unfold outcome. rewrite json_rejects_size; auto. right. nia. rewrite map_length, Hin. cbn. nia.
    - destruct (Nat.eq_dec (g_dim g) 1) as [E1|N1].
      { destruct HB as [(_ & HB)|(HB & Hin & Hd)]; [lia|]. rewrite E1 in *.
        rewrite outcome_trip; auto. 2:{ unfold g_allocate. destruct (g_bim g); cbn; solve [apply vresize_len | reflexivity]. }
        cbn [bind]. rewrite outcome_trip; auto. 2:{ unfold g_allocate. destruct (g_bim g); cbn; solve [apply vresize_len | reflexivity]. }
        cbn [bind as_double]. unfold outcome. rewrite json_rejects_size; auto. right. nia. rewrite map_length, Hin. cbn. nia. }
      destruct (Nat.eq_dec (g_dim g) 0) as [E0|N0].
      { destruct HB as [(_ & HB)|(HB & Hin & Hd)]; [lia|]. rewrite E0 in *.
        rewrite outcome_trip; auto. 2:{ unfold g_allocate. destruct (g_bim g); cbn; solve [apply vresize_len | reflexivity]. }
        cbn [bind]. rewrite outcome_trip; auto. 2:{ unfold g_allocate. destruct (g_bim g); cbn; solve [apply vresize_len | reflexivity]. }
        cbn [bind as_double]. unfold outcome. rewrite json_rejects_size; auto. right. nia. rewrite map_length, Hin. cbn. nia. }
      unfold outcome. rewrite json_rejects_size; auto. right. nia. rewrite map_length, L2. nia.
  Qed.

  (** ** C34 *)
  Lemma nth_error_upd : forall {X} (l : list X) k x y, nth_error l k = Some y -> nth_error (upd l k x) k = Some x.
  Proof. induction l; destruct k; cbn; intros; try discriminate; auto. eapply IHl; eauto. Qed.
  Lemma nth_error_upd_neq : forall {X} (l : list X) k s x, k <> s -> nth_error (upd l k x) s = nth_error l s.
  Proof. induction l; destruct k, s; cbn; intros; auto; try congruence. Qed.

  Lemma allocate_wf : forall g : gauss A, (g_bim g = true -> g_din g <= g_dim g) -> wf_gauss (g_allocate g).
  Proof.
    intros [b n nm m mm md a1 a2 a3 a4 a5 a6 a7 o] H. cbn in H. unfold wf_gauss, g_allocate. cbn.
    destruct b, md; cbn; repeat split; auto; try apply vresize_len; discriminate.
  Qed.

  Lemma own_dim : forall (cv : conv A) (w : gworld A) k (g : gauss A) n, nth_error w k = Some (Some g) -> g_owner g = Some k ->
    g_dim_min g <= n -> 1 <= n -> (g_bim g = true -> g_din g <= n) ->
    exists g', g_step cv (GSetDim k n) w = (upd w k (Some g'), Ok tt) /\
      nth_error (upd w k (Some g')) k = Some (Some g') /\ wf_gauss g' /\ g_owner g' = Some k /\
      g_dim g' = n /\ g_din g' = g_din g /\ g_din_max g' = Some (n - 1) /\ g_bim g' = g_bim g /\ g_mode g' = g_mode g /\
      g_mean g' = vresize n n0 (g_mean g).
  Proof.
    intros cv w k g n Hk Ho Hmin Hn Hd. unfold g_step. rewrite Hk.
    replace (n <? g_dim_min g) with false by (symmetry; apply Nat.ltb_ge; lia).
    unfold g_notify. cbn [g_owner g_set_dims]. rewrite Ho, Nat.eqb_refl. unfold g_on_dim, sbind, sget, slift, smod, usub.
    cbn [g_dim g_set_dims g_din]. replace (1 <=? n) with true by (symmetry; apply Nat.leb_le; lia).
    pose proof Ho as Ho'.
    set (g1 := g_set_dims n (g_din g) (Some (n - 1)) (g_set_dims n (g_din g) (g_din_max g) g)).
    exists (g_allocate g1). split; [reflexivity|]. split; [eapply nth_error_upd; eauto|]. split; [apply allocate_wf; exact Hd|].
    unfold g1. clear -Ho'. destruct g as [[] ? ? ? ? [] ? ? ? ? ? ? ? ?]; cbn; auto 10.
  Qed.

  Lemma assigned_dim : forall (cv : conv A) (w : gworld A) k s (g t : gauss A) n, k <> s ->
    nth_error w k = Some (Some g) -> nth_error w s = Some (Some t) -> g_owner t = Some s -> g_dim_min t <= n ->
    exists w1 w2, g_step cv (GAssign k s) w = (w1, Ok tt) /\ nth_error w1 k = Some (Some t) /\
      g_step cv (GSetDim k n) w1 = (w2, Ok tt) /\
      nth_error w2 k = Some (Some (g_set_dims n (g_din t) (g_din_max t) t)).
  Proof.
    intros cv w k s g t n Hks Hk Hs Ho Hmin. unfold g_step. rewrite Hk, Hs.
    replace (k =? s) with false by (symmetry; apply Nat.eqb_neq; auto). unfold g_assign.
    eexists. eexists. split; [reflexivity|]. split; [eapply nth_error_upd; eauto|].
    rewrite (nth_error_upd _ _ _ _ Hk). replace (n <? g_dim_min t) with false by (symmetry; apply Nat.ltb_ge; lia).
    unfold g_notify. cbn [g_owner g_set_dims]. rewrite Ho. replace (s =? k) with false by (symmetry; apply Nat.eqb_neq; auto).
    rewrite nth_error_upd_neq by auto. rewrite Hs. split; [reflexivity|].
    eapply nth_error_upd. eapply nth_error_upd. eauto.
  Qed.

  Lemma reloaded_dim : forall (cv : conv A) (w : gworld A) k (g : gauss A) root w1 n, nth_error w k = Some (Some g) ->
    g_step cv (GFromJson k root) w = (w1, Ok tt) -> snd (g_step cv (GSetDim k n) w1) = UB.
  Proof.
    intros cv w k g root w1 n Hk H. unfold g_step in *. rewrite Hk in H. unfold g_fromJson in H.
    destruct (g_ofJson cv (length w) root) as [t|e|] eqn:E; try (inversion H; fail). cbn in H. injection H as <-.
    assert (Hlen : k < length w) by (apply nth_error_Some; congruence).
    rewrite nth_error_app1 by (rewrite upd_length; auto). rewrite (nth_error_upd _ _ _ _ Hk).
    assert (Ho : g_owner t = Some (length w) /\ g_dim_min t = 0).
    { clear -E. unfold g_ofJson in E. repeat match type of E with bind ?m _ = _ => destruct m; cbn [bind] in E; try discriminate end.
      injection E as <-. auto. }
    destruct Ho as (Ho & Hm). unfold g_assign. rewrite Hm. replace (n <? 0) with false by (symmetry; apply Nat.ltb_ge; lia).
    unfold g_notify. cbn [g_owner g_set_dims]. rewrite Ho. replace (length w =? k) with false by (symmetry; apply Nat.eqb_neq; lia).
    rewrite nth_error_app2 by (rewrite upd_length; lia). rewrite upd_length, Nat.sub_diag. reflexivity.
  Qed.

  Lemma copied_dim : forall (cv : conv A) (w : gworld A) s (t : gauss A), nth_error w s = Some (Some t) ->
    exists w1 c, g_step cv (GCopy s) w = (w1, Ok tt) /\ nth_error w1 (length w) = Some (Some c) /\
      same_params t c /\ g_owner c = Some (length w) /\ g_inv c = g_inv t /\ g_det c = g_det t /\
      g_inv_in c = g_inv_in t /\ g_det_in c = g_det_in t /\ g_out c = g_out t /\ 
      g_dim_min c = g_dim_min t /\ g_din_max c = g_din_max t.
  Proof.
    intros. unfold g_step. rewrite H. eexists. exists (g_copy (length w) t). split; [reflexivity|].
    split. { rewrite nth_error_app2, Nat.sub_diag by lia. reflexivity. } unfold same_params. cbn. auto 20.
  Qed.

  (** ** C69 *)
  Lemma mode_again_diag : forall (cv : conv A) (w : gworld A) k (g : gauss A), nth_error w k = Some (Some g) -> g_owner g = Some k ->
    wf_gauss g -> g_mode g = Diagonal -> 2 <= g_dim g -> snd (g_step cv (GSetMode k Diagonal) w) = UB.
  Proof.
    intros cv w k g Hk Ho (_ & L2 & _) HM Hd. rewrite HM in L2. cbn in L2. unfold g_step. rewrite Hk.
    unfold g_notify. cbn [g_owner g_set_mode]. rewrite Ho, Nat.eqb_refl.
    unfold g_on_mode, sbind at 1. cbn [sget g_mode g_set_mode g_dim g_din g_cov].
    assert (E : tabM (g_dim g) (fun d => rd (g_cov g) (d * g_dim g + d)) = UB).
    { destruct (tabM (g_dim g) (fun d => rd (g_cov g) (d * g_dim g + d))) as [v|e|] eqn:E; auto.
      - assert (E1 := tabM_inv _ _ _ E 1 n0 ltac:(lia)). cbv beta in E1. unfold rd in E1.
        destruct (nth_error (g_cov g) (1 * g_dim g + 1)) eqn:E2; [|discriminate].
        assert (Hl : 1 * g_dim g + 1 < length (g_cov g)) by (apply nth_error_Some; congruence). lia.
      - exfalso. clear L2 Hd. revert e E. generalize (g_dim g) at 2 as m. induction (g_dim g) as [|n IH]; cbn; intros m e E; [discriminate|].
        destruct (tabM n _) eqn:E1; cbn in E; try discriminate; [|exact (IH _ _ E1)].
        unfold rd in E. destruct (nth_error _ _) in E; discriminate. }
    unfold sbind, slift. rewrite E. reflexivity.
  Qed.
End Any.

Local Open Scope R_scope.

Lemma update_out_again : forall g : gauss RA, wf_gauss g -> pos_cov g -> inverted g -> g_bim g = true ->
  exists g', g_update_out g = (g', Ok tt) /\ same_params g g' /\ wf_gauss g' /\ inverted g'.
Proof.
  intros g W P I HB. pose proof W as (L1 & L2 & L3 & L4). pose proof I as (I1 & D1 & P1 & I2).
  destruct (I2 HB) as (J1 & K1 & Q1 & _). destruct (L4 HB) as (Hle & L5). unfold pos_cov in P.
  assert (X : exists o, g_update_out g = (g_set_out o g, Ok tt) /\ length o = csize (g_mode g) (g_dim g - g_din g) /\
    forall i j, (i < g_dim g - g_din g)%nat -> (j < g_dim g - g_din g)%nat -> stored (g_mode g) (g_dim g - g_din g) o i j =
      gcov g (g_din g + i)%nat (g_din g + j)%nat - Rsum (g_din g) (fun k => Rsum (g_din g) (fun l =>
         gcov g (g_din g + i)%nat k * ginv_in g k l * gcov g l (g_din g + j)%nat))).
  { destruct (g_mode g) eqn:HM; cbn [csize] in *.
    - destruct P as (rho & Hr & HP).
      destruct (update_out_full g rho (ginv_in g)) as (o & E & L & H); auto. { apply (pd_margin_block (g_dim g)); auto. }
      exists o. split; auto.
    - destruct (update_out_diag g) as (o & E & L & H); auto. exists o. split; auto. split; auto.
      intros i j Hi Hj. unfold stored, gcov. rewrite HM. unfold stored.
      rewrite Rsum_zero.
      + rewrite H by auto. destruct (Nat.eqb_spec i j) as [->|].
        * rewrite Nat.eqb_refl. symmetry. apply Rminus_0_r.
        * replace (g_din g + i =? g_din g + j)%nat with false by (symmetry; apply Nat.eqb_neq; lia). symmetry. apply Rminus_0_r.
      + intros k Hk. apply Rsum_zero. intros l Hl. replace (g_din g + i =? k)%nat with false by (symmetry; apply Nat.eqb_neq; lia).
        rewrite !Rmult_0_l. reflexivity. }
  destruct X as (o & E & Lo & Ho). exists (g_set_out o g). split; auto. split; [unfold same_params; cbn; auto 10|].
  split; [exact W|]. split; [exact I1|]. split; [exact D1|]. split; [exact P1|]. intros _.
  split; [exact J1|]. split; [exact K1|]. split; [exact Q1|]. split; [exact Lo|]. exact Ho.
Qed.

Lemma same_params_trans : forall g h k : gauss RA, same_params g h -> same_params h k -> same_params g k.
Proof. unfold same_params. intros g h k (? & ? & ? & ? & ? & ?) (? & ? & ? & ? & ? & ?). repeat split; congruence. Qed.

Lemma update_twice : forall g : gauss RA, wf_gauss g -> pos_cov g ->
  exists g', sbind g_update_inv (fun _ => swhen (g_bim g) g_update_out) g = (g', Ok tt) /\ same_params g g' /\ wf_gauss g' /\ inverted g'.
Proof.
  intros g W P. destruct (update_inv_ok g W P) as (g1 & E & S & W1 & I1).
  destruct (g_bim g) eqn:HB.
  - assert (P1 : pos_cov g1). { pose proof S as (_ & E2 & _ & E4 & _). unfold pos_cov in *. rewrite <- E2, <- E4, (gcov_same _ _ S). exact P. }
    assert (HB1 : g_bim g1 = true) by (destruct S as (S & _); congruence).
    destruct (update_out_again g1 W1 P1 I1 HB1) as (g2 & E2 & S2 & W2 & I2).
    exists g2. split; [eapply sbind_ok; [exact E|]; exact E2|]. split; [eapply same_params_trans; eauto|auto].
  - exists g1. split; [eapply sbind_ok; [exact E|]; reflexivity|]. auto.
Qed.

(** The distribution after the covariance and the buffers have been converted. *)
Definition switched (m : cmode) (c : list R) (g : gauss RA) : gauss RA :=
  let sq k := csize m k in
  let h := g_set_inv (vresize (sq (g_dim g)) n0 (g_inv g)) (g_set_cov (A:=RA) c (g_set_mode m g)) in
  if g_bim g then g_set_inv_in (vresize (sq (g_din g)) n0 (g_inv_in g)) h else h.

Lemma switched_step : forall (cv : conv RA) (w : gworld RA) k (g : gauss RA) m c,
  nth_error w k = Some (Some g) -> g_owner g = Some k -> wf_gauss g ->
  length c = csize m (g_dim g) -> pos_cov (switched m c g) ->
  (match m with
   | Diagonal => tabM (g_dim g) (fun d => rd (g_cov g) (d * g_dim g + d))
   | Full => iterM (g_dim g) (fun d c => let* x := rd (g_cov g) d in wr c (d * g_dim g + d) x) (repeat n0 (g_dim g * g_dim g))
   end) = Ok c ->
  exists g', g_step cv (GSetMode k m) w = (upd w k (Some g'), Ok tt) /\ same_params (switched m c g) g' /\
    wf_gauss g' /\ inverted g'.
Proof.
  intros cv w k g m c Hk Ho (L1 & L2 & L3 & L4) Lc P E.
  assert (W : wf_gauss (switched m c g)).
  { unfold wf_gauss, switched. destruct g as [b n nm d mm md a1 a2 a3 a4 a5 a6 a7 o]. cbn in *.
    destruct b, m; cbn in *; (split; [exact L1|split; [exact Lc|split; [apply vresize_len|]]]); try discriminate;
      intros _; destruct (L4 eq_refl); split; auto; apply vresize_len. }
  destruct (update_twice _ W P) as (g' & E2 & S & W' & I'). exists g'. split; [|auto].
  unfold g_step. rewrite Hk. unfold g_notify. cbn [g_owner g_set_mode]. rewrite Ho, Nat.eqb_refl.
  assert (X : g_on_mode (g_set_mode m g) = (g', Ok tt)).
  { unfold g_on_mode. apply (sbind_ok _ _ _ (g_set_mode m g) (g_set_mode m g)); [reflexivity|]. cbv zeta.
    apply (sbind_ok _ _ _ (switched m c g) tt).
    - cbn [g_mode g_set_mode g_dim g_din g_cov g_bim g_inv g_inv_in]. destruct m; (apply (slift_ok _ _ _ c); [exact E|]); unfold switched; destruct (g_bim g); reflexivity.
    - cbn [g_bim g_set_mode]. replace (g_bim g) with (g_bim (switched m c g)); [exact E2|]. unfold switched. destruct (g_bim g) eqn:EB; exact EB. }
  rewrite X. reflexivity.
Qed.

Lemma switched_proj : forall m c g, gcov (switched m c g) = stored m (g_dim g) c /\ g_dim (switched m c g) = g_dim g /\
  g_din (switched m c g) = g_din g /\ g_bim (switched m c g) = g_bim g /\ g_mode (switched m c g) = m /\ g_mean (switched m c g) = g_mean g.
Proof. intros m c [[] ? ? ? ? ? ? ? ? ? ? ? ? ?]; unfold gcov; cbn; auto 10. Qed.

Lemma switch_diag : forall (cv : conv RA) (w : gworld RA) k (g : gauss RA),
  nth_error w k = Some (Some g) -> g_owner g = Some k -> wf_gauss g -> g_mode g = Full ->
  (forall d, (d < g_dim g)%nat -> 0 < gcov g d d) ->
  exists g', g_step cv (GSetMode k Diagonal) w = (upd w k (Some g'), Ok tt) /\ g_mode g' = Diagonal /\
    g_bim g' = g_bim g /\ g_dim g' = g_dim g /\ g_din g' = g_din g /\ g_mean g' = g_mean g /\
    (forall d, (d < g_dim g)%nat -> gcov g' d d = gcov g d d) /\ wf_gauss g' /\ inverted g'.
Proof.
  intros cv w k g Hk Ho W HM Hpos. pose proof W as (L1 & L2 & L3 & L4). rewrite HM in *. cbn [csize] in *.
  assert (E : tabM (g_dim g) (fun d => rd (g_cov g) (d * g_dim g + d)) = Ok (tab (g_dim g) (fun d => gcov g d d))).
  { apply tabM_ok. intros d Hd. change (num RA) with R in *. rewrite rd_R by (rewrite L2; apply idx_lt; auto). unfold gcov. rewrite HM. reflexivity. }
  set (c := tab (g_dim g) (fun d => gcov g d d)) in *.
  assert (Hc : forall d, (d < g_dim g)%nat -> nth d c 0 = gcov g d d) by (intros; unfold c; rewrite nth_tab; auto).
  destruct (switched_proj Diagonal c g) as (G1 & G2 & G3 & G4 & G5 & G6).
  destruct (switched_step cv w k g Diagonal c) as (g' & E' & S & W' & I'); auto.
  { unfold c. rewrite tab_length. reflexivity. }
  { unfold pos_cov. rewrite G5, G2, G1. intros d Hd. unfold stored. rewrite Nat.eqb_refl, Hc by auto. auto. }
  exists g'. split; auto. pose proof S as (S1 & S2 & S3 & S4 & S5 & S6). 
  split; [congruence|]. split; [congruence|]. split; [congruence|]. split; [congruence|]. split; [congruence|].
  split; [|auto]. intros d Hd. rewrite (gcov_same _ _ S), G1. unfold stored. rewrite Nat.eqb_refl. auto.
Qed.

Lemma to_full_step : forall (cv : conv RA) (w : gworld RA) k (g : gauss RA),
  nth_error w k = Some (Some g) -> g_owner g = Some k -> wf_gauss g ->
  (forall d, (d < g_dim g)%nat -> eps9 <= nth d (g_cov g) 0) ->
  exists g', g_step cv (GSetMode k Full) w = (upd w k (Some g'), Ok tt) /\ g_mode g' = Full /\
    g_bim g' = g_bim g /\ g_dim g' = g_dim g /\ g_din g' = g_din g /\ g_mean g' = g_mean g /\
    (forall i j, (i < g_dim g)%nat -> (j < g_dim g)%nat -> gcov g' i j = if Nat.eqb i j then nth i (g_cov g) 0 else 0) /\
    wf_gauss g' /\ inverted g'.
Proof.
  intros cv w k g Hk Ho W Hpos. pose proof W as (L1 & L2 & L3 & L4).
  set (n := g_dim g) in *. set (D := fun i j => if Nat.eqb i j then nth i (g_cov g) 0 else 0) in *.
  assert (Ln : (n <= length (g_cov g))%nat). { rewrite L2. destruct (g_mode g); cbn; nia. }
  destruct (iterM_inv (fun k (c : list R) => length c = (n * n)%nat /\
      forall i j, (i < n)%nat -> (j < n)%nat -> rcell n c i j = if (i <? k)%nat then D i j else 0) n
    (fun d (c : list R) => let* x := rd (g_cov g) d in wr c (d * n + d) x) (repeat 0 (n * n)))
    as (c & E & Lc & Hc).
  - split; [apply repeat_length|]. intros. unfold rcell. rewrite nth_repeat. reflexivity.
  - intros d c Hd (Lc & Hc). change (num RA) with R in *. rewrite rd_R by lia. cbn [bind].
    rewrite wr_ok by (rewrite Lc; apply idx_lt; auto). eexists. split; [reflexivity|]. split; [rewrite upd_length; auto|].
    intros i j Hi Hj. unfold rcell.
    destruct (Nat.eq_dec (i * n + j) (d * n + d)) as [Eq|Ne].
    + rewrite Eq, nth_upd_eq by (rewrite Lc; apply idx_lt; auto). apply idx_inj in Eq; auto. destruct Eq as (-> & ->). replace (d <? S d)%nat with true by (symmetry; apply Nat.ltb_lt; lia).
      unfold D. rewrite Nat.eqb_refl. reflexivity.
    + rewrite nth_upd_neq by auto. change (nth (i * n + j) c 0) with (rcell n c i j). rewrite Hc by auto.
      destruct (Nat.ltb_spec i d); destruct (Nat.ltb_spec i (S d)); auto; try lia.
      assert (i = d) by lia. subst i. unfold D.
      replace (d =? j)%nat with false; auto. symmetry. apply Nat.eqb_neq. intro. subst. auto.
  - assert (Hc' : forall i j, (i < n)%nat -> (j < n)%nat -> rcell n c i j = D i j).
    { intros. rewrite Hc by auto. replace (i <? n)%nat with true by (symmetry; apply Nat.ltb_lt; auto). reflexivity. }
    destruct (switched_proj Full c g) as (G1 & G2 & G3 & G4 & G5 & G6).
    destruct (switched_step cv w k g Full c) as (g' & E' & S & W' & I'); auto.
    { unfold pos_cov. rewrite G5, G2, G1. exists eps9. split; [lra|]. apply (pd_margin_ext _ D).
      - intros. symmetry. apply Hc'; auto.
      - apply diag_pd; auto. { intros i j _ _ Hij. unfold D. apply Nat.eqb_neq in Hij. rewrite Hij. reflexivity. } intros d Hd. unfold D. rewrite Nat.eqb_refl. auto. }
    { rewrite n0_RA. exact E. }
    exists g'. split; auto. pose proof S as (S1 & S2 & S3 & S4 & S5 & S6). unfold n in *.
    split; [congruence|]. split; [congruence|]. split; [congruence|]. split; [congruence|]. split; [congruence|].
    split; [|auto]. intros i j Hi Hj. rewrite (gcov_same _ _ S), G1. apply Hc'; auto.
Qed.

Lemma switch_full : forall (cv : conv RA) (w : gworld RA) k (g : gauss RA),
  nth_error w k = Some (Some g) -> g_owner g = Some k -> wf_gauss g -> g_mode g = Diagonal ->
  (forall d, (d < g_dim g)%nat -> eps9 <= gcov g d d) ->
  exists g', g_step cv (GSetMode k Full) w = (upd w k (Some g'), Ok tt) /\ g_mode g' = Full /\
    g_bim g' = g_bim g /\ g_dim g' = g_dim g /\ g_din g' = g_din g /\ g_mean g' = g_mean g /\
    (forall i j, (i < g_dim g)%nat -> (j < g_dim g)%nat -> gcov g' i j = gcov g i j) /\ wf_gauss g' /\ inverted g'.
Proof.
  intros cv w k g Hk Ho W HM Hpos. pose proof W as (L1 & L2 & L3 & L4). rewrite HM in *. cbn [csize] in *.
  destruct (to_full_step cv w k g Hk Ho W) as (g' & E & M & B & N & D & ME & C & X).
  { intros d Hd. specialize (Hpos d Hd). unfold gcov in Hpos. rewrite HM in Hpos. unfold stored in Hpos. rewrite Nat.eqb_refl in Hpos. exact Hpos. }
  exists g'. do 6 (split; [assumption|]). split; [|assumption]. intros i j Hi Hj. rewrite C by auto. unfold gcov. rewrite HM. reflexivity.
Qed.

Lemma mode_again_full : forall (cv : conv RA) (w : gworld RA) k (g : gauss RA),
  nth_error w k = Some (Some g) -> g_owner g = Some k -> wf_gauss g -> g_mode g = Full ->
  (forall d, (d < g_dim g)%nat -> eps9 <= gcov g 0 d) ->
  exists g', g_step cv (GSetMode k Full) w = (upd w k (Some g'), Ok tt) /\ g_mode g' = Full /\ g_dim g' = g_dim g /\
    forall i j, (i < g_dim g)%nat -> (j < g_dim g)%nat -> gcov g' i j = if Nat.eqb i j then gcov g 0 i else 0.
Proof.
  intros cv w k g Hk Ho W HM Hpos.
  assert (G0 : forall d, gcov g 0 d = nth d (g_cov g) 0) by (intro; unfold gcov; rewrite HM; reflexivity).
  destruct (to_full_step cv w k g Hk Ho W) as (g' & E & M & B & N & D & ME & C & X).
  { intros d Hd. specialize (Hpos d Hd). rewrite G0 in Hpos. exact Hpos. }
  exists g'. do 3 (split; [assumption|]). intros. rewrite C, G0 by auto. reflexivity.
Qed.
