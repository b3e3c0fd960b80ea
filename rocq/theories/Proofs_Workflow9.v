(** Training of a hierarchical model with a training set. *)
From Coq Require Import String List Bool Arith Lia ZArith Reals Lra Sorting.Sorted.
From Verif Require Import Base BaseFacts Arith RFacts Model_Map Model_Ring Model_Phrase Model_TrainingSet Model_Gaussian Model_Config Model_KMeans Model_GMM
  Model_HMM Model_HHMM Model_Shared Model_Train Model_Reload Model_Workflow Model_Workflow2 Spec_Common Spec_Phrase Spec_TrainingSet Spec_Train Spec_Shared Spec_Matrix Spec_Gaussian Spec_GMM
  Spec_HMM Spec_HMMInit Spec_EM2 Spec_HHMM Spec_Workflow Spec_Workflow2
  Proofs_Map Proofs_TrainingSet Proofs_TrainingSet5 Proofs_TrainingSet7 Proofs_Workflow Proofs_Workflow2 Proofs_Workflow3 Proofs_Workflow6 Proofs_Workflow7 Proofs_Workflow8.
Import ListNotations.
Local Open Scope list_scope.
Local Open Scope nat_scope.

Local Notation world := (world RA).

Section Train.
  Variable u : junk RA.

  (** ** One class *)

  Lemma hq_train_class_ok : forall (w : world) k t recs (s : shared RA) cf l, recorded w k t recs -> set_up (t_bim t) s -> sp_dim s = t_dim t -> sp_din s = (if t_bim t then t_din t else 0) ->
    In l (map fst recs) -> hlearnable u s cf recs l ->
    exists h, hq_train_class w t s l (hq_new_class u s cf l) = Ok (Done, h) /\ hclass_made u s cf recs l h.
  Proof.
    intros w k t recs s cf l H SU D DI Hl LE. destruct (recorded_shape w k t recs H) as (KS & V & _). destruct (recorded_labels w k t recs H) as (LB & _).
    destruct (recorded_class w k t recs H) as (_ & GC). specialize (GC l (proj2 (LB l) Hl)). pose proof H as (_ & _ & _ & IR & _ & F).
    destruct (class_phrases w t l _ recs F) as (ps & ss & E1 & E2 & E3 & E4).
    set (h0 := hq_new_class u s cf l) in *. destruct SU as (B & M & SD1 & SD2 & W1 & W2). unfold modal_ok in M.
    destruct LE as (L1 & L2 & L3 & (ph & Hph & Lph) & L5 & L6).
    assert (B0 : hc_bim h0 = t_bim t) by exact B. assert (D0 : hc_dim h0 = t_dim t) by exact D. assert (I0 : hc_din h0 = if t_bim t then t_din t else 0) by exact DI.
    assert (N0 : hc_n h0 = hp_states (cf_params cf l)) by reflexivity. assert (M0 : hc_mode h0 = hp_trans (cf_params cf l)) by reflexivity.
    destruct (hclass_learned (settings s) h0 ps ss W1 E2) as (s' & ET & DN & LD & RD & ST & FK & KE & KI).
    { intros c Hc. destruct (E4 c Hc) as (C1 & C2 & C3). unfold fits_set. rewrite B0, D0, I0. split; [exact C2|]. split; [exact C1|]. intro X. rewrite X in *. auto. }
    { intro X. rewrite B0 in X. rewrite I0, X. rewrite B, X, DI in M. rewrite X in M. lia. }
    { rewrite E3. split; [exact L1|]. split; [exact L2|]. split; [exact W2|]. split; [|split; [|split; [apply tab_length|split; [intros; apply tab_length|split; [split|]]]]].
      - unfold hmm_dims. rewrite B0, D0, I0. rewrite B, D, DI in M. destruct (t_bim t); lia.
      - exact L5.
      - intro C. rewrite C in Hph. destruct Hph.
      - rewrite Forall_forall. intros q Hq. split; [rewrite Forall_forall in L3; apply L3; exact Hq|]. rewrite <- E3 in Hq. apply in_map_iff in Hq. destruct Hq as (c & <- & Hc).
        destruct (E4 c Hc) as (C1 & _). rewrite D0, <- C1. clear -E2 Hc. induction E2 as [|q c' ps ss HR HF IH]; [destruct Hc|]. destruct Hc as [->|Hc]; [exact (frames_dim q c HR)|auto].
      - apply Exists_exists. exists ph. split; [exact Hph|exact Lph]. }
    { reflexivity. }
    { rewrite E3. exact L6. }
    exists (t_m s'). unfold hq_train_class. rewrite GC. unfold sub1. cbn [u_phrases u_dim]. rewrite (class_of_filter _ _ _ KS), E1. cbn [bind].
    assert (PN : match ps with [] => true | _ => false end = false).
    { destruct ps; [|reflexivity]. inversion E2; subst. rewrite <- E3 in Hph. destruct Hph. }
    rewrite PN. replace (t_dim t) with (hc_dim h0) by congruence. unfold settings in ET. rewrite ET. rewrite DN. split; [reflexivity|].
    pose proof FK as (F1 & F2 & F3 & F4 & F5 & _). assert (NE : hc_n (t_m s') = hc_n h0) by (unfold hc_n; rewrite F5; reflexivity). assert (ME : hc_mode (t_m s') = hc_mode h0) by (unfold hc_mode; rewrite F5; reflexivity).
    pose proof RD as (U1 & _ & J1 & _). split; [rewrite <- E3; exact LD|]. split; [exact U1|]. rewrite NE, ME. split; [exact ST|]. rewrite NE, ME in J1. split; [exact J1|].
    split; [rewrite KE; reflexivity|]. split; [exact FK|]. rewrite KI. reflexivity.
  Qed.

  Definition new_with (ex : list R) (s : shared RA) (cf : config (hmmP RA)) (l : string) : hclass RA :=
    hc_set_net (nt_exit (A := RA) ex (hc_net (hq_new_class u s cf l))) (hq_new_class u s cf l).

  Lemma exits_new : forall (s : shared RA) cf (f : string -> list R) labs,
    (forall l, In l labs -> 1 <= hp_states (cf_params cf l) /\ (f l = [] \/ f l = last_exit (hp_states (cf_params cf l)))) ->
    exits_default (A := RA) (map (fun l => (l, new_with (f l) s cf l)) labs) = Ok (map (fun l => (l, hq_new_class u s cf l)) labs, None).
  Proof.
    intros s cf f labs. induction labs as [|l labs IH]; intro H; [reflexivity|]. cbn [map exits_default].
    destruct (H l (or_introl eq_refl)) as (H1 & H2). unfold hm_exit_default. change (hc_hier (new_with (f l) s cf l)) with true. cbn [negb].
    change (hc_n (new_with (f l) s cf l)) with (hp_states (cf_params cf l)). change (h_exit (hc_net (new_with (f l) s cf l))) with (f l).
    rewrite (exit_default_last _ H1 _ H2). cbn [bind]. rewrite IH by (intros; apply H; right; assumption). cbn [bind]. reflexivity.
  Qed.

  (** The classes [labs] have just been made. *)
  Definition made_classes (s : shared RA) (cf : config (hmmP RA)) (v0 : hhmm RA) (labs : list string) (v : hhmm RA) : Prop :=
    let n := length labs in
    v = hh_set_cls (map (fun l => (l, hq_new_class u s cf l)) labs) (hh_set_top (A := RA) (repeat (/ INR n)%R n) (repeat (repeat (/ INR n)%R n) n) (repeat (/ 10)%R n) v0).

  Lemma map_const : forall {X Y} (c : Y) (l : list X), map (fun _ => c) l = repeat c (length l).
  Proof. induction l as [|a l IH]; [reflexivity|]. cbn. rewrite IH. reflexivity. Qed.

  Lemma add_new : forall (m : hmodel RA) v0 labs l v, v0 = hq_view m -> made_classes (hq_sp m) (hq_cf m) v0 labs v -> ~ In l labs -> Forall (fun x => String.ltb x l = true) labs ->
    StronglySorted (fun a b => String.ltb a b = true) labs -> (forall x, In x (labs ++ [l]) -> 1 <= hp_states (cf_params (hq_cf m) x)) ->
    exists v', hh_add (A := RA) (jk_num u) (jk_flag u) l v = Ok (v', None) /\ made_classes (hq_sp m) (hq_cf m) v0 (labs ++ [l]) v'.
  Proof.
    intros m v0 labs l v E0 E NI HL SS HP. set (s := hq_sp m) in *. set (cf := hq_cf m) in *. unfold made_classes in E. cbv zeta in E.
    unfold hh_add.
    assert (MG : mget String.eqb (hh_cls v) l = None).
    { destruct (mget String.eqb (hh_cls v) l) as [h|] eqn:G; [|reflexivity]. exfalso. apply NI. apply (mget_in String.eqb String.eqb_eq) in G.
      rewrite E in G. cbn [hh_cls hh_set_cls] in G. apply in_map_iff in G. destruct G as (x & Q & Hx). congruence. }
    rewrite MG.
    assert (MP : forall h, mput String.eqb String.ltb (hh_cls v) l h = hh_cls v ++ [(l, h)]).
    { intro h. apply (mput_last _ _ String.eqb_eq str_ltb_trans str_ltb_irrefl); unfold ksorted; rewrite E; cbn [hh_cls hh_set_cls]; rewrite map_map; cbn [fst]; rewrite map_id; [exact SS|].
      rewrite Forall_forall in HL. exact HL. }
    rewrite MP.
    assert (NW : hc_set_par (hmmP_assign (hc_par (new_class (jk_num u) (jk_flag u) v)) (hh_cfg v l)) (new_class (jk_num u) (jk_flag u) v) = new_with [] s cf l).
    { rewrite E, E0. reflexivity. }
    rewrite NW. unfold hh_update_top. unfold hh_size. cbn [hh_cls hh_set_cls hh_prior hh_trans hh_set_top].
    assert (HC : hh_cls v ++ [(l, new_with [] s cf l)] = map (fun x => (x, new_with (if String.eqb x l then [] else last_exit (hp_states (cf_params cf x))) s cf x)) (labs ++ [l])).
    { rewrite map_app. cbn [map]. rewrite String.eqb_refl. rewrite E. cbn [hh_cls hh_set_cls]. f_equal. apply map_ext_in. intros x Hx. destruct (String.eqb_spec x l) as [->|]; [contradiction|]. reflexivity. }
    rewrite HC. rewrite map_length, app_length. cbn [length].
    assert (LP : @length R (hh_prior v) = length labs) by (rewrite E; apply repeat_length). change (num RA) with R in *. rewrite LP.
    rewrite (proj2 (Nat.eqb_neq _ _)) by lia. rewrite exits_new.
    2: { intros x Hx. split; [apply HP; exact Hx|]. destruct (String.eqb x l); auto. }
    cbn [bind]. eexists. split; [reflexivity|]. unfold made_classes. cbv zeta. rewrite app_length. cbn [length].
    rewrite map_const, vresize_length.
    assert (Q : nofQ (a := RA) (QArith_base.Qmake 1 10) = (/ 10)%R) by (cbn; unfold Q2R; cbn; lra). change (num RA) with R in *. rewrite Q.
    assert (Q1 : ndiv (a := RA) n1 (nN (length labs + 1)) = (/ INR (length labs + 1))%R) by (rewrite n1_RA, nN_RA; cbn; lra). change (num RA) with R in *. rewrite Q1.
    rewrite E. reflexivity.
  Qed.

  Lemma add_all : forall (m : hmodel RA) v0 rest labs v, v0 = hq_view m -> made_classes (hq_sp m) (hq_cf m) v0 labs v ->
    StronglySorted (fun a b => String.ltb a b = true) (labs ++ rest) -> (forall x, In x (labs ++ rest) -> 1 <= hp_states (cf_params (hq_cf m) x)) ->
    exists v', foldM (fun v l => oexn (hh_add (A := RA) (jk_num u) (jk_flag u) l v)) rest v = Ok v' /\ made_classes (hq_sp m) (hq_cf m) v0 (labs ++ rest) v'.
  Proof.
    intros m v0 rest. induction rest as [|l rest IH]; intros labs v E0 HM SS HP; cbn [foldM].
    - exists v. rewrite app_nil_r. auto.
    - replace (labs ++ l :: rest) with ((labs ++ [l]) ++ rest) in SS, HP |- * by (rewrite <- app_assoc; reflexivity).
      assert (S1 : StronglySorted (fun a b => String.ltb a b = true) (labs ++ [l])).
      { clear -SS. induction (labs ++ [l]) as [|a q IH]; [constructor|]. cbn [app] in SS. inversion SS as [|? ? S F]; subst. constructor; [auto|]. apply Forall_app in F. apply F. }
      assert (S2 : StronglySorted (fun a b => String.ltb a b = true) labs /\ Forall (fun x => String.ltb x l = true) labs).
      { clear -S1. induction labs as [|a q IH]; [split; constructor|]. cbn [app] in S1. inversion S1 as [|? ? S F]; subst. destruct (IH S) as (Q1 & Q2). apply Forall_app in F. destruct F as (F1 & F2).
        split; constructor; auto. inversion F2; assumption. }
      destruct S2 as (S2 & S3). assert (NI : ~ In l labs) by (intro C; rewrite Forall_forall in S3; specialize (S3 l C); rewrite str_ltb_irrefl in S3; discriminate).
      destruct (add_new m v0 labs l v E0 HM NI S3 S2) as (v1 & E1 & M1); [intros; apply HP, in_or_app; left; assumption|].
      rewrite E1. cbn [oexn bind]. apply IH; assumption.
  Qed.

  (** ** The model *)

  Lemma hclasses_ok : forall (w : world) k t recs (s : shared RA) cf labs, recorded w k t recs -> set_up (t_bim t) s -> sp_dim s = t_dim t -> sp_din s = (if t_bim t then t_din t else 0) ->
    (forall l, In l (map fst recs) -> hlearnable u s cf recs l) -> (forall l, In l labs -> In l (map fst recs)) ->
    exists hs, mapM (fun e : string * hclass RA => let* r := hq_train_class w t s (fst e) (snd e) in Ok (fst e, r)) (map (fun l => (l, hq_new_class u s cf l)) labs) = Ok (map (fun e => (fst e, (Done, snd e))) hs) /\
      map fst hs = labs /\ Forall (fun e => hclass_made u s cf recs (fst e) (snd e)) hs.
  Proof.
    intros w k t recs s cf labs H SU D DI LE. induction labs as [|l labs IH]; intro HL.
    - exists []. repeat split. constructor.
    - destruct IH as (gs & E & M & F); [intros; apply HL; right; assumption|].
      destruct (hq_train_class_ok w k t recs s cf l H SU D DI) as (g & Eg & Q); [apply HL; left; reflexivity|apply LE, HL; left; reflexivity|].
      exists ((l, g) :: gs). cbn [mapM map fst snd]. rewrite Eg. cbn [bind]. rewrite E. cbn [bind]. split; [reflexivity|]. split; [rewrite M; reflexivity|].
      constructor; [exact Q|exact F].
  Qed.

  Lemma hstrip_done : forall gs : list (string * hclass RA),
    map (fun e : string * (status * hclass RA) => (fst e, snd (snd e))) (map (fun e => (fst e, (Done, snd e))) gs) = gs.
  Proof. induction gs as [|[a b] gs IH]; [reflexivity|]. cbn. rewrite IH. reflexivity. Qed.

  Lemma status_done : forall l (gs : list (string * hclass RA)), status_of l (map (fun e => (fst e, (Done, snd e))) gs) = Done.
  Proof.
    intros l gs. unfold status_of. destruct (mget String.eqb _ l) as [r|] eqn:G; [|reflexivity]. apply (mget_in String.eqb String.eqb_eq) in G. apply in_map_iff in G. destruct G as (e & Q & _). inversion Q. reflexivity.
  Qed.

  Lemma filter_all : forall {X} (f : X -> bool) l, (forall x, f x = true) -> filter f l = l.
  Proof. intros X f l H. induction l as [|a l IH]; [reflexivity|]. cbn [filter]. rewrite H, IH. reflexivity. Qed.

  Lemma clear_ok : forall m : hhmm RA, (hh_bim m = true -> hh_din m <= hh_dim m) ->
    exists r, oexn (hh_clear (A := RA) m) = Ok (hh_set_res r (hh_set_front [] [] false (hh_set_cls [] (hh_set_top (A := RA) [] [] [] m)))) /\ results_sized 0 r.
  Proof.
    intros m H. unfold hh_clear, hh_reset, hh_size. cbn [hh_cls hh_set_cls length reset_all mapM bind hh_bim hh_dim hh_din hh_cmode hh_res hh_v1 hh_v2]. destruct (hh_bim m).
    - unfold usub. rewrite (proj2 (Nat.leb_le _ _) (H eq_refl)). cbn [bind oexn]. eexists. split; [reflexivity|]. repeat split.
    - cbn [bind oexn]. eexists. split; [reflexivity|]. repeat split.
  Qed.

  Lemma reset_top : forall v v' : hhmm RA, hh_reset (A := RA) v = Ok v' -> hh_prior v' = hh_prior v /\ map fst (hh_cls v') = map fst (hh_cls v).
  Proof.
    intros v v' H. unfold hh_reset in H. destruct (reset_all (hh_cls v)) as [ms| |] eqn:E1; cbn [bind] in H; try discriminate.
    destruct (if hh_bim v then _ else _) as [[o c]| |]; cbn [bind] in H; try discriminate.
    destruct (mapM _ ms) as [ms'| |] eqn:E2; cbn [bind] in H; try discriminate. injection H as <-. split; [reflexivity|]. cbn [hh_cls hh_set_res hh_set_front hh_set_cls].
    assert (K : forall (f : hclass RA -> res (hclass RA)) a b, mapM (fun e : string * hclass RA => let* h := f (snd e) in Ok (fst e, h)) a = Ok b -> map fst b = map fst a).
    { intros f. induction a as [|e a IH]; intros b Q; cbn [mapM] in Q; [injection Q as <-; reflexivity|]. destruct (f (snd e)) as [h| |]; cbn [bind] in Q; try discriminate.
      destruct (mapM _ a) as [b'| |] eqn:E; cbn [bind] in Q; try discriminate. injection Q as <-. cbn [map fst]. rewrite (IH _ eq_refl). reflexivity. }
    rewrite (K (fun h => hm_reset (hc_set_hier (hh_hier v) h)) _ _ E2). exact (K (fun h => hm_reset h) _ _ E1).
  Qed.

  Definition unreset (s : shared RA) (m : hmodel RA) (hs : list (string * hclass RA)) (r : results RA) : hmodel RA :=
    let n := length hs in
    mkHM s (hq_cf m) hs (repeat (/ INR n)%R n) (repeat (repeat (/ INR n)%R n) n) (repeat (/ 10)%R n) [] [] false r.

  Lemma hq_train_ok : forall (w : world) k t recs (m : hmodel RA), recorded w k t recs -> recs <> [] -> set_up (t_bim t) (hq_sp m) ->
    (forall s, set_up (t_bim t) s -> sp_dim s = t_dim t -> sp_din s = (if t_bim t then t_din t else 0) -> settings s = settings (hq_sp m) -> sp_win s = sp_win (hq_sp m) ->
      forall l, In l (map fst recs) -> hlearnable u s (hq_cf m) recs l) ->
    exists s hs r, set_up (t_bim t) s /\ sp_dim s = t_dim t /\ sp_din s = (if t_bim t then t_din t else 0) /\
      sp_names s = t_cols t /\ settings s = settings (hq_sp m) /\ sp_win s = sp_win (hq_sp m) /\
      map fst hs = t_labels t /\ Forall (fun e => hclass_made u s (hq_cf m) recs (fst e) (snd e)) hs /\ results_sized 0 r /\
      hq_train u w k m = (if (cf_mt (hq_cf m) =? 0)%Z then Ok (unreset s m hs r) else hq_reset (unreset s m hs r)).
  Proof.
    intros w k t recs m H NE SU LE. pose proof H as (_ & HS & _ & IR & LC & F). unfold hq_train.
    unfold set_at in HS. destruct (nth_error (w_sets w) k) as [o|] eqn:EN; [|discriminate]. subst o.
    unfold rd. rewrite EN. cbn [bind].
    assert (L1 : (length (t_phrases t) <? 1) = false).
    { apply Nat.ltb_ge. destruct recs as [|r recs]; [congruence|]. inversion F; subst. cbn. lia. }
    rewrite L1.
    destruct (clear_ok (hq_view m)) as (r0 & E0 & RS0).
    { unfold hq_view. cbn [hh_bim hh_din hh_dim]. intro B. destruct SU as (B' & M & _). unfold modal_ok in M. rewrite B in M. lia. }
    rewrite E0. cbn [bind].
    destruct (fetch_ok t (hq_sp m) SU IR LC) as (s & E1 & SU' & D & DI & NM & ST & WN). rewrite E1. cbn [bind].
    destruct (recorded_labels w k t recs H) as (LB & SO). specialize (LE s SU' D DI ST WN).
    set (m1 := hq_put s _ m).
    assert (V1 : made_classes (hq_sp m1) (hq_cf m1) (hq_view m1) [] (hq_view m1)) by reflexivity.
    destruct (add_all m1 (hq_view m1) (t_labels t) [] (hq_view m1) eq_refl V1 SO) as (v & E2 & HV).
    { intros x Hx. apply LB in Hx. apply (LE x Hx). }
    rewrite E2. cbn [bind app] in HV |- *. change (hq_sp m1) with s in HV. change (hq_cf m1) with (hq_cf m) in HV. unfold made_classes in HV. cbv zeta in HV.
    assert (HC : hh_cls v = map (fun l => (l, hq_new_class u s (hq_cf m) l)) (t_labels t)) by (rewrite HV; reflexivity). rewrite HC.
    destruct (hclasses_ok w k t recs s (hq_cf m) (t_labels t) H SU' D DI LE) as (hs & E3 & MF & FA); [intros l Hl; apply LB; exact Hl|].
    rewrite E3. cbn [bind]. rewrite hstrip_done. exists s, hs, r0. repeat (split; [assumption|]).
    assert (LH : length (t_labels t) = length hs) by (rewrite <- MF; apply map_length).
    assert (PU : hq_put s (hh_set_cls hs v) m = unreset s m hs r0) by (rewrite HV, LH; reflexivity).
    assert (VU : hh_set_cls hs v = hq_view (unreset s m hs r0)) by (rewrite HV, LH; reflexivity).
    destruct (cf_mt (hq_cf m) =? 0)%Z; [rewrite PU; reflexivity|].
    unfold hh_join. rewrite filter_all by (intro e; rewrite status_done; reflexivity).
    assert (VV : hh_set_cls (hh_cls (hh_set_cls hs v)) (hh_set_cls hs v) = hq_view (unreset s m hs r0)) by (rewrite <- VU; reflexivity). rewrite VV.
    unfold hq_reset. destruct (hh_reset (hq_view (unreset s m hs r0))) as [v'| |] eqn:ER; [|reflexivity|reflexivity]. cbn [bind].
    destruct (reset_top _ _ ER) as (R1 & R2). unfold hh_update_top, hh_size.
    assert (LN : length (hh_cls v') = length hs) by (rewrite <- (map_length fst), R2; apply map_length).
    assert (LP : @length R (hh_prior v') = length hs) by (rewrite R1; apply repeat_length). change (num RA) with R in *. rewrite LN, LP, Nat.eqb_refl. reflexivity.
  Qed.
End Train.
