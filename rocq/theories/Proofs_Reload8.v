(** Hidden Markov models: copies; saved and loaded. *)
From Coq Require Import String List Bool Arith ZArith Lia QArith Sorted.
From Verif Require Import Base BaseFacts Arith Model_Json Model_Map Model_Ring Model_Phrase Model_Gaussian Model_Shared Model_Config Model_GMM Model_HMM Model_HHMM Model_Reload
  Spec_Gaussian Spec_Shared Spec_Config Spec_Reload
  Proofs_Map Proofs_Json Proofs_Gaussian4 Proofs_Shared Proofs_Config Proofs_Rel Proofs_Reload1 Proofs_Reload2 Proofs_Reload3 Proofs_Reload4 Proofs_Reload6 Proofs_Reload7.
Import ListNotations.
Local Open Scope nat_scope.
Local Open Scope list_scope.

Section HTrip.
  Context {A : arith}.
  Local Notation T := (num A).
  Local Notation J := (json A).

  Lemma one_eqv : forall r s : ring T, ring_one r -> ring_one s -> ring_eqv r s.
  Proof. intros r s (v & D & L & I) (w & D' & L' & I'). exists [v], [w]. rewrite D, D', L, L', I, I'. cbn. repeat split; auto. Qed.
  Lemma new_one : ring_one (ring_new (n0 : T) 1 1).
  Proof. exists n0. auto. Qed.
  Lemma ready_one : forall g : gclass A, ready_state g -> length (gc_beta g) = gc_n g /\ ring_one (gc_buf g).
  Proof.
    intros g (LB & (a & D & L) & L1 & I). split; [exact LB|]. rewrite L1 in L. destruct a as [|v [|]]; try discriminate. exists v. auto.
  Qed.

  Lemma fits_ready : forall hier (h : hclass A), ready_hmm hier h -> fits hier h.
  Proof. intros hier h (_ & OC & TL & FT). split; [exact TL|]. split; [exact OC|exact FT]. Qed.

  (** ** Copies *)
  Lemma hcopy_sim : forall u (h k : hclass A), stat h k -> h_prior (hc_net h) = h_prior (hc_net k) -> h_trans (hc_net h) = h_trans (hc_net k) -> h_exit (hc_net h) = h_exit (hc_net k) ->
    Forall2 (fun g g' => gsim0 g g' /\ ring_one (gc_buf g)) (h_states (hc_net h)) (h_states (hc_net k)) -> hsim0 h (hc_copy u k).
  Proof.
    intros u h k ST E1 E2 E3 FS. split; [exact ST|]. unfold net_sim. cbn. repeat split; auto. clear - FS. induction FS as [|g g' gs gs' [S R] _ IH]; cbn; constructor; auto.
    split; [|apply one_eqv; [exact R|apply new_one]]. eapply gsim0_trans; [exact S|]. apply copy_sim. apply S.
  Qed.
  Lemma fits_copy : forall u (hier : bool) (h : hclass A), tr_len h ->
    (if hier then hc_hier h = true /\ hc_mode h = LeftRight else hc_mode h = Ergodic -> hc_hier h = false) -> fits hier (hc_copy u h).
  Proof.
    intros u hier h TL FT. split; [exact TL|]. split; [apply new_channel|]. destruct hier; [exact FT|]. intro M. split; [apply FT; exact M|]. cbn. apply repeat_length.
  Qed.
  Lemma stat_refl : forall h : hclass A, stat h h.
  Proof. intro h. unfold stat. auto 10. Qed.
  Lemma gsim0_refl : forall g : gclass A, length (gc_beta g) = gc_n g -> gsim0 g g.
  Proof. intros g L. unfold gsim0. repeat split; auto. apply forall2_same. apply Forall_forall. auto. Qed.

  Lemma hcopies : forall u hier bim (ms : list (string * hclass A)), Forall (fun e => hc_bim (snd e) = bim /\ ready_hmm hier (snd e)) ms ->
    Forall2 (entry hsim0) ms (map (fun e => (fst e, hc_copy u (snd e))) ms) /\
    Forall (fun e => fits hier (snd e) /\ hc_bim (snd e) = bim) ms /\ Forall (fun e => fits hier (snd e)) (map (fun e => (fst e, hc_copy u (snd e))) ms).
  Proof.
    intros u hier bim ms F. induction F as [|[l h] ms [B R] _ (I1 & I2 & I3)]; cbn; [auto|]. cbn [snd] in *. repeat split; constructor; auto.
    - split; [reflexivity|]. cbn. apply hcopy_sim; auto; [apply stat_refl|]. destruct R as (FS & _). apply forall2_same. eapply Forall_impl; [|exact FS]. intros g Hg. apply ready_one in Hg.
      destruct Hg. split; [apply gsim0_refl|]; auto.
    - split; [apply fits_ready; exact R|exact B].
    - cbn. destruct R as (_ & _ & TL & FT). apply fits_copy; [exact TL|]. destruct hier; [exact FT|]. intro M. apply FT. exact M.
  Qed.

  Lemma hq_copy_same : forall u (m : hmodel A), ready_hhmm m -> same_hrecognition (hq_view m) (hq_view (hq_copy u m)).
  Proof.
    intros u m (NE & F). apply same_hmodels. destruct (hcopies u _ _ _ F) as (H1 & H2 & H3). unfold hmsim0, same_top. cbn. auto 20.
  Qed.
  Lemma hq_assign_same : forall u (d m : hmodel A), ready_hhmm m -> hp_hier (cf_def (hq_cf d)) = hp_hier (cf_def (hq_cf m)) -> same_hrecognition (hq_view m) (hq_view (hq_assign u d m)).
  Proof.
    intros u d m (NE & F) EH. apply same_hmodels. destruct (hcopies u _ _ _ F) as (H1 & H2 & H3). unfold hmsim0, same_top. cbn. rewrite EH. auto 20.
  Qed.

  (** ** Saved and loaded *)
  Lemma load_each_rep : forall {X} (load : J -> X -> res X) g l xs pre, Forall2 (fun j x => load j g = Ok x) l xs ->
    load_each load l (length pre) (pre ++ repeat g (length l)) = Ok (pre ++ xs).
  Proof.
    intros X load g l xs pre H. revert pre. induction H as [|j x l xs Hj _ IH]; intros pre; cbn [load_each length repeat]; [reflexivity|].
    unfold rd. rewrite nth_error_app2, Nat.sub_diag by lia. cbn [nth_error bind]. rewrite Hj. cbn [bind].
    unfold wr. replace (length pre <? length (pre ++ g :: repeat g (length l))) with true by (symmetry; apply Nat.ltb_lt; rewrite app_length; cbn; lia). cbn [bind].
    assert (E : upd (pre ++ g :: repeat g (length l)) (length pre) x = (pre ++ [x]) ++ repeat g (length l)).
    { clear. induction pre as [|y pre IH]; cbn; [reflexivity|]. rewrite IH. reflexivity. }
    rewrite E. specialize (IH (pre ++ [x])). rewrite app_length in IH. cbn in IH. rewrite Nat.add_1_r in IH. rewrite IH, <- app_assoc. reflexivity.
  Qed.

  Lemma alloc_state : forall (h : hclass A), dims_ok (hc_bim h) (hc_dim h) (hc_din h) -> exists g, gm_allocate (new_mixture h 1) = Ok g /\
    gc_bim g = hc_bim h /\ gc_dim g = hc_dim h /\ gc_din g = hc_din h /\ gc_win g = hc_win h /\ gc_buf g = ring_new n0 1 1.
  Proof.
    intros h D. unfold gm_allocate, new_mixture. cbn [gc_bim gc_dim gc_din]. destruct (g_new_ok (A := A) (hc_bim h) (hc_dim h) (hc_din h) (hp_mode (hc_par h)) D) as (c & EC).
    unfold gc_mode. cbn [gc_par gp_mode]. rewrite EC. cbn [bind]. eexists. split; [reflexivity|]. cbn. auto.
  Qed.

  Lemma state_trip : forall u (cv : conv A) h g g0, state_of cv h g -> hloadable h ->
    gc_bim g0 = hc_bim h -> gc_dim g0 = hc_dim h -> gc_din g0 = hc_din h -> gc_win g0 = hc_win h -> gc_buf g0 = ring_new n0 1 1 ->
    exists j g', gc_toJson "" g = Ok j /\ gc_fromJson u cv j g0 = Ok g' /\ gsim0 g g' /\ ring_one (gc_buf g').
  Proof.
    intros u cv h g g0 (TR & S1 & S2 & S3 & S4 & S5 & S6) LD E1 E2 E3 E4 E5.
    assert (LG : loadable g) by (unfold loadable; rewrite S2, S6; exact LD).
    destruct (gc_trip u cv "" g TR LG) as (j & t & J1 & _ & J2 & SM & _ & PT). exists j. eexists. split; [exact J1|].
    unfold gc_fromJson. rewrite E1, E2, E3, E4, <- S1, <- S2, <- S3, <- S4, J2. cbn [bind]. split; [reflexivity|].
    destruct SM as (M1 & M2 & M3 & M4 & M5 & M6 & M7 & M8 & M9 & M10). split; [|unfold gc_assign; cbn; rewrite E5; apply new_one].
    unfold gsim0, gc_assign, gc_n, gc_mode in *. cbn -[vresize]. rewrite !vresize_length. auto 20.
  Qed.
  Lemma state_fails : forall u (cv : conv A) h g g0, state_of cv h g -> ~ hloadable h ->
    gc_bim g0 = hc_bim h -> gc_dim g0 = hc_dim h -> gc_din g0 = hc_din h -> gc_win g0 = hc_win h ->
    exists j, gc_toJson "" g = Ok j /\ gc_fromJson u cv j g0 = Throw JsonValueError.
  Proof.
    intros u cv h g g0 (TR & S1 & S2 & S3 & S4 & S5 & S6) LD E1 E2 E3 E4.
    assert (LG : ~ loadable g) by (unfold loadable; rewrite S2, S6; exact LD).
    destruct (gc_fails u cv "" g TR LG) as (j & J1 & _ & J2). exists j. split; [exact J1|].
    unfold gc_fromJson. rewrite E1, E2, E3, E4, <- S1, <- S2, <- S3, <- S4, J2. reflexivity.
  Qed.

  Definition hc_json (l : string) (h : hclass A) (js : list J) : J :=
    JObj (("label"%string, JStr l) :: ("parameters"%string, hmmP_toJson (hc_par h)) ::
      (match hc_mode h with Ergodic => [("prior"%string, JArr (map JReal (h_prior (hc_net h))))] | LeftRight => [] end) ++
      [("transition", JArr (map JReal (h_trans (hc_net h)))); ("exitProbabilities", JArr (map JReal (h_exit (hc_net h)))); ("states", JArr js)]%string).
  Lemma hc_json_ok : forall l (h : hclass A) js, length (h_states (hc_net h)) = hc_n h -> Forall2 (fun g j => gc_toJson "" g = Ok j) (h_states (hc_net h)) js -> hc_toJson l h = Ok (hc_json l h js).
  Proof.
    intros l h js L H. unfold hc_toJson, hc_json. rewrite !vector2json_ok. rewrite <- L, (array_ok _ _ _ H). destruct (hc_mode h); reflexivity.
  Qed.

  (** The class before its states are read. *)
  Lemma hc_read : forall u (cv : conv A) l (h : hclass A) js, trained_hmm cv h -> exists k g0,
    hc_ofJson u cv (hc_bim h) (hc_dim h) (hc_din h) (hc_win h) (hc_json l h js) =
      (let* states := load_each (gc_fromJson u cv) js 0 (repeat g0 (hc_n h)) in Ok (l, hc_set_net (mkNet states (h_prior (hc_net h)) (h_trans (hc_net h)) (h_exit (hc_net h))) k)) /\
    stat h k /\ hc_hier k = true /\ one_channel (h_buf (hc_run k)) /\
    gc_bim g0 = hc_bim h /\ gc_dim g0 = hc_dim h /\ gc_din g0 = hc_din h /\ gc_win g0 = hc_win h /\ gc_buf g0 = ring_new n0 1 1.
  Proof.
    intros u cv l h js (P & D & LS & FS & PE & PL & LT & FT & LX & FX).
    unfold hc_ofJson. set (root := hc_json l h js).
    assert (R1 : jmember root "label" = Ok (JStr l)) by reflexivity.
    assert (R2 : jmember root "parameters" = Ok (hmmP_toJson (hc_par h))) by reflexivity.
    assert (R3 : jmember root "transition" = Ok (JArr (map JReal (h_trans (hc_net h))))) by (unfold root, hc_json; destruct (hc_mode h); reflexivity).
    assert (R4 : jmember root "states" = Ok (JArr js)) by (unfold root, hc_json; destruct (hc_mode h); reflexivity).
    assert (R5 : forall X (f : J -> res X) d, match root with JObj o => match lookup o "exitProbabilities" with Some j => f j | None => d end | _ => d end = f (JArr (map JReal (h_exit (hc_net h)))))
      by (intros; unfold root, hc_json; destruct (hc_mode h); reflexivity).
    rewrite R1. cbn [bind as_string]. rewrite R2. cbn [bind]. unfold hmmP_fromJson. rewrite hmm_trip by exact P. unfold run_load. cbn [fst snd bind].
    set (p := hmmP_assign hmmP_new (hmmP_round cv (hp_hier (hc_par h)) (hc_par h))).
    set (r0 := mkRun [] [] [] [] (jk_flag u) (ring_new n0 1 1) (jk_num u) (jk_num u) (jk_num u) (jk_num u) (jk_num u) 0 0 0 (jk_num u) [] []).
    set (h0 := mkHC (hc_bim h) (hc_dim h) (hc_din h) (hc_win h) p true (mkNet [] [] [] []) r0).
    destruct (alloc_state h0 D) as (g0 & G0 & G1 & G2 & G3 & G4 & G5).
    assert (EN : hc_n h0 = hc_n h) by reflexivity. assert (EM : hc_mode h0 = hc_mode h) by reflexivity.
    unfold hm_allocate. rewrite G0. cbn [bind]. cbn [hc_hier hc_set_net hc_set_run h0]. unfold hm_exit_default. cbn [hc_hier negb hc_set_net hc_set_run h0].
    destruct P as (P1 & _).
    assert (XD : exists e, exit_default (hc_n h) (@nil T) = Ok e /\ length e = hc_n h).
    { unfold exit_default, wr. rewrite vresize_length. replace (hc_n h - 1 <? hc_n h) with true by (symmetry; apply Nat.ltb_lt; unfold hc_n; lia). eexists. split; [reflexivity|]. rewrite upd_len. apply vresize_length. }
    destruct XD as (e & XD & XL).
    match goal with |- context [exit_default ?n ?v] => change (exit_default n v) with (exit_default (hc_n h) (@nil T)) end. rewrite XD. cbn [bind].
    eexists. exists g0. split; [|split; [|split; [|split; [|auto]]]].
    - repeat match goal with |- context [hc_n ?q] => lazymatch q with h => fail | _ => change (hc_n q) with (hc_n h) end end.
      repeat match goal with |- context [hc_mode ?q] => lazymatch q with h => fail | _ => change (hc_mode q) with (hc_mode h) end end.
      cbn [hc_set_net hc_set_run hc_net nt_exit h_prior h_trans h_exit h_states h0].
      assert (PR : match hc_mode h with
        | Ergodic => let* j := jmember root "prior" in Model_Gaussian.outcome (json2vector true (as_float cv) j match hc_mode h with Ergodic => vresize (hc_n h) n0 [] | LeftRight => [] end (hc_n h))
        | LeftRight => Ok match hc_mode h with Ergodic => vresize (hc_n h) n0 [] | LeftRight => [] end end = Ok (h_prior (hc_net h))).
      { destruct (hc_mode h) eqn:M.
        - destruct (PE eq_refl) as (PLN & PF). unfold root, hc_json. rewrite M. cbn [app jmember lookup String.eqb Ascii.eqb Bool.eqb bind]. apply float_trip; auto. apply vresize_length.
        - rewrite (PL eq_refl). reflexivity. }
      rewrite PR. cbn [bind]. rewrite R3. cbn [bind]. rewrite float_trip; auto; [|rewrite vresize_length; destruct (hc_mode h); lia].
      cbn [bind]. rewrite R5. rewrite float_trip; auto. cbn [bind]. rewrite R4. cbn [bind jitems]. reflexivity.
    - unfold stat. cbn. auto 10.
    - reflexivity.
    - cbn. apply new_channel.
  Qed.

  Lemma hc_trip : forall u (cv : conv A) l (h : hclass A), trained_hmm cv h -> hloadable h -> exists j k, hc_toJson l h = Ok j /\ jmember j "label" = Ok (JStr l) /\
    hc_ofJson u cv (hc_bim h) (hc_dim h) (hc_din h) (hc_win h) j = Ok (l, k) /\
    stat h k /\ h_prior (hc_net h) = h_prior (hc_net k) /\ h_trans (hc_net h) = h_trans (hc_net k) /\ h_exit (hc_net h) = h_exit (hc_net k) /\
    Forall2 (fun g g' => gsim0 g g' /\ ring_one (gc_buf g')) (h_states (hc_net h)) (h_states (hc_net k)) /\ hc_hier k = true /\ one_channel (h_buf (hc_run k)).
  Proof.
    intros u cv l h TR LD. destruct (hc_read u cv l h [] TR) as (_ & g0 & _ & _ & _ & _ & G1 & G2 & G3 & G4 & G5).
    pose proof TR as (_ & _ & LS & FS & _).
    assert (W : exists js, Forall2 (fun g j => gc_toJson "" g = Ok j) (h_states (hc_net h)) js).
    { apply forall_exists2. eapply Forall_impl; [|exact FS]. intros g Hg. destruct (state_trip u cv h g g0 Hg LD) as (j & g' & J1 & _); auto. eauto. }
    destruct W as (js & HJ). destruct (hc_read u cv l h js TR) as (k & g1 & RD & ST & HK & OK & K1 & K2 & K3 & K4 & K5).
    assert (W2 : exists gs, Forall2 (fun j g' => gc_fromJson u cv j g1 = Ok g') js gs /\ Forall2 (fun g g' => gsim0 g g' /\ ring_one (gc_buf g')) (h_states (hc_net h)) gs).
    { clear - HJ FS LD K1 K2 K3 K4 K5. induction HJ as [|g j gs js E _ IH]; [exists []; auto|]. inversion FS; subst. destruct (IH H2) as (l1 & F1 & F2).
      destruct (state_trip u cv h g g1 H1 LD) as (j' & g' & J1 & J2 & SM & R); auto. assert (j' = j) by congruence. subst j'. exists (g' :: l1). split; constructor; auto. }
    destruct W2 as (gs & F1 & F2). exists (hc_json l h js). eexists. split; [apply hc_json_ok; auto|]. split; [reflexivity|].
    rewrite RD. pose proof (load_each_rep (gc_fromJson u cv) g1 js gs [] F1) as LR. cbn [length app] in LR. rewrite <- (forall2_length _ _ _ HJ), LS in LR. rewrite LR. cbn [bind].
    split; [reflexivity|]. split; [exact ST|]. cbn. auto 10.
  Qed.

  Lemma hc_fails : forall u (cv : conv A) l (h : hclass A), trained_hmm cv h -> ~ hloadable h -> exists j, hc_toJson l h = Ok j /\ jmember j "label" = Ok (JStr l) /\
    hc_ofJson u cv (hc_bim h) (hc_dim h) (hc_din h) (hc_win h) j = Throw JsonValueError.
  Proof.
    intros u cv l h TR LD. destruct (hc_read u cv l h [] TR) as (_ & g0 & _ & _ & _ & _ & G1 & G2 & G3 & G4 & G5).
    pose proof TR as (P & _ & LS & FS & _).
    assert (W : exists js, Forall2 (fun g j => gc_toJson "" g = Ok j) (h_states (hc_net h)) js).
    { apply forall_exists2. eapply Forall_impl; [|exact FS]. intros g Hg. destruct (state_fails u cv h g g0 Hg LD) as (j & J1 & _); auto. eauto. }
    destruct W as (js & HJ). destruct (hc_read u cv l h js TR) as (k & g1 & RD & ST & HK & OK & K1 & K2 & K3 & K4 & K5).
    exists (hc_json l h js). split; [apply hc_json_ok; auto|]. split; [reflexivity|]. rewrite RD.
    destruct P as (P1 & _). unfold hc_n in *. destruct (hp_states (hc_par h)) as [|N]; [lia|]. destruct HJ as [|g j gs js E _]; [discriminate|]. inversion FS as [|? ? F1 F2]; subst.
    destruct (state_fails u cv h g g1 F1 LD) as (j' & J1 & J2); auto. assert (j' = j) by congruence. subst j'. cbn. rewrite J2. reflexivity.
  Qed.
End HTrip.
