(** Copies and saved hierarchical hidden Markov models: C82 and C83. *)
From Coq Require Import String List Bool Arith ZArith QArith Lia Sorted SpecFloat.
From Verif Require Import Base Arith Model_Json Model_Map Model_Ring Model_Gaussian Model_Shared Model_Config Model_KMeans Model_GMM Model_HMM Model_HHMM Model_Reload
  Spec_Gaussian Spec_Shared Spec_Config Spec_Reload Proofs_Reload8 Proofs_Reload9 Proofs_Reload10 Props_Reload.
Import ListNotations.
Local Open Scope nat_scope.
Local Open Scope list_scope.

(** C82: a trained hierarchical model with left-right classes, written as JSON and read again by the
    constructor, reports the same as the original for every sequence of observations, once both are reset;
    read into an existing model, it does so if that model was hierarchical as well. A model that is not
    hierarchical has the same report when it is read into one that is not ... *)
Theorem C82_same_recognition : forall (A : arith) u (cv : conv A) (m : hmodel A), trained_hhmm cv m -> ready_hhmm m ->
  Forall (fun e => hloadable (snd e) /\ hc_mode (snd e) = LeftRight) (hq_cls m) ->
  exists j t, hq_toJson m = Ok j /\ hq_ofJson u cv j = Ok t /\
    (hp_hier (cf_def (hq_cf m)) = true -> same_hrecognition (hq_view m) (hq_view t)) /\
    forall m0, exists t0, hq_fromJson u cv j m0 = (t0, Ok tt) /\
      (hp_hier (cf_def (hq_cf m0)) = hp_hier (cf_def (hq_cf m)) -> same_hrecognition (hq_view m) (hq_view t0)).
Proof.
  intros A u cv m T R F. destruct (hq_loaded_same u cv m T R F) as (j & t & J1 & J2 & _ & S & G). exists j, t. repeat (split; [assumption|]).
  intro m0. destruct (G m0) as (t0 & H1 & _ & H2). exists t0. auto.
Qed.
Print Assumptions C82_same_recognition.
(** ... because reading does not keep whether the model was hierarchical, although it is in the file: what the
    constructor makes is hierarchical, and reading into a model keeps what that was ... *)
Theorem C82_flag : forall (A : arith) u (cv : conv A) (m : hmodel A), trained_hhmm cv m -> Forall (fun e => hloadable (snd e)) (hq_cls m) ->
  exists j t, hq_toJson m = Ok j /\ hq_ofJson u cv j = Ok t /\ hp_hier (cf_def (hq_cf t)) = true /\
    forall m0, exists t0, hq_fromJson u cv j m0 = (t0, Ok tt) /\ hp_hier (cf_def (hq_cf t0)) = hp_hier (cf_def (hq_cf m0)).
Proof.
  intros A u cv m T F. destruct (hq_trip u cv m T F) as (j & t & J1 & J2 & _ & _ & _ & _ & _ & _ & E & _). exists j, t. repeat (split; [assumption|]).
  intro m0. exists (hq_assign u m0 t). unfold hq_fromJson. rewrite J2. split; reflexivity.
Qed.
Print Assumptions C82_flag.
(** ... with diagonal covariances in two dimensions or more, what was written cannot be read ... *)
Theorem C82_diagonal_refuted : forall (A : arith) u (cv : conv A) (m : hmodel A), trained_hhmm cv m -> Exists (fun e => ~ hloadable (snd e)) (hq_cls m) ->
  exists j, hq_toJson m = Ok j /\ hq_ofJson u cv j = Throw JsonValueError /\ forall m0, hq_fromJson u cv j m0 = (m0, Throw JsonValueError).
Proof.
  intros A u cv m T E. destruct (hq_fails u cv m T E) as (j & J1 & J2). exists j. split; [exact J1|]. split; [exact J2|]. intro m0. unfold hq_fromJson. rewrite J2. reflexivity.
Qed.
Print Assumptions C82_diagonal_refuted.
(** ... and a model constructed from JSON cannot filter anything before it is reset. *)
Theorem C82_before_reset_refuted : forall (A : arith) u (cv : conv A) (m : hmodel A) j t x p, trained_hhmm cv m -> Forall (fun e => hloadable (snd e)) (hq_cls m) -> hq_cls m <> [] ->
  hq_toJson m = Ok j -> hq_ofJson u cv j = Ok t -> hh_filter x (hq_view t) <> Ok p.
Proof.
  intros A u cv m j t x p T L NE J1 J2. destruct (hq_trip u cv m T L) as (j' & t' & J1' & J2' & RES & _ & _ & _ & _ & _ & E & _ & _ & _ & C).
  rewrite J1 in J1'. injection J1' as <-. rewrite J2 in J2'. injection J2' as <-.
  apply hh_unready; [exact E|exact RES|]. cbn. intro Z. rewrite Z in C. inversion C. congruence.
Qed.
Print Assumptions C82_before_reset_refuted.
(** A class that has been trained with one update or more is trained in this sense, whatever [float]s its
    prior, transition and exit probabilities are rounded to; C++ stores these and the mixture coefficients as
    [float]. *)
Theorem C82_training : forall (A : arith) (cv : conv A) iters devs dev k data h0 h,
  hmmP_ok cv (hc_par h0) -> dims_ok (hc_bim h0) (hc_dim h0) (hc_din h0) -> hc_hier h0 = true -> one_channel (h_buf (hc_run h0)) ->
  hm_train iters devs dev (S k) data h0 = Ok h -> Forall (fun g => Forall (is_float cv) (gc_coef g)) (h_states (hc_net h)) ->
  forall p t e, length p = length (h_prior (hc_net h)) -> length t = length (h_trans (hc_net h)) -> length e = length (h_exit (hc_net h)) ->
    Forall (is_float cv) p -> Forall (is_float cv) t -> Forall (is_float cv) e ->
    let h' := hc_set_net (mkNet (A := A) (h_states (hc_net h)) p t e) h in trained_hmm cv h' /\ (hc_mode h = LeftRight -> ready_hmm true h').
Proof. intros A. exact hm_training. Qed.
Print Assumptions C82_training.

(** Two classes of two states, trained on a phrase with one update. *)
Definition e_raw (bim : bool) (mode : cmode) (tm : tmode) : hclass DA :=
  mkHC (A := DA) bim 2 (if bim then 1 else 0) 3 (mkHmmP (A := DA) 2 1 (d_num 1) (d_num 1) mode tm RFull true) true (mkNet (A := DA) [] [] [] [])
    (mkRun (A := DA) [] [] [] [] false (ring_new n0 1 3) n0 n0 n0 n0 n0 0 0 0 n0 [] []).
Definition e_train (bim : bool) (mode : cmode) (tm : tmode) : res (hclass DA) :=
  hm_train (A := DA) (fun _ => 1) (fun _ => [d_num 1; d_num 1]) [d_num 1; d_num 1] 1 [d_phrase] (e_raw bim mode tm).
Definition e_float (h : hclass DA) : hclass DA :=
  hc_set_net (mkNet (A := DA) (h_states (hc_net h)) (map to_float32 (h_prior (hc_net h))) (map to_float32 (h_trans (hc_net h))) (map to_float32 (h_exit (hc_net h)))) h.
Definition e_class (bim : bool) (mode : cmode) (tm : tmode) : hclass DA := match e_train bim mode tm with Ok h => e_float h | _ => e_raw bim mode tm end.
Definition e_half : num DA := f64_ofQ (1 # 2).
Definition e_hhmm (bim : bool) (mode : cmode) (hier : bool) (h : hclass DA) : hmodel DA :=
  mkHM (A := DA) (d_shared bim) (mkConfig (mkHmmP (A := DA) 2 1 (d_num 1) (d_num 1) mode LeftRight RFull hier) 0%Z 1%Z [])
    [("a", h); ("b", h)]%string [e_half; e_half] [[e_half; e_half]; [e_half; e_half]] [e_half; e_half] [] [] false empty_results.
Definition e_obs (bim : bool) : list (num DA) := if bim then [d_num 1] else [d_num 1; d_num 2].

Lemma map_float : forall l : list (num DA), map (c_float d_cv) l = l -> Forall (is_float d_cv) l.
Proof. induction l as [|w l IH]; intro Y; [constructor|]. cbn [map] in Y. injection Y as Y1 Y2. constructor; [exact Y1|apply IH; exact Y2]. Qed.

Lemma e_trained : forall bim mode tm, let h := e_class bim mode tm in
  trained_hmm d_cv h /\ (tm = LeftRight -> ready_hmm true h) /\ shares (d_shared bim) (hc_bim h) (hc_dim h) (hc_din h) (hc_win h) /\ hc_mode h = tm /\ hp_mode (hc_par h) = mode.
Proof.
  intros bim mode tm h.
  assert (Y : match e_train bim mode tm with
              | Ok h => map (fun g => map (c_float d_cv) (gc_coef g)) (h_states (hc_net h)) = map (gc_coef (A := DA)) (h_states (hc_net h)) /\
                  (map (c_float d_cv) (map to_float32 (h_prior (hc_net h))) = map to_float32 (h_prior (hc_net h)) /\
                  map (c_float d_cv) (map to_float32 (h_trans (hc_net h))) = map to_float32 (h_trans (hc_net h)) /\
                  map (c_float d_cv) (map to_float32 (h_exit (hc_net h))) = map to_float32 (h_exit (hc_net h))) /\
                  (shares (d_shared bim) (hc_bim h) (hc_dim h) (hc_din h) (hc_win h) /\ hc_mode h = tm /\ hp_mode (hc_par h) = mode)
              | _ => False end) by (unfold shares; destruct bim, mode, tm; vm_compute; auto 20).
  subst h. unfold e_class. unfold e_train in *. destruct (hm_train _ _ _ _ _ _) as [h| |] eqn:E; try contradiction. destruct Y as (Y1 & (Y2 & Y3 & Y4) & Y5).
  assert (TR : trained_hmm d_cv (e_float h) /\ (hc_mode h = LeftRight -> ready_hmm true (e_float h))).
  { refine (C82_training DA d_cv _ _ _ _ _ (e_raw bim mode tm) h _ _ eq_refl _ E _ _ _ _ _ _ _ _ _ _).
    - split; [cbn; lia|]. split; [cbn; lia|]. split; [cbn; lia|]. split; [cbn; lia|]. split; vm_compute; reflexivity.
    - destruct bim; (split; [unfold int_range; cbn; lia|cbn; lia]).
    - exists [n0; n0; n0]. split; reflexivity.
    - clear - Y1. induction (h_states (hc_net h)) as [|g l IH]; [constructor|]. cbn [map] in Y1. injection Y1 as Y1 Y2. constructor; [apply map_float; exact Y1|apply IH; exact Y2].
    - apply map_length.
    - apply map_length.
    - apply map_length.
    - apply map_float; exact Y2.
    - apply map_float; exact Y3.
    - apply map_float; exact Y4. }
  destruct TR as (T1 & T2). destruct Y5 as (Y5 & Y6 & Y7). split; [exact T1|]. split; [intros ->; apply T2; exact Y6|]. auto.
Qed.

Lemma e_model : forall bim mode hier, let m := e_hhmm bim mode hier (e_class bim mode LeftRight) in
  trained_hhmm d_cv m /\ ready_hhmm m /\
  (match mode with Full => Forall (fun e => hloadable (snd e) /\ hc_mode (snd e) = LeftRight) (hq_cls m) | Diagonal => Exists (fun e => ~ hloadable (snd e)) (hq_cls m) end).
Proof.
  intros bim mode hier m. destruct (e_trained bim mode LeftRight) as (T & R & SH & TM & HM). specialize (R eq_refl). split; [|split].
  - split; [|split; [|split; [|split; [|split; [|split; [|split; [|split]]]]]]].
    + unfold storable. destruct bim; cbn; repeat split; auto; try lia; repeat constructor.
    + vm_compute. reflexivity.
    + split; [cbn; lia|]. split; [cbn; lia|]. split; [|split; [constructor|constructor]]. do 4 (split; [cbn; lia|]). split; vm_compute; reflexivity.
    + repeat constructor.
    + constructor; [|constructor; [|constructor]]; (split; [exact T|exact SH]).
    + reflexivity.
    + reflexivity.
    + repeat constructor.
    + reflexivity.
  - split; [discriminate|]. assert (RR : ready_hmm hier (e_class bim mode LeftRight)).
    { destruct hier; [exact R|]. destruct R as (R1 & R2 & R3 & _). split; [exact R1|]. split; [exact R2|]. split; [exact R3|]. rewrite TM. discriminate. }
    destruct SH as (SB & _). constructor; [|constructor; [|constructor]]; (split; [exact SB|exact RR]).
  - destruct mode.
    + constructor; [|constructor; [|constructor]]; (split; [left; exact HM|exact TM]).
    + left. unfold hloadable. cbn [snd]. destruct SH as (_ & SD & _). rewrite HM, SD. intros [H|H]; discriminate.
Qed.

Lemma e_same_assign : forall u bim mode d h, hq_assign u d (e_hhmm bim mode false h) = hq_assign u d (e_hhmm bim mode true h).
Proof. reflexivity. Qed.
Lemma seen_progress : forall a b : res (hhmm DA), shown hhmm_seen a = shown hhmm_seen b ->
  shown (fun m => map (fun e => h_prog (hc_run (snd e))) (hh_cls m)) a = shown (fun m => map (fun e => h_prog (hc_run (snd e))) (hh_cls m)) b.
Proof.
  intros [a|e|] [b|e'|] H; cbn in H |- *; try discriminate; try congruence. f_equal. unfold hhmm_seen in H. injection H as _ H _. revert H. generalize (hh_cls b). clear.
  induction (hh_cls a) as [|x l IH]; intros [|y l'] H; try discriminate; [reflexivity|]. cbn [map] in *. injection H as _ _ H _ _ H'. f_equal; [exact H|apply IH; exact H'].
Qed.

(** A model that is not hierarchical and its saved copy report differently. *)
Theorem C82_flag_refuted : exists (A : arith) (cv : conv A) (m : hmodel A) xs, trained_hhmm cv m /\ ready_hhmm m /\
  Forall (fun e => hloadable (snd e) /\ hc_mode (snd e) = LeftRight) (hq_cls m) /\ hp_hier (cf_def (hq_cf m)) = false /\ xs <> [] /\
  forall u j t, hq_toJson m = Ok j -> hq_ofJson u cv j = Ok t -> shown hhmm_seen (hhmm_recognise xs (hq_view t)) <> shown hhmm_seen (hhmm_recognise xs (hq_view m)).
Proof.
  exists DA, d_cv, (e_hhmm true Full false (e_class true Full LeftRight)), [e_obs true; e_obs true].
  destruct (e_model true Full false) as (T & R & L). split; [exact T|]. split; [exact R|]. split; [exact L|]. split; [reflexivity|]. split; [discriminate|].
  intros u j t J1 J2 H. apply seen_progress in H.
  assert (X : match hq_toJson (e_hhmm true Full false (e_class true Full LeftRight)) with
              | Ok j => match hq_ofJson u d_cv j with
                        | Ok t => match hhmm_recognise [e_obs true; e_obs true] (hq_view t) with Ok a => map (fun e : string * hclass DA => SFeqb (h_prog (hc_run (snd e))) (S754_zero false)) (hh_cls a) | _ => [] end
                        | _ => [] end
              | _ => [] end = [true; true]) by (destruct u; vm_compute; reflexivity).
  assert (Y : match hhmm_recognise [e_obs true; e_obs true] (hq_view (e_hhmm true Full false (e_class true Full LeftRight))) with Ok a => map (fun e : string * hclass DA => SFeqb (h_prog (hc_run (snd e))) (S754_zero false)) (hh_cls a) | _ => [] end = [false; false]) by (vm_compute; reflexivity).
  rewrite J1, J2 in X. clear - H X Y. set (m := e_hhmm true Full false (e_class true Full LeftRight)) in *. clearbody m. set (xs := [e_obs true; e_obs true]) in *. clearbody xs. destruct (hhmm_recognise xs (hq_view t)) as [a| |]; try discriminate. destruct (hhmm_recognise xs (hq_view m)) as [b| |]; try discriminate. cbn in H. injection H as H.
  apply (f_equal (map (fun x : num DA => SFeqb x (S754_zero false)))) in H. rewrite !map_map in H. assert (Z : [true; true] = [false; false]) by exact (eq_trans (eq_sym X) (eq_trans H Y)). discriminate Z.
Qed.
Print Assumptions C82_flag_refuted.

Example C82_meets : forall bim mode hier, let m := e_hhmm bim mode hier (e_class bim mode LeftRight) in
  trained_hhmm d_cv m /\ ready_hhmm m /\ hq_cls m <> [] /\
  (match mode with Full => Forall (fun e => hloadable (snd e) /\ hc_mode (snd e) = LeftRight) (hq_cls m) | Diagonal => Exists (fun e => ~ hloadable (snd e)) (hq_cls m) end) /\
  exists m', hhmm_recognise [e_obs bim; e_obs bim] (hq_view m) = Ok m'.
Proof.
  intros bim mode hier m. destruct (e_model bim mode hier) as (T & R & L). split; [exact T|]. split; [exact R|]. split; [discriminate|]. split; [exact L|].
  assert (X : match hhmm_recognise [e_obs bim; e_obs bim] (hq_view m) with Ok _ => true | _ => false end = true) by (subst m; destruct bim, mode, hier; vm_compute; reflexivity).
  destruct (hhmm_recognise _ _); try discriminate. eauto.
Qed.

(** C83: a copy of a hierarchical model, made by the copy constructor, reports the same as the original once
    both are reset; so does one made by assignment, to a model that was hierarchical if and only if the
    original is ... *)
Theorem C83_copies : forall (A : arith) u (m : hmodel A), ready_hhmm m ->
  same_hrecognition (hq_view m) (hq_view (hq_copy u m)) /\
  forall d, hp_hier (cf_def (hq_cf d)) = hp_hier (cf_def (hq_cf m)) -> same_hrecognition (hq_view m) (hq_view (hq_assign u d m)).
Proof. intros A u m R. split; [apply hq_copy_same; exact R|intros d E; apply hq_assign_same; assumption]. Qed.
Print Assumptions C83_copies.
(** ... but assigned to another, the copy reports differently. *)
Theorem C83_flag_refuted : exists (A : arith) (d m : hmodel A) xs, ready_hhmm m /\ xs <> [] /\
  forall u, shown hhmm_seen (hhmm_recognise xs (hq_view (hq_assign u d m))) <> shown hhmm_seen (hhmm_recognise xs (hq_view m)).
Proof.
  exists DA, (e_hhmm true Full true (e_class true Full LeftRight)), (e_hhmm true Full false (e_class true Full LeftRight)), [e_obs true; e_obs true].
  destruct (e_model true Full false) as (_ & R & _). split; [exact R|]. split; [discriminate|]. intro u.
  destruct (e_model true Full true) as (_ & R' & _).
  destruct (C83_copies DA u (e_hhmm true Full true (e_class true Full LeftRight)) R') as (_ & S).
  specialize (S (e_hhmm true Full true (e_class true Full LeftRight)) eq_refl [e_obs true; e_obs true]).
  rewrite e_same_assign.
  rewrite <- S by discriminate. clear. intro H. apply seen_progress in H. vm_compute in H. discriminate H.
Qed.
Print Assumptions C83_flag_refuted.

Definition e_ergodic (bim : bool) (mode : cmode) : hclass DA :=
  let h := hc_set_hier false (e_class bim mode Ergodic) in hc_set_run (rn_alpha (A := DA) [n0; n0] (hc_run h)) h.
Example C83_meets : forall bim mode, let m := e_hhmm bim mode false (e_ergodic bim mode) in
  ready_hhmm m /\ (exists m', hhmm_recognise [e_obs bim; e_obs bim] (hq_view m) = Ok m') /\
  forall hier, ready_hhmm (e_hhmm bim mode hier (e_class bim mode LeftRight)).
Proof.
  intros bim mode m. split; [|split].
  - destruct (e_trained bim mode Ergodic) as (T & _ & SH & TM & HM). split; [discriminate|].
    assert (RR : ready_hmm false (e_ergodic bim mode)).
    { destruct T as (_ & _ & T1 & T2 & _ & _ & T3 & _). split; [|split; [|split; [exact T3|intros _; split; [reflexivity|destruct bim, mode; vm_compute; reflexivity]]]].
      - assert (X : map (fun g => (length (gc_beta g), gc_n g, gc_buf g)) (h_states (hc_net (e_ergodic bim mode))) = [(1, 1, ring_new n0 1 1); (1, 1, ring_new n0 1 1)]) by (destruct bim, mode; vm_compute; reflexivity).
        clear - X. destruct (h_states (hc_net (e_ergodic bim mode))) as [|g1 [|g2 [|]]]; try discriminate. cbn [map] in X. injection X as A1 A2 A3 B1 B2 B3.
        assert (RS : forall g : gclass DA, length (gc_beta g) = 1 -> gc_n g = 1 -> gc_buf g = ring_new n0 1 1 -> ready_state g).
        { intros g H1 H2 H3. unfold ready_state. rewrite H1, H2, H3. split; [reflexivity|]. split; [exists [n0]; split; reflexivity|]. split; reflexivity. }
        apply Forall_cons; [apply RS; assumption|]. apply Forall_cons; [apply RS; assumption|apply Forall_nil].
      - exists [n0; n0; n0]. destruct bim, mode; vm_compute; split; reflexivity. }
    destruct SH as (SB & _). constructor; [|constructor; [|constructor]]; (split; [exact SB|exact RR]).
  - assert (X : match hhmm_recognise [e_obs bim; e_obs bim] (hq_view m) with Ok _ => true | _ => false end = true) by (subst m; destruct bim, mode; vm_compute; reflexivity).
    destruct (hhmm_recognise _ _); try discriminate. eauto.
  - intro hier. apply e_model.
Qed.
