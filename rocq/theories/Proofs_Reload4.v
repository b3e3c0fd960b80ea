(** Mixtures of several classes: two models with the same parameters recognise alike; copies; saved and
    loaded models. *)
From Coq Require Import String List Bool Arith ZArith Lia Sorted.
From Verif Require Import Base BaseFacts Arith Model_Json Model_Map Model_Ring Model_Phrase Model_Gaussian Model_Shared Model_Config Model_GMM Model_HMM Model_Reload
  Spec_Gaussian Spec_Shared Spec_Config Spec_Reload
  Proofs_Map Proofs_Json Proofs_Gaussian4 Proofs_Shared Proofs_Config Proofs_Rel Proofs_Reload1 Proofs_Reload2 Proofs_Reload3.
Import ListNotations.
Local Open Scope nat_scope.
Local Open Scope list_scope.

Definition entry {X Y} (R : X -> Y -> Prop) (e : string * X) (f : string * Y) : Prop := fst e = fst f /\ R (snd e) (snd f).

Lemma entry_labels : forall {X Y} (R : X -> Y -> Prop) l l', Forall2 (entry R) l l' -> map fst l = map fst l'.
Proof. intros X Y R l l' H. apply (forall2_map _ _ _ _ _ H). intros a b E. apply E. Qed.
Lemma entry_map : forall {X Y Z} (R : X -> Y -> Prop) (f : X -> Z) (g : Y -> Z) l l', Forall2 (entry R) l l' -> (forall a b, R a b -> f a = g b) ->
  map (fun e => f (snd e)) l = map (fun e => g (snd e)) l'.
Proof. intros X Y Z R f g l l' H F. apply (forall2_map _ _ _ _ _ H). intros a b E. apply F. apply E. Qed.
Lemma entry_get : forall {X Y} (R : X -> Y -> Prop) l l' k, Forall2 (entry R) l l' ->
  match mget String.eqb l k, mget String.eqb l' k with Some a, Some b => R a b | None, None => True | _, _ => False end.
Proof.
  intros X Y R l l' k H. induction H as [|[a x] [b y] l l' [E1 E2] H IH]; cbn in *; auto. subst b. destruct (String.eqb k a); auto.
Qed.

Section Model.
  Context {A : arith}.
  Local Notation T := (num A).
  Local Notation J := (json A).

  Lemma best_in : forall (v : list T) n s, n <> 0 -> fst (fold_left (fun s i => argmax_step v i s) (seq 0 n) s) < n.
  Proof.
    intros v n s NZ. destruct n as [|n]; [congruence|]. clear NZ.
    assert (G : forall k l s, (forall i, In i l -> i < k) -> fst s < k -> fst (fold_left (fun s i => argmax_step v i s) l s) < k).
    { intros k l. induction l as [|i l IH]; intros s0 Hl Hs; cbn [fold_left]; auto. apply IH; [intros; apply Hl; right; auto|].
      unfold argmax_step. destruct ((i =? 0) || _); cbn [fst]; auto. apply Hl. left. reflexivity. }
    cbn [seq fold_left]. apply G; [intros i Hi; apply in_seq in Hi; lia|]. unfold argmax_step. cbn. lia.
  Qed.

  Definition res_len (n : nat) (r : results A) : Prop :=
    length (rs_inst r) = n /\ length (rs_instn r) = n /\ length (rs_sm r) = n /\ length (rs_smn r) = n /\ length (rs_log r) = n.
  (** Everything but the outputs. *)
  Definition res_core (r : results A) := (rs_inst r, rs_instn r, rs_sm r, rs_smn r, rs_log r, rs_likeliest r).

  Lemma fillx_eq : forall {X Y} n (f : nat -> res X) (h : X -> Y) (v w : list Y), length v = length w -> length v <= n ->
    iterM n (fun i d => let* x := f i in wr d i (h x)) v = iterM n (fun i d => let* x := f i in wr d i (h x)) w.
  Proof.
    intros X Y n f h v w L N.
    assert (G : forall d, iterM n (fun i d => let* x := f i in wr d i (h x)) d = iterM n (fun i d => let* y := (let* x := f i in Ok (h x)) in wr d i y) d).
    { intro d. apply iterM_ext. intros i s _. destruct (f i); reflexivity. }
    rewrite !G. apply fill_eq; auto.
  Qed.
  Lemma fillx_length : forall {X Y} n (f : nat -> res X) (h : X -> Y) v w, iterM n (fun i d => let* x := f i in wr d i (h x)) v = Ok w -> length w = length v.
  Proof.
    intros X Y n f h v w E. refine (iterM_inv_ok (fun _ d => length d = length v) _ _ _ w eq_refl _ E).
    intros j a b _ L G. apply bind_ok_inv in G. destruct G as (q & _ & G). rewrite (wr_length _ _ _ _ G). exact L.
  Qed.

  Lemma update_sim : forall labels insts logs (r s : results A), labels <> [] -> res_len (length labels) r -> res_len (length labels) s ->
    res_rel (fun p q => res_len (length labels) p /\ res_len (length labels) q /\ res_core p = res_core q /\
      rs_out p = rs_out r /\ rs_ocov p = rs_ocov r /\ rs_out q = rs_out s /\ rs_ocov q = rs_ocov s)
      (update_results labels insts logs r) (update_results labels insts logs s).
  Proof.
    intros labels insts logs r s NE (R1 & R2 & R3 & R4 & R5) (S1 & S2 & S3 & S4 & S5). unfold update_results. set (n := length labels) in *.
    rewrite (fill_eq n _ (rs_inst r) (rs_inst s)) by lia. apply rr_step. intros i Hi. apply fill_length in Hi.
    rewrite (fill_eq n _ (rs_log r) (rs_log s)) by lia. apply rr_step. intros lg Hl. apply fill_length in Hl.
    rewrite (fillx_eq n (rd logs) nexp (rs_sm r) (rs_sm s)) by lia. apply rr_step. intros sm Hs. apply fillx_length in Hs.
    rewrite (fillx_eq n (rd insts) (fun x => x / nsum n (fun i0 => nth i0 insts n0))%num (rs_instn r) (rs_instn s)) by lia. apply rr_step. intros instn Hn. apply (fillx_length n (rd insts) (fun x => x / nsum n (fun i0 => nth i0 insts n0))%num) in Hn.
    rewrite (fillx_eq n (rd logs) (fun x => nexp x / nsum n (fun i0 => nexp (nth i0 logs n0)))%num (rs_smn r) (rs_smn s)) by lia. apply rr_step. intros smn Hm. apply (fillx_length n (rd logs) (fun x => nexp x / nsum n (fun i0 => nexp (nth i0 logs n0)))%num) in Hm.
    constructor. unfold res_len, res_core. cbn [rs_inst rs_instn rs_sm rs_smn rs_log rs_likeliest rs_out rs_ocov]. repeat split; try lia.
    assert (B : fst (fold_left (fun s0 i0 => argmax_step logs i0 s0) (seq 0 n) (0, n0)) < n) by (apply best_in; destruct labels; [congruence|discriminate]).
    destruct (nth_error labels _) eqn:E; [reflexivity|]. apply nth_error_None in E. unfold n in *. lia.
  Qed.

  (** ** Models *)
  Definition msim0 (m k : gmm A) : Prop :=
    gm_bim m = gm_bim k /\ gm_dim m = gm_dim k /\ gm_din m = gm_din k /\ gm_est m = gm_est k /\ gm_cmode m = gm_cmode k /\ gm_models m <> [] /\
    Forall (fun e => gc_bim (snd e) = gm_bim m) (gm_models m).
  Definition msim (m k : gmm A) : Prop :=
    msim0 m k /\ Forall2 (entry gsim) (gm_models m) (gm_models k) /\ res_len (length (gm_models m)) (gm_res m) /\ res_len (length (gm_models m)) (gm_res k).

  Lemma likelihood_bim : forall x y (g a : gclass A), gm_likelihood x y g = Ok a -> gc_bim a = gc_bim g.
  Proof.
    intros x y g a H. unfold gm_likelihood in H. apply bind_ok_inv in H. destruct H as (b & _ & H). apply bind_ok_inv in H. destruct H as (b' & _ & H).
    apply bind_ok_inv in H. destruct H as ([q l] & _ & H). injection H as <-. reflexivity.
  Qed.
  Lemma regression_bim : forall x (g a : gclass A), gm_regression x g = Ok a -> gc_bim a = gc_bim g.
  Proof.
    intros x g a H. unfold gm_regression in H. apply bind_ok_inv in H. destruct H as (b & _ & H).
    apply bind_ok_inv in H. destruct H as ([q l] & _ & H). injection H as <-. reflexivity.
  Qed.
  Lemma filter1_bim : forall x (g a : gclass A), gm_filter1 x g = Ok a -> gc_bim a = gc_bim g.
  Proof.
    intros x g a H. unfold gm_filter1 in H. apply bind_ok_inv in H. destruct H as (b & H1 & H). apply likelihood_bim in H1. rewrite <- H1.
    destruct (gc_bim b) eqn:E; [apply regression_bim in H; congruence|injection H as <-; auto].
  Qed.

  Lemma rr_know : forall {X Y} (P : X -> Y -> Prop) m m', res_rel P m m' -> res_rel (fun a b => P a b /\ m = Ok a /\ m' = Ok b) m m'.
  Proof. intros X Y P m m' [a b H| |]; constructor; auto. Qed.

  Lemma filter_sim : forall x m k, msim m k -> res_rel (fun a b => msim a b /\ gmm_seen a = gmm_seen b) (gm_filter x m) (gm_filter x k).
  Proof.
    intros x m k ((B & D & DI & ES & CM & NE & FB) & FM & LM & LK). unfold gm_filter.
    eapply rr_bind.
    { apply rr_know. apply (rr_map (fun e f => entry gsim e f /\ gc_bim (snd e) = gm_bim m) (fun e f => entry (fun a b => gsim a b /\ class_seen a = class_seen b) e f /\ gc_bim (snd e) = gm_bim m)).
      - clear - FM FB. induction FM; inversion FB; subst; constructor; auto.
      - intros [l g] [l' h] [[E S] EB]. cbn [fst snd] in *. subst l'. eapply rr_bind; [apply rr_know; apply filter1_sim; exact S|].
        intros a b [H [Ha Hb]]. constructor. split; [split; [reflexivity|exact H]|]. cbn. rewrite (filter1_bim _ _ _ Ha). exact EB. }
    intros ms ms' (FS & Hms & _). cbn beta.
    assert (FE : Forall2 (entry (fun a b => gsim a b /\ class_seen a = class_seen b)) ms ms') by (eapply forall2_impl; [exact FS|]; cbn; tauto).
    assert (FB' : Forall (fun e => gc_bim (snd e) = gm_bim m) ms) by (clear - FS; induction FS; constructor; [apply H|auto]).
    assert (EL : map fst ms = map fst ms') by (eapply entry_labels; exact FE).
    assert (EI : map (fun e => gc_inst (snd e)) ms = map (fun e => gc_inst (snd e)) ms').
    { eapply entry_map; [exact FE|]. intros a b [_ H]. unfold class_seen in H. congruence. }
    assert (EG : map (fun e => gc_log (snd e)) ms = map (fun e => gc_log (snd e)) ms').
    { eapply entry_map; [exact FE|]. intros a b [_ H]. unfold class_seen in H. congruence. }
    rewrite EL, EI, EG. clear EI EG.
    assert (LMS : length (map fst ms') = length (gm_models m)).
    { rewrite <- EL, map_length. eapply mapM_length. exact Hms. }
    eapply rr_bind.
    { apply update_sim; try (rewrite LMS; assumption). intro Z. rewrite Z in LMS. cbn in LMS. destruct (gm_models m); [congruence|discriminate]. }
    rewrite LMS. intros r s (L1 & L2 & ER & _). cbn beta zeta.
    assert (LE : length ms = length (gm_models m)) by (eapply mapM_length; exact Hms).
    assert (NE' : ms <> []) by (intro Z; subst ms; cbn in LE; destruct (gm_models m); [congruence|discriminate]).
    cbn [gm_bim gm_set gm_est gm_dim gm_din gm_cmode]. rewrite B, D, DI, ES, CM.
    assert (GS : Forall2 (entry gsim) ms ms') by (eapply forall2_impl; [exact FE|]; intros e f [E [H _]]; split; auto).
    assert (CS : map (fun e => class_seen (snd e)) ms = map (fun e => class_seen (snd e)) ms') by (eapply entry_map; [exact FE|]; intros a b [_ H]; exact H).
    injection ER as Q1 Q2 Q3 Q4 Q5 Q6.
    assert (FIN : forall o v, res_rel (fun a b => msim a b /\ gmm_seen a = gmm_seen b)
      (Ok (gm_set ms (mkRes (rs_inst r) (rs_instn r) (rs_sm r) (rs_smn r) (rs_log r) (rs_likeliest r) o v) m))
      (Ok (gm_set ms' (mkRes (rs_inst s) (rs_instn s) (rs_sm s) (rs_smn s) (rs_log s) (rs_likeliest s) o v) k))).
    { intros o v. constructor. split.
      - unfold msim, msim0, res_len in *. cbn. rewrite LE. rewrite B in FB'. rewrite B. tauto.
      - unfold gmm_seen, results_seen. cbn. rewrite EL, CS, Q1, Q2, Q3, Q4, Q5, Q6, B. reflexivity. }
    destruct (gm_bim k) eqn:BK; cbn [negb].
    - apply rr_step. intros no _. destruct (gm_est k).
      +        pose proof (entry_get (fun a b => (gsim a b /\ class_seen a = class_seen b)) ms ms' (rs_likeliest s) FE) as G. rewrite Q6.
        destruct (mget String.eqb ms (rs_likeliest s)) as [a|] eqn:Ea, (mget String.eqb ms' (rs_likeliest s)) as [b|]; try tauto; try solve [constructor].
        destruct G as [_ G]. apply (mget_in _ String.eqb_eq) in Ea. rewrite Forall_forall in FB'. specialize (FB' _ Ea). cbn in FB'.
        unfold class_seen in G. assert (Hb : gc_bim b = true) by (destruct (gc_bim b), (gc_bim a); congruence). rewrite FB', B, Hb in G. injection G as _ _ -> ->. rewrite Q6 in FIN. apply FIN.
      + assert (EO : map (fun e => (gc_out (snd e), gc_ocov (snd e))) ms = map (fun e => (gc_out (snd e), gc_ocov (snd e))) ms').
        { clear - FS B. rewrite B in FS. induction FS as [|[l a] [l' b] ms ms' [[_ [_ E]] EB] _ IH]; cbn in *; auto. rewrite IH. f_equal. unfold class_seen in E. rewrite EB in E.
          destruct (gc_bim b); congruence. }
        rewrite EO, Q4. apply rr_step. intros [o c] _. rewrite Q4 in FIN. apply FIN.
    - constructor. split.
      + unfold msim, msim0, res_len in *. cbn. rewrite LE. rewrite B in FB'. rewrite B, BK. tauto.
      + unfold gmm_seen, results_seen. cbn. rewrite EL, CS, Q1, Q2, Q3, Q4, Q5, Q6, B, BK. reflexivity.
  Qed.

  Lemma reset_sim : forall m k, msim0 m k -> Forall2 (entry gsim0) (gm_models m) (gm_models k) ->
    Forall (fun e => one_channel (gc_buf (snd e))) (gm_models m) -> Forall (fun e => one_channel (gc_buf (snd e))) (gm_models k) ->
    res_rel msim (gm_reset m) (gm_reset k).
  Proof.
    intros m k M0 FM O1 O2. pose proof M0 as (B & D & DI & ES & CM & NE & FB). unfold gm_reset. rewrite B, D, DI.
    pose proof (forall2_length _ _ _ FM) as L.
    assert (FIN : forall p q : list T * list T, res_rel msim
      (let (o, c) := p in Ok (gm_set (map (fun e => (fst e, gm_reset1 (snd e))) (gm_models m))
        (mkRes (vresize (length (gm_models m)) n0 (rs_inst (gm_res m))) (vresize (length (gm_models m)) n0 (rs_instn (gm_res m))) (vresize (length (gm_models m)) n0 (rs_sm (gm_res m)))
          (vresize (length (gm_models m)) n0 (rs_smn (gm_res m))) (vresize (length (gm_models m)) n0 (rs_log (gm_res m))) (rs_likeliest (gm_res m)) o c) m))
      (let (o, c) := q in Ok (gm_set (map (fun e => (fst e, gm_reset1 (snd e))) (gm_models k))
        (mkRes (vresize (length (gm_models k)) n0 (rs_inst (gm_res k))) (vresize (length (gm_models k)) n0 (rs_instn (gm_res k))) (vresize (length (gm_models k)) n0 (rs_sm (gm_res k)))
          (vresize (length (gm_models k)) n0 (rs_smn (gm_res k))) (vresize (length (gm_models k)) n0 (rs_log (gm_res k))) (rs_likeliest (gm_res k)) o c) k))).
    { intros [o c] [o' c']. constructor. unfold msim, msim0, res_len. cbn -[vresize]. rewrite !vresize_length, map_length. repeat split; auto.
      - intro Z. apply map_eq_nil in Z. auto.
      - rewrite Forall_forall in *. intros e He. apply in_map_iff in He. destruct He as (e0 & <- & He). cbn. apply (FB e0 He).
      - clear - FM O1 O2. revert O1 O2. induction FM as [|[l g] [l' h] ms ks [E S] _ IH]; intros O1 O2; inversion O1; inversion O2; subst; cbn; constructor; auto.
        split; [exact E|]. cbn. apply reset1_sim; auto. }
    destruct (gm_bim k).
    - destruct (usub (gm_dim k) (gm_din k)) as [no| |]; cbn [bind]; [apply (FIN (_, _) (_, _))|constructor|constructor].
    - cbn [bind]. apply (FIN (_, _) (_, _)).
  Qed.

  Lemma filters_sim : forall xs m k, msim m k ->
    res_rel (fun a b => msim a b /\ (xs <> [] -> gmm_seen a = gmm_seen b)) (foldM (fun m x => gm_filter x m) xs m) (foldM (fun m x => gm_filter x m) xs k).
  Proof.
    induction xs as [|x xs IH]; intros m k S0; cbn.
    - constructor. split; [exact S0|]. congruence.
    - eapply rr_bind; [apply filter_sim; exact S0|]. intros a b [S1 E]. cbn beta in *. destruct xs as [|x' xs].
      + cbn. constructor. auto.
      + eapply rr_impl; [apply IH; exact S1|]. intros p q [S2 F]. split; [exact S2|]. intros _. apply F. discriminate.
  Qed.

  Lemma same_models : forall m k, msim0 m k -> Forall2 (entry gsim0) (gm_models m) (gm_models k) ->
    Forall (fun e => one_channel (gc_buf (snd e))) (gm_models m) -> Forall (fun e => one_channel (gc_buf (snd e))) (gm_models k) -> same_recognition m k.
  Proof.
    intros m k M0 FM O1 O2 xs NE. eapply shown_rel.
    - unfold gmm_recognise. eapply rr_bind; [apply reset_sim; eassumption|]. intros a b S. apply filters_sim. exact S.
    - intros a b [_ F]. auto.
  Qed.

  (** ** Copies *)
  Lemma copies_sim : forall u (ms : list (string * gclass A)), Forall (fun e => length (gc_beta (snd e)) = gc_n (snd e)) ms ->
    Forall2 (entry gsim0) ms (map (fun e => (fst e, gc_copy u (snd e))) ms).
  Proof. intros u ms F. induction F as [|[l g] ms H _ IH]; cbn; constructor; auto. split; [reflexivity|]. cbn in *. apply copy_sim. exact H. Qed.
  Lemma copies_channel : forall u (ms : list (string * gclass A)), Forall (fun e => one_channel (gc_buf (snd e))) (map (fun e => (fst e, gc_copy u (snd e))) ms).
  Proof. intros u ms. apply Forall_forall. intros e He. apply in_map_iff in He. destruct He as (e0 & <- & _). cbn. apply new_channel. Qed.

  Lemma gq_copy_same : forall u (m : gmodel A), ready_gmm m -> same_recognition (gq_view m) (gq_view (gq_copy u m)).
  Proof.
    intros u m (NE & F). apply same_models.
    - unfold msim0. cbn. repeat split; auto. eapply Forall_impl; [|exact F]. cbn. tauto.
    - cbn. apply copies_sim. eapply Forall_impl; [|exact F]. cbn. tauto.
    - cbn. eapply Forall_impl; [|exact F]. cbn. tauto.
    - cbn. apply copies_channel.
  Qed.
  Lemma gq_assign_same : forall u (d m : gmodel A), ready_gmm m -> same_recognition (gq_view m) (gq_view (gq_assign u d m)).
  Proof.
    intros u d m (NE & F). apply same_models.
    - unfold msim0. cbn. repeat split; auto. eapply Forall_impl; [|exact F]. cbn. tauto.
    - cbn. apply copies_sim. eapply Forall_impl; [|exact F]. cbn. tauto.
    - cbn. eapply Forall_impl; [|exact F]. cbn. tauto.
    - cbn. apply copies_channel.
  Qed.

  (** ** Saved and loaded *)
  Lemma load_models_ok : forall {X} (cv : conv A) (load : J -> res (string * X)) js es pre,
    Forall2 (fun e j => jmember j "label" = Ok (JStr (fst e)) /\ load j = Ok e) es js -> label_sorted (pre ++ es) ->
    load_models cv load js pre = Ok (pre ++ es).
  Proof.
    intros X cv load js es pre H. revert pre. induction H as [|[k x] j es js [H1 H2] _ IH]; intros pre S; cbn [load_models]; [rewrite app_nil_r; reflexivity|].
    rewrite H1. cbn [bind as_string fst]. rewrite H2. cbn [bind].
    assert (Sm : StronglySorted (fun a b => String.ltb a b = true) (map fst pre) /\ forall y, In y (map fst pre) -> String.ltb y k = true).
    { unfold label_sorted in S. rewrite map_app in S. cbn [map fst] in S. clear - S. induction (map fst pre) as [|y l IHl]; [split; [constructor|intros ? []]|].
      cbn in S. inversion S; subst. destruct (IHl H1) as [S1 S2]. rewrite Forall_forall in H2. split.
      - constructor; auto. apply Forall_forall. intros z Hz. apply H2. apply in_or_app. auto.
      - intros z [<-|Hz]; [|auto]. apply H2. apply in_or_app. right. left. reflexivity. }
    destruct Sm as [S1 S2].
    assert (N : mget String.eqb pre k = None).
    { destruct (mget String.eqb pre k) eqn:G; [|reflexivity]. apply (mget_in _ String.eqb_eq) in G.
      assert (L : String.ltb k k = true) by (apply S2; apply in_map_iff; exists (k, x0); auto). rewrite str_ltb_irrefl in L. discriminate. }
    unfold minsert. rewrite N. rewrite (mput_last _ _ String.eqb_eq str_ltb_trans str_ltb_irrefl) by auto.
    rewrite IH; rewrite <- app_assoc; [reflexivity|exact S].
  Qed.

  Lemma load_models_fails : forall {X} (cv : conv A) (load : J -> res (string * X)) er js (es : list string) pre,
    Forall2 (fun l j => jmember j "label" = Ok (JStr l) /\ ((exists e, load j = Ok e) \/ load j = Throw er)) es js ->
    Exists (fun j => load j = Throw er) js ->
    load_models cv load js pre = Throw er.
  Proof.
    intros X cv load er js es pre H. revert pre. induction H as [|l j es js [H1 H2] _ IH]; intros pre EX; [inversion EX|]. cbn [load_models].
    rewrite H1. cbn [bind as_string]. destruct H2 as [([k x] & H2)|H2]; rewrite H2; cbn [bind]; auto.
    apply IH. inversion EX; subst; auto. congruence.
  Qed.

  Lemma gq_trip : forall u (cv : conv A) (m : gmodel A), trained_gmm cv m -> Forall (fun e => loadable (snd e)) (gq_cls m) ->
    exists j t, gq_toJson m = Ok j /\ gq_ofJson u cv j = Ok t /\ gq_res t = empty_results /\
      sp_bim (gq_sp t) = sp_bim (gq_sp m) /\ sp_dim (gq_sp t) = sp_dim (gq_sp m) /\ sp_din (gq_sp t) = sp_din (gq_sp m) /\
      cf_est (gq_cf t) = cf_est (gq_cf m) /\ gp_mode (cf_def (gq_cf t)) = gp_mode (cf_def (gq_cf m)) /\
      Forall2 (entry (fun g h => gsim0 g h /\ gc_buf h = ring_new n0 1 1)) (gq_cls m) (gq_cls t).
  Proof.
    intros u cv m (ST & PC & CO & NE & SO & FT) FL.
    destruct (sp_trip cv 0 (gq_sp m) (sp_new 0) ST PC) as (js & J1 & J2).
    assert (FG : Forall (fun e => exists j h, gc_toJson (fst e) (snd e) = Ok j /\ jmember j "label" = Ok (JStr (fst e)) /\
      gc_ofJson u cv (sp_bim (gq_sp m)) (sp_dim (gq_sp m)) (sp_din (gq_sp m)) (sp_win (gq_sp m)) j = Ok (fst e, h) /\ gsim0 (snd e) h /\ gc_buf h = ring_new n0 1 1) (gq_cls m)).
    { apply Forall_forall. intros e He. rewrite Forall_forall in FT, FL. destruct (FT e He) as (TR & <- & <- & <- & <-).
      destruct (gc_trip u cv (fst e) (snd e) TR (FL e He)) as (j & h & G1 & G2 & G3 & G4 & G5 & _). exists j, h. auto. }
    clear FT FL.
    assert (GG : exists gs es, Forall2 (fun e j => gc_toJson (fst e) (snd e) = Ok j) (gq_cls m) gs /\
      Forall2 (fun e j => jmember j "label" = Ok (JStr (fst e)) /\ gc_ofJson u cv (sp_bim (gq_sp m)) (sp_dim (gq_sp m)) (sp_din (gq_sp m)) (sp_win (gq_sp m)) j = Ok e) es gs /\
      Forall2 (entry (fun g h => gsim0 g h /\ gc_buf h = ring_new n0 1 1)) (gq_cls m) es).
    { clear - FG. induction FG as [|e ms (j & h & G1 & G2 & G3 & G4) _ (gs & es & I1 & I2 & I3)]; [exists [], []; auto|].
      exists (j :: gs), ((fst e, h) :: es). repeat split; constructor; cbn; auto. split; auto. }
    destruct GG as (gs & es & G1 & G2 & G3).
    unfold gq_toJson, models_toJson. rewrite J1. cbn [bind]. rewrite (array_ok (fun e => gc_toJson (fst e) (snd e)) _ _ G1). cbn [bind].
    eexists. eexists. split; [reflexivity|].
    unfold gq_ofJson. cbn [jmember lookup String.eqb Ascii.eqb Bool.eqb bind]. rewrite J2. cbn [run_load snd fst bind]. rewrite gmm_config_trip by exact CO. cbn [run_load snd fst bind jitems].
    cbn [sp_bim sp_dim sp_din sp_win sp_reloaded]. rewrite (load_models_ok cv _ _ _ [] G2) by (unfold label_sorted in *; cbn; rewrite <- (entry_labels _ _ _ G3); exact SO).
    cbn [bind app]. split; [reflexivity|]. cbn. auto 10.
  Qed.

  Lemma gq_fails : forall u (cv : conv A) (m : gmodel A), trained_gmm cv m -> Exists (fun e => ~ loadable (snd e)) (gq_cls m) ->
    exists j, gq_toJson m = Ok j /\ gq_ofJson u cv j = Throw JsonValueError.
  Proof.
    intros u cv m (ST & PC & CO & NE & SO & FT) EX.
    destruct (sp_trip cv 0 (gq_sp m) (sp_new 0) ST PC) as (js & J1 & J2).
    set (load := gc_ofJson u cv (sp_bim (gq_sp m)) (sp_dim (gq_sp m)) (sp_din (gq_sp m)) (sp_win (gq_sp m))).
    assert (FG : Forall (fun e => exists j, gc_toJson (fst e) (snd e) = Ok j /\ jmember j "label" = Ok (JStr (fst e)) /\
      ((exists e, load j = Ok e) \/ load j = Throw JsonValueError) /\ (~ loadable (snd e) -> load j = Throw JsonValueError)) (gq_cls m)).
    { apply Forall_forall. intros e He. rewrite Forall_forall in FT. destruct (FT e He) as (TR & E1 & E2 & E3 & E4). unfold load. rewrite <- E1, <- E2, <- E3, <- E4.
      assert (DL : loadable (snd e) \/ ~ loadable (snd e)).
      { unfold loadable. destruct (gc_mode (snd e)); [auto|]. destruct (Nat.eq_dec (gc_dim (snd e)) 1); [auto|]. right. intros [Z|Z]; [discriminate|auto]. }
      destruct DL as [DL|DL].
      - destruct (gc_trip u cv (fst e) (snd e) TR DL) as (j & h & G1 & G2 & G3 & _). exists j. repeat split; eauto. tauto.
      - destruct (gc_fails u cv (fst e) (snd e) TR DL) as (j & G1 & G2 & G3). exists j. repeat split; eauto. }
    assert (GG : exists gs, Forall2 (fun e j => gc_toJson (fst e) (snd e) = Ok j) (gq_cls m) gs /\
      Forall2 (fun l j => jmember j "label" = Ok (JStr l) /\ ((exists e, load j = Ok e) \/ load j = Throw JsonValueError)) (map fst (gq_cls m)) gs /\
      Exists (fun j => load j = Throw JsonValueError) gs).
    { revert EX. clear - FG. induction FG as [|e ms (j & G1 & G2 & G3 & G4) FG IH]; intros EX; [inversion EX|].
      destruct (forall_exists2 _ _ FG) as (gs & FF).
      inversion EX as [? ? X1|? ? X1]; subst.
      - exists (j :: gs). repeat split; [constructor; auto; eapply forall2_impl; [exact FF|]; cbn; tauto| |left; auto].
        cbn. constructor; auto. clear - FF. induction FF; cbn; constructor; auto. tauto.
      - destruct (IH X1) as (gs' & I1 & I2 & I3). exists (j :: gs'). repeat split; [constructor; auto|cbn; constructor; auto|right; auto]. }
    destruct GG as (gs & G1 & G2 & G3).
    unfold gq_toJson, models_toJson. rewrite J1. cbn [bind]. rewrite (array_ok (fun e => gc_toJson (fst e) (snd e)) _ _ G1). cbn [bind].
    eexists. split; [reflexivity|].
    unfold gq_ofJson. cbn [jmember lookup String.eqb Ascii.eqb Bool.eqb bind]. rewrite J2. cbn [run_load snd fst bind]. rewrite gmm_config_trip by exact CO. cbn [run_load snd fst bind jitems].
    cbn [sp_bim sp_dim sp_din sp_win sp_reloaded]. fold load. rewrite (load_models_fails cv load _ _ _ [] G2 G3). reflexivity.
  Qed.

  Lemma gq_loaded_same : forall u (cv : conv A) (m : gmodel A), trained_gmm cv m -> Forall (fun e => loadable (snd e)) (gq_cls m) ->
    exists j t, gq_toJson m = Ok j /\ gq_ofJson u cv j = Ok t /\ same_recognition (gq_view m) (gq_view t) /\
      forall m0, exists t0, gq_fromJson u cv j m0 = (t0, Ok tt) /\ same_recognition (gq_view m) (gq_view t0).
  Proof.
    intros u cv m TR FL. destruct (gq_trip u cv m TR FL) as (j & t & J1 & J2 & ER & E1 & E2 & E3 & E4 & E5 & FE). exists j, t.
    destruct TR as (ST & PC & CO & NE & SO & FT).
    assert (FB : Forall (fun e => gc_bim (snd e) = sp_bim (gq_sp m)) (gq_cls m)).
    { eapply Forall_impl; [|exact FT]. intros e (_ & H & _). exact H. }
    assert (FO : Forall (fun e => one_channel (gc_buf (snd e))) (gq_cls m)).
    { eapply Forall_impl; [|exact FT]. intros e ((_ & _ & _ & _ & _ & _ & _ & H) & _). exact H. }
    assert (M0 : forall q, Forall2 (entry gsim0) (gq_cls m) (gq_cls q) -> Forall (fun e => one_channel (gc_buf (snd e))) (gq_cls q) ->
      sp_bim (gq_sp q) = sp_bim (gq_sp m) -> sp_dim (gq_sp q) = sp_dim (gq_sp m) -> sp_din (gq_sp q) = sp_din (gq_sp m) ->
      cf_est (gq_cf q) = cf_est (gq_cf m) -> gp_mode (cf_def (gq_cf q)) = gp_mode (cf_def (gq_cf m)) -> same_recognition (gq_view m) (gq_view q)).
    { intros q F1 F2 Q1 Q2 Q3 Q4 Q5. apply same_models; auto. unfold msim0. cbn. rewrite Q1, Q2, Q3, Q4, Q5. auto 10. }
    split; [exact J1|]. split; [exact J2|]. split.
    - apply M0; auto.
      + eapply forall2_impl; [exact FE|]. intros a b [X [Y _]]. split; auto.
      + clear - FE. induction FE as [|[l g] [l' h] ? ? [_ [_ E]] _ IH]; constructor; auto. cbn in *. rewrite E. apply new_channel.
    - intro m0. unfold gq_fromJson. rewrite J2. eexists. split; [reflexivity|]. apply M0; cbn; auto.
      + clear - FE. induction FE as [|[l g] [l' h] ? ? [E1 [E2 _]] _ IH]; cbn in *; constructor; auto. split; [exact E1|]. cbn. eapply gsim0_trans; [exact E2|]. apply copy_sim. apply E2.
      + apply copies_channel.
  Qed.

  (** ** Without a reset *)
  Lemma smooth_new : forall v : T, exists p, smooth (ring_new n0 1 1) v = Ok p.
  Proof. intro v. eexists. reflexivity. Qed.

  Lemma buf_free : forall x (h a : gclass A) r i l, gm_filter1 x (gc_set_buf r i l h) = Ok a -> gc_buf h = ring_new n0 1 1 -> exists b, gm_filter1 x h = Ok b.
  Proof.
    intros x [bim dim din win par coef comp beta reg buf inst lg out ocov] a r i l H EB. cbn in EB. subst buf. unfold gm_filter1, gm_likelihood, gm_regression in *.
    apply bind_ok_inv in H. destruct H as (g1 & H & H2). apply bind_ok_inv in H. destruct H as (b & Hb & H). apply bind_ok_inv in H. destruct H as (b' & Hb' & H).
    apply bind_ok_inv in H. destruct H as ([q y] & _ & H). injection H as <-. cbn in Hb, Hb', H2.
    unfold gm_obs, gm_obs_input, gm_obs_bim, gc_n, gc_mode in *. cbn in Hb, Hb', H2 |- *. rewrite Hb. cbn. rewrite Hb'. cbn.
    destruct bim; [|eauto]. apply bind_ok_inv in H2. destruct H2 as (no & -> & H2). cbn. apply bind_ok_inv in H2. destruct H2 as ([o v] & -> & _). cbn. eauto.
  Qed.

  Lemma filter_unready : forall x (m : gmm A) ms, gm_models m <> [] -> rs_inst (gm_res m) = [] ->
    mapM (fun e => let* g := gm_filter1 x (snd e) in Ok (fst e, g)) (gm_models m) = Ok ms -> gm_filter x m = UB.
  Proof.
    intros x m ms NE ER H. unfold gm_filter. rewrite H. cbn [bind]. apply mapM_length in H. unfold update_results. rewrite map_length, H, ER.
    destruct ms as [|e ms]; [destruct (gm_models m); [congruence|discriminate]|]. destruct (length (gm_models m)) as [|n]; [discriminate|].
    assert (G : forall n (f : nat -> list T -> res (list T)), f 0 [] = UB -> iterM (S n) f [] = UB).
    { clear. intros n f H. induction n as [|n IH]; cbn [iterM bind] in *; [exact H|rewrite IH; reflexivity]. }
    rewrite G; [reflexivity|]. reflexivity.
  Qed.

  Lemma gq_unready : forall u (cv : conv A) (m : gmodel A) j t x m', trained_gmm cv m -> Forall (fun e => loadable (snd e)) (gq_cls m) ->
    gq_toJson m = Ok j -> gq_ofJson u cv j = Ok t -> gmm_recognise [x] (gq_view m) = Ok m' -> gm_filter x (gq_view t) = UB.
  Proof.
    intros u cv m j t x m' TR FL H1 H2 R. destruct (gq_trip u cv m TR FL) as (j' & t' & J1 & J2 & ER & _ & _ & _ & _ & _ & FE).
    assert (j' = j) by congruence. subst j'. assert (t' = t) by congruence. subst t'.
    destruct TR as (_ & _ & _ & NE & _ & FT).
    assert (FO : Forall (fun e => one_channel (gc_buf (snd e))) (gq_cls m)).
    { eapply Forall_impl; [|exact FT]. intros e ((_ & _ & _ & _ & _ & _ & _ & H) & _). exact H. }
    unfold gmm_recognise in R. apply bind_ok_inv in R. destruct R as (r & R & F). cbn [foldM] in F. apply bind_ok_inv in F. destruct F as (f & F & _).
    assert (EM : gm_models r = map (fun e => (fst e, gm_reset1 (snd e))) (gq_cls m)).
    { unfold gm_reset in R. apply bind_ok_inv in R. destruct R as ([o c] & _ & R). injection R as <-. reflexivity. }
    unfold gm_filter in F. apply bind_ok_inv in F. destruct F as (ms & F & _). rewrite EM in F. clear EM R.
    assert (G : exists ms', mapM (fun e => let* g := gm_filter1 x (snd e) in Ok (fst e, g)) (gm_models (gq_view t)) = Ok ms').
    { cbn. clear - FE F FO. revert ms F FO. induction FE as [|[l g] [l' h] gs hs [E [S B]] _ IH]; intros ms F FO; [cbn; eauto|].
      inversion FO; subst. cbn in *. apply bind_ok_inv in F. destruct F as (e & F1 & F). apply bind_ok_inv in F. destruct F as (es & F2 & F).
      apply bind_ok_inv in F1. destruct F1 as (a & F1 & _). destruct (IH es F2) as (ms' & ->); auto.
      assert (GS : gsim (gm_reset1 g) (gm_reset1 h)) by (apply reset1_sim; auto; rewrite B; apply new_channel).
      pose proof (filter1_sim x _ _ GS) as RR. rewrite F1 in RR. inversion RR as [a' b HR E1 E2| |]; subst.
      symmetry in E2. unfold gm_reset1 in E2. destruct (buf_free _ _ _ _ _ _ E2 B) as (b' & ->). cbn. eauto. }
    destruct G as (ms' & G). eapply filter_unready; [| |exact G].
    - cbn. intro Z. rewrite Z in FE. inversion FE. auto.
    - cbn. rewrite ER. reflexivity.
  Qed.
End Model.
