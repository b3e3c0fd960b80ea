(** Statistics and normalisation of training sets, over the reals. *)
From Coq Require Import String List Bool Arith Lia ZArith Reals Lra.
From Verif Require Import Base BaseFacts Arith RFacts Model_Attribute Model_Events Model_Json Model_Phrase Model_TrainingSet.
From Verif Require Import Spec_Phrase Spec_TrainingSet Proofs_Json Proofs_Phrase Proofs_Phrase2 Proofs_Phrase3 Proofs_Phrase4 Proofs_PhraseStats.
From Verif Require Import Proofs_TrainingSet7.
Import ListNotations.
Local Open Scope nat_scope.

Local Notation phrase := (phrase (A:=RA)).

Lemma ts_sum_ok : forall (f : phrase -> nat -> res (num RA)) (g : contents RA -> nat -> R) ps ss,
  Forall2 rep ps ss ->
  (forall p s t, rep p s -> In s ss -> t < spec_size s -> f p t = Ok (g s t)) ->
  ts_sum ps f = Ok (Rlsum (flat_map (fun s => tab (spec_size s) (g s)) ss)).
Proof.
  intros f g ps ss HF H. unfold ts_sum.
  assert (G : forall acc : R, foldM (fun s p => iterM (p_len p) (fun t s => let* x := f p t in Ok (nadd s x)) s) ps acc
    = Ok (acc + Rlsum (flat_map (fun s => tab (spec_size s) (g s)) ss))%R).
  { induction HF as [|p s ps ss HR HF IH]; intro acc; cbn [foldM flat_map].
    - f_equal. unfold Rlsum. simpl. lra.
    - assert (E : forall n, n <= spec_size s -> iterM n (fun t s => let* x := f p t in Ok (nadd s x)) acc = Ok (acc + Rsum n (g s))%R).
      { induction n; intro Hn; cbn [iterM Rsum].
        - f_equal. lra.
        - rewrite IHn by lia. cbn [bind]. rewrite (H p s n) by (simpl; auto; lia). cbn [bind]. f_equal. cbn [nadd RA]. lra. }
      assert (El : p_len p = spec_size s) by apply HR. rewrite El. rewrite E by lia. cbn [bind].
      rewrite IH by (intros; apply H; simpl; auto).
      rewrite Rlsum_app, Rlsum_tab. f_equal. lra. }
  specialize (G 0%R). rewrite n0_RA. etransitivity; [exact G|]. f_equal. lra.
Qed.

Lemma ts_total_ok : forall (ps : list phrase) ss, Forall2 rep ps ss -> ts_total ps = length (all_frames ss).
Proof.
  intros ps ss HF. unfold ts_total, all_frames.
  assert (G : forall acc, fold_left (fun n p => n + p_len p) ps acc = acc + length (flat_map frames_of ss)).
  { induction HF as [|p s ps ss HR HF IH]; intro acc; cbn [fold_left flat_map]; [simpl; lia|].
    rewrite IH, app_length, frames_length. assert (El : p_len p = spec_size s) by apply HR. lia. }
  apply (G 0).
Qed.

Lemma column_flat : forall (ss : list (contents RA)) d, column (all_frames ss) d = flat_map (fun s : contents RA => column (frames_of s) d) ss.
Proof.
  intros ss d. unfold all_frames, column. induction ss; simpl; auto. rewrite map_app. f_equal. auto.
Qed.

Lemma column_tab : forall (s : contents RA) d, tab (spec_size s) (fun t => nth d (nth t (frames_of s) []) 0%R) = column (frames_of s) d.
Proof.
  intros s d. rewrite <- frames_length. unfold column.
  rewrite <- (tab_nth_self (map (fun x => nth d x 0%R) (frames_of s)) 0%R). rewrite map_length.
  apply tab_ext. intros i Hi. symmetry. apply (column_nth (frames_of s) d i Hi).
Qed.

Lemma ts_mean_ok : forall dim (ps : list phrase) ss, Forall2 rep ps ss -> (forall s, In s ss -> s_dim s = dim) ->
  ts_mean dim ps = Ok (tab dim (fun d => Rmean (column (all_frames ss) d))).
Proof.
  intros dim ps ss HF Hd. unfold ts_mean. apply tabM_ok. intros d Hlt.
  rewrite (ts_sum_ok _ (fun s t => nth d (nth t (frames_of s) []) 0%R) ps ss HF).
  - cbn [bind]. f_equal. unfold Rmean. rewrite (ts_total_ok ps ss HF), nN_RA, column_length.
    cbn [ndiv RA]. f_equal. rewrite column_flat. f_equal. apply flat_map_ext. intro s. apply column_tab.
  - intros p s t HR Hs Ht. apply value_frames; auto. rewrite Hd; auto.
Qed.

Lemma ts_stddev_ok : forall dim (ps : list phrase) ss, Forall2 rep ps ss -> (forall s, In s ss -> s_dim s = dim) ->
  ts_stddev dim ps = Ok (tab dim (fun d => sqrt (Rvar (column (all_frames ss) d)))).
Proof.
  intros dim ps ss HF Hd. unfold ts_stddev. rewrite (ts_mean_ok dim ps ss HF Hd). cbn [bind]. apply tabM_ok. intros d Hlt.
  set (m := Rmean (column (all_frames ss) d)).
  rewrite (ts_sum_ok _ (fun s t => ((nth d (nth t (frames_of s) []) 0 - m) * (nth d (nth t (frames_of s) []) 0 - m))%R) ps ss HF).
  - cbn [bind]. f_equal. unfold Rvar. rewrite (ts_total_ok ps ss HF), nN_RA, column_length.
    cbn [nsqrt ndiv RA]. f_equal. f_equal. fold m. rewrite column_flat. f_equal. clearbody m. clear.
    induction ss as [|s ss IH]; cbn [flat_map]; auto. rewrite map_app. f_equal; auto.
    rewrite <- (column_tab s d). unfold tab. rewrite map_map. reflexivity.

  - intros p s t HR Hs Ht. rewrite (value_frames p s) by (auto; rewrite Hd; auto). cbn [bind].
    change (num RA) with R in *.
    rewrite (rd_ok _ d 0%R) by (rewrite tab_length; auto). cbn [bind]. rewrite nth_tab by auto. reflexivity.
Qed.

(** Minimum and maximum. *)
Lemma fold_minmax : forall n (v : nat -> R) (g : nat -> res (num RA)) lo hi,
  (forall t, t < n -> g t = Ok (v t)) ->
  exists lo' hi', iterM n (fun t mm => let* x := g t in
      Ok (std_min x (fst mm), std_max x (snd mm))) (lo, hi) = Ok (lo', hi') /\
    (lo' <= lo)%R /\ (hi <= hi')%R /\
    (forall t, t < n -> (lo' <= v t <= hi')%R) /\
    (lo' = lo \/ exists t, t < n /\ v t = lo') /\ (hi' = hi \/ exists t, t < n /\ v t = hi').
Proof.
  induction n; intros v g lo hi Hg.
  - exists lo, hi. split; [reflexivity|]. repeat split; auto; try lra; lia.
  - destruct (IHn v g lo hi) as (l1 & h1 & E & H1 & H2 & H3 & H4 & H5); [intros; apply Hg; lia|].
    cbn [iterM]. rewrite E. cbn [bind]. rewrite Hg by lia. cbn [bind fst snd].
    eexists _, _. split; [reflexivity|]. unfold std_min, std_max. cbn [nltb RA]. change (num RA) with R in *.
    assert (Ln : n < S n) by lia.
    destruct (Rlt_dec l1 (v n)) as [a|a], (Rlt_dec (v n) h1) as [b|b];
      (split; [lra|]); (split; [lra|]); (split; [intros t Ht; destruct (Nat.eq_dec t n) as [->|]; [lra|assert (Ht' : t < n) by lia; specialize (H3 t Ht'); lra]|]);
      split; try (right; exists n; split; [exact Ln|reflexivity]);
      try (destruct H4 as [->|(t & Ht & Et)]; [left; reflexivity|right; exists t; split; [lia|exact Et]]);
      try (destruct H5 as [->|(t & Ht & Et)]; [left; reflexivity|right; exists t; split; [lia|exact Et]]).
Qed.

Definition dim_values (s : contents RA) (d : nat) : list R :=
  if s_bim s then if d <? s_din s then column (s_in s) d else column (s_out s) (d - s_din s) else column (s_in s) d.

Lemma value_dim : forall (p : phrase) (s : contents RA) d t, rep p s -> d < s_dim s -> t < length (dim_values s d) ->
  getValue p t d = Ok (nth t (dim_values s d) 0%R).
Proof.
  intros p s d t HR Hd Ht. pose proof (rep_shows _ _ HR) as (_ & _ & _ & _ & _ & _ & HV). rewrite HV. clear HV.
  unfold spec_value, dim_values in *. rewrite (proj2 (Nat.leb_gt _ _)) by lia.
  destruct HR as (_ & _ & _ & _ & _ & _ & _ & _ & Hdt).
  assert (G : forall (fr : list (list R)) n e, Forall (fun x => length x = n) fr -> e < n -> t < length (column fr e) ->
    match match nth_error fr t with Some x => nth_error x e | None => None end with Some x => Ok x | None => Throw OutOfRange end
    = Ok (nth t (column fr e) 0%R)).
  { intros fr n e HF He Hte. rewrite column_length in Hte. rewrite column_nth by auto.
    destruct (nth_error fr t) as [x|] eqn:Ex; [|apply nth_error_None in Ex; lia].
    rewrite Forall_forall in HF. pose proof (HF x (nth_error_In _ _ Ex)) as Hx.
    rewrite (nth_error_nth _ _ [] Ex). rewrite (nth_error_nth' x 0%R) by lia. reflexivity. }
  destruct (s_bim s).
  - destruct Hdt as (_ & _ & Hle & _ & (F0 & _) & (F1 & _)). destruct (Nat.ltb_spec d (s_din s)).
    + eapply G; eauto.
    + eapply G; eauto. lia.
  - destruct Hdt as ((F0 & _) & _). eapply G; eauto.
Qed.

Lemma ts_minmax_ok : forall bim dim din (ps : list phrase) ss, Forall2 rep ps ss ->
  (forall s, In s ss -> s_bim s = bim /\ s_dim s = dim /\ (bim = true -> s_din s = din)) ->
  (forall d, d < dim -> all_values ss d <> []) ->
  (forall d x, d < dim -> In x (all_values ss d) -> (- @flt_max RA <= x <= @flt_max RA)%R) ->
  exists mm, ts_minmax bim dim din ps = Ok mm /\ length mm = dim /\
    forall d, d < dim ->
      is_min (all_values ss d) (fst (nth d mm (0%R, 0%R))) /\
      is_max (all_values ss d) (snd (nth d mm (0%R, 0%R))).
Proof.
  intros bim dim din ps ss HF Hd Hne Hb.
  assert (G : forall d, d < dim -> exists lo hi,
    foldM (fun mm p => iterM (if bim then if d <? din then p_ilen p else p_olen p else p_len p) (fun t mm =>
          let* x := getValue p t d in Ok (std_min x (fst mm), std_max x (snd mm))) mm) ps (flt_max, nopp flt_max) = Ok (lo, hi) /\
    is_min (all_values ss d) lo /\ is_max (all_values ss d) hi).
  { intros d Hlt. specialize (Hne d Hlt). assert (Hb' := fun x => Hb d x Hlt). clear Hb.
    assert (G : forall (l0 h0 : R), exists lo hi, foldM (fun mm p => iterM (if bim then if d <? din then p_ilen p else p_olen p else p_len p) (fun t mm =>
          let* x := getValue p t d in Ok (std_min x (fst mm), std_max x (snd mm))) mm) ps (l0, h0) = Ok (lo, hi) /\
          (lo <= l0)%R /\ (h0 <= hi)%R /\ (forall x, In x (all_values ss d) -> (lo <= x <= hi)%R) /\
          (lo = l0 \/ In lo (all_values ss d)) /\ (hi = h0 \/ In hi (all_values ss d))).
    { clear Hne Hb'. induction HF as [|p s ps ss HR HF IH]; intros l0 h0; cbn [foldM].
      - exists l0, h0. split; [reflexivity|]. repeat split; auto; try lra; contradiction.
      - destruct (Hd s (or_introl eq_refl)) as (Eb & Ed & Ei).
        assert (Elen : (if bim then if d <? din then p_ilen p else p_olen p else p_len p) = length (dim_values s d)).
        { unfold dim_values. pose proof (rep_shows _ _ HR) as (_ & _ & _ & _ & Hl & Hio & _). rewrite Eb in *.
          destruct bim.
          - destruct (Hio eq_refl) as (-> & ->). rewrite (Ei eq_refl). destruct (d <? din); rewrite column_length; auto.
          - rewrite column_length, Hl. unfold spec_size. rewrite Eb. auto. }
        destruct (fold_minmax (length (dim_values s d)) (fun t => nth t (dim_values s d) 0%R) (fun t => getValue p t d) l0 h0)
          as (l1 & h1 & E & A1 & A2 & A3 & A4 & A5).
        { intros t Ht. apply value_dim; auto. rewrite Ed. auto. }
        rewrite Elen. cbn [flat_map]. change (num RA) with R in *. rewrite E. cbn [bind].
        destruct (IH (fun s' H => Hd s' (or_intror H)) l1 h1) as (lo & hi & E' & B1 & B2 & B3 & B4 & B5).
        exists lo, hi. split; [exact E'|]. split; [lra|]. split; [lra|].
        assert (Ein : forall x, In x (all_values (s :: ss) d) <-> In x (dim_values s d) \/ In x (all_values ss d)).
        { intro x. unfold all_values. cbn [flat_map]. rewrite in_app_iff. reflexivity. }
        assert (In1 : forall x, In x (dim_values s d) -> (l1 <= x <= h1)%R).
        { intros x Hx. apply (In_nth _ _ 0%R) in Hx. destruct Hx as (t & Ht & <-). apply A3. auto. }
        split; [|split].
        + intros x Hx. apply Ein in Hx. destruct Hx as [Hx|Hx]; [apply In1 in Hx; lra|auto].
        + destruct B4 as [->|B4]; [|right; apply Ein; auto].
          destruct A4 as [->|(t & Ht & <-)]; [auto|]. right. apply Ein. left. apply nth_In. auto.
        + destruct B5 as [->|B5]; [|right; apply Ein; auto].
          destruct A5 as [->|(t & Ht & <-)]; [auto|]. right. apply Ein. left. apply nth_In. auto. }
    destruct (G (@flt_max RA) (- @flt_max RA)%R) as (lo & hi & E & _ & _ & H3 & H4 & H5).
    exists lo, hi. split; [exact E|].
    destruct (all_values ss d) as [|x0 vs] eqn:Ev; [congruence|].
    pose proof (Hb' x0 (or_introl eq_refl)) as Hx0. pose proof (H3 x0 (or_introl eq_refl)) as Hx1.
    split; split; try (intros x Hx; apply H3; exact Hx).
    - destruct H4 as [->|H4]; auto. assert (x0 = @flt_max RA) as -> by (change (num RA) with R in *; lra). left. reflexivity.
    - destruct H5 as [->|H5]; auto. assert (x0 = (- @flt_max RA)%R) as -> by (change (num RA) with R in *; lra). left. reflexivity. }
  unfold ts_minmax.
  assert (H : exists mm : list (R * R), length mm = dim /\ forall d, d < dim ->
    foldM (fun mm p => iterM (if bim then if d <? din then p_ilen p else p_olen p else p_len p) (fun t mm =>
          let* x := getValue p t d in Ok (std_min x (fst mm), std_max x (snd mm))) mm) ps (flt_max, nopp flt_max) = Ok (nth d mm (0%R, 0%R)) /\
    is_min (all_values ss d) (fst (nth d mm (0%R, 0%R))) /\ is_max (all_values ss d) (snd (nth d mm (0%R, 0%R)))).
  { clear Hne Hb Hd. induction dim as [|dim IH].
    - exists []. split; auto. lia.
    - destruct IH as (mm & L & H); [intros; apply G; lia|]. destruct (G dim) as (lo & hi & E & H1 & H2); [lia|].
      exists (mm ++ [(lo, hi)]). split; [rewrite app_length; simpl; lia|]. intros d Hlt.
      destruct (Nat.eq_dec d dim) as [->|N].
      + rewrite app_nth2 by lia. rewrite L, Nat.sub_diag. cbn [nth fst snd]. auto.
      + rewrite app_nth1 by lia. apply H. lia. }
  destruct H as (mm & L & H). exists mm. split; [|split; [exact L|intros d Hlt; apply H; auto]].
  rewrite (tabM_ok dim _ (fun d => nth d mm (0%R, 0%R))); [|intros d Hlt; apply H; auto].
  rewrite <- L. apply (f_equal (@Ok (list (R * R)))). exact (tab_nth_self mm (0%R, 0%R)).
Qed.

(** Normalisation. *)
Definition affine_contents (off gain : list R) (s : contents RA) : contents RA :=
  with_frames s (map (affine (A:=RA) off gain) (s_in s)) (s_out s).

Lemma ts_rescale_ok : forall (off gain : list R) dim (ps : list phrase) ss, Forall2 rep ps ss ->
  (forall s, In s ss -> s_bim s = false /\ s_dim s = dim) -> dim <= length off -> dim <= length gain ->
  exists ps', ts_rescale (A:=RA) off gain ps = Ok ps' /\ Forall2 rep ps' (map (affine_contents off gain) ss).
Proof.
  intros off gain dim ps ss HF Hd Ho Hg. unfold ts_rescale. induction HF as [|p s ps ss HR HF IH]; cbn [mapM map].
  - exists []. auto.
  - destruct (Hd s (or_introl eq_refl)) as (Eb & Ed). subst dim.
    destruct (rescale_rep p s off gain HR Eb Ho Hg) as (b0 & E & R'). change (num RA) with R in *. rewrite E. cbn [bind].
    destruct IH as (ps' & E' & F'); [intros; apply Hd; simpl; auto|]. rewrite E'. cbn [bind].
    eexists. split; [reflexivity|]. constructor; auto.
Qed.

Lemma Rmean_affine : forall (l : list R) m g, l <> [] -> Rmean (map (fun x => (x - m) * g)%R l) = ((Rmean l - m) * g)%R.
Proof.
  intros l m g Hl. unfold Rmean. rewrite map_length.
  assert (E : Rlsum (map (fun x => (x - m) * g)%R l) = (g * (Rlsum l - INR (length l) * m))%R).
  { clear Hl. induction l as [|x l IH]; cbn [map length]; unfold Rlsum in *; cbn [fold_right]; [simpl; lra|].
    rewrite IH. rewrite S_INR. ring. }
  rewrite E. assert (INR (length l) <> 0%R). { apply not_0_INR. destruct l; simpl; congruence. }
  field. auto.
Qed.

Lemma Rvar_affine : forall (l : list R) m g, l <> [] -> Rvar (map (fun x => (x - m) * g)%R l) = (g * g * Rvar l)%R.
Proof.
  intros l m g Hl. unfold Rvar. rewrite Rmean_affine by auto. rewrite map_length, map_map.
  rewrite (Rlsum_map_ext _ (fun x => (g * g) * ((x - Rmean l) * (x - Rmean l)))%R) by (intros; ring).
  rewrite Rlsum_map_scal. unfold Rdiv. ring.
Qed.

Lemma column_affine : forall (off gain : list R) (fr : list (list R)) n d, Forall (fun x => length x = n) fr -> d < n ->
  column (map (affine (A:=RA) off gain) fr) d = map (fun x => (x - nth d off 0) * nth d gain 0)%R (column fr d).
Proof.
  intros off gain fr n d HF Hd. unfold column. rewrite !map_map. apply map_ext_in. intros x Hx.
  rewrite Forall_forall in HF. specialize (HF x Hx). unfold affine.
  change (num RA) with R in *. rewrite nth_tab by lia. rewrite n0_RA. reflexivity.
Qed.

Lemma ts_normalize_ok : forall dim (ps : list phrase) ss, Forall2 rep ps ss ->
  (forall s, In s ss -> s_bim s = false /\ s_dim s = dim) ->
  exists ps' ss' m sd, ts_normalize dim ps = Ok ps' /\ Forall2 rep ps' ss' /\
    length ss' = length ss /\
    (forall i, i < length ss -> let s := nth i ss (contents_new false) in let s' := nth i ss' (contents_new false) in
       s_bim s' = false /\ s_dim s' = dim /\ spec_size s' = spec_size s) /\
    ts_mean dim ps' = Ok m /\ ts_stddev dim ps' = Ok sd /\ length m = dim /\ length sd = dim /\
    forall d, d < dim -> (0 < Rvar (column (all_frames ss) d))%R -> nth d m 0%R = 0%R /\ nth d sd 0%R = 1%R.
Proof.
  intros dim ps ss HF Hd. unfold ts_normalize.
  rewrite (ts_mean_ok dim ps ss HF) by (intros; apply Hd; auto). cbn [bind].
  rewrite (ts_stddev_ok dim ps ss HF) by (intros; apply Hd; auto). cbn [bind].
  set (off := tab dim (fun d => Rmean (column (all_frames ss) d))).
  set (gain := map (fun v => @ndiv RA (@n1 RA) v) (tab dim (fun d => sqrt (Rvar (column (all_frames ss) d))))).
  destruct (ts_rescale_ok off gain dim ps ss HF Hd) as (ps' & E & F').
  { unfold off. rewrite tab_length. lia. } { unfold gain. rewrite map_length, tab_length. lia. }
  set (ss' := map (affine_contents off gain) ss) in *.
  assert (Hd' : forall s, In s ss' -> s_bim s = false /\ s_dim s = dim).
  { intros s Hs. unfold ss' in Hs. apply in_map_iff in Hs. destruct Hs as (s0 & <- & Hs). exact (Hd s0 Hs). }
  exists ps', ss'. eexists _, _. split; [exact E|]. split; [exact F'|]. split; [unfold ss'; apply map_length|].
  split.
  { intros i Hi. cbv zeta.
    rewrite (nth_indep ss' _ (affine_contents off gain (contents_new false))) by (unfold ss'; rewrite map_length; auto).
    unfold ss'. rewrite map_nth. destruct (Hd (nth i ss (contents_new false)) (nth_In _ _ Hi)) as (B1 & B2).
    split; [exact B1|]. split; [exact B2|].
    unfold spec_size, affine_contents, with_frames. cbn [s_bim s_in s_out]. rewrite B1. apply map_length. }
  split; [apply (ts_mean_ok dim ps' ss' F'); intros; apply Hd'; auto|].
  split; [apply (ts_stddev_ok dim ps' ss' F'); intros; apply Hd'; auto|].
  split; [apply tab_length|]. split; [apply tab_length|].
  intros d Hlt HV. rewrite !nth_tab by auto.
  assert (Ec : column (all_frames ss') d = map (fun x => (x - nth d off 0) * nth d gain 0)%R (column (all_frames ss) d)).
  { rewrite !column_flat. unfold ss'. clear - HF Hd Hlt. clearbody off gain.
    induction HF as [|p s ps ss HR HF IH]; cbn [map flat_map]; auto.
    destruct (Hd s (or_introl eq_refl)) as (B1 & B2). rewrite map_app. f_equal.
    - unfold frames_of, affine_contents, with_frames. cbn [s_bim s_in]. rewrite B1.
      destruct HR as (_ & _ & _ & _ & _ & _ & _ & _ & Hdt). rewrite B1 in Hdt. destruct Hdt as ((F0 & _) & _).
      apply (column_affine off gain (s_in s) (s_dim s) d); auto. lia.
    - apply IH. intros; apply Hd; simpl; auto. }
  assert (Hne : column (all_frames ss) d <> []).
  { intro E0. rewrite E0 in HV. unfold Rvar, Rlsum in HV. cbn [map fold_right] in HV. unfold Rdiv in HV. rewrite Rmult_0_l in HV.
    exact (Rlt_irrefl _ HV). }
  assert (Eo : nth d off 0%R = Rmean (column (all_frames ss) d)) by (unfold off; rewrite nth_tab by auto; reflexivity).
  assert (Eg : nth d gain 0%R = (1 / sqrt (Rvar (column (all_frames ss) d)))%R).
  { unfold gain. rewrite (nth_indep _ 0%R (@ndiv RA (@n1 RA) 0%R)) by (rewrite map_length, tab_length; auto).
    rewrite (map_nth (fun v => @ndiv RA (@n1 RA) v)). rewrite nth_tab by auto. cbn [ndiv RA]. rewrite n1_RA. reflexivity. }
  rewrite Ec, Rmean_affine, Rvar_affine by auto. rewrite Eo, Eg.
  set (v := Rvar (column (all_frames ss) d)) in *. pose proof (sqrt_lt_R0 v HV) as Hs.
  change (num RA) with R.
  split; [ring|].
  replace (1 / sqrt v * (1 / sqrt v) * v)%R with 1%R; [apply sqrt_1|].
  pose proof (sqrt_sqrt v) as Hq. assert (0 <= v)%R by lra. specialize (Hq H).
  field_simplify; [|lra]. replace (sqrt v ^ 2)%R with v by (simpl; lra). field. lra.
Qed.

(** The same for phrases made by the library. *)
Lemma made_all : forall (ps : list phrase) ss, Forall2 made ps ss -> Forall2 rep ps ss.
Proof. induction 1; constructor; auto. apply made_rep. auto. Qed.

Lemma training_statistics : forall dim (ps : list phrase) ss, Forall2 made ps ss -> (forall s, In s ss -> s_dim s = dim) ->
  ts_mean dim ps = Ok (tab dim (fun d => Rmean (column (all_frames ss) d))) /\
  ts_stddev dim ps = Ok (tab dim (fun d => sqrt (Rvar (column (all_frames ss) d)))).
Proof. intros dim ps ss HF Hd. apply made_all in HF. split; [apply ts_mean_ok|apply ts_stddev_ok]; auto. Qed.

Lemma training_minmax : forall bim dim din (ps : list phrase) ss, Forall2 made ps ss ->
  (forall s, In s ss -> s_bim s = bim /\ s_dim s = dim /\ (bim = true -> s_din s = din)) ->
  (forall d, d < dim -> all_values ss d <> []) ->
  (forall d x, d < dim -> In x (all_values ss d) -> (- @flt_max RA <= x <= @flt_max RA)%R) ->
  exists mm, ts_minmax bim dim din ps = Ok mm /\ length mm = dim /\
    forall d, d < dim ->
      is_min (all_values ss d) (fst (nth d mm (0%R, 0%R))) /\
      is_max (all_values ss d) (snd (nth d mm (0%R, 0%R))).
Proof. intros bim dim din ps ss HF. apply made_all in HF. apply ts_minmax_ok. auto. Qed.

Lemma training_normalize : forall dim (ps : list phrase) ss, Forall2 made ps ss ->
  (forall s, In s ss -> s_bim s = false /\ s_dim s = dim) ->
  exists ps' ss' m sd, ts_normalize dim ps = Ok ps' /\ Forall2 shows ps' ss' /\
    length ss' = length ss /\
    (forall i, i < length ss -> let s := nth i ss (contents_new false) in let s' := nth i ss' (contents_new false) in
       s_bim s' = false /\ s_dim s' = dim /\ spec_size s' = spec_size s) /\
    ts_mean dim ps' = Ok m /\ ts_stddev dim ps' = Ok sd /\ length m = dim /\ length sd = dim /\
    forall d, d < dim -> (0 < Rvar (column (all_frames ss) d))%R -> nth d m 0%R = 0%R /\ nth d sd 0%R = 1%R.
Proof.
  intros dim ps ss HF Hd. apply made_all in HF.
  destruct (ts_normalize_ok dim ps ss HF Hd) as (ps' & ss' & m & sd & E & F & H).
  exists ps', ss', m, sd. split; [exact E|]. split; [|exact H].
  clear - F. induction F; constructor; auto. apply rep_shows. auto.
Qed.
