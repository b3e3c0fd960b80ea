(** The pieces of the phrases that the states of a hidden Markov model start from. *)
From Coq Require Import String List Bool Arith Lia ZArith Reals Lra.
From Verif Require Import Base BaseFacts Arith RFacts Model_Map Model_Ring Model_Attribute Model_Phrase Model_TrainingSet Model_Gaussian Model_Config Model_KMeans Model_GMM
  Model_HMM Model_Shared Model_Train Model_Reload Model_Workflow Model_Workflow2 Spec_Common Spec_Phrase Spec_TrainingSet Spec_Train Spec_Shared Spec_Matrix Spec_Gaussian Spec_GMM
  Spec_HMM Spec_HMMInit Spec_Workflow
  Proofs_Map Proofs_Phrase Proofs_PhraseStats Proofs_TrainingStats Proofs_Train Proofs_GMM Proofs_Json Proofs_HMM14 Proofs_Workflow Proofs_Workflow2.
Import ListNotations.
Local Open Scope list_scope.
Local Open Scope nat_scope.

Local Notation phrase := (phrase (A:=RA)).

(** A connected phrase as one that owns its memory: everything that is read is the same. *)
Definition owned (q : phrase) : phrase :=
  mkPhrase true (p_bim q) (p_empty q) (p_len q) (p_ilen q) (p_olen q) (p_len q) (p_dim q) (p_dim_min q) (p_din q) (p_din_min q) (p_din_max q)
    (p_label q) (p_cols q) (p_d0 q) (p_d1 q) (p_events q).

Lemma foldM_map : forall {X Y S} (f : S -> Y -> res S) (g : X -> Y) l s, foldM f (map g l) s = foldM (fun s x => f s (g x)) l s.
Proof. intros X Y S f g l. induction l as [|x l IH]; intro s; cbn [map foldM]; [reflexivity|]. destruct (f s (g x)); cbn [bind]; auto. Qed.
Lemma mapM_map : forall {X Y Z} (f : Y -> res Z) (g : X -> Y) l, mapM f (map g l) = mapM (fun x => f (g x)) l.
Proof. intros X Y Z f g l. induction l as [|x l IH]; cbn [map mapM]; [reflexivity|]. rewrite IH. reflexivity. Qed.

Lemma tabM_same : forall {X} n (f g : nat -> res X), (forall i, f i = g i) -> tabM n f = tabM n g.
Proof. intros X n f g H. induction n as [|n IH]; cbn [tabM]; [reflexivity|]. rewrite H, IH. reflexivity. Qed.

Lemma owned_frames : forall qs, mapM (phrase_frames (A := RA)) (map owned qs) = mapM phrase_frames qs.
Proof. intro qs. rewrite mapM_map. reflexivity. Qed.
Lemma owned_total : forall qs, ts_total (map owned qs) = ts_total qs.
Proof. intro qs. unfold ts_total. generalize 0. induction qs as [|q qs IH]; intro n; cbn [map fold_left]; [reflexivity|]. apply IH. Qed.
Lemma owned_stddev : forall dim qs, ts_stddev (A := RA) dim (map owned qs) = ts_stddev dim qs.
Proof.
  intros dim qs. unfold ts_stddev.
  assert (M : ts_mean (A := RA) dim (map owned qs) = ts_mean dim qs).
  { unfold ts_mean, ts_sum. rewrite owned_total. apply tabM_same. intro d. rewrite foldM_map. reflexivity. }
  rewrite M. destruct (ts_mean dim qs) as [m| |]; cbn [bind]; [|reflexivity..]. unfold ts_sum. rewrite owned_total. apply tabM_same. intro d. rewrite foldM_map. reflexivity.
Qed.
Lemma owned_hooks : forall dim qs, gm_hooks (A := RA) dim (map owned qs) = gm_hooks dim qs.
Proof. intros dim qs. unfold gm_hooks. rewrite owned_frames, owned_stddev. reflexivity. Qed.

Lemma concat_slice : forall {X} d (fr : list (list X)), Forall (fun x => length x = d) fr -> forall j k, j + k <= length fr ->
  concat (firstn k (skipn j fr)) = firstn (k * d) (skipn (j * d) (concat fr)).
Proof.
  intros X d fr F j. revert fr F. induction j as [|j IH]; intros fr F k Hk.
  - cbn [skipn Nat.mul]. revert k Hk. induction F as [|x fr Hx F IH]; intros k Hk; [cbn in Hk; replace k with 0 by lia; reflexivity|].
    destruct k as [|k]; [reflexivity|]. cbn [firstn concat]. rewrite (IH k ltac:(cbn in Hk; lia)). cbn [Nat.mul].
    rewrite firstn_app, Hx. replace (d + k * d - d) with (k * d) by lia. rewrite (firstn_all2 x) by lia. reflexivity.
  - destruct F as [|x fr Hx F]; [cbn in Hk; lia|]. cbn [skipn concat]. rewrite (IH fr F k ltac:(cbn in Hk; lia)). f_equal. cbn [Nat.mul].
    rewrite skipn_app, Hx. replace (d + j * d - d) with (j * d) by lia. rewrite (skipn_all2 x) by lia. reflexivity.
Qed.

Lemma read_slice : forall (b : block (A := RA)) max d fr j k, holds b max d fr -> j + k <= length fr ->
  read_at b (j * d) (k * d) = Ok (concat (firstn k (skipn j fr))).
Proof.
  intros b max d fr j k (F & [(-> & -> & ->)|(c & -> & L & Hm & E)]) H.
  - cbn in H. replace k with 0 by lia. replace j with 0 by lia. reflexivity.
  - rewrite (concat_slice d fr F j k H). unfold read_at. change (num RA) with R in *.
    set (l := concat fr) in *. assert (LL : length l = length fr * d) by (apply (concat_length_const (A := RA)); exact F).
    assert (LS : length (firstn (k * d) (skipn (j * d) l)) = k * d) by (rewrite firstn_length, skipn_length, LL; nia).
    rewrite <- (tab_nth_self (firstn (k * d) (skipn (j * d) l)) 0%R) at 1. rewrite LS. apply tabM_ok. intros i Hi.
    unfold rdb, rd. assert (I : j * d + i < length fr * d) by nia.
    assert (N : nth_error c (j * d + i) = Some (Some (nth (j * d + i) l 0%R))).
    { assert (NF : forall X (c : list X) n i, i < n -> nth_error (firstn n c) i = nth_error c i).
      { clear. induction c as [|x c IH]; intros [|n] [|i] H; cbn; try lia; auto. apply IH. lia. }
      rewrite <- (NF _ c (length fr * d)) by exact I. rewrite E. rewrite nth_error_map. rewrite (nth_error_nth' l 0%R) by lia. reflexivity. }
    change (num RA) with R in *. rewrite N. cbn [bind]. f_equal. clear - Hi LL I. 
    assert (G : forall (l : list R) n i, i < n -> nth i (firstn n l) 0%R = nth i l 0%R).
    { clear. induction l as [|x l IH]; intros [|n] [|i] H; cbn; try lia; auto. apply IH. lia. }
    rewrite G by exact Hi. clear. generalize l. clear. intro l. revert l. generalize (j * d). intro m. induction m as [|m IH]; intro l; [reflexivity|]. destruct l as [|x l]; cbn; [destruct i; reflexivity|]. apply IH.
Qed.

Lemma combine_slice : forall {X Y} (a : list X) (b : list Y) j k, firstn k (skipn j (combine a b)) = combine (firstn k (skipn j a)) (firstn k (skipn j b)).
Proof.
  intros X Y a b j k. rewrite <- combine_firstn. f_equal. revert b k. revert j. induction a as [|x a IH]; intros j b k.
  - cbn [combine]. rewrite !skipn_nil. reflexivity.
  - destruct j as [|j]; [reflexivity|]. destruct b as [|y b]; cbn [combine skipn]; [|apply IH; exact k]. destruct (skipn j a); reflexivity.
Qed.

(** The contents of a piece. *)
Definition slice (din j k : nat) (c : contents RA) : contents RA :=
  mkContents (s_bim c) (s_dim c) din (s_dim c - 1) (firstn k (skipn j (s_in c))) (firstn k (skipn j (s_out c))).
Lemma slice_frames : forall din j k c, frames_of (slice din j k c) = firstn k (skipn j (frames_of c)).
Proof.
  intros din j k c. unfold frames_of, slice. cbn [s_bim s_in s_out]. destruct (s_bim c); [|reflexivity].
  rewrite <- combine_slice, skipn_map, firstn_map. reflexivity.
Qed.

Lemma holds_all : forall d (fr : list (list R)), Forall (fun x => length x = d) fr -> holds (A := RA) (Blk (A := RA) (map Some (concat fr))) (length fr) d fr.
Proof.
  intros d fr F. split; [exact F|]. right. exists (map Some (concat fr)). split; [reflexivity|]. change (num RA) with R in *.
  assert (L : length (map (@Some R) (concat fr)) = length fr * d) by (rewrite map_length; apply (concat_length_const (A := RA)); exact F).
  split; [exact L|]. split; [lia|]. rewrite <- L. apply firstn_all.
Qed.

Lemma slice_dims : forall d (fr : list (list R)) j k, Forall (fun x => length x = d) fr -> Forall (fun x => length x = d) (firstn k (skipn j fr)).
Proof.
  intros d fr j k F. rewrite Forall_forall in *. intros x Hx. apply F. rewrite <- (firstn_skipn j fr), in_app_iff. right.
  rewrite <- (firstn_skipn k (skipn j fr)), in_app_iff. left. exact Hx.
Qed.

Definition blank (bim : bool) (dim din : nat) : phrase :=
  mkPhrase (A := RA) false bim true 0 0 0 0 dim (if bim then 2 else 1) din (if bim then 1 else 0) (dim - 1) EmptyString
    (vresize dim EmptyString (vresize dim EmptyString [])) Null Null [].
Definition blank1 (bim : bool) (dim : nat) : phrase :=
  mkPhrase (A := RA) false bim true 0 0 0 0 dim (if bim then 2 else 1) (if bim then 1 else 0) (if bim then 1 else 0) (dim - 1) EmptyString
    (vresize dim EmptyString []) Null Null [].
Lemma run_set_dimension : forall (p : phrase) n, (n <? p_dim_min p) = false ->
  runm (set_dimension false n) p = runm (do* _ := smod (fun p => Model_Phrase.set_dims n (p_din p) (p_din_min p) (p_din_max p) p) in on_dim_change false true) p.
Proof.
  intros p n H. unfold runm, set_dimension, sbind, sget, slift, checkLimits. rewrite H.
  replace (Nat.max n (p_dim_min p) <? n) with false by (symmetry; apply Nat.ltb_ge; lia). reflexivity.
Qed.
Lemma run_set_din : forall (p : phrase) n, (n <? p_din_min p) = false -> (p_din_max p <? n) = false ->
  runm (set_dimension_input false n) p = runm (do* _ := smod (fun p => Model_Phrase.set_dims (p_dim p) n (p_din_min p) (p_din_max p) p) in on_dim_change false false) p.
Proof. intros p n H1 H2. unfold runm, set_dimension_input, sbind, sget, slift, checkLimits. rewrite H1, H2. reflexivity. Qed.

Lemma blank_ok : forall bim dim din, set_dims bim dim din ->
  runm (Model_Phrase.set_dimension false dim) (phrase_new (A := RA) false bim) = Ok (blank1 bim dim) /\ runm (set_dimension_input false din) (blank1 bim dim) = Ok (blank bim dim din).
Proof.
  intros bim dim din SD. unfold set_dims in SD. split.
  - rewrite run_set_dimension by (cbn [phrase_new p_dim_min]; apply Nat.ltb_ge; destruct bim; lia). destruct bim; reflexivity.
  - rewrite run_set_din by (cbn [blank1 p_din_min p_din_max]; apply Nat.ltb_ge; destruct bim; lia). destruct bim; reflexivity.
Qed.

Lemma connected_ok : forall (h : hclass RA) s (p : phrase) c, rep p c -> s_bim c = hc_bim h -> s_dim c = hc_dim h -> (hc_bim h = true -> s_din c = hc_din h) ->
  set_dims (hc_bim h) (hc_dim h) (hc_din h) -> s < hc_n h ->
  if length (frames_of c) / hc_n h =? 0 then connected_piece h s p = Ok None
  else exists q c', connected_piece h s p = Ok (Some q) /\ rep (owned q) c' /\ s_dim c' = hc_dim h /\ frames_of c' = piece (hc_n h) s (frames_of c).
Proof.
  intros h s p c HR Eb Ed Ei SD Hs. unfold connected_piece. pose proof HR as (_ & Pb & Pd & Pi & _ & _ & _ & Pl & Hdt).
  rewrite Pl, <- frames_length. set (step := length (frames_of c) / hc_n h). change (num RA) with R in *.
  destruct (Nat.eqb_spec step 0) as [Z|NZ]; [reflexivity|].
  assert (SL : s * step + step <= length (frames_of c)).
  { assert (M : hc_n h * step <= length (frames_of c)) by (apply Nat.mul_div_le; lia). assert (S s * step <= hc_n h * step) by (apply Nat.mul_le_mono_r; lia). cbn [Nat.mul] in *. lia. }
  assert (PE : firstn step (skipn (s * step) (frames_of c)) = piece (hc_n h) s (frames_of c)) by (apply piece_eq; exact Hs).
  assert (LT : s * step < length (frames_of c)) by lia.
  assert (SZ : forall X (l : list X), s * step + step <= length l -> length (firstn step (skipn (s * step) l)) = step) by (intros X l Hl; rewrite firstn_length, skipn_length; lia).
  rewrite frames_length in SL, LT. unfold spec_size in SL, LT.
  unfold getPointer, getPointer_input, getPointer_output. rewrite Pl, Pb, Pd, Pi. unfold spec_size. rewrite Eb in *. 
  destruct (hc_bim h) eqn:Bh; cbn [negb]; cbn iota in SL, LT.
  - destruct SD as (D1 & D2). rewrite (Ei eq_refl) in *. destruct Hdt as (I1 & I2 & Hle & Hmax & H0 & H1). rewrite Ed in *.
    rewrite (proj2 (Nat.leb_gt _ _) LT).
    destruct (blank_ok true (hc_dim h) (hc_din h)) as (EQ1 & EQ2); [cbn; lia|]. rewrite EQ1. cbn [bind]. rewrite EQ2. cbn [bind].
    unfold usub. rewrite (proj2 (Nat.leb_le _ _) Hle). cbn [bind].
    rewrite (read_slice _ _ _ _ (s * step) step H0 ltac:(lia)). cbn [bind]. rewrite (read_slice _ _ _ _ (s * step) step H1 ltac:(lia)). cbn [bind].
    unfold runm, connect2, sbind, sget, smod, trim. cbn [blank p_own p_bim negb]. cbn. eexists _, (slice (hc_din h) (s * step) step c). split; [reflexivity|].
    split; [|split; [exact Ed|rewrite slice_frames; exact PE]].
    assert (LI : length (firstn step (skipn (s * step) (s_in c))) = step) by (apply SZ; lia). assert (LO : length (firstn step (skipn (s * step) (s_out c))) = step) by (apply SZ; lia).
    unfold rep, owned, spec_size. cbn. change (num RA) with R in *. rewrite Eb, Ed, LI, LO, Nat.min_id. do 8 (split; [reflexivity|]). split; [reflexivity|]. split; [reflexivity|]. split; [lia|]. split; [lia|].
    split; [pose proof (holds_all _ _ (slice_dims _ _ (s * step) step (proj1 H0))) as K; rewrite LI in K; exact K|pose proof (holds_all _ _ (slice_dims _ _ (s * step) step (proj1 H1))) as K; rewrite LO in K; exact K].
  - destruct SD as (D1 & D2). destruct Hdt as (H0 & H1). rewrite Ed in *. 
    rewrite (proj2 (Nat.leb_gt _ _) LT).
    destruct (blank_ok false (hc_dim h) (hc_din h)) as (EQ1 & EQ2); [cbn; lia|]. rewrite EQ1. cbn [bind]. rewrite EQ2. cbn [bind].
    rewrite (read_slice _ _ _ _ (s * step) step H0 ltac:(lia)). cbn [bind].
    unfold runm, connect, sbind, sget, smod. cbn [blank p_own p_bim]. cbn. eexists _, (slice (hc_din h) (s * step) step c). split; [reflexivity|].
    split; [|split; [exact Ed|rewrite slice_frames; exact PE]].
    assert (LI : length (firstn step (skipn (s * step) (s_in c))) = step) by (apply SZ; lia).
    unfold rep, owned, spec_size. cbn. change (num RA) with R in *. rewrite Eb, Ed, LI. do 8 (split; [reflexivity|]).
    split; [pose proof (holds_all _ _ (slice_dims _ _ (s * step) step (proj1 H0))) as K; rewrite LI in K; exact K|rewrite H1, skipn_nil, firstn_nil; reflexivity].
Qed.

Lemma Forall2_in : forall {X Y} (P : X -> Y -> Prop) (Q : Y -> Prop) l l', Forall2 P l l' -> (forall y, In y l' -> Q y) -> Forall2 (fun x y => P x y /\ Q y) l l'.
Proof. intros X Y P Q l l' F. induction F as [|x y l l' H F IH]; intro HQ; constructor; [split; [exact H|apply HQ; left; reflexivity]|apply IH; intros; apply HQ; right; assumption]. Qed.

Definition fits_set (h : hclass RA) (c : contents RA) : Prop := s_bim c = hc_bim h /\ s_dim c = hc_dim h /\ (hc_bim h = true -> s_din c = hc_din h).

Lemma state_pieces_ok : forall (h : hclass RA) s ps cs, Forall2 rep ps cs -> (forall c, In c cs -> fits_set h c) -> set_dims (hc_bim h) (hc_dim h) (hc_din h) -> s < hc_n h ->
  exists qs cs', state_pieces h s ps = Ok qs /\ Forall2 rep (map owned qs) cs' /\ (forall c, In c cs' -> s_dim c = hc_dim h) /\
    map (frames_of (A := RA)) cs' = pieces (hc_n h) s (map (frames_of (A := RA)) cs).
Proof.
  intros h s ps cs HF HC SD Hs. unfold state_pieces. apply (Forall2_in _ _ _ _ HF) in HC. clear HF.
  assert (G : exists os cs', mapM (connected_piece h s) ps = Ok os /\ Forall2 rep (map owned (flat_map (fun o => match o with Some q => [q] | None => [] end) os)) cs' /\ (forall c, In c cs' -> s_dim c = hc_dim h) /\
    map (frames_of (A := RA)) cs' = pieces (hc_n h) s (map (frames_of (A := RA)) cs)).
  { induction HC as [|p c ps cs (HR & F1 & F2 & F3) F IH]; [exists [], []; repeat split; [constructor|intros c []]|].
    destruct IH as (os & cs' & E & R2 & D2 & P2). pose proof (connected_ok h s p c HR F1 F2 F3 SD Hs) as K. cbn [mapM]. unfold pieces. cbn [map filter]. change (num RA) with R in *.
    destruct (Nat.leb_spec (hc_n h) (@length (list R) (frames_of c))) as [Hl|Hl].
    - rewrite (proj2 (Nat.eqb_neq _ _)) in K by (apply Nat.neq_0_lt_0, Nat.div_str_pos; split; [lia|exact Hl]).
      destruct K as (q & c' & E1 & R1 & D1 & P1). rewrite E1. cbn [bind]. rewrite E. cbn [bind]. exists (Some q :: os), (c' :: cs'). split; [reflexivity|]. cbn [flat_map app map]. split; [constructor; assumption|].
      split; [intros x [<-|Hx]; [exact D1|apply D2; exact Hx]|]. rewrite P1. f_equal. exact P2.
    - rewrite (proj2 (Nat.eqb_eq _ _)) in K by (apply Nat.div_small; exact Hl). rewrite K. cbn [bind]. rewrite E. cbn [bind]. exists (None :: os), cs'. split; [reflexivity|]. cbn [flat_map app]. auto. }
  destruct G as (os & cs' & E & R2 & D2 & P2). rewrite E. cbn [bind]. eexists _, cs'. split; [reflexivity|]. auto.
Qed.
