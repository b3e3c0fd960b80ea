(** Proofs about circular buffers. *)
From Coq Require Import List Bool Arith Lia Reals Lra Permutation.
From Verif Require Import Base BaseFacts Arith RFacts Model_Ring Spec_Common.
Import ListNotations.

Section P.
  Context {T : Type}.
  Variable d : T.

  Lemma ring_new_wf : forall ch L, ring_wf ch (ring_new d ch L).
  Proof.
    intros. unfold ring_new, ring_wf; simpl. rewrite repeat_length. repeat split; auto; try lia.
    intros c Hc. rewrite (nth_indep _ [] (repeat d L)) by (rewrite repeat_length; lia).
    rewrite nth_repeat, repeat_length. reflexivity.
  Qed.

  Lemma ring_clear_wf : forall ch (r : ring T), ring_wf ch r -> ring_wf ch (ring_clear r).
  Proof. intros ch r (H1 & H2 & H3 & H4). unfold ring_wf. simpl. repeat split; auto; lia. Qed.

  Lemma ring_resize_wf : forall ch (r : ring T) L,
    ring_wf ch r -> ring_wf ch (ring_resize d r L).
  Proof.
    intros ch r L (H1 & H2 & H3 & H4). unfold ring_resize.
    destruct (L =? r_length r) eqn:E. { repeat split; auto. }
    apply Nat.eqb_neq in E.
    assert (HD : forall full index, index <= L -> (0 < L -> index < L) ->
      ring_wf ch (mkRing (map (vresize L d) (r_data r)) L index full)).
    { intros full index Hi Hi2. unfold ring_wf; simpl. rewrite map_length. repeat split; auto.
      intros c Hc. rewrite (nth_indep _ _ (vresize L d [])) by (rewrite map_length; lia).
      rewrite map_nth. apply vresize_length. }
    destruct (r_length r <? L) eqn:E1; [|destruct (L <=? r_index r) eqn:E2].
    - apply Nat.ltb_lt in E1. apply HD; lia.
    - apply HD; lia.
    - apply Nat.leb_gt in E2. apply Nat.ltb_ge in E1. apply HD; lia.
  Qed.

  (** One push: slot [index] of every channel receives its value. *)
  Lemma ring_push_ok : forall ch (r : ring T) v,
    ring_wf ch r -> 0 < r_length r -> ch <= length v ->
    exists data, ring_push r v =
      Ok (mkRing data (r_length r) (S (r_index r) mod r_length r)
            (if S (r_index r) =? r_length r then true else r_full r)) /\
      length data = ch /\
      forall c, c < ch -> nth c data [] = upd (nth c (r_data r) []) (r_index r) (nth c v d).
  Proof.
    intros ch r v (H1 & H2 & H3 & H4) HL Hv. specialize (H4 HL). unfold ring_push. rewrite H1.
    destruct (iterM_inv (fun n data => length data = ch /\
        (forall c, c < n -> nth c data [] = upd (nth c (r_data r) []) (r_index r) (nth c v d)) /\
        (forall c, n <= c -> nth c data [] = nth c (r_data r) []))
      ch (fun c data => let* x := rd v c in let* ch := rd data c in
             let* ch := wr ch (r_index r) x in wr data c ch) (r_data r))
      as (data & E & L & D & _).
    - repeat split; auto. intros; lia.
    - intros i s Hi (L & D1 & D2).
      rewrite (rd_ok v i d) by lia. simpl. rewrite (rd_ok s i []) by lia. simpl.
      rewrite wr_ok by (rewrite D2, H2 by lia; lia). simpl.
      rewrite wr_ok by lia. eexists. split; [reflexivity|]. rewrite upd_length. repeat split; auto.
      + intros c Hc. destruct (Nat.eq_dec c i) as [->|].
        * rewrite nth_upd_eq by lia. rewrite D2 by lia. reflexivity.
        * rewrite nth_upd_neq by auto. apply D1. lia.
      + intros c Hc. rewrite nth_upd_neq by lia. apply D2. lia.
    - rewrite E. simpl. unfold ring_advance.
      destruct (r_length r =? 0) eqn:E0; [apply Nat.eqb_eq in E0; lia|]. eauto.
  Qed.

  Lemma ring_push1_push : forall (r : ring T) v,
    ring_wf 1 r -> ring_push1 r v = ring_push r [v].
  Proof.
    intros r v (H1 & _). unfold ring_push1, ring_push. rewrite H1. simpl.
    destruct (r_data r) as [|ch [|]]; simpl in *; try lia.
    unfold rd; simpl. destruct (wr ch (r_index r) v); reflexivity.
  Qed.

  Lemma ring_pushes_app : forall vs1 vs2 (r : ring T),
    ring_pushes r (vs1 ++ vs2) = let* r := ring_pushes r vs1 in ring_pushes r vs2.
  Proof.
    induction vs1; simpl; intros; auto. destruct (ring_push r a); simpl; auto.
  Qed.

  Lemma mod_small_window : forall n L k, 0 < L -> n - L <= k < n -> k mod L = n mod L -> k + L = n.
  Proof.
    intros n L k HL Hk E.
    pose proof (Nat.div_mod k L ltac:(lia)). pose proof (Nat.div_mod n L ltac:(lia)).
    assert (n - k = L * (n / L - k / L)) by (rewrite Nat.mul_sub_distr_l; lia).
    destruct (n / L - k / L) as [|[|q]] eqn:Q; lia || nia.
  Qed.

  (** State after [n] pushes on a cleared buffer. *)
  Lemma ring_pushes_state : forall ch L (r : ring T) vs,
    ring_wf ch r -> r_length r = L -> 0 < L -> Forall (fun v => ch <= length v) vs ->
    exists r', ring_pushes (ring_clear r) vs = Ok r' /\ ring_wf ch r' /\ r_length r' = L /\
      r_index r' = length vs mod L /\ r_full r' = (L <=? length vs) /\
      forall k c, length vs - L <= k < length vs -> c < ch ->
        nth (k mod L) (nth c (r_data r') []) d = nth c (nth k vs []) d.
  Proof.
    intros ch L r vs WF HLr HL. revert vs. induction vs as [|v vs IH] using rev_ind; intros FV.
    - exists (ring_clear r). simpl. split; auto. split; [apply ring_clear_wf; auto|].
      rewrite Nat.mod_small by lia. repeat split; auto. 
      destruct L; [lia|reflexivity]. intros. simpl in *. lia.
    - apply Forall_app in FV as [FV1 FV2]. inversion FV2; subst x l.
      destruct (IH FV1) as (r1 & E1 & W1 & L1 & I1 & F1 & D1). clear IH FV2 H2.
      destruct (ring_push_ok ch r1 v W1) as (data & E2 & LD & DD); auto; [lia|].
      rewrite ring_pushes_app, E1. cbn [bind ring_pushes]. rewrite E2. cbn [bind].
      eexists. split; [reflexivity|]. rewrite L1.
      assert (HI : S (r_index r1) mod L = length (vs ++ [v]) mod L).
      { rewrite I1, app_length. simpl. rewrite Nat.add_1_r.
        rewrite <- Nat.add_1_r, <- (Nat.add_1_r (length vs)), Nat.add_mod_idemp_l by lia. reflexivity. }
      assert (HLI : r_index r1 < L) by (rewrite I1; apply Nat.mod_upper_bound; lia).
      split; [|split; [|split; [|split]]].
      + unfold ring_wf; simpl. repeat split; auto.
        * intros c Hc. rewrite DD by auto. rewrite upd_length. destruct W1 as (_ & W & _).
          rewrite W; auto.
        * apply Nat.lt_le_incl, Nat.mod_upper_bound; lia.
        * intros _. apply Nat.mod_upper_bound; lia.
      + reflexivity.
      + simpl. exact HI.
      + cbn [r_full]. rewrite F1, app_length. cbn [length].
        destruct (S (r_index r1) =? L) eqn:E.
        * apply Nat.eqb_eq in E. symmetry. apply Nat.leb_le.
          pose proof (Nat.div_mod (length vs) L ltac:(lia)). rewrite <- I1 in H. nia.
        * apply Nat.eqb_neq in E. apply eq_true_iff_eq. rewrite !Nat.leb_le. split; intros; [lia|].
          destruct (Nat.eq_dec (length vs + 1) L); [|lia].
          exfalso. apply E. rewrite I1, Nat.mod_small by lia. lia.
      + simpl. intros k c Hk Hc. rewrite app_length in Hk. simpl in Hk. rewrite DD by auto.
        destruct W1 as (_ & W & _).
        destruct (Nat.eq_dec k (length vs)) as [->|].
        * rewrite <- I1, nth_upd_eq by (rewrite W by auto; lia).
          rewrite app_nth2, Nat.sub_diag by lia. reflexivity.
        * rewrite nth_upd_neq.
          -- rewrite D1 by lia. rewrite app_nth1 by lia. reflexivity.
          -- intro E. rewrite I1 in E.
             pose proof (mod_small_window (length vs) L k HL ltac:(lia) (eq_sym E)). lia.
  Qed.

  Lemma mod_window_perm : forall n L m, 0 < L -> m = min n L ->
    Permutation (map (fun k => k mod L) (seq (n - m) m)) (seq 0 m).
  Proof.
    intros n L m HL ->. apply Permutation_sym. apply NoDup_Permutation_bis.
    - apply seq_NoDup.
    - rewrite map_length, !seq_length. lia.
    - intros i Hi. apply in_seq in Hi. apply in_map_iff.
      destruct (le_dec n L).
      + exists i. rewrite Nat.mod_small by lia. split; auto. apply in_seq. lia.
      + rewrite Nat.min_r in * by lia.
        set (s := n - L). pose proof (Nat.div_mod s L ltac:(lia)) as DM.
        pose proof (Nat.mod_upper_bound s L ltac:(lia)).
        destruct (le_lt_dec (s mod L) i).
        * exists (s / L * L + i). split. rewrite Nat.add_comm, Nat.mod_add, Nat.mod_small by lia. auto.
          apply in_seq. nia.
        * exists ((s / L + 1) * L + i). split. rewrite Nat.add_comm, Nat.mod_add, Nat.mod_small by lia. auto.
          apply in_seq. nia.
  Qed.

  Lemma nth_last_n : forall {X} (vs : list X) L i e,
    nth i (last_n L vs) e = nth (length vs - L + i) vs e.
  Proof.
    intros. unfold last_n. generalize (length vs - L). intro n. revert vs i.
    induction n; intros; simpl; auto. destruct vs; simpl; auto. destruct i; reflexivity.
  Qed.

  Lemma last_n_length : forall {X} (vs : list X) L, length (last_n L vs) = min (length vs) L.
  Proof. intros. unfold last_n. rewrite skipn_length. lia. Qed.

  Lemma last_n_map_seq : forall {X} (vs : list X) L e,
    last_n L vs = map (fun k => nth k vs e) (seq (length vs - min (length vs) L) (min (length vs) L)).
  Proof.
    intros. apply nth_ext_len with e.
    - rewrite last_n_length, map_length, seq_length. reflexivity.
    - intros i Hi. rewrite last_n_length in Hi. rewrite nth_last_n.
      rewrite (nth_indep (map _ _) e (nth 0 vs e)) by (rewrite map_length, seq_length; lia).
      rewrite (map_nth (fun k => nth k vs e)). rewrite seq_nth by lia. f_equal. lia.
  Qed.

  Lemma ring_get_spec : forall ch (r : ring T) c i,
    ring_wf ch r -> ring_size_t r <= r_length r ->
    ring_get r c i = if (c <? ch) && (i <? ring_size_t r)
                     then Ok (nth i (nth c (r_data r) []) d) else Throw OutOfRange.
  Proof.
    intros ch r c i (H1 & H2 & _) HS. unfold ring_get. rewrite H1.
    rewrite !Nat.ltb_antisym.
    destruct (ch <=? c) eqn:E1; simpl; auto. destruct (ring_size_t r <=? i) eqn:E2; simpl; auto.
    apply Nat.leb_gt in E1, E2. rewrite (rd_ok _ c []) by lia. simpl.
    apply rd_ok. rewrite H2 by lia. lia.
  Qed.

  Lemma ring_window : forall ch L (r : ring T) vs,
    ring_wf ch r -> r_length r = L -> 0 < L -> Forall (fun v => ch <= length v) vs ->
    exists r', ring_pushes (ring_clear r) vs = Ok r' /\
      ring_size_t r' = min (length vs) L /\
      (forall c i, ring_get r' c i = Throw OutOfRange \/
                   (c < ch /\ i < min (length vs) L /\ exists x, ring_get r' c i = Ok x)) /\
      (forall k c, length vs - L <= k < length vs -> c < ch ->
         ring_get r' c (k mod L) = Ok (nth c (nth k vs []) d)) /\
      (forall c, c < ch -> exists xs,
         tabM (ring_size_t r') (ring_get r' c) = Ok xs /\
         Permutation xs (map (fun v => nth c v d) (last_n L vs))).
  Proof.
    intros ch L r vs WF HLr HL FV.
    destruct (ring_pushes_state ch L r vs WF HLr HL FV) as (r' & E & W & L' & I' & F' & D).
    exists r'. split; auto.
    assert (HS : ring_size_t r' = min (length vs) L).
    { unfold ring_size_t. rewrite F', L', I'. destruct (L <=? length vs) eqn:EL.
      apply Nat.leb_le in EL. lia. apply Nat.leb_gt in EL. rewrite Nat.mod_small by lia. lia. }
    assert (G : forall c i, ring_get r' c i = if (c <? ch) && (i <? ring_size_t r')
                     then Ok (nth i (nth c (r_data r') []) d) else Throw OutOfRange).
    { intros. apply ring_get_spec; auto. lia. }
    split; [exact HS|]. split; [|split].
    - intros c i. rewrite G, HS. destruct (c <? ch) eqn:E1; simpl; auto.
      destruct (i <? min (length vs) L) eqn:E2; simpl; auto. right.
      apply Nat.ltb_lt in E1, E2. eauto.
    - intros k c Hk Hc. rewrite G, HS.
      assert (k mod L < min (length vs) L).
      { destruct (le_dec (length vs) L).
        - rewrite Nat.mod_small by lia. lia.
        - rewrite Nat.min_r by lia. apply Nat.mod_upper_bound; lia. }
      apply Nat.ltb_lt in H, Hc. rewrite Hc, H. simpl. rewrite D by (apply Nat.ltb_lt in Hc; auto).
      reflexivity.
    - intros c Hc. exists (tab (ring_size_t r') (fun i => nth i (nth c (r_data r') []) d)). split.
      + apply tabM_ok. intros i Hi. rewrite G. apply Nat.ltb_lt in Hi, Hc. rewrite Hi, Hc. reflexivity.
      + rewrite HS. unfold tab. rewrite (last_n_map_seq vs L []), map_map.
        rewrite <- (mod_window_perm (length vs) L (min (length vs) L) HL eq_refl) at 1.
        rewrite map_map. erewrite map_ext_in; [apply Permutation_refl|].
        intros k Hk. apply in_seq in Hk. simpl. apply D; auto. lia.
  Qed.
End P.

Lemma Rlsum_last : forall (vs : list (list R)) L c, 
  Rlsum (map (fun v => nth c v 0%R) (last_n L vs)) =
  Rsum (min (length vs) L) (fun i => nth c (nth (length vs - L + i) vs []) 0%R).
Proof.
  intros. rewrite (last_n_map_seq vs L []), map_map, Rlsum_map_seq. apply Rsum_ext. intros.
  do 2 f_equal. lia.
Qed.

Lemma ring_mean_window : forall ch L (r : ring R) (vs : list (list R)),
  ring_wf ch r -> r_length r = L -> 0 < L -> vs <> [] -> Forall (fun v => ch <= length v) vs ->
  exists r', ring_pushes (ring_clear r) vs = Ok r' /\
    exists m, @ring_mean RA r' = Ok m /\ length m = ch /\
    forall c, c < ch ->
      nth c m 0%R = (Rlsum (map (fun v => nth c v 0%R) (last_n L vs)) /
                     INR (length (last_n L vs)))%R.
Proof.
  intros ch L r vs WF HLr HL NE FV.
  destruct (ring_window 0%R ch L r vs WF HLr HL FV) as (r' & E & HS & _ & _ & HP).
  destruct (ring_pushes_state 0%R ch L r vs WF HLr HL FV) as (r2 & E2 & W & L' & _ & _ & _).
  rewrite E in E2. inversion E2; subst r2; clear E2.
  exists r'. split; auto. unfold ring_mean. destruct W as (W1 & W2 & W3).
  assert (HT : forall c, c < ch ->
    (let* ch0 := rd (r_data r') c in
     let* s := @sumM RA (ring_size_t r') (fun i => rd ch0 i) in
     Ok (s / @nN RA (ring_size_t r'))%num) =
    Ok (Rsum (ring_size_t r') (fun i => nth i (nth c (r_data r') []) 0) / INR (ring_size_t r'))%R).
  { intros c Hc. rewrite (rd_ok _ c []) by lia. cbn [bind].
    rewrite (sumM_ok _ _ (fun i => nth i (nth c (r_data r') []) 0%R)).
    2:{ intros i Hi. apply rd_ok. rewrite W2 by auto. lia. }
    cbn [bind]. rewrite nN_RA. reflexivity. }
  change (num RA) with R in *.
  eexists. split; [rewrite W1; apply tabM_ok; intros i Hi; apply HT; auto|].
  split; [apply tab_length|]. intros c Hc. rewrite nth_tab by auto.
  destruct (HP c Hc) as (xs & EX & PX). apply Rlsum_perm in PX. rewrite <- PX.
  rewrite last_n_length, <- HS. f_equal.
  assert (xs = tab (ring_size_t r') (fun i => nth i (nth c (r_data r') []) 0%R)).
  { assert (EE : tabM (ring_size_t r') (ring_get r' c) =
       Ok (tab (ring_size_t r') (fun i => nth i (nth c (r_data r') []) 0%R))).
    { apply tabM_ok. intros i Hi. rewrite (ring_get_spec 0%R ch); [|exact (conj W1 (conj W2 W3))|lia].
      apply Nat.ltb_lt in Hi. rewrite Hi. apply Nat.ltb_lt in Hc. rewrite Hc. reflexivity. }
    rewrite EX in EE. inversion EE. reflexivity. }
  subst xs. rewrite Rlsum_tab. reflexivity.
Qed.

(** Enlarging a buffer that is not full keeps its visible contents. *)
Lemma ring_resize_grow_keeps : forall {T} (d : T) ch (r : ring T) L,
  ring_wf ch r -> r_full r = false -> r_length r < L ->
  ring_size_t (ring_resize d r L) = ring_size_t r /\
  forall c i, ring_get (ring_resize d r L) c i = ring_get r c i.
Proof.
  intros T d ch r L (H1 & H2 & H3 & H4) HF HL. unfold ring_resize.
  destruct (L =? r_length r) eqn:E; [apply Nat.eqb_eq in E; lia|].
  apply Nat.ltb_lt in HL. rewrite HL. apply Nat.ltb_lt in HL.
  unfold ring_size_t, ring_get, ring_size_t. simpl. rewrite HF. split; auto.
  intros c i. rewrite map_length.
  destruct (length (r_data r) <=? c) eqn:E1; auto.
  destruct (r_index r <=? i) eqn:E2; auto.
  apply Nat.leb_gt in E1, E2.
  rewrite (rd_ok _ c []) by (rewrite map_length; auto). rewrite (rd_ok (r_data r) c []) by auto.
  simpl. rewrite (nth_indep _ [] (vresize L d [])) by (rewrite map_length; auto).
  rewrite map_nth, (rd_ok _ i d) by (rewrite vresize_length; lia).
  rewrite (rd_ok _ i d) by (rewrite H2; lia). rewrite nth_vresize by lia. reflexivity.
Qed.

(** Resize followed by clear, as done by the models' [reset()]: a fresh window of the new length. *)
Lemma ring_resize_clear_length : forall {T} (d : T) (r : ring T) L,
  r_length (ring_resize d r L) = L.
Proof.
  intros. unfold ring_resize. destruct (L =? r_length r) eqn:E.
  apply Nat.eqb_eq in E; auto.
  destruct (r_length r <? L), (L <=? r_index r); reflexivity.
Qed.
