(** Gaussian mixtures: initialisation. *)
From Coq Require Import List Bool Arith Lia Reals Lra.
From Verif Require Import Base BaseFacts Arith RFacts Model_Gaussian Model_Config Model_KMeans Model_GMM
  Spec_Matrix Spec_Det Spec_Gaussian Spec_GMM Proofs_Gaussian Proofs_Gaussian2 Proofs_Gaussian3 Proofs_KMeans Proofs_GMM.
Import ListNotations.
Local Open Scope R_scope.

Lemma step_bound : forall G c len, (c < G)%nat -> (c * (len / G) + len / G <= len)%nat.
Proof. intros G c len H. pose proof (Nat.mul_div_le len G ltac:(lia)). nia. Qed.

Lemma nth_firstn_lt : forall {X} n (l : list X) i d, (i < n)%nat -> nth i (firstn n l) d = nth i l d.
Proof. induction n; intros l i d H; [lia|]. destruct l; [destruct i; reflexivity|]. destruct i; [reflexivity|]. cbn. apply IHn. lia. Qed.
Lemma nth_skipn_add : forall {X} o (l : list X) i d, nth i (skipn o l) d = nth (o + i) l d.
Proof. induction o; intros l i d; [reflexivity|]. destruct l; [cbn; destruct i; reflexivity|]. cbn. apply IHo. Qed.

Lemma seg_list : forall (h : list R -> R) ph o n, (o + n <= length ph)%nat ->
  Rlsum (map h (firstn n (skipn o ph))) = Rsum n (fun t => h (nth (o + t) ph [])).
Proof.
  intros h ph o n H. assert (L : length (firstn n (skipn o ph)) = n) by (rewrite firstn_length, skipn_length; lia).
  rewrite (Rlsum_nth []). rewrite L. apply Rsum_ext. intros i Hi. f_equal.
  rewrite nth_firstn_lt by exact Hi. apply nth_skipn_add.
Qed.

Section Seg.
  Variables (G c dim : nat).
  Hypothesis Hc : (c < G)%nat.

  Lemma seg_acc_ok : forall (f : list R -> res R) h (data : kdata RA), Forall (Forall (fun x => length x = dim)) data ->
    (forall x : list R, length x = dim -> f x = Ok (h x)) ->
    seg_acc (A := RA) G c f data = Ok (Rlsum (map h (seg_frames G c data))).
  Proof.
    intros f h data Fd Hf. unfold seg_acc. rewrite n0_RA.
    assert (X : forall s, foldM (fun (s : R) (phrase : list (list R)) => accM (A := RA) (length phrase / G)
        (fun t => let* x := rd phrase (c * (length phrase / G) + t) in f x) s) data s = Ok (s + Rlsum (map h (seg_frames G c data)))).
    { induction Fd as [|ph data Fp Fd IH]; intro s.
      - cbn. rewrite Rplus_0_r. reflexivity.
      - cbn [foldM]. pose proof (step_bound G c (length ph) Hc) as B. rewrite (accM_ok _ _ (fun t => h (nth (c * (length ph / G) + t) ph []))).
        + cbn [bind]. etransitivity; [apply IH|]. apply (f_equal (@Ok _)). cbn [seg_frames flat_map]. fold (seg_frames G c data).
          rewrite map_app, Rlsum_app, seg_list by exact B. apply Rplus_assoc.
        + intros t Ht. change (num RA) with R in *. rewrite (rd_nth ph _ []) by lia. cbn [bind]. apply Hf. rewrite Forall_forall in Fp. apply Fp, nth_In. lia. }
    etransitivity; [apply X|]. apply (f_equal (@Ok _)), Rplus_0_l.
  Qed.

  Lemma seg_count_ok : forall data : kdata RA, seg_count G data = length (seg_frames G c data).
  Proof.
    intro data. unfold seg_count. assert (X : forall s, fold_left (fun (s : nat) (phrase : list (list R)) => (s + length phrase / G)%nat) data s = (s + length (seg_frames G c data))%nat).
    { induction data as [|ph data IH]; intro s; [cbn; lia|]. cbn [fold_left]. rewrite IH. cbn [seg_frames flat_map]. fold (seg_frames G c data).
      rewrite app_length, firstn_length, skipn_length. pose proof (step_bound G c (length ph) Hc). change (num RA) with R in *. lia. }
    apply X.
  Qed.
End Seg.

(** The two forms of the covariance. *)
Lemma plain_cov_alt : forall l d1 d2, l <> [] ->
  avg (fun x => nth d1 x 0 * nth d2 x 0) l - avg (fun x => nth d1 x 0) l * avg (fun x => nth d2 x 0) l = plain_cov l d1 d2.
Proof.
  intros l d1 d2 Hl. unfold plain_cov. set (m1 := avg (fun y => nth d1 y 0) l). set (m2 := avg (fun y => nth d2 y 0) l).
  assert (N : 0 < INR (length l)) by (apply lt_0_INR; destruct l; [contradiction|cbn; lia]).
  assert (E1 : Rlsum (map (fun x => nth d1 x 0) l) = m1 * INR (length l)) by (unfold m1, avg; field; lra).
  assert (E2 : Rlsum (map (fun x => nth d2 x 0) l) = m2 * INR (length l)) by (unfold m2, avg; field; lra).
  clearbody m1 m2. unfold avg.
  assert (C : forall k, Rlsum (map (fun _ : list R => k) l) = k * INR (length l)).
  { intro k. clear. induction l as [|x l IH]; [cbn; lra|]. cbn [map length]. unfold Rlsum. cbn [fold_right]. fold (Rlsum (map (fun _ : list R => k) l)). rewrite IH, S_INR. lra. }
  rewrite (Rlsum_map_ext (fun x => (nth d1 x 0 - m1) * (nth d2 x 0 - m2)) (fun x => nth d1 x 0 * nth d2 x 0 + ((- m2) * nth d1 x 0 + ((- m1) * nth d2 x 0 + m1 * m2)))) by (intros; ring).
  rewrite Rlsum_map_plus, Rlsum_map_plus, Rlsum_map_plus, !Rlsum_map_scal, E1, E2, C. field. lra.
Qed.

Lemma plain_cov_psd : forall l n v, l <> [] -> 0 <= qform n (plain_cov l) v.
Proof.
  intros l n v Hl. assert (N : 0 < INR (length l)) by (apply lt_0_INR; destruct l; [contradiction|cbn; lia]).
  pose proof (outer_psd l (fun _ => 1) (fun x d => nth d x 0 - avg (fun y => nth d y 0) l) (INR (length l)) n v N (fun _ _ => Rle_0_1)) as H.
  erewrite qform_ext; [exact H|]. intros i j Hi Hj. cbv beta. unfold plain_cov. unfold avg at 1. f_equal. apply Rlsum_map_ext. intros. ring.
Qed.

Section Init.
  Variables (g : gclass RA) (dev : list R) (data : kdata RA).
  Hypothesis Hs : gm_shape g.
  Hypothesis Hdev : length dev = gc_dim g.
  Hypothesis Hne : data <> [].
  Hypothesis Hf : Forall (Forall (fun x => length x = gc_dim g)) data.

  Lemma default_ok : exists cs, gm_default (A := RA) dev g = Ok (gc_set_reg (A := RA) (init_reg g dev) (gc_set_comp cs (gc_set_coef (A := RA) (repeat (/ INR (gc_n g)) (gc_n g)) g))) /\
    length cs = gc_n g /\ Forall (fits_class g) cs /\
    forall c, (c < gc_n g)%nat -> forall i j, (i < gc_dim g)%nat -> (j < gc_dim g)%nat -> gcov (nth c cs no_gauss) i j =
      match gc_mode g with Full => gp_abs (gc_par g) / 2 | Diagonal => 0 end + if Nat.eqb i j then nth i (init_reg g dev) 0 else 0.
  Proof.
    unfold gm_default.
    assert (ER : map (fun s => @nmax RA (gp_abs (gc_par g)) (@nmul RA (gp_rel (gc_par g)) s)) dev = init_reg g dev) by (unfold init_reg; apply map_ext; intro; apply nmax_RA).
    rewrite ER. clear ER. set (cov := match gc_mode g with Full => _ | Diagonal => _ end).
    destruct (tabM_ex no_gauss (fun c k => fits_class g k /\ forall i j, (i < gc_dim g)%nat -> (j < gc_dim g)%nat -> gcov k i j =
      match gc_mode g with Full => gp_abs (gc_par g) / 2 | Diagonal => 0 end + if Nat.eqb i j then nth i (init_reg g dev) 0 else 0) (gc_n g) (fun c => let* k := rd (gc_comp g) c in runm (g_regularize (A := RA) (init_reg g dev)) (g_set_cov (A := RA) cov k))) as (cs & E & L & P).
    { intros c Hc. rewrite (rd_comp g Hs c Hc). cbn [bind]. destruct (comp_fits g Hs c Hc) as ((W1 & W2 & W3 & W4) & FB & FD & FI & FM).
      assert (LC : length cov = csize (gc_mode g) (gc_dim g)) by (unfold cov; destruct (gc_mode g); apply repeat_length).
      destruct (regularize_ok (init_reg g dev) (g_set_cov (A := RA) cov (comp_at g c))) as (v & E & L & W & V).
      { unfold wf_gauss. cbn. split; [exact W1|]. split; [rewrite FM, FD; exact LC|auto]. }
      { cbn [g_dim g_set_cov]. unfold init_reg. rewrite map_length, Hdev, FD. apply le_n. }
      eexists. split; [exact E|]. split; [split; [exact W|]; exact (conj FB (conj FD (conj FI FM)))|]. intros i j Hi Hj.
      rewrite V by (cbn [g_dim g_set_cov]; rewrite FD; assumption). f_equal. unfold gcov. cbn [g_mode g_dim g_cov g_set_cov]. rewrite FM, FD. unfold cov. destruct (gc_mode g); cbn [stored].
      - unfold rcell. rewrite nZ_RA. cbn [ndiv RA]. rewrite (nth_indep _ 0 (gp_abs (gc_par g) / 2)) by (rewrite repeat_length; apply flat_lt; assumption). apply nth_repeat.
      - rewrite n0_RA. destruct (Nat.eqb i j); [apply nth_repeat|reflexivity]. }
    exists cs. split; [|split; [exact L|split; [apply (Forall_at _ _ no_gauss); rewrite L; intros; apply P; assumption|intros; apply P; assumption]]].
    eapply bind_eq; [exact E|]. apply (f_equal (@Ok _)). 
    assert (Z : @ndiv RA (@ndiv RA n1 (nN (gc_n g))) (nsum (gc_n g) (fun _ => @ndiv RA n1 (nN (gc_n g)))) = / INR (gc_n g)).
    { rewrite nsum_RA, nN_RA, n1_RA. cbn [ndiv RA]. rewrite Rsum_const. assert (0 < INR (gc_n g)) by (apply lt_0_INR; destruct Hs; lia). change (num RA) with R. field. lra. }
    change (num RA) with R in *. rewrite Z. reflexivity.
  Qed.

  Lemma fits_ext : forall (h : gclass RA) k, gc_bim h = gc_bim g -> gc_dim h = gc_dim g -> gc_din h = gc_din g -> gc_par h = gc_par g -> fits_class g k -> fits_class h k.
  Proof. intros h k E1 E2 E3 E4 H. unfold fits_class, gc_mode in *. rewrite E1, E2, E3, E4. exact H. Qed.

  Lemma means_ok : exists k' cs, km_train (gc_dim g) data [] (fun _ => n0 (A := RA))
      (mkKM (A := RA) (km_dim (km_new (A := RA) (gc_n g))) (gc_n g) (km_maxit (km_new (A := RA) (gc_n g))) (km_thr (km_new (A := RA) (gc_n g))) true
        (km_centers (km_new (A := RA) (gc_n g))) (km_dist (km_new (A := RA) (gc_n g))) (km_likeliest (km_new (A := RA) (gc_n g)))) = Ok k' /\
    gm_init_means data g = Ok (gc_set_comp cs g) /\ length cs = gc_n g /\
    forall c, (c < gc_n g)%nat -> fits_class g (nth c cs no_gauss) /\
      forall d, (d < gc_dim g)%nat -> gmean (nth c cs no_gauss) d = nth (c * gc_dim g + d) (km_centers k') 0.
  Proof.
    unfold gm_init_means. destruct data as [|ph rest] eqn:ED; [contradiction|]. rewrite <- ED in *. clear ED.
    set (k := mkKM (A := RA) _ _ _ _ true _ _ _).
    destruct (train_ok (gc_dim g) data (repeat 0 (gc_dim g)) (fun _ => n0 (A := RA)) k Hne Hf (repeat_length _ _)) as (init & k' & _ & ET & _ & _ & EL & _).
    { unfold k. cbn. discriminate. }
    { exact (proj1 Hs). }
    assert (ET' : km_train (gc_dim g) data [] (fun _ => n0 (A := RA)) k = Ok k') by (rewrite <- ET; reflexivity).
    exists k'. 
    destruct (tabM_ex no_gauss (fun c q => fits_class g q /\ forall d, (d < gc_dim g)%nat -> gmean q d = nth (c * gc_dim g + d) (km_centers k') 0) (gc_n g)
      (fun c => let* comp := rd (gc_comp g) c in
          let* m := iterM (gc_dim g) (fun d m => let* v := rd (km_centers k') (c * gc_dim g + d) in wr m d v) (g_mean comp) in
          Ok (g_set_mean m comp))) as (cs & E & L & P).
    { intros c Hc. rewrite (rd_comp g Hs c Hc). cbn [bind]. destruct (comp_fits g Hs c Hc) as ((W1 & W2 & W3 & W4) & FB & FD & FI & FM).
      destruct (wr_loop (gc_dim g) 0 (fun d => rd (km_centers k') (c * gc_dim g + d)) (fun d => nth (c * gc_dim g + d) (km_centers k') 0) (g_mean (comp_at g c))) as (m & Q & Lm & V).
      { change (num RA) with R in *. lia. }
      { intros d Hd. apply rd_nth. change (num RA) with R in *. rewrite EL. apply flat_lt; assumption. }
      exists (g_set_mean (A := RA) m (comp_at g c)). split; [eapply bind_eq; [exact Q|reflexivity]|]. split.
      - split; [|exact (conj FB (conj FD (conj FI FM)))]. unfold wf_gauss. cbn. split; [etransitivity; [exact Lm|exact W1]|auto].
      - intros d Hd. unfold gmean. cbn [g_mean g_set_mean]. rewrite V. cbn [Nat.leb andb Nat.add]. destruct (Nat.ltb_spec d (gc_dim g)); [|lia]. rewrite Nat.sub_0_r. reflexivity. }
    exists cs. split; [exact ET'|]. split; [|split; [exact L|exact P]].
    eapply bind_eq; [exact ET'|]. eapply bind_eq; [exact E|reflexivity].
  Qed.

  Hypothesis Hseg : (1 <= seg_count (gc_n g) data)%nat.

  Lemma seg_nonempty : forall c, (c < gc_n g)%nat -> seg_frames (gc_n g) c data <> [].
  Proof. intros c Hc E. rewrite (seg_count_ok (gc_n g) c Hc data), E in Hseg. cbn in Hseg. lia. Qed.

  Lemma cov_ok : exists cs, gm_init_cov data g = Ok (gc_set_comp cs g) /\ length cs = gc_n g /\
    forall c, (c < gc_n g)%nat -> fits_class g (nth c cs no_gauss) /\ g_mean (nth c cs no_gauss) = g_mean (comp_at g c) /\
      forall i j, (i < gc_dim g)%nat -> (j < gc_dim g)%nat -> gcov (nth c cs no_gauss) i j =
        match gc_mode g with Full => plain_cov (seg_frames (gc_n g) c data) i j | Diagonal => if Nat.eqb i j then plain_cov (seg_frames (gc_n g) c data) i i else 0 end.
  Proof.
    unfold gm_init_cov. destruct data as [|ph rest] eqn:ED; [contradiction|]. rewrite <- ED in *. clear ED.
    match goal with |- context [tabM (gc_n g) ?F] => destruct (tabM_ex no_gauss (fun c k => fits_class g k /\ g_mean k = g_mean (comp_at g c) /\
      forall i j, (i < gc_dim g)%nat -> (j < gc_dim g)%nat -> gcov k i j =
        match gc_mode g with Full => plain_cov (seg_frames (gc_n g) c data) i j | Diagonal => if Nat.eqb i j then plain_cov (seg_frames (gc_n g) c data) i i else 0 end)
      (gc_n g) F) as (cs & E & L & P) end.
    { intros c Hc. rewrite (rd_comp g Hs c Hc). cbn [bind]. destruct (comp_fits g Hs c Hc) as ((W1 & W2 & W3 & W4) & FB & FD & FI & FM).
      set (SF := seg_frames (gc_n g) c data).
      assert (ME : forall d, (d < gc_dim g)%nat -> (let* s := seg_acc (A := RA) (gc_n g) c (fun x => rd x d) data in Ok (s / INR (seg_count (gc_n g) data))) = Ok (avg (fun x => nth d x 0) SF)).
      { intros d Hd. eapply bind_eq; [apply (seg_acc_ok (gc_n g) c (gc_dim g) Hc (fun x : list R => rd x d) (fun x => nth d x 0) data Hf); intros x Lx; apply rd_nth; rewrite Lx; exact Hd|].
        rewrite (seg_count_ok (gc_n g) c Hc). reflexivity. }
      assert (EE : forall d1 d2, (d1 < gc_dim g)%nat -> (d2 < gc_dim g)%nat ->
        (let* s := seg_acc (A := RA) (gc_n g) c (fun x => let* a := rd x d1 in let* b := rd x d2 in Ok (a * b)) data in
         let* m1 := (let* s := seg_acc (A := RA) (gc_n g) c (fun x => rd x d1) data in Ok (s / INR (seg_count (gc_n g) data))) in
         let* m2 := (let* s := seg_acc (A := RA) (gc_n g) c (fun x => rd x d2) data in Ok (s / INR (seg_count (gc_n g) data))) in
         Ok (s / INR (seg_count (gc_n g) data) - m1 * m2)) = Ok (plain_cov SF d1 d2)).
      { intros d1 d2 H1 H2. eapply bind_eq.
        - apply (seg_acc_ok (gc_n g) c (gc_dim g) Hc (fun x : list R => let* a := rd x d1 in let* b := rd x d2 in Ok (a * b)) (fun x => nth d1 x 0 * nth d2 x 0) data Hf).
          intros x Lx. rewrite (rd_nth x d1 0), (rd_nth x d2 0) by lia. reflexivity.
        - eapply bind_eq; [apply (ME d1 H1)|]. eapply bind_eq; [apply (ME d2 H2)|]. rewrite (seg_count_ok (gc_n g) c Hc). apply (f_equal (@Ok _)).
          apply (plain_cov_alt SF d1 d2). apply (seg_nonempty c Hc). }
      rewrite nN_RA. cbn [nadd nsub nmul ndiv RA]. change (num RA) with R in *. rewrite FM, FD in W2, W3. rewrite FD in W1. rewrite FM in W4. rewrite FD in W4.
      destruct (gc_mode g) eqn:HM.
      - rewrite (tabM_ok _ _ (fun q => plain_cov SF (q / gc_dim g) (q mod gc_dim g))).
        + cbn [bind]. eexists. split; [reflexivity|]. split; [|split; [reflexivity|]].
          * split; [|rewrite HM; exact (conj FB (conj FD (conj FI FM)))]. unfold wf_gauss. cbn. rewrite FM, FD. cbn [csize]. split; [exact W1|]. split; [apply tab_length|]. exact (conj W3 W4).
          * intros i j Hi Hj. unfold gcov. cbn [g_mode g_dim g_cov g_set_cov]. rewrite FM, FD. cbn [stored]. unfold rcell.
            rewrite nth_tab by (apply flat_lt; assumption). rewrite Nat.add_comm. rewrite Nat.div_add, Nat.mod_add by lia. rewrite Nat.div_small, Nat.mod_small by assumption. reflexivity.
        + intros q Hq. assert (gc_dim g <> O) by (intro X; rewrite X in Hq; cbn in Hq; lia). apply EE; [apply Nat.div_lt_upper_bound; assumption|apply Nat.mod_upper_bound; assumption].
      - rewrite (tabM_ok _ _ (fun d => plain_cov SF d d)) by (intros d Hd; apply EE; assumption).
        cbn [bind]. eexists. split; [reflexivity|]. split; [|split; [reflexivity|]].
        + split; [|rewrite HM; exact (conj FB (conj FD (conj FI FM)))]. unfold wf_gauss. cbn. rewrite FM, FD. cbn [csize]. split; [exact W1|]. split; [apply tab_length|]. exact (conj W3 W4).
        + intros i j Hi Hj. unfold gcov. cbn [g_mode g_dim g_cov g_set_cov]. rewrite FM, FD. cbn [stored]. destruct (Nat.eqb i j); [|reflexivity]. rewrite nth_tab by assumption. reflexivity. }
    exists cs. split; [eapply bind_eq; [exact E|reflexivity]|]. split; [exact L|exact P].
  Qed.
End Init.

Lemma init_total : forall (g : gclass RA) (dev : list R) (data : kdata RA), gm_shape g -> length dev = gc_dim g -> data <> [] ->
  Forall (Forall (fun x => length x = gc_dim g)) data -> (1 <= seg_count (gc_n g) data)%nat -> strong_abs g ->
  exists g' k', gm_init (A := RA) data dev g = Ok g' /\ km_train (gc_dim g) data [] (fun _ => n0 (A := RA)) (init_kmeans (gc_n g)) = Ok k' /\
    gm_ready g' /\ strong_reg g' /\ gc_reg g' = init_reg g dev /\
    gc_bim g' = gc_bim g /\ gc_dim g' = gc_dim g /\ gc_din g' = gc_din g /\ gc_win g' = gc_win g /\ gc_par g' = gc_par g /\
    (forall c, (c < gc_n g)%nat -> weight g' c = / INR (gc_n g)) /\
    (forall c, (c < gc_n g)%nat -> forall d, (d < gc_dim g)%nat -> gmean (comp_at g' c) d = nth (c * gc_dim g + d) (km_centers k') 0) /\
    (forall c, (c < gc_n g)%nat -> forall i j, (i < gc_dim g)%nat -> (j < gc_dim g)%nat -> gcov (comp_at g' c) i j = init_cov g dev data c i j).
Proof.
  intros g dev data Hs Hdev Hne Hf Hseg SA. pose proof Hs as (H1 & H2 & H3 & H4 & H5). unfold gm_init.
  destruct (default_ok g dev Hs Hdev) as (cs0 & E0 & L0 & F0 & _). change (num RA) with R in *. rewrite E0. cbn [bind].
  set (g0 := gc_set_reg (A := RA) (init_reg g dev) (gc_set_comp cs0 (gc_set_coef (A := RA) (repeat (/ INR (gc_n g)) (gc_n g)) g))).
  assert (Hs0 : gm_shape g0). { split; [exact H1|]. split; [apply repeat_length|]. split; [exact L0|]. split; [exact H4|exact F0]. }
  destruct (means_ok g0 dev data Hs0 Hdev Hne Hf) as (k' & cs1 & ET & E1 & L1 & P1). change (num RA) with R in *. rewrite E1. cbn [bind]. set (g1 := gc_set_comp cs1 g0).
  assert (Hs1 : gm_shape g1).
  { split; [exact H1|]. split; [apply repeat_length|]. split; [exact L1|]. split; [exact H4|]. apply (Forall_at _ _ no_gauss). change (gc_comp g1) with cs1. rewrite L1. intros c Hc. exact (proj1 (P1 c Hc)). }
  destruct (cov_ok g1 dev data Hs1 Hdev Hne Hf Hseg) as (cs2 & E2 & L2 & P2). change (num RA) with R in *. rewrite E2. cbn [bind]. set (g2 := gc_set_comp cs2 g1).
  assert (LR : length (init_reg g dev) = gc_dim g) by (unfold init_reg; rewrite map_length; exact Hdev).
  destruct (offset_ok g2) as (cs3 & E3 & F3).
  { apply (Forall_at _ _ no_gauss). change (gc_comp g2) with cs2. rewrite L2. intros c Hc. exact (proj1 (P2 c Hc)). }
  { exact (Nat.eq_le_incl _ _ (eq_sym LR)). }
  rewrite E3. cbn [bind]. set (g3 := gc_set_comp cs3 g2). change (gc_comp g2) with cs2 in F3.
  assert (L3 : length cs3 = gc_n g) by (rewrite <- (Forall2_len _ _ _ F3); exact L2).
  assert (RB : forall d, (d < gc_dim g)%nat -> gp_abs (gc_par g) <= nth d (init_reg g dev) 0).
  { intros d Hd. unfold init_reg. rewrite (nth_indep _ 0 (Rmax (gp_abs (gc_par g)) (gp_rel (gc_par g) * 0))) by (rewrite map_length, Hdev; exact Hd).
    rewrite (map_nth (fun s => Rmax (gp_abs (gc_par g)) (gp_rel (gc_par g) * s)) dev 0 d). apply Rmax_l. }
  assert (P3 : forall c, (c < gc_n g)%nat -> fits_class g (nth c cs3 no_gauss) /\
    (forall d, (d < gc_dim g)%nat -> gmean (nth c cs3 no_gauss) d = nth (c * gc_dim g + d) (km_centers k') 0) /\
    (forall i j, (i < gc_dim g)%nat -> (j < gc_dim g)%nat -> gcov (nth c cs3 no_gauss) i j = init_cov g dev data c i j)).
  { intros c Hc. destruct (P1 c Hc) as (_ & M1). destruct (P2 c Hc) as (_ & M2 & V2). destruct (Forall2_at _ _ _ F3 c no_gauss no_gauss ltac:(rewrite L2; exact Hc)) as (FC & M3 & V3).
    split; [exact FC|]. split.
    - intros d Hd. unfold gmean. rewrite M3, M2. apply (M1 d Hd).
    - intros i j Hi Hj. rewrite (V3 i j Hi Hj), (V2 i j Hi Hj). unfold init_cov. change (gc_reg g2) with (init_reg g dev). change (gc_mode g1) with (gc_mode g). change (gc_n g1) with (gc_n g).
      destruct (Nat.eqb_spec i j) as [EQ|NE]; [subst j; destruct (gc_mode g); reflexivity|]. destruct (gc_mode g); lra. }
  assert (PP : forall c, (c < gc_n g)%nat -> pos_cov (nth c cs3 no_gauss)).
  { intros c Hc. destruct (P3 c Hc) as ((W & FB & FD & FI & FM) & _ & V). unfold pos_cov. rewrite FM, FD. unfold strong_abs in SA.
    pose proof (fun v => plain_cov_psd (seg_frames (gc_n g) c data) (gc_dim g) v (seg_nonempty g dev data Hdev Hseg c Hc)) as PSD.
    destruct (gc_mode g) eqn:HM.
    - exists eps9. split; [lra|]. intro v. rewrite (qform_ext (gc_dim g) _ (fun i j => plain_cov (seg_frames (gc_n g) c data) i j + if Nat.eqb i j then nth i (init_reg g dev) 0 else 0)).
      + apply (regularized_pd (gc_dim g) _ (fun i => nth i (init_reg g dev) 0) eps9 PSD). intros d Hd. exact (Rle_trans _ _ _ SA (RB d Hd)).
      + intros i j Hi Hj. rewrite (V i j Hi Hj). unfold init_cov. rewrite HM. destruct (Nat.eqb_spec i j) as [EQ|NE]; [subst j; reflexivity|lra].
    - intros d Hd. rewrite (V d d Hd Hd). unfold init_cov. rewrite Nat.eqb_refl. specialize (RB d Hd).
      assert (0 <= plain_cov (seg_frames (gc_n g) c data) d d); [|lra].
      unfold plain_cov, avg at 1. apply Rmult_le_pos; [|left; apply Rinv_0_lt_compat, lt_0_INR; pose proof (seg_nonempty g dev data Hdev Hseg c Hc) as NE; destruct (seg_frames (gc_n g) c data); [contradiction|cbn; lia]].
      apply Rlsum_nonneg. intros y Hy. apply in_map_iff in Hy. destruct Hy as (x & <- & Hx). apply Rle_0_sqr. }
  destruct (inverses_ok g3) as (cs4 & E4 & F4).
  { apply (Forall_at _ _ no_gauss). change (gc_comp g3) with cs3. rewrite L3. intros c Hc. split; [exact (proj1 (proj1 (P3 c Hc)))|exact (PP c Hc)]. }
  exists (gc_set_comp cs4 g3), k'. change (gc_comp g3) with cs3 in F4. split; [exact E4|]. split; [exact ET|].
  assert (L4 : length cs4 = gc_n g) by (rewrite <- (Forall2_len _ _ _ F4); exact L3).
  assert (HW : forall c, (c < gc_n g)%nat -> nth c (repeat (/ INR (gc_n g)) (gc_n g)) 0 = / INR (gc_n g)) by (intros; rewrite (nth_indep _ 0 (/ INR (gc_n g))) by (rewrite repeat_length; assumption); apply nth_repeat).
  assert (N : 0 < INR (gc_n g)) by (apply lt_0_INR; lia).
  assert (P4 : forall c, (c < gc_n g)%nat -> same_params (nth c cs3 no_gauss) (nth c cs4 no_gauss) /\ wf_gauss (nth c cs4 no_gauss) /\ inverted (nth c cs4 no_gauss)).
  { intros c Hc. apply (Forall2_at _ _ _ F4). rewrite L3. exact Hc. }
  split.
  { split; [split; [exact H1|split; [apply repeat_length|split; [exact L4|split; [exact H4|]]]]|split; [|split]].
    - apply (Forall_at _ _ no_gauss). cbn [gc_comp gc_set_comp]. rewrite L4. intros c Hc. destruct (P4 c Hc) as (SP & W & _). exact (fits_same g _ _ (proj1 (P3 c Hc)) SP W).
    - apply (Forall_at _ _ no_gauss). cbn [gc_comp gc_set_comp]. rewrite L4. intros c Hc. exact (proj2 (proj2 (P4 c Hc))).
    - intros c Hc. change (0 <= nth c (repeat (/ INR (gc_n g)) (gc_n g)) 0). rewrite HW by exact Hc. left. apply Rinv_0_lt_compat, N.
    - change (Rsum (gc_n g) (fun c => nth c (repeat (/ INR (gc_n g)) (gc_n g)) 0) = 1). rewrite (Rsum_ext _ _ (fun _ => / INR (gc_n g))) by exact HW. rewrite Rsum_const. field. lra. }
  split. { split; [exact (Nat.eq_le_incl _ _ (eq_sym LR))|]. intros d Hd. change (gc_reg (gc_set_comp cs4 g3)) with (init_reg g dev).
    specialize (RB d Hd). unfold strong_abs in SA. change (gc_mode (gc_set_comp cs4 g3)) with (gc_mode g). destruct (gc_mode g); [exact (Rle_trans _ _ _ SA RB)|exact (Rlt_le_trans _ _ _ SA RB)]. }
  do 6 (split; [reflexivity|]). split; [exact HW|]. split; intros c Hc; destruct (P3 c Hc) as (_ & M & V); destruct (P4 c Hc) as (SP & _); unfold comp_at; cbn [gc_comp gc_set_comp].
  - intros d Hd. rewrite (gmean_same _ _ SP). apply M, Hd.
  - intros i j Hi Hj. rewrite (gcov_same _ _ SP). apply V; assumption.
Qed.
