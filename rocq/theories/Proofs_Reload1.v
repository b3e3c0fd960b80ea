(** Distributions: what their observers read, and the update of the inverses. *)
From Coq Require Import String List Bool Arith ZArith Lia.
From Verif Require Import Base BaseFacts Arith Model_Json Model_Matrix Model_Gaussian Model_GMM Spec_Gaussian Proofs_Rel.
Import ListNotations.
Local Open Scope nat_scope.

Section Gauss.
  Context {A : arith}.
  Local Notation T := (num A).

  (** What likelihoods and regressions read. *)
  Definition gcore (g : gauss A) : gauss A :=
    mkGauss (g_bim g) (g_dim g) 0 (g_din g) None (g_mode g) (g_mean g) (g_cov g) (g_inv g) (g_det g)
      (if g_bim g then g_inv_in g else []) (if g_bim g then g_det_in g else n0) (if g_bim g then g_out g else []) None.

  Ltac core := cbn [gcore g_bim g_dim g_din g_mode g_mean g_cov g_inv g_det g_inv_in g_det_in g_out].
  Lemma core_likelihood0 : forall g x, g_likelihood (gcore g) x = g_likelihood g x.
  Proof. intros g x. unfold g_likelihood. core. reflexivity. Qed.
  Lemma core_input0 : forall g x, g_likelihood_input (gcore g) x = g_likelihood_input g x.
  Proof. intros g x. unfold g_likelihood_input. core. destruct (g_bim g); reflexivity. Qed.
  Lemma core_bimodal0 : forall g x y, g_likelihood_bimodal (gcore g) x y = g_likelihood_bimodal g x y.
  Proof. intros g x y. unfold g_likelihood_bimodal. core. reflexivity. Qed.
  Lemma core_regression0 : forall g x, g_regression (gcore g) x = g_regression g x.
  Proof. intros g x. unfold g_regression. core. destruct (g_bim g); reflexivity. Qed.
  Lemma core_likelihood : forall g h x, gcore g = gcore h -> g_likelihood g x = g_likelihood h x.
  Proof. intros g h x E. rewrite <- (core_likelihood0 g), <- (core_likelihood0 h), E. reflexivity. Qed.
  Lemma core_input : forall g h x, gcore g = gcore h -> g_likelihood_input g x = g_likelihood_input h x.
  Proof. intros g h x E. rewrite <- (core_input0 g), <- (core_input0 h), E. reflexivity. Qed.
  Lemma core_bimodal : forall g h x y, gcore g = gcore h -> g_likelihood_bimodal g x y = g_likelihood_bimodal h x y.
  Proof. intros g h x y E. rewrite <- (core_bimodal0 g), <- (core_bimodal0 h), E. reflexivity. Qed.
  Lemma core_regression : forall g h x, gcore g = gcore h -> g_regression g x = g_regression h x.
  Proof. intros g h x E. rewrite <- (core_regression0 g), <- (core_regression0 h), E. reflexivity. Qed.
  Lemma core_out : forall g h, gcore g = gcore h -> g_bim g = true -> g_out g = g_out h.
  Proof. intros g h E B. unfold gcore in E. injection E. intros. rewrite B in *. destruct (g_bim h); congruence. Qed.
  Lemma core_bim : forall g h, gcore g = gcore h -> g_bim g = g_bim h.
  Proof. intros g h E. unfold gcore in E. congruence. Qed.

  (** ** Running code with a state *)
  Lemma run_bind : forall {S} (m : stm S unit) (k : stm S unit) s, runm (do* _ := m in k) s = let* s := runm m s in runm k s.
  Proof. intros S m k s. unfold runm, sbind. destruct (m s) as [s' [[]| e |]]; reflexivity. Qed.
  Lemma run_lift : forall {S X} (r : res X) (f : X -> stm S unit) s, runm (sbind (slift r) f) s = let* x := r in runm (f x) s.
  Proof. intros S X [x| e |] f s; reflexivity. Qed.
  Lemma run_get : forall {S} (f : S -> stm S unit) s, runm (sbind sget f) s = runm (f s) s.
  Proof. reflexivity. Qed.
  Lemma run_mod : forall {S} (f : S -> S) s, runm (smod f) s = Ok (f s).
  Proof. reflexivity. Qed.
  Lemma run_when : forall {S} b (m : stm S unit) s, runm (swhen b m) s = if b then runm m s else Ok s.
  Proof. intros S [|] m s; reflexivity. Qed.
  Lemma run_throw : forall {S} e (s : S), runm (sthrow e) s = Throw e.
  Proof. reflexivity. Qed.
  Lemma run_if : forall {S} (b : bool) (m n : stm S unit) s, runm (if b then m else n) s = if b then runm m s else runm n s.
  Proof. intros S [|] m n s; reflexivity. Qed.
  Lemma run_pair : forall {S X Y} (p : X * Y) (f : X -> Y -> stm S unit) s, runm (let (x, y) := p in f x y) s = let (x, y) := p in runm (f x y) s.
  Proof. intros S X Y [x y] f s. reflexivity. Qed.

  (** ** The output covariance *)
  Definition same_shape (g h : gauss A) : Prop := same_params g h.

  (** The fields that an update leaves alone. *)
  Definition frame (g a : gauss A) : Prop :=
    g_bim a = g_bim g /\ g_dim a = g_dim g /\ g_dim_min a = g_dim_min g /\ g_din a = g_din g /\ g_din_max a = g_din_max g /\ g_mode a = g_mode g /\
    g_mean a = g_mean g /\ g_cov a = g_cov g /\ g_owner a = g_owner g.

  Lemma frame_same : forall g a, frame g a -> same_params g a.
  Proof. unfold frame, same_params. intuition. Qed.
  Lemma frame_refl : forall g, frame g g.
  Proof. unfold frame. intuition. Qed.
  Lemma frame_trans : forall g a b, frame g a -> frame a b -> frame g b.
  Proof. unfold frame. intuition congruence. Qed.

  Lemma block_cov : forall (g h : gauss A) r c i j, g_cov g = g_cov h -> g_dim g = g_dim h -> cov_block g r c i j = cov_block h r c i j.
  Proof. intros g h r c i j E F. unfold cov_block. rewrite E, F. reflexivity. Qed.

  Lemma grid_eq : forall no (f : nat -> nat -> res T) (v w : list T), length v = no * no -> length w = no * no ->
    iterM no (fun d1 o => iterM no (fun d2 o => let* x := f d1 d2 in wr o (d1 * no + d2) x) o) v =
    iterM no (fun d1 o => iterM no (fun d2 o => let* x := f d1 d2 in wr o (d1 * no + d2) x) o) w.
  Proof.
    intros no f v w L1 L2. apply rr_eq.
    assert (G : res_rel (fun a b => agree (no * no) a b /\ length a = no * no)
      (iterM no (fun d1 o => iterM no (fun d2 o => let* x := f d1 d2 in wr o (d1 * no + d2) x) o) v)
      (iterM no (fun d1 o => iterM no (fun d2 o => let* x := f d1 d2 in wr o (d1 * no + d2) x) o) w)).
    { apply (rr_iter no (fun i a b => agree (i * no) a b /\ length a = no * no)).
      - split; [apply agree_0; congruence|exact L1].
      - intros i a b Hi [Ha La]. assert (EQ : S i * no = i * no + no) by (cbn; lia). rewrite EQ.
        apply (rr_iter no (fun j a b => agree (i * no + j) a b /\ length a = no * no)).
        + rewrite Nat.add_0_r. auto.
        + intros j a' b' Hj [Ha' La']. apply rr_step. intros x _. rewrite Nat.add_succ_r.
          pose proof (agree_wr (i * no + j) a' b' x Ha') as W. inversion W as [p q G E1 E2| |]; constructor. split; auto.
          unfold wr in E1. destruct (i * no + j <? length a'); inversion E1. rewrite upd_len. exact La'. }
    eapply rr_impl; [exact G|]. intros a b [H L]. eapply agree_all; [exact H|]. lia.
  Qed.

  (** [grid_eq] in the form of the code. *)
  Lemma out_eq : forall (g h : gauss A) (md : matrix) no, g_cov g = g_cov h -> g_dim g = g_dim h -> g_din g = g_din h ->
    iterM no (fun d1 o => iterM no (fun d2 o =>
      let* x := rd (g_cov g) ((g_din g + d1) * g_dim g + g_din g + d2) in let* y := rd (m_data md) (d1 * no + d2) in
      wr o (d1 * no + d2) (x - y)%num) o) (vresize (no * no) n0 (g_out g)) =
    iterM no (fun d1 o => iterM no (fun d2 o =>
      let* x := rd (g_cov h) ((g_din h + d1) * g_dim h + g_din h + d2) in let* y := rd (m_data md) (d1 * no + d2) in
      wr o (d1 * no + d2) (x - y)%num) o) (vresize (no * no) n0 (g_out h)).
  Proof.
    intros g h md no E1 E2 E3. rewrite E1, E2, E3.
    set (f := fun d1 d2 => let* x := rd (g_cov h) ((g_din h + d1) * g_dim h + g_din h + d2) in let* y := rd (m_data md) (d1 * no + d2) in Ok (x - y)%num).
    assert (H : forall v, iterM no (fun d1 o => iterM no (fun d2 o =>
      let* x := rd (g_cov h) ((g_din h + d1) * g_dim h + g_din h + d2) in let* y := rd (m_data md) (d1 * no + d2) in
      wr o (d1 * no + d2) (x - y)%num) o) v = iterM no (fun d1 o => iterM no (fun d2 o => let* x := f d1 d2 in wr o (d1 * no + d2) x) o) v).
    { intro v. apply iterM_ext. intros i s _. apply iterM_ext. intros j s' _. unfold f.
      destruct (rd (g_cov h) _); cbn; auto. destruct (rd (m_data md) _); reflexivity. }
    rewrite !H. apply grid_eq; apply vresize_length.
  Qed.

  Definition out_rel (g h a b : gauss A) : Prop :=
    frame g a /\ frame h b /\ g_out a = g_out b /\
    g_inv a = g_inv g /\ g_det a = g_det g /\ g_inv_in a = g_inv_in g /\ g_det_in a = g_det_in g /\
    g_inv b = g_inv h /\ g_det b = g_det h /\ g_inv_in b = g_inv_in h /\ g_det_in b = g_det_in h.

  Lemma out_sim : forall g h, same_params g h -> res_rel (out_rel g h) (runm g_update_out g) (runm g_update_out h).
  Proof.
    intros g h (E1 & E2 & E3 & E4 & E5 & E6). unfold g_update_out. rewrite !run_get. rewrite E1, E4, E2, E3.
    destruct (g_bim h) eqn:B; cbn [negb]; [|rewrite !run_throw; constructor].
    rewrite !run_lift. apply rr_step. intros no Hno. destruct (g_mode h) eqn:M.
    - rewrite !run_lift. rewrite (block_cov g h) by congruence. apply rr_step. intros ci _.
      rewrite !run_lift. apply rr_step. intros [inv d] _.
      rewrite !run_lift. rewrite (block_cov g h) by congruence. apply rr_step. intros gs _.
      rewrite !run_lift. rewrite (block_cov g h) by congruence. apply rr_step. intros sg _.
      rewrite !run_lift. apply rr_step. intros t _. rewrite !run_lift. apply rr_step. intros md _.
      rewrite !run_lift. pose proof (out_eq g h md no E6 E2 E3) as O. rewrite E2, E3 in O. rewrite O.
      apply rr_step. intros o _. rewrite !run_mod. constructor. unfold out_rel, frame. cbn. intuition congruence.
    - rewrite !run_lift. rewrite E6.
      rewrite (fill_eq no (fun i => rd (g_cov h) (g_din h + i)) (vresize no n0 (g_out g)) (vresize no n0 (g_out h))) by (rewrite !vresize_length; lia).
      apply rr_step. intros o _. rewrite !run_mod. constructor. unfold out_rel, frame. cbn. intuition congruence.
  Qed.

  (** ** The inverses *)
  Definition inv_rel (g h a b : gauss A) : Prop :=
    frame g a /\ frame h b /\ gcore a = gcore b /\ wf_gauss a /\ wf_gauss b /\
    (g_bim g = false -> g_inv_in a = g_inv_in g /\ g_out a = g_out g /\ g_det_in a = match g_mode g with Full => g_det_in g | Diagonal => n1 end) /\
    (g_bim h = false -> g_inv_in b = g_inv_in h /\ g_out b = g_out h /\ g_det_in b = match g_mode h with Full => g_det_in h | Diagonal => n1 end).

  Lemma wr_length : forall {X} (v w : list X) i x, wr v i x = Ok w -> length w = length v.
  Proof. intros X v w i x E. unfold wr in E. destruct (i <? length v); inversion E. apply upd_len. Qed.
  Lemma fill_length : forall {X} n (f : nat -> res X) v w, iterM n (fun i d => let* x := f i in wr d i x) v = Ok w -> length w = length v.
  Proof.
    intros X n f v w E. apply (iterM_inv_ok (fun _ d => length d = length v) n (fun i d => let* x := f i in wr d i x) v); auto.
    intros i s s' _ L G. apply bind_ok_inv in G. destruct G as (x & _ & G). rewrite (wr_length _ _ _ _ G). exact L.
  Qed.

  Lemma wf_frame : forall a p : gauss A, wf_gauss a -> frame a p -> g_inv p = g_inv a -> g_inv_in p = g_inv_in a -> wf_gauss p.
  Proof.
    unfold wf_gauss, frame. intros a p (W1 & W2 & W3 & W4) (F1 & F2 & F3 & F4 & F5 & F6 & F7 & F8 & F9) E1 E2.
    rewrite F1, F2, F4, F6, F7, F8, E1, E2. auto.
  Qed.

  (** After the first part, a last step on both sides. *)
  Lemma last_out : forall g h a b, g_bim h = g_bim g -> frame g a -> frame h b -> same_params g h -> wf_gauss a -> wf_gauss b ->
    g_inv a = g_inv b -> g_det a = g_det b -> (g_bim g = true -> g_inv_in a = g_inv_in b /\ g_det_in a = g_det_in b) ->
    (g_bim g = false -> g_inv_in a = g_inv_in g /\ g_out a = g_out g /\ g_det_in a = match g_mode g with Full => g_det_in g | Diagonal => n1 end) ->
    (g_bim h = false -> g_inv_in b = g_inv_in h /\ g_out b = g_out h /\ g_det_in b = match g_mode h with Full => g_det_in h | Diagonal => n1 end) ->
    res_rel (inv_rel g h) (if g_bim g then runm g_update_out a else Ok a) (if g_bim h then runm g_update_out b else Ok b).
  Proof.
    intros g h a b BB Fa Fb SP Wa Wb E1 E2 E3 Ua Ub. rewrite BB in *. 
    pose proof Fa as (B1 & _). pose proof Fb as (B2 & _).
    assert (S2 : same_params a b).
    { unfold frame, same_params in *. intuition congruence. }
    destruct (g_bim g) eqn:B.
    - eapply rr_impl; [apply out_sim; exact S2|]. intros p q (Fp & Fq & O & P1 & P2 & P3 & P4 & Q1 & Q2 & Q3 & Q4).
      assert (Fgp : frame g p) by (eapply frame_trans; eassumption). assert (Fhq : frame h q) by (eapply frame_trans; eassumption).
      destruct (E3 eq_refl) as (E31 & E32). split; [exact Fgp|]. split; [exact Fhq|]. split.
      { unfold gcore. unfold frame, same_params in *. destruct Fgp as (?&?&?&?&?&?&?&?&?). destruct Fhq as (?&?&?&?&?&?&?&?&?).
        assert (g_bim p = true) as -> by congruence. assert (g_bim q = true) as -> by congruence. f_equal; intuition congruence. }
      split; [|split; [|split; intro Z; congruence]].
      + apply (wf_frame a p); assumption.
      + apply (wf_frame b q); assumption.
    - constructor. split; [exact Fa|]. split; [exact Fb|]. split.
      { unfold gcore. unfold frame, same_params in *. assert (g_bim a = false) as -> by congruence. assert (g_bim b = false) as -> by congruence. f_equal; intuition congruence. }
      split; [exact Wa|]. split; [exact Wb|]. split; auto.
  Qed.

  Lemma copy_length : forall (v : list T) n d w, copy_vec v n d = Ok w -> length w = length d.
  Proof. intros v n d w E. unfold copy_vec in E. apply (fill_length n (rd v) d w E). Qed.

  Lemma inv_sim_full : forall g h, wf_gauss g -> wf_gauss h -> same_params g h -> g_mode h = Full ->
    res_rel (inv_rel g h) (runm g_update_inv g) (runm g_update_inv h).
  Proof.
    intros g h Wg Wh SP M. pose proof SP as (E1 & E2 & E3 & E4 & E5 & E6). pose proof Wg as (G1 & G2 & G3 & G4). pose proof Wh as (H1 & H2 & H3 & H4).
    rewrite E4, M, E2 in G3. rewrite M in H3. cbn [csize] in *.
    unfold g_update_inv. rewrite !run_get. rewrite E4, M.
    rewrite !run_bind. rewrite !run_lift. rewrite E2, E6. destruct (mat_pinv (mkMat (g_dim h) (g_dim h) (g_cov h))) as [[inv det]| e |]; cbn [bind]; try solve [constructor].
    rewrite !run_bind, !run_mod. cbn [bind]. rewrite !run_lift.
    assert (EC : copy_vec (m_data inv) (g_dim h * g_dim h) (g_inv g) = copy_vec (m_data inv) (g_dim h * g_dim h) (g_inv h)).
    { unfold copy_vec. apply fill_eq; lia. }
    rewrite EC. destruct (copy_vec (m_data inv) (g_dim h * g_dim h) (g_inv h)) as [v| e |] eqn:CV; cbn [bind]; try solve [constructor].
    apply copy_length in CV. rewrite !run_bind, !run_mod. cbn [bind]. rewrite !run_when.
    rewrite E1. destruct (g_bim h) eqn:B.
    - rewrite !run_lift. rewrite (block_cov g h) by congruence. rewrite E3. destruct (cov_block h (g_din h) (g_din h) 0 0) as [ci| e |]; cbn [bind]; try solve [constructor].
      rewrite !run_lift. destruct (mat_pinv ci) as [[inv' det']| e |]; cbn [bind]; try solve [constructor].
      rewrite !run_bind, !run_mod. cbn [bind]. rewrite !run_lift.
      destruct (G4 E1) as (G41 & G42). destruct (H4 eq_refl) as (H41 & H42). rewrite E4, M, E3 in G42. rewrite M in H42. cbn [csize] in *.
      assert (ED : copy_vec (m_data inv') (g_din h * g_din h) (g_inv_in g) = copy_vec (m_data inv') (g_din h * g_din h) (g_inv_in h)).
      { unfold copy_vec. apply fill_eq; lia. }
      rewrite ED. destruct (copy_vec (m_data inv') (g_din h * g_din h) (g_inv_in h)) as [v'| e |] eqn:CV'; cbn [bind]; try solve [constructor].
      apply copy_length in CV'. rewrite !run_mod. cbn [bind]. rewrite !run_when.
      match goal with |- res_rel _ (runm _ ?a) (runm _ ?b) => pose proof (last_out g h a b) as L end.
      rewrite E1, B in L. apply L; clear L; auto; try (intro; discriminate); try (unfold frame; cbn; intuition; fail).
      + unfold wf_gauss. cbn. rewrite E4, M, E2, E3. cbn [csize]. rewrite E1. repeat split; try lia; try congruence; auto.
        rewrite G2, E4, M, E2. reflexivity.
      + unfold wf_gauss. cbn. rewrite M. cbn [csize]. repeat split; try lia; auto. rewrite H2, M. reflexivity.
    - cbn [bind]. rewrite !run_when. match goal with |- res_rel _ (Ok ?a) (Ok ?b) => pose proof (last_out g h a b) as L end.
      rewrite E1, B in L. apply L; clear L; auto; try (intro; discriminate); try (unfold frame; cbn; intuition; fail).
      + unfold wf_gauss. cbn. rewrite E4, M, E2, E3. cbn [csize]. rewrite E1. repeat split; try lia; try congruence; auto; try discriminate.
        rewrite G2, E4, M, E2. reflexivity.
      + unfold wf_gauss. cbn. rewrite M, B. cbn [csize]. repeat split; try lia; auto; try discriminate. rewrite H2, M. reflexivity.
      + intros _. cbn. rewrite E4, M. auto.
      + intros _. cbn. rewrite M. auto.
  Qed.
  Lemma run_foreach : forall {S X} (l : list X) (f : X -> stm S unit) s, runm (sforeach l f) s = foldM (fun s x => runm (f x) s) l s.
  Proof. induction l as [|x l IH]; intros f s; [reflexivity|]. cbn [sforeach foldM]. rewrite run_bind. destruct (runm (f x) s); cbn; auto. Qed.
  Lemma foldM_app : forall {S X} (f : S -> X -> res S) l1 l2 s, foldM f (l1 ++ l2) s = let* s := foldM f l1 s in foldM f l2 s.
  Proof. induction l1 as [|x l1 IH]; intros l2 s; cbn; auto. destruct (f s x); cbn; auto. Qed.
  Lemma foldM_iter : forall {S} n (f : nat -> S -> res S) s, foldM (fun s i => f i s) (seq 0 n) s = iterM n f s.
  Proof.
    induction n; intros f s; [reflexivity|]. rewrite seq_S, foldM_app, IHn. cbn. destruct (iterM n f s); cbn; auto. destruct (f n a); auto.
  Qed.

  Definition diag_rel (g h : gauss A) (d : nat) (a b : gauss A) : Prop :=
    frame g a /\ frame h b /\ agree d (g_inv a) (g_inv b) /\ length (g_inv a) = g_dim g /\ g_det a = g_det b /\
    g_out a = g_out g /\ g_out b = g_out h /\
    (g_bim g = true -> agree (Nat.min d (g_din g)) (g_inv_in a) (g_inv_in b) /\ length (g_inv_in a) = g_din g /\ g_det_in a = g_det_in b) /\
    (g_bim g = false -> g_inv_in a = g_inv_in g /\ g_det_in a = n1 /\ g_inv_in b = g_inv_in h /\ g_det_in b = n1).

  Lemma inv_sim_diag : forall g h, wf_gauss g -> wf_gauss h -> same_params g h -> g_mode h = Diagonal ->
    res_rel (inv_rel g h) (runm g_update_inv g) (runm g_update_inv h).
  Proof.
    intros g h Wg Wh SP M. pose proof SP as (E1 & E2 & E3 & E4 & E5 & E6). pose proof Wg as (G1 & G2 & G3 & G4). pose proof Wh as (H1 & H2 & H3 & H4).
    rewrite E4, M in G2, G3. rewrite M in H2, H3. cbn [csize] in *.
    unfold g_update_inv. rewrite !run_get. rewrite E4, M. rewrite !run_bind, !run_mod. cbn [bind]. rewrite !run_bind, !run_mod. cbn [bind].
    rewrite !run_foreach. rewrite !foldM_iter. rewrite E2.
    apply (rr_bind (diag_rel g h (g_dim h))).
    - apply (rr_iter (g_dim h) (diag_rel g h)).
      + unfold diag_rel, frame. cbn. repeat split; auto; try (intros; lia); try congruence.
        * destruct (G4 H) as (_ & L1). destruct (H4 ltac:(congruence)) as (_ & L2). rewrite E4, M in L1. rewrite M in L2. cbn in *. congruence.
        * destruct (G4 H) as (_ & L1). rewrite E4, M in L1. exact L1.
      + intros d a b Hd (Fa & Fb & AG & LA & DT & O1 & O2 & BI & UN). rewrite !run_get. rewrite !run_lift.
        pose proof Fa as (a1 & a2 & a3 & a4 & a5 & a6 & a7 & a8 & a9). pose proof Fb as (b1 & b2 & b3 & b4 & b5 & b6 & b7 & b8 & b9).
        assert (CC : g_cov a = g_cov b) by congruence. rewrite CC. apply rr_step. intros c _. rewrite !run_if, !run_throw. destruct (c <=? n0)%num; [constructor|].
        rewrite !run_lift. pose proof (agree_wr d (g_inv a) (g_inv b) (n1 / c)%num AG) as W.
        destruct (wr (g_inv a) d (n1 / c)%num) as [va| e |] eqn:Wa; destruct (wr (g_inv b) d (n1 / c)%num) as [vb| e' |] eqn:Wb; inversion W; subst; cbn [bind]; try solve [constructor].
        rewrite !run_bind, !run_mod. cbn [bind]. rewrite !run_bind, !run_mod. cbn [bind]. rewrite !run_when. rewrite a1, b1, <- E1, E3. rename H5 into AG'.
        pose proof (wr_length _ _ _ _ Wa) as LV. destruct (g_bim g) eqn:B; cbn [andb].
        * destruct (BI eq_refl) as (BA & BL & BD). destruct (d <? g_din h) eqn:DM.
          -- apply Nat.ltb_lt in DM. rewrite !run_lift. cbn [g_inv_in g_set_det g_set_inv].
             assert (MN : Nat.min d (g_din g) = d) by lia. rewrite MN in BA.
             pose proof (agree_wr d (g_inv_in a) (g_inv_in b) (n1 / c)%num BA) as W'.
             destruct (wr (g_inv_in a) d (n1 / c)%num) as [ua| e |] eqn:Wa'; destruct (wr (g_inv_in b) d (n1 / c)%num) as [ub| e' |] eqn:Wb'; inversion W'; subst; cbn [bind]; try solve [constructor].
             rewrite !run_bind, !run_mod. cbn [bind]. constructor. pose proof (wr_length _ _ _ _ Wa') as LV'.
             unfold diag_rel, frame. cbn -[Nat.min]. replace (Nat.min (S d) (g_din g)) with (S d) by lia. repeat split; auto; try congruence; try (match goal with H : agree _ ?u _ |- length ?u = _ => destruct H; assumption | H : agree _ ?u _ |- forall i, _ -> nth_error ?u i = _ => destruct H; assumption end).
          -- apply Nat.ltb_ge in DM. constructor. unfold diag_rel, frame. cbn -[Nat.min].
             replace (Nat.min (S d) (g_din g)) with (Nat.min d (g_din g)) by lia. repeat split; auto; try congruence; try (destruct AG'; assumption); try (destruct BA; assumption).
        * constructor. unfold diag_rel, frame. cbn. destruct (UN eq_refl) as (U1 & U2 & U3 & U4). repeat split; auto; try congruence; try (destruct AG'; assumption).
    - intros a b (Fa & Fb & AG & LA & DT & O1 & O2 & BI & UN). rewrite !run_when.
      pose proof Fa as (a1 & a2 & a3 & a4 & a5 & a6 & a7 & a8 & a9). pose proof Fb as (b1 & b2 & b3 & b4 & b5 & b6 & b7 & b8 & b9).
      assert (IE : g_inv a = g_inv b) by (eapply agree_all; [exact AG|lia]).
      assert (IN : g_bim g = true -> g_inv_in a = g_inv_in b /\ length (g_inv_in a) = g_din g /\ g_det_in a = g_det_in b).
      { intro B. destruct (BI B) as (BA & BL & BD). destruct (G4 B) as (LE & _). split; [|auto]. eapply agree_all; [exact BA|]. lia. }
      apply last_out; auto; try congruence.
      + unfold wf_gauss. rewrite a1, a2, a4, a6, a7, a8, LA, E4, M. cbn [csize]. repeat split; auto; try congruence.
        * destruct (G4 H). lia.
        * destruct (IN H) as (_ & L & _). exact L.
      + unfold wf_gauss. rewrite b1, b2, b4, b6, b7, b8, <- IE, LA, M. cbn [csize]. repeat split; auto; try congruence.
        * destruct (H4 H). lia.
        * destruct (IN ltac:(congruence)) as (L1 & L & _). rewrite <- L1, L. congruence.
      + intro B. destruct (IN B) as (? & _ & ?). auto.
      + intro B. destruct (UN B) as (U1 & U2 & U3 & U4). rewrite E4, M. auto.
      + intro B. destruct (UN ltac:(congruence)) as (U1 & U2 & U3 & U4). rewrite M. auto.
  Qed.

  Lemma inv_sim : forall g h, wf_gauss g -> wf_gauss h -> same_params g h -> res_rel (inv_rel g h) (runm g_update_inv g) (runm g_update_inv h).
  Proof. intros g h Wg Wh SP. destruct (g_mode h) eqn:M; [apply inv_sim_full|apply inv_sim_diag]; auto. Qed.

  (** Updating twice is updating once. *)
  Lemma inv_twice : forall g a, wf_gauss g -> runm g_update_inv g = Ok a -> runm g_update_inv a = Ok a /\ wf_gauss a /\ frame g a.
  Proof.
    intros g a W E. pose proof (inv_sim g g W W (frame_same g g (frame_refl g))) as R0. rewrite E in R0. inversion R0 as [x y (F & _ & _ & Wa & _ & U & _) E1 E2| |]. subst.
    split; [|split; [exact Wa|exact F]].
    pose proof (inv_sim g a W Wa (frame_same g a F)) as R1. rewrite E in R1. inversion R1 as [x y (_ & Fb & C & _ & Wb & _ & Ub) E3 E4| |]. subst. f_equal.
    destruct F as (a1 & a2 & a3 & a4 & a5 & a6 & a7 & a8 & a9). destruct Fb as (b1 & b2 & b3 & b4 & b5 & b6 & b7 & b8 & b9).
    unfold gcore in C. destruct (g_bim a) eqn:B.
    - destruct a, y. cbn in *. subst. injection C. intros. subst. reflexivity.
    - destruct (U ltac:(congruence)) as (U1 & U2 & U3). destruct (Ub eq_refl) as (V1 & V2 & V3). destruct a, y. cbn in *. subst. injection C. intros. subst. f_equal.
      match goal with |- context [match ?m with Full => _ | Diagonal => _ end] => destruct m; reflexivity end.
  Qed.
End Gauss.
