(** Mixtures: two classes with the same parameters recognise alike after a reset. *)
From Coq Require Import String List Bool Arith ZArith Lia.
From Verif Require Import Base BaseFacts Arith Model_Json Model_Ring Model_Gaussian Model_Config Model_GMM Model_HMM Model_Reload Spec_Gaussian Spec_Reload
  Proofs_Rel Proofs_Reload1.
Import ListNotations.
Local Open Scope nat_scope.

Section Class.
  Context {A : arith}.
  Local Notation T := (num A).

  (** ** Buffers *)
  Definition ring_eqv (r s : ring T) : Prop :=
    exists a b, r_data r = [a] /\ r_data s = [b] /\ length a = r_length r /\ length b = r_length r /\ r_length s = r_length r /\ r_index s = r_index r /\
      (r_length r = 1 \/ r_full s = r_full r /\ forall i, i < ring_size_t r -> nth_error a i = nth_error b i).

  Lemma push_sim : forall r s v, ring_eqv r s ->
    res_rel (fun p q => ring_eqv p q /\ r_full q = r_full p /\ forall i, ring_get p 0 i = ring_get q 0 i) (ring_push1 r v) (ring_push1 s v).
  Proof.
    intros r s v (a & b & D1 & D2 & L1 & L2 & EL & EI & AG). unfold ring_push1. rewrite D1, D2. cbn [length Nat.ltb Nat.leb]. change (1 <? 1) with false. cbn iota.
    unfold rd. cbn [nth_error bind]. unfold wr at 1 3. rewrite L1, L2, EI. destruct (r_index r <? r_length r) eqn:LT; cbn [bind]; [|constructor]. apply Nat.ltb_lt in LT.
    unfold wr. cbn [length Nat.ltb Nat.leb bind upd]. change (0 <? 1) with true. cbn [bind]. unfold ring_advance. rewrite EL, EI.
    destruct (r_length r =? 0) eqn:Z; [constructor|]. apply Nat.eqb_neq in Z. constructor.
    set (i := r_index r) in *. set (L := r_length r) in *.
    assert (FE : (if S i =? L then true else r_full s) = (if S i =? L then true else r_full r)).
    { destruct (S i =? L) eqn:SI; auto. apply Nat.eqb_neq in SI. destruct AG as [O|[F _]]; auto. lia. }
    set (full := if S i =? L then true else r_full r) in *.
    assert (AG' : forall j, j < (if full then L else S i mod L) -> nth_error (upd a i v) j = nth_error (upd b i v) j).
    { intros j Hj. destruct (Nat.eq_dec j i) as [->|NE].
      - rewrite !nth_error_upd_same; auto; lia.
      - rewrite !nth_error_upd_other by auto. unfold full in Hj. destruct (S i =? L) eqn:SI.
        + apply Nat.eqb_eq in SI. destruct AG as [O|[F G]]; [lia|]. apply G. unfold ring_size_t. fold L i. destruct (r_full r); lia.
        + apply Nat.eqb_neq in SI. destruct AG as [O|[F G]]; [lia|]. apply G. unfold ring_size_t. fold L i. destruct (r_full r); auto.
          rewrite Nat.mod_small in Hj by lia. lia. }
    split; [|split].
    - exists (upd a i v), (upd b i v). cbn [r_data r_length r_index r_full]. rewrite !upd_len. repeat split; auto.
    - cbn. exact FE.
    - intro j. unfold ring_get. cbn [r_data]. cbn [length Nat.leb]. unfold ring_size_t. cbn [r_full r_length r_index]. rewrite FE.
      destruct ((if full then L else S i mod L) <=? j) eqn:LE; auto. apply Nat.leb_gt in LE. unfold rd. cbn [nth_error bind]. rewrite AG' by exact LE. reflexivity.
  Qed.

  Lemma accM_ext : forall n (f f' : nat -> res T) a, (forall i, i < n -> f i = f' i) -> accM n f a = accM n f' a.
  Proof. intros n f f' a H. unfold accM. apply iterM_ext. intros i s Hi. rewrite H by exact Hi. reflexivity. Qed.

  Lemma smooth_sim : forall r s v, ring_eqv r s -> res_rel (fun p q => ring_eqv (fst p) (fst q) /\ snd p = snd q) (smooth r v) (smooth s v).
  Proof.
    intros r s v H. unfold smooth. eapply rr_bind; [apply push_sim; exact H|]. intros p q (E & F & G).
    assert (SZ : ring_size_t p = ring_size_t q). { destruct E as (a & b & _ & _ & _ & _ & EL & EI & _). unfold ring_size_t. rewrite F, EL, EI. reflexivity. }
    rewrite (accM_ext (ring_size_t q) (fun i => ring_get q 0 i) (fun i => ring_get p 0 i)) by (intros; symmetry; apply G).
    rewrite <- SZ. apply rr_step. intros t _. constructor. cbn. auto.
  Qed.

  (** ** Classes *)
  Definition comps_sim (l l' : list (gauss A)) : Prop := Forall2 (fun k k' => gcore k = gcore k') l l'.

  (** Same parameters. *)
  Definition gsim0 (g h : gclass A) : Prop :=
    gc_bim g = gc_bim h /\ gc_dim g = gc_dim h /\ gc_din g = gc_din h /\ gc_win g = gc_win h /\ gc_n g = gc_n h /\ gc_mode g = gc_mode h /\
    gc_coef g = gc_coef h /\ comps_sim (gc_comp g) (gc_comp h) /\ length (gc_beta g) = gc_n g /\ length (gc_beta h) = gc_n h.
  Definition gsim (g h : gclass A) : Prop := gsim0 g h /\ ring_eqv (gc_buf g) (gc_buf h).

  Lemma rd_core : forall {Y} (l l' : list (gauss A)) c (f : gauss A -> res Y), comps_sim l l' -> (forall k k', gcore k = gcore k' -> f k = f k') ->
    bind (rd l c) f = bind (rd l' c) f.
  Proof. intros Y l l' c f H F. apply rr_eq. eapply rr_bind; [apply forall2_rd; exact H|]. intros a b E. apply rr_refl. apply F. exact E. Qed.

  Lemma obs_sim : forall g h x c, gsim0 g h -> gm_obs g x c = gm_obs h x c.
  Proof.
    intros g h x c (E1 & E2 & E3 & E4 & E5 & E6 & E7 & E8 & _). unfold gm_obs. rewrite E5, E7. destruct (gc_n h <=? c); auto. destruct (rd (gc_coef h) c); cbn; auto.
    apply rd_core; auto. intros k k' E. rewrite (core_likelihood k k' x E). reflexivity.
  Qed.
  Lemma obs_input_sim : forall g h x c, gsim0 g h -> gm_obs_input g x c = gm_obs_input h x c.
  Proof.
    intros g h x c (E1 & E2 & E3 & E4 & E5 & E6 & E7 & E8 & _). unfold gm_obs_input. rewrite E1, E7. destruct (gc_bim h); cbn; auto. destruct (rd (gc_coef h) c); cbn; auto.
    apply rd_core; auto. intros k k' E. rewrite (core_input k k' x E). reflexivity.
  Qed.
  Lemma obs_bim_sim : forall g h x y c, gsim0 g h -> gm_obs_bim g x y c = gm_obs_bim h x y c.
  Proof.
    intros g h x y c (E1 & E2 & E3 & E4 & E5 & E6 & E7 & E8 & _). unfold gm_obs_bim. rewrite E1, E7. destruct (gc_bim h); cbn; auto. destruct (rd (gc_coef h) c); cbn; auto.
    apply rd_core; auto. intros k k' E. rewrite (core_bimodal k k' x y E). reflexivity.
  Qed.
  Lemma obs_all_sim : forall g h x, gsim0 g h -> gm_obs_all g x = gm_obs_all h x.
  Proof. intros g h x H. unfold gm_obs_all. replace (gc_n h) with (gc_n g) by apply H. apply accM_ext. intros. apply obs_sim; auto. Qed.
  Lemma obs_input_all_sim : forall g h x, gsim0 g h -> gm_obs_input_all g x = gm_obs_input_all h x.
  Proof. intros g h x H. unfold gm_obs_input_all. replace (gc_n h) with (gc_n g) by apply H. apply accM_ext. intros. apply obs_input_sim; auto. Qed.

  Lemma likelihood_sim : forall x y g h, gsim g h ->
    res_rel (fun a b => gsim a b /\ gc_inst a = gc_inst b /\ gc_log a = gc_log b /\ gc_beta a = gc_beta b /\
      gc_out a = gc_out g /\ gc_ocov a = gc_ocov g /\ gc_out b = gc_out h /\ gc_ocov b = gc_ocov h) (gm_likelihood x y g) (gm_likelihood x y h).
  Proof.
    intros x y g h (S0 & RE). pose proof S0 as (E1 & E2 & E3 & E4 & E5 & E6 & E7 & E8 & L1 & L2). unfold gm_likelihood.
    rewrite (fill_eq (gc_n h) _ (gc_beta h) (gc_beta g)) by lia.
    assert (OB : forall b, iterM (gc_n g) (fun c b => let* p := if gc_bim g then match y with [] => gm_obs_input g x c | _ => gm_obs_bim g x y c end else gm_obs g x c in wr b c p) b =
      iterM (gc_n h) (fun c b => let* p := if gc_bim h then match y with [] => gm_obs_input h x c | _ => gm_obs_bim h x y c end else gm_obs h x c in wr b c p) b).
    { intro b. rewrite E5. apply iterM_ext. intros i s _. rewrite E1, (obs_sim g h) by exact S0. rewrite (obs_input_sim g h) by exact S0. rewrite (obs_bim_sim g h) by exact S0. reflexivity. }
    rewrite OB. rewrite E5. apply rr_step. intros b Hb. apply rr_step. intros b' Hb'. eapply rr_bind; [apply smooth_sim; exact RE|].
    intros [u1 l1] [u2 l2] [RE' EL]. cbn [fst snd] in *. subst l2. constructor.
    assert (LB : length b' = gc_n h).
    { apply fill_length in Hb. assert (length b' = length b); [|lia].
      refine (iterM_inv_ok (fun _ d => length d = length b) _ _ b b' eq_refl _ Hb').
      intros i s s' _ L G. apply bind_ok_inv in G. destruct G as (q & _ & G). rewrite (wr_length _ _ _ _ G). exact L. }
    unfold gsim, gsim0, gc_n, gc_mode in *. cbn. repeat split; auto; congruence.
  Qed.

  Lemma regression_sim : forall x g h, gsim g h -> gc_beta g = gc_beta h ->
    res_rel (fun a b => gsim a b /\ gc_inst a = gc_inst g /\ gc_inst b = gc_inst h /\ gc_log a = gc_log g /\ gc_log b = gc_log h /\ gc_out a = gc_out b /\ gc_ocov a = gc_ocov b)
      (gm_regression x g) (gm_regression x h).
  Proof.
    intros x g h (S0 & RE) EB. pose proof S0 as (E1 & E2 & E3 & E4 & E5 & E6 & E7 & E8 & L1 & L2). unfold gm_regression. rewrite E2, E3, E5, E6, EB.
    apply rr_step. intros no _.
    match goal with |- res_rel _ (bind (iterM ?n ?f ?s) _) (bind (iterM ?n ?f' ?s) _) => assert (EQ : iterM n f s = iterM n f' s) end.
    { apply iterM_ext. intros c [o v] _. apply rr_eq. eapply rr_bind; [apply forall2_rd; exact E8|]. intros k k' EK. cbn beta. rewrite (core_regression k k' x EK).
      apply rr_step. intros y Hy. assert (B : g_bim k = true).
      { rewrite (core_bim k k' EK). unfold g_regression in Hy. destruct (g_bim k'); [reflexivity|discriminate]. }
      rewrite (core_out k k' EK B). apply rr_same. }
    rewrite EQ. apply rr_step. intros [o v] _. constructor. unfold gsim, gsim0, gc_n, gc_mode in *. cbn. repeat split; auto; congruence.
  Qed.

  Lemma filter1_sim : forall x g h, gsim g h -> res_rel (fun a b => gsim a b /\ class_seen a = class_seen b) (gm_filter1 x g) (gm_filter1 x h).
  Proof.
    intros x g h S0. unfold gm_filter1. eapply rr_bind; [apply likelihood_sim; exact S0|].
    intros a b (S1 & E1 & E2 & E3 & _). assert (B : gc_bim a = gc_bim b) by apply S1. rewrite B. destruct (gc_bim b) eqn:BB.
    - eapply rr_impl; [apply regression_sim; eassumption|]. intros p q (S2 & I1 & I2 & G1 & G2 & O & V). split; [exact S2|]. unfold class_seen.
      assert (B2 : gc_bim p = gc_bim q) by apply S2. rewrite B2, I1, I2, G1, G2, O, V, E1, E2. reflexivity.
    - constructor. split; [exact S1|]. unfold class_seen. rewrite B, BB, E1, E2. reflexivity.
  Qed.

  Lemma reset_ring : forall r s n, one_channel r -> one_channel s -> ring_eqv (ring_clear (ring_resize n0 r n)) (ring_clear (ring_resize n0 s n)).
  Proof.
    intros r s n (a & D1 & L1) (b & D2 & L2).
    assert (H : forall (q : ring T) c, r_data q = [c] -> length c = r_length q -> exists c', r_data (ring_clear (ring_resize n0 q n)) = [c'] /\ length c' = n /\ r_length (ring_clear (ring_resize n0 q n)) = n).
    { intros q c D L. unfold ring_resize. destruct (n =? r_length q) eqn:E.
      - apply Nat.eqb_eq in E. subst n. exists c. cbn. auto.
      - exists (vresize n n0 c). unfold ring_clear. rewrite D. destruct (r_length q <? n); [|destruct (n <=? r_index q)]; cbn [r_data r_length map]; rewrite vresize_length; auto. }
    destruct (H r a D1 L1) as (a' & A1 & A2 & A3). destruct (H s b D2 L2) as (b' & B1 & B2 & B3). exists a', b'.
    rewrite A3, B3. repeat split; auto. right. split; auto. unfold ring_size_t. cbn. intros i Hi. lia.
  Qed.

  Lemma reset1_sim : forall g h, gsim0 g h -> one_channel (gc_buf g) -> one_channel (gc_buf h) -> gsim (gm_reset1 g) (gm_reset1 h).
  Proof.
    intros g h S0 R1 R2. pose proof S0 as (E1 & E2 & E3 & E4 & E5 & E6 & E7 & E8 & L1 & L2). split.
    - unfold gsim0, gc_n, gc_mode in *. cbn. auto 20.
    - cbn [gm_reset1 gc_set_buf gc_buf]. rewrite E4. apply reset_ring; auto.
  Qed.

  Lemma filter_class_sim : forall xs g h, gsim g h ->
    res_rel (fun a b => gsim a b /\ (xs <> [] -> class_seen a = class_seen b)) (filter_class xs g) (filter_class xs h).
  Proof.
    induction xs as [|x xs IH]; intros g h S0; cbn.
    - constructor. split; [exact S0|]. congruence.
    - eapply rr_bind; [apply filter1_sim; exact S0|]. intros a b [S1 E]. cbn beta in *. destruct xs as [|x' xs].
      + cbn. constructor. auto.
      + eapply rr_impl; [apply IH; exact S1|]. intros p q [S2 F]. split; [exact S2|]. intros _. apply F. discriminate.
  Qed.

  Lemma shown_rel : forall {X Y Z} (P : X -> Y -> Prop) (f : X -> Z) (f' : Y -> Z) m m', res_rel P m m' -> (forall a b, P a b -> f a = f' b) -> shown f m = shown f' m'.
  Proof. intros X Y Z P f f' m m' [a b H| e |] F; cbn; auto. rewrite (F a b H). reflexivity. Qed.

  Lemma same1 : forall g h, gsim0 g h -> one_channel (gc_buf g) -> one_channel (gc_buf h) -> same_recognition1 g h.
  Proof.
    intros g h S0 R1 R2 xs NE. eapply shown_rel; [apply filter_class_sim; apply reset1_sim; eassumption|]. intros a b [_ F]. auto.
  Qed.

  (** A copy of a class. *)
  Lemma copy_sim : forall u g, length (gc_beta g) = gc_n g -> gsim0 g (gc_copy u g).
  Proof.
    intros u g L. unfold gsim0, gc_n, gc_mode, gc_copy in *. cbn. repeat split; auto; [|apply repeat_length].
    apply forall2_same. apply Forall_forall. reflexivity.
  Qed.
  Lemma new_channel : forall (x : T) n, one_channel (ring_new x 1 n).
  Proof. intros x n. exists (repeat x n). cbn. rewrite repeat_length. auto. Qed.

  (** Without a reset the buffer of a copy holds one value. *)
  Definition ring_one (r : ring T) : Prop := exists v, r_data r = [[v]] /\ r_length r = 1 /\ r_index r = 0.
  Lemma smooth_one : forall r p q l, ring_one r -> smooth r p = Ok (q, l) -> ring_one q /\ l = ((n0 + nln p) / nN 1)%num.
  Proof.
    intros [n i d f] p q l (v & D & L & I) H. cbn in *. subst. cbn in H. injection H as <- <-. split; [|reflexivity]. exists (nln p). auto.
  Qed.
  Lemma filter1_one : forall x g a, ring_one (gc_buf g) -> gm_filter1 x g = Ok a -> ring_one (gc_buf a) /\ gc_log a = ((n0 + nln (gc_inst a)) / nN 1)%num.
  Proof.
    intros x g a R H. unfold gm_filter1 in H. apply bind_ok_inv in H. destruct H as (b & H1 & H).
    assert (G : ring_one (gc_buf b) /\ gc_log b = ((n0 + nln (gc_inst b)) / nN 1)%num).
    { unfold gm_likelihood in H1. apply bind_ok_inv in H1. destruct H1 as (b1 & _ & H1). apply bind_ok_inv in H1. destruct H1 as (b2 & _ & H1).
      apply bind_ok_inv in H1. destruct H1 as ([q l] & H2 & H1). injection H1 as <-. apply smooth_one in H2; auto. }
    destruct (gc_bim b); [|injection H as <-; exact G].
    unfold gm_regression in H. apply bind_ok_inv in H. destruct H as (no & _ & H). apply bind_ok_inv in H. destruct H as ([o v] & _ & H). injection H as <-. exact G.
  Qed.
  Lemma filter_class_one : forall xs g a, xs <> [] -> ring_one (gc_buf g) -> filter_class xs g = Ok a -> gc_log a = ((n0 + nln (gc_inst a)) / nN 1)%num.
  Proof.
    induction xs as [|x xs IH]; intros g a NE R H; [congruence|]. cbn in H. apply bind_ok_inv in H. destruct H as (b & H1 & H).
    destruct (filter1_one _ _ _ R H1) as (R' & E). destruct xs as [|x' xs]; [injection H as <-; exact E|]. eapply IH; [discriminate|exact R'|exact H].
  Qed.
End Class.
