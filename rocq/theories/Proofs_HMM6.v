(** Baum-Welch: the variables of a phrase are posteriors. *)
From Coq Require Import String List Bool Arith ZArith Reals Lra Lia.
From Verif Require Import Base Arith BaseFacts RFacts Model_Ring Model_Gaussian Model_Config Model_GMM Model_HMM
  Proofs_Gaussian Proofs_KMeans Proofs_GMM Spec_Common Spec_Matrix Spec_Gaussian Spec_GMM Spec_HMM Proofs_HMM Proofs_HMM2 Proofs_HMM3 Proofs_HMM4 Proofs_HMM5.
Import ListNotations.
Local Open Scope list_scope.
Local Open Scope R_scope.

Lemma seq_lik_ext : forall N pi pi' a b bs, (forall i, (i < N)%nat -> pi i = pi' i) -> seq_lik N pi a (b :: bs) = seq_lik N pi' a (b :: bs).
Proof. intros. rewrite !seq_iter. apply Rsum_ext. intros j Hj. apply fiter_ext; [|exact Hj]. intros i Hi. rewrite H by exact Hi. reflexivity. Qed.

Lemma rd_map_tab : forall N (bs : list (nat -> R)) t, (t < length bs)%nat -> rd (map (tab N) bs) t = Ok (tab N (nth t bs (fun _ => 0))).
Proof. intros N bs t Ht. rewrite (rd_nth _ t (tab N (fun _ => 0))) by (rewrite map_length; exact Ht). f_equal. apply (map_nth (tab N)). Qed.

Lemma rd_tab : forall N (b : nat -> R) j, (j < N)%nat -> rd (tab N b) j = Ok (b j).
Proof. intros N b j Hj. rewrite (rd_nth (X := R) _ j 0) by (rewrite tab_length; exact Hj). rewrite nth_tab by exact Hj. reflexivity. Qed.

Lemma In_firstn' : forall X n (l : list X) x, In x (firstn n l) -> In x l.
Proof. intros X n l x H. rewrite <- (firstn_skipn n l). apply in_or_app. left. exact H. Qed.
Lemma skipn_cons_nth : forall X (l : list X) n d, (n < length l)%nat -> skipn n l = nth n l d :: skipn (S n) l.
Proof. induction l as [|x l IH]; intros n d H; [cbn in H; lia|]. destruct n; [reflexivity|]. cbn [skipn nth]. rewrite (IH n d) by (cbn in H; lia). reflexivity. Qed.
Lemma firstn_snoc : forall X (l : list X) n d, (n < length l)%nat -> firstn (S n) l = firstn n l ++ [nth n l d].
Proof. induction l as [|x l IH]; intros n d H; [cbn in H; lia|]. destruct n; [reflexivity|]. cbn [firstn nth app]. f_equal. apply IH. cbn in H. lia. Qed.

Lemma last_nth_pos : forall X (l : list X) d d', l <> [] -> last l d = nth (length l - 1) l d'.
Proof.
  induction l as [|x l IH]; intros d d' H; [contradiction|]. destruct l as [|y l]; [reflexivity|]. change (last (x :: y :: l) d) with (last (y :: l) d). rewrite (IH d d') by discriminate. cbn [length]. rewrite !Nat.sub_succ, !Nat.sub_0_r. reflexivity.
Qed.

(** Transitions without a way from the last state to the first: what the backward pass uses. *)
Lemma backward_in_ok : forall N mode tr (b v : list R) i, (i < N)%nat -> length tr = trans_size N mode -> (mode = LeftRight -> no_jump N tr) -> length b = N -> length v = N ->
  backward_in (A := RA) N mode tr b v i = Ok (Rsum N (fun j => trans_at N mode tr i j * nth j b 0 * nth j v 0)).
Proof.
  intros N mode tr b v i Hi Lt NJ Lb Lv. change (num RA) with R in *. unfold backward_in, trans_at. rewrite n0_RA. destruct mode; cbn [trans_size] in Lt.
  - rewrite (accM_ok _ _ (fun j => nth (i * N + j) tr 0 * nth j v 0 * nth j b 0)).
    + f_equal. rewrite Rplus_0_l. apply Rsum_ext. intros j Hj. ring.
    + intros j Hj. change (num RA) with R. rewrite !(rd_nth (X := R) _ _ 0) by nia. reflexivity.
  - specialize (NJ eq_refl). unfold no_jump in NJ. change (num RA) with R. rewrite !(rd_nth (X := R) _ _ 0) by lia. rewrite !bind_Ok.
    replace (i * 2)%nat with (2 * i)%nat by lia.
    set (f := fun j => (if (j =? i)%nat then nth (2 * i) tr 0 * nth i b 0 * nth i v 0 else 0) + (if (j =? S i mod N)%nat then nth (2 * i + 1) tr 0 * nth (S i mod N) b 0 * nth (S i mod N) v 0 else 0)).
    assert (Ef : Rsum N (fun j => ((if (j =? i)%nat then nth (2 * i) tr 0 else 0) + (if (j =? S i mod N)%nat then nth (2 * i + 1) tr 0 else 0)) * nth j b 0 * nth j v 0) = Rsum N f).
    { apply Rsum_ext. intros j Hj. unfold f. destruct (Nat.eqb_spec j i) as [->|]; destruct (Nat.eqb_spec (S i mod N) (S i mod N)); try congruence.
      - destruct (Nat.eqb_spec i (S i mod N)) as [E|]; [rewrite <- E|]; ring.
      - destruct (Nat.eqb_spec j (S i mod N)) as [->|]; ring. }
    rewrite Ef. unfold f. rewrite Rsum_plus. rewrite !Rsum_if by (try exact Hi; apply Nat.mod_upper_bound; lia).
    cbn [nadd nmul RA]. destruct (Nat.ltb_spec i (N - 1)) as [L|L].
    + rewrite !(rd_nth (X := R) _ _ 0) by lia. rewrite !bind_Ok. rewrite (Nat.mod_small (S i) N) by lia. replace (i + 1)%nat with (S i) by lia. f_equal. ring.
    + replace (2 * i + 1)%nat with (2 * N - 1)%nat by lia. rewrite NJ. f_equal. ring.
Qed.

Lemma backward_update_ok : forall N mode tr c (b v : list R), length tr = trans_size N mode -> (mode = LeftRight -> no_jump N tr) -> length b = N -> length v = N ->
  backward_update (A := RA) N mode tr c b v = Ok (tab N (fun i => c * Rsum N (fun j => trans_at N mode tr i j * nth j b 0 * nth j v 0))).
Proof.
  intros N mode tr c b v Lt NJ Lb Lv. unfold backward_update. apply tabM_ok. intros i Hi. rewrite backward_in_ok by assumption. rewrite bind_Ok. cbv zeta. cbn [nisnan nisinf RA orb nmul]. f_equal. ring.
Qed.

Lemma backward_seq_ok : forall N mode tr, length tr = trans_size N mode -> (mode = LeftRight -> no_jump N tr) ->
  forall (bs : list (nat -> R)) (cs : list R), length cs = length bs -> bs <> [] ->
  exists bes, backward_seq (A := RA) N mode tr (map (tab N) bs) cs = Ok bes /\ length bes = length bs /\
    forall t, (t < length bs)%nat -> length (nth t bes []) = N /\ forall i, (i < N)%nat -> nth i (nth t bes []) 0 = Rprod (skipn t cs) * tail_lik N (trans_at N mode tr) (skipn (S t) bs) i.
Proof.
  intros N mode tr Lt NJ. induction bs as [|b bs IH]; intros cs Lc Hne; [contradiction|]. destruct cs as [|c cs]; [discriminate|]. destruct bs as [|b2 bs].
  - destruct cs; [|discriminate]. exists [repeat c N]. split; [reflexivity|]. split; [reflexivity|]. intros t Ht. replace t with 0%nat by (cbn in Ht; lia). cbn [nth skipn].
    split; [apply repeat_length|]. intros i Hi. rewrite tail_nil. unfold Rprod. cbn [fold_right]. rewrite !Rmult_1_r.
    rewrite (nth_indep _ 0 c) by (rewrite repeat_length; exact Hi). apply nth_repeat.
  - destruct cs as [|c2 cs]; [discriminate|]. destruct (IH (c2 :: cs)) as (bes & E & L & V); [cbn in *; lia|discriminate|].
    cbn [backward_seq map tl]. cbn [map] in E. destruct bes as [|v bes]; [discriminate|].
    exists (tab N (fun i => c * Rsum N (fun j => trans_at N mode tr i j * nth j (tab N b2) 0 * nth j v 0)) :: v :: bes). split.
    + eapply bind_eq; [exact E|]. cbn [rd nth_error]. cbn [bind]. rewrite backward_update_ok; [reflexivity|exact Lt|exact NJ|apply tab_length|]. exact (proj1 (V 0%nat ltac:(cbn; lia))).
    + split; [cbn in *; lia|]. intros [|t] Ht.
      * cbn [nth skipn]. split; [apply tab_length|]. intros i Hi. rewrite nth_tab by exact Hi. rewrite tail_cons.
        change (Rprod (c :: c2 :: cs)) with (c * Rprod (c2 :: cs)). rewrite Rmult_assoc. f_equal. rewrite <- Rsum_scal_l. apply Rsum_ext. intros j Hj.
        rewrite nth_tab by exact Hj. destruct (V 0%nat ltac:(cbn; lia)) as (_ & V0). cbn [nth skipn] in V0. rewrite (V0 j Hj). ring.
      * cbn [nth skipn]. apply (V t). cbn in *. lia.
Qed.

Lemma ln_prod : forall (l : list R) s, Forall (fun c => 0 < c) l -> 0 < Rprod l /\ fold_left (fun s c => s - ln c) l s = s - ln (Rprod l).
Proof.
  induction l as [|c l IH]; intros s F; cbn [fold_left]; [unfold Rprod; cbn [fold_right]; rewrite ln_1; lra|]. pose proof (Forall_inv F) as P. destruct (IH (s - ln c) (Forall_inv_tail F)) as (Q & E).
  change (Rprod (c :: l)) with (c * Rprod l). split; [apply Rmult_lt_0_compat; assumption|]. rewrite E, ln_mult by assumption. ring.
Qed.

Section EStep.
  Variables (N : nat) (pi : nat -> R) (mode : tmode) (tr : list R).
  Let a := trans_at N mode tr.
  Hypothesis HN : (1 <= N)%nat.
  Hypothesis Hpi : distribution N pi.
  Hypothesis HT : trans_usable N mode tr.
  Let good (b : nat -> R) := forall j, (j < N)%nat -> min_likelihood <= b j.

  Let Ha : forall i j, (i < N)%nat -> (j < N)%nat -> 0 <= a i j.
  Proof. intros. apply trans_at_ge. apply HT. Qed.
  Let Hr : forall i, (i < N)%nat -> min_row <= Rsum N (a i).
  Proof. apply HT. Qed.

  Lemma forward_seq_ok : forall bs pre (alpha : list R), pre <> [] -> Forall good pre -> Forall good bs -> length alpha = N -> (forall j, (j < N)%nat -> nth j alpha 0 = filtering N pi a pre j) ->
    exists als cs, forward_seq (A := RA) N mode tr (map (tab N) bs) alpha = Ok (als, cs) /\ length als = length bs /\ length cs = length bs /\
      forall t, (t < length bs)%nat -> length (nth t als []) = N /\ (forall j, (j < N)%nat -> nth j (nth t als []) 0 = filtering N pi a (pre ++ firstn (S t) bs) j) /\
        nth t cs 0 = 1 / inst_lik N pi a (pre ++ firstn (S t) bs).
  Proof.
    induction bs as [|b bs IH]; intros pre alpha Hp Gp Gb La Va.
    - exists [], []. split; [reflexivity|]. split; [reflexivity|]. split; [reflexivity|]. intros t Ht. cbn in Ht. lia.
    - pose proof (Forall_inv Gb) as G1. pose proof (Forall_inv_tail Gb) as G2. destruct (forward_next N pi a HN Hpi Ha Hr mode tr alpha (rd (tab N b)) pre b) as (al & E & L & V); try assumption.
      { intros j Hj. apply rd_tab. exact Hj. } { reflexivity. } { apply HT. }
      destruct (IH (pre ++ [b]) al) as (als & cs & E' & L1 & L2 & V'); [destruct pre; discriminate|apply Forall_app; split; [exact Gp|constructor; [exact G1|constructor]]|exact G2|exact L|exact V|].
      exists (al :: als), (1 / inst_lik N pi a (pre ++ [b]) :: cs). split.
      + cbn [map forward_seq]. eapply bind_eq; [exact E|]. cbv beta iota. eapply bind_eq; [exact E'|]. reflexivity.
      + split; [exact (f_equal S L1)|]. split; [exact (f_equal S L2)|]. intros [|t] Ht.
        * cbn [nth firstn]. split; [exact L|]. split; [exact V|reflexivity].
        * cbn [nth firstn]. specialize (V' t ltac:(cbn in Ht; lia)). rewrite <- app_assoc in V'. exact V'.
  Qed.

  (** Everything at once, for the frames [b :: bs]. *)
  Lemma estep_ok : forall prior (alpha : list R) (obs0 : nat -> res R) b bs C,
    (forall i, pi i = prior_at mode prior i) -> (mode = Ergodic -> length alpha = N /\ length prior = N) -> (mode = LeftRight -> no_jump N tr) ->
    Forall good (b :: bs) -> (forall i, (i < N)%nat -> obs0 i = Ok (b i)) ->
    length C = S (length bs) -> (forall t, (t < S (length bs))%nat -> length (nth t C []) = N) ->
    let S := seq_lik N pi a (b :: bs) in
    exists gam mix eps al, forward_backward (A := RA) N mode prior tr alpha obs0 (map (tab N) (b :: bs)) C = Ok (mkES (A := RA) gam mix eps (ln S), al) /\ 0 < S /\ length al = N /\
      length gam = length (b :: bs) /\ length mix = length (b :: bs) /\ length eps = length bs /\
      (forall t, (t < length (b :: bs))%nat -> length (nth t gam []) = N /\ forall i, (i < N)%nat -> nth i (nth t gam []) 0 = at_lik N pi a (b :: bs) t i / S) /\
      (forall t, (t < length (b :: bs))%nat -> length (nth t mix []) = N /\ forall i, (i < N)%nat -> nth i (nth t mix []) [] = gamma_mix (A := RA) (at_lik N pi a (b :: bs) t i / S) (nth i (nth t C []) [])) /\
      (forall t, (t < length bs)%nat -> length (nth t eps []) = trans_size N mode /\
         match mode with
         | Ergodic => forall i j, (i < N)%nat -> (j < N)%nat -> nth (i * N + j) (nth t eps []) 0 = at_lik2 N pi a (b :: bs) t i j / S
         | LeftRight => forall i, (i < N)%nat -> nth (2 * i) (nth t eps []) 0 = at_lik2 N pi a (b :: bs) t i i / S /\
             nth (2 * i + 1) (nth t eps []) 0 = (if (i <? N - 1)%nat then at_lik2 N pi a (b :: bs) t i (i + 1) / S else 0)
         end).
  Proof.
    intros prior alpha obs0 b bs C Hp He NJ G Ho LC LCr S0. pose proof (Forall_inv G) as G1. pose proof (Forall_inv_tail G) as G2.
    destruct (filtering_facts N pi a HN Hpi Ha Hr (b :: bs) ltac:(discriminate) G) as (SP & _). fold S0 in SP.
    destruct (forward_first N pi a HN Hpi mode prior alpha obs0 b Hp G1 Ho He) as (a0 & E0 & L0 & V0).
    destruct (forward_seq_ok bs [b] a0 ltac:(discriminate)) as (als & cs & E1 & L1 & L2 & V1); [constructor; [exact G1|constructor]|exact G2|exact L0|exact V0|].
    change (num RA) with R in *. set (c0 := 1 / inst_lik N pi a [b]) in *. set (T := length (b :: bs)).
    destruct (backward_seq_ok N mode tr (proj1 HT) NJ (b :: bs) (c0 :: cs)) as (bes & E2 & L3 & V2); [cbn; lia|discriminate|].
    assert (VA : forall t, (t < T)%nat -> length (nth t (a0 :: als) []) = N /\ (forall j, (j < N)%nat -> nth j (nth t (a0 :: als) []) 0 = filtering N pi a (firstn (S t) (b :: bs)) j) /\ nth t (c0 :: cs) 0 = 1 / inst_lik N pi a (firstn (S t) (b :: bs))).
    { intros [|t] Ht; [cbn [nth firstn]; split; [exact L0|split; [exact V0|reflexivity]]|]. specialize (V1 t ltac:(unfold T in Ht; cbn in Ht; lia)). exact V1. }
    assert (SQ : forall t, (t < T)%nat -> 0 < seq_lik N pi a (firstn (S t) (b :: bs))).
    { intros t Ht. apply (filtering_facts N pi a HN Hpi Ha Hr); [discriminate|]. apply Forall_forall. intros q Hq. rewrite Forall_forall in G. apply G. apply (In_firstn' _ _ _ _ Hq). }
    assert (PR : forall k t, (t + k = T - 1)%nat -> Rprod (skipn (S t) (c0 :: cs)) = seq_lik N pi a (firstn (S t) (b :: bs)) / S0).
    { induction k as [|k IHk]; intros t Ht.
      - rewrite skipn_all2 by (unfold T in Ht; cbn in *; lia). rewrite firstn_all2 by (unfold T in Ht; cbn in *; lia). fold S0. unfold Rprod. cbn [fold_right]. field. lra.
      - assert (LT : (S t < T)%nat) by (unfold T in *; cbn in *; lia). rewrite (skipn_cons_nth _ (c0 :: cs) (S t) 0) by (unfold T in LT; cbn in *; lia).
        change (Rprod (nth (S t) (c0 :: cs) 0 :: skipn (S (S t)) (c0 :: cs))) with (nth (S t) (c0 :: cs) 0 * Rprod (skipn (S (S t)) (c0 :: cs))). rewrite (IHk (S t)) by lia.
        destruct (VA (S t) LT) as (_ & _ & ->). pose proof (SQ (S t) LT) as Q1. pose proof (SQ t ltac:(lia)) as Q0.
        rewrite (firstn_snoc _ (b :: bs) (S t) (fun _ => 0)) in * by (unfold T in LT; exact LT). rewrite inst_snoc by discriminate. field. repeat split; lra. }
    assert (FT : forall t i, (t < T)%nat -> (i < N)%nat -> filtering N pi a (firstn (S t) (b :: bs)) i * (seq_lik N pi a (firstn (S t) (b :: bs)) / S0 * tail_lik N a (skipn (S t) (b :: bs)) i) = at_lik N pi a (b :: bs) t i / S0).
    { intros t i Ht Hi. pose proof (SQ t Ht) as Q. unfold T in Ht. cbn [firstn skipn length] in *. unfold filtering. cbn [length]. rewrite Nat.sub_succ, Nat.sub_0_r.
      rewrite end_iter by exact Hi. pose proof (at_split N pi a b (firstn t bs) (skipn t bs) i Hi) as E. rewrite firstn_skipn in E. rewrite firstn_length, Nat.min_l in E by lia. rewrite E.
      replace (length (firstn t bs)) with t in * by (rewrite firstn_length; lia). field. split; lra. }
    assert (CP : forall t, (t < T)%nat -> 0 < nth t (c0 :: cs) 0).
    { intros t Ht. destruct (VA t Ht) as (_ & _ & ->). pose proof (SQ t Ht) as Q. unfold Rdiv. rewrite Rmult_1_l. apply Rinv_0_lt_compat. destruct t as [|t]; [exact Q|].
      pose proof (SQ t ltac:(lia)) as Q'. rewrite (firstn_snoc _ (b :: bs) (S t) (fun _ => 0)) in * by (unfold T in Ht; exact Ht). rewrite inst_snoc by discriminate. apply Rdiv_lt_0_compat; assumption. }
    change (num RA) with R in *. assert (TQ : length (c0 :: cs) = T /\ length (a0 :: als) = T /\ length bes = T) by (unfold T; clear - L1 L2 L3; cbn [length] in *; lia). destruct TQ as (TC & TA & TB).
    set (gam := tab T (fun t => tab N (fun i => at_lik N pi a (b :: bs) t i / S0))).
    set (mix := tab T (fun t => tab N (fun i => gamma_mix (A := RA) (at_lik N pi a (b :: bs) t i / S0) (nth i (nth t C []) [])))).
    set (eps := tab (T - 1) (fun t => match mode with
      | Ergodic => tab (N * N) (fun q => at_lik2 N pi a (b :: bs) t (q / N) (q mod N) / S0)
      | LeftRight => tab (N * 2) (fun q => if ((q mod 2 =? 1) && negb (q / 2 <? N - 1))%nat then 0 else at_lik2 N pi a (b :: bs) t (q / 2) (q / 2 + q mod 2) / S0) end)).
    exists gam, mix, eps, (last (a0 :: als) a0). split.
    { unfold forward_backward. rewrite map_length. fold T. eapply bind_eq; [exact E0|]. cbv beta iota. eapply bind_eq; [exact E1|]. cbv beta iota zeta. eapply bind_eq; [exact E2|]. cbv beta.
      apply (bind_eq _ _ gam); [apply tabM_ok; intros t Ht|].
      { change (num RA) with R in *. rewrite (rd_nth (a0 :: als) t []) by lia. rewrite bind_Ok. rewrite (rd_nth bes t []) by lia. rewrite bind_Ok. rewrite (rd_nth (c0 :: cs) t 0) by lia. rewrite bind_Ok.
        unfold gamma_of. apply tabM_ok. intros i Hi. destruct (VA t Ht) as (LA & VV & _). destruct (V2 t Ht) as (LB & VB). change (num RA) with R in *.
        rewrite (rd_nth (X := R) _ i 0) by lia. rewrite bind_Ok. rewrite (rd_nth (X := R) _ i 0) by lia. rewrite bind_Ok. rewrite VV, VB by exact Hi. f_equal. cbn [ndiv nmul RA].
        rewrite (skipn_cons_nth _ (c0 :: cs) t 0) by lia. change (Rprod (nth t (c0 :: cs) 0 :: skipn (S t) (c0 :: cs))) with (nth t (c0 :: cs) 0 * Rprod (skipn (S t) (c0 :: cs))).
        rewrite (PR (T - 1 - t)%nat t) by lia. rewrite <- (FT t i Ht Hi). pose proof (CP t Ht). fold a. change (num RA) with R. match goal with |- ?l = ?r => change (@eq R l r) end. field. split; lra. }
      cbv beta. apply (bind_eq _ _ mix); [apply tabM_ok; intros t Ht|].
      { change (num RA) with R in *. unfold gam. rewrite (rd_nth _ t []) by (rewrite tab_length; exact Ht). rewrite nth_tab by exact Ht. rewrite bind_Ok. rewrite (rd_nth C t []) by (change (num RA) with R in *; unfold T in Ht; cbn in Ht; lia). rewrite bind_Ok.
        apply tabM_ok. intros i Hi. change (num RA) with R in *. rewrite rd_tab by exact Hi. rewrite bind_Ok. rewrite (rd_nth (nth t C []) i []) by (rewrite LCr by (unfold T in Ht; cbn in Ht; lia); exact Hi). rewrite bind_Ok. reflexivity. }
      cbv beta. apply (bind_eq _ _ eps); [apply tabM_ok; intros t Ht|].
      { change (num RA) with R in *. rewrite (rd_nth (a0 :: als) t []) by (change (num RA) with R in *; lia). rewrite bind_Ok. rewrite (rd_nth bes (t + 1) []) by (change (num RA) with R in *; lia). rewrite bind_Ok.
        rewrite rd_map_tab by (fold T; lia). rewrite bind_Ok. destruct (VA t ltac:(lia)) as (LA & VV & _). destruct (V2 (t + 1)%nat ltac:(fold T; lia)) as (LB & VB). change (num RA) with R in *.
        set (b' := nth (t + 1) (b :: bs) (fun _ => 0)) in *.
        assert (FE : forall i j, (i < N)%nat -> (j < N)%nat -> nth i (nth t (a0 :: als) []) 0 * a i j * nth j (nth (t + 1) bes []) 0 * b' j = at_lik2 N pi a (b :: bs) t i j / S0).
        { intros i j Hi Hj. rewrite VV, VB by assumption. replace (t + 1)%nat with (S t) by lia. rewrite (PR (T - 1 - t)%nat t) by lia. fold a.
          pose proof (SQ t ltac:(lia)) as Q. unfold T in Ht. cbn [firstn skipn length] in *. unfold filtering. cbn [length]. rewrite Nat.sub_succ, Nat.sub_0_r. rewrite end_iter by exact Hi.
          assert (LT : (t < length bs)%nat) by lia.
          assert (EB : b' = nth t bs (fun _ => 0)) by (unfold b'; replace (t + 1)%nat with (S t) by lia; reflexivity).
          pose proof (at_split2 N pi a b (firstn t bs) b' (skipn (S t) bs) i j Hi Hj) as E. rewrite EB in E. rewrite <- (skipn_cons_nth _ bs t (fun _ => 0) LT) in E. rewrite firstn_skipn in E.
          replace (length (firstn t bs)) with t in * by (rewrite firstn_length; lia). rewrite E, EB. change (match bs with [] => [] | _ :: l => skipn t l end) with (skipn (S t) bs). field. split; lra. }
        unfold epsilon_of. destruct mode eqn:EM; cbn [trans_size] in *.
        - apply tabM_ok. intros q Hq. assert (Q1 : (q / N < N)%nat) by (apply Nat.div_lt_upper_bound; lia). assert (Q2 : (q mod N < N)%nat) by (apply Nat.mod_upper_bound; lia).
          change (num RA) with R in *. destruct HT as (LT & _). cbn [trans_size] in LT. rewrite (rd_nth (X := R) _ (q / N) 0) by lia. rewrite bind_Ok. rewrite (rd_nth (X := R) tr q 0) by lia. rewrite bind_Ok. rewrite (rd_nth (X := R) _ (q mod N) 0) by lia. rewrite bind_Ok.
          rewrite rd_tab by exact Q2. rewrite bind_Ok. f_equal. rewrite <- (FE (q / N)%nat (q mod N)%nat Q1 Q2). cbn [nmul RA]. replace (nth q tr 0) with (a (q / N)%nat (q mod N)); [reflexivity|].
          unfold a, trans_at. f_equal. pose proof (Nat.div_mod q N ltac:(lia)). lia.
        - apply tabM_ok. intros q Hq. assert (Q1 : (q / 2 < N)%nat) by (apply Nat.div_lt_upper_bound; lia). assert (Q2 : (q mod 2 < 2)%nat) by (apply Nat.mod_upper_bound; lia). pose proof (Nat.div_mod q 2 ltac:(lia)) as DM.
          destruct ((q mod 2 =? 1) && negb (q / 2 <? N - 1))%nat eqn:CC; [rewrite n0_RA; reflexivity|].
          assert (Q3 : (q / 2 + q mod 2 < N)%nat). { destruct (Nat.eqb_spec (q mod 2) 1) as [E3|]; [|lia]. destruct (Nat.ltb_spec (q / 2) (N - 1)); [lia|discriminate]. }
          change (num RA) with R in *. destruct HT as (LT & _). cbn [trans_size] in LT. rewrite (rd_nth (X := R) _ (q / 2) 0) by lia. rewrite bind_Ok. rewrite (rd_nth (X := R) tr q 0) by lia. rewrite bind_Ok. rewrite (rd_nth (X := R) _ (q / 2 + q mod 2) 0) by lia. rewrite bind_Ok.
          rewrite rd_tab by exact Q3. rewrite bind_Ok. f_equal. rewrite <- (FE (q / 2)%nat (q / 2 + q mod 2)%nat Q1 Q3). cbn [nmul RA]. replace (nth q tr 0) with (a (q / 2)%nat (q / 2 + q mod 2)%nat); [reflexivity|].
          unfold a, trans_at. specialize (NJ eq_refl). unfold no_jump in NJ.
          destruct (Nat.eq_dec (q mod 2) 0) as [Z|Z].
          + rewrite Z, Nat.add_0_r, Nat.eqb_refl. replace (2 * (q / 2))%nat with q by lia. destruct (Nat.eqb_spec (q / 2) (S (q / 2) mod N)) as [E3|]; [|ring].
            destruct (Nat.eq_dec (S (q / 2)) N) as [E4|E4]; [|rewrite Nat.mod_small in E3 by lia; lia]. replace (q + 1)%nat with (2 * N - 1)%nat by lia. rewrite NJ. ring.
          + replace (q mod 2)%nat with 1%nat in * by lia. destruct (Nat.eqb_spec (q / 2 + 1) (q / 2)); [lia|]. rewrite Nat.mod_small by lia. rewrite (proj2 (Nat.eqb_eq _ _)) by lia. replace (2 * (q / 2) + 1)%nat with q by lia. ring. }
      cbv beta. f_equal. f_equal. f_equal. rewrite n0_RA.
      destruct (ln_prod (c0 :: cs) 0) as (_ & EL). { apply (Forall_at _ _ 0). intros i Hi. apply CP. lia. }
      etransitivity; [exact EL|]. change (Rprod (c0 :: cs)) with (c0 * Rprod (skipn 1 (c0 :: cs))). rewrite (PR (T - 1)%nat 0%nat) by lia.
      cbn [firstn]. unfold c0, inst_lik. pose proof (SQ 0%nat ltac:(unfold T; cbn; lia)) as Q. cbn [firstn] in Q.
      replace (1 / seq_lik N pi a [b] * (seq_lik N pi a [b] / S0)) with (/ S0) by (field; split; lra). rewrite ln_Rinv by exact SP. match goal with |- ?l = ?r => change (@eq R l r) end. ring. }
    split; [exact SP|]. split.
    { destruct (VA (T - 1)%nat ltac:(unfold T; cbn; lia)) as (LL & _). rewrite <- LL. f_equal. change (num RA) with R in *. rewrite (last_nth_pos _ (a0 :: als) a0 []) by discriminate. rewrite TA. reflexivity. }
    split; [apply tab_length|]. split; [apply tab_length|]. split; [unfold eps; rewrite tab_length; unfold T; cbn; lia|]. split.
    { intros t Ht. unfold gam. rewrite nth_tab by exact Ht. split; [apply tab_length|]. intros i Hi. rewrite nth_tab by exact Hi. reflexivity. }
    split.
    { intros t Ht. unfold mix. rewrite nth_tab by exact Ht. split; [apply tab_length|]. intros i Hi. rewrite nth_tab by exact Hi. reflexivity. }
    intros t Ht. unfold eps. rewrite nth_tab by (unfold T; cbn; lia). destruct mode.
    - split; [apply tab_length|]. intros i j Hi Hj. rewrite nth_tab by nia. rewrite Nat.div_add_l by lia. rewrite (Nat.div_small j N), Nat.add_0_r by lia. rewrite Nat.add_comm, Nat.mod_add by lia. rewrite Nat.mod_small by lia. reflexivity.
    - split; [rewrite tab_length; cbn [trans_size]; lia|]. intros i Hi. split.
      + rewrite nth_tab by lia. rewrite (Nat.mul_comm 2 i), Nat.mod_mul, Nat.div_mul by lia. cbn [Nat.eqb andb]. rewrite Nat.add_0_r. reflexivity.
      + rewrite nth_tab by lia. rewrite (Nat.add_comm (2 * i) 1), (Nat.mul_comm 2 i), Nat.mod_add, Nat.div_add by lia. change (1 mod 2)%nat with 1%nat. change (1 / 2)%nat with 0%nat. cbn [Nat.eqb andb Nat.add]. destruct (i <? N - 1)%nat; reflexivity.
  Qed.
End EStep.
