From Coq Require Import List Bool Arith Lia Reals Lra.
From Verif Require Import Base BaseFacts Arith RFacts Model_Phrase Model_Matrix Spec_Matrix Proofs_MatrixGen Proofs_Matrix
  Spec_Det Proofs_DetFacts Proofs_Det Model_Gaussian Spec_Gaussian Proofs_Gaussian.
Import ListNotations.
Local Open Scope R_scope.

(** ** Loops with a state *)
Lemma sforeach_app : forall {S X} (l1 l2 : list X) (f : X -> stm S unit) s s1,
  sforeach l1 f s = (s1, Ok tt) -> sforeach (l1 ++ l2) f s = sforeach l2 f s1.
Proof.
  induction l1 as [|x l1 IH]; intros l2 f s s1 H.
  - cbn in H. inversion H. reflexivity.
  - cbn [sforeach app] in *. unfold sbind in *. destruct (f x s) as [s2 [[]| |]]; try discriminate. apply IH. auto.
Qed.

Lemma sforeach_seq_inv : forall {S} (I : nat -> S -> Prop) n (f : nat -> stm S unit) s, I O s ->
  (forall i s, (i < n)%nat -> I i s -> exists s', f i s = (s', Ok tt) /\ I (Datatypes.S i) s') ->
  exists s', sforeach (seq 0 n) f s = (s', Ok tt) /\ I n s'.
Proof.
  induction n; intros f s H0 H. { exists s. split; auto. }
  destruct (IHn f s H0) as (s1 & E1 & I1). { intros i s1 Hi. apply H. lia. }
  destruct (H n s1 ltac:(lia) I1) as (s2 & E2 & I2).
  exists s2. split; auto. rewrite seq_S. rewrite (sforeach_app _ _ _ _ _ E1). cbn [sforeach plus]. unfold sbind. rewrite E2. reflexivity.
Qed.

Lemma sbind_ok : forall {S A B} (m : stm S A) (f : A -> stm S B) s s1 a r, m s = (s1, Ok a) -> f a s1 = r -> sbind m f s = r.
Proof. intros. unfold sbind. rewrite H. auto. Qed.

Lemma slift_ok : forall {S A B} (m : res A) (f : A -> stm S B) s a r, m = Ok a -> f a s = r -> sbind (slift m) f s = r.
Proof. intros. subst m. apply (sbind_ok _ _ _ s a); auto. Qed.

(** ** Blocks of the covariance *)
Lemma copy_vec_ok : forall (v dst : list R) n, length v = n -> length dst = n -> @copy_vec RA v n dst = Ok v.
Proof.
  intros v dst n Hv Hd. unfold copy_vec. change (num RA) with R.
  destruct (iterM_inv (fun k d => length d = n /\ forall i, (i < k)%nat -> nth i d 0 = nth i v 0) n
    (fun (i : nat) (dst : list R) => let* x := rd v i in wr dst i x) dst) as (d & E & L & H).
  - split; auto. intros. lia.
  - intros i d Hi (L & H). rewrite rd_R by lia. cbn [bind]. rewrite wr_ok by lia. eexists. split; [reflexivity|].
    split; [rewrite upd_length; auto|]. intros k Hk. destruct (Nat.eq_dec k i) as [->|].
    + apply nth_upd_eq. lia.
    + rewrite nth_upd_neq by auto. apply H. lia.
  - rewrite E. f_equal. apply nth_ext_len with 0. lia. intros. apply H. lia.
Qed.

Lemma cov_block_ok : forall (g : gauss RA) rows cols i0 j0, length (g_cov g) = (g_dim g * g_dim g)%nat ->
  (i0 + rows <= g_dim g)%nat -> (j0 + cols <= g_dim g)%nat ->
  exists M, cov_block g rows cols i0 j0 = Ok M /\ wf_mat M /\ m_rows M = rows /\ m_cols M = cols /\
    forall i j, (i < rows)%nat -> (j < cols)%nat -> rent M i j = rcell (g_dim g) (g_cov g) (i0 + i) (j0 + j).
Proof.
  intros g rows cols i0 j0 HL Hi Hj. unfold cov_block.
  destruct (@fill_grid RA rows cols (fun d1 d2 => rd (g_cov g) ((i0 + d1) * g_dim g + j0 + d2))
     (fun i j => rcell (g_dim g) (g_cov g) (i0 + i) (j0 + j)) (repeat n0 (rows * cols))) as (d & E & L & C).
  - apply repeat_length.
  - intros i j Hi' Hj'. change (num RA) with R in *. rewrite rd_R.
    + unfold rcell. rewrite Nat.add_assoc. reflexivity.
    + rewrite HL, <- Nat.add_assoc. apply idx_lt; lia.
  - rewrite E. cbn [bind]. eexists. split; [reflexivity|]. split; [exact L|]. do 2 (split; [reflexivity|]).
    intros i j Hi' Hj'. rewrite <- ent_RA. apply C; auto.
Qed.

(** A covariance block that is positive definite is inverted by [pinv]. *)
Lemma pinv_pd : forall (M : rmat) k C rho, wf_mat M -> m_rows M = k -> m_cols M = k ->
  (forall i j, (i < k)%nat -> (j < k)%nat -> rent M i j = C i j) -> eps9 <= rho -> pd_margin k C rho ->
  exists inv, mat_pinv M = Ok (inv, Rdet k C) /\ 0 < Rdet k C /\ wf_mat inv /\ m_rows inv = k /\ m_cols inv = k /\
    is_inverse k C (rent inv).
Proof.
  intros M k C rho W HR HC HE Hr HP.
  destruct (gauss_jordan_pd_det M rho W) as (inv & det & E & Hd & Hpos & HI); auto.
  - congruence.
  - rewrite HR. apply (pd_margin_ext k C); auto. intros. symmetry. auto.
  - assert (ED : det = Rdet k C). { rewrite Hd, HR. apply Rdet_ext'. auto. }
    destruct (gauss_jordan_inverse_R M inv det W E) as (Wi & Ri & Ci & _).
    exists inv. rewrite (proj1 (pinv_square M W ltac:(congruence))), E, ED. split; [reflexivity|].
    rewrite <- ED. split; auto. split; auto. split; [congruence|]. split; [congruence|].
    rewrite HR in HI. apply (is_inverse_ext k (rent M) C (rent inv) (rent inv)); auto.
Qed.

(** ** The output covariance *)
Lemma update_out_full : forall (g : gauss RA) rho B, g_mode g = Full -> g_bim g = true ->
  length (g_cov g) = (g_dim g * g_dim g)%nat -> (g_din g <= g_dim g)%nat ->
  eps9 <= rho -> pd_margin (g_din g) (gcov g) rho -> is_inverse (g_din g) (gcov g) B ->
  exists o, g_update_out g = (g_set_out o g, Ok tt) /\ length o = ((g_dim g - g_din g) * (g_dim g - g_din g))%nat /\
    forall i j, (i < g_dim g - g_din g)%nat -> (j < g_dim g - g_din g)%nat ->
      rcell (g_dim g - g_din g) o i j = gcov g (g_din g + i)%nat (g_din g + j)%nat -
       Rsum (g_din g) (fun k => Rsum (g_din g) (fun l =>
         gcov g (g_din g + i)%nat k * B k l * gcov g l (g_din g + j)%nat)).
Proof.
  intros g rho B HM HB HL Hle Hr HP HI. unfold g_update_out.
  set (n := g_dim g) in *. set (m := g_din g) in *.
  assert (GC : forall i j, gcov g i j = rcell n (g_cov g) i j) by (intros; unfold gcov; rewrite HM; reflexivity).
  destruct (cov_block_ok g m m 0 0 HL ltac:(cbn; auto) ltac:(cbn; auto)) as (ci & E1 & W1 & R1 & C1 & H1).
  destruct (pinv_pd ci m (gcov g) rho W1 R1 C1) as (inv & E2 & _ & W2 & R2 & C2 & H2); auto.
  { intros. rewrite H1, GC by auto. reflexivity. }
  destruct (cov_block_ok g m (n - m) 0 m HL ltac:(cbn; auto) ltac:(lia)) as (gs & E3 & W3 & R3 & C3 & H3).
  destruct (cov_block_ok g (n - m) m m 0 HL ltac:(lia) ltac:(cbn; auto)) as (sg & E4 & W4 & R4 & C4 & H4).
  destruct (proj2 (product_R inv gs W2 W3) ltac:(congruence)) as (t & E5 & W5 & R5 & C5 & H5).
  destruct (proj2 (product_R sg t W4 W5) ltac:(congruence)) as (md & E6 & W6 & R6 & C6 & H6).
  assert (HMd : forall i j, (i < n - m)%nat -> (j < n - m)%nat -> rent md i j = Rsum m (fun k => Rsum m (fun l => gcov g (m + i)%nat k * B k l * gcov g l (m + j)%nat))).
  { intros i j Hi Hj. rewrite H6 by (rewrite ?R4, ?C5, ?C3; auto). unfold mmul. rewrite C4. apply Rsum_ext. intros k Hk.
    rewrite H5 by (rewrite ?R2, ?C3; auto). rewrite H4 by auto. unfold mmul. rewrite C2, <- Rsum_scal_l. apply Rsum_ext. intros l Hl.
    rewrite H3 by auto. rewrite (is_inverse_unique _ _ _ _ H2 HI) by auto. rewrite !GC. rewrite ?Nat.add_0_l. change (0 + k)%nat with k. change (0 + l)%nat with l. change (num RA) with R in *. fold n. ring. }
  destruct (@fill_grid RA (n - m) (n - m) (fun d1 d2 =>
     let* x := rd (g_cov g) ((m + d1) * n + m + d2) in let* y := rd (m_data md) (d1 * (n - m) + d2) in Ok (@nsub RA x y))
     (fun i j => gcov g (m + i)%nat (m + j)%nat - rent md i j) (vresize ((n - m) * (n - m)) n0 (g_out g))) as (o & E7 & L7 & C7).
  { apply vresize_length. }
  { intros i j Hi Hj. change (num RA) with R in *. rewrite rd_R by (rewrite HL, <- Nat.add_assoc; apply idx_lt; lia).
    assert (Hld : length (m_data md) = ((n - m) * (n - m))%nat) by (unfold wf_mat in W6; rewrite R6, C6, R4, C5, C3 in W6; exact W6). change (num RA) with R in *.
    cbn [bind]. rewrite rd_R by (rewrite Hld; apply idx_lt; lia). cbn [bind]. rewrite GC. unfold rent, rcell. rewrite C6, C5, C3, Nat.add_assoc. reflexivity. }
  exists o. split; [|split].
  - unfold sget. apply (sbind_ok _ _ _ g g); [reflexivity|]. rewrite HB. cbn [negb].
    apply (slift_ok _ _ _ (n - m)%nat). { unfold usub. fold n m. replace (m <=? n)%nat with true; auto. symmetry. apply Nat.leb_le. auto. }
    cbv zeta. fold n m. rewrite HM.
    apply (slift_ok _ _ _ ci); auto. apply (slift_ok _ _ _ (inv, Rdet m (gcov g))); auto.
    apply (slift_ok _ _ _ gs); auto. apply (slift_ok _ _ _ sg); auto. apply (slift_ok _ _ _ t); auto. apply (slift_ok _ _ _ md); auto.
    apply (slift_ok _ _ _ o); [|reflexivity].
    rewrite <- E7. apply iterM_ext. intros d1 s Hd1. apply iterM_ext. intros d2 s2 Hd2.
    unfold bind. repeat (match goal with |- context [match ?r with Ok _ => _ | Throw _ => _ | UB => _ end] => destruct r end); reflexivity.
  - exact L7.
  - intros i j Hi Hj. rewrite <- cell_RA. rewrite C7 by auto. rewrite HMd by auto. reflexivity.
Qed.

Lemma update_out_diag : forall (g : gauss RA), g_mode g = Diagonal -> g_bim g = true ->
  length (g_cov g) = g_dim g -> (g_din g <= g_dim g)%nat ->
  exists o, g_update_out g = (g_set_out o g, Ok tt) /\ length o = (g_dim g - g_din g)%nat /\
    forall i, (i < g_dim g - g_din g)%nat -> nth i o 0 = nth (g_din g + i) (g_cov g) 0.
Proof.
  intros g HM HB HL Hle. unfold g_update_out. set (n := g_dim g) in *. set (m := g_din g) in *.
  destruct (iterM_inv (fun k (d : list R) => length d = (n - m)%nat /\ forall i, (i < k)%nat -> nth i d 0 = nth (m + i) (g_cov g) 0) (n - m)
    (fun (i : nat) (o : list R) => let* x := rd (g_cov g) (m + i) in wr o i x) (vresize (n - m) n0 (g_out g))) as (o & E & L & H).
  - split. apply vresize_length. intros. lia.
  - intros i d Hi (L & H). change (num RA) with R in *. rewrite rd_R by lia. cbn [bind]. rewrite wr_ok by lia. eexists. split; [reflexivity|].
    split; [rewrite upd_length; auto|]. intros k Hk. destruct (Nat.eq_dec k i) as [->|].
    + apply nth_upd_eq. lia.
    + rewrite nth_upd_neq by auto. apply H. lia.
  - exists o. split; [|split; auto].
    unfold sget. apply (sbind_ok _ _ _ g g); [reflexivity|]. rewrite HB. cbn [negb].
    apply (slift_ok _ _ _ (n - m)%nat). { unfold usub. fold n m. replace (m <=? n)%nat with true; auto. symmetry. apply Nat.leb_le. auto. }
    cbv zeta. fold n m. rewrite HM. apply (slift_ok _ _ _ o); [exact E|]. reflexivity.
Qed.

(** ** The inverses *)
Definition derived (inv : list R) (det : R) (invin : list R) (detin : R) (g : gauss RA) : gauss RA :=
  g_set_det_in (A:=RA) detin (g_set_inv_in (A:=RA) invin (g_set_det (A:=RA) det (g_set_inv (A:=RA) inv g))).

Lemma update_inv_full : forall (g : gauss RA) rho, g_mode g = Full -> wf_gauss g -> eps9 <= rho -> pd_margin (g_dim g) (gcov g) rho ->
  exists g', g_update_inv g = (g', Ok tt) /\ same_params g g' /\ wf_gauss g' /\ inverted g' /\
    (g_bim g = false -> exists inv, g' = g_set_inv inv (g_set_det (A:=RA) (Rdet (g_dim g) (gcov g)) g)).
Proof.
  intros g rho HM (L1 & L2 & L3 & L4) Hr HP. rewrite HM in *. cbn [csize] in *.
  set (n := g_dim g) in *. set (m := g_din g) in *.
  assert (GC : forall i j, gcov g i j = rcell n (g_cov g) i j) by (intros; unfold gcov; rewrite HM; reflexivity).
  destruct (pinv_pd (mkMat (A:=RA) n n (g_cov g)) n (gcov g) rho) as (inv & E2 & Pd & W2 & R2 & C2 & H2); auto.
  { intros. rewrite GC. reflexivity. }
  assert (Li : length (m_data inv) = (n * n)%nat) by (unfold wf_mat in W2; rewrite R2, C2 in W2; auto).
  unfold g_update_inv. destruct (g_bim g) eqn:HB.
  - destruct (L4 eq_refl) as (Hle & L5).
    destruct (cov_block_ok g m m 0 0 L2 ltac:(cbn; auto) ltac:(cbn; auto)) as (ci & E1 & W1 & R1 & C1 & H1).
    destruct (pinv_pd ci m (gcov g) rho W1 R1 C1) as (invi & E3 & Pdi & W3 & R3 & C3 & H3); auto.
    { intros. rewrite H1, GC by auto. reflexivity. } { apply (pd_margin_block n); auto. }
    assert (Lii : length (m_data invi) = (m * m)%nat) by (unfold wf_mat in W3; rewrite R3, C3 in W3; auto).
    set (g1 := g_set_inv_in (m_data invi) (g_set_det_in (A:=RA) (Rdet m (gcov g)) (g_set_inv (m_data inv) (g_set_det (A:=RA) (Rdet n (gcov g)) g)))).
    destruct (update_out_full g1 rho (rent invi)) as (o & E4 & L6 & H4); auto.
    { apply (pd_margin_block n); auto. }
    exists (g_set_out o g1). split; [|split; [|split; [|split]]].
    + apply (sbind_ok _ _ _ g g); [reflexivity|]. cbv zeta. apply (sbind_ok _ _ _ g1 tt).
      * rewrite HM. fold n m. apply (slift_ok _ _ _ (inv, Rdet n (gcov g))); auto.
        eapply sbind_ok; [reflexivity|]. apply (slift_ok _ _ _ (m_data inv)). { apply copy_vec_ok; auto. }
        eapply sbind_ok; [reflexivity|]. rewrite HB. cbn [swhen].
        apply (slift_ok _ _ _ ci); auto. apply (slift_ok _ _ _ (invi, Rdet m (gcov g))); auto.
        eapply sbind_ok; [reflexivity|]. apply (slift_ok _ _ _ (m_data invi)). { apply copy_vec_ok; auto. }
        reflexivity.
      * rewrite HB. exact E4.
    + unfold same_params. cbn. auto 10.
    + unfold wf_gauss. cbn. rewrite HM. cbn. auto.
    + assert (G2 : gcov (g_set_out o g1) = gcov g) by reflexivity.
      assert (G3 : forall i j, ginv_in (g_set_out o g1) i j = rent invi i j).
      { intros. unfold ginv_in, stored. cbn. rewrite HM. unfold rent. rewrite C3. reflexivity. }
      unfold inverted. rewrite G2. change (g_dim (g_set_out o g1)) with n. change (g_din (g_set_out o g1)) with m.
      split; [|split; [|split]].
      * apply (is_inverse_ext n (gcov g) (gcov g) (rent inv)); auto. intros. unfold ginv, stored. cbn. rewrite HM. unfold rent. rewrite C2. reflexivity.
      * reflexivity.
      * exact Pd.
      * intros _. split; [|split; [|split; [|split]]].
        -- apply (is_inverse_ext m (gcov g) (gcov g) (rent invi)); auto. 
        -- reflexivity.
        -- exact Pdi.
        -- cbn. rewrite HM. exact L6.
        -- intros i j Hi Hj. unfold gout. cbn. rewrite HM. unfold stored.
           etransitivity; [apply (H4 i j Hi Hj)|]. apply f_equal. apply Rsum_ext. intros k Hk. apply Rsum_ext. intros l Hl. rewrite G3. reflexivity.
    + discriminate.
  - set (g1 := g_set_inv (m_data inv) (g_set_det (A:=RA) (Rdet n (gcov g)) g)).
    exists g1. split; [|split; [|split; [|split]]].
    + apply (sbind_ok _ _ _ g g); [reflexivity|]. cbv zeta. apply (sbind_ok _ _ _ g1 tt).
      * rewrite HM. fold n m. apply (slift_ok _ _ _ (inv, Rdet n (gcov g))); auto.
        eapply sbind_ok; [reflexivity|]. apply (slift_ok _ _ _ (m_data inv)). { apply copy_vec_ok; auto. }
        eapply sbind_ok; [reflexivity|]. rewrite HB. reflexivity.
      * rewrite HB. reflexivity.
    + unfold same_params. cbn. auto 10.
    + unfold wf_gauss. cbn. rewrite HM. cbn. rewrite HB. auto.
    + unfold inverted. change (gcov g1) with (gcov g). change (g_dim g1) with n. split; [|split; [|split]].
      * apply (is_inverse_ext n (gcov g) (gcov g) (rent inv)); auto. intros. unfold ginv, stored. cbn. rewrite HM. unfold rent. rewrite C2. reflexivity.
      * reflexivity.
      * exact Pd.
      * cbn. rewrite HB. discriminate.
    + intros _. exists (m_data inv). reflexivity.
Qed.

Lemma update_inv_diag : forall (g : gauss RA), g_mode g = Diagonal -> wf_gauss g -> (forall d, (d < g_dim g)%nat -> 0 < gcov g d d) ->
  exists g', g_update_inv g = (g', Ok tt) /\ same_params g g' /\ wf_gauss g' /\ inverted g'.
Proof.
  intros g HM (L1 & L2 & L3 & L4) HP. rewrite HM in *. cbn [csize] in *.
  set (n := g_dim g) in *. set (m := g_din g) in *.
  set (c := fun d => nth d (g_cov g) 0).
  assert (GC : forall i j, gcov g i j = if Nat.eqb i j then c i else 0) by (intros; unfold gcov; rewrite HM; reflexivity).
  assert (Cp : forall d, (d < n)%nat -> 0 < c d).
  { intros d Hd. specialize (HP d Hd). rewrite GC, Nat.eqb_refl in HP. auto. }
  change (num RA) with R in *.
  destruct (sforeach_seq_inv (fun k s => exists inv invin detin, s = derived inv (Rprod k c) invin detin g /\
      length inv = n /\ (forall i, (i < k)%nat -> nth i inv 0 = 1 / c i) /\ length invin = length (g_inv_in g) /\
      (g_bim g = true -> detin = Rprod (min k m) c /\ forall i, (i < k)%nat -> (i < m)%nat -> nth i invin 0 = 1 / c i)) n
     (fun d => do* g := sget in
            do* c := slift (rd (g_cov g) d) in
            if (@nleb RA c n0)%num then sthrow RuntimeError
            else
              do* v := slift (wr (g_inv g) d (@ndiv RA n1 c)%num) in
              do* _ := smod (g_set_inv v) in
              do* _ := smod (g_set_det (@nmul RA (g_det g) c)%num) in
              swhen (g_bim g && (d <? m)%nat)
                (do* v := slift (wr (g_inv_in g) d (@ndiv RA n1 c)%num) in
                 do* _ := smod (g_set_inv_in v) in
                 smod (g_set_det_in (@nmul RA (g_det_in g) c)%num)))
     (g_set_det_in n1 (g_set_det n1 g))) as (g1 & E1 & inv & invin & detin & Eg1 & Li & Hi & Lii & Hb).
  - exists (g_inv g), (g_inv_in g), 1. split.
    { unfold derived. destruct g. cbn. rewrite n1_RA. reflexivity. }
    split; auto. split; [intros; lia|]. split; auto. intros _. split; [reflexivity|intros; lia].
  - intros d s Hd (inv & invin & detin & -> & Li & Hi & Lii & Hb).
    assert (Ed : wr inv d (@ndiv RA n1 (c d)) = Ok (upd inv d (1 / c d))) by (rewrite wr_ok by lia; rewrite n1_RA; reflexivity).
    destruct (g_bim g && (d <? m)%nat) eqn:EB.
    + apply andb_true_iff in EB. destruct EB as (EB & Edm). apply Nat.ltb_lt in Edm. destruct (L4 EB) as (Hle & L5). destruct (Hb EB) as (Hdet & Hin).
      exists (derived (upd inv d (1 / c d)) (Rprod (S d) c) (upd invin d (1 / c d)) (Rprod (min (S d) m) c) g). split.
      * eapply sbind_ok; [reflexivity|]. cbn [derived g_cov g_set_det_in g_set_inv_in g_set_det g_set_inv].
        apply (slift_ok _ _ _ (c d)). { apply rd_R. lia. }
        replace (@nleb RA (c d) n0) with false by (symmetry; rewrite n0_RA; apply nleb_RA_false; auto).
        apply (slift_ok _ _ _ (upd inv d (1 / c d))); [exact Ed|].
        eapply sbind_ok; [reflexivity|]. eapply sbind_ok; [reflexivity|].
        cbn [g_bim derived g_set_det_in g_set_inv_in g_set_det g_set_inv]. rewrite EB. replace (d <? m)%nat with true by (symmetry; apply Nat.ltb_lt; auto).
        cbn [andb swhen]. apply (slift_ok _ _ _ (upd invin d (1 / c d))).
        { cbn [g_inv_in derived g_set_det_in g_set_inv_in g_set_det g_set_inv]. change (num RA) with R in *; rewrite wr_ok by lia. rewrite n1_RA. reflexivity. }
        cbn. unfold smod, sbind, derived. cbn. rewrite Hdet. rewrite Nat.min_l by lia. destruct m as [|m']; [lia|].
        rewrite Nat.min_l by lia. reflexivity.
      * exists (upd inv d (1 / c d)), (upd invin d (1 / c d)), (Rprod (min (S d) m) c). split; auto.
        split; [rewrite upd_length; auto|]. split; [|split].
        -- intros i Hi'. destruct (Nat.eq_dec i d) as [->|]. apply nth_upd_eq; lia. rewrite nth_upd_neq by auto. apply Hi. lia.
        -- rewrite upd_length. auto.
        -- intros _. change (num RA) with R in *. split; auto. intros i Hi' Him. destruct (Nat.eq_dec i d) as [->|]. apply nth_upd_eq; lia. rewrite nth_upd_neq by auto. apply Hin; lia.
    + exists (derived (upd inv d (1 / c d)) (Rprod (S d) c) invin detin g). split.
      * eapply sbind_ok; [reflexivity|]. cbn [derived g_cov g_set_det_in g_set_inv_in g_set_det g_set_inv].
        apply (slift_ok _ _ _ (c d)). { apply rd_R. lia. }
        replace (@nleb RA (c d) n0) with false by (symmetry; rewrite n0_RA; apply nleb_RA_false; auto).
        apply (slift_ok _ _ _ (upd inv d (1 / c d))); [exact Ed|].
        eapply sbind_ok; [reflexivity|]. eapply sbind_ok; [reflexivity|].
        cbn [g_bim derived g_set_det_in g_set_inv_in g_set_det g_set_inv]. rewrite EB. reflexivity.
      * exists (upd inv d (1 / c d)), invin, detin. split; auto.
        split; [rewrite upd_length; auto|]. split; [|split]; auto.
        -- intros i Hi'. destruct (Nat.eq_dec i d) as [->|]. apply nth_upd_eq; lia. rewrite nth_upd_neq by auto. apply Hi. lia.
        -- intros HB. rewrite HB in EB. cbn in EB. apply Nat.ltb_ge in EB. destruct (Hb HB) as (Hdet & Hin). split.
           ++ rewrite Hdet. f_equal. lia.
           ++ intros i Hi' Him. apply Hin; lia.
  - assert (INV : is_inverse n (gcov g) (stored Diagonal n inv)).
    { apply (is_inverse_ext n (fun i j => if Nat.eqb i j then c i else 0) _ (fun i j => if Nat.eqb i j then 1 / c i else 0)).
      - apply is_inverse_diag. intros d Hd. specialize (Cp d Hd). lra.
      - intros. symmetry. apply GC.
      - intros i j Hi' Hj'. unfold stored. destruct (Nat.eqb i j); auto. symmetry. auto. }
    assert (DET : forall k, Rdet k (gcov g) = Rprod k c).
    { intros k. rewrite Rdet_diag. 
      - induction k; cbn [Rprod]; auto. rewrite IHk, GC, Nat.eqb_refl. reflexivity.
      - intros i j _ _ Hne. rewrite GC. apply Nat.eqb_neq in Hne. rewrite Hne. reflexivity. }
    unfold g_update_inv. destruct (g_bim g) eqn:HB.
    + destruct (L4 eq_refl) as (Hle & L5). destruct (Hb eq_refl) as (Hdet & Hin).
      destruct (update_out_diag g1) as (o & E4 & L6 & H4); try (rewrite Eg1; cbn; auto; fail).
      exists (g_set_out o g1). split; [|split; [|split]].
      * apply (sbind_ok _ _ _ g g); [reflexivity|]. cbv zeta. apply (sbind_ok _ _ _ g1 tt).
        -- rewrite HM. fold n m. eapply sbind_ok; [reflexivity|]. eapply sbind_ok; [reflexivity|]. exact E1.
        -- rewrite HB. exact E4.
      * rewrite Eg1. unfold same_params. cbn. auto 10.
      * rewrite Eg1. unfold wf_gauss. cbn. rewrite HM. cbn. rewrite Lii. auto.
      * rewrite Eg1 in *. cbn in L6, H4. fold n m in L6, H4. unfold inverted. change (gcov _) with (gcov g). cbn. fold n m. split; [|split; [|split]].
        -- unfold ginv. cbn. rewrite HM. exact INV.
        -- rewrite DET. reflexivity.
        -- apply Rprod_pos. auto.
        -- intros _. rewrite Nat.min_r in Hdet by lia. split; [|split; [|split; [|split]]].
           ++ unfold ginv_in. cbn. rewrite HM. fold m.
              apply (is_inverse_ext m (fun i j => if Nat.eqb i j then c i else 0) _ (fun i j => if Nat.eqb i j then 1 / c i else 0)).
              ** apply is_inverse_diag. intros d Hd. specialize (Cp d ltac:(lia)). lra.
              ** intros. symmetry. apply GC.
              ** intros i j Hi' Hj'. unfold stored. destruct (Nat.eqb i j); auto. symmetry. apply Hin; lia.
           ++ rewrite DET. exact Hdet.
           ++ rewrite Hdet. apply Rprod_pos. intros. apply Cp. lia.
           ++ rewrite HM. exact L6.
           ++ intros i j Hi' Hj'. unfold gout. cbn. rewrite HM. fold n m. rewrite (Rsum_zero m).
              ** unfold stored. rewrite GC. replace (m + i =? m + j)%nat with (i =? j)%nat.
                 2:{ destruct (Nat.eqb_spec i j); symmetry; [apply Nat.eqb_eq|apply Nat.eqb_neq]; lia. }
                 destruct (Nat.eqb i j); [|lra]. rewrite H4 by auto. unfold c. lra.
              ** intros k Hk. apply Rsum_zero. intros l Hl. rewrite (GC (m + i)%nat k).
                 replace (m + i =? k)%nat with false by (symmetry; apply Nat.eqb_neq; lia). lra.
    + exists g1. split; [|split; [|split]].
      * apply (sbind_ok _ _ _ g g); [reflexivity|]. cbv zeta. apply (sbind_ok _ _ _ g1 tt).
        -- rewrite HM. fold n m. eapply sbind_ok; [reflexivity|]. eapply sbind_ok; [reflexivity|]. exact E1.
        -- rewrite HB. reflexivity.
      * rewrite Eg1. unfold same_params. cbn. auto 10.
      * rewrite Eg1. unfold wf_gauss. cbn. rewrite HM. cbn. rewrite Lii, HB. auto.
      * rewrite Eg1 in *. unfold inverted. change (gcov _) with (gcov g). cbn. fold n m. split; [|split; [|split]].
        -- unfold ginv. cbn. rewrite HM. exact INV.
        -- rewrite DET. reflexivity.
        -- apply Rprod_pos. auto.
        -- rewrite HB. discriminate.
Qed.

Lemma update_inv_ok : forall (g : gauss RA), wf_gauss g -> pos_cov g ->
  exists g', g_update_inv g = (g', Ok tt) /\ same_params g g' /\ wf_gauss g' /\ inverted g'.
Proof.
  intros g W P. unfold pos_cov in P. destruct (g_mode g) eqn:HM.
  - destruct P as (rho & Hr & HP). destruct (update_inv_full g rho HM W Hr HP) as (g' & E & S & W' & I & _). eauto 10.
  - apply update_inv_diag; auto.
Qed.
