(** Gaussian mixtures: models of several classes. *)
From Coq Require Import String List Bool Arith Lia Reals Lra.
From Verif Require Import Base BaseFacts Arith RFacts Model_Map Model_Phrase Model_Ring Model_Gaussian Model_Config Model_GMM
  Spec_Common Spec_Matrix Spec_Det Spec_Gaussian Spec_GMM Proofs_Map Proofs_Ring Proofs_Gaussian Proofs_KMeans Proofs_GMM Proofs_GMM3.
Import ListNotations.
Local Open Scope list_scope.
Local Open Scope R_scope.

(** ** The first maximum *)
Lemma argmax_ok : forall (v : list R) n, (1 <= n)%nat ->
  exists b, fold_left (fun s i => argmax_step (A := RA) v i s) (seq 0 n) (0%nat, 0) = (b, nth b v 0) /\ first_max n (fun i => nth i v 0) b.
Proof.
  intros v n Hn. induction n as [|n IH]; [lia|]. rewrite seq_S, fold_left_app. cbn [fold_left Nat.add]. destruct n as [|n].
  - exists 0%nat. split; [unfold argmax_step; cbn [Nat.eqb orb seq fold_left]; rewrite n0_RA; reflexivity|]. split; [lia|]. split; intros i Hi; [replace i with 0%nat by lia; lra|lia].
  - destruct (IH ltac:(lia)) as (b & E & Hb & HM & HF). rewrite E. clear IH E. set (k := S n) in *. unfold argmax_step. replace (k =? 0)%nat with false by reflexivity. cbn [orb snd fst].
    rewrite n0_RA. change (num RA) with R. destruct (nltb (a := RA) (nth b v 0) (nth k v 0)) eqn:C.
    + apply nltb_RA_true in C. exists k. split; [reflexivity|]. split; [lia|]. split; intros i Hi.
      * destruct (Nat.eq_dec i k) as [->|]; [lra|]. specialize (HM i ltac:(lia)). cbv beta in HM. change (num RA) with R in *. lra.
      * specialize (HM i ltac:(lia)). cbv beta in HM. change (num RA) with R in *. lra.
    + apply nltb_RA_false in C. exists b. split; [reflexivity|]. split; [lia|]. split; intros i Hi; [|apply HF; exact Hi].
      destruct (Nat.eq_dec i k) as [->|]; [exact C|]. apply HM. lia.
Qed.

(** ** The class-level results *)
Lemma copy_loop : forall n (f : R -> R) (src v : list R), length src = n -> length v = n ->
  iterM n (fun i v => let* x := rd src i in wr v i (f x)) v = Ok (tab n (fun i => f (nth i src 0))).
Proof.
  intros n f src v Ls Lv. destruct (wr_loop n 0 (fun i => let* x := rd src i in Ok (f x)) (fun i => f (nth i src 0)) v) as (v' & E & L & V).
  { lia. }
  { intros d Hd. rewrite (rd_nth src d 0) by lia. reflexivity. }
  transitivity (Ok v').
  - rewrite <- E. apply iterM_ext. intros i s Hi. cbn [Nat.add]. destruct (rd src i); reflexivity.
  - apply (f_equal (@Ok _)). apply (nth_ext_len _ _ 0); [rewrite tab_length; lia|]. intros i Hi. rewrite V, nth_tab by lia. cbn [Nat.leb andb Nat.add].
    destruct (Nat.ltb_spec i n); [|lia]. rewrite Nat.sub_0_r. reflexivity.
Qed.

Lemma update_results_ok : forall labels (insts logs : list R) (r : results RA) n, length labels = n -> (1 <= n)%nat -> length insts = n -> length logs = n -> results_sized n r ->
  exists b, first_max n (fun i => nth i logs 0) b /\
    update_results (A := RA) labels insts logs r = Ok (mkRes (A := RA) insts (tab n (fun i => nth i insts 0 / Rsum n (fun j => nth j insts 0)))
      (tab n (fun i => exp (nth i logs 0))) (tab n (fun i => exp (nth i logs 0) / Rsum n (fun j => exp (nth j logs 0)))) logs (nth b labels EmptyString) (rs_out r) (rs_ocov r)).
Proof.
  intros labels insts logs r n Ll Hn Li Lg (S1 & S2 & S3 & S4 & S5). destruct (argmax_ok logs n Hn) as (b & EB & FM). exists b. split; [exact FM|].
  unfold update_results. rewrite Ll. change (num RA) with R in *. rewrite n0_RA.
  assert (ID : forall l : list R, length l = n -> tab n (fun i => nth i l 0) = l) by (intros l L; apply (nth_ext_len _ _ 0); [rewrite tab_length; lia|]; intros i Hi; rewrite tab_length in Hi; rewrite nth_tab by exact Hi; reflexivity).
  eapply bind_eq; [etransitivity; [apply (copy_loop n (fun x => x) insts (rs_inst r) Li S1)|apply (f_equal (@Ok _)), (ID insts Li)]|].
  eapply bind_eq; [etransitivity; [apply (copy_loop n (fun x => x) logs (rs_log r) Lg S5)|apply (f_equal (@Ok _)), (ID logs Lg)]|].
  eapply bind_eq; [apply (copy_loop n exp logs (rs_sm r) Lg S3)|].
  cbv zeta. rewrite !nsum_RA. cbn [nexp ndiv RA]. change (num RA) with R.
  eapply bind_eq; [apply (copy_loop n (fun x => x / Rsum n (fun i => nth i insts 0)) insts (rs_instn r) Li S2)|].
  eapply bind_eq; [apply (copy_loop n (fun x => exp x / Rsum n (fun i => exp (nth i logs 0))) logs (rs_smn r) Lg S4)|].
  apply (f_equal (@Ok _)). f_equal. change (num RA) with R. rewrite EB. cbn [fst]. rewrite (nth_error_nth' labels EmptyString); [reflexivity|]. destruct FM as (FB & _). lia.
Qed.

Lemma mix_outputs_ok : forall mode no (w : list R) (outs : list (list R * list R)), length w = length outs ->
  (forall i, (i < length outs)%nat -> length (fst (nth i outs ([], []))) = no /\ length (snd (nth i outs ([], []))) = csize mode no) ->
  exists o v, mix_outputs (A := RA) mode no w outs = Ok (o, v) /\ length o = no /\ length v = csize mode no /\
    forall d, (d < no)%nat -> nth d o 0 = Rsum (length outs) (fun i => nth i w 0 * nth d (fst (nth i outs ([], []))) 0).
Proof.
  intros mode no w outs Lw Ho. unfold mix_outputs. rewrite n0_RA. change (num RA) with R in *.
  match goal with |- context [iterM (length outs) ?F ?s0] =>
    destruct (iterM_inv (fun c (s : list R * list R) => length (fst s) = no /\ length (snd s) = csize mode no /\
      forall d, (d < no)%nat -> nth d (fst s) 0 = Rsum c (fun i => nth i w 0 * nth d (fst (nth i outs ([], []))) 0)) (length outs) F s0) as ((o, v) & E & L1 & L2 & V) end.
  - cbn [fst snd]. split; [apply repeat_length|]. split; [destruct mode; apply repeat_length|]. intros d Hd. cbn [Rsum]. apply nth_repeat.
  - intros c (o, v) Hc (L1 & L2 & V). cbn [fst snd] in *. destruct (Ho c Hc) as (LO & LV).
    rewrite (rd_nth outs c ([], [])) by exact Hc. destruct (nth c outs ([], [])) as (yo, yc) eqn:EY. cbn [bind fst snd] in *. rewrite (rd_nth w c 0) by lia. cbn [bind].
    destruct (mix_step mode no (nth c w 0) (nth c w 0) yo yc o v) as (o' & v' & E & L1' & L2' & V1 & _); [lia|lia|exact L1|exact L2|].
    exists (o', v'). split; [exact E|]. cbn [fst snd]. split; [exact L1'|]. split; [exact L2'|]. intros d Hd. rewrite V1, V by exact Hd. cbn [Rsum]. rewrite EY. reflexivity.
  - exists o, v. split; [exact E|]. cbn [fst snd] in *. auto.
Qed.

(** ** Reset *)
Lemma usable_dims : forall m, model_usable m -> gm_bim m = true -> (gm_din m <= gm_dim m)%nat.
Proof.
  intros m (NE & _ & F) B. destruct (gm_models m) as [|e l]; [contradiction|]. inversion F as [|? ? ((((H1 & H2 & H3 & H4 & H5) & _) & _) & C1 & C2 & C3 & _) _]; subst.
  destruct (gc_comp (snd e)) as [|k ks]; [cbn in H3; lia|]. inversion H5 as [|? ? ((_ & _ & _ & W4) & FB & FD & FI & FM) _]; subst. rewrite FB, C1 in W4. destruct (W4 B). lia.
Qed.

Lemma reset_ok : forall m, model_usable m -> exists m', gm_reset m = Ok m' /\ model_track m [] m'.
Proof.
  intros m U. pose proof U as (NE & ND & F). unfold gm_reset.
  assert (T : Forall2 (fun e e' : string * gclass RA => fst e' = fst e /\ class_track (snd e) [] (snd e')) (gm_models m) (map (fun e => (fst e, gm_reset1 (snd e))) (gm_models m))).
  { clear -F. induction F as [|e l (CU & _) F IH]; cbn [map]; constructor; [|exact IH]. split; [reflexivity|]. apply reset_track, CU. }
  assert (Z : exists o c, (if gm_bim m then let* no := usub (gm_dim m) (gm_din m) in Ok (vresize no n0 (rs_out (gm_res m)), repeat n0 (csq (gm_cmode m) no)) else Ok (rs_out (gm_res m), rs_ocov (gm_res m))) = Ok (o, c)).
  { destruct (gm_bim m) eqn:B; [|eexists _, _; reflexivity]. unfold usub. pose proof (usable_dims m U B) as D. apply Nat.leb_le in D. rewrite D. eexists _, _. reflexivity. }
  destruct Z as (o & c & EZ). rewrite EZ. cbn [bind]. eexists. split; [reflexivity|]. unfold model_track. cbn. repeat (split; [reflexivity|]). split; [exact T|].
  unfold results_sized. cbn. rewrite !vresize_length. repeat split.
Qed.

(** ** One observation *)
Lemma mapM_ex2 : forall {X Y Z} (Q : X -> Y -> Prop) (P : X -> Y -> Z -> Prop) (f : Y -> res Z) l l', Forall2 Q l l' ->
  (forall x y, In x l -> Q x y -> exists z, f y = Ok z /\ P x y z) ->
  exists zs, mapM f l' = Ok zs /\ length zs = length l /\ forall i dx dy dz, (i < length l)%nat -> P (nth i l dx) (nth i l' dy) (nth i zs dz).
Proof.
  intros X Y Z Q P f l l' F. induction F as [|x y l l' H F IH]; intro HP.
  - exists []. split; [reflexivity|]. split; [reflexivity|]. intros i dx dy dz Hi. cbn in Hi. lia.
  - destruct (HP x y (or_introl eq_refl) H) as (z & E & Pz). destruct (IH (fun a b Ha => HP a b (or_intror Ha))) as (zs & Es & L & Ps).
    exists (z :: zs). cbn [mapM]. rewrite E. cbn [bind]. rewrite Es. split; [reflexivity|]. split; [cbn; lia|].
    intros i dx dy dz Hi. destruct i; cbn [nth]; [exact Pz|]. apply Ps. cbn in Hi. lia.
Qed.

Lemma nth_map_in : forall {X Y} (f : X -> Y) l i d d', (i < length l)%nat -> nth i (map f l) d = f (nth i l d').
Proof. intros X Y f l i d d' Hi. rewrite (nth_indep _ d (f d')) by (rewrite map_length; exact Hi). apply map_nth. Qed.

Lemma mget_nth : forall {V} (l : list (string * V)) b d, NoDup (map fst l) -> (b < length l)%nat -> mget String.eqb l (fst (nth b l d)) = Some (snd (nth b l d)).
Proof.
  induction l as [|[k v] l IH]; intros b d ND Hb; [cbn in Hb; lia|]. cbn [map fst] in ND. inversion ND as [|? ? N1 N2]; subst. destruct b as [|b]; cbn [nth fst snd mget].
  - rewrite String.eqb_refl. reflexivity.
  - destruct (String.eqb_spec (fst (nth b l d)) k) as [E|E]; [|apply IH; [exact N2|cbn in Hb; lia]].
    exfalso. apply N1. rewrite <- E. apply in_map, nth_In. cbn in Hb. lia.
Qed.

Lemma gm_filter_ok : forall m xs m1 (x : list R), model_usable m -> model_track m xs m1 -> length x = model_obs_dim m ->
  exists m2, gm_filter (A := RA) x m1 = Ok m2 /\ model_track m (xs ++ [x]) m2 /\ model_report m xs x (gm_res m2).
Proof.
  intros m xs m1 x U (T1 & T2 & T3 & T4 & T5 & TF & TS) Lx. pose proof U as (NE & ND & F). set (n := length (gm_models m)) in *.
  assert (Hn : (1 <= n)%nat) by (unfold n; destruct (gm_models m); [contradiction|cbn; lia]).
  destruct (mapM_ex2 _ (fun e e' e2 => fst e2 = fst e' /\ class_track (snd e) (xs ++ [x]) (snd e2) /\ class_report (snd e) xs x (snd e2))
    (fun e => let* g := gm_filter1 (A := RA) x (snd e) in Ok (fst e, g)) _ _ TF) as (ms & EM & LM & PM).
  { intros e e' He (_ & CT). rewrite Forall_forall in F. destruct (F e He) as ((Rg & HW & _) & C1 & C2 & C3 & _).
    destruct (filter1_ok (snd e) xs (snd e') x Rg HW CT) as (h & E & CT' & CR).
    { unfold obs_dim, model_obs_dim in *. rewrite C1, C2, C3. exact Lx. }
    exists (fst e', h). rewrite E. split; [reflexivity|]. cbn [fst snd]. auto. }
  assert (PM' : forall i, (i < n)%nat -> fst (nth i ms no_class) = label_at m i /\ class_track (class_at m i) (xs ++ [x]) (snd (nth i ms no_class)) /\ class_report (class_at m i) xs x (snd (nth i ms no_class))).
  { intros i Hi. destruct (PM i no_class no_class no_class Hi) as (A & B & C). split; [|split; [exact B|exact C]]. rewrite A.
    exact (proj1 (Forall2_at _ _ _ TF i no_class no_class Hi)). }
  fold n in LM. set (insts := map (fun e => gc_inst (snd e)) ms). set (logs := map (fun e => gc_log (snd e)) ms).
  assert (VI : forall i, (i < n)%nat -> nth i insts 0 = mix_lik (class_at m i) x).
  { intros i Hi. etransitivity; [apply (nth_map_in _ ms i 0 no_class); rewrite LM; exact Hi|]. exact (proj1 (proj2 (proj2 (PM' i Hi)))). }
  assert (VL : forall i, (i < n)%nat -> nth i logs 0 = window_mean (gc_win (class_at m i)) (map (fun x => ln (mix_lik (class_at m i) x)) (xs ++ [x]))).
  { intros i Hi. etransitivity; [apply (nth_map_in _ ms i 0 no_class); rewrite LM; exact Hi|]. exact (proj1 (proj2 (proj2 (proj2 (PM' i Hi))))). }
  destruct (update_results_ok (map fst ms) insts logs (gm_res m1) n) as (b & FM & ER).
  { rewrite map_length. exact LM. }
  { exact Hn. }
  { unfold insts. rewrite map_length. exact LM. }
  { unfold logs. rewrite map_length. exact LM. }
  { exact TS. }
  pose proof (proj1 FM) as Hb.
  assert (LB : nth b (map fst ms) EmptyString = label_at m b) by (etransitivity; [apply (nth_map_in fst ms b _ no_class); rewrite LM; exact Hb|]; exact (proj1 (PM' b Hb))).
  rewrite LB in ER. unfold gm_filter.
  set (r := mkRes (A := RA) insts (tab n (fun i => nth i insts 0 / Rsum n (fun j => nth j insts 0))) (tab n (fun i => exp (nth i logs 0)))
    (tab n (fun i => exp (nth i logs 0) / Rsum n (fun j => exp (nth j logs 0)))) logs (label_at m b) (rs_out (gm_res m1)) (rs_ocov (gm_res m1))) in *.
  assert (RS : forall o c, results_sized n (mkRes (A := RA) (rs_inst r) (rs_instn r) (rs_sm r) (rs_smn r) (rs_log r) (rs_likeliest r) o c)).
  { intros o c. unfold results_sized, r. cbn. rewrite !tab_length. unfold insts, logs. rewrite !map_length. change (num RA) with R in *. rewrite LM. repeat split. }
  assert (TK : forall o c, model_track m (xs ++ [x]) (gm_set ms (mkRes (A := RA) (rs_inst r) (rs_instn r) (rs_sm r) (rs_smn r) (rs_log r) (rs_likeliest r) o c) (gm_set ms r m1))).
  { intros o c. unfold model_track. cbn [gm_bim gm_dim gm_din gm_est gm_cmode gm_models gm_res gm_set]. repeat (split; [assumption|]). split; [|apply RS].
    clear -LM PM'. subst n. assert (X : forall i, (i < length (gm_models m))%nat -> fst (nth i ms no_class) = fst (nth i (gm_models m) no_class) /\ class_track (snd (nth i (gm_models m) no_class)) (xs ++ [x]) (snd (nth i ms no_class))).
    { intros i Hi. destruct (PM' i Hi) as (A & B & _). auto. }
    clear PM'. revert ms LM X. induction (gm_models m) as [|e l IH]; intros ms LM X; destruct ms as [|e' ms]; try discriminate; constructor.
    - exact (X 0%nat ltac:(cbn; lia)).
    - apply IH; [cbn in LM; lia|]. intros i Hi. exact (X (S i) ltac:(cbn; lia)). }
  assert (RP : forall o c, (gm_bim m = true -> length o = (gm_dim m - gm_din m)%nat /\ forall d, (d < gm_dim m - gm_din m)%nat -> nth d o 0 =
       match gm_est m with Likeliest => class_out (class_at m b) x d | Mixture => Rsum n (fun i => nth i (rs_smn r) 0 * class_out (class_at m i) x d) end) ->
     model_report m xs x (mkRes (A := RA) (rs_inst r) (rs_instn r) (rs_sm r) (rs_smn r) (rs_log r) (rs_likeliest r) o c)).
  { intros o c HO. unfold model_report. fold n. cbn [rs_inst rs_instn rs_sm rs_smn rs_log rs_likeliest rs_out]. split; [exact VI|]. split; [exact VL|].
    split; [intros i Hi; unfold r; cbn [rs_sm rs_log]; rewrite nth_tab by exact Hi; reflexivity|].
    split; [intros i Hi; unfold r; cbn [rs_instn rs_inst]; rewrite nth_tab by exact Hi; reflexivity|].
    split; [intros i Hi; unfold r; cbn [rs_smn rs_sm]; change (num RA) with R; rewrite !nth_tab by exact Hi; f_equal; apply Rsum_ext; intros j Hj; rewrite nth_tab by exact Hj; reflexivity|].
    exists b. split; [exact FM|]. split; [reflexivity|exact HO]. }
  assert (EG : forall k, (let* ms0 := mapM (fun e => let* g := gm_filter1 (A := RA) x (snd e) in Ok (fst e, g)) (gm_models m1) in
     let* r0 := update_results (map fst ms0) (map (fun e => gc_inst (snd e)) ms0) (map (fun e => gc_log (snd e)) ms0) (gm_res m1) in k ms0 r0) = (k ms r : res (gmm RA))).
  { intro k. eapply bind_eq; [exact EM|]. eapply bind_eq; [exact ER|reflexivity]. }
  rewrite EG. clear EG. cbv beta zeta. cbn [gm_bim gm_dim gm_din gm_est gm_cmode gm_set]. rewrite T1, T2, T3, T4, T5.
  destruct (gm_bim m) eqn:B; cbn [negb].
  - pose proof (usable_dims m U B) as HD. unfold usub. pose proof HD as HD'. apply Nat.leb_le in HD'. rewrite HD'. cbn [bind].
    destruct (gm_est m) eqn:EST.
    + assert (NDm : NoDup (map fst ms)).
      { replace (map fst ms) with (map fst (gm_models m)); [exact ND|]. apply (nth_ext_len _ _ EmptyString); [rewrite !map_length; symmetry; exact LM|].
        intros i Hi. rewrite map_length in Hi. rewrite !(nth_map_in fst _ i _ no_class) by (first [exact Hi|rewrite LM; exact Hi]). symmetry. exact (proj1 (PM' i Hi)). }
      change (rs_likeliest r) with (label_at m b) at 1. rewrite <- (proj1 (PM' b Hb)). rewrite (mget_nth ms b no_class NDm) by (change (num RA) with R in *; rewrite LM; exact Hb).
      eexists. split; [reflexivity|]. split; [apply TK|]. apply RP. intros _.
      destruct (PM' b Hb) as (_ & _ & (_ & _ & _ & CO)). rewrite Forall_forall in F. destruct (F (nth b (gm_models m) no_class)) as (_ & C1 & C2 & C3 & _); [apply nth_In; exact Hb|].
      fold (class_at m b) in C1, C2, C3. rewrite C2, C3 in CO. destruct (CO ltac:(rewrite C1; exact B)) as (LO & _ & VO). split; [exact LO|exact VO].
    + assert (CM : forall i, (i < n)%nat -> length (gc_out (snd (nth i ms no_class))) = (gm_dim m - gm_din m)%nat /\ length (gc_ocov (snd (nth i ms no_class))) = csize (gm_cmode m) (gm_dim m - gm_din m) /\
        forall d, (d < gm_dim m - gm_din m)%nat -> nth d (gc_out (snd (nth i ms no_class))) 0 = class_out (class_at m i) x d).
      { intros i Hi. destruct (PM' i Hi) as (_ & _ & (_ & _ & _ & CO)). rewrite Forall_forall in F. destruct (F (nth i (gm_models m) no_class)) as (_ & C1 & C2 & C3 & C4); [apply nth_In; exact Hi|].
        fold (class_at m i) in C1, C2, C3, C4. rewrite C2, C3 in CO. destruct (CO ltac:(rewrite C1; exact B)) as (LO & LV & VO). rewrite (C4 B EST) in LV. auto. }
      destruct (mix_outputs_ok (gm_cmode m) (gm_dim m - gm_din m) (rs_smn r) (map (fun e => (gc_out (snd e), gc_ocov (snd e))) ms)) as (o & v & E & LO & LV & VO).
      { unfold r. cbn [rs_smn]. rewrite tab_length, map_length. symmetry. exact LM. }
      { intros i Hi. rewrite map_length in Hi. change (num RA) with R in *. rewrite LM in Hi.
        rewrite (nth_map_in _ ms i _ no_class) by (rewrite LM; exact Hi). cbn [fst snd]. destruct (CM i Hi) as (A1 & A2 & _). auto. }
      change (num RA) with R in *. rewrite E. cbn [bind]. eexists. split; [reflexivity|]. split; [apply TK|]. apply RP. intros _. split; [exact LO|]. intros d Hd. rewrite (VO d Hd). rewrite map_length, LM.
      apply Rsum_ext. intros i Hi. f_equal. 
      rewrite (nth_map_in _ ms i _ no_class) by (rewrite LM; exact Hi). cbn [fst snd]. exact (proj2 (proj2 (CM i Hi)) d Hd).
  - exists (gm_set ms r m1). split; [reflexivity|]. split.
    + exact (TK (rs_out r) (rs_ocov r)).
    + exact (RP (rs_out r) (rs_ocov r) ltac:(discriminate)).
Qed.

(** ** Any number of observations after a reset *)
Lemma alloc_shape : forall g : gclass RA, (1 <= gc_n g)%nat -> good_dims g -> exists g1, gm_allocate g = Ok g1 /\ gm_shape g1 /\
  gc_bim g1 = gc_bim g /\ gc_dim g1 = gc_dim g /\ gc_din g1 = gc_din g /\ gc_win g1 = gc_win g /\ gc_par g1 = gc_par g /\ gc_buf g1 = gc_buf g.
Proof.
  intros g Hn HD. unfold gm_allocate, g_new, good_dims in *.
  assert (E : exists k, g_new (A := RA) 0 (gc_bim g) (gc_dim g) (gc_din g) (gc_mode g) = Ok k /\ wf_gauss k /\ g_bim k = gc_bim g /\ g_dim k = gc_dim g /\ g_din k = gc_din g /\ g_mode k = gc_mode g).
  { unfold g_new. destruct (gc_bim g) eqn:B; destruct HD as (H1 & H2).
    - destruct (Nat.ltb_spec (gc_dim g) 2); [lia|]. destruct (Nat.ltb_spec (gc_dim g - 1) (gc_din g)); [lia|]. eexists. split; [reflexivity|].
      split; [|destruct (gc_mode g) eqn:M; cbn; auto]. unfold wf_gauss, g_allocate. destruct (gc_mode g) eqn:M; cbn; rewrite ?vresize_length, ?repeat_length; repeat split; try lia; try reflexivity; rewrite ?firstn_nil, ?app_nil_l, ?repeat_length; cbn; rewrite ?repeat_length; lia.
    - destruct (Nat.ltb_spec (gc_dim g) 1); [lia|]. destruct (Nat.ltb_spec 0 (gc_din g)); [lia|]. eexists. split; [reflexivity|].
      split; [|destruct (gc_mode g) eqn:M; cbn; auto]. unfold wf_gauss, g_allocate. destruct (gc_mode g) eqn:M; cbn; rewrite ?vresize_length, ?repeat_length; repeat split; try lia; try reflexivity; try discriminate; rewrite ?firstn_nil, ?app_nil_l, ?repeat_length; cbn; rewrite ?repeat_length; lia. }
  destruct E as (k & E & W & K1 & K2 & K3 & K4). unfold g_new in E. rewrite E. cbn [bind]. eexists. split; [reflexivity|]. split; [|cbn; auto 10].
  unfold gm_shape. cbn. unfold gc_n in *. cbn. rewrite !vresize_length, repeat_length. split; [exact Hn|]. repeat (split; [reflexivity|]).
  apply Forall_forall. intros k' Hk. apply repeat_spec in Hk. subst k'. unfold fits_class. cbn. auto.
Qed.

Lemma foldM_snoc : forall {X S} (f : S -> X -> res S) l x s s1, foldM f l s = Ok s1 -> foldM f (l ++ [x]) s = f s1 x.
Proof.
  intros X S f l x. induction l as [|y l IH]; intros s s1 E; cbn [app foldM] in *.
  - inversion E; subst. destruct (f s1 x); reflexivity.
  - destruct (f s y); try discriminate. cbn [bind] in *. apply IH, E.
Qed.

Lemma gm_filters_ok : forall m xs, model_usable m -> Forall (fun x => length x = model_obs_dim m) xs ->
  exists m0 m', gm_reset m = Ok m0 /\ foldM (fun m x => gm_filter (A := RA) x m) xs m0 = Ok m' /\ model_track m xs m' /\
    forall pre x, xs = pre ++ [x] -> model_report m pre x (gm_res m').
Proof.
  intros m xs U. destruct (reset_ok m U) as (m0 & E0 & T0). intro F. exists m0. revert F. induction xs as [|x xs IH] using rev_ind; intro F.
  - exists m0. split; [exact E0|]. split; [reflexivity|]. split; [exact T0|]. intros pre x E. destruct pre; discriminate.
  - apply Forall_app in F. destruct F as (F1 & F2). inversion F2 as [|? ? Lx _]; subst. destruct (IH F1) as (m1 & _ & E & T & _).
    destruct (gm_filter_ok m xs m1 x U T Lx) as (m2 & E' & T' & RP). exists m2. split; [exact E0|]. split; [|split; [exact T'|]].
    + rewrite (foldM_snoc _ _ _ _ _ E). exact E'.
    + intros pre y EQ. apply app_inj_tail in EQ. destruct EQ as (-> & ->). exact RP.
Qed.
