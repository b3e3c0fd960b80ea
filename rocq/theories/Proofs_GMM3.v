(** Gaussian mixtures: recognition and regression of a class. *)
From Coq Require Import List Bool Arith Lia Reals Lra Permutation.
From Verif Require Import Base BaseFacts Arith RFacts Model_Phrase Model_Ring Model_Gaussian Model_Config Model_GMM
  Spec_Common Spec_Matrix Spec_Det Spec_Gaussian Spec_GMM Proofs_Ring Proofs_Gaussian Proofs_Gaussian2 Proofs_Gaussian3 Proofs_KMeans Proofs_GMM.
Import ListNotations.
Local Open Scope R_scope.

(** ** The window *)
Lemma last_n_map : forall {X Y} (f : X -> Y) n l, last_n n (map f l) = map f (last_n n l).
Proof. intros. unfold last_n. rewrite map_length, skipn_map. reflexivity. Qed.

Lemma window_fresh : forall L (r : ring R), ring_wf 1 r -> window_of L [] (ring_clear (ring_resize 0 r L)).
Proof. intros L r W. exists (ring_resize 0 r L). split; [apply ring_resize_wf; exact W|]. split; [apply ring_resize_clear_length|reflexivity]. Qed.

Lemma smooth_ok : forall L vs (r : ring R) p, (1 <= L)%nat -> window_of L vs r ->
  exists r', smooth (A := RA) r p = Ok (r', window_mean L (vs ++ [ln p])) /\ window_of L (vs ++ [ln p]) r'.
Proof.
  intros L vs r p HL (r0 & W & E0 & E).
  assert (F : forall l : list R, Forall (fun v : list R => (1 <= length v)%nat) (map (fun v => [v]) l)) by (induction l; constructor; [cbn; lia|assumption]).
  destruct (ring_pushes_state 0 1 L r0 _ W E0 HL (F vs)) as (r1 & E1 & W1 & _). rewrite E in E1. inversion E1; subst r1. clear E1.
  destruct (ring_window 0 1 L r0 _ W E0 HL (F (vs ++ [ln p]))) as (r' & E' & S' & _ & _ & P'). destruct (P' 0%nat ltac:(lia)) as (xs & T & P). clear P'.
  assert (EP : ring_push1 r (ln p) = Ok r').
  { rewrite ring_push1_push by exact W1. rewrite map_app, ring_pushes_app, E in E'. cbn [bind map ring_pushes] in E'.
    destruct (ring_push r [ln p]); cbn [bind] in E'; congruence. }
  exists r'. split.
  - unfold smooth. cbn [nln RA]. change (num RA) with R. rewrite EP. cbn [bind]. rewrite n0_RA.
    rewrite (accM_ok _ _ (fun i => nth i xs 0)) by (intros i Hi; apply (tabM_inv _ _ _ T i 0 Hi)). cbn [bind]. apply (f_equal (@Ok _)). f_equal.
    assert (LX : length xs = ring_size_t r') by (apply tabM_length in T; exact T).
    assert (X : Rsum (ring_size_t r') (fun i => nth i xs 0) = Rlsum (last_n L (vs ++ [ln p]))).
    { rewrite <- LX, Rsum_nth, (Rlsum_perm _ _ P), last_n_map, map_map. cbn [nth]. rewrite map_id. reflexivity. }
    unfold window_mean. rewrite nN_RA. cbn [ndiv RA]. change (num RA) with R. rewrite X. rewrite Rplus_0_l. f_equal. f_equal. rewrite S', map_length. unfold last_n. rewrite skipn_length. lia.
  - exists r0. split; [exact W|]. split; [exact E0|exact E'].
Qed.

(** ** Likelihoods *)
Lemma obs_lik_pos : forall k x, 0 < obs_lik k x.
Proof. intros k x. unfold obs_lik. destruct (g_bim k); [|apply comp_lik_pos]. eapply Rlt_le_trans; [apply min_lik_pos|apply Rmax_l]. Qed.

Lemma mix_lik_pos : forall g x, (1 <= gc_n g)%nat -> distribution (gc_n g) (weight g) -> 0 < mix_lik g x.
Proof.
  intros g x Hn (HP & HS). unfold mix_lik.
  assert (N : forall c, (c < gc_n g)%nat -> 0 <= weight g c * obs_lik (comp_at g c) x) by (intros; apply Rmult_le_pos; [auto|left; apply obs_lik_pos]).
  destruct (Rle_lt_dec (Rsum (gc_n g) (fun c => weight g c * obs_lik (comp_at g c) x)) 0) as [L|L]; [|exact L]. exfalso.
  assert (Z : Rsum (gc_n g) (weight g) = 0); [|lra]. apply Rsum_zero. intros c Hc.
  assert (E : weight g c * obs_lik (comp_at g c) x <= 0). { eapply Rle_trans; [|exact L]. apply (Rsum_term_le (gc_n g) (fun c => weight g c * obs_lik (comp_at g c) x)); [exact N|exact Hc]. }
  pose proof (obs_lik_pos (comp_at g c) x). specialize (HP c Hc). nra.
Qed.

Lemma posterior_dist : forall g x, (1 <= gc_n g)%nat -> distribution (gc_n g) (weight g) -> distribution (gc_n g) (posterior g x).
Proof.
  intros g x Hn D. pose proof (mix_lik_pos g x Hn D) as P. split.
  - intros c Hc. unfold posterior. apply Rmult_le_pos; [|left; apply Rinv_0_lt_compat, P]. apply Rmult_le_pos; [apply D, Hc|left; apply obs_lik_pos].
  - unfold posterior. rewrite Rsum_div. fold (mix_lik g x). field. lra.
Qed.

Lemma convex_bounds : forall n (w y : nat -> R) lo hi, distribution n w -> (forall c, (c < n)%nat -> lo <= y c <= hi) -> lo <= Rsum n (fun c => w c * y c) <= hi.
Proof.
  intros n w y lo hi (HP & HS) H. split.
  - replace lo with (Rsum n (fun c => w c * lo)) by (rewrite Rsum_scal_r, HS; ring). apply Rsum_le. intros c Hc. apply Rmult_le_compat_l; [auto|apply H, Hc].
  - replace hi with (Rsum n (fun c => w c * hi)) by (rewrite Rsum_scal_r, HS; ring). apply Rsum_le. intros c Hc. apply Rmult_le_compat_l; [auto|apply H, Hc].
Qed.

(** ** Mixing outputs *)
Lemma mix_step : forall mode no (b bc : R) (y yc o v : list R), (no <= length y)%nat -> (csize mode no <= length yc)%nat -> length o = no -> length v = csize mode no ->
  exists o' v', iterM no (fun d (s : list R * list R) => let '(o, v) := s in
      let* a := rd o d in let* yd := rd y d in let* o := wr o d (a + b * yd) in
      let* v := match mode with
        | Full => iterM no (fun d2 v => let* a := rd v (d * no + d2) in let* c := rd yc (d * no + d2) in wr v (d * no + d2) (a + bc * c)) v
        | Diagonal => let* a := rd v d in let* c := rd yc d in wr v d (a + bc * c) end in
      Ok (o, v)) (o, v) = Ok (o', v') /\ length o' = no /\ length v' = csize mode no /\
    (forall d, (d < no)%nat -> nth d o' 0 = nth d o 0 + b * nth d y 0) /\ (forall q, (q < csize mode no)%nat -> nth q v' 0 = nth q v 0 + bc * nth q yc 0).
Proof.
  intros mode no b bc y yc o v Ly Lyc Lo Lv.
  match goal with |- context [iterM no ?F (o, v)] =>
    destruct (iterM_inv (fun i (s : list R * list R) => length (fst s) = no /\ length (snd s) = csize mode no /\
      (forall d, nth d (fst s) 0 = nth d o 0 + if (d <? i)%nat then b * nth d y 0 else 0) /\
      (forall q, nth q (snd s) 0 = nth q v 0 + if (q <? csize mode no / no * i)%nat then bc * nth q yc 0 else 0)) no F (o, v)) as ((o', v') & E & L1 & L2 & V1 & V2) end.
  - cbn [fst snd]. split; [exact Lo|]. split; [exact Lv|]. split; [intro; cbn; lra|]. intro q. rewrite Nat.mul_0_r. cbn. lra.
  - intros d (o1, v1) Hd (L1 & L2 & V1 & V2). cbn [fst snd] in *.
    rewrite (rd_nth o1 d 0) by lia. cbn [bind]. rewrite (rd_nth y d 0) by lia. cbn [bind]. rewrite wr_ok by lia. cbn [bind].
    assert (O : forall q, nth q (upd o1 d (nth d o1 0 + b * nth d y 0)) 0 = nth q o 0 + if (q <? S d)%nat then b * nth q y 0 else 0).
    { intro q. destruct (Nat.eq_dec q d) as [->|D].
      - rewrite nth_upd_eq by lia. rewrite V1. destruct (Nat.ltb_spec d d), (Nat.ltb_spec d (S d)); try lia. lra.
      - rewrite nth_upd_neq by auto. rewrite V1. destruct (Nat.ltb_spec q d), (Nat.ltb_spec q (S d)); try lia; reflexivity. }
    destruct mode; cbn [csize] in *.
    + rewrite Nat.div_mul in * by lia.
      destruct (seg_loop no (d * no) (fun d2 a => let* c := rd yc (d * no + d2) in Ok (a + bc * c)) (fun d2 a => a + bc * nth (d * no + d2) yc 0) v1) as (v2 & E & LE & VE).
      { rewrite L2. nia. }
      { intros d2 a Hd2. rewrite (rd_nth yc _ 0); [reflexivity|]. pose proof (flat_lt no no d d2 Hd Hd2). lia. }
      exists (upd o1 d (nth d o1 0 + b * nth d y 0), v2). split; [|cbn [fst snd]; split; [rewrite upd_length; exact L1|split; [rewrite LE; exact L2|split; [exact O|]]]].
      * erewrite iterM_ext; [rewrite E; reflexivity|]. intros i s Hi. cbv beta. destruct (rd s (d * no + i)); cbn [bind]; [|reflexivity..]. destruct (rd yc (d * no + i)); reflexivity.
      * intro q. rewrite VE, V2. rewrite Nat.mul_succ_r. destruct (Nat.leb_spec (d * no) q), (Nat.ltb_spec q (d * no + no)), (Nat.ltb_spec q (no * d)), (Nat.ltb_spec q (no * d + no)); cbn [andb]; try lia; try lra.
        replace (d * no + (q - d * no))%nat with q by lia. lra.
    + rewrite Nat.div_same in * by lia. rewrite (rd_nth v1 d 0) by lia. cbn [bind]. rewrite (rd_nth yc d 0) by lia. cbn [bind]. rewrite wr_ok by lia. cbn [bind].
      eexists. split; [reflexivity|]. cbn [fst snd]. split; [rewrite upd_length; exact L1|]. split; [rewrite upd_length; exact L2|]. split; [exact O|].
      intro q. rewrite !Nat.mul_1_l in *. destruct (Nat.eq_dec q d) as [->|D].
      * rewrite nth_upd_eq by lia. rewrite V2. repeat match goal with |- context [(?a <? ?b)%nat] => destruct (Nat.ltb_spec a b) end; try lia; lra.
      * rewrite nth_upd_neq by auto. rewrite V2. repeat match goal with |- context [(?a <? ?b)%nat] => destruct (Nat.ltb_spec a b) end; try lia; reflexivity.
  - exists o', v'. split; [exact E|]. cbn [fst snd] in *. split; [exact L1|]. split; [exact L2|]. split.
    + intros d Hd. rewrite V1. destruct (Nat.ltb_spec d no); [reflexivity|lia].
    + intros q Hq. rewrite V2. assert (Z : (q < csize mode no / no * no)%nat).
      { destruct mode; cbn [csize] in *; [assert (no <> O) by (intro; subst; cbn in Hq; lia); rewrite Nat.div_mul by lia; lia|]. rewrite Nat.div_same by lia. lia. }
      apply Nat.ltb_lt in Z. rewrite Z. reflexivity.
Qed.

(** ** A class *)
Lemma obs_ok : forall (g : gclass RA) (x : list R) c, gm_shape g -> Forall inverted (gc_comp g) -> length x = obs_dim g -> (c < gc_n g)%nat ->
  (if gc_bim g then gm_obs_input g x c else gm_obs g x c) = Ok (weight g c * obs_lik (comp_at g c) x).
Proof.
  intros g x c Hs Hi Lx Hc. destruct (comp_fits g Hs c Hc) as (W & FB & FD & FI & FM). pose proof (comp_inv g Hs Hi c Hc) as I.
  unfold obs_dim, obs_lik in *. rewrite FB. destruct (gc_bim g) eqn:B.
  - unfold gm_obs_input. rewrite B. cbn [negb]. rewrite (rd_coef g Hs c Hc), (rd_comp g Hs c Hc). cbn [bind].
    rewrite (likelihood_input_inverted (comp_at g c) x (ginv_in (comp_at g c)) W I FB); [reflexivity|change (num RA) with R in *; lia|].
    destruct I as (_ & _ & _ & I2). exact (proj1 (I2 FB)).
  - unfold gm_obs. destruct (Nat.leb_spec (gc_n g) c); [lia|]. rewrite (rd_coef g Hs c Hc), (rd_comp g Hs c Hc). cbn [bind].
    rewrite lik_ready; [reflexivity|exact W|exact I|]. rewrite FD. exact Lx.
Qed.

Lemma likelihood_ok : forall (g : gclass RA) (x : list R) W vs, gm_ready g -> (1 <= W)%nat -> length x = obs_dim g -> window_of W vs (gc_buf g) ->
  exists b buf, gm_likelihood (A := RA) x [] g = Ok (gc_set_buf (A := RA) buf (mix_lik g x) (window_mean W (vs ++ [ln (mix_lik g x)])) (gc_set_beta (A := RA) b g)) /\
    length b = gc_n g /\ (forall c, (c < gc_n g)%nat -> nth c b 0 = posterior g x c) /\ window_of W (vs ++ [ln (mix_lik g x)]) buf.
Proof.
  intros g x W vs (Hs & Hi & D) HW Lx HB. pose proof Hs as (H1 & H2 & H3 & H4 & H5). change (num RA) with R in *.
  destruct (wr_loop (gc_n g) 0 (fun c => if gc_bim g then gm_obs_input g x c else gm_obs g x c) (fun c => weight g c * obs_lik (comp_at g c) x) (gc_beta g)) as (b & E & L & V).
  { change (num RA) with R in *. lia. }
  { intros c Hc. apply obs_ok; assumption. }
  destruct (seg_loop (gc_n g) 0 (fun _ v => Ok (v / mix_lik g x)) (fun _ v => v / mix_lik g x) b) as (b' & E' & L' & V').
  { rewrite L. change (num RA) with R in *. lia. }
  { reflexivity. }
  destruct (smooth_ok W vs (gc_buf g) (mix_lik g x) HW HB) as (buf & ES & WB).
  exists b', buf. split; [|split; [|split; [|exact WB]]].
  - unfold gm_likelihood. eapply bind_eq.
    { etransitivity; [|exact E]. apply iterM_ext. intros i s _. destruct (gc_bim g); reflexivity. }
    assert (S : @nsum RA (gc_n g) (fun c => nth c (b : list (num RA)) n0) = mix_lik g x).
    { rewrite nsum_RA, n0_RA. apply Rsum_ext. intros c Hc. change (num RA) with R. rewrite V. cbn [Nat.leb andb Nat.add]. destruct (Nat.ltb_spec c (gc_n g)); [|lia]. rewrite Nat.sub_0_r. reflexivity. }
    cbv zeta. rewrite S. eapply bind_eq; [exact E'|]. eapply bind_eq; [exact ES|]. reflexivity.
  - rewrite L', L. exact H4.
  - intros c Hc. rewrite V', V. cbn [Nat.leb andb Nat.add]. destruct (Nat.ltb_spec c (gc_n g)); [|lia]. rewrite !Nat.sub_0_r. reflexivity.
Qed.

Lemma regression_ok : forall (g : gclass RA) (x : list R), gm_shape g -> Forall inverted (gc_comp g) -> gc_bim g = true -> length x = gc_din g ->
  (forall c, (c < gc_n g)%nat -> nth c (gc_beta g) 0 = posterior g x c) ->
  exists o v, gm_regression (A := RA) x g = Ok (gc_set_out (A := RA) o v g) /\ length o = (gc_dim g - gc_din g)%nat /\ length v = csize (gc_mode g) (gc_dim g - gc_din g) /\
    forall d, (d < gc_dim g - gc_din g)%nat -> nth d o 0 = class_out g x d.
Proof.
  intros g x Hs Hi HB Lx Hp. pose proof Hs as (H1 & H2 & H3 & H4 & H5). set (no := (gc_dim g - gc_din g)%nat). change (num RA) with R in *.
  assert (Hle : (gc_din g <= gc_dim g)%nat).
  { destruct (comp_fits g Hs 0%nat ltac:(lia)) as ((_ & _ & _ & W4) & FB & FD & FI & FM). rewrite FB in W4. destruct (W4 HB). lia. }
  unfold gm_regression. unfold usub. destruct (Nat.leb_spec (gc_din g) (gc_dim g)); [|lia]. cbn [bind]. fold no. rewrite n0_RA.
  match goal with |- context [iterM (gc_n g) ?F ?s0] =>
    destruct (iterM_inv (fun c (s : list R * list R) => length (fst s) = no /\ length (snd s) = csize (gc_mode g) no /\
      forall d, (d < no)%nat -> nth d (fst s) 0 = Rsum c (fun c => posterior g x c * comp_out (comp_at g c) x d)) (gc_n g) F s0) as ((o, v) & E & L1 & L2 & V) end.
  - cbn [fst snd]. split; [apply repeat_length|]. split; [destruct (gc_mode g); apply repeat_length|]. intros d Hd. cbn [Rsum]. apply nth_repeat.
  - intros c (o, v) Hc (L1 & L2 & V). cbn [fst snd] in *. destruct (comp_fits g Hs c Hc) as (W & FB & FD & FI & FM). pose proof (comp_inv g Hs Hi c Hc) as I.
    rewrite HB in FB. pose proof I as (_ & _ & _ & I2). destruct (I2 FB) as (IV & _ & _ & LO & _).
    rewrite (rd_comp g Hs c Hc). cbn [bind].
    rewrite (regression_R (comp_at g c) x (ginv_in (comp_at g c)) W I FB); [|change (num RA) with R in *; lia|exact IV]. cbn [bind].
    rewrite (rd_nth (X := num RA) (gc_beta g) c 0) by (change (num RA) with R in *; lia). cbn [bind]. rewrite FD, FI in LO |- *. fold no in LO |- *. rewrite FM in LO. rewrite FM || idtac.
    destruct (mix_step (gc_mode g) no (nth c (gc_beta g) 0) (nth c (gc_beta g) 0 * nth c (gc_beta g) 0) (tab no (cond_mean (comp_at g c) (ginv_in (comp_at g c)) (fun i => nth i x 0))) (g_out (comp_at g c)) o v)
      as (o' & v' & E & L1' & L2' & V1 & _).
    { rewrite tab_length. apply le_n. }
    { change (num RA) with R in *. rewrite LO. apply le_n. }
    { exact L1. }
    { exact L2. }
    exists (o', v'). split; [exact E|]. cbn [fst snd]. split; [exact L1'|]. split; [exact L2'|]. intros d Hd. rewrite V1 by exact Hd. rewrite V by exact Hd. rewrite Hp by exact Hc.
    rewrite nth_tab by exact Hd. reflexivity.
  - exists o, v. split; [eapply bind_eq; [exact E|reflexivity]|]. cbn [fst snd] in *. split; [exact L1|]. split; [exact L2|]. exact V.
Qed.

Lemma track_ready : forall g xs h, class_track g xs h -> gm_ready g -> gm_ready h.
Proof.
  intros g xs h (T1 & T2 & T3 & T4 & T5 & T6 & T7 & T8 & T9 & T10) ((H1 & H2 & H3 & H4 & H5) & Hi & D).
  assert (N : gc_n h = gc_n g) by (unfold gc_n; rewrite T5; reflexivity).
  split; [|split; [rewrite T7; exact Hi|]].
  - split; [rewrite N; exact H1|]. split; [rewrite N, T6; exact H2|]. split; [rewrite N, T7; exact H3|]. split; [rewrite N; exact T8|].
    rewrite T7. unfold fits_class, gc_mode in *. rewrite T1, T2, T3, T5. exact H5.
  - unfold distribution, weight in *. rewrite N, T6. exact D.
Qed.

Lemma track_same : forall g xs h x, class_track g xs h -> mix_lik h x = mix_lik g x /\ (forall c, posterior h x c = posterior g x c) /\ (forall d, class_out h x d = class_out g x d).
Proof.
  intros g xs h x (T1 & T2 & T3 & T4 & T5 & T6 & T7 & T8 & T9 & T10). unfold class_out, posterior, mix_lik, weight, comp_at, gc_n. rewrite T5, T6, T7. repeat split.
Qed.

(** One observation. *)
Lemma filter1_ok : forall g xs h (x : list R), gm_ready g -> (1 <= gc_win g)%nat -> class_track g xs h -> length x = obs_dim g ->
  exists h', gm_filter1 (A := RA) x h = Ok h' /\ class_track g (xs ++ [x]) h' /\ class_report g xs x h'.
Proof.
  intros g xs h x Rg HW T Lx. pose proof (track_ready g xs h T Rg) as Rh. destruct (track_same g xs h x T) as (SM & SP & SO).
  pose proof T as (T1 & T2 & T3 & T4 & T5 & T6 & T7 & T8 & T9 & T10).
  assert (N : gc_n h = gc_n g) by (unfold gc_n; rewrite T5; reflexivity). assert (M : gc_mode h = gc_mode g) by (unfold gc_mode; rewrite T5; reflexivity).
  destruct (likelihood_ok h x (gc_win h) (map (fun x => ln (mix_lik g x)) xs) Rh) as (b & buf & E & LB & VB & WB).
  { rewrite T4. exact HW. }
  { unfold obs_dim in *. rewrite T1, T2, T3. exact Lx. }
  { rewrite T4. exact T10. }
  rewrite T4, SM in *. rewrite N in *.
  set (h1 := gc_set_buf (A := RA) buf (mix_lik g x) (window_mean (gc_win g) (map (fun x => ln (mix_lik g x)) xs ++ [ln (mix_lik g x)])) (gc_set_beta (A := RA) b h)) in *.
  unfold gm_filter1. change (num RA) with R in *. rewrite E. cbn [bind]. change (gc_bim h1) with (gc_bim h).
  assert (TR : forall o v, class_track g (xs ++ [x]) (gc_set_out (A := RA) o v h1) /\ class_track g (xs ++ [x]) h1).
  { intros o v. unfold class_track. rewrite map_app. cbn [map]. split; repeat (split; [assumption|]); exact WB. }
  destruct (gc_bim h) eqn:B.
  - destruct (regression_ok h1 x) as (o & v & ER & L1 & L2 & V).
    { destruct Rh as ((H1 & H2 & H3 & H4 & H5) & _). split; [exact H1|]. split; [exact H2|]. split; [exact H3|]. split; [exact (eq_trans LB (eq_sym N))|exact H5]. }
    { exact (proj1 (proj2 Rh)). }
    { exact B. }
    { unfold obs_dim in Lx. rewrite <- T1 in Lx. change (gc_din h1) with (gc_din h). rewrite T3. exact Lx. }
    { intros c Hc. apply VB. rewrite <- N. exact Hc. }
    exists (gc_set_out (A := RA) o v h1). split; [exact ER|]. split; [apply (TR o v)|]. unfold class_report. split; [reflexivity|].
    split; [rewrite map_app; reflexivity|]. split; [intros c Hc; rewrite <- SP; apply VB; exact Hc|]. intros _.
    change (gc_dim h1) with (gc_dim h) in *. change (gc_din h1) with (gc_din h) in *. change (gc_mode h1) with (gc_mode h) in L2. rewrite T2, T3 in *. rewrite M in L2.
    split; [exact L1|]. split; [exact L2|]. intros d Hd. cbn [gc_out gc_set_out]. rewrite <- SO. rewrite V by exact Hd. reflexivity.
  - exists h1. split; [reflexivity|]. split; [apply (TR [] [])|]. unfold class_report. split; [reflexivity|].
    split; [rewrite map_app; reflexivity|]. split; [intros c Hc; rewrite <- SP; apply VB; exact Hc|]. rewrite <- T1. discriminate.
Qed.

Lemma reset_track : forall g, class_usable g -> class_track g [] (gm_reset1 g).
Proof.
  intros g ((( _ & _ & _ & H4 & _) & _) & HW & WF). unfold class_track, gm_reset1. cbn. repeat (split; [reflexivity|]). split; [exact H4|]. split; [reflexivity|].
  rewrite n0_RA. apply window_fresh. exact WF.
Qed.

(** Any number of observations. *)
Lemma filters_ok : forall g xs, class_usable g -> Forall (fun x => length x = obs_dim g) xs ->
  exists h, foldM (fun h x => gm_filter1 (A := RA) x h) xs (gm_reset1 g) = Ok h /\ class_track g xs h /\
    forall pre x, xs = pre ++ [x] -> class_report g pre x h.
Proof.
  intros g xs U. induction xs as [|x xs IH] using rev_ind; intro F.
  - exists (gm_reset1 g). split; [reflexivity|]. split; [apply reset_track, U|]. intros pre x E. destruct pre; discriminate.
  - apply Forall_app in F. destruct F as (F1 & F2). inversion F2 as [|? ? Lx _]; subst. destruct (IH F1) as (h & E & T & _).
    destruct (filter1_ok g xs h x (proj1 U) (proj1 (proj2 U)) T Lx) as (h' & E' & T' & RP). exists h'. split; [|split; [exact T'|]].
    + clear -E E'. revert E. generalize (gm_reset1 g). induction xs as [|y ys IH]; intros s E; cbn [app foldM] in *.
      * inversion E; subst. rewrite E'. reflexivity.
      * destruct (gm_filter1 y s); try discriminate. cbn [bind] in *. apply IH, E.
    + intros pre y EQ. apply app_inj_tail in EQ. destruct EQ as (-> & ->). exact RP.
Qed.
