(** Gaussian mixtures: the EM update. *)
From Coq Require Import List Bool Arith Lia Reals Lra QArith Qreals.
From Verif Require Import Base BaseFacts Arith RFacts Model_Phrase Model_Gaussian Model_Config Model_KMeans Model_GMM
  Spec_Matrix Spec_Det Spec_Gaussian Spec_GMM Proofs_Gaussian Proofs_Gaussian2 Proofs_Gaussian3 Proofs_KMeans.
Import ListNotations.
Local Open Scope R_scope.

(** ** Generic *)
Lemma mapM_ex : forall {X Y} (P : X -> Y -> Prop) (f : X -> res Y) l, (forall x, In x l -> exists y, f x = Ok y /\ P x y) ->
  exists ys, mapM f l = Ok ys /\ Forall2 P l ys.
Proof.
  induction l as [|x l IH]; intro H; cbn [mapM]; [exists []; split; [reflexivity|constructor]|].
  destruct (H x (or_introl eq_refl)) as (y & -> & Py). cbn [bind]. destruct (IH (fun z Hz => H z (or_intror Hz))) as (ys & -> & F). cbn [bind].
  exists (y :: ys). split; [reflexivity|constructor; assumption].
Qed.

Lemma tabM_ex : forall {Y} (d : Y) (P : nat -> Y -> Prop) n (f : nat -> res Y), (forall i, (i < n)%nat -> exists y, f i = Ok y /\ P i y) ->
  exists v, tabM n f = Ok v /\ length v = n /\ forall i, (i < n)%nat -> P i (nth i v d).
Proof.
  induction n as [|n IH]; intros f H; cbn [tabM]; [exists []; repeat split; intros; lia|].
  destruct (IH f (fun i Hi => H i (Nat.lt_lt_succ_r _ _ Hi))) as (v & -> & L & V). cbn [bind]. destruct (H n ltac:(lia)) as (y & -> & Py). cbn [bind].
  exists (v ++ [y]). split; [reflexivity|]. split; [rewrite app_length; cbn; lia|]. intros i Hi. destruct (Nat.eq_dec i n) as [->|D].
  - rewrite app_nth2 by lia. rewrite L, Nat.sub_diag. exact Py.
  - rewrite app_nth1 by lia. apply V. lia.
Qed.

Lemma Rlsum_nth : forall {X} (d : X) (f : X -> R) l, Rlsum (map f l) = Rsum (length l) (fun i => f (nth i l d)).
Proof.
  intros X d f l. rewrite <- (Rsum_nth (map f l)). rewrite map_length. apply Rsum_ext. intros i Hi.
  rewrite (nth_indep _ 0 (f d)) by (rewrite map_length; exact Hi). apply map_nth.
Qed.

Lemma Rlsum_pos : forall {X} (f : X -> R) l, l <> [] -> (forall x, In x l -> 0 < f x) -> 0 < Rlsum (map f l).
Proof.
  intros X f l Hl H. destruct l as [|x l]; [contradiction|]. cbn [map]. unfold Rlsum. cbn [fold_right]. fold (Rlsum (map f l)).
  assert (0 < f x) by (apply H; left; reflexivity). assert (0 <= Rlsum (map f l)); [|lra].
  apply Rlsum_nonneg. intros y Hy. apply in_map_iff in Hy. destruct Hy as (z & <- & Hz). left. apply H. right. exact Hz.
Qed.

(** ** Scores and responsibilities *)
Lemma min_lik_pos : 0 < min_likelihood.
Proof. unfold min_likelihood. apply Rinv_0_lt_compat, pow_lt. lra. Qed.
Lemma comp_lik_pos : forall k x, 0 < comp_lik k x.
Proof. intros. unfold comp_lik. eapply Rlt_le_trans; [apply min_lik_pos|apply Rmax_l]. Qed.
Lemma e100_pos : 0 < / 10 ^ 100.
Proof. apply Rinv_0_lt_compat, pow_lt. lra. Qed.

Lemma score_pos : forall g x c, 0 <= weight g c -> 0 < score g x c.
Proof.
  intros g x c H. unfold score. destruct (Req_EM_T (weight g c * comp_lik (comp_at g c) x) 0) as [E|E]; [apply e100_pos|].
  pose proof (Rmult_le_pos _ _ H (Rlt_le _ _ (comp_lik_pos (comp_at g c) x))). lra.
Qed.

Lemma scores_pos : forall g x, (1 <= gc_n g)%nat -> (forall c, (c < gc_n g)%nat -> 0 <= weight g c) -> 0 < Rsum (gc_n g) (score g x).
Proof. intros g x Hn H. apply Rsum_pos; [lia|]. intros. apply score_pos. auto. Qed.

Lemma resp_pos : forall g x c, (1 <= gc_n g)%nat -> (forall c, (c < gc_n g)%nat -> 0 <= weight g c) -> (c < gc_n g)%nat -> 0 < resp g x c.
Proof. intros. unfold resp. apply Rdiv_lt_0_compat; [apply score_pos; auto|apply scores_pos; auto]. Qed.

Lemma resp_sum : forall g x, (1 <= gc_n g)%nat -> (forall c, (c < gc_n g)%nat -> 0 <= weight g c) -> Rsum (gc_n g) (resp g x) = 1.
Proof. intros g x Hn H. unfold resp. rewrite Rsum_div. pose proof (scores_pos g x Hn H). field. lra. Qed.

Lemma fix_score : forall p, @gm_fix RA p = if Req_EM_T p 0 then / 10 ^ 100 else p.
Proof.
  intro p. unfold gm_fix. rewrite n0_RA. cbn [neqb nisnan nisinf nofQ RA]. rewrite !orb_false_r.
  destruct (Req_EM_T p 0); [|reflexivity].
  unfold Q2R. cbn [QArith_base.Qnum QArith_base.Qden]. rewrite Rmult_1_l. f_equal. rewrite pow_IZR. f_equal.
Qed.

(** ** Likelihoods of the components *)
Lemma lik_ready : forall (k : gauss RA) (x : list R), wf_gauss k -> inverted k -> length x = g_dim k -> g_likelihood k x = Ok (comp_lik k x).
Proof. intros k x W I L. unfold comp_lik. apply likelihood_inverted; [exact W|exact I| |exact (proj1 I)]. change (num RA) with R in *. lia. Qed.

Section Ready.
  Variable g : gclass RA.
  Hypothesis Hs : gm_shape g.

  Lemma comp_in : forall c, (c < gc_n g)%nat -> In (comp_at g c) (gc_comp g).
  Proof. intros c Hc. destruct Hs as (_ & _ & L & _). apply nth_In. change (num RA) with R in *. lia. Qed.
  Lemma comp_fits : forall c, (c < gc_n g)%nat -> fits_class g (comp_at g c).
  Proof. intros c Hc. destruct Hs as (_ & _ & _ & _ & F). rewrite Forall_forall in F. apply F, comp_in, Hc. Qed.
  Lemma rd_comp : forall c, (c < gc_n g)%nat -> rd (gc_comp g) c = Ok (comp_at g c).
  Proof. intros c Hc. destruct Hs as (_ & _ & L & _). apply rd_nth. lia. Qed.
  Lemma rd_coef : forall c, (c < gc_n g)%nat -> rd (gc_coef g) c = Ok (weight g c).
  Proof. intros c Hc. destruct Hs as (_ & L & _). apply rd_nth. change (num RA) with R in *. lia. Qed.

  Hypothesis Hi : Forall inverted (gc_comp g).
  Lemma comp_inv : forall c, (c < gc_n g)%nat -> inverted (comp_at g c).
  Proof. intros c Hc. rewrite Forall_forall in Hi. apply Hi, comp_in, Hc. Qed.

  Lemma frame_obs_ok : forall (x : list R) c, length x = gc_dim g -> (c < gc_n g)%nat ->
    gm_frame_obs g x c = Ok (weight g c * comp_lik (comp_at g c) x).
  Proof.
    intros x c Lx Hc. destruct (comp_fits c Hc) as (W & FB & FD & FI & FM). unfold gm_frame_obs.
    assert (E : g_likelihood (comp_at g c) x = Ok (comp_lik (comp_at g c) x)) by (apply lik_ready; [exact W|apply comp_inv, Hc|rewrite FD; exact Lx]).
    destruct (gc_bim g) eqn:B.
    - assert (Hle : (gc_din g <= gc_dim g)%nat) by (destruct W as (_ & _ & _ & W); destruct (W FB); lia).
      unfold gm_obs_bim. rewrite B. cbn [negb]. rewrite rd_coef, rd_comp by exact Hc. cbn [bind]. rewrite likelihood_bimodal_R.
      + change (num RA) with R. rewrite firstn_skipn. change (num RA) with R in *. rewrite E. reflexivity.
      + exact W.
      + exact FB.
      + change (num RA) with R in *. rewrite firstn_length. lia.
      + change (num RA) with R in *. rewrite skipn_length. lia.
    - unfold gm_obs. destruct (Nat.leb_spec (gc_n g) c); [lia|]. rewrite rd_coef, rd_comp by exact Hc. cbn [bind]. rewrite E. reflexivity.
  Qed.

  Lemma estep_frame_ok : forall (x : list R) ps E lp, length x = gc_dim g ->
    gm_estep_frame g (ps, E, lp) x = Ok (ps ++ [tab (gc_n g) (resp g x)],
      tab (gc_n g) (fun c => nth c E 0 + resp g x c), lp + ln (Rsum (gc_n g) (score g x))).
  Proof.
    intros x ps E lp Lx. unfold gm_estep_frame.
    rewrite (tabM_ok _ _ (score g x)) by (intros i Hi'; rewrite frame_obs_ok by assumption; cbn [bind]; apply (f_equal (@Ok _)), fix_score).
    cbn [bind]. rewrite nsum_RA. rewrite n0_RA. change (num RA) with R.
    rewrite (Rsum_ext (gc_n g) (fun c => nth c (tab (gc_n g) (score g x)) 0) (score g x)) by (intros; rewrite nth_tab by assumption; reflexivity).
    assert (M : map (fun v : R => v / Rsum (gc_n g) (score g x)) (tab (gc_n g) (score g x)) = tab (gc_n g) (resp g x)) by (unfold tab; rewrite map_map; reflexivity).
    cbn [ndiv nadd nln RA]. change (num RA) with R. rewrite M. apply (f_equal (@Ok _)). f_equal. f_equal.
    apply tab_ext. intros i Hi'. rewrite nth_tab by assumption. reflexivity.
  Qed.

  Lemma estep_fold : forall frames ps E lp, Forall (fun x => length x = gc_dim g) frames -> length E = gc_n g ->
    exists E', foldM (gm_estep_frame g) frames (ps, E, lp) =
        Ok (ps ++ map (fun x => tab (gc_n g) (resp g x)) frames, E', lp + Rlsum (map (fun x => ln (Rsum (gc_n g) (score g x))) frames)) /\
      length E' = gc_n g /\ forall c, (c < gc_n g)%nat -> nth c E' 0 = nth c E 0 + mass g frames c.
  Proof.
    induction frames as [|x frames IH]; intros ps E lp F L.
    - exists E. cbn [foldM map]. rewrite app_nil_r. change (Rlsum []) with 0. split; [apply (f_equal (@Ok _)); f_equal; symmetry; apply Rplus_0_r|].
      split; [exact L|]. intros. unfold mass. cbn. lra.
    - inversion F as [|? ? Lx F']; subst. cbn [foldM]. rewrite estep_frame_ok by exact Lx. cbn [bind].
      destruct (IH (ps ++ [tab (gc_n g) (resp g x)]) (tab (gc_n g) (fun c => nth c E 0 + resp g x c)) (lp + ln (Rsum (gc_n g) (score g x))) F') as (E' & Q & L' & V).
      { rewrite tab_length. reflexivity. }
      exists E'. split; [|split; [exact L'|]].
      + etransitivity; [exact Q|]. cbn [map]. apply (f_equal (@Ok _)). rewrite <- app_assoc. cbn [app].
        f_equal. unfold Rlsum. cbn [fold_right]. apply Rplus_assoc.
      + intros c Hc. rewrite V by exact Hc. rewrite nth_tab by exact Hc. unfold mass. cbn [map]. unfold Rlsum. cbn [fold_right]. apply Rplus_assoc.
  Qed.

  Lemma estep_ok : forall frames, Forall (fun x => length x = gc_dim g) frames ->
    gm_estep g frames = Ok (map (fun x => tab (gc_n g) (resp g x)) frames, tab (gc_n g) (mass g frames),
      Rlsum (map (fun x => ln (Rsum (gc_n g) (score g x))) frames)).
  Proof.
    intros frames F. unfold gm_estep. destruct (estep_fold frames [] (repeat 0 (gc_n g)) 0 F (repeat_length _ _)) as (E' & Q & L & V).
    rewrite n0_RA. etransitivity; [exact Q|]. apply (f_equal (@Ok _)). cbn [app]. f_equal; [f_equal|apply Rplus_0_l].
    apply (nth_ext_len _ _ 0); [rewrite tab_length; exact L|]. intros i Hi'. change (num RA) with R in *. rewrite L in Hi'.
    rewrite V by exact Hi'. rewrite nth_repeat, nth_tab by exact Hi'. apply Rplus_0_l.
  Qed.

  (** ** The M step *)
  Lemma wsum_ok : forall frames c (f : R -> list R -> res R) h, (c < gc_n g)%nat ->
    (forall x, In x frames -> forall w, f w x = Ok (h w x)) ->
    @gm_wsum RA (map (fun x => tab (gc_n g) (resp g x)) frames) frames c f = Ok (Rlsum (map (fun x => h (resp g x c) x) frames)).
  Proof.
    intros frames c f h Hc Hf. unfold gm_wsum. rewrite n0_RA.
    rewrite (accM_ok _ _ (fun i => h (resp g (nth i frames []) c) (nth i frames []))).
    - rewrite (Rlsum_nth []). apply (f_equal (@Ok _)), Rplus_0_l.
    - intros i Hi'. rewrite (rd_nth _ i (tab (gc_n g) (resp g []))) by (rewrite map_length; exact Hi'). cbn [bind].
      rewrite (map_nth (fun x => tab (gc_n g) (resp g x)) frames [] i). rewrite (rd_nth _ c 0) by (rewrite tab_length; exact Hc). cbn [bind].
      rewrite nth_tab by exact Hc. change (num RA) with R. rewrite (rd_nth frames i []) by exact Hi'. cbn [bind]. apply Hf. apply nth_In. exact Hi'.
  Qed.

  Variable frames : list (list R).
  Hypothesis Hf : Forall (fun x => length x = gc_dim g) frames.
  Let ps := map (fun x => tab (gc_n g) (resp g x)) frames.
  Let E := tab (gc_n g) (mass g frames).

  Lemma mean_step : forall c (k : gauss RA), (c < gc_n g)%nat -> fits_class g k ->
    exists k', gm_mean (A := RA) (gc_dim g) ps frames E c k = Ok k' /\ fits_class g k' /\
      forall d, (d < gc_dim g)%nat -> gmean k' d = wmean g frames c d.
  Proof.
    intros c k Hc ((W1 & W2 & W3 & W4) & FB & FD & FI & FM). unfold gm_mean. unfold E at 1. rewrite (rd_nth _ c 0) by (rewrite tab_length; exact Hc). cbn [bind].
    rewrite nth_tab by exact Hc.
    destruct (wr_loop (gc_dim g) 0 (fun d => let* s := @gm_wsum RA ps frames c (fun w x => let* v := rd x d in Ok (w * v)) in Ok (s / mass g frames c))
      (wmean g frames c) (g_mean k)) as (m & Q & L & V).
    { change (num RA) with R in *. lia. }
    { intros d Hd. unfold ps. rewrite (wsum_ok frames c _ (fun w x => w * nth d x 0)); [reflexivity|exact Hc|].
      intros x Hx w. rewrite Forall_forall in Hf. change (num RA) with R. rewrite (rd_nth x d 0) by (rewrite Hf by exact Hx; exact Hd). reflexivity. }
    exists (g_set_mean (A := RA) m k). split; [|split].
    - eapply bind_eq; [|reflexivity]. etransitivity; [|exact Q]. apply iterM_ext. intros d s Hd. 
      change (num RA) with R. cbn [nmul ndiv RA]. destruct (@gm_wsum RA ps frames c _); reflexivity.
    - split; [|cbn; auto]. unfold wf_gauss. cbn. split; [etransitivity; [exact L|exact W1]|auto].
    - intros d Hd. unfold gmean. cbn [g_mean g_set_mean]. rewrite V. cbn [Nat.leb andb Nat.add]. destruct (Nat.ltb_spec d (gc_dim g)); [|lia].
      rewrite Nat.sub_0_r. reflexivity.
  Qed.

  Lemma cov_entry : forall c (k : gauss RA) d1 d2, (c < gc_n g)%nat -> fits_class g k ->
    (forall d, (d < gc_dim g)%nat -> gmean k d = wmean g frames c d) -> (d1 < gc_dim g)%nat -> (d2 < gc_dim g)%nat ->
    (let* s := @gm_wsum RA ps frames c (fun w x =>
       let* a := (let* v := rd x d1 in let* m := rd (g_mean k) d1 in Ok (v - m)) in
       let* b := (let* v := rd x d2 in let* m := rd (g_mean k) d2 in Ok (v - m)) in Ok (w * a * b)) in
     Ok (s / mass g frames c)) = Ok (wcov g frames c d1 d2).
  Proof.
    intros c k d1 d2 Hc ((W1 & W2 & W3 & W4) & FB & FD & FI & FM) Hm H1 H2. unfold ps.
    rewrite (wsum_ok frames c _ (fun w x => w * (nth d1 x 0 - wmean g frames c d1) * (nth d2 x 0 - wmean g frames c d2))); [reflexivity|exact Hc|].
    intros x Hx w. rewrite Forall_forall in Hf. pose proof (Hf x Hx) as Lx. change (num RA) with R in *.
    rewrite (rd_nth x d1 0), (rd_nth x d2 0), (rd_nth (X := R) (g_mean k) d1 0), (rd_nth (X := R) (g_mean k) d2 0) by (change (num RA) with R in *; lia). cbn [bind].
    pose proof (Hm d1 H1) as M1. pose proof (Hm d2 H2) as M2. unfold gmean in M1, M2. change (num RA) with R in *. rewrite M1, M2. reflexivity.
  Qed.

  Lemma wcov_sym : forall c d1 d2, wcov g frames c d1 d2 = wcov g frames c d2 d1.
  Proof. intros. unfold wcov. f_equal. apply Rlsum_map_ext. intros. ring. Qed.

  (** Filling a symmetric matrix, upper triangle first. *)
  Lemma sym_fill : forall n (f : nat -> nat -> res R) (V : nat -> nat -> R) (v : list R), length v = (n * n)%nat ->
    (forall i j, V i j = V j i) -> (forall i j, (i < n)%nat -> (j < n)%nat -> f i j = Ok (V i j)) ->
    exists v', iterM n (fun d1 cov => iterM (n - d1) (fun k cov => let* v := f d1 (d1 + k)%nat in
        let* cov := wr cov (d1 * n + (d1 + k)) v in if (k =? 0)%nat then Ok cov else wr cov ((d1 + k) * n + d1) v) cov) v = Ok v' /\
      length v' = (n * n)%nat /\ forall i j, (i < n)%nat -> (j < n)%nat -> nth (i * n + j) v' 0 = V i j.
  Proof.
    intros n f V v Lv VS Hff.
    destruct (iterM_inv (fun d s => length s = (n * n)%nat /\ forall i j, (i < n)%nat -> (j < n)%nat -> (Nat.min i j < d)%nat -> nth (i * n + j) s 0 = V i j) n
      (fun d1 cov => iterM (n - d1) (fun k cov => let* v := f d1 (d1 + k)%nat in
        let* cov := wr cov (d1 * n + (d1 + k)) v in if (k =? 0)%nat then Ok cov else wr cov ((d1 + k) * n + d1) v) cov) v) as (v' & Q & L & H).
    - split; [exact Lv|]. intros. lia.
    - intros d s Hd (L & H).
      destruct (iterM_inv (fun k s => length s = (n * n)%nat /\ forall i j, (i < n)%nat -> (j < n)%nat ->
          (Nat.min i j < d \/ (Nat.min i j = d /\ Nat.max i j < d + k))%nat -> nth (i * n + j) s 0 = V i j) (n - d)
        (fun k cov => let* v := f d (d + k)%nat in
        let* cov := wr cov (d * n + (d + k)) v in if (k =? 0)%nat then Ok cov else wr cov ((d + k) * n + d) v) s) as (s' & Q & L' & H').
      + split; [exact L|]. intros i j Hi' Hj [C|C]; [apply H; assumption|lia].
      + intros k u Hk (Lu & Hu). rewrite Hff by lia. cbn [bind].
        assert (B1 : (d * n + (d + k) < n * n)%nat) by (apply flat_lt; lia). assert (B2 : ((d + k) * n + d < n * n)%nat) by (apply flat_lt; lia).
        rewrite wr_ok by (rewrite Lu; exact B1). cbn [bind]. destruct (Nat.eqb_spec k 0) as [K|K].
        * eexists. split; [reflexivity|]. split; [rewrite upd_length; exact Lu|]. intros i j Hi' Hj C.
          destruct (Nat.eq_dec (i * n + j) (d * n + (d + k))) as [Q|Q].
          -- rewrite Q, nth_upd_eq by (rewrite Lu; exact B1). apply flat_eq in Q; [|lia..]. destruct Q as (-> & ->). reflexivity.
          -- rewrite nth_upd_neq by auto. apply Hu; auto. destruct C as [C|(C1 & C2)]; [left; exact C|]. exfalso. apply Q.
             assert (i = d) by lia. assert (j = d) by lia. subst i j k. lia.
        * rewrite wr_ok by (rewrite upd_length, Lu; exact B2).
          eexists. split; [reflexivity|]. split; [rewrite !upd_length; exact Lu|]. intros i j Hi' Hj C.
          destruct (Nat.eq_dec (i * n + j) ((d + k) * n + d)) as [Q|Q].
          { rewrite Q, nth_upd_eq by (rewrite upd_length, Lu; exact B2). apply flat_eq in Q; [|lia..]. destruct Q as (-> & ->). apply VS. }
          rewrite nth_upd_neq by auto. destruct (Nat.eq_dec (i * n + j) (d * n + (d + k))) as [Q2|Q2].
          { rewrite Q2, nth_upd_eq by (rewrite Lu; exact B1). apply flat_eq in Q2; [|lia..]. destruct Q2 as (-> & ->). reflexivity. }
          rewrite nth_upd_neq by auto. apply Hu; auto. destruct C as [C|(C1 & C2)]; [left; exact C|]. right. split; [exact C1|].
          destruct (Nat.eq_dec (Nat.max i j) (d + k)) as [M|M]; [|lia]. exfalso. destruct (Nat.le_gt_cases i j).
          -- apply Q2. replace i with d by lia. replace j with (d + k)%nat by lia. reflexivity.
          -- apply Q. replace j with d by lia. replace i with (d + k)%nat by lia. reflexivity.
      + exists s'. split; [exact Q|]. split; [exact L'|]. intros i j Hi' Hj C. apply H'; auto. lia.
    - exists v'. split; [exact Q|]. split; [exact L|]. intros i j Hi' Hj. apply H; auto. lia.
  Qed.

  Lemma cov_step : forall c (k : gauss RA), (c < gc_n g)%nat -> fits_class g k ->
    (forall d, (d < gc_dim g)%nat -> gmean k d = wmean g frames c d) ->
    exists k', gm_cov (A := RA) (gc_mode g) (gc_dim g) ps frames E c k = Ok k' /\ fits_class g k' /\ g_mean k' = g_mean k /\
      forall i j, (i < gc_dim g)%nat -> (j < gc_dim g)%nat ->
        gcov k' i j = match gc_mode g with Full => wcov g frames c i j | Diagonal => if Nat.eqb i j then wcov g frames c i i else 0 end.
  Proof.
    intros c k Hc F Hm. pose proof F as ((W1 & W2 & W3 & W4) & FB & FD & FI & FM).
    unfold gm_cov. unfold E at 1. rewrite (rd_nth _ c 0) by (rewrite tab_length; exact Hc). cbn [bind].
    rewrite nth_tab by exact Hc. rewrite FM, FD in W2. destruct (gc_mode g) eqn:M; cbn [csize] in W2.
    - destruct (sym_fill (gc_dim g) (fun d1 d2 => let* s := @gm_wsum RA ps frames c (fun w x =>
         let* a := (let* v := rd x d1 in let* m := rd (g_mean k) d1 in Ok (v - m)) in
         let* b := (let* v := rd x d2 in let* m := rd (g_mean k) d2 in Ok (v - m)) in Ok (w * a * b)) in
         Ok (s / mass g frames c)) (wcov g frames c) (g_cov k) W2 (wcov_sym c)) as (v & Q & L & V).
      { intros i j Hi' Hj. apply (cov_entry c k i j Hc F Hm Hi' Hj). }
      exists (g_set_cov (A := RA) v k). split; [eapply bind_eq; [exact Q|reflexivity]|]. split; [|split].
      + split; [|rewrite M; exact (conj FB (conj FD (conj FI FM)))]. unfold wf_gauss. cbn. rewrite FM, FD. cbn [csize]. rewrite FM, FD in W3. rewrite FD in W1. rewrite FM in W4. rewrite FD in W4. exact (conj W1 (conj L (conj W3 W4))).
      + reflexivity.
      + intros i j Hi' Hj. unfold gcov. cbn [g_mode g_dim g_cov g_set_cov]. rewrite FM, FD. cbn [stored]. unfold rcell. apply V; assumption.
    - destruct (wr_loop (gc_dim g) 0 (fun d => let* s := @gm_wsum RA ps frames c (fun w x =>
         let* a := (let* v := rd x d in let* m := rd (g_mean k) d in Ok (v - m)) in
         let* b := (let* v := rd x d in let* m := rd (g_mean k) d in Ok (v - m)) in Ok (w * a * b)) in
         Ok (s / mass g frames c)) (fun d => wcov g frames c d d) (g_cov k)) as (v & Q & L & V).
      { change (num RA) with R in *. lia. }
      { intros d Hd. apply (cov_entry c k d d Hc F Hm Hd Hd). }
      exists (g_set_cov (A := RA) v k). split; [eapply bind_eq; [exact Q|reflexivity]|]. split; [|split].
      + split; [|rewrite M; exact (conj FB (conj FD (conj FI FM)))]. unfold wf_gauss. cbn. rewrite FM, FD. cbn [csize]. rewrite FM, FD in W3. rewrite FD in W1. rewrite FM in W4. rewrite FD in W4.
        split; [exact W1|]. split; [etransitivity; [exact L|exact W2]|auto].
      + reflexivity.
      + intros i j Hi' Hj. unfold gcov. cbn [g_mode g_dim g_cov g_set_cov]. rewrite FM, FD. cbn [stored].
        destruct (Nat.eqb i j); [|reflexivity]. rewrite V. cbn [Nat.leb andb Nat.add]. destruct (Nat.ltb_spec i (gc_dim g)); [|lia]. rewrite Nat.sub_0_r. reflexivity.
  Qed.
End Ready.

(** ** Inversion changes only what is derived from the covariance *)
Section Keeps.
  Context {A : arith}.
  Definition keeps {X} (m : stm (gauss A) X) : Prop := forall s, same_params s (fst (m s)).
  Lemma sp_refl : forall s : gauss A, same_params s s.
  Proof. intro s. repeat split. Qed.
  Lemma sp_trans : forall s t u : gauss A, same_params s t -> same_params t u -> same_params s u.
  Proof. unfold same_params. intros s t u (A1 & A2 & A3 & A4 & A5 & A6) (B1 & B2 & B3 & B4 & B5 & B6). repeat split; congruence. Qed.
  Lemma keeps_bind : forall {X Y} (m : stm (gauss A) X) (f : X -> stm (gauss A) Y), keeps m -> (forall x, keeps (f x)) -> keeps (sbind m f).
  Proof.
    intros X Y m f Hm Hf s. unfold sbind. specialize (Hm s). destruct (m s) as [s1 [x|e|]]; cbn [fst] in *; try exact Hm.
    eapply sp_trans; [exact Hm|apply Hf].
  Qed.
  Lemma keeps_lift : forall {X} (r : res X), keeps (slift r).
  Proof. intros X r s. unfold slift. apply sp_refl. Qed.
  Lemma keeps_get : keeps (@sget (gauss A)).
  Proof. intro s. apply sp_refl. Qed.
  Lemma keeps_throw : forall {X} e, keeps (@sthrow (gauss A) X e).
  Proof. intros X e s. apply sp_refl. Qed.
  Lemma keeps_when : forall b (m : stm (gauss A) unit), keeps m -> keeps (swhen b m).
  Proof. intros b m H s. destruct b; [apply H|apply sp_refl]. Qed.
  Lemma keeps_mod : forall f, (forall s, same_params s (f s)) -> keeps (smod f).
  Proof. intros f H s. apply H. Qed.
  Lemma keeps_foreach : forall {X} (l : list X) (f : X -> stm (gauss A) unit), (forall x, keeps (f x)) -> keeps (sforeach l f).
  Proof. induction l as [|x l IH]; intros f H; [intro s; apply sp_refl|]. cbn [sforeach]. apply keeps_bind; [apply H|]. intro. apply IH, H. Qed.

  Lemma update_inv_keeps : keeps (@g_update_inv A).
  Proof.
    assert (O : keeps (@g_update_out A)).
    { unfold g_update_out. apply keeps_bind; [apply keeps_get|]. intro g. destruct (negb (g_bim g)); [apply keeps_throw|].
      apply keeps_bind; [apply keeps_lift|]. intro no. destruct (g_mode g).
      - apply keeps_bind; [apply keeps_lift|]. intro ci. apply keeps_bind; [apply keeps_lift|]. intros (inv, dd).
        do 5 (apply keeps_bind; [apply keeps_lift|]; intro). apply keeps_mod. intro. repeat split.
      - apply keeps_bind; [apply keeps_lift|]. intro o. apply keeps_mod. intro. repeat split. }
    unfold g_update_inv. apply keeps_bind; [apply keeps_get|]. intro g. apply keeps_bind; [|intro; apply keeps_when, O].
    destruct (g_mode g).
    - apply keeps_bind; [apply keeps_lift|]. intros (inv, dd). apply keeps_bind; [apply keeps_mod; intro; repeat split|]. intros _.
      apply keeps_bind; [apply keeps_lift|]. intro v. apply keeps_bind; [apply keeps_mod; intro; repeat split|]. intros _.
      apply keeps_when. apply keeps_bind; [apply keeps_lift|]. intro ci. apply keeps_bind; [apply keeps_lift|]. intros (inv', dd').
      apply keeps_bind; [apply keeps_mod; intro; repeat split|]. intros _. apply keeps_bind; [apply keeps_lift|]. intro v'. apply keeps_mod; intro; repeat split.
    - apply keeps_bind; [apply keeps_mod; intro; repeat split|]. intros _. apply keeps_bind; [apply keeps_mod; intro; repeat split|]. intros _.
      apply keeps_foreach. intro d. apply keeps_bind; [apply keeps_get|]. intro g'. apply keeps_bind; [apply keeps_lift|]. intro c.
      destruct (c <=? n0)%num; [apply keeps_throw|]. apply keeps_bind; [apply keeps_lift|]. intro v.
      apply keeps_bind; [apply keeps_mod; intro; repeat split|]. intros _. apply keeps_bind; [apply keeps_mod; intro; repeat split|]. intros _.
      apply keeps_when. apply keeps_bind; [apply keeps_lift|]. intro v'. apply keeps_bind; [apply keeps_mod; intro; repeat split|]. intros _. apply keeps_mod; intro; repeat split.
  Qed.

  Lemma runm_inv_params : forall k k' : gauss A, runm g_update_inv k = Ok k' -> same_params k k'.
  Proof.
    intros k k' H. unfold runm in H. pose proof (update_inv_keeps k) as K. destruct (g_update_inv k) as [s [u|e|]]; try discriminate. inversion H; subst. exact K.
  Qed.
End Keeps.

(** ** Regularisation *)
Lemma regularize_ok : forall (r : list R) (k : gauss RA), wf_gauss k -> (g_dim k <= length r)%nat ->
  exists c, runm (g_regularize (A := RA) r) k = Ok (g_set_cov c k) /\ length c = length (g_cov k) /\ wf_gauss (g_set_cov c k) /\
    forall i j, (i < g_dim k)%nat -> (j < g_dim k)%nat -> gcov (g_set_cov c k) i j = gcov k i j + if Nat.eqb i j then nth i r 0 else 0.
Proof.
  intros r k (W1 & W2 & W3 & W4) Hr. set (n := g_dim k) in *. change (num RA) with R in *.
  destruct (iterM_inv (fun d (s : list R) => length s = length (g_cov k) /\ forall i j, (i < n)%nat -> (j < n)%nat ->
      stored (g_mode k) n s i j = stored (g_mode k) n (g_cov k) i j + if Nat.eqb i j && (i <? d)%nat then nth i r 0 else 0) n
    (fun d c => let i := match g_mode k with Full => d * n + d | Diagonal => d end%nat in let* x := rd c i in let* y := rd r d in wr c i (x + y)) (g_cov k)) as (c & Q & L & V).
  - split; [reflexivity|]. intros. rewrite andb_false_r. lra.
  - intros d s Hd (L & V).
    assert (B : (match g_mode k with Full => d * n + d | Diagonal => d end < length s)%nat).
    { rewrite L. change (num RA) with R. rewrite W2. destruct (g_mode k); cbn [csize]; [apply flat_lt; exact Hd|exact Hd]. }
    cbv zeta. rewrite (rd_nth s _ 0) by exact B. cbn [bind]. rewrite (rd_nth r d 0) by lia. cbn [bind]. rewrite wr_ok by exact B.
    eexists. split; [reflexivity|]. split; [rewrite upd_length; exact L|]. intros i j Hi Hj. specialize (V i j Hi Hj).
    destruct (g_mode k); cbn [stored] in *.
    + unfold rcell in *. destruct (Nat.eq_dec (i * n + j) (d * n + d)) as [Q|Q].
      * rewrite Q in *. rewrite nth_upd_eq by exact B. apply flat_eq in Q; [|exact Hj|exact Hd]. destruct Q as (-> & ->).
        rewrite Nat.eqb_refl in *. cbn [andb] in *. destruct (Nat.ltb_spec d d); [lia|]. destruct (Nat.ltb_spec d (S d)); [|lia]. rewrite V. lra.
      * rewrite nth_upd_neq by auto. rewrite V. destruct (Nat.eqb_spec i j) as [EQ|]; cbn [andb]; [|reflexivity]. subst j.
        assert (i <> d) by (intros ->; apply Q; reflexivity). destruct (Nat.ltb_spec i d), (Nat.ltb_spec i (S d)); try lia; reflexivity.
    + destruct (Nat.eqb_spec i j) as [EQ|]; [|exact V]. subst j. cbn [andb] in *. destruct (Nat.eq_dec i d) as [->|D].
      * rewrite nth_upd_eq by exact B. destruct (Nat.ltb_spec d d); [lia|]. destruct (Nat.ltb_spec d (S d)); [|lia]. rewrite V. lra.
      * rewrite nth_upd_neq by auto. rewrite V. destruct (Nat.ltb_spec i d), (Nat.ltb_spec i (S d)); try lia; reflexivity.
  - exists c. split; [|split; [exact L|split]].
    + assert (Z : g_regularize (A := RA) r k = (g_set_cov (A := RA) c k, Ok tt)).
      { eapply sbind_ok; [reflexivity|]. eapply slift_ok; [exact Q|reflexivity]. }
      unfold runm. rewrite Z. reflexivity.
    + unfold wf_gauss. cbn. split; [exact W1|]. split; [etransitivity; [exact L|exact W2]|auto].
    + intros i j Hi Hj. unfold gcov. cbn [g_mode g_dim g_cov g_set_cov]. fold n. rewrite (V i j Hi Hj). destruct (Nat.ltb_spec i n); [|lia]. rewrite andb_true_r. reflexivity.
Qed.

(** ** Weighted covariances are positive semi-definite *)
Lemma Rlsum_div : forall {X} (f : X -> R) c l, Rlsum (map (fun x => f x / c) l) = Rlsum (map f l) / c.
Proof. intros. unfold Rdiv. rewrite (Rlsum_map_ext _ (fun x => / c * f x)) by (intros; ring). rewrite Rlsum_map_scal. ring. Qed.

Lemma outer_psd : forall {X} (l : list X) (w : X -> R) (a : X -> nat -> R) W n v, 0 < W -> (forall x, In x l -> 0 <= w x) ->
  0 <= qform n (fun i j => Rlsum (map (fun x => w x * a x i * a x j) l) / W) v.
Proof.
  intros X l w a W n v HW Hw.
  assert (E : qform n (fun i j => Rlsum (map (fun x => w x * a x i * a x j) l) / W) v =
    Rlsum (map (fun x => w x * (Rsum n (fun i => v i * a x i) * Rsum n (fun i => v i * a x i)) / W) l)).
  { unfold qform. transitivity (Rlsum (map (fun x => Rsum n (fun i => Rsum n (fun j => w x * (v i * a x i) * (v j * a x j) / W))) l)).
    - rewrite Rlsum_map_sum_swap. apply Rsum_ext. intros i Hi. rewrite Rlsum_map_sum_swap. apply Rsum_ext. intros j Hj.
      rewrite <- Rlsum_div. rewrite <- (Rlsum_map_scal (v i)). rewrite (Rmult_comm _ (v j)). rewrite <- (Rlsum_map_scal (v j)).
      apply Rlsum_map_ext. intros. unfold Rdiv. ring.
    - apply Rlsum_map_ext. intros x Hx. set (S := Rsum n (fun i => v i * a x i)).
      transitivity (Rsum n (fun i => v i * a x i * (w x / W * S))).
      + apply Rsum_ext. intros i Hi. unfold S. rewrite (Rsum_ext n _ (fun j => (w x * (v i * a x i) / W) * (v j * a x j))) by (intros; unfold Rdiv; ring).
        rewrite Rsum_scal_l. unfold Rdiv. ring.
      + rewrite Rsum_scal_r. fold S. unfold Rdiv. ring. }
  rewrite E. rewrite <- (map_map (fun x => w x * (Rsum n (fun i => v i * a x i) * Rsum n (fun i => v i * a x i)) / W) (fun y => y)), map_id.
  apply Rlsum_nonneg. intros y Hy. apply in_map_iff in Hy. destruct Hy as (x & <- & Hx).
  apply Rmult_le_pos; [|left; apply Rinv_0_lt_compat; exact HW]. apply Rmult_le_pos; [apply Hw; exact Hx|]. apply Rle_0_sqr.
Qed.

Lemma qform_plus_diag : forall n (C : nat -> nat -> R) r v,
  qform n (fun i j => C i j + if Nat.eqb i j then r i else 0) v = qform n C v + Rsum n (fun i => r i * (v i * v i)).
Proof.
  intros n C r v. unfold qform. rewrite <- Rsum_plus. apply Rsum_ext. intros i Hi.
  rewrite (Rsum_ext n _ (fun j => v i * C i j * v j + v i * (if Nat.eqb i j then r i else 0) * v j)) by (intros; ring). rewrite Rsum_plus. f_equal.
  rewrite (Rsum_single n i); [rewrite Nat.eqb_refl; ring|exact Hi|]. intros j Hj D. destruct (Nat.eqb_spec i j); [congruence|ring].
Qed.

(** Adding terms of at least [rho] to the diagonal of a positive semi-definite matrix gives the margin [rho]. *)
Lemma regularized_pd : forall n (C : nat -> nat -> R) r rho, (forall v, 0 <= qform n C v) -> (forall d, (d < n)%nat -> rho <= r d) ->
  pd_margin n (fun i j => C i j + if Nat.eqb i j then r i else 0) rho.
Proof.
  intros n C r rho HC Hr v. rewrite qform_plus_diag. rewrite <- Rsum_scal_l.
  assert (Rsum n (fun i => rho * (v i * v i)) <= Rsum n (fun i => r i * (v i * v i))).
  { apply Rsum_le. intros i Hi. apply Rmult_le_compat_r; [apply Rle_0_sqr|auto]. }
  specialize (HC v). lra.
Qed.

(** ** The whole update *)
Lemma Forall2_at : forall {X Y} (P : X -> Y -> Prop) l l', Forall2 P l l' -> forall i d d', (i < length l)%nat -> P (nth i l d) (nth i l' d').
Proof. induction 1 as [|x y l l' H F IH]; intros i d d' Hi; [cbn in Hi; lia|]. destruct i; cbn [nth]; [exact H|]. apply IH. cbn in Hi. lia. Qed.
Lemma Forall_at : forall {X} (P : X -> Prop) l d, (forall i, (i < length l)%nat -> P (nth i l d)) -> Forall P l.
Proof. intros X P l d H. apply Forall_forall. intros x Hx. destruct (In_nth _ _ d Hx) as (i & Hi & <-). apply H, Hi. Qed.

Lemma fits_same : forall g k k', fits_class g k -> same_params k k' -> wf_gauss k' -> fits_class g k'.
Proof. intros g k k' (W & B & D & I & M) (S1 & S2 & S3 & S4 & _) W'. split; [exact W'|]. repeat split; congruence. Qed.

Lemma offset_ok : forall g : gclass RA, Forall (fits_class g) (gc_comp g) -> (gc_dim g <= length (gc_reg g))%nat ->
  exists cs, gm_offset g = Ok (gc_set_comp cs g) /\ Forall2 (fun k k' => fits_class g k' /\ g_mean k' = g_mean k /\
    forall i j, (i < gc_dim g)%nat -> (j < gc_dim g)%nat -> gcov k' i j = gcov k i j + if Nat.eqb i j then nth i (gc_reg g) 0 else 0) (gc_comp g) cs.
Proof.
  intros g F Hr. unfold gm_offset.
  destruct (mapM_ex (fun k k' => fits_class g k' /\ g_mean k' = g_mean k /\
    forall i j, (i < gc_dim g)%nat -> (j < gc_dim g)%nat -> gcov k' i j = gcov k i j + if Nat.eqb i j then nth i (gc_reg g) 0 else 0)
    (runm (g_regularize (gc_reg g))) (gc_comp g)) as (cs & E & F2).
  - intros k Hk. rewrite Forall_forall in F. destruct (F k Hk) as (W & FB & FD & FI & FM).
    destruct (regularize_ok (gc_reg g) k W) as (c & E & L & W' & V); [rewrite FD; exact Hr|]. exists (g_set_cov c k). split; [exact E|].
    split; [|split; [reflexivity|]]. { split; [exact W'|]. exact (conj FB (conj FD (conj FI FM))). }
    intros i j Hi Hj. apply V; rewrite FD; assumption.
  - exists cs. rewrite E. split; [reflexivity|exact F2].
Qed.

Lemma inverses_ok : forall g : gclass RA, Forall (fun k => wf_gauss k /\ pos_cov k) (gc_comp g) ->
  exists cs, gm_inverses g = Ok (gc_set_comp cs g) /\ Forall2 (fun k k' => same_params k k' /\ wf_gauss k' /\ inverted k') (gc_comp g) cs.
Proof.
  intros g F. unfold gm_inverses.
  destruct (mapM_ex (fun k k' : gauss RA => same_params k k' /\ wf_gauss k' /\ inverted k') (runm g_update_inv) (gc_comp g)) as (cs & E & F2).
  - intros k Hk. rewrite Forall_forall in F. destruct (F k Hk) as (W & P). destruct (update_inv_ok k W P) as (k' & E & S & W' & I).
    exists k'. unfold runm. rewrite E. auto.
  - exists cs. rewrite E. split; [reflexivity|exact F2].
Qed.

Lemma inverses_params : forall (A : arith) (g h : gclass A), gm_inverses g = Ok h -> exists cs, h = gc_set_comp cs g /\ Forall2 same_params (gc_comp g) cs.
Proof.
  intros A g h H. unfold gm_inverses in H. destruct (mapM (runm g_update_inv) (gc_comp g)) as [cs| |] eqn:E; try discriminate. cbn in H. inversion H; subst. clear H.
  exists cs. split; [reflexivity|]. revert cs E. induction (gc_comp g) as [|k l IH]; intros cs E; cbn [mapM] in E; [inversion E; constructor|].
  destruct (runm g_update_inv k) as [k'| |] eqn:E1; try discriminate. cbn [bind] in E. destruct (mapM (runm g_update_inv) l) as [l'| |] eqn:E2; try discriminate.
  cbn [bind] in E. inversion E; subst. constructor; [apply runm_inv_params; exact E1|apply IH; reflexivity].
Qed.

Lemma mass_pos : forall g frames c, (1 <= gc_n g)%nat -> (forall c, (c < gc_n g)%nat -> 0 <= weight g c) -> frames <> [] -> (c < gc_n g)%nat -> 0 < mass g frames c.
Proof. intros. unfold mass. apply Rlsum_pos; [assumption|]. intros. apply resp_pos; assumption. Qed.

Lemma mass_sum : forall g frames, (1 <= gc_n g)%nat -> (forall c, (c < gc_n g)%nat -> 0 <= weight g c) -> Rsum (gc_n g) (mass g frames) = INR (length frames).
Proof.
  intros g frames H1 H2. unfold mass. rewrite <- (Rlsum_map_sum_swap (fun x c => resp g x c)). 
  rewrite (Rlsum_map_ext _ (fun _ => 1)) by (intros; apply resp_sum; assumption). induction frames as [|x l IH]; [reflexivity|].
  cbn [map length]. unfold Rlsum. cbn [fold_right]. fold (Rlsum (map (fun _ : list R => 1) l)). rewrite IH, S_INR. lra.
Qed.

Section Update.
  Variable g : gclass RA.
  Variable frames : list (list R).
  Hypothesis Hs : gm_shape g.
  Hypothesis Hi : Forall inverted (gc_comp g).
  Hypothesis Hw : forall c, (c < gc_n g)%nat -> 0 <= weight g c.
  Hypothesis Hf : Forall (fun x => length x = gc_dim g) frames.
  Hypothesis Hne : frames <> [].
  Hypothesis Hr : (gc_dim g <= length (gc_reg g))%nat.

  Let coef := tab (gc_n g) (fun c => mass g frames c / INR (length frames)).
  Definition trained_comp (c : nat) (k : gauss RA) : Prop :=
    fits_class g k /\ (forall d, (d < gc_dim g)%nat -> gmean k d = wmean g frames c d) /\
    (forall i j, (i < gc_dim g)%nat -> (j < gc_dim g)%nat -> gcov k i j = new_cov g frames c i j).

  Lemma update_pre : exists cs, length cs = gc_n g /\ (forall c, (c < gc_n g)%nat -> trained_comp c (nth c cs no_gauss)) /\
    gm_update (A := RA) frames g = (let* g' := gm_inverses (gc_set_comp cs (gc_set_coef (A := RA) coef g)) in
      Ok (g', Rlsum (map (fun x => ln (Rsum (gc_n g) (score g x))) frames))).
  Proof.
    unfold gm_update. rewrite (estep_ok g Hs Hi frames Hf). cbn [bind].
    destruct (tabM_ex no_gauss (fun c k => fits_class g k /\ forall d, (d < gc_dim g)%nat -> gmean k d = wmean g frames c d) (gc_n g)
      (fun c => let* k := rd (gc_comp g) c in gm_mean (A := RA) (gc_dim g) (map (fun x => tab (gc_n g) (resp g x)) frames) frames (tab (gc_n g) (mass g frames)) c k))
      as (cs1 & E1 & L1 & P1).
    { intros c Hc. rewrite (rd_comp g Hs c Hc). cbn [bind]. apply (mean_step g frames Hf c _ Hc (comp_fits g Hs c Hc)). }
    destruct (tabM_ex no_gauss (fun c k => fits_class g k /\ (forall d, (d < gc_dim g)%nat -> gmean k d = wmean g frames c d) /\
        forall i j, (i < gc_dim g)%nat -> (j < gc_dim g)%nat ->
        gcov k i j = match gc_mode g with Full => wcov g frames c i j | Diagonal => if Nat.eqb i j then wcov g frames c i i else 0 end) (gc_n g)
      (fun c => let* k := rd cs1 c in gm_cov (A := RA) (gc_mode g) (gc_dim g) (map (fun x => tab (gc_n g) (resp g x)) frames) frames (tab (gc_n g) (mass g frames)) c k))
      as (cs2 & E2 & L2 & P2).
    { intros c Hc. rewrite (rd_nth cs1 c no_gauss) by (rewrite L1; exact Hc). cbn [bind]. destruct (P1 c Hc) as (F & M).
      destruct (cov_step g frames Hf c _ Hc F M) as (k' & E & F' & M' & C). exists k'. split; [exact E|]. split; [exact F'|]. split; [|exact C].
      intros d Hd. unfold gmean. rewrite M'. apply M, Hd. }
    assert (C : tab (gc_n g) (fun c => nth c (tab (gc_n g) (mass g frames)) 0 / INR (length frames)) = coef).
    { unfold coef. apply tab_ext. intros i Hi'. rewrite nth_tab by exact Hi'. reflexivity. }
    rewrite nN_RA, n0_RA. cbn [ndiv RA]. change (num RA) with R in *. rewrite C. rewrite E1. cbn [bind]. rewrite E2. cbn [bind].
    destruct (offset_ok (gc_set_comp cs2 (gc_set_coef (A := RA) coef g))) as (cs3 & E3 & F3).
    { apply (Forall_at _ _ no_gauss). cbn [gc_comp gc_set_comp]. rewrite L2. intros c Hc. destruct (P2 c Hc) as (F & _). exact F. }
    { exact Hr. }
    rewrite E3. cbn [bind]. exists cs3. assert (L3 : length cs3 = gc_n g) by (rewrite <- (Forall2_len _ _ _ F3); exact L2). split; [exact L3|]. split; [|reflexivity].
    intros c Hc. destruct (P2 c Hc) as (F & M & V). pose proof (Forall2_at _ _ _ F3 c no_gauss no_gauss) as P3. cbn [gc_comp gc_set_comp] in P3. rewrite L2 in P3.
    destruct (P3 Hc) as (F' & M' & V'). split; [exact F'|]. split; [intros d Hd; unfold gmean; rewrite M'; apply M, Hd|].
    intros i j Hi' Hj. rewrite (V' i j Hi' Hj), (V i j Hi' Hj). unfold new_cov. cbn [gc_reg gc_set_comp gc_set_coef].
    destruct (Nat.eqb_spec i j) as [EQ|NE]; [subst j; destruct (gc_mode g); [reflexivity|rewrite ?Nat.eqb_refl; reflexivity]|]. destruct (gc_mode g); lra.
  Qed.

  Lemma wcov_psd : forall c v, (c < gc_n g)%nat -> 0 <= qform (gc_dim g) (wcov g frames c) v.
  Proof.
    intros c v Hc. unfold wcov. apply (outer_psd frames (fun x => resp g x c) (fun x d => nth d x 0 - wmean g frames c d)).
    - apply mass_pos; try assumption. exact (proj1 Hs).
    - intros x Hx. left. apply resp_pos; try assumption. exact (proj1 Hs).
  Qed.

  Lemma new_cov_pd : forall c rho, (c < gc_n g)%nat -> gc_mode g = Full -> (forall d, (d < gc_dim g)%nat -> rho <= nth d (gc_reg g) 0) ->
    pd_margin (gc_dim g) (new_cov g frames c) rho.
  Proof.
    intros c rho Hc HM Hrho v. 
    rewrite (qform_ext (gc_dim g) (new_cov g frames c) (fun i j => wcov g frames c i j + if Nat.eqb i j then nth i (gc_reg g) 0 else 0)).
    - apply (regularized_pd (gc_dim g) (wcov g frames c) (fun i => nth i (gc_reg g) 0) rho); [|exact Hrho]. intro. apply wcov_psd, Hc.
    - intros i j Hi' Hj. unfold new_cov. rewrite HM. destruct (Nat.eqb_spec i j) as [EQ|NE]; [subst j; reflexivity|lra].
  Qed.

  Lemma wcov_diag : forall c d, (c < gc_n g)%nat -> 0 <= wcov g frames c d d.
  Proof.
    intros c d Hc. unfold wcov. apply Rmult_le_pos; [|left; apply Rinv_0_lt_compat, mass_pos; try assumption; exact (proj1 Hs)].
    apply Rlsum_nonneg. intros y Hy. apply in_map_iff in Hy. destruct Hy as (x & <- & Hx). rewrite Rmult_assoc.
    apply Rmult_le_pos; [left; apply resp_pos; try assumption; exact (proj1 Hs)|apply Rle_0_sqr].
  Qed.

  Lemma trained_pos : forall c k, (c < gc_n g)%nat -> strong_reg g -> trained_comp c k -> pos_cov k.
  Proof.
    intros c k Hc (_ & HR) ((W & FB & FD & FI & FM) & M & V). unfold pos_cov. rewrite FM, FD. destruct (gc_mode g) eqn:HM.
    - exists eps9. split; [lra|]. intro v. rewrite (qform_ext (gc_dim g) (gcov k) (new_cov g frames c)) by (intros; apply V; assumption).
      apply (new_cov_pd c eps9 Hc HM HR v).
    - intros d Hd. rewrite V by assumption. unfold new_cov. rewrite Nat.eqb_refl. pose proof (wcov_diag c d Hc). specialize (HR d Hd). lra.
  Qed.

  Local Notation after_update := (Spec_GMM.after_update g frames).

  Lemma coef_facts : (forall c, (c < gc_n g)%nat -> nth c coef 0 = mass g frames c / INR (length frames)) /\ distribution (gc_n g) (fun c => nth c coef 0).
  Proof.
    assert (N : 0 < INR (length frames)) by (apply lt_0_INR; destruct frames; [contradiction|cbn; lia]).
    assert (V : forall c, (c < gc_n g)%nat -> nth c coef 0 = mass g frames c / INR (length frames)) by (intros; unfold coef; rewrite nth_tab by assumption; reflexivity).
    split; [exact V|]. split.
    - intros c Hc. rewrite V by exact Hc. apply Rmult_le_pos; [left; apply mass_pos; try assumption; exact (proj1 Hs)|left; apply Rinv_0_lt_compat, N].
    - rewrite (Rsum_ext _ _ (fun c => mass g frames c / INR (length frames))) by exact V. rewrite Rsum_div, mass_sum by (try assumption; exact (proj1 Hs)). field. lra.
  Qed.

  Lemma update_returns : forall cs cs', length cs = gc_n g -> (forall c, (c < gc_n g)%nat -> trained_comp c (nth c cs no_gauss)) ->
    Forall2 same_params cs cs' -> after_update (gc_set_comp cs' (gc_set_coef (A := RA) coef g)).
  Proof.
    intros cs cs' L T F. destruct coef_facts as (V & D). unfold after_update. split; [unfold same_class; cbn; repeat split|].
    split; [cbn; unfold coef; apply tab_length|]. split; [cbn; rewrite <- (Forall2_len _ _ _ F); exact L|]. split; [exact V|]. split; [exact D|].
    split; intros c Hc; destruct (T c Hc) as (_ & M & C); pose proof (Forall2_at _ _ _ F c no_gauss no_gauss ltac:(rewrite L; exact Hc)) as SP; unfold comp_at; cbn [gc_comp gc_set_comp].
    - intros d Hd. rewrite (gmean_same _ _ SP). apply M, Hd.
    - intros i j Hi' Hj. rewrite (gcov_same _ _ SP). apply C; assumption.
  Qed.

  Theorem update_partial : forall g' lp, gm_update (A := RA) frames g = Ok (g', lp) -> after_update g' /\ lp = Rlsum (map (fun x => ln (Rsum (gc_n g) (score g x))) frames).
  Proof.
    intros g' lp E. destruct update_pre as (cs & L & T & U). rewrite U in E.
    destruct (gm_inverses (gc_set_comp cs (gc_set_coef (A := RA) coef g))) as [h| |] eqn:EI; try discriminate. cbn [bind] in E. inversion E; subst h lp. clear E. split; [|reflexivity].
    destruct (inverses_params _ _ _ EI) as (cs' & -> & F). apply (update_returns cs cs' L T F).
  Qed.

  Theorem update_total : strong_reg g -> exists g', gm_update (A := RA) frames g = Ok (g', Rlsum (map (fun x => ln (Rsum (gc_n g) (score g x))) frames)) /\
    after_update g' /\ gm_ready g'.
  Proof.
    intro SR. destruct update_pre as (cs & L & T & U). rewrite U.
    destruct (inverses_ok (gc_set_comp cs (gc_set_coef (A := RA) coef g))) as (cs' & EI & F).
    { apply (Forall_at _ _ no_gauss). cbn [gc_comp gc_set_comp]. rewrite L. intros c Hc. pose proof (T c Hc) as TC. split; [exact (proj1 (proj1 TC))|].
      exact (trained_pos c _ Hc SR TC). }
    rewrite EI. cbn [bind gc_comp gc_set_comp] in *. eexists. split; [reflexivity|].
    assert (AU : after_update (gc_set_comp cs' (gc_set_coef (A := RA) coef g))).
    { apply (update_returns cs cs' L T). clear -F. induction F as [|k k' l l' (P & _) F IH]; constructor; assumption. }
    split; [exact AU|].
    assert (L' : length cs' = gc_n g) by (rewrite <- (Forall2_len _ _ _ F); exact L).
    destruct Hs as (H1 & _ & _ & HB & _). destruct AU as (_ & LC & _ & _ & D & _).
    split; [split; [exact H1|split; [exact LC|split; [exact L'|split; [exact HB|]]]]|split; [|exact D]]; apply (Forall_at _ _ no_gauss);
      cbn [gc_comp gc_set_comp]; intros c Hc; rewrite L' in Hc; destruct (Forall2_at _ _ _ F c no_gauss no_gauss ltac:(rewrite L; exact Hc)) as (SP & W & I).
    - destruct (T c Hc) as (FC & _). exact (fits_same g _ _ FC SP W).
    - exact I.
  Qed.
End Update.

(** ** Any number of updates *)
Lemma updates_ok : forall k frames (g : gclass RA), gm_ready g -> strong_reg g -> frames <> [] -> Forall (fun x => length x = gc_dim g) frames ->
  exists g', gm_updates (A := RA) k frames g = Ok g' /\ gm_ready g' /\ same_class g g'.
Proof.
  induction k as [|k IH]; intros frames g Rg Sg Hne Hf; cbn [gm_updates].
  - exists g. split; [reflexivity|]. split; [exact Rg|unfold same_class; repeat split].
  - destruct Rg as (Sh & I & D). destruct (update_total g frames Sh I (proj1 D) Hf Hne (proj1 Sg) Sg) as (g1 & E & (SC & _) & R1). rewrite E. cbn [bind].
    pose proof SC as (S1 & S2 & S3 & S4 & S5 & S6 & S7 & S8).
    destruct (IH frames g1 R1) as (g' & E' & R' & SC').
    { unfold strong_reg, gc_mode in *. rewrite S2, S5, S7. exact Sg. }
    { exact Hne. }
    { rewrite S2. exact Hf. }
    exists g'. split; [exact E'|]. split; [exact R'|]. unfold same_class in *. destruct SC' as (T1 & T2 & T3 & T4 & T5 & T6 & T7 & T8). repeat split; congruence.
Qed.
