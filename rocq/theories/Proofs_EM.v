(** One step of expectation-maximisation on a mixture: the expected logarithms of the densities, weights and
    covariances. *)
From Coq Require Import String List Bool Arith Lia Reals Lra.
From Verif Require Import Base Arith RFacts Model_Gaussian Model_GMM Spec_Common Spec_Matrix Spec_Det Spec_Gaussian Spec_GMM Spec_EM
  Proofs_DetFacts Proofs_Gaussian Proofs_GMM Proofs_PD.
Import ListNotations.
Local Open Scope R_scope.

Lemma ln_sqrt : forall x, 0 < x -> ln (sqrt x) = / 2 * ln x.
Proof.
  intros x H. assert (0 < sqrt x) by (apply sqrt_lt_R0; exact H). rewrite <- (sqrt_sqrt x) at 2 by lra. rewrite ln_mult by assumption. lra.
Qed.

Lemma twopi_pos : forall n, 0 < (2 * PI) ^ n.
Proof. intro n. apply pow_lt. pose proof PI_RGT_0. lra. Qed.

Lemma normal_pdf_pos : forall n C B mu x, 0 < Rdet n C -> 0 < normal_pdf n C B mu x.
Proof.
  intros. unfold normal_pdf. apply Rdiv_lt_0_compat; [apply exp_pos|]. apply sqrt_lt_R0, Rmult_lt_0_compat; [assumption|apply twopi_pos].
Qed.

Lemma ln_pdf : forall n C B mu x, 0 < Rdet n C ->
  ln (normal_pdf n C B mu x) = - / 2 * qform n B (fun i => x i - mu i) - / 2 * (ln (Rdet n C) + ln ((2 * PI) ^ n)).
Proof.
  intros n C B mu x H. unfold normal_pdf, Rdiv. pose proof (twopi_pos n) as T. pose proof (Rmult_lt_0_compat _ _ H T) as P.
  assert (0 < sqrt (Rdet n C * (2 * PI) ^ n)) by (apply sqrt_lt_R0; exact P).
  rewrite ln_mult, ln_exp, ln_Rinv, ln_sqrt, ln_mult by (try apply exp_pos; try apply Rinv_0_lt_compat; assumption). lra.
Qed.

Lemma normal_pdf_mean : forall n C B mu mu' x, (forall i, (i < n)%nat -> mu i = mu' i) -> normal_pdf n C B mu x = normal_pdf n C B mu' x.
Proof. intros. unfold normal_pdf. rewrite (qform_ext_vec n B (fun i => x i - mu i) (fun i => x i - mu' i)) by (intros; rewrite H by assumption; reflexivity). reflexivity. Qed.

Lemma qform_sub : forall n B a b, qform n B (fun i => a i + b i) = qform n B a + qform n B b + Rsum n (fun i => Rsum n (fun j => (B i j + B j i) * a i * b j)).
Proof.
  intros n B a b. unfold qform.
  rewrite (Rsum_ext n (fun i => Rsum n (fun j => (B i j + B j i) * a i * b j)) (fun i => Rsum n (fun j => a i * B i j * b j) + Rsum n (fun j => b j * B j i * a i)))
    by (intros; rewrite <- Rsum_plus; apply Rsum_ext; intros; ring).
  rewrite Rsum_plus. rewrite (Rsum_swap n n (fun i j => b j * B j i * a i)). rewrite <- !Rsum_plus. apply Rsum_ext. intros i Hi. rewrite <- !Rsum_plus. apply Rsum_ext. intros. ring.
Qed.

Lemma inverse_trace : forall n C B, symm n C -> is_inverse n C B -> trace n B C = INR n.
Proof.
  intros n C B sC I. unfold trace. rewrite (Rsum_ext n _ (fun _ => 1)); [rewrite Rsum_const; ring|].
  intros i Hi. transitivity (mmul n B C i i).
  - unfold mmul. apply Rsum_ext. intros j Hj. rewrite (sC i j) by assumption. reflexivity.
  - rewrite (proj2 (I i i Hi Hi)). unfold delta. rewrite Nat.eqb_refl. reflexivity.
Qed.

(** ** The density that fits best *)
Section MStep.
  Context {X : Type}.
  Variables (l : list X) (r : X -> R) (v : X -> nat -> R) (n : nat).
  Let N := Rlsum (map r l).
  Hypothesis HN : 0 < N.
  Let m (d : nat) := Rlsum (map (fun x => r x * v x d) l) / N.
  Let V (i j : nat) := Rlsum (map (fun x => r x * (v x i - m i) * (v x j - m j)) l) / N.

  Lemma centered : forall d, Rlsum (map (fun x => r x * (v x d - m d)) l) = 0.
  Proof.
    intro d. rewrite (Rlsum_map_ext _ (fun x => r x * v x d + (- m d) * r x)) by (intros; ring).
    rewrite Rlsum_map_plus, Rlsum_map_scal. fold N. unfold m. field. lra.
  Qed.

  Lemma scatter : forall B, Rlsum (map (fun x => r x * qform n B (fun i => v x i - m i)) l) = N * trace n B V.
  Proof.
    intro B. unfold qform, trace, V. rewrite (Rlsum_map_ext _ (fun x => Rsum n (fun i => Rsum n (fun j => B i j * (r x * (v x i - m i) * (v x j - m j)))))).
    - rewrite Rlsum_map_sum_swap. rewrite <- Rsum_scal_l. apply Rsum_ext. intros i Hi. rewrite Rlsum_map_sum_swap. rewrite <- Rsum_scal_l. apply Rsum_ext. intros j Hj.
      rewrite Rlsum_map_scal. field. lra.
    - intros x Hx. rewrite <- Rsum_scal_l. apply Rsum_ext. intros i Hi. rewrite <- Rsum_scal_l. apply Rsum_ext. intros. ring.
  Qed.

  Lemma scatter_at : forall B mu, Rlsum (map (fun x => r x * qform n B (fun i => v x i - mu i)) l) = N * trace n B V + N * qform n B (fun i => m i - mu i).
  Proof.
    intros B mu. rewrite (Rlsum_map_ext _ (fun x => r x * qform n B (fun i => v x i - m i) + (qform n B (fun i => m i - mu i) * r x +
       Rsum n (fun i => Rsum n (fun j => (B i j + B j i) * (m j - mu j) * (r x * (v x i - m i))))))).
    - rewrite Rlsum_map_plus, Rlsum_map_plus, scatter, Rlsum_map_scal, Rlsum_map_sum_swap. fold N.
      rewrite (Rsum_zero n); [ring|]. intros i Hi. rewrite Rlsum_map_sum_swap. apply Rsum_zero. intros j Hj. rewrite Rlsum_map_scal, centered. ring.
    - intros x Hx. rewrite (qform_ext_vec n B (fun i => v x i - mu i) (fun i => (v x i - m i) + (m i - mu i))) by (intros; ring). rewrite qform_sub, !Rmult_plus_distr_l.
      rewrite (Rmult_comm (r x) (qform n B (fun i => m i - mu i))). rewrite Rplus_assoc. do 2 f_equal.
      rewrite <- Rsum_scal_l. apply Rsum_ext. intros i Hi. rewrite <- Rsum_scal_l. apply Rsum_ext. intros. ring.
  Qed.

  Variables (reg : nat -> R) (C B C' B' : nat -> nat -> R) (mu : nat -> R).
  Hypothesis sC : symm n C.
  Hypothesis pC : posdef n C.
  Hypothesis iC : is_inverse n C B.
  Hypothesis sC' : symm n C'.
  Hypothesis pC' : posdef n C'.
  Hypothesis iC' : is_inverse n C' B'.
  Hypothesis dC' : forall i, (i < n)%nat -> C' i i = V i i + reg i.
  Hypothesis oC : forall i j, (i < n)%nat -> (j < n)%nat -> i <> j -> C' i j = V i j \/ (B i j = 0 /\ B' i j = 0).

  Lemma trace_reg : forall D, (forall i j, (i < n)%nat -> (j < n)%nat -> i <> j -> C' i j = V i j \/ D i j = 0) ->
    trace n D V = trace n D C' - Rsum n (fun d => reg d * D d d).
  Proof.
    intros D H. unfold trace. rewrite <- Rsum_minus. apply Rsum_ext. intros i Hi.
    replace (reg i * D i i) with (Rsum n (fun j => if Nat.eqb j i then reg j * D j j else 0)).
    - rewrite <- Rsum_minus. apply Rsum_ext. intros j Hj. destruct (Nat.eqb_spec j i) as [->|Hne]; [rewrite dC' by exact Hi; ring|].
      destruct (H i j Hi Hj ltac:(congruence)) as [E|E]; rewrite E; ring.
    - rewrite (Rsum_single n i); [rewrite Nat.eqb_refl; reflexivity|exact Hi|]. intros j _ Hne. destruct (Nat.eqb_spec j i); [congruence|reflexivity].
  Qed.

  Theorem best_fit : Rlsum (map (fun x => r x * ln (normal_pdf n C B mu (v x))) l) - / 2 * (N * Rsum n (fun d => reg d * B d d)) <=
    Rlsum (map (fun x => r x * ln (normal_pdf n C' B' m (v x))) l) - / 2 * (N * Rsum n (fun d => reg d * B' d d)).
  Proof.
    pose proof (pd_det_pos n C sC pC) as D. pose proof (pd_det_pos n C' sC' pC') as D'.
    assert (G : forall C0 B0 mu0, 0 < Rdet n C0 -> Rlsum (map (fun x => r x * ln (normal_pdf n C0 B0 mu0 (v x))) l) =
      - / 2 * Rlsum (map (fun x => r x * qform n B0 (fun i => v x i - mu0 i)) l) - / 2 * (ln (Rdet n C0) + ln ((2 * PI) ^ n)) * N).
    { intros C0 B0 mu0 P. rewrite (Rlsum_map_ext _ (fun x => - / 2 * (r x * qform n B0 (fun i => v x i - mu0 i)) + (- / 2 * (ln (Rdet n C0) + ln ((2 * PI) ^ n))) * r x)).
      - rewrite Rlsum_map_plus, !Rlsum_map_scal. fold N. ring.
      - intros x Hx. rewrite ln_pdf by exact P. ring. }
    rewrite (G C B mu D), (G C' B' m D'), scatter, scatter_at. clear G.
    rewrite (trace_reg B), (trace_reg B') by (intros i j Hi Hj Hne; destruct (oC i j Hi Hj Hne) as [E|(E1 & E2)]; auto).
    rewrite (inverse_trace n C' B' sC' iC').
    pose proof (trace_det n C B C' sC pC sC' pC' iC) as T. pose proof (inv_psd n C B (fun i => m i - mu i) sC pC iC) as Q.
    set (t := trace n B C') in *. set (q := qform n B (fun i => m i - mu i)) in *. set (a := Rsum n (fun d => reg d * B d d)) in *. set (b := Rsum n (fun d => reg d * B' d d)) in *.
    set (x := ln (Rdet n C)) in *. set (y := ln (Rdet n C')) in *. set (p := ln ((2 * PI) ^ n)). set (k := INR n) in *.
    assert (0 <= N * (x + t - y - k + q)) by (apply Rmult_le_pos; lra). lra.
  Qed.
End MStep.

(** ** Jensen's and Gibbs' inequalities *)
Lemma jensen : forall n (s s' : nat -> R), (1 <= n)%nat -> (forall c, (c < n)%nat -> 0 < s c) -> (forall c, (c < n)%nat -> 0 < s' c) ->
  ln (Rsum n s) + Rsum n (fun c => s c / Rsum n s * (ln (s' c) - ln (s c))) <= ln (Rsum n s').
Proof.
  intros n s s' Hn P P'. set (Z := Rsum n s). set (Z' := Rsum n s'). assert (0 < Z) by (apply Rsum_pos; [lia|exact P]). assert (0 < Z') by (apply Rsum_pos; [lia|exact P']).
  assert (L : Rsum n (fun c => s c / Z * (ln (s' c) - ln (s c) - (ln Z' - ln Z))) <= Rsum n (fun c => s' c / Z' - s c / Z)).
  { apply Rsum_le. intros c Hc. specialize (P c Hc). specialize (P' c Hc).
    assert (Q : 0 < s' c / Z' / (s c / Z)) by (repeat apply Rdiv_lt_0_compat; assumption).
    pose proof (ln_le_sub _ Q) as E. unfold Rdiv in E at 1 2 3. rewrite Rinv_mult_distr in E by (try apply Rinv_neq_0_compat; lra).
    rewrite Rinv_involutive in E by lra. rewrite !ln_mult, !ln_Rinv in E by (try apply Rmult_lt_0_compat; try apply Rinv_0_lt_compat; try apply Rinv_0_lt_compat; assumption).
    replace (s' c / Z' - s c / Z) with (s c / Z * (s' c / Z' / (s c / Z) - 1)) by (field; lra).
    apply Rmult_le_compat_l; [left; apply Rdiv_lt_0_compat; assumption|]. lra. }
  rewrite Rsum_minus, !Rsum_div in L. fold Z Z' in L.
  rewrite (Rsum_ext n _ (fun c => s c / Z * (ln (s' c) - ln (s c)) - s c / Z * (ln Z' - ln Z))) in L by (intros; ring).
  rewrite Rsum_minus, Rsum_scal_r, Rsum_div in L. fold Z in L. unfold Rdiv in L at 2 3 4. rewrite !Rinv_r in L by lra. lra.
Qed.

Lemma gibbs : forall n (w N : nat -> R), (forall c, (c < n)%nat -> 0 < w c) -> (forall c, (c < n)%nat -> 0 < N c) -> Rsum n w = 1 -> 0 < Rsum n N ->
  0 <= Rsum n (fun c => N c * (ln (N c / Rsum n N) - ln (w c))).
Proof.
  intros n w N Pw PN Hw HN. set (T := Rsum n N) in *.
  assert (L : Rsum n (fun c => N c - T * w c) <= Rsum n (fun c => N c * (ln (N c / T) - ln (w c)))).
  { apply Rsum_le. intros c Hc. specialize (Pw c Hc). specialize (PN c Hc).
    assert (Q : 0 < w c / (N c / T)) by (repeat apply Rdiv_lt_0_compat; assumption).
    pose proof (ln_le_sub _ Q) as E. unfold Rdiv in E at 1. rewrite ln_mult, ln_Rinv in E by (try apply Rinv_0_lt_compat; try apply Rdiv_lt_0_compat; assumption).
    replace (N c - T * w c) with (N c * (1 - w c / (N c / T))) by (field; lra). apply Rmult_le_compat_l; lra. }
  rewrite Rsum_minus, Rsum_scal_l, Hw in L. fold T in L. lra.
Qed.

(** ** One update of a mixture *)
Lemma Forall_nth_at : forall {X} (P : X -> Prop) l d, Forall P l -> forall i, (i < length l)%nat -> P (nth i l d).
Proof. intros X P l d H i Hi. apply (proj1 (Forall_forall P l) H). apply nth_In, Hi. Qed.

Lemma comp_lik_pos : forall k x, 0 < comp_lik k x.
Proof.
  intros k x. unfold comp_lik. apply Rlt_le_trans with min_likelihood; [|apply Rmax_l]. unfold min_likelihood. apply Rinv_0_lt_compat, pow_lt. lra.
Qed.

Lemma score_eq : forall g x c, 0 < weight g c -> score g x c = weight g c * comp_lik (comp_at g c) x.
Proof.
  intros g x c H. unfold score. destruct (Req_EM_T _ 0) as [E|E]; [|reflexivity]. exfalso. pose proof (Rmult_lt_0_compat _ _ H (comp_lik_pos (comp_at g c) x)). lra.
Qed.

Lemma comp_pdf_pos : forall g c x, gm_ready g -> proper g -> (c < gc_n g)%nat -> 0 < comp_pdf (comp_at g c) x.
Proof.
  intros g c x ((_ & _ & Lc & _ & F) & _) P Hc. pose proof (Forall_nth_at _ _ no_gauss F c ltac:(rewrite Lc; exact Hc)) as (_ & _ & E & _). fold (comp_at g c) in E.
  unfold comp_pdf. rewrite E. destruct (P c Hc) as (_ & S & D). apply normal_pdf_pos. apply pd_det_pos; assumption.
Qed.

Theorem em_step : forall g g' frames, gm_ready g -> proper g -> gm_ready g' -> proper g' -> after_update g frames g' ->
  Forall (fun x => length x = gc_dim g) frames -> frames <> [] ->
  frames_ll g frames - reg_part g frames g - floor_part g frames <= frames_ll g' frames - reg_part g frames g'.
Proof.
  intros g g' frames Rg Pg Rg' Pg' (SC & L1 & L2 & W & D & M & V) Hf Hne.
  assert (Hn : (1 <= gc_n g)%nat) by apply Rg. 
  assert (EN : gc_n g' = gc_n g). { destruct SC as (_ & _ & _ & _ & E & _). unfold gc_n. rewrite E. reflexivity. }
  assert (ED : gc_dim g' = gc_dim g) by apply SC.
  assert (EM : gc_mode g' = gc_mode g). { destruct SC as (_ & _ & _ & _ & E & _). unfold gc_mode. rewrite E. reflexivity. }
  assert (Sc : forall x c, (c < gc_n g)%nat -> score g x c = weight g c * comp_lik (comp_at g c) x) by (intros; apply score_eq, Pg; assumption).
  (* Jensen, frame by frame *)
  assert (J : frames_ll g frames + Rlsum (map (fun x => Rsum (gc_n g) (fun c => resp g x c * (ln (weight g' c * comp_lik (comp_at g' c) x) - ln (weight g c * comp_lik (comp_at g c) x)))) frames)
    <= frames_ll g' frames).
  { unfold frames_ll. rewrite <- Rlsum_map_plus. apply Rlsum_map_le. intros x Hx. rewrite EN. rewrite (Rsum_ext _ (fun c => resp g x c * _)
      (fun c => weight g c * comp_lik (comp_at g c) x / Rsum (gc_n g) (fun c => weight g c * comp_lik (comp_at g c) x) *
        (ln (weight g' c * comp_lik (comp_at g' c) x) - ln (weight g c * comp_lik (comp_at g c) x)))).
    - apply (jensen (gc_n g) (fun c => weight g c * comp_lik (comp_at g c) x) (fun c => weight g' c * comp_lik (comp_at g' c) x) Hn).
      + intros c Hc. apply Rmult_lt_0_compat; [apply Pg, Hc|apply comp_lik_pos].
      + intros c Hc. apply Rmult_lt_0_compat; [apply Pg'; rewrite EN; exact Hc|apply comp_lik_pos].
    - intros c Hc. unfold resp. rewrite (Sc x c Hc). rewrite (Rsum_ext _ (score g x) (fun c => weight g c * comp_lik (comp_at g c) x)) by (intros; apply Sc; assumption). reflexivity. }
  (* the floor *)
  assert (K : Rlsum (map (fun x => Rsum (gc_n g) (fun c => resp g x c * (ln (weight g' c) - ln (weight g c)))) frames)
     + Rlsum (map (fun x => Rsum (gc_n g) (fun c => resp g x c * (ln (comp_pdf (comp_at g' c) x) - ln (comp_pdf (comp_at g c) x)))) frames) - floor_part g frames
    <= Rlsum (map (fun x => Rsum (gc_n g) (fun c => resp g x c * (ln (weight g' c * comp_lik (comp_at g' c) x) - ln (weight g c * comp_lik (comp_at g c) x)))) frames)).
  { apply Rplus_le_reg_r with (floor_part g frames). unfold Rminus at 1. rewrite Rplus_assoc, Rplus_opp_l, Rplus_0_r.
    unfold floor_part. rewrite <- !Rlsum_map_plus. apply Rlsum_map_le. intros x Hx. rewrite <- !Rsum_plus. apply Rsum_le. intros c Hc.
    rewrite <- !Rmult_plus_distr_l. apply Rmult_le_compat_l; [left; apply resp_pos; try assumption; apply Rg|].
    assert (Pw := proj1 (Pg c Hc)). assert (Pw' := proj1 (Pg' c ltac:(rewrite EN; exact Hc))). rewrite !ln_mult by (try apply comp_lik_pos; assumption).
    assert (ln (comp_pdf (comp_at g' c) x) <= ln (comp_lik (comp_at g' c) x)).
    { destruct (Rmax_r min_likelihood (comp_pdf (comp_at g' c) x)) as [Lt|Eq]; [left; apply ln_increasing; [apply comp_pdf_pos; [assumption|assumption|rewrite EN; exact Hc]|exact Lt]|right; f_equal; exact Eq]. }
    lra. }
  (* weights *)
  assert (MP : forall c, (c < gc_n g)%nat -> 0 < mass g frames c) by (intros; apply mass_pos; try assumption; apply Rg).
  assert (G : 0 <= Rlsum (map (fun x => Rsum (gc_n g) (fun c => resp g x c * (ln (weight g' c) - ln (weight g c)))) frames)).
  { rewrite Rlsum_map_sum_swap. rewrite (Rsum_ext _ _ (fun c => mass g frames c * (ln (mass g frames c / Rsum (gc_n g) (mass g frames)) - ln (weight g c)))).
    - apply gibbs; [intros; apply Pg; assumption|exact MP|apply Rg|apply Rsum_pos; [lia|exact MP]].
    - intros c Hc. rewrite (Rlsum_map_ext _ (fun x => (ln (weight g' c) - ln (weight g c)) * resp g x c)) by (intros; ring). rewrite Rlsum_map_scal. fold (mass g frames c).
      rewrite (W c Hc). rewrite mass_sum by (try assumption; apply Rg). ring. }
  (* densities *)
  assert (B : Rsum (gc_n g) (fun c => / 2 * (mass g frames c * Rsum (gc_dim g) (fun d => nth d (gc_reg g) 0 * ginv (comp_at g' c) d d)) -
       / 2 * (mass g frames c * Rsum (gc_dim g) (fun d => nth d (gc_reg g) 0 * ginv (comp_at g c) d d)))
    <= Rlsum (map (fun x => Rsum (gc_n g) (fun c => resp g x c * (ln (comp_pdf (comp_at g' c) x) - ln (comp_pdf (comp_at g c) x)))) frames)).
  { rewrite Rlsum_map_sum_swap. apply Rsum_le. intros c Hc.
    destruct Rg as ((_ & _ & Lc & _ & F) & I & _). destruct Rg' as ((_ & _ & Lc' & _ & F') & I' & _).
    pose proof (Forall_nth_at _ _ no_gauss F c ltac:(rewrite Lc; exact Hc)) as (_ & _ & Ed & _ & Em).
    pose proof (Forall_nth_at _ _ no_gauss F' c ltac:(rewrite Lc', EN; exact Hc)) as (_ & _ & Ed' & _ & Em').
    pose proof (Forall_nth_at _ _ no_gauss I c ltac:(rewrite Lc; exact Hc)) as (Ic & _).
    pose proof (Forall_nth_at _ _ no_gauss I' c ltac:(rewrite Lc', EN; exact Hc)) as (Ic' & _).
    fold (comp_at g c) in *. fold (comp_at g' c) in *. rewrite Ed in Ic. rewrite Ed', ED in Ic'. rewrite ED in Ed'. rewrite EM in Em'.
    destruct (Pg c Hc) as (_ & sC & pC). destruct (Pg' c ltac:(rewrite EN; exact Hc)) as (_ & sC' & pC'). rewrite ED in sC', pC'.
    pose proof (best_fit frames (fun x => resp g x c) (fun x d => nth d x 0) (gc_dim g) (MP c Hc) (fun d => nth d (gc_reg g) 0)
      (gcov (comp_at g c)) (ginv (comp_at g c)) (gcov (comp_at g' c)) (ginv (comp_at g' c)) (gmean (comp_at g c)) sC pC Ic sC' pC' Ic') as BF.
    fold (mass g frames c) in BF.
    assert (H1 : forall i, (i < gc_dim g)%nat -> gcov (comp_at g' c) i i = Rlsum (map (fun x => resp g x c * (nth i x 0 - wmean g frames c i) * (nth i x 0 - wmean g frames c i)) frames) / mass g frames c + nth i (gc_reg g) 0).
    { intros i Hi. rewrite (V c Hc i i Hi Hi). unfold new_cov. rewrite Nat.eqb_refl. reflexivity. }
    assert (H2 : forall i j, (i < gc_dim g)%nat -> (j < gc_dim g)%nat -> i <> j ->
      gcov (comp_at g' c) i j = Rlsum (map (fun x => resp g x c * (nth i x 0 - wmean g frames c i) * (nth j x 0 - wmean g frames c j)) frames) / mass g frames c \/
      (ginv (comp_at g c) i j = 0 /\ ginv (comp_at g' c) i j = 0)).
    { intros i j Hi Hj Hij. rewrite (V c Hc i j Hi Hj). unfold new_cov. destruct (Nat.eqb_spec i j); [congruence|]. destruct (gc_mode g) eqn:Mo.
      - left. reflexivity.
      - right. unfold ginv, stored. rewrite Em, Em'. destruct (Nat.eqb_spec i j); [congruence|]. split; reflexivity. }
    specialize (BF H1 H2).
    rewrite (Rlsum_map_ext _ (fun x => resp g x c * ln (normal_pdf (gc_dim g) (gcov (comp_at g' c)) (ginv (comp_at g' c)) (wmean g frames c) (fun d => nth d x 0)) +
      (-1) * (resp g x c * ln (normal_pdf (gc_dim g) (gcov (comp_at g c)) (ginv (comp_at g c)) (gmean (comp_at g c)) (fun d => nth d x 0))))).
    - rewrite Rlsum_map_plus, Rlsum_map_scal. unfold wmean at 1. lra.
    - intros x Hx. unfold comp_pdf. rewrite Ed, Ed'. rewrite (normal_pdf_mean _ _ _ (gmean (comp_at g' c)) (wmean g frames c)) by (intros; apply M; assumption). ring. }
  assert (RP : forall h, reg_part g frames h = Rsum (gc_n g) (fun c => / 2 * (mass g frames c * Rsum (gc_dim g) (fun d => nth d (gc_reg g) 0 * ginv (comp_at h c) d d)))).
  { intro h. unfold reg_part. rewrite <- Rsum_scal_l. reflexivity. }
  rewrite (RP g), (RP g'). rewrite Rsum_minus in B. lra.
Qed.
