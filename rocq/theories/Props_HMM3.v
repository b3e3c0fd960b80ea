(** Progress of Baum-Welch training (one class): C86. *)
From Coq Require Import String List Bool Arith ZArith Reals Lra Lia.
From Verif Require Import Base Arith BaseFacts RFacts RComp Model_Ring Proofs_Ring Model_Gaussian Model_Config Model_KMeans Model_GMM Model_HMM
  Spec_Common Spec_Matrix Spec_Gaussian Spec_GMM Spec_HMM Spec_HMMInit Spec_EM Spec_EM2 Proofs_HMM10 Proofs_HMM12 Proofs_EM4 Proofs_EM5 Proofs_EM6 Proofs_EM7 Props_HMM.
Import ListNotations.
Local Open Scope list_scope.
Local Open Scope R_scope.

(** C86 *)
(** One update: the likelihood without the part of the regularisation loses at most the part of the floor and
    the part of the transitions. *)
Theorem C86_update : forall h data, hmm_ready h -> phrases_of h data -> (forall i, (i < hc_n h)%nat -> proper (state_at h i)) ->
  exists h' lp, hm_update (A := RA) data h = Ok (h', lp) /\ lp = phrases_ll h data /\
    lp - hmm_reg_part h data h - hmm_floor_part h data - trans_part h data <= phrases_ll h' data - hmm_reg_part h data h' /\
    (hmm_above_floor h data -> lp - hmm_reg_part h data h - trans_part h data <= phrases_ll h' data - hmm_reg_part h data h') /\
    (rows_at_most_one h -> trans_part h data <= INR (length data) + INR (hc_n h) * (2 * reg5)).
Proof.
  intros h data HR HD HP. destruct (update_ok h data HR HD) as (h' & E & RE & HE & TN). exists h', (phrases_ll h data). split; [exact E|]. split; [reflexivity|].
  pose proof (hmm_step h h' data HR HD HP RE TN (fun M => proj2 (HE M))) as S. split; [exact S|]. split.
  - intro AF. rewrite (hmm_floor_0 h data AF) in S. lra.
  - apply trans_part_le; assumption.
Qed.
Print Assumptions C86_update.
Example C86_update_meets : forall t (m : cmode) (e : restim) n, (1 <= n <= 4)%nat -> exists h, hmm_ready h /\ phrases_of h hx_data /\ (forall i, (i < hc_n h)%nat -> proper (state_at h i)) /\ rows_at_most_one h /\ hc_n h = n /\ hc_mode h = t.
Proof.
  intros t m e n Hn. destruct (init_progressing (fun _ => 1%nat) hx_devs [1; 1] hx_data _ (hx_trainable t m e n Hn)) as (h1 & h2 & _ & _ & (A & B & _ & _ & C) & R & (_ & _ & _ & _ & P & _)).
  exists h2. split; [exact A|]. split; [exact B|]. split; [exact C|]. split; [exact R|]. unfold hc_n, hc_mode. rewrite P. split; reflexivity.
Qed.

(** In a training, after any number of updates: the two next ones return likelihoods that satisfy the same
    inequality.  From the second update on, if the model is ergodic or there is one phrase, the second one is
    lower by at most half the dimension per frame, plus 1 per phrase, plus 2e-5 per state, plus the part of
    the floor. *)
Theorem C86_training : forall iters devs dev data h k, hmm_trainable h devs dev data ->
  exists h1 h2, hm_allocate (A := RA) h = Ok h1 /\ hm_init (A := RA) iters devs dev data h1 = Ok h2 /\
    (rows_kept (S k) data h2 \/ (hc_mode h = LeftRight /\ INR (length (concat data)) <= 10 ^ 90) ->
     exists g g' g'' lp lp', hm_updates (A := RA) k data h2 = Ok g /\ hm_update (A := RA) data g = Ok (g', lp) /\ hm_update (A := RA) data g' = Ok (g'', lp') /\
       lp = phrases_ll g data /\ lp' = phrases_ll g' data /\
       lp - hmm_reg_part g data g - hmm_floor_part g data - trans_part g data <= lp' - hmm_reg_part g data g' /\
       ((1 <= k)%nat -> hc_mode h = Ergodic \/ length data = 1%nat ->
         lp - / 2 * (INR (hc_dim h) * INR (length (concat data))) - hmm_floor_part g data - INR (length data) - INR (hc_n h) * (2 * reg5) <= lp' /\
         (hmm_above_floor g data -> lp - / 2 * (INR (hc_dim h) * INR (length (concat data))) - INR (length data) - INR (hc_n h) * (2 * reg5) <= lp'))).
Proof.
  intros iters devs dev data h k HT. destruct (init_progressing iters devs dev data h HT) as (h1 & h2 & E1 & E2 & PR & RO & K). exists h1, h2. split; [exact E1|]. split; [exact E2|]. intro HC.
  pose proof K as (K1 & K2 & K3 & K4 & K5 & K6). assert (EN : hc_n h2 = hc_n h) by (unfold hc_n; rewrite K5; reflexivity). assert (EM : hc_mode h2 = hc_mode h) by (unfold hc_mode; rewrite K5; reflexivity).
  assert (RK : forall j, (j <= S k)%nat -> rows_kept j data h2).
  { destruct HC as [HC|(HM & HB)].
    - assert (X : forall j m x, rows_kept (j + m) data x -> rows_kept j data x). { induction j as [|j IH]; intros m x Hx; cbn [rows_kept Nat.add] in *; [exact I|]. destruct Hx as (X1 & X2). split; [exact X1|]. intros y lp Ey. apply (IH m). apply (X2 y lp Ey). }
      intros j Hj. apply (X j (S k - j)%nat). replace (j + (S k - j))%nat with (S k) by lia. exact HC.
    - intros j _. destruct PR as (A & B & _). apply lr_kept; [exact A|exact B|rewrite EM; exact HM|exact HB]. }
  destruct (progressing_updates k data h2 PR (RK k ltac:(lia))) as (g & Eg & PRg & Kg & RGg & ROg & RKg).
  specialize (RKg 1%nat ltac:(apply RK; lia)). cbn [rows_kept] in RKg. destruct RKg as (ROW & _).
  pose proof PRg as (Rg & Dg & Ag & Xg & Pg). destruct (update_ok g data Rg Dg) as (g' & Eg' & RE & HE & TN). destruct (progressing_update data g g' _ PRg ROW Eg') as (PR' & _ & _ & _). pose proof PR' as (R' & D' & _ & _ & P').
  destruct (update_ok g' data R' D') as (g'' & Eg'' & _). exists g, g', g'', (phrases_ll g data), (phrases_ll g' data). split; [exact Eg|]. split; [exact Eg'|]. split; [exact Eg''|]. split; [reflexivity|]. split; [reflexivity|].
  pose proof (hmm_step g g' data Rg Dg Pg RE TN (fun M => proj2 (HE M))) as S. split; [exact S|]. intros Hk HM.
  pose proof Kg as (Q1 & Q2 & Q3 & Q4 & Q5 & _). assert (ENg : hc_n g = hc_n h) by (unfold hc_n; rewrite Q5, K5; reflexivity).
  pose proof (hmm_reg_le g data Rg Dg Pg (RGg Hk)) as B1. rewrite Q2, K2 in B1.
  pose proof (after_n g g' data RE) as EN'.
  pose proof (hmm_reg_nonneg g data Rg Dg g' RE (fun i Hi => P' i ltac:(rewrite EN'; exact Hi))) as B2.
  pose proof (trans_part_le g data Rg Dg (ROg RO ltac:(rewrite EM; exact HM))) as B3. rewrite ENg in B3.
  split; [lra|]. intro AF. rewrite (hmm_floor_0 g data AF) in S. lra.
Qed.
Print Assumptions C86_training.
Example C86_training_meets : forall t m e n, (1 <= n <= 4)%nat -> hmm_trainable (hx_new t m e n) hx_devs [1; 1] hx_data /\ hmm_trainable (hx_new LeftRight m e n) hx_devs [1; 1] [hd [] hx_data] /\
  INR (length (concat [hd [] hx_data])) <= 10 ^ 90.
Proof.
  intros t m e n Hn. split; [apply hx_trainable; exact Hn|]. split.
  - destruct (hx_trainable LeftRight m e n Hn) as (A1 & A2 & A3 & A4 & A5 & A6 & A7 & (_ & F) & X). unfold hmm_trainable. split; [exact A1|]. split; [exact A2|]. split; [exact A3|]. split; [exact A4|]. split; [exact A5|]. split; [exact A6|]. split; [exact A7|]. split.
    + split; [discriminate|]. constructor; [|constructor]. inversion F; subst; assumption.
    + apply Exists_cons_hd. unfold hc_n. cbn. lia.
  - cbn [hd hx_data concat app length INR]. apply Rle_trans with (10 ^ 1); [lra|]. apply Rle_pow; [lra|lia].
Qed.

(** With one state and one Gaussian, every training lowers the likelihood at its first update: the Gaussian is
    the same, and the only transition falls from 1 to less than 1. *)
Theorem C86_likelihood_refuted : forall iters devs dev data h, hmm_trainable h devs dev data -> hc_n h = 1%nat -> hp_gauss (hc_par h) = 1%nat -> (1 <= iters 0%nat)%nat -> devs 0%nat = dev ->
  Exists (fun ph : list (list R) => (2 <= length ph)%nat) data -> INR (length (concat data)) <= 10 ^ 90 ->
  exists h1 h2 h3 h4 lp lp' q, hm_allocate (A := RA) h = Ok h1 /\ hm_init (A := RA) iters devs dev data h1 = Ok h2 /\ hm_update (A := RA) data h2 = Ok (h3, lp) /\ hm_update (A := RA) data h3 = Ok (h4, lp') /\
    0 < q < 1 /\ hc_trans h3 0 0 = q /\ lp' = lp + Rlsum (map (fun ph : list (list R) => INR (length ph - 1)) data) * ln q /\ lp' < lp.
Proof. exact one_down. Qed.
Print Assumptions C86_likelihood_refuted.
Example C86_likelihood_meets : forall t m e, let h := hx_new t m e 1 in hmm_trainable h hx_devs [1; 1] hx_data /\ hc_n h = 1%nat /\ hp_gauss (hc_par h) = 1%nat /\ hx_devs 0%nat = [1; 1] /\
  Exists (fun ph : list (list R) => (2 <= length ph)%nat) hx_data /\ INR (length (concat hx_data)) <= 10 ^ 90.
Proof.
  intros t m e h. split; [apply hx_trainable; lia|]. split; [reflexivity|]. split; [reflexivity|]. split; [reflexivity|]. split; [apply Exists_cons_hd; cbn; lia|].
  cbn [hx_data concat app length INR]. apply Rle_trans with (10 ^ 1); [lra|]. apply Rle_pow; [lra|lia].
Qed.
