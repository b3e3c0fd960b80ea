(** Specification vocabulary for hierarchical hidden Markov models, over the reals. *)
From Coq Require Import String List Bool Arith Reals.
From Verif Require Import Base Arith RFacts Model_Gaussian Model_Config Model_Ring Model_KMeans Model_GMM Model_HMM Model_HHMM
  Spec_Common Spec_Matrix Spec_Gaussian Spec_GMM Spec_HMM.
Import ListNotations.
Local Open Scope list_scope.
Local Open Scope R_scope.

Definition no_hclass : string * hclass RA :=
  (EmptyString, mkHC (A := RA) false 0 0 0 (mkHmmP (A := RA) 0 0 0 0 Full LeftRight RFull false) false (mkNet (A := RA) [] [] [] [])
    (mkRun (A := RA) [] [] [] [] false (ring_new (0 : num RA) 1 0) 0 0 0 0 0 0 0 0 0 [] [])).
Definition hcl (m : hhmm RA) (c : nat) : hclass RA := snd (nth c (hh_cls m) no_hclass).
Definition hlabel (m : hhmm RA) (c : nat) : string := fst (nth c (hh_cls m) no_hclass).

(** ** One hidden Markov model with all the states of all the classes.
    A state of it is a class [c], a state [k] of the class and a level [e]: 0 stays in the class, 1 goes to
    another class, 2 starts again from the class priors.  They are numbered with room for the largest class. *)
Definition hwidth (m : hhmm RA) : nat := fold_right Nat.max 0%nat (map (fun e => hc_n (snd e)) (hh_cls m)).
Definition hcount (m : hhmm RA) : nat := (hh_size m * hwidth m * 3)%nat.
Definition flat (M c k e : nat) : nat := ((c * M + k) * 3 + e)%nat.
Definition fl_c (M s : nat) : nat := ((s / 3) / M)%nat.
Definition fl_k (M s : nat) : nat := ((s / 3) mod M)%nat.
Definition fl_e (s : nat) : nat := (s mod 3)%nat.

Definition exit_at (h : hclass RA) (k : nat) : R := nth k (h_exit (hc_net h)) 0.

(** Weight of going from state [j] to state [k] inside a class: the transition given that the class is not
    left, i.e. divided by one minus the exit probability - except, in the code, for the transition of the
    first state of a left-right class to itself. *)
Definition inner (h : hclass RA) (j k : nat) : R :=
  match hc_mode h with
  | Ergodic => nth (j * hc_n h + k) (h_trans (hc_net h)) 0 / (1 - exit_at h j)
  | LeftRight =>
      (if Nat.eqb k j then nth (2 * j) (h_trans (hc_net h)) 0 / (if Nat.eqb j 0 then 1 else 1 - exit_at h j) else 0) +
      (if Nat.eqb k (S j) then nth (2 * j + 1) (h_trans (hc_net h)) 0 / (1 - exit_at h j) else 0)
  end.
(** Weight of entering a class in state [k]. *)
Definition entry (h : hclass RA) (k : nat) : R := hc_prior h k.
(** Probability of level [e] in state [k] of class [c]. *)
Definition split_at (m : hhmm RA) (c k e : nat) : R :=
  let q := nth c (hh_exit m) 0 in
  let x := exit_at (hcl m c) k in
  match e with
  | O => 1 - x
  | 1%nat => (1 - q) * x
  | _ => q * x
  end.
Definition top_prior (m : hhmm RA) (c : nat) : R := nth c (hh_prior m) 0.
Definition top_trans (m : hhmm RA) (c d : nat) : R := nth d (nth c (hh_trans m) []) 0.

(** Weight of going from state [j] at level [e] of class [c] to state [k] of class [d]. *)
Definition jump (m : hhmm RA) (c j e d k : nat) : R :=
  match e with
  | O => if Nat.eqb c d then inner (hcl m d) j k else 0
  | 1%nat => top_trans m c d * entry (hcl m d) k
  | _ => top_prior m d * entry (hcl m d) k
  end.
(** Weight of starting in state [k] of class [c]: the code ignores the class priors for Ergodic classes. *)
Definition start_at (m : hhmm RA) (c k : nat) : R :=
  match hc_mode (hcl m c) with
  | Ergodic => entry (hcl m c) k
  | LeftRight => top_prior m c * entry (hcl m c) k
  end.
Definition flat_pi (m : hhmm RA) (s : nat) : R :=
  let M := hwidth m in
  if (fl_k M s <? hc_n (hcl m (fl_c M s)))%nat && Nat.eqb (fl_e s) 0 then start_at m (fl_c M s) (fl_k M s) else 0.
Definition flat_a (m : hhmm RA) (r s : nat) : R :=
  let M := hwidth m in
  if (fl_k M r <? hc_n (hcl m (fl_c M r)))%nat && (fl_k M s <? hc_n (hcl m (fl_c M s)))%nat
  then jump m (fl_c M r) (fl_k M r) (fl_e r) (fl_c M s) (fl_k M s) * split_at m (fl_c M s) (fl_k M s) (fl_e s)
  else 0.
Definition flat_b (m : hhmm RA) (x : list R) (s : nat) : R := mix_lik (state_at (hcl m (fl_c (hwidth m) s)) (fl_k (hwidth m) s)) x.
Definition flat_bs (m : hhmm RA) (xs : list (list R)) : list (nat -> R) := map (flat_b m) xs.

(** Posterior of a state of the whole model, and likelihood of the last observation. *)
Definition hh_filtering (m : hhmm RA) (xs : list (list R)) (c k e : nat) : R :=
  filtering (hcount m) (flat_pi m) (flat_a m) (flat_bs m xs) (flat (hwidth m) c k e).
Definition hh_lik (m : hhmm RA) (xs : list (list R)) : R := inst_lik (hcount m) (flat_pi m) (flat_a m) (flat_bs m xs).
(** Posterior of a class. *)
Definition hh_class (m : hhmm RA) (xs : list (list R)) (c : nat) : R :=
  Rsum (hc_n (hcl m c)) (fun k => hh_filtering m xs c k 0 + hh_filtering m xs c k 1 + hh_filtering m xs c k 2).

(** The instantaneous likelihood of a class.  [u c] is the value left from before by an Ergodic class, to
    which the first likelihood is added. *)
Definition left_over (m : hhmm RA) (u : nat -> R) (c : nat) : R := match hc_mode (hcl m c) with Ergodic => u c | LeftRight => 0 end.
(** The forward variables are the posteriors, which after the first observation are scaled. *)
Definition hh_scale (m : hhmm RA) (u : nat -> R) (xs : list (list R)) : R :=
  match xs with
  | [_] => hh_lik m xs / (hh_lik m xs + Rsum (hh_size m) (left_over m u))
  | _ => 1
  end.
Definition hh_inst (m : hhmm RA) (u : nat -> R) (xs : list (list R)) (c : nat) : R :=
  hh_scale m u (removelast xs) * (hh_lik m xs * hh_class m xs c) + match xs with [_] => left_over m u c | _ => 0 end.
Definition hh_logs (m : hhmm RA) (u : nat -> R) (xs : list (list R)) (c : nat) : list R :=
  map (fun t => ln (hh_inst m u (firstn (S t) xs) c)) (seq 0 (length xs)).

(** ** The model *)
Definition hh_obs_dim (m : hhmm RA) : nat := if hh_bim m then hh_din m else hh_dim m.

Definition hclass_in (m : hhmm RA) (h : hclass RA) : Prop :=
  hmm_usable h /\ hc_bim h = hh_bim m /\ hc_dim h = hh_dim m /\ hc_din h = hh_din m /\ hc_win h = hh_win m /\
  length (h_exit (hc_net h)) = hc_n h /\ (forall k, (k < hc_n h)%nat -> 0 <= exit_at h k < 1) /\
  (hc_mode h = LeftRight -> 0 < nth (2 * (hc_n h - 1)) (h_trans (hc_net h)) 0) /\
  (hh_est m = Mixture -> hp_mode (hc_par h) = hh_cmode m).

Definition hh_top_ok (m : hhmm RA) : Prop :=
  let n := hh_size m in
  length (hh_prior m) = n /\ (forall c, (c < n)%nat -> 0 < top_prior m c) /\
  length (hh_trans m) = n /\ (forall c, (c < n)%nat -> length (nth c (hh_trans m) []) = n /\ forall d, (d < n)%nat -> 0 <= top_trans m c d) /\
  length (hh_exit m) = n /\ (forall c, (c < n)%nat -> 0 <= nth c (hh_exit m) 0 <= 1).

Definition hh_usable (m : hhmm RA) : Prop :=
  (1 <= hh_size m)%nat /\ NoDup (map fst (hh_cls m)) /\ Forall (fun e => hclass_in m (snd e)) (hh_cls m) /\ hh_top_ok m /\
  (hh_bim m = true -> (hh_din m <= hh_dim m)%nat).

(** Same parameters. *)
Definition hh_same (m m' : hhmm RA) : Prop :=
  hh_bim m' = hh_bim m /\ hh_dim m' = hh_dim m /\ hh_din m' = hh_din m /\ hh_win m' = hh_win m /\ hh_est m' = hh_est m /\ hh_cmode m' = hh_cmode m /\
  hh_hier m' = hh_hier m /\ hh_prior m' = hh_prior m /\ hh_trans m' = hh_trans m /\ hh_exit m' = hh_exit m /\
  Forall2 (fun e e' => fst e' = fst e /\ hmm_same (snd e) (snd e')) (hh_cls m) (hh_cls m').

(** [m'] is the model [m] after the observations [xs] since the last reset. *)
Definition hh_at (m : hhmm RA) (u : nat -> R) (xs : list (list R)) (m' : hhmm RA) : Prop :=
  hh_same m m' /\ results_sized (hh_size m) (hh_res m') /\ length (hh_v1 m') = hh_size m /\ length (hh_v2 m') = hh_size m /\
  (forall c, (c < hh_size m)%nat ->
    let r := hc_run (hcl m' c) in
    match xs with
    | [] => window_of (hh_win m) [] (h_buf r) /\ h_inst r = u c
    | _ => length (h_a0 r) = hc_n (hcl m c) /\ length (h_a1 r) = hc_n (hcl m c) /\ length (h_a2 r) = hc_n (hcl m c) /\
        (forall k, (k < hc_n (hcl m c))%nat ->
          nth k (h_a0 r) 0 = hh_scale m u xs * hh_filtering m xs c k 0 /\ nth k (h_a1 r) 0 = hh_scale m u xs * hh_filtering m xs c k 1 /\
          nth k (h_a2 r) 0 = hh_scale m u xs * hh_filtering m xs c k 2) /\
        window_of (hh_win m) (hh_logs m u xs c) (h_buf r)
    end) /\
  hh_started m' = match xs with [] => false | _ => true end.

(** Ready for the first observation. *)
Definition hh_fresh (m : hhmm RA) : Prop :=
  hh_hier m = true /\ hh_started m = false /\ results_sized (hh_size m) (hh_res m) /\ length (hh_v1 m) = hh_size m /\ length (hh_v2 m) = hh_size m /\
  Forall (fun e : string * hclass RA => hc_hier (snd e) = true /\ window_of (hh_win m) [] (h_buf (hc_run (snd e)))) (hh_cls m).
Definition hh_left (m : hhmm RA) (c : nat) : R := h_inst (hc_run (hcl m c)).

(** What is reported after the last observation [x] of [xs]. *)
Definition hh_weight (m : hhmm RA) (u : nat -> R) (xs : list (list R)) (c k : nat) : R :=
  hh_scale m u xs * (hh_filtering m xs c k 0 + hh_filtering m xs c k 1).
Definition hh_class_report (m : hhmm RA) (u : nat -> R) (xs : list (list R)) (x : list R) (c : nat) (h' : hclass RA) : Prop :=
  let h := hcl m c in
  let N := hc_n h in
  let w := hh_weight m u xs c in
  let l := h_like (hc_run h') in
  h_inst (hc_run h') = hh_inst m u xs c /\ h_log (hc_run h') = window_mean (hh_win m) (hh_logs m u xs c) /\
  first_max N w l /\
  h_prog (hc_run h') = Rsum N (fun i => if in_window N l i then (w i + hh_scale m u xs * hh_filtering m xs c i 2) * INR i else 0) / window_mass N l w / INR (Nat.max 1 (N - 1)) /\
  ((2 <= length xs)%nat -> h_exlik (hc_run h') = hh_scale m u (removelast xs) * (hh_lik m xs * Rsum N (fun k => hh_filtering m xs c k 1 + hh_filtering m xs c k 2)) /\
    h_exratio (hc_run h') = Rsum N (fun k => hh_filtering m xs c k 1 + hh_filtering m xs c k 2) / hh_class m xs c) /\
  (hh_bim m = true -> length (h_out (hc_run h')) = (hh_dim m - hh_din m)%nat /\
    forall d, (d < hh_dim m - hh_din m)%nat -> nth d (h_out (hc_run h')) 0 = hmm_output h w l x d).
Definition hh_top_report (m : hhmm RA) (insts logs : nat -> R) (outs : nat -> nat -> R) (r : results RA) : Prop :=
  let n := hh_size m in
  exists b, first_max n logs b /\ rs_likeliest r = hlabel m b /\ rs_inst r = tab n insts /\ rs_log r = tab n logs /\ rs_sm r = tab n (fun c => exp (logs c)) /\
    rs_instn r = tab n (fun c => insts c / Rsum n insts) /\ rs_smn r = tab n (fun c => exp (logs c) / Rsum n (fun d => exp (logs d))) /\
    (hh_bim m = true -> length (rs_out r) = (hh_dim m - hh_din m)%nat /\ forall d, (d < hh_dim m - hh_din m)%nat ->
      nth d (rs_out r) 0 = match hh_est m with
        | Likeliest => outs b d
        | Mixture => Rsum n (fun c => exp (logs c) / Rsum n (fun d => exp (logs d)) * outs c d)
        end).

(** ** Resets *)
(** What a model needs before [reset] in hierarchical mode. *)
Definition hh_resettable (m : hhmm RA) : Prop :=
  hh_usable m /\ hh_hier m = true /\ Forall (fun e : string * hclass RA => hc_hier (snd e) = true /\ ring_wf 1 (h_buf (hc_run (snd e)))) (hh_cls m).
(** Sequences of observations, with a reset before each. *)
Definition hh_plays (segs : list (list (list R))) (m : hhmm RA) : res (hhmm RA) :=
  foldM (fun m xs => let* m := hh_reset (A := RA) m in hh_filters (A := RA) xs m) segs m.
(** Two models report the same; [exits] tells whether this includes the exit likelihoods. *)
Definition hh_agree (exits : Prop) (m1 m2 : hhmm RA) : Prop :=
  let r1 := hh_res m1 in
  let r2 := hh_res m2 in
  rs_inst r1 = rs_inst r2 /\ rs_instn r1 = rs_instn r2 /\ rs_sm r1 = rs_sm r2 /\ rs_smn r1 = rs_smn r2 /\ rs_log r1 = rs_log r2 /\ rs_likeliest r1 = rs_likeliest r2 /\
  (hh_bim m1 = true -> rs_out r1 = rs_out r2) /\ hh_size m1 = hh_size m2 /\
  forall c, (c < hh_size m1)%nat ->
    let r1 := hc_run (hcl m1 c) in
    let r2 := hc_run (hcl m2 c) in
    h_a0 r1 = h_a0 r2 /\ h_a1 r1 = h_a1 r2 /\ h_a2 r1 = h_a2 r2 /\ h_inst r1 = h_inst r2 /\ h_log r1 = h_log r2 /\ h_prog r1 = h_prog r2 /\ h_like r1 = h_like r2 /\
    (hh_bim m1 = true -> h_out r1 = h_out r2) /\ (exits -> h_exlik r1 = h_exlik r2 /\ h_exratio r1 = h_exratio r2).

(** The sum of all the forward variables. *)
Definition hh_mass (m : hhmm RA) : R :=
  Rsum (hh_size m) (fun c => let r := hc_run (hcl m c) in Rsum (hc_n (hcl m c)) (fun k => nth k (h_a0 r) 0 + nth k (h_a1 r) 0 + nth k (h_a2 r) 0)).
