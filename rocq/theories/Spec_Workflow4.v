(** Specification vocabulary for the training of single classes of a hidden Markov model. *)
From Coq Require Import String List Bool Arith ZArith Reals.
From Verif Require Import Base Arith RFacts Model_Map Model_Ring Model_Phrase Model_TrainingSet Model_Gaussian Model_Config Model_GMM Model_HMM Model_HHMM Model_Shared Model_Train
  Model_Reload Model_Workflow Model_Workflow2 Model_Workflow4 Spec_Common Spec_TrainingSet Spec_Shared Spec_GMM Spec_HMM Spec_HHMM Spec_Reload Spec_Workflow Spec_Workflow2.
Import ListNotations.
Local Open Scope list_scope.
Local Open Scope nat_scope.

(** Two classes with the same dimensions, parameters, states, prior and transitions: they differ at most in
    the exit probabilities and in what a reset and the next observation overwrite. *)
Definition same_hclass (h k : hclass RA) : Prop :=
  hc_bim h = hc_bim k /\ hc_dim h = hc_dim k /\ hc_din h = hc_din k /\ hc_win h = hc_win k /\ hc_par h = hc_par k /\
  h_states (hc_net h) = h_states (hc_net k) /\ h_prior (hc_net h) = h_prior (hc_net k) /\ h_trans (hc_net h) = h_trans (hc_net k).

(** [h] is the class [l] that training with the recordings makes of a new class, its exit probabilities apart. *)
Definition hclass_like (u : junk RA) (s : shared RA) (cf : config (hmmP RA)) (recs : list recording) (l : string) (h : hclass RA) : Prop :=
  hmm_usable h /\ exists h', hclass_made u s cf recs l h' /\ same_hclass h h'.

(** The exit probabilities of [N] states that had the exit probabilities [ex]: 0.1 for the last state; the other
    states keep what they had, 0 if they had nothing. *)
Definition renewed_exit (N : nat) (ex : list R) : list R := tab N (fun k => if k =? N - 1 then (/ 10)%R else nth k ex 0%R).

(** A model at rest, in hierarchical mode: its classes are in the order of their labels, have at least one
    state, share its parameters, and have a buffer of one channel; there is one prior for each class.  They may
    have been trained with any recordings, or not at all.  The parameter [hierarchical] of a class, which only
    a file can change, has its default. *)
Definition hat_rest (m : hmodel RA) : Prop :=
  hp_hier (cf_def (hq_cf m)) = true /\ label_sorted (hq_cls m) /\ length (hq_prior m) = length (hq_cls m) /\
  Forall (fun e => shares (hq_sp m) (hc_bim (snd e)) (hc_dim (snd e)) (hc_din (snd e)) (hc_win (snd e)) /\ hc_hier (snd e) = true /\ hp_hier (hc_par (snd e)) = true /\ 1 <= hc_n (snd e) /\
    ring_wf 1 (h_buf (hc_run (snd e)))) (hq_cls m).

(** The training set has the dimensions of the classes, if there are classes. *)
Definition hsame_dims (t : tset) (m : hmodel RA) : Prop :=
  hq_cls m <> [] -> sp_dim (hq_sp m) = t_dim t /\ (t_bim t = true -> sp_din (hq_sp m) = t_din t).

(** The class [l] of a model, and its exit probabilities: none if there is no such class. *)
Definition hclass_named (m : hmodel RA) (l : string) : option (hclass RA) := mget String.eqb (hq_cls m) l.
Definition exits_named (m : hmodel RA) (l : string) : list R := match hclass_named m l with Some h => h_exit (hc_net h) | None => [] end.

(** [h'] is the class [h] after a reset, if the training uses threads. *)
Definition rested (threads : bool) (h h' : hclass RA) : Prop := if threads then hm_reset (A := RA) h = Ok h' else h' = h.

(** [h] with the exit probability of the last state set to 0.1. *)
Definition exit_renewed (h : hclass RA) : hclass RA := hc_set_net (nt_exit (A := RA) (renewed_exit (hc_n h) (h_exit (hc_net h))) (hc_net h)) h.

(** The classes have as many states as the configuration says, and the exit probabilities that training gives
    to new classes. *)
Definition plain_exits (m : hmodel RA) : Prop :=
  forall l h, hclass_named m l = Some h -> hc_n h = hp_states (cf_params (hq_cf m) l) /\ h_exit (hc_net h) = last_exit (hp_states (cf_params (hq_cf m) l)).

(** The model [m'] is what training the class [l] makes of the model [m]: the class is as training makes it of a
    new class, but the exit probabilities of states other than the last one are those that it had; the other
    classes stay, up to the reset that ends a training with threads, except that a new class makes the exit
    probability of their last state 0.1 again; a new class makes the parameters at the level of the classes
    even again. *)
Definition hone_trained (u : junk RA) (t : tset) (recs : list recording) (m : hmodel RA) (l : string) (m' : hmodel RA) : Prop :=
  hq_cf m' = hq_cf m /\ fetched t (hq_sp m) (hq_sp m') /\ sp_names (hq_sp m') = t_cols t /\ hat_rest m' /\
  (forall l', In l' (map fst (hq_cls m')) <-> l' = l \/ In l' (map fst (hq_cls m))) /\
  (exists h, hclass_named m' l = Some h /\ hclass_like u (hq_sp m') (hq_cf m) recs l h /\
     h_exit (hc_net h) = renewed_exit (hp_states (cf_params (hq_cf m) l)) (exits_named m l)) /\
  (forall l', l' <> l -> match hclass_named m l' with
    | None => hclass_named m' l' = None
    | Some h => exists h', hclass_named m' l' = Some h' /\
        rested (negb (cf_mt (hq_cf m) =? 0)%Z) (match hclass_named m l with None => exit_renewed h | Some _ => h end) h'
    end) /\
  match hclass_named m l with
  | None => even_top (length (hq_cls m')) m'
  | Some _ => hq_prior m' = hq_prior m /\ hq_trans m' = hq_trans m /\ hq_exit m' = hq_exit m
  end.

(** The model has one class for each label of the recordings, in order, each of them as training with the
    recordings makes it, with its exit probabilities, and even parameters at the level of the classes. *)
Definition htrained_as (u : junk RA) (recs : list recording) (m : hmodel RA) : Prop :=
  label_sorted (hq_cls m) /\ (forall l, In l (map fst (hq_cls m)) <-> In l (map fst recs)) /\
  Forall (fun e => hclass_like u (hq_sp m) (hq_cf m) recs (fst e) (snd e) /\ h_exit (hc_net (snd e)) = last_exit (hp_states (cf_params (hq_cf m) (fst e)))) (hq_cls m) /\
  even_top (length (hq_cls m)) m.
