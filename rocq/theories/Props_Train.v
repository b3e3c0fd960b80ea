(** C36-C38: the training driver. *)
From Coq Require Import List Bool Arith Lia ZArith QArith Reals Lra.
From Verif Require Import Base Arith RFacts Model_Train Spec_Train Proofs_Train.
Import ListNotations.
Local Open Scope nat_scope.

Section Main.
  Context {A : arith} {M : Type}.
  Local Notation T := (num A).
  Variables (h : hooks A M) (p : em_settings A) (cancel : nat -> bool).

  (** C36.  Whatever the updates return or throw, whatever the settings and whenever another thread
      asks to cancel: [train] returns after at most 1000 completed updates, has notified one Run per
      completed update and then one of Done, Error and Cancel, is not training any more and has
      released the lock; it is Cancel exactly when the last of its cancellation checks was positive. *)
  Theorem C36_one_outcome : caught h -> forall fuel empty s, 1000 <= fuel ->
    exists s' runs last,
      em_train h p cancel fuel empty s = (s', Returned) /\
      t_events s' = t_events s ++ runs ++ [last] /\
      (forall k, k < length runs -> is_run p k (nth k runs def_event)) /\
      length runs <= 1000 /\
      (t_updates s' = t_updates s + length runs \/ e_status last = Error /\ t_updates s' = t_updates s + S (length runs)) /\
      (e_status last = Done \/ e_status last = Error \/ e_status last = Cancel) /\
      t_status s' = e_status last /\ t_training s' = false /\ t_locked s' = false /\
      (forall k, t_checks s <= k < t_checks s' -> cancel k = true -> e_status last = Cancel /\ S k = t_checks s') /\
      (e_status last = Cancel -> exists k, t_checks s <= k /\ S k = t_checks s' /\ cancel k = true).
  Proof.
    intros C fuel empty s HF. destruct (train_finishes h p cancel C fuel empty s HF) as (s' & runs & last & E & [R1 R2 R3 R4 R5 R6 R7 R8 R9 R10 R11 R12]).
    exists s', runs, last. repeat (split; [assumption|]). assumption.
  Qed.

  (** C36, the normal case: nothing fails, no not-a-number and no cancellation: the outcome is Done. *)
  Theorem C36_done : smooth h -> (forall n, cancel n = false) -> (forall a b : T, nisnan (pct_change a b b) = false) ->
    forall fuel s, 1000 <= fuel -> t_status (fst (em_train h p cancel fuel false s)) = Done.
  Proof. exact (train_done h p cancel). Qed.

  (** C37.  The number of updates of a training that ends with Done. *)
  Theorem C37_fixed : caught h -> 1 <= em_min p -> em_min p <= em_max p -> forall fuel empty s, 1000 <= fuel ->
    forall s', em_train h p cancel fuel empty s = (s', Returned) -> t_status s' = Done ->
    t_updates s' = t_updates s + Nat.min (em_max p) 1000.
  Proof.
    intros C H1 H2 fuel empty s HF s' E D. destruct (train_finishes h p cancel C fuel empty s HF) as (s'' & runs & last & E' & T).
    rewrite E in E'. injection E' as <-. assert (D' : e_status last = Done) by (rewrite <- (r_status _ _ _ _ _ _ T); exact D).
    rewrite <- (fixed_count p cancel _ _ _ _ H1 H2 T D'). destruct (r_updates _ _ _ _ _ _ T) as [U|(U & _)]; [exact U|congruence].
  Qed.

  (** C37: without a maximum it stops at the first step at which the rule says so, the log-likelihoods
      being those of the Run events. *)
  Theorem C37_threshold : caught h -> 1 <= em_min p -> em_max p < em_min p -> forall fuel empty s, 1000 <= fuel ->
    forall s', em_train h p cancel fuel empty s = (s', Returned) -> t_status s' = Done ->
    exists runs last, t_events s' = t_events s ++ runs ++ [last] /\
      (forall k, k < length runs -> is_run p k (nth k runs def_event)) /\
      t_updates s' = t_updates s + length runs /\
      Nat.min (em_min p) 1000 <= length runs <= 1000 /\
      let lls := lowest :: map e_ll runs in
      stop_rule p (length runs) (nth (length runs - 1) lls n0) (nth (length runs) lls n0) /\
      forall k, 1 <= k < length runs -> ~ stop_rule p k (nth (k - 1) lls n0) (nth k lls n0).
  Proof.
    intros C H1 H2 fuel empty s HF s' E D. destruct (train_finishes h p cancel C fuel empty s HF) as (s'' & runs & last & E' & T).
    rewrite E in E'. injection E' as <-. assert (D' : e_status last = Done) by (rewrite <- (r_status _ _ _ _ _ _ T); exact D).
    exists runs, last. destruct (done_rule p cancel _ _ _ _ H1 T) as (G & S).
    split; [apply T|]. split; [apply T|]. split; [destruct (r_updates _ _ _ _ _ _ T) as [U|(U & _)]; [exact U|congruence]|].
    split; [exact (moving_count p cancel _ _ _ _ H1 H2 T D')|]. split; [apply (S D')|exact G].
  Qed.
End Main.
Print Assumptions C36_one_outcome.
Print Assumptions C36_done.
Print Assumptions C37_fixed.
Print Assumptions C37_threshold.

(** C36: [allocate] runs outside the [try]: its exceptions leave the lock held and the flag up. *)
Theorem C36_allocate_refuted : forall (A : arith) (p : em_settings A) cancel fuel,
  exists s', em_train no_memory p cancel fuel false tstart = (s', Escaped RuntimeError) /\ t_training s' = true /\ t_locked s' = true /\ t_events s' = [].
Proof. intros. eexists. split; [reflexivity|]. repeat split. Qed.
Print Assumptions C36_allocate_refuted.

(** C38.  With a maximum not below the minimum every reported progression is in (0, 1]. *)
Theorem C38_fraction : forall (M : Type) (h : hooks RA M) (p : em_settings RA) cancel, caught h -> 1 <= em_min p -> em_min p <= em_max p ->
  forall fuel empty s s', 1000 <= fuel -> em_train h p cancel fuel empty s = (s', Returned) ->
  exists new, t_events s' = t_events s ++ new /\
    forall e, In e new -> e_status e = Run -> (0 < e_prog e <= 1)%R.
Proof.
  intros M h p cancel C H1 H2 fuel empty s s' HF E. destruct (train_finishes h p cancel C fuel empty s HF) as (s'' & runs & last & E' & T).
  rewrite E in E'. injection E' as <-. exists (runs ++ [last]). split; [apply T|].
  intros e He HR. apply in_app_or in He. destruct He as [He|[<-|[]]].
  2:{ destruct (r_last _ _ _ _ _ _ T) as [?|[?|?]]; congruence. }
  destruct (In_nth _ _ def_event He) as (k & Hk & <-). destruct (r_runs _ _ _ _ _ _ T k Hk) as (_ & _ & ->).
  pose proof (runs_fraction p cancel _ _ _ _ H1 H2 T) as HL.
  assert (Hd : (if em_min p <? em_max p then em_max p else em_min p) = em_max p) by (destruct (Nat.ltb_spec (em_min p) (em_max p)); lia).
  rewrite Hd. rewrite !nN_RA. change (ndiv (a:=RA)) with Rdiv.
  assert (Hm : (0 < INR (em_max p))%R) by (apply lt_0_INR; lia).
  assert (Hk1 : (0 < INR (S k))%R) by (apply lt_0_INR; lia).
  assert (Hle : (INR (S k) <= INR (em_max p))%R) by (apply le_INR; lia).
  split; [apply Rdiv_lt_0_compat; assumption|]. apply Rmult_le_reg_r with (INR (em_max p)); [assumption|].
  unfold Rdiv. rewrite Rmult_assoc, Rinv_l by lra. lra.
Qed.
Print Assumptions C38_fraction.

(** C38: with the default settings it passes 1: here the log-likelihoods are -1, -2, -3, ... and the
    1000th event reports 100. *)
Theorem C38_default_refuted : forall fexp fln, 
  let s' := fst (em_train (counting (A:=FA fexp fln) (fun k => nopp (nN k))) em_default (fun _ => false) 1000 false tstart) in
  exists e, In e (t_events s') /\ e_status e = Run /\ nltb (nofQ (99 # 1)) (e_prog e) = true.
Proof.
  intros fexp fln s'.
  assert (E : existsb (fun e => match e_status e with Run => nltb (nofQ (99 # 1)) (e_prog e) | _ => false end) (t_events s') = true)
    by (vm_compute; reflexivity).
  clearbody s'. apply existsb_exists in E. destruct E as (e & H1 & H2). exists e. split; [exact H1|].
  destruct (e_status e); [split; [reflexivity|exact H2]|discriminate H2..].
Qed.
Print Assumptions C38_default_refuted.

(** The hypotheses: the counting code is caught and smooth; with at most 20 updates asked it does 20;
    without a maximum it stops after the minimum of 10 once the log-likelihood is constant; cancelling at the third
    check gives one Run and one Cancel. *)
Example C36_meets : forall (A : arith) f, caught (counting (A:=A) f) /\ smooth (counting (A:=A) f).
Proof. intros. split; intro m; cbn; repeat split; try discriminate; eauto. Qed.

Example C36_meets_nan : forall (a b : R), nisnan (a:=RA) (pct_change (A:=RA) a b b) = false.
Proof. reflexivity. Qed.

Example C37_meets : forall fexp fln,
  let r p f c := let s := fst (em_train (counting (A:=FA fexp fln) f) p c 1000 false tstart) in (t_status s, t_updates s, length (t_events s)) in
  r (mkEm 10 20 n1) (fun k => nopp (nN k)) (fun _ => false) = (Done, 20, 21) /\
  r em_default (fun k => nopp n1) (fun _ => false) = (Done, 10, 11) /\
  r em_default (fun k => nopp n1) (fun k => 2 =? k) = (Cancel, 1, 2).
Proof. intros. split; [|split]; vm_compute; reflexivity. Qed.
