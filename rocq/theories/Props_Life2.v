(** C92: retraining, removing and cancelling a class while others are training in the background. *)
From Coq Require Import List Bool Arith ZArith Lia.
From Verif Require Import Base Model_Train Model_Life Model_Life2 Spec_Life Spec_Life2 Proofs_Life Proofs_Life2 Proofs_Life3 Proofs_Life8 Proofs_Life10 Proofs_Life11 Props_Life.
Import ListNotations.
Local Open Scope nat_scope.

(** C92.  [cancelTraining(label)] during a Background training, any number of classes, any execution: as long
    as another class is training, the call is not over or has returned; then the training of the class has
    ended, all classes are still in the model, nothing was used after being erased, and the model is training. *)
Theorem C92_cancel : forall plan s i sch, in_background plan s -> i < length plan ->
  let z := run2 i OCancel sch (call OCancel s) in
  others_training i (cs_sys z) ->
  (in_call z \/ cs_pc z = LRet /\ exists c, nth_error (s_cls (cs_sys z)) i = Some c /\ k_flag c = false) /\
  s_training (cs_sys z) = true /\ cs_freed z = false /\ forall k, k < length plan -> alive_at (cs_sys z) k = true.
Proof.
  intros plan s i sch B L z O. destruct (call_place plan s i OCancel sch B L O) as (C & P). fold z in C, P.
  destruct P as ((P1 & P2) & c & P3 & P4). split; [|split; [exact (c_train _ C)|split; [exact P1|]]].
  - unfold in_call. destruct (cs_pc z) as [| | | | | | | | | | | | | | | | | | | |[]| |] eqn:E; try contradiction; auto. right. split; [reflexivity|]. exists c. auto.
  - intros k Hk. unfold alive_at. destruct (nth_error (s_cls (cs_sys z)) k) as [d|] eqn:Hd; [exact (P2 k d Hd)|exfalso].
    apply nth_error_None in Hd. pose proof (call_length plan s i OCancel sch B). fold z in H. lia.
Qed.

(** C92: once [cancelTraining(label)] has returned with another class still training, the rest of the training
    goes on as planned: whenever Alldone is announced, it is the last event and no other, the model is not
    training any more, every other class has announced its updates and its outcome and is in the model if it
    succeeded, and the class itself is not in the model if it was cancelled or failed. *)
Theorem C92_cancel_reported : forall plan s i sch sch', in_background plan s -> i < length plan ->
  let z := run2 i OCancel sch (call OCancel s) in
  others_training i (cs_sys z) -> cs_pc z = LRet -> strong sch' ->
  In EvAll (s_log (run true false sch' (cs_sys z))) -> reported_but i plan (run true false sch' (cs_sys z)).
Proof.
  intros plan s i sch sch' B L z O R St H. pose proof (cancelled_one plan s i sch B L O R) as D. fold z in D.
  assert (D' : dret i plan (run true false sch' (cs_sys z))) by (apply strong_run; auto; intros; eapply dret_step; eauto).
  apply dret_over; [exact D'|]. exact (dret_announced _ _ _ D' H).
Qed.

(** C92: and Alldone is announced if every thread gets a turn often enough. *)
Theorem C92_cancel_announced : forall plan s i sch, in_background plan s -> i < length plan ->
  let z := run2 i OCancel sch (call OCancel s) in
  others_training i (cs_sys z) -> cs_pc z = LRet -> exists turns, forall rounds,
  Forall (fair_round (length plan)) rounds -> turns < length rounds -> reported_but i plan (run true false (concat rounds) (cs_sys z)).
Proof.
  intros plan s i sch B L z O R. pose proof (cancelled_one plan s i sch B L O R) as D. fold z in D.
  exists (work (cs_sys z)). intros rounds F W.
  assert (D' : dret i plan (run true false (concat rounds) (cs_sys z))) by (apply strong_run; [intros; eapply dret_step; eauto|exact (fair_strong _ _ F)|exact D]).
  apply dret_over; [exact D'|]. apply (dret_fair i plan); auto. destruct B; auto.
Qed.

(** C92 is false of [train(set, label)]: as long as another class is training, the call is not over or it has
    ended the program; it never returns and never throws. *)
Theorem C92_retrain_refuted : forall plan s i p sch, in_background plan s -> i < length plan ->
  let z := run2 i (ORetrain p) sch (call (ORetrain p) s) in
  others_training i (cs_sys z) -> in_call z \/ cs_pc z = LAbort.
Proof.
  intros plan s i p sch B L z O. destruct (call_place plan s i (ORetrain p) sch B L O) as (C & P). fold z in C, P.
  destruct P as (_ & c & _ & P). unfold in_call. destruct (cs_pc z) as [| | | | | | | | | | | | | | | | | | | |[]| |]; try contradiction; auto.
Qed.

(** C92 is false of [removeClass(label)]: as long as another class is training, the call is not over or it has
    thrown, with the class removed. *)
Theorem C92_remove_refuted : forall plan s i sch, in_background plan s -> i < length plan ->
  let z := run2 i ORemove sch (call ORemove s) in
  others_training i (cs_sys z) -> in_call z \/ cs_pc z = LThrow RuntimeError /\ alive_at (cs_sys z) i = false.
Proof.
  intros plan s i sch B L z O. destruct (call_place plan s i ORemove sch B L O) as (C & P). fold z in C, P.
  destruct P as (_ & c & Hc & P). unfold in_call, alive_at. rewrite Hc. destruct (cs_pc z) as [| | | | | | | | | | | | | | | | | | | |[]| |]; try contradiction; auto.
Qed.

(** C92: each of the calls is over, or all other classes are, if every thread gets a turn often enough. *)
Theorem C92_over : forall plan s i o, in_background plan s -> i < length plan -> exists turns, forall rounds,
  Forall (fair_round (length plan)) rounds -> turns < length rounds ->
  ~ in_call (run2 i o (concat rounds) (call o s)) \/ ~ others_training i (cs_sys (run2 i o (concat rounds) (call o s))).
Proof. exact call_ends. Qed.

(** Two classes, started; [ahead]: the calling thread comes to wait for class 0, which says that it is cancelled. *)
Definition duo : list (nat * bool) := [(2, true); (1, true)].
Definition started : sys := run true false (turns 11 TMain) (life_init 0 duo).
Definition ahead : schedule := turns 6 TMain ++ turns 7 (TClass 0).

Lemma started_background : in_background duo started.
Proof.
  split; [discriminate|]. exists (turns 11 TMain). split; [apply Forall_forall; intros x H; apply repeat_spec in H; subst x; reflexivity|].
  split; [|split; [reflexivity|vm_compute; reflexivity]].
  apply (throughout_check _ _ _ (fun s => negb (launching_b (s_main s) && existsb final_b (s_log s)))); [|vm_compute; reflexivity].
  intros s H L. apply quiet_log. destruct (s_main s); cbn [launching launching_b andb] in *; try contradiction; apply negb_true_iff; exact H.
Qed.

(** C92: [removeClass] erases the class while its thread is still using it. *)
Theorem C92_remove_freed_refuted : exists plan s i sch, in_background plan s /\ i < length plan /\ strong sch /\
  cs_freed (run2 i ORemove sch (call ORemove s)) = true.
Proof.
  exists duo, started, 0, (ahead ++ turns 12 TMain ++ turns 4 (TClass 0)). split; [exact started_background|]. split; [vm_compute; lia|].
  split; [unfold ahead; repeat (apply Forall_app; split); apply Forall_forall; intros x H; apply repeat_spec in H; subst x; reflexivity|]. vm_compute. reflexivity.
Qed.
(** C92: and [cancelTraining(label)] can lose the end of the training: the last of the other classes ends
    before the request is cleared; the call returns, nobody can take a step any more, every class has
    ended, and the model stays training without announcing Alldone. *)
Theorem C92_cancel_lost_refuted : exists plan s i sch, in_background plan s /\ i < length plan /\ strong sch /\
  let z := run2 i OCancel sch (call OCancel s) in
  cs_pc z = LRet /\ quiet true false (cs_sys z) /\ map k_pc (s_cls (cs_sys z)) = [CEnd Cancel; CEnd Done] /\
  s_training (cs_sys z) = true /\ s_log (cs_sys z) = [EvClass 0 Cancel; EvClass 1 Run; EvClass 1 Done].
Proof.
  exists duo, started, 0, (ahead ++ turns 4 (TClass 0) ++ turns 2 TMain ++ turns 25 (TClass 1) ++ turns 1 TMain). split; [exact started_background|]. split; [vm_compute; lia|].
  split; [unfold ahead; repeat (apply Forall_app; split); apply Forall_forall; intros x H; apply repeat_spec in H; subst x; reflexivity|].
  match goal with |- let z := ?s in _ => let v := eval vm_compute in s in assert (E : s = v) by (vm_compute; reflexivity) end. rewrite E. clear E.
  cbv zeta. split; [reflexivity|]. split; [|repeat split].
  intros [|[|[|i]]|k]; try reflexivity; cbn [step cs_sys]; unfold step_class; cbn [nth_error s_cls s_join]; first [destruct i; reflexivity | destruct k; reflexivity].
Qed.
Print Assumptions C92_cancel.
Print Assumptions C92_cancel_reported.
Print Assumptions C92_cancel_announced.
Print Assumptions C92_retrain_refuted.
Print Assumptions C92_remove_refuted.
Print Assumptions C92_over.
Print Assumptions C92_remove_freed_refuted.
Print Assumptions C92_cancel_lost_refuted.

Lemma started_other : forall o sch, existsb (fun e => match e with EvClass 1 Run => false | EvClass 1 _ => true | _ => false end) (s_log (cs_sys (run2 0 o sch (call o started)))) = false ->
  others_training 0 (cs_sys (run2 0 o sch (call o started))).
Proof.
  intros o sch H. exists 1. split; [discriminate|]. split; [rewrite (call_length duo started 0 o sch started_background); cbn; lia|].
  intros st N I. assert (T : forall b, b = false -> b = true -> False) by (intros []; discriminate). apply (T _ H). apply existsb_exists. exists (EvClass 1 st). split; [exact I|]. destruct st; congruence.
Qed.

(** The calls are made with two classes, and class 1 is still training at the end of each. *)
Example C92_meets : in_background duo started /\ 0 < length duo /\
  forall o, In o [OCancel; ORetrain (1, true); ORemove] ->
  let z := run2 0 o (ahead ++ turns 4 (TClass 0) ++ turns 3 (TClass 1) ++ turns 15 TMain) (call o started) in
  others_training 0 (cs_sys z) /\ s_log (cs_sys z) = [EvClass 0 Cancel] /\
  cs_pc z = match o with OCancel => LRet | ORetrain _ => LAbort | ORemove => LThrow RuntimeError end.
Proof.
  split; [exact started_background|]. split; [cbn; lia|]. intros o H z.
  split; [apply started_other|]; destruct H as [<-|[<-|[<-|[]]]]; vm_compute; repeat split.
Qed.
Example C92_over_meets : Forall (fair_round (length duo)) (repeat (everyone 2) 50) /\ ~ in_call (run2 0 OCancel (concat (repeat (everyone 2) 50)) (call OCancel started)).
Proof.
  split; [apply Forall_forall; intros x H; apply repeat_spec in H; subst x; apply everyone_fair|]. vm_compute. tauto.
Qed.

(** Class 0 is cancelled after one update, class 1 then finishes, and both are reported. *)
Example C92_cancel_meets :
  let z := run2 0 OCancel (turns 6 (TClass 0) ++ turns 5 TMain ++ turns 15 (TClass 0) ++ turns 5 TMain) (call OCancel started) in
  others_training 0 (cs_sys z) /\ cs_pc z = LRet /\
  s_log (run true false (concat (repeat (everyone 2) 40)) (cs_sys z)) = [EvClass 0 Run; EvClass 0 Cancel; EvClass 1 Run; EvClass 1 Done; EvAll] /\
  map k_alive (s_cls (run true false (concat (repeat (everyone 2) 40)) (cs_sys z))) = [false; true].
Proof. intro z. split; [apply started_other; vm_compute; reflexivity|]. vm_compute. repeat split. Qed.
