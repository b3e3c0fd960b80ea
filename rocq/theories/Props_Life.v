(** C39-C42: the training protocol under every interleaving. *)
From Coq Require Import List Bool Arith ZArith Lia.
From Verif Require Import Base Model_Train Model_Life Spec_Life Proofs_Life Proofs_Life2 Proofs_Life3 Proofs_Life4 Proofs_Life5 Proofs_Life6 Proofs_Life7.
Import ListNotations.
Local Open Scope nat_scope.

Lemma everyone_fair : forall n, fair_round n (everyone n).
Proof.
  intro n. unfold fair_round, everyone. split; [|split; [left; reflexivity|]].
  - constructor; [reflexivity|]. apply Forall_app. split; apply Forall_map, Forall_forall; reflexivity.
  - intros i H. split; right; apply in_or_app; [left|right]; apply in_map_iff; exists i; (split; [reflexivity|]); apply in_seq; lia.
Qed.

(** Something holds throughout an execution if it holds after every prefix of the schedule. *)
Lemma throughout_check : forall bg ca (P : sys -> Prop) (f : sys -> bool) sch s, (forall s, f s = true -> P s) ->
  forallb (fun k => f (run bg ca (firstn k sch) s)) (seq 0 (S (length sch))) = true -> throughout bg ca P sch s.
Proof.
  intros bg ca P f sch s H F k. apply H. rewrite forallb_forall in F. destruct (Nat.le_gt_cases k (length sch)) as [L|L].
  - apply F, in_seq. lia.
  - rewrite firstn_all2 by lia. specialize (F (length sch)). rewrite firstn_all in F. apply F, in_seq. lia.
Qed.

(** C39.  Parallel mode, any number of classes, any outcomes, any number of updates, any interleaving
    in which [compare_exchange_weak] does not fail spuriously: if [train] has returned, the training is
    over and properly reported. *)
Theorem C39_parallel : forall n plan sch, strong sch -> s_main (run false false sch (life_init n plan)) = MRet ->
  all_reported plan (run false false sch (life_init n plan)).
Proof. intros n plan sch St E. exact (par_returned plan _ (par_reach n plan sch St) E). Qed.

(** C39: it does return, in every execution in which every thread gets a turn often enough. *)
Theorem C39_returns : forall n plan, exists turns, forall rounds, Forall (fair_round (length plan)) rounds -> turns < length rounds ->
  s_main (run false false (concat rounds) (life_init n plan)) = MRet.
Proof. intros n plan. exists (work (life_init n plan)). intros rounds F W. exact (par_fair n plan rounds F W). Qed.

(** C39 fails when [compare_exchange_weak] fails spuriously, which C++ allows: [train] returns at once,
    still training, and nothing will be announced. *)
Theorem C39_spurious_refuted : exists plan sch,
  s_main (run false false sch (life_init 0 plan)) = MRet /\
  s_training (run false false sch (life_init 0 plan)) = true /\
  map k_pc (s_cls (run false false sch (life_init 0 plan))) = [CStart] /\
  ~ all_reported plan (run false false sch (life_init 0 plan)).
Proof.
  exists [(3, true)], (turns 7 TMain ++ (TMain, true) :: turns 2 TMain). vm_compute. repeat split. intros (H & _). discriminate.
Qed.
Print Assumptions C39_parallel.
Print Assumptions C39_returns.
Print Assumptions C39_spurious_refuted.

Definition three : list (nat * bool) := [(2, true); (1, false); (0, true)].
Example C39_meets :
  Forall (fair_round (length three)) (repeat (everyone 3) 60) /\
  s_main (run false false (concat (repeat (everyone 3) 60)) (life_init 0 three)) = MRet /\
  map k_alive (s_cls (run false false (concat (repeat (everyone 3) 60)) (life_init 0 three))) = [true; false; true] /\
  s_log (run false false (concat (repeat (everyone 3) 60)) (life_init 0 three)) =
    [EvClass 0 Run; EvClass 0 Run; EvClass 1 Run; EvClass 0 Done; EvClass 1 Error; EvClass 2 Done; EvAll].
Proof.
  split; [apply Forall_forall; intros x H; apply repeat_spec in H; subst x; apply everyone_fair|]. vm_compute. repeat split.
Qed.

(** C40.  Sequential mode: every class is trained to its end, one after the other, with the events of
    Parallel mode; the model is not training any more.  But no class is removed and Alldone is not
    announced. *)
Theorem C40_sequential : forall n plan,
  let s := seq_train n plan in
  s_training s = false /\ length (s_cls s) = length plan /\ s_log s = one_by_one plan /\ ~ In EvAll (s_log s) /\
  forall i c p, nth_error (s_cls s) i = Some c -> nth_error plan i = Some p ->
    ended c /\ k_flag c = false /\ events_of i (s_log s) = announced p /\ k_alive c = true.
Proof.
  intros n plan s. unfold s. rewrite seq_result. cbn [s_training s_cls s_log]. split; [reflexivity|]. split; [apply map_length|].
  split; [reflexivity|]. split; [apply one_by_one_quiet|]. intros i c p Hc Hp. rewrite nth_error_map, Hp in Hc. injection Hc as <-.
  unfold done_cls. cbn [k_pc k_flag k_alive]. split; [eexists; reflexivity|]. split; [reflexivity|]. split; [apply one_by_one_events; exact Hp|reflexivity].
Qed.

(** C40: each class sees the same events in both modes; the classes of the model are the same exactly
    when no class fails; the last event is never the same. *)
Theorem C40_modes_refuted : forall n plan sch, strong sch -> s_main (run false false sch (life_init n plan)) = MRet ->
  let par := run false false sch (life_init n plan) in
  let sq := seq_train n plan in
  (forall i p, nth_error plan i = Some p -> events_of i (s_log par) = events_of i (s_log sq)) /\
  ((forall i, alive_at par i = alive_at sq i) <-> Forall (fun p => snd p = true) plan) /\
  In EvAll (s_log par) /\ ~ In EvAll (s_log sq).
Proof.
  intros n plan sch St E par sq. destruct (C39_parallel n plan sch St E) as (_ & L1 & (l & Hl & _) & C1). fold par in L1, Hl, C1.
  destruct (C40_sequential n plan) as (_ & L2 & _ & Q & C2). fold sq in L2, Q, C2.
  assert (G : forall i p, nth_error plan i = Some p -> exists c d, nth_error (s_cls par) i = Some c /\ nth_error (s_cls sq) i = Some d).
  { intros i p Hp. assert (i < length plan) by (apply nth_error_Some; congruence).
    destruct (nth_error (s_cls par) i) eqn:E1; [|apply nth_error_None in E1; lia]. destruct (nth_error (s_cls sq) i) eqn:E2; [|apply nth_error_None in E2; lia].
    eauto. }
  split; [|split; [|split; [rewrite Hl; apply in_or_app; right; left; reflexivity|exact Q]]].
  - intros i p Hp. destruct (G i p Hp) as (c & d & Hc & Hd). destruct (C1 i c p Hc Hp) as (_ & -> & _). destruct (C2 i d p Hd Hp) as (_ & _ & -> & _). reflexivity.
  - split.
    + intro H. apply Forall_forall. intros p Hp. apply In_nth_error in Hp. destruct Hp as (i & Hp). destruct (G i p Hp) as (c & d & Hc & Hd).
      specialize (H i). unfold alive_at in H. rewrite Hc, Hd in H. destruct (C1 i c p Hc Hp) as (_ & _ & <-). destruct (C2 i d p Hd Hp) as (_ & _ & _ & <-). exact H.
    + intros H i. unfold alive_at. destruct (nth_error plan i) as [p|] eqn:Hp.
      * destruct (G i p Hp) as (c & d & Hc & Hd). rewrite Hc, Hd. destruct (C1 i c p Hc Hp) as (_ & _ & ->). destruct (C2 i d p Hd Hp) as (_ & _ & _ & ->).
        rewrite Forall_forall in H. apply H. eapply nth_error_In; exact Hp.
      * apply nth_error_None in Hp. replace (nth_error (s_cls par) i) with (@None cls) by (symmetry; apply nth_error_None; lia).
        replace (nth_error (s_cls sq) i) with (@None cls) by (symmetry; apply nth_error_None; lia). reflexivity.
Qed.
Print Assumptions C40_sequential.
Print Assumptions C40_modes_refuted.

Example C40_meets :
  s_main (run false false (concat (repeat (everyone 3) 60)) (life_init 0 three)) = MRet /\ ~ Forall (fun p => snd p = true) three /\
  s_log (seq_train 0 three) = [EvClass 0 Run; EvClass 0 Run; EvClass 0 Done; EvClass 1 Run; EvClass 1 Error; EvClass 2 Done] /\
  map k_alive (s_cls (seq_train 0 three)) = [true; true; true].
Proof.
  split; [vm_compute; reflexivity|]. split; [|vm_compute; repeat split].
  intro H. rewrite Forall_forall in H. specialize (H (1, false) (or_intror (or_introl eq_refl))). discriminate.
Qed.

(** C41.  Background mode, in the executions in which no class finishes while others are still being
    started and nobody cancels: whenever Alldone has been announced, the call has returned and the
    training is over and properly reported. *)
Theorem C41_background : forall plan sch, plan <> [] -> strong sch -> throughout true false launched_first sch (life_init 0 plan) ->
  In EvAll (s_log (run true false sch (life_init 0 plan))) ->
  s_main (run true false sch (life_init 0 plan)) = MRet /\ all_reported plan (run true false sch (life_init 0 plan)).
Proof.
  intros plan sch Hp St T H. pose proof (bg_reach plan sch Hp St T) as B. destruct (bg_announced plan _ B H) as (Em & Ej).
  split; [exact Em|]. exact (bg_over plan _ B Ej).
Qed.

(** C41: and it is announced if every thread gets a turn often enough. *)
Theorem C41_announced : forall plan, plan <> [] -> exists turns, forall rounds,
  Forall (fair_round (length plan)) rounds -> turns < length rounds ->
  throughout true false launched_first (concat rounds) (life_init 0 plan) ->
  all_reported plan (run true false (concat rounds) (life_init 0 plan)).
Proof.
  intros plan Hp. exists (work (life_init 0 plan)). intros rounds F W T.
  exact (bg_over plan _ (bg_reach plan _ Hp (fair_strong _ _ F) T) (bg_fair plan rounds Hp F W T)).
Qed.

(** C41 fails otherwise: class 0 finishes before class 1 is started; Alldone is announced and the model
    is not training any more although class 1 is; whatever happens to class 1, it is not announced
    again and the class stays in the model although it fails. *)
Theorem C41_early_refuted : exists plan sch, strong sch /\
  let s := run true false sch (life_init 0 plan) in
  s_log s = [EvClass 0 Done; EvAll; EvClass 1 Run] /\ s_training s = false /\
  map k_flag (s_cls s) = [false; true] /\
  (exists sch', strong sch' /\ quiet true false (run true false sch' s) /\
    s_log (run true false sch' s) = [EvClass 0 Done; EvAll; EvClass 1 Run; EvClass 1 Error] /\
    map k_alive (s_cls (run true false sch' s)) = [true; true]).
Proof.
  exists [(0, true); (1, false)], (turns 5 TMain ++ turns 16 (TClass 0) ++ turns 12 (TJoin 0) ++ turns 6 TMain ++ turns 5 (TClass 1)).
  split; [repeat (apply Forall_app; split); apply Forall_forall; intros x H; apply repeat_spec in H; subst x; reflexivity|].
  split; [vm_compute; reflexivity|]. split; [vm_compute; reflexivity|]. split; [vm_compute; reflexivity|].
  exists (turns 20 (TClass 1) ++ turns 12 (TJoin 1)).
  split; [repeat (apply Forall_app; split); apply Forall_forall; intros x H; apply repeat_spec in H; subst x; reflexivity|].
  match goal with |- quiet _ _ ?s /\ _ => let v := eval vm_compute in s in assert (E : s = v) by (vm_compute; reflexivity) end. rewrite E. clear E.
  split; [|split; reflexivity].
  intros [|[|[|i]]|[|[|[|k]]]]; try reflexivity; cbn [step]; unfold step_class; cbn [nth_error s_cls s_join]; destruct i || destruct k; reflexivity.
Qed.

(** C41: or it is announced twice. *)
Theorem C41_twice_refuted : exists plan sch, strong sch /\
  s_log (run true false sch (life_init 0 plan)) = [EvClass 0 Done; EvClass 1 Done; EvAll; EvAll].
Proof.
  exists [(0, true); (0, true)],
    (turns 5 TMain ++ turns 16 (TClass 0) ++ turns 7 (TJoin 0) ++ turns 6 TMain ++ turns 16 (TClass 1) ++ turns 12 (TJoin 1) ++ turns 12 (TJoin 0)).
  split; [repeat (apply Forall_app; split); apply Forall_forall; intros x H; apply repeat_spec in H; subst x; reflexivity|].
  vm_compute. reflexivity.
Qed.
Print Assumptions C41_background.
Print Assumptions C41_announced.
Print Assumptions C41_early_refuted.
Print Assumptions C41_twice_refuted.

Definition final_b (e : mevent) : bool := match e with EvClass _ Run => false | EvClass _ _ => true | EvAll => false end.
Definition launching_b (m : mpc) : bool := match m with MFlag _ | MCanc _ | MCnt _ | MCntW _ _ | MSpawn _ => true | _ => false end.
Lemma quiet_log : forall l, existsb final_b l = false -> forall e, In e l -> ~ is_final e.
Proof.
  intros l H e He F. assert (existsb final_b l = true); [|congruence]. apply existsb_exists. exists e. split; [exact He|].
  destruct e as [i [| | | |]|]; cbn in *; tauto.
Qed.

Example C41_meets :
  Forall (fair_round 3) (repeat (everyone 3) 100) /\
  throughout true false launched_first (concat (repeat (everyone 3) 100)) (life_init 0 [(5, true); (4, false); (4, true)]) /\
  last (s_log (run true false (concat (repeat (everyone 3) 100)) (life_init 0 [(5, true); (4, false); (4, true)]))) (EvClass 0 Run) = EvAll.
Proof.
  split; [apply Forall_forall; intros x H; apply repeat_spec in H; subst x; apply everyone_fair|]. split; [|vm_compute; reflexivity].
  apply (throughout_check _ _ _ (fun s => negb (launching_b (s_main s) && existsb final_b (s_log s)))); [|vm_compute; reflexivity].
  intros s H L. apply quiet_log. destruct (s_main s); cbn [launching launching_b andb] in *; try contradiction; apply negb_true_iff; exact H.
Qed.

(** C42.  Background training, then [cancelTraining] by the same thread.  In every execution in which no
    class thread starts a joining thread, when [cancelTraining] has returned everything has stopped and
    the model contains the finished classes only. *)
Theorem C42_cancel : forall n plan sch, strong sch -> throughout true true no_detached sch (life_init n plan) ->
  s_main (run true true sch (life_init n plan)) = MEnd -> all_stopped (run true true sch (life_init n plan)).
Proof. intros n plan sch St T E. exact (cancel_over _ (cancel_reach n plan sch St T) E). Qed.

(** C42: it is so if the cancellation is requested before any class ends. *)
Theorem C42_in_time : forall n plan sch, strong sch -> throughout true true cancelled_in_time sch (life_init n plan) ->
  s_main (run true true sch (life_init n plan)) = MEnd -> all_stopped (run true true sch (life_init n plan)).
Proof. intros n plan sch St T E. apply C42_cancel; [exact St| |exact E]. apply in_time; assumption. Qed.

(** C42: and [cancelTraining] returns if every thread gets a turn often enough. *)
Theorem C42_returns : forall n plan, exists turns, forall rounds, Forall (fair_round (length plan)) rounds -> turns < length rounds ->
  throughout true true no_detached (concat rounds) (life_init n plan) -> s_main (run true true (concat rounds) (life_init n plan)) = MEnd.
Proof. intros n plan. exists (work (life_init n plan)). intros rounds F W T. exact (cancel_fair n plan rounds F W T). Qed.

(** C42 fails otherwise: a joining thread is about to finish: [cancelTraining] returns and the model is
    still training ([reset] and [filter] throw, see C43). *)
Theorem C42_late_refuted : exists plan sch, strong sch /\
  s_main (run true true sch (life_init 0 plan)) = MEnd /\
  s_training (run true true sch (life_init 0 plan)) = true /\ ~ In EvAll (s_log (run true true sch (life_init 0 plan))).
Proof.
  exists [(0, true)], (turns 6 TMain ++ turns 16 (TClass 0) ++ turns 5 (TJoin 0) ++ turns 8 TMain ++ turns 2 (TJoin 0) ++ turns 5 TMain).
  split; [repeat (apply Forall_app; split); apply Forall_forall; intros x H; apply repeat_spec in H; subst x; reflexivity|].
  vm_compute. repeat split. intros [H|[]]. discriminate.
Qed.

(** C42: or, after an early join (C41), [cancelTraining] returns without having cancelled anything and a
    class goes on training. *)
Theorem C42_early_refuted : exists plan sch, strong sch /\
  s_main (run true true sch (life_init 0 plan)) = MEnd /\
  map k_flag (s_cls (run true true sch (life_init 0 plan))) = [false; true] /\
  map k_cancel (s_cls (run true true sch (life_init 0 plan))) = [false; false].
Proof.
  exists [(0, true); (3, true)], (turns 5 TMain ++ turns 16 (TClass 0) ++ turns 12 (TJoin 0) ++ turns 6 TMain ++ turns 5 (TClass 1) ++ turns 5 TMain).
  split; [repeat (apply Forall_app; split); apply Forall_forall; intros x H; apply repeat_spec in H; subst x; reflexivity|].
  vm_compute. repeat split.
Qed.
Print Assumptions C42_cancel.
Print Assumptions C42_in_time.
Print Assumptions C42_returns.
Print Assumptions C42_late_refuted.
Print Assumptions C42_early_refuted.

Example C42_meets :
  Forall (fair_round 2) (repeat (everyone 2) 60) /\
  throughout true true cancelled_in_time (concat (repeat (everyone 2) 60)) (life_init 0 [(5, true); (4, true)]) /\
  throughout true true no_detached (concat (repeat (everyone 2) 60)) (life_init 0 [(5, true); (4, true)]) /\
  s_main (run true true (concat (repeat (everyone 2) 60)) (life_init 0 [(5, true); (4, true)])) = MEnd /\
  map k_pc (s_cls (run true true (concat (repeat (everyone 2) 60)) (life_init 0 [(5, true); (4, true)]))) = [CEnd Cancel; CEnd Cancel].
Proof.
  assert (F : Forall (fair_round 2) (repeat (everyone 2) 60)) by (apply Forall_forall; intros x H; apply repeat_spec in H; subst x; apply everyone_fair).
  split; [exact F|]. match goal with |- ?P /\ _ => assert (T : P) end.
  { apply (throughout_check _ _ _ (fun s => s_creq s || (match s_main s with MEnd => true | _ => false end) || negb (existsb final_b (s_log s)))); [|vm_compute; reflexivity].
    intros s H C M. apply quiet_log. rewrite C in H. destruct (s_main s); try congruence; apply negb_true_iff; exact H. }
  split; [exact T|]. split; [apply in_time; [exact (fair_strong _ _ F)|exact T]|]. vm_compute. split; reflexivity.
Qed.
