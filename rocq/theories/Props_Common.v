(** Properties C01-C09: attributes, event generators, circular buffers. *)
From Coq Require Import List Bool Arith Lia Reals Permutation Sorted ZArith QArith Ascii Floats.SpecFloat.
Local Open Scope nat_scope.
From Verif Require Import Base Arith Model_Attribute Model_Events Model_Ring Spec_Common RFacts.
From Verif Require Import Proofs_Attribute Proofs_Events Proofs_Ring Proofs_Float.
Import ListNotations.

(** C01 (one call): [set] either refuses and changes nothing, or stores, flags and notifies. *)
Theorem C01_set_all_or_nothing : forall (T : Type) (ltb : T -> T -> bool) (a : attr T) v s a' out calls,
  attr_set (checkLimits ltb) a v s = (a', out, calls) ->
  (in_range ltb (a_min a) (a_max a) v = false /\ out = Throw DomainError /\ a' = a /\ calls = [])
  \/ (in_range ltb (a_min a) (a_max a) v = true /\ out = Ok tt /\
      a_val a' = v /\ a_changed a' = true /\ a_min a' = a_min a /\ a_max a' = a_max a /\
      a_cb a' = a_cb a /\
      (s = true -> calls = []) /\
      (s = false -> calls = match a_cb a with Some l => [(l, v)] | None => [] end)).
Proof. exact (@attr_set_atomic). Qed.
Print Assumptions C01_set_all_or_nothing.

Example C01_meets : 
  attr_set (checkLimits Nat.ltb) (mkAttr 3 1 10 false (Some 7)) 5 false
    = (mkAttr 5 1 10 true (Some 7), Ok tt, [(7, 5)]) /\
  attr_set (checkLimits Nat.ltb) (mkAttr 3 1 10 false (Some 7)) 11 false
    = (mkAttr 3 1 10 false (Some 7), Throw DomainError, []).
Proof. split; reflexivity. Qed.

(** C01 (histories): the value, the limits, the listener, the changed flag and the sequence of
    listener calls after any history are those of the accepted operations. *)
Theorem C01_history : forall (T : Type) (ltb : T -> T -> bool) (a0 : attr T) ops a calls,
  attr_run (checkLimits ltb) a0 ops = (a, calls) ->
  expected_value ltb (a_min a0) (a_max a0) (a_val a0) ops (a_val a) /\
  (a_min a, a_max a) = limits_after (a_min a0) (a_max a0) ops /\
  a_cb a = listener_after (a_cb a0) ops /\
  calls = expected_calls ltb (a_min a0) (a_max a0) (a_cb a0) ops /\
  a_changed a = a_changed a0 ||
    existsb (fun i => match accepted_at ltb (a_min a0) (a_max a0) ops i with
                      Some _ => true | None => false end) (seq 0 (length ops)).
Proof. exact (@attr_history). Qed.
Print Assumptions C01_history.

Example C01_history_meets : exists a calls,
  attr_run (checkLimits Nat.ltb) (mkAttr 3 1 10 false None)
    [AListen (Some 4); ASet 7 false; ASet 20 false; ASetMax 30; ASet 20 true; ASet 21 false] = (a, calls)
  /\ a_val a = 21 /\ calls = [(4, 7); (4, 21)].
Proof. eexists _, _. split; [reflexivity|]. split; reflexivity. Qed.

(** C02: the value stays inside the limits as long as no limit change excludes it. *)
Theorem C02_in_limits : forall (T : Type) (ltb : T -> T -> bool) ops (a : attr T),
  in_range ltb (a_min a) (a_max a) (a_val a) = true ->
  never_tightened ltb a ops ->
  let a' := fst (attr_run (checkLimits ltb) a ops) in
  in_range ltb (a_min a') (a_max a') (a_val a') = true.
Proof. exact (@attr_in_limits). Qed.
Print Assumptions C02_in_limits.

Example C02_meets :
  in_range Nat.ltb 1 10 3 = true /\
  never_tightened Nat.ltb (mkAttr 3 1 10 false None) [ASetMax 4; ASet 4 false; ASet 9 false; ASetMin 4].
Proof. split; [reflexivity|]. simpl. intuition. Qed.

(** C02, without the hypothesis: false, limits may be moved past the value. *)
Theorem C02_any_history_refuted : exists (a : attr nat) ops,
  in_range Nat.ltb (a_min a) (a_max a) (a_val a) = true /\
  let a' := fst (attr_run (checkLimits Nat.ltb) a ops) in
  in_range Nat.ltb (a_min a') (a_max a') (a_val a') = false.
Proof. exists (mkAttr 3 1 10 false None), [ASetLimits 5 10]. split; reflexivity. Qed.
Print Assumptions C02_any_history_refuted.

(** C03, binary64: a number accepted by [set] is between the limits... *)
Theorem C03_numbers_in_range : forall (a a' : attr f64) v s calls,
  f64_isnan v = false -> f64_isnan (a_min a) = false -> f64_isnan (a_max a) = false ->
  attr_set (checkLimits SFltb) a v s = (a', Ok tt, calls) ->
  a_val a' = v /\ SFleb (a_min a') v = true /\ SFleb v (a_max a') = true.
Proof. exact f64_attr_in_range. Qed.
Print Assumptions C03_numbers_in_range.

Example C03_meets : exists a' calls,
  attr_set (checkLimits SFltb) (mkAttr (f64_ofQ 0) (f64_ofQ 0) (f64_ofQ 1) false None)
    (f64_ofQ (1 # 2)%Q) false = (a', Ok tt, calls).
Proof. eexists _, _. vm_compute. reflexivity. Qed.

(** ... but NaN is accepted whatever the limits. *)
Theorem C03_rejects_everything_else_refuted : exists (a a' : attr f64) v calls,
  attr_set (checkLimits SFltb) a v false = (a', Ok tt, calls) /\
  SFleb (a_min a') (a_val a') = false /\ SFleb (a_val a') (a_max a') = false.
Proof.
  exists (mkAttr (f64_ofQ 0) (f64_ofQ 0) (f64_ofQ 1) false None). eexists _, S754_nan, _.
  vm_compute. repeat split; reflexivity.
Qed.
Print Assumptions C03_rejects_everything_else_refuted.

(** C04: after [a = b], a change of [a] should be told to the listener of [a]; it is told to the
    listener of [b] instead. *)
Theorem C04_assignment_keeps_listener_refuted : exists (a b : attr nat) v la lb,
  a_cb a = Some la /\ a_cb b = Some lb /\ la <> lb /\
  forall a' out calls, attr_set (checkLimits Nat.ltb) (attr_assign a b) v false = (a', out, calls) ->
    out = Ok tt /\ calls = [(lb, v)] /\ ~ In (la, v) calls.
Proof.
  exists (mkAttr 3 0 10 false (Some 1)), (mkAttr 4 0 10 false (Some 2)), 5, 1, 2.
  repeat split; auto; inversion H; subst; auto.
  intros [X|[]]; discriminate.
Qed.
Print Assumptions C04_assignment_keeps_listener_refuted.

(** C04, the part that holds: the copy constructor copies value and limits and no listener. *)
Theorem C04_copy_constructor_partial : forall (T : Type) (ltb : T -> T -> bool) (src : attr T) v s a' out calls,
  attr_set (checkLimits ltb) (attr_copy src) v s = (a', out, calls) ->
  calls = [] /\ a_val (attr_copy src) = a_val src /\ a_changed (attr_copy src) = false /\
  (out = Ok tt <-> in_range ltb (a_min src) (a_max src) v = true).
Proof. exact attr_copy_silent. Qed.
Print Assumptions C04_copy_constructor_partial.

(** C05: [set] on a fixed-size vector attribute accepts exactly the vectors that fit. *)
Theorem C05_vector_set : forall (T : Type) (ltb : T -> T -> bool) (a : vattr) (v : list T) s a' out calls,
  vattr_set (checkLimits ltb) a v s = (a', out, calls) ->
  let fits := ((va_size a = 0 \/ length v = va_size a) /\
               forall x, In x v -> in_range ltb (va_min a) (va_max a) x = true) in
  (fits /\ out = Ok tt /\ va_val a' = v /\ va_size a' = va_size a /\
   va_min a' = va_min a /\ va_max a' = va_max a /\ va_cb a' = va_cb a /\ va_changed a' = true /\
   (s = true -> calls = []) /\
   (s = false -> calls = match va_cb a with Some l => [(l, v)] | None => [] end)) \/
  (~ fits /\ out = Throw DomainError /\ a' = a /\ calls = []).
Proof. exact (@vattr_set_spec). Qed.
Print Assumptions C05_vector_set.

(** C05: after any history, [at(i)] never reads outside the vector: it returns element [i] when
    [i] is below the fixed size (the argument of the last [resize]) and throws otherwise. *)
Theorem C05_vector_history : forall (T : Type) (ltb : T -> T -> bool) (d : T) ops (a : vattr) i,
  length (va_val a) = va_size a \/ va_size a = 0 ->
  let a' := fold_left (vattr_step (checkLimits ltb) d) ops a in
  (va_size a' = fold_left (fun n o => match o with VResize m => m | _ => n end) ops (va_size a)) /\
  (0 < va_size a' -> vattr_sizeof a' = va_size a') /\
  vattr_at a' i = if i <? va_size a' then Ok (nth i (va_val a') d) else Throw OutOfRange.
Proof. exact vattr_history. Qed.
Print Assumptions C05_vector_history.

Example C05_meets : let a := mkVattr [1;2;3] 0 9 3 false None in
  (length (va_val a) = va_size a \/ va_size a = 0) /\
  vattr_at (fold_left (vattr_step (checkLimits Nat.ltb) 0) [VSet [4;5;6] false; VSet [1] false; VResize 4] a) 1 = Ok 5.
Proof. split; [left|]; reflexivity. Qed.

(** C06: notifying calls exactly the registered owners, once each, in address order, with the
    callback first registered since the owner's last removal. *)
Theorem C06_notify_exactly_once : forall (C : Type) (ops : list (@lop C)) (E : Type) (e : E),
  exists owners : list nat,
    StronglySorted lt owners /\
    (forall o, In o owners <-> exists c, registered ops o = Some c) /\
    map (fun p => Some (fst p)) (ev_notify (ev_run ops) e) = map (registered ops) owners /\
    Forall (fun p => snd p = e) (ev_notify (ev_run ops) e).
Proof. intros C ops E e. exact (notify_exact ops E e). Qed.
Print Assumptions C06_notify_exactly_once.

Example C06_meets :
  ev_notify (ev_run [LAdd 5 "a"%char; LAdd 2 "b"%char; LAdd 5 "c"%char; LRemove 5; LAdd 5 "d"%char; LAdd 5 "e"%char]) tt
  = [("b"%char, tt); ("d"%char, tt)].
Proof. reflexivity. Qed.

(** C07: a window of length [L] holds exactly the last [min n L] values. *)
Theorem C07_ring_holds_last_values : forall (T : Type) (d : T) ch L (r : ring T) (vs : list (list T)),
  ring_wf ch r -> r_length r = L -> 0 < L -> Forall (fun v => ch <= length v) vs ->
  exists r', ring_pushes (ring_clear r) vs = Ok r' /\
    ring_size_t r' = min (length vs) L /\
    (forall c i, ring_get r' c i = Throw OutOfRange \/
                 (c < ch /\ i < min (length vs) L /\ exists x, ring_get r' c i = Ok x)) /\
    (forall k c, length vs - L <= k < length vs -> c < ch ->
       ring_get r' c (k mod L) = Ok (nth c (nth k vs []) d)) /\
    (forall c, c < ch -> exists xs,
       tabM (ring_size_t r') (ring_get r' c) = Ok xs /\
       Permutation xs (map (fun v => nth c v d) (last_n L vs))).
Proof. exact (@ring_window). Qed.
Print Assumptions C07_ring_holds_last_values.

(** C07: every buffer made by the constructor and changed by resize or clear meets [ring_wf]. *)
Theorem C07_ring_wf_reachable : forall (T : Type) (d : T) ch L (r : ring T) n,
  ring_wf ch (ring_new d ch L) /\
  (ring_wf ch r -> ring_wf ch (ring_clear r) /\ ring_wf ch (ring_resize d r n)).
Proof.
  intros. split; [apply ring_new_wf|]. intro H.
  split; [apply ring_clear_wf|apply ring_resize_wf]; exact H.
Qed.
Print Assumptions C07_ring_wf_reachable.

(** C07: the single-channel [push(T)] is the one-channel case of the vector [push]. *)
Theorem C07_single_channel : forall (T : Type) (r : ring T) v,
  ring_wf 1 r -> ring_push1 r v = ring_push r [v].
Proof. exact (@ring_push1_push). Qed.
Print Assumptions C07_single_channel.

Example C07_meets :
  ring_wf 1 (ring_new 0 1 3) /\
  match ring_pushes (ring_clear (ring_new 0 1 3)) [[1];[2];[3];[4];[5]] with
  | Ok r => map (ring_get r 0) [0;1;2;3] = [Ok 4; Ok 5; Ok 3; Throw OutOfRange]
  | _ => False
  end.
Proof. split; [apply ring_new_wf|reflexivity]. Qed.

(** C08: [mean()] is the mean of the last [min n L] values (exact arithmetic). *)
Theorem C08_ring_mean : forall ch L (r : ring R) (vs : list (list R)),
  ring_wf ch r -> r_length r = L -> 0 < L -> vs <> [] -> Forall (fun v => ch <= length v) vs ->
  exists r', ring_pushes (ring_clear r) vs = Ok r' /\
    exists m, @ring_mean RA r' = Ok m /\ length m = ch /\
    forall c, c < ch ->
      nth c m 0%R = (Rlsum (map (fun v => nth c v 0%R) (last_n L vs)) /
                     INR (length (last_n L vs)))%R.
Proof. exact ring_mean_window. Qed.
Print Assumptions C08_ring_mean.

Example C08_meets : ring_wf 1 (ring_new 0%R 1 2) /\ r_length (ring_new 0%R 1 2) = 2 /\
  Forall (fun v : list R => 1 <= length v) [[1%R]; [5%R]; [6%R]].
Proof. split; [apply ring_new_wf|]. split; [reflexivity|]. repeat constructor. Qed.

(** C09: enlarging a full buffer loses values. *)
Theorem C09_resize_keeps_refuted : exists L L' (vs : list (list nat)) r x,
  L < L' /\ ring_pushes (ring_new 0 1 L) vs = Ok r /\
  In [x] (last_n L vs) /\
  (forall i, ring_get (ring_resize 0 r L') 0 i = Throw OutOfRange).
Proof.
  exists 2, 3, [[1];[2]]. eexists. exists 2. split; [lia|]. split; [reflexivity|].
  split; [simpl; auto|]. intro i. reflexivity.
Qed.
Print Assumptions C09_resize_keeps_refuted.

(** C09, the part that holds: a buffer that is not full keeps every readable value. *)
Theorem C09_resize_not_full_partial : forall (T : Type) (d : T) ch (r : ring T) L,
  ring_wf ch r -> r_full r = false -> r_length r < L ->
  ring_size_t (ring_resize d r L) = ring_size_t r /\
  forall c i, ring_get (ring_resize d r L) c i = ring_get r c i.
Proof. exact (@ring_resize_grow_keeps). Qed.
Print Assumptions C09_resize_not_full_partial.

Example C09_meets : exists r, ring_pushes (ring_new 0 1 3) [[1];[2]] = Ok r /\
  ring_wf 1 r /\ r_full r = false /\ r_length r < 5 /\ ring_size_t r = 2.
Proof.
  eexists. split; [reflexivity|]. unfold ring_wf. simpl. repeat split; try lia.
  intros c Hc. destruct c as [|[|]]; simpl; lia.
Qed.
