(** Shared parameters: C35, C71 and the second half of C34. *)
From Coq Require Import String List Bool Arith ZArith QArith Reals Lra Lia.
From Verif Require Import Base Arith RFacts Model_Json Model_Phrase Model_Gaussian Model_Shared Spec_Shared Proofs_Shared.
Import ListNotations.
Local Open Scope nat_scope.

(** C35: what holds after any history of attribute assignments, exceptions caught. *)
Theorem C35_any_history : forall (A : arith) id (ops : list (sset A)), nltb (nofQ (1 # 100)) (n0 (A := A)) = false ->
  let s := sp_run ops (sp_new id) in
  1 <= sp_dim s /\ (sp_bim s = true -> 2 <= sp_dim s) /\
  1 <= sp_minit s /\ 1 <= sp_win s /\ nltb (sp_pct s) n0 = false /\
  (sp_nsize s = 0 /\ sp_dim s = 1 \/ sp_nsize s = sp_dim s /\ length (sp_names s) = sp_dim s).
Proof. intro A. exact always. Qed.
Print Assumptions C35_any_history.
(** The default percentage is not negative, in the reals and in binary64. *)
Example C35_any_history_meets : nltb (nofQ (1 # 100)) (n0 (A := RA)) = false /\
  forall fexp fln, nltb (nofQ (1 # 100)) (n0 (A := FA fexp fln)) = false.
Proof.
  split; [|intros; vm_compute; reflexivity].
  cbn [nltb nofQ RA]. rewrite n0_RA.
  match goal with |- context [Rlt_dec ?a ?b] => destruct (Rlt_dec a b) as [L|L] end; [exfalso|reflexivity].
  revert L. unfold Q2R. cbn [QArith_base.Qnum QArith_base.Qden]. lra.
Qed.

(** C35: the modality is consistent with the dimensions after every orderly history ... *)
Theorem C35_orderly : forall (A : arith) id (ops : list (sset A)), orderly ops (sp_new id) -> modal_ok (sp_run ops (sp_new id)).
Proof. intro A. exact orderly_ok. Qed.
Print Assumptions C35_orderly.
Example C35_orderly_meets : forall A : arith,
  let ops : list (sset A) := [SDim 3; SBim true; SDim 7; SDin 4; SDim 5; SWin 20; SDin 2] in
  orderly ops (sp_new 0) /\ sp_dim (sp_run ops (sp_new 0)) = 5 /\ sp_din (sp_run ops (sp_new 0)) = 2.
Proof. intro A. cbn. repeat split; lia. Qed.
(** ... and not after others: the dimension of a bimodal object can go below its input dimension, ... *)
Theorem C35_shrink_refuted : forall (A : arith) id n m, 2 <= n -> n <= m -> exists s1 s2 s3 s4 : shared A,
  sp_set (SBim true) (sp_new id) = (s1, Ok tt) /\ sp_set (SDim (S m)) s1 = (s2, Ok tt) /\
  sp_set (SDin m) s2 = (s3, Ok tt) /\ sp_set (SDim n) s3 = (s4, Ok tt) /\
  sp_bim s4 = true /\ sp_dim s4 = n /\ sp_din s4 = m.
Proof. intro A. exact shrink_below. Qed.
Print Assumptions C35_shrink_refuted.
(** ... a unimodal object accepts an input dimension, ... *)
Theorem C35_unimodal_input_refuted : forall (A : arith) id n k, k < n -> exists s1 s2 : shared A,
  sp_set (SDim n) (sp_new id) = (s1, Ok tt) /\ sp_set (SDin k) s1 = (s2, Ok tt) /\
  sp_bim s2 = false /\ sp_dim s2 = n /\ sp_din s2 = k.
Proof. intro A. exact unimodal_input. Qed.
Print Assumptions C35_unimodal_input_refuted.
(** ... once bimodal, an object cannot become unimodal: the call throws half way, and the input
    dimension can no longer be set at all ... *)
Theorem C35_off_refused : forall (A : arith) id (ops : list (sset A)), nltb (nofQ (1 # 100)) (n0 (A := A)) = false ->
  In (SBim true) ops ->
  let s := sp_run ops (sp_new id) in
  exists s', sp_set (SBim false) s = (s', Throw DomainError) /\ sp_bim s' = false /\ sp_din s' = sp_din s /\
    (forall n, snd (sp_set (SDin n) s') = Throw DomainError).
Proof. intro A. exact off_refused. Qed.
Print Assumptions C35_off_refused.
Example C35_off_refused_meets : forall A : arith,
  let ops : list (sset A) := [SDim 3; SBim true; SDin 2] in
  In (SBim true) ops /\ sp_bim (sp_run ops (sp_new 0)) = true /\ sp_din (sp_run ops (sp_new 0)) = 2.
Proof. intro A. cbn. auto. Qed.
(** ... and a unimodal one told again that it is unimodal cannot become bimodal: it ends bimodal
    with input dimension 0. *)
Theorem C35_on_refused_refuted : forall (A : arith) id n, 2 <= n -> exists s1 s2 s3 : shared A,
  sp_set (SDim n) (sp_new id) = (s1, Ok tt) /\ sp_set (SBim false) s1 = (s2, Ok tt) /\
  sp_set (SBim true) s2 = (s3, Throw DomainError) /\ sp_bim s3 = true /\ sp_dim s3 = n /\ sp_din s3 = 0.
Proof. intro A. exact on_refused. Qed.
Print Assumptions C35_on_refused_refuted.

(** C34, shared parameters: an assigned object changes its dimension and nothing else ... *)
Theorem C34_shared_assigned_refuted : forall (A : arith) (cv : conv A) (w : sworld A) k s (g t : shared A) n, k <> s ->
  nth_error w k = Some (Some g) -> nth_error w s = Some (Some t) -> sp_owner t = Some s -> sp_dim_min t <= n ->
  exists w1 w2, sp_step cv (SAssign k s) w = (w1, Ok tt) /\ nth_error w1 k = Some (Some t) /\
    sp_step cv (SSet k (SDim n)) w1 = (w2, Ok tt) /\
    nth_error w2 k = Some (Some (sp_set_dim n (sp_dim_min t) t)).
Proof. intro A. exact sp_assigned. Qed.
Print Assumptions C34_shared_assigned_refuted.
(** ... and after [fromJson] every accepted assignment calls a destroyed listener. *)
Theorem C34_shared_reloaded_refuted : forall (A : arith) (cv : conv A) (w : sworld A) k (g : shared A) root w1 o,
  nth_error w k = Some (Some g) -> sp_step cv (SFromJson k root) w = (w1, Ok tt) ->
  match snd (sp_step cv (SSet k o) w1) with Ok _ => False | Throw e => e = DomainError | UB => True end.
Proof. intro A. exact sp_reload_dangles. Qed.
Print Assumptions C34_shared_reloaded_refuted.
Example C34_shared_meets : forall (A : arith) (cv : conv A), nltb (c_float cv (nofQ (1 # 100))) n0 = false ->
  exists (s : shared A) j w1, sp_set (SDim 2) (sp_new 0) = (s, Ok tt) /\ sp_toJson s = Ok j /\
  sp_step cv (SFromJson 0 j) [Some s; Some (sp_new 1)] = (w1, Ok tt) /\
  snd (sp_step cv (SSet 0 (SDim 3)) w1) = UB /\ snd (sp_step cv (SSet 0 (SDim 0)) w1) = Throw DomainError.
Proof.
  intros A cv H.
  pose (s := mkShared (A:=A) false 2 1 0 0 1 [""; ""]%string 2 10 0 (nofQ (1 # 100)) 1 (Some 0)).
  destruct (sp_trip cv 2 s s) as (j & E & F); [|exact H|].
  { unfold storable, s. cbn. repeat split; try lia; try discriminate. repeat constructor. }
  exists s, j, [Some (sp_reloaded cv 2 s); Some (sp_new 1); None]. split; [reflexivity|]. split; [exact E|].
  split. { unfold sp_step. cbn [nth_error length]. rewrite F. reflexivity. }
  split; reflexivity.
Qed.

(** C71: the JSON form restores every value ... *)
Theorem C71_round_trip : forall (A : arith) (cv : conv A) tmp (s h : shared A), storable s ->
  nltb (c_float cv (sp_pct s)) n0 = false ->
  exists j, sp_toJson s = Ok j /\ sp_fromJson cv tmp j h = (sp_reloaded cv tmp s, Ok tt).
Proof. intro A. exact sp_trip. Qed.
Print Assumptions C71_round_trip.
Example C71_meets : forall A : arith,
  let s : shared A := sp_run [SBim true; SDim 3; SDin 2; SNames ["x"; "y"; "z"]%string; SMinIt 5; SMaxIt 40; SWin 7] (sp_new 0) in
  storable s /\ sp_bim s = true /\ sp_names s = ["x"; "y"; "z"]%string.
Proof.
  intros A s.
  assert (E : s = mkShared (A:=A) true 3 2 2 1 2 ["x"; "y"; "z"]%string 3 5 40 (nofQ (1 # 100)) 7 (Some 0)) by reflexivity.
  rewrite E. split; [|split; reflexivity]. unfold storable.
  cbn [sp_bim sp_dim sp_din sp_names sp_nsize sp_minit sp_maxit sp_win length].
  repeat split; try lia. repeat (apply Forall_cons; [reflexivity|]). apply Forall_nil.
Qed.
(** ... except names given before any dimension, which cannot be written. *)
Theorem C71_early_names_refuted : forall (A : arith) id x l, exists s : shared A,
  sp_set (SNames (x :: l)) (sp_new id) = (s, Ok tt) /\ sp_toJson s = Throw OutOfRange.
Proof. intro A. exact early_names. Qed.
Print Assumptions C71_early_names_refuted.
