(** Configurations: C44 and C72. *)
From Coq Require Import String List Bool Arith ZArith QArith Lia Sorted SpecFloat.
From Verif Require Import Base Arith Model_Json Model_Map Model_Gaussian Model_Config Spec_Config Proofs_Config.
Import ListNotations.
Local Open Scope nat_scope.

(** C44: after any history of edits, a GMM class gets exactly what was asked for its label ... *)
Theorem C44_gmm_class : forall (A : arith) ops l (old : gmmP A),
  cf_used gmmP_assign l (cf_run gmmP_new gmmP_assign gmmP_edit ops (cf_new gmmP_new)) old =
    wanted_for (wants gmmP_edit gmmP_new ops) l.
Proof. intro A. exact gmm_used. Qed.
Print Assumptions C44_gmm_class.
(** ... and so does a HMM class, apart from the flag [hierarchical]. *)
Theorem C44_hmm_class : forall (A : arith) ops l (old : hmmP A),
  flat (cf_used hmmP_assign l (cf_run hmmP_new hmmP_assign hmmP_edit ops (cf_new hmmP_new)) old) =
    wanted_for (wants (fun e p => flat (hmmP_edit e p)) hmmP_new ops) l.
Proof. intro A. exact hmm_used. Qed.
Print Assumptions C44_hmm_class.
(** A default changed before and after a class gets its own parameters; a refused edit; a reset. *)
Example C44_meets : forall A : arith,
  let ops : list (cfop (gmmE A)) := [CDefault (EGauss 4); CClass "a" (EMode Diagonal); CDefault (EGauss 7); CClass "b" (EGauss 0);
                                     CClass "c" (EGauss 2); CResetLabel "c"]%string in
  let used l := cf_used gmmP_assign l (cf_run gmmP_new gmmP_assign gmmP_edit ops (cf_new gmmP_new)) gmmP_new in
  map (fun l => (gp_gauss (used l), gp_mode (used l))) ["a"; "b"; "c"; "d"]%string = [(4, Diagonal); (7, Full); (7, Full); (7, Full)].
Proof. reflexivity. Qed.
(** The flag of a class starts from [true], whatever the default. *)
Theorem C44_hmm_flag_refuted : forall (A : arith) l (e : hmmE A), (forall b, e <> HHier b) ->
  let c := cf_run hmmP_new hmmP_assign hmmP_edit [CDefault (HHier false); CClass l e] (cf_new hmmP_new) in
  hp_hier (cf_def c) = false /\ exists p, cget c l = Some p /\ hp_hier p = true.
Proof.
  intros A l e H c.
  set (c1 := cf_edit_default hmmP_edit (HHier false) (cf_new (hmmP_new : hmmP A))).
  set (c2 := cput c1 l (hmmP_assign hmmP_new (cf_def c1))).
  assert (E : c = cput c2 l (hmmP_edit e (hmmP_assign hmmP_new (cf_def c1)))).
  { unfold c, cf_run. cbn [fold_left cf_step]. fold c1. unfold cf_edit_class, cf_at.
    change (cget c1 l) with (@None (hmmP A)). cbn iota beta zeta. fold c2. unfold c2 at 1. rewrite cget_cput, String.eqb_refl. reflexivity. }
  rewrite E. split; [reflexivity|]. eexists. rewrite cget_cput, String.eqb_refl. split; [reflexivity|].
  destruct e; cbn; try reflexivity; try match goal with |- context [if ?b then _ else _] => destruct b end; try reflexivity.
  exfalso. apply (H b). reflexivity.
Qed.
Print Assumptions C44_hmm_flag_refuted.

(** C72: a GMM configuration survives JSON, up to float rounding ... *)
Theorem C72_gmm_round_trip : forall (A : arith) (cv : conv A) (s c : config (gmmP A)), config_ok (gmmP_ok cv) s ->
  cf_fromJson gmmP_new gmmP_assign (gmmP_ofJson cv) cv (cf_toJson gmmP_toJson s) c =
    (mkConfig (gmmP_round cv (cf_def s)) (cf_mt s) (cf_est s) (map (fun e => (fst e, gmmP_round cv (snd e))) (cf_class s)), Ok tt).
Proof. intros A cv. exact (gmm_config_trip cv). Qed.
Print Assumptions C72_gmm_round_trip.
(** ... so does a HMM configuration except for [hierarchical], which stays as it was in the target
    (and is true in every class) ... *)
Theorem C72_hmm_round_trip_refuted : forall (A : arith) (cv : conv A) (s c : config (hmmP A)), config_ok (hmmP_ok cv) s ->
  cf_fromJson hmmP_new hmmP_assign (hmmP_ofJson cv) cv (cf_toJson hmmP_toJson s) c =
    (mkConfig (hmmP_round cv (hp_hier (cf_def c)) (cf_def s)) (cf_mt s) (cf_est s)
       (map (fun e => (fst e, hmmP_round cv true (snd e))) (cf_class s)), Ok tt).
Proof. intros A cv. exact (hmm_config_trip cv). Qed.
Print Assumptions C72_hmm_round_trip_refuted.
(** ... and likewise for assignment. *)
Theorem C72_assignment : forall (A : arith),
  (forall d s : config (gmmP A), cf_assign gmmP_assign d s = s) /\
  (forall d s : config (hmmP A), cf_assign hmmP_assign d s = s <-> hp_hier (cf_def d) = hp_hier (cf_def s)).
Proof.
  intro A. split.
  - intros d []. unfold cf_assign. rewrite gmmP_assign_eq. reflexivity.
  - intros [[] ? ? ?] [[] ? ? ?]. unfold cf_assign. cbn. split; intro H; [injection H; auto|subst; reflexivity].
Qed.
Print Assumptions C72_assignment.
(** Non-default configurations with two classes, in binary64 with float rounding; a non-hierarchical one
    comes back hierarchical. *)
Example C72_meets : forall fexp fln, let A := FA fexp fln in
  let cv : conv A := mkConv (A:=A) to_float32 (fun _ => None) (fun _ => ""%string) in
  let g := cf_run gmmP_new gmmP_assign gmmP_edit
    [CDefault (EGauss 4); CClass "b" (EMode Diagonal); CClass "a" (EGauss 3)]%string (cf_new (gmmP_new : gmmP A)) in
  let h := cf_run hmmP_new hmmP_assign hmmP_edit
    [CDefault (HHier false); CClass "b" (HMode Diagonal)]%string (cf_new (hmmP_new : hmmP A)) in
  config_ok (gmmP_ok cv) g /\ length (cf_class g) = 2 /\
  config_ok (hmmP_ok cv) h /\ hp_hier (cf_def h) = false /\
  hp_hier (cf_def (fst (cf_fromJson hmmP_new hmmP_assign (hmmP_ofJson cv) cv (cf_toJson hmmP_toJson h) (cf_new hmmP_new)))) = true.
Proof.
  intros fexp fln A cv g h.
  assert (Hf : nltb (a:=A) (c_float cv (nofQ (1 # 100))) reg_min = false) by (vm_compute; reflexivity).
  assert (Hf2 : nltb (a:=A) (c_float cv (nofQ (1 # 1000))) reg_min = false) by (vm_compute; reflexivity).
  assert (G : config_ok (gmmP_ok cv) g).
  { unfold config_ok. split; [cbn; lia|]. split; [cbn; lia|].
    assert (K : forall n m, 1 <= n -> (Z.of_nat n < 2 ^ 31)%Z -> gmmP_ok cv (mkGmmP n (nofQ (1 # 100)) (nofQ (1 # 1000)) m)).
    { intros n m H1 H2. unfold gmmP_ok. cbn [gp_gauss gp_rel gp_abs]. auto. }
    split; [apply K; [cbn; lia|reflexivity]|].
    split; [repeat constructor; apply K; solve [lia|reflexivity]|]. repeat constructor. }
  assert (HH : config_ok (hmmP_ok cv) h).
  { unfold config_ok. split; [cbn; lia|]. split; [cbn; lia|].
    split; [unfold hmmP_ok; cbn [hp_states hp_gauss hp_rel hp_abs]; repeat split; auto; cbn; lia|].
    split; [repeat constructor; auto; cbn; lia|]. repeat constructor. }
  split; [exact G|]. split; [reflexivity|]. split; [exact HH|]. split; [reflexivity|].
  rewrite (C72_hmm_round_trip_refuted A cv h (cf_new hmmP_new) HH). reflexivity.
Qed.
(** The smallest regularization allowed cannot be read back. *)
Theorem C72_smallest_refuted : forall fexp fln, let A := FA fexp fln in
  let cv : conv A := mkConv (A:=A) to_float32 (fun _ => None) (fun _ => ""%string) in
  let p : gmmP A := gmmP_edit (EAbs reg_min) gmmP_new in
  gp_abs p = reg_min /\ gmmP_ofJson cv (gmmP_toJson p) = Throw DomainError.
Proof.
  intros fexp fln A cv p. split; [reflexivity|]. unfold gmmP_ofJson.
  match goal with |- ?a = ?b => exact (eq_refl b <: a = b) end.
Qed.
Print Assumptions C72_smallest_refuted.

(** C67: assigning or loading HMM class parameters copies all of them but [hierarchical], so it copies
    everything exactly when the flags already agree. *)
Theorem C67_assign_refuted : forall (A : arith) (d s : hmmP A),
  flat (hmmP_assign d s) = flat s /\ hp_hier (hmmP_assign d s) = hp_hier d /\
  (hmmP_assign d s = s <-> hp_hier d = hp_hier s).
Proof.
  intros A [] []. cbn. split; [reflexivity|]. split; [reflexivity|].
  split; intro H; [injection H; auto|cbn in H; subst; reflexivity].
Qed.
Print Assumptions C67_assign_refuted.
Theorem C67_load_refuted : forall (A : arith) (cv : conv A) (p s : hmmP A), hmmP_ok cv s ->
  hmmP_fromJson cv (hmmP_toJson s) p = (hmmP_round cv (hp_hier p) s, Ok tt).
Proof. intros A cv p s H. unfold hmmP_fromJson. rewrite (hmm_trip cv s H). reflexivity. Qed.
Print Assumptions C67_load_refuted.
Example C67_meets : forall fexp fln, let A := FA fexp fln in
  let cv : conv A := mkConv (A:=A) to_float32 (fun _ => None) (fun _ => ""%string) in
  let s : hmmP A := hmmP_edit (HHier false) (hmmP_edit (HStates 5) hmmP_new) in
  hmmP_ok cv s /\ hp_hier s = false /\ hp_hier (fst (hmmP_fromJson cv (hmmP_toJson s) hmmP_new)) = true.
Proof.
  intros fexp fln A cv s.
  assert (Hf : nltb (a:=A) (c_float cv (nofQ (1 # 100))) reg_min = false) by (vm_compute; reflexivity).
  assert (Hf2 : nltb (a:=A) (c_float cv (nofQ (1 # 1000))) reg_min = false) by (vm_compute; reflexivity).
  assert (K : hmmP_ok cv s) by (unfold hmmP_ok; repeat split; auto; cbn; lia).
  split; [exact K|]. split; [reflexivity|]. rewrite (C67_load_refuted A cv hmmP_new s K). reflexivity.
Qed.
