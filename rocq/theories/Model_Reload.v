(** Model of the copies and of the JSON form of trained models: src/models/gmm/xmmGmmSingleClass.cpp 40-75,
    96-118, src/models/gmm/xmmGmm.cpp 37-50, src/models/hmm/xmmHmmSingleClass.cpp 38-96, 1320-1348,
    src/models/hmm/xmmHierarchicalHmm.cpp 36-76, 499-527, src/core/model/xmmModelSingleClass.cpp 40-97 and
    src/core/model/xmmModel.hpp 78-163, 432-458.

    [check_training] and the events are in Model_Life and Model_Model; so is the identity of the shared
    parameters: here the classes have their values.  The coefficients, priors, transitions and exit
    probabilities are [float] in C++: they are read with [asFloat]. *)
From Coq Require Import String List Bool Arith ZArith QArith.
From Verif Require Import Base Arith Model_Json Model_Map Model_Ring Model_Phrase Model_Gaussian Model_Shared Model_Config Model_KMeans
  Model_GMM Model_HMM Model_HHMM.
Import ListNotations.
Local Open Scope nat_scope.
Local Open Scope list_scope.

Section Reload.
  Context {A : arith}.
  Local Notation T := (num A).
  Local Notation J := (json A).

  (** [for (auto p : root)]: the values visited (json_value.cpp 1252-1303). *)
  Definition jitems (j : J) : list J :=
    match j with JArr l => l | JObj o => map snd o | _ => [] end.

  (** [for (auto p : l) v\[c++\].fromJson(p)]; an index out of range is undefined. *)
  Fixpoint load_each {X} (load : J -> X -> res X) (l : list J) (c : nat) (v : list X) : res (list X) :=
    match l with
    | [] => Ok v
    | j :: l =>
        let* x := rd v c in
        let* x := load j x in
        let* v := wr v c x in
        load_each load l (S c) v
    end.

  (** What a constructor of a class leaves uninitialised: the numbers of its results, and
      [forward_initialized_] of a hidden Markov model. *)
  Record junk := mkJunk { jk_num : T; jk_flag : bool }.
  Variable u : junk.

  (** ** A mixture *)

  (** xmmGmmSingleClass.cpp 96-107 and xmmModelSingleClass.cpp 233-238: [toJson]; [l] is the label. *)
  Definition gc_toJson (l : string) (g : gclass A) : res J :=
    let* coef := vector2json JReal (gc_coef g) in
    let* comps := array2json (fun j => j) (fun c => let* k := rd (gc_comp g) c in g_toJson k) (gc_n g) in
    Ok (JObj [("label", JStr l); ("mixture_coeffs", coef); ("parameters", gmmP_toJson (gc_par g)); ("components", comps)])%string.

  Definition run_load {X} (r : X * res unit) : res X := let* _ := snd r in Ok (fst r).

  (** xmmGmmSingleClass.cpp 48-64: constructor from JSON; the values of the shared parameters come first.
      [likelihood_buffer_] has its default length 1. *)
  Definition gc_ofJson (cv : conv A) (bim : bool) (dim din win : nat) (root : J) : res (string * gclass A) :=
    let* j := jmember root "label" in
    let* l := as_string cv j in
    let* j := jmember root "parameters" in
    let* p := gmmP_ofJson cv j in
    let* g := gm_allocate (mkGC (A := A) bim dim din win (gmmP_assign gmmP_new p) [] [] [] [] (ring_new n0 1 1)
      (jk_num u) (jk_num u) [] []) in
    let* j := jmember root "mixture_coeffs" in
    let* coef := Model_Gaussian.outcome (json2vector true (as_float cv) j (gc_coef g) (gc_n g)) in
    let* j := jmember root "components" in
    let* comps := load_each (fun j k => run_load (g_fromJson cv 0 j k)) (jitems j) 0 (gc_comp g) in
    let* g := gm_inverses (gc_set_comp comps (gc_set_coef coef g)) in
    Ok (l, g).

  (** xmmGmmSingleClass.cpp 40-46, xmmModelSingleClass.cpp 55-66: copy constructor: the regularisation, the
      buffer and the results are not copied. *)
  Definition gc_copy (g : gclass A) : gclass A :=
    mkGC (A := A) (gc_bim g) (gc_dim g) (gc_din g) (gc_win g) (gc_par g) (gc_coef g) (gc_comp g) (repeat n0 (gc_n g)) []
      (ring_new n0 1 1) (jk_num u) (jk_num u) [] [].

  (** xmmGmmSingleClass.cpp 66-75: [operator=]. *)
  Definition gc_assign (dst src : gclass A) : gclass A :=
    mkGC (A := A) (gc_bim src) (gc_dim src) (gc_din src) (gc_win src) (gmmP_assign (gc_par dst) (gc_par src)) (gc_coef src) (gc_comp src)
      (vresize (gc_n src) n0 (gc_beta dst)) (gc_reg dst) (gc_buf dst) (gc_inst dst) (gc_log dst) (gc_out dst) (gc_ocov dst).

  (** xmmGmmSingleClass.cpp 109-117: [fromJson]. *)
  Definition gc_fromJson (cv : conv A) (root : J) (g : gclass A) : res (gclass A) :=
    let* (_, t) := gc_ofJson cv (gc_bim g) (gc_dim g) (gc_din g) (gc_win g) root in
    Ok (gc_assign g t).

  (** ** A hidden Markov model *)

  (** xmmHmmSingleClass.cpp 1322-1337: [toJson]; the states have the empty label. *)
  Definition hc_toJson (l : string) (h : hclass A) : res J :=
    let n := hc_net h in
    let* prior := match hc_mode h with
      | Ergodic => let* j := vector2json JReal (h_prior n) in Ok [("prior"%string, j)]
      | LeftRight => Ok []
      end in
    let* tr := vector2json JReal (h_trans n) in
    let* ex := vector2json JReal (h_exit n) in
    let* states := array2json (fun j => j) (fun s => let* g := rd (h_states n) s in gc_toJson "" g) (hc_n h) in
    Ok (JObj (("label"%string, JStr l) :: ("parameters"%string, hmmP_toJson (hc_par h)) :: prior ++
      [("transition", tr); ("exitProbabilities", ex); ("states", states)]%string)).

  (** xmmHmmSingleClass.cpp 52-76: constructor from JSON; the class is hierarchical. *)
  Definition hc_ofJson (cv : conv A) (bim : bool) (dim din win : nat) (root : J) : res (string * hclass A) :=
    let* j := jmember root "label" in
    let* l := as_string cv j in
    let* j := jmember root "parameters" in
    let* p := run_load (hmmP_fromJson cv j hmmP_new) in
    let* h := hm_allocate (mkHC (A := A) bim dim din win p true (mkNet (A := A) [] [] [] [])
      (mkRun (A := A) [] [] [] [] (jk_flag u) (ring_new n0 1 1) (jk_num u) (jk_num u) (jk_num u) (jk_num u) (jk_num u) 0 0 0 (jk_num u) [] [])) in
    let N := hc_n h in
    let n := hc_net h in
    let* prior := match hc_mode h with
      | Ergodic => let* j := jmember root "prior" in Model_Gaussian.outcome (json2vector true (as_float cv) j (h_prior n) N)
      | LeftRight => Ok (h_prior n)
      end in
    let* j := jmember root "transition" in
    let* tr := Model_Gaussian.outcome (json2vector true (as_float cv) j (h_trans n) (match hc_mode h with Ergodic => N * N | LeftRight => 2 * N end)) in
    let* ex := match root with
      | JObj o => match lookup o "exitProbabilities" with
          | Some j => Model_Gaussian.outcome (json2vector true (as_float cv) j (h_exit n) N)
          | None => Ok (h_exit n)
          end
      | _ => Ok (h_exit n)
      end in
    let* j := jmember root "states" in
    let* states := load_each (gc_fromJson cv) (jitems j) 0 (h_states n) in
    Ok (l, hc_set_net (mkNet states prior tr ex) h).

  (** xmmHmmSingleClass.cpp 38-50: copy constructor. *)
  Definition hc_copy (h : hclass A) : hclass A :=
    let n := hc_net h in
    mkHC (A := A) (hc_bim h) (hc_dim h) (hc_din h) (hc_win h) (hc_par h) (hc_hier h)
      (mkNet (map gc_copy (h_states n)) (h_prior n) (h_trans n) (h_exit n))
      (mkRun (A := A) (repeat n0 (hc_n h)) [] [] [] (jk_flag u) (ring_new n0 1 1) (jk_num u) (jk_num u) (jk_num u) (jk_num u) (jk_num u) 0 0 0 (jk_num u) [] []).

  (** ** Several classes *)

  (** xmmModel.hpp 108-133: the loop of the constructor from JSON: [load] is the constructor of a class.
      A label that exists already is not inserted again. *)
  Fixpoint load_models {X} (cv : conv A) (load : J -> res (string * X)) (l : list J) (ms : list (string * X)) : res (list (string * X)) :=
    match l with
    | [] => Ok ms
    | p :: l =>
        let* j := jmember p "label" in
        let* k := as_string cv j in
        let* (_, x) := load p in
        load_models cv load l (minsert String.eqb String.ltb ms k x)
    end.

  (** xmmModel.hpp 463-480 with the results of xmmGmm.hpp: a GMM with its shared parameters and its
      configuration. *)
  Record gmodel := mkGM { gq_sp : shared A; gq_cf : config (gmmP A); gq_cls : list (string * gclass A); gq_res : results A }.

  (** The estimator of the class-level regression is an enumeration. *)
  Definition est_of (z : Z) : restimator := if (z =? 1)%Z then Mixture else Likeliest.

  (** The model as filtering sees it (xmmGmm.cpp 52-164). *)
  Definition gq_view (m : gmodel) : gmm A :=
    mkGMM (A := A) (sp_bim (gq_sp m)) (sp_dim (gq_sp m)) (sp_din (gq_sp m)) (est_of (cf_est (gq_cf m))) (gp_mode (cf_def (gq_cf m)))
      (gq_cls m) (gq_res m).

  Definition empty_results : results A := mkRes (A := A) [] [] [] [] [] EmptyString [] [].

  (** xmmModel.hpp 432-442: [toJson]. *)
  Definition models_toJson {X} (save : string -> X -> res J) (ms : list (string * X)) : res J :=
    array2json (fun j => j) (fun i => let* e := rd ms i in save (fst e) (snd e)) (length ms).
  Definition gq_toJson (m : gmodel) : res J :=
    let* sp := sp_toJson (gq_sp m) in
    let* ms := models_toJson gc_toJson (gq_cls m) in
    Ok (JObj [("shared_parameters", sp); ("configuration", cf_toJson gmmP_toJson (gq_cf m)); ("models", ms)])%string.

  (** xmmModel.hpp 108-133, xmmGmm.cpp 42: constructor from JSON. *)
  Definition gq_ofJson (cv : conv A) (root : J) : res gmodel :=
    let* j := jmember root "shared_parameters" in
    let* sp := run_load (sp_fromJson cv 0 j (sp_new 0)) in
    let* j := jmember root "configuration" in
    let* cf := run_load (cf_fromJson gmmP_new gmmP_assign (gmmP_ofJson cv) cv j (cf_new gmmP_new)) in
    let* j := jmember root "models" in
    let* ms := load_models cv (gc_ofJson cv (sp_bim sp) (sp_dim sp) (sp_din sp) (sp_win sp)) (jitems j) [] in
    Ok (mkGM sp cf ms empty_results).

  (** xmmModel.hpp 78-98, xmmGmm.cpp 39-40: copy constructor. *)
  Definition gq_copy (m : gmodel) : gmodel :=
    mkGM (sp_copy 0 (gq_sp m)) (gq_cf m) (map (fun e => (fst e, gc_copy (snd e))) (gq_cls m)) (gq_res m).

  (** xmmModel.hpp 139-163: [Model::operator=], which [Model::fromJson] (449-458) calls on a temporary:
      the results of the GMM stay as they are. *)
  Definition gq_fromJson (cv : conv A) (root : J) (m : gmodel) : gmodel * res unit :=
    match gq_ofJson cv root with
    | Ok t => (mkGM (sp_copy 0 (gq_sp t)) (cf_assign gmmP_assign (gq_cf m) (gq_cf t)) (map (fun e => (fst e, gc_copy (snd e))) (gq_cls t)) (gq_res m), Ok tt)
    | Throw e => (m, Throw e)
    | UB => (m, UB)
    end.
  (** xmmGmm.cpp 44-50: [operator=]. *)
  Definition gq_assign (dst src : gmodel) : gmodel :=
    mkGM (sp_copy 0 (gq_sp src)) (cf_assign gmmP_assign (gq_cf dst) (gq_cf src)) (map (fun e => (fst e, gc_copy (snd e))) (gq_cls src)) (gq_res src).

  (** The same for a hierarchical HMM (xmmHierarchicalHmm.hpp 195-310). *)
  Record hmodel := mkHM {
    hq_sp : shared A; hq_cf : config (hmmP A); hq_cls : list (string * hclass A);
    hq_prior : list T; hq_trans : list (list T); hq_exit : list T;
    hq_v1 : list T; hq_v2 : list T; hq_started : bool; hq_res : results A }.

  (** xmmModel.hpp 590-595: the parameters for a label. *)
  Definition cf_params {P} (c : config P) (l : string) : P := match cget c l with Some p => p | None => cf_def c end.

  Definition hq_view (m : hmodel) : hhmm A :=
    mkHH (A := A) (sp_bim (hq_sp m)) (sp_dim (hq_sp m)) (sp_din (hq_sp m)) (sp_win (hq_sp m)) (est_of (cf_est (hq_cf m))) (hp_mode (cf_def (hq_cf m)))
      (hp_hier (cf_def (hq_cf m))) (cf_params (hq_cf m)) (hq_prior m) (hq_trans m) (hq_exit m) (hq_cls m) (hq_v1 m) (hq_v2 m) (hq_started m) (hq_res m).

  (** xmmHierarchicalHmm.cpp 499-517: [toJson]. *)
  Definition hq_toJson (m : hmodel) : res J :=
    let* sp := sp_toJson (hq_sp m) in
    let* ms := models_toJson hc_toJson (hq_cls m) in
    let* pr := vector2json JReal (hq_prior m) in
    let* tr := array2json (fun j => j) (fun i => let* row := rd (hq_trans m) i in vector2json JReal row) (length (hq_cls m)) in
    let* ex := vector2json JReal (hq_exit m) in
    Ok (JObj [("shared_parameters", sp); ("configuration", cf_toJson hmmP_toJson (hq_cf m)); ("models", ms);
      ("prior", pr); ("transition", tr); ("exit_transition", ex)])%string.

  (** xmmHierarchicalHmm.cpp 50-62: constructor from JSON. *)
  Definition hq_ofJson (cv : conv A) (root : J) : res hmodel :=
    let* j := jmember root "shared_parameters" in
    let* sp := run_load (sp_fromJson cv 0 j (sp_new 0)) in
    let* j := jmember root "configuration" in
    let* cf := run_load (cf_fromJson hmmP_new hmmP_assign (hmmP_ofJson cv) cv j (cf_new hmmP_new)) in
    let* j := jmember root "models" in
    let* ms := load_models cv (hc_ofJson cv (sp_bim sp) (sp_dim sp) (sp_din sp) (sp_win sp)) (jitems j) [] in
    let n := length ms in
    let* j := jmember root "prior" in
    let* pr := Model_Gaussian.outcome (json2vector true as_double j (repeat n0 n) n) in
    let* jt := jmember root "transition" in
    let* tr := tabM n (fun i => let* j := jindex jt i JNull in Model_Gaussian.outcome (json2vector true as_double j (repeat n0 n) n)) in
    let* j := jmember root "exit_transition" in
    let* ex := Model_Gaussian.outcome (json2vector true as_double j (repeat n0 n) n) in
    Ok (mkHM sp cf ms pr tr ex [] [] false empty_results).

  (** xmmHierarchicalHmm.cpp 39-48: copy constructor. *)
  Definition hq_copy (m : hmodel) : hmodel :=
    mkHM (sp_copy 0 (hq_sp m)) (hq_cf m) (map (fun e => (fst e, hc_copy (snd e))) (hq_cls m)) (hq_prior m) (hq_trans m) (hq_exit m)
      (hq_v1 m) (hq_v2 m) false (hq_res m).

  (** xmmHierarchicalHmm.cpp 64-76: [operator=]. *)
  Definition hq_assign (dst src : hmodel) : hmodel :=
    mkHM (sp_copy 0 (hq_sp src)) (cf_assign hmmP_assign (hq_cf dst) (hq_cf src)) (map (fun e => (fst e, hc_copy (snd e))) (hq_cls src))
      (hq_prior src) (hq_trans src) (hq_exit src) (hq_v1 src) (hq_v2 src) false (hq_res src).

  (** xmmHierarchicalHmm.cpp 519-527: [fromJson]. *)
  Definition hq_fromJson (cv : conv A) (root : J) (m : hmodel) : hmodel * res unit :=
    match hq_ofJson cv root with
    | Ok t => (hq_assign m t, Ok tt)
    | Throw e => (m, Throw e)
    | UB => (m, UB)
    end.
End Reload.
Arguments junk : clear implicits.
Arguments gmodel : clear implicits.
Arguments hmodel : clear implicits.
