(** Model of src/core/model/xmmModelConfiguration.hpp, src/models/gmm/xmmGmmParameters.cpp and
    src/models/hmm/xmmHmmParameters.cpp. *)
From Coq Require Import String List Bool Arith ZArith QArith.
From Verif Require Import Base Arith Model_Json Model_Map Model_Gaussian.
Import ListNotations.
Local Open Scope nat_scope.
Local Open Scope list_scope.

(** ** Configurations, for any type of class parameters *)
Section Config.
  Context {A : arith}.
  Local Notation J := (json A).
  Context {P E : Type}.
  (** Default constructor, [operator=] (target, source), one attribute assignment (exceptions
      caught), [toJson] and the constructor from JSON of the class parameters. *)
  Variables (pdef : P) (passign : P -> P -> P) (pedit : E -> P -> P) (ptoJson : P -> J) (pofJson : J -> res P).

  (** xmmModelConfiguration.hpp 210-226: the inherited default parameters and the members; the two
      enumerations are kept as integers. *)
  Record config := mkConfig {
    cf_def : P;
    cf_mt : Z;
    cf_est : Z;
    cf_class : list (string * P)
  }.

  (** 96-98: constructor: [Parallel] and [Likeliest]. *)
  Definition cf_new : config := mkConfig pdef 1 0 [].

  Definition cget (c : config) (l : string) : option P := mget String.eqb (cf_class c) l.
  Definition cput (c : config) (l : string) (p : P) : config :=
    mkConfig (cf_def c) (cf_mt c) (cf_est c) (mput String.eqb String.ltb (cf_class c) l p).

  (** 152-157: [operator\[\](label)]: the configuration with an entry for [label]. *)
  Definition cf_at (l : string) (c : config) : config :=
    match cget c l with
    | Some _ => c
    | None => cput c l (passign pdef (cf_def c))
    end.

  (** An attribute of [configuration\[label\]] is assigned. *)
  Definition cf_edit_class (l : string) (e : E) (c : config) : config :=
    let c := cf_at l c in
    match cget c l with
    | Some p => cput c l (pedit e p)
    | None => c
    end.

  (** An attribute of the configuration itself is assigned. *)
  Definition cf_edit_default (e : E) (c : config) : config :=
    mkConfig (pedit e (cf_def c)) (cf_mt c) (cf_est c) (cf_class c).

  (** 165-167: [includes(label)]. *)
  Definition cf_includes (l : string) (c : config) : bool :=
    match cget c l with Some _ => true | None => false end.

  (** 172, 178-182: [reset()] and [reset(label)]. *)
  Definition cf_reset (c : config) : config := mkConfig (cf_def c) (cf_mt c) (cf_est c) [].
  Definition cf_reset_label (l : string) (c : config) : config :=
    mkConfig (cf_def c) (cf_mt c) (cf_est c) (mdel String.eqb (cf_class c) l).

  (** 134-143: [operator=].  The assignment of the map copies its entries (as libstdc++ does). *)
  Definition cf_assign (dst src : config) : config :=
    mkConfig (passign (cf_def dst) (cf_def src)) (cf_mt src) (cf_est src) (cf_class src).

  (** 188-198: [toJson()]. *)
  Definition cf_toJson (c : config) : J :=
    JObj ([("multithreading"%string, JInt (cf_mt c));
           ("multiClass_regression_estimator"%string, JInt (cf_est c));
           ("default_parameters"%string, ptoJson (cf_def c))] ++
          match cf_class c with
          | [] => []
          | _ => [("class_parameters"%string, JObj (map (fun e => (fst e, ptoJson (snd e))) (cf_class c)))]
          end).

  (** 123-127: the loop over the class parameters. *)
  Fixpoint cf_members (o : list (string * J)) (m : list (string * P)) : res (list (string * P)) :=
    match o with
    | [] => Ok m
    | (l, j) :: o =>
        let* p := pofJson j in
        let q := match mget String.eqb m l with Some q => q | None => pdef end in
        cf_members o (mput String.eqb String.ltb m l (passign q p))
    end.

  (** 114-128: constructor from JSON. *)
  Definition cf_ofJson (cv : conv A) (root : J) : res config :=
    let* j := jmember root "default_parameters" in
    let* p := pofJson j in
    let* j := jget root "multithreading" (JInt 0) in
    let* mt := as_int cv j in
    let* j := jget root "multiClass_regression_estimator" (JInt 0) in
    let* est := as_int cv j in
    let* j := jmember root "class_parameters" in
    let* members := match j with JObj o => Ok o | JNull => Ok [] | _ => Throw JsonCppError end in
    let* m := cf_members members [] in
    Ok (mkConfig (passign pdef p) mt est m).

  (** 205-212: [fromJson(root)]. *)
  Definition cf_fromJson (cv : conv A) (root : J) (c : config) : config * res unit :=
    match cf_ofJson cv root with
    | Ok t => (cf_assign c t, Ok tt)
    | Throw e => (c, Throw e)
    | UB => (c, UB)
    end.

  (** xmmModel.hpp 590-595 ([addModelForClass]): the parameters given to the class [label], whose
      own were [old]. *)
  Definition cf_used (l : string) (c : config) (old : P) : P :=
    passign old (match cget c l with Some p => p | None => cf_def c end).

  (** The edits of a configuration. *)
  Inductive cfop :=
  | CDefault (e : E)
  | CClass (l : string) (e : E)
  | CTouch (l : string)
  | CReset
  | CResetLabel (l : string).

  Definition cf_step (o : cfop) : config -> config :=
    match o with
    | CDefault e => cf_edit_default e
    | CClass l e => cf_edit_class l e
    | CTouch l => cf_at l
    | CReset => cf_reset
    | CResetLabel l => cf_reset_label l
    end.
  Definition cf_run (ops : list cfop) (c : config) : config := fold_left (fun c o => cf_step o c) ops c.
End Config.
Arguments config : clear implicits.
Arguments cfop : clear implicits.

(** ** Class parameters *)
Section Params.
  Context {A : arith}.
  Local Notation T := (num A).
  Local Notation J := (json A).
  Variable cv : conv A.

  (** The lower limit of the regularizations, 1e-20. *)
  Definition reg_min : T := nofQ (1 # 100000000000000000000).

  Definition mode_int (m : cmode) : Z := match m with Full => 0 | Diagonal => 1 end.
  (** [static_cast] of an [asInt] member followed by [set]. *)
  Definition int_mode (z : Z) : res cmode :=
    if (z =? 0)%Z then Ok Full else if (z =? 1)%Z then Ok Diagonal else Throw DomainError.
  Definition jmember_int (root : J) (key : string) : res Z := let* j := jmember root key in as_int cv j.
  Definition jmember_float (root : J) (key : string) : res T := let* j := jmember root key in as_float cv j.
  (** [a.set(root\[key\].asInt())] for an unsigned attribute with lower limit 1. *)
  Definition jmember_pos (root : J) (key : string) : res nat :=
    let* z := jmember_int root key in
    let* n := as_size z in
    if n <? 1 then Throw DomainError else Ok n.
  Definition jmember_reg (root : J) (key : string) : res T :=
    let* x := jmember_float root key in
    if nltb x reg_min then Throw DomainError else Ok x.

  (** xmmGmmParameters.hpp 96-120: attributes. *)
  Record gmmP := mkGmmP { gp_gauss : nat; gp_rel : T; gp_abs : T; gp_mode : cmode }.
  (** xmmGmmParameters.cpp 35-40. *)
  Definition gmmP_new : gmmP := mkGmmP 10 (nofQ (1 # 100)) (nofQ (1 # 1000)) Full.
  (** xmmGmmParameters.cpp 89-108: [operator=]; every attribute is copied (the listeners too, but
      they are registered again). *)
  Definition gmmP_assign (dst src : gmmP) : gmmP :=
    mkGmmP (gp_gauss src) (gp_rel src) (gp_abs src) (gp_mode src).
  (** Attribute assignments. *)
  Inductive gmmE := EGauss (n : nat) | ERel (x : T) | EAbs (x : T) | EMode (m : cmode).
  Definition gmmP_edit (e : gmmE) (p : gmmP) : gmmP :=
    match e with
    | EGauss n => if n <? 1 then p else mkGmmP n (gp_rel p) (gp_abs p) (gp_mode p)
    | ERel x => if nltb x reg_min then p else mkGmmP (gp_gauss p) x (gp_abs p) (gp_mode p)
    | EAbs x => if nltb x reg_min then p else mkGmmP (gp_gauss p) (gp_rel p) x (gp_mode p)
    | EMode m => mkGmmP (gp_gauss p) (gp_rel p) (gp_abs p) m
    end.
  (** xmmGmmParameters.cpp 110-117. *)
  Definition gmmP_toJson (p : gmmP) : J :=
    JObj [("gaussians", JInt (Z.of_nat (gp_gauss p)));
          ("relative_regularization", JReal (gp_rel p));
          ("absolute_regularization", JReal (gp_abs p));
          ("covariance_mode", JInt (mode_int (gp_mode p)))]%string.
  (** xmmGmmParameters.cpp 66-87. *)
  Definition gmmP_ofJson (root : J) : res gmmP :=
    let* n := jmember_pos root "gaussians" in
    let* x := jmember_reg root "relative_regularization" in
    let* y := jmember_reg root "absolute_regularization" in
    let* z := jmember_int root "covariance_mode" in
    let* m := int_mode z in
    Ok (mkGmmP n x y m).

  (** xmmHmmParameters.hpp 48-88: enumerations. *)
  Inductive tmode := Ergodic | LeftRight.
  Inductive restim := RFull | RWindowed | RLikeliest.
  Definition tmode_int (m : tmode) : Z := match m with Ergodic => 0 | LeftRight => 1 end.
  Definition int_tmode (z : Z) : res tmode :=
    if (z =? 0)%Z then Ok Ergodic else if (z =? 1)%Z then Ok LeftRight else Throw DomainError.
  Definition restim_int (m : restim) : Z := match m with RFull => 0 | RWindowed => 1 | RLikeliest => 2 end.
  Definition int_restim (z : Z) : res restim :=
    if (z =? 0)%Z then Ok RFull else if (z =? 1)%Z then Ok RWindowed
    else if (z =? 2)%Z then Ok RLikeliest else Throw DomainError.

  (** xmmHmmParameters.hpp 134-180: attributes. *)
  Record hmmP := mkHmmP {
    hp_states : nat; hp_gauss : nat; hp_rel : T; hp_abs : T; hp_mode : cmode;
    hp_trans : tmode; hp_est : restim; hp_hier : bool }.
  (** xmmHmmParameters.cpp 35-44. *)
  Definition hmmP_new : hmmP := mkHmmP 10 1 (nofQ (1 # 100)) (nofQ (1 # 1000)) Full LeftRight RFull true.
  (** xmmHmmParameters.cpp 105-135: [operator=]; [hierarchical] is not copied. *)
  Definition hmmP_assign (dst src : hmmP) : hmmP :=
    mkHmmP (hp_states src) (hp_gauss src) (hp_rel src) (hp_abs src) (hp_mode src) (hp_trans src) (hp_est src)
      (hp_hier dst).
  Inductive hmmE :=
  | HStates (n : nat) | HGauss (n : nat) | HRel (x : T) | HAbs (x : T) | HMode (m : cmode)
  | HTrans (m : tmode) | HEst (m : restim) | HHier (b : bool).
  Definition hmmP_edit (e : hmmE) (p : hmmP) : hmmP :=
    let '(mkHmmP s g r a m t s' h) := p in
    match e with
    | HStates n => if n <? 1 then p else mkHmmP n g r a m t s' h
    | HGauss n => if n <? 1 then p else mkHmmP s n r a m t s' h
    | HRel x => if nltb x reg_min then p else mkHmmP s g x a m t s' h
    | HAbs x => if nltb x reg_min then p else mkHmmP s g r x m t s' h
    | HMode x => mkHmmP s g r a x t s' h
    | HTrans x => mkHmmP s g r a m x s' h
    | HEst x => mkHmmP s g r a m t x h
    | HHier x => mkHmmP s g r a m t s' x
    end.
  (** xmmHmmParameters.cpp 137-148. *)
  Definition hmmP_toJson (p : hmmP) : J :=
    JObj [("states", JInt (Z.of_nat (hp_states p)));
          ("gaussians", JInt (Z.of_nat (hp_gauss p)));
          ("relative_regularization", JReal (hp_rel p));
          ("absolute_regularization", JReal (hp_abs p));
          ("covariance_mode", JInt (mode_int (hp_mode p)));
          ("transition_mode", JInt (tmode_int (hp_trans p)));
          ("regression_estimator", JInt (restim_int (hp_est p)));
          ("hierarchical", JBool (hp_hier p))]%string.
  (** xmmHmmParameters.cpp 90-103. *)
  Definition hmmP_ofJson (root : J) : res hmmP :=
    let* s := jmember_pos root "states" in
    let* n := jmember_pos root "gaussians" in
    let* x := jmember_reg root "relative_regularization" in
    let* y := jmember_reg root "absolute_regularization" in
    let* z := jmember_int root "covariance_mode" in
    let* m := int_mode z in
    let* z := jmember_int root "transition_mode" in
    let* t := int_tmode z in
    let* z := jmember_int root "regression_estimator" in
    let* e := int_restim z in
    let* j := jmember root "hierarchical" in
    let* b := as_bool j in
    Ok (mkHmmP s n x y m t e b).
  (** xmmHmmParameters.cpp 150-157. *)
  Definition hmmP_fromJson (root : J) (p : hmmP) : hmmP * res unit :=
    match hmmP_ofJson root with
    | Ok t => (hmmP_assign p t, Ok tt)
    | Throw e => (p, Throw e)
    | UB => (p, UB)
    end.
End Params.
Arguments gmmP : clear implicits.
Arguments gmmE : clear implicits.
Arguments hmmP : clear implicits.
Arguments hmmE : clear implicits.
