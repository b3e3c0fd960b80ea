(** Model of src/core/model/xmmModelSharedParameters.hpp and .cpp. *)
From Coq Require Import String List Bool Arith ZArith QArith.
From Verif Require Import Base Arith Model_Json Model_Phrase Model_Gaussian.
Import ListNotations.
Local Open Scope nat_scope.
Local Open Scope list_scope.

Section Shared.
  Context {A : arith}.
  Local Notation T := (num A).
  Local Notation J := (json A).

  (** xmmModelSharedParameters.hpp 121-178: members, with the limits that the code changes:
      [sp_dim_min] is the lower limit of [dimension], [sp_din_min] and [sp_din_max] the limits of
      [dimension_input], [sp_nsize] the fixed size of [column_names] (0: any size).  The lower limits of the
      other attributes are constant: 1 for [em_algorithm_min_iterations] and [likelihood_window],
      0 for [em_algorithm_percent_chg].  [sp_owner] is the object bound in the callbacks of all the
      attributes, which are always registered or copied together. *)
  Record shared := mkShared {
    sp_bim : bool;
    sp_dim : nat;
    sp_dim_min : nat;
    sp_din : nat;
    sp_din_min : nat;
    sp_din_max : nat;
    sp_names : list string;
    sp_nsize : nat;
    sp_minit : nat;
    sp_maxit : nat;
    sp_pct : T;
    sp_win : nat;
    sp_owner : option nat
  }.

  Definition sp_set_bim (b : bool) (s : shared) : shared :=
    mkShared b (sp_dim s) (sp_dim_min s) (sp_din s) (sp_din_min s) (sp_din_max s) (sp_names s) (sp_nsize s)
      (sp_minit s) (sp_maxit s) (sp_pct s) (sp_win s) (sp_owner s).
  Definition sp_set_dim (n lo : nat) (s : shared) : shared :=
    mkShared (sp_bim s) n lo (sp_din s) (sp_din_min s) (sp_din_max s) (sp_names s) (sp_nsize s)
      (sp_minit s) (sp_maxit s) (sp_pct s) (sp_win s) (sp_owner s).
  Definition sp_set_din (n lo hi : nat) (s : shared) : shared :=
    mkShared (sp_bim s) (sp_dim s) (sp_dim_min s) n lo hi (sp_names s) (sp_nsize s)
      (sp_minit s) (sp_maxit s) (sp_pct s) (sp_win s) (sp_owner s).
  Definition sp_set_names (l : list string) (n : nat) (s : shared) : shared :=
    mkShared (sp_bim s) (sp_dim s) (sp_dim_min s) (sp_din s) (sp_din_min s) (sp_din_max s) l n
      (sp_minit s) (sp_maxit s) (sp_pct s) (sp_win s) (sp_owner s).
  Definition sp_set_em (mi ma : nat) (p : T) (w : nat) (s : shared) : shared :=
    mkShared (sp_bim s) (sp_dim s) (sp_dim_min s) (sp_din s) (sp_din_min s) (sp_din_max s) (sp_names s) (sp_nsize s)
      mi ma p w (sp_owner s).
  Definition sp_set_owner (o : option nat) (s : shared) : shared :=
    mkShared (sp_bim s) (sp_dim s) (sp_dim_min s) (sp_din s) (sp_din_min s) (sp_din_max s) (sp_names s) (sp_nsize s)
      (sp_minit s) (sp_maxit s) (sp_pct s) (sp_win s) o.

  (** xmmModelSharedParameters.cpp 34-59: constructor. *)
  Definition sp_new (id : nat) : shared :=
    mkShared false 1 1 0 0 0 [] 0 10 0 (nofQ (1 # 100)) 1 (Some id).

  (** The public attribute assignments. *)
  Inductive sset :=
  | SBim (b : bool)
  | SDim (n : nat)
  | SDin (n : nat)
  | SNames (l : list string)
  | SMinIt (n : nat)
  | SMaxIt (n : nat)
  | SPct (x : T)
  | SWin (n : nat).

  (** xmmAttribute.hpp 192-194 (and 337-345): limit check and assignment of the value. *)
  Definition sp_assign_value (o : sset) (s : shared) : res shared :=
    match o with
    | SBim b => Ok (sp_set_bim b s)
    | SDim n => if n <? sp_dim_min s then Throw DomainError else Ok (sp_set_dim n (sp_dim_min s) s)
    | SDin n => if (n <? sp_din_min s) || (sp_din_max s <? n) then Throw DomainError
                else Ok (sp_set_din n (sp_din_min s) (sp_din_max s) s)
    | SNames l => if (0 <? sp_nsize s) && negb (length l =? sp_nsize s) then Throw DomainError
                  else Ok (sp_set_names l (sp_nsize s) s)
    | SMinIt n => if n <? 1 then Throw DomainError else Ok (sp_set_em n (sp_maxit s) (sp_pct s) (sp_win s) s)
    | SMaxIt n => Ok (sp_set_em (sp_minit s) n (sp_pct s) (sp_win s) s)
    | SPct x => if nltb x n0 then Throw DomainError else Ok (sp_set_em (sp_minit s) (sp_maxit s) x (sp_win s) s)
    | SWin n => if n <? 1 then Throw DomainError else Ok (sp_set_em (sp_minit s) (sp_maxit s) (sp_pct s) n s)
    end.

  Definition sp_assignS (o : sset) : stm shared unit := fun s =>
    match sp_assign_value o s with
    | Ok s => (s, Ok tt)
    | Throw e => (s, Throw e)
    | UB => (s, UB)
    end.

  (** xmmModelSharedParameters.cpp 156-161: [onAttributeChange(&dimension)]. *)
  Definition sp_on_dim : stm shared unit :=
    do* s := sget in
    do* hi := slift (usub (sp_dim s) 1) in
    do* _ := smod (sp_set_din (sp_din s) (sp_din_min s) hi) in
    smod (fun s => sp_set_names (vresize (sp_dim s) ""%string (sp_names s)) (sp_dim s) s).

  (** [dimension.set(n)] and [dimension_input.set(n)] from inside the listener, whose object is
      their listener as well. *)
  Definition sp_own_dim (n : nat) : stm shared unit :=
    do* _ := sp_assignS (SDim n) in sp_on_dim.
  Definition sp_own_din (n : nat) : stm shared unit := sp_assignS (SDin n).

  (** xmmModelSharedParameters.cpp 144-162: [onAttributeChange(&bimodal)]. *)
  Definition sp_on_bim : stm shared unit :=
    do* s := sget in
    if sp_bim s then
      do* _ := smod (sp_set_dim (sp_dim s) 2) in
      do* _ := swhen (sp_dim s <? 2) (sp_own_dim 2) in
      do* _ := smod (fun s => sp_set_din (sp_din s) 1 (sp_din_max s) s) in
      do* s := sget in
      swhen (sp_din s <? 1) (sp_own_din 1)
    else
      do* _ := smod (sp_set_dim (sp_dim s) 1) in
      do* _ := swhen (sp_dim s <? 1) (sp_own_dim 1) in
      do* _ := smod (fun s => sp_set_din (sp_din s) (sp_din_min s) 0 s) in
      sp_own_din 0.

  (** xmmModelSharedParameters.cpp 144-162: what the listener does with each attribute; the other
      attributes only have their [changed] flag cleared. *)
  Definition sp_react (o : sset) : stm shared unit :=
    match o with
    | SBim _ => sp_on_bim
    | SDim _ => sp_on_dim
    | _ => sret tt
    end.

  (** [set] on an object whose listener is itself. *)
  Definition sp_set (o : sset) : stm shared unit :=
    do* _ := sp_assignS o in sp_react o.

  (** A history of assignments; exceptions are caught by the caller, who goes on. *)
  Fixpoint sp_run (ops : list sset) (s : shared) : shared :=
    match ops with
    | [] => s
    | o :: ops => sp_run ops (fst (sp_set o s))
    end.

  (** xmmModelSharedParameters.cpp 61-85: copy constructor. *)
  Definition sp_copy (id : nat) (src : shared) : shared := sp_set_owner (Some id) src.

  (** xmmModelSharedParameters.cpp 106-119: [operator=]; the attributes are copied with their
      callbacks (see Model_Attribute). *)
  Definition sp_assign (dst src : shared) : shared := src.

  (** xmmModelSharedParameters.cpp 121-133: [toJson()].  [column_names.at(i)] is bounded by the
      fixed size, the loop by the number of values; without names there is no member
      "column_names". *)
  Definition sp_toJson (s : shared) : res J :=
    let* names := tabM (length (sp_names s)) (fun i =>
      if i <? sp_nsize s then rd (sp_names s) i else Throw OutOfRange) in
    Ok (JObj
      ([("bimodal"%string, JBool (sp_bim s));
        ("dimension"%string, JInt (Z.of_nat (sp_dim s)));
        ("dimension_input"%string, JInt (Z.of_nat (sp_din s)))] ++
       (match names with [] => [] | _ => [("column_names"%string, JArr (map JStr names))] end) ++
       [("em_algorithm_min_iterations"%string, JInt (Z.of_nat (sp_minit s)));
        ("em_algorithm_max_iterations"%string, JInt (Z.of_nat (sp_maxit s)));
        ("em_algorithm_percent_chg"%string, JReal (sp_pct s));
        ("likelihood_window"%string, JInt (Z.of_nat (sp_win s)))])).

  (** An integer member. *)
  Definition jsize_of (cv : conv A) (root : J) (key : string) (d : Z) : res nat :=
    let* j := jget root key (JInt d) in
    let* z := as_int cv j in
    as_size z.

  (** xmmModelSharedParameters.cpp 87-104: constructor from JSON, of the object [id]. *)
  Definition sp_ofJsonS (cv : conv A) (root : J) : stm shared unit :=
    do* b := slift (let* j := jget root "bimodal" (JBool false) in as_bool j) in
    do* _ := sp_set (SBim b) in
    do* n := slift (jsize_of cv root "dimension" (if b then 2 else 1)%Z) in
    do* _ := sp_set (SDim n) in
    do* n := slift (jsize_of cv root "dimension_input" (if b then 1 else 0)%Z) in
    do* _ := sp_set (SDin n) in
    do* n := slift (jsize_of cv root "em_algorithm_min_iterations" 10) in
    do* _ := sp_set (SMinIt n) in
    do* n := slift (jsize_of cv root "em_algorithm_max_iterations" 0) in
    do* _ := sp_set (SMaxIt n) in
    do* x := slift (let* j := jget root "em_algorithm_percent_chg" (JReal (nofQ (1 # 100))) in as_float cv j) in
    do* _ := sp_set (SPct x) in
    do* n := slift (jsize_of cv root "likelihood_window" 1) in
    do* _ := sp_set (SWin n) in
    do* s := sget in
    do* names := slift (let* j := jmember root "column_names" in
                        tabM (sp_dim s) (fun i => let* x := jindex j i (JStr "") in as_string cv x)) in
    sp_set (SNames names).

  (** xmmModelSharedParameters.cpp 135-142: [fromJson(root)]: a temporary object, with identity
      [tmp], is assigned to this one and destroyed. *)
  Definition sp_fromJson (cv : conv A) (tmp : nat) (root : J) (s : shared) : shared * res unit :=
    match sp_ofJsonS cv root (sp_new tmp) with
    | (t, Ok _) => (sp_assign s t, Ok tt)
    | (_, Throw e) => (s, Throw e)
    | (_, UB) => (s, UB)
    end.

  (** ** Several objects, identified by their position; [None] is a destroyed one. *)
  Definition sworld := list (option shared).

  Inductive sop :=
  | SSet (k : nat) (o : sset)
  | SAssign (k src : nat)
  | SCopy (src : nat)
  | SFromJson (k : nat) (root : J)
  | SDestroy (k : nat).

  (** [set] on object [k]: the bound listener reacts only to its own attributes; a destroyed one is
      undefined behaviour (xmmAttribute.hpp 192-197, xmmModelSharedParameters.cpp 144-162). *)
  Definition sp_world_set (w : sworld) (k : nat) (o : sset) (s : shared) : sworld * res unit :=
    match sp_assign_value o s with
    | Throw e => (w, Throw e)
    | UB => (w, UB)
    | Ok s =>
        match sp_owner s with
        | None => (upd w k (Some s), Ok tt)
        | Some l =>
            if l =? k then let '(s, r) := sp_react o s in (upd w k (Some s), r)
            else match nth_error w l with
                 | Some (Some _) => (upd w k (Some s), Ok tt)
                 | _ => (upd w k (Some s), UB)
                 end
        end
    end.

  Definition sp_step (cv : conv A) (o : sop) (w : sworld) : sworld * res unit :=
    let on k (f : shared -> sworld * res unit) :=
      match nth_error w k with Some (Some s) => f s | _ => (w, UB) end in
    match o with
    | SSet k o => on k (sp_world_set w k o)
    | SAssign k t => on k (fun s => on t (fun t' =>
        (upd w k (Some (if k =? t then s else sp_assign s t')), Ok tt)))
    | SCopy t => on t (fun t' => (w ++ [Some (sp_copy (length w) t')], Ok tt))
    | SFromJson k root => on k (fun s =>
        let '(s, r) := sp_fromJson cv (length w) root s in (upd w k (Some s) ++ [None], r))
    | SDestroy k => on k (fun _ => (upd w k None, Ok tt))
    end.
End Shared.
Arguments shared : clear implicits.
Arguments sset : clear implicits.
Arguments sworld : clear implicits.
Arguments sop : clear implicits.
