(** Model of src/core/common/xmmJson.hpp and xmmJson.cpp, and of the part of jsoncpp's
    [Json::Value] (dependencies/jsoncpp/src/json_value.cpp) they use.
    The text form (reader and writer) is not modelled. *)
From Coq Require Import String List Bool Arith ZArith QArith.
From Verif Require Import Base Arith.
Import ListNotations.
Local Open Scope nat_scope.

Section Json.
  Context {A : arith}.
  Local Notation T := (num A).

  (** A [Json::Value].  Simplified: signed and unsigned integers are one case; arrays have no
      holes; an object is the list of its members. *)
  Inductive json :=
  | JNull
  | JBool (b : bool)
  | JInt (z : Z)
  | JReal (x : T)
  | JStr (s : string)
  | JArr (l : list json)
  | JObj (o : list (string * json)).

  (** Conversions of the platform that the model leaves open: rounding of a double to a float,
      truncation of a real to an [int] (None: out of range), and the text of a number. *)
  Record conv := mkConv {
    c_float : T -> T;
    c_trunc : T -> option Z;
    c_text : json -> string
  }.
  Variable cv : conv.

  Fixpoint lookup {X} (o : list (string * X)) (key : string) : option X :=
    match o with
    | [] => None
    | (k, v) :: o => if String.eqb k key then Some v else lookup o key
    end.

  (** json_value.cpp 1016-1032: [operator\[\](key) const]: null for a missing member; an error
      unless the value is an object or null. *)
  Definition jmember (j : json) (key : string) : res json :=
    match j with
    | JObj o => Ok (match lookup o key with Some v => v | None => JNull end)
    | JNull => Ok JNull
    | _ => Throw JsonCppError
    end.

  (** json_value.cpp 1066-1074: [get(key, default)]. *)
  Definition jget (j : json) (key : string) (d : json) : res json :=
    match j with
    | JObj o => Ok (match lookup o key with Some v => v | None => d end)
    | JNull => Ok d
    | _ => Throw JsonCppError
    end.

  (** json_value.cpp 851-874: [size()]. *)
  Definition jsize (j : json) : nat :=
    match j with JArr l => length l | JObj o => length o | _ => 0 end.

  (** json_value.cpp 1009-1012: [get(index, default)]. *)
  Definition jindex (j : json) (i : nat) (d : json) : res json :=
    match j with
    | JArr l => Ok (match nth_error l i with Some v => v | None => d end)
    | JNull => Ok d
    | _ => Throw JsonCppError
    end.

  (** json_value.cpp 649-672: [asInt()]. *)
  Definition as_int (j : json) : res Z :=
    match j with
    | JInt z => if (- 2 ^ 31 <=? z)%Z && (z <? 2 ^ 31)%Z then Ok z else Throw JsonCppError
    | JReal x => match c_trunc cv x with Some z => Ok z | None => Throw JsonCppError end
    | JNull => Ok 0%Z
    | JBool b => Ok (if b then 1 else 0)%Z
    | _ => Throw JsonCppError
    end.

  (** json_value.cpp 754-774: [asDouble()]. *)
  Definition as_double (j : json) : res T :=
    match j with
    | JInt z => Ok (nZ z)
    | JReal x => Ok x
    | JNull => Ok n0
    | JBool b => Ok (if b then n1 else n0)
    | _ => Throw JsonCppError
    end.

  (** json_value.cpp 776-796: [asFloat()]. *)
  Definition as_float (j : json) : res T :=
    match j with
    | JInt z => Ok (c_float cv (nZ z))
    | JReal x => Ok (c_float cv x)
    | JNull => Ok n0
    | JBool b => Ok (if b then n1 else n0)
    | _ => Throw JsonCppError
    end.

  (** json_value.cpp 798-815: [asBool()]. *)
  Definition as_bool (j : json) : res bool :=
    match j with
    | JBool b => Ok b
    | JNull => Ok false
    | JInt z => Ok (negb (z =? 0)%Z)
    | JReal x => Ok (negb (neqb x n0))
    | _ => Throw JsonCppError
    end.

  (** json_value.cpp 614-636: [asString()]. *)
  Definition as_string (j : json) : res string :=
    match j with
    | JNull => Ok EmptyString
    | JStr s => Ok s
    | JBool b => Ok (if b then "true" else "false")%string
    | JInt _ | JReal _ => Ok (c_text cv j)
    | _ => Throw JsonCppError
    end.

  (** json_value.cpp 899-915: [resize(n)] on a null value, then [root\[i\] = a\[i\]]:
      [array2json] (xmmJson.hpp 237-244) and [vector2json] (xmmJson.hpp 281-288).  [rd_a i] is
      the read of [a\[i\]] and [inj] the [Json::Value] constructor of the element type. *)
  Definition array2json {X} (inj : X -> json) (rd_a : nat -> res X) (n : nat) : res json :=
    let* l := iterM n (fun i root => let* x := rd_a i in wr root i (inj x)) (repeat JNull n) in
    Ok (JArr l).
  Definition vector2json {X} (inj : X -> json) (a : list X) : res json :=
    array2json inj (rd a) (length a).

  (** The loop [for (auto it : root) a\[i++\] = it.asX()] of xmmJson.hpp 260-263: the memory as it
      is left, and the outcome. *)
  Fixpoint fill_from {X} (asX : json -> res X) (l : list json) (i : nat) (a : list X)
    : list X * res unit :=
    match l with
    | [] => (a, Ok tt)
    | j :: l =>
        match asX j with
        | Ok x => match wr a i x with
                  | Ok a => fill_from asX l (S i) a
                  | Throw e => (a, Throw e)
                  | UB => (a, UB)
                  end
        | Throw e => (a, Throw e)
        | UB => (a, UB)
        end
    end.

  (** xmmJson.hpp 254-264, xmmJson.cpp 35-81: [json2array]. *)
  Definition json2array {X} (asX : json -> res X) (root : json) (a : list X) (n : nat)
    : list X * res unit :=
    match root with
    | JArr l => if length l =? n then fill_from asX l 0 a else (a, Throw JsonValueError)
    | _ => (a, Throw JsonTypeError)
    end.

  (** xmmJson.hpp 299-310 (generic) and xmmJson.cpp 83-137 ([early]: the specialisations for
      float, double, bool and string return at once when [n] is 0). *)
  Definition json2vector {X} (early : bool) (asX : json -> res X) (root : json) (a : list X) (n : nat)
    : list X * res unit :=
    if early && (n =? 0) then (a, Ok tt) else json2array asX root a n.
End Json.
Arguments json : clear implicits.
Arguments conv : clear implicits.
