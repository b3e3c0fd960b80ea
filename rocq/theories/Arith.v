(** The arithmetic used by the numeric code, as a record of operations.

    The C++ code computes with [float] and [double].  The model is written once over
    this record and instantiated with
    - [RA]: the real numbers (exact arithmetic), used for universal theorems;
    - [FA]: IEEE-754 binary64, in plain Gallina ([SpecFloat]), used for witnesses and for the theorems about
      rounding.
    Mixed single/double precision is only modelled in [Model_Single]. *)
From Coq Require Import ZArith QArith Reals Qreals Bool.
From Coq Require Import Floats.SpecFloat.
From Verif Require Import Base.

Record arith := mkArith {
  num : Type;
  nadd : num -> num -> num;
  nsub : num -> num -> num;
  nmul : num -> num -> num;
  ndiv : num -> num -> num;
  nopp : num -> num;
  nabs : num -> num;
  nsqrt : num -> num;
  nexp : num -> num;
  nln : num -> num;
  nltb : num -> num -> bool;
  nleb : num -> num -> bool;
  neqb : num -> num -> bool;
  nisnan : num -> bool;
  nisinf : num -> bool;
  nofQ : Q -> num;
  npi : num (* M_PI *)
}.

Arguments nadd {_} _ _. Arguments nsub {_} _ _. Arguments nmul {_} _ _. Arguments ndiv {_} _ _.
Arguments nopp {_} _. Arguments nabs {_} _. Arguments nsqrt {_} _. Arguments nexp {_} _.
Arguments nln {_} _. Arguments nltb {_} _ _. Arguments nleb {_} _ _. Arguments neqb {_} _ _.
Arguments nisnan {_} _. Arguments nisinf {_} _. Arguments nofQ {_} _. Arguments npi {_}.

Declare Scope num_scope.
Delimit Scope num_scope with num.
Infix "+" := nadd : num_scope.
Infix "-" := nsub : num_scope.
Infix "*" := nmul : num_scope.
Infix "/" := ndiv : num_scope.
Infix "<?" := nltb : num_scope.
Infix "<=?" := nleb : num_scope.

(** Integer literals and conversions from integers. *)
Definition nZ {A : arith} (z : Z) : num A := nofQ (inject_Z z).
Definition nN {A : arith} (n : nat) : num A := nZ (Z.of_nat n).
Definition n0 {A : arith} : num A := nZ 0.
Definition n1 {A : arith} : num A := nZ 1.

(** [std::max(a,b)] returns [a] unless [a < b]. *)
Definition nmax {A : arith} (a b : num A) : num A := if nltb a b then b else a.
(** [std::min(a,b)] returns [a] unless [b < a]. *)
Definition nmin {A : arith} (a b : num A) : num A := if nltb b a then b else a.

(** [acc = 0; for (i = 0; i < n; i++) acc += f(i)]. *)
Fixpoint nsum {A : arith} (n : nat) (f : nat -> num A) : num A :=
  match n with
  | O => n0
  | S n => (nsum n f + f n)%num
  end.

(** Same with a checked summand. *)
Fixpoint sumM {A : arith} (n : nat) (f : nat -> res (num A)) : res (num A) :=
  match n with
  | O => Ok n0
  | S n => let* s := sumM n f in let* x := f n in Ok (s + x)%num
  end.

(** ** Exact real arithmetic *)
Definition RA : arith := {|
  num := R;
  nadd := Rplus; nsub := Rminus; nmul := Rmult; ndiv := Rdiv;
  nopp := Ropp; nabs := Rabs; nsqrt := sqrt; nexp := exp; nln := ln;
  nltb := fun x y => if Rlt_dec x y then true else false;
  nleb := fun x y => if Rle_dec x y then true else false;
  neqb := fun x y => if Req_EM_T x y then true else false;
  nisnan := fun _ => false;
  nisinf := fun _ => false;
  nofQ := Q2R;
  npi := PI
|}.

(** ** IEEE binary64.  [exp] and [log] are parameters: no theorem fixes them. *)
Definition f64 := spec_float.
Definition fprec : Z := 53.
Definition femax : Z := 1024.

(** Correctly rounded quotient of two integers (used for literals). *)
Definition f64_ofQ (q : Q) : f64 :=
  match Qnum q with
  | Z0 => S754_zero false
  | Zpos p => SFdiv fprec femax (S754_finite false p 0) (S754_finite false (Qden q) 0)
  | Zneg p => SFdiv fprec femax (S754_finite true p 0) (S754_finite false (Qden q) 0)
  end.

Definition f64_isnan (x : f64) : bool := match x with S754_nan => true | _ => false end.
Definition f64_isinf (x : f64) : bool := match x with S754_infinity _ => true | _ => false end.

Definition FA (fexp fln : f64 -> f64) : arith := {|
  num := f64;
  nadd := SFadd fprec femax; nsub := SFsub fprec femax;
  nmul := SFmul fprec femax; ndiv := SFdiv fprec femax;
  nopp := SFopp; nabs := SFabs; nsqrt := SFsqrt fprec femax;
  nexp := fexp; nln := fln;
  nltb := SFltb; nleb := SFleb; neqb := SFeqb;
  nisnan := f64_isnan; nisinf := f64_isinf;
  nofQ := f64_ofQ;
  npi := f64_ofQ (884279719003555 # 281474976710656) (* the double nearest to pi *)
|}.

Arguments nZ {A} z : simpl never.
Arguments nN {A} n : simpl never.
Arguments n0 {A} : simpl never.
Arguments n1 {A} : simpl never.
