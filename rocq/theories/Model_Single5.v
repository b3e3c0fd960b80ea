(** K-Means in single precision.  All the values of src/models/kmeans/xmmKMeans.cpp are [float]: the frames, the
    centers, the sums, the distances and the threshold.  The functions of [Model_KMeans] at this arithmetic are
    the code with its rounding, except [km_init_random], whose right-hand side is computed in double. *)
From Coq Require Import List Bool Arith ZArith QArith.
From Coq Require Import Floats.SpecFloat.
From Verif Require Import Base Arith Model_Single.
Import ListNotations.

Definition f32 := spec_float.
(** Correctly rounded quotient of two integers: literals, and conversions such as
    [float(numFramesPerCluster\[k\])] (xmmKMeans.cpp 193). *)
Definition f32_ofQ (q : Q) : f32 :=
  match Qnum q with
  | Z0 => S754_zero false
  | Zpos p => SFdiv sprec semax (S754_finite false p 0) (S754_finite false (Qden q) 0)
  | Zneg p => SFdiv sprec semax (S754_finite true p 0) (S754_finite false (Qden q) 0)
  end.
(** IEEE binary32.  [sqrt(distance)] (line 283) rounds the root of a [float] once, or to double and then to
    [float] according to the overload that is found: the result is the same.  K-Means calls neither [exp] nor
    [log]. *)
Definition SA : arith := {|
  num := f32;
  nadd := SFadd sprec semax; nsub := SFsub sprec semax;
  nmul := SFmul sprec semax; ndiv := SFdiv sprec semax;
  nopp := SFopp; nabs := SFabs; nsqrt := SFsqrt sprec semax;
  nexp := fun x => x; nln := fun x => x;
  nltb := SFltb; nleb := SFleb; neqb := SFeqb;
  nisnan := f64_isnan; nisinf := f64_isinf;
  nofQ := f32_ofQ;
  npi := f32_ofQ (13176795 # 4194304)
|}.
