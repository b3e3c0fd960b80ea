(** Confidence ellipses of Gaussian distributions (src/core/distributions/xmmGaussianDistribution.cpp).
    [atan] and [tan] are parameters. *)
From Coq Require Import List Bool Arith QArith.
From Verif Require Import Base Arith Model_Gaussian.
Import ListNotations.
Local Open Scope nat_scope.

Section Ellipse.
  Context {A : arith} (natan ntan : num A -> num A).
  Notation T := (num A).

  (** xmmGaussianDistribution.hpp 48-73: [Ellipse]. *)
  Record ellipse := mkEllipse { e_x : T; e_y : T; e_width : T; e_height : T; e_angle : T }.

  Definition k5991 : T := nofQ (5991 # 1000).
  Definition half : T := nofQ (1 # 2).

  (** xmmGaussianDistribution.cpp 685-703: [covariance2ellipse(c_xx, c_xy, c_yy)]; the same
      computation is in [toEllipse], 529-541. *)
  Definition cov2ellipse (x y a b c : T) : ellipse :=
    let trace := (a + c)%num in
    let determinant := (a * c - b * b)%num in
    let root := nsqrt (trace * trace - nZ 4 * determinant)%num in
    let e1 := (half * (trace + root))%num in
    let e2 := (half * (trace - root))%num in
    let angle := natan (b / (e1 - c))%num in
    mkEllipse x y (nsqrt (k5991 * e1)%num) (nsqrt (k5991 * e2)%num)
      (if nisnan angle then (npi / nZ 2)%num else angle).

  (** xmmGaussianDistribution.cpp 505-541: [toEllipse(dimension1, dimension2)].  The positions and
      sizes are stored as [float]; the rounding is not modelled. *)
  Definition g_toEllipse (g : gauss A) (d1 d2 : nat) : res ellipse :=
    if (g_dim g <=? d1) || (g_dim g <=? d2) then Throw OutOfRange
    else
      let n := g_dim g in
      let* x := rd (g_mean g) d1 in
      let* y := rd (g_mean g) d2 in
      let* a := rd (g_cov g) (match g_mode g with Full => d1 * n + d1 | Diagonal => d1 end) in
      let* b := (match g_mode g with Full => rd (g_cov g) (d1 * n + d2) | Diagonal => Ok n0 end) in
      let* c := rd (g_cov g) (match g_mode g with Full => d2 * n + d2 | Diagonal => d2 end) in
      Ok (cov2ellipse x y a b c).

  (** The covariance entries computed by [fromEllipse], xmmGaussianDistribution.cpp 552-560. *)
  Definition ellipse2cov (e : ellipse) : T * T * T :=
    let e1 := (e_width e * e_width e / k5991)%num in
    let e2 := (e_height e * e_height e / k5991)%num in
    let t := ntan (e_angle e) in
    let b := ((e1 - e2) * t / (t * t + n1))%num in
    ((e2 + b / t)%num, b, (e1 - b / t)%num).

  (** xmmGaussianDistribution.cpp 543-573: [fromEllipse(gaussian_ellipse, dimension1, dimension2)]. *)
  Definition g_fromEllipse (e : ellipse) (d1 d2 : nat) : stm (gauss A) unit :=
    do* g := sget in
    if (g_dim g <=? d1) || (g_dim g <=? d2) then sthrow OutOfRange
    else
      let n := g_dim g in
      do* mu := slift (let* m := wr (g_mean g) d1 (e_x e) in wr m d2 (e_y e)) in
      do* _ := smod (g_set_mean mu) in
      let '(a, b, c) := ellipse2cov e in
      do* cv := slift
        match g_mode g with
        | Full =>
            let* v := wr (g_cov g) (d1 * n + d1) a in
            let* v := wr v (d1 * n + d2) b in
            let* v := wr v (d2 * n + d1) b in
            wr v (d2 * n + d2) c
        | Diagonal =>
            let* v := wr (g_cov g) d1 a in
            wr v d2 c
        end in
      do* _ := smod (g_set_cov cv) in
      g_update_inv.
End Ellipse.
Arguments ellipse : clear implicits.
