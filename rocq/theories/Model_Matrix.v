(** Model of src/core/common/xmmMatrix.hpp: [Matrix<T>]. *)
From Coq Require Import List Bool Arith QArith.
From Verif Require Import Base Arith.
Import ListNotations.
Local Open Scope nat_scope.

Section Matrix.
  Context {A : arith}.
  Local Notation T := (num A).

  (** xmmMatrix.hpp 54-91: a matrix.  [m_data] is the storage the iterator [data] points into
      (its own [_data], or a vector of the caller for [ownData = false]); entries are row-major.
      The stale-iterator effects of the implicit copy and of [resize] are not modelled. *)
  Record matrix := mkMat { m_rows : nat; m_cols : nat; m_data : list T }.

  (** xmmMatrix.hpp 126-135: a zero matrix. *)
  Definition mat_zero (r c : nat) : matrix := mkMat r c (repeat n0 (r * c)).

  (** xmmMatrix.hpp 172-176: [sum()]. *)
  Definition mat_sum (m : matrix) : res T :=
    sumM (m_rows m * m_cols m) (fun i => rd (m_data m) i).

  (** xmmMatrix.hpp 195-203: [transpose()]. *)
  Definition mat_transpose (m : matrix) : res matrix :=
    let* out := iterM (m_cols m) (fun i out =>
      iterM (m_rows m) (fun j out =>
        let* x := rd (m_data m) (j * m_cols m + i) in
        wr out (i * m_rows m + j) x) out) (repeat n0 (m_cols m * m_rows m)) in
    Ok (mkMat (m_cols m) (m_rows m) out).

  (** xmmMatrix.hpp 211-226: [product(mat)]. *)
  Definition mat_product (a b : matrix) : res matrix :=
    if negb (m_cols a =? m_rows b) then Throw RuntimeError
    else
      let* out := iterM (m_rows a) (fun i out =>
        iterM (m_cols b) (fun j out =>
          let* out := wr out (i * m_cols b + j) n0 in
          iterM (m_cols a) (fun k out =>
            let* o := rd out (i * m_cols b + j) in
            let* x := rd (m_data a) (i * m_cols a + k) in
            let* y := rd (m_data b) (k * m_cols b + j) in
            wr out (i * m_cols b + j) (o + x * y)%num) out) out)
        (repeat n0 (m_rows a * m_cols b)) in
      Ok (mkMat (m_rows a) (m_cols b) out).

  (** xmmMatrix.hpp 59: [kEpsilonPseudoInverse()]. *)
  Definition eps_pinv : T := nofQ (1 # 1000000000).

  (** xmmMatrix.hpp 335-342: [swap_lines(i, j)] on rows of length [w]. *)
  Definition swap_lines (w i j : nat) (d : list T) : res (list T) :=
    iterM w (fun k d =>
      let* tmp := rd d (i * w + k) in
      let* y := rd d (j * w + k) in
      let* d := wr d (i * w + k) y in
      wr d (j * w + k) tmp) d.

  (** xmmMatrix.hpp 281-287: the augmented matrix [M | I]. *)
  Definition gj_init (n : nat) (data : list T) : res (list T) :=
    iterM n (fun i mat =>
      let* mat := iterM n (fun j mat =>
        let* x := rd data (i * n + j) in
        wr mat (i * (2 * n) + j) x) mat in
      wr mat (i * (2 * n) + n + i) n1) (repeat n0 (n * (2 * n))).

  (** xmmMatrix.hpp 290-297: the row search.  [fuel] rows remain to be tried from row [i] on. *)
  Fixpoint gj_pivot (n k : nat) (mat : list T) (fuel i : nat) : res nat :=
    let* x := rd mat (i * (2 * n) + k) in
    if (nabs x <? eps_pinv)%num then
      match fuel with
      | 0 => UB (* not reached: the search throws at the last row *)
      | S fuel => if S i =? n then Throw RuntimeError else gj_pivot n k mat fuel (S i)
      end
    else Ok i.

  (** xmmMatrix.hpp 289-319: one elimination step; the state is ([mat], [*det]). *)
  Definition gj_step (n k : nat) (s : list T * T) : res (list T * T) :=
    let '(mat, det) := s in
    let w := 2 * n in
    let* i := gj_pivot n k mat (n - k) k in
    let* p := rd mat (i * w + k) in
    let det := (det * p)%num in
    let* mat := if negb (i =? k) then swap_lines w i k mat else Ok mat in
    let* new := iterM w (fun j new =>
      let* x := rd new (k * w + j) in
      let* p := rd mat (k * w + k) in
      wr new (k * w + j) (x / p)%num) mat in
    let* new := iterM n (fun i new =>
      if negb (i =? k) then
        iterM w (fun j new =>
          let* x := rd new (i * w + j) in
          let* f := rd mat (i * w + k) in
          let* y := rd new (k * w + j) in
          wr new (i * w + j) (x - f * y)%num) new
      else Ok new) new in
    Ok (new, det).

  (** xmmMatrix.hpp 270-327: [gauss_jordan_inverse(det)]; returns the inverse and [*det]. *)
  Definition gauss_jordan (m : matrix) : res (matrix * T) :=
    if negb (m_rows m =? m_cols m) then Throw RuntimeError
    else
      let n := m_rows m in
      let* mat := gj_init n (m_data m) in
      let* (mat, det) := iterM n (gj_step n) (mat, n1) in
      let* dst := iterM n (fun i dst =>
        iterM n (fun j dst =>
          let* x := rd mat (i * (2 * n) + n + j) in
          wr dst (i * n + j) x) dst) (repeat n0 (n * n)) in
      Ok (mkMat n n dst, det).

  (** xmmMatrix.hpp 234-260: [pinv(det)]. *)
  Definition mat_pinv (m : matrix) : res (matrix * T) :=
    if m_rows m =? m_cols m then gauss_jordan m
    else
      let* t := mat_transpose m in
      if m_cols m <=? m_rows m then
        let* p := mat_product t m in
        let* (d, _) := gauss_jordan p in
        let* inv := mat_product d t in
        Ok (inv, n0)
      else
        let* p := mat_product m t in
        let* (d, _) := gauss_jordan p in
        let* inv := mat_product t d in
        Ok (inv, n0).
End Matrix.
