(** Model of src/core/distributions/xmmGaussianDistribution.hpp and .cpp.
    Doubles and floats are one number type.  [toEllipse], [fromEllipse] and [covariance2ellipse]
    are in Model_Ellipse. *)
From Coq Require Import String List Bool Arith ZArith QArith.
From Verif Require Import Base Arith Model_Json Model_Phrase Model_Matrix.
Import ListNotations.
Local Open Scope nat_scope.

(** xmmGaussianDistribution.hpp 58-68: [CovarianceMode]. *)
Inductive cmode := Full | Diagonal.

Section Gaussian.
  Context {A : arith}.
  Local Notation T := (num A).
  Local Notation J := (json A).

  (** [for (i = 0; i < n; i++) acc += f(i)], starting from [a]. *)
  Definition accM (n : nat) (f : nat -> res T) (a : T) : res T :=
    iterM n (fun i s => let* x := f i in Ok (s + x)%num) a.

  (** [pow(x, n)] for a whole exponent. *)
  Fixpoint npow (x : T) (n : nat) : T :=
    match n with
    | 0 => n1
    | S n => (npow x n * x)%num
    end.

  (** xmmGaussianDistribution.hpp 254-327: members.  Limits: [g_dim_min] is the lower limit of
      [dimension] and [g_din_max] the upper limit of [dimension_input] ([None]: the largest
      unsigned value).  [g_owner] is the object bound in the callbacks of the three attributes,
      which are always registered or copied together. *)
  Record gauss := mkGauss {
    g_bim : bool;
    g_dim : nat;
    g_dim_min : nat;
    g_din : nat;
    g_din_max : option nat;
    g_mode : cmode;
    g_mean : list T;
    g_cov : list T;
    g_inv : list T;
    g_det : T;
    g_inv_in : list T;
    g_det_in : T;
    g_out : list T;
    g_owner : option nat
  }.

  Definition g_set_dims (dim din : nat) (din_max : option nat) (g : gauss) : gauss :=
    mkGauss (g_bim g) dim (g_dim_min g) din din_max (g_mode g) (g_mean g) (g_cov g) (g_inv g)
      (g_det g) (g_inv_in g) (g_det_in g) (g_out g) (g_owner g).
  Definition g_set_mode (m : cmode) (g : gauss) : gauss :=
    mkGauss (g_bim g) (g_dim g) (g_dim_min g) (g_din g) (g_din_max g) m (g_mean g) (g_cov g) (g_inv g)
      (g_det g) (g_inv_in g) (g_det_in g) (g_out g) (g_owner g).
  Definition g_set_mean (v : list T) (g : gauss) : gauss :=
    mkGauss (g_bim g) (g_dim g) (g_dim_min g) (g_din g) (g_din_max g) (g_mode g) v (g_cov g) (g_inv g)
      (g_det g) (g_inv_in g) (g_det_in g) (g_out g) (g_owner g).
  Definition g_set_cov (v : list T) (g : gauss) : gauss :=
    mkGauss (g_bim g) (g_dim g) (g_dim_min g) (g_din g) (g_din_max g) (g_mode g) (g_mean g) v (g_inv g)
      (g_det g) (g_inv_in g) (g_det_in g) (g_out g) (g_owner g).
  Definition g_set_inv (v : list T) (g : gauss) : gauss :=
    mkGauss (g_bim g) (g_dim g) (g_dim_min g) (g_din g) (g_din_max g) (g_mode g) (g_mean g) (g_cov g) v
      (g_det g) (g_inv_in g) (g_det_in g) (g_out g) (g_owner g).
  Definition g_set_det (x : T) (g : gauss) : gauss :=
    mkGauss (g_bim g) (g_dim g) (g_dim_min g) (g_din g) (g_din_max g) (g_mode g) (g_mean g) (g_cov g) (g_inv g)
      x (g_inv_in g) (g_det_in g) (g_out g) (g_owner g).
  Definition g_set_inv_in (v : list T) (g : gauss) : gauss :=
    mkGauss (g_bim g) (g_dim g) (g_dim_min g) (g_din g) (g_din_max g) (g_mode g) (g_mean g) (g_cov g) (g_inv g)
      (g_det g) v (g_det_in g) (g_out g) (g_owner g).
  Definition g_set_det_in (x : T) (g : gauss) : gauss :=
    mkGauss (g_bim g) (g_dim g) (g_dim_min g) (g_din g) (g_din_max g) (g_mode g) (g_mean g) (g_cov g) (g_inv g)
      (g_det g) (g_inv_in g) x (g_out g) (g_owner g).
  Definition g_set_out (v : list T) (g : gauss) : gauss :=
    mkGauss (g_bim g) (g_dim g) (g_dim_min g) (g_din g) (g_din_max g) (g_mode g) (g_mean g) (g_cov g) (g_inv g)
      (g_det g) (g_inv_in g) (g_det_in g) v (g_owner g).
  Definition g_set_owner (o : option nat) (g : gauss) : gauss :=
    mkGauss (g_bim g) (g_dim g) (g_dim_min g) (g_din g) (g_din_max g) (g_mode g) (g_mean g) (g_cov g) (g_inv g)
      (g_det g) (g_inv_in g) (g_det_in g) (g_out g) o.

  (** xmmGaussianDistribution.cpp 361-374: [allocate()]. *)
  Definition g_allocate (g : gauss) : gauss :=
    let n := g_dim g in
    let m := g_din g in
    let sq k := match g_mode g with Full => k * k | Diagonal => k end in
    let g := g_set_mean (vresize n n0 (g_mean g)) g in
    let g := g_set_cov (vresize (sq n) n0 (g_cov g)) g in
    let g := g_set_inv (vresize (sq n) n0 (g_inv g)) g in
    if g_bim g then g_set_inv_in (vresize (sq m) n0 (g_inv_in g)) g else g.

  (** xmmGaussianDistribution.cpp 47-64: constructor.  The attribute constructors check their
      limits; [dimension_ - 1] is only evaluated for a bimodal distribution, whose dimension has
      been checked to be at least 2. *)
  Definition g_new (id : nat) (bim : bool) (dim din : nat) (m : cmode) : res gauss :=
    if dim <? (if bim then 2 else 1) then Throw DomainError
    else
      let hi := if bim then dim - 1 else 0 in
      if hi <? din then Throw DomainError
      else Ok (g_allocate (mkGauss bim dim (if bim then 2 else 1) din (Some hi) m [] [] [] n0 [] n0 [] (Some id))).

  (** xmmGaussianDistribution.cpp 66-84: copy constructor. *)
  Definition g_copy (id : nat) (src : gauss) : gauss := g_set_owner (Some id) src.

  (** xmmGaussianDistribution.cpp 118-135: [operator=].  The attributes are copied by their
      implicit assignment, with their limits and their callback (see Model_Attribute). *)
  Definition g_assign (dst src : gauss) : gauss := src.

  (** xmmGaussianDistribution.cpp 376-386: [regularize(regularization)]. *)
  Definition g_regularize (r : list T) : stm gauss unit :=
    do* g := sget in
    do* c := slift (iterM (g_dim g) (fun d c =>
      let i := match g_mode g with Full => d * g_dim g + d | Diagonal => d end in
      let* x := rd c i in
      let* y := rd r d in
      wr c i (x + y)%num) (g_cov g)) in
    smod (g_set_cov c).

  (** The block of [rows] x [cols] entries of the covariance whose first entry is ([i0], [j0]),
      copied element by element (xmmGaussianDistribution.cpp 410-415, 463-469, 471-484). *)
  Definition cov_block (g : gauss) (rows cols i0 j0 : nat) : res matrix :=
    let* d := iterM rows (fun d1 out =>
      iterM cols (fun d2 out =>
        let* x := rd (g_cov g) ((i0 + d1) * g_dim g + j0 + d2) in
        wr out (d1 * cols + d2) x) out) (repeat n0 (rows * cols)) in
    Ok (mkMat rows cols d).

  (** [std::copy(v, v + n, dst.begin())]. *)
  Definition copy_vec (v : list T) (n : nat) (dst : list T) : res (list T) :=
    iterM n (fun i dst => let* x := rd v i in wr dst i x) dst.

  (** xmmGaussianDistribution.cpp 444-503: [updateOutputCovariance()]. *)
  Definition g_update_out : stm gauss unit :=
    do* g := sget in
    if negb (g_bim g) then sthrow RuntimeError
    else
      do* no := slift (usub (g_dim g) (g_din g)) in
      let n := g_dim g in
      let m := g_din g in
      match g_mode g with
      | Diagonal =>
          do* o := slift (iterM no (fun i o => let* x := rd (g_cov g) (m + i) in wr o i x)
                            (vresize no n0 (g_out g))) in
          smod (g_set_out o)
      | Full =>
          do* ci := slift (cov_block g m m 0 0) in
          do* (inv, _) := slift (mat_pinv ci) in
          do* gs := slift (cov_block g m no 0 m) in
          do* sg := slift (cov_block g no m m 0) in
          do* t := slift (mat_product inv gs) in
          do* md := slift (mat_product sg t) in
          do* o := slift (iterM no (fun d1 o =>
            iterM no (fun d2 o =>
              let* x := rd (g_cov g) ((m + d1) * n + m + d2) in
              let* y := rd (m_data md) (d1 * no + d2) in
              wr o (d1 * no + d2) (x - y)%num) o) (vresize (no * no) n0 (g_out g))) in
          smod (g_set_out o)
      end.

  (** xmmGaussianDistribution.cpp 388-442: [updateInverseCovariance()]. *)
  Definition g_update_inv : stm gauss unit :=
    do* g := sget in
    let n := g_dim g in
    let m := g_din g in
    do* _ :=
      match g_mode g with
      | Full =>
          do* (inv, det) := slift (mat_pinv (mkMat n n (g_cov g))) in
          do* _ := smod (g_set_det det) in
          do* v := slift (copy_vec (m_data inv) (n * n) (g_inv g)) in
          do* _ := smod (g_set_inv v) in
          swhen (g_bim g)
            (do* ci := slift (cov_block g m m 0 0) in
             do* (inv, det) := slift (mat_pinv ci) in
             do* _ := smod (g_set_det_in det) in
             do* v := slift (copy_vec (m_data inv) (m * m) (g_inv_in g)) in
             smod (g_set_inv_in v))
      | Diagonal =>
          do* _ := smod (g_set_det n1) in
          do* _ := smod (g_set_det_in n1) in
          sforeach (seq 0 n) (fun d =>
            do* g := sget in
            do* c := slift (rd (g_cov g) d) in
            if (c <=? n0)%num then sthrow RuntimeError
            else
              do* v := slift (wr (g_inv g) d (n1 / c)%num) in
              do* _ := smod (g_set_inv v) in
              do* _ := smod (g_set_det (g_det g * c)%num) in
              swhen (g_bim g && (d <? m))
                (do* v := slift (wr (g_inv_in g) d (n1 / c)%num) in
                 do* _ := smod (g_set_inv_in v) in
                 smod (g_set_det_in (g_det_in g * c)%num)))
      end in
    swhen (g_bim g) g_update_out.

  (** xmmGaussianDistribution.cpp 137-172: [onAttributeChange] for the three attributes.
      [unsigned dimension.get() - 1] is modelled for positive dimensions (0 is refused by the
      limits). *)
  Definition g_on_dim : stm gauss unit :=
    do* g := sget in
    do* hi := slift (usub (g_dim g) 1) in
    do* _ := smod (g_set_dims (g_dim g) (g_din g) (Some hi)) in
    smod g_allocate.
  Definition g_on_din : stm gauss unit := smod g_allocate.
  Definition g_on_mode : stm gauss unit :=
    do* g := sget in
    let n := g_dim g in
    let m := g_din g in
    do* _ :=
      match g_mode g with
      | Diagonal =>
          do* c := slift (tabM n (fun d => rd (g_cov g) (d * n + d))) in
          do* _ := smod (g_set_cov c) in
          do* _ := smod (g_set_inv (vresize n n0 (g_inv g))) in
          swhen (g_bim g) (smod (g_set_inv_in (vresize m n0 (g_inv_in g))))
      | Full =>
          do* c := slift (iterM n (fun d c => let* x := rd (g_cov g) d in wr c (d * n + d) x)
                            (repeat n0 (n * n))) in
          do* _ := smod (g_set_cov c) in
          do* _ := smod (g_set_inv (vresize (n * n) n0 (g_inv g))) in
          swhen (g_bim g) (smod (g_set_inv_in (vresize (m * m) n0 (g_inv_in g))))
      end in
    do* _ := g_update_inv in
    swhen (g_bim g) g_update_out.

  (** xmmGaussianDistribution.cpp 195-203 (and 233-241, 287-295): the density from the quadratic
      form, floored. *)
  Definition floor180 : T := nofQ (1 # (10 ^ 180)).
  Definition g_density (q det : T) (n : nat) : T :=
    let p := (nexp (nofQ (- 1 # 2) * q) / nsqrt (det * npow (nZ 2 * npi) n))%num in
    if (p <? floor180)%num || nisnan p || nisinf (nabs p) then floor180 else p.

  (** xmmGaussianDistribution.cpp 175-204: [likelihood(observation)]. *)
  Definition g_likelihood (g : gauss) (x : list T) : res T :=
    if neqb (g_det g) n0 then Throw RuntimeError
    else
      let n := g_dim g in
      let diff i := (let* a := rd x i in let* b := rd (g_mean g) i in Ok (a - b)%num) in
      let* q :=
        match g_mode g with
        | Full =>
            accM n (fun l =>
              let* tmp := accM n (fun k =>
                let* c := rd (g_inv g) (l * n + k) in let* e := diff k in Ok (c * e)%num) n0 in
              let* e := diff l in Ok (e * tmp)%num) n0
        | Diagonal =>
            accM n (fun l => let* c := rd (g_inv g) l in let* e := diff l in Ok (c * e * e)%num) n0
        end in
      Ok (g_density q (g_det g) n).

  (** xmmGaussianDistribution.cpp 206-242: [likelihood_input(observation_input)].  In Diagonal
      mode the code reads [inverse_covariance_], not [inverse_covariance_input_]. *)
  Definition g_likelihood_input (g : gauss) (x : list T) : res T :=
    if negb (g_bim g) then Throw RuntimeError
    else if neqb (g_det_in g) n0 then Throw RuntimeError
    else
      let m := g_din g in
      let diff i := (let* a := rd x i in let* b := rd (g_mean g) i in Ok (a - b)%num) in
      let* q :=
        match g_mode g with
        | Full =>
            accM m (fun l =>
              let* tmp := accM m (fun k =>
                let* c := rd (g_inv_in g) (l * m + k) in let* e := diff k in Ok (c * e)%num) n0 in
              let* e := diff l in Ok (e * tmp)%num) n0
        | Diagonal =>
            accM m (fun l => let* c := rd (g_inv g) l in let* e := diff l in Ok (c * e * e)%num) n0
        end in
      Ok (g_density q (g_det_in g) m).

  (** xmmGaussianDistribution.cpp 244-296: [likelihood_bimodal(observation_input,
      observation_output)]. *)
  Definition g_likelihood_bimodal (g : gauss) (x y : list T) : res T :=
    if negb (g_bim g) then Throw RuntimeError
    else if neqb (g_det g) n0 then Throw RuntimeError
    else
      let n := g_dim g in
      let m := g_din g in
      let* no := usub n m in
      let dx i := (let* a := rd x i in let* b := rd (g_mean g) i in Ok (a - b)%num) in
      let dy i := (let* a := rd y i in let* b := rd (g_mean g) (m + i) in Ok (a - b)%num) in
      let* q :=
        match g_mode g with
        | Full =>
            accM n (fun l =>
              let* tmp := accM m (fun k =>
                let* c := rd (g_inv g) (l * n + k) in let* e := dx k in Ok (c * e)%num) n0 in
              let* tmp := accM no (fun k =>
                let* c := rd (g_inv g) (l * n + m + k) in let* e := dy k in Ok (c * e)%num) tmp in
              let* e := (if l <? m then dx l else dy (l - m)) in Ok (e * tmp)%num) n0
        | Diagonal =>
            let* q := accM m (fun l =>
              let* c := rd (g_inv g) l in let* e := dx l in Ok (c * e * e)%num) n0 in
            accM no (fun i =>
              let* c := rd (g_inv g) (m + i) in let* e := dy i in Ok (c * e * e)%num) q
        end in
      Ok (g_density q (g_det g) n).

  (** xmmGaussianDistribution.cpp 298-329: [regression(observation_input, predicted_output)];
      returns the prediction. *)
  Definition g_regression (g : gauss) (x : list T) : res (list T) :=
    if negb (g_bim g) then Throw RuntimeError
    else
      let n := g_dim g in
      let m := g_din g in
      let* no := usub n m in
      tabM no (fun d =>
        let* mu := rd (g_mean g) (m + d) in
        match g_mode g with
        | Full =>
            accM m (fun e =>
              let* tmp := accM m (fun f =>
                let* c := rd (g_inv_in g) (e * m + f) in
                let* a := rd x f in let* b := rd (g_mean g) f in Ok (c * (a - b))%num) n0 in
              let* c := rd (g_cov g) ((d + m) * n + e) in
              Ok (c * tmp)%num) mu
        | Diagonal => Ok mu
        end).

  (** xmmGaussianDistribution.cpp 332-349: [toJson()]. *)
  Definition g_toJson (g : gauss) : res J :=
    let* mean := vector2json JReal (g_mean g) in
    let* cov := vector2json JReal (g_cov g) in
    let* inv := vector2json JReal (g_inv g) in
    let* invin := vector2json JReal (g_inv_in g) in
    let* out := vector2json JReal (g_out g) in
    Ok (JObj
      [("bimodal", JBool (g_bim g));
       ("dimension", JInt (Z.of_nat (g_dim g)));
       ("dimension_input", JInt (Z.of_nat (g_din g)));
       ("covariance_mode", JInt (match g_mode g with Full => 0 | Diagonal => 1 end));
       ("mean", mean);
       ("covariance", cov);
       ("inverse_covariance", inv);
       ("covariance_determinant", JReal (g_det g));
       ("inverse_covariance_input", invin);
       ("covariance_determinant_input", JReal (g_det_in g));
       ("output_covariance", out)])%string.

  (** [Attribute<unsigned>::set] of an [int]: a negative value becomes an unsigned one far beyond
      any allocatable size; the model calls it undefined. *)
  Definition as_size (z : Z) : res nat := if (z <? 0)%Z then UB else Ok (Z.to_nat z).

  Definition outcome {X} (r : list X * res unit) : res (list X) :=
    let* _ := snd r in Ok (fst r).

  (** xmmGaussianDistribution.cpp 86-116: constructor from JSON.  The attributes are default
      constructed: no limits on the dimensions; the covariance mode must be 0 or 1. *)
  Definition g_ofJson (cv : conv A) (id : nat) (root : J) : res gauss :=
    let* j := jget root "bimodal" (JBool false) in
    let* bim := as_bool j in
    let* j := jget root "dimension" (JInt (if bim then 2 else 1)) in
    let* z := as_int cv j in
    let* dim := as_size z in
    let* j := jget root "dimension_input" (JInt (if bim then 1 else 0)) in
    let* z := as_int cv j in
    let* din := as_size z in
    let* j := jmember root "covariance_mode" in
    let* z := as_int cv j in
    let* mode := (if (z =? 0)%Z then Ok Full else if (z =? 1)%Z then Ok Diagonal else Throw DomainError) in
    let g := g_allocate (mkGauss bim dim 0 din None mode [] [] [] n0 [] n0 [] None) in
    let* j := jmember root "mean" in
    let* mean := outcome (json2vector true as_double j (g_mean g) dim) in
    let* j := jmember root "covariance" in
    let* cov := outcome (json2vector true as_double j (g_cov g) (dim * dim)) in
    let* j := jmember root "inverse_covariance" in
    let* inv := outcome (json2vector true as_double j (g_inv g) (dim * dim)) in
    let* j := jget root "covariance_determinant" (JReal n0) in
    let* det := as_double j in
    let* j := jmember root "inverse_covariance_input" in
    let* invin := outcome (json2vector true as_double j (g_inv_in g) (din * din)) in
    let* j := jget root "covariance_determinant_input" (JReal n0) in
    let* detin := as_double j in
    Ok (mkGauss bim dim 0 din None mode mean cov inv det invin detin [] (Some id)).

  (** xmmGaussianDistribution.cpp 351-358: [fromJson(root)]: a temporary object, with identity
      [tmp], is assigned to this one and destroyed. *)
  Definition g_fromJson (cv : conv A) (tmp : nat) (root : J) (g : gauss) : gauss * res unit :=
    match g_ofJson cv tmp root with
    | Ok t => (g_assign g t, Ok tt)
    | Throw e => (g, Throw e)
    | UB => (g, UB)
    end.

  (** ** Several distributions, identified by their position; [None] is a destroyed one. *)
  Definition gworld := list (option gauss).

  (** Notification of a change of an attribute of object [k] (xmmAttribute.hpp 192-197 and
      xmmGaussianDistribution.cpp 137-172): the bound listener runs [react] if the attribute is
      its own; another live listener does nothing; a destroyed one is undefined behaviour. *)
  Definition g_notify (k : nat) (react : stm gauss unit) (w : gworld) (g : gauss) : gworld * res unit :=
    match g_owner g with
    | None => (upd w k (Some g), Ok tt)
    | Some l =>
        if l =? k then let '(g, r) := react g in (upd w k (Some g), r)
        else match nth_error w l with
             | Some (Some _) => (upd w k (Some g), Ok tt)
             | _ => (upd w k (Some g), UB)
             end
    end.

  (** Operations on the objects of a program. *)
  Inductive gop :=
  | GSetDim (k n : nat)
  | GSetDin (k n : nat)
  | GSetMode (k : nat) (m : cmode)
  | GSetCov (k : nat) (v : list T)
  | GSetMean (k : nat) (v : list T)
  | GUpdate (k : nat)
  | GAssign (k src : nat)
  | GCopy (src : nat)
  | GFromJson (k : nat) (root : J)
  | GDestroy (k : nat).

  Definition g_step (cv : conv A) (o : gop) (w : gworld) : gworld * res unit :=
    let on k (f : gauss -> gworld * res unit) :=
      match nth_error w k with Some (Some g) => f g | _ => (w, UB) end in
    match o with
    | GSetDim k n => on k (fun g =>
        if n <? g_dim_min g then (w, Throw DomainError)
        else g_notify k g_on_dim w (g_set_dims n (g_din g) (g_din_max g) g))
    | GSetDin k n => on k (fun g =>
        match g_din_max g with
        | Some hi => if hi <? n then (w, Throw DomainError)
                     else g_notify k g_on_din w (g_set_dims (g_dim g) n (g_din_max g) g)
        | None => g_notify k g_on_din w (g_set_dims (g_dim g) n (g_din_max g) g)
        end)
    | GSetMode k m => on k (fun g => g_notify k g_on_mode w (g_set_mode m g))
    | GSetCov k v => on k (fun g => (upd w k (Some (g_set_cov v g)), Ok tt))
    | GSetMean k v => on k (fun g => (upd w k (Some (g_set_mean v g)), Ok tt))
    | GUpdate k => on k (fun g => let '(g, r) := g_update_inv g in (upd w k (Some g), r))
    | GAssign k s => on k (fun g => on s (fun t =>
        (upd w k (Some (if k =? s then g else g_assign g t)), Ok tt)))
    | GCopy s => on s (fun t => (w ++ [Some (g_copy (length w) t)], Ok tt))
    | GFromJson k root => on k (fun g =>
        let '(g, r) := g_fromJson cv (length w) root g in (upd w k (Some g) ++ [None], r))
    | GDestroy k => on k (fun _ => (upd w k None, Ok tt))
    end.
End Gaussian.
Arguments gauss : clear implicits.
Arguments gworld : clear implicits.
Arguments gop : clear implicits.
