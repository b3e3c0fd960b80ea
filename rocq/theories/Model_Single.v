(** The single precision products of the initialisation of mixtures. *)
From Coq Require Import String List Bool Arith ZArith.
From Coq Require Import Floats.SpecFloat.
From Verif Require Import Base Arith Model_Map Model_Ring Model_Gaussian Model_Config Model_KMeans Model_GMM.
Import ListNotations.

(** binary32: 24 bits, exponents below 128. *)
Definition sprec : Z := 24.
Definition semax : Z := 128.

(** Conversion of a [double] to [float] (rounded) and back (exact).  The values of phrases are [float]
    ([Phrase::getValue], xmmPhrase.cpp 233-252); the model keeps them as the doubles with the same value. *)
Definition to_single (x : f64) : spec_float :=
  match x with S754_finite s m e => binary_normalize sprec semax (cond_Zopp s (Zpos m)) e s | _ => x end.
Definition of_single (x : spec_float) : f64 :=
  match x with S754_finite s m e => binary_normalize fprec femax (cond_Zopp s (Zpos m)) e s | _ => x end.

(** [float * float], converted to [double]. *)
Definition mul_single (x y : f64) : f64 := of_single (SFmul sprec semax (to_single x) (to_single y)).

Section Single.
  Context {A : arith}.
  Local Notation T := (num A).
  (** The product of two values of a phrase. *)
  Variable pm : T -> T -> T.

  (** xmmGmmSingleClass.cpp 315-388: [initCovariances_fullyObserved(trainingSet)], as [gm_init_cov], with the
      product of two values of a phrase (lines 346-348 and 352) as a parameter. *)
  Definition gm_init_cov_with (data : kdata A) (g : gclass A) : res (gclass A) :=
    match data with
    | [] => Ok g
    | _ =>
        let G := gc_n g in
        let n := gc_dim g in
        let factor := nN (seg_count G data) in
        let mean c d := (let* s := seg_acc G c (fun x => rd x d) data in Ok (s / factor)%num) in
        let entry c d1 d2 :=
          (let* s := seg_acc G c (fun x => let* a := rd x d1 in let* b := rd x d2 in Ok (pm a b)) data in
           let* m1 := mean c d1 in
           let* m2 := mean c d2 in
           Ok (s / factor - m1 * m2)%num) in
        let* cs := tabM G (fun c =>
          let* comp := rd (gc_comp g) c in
          let* cov := match gc_mode g with
                      | Full => tabM (n * n) (fun q => entry c (q / n) (q mod n))
                      | Diagonal => tabM n (fun d => entry c d d)
                      end in
          Ok (g_set_cov cov comp)) in
        Ok (gc_set_comp cs g)
    end.

  (** xmmGmmSingleClass.cpp 88-94: [emAlgorithmInit(trainingSet)]. *)
  Definition gm_init_with (data : kdata A) (dev : list T) (g : gclass A) : res (gclass A) :=
    let* g := gm_default dev g in
    let* g := gm_init_means data g in
    let* g := gm_init_cov_with data g in
    let* g := gm_offset g in
    gm_inverses g.
End Single.

(** With the product of the arithmetic, these are [gm_init_cov] and [gm_init]. *)
Lemma gm_init_cov_with_mul : forall (A : arith) (data : kdata A) g, gm_init_cov_with nmul data g = gm_init_cov data g.
Proof. reflexivity. Qed.
Lemma gm_init_with_mul : forall (A : arith) (data : kdata A) dev g, gm_init_with nmul data dev g = gm_init data dev g.
Proof. reflexivity. Qed.
