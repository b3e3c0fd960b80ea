(** Model of the life of a K-Means object: src/models/kmeans/xmmKMeansParameters.cpp (settings and their
    JSON form) and the calls of src/models/kmeans/xmmKMeans.cpp on one object, trained with training sets. *)
From Coq Require Import String List Bool Arith ZArith QArith.
From Verif Require Import Base Arith Model_Json Model_Phrase Model_TrainingSet Model_Gaussian Model_KMeans Model_Config Model_Workflow.
Import ListNotations.
Local Open Scope nat_scope.
Local Open Scope list_scope.

Section KMeans2.
  Context {A : arith}.
  Local Notation T := (num A).
  Local Notation J := (json A).

  (** ** Settings *)

  (** xmmKMeansParameters.hpp 100-118: attributes.  The listener only sets a flag that nothing reads
      (xmmKMeansParameters.cpp 104-108). *)
  Record kmP := mkKmP { kp_clusters : nat; kp_maxit : nat; kp_thr : T }.

  (** xmmKMeansParameters.cpp 35-46. *)
  Definition kmP_new : kmP := mkKmP 1 50 (nofQ (1 # 100000000000000000000)).

  (** xmmKMeansParameters.cpp 69-84: [operator=]: the values are copied (with their limits, which are the same
      for all objects), and the listeners registered again.  The copy constructor (48-60) is the same. *)
  Definition kmP_assign (dst src : kmP) : kmP := mkKmP (kp_clusters src) (kp_maxit src) (kp_thr src).

  (** One [set] of an attribute: limits 1 and the largest [unsigned int]; 0 and the largest [float]
      (xmmKMeansParameters.cpp 37-39, xmmAttribute.hpp 192-197). *)
  Inductive kmE := EClusters (n : nat) | EMaxIt (n : nat) | EThr (x : T).
  Definition kmP_set (e : kmE) (p : kmP) : res kmP :=
    match e with
    | EClusters n => if n <? 1 then Throw DomainError else Ok (mkKmP n (kp_maxit p) (kp_thr p))
    | EMaxIt n => if n <? 1 then Throw DomainError else Ok (mkKmP (kp_clusters p) n (kp_thr p))
    | EThr x => if nltb x n0 || nltb flt_max x then Throw DomainError else Ok (mkKmP (kp_clusters p) (kp_maxit p) x)
    end.
  (** The same, with the exception caught by the user. *)
  Definition kmP_edit (e : kmE) (p : kmP) : kmP := match kmP_set e p with Ok q => q | _ => p end.
  Definition kmP_run (es : list kmE) (p : kmP) : kmP := fold_left (fun p e => kmP_edit e p) es p.

  (** [static_cast<int>] of an [unsigned int], and the conversion of an [int] to [unsigned int]. *)
  Definition to_int (n : nat) : Z := let z := Z.of_nat n in if (z <? 2 ^ 31)%Z then z else (z - 2 ^ 32)%Z.
  Definition to_unsigned (z : Z) : nat := Z.to_nat (z mod 2 ^ 32).

  (** xmmKMeansParameters.cpp 86-92: [toJson()]. *)
  Definition kmP_toJson (p : kmP) : J :=
    JObj [("clusters", JInt (to_int (kp_clusters p)));
          ("max_iterations", JInt (to_int (kp_maxit p)));
          ("relative_distance_threshold", JReal (kp_thr p))]%string.

  (** xmmKMeansParameters.cpp 62-68: constructor from JSON. *)
  Definition kmP_ofJson (cv : conv A) (root : J) : res kmP :=
    let* z := jmember_int cv root "clusters" in
    let* p := kmP_set (EClusters (to_unsigned z)) kmP_new in
    let* z := jmember_int cv root "max_iterations" in
    let* p := kmP_set (EMaxIt (to_unsigned z)) p in
    let* x := jmember_float cv root "relative_distance_threshold" in
    kmP_set (EThr x) p.

  (** xmmKMeansParameters.cpp 94-102: [fromJson(root)]. *)
  Definition kmP_fromJson (cv : conv A) (root : J) (p : kmP) : kmP * res unit :=
    match kmP_ofJson cv root with
    | Ok q => (kmP_assign p q, Ok tt)
    | Throw e => (p, Throw e)
    | UB => (p, UB)
    end.

  (** ** The object *)
  Definition km_par (k : kmeans A) : kmP := mkKmP (km_clusters k) (km_maxit k) (km_thr k).
  Definition km_set_par (p : kmP) (k : kmeans A) : kmeans A :=
    mkKM (km_dim k) (kp_clusters p) (kp_maxit p) (kp_thr p) (km_first k) (km_centers k) (km_dist k) (km_likeliest k).
  Definition km_set_first (b : bool) (k : kmeans A) : kmeans A :=
    mkKM (km_dim k) (km_clusters k) (km_maxit k) (km_thr k) b (km_centers k) (km_dist k) (km_likeliest k).

  (** xmmKMeans.cpp 221-230: [toJson()] and 232-273: [fromJson(root)]: their bodies are commented out. *)
  Definition km_toJson (k : kmeans A) : J := JNull.
  Definition km_fromJson (root : J) (k : kmeans A) : kmeans A := k.

  (** xmmKMeans.cpp 65-108: [train(trainingSet)] with set number [i] of the world: the standard deviation is
      computed for the random initialisation only; the frames are read with [getValue] and, in a unimodal set,
      also with [getPointer]. *)
  Definition km_train_set (w : world A) (i : nat) (rnd : nat -> T) (k : kmeans A) : res (kmeans A) :=
    match nth_error (w_sets w) i with
    | Some (Some t) =>
        match t_phrases t with
        | [] => Ok k
        | _ =>
            let* ps := phrases_of w t in
            let* dev := if km_first k then Ok [] else ts_stddev (t_dim t) ps in
            let* data := mapM phrase_frames ps in
            let* _ := if t_bim t then Ok [] else mapM pointer_frames ps in
            km_train (t_dim t) data dev rnd k
        end
    | _ => UB
    end.

  (** The calls on one object. *)
  Inductive kop :=
  | KSet (e : kmE)
  | KFirst (b : bool)
  | KTrain (w : world A) (i : nat) (rnd : nat -> T)
  | KReset
  | KFilter (obs : list T)
  | KLoad (root : J).

  Definition km_step (o : kop) (k : kmeans A) : res (kmeans A) :=
    match o with
    | KSet e => let* p := kmP_set e (km_par k) in Ok (km_set_par p k)
    | KFirst b => Ok (km_set_first b k)
    | KTrain w i rnd => km_train_set w i rnd k
    | KReset => Ok (km_reset k)
    | KFilter obs => km_filter obs k
    | KLoad root => Ok (km_fromJson root k)
    end.

  (** A sequence of calls: the user catches the exceptions and goes on.  No call that throws has changed the
      object before: attributes check before they assign, [filter] before it writes. *)
  Fixpoint km_run (ops : list kop) (k : kmeans A) : res (kmeans A) :=
    match ops with
    | [] => Ok k
    | o :: ops =>
        match km_step o k with
        | Ok k => km_run ops k
        | Throw _ => km_run ops k
        | UB => UB
        end
    end.
End KMeans2.
Arguments kmP : clear implicits.
Arguments kmE : clear implicits.
Arguments kop : clear implicits.
