(** Specification vocabulary for the life of a K-Means object. *)
From Coq Require Import String List Bool Arith ZArith QArith Reals.
From Verif Require Import Base Arith RFacts Model_Json Model_Phrase Model_TrainingSet Model_KMeans Model_KMeans2 Spec_Phrase Spec_TrainingSet Spec_Workflow Spec_KMeans.
Import ListNotations.
Local Open Scope R_scope.

(** What the user of one object knows: the dimension of the last training (1 before), its number of clusters
    (0 before), the number of clusters at the last reset (0 before), and the current number of clusters. *)
Record kview := mkView { v_dim : nat; v_trained : nat; v_reset : nat; v_clusters : nat }.
Definition view_new (clusters : nat) : kview := mkView 1 0 0 clusters.

Definition view_step (o : kop RA) (v : kview) : kview :=
  match o with
  | KSet (EClusters n) => if (1 <=? n)%nat then mkView (v_dim v) (v_trained v) (v_reset v) n else v
  | KTrain w i _ =>
      match set_at w i with
      | Some t => match t_phrases t with [] => v | _ => mkView (t_dim t) (v_clusters v) (v_reset v) (v_clusters v) end
      | None => v
      end
  | KReset => mkView (v_dim v) (v_trained v) (v_clusters v) (v_clusters v)
  | _ => v
  end.
Definition view_run (ops : list (kop RA)) (v : kview) : kview := fold_left (fun v o => view_step o v) ops v.

(** The object has centers and room for the results of all its clusters. *)
Definition ready (v : kview) : Prop := (v_clusters v <= v_trained v)%nat /\ (v_clusters v <= v_reset v)%nat.

(** A call that the user may make: observations of the right size only when the object is ready. *)
Definition allowed (o : kop RA) (v : kview) : Prop :=
  match o with
  | KFilter obs => length obs = v_dim v -> ready v
  | _ => True
  end.
Fixpoint all_allowed (ops : list (kop RA)) (v : kview) : Prop :=
  match ops with
  | [] => True
  | o :: ops => allowed o v /\ all_allowed ops (view_step o v)
  end.

(** The training sets hold recordings. *)
Definition with_recordings (o : kop RA) : Prop :=
  match o with
  | KTrain w i _ => exists t recs, recorded w i t recs
  | _ => True
  end.

(** The distance between center [k] of [a] and center [l] of [b]. *)
Definition between (dim : nat) (a : list R) (k : nat) (b : list R) (l : nat) : R :=
  sqrt (Rsum dim (fun d => (nth (k * dim + d) a 0 - nth (l * dim + d) b 0) * (nth (k * dim + d) a 0 - nth (l * dim + d) b 0))).

(** The mean distance between two different centers. *)
Definition mean_gap (clusters dim : nat) (cs : list R) : R :=
  Rsum clusters (fun k => Rsum clusters (fun l => if (k =? l)%nat then 0 else between dim cs k cs l)) / INR (clusters * (clusters - 1)).

(** No center has moved by as much as [thr * clusters] times the mean distance between the centers. *)
Definition settled (clusters dim : nat) (thr : R) (prev cs : list R) : Prop :=
  forall k, (k < clusters)%nat -> between dim prev k cs k / INR clusters / mean_gap clusters dim cs < thr.

(** At most [n] updates lead from the centers [a] to [b], the last one being the first that settles.  When all
    centers are equal, the quotient of [settled] is 0 here and NaN or infinite in the program, which goes on: by
    C103_equal no update changes the centers then. *)
Inductive run_updates (clusters dim : nat) (thr : R) (frames : list (list R)) : nat -> list R -> list R -> Prop :=
| ru_end : forall a, run_updates clusters dim thr frames 0 a a
| ru_stop : forall n a b, averaged clusters dim a frames b -> settled clusters dim thr a b -> run_updates clusters dim thr frames (S n) a b
| ru_more : forall n a b c, averaged clusters dim a frames b -> ~ settled clusters dim thr a b -> run_updates clusters dim thr frames n b c ->
    run_updates clusters dim thr frames (S n) a c.

(** The centers that the training starts with. *)
Definition starts (first : bool) (clusters dim : nat) (recs : list recording) (rnd : nat -> R) (init : list R) : Prop :=
  length init = (clusters * dim)%nat /\
  forall k d, (k < clusters)%nat -> (d < dim)%nat ->
    nth (k * dim + d) init 0 =
      if first then let phrase := snd (hd (EmptyString, []) recs) in segment_mean phrase (k * (length phrase / clusters)) (length phrase / clusters) d
      else sqrt (Rvar (column (concat (map snd recs)) d)) * (2 * rnd (k * dim + d)%nat - 1).

(** The settings are inside their limits, and survive the conversion of a [float] to [double] and back. *)
Definition kmP_ok {A : arith} (cv : conv A) (p : kmP A) : Prop :=
  (1 <= Z.of_nat (kp_clusters p) < 2 ^ 32)%Z /\ (1 <= Z.of_nat (kp_maxit p) < 2 ^ 32)%Z /\
  nltb (kp_thr p) n0 = false /\ nltb flt_max (kp_thr p) = false /\ c_float cv (kp_thr p) = kp_thr p.

(** The default threshold, 1e-20, is a threshold that JSON keeps. *)
Definition default_thr {A : arith} (cv : conv A) : Prop :=
  let x := nofQ (QArith_base.Qmake 1 100000000000000000000) in nltb x n0 = false /\ nltb flt_max x = false /\ c_float cv x = x.

Definition within_limits {A : arith} (p : kmP A) : Prop :=
  (1 <= kp_clusters p)%nat /\ (1 <= kp_maxit p)%nat /\ nltb (kp_thr p) n0 = false /\ nltb flt_max (kp_thr p) = false.

(** An assignment with values of the types of the attributes. *)
Definition edit_typed {A : arith} (cv : conv A) (e : kmE A) : Prop :=
  match e with
  | EClusters n | EMaxIt n => (Z.of_nat n < 2 ^ 32)%Z
  | EThr x => c_float cv x = x
  end.

(** The assignments of settings among some calls, and the last choice of the initialisation. *)
Definition settings_of (ops : list (kop RA)) : list (kmE RA) := flat_map (fun o => match o with KSet e => [e] | _ => [] end) ops.
Definition first_of (ops : list (kop RA)) (b : bool) : bool := fold_left (fun b o => match o with KFirst b' => b' | _ => b end) ops b.
