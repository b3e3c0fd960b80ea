(** Model of src/models/kmeans/xmmKMeans.cpp. *)
From Coq Require Import List Bool Arith ZArith QArith.
From Verif Require Import Base Arith Model_Gaussian.
Import ListNotations.
Local Open Scope nat_scope.

Section KMeans.
  Context {A : arith}.
  Local Notation T := (num A).

  (** The frames of the phrases of a training set, in the order of [begin()]..[end()]: the values
      [getValue(t, d)] (C16).  Reading them through [getPointer] gives the same values in a unimodal
      set. *)
  Definition kdata := list (list (list T)).

  (** xmmKMeans.cpp 276-284: [euclidean_distance(&v\[i\], &c\[j\], n)]. *)
  Definition euclid (v : list T) (i : nat) (c : list T) (j n : nat) : res T :=
    let* s := accM n (fun d => let* x := rd v (i + d) in let* y := rd c (j + d) in Ok ((x - y) * (x - y))%num) n0 in
    Ok (nsqrt s).

  (** xmmKMeans.cpp 150-181: the cluster of a frame. *)
  Definition km_member (clusters dim : nat) (prev frame : list T) : res nat :=
    let* d0 := euclid frame 0 prev 0 dim in
    let* r := iterM (clusters - 1) (fun k' s =>
      let k := S k' in
      let* d := euclid frame 0 prev (k * dim) dim in
      Ok (if (d <? fst s)%num then (d, k) else s)) (d0, 0) in
    Ok (snd r).

  (** xmmKMeans.cpp 182-186. *)
  Definition km_add (dim m : nat) (frame cs : list T) : res (list T) :=
    iterM dim (fun d cs =>
      let* c := rd cs (m * dim + d) in let* x := rd frame d in wr cs (m * dim + d) (c + x)%num) cs.

  (** xmmKMeans.cpp 182-186, with the count. *)
  Definition km_frame (clusters dim : nat) (prev : list T) (s : list T * list nat) (frame : list T) : res (list T * list nat) :=
    let* m := km_member clusters dim prev frame in
    let* n := rd (snd s) m in
    let* ns := wr (snd s) m (S n) in
    let* cs := km_add dim m frame (fst s) in
    Ok (cs, ns).

  (** xmmKMeans.cpp 140-196: [updateCenters(previous_centers, trainingSet)]. *)
  Definition km_update (clusters dim : nat) (prev : list T) (data : kdata) : res (list T) :=
    let* s := foldM (fun s phrase => foldM (km_frame clusters dim prev) phrase s) data
                    (repeat n0 (clusters * dim), repeat 0 clusters) in
    iterM clusters (fun k cs =>
      let* n := rd (snd s) k in
      if 0 <? n then iterM dim (fun d cs => let* c := rd cs (k * dim + d) in wr cs (k * dim + d) (c / nN n)%num) cs
      else Ok cs) (fst s).

  (** xmmKMeans.cpp 84-106: the stopping test of one iteration. *)
  Definition km_stops (clusters dim : nat) (threshold : T) (prev cs : list T) : res bool :=
    let* s := iterM clusters (fun k s =>
      let* m := iterM clusters (fun l m =>
        if k =? l then Ok m else let* d := euclid cs (k * dim) cs (l * dim) dim in Ok (m + d)%num) (fst s) in
      let* v := euclid prev (k * dim) cs (k * dim) dim in
      Ok (m, if (snd s <? v)%num then v else snd s)) (n0, n0) in
    let mean := (fst s / nN (clusters * (clusters - 1)))%num in
    let var := (snd s / nN clusters / mean)%num in
    Ok (var <? threshold)%num.

  (** xmmKMeans.cpp 76-107: at most [n] iterations. *)
  Fixpoint km_loop (n clusters dim : nat) (threshold : T) (data : kdata) (cs : list T) : res (list T) :=
    match n with
    | O => Ok cs
    | S n =>
        let* cs' := km_update clusters dim cs data in
        let* stop := km_stops clusters dim threshold cs cs' in
        if stop then Ok cs' else km_loop n clusters dim threshold data cs'
    end.

  (** xmmKMeans.cpp 110-127: [initClustersWithFirstPhrase(phrase)]. *)
  Definition km_init_first (clusters dim : nat) (phrase : list (list T)) (cs : list T) : res (list T) :=
    let step := length phrase / clusters in
    iterM clusters (fun c cs =>
      let* cs := iterM dim (fun d cs => wr cs (c * dim + d) n0) cs in
      iterM step (fun t cs =>
        iterM dim (fun d cs =>
          let* frame := rd phrase (c * step + t) in
          let* x := rd frame d in
          let* y := rd cs (c * dim + d) in
          wr cs (c * dim + d) (y + x / nN step)%num) cs) cs) cs.

  (** xmmKMeans.cpp 129-138: [randomizeClusters(deviation)]; [rnd i] is the [i]-th value of
      [random() / RAND_MAX]. *)
  Definition km_init_random (clusters dim : nat) (deviation : list T) (rnd : nat -> T) (cs : list T) : res (list T) :=
    iterM clusters (fun k cs =>
      iterM dim (fun d cs =>
        let* v := rd deviation d in
        wr cs (k * dim + d) (v * (nZ 2 * rnd (k * dim + d)%nat - n1))%num) cs) cs.

  (** xmmKMeans.hpp: the object.  [km_dim] is [shared_parameters->dimension], [None] when the pointer is
      null.  [km_first]: initialisation with the first phrase (otherwise random). *)
  Record kmeans := mkKM {
    km_dim : option nat; km_clusters : nat; km_maxit : nat; km_thr : T; km_first : bool;
    km_centers : list T; km_dist : list T; km_likeliest : nat }.

  Definition km_set_centers (cs : list T) (k : kmeans) := mkKM (km_dim k) (km_clusters k) (km_maxit k) (km_thr k) (km_first k) cs (km_dist k) (km_likeliest k).
  Definition km_set_results (ds : list T) (l : nat) (k : kmeans) := mkKM (km_dim k) (km_clusters k) (km_maxit k) (km_thr k) (km_first k) (km_centers k) ds l.

  (** xmmKMeans.cpp 44-48 and xmmKMeansParameters.hpp: constructor, with the default settings
      ([relative_distance_threshold] 1e-20, 50 iterations). *)
  Definition km_new (clusters : nat) : kmeans :=
    mkKM (Some 1) clusters 50 (nofQ (1 # 100000000000000000000)) false [] [] 0.

  (** xmmKMeans.cpp 50-53: copy constructor: [shared_parameters] is left null; the results are not
      copied. *)
  Definition km_copy (src : kmeans) : kmeans :=
    mkKM None (km_clusters src) (km_maxit src) (km_thr src) (km_first src) (km_centers src) [] 0.

  (** xmmKMeans.cpp 55-62: [operator=]. *)
  Definition km_assign (dst src : kmeans) : kmeans :=
    mkKM (km_dim dst) (km_clusters src) (km_maxit src) (km_thr src) (km_first src) (km_centers src) (km_dist dst) (km_likeliest dst).

  (** xmmKMeans.cpp 65-108: [train(trainingSet)], for a training set with the given dimension, frames and
      standard deviation. *)
  Definition km_train (dim : nat) (data : kdata) (deviation : list T) (rnd : nat -> T) (k : kmeans) : res kmeans :=
    match data with
    | [] => Ok k
    | first :: _ =>
        match km_dim k with
        | None => UB
        | Some _ =>
            let cs := vresize (km_clusters k * dim) n0 (km_centers k) in
            let* cs := if km_first k then km_init_first (km_clusters k) dim first cs
                       else km_init_random (km_clusters k) dim deviation rnd cs in
            let* cs := km_loop (km_maxit k) (km_clusters k) dim (km_thr k) data cs in
            Ok (mkKM (Some dim) (km_clusters k) (km_maxit k) (km_thr k) (km_first k) cs (km_dist k) (km_likeliest k))
        end
    end.

  (** xmmKMeans.cpp 199-201: [reset()]. *)
  Definition km_reset (k : kmeans) : kmeans := km_set_results (vresize (km_clusters k) n0 (km_dist k)) (km_likeliest k) k.

  (** The largest [float]. *)
  Definition flt_max : T := nZ 340282346638528859811704183484516925440.

  (** xmmKMeans.cpp 203-217: [filter(observation)]. *)
  Definition km_filter (obs : list T) (k : kmeans) : res kmeans :=
    match km_dim k with
    | None => UB
    | Some dim =>
        if negb (length obs =? dim) then Throw RuntimeError else
        let* s := iterM (km_clusters k) (fun c s =>
          let '(ds, mn, best) := s in
          let* d := euclid obs 0 (km_centers k) (c * dim) dim in
          let* ds := wr ds c d in
          Ok (if (d <? mn)%num then (ds, d, c) else (ds, mn, best))) (km_dist k, flt_max, 0) in
        let '(ds, _, best) := s in
        Ok (km_set_results ds best k)
    end.
End KMeans.
Arguments kdata : clear implicits.
Arguments kmeans : clear implicits.
