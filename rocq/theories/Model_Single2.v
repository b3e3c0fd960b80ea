(** The single precision deviations of the EM updates of mixtures. *)
From Coq Require Import String List Bool Arith ZArith.
From Coq Require Import Floats.SpecFloat.
From Verif Require Import Base Arith Model_Map Model_Ring Model_Gaussian Model_Config Model_KMeans Model_GMM Model_Single.
Import ListNotations.

(** [float value = x], read as a [double] afterwards. *)
Definition as_single (x : f64) : f64 := of_single (to_single x).

Section Single2.
  Context {A : arith}.
  Local Notation T := (num A).
  (** The conversion of a deviation to [float]. *)
  Variable sg : T -> T.

  (** xmmGmmSingleClass.cpp 462-505: the new covariance of component [c], as [gm_cov], with the conversion of
      the deviations to [float] in Diagonal mode (lines 495-498); in Full mode there is none. *)
  Definition gm_cov_with (mode : cmode) (n : nat) (ps frames : list (list T)) (E : list T) (c : nat) (comp : gauss A) : res (gauss A) :=
    let* e := rd E c in
    let dev x d := (let* v := rd x d in let* m := rd (g_mean comp) d in Ok (v - m)%num) in
    let entry sg d1 d2 :=
      (let* s := gm_wsum ps frames c (fun w x => let* a := dev x d1 in let* b := dev x d2 in Ok (w * sg a * sg b)%num) in
       Ok (s / e)%num) in
    let* cov :=
      match mode with
      | Full =>
          iterM n (fun d1 cov =>
            iterM (n - d1) (fun k cov =>
              let* v := entry (fun x => x) d1 (d1 + k) in
              let* cov := wr cov (d1 * n + (d1 + k)) v in
              if k =? 0 then Ok cov else wr cov ((d1 + k) * n + d1) v) cov) (g_cov comp)
      | Diagonal => iterM n (fun d cov => let* v := entry sg d d in wr cov d v) (g_cov comp)
      end in
    Ok (g_set_cov cov comp).

  (** xmmGmmSingleClass.cpp 390-510: [emAlgorithmUpdate(trainingSet)], as [gm_update]. *)
  Definition gm_update_with (frames : list (list T)) (g : gclass A) : res (gclass A * T) :=
    let* (ps, E, lp) := gm_estep g frames in
    let coef := tab (gc_n g) (fun c => (nth c E n0 / nN (length frames))%num) in
    let* cs := tabM (gc_n g) (fun c => let* k := rd (gc_comp g) c in gm_mean (gc_dim g) ps frames E c k) in
    let* cs := tabM (gc_n g) (fun c => let* k := rd cs c in gm_cov_with (gc_mode g) (gc_dim g) ps frames E c k) in
    let g := gc_set_comp cs (gc_set_coef coef g) in
    let* g := gm_offset g in
    let* g := gm_inverses g in
    Ok (g, lp).

  (** Any number of updates. *)
  Fixpoint gm_updates_with (k : nat) (frames : list (list T)) (g : gclass A) : res (gclass A) :=
    match k with
    | O => Ok g
    | S k => let* (g, _) := gm_update_with frames g in gm_updates_with k frames g
    end.
End Single2.

(** Without conversion, this is [gm_update]. *)
Lemma gm_update_with_id : forall (A : arith) (frames : list (list (num A))) g, gm_update_with (fun x => x) frames g = gm_update frames g.
Proof. reflexivity. Qed.
