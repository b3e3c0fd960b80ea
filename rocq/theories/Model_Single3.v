(** The single precision outputs of the regression with mixtures. *)
From Coq Require Import String List Bool Arith ZArith.
From Verif Require Import Base Arith Model_Map Model_Ring Model_Phrase Model_Gaussian Model_Config Model_KMeans Model_GMM.
Import ListNotations.

Section Single3.
  Context {A : arith}.
  Local Notation T := (num A).
  (** The conversion of a [double] to [float].  The predicted outputs and the results are vectors of [float]
      (xmmModelResults.hpp 62, 69, 115, 121): every store converts. *)
  Variable sg : T -> T.

  (** Sum of [f 0], …, [f (n-1)] into the [float] [a]. *)
  Definition accM_with (n : nat) (f : nat -> res T) (a : T) : res T := iterM n (fun i s => let* v := f i in Ok (sg (s + v)%num)) a.

  (** xmmGaussianDistribution.cpp 298-329: [regression(observation_input, predicted_output)], as [g_regression]. *)
  Definition g_regression_with (g : gauss A) (x : list T) : res (list T) :=
    if negb (g_bim g) then Throw RuntimeError
    else
      let n := g_dim g in
      let m := g_din g in
      let* no := usub n m in
      tabM no (fun d =>
        let* mu := rd (g_mean g) (m + d) in
        match g_mode g with
        | Full =>
            accM_with m (fun e =>
              let* tmp := accM_with m (fun f =>
                let* c := rd (g_inv_in g) (e * m + f) in
                let* a := rd x f in let* b := rd (g_mean g) f in Ok (c * (a - b))%num) n0 in
              let* c := rd (g_cov g) ((d + m) * n + e) in
              Ok (c * tmp)%num) (sg mu)
        | Diagonal => Ok (sg mu)
        end).

  (** xmmGmmSingleClass.cpp 574-605: [regression(observation_input)], as [gm_regression]. *)
  Definition gm_regression_with (x : list T) (g : gclass A) : res (gclass A) :=
    let* no := usub (gc_dim g) (gc_din g) in
    let* (o, v) := iterM (gc_n g) (fun c s =>
      let* k := rd (gc_comp g) c in
      let* y := g_regression_with k x in
      let* b := rd (gc_beta g) c in
      iterM no (fun d s =>
        let '(o, v) := s in
        let* a := rd o d in
        let* yd := rd y d in
        let* o := wr o d (sg (a + b * yd)%num) in
        let* v := match gc_mode g with
          | Full => iterM no (fun d2 v =>
              let* a := rd v (d * no + d2) in
              let* c := rd (g_out k) (d * no + d2) in
              wr v (d * no + d2) (sg (a + b * b * c)%num)) v
          | Diagonal =>
              let* a := rd v d in
              let* c := rd (g_out k) d in
              wr v d (sg (a + b * b * c)%num)
          end in
        Ok (o, v)) s)
      (repeat n0 no, repeat n0 (match gc_mode g with Full => no * no | Diagonal => no end)) in
    Ok (gc_set_out o v g).

  (** xmmGmmSingleClass.cpp 79-86: [filter(observation)]. *)
  Definition gm_filter1_with (x : list T) (g : gclass A) : res (gclass A) :=
    let* g := gm_likelihood x [] g in
    if gc_bim g then gm_regression_with x g else Ok g.

  (** xmmGmm.cpp 137-162: the weighted outputs of the classes, as [mix_outputs]. *)
  Definition mix_outputs_with (mode : cmode) (no : nat) (w : list T) (outs : list (list T * list T)) : res (list T * list T) :=
    iterM (length outs) (fun i s =>
      let* (yo, yc) := rd outs i in
      let* b := rd w i in
      iterM no (fun d s =>
        let '(o, v) := s in
        let* a := rd o d in
        let* y := rd yo d in
        let* o := wr o d (sg (a + b * y)%num) in
        let* v := match mode with
          | Full => iterM no (fun d2 v =>
              let* a := rd v (d * no + d2) in
              let* c := rd yc (d * no + d2) in
              wr v (d * no + d2) (sg (a + b * c)%num)) v
          | Diagonal =>
              let* a := rd v d in
              let* c := rd yc d in
              wr v d (sg (a + b * c)%num)
          end in
        Ok (o, v)) s) (repeat n0 no, repeat n0 (csq mode no)).

  (** xmmGmm.cpp 108-164: [filter(observation)], as [gm_filter]. *)
  Definition gm_filter_with (x : list T) (m : gmm A) : res (gmm A) :=
    let* ms := mapM (fun e => let* g := gm_filter1_with x (snd e) in Ok (fst e, g)) (gm_models m) in
    let* r := update_results (map fst ms) (map (fun e => gc_inst (snd e)) ms) (map (fun e => gc_log (snd e)) ms) (gm_res m) in
    let m := gm_set ms r m in
    if negb (gm_bim m) then Ok m else
    let* no := usub (gm_dim m) (gm_din m) in
    match gm_est m with
    | Likeliest =>
        match mget String.eqb ms (rs_likeliest r) with
        | Some g => Ok (gm_set ms (mkRes (rs_inst r) (rs_instn r) (rs_sm r) (rs_smn r) (rs_log r) (rs_likeliest r) (gc_out g) (gc_ocov g)) m)
        | None => Throw RuntimeError
        end
    | Mixture =>
        let* (o, c) := mix_outputs_with (gm_cmode m) no (rs_smn r) (map (fun e => (gc_out (snd e), gc_ocov (snd e))) ms) in
        Ok (gm_set ms (mkRes (rs_inst r) (rs_instn r) (rs_sm r) (rs_smn r) (rs_log r) (rs_likeliest r) o c) m)
    end.
End Single3.

(** Without conversion, this is [gm_filter]. *)
Lemma gm_filter_with_id : forall (A : arith) (x : list (num A)) m, gm_filter_with (fun x => x) x m = gm_filter x m.
Proof. reflexivity. Qed.
