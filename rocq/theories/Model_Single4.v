(** The single precision outputs of the regression with hidden Markov models. *)
From Coq Require Import String List Bool Arith ZArith.
From Verif Require Import Base Arith Model_Map Model_Ring Model_Phrase Model_Gaussian Model_Config Model_KMeans Model_GMM Model_HMM Model_HHMM Model_Single3.
Import ListNotations.

Section Single4.
  Context {A : arith}.
  Local Notation T := (num A).
  (** The conversion of a [double] to [float].  The predicted outputs and the results are vectors of [float]
      (xmmModelResults.hpp 62, 69, 115, 121): every store converts. *)
  Variable sg : T -> T.

  (** xmmHmmSingleClass.cpp 1196-1283: [regression(observation_input)], as [hm_regression]. *)
  Definition hm_regression_with (x : list T) (h : hclass A) : res (hclass A) :=
    let r := hc_run h in
    let mode := hp_mode (hc_par h) in
    let* no := usub (hc_dim h) (hc_din h) in
    let z := repeat n0 (match mode with Full => no * no | Diagonal => no end) in
    let fire g := (let* g := gm_likelihood x [] g in gm_regression_with sg x g) in
    match hp_est (hc_par h) with
    | RLikeliest =>
        let* g := rd (h_states (hc_net h)) (h_like r) in
        let* g := fire g in
        let* ss := wr (h_states (hc_net h)) (h_like r) g in
        Ok (hc_set_run (rn_out (gc_out g) z r) (hc_set_net (nt_states ss (hc_net h)) h))
    | e =>
        let full := match e with RFull => true | _ => false end in
        let lo := if full then 0 else h_wmin r in
        let hi := if full then hc_n h else h_wmax r in
        let nc := if full then n1 else h_wnorm r in
        let nc := if (nc <=? n0)%num then n1 else nc in
        let* (ss, o, v) := iterM (hi - lo) (fun k s =>
          let '(ss, o, v) := s in
          let i := lo + k in
          let* g := rd ss i in
          let* g := fire g in
          let* ss := wr ss i g in
          let* w := hm_weight h i in
          let* (o, v) := iterM no (fun d s =>
            let '(o, v) := s in
            let* a := rd o d in
            let* y := rd (gc_out g) d in
            let* o := wr o d (sg (a + w * y / nc)%num) in
            let* v := match mode with
              | Full => iterM no (fun d2 v =>
                  let* a := rd v (d * no + d2) in
                  let* c := rd (gc_ocov g) (d * no + d2) in
                  wr v (d * no + d2) (sg (a + w * w * c / nc)%num)) v
              | Diagonal =>
                  let* a := rd v d in
                  let* c := rd (gc_ocov g) d in
                  wr v d (sg (a + w * w * c / nc)%num)
              end in
            Ok (o, v)) (o, v) in
          Ok (ss, o, v)) (h_states (hc_net h), repeat n0 no, z) in
        Ok (hc_set_run (rn_out o v r) (hc_set_net (nt_states ss (hc_net h)) h))
    end.

  (** xmmHmmSingleClass.cpp 1121-1143: [filter(observation)], as [hm_filter]. *)
  Definition hm_filter_with (x : list T) (h : hclass A) : res (hclass A) :=
    let* h := hm_forward x h in
    let* h := hm_window h in
    let* h := hm_results h in
    if hc_bim h then hm_regression_with x h else Ok h.

  (** xmmHierarchicalHmm.cpp 389-404: the forward pass of [filter(observation)], as [hh_forward]. *)
  Definition hh_forward_with (x : list T) (m : hhmm A) : res (hhmm A) :=
    if hh_hier m then if hh_started m then hh_forward_update x m else hh_forward_init x m
    else
      let* ms := mapM (fun e => let* h := hm_filter_with x (snd e) in Ok (fst e, h)) (hh_cls m) in
      let* inst := iterM (hh_size m) (fun i v => let* e := rd ms i in wr v i (h_inst (hc_run (snd e)))) (rs_inst (hh_res m)) in
      let r := hh_res m in
      Ok (hh_set_res (mkRes inst (rs_instn r) (rs_sm r) (rs_smn r) (rs_log r) (rs_likeliest r) (rs_out r) (rs_ocov r)) (hh_set_cls ms m)).

  (** xmmHierarchicalHmm.cpp 389-462: [filter(observation)], as [hh_filter]. *)
  Definition hh_filter_with (x : list T) (m : hhmm A) : res (hhmm A) :=
    let* m := hh_forward_with x m in
    let* ms := mapM (fun e => let* h := hm_post (snd e) in Ok (fst e, h)) (hh_cls m) in
    let* r := update_results (map fst ms) (map (fun e => h_inst (hc_run (snd e))) ms) (map (fun e => h_log (hc_run (snd e))) ms) (hh_res m) in
    if negb (hh_bim m) then Ok (hh_set_res r (hh_set_cls ms m)) else
    let* no := usub (hh_dim m) (hh_din m) in
    let* ms := mapM (fun e => let* h := hm_regression_with x (snd e) in Ok (fst e, h)) ms in
    let* (o, c) := match hh_est m with
      | Likeliest =>
          match mget String.eqb ms (rs_likeliest r) with
          | Some h => Ok (h_out (hc_run h), h_ocov (hc_run h))
          | None => Throw RuntimeError
          end
      | Mixture => mix_outputs_with sg (hh_cmode m) no (rs_smn r) (map (fun e => (h_out (hc_run (snd e)), h_ocov (hc_run (snd e)))) ms)
      end in
    Ok (hh_set_res (mkRes (rs_inst r) (rs_instn r) (rs_sm r) (rs_smn r) (rs_log r) (rs_likeliest r) o c) (hh_set_cls ms m)).

  (** Frames one after the other. *)
  Fixpoint hh_filters_with (xs : list (list T)) (m : hhmm A) : res (hhmm A) :=
    match xs with [] => Ok m | x :: xs => let* m := hh_filter_with x m in hh_filters_with xs m end.
End Single4.

(** Without conversion, this is [hh_filter]. *)
Lemma hh_filter_with_id : forall (A : arith) (x : list (num A)) m, hh_filter_with (fun x => x) x m = hh_filter x m.
Proof. reflexivity. Qed.
