(** Model of src/models/hmm/xmmHierarchicalHmm.cpp: several classes.

    [check_training] is in Model_Life and is left out here.  Copies and JSON are in Model_Reload.  The values
    of the shared parameters are held by the model and by each class (they share one object in C++; copies
    are in Model_Life). *)
From Coq Require Import String List Bool Arith ZArith QArith.
From Verif Require Import Base Arith Model_Map Model_Ring Model_Phrase Model_Gaussian Model_Config Model_KMeans Model_GMM Model_HMM.
Import ListNotations.
Local Open Scope nat_scope.
Local Open Scope list_scope.

Section HHMM.
  Context {A : arith}.
  Local Notation T := (num A).

  (** xmmHierarchicalHmm.hpp 200-290, xmmModel.hpp: [hh_cls] is the map [models], in label order; [hh_cfg l]
      are the parameters [configuration] has for the label [l]; [hh_hier] is [configuration.hierarchical],
      [hh_started] is [forward_initialized_]. *)
  Record hhmm := mkHH {
    hh_bim : bool; hh_dim : nat; hh_din : nat; hh_win : nat;
    hh_est : restimator; hh_cmode : cmode; hh_hier : bool; hh_cfg : string -> hmmP A;
    hh_prior : list T; hh_trans : list (list T); hh_exit : list T;
    hh_cls : list (string * hclass A);
    hh_v1 : list T; hh_v2 : list T; hh_started : bool;
    hh_res : results A }.

  Definition hh_set_cls ms (m : hhmm) := mkHH (hh_bim m) (hh_dim m) (hh_din m) (hh_win m) (hh_est m) (hh_cmode m) (hh_hier m) (hh_cfg m) (hh_prior m) (hh_trans m) (hh_exit m) ms (hh_v1 m) (hh_v2 m) (hh_started m) (hh_res m).
  Definition hh_set_top p t e (m : hhmm) := mkHH (hh_bim m) (hh_dim m) (hh_din m) (hh_win m) (hh_est m) (hh_cmode m) (hh_hier m) (hh_cfg m) p t e (hh_cls m) (hh_v1 m) (hh_v2 m) (hh_started m) (hh_res m).
  Definition hh_set_front v1 v2 s (m : hhmm) := mkHH (hh_bim m) (hh_dim m) (hh_din m) (hh_win m) (hh_est m) (hh_cmode m) (hh_hier m) (hh_cfg m) (hh_prior m) (hh_trans m) (hh_exit m) (hh_cls m) v1 v2 s (hh_res m).
  Definition hh_set_res r (m : hhmm) := mkHH (hh_bim m) (hh_dim m) (hh_din m) (hh_win m) (hh_est m) (hh_cmode m) (hh_hier m) (hh_cfg m) (hh_prior m) (hh_trans m) (hh_exit m) (hh_cls m) (hh_v1 m) (hh_v2 m) (hh_started m) r.

  Definition hh_size (m : hhmm) : nat := length (hh_cls m).

  (** ** Classes.  These methods keep what they have done when they throw: they return the object and the
      exception. *)
  Definition outcome : Type := res (hhmm * option exn).
  Definition oseq (o : outcome) (f : hhmm -> outcome) : outcome :=
    match o with
    | Ok (m, None) => f m
    | o => o
    end.

  (** xmmHierarchicalHmm.cpp 135-139: [updateExitProbabilities]. *)
  Fixpoint exits_default (ms : list (string * hclass A)) : res (list (string * hclass A) * option exn) :=
    match ms with
    | [] => Ok ([], None)
    | (l, h) :: ms =>
        match hm_exit_default h with
        | Ok h' => let* (ms', e) := exits_default ms in Ok ((l, h') :: ms', e)
        | Throw e => Ok ((l, h) :: ms, Some e)
        | UB => UB
        end
    end.

  (** xmmHierarchicalHmm.cpp 110-133: [updateTransitionParameters], [updatePrior], [updateTransition]. *)
  Definition hh_update_top (m : hhmm) : outcome :=
    let n := hh_size m in
    if n =? length (hh_prior m) then Ok (m, None) else
    let u := (n1 / nN n)%num in
    let m := hh_set_top (repeat u n) (map (fun _ => repeat u n) (vresize n [] (hh_trans m))) (repeat (nofQ (1 # 10)) n) m in
    let* (ms, e) := exits_default (hh_cls m) in
    Ok (hh_set_cls ms m, e).

  (** xmmHmmSingleClass.cpp 35-50, xmmModelSingleClass.cpp 46-73: a new class, as the copy in the map of the
      classes is: the likelihood buffer of the copy has the default length 1.  [forward_initialized_] and the
      numbers in the results are not initialised: [f] and [u] stand for them. *)
  Definition new_class (u : T) (f : bool) (m : hhmm) : hclass A :=
    mkHC (A := A) (hh_bim m) (hh_dim m) (hh_din m) (hh_win m) hmmP_new true (mkNet (A := A) [] [] [] [])
      (mkRun (A := A) (repeat n0 (hp_states (A := A) hmmP_new)) [] [] [] f (ring_new n0 1 1) u u u u u 0 0 0 u [] []).

  Definition hc_set_par (p : hmmP A) (h : hclass A) := mkHC (hc_bim h) (hc_dim h) (hc_din h) (hc_win h) p (hc_hier h) (hc_net h) (hc_run h).

  (** xmmModel.hpp 579-598 and xmmHierarchicalHmm.cpp 141-144: [addModelForClass] for a class that is not
      training. *)
  Definition hh_add (u : T) (f : bool) (l : string) (m : hhmm) : outcome :=
    let h := match mget String.eqb (hh_cls m) l with Some h => h | None => new_class u f m end in
    hh_update_top (hh_set_cls (mput String.eqb String.ltb (hh_cls m) l (hc_set_par (hmmP_assign (hc_par h) (hh_cfg m l)) h)) m).

  (** xmmModel.hpp 238-244: [Model::reset]. *)
  Definition reset_all (ms : list (string * hclass A)) : res (list (string * hclass A)) :=
    mapM (fun e => let* h := hm_reset (snd e) in Ok (fst e, h)) ms.

  (** xmmHierarchicalHmm.cpp 361-387: [reset]. *)
  Definition hh_reset (m : hhmm) : res hhmm :=
    let n := hh_size m in
    let r := hh_res m in
    let* ms := reset_all (hh_cls m) in
    let* (o, c) := if hh_bim m then
        let* no := usub (hh_dim m) (hh_din m) in
        Ok (vresize no n0 (rs_out r), repeat n0 (csq (hh_cmode m) no))
      else Ok (rs_out r, rs_ocov r) in
    let r := mkRes (vresize n n0 (rs_inst r)) (vresize n n0 (rs_instn r)) (vresize n n0 (rs_sm r)) (vresize n n0 (rs_smn r))
      (vresize n n0 (rs_log r)) (rs_likeliest r) o c in
    let* ms := mapM (fun e => let* h := hm_reset (hc_set_hier (hh_hier m) (snd e)) in Ok (fst e, h)) ms in
    Ok (hh_set_res r (hh_set_front (vresize n n0 (hh_v1 m)) (vresize n n0 (hh_v2 m)) false (hh_set_cls ms m))).

  (** xmmModel.hpp 207-216 and xmmHierarchicalHmm.cpp 356-359: [removeClass], when the model is not training. *)
  Definition hh_remove (l : string) (m : hhmm) : outcome :=
    match mget String.eqb (hh_cls m) l with
    | None => Ok (m, Some OutOfRange)
    | Some _ =>
        let* m := hh_reset (hh_set_cls (mdel String.eqb (hh_cls m) l) m) in
        hh_update_top m
    end.

  (** xmmModel.hpp 221-225 and xmmHierarchicalHmm.cpp 78-83: [clear]. *)
  Definition hh_clear (m : hhmm) : outcome :=
    let* m := hh_reset (hh_set_cls [] m) in
    Ok (hh_set_top [] [] [] m, None).

  (** xmmModel.hpp 487-520 and xmmHierarchicalHmm.cpp 105-108: [joinTraining]; [failed] tells the classes
      whose training failed or was cancelled. *)
  Definition hh_join (failed : string -> bool) (m : hhmm) : outcome :=
    let* m := hh_reset (hh_set_cls (filter (fun e => negb (failed (fst e))) (hh_cls m)) m) in
    hh_update_top m.

  (** xmmHierarchicalHmm.cpp 85-90: [addExitPoint]. *)
  Fixpoint exit_points (i : Z) (p : T) (ms : list (string * hclass A)) : res (list (string * hclass A) * option exn) :=
    match ms with
    | [] => Ok ([], None)
    | (l, h) :: ms =>
        match hm_exit_point i p h with
        | Ok h' => let* (ms', e) := exit_points i p ms in Ok ((l, h') :: ms', e)
        | Throw e => Ok ((l, h) :: ms, Some e)
        | UB => UB
        end
    end.
  Definition hh_exit_point (i : Z) (p : T) (m : hhmm) : outcome :=
    let* (ms, e) := exit_points i p (hh_cls m) in
    Ok (hh_set_cls ms m, e).

  (** xmmHierarchicalHmm.cpp 92-103: [normalizeTransitions]. *)
  Definition hh_normalize (m : hhmm) : res hhmm :=
    let n := hh_size m in
    let* sp := accM n (rd (hh_prior m)) n0 in
    let* tr := iterM n (fun i tr =>
      let* row := rd tr i in
      let* s := accM n (rd row) n0 in
      if (n0 <? s)%num then
        let* row := iterM n (fun j row => let* v := rd row j in wr row j (v / s)%num) row in
        wr tr i row
      else Ok tr) (hh_trans m) in
    let* pr := iterM n (fun i pr => let* v := rd pr i in wr pr i (v / sp)%num) (hh_prior m) in
    Ok (hh_set_top pr tr (hh_exit m) m).

  (** ** Filtering *)

  (** Apply a step to the classes one after the other, with their indices; the step adds to a total. *)
  Fixpoint sweep (f : nat -> hclass A -> T -> res (hclass A * T)) (i : nat) (ms : list (string * hclass A)) (norm : T)
      : res (list (string * hclass A) * T) :=
    match ms with
    | [] => Ok ([], norm)
    | (l, h) :: ms =>
        let* (h, norm) := f i h norm in
        let* (ms, norm) := sweep f (S i) ms norm in
        Ok ((l, h) :: ms, norm)
    end.

  (** xmmHierarchicalHmm.cpp 190-197, 318-325: divide all the forward variables. *)
  Definition scale_all (norm : T) (ms : list (string * hclass A)) : res (list (string * hclass A)) :=
    mapM (fun e =>
      let h := snd e in
      let r := hc_run h in
      let* a0 := scale_vec (hc_n h) norm (h_a0 r) in
      let* a1 := scale_vec (hc_n h) norm (h_a1 r) in
      let* a2 := scale_vec (hc_n h) norm (h_a2 r) in
      Ok (fst e, hc_set_run (rn_alpha_h a0 a1 a2 r) h)) ms.

  (** xmmHierarchicalHmm.cpp 151-188: the first frame for class [i]. *)
  Definition init_class (prior : list T) (x : list T) (i : nat) (h : hclass A) (norm : T) : res (hclass A * T) :=
    let N := hc_n h in
    let z := repeat n0 N in
    let* (a0, inst) := match hc_mode h with
      | Ergodic => iterM N (fun k s =>
          let* p := rd (h_prior (hc_net h)) k in
          let* o := hm_obs h x k in
          let* a := wr (fst s) k (p * o)%num in
          Ok (a, (snd s + p * o)%num)) (z, h_inst (hc_run h))
      | LeftRight =>
          let* p := rd prior i in
          let* o := hm_obs h x 0 in
          let* a := wr z 0 (p * o)%num in
          Ok (a, (p * o)%num)
      end in
    Ok (hc_set_run (rn_inst inst (rn_alpha_h a0 z z (hc_run h))) h, (norm + inst)%num).

  (** xmmHierarchicalHmm.cpp 146-201: [forward_init]. *)
  Definition hh_forward_init (x : list T) (m : hhmm) : res hhmm :=
    let* (ms, norm) := sweep (init_class (hh_prior m) x) 0 (hh_cls m) n0 in
    let* ms := scale_all norm ms in
    Ok (hh_set_front (hh_v1 m) (hh_v2 m) true (hh_set_cls ms m)).

  (** xmmHierarchicalHmm.cpp 341-353: [likelihoodAlpha(exitNum, likelihoodVector)] for an exit level, whose
      variables [lev] selects. *)
  Definition level_masses (lev : hrun A -> list T) (ms : list (string * hclass A)) (v : list T) : res (list T) :=
    iterM (length ms) (fun c v =>
      let* e := rd ms c in
      let* s := accM (hc_n (snd e)) (rd (lev (hc_run (snd e)))) n0 in
      wr v c s) v.

  (** xmmHierarchicalHmm.cpp 226-272: the frontier variable of state [k] of class [i]. *)
  Definition frontier (m : hhmm) (v1 v2 : list T) (i : nat) (h : hclass A) (k : nat) : res T :=
    let N := hc_n h in
    let n := hc_net h in
    let a0 := h_a0 (hc_run h) in
    let enter src := (let* a := rd v1 src in let* row := rd (hh_trans m) src in let* t := rd row i in
      let* p := rd (hh_prior m) i in let* b := rd v2 src in Ok (a * t + p * b)%num) in
    match hc_mode h with
    | Ergodic =>
        let* s := accM N (fun j => let* t := rd (h_trans n) (j * N + k) in let* e := rd (h_exit n) j in let* a := rd a0 j in
          Ok (t / (n1 - e) * a)%num) n0 in
        accM (hh_size m) (fun src => let* q := rd (h_prior n) k in let* w := enter src in Ok (q * w)%num) s
    | LeftRight =>
        if k =? 0 then
          let* t := rd (h_trans n) 0 in
          let* a := rd a0 0 in
          accM (hh_size m) enter (t * a)%num
        else
          let* t := rd (h_trans n) (k * 2) in let* e := rd (h_exit n) k in let* a := rd a0 k in
          let* t' := rd (h_trans n) ((k - 1) * 2 + 1) in let* e' := rd (h_exit n) (k - 1) in let* a' := rd a0 (k - 1) in
          Ok (n0 + t / (n1 - e) * a + t' / (n1 - e') * a')%num
    end.

  (** xmmHierarchicalHmm.cpp 222-316: one class in [forward_update].  The forward variables of a left-right
      class are cleared before they are all written. *)
  Definition update_class (m : hhmm) (v1 v2 : list T) (x : list T) (i : nat) (h : hclass A) (norm : T) : res (hclass A * T) :=
    let N := hc_n h in
    let r := hc_run h in
    let* front := tabM N (frontier m v1 v2 i h) in
    let* (a0, a1, a2, ex, inst, norm) := iterM N (fun k s =>
      let '(a0, a1, a2, ex, inst, norm) := s in
      let* o := hm_obs h x k in
      let* f := rd front k in
      let tmp := (o * f)%num in
      let* q := rd (hh_exit m) i in
      let* e := rd (h_exit (hc_net h)) k in
      let u2 := (q * e * tmp)%num in
      let u1 := ((n1 - q) * e * tmp)%num in
      let u0 := ((n1 - e) * tmp)%num in
      let* a2 := wr a2 k u2 in
      let* a1 := wr a1 k u1 in
      let* a0 := wr a0 k u0 in
      Ok (a0, a1, a2, (ex + (u1 + u2))%num, (inst + (u0 + u1 + u2))%num, (norm + tmp)%num))
      (h_a0 r, h_a1 r, h_a2 r, n0, n0, norm) in
    Ok (hc_set_run (rn_exit ex (ex / inst)%num (rn_inst inst (rn_alpha_h a0 a1 a2 r))) h, norm).

  (** xmmHierarchicalHmm.cpp 203-326: [forward_update]. *)
  Definition hh_forward_update (x : list T) (m : hhmm) : res hhmm :=
    let* v1 := level_masses h_a1 (hh_cls m) (hh_v1 m) in
    let* v2 := level_masses h_a2 (hh_cls m) (hh_v2 m) in
    let* (ms, norm) := sweep (update_class m v1 v2 x) 0 (hh_cls m) n0 in
    let* ms := scale_all norm ms in
    Ok (hh_set_front v1 v2 (hh_started m) (hh_set_cls ms m)).

  (** xmmHierarchicalHmm.cpp 389-404: the first part of [filter]. *)
  Definition hh_forward (x : list T) (m : hhmm) : res hhmm :=
    if hh_hier m then if hh_started m then hh_forward_update x m else hh_forward_init x m
    else
      let* ms := mapM (fun e => let* h := hm_filter x (snd e) in Ok (fst e, h)) (hh_cls m) in
      let* inst := iterM (hh_size m) (fun i v => let* e := rd ms i in wr v i (h_inst (hc_run (snd e)))) (rs_inst (hh_res m)) in
      let r := hh_res m in
      Ok (hh_set_res (mkRes inst (rs_instn r) (rs_sm r) (rs_smn r) (rs_log r) (rs_likeliest r) (rs_out r) (rs_ocov r)) (hh_set_cls ms m)).

  (** xmmHierarchicalHmm.cpp 407-411: results of a class. *)
  Definition hm_post (h : hclass A) : res (hclass A) := let* h := hm_window h in hm_results h.

  (** xmmHierarchicalHmm.cpp 389-462: [filter].  [models\[likeliest\]] of a model without classes: see
      [gm_filter]. *)
  Definition hh_filter (x : list T) (m : hhmm) : res hhmm :=
    let* m := hh_forward x m in
    let* ms := mapM (fun e => let* h := hm_post (snd e) in Ok (fst e, h)) (hh_cls m) in
    let* r := update_results (map fst ms) (map (fun e => h_inst (hc_run (snd e))) ms) (map (fun e => h_log (hc_run (snd e))) ms) (hh_res m) in
    if negb (hh_bim m) then Ok (hh_set_res r (hh_set_cls ms m)) else
    let* no := usub (hh_dim m) (hh_din m) in
    let* ms := mapM (fun e => let* h := hm_regression x (snd e) in Ok (fst e, h)) ms in
    let* (o, c) := match hh_est m with
      | Likeliest =>
          match mget String.eqb ms (rs_likeliest r) with
          | Some h => Ok (h_out (hc_run h), h_ocov (hc_run h))
          | None => Throw RuntimeError
          end
      | Mixture => mix_outputs (hh_cmode m) no (rs_smn r) (map (fun e => (h_out (hc_run (snd e)), h_ocov (hc_run (snd e)))) ms)
      end in
    Ok (hh_set_res (mkRes (rs_inst r) (rs_instn r) (rs_sm r) (rs_smn r) (rs_log r) (rs_likeliest r) o c) (hh_set_cls ms m)).

  Fixpoint hh_filters (xs : list (list T)) (m : hhmm) : res hhmm :=
    match xs with
    | [] => Ok m
    | x :: xs => let* m := hh_filter x m in hh_filters xs m
    end.
End HHMM.
Arguments hhmm : clear implicits.
Arguments outcome : clear implicits.
