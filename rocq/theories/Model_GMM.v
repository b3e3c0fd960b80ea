(** Model of src/models/gmm/xmmGmmSingleClass.cpp and src/models/gmm/xmmGmm.cpp.

    [check_training] is in Model_Life and Model_Model and is left out here.  Copies and JSON are in
    Model_Reload.  The frames of a training set are the values [getValue(t, d)], as in Model_KMeans;
    [getPointer(t)] is the frame, [getPointer_input(t)] and [getPointer_output(t)] its first
    [dimension_input] values and the others (C16).  Functions that can throw return [res]: the object as
    an exception leaves it is not modelled (the training driver of Model_Train treats any exception as a
    failed training). *)
From Coq Require Import String List Bool Arith ZArith QArith.
From Verif Require Import Base Arith Model_Map Model_Ring Model_Phrase Model_Gaussian Model_Config Model_KMeans.
Import ListNotations.
Local Open Scope nat_scope.
Local Open Scope list_scope.

Section GMM.
  Context {A : arith}.
  Local Notation T := (num A).

  (** Run a method of a distribution. *)
  Definition runm {S} (m : stm S unit) (s : S) : res S :=
    match m s with
    | (s', Ok _) => Ok s'
    | (_, Throw e) => Throw e
    | (_, UB) => UB
    end.

  (** [try { m } catch (std::exception& e) { throw std::runtime_error(..) }]. *)
  Definition rethrow {X} (m : res X) : res X :=
    match m with Throw _ => Throw RuntimeError | r => r end.

  (** xmmGmmSingleClass.hpp and xmmModelSingleClass.hpp: the members of a class, with the values of its
      shared parameters.  [gc_buf] is [likelihood_buffer_]. *)
  Record gclass := mkGC {
    gc_bim : bool; gc_dim : nat; gc_din : nat; gc_win : nat;
    gc_par : gmmP A;
    gc_coef : list T; gc_comp : list (gauss A); gc_beta : list T; gc_reg : list T;
    gc_buf : ring T;
    gc_inst : T; gc_log : T; gc_out : list T; gc_ocov : list T }.

  Definition gc_set_coef v (g : gclass) := mkGC (gc_bim g) (gc_dim g) (gc_din g) (gc_win g) (gc_par g) v (gc_comp g) (gc_beta g) (gc_reg g) (gc_buf g) (gc_inst g) (gc_log g) (gc_out g) (gc_ocov g).
  Definition gc_set_comp v (g : gclass) := mkGC (gc_bim g) (gc_dim g) (gc_din g) (gc_win g) (gc_par g) (gc_coef g) v (gc_beta g) (gc_reg g) (gc_buf g) (gc_inst g) (gc_log g) (gc_out g) (gc_ocov g).
  Definition gc_set_beta v (g : gclass) := mkGC (gc_bim g) (gc_dim g) (gc_din g) (gc_win g) (gc_par g) (gc_coef g) (gc_comp g) v (gc_reg g) (gc_buf g) (gc_inst g) (gc_log g) (gc_out g) (gc_ocov g).
  Definition gc_set_reg v (g : gclass) := mkGC (gc_bim g) (gc_dim g) (gc_din g) (gc_win g) (gc_par g) (gc_coef g) (gc_comp g) (gc_beta g) v (gc_buf g) (gc_inst g) (gc_log g) (gc_out g) (gc_ocov g).
  Definition gc_set_buf b i l (g : gclass) := mkGC (gc_bim g) (gc_dim g) (gc_din g) (gc_win g) (gc_par g) (gc_coef g) (gc_comp g) (gc_beta g) (gc_reg g) b i l (gc_out g) (gc_ocov g).
  Definition gc_set_out o c (g : gclass) := mkGC (gc_bim g) (gc_dim g) (gc_din g) (gc_win g) (gc_par g) (gc_coef g) (gc_comp g) (gc_beta g) (gc_reg g) (gc_buf g) (gc_inst g) (gc_log g) o c.

  Definition gc_n (g : gclass) : nat := gp_gauss (gc_par g).
  Definition gc_mode (g : gclass) : cmode := gp_mode (gc_par g).

  (** xmmGmmSingleClass.cpp 224-233: [allocate()].  The identity of the callbacks of the components is
      not followed. *)
  Definition gm_allocate (g : gclass) : res gclass :=
    let* c := g_new 0 (gc_bim g) (gc_dim g) (gc_din g) (gc_mode g) in
    Ok (gc_set_comp (repeat c (gc_n g)) (gc_set_beta (vresize (gc_n g) n0 (gc_beta g)) (gc_set_coef (vresize (gc_n g) n0 (gc_coef g)) g))).

  (** xmmGmmSingleClass.cpp 243-249: [obsProb(observation, c)] for a component [c]. *)
  Definition gm_obs (g : gclass) (x : list T) (c : nat) : res T :=
    if gc_n g <=? c then Throw OutOfRange else
    let* w := rd (gc_coef g) c in
    let* k := rd (gc_comp g) c in
    let* p := g_likelihood k x in
    Ok (w * p)%num.
  (** xmmGmmSingleClass.cpp 235-242: [obsProb(observation)]: all the components. *)
  Definition gm_obs_all (g : gclass) (x : list T) : res T := accM (gc_n g) (gm_obs g x) n0.

  (** xmmGmmSingleClass.cpp 256-275: [obsProb_input]. *)
  Definition gm_obs_input (g : gclass) (x : list T) (c : nat) : res T :=
    if negb (gc_bim g) then Throw RuntimeError else
    let* w := rd (gc_coef g) c in
    let* k := rd (gc_comp g) c in
    let* p := g_likelihood_input k x in
    Ok (w * p)%num.
  Definition gm_obs_input_all (g : gclass) (x : list T) : res T := accM (gc_n g) (gm_obs_input g x) n0.

  (** xmmGmmSingleClass.cpp 277-299: [obsProb_bimodal]. *)
  Definition gm_obs_bim (g : gclass) (x y : list T) (c : nat) : res T :=
    if negb (gc_bim g) then Throw RuntimeError else
    let* w := rd (gc_coef g) c in
    let* k := rd (gc_comp g) c in
    let* p := g_likelihood_bimodal k x y in
    Ok (w * p)%num.
  Definition gm_obs_bim_all (g : gclass) (x y : list T) : res T := accM (gc_n g) (gm_obs_bim g x y) n0.

  (** xmmGmmSingleClass.cpp 557-561: [addCovarianceOffset()]. *)
  Definition gm_offset (g : gclass) : res gclass :=
    let* cs := mapM (runm (g_regularize (gc_reg g))) (gc_comp g) in
    Ok (gc_set_comp cs g).

  (** xmmGmmSingleClass.cpp 563-572: [updateInverseCovariances()]. *)
  Definition gm_inverses (g : gclass) : res gclass :=
    let* cs := rethrow (mapM (runm g_update_inv) (gc_comp g)) in
    Ok (gc_set_comp cs g).

  (** ** Initialisation *)

  (** xmmGmmSingleClass.cpp 512-539: [initParametersToDefault(dataStddev)]. *)
  Definition gm_default (dev : list T) (g : gclass) : res gclass :=
    let reg := map (fun s => nmax (gp_abs (gc_par g)) (gp_rel (gc_par g) * s)%num) dev in
    let* cs := tabM (gc_n g) (fun c =>
      let* k := rd (gc_comp g) c in
      let cov := match gc_mode g with
                 | Full => repeat (gp_abs (gc_par g) / nZ 2)%num (gc_dim g * gc_dim g)
                 | Diagonal => repeat n0 (gc_dim g)
                 end in
      runm (g_regularize reg) (g_set_cov cov k)) in
    let w := (n1 / nN (gc_n g))%num in
    let norm := nsum (gc_n g) (fun _ => w) in
    Ok (gc_set_reg reg (gc_set_comp cs (gc_set_coef (repeat (w / norm)%num (gc_n g)) g))).

  (** xmmGmmSingleClass.cpp 301-313: [initMeansWithKMeans(trainingSet)].  The deviations and the random
      numbers are not used by the biased initialisation. *)
  Definition gm_init_means (data : kdata A) (g : gclass) : res gclass :=
    match data with
    | [] => Ok g
    | _ =>
        let k := km_new (A := A) (gc_n g) in
        let k := mkKM (km_dim k) (km_clusters k) (km_maxit k) (km_thr k) true (km_centers k) (km_dist k) (km_likeliest k) in
        let* k := km_train (gc_dim g) data [] (fun _ => n0) k in
        let* cs := tabM (gc_n g) (fun c =>
          let* comp := rd (gc_comp g) c in
          let* m := iterM (gc_dim g) (fun d m => let* v := rd (km_centers k) (c * gc_dim g + d) in wr m d v) (g_mean comp) in
          Ok (g_set_mean m comp)) in
        Ok (gc_set_comp cs g)
    end.

  (** xmmGmmSingleClass.cpp 333-362: one accumulator of [initCovariances_fullyObserved]: the sum of
      [f(frame)] over segment [n] of every phrase. *)
  Definition seg_acc (gaussians n : nat) (f : list T -> res T) (data : kdata A) : res T :=
    foldM (fun s phrase =>
      let step := length phrase / gaussians in
      accM step (fun t => let* x := rd phrase (n * step + t) in f x) s) data n0.
  Definition seg_count (gaussians : nat) (data : kdata A) : nat :=
    fold_left (fun s phrase => s + length phrase / gaussians) data 0.

  (** xmmGmmSingleClass.cpp 315-388: [initCovariances_fullyObserved(trainingSet)].  Every accumulator is
      computed by itself, with its additions in the order of the code.  The products of two frame values are
      [float] products in C++ ([getValue] returns [float]); here they are products of the arithmetic (see
      [gm_init_cov_with] of Model_Single for [float]). *)
  Definition gm_init_cov (data : kdata A) (g : gclass) : res gclass :=
    match data with
    | [] => Ok g
    | _ =>
        let G := gc_n g in
        let n := gc_dim g in
        let factor := nN (seg_count G data) in
        let mean c d := (let* s := seg_acc G c (fun x => rd x d) data in Ok (s / factor)%num) in
        let entry c d1 d2 :=
          (let* s := seg_acc G c (fun x => let* a := rd x d1 in let* b := rd x d2 in Ok (a * b)%num) data in
           let* m1 := mean c d1 in
           let* m2 := mean c d2 in
           Ok (s / factor - m1 * m2)%num) in
        let* cs := tabM G (fun c =>
          let* comp := rd (gc_comp g) c in
          let* cov := match gc_mode g with
                      | Full => tabM (n * n) (fun q => entry c (q / n) (q mod n))
                      | Diagonal => tabM n (fun d => entry c d d)
                      end in
          Ok (g_set_cov cov comp)) in
        Ok (gc_set_comp cs g)
    end.

  (** xmmGmmSingleClass.cpp 88-94: [emAlgorithmInit(trainingSet)]; [dev] is the standard deviation of the
      training set. *)
  Definition gm_init (data : kdata A) (dev : list T) (g : gclass) : res gclass :=
    let* g := gm_default dev g in
    let* g := gm_init_means data g in
    let* g := gm_init_cov data g in
    let* g := gm_offset g in
    gm_inverses g.

  (** ** An EM update *)

  (** xmmGmmSingleClass.cpp 423-426. *)
  Definition gm_fix (p : T) : T :=
    if neqb p n0 || nisnan p || nisinf p then nofQ (1 # (10 ^ 100)) else p.

  (** xmmGmmSingleClass.cpp 413-421: the likelihood of a frame for a component. *)
  Definition gm_frame_obs (g : gclass) (x : list T) (c : nat) : res T :=
    if gc_bim g then gm_obs_bim g (firstn (gc_din g) x) (skipn (gc_din g) x) c else gm_obs g x c.

  (** xmmGmmSingleClass.cpp 411-434: responsibilities of one frame.  The state: the responsibilities of the
      frames so far, [E], and [log_prob]. *)
  Definition gm_estep_frame (g : gclass) (s : list (list T) * list T * T) (x : list T) : res (list (list T) * list T * T) :=
    let '(ps, E, lp) := s in
    let* p := tabM (gc_n g) (fun c => let* v := gm_frame_obs g x c in Ok (gm_fix v)) in
    let norm := nsum (gc_n g) (fun c => nth c p n0) in
    let p := map (fun v => (v / norm)%num) p in
    Ok (ps ++ [p], tab (gc_n g) (fun c => (nth c E n0 + nth c p n0)%num), (lp + nln norm)%num).

  (** xmmGmmSingleClass.cpp 390-436.  [frames] are the frames of all the phrases one after the other, so
      that frame [t] of a phrase has index [tbase + t]. *)
  Definition gm_estep (g : gclass) (frames : list (list T)) : res (list (list T) * list T * T) :=
    foldM (gm_estep_frame g) frames ([], repeat n0 (gc_n g), n0).

  (** xmmGmmSingleClass.cpp 444-459, 466-477, 490-501: a sum over the frames weighted by the
      responsibilities of component [c]. *)
  Definition gm_wsum (ps frames : list (list T)) (c : nat) (f : T -> list T -> res T) : res T :=
    accM (length frames) (fun i =>
      let* p := rd ps i in let* w := rd p c in let* x := rd frames i in f w x) n0.

  (** xmmGmmSingleClass.cpp 443-460: the new mean of component [c]. *)
  Definition gm_mean (n : nat) (ps frames : list (list T)) (E : list T) (c : nat) (comp : gauss A) : res (gauss A) :=
    let* e := rd E c in
    let* m := iterM n (fun d m =>
      let* s := gm_wsum ps frames c (fun w x => let* v := rd x d in Ok (w * v)%num) in
      wr m d (s / e)%num) (g_mean comp) in
    Ok (g_set_mean m comp).

  (** xmmGmmSingleClass.cpp 462-505: the new covariance of component [c]. *)
  Definition gm_cov (mode : cmode) (n : nat) (ps frames : list (list T)) (E : list T) (c : nat) (comp : gauss A) : res (gauss A) :=
    let* e := rd E c in
    let dev x d := (let* v := rd x d in let* m := rd (g_mean comp) d in Ok (v - m)%num) in
    let entry d1 d2 :=
      (let* s := gm_wsum ps frames c (fun w x => let* a := dev x d1 in let* b := dev x d2 in Ok (w * a * b)%num) in
       Ok (s / e)%num) in
    let* cov :=
      match mode with
      | Full =>
          iterM n (fun d1 cov =>
            iterM (n - d1) (fun k cov =>
              let* v := entry d1 (d1 + k) in
              let* cov := wr cov (d1 * n + (d1 + k)) v in
              if k =? 0 then Ok cov else wr cov ((d1 + k) * n + d1) v) cov) (g_cov comp)
      | Diagonal => iterM n (fun d cov => let* v := entry d d in wr cov d v) (g_cov comp)
      end in
    Ok (g_set_cov cov comp).

  (** xmmGmmSingleClass.cpp 390-510: [emAlgorithmUpdate(trainingSet)]; returns the log-likelihood. *)
  Definition gm_update (frames : list (list T)) (g : gclass) : res (gclass * T) :=
    let* (ps, E, lp) := gm_estep g frames in
    let coef := tab (gc_n g) (fun c => (nth c E n0 / nN (length frames))%num) in
    let* cs := tabM (gc_n g) (fun c => let* k := rd (gc_comp g) c in gm_mean (gc_dim g) ps frames E c k) in
    let* cs := tabM (gc_n g) (fun c => let* k := rd cs c in gm_cov (gc_mode g) (gc_dim g) ps frames E c k) in
    let g := gc_set_comp cs (gc_set_coef coef g) in
    let* g := gm_offset g in
    let* g := gm_inverses g in
    Ok (g, lp).

  (** Any number of updates. *)
  Fixpoint gm_updates (k : nat) (frames : list (list T)) (g : gclass) : res gclass :=
    match k with
    | O => Ok g
    | S k => let* (g, _) := gm_update frames g in gm_updates k frames g
    end.

  (** xmmGmmSingleClass.cpp 541-555: [normalizeMixtureCoeffs()]. *)
  Definition gm_normalize (g : gclass) : gclass :=
    let norm := nsum (gc_n g) (fun c => nth c (gc_coef g) n0) in
    gc_set_coef (if (n0 <? norm)%num then map (fun w => (w / norm)%num) (gc_coef g) else repeat (n1 / nN (gc_n g))%num (gc_n g)) g.

  (** ** Recognition *)

  (** xmmGmmSingleClass.cpp 633-641 (and xmmHmmSingleClass.cpp 1286-1292): push the logarithm of the
      likelihood [p]; returns the buffer and the smoothed log-likelihood. *)
  Definition smooth (buf : ring T) (p : T) : res (ring T * T) :=
    let* buf := ring_push1 buf (nln p) in
    let* s := accM (ring_size_t buf) (fun i => ring_get buf 0 i) n0 in
    Ok (buf, (s / nN (ring_size_t buf))%num).

  (** xmmGmmSingleClass.cpp 607-631: [likelihood(observation, observation_output)]; [y] is empty when there
      is no output. *)
  Definition gm_likelihood (x y : list T) (g : gclass) : res gclass :=
    let* b := iterM (gc_n g) (fun c b =>
      let* p := if gc_bim g then match y with [] => gm_obs_input g x c | _ => gm_obs_bim g x y c end else gm_obs g x c in
      wr b c p) (gc_beta g) in
    let lik := nsum (gc_n g) (fun c => nth c b n0) in
    let* b' := iterM (gc_n g) (fun c b => let* v := rd b c in wr b c (v / lik)%num) b in
    let* (buf, l) := smooth (gc_buf g) lik in
    Ok (gc_set_buf buf lik l (gc_set_beta b' g)).

  (** xmmGmmSingleClass.cpp 574-605: [regression(observation_input)]. *)
  Definition gm_regression (x : list T) (g : gclass) : res gclass :=
    let* no := usub (gc_dim g) (gc_din g) in
    let* (o, v) := iterM (gc_n g) (fun c s =>
      let* k := rd (gc_comp g) c in
      let* y := g_regression k x in
      let* b := rd (gc_beta g) c in
      iterM no (fun d s =>
        let '(o, v) := s in
        let* a := rd o d in
        let* yd := rd y d in
        let* o := wr o d (a + b * yd)%num in
        let* v := match gc_mode g with
          | Full => iterM no (fun d2 v =>
              let* a := rd v (d * no + d2) in
              let* c := rd (g_out k) (d * no + d2) in
              wr v (d * no + d2) (a + b * b * c)%num) v
          | Diagonal =>
              let* a := rd v d in
              let* c := rd (g_out k) d in
              wr v d (a + b * b * c)%num
          end in
        Ok (o, v)) s)
      (repeat n0 no, repeat n0 (match gc_mode g with Full => no * no | Diagonal => no end)) in
    Ok (gc_set_out o v g).

  (** xmmGmmSingleClass.cpp 79-86: [filter(observation)]. *)
  Definition gm_filter1 (x : list T) (g : gclass) : res gclass :=
    let* g := gm_likelihood x [] g in
    if gc_bim g then gm_regression x g else Ok g.

  (** xmmModelSingleClass.cpp 225-229: [reset()]. *)
  Definition gm_reset1 (g : gclass) : gclass :=
    gc_set_buf (ring_clear (ring_resize n0 (gc_buf g) (gc_win g))) (gc_inst g) (gc_log g) g.

  (** ** Several classes *)

  (** xmmModelParameters.hpp: [MultiClassRegressionEstimator]. *)
  Inductive restimator := Likeliest | Mixture.

  (** xmmModelResults.hpp, [ClassResults]: the class-level results. *)
  Record results := mkRes {
    rs_inst : list T; rs_instn : list T; rs_sm : list T; rs_smn : list T; rs_log : list T;
    rs_likeliest : string; rs_out : list T; rs_ocov : list T }.

  (** xmmGmm.hpp and xmmModel.hpp: [gm_models] is the map [models], in label order. *)
  Record gmm := mkGMM {
    gm_bim : bool; gm_dim : nat; gm_din : nat;
    gm_est : restimator; gm_cmode : cmode;
    gm_models : list (string * gclass);
    gm_res : results }.

  Definition gm_set (ms : list (string * gclass)) (r : results) (m : gmm) : gmm :=
    mkGMM (gm_bim m) (gm_dim m) (gm_din m) (gm_est m) (gm_cmode m) ms r.

  (** Index of the first strict maximum of the first [n] values. *)
  Definition argmax_step (v : list T) (i : nat) (s : nat * T) : nat * T :=
    if (i =? 0) || (snd s <? nth i v n0)%num then (i, nth i v n0) else s.

  (** xmmGmm.cpp 52-82 (and xmmHierarchicalHmm.cpp 464-497): the class-level results from the likelihoods
      and log-likelihoods of the classes.  The stores are into vectors of [size()] entries or more. *)
  Definition update_results (labels : list string) (insts logs : list T) (r : results) : res results :=
    let n := length labels in
    let* inst := iterM n (fun i v => let* x := rd insts i in wr v i x) (rs_inst r) in
    let* lg := iterM n (fun i v => let* x := rd logs i in wr v i x) (rs_log r) in
    let* sm := iterM n (fun i v => let* x := rd logs i in wr v i (nexp x)) (rs_sm r) in
    let ni := nsum n (fun i => nth i insts n0) in
    let ns := nsum n (fun i => nexp (nth i logs n0)) in
    let best := fst (fold_left (fun s i => argmax_step logs i s) (seq 0 n) (0, n0)) in
    let* instn := iterM n (fun i v => let* x := rd insts i in wr v i (x / ni)%num) (rs_instn r) in
    let* smn := iterM n (fun i v => let* x := rd logs i in wr v i (nexp x / ns)%num) (rs_smn r) in
    let like := match nth_error labels best with Some l => l | None => rs_likeliest r end in
    Ok (mkRes inst instn sm smn lg like (rs_out r) (rs_ocov r)).

  Definition csq (m : cmode) (n : nat) : nat := match m with Full => n * n | Diagonal => n end.

  (** xmmGmm.cpp 86-106: [reset()]. *)
  Definition gm_reset (m : gmm) : res gmm :=
    let n := length (gm_models m) in
    let r := gm_res m in
    let ms := map (fun e => (fst e, gm_reset1 (snd e))) (gm_models m) in
    let* (o, c) := if gm_bim m then
        let* no := usub (gm_dim m) (gm_din m) in
        Ok (vresize no n0 (rs_out r), repeat n0 (csq (gm_cmode m) no))
      else Ok (rs_out r, rs_ocov r) in
    Ok (gm_set ms (mkRes (vresize n n0 (rs_inst r)) (vresize n n0 (rs_instn r)) (vresize n n0 (rs_sm r)) (vresize n n0 (rs_smn r))
      (vresize n n0 (rs_log r)) (rs_likeliest r) o c) m).

  (** xmmGmm.cpp 137-162 (and xmmHierarchicalHmm.cpp 426-460): the outputs of the classes, with their
      covariances, weighted by [w]. *)
  Definition mix_outputs (mode : cmode) (no : nat) (w : list T) (outs : list (list T * list T)) : res (list T * list T) :=
    iterM (length outs) (fun i s =>
      let* (yo, yc) := rd outs i in
      let* b := rd w i in
      iterM no (fun d s =>
        let '(o, v) := s in
        let* a := rd o d in
        let* y := rd yo d in
        let* o := wr o d (a + b * y)%num in
        let* v := match mode with
          | Full => iterM no (fun d2 v =>
              let* a := rd v (d * no + d2) in
              let* c := rd yc (d * no + d2) in
              wr v (d * no + d2) (a + b * c)%num) v
          | Diagonal =>
              let* a := rd v d in
              let* c := rd yc d in
              wr v d (a + b * c)%num
          end in
        Ok (o, v)) s) (repeat n0 no, repeat n0 (csq mode no)).

  (** xmmGmm.cpp 108-164: [filter(observation)].  [models\[likeliest\]] of a model without classes tries to
      build a class without shared parameters, which throws (xmmModelSingleClass.cpp 46-50). *)
  Definition gm_filter (x : list T) (m : gmm) : res gmm :=
    let* ms := mapM (fun e => let* g := gm_filter1 x (snd e) in Ok (fst e, g)) (gm_models m) in
    let* r := update_results (map fst ms) (map (fun e => gc_inst (snd e)) ms) (map (fun e => gc_log (snd e)) ms) (gm_res m) in
    let m := gm_set ms r m in
    if negb (gm_bim m) then Ok m else
    let* no := usub (gm_dim m) (gm_din m) in
    match gm_est m with
    | Likeliest =>
        match mget String.eqb ms (rs_likeliest r) with
        | Some g => Ok (gm_set ms (mkRes (rs_inst r) (rs_instn r) (rs_sm r) (rs_smn r) (rs_log r) (rs_likeliest r) (gc_out g) (gc_ocov g)) m)
        | None => Throw RuntimeError
        end
    | Mixture =>
        let* (o, c) := mix_outputs (gm_cmode m) no (rs_smn r) (map (fun e => (gc_out (snd e), gc_ocov (snd e))) ms) in
        Ok (gm_set ms (mkRes (rs_inst r) (rs_instn r) (rs_sm r) (rs_smn r) (rs_log r) (rs_likeliest r) o c) m)
    end.
End GMM.
Arguments gclass : clear implicits.
Arguments gmm : clear implicits.
Arguments results : clear implicits.
