(** Model of src/models/hmm/xmmHmmSingleClass.cpp: one class.

    [check_training] is in Model_Life and is left out here.  Copies and JSON are in Model_Reload.
    [prior], [transition] and the exit probabilities are [float] in C++; here they are numbers of the
    arithmetic, as everything else.  The frames of a phrase are given as in Model_GMM.  Functions that can
    throw return [res]: the object as an exception leaves it is not modelled. *)
From Coq Require Import String List Bool Arith ZArith QArith.
From Verif Require Import Base Arith Model_Map Model_Ring Model_Phrase Model_Gaussian Model_Config Model_KMeans Model_GMM.
Import ListNotations.
Local Open Scope nat_scope.
Local Open Scope list_scope.

Section HMM.
  Context {A : arith}.
  Local Notation T := (num A).

  (** ** Forward and backward recursions.
      [obs i] is the call that computes the likelihood of the current observation for state [i]. *)

  (** xmmHmmSingleClass.cpp 356-381, 407-424, 620-629: divide the forward variables. *)
  Definition scale_vec (N : nat) (norm : T) (al : list T) : res (list T) :=
    iterM N (fun j al => let* v := rd al j in wr al j (v / norm)%num) al.

  (** xmmHmmSingleClass.cpp 338-381: [forward_init]; returns the forward variables and the scaling. *)
  Definition forward_init (N : nat) (mode : tmode) (prior : list T) (obs : nat -> res T) (alpha : list T) : res (list T * T) :=
    let* (al, norm) := match mode with
      | Ergodic => iterM N (fun i s =>
          let* p := rd prior i in
          let* o := obs i in
          let* al := wr (fst s) i (p * o)%num in
          Ok (al, (snd s + p * o)%num)) (alpha, n0)
      | LeftRight =>
          let* o := obs 0 in
          let* al := wr (repeat n0 N) 0 o in
          Ok (al, (n0 + o)%num)
      end in
    if (n0 <? norm)%num then
      let* al := scale_vec N norm al in
      Ok (al, (n1 / norm)%num)
    else
      let* al := iterM N (fun j al => wr al j (n1 / nN N)%num) al in
      Ok (al, n1).

  (** xmmHmmSingleClass.cpp 391-402, 604-616: the forward variable of state [j] before the observation. *)
  Definition forward_in (N : nat) (mode : tmode) (tr prev : list T) (j : nat) : res T :=
    match mode with
    | Ergodic => accM N (fun i => let* a := rd prev i in let* p := rd tr (i * N + j) in Ok (a * p)%num) n0
    | LeftRight =>
        let* a := rd prev j in
        let* p := rd tr (j * 2) in
        if 0 <? j then
          let* b := rd prev (j - 1) in
          let* q := rd tr ((j - 1) * 2 + 1) in
          Ok (n0 + a * p + b * q)%num
        else
          let* b := rd prev (N - 1) in
          let* q := rd tr (N * 2 - 1) in
          Ok (n0 + a * p + b * q)%num
    end.

  (** xmmHmmSingleClass.cpp 383-424: [forward_update]; also 597-630, [baumWelch_forward_update], with
      [obs] reading a table of likelihoods.  A total of at most 1e-300 leaves the variables as they are and
      returns 0. *)
  Definition forward_update (N : nat) (mode : tmode) (tr : list T) (obs : nat -> res T) (alpha : list T) : res (list T * T) :=
    let* (al, norm) := iterM N (fun j s =>
      let* v := forward_in N mode tr alpha j in
      let* o := obs j in
      let* al := wr (fst s) j (v * o)%num in
      Ok (al, (snd s + v * o)%num)) (alpha, n0) in
    if (nofQ (1 # (10 ^ 300)) <? norm)%num then
      let* al := scale_vec N norm al in
      Ok (al, (n1 / norm)%num)
    else Ok (al, n0).

  (** xmmHmmSingleClass.cpp 637-649. *)
  Definition backward_in (N : nat) (mode : tmode) (tr b prev : list T) (i : nat) : res T :=
    match mode with
    | Ergodic => accM N (fun j =>
        let* p := rd tr (i * N + j) in let* v := rd prev j in let* o := rd b j in Ok (p * v * o)%num) n0
    | LeftRight =>
        let* p := rd tr (i * 2) in
        let* v := rd prev i in
        let* o := rd b i in
        if i <? N - 1 then
          let* q := rd tr (i * 2 + 1) in
          let* w := rd prev (i + 1) in
          let* r := rd b (i + 1) in
          Ok (n0 + p * v * o + q * w * r)%num
        else Ok (n0 + p * v * o)%num
    end.
  (** xmmHmmSingleClass.cpp 632-657: [baumWelch_backward_update]; [b] are the likelihoods of the next frame. *)
  Definition backward_update (N : nat) (mode : tmode) (tr : list T) (ct : T) (b beta : list T) : res (list T) :=
    tabM N (fun i =>
      let* v := backward_in N mode tr b beta i in
      let v := (v * ct)%num in
      Ok (if nisnan v || nisinf (nabs v) then nZ (10 ^ 100) else v)).

  (** ** Baum-Welch, for the likelihoods [B] of a phrase: [B t i] is the likelihood of frame [t] for state
      [i].  The arrays [\[t * numStates + i\]] of the code are lists of lists. *)

  (** xmmHmmSingleClass.cpp 701-707: forward variables and scalings of the frames after the first. *)
  Fixpoint forward_seq (N : nat) (mode : tmode) (tr : list T) (bs : list (list T)) (alpha : list T) : res (list (list T) * list T) :=
    match bs with
    | [] => Ok ([], [])
    | b :: bs =>
        let* (al, c) := forward_update N mode tr (rd b) alpha in
        let* (als, cs) := forward_seq N mode tr bs al in
        Ok (al :: als, c :: cs)
    end.

  (** xmmHmmSingleClass.cpp 710-717: backward variables. *)
  Fixpoint backward_seq (N : nat) (mode : tmode) (tr : list T) (bs : list (list T)) (cs : list T) : res (list (list T)) :=
    match cs with
    | [] => Ok []
    | [c] => Ok [repeat c N]
    | c :: cs =>
        let* bt := backward_seq N mode tr (tl bs) cs in
        let* b := rd bs 1 in
        let* nb := rd bt 0 in
        let* v := backward_update N mode tr c b nb in
        Ok (v :: bt)
    end.

  (** xmmHmmSingleClass.cpp 719-726: state occupancies of a frame. *)
  Definition gamma_of (N : nat) (al be : list T) (c : T) : res (list T) :=
    tabM N (fun i => let* a := rd al i in let* b := rd be i in Ok (a * b / c)%num).

  (** xmmHmmSingleClass.cpp 732-760: occupancies of the components of a state; [oo] are the likelihoods of
      the components. *)
  Definition gamma_mix (g : T) (oo : list T) : list T :=
    let ps := map (fun o => (g * o)%num) oo in
    let norm := nsum (length oo) (fun c => nth c oo n0) in
    if (n0 <? norm)%num then map (fun p => (p / norm)%num) ps else ps.

  (** xmmHmmSingleClass.cpp 762-792: transition occupancies between a frame and the next; [b] and [be] are
      the likelihoods and backward variables of the next frame.  The entry of a left-right model that the
      code never writes is 0. *)
  Definition epsilon_of (N : nat) (mode : tmode) (tr al be b : list T) : res (list T) :=
    match mode with
    | Ergodic => tabM (N * N) (fun q =>
        let* a := rd al (q / N) in let* p := rd tr q in let* v := rd be (q mod N) in let* o := rd b (q mod N) in
        Ok (a * p * v * o)%num)
    | LeftRight => tabM (N * 2) (fun q =>
        let i := q / 2 in
        if (q mod 2 =? 1) && negb (i <? N - 1) then Ok n0 else
        let j := i + q mod 2 in
        let* a := rd al i in let* p := rd tr q in let* v := rd be j in let* o := rd b j in
        Ok (a * p * v * o)%num)
    end.

  Record estep := mkES { es_gamma : list (list T); es_mix : list (list (list T)); es_eps : list (list T); es_lp : T }.

  (** xmmHmmSingleClass.cpp 659-795: [baumWelch_forwardBackward].  [obs0] is the call of [forward_init] on
      the first frame, [B] the table of likelihoods, [C t i] the likelihoods of the components of state [i]
      (of the state when there is one component). *)
  Definition forward_backward (N : nat) (mode : tmode) (prior tr alpha : list T) (obs0 : nat -> res T)
      (B : list (list T)) (C : list (list (list T))) : res (estep * list T) :=
    let len := length B in
    let* (a0, c0) := forward_init N mode prior obs0 alpha in
    let* (als, cs) := forward_seq N mode tr (tl B) a0 in
    let als := a0 :: als in
    let cs := c0 :: cs in
    let* bes := backward_seq N mode tr B cs in
    let* gam := tabM len (fun t => let* a := rd als t in let* b := rd bes t in let* c := rd cs t in gamma_of N a b c) in
    let* mix := tabM len (fun t => let* g := rd gam t in let* row := rd C t in
      tabM N (fun i => let* gi := rd g i in let* oo := rd row i in Ok (gamma_mix gi oo))) in
    let* eps := tabM (len - 1) (fun t => let* a := rd als t in let* be := rd bes (t + 1) in let* b := rd B (t + 1) in
      epsilon_of N mode tr a be b) in
    Ok (mkES gam mix eps (fold_left (fun s c => (s - nln c)%num) cs n0), last als a0).

  (** ** The class *)
  (** xmmHmmSingleClass.hpp 190-260: [net] is what training sets, [run] what filtering changes.
      [previous_alpha_], [previous_beta_] and [beta_] are overwritten before every use and left out. *)
  Record hnet := mkNet { h_states : list (gclass A); h_prior : list T; h_trans : list T; h_exit : list T }.
  Record hrun := mkRun {
    h_alpha : list T; h_a0 : list T; h_a1 : list T; h_a2 : list T; h_started : bool; h_buf : ring T;
    h_inst : T; h_log : T; h_prog : T; h_exlik : T; h_exratio : T; h_like : nat;
    h_wmin : nat; h_wmax : nat; h_wnorm : T; h_out : list T; h_ocov : list T }.
  Record hclass := mkHC {
    hc_bim : bool; hc_dim : nat; hc_din : nat; hc_win : nat;
    hc_par : hmmP A; hc_hier : bool; hc_net : hnet; hc_run : hrun }.

  Definition hc_set_net (n : hnet) (h : hclass) := mkHC (hc_bim h) (hc_dim h) (hc_din h) (hc_win h) (hc_par h) (hc_hier h) n (hc_run h).
  Definition hc_set_run (r : hrun) (h : hclass) := mkHC (hc_bim h) (hc_dim h) (hc_din h) (hc_win h) (hc_par h) (hc_hier h) (hc_net h) r.
  Definition hc_set_hier (b : bool) (h : hclass) := mkHC (hc_bim h) (hc_dim h) (hc_din h) (hc_win h) (hc_par h) b (hc_net h) (hc_run h).

  Definition hc_n (h : hclass) : nat := hp_states (hc_par h).
  Definition hc_mode (h : hclass) : tmode := hp_trans (hc_par h).

  Definition nt_states s (n : hnet) := mkNet s (h_prior n) (h_trans n) (h_exit n).
  Definition nt_prior p (n : hnet) := mkNet (h_states n) p (h_trans n) (h_exit n).
  Definition nt_trans t (n : hnet) := mkNet (h_states n) (h_prior n) t (h_exit n).
  Definition nt_exit e (n : hnet) := mkNet (h_states n) (h_prior n) (h_trans n) e.
  Definition rn_alpha v (r : hrun) := mkRun v (h_a0 r) (h_a1 r) (h_a2 r) (h_started r) (h_buf r) (h_inst r) (h_log r) (h_prog r) (h_exlik r) (h_exratio r) (h_like r) (h_wmin r) (h_wmax r) (h_wnorm r) (h_out r) (h_ocov r).
  Definition rn_alpha_h a0 a1 a2 (r : hrun) := mkRun (h_alpha r) a0 a1 a2 (h_started r) (h_buf r) (h_inst r) (h_log r) (h_prog r) (h_exlik r) (h_exratio r) (h_like r) (h_wmin r) (h_wmax r) (h_wnorm r) (h_out r) (h_ocov r).
  Definition rn_started v (r : hrun) := mkRun (h_alpha r) (h_a0 r) (h_a1 r) (h_a2 r) v (h_buf r) (h_inst r) (h_log r) (h_prog r) (h_exlik r) (h_exratio r) (h_like r) (h_wmin r) (h_wmax r) (h_wnorm r) (h_out r) (h_ocov r).
  Definition rn_buf v (r : hrun) := mkRun (h_alpha r) (h_a0 r) (h_a1 r) (h_a2 r) (h_started r) v (h_inst r) (h_log r) (h_prog r) (h_exlik r) (h_exratio r) (h_like r) (h_wmin r) (h_wmax r) (h_wnorm r) (h_out r) (h_ocov r).
  Definition rn_inst v (r : hrun) := mkRun (h_alpha r) (h_a0 r) (h_a1 r) (h_a2 r) (h_started r) (h_buf r) v (h_log r) (h_prog r) (h_exlik r) (h_exratio r) (h_like r) (h_wmin r) (h_wmax r) (h_wnorm r) (h_out r) (h_ocov r).
  Definition rn_exit l q (r : hrun) := mkRun (h_alpha r) (h_a0 r) (h_a1 r) (h_a2 r) (h_started r) (h_buf r) (h_inst r) (h_log r) (h_prog r) l q (h_like r) (h_wmin r) (h_wmax r) (h_wnorm r) (h_out r) (h_ocov r).
  Definition rn_window l a b w (r : hrun) := mkRun (h_alpha r) (h_a0 r) (h_a1 r) (h_a2 r) (h_started r) (h_buf r) (h_inst r) (h_log r) (h_prog r) (h_exlik r) (h_exratio r) l a b w (h_out r) (h_ocov r).
  Definition rn_log l p (r : hrun) := mkRun (h_alpha r) (h_a0 r) (h_a1 r) (h_a2 r) (h_started r) (h_buf r) (h_inst r) l p (h_exlik r) (h_exratio r) (h_like r) (h_wmin r) (h_wmax r) (h_wnorm r) (h_out r) (h_ocov r).
  Definition rn_out o c (r : hrun) := mkRun (h_alpha r) (h_a0 r) (h_a1 r) (h_a2 r) (h_started r) (h_buf r) (h_inst r) (h_log r) (h_prog r) (h_exlik r) (h_exratio r) (h_like r) (h_wmin r) (h_wmax r) (h_wnorm r) o c.

  (** xmmHmmSingleClass.cpp 1352-1361: [updateExitProbabilities(NULL)]. *)
  Definition exit_default (N : nat) (ex : list T) : res (list T) := wr (vresize N n0 ex) (N - 1) (nofQ (1 # 10)).
  Definition hm_exit_default (h : hclass) : res hclass :=
    if negb (hc_hier h) then Throw RuntimeError else
    let* e := exit_default (hc_n h) (h_exit (hc_net h)) in
    Ok (hc_set_net (nt_exit e (hc_net h)) h).
  (** xmmHmmSingleClass.cpp 1362-1370: [updateExitProbabilities(exitProbabilities)]; reading past the end of
      the array given is undefined. *)
  Definition hm_exit_set (v : list T) (h : hclass) : res hclass :=
    if negb (hc_hier h) then Throw RuntimeError else
    let* e := iterM (hc_n h) (fun i e => let* x := rd v i in wr e i x) (vresize (hc_n h) n0 (h_exit (hc_net h))) in
    Ok (hc_set_net (nt_exit e (hc_net h)) h).
  (** xmmHmmSingleClass.cpp 1373-1380: [addExitPoint]; the index is an [int] compared with an [unsigned]:
      a negative one is out of range. *)
  Definition hm_exit_point (i : Z) (p : T) (h : hclass) : res hclass :=
    if negb (hc_hier h) then Throw RuntimeError else
    if (i <? 0)%Z || (Z.of_nat (hc_n h) <=? i)%Z then Throw OutOfRange else
    let* e := wr (h_exit (hc_net h)) (Z.to_nat i) p in
    Ok (hc_set_net (nt_exit e (hc_net h)) h).

  (** xmmGmmSingleClass.cpp 36-46 and xmmHmmSingleClass.cpp 113-120, 262-275: a new mixture with the
      parameters of the class; the copies in [states] have a likelihood buffer of the default length 1. *)
  Definition new_mixture (h : hclass) (len : nat) : gclass A :=
    let p := hc_par h in
    mkGC (A := A) (hc_bim h) (hc_dim h) (hc_din h) (hc_win h)
      (mkGmmP (A := A) (hp_gauss p) (hp_rel p) (hp_abs p) (hp_mode p)) [] [] [] [] (ring_new n0 1 len) n0 n0 [] [].

  (** xmmHmmSingleClass.cpp 99-125: [allocate()]. *)
  Definition hm_allocate (h : hclass) : res hclass :=
    let N := hc_n h in
    let prior := match hc_mode h with Ergodic => vresize N n0 (h_prior (hc_net h)) | LeftRight => [] end in
    let trans := vresize (match hc_mode h with Ergodic => N * N | LeftRight => N * 2 end) n0 (h_trans (hc_net h)) in
    let* g := gm_allocate (new_mixture h 1) in
    let h := hc_set_run (rn_alpha (vresize N n0 (h_alpha (hc_run h))) (hc_run h)) h in
    let h := hc_set_net (mkNet (repeat g N) prior trans (h_exit (hc_net h))) h in
    if hc_hier h then hm_exit_default h else Ok h.

  (** xmmHmmSingleClass.cpp 293-310: [setErgodic], [setLeftRight]. *)
  Definition set_ergodic (N : nat) : list T * list T :=
    (repeat (n1 / nN N)%num N, repeat (n1 / nN N)%num (N * N)).
  Definition set_leftright (N : nat) : res (list T) :=
    let* t := wr (repeat (nofQ (1 # 2)) (N * 2)) ((N - 1) * 2) n1 in
    wr t ((N - 1) * 2 + 1) n0.

  (** xmmHmmSingleClass.cpp 312-334: [normalizeTransitions()]: prior and transitions. *)
  Definition normalize_trans (N : nat) (mode : tmode) (tr : list T) : res (list T) :=
    match mode with
    | Ergodic => iterM N (fun i tr =>
        let* s := accM N (fun j => rd tr (i * N + j)) n0 in
        iterM N (fun j tr => let* v := rd tr (i * N + j) in wr tr (i * N + j) (v / s)%num) tr) tr
    | LeftRight => iterM N (fun i tr =>
        let* a := rd tr (i * 2) in
        let* b := rd tr (i * 2 + 1) in
        let* tr := wr tr (i * 2) (a / (a + b))%num in
        wr tr (i * 2 + 1) (b / (a + b))%num) tr
    end.
  Definition normalize_prior (N : nat) (mode : tmode) (pr : list T) : res (list T) :=
    match mode with
    | Ergodic => let* s := accM N (rd pr) n0 in iterM N (fun i pr => let* v := rd pr i in wr pr i (v / s)%num) pr
    | LeftRight => Ok pr
    end.

  (** ** Training *)

  (** xmmHmmSingleClass.cpp 127-137: [initParametersToDefault]. *)
  Definition hm_default (dev : list T) (h : hclass) : res hclass :=
    let N := hc_n h in
    let n := hc_net h in
    let* (pr, tr) := match hc_mode h with
      | Ergodic => Ok (set_ergodic N)
      | LeftRight => let* t := set_leftright N in Ok (h_prior n, t)
      end in
    let* ss := tabM N (fun i => let* g := rd (h_states n) i in gm_default dev g) in
    Ok (hc_set_net (mkNet ss pr tr (h_exit n)) h).

  (** xmmHmmSingleClass.cpp 250-291: the data of state [s]: segment [s] of every phrase with at least one
      frame per state. *)
  Definition seg_data (N s : nat) (data : kdata A) : kdata A :=
    flat_map (fun ph => let step := length ph / N in
      if step =? 0 then [] else [firstn step (skipn (s * step) ph)]) data.

  (** xmmHmmSingleClass.cpp 262-285: [tmpGMM.train(&temp_ts)] for one state.  The number of updates [k] made
      by the driver (Model_Train) is a parameter, and so is [dev], the standard deviation of the segment
      (C27).  When training fails in C++ the exception is caught by [train] and the parameters reached are
      used; here it is an exception of the initialisation. *)
  Definition gm_fit (h : hclass) (k : nat) (data : kdata A) (dev : list T) : res (gclass A) :=
    let* g := gm_allocate (new_mixture h (hc_win h)) in
    let* g := gm_init data dev g in
    gm_updates k (concat data) g.

  (** xmmHmmSingleClass.cpp 281-287: copy means and covariances, component by component; the inverses of all
      the components are updated after each copy. *)
  Definition adopt (src g : gclass A) : res (gclass A) :=
    iterM (gc_n g) (fun c g =>
      let* s := rd (gc_comp src) c in
      let* k := rd (gc_comp g) c in
      let* cs := wr (gc_comp g) c (g_set_cov (g_cov s) (g_set_mean (g_mean s) k)) in
      gm_inverses (gc_set_comp cs g)) g.

  Definition hm_init_states (iters : nat -> nat) (devs : nat -> list T) (data : kdata A) (h : hclass) : res hclass :=
    let* ss := tabM (hc_n h) (fun s =>
      let* g := rd (h_states (hc_net h)) s in
      match seg_data (hc_n h) s data with
      | [] => Ok g
      | sd => let* f := gm_fit h (iters s) sd (devs s) in adopt f g
      end) in
    Ok (hc_set_net (nt_states ss (hc_net h)) h).

  (** xmmHmmSingleClass.cpp 494-539: [emAlgorithmInit]; [numGaussians] is at least 1 (xmmHmmParameters.cpp:
      minimum 1), so that the other branch is never taken.  The arrays allocated at the end are those of
      [estep]. *)
  Definition hm_init (iters : nat -> nat) (devs : nat -> list T) (dev : list T) (data : kdata A) (h : hclass) : res hclass :=
    match data with
    | [] => Ok h
    | _ => let* h := hm_default dev h in hm_init_states iters devs data h
    end.

  (** xmmHmmSingleClass.cpp 669-682: the likelihood of a training frame for a state and for its component. *)
  Definition hm_frame_obs (h : hclass) (g : gclass A) (x : list T) : res T :=
    if hc_bim h then gm_obs_bim_all g (firstn (hc_din h) x) (skipn (hc_din h) x) else gm_obs_all g x.
  Definition hm_frame_comp (h : hclass) (g : gclass A) (x : list T) (c : nat) : res T :=
    if hc_bim h then gm_obs_bim g (firstn (hc_din h) x) (skipn (hc_din h) x) c else gm_obs g x c.

  (** xmmHmmSingleClass.cpp 659-795 for a phrase of the class. *)
  Definition hm_estep (h : hclass) (alpha : list T) (ph : list (list T)) : res (estep * list T) :=
    let N := hc_n h in
    let n := hc_net h in
    let* B := mapM (fun x => tabM N (fun i => let* g := rd (h_states n) i in hm_frame_obs h g x)) ph in
    let* C := mapM (fun x => tabM N (fun i => let* g := rd (h_states n) i in
      if hp_gauss (hc_par h) =? 1 then let* o := hm_frame_obs h g x in Ok [o]
      else tabM (hp_gauss (hc_par h)) (hm_frame_comp h g x))) ph in
    let obs0 i := (let* x := rd ph 0 in let* g := rd (h_states n) i in hm_frame_obs h g x) in
    forward_backward N (hc_mode h) (h_prior n) (h_trans n) alpha obs0 B C.

  (** xmmHmmSingleClass.cpp 559-566: all the phrases; a phrase without frames is skipped and has empty
      sequences. *)
  Fixpoint hm_esteps (h : hclass) (alpha : list T) (data : kdata A) : res (list estep * list T) :=
    match data with
    | [] => Ok ([], alpha)
    | ph :: data =>
        let* (e, alpha) := match ph with [] => Ok (mkES [] [] [] n0, alpha) | _ => hm_estep h alpha ph end in
        let* (es, alpha) := hm_esteps h alpha data in
        Ok (e :: es, alpha)
    end.

  (** xmmHmmSingleClass.cpp 852-897: the mean of component [c]; [ws] are the occupancies of the components
      of the state at every frame, [e] the total of component [c]. *)
  Definition hm_mean (n : nat) (ws frames : list (list T)) (e : T) (c : nat) (k : gauss A) : res (gauss A) :=
    let* m := tabM n (fun d =>
      let* s := gm_wsum ws frames c (fun w x => let* v := rd x d in Ok (w * v)%num) in
      let v := if (n0 <? e)%num then (s / e)%num else s in
      if nisnan v then Throw RuntimeError else Ok v) in
    Ok (g_set_mean m k).

  (** xmmHmmSingleClass.cpp 899-967: the covariance of component [c]: the upper triangle is accumulated, and
      divided and mirrored when the total is positive. *)
  Definition hm_cov (mode : cmode) (n : nat) (ws frames : list (list T)) (e : T) (c : nat) (k : gauss A) : res (gauss A) :=
    let dev x d := (let* v := rd x d in let* m := rd (g_mean k) d in Ok (v - m)%num) in
    let sum d1 d2 := gm_wsum ws frames c (fun w x => let* a := dev x d1 in let* b := dev x d2 in Ok (w * a * b)%num) in
    let* cov := match mode with
      | Full => tabM (n * n) (fun q =>
          let d1 := q / n in let d2 := q mod n in
          if (n0 <? e)%num then let* s := sum (Nat.min d1 d2) (Nat.max d1 d2) in Ok (s / e)%num
          else if d1 <=? d2 then sum d1 d2 else Ok n0)
      | Diagonal => tabM n (fun d => let* s := sum d d in Ok (if (n0 <? e)%num then (s / e)%num else s))
      end in
    Ok (g_set_cov cov k).

  (** xmmHmmSingleClass.cpp 572-588, 797-971: the new parameters of state [i]. *)
  Definition hm_state (h : hclass) (frames : list (list T)) (es : list estep) (i : nat) (g : gclass A) : res (gclass A) :=
    let G := hp_gauss (hc_par h) in
    let mode := hp_mode (hc_par h) in
    let n := hc_dim h in
    let* ws := mapM (fun row => rd row i) (concat (map es_mix es)) in
    let* E := tabM G (fun c => accM (length frames) (fun t => let* p := rd ws t in rd p c) n0) in
    let g := gm_normalize (gc_set_coef E g) in
    let* cs := tabM G (fun c => let* k := rd (gc_comp g) c in let* e := rd E c in
      let* k := hm_mean n ws frames e c k in hm_cov mode n ws frames e c k) in
    let* g := gm_offset (gc_set_comp cs g) in
    gm_inverses g.

  (** xmmHmmSingleClass.cpp 811-813: [gamma_sum_]. *)
  Definition gamma_sum (es : list estep) (i : nat) : res T :=
    let gs := concat (map es_gamma es) in
    accM (length gs) (fun t => let* g := rd gs t in rd g i) n0.

  (** xmmHmmSingleClass.cpp 973-996: [baumWelch_estimatePrior]; the sequence of a phrase without frames is
      read out of bounds. *)
  Definition hm_prior (N : nat) (es : list estep) : res (list T) :=
    let* p := tabM N (fun i => accM (length es) (fun k => let* e := rd es k in let* g := rd (es_gamma e) 0 in rd g i) n0) in
    let* s := accM (length es) (fun k => accM N (fun i => let* e := rd es k in let* g := rd (es_gamma e) 0 in rd g i) n0) n0 in
    Ok (if (n0 <? s)%num then map (fun v => (v / s)%num) p else p).

  (** xmmHmmSingleClass.cpp 998-1048: entry [q] of the transitions before scaling. *)
  Definition trans_acc (N : nat) (mode : tmode) (es : list estep) (q : nat) : res T :=
    let reg := nofQ (1 # (10 ^ 5)) in
    foldM (fun s e =>
      match es_gamma e with
      | [] => Ok s
      | _ =>
          let s := match mode with
            | Ergodic => s
            | LeftRight =>
                if q mod 2 =? 0 then if q / 2 <? N - 1 then (s + reg)%num else (s + reg + reg)%num
                else if q / 2 <? N - 1 then (s + reg)%num else s
            end in
          match mode with
          | LeftRight => if (q mod 2 =? 1) && negb (q / 2 <? N - 1) then Ok s
                         else accM (length (es_eps e)) (fun t => let* v := rd (es_eps e) t in rd v q) s
          | Ergodic => accM (length (es_eps e)) (fun t => let* v := rd (es_eps e) t in rd v q) s
          end
      end) es n0.

  (** xmmHmmSingleClass.cpp 998-1089: [baumWelch_estimateTransitions]. *)
  Definition hm_trans (N : nat) (mode : tmode) (es : list estep) : res (list T) :=
    let w := match mode with Ergodic => N | LeftRight => 2 end in
    tabM (N * w) (fun q =>
      let* s := trans_acc N mode es q in
      let* g := gamma_sum es (q / w) in
      if match mode with Ergodic => false | LeftRight => (q mod 2 =? 1) && negb (q / 2 <? N - 1) end then Ok s else
      let v := (s / (g + nZ 2 * nofQ (1 # (10 ^ 5))))%num in
      if nisnan v then Throw RuntimeError else Ok v).

  (** xmmHmmSingleClass.cpp 553-595: [emAlgorithmUpdate]; returns the log-likelihood. *)
  Definition hm_update (data : kdata A) (h : hclass) : res (hclass * T) :=
    let N := hc_n h in
    let n := hc_net h in
    let* (es, al) := hm_esteps h (h_alpha (hc_run h)) data in
    let lp := fold_left (fun s e => (s + es_lp e)%num) es n0 in
    let* ss := tabM N (fun i => let* g := rd (h_states n) i in hm_state h (concat data) es i g) in
    let* pr := match hc_mode h with Ergodic => hm_prior N es | LeftRight => Ok (h_prior n) end in
    let* tr := hm_trans N (hc_mode h) es in
    Ok (hc_set_run (rn_alpha al (hc_run h)) (hc_set_net (mkNet ss pr tr (h_exit n)) h), lp).

  Fixpoint hm_updates (k : nat) (data : kdata A) (h : hclass) : res hclass :=
    match k with
    | O => Ok h
    | S k => let* (h, _) := hm_update data h in hm_updates k data h
    end.

  (** xmmHmmSingleClass.cpp 541-551: [emAlgorithmTerminate]. *)
  Definition hm_terminate (h : hclass) : res hclass :=
    let n := hc_net h in
    let* tr := normalize_trans (hc_n h) (hc_mode h) (h_trans n) in
    let* pr := normalize_prior (hc_n h) (hc_mode h) (h_prior n) in
    Ok (hc_set_net (mkNet (h_states n) pr tr (h_exit n)) h).

  (** xmmModelSingleClass.cpp 125-187 with [k] updates: a training that is not cancelled. *)
  Definition hm_train (iters : nat -> nat) (devs : nat -> list T) (dev : list T) (k : nat) (data : kdata A) (h : hclass) : res hclass :=
    let* h := hm_allocate h in
    let* h := hm_init iters devs dev data h in
    let* h := hm_updates k data h in
    hm_terminate h.

  (** ** Recognition *)

  (** xmmHmmSingleClass.cpp 1110-1119: [addCyclicTransition]. *)
  Definition cyclic (N : nat) (mode : tmode) (p : T) (tr : list T) : res (list T) :=
    if 1 <? N then wr tr (match mode with Ergodic => (N - 1) * N | LeftRight => (N - 1) * 2 + 1 end) p else Ok tr.

  (** xmmHmmSingleClass.cpp 1094-1108: [reset()]. *)
  Definition hm_reset (h : hclass) : res hclass :=
    let N := hc_n h in
    let r := hc_run h in
    let r := rn_started false (rn_buf (ring_clear (ring_resize n0 (h_buf r) (hc_win h))) r) in
    if hc_hier h then
      Ok (hc_set_run (rn_alpha [] (rn_alpha_h (vresize N n0 (h_a0 r)) (vresize N n0 (h_a1 r)) (vresize N n0 (h_a2 r)) r)) h)
    else
      let* tr := cyclic N (hc_mode h) (nofQ (1 # 20)) (h_trans (hc_net h)) in
      Ok (hc_set_run r (hc_set_net (nt_trans tr (hc_net h)) h)).

  (** xmmHmmSingleClass.cpp 344-352: the likelihood of an observation (its input part in a bimodal model). *)
  Definition hm_obs (h : hclass) (x : list T) (i : nat) : res T :=
    let* g := rd (h_states (hc_net h)) i in
    if hc_bim h then gm_obs_input_all g x else gm_obs_all g x.

  (** The weight of state [i] in the window: [alpha], or [alpha_h\[0\] + alpha_h\[1\]]. *)
  Definition hm_weight (h : hclass) (i : nat) : res T :=
    if hc_hier h then let* a := rd (h_a0 (hc_run h)) i in let* b := rd (h_a1 (hc_run h)) i in Ok (a + b)%num
    else rd (h_alpha (hc_run h)) i.

  (** xmmHmmSingleClass.cpp 1158-1194: [updateAlphaWindow]. *)
  Definition hm_window (h : hclass) : res hclass :=
    let N := hc_n h in
    let* w0 := hm_weight h 0 in
    let* (like, _) := iterM (N - 1) (fun k s =>
      let* w := hm_weight h (k + 1) in
      Ok (if (snd s <? w)%num then (k + 1, w) else s)) (0, w0) in
    let lo := like - N / 2 in
    let hi := Nat.min (like + N / 2) N in
    let* norm := accM (hi - lo) (fun k => hm_weight h (lo + k)) n0 in
    Ok (hc_set_run (rn_window like lo hi norm (hc_run h)) h).

  (** xmmHmmSingleClass.cpp 1285-1318: [updateResults]. *)
  Definition hm_results (h : hclass) : res hclass :=
    let r := hc_run h in
    let* (buf, l) := smooth (h_buf r) (h_inst r) in
    let* p := accM (h_wmax r - h_wmin r) (fun k =>
      let i := h_wmin r + k in
      let* w := hm_weight h i in
      let* w := if hc_hier h then let* c := rd (h_a2 r) i in Ok (w + c)%num else Ok w in
      Ok (w * nN i / h_wnorm r)%num) n0 in
    let d := if hc_n h - 1 =? 0 then n1 else nN (hc_n h - 1) in
    Ok (hc_set_run (rn_log l (p / d)%num (rn_buf buf r)) h).

  (** xmmHmmSingleClass.cpp 1196-1283: [regression]. *)
  Definition hm_regression (x : list T) (h : hclass) : res hclass :=
    let r := hc_run h in
    let mode := hp_mode (hc_par h) in
    let* no := usub (hc_dim h) (hc_din h) in
    let z := repeat n0 (match mode with Full => no * no | Diagonal => no end) in
    let fire g := (let* g := gm_likelihood x [] g in gm_regression x g) in
    match hp_est (hc_par h) with
    | RLikeliest =>
        let* g := rd (h_states (hc_net h)) (h_like r) in
        let* g := fire g in
        let* ss := wr (h_states (hc_net h)) (h_like r) g in
        Ok (hc_set_run (rn_out (gc_out g) z r) (hc_set_net (nt_states ss (hc_net h)) h))
    | e =>
        let full := match e with RFull => true | _ => false end in
        let lo := if full then 0 else h_wmin r in
        let hi := if full then hc_n h else h_wmax r in
        let nc := if full then n1 else h_wnorm r in
        let nc := if (nc <=? n0)%num then n1 else nc in
        let* (ss, o, v) := iterM (hi - lo) (fun k s =>
          let '(ss, o, v) := s in
          let i := lo + k in
          let* g := rd ss i in
          let* g := fire g in
          let* ss := wr ss i g in
          let* w := hm_weight h i in
          let* (o, v) := iterM no (fun d s =>
            let '(o, v) := s in
            let* a := rd o d in
            let* y := rd (gc_out g) d in
            let* o := wr o d (a + w * y / nc)%num in
            let* v := match mode with
              | Full => iterM no (fun d2 v =>
                  let* a := rd v (d * no + d2) in
                  let* c := rd (gc_ocov g) (d * no + d2) in
                  wr v (d * no + d2) (a + w * w * c / nc)%num) v
              | Diagonal =>
                  let* a := rd v d in
                  let* c := rd (gc_ocov g) d in
                  wr v d (a + w * w * c / nc)%num
              end in
            Ok (o, v)) (o, v) in
          Ok (ss, o, v)) (h_states (hc_net h), repeat n0 no, z) in
        Ok (hc_set_run (rn_out o v r) (hc_set_net (nt_states ss (hc_net h)) h))
    end.

  (** xmmHmmSingleClass.cpp 1121-1132: the forward step of [filter]. *)
  Definition hm_forward (x : list T) (h : hclass) : res hclass :=
    let N := hc_n h in
    let n := hc_net h in
    let r := hc_run h in
    let* (al, ct) := if h_started r then forward_update N (hc_mode h) (h_trans n) (hm_obs h x) (h_alpha r)
                     else forward_init N (hc_mode h) (h_prior n) (hm_obs h x) (h_alpha r) in
    let buf := if h_started r then h_buf r else ring_clear (h_buf r) in
    Ok (hc_set_run (rn_inst (n1 / ct)%num (rn_started true (rn_buf buf (rn_alpha al r)))) h).

  (** xmmHmmSingleClass.cpp 1121-1143: [filter(observation)]. *)
  Definition hm_filter (x : list T) (h : hclass) : res hclass :=
    let* h := hm_forward x h in
    let* h := hm_window h in
    let* h := hm_results h in
    if hc_bim h then hm_regression x h else Ok h.

  Fixpoint hm_filters (xs : list (list T)) (h : hclass) : res hclass :=
    match xs with
    | [] => Ok h
    | x :: xs => let* h := hm_filter x h in hm_filters xs h
    end.
End HMM.
Arguments hclass : clear implicits.
Arguments hnet : clear implicits.
Arguments hrun : clear implicits.
Arguments estep : clear implicits.
