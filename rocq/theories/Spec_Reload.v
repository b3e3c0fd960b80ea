(** Specification vocabulary for copies and saved models, for any arithmetic: what a user sees of a model
    while it recognises, and which models can be saved. *)
From Coq Require Import String List Bool Arith ZArith QArith Sorted.
From Verif Require Import Base Arith Model_Json Model_Map Model_Ring Model_Gaussian Model_Shared Model_Config Model_GMM Model_HMM Model_HHMM
  Model_Reload Spec_Common Spec_Gaussian Spec_Shared Spec_Config.
Import ListNotations.
Local Open Scope nat_scope.
Local Open Scope list_scope.

Section SpecReload.
  Context {A : arith}.
  Local Notation T := (num A).

  (** The outcome of a call, as far as [f] shows it. *)
  Definition shown {X Y} (f : X -> Y) (m : res X) : res Y := let* x := m in Ok (f x).

  (** What a mixture reports: likelihood, smoothed log-likelihood, and output when there is one. *)
  Definition class_seen (g : gclass A) : T * T * option (list T * list T) :=
    (gc_inst g, gc_log g, if gc_bim g then Some (gc_out g, gc_ocov g) else None).
  Definition filter_class (xs : list (list T)) (g : gclass A) : res (gclass A) := foldM (fun g x => gm_filter1 x g) xs g.
  (** Two mixtures that report the same, observation after observation, once they are reset. *)
  Definition same_recognition1 (g h : gclass A) : Prop := forall xs, xs <> [] ->
    shown class_seen (filter_class xs (gm_reset1 g)) = shown class_seen (filter_class xs (gm_reset1 h)).

  (** What a model of several classes reports. *)
  Definition results_seen (bim : bool) (r : results A) :=
    (rs_inst r, rs_instn r, rs_sm r, rs_smn r, rs_log r, rs_likeliest r, if bim then Some (rs_out r, rs_ocov r) else None).
  Definition gmm_seen (m : gmm A) := (map fst (gm_models m), map (fun e => class_seen (snd e)) (gm_models m), results_seen (gm_bim m) (gm_res m)).
  Definition gmm_recognise (xs : list (list T)) (m : gmm A) : res (gmm A) :=
    let* m := gm_reset m in foldM (fun m x => gm_filter x m) xs m.
  Definition same_recognition (m k : gmm A) : Prop := forall xs, xs <> [] ->
    shown gmm_seen (gmm_recognise xs m) = shown gmm_seen (gmm_recognise xs k).

  (** A class of a hidden Markov model: likelihood, smoothed log-likelihood, progress, likeliest state and
      output. *)
  Definition hclass_seen (h : hclass A) :=
    let r := hc_run h in (h_inst r, h_log r, h_prog r, h_like r, if hc_bim h then Some (h_out r, h_ocov r) else None).
  Definition hhmm_seen (m : hhmm A) := (map fst (hh_cls m), map (fun e => hclass_seen (snd e)) (hh_cls m), results_seen (hh_bim m) (hh_res m)).
  Definition hhmm_recognise (xs : list (list T)) (m : hhmm A) : res (hhmm A) := let* m := hh_reset m in hh_filters xs m.
  Definition same_hrecognition (m k : hhmm A) : Prop := forall xs, xs <> [] ->
    shown hhmm_seen (hhmm_recognise xs m) = shown hhmm_seen (hhmm_recognise xs k).

  (** ** Models that can be saved *)

  (** A component of the class, with its inverses up to date: updating them again changes nothing. *)
  Definition current_comp (g : gclass A) (k : gauss A) : Prop :=
    wf_gauss k /\ g_bim k = gc_bim g /\ g_dim k = gc_dim g /\ g_din k = gc_din g /\ g_mode k = gc_mode g /\
    (g_bim k = false -> g_inv_in k = []) /\ runm g_update_inv k = Ok k.

  (** Dimensions that the constructor of a distribution accepts, and that JSON integers can hold. *)
  Definition dims_ok (bim : bool) (dim din : nat) : Prop :=
    int_range dim /\ if bim then 2 <= dim /\ din < dim else 1 <= dim /\ din = 0.

  Definition is_float (cv : conv A) (x : T) : Prop := c_float cv x = x.

  (** A one-channel buffer with the storage it should have. *)
  Definition one_channel (r : ring T) : Prop := exists a, r_data r = [a] /\ length a = r_length r.

  (** A trained mixture: sizes, coefficients that are [float] values, components up to date. *)
  Definition trained (cv : conv A) (g : gclass A) : Prop :=
    gmmP_ok cv (gc_par g) /\ dims_ok (gc_bim g) (gc_dim g) (gc_din g) /\
    length (gc_coef g) = gc_n g /\ Forall (is_float cv) (gc_coef g) /\
    length (gc_comp g) = gc_n g /\ Forall (current_comp g) (gc_comp g) /\
    length (gc_beta g) = gc_n g /\ one_channel (gc_buf g).

  (** The covariances can be written and read back: full matrices, or a single dimension. *)
  Definition loadable (g : gclass A) : Prop := gc_mode g = Full \/ gc_dim g = 1.

  (** A class has the values of the shared parameters. *)
  Definition shares (s : shared A) (bim : bool) (dim din win : nat) : Prop :=
    bim = sp_bim s /\ dim = sp_dim s /\ din = sp_din s /\ win = sp_win s.

  Definition label_sorted {X} (ms : list (string * X)) : Prop :=
    StronglySorted (fun a b => String.ltb a b = true) (map fst ms).

  (** Shared parameters and configuration that can be saved (C71, C72), and trained classes. *)
  Definition trained_gmm (cv : conv A) (m : gmodel A) : Prop :=
    storable (gq_sp m) /\ nltb (c_float cv (sp_pct (gq_sp m))) n0 = false /\ config_ok (gmmP_ok cv) (gq_cf m) /\
    gq_cls m <> [] /\ label_sorted (gq_cls m) /\
    Forall (fun e => trained cv (snd e) /\ shares (gq_sp m) (gc_bim (snd e)) (gc_dim (snd e)) (gc_din (snd e)) (gc_win (snd e))) (gq_cls m).

  (** A model that is ready to recognise, as far as sizes go. *)
  Definition ready_gmm (m : gmodel A) : Prop :=
    gq_cls m <> [] /\
    Forall (fun e => gc_bim (snd e) = sp_bim (gq_sp m) /\ length (gc_beta (snd e)) = gc_n (snd e) /\ one_channel (gc_buf (snd e))) (gq_cls m).

  (** A class of a hidden Markov model that a reset makes ready to recognise, in a model whose configuration
      says [hier]: the states keep one likelihood, and a class that is not hierarchical and ergodic has its
      forward variables. *)
  Definition ready_state (g : gclass A) : Prop := length (gc_beta g) = gc_n g /\ one_channel (gc_buf g) /\ r_length (gc_buf g) = 1 /\ r_index (gc_buf g) = 0.
  Definition ready_hmm (hier : bool) (h : hclass A) : Prop :=
    let n := hc_net h in
    Forall ready_state (h_states n) /\ one_channel (h_buf (hc_run h)) /\
    length (h_trans n) = (match hc_mode h with Ergodic => hc_n h * hc_n h | LeftRight => 2 * hc_n h end) /\
    if hier then hc_hier h = true /\ hc_mode h = LeftRight
    else hc_mode h = Ergodic -> hc_hier h = false /\ length (h_alpha (hc_run h)) = hc_n h.
  (** A hierarchical HMM, all of its classes left-right if it is hierarchical. *)
  Definition ready_hhmm (m : hmodel A) : Prop :=
    hq_cls m <> [] /\ Forall (fun e => hc_bim (snd e) = sp_bim (hq_sp m) /\ ready_hmm (hp_hier (cf_def (hq_cf m))) (snd e)) (hq_cls m).

  (** A trained hidden Markov model: its states are trained mixtures. *)
  Definition state_of (cv : conv A) (h : hclass A) (g : gclass A) : Prop :=
    trained cv g /\ gc_bim g = hc_bim h /\ gc_dim g = hc_dim h /\ gc_din g = hc_din h /\ gc_win g = hc_win h /\
    gc_n g = hp_gauss (hc_par h) /\ gc_mode g = hp_mode (hc_par h).
  Definition trained_hmm (cv : conv A) (h : hclass A) : Prop :=
    let N := hc_n h in
    let n := hc_net h in
    hmmP_ok cv (hc_par h) /\ dims_ok (hc_bim h) (hc_dim h) (hc_din h) /\
    length (h_states n) = N /\ Forall (state_of cv h) (h_states n) /\
    (hc_mode h = Ergodic -> length (h_prior n) = N /\ Forall (is_float cv) (h_prior n)) /\
    (hc_mode h = LeftRight -> h_prior n = []) /\
    length (h_trans n) = (match hc_mode h with Ergodic => N * N | LeftRight => 2 * N end) /\ Forall (is_float cv) (h_trans n) /\
    length (h_exit n) = N /\ Forall (is_float cv) (h_exit n).
  Definition hloadable (h : hclass A) : Prop := hp_mode (hc_par h) = Full \/ hc_dim h = 1.

  Definition trained_hhmm (cv : conv A) (m : hmodel A) : Prop :=
    let n := length (hq_cls m) in
    storable (hq_sp m) /\ nltb (c_float cv (sp_pct (hq_sp m))) n0 = false /\ config_ok (hmmP_ok cv) (hq_cf m) /\ label_sorted (hq_cls m) /\
    Forall (fun e => trained_hmm cv (snd e) /\ shares (hq_sp m) (hc_bim (snd e)) (hc_dim (snd e)) (hc_din (snd e)) (hc_win (snd e))) (hq_cls m) /\
    length (hq_prior m) = n /\ length (hq_trans m) = n /\ Forall (fun row => length row = n) (hq_trans m) /\ length (hq_exit m) = n.
End SpecReload.
