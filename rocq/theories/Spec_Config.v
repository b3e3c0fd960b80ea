(** Specification vocabulary for configurations. *)
From Coq Require Import String List Bool Arith ZArith QArith Sorted.
From Verif Require Import Base Arith Model_Json Model_Map Model_Gaussian Model_Config.
Import ListNotations.
Local Open Scope nat_scope.

(** What the user asked for: default parameters, and for some labels their own ones. *)
Section Wanted.
  Context {V E : Type}.
  Variables (edit : E -> V -> V) (v0 : V).

  Definition wanted := (V * (string -> option V))%type.
  Definition wanted_for (w : wanted) (l : string) : V :=
    match snd w l with Some v => v | None => fst w end.
  Definition change (f : string -> option V) (l : string) (v : option V) : string -> option V :=
    fun l' => if String.eqb l' l then v else f l'.

  Definition want (w : wanted) (o : cfop E) : wanted :=
    match o with
    | CDefault e => (edit e (fst w), snd w)
    | CClass l e => (fst w, change (snd w) l (Some (edit e (wanted_for w l))))
    | CTouch l => (fst w, change (snd w) l (Some (wanted_for w l)))
    | CReset => (fst w, fun _ => None)
    | CResetLabel l => (fst w, change (snd w) l None)
    end.
  Definition wants (ops : list (cfop E)) : wanted := fold_left want ops (v0, fun _ => None).
End Wanted.

Section SpecConfig.
  Context {A : arith}.
  Local Notation T := (num A).

  (** The parameters of a HMM class apart from [hierarchical]. *)
  Definition flat (p : hmmP A) : hmmP A :=
    mkHmmP (hp_states p) (hp_gauss p) (hp_rel p) (hp_abs p) (hp_mode p) (hp_trans p) (hp_est p) true.

  (** Parameters within their limits, and still so after rounding to a float. *)
  Definition gmmP_ok (cv : conv A) (p : gmmP A) : Prop :=
    1 <= gp_gauss p /\ (Z.of_nat (gp_gauss p) < 2 ^ 31)%Z /\
    nltb (c_float cv (gp_rel p)) reg_min = false /\ nltb (c_float cv (gp_abs p)) reg_min = false.
  Definition gmmP_round (cv : conv A) (p : gmmP A) : gmmP A :=
    mkGmmP (gp_gauss p) (c_float cv (gp_rel p)) (c_float cv (gp_abs p)) (gp_mode p).
  Definition hmmP_ok (cv : conv A) (p : hmmP A) : Prop :=
    1 <= hp_states p /\ (Z.of_nat (hp_states p) < 2 ^ 31)%Z /\ 1 <= hp_gauss p /\ (Z.of_nat (hp_gauss p) < 2 ^ 31)%Z /\
    nltb (c_float cv (hp_rel p)) reg_min = false /\ nltb (c_float cv (hp_abs p)) reg_min = false.
  Definition hmmP_round (cv : conv A) (h : bool) (p : hmmP A) : hmmP A :=
    mkHmmP (hp_states p) (hp_gauss p) (c_float cv (hp_rel p)) (c_float cv (hp_abs p)) (hp_mode p) (hp_trans p) (hp_est p) h.

  (** A configuration whose modes are valid, with every set of parameters satisfying [ok] and the
      labels in increasing order, as in every [std::map]. *)
  Definition config_ok {P} (ok : P -> Prop) (c : config P) : Prop :=
    (0 <= cf_mt c <= 2)%Z /\ (0 <= cf_est c <= 1)%Z /\ ok (cf_def c) /\ Forall (fun e => ok (snd e)) (cf_class c) /\
    StronglySorted (fun a b => String.ltb a b = true) (map fst (cf_class c)).
End SpecConfig.

(** Rounding of a binary64 value to binary32 and back, as [static_cast<float>] does. *)
From Coq Require Import SpecFloat.
Definition to_float32 (x : spec_float) : spec_float :=
  let norm p e (x : spec_float) := match x with S754_finite s m k => binary_round p e s m k | x => x end in
  norm 53%Z 1024%Z (norm 24%Z 128%Z x).
