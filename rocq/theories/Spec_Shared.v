(** Specification vocabulary for the shared parameters. *)
From Coq Require Import String List Bool Arith ZArith.
From Verif Require Import Base Arith Model_Json Model_Shared.
Import ListNotations.
Local Open Scope nat_scope.

Section SpecShared.
  Context {A : arith}.

  (** A history in which no call throws, the dimension always stays above the input dimension, and
      the input dimension of a unimodal object is never set to anything but 0. *)
  Fixpoint orderly (ops : list (sset A)) (s : shared A) : Prop :=
    match ops with
    | [] => True
    | o :: r =>
        let '(s', out) := sp_set o s in
        out = Ok tt /\
        match o with
        | SDim n => sp_din s < n
        | SDin n => sp_bim s = false -> n = 0
        | _ => True
        end /\
        orderly r s'
    end.

  (** The modality is consistent with the dimensions. *)
  Definition modal_ok (s : shared A) : Prop :=
    if sp_bim s then 2 <= sp_dim s /\ 1 <= sp_din s < sp_dim s else 1 <= sp_dim s /\ sp_din s = 0.

  (** Fit for the JSON round trip. *)
  Definition storable (s : shared A) : Prop :=
    1 <= sp_dim s /\ sp_din s < sp_dim s /\ (sp_bim s = true -> 1 <= sp_din s) /\
    length (sp_names s) = sp_dim s /\ sp_nsize s = sp_dim s /\ 1 <= sp_minit s /\ 1 <= sp_win s /\
    Forall (fun n => (Z.of_nat n < 2 ^ 31)%Z) [sp_dim s; sp_din s; sp_minit s; sp_maxit s; sp_win s].

  (** The object read back from the JSON form of [s]: the values of [s], with the percentage
      rounded to a float, and limits that depend on them only. *)
  Definition sp_reloaded (cv : conv A) (tmp : nat) (s : shared A) : shared A :=
    mkShared (sp_bim s) (sp_dim s) (if sp_bim s then 2 else 1) (sp_din s) (if sp_bim s then 1 else 0)
      (sp_dim s - 1) (sp_names s) (sp_dim s) (sp_minit s) (sp_maxit s) (c_float cv (sp_pct s)) (sp_win s) (Some tmp).
End SpecShared.
