(** Properties C10-C14 and C68: matrices (exact arithmetic). *)
From Coq Require Import List Bool Arith Lia Reals Lra.
From Verif Require Import Base Arith RFacts Model_Matrix Spec_Matrix Spec_Det RComp.
From Verif Require Import Proofs_MatrixGen Proofs_Matrix Proofs_DetFacts Proofs_Det.
Import ListNotations.
Local Open Scope R_scope.

(** C10: the product is the row-by-column product and is refused on mismatched sizes. *)
Theorem C10_product : forall a b : rmat, wf_mat a -> wf_mat b ->
  (m_cols a <> m_rows b -> mat_product a b = Throw RuntimeError) /\
  (m_cols a = m_rows b ->
   exists c, mat_product a b = Ok c /\ wf_mat c /\ m_rows c = m_rows a /\ m_cols c = m_cols b /\
     forall i j, (i < m_rows a)%nat -> (j < m_cols b)%nat ->
       rent c i j = Rsum (m_cols a) (fun k => rent a i k * rent b k j)).
Proof. exact product_R. Qed.
Print Assumptions C10_product.

Theorem C10_transpose : forall m : rmat, wf_mat m ->
  exists t, mat_transpose m = Ok t /\ wf_mat t /\ m_rows t = m_cols m /\ m_cols t = m_rows m /\
    forall i j, (i < m_cols m)%nat -> (j < m_rows m)%nat -> rent t i j = rent m j i.
Proof. exact transpose_R. Qed.
Print Assumptions C10_transpose.

Theorem C10_transpose_involutive : forall m : rmat, wf_mat m ->
  exists t, mat_transpose m = Ok t /\ mat_transpose t = Ok m.
Proof. exact transpose_involutive. Qed.
Print Assumptions C10_transpose_involutive.

Theorem C10_transpose_of_product : forall a b : rmat, wf_mat a -> wf_mat b -> m_cols a = m_rows b ->
  exists ab ta tb r, mat_product a b = Ok ab /\ mat_transpose a = Ok ta /\ mat_transpose b = Ok tb /\
    mat_product tb ta = Ok r /\ mat_transpose ab = Ok r.
Proof. exact product_transpose. Qed.
Print Assumptions C10_transpose_of_product.

Example C10_meets : wf_mat (@mkMat RA 2 3 [1;2;3;4;5;6]) /\ wf_mat (@mkMat RA 3 2 [1;2;3;4;5;6]) /\
  exists c, mat_product (@mkMat RA 2 3 [1;2;3;4;5;6]) (@mkMat RA 3 2 [1;2;3;4;5;6]) = Ok c /\ rent c 1 1 = 64.
Proof.
  split; [reflexivity|]. split; [reflexivity|]. eexists. split. rcomp. reflexivity.
  unfold rent, rcell. cbn [nth m_cols m_data Nat.mul Nat.add]. rside.
Qed.

(** C11: what the inversion returns is a two-sided inverse of the same size. *)
Theorem C11_two_sided_inverse : forall (m inv : rmat) det,
  wf_mat m -> gauss_jordan m = Ok (inv, det) ->
  wf_mat inv /\ m_rows inv = m_rows m /\ m_cols inv = m_rows m /\ m_cols m = m_rows m /\
  det <> 0 /\ is_inverse (m_rows m) (rent m) (rent inv).
Proof. exact gauss_jordan_inverse_R. Qed.
Print Assumptions C11_two_sided_inverse.

(** C11: [pinv] on a square matrix is the inversion, and the inversion never reads or writes out
    of bounds: it returns or throws. *)
Theorem C11_pinv_square : forall m : rmat, wf_mat m -> m_rows m = m_cols m ->
  mat_pinv m = gauss_jordan m /\
  (gauss_jordan m = Throw RuntimeError \/ exists inv det, gauss_jordan m = Ok (inv, det)).
Proof. exact pinv_square. Qed.
Print Assumptions C11_pinv_square.

Example C11_meets : wf_mat (@mkMat RA 2 2 [0;1;1;0]) /\
  exists inv det, gauss_jordan (@mkMat RA 2 2 [0;1;1;0]) = Ok (inv, det).
Proof. split; [reflexivity|]. eexists _, _. rcomp. reflexivity. Qed.

(** C12: a matrix with a non-zero kernel vector is refused. *)
Theorem C12_refuses_singular : forall m : rmat, wf_mat m -> m_rows m = m_cols m ->
  singular (m_rows m) (rent m) -> gauss_jordan m = Throw RuntimeError.
Proof. exact gauss_jordan_singular. Qed.
Print Assumptions C12_refuses_singular.

Example C12_meets : singular 2 (rent (@mkMat RA 2 2 [1;2;2;4])).
Proof.
  exists (fun j => match j with O => 2 | _ => -1 end). split.
  - exists 0%nat. split; [lia|lra].
  - intros i Hi. destruct i as [|[|]]; [| |lia]; unfold rent, rcell; simpl; lra.
Qed.

(** C13: the reported determinant has the right absolute value ... *)
Theorem C13_determinant_up_to_sign : forall (m inv : rmat) det,
  wf_mat m -> gauss_jordan m = Ok (inv, det) ->
  det = Rdet (m_rows m) (rent m) \/ det = - Rdet (m_rows m) (rent m).
Proof. exact gauss_jordan_det. Qed.
Print Assumptions C13_determinant_up_to_sign.

(** ... and is exact when each leading principal minor is at least the pivot threshold times the
    previous one (then no row is exchanged), ... *)
Theorem C13_determinant_without_exchange : forall m : rmat, wf_mat m -> m_rows m = m_cols m ->
  leading_minors_ok eps9 (m_rows m) (rent m) ->
  exists inv, gauss_jordan m = Ok (inv, Rdet (m_rows m) (rent m)).
Proof. exact gauss_jordan_minors. Qed.
Print Assumptions C13_determinant_without_exchange.

Example C13_meets : leading_minors_ok eps9 2 (rent (@mkMat RA 2 2 [2;3;1;-4])).
Proof.
  intros k Hk. unfold eps9. destruct k as [|[|]]; [| |lia].
  - rewrite Rdet_0, (Rdet_unit_cols 0) by (intros; lia). unfold rent, rcell. simpl. rside.
  - rewrite (Rdet_unit_cols 0) by (intros; lia). rewrite Rdet_2. unfold rent, rcell. simpl. rside.
Qed.

(** ... but a row exchange is not accounted for. *)
Theorem C13_sign_refuted : exists (m inv : rmat) det,
  wf_mat m /\ gauss_jordan m = Ok (inv, det) /\ det = 1 /\ Rdet (m_rows m) (rent m) = -1.
Proof.
  exists (@mkMat RA 2 2 [0;1;1;0]). eexists _, _. split; [reflexivity|]. split. rcomp. reflexivity.
  split. rside. cbn [m_rows]. rewrite Rdet_2. unfold rent, rcell. simpl. lra.
Qed.
Print Assumptions C13_sign_refuted.

(** C14: one-sided inverses of non-square matrices. *)
Theorem C14_one_sided_inverse : forall (m inv : rmat) det, wf_mat m -> m_rows m <> m_cols m ->
  mat_pinv m = Ok (inv, det) ->
  det = 0 /\ wf_mat inv /\ m_rows inv = m_cols m /\ m_cols inv = m_rows m /\
  ((m_cols m < m_rows m)%nat -> forall i j, (i < m_cols m)%nat -> (j < m_cols m)%nat ->
     mmul (m_rows m) (rent inv) (rent m) i j = delta i j) /\
  ((m_rows m < m_cols m)%nat -> forall i j, (i < m_rows m)%nat -> (j < m_rows m)%nat ->
     mmul (m_cols m) (rent m) (rent inv) i j = delta i j).
Proof. exact pinv_nonsquare. Qed.
Print Assumptions C14_one_sided_inverse.

Example C14_meets : exists inv det, mat_pinv (@mkMat RA 1 2 [1;2]) = Ok (inv, det).
Proof. eexists _, _. rcomp. reflexivity. Qed.

(** C68: positive definite matrices (x'Ax >= rho |x|^2 with rho at least the pivot threshold)
    are always inverted, with their exact, positive determinant. *)
Theorem C68_positive_definite_succeeds_partial : forall (m : rmat) rho, wf_mat m -> m_rows m = m_cols m ->
  eps9 <= rho -> pd_margin (m_rows m) (rent m) rho ->
  exists inv det, gauss_jordan m = Ok (inv, det) /\ det = Rdet (m_rows m) (rent m) /\ 0 < det /\
    is_inverse (m_rows m) (rent m) (rent inv).
Proof. exact gauss_jordan_pd_det. Qed.
Print Assumptions C68_positive_definite_succeeds_partial.

Example C68_meets : wf_mat (@mkMat RA 2 2 [2;1;1;2]) /\ eps9 <= 1 /\
  pd_margin 2 (rent (@mkMat RA 2 2 [2;1;1;2])) 1.
Proof.
  split; [reflexivity|]. split. unfold eps9; lra.
  intros x. unfold qform, rent, rcell. cbn. pose proof (Rle_0_sqr (x 0%nat + x 1%nat)). unfold Rsqr in *. nra.
Qed.

(** C68: an invertible matrix may be refused: the threshold is absolute. *)
Theorem C68_invertible_succeeds_refuted : exists (m : rmat) (B : nat -> nat -> R),
  wf_mat m /\ is_inverse (m_rows m) (rent m) B /\ gauss_jordan m = Throw RuntimeError.
Proof.
  exists (@mkMat RA 1 1 [/ 10000000000]), (fun _ _ => 10000000000). split; [reflexivity|]. split.
  - intros i j Hi Hj. cbn [m_rows] in *. replace i with 0%nat by lia. replace j with 0%nat by lia.
    unfold mmul, rent, rcell, delta. simpl. lra.
  - rcomp. reflexivity.
Qed.
Print Assumptions C68_invertible_succeeds_refuted.
