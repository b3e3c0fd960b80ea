(** Likelihoods of Gaussians and mixtures in binary64. *)
From Coq Require Import String ZArith QArith Reals Lra Lia Bool List Arith.
From Coq Require Import Floats.SpecFloat.
From Flocq Require Import Core.Core IEEE754.BinarySingleNaN.
From Verif Require Import Base BaseFacts Arith Spec_Float Spec_Float2 Proofs_Float1 Proofs_Float2 Model_Ring Model_Gaussian Model_Config Model_KMeans Model_GMM.
Import ListNotations.
Local Open Scope R_scope.

(** ** The floor of the likelihoods *)
Definition floor_f64 : f64 := S754_finite false 4671939192445128 (-650).
Lemma floor_is fexp fln : floor180 (A := FA fexp fln) = floor_f64.
Proof. vm_compute. reflexivity. Qed.
Lemma floor_ok : is_f64 floor_f64 /\ is_num floor_f64 = true.
Proof. split; vm_compute; reflexivity. Qed.
Lemma floor_pos : bpow radix2 (-598) <= fval floor_f64.
Proof.
  unfold fval, floor_f64, SF2R, F2R. cbn [Fnum Fexp cond_Zopp]. change (-598)%Z with (52 + -650)%Z. rewrite bpow_plus.
  apply Rmult_le_compat_r; [apply bpow_ge_0 |]. change (bpow radix2 52) with (IZR 4503599627370496). apply IZR_le. lia.
Qed.

Section Lik.
  Variables fexp fln : f64 -> f64.
  Hypothesis He : on_f64 fexp.
  Local Notation A := (FA fexp fln).

  Lemma accM_f64 n (f : nat -> res f64) : forall a s, is_f64 a -> (forall i v, (i < n)%nat -> f i = Ok v -> is_f64 v) -> accM (A := A) n f a = Ok s -> is_f64 s.
  Proof.
    intros a s Ha H E. apply (iterM_inv_ok (fun _ s => is_f64 s) n _ a s Ha) in E; [exact E |].
    intros i b c Hi Hb F. apply bind_ok_inv in F. destruct F as (v & F & Q). injection Q as <-. apply f_add_valid; [exact Hb | apply (H i v Hi F)].
  Qed.
  Lemma rd_f64 v i x : Forall is_f64 v -> rd v i = Ok x -> is_f64 x.
  Proof. intros F. unfold rd. destruct (nth_error v i) eqn:E; [| discriminate]. intros Q. inversion Q. subst. rewrite Forall_forall in F. eapply F, nth_error_In, E. Qed.

  Lemma npow_f64 x n : is_f64 x -> is_f64 (npow (A := A) x n).
  Proof. intros H. induction n; [vm_compute; reflexivity |]. cbn. now apply f_mul_valid. Qed.

  Lemma density_num q det n : is_f64 q -> is_f64 det ->
    let p := g_density (A := A) q det n in num_nonneg p /\ bpow radix2 (-598) <= fval p.
  Proof.
    intros Hq Hd. cbv zeta. unfold g_density. rewrite floor_is. set (p := ndiv (a := A) _ _).
    assert (V : is_f64 p).
    { apply f_div_valid; [apply He, f_mul_valid; [vm_compute; reflexivity | exact Hq] |]. apply f_sqrt_valid, f_mul_valid; [exact Hd |]. apply npow_f64. vm_compute; reflexivity. }
    destruct floor_ok as (Vf & Nf). assert (Pf := floor_pos). assert (0 < bpow radix2 (-598)) by apply bpow_gt_0.
    assert (Ff : num_nonneg floor_f64 /\ bpow radix2 (-598) <= fval floor_f64) by (split; [split; [exact Vf | split; [exact Nf | lra]] | exact Pf]).
    destruct (nltb p floor_f64) eqn:E1; cbn [orb]; [exact Ff |].
    destruct (nisnan p) eqn:E2; cbn [orb]; [exact Ff |]. destruct (nisinf (nabs p)) eqn:E3; [exact Ff |].
    assert (N : is_num p = true). { destruct p as [s | s | | s m e]; try reflexivity; discriminate. }
    change (SFltb p floor_f64 = false) in E1. rewrite (ltb_num p floor_f64 V Vf N Nf) in E1. destruct (Rlt_bool_spec (fval p) (fval floor_f64)) as [| L]; [discriminate |].
    split; [split; [exact V | split; [exact N | lra]] | lra].
  Qed.


  Ltac inv := repeat match goal with
    | H : (let* _ := _ in _) = Ok _ |- _ => apply bind_ok_inv in H; let a := fresh "a" in let E := fresh "E" in destruct H as (a & E & H)
    | H : Ok _ = Ok _ |- _ => injection H as <-
    | H : Throw _ = Ok _ |- _ => discriminate
    | H : UB = Ok _ |- _ => discriminate
    end.
  Ltac vals := repeat match goal with
    | |- is_f64 (nmul _ _) => apply f_mul_valid
    | |- is_f64 (SFmul _ _ _ _) => apply f_mul_valid
    | |- is_f64 (SFadd _ _ _ _) => apply f_add_valid
    | |- is_f64 (SFsub _ _ _ _) => apply f_sub_valid
    | |- is_f64 (nadd _ _) => apply f_add_valid
    | |- is_f64 (nsub _ _) => apply f_sub_valid
    | H : rd ?v _ = Ok ?x |- is_f64 ?x => eapply (rd_f64 v); [| exact H]; assumption
    | H : accM _ _ _ = Ok ?x |- is_f64 ?x => eapply accM_f64; [| | exact H]; [try (vm_compute; reflexivity) | let i := fresh in let v := fresh in let Hi := fresh in let Hv := fresh in intros i v Hi Hv; cbv beta in Hv; inv]
    end.

  Lemma lik_num k x p : gauss_f64 k -> frame_f64 x -> g_likelihood (A := A) k x = Ok p -> num_nonneg p /\ bpow radix2 (-598) <= fval p.
  Proof.
    intros (F1 & F2 & F3 & D1 & D2) Fx. unfold g_likelihood. destruct (neqb _ _); [discriminate |]. cbv zeta. intros H. inv.
    apply density_num; [| exact D1]. destruct (g_mode k); vals.
  Qed.
  Lemma lik_input_num k x p : gauss_f64 k -> frame_f64 x -> g_likelihood_input (A := A) k x = Ok p -> num_nonneg p /\ bpow radix2 (-598) <= fval p.
  Proof.
    intros (F1 & F2 & F3 & D1 & D2) Fx. unfold g_likelihood_input. destruct (negb _); [discriminate |]. destruct (neqb _ _); [discriminate |]. cbv zeta. intros H. inv.
    apply density_num; [| exact D2]. destruct (g_mode k); vals.
  Qed.
  Lemma lik_bim_num k x y p : gauss_f64 k -> frame_f64 x -> frame_f64 y -> g_likelihood_bimodal (A := A) k x y = Ok p -> num_nonneg p /\ bpow radix2 (-598) <= fval p.
  Proof.
    intros (F1 & F2 & F3 & D1 & D2) Fx Fy. unfold g_likelihood_bimodal. destruct (negb _); [discriminate |]. destruct (neqb _ _); [discriminate |]. cbv zeta. intros H. inv.
    apply density_num; [| exact D1]. destruct (g_mode k); inv; vals. destruct (_ <? _)%nat; inv; vals.
  Qed.
End Lik.
