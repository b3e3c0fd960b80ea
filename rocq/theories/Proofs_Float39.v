(** Mixed outputs of a hierarchical model whose smoothed posteriors are not numbers. *)
From Coq Require Import String ZArith QArith Reals Lra Lia Bool List Arith.
From Coq Require Import Floats.SpecFloat.
From Flocq Require Import Core.Core.
From Flocq Require Import IEEE754.BinarySingleNaN.
From Verif Require Import Base BaseFacts Arith Spec_Float Spec_Float2 Spec_Float3 Spec_Float4 Spec_Float6 Spec_Float7 Proofs_Float1 Proofs_Float2 Proofs_Float3 Proofs_Float4 Proofs_Float5 Proofs_Float6 Proofs_Float7 Proofs_Float8 Proofs_Float9 Proofs_Float10 Proofs_Float11 Proofs_Float12 Proofs_Float13 Proofs_Float14 Proofs_Float15 Proofs_Float16 Proofs_Float21 Proofs_Float22 Proofs_Float24 Proofs_Float26 Proofs_Float27 Proofs_Float28 Proofs_Float30 Proofs_Float31 Proofs_Float32 Proofs_Float33 Proofs_Float35 Proofs_Float36 Proofs_Float37 Proofs_Float38.
From Verif Require Import Model_Map Model_Ring Model_Phrase Model_Gaussian Model_Config Model_KMeans Model_GMM Model_HMM Model_HHMM Model_Single Model_Single2 Model_Single3 Model_Single4.
Import ListNotations.
Local Open Scope R_scope.
#[local] Existing Instance Proofs_Float1.Hprec.
#[local] Existing Instance Proofs_Float1.Hmax.

Local Notation fadd := (SFadd fprec femax).
Local Notation fmul := (SFmul fprec femax).
Local Notation fdiv := (SFdiv fprec femax).

Section Null.
  Variables fexp fln : f64 -> f64.
  Local Notation A := (FA fexp fln).
  Local Notation minf := (S754_infinity true).

  Lemma mixture_null (m m' : hhmm A) x d : hh_hier m = true -> hh_bim m = true -> hh_est m = Mixture -> hh_filter_with (A := A) as_single x m = Ok m' -> fexp minf = S754_zero false -> (hh_din m + d < hh_dim m)%nat -> hh_cls m' <> [] ->
    Forall (fun e : string * hclass A => null_window (h_buf (hc_run (snd e)))) (hh_cls m') -> ent (rs_out (hh_res m')) d = S754_nan.
  Proof.
    intros Hh Bi Es H Ex Hd Ne F. unfold hh_filter_with in H. apply bind_ok_inv in H. destruct H as (m1 & E1 & H).
    assert (E1' : hh_forward (A := A) x m = Ok m1) by (unfold hh_forward_with in E1; unfold hh_forward; rewrite Hh in *; exact E1).
    destruct (forward_fixed fexp fln x m m1 Hh E1') as (X1 & X2 & X3).
    assert (X4 : hh_bim m1 = hh_bim m).
    { unfold hh_forward in E1'. rewrite Hh in E1'. destruct (hh_started m); [unfold hh_forward_update in E1' | unfold hh_forward_init in E1']; repeat (apply bind_ok_inv in E1'; let v := fresh in let q := fresh in destruct E1' as (v & q & E1'); try destruct v as (? & ?)); injection E1' as <-; reflexivity. }
    apply bind_ok_inv in H. destruct H as (ms & Ep & H). apply bind_ok_inv in H. destruct H as (r & Er & H). rewrite X4, Bi in H. cbn [negb] in H.
    apply bind_ok_inv in H. destruct H as (no & Eno & H). apply bind_ok_inv in H. destruct H as (ms3 & E3 & H). apply bind_ok_inv in H. destruct H as ((o & c) & Eo & H). injection H as <-.
    cbn [hh_cls hh_res hh_set_res hh_set_cls rs_out] in *. rewrite X3, Es in Eo. rewrite X1, X2 in Eno. unfold usub in Eno. destruct (Nat.leb_spec (hh_din m) (hh_dim m)) as [L | L]; [| discriminate]. injection Eno as <-.
    assert (K : length ms3 = length ms /\ forall i l h', nth_error ms3 i = Some (l, h') -> exists h, nth_error ms i = Some (l, h) /\ h_buf (hc_run h') = h_buf (hc_run h)).
    { clear - E3. revert ms3 E3. induction ms as [| (l, h) ms IH]; cbn [mapM]; intros ms' E; [injection E as <-; split; [reflexivity |]; intros [|] ? ? X; discriminate |].
      apply bind_ok_inv in E. destruct E as (e' & E1 & E). apply bind_ok_inv in E1. destruct E1 as (h1 & Eh & E1). injection E1 as <-. apply bind_ok_inv in E. destruct E as (t & Et & E). injection E as <-.
      destruct (IH t Et) as (L & K). split; [cbn; now f_equal |]. intros [| i] l1 h2 X; [| now apply K]. cbn in X. injection X as <- <-. exists h. split; [reflexivity |].
      destruct (wreg_inv fexp fln (fun _ => True) x _ _ ltac:(auto) ltac:(apply Forall_forall; auto) Eh) as (_ & _ & _ & _ & Q & _). rewrite Q. reflexivity. }
    destruct K as (Ln & K). assert (P : forall i l h, nth_error ms i = Some (l, h) -> h_log (hc_run h) = minf).
    { intros i l h E. assert (S : smoothed fexp fln h).
      { assert (G : forall c c' : list (string * hclass A), mapM (fun e => let* h := hm_post (A := A) (snd e) in Ok (fst e, h)) c = Ok c' -> Forall (fun e => smoothed fexp fln (snd e)) c').
        { clear. induction c as [| e c IH]; cbn [mapM]; intros c' E; [injection E as <-; constructor |]. apply bind_ok_inv in E. destruct E as (e' & E1 & E). apply bind_ok_inv in E1. destruct E1 as (h & Eh & E1). injection E1 as <-.
          apply bind_ok_inv in E. destruct E as (t & Et & E). injection E as <-. constructor; [eapply post_smoothed, Eh | now apply IH]. }
        specialize (G _ _ Ep). rewrite Forall_forall in G. apply (G (l, h)). eapply nth_error_In, E. }
      destruct S as (b & p & S). eapply (smooth_null fexp fln); [exact S |]. assert (Hi : (i < length ms3)%nat) by (rewrite Ln; apply nth_error_Some; congruence).
      destruct (nth_error ms3 i) as [(l3, h3) |] eqn:E3i; [| apply nth_error_None in E3i; lia]. destruct (K i l3 h3 E3i) as (h0 & E0 & B). rewrite E0 in E. injection E as -> ->. rewrite <- B. rewrite Forall_forall in F. apply (F (l, h3)). eapply nth_error_In, E3i. }
    assert (Rp := results_parts fexp fln _ _ _ _ _ Er). cbv zeta in Rp. rewrite map_length in Rp.
    assert (Z : forall j, (j < length ms)%nat -> ent (rs_sm r) j = S754_zero false).
    { intros j Hj. destruct (nth_error ms j) as [(l, h) |] eqn:E; [| apply nth_error_None in E; lia]. assert (Q := P j l h E). destruct (Rp j Hj) as (_ & _ & R2 & _). apply (map_nth_error (fun e : string * hclass A => h_log (hc_run (snd e)))) in E. assert (Y := nth_error_nth (A := f64) _ _ (S754_zero false) E). cbn [snd] in Y.
      assert (Y' : nth j (map (fun e : string * hclass A => h_log (hc_run (snd e))) ms) (S754_zero false) = minf) by (rewrite <- Q; exact Y). rewrite <- Ex. exact (eq_trans R2 (f_equal fexp Y')). }
    assert (S0 : forall n, (n <= length ms)%nat -> nsum (A := A) n (ent (rs_sm r)) = S754_zero false).
    { induction n as [| n IH]; intros Hn; [reflexivity |]. cbn [nsum]. assert (Y1 := IH ltac:(lia)). assert (Y2 := Z n ltac:(lia)). change (num A) with f64 in *. rewrite Y1, Y2. reflexivity. }
    assert (Pos : (0 < length ms)%nat) by (rewrite <- Ln; destruct ms3; [congruence | cbn; lia]).
    assert (N0 : ent (rs_smn r) 0 = S754_nan).
    { destruct (Rp 0%nat Pos) as (_ & _ & _ & _ & R). assert (S1 := S0 (length ms) (le_n _)). assert (Zi := Z 0%nat Pos). unfold ent in *. change (num A) with f64 in *. rewrite R. fold f64 in *. rewrite S1, Zi. reflexivity. }
    destruct (mix_out fexp fln _ _ _ _ _ _ Eo d ltac:(lia)) as (q & _ & Qn & Qs). rewrite <- Qn. set (outs := map _ ms3) in *. assert (Lo : length outs = length ms) by (unfold outs; rewrite map_length; exact Ln).
    assert (G : forall j, (1 <= j <= length outs)%nat -> q j = S754_nan).
    { induction j as [| j IH]; intros Hj; [lia |]. destruct (Qs j ltac:(cbn in *; lia)) as (p & _ & ->). destruct j as [| j].
      - rewrite N0. unfold fma1. cbn [SFmul]. now destruct (q 0%nat).
      - rewrite IH by lia. reflexivity. }
    apply G. split; [| apply le_n]. apply Nat.lt_le_trans with (1 := Pos). rewrite <- Lo. apply le_n.
  Qed.
End Null.
