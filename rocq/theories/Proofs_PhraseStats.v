(** Proofs about the statistics of a phrase, over the reals. *)
From Coq Require Import String List Bool Arith Lia ZArith Reals Lra QArith Qreals.
From Verif Require Import Base BaseFacts Arith RFacts Model_Attribute Model_Events Model_Json Model_Phrase Spec_Phrase.
From Verif Require Import Proofs_Json Proofs_Phrase Proofs_Phrase2 Proofs_Phrase3 Proofs_Phrase4.
Import ListNotations.
Local Open Scope nat_scope.

Local Notation phrase := (phrase (A:=RA)).

(** The value the user reads is that of the frames. *)
Lemma value_frames : forall (p : phrase) (s : contents RA) t d,
  rep p s -> t < spec_size s -> d < s_dim s ->
  getValue p t d = Ok (nth d (nth t (frames_of s) []) 0%R).
Proof.
  intros p s t d HR Ht Hd. pose proof (rep_shows _ _ HR) as (_ & _ & _ & _ & _ & _ & HV).
  rewrite HV. clear HV. unfold spec_value, frames_of.
  rewrite (proj2 (Nat.leb_gt _ _)) by lia.
  destruct HR as (Hown & Hbim & Hdim & Hdin & Hdm & Him & Hix & Hl & Hdt).
  unfold spec_size in Ht. destruct (s_bim s) eqn:Eb.
  - destruct Hdt as (_ & _ & Hle & _ & (F0 & _) & (F1 & _)).
    destruct (nth_error (s_in s) t) as [x|] eqn:Ex; [|apply nth_error_None in Ex; lia].
    destruct (nth_error (s_out s) t) as [y|] eqn:Ey; [|apply nth_error_None in Ey; lia].
    assert (Hx : length x = s_din s).
    { rewrite Forall_forall in F0. apply F0. eapply nth_error_In; eauto. }
    assert (Hy : length y = s_dim s - s_din s).
    { rewrite Forall_forall in F1. apply F1. eapply nth_error_In; eauto. }
    assert (Hc : nth t (combine (s_in s) (s_out s)) ([], []) = (x, y)).
    { apply nth_error_nth. clear - Ex Ey. revert t Ex Ey. generalize (s_out s). induction (s_in s); intros l0 t Ex Ey.
      - destruct t; discriminate.
      - destruct l0; [destruct t; discriminate|]. destruct t; simpl in *; [congruence|auto]. }
    pose proof (map_nth (fun xy => fst xy ++ snd xy) (combine (s_in s) (s_out s)) ([], []) t) as M.
    rewrite Hc in M. cbn [fst snd app] in M.
    change (num RA) with R in *. rewrite M.
    destruct (Nat.ltb_spec d (s_din s)).
    + rewrite app_nth1 by lia. rewrite (nth_error_nth' x 0%R) by lia. reflexivity.
    + rewrite app_nth2 by lia. rewrite Hx. rewrite (nth_error_nth' y 0%R) by lia. reflexivity.
  - destruct Hdt as ((F0 & _) & _).
    destruct (nth_error (s_in s) t) as [x|] eqn:Ex; [|apply nth_error_None in Ex; lia].
    assert (Hx : length x = s_dim s).
    { rewrite Forall_forall in F0. apply F0. eapply nth_error_In; eauto. }
    rewrite (nth_error_nth _ _ [] Ex).
    change (num RA) with R in *. rewrite (nth_error_nth' x 0%R) by lia. reflexivity.
Qed.

Lemma frames_length : forall s : contents RA, length (frames_of s) = spec_size s.
Proof.
  intros s. unfold frames_of, spec_size. destruct (s_bim s); auto.
  rewrite map_length, combine_length. reflexivity.
Qed.

Lemma column_length : forall l d, length (column l d) = length l.
Proof. intros. unfold column. apply map_length. Qed.

Lemma column_nth : forall l d t, t < length l -> nth t (column l d) 0%R = nth d (nth t l []) 0%R.
Proof.
  intros l d t H. unfold column.
  rewrite (nth_indep _ 0%R ((fun x => nth d x 0%R) [])) by (rewrite map_length; auto).
  rewrite (map_nth (fun x => nth d x 0%R)). reflexivity.
Qed.

Lemma mean_ok : forall (p : phrase) (s : contents RA), rep p s ->
  phrase_mean p = Ok (tab (s_dim s) (fun d => Rmean (column (frames_of s) d))).
Proof.
  intros p s HR. pose proof HR as (_ & _ & Hdim & _ & _ & _ & _ & Hl & _).
  unfold phrase_mean. rewrite Hdim, Hl. apply tabM_ok. intros d Hd.
  rewrite (sumM_ok (spec_size s) _ (fun t => nth t (column (frames_of s) d) 0%R)).
  - cbn [bind]. f_equal. unfold Rmean. rewrite column_length, frames_length.
    rewrite nN_RA. rewrite <- Rsum_nth, column_length, frames_length. reflexivity.
  - intros t Ht. rewrite column_nth by (rewrite frames_length; auto).
    apply value_frames; auto.
Qed.

Lemma stddev_ok : forall (p : phrase) (s : contents RA), rep p s ->
  phrase_stddev p = Ok (tab (s_dim s) (fun d => sqrt (Rvar (column (frames_of s) d)))).
Proof.
  intros p s HR. pose proof HR as (_ & _ & Hdim & _ & _ & _ & _ & Hl & _).
  unfold phrase_stddev. rewrite (mean_ok p s HR). cbn [bind]. rewrite Hdim, Hl.
  apply tabM_ok. intros d Hd.
  set (m := Rmean (column (frames_of s) d)).
  rewrite (sumM_ok (spec_size s) _ (fun t => ((nth t (column (frames_of s) d) 0 - m) * (nth t (column (frames_of s) d) 0 - m))%R)).
  - cbn [bind]. f_equal. unfold Rvar. rewrite column_length, frames_length, nN_RA. cbn [nsqrt ndiv RA].
    f_equal. f_equal. fold m.
    rewrite <- Rsum_nth, map_length, column_length, frames_length. apply Rsum_ext. intros t Ht.
    rewrite (nth_indep (map (fun x => ((x - m) * (x - m))%R) (column (frames_of s) d)) 0%R ((fun x => (x - m) * (x - m))%R 0%R)) by (rewrite map_length, column_length, frames_length; auto).
    rewrite (map_nth (fun x => (x - m) * (x - m))%R). reflexivity.
  - intros t Ht. rewrite column_nth by (rewrite frames_length; auto).
    rewrite (value_frames p s) by auto. cbn [bind].
    change (num RA) with R in *.
    rewrite (rd_ok _ d 0%R) by (rewrite tab_length; auto). cbn [bind]. rewrite nth_tab by auto. reflexivity.
Qed.

Lemma flt_max_RA : @flt_max RA = 340282346638528859811704183484516925440%R.
Proof. unfold flt_max. cbn [nofQ RA]. unfold Q2R. simpl. lra. Qed.

Lemma fold_min : forall n (v : nat -> R) (g : nat -> res (num RA)),
  (forall t, t < n -> g t = Ok (v t)) ->
  (forall t, t < n -> (- @flt_max RA <= v t <= @flt_max RA)%R) ->
  exists lo hi, iterM n (fun t mm => let* x := g t in
      Ok (std_min x (fst mm), std_max x (snd mm))) (flt_max, nopp flt_max) = Ok (lo, hi) /\
    (forall t, t < n -> (lo <= v t <= hi)%R) /\
    (n = 0 \/ ((exists t, t < n /\ v t = lo) /\ (exists t, t < n /\ v t = hi))).
Proof.
  induction n; intros v g Hg Hb.
  - eexists _, _. split; [reflexivity|]. split; [lia|]. auto.
  - destruct (IHn v g) as (lo & hi & E & Hr & Ha); try (intros; apply Hg || apply Hb; lia).
    cbn [iterM]. rewrite E. cbn [bind]. rewrite Hg by lia. cbn [bind fst snd].
    eexists _, _. split; [reflexivity|].
    unfold std_min, std_max. cbn [nltb RA]. change (num RA) with R in *.
    specialize (Hb n (Nat.lt_succ_diag_r n)).
    destruct n as [|n'].
    + clear IHn Hr Ha. cbn [iterM] in E.
      assert (lo = @flt_max RA) as -> by congruence. assert (hi = nopp (@flt_max RA)) as -> by congruence.
      clear E. cbn [nopp RA] in *.
      destruct (Rlt_dec (@flt_max RA) (v 0)) as [h|h]; [lra|].
      destruct (Rlt_dec (v 0) (- @flt_max RA)) as [h'|h']; [lra|].
      split; [intros t Ht; assert (t = 0) as -> by lia; lra|].
      right. split; exists 0; split; auto; lia.
    + destruct Ha as [Ha|((ta & Hta & Ea) & (tb & Htb & Eb))]; [lia|].
      split.
      * intros t Ht. destruct (Nat.eq_dec t (S n')) as [->|Hne].
        -- destruct (Rlt_dec lo (v (S n'))), (Rlt_dec (v (S n')) hi); lra.
        -- assert (Ht' : t < S n') by lia. specialize (Hr t Ht').
           destruct (Rlt_dec lo (v (S n'))), (Rlt_dec (v (S n')) hi); lra.
      * right. split.
        -- destruct (Rlt_dec lo (v (S n'))); [exists ta|exists (S n')]; split; auto; lia.
        -- destruct (Rlt_dec (v (S n')) hi); [exists tb|exists (S n')]; split; auto; lia.
Qed.

Lemma minmax_ok : forall (p : phrase) (s : contents RA), rep p s -> 0 < spec_size s ->
  (forall x, In x (frames_of s) -> forall d, d < s_dim s -> (- @flt_max RA <= nth d x 0 <= @flt_max RA)%R) ->
  exists mm, phrase_minmax p = Ok mm /\ length mm = s_dim s /\
    forall d, d < s_dim s ->
      is_min (column (frames_of s) d) (fst (nth d mm (0%R, 0%R))) /\
      is_max (column (frames_of s) d) (snd (nth d mm (0%R, 0%R))).
Proof.
  intros p s HR Hsz Hb. pose proof HR as (_ & _ & Hdim & _ & _ & _ & _ & Hl & _).
  unfold phrase_minmax. rewrite Hdim, Hl.
  assert (HF : forall d, d < s_dim s -> exists lo hi,
     iterM (spec_size s) (fun t mm => let* x := getValue p t d in
        Ok (std_min x (fst mm), std_max x (snd mm))) (flt_max, nopp flt_max) = Ok (lo, hi) /\
     is_min (column (frames_of s) d) lo /\ is_max (column (frames_of s) d) hi).
  { intros d Hd.
    destruct (fold_min (spec_size s) (fun t => nth t (column (frames_of s) d) 0%R) (fun t => getValue p t d)) as (lo & hi & E & Hr & Ha).
    - intros t Ht. rewrite column_nth by (rewrite frames_length; auto). apply value_frames; auto.
    - intros t Ht. rewrite column_nth by (rewrite frames_length; auto). apply Hb; auto.
      apply nth_In. rewrite frames_length. auto.
    - exists lo, hi. split; auto. destruct Ha as [Ha|((ta & Hta & Ea) & (tb & Htb & Eb))]; [lia|].
      split; split.
      + rewrite <- Ea. apply nth_In. rewrite column_length, frames_length. auto.
      + intros x Hx. destruct (In_nth _ _ 0%R Hx) as (t & Ht & <-).
        rewrite column_length, frames_length in Ht. apply (Hr t Ht).
      + rewrite <- Eb. apply nth_In. rewrite column_length, frames_length. auto.
      + intros x Hx. destruct (In_nth _ _ 0%R Hx) as (t & Ht & <-).
        rewrite column_length, frames_length in Ht. apply (Hr t Ht). }
  set (f := fun d => iterM (spec_size s) (fun t mm => let* x := getValue p t d in
        Ok (std_min x (fst mm), std_max x (snd mm))) (flt_max, nopp flt_max)) in *.
  assert (Hall : exists mm, tabM (s_dim s) f = Ok mm).
  { eexists. apply (tabM_ok _ f (fun d => match f d with Ok x => x | _ => (0%R, 0%R) end)).
    intros d Hd. destruct (HF d Hd) as (lo & hi & E & _). unfold f. rewrite E. reflexivity. }
  destruct Hall as (mm & E). exists mm. split; [exact E|].
  split; [eapply tabM_length; eauto|].
  intros d Hd. pose proof (tabM_inv _ _ _ E d (0%R, 0%R) Hd) as Ed.
  destruct (HF d Hd) as (lo & hi & E' & H1 & H2). unfold f in Ed. rewrite E' in Ed. inversion Ed as [Hn].
  change (num RA) with R in *. rewrite <- Hn. auto.
Qed.

Lemma phrase_statistics : forall bim ops (p : phrase) outs,
  dims_fit (contents_new bim) ops ->
  phrase_run false (phrase_new true bim) ops = Ok (p, outs) ->
  let s := fst (spec_run (contents_new bim) ops) in
  0 < spec_size s ->
  phrase_mean p = Ok (tab (s_dim s) (fun d => Rmean (column (frames_of s) d))) /\
  phrase_stddev p = Ok (tab (s_dim s) (fun d => sqrt (Rvar (column (frames_of s) d)))) /\
  ((forall x, In x (frames_of s) -> forall d, d < s_dim s -> (- @flt_max RA <= nth d x 0 <= @flt_max RA)%R) ->
   exists mm, phrase_minmax p = Ok mm /\ length mm = s_dim s /\
    forall d, d < s_dim s ->
      is_min (column (frames_of s) d) (fst (nth d mm (0%R, 0%R))) /\
      is_max (column (frames_of s) d) (snd (nth d mm (0%R, 0%R)))).
Proof.
  intros bim ops p outs Hf Hr s Hsz. pose proof (reached_rep _ _ _ _ Hf Hr) as HR. fold s in HR.
  split; [apply mean_ok; auto|]. split; [apply stddev_ok; auto|]. apply minmax_ok; auto.
Qed.
