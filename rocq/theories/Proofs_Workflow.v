(** From a training set to the frames of its classes; rounds of the training driver. *)
From Coq Require Import String List Bool Arith Lia ZArith Reals Lra Sorting.Sorted.
From Verif Require Import Base BaseFacts Arith RFacts Model_Map Model_Attribute Model_Phrase Model_TrainingSet Model_Gaussian Model_Config Model_KMeans Model_GMM
  Model_Shared Model_Train Model_Reload Model_Workflow Spec_Phrase Spec_TrainingSet Spec_Train Spec_Shared Spec_Matrix Spec_Gaussian Spec_GMM Spec_Workflow
  Proofs_Json Proofs_Map Proofs_Phrase Proofs_Phrase2 Proofs_Phrase3 Proofs_Phrase4 Proofs_PhraseStats Proofs_TrainingSet Proofs_TrainingSet5 Proofs_TrainingSet7 Proofs_TrainingStats Proofs_Train.
Import ListNotations.
Local Open Scope list_scope.
Local Open Scope nat_scope.

Local Notation phrase := (phrase (A:=RA)).

(** ** Frames *)

Lemma frames_dim : forall (p : phrase) (s : contents RA), rep p s -> Forall (fun x => length x = s_dim s) (frames_of s).
Proof.
  intros p s HR. destruct HR as (_ & _ & _ & _ & _ & _ & _ & _ & Hdt). unfold frames_of. destruct (s_bim s).
  - destruct Hdt as (_ & _ & Hle & _ & (F0 & _) & (F1 & _)). apply Forall_forall. intros x Hx. apply in_map_iff in Hx. destruct Hx as ([a b] & <- & Hx).
    cbn [fst snd]. rewrite app_length. rewrite Forall_forall in F0, F1. rewrite (F0 a (in_combine_l _ _ _ _ Hx)), (F1 b (in_combine_r _ _ _ _ Hx)). lia.
  - destruct Hdt as ((F0 & _) & _). exact F0.
Qed.

Lemma phrase_frames_ok : forall (p : phrase) (s : contents RA), rep p s -> phrase_frames p = Ok (frames_of s).
Proof.
  intros p s HR. pose proof (frames_dim p s HR) as FD. unfold phrase_frames.
  assert (El : p_len p = spec_size s) by apply HR. assert (Ed : p_dim p = s_dim s) by apply HR. rewrite El, <- frames_length.
  change (num RA) with R in *. rewrite <- (tab_nth_self (frames_of s) []) at 2. apply tabM_ok. intros t Ht. unfold value_frame. rewrite Ed.
  assert (L : length (nth t (frames_of s) []) = s_dim s) by (rewrite Forall_forall in FD; apply FD, nth_In; exact Ht).
  rewrite (tabM_ok _ _ (fun d => nth d (nth t (frames_of s) []) 0%R)).
  - f_equal. rewrite <- L. apply tab_nth_self.
  - intros d Hd. apply value_frames; [exact HR| |exact Hd]. rewrite <- frames_length. exact Ht.
Qed.

Lemma read_at_ok : forall (b : block (A := RA)) max d fr t x, holds b max d fr -> nth_error fr t = Some x -> read_at b (t * d) d = Ok x.
Proof.
  intros b max d fr t x H E. unfold read_at. assert (L : length x = d).
  { destruct H as (F & _). rewrite Forall_forall in F. apply F. eapply nth_error_In; exact E. }
  change (num RA) with R in *.
  rewrite <- (tab_nth_self x 0%R) at 1. rewrite L. apply tabM_ok. intros k Hk.
  destruct (rdb_holds b max d fr t k x H E Hk) as (y & E1 & E2). rewrite E2. f_equal. symmetry. apply nth_error_nth. exact E1.
Qed.

Lemma pointer_frames_ok : forall (p : phrase) (s : contents RA), rep p s -> pointer_frames p = Ok (frames_of s).
Proof.
  intros p s HR. pose proof HR as (_ & Eb & Ed & Ei & _ & _ & _ & El & Hdt). unfold pointer_frames.
  rewrite El, <- frames_length. change (num RA) with R in *. rewrite <- (tab_nth_self (frames_of s) []) at 2. apply tabM_ok. intros t Ht.
  unfold pointer_frame, getPointer, getPointer_input, getPointer_output. rewrite El, <- frames_length, Eb, Ed, Ei.
  replace (length (frames_of s) <=? t) with false by (symmetry; apply Nat.leb_gt; exact Ht).
  rewrite frames_length in Ht. unfold spec_size in Ht. unfold frames_of. destruct (s_bim s) eqn:E; cbn [negb bind].
  - destruct Hdt as (_ & _ & Hle & _ & H0 & H1).
    destruct (nth_error (s_in s) t) as [x|] eqn:Ex; [|apply nth_error_None in Ex; lia].
    destruct (nth_error (s_out s) t) as [y|] eqn:Ey; [|apply nth_error_None in Ey; lia].
    rewrite (read_at_ok _ _ _ _ _ _ H0 Ex). cbn [bind]. unfold usub. rewrite (proj2 (Nat.leb_le _ _) Hle). cbn [bind].
    rewrite (read_at_ok _ _ _ _ _ _ H1 Ey). cbn [bind]. f_equal.
    assert (Hc : nth t (combine (s_in s) (s_out s)) ([], []) = (x, y)).
    { apply nth_error_nth. clear - Ex Ey. revert t Ex Ey. generalize (s_out s). induction (s_in s); intros l0 t Ex Ey.
      - destruct t; discriminate.
      - destruct l0; [destruct t; discriminate|]. destruct t; simpl in *; [congruence|auto]. }
    pose proof (map_nth (fun xy => fst xy ++ snd xy) (combine (s_in s) (s_out s)) ([], []) t) as M. rewrite Hc in M. cbn [fst snd app] in M.
    change (num RA) with R in *. symmetry. exact M.
  - destruct Hdt as (H0 & _). destruct (nth_error (s_in s) t) as [x|] eqn:Ex; [|apply nth_error_None in Ex; lia].
    rewrite (read_at_ok _ _ _ _ _ _ H0 Ex). f_equal. symmetry. apply nth_error_nth. exact Ex.
Qed.

(** ** The entries of a class *)

Lemma class_of_filter : forall (h : list phrase) l m, ksorted Z.ltb m ->
  class_of (A := RA) h l m = filter (fun e => String.eqb (lab_of (A := RA) h (snd e)) l) m.
Proof.
  intros h l m. unfold class_of. rewrite <- (rev_involutive m). generalize (rev m). clear m. intros m S.
  rewrite <- fold_left_rev_right, rev_involutive. revert S. induction m as [|e m IH]; intros S; [reflexivity|].
  cbn [rev fold_right] in *. rewrite filter_app. cbn [filter].
  assert (S' : ksorted Z.ltb (rev m)).
  { unfold ksorted in *. rewrite map_app in S. clear -S. induction (map fst (rev m)) as [|a r IH]; [constructor|]. cbn [app] in S. inversion S as [|? ? S1 F1]; subst. constructor; [apply IH; exact S1|].
    apply Forall_app in F1. apply F1. }
  rewrite (IH S'). destruct (String.eqb (lab_of h (snd e)) l); [|rewrite app_nil_r; reflexivity].
  unfold pput. destruct e as [i id]. cbn [fst snd]. apply (mput_last Z.eqb Z.ltb).
  - intros a b. apply Z.eqb_eq.
  - apply Zltb_trans.
  - intro a. apply Z.ltb_irrefl.
  - unfold ksorted. clear -S'. unfold ksorted in S'. induction (rev m) as [|a r IH]; [constructor|]. cbn [filter map] in *. inversion S' as [|? ? S1 F1]; subst.
    destruct (String.eqb (lab_of h (snd a)) l); [|auto]. cbn [map]. constructor; [auto|]. apply Forall_forall. intros x Hx. rewrite Forall_forall in F1. apply F1.
    apply in_map_iff in Hx. destruct Hx as (y & <- & Hy). apply filter_In in Hy. apply in_map, Hy.
  - intros x Hx. apply in_map_iff in Hx. destruct Hx as (y & <- & Hy). apply filter_In in Hy. destruct Hy as (Hy & _). apply (in_map fst) in Hy.
    unfold ksorted in S. rewrite map_app in S. cbn [map fst] in S. clear -S Hy. induction (map fst (rev m)) as [|a r IH]; [destruct Hy|]. cbn [app] in S. inversion S as [|? ? S1 F1]; subst.
    destruct Hy as [->|Hy]; [|apply IH; assumption]. apply Forall_app in F1. destruct F1 as (_ & F1). inversion F1; subst. assumption.
Qed.

(** ** The training driver *)

(** Rounds of the driver: [n] rounds done, the last log-likelihoods [old] and [ll]. *)
Inductive rounds {A : arith} {M} (p : em_settings A) (step : M -> M -> num A -> Prop) : nat -> num A -> num A -> M -> M -> Prop :=
| rounds_stop : forall n old ll m, stop_rule p n old ll -> rounds p step n old ll m m
| rounds_next : forall n old ll m m' x m'', ~ stop_rule p n old ll -> step m m' x -> rounds p step (S n) ll x m' m'' -> rounds p step n old ll m m''.

Lemma loop_rounds : forall {A : arith} {M} (h : hooks A M) (p : em_settings A) (I : M -> Prop) (step : M -> M -> num A -> Prop),
  (forall a b : num A, nisnan (pct_change a b b) = false) ->
  (forall m, I m -> exists m' x, h_update h m = (m', Ok x) /\ I m' /\ step m m' x) ->
  (forall m, h_finish h m = (m, Ok tt)) ->
  forall fuel old s, I (t_m s) -> 1000 <= fuel + t_it s ->
  exists s', em_loop h p (fun _ => false) fuel false old s = (s', Returned) /\ t_status s' = Done /\
    I (t_m s') /\ rounds p step (t_it s) old (t_ll s) (t_m s) (t_m s').
Proof.
  intros A M h p I step NN HU HF. induction fuel as [|fuel IH]; intros old s HI L; cbn [em_loop]; destruct (has_converged p (t_it s) (t_ll s) old) eqn:E.
  - unfold check_cancel, terminate. cbn [t_m tchecked]. rewrite HF. eexists. split; [reflexivity|]. split; [reflexivity|]. split; [exact HI|].
    apply rounds_stop. apply converged_rule. exact E.
  - exfalso. unfold has_converged in E. rewrite (proj2 (Nat.leb_le 1000 (t_it s))) in E by lia. discriminate.
  - unfold check_cancel, terminate. cbn [t_m tchecked]. rewrite HF. eexists. split; [reflexivity|]. split; [reflexivity|]. split; [exact HI|].
    apply rounds_stop. apply converged_rule. exact E.
  - unfold check_cancel. cbn [t_m tchecked]. destruct (HU (t_m s) HI) as (m' & x & E1 & I' & St). rewrite E1. cbn [t_ll tset_ll tcount tset_m tchecked].
    rewrite NN. cbn [andb orb].
    match goal with |- context [em_loop h p _ fuel false ?o ?st] => destruct (IH o st) as (s' & E2 & D & I2 & RD) end.
    + exact I'.
    + cbn. lia.
    + exists s'. split; [exact E2|]. split; [exact D|]. split; [exact I2|].
      apply (rounds_next p step _ _ _ _ m' x); [intro C; apply converged_rule in C; congruence|exact St|]. exact RD.
Qed.

Lemma train_rounds : forall {A : arith} {M} (h : hooks A M) (p : em_settings A) (I : M -> Prop) (step : M -> M -> num A -> Prop) m m1 m2,
  (forall a b : num A, nisnan (pct_change a b b) = false) ->
  (forall m, I m -> exists m' x, h_update h m = (m', Ok x) /\ I m' /\ step m m' x) ->
  (forall m, h_finish h m = (m, Ok tt)) ->
  h_allocate h m = (m1, Ok tt) -> h_init h m1 = (m2, Ok tt) -> I m2 ->
  exists s', em_train h p (fun _ => false) 1000 false (train_start m) = (s', Returned) /\ t_status s' = Done /\
    I (t_m s') /\ rounds p step 0 lowest lowest m2 (t_m s').
Proof.
  intros A M h p I step m m1 m2 NN HU HF Ea Ei HI. unfold em_train. cbn [t_m tset_status tset_locked train_start]. rewrite Ea.
  unfold check_cancel. cbn [t_m tset_m tchecked]. rewrite Ei.
  match goal with |- context [em_loop h p _ 1000 false ?o ?st] => destruct (loop_rounds h p I step NN HU HF 1000 o st) as (s' & E & D & I' & RD) end.
  - exact HI.
  - lia.
  - exists s'. split; [exact E|]. split; [exact D|]. split; [exact I'|exact RD].
Qed.
