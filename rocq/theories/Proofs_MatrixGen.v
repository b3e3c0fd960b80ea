(** What the loops of the matrix model compute, for any arithmetic. *)
From Coq Require Import List Bool Arith Lia QArith.
From Verif Require Import Base BaseFacts Arith Model_Matrix Spec_Matrix.
Import ListNotations.
Local Open Scope nat_scope.

Section G.
  Context {A : arith}.
  Local Notation T := (num A).

  (** Entry ([i],[j]) of row-major data with rows of length [w]. *)
  Definition cell (w : nat) (d : list T) (i j : nat) : T := nth (i * w + j) d n0.

  Lemma idx_lt : forall n w i j, i < n -> j < w -> i * w + j < n * w.
  Proof. intros. nia. Qed.

  Lemma idx_inj : forall w i j i' j', j < w -> j' < w -> i * w + j = i' * w + j' -> i = i' /\ j = j'.
  Proof.
    intros w i j i' j' Hj Hj' E.
    assert (i = i').
    { destruct (lt_eq_lt_dec i i') as [[|]|]; auto; exfalso; nia. }
    subst. lia.
  Qed.

  Lemma rd_cell : forall n w d i j, length d = n * w -> i < n -> j < w ->
    rd d (i * w + j) = Ok (cell w d i j).
  Proof. intros. apply rd_ok. rewrite H. apply idx_lt; auto. Qed.

  Lemma wr_cell : forall n w (d : list T) i j x, length d = n * w -> i < n -> j < w ->
    wr d (i * w + j) x = Ok (upd d (i * w + j) x).
  Proof. intros. apply wr_ok. rewrite H. apply idx_lt; auto. Qed.

  Lemma cell_upd : forall n w (d : list T) i j x i' j', length d = n * w ->
    i < n -> j < w -> j' < w ->
    cell w (upd d (i * w + j) x) i' j' =
    if (i =? i') && (j =? j') then x else cell w d i' j'.
  Proof.
    intros. unfold cell. destruct (Nat.eq_dec i i') as [->|].
    - rewrite Nat.eqb_refl. destruct (Nat.eq_dec j j') as [->|].
      + rewrite Nat.eqb_refl. simpl. apply nth_upd_eq. rewrite H. apply idx_lt; auto.
      + apply Nat.eqb_neq in n0. rewrite n0. simpl. apply nth_upd_neq.
        apply Nat.eqb_neq in n0. lia.
    - pose proof n0 as Hn. apply Nat.eqb_neq in n0. rewrite n0. simpl. apply nth_upd_neq.
      intro E. apply idx_inj in E; lia.
  Qed.

  (** A row loop that writes entry (i,j) from its old value and from entries it does not touch. *)
  Lemma row_loop : forall n w i (f : nat -> list T -> res T) (g : nat -> T) d,
    length d = n * w -> i < n ->
    (forall j s, j < w -> length s = n * w ->
       (forall i' j', j' < w -> i' <> i -> cell w s i' j' = cell w d i' j') ->
       (forall j', j <= j' -> j' < w -> cell w s i j' = cell w d i j') ->
       f j s = Ok (g j)) ->
    exists d', iterM w (fun j s => let* x := f j s in wr s (i * w + j) x) d = Ok d' /\
      length d' = n * w /\
      forall i' j', j' < w -> cell w d' i' j' = if i =? i' then g j' else cell w d i' j'.
  Proof.
    intros n w i f g d HL Hi Hf.
    destruct (iterM_inv (fun m s => length s = n * w /\
       forall i' j', j' < w -> cell w s i' j' =
         if (i =? i') && (j' <? m) then g j' else cell w d i' j')
      w (fun j s => let* x := f j s in wr s (i * w + j) x) d) as (d' & E & L & C).
    - split; auto. intros. rewrite andb_false_r. reflexivity.
    - intros j s Hj (Ls & Cs).
      rewrite Hf; auto.
      2:{ intros i' j' Hj' Hi'. rewrite Cs by auto. apply Nat.neq_sym, Nat.eqb_neq in Hi'.
          rewrite Hi'. reflexivity. }
      2:{ intros j' H1 H2. rewrite Cs by auto. apply Nat.ltb_ge in H1. rewrite H1, andb_false_r.
          reflexivity. }
      simpl. rewrite (wr_cell n) by auto. eexists. split; [reflexivity|].
      rewrite upd_length. split; auto. intros i' j' Hj'. rewrite (cell_upd n) by auto.
      rewrite Cs by auto.
      destruct (i =? i') eqn:Ei; simpl; auto.
      destruct (j =? j') eqn:Ej.
      + apply Nat.eqb_eq in Ej. subst. replace (j' <? S j') with true; auto.
        symmetry. apply Nat.ltb_lt. lia.
      + apply Nat.eqb_neq in Ej. destruct (j' <? j) eqn:E1.
        * apply Nat.ltb_lt in E1. replace (j' <? S j) with true; auto.
          symmetry. apply Nat.ltb_lt. lia.
        * apply Nat.ltb_ge in E1. replace (j' <? S j) with false; auto.
          symmetry. apply Nat.ltb_ge. lia.
    - exists d'. split; auto. split; auto. intros i' j' Hj'. rewrite C by auto.
      apply Nat.ltb_lt in Hj'. rewrite Hj', andb_true_r. reflexivity.
  Qed.

  (** Filling a fresh grid. *)
  Lemma fill_grid : forall n w (f : nat -> nat -> res T) (g : nat -> nat -> T) d0,
    length d0 = n * w -> (forall i j, i < n -> j < w -> f i j = Ok (g i j)) ->
    exists d, iterM n (fun i d => iterM w (fun j d => let* x := f i j in wr d (i * w + j) x) d) d0 = Ok d /\
      length d = n * w /\ forall i j, i < n -> j < w -> cell w d i j = g i j.
  Proof.
    intros n w f g d0 HL Hf.
    destruct (iterM_inv (fun m d => length d = n * w /\
       forall i j, i < m -> j < w -> cell w d i j = g i j)
      n (fun i d => iterM w (fun j d => let* x := f i j in wr d (i * w + j) x) d) d0)
      as (d & E & L & C).
    - split; auto. intros; lia.
    - intros i s Hi (Ls & Cs).
      destruct (row_loop n w i (fun j _ => f i j) (g i) s Ls Hi) as (d' & E & L & C); auto.
      rewrite E. exists d'. split; auto. split; auto. intros i' j Hi' Hj. rewrite C by auto.
      destruct (i =? i') eqn:Ei. apply Nat.eqb_eq in Ei. subst; auto.
      apply Nat.eqb_neq in Ei. apply Cs; lia.
    - exists d. auto.
  Qed.

  Definition ent (m : @matrix A) (i j : nat) : T := cell (m_cols m) (m_data m) i j.

  Lemma transpose_gen : forall m : @matrix A, wf_mat m ->
    exists t, mat_transpose m = Ok t /\ wf_mat t /\ m_rows t = m_cols m /\ m_cols t = m_rows m /\
      forall i j, i < m_cols m -> j < m_rows m -> ent t i j = ent m j i.
  Proof.
    intros m WF. unfold mat_transpose.
    destruct (fill_grid (m_cols m) (m_rows m) (fun i j => rd (m_data m) (j * m_cols m + i))
                (fun i j => ent m j i) (repeat n0 (m_cols m * m_rows m))) as (d & E & L & C).
    - apply repeat_length.
    - intros. apply (rd_cell (m_rows m)); auto.
    - rewrite E. simpl. eexists. split; [reflexivity|]. repeat split; auto.
  Qed.

  (** [acc = 0; for k: acc += f k] on one cell. *)
  Lemma acc_loop : forall n w (d : list T) i j m (f : nat -> res T) (g : nat -> T),
    length d = n * w -> i < n -> j < w -> (forall k, k < m -> f k = Ok (g k)) ->
    iterM m (fun k s => let* o := rd s (i * w + j) in let* x := f k in wr s (i * w + j) (o + x)%num)
      (upd d (i * w + j) n0) = Ok (upd d (i * w + j) (nsum m g)).
  Proof.
    intros n w d i j m f g HL Hi Hj Hf. induction m; simpl; auto.
    rewrite IHm by (intros; apply Hf; lia). simpl.
    assert (i * w + j < length d) by (rewrite HL; apply idx_lt; auto).
    rewrite (rd_ok _ _ n0) by (rewrite upd_length; auto). simpl. rewrite nth_upd_eq by auto.
    rewrite Hf by lia. simpl. rewrite wr_ok by (rewrite upd_length; auto). f_equal.
    clear. generalize (i * w + j). intro p. revert p. induction d; destruct p; simpl; auto.
    f_equal. apply IHd.
  Qed.

  Lemma product_gen : forall a b : @matrix A, wf_mat a -> wf_mat b ->
    (m_cols a <> m_rows b -> mat_product a b = Throw RuntimeError) /\
    (m_cols a = m_rows b ->
     exists c, mat_product a b = Ok c /\ wf_mat c /\ m_rows c = m_rows a /\ m_cols c = m_cols b /\
       forall i j, i < m_rows a -> j < m_cols b ->
         ent c i j = nsum (m_cols a) (fun k => (ent a i k * ent b k j)%num)).
  Proof.
    intros a b Wa Wb. unfold mat_product. split; intro HE.
    - apply Nat.eqb_neq in HE. rewrite HE. reflexivity.
    - pose proof HE as HE'. apply Nat.eqb_eq in HE'. rewrite HE'. cbn [negb].
      set (n := m_rows a). set (w := m_cols b). set (K := m_cols a).
      set (g := fun i j => nsum K (fun k => (ent a i k * ent b k j)%num)).
      assert (CELL : forall i j s, i < n -> j < w -> length s = n * w ->
        (let* out := wr s (i * w + j) n0 in
         iterM K (fun k out =>
            let* o := rd out (i * w + j) in
            let* x := rd (m_data a) (i * K + k) in
            let* y := rd (m_data b) (k * w + j) in
            wr out (i * w + j) (o + x * y)%num) out) = Ok (upd s (i * w + j) (g i j))).
      { intros i j s Hi Hj Ls. rewrite (wr_cell n) by auto. simpl.
        etransitivity; [|apply (acc_loop n w s i j K (fun k => let* x := rd (m_data a) (i * K + k) in
            let* y := rd (m_data b) (k * w + j) in Ok (x * y)%num)
            (fun k => (ent a i k * ent b k j)%num)); auto].
        - apply iterM_ext. intros k s' Hk. destruct (rd s' (i * w + j)); simpl; auto.
          destruct (rd (m_data a) (i * K + k)); simpl; auto.
          destruct (rd (m_data b) (k * w + j)); simpl; auto.
        - intros k Hk. rewrite (rd_cell n) by auto. simpl.
          rewrite (rd_cell (m_rows b)) by (auto; lia). reflexivity. }
      destruct (iterM_inv (fun m d => length d = n * w /\
         forall i j, i < m -> j < w -> cell w d i j = g i j)
        n (fun i out => iterM w (fun j out => let* out := wr out (i * w + j) n0 in
         iterM K (fun k out =>
            let* o := rd out (i * w + j) in
            let* x := rd (m_data a) (i * K + k) in
            let* y := rd (m_data b) (k * w + j) in
            wr out (i * w + j) (o + x * y)%num) out) out) (repeat n0 (n * w))) as (d & E & L & C).
      + split. apply repeat_length. intros; lia.
      + intros i s Hi (Ls & Cs).
        destruct (iterM_inv (fun m d => length d = n * w /\
            (forall i' j, i' < i -> j < w -> cell w d i' j = g i' j) /\
            (forall j, j < m -> j < w -> cell w d i j = g i j))
          w (fun j out => let* out := wr out (i * w + j) n0 in
             iterM K (fun k out =>
            let* o := rd out (i * w + j) in
            let* x := rd (m_data a) (i * K + k) in
            let* y := rd (m_data b) (k * w + j) in
            wr out (i * w + j) (o + x * y)%num) out) s) as (d & E & L & C1 & C2).
        * repeat split; auto. intros; lia.
        * intros j s' Hj (Ls' & C1 & C2). rewrite CELL by auto.
          eexists. split; [reflexivity|]. rewrite upd_length. split; auto. split.
          -- intros i' j' Hi' Hj'. rewrite (cell_upd n) by auto.
             replace (i =? i') with false by (symmetry; apply Nat.eqb_neq; lia). apply C1; auto.
          -- intros j' Hj1 Hj2. rewrite (cell_upd n) by auto. rewrite Nat.eqb_refl. simpl.
             destruct (j =? j') eqn:Ej. apply Nat.eqb_eq in Ej. subst; auto.
             apply Nat.eqb_neq in Ej. apply C2; lia.
        * rewrite E. exists d. split; auto. split; auto. intros i' j' Hi' Hj'.
          destruct (Nat.eq_dec i' i) as [->|]. apply C2; auto. apply C1; lia.
      + rewrite E. simpl. eexists. split; [reflexivity|]. repeat split; auto.
  Qed.

  (** ** Gauss-Jordan *)
  Lemma gj_init_gen : forall n data, length data = n * n ->
    exists mat, gj_init n data = Ok mat /\ length mat = n * (2 * n) /\
      forall i j, i < n -> j < 2 * n ->
        cell (2 * n) mat i j =
        if j <? n then cell n data i j else if j =? n + i then n1 else n0.
  Proof.
    intros n data HL. unfold gj_init.
    set (w := 2 * n).
    destruct (iterM_inv (fun m d => length d = n * w /\
        (forall i j, i < m -> j < w -> cell w d i j =
            if j <? n then cell n data i j else if j =? n + i then n1 else n0) /\
        (forall i j, m <= i -> i < n -> j < w -> cell w d i j = n0))
      n (fun i mat => let* mat := iterM n (fun j mat => let* x := rd data (i * n + j) in
                 wr mat (i * w + j) x) mat in wr mat (i * w + n + i) n1) (repeat n0 (n * w)))
      as (mat & E & L & C & _).
    - split. apply repeat_length. split. intros; lia. intros. unfold cell.
      destruct (lt_dec (i * w + j) (n * w)). apply nth_repeat.
      apply nth_overflow. rewrite repeat_length. lia.
    - intros i s Hi (Ls & C1 & C2).
      destruct (iterM_inv (fun m d => length d = n * w /\
          (forall i' j, i' <> i -> j < w -> cell w d i' j = cell w s i' j) /\
          (forall j, j < w -> cell w d i j = if j <? m then cell n data i j else n0))
        n (fun j mat => let* x := rd data (i * n + j) in wr mat (i * w + j) x) s)
        as (d & E & L & D1 & D2).
      + repeat split; auto; intros; try (apply C2; lia).
      + intros j s' Hj (Ls' & D1 & D2). rewrite (rd_cell n) by auto. simpl.
        assert (Hjw : j < w) by (unfold w; lia).
        rewrite (wr_cell n) by auto. eexists. split; [reflexivity|]. rewrite upd_length.
        split; auto. split.
        * intros i' j' Hi' Hj'. rewrite (cell_upd n) by auto.
          replace (i =? i') with false by (symmetry; apply Nat.eqb_neq; lia). apply D1; auto.
        * intros j' Hj'. rewrite (cell_upd n) by auto. rewrite Nat.eqb_refl. simpl.
          destruct (j =? j') eqn:Ej.
          -- apply Nat.eqb_eq in Ej. subst. replace (j' <? S j') with true; auto.
             symmetry; apply Nat.ltb_lt; lia.
          -- apply Nat.eqb_neq in Ej. rewrite D2 by auto.
             destruct (j' <? j) eqn:E1.
             ++ apply Nat.ltb_lt in E1. replace (j' <? S j) with true; auto.
                symmetry; apply Nat.ltb_lt; lia.
             ++ apply Nat.ltb_ge in E1. replace (j' <? S j) with false; auto.
                symmetry; apply Nat.ltb_ge; lia.
      + rewrite E. cbn [bind]. rewrite <- Nat.add_assoc.
        assert (Hw : n + i < w) by (unfold w; lia).
        rewrite (wr_cell n) by auto. eexists. split; [reflexivity|]. rewrite upd_length.
        split; auto. split.
        * intros i' j' Hi' Hj'. rewrite (cell_upd n) by auto.
          destruct (Nat.eq_dec i i') as [->|Ne].
          -- rewrite Nat.eqb_refl. simpl. rewrite D2 by auto.
             rewrite (Nat.eqb_sym (n + i') j').
             destruct (j' =? n + i') eqn:Ej; auto.
             apply Nat.eqb_eq in Ej. replace (j' <? n) with false; auto.
             symmetry; apply Nat.ltb_ge; lia.
          -- pose proof Ne as Ne'. apply Nat.eqb_neq in Ne'. rewrite Ne'. simpl.
             rewrite D1 by auto. apply C1; lia.
        * intros i' j' Hi1 Hi2 Hj'. rewrite (cell_upd n) by auto.
          replace (i =? i') with false by (symmetry; apply Nat.eqb_neq; lia). simpl.
          rewrite D1 by (auto; lia). apply C2; lia.
    - exists mat. unfold w in *. auto.
  Qed.

  Definition small (x : T) : bool := (nabs x <? eps_pinv)%num.

  Lemma gj_pivot_gen : forall n k mat fuel i, length mat = n * (2 * n) -> k < n -> i < n ->
    n - i <= fuel ->
    (gj_pivot n k mat fuel i = Throw RuntimeError /\
       forall i', i <= i' < n -> small (cell (2 * n) mat i' k) = true) \/
    (exists p, gj_pivot n k mat fuel i = Ok p /\ i <= p < n /\ small (cell (2 * n) mat p k) = false /\
       forall i', i <= i' < p -> small (cell (2 * n) mat i' k) = true).
  Proof.
    intros n k mat fuel. induction fuel; intros i HL Hk Hi Hf; [lia|]. cbn [gj_pivot].
    rewrite (rd_cell n) by (auto; lia). cbn [bind]. fold (small (cell (2 * n) mat i k)).
    destruct (small (cell (2 * n) mat i k)) eqn:ES.
    - destruct (S i =? n) eqn:EN.
      + apply Nat.eqb_eq in EN. left. split; auto. intros i' Hi'.
        replace i' with i by lia. exact ES.
      + apply Nat.eqb_neq in EN. destruct (IHfuel (S i)) as [(E & H)|(p & E & H1 & H2 & H3)];
          auto; try lia.
        * left. split; auto. intros i' Hi'. destruct (Nat.eq_dec i' i) as [->|]; auto. apply H; lia.
        * right. exists p. split; auto. split; [lia|]. split; auto. intros i' Hi'.
          destruct (Nat.eq_dec i' i) as [->|]; auto. apply H3; lia.
    - right. exists i. split; auto. split; [lia|]. split; auto. intros; lia.
  Qed.

  Lemma swap_gen : forall n w i k (d : list T), length d = n * w -> i < n -> k < n -> i <> k ->
    exists d', swap_lines w i k d = Ok d' /\ length d' = n * w /\
      forall i' j, j < w -> cell w d' i' j =
        if i' =? i then cell w d k j else if i' =? k then cell w d i j else cell w d i' j.
  Proof.
    intros n w i k d HL Hi Hk Hik. unfold swap_lines.
    destruct (iterM_inv (fun m s => length s = n * w /\
        forall i' j, j < w -> cell w s i' j =
          if j <? m then (if i' =? i then cell w d k j else if i' =? k then cell w d i j else cell w d i' j)
          else cell w d i' j)
      w (fun m d => let* tmp := rd d (i * w + m) in let* y := rd d (k * w + m) in
            let* d := wr d (i * w + m) y in wr d (k * w + m) tmp) d) as (d' & E & L & C).
    - split; auto.
    - intros m s Hm (Ls & Cs). rewrite (rd_cell n) by auto. cbn [bind].
      rewrite (rd_cell n) by auto. cbn [bind]. rewrite (wr_cell n) by auto. cbn [bind].
      rewrite (wr_cell n) by (rewrite ?upd_length; auto). eexists. split; [reflexivity|].
      rewrite !upd_length. split; auto. intros i' j Hj.
      rewrite (cell_upd n) by (rewrite ?upd_length; auto). rewrite (cell_upd n) by auto.
      rewrite !Cs by auto. rewrite Nat.ltb_irrefl.
      destruct (m =? j) eqn:Ej.
      + apply Nat.eqb_eq in Ej. subst m. rewrite Nat.ltb_irrefl.
        replace (j <? S j) with true by (symmetry; apply Nat.ltb_lt; lia).
        rewrite !andb_true_r. rewrite (Nat.eqb_sym k i'), (Nat.eqb_sym i i').
        destruct (i' =? k) eqn:E1, (i' =? i) eqn:E2; auto.
        apply Nat.eqb_eq in E1, E2. congruence.
      + rewrite !andb_false_r. apply Nat.eqb_neq in Ej.
        destruct (j <? m) eqn:E1.
        * apply Nat.ltb_lt in E1. replace (j <? S m) with true; auto. symmetry; apply Nat.ltb_lt; lia.
        * apply Nat.ltb_ge in E1. replace (j <? S m) with false; auto. symmetry; apply Nat.ltb_ge; lia.
    - exists d'. split; auto. split; auto. intros i' j Hj. rewrite C by auto.
      apply Nat.ltb_lt in Hj. rewrite Hj. reflexivity.
  Qed.

  (** The matrix after the (possible) exchange of rows [p] and [k]. *)
  Definition swapped (w p k : nat) (mat : list T) (i j : nat) : T :=
    if i =? p then cell w mat k j else if i =? k then cell w mat p j else cell w mat i j.

  Lemma gj_step_gen : forall n k mat det, length mat = n * (2 * n) -> k < n ->
    (gj_step n k (mat, det) = Throw RuntimeError /\
       forall i, k <= i < n -> small (cell (2 * n) mat i k) = true) \/
    (exists p new, gj_step n k (mat, det) = Ok (new, (det * cell (2 * n) mat p k)%num) /\
       k <= p < n /\ small (cell (2 * n) mat p k) = false /\
       (forall i, k <= i < p -> small (cell (2 * n) mat i k) = true) /\
       length new = n * (2 * n) /\
       let sw := swapped (2 * n) p k mat in
       forall i j, i < n -> j < 2 * n ->
         cell (2 * n) new i j =
           if i =? k then (sw k j / sw k k)%num
           else (sw i j - sw i k * (sw k j / sw k k))%num).
  Proof.
    intros n k mat det HL Hk. unfold gj_step. set (w := 2 * n) in *.
    destruct (gj_pivot_gen n k mat (n - k) k HL Hk Hk (le_n _)) as [(E & H)|(p & E & Hp & HS & HB)].
    - left. rewrite E. split; auto.
    - right. exists p. rewrite E. cbn [bind].
      assert (Hkw : k < w) by (unfold w; lia).
      rewrite (rd_cell n) by (auto; lia). cbn [bind].
      assert (HSW : exists m2, (if negb (p =? k) then swap_lines w p k mat else Ok mat) = Ok m2 /\
                length m2 = n * w /\ forall i j, j < w -> cell w m2 i j = swapped w p k mat i j).
      { destruct (p =? k) eqn:Epk; cbn [negb].
        - exists mat. split; auto. split; auto. intros i j Hj. unfold swapped.
          apply Nat.eqb_eq in Epk. subst p. destruct (i =? k) eqn:Ei; auto.
          apply Nat.eqb_eq in Ei. subst; auto.
        - apply Nat.eqb_neq in Epk.
          destruct (swap_gen n w p k mat) as (d' & E' & L' & C'); auto; try lia.
          exists d'. split; auto. }
      destruct HSW as (m2 & -> & L2 & C2). cbn [bind].
      destruct (row_loop n w k (fun j s => let* x := rd s (k * w + j) in
                     let* p := rd m2 (k * w + k) in Ok (x / p)%num)
                  (fun j => (cell w m2 k j / cell w m2 k k)%num) m2 L2 Hk) as (m3 & E3 & L3 & C3).
      { intros j s Hj Ls S1 S2. rewrite (rd_cell n) by auto. cbn [bind].
        rewrite (rd_cell n) by auto. cbn [bind]. rewrite S2 by auto. reflexivity. }
      assert (E3' : iterM w (fun j new => let* x := rd new (k * w + j) in
                 let* p0 := rd m2 (k * w + k) in wr new (k * w + j) (x / p0)%num) m2 = Ok m3).
      { rewrite <- E3. apply iterM_ext. intros j s Hj. destruct (rd s (k * w + j)); simpl; auto.
        destruct (rd m2 (k * w + k)); simpl; auto. }
      rewrite E3'. cbn [bind]. clear E3 E3'.
      destruct (iterM_inv (fun m s => length s = n * w /\
          forall i j, i < n -> j < w -> cell w s i j =
            if (i <? m) && negb (i =? k) then (cell w m3 i j - cell w m2 i k * cell w m3 k j)%num
            else cell w m3 i j)
        n (fun i new => if negb (i =? k) then iterM w (fun j new =>
              let* x := rd new (i * w + j) in let* f := rd m2 (i * w + k) in
              let* y := rd new (k * w + j) in wr new (i * w + j) (x - f * y)%num) new
            else Ok new) m3) as (new & E4 & L4 & C4).
      { split; auto. }
      { intros i s Hi (Ls & Cs). destruct (i =? k) eqn:Eik; cbn [negb].
        - exists s. split; auto. split; auto. intros i' j Hi' Hj. rewrite Cs by auto.
          apply Nat.eqb_eq in Eik. subst i.
          destruct (i' =? k) eqn:E1; [rewrite !andb_false_r; auto|].
          rewrite !andb_true_r. apply Nat.eqb_neq in E1.
          destruct (i' <? k) eqn:E2.
          + apply Nat.ltb_lt in E2. replace (i' <? S k) with true; auto. symmetry; apply Nat.ltb_lt; lia.
          + apply Nat.ltb_ge in E2. replace (i' <? S k) with false; auto. symmetry; apply Nat.ltb_ge; lia.
        - apply Nat.eqb_neq in Eik.
          destruct (row_loop n w i (fun j s => let* x := rd s (i * w + j) in
                     let* f := rd m2 (i * w + k) in let* y := rd s (k * w + j) in Ok (x - f * y)%num)
                  (fun j => (cell w m3 i j - cell w m2 i k * cell w m3 k j)%num) s Ls Hi)
            as (m5 & E5 & L5 & C5).
          { intros j s' Hj Ls' S1 S2. rewrite (rd_cell n) by auto. cbn [bind].
            rewrite (rd_cell n) by auto. cbn [bind]. rewrite (rd_cell n) by auto. cbn [bind].
            rewrite S2 by auto. rewrite S1 by auto. rewrite !Cs by (auto; lia).
            rewrite Nat.ltb_irrefl. rewrite Nat.eqb_refl, andb_false_r. reflexivity. }
          exists m5. split.
          { rewrite <- E5. apply iterM_ext. intros j s' Hj. destruct (rd s' (i * w + j)); simpl; auto.
            destruct (rd m2 (i * w + k)); simpl; auto. destruct (rd s' (k * w + j)); simpl; auto. }
          split; auto. intros i' j Hi' Hj. rewrite C5 by auto. destruct (i =? i') eqn:E1.
          + apply Nat.eqb_eq in E1. subst i'. replace (i <? S i) with true by (symmetry; apply Nat.ltb_lt; lia).
            apply Nat.eqb_neq in Eik. rewrite Eik. reflexivity.
          + apply Nat.eqb_neq in E1. rewrite Cs by auto.
            destruct (i' <? i) eqn:E2.
            * apply Nat.ltb_lt in E2. replace (i' <? S i) with true; auto. symmetry; apply Nat.ltb_lt; lia.
            * apply Nat.ltb_ge in E2. replace (i' <? S i) with false; auto. symmetry; apply Nat.ltb_ge; lia. }
      rewrite E4. cbn [bind]. exists new. split; [reflexivity|]. split; [auto|]. split; [auto|].
      split; [auto|]. split; [auto|]. intros i j Hi Hj. rewrite C4 by auto.
      assert (HiT : (i <? n) = true) by (apply Nat.ltb_lt; auto). rewrite HiT. cbn [andb].
      rewrite !C3 by auto. rewrite Nat.eqb_refl.
      rewrite (Nat.eqb_sym k i). rewrite <- !C2 by auto.
      destruct (i =? k) eqn:Eik; cbn [negb].
      + apply Nat.eqb_eq in Eik. reflexivity.
      + reflexivity.
  Qed.

  (** The final extraction of the right half. *)
  Lemma gj_extract : forall n mat, length mat = n * (2 * n) ->
    exists dst, iterM n (fun i dst => iterM n (fun j dst =>
          let* x := rd mat (i * (2 * n) + n + j) in wr dst (i * n + j) x) dst) (repeat n0 (n * n)) = Ok dst /\
      length dst = n * n /\
      forall i j, i < n -> j < n -> cell n dst i j = cell (2 * n) mat i (n + j).
  Proof.
    intros n mat HL. apply fill_grid with (f := fun i j => rd mat (i * (2 * n) + n + j)).
    - apply repeat_length.
    - intros. rewrite <- Nat.add_assoc. apply (rd_cell n); auto. lia.
  Qed.

  (** [gauss_jordan] never has undefined behaviour, and either throws or returns. *)
  Lemma gauss_jordan_shape : forall m : @matrix A, wf_mat m ->
    gauss_jordan m = Throw RuntimeError \/
    exists inv det, gauss_jordan m = Ok (inv, det) /\ wf_mat inv /\
      m_rows inv = m_rows m /\ m_cols inv = m_rows m /\ m_rows m = m_cols m.
  Proof.
    intros m WF. unfold gauss_jordan. destruct (m_rows m =? m_cols m) eqn:ES; cbn [negb]; auto.
    apply Nat.eqb_eq in ES. set (n := m_rows m) in *.
    destruct (gj_init_gen n (m_data m)) as (mat & -> & L & _).
    { unfold wf_mat in WF. unfold n in *. rewrite WF, <- ES. reflexivity. }
    cbn [bind].
    assert (HI : forall k, k <= n ->
      iterM k (gj_step n) (mat, n1) = Throw RuntimeError \/
      exists mat' det', iterM k (gj_step n) (mat, n1) = Ok (mat', det') /\ length mat' = n * (2 * n)).
    { induction k; intros Hk; simpl iterM. right; eauto.
      destruct IHk as [E|(mat' & det' & E & L')]; try lia.
      - left. rewrite E. reflexivity.
      - rewrite E. cbn [bind]. destruct (gj_step_gen n k mat' det' L') as [(E2 & _)|(p & new & E2 & _ & _ & _ & L2 & _)]; try lia.
        + left; auto.
        + right. eauto. }
    destruct (HI n (le_n _)) as [E|(mat' & det' & E & L')]; rewrite E; cbn [bind]; auto.
    destruct (gj_extract n mat' L') as (dst & E2 & L2 & C2). rewrite E2. cbn [bind].
    right. eexists _, _. split; [reflexivity|]. unfold wf_mat. simpl. auto.
  Qed.
End G.
