From Coq Require Import List Bool Arith Lia ZArith QArith Reals Lra Psatz.
From Coq Require Import Floats.SpecFloat.
From Verif Require Import Base BaseFacts Arith RFacts Model_Matrix Spec_Matrix Proofs_MatrixGen Proofs_Matrix
  Model_Gaussian Spec_Gaussian Proofs_Gaussian Proofs_Gaussian2 Proofs_Gaussian3 Model_Ellipse.
Import ListNotations.
Local Open Scope R_scope.

Lemma k5991_R : @k5991 RA = 5991 / 1000.
Proof. unfold k5991. cbn. unfold Q2R. cbn. lra. Qed.
Lemma half_R : @half RA = / 2.
Proof. unfold half. cbn. unfold Q2R. cbn. lra. Qed.

(** The two eigenvalues. *)
Definition eig (s : R) (a b c : R) : R := / 2 * (a + c + s * sqrt ((a - c) * (a - c) + 4 * (b * b))).

Lemma eig_facts : forall a b c, 0 <= a -> 0 <= c -> 0 <= a * c - b * b ->
  0 <= eig (-1) a b c <= eig 1 a b c /\
  eig 1 a b c + eig (-1) a b c = a + c /\ eig 1 a b c * eig (-1) a b c = a * c - b * b.
Proof.
  intros a b c Ha Hc Hd. unfold eig. set (r := sqrt _).
  assert (Hr : 0 <= r) by apply sqrt_pos.
  assert (Er : r * r = (a - c) * (a - c) + 4 * (b * b)) by (apply sqrt_sqrt; pose proof (Rle_0_sqr (a - c)); pose proof (Rle_0_sqr b); unfold Rsqr in *; lra).
  assert (Hle : r <= a + c).
  { destruct (Rle_dec r (a + c)); auto. exfalso. assert (r * r > (a + c) * (a + c)) by nra. nra. }
  split; [split; lra|]. split; [lra|]. nra.
Qed.

Lemma eig_gap : forall a b c, b <> 0 -> 0 < eig 1 a b c - c.
Proof.
  intros a b c Hb. unfold eig. set (r := sqrt _).
  assert (Hr : 0 <= r) by apply sqrt_pos.
  assert (Er : r * r = (a - c) * (a - c) + 4 * (b * b)) by (apply sqrt_sqrt; pose proof (Rle_0_sqr (a - c)); pose proof (Rle_0_sqr b); unfold Rsqr in *; lra).
  assert (0 < b * b) by nra. assert (r > c - a); [|lra]. destruct (Rlt_dec (c - a) r); auto. exfalso. nra.
Qed.

Lemma cov2ellipse_R : forall x y a b c : R,
  @cov2ellipse RA atan x y a b c = mkEllipse (A:=RA) x y (sqrt (5991 / 1000 * eig 1 a b c)) (sqrt (5991 / 1000 * eig (-1) a b c))
    (atan (b / (eig 1 a b c - c))).
Proof.
  intros. unfold cov2ellipse. rewrite k5991_R, half_R. cbn [nisnan RA nadd nsub nmul ndiv nsqrt]. 
  replace (@nZ RA 4) with 4 by (unfold nZ; cbn; unfold Q2R; cbn; lra).
  replace ((a + c) * (a + c) - 4 * (a * c - b * b)) with ((a - c) * (a - c) + 4 * (b * b)) by ring.
  replace (/ 2 * (a + c + sqrt ((a - c) * (a - c) + 4 * (b * b)))) with (eig 1 a b c) by (unfold eig; ring).
  replace (/ 2 * (a + c - sqrt ((a - c) * (a - c) + 4 * (b * b)))) with (eig (-1) a b c) by (unfold eig; ring).
  reflexivity.
Qed.

(** The direction (1, slope) of the main axis is an eigenvector for the largest eigenvalue, up to
    the exchange of the coordinates. *)
Lemma axis : forall a b c, b <> 0 -> 0 <= a -> 0 <= c -> 0 <= a * c - b * b ->
  let t := b / (eig 1 a b c - c) in
  a * 1 + b * t = eig 1 a b c * 1 /\ b * 1 + c * t = eig 1 a b c * t.
Proof.
  intros a b c Hb Ha Hc Hd t. destruct (eig_facts a b c Ha Hc Hd) as (_ & E1 & E2). pose proof (eig_gap a b c Hb) as Hg.
  set (e := eig 1 a b c) in *. assert (Et : t * (e - c) = b) by (unfold t; field; lra).
  assert (Ee : (e - c) * (e - a) = b * b) by (replace (eig (-1) a b c) with (a + c - e) in E2 by lra; nra).
  split; [|nra]. apply Rmult_eq_reg_r with (e - c); [|lra]. replace (b * t) with (b * t) by auto.
  transitivity (a * (e - c) + b * (t * (e - c))); [ring|]. rewrite Et. nra.
Qed.

Lemma ellipse_trip : forall x y a b c, b <> 0 -> 0 <= a -> 0 <= c -> 0 <= a * c - b * b ->
  @ellipse2cov RA tan (@cov2ellipse RA atan x y a b c) = (a, b, c).
Proof.
  intros x y a b c Hb Ha Hc Hd. rewrite cov2ellipse_R. unfold ellipse2cov. rewrite k5991_R, n1_RA.
  cbn [e_width e_height e_angle nadd nsub nmul ndiv RA].
  destruct (eig_facts a b c Ha Hc Hd) as ((H1 & H2) & E1 & E2). pose proof (eig_gap a b c Hb) as Hg.
  set (e := eig 1 a b c) in *. set (f := eig (-1) a b c) in *.
  rewrite !sqrt_sqrt by lra. rewrite tan_atan. set (t := b / (e - c)).
  replace (5991 / 1000 * e / (5991 / 1000)) with e by field. replace (5991 / 1000 * f / (5991 / 1000)) with f by field.
  assert (Et : t * (e - c) = b) by (unfold t; field; lra).
  assert (Ht : t <> 0) by (intro Z; rewrite Z in Et; lra).
  assert (Ee : (e - c) * (e - a) = b * b) by (replace f with (a + c - e) in E2 by lra; nra).
  assert (Eb : (e - f) * t / (t * t + 1) = b).
  { assert (Hp : t * t + 1 <> 0) by nra. apply Rmult_eq_reg_r with (t * t + 1); auto.
    transitivity ((e - f) * t); [field; auto|]. apply Rmult_eq_reg_r with (e - c); [|lra].
    transitivity ((e - f) * (t * (e - c))); [ring|]. transitivity (b * (t * (t * (e - c)) + (e - c))); [|ring]. rewrite Et.
    replace f with (a + c - e) by lra. apply Rmult_eq_reg_r with (e - c); [|lra].
    transitivity (b * ((t * (e - c)) * b + (e - c) * (e - c))); [|ring]. rewrite Et. nra. }
  rewrite Eb. assert (Eq : b / t = e - c) by (apply Rmult_eq_reg_r with t; auto; transitivity b; [field; auto|lra]).
  rewrite Eq. repeat (f_equal; try lra).
Qed.

Lemma upd_same : forall (v : list R) i x, (i < length v)%nat -> nth i v 0 = x -> upd v i x = v.
Proof. induction v; destruct i; cbn; intros; try lia; [congruence|]. f_equal. apply IHv; auto; lia. Qed.

Lemma g_ellipse_trip : forall (g : gauss RA) d1 d2, wf_gauss g -> pos_cov g -> g_mode g = Full ->
  (d1 < g_dim g)%nat -> (d2 < g_dim g)%nat -> gcov g d1 d2 <> 0 -> gcov g d2 d1 = gcov g d1 d2 ->
  0 <= gcov g d1 d1 -> 0 <= gcov g d2 d2 -> 0 <= gcov g d1 d1 * gcov g d2 d2 - gcov g d1 d2 * gcov g d1 d2 ->
  exists e, g_toEllipse (A:=RA) atan g d1 d2 = Ok e /\ g_fromEllipse (A:=RA) tan e d1 d2 g = g_update_inv g.
Proof.
  intros g d1 d2 (L1 & L2 & L3 & L4) P HM H1 H2 Hb Hs Ha Hc Hd. rewrite HM in *. cbn [csize] in *.
  assert (GC : forall i j, gcov g i j = rcell (g_dim g) (g_cov g) i j) by (intros; unfold gcov; rewrite HM; reflexivity).
  unfold g_toEllipse. replace ((g_dim g <=? d1) || (g_dim g <=? d2))%nat with false.
  2:{ symmetry. apply orb_false_iff. split; apply Nat.leb_gt; auto. }
  rewrite HM. change (num RA) with R in *.
  rewrite !rd_R by (rewrite ?L1, ?L2; try apply idx_lt; auto; lia). cbn [bind].
  eexists. split; [reflexivity|].
  set (a := nth (d1 * g_dim g + d1) (g_cov g) 0). set (b := nth (d1 * g_dim g + d2) (g_cov g) 0). set (c := nth (d2 * g_dim g + d2) (g_cov g) 0).
  assert (Ea : gcov g d1 d1 = a) by apply GC. assert (Eb : gcov g d1 d2 = b) by apply GC. assert (Ec : gcov g d2 d2 = c) by apply GC.
  assert (Eb' : nth (d2 * g_dim g + d1) (g_cov g) 0 = b). { transitivity (gcov g d2 d1). symmetry; apply GC. congruence. }
  rewrite Ea, Eb, Ec in *.
  unfold g_fromEllipse. apply (sbind_ok _ _ _ g g); [reflexivity|].
  replace ((g_dim g <=? d1) || (g_dim g <=? d2))%nat with false.
  2:{ symmetry. apply orb_false_iff. split; apply Nat.leb_gt; auto. }
  cbv zeta. rewrite ellipse_trip by auto.
  apply (slift_ok _ _ _ (g_mean g)).
  { unfold cov2ellipse. cbn [e_x e_y]. change (num RA) with R in *. rewrite wr_ok by lia. cbn [bind]. rewrite (upd_same (g_mean g) d1) by (auto; lia).
    rewrite wr_ok by lia. rewrite upd_same by (auto; lia). reflexivity. }
  eapply sbind_ok; [reflexivity|]. rewrite HM.
  apply (slift_ok _ _ _ (g_cov g)).
  { change (num RA) with R in *. rewrite wr_ok by (rewrite L2; apply idx_lt; auto). cbn [bind]. rewrite (upd_same (g_cov g)) by (auto; rewrite L2; apply idx_lt; auto).
    rewrite wr_ok by (rewrite L2; apply idx_lt; auto). cbn [bind]. rewrite (upd_same (g_cov g)) by (auto; rewrite L2; apply idx_lt; auto).
    rewrite wr_ok by (rewrite L2; apply idx_lt; auto). cbn [bind]. rewrite (upd_same (g_cov g)) by (auto; rewrite L2; apply idx_lt; auto).
    rewrite wr_ok by (rewrite L2; apply idx_lt; auto). rewrite (upd_same (g_cov g)) by (auto; rewrite L2; apply idx_lt; auto). reflexivity. }
  eapply sbind_ok; [reflexivity|]. destruct g; reflexivity.
Qed.

Lemma ellipse_axes : forall (x y a b c : R), b <> 0 -> 0 <= a -> 0 <= c -> 0 <= a * c - b * b ->
  exists e1 e2, 0 <= e2 <= e1 /\ e1 + e2 = a + c /\ e1 * e2 = a * c - b * b /\
    let e := cov2ellipse (A:=RA) atan x y a b c in
    e_x e = x /\ e_y e = y /\
    e_width e * e_width e = 5991 / 1000 * e1 /\ e_height e * e_height e = 5991 / 1000 * e2 /\
    a * 1 + b * tan (e_angle e) = e1 * 1 /\ b * 1 + c * tan (e_angle e) = e1 * tan (e_angle e).
Proof.
  intros x y a b c Hb Ha Hc Hd. exists (eig 1 a b c), (eig (-1) a b c).
  destruct (eig_facts a b c Ha Hc Hd) as (H1 & H2 & H3). do 3 (split; [assumption|]).
  rewrite cov2ellipse_R. cbn [e_x e_y e_width e_height e_angle]. cbv zeta. rewrite tan_atan.
  split; [reflexivity|]. split; [reflexivity|]. rewrite !sqrt_sqrt by lra. split; [reflexivity|]. split; [reflexivity|].
  exact (axis a b c Hb Ha Hc Hd).
Qed.

Lemma ellipse_nan : forall fexp fln fatan ftan : f64 -> f64,
  fatan (S754_zero false) = S754_zero false -> ftan (S754_zero false) = S754_zero false ->
  exists (g g' : gauss (FA fexp fln)) e,
    g_cov g = [f64_ofQ (inject_Z 2); f64_ofQ (inject_Z 1)] /\ g_mode g = Diagonal /\ wf_gauss g /\
    g_toEllipse (A:=FA fexp fln) fatan g 0 1 = Ok e /\
    g_fromEllipse (A:=FA fexp fln) ftan e 0 1 g = (g', Ok tt) /\ g_cov g' = [S754_nan; S754_nan].
Proof.
  intros fexp fln fatan ftan Ha Ht.
  exists (mkGauss (A:=FA fexp fln) false 2 1 0 (Some 0%nat) Diagonal [f64_ofQ (inject_Z 0); f64_ofQ (inject_Z 0)] [f64_ofQ (inject_Z 2); f64_ofQ (inject_Z 1)]
    [f64_ofQ (inject_Z 0); f64_ofQ (inject_Z 0)] (f64_ofQ (inject_Z 0)) [] (f64_ofQ (inject_Z 0)) [] (Some 0%nat)).
  exists (mkGauss (A:=FA fexp fln) false 2 1 0 (Some 0%nat) Diagonal [f64_ofQ (inject_Z 0); f64_ofQ (inject_Z 0)] [S754_nan; S754_nan]
    [S754_nan; S754_nan] S754_nan [] (f64_ofQ (inject_Z 1)) [] (Some 0%nat)).
  set (sz := S754_zero false) in *.
  exists (mkEllipse (A:=FA fexp fln) sz sz (SFsqrt fprec femax (SFmul fprec femax (f64_ofQ (QArith_base.Qmake 5991 1000)) (f64_ofQ (inject_Z 2)))) 
     (SFsqrt fprec femax (SFmul fprec femax (f64_ofQ (QArith_base.Qmake 5991 1000)) (f64_ofQ (inject_Z 1)))) sz).
  split; [reflexivity|]. split; [reflexivity|]. split; [unfold wf_gauss; cbn; repeat split; discriminate|].
  split.
  - unfold g_toEllipse. cbn [g_dim g_mean g_cov g_mode Nat.leb orb rd nth_error bind].
    set (A := FA fexp fln). set (x2 := f64_ofQ (inject_Z 2) : num A). set (x1 := f64_ofQ (inject_Z 1) : num A).
    assert (E : fatan (n0 / (half * (x2 + x1 + nsqrt ((x2 + x1) * (x2 + x1) - nZ 4 * (x2 * x1 - n0 * n0))) - x1))%num = sz).
    { transitivity (fatan sz); auto. }
    unfold cov2ellipse. rewrite E. apply (f_equal (@Ok _)).
    match goal with |- ?a = ?b => exact (eq_refl b <: a = b) end.
  - split; [|reflexivity]. set (e := mkEllipse _ _ _ _ _).
    assert (E : ellipse2cov (A:=FA fexp fln) ftan e = (S754_nan, sz, S754_nan)).
    { unfold ellipse2cov, e. cbn [e_angle]. rewrite Ht. match goal with |- ?a = ?b => exact (eq_refl b <: a = b) end. }
    unfold g_fromEllipse, sbind, sget. cbn [g_dim Nat.leb orb]. rewrite E.
    match goal with |- ?a = ?b => exact (eq_refl b <: a = b) end.
Qed.
