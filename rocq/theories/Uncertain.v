(** Transforms with uncertainty (C91, C92): core/Transform.hpp, core/Transform.cpp, and core/Environment.cpp:744-797 for [TransformWithUncertainty].

    Simplifications: the scalars are the elements of any ordered field (no rounding). The conversions of a rotation matrix into a quaternion and of a quaternion into
    a rotation vector (Eigen, with square roots and trigonometric functions) are arguments of the model; the theorems hold for all of them. *)
From mathcomp Require Import all_ssreflect all_algebra.
Import GRing.Theory Num.Theory.
Local Open Scope ring_scope.
Set Implicit Arguments.
Unset Strict Implicit.

Section model.
  Variable R : realFieldType.
  Implicit Types v : 'cV[R]_3.

  (** [Eigen::Quaterniond] *)
  Record quat := Quat { qw : R; qv : 'cV[R]_3 }.
  (** [Eigen::Affine3d] *)
  Record trans := Trans { lin : 'M[R]_3; shift : 'cV[R]_3 }.
  (** Transform.hpp:60-112 *)
  Record utrans := UTrans { utf : trans; cov : 'M[R]_(3 + 3); unc : bool }.
  (** Transform.hpp:16-41 *)
  Record upoint := UPoint { pt : 'cV[R]_3; pcov : 'M[R]_3; punc : bool }.

  Definition tone : trans := Trans 1%:M 0.
  (** product of [Eigen::Affine3d] *)
  Definition tmul (a b : trans) : trans := Trans (lin a *m lin b) (lin a *m shift b + shift a).
  (** [inverse( Eigen::Isometry )] *)
  Definition tinv (a : trans) : trans := Trans (lin a)^T (- ((lin a)^T *m shift a)).
  Definition tapp (a : trans) (v : 'cV[R]_3) : 'cV[R]_3 := lin a *m v + shift a.

  (** [v.dot( v )], the square of [v.norm()] *)
  Definition sq v : R := (v^T *m v) 0 0.
  (** Transform.cpp:54-61 *)
  Definition skew v : 'M[R]_3 :=
    \matrix_(i < 3, j < 3) nth 0 (nth [::] [:: [:: 0; - v (inord 2) 0; v (inord 1) 0]; [:: v (inord 2) 0; 0; - v (inord 0) 0]; [:: - v (inord 1) 0; v (inord 0) 0; 0]] i) j.
  (** product, inverse and rotation matrix of [Eigen::Quaterniond] *)
  Definition qmul (a b : quat) : quat := Quat (qw a * qw b - ((qv a)^T *m qv b) 0 0) (qw a *: qv b + qw b *: qv a + skew (qv a) *m qv b).
  Definition qinv (a : quat) : quat := let n := qw a ^+ 2 + sq (qv a) in Quat (qw a / n) (- n^-1 *: qv a).
  Definition qrot (a : quat) : 'M[R]_3 := 1%:M + (2%:R * qw a) *: skew (qv a) + 2%:R *: (skew (qv a) *m skew (qv a)).

  Variable quat_of : 'M[R]_3 -> quat.
  (** Transform.cpp:43-47 *)
  Variable q_to_r : quat -> 'cV[R]_3.

  (** Transform.cpp:49-52 *)
  Definition sign (x : R) : R := if 0 < x then 1 else -1.
  (** Transform.cpp:63-75 *)
  Definition dq_by_dr (q : quat) : 'M[R]_(1 + 3, 3) :=
    let r := q_to_r q in let kappa := 2%:R^-1 - sq r / 48%:R in let lambda := 24%:R^-1 * (1 - sq r / 40%:R) in
    col_mx (- (2%:R^-1 *: (qv q)^T)) (kappa%:M - lambda *: (r *m r^T)).
  (** Transform.cpp:77-88 *)
  Definition dr_by_dq (q : quat) : 'M[R]_(3, 1 + 3) :=
    let mu2 := sq (qv q) in let tau := 2%:R * sign (qw q) * (1 + mu2 / 6%:R) in let nu := - 2%:R * sign (qw q) * (2%:R / 3%:R + mu2 / 5%:R) in
    row_mx (- 2%:R *: qv q) (tau%:M + nu *: (qv q *m (qv q)^T)).
  (** Transform.cpp:90-96 *)
  Definition dq2q1_by_dq1 (q2 : quat) : 'M[R]_(1 + 3) := (qw q2)%:M + block_mx 0 (- (qv q2)^T) (qv q2) (skew (qv q2)).
  (** Transform.cpp:98-104 *)
  Definition dq2q1_by_dq2 (q1 : quat) : 'M[R]_(1 + 3) := (qw q1)%:M + block_mx 0 (- (qv q1)^T) (qv q1) (- skew (qv q1)).
  (** Transform.cpp:106-112 *)
  Definition dr2r1_by_r1 (q q1 q2 : quat) : 'M[R]_3 := dr_by_dq q *m dq2q1_by_dq1 q2 *m dq_by_dr q1.
  (** Transform.cpp:114-120 *)
  Definition dr2r1_by_r2 (q q1 q2 : quat) : 'M[R]_3 := dr_by_dq q *m dq2q1_by_dq2 q1 *m dq_by_dr q2.
  (** Transform.cpp:122-136 *)
  Definition drx_by_dr (q : quat) (x : 'cV[R]_3) : 'M[R]_3 :=
    let r := q_to_r q in
    let alpha := 1 - sq r / 6%:R in let beta := 2%:R^-1 - sq r / 24%:R in let gamma := 3%:R^-1 - sq r / 30%:R in let delta := - (12%:R^-1) + sq r / 180%:R in
    - skew x *m (gamma *: (r *m r^T) - beta *: skew r + alpha%:M) - skew r *m skew x *m (delta *: (r *m r^T) + (2%:R * beta)%:M).

  (** the matrices [J1] and [J2] of Transform.cpp:160-166, 195-201 and 232-246 for the composition [t2 * t1] *)
  Definition jac1 (t2 t1 : trans) : 'M[R]_(3 + 3) :=
    let q1 := quat_of (lin t1) in let q2 := quat_of (lin t2) in block_mx (dr2r1_by_r1 (qmul q2 q1) q1 q2) 0 0 (lin t2).
  Definition jac2 (t2 t1 : trans) : 'M[R]_(3 + 3) :=
    let q1 := quat_of (lin t1) in let q2 := quat_of (lin t2) in block_mx (dr2r1_by_r2 (qmul q2 q1) q1 q2) 0 (drx_by_dr q2 (shift t1)) 1%:M.

  (** Transform.cpp:15-16 *)
  Definition certain (t : trans) : utrans := UTrans t 0 false.
  (** Transform.cpp:210-252; [composition] (138-141) is the same *)
  Definition compose (t2 t1 : utrans) : utrans :=
    if ~~ unc t1 && ~~ unc t2 then certain (tmul (utf t2) (utf t1))
    else
      let c1 := if unc t1 then jac1 (utf t2) (utf t1) *m cov t1 *m (jac1 (utf t2) (utf t1))^T else 0 in
      let c2 := if unc t2 then jac2 (utf t2) (utf t1) *m cov t2 *m (jac2 (utf t2) (utf t1))^T else 0 in
      UTrans (tmul (utf t2) (utf t1)) (c1 + c2) true.
  (** Transform.cpp:143-174; [invmx] is the inverse of an invertible matrix only *)
  Definition composition_inv (tf t1 : utrans) : utrans :=
    let t2 := tmul (utf tf) (tinv (utf t1)) in
    if ~~ unc t1 && ~~ unc tf then certain t2
    else let j1 := jac1 t2 (utf t1) in let j2 := jac2 t2 (utf t1) in
      UTrans t2 (invmx j2 *m (cov tf - j1 *m cov t1 *m j1^T) *m invmx j2^T) true.
  (** Transform.cpp:176-207 *)
  Definition pre_composition_inv (tf t2 : utrans) : utrans :=
    let t1 := tmul (tinv (utf t2)) (utf tf) in
    if ~~ unc t2 && ~~ unc tf then certain t1
    else let j1 := jac1 (utf t2) t1 in let j2 := jac2 (utf t2) t1 in
      UTrans t1 (invmx j1 *m (cov tf - j2 *m cov t2 *m j2^T) *m invmx j1^T) true.
  (** Transform.cpp:254-268: the result is always marked as uncertain *)
  Definition apply (t : utrans) (p : upoint) : upoint :=
    let j : 'M[R]_(3, 3 + 3) := row_mx (drx_by_dr (quat_of (lin (utf t))) (pt p)) 1%:M in
    let c := j *m cov t *m j^T in
    UPoint (tapp (utf t) (pt p)) (if punc p then c + lin (utf t) *m pcov p *m (lin (utf t))^T else c) true.
  (** Transform.cpp:270-285 *)
  Definition inverse (t : utrans) : utrans :=
    if ~~ unc t then certain (tinv (utf t))
    else
      let q := quat_of (lin (utf t)) in
      let j : 'M[R]_(3 + 3) := block_mx 1%:M 0 (drx_by_dr (qinv q) (shift (utf t))) (qrot q)^T in
      UTrans (tinv (utf t)) (j *m cov t *m j^T) true.
  (** Environment.cpp:750-763 for the transforms of the nodes from a node up to the root (without the root) *)
  Definition to_root (ts : seq utrans) : utrans := foldl (fun c t => compose t c) (certain tone) ts.
  (** Environment.cpp:765-792 for different nodes *)
  Definition relative (from to : seq utrans) : utrans := compose (inverse (to_root to)) (to_root from).

  (** ** Specification *)
  Definition symmetric n (c : 'M[R]_n) : Prop := c^T = c.
  Definition psd n (c : 'M[R]_n) : Prop := forall v : 'cV[R]_n, 0 <= (v^T *m c *m v) 0 0.
  (** a covariance: symmetric, and the variance in every direction is not negative *)
  Definition covariance n (c : 'M[R]_n) : Prop := symmetric c /\ psd c.
  (** a transform as the constructors make it, with a covariance *)
  Definition good (t : utrans) : Prop := covariance (cov t) /\ (unc t = false -> cov t = 0).
  (** a rotation or reflection *)
  Definition orthogonal (t : trans) : Prop := (lin t)^T *m lin t = 1%:M.
  (** the second variance is at least the first one in every direction *)
  Definition less_certain (t u : utrans) : Prop := utf t = utf u /\ unc t = unc u /\ psd (cov u - cov t).

  (** ** Lemmas *)
  Lemma congr_quad m n (j : 'M[R]_(m, n)) (c : 'M[R]_n) (v : 'cV[R]_m) : v^T *m (j *m c *m j^T) *m v = (j^T *m v)^T *m c *m (j^T *m v).
  Proof. by rewrite trmx_mul trmxK !mulmxA. Qed.
  Lemma psd_congr m n (j : 'M[R]_(m, n)) (c : 'M[R]_n) : psd c -> psd (j *m c *m j^T).
  Proof. by move=> H v; rewrite congr_quad. Qed.
  Lemma sym_congr m n (j : 'M[R]_(m, n)) (c : 'M[R]_n) : symmetric c -> symmetric (j *m c *m j^T).
  Proof. by move=> H; rewrite /symmetric !trmx_mul trmxK H mulmxA. Qed.
  Lemma cov_congr m n (j : 'M[R]_(m, n)) (c : 'M[R]_n) : covariance c -> covariance (j *m c *m j^T).
  Proof. by move=> [H1 H2]; split; [exact: sym_congr | exact: psd_congr]. Qed.
  Lemma psd_add n (c d : 'M[R]_n) : psd c -> psd d -> psd (c + d).
  Proof. by move=> H1 H2 v; rewrite mulmxDr mulmxDl mxE addr_ge0. Qed.
  Lemma psd0 n : psd (0 : 'M[R]_n).
  Proof. by move=> v; rewrite mulmx0 mul0mx mxE. Qed.
  Lemma cov_add n (c d : 'M[R]_n) : covariance c -> covariance d -> covariance (c + d).
  Proof. by move=> [H1 H2] [H3 H4]; split; [rewrite /symmetric linearD /= H1 H3 | exact: psd_add]. Qed.
  Lemma cov0 n : covariance (0 : 'M[R]_n).
  Proof. by split; [rewrite /symmetric trmx0 | exact: psd0]. Qed.
  Lemma tmul_inv_r a b : orthogonal b -> tmul (tmul a (tinv b)) b = a.
  Proof.
    move=> H; rewrite /tmul /=; case: a => L t /=; congr Trans; first by rewrite -mulmxA H mulmx1.
    by rewrite mulmxN addrA -mulmxA addrN add0r.
  Qed.
  Lemma orthogonal_r (t : trans) : orthogonal t -> lin t *m (lin t)^T = 1%:M.
  Proof. exact: mulmx1C. Qed.
  Lemma tmul_inv_l a b : orthogonal a -> tmul a (tmul (tinv a) b) = b.
  Proof.
    move=> /orthogonal_r H; rewrite /tmul /=; case: b => L t /=; rewrite !mulmxA H mul1mx; congr Trans.
    by rewrite mulmxDr mulmxN !mulmxA H !mul1mx subrK.
  Qed.
  Lemma tmul_cancel_r a b : orthogonal b -> tmul (tmul a b) (tinv b) = a.
  Proof.
    move=> /orthogonal_r H; rewrite /tmul /=; case: a => L t /=; congr Trans; first by rewrite -mulmxA H mulmx1.
    by rewrite mulmxN !mulmxA -(mulmxA L) H mulmx1 addrA addNr add0r.
  Qed.
  Lemma tmul_cancel_l a b : orthogonal a -> tmul (tinv a) (tmul a b) = b.
  Proof.
    move=> H; rewrite /tmul /=; case: b => L t /=; rewrite !mulmxA H mul1mx; congr Trans.
    by rewrite mulmxDr !mulmxA H mul1mx addrK.
  Qed.

  Lemma compose_cov t2 t1 : good t1 -> good t2 ->
    cov (compose t2 t1) = jac1 (utf t2) (utf t1) *m cov t1 *m (jac1 (utf t2) (utf t1))^T + jac2 (utf t2) (utf t1) *m cov t2 *m (jac2 (utf t2) (utf t1))^T.
  Proof.
    move=> [_ H1] [_ H2]; rewrite /compose; case E1: (unc t1); case E2: (unc t2) => //=;
      rewrite ?(H1 E1) ?(H2 E2) ?mulmx0 ?mul0mx ?addr0 ?add0r //.
  Qed.
  Lemma compose_unc t2 t1 : unc (compose t2 t1) = unc t2 || unc t1.
  Proof. by rewrite /compose; case: (unc t1); case: (unc t2). Qed.
  Lemma compose_utf t2 t1 : utf (compose t2 t1) = tmul (utf t2) (utf t1).
  Proof. by rewrite /compose; case: ifP. Qed.
  Lemma good_compose t2 t1 : good t1 -> good t2 -> good (compose t2 t1).
  Proof.
    move=> G1 G2; split; first by rewrite compose_cov //; apply: cov_add; apply: cov_congr; [case: G1 | case: G2].
    by rewrite compose_unc; case E1: (unc t1); case E2: (unc t2) => // _; rewrite compose_cov // (proj2 G1 E1) (proj2 G2 E2) !mulmx0 !mul0mx addr0.
  Qed.
  Lemma good_certain t : good (certain t).
  Proof. by split; first exact: cov0. Qed.
  Lemma good_inverse t : good t -> good (inverse t).
  Proof.
    move=> G; rewrite /inverse; case E: (unc t) => /=; last exact: good_certain.
    by split=> //=; apply: cov_congr; case: G.
  Qed.
  Lemma inverse_unc t : unc (inverse t) = unc t.
  Proof. by rewrite /inverse; case: (unc t). Qed.
  Lemma inverse_utf t : utf (inverse t) = tinv (utf t).
  Proof. by rewrite /inverse; case: (unc t). Qed.

  (** ** C91 *)
  (** Composing propagates uncertainty soundly: the transform is the product, the result is uncertain exactly if one of the two is, and its covariance is one again. *)
  Theorem C91_compose t2 t1 : good t1 -> good t2 ->
    utf (compose t2 t1) = tmul (utf t2) (utf t1) /\ unc (compose t2 t1) = unc t2 || unc t1 /\ good (compose t2 t1).
  Proof. by move=> G1 G2; rewrite compose_utf compose_unc; split=> //; split=> //; exact: good_compose. Qed.
  (** The same for the inverse, which undoes the transform. *)
  Theorem C91_inverse t : good t -> orthogonal (utf t) ->
    tmul (utf (inverse t)) (utf t) = tone /\ tmul (utf t) (utf (inverse t)) = tone /\ unc (inverse t) = unc t /\ good (inverse t).
  Proof.
    move=> G O; rewrite inverse_utf inverse_unc; split; last split; last by split=> //; exact: good_inverse.
    - by rewrite /tmul /tone /= O addrN.
    - by rewrite /tmul /tone /= (orthogonal_r O) mulmxN mulmxA (orthogonal_r O) mul1mx addNr.
  Qed.
  (** Transforming a point gives the image of the point and a covariance. *)
  Theorem C91_point t p : good t -> (punc p -> covariance (pcov p)) ->
    pt (apply t p) = tapp (utf t) (pt p) /\ punc (apply t p) /\ covariance (pcov (apply t p)).
  Proof.
    move=> [C _] H; rewrite /apply /=; split=> //; split=> //. case: (punc p) H => H; last exact: cov_congr.
    by apply: cov_add; apply: cov_congr => //; exact: H.
  Qed.
  (** Less certain transforms give less certain compositions. *)
  Theorem C91_monotone t2 t1 u2 u1 : good t1 -> good t2 -> good u1 -> good u2 -> less_certain t1 u1 -> less_certain t2 u2 -> less_certain (compose t2 t1) (compose u2 u1).
  Proof.
    move=> G1 G2 K1 K2 [E1 [F1 P1]] [E2 [F2 P2]]; split; first by rewrite !compose_utf E1 E2. split; first by rewrite !compose_unc F1 F2.
    rewrite !compose_cov // -E1 -E2 opprD addrACA -!mulmxBl -!mulmxBr. apply: psd_add; exact: psd_congr.
  Qed.
  (** Relative transforms: what holds of the frames holds of the result, for any two paths to the root. *)
  Theorem C91_relative from to : (forall i, good (nth (certain tone) from i)) -> (forall i, good (nth (certain tone) to i)) ->
    utf (relative from to) = tmul (tinv (foldl (fun c t => tmul t c) tone (map utf to))) (foldl (fun c t => tmul t c) tone (map utf from)) /\
    unc (relative from to) = has unc to || has unc from /\ good (relative from to).
  Proof.
    have H l c : good c -> (forall i, good (nth (certain tone) l i)) ->
      [/\ utf (foldl (fun c t => compose t c) c l) = foldl (fun c t => tmul t c) (utf c) (map utf l), unc (foldl (fun c t => compose t c) c l) = unc c || has unc l &
          good (foldl (fun c t => compose t c) c l)].
    { elim: l c => [|t l IH] c Gc Gl /=; first by rewrite orbF.
      have Gt := Gl 0%N. case: (IH (compose t c)) => [|i|-> -> G]; [exact: good_compose|exact: (Gl i.+1)|].
      by split=> //; rewrite ?compose_utf // compose_unc orbA (orbC (unc t)). }
    move=> Gf Gt. case: (H from (certain tone)) => //; first exact: good_certain. case: (H to (certain tone)) => //; first exact: good_certain.
    move=> E1 F1 K1 E2 F2 K2. rewrite /relative compose_utf compose_unc inverse_utf inverse_unc /to_root E1 E2 F1 F2. split=> //; split=> //.
    by apply: good_compose => //; exact: good_inverse.
  Qed.

  (** ** C92: inverse compositions *)
  Lemma inv_congr n (j c : 'M[R]_n) : j \in unitmx -> j *m (invmx j *m c *m invmx j^T) *m j^T = c.
  Proof. by move=> H; rewrite !mulmxA mulmxV // mul1mx -mulmxA mulVmx ?mulmx1 // unitmx_tr. Qed.
  Lemma congr_inv n (j c : 'M[R]_n) : j \in unitmx -> invmx j *m (j *m c *m j^T) *m invmx j^T = c.
  Proof. by move=> H; rewrite !mulmxA mulVmx // mul1mx -mulmxA mulmxV ?mulmx1 // unitmx_tr. Qed.
  Lemma jac2_unit t2 t1 : dr2r1_by_r2 (qmul (quat_of (lin t2)) (quat_of (lin t1))) (quat_of (lin t1)) (quat_of (lin t2)) \in unitmx -> jac2 t2 t1 \in unitmx.
  Proof. by rewrite /jac2 !unitmxE det_lblock det1 mulr1. Qed.
  Lemma jac1_unit t2 t1 : dr2r1_by_r1 (qmul (quat_of (lin t2)) (quat_of (lin t1))) (quat_of (lin t1)) (quat_of (lin t2)) \in unitmx -> orthogonal t2 -> jac1 t2 t1 \in unitmx.
  Proof. by move=> H O; rewrite /jac1 !unitmxE det_lblock unitrM -!unitmxE H; case/mulmx1_unit: (orthogonal_r O). Qed.

  (** [result * trans = this] for [compositionInv], [trans * result = this] for [preCompositionInv], including the covariances, wherever the derivative of the composed
      rotation by the unknown one can be inverted. *)
  Theorem C92_composition_inv tf t1 : good tf -> good t1 -> orthogonal (utf t1) ->
    (let t2 := tmul (utf tf) (tinv (utf t1)) in dr2r1_by_r2 (qmul (quat_of (lin t2)) (quat_of (lin (utf t1)))) (quat_of (lin (utf t1))) (quat_of (lin t2)) \in unitmx) ->
    compose (composition_inv tf t1) t1 = UTrans (utf tf) (cov tf) (unc tf || unc t1).
  Proof.
    move=> [_ Gf] [_ G1] O /jac2_unit U. rewrite /composition_inv. set t2 := tmul (utf tf) _ in U *.
    have T : tmul t2 (utf t1) = utf tf by exact: tmul_inv_r.
    case E: (~~ unc t1 && ~~ unc tf).
    - case/andP: E => /negbTE E1 /negbTE Ef. by rewrite /compose /= E1 Ef /= T (Gf Ef).
    - rewrite /compose /= andbF T inv_congr //. have -> : unc tf || unc t1 = true by move: E; case: (unc t1); case: (unc tf).
      case E1: (unc t1); first by rewrite addrC subrK. by rewrite (G1 E1) mulmx0 mul0mx subr0 add0r.
  Qed.
  Theorem C92_pre_composition_inv tf t2 : good tf -> good t2 -> orthogonal (utf t2) ->
    (let t1 := tmul (tinv (utf t2)) (utf tf) in dr2r1_by_r1 (qmul (quat_of (lin (utf t2))) (quat_of (lin t1))) (quat_of (lin t1)) (quat_of (lin (utf t2))) \in unitmx) ->
    compose t2 (pre_composition_inv tf t2) = UTrans (utf tf) (cov tf) (unc tf || unc t2).
  Proof.
    move=> [_ Gf] [_ G2] O /jac1_unit /(_ O) U. rewrite /pre_composition_inv. set t1 := tmul _ (utf tf) in U *.
    have T : tmul (utf t2) t1 = utf tf by exact: tmul_inv_l.
    case E: (~~ unc t2 && ~~ unc tf).
    - case/andP: E => /negbTE E2 /negbTE Ef. by rewrite /compose /= E2 Ef /= T (Gf Ef).
    - rewrite /compose /= T inv_congr //. have -> : unc tf || unc t2 = true by move: E; case: (unc t2); case: (unc tf).
      case E2: (unc t2); first by rewrite subrK. by rewrite (G2 E2) mulmx0 mul0mx subr0 addr0.
  Qed.
  (** And they recover the factors of a composition. *)
  Theorem C92_recover_left t2 t1 : good t1 -> good t2 -> orthogonal (utf t1) ->
    dr2r1_by_r2 (qmul (quat_of (lin (utf t2))) (quat_of (lin (utf t1)))) (quat_of (lin (utf t1))) (quat_of (lin (utf t2))) \in unitmx ->
    composition_inv (compose t2 t1) t1 = UTrans (utf t2) (cov t2) (unc t2 || unc t1).
  Proof.
    move=> G1 G2 O /jac2_unit U. rewrite /composition_inv compose_utf compose_unc tmul_cancel_r //. case E: (~~ unc t1 && ~~ (unc t2 || unc t1)).
    - move: E. case E1: (unc t1); case E2: (unc t2) => //= _. by rewrite (proj2 G2 E2).
    - have -> : unc t2 || unc t1 = true by move: E; case: (unc t1); case: (unc t2).
      by rewrite compose_cov // addrC addKr congr_inv.
  Qed.
  Theorem C92_recover_right t2 t1 : good t1 -> good t2 -> orthogonal (utf t2) ->
    dr2r1_by_r1 (qmul (quat_of (lin (utf t2))) (quat_of (lin (utf t1)))) (quat_of (lin (utf t1))) (quat_of (lin (utf t2))) \in unitmx ->
    pre_composition_inv (compose t2 t1) t2 = UTrans (utf t1) (cov t1) (unc t1 || unc t2).
  Proof.
    move=> G1 G2 O /jac1_unit /(_ O) U. rewrite /pre_composition_inv compose_utf compose_unc tmul_cancel_l //. case E: (~~ unc t2 && ~~ (unc t2 || unc t1)).
    - move: E. case E1: (unc t1); case E2: (unc t2) => //= _. by rewrite (proj2 G1 E1).
    - have -> : unc t1 || unc t2 = true by move: E; case: (unc t1); case: (unc t2).
      by rewrite compose_cov // addrK congr_inv.
  Qed.
  (** ** C91: the derivatives *)
  (** Uncertain translations: if the rotations are certain, the covariances of the translations are turned and added, without any approximation. *)
  Theorem C91_translation t2 t1 p c2 c1 : good t1 -> good t2 -> cov t1 = block_mx 0 0 0 c1 -> cov t2 = block_mx 0 0 0 c2 ->
    cov (compose t2 t1) = block_mx 0 0 0 (lin (utf t2) *m c1 *m (lin (utf t2))^T + c2) /\
    pcov (apply t2 p) = c2 + (if punc p then lin (utf t2) *m pcov p *m (lin (utf t2))^T else 0) /\
    (qrot (quat_of (lin (utf t1))) = lin (utf t1) -> cov (inverse t1) = block_mx 0 0 0 ((lin (utf t1))^T *m c1 *m lin (utf t1))).
  Proof.
    move=> G1 G2 E1 E2. split; last split.
    - rewrite compose_cov // E1 E2 /jac1 /jac2 !tr_block_mx !mulmx_block !(mulmx0, mul0mx, trmx0, trmx1, mulmx1, mul1mx, addr0, add0r).
      by rewrite add_block_mx !addr0.
    - rewrite /apply /= E2 tr_row_mx mul_row_block mul_row_col !(mulmx0, mul0mx, trmx1, mulmx1, mul1mx, addr0, add0r). by case: (punc p); rewrite ?addr0.
    - move=> Q. rewrite /inverse. case U: (unc t1) => /=.
      + by rewrite E1 Q tr_block_mx !mulmx_block !(mulmx0, mul0mx, trmx0, trmx1, mulmx1, mul1mx, addr0, add0r, trmxK).
      + have /eq_block_mx [_ _ _ C] : block_mx (0 : 'M[R]_3) (0 : 'M[R]_3) (0 : 'M[R]_3) c1 = block_mx 0 0 0 0 by rewrite block_mx0 -E1; case: G1 => _ /(_ U).
        by rewrite C mulmx0 mul0mx block_mx0.
  Qed.
  Definition qvec (q : quat) : 'cV[R]_(1 + 3) := col_mx (qw q)%:M (qv q).
  Lemma dot_sym (a b : 'cV[R]_3) : (a^T *m b) 0 0 = (b^T *m a) 0 0.
  Proof. rewrite !mxE. apply: eq_bigr => i _. by rewrite !mxE mulrC. Qed.
  Lemma skew_anti (a b : 'cV[R]_3) : skew a *m b = - (skew b *m a).
  Proof.
    apply/matrixP => i z. rewrite (ord1 z) !mxE !big_ord_recl !big_ord0 !mxE.
    have -> : inord 0 = 0 :> 'I_3 by apply: val_inj; rewrite /= inordK. have -> : inord 1 = lift ord0 0 :> 'I_3 by apply: val_inj; rewrite /= inordK.
    have -> : inord 2 = lift ord0 (lift ord0 0) :> 'I_3 by apply: val_inj; rewrite /= inordK.
    case: i => [[|[|[|//]]] h] /=; rewrite !(mul0r, add0r, addr0, mulNr) !opprD ?opprK addrC; congr (_ + _); by rewrite mulrC.
  Qed.
  (** The derivatives of the product of quaternions are exact: the product is linear in both factors, and these are its matrices. *)
  Theorem C91_quaternion a b : qvec (qmul a b) = dq2q1_by_dq1 a *m qvec b /\ qvec (qmul a b) = dq2q1_by_dq2 b *m qvec a.
  Proof.
    rewrite /qvec /dq2q1_by_dq1 /dq2q1_by_dq2 !mulmxDl !mul_scalar_mx !mul_block_col !mul0mx !add0r !scale_col_mx !add_col_mx /qmul /=.
    have S (x y : R) : x *: y%:M = (x * y)%:M :> 'M[R]_1 by rewrite scale_scalar_mx. have D (x y : 'cV[R]_3) : - x^T *m y = - ((x^T *m y) 0 0)%:M by rewrite mulNmx -mx11_scalar.
    split; congr col_mx.
    - by rewrite S D raddfB.
    - by rewrite mul_mx_scalar addrA.
    - by rewrite S D raddfB /= mulrC dot_sym.
    - by rewrite mul_mx_scalar mulNmx -skew_anti [_ + _ *: qv a]addrC -addrA.
  Qed.
  (** the cross product *)
  Definition cross (a b : 'cV[R]_3) : 'cV[R]_3 :=
    let x (v : 'cV[R]_3) i := v (inord i) 0 in
    \col_i nth 0 [:: x a 1%N * x b 2%N - x a 2%N * x b 1%N; x a 2%N * x b 0%N - x a 0%N * x b 2%N; x a 0%N * x b 1%N - x a 1%N * x b 0%N] i.
  Lemma skew_cross a b : skew a *m b = cross a b.
  Proof.
    apply/matrixP => i z. rewrite (ord1 z) !mxE !big_ord_recl !big_ord0 !mxE.
    have -> : inord 0 = 0 :> 'I_3 by apply: val_inj; rewrite /= inordK. have -> : inord 1 = lift ord0 0 :> 'I_3 by apply: val_inj; rewrite /= inordK.
    have -> : inord 2 = lift ord0 (lift ord0 0) :> 'I_3 by apply: val_inj; rewrite /= inordK.
    case: i => [[|[|[|//]]] h] /=; rewrite !(mul0r, add0r, addr0, mulNr) //; by rewrite addrC.
  Qed.
  (** Unturned transforms: a small rotation [r] of the left transform moves the position of the right one by the cross product; small rotations and translations add up.
      The covariance of the composition is the one of this linear map. *)
  Theorem C91_unturned t2 t1 p q : quat_of 1%:M = Quat 1 0 -> q_to_r (Quat 1 0) = 0 -> good t1 -> good t2 -> lin (utf t1) = 1%:M -> lin (utf t2) = 1%:M ->
    (exists E F : 'M[R]_(3 + 3), cov (compose t2 t1) = E *m cov t1 *m E^T + F *m cov t2 *m F^T /\
      (forall r t : 'cV[R]_3, E *m col_mx r t = col_mx r t) /\ forall r t : 'cV[R]_3, F *m col_mx r t = col_mx r (t + cross r (shift (utf t1)))) /\
    (exists G : 'M[R]_(3, 3 + 3), pcov (apply t2 (UPoint p q true)) = G *m cov t2 *m G^T + q /\ forall r t : 'cV[R]_3, G *m col_mx r t = t + cross r p).
  Proof.
    move=> Q1 Q2 G1 G2 L1 L2. have K0 : skew (0 : 'cV[R]_3) = 0.
    { by apply/matrixP => i j; rewrite !mxE oppr0; case: i => [[|[|[|i]]] Hi] //; case: j => [[|[|[|j]]] Hj]. }
    have S0 : sq (0 : 'cV[R]_3) = 0 by rewrite /sq mulmx0 mxE.
    have M : qmul (Quat 1 0) (Quat 1 0) = Quat 1 0 by rewrite /qmul /= mulmx0 mxE subr0 mulr1 !scaler0 mulmx0 !addr0.
    have DP : dr_by_dq (Quat 1 0) *m dq_by_dr (Quat 1 0) = 1%:M.
    { rewrite /dr_by_dq /dq_by_dr /= Q2 S0 !mul0r !subr0 !addr0 !mul0mx !scaler0 !addr0 !subr0 mul_row_col mul0mx add0r /sign ltr01 !mulr1.
      by rewrite -scalar_mxM mulfV // pnatr_eq0. }
    have D1 : dr2r1_by_r1 (Quat 1 0) (Quat 1 0) (Quat 1 0) = 1%:M by rewrite /dr2r1_by_r1 /dq2q1_by_dq1 /= K0 trmx0 !oppr0 block_mx0 addr0 mulmx1 DP.
    have D2 : dr2r1_by_r2 (Quat 1 0) (Quat 1 0) (Quat 1 0) = 1%:M by rewrite /dr2r1_by_r2 /dq2q1_by_dq2 /= K0 trmx0 !oppr0 block_mx0 addr0 mulmx1 DP.
    have DX x : drx_by_dr (Quat 1 0) x = - skew x by rewrite /drx_by_dr Q2 S0 !mul0r !subr0 K0 !mul0mx !scaler0 !subr0 add0r mulmx1.
    have CR (x r : 'cV[R]_3) : - skew x *m r = cross r x by rewrite mulNmx -skew_anti skew_cross.
    split.
    - exists 1%:M, (block_mx 1%:M 0 (- skew (shift (utf t1))) 1%:M). split; last split.
      + by rewrite compose_cov // /jac1 /jac2 L1 L2 Q1 M D1 D2 DX -scalar_mx_block.
      + by move=> r t; rewrite mul1mx.
      + by move=> r t; rewrite mul_block_col !mul1mx mul0mx addr0 CR addrC.
    - exists (row_mx (- skew p) 1%:M). split; first by rewrite /apply /= L2 Q1 DX trmx1 mul1mx mulmx1.
      by move=> r t; rewrite mul_row_col mul1mx CR addrC.
  Qed.
End model.

(** ** Transforms without rotation, and findings *)
Section unturned.
  Variable R : realFieldType.
  Definition qone : quat R := Quat 1 0.
  Definition any_quat (_ : 'M[R]_3) : quat R := qone.
  Definition any_vec (_ : quat R) : 'cV[R]_3 := 0.
  Lemma skew0 : skew (0 : 'cV[R]_3) = 0.
  Proof. by apply/matrixP => i j; rewrite !mxE oppr0; case: i => [[|[|[|i]]] Hi] //; case: j => [[|[|[|j]]] Hj]. Qed.
  Lemma qmul_one : qmul qone qone = qone.
  Proof. by rewrite /qmul /qone /= mulmx0 mxE subr0 mulr1 !scaler0 mulmx0 !addr0. Qed.
  Lemma sq0 : sq (0 : 'cV[R]_3) = 0.
  Proof. by rewrite /sq mulmx0 mxE. Qed.
  Lemma two_ne : (2%:R : R) != 0. Proof. by rewrite pnatr_eq0. Qed.
  Lemma dr_prod : dr_by_dq qone *m dq_by_dr any_vec qone = 1%:M.
  Proof.
    rewrite /dr_by_dq /dq_by_dr /= /any_vec sq0 !mul0r !subr0 !addr0 !mul0mx !scaler0 !addr0 !subr0 mul_row_col mul0mx add0r /sign ltr01 !mulr1.
    by rewrite -scalar_mxM mulfV ?two_ne.
  Qed.
  Lemma dq1_one : dq2q1_by_dq1 qone = 1%:M.
  Proof. by rewrite /dq2q1_by_dq1 /= skew0 trmx0 !oppr0 block_mx0 addr0. Qed.
  Lemma dq2_one : dq2q1_by_dq2 qone = 1%:M.
  Proof. by rewrite /dq2q1_by_dq2 /= skew0 trmx0 !oppr0 block_mx0 addr0. Qed.
  Lemma dr1_one : dr2r1_by_r1 any_vec (qmul qone qone) qone qone = 1%:M.
  Proof. by rewrite /dr2r1_by_r1 qmul_one dq1_one mulmx1 dr_prod. Qed.
  Lemma dr2_one : dr2r1_by_r2 any_vec (qmul qone qone) qone qone = 1%:M.
  Proof. by rewrite /dr2r1_by_r2 qmul_one dq2_one mulmx1 dr_prod. Qed.
  Lemma drx_one q x : drx_by_dr any_vec q x = - skew x.
  Proof. by rewrite /drx_by_dr /any_vec sq0 !mul0r !subr0 skew0 !mul0mx !scaler0 !subr0 add0r mulmx1. Qed.
  Lemma block_one (x : 'M[R]_3) : x = 0 -> block_mx (1%:M : 'M[R]_3) 0 x (1%:M : 'M[R]_3) = 1%:M.
  Proof. by move=> ->; rewrite -scalar_mx_block. Qed.
  Lemma cov1 n : covariance (1%:M : 'M[R]_n).
  Proof.
    split; first by rewrite /symmetric trmx1. move=> v; rewrite mulmx1 mxE; apply: sumr_ge0 => i _; rewrite mxE. exact: sqr_ge0.
  Qed.
  Definition vague (t : 'cV[R]_3) : utrans R := UTrans (Trans 1%:M t) 1%:M true.
  Lemma good_vague t : good (vague t).
  Proof. by split; first exact: cov1. Qed.
  Lemma orthogonal_one t : orthogonal (Trans (1%:M : 'M[R]_3) t).
  Proof. by rewrite /orthogonal /= trmx1 mulmx1. Qed.
End unturned.

(** The theorems apply to transforms with translations and full covariances; with these, the covariances of a composition add up. *)
Example C91_nonvacuous (R : realFieldType) : good (vague (const_mx 1 : 'cV[R]_3)) /\ orthogonal (utf (vague (const_mx 1 : 'cV[R]_3))) /\
  less_certain (UTrans (Trans 1%:M 0) 0 true) (vague (0 : 'cV[R]_3)) /\
  cov (compose (@any_quat R) (@any_vec R) (vague (const_mx 1)) (vague 0)) = 1%:M + 1%:M.
Proof.
  split; first exact: good_vague. split; first exact: orthogonal_one.
  split; first by split=> //; split=> //=; rewrite subr0; case: (cov1 R (3 + 3)).
  rewrite compose_cov; [|exact: good_vague..]. rewrite /jac1 /jac2 /= dr1_one dr2_one drx_one skew0 oppr0 -scalar_mx_block trmx1 !mulmx1. by [].
Qed.
Example C92_nonvacuous (R : realFieldType) : let t1 := vague (const_mx 1 : 'cV[R]_3) in let t : utrans R := UTrans (Trans 1%:M 0) (1%:M + 1%:M) true in
  good t1 /\ good t /\ orthogonal (utf t1) /\ dr2r1_by_r2 (@any_vec R) (qmul (qone R) (qone R)) (qone R) (qone R) \in unitmx /\
  dr2r1_by_r1 (@any_vec R) (qmul (qone R) (qone R)) (qone R) (qone R) \in unitmx.
Proof.
  split; first exact: good_vague. split; first by split=> //=; apply: cov_add; exact: cov1.
  split; first exact: orthogonal_one. by rewrite dr1_one dr2_one unitmx1.
Qed.
(** The uncertainty of a common ancestor, which does not influence the relation of two frames below it, is counted (twice). *)
Theorem C91_common_refuted (R : realFieldType) : exists (parent a b : utrans R), good parent /\ unc a = false /\ unc b = false /\ good a /\ good b /\
  cov (relative (@any_quat R) (@any_vec R) [:: a; parent] [:: b; parent]) <> 0.
Proof.
  exists (vague 0), (certain (tone R)), (certain (tone R)). split; first exact: good_vague. do 2 (split; first by []). do 2 (split; first exact: good_certain).
  have I : tone R = Trans 1%:M 0 by []. have M : tmul (tone R) (tone R) = tone R by rewrite /tmul /tone /= mulmx1 mulmx0 addr0.
  have V : tinv (tone R) = tone R by rewrite /tinv /tone /= trmx1 mulmx0 oppr0.
  have J1 : jac1 (@any_quat R) (@any_vec R) (tone R) (tone R) = 1%:M by rewrite /jac1 /= dr1_one -scalar_mx_block.
  have J2 : jac2 (@any_quat R) (@any_vec R) (tone R) (tone R) = 1%:M by rewrite /jac2 /= dr2_one drx_one skew0 oppr0 -scalar_mx_block.
  have T : to_root (@any_quat R) (@any_vec R) [:: certain (tone R); vague 0] = vague 0.
  { rewrite /to_root /=. rewrite {2}/compose /= /certain M /compose /= -/(tone R) M J2 mul1mx trmx1 mulmx1 add0r. by []. }
  have Q : inverse (@any_quat R) (@any_vec R) (vague 0) = vague 0.
  { rewrite /inverse /= -/(tone R) V drx_one skew0 oppr0. have -> : qrot (any_quat (1%:M : 'M[R]_3)) = 1%:M by rewrite /qrot /= skew0 mul0mx !scaler0 !addr0.
    rewrite trmx1 -scalar_mx_block mul1mx trmx1 mulmx1. by []. }
  rewrite /relative T Q compose_cov; [|exact: good_vague..]. rewrite /= -/(tone R) J1 J2 mul1mx trmx1 !mulmx1.
  move=> /matrixP /(_ 0 0). rewrite !mxE /= => /eqP. by rewrite -natrD pnatr_eq0.
Qed.
(** The difference of covariances in the inverse composition need not be a covariance. *)
Theorem C92_negative_refuted (R : realFieldType) : exists tf t1 : utrans R, good tf /\ good t1 /\ orthogonal (utf t1) /\
  (let t2 := tmul (utf tf) (tinv (utf t1)) in dr2r1_by_r2 (@any_vec R) (qmul (any_quat (lin t2)) (any_quat (lin (utf t1)))) (any_quat (lin (utf t1))) (any_quat (lin t2)) \in unitmx) /\
  ~ psd (cov (composition_inv (@any_quat R) (@any_vec R) tf t1)).
Proof.
  exists (certain (tone R)), (vague 0). split; first exact: good_certain. split; first exact: good_vague. split; first exact: orthogonal_one.
  split; first by move=> t2; rewrite dr2_one unitmx1.
  have V : tinv (tone R) = tone R by rewrite /tinv /tone /= trmx1 mulmx0 oppr0.
  have M : tmul (tone R) (tone R) = tone R by rewrite /tmul /tone /= mulmx1 mulmx0 addr0.
  have J1 : jac1 (@any_quat R) (@any_vec R) (tone R) (tone R) = 1%:M by rewrite /jac1 /= dr1_one -scalar_mx_block.
  have J2 : jac2 (@any_quat R) (@any_vec R) (tone R) (tone R) = 1%:M by rewrite /jac2 /= dr2_one drx_one skew0 oppr0 -scalar_mx_block.
  rewrite /composition_inv /= -/(tone R) V M J1 J2 mul1mx trmx1 mulmx1 invmx1 mul1mx mulmx1 sub0r.
  move=> /(_ (delta_mx 0 0)). rewrite mulmxN mulNmx mulmx1 trmx_delta mul_delta_mx !mxE /= oppr_ge0. by rewrite ler10.
Qed.
(** The inverse of a transform whose rotation is uncertain: the translation point is mapped to the origin by the inverse whatever the rotation is, but gets an uncertainty,
    because the signs of the derivative in [inverse] are wrong. *)
Theorem C91_inverse_refuted (R : realFieldType) : exists (t : utrans R) (p : 'cV[R]_3), good t /\ orthogonal (utf t) /\
  drsubmx (cov t) = 0 /\ (forall L : 'M[R]_3, tapp (tinv (Trans L (shift (utf t)))) p = 0) /\
  pcov (apply (@any_quat R) (@any_vec R) (inverse (@any_quat R) (@any_vec R) t) (UPoint p 0 false)) <> 0.
Proof.
  pose t0 : 'cV[R]_3 := const_mx 1. exists (UTrans (Trans 1%:M t0) (block_mx 1%:M 0 0 0) true), t0.
  have B : block_mx (1%:M : 'M[R]_3) 0 0 (0 : 'M[R]_3) = (col_mx 1%:M 0) *m 1%:M *m (col_mx 1%:M (0 : 'M[R]_3))^T.
  { by rewrite mulmx1 tr_col_mx mul_col_row trmx1 trmx0 ?mulmx1 ?mulmx0 ?mul0mx. }
  have C : covariance (block_mx (1%:M : 'M[R]_3) 0 0 (0 : 'M[R]_3)).
  { rewrite B. apply: cov_congr. exact: cov1. }
  split; first by split. split; first exact: orthogonal_one. split; first by rewrite block_mxEv ?col_mxKd /drsubmx col_mxKd row_mxKr.
  split; first by move=> L; rewrite /tapp /= addrN.
  rewrite /apply /inverse /= !drx_one. have -> : qrot (any_quat (1%:M : 'M[R]_3)) = 1%:M by rewrite /qrot /= skew0 mul0mx !scaler0 !addr0.
  rewrite trmx1 B. set S := skew t0. set J := block_mx _ _ _ _. set K := row_mx _ _. set b := col_mx _ _.
  have D : K *m (J *m b) = - (S + S) by rewrite /K /J /b mul_block_col mul_row_col !mulmx0 !mulmx1 !addr0 mul1mx mulmx1 opprD.
  have -> : K *m (J *m (b *m 1%:M *m b^T) *m J^T) *m K^T = (K *m (J *m b)) *m (K *m (J *m b))^T by rewrite mulmx1 !trmx_mul !mulmxA.
  rewrite D => /matrixP /(_ 0 0). rewrite !mxE !big_ord_recl big_ord0 !mxE /= => /eqP.
  rewrite !addr0 oppr0 mulr0 add0r -opprD opprK mulrNN (_ : 1 + 1 = 2%:R) // -natrM -natrD. by rewrite pnatr_eq0.
Qed.
(** The hypotheses of the theorems on derivatives hold for unturned transforms with full covariances, and for certain rotations. *)
Example C91_derivatives_nonvacuous (R : realFieldType) (v : 'cV[R]_3) : any_quat (1%:M : 'M[R]_3) = Quat 1 0 /\ any_vec (Quat 1 0) = 0 :> 'cV[R]_3 /\
  good (vague v) /\ lin (utf (vague v)) = 1%:M /\ cov (vague v) <> 0 /\
  (let t := UTrans (Trans 1%:M v) (block_mx 0 0 0 1%:M) true in good t /\ cov t <> 0 /\ qrot (any_quat (lin (utf t))) = lin (utf t)).
Proof.
  split=> //. split=> //. split; first exact: good_vague. split=> //. split.
  { move=> /matrixP /(_ 0 0). rewrite !mxE /= => /eqP. by rewrite oner_eq0. }
  split; last split.
  - split=> //=. have -> : block_mx 0 0 0 (1%:M : 'M[R]_3) = (col_mx (0 : 'M[R]_3) 1%:M) *m 1%:M *m (col_mx (0 : 'M[R]_3) 1%:M)^T.
    { by rewrite mulmx1 tr_col_mx mul_col_row trmx1 trmx0 ?mulmx1 ?mulmx0 ?mul0mx. }
    apply: cov_congr. exact: cov1.
  - rewrite /= => /matrixP /(_ (rshift 3 0) (rshift 3 0)). rewrite block_mxEdr !mxE /= => /eqP. by rewrite oner_eq0.
  - by rewrite /qrot /= skew0 mul0mx !scaler0 !addr0.
Qed.
