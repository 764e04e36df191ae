(** Sample statistics, Gaussian mixtures, k-means and expectation maximization (C93 - C95): tools/GaussianMixture.hpp, tools/ExpectationMaximization.hpp.

    Simplifications: the scalars are the elements of any ordered field (no rounding), so that the order of a summation does not matter and sums over the samples
    stand for the loops. A division by zero (not a number in the code) is the distinct outcome [None] or [NaN]. The density of a Gaussian, and the search of the
    kd-tree for a nearest point, are arguments of the model. *)
From mathcomp Require Import all_ssreflect all_algebra.
From Verif Require Import Uncertain.
Import Order.TTheory GRing.Theory Num.Theory.
Local Open Scope ring_scope.
Set Implicit Arguments.
Unset Strict Implicit.

Section stats.
  Variable R : realFieldType.
  Variable d : nat.
  Notation vec := 'cV[R]_d.
  (** GaussianMixture.hpp:29-39 *)
  Record stats := Stats { s_xx : 'M[R]_d; s_x : vec; s_sum : R }.
  Definition no_stats : stats := Stats 0 0 0.
  (** GaussianMixture.hpp:40-45 *)
  Definition insert (s : stats) (vw : vec * R) : stats :=
    Stats (s_xx s + vw.2 *: (vw.1 *m vw.1^T)) (s_x s + vw.2 *: vw.1) (s_sum s + vw.2).
  (** GaussianMixture.hpp:47-52: mean and covariance *)
  Definition update (s : stats) : option (vec * 'M[R]_d) :=
    if s_sum s == 0 then None else
    let mean := (s_sum s)^-1 *: s_x s in Some (mean, (s_sum s)^-1 *: s_xx s - mean *m mean^T).

  (** ** Specification *)
  Definition total (l : seq (vec * R)) : R := \sum_(p <- l) p.2.
  Definition weighted_mean (l : seq (vec * R)) : vec := (total l)^-1 *: \sum_(p <- l) p.2 *: p.1.
  Definition scatter (m : vec) (l : seq (vec * R)) : 'M[R]_d := (total l)^-1 *: \sum_(p <- l) p.2 *: ((p.1 - m) *m (p.1 - m)^T).

  Lemma insert_all l s : foldl insert s l =
    Stats (s_xx s + \sum_(p <- l) p.2 *: (p.1 *m p.1^T)) (s_x s + \sum_(p <- l) p.2 *: p.1) (s_sum s + total l).
  Proof.
    rewrite /total; elim: l s => [|p l IH] s /=; first by rewrite !big_nil !addr0; case: s.
    by rewrite IH /= !big_cons !addrA.
  Qed.
  Lemma scatter_expand l m : total l != 0 -> m = weighted_mean l ->
    (total l)^-1 *: (\sum_(p <- l) p.2 *: (p.1 *m p.1^T)) - m *m m^T = scatter m l.
  Proof.
    move=> H Hm. rewrite /scatter.
    have E : \sum_(p <- l) p.2 *: ((p.1 - m) *m (p.1 - m)^T) =
      \sum_(p <- l) p.2 *: (p.1 *m p.1^T) - (\sum_(p <- l) p.2 *: p.1) *m m^T - m *m (\sum_(p <- l) p.2 *: p.1)^T + total l *: (m *m m^T).
    { rewrite (eq_bigr (fun p => p.2 *: (p.1 *m p.1^T) - (p.2 *: p.1) *m m^T - m *m (p.2 *: p.1)^T + p.2 *: (m *m m^T))); last first.
      { move=> p _. rewrite [(p.1 - m)^T]linearB [(p.2 *: p.1)^T]linearZ /= mulmxBl !mulmxBr -scalemxAl -scalemxAr !scalerBr opprB addrA.
        by rewrite addrAC. }
      by rewrite !big_split /= !sumrN -mulmx_suml -mulmx_sumr -scaler_suml [in RHS]linear_sum. }
    have S : \sum_(p <- l) p.2 *: p.1 = total l *: m by rewrite Hm /weighted_mean scalerA mulfV // scale1r.
    rewrite E S [(total l *: m)^T]linearZ /= -scalemxAl -scalemxAr subrK scalerBr scalerA mulVf // scale1r. by [].
  Qed.
  Lemma scatter_cov m l : (forall p, p \in l -> 0 <= p.2) -> covariance (scatter m l).
  Proof.
    move=> H. have T : 0 <= (total l)^-1 by rewrite invr_ge0 /total big_seq sumr_ge0.
    rewrite /scatter scaler_sumr big_seq. apply: (big_ind (@covariance R d)); [exact: cov0|exact: cov_add|].
    move=> p Hp. rewrite scalerA. have P : 0 <= (total l)^-1 * p.2 by apply: mulr_ge0 => //; exact: H.
    move: (_ * _) P => c P. split; first by rewrite /symmetric linearZ /= trmx_mul trmxK.
    move=> v. rewrite -scalemxAr -scalemxAl mxE mulr_ge0 // mulmxA. set x := v^T *m (p.1 - m). rewrite -mulmxA.
    have -> : (p.1 - m)^T *m v = x^T by rewrite /x trmx_mul trmxK. clearbody x. rewrite mxE sumr_ge0 // => i _. by rewrite mxE -expr2 sqr_ge0.
  Qed.

  (** ** C93: the statistics of any sequence of weighted samples are the weighted mean and the weighted covariance of the samples; the latter is a covariance. There are
      no statistics without weight. *)
  Theorem C93_stats (l : seq (vec * R)) : (forall p, p \in l -> 0 <= p.2) ->
    update (foldl insert no_stats l) = (if total l == 0 then None else Some (weighted_mean l, scatter (weighted_mean l) l)) /\
    covariance (scatter (weighted_mean l) l).
  Proof.
    move=> H. split; last exact: scatter_cov. rewrite insert_all /update /= !add0r. case: ifP => // /negbT N. by rewrite -scatter_expand.
  Qed.
End stats.
Example C93_nonvacuous (R : realFieldType) : let l := [:: (const_mx 1 : 'cV[R]_2, 1); (const_mx 3%:R, 1)] in
  (forall p, p \in l -> 0 <= p.2) /\ total l != 0 /\ weighted_mean l = const_mx 2%:R.
Proof.
  move=> l. split; first by move=> p; rewrite !inE => /orP [] /eqP ->; rewrite ler01.
  have T : total l = 2%:R by rewrite /total /l !big_cons big_nil /= addr0. split; first by rewrite T pnatr_eq0.
  rewrite /weighted_mean T /l !big_cons big_nil /= addr0 !scale1r. apply/matrixP => i j. rewrite !mxE -(natrD _ 1 3) (natrM _ 2 2) mulKf // pnatr_eq0. by [].
Qed.

(** ** C94: mixtures *)
Section mixture.
  Variable R : realFieldType.
  Variable d : nat.
  Notation vec := 'cV[R]_d.
  (** the double constants 1e-5 and 1e-4 of the code *)
  Definition eps (n : nat) : R := 10%:R ^- n.
  (** GaussianMixture.hpp:98-113 *)
  Definition normalize (ws : seq R) : seq R :=
    let sum := \sum_(w <- ws) w in [seq (if eps 5 < sum then w / sum else 1 / (size ws)%:R) | w <- ws].
  (** GaussianMixture.hpp:70-95 *)
  Record param := Param { p_weight : R; p_mean : vec; p_cov : 'M[R]_d }.
  (** GaussianMixture.hpp:57-67 *)
  Variable dens : vec -> 'M[R]_d -> vec -> R.
  (** GaussianMixture.hpp:115-122 *)
  Definition mixture_eval (ps : seq param) (x : vec) : R := \sum_(p <- ps) dens (p_mean p) (p_cov p) x.

  Section step.
    (** the samples with their weights; the weight is 1 for all samples if there are no weights *)
    Variable l : seq (vec * R).
    (** ExpectationMaximization.hpp:208-222; the sum over the components *)
    Definition row_sum (ps : seq param) (x : vec) : R := \sum_(q <- ps) p_weight q * dens (p_mean q) (p_cov q) x.
    Definition gamma (ps : seq param) (p : param) (x : vec * R) : R := p_weight p * dens (p_mean p) (p_cov p) x.1 * (x.2 / row_sum ps x.1).
    Definition share (ps : seq param) (p : param) : R := \sum_(x <- l) gamma ps p x.
    (** ExpectationMaximization.hpp:228-249 *)
    Definition refit (ps : seq param) (p : param) : param :=
      let n := share ps p in
      let mean := n^-1 *: \sum_(x <- l) gamma ps p x *: x.1 in
      Param (n / \sum_(x <- l) x.2) mean (n^-1 *: \sum_(x <- l) gamma ps p x *: ((x.1 - mean) *m (x.1 - mean)^T)).
    (** ExpectationMaximization.hpp:184-258, the parameters after the step. If no component explains a sample, its row and therefore all shares are not a number, and all
        components are removed; a component whose share is zero gets a mean that is not a number and is removed. *)
    Definition em_step (ps : seq param) : seq param :=
      if (size ps == 0%N) || (size l < size ps)%N then ps
      else if has (fun x : vec * R => row_sum ps x.1 == 0) l then [::]
      else [seq refit ps p | p <- ps & eps 4 <= share ps p].
  End step.

  (** Normalizing gives weights with sum one, in the old proportions unless they are (almost) all zero. *)
  Theorem C94_normalize ws : ws != [::] ->
    \sum_(w <- normalize ws) w = 1 /\ size (normalize ws) = size ws /\ ((forall w, w \in ws -> 0 <= w) -> forall w, w \in normalize ws -> 0 <= w) /\
    (eps 5 < \sum_(w <- ws) w -> forall i, nth 0 (normalize ws) i = nth 0 ws i / \sum_(w <- ws) w).
  Proof.
    move=> N. have E5 : 0 < eps 5 by rewrite invr_gt0 exprn_gt0 // ltr0n. rewrite /normalize. set s := \sum_(w <- ws) w. split.
    { rewrite big_map. case: (boolP (eps 5 < s)) => H; first by rewrite -mulr_suml mulfV // gt_eqF // (lt_trans E5).
      rewrite big_const_seq count_predT iter_addr addr0 mul1r -[X in X = _]mulr_natl mulfV // pnatr_eq0. by case: ws N {s H}. }
    split; first by rewrite size_map. split.
    { move=> P w /mapP [v Hv ->]. case: (boolP (eps 5 < s)) => H; first by apply: divr_ge0; [exact: P|exact: ltW (lt_trans E5 H)]. by rewrite mul1r invr_ge0 ler0n. }
    move=> H i. case: (ltnP i (size ws)) => Hi; first by rewrite (nth_map 0) // H.
    by rewrite !nth_default ?size_map // mul0r.
  Qed.

  (** A step of the expectation maximization: every component that is left gets the weighted mean and covariance of the samples, weighted by what the component explains
      of them; kept are those that explain at least 1e-4 of the total weight; the new weights are not negative, they add up to one if no component is removed, and to at most one otherwise. *)
  Theorem C94_step (l : seq (vec * R)) ps : (forall m c x, 0 <= dens m c x) -> (forall p, List.In p ps -> 0 <= p_weight p) -> (forall x, x \in l -> 0 <= x.2) ->
    size ps <> 0%N -> (size ps <= size l)%N -> (forall x, x \in l -> row_sum ps x.1 != 0) -> total l != 0 ->
    (forall p, List.In p (em_step l ps) -> exists q, List.In q ps /\ let r := [seq (x.1, gamma ps q x) | x <- l] in
       p_weight p = total r / total l /\ 0 <= p_weight p /\ p_mean p = weighted_mean r /\ p_cov p = scatter (p_mean p) r /\ covariance (p_cov p)) /\
    (\sum_(p <- em_step l ps) p_weight p <= 1) /\
    (size (em_step l ps) = size ps -> \sum_(p <- em_step l ps) p_weight p = 1) /\
    size (em_step l ps) = count (fun q => eps 4 <= total [seq (x.1, gamma ps q x) | x <- l]) ps.
  Proof.
    move=> D P W S1 S2 N T. rewrite /em_step. have -> : (size ps == 0%N) || (size l < size ps)%N = false by rewrite ltnNge S2 orbF; apply/eqP.
    have -> : has (fun x : vec * R => row_sum ps x.1 == 0) l = false by apply/hasP => [[x /N /negbTE ->]].
    have RS x : 0 <= row_sum ps x.
    { rewrite /row_sum. elim: ps P {S1 S2 N} => [|q ps IH] P; first by rewrite big_nil. rewrite big_cons addr_ge0 //; last by apply: IH => p Hp; apply: P; right.
      by rewrite mulr_ge0 // P //; left. }
    have G p x : List.In p ps -> x \in l -> 0 <= gamma ps p x.
    { move=> Hp Hx. rewrite /gamma mulr_ge0 ?divr_ge0 ?W // mulr_ge0 // P //. }
    have TP : 0 < \sum_(x <- l) x.2 by rewrite lt0r T big_seq sumr_ge0.
    have SH p : List.In p ps -> 0 <= share l ps p by move=> Hp; rewrite /share big_seq sumr_ge0 // => x Hx; exact: G.
    have ALL : \sum_(p <- ps) share l ps p = \sum_(x <- l) x.2.
    { rewrite /share exchange_big /= !big_seq. apply: eq_bigr => x Hx. rewrite /gamma -mulr_suml -/(row_sum ps x.1) mulrCA mulfV ?mulr1 //. exact: N. }
    split.
    { move=> p Hp. have [q [Hq ->]] : exists q, List.In q ps /\ p = refit l ps q.
      { elim: {3 4}ps Hp => [|a qs IH] //=. case: ifP => _ /=; last by move=> /IH [q [? ?]]; exists q; split=> //; right.
        move=> [<-|/IH [q [? ?]]]; [exists a|exists q]; split=> //; [by left|by right]. }
      exists q. split=> //. set r := [seq _ | x <- l]. cbv zeta. have TR : total r = share l ps q by rewrite /total /r big_map.
      have MR : p_mean (refit l ps q) = weighted_mean r by rewrite /weighted_mean TR /r big_map.
      have CR : p_cov (refit l ps q) = scatter (p_mean (refit l ps q)) r by rewrite /scatter TR /r big_map.
      split; first by rewrite TR. split; first by rewrite /= divr_ge0 ?SH // ltW. split; first exact: MR. split; first exact: CR. rewrite CR. apply: scatter_cov.
      move=> y /mapP [x Hx ->] /=. exact: G. }
    have SUM (qs : seq param) : \sum_(p <- [seq refit l ps q | q <- qs]) p_weight p = (\sum_(p <- qs) share l ps p) / \sum_(x <- l) x.2.
    { rewrite big_map mulr_suml. by []. }
    split.
    { rewrite SUM ler_pdivr_mulr // mul1r -ALL big_filter. elim: {1 3 6}ps (SH) => [|a qs IH] H; first by rewrite !big_nil.
      rewrite !big_cons. have Ha : 0 <= share l ps a by apply: H; left. have IH' := IH (fun p Hp => H p (or_intror Hp)).
      case: ifP => _; first exact: ler_add. by rewrite -(add0r (\sum_(j <- qs | _) _)) ler_add. }
    split; last first.
    { rewrite size_map size_filter. apply: eq_count => q. by rewrite /total big_map. }
    rewrite size_map => F. rewrite SUM. have -> : [seq p <- ps | eps 4 <= share l ps p] = ps.
    { apply/all_filterP. by rewrite all_count -size_filter F. }
    by rewrite ALL mulfV.
  Qed.
End mixture.

Lemma eps_lt1 (R : realFieldType) n : eps R n.+1 < 1.
Proof. by rewrite invf_lt1 ?exprn_gt0 ?ltr0n // exprn_egt1 // ltr1n. Qed.

Section density.
  Variable R : realFieldType.
  Variable d : nat.
  (** GaussianMixture.hpp:56-67; [norm] is the constant factor, [root] and [ex] stand for the square root and the exponential function of the C library *)
  Definition gauss_eval (norm : R) (root ex : R -> R) (m : 'cV[R]_d) (c : 'M[R]_d) (x : 'cV[R]_d) : R :=
    norm * root (\det c) * ex (- (2%:R^-1) * ((x - m)^T *m invmx c *m (x - m)) 0 0).
End density.

(** The value is not a density: with four times the variance the density at the mean should be halved, but it is doubled. *)
Theorem C94_density_refuted (R : realFieldType) (norm : R) (root ex : R -> R) : (forall y, 0 <= y -> root (y ^+ 2) = y) ->
  exists m c c' : 'M[R]_1, \det c' = 4%:R * \det c /\ \det c = 1 /\
    gauss_eval norm root ex m c' m = 2%:R * gauss_eval norm root ex m c m.
Proof.
  move=> H. exists 0, 1%:M, 4%:R%:M. rewrite !det_scalar1 mulr1. do 2!(split=> //). rewrite /gauss_eval subrr !mulmx0 mxE mulr0.
  have -> : \det (4%:R%:M : 'M[R]_1) = 2%:R ^+ 2 by rewrite det_scalar1 -natrX.
  rewrite H ?ler0n // det_scalar1 -[in root 1](expr1n R 2) H ?ler01 //. by rewrite !mulr1 mulrA [2%:R * _]mulrC.
Qed.
(** The value of a mixture does not depend on the weights of its components: half of a density plus half of the same density is twice the density. *)
Theorem C94_eval_refuted (R : realFieldType) (dens : 'cV[R]_1 -> 'M[R]_1 -> 'cV[R]_1 -> R) m c x : dens m c x != 0 ->
  exists ps, \sum_(p <- ps) p_weight p = 1 /\ mixture_eval dens ps x != \sum_(p <- ps) p_weight p * dens (p_mean p) (p_cov p) x.
Proof.
  move=> H. exists [:: Param (2%:R^-1) m c; Param (2%:R^-1) m c]. rewrite /mixture_eval !big_cons !big_nil /= !addr0 -mulrDl.
  have E : 2%:R^-1 + 2%:R^-1 = 1 :> R by rewrite -mulr2n -[X in X = _]mulr_natr mulVf // pnatr_eq0. rewrite E mul1r. split=> //.
  by rewrite -[X in _ != X]addr0 (inj_eq (addrI _)).
Qed.
(** If a component is removed, the weights of the others are not normalized again: here one component with the weight 1 / (1 + 10^-5) is left, and
    sampling from the mixture may fail because the weights do not add up to one. *)
Theorem C94_removed_refuted (R : realFieldType) : exists (dens : 'cV[R]_1 -> 'M[R]_1 -> 'cV[R]_1 -> R) l ps,
  (forall m c x, 0 < dens m c x) /\ (forall p, List.In p ps -> 0 < p_weight p) /\ (forall x, x \in l -> x.2 = 1) /\ size ps = 2%N /\ size l = 2%N /\
  size (em_step dens l ps) = 1%N /\ \sum_(p <- em_step dens l ps) p_weight p < 1.
Proof.
  pose e : R := eps R 5. have E : 0 < e by rewrite invr_gt0 exprn_gt0 // ltr0n.
  pose dn (m : 'cV[R]_1) (_ : 'M[R]_1) (_ : 'cV[R]_1) : R := if m == 0 then 1 else e. pose ps : seq (param R 1) := [:: Param 1 0 0; Param 1 1 0].
  exists dn, [:: (0, 1); (0, 1)], ps.
  split; first by move=> m c x; rewrite /dn; case: ifP => _; rewrite ?ltr01. split; first by move=> p /= [<-|[<-|//]]; exact: ltr01. split; first by move=> x; rewrite !inE => /orP [] /eqP ->.
  do 2!(split=> //). have N1 : (1 : 'cV[R]_1) == 0 = false by apply/eqP => /matrixP /(_ 0 0); rewrite !mxE => /eqP; rewrite oner_eq0.
  have RS x : row_sum dn ps x = 1 + e by rewrite /row_sum !big_cons big_nil /dn /= N1 eqxx !mul1r addr0.
  have P : 0 < 1 + e by rewrite addr_gt0 ?ltr01. have NZ : 1 + e != 0 by rewrite gt_eqF.
  have G1 x : gamma dn ps (Param 1 0 0) x = x.2 / (1 + e) by rewrite /gamma RS /dn /= eqxx !mul1r.
  have G2 x : gamma dn ps (Param 1 1 0) x = e * (x.2 / (1 + e)) by rewrite /gamma RS /dn /= N1 !mul1r.
  have S1 : share dn [:: (0, 1); (0, 1)] ps (Param 1 0 0) = 2%:R / (1 + e).
  { by rewrite /share !big_cons big_nil !G1 /= addr0 -mulrDl. }
  have S2 : share dn [:: (0, 1); (0, 1)] ps (Param 1 1 0) = e * (2%:R / (1 + e)).
  { by rewrite /share !big_cons big_nil !G2 /= addr0 -mulrDr -mulrDl. }
  have E4 : eps R 4 = 10%:R * e by rewrite /e /eps [X in _ = _ * X^-1]exprS [X in _ = _ * X]invfM [RHS]mulrA mulfV ?mul1r // pnatr_eq0.
  have E1 : e < 1 by rewrite invf_lt1 ?exprn_gt0 ?ltr0n // exprn_egt1 // ltr1n.
  rewrite /em_step /=. rewrite !RS (negbTE NZ) /= S1 S2.
  have -> : eps R 4 <= 2%:R / (1 + e).
  { rewrite ler_pdivl_mulr //. have : 1 + e <= 2%:R by rewrite (_ : 2%:R = 1 + 1) // ler_add2l ltW.
    move=> H. apply: le_trans H. rewrite ger_pmull //. rewrite invf_le1 ?exprn_gt0 ?ltr0n // exprn_ege1 // ler1n //. }
  have -> : eps R 4 <= e * (2%:R / (1 + e)) = false.
  { apply: negbTE. rewrite -ltNge E4 [10%:R * e]mulrC ltr_pmul2l // ltr_pdivr_mulr // mulrDr mulr1.
    apply: (@lt_le_trans _ _ 10%:R); first by rewrite ltr_nat. by rewrite ler_addl mulr_ge0 ?ler0n // ltW. }
  split=> //. rewrite /= big_cons big_nil addr0 /refit /= S1 !big_cons big_nil /= addr0 -[1 + 1]/(2%:R).
  rewrite mulrAC mulfV ?mul1r ?pnatr_eq0 // invf_lt1 // ltr_addl. by [].
Qed.
(** Two components with different means, two samples: all hypotheses of the step hold, and no component is removed. *)
Example C94_nonvacuous (R : realFieldType) : exists (dens : 'cV[R]_1 -> 'M[R]_1 -> 'cV[R]_1 -> R) l ps,
  (forall m c x, 0 <= dens m c x) /\ (forall p, List.In p ps -> 0 <= p_weight p) /\ (forall x, x \in l -> 0 <= x.2) /\
  size ps <> 0%N /\ (size ps <= size l)%N /\ (forall x, x \in l -> row_sum dens ps x.1 != 0) /\ total l != 0 /\ size (em_step dens l ps) = 2%N /\
  normalize [:: 3%:R; 1] = [:: 3%:R / 4%:R; (1 / 4%:R : R)].
Proof.
  pose dn (m : 'cV[R]_1) (_ : 'M[R]_1) (x : 'cV[R]_1) : R := if m == x then 2%:R else 1.
  pose ps : seq (param R 1) := [:: Param 1 0 0; Param 1 1 0]. pose l : seq ('cV[R]_1 * R) := [:: (0, 1); (1, 1)].
  have N1 : (1 : 'cV[R]_1) == 0 = false by apply/eqP => /matrixP /(_ 0 0); rewrite !mxE => /eqP; rewrite oner_eq0.
  have N2 : (0 : 'cV[R]_1) == 1 = false by rewrite eq_sym.
  have T3 : 1 + 2%:R = 3%:R :> R := esym (natrD R 1 2). have T3' : 2%:R + 1 = 3%:R :> R := esym (natrD R 2 1).
  have NZ : 3%:R != 0 :> R by rewrite pnatr_eq0.
  have R0 : row_sum dn ps 0 = 3%:R by rewrite /row_sum !big_cons big_nil /dn /= N1 eqxx !mul1r addr0.
  have R1 : row_sum dn ps 1 = 3%:R by rewrite /row_sum !big_cons big_nil /dn /= N2 eqxx !mul1r addr0.
  exists dn, l, ps. split; first by move=> m c x; rewrite /dn; case: ifP => _; rewrite ?ler01 ?ler0n. split; first by move=> p /= [<-|[<-|//]]; exact: ler01.
  split; first by move=> x; rewrite !inE => /orP [] /eqP ->; exact: ler01. do 2!(split=> //).
  split; first by move=> x; rewrite !inE => /orP [] /eqP -> /=; rewrite ?R0 ?R1.
  split; first by rewrite /total !big_cons big_nil /= addr0 (pnatr_eq0 R 2). split.
  { rewrite /em_step /= R0 R1 (negbTE NZ) /=. have -> : share dn l ps (Param 1 0 0) = 1.
    { rewrite /share !big_cons big_nil /gamma /= R0 R1 /dn /= N2 eqxx. by rewrite !mul1r addr0 -[X in _ + X = _]mul1r -mulrDl T3' mulfV. }
    have -> : share dn l ps (Param 1 1 0) = 1.
    { rewrite /share !big_cons big_nil /gamma /= R0 R1 /dn /= N1 eqxx. by rewrite !mul1r addr0 -[X in X + _ = _]mul1r -mulrDl T3 mulfV. }
    by rewrite (ltW (eps_lt1 _ _)). }
  rewrite /normalize !big_cons big_nil /= addr0 (_ : 3%:R + 1 = 4%:R); last exact: esym (natrD R 3 1). rewrite (lt_trans (eps_lt1 _ _)) // ltr1n //.
Qed.

(** ** C95: k-means *)
Section kmeans.
  Variable R : realFieldType.
  Variables d n K : nat.
  Notation vec := 'cV[R]_d.
  Notation class := 'I_K.+1.
  Notation centres := {ffun class -> vec}.
  Notation index := {ffun 'I_n.+1 -> class}.
  (** the samples and their weights; without weights every weight is 1 *)
  Variable smp : 'I_n.+1 -> vec.
  Variable wgt : 'I_n.+1 -> R.
  (** the class of the centre which the kd-tree, made of the centres in their order, finds for a point *)
  Variable nearest : centres -> vec -> class.
  (** ExpectationMaximization.hpp:44-67: the samples whose positions are multiples of the stride are the first centres, all samples belong to class 0 *)
  Definition first_centres : centres := [ffun j : class => smp (inord (j * (n.+1 %/ K.+1)))].
  Definition first_index : index := [ffun=> ord0].
  (** ExpectationMaximization.hpp:69-95; [None]: a class has no weight, its centre is not a number *)
  Definition calc_means (idx : index) : option centres :=
    let sum j := \sum_(i | idx i == j) wgt i in
    if [exists j, sum j == 0] then None else Some [ffun j => (sum j)^-1 *: \sum_(i | idx i == j) wgt i *: smp i].
  (** ExpectationMaximization.hpp:97-108 *)
  Definition associate (m : centres) : index := [ffun i => nearest m (smp i)].
  (** ExpectationMaximization.hpp:110-114; the number of switches is zero exactly if the index stays the same *)
  Inductive result := Done of index & centres | NaN | NoFuel.
  Fixpoint run (fuel : nat) (idx : index) (m : centres) : result :=
    if fuel is f.+1 then
      let idx' := associate m in
      if idx' == idx then Done idx m else if calc_means idx' is Some m' then run f idx' m' else NaN
    else NoFuel.
  Definition kmeans (fuel : nat) : result := run fuel first_index first_centres.

  (** ** Specification *)
  Definition dist2 (a b : vec) : R := \sum_(k < d) (a k 0 - b k 0) ^+ 2.
  Definition finds_nearest : Prop := forall (m : centres) x j, dist2 x (m (nearest m x)) <= dist2 x (m j).
  (** the sum of the squared distances of the samples from the centres of their classes *)
  Definition cost (idx : index) (m : centres) : R := \sum_i wgt i * dist2 (smp i) (m (idx i)).
  Definition is_mean (idx : index) (j : class) (c : vec) : Prop :=
    let l := [seq (smp i, wgt i) | i <- enum 'I_n.+1 & idx i == j] in total l != 0 /\ c = weighted_mean l.

  Hypothesis W : forall i, 0 <= wgt i.
  Hypothesis N : finds_nearest.

  Lemma dist2_ge0 a b : 0 <= dist2 a b. Proof. by apply: sumr_ge0 => k _; rewrite sqr_ge0. Qed.
  Lemma dist2_eq0 a b : dist2 a b = 0 -> a = b.
  Proof.
    move=> H. apply/matrixP => k z. rewrite (ord1 z). have /eqP := H. rewrite psumr_eq0; last by move=> i _; rewrite sqr_ge0.
    move=> /allP /(_ k (mem_index_enum _)) /=. by rewrite sqrf_eq0 subr_eq0 => /eqP.
  Qed.
  Lemma associate_le m idx : cost (associate m) m <= cost idx m.
  Proof. apply: ler_sum => i _. rewrite ler_wpmul2l // ffunE. exact: N. Qed.
  Lemma dist2_split (I : finType) (P : pred I) (w : I -> R) (s : I -> vec) (mu c : vec) : \sum_(i | P i) w i *: (s i - mu) = 0 ->
    \sum_(i | P i) w i * dist2 (s i) c = \sum_(i | P i) w i * dist2 (s i) mu + (\sum_(i | P i) w i) * dist2 mu c.
  Proof.
    move=> H. rewrite /dist2. rewrite !(eq_bigr _ (fun i _ => mulr_sumr _ _ _ _)) /=. rewrite exchange_big [X in _ = X + _]exchange_big /= mulr_sumr -big_split /=.
    apply: eq_bigr => k _. rewrite mulr_suml -big_split /=. apply/eqP. rewrite -subr_eq0 -sumrB. apply/eqP.
    have E : \sum_(i | P i) w i * (s i k 0 - mu k 0) = 0.
    { move/matrixP: H => /(_ k 0). rewrite summxE !mxE => X. rewrite -[RHS]X. apply: eq_bigr => i _. by rewrite !mxE. }
    rewrite (eq_bigr (fun i => w i * (s i k 0 - mu k 0) * (2%:R * (mu k 0 - c k 0)))); first by rewrite -mulr_suml E mul0r.
    move=> i _. move: (s i k 0) (mu k 0) (c k 0) (w i) => a b e u. rewrite -mulrDr -mulrBr -mulrA. congr (_ * _).
    have -> : a - e = (a - b) + (b - e) by rewrite addrA subrK. rewrite sqrrD. set x := a - b. set y := b - e.
    rewrite addrAC [x ^+ 2 + y ^+ 2 + _]addrC addrK -[x * y *+ 2]mulr_natl. by rewrite mulrCA.
  Qed.
  Lemma means_sum idx m j : calc_means idx = Some m -> \sum_(i | idx i == j) wgt i *: (smp i - m j) = 0 /\ 0 < \sum_(i | idx i == j) wgt i.
  Proof.
    rewrite /calc_means. case: ifP => // /negbT. rewrite negb_exists => /forallP /(_ j) H [<-]. split; last by rewrite lt0r H sumr_ge0.
    under eq_bigr do rewrite scalerBr. rewrite sumrB -scaler_suml ffunE scalerA mulfV // scale1r.
    by rewrite subrr.
  Qed.
  Lemma cost_split idx m m' : calc_means idx = Some m ->
    cost idx m' = cost idx m + \sum_j (\sum_(i | idx i == j) wgt i) * dist2 (m j) (m' j).
  Proof.
    move=> H. rewrite /cost (partition_big idx predT) //= [X in _ = X + _](partition_big idx predT) //= -big_split /=. apply: eq_bigr => j _.
    rewrite (eq_bigr (fun i => wgt i * dist2 (smp i) (m' j))); last by move=> i /eqP ->.
    rewrite [X in _ = X + _](eq_bigr (fun i => wgt i * dist2 (smp i) (m j))); last by move=> i /eqP ->.
    apply: dist2_split. by case: (means_sum j H).
  Qed.
  Lemma means_le idx m m' : calc_means idx = Some m -> cost idx m <= cost idx m'.
  Proof.
    move=> H. rewrite (cost_split m' H) ler_addl. apply: sumr_ge0 => j _. rewrite mulr_ge0 ?dist2_ge0 // sumr_ge0 //.
  Qed.
  Lemma means_lt idx m m' : calc_means idx = Some m -> m' <> m -> cost idx m < cost idx m'.
  Proof.
    move=> H D. rewrite lt_neqAle means_le // andbT. apply/eqP => E. apply: D. apply/ffunP => j.
    have /eqP := E. rewrite (cost_split m' H) -{1}[cost idx m]addr0 (inj_eq (addrI _)) eq_sym psumr_eq0; last first.
    { move=> i _. rewrite mulr_ge0 ?dist2_ge0 // sumr_ge0 //. }
    move=> /allP /(_ j (mem_index_enum _)) /=. case: (means_sum j H) => _ P. rewrite mulf_eq0 gt_eqF //= => /eqP /dist2_eq0. by [].
  Qed.

  Lemma run_S f idx m : run f.+1 idx m =
    if associate m == idx then Done idx m else if calc_means (associate m) is Some m' then run f (associate m) m' else NaN.
  Proof. by []. Qed.
  (** the cost of an assignment with its own means *)
  Definition best (idx : index) : R := if calc_means idx is Some m then cost idx m else 0.
  Lemma run_terminates f idx m : calc_means idx = Some m -> (#|[set x | (calc_means x != None) && (best x < best idx)%R]| < f)%N -> run f.+1 idx m <> NoFuel.
  Proof.
    elim: f idx m => // f IH idx m H C. rewrite /run -/run /=. case: ifP => // /negbT D. case E : (calc_means (associate m)) => [m'|] //.
    case: (m' =P m) => [->|M].
    { by rewrite eqxx. }
    have L : best (associate m) < best idx.
    { rewrite /best E H. apply: lt_le_trans (associate_le m idx). apply: means_lt => //. exact/nesym. }
    apply: (IH _ _ E). apply: (@leq_trans #|[set x | (calc_means x != None) && (best x < best idx)]|); last by rewrite -ltnS.
    apply: proper_card. apply/properP. split.
    { apply/subsetP => x. rewrite !inE => /andP [-> /= X]. exact: lt_trans L. }
    exists (associate m); rewrite !inE E /= ?L // ltxx. by [].
  Qed.

  (** The algorithm always stops, after at most as many rounds as there are assignments of the samples to the classes. *)
  Theorem C95_terminates : kmeans (K.+1 ^ n.+1 + 3) <> NoFuel.
  Proof.
    rewrite /kmeans addn3. set f := (_ ^ _)%N. rewrite run_S. case: ifP => // _. case E : (calc_means _) => [m|] //.
    apply: (run_terminates E). rewrite ltnS. apply: leq_trans (max_card _) _. by rewrite card_ffun !card_ord.
  Qed.

  Lemma run_result f idx m idx' m' : run f idx m = Done idx' m' ->
    associate m' = idx' /\ (forall x, cost idx' m' <= cost x m) /\ ((idx' = idx /\ m' = m) \/ calc_means idx' = Some m').
  Proof.
    elim: f idx m => //= f IH idx m. case: ifP => [/eqP A [<- <-]|_].
    { split=> //. split; last by left. move=> x. rewrite -A. exact: associate_le. }
    case E : (calc_means (associate m)) => [m1|] // /IH [A [C D]]. split=> //. split.
    { move=> x. apply: le_trans (C (associate m)) _. apply: le_trans (means_le _ E) (associate_le _ _). }
    right. by case: D => [[-> ->]|].
  Qed.

  (** The first centres are different samples of the list, in their order. *)
  Theorem C95_start : (K <= n)%N -> exists pos : class -> 'I_n.+1, (forall j, first_centres j = smp (pos j)) /\ forall i j : class, (i < j)%N -> (pos i < pos j)%N.
  Proof.
    move=> H. have S : (0 < n.+1 %/ K.+1)%N by rewrite divn_gt0.
    exists (fun j => inord (j * (n.+1 %/ K.+1))). split; first by move=> j; rewrite ffunE. move=> i j L.
    have B (k : class) : (k * (n.+1 %/ K.+1) < n.+1)%N.
    { apply: (@leq_trans (K.+1 * (n.+1 %/ K.+1))); first by rewrite ltn_pmul2r. rewrite mulnC. exact: leq_trunc_div. }
    by rewrite !inordK // ltn_pmul2r.
  Qed.

  (** If the algorithm has a result, every sample is in the class of the nearest centre; every centre is the weighted mean of its samples, unless the first centres were
      final already. The result cannot be improved by assigning the samples to other classes, nor (in the first case) by moving the centres. It is at least as good as any
      assignment to the first centres. *)
  Theorem C95_result fuel idx m : kmeans fuel = Done idx m ->
    (forall i j, dist2 (smp i) (m (idx i)) <= dist2 (smp i) (m j)) /\
    (((forall j, is_mean idx j (m j)) /\ forall m', cost idx m <= cost idx m') \/ (m = first_centres /\ idx = first_index)) /\
    (forall idx', cost idx m <= cost idx' m) /\ forall idx', cost idx m <= cost idx' first_centres.
  Proof.
    move=> /run_result [A [C D]]. split; first by move=> i j; rewrite -A ffunE; exact: N.
    split. { case: D => [[-> ->]|D]; [by right|left]. split; last by move=> m'; exact: means_le.
      move=> j. rewrite /is_mean /weighted_mean /total !big_map !big_filter !big_enum_cond /=.
      move: D. rewrite /calc_means. case: ifP => // /negbT. rewrite negb_exists => /forallP /(_ j) Z [<-]. rewrite ffunE. split=> //. }
    split; first by move=> idx'; rewrite -A; exact: associate_le.
    exact: C.
  Qed.
End kmeans.

(** Three classes for three samples of which two are equal: two of the first centres are equal, one class stays empty, and the centres are not numbers. *)
Theorem C95_empty_refuted (R : realFieldType) : exists smp : 'I_3 -> 'cV[R]_1,
  forall nearest, @finds_nearest R 1 2 nearest -> forall fuel, kmeans smp (fun=> 1) nearest fuel.+1 = @NaN R 1 2 2.
Proof.
  exists (fun i => if i == ord_max then 1 else 0) => near H f. rewrite /kmeans run_S. set smp := fun i => _. set m0 := first_centres _ _.
  have M j : m0 j = smp j by rewrite ffunE divnn /= muln1; congr smp; apply: val_inj; rewrite /= inordK.
  have D1 : dist2 (1 : 'cV[R]_1) 0 = 1 by rewrite /dist2 big_ord1 !mxE subr0 expr1n.
  have D2 : dist2 (0 : 'cV[R]_1) 1 = 1 by rewrite /dist2 big_ord1 !mxE sub0r sqrrN expr1n.
  have D3 (x : 'cV[R]_1) : dist2 x x = 0 by rewrite /dist2 big_ord1 subrr expr0n.
  have C1 : near m0 1 = ord_max.
  { apply/eqP. move: (H m0 1 ord_max). rewrite !M /smp eqxx. case: eqP => // _. by rewrite D1 D3 ler10. }
  have C0 : near m0 0 != ord_max.
  { apply/eqP => E. move: (H m0 0 ord0). rewrite !M /smp E eqxx /= D2 D3 ler10. by []. }
  case: eqP => [/ffunP /(_ ord_max)|_]; first by rewrite !ffunE /smp eqxx C1.
  suff -> : calc_means smp (fun=> 1) (associate smp near m0) = None by []. rewrite /calc_means. case: ifP => // /negbT /existsP [].
  (* the class of 0 and 0 is not the last one; the third class is empty *)
  have [j [J1 J2]] : exists j : 'I_3, j != near m0 0 /\ j != ord_max.
  { case: (near m0 0 =P ord0) => E; [exists (inord 1)|exists ord0]; last by split=> //; rewrite eq_sym; apply/eqP.
    by rewrite E -!val_eqE /= inordK. }
  exists j. rewrite big_pred0 // => i. rewrite ffunE /smp. case: ifP => _; first by rewrite C1 eq_sym (negbTE J2). by rewrite eq_sym (negbTE J1).
Qed.
(** Two samples, two classes: the algorithm ends with the samples in different classes and the samples as centres; the hypothesis on the search is met. *)
Example C95_nonvacuous (R : realFieldType) : exists smp near, @finds_nearest R 1 1 near /\
  exists idx m, kmeans smp (fun=> 1) near 2 = @Done R 1 1 1 idx m /\ idx ord0 != idx ord_max /\ m (idx ord0) = smp ord0 /\ smp ord0 <> smp ord_max.
Proof.
  pose smp (i : 'I_2) : 'cV[R]_1 := if i == ord_max then 1 else 0.
  pose near (m : {ffun 'I_2 -> 'cV[R]_1}) x : 'I_2 := if dist2 x (m ord0) <= dist2 x (m ord_max) then ord0 else ord_max.
  have D1 : dist2 (1 : 'cV[R]_1) 0 = 1 by rewrite /dist2 big_ord1 !mxE subr0 expr1n.
  have D3 (x : 'cV[R]_1) : dist2 x x = 0 by rewrite /dist2 big_ord1 subrr expr0n.
  exists smp, near. split.
  { move=> m x j. have [->|->] : j = ord0 \/ j = ord_max by case: j => [[|[|//]] h]; [left|right]; exact: val_inj.
    all: rewrite /near; case: ifP => // /negbT; rewrite -ltNge => /ltW. all: by []. }
  have M j : first_centres 1 smp j = smp j by rewrite ffunE divnn /= muln1; congr smp; apply: val_inj; rewrite /= inordK.
  have C (m : {ffun 'I_2 -> 'cV[R]_1}) : (forall j, m j = smp j) -> near m 0 = ord0 /\ near m 1 = ord_max.
  { move=> E. rewrite /near !E /smp eqxx /= !D3 D1 ?dist2_ge0 ler10. by split. }
  have A (m : {ffun 'I_2 -> 'cV[R]_1}) : (forall j, m j = smp j) -> associate smp near m = [ffun i => i].
  { move=> E. apply/ffunP => i. rewrite !ffunE. case: (C _ E) => E0 E1.
    have [->|->] : i = ord0 \/ i = ord_max by case: i => [[|[|//]] h]; [left|right]; exact: val_inj. all: by rewrite /smp ?eqxx /= ?E0 ?E1. }
  have S : calc_means smp (fun=> 1) [ffun i => i] = Some [ffun j => smp j].
  { rewrite /calc_means. have Q (j : 'I_2) : \sum_(i < 2 | [ffun i : 'I_2 => i] i == j) (1 : R) = 1.
    { rewrite (eq_bigl (fun i => i == j)) ?big_pred1_eq // => i. by rewrite ffunE. }
    case: ifP => [/existsP [j]|_]; first by rewrite Q oner_eq0. congr Some. apply/ffunP => j. rewrite !ffunE Q invr1 scale1r.
    rewrite (eq_bigl (fun i => i == j)); last by move=> i; rewrite ffunE. by rewrite big_pred1_eq scale1r. }
  exists [ffun i => i], [ffun j => smp j]. rewrite /kmeans run_S A //. case: eqP => [/ffunP /(_ ord_max)|_]; first by rewrite !ffunE.
  rewrite S run_S A; last by move=> j; rewrite ffunE. rewrite eqxx !ffunE. split=> //. split=> //. split=> //.
  rewrite /smp /= => /matrixP /(_ 0 0). rewrite !mxE => /eqP. by rewrite eq_sym oner_eq0.
Qed.
