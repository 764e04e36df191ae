(** Assessment of scan matching: clusters of poses, and samples around a pose.  C124, C125.
    icp/stability.hpp, icp/stability.cpp

    Numbers are real. Rotations, Eigen's extraction of the yaw angle from them and its Cholesky factor are parameters. *)
From stdpp Require Import prelude.
From Coq Require Import Reals.
From Coq Require Import Lra.
From Verif Require Import Base.
Local Open Scope R_scope.

Record vec3 := V3 { v3x : R; v3y : R; v3z : R }.
Definition vzero : vec3 := V3 0 0 0.
Definition vplus (a b : vec3) : vec3 := V3 (v3x a + v3x b) (v3y a + v3y b) (v3z a + v3z b).
Definition vscale (r : R) (a : vec3) : vec3 := V3 (r * v3x a) (r * v3y a) (r * v3z a).
Definition vlen (a : vec3) : R := sqrt (v3x a * v3x a + v3y a * v3y a + v3z a * v3z a).
(** a matrix, by columns *)
Record mat3 := M3 { col0 : vec3; col1 : vec3; col2 : vec3 }.
Definition mlen (m : mat3) : R := sqrt (vlen (col0 m) * vlen (col0 m) + vlen (col1 m) * vlen (col1 m) + vlen (col2 m) * vlen (col2 m)).
Definition mapply (m : mat3) (v : vec3) : vec3 := vplus (vplus (vscale (v3x v) (col0 m)) (vscale (v3y v) (col1 m))) (vscale (v3z v) (col2 m)).
Definition mmult (a b : mat3) : mat3 := M3 (mapply a (col0 b)) (mapply a (col1 b)) (mapply a (col2 b)).
Definition rgt (x y : R) : bool := if Rgt_dec x y then true else false.
Definition rlt (x y : R) : bool := if Rlt_dec x y then true else false.
(** icpConfigurationTypes.hpp:77-85 *)
Record sigma_conf := SigmaConf { n_sigma : Z; min_norm : R; max_norm : R }.

Section cluster.
  Context (Rot : Type) (euler : Rot -> R) (about_z : R -> Rot) (llt : mat3 -> mat3).
  (** ** Model *)
  (** stability.hpp:46-49, for one column; [e] is the column of the identity matrix *)
  Definition bounded (c : sigma_conf) (e v : vec3) : vec3 :=
    let v := if rlt (vlen v) (min_norm c) then vscale (min_norm c) e else v in
    if rgt (vlen v) (max_norm c) then vscale (max_norm c) e else v.
  (** stability.hpp:36-58, calcSigmaPoints *)
  Definition sigma_points (m : mat3) (c : sigma_conf) : mat3 :=
    let l := llt m in
    M3 (bounded c (V3 1 0 0) (vscale (IZR (n_sigma c)) (col0 l))) (bounded c (V3 0 1 0) (vscale (IZR (n_sigma c)) (col1 l))) (bounded c (V3 0 0 1) (vscale (IZR (n_sigma c)) (col2 l))).

  Record pose := Pose { pos : vec3; rot : Rot }.
  (** icpConfigurationTypes.hpp:90-103 *)
  Record cluster_conf := ClusterConf { min_points : nat; remove_outliers : bool; outliers_position : sigma_conf; outliers_orientation : sigma_conf }.
  (** stability.hpp:86-93. The covariances are diagonal: of that of the orientation, only the last entry is not zero. The mean of no points, not a number, and the limits
      before they are set, are [None]. *)
  Record clustering := Clustering { points : list pose; mean : option pose; cov_pos : option vec3; cov_yaw : option R; limits : option (R * R) }.
  (** stability.hpp:70-71; the mean is undefined *)
  Definition new_clustering : clustering := Clustering [] None (Some vzero) (Some 0) None.
  (** stability.cpp:70-92, calcMean *)
  Definition calc_mean (ps : list pose) : option pose :=
    match ps with
    | [] => None
    | _ => let n := INR (length ps) in
      Some (Pose (vscale (/ n) (foldl (fun a p => vplus a (pos p)) vzero ps)) (about_z (foldl (fun a p => a + euler (rot p)) 0 ps / n)))
    end.
  (** stability.cpp:36-67, calcVariance: the angle is that of the first point for every point *)
  Definition square_diff (a b : vec3) : vec3 := V3 ((v3x a - v3x b) ^ 2) ((v3y a - v3y b) ^ 2) ((v3z a - v3z b) ^ 2).
  Definition calc_variance (m : pose) (ps : list pose) : option (vec3 * R) :=
    match ps with
    | [] => None
    | p0 :: _ => let n := INR (length ps) in
      Some (vscale (/ n) (foldl (fun a p => vplus a (square_diff (pos m) (pos p))) vzero ps), foldl (fun a p => a + (euler (rot m) - euler (rot p0)) ^ 2) 0 ps / n)
    end.
  (** stability.cpp:126-134, 139-147: the first point with the largest difference, if there is one above zero *)
  Fixpoint largest (diff : pose -> R) (ps : list pose) (i : nat) (at_max : option nat) (max : R) : option nat :=
    match ps with
    | [] => at_max
    | p :: ps => if rgt (diff p) max then largest diff ps (S i) (Some i) (diff p) else largest diff ps (S i) at_max max
    end.
  (** stability.cpp:121-149; with no points all comparisons are false *)
  Definition outlier (lim : R * R) (ps : list pose) : option nat :=
    m ← calc_mean ps; '(vp, vy) ← calc_variance m ps;
    if rgt (vlen vp) (fst lim) then largest (fun p => Rabs (vlen (pos m) - vlen (pos p))) ps 0 None 0
    else if rgt vy (snd lim) then largest (fun p => Rabs (euler (rot p) - euler (rot m))) ps 0 None 0 else None.
  (** stability.cpp:29-30, 115-116 *)
  Definition update (c : clustering) : clustering :=
    let m := calc_mean (points c) in let v := m' ← m; calc_variance m' (points c) in Clustering (points c) m (fst <$> v) (snd <$> v) (limits c).
  (** stability.cpp:107-168, removeOutliers *)
  Fixpoint remove (fuel : nat) (cf : cluster_conf) (lim : R * R) (c : clustering) : out unit (bool * clustering) :=
    match fuel with
    | O => NoFuel
    | S fuel =>
      if decide (min_points cf <= length (points c))%nat then
        let c := update c in
        match outlier lim (points c) with
        | Some i => remove fuel cf lim (Clustering (delete i (points c)) (mean c) (cov_pos c) (cov_yaw c) (limits c))
        | None => Ok (true, c)
        end
      else Ok (false, c)
    end.
  (** stability.cpp:16-35, cluster *)
  Definition cluster (cf : cluster_conf) (ps : list pose) (c : clustering) : out unit (bool * clustering) :=
    let c := Clustering ps (mean c) (cov_pos c) (cov_yaw c) (limits c) in
    if decide (length ps < min_points cf)%nat then Ok (false, c)
    else if remove_outliers cf then match limits c with Some lim => remove (S (length ps)) cf lim c | None => Bad UB end
    else Ok (true, update c).
  (** stability.cpp:94-105, defOutlinerRegion; of the limits are used the norm of the one and the last entry of the other *)
  Definition outlier_region (cf : cluster_conf) (cov_position cov_orientation : mat3) (c : clustering) : clustering :=
    if remove_outliers cf then
      let p := sigma_points cov_position (outliers_position cf) in let o := sigma_points cov_position (outliers_orientation cf) in
      Clustering (points c) (mean c) (cov_pos c) (cov_yaw c) (Some (mlen (mmult p p), v3z (col2 (mmult o o))))
    else c.

  (** ** Specification *)
  Definition total (f : pose -> R) (ps : list pose) : R := fold_right (fun p a => f p + a) 0 ps.
  Definition average (f : pose -> R) (ps : list pose) : R := total f ps / INR (length ps).
  (** the mean of some poses *)
  Definition is_mean (ps : list pose) (m : pose) : Prop :=
    pos m = V3 (average (fun p => v3x (pos p)) ps) (average (fun p => v3y (pos p)) ps) (average (fun p => v3z (pos p)) ps) /\ rot m = about_z (average (fun p => euler (rot p)) ps).
  (** the variances of their coordinates *)
  Definition variance (f : pose -> R) (ps : list pose) : R := average (fun p => (f p - average f ps) ^ 2) ps.
  Definition variances (ps : list pose) : vec3 := V3 (variance (fun p => v3x (pos p)) ps) (variance (fun p => v3y (pos p)) ps) (variance (fun p => v3z (pos p)) ps).
  (** what is taken for the variance of the angle: the square of the difference of the first one from the mean *)
  Definition first_angle (ps : list pose) (v : R) : Prop := exists p0 m, head ps = Some p0 /\ is_mean ps m /\ v = (euler (rot m) - euler (rot p0)) ^ 2.
  Definition in_limits (lim : R * R) (ps : list pose) : Prop := vlen (variances ps) <= fst lim /\ forall v, first_angle ps v -> v <= snd lim.
  (** a point is removed if the limits are exceeded: it is one whose distance from the origin, or else whose angle, differs most from that of the mean *)
  Definition worst (d : pose -> R) (ps : list pose) (i : nat) : Prop := exists p, ps !! i = Some p /\ forall j q, ps !! j = Some q -> d q <= d p /\ ((j < i)%nat -> d q < d p).
  Inductive prunes (min : nat) (lim : R * R) : list pose -> list pose -> Prop :=
  | prunes_none ps : prunes min lim ps ps
  | prunes_far ps ps' i m : (min <= length ps)%nat -> is_mean ps m -> fst lim < vlen (variances ps) -> worst (fun p => Rabs (vlen (pos m) - vlen (pos p))) ps i ->
      prunes min lim (delete i ps) ps' -> prunes min lim ps ps'
  | prunes_turned ps ps' i m v : (min <= length ps)%nat -> is_mean ps m -> vlen (variances ps) <= fst lim -> first_angle ps v -> snd lim < v -> worst (fun p => Rabs (euler (rot p) - euler (rot m))) ps i ->
      prunes min lim (delete i ps) ps' -> prunes min lim ps ps'.
  (** mean and covariances are those of the points *)
  Definition describes (c : clustering) (ps : list pose) : Prop :=
    exists m v, mean c = Some m /\ is_mean ps m /\ cov_pos c = Some (variances ps) /\ cov_yaw c = Some v /\ first_angle ps v.

  (** ** Proofs *)
  Lemma rgt_true x y : rgt x y = true <-> x > y.
  Proof using Type. unfold rgt. destruct (Rgt_dec x y); split; intros; try done; lra. Qed.
  Lemma rgt_false x y : rgt x y = false <-> x <= y.
  Proof using Type. unfold rgt. destruct (Rgt_dec x y); split; intros; try done; lra. Qed.
  Lemma rlt_true x y : rlt x y = true <-> x < y.
  Proof using Type. unfold rlt. destruct (Rlt_dec x y); split; intros; try done; lra. Qed.
  Lemma rlt_false x y : rlt x y = false <-> y <= x.
  Proof using Type. unfold rlt. destruct (Rlt_dec x y); split; intros; try done; lra. Qed.
  Lemma foldl_total (f : pose -> R) ps a : foldl (fun a p => a + f p) a ps = a + total f ps.
  Proof using Type. revert a. induction ps as [|p ps IH]; intros a; cbn; [lra|]. rewrite IH. unfold total. lra. Qed.
  Lemma foldl_vec (g : pose -> vec3) ps a : foldl (fun a p => vplus a (g p)) a ps = vplus a (V3 (total (fun p => v3x (g p)) ps) (total (fun p => v3y (g p)) ps) (total (fun p => v3z (g p)) ps)).
  Proof using Type.
    revert a. induction ps as [|p ps IH]; intros [x y z]; cbn [foldl]; [unfold vplus, total; cbn; f_equal; lra|]. rewrite IH. unfold vplus, total. cbn. f_equal; lra. Qed.
  Lemma total_ext (f g : pose -> R) ps : (forall p, p ∈ ps -> f p = g p) -> total f ps = total g ps.
  Proof using Type.
    induction ps as [|p ps IH]; intros H; [done|]. unfold total in *. cbn [fold_right]. rewrite (H p) by (by left). rewrite IH; [done|]. intros q Hq. apply H. by right. Qed.
  Lemma total_const c (ps : list pose) : total (fun _ => c) ps = INR (length ps) * c.
  Proof using Type. induction ps as [|p ps IH]; [cbn; lra|]. cbn [length]. rewrite S_INR. unfold total in *. cbn [fold_right]. rewrite IH. lra. Qed.
  Lemma total_plus f g (ps : list pose) : total (fun p => f p + g p) ps = total f ps + total g ps.
  Proof using Type. unfold total. induction ps as [|p ps IH]; cbn; [lra|]. rewrite IH. lra. Qed.
  Lemma total_scale c f (ps : list pose) : total (fun p => c * f p) ps = c * total f ps.
  Proof using Type. unfold total. induction ps as [|p ps IH]; cbn; [lra|]. rewrite IH. lra. Qed.
  Lemma total_nonneg f (ps : list pose) : (forall p, 0 <= f p) -> 0 <= total f ps.
  Proof using Type. intros H. unfold total. induction ps as [|p ps IH]; cbn; [lra|]. specialize (H p). lra. Qed.
  Lemma length_pos (ps : list pose) : ps <> [] -> 0 < INR (length ps).
  Proof using Type. destruct ps; [done|]. intros _. apply lt_0_INR. cbn. lia. Qed.
  Lemma calc_mean_is ps : ps <> [] -> exists m, calc_mean ps = Some m /\ is_mean ps m.
  Proof using Type.
    intros Hne. destruct ps as [|p0 ps0]; [done|]. cbn [calc_mean]. cbv zeta. eexists; split; [done|].
    
    rewrite foldl_total, foldl_vec. split; cbn [pos rot]; unfold vplus, vscale, vzero, average; cbn; [f_equal|f_equal]; unfold Rdiv; ring. Qed.
  Lemma is_mean_unique ps m m' : is_mean ps m -> is_mean ps m' -> m = m'.
  Proof using Type. destruct m, m'. intros [H1 H2] [H3 H4]. cbn in *. congruence. Qed.
  Lemma variance_nonneg f ps : ps <> [] -> 0 <= variance f ps.
  Proof using Type.
    intros Hne. pose proof (length_pos ps Hne). unfold variance, average at 1. apply Rmult_le_pos; [|left; by apply Rinv_0_lt_compat]. apply total_nonneg. intros p. apply pow2_ge_0. Qed.
  Lemma calc_variance_is ps m : ps <> [] -> is_mean ps m -> exists v, calc_variance m ps = Some (variances ps, v) /\ first_angle ps v.
  Proof using Type.
    intros Hne Hm. pose proof (length_pos ps Hne) as Hl. destruct ps as [|p0 ps0]; [done|]. cbn [calc_variance]. cbv zeta. eexists. split.
    { f_equal. f_equal.
      - rewrite foldl_vec. destruct Hm as [Hm _]. rewrite Hm. unfold variances, variance, square_diff, vscale, vplus, vzero. cbn [v3x v3y v3z].
        assert (forall f g, (forall p, f p = g p) -> / INR (length (p0 :: ps0)) * (0 + total f (p0 :: ps0)) = average g (p0 :: ps0)) as K.
        { intros f g Hfg. unfold average, Rdiv. rewrite Rplus_0_l, Rmult_comm. f_equal. apply total_ext. intros p _. apply Hfg. }
        f_equal; apply K; intros p; ring. }
    rewrite foldl_total, total_const. exists p0, m. split; [done|]. split; [done|]. field. lra. Qed.
  Lemma variance_split f ps : ps <> [] -> variance f ps = average (fun p => f p * f p) ps - average f ps * average f ps.
  Proof using Type.
    intros Hne. pose proof (length_pos ps Hne) as Hl. unfold variance. set (a := average f ps). assert (total f ps = INR (length ps) * a) as Ha. { unfold a, average. field. lra. }
    unfold average. rewrite (total_ext _ (fun p => f p * f p + ((-2 * a) * f p + a * a))) by (intros; ring). rewrite !total_plus, total_scale, total_const, Ha. field. lra. Qed.
  Lemma vlen_square v : vlen v * vlen v = v3x v * v3x v + v3y v * v3y v + v3z v * v3z v.
  Proof using Type. unfold vlen. apply sqrt_sqrt. pose proof (pow2_ge_0 (v3x v)). pose proof (pow2_ge_0 (v3y v)). pose proof (pow2_ge_0 (v3z v)). lra. Qed.
  Lemma vlen_nonneg v : 0 <= vlen v.
  Proof using Type. apply sqrt_pos. Qed.
  (** if all points are as far from the origin as their mean, they are the same *)
  Lemma same_length ps m : ps <> [] -> is_mean ps m -> (forall p, p ∈ ps -> vlen (pos m) = vlen (pos p)) -> vlen (variances ps) = 0.
  Proof using Type.
    intros Hne [Hm _] Hp. pose proof (length_pos ps Hne) as Hl.
    assert (variance (fun p => v3x (pos p)) ps + variance (fun p => v3y (pos p)) ps + variance (fun p => v3z (pos p)) ps = 0) as H0.
    { rewrite !variance_split by done. pose proof (vlen_square (pos m)) as Hs. rewrite Hm in Hs at 3 4 5 6 7 8. cbn [v3x v3y v3z] in Hs.
      assert (average (fun p => v3x (pos p) * v3x (pos p)) ps + average (fun p => v3y (pos p) * v3y (pos p)) ps + average (fun p => v3z (pos p) * v3z (pos p)) ps = vlen (pos m) * vlen (pos m)) as H1; [|lra].
      unfold average. unfold Rdiv. rewrite <- !Rmult_plus_distr_r, <- !total_plus. rewrite (total_ext _ (fun _ => vlen (pos m) * vlen (pos m))); [rewrite total_const; field; lra|].
      intros p Hq. rewrite (Hp p Hq). by rewrite vlen_square. }
    pose proof (variance_nonneg (fun p => v3x (pos p)) ps Hne). pose proof (variance_nonneg (fun p => v3y (pos p)) ps Hne). pose proof (variance_nonneg (fun p => v3z (pos p)) ps Hne).
    unfold vlen, variances. cbn [v3x v3y v3z]. replace (variance (fun p => v3x (pos p)) ps) with 0 by lra. replace (variance (fun p => v3y (pos p)) ps) with 0 by lra. replace (variance (fun p => v3z (pos p)) ps) with 0 by lra.
    replace (0 * 0 + 0 * 0 + 0 * 0) with 0 by ring. apply sqrt_0. Qed.
  Definition found (d : pose -> R) (pre : list pose) (at_max : option nat) (max : R) : Prop :=
    match at_max with
    | None => max = 0 /\ forall q, q ∈ pre -> d q <= 0
    | Some i => 0 < max /\ exists p, pre !! i = Some p /\ max = d p /\ forall j q, pre !! j = Some q -> d q <= d p /\ ((j < i)%nat -> d q < d p)
    end.
  Lemma largest_found d l : forall pre a max, found d pre a max -> exists max', found d (pre ++ l) (largest d l (length pre) a max) max'.
  Proof using Type.
    induction l as [|p l IH]; intros pre a max H; cbn [largest]; [rewrite app_nil_r; by exists max|].
    assert (S (length pre) = length (pre ++ [p])) as El by (rewrite app_length; cbn; lia).
    assert (pre ++ p :: l = (pre ++ [p]) ++ l) as Ea by (by rewrite <- app_assoc). rewrite El, Ea.
    destruct (rgt (d p) max) eqn:E.
    - apply rgt_true in E. apply IH. assert (0 <= max /\ forall q, q ∈ pre -> d q <= max) as [H0 Hq].
      { destruct a as [i|]; cbn in H.
        - destruct H as (H & p' & H1 & -> & H2). split; [lra|]. intros q [j Hj]%elem_of_list_lookup. by apply (H2 j).
        - destruct H as [-> H]. split; [lra|done]. }
      cbn. split; [lra|]. exists p. split; [by rewrite lookup_app_r, Nat.sub_diag|]. split; [done|]. intros j q Hj. apply lookup_app_Some in Hj as [Hj|[Hj Hj']].
      + apply elem_of_list_lookup_2, Hq in Hj. lra.
      + apply list_lookup_singleton_Some in Hj' as [Hj' <-]. split; [lra|lia].
    - apply rgt_false in E. apply IH. destruct a as [i|]; cbn in *.
      + destruct H as (H & p' & H1 & -> & H2). split; [done|]. exists p'. split; [by apply lookup_app_l_Some|]. split; [done|]. intros j q Hj. apply lookup_app_Some in Hj as [Hj|[Hj Hj']]; [by apply H2|].
        apply list_lookup_singleton_Some in Hj' as [Hj' <-]. split; [done|]. apply lookup_lt_Some in H1. lia.
      + destruct H as [-> H]. split; [done|]. intros q [Hq|Hq]%elem_of_app; [by apply H|]. apply elem_of_list_singleton in Hq as ->. done. Qed.
  Lemma largest_some d ps i : largest d ps 0 None 0 = Some i -> worst d ps i.
  Proof using Type.
    intros E. destruct (largest_found d ps [] None 0) as (mx & H). { cbn. split; [done|]. intros q Hq. by apply elem_of_nil in Hq. }
    cbn [length app] in H. rewrite E in H. destruct H as (_ & p & H1 & _ & H2). by exists p. Qed.
  Lemma largest_none d ps : largest d ps 0 None 0 = None -> forall q, q ∈ ps -> d q <= 0.
  Proof using Type.
    intros E. destruct (largest_found d ps [] None 0) as (mx & H). { cbn. split; [done|]. intros q Hq. by apply elem_of_nil in Hq. }
    cbn [length app] in H. rewrite E in H. apply H. Qed.

  Lemma first_angle_unique ps v v' : first_angle ps v -> first_angle ps v' -> v = v'.
  Proof using Type. intros (p & m & H1 & H2 & ->) (p' & m' & H3 & H4 & ->). pose proof (is_mean_unique ps m m' H2 H4) as ->. congruence. Qed.
  Lemma outlier_eq lim ps : ps <> [] -> exists m v, is_mean ps m /\ first_angle ps v /\ outlier lim ps =
    if rgt (vlen (variances ps)) (fst lim) then largest (fun p => Rabs (vlen (pos m) - vlen (pos p))) ps 0 None 0
    else if rgt v (snd lim) then largest (fun p => Rabs (euler (rot p) - euler (rot m))) ps 0 None 0 else None.
  Proof using Type.
    intros Hne. destruct (calc_mean_is ps Hne) as (m & Em & Hm). destruct (calc_variance_is ps m Hne Hm) as (v & Ev & Hv). exists m, v. split; [done|]. split; [done|].
    unfold outlier. rewrite Em. cbn. rewrite Ev. reflexivity. Qed.
  Lemma outlier_some min lim ps i ps' : (min <= length ps)%nat -> outlier lim ps = Some i -> ps <> [] -> prunes min lim (delete i ps) ps' -> prunes min lim ps ps'.
  Proof using Type.
    intros Hmin E Hne Hp. destruct (outlier_eq lim ps Hne) as (m & v & Hm & Hv & Eo). rewrite Eo in E.
    destruct (rgt (vlen (variances ps)) (fst lim)) eqn:E1.
    - apply rgt_true in E1. apply (prunes_far min lim ps ps' i m); [done|done|lra|by apply largest_some|done].
    - apply rgt_false in E1. destruct (rgt v (snd lim)) eqn:E2; [|done]. apply rgt_true in E2. apply (prunes_turned min lim ps ps' i m v); try done. by apply largest_some. Qed.
  Lemma outlier_lt lim ps i : outlier lim ps = Some i -> ps <> [] -> (i < length ps)%nat.
  Proof using Type.
    intros E Hne. destruct (outlier_eq lim ps Hne) as (m & v & Hm & Hv & Eo). rewrite Eo in E.
    repeat case_match; try done; apply largest_some in E as (p & Hp & _); by apply lookup_lt_Some in Hp. Qed.
  Lemma outlier_none lim ps : 0 <= fst lim -> 0 <= snd lim -> outlier lim ps = None -> ps <> [] -> in_limits lim ps.
  Proof using Type.
    intros H1 H2 E Hne. destruct (outlier_eq lim ps Hne) as (m & v & Hm & Hv & Eo). rewrite Eo in E.
    destruct (rgt (vlen (variances ps)) (fst lim)) eqn:E1.
    - apply rgt_true in E1. exfalso. pose proof (largest_none _ _ E) as Hl. rewrite (same_length ps m Hne Hm) in E1; [lra|]. intros p Hp. specialize (Hl p Hp). cbn in Hl.
      pose proof (Rabs_pos (vlen (pos m) - vlen (pos p))) as Hr. assert (Rabs (vlen (pos m) - vlen (pos p)) = 0) as Hz by lra. destruct (Req_dec (vlen (pos m) - vlen (pos p)) 0) as [Hd|Hd]; [lra|]. by apply Rabs_no_R0 in Hd.
    - apply rgt_false in E1. split; [done|]. intros v' Hv'. rewrite (first_angle_unique ps v' v Hv' Hv). destruct (rgt v (snd lim)) eqn:E2; [|by apply rgt_false in E2].
      apply rgt_true in E2. exfalso. pose proof (largest_none _ _ E) as Hl. destruct Hv as (p0 & m' & Hh & Hm' & Ev0). pose proof (is_mean_unique ps m m' Hm Hm') as <-.
      assert (p0 ∈ ps) as Hin. { destruct ps; [done|]. injection Hh as ->. by left. } specialize (Hl p0 Hin). cbn in Hl.
      pose proof (Rabs_pos (euler (rot p0) - euler (rot m))) as Hr. assert (euler (rot p0) - euler (rot m) = 0) as Hz. { destruct (Req_dec (euler (rot p0) - euler (rot m)) 0) as [Hd|Hd]; [done|]. apply Rabs_no_R0 in Hd. lra. }
      rewrite Ev0 in E2. replace (euler (rot m) - euler (rot p0)) with 0 in E2 by lra. lra. Qed.
  Lemma update_describes c : points c <> [] -> describes (update c) (points c).
  Proof using Type.
    intros Hne. unfold update. destruct (calc_mean_is (points c) Hne) as (m & Em & Hm). destruct (calc_variance_is (points c) m Hne Hm) as (v & Ev & Hv). rewrite Em. cbn [mbind option_bind]. rewrite Ev. exists m, v. done. Qed.
  Lemma prunes_sublist min lim ps ps' : prunes min lim ps ps' -> ps' `sublist_of` ps.
  Proof using Type. induction 1; [done| |]; (etrans; [done|apply sublist_delete]). Qed.

  (** ** C124 *)
  Lemma remove_ok cf lim fuel c : (0 < min_points cf)%nat -> 0 <= fst lim -> 0 <= snd lim -> (length (points c) < fuel)%nat ->
    exists b c', remove fuel cf lim c = Ok (b, c') /\ limits c' = limits c /\ prunes (min_points cf) lim (points c) (points c') /\
      if b then (min_points cf <= length (points c'))%nat /\ describes c' (points c') /\ in_limits lim (points c')
      else (length (points c) < min_points cf)%nat /\ c' = c \/ S (length (points c')) = min_points cf /\ exists before i, prunes (min_points cf) lim (points c) before /\ describes c' before /\ points c' = delete i before.
  Proof using Type.
    intros Hmin H1 H2. revert c. induction fuel as [|fuel IH]; intros c Hf; [lia|]. cbn [remove]. destruct (decide (min_points cf <= length (points c))%nat) as [Hd|Hd].
    2:{ exists false, c. split; [done|]. split; [done|]. split; [constructor|]. left. split; [lia|done]. }
    assert (points c <> []) as Hne. { intros E. rewrite E in Hd. cbn in Hd. lia. }
    change (points (update c)) with (points c). destruct (outlier lim (points c)) as [i|] eqn:E.
    - pose proof (outlier_lt lim (points c) i E Hne) as Hi. assert (length (delete i (points c)) < fuel)%nat as Hf'. { rewrite length_delete by (by apply lookup_lt_is_Some). lia. }
      destruct (IH (Clustering (delete i (points c)) (mean (update c)) (cov_pos (update c)) (cov_yaw (update c)) (limits (update c))) Hf') as (b & c' & Hr & Hl & Hp & Hb). cbn [points limits] in *.
      exists b, c'. split; [done|]. split; [done|]. split; [by apply (outlier_some _ _ _ i)|]. destruct b; [done|]. right. destruct Hb as [[Hb ->]|(Hb & before & j & Hb1 & Hb2)].
      + cbn [points]. split; [rewrite length_delete in * by (by apply lookup_lt_is_Some); lia|]. exists (points c), i. split; [constructor|]. split; [|done]. by apply update_describes.
      + split; [done|]. exists before, j. split; [by apply (outlier_some _ _ _ i)|done].
    - exists true, (update c). split; [done|]. split; [done|]. split; [constructor|]. change (points (update c)) with (points c). split; [done|]. split; [by apply update_describes|by apply outlier_none]. Qed.
  (** With removal of outliers: points are removed one by one, and in their order the rest stays. On success enough of them are left, they are within the limits, and mean and covariances are theirs.
      Without success there were too few, or are so now by one point; then mean and covariances are those before it was removed. *)
  Theorem C124_cluster cf ps c lim : (0 < min_points cf)%nat -> remove_outliers cf = true -> limits c = Some lim -> 0 <= fst lim -> 0 <= snd lim ->
    exists b c', cluster cf ps c = Ok (b, c') /\ limits c' = limits c /\ points c' `sublist_of` ps /\ prunes (min_points cf) lim ps (points c') /\
      if b then (min_points cf <= length (points c'))%nat /\ describes c' (points c') /\ in_limits lim (points c')
      else (length ps < min_points cf)%nat /\ points c' = ps /\ mean c' = mean c /\ cov_pos c' = cov_pos c /\ cov_yaw c' = cov_yaw c \/
        S (length (points c')) = min_points cf /\ exists before i, prunes (min_points cf) lim ps before /\ describes c' before /\ points c' = delete i before.
  Proof using Type.
    intros Hmin Hr Hl H1 H2. unfold cluster. cbv zeta. rewrite Hr. cbn [limits]. rewrite Hl. case_decide as Hd.
    { eexists false, _. split; [done|]. cbn. split; [done|]. split; [done|]. split; [constructor|]. left. done. }
    destruct (remove_ok cf lim (S (length ps)) (Clustering ps (mean c) (cov_pos c) (cov_yaw c) (Some lim)) Hmin H1 H2) as (b & c' & E & El & Hp & Hb); [cbn; lia|]. cbn [points limits] in *.
    exists b, c'. split; [done|]. split; [done|]. split; [by apply (prunes_sublist (min_points cf) lim)|]. split; [done|]. destruct b; [done|]. destruct Hb as [[Hb _]|Hb]; [lia|by right].
  Qed.
  (** Without removal all points stay. *)
  Theorem C124_keep cf ps c : (0 < min_points cf)%nat -> remove_outliers cf = false ->
    exists b c', cluster cf ps c = Ok (b, c') /\ points c' = ps /\ (b = true <-> (min_points cf <= length ps)%nat) /\
      if b then describes c' ps else mean c' = mean c /\ cov_pos c' = cov_pos c /\ cov_yaw c' = cov_yaw c.
  Proof using Type.
    intros Hmin Hr. unfold cluster. cbv zeta. rewrite Hr. case_decide as Hd.
    - eexists false, _. split; [done|]. cbn. split; [done|]. split; [|done]. split; [done|lia].
    - eexists true, _. split; [done|]. split; [done|]. split; [split; [lia|done]|].
      apply (update_describes (Clustering ps (mean c) (cov_pos c) (cov_yaw c) (limits c))). cbn. intros ->. cbn in Hd. lia.
  Qed.
  (** The limits are those assumed above, if the Cholesky factor is lower triangular. *)
  Theorem C124_region cf cp co c : (forall m, v3x (col2 (llt m)) = 0 /\ v3y (col2 (llt m)) = 0) -> remove_outliers cf = true ->
    exists lim, limits (outlier_region cf cp co c) = Some lim /\ 0 <= fst lim /\ 0 <= snd lim /\
      let p := sigma_points cp (outliers_position cf) in fst lim = mlen (mmult p p) /\ snd lim = v3z (col2 (sigma_points cp (outliers_orientation cf))) ^ 2.
  Proof using Type.
    intros Hll Hr. unfold outlier_region. rewrite Hr. eexists. split; [reflexivity|]. cbn [fst snd]. split; [apply sqrt_pos|]. cbv zeta. cut (v3z (col2 (mmult (sigma_points cp (outliers_orientation cf)) (sigma_points cp (outliers_orientation cf)))) = v3z (col2 (sigma_points cp (outliers_orientation cf))) ^ 2).
    { intros E. rewrite E. split; [apply pow2_ge_0|done]. }
    unfold mmult, sigma_points. cbn [col0 col1 col2]. destruct (Hll cp) as [Hx Hy]. set (c2 := vscale (IZR (n_sigma (outliers_orientation cf))) (col2 (llt cp))).
    assert (v3x c2 = 0) as H0 by (unfold c2; cbn; rewrite Hx; ring). assert (v3y c2 = 0) as H1 by (unfold c2; cbn; rewrite Hy; ring).
    assert (forall r, v3x (vscale r (V3 0 0 1)) = 0 /\ v3y (vscale r (V3 0 0 1)) = 0) as H2. { intros r. cbn. split; ring. }
    assert (v3x (bounded (outliers_orientation cf) (V3 0 0 1) c2) = 0 /\ v3y (bounded (outliers_orientation cf) (V3 0 0 1) c2) = 0) as [K1 K2].
    { unfold bounded. cbv zeta. repeat case_match; try apply H2; done. }
    set (d := bounded (outliers_orientation cf) (V3 0 0 1) c2) in *. unfold mapply, vplus, vscale. cbn [v3z col2 col0 col1]. fold d. rewrite K1, K2. ring.
  Qed.

  (** * C125: samples *)
  (** ** Model *)
  (** icpConfigurationTypes.hpp:109-117 *)
  Record sampling_conf := SamplingConf { region_position : sigma_conf; region_orientation : sigma_conf }.
  (** a translation and an angle about the z axis *)
  Definition offset : Type := vec3 * R.
  (** stability.hpp:152-166; before the first search region, the members are undefined *)
  Record sampling := Sampling { last_sigma : nat; sigma_samples : list offset; pts_position : mat3; pts_orientation : mat3 }.
  (** stability.cpp:234-268, calcSigmaSamples *)
  Definition calc_sigma_samples (p o : mat3) : list offset :=
    (vzero, 0) :: concat ((fun sign => [(vscale sign (col0 p), 0); (vscale sign (col1 p), 0); (vzero, sign * vlen (col2 o))]) <$> [1; -1]).
  Inductive op := Region (cov_position cov_orientation : mat3) | Sigma | Uniform (r0 r1 r2 r3 : R).
  Definition step (cf : sampling_conf) (s : option sampling) (o : op) : out unit (option offset * option sampling) :=
    match o, s with
    (** stability.cpp:186-192, defSearchRegion *)
    | Region cp co, _ =>
      Ok (None, Some (Sampling 0 (match s with Some s => sigma_samples s | None => [] end) (sigma_points cp (region_position cf)) (sigma_points co (region_orientation cf))))
    | _, None => Bad UB
    (** stability.cpp:217-231, getSigmaSample *)
    | Sigma, Some s =>
      let l := if decide (last_sigma s = 0)%nat then calc_sigma_samples (pts_position s) (pts_orientation s) else sigma_samples s in
      let s := Sampling (last_sigma s) l (pts_position s) (pts_orientation s) in
      if decide (last_sigma s = length l) then Ok (Some (vzero, 0), Some s)
      else match l !! last_sigma s with
           | Some f => Ok (Some f, Some (Sampling (S (last_sigma s)) l (pts_position s) (pts_orientation s)))
           | None => Throw tt
           end
    (** stability.cpp:194-215, getUniformSample; the random numbers are arguments *)
    | Uniform r0 r1 r2 r3, Some s =>
      let t := vplus (vplus (vplus vzero (vscale r0 (col0 (pts_position s)))) (vscale r1 (col1 (pts_position s)))) (vscale r2 (col2 (pts_position s))) in
      Ok (Some (V3 (v3x t) (v3y t) 0, r3 * vlen (col2 (pts_orientation s))), Some s)
    end.
  Fixpoint run (cf : sampling_conf) (s : option sampling) (os : list op) : out unit (list (option offset) * option sampling) :=
    match os with
    | [] => Ok ([], s)
    | o :: os => r <~ step cf s o ;; r' <~ run cf (snd r) os ;; Ok (fst r :: fst r', snd r')
    end.

  (** ** Specification *)
  (** the offsets asked for one after the other: none, the first two columns for the position and the angle, the same with the other sign, then none *)
  Definition expected (p o : mat3) (k : nat) : offset :=
    match k with
    | 1%nat => (col0 p, 0) | 2%nat => (col1 p, 0) | 3%nat => (vzero, vlen (col2 o))
    | 4%nat => (vscale (-1) (col0 p), 0) | 5%nat => (vscale (-1) (col1 p), 0) | 6%nat => (vzero, - vlen (col2 o))
    | _ => (vzero, 0)
    end.
  Definition is_sigma (o : op) : bool := match o with Sigma => true | _ => false end.
  Definition is_region (o : op) : bool := match o with Region _ _ => true | _ => false end.
  Definition unit_range (r : R) : Prop := -1 <= r <= 1.

  (** ** Proofs *)
  Lemma samples_expected p o k : (k < 7)%nat -> calc_sigma_samples p o !! k = Some (expected p o k).
  Proof using Type.
    intros H. assert (forall v, vscale 1 v = v) as E. { intros [x y z]. unfold vscale. cbn. f_equal; ring. }
    unfold calc_sigma_samples. cbn [fmap list_fmap concat app]. rewrite !E, Rmult_1_l. replace (-1 * vlen (col2 o)) with (- vlen (col2 o)) by ring. do 7 (destruct k as [|k]; [done|]). lia. Qed.
  Lemma samples_length p o : length (calc_sigma_samples p o) = 7%nat.
  Proof using Type. done. Qed.
  Lemma run_sigma cf os : forall s, (last_sigma s = 0 \/ sigma_samples s = calc_sigma_samples (pts_position s) (pts_orientation s))%nat -> (last_sigma s <= 7)%nat -> Forall (fun o => is_region o = false) os ->
    exists rs s', run cf (Some s) os = Ok (rs, s') /\ length rs = length os /\ forall i, os !! i = Some Sigma -> rs !! i = Some (Some (expected (pts_position s) (pts_orientation s) (last_sigma s + length (List.filter is_sigma (take i os))))).
  Proof using Type.
    induction os as [|o os IH]; intros s Hs Hl Hn.
    { exists [], (Some s). split; [done|]. split; [done|]. intros i Hi. by rewrite lookup_nil in Hi. }
    apply Forall_cons in Hn as [Ho Hn]. destruct o as [cp co| |r0 r1 r2 r3]; [done| |].
    - assert ((if decide (last_sigma s = 0)%nat then calc_sigma_samples (pts_position s) (pts_orientation s) else sigma_samples s) = calc_sigma_samples (pts_position s) (pts_orientation s)) as El.
      { case_decide; [done|]. destruct Hs; [lia|done]. }
      cbn [run step]. cbv zeta. rewrite El. clear El. cbn [last_sigma pts_position pts_orientation]. rewrite samples_length. case_decide as Hd.
      + cbn [obind fst snd]. destruct (IH (Sampling (last_sigma s) (calc_sigma_samples (pts_position s) (pts_orientation s)) (pts_position s) (pts_orientation s))) as (rs & s' & Er & Elen & Hr); [by right|done|done|].
        rewrite Er. cbn [obind fst snd]. eexists _, _. split; [done|]. split; [cbn; lia|]. intros [|i] Hi.
        * cbn [lookup list_lookup take List.filter length]. rewrite Hd. done.
        * change (os !! i = Some Sigma) in Hi. change (rs !! i = Some (Some (expected (pts_position s) (pts_orientation s) (last_sigma s + length (List.filter is_sigma (take (S i) (Sigma :: os))))))). rewrite (Hr i Hi). cbn [last_sigma pts_position pts_orientation]. cbn [take List.filter is_sigma length]. rewrite Hd. do 2 f_equal.
      + rewrite samples_expected by lia. cbn [obind fst snd]. destruct (IH (Sampling (S (last_sigma s)) (calc_sigma_samples (pts_position s) (pts_orientation s)) (pts_position s) (pts_orientation s))) as (rs & s' & Er & Elen & Hr); [by right|cbn; lia|done|].
        rewrite Er. cbn [obind fst snd]. eexists _, _. split; [done|]. split; [cbn; lia|]. intros [|i] Hi.
        * cbn [lookup list_lookup take List.filter length]. by rewrite Nat.add_0_r.
        * change (os !! i = Some Sigma) in Hi. change (rs !! i = Some (Some (expected (pts_position s) (pts_orientation s) (last_sigma s + length (List.filter is_sigma (take (S i) (Sigma :: os))))))). rewrite (Hr i Hi). cbn [last_sigma pts_position pts_orientation]. cbn [take List.filter is_sigma length]. do 3 f_equal. lia.
    - cbn [run step obind fst snd]. destruct (IH s Hs Hl Hn) as (rs & s' & Er & Elen & Hr). cbn [obind fst snd]. rewrite Er. cbn [obind fst snd]. eexists _, _. split; [done|]. split; [cbn; lia|]. intros [|i] Hi; [done|].
      change (os !! i = Some Sigma) in Hi. change (rs !! i = Some (Some (expected (pts_position s) (pts_orientation s) (last_sigma s + length (List.filter is_sigma (take (S i) (Uniform r0 r1 r2 r3 :: os))))))). rewrite (Hr i Hi). done.
  Qed.
  Definition uniform_of (p o : mat3) (r0 r1 r2 r3 : R) : offset :=
    (V3 (r0 * v3x (col0 p) + r1 * v3x (col1 p) + r2 * v3x (col2 p)) (r0 * v3y (col0 p) + r1 * v3y (col1 p) + r2 * v3y (col2 p)) 0, r3 * vlen (col2 o)).
  Lemma step_keeps cf s o : (last_sigma s = 0 \/ sigma_samples s = calc_sigma_samples (pts_position s) (pts_orientation s))%nat -> (last_sigma s <= 7)%nat -> is_region o = false ->
    exists r s', step cf (Some s) o = Ok (r, Some s') /\ (last_sigma s' = 0 \/ sigma_samples s' = calc_sigma_samples (pts_position s') (pts_orientation s'))%nat /\ (last_sigma s' <= 7)%nat /\
      pts_position s' = pts_position s /\ pts_orientation s' = pts_orientation s /\ forall r0 r1 r2 r3, o = Uniform r0 r1 r2 r3 -> r = Some (uniform_of (pts_position s) (pts_orientation s) r0 r1 r2 r3).
  Proof using Type.
    intros Hs Hl Ho. destruct o as [cp co| |r0 r1 r2 r3]; [done| |].
    - assert ((if decide (last_sigma s = 0)%nat then calc_sigma_samples (pts_position s) (pts_orientation s) else sigma_samples s) = calc_sigma_samples (pts_position s) (pts_orientation s)) as El.
      { case_decide; [done|]. destruct Hs; [lia|done]. }
      cbn [step]. cbv zeta. rewrite El. clear El. cbn [last_sigma pts_position pts_orientation]. rewrite samples_length. case_decide as Hd.
      + eexists _, _. split; [done|]. split; [by right|]. done.
      + rewrite samples_expected by lia. eexists _, _. split; [done|]. split; [by right|]. cbn. split; [lia|done].
    - cbn [step]. cbv zeta. eexists _, _. split; [done|]. split; [done|]. split; [done|]. split; [done|]. split; [done|]. intros ? ? ? ? [= -> -> -> ->]. unfold uniform_of, vplus, vscale, vzero. cbn [v3x v3y v3z]. do 3 f_equal; ring.
  Qed.
  Lemma run_uniform cf os : forall s, (last_sigma s = 0 \/ sigma_samples s = calc_sigma_samples (pts_position s) (pts_orientation s))%nat -> (last_sigma s <= 7)%nat -> Forall (fun o => is_region o = false) os ->
    exists rs s', run cf (Some s) os = Ok (rs, s') /\ forall i r0 r1 r2 r3, os !! i = Some (Uniform r0 r1 r2 r3) -> rs !! i = Some (Some (uniform_of (pts_position s) (pts_orientation s) r0 r1 r2 r3)).
  Proof using Type.
    induction os as [|o os IH]; intros s Hs Hl Hn.
    { exists [], (Some s). split; [done|]. intros i r0 r1 r2 r3 Hi. by rewrite lookup_nil in Hi. }
    apply Forall_cons in Hn as [Ho Hn]. destruct (step_keeps cf s o Hs Hl Ho) as (r & s' & E & H1 & H2 & H3 & H4 & H5). destruct (IH s' H1 H2 Hn) as (rs & s'' & E' & Hr).
    exists (r :: rs), s''. cbn [run]. rewrite E. cbn [obind fst snd]. rewrite E'. split; [done|]. intros [|i] r0 r1 r2 r3 Hi.
    - injection Hi as ->. cbn. by rewrite (H5 r0 r1 r2 r3).
    - change (os !! i = Some (Uniform r0 r1 r2 r3)) in Hi. change (rs !! i = Some (Some (uniform_of (pts_position s) (pts_orientation s) r0 r1 r2 r3))). rewrite (Hr _ _ _ _ _ Hi), H3, H4. done.
  Qed.
  Lemma coord_le v : Rabs (v3x v) <= vlen v /\ Rabs (v3y v) <= vlen v /\ Rabs (v3z v) <= vlen v.
  Proof using Type.
    pose proof (vlen_square v) as Hq. pose proof (vlen_nonneg v) as Hn. pose proof (pow2_ge_0 (v3x v)) as Px. pose proof (pow2_ge_0 (v3y v)) as Py. pose proof (pow2_ge_0 (v3z v)) as Pz. cbn [pow] in Px, Py, Pz.
    assert (forall a, a * a <= vlen v * vlen v -> Rabs a <= vlen v) as K.
    { intros a Ha. rewrite <- (Rabs_pos_eq (vlen v)) by done. apply Rsqr_le_abs_0. unfold Rsqr. lra. }
    repeat split; apply K; lra. Qed.
  Lemma three_le r0 r1 r2 a b c x y z : unit_range r0 -> unit_range r1 -> unit_range r2 -> Rabs x <= a -> Rabs y <= b -> Rabs z <= c -> Rabs (r0 * x + r1 * y + r2 * z) <= a + b + c.
  Proof using Type.
    intros H0 H1 H2 Hx Hy Hz. assert (forall r t m, unit_range r -> Rabs t <= m -> Rabs (r * t) <= m) as K.
    { intros r t m [Hr1 Hr2] Ht. rewrite Rabs_mult. assert (Rabs r <= 1) by (apply Rabs_le; lra). pose proof (Rabs_pos t). pose proof (Rabs_pos r). nra. }
    pose proof (Rabs_triang (r0 * x + r1 * y) (r2 * z)). pose proof (Rabs_triang (r0 * x) (r1 * y)). pose proof (K r0 x a H0 Hx). pose proof (K r1 y b H1 Hy). pose proof (K r2 z c H2 Hz). lra. Qed.
  Lemma vlen_scale r e : vlen e = 1 -> 0 <= r -> vlen (vscale r e) = r.
  Proof using Type.
    intros He Hr. pose proof (vlen_square e) as Hs. rewrite He in Hs. unfold vlen, vscale. cbn [v3x v3y v3z].
    replace (r * v3x e * (r * v3x e) + r * v3y e * (r * v3y e) + r * v3z e * (r * v3z e)) with (r * r * (v3x e * v3x e + v3y e * v3y e + v3z e * v3z e)) by ring. rewrite <- Hs. replace (r * r * (1 * 1)) with (r * r) by ring. by apply sqrt_square. Qed.
  Lemma axis_lengths : vlen (V3 1 0 0) = 1 /\ vlen (V3 0 1 0) = 1 /\ vlen (V3 0 0 1) = 1.
  Proof using Type. unfold vlen. cbn [v3x v3y v3z]. repeat split; (match goal with |- sqrt ?x = 1 => replace x with 1 by ring end); apply sqrt_1. Qed.
  Lemma bounded_ok cf e v : vlen e = 1 -> 0 <= max_norm cf ->
    vlen (bounded cf e v) <= max_norm cf /\ (0 <= min_norm cf <= max_norm cf -> min_norm cf <= vlen (bounded cf e v)) /\ (min_norm cf <= vlen v <= max_norm cf -> bounded cf e v = v).
  Proof using Type.
    intros He Hm. unfold bounded. cbv zeta. destruct (rlt (vlen v) (min_norm cf)) eqn:E1.
    - apply rlt_true in E1. pose proof (vlen_nonneg v). assert (vlen (vscale (min_norm cf) e) = min_norm cf) as E2 by (apply vlen_scale; [done|lra]). rewrite E2. destruct (rgt (min_norm cf) (max_norm cf)) eqn:E3.
      + apply rgt_true in E3. rewrite vlen_scale by done. repeat split; intros; lra.
      + apply rgt_false in E3. rewrite E2. repeat split; intros; lra.
    - apply rlt_false in E1. destruct (rgt (vlen v) (max_norm cf)) eqn:E3.
      + apply rgt_true in E3. rewrite vlen_scale by done. repeat split; intros; lra.
      + apply rgt_false in E3. repeat split; intros; try lra. Qed.

  (** ** C125 *)
  (** The columns of the sigma points are within the limits for their lengths, and are multiples of those of the Cholesky factor where these are within them. *)
  Theorem C125_columns m cf (col : mat3 -> vec3) : col = col0 \/ col = col1 \/ col = col2 -> 0 <= max_norm cf ->
    vlen (col (sigma_points m cf)) <= max_norm cf /\ (0 <= min_norm cf <= max_norm cf -> min_norm cf <= vlen (col (sigma_points m cf))) /\
    (min_norm cf <= vlen (vscale (IZR (n_sigma cf)) (col (llt m))) <= max_norm cf -> col (sigma_points m cf) = vscale (IZR (n_sigma cf)) (col (llt m))).
  Proof using Type. destruct axis_lengths as (A0 & A1 & A2). intros [->|[-> | ->]] Hm; apply bounded_ok; done. Qed.
  (** After a search region is set, whatever was done before and with other offsets in between, the offsets asked for are those expected, *)
  Theorem C125_sigma cf st cp co os : Forall (fun o => is_region o = false) os ->
    exists rs st', run cf st (Region cp co :: os) = Ok (None :: rs, st') /\ length rs = length os /\
      forall i, os !! i = Some Sigma -> rs !! i = Some (Some (expected (sigma_points cp (region_position cf)) (sigma_points co (region_orientation cf)) (length (List.filter is_sigma (take i os))))).
  Proof using Type.
    intros Hn. cbn [run step obind fst snd]. 
    destruct (run_sigma cf os (Sampling 0 (match st with Some s => sigma_samples s | None => [] end) (sigma_points cp (region_position cf)) (sigma_points co (region_orientation cf)))) as (rs & s' & E & Hl & Hr); [by left|cbn; lia|done|].
    rewrite E. cbn [obind fst snd]. exists rs, s'. done.
  Qed.
  (** and random ones are horizontal and within the region. *)
  Theorem C125_uniform cf st cp co os : Forall (fun o => is_region o = false) os ->
    let p := sigma_points cp (region_position cf) in let o := sigma_points co (region_orientation cf) in
    exists rs st', run cf st (Region cp co :: os) = Ok (None :: rs, st') /\
      forall i r0 r1 r2 r3, os !! i = Some (Uniform r0 r1 r2 r3) -> unit_range r0 -> unit_range r1 -> unit_range r2 -> unit_range r3 ->
        exists t a, rs !! i = Some (Some (t, a)) /\ v3z t = 0 /\ Rabs (v3x t) <= vlen (col0 p) + vlen (col1 p) + vlen (col2 p) /\ Rabs (v3y t) <= vlen (col0 p) + vlen (col1 p) + vlen (col2 p) /\ Rabs a <= vlen (col2 o) /\
          a = r3 * vlen (col2 o) /\ v3x t = r0 * v3x (col0 p) + r1 * v3x (col1 p) + r2 * v3x (col2 p) /\ v3y t = r0 * v3y (col0 p) + r1 * v3y (col1 p) + r2 * v3y (col2 p).
  Proof using Type.
    intros Hn p o. cbn [run step obind fst snd]. 
    destruct (run_uniform cf os (Sampling 0 (match st with Some s => sigma_samples s | None => [] end) (sigma_points cp (region_position cf)) (sigma_points co (region_orientation cf)))) as (rs & s' & E & Hr); [by left|cbn; lia|done|].
    rewrite E. cbn [obind fst snd]. exists rs, s'. split; [done|]. intros i r0 r1 r2 r3 Hi H0 H1 H2 H3. eexists _, _. split; [exact (Hr _ _ _ _ _ Hi)|]. cbn [pts_position pts_orientation v3x v3y v3z]. fold p o.
    split; [done|]. split; [apply three_le; try done; apply coord_le|]. split; [apply three_le; try done; apply coord_le|]. split; [|done].
    rewrite Rabs_mult. rewrite (Rabs_pos_eq (vlen (col2 o))) by apply vlen_nonneg. assert (Rabs r3 <= 1) by (apply Rabs_le; destruct H3; lra). pose proof (vlen_nonneg (col2 o)). pose proof (Rabs_pos r3). nra.
  Qed.
  (** Before a search region is set the behaviour is undefined. *)
  Theorem C125_unset_refuted cf r0 r1 r2 r3 : step cf None Sigma = Bad UB /\ step cf None (Uniform r0 r1 r2 r3) = Bad UB.
  Proof using Type. done. Qed.
  (** As it is before the limits for outliers are set. *)
  Theorem C124_unset_refuted cf ps : remove_outliers cf = true -> (min_points cf <= length ps)%nat -> cluster cf ps new_clustering = Bad UB.
  Proof using Type. intros H1 H2. unfold cluster. cbv zeta. rewrite decide_False by lia. by rewrite H1. Qed.
  (** With too few points a new clustering has variances of zero, but no mean. *)
  Theorem C124_few cf ps : (length ps < min_points cf)%nat ->
    exists c', cluster cf ps new_clustering = Ok (false, c') /\ points c' = ps /\ mean c' = None /\ cov_pos c' = Some (V3 0 0 0) /\ cov_yaw c' = Some 0.
  Proof using Type. intros H. unfold cluster. cbv zeta. rewrite decide_True by lia. by eexists. Qed.
  (** Of no points, if none are needed, there is a cluster without a mean. *)
  Theorem C124_none_refuted cf lim c : min_points cf = 0%nat -> limits c = Some lim -> exists c', cluster cf [] c = Ok (true, c') /\ mean c' = None /\ cov_pos c' = None /\ cov_yaw c' = None.
  Proof using Type. intros H1 H2. unfold cluster. cbv zeta. rewrite decide_False by (cbn; lia). cbn [limits]. rewrite H2. destruct (remove_outliers cf); [|by eexists]. cbn [length remove points]. rewrite decide_True by lia. by eexists. Qed.
End cluster.

(** ** C124: a case, and what does not hold *)
Local Notation id := Datatypes.id.
Local Notation cluster' := (cluster R id id).
Definition at_x (x a : R) : pose R := Pose R (V3 x 0 0) a.
Definition ex_points : list (pose R) := [at_x 1 0; at_x 1 0; at_x 1 0; at_x (-1) 0].
Definition ex_turned : list (pose R) := [at_x 0 0; at_x 0 1; at_x 0 (-1)].
Definition no_conf : sigma_conf := SigmaConf 1 0 10.
Definition ex_state (lim : R * R) : clustering R := Clustering R [] None None None (Some lim).
Lemma vlen_axis x : vlen (V3 x 0 0) = Rabs x.
Proof. unfold vlen. cbn [v3x v3y v3z]. replace (x * x + 0 * 0 + 0 * 0) with (Rsqr x) by (unfold Rsqr; ring). apply sqrt_Rsqr_abs. Qed.
Lemma ex_variances : variances R ex_points = V3 (3 / 4) 0 0.
Proof. unfold variances, variance, average, total, ex_points. cbn [length fold_right at_x pos v3x v3y v3z]. replace (INR 4) with 4 by (cbn; lra). f_equal; field. Qed.
Lemma ex_mean m : is_mean R id id ex_points m -> m = at_x (1 / 2) 0.
Proof. destruct m as [p r]. intros [H1 H2]. cbn [pos rot] in *. subst. unfold at_x, average, total, ex_points, id. cbn [length fold_right at_x pos rot v3x v3y v3z]. replace (INR 4) with 4 by (cbn; lra). f_equal; [f_equal; field|field]. Qed.
(** Here the limit is exceeded. All points are as far from the origin. The first is removed, although the last is farthest from the mean. *)
Lemma ex_outlier : outlier R id id (1 / 2, 0) ex_points = Some 0%nat.
Proof.
  destruct (outlier_eq R id id (1 / 2, 0) ex_points) as (m & v & Hm & Hv & E); [done|]. rewrite E. apply ex_mean in Hm as ->. rewrite ex_variances. cbn [fst]. rewrite vlen_axis, Rabs_pos_eq by lra.
  destruct (rgt (3 / 4) (1 / 2)) eqn:E1; [|apply rgt_false in E1; lra].
  assert (forall x, x = 1 \/ x = -1 -> Rabs (vlen (pos R (at_x (1 / 2) 0)) - vlen (pos R (at_x x 0))) = 1 / 2) as K.
  { intros x Hx. cbn [at_x pos]. rewrite !vlen_axis. rewrite (Rabs_pos_eq (1 / 2)) by lra. destruct Hx as [->| ->]; [rewrite (Rabs_pos_eq 1) by lra|rewrite (Rabs_left (-1)) by lra]; rewrite Rabs_left by lra; lra. }
  unfold ex_points. cbn [largest]. cbv beta. rewrite (K 1), (K (-1)) by lra. destruct (rgt (1 / 2) 0) eqn:E2; [|apply rgt_false in E2; lra]. destruct (rgt (1 / 2) (1 / 2)) eqn:E3; [apply rgt_true in E3; lra|done].
Qed.
Theorem C124_far_refuted : ~ forall lim ps i m, outlier R id id lim ps = Some i -> fst lim < vlen (variances R ps) -> is_mean R id id ps m ->
  forall p j q, ps !! i = Some p -> ps !! j = Some q -> vlen (vplus (pos R q) (vscale (-1) (pos R m))) <= vlen (vplus (pos R p) (vscale (-1) (pos R m))).
Proof.
  intros H. destruct (calc_mean_is R id id ex_points) as (m & _ & Hm); [done|]. pose proof (ex_mean m Hm) as ->.
  specialize (H (1 / 2, 0) ex_points 0%nat (at_x (1 / 2) 0) ex_outlier). rewrite ex_variances, vlen_axis in H. rewrite Rabs_pos_eq in H by lra. specialize (H ltac:(cbn; lra) Hm _ 3%nat _ eq_refl eq_refl).
  unfold vplus, vscale, at_x in H. cbn [pos v3x v3y v3z] in H. replace (0 + -1 * 0) with 0 in H by ring. rewrite !vlen_axis in H. rewrite Rabs_left, Rabs_pos_eq in H by lra. lra.
Qed.
(** Points whose angles differ by more than the limit are accepted. *)
Lemma turned_mean m : is_mean R id id ex_turned m -> m = at_x 0 0.
Proof. destruct m as [p r]. intros [H1 H2]. cbn [pos rot] in *. subst. unfold at_x, average, total, ex_turned, id. cbn [length fold_right at_x pos rot v3x v3y v3z]. replace (INR 3) with 3 by (cbn; lra). f_equal; [f_equal; field|field]. Qed.
Theorem C124_angle_refuted : ~ forall cf ps c lim c', (0 < min_points cf)%nat -> remove_outliers cf = true -> limits R c = Some lim -> 0 <= fst lim -> 0 <= snd lim -> cluster' cf ps c = Ok (true, c') ->
  variance R (fun p => rot R p) (points R c') <= snd lim.
Proof.
  intros H. set (cf := ClusterConf 2 true no_conf no_conf). set (lim := (0, 1 / 10)).
  assert (outlier R id id lim ex_turned = None) as Eo.
  { destruct (outlier_eq R id id lim ex_turned) as (m & v & Hm & (p0 & m' & Hh & Hm' & ->) & E); [done|]. rewrite E. apply turned_mean in Hm as ->. apply turned_mean in Hm' as ->. injection Hh as <-.
    assert (variances R ex_turned = V3 0 0 0) as ->. { unfold variances, variance, average, total, ex_turned. cbn [length fold_right at_x pos v3x v3y v3z]. replace (INR 3) with 3 by (cbn; lra). f_equal; field. }
    rewrite vlen_axis, Rabs_R0. unfold lim. cbn [fst snd at_x rot]. unfold id. destruct (rgt 0 0) eqn:E1; [apply rgt_true in E1; lra|]. replace ((0 - 0) ^ 2) with 0 by ring. destruct (rgt 0 (1 / 10)) eqn:E2; [apply rgt_true in E2; lra|done]. }
  assert (cluster' cf ex_turned (ex_state lim) = Ok (true, update R id id (Clustering R ex_turned None None None (Some lim)))) as E.
  { unfold cluster. cbv zeta. rewrite decide_False by (cbn; lia). cbn [cf remove_outliers limits ex_state length ex_turned]. cbn [remove]. rewrite decide_True by (cbn; lia). change (points R (update R id id ?c)) with (points R c). cbn [points mean cov_pos cov_yaw limits].
    fold ex_turned. by rewrite Eo. }
  specialize (H cf ex_turned (ex_state lim) lim _ ltac:(cbn; lia) eq_refl eq_refl ltac:(cbn; lra) ltac:(cbn; lra) E). change (points R (update R id id ?c)) with (points R c) in H. cbn [points] in H.
  unfold variance, average, total, ex_turned, lim in H. cbn [length fold_right at_x rot snd] in H. replace (INR 3) with 3 in H by (cbn; lra). lra.
Qed.
(** The covariance of the orientation does not count for its limit. *)
Theorem C124_orientation_refuted : ~ forall cf cp co (c : clustering R) lim, remove_outliers cf = true -> limits R (outlier_region R id cf cp co c) = Some lim ->
  snd lim = v3z (col2 (mmult (sigma_points id co (outliers_orientation cf)) (sigma_points id co (outliers_orientation cf)))).
Proof.
  intros H. set (cf := ClusterConf 2 true no_conf no_conf). set (I3 := M3 (V3 1 0 0) (V3 0 1 0) (V3 0 0 1)). set (Z3 := M3 vzero vzero vzero).
  pose proof (H cf Z3 Z3 (new_clustering R) _ eq_refl eq_refl) as H1. pose proof (H cf Z3 I3 (new_clustering R) _ eq_refl eq_refl) as H2. cbn [snd] in H1, H2. cbn [cf outliers_orientation] in H1, H2. rewrite H1 in H2 || idtac.
  destruct axis_lengths as (A0 & A1 & A2).
  assert (forall e, vlen e = 1 -> bounded no_conf e (vscale 1 e) = e) as K. { intros [x y z] He. assert (vscale 1 (V3 x y z) = V3 x y z) as -> by (unfold vscale; cbn; f_equal; ring). apply bounded_ok; [done|cbn; lra|cbn; rewrite He; lra]. }
  assert (sigma_points id I3 no_conf = I3) as E1. { unfold sigma_points, id. cbv zeta. cbn [I3 col0 col1 col2 no_conf n_sigma]. fold no_conf. rewrite !K by done. done. }
  assert (forall e, bounded no_conf e (vscale 1 vzero) = vzero) as K0.
  { intros e. assert (vscale 1 vzero = vzero) as -> by (unfold vscale, vzero; cbn; f_equal; ring). assert (vlen vzero = 0) as E0. { unfold vzero. rewrite vlen_axis. apply Rabs_R0. }
    unfold bounded. cbv zeta. rewrite E0. cbn [no_conf min_norm max_norm]. destruct (rlt 0 0) eqn:Ea; [apply rlt_true in Ea; lra|]. rewrite E0. destruct (rgt 0 10) eqn:Eb; [apply rgt_true in Eb; lra|done]. }
  assert (sigma_points id Z3 no_conf = Z3) as E2. { unfold sigma_points, id. cbv zeta. cbn [Z3 col0 col1 col2 no_conf n_sigma]. fold no_conf. rewrite !K0. done. }
  rewrite E1, ?E2 in H2. unfold mmult, mapply, vplus, vscale, I3, Z3, vzero in H2. cbn [col0 col1 col2 v3x v3y v3z] in H2. lra.
Qed.
(** The case of above with three points needed: the first is removed, the rest are within the limit. *)
Example C124_few_nonvacuous : (length ex_points < min_points (ClusterConf 5 true no_conf no_conf))%nat.
Proof. cbn. lia. Qed.
Example C124_nonvacuous : (0 < min_points (ClusterConf 4 true no_conf no_conf))%nat /\ limits R (ex_state (1 / 2, 0)) = Some (1 / 2, 0) /\
  exists c', cluster' (ClusterConf 4 true no_conf no_conf) ex_points (ex_state (1 / 2, 0)) = Ok (false, c') /\ points R c' = [at_x 1 0; at_x 1 0; at_x (-1) 0] /\ mean R c' = Some (at_x (1 / 2) 0).
Proof.
  split; [cbn; lia|]. split; [done|]. unfold cluster. cbv zeta. rewrite decide_False by (cbn; lia). cbn [remove_outliers limits ex_state length ex_points]. cbn [remove]. rewrite decide_True by (cbn; lia). change (points R (update R id id ?c)) with (points R c). cbn [points]. fold ex_points.
  rewrite ex_outlier. cbn [remove]. rewrite decide_False by (cbn; lia). eexists. split; [done|]. split; [done|]. cbn [mean update points].
  destruct (calc_mean_is R id id ex_points) as (m & E & Hm); [done|]. fold ex_points. rewrite E. f_equal. by apply ex_mean.
Qed.

(** ** C125: a case, and what does not hold *)
Definition tilted : mat3 := M3 (V3 1 0 1) (V3 0 1 0) (V3 0 0 1).
Definition ex_sampling : sampling_conf := SamplingConf no_conf no_conf.
Lemma tilted_points : sigma_points id tilted no_conf = tilted.
Proof.
  destruct axis_lengths as (A0 & A1 & A2). assert (forall v e, vlen e = 1 -> 0 <= vlen v <= 10 -> bounded no_conf e (vscale 1 v) = v) as K.
  { intros [x y z] e He Hv. assert (vscale 1 (V3 x y z) = V3 x y z) as -> by (unfold vscale; cbn; f_equal; ring). apply bounded_ok; [done|cbn; lra|done]. }
  assert (0 <= vlen (V3 1 0 1) <= 10) as Hv. { split; [apply vlen_nonneg|]. unfold vlen. cbn [v3x v3y v3z]. rewrite <- (sqrt_square 10) by lra. apply sqrt_le_1_alt. lra. }
  unfold sigma_points, id. cbv zeta. cbn [tilted col0 col1 col2 no_conf n_sigma]. fold no_conf. rewrite !K; try done; lra.
Qed.
Example C125_nonvacuous : exists st, run id ex_sampling None [Region tilted tilted; Sigma; Uniform (1 / 2) 1 (-1) (-1); Sigma] =
  Ok ([None; Some (vzero, 0); Some (V3 (1 / 2) 1 0, -1); Some (V3 1 0 1, 0)], st).
Proof.
  destruct axis_lengths as (A0 & A1 & A2).
  assert (forall cf s o os r s' rs s'', step id cf s o = Ok (r, s') -> run id cf s' os = Ok (rs, s'') -> run id cf s (o :: os) = Ok (r :: rs, s'')) as K. { intros cf s o os r s' rs s'' E1 E2. cbn [run]. rewrite E1. cbn [obind fst snd]. rewrite E2. done. }
  assert (exists rs st, run id ex_sampling None [Region tilted tilted; Sigma; Uniform (1 / 2) 1 (-1) (-1); Sigma] = Ok (rs, st) /\ rs = [None; Some (vzero, 0); Some (V3 (1 / 2) 1 0, -1); Some (V3 1 0 1, 0)]) as (rs & st & E & ->); [|by exists st].
  eexists _, _. split.
  { eapply K; [reflexivity|]. cbn [ex_sampling region_position region_orientation]. rewrite tilted_points. eapply K; [reflexivity|]. eapply K; [reflexivity|]. eapply K; [reflexivity|]. reflexivity. }
  unfold tilted, vplus, vscale, vzero. cbn [v3x v3y v3z col0 col1 col2 pts_orientation pts_position]. rewrite A2. repeat f_equal; ring || lra.
Qed.
(** Although the z axis is to be ignored, there are offsets along it. *)
Theorem C125_level_refuted : ~ forall llt cf cp co os rs st t a, run llt cf None (Region cp co :: os) = Ok (rs, st) -> Some (t, a) ∈ rs -> v3z t = 0.
Proof.
  intros H. destruct C125_nonvacuous as (st & E). specialize (H _ _ _ _ _ _ _ (V3 1 0 1) 0 E). cbn in H. assert (1 = 0) by (apply H; do 3 right; by left). lra.
Qed.
