(** Scaling the weights of surface patches (C145): src/maps/MLSPatch.hpp:396-414, src/maps/MLSGrid.cpp:682-695.

    Numbers and the class [numeric::PlaneFitting] are those of MlsSum.v; [scale] of that class, which is not part of the code base, multiplies all its sums. *)
From stdpp Require Import prelude gmap.
From Coq Require Import Reals Lra.
From Verif Require Import Base MlsModel MlsProps MlsUpdate MlsPatch MlsSum.
From Verif Require ListGrid ListGridProps.
Local Open Scope R_scope.

(** ** Model *)
Definition scale_extra (f : R) (e : extra) : extra := Extra (ex e * f) (ey e * f) (exx e * f) (eyy e * f) (exy e * f) (exz e * f) (eyz e * f).
(** MLSPatch.hpp:401-404 *)
Definition get_weight (q : MlsSum.spatch) : R := sn (body q).
(** MLSPatch.hpp:410-414 *)
Definition scale_weight (f : R) (q : MlsSum.spatch) : MlsSum.spatch :=
  let p := body q in
  MlsSum.SPatch (Patch (mean p) (stdev p) (height p) (pmin p) (pmax p) (cnt p) (normsq p * (f * f)) (sz p * f) (szz p * f) (sn p * f) (idx p) (typ p)) (scale_extra f (more q)).
(** MLSGrid.cpp:682-695 *)
Definition scale_weights (f : R) (s : mls MlsSum.spatch) : mls MlsSum.spatch :=
  foldl (fun s xy => with_cell xy.1 xy.2 (scale_weight f <$> m_cell s xy.1 xy.2) s) s (cells_of s).

(** ** Specification *)
(** The solver of the plane fit: multiplying all weights leaves the plane and multiplies the residuals. *)
Definition homogeneous (solve : R * R * R * extra -> R * R) : Prop :=
  forall f n z zz x y xx yy xy xz yz, 0 < f -> let r := solve (n, z, zz, Extra x y xx yy xy xz yz) in
    solve (n * f, z * f, zz * f, Extra (x * f) (y * f) (xx * f) (yy * f) (xy * f) (xz * f) (yz * f)) = (r.1, r.2 * f).
(** same surface: everything but the weights, and the deviation only if [dev] *)
Definition same_surface (dev : bool) (p q : MlsSum.spatch) : Prop :=
  mean (body p) = mean (body q) /\ (dev = true -> stdev (body p) = stdev (body q)) /\ height (body p) = height (body q) /\ pmin (body p) = pmin (body q) /\ pmax (body p) = pmax (body q) /\
  cnt (body p) = cnt (body q) /\ idx (body p) = idx (body q) /\ typ (body p) = typ (body q).

(** ** Proofs *)
Lemma scale_loop f l : NoDup l -> forall s, let s' := foldl (fun s xy => with_cell xy.1 xy.2 (scale_weight f <$> m_cell s xy.1 xy.2) s) s l in
  m_w s' = m_w s /\ m_h s' = m_h s /\ m_count s' = m_count s /\ m_index s' = m_index s /\ m_extents s' = m_extents s /\
  forall x y, m_cell s' x y = if decide ((x, y) ∈ l) then scale_weight f <$> m_cell s x y else m_cell s x y.
Proof.
  induction 1 as [|[a b] l Hn Hd IH]; intros s; cbn [foldl].
  { do 5 (split; [done|]). intros x y. rewrite decide_False; [done|]. by intros ?%elem_of_nil. }
  destruct (IH (with_cell a b (scale_weight f <$> m_cell s a b) s)) as (H1&H2&H3&H4&H5&H6). cbn [fst snd]. do 5 (split; [done|]).
  intros x y. rewrite H6. unfold with_cell. cbn [m_cell]. unfold set_cell. destruct (decide (x = a /\ y = b)) as [[-> ->]|Hxy].
  - rewrite decide_False by done. rewrite decide_True; [done|left].
  - destruct (decide ((x, y) ∈ l)) as [Hin|Hin]; [rewrite decide_True; [done|by right]|]. rewrite decide_False; [done|]. intros [Heq|]%elem_of_cons; [|done]. injection Heq as -> ->. by apply Hxy.
Qed.
Lemma coords_nodup w h : NoDup (ListGrid.coords w h).
Proof. apply ListGridProps.NoDup_coords. Qed.
Lemma coords_in w h x y : (x, y) ∈ ListGrid.coords w h <-> (x < w)%nat /\ (y < h)%nat.
Proof. apply ListGridProps.elem_of_coords. Qed.
(** Every patch of the map gets its weight multiplied, once, and is the same surface as before; there are no other patches, and nothing else changes. *)
Theorem C145_all f s x y : (x < m_w s)%nat -> (y < m_h s)%nat -> let s' := scale_weights f s in
  m_w s' = m_w s /\ m_h s' = m_h s /\ m_count s' = m_count s /\ m_index s' = m_index s /\ m_extents s' = m_extents s /\
  Forall2 (fun p p' => same_surface true p' p /\ get_weight p' = get_weight p * f) (m_cell s x y) (m_cell s' x y).
Proof.
  intros Hx Hy. destruct (scale_loop f (cells_of s) (coords_nodup _ _) s) as (H1&H2&H3&H4&H5&H6). cbv zeta. unfold scale_weights. do 5 (split; [done|]). rewrite H6, decide_True by (by apply coords_in).
  apply Forall2_fmap_r, Forall_Forall2_diag, Forall_true. intros p. by repeat split.
Qed.
Lemma scale_extra_twice f g e : scale_extra g (scale_extra f e) = scale_extra (f * g) e.
Proof. unfold scale_extra. cbn. f_equal; lra. Qed.
Lemma scale_twice f g p : scale_weight g (scale_weight f p) = scale_weight (f * g) p.
Proof. unfold scale_weight. cbn [body more mean stdev height pmin pmax cnt normsq sz szz sn idx typ]. rewrite scale_extra_twice. f_equal. f_equal; lra. Qed.
(** Scaling twice is scaling by the product, and scaling by one changes nothing. *)
Theorem C145_twice f g s x y : (x < m_w s)%nat -> (y < m_h s)%nat -> m_cell (scale_weights g (scale_weights f s)) x y = m_cell (scale_weights (f * g) s) x y /\ m_cell (scale_weights 1 s) x y = m_cell s x y.
Proof.
  intros Hx Hy. destruct (scale_loop f (cells_of s) (coords_nodup _ _) s) as (H1&H2&_&_&_&H6).
  destruct (scale_loop (f * g) (cells_of s) (coords_nodup _ _) s) as (_&_&_&_&_&H6'). destruct (scale_loop 1 (cells_of s) (coords_nodup _ _) s) as (_&_&_&_&_&H61).
  destruct (scale_loop g (cells_of (scale_weights f s)) (coords_nodup _ _) (scale_weights f s)) as (_&_&_&_&_&H6g).
  assert (Hin : (x, y) ∈ cells_of s) by (by apply coords_in).
  split.
  - unfold scale_weights at 1. rewrite H6g, decide_True by (unfold cells_of, scale_weights; rewrite H1, H2; by apply coords_in). unfold scale_weights. rewrite H6, H6', !decide_True by done.
    rewrite <-list_fmap_compose. apply list_fmap_ext. intros i p _. apply scale_twice.
  - unfold scale_weights. rewrite H61, decide_True by done. rewrite <-(list_fmap_id (m_cell s x y)) at 2. apply list_fmap_ext. intros i [p e] _. unfold scale_weight, scale_extra. cbn. rewrite !Rmult_1_r. by destruct p, e.
Qed.

Section Merge.
  Context (solve : R * R * R * extra -> R * R) (gap : R).
  (** Measurements made after the weights were scaled count more or less than those before: the mean is the weighted one with the scaled weights. *)
  Theorem C145_mean f l l' q q' : 0 < f -> (forall a, a ∈ l ++ l' -> 0 < m_dev a) -> collected solve gap Sum l q -> merge_all solve gap Sum (scale_weight f q) (patch_of solve <$> l') = Some q' ->
    mean (body q') = (f * total (fun a => weight a * m_z a) l + total (fun a => weight a * m_z a) l') / (f * total weight l + total weight l') /\
    get_weight q' = f * total weight l + total weight l' /\ cnt (body q') = INR (length (l ++ l')).
  Proof using Type.
    intros Hf Hl Hq. assert (Hne : l <> []) by (intros ->; done). assert (Hl1 : forall a, a ∈ l -> 0 < m_dev a) by (intros a Ha; apply Hl, elem_of_app; by left).
    assert (Hw : 0 < total weight l). { apply total_pos; [done|]. intros a Ha. unfold weight. apply Rdiv_lt_0_compat; [lra|]. pose proof (Hl1 a Ha). nra. }
    destruct (collected_ok solve gap Sum l q Hl1 Hq) as [(_&_&A3&_&A5&_&A7&_) As]. cbn [settled] in As.
    assert (Hm : mean (body q) = sz (body q) / sn (body q)) by (rewrite <-As; done).
    assert (HG : forall l' p, (forall a, a ∈ l' -> 0 < m_dev a) -> mean (body p) = sz (body p) / sn (body p) -> merge_all solve gap Sum p (patch_of solve <$> l') = Some q' ->
      mean (body q') = sz (body q') / sn (body q') /\ sz (body q') = sz (body p) + total (fun a => weight a * m_z a) l' /\ sn (body q') = sn (body p) + total weight l' /\ cnt (body q') = cnt (body p) + INR (length l')).
    { clear. induction l' as [|a l' IH]; intros p Hl Hm H.
      - injection H as <-. rewrite !total_nil. cbn. rewrite !Rplus_0_r. done.
      - change (patch_of solve <$> a :: l') with (patch_of solve a :: (patch_of solve <$> l')) in H. cbn [merge_all] in H. destruct (merge_s solve gap Sum p (patch_of solve a)) as [p1|] eqn:E; [|done].
        destruct (observe_ok solve Sum a) as [(_&_&B3&_&B5&_&B7&_) _]; [apply Hl; left|]. rewrite total_cons, total_nil in B3, B5, B7.
        cbn [merge_s] in E. unfold merge_patch, merge_sum in E. destruct (overlap _ _ _ _); [|done]. injection E as <-. apply IH in H as (I1&I2&I3&I4); [|intros; apply Hl; by right|done].
        cbn [body set_idx update_sum set_mean_stdev sz sn cnt] in I2, I3, I4. rewrite !total_cons. cbn [length]. rewrite S_INR. split; [done|]. split; [|split]; lra. }
    intros H. apply HG in H as (I1&I2&I3&I4); [|intros a Ha; apply Hl, elem_of_app; by right|].
    - cbn [scale_weight body sz sn cnt] in I2, I3, I4. rewrite A5 in I2. rewrite A7 in I3. rewrite A3, total_one in I4. rewrite app_length, plus_INR. unfold get_weight.
      rewrite (total_ext (fun a => m_z a * weight a) (fun a => weight a * m_z a)) in I2 by (intros; lra). split; [|split]; [|lra|done]. rewrite I1, I2, I3. f_equal; [lra|f_equal; lra].
    - cbn [scale_weight body mean sz sn]. rewrite Hm. rewrite A7. field. split; lra.
  Qed.
  (** If all patches are scaled, the same patches merge to the same surface with the scaled weight; the deviation too is the same with SLOPE from four measurements on. *)
  Theorem C145_same m f p o : homogeneous solve -> 0 < f -> 0 < get_weight p -> 0 < get_weight o ->
    (m = Slope -> 3 < cnt (body p) + cnt (body o) -> 3 * (normsq (body p) + normsq (body o)) < (get_weight p + get_weight o) * (get_weight p + get_weight o)) ->
    match merge_s solve gap m p o, merge_s solve gap m (scale_weight f p) (scale_weight f o) with
    | Some q, Some q' => get_weight q' = get_weight q * f /\ same_surface (match m with Sum => false | Slope => ltb 3 (cnt (body q)) end) q' q
    | None, None => True
    | _, _ => False
    end.
  Proof using Type.
    intros HS Hf Hp Ho Hn. unfold get_weight in *. destruct m; cbn [merge_s].
    - unfold merge_patch, merge_sum. cbn [scale_weight body pmin pmax]. destruct (overlap _ _ _ _); [|done]. unfold same_surface. cbn. split; [lra|]. repeat split; try done. field. split; [lra|]. assert (0 < sn (body p) * f) by (by apply Rmult_lt_0_compat). assert (0 < sn (body o) * f) by (by apply Rmult_lt_0_compat). lra.
    - specialize (Hn eq_refl). unfold merge_plane. cbn [scale_weight body pmin pmax]. destruct (overlap _ _ _ _); [|done]. unfold update_plane. cbn [scale_weight body join cnt more sn sz szz normsq].
      destruct (ltb 3 (cnt (body p) + cnt (body o))) eqn:E.
      + replace (sn (body p) * f + sn (body o) * f) with ((sn (body p) + sn (body o)) * f) by lra. replace (sz (body p) * f + sz (body o) * f) with ((sz (body p) + sz (body o)) * f) by lra.
        replace (szz (body p) * f + szz (body o) * f) with ((szz (body p) + szz (body o)) * f) by lra.
        replace (add_extra (scale_extra f (more p)) (scale_extra f (more o))) with (scale_extra f (add_extra (more p) (more o))) by (unfold add_extra, scale_extra; cbn; f_equal; lra).
        unfold scale_extra. rewrite HS by done. cbv zeta. destruct (add_extra (more p) (more o)) as [e1 e2 e3 e4 e5 e6 e7]. cbn [ex ey exx eyy exy exz eyz]. destruct (solve _) as [v r]. unfold same_surface. cbn. split; [lra|]. repeat split; try done. intros _. f_equal. f_equal.
        set (N := sn (body p) + sn (body o)) in *. set (Q := normsq (body p) + normsq (body o)) in *. assert (Hd : N * N - 3 * Q <> 0) by (apply ltb_true in E; specialize (Hn E); lra).
        replace (normsq (body p) * (f * f) + normsq (body o) * (f * f)) with (Q * (f * f)) by (unfold Q; lra). replace (N * f * (N * f) - 3 * (Q * (f * f))) with ((N * N - 3 * Q) * (f * f)) by lra. field. repeat split; try done; lra.
      + unfold same_surface. cbn. rewrite E. split; [lra|]. repeat split; try done. field. split; [lra|]. assert (0 < sn (body p) * f) by (by apply Rmult_lt_0_compat). assert (0 < sn (body o) * f) by (by apply Rmult_lt_0_compat). lra.
  Qed.
End Merge.
(** With SUM it is not (finding): merging two patches with the deviation 1 gives another deviation if the weights of both were halved before, although scaling is meant not to affect it. *)
Theorem C145_deviation_refuted solve gap : 0 < gap -> let p := patch_of solve (0%nat, (0, 0, 10), 1) in exists q q',
  merge_s solve gap Sum p p = Some q /\ merge_s solve gap Sum (scale_weight (1 / 2) p) (scale_weight (1 / 2) p) = Some q' /\ stdev (body q) = sqrt 199 /\ stdev (body q') = sqrt 398.
Proof.
  intros Hg p. assert (Hp : pmin (body p) = 10 /\ pmax (body p) = 10 /\ cnt (body p) = 1 /\ normsq (body p) = 1 /\ sz (body p) = 10 /\ szz (body p) = 100 /\ sn (body p) = 1).
  { unfold p, patch_of, observe. match goal with |- context [update_plane solve ?q] => destruct (update_plane_fields solve q) as (_&->&->&->&->&->&->&->&_) end. unfold m_z, m_dev. cbn. repeat split; try done; lra. }
  destruct Hp as (H1&H2&H3&H4&H5&H6&H7). cbn [merge_s]. unfold merge_patch, merge_sum. cbn [scale_weight body pmin pmax]. rewrite H1, H2.
  assert (HO : overlap (10 - gap) (10 + gap) 10 10 = true) by (unfold overlap; rewrite orb_true_iff, !andb_true_iff, !ltb_true; lra). rewrite HO.
  eexists _, _. split; [reflexivity|]. split; [reflexivity|]. cbn. rewrite H3, H4, H5, H6, H7. destruct (ltb 1 (1 + 1)) eqn:E; [|apply ltb_false in E; lra].
  split; f_equal; (rewrite Rmax_right; [lra|]); lra.
Qed.
Example C145_nonvacuous : homogeneous (fun '(n, z, zz, e) => (z / n, zz - z * z / n)) /\
  let solve := fun '(n, z, zz, e) => (z / n, zz - z * z / n) in
  let p := patch_of solve (0%nat, (0, 0, 10), 1) in let o := patch_of solve (1%nat, (1, 0, 12), 1) in
  exists q, collected solve 3 Sum [(0%nat, (0, 0, 10), 1); (1%nat, (1, 0, 12), 1)] q /\ exists q', merge_all solve 3 Sum (scale_weight (1 / 2) q) (patch_of solve <$> [(2%nat, (0, 0, 13), 1)]) = Some q' /\ mean (body q') = 12 /\
  let u := MlsSum.SPatch (Patch 11 1 0 10 12 2 2 22 244 2 0 HORIZONTAL) (Extra 1 0 1 0 0 12 0) in 3 < cnt (body u) + cnt (body u) /\ 3 * (normsq (body u) + normsq (body u)) < (get_weight u + get_weight u) * (get_weight u + get_weight u) /\ is_Some (merge_s solve 3 Slope u u).
Proof.
  split.
  { intros f n z zz x y xx yy xy xz yz Hf. cbn. destruct (Req_EM_T n 0) as [->|Hn]; [|f_equal; field; lra]. unfold Rdiv. rewrite Rmult_0_l, Rinv_0. f_equal; lra. }
  cbv zeta. match goal with |- exists q, collected ?s _ _ ?l _ /\ _ => set (solve := s); set (l0 := l) end.
  assert (Hl : forall a, a ∈ l0 ++ [(2%nat, (0, 0, 13), 1)] -> 0 < m_dev a). { intros a Ha. repeat (apply elem_of_cons in Ha as [->|Ha]; [cbn; lra|]). by apply elem_of_nil in Ha. }
  destruct (C102_accepted solve 3 Sum l0) as [q Hq]; [done|intros a Ha; apply Hl, elem_of_app; by left| |].
  { intros a b Ha Hb. assert (forall a, a ∈ l0 -> 10 <= m_z a <= 12) as HB. { clear. intros a Ha. repeat (apply elem_of_cons in Ha as [->|Ha]; [cbn; lra|]). by apply elem_of_nil in Ha. }
    apply HB in Ha, Hb. apply Rabs_def1; lra. }
  exists q. split; [done|]. destruct (C102_values solve 3 Sum l0 q) as (_&[L1 L2]&[G1 G2]&_); [intros a Ha; apply Hl, elem_of_app; by left|done|].
  assert (E : exists q', merge_all solve 3 Sum (scale_weight (1 / 2) q) (patch_of solve <$> [(2%nat, (0, 0, 13), 1)]) = Some q').
  { change (patch_of solve <$> [(2%nat, (0, 0, 13), 1)]) with [patch_of solve (2%nat, (0, 0, 13), 1)]. cbn [merge_all merge_s]. unfold merge_patch, merge_sum. cbn [scale_weight body pmin pmax].
    assert (HO : pmin (body (patch_of solve (2%nat, (0, 0, 13), 1))) = 13 /\ pmax (body (patch_of solve (2%nat, (0, 0, 13), 1))) = 13).
    { unfold patch_of, observe. match goal with |- context [update_plane solve ?q] => destruct (update_plane_fields solve q) as (_&->&->&_) end. done. }
    destruct HO as [-> ->]. assert (pmin (body q) <= 10) by (apply L2; left). assert (12 <= pmax (body q)) by (apply G2; right; left).
    assert (HO : overlap (pmin (body q) - 3) (pmax (body q) + 3) 13 13 = true) by (unfold overlap; rewrite orb_true_iff, !andb_true_iff, !ltb_true; lra). rewrite HO. by eexists. }
  destruct E as [q' Hq']. exists q'. split; [done|]. split.
  2:{ cbv zeta. unfold get_weight. cbn [body cnt normsq sn]. split; [lra|]. split; [lra|]. cbn [merge_s]. unfold merge_plane. cbn [body pmin pmax].
    assert (HO : overlap (10 - 3) (12 + 3) 10 12 = true) by (unfold overlap; rewrite orb_true_iff, !andb_true_iff, !ltb_true; lra). rewrite HO. by eexists. }
  destruct (C145_mean solve 3 (1 / 2) l0 [(2%nat, (0, 0, 13), 1)] q q') as [-> _]; [lra|done..|].
  unfold l0. rewrite !total_cons, !total_nil. unfold weight, m_dev, m_z. cbn. field.
Qed.
