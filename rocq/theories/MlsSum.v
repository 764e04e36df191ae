(** Collecting measurements in one surface patch with the update models SUM and SLOPE (C102): src/maps/MLSPatch.hpp.

    Numbers are real numbers, as in MlsPatch.v.  The class [numeric::PlaneFitting] is not part of the code base: its members are the weighted sums of the
    coordinates of the measurements and of their products, [update] adds them; its solver is an argument of the model.  Colours are not modelled. *)
From stdpp Require Import prelude.
From Coq Require Import Reals Lra.
From Verif Require Import Base MlsModel MlsProps MlsUpdate MlsPatch.
Local Open Scope R_scope.

(** the members of [plane] that MlsPatch.v does not have: sums of x, y, xx, yy, xy, xz, yz *)
Record extra := Extra { ex : R; ey : R; exx : R; eyy : R; exy : R; exz : R; eyz : R }.
Definition add_extra (a b : extra) : extra :=
  Extra (ex a + ex b) (ey a + ey b) (exx a + exx b) (eyy a + eyy b) (exy a + exy b) (exz a + exz b) (eyz a + eyz b).
(** a patch with all members of its [plane] *)
Record spatch := SPatch { body : patch; more : extra }.

Inductive smodel := Sum | Slope.

Section Collect.
  (** the solver: for the sums, the height of the plane at the origin and the residuals (MLSPatch.hpp:97-98, 100) *)
  Context (solve : R * R * R * extra -> R * R) (gap : R).

  (** MLSPatch.hpp:90-103 *)
  Definition update_plane (q : spatch) : spatch :=
    let p := body q in
    if ltb 3 (cnt p) then
      let '(m, res) := solve (sn p, sz p, szz p, more q) in
      let norm := sn p / (sn p * sn p - 3 * normsq p) in
      SPatch (set_mean_stdev m (sqrt (Rmax (1 / 1000000) (res * norm))) p) (more q)
    else SPatch (update_sum p) (more q).
  (** MLSPatch.hpp:64-74: the patch of one measurement (position relative to the cell, deviation); [idx] is set by its users (MLSProjection) *)
  Definition observe (i : nat) (x y z s : R) : spatch :=
    let w := 1 / (s * s) in
    update_plane (SPatch (Patch z s 0 z z 1 (1 / (s * s * s * s)) (z * w) (z * z * w) w i HORIZONTAL) (Extra (x * w) (y * w) (x * x * w) (y * y * w) (x * y * w) (x * z * w) (y * z * w))).
  (** what mergeSum and mergePlane add up (MLSPatch.hpp:229-235, 251-257) *)
  Definition join (p o : patch) : patch :=
    Patch (mean p) (stdev p) (height p) (Rmin (pmin p) (pmin o)) (Rmax (pmax p) (pmax o)) (cnt p + cnt o)
          (normsq p + normsq o) (sz p + sz o) (szz p + szz o) (sn p + sn o) (idx p) (typ p).
  (** MLSPatch.hpp:245-264 *)
  Definition merge_plane (p o : spatch) : option spatch :=
    if overlap (pmin (body p) - gap) (pmax (body p) + gap) (pmin (body o)) (pmax (body o)) then
      Some (update_plane (SPatch (join (body p) (body o)) (add_extra (more p) (more o))))
    else None.
  (** MLSPatch.hpp:362-394 for these two update models, [None] for false; mergeSum as in MlsPatch.v *)
  Definition merge_s (m : smodel) (p o : spatch) : option spatch :=
    match m with
    | Sum => match merge_patch 0 gap SUM (body p) (body o) with (true, q, _) => Some (SPatch q (more p)) | _ => None end
    | Slope => match merge_plane p o with
               | Some q => Some (SPatch (set_idx (idx (body q) `max` idx (body o))%nat (body q)) (more q))
               | None => None
               end
    end.
  (** one patch after the other is merged into the first one *)
  Fixpoint merge_all (m : smodel) (p : spatch) (l : list spatch) : option spatch :=
    match l with
    | [] => Some p
    | o :: l => match merge_s m p o with Some q => merge_all m q l | None => None end
    end.
End Collect.

(** * Specification: measurements (update index, position, deviation) *)
Notation measurement := (nat * (R * R * R) * R)%type.
Definition m_z (a : measurement) : R := a.1.2.2.
Definition m_dev (a : measurement) : R := a.2.
Definition weight (a : measurement) : R := 1 / (m_dev a * m_dev a).
Definition total {A} (f : A -> R) (l : list A) : R := foldr Rplus 0 (f <$> l).
Definition patch_of (solve : R * R * R * extra -> R * R) (a : measurement) : spatch := observe solve a.1.1 a.1.2.1.1 a.1.2.1.2 (m_z a) (m_dev a).
(** all measurements of the list end up in one patch, [q] *)
Definition collected solve gap m (l : list measurement) (q : spatch) : Prop :=
  match patch_of solve <$> l with [] => False | p :: r => merge_all solve gap m p r = Some q end.
Definition least (x : R) (l : list R) : Prop := x ∈ l /\ forall y, y ∈ l -> x <= y.
Definition greatest (x : R) (l : list R) : Prop := x ∈ l /\ forall y, y ∈ l -> y <= x.

Lemma total_nil {A} (f : A -> R) : total f [] = 0.
Proof. done. Qed.
Lemma total_cons {A} (f : A -> R) a l : total f (a :: l) = f a + total f l.
Proof. done. Qed.
Lemma total_perm {A} (f : A -> R) l l' : l ≡ₚ l' -> total f l = total f l'.
Proof. induction 1; rewrite ?total_cons; lra. Qed.
Lemma total_app {A} (f : A -> R) l l' : total f (l ++ l') = total f l + total f l'.
Proof. induction l as [|a l IH]; cbn [app]; rewrite ?total_nil, ?total_cons, ?IH; lra. Qed.
Lemma total_ext {A} (f g : A -> R) l : (forall a, a ∈ l -> f a = g a) -> total f l = total g l.
Proof. induction l as [|a l IH]; intros H; [done|]. rewrite !total_cons, (H a), IH; [done| |left]. intros b Hb. apply H. by right. Qed.
Lemma total_plus {A} (f g : A -> R) l : total (fun a => f a + g a) l = total f l + total g l.
Proof. induction l as [|a l IH]; rewrite ?total_nil, ?total_cons, ?IH; lra. Qed.
Lemma total_scale {A} (f : A -> R) k l : total (fun a => k * f a) l = k * total f l.
Proof. induction l as [|a l IH]; rewrite ?total_nil, ?total_cons, ?IH; lra. Qed.
Lemma total_pos {A} (f : A -> R) l : l <> [] -> (forall a, a ∈ l -> 0 < f a) -> 0 < total f l.
Proof.
  intros Hl H. assert (forall l, (forall a, a ∈ l -> 0 < f a) -> 0 <= total f l) as Hn.
  { clear. induction l as [|a l IH]; intros H; rewrite ?total_nil, ?total_cons; [lra|]. assert (0 < f a) by (apply H; left). assert (0 <= total f l); [|lra].
    apply IH. intros b Hb. apply H. by right. }
  destruct l as [|a l]; [done|]. rewrite total_cons. assert (0 < f a) by (apply H; left). assert (0 <= total f l); [|lra]. apply Hn. intros b Hb. apply H. by right.
Qed.
Lemma total_one {A} (l : list A) : total (fun _ => 1) l = INR (length l).
Proof. induction l as [|a l IH]; [done|]. rewrite total_cons, IH. cbn [length]. rewrite S_INR. lra. Qed.
Lemma least_unique x y l : least x l -> least y l -> x = y.
Proof. intros [H1 H2] [H3 H4]. apply Rle_antisym; auto. Qed.
Lemma greatest_unique x y l : greatest x l -> greatest y l -> x = y.
Proof. intros [H1 H2] [H3 H4]. apply Rle_antisym; auto. Qed.
Lemma least_app x y l l' : least x l -> least y l' -> least (Rmin x y) (l ++ l').
Proof.
  intros [H1 H2] [H3 H4]. split.
  - apply elem_of_app. unfold Rmin. destruct (Rle_dec x y); auto.
  - intros z [Hz%H2|Hz%H4]%elem_of_app; [pose proof (Rmin_l x y)|pose proof (Rmin_r x y)]; lra.
Qed.
Lemma greatest_app x y l l' : greatest x l -> greatest y l' -> greatest (Rmax x y) (l ++ l').
Proof.
  intros [H1 H2] [H3 H4]. split.
  - apply elem_of_app. unfold Rmax. destruct (Rle_dec x y); auto.
  - intros z [Hz%H2|Hz%H4]%elem_of_app; [pose proof (Rmax_l x y)|pose proof (Rmax_r x y)]; lra.
Qed.
Lemma one_measurement (z : R) : least z [z] /\ greatest z [z].
Proof. split; (split; [left|]); intros y ->%elem_of_list_singleton; lra. Qed.

Definition extra_total (l : list measurement) : extra :=
  let t f := total (fun a : measurement => f a.1.2.1.1 a.1.2.1.2 (m_z a) * weight a) l in
  Extra (t (fun x _ _ => x)) (t (fun _ y _ => y)) (t (fun x _ _ => x * x)) (t (fun _ y _ => y * y)) (t (fun x y _ => x * y)) (t (fun x _ z => x * z)) (t (fun _ y z => y * z)).
(** the sums over the measurements *)
Definition sums_ok (m : smodel) (l : list measurement) (q : spatch) : Prop :=
  let p := body q in
  typ p = HORIZONTAL /\ height p = 0 /\ cnt p = total (fun _ => 1) l /\ normsq p = total (fun a => weight a * weight a) l /\
  sz p = total (fun a => m_z a * weight a) l /\ szz p = total (fun a => m_z a * m_z a * weight a) l /\ sn p = total weight l /\
  idx p = foldr Nat.max 0%nat ((fun a => a.1.1) <$> l) /\ least (pmin p) (m_z <$> l) /\ greatest (pmax p) (m_z <$> l) /\
  (m = Slope -> more q = extra_total l).

Section Proofs.
  Context (solve : R * R * R * extra -> R * R) (gap : R).
  Definition settled (m : smodel) (q : spatch) : Prop :=
    match m with Sum => update_sum (body q) = body q | Slope => update_plane solve q = q end.

  Lemma update_sum_twice p : update_sum (update_sum p) = update_sum p.
  Proof. unfold update_sum, set_mean_stdev. cbn. by destruct (ltb 1 (cnt p)). Qed.
  Lemma update_plane_twice q : update_plane solve (update_plane solve q) = update_plane solve q.
  Proof.
    destruct q as [p e]. unfold update_plane. cbn [body more]. destruct (ltb 3 (cnt p)) eqn:E.
    - destruct (solve (sn p, sz p, szz p, e)) as [a b] eqn:Es. cbn [body more]. unfold set_mean_stdev. cbn. rewrite E, Es. done.
    - cbn [body more]. replace (cnt (update_sum p)) with (cnt p) by (unfold update_sum, set_mean_stdev; cbn; by destruct (ltb 1 (cnt p))).
      rewrite E. by rewrite update_sum_twice.
  Qed.
  Lemma update_plane_fields q : let p := body q in let p' := body (update_plane solve q) in
    height p' = height p /\ pmin p' = pmin p /\ pmax p' = pmax p /\ cnt p' = cnt p /\ normsq p' = normsq p /\ sz p' = sz p /\ szz p' = szz p /\ sn p' = sn p /\
    idx p' = idx p /\ typ p' = typ p /\ more (update_plane solve q) = more q.
  Proof. destruct q as [p e]. unfold update_plane. cbn [body more]. destruct (ltb 3 (cnt p)); [|done]. by destruct (solve _). Qed.

  Lemma observe_ok m a : 0 < m_dev a -> sums_ok m [a] (patch_of solve a) /\ settled m (patch_of solve a).
  Proof.
    intros Ha. unfold patch_of, observe. set (q := SPatch _ _). destruct (update_plane_fields q) as (H1&H2&H3&H4&H5&H6&H7&H8&H9&H10&H11). cbv zeta in *.
    split.
    - unfold sums_ok. cbv zeta. rewrite H1, H2, H3, H4, H5, H6, H7, H8, H9, H10, H11. unfold q. cbn [body more typ height cnt normsq sz szz sn idx pmin pmax].
      change (fmap m_z [a]) with [m_z a]. cbn [fmap list_fmap foldr]. rewrite Nat.max_0_r. unfold extra_total. rewrite !total_cons, !total_nil.
      fold (weight a). do 2 (split; [done|]). split; [lra|]. split; [unfold weight; field; lra|]. do 3 (split; [lra|]).
      split; [done|]. split; [apply one_measurement|]. split; [apply one_measurement|]. intros _. f_equal; lra.
    - destruct m; [|apply update_plane_twice]. unfold settled, update_plane, q. cbn [body more cnt].
      destruct (ltb 3 1) eqn:E; [apply ltb_true in E; lra|]. apply update_sum_twice.
  Qed.

  Lemma foldr_max_app l l' : foldr Nat.max 0%nat (l ++ l') = (foldr Nat.max 0 l `max` foldr Nat.max 0 l')%nat.
  Proof. induction l as [|a l IH]; cbn; [done|]. rewrite IH. lia. Qed.
  Lemma extra_app l l' : extra_total (l ++ l') = add_extra (extra_total l) (extra_total l').
  Proof. unfold extra_total, add_extra. cbn. by rewrite !total_app. Qed.

  Lemma join_ok m l l' p o : sums_ok m l p -> sums_ok m l' o ->
    sums_ok m (l ++ l') (SPatch (set_idx (idx (body p) `max` idx (body o))%nat (join (body p) (body o))) (match m with Sum => more p | Slope => add_extra (more p) (more o) end)).
  Proof.
    intros (A1&A2&A3&A4&A5&A6&A7&A8&A9&A10&A11) (B1&B2&B3&B4&B5&B6&B7&B8&B9&B10&B11). unfold sums_ok. cbn [body more].
    unfold join, set_idx. cbn. rewrite !total_app, !fmap_app, foldr_max_app, A1, A2, A3, A4, A5, A6, A7, A8, B3, B4, B5, B6, B7, B8.
    do 8 (split; [done|]). split; [by apply least_app|]. split; [by apply greatest_app|]. intros ->. rewrite extra_app, A11, B11; done.
  Qed.
  Lemma sums_update m l q : sums_ok m l q -> sums_ok m l (update_plane solve q).
  Proof.
    intros H. destruct (update_plane_fields q) as (H1&H2&H3&H4&H5&H6&H7&H8&H9&H10&H11). cbv zeta in *. unfold sums_ok in *. cbv zeta in *.
    by rewrite H1, H2, H3, H4, H5, H6, H7, H8, H9, H10, H11.
  Qed.
  Lemma sums_update_sum m l p e : sums_ok m l (SPatch p e) -> sums_ok m l (SPatch (update_sum p) e).
  Proof. done. Qed.

  Lemma merge_ok m l l' p o q : sums_ok m l p -> sums_ok m l' o -> merge_s solve gap m p o = Some q -> sums_ok m (l ++ l') q /\ settled m q.
  Proof.
    intros Hp Ho. pose proof (join_ok _ _ _ _ _ Hp Ho) as Hj. destruct m; cbn [merge_s].
    - unfold merge_patch, merge_sum. destruct (overlap _ _ _ _); [|done]. intros [= <-]. split.
      + apply (sums_update_sum Sum (l ++ l') _ _ Hj).
      + cbn [settled body]. apply (update_sum_twice (set_idx (idx (body p) `max` idx (body o))%nat (join (body p) (body o)))).
    - unfold merge_plane. destruct (overlap _ _ _ _); [|done]. set (u := update_plane solve (SPatch (join (body p) (body o)) (add_extra (more p) (more o)))).
      assert (Hu : SPatch (set_idx (idx (body u) `max` idx (body o))%nat (body u)) (more u) =
        update_plane solve (SPatch (set_idx (idx (body p) `max` idx (body o))%nat (join (body p) (body o))) (add_extra (more p) (more o)))).
      { unfold u, update_plane. cbn [body more]. change (cnt (set_idx _ ?x)) with (cnt x). destruct (ltb 3 (cnt (join (body p) (body o)))); [|done].
        cbn [sn sz szz set_idx]. by destruct (solve _). }
      intros [= <-]. rewrite Hu. split; [by apply sums_update|]. apply update_plane_twice.
  Qed.

  Lemma merge_all_ok m l p r q : sums_ok m l p -> settled m p -> (forall a, a ∈ r -> 0 < m_dev a) ->
    merge_all solve gap m p (patch_of solve <$> r) = Some q -> sums_ok m (l ++ r) q /\ settled m q.
  Proof.
    revert l p. induction r as [|a r IH]; intros l p Hp Hs Hr.
    - intros [= <-]. by rewrite app_nil_r.
    - change (patch_of solve <$> a :: r) with (patch_of solve a :: (patch_of solve <$> r)). cbn [merge_all].
      destruct (merge_s solve gap m p (patch_of solve a)) as [p'|] eqn:E; [|done]. intros H.
      destruct (merge_ok m l [a] p (patch_of solve a) p') as [H1 H2]; [done|apply observe_ok, Hr; left|done|].
      rewrite (cons_middle a l r), app_assoc. eapply IH; [done..| |done]. intros b Hb. apply Hr. by right.
  Qed.
  Lemma collected_ok m l q : (forall a, a ∈ l -> 0 < m_dev a) -> collected solve gap m l q -> sums_ok m l q /\ settled m q.
  Proof.
    intros Hl. unfold collected. destruct l as [|a r]; [done|]. change (patch_of solve <$> a :: r) with (patch_of solve a :: (patch_of solve <$> r)). intros H.
    destruct (observe_ok m a) as [H1 H2]; [apply Hl; left|]. eapply (merge_all_ok m [a]); [done..| |done]. intros b Hb. apply Hl. by right.
  Qed.
End Proofs.

(** * C102 *)
Section C102.
  Context (solve : R * R * R * extra -> R * R) (gap : R).

  Lemma same_sums p p' : height p = height p' -> pmin p = pmin p' -> pmax p = pmax p' -> cnt p = cnt p' -> normsq p = normsq p' -> sz p = sz p' -> szz p = szz p' -> sn p = sn p' ->
    idx p = idx p' -> typ p = typ p' -> update_sum p = update_sum p' /\ forall a b, set_mean_stdev a b p = set_mean_stdev a b p'.
  Proof. unfold update_sum, set_mean_stdev. intros -> -> -> -> -> -> -> -> -> ->. done. Qed.
  (** The order of the measurements does not matter: for SUM the patch is the same up to the unused sums of its plane, for SLOPE all of it is. *)
  Theorem C102_order m l l' q q' : l ≡ₚ l' -> (forall a, a ∈ l -> 0 < m_dev a) -> collected solve gap m l q -> collected solve gap m l' q' ->
    body q = body q' /\ (m = Slope -> q = q').
  Proof.
    intros Hp Hl H H'. assert (Hl' : forall a, a ∈ l' -> 0 < m_dev a) by (intros a; rewrite <- Hp; apply Hl).
    apply (collected_ok solve gap m l q Hl) in H as [(A1&A2&A3&A4&A5&A6&A7&A8&A9&A10&A11) As]. apply (collected_ok solve gap m l' q' Hl') in H' as [(B1&B2&B3&B4&B5&B6&B7&B8&B9&B10&B11) Bs].
    rewrite <- (total_perm _ _ _ Hp) in B3. rewrite <- (total_perm _ _ _ Hp) in B4. rewrite <- (total_perm _ _ _ Hp) in B5. rewrite <- (total_perm _ _ _ Hp) in B6. rewrite <- (total_perm _ _ _ Hp) in B7. rewrite <- A3 in B3. rewrite <- A4 in B4. rewrite <- A5 in B5. rewrite <- A6 in B6. rewrite <- A7 in B7.
    assert (B8' : idx (body q') = idx (body q)). { rewrite A8, B8. clear -Hp. induction Hp; cbn; lia. }
    assert (B9' : pmin (body q') = pmin (body q)). { apply (least_unique _ _ (m_z <$> l)); [|done]. destruct B9 as [H1 H2]. split; [by rewrite Hp|]. intros y. rewrite Hp. apply H2. }
    assert (B10' : pmax (body q') = pmax (body q)). { apply (greatest_unique _ _ (m_z <$> l)); [|done]. destruct B10 as [H1 H2]. split; [by rewrite Hp|]. intros y. rewrite Hp. apply H2. }
    assert (Hm : m = Slope -> more q' = more q).
    { intros Hm. rewrite A11, B11 by done. unfold extra_total. f_equal; symmetry; by apply total_perm. }
    assert (Hb : body q = body q').
    { destruct q as [p e], q' as [p' e']. cbn [body more] in *. destruct (same_sums p p') as [E1 E2]; [congruence..|]. destruct m; cbn [settled body] in As, Bs.
      - congruence.
      - specialize (Hm eq_refl). unfold update_plane in As, Bs. cbn [body more] in *. rewrite B3, B4, B5, B6, B7, Hm in Bs. destruct (ltb 3 (cnt p)).
        + destruct (solve _) as [v r]. apply (f_equal body) in As, Bs. cbn [body] in As, Bs. congruence.
        + apply (f_equal body) in As, Bs. cbn [body] in As, Bs. congruence. }
    split; [done|]. intros Hs. specialize (Hm Hs). destruct q, q'. cbn in *. congruence.
  Qed.

  (** Measurements that are pairwise closer than the gap are collected in one patch, in any order. *)
  Theorem C102_accepted m l : l <> [] -> (forall a, a ∈ l -> 0 < m_dev a) -> (forall a b, a ∈ l -> b ∈ l -> Rabs (m_z a - m_z b) < gap) ->
    exists q, collected solve gap m l q.
  Proof.
    intros Hn Hl Hg. destruct l as [|a r]; [done|]. unfold collected. change (patch_of solve <$> a :: r) with (patch_of solve a :: (patch_of solve <$> r)).
    assert (Hd : forall d p, sums_ok m d p -> d ⊆ a :: r -> forall s, s ⊆ a :: r -> exists q, merge_all solve gap m p (patch_of solve <$> s) = Some q).
    { intros d p Hp Hda s. revert d p Hp Hda. induction s as [|b s IH]; intros d p Hp Hda Hs; [by exists p|].
      change (patch_of solve <$> b :: s) with (patch_of solve b :: (patch_of solve <$> s)). cbn [merge_all].
      assert (Hb : b ∈ a :: r) by (apply Hs; left). pose proof (observe_ok solve m b (Hl _ Hb)) as [Ho _].
      assert (Ht : overlap (pmin (body p) - gap) (pmax (body p) + gap) (pmin (body (patch_of solve b))) (pmax (body (patch_of solve b))) = true).
      { destruct Ho as (_&_&_&_&_&_&_&_&[Ho1 _] & [Ho2 _] & _). apply elem_of_list_fmap in Ho1 as (c&->&Hc). apply elem_of_list_fmap in Ho2 as (c'&->&Hc').
        apply elem_of_list_singleton in Hc as ->. apply elem_of_list_singleton in Hc' as ->.
        destruct Hp as (_&_&_&_&_&_&_&_&[Hp1 _] & [Hp2 _] & _). apply elem_of_list_fmap in Hp1 as (c&->&Hc). apply elem_of_list_fmap in Hp2 as (c'&->&Hc').
        pose proof (Hg c b (Hda _ Hc) Hb) as H1. pose proof (Hg c' b (Hda _ Hc') Hb) as H2. apply Rabs_def2 in H1, H2.
        unfold overlap. rewrite orb_true_iff, !andb_true_iff, !ltb_true. lra. }
      assert (exists p', merge_s solve gap m p (patch_of solve b) = Some p') as [p' Hp'].
      { destruct m; cbn [merge_s]; unfold merge_patch, merge_sum, merge_plane; rewrite Ht; eauto. }
      rewrite Hp'. destruct (merge_ok solve gap m d [b] p (patch_of solve b) p') as [H1 _]; [done..|].
      apply (IH (d ++ [b]) p'); [done| |]. { intros c [Hc| ->%elem_of_list_singleton]%elem_of_app; [by apply Hda|done]. } intros c Hc. apply Hs. by right. }
    eapply (Hd [a]); [apply observe_ok, Hl; left| |]. { intros c ->%elem_of_list_singleton. left. } intros c Hc. by right.
  Qed.

  (** What the patch says: the number of measurements, the lowest and the highest one, and for SUM (and for SLOPE up to three measurements) the mean with the
      weights 1/deviation².  The variance is the unbiased weighted one plus a term that depends on the height above the origin, less the average of the
      variances of the measurements. *)
  Theorem C102_values m l q : (forall a, a ∈ l -> 0 < m_dev a) -> collected solve gap m l q ->
    cnt (body q) = INR (length l) /\ least (pmin (body q)) (m_z <$> l) /\ greatest (pmax (body q)) (m_z <$> l) /\
    (m = Sum \/ (length l <= 3)%nat ->
      mean (body q) = total (fun a => weight a * m_z a) l / total weight l /\
      (length l = 1%nat -> forall a, a ∈ l -> stdev (body q) = m_dev a) /\
      ((1 < length l)%nat -> let w := total weight l in
        let norm := w / (w * w - total (fun a => weight a * weight a) l) in
        stdev (body q) = sqrt (Rmax (1 / 1000000)
          (norm * total (fun a => weight a * ((m_z a - mean (body q)) * (m_z a - mean (body q)))) l + 2 * norm * (mean (body q) * mean (body q)) - INR (length l) / w)))).
  Proof.
    intros Hl H. assert (Hne : l <> []) by (intros ->; done). apply (collected_ok solve gap m l q Hl) in H as [(A1&A2&A3&A4&A5&A6&A7&A8&A9&A10&A11) As].
    rewrite total_one in A3. split; [done|]. split; [done|]. split; [done|]. intros Hm.
    assert (Hu : update_sum (body q) = body q).
    { destruct m; [done|]. destruct Hm as [|Hm]; [done|]. cbn [settled] in As. unfold update_plane in As. destruct (ltb 3 _) eqn:E.
      { apply ltb_true in E. rewrite A3 in E. apply le_INR in Hm. cbn in Hm. lra. } by apply (f_equal body) in As. }
    assert (Hw : 0 < total weight l).
    { apply total_pos; [done|]. intros a Ha. unfold weight. apply Rdiv_lt_0_compat; [lra|]. pose proof (Hl a Ha). nra. }
    assert (Hmean : mean (body q) = total (fun a => weight a * m_z a) l / total weight l).
    { rewrite <- Hu. cbn. rewrite A5, A7. f_equal. apply total_ext. intros. lra. }
    split; [done|]. split.
    - intros H1 a Ha. rewrite <- Hu. cbn. rewrite A3, H1. destruct (ltb 1 (INR 1)) eqn:E; [apply ltb_true in E; cbn in E; lra|].
      destruct l as [|b [|]]; [done| |done]. apply elem_of_list_singleton in Ha as ->. rewrite A7, total_cons, total_nil. pose proof (Hl b ltac:(left)).
      replace (1 / (weight b + 0)) with (m_dev b * m_dev b) by (unfold weight; field; lra). apply sqrt_square. lra.
    - intros H1. cbv zeta. set (mu := mean (body q)) in *. rewrite <- Hu at 1. cbn. rewrite A3, A4, A5, A6, A7. apply lt_INR in H1. cbn in H1.
      destruct (ltb 1 (INR (length l))) eqn:E; [|apply ltb_false in E; lra]. f_equal. f_equal.
      replace (total (fun a => m_z a * weight a) l / total weight l) with mu by (rewrite Hmean; f_equal; apply total_ext; intros; lra).
      assert (Hz : total (fun a => m_z a * weight a) l = mu * total weight l).
      { rewrite Hmean. rewrite (total_ext _ (fun a => weight a * m_z a)) by (intros; lra). field. lra. }
      assert (total (fun a => weight a * ((m_z a - mu) * (m_z a - mu))) l = total (fun a => m_z a * m_z a * weight a) l - mu * mu * total weight l) as ->; [|lra].
      rewrite (total_ext _ (fun a => m_z a * m_z a * weight a + ((-2 * mu) * (m_z a * weight a) + mu * mu * weight a))) by (intros; lra).
      rewrite total_plus, total_plus, !total_scale, Hz. lra.
  Qed.
End C102.

Definition shift (d : R) (a : measurement) : measurement := (a.1.1, (a.1.2.1, a.1.2.2 + d), a.2).
(** Raising all measurements raises the mean, the lowest and the highest one by the same amount ... *)
Theorem C102_shift solve gap m l q d q' : (forall a, a ∈ l -> 0 < m_dev a) -> m = Sum \/ (length l <= 3)%nat -> collected solve gap m l q ->
  collected solve gap m (shift d <$> l) q' -> mean (body q') = mean (body q) + d /\ pmin (body q') = pmin (body q) + d /\ pmax (body q') = pmax (body q) + d.
Proof.
  intros Hl Hm H H'. assert (Hne : l <> []) by (intros ->; done). apply C102_values in H as (_&[L1 L2] & [G1 G2] & H); [|done]. destruct (H Hm) as [Hmean _]. clear H.
  apply C102_values in H' as (_&L'&G'&H').
  2:{ intros a (b&->&Hb)%elem_of_list_fmap. by apply (Hl b). }
  destruct H' as [Hmean' _]. { destruct Hm; [by left|right]. by rewrite fmap_length. }
  assert (Ht : forall f : measurement -> R, (forall a, f (shift d a) = f a) -> total f (shift d <$> l) = total f l).
  { intros f Hf. clear -Hf. induction l as [|a l IH]; [done|]. cbn [fmap list_fmap]. rewrite !total_cons, Hf. f_equal. apply IH. }
  assert (Hw : 0 < total weight l).
  { apply total_pos; [done|]. intros a Ha. unfold weight. apply Rdiv_lt_0_compat; [lra|]. pose proof (Hl a Ha). nra. }
  split; [|split].
  - rewrite Hmean, Hmean', (Ht weight) by done.
    assert (total (fun a => weight a * m_z a) (shift d <$> l) = total (fun a => weight a * m_z a) l + d * total weight l) as ->; [|field; lra].
    clear. induction l as [|a l IH]; cbn [fmap list_fmap]; rewrite ?total_nil, ?total_cons; [lra|]. change (list_fmap _ _ (shift d) l) with (shift d <$> l). rewrite IH.
    change (weight (shift d a)) with (weight a). change (m_z (shift d a)) with (m_z a + d). lra.
  - apply (least_unique _ _ (m_z <$> (shift d <$> l))); [done|]. split.
    + apply elem_of_list_fmap in L1 as (a&->&Ha). apply elem_of_list_fmap. exists (shift d a). split; [done|]. apply elem_of_list_fmap. by exists a.
    + intros y (b&->&(a&->&Ha)%elem_of_list_fmap)%elem_of_list_fmap. change (m_z (shift d a)) with (m_z a + d).
      assert (pmin (body q) <= m_z a); [|lra]. apply L2, elem_of_list_fmap. by exists a.
  - apply (greatest_unique _ _ (m_z <$> (shift d <$> l))); [done|]. split.
    + apply elem_of_list_fmap in G1 as (a&->&Ha). apply elem_of_list_fmap. exists (shift d a). split; [done|]. apply elem_of_list_fmap. by exists a.
    + intros y (b&->&(a&->&Ha)%elem_of_list_fmap)%elem_of_list_fmap. change (m_z (shift d a)) with (m_z a + d).
      assert (m_z a <= pmax (body q)); [|lra]. apply G2, elem_of_list_fmap. by exists a.
Qed.
(** ... but not the deviation (finding; MLSPatch.hpp:83 subtracts [mean² * (n - 2)] where the sum of the squared differences needs [mean² * n]): two
    measurements with deviation 1 of the same height have the deviation sqrt 199 if the height is 10, and 1/1000 if it is 0. *)
Theorem C102_deviation_refuted solve gap m : 0 < gap -> exists l q q', (forall a, a ∈ l -> m_dev a = 1 /\ m_z a = 0) /\ length l = 2%nat /\
  collected solve gap m l q /\ collected solve gap m (shift 10 <$> l) q' /\ stdev (body q) = 1 / 1000 /\ stdev (body q') = sqrt 199.
Proof.
  intros Hg. set (a := (0%nat, (0, 0, 0), 1) : measurement). exists [a; a].
  assert (Hc : forall d, exists q, collected solve gap m (shift d <$> [a; a]) q).
  { intros d. apply C102_accepted; [done| |].
    - intros b (c&->&Hc)%elem_of_list_fmap. cbn. assert (c = a) as -> by (apply elem_of_cons in Hc as [->| ->%elem_of_list_singleton]; done). cbn. lra.
    - intros b c (b'&->&Hb)%elem_of_list_fmap (c'&->&Hcc)%elem_of_list_fmap.
      assert (b' = a) as -> by (apply elem_of_cons in Hb as [->| ->%elem_of_list_singleton]; done).
      assert (c' = a) as -> by (apply elem_of_cons in Hcc as [->| ->%elem_of_list_singleton]; done).
      rewrite Rminus_diag_eq by done. by rewrite Rabs_R0. }
  assert (Hv : forall d q, collected solve gap m (shift d <$> [a; a]) q -> stdev (body q) = sqrt (Rmax (1 / 1000000) (2 * (d * d) - 1))).
  { intros d q H. apply C102_values in H as (_&_&_&H).
    2:{ intros b (c&->&Hcc)%elem_of_list_fmap. assert (c = a) as -> by (apply elem_of_cons in Hcc as [->| ->%elem_of_list_singleton]; done). cbn. lra. }
    destruct H as (Hm&_&H); [right; cbn; lia|]. rewrite H by (cbn; lia). clear H.
    cbn [fmap list_fmap] in *. rewrite ?total_cons, ?total_nil in *. rewrite !Hm. unfold weight, m_dev, m_z. cbn. f_equal. f_equal. field. }
  destruct (Hc 0) as [q Hq]. destruct (Hc 10) as [q' Hq']. exists q, q'.
  assert (Ha : shift 0 <$> [a; a] = [a; a]). { cbn. unfold shift, a. cbn. by rewrite Rplus_0_r. }
  split. { intros b Hb. assert (b = a) as -> by (apply elem_of_cons in Hb as [->| ->%elem_of_list_singleton]; done). done. }
  split; [done|]. split; [by rewrite <- Ha|]. split; [done|]. rewrite (Hv _ _ Hq), (Hv _ _ Hq'). split.
  - rewrite Rmax_left by lra. replace (1 / 1000000) with (1 / 1000 * (1 / 1000)) by lra. apply sqrt_square. lra.
  - rewrite Rmax_right by lra. f_equal. lra.
Qed.
Example C102_nonvacuous : let l := [(1%nat, (0, 0, 3), 1); (2%nat, (1/2, 0, 4), 2); (1%nat, (0, 1/2, 7/2), 1); (3%nat, (0, 0, 3), 1)] : list measurement in
  (forall a, a ∈ l -> 0 < m_dev a) /\ (forall a b, a ∈ l -> b ∈ l -> Rabs (m_z a - m_z b) < 2) /\ l ≡ₚ reverse l /\ l <> reverse l.
Proof.
  cbv zeta. set (l := _ :: _). assert (H : Forall (fun a => 0 < m_dev a /\ 3 <= m_z a <= 4) l) by (repeat (constructor; [cbn; lra|]); constructor).
  rewrite Forall_forall in H. split; [intros a Ha; by apply H|]. split.
  - intros a b Ha%H Hb%H. apply Rabs_def1; lra.
  - split; [symmetry; apply reverse_Permutation|]. unfold l, reverse. cbn. intros E. injection E. intros. lia.
Qed.
