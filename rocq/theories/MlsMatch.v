(** Comparison of surface grids, and paths laid onto their surface (C131 - C133): src/maps/MLSGrid.cpp:73-141, 549-570, 626-680, 697-728,
    src/maps/MLSPatch.hpp:106-119, 147-150.

    Simplifications: [double] and [float] are modelled by the rational numbers; where the code divides by zero and goes on with an infinity or with
    something that is not a number the model has the result [None]. *)
From stdpp Require Import prelude list.
From Coq Require Import QArith Qcanon Qround Qabs Lqa.
From Verif Require Import Base Bresenham GridModel GridProps Transform Elevation Access.
Local Open Scope Z_scope.

(** ** Model *)
Global Instance a_cell_dec g x y : Decision (a_cell g x y).
Proof. unfold a_cell. apply _. Defined.
(** ListGrid.hpp [beginCell( xi, yi )] to [endCell()]: the patches of a cell; the array of cells is read without a check *)
Definition cell_at {S} (g : mgrid) (c : Z * Z) : out S (list spatch) := if decide (a_cell (mg_geo g) c.1 c.2) then Ok (mg_cells g c) else Bad UB.
Definition grid_cells (g : geo) : list (Z * Z) := flat_map (fun x => (fun y => (x, y)) <$> seqZ 0 (g_ny g)) (seqZ 0 (g_nx g)).
Definition variance (p : spatch) : Q := (sp_dev p * sp_dev p)%Q.

(** MLSGrid.cpp:549-570, [getNearestPatch]: the patch and its distance; [None] for the null pointer *)
Fixpoint nearest_patch (p : spatch) (l : list spatch) (best : option (spatch * Q)) : option (spatch * Q) :=
  match l with
  | [] => best
  | q :: r => nearest_patch p r (match best with
                                 | Some (_, d) => if Qlt_le_dec (distance p q) d then Some (q, distance p q) else best
                                 | None => Some (q, distance p q)
                                 end)
  end.
Definition hsum : Type := option (Q * Q).
(** MLSGrid.cpp:709-719, the body of the loop over the patches of a cell; [mine] are the patches of this map, the state is (d1, d2) *)
Definition add_patch (mine : list spatch) (p : spatch) (s : hsum) : out hsum hsum :=
  match nearest_patch p mine None with
  | None => Bad UB
  | Some (q, d) =>
    let v := (variance q + variance p)%Q in
    Ok (match s with Some (d1, d2) => if Qeq_dec v 0 then None else Some (d1 + d / v, d2 + 1 / v)%Q | None => None end)
  end.
(** MLSGrid.cpp:703-722, one cell *)
Definition height_cell (g other : mgrid) (c : Z * Z) (s : hsum) : out hsum hsum :=
  theirs <~ cell_at other c ;; mine <~ cell_at g c ;;
  match theirs, mine with
  | _ :: _, _ :: _ => iter_out (add_patch mine) theirs s
  | _, _ => Ok s
  end.
(** MLSGrid.cpp:697-728, [matchHeight]: the difference in height and its variance *)
Definition match_height (g other : mgrid) : out hsum hsum :=
  if decide (g_nx (mg_geo other) = g_nx (mg_geo g) /\ g_ny (mg_geo other) = g_ny (mg_geo g)) then
    s <~ iter_out (height_cell g other) (grid_cells (mg_geo g)) (Some (0, 0)%Q) ;;
    Ok (match s with Some (d1, d2) => if Qeq_dec d2 0 then None else Some (d1 / d2, 1 / d2)%Q | None => None end)
  else Bad Abort.

Section matching.
  Context (conv : Z -> Z).
  (** MLSGrid.cpp:424-438, the test in [get( Position, SurfacePatch, sigma )], for a patch [o] whose deviation is the root of [v] *)
  Definition fits (sigma : Q) (o : spatch) (v : Q) (p : spatch) : bool :=
    (if Qlt_le_dec 0 sigma then true else false) &&
    (if Qlt_le_dec (distance p o * distance p o) ((v + variance p) * (sigma * sigma)) then true else false) && negb (is_negative p).
  (** MLSGrid.cpp:653-667, the loop over the patches of a cell of the other map, which ends with the first match *)
  Definition cell_fits (offset : spatch) (sigma : Q) (mine theirs : list spatch) : bool :=
    existsb (fun q => existsb (fits sigma (shift_mean (sp_mean offset) q) (variance q + variance offset)) mine) theirs.
  (** MLSGrid.cpp:639-669, the position of the centre of a cell of [other] in this map *)
  Definition landing (other : mgrid) (t : aff) (c : Z * Z) : Q * Q :=
    let f := from_grid (mg_geo other) c.1 c.2 in
    let v := aapp t (Vec (Q2Qc f.1) (Q2Qc f.2) 0) in (this (vx v), this (vy v)).
  (** MLSGrid.cpp:639-671, one cell; the state is (match, count) *)
  Definition match_cell (g other : mgrid) (t : aff) (offset : spatch) (sigma : Q) (c : Z * Z) (s : nat * nat) : out unit (nat * nat) :=
    let p := landing other t c in
    match to_grid conv (mg_geo g) p.1 p.2 with
    | None => Ok s
    | Some (m, n, _, _) =>
      theirs <~ cell_at other c ;;
      Ok (match theirs with
          | [] => s
          | _ => ((s.1 + if cell_fits offset sigma (mg_cells g (m, n)) theirs then 1 else 0)%nat, S s.2)
          end)
    end.
  (** MLSGrid.cpp:637-673, the loop over the index, a [std::set]; [idx++ % sampling] is undefined for zero. The number of cells is less than 2^64. *)
  Fixpoint match_cells (g other : mgrid) (t : aff) (offset : spatch) (sampling : nat) (sigma : Q) (idx : nat) (cs : list (Z * Z)) (s : nat * nat) : out unit (nat * nat) :=
    match cs with
    | [] => Ok s
    | c :: r =>
      if decide (sampling = O) then Bad UB
      else s1 <~ (if decide (Nat.modulo idx sampling = O) then match_cell g other t offset sigma c s else Ok s) ;; match_cells g other t offset sampling sigma (S idx) r s1
    end.
  Definition ratio (s : nat * nat) : Q := if decide (s.2 = O) then 1%Q else (inject_Z (Z.of_nat s.1) / inject_Z (Z.of_nat s.2))%Q.
  (** MLSGrid.cpp:626-680, [match]; [index] is that of the other map *)
  Definition match_map (g other : mgrid) (index : option (list (Z * Z))) (t : aff) (offset : spatch) (sampling : nat) (sigma : Q) : out unit Q :=
    match index with
    | None => Throw tt
    | Some cs => s <~ match_cells g other t offset sampling sigma 0 cs (O, O) ;; Ok (ratio s)
    end.

  (** MLSPatch.hpp:147-150, [getMaxZ()] *)
  Definition top (p : spatch) : Q := (sp_mean p + sp_dev p * 2)%Q.
  (** MLSGrid.cpp:82-92 = 116-127, the top that is closest to the last height [h], with the difference *)
  Fixpoint closest_top (h : Q) (l : list spatch) (best : option (Q * Q)) : option (Q * Q) :=
    match l with
    | [] => best
    | p :: r => let d := qabs (h - top p) in
      closest_top h r (match best with
                       | Some (_, e) => if Qlt_le_dec d e then Some (top p, d) else best
                       | None => Some (top p, d)
                       end)
    end.
  (** MLSGrid.cpp:82-97 = 116-133, the new height *)
  Definition next_height (h : Q) (l : list spatch) : Q := match closest_top h l None with Some (z, _) => z | None => h end.
  (** MLSGrid.cpp:73-101, [projectPointsOnSurface] *)
  Fixpoint project_points (g : mgrid) (h zo : Q) (ps : list (Z * Z)) : out unit (list (Z * Z * Q)) :=
    match ps with
    | [] => Ok []
    | c :: r => l <~ cell_at g c ;; let h1 := next_height h l in rest <~ project_points g h1 zo r ;; Ok ((c, (h1 + zo)%Q) :: rest)
    end.
  (** MLSGrid.cpp:103-135, [projectSplineOnSurface], from the points sampled from the spline to those the new spline is laid through *)
  Fixpoint project_samples (g : mgrid) (h zo : Q) (ps : list (Q * Q * Q)) : list (Q * Q * Q) :=
    match ps with
    | [] => []
    | p :: r => match to_grid conv (mg_geo g) p.1.1 p.1.2 with
                | Some (m, n, _, _) => let h1 := next_height h (mg_cells g (m, n)) in (p.1, (h1 + zo)%Q) :: project_samples g h1 zo r
                | None => p :: project_samples g h zo r
                end
    end.
End matching.

(** ** C131: the difference in height of two maps *)
(** [q] is the first of the patches [l] that is closest to [p] *)
Definition closest (p : spatch) (l : list spatch) (q : spatch) : Prop :=
  exists l1 l2, l = l1 ++ q :: l2 /\ (forall r, r ∈ l1 -> (distance p q < distance p r)%Q) /\ (forall r, r ∈ l2 -> (distance p q <= distance p r)%Q).
(** a patch of the other map in a cell where this map has patches too *)
Definition common (g other : mgrid) (c : Z * Z) (p : spatch) : Prop := a_cell (mg_geo g) c.1 c.2 /\ mg_cells g c <> [] /\ p ∈ mg_cells other c.
Definition overlap (g other : mgrid) : list (Z * Z * spatch) :=
  flat_map (fun c => match mg_cells g c with [] => [] | _ => pair c <$> mg_cells other c end) (grid_cells (mg_geo g)).
Definition qsum (l : list Q) : Q := foldr Qplus 0%Q l.
Definition same_size (g other : mgrid) : Prop := g_nx (mg_geo other) = g_nx (mg_geo g) /\ g_ny (mg_geo other) = g_ny (mg_geo g).
(** all patches have a positive standard deviation *)
Definition uncertain (g : mgrid) : Prop := forall c p, p ∈ mg_cells g c -> (0 < sp_dev p)%Q.

Lemma elem_of_grid_cells g c : c ∈ grid_cells g <-> a_cell g c.1 c.2.
Proof.
  unfold grid_cells, a_cell. rewrite elem_of_list_In, in_flat_map. destruct c as [x y]; cbn [fst snd]. split.
  - intros (x'&Hx&Hy). apply elem_of_list_In in Hx, Hy. apply elem_of_list_fmap in Hy as (y'&Heq&Hy). injection Heq as -> ->. apply elem_of_seqZ in Hx, Hy. lia.
  - intros [Hx Hy]. exists x. rewrite <-!elem_of_list_In. split; [apply elem_of_seqZ; lia|]. apply elem_of_list_fmap. exists y. split; [done|]. apply elem_of_seqZ. lia.
Qed.
Lemma elem_of_overlap g other c p : (c, p) ∈ overlap g other <-> common g other c p.
Proof.
  unfold overlap, common. rewrite elem_of_list_In, in_flat_map. split.
  - intros (c'&Hc&Hp). apply elem_of_list_In in Hc, Hp. apply elem_of_grid_cells in Hc. destruct (mg_cells g c') eqn:E; [by apply elem_of_nil in Hp|].
    apply elem_of_list_fmap in Hp as (p'&Heq&Hp). injection Heq as -> ->. rewrite E. done.
  - intros (Hc&Hn&Hp). exists c. rewrite <-!elem_of_list_In. split; [by apply elem_of_grid_cells|]. destruct (mg_cells g c); [done|]. apply elem_of_list_fmap. eauto.
Qed.
Lemma nearest_some p l : forall l1 q l0, l0 = l1 ++ l ->
  (exists a b, l1 = a ++ q :: b /\ (forall r, r ∈ a -> (distance p q < distance p r)%Q) /\ (forall r, r ∈ b -> (distance p q <= distance p r)%Q)) ->
  exists q', nearest_patch p l (Some (q, distance p q)) = Some (q', distance p q') /\ closest p l0 q'.
Proof.
  induction l as [|r l IH]; intros l1 q l0 -> (a&b&->&Ha&Hb).
  - exists q. split; [done|]. exists a, b. by rewrite app_nil_r.
  - cbn [nearest_patch]. destruct (Qlt_le_dec (distance p r) (distance p q)) as [H|H].
    + apply (IH ((a ++ q :: b) ++ [r])); [by rewrite <-!app_assoc|]. exists (a ++ q :: b), []. split; [done|]. split; [|intros ? Hx; by apply elem_of_nil in Hx].
      intros x [Hx|[->|Hx]%elem_of_cons]%elem_of_app; [specialize (Ha x Hx); lra|lra|specialize (Hb x Hx); lra].
    + apply (IH ((a ++ q :: b) ++ [r])); [by rewrite <-!app_assoc|]. exists a, (b ++ [r]). split; [by rewrite <-app_assoc|]. split; [done|].
      intros x [Hx|Hx]%elem_of_app; [by apply Hb|]. apply elem_of_list_singleton in Hx as ->. done.
Qed.
Lemma nearest_spec p l : l <> [] -> exists q, nearest_patch p l None = Some (q, distance p q) /\ closest p l q.
Proof.
  destruct l as [|q l]; [done|]. intros _. cbn [nearest_patch]. apply (nearest_some p l [q]); [done|]. exists [], []. split; [done|].
  split; intros ? Hx; by apply elem_of_nil in Hx.
Qed.
Lemma closest_elem p l q : closest p l q -> q ∈ l /\ forall r, r ∈ l -> (distance p q <= distance p r)%Q.
Proof.
  intros (a&b&->&Ha&Hb). split; [set_solver|]. intros r [Hr|[->|Hr]%elem_of_cons]%elem_of_app; [specialize (Ha r Hr); lra|lra|by apply Hb].
Qed.
(** the pairs (distance, variance) that are summed up *)
Definition pairing (g other : mgrid) (cp : Z * Z * spatch) (dv : Q * Q) : Prop :=
  exists q, closest cp.2 (mg_cells g cp.1) q /\ dv = (distance cp.2 q, sp_dev q * sp_dev q + sp_dev cp.2 * sp_dev cp.2)%Q.
Definition sums (s : hsum) (d1 d2 : Q) : Prop := exists e1 e2, s = Some (e1, e2) /\ (e1 == d1)%Q /\ (e2 == d2)%Q.
Lemma qsum_app a b : (qsum (a ++ b) == qsum a + qsum b)%Q.
Proof. induction a as [|x a IH]; unfold qsum in *; cbn [app foldr]; [symmetry; apply Qplus_0_l|]. rewrite IH. apply Qplus_assoc. Qed.
Lemma add_patches g other c mine : mine = mg_cells g c -> mine <> [] -> (forall q, q ∈ mine -> (0 < sp_dev q)%Q) ->
  forall ps s, exists L, Forall2 (pairing g other) (pair c <$> ps) L /\ exists s', iter_out (add_patch mine) ps (Some s) = Ok (Some s') /\
    (s'.1 == s.1 + qsum ((fun dv => dv.1 / dv.2) <$> L))%Q /\ (s'.2 == s.2 + qsum ((fun dv => 1 / dv.2) <$> L))%Q.
Proof.
  intros Hm Hn Hpos. induction ps as [|p ps IH]; intros s.
  - exists []. split; [constructor|]. exists s. split; [done|]. split; symmetry; apply Qplus_0_r.
  - cbn [iter_out]. unfold add_patch at 1. destruct (nearest_spec p mine Hn) as (q&Hq&Hc). rewrite Hq. cbn [obind].
    set (v := (variance q + variance p)%Q). destruct s as [d1 d2]. destruct (Qeq_dec v 0) as [Hv|Hv].
    { exfalso. specialize (Hpos q (proj1 (closest_elem _ _ _ Hc))). unfold v, variance in Hv. nra. }
    destruct (IH (d1 + distance p q / v, d2 + 1 / v)%Q) as (L&HL&s'&Hs&H1&H2). exists ((distance p q, v) :: L). split.
    { cbn. constructor; [|done]. exists q. cbn [fst snd]. rewrite <-Hm. done. }
    exists s'. split; [exact Hs|]. cbn [fst snd] in *. unfold qsum in *. cbn [fmap list_fmap foldr fst snd]. rewrite H1, H2. split; symmetry; apply Qplus_assoc.
Qed.
Lemma height_cells g other cs : same_size g other -> uncertain g -> (forall c, c ∈ cs -> a_cell (mg_geo g) c.1 c.2) ->
  forall s, exists L, Forall2 (pairing g other) (flat_map (fun c => match mg_cells g c with [] => [] | _ => pair c <$> mg_cells other c end) cs) L /\
    exists s', iter_out (height_cell g other) cs (Some s) = Ok (Some s') /\
    (s'.1 == s.1 + qsum ((fun dv => dv.1 / dv.2) <$> L))%Q /\ (s'.2 == s.2 + qsum ((fun dv => 1 / dv.2) <$> L))%Q.
Proof.
  intros [Hx Hy] Hu. induction cs as [|c cs IH]; intros Hcs s.
  - exists []. split; [constructor|]. exists s. split; [done|]. split; symmetry; apply Qplus_0_r.
  - assert (Hc : a_cell (mg_geo g) c.1 c.2) by (apply Hcs; left). assert (Hc' : a_cell (mg_geo other) c.1 c.2) by (unfold a_cell in *; lia).
    assert (IH' := IH ltac:(intros c' Hc''; apply Hcs; by right)).
    assert (Hcell : exists L, Forall2 (pairing g other) (match mg_cells g c with [] => [] | _ => pair c <$> mg_cells other c end) L /\ exists s', height_cell g other c (Some s) = Ok (Some s') /\
      (s'.1 == s.1 + qsum ((fun dv => dv.1 / dv.2) <$> L))%Q /\ (s'.2 == s.2 + qsum ((fun dv => 1 / dv.2) <$> L))%Q).
    { unfold height_cell, cell_at. destruct (decide (a_cell (mg_geo other) c.1 c.2)); [|done]. destruct (decide (a_cell (mg_geo g) c.1 c.2)); [|done]. cbn [obind].
      destruct (mg_cells other c) as [|p ps] eqn:Eo.
      - exists []. split; [destruct (mg_cells g c); constructor|]. exists s. split; [done|]. split; symmetry; apply Qplus_0_r.
      - destruct (mg_cells g c) as [|q qs] eqn:Eg.
        + exists []. split; [constructor|]. exists s. split; [done|]. split; symmetry; apply Qplus_0_r.
        + rewrite <-Eg. apply add_patches; [done|rewrite Eg; discriminate|]. intros r Hr. by apply (Hu c). }
    destruct Hcell as (L1&HL1&s1&Hs1&H1&H2). destruct (IH' s1) as (L2&HL2&s2&Hs2&K1&K2). exists (L1 ++ L2). split; [cbn [flat_map]; by apply Forall2_app|].
    exists s2. cbn [iter_out]. rewrite Hs1. cbn [obind]. split; [exact Hs2|]. rewrite !fmap_app, !qsum_app, K1, K2, H1, H2. split; symmetry; apply Qplus_assoc.
Qed.
Lemma pairing_pos g other cp dv : uncertain g -> pairing g other cp dv -> (0 < dv.2)%Q.
Proof. intros Hu (q&Hc&->). cbn [snd]. specialize (Hu _ q (proj1 (closest_elem _ _ _ Hc))). nra. Qed.
Lemma weights_pos g other ps L : uncertain g -> Forall2 (pairing g other) ps L -> (0 <= qsum ((fun dv => 1 / dv.2) <$> L))%Q /\ (L <> [] -> (0 < qsum ((fun dv => 1 / dv.2) <$> L))%Q).
Proof.
  intros Hu. induction 1 as [|cp dv ps L Hp HL [IH _]]; [split; [cbn; lra|done]|]. pose proof (pairing_pos _ _ _ _ Hu Hp) as Hv.
  assert (0 < 1 / dv.2)%Q by (apply Qlt_shift_div_l; lra). cbn. unfold qsum in IH. split; [lra|]. intros _. lra.
Qed.
(** The result is the mean of the distances of every patch of the other map from the closest one of this map in the same cell, weighted by the inverse of the
    sum of the two variances; the second number is the variance of this mean. If no cell has patches in both maps the result is not a number. *)
Theorem C131_mean g other : same_size g other -> uncertain g ->
  exists L, Forall2 (pairing g other) (overlap g other) L /\
    ((L = [] /\ match_height g other = Ok None) \/
     exists delta var, L <> [] /\ match_height g other = Ok (Some (delta, var)) /\ (0 < var)%Q /\
       (delta * qsum ((fun dv => 1 / dv.2) <$> L) == qsum ((fun dv => dv.1 / dv.2) <$> L))%Q /\ (var * qsum ((fun dv => 1 / dv.2) <$> L) == 1)%Q).
Proof.
  intros Hs Hu. destruct (height_cells g other (grid_cells (mg_geo g)) Hs Hu (fun c => proj1 (elem_of_grid_cells _ c)) (0, 0)%Q) as (L&HL&[d1 d2]&Hi&H1&H2).
  exists L. split; [exact HL|]. destruct (weights_pos _ _ _ _ Hu HL) as [_ Hpos]. cbn [fst snd] in H1, H2. unfold match_height. rewrite decide_True by exact Hs. rewrite Hi. cbn [obind].
  destruct L as [|dv L'] eqn:EL; [left|right].
  - split; [done|]. destruct (Qeq_dec d2 0) as [_|Hn]; [done|]. exfalso. apply Hn. rewrite H2. cbn. ring.
  - rewrite <-EL in *. assert (HLn : L <> []) by (rewrite EL; discriminate). specialize (Hpos HLn). assert (Hd2 : (0 < d2)%Q) by lra.
    destruct (Qeq_dec d2 0) as [Hn|_]; [lra|]. exists (d1 / d2)%Q, (1 / d2)%Q. split; [done|]. split; [done|]. split; [apply Qlt_shift_div_l; lra|].
    assert (E2 : (qsum ((fun dv => 1 / dv.2) <$> L) == d2)%Q) by (rewrite H2; ring). assert (E1 : (qsum ((fun dv => dv.1 / dv.2) <$> L) == d1)%Q) by (rewrite H1; ring).
    rewrite E1, E2. split; field; lra.
Qed.
Lemma mean_bounds g other lo hi ps L : uncertain g -> Forall2 (pairing g other) ps L -> (forall dv, dv ∈ L -> (lo <= dv.1 /\ dv.1 <= hi)%Q) ->
  (lo * qsum ((fun dv => 1 / dv.2) <$> L) <= qsum ((fun dv => dv.1 / dv.2) <$> L) /\ qsum ((fun dv => dv.1 / dv.2) <$> L) <= hi * qsum ((fun dv => 1 / dv.2) <$> L))%Q.
Proof.
  intros Hu. induction 1 as [|cp dv ps L Hp HL IH]; intros HB; [cbn; split; lra|]. pose proof (pairing_pos _ _ _ _ Hu Hp) as Hv.
  destruct (HB dv ltac:(left)) as [B1 B2]. specialize (IH ltac:(intros d Hd; apply HB; by right)). unfold qsum in *. cbn [fmap list_fmap foldr].
  assert (Hw : (0 < 1 / dv.2)%Q) by (apply Qlt_shift_div_l; lra). assert (E : (dv.1 / dv.2 == dv.1 * (1 / dv.2))%Q) by (field; lra). rewrite E. nra.
Qed.
Lemma weight_le g other dv ps L : uncertain g -> Forall2 (pairing g other) ps L -> dv ∈ L -> (1 / dv.2 <= qsum ((fun dv => 1 / dv.2) <$> L))%Q.
Proof.
  intros Hu. induction 1 as [|cp dv' ps L Hp HL IH]; intros Hd; [by apply elem_of_nil in Hd|]. destruct (weights_pos _ _ _ _ Hu HL) as [HW _]. pose proof (pairing_pos _ _ _ _ Hu Hp) as Hv.
  assert (0 < 1 / dv'.2)%Q by (apply Qlt_shift_div_l; lra). unfold qsum in *. cbn [fmap list_fmap foldr]. apply elem_of_cons in Hd as [->|Hd]; [lra|]. specialize (IH Hd). lra.
Qed.
(** It lies between the bounds of the distances, and its variance is not above that of any of the pairs. *)
Theorem C131_bounds g other lo hi : same_size g other -> uncertain g -> (exists c p, common g other c p) ->
  (forall c p q, common g other c p -> closest p (mg_cells g c) q -> (lo <= distance p q /\ distance p q <= hi)%Q) ->
  exists delta var, match_height g other = Ok (Some (delta, var)) /\ (lo <= delta /\ delta <= hi)%Q /\ (0 < var)%Q /\
    forall c p, common g other c p -> exists q, q ∈ mg_cells g c /\ (var <= sp_dev q * sp_dev q + sp_dev p * sp_dev p)%Q.
Proof.
  intros Hs Hu (c0&p0&Hc0) HB. destruct (C131_mean g other Hs Hu) as (L&HL&[[-> _]|(delta&var&Hn&Hr&Hv&H1&H2)]).
  { apply elem_of_overlap in Hc0. apply Forall2_nil_inv_r in HL. rewrite HL in Hc0. by apply elem_of_nil in Hc0. }
  destruct (weights_pos _ _ _ _ Hu HL) as [_ Hpos]. specialize (Hpos Hn). exists delta, var. split; [done|].
  assert (HB' : forall dv, dv ∈ L -> (lo <= dv.1 /\ dv.1 <= hi)%Q).
  { intros dv Hdv. apply elem_of_list_lookup in Hdv as [i Hi]. destruct (Forall2_lookup_r _ _ _ _ _ HL Hi) as ([c p]&Hcp&q&Hq&->). cbn [fst snd] in *.
    apply (HB c p q); [|done]. apply elem_of_overlap. by eapply elem_of_list_lookup_2. }
  destruct (mean_bounds _ _ lo hi _ _ Hu HL HB') as [B1 B2]. rewrite <-H1 in B1, B2. split; [split; eapply Qmult_lt_0_le_reg_r; eassumption|]. split; [done|].
  intros c p Hcp. apply elem_of_overlap, elem_of_list_lookup in Hcp as [i Hi]. destruct (Forall2_lookup_l _ _ _ _ _ HL Hi) as (dv&Hdv&Hp).
  pose proof (weight_le _ _ dv _ _ Hu HL ltac:(by eapply elem_of_list_lookup_2)) as HW. pose proof (pairing_pos _ _ _ _ Hu Hp) as Hvp.
  destruct Hp as (q&Hq&Heq). exists q. cbn [fst snd] in Heq, Hq. split; [exact (proj1 (closest_elem _ _ _ Hq))|]. rewrite Heq in HW, Hvp. cbn [snd] in HW, Hvp.
  set (v := (sp_dev q * sp_dev q + sp_dev p * sp_dev p)%Q) in *. set (w := qsum _) in *. assert (Hvw : (1 <= v * w)%Q).
  { assert (E : (1 == v * (1 / v))%Q) by (field; lra). rewrite E at 1. nra. }
  destruct (Qlt_le_dec v var) as [Hlt|]; [|done]. exfalso. nra.
Qed.
(** the other map is this map raised by [d] *)
Definition raised (d : Q) (g other : mgrid) : Prop := mg_geo other = mg_geo g /\ forall c, mg_cells other c = shift_mean d <$> mg_cells g c.
(** every cell has at most one patch, and this is flat *)
Definition single_flat (g : mgrid) : Prop := forall c, mg_cells g c = [] \/ exists p, mg_cells g c = [p] /\ sp_kind p = KHorizontal.
(** For a map with one surface the difference in height to the same map raised by [d] is the absolute value of [d]. *)
Theorem C131_raised g other d : single_flat g -> uncertain g -> raised d g other -> (exists c p, a_cell (mg_geo g) c.1 c.2 /\ p ∈ mg_cells g c) ->
  exists delta var, match_height g other = Ok (Some (delta, var)) /\ (delta == if Qlt_le_dec d 0 then - d else d)%Q.
Proof.
  intros Hf Hu [HG HC] (c0&p0&Hc0&Hp0). assert (Hd : forall p, sp_kind p = KHorizontal -> (distance (shift_mean d p) p == if Qlt_le_dec d 0 then - d else d)%Q).
  { intros p Hp. unfold distance, flat, shift_mean, qabs. cbn [sp_kind sp_mean]. rewrite Hp. cbn [negb andb]. destruct (Qlt_le_dec _ 0), (Qlt_le_dec d 0); lra. }
  destruct (C131_bounds g other (if Qlt_le_dec d 0 then - d else d) (if Qlt_le_dec d 0 then - d else d)) as (delta&var&Hr&[B1 B2]&_).
  - unfold same_size. by rewrite HG.
  - done.
  - exists c0, (shift_mean d p0). split; [done|]. split; [intros H; rewrite H in Hp0; by apply elem_of_nil in Hp0|]. rewrite HC. by apply elem_of_list_fmap_1.
  - intros c p q (_&_&Hp) Hq. apply closest_elem in Hq as [Hq _]. rewrite HC in Hp. destruct (Hf c) as [E|(r&E&Hk)]; rewrite E in Hp, Hq; [by apply elem_of_nil in Hq|].
    apply elem_of_list_singleton in Hq as ->. apply elem_of_list_singleton in Hp as ->. rewrite (Hd r Hk). split; apply Qle_refl.
  - exists delta, var. split; [done|]. by apply Qle_antisym.
Qed.
(** So the sign is lost: of a map that lies below this one and one that lies above it the same is said. *)
Definition plain (h dev : Q) : mgrid := MGrid (Geo 2 2 1 1 0 0) (fun _ => [SPatch h dev 0 KHorizontal]) aone.
Theorem C131_sign_refuted : exists g below above r, raised (-1) g below /\ raised 1 g above /\ match_height g below = Ok (Some r) /\ match_height g above = Ok (Some r) /\ (0 < r.1)%Q.
Proof.
  exists (plain 0 1), (plain (-1) 1), (plain 1 1). eexists. split; [split; [done|intros c; reflexivity]|]. split; [split; [done|intros c; reflexivity]|].
  split; [vm_compute; reflexivity|]. split; [vm_compute; reflexivity|]. vm_compute. reflexivity.
Qed.
(** Maps that have no cell in common, and equal maps whose patches are known exactly, have no difference in height. *)
Theorem C131_apart_refuted : exists g other, same_size g other /\ uncertain g /\ uncertain other /\ match_height g other = Ok None.
Proof.
  exists (MGrid (Geo 2 1 1 1 0 0) (fun c => if decide (c = (0, 0)) then [SPatch 0 1 0 KHorizontal] else []) aone),
    (MGrid (Geo 2 1 1 1 0 0) (fun c => if decide (c = (1, 0)) then [SPatch 0 1 0 KHorizontal] else []) aone).
  split; [done|]. split; [|split; [|vm_compute; reflexivity]].
  all: intros c p; cbn; case_decide; intros Hp; [apply elem_of_list_singleton in Hp as ->; cbn; lra|by apply elem_of_nil in Hp].
Qed.
Theorem C131_exact_refuted : exists g, (exists c p, common g g c p) /\ match_height g g = Ok None.
Proof. exists (plain 3 0). split; [|vm_compute; reflexivity]. exists (0, 0), (SPatch 3 0 0 KHorizontal). split; [unfold a_cell; cbn; lia|]. split; [discriminate|left]. Qed.
Example C131_nonvacuous : exists g other, same_size g other /\ uncertain g /\ (exists c p, common g other c p) /\ single_flat g /\ raised (1 # 2) g other /\
  exists r, match_height g other = Ok (Some r) /\ (r.1 == 1 # 2)%Q /\ (r.2 == 1 # 2)%Q.
Proof.
  exists (plain 0 1), (plain (1 # 2) 1). split; [done|]. split; [intros c p Hp; apply elem_of_list_singleton in Hp as ->; cbn; lra|].
  split; [exists (1, 1), (SPatch (1 # 2) 1 0 KHorizontal); split; [unfold a_cell; cbn; lia|split; [discriminate|left]]|].
  split; [intros c; right; by eexists|]. split; [split; [done|intros c; reflexivity]|]. eexists. split; [vm_compute; reflexivity|]. split; vm_compute; reflexivity.
Qed.

(** ** C132: how well a map matches into another *)
(** every [k]-th cell of the index *)
Definition sampled (k : nat) (cs : list (Z * Z)) (c : Z * Z) : Prop := exists i, cs !! (k * i)%nat = Some c.
(** the centre of the cell [c] of [other] falls into the cell (m, n) of [g] *)
Definition lands (g other : mgrid) (t : aff) (c : Z * Z) (m n : Z) : Prop :=
  a_cell (mg_geo g) m n /\ let f := from_grid (mg_geo other) c.1 c.2 in let v := aapp t (Vec (Q2Qc f.1) (Q2Qc f.2) 0) in in_cell (mg_geo g) m n (this (vx v)) (this (vy v)).
(** a patch [q] of [other] and a patch [p] of [g] that does not stand for free space are the same within [sigma] deviations *)
Definition agree (offset : spatch) (sigma : Q) (q p : spatch) : Prop :=
  sp_kind p <> KNegative /\
  let d := distance p (shift_mean (sp_mean offset) q) in (d * d < (sp_dev q * sp_dev q + sp_dev offset * sp_dev offset + sp_dev p * sp_dev p) * (sigma * sigma))%Q.
Definition compared (g other : mgrid) (t : aff) (k : nat) (cs : list (Z * Z)) (c : Z * Z) : Prop :=
  sampled k cs c /\ mg_cells other c <> [] /\ exists m n, lands g other t c m n.
Definition found (g other : mgrid) (t : aff) (offset : spatch) (sigma : Q) (c : Z * Z) : Prop :=
  exists m n q p, lands g other t c m n /\ q ∈ mg_cells other c /\ p ∈ mg_cells g (m, n) /\ agree offset sigma q p.
(** a map whose index lists cells of the map, each once *)
Definition indexed (other : mgrid) (cs : list (Z * Z)) : Prop := NoDup cs /\ forall c, c ∈ cs -> a_cell (mg_geo other) c.1 c.2.

Lemma fits_spec sigma o v p : fits sigma o v p = true <-> (0 < sigma)%Q /\ (distance p o * distance p o < (v + sp_dev p * sp_dev p) * (sigma * sigma))%Q /\ sp_kind p <> KNegative.
Proof.
  unfold fits, is_negative, variance. destruct (Qlt_le_dec 0 sigma) as [H|H]; cbn [andb].
  - destruct (Qlt_le_dec (distance p o * distance p o) _) as [H'|H']; cbn [andb].
    + destruct (sp_kind p); cbn; naive_solver.
    + split; [done|]. intros (_&H2&_). by apply Qlt_not_le in H2.
  - split; [done|]. intros (H1&_). by apply Qlt_not_le in H1.
Qed.
Lemma cell_fits_spec offset sigma mine theirs : (0 < sigma)%Q -> cell_fits offset sigma mine theirs = true <-> exists q p, q ∈ theirs /\ p ∈ mine /\ agree offset sigma q p.
Proof.
  intros Hs. unfold cell_fits, agree. rewrite existsb_exists. setoid_rewrite existsb_exists. setoid_rewrite fits_spec. setoid_rewrite <-elem_of_list_In. unfold variance. naive_solver.
Qed.
Lemma index_cons (c c' : Z * Z) cs idx k : (exists i, (c :: cs) !! i = Some c' /\ Nat.modulo (idx + i) k = O) <->
  (c' = c /\ Nat.modulo idx k = O) \/ exists i, cs !! i = Some c' /\ Nat.modulo (S idx + i) k = O.
Proof.
  split.
  - intros ([|i]&Hi&Hm); [left|right].
    + rewrite Nat.add_0_r in Hm. injection Hi as ->. split; [reflexivity|exact Hm].
    + exists i. split; [exact Hi|]. rewrite Nat.add_succ_comm. exact Hm.
  - intros [[-> Hm]|(i&Hi&Hm)].
    + exists O. split; [reflexivity|]. rewrite Nat.add_0_r. exact Hm.
    + exists (S i). split; [exact Hi|]. rewrite <-Nat.add_succ_comm. exact Hm.
Qed.
Section ratio.
  Context (conv : Z -> Z) (g other : mgrid) (t : aff) (offset : spatch) (k : nat) (sigma : Q).
  Context (Hconv : conv_wraps conv) (Hg : usable (mg_geo g)) (Hk : (0 < k)%nat) (Hsig : (0 < sigma)%Q).
  Lemma lands_fun c m n m' n' : lands g other t c m n -> lands g other t c m' n' -> m = m' /\ n = n'.
  Proof using Hg. intros [_ H] [_ H']. eapply in_cell_fun; [apply Hg|done|done]. Qed.
  (** what one cell does *)
  Lemma match_cell_spec c s : a_cell (mg_geo other) c.1 c.2 -> near (mg_geo g) (landing other t c).1 (landing other t c).2 ->
    exists s', match_cell conv g other t offset sigma c s = Ok s' /\
      ((mg_cells other c <> [] /\ (exists m n, lands g other t c m n) /\ s'.2 = S s.2 /\
        (found g other t offset sigma c /\ s'.1 = S s.1 \/ ~ found g other t offset sigma c /\ s'.1 = s.1)) \/
       (~ (mg_cells other c <> [] /\ exists m n, lands g other t c m n) /\ s' = s)).
  Proof using Hconv Hg Hsig.
    clear Hk. intros Hc Hn. unfold match_cell. destruct (to_grid conv (mg_geo g) (landing other t c).1 (landing other t c).2) as [[[[m n] xm] ym]|] eqn:Et.
    - destruct Hg as (G1&G2&G3). destruct (to_grid_cell conv _ _ _ _ _ _ _ Hconv G1 G2 G3 Hn Et) as [Hcell Hin]. assert (HL : lands g other t c m n) by done.
      unfold cell_at. destruct (decide (a_cell (mg_geo other) c.1 c.2)); [|done]. cbn [obind]. destruct (mg_cells other c) as [|q l] eqn:El.
      + exists s. split; [done|]. right. split; [|done]. intros [H _]. done.
      + rewrite <-El. eexists. split; [reflexivity|]. left. cbn [fst snd]. split; [by rewrite El|]. split; [by exists m, n|]. split; [done|].
        pose proof (cell_fits_spec offset sigma (mg_cells g (m, n)) (mg_cells other c) Hsig) as HF.
        destruct (cell_fits offset sigma (mg_cells g (m, n)) (mg_cells other c)); [left|right].
        * split; [|lia]. destruct (proj1 HF eq_refl) as (q'&p&?&?&?). by exists m, n, q', p.
        * split; [|lia]. intros (m'&n'&q'&p&HL'&?&?&?). destruct (lands_fun c m n m' n' HL HL') as [-> ->]. assert (false = true) by (apply HF; eauto). done.
    - exists s. split; [done|]. right. split; [|done]. intros (_&m&n&HA&HI). destruct Hg as (G1&_&_). exact (to_grid_none conv _ _ _ m n (proj1 Hconv) G1 Et HA HI).
  Qed.
  Lemma match_cells_spec cs : forall idx s, NoDup cs -> (forall c, c ∈ cs -> a_cell (mg_geo other) c.1 c.2 /\ near (mg_geo g) (landing other t c).1 (landing other t c).2) ->
    exists C M s', match_cells conv g other t offset k sigma idx cs s = Ok s' /\ NoDup C /\ NoDup M /\ M ⊆ C /\
      (forall c, c ∈ C <-> (exists i, cs !! i = Some c /\ Nat.modulo (idx + i) k = O) /\ mg_cells other c <> [] /\ exists m n, lands g other t c m n) /\
      (forall c, c ∈ M <-> c ∈ C /\ found g other t offset sigma c) /\ s'.1 = (s.1 + length M)%nat /\ s'.2 = (s.2 + length C)%nat.
  Proof using Hconv Hg Hsig Hk.
    induction cs as [|c cs IH]; intros idx s Hnd HA.
    - exists [], [], s. split; [done|]. split; [constructor|]. split; [constructor|]. split; [done|]. split; [|split; [|cbn; lia]].
      + intros c. split; [intros H; by apply elem_of_nil in H|]. intros ((i&Hi&_)&_). done.
      + intros c. split; [intros H; by apply elem_of_nil in H|]. intros [H _]. done.
    - cbn [match_cells]. destruct (decide (k = O)); [lia|]. apply NoDup_cons in Hnd as [Hc Hnd]. destruct (HA c ltac:(left)) as [Hac Hnear].
      assert (HA' : forall c, c ∈ cs -> a_cell (mg_geo other) c.1 c.2 /\ near (mg_geo g) (landing other t c).1 (landing other t c).2) by (intros c' Hc'; apply HA; by right).
      assert (Hstep : exists s1, (if decide (Nat.modulo idx k = O) then match_cell conv g other t offset sigma c s else Ok s) = Ok s1 /\
        ((Nat.modulo idx k = O /\ mg_cells other c <> [] /\ (exists m n, lands g other t c m n) /\ s1.2 = S s.2 /\
          (found g other t offset sigma c /\ s1.1 = S s.1 \/ ~ found g other t offset sigma c /\ s1.1 = s.1)) \/
         (~ (Nat.modulo idx k = O /\ mg_cells other c <> [] /\ exists m n, lands g other t c m n) /\ s1 = s))).
      { destruct (decide (Nat.modulo idx k = O)) as [Hm|Hm].
        - destruct (match_cell_spec c s Hac Hnear) as (s1&Hs1&[H|H]); exists s1; (split; [done|]); naive_solver.
        - exists s. split; [done|]. right. naive_solver. }
      destruct Hstep as (s1&->&Hs1). cbn [obind]. destruct (IH (S idx) s1 Hnd HA') as (C&M&s'&Hs'&HC&HM&Hsub&HCe&HMe&H1&H2).
      assert (HcC : c ∉ C). { intros H. apply HCe in H as ((i&Hi&_)&_). apply Hc. by eapply elem_of_list_lookup_2. }
      assert (HcM : c ∉ M) by (intros H; by apply HcC, Hsub).
      destruct Hs1 as [(Hm&Hne&Hl&E2&Hf)|[Hno ->]].
      + assert (HCe' : forall c', c' ∈ c :: C <-> (exists i, (c :: cs) !! i = Some c' /\ Nat.modulo (idx + i) k = O) /\ mg_cells other c' <> [] /\ exists m n, lands g other t c' m n).
        { intros c'. rewrite elem_of_cons, HCe, index_cons. split; [intros [->|(H&H')]; [by split; [left|]|by split; [right|]]|].
          intros ([[-> _]|H]&H'); [by left|by right]. }
        destruct Hf as [[Hf E1]|[Hf E1]].
        * exists (c :: C), (c :: M), s'. split; [done|]. split; [by constructor|]. split; [by constructor|]. split.
          { intros x [->|Hx]%elem_of_cons; [left|right; by apply Hsub]. }
          split; [done|]. split; [|cbn; lia]. intros c'. rewrite !elem_of_cons, HMe. split; [intros [->|[H H']]; [by split; [left|]|by split; [right|]]|].
          intros [[->|H] H']; [by left|by right].
        * exists (c :: C), M, s'. split; [done|]. split; [by constructor|]. split; [done|]. split; [intros x Hx; right; by apply Hsub|].
          split; [done|]. split; [|cbn; lia]. intros c'. rewrite elem_of_cons, HMe. split; [intros [H H']; by split; [right|]|]. intros [[->|H] H']; [by contradiction Hf|done].
      + exists C, M, s'. split; [done|]. split; [done|]. split; [done|]. split; [done|]. split; [|split; [done|lia]].
        intros c'. rewrite HCe, index_cons. split; [intros [H H']; by split; [right|]|]. intros [[[-> Hz]|H] H']; [contradiction Hno; by split|by split].
  Qed.
End ratio.
(** The result is the share of those cells of the index (of every k-th of them) with a patch that fits one of this map among those that have patches and fall
    onto this map, and 1 if there are none. *)
Theorem C132_ratio conv g other cs t offset k sigma : conv_wraps conv -> usable (mg_geo g) -> (0 < k)%nat -> (0 < sigma)%Q -> indexed other cs ->
  (forall c, c ∈ cs -> near (mg_geo g) (landing other t c).1 (landing other t c).2) ->
  exists C M r, match_map conv g other (Some cs) t offset k sigma = Ok r /\ NoDup C /\ NoDup M /\
    (forall c, c ∈ C <-> compared g other t k cs c) /\ (forall c, c ∈ M <-> compared g other t k cs c /\ found g other t offset sigma c) /\
    (C = [] -> r == 1)%Q /\ (C <> [] -> r * inject_Z (Z.of_nat (length C)) == inject_Z (Z.of_nat (length M)))%Q /\ (0 <= r /\ r <= 1)%Q.
Proof.
  intros HC Hg Hk Hs [Hnd Hix] Hn. destruct (match_cells_spec conv g other t offset k sigma HC Hg Hk Hs cs O (O, O) Hnd) as (C&M&s'&Hs'&HCn&HMn&Hsub&HCe&HMe&H1&H2).
  { intros c Hc. split; [by apply Hix|by apply Hn]. }
  exists C, M, (ratio s'). split; [unfold match_map; by rewrite Hs'|]. split; [done|]. split; [done|].
  assert (HCe' : forall c, c ∈ C <-> compared g other t k cs c).
  { intros c. rewrite HCe. unfold compared, sampled. split; (intros ((i&Hi&Hm)&H) || intros ((i&Hi)&H)); (split; [|done]).
    - rewrite Nat.add_0_l in Hm. apply Nat.mod_divides in Hm as [j ->]; [|lia]. by exists j.
    - exists (k * i)%nat. split; [done|]. rewrite Nat.add_0_l, Nat.mul_comm. apply Nat.mod_mul. lia. }
  split; [done|]. split; [intros c; rewrite HMe, HCe'; done|]. cbn in H1, H2. unfold ratio. rewrite H1, H2.
  assert (Hlen : (length M <= length C)%nat) by (apply submseteq_length, NoDup_submseteq; done).
  destruct (decide (length C = O)) as [E|E].
  - apply length_zero_iff_nil in E. subst C. split; [done|]. split; [done|]. split; lra.
  - assert (Hpos : (0 < inject_Z (Z.of_nat (length C)))%Q) by (change 0%Q with (inject_Z 0); rewrite <-Zlt_Qlt; lia).
    assert (Hle : (inject_Z (Z.of_nat (length M)) <= inject_Z (Z.of_nat (length C)))%Q) by (rewrite <-Zle_Qle; lia).
    assert (H0 : (0 <= inject_Z (Z.of_nat (length M)))%Q) by (change 0%Q with (inject_Z 0); rewrite <-Zle_Qle; lia).
    split; [intros ->; done|]. split; [intros _; field; lra|]. split; [apply Qle_shift_div_l; lra|apply Qle_shift_div_r; lra].
Qed.
(** A map matches into itself. *)
Lemma aapp_one v : aapp aone v = v.
Proof. destruct v as [x y z]. unfold aapp, aone. cbn. f_equal; ring. Qed.
Lemma distance_self p d : (d == 0)%Q -> (distance p (shift_mean d p) * distance p (shift_mean d p) == 0 \/ sp_height p < 0)%Q.
Proof.
  intros Hd. destruct (Qlt_le_dec (sp_height p) 0) as [H|H]; [by right|]. left. unfold distance, flat, shift_mean, qabs, qmaxb. cbn [sp_kind sp_mean sp_height].
  destruct (sp_kind p); cbn [negb andb]; repeat match goal with |- context [Qlt_le_dec ?a ?b] => destruct (Qlt_le_dec a b) end; nra.
Qed.
Lemma to_grid_eq conv g x y x' y' : (x == x')%Q -> (y == y')%Q -> (fun r => r.1.1) <$> to_grid conv g x y = (fun r => r.1.1) <$> to_grid conv g x' y'.
Proof.
  intros Hx Hy. unfold to_grid. assert (Qfloor ((x - g_ox g) / g_sx g) = Qfloor ((x' - g_ox g) / g_sx g)) as -> by (apply Qfloor_comp; rewrite Hx; reflexivity).
  assert (Qfloor ((y - g_oy g) / g_sy g) = Qfloor ((y' - g_oy g) / g_sy g)) as -> by (apply Qfloor_comp; rewrite Hy; reflexivity). cbv zeta.
  destruct (0 <=? conv (Qfloor ((x' - g_ox g) / g_sx g))), (conv (Qfloor ((x' - g_ox g) / g_sx g)) <? g_nx g), (0 <=? conv (Qfloor ((y' - g_oy g) / g_sy g))),
    (conv (Qfloor ((y' - g_oy g) / g_sy g)) <? g_ny g); reflexivity.
Qed.
Theorem C132_self conv g cs offset k sigma : conv_ok conv -> good_geo (mg_geo g) -> (0 < k)%nat -> (0 < sigma)%Q -> indexed g cs -> (sp_mean offset == 0)%Q ->
  (forall c, c ∈ cs -> mg_cells g c = [] \/ exists p, p ∈ mg_cells g c /\ sp_kind p <> KNegative /\ (0 < sp_dev p /\ 0 <= sp_height p)%Q) ->
  exists r, match_map conv g g (Some cs) aone offset k sigma = Ok r /\ (r == 1)%Q.
Proof.
  intros HC Hg Hk Hs [_ Hix] Ho Hp.
  assert (Hloop : forall cs idx s, (forall c, c ∈ cs -> a_cell (mg_geo g) c.1 c.2) ->
    (forall c, c ∈ cs -> mg_cells g c = [] \/ exists p, p ∈ mg_cells g c /\ sp_kind p <> KNegative /\ (0 < sp_dev p /\ 0 <= sp_height p)%Q) -> s.1 = s.2 ->
    exists s', match_cells conv g g aone offset k sigma idx cs s = Ok s' /\ s'.1 = s'.2).
  { clear cs Hix Hp. induction cs as [|c cs IH]; intros idx s Hix Hp Heq; [by exists s|]. cbn [match_cells]. destruct (decide (k = O)); [lia|].
    assert (Hc : exists s1, match_cell conv g g aone offset sigma c s = Ok s1 /\ s1.1 = s1.2).
    { pose proof (Hix c ltac:(left)) as HA. destruct (C31_round_trip conv (mg_geo g) c.1 c.2 HC Hg HA) as (xm&ym&Ht&_). unfold match_cell, landing. rewrite aapp_one. cbn [vx vy fst snd].
      pose proof (to_grid_eq conv (mg_geo g) (this (Q2Qc (from_grid (mg_geo g) c.1 c.2).1)) (this (Q2Qc (from_grid (mg_geo g) c.1 c.2).2)) _ _ (Qred_correct _) (Qred_correct _)) as He.
      rewrite Ht in He. destruct (to_grid conv _ (this _) (this _)) as [[[[m' n'] xm1] ym1]|]; [|discriminate He]. injection He as -> ->.
      unfold cell_at. destruct (decide (a_cell (mg_geo g) c.1 c.2)); [|done]. cbn [obind]. destruct (mg_cells g c) as [|q l] eqn:El; [by exists s|].
      rewrite <-surjective_pairing, El. eexists. split; [reflexivity|]. cbn [fst snd]. destruct (Hp c ltac:(left)) as [H|(p&Hpe&Hpk&Hpd&Hph)]; [congruence|].
      assert (cell_fits offset sigma (q :: l) (q :: l) = true) as ->.
      { apply cell_fits_spec; [done|]. exists p, p. rewrite <-El. split; [done|]. split; [done|]. split; [done|]. cbn zeta.
        destruct (distance_self p (sp_mean offset) Ho) as [->|H]; [|lra]. assert (0 < sigma * sigma)%Q by nra. assert (0 < sp_dev p * sp_dev p)%Q by nra. nra. }
      lia. }
    assert (Hstep : exists s1, (if decide (Nat.modulo idx k = O) then match_cell conv g g aone offset sigma c s else Ok s) = Ok s1 /\ s1.1 = s1.2).
    { destruct (decide _); [exact Hc|by exists s]. }
    destruct Hstep as (s1&->&E1). cbn [obind]. apply IH; [intros c' Hc'; apply Hix; by right|intros c' Hc'; apply Hp; by right|done]. }
  destruct (Hloop cs O (O, O) Hix Hp eq_refl) as (s'&Hs'&E). exists (ratio s'). unfold match_map. rewrite Hs'. split; [done|]. unfold ratio. destruct (decide _) as [|Hn]; [done|].
  rewrite E. assert (~ inject_Z (Z.of_nat s'.2) == 0)%Q. { intros H. change 0%Q with (inject_Z 0) in H. pose proof (proj1 (inject_Z_injective _ _) H). lia. } field. done.
Qed.
(** A wider tolerance never lowers the result. *)
Theorem C132_tolerance conv g other cs t offset k s1 s2 : conv_wraps conv -> usable (mg_geo g) -> (0 < k)%nat -> (0 < s1)%Q -> (s1 <= s2)%Q -> indexed other cs ->
  (forall c, c ∈ cs -> near (mg_geo g) (landing other t c).1 (landing other t c).2) ->
  exists r1 r2, match_map conv g other (Some cs) t offset k s1 = Ok r1 /\ match_map conv g other (Some cs) t offset k s2 = Ok r2 /\ (r1 <= r2)%Q.
Proof.
  intros HC Hg Hk H1 H2 Hix Hn. destruct (C132_ratio conv g other cs t offset k s1 HC Hg Hk H1 Hix Hn) as (C1&M1&r1&E1&NC1&NM1&HC1&HM1&Z1&R1&_).
  destruct (C132_ratio conv g other cs t offset k s2 HC Hg Hk ltac:(lra) Hix Hn) as (C2&M2&r2&E2&NC2&NM2&HC2&HM2&Z2&R2&_).
  exists r1, r2. split; [done|]. split; [done|].
  assert (HCC : C1 ≡ₚ C2) by (apply NoDup_Permutation; [done|done|]; intros c; by rewrite HC1, HC2).
  assert (HMM : (length M1 <= length M2)%nat).
  { apply submseteq_length, NoDup_submseteq; [done|]. intros c Hc. apply HM1 in Hc as [Hc (m&n&q&p&HL&Hq&Hp&Hk'&Hd)]. apply HM2. split; [done|]. exists m, n, q, p.
    split; [done|]. split; [done|]. split; [done|]. split; [done|]. cbn zeta in *. eapply Qlt_le_trans; [exact Hd|].
    set (v := (sp_dev q * sp_dev q + sp_dev offset * sp_dev offset + sp_dev p * sp_dev p)%Q). assert (0 <= v)%Q.
    { unfold v. assert (forall x : Q, 0 <= x * x)%Q as Hsq by (intros x; destruct (Qlt_le_dec x 0); nra). pose proof (Hsq (sp_dev q)). pose proof (Hsq (sp_dev offset)). pose proof (Hsq (sp_dev p)). lra. }
    assert (s1 * s1 <= s2 * s2)%Q by nra. nra. }
  destruct C1 as [|c C1'] eqn:EC.
  - assert (C2 = []) by (symmetry; by apply Permutation_nil_l). rewrite Z1, Z2 by done. apply Qle_refl.
  - rewrite <-EC in *. assert (Hn1 : C1 <> []) by (rewrite EC; discriminate). assert (Hl : length C2 = length C1) by (by rewrite HCC).
    assert (Hn2 : C2 <> []) by (intros ->; rewrite EC in Hl; discriminate Hl). specialize (R1 Hn1). specialize (R2 Hn2). rewrite Hl in R2.
    assert (Hpos : (0 < inject_Z (Z.of_nat (length C1)))%Q). { change 0%Q with (inject_Z 0). rewrite <-Zlt_Qlt. rewrite EC. cbn. lia. }
    assert (Hle : (inject_Z (Z.of_nat (length M1)) <= inject_Z (Z.of_nat (length M2)))%Q) by (rewrite <-Zle_Qle; lia).
    rewrite <-R1, <-R2 in Hle. by apply Qmult_lt_0_le_reg_r in Hle.
Qed.
(** The height of the transform between the maps plays no role, although it does when they are merged: a map that the transform puts a hundred metres above
    this one matches perfectly. *)
Theorem C132_height_refuted : exists conv g cs t r, conv_wraps conv /\ usable (mg_geo g) /\ indexed g cs /\ upright t /\ (this (t3 t) == 100)%Q /\
  (forall c p q, p ∈ mg_cells g c -> q ∈ mg_cells g c -> ~ agree (SPatch (this (t3 t)) 0 0 KHorizontal) 3 p q) /\ (exists c p, c ∈ cs /\ p ∈ mg_cells g c) /\
  match_map conv g g (Some cs) t (SPatch 0 0 0 KHorizontal) 1 3 = Ok r /\ (r == 1)%Q.
Proof.
  exists (fun z => if decide (z < 0) then z + size_end else z), (plain 0 1), [(0, 0); (1, 1)], (Aff 1 0 0 0 1 0 0 0 1 0 0 (Q2Qc 100)). eexists.
  split; [|split; [|split; [|split; [|split; [|split; [|split; [|split]]]]]]].
  - split; intros z Hz; case_decide; unfold size_end in *; lia.
  - unfold usable, good_geo, size_end, half; cbn. repeat split; lia || lra.
  - split; [apply NoDup_cons; split; [set_solver|apply NoDup_singleton]|]. intros c Hc. unfold a_cell. cbn. set_solver by (subst; cbn; lia).
  - unfold upright. cbn. done.
  - vm_compute. reflexivity.
  - intros c p q Hp Hq. apply elem_of_list_singleton in Hp as ->. apply elem_of_list_singleton in Hq as ->. intros [_ H]. vm_compute in H. discriminate H.
  - exists (0, 0), (SPatch 0 1 0 KHorizontal). split; left.
  - vm_compute. reflexivity.
  - vm_compute. reflexivity.
Qed.
(** Maps that have nothing to do with each other match perfectly. *)
Theorem C132_apart_refuted conv g other cs t offset k sigma : (0 < k)%nat -> (forall c, c ∈ cs -> to_grid conv (mg_geo g) (landing other t c).1 (landing other t c).2 = None) ->
  exists r, match_map conv g other (Some cs) t offset k sigma = Ok r /\ (r == 1)%Q.
Proof.
  intros Hk Hn. assert (H : forall idx, match_cells conv g other t offset k sigma idx cs (O, O) = Ok (O, O)).
  { induction cs as [|c cs IH]; intros idx; [done|]. cbn [match_cells]. destruct (decide (k = O)); [lia|].
    assert ((if decide (Nat.modulo idx k = O) then match_cell conv g other t offset sigma c (O, O) else Ok (O, O)) = Ok (O, O)) as ->.
    { destruct (decide _); [|done]. unfold match_cell. by rewrite (Hn c) by left. }
    cbn [obind]. apply IH. intros c' Hc'. apply Hn. by right. }
  exists 1%Q. unfold match_map. rewrite H. done.
Qed.
(** The result is not the ratio of the patches that match, as the documentation says. *)
Theorem C132_patches_refuted : exists conv g other cs r, conv_wraps conv /\ usable (mg_geo g) /\ indexed other cs /\
  (exists c q1 q2, c ∈ cs /\ mg_cells other c = [q1; q2] /\ forall p, p ∈ mg_cells g c -> ~ agree (SPatch 0 0 0 KHorizontal) 3 q2 p) /\
  match_map conv g other (Some cs) aone (SPatch 0 0 0 KHorizontal) 1 3 = Ok r /\ (r == 1)%Q.
Proof.
  exists (fun z => if decide (z < 0) then z + size_end else z), (plain 0 1), (MGrid (Geo 2 2 1 1 0 0) (fun _ => [SPatch 0 1 0 KHorizontal; SPatch 50 1 0 KHorizontal]) aone), [(0, 0)]. eexists.
  split; [split; intros z Hz; case_decide; unfold size_end in *; lia|]. split; [unfold usable, good_geo, size_end, half; cbn; repeat split; lia || lra|].
  split; [split; [apply NoDup_singleton|]; intros c Hc; apply elem_of_list_singleton in Hc as ->; unfold a_cell; cbn; lia|].
  split; [|split; vm_compute; reflexivity]. exists (0, 0), (SPatch 0 1 0 KHorizontal), (SPatch 50 1 0 KHorizontal). split; [left|]. split; [done|].
  intros p Hp. apply elem_of_list_singleton in Hp as ->. intros [_ H]. vm_compute in H. discriminate H.
Qed.
(** A map without an index is refused. *)
Theorem C132_index conv g other t offset k sigma : match_map conv g other None t offset k sigma = Throw tt.
Proof. reflexivity. Qed.
(** To take every zeroth cell is undefined. *)
Theorem C132_sampling_refuted conv g other cs t offset sigma : cs <> [] -> match_map conv g other (Some cs) t offset 0 sigma = Bad UB.
Proof. by destruct cs. Qed.
Example C132_nonvacuous : exists conv g other cs t offset r, conv_wraps conv /\ usable (mg_geo g) /\ indexed other cs /\
  (forall c, c ∈ cs -> near (mg_geo g) (landing other t c).1 (landing other t c).2) /\ match_map conv g other (Some cs) t offset 1 3 = Ok r /\ (r == 1 # 2)%Q.
Proof.
  exists (fun z => if decide (z < 0) then z + size_end else z), (plain 0 1),
    (MGrid (Geo 2 2 1 1 0 0) (fun c => if decide (c = (0, 0)) then [SPatch 1 1 0 KHorizontal] else [SPatch 50 1 0 KHorizontal]) aone),
    [(0, 0); (0, 1); (1, 0)], (Aff 1 0 0 0 1 0 0 0 1 (Q2Qc 1) 0 0), (SPatch 0 0 0 KHorizontal). eexists.
  split; [split; intros z Hz; case_decide; unfold size_end in *; lia|]. split; [unfold usable, good_geo, size_end, half; cbn; repeat split; lia || lra|].
  split; [split; [repeat (apply NoDup_cons; split; [set_solver|]); apply NoDup_nil_2|]; intros c Hc; unfold a_cell; cbn; set_solver by (subst; cbn; lia)|].
  split; [|split; vm_compute; reflexivity].
  intros c Hc. repeat (apply elem_of_cons in Hc as [->|Hc]; [vm_compute; repeat split; congruence|]). by apply elem_of_nil in Hc.
Qed.

(** ** C133: a path on the surface *)
(** from the height [h] the path goes to [h'] in the cell with the patches [l]: to the top of the patch that is closest to [h], and stays there if there are none *)
Definition summit (p : spatch) : Q := (sp_mean p + 2 * sp_dev p)%Q.
Definition step_to (l : list spatch) (h h' : Q) : Prop :=
  (l = [] /\ h' = h) \/ exists p, p ∈ l /\ (h' == summit p)%Q /\ forall q, q ∈ l -> (Qabs (h - summit p) <= Qabs (h - summit q))%Q.
Lemma top_summit h p : (top p == summit p)%Q /\ (qabs (h - top p) == Qabs (h - summit p))%Q.
Proof.
  assert (H : (top p == summit p)%Q) by (unfold top, summit; ring). split; [exact H|]. rewrite <-H. unfold qabs. destruct (Qlt_le_dec (h - top p) 0) as [K|K].
  - rewrite Qabs_neg; [reflexivity|lra].
  - rewrite Qabs_pos; [reflexivity|exact K].
Qed.
Lemma closest_top_some h l : forall z, exists z', closest_top h l (Some (z, qabs (h - z))) = Some (z', qabs (h - z')) /\ (qabs (h - z') <= qabs (h - z))%Q /\
  (forall q, q ∈ l -> (qabs (h - z') <= qabs (h - top q))%Q) /\ (z' = z \/ exists p, p ∈ l /\ z' = top p).
Proof.
  induction l as [|p l IH]; intros z.
  - exists z. split; [done|]. split; [apply Qle_refl|]. split; [intros q Hq; by apply elem_of_nil in Hq|by left].
  - cbn [closest_top]. destruct (Qlt_le_dec (qabs (h - top p)) (qabs (h - z))) as [H|H].
    + destruct (IH (top p)) as (z'&E&H1&H2&H3). exists z'. split; [done|]. split; [lra|]. split.
      * intros q [->|Hq]%elem_of_cons; [done|by apply H2].
      * right. destruct H3 as [->|(q&Hq&->)]; [exists p; split; [left|done]|exists q; split; [by right|done]].
    + destruct (IH z) as (z'&E&H1&H2&H3). exists z'. split; [done|]. split; [done|]. split.
      * intros q [->|Hq]%elem_of_cons; [lra|by apply H2].
      * destruct H3 as [->|(q&Hq&->)]; [by left|right; exists q; split; [by right|done]].
Qed.
Lemma next_height_spec h l : step_to l h (next_height h l).
Proof.
  unfold next_height. destruct l as [|p l]; [by left|]. right. cbn [closest_top]. destruct (closest_top_some h l (top p)) as (z'&->&H1&H2&H3).
  assert (Hmin : forall q, q ∈ p :: l -> (qabs (h - z') <= qabs (h - top q))%Q) by (intros q [->|Hq]%elem_of_cons; [done|by apply H2]).
  assert (Hall : forall p', z' = top p' -> (z' == summit p')%Q /\ forall q, q ∈ p :: l -> (Qabs (h - summit p') <= Qabs (h - summit q))%Q).
  { intros p' ->. destruct (top_summit h p') as [E1 E2]. split; [exact E1|]. intros q Hq. destruct (top_summit h q) as [_ E3]. rewrite <-E2, <-E3. by apply Hmin. }
  destruct H3 as [->|(q&Hq&->)]; [exists p; split; [left|by apply Hall]|exists q; split; [by right|by apply Hall]].
Qed.
(** The path has the given positions in their order; its height above the offset starts at the given height and in every cell goes to the top of the patch closest
    to the last height. *)
Theorem C133_path g start zo ps : (forall c, c ∈ ps -> a_cell (mg_geo g) c.1 c.2) ->
  exists res hs, project_points g start zo ps = Ok res /\ res.*1 = ps /\ length hs = S (length ps) /\ hs !! O = Some start /\
    forall i c z, res !! i = Some (c, z) -> exists h h', hs !! i = Some h /\ hs !! S i = Some h' /\ z = (h' + zo)%Q /\ step_to (mg_cells g c) h h'.
Proof.
  revert start. induction ps as [|c ps IH]; intros start Hc.
  - exists [], [start]. split; [done|]. split; [done|]. split; [done|]. split; [done|]. intros i c z H. done.
  - cbn [project_points]. unfold cell_at. destruct (decide (a_cell (mg_geo g) c.1 c.2)) as [_|Hn]; [|contradiction Hn; apply Hc; left]. cbn [obind].
    destruct (IH (next_height start (mg_cells g c)) ltac:(intros c' Hc'; apply Hc; by right)) as (res&hs&->&H1&H2&H3&H4). cbn [obind].
    exists ((c, (next_height start (mg_cells g c) + zo)%Q) :: res), (start :: hs). split; [done|]. split; [cbn; by rewrite H1|]. split; [cbn; by rewrite H2|]. split; [done|].
    intros [|i] c' z Hi.
    + injection Hi as <- <-. exists start, (next_height start (mg_cells g c)). split; [done|]. split; [done|]. split; [done|]. apply next_height_spec.
    + destruct (H4 i c' z Hi) as (h&h'&?&?&?&?). by exists h, h'.
Qed.
(** For a spline the points keep their place; those off the map keep their height too and do not change the last height. *)
Theorem C133_samples conv g start zo ps : conv_wraps conv -> usable (mg_geo g) -> (forall p, p ∈ ps -> near (mg_geo g) p.1.1 p.1.2) ->
  let res := project_samples conv g start zo ps in
  exists hs, res.*1 = ps.*1 /\ length hs = S (length ps) /\ hs !! O = Some start /\
    forall i p p', ps !! i = Some p -> res !! i = Some p' -> exists h h', hs !! i = Some h /\ hs !! S i = Some h' /\
      ((~ in_rect (mg_geo g) p.1.1 p.1.2 /\ p' = p /\ h' = h) \/
       exists m n, a_cell (mg_geo g) m n /\ in_cell (mg_geo g) m n p.1.1 p.1.2 /\ p'.2 = (h' + zo)%Q /\ step_to (mg_cells g (m, n)) h h').
Proof.
  intros HC (G1&G2&G3). revert start. induction ps as [|p ps IH]; intros start Hn; cbn zeta.
  - exists [start]. split; [done|]. split; [done|]. split; [done|]. intros i q q' H. done.
  - cbn [project_samples]. pose proof (Hn p ltac:(left)) as Hp. assert (Hn' : forall p, p ∈ ps -> near (mg_geo g) p.1.1 p.1.2) by (intros q Hq; apply Hn; by right).
    destruct (to_grid conv (mg_geo g) p.1.1 p.1.2) as [[[[m n] xm] ym]|] eqn:Et.
    + destruct (IH (next_height start (mg_cells g (m, n))) Hn') as (hs&H1&H2&H3&H4). exists (start :: hs). split; [cbn; by rewrite H1|]. split; [cbn; by rewrite H2|]. split; [done|].
      intros [|i] q q' Hq Hq'; [|exact (H4 i q q' Hq Hq')]. injection Hq as <-. injection Hq' as <-. exists start, (next_height start (mg_cells g (m, n))). split; [done|]. split; [exact H3|].
      right. exists m, n. destruct (to_grid_cell conv _ _ _ _ _ _ _ HC G1 G2 G3 Hp Et). split; [done|]. split; [done|]. split; [done|]. apply next_height_spec.
    + destruct (IH start Hn') as (hs&H1&H2&H3&H4). exists (start :: hs). split; [cbn; by rewrite H1|]. split; [cbn; by rewrite H2|]. split; [done|].
      intros [|i] q q' Hq Hq'; [|exact (H4 i q q' Hq Hq')]. injection Hq as <-. injection Hq' as <-. exists start, start. split; [done|]. split; [exact H3|]. left. split; [|done].
      intros HR. exact (proj2 (C31_outside conv (mg_geo g) p.1.1 p.1.2 HC G1 G2 G3 Hp) HR Et).
Qed.
(** A position off the map is undefined. *)
Theorem C133_outside_refuted g start zo ps c : c ∈ ps -> ~ a_cell (mg_geo g) c.1 c.2 -> project_points g start zo ps = Bad UB.
Proof.
  intros Hc Ho. revert start. induction ps as [|c' ps IH]; intros start; [by apply elem_of_nil in Hc|]. cbn [project_points]. unfold cell_at.
  destruct (decide (a_cell (mg_geo g) c'.1 c'.2)) as [Ha|]; [|done]. cbn [obind]. apply elem_of_cons in Hc as [->|Hc]; [done|]. by rewrite (IH Hc).
Qed.
(** A patch that stands for free space is taken for a surface. *)
Theorem C133_free_refuted : exists g start c z p, mg_cells g c = [p; SPatch 5 0 1 KNegative] /\ sp_kind p = KHorizontal /\ project_points g start 0 [c] = Ok [(c, z)] /\ (z == 5)%Q /\ (summit p < 5)%Q.
Proof.
  exists (MGrid (Geo 1 1 1 1 0 0) (fun _ => [SPatch 0 0 0 KHorizontal; SPatch 5 0 1 KNegative]) aone), 4%Q, (0, 0), 5%Q, (SPatch 0 0 0 KHorizontal).
  split; [done|]. split; [done|]. split; [vm_compute; reflexivity|]. split; vm_compute; reflexivity.
Qed.
Example C133_nonvacuous : exists g start ps res, (forall c, c ∈ ps -> a_cell (mg_geo g) c.1 c.2) /\ length ps = 3%nat /\ project_points g start 1 ps = Ok res /\
  Forall2 (fun r z => r.2 == z)%Q res [3; 3; 9]%Q.
Proof.
  exists (MGrid (Geo 3 1 1 1 0 0) (fun c => if decide (c = (0, 0)) then [SPatch 7 1 0 KHorizontal; SPatch 0 1 0 KHorizontal] else if decide (c = (2, 0)) then [SPatch 6 1 0 KVertical] else []) aone),
    1%Q, [(0, 0); (1, 0); (2, 0)]. eexists. split.
  { intros c Hc. unfold a_cell. cbn. set_solver by (subst; cbn; lia). }
  split; [done|]. split; [vm_compute; reflexivity|]. repeat constructor; vm_compute; reflexivity.
Qed.
