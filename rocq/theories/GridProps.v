(** C31, C32: cells and points. *)
From stdpp Require Import prelude.
From Coq Require Import ZArith QArith Qround Lqa.
From Verif Require Import Base Bresenham GridModel.
Local Open Scope Z_scope.

(** ** Specification *)
(** a usable grid: positive cell sizes, [size_t] dimensions *)
Definition good_geo (g : geo) : Prop := (0 < g_sx g)%Q /\ (0 < g_sy g)%Q /\ 0 <= g_nx g < size_end /\ 0 <= g_ny g < size_end.
(** the points of a cell: half open intervals *)
Definition in_cell (g : geo) (xi yi : Z) (x y : Q) : Prop :=
  (g_ox g + inject_Z xi * g_sx g <= x)%Q /\ (x < g_ox g + (inject_Z xi + 1) * g_sx g)%Q /\
  (g_oy g + inject_Z yi * g_sy g <= y)%Q /\ (y < g_oy g + (inject_Z yi + 1) * g_sy g)%Q.
(** the rectangle covered by the grid *)
Definition in_rect (g : geo) (x y : Q) : Prop :=
  (g_ox g <= x)%Q /\ (x < g_ox g + inject_Z (g_nx g) * g_sx g)%Q /\ (g_oy g <= y)%Q /\ (y < g_oy g + inject_Z (g_ny g) * g_sy g)%Q.
Definition a_cell (g : geo) (xi yi : Z) : Prop := 0 <= xi < g_nx g /\ 0 <= yi < g_ny g.
(** what C++ guarantees about the conversion to [size_t], and what x86-64 does in addition *)
Definition conv_ok (conv : Z -> Z) : Prop := forall z, 0 <= z < size_end -> conv z = z.
Definition conv_wraps (conv : Z -> Z) : Prop := conv_ok conv /\ forall z, -9223372036854775808 <= z < 0 -> conv z = z + size_end.
(** the distance to the grid in cells is below [2^63] *)
Definition half : Z := 9223372036854775808.
Definition near (g : geo) (x y : Q) : Prop :=
  (g_ox g - inject_Z half * g_sx g <= x)%Q /\ (x < g_ox g + inject_Z half * g_sx g)%Q /\
  (g_oy g - inject_Z half * g_sy g <= y)%Q /\ (y < g_oy g + inject_Z half * g_sy g)%Q.

(** ** Floors *)
Lemma floor_spec q z : Qfloor q = z <-> (inject_Z z <= q)%Q /\ (q < inject_Z z + 1)%Q.
Proof.
  split.
  - intros <-. split; [apply Qfloor_le|]. pose proof (Qlt_floor q) as H. rewrite inject_Z_plus in H. exact H.
  - intros [H1 H2]. pose proof (Qfloor_le q) as H3. pose proof (Qlt_floor q) as H4. rewrite inject_Z_plus in H4. change (inject_Z 1) with 1%Q in H4.
    assert (A : (inject_Z z < inject_Z (Qfloor q + 1))%Q) by (rewrite inject_Z_plus; change (inject_Z 1) with 1%Q; lra).
    assert (B : (inject_Z (Qfloor q) < inject_Z (z + 1))%Q) by (rewrite inject_Z_plus; change (inject_Z 1) with 1%Q; lra).
    rewrite <-Zlt_Qlt in A, B. lia.
Qed.
Lemma div_le a b s : (0 < s)%Q -> (a <= b / s)%Q <-> (a * s <= b)%Q.
Proof.
  intros Hs. split; intros H.
  - setoid_replace b with (b / s * s)%Q by (field; lra). apply Qmult_le_compat_r; lra.
  - apply Qle_shift_div_l; lra.
Qed.
Lemma div_lt a b s : (0 < s)%Q -> (b / s < a)%Q <-> (b < a * s)%Q.
Proof.
  intros Hs. split; intros H.
  - setoid_replace b with (b / s * s)%Q by (field; lra). apply Qmult_lt_compat_r; lra.
  - apply Qlt_shift_div_r; lra.
Qed.
Lemma cell_floor x o s z : (0 < s)%Q -> Qfloor ((x - o) / s) = z <-> (o + inject_Z z * s <= x)%Q /\ (x < o + (inject_Z z + 1) * s)%Q.
Proof. intros Hs. rewrite floor_spec, div_le, div_lt by done. split; intros [??]; split; lra. Qed.
Lemma inject_le a b s : (0 < s)%Q -> a <= b -> (inject_Z a * s <= inject_Z b * s)%Q.
Proof. intros Hs H. apply Qmult_le_compat_r; [by rewrite <-Zle_Qle|lra]. Qed.
Lemma inject_lt a b s : (0 < s)%Q -> a < b -> (inject_Z a * s < inject_Z b * s)%Q.
Proof. intros Hs H. apply Qmult_lt_compat_r; [lra|by rewrite <-Zlt_Qlt]. Qed.
(** the index of a point is in [lo, hi) exactly if the point is between the corresponding cell borders *)
Lemma floor_range x o s lo hi : (0 < s)%Q -> lo <= Qfloor ((x - o) / s) < hi <-> (o + inject_Z lo * s <= x)%Q /\ (x < o + inject_Z hi * s)%Q.
Proof.
  intros Hs. pose proof (proj1 (cell_floor x o s _ Hs) eq_refl) as [H1 H2]. set (f := Qfloor _) in *. split.
  - intros [L U]. pose proof (inject_le lo f s Hs L). pose proof (inject_le (f + 1) hi s Hs ltac:(lia)) as H3. rewrite inject_Z_plus in H3. change (inject_Z 1) with 1%Q in H3. lra.
  - intros [L U]. split.
    + destruct (decide (lo <= f)) as [|Hn]; [done|]. exfalso. pose proof (inject_le (f + 1) lo s Hs ltac:(lia)) as H3. rewrite inject_Z_plus in H3. change (inject_Z 1) with 1%Q in H3. lra.
    + destruct (decide (f < hi)) as [|Hn]; [done|]. exfalso. pose proof (inject_le hi f s Hs ltac:(lia)). lra.
Qed.

(** ** C31 *)
Lemma to_grid_index conv g x y xi yi : conv_ok conv -> good_geo g -> a_cell g xi yi -> in_cell g xi yi x y ->
  exists xm ym, to_grid conv g x y = Some (xi, yi, xm, ym) /\ (xm == x - (g_ox g + inject_Z xi * g_sx g))%Q /\ (ym == y - (g_oy g + inject_Z yi * g_sy g))%Q.
Proof.
  intros HC (Hsx&Hsy&Hnx&Hny) [[Hx1 Hx2] [Hy1 Hy2]] (H1&H2&H3&H4). unfold to_grid.
  rewrite (proj2 (cell_floor x (g_ox g) (g_sx g) xi Hsx)), (proj2 (cell_floor y (g_oy g) (g_sy g) yi Hsy)) by done.
  rewrite !HC by lia. rewrite !(proj2 (Z.leb_le _ _)), !(proj2 (Z.ltb_lt _ _)) by lia. cbn. eexists _, _. split; [done|]. split; ring.
Qed.
(** A point of the grid's rectangle is mapped to the cell that contains it, and the offsets within the cell are in [0, scale). *)
Theorem C31_inside conv g x y : conv_ok conv -> good_geo g -> in_rect g x y ->
  exists xi yi xm ym, to_grid conv g x y = Some (xi, yi, xm, ym) /\ a_cell g xi yi /\ in_cell g xi yi x y /\
    (xm == x - (g_ox g + inject_Z xi * g_sx g))%Q /\ (ym == y - (g_oy g + inject_Z yi * g_sy g))%Q /\ (0 <= xm)%Q /\ (xm < g_sx g)%Q /\ (0 <= ym)%Q /\ (ym < g_sy g)%Q.
Proof.
  intros HC Hg (R1&R2&R3&R4). pose proof Hg as (Hsx&Hsy&Hnx&Hny).
  pose proof (proj1 (cell_floor x (g_ox g) (g_sx g) _ Hsx) eq_refl) as [X1 X2]. pose proof (proj1 (cell_floor y (g_oy g) (g_sy g) _ Hsy) eq_refl) as [Y1 Y2].
  assert (HA : a_cell g (Qfloor ((x - g_ox g) / g_sx g)) (Qfloor ((y - g_oy g) / g_sy g))).
  { split; apply floor_range; try done; change (inject_Z 0) with 0%Q; lra. }
  assert (HI : in_cell g (Qfloor ((x - g_ox g) / g_sx g)) (Qfloor ((y - g_oy g) / g_sy g)) x y) by done.
  destruct (to_grid_index conv g x y _ _ HC Hg HA HI) as (xm&ym&Ht&Hxm&Hym). eexists _, _, xm, ym. split; [exact Ht|]. do 4 (split; [done|]).
  rewrite Hxm, Hym. repeat split; lra.
Qed.
(** Conversely: if the call succeeds, the point is in the rectangle (on a machine whose conversion wraps around, for points less than 2^63 cells away). *)
Theorem C31_outside conv g x y : conv_wraps conv -> good_geo g -> g_nx g <= half -> g_ny g <= half -> near g x y ->
  to_grid conv g x y <> None <-> in_rect g x y.
Proof.
  intros [HC HW] Hg HX HY (N1&N2&N3&N4). split.
  - intros HT. pose proof Hg as (Hsx&Hsy&Hnx&Hny). unfold to_grid in HT.
    set (fx := Qfloor ((x - g_ox g) / g_sx g)) in *. set (fy := Qfloor ((y - g_oy g) / g_sy g)) in *.
    assert (Fx : - half <= fx < half) by (apply floor_range; [done|]; change (inject_Z (- half)) with (- inject_Z half)%Q; split; lra).
    assert (Fy : - half <= fy < half) by (apply floor_range; [done|]; change (inject_Z (- half)) with (- inject_Z half)%Q; split; lra).
    assert (Cx : 0 <= fx < g_nx g /\ 0 <= fy < g_ny g).
    { destruct ((0 <=? conv fx) && (conv fx <? g_nx g) && (0 <=? conv fy) && (conv fy <? g_ny g)) eqn:HB; [|done].
      rewrite !andb_true_iff, !Z.leb_le, !Z.ltb_lt in HB. destruct HB as [[[B1 B2] B3] B4]. unfold half, size_end in *.
      destruct (decide (0 <= fx)) as [P|P]; [rewrite HC in B1, B2 by (unfold size_end; lia)|rewrite HW in B1, B2 by (unfold size_end in *; lia); unfold size_end in *; lia].
      destruct (decide (0 <= fy)) as [P'|P']; [rewrite HC in B3, B4 by (unfold size_end; lia)|rewrite HW in B3, B4 by (unfold size_end in *; lia); unfold size_end in *; lia]. lia. }
    destruct Cx as [Cx Cy]. apply floor_range in Cx, Cy; [|done..]. change (inject_Z 0) with 0%Q in Cx, Cy. unfold in_rect. lra.
  - intros HR. destruct (C31_inside conv g x y HC Hg HR) as (?&?&?&?&->&_). done.
Qed.
(** The standard alone does not guarantee this: the conversion of a negative number is undefined, and may yield a valid index (finding). *)
Theorem C31_negative_refuted : exists conv g x y, conv_ok conv /\ good_geo g /\ g_nx g <= half /\ g_ny g <= half /\ near g x y /\ ~ in_rect g x y /\ to_grid conv g x y <> None.
Proof.
  exists (fun z => if z <? 0 then 0 else z), (Geo 3 3 1 1 0 0), (-(1 # 2))%Q, (1 # 2)%Q. split; [|split; [|split; [|split; [|split; [|split]]]]].
  - intros z Hz. destruct (Z.ltb_spec z 0); [lia|done].
  - unfold good_geo, size_end; cbn. repeat split; lia || lra.
  - cbn. unfold half. lia.
  - cbn. unfold half. lia.
  - repeat split; vm_compute; congruence.
  - unfold in_rect. cbn. intros (H&_). lra.
  - by vm_compute.
Qed.
(** [toGrid(fromGrid(cell)) = cell]; the point is the centre of the cell. *)
Theorem C31_round_trip conv g xi yi : conv_ok conv -> good_geo g -> a_cell g xi yi ->
  exists xm ym, to_grid conv g (fst (from_grid g xi yi)) (snd (from_grid g xi yi)) = Some (xi, yi, xm, ym) /\ (xm == g_sx g / 2)%Q /\ (ym == g_sy g / 2)%Q.
Proof.
  intros HC Hg HA. pose proof Hg as (Hsx&Hsy&_). destruct (to_grid_index conv g (fst (from_grid g xi yi)) (snd (from_grid g xi yi)) xi yi HC Hg HA) as (xm&ym&H&Hx&Hy).
  - unfold in_cell, from_grid. cbn [fst snd]. repeat split; lra.
  - exists xm, ym. split; [done|]. rewrite Hx, Hy. unfold from_grid. cbn [fst snd]. split; field.
Qed.
(** [contains] accepts exactly the cells. *)
Theorem C31_contains g p : g_contains g p = true <-> a_cell g (fst p) (snd p).
Proof. unfold g_contains, a_cell. rewrite !andb_true_iff, !Z.geb_le, !Z.ltb_lt. lia. Qed.
(** With a multiplier [m] the result is a sub-cell of the cell that [toGrid] returns; it succeeds for the same points. *)
Theorem C31_sub_cells conv g x y m : conv_ok conv -> good_geo g -> 0 < m -> g_nx g * m < size_end -> g_ny g * m < size_end -> in_rect g x y ->
  exists xi yi xm ym xs ys, to_grid conv g x y = Some (xi, yi, xm, ym) /\ to_grid_times conv g x y m = Some (xs, ys) /\ xs / m = xi /\ ys / m = yi.
Proof.
  intros HC Hg Hm HX HY HR. destruct (C31_inside conv g x y HC Hg HR) as (xi&yi&xm&ym&Ht&[Ax Ay]&(I1&I2&I3&I4)&_). pose proof Hg as (Hsx&Hsy&Hnx&Hny).
  assert (Hsub : forall x o s z, (0 < s)%Q -> (o + inject_Z z * s <= x)%Q -> (x < o + (inject_Z z + 1) * s)%Q ->
    z * m <= Qfloor ((x - o) / s * inject_Z m) < (z + 1) * m).
  { clear - Hm. intros x o s z Hs H1 H2. assert (Hmq : (0 < inject_Z m)%Q) by (change 0%Q with (inject_Z 0); by rewrite <-Zlt_Qlt).
    assert (Ha : (inject_Z z <= (x - o) / s)%Q) by (apply div_le; [done|lra]). assert (Hb : ((x - o) / s < inject_Z z + 1)%Q) by (apply div_lt; [done|lra]).
    pose proof (proj1 (floor_spec ((x - o) / s * inject_Z m) _) eq_refl) as [F1 F2]. set (f := Qfloor _) in *. set (q := ((x - o) / s)%Q) in *.
    assert (Hc : (inject_Z z * inject_Z m <= q * inject_Z m)%Q) by (apply Qmult_le_compat_r; lra).
    assert (Hd : (q * inject_Z m < (inject_Z z + 1) * inject_Z m)%Q) by (apply Qmult_lt_compat_r; lra).
    assert (G1 : (inject_Z (z * m) < inject_Z (f + 1))%Q) by (rewrite inject_Z_plus, inject_Z_mult; change (inject_Z 1) with 1%Q; lra).
    assert (G2 : (inject_Z f < inject_Z ((z + 1) * m))%Q) by (rewrite inject_Z_mult, inject_Z_plus; change (inject_Z 1) with 1%Q; lra).
    rewrite <-Zlt_Qlt in G1, G2. lia. }
  pose proof (Hsub x (g_ox g) (g_sx g) xi Hsx I1 I2) as Sx. pose proof (Hsub y (g_oy g) (g_sy g) yi Hsy I3 I4) as Sy.
  exists xi, yi, xm, ym. unfold to_grid_times.
  set (fx := Qfloor ((x - g_ox g) / g_sx g * inject_Z m)) in *. set (fy := Qfloor ((y - g_oy g) / g_sy g * inject_Z m)) in *. exists fx, fy. split; [done|].
  rewrite !HC by nia. unfold to_size. rewrite !Z.mod_small by (unfold size_end in *; nia). rewrite !(proj2 (Z.ltb_lt _ _)) by nia. cbn [andb].
  split; [done|].
  clear - Sx Sy Hm. split; symmetry.
  - apply (Z.div_unique_pos fx m xi (fx - xi * m)); lia.
  - apply (Z.div_unique_pos fy m yi (fy - yi * m)); lia.
Qed.
Example C31_nonvacuous : exists conv g x y, conv_wraps conv /\ good_geo g /\ g_nx g <= half /\ g_ny g <= half /\ near g x y /\ in_rect g x y /\ a_cell g 3 1 /\
  exists xm ym, to_grid conv g x y = Some (3, 1, xm, ym).
Proof.
  exists (fun z => z mod size_end), (Geo 5 4 (1 # 2) (1 # 4) (-(1 # 2)) 1), (6 # 5)%Q, (13 # 10)%Q. split; [|split; [|split; [|split; [|split; [|split; [|split]]]]]].
  - split; intros z Hz; unfold size_end in *; [by apply Z.mod_small|]. rewrite <-(Z.mod_add _ 1) by done. apply Z.mod_small. lia.
  - unfold good_geo, size_end; cbn. repeat split; lia || lra.
  - cbn. unfold half. lia.
  - cbn. unfold half. lia.
  - repeat split; vm_compute; congruence.
  - unfold in_rect. cbn. repeat split; lra.
  - unfold a_cell. cbn. lia.
  - eexists _, _. vm_compute. reflexivity.
Qed.

(** ** C32 *)
(** The extents start at the lower left corner of the grid but are one cell too large in both directions (finding): for every grid
    they differ from the rectangle of the grid. *)
Theorem C32_extents g : good_geo g -> g_nx g <= int_max -> g_ny g <= int_max ->
  let '((x0, y0), (x1, y1)) := get_extents g in
  (x0 == g_ox g)%Q /\ (y0 == g_oy g)%Q /\
  (x1 == g_ox g + inject_Z (g_nx g) * g_sx g + g_sx g)%Q /\ (y1 == g_oy g + inject_Z (g_ny g) * g_sy g + g_sy g)%Q /\
  (forall x y, in_rect g x y -> (x0 <= x)%Q /\ (x < x1)%Q /\ (y0 <= y)%Q /\ (y < y1)%Q).
Proof.
  intros (Hsx&Hsy&Hnx&Hny) HX HY. unfold get_extents, get_cell_extents. cbn [fst snd].
  assert (HI : forall z, 0 <= z <= int_max -> to_int z = z) by (intros z Hz; unfold to_int, int_max in *; rewrite Z.mod_small; lia).
  rewrite !HI by lia. change (inject_Z 0) with 0%Q. split; [ring|]. split; [ring|]. split; [ring|]. split; [ring|]. intros x y (R1&R2&R3&R4). repeat split; lra.
Qed.
Theorem C32_refuted g : good_geo g -> g_nx g <= int_max -> g_ny g <= int_max ->
  ~ (fst (snd (get_extents g)) == g_ox g + inject_Z (g_nx g) * g_sx g)%Q /\ ~ (snd (snd (get_extents g)) == g_oy g + inject_Z (g_ny g) * g_sy g)%Q.
Proof.
  intros Hg HX HY. pose proof (C32_extents g Hg HX HY) as H. destruct (get_extents g) as [[x0 y0] [x1 y1]]. cbn [fst snd]. destruct H as (_&_&H1&H2&_).
  destruct Hg as (Hsx&Hsy&_). rewrite H1, H2. split; lra.
Qed.
Example C32_nonvacuous : exists g, good_geo g /\ g_nx g <= int_max /\ g_ny g <= int_max /\ exists x y, in_rect g x y.
Proof.
  exists (Geo 5 4 (1 # 2) (1 # 4) (-(1 # 2)) 1). cbn. unfold good_geo, size_end, in_rect, int_max; cbn. repeat split; try lia; try lra.
  exists (6 # 5)%Q, (13 # 10)%Q. repeat split; lra.
Qed.
