(** Elevation grids and simple grid operators (C74 - C80):
    src/maps/ElevationGrid.{hpp,cpp}, src/maps/Grid.hpp:175-250, src/operators/Projection.cpp:54-89, src/operators/MLSToGrid.cpp:34-64,
    src/operators/ClassGridProjection.hpp:32-58.

    Simplifications: [double] is modelled by the rational numbers. A band of a grid is a function from cells to values; an access outside of the array is
    undefined behaviour. *)
From stdpp Require Import prelude.
From Coq Require Import QArith Qcanon Qround Lqa.
From Verif Require Import Base Bresenham GridModel GridProps Transform.
Local Open Scope Z_scope.

Definition upd {A} (c : Z * Z) (v : A) (d : Z * Z -> A) : Z * Z -> A := fun c' => if decide (c' = c) then v else d c'.

Section model.
  Context (conv : Z -> Z).

  (** Grid.hpp:215-227, [getFromRaster]. An index that is too large, or wrapped below zero, is outside of the array. *)
  Definition raster {A} (g : geo) (d : Z * Z -> A) (x y : Z) : out unit A :=
    if (0 <=? x) && (x <? g_nx g) && (0 <=? y) && (y <? g_ny g) then Ok (d (x, y)) else Bad UB.
  (** Grid.hpp:232-246, [get( band, x, y )] with world coordinates *)
  Definition get_at {A} (g : geo) (d : Z * Z -> A) (x y : Q) : out unit A :=
    match to_grid conv g x y with None => Throw tt | Some (m, n, _, _) => raster g d m n end.
  (** ElevationGrid.hpp:38-42, [get( Position )]: calls [get( band, double, double )] with the numbers of the cell *)
  Definition get_cell {A} (g : geo) (d : Z * Z -> A) (p : pos) : out unit A := get_at g d (inject_Z (fst p)) (inject_Z (snd p)).
  (** ElevationGrid.cpp:14-23, [getNormal( Position )]: the vector (x, y, 1) before it is normalised *)
  Definition get_slopes (g : geo) (d : Z * Z -> Q) (m n : Z) : out unit (Q * Q) :=
    a <~ raster g d (m - 1) n ;; b <~ raster g d (m + 1) n ;;
    a' <~ raster g d m (n - 1) ;; b' <~ raster g d m (n + 1) ;;
    Ok ((a - b) / (g_sx g * 2), (a' - b') / (g_sy g * 2))%Q.
  (** ElevationGrid.cpp:34-57, [getElevation]; the normalisation of the normal cancels in [normal.x() / normal.z()] *)
  Definition get_elevation (g : geo) (d : Z * Z -> Q) (px py : Q) : out unit Q :=
    match to_grid conv g px py with
    | None => Throw tt
    | Some (m, n, _, _) =>
      let c := from_grid g m n in
      s <~ get_slopes g d m n ;; h <~ raster g d m n ;;
      Ok (h + (fst c - px) * fst s + (snd c - py) * snd s)%Q
    end.

  (** Projection.cpp:75-87: one point; [None] stands for the infinities of lines 63-64 *)
  Definition project_one (g : geo) (p : Q * Q * Q) (m : (Z * Z -> option Q) * (Z * Z -> option Q)) : (Z * Z -> option Q) * (Z * Z -> option Q) :=
    match to_grid conv g p.1.1 p.1.2 with
    | None => m
    | Some (x, y, _, _) =>
      (upd (x, y) (Some match m.1 (x, y) with None => p.2 | Some z => if Qlt_le_dec z p.2 then p.2 else z end) m.1,
       upd (x, y) (Some match m.2 (x, y) with None => p.2 | Some z => if Qlt_le_dec p.2 z then p.2 else z end) m.2)
    end.
  (** Projection.cpp:54-89, [updateElevationMap]: (maximum, minimum). Each input cloud comes with the transform to the frame of the grid; [root] is the
      transform of the root node, which line 77 applies as well. *)
  Definition placed (root : aff) (ins : list (aff * list vec)) : list (Q * Q * Q) :=
    i ← ins; v ← i.2; [(this (vx (aapp (amul root i.1) v)), this (vy (aapp (amul root i.1) v)), this (vz (aapp (amul root i.1) v)))].
  Definition project (g : geo) (root : aff) (ins : list (aff * list vec)) : (Z * Z -> option Q) * (Z * Z -> option Q) :=
    foldl (fun m p => project_one g p m) ((fun _ => None), (fun _ => None)) (placed root ins).
End model.

(** [std::max_element] over the patches of a cell with [SurfacePatch::operator<] (MLSPatch.hpp:124-127): the first of the highest means *)
Fixpoint max_element (best : Q) (l : list Q) : Q :=
  match l with [] => best | z :: r => max_element (if Qlt_le_dec best z then z else best) r end.
Definition cells (w h : Z) : list (Z * Z) := x ← seqZ 0 w; y ← seqZ 0 h; [(x, y)].
(** MLSToGrid.cpp:34-64, [updateAll]: [mls] gives the means of the patches of a cell; [(w, h)], [(sx, sy)] describe the input and [g] the output *)
Fixpoint to_grid_loop (g : geo) (mls : Z * Z -> list Q) (cs : list (Z * Z)) (d : Z * Z -> Q) : out unit (Z * Z -> Q) :=
  match cs with
  | [] => Ok d
  | c :: r =>
    match mls c with
    | [] => to_grid_loop g mls r d
    | z :: zs => _ <~ raster g d c.1 c.2 ;; to_grid_loop g mls r (upd c (max_element z zs) d)
    end
  end.
Definition mls_to_grid (w h : Z) (sx sy : Q) (mls : Z * Z -> list Q) (g : geo) (d : Z * Z -> Q) : out unit (Z * Z -> Q) :=
  if bool_decide (w <> g_nx g) && bool_decide (h <> g_ny g) then Throw tt
  else if negb (Qeq_bool sx (g_sx g)) && negb (Qeq_bool sy (g_sy g)) then Throw tt
  else to_grid_loop g mls (cells w h) d.

(** ClassGridProjection.hpp:40-56, the loops of [updateAll] after the check of the alignment, which ensures that the grids have the same number of cells
    (see [aligned]); rows are the outer loop *)
Definition rows (w h : Z) : list (Z * Z) := y ← seqZ 0 h; x ← seqZ 0 w; [(x, y)].
Fixpoint project_classes {A B} (class_map : A -> option B) (cs : list (Z * Z)) (inp : Z * Z -> A) (d : Z * Z -> B) : out (Z * Z -> B) (Z * Z -> B) :=
  match cs with
  | [] => Ok d
  | c :: r => match class_map (inp c) with None => Throw d | Some v => project_classes class_map r inp (upd c v d) end
  end.
(** GridBase.cpp:616-632, [isAlignedWith]; [tf] is the transform between the two grids, [rint] the rounding to an integer *)
Definition aligned (rint : Q -> Z) (tf : aff) (a b : geo) : bool :=
  if bool_decide (g_nx a <> g_nx b) || bool_decide (g_ny a <> g_ny b) || negb (Qeq_bool (g_ox a) (g_ox b)) || negb (Qeq_bool (g_oy a) (g_oy b)) then false
  else let p := aapp tf (Vec (Q2Qc (inject_Z (g_nx b))) (Q2Qc (inject_Z (g_ny b))) 0) in
    bool_decide (rint (this (vx p)) = g_nx b) && bool_decide (rint (this (vy p)) = g_ny b).

(** Grid.hpp:178-193, [getMinMaxValues] for a type whose [numeric_limits::max()] and [numeric_limits::min()] are [hi] and [lo]: (minimum, maximum) *)
Definition min_max (hi lo : Q) (l : list Q) : Q * Q :=
  foldl (fun m v => (if Qlt_le_dec v m.1 then v else m.1, if Qlt_le_dec m.2 v then v else m.2)) (hi, lo) l.

(** GridBase.cpp:596-614, [isCellAlignedWith]; [fa], [fb] are the transforms from the frames of the grids to the root node, [to_int] the conversion of
    a [double] to an [int]. [isZero] is exact here. *)
Definition cell_aligned (to_int : Q -> Z) (fa fb : aff) (a b : geo) : bool :=
  if negb (Qeq_bool (g_sx a) (g_sx b)) || negb (Qeq_bool (g_sy a) (g_sy b)) then false
  else
    let pa := aapp fa (Vec (Q2Qc (fst (from_grid a 0 0))) (Q2Qc (snd (from_grid a 0 0))) 0) in
    let pb := aapp fb (Vec (Q2Qc (fst (from_grid b 0 0))) (Q2Qc (snd (from_grid b 0 0))) 0) in
    let dx := ((this (vx pa) - this (vx pb)) * (1 / g_sx a))%Q in let dy := ((this (vy pa) - this (vy pb)) * (1 / g_sy a))%Q in
    Qeq_bool (inject_Z (to_int dx) - dx) 0 && Qeq_bool (inject_Z (to_int dy) - dy) 0.

(** ** C74: the elevation of a point *)
Lemma raster_ok {A} g (d : Z * Z -> A) x y : a_cell g x y -> raster g d x y = Ok (d (x, y)).
Proof.
  intros [Hx Hy]. unfold raster. destruct (Z.leb_spec 0 x), (Z.ltb_spec x (g_nx g)), (Z.leb_spec 0 y), (Z.ltb_spec y (g_ny g)); try lia. done.
Qed.
Lemma raster_bad {A} g (d : Z * Z -> A) x y : ~ a_cell g x y -> raster g d x y = Bad UB.
Proof.
  intros H. unfold raster, a_cell in *. destruct (Z.leb_spec 0 x), (Z.ltb_spec x (g_nx g)), (Z.leb_spec 0 y), (Z.ltb_spec y (g_ny g)); try done. lia.
Qed.
Definition interior (g : geo) (m n : Z) : Prop := 1 <= m < g_nx g - 1 /\ 1 <= n < g_ny g - 1.
Lemma interior_cells g m n : interior g m n -> a_cell g m n /\ a_cell g (m - 1) n /\ a_cell g (m + 1) n /\ a_cell g m (n - 1) /\ a_cell g m (n + 1).
Proof. unfold interior, a_cell. lia. Qed.
Lemma inject_plus x y : inject_Z (x + y) = (inject_Z x + inject_Z y)%Q.
Proof. apply inject_Z_plus. Qed.
(** If the heights of the cells are those of a plane at the centres of the cells, then the elevation of every point in a cell that is not at the border of
    the grid is the height of the plane at this point. *)
Theorem C74_plane conv g d a b c x y m n : conv_ok conv -> good_geo g -> interior g m n -> in_cell g m n x y ->
  (forall m n, a_cell g m n -> d (m, n) == a * fst (from_grid g m n) + b * snd (from_grid g m n) + c)%Q ->
  exists h, get_elevation conv g d x y = Ok h /\ (h == a * x + b * y + c)%Q.
Proof.
  intros HC Hg HI Hin HP. destruct (interior_cells _ _ _ HI) as (A0&A1&A2&A3&A4).
  destruct (to_grid_index conv g x y m n HC Hg A0 Hin) as (xm&ym&Ht&_). unfold get_elevation. rewrite Ht. unfold get_slopes. rewrite !raster_ok by done. cbn [obind].
  eexists. split; [reflexivity|]. cbn [fst snd]. rewrite !HP by done. destruct Hg as (Hsx&Hsy&_). unfold from_grid. cbn [fst snd].
  replace (m - 1) with (m + -1) by lia. replace (n - 1) with (n + -1) by lia. rewrite !inject_plus. change (inject_Z (-1)) with (-1)%Q. change (inject_Z 1) with 1%Q.
  field. split; lra.
Qed.
(** At the centre of a cell the elevation is the value of the cell, whatever the values of the neighbours are. *)
Theorem C74_centre conv g d m n : conv_ok conv -> good_geo g -> interior g m n ->
  exists h, get_elevation conv g d (fst (from_grid g m n)) (snd (from_grid g m n)) = Ok h /\ (h == d (m, n))%Q.
Proof.
  intros HC Hg HI. destruct (interior_cells _ _ _ HI) as (A0&A1&A2&A3&A4).
  destruct (C31_round_trip conv g m n HC Hg A0) as (xm&ym&Ht&_). unfold get_elevation. rewrite Ht. unfold get_slopes. rewrite !raster_ok by done. cbn [obind].
  eexists. split; [reflexivity|]. cbn [fst snd]. ring.
Qed.
(** Points outside of the grid are refused. *)
Theorem C74_outside conv g d x y : conv_wraps conv -> good_geo g -> g_nx g <= half -> g_ny g <= half -> near g x y -> ~ in_rect g x y ->
  get_elevation conv g d x y = Throw tt.
Proof.
  intros HC Hg HX HY HN HR. unfold get_elevation. destruct (to_grid conv g x y) as [[[[m n] xm] ym]|] eqn:E; [|done].
  exfalso. apply HR. apply (C31_outside conv g x y HC Hg HX HY HN). by rewrite E.
Qed.
(** In the cells at the border of the grid the neighbours outside of the array are read (ElevationGrid.cpp:19-20). *)
Theorem C74_border_refuted conv g d x y m n : conv_ok conv -> good_geo g -> a_cell g m n -> in_cell g m n x y -> ~ interior g m n ->
  get_elevation conv g d x y = Bad UB.
Proof.
  intros HC Hg HA Hin HI. destruct (to_grid_index conv g x y m n HC Hg HA Hin) as (xm&ym&Ht&_). unfold get_elevation. rewrite Ht. unfold get_slopes.
  assert (H : ~ a_cell g (m - 1) n \/ ~ a_cell g (m + 1) n \/ ~ a_cell g m (n - 1) \/ ~ a_cell g m (n + 1)) by (unfold interior, a_cell in *; lia).
  assert (HD : forall u v, raster g d u v = Ok (d (u, v)) \/ raster g d u v = Bad UB).
  { intros u v. unfold raster. destruct ((0 <=? u) && (u <? g_nx g) && (0 <=? v) && (v <? g_ny g)); auto. }
  destruct (HD (m - 1) n) as [E1|E1]; rewrite E1; cbn [obind]; [|done]. destruct (HD (m + 1) n) as [E2|E2]; rewrite E2; cbn [obind]; [|done].
  destruct (HD m (n - 1)) as [E3|E3]; rewrite E3; cbn [obind]; [|done]. destruct (HD m (n + 1)) as [E4|E4]; rewrite E4; cbn [obind]; [|done].
  exfalso. destruct H as [H|[H|[H|H]]]; apply (raster_bad g d) in H; congruence.
Qed.
Example C74_nonvacuous : let g := Geo 4 3 (1 # 2) 1 1 0 in let d := fun c : Z * Z => (2 * fst (from_grid g c.1 c.2) - snd (from_grid g c.1 c.2) + 5)%Q in
  good_geo g /\ interior g 2 1 /\ in_cell g 2 1 (9 # 4) (5 # 4) /\
  exists h, get_elevation (fun z => z) g d (9 # 4) (5 # 4) = Ok h /\ (h == 33 # 4)%Q.
Proof.
  cbn zeta. split; [unfold good_geo, size_end; cbn; repeat split; lia || lra|]. split; [unfold interior; cbn; lia|]. split; [vm_compute; repeat split; congruence|].
  eexists. split; [vm_compute; reflexivity|]. reflexivity.
Qed.

(** ** C75: reading a band *)
Theorem C75_get {A} conv g (d : Z * Z -> A) x y m n : conv_ok conv -> good_geo g -> a_cell g m n -> in_cell g m n x y -> get_at conv g d x y = Ok (d (m, n)).
Proof.
  intros HC Hg HA Hin. destruct (to_grid_index conv g x y m n HC Hg HA Hin) as (xm&ym&Ht&_). unfold get_at. rewrite Ht. by apply raster_ok.
Qed.
Theorem C75_outside {A} conv g (d : Z * Z -> A) x y : conv_wraps conv -> good_geo g -> g_nx g <= half -> g_ny g <= half -> near g x y -> ~ in_rect g x y ->
  get_at conv g d x y = Throw tt.
Proof.
  intros HC Hg HX HY HN HR. unfold get_at. destruct (to_grid conv g x y) as [[[[m n] xm] ym]|] eqn:E; [|done].
  exfalso. apply HR. apply (C31_outside conv g x y HC Hg HX HY HN). by rewrite E.
Qed.
(** [ElevationGrid::get( Position )] returns the value of this cell in grids with cells of size 1 whose offset is zero ... *)
Theorem C75_cell {A} conv g (d : Z * Z -> A) p : conv_ok conv -> good_geo g -> a_cell g (fst p) (snd p) -> g_sx g = 1%Q -> g_sy g = 1%Q -> g_ox g = 0%Q -> g_oy g = 0%Q ->
  get_cell conv g d p = Ok (d p).
Proof.
  intros HC Hg HA H1 H2 H3 H4. unfold get_cell. rewrite (C75_get conv g d _ _ (fst p) (snd p) HC Hg HA); [by destruct p|].
  unfold in_cell. rewrite H1, H2, H3, H4. repeat split; lra.
Qed.
(** ... and a value of another cell, or an exception, in others: the numbers of the cell are taken for coordinates. *)
Theorem C75_cell_refuted : exists conv g p q, conv_ok conv /\ good_geo g /\ a_cell g (fst p) (snd p) /\ a_cell g (fst q) (snd q) /\
  get_cell conv g (fun c : Z * Z => c) p = Ok (1, 1) /\ p <> (1, 1) /\ get_cell conv g (fun c : Z * Z => c) q = Throw tt.
Proof.
  exists (fun z => z), (Geo 10 10 2 2 5 5), (7, 7), (0, 0).
  split; [done|]. split; [unfold good_geo, size_end; cbn; repeat split; lia || lra|]. split; [unfold a_cell; cbn; lia|]. split; [unfold a_cell; cbn; lia|].
  split; [vm_compute; reflexivity|]. split; [done|]. vm_compute. reflexivity.
Qed.

Example C75_nonvacuous : let g := Geo 4 3 (1 # 2) 1 1 0 in good_geo g /\ a_cell g 2 1 /\ in_cell g 2 1 (9 # 4) (5 # 4) /\ get_at (fun z => z) g (fun c : Z * Z => c) (9 # 4) (5 # 4) = Ok (2, 1) /\
  near g (-1) 0 /\ ~ in_rect g (-1) 0.
Proof.
  cbn zeta. split; [unfold good_geo, size_end; cbn; repeat split; lia || lra|]. split; [unfold a_cell; cbn; lia|]. split; [vm_compute; repeat split; congruence|].
  split; [vm_compute; reflexivity|]. split; [vm_compute; repeat split; congruence|]. intros (H&_). vm_compute in H. by apply H.
Qed.

(** ** C76: projecting point clouds on an elevation grid *)
(** [best le m hs]: [m] is the extremum of the heights [hs] with respect to [le], and there is none if there are no heights *)
Definition highest (hs : Q -> Prop) (m : option Q) : Prop :=
  match m with None => forall z, ~ hs z | Some z => hs z /\ forall z', hs z' -> (z' <= z)%Q end.
Definition lowest (hs : Q -> Prop) (m : option Q) : Prop :=
  match m with None => forall z, ~ hs z | Some z => hs z /\ forall z', hs z' -> (z <= z')%Q end.
(** [z] is the height of a vertex that lies above the cell (x, y) *)
Definition height_above (g : geo) (root : aff) (ins : list (aff * list vec)) (x y : Z) (z : Q) : Prop :=
  exists T vs v, (T, vs) ∈ ins /\ v ∈ vs /\ let p := aapp root (aapp T v) in in_cell g x y (this (vx p)) (this (vy p)) /\ z = this (vz p).
Lemma in_cell_fun g x y x' y' u v : good_geo g -> in_cell g x y u v -> in_cell g x' y' u v -> x = x' /\ y = y'.
Proof.
  intros (Hsx&Hsy&_) (H1&H2&H3&H4) (K1&K2&K3&K4).
  assert (forall a b, (inject_Z a < inject_Z b + 1)%Q -> a <= b).
  { intros a b H. change 1%Q with (inject_Z 1) in H. rewrite <-inject_Z_plus in H. rewrite <-Zlt_Qlt in H. lia. }
  split; apply Z.le_antisymm; apply H; nra.
Qed.
Lemma to_grid_cell conv g x y m n xm ym : conv_wraps conv -> good_geo g -> g_nx g <= half -> g_ny g <= half -> near g x y -> to_grid conv g x y = Some (m, n, xm, ym) ->
  a_cell g m n /\ in_cell g m n x y.
Proof.
  intros HC Hg HX HY HN Ht. assert (HR : in_rect g x y) by (apply (C31_outside conv g x y HC Hg HX HY HN); by rewrite Ht).
  destruct (C31_inside conv g x y (proj1 HC) Hg HR) as (m'&n'&xm'&ym'&Ht'&HA&HI&_). rewrite Ht in Ht'. injection Ht' as <- <- <- <-. done.
Qed.
Lemma to_grid_none conv g x y m n : conv_ok conv -> good_geo g -> to_grid conv g x y = None -> a_cell g m n -> ~ in_cell g m n x y.
Proof. intros HC Hg Ht HA HI. destruct (to_grid_index conv g x y m n HC Hg HA HI) as (xm&ym&Ht'&_). congruence. Qed.
Lemma project_fold conv g ps : conv_wraps conv -> good_geo g -> g_nx g <= half -> g_ny g <= half -> (forall p, p ∈ ps -> near g p.1.1 p.1.2) ->
  forall m pre, (forall x y, a_cell g x y -> highest (fun z => exists p, p ∈ pre /\ in_cell g x y p.1.1 p.1.2 /\ z = p.2) (m.1 (x, y)) /\
                                         lowest (fun z => exists p, p ∈ pre /\ in_cell g x y p.1.1 p.1.2 /\ z = p.2) (m.2 (x, y))) ->
  let r := foldl (fun m p => project_one conv g p m) m ps in
  forall x y, a_cell g x y -> highest (fun z => exists p, p ∈ pre ++ ps /\ in_cell g x y p.1.1 p.1.2 /\ z = p.2) (r.1 (x, y)) /\
                              lowest (fun z => exists p, p ∈ pre ++ ps /\ in_cell g x y p.1.1 p.1.2 /\ z = p.2) (r.2 (x, y)).
Proof.
  intros HC Hg HX HY. induction ps as [|p ps IH]; intros HN m pre HM; cbn zeta; cbn [foldl].
  { by rewrite app_nil_r. }
  intros x y HA. replace (pre ++ p :: ps) with ((pre ++ [p]) ++ ps) by (by rewrite <-app_assoc). apply IH; [intros q Hq; apply HN; by right| |done].
  clear x y HA IH. intros x y HA. specialize (HM x y HA). specialize (HN p (elem_of_list_here _ _)). unfold project_one.
  assert (Hext : forall z, (exists q, q ∈ pre ++ [p] /\ in_cell g x y q.1.1 q.1.2 /\ z = q.2) <->
    (exists q, q ∈ pre /\ in_cell g x y q.1.1 q.1.2 /\ z = q.2) \/ (in_cell g x y p.1.1 p.1.2 /\ z = p.2)).
  { intros z. setoid_rewrite elem_of_app. setoid_rewrite elem_of_list_singleton. naive_solver. }
  set (hs := fun z => exists q, q ∈ pre /\ in_cell g x y q.1.1 q.1.2 /\ z = q.2) in *.
  assert (Hsame : ~ in_cell g x y p.1.1 p.1.2 -> highest (fun z => exists q, q ∈ pre ++ [p] /\ in_cell g x y q.1.1 q.1.2 /\ z = q.2) (m.1 (x, y)) /\
     lowest (fun z => exists q, q ∈ pre ++ [p] /\ in_cell g x y q.1.1 q.1.2 /\ z = q.2) (m.2 (x, y))).
  { intros Hno. destruct HM as [M1 M2]. unfold highest, lowest in *. split.
    - destruct (m.1 (x, y)); [|intros z; rewrite Hext; naive_solver]. destruct M1 as [M1 M3]. split; [apply Hext; by left|]. intros z'. rewrite Hext. intros [?|[? _]]; [auto|done].
    - destruct (m.2 (x, y)); [|intros z; rewrite Hext; naive_solver]. destruct M2 as [M1' M3]. split; [apply Hext; by left|]. intros z'. rewrite Hext. intros [?|[? _]]; [auto|done]. }
  destruct (to_grid conv g p.1.1 p.1.2) as [[[[a b] xm] ym]|] eqn:Ht.
  - destruct (to_grid_cell _ _ _ _ _ _ _ _ HC Hg HX HY HN Ht) as [_ Hin]. cbn [fst snd]. unfold upd.
    destruct (decide ((x, y) = (a, b))) as [He|He].
    + injection He as -> ->. destruct HM as [M1 M2]. unfold highest, lowest in *. split.
      * destruct (m.1 (a, b)) as [z|].
        -- destruct M1 as [M1 M3]. destruct (Qlt_le_dec z p.2) as [Hz|Hz].
           ++ split; [apply Hext; by right|]. intros z'. rewrite Hext. intros [Hh|[_ ->]]; [|lra]. specialize (M3 _ Hh). lra.
           ++ split; [apply Hext; by left|]. intros z'. rewrite Hext. intros [Hh|[_ ->]]; [by apply M3|done].
        -- split; [apply Hext; by right|]. intros z'. rewrite Hext. intros [Hh|[_ ->]]; [|lra]. by apply M1 in Hh.
      * destruct (m.2 (a, b)) as [z|].
        -- destruct M2 as [M1' M3]. destruct (Qlt_le_dec p.2 z) as [Hz|Hz].
           ++ split; [apply Hext; by right|]. intros z'. rewrite Hext. intros [Hh|[_ ->]]; [|lra]. specialize (M3 _ Hh). lra.
           ++ split; [apply Hext; by left|]. intros z'. rewrite Hext. intros [Hh|[_ ->]]; [by apply M3|done].
        -- split; [apply Hext; by right|]. intros z'. rewrite Hext. intros [Hh|[_ ->]]; [|lra]. by apply M2 in Hh.
    + apply Hsame. intros Hin'. apply He. by destruct (in_cell_fun g x y a b _ _ Hg Hin' Hin) as [-> ->].
  - apply Hsame. by apply (to_grid_none conv g _ _ x y (proj1 HC) Hg Ht HA).
Qed.
(** Every cell of the two bands holds the largest and the smallest height of the vertices above it, and infinity if there are none; the order of the
    inputs and of their vertices, vertices outside of the grid and the previous content of the bands have no effect. *)
Theorem C76_project conv g root ins : conv_wraps conv -> good_geo g -> g_nx g <= half -> g_ny g <= half ->
  (forall T vs v, (T, vs) ∈ ins -> v ∈ vs -> let p := aapp root (aapp T v) in near g (this (vx p)) (this (vy p))) ->
  forall x y, a_cell g x y -> highest (height_above g root ins x y) ((project conv g root ins).1 (x, y)) /\ lowest (height_above g root ins x y) ((project conv g root ins).2 (x, y)).
Proof.
  intros HC Hg HX HY HN x y HA. unfold project.
  assert (Hpl : forall p, p ∈ placed root ins <-> exists T vs v, (T, vs) ∈ ins /\ v ∈ vs /\ let q := aapp root (aapp T v) in p = (this (vx q), this (vy q), this (vz q))).
  { intros p. unfold placed. rewrite elem_of_list_bind. split.
    - intros ([T vs]&Hp&Hi). apply elem_of_list_bind in Hp as (v&Hp&Hv). apply elem_of_list_singleton in Hp. cbn [fst snd] in *. rewrite !aapp_mul in Hp. eauto 10.
    - intros (T&vs&v&Hi&Hv&Hp). exists (T, vs). split; [|done]. apply elem_of_list_bind. exists v. split; [|done]. apply elem_of_list_singleton. cbn [fst snd]. by rewrite !aapp_mul. }
  pose proof (project_fold conv g (placed root ins) HC Hg HX HY) as HF.
  specialize (HF ltac:(intros p (T&vs&v&Hi&Hv&->)%Hpl; cbn [fst snd]; by apply (HN T vs v))).
  specialize (HF ((fun _ => None), (fun _ => None)) []). cbn zeta in HF. cbn [app] in HF.
  destruct (HF ltac:(intros x' y' _; cbn [fst snd]; split; intros z (p&Hp&_); by apply elem_of_nil in Hp) x y HA) as [H1 H2].
  assert (Hext : forall z, (exists p, p ∈ placed root ins /\ in_cell g x y p.1.1 p.1.2 /\ z = p.2) <-> height_above g root ins x y z).
  { intros z. unfold height_above. split.
    - intros (p&(T&vs&v&Hi&Hv&->)%Hpl&Hin&->). cbn [fst snd] in *. exists T, vs, v. cbn zeta. auto.
    - intros (T&vs&v&Hi&Hv&Hin&->). eexists. split; [apply Hpl; exists T, vs, v; cbn zeta; eauto|]. cbn [fst snd]. auto. }
  split.
  - unfold highest in *. match goal with |- match ?m with _ => _ end => destruct m as [z|] end; [|intros z Hz; apply Hext in Hz; by apply H1 in Hz].
    destruct H1 as [H1 H3]. split; [by apply Hext|]. intros z' Hz'. apply H3. by apply Hext.
  - unfold lowest in *. match goal with |- match ?m with _ => _ end => destruct m as [z|] end; [|intros z Hz; apply Hext in Hz; by apply H2 in Hz].
    destruct H2 as [H2 H3]. split; [by apply Hext|]. intros z' Hz'. apply H3. by apply Hext.
Qed.
(** If the root node has a transform of its own, it is applied although the coordinates are already in the frame of the grid (Projection.cpp:77): with the
    heights measured in the frame of the grid the claim fails. *)
Theorem C76_root_refuted : exists conv g root ins x y, conv_wraps conv /\ good_geo g /\ a_cell g x y /\ ~ highest (height_above g aone ins x y) ((project conv g root ins).1 (x, y)).
Proof.
  exists (fun z => if z <? 0 then z + size_end else z), (Geo 4 4 1 1 0 0), (Aff 1 0 0 0 1 0 0 0 1 0 0 (Q2Qc 7)), [(aone, [Vec (Q2Qc (1 # 2)) (Q2Qc (1 # 2)) 0])], 0, 0.
  split; [split; intros z Hz; unfold size_end, half in *; destruct (Z.ltb_spec z 0); lia|].
  split; [unfold good_geo, size_end; cbn; repeat split; lia || lra|]. split; [unfold a_cell; cbn; lia|].
  match goal with |- ~ highest _ ?m => assert (Hm : m = Some (7 # 1)) by (vm_compute; reflexivity); rewrite Hm end.
  intros [(T&vs&v&Hi&Hv&_&Hz) _]. apply elem_of_list_singleton in Hi. injection Hi as -> ->. apply elem_of_list_singleton in Hv as ->. vm_compute in Hz. discriminate Hz.
Qed.
Example C76_nonvacuous : let conv := fun z => if z <? 0 then z + size_end else z in let g := Geo 4 4 1 1 0 0 in
  let pt x y z := Vec (Q2Qc x) (Q2Qc y) (Q2Qc z) in
  let ins := [(aone, [pt (1 # 2) (1 # 2) 3; pt (3 # 2) (1 # 2) 1]); (aone, [pt (1 # 4) (1 # 2) 5; pt 9 9 9])]%Q in
  conv_wraps conv /\ good_geo g /\ (project conv g aone ins).1 (0, 0) = Some 5%Q /\ (project conv g aone ins).2 (0, 0) = Some 3%Q /\ (project conv g aone ins).1 (2, 2) = None.
Proof.
  cbn zeta. split; [split; intros z Hz; unfold size_end, half in *; destruct (Z.ltb_spec z 0); lia|].
  split; [unfold good_geo, size_end; cbn; repeat split; lia || lra|]. split; [|split]; vm_compute; reflexivity.
Qed.

(** ** C77: the heights of a multi-level surface grid *)
Lemma elem_of_cells w h x y : (x, y) ∈ cells w h <-> 0 <= x < w /\ 0 <= y < h.
Proof.
  unfold cells. rewrite elem_of_list_bind. split.
  - intros (x'&Hy&Hx). apply elem_of_list_bind in Hy as (y'&He&Hy). apply elem_of_list_singleton in He. injection He as -> ->. apply elem_of_seqZ in Hx, Hy. lia.
  - intros [Hx Hy]. exists x. split; [|apply elem_of_seqZ; lia]. apply elem_of_list_bind. exists y. split; [by apply elem_of_list_singleton|apply elem_of_seqZ; lia].
Qed.
Lemma max_element_spec l best : let m := max_element best l in (m = best \/ m ∈ l) /\ (best <= m)%Q /\ forall z, z ∈ l -> (z <= m)%Q.
Proof.
  revert best. induction l as [|z l IH]; intros best; cbn zeta; cbn [max_element].
  - split; [by left|]. split; [lra|]. intros z Hz. by apply elem_of_nil in Hz.
  - destruct (Qlt_le_dec best z) as [H|H].
    + destruct (IH z) as ([He|He]&Hb&Ha); cbn zeta in *.
      * split; [right; rewrite He; left|]. split; [lra|]. intros z' [->|Hz]%elem_of_cons; auto.
      * split; [right; by right|]. split; [lra|]. intros z' [->|Hz]%elem_of_cons; auto.
    + destruct (IH best) as ([He|He]&Hb&Ha); cbn zeta in *.
      * split; [by left|]. split; [lra|]. intros z' [->|Hz]%elem_of_cons; auto. lra.
      * split; [right; by right|]. split; [lra|]. intros z' [->|Hz]%elem_of_cons; auto. lra.
Qed.
Lemma to_grid_loop_ok g mls cs : (forall x y, (x, y) ∈ cs -> a_cell g x y) -> forall d, exists d', to_grid_loop g mls cs d = Ok d' /\
  forall c, (c ∈ cs -> match mls c with [] => d' c = d c | z :: zs => d' c = max_element z zs end) /\ (c ∉ cs -> d' c = d c).
Proof.
  induction cs as [|[x y] cs IH]; intros HA d; cbn [to_grid_loop].
  { exists d. split; [done|]. intros c. split; [intros H; by apply elem_of_nil in H|done]. }
  assert (HA' : forall x y, (x, y) ∈ cs -> a_cell g x y) by (intros; apply HA; by right).
  destruct (mls (x, y)) as [|z zs] eqn:Em.
  - destruct (IH HA' d) as (d'&Hd&HP). exists d'. split; [done|]. intros c. destruct (HP c) as [H1 H2]. split.
    + intros [->|Hc]%elem_of_cons; [|by apply H1]. destruct (decide ((x, y) ∈ cs)) as [Hi|Hi]; [by apply H1|]. rewrite Em. by apply H2.
    + intros Hc. apply H2. intros Hi. apply Hc. by right.
  - cbn [fst snd]. rewrite raster_ok by (apply HA; left). cbn [obind]. destruct (IH HA' (upd (x, y) (max_element z zs) d)) as (d'&Hd&HP). exists d'. split; [done|].
    intros c. destruct (HP c) as [H1 H2]. split.
    + intros [->|Hc]%elem_of_cons.
      * destruct (decide ((x, y) ∈ cs)) as [Hi|Hi]; [specialize (H1 Hi); by rewrite Em in H1 |- *|]. rewrite Em, H2 by done. unfold upd. by rewrite decide_True.
      * specialize (H1 Hc). destruct (mls c) eqn:Emc; [|done]. rewrite H1. unfold upd. destruct (decide (c = (x, y))) as [->|]; [congruence|done].
    + intros Hc. rewrite H2 by (intros Hi; apply Hc; by right). unfold upd. destruct (decide (c = (x, y))) as [->|]; [|done]. destruct Hc. left.
Qed.
(** With grids of the same shape every cell with patches gets the mean of a highest patch, every other cell keeps its value. *)
Theorem C77_heights w h sx sy mls g d : w = g_nx g -> h = g_ny g -> sx == g_sx g -> sy == g_sy g ->
  exists d', mls_to_grid w h sx sy mls g d = Ok d' /\
  forall x y, a_cell g x y -> (mls (x, y) = [] -> d' (x, y) = d (x, y)) /\ (mls (x, y) <> [] -> d' (x, y) ∈ mls (x, y) /\ forall z, z ∈ mls (x, y) -> (z <= d' (x, y))%Q).
Proof.
  intros -> -> Hx Hy. unfold mls_to_grid. rewrite !bool_decide_eq_false_2 by auto. cbn [andb].
  apply Qeq_bool_iff in Hx, Hy. rewrite Hx. cbn [negb andb].
  destruct (to_grid_loop_ok g mls (cells (g_nx g) (g_ny g))) with (d := d) as (d'&Hd&HP); [by intros x y ?%elem_of_cells|].
  exists d'. split; [done|]. intros x y HA. destruct (HP (x, y)) as [H1 _]. specialize (H1 ltac:(by apply elem_of_cells)). destruct (mls (x, y)) as [|z zs] eqn:Em; [done|].
  split; [done|]. intros _. rewrite H1. destruct (max_element_spec zs z) as ([He|He]&Hb&Ha); cbn zeta in *.
  - split; [rewrite He; left|]. intros z' [->|Hz]%elem_of_cons; auto.
  - split; [by right|]. intros z' [->|Hz]%elem_of_cons; auto.
Qed.
(** Grids that differ in both dimensions, or in both scales, are refused. *)
Theorem C77_refused w h sx sy mls g d : (w <> g_nx g /\ h <> g_ny g) \/ (~ sx == g_sx g /\ ~ sy == g_sy g)%Q -> mls_to_grid w h sx sy mls g d = Throw tt.
Proof.
  intros H. unfold mls_to_grid. destruct (bool_decide (w <> g_nx g) && bool_decide (h <> g_ny g)) eqn:E; [done|]. destruct H as [[H1 H2]|[H1 H2]].
  - by rewrite !bool_decide_eq_true_2 in E.
  - destruct (Qeq_bool sx (g_sx g)) eqn:E1; [by apply Qeq_bool_iff in E1|]. destruct (Qeq_bool sy (g_sy g)) eqn:E2; [by apply Qeq_bool_iff in E2|]. done.
Qed.
(** A grid that differs in one dimension only is not refused, and is written outside of its bounds. *)
Theorem C77_size_refuted : exists w h sx sy mls g d, w <> g_nx g /\ mls_to_grid w h sx sy mls g d = Bad UB.
Proof. exists 3, 2, 1%Q, 1%Q, (fun _ => [1%Q]), (Geo 2 2 1 1 0 0), (fun _ => 0%Q). split; [done|]. vm_compute. reflexivity. Qed.
(** Grids of different scales are not refused if one of the scales agrees: the values are copied although the cells lie elsewhere. *)
Theorem C77_scale_refuted : exists w h sx sy mls g d, ~ (sx == g_sx g)%Q /\ exists d', mls_to_grid w h sx sy mls g d = Ok d'.
Proof. exists 2, 2, (1 # 2)%Q, 1%Q, (fun _ => [1%Q]), (Geo 2 2 1 1 0 0), (fun _ => 0%Q). split; [done|]. eexists. vm_compute. reflexivity. Qed.
(** A cell that has lost its patches keeps the height of an earlier update. *)
Theorem C77_stale_refuted : exists w h sx sy (mls1 mls2 : Z * Z -> list Q) g d d1 d2, mls_to_grid w h sx sy mls1 g d = Ok d1 /\ mls_to_grid w h sx sy mls2 g d1 = Ok d2 /\
  exists d2', mls_to_grid w h sx sy mls2 g d = Ok d2' /\ d2 (0, 0) <> d2' (0, 0).
Proof.
  exists 2, 2, 1%Q, 1%Q, (fun _ => [1%Q]), (fun _ => []), (Geo 2 2 1 1 0 0), (fun _ => 0%Q). do 2 eexists.
  split; [vm_compute; reflexivity|]. split; [vm_compute; reflexivity|]. eexists. split; [vm_compute; reflexivity|]. vm_compute. discriminate.
Qed.
Example C77_nonvacuous : let g := Geo 2 2 1 1 0 0 in let mls := fun c : Z * Z => if decide (c = (1, 0)) then [1; 5; 3]%Q else [] in
  match mls_to_grid 2 2 1 1 mls g (fun _ => 9%Q) with Ok d => d (1, 0) = 5%Q /\ d (0, 0) = 9%Q | _ => False end.
Proof. vm_compute. split; reflexivity. Qed.

(** ** C78: projecting classes *)
Lemma elem_of_rows w h x y : (x, y) ∈ rows w h <-> 0 <= x < w /\ 0 <= y < h.
Proof.
  unfold rows. rewrite elem_of_list_bind. split.
  - intros (y'&Hx&Hy). apply elem_of_list_bind in Hx as (x'&He&Hx). apply elem_of_list_singleton in He. injection He as -> ->. apply elem_of_seqZ in Hx, Hy. lia.
  - intros [Hx Hy]. exists y. split; [|apply elem_of_seqZ; lia]. apply elem_of_list_bind. exists x. split; [by apply elem_of_list_singleton|apply elem_of_seqZ; lia].
Qed.
Lemma project_classes_ok {A B} (cm : A -> option B) cs inp : forall d,
  ((forall c, c ∈ cs -> is_Some (cm (inp c))) -> exists d', project_classes cm cs inp d = Ok d' /\ (forall c, c ∈ cs -> cm (inp c) = Some (d' c)) /\ forall c, c ∉ cs -> d' c = d c) /\
  ((exists c, c ∈ cs /\ cm (inp c) = None) -> exists d', project_classes cm cs inp d = Throw d').
Proof.
  induction cs as [|c cs IH]; intros d; cbn [project_classes].
  { split; [|intros (c&Hc&_); by apply elem_of_nil in Hc]. intros _. exists d. split; [done|]. split; [intros c Hc; by apply elem_of_nil in Hc|done]. }
  destruct (cm (inp c)) as [v|] eqn:Ec.
  - destruct (IH (upd c v d)) as [H1 H2]. split.
    + intros H. destruct H1 as (d'&Hd&Hi&Ho); [intros; apply H; by right|]. exists d'. split; [done|]. split.
      * intros c' [->|Hc]%elem_of_cons; [|auto]. destruct (decide (c ∈ cs)) as [|Hn]; [auto|]. rewrite Ec, Ho by done. unfold upd. by rewrite decide_True.
      * intros c' Hc. rewrite Ho by (intros ?; apply Hc; by right). unfold upd. destruct (decide (c' = c)) as [->|]; [|done]. destruct Hc. left.
    + intros (c'&[->|Hc]%elem_of_cons&Hn); [congruence|]. apply H2. eauto.
  - split; [|eauto]. intros H. destruct (H c (elem_of_list_here _ _)) as [v Hv]. congruence.
Qed.
(** If every class of the input has an image, each cell of the output is the image of the class of the same cell of the input; otherwise an exception is raised. *)
Theorem C78_project {A B} (cm : A -> option B) w h inp d :
  ((forall x y, 0 <= x < w -> 0 <= y < h -> is_Some (cm (inp (x, y)))) ->
    exists d', project_classes cm (rows w h) inp d = Ok d' /\ forall x y, 0 <= x < w -> 0 <= y < h -> cm (inp (x, y)) = Some (d' (x, y))) /\
  ((exists x y, 0 <= x < w /\ 0 <= y < h /\ cm (inp (x, y)) = None) -> exists d', project_classes cm (rows w h) inp d = Throw d').
Proof.
  destruct (project_classes_ok cm (rows w h) inp d) as [H1 H2]. split.
  - intros H. destruct H1 as (d'&Hd&Hi&_); [intros [x y] [? ?]%elem_of_rows; auto|]. exists d'. split; [done|]. intros x y Hx Hy. apply Hi. by apply elem_of_rows.
  - intros (x&y&Hx&Hy&Hn). apply H2. exists (x, y). split; [by apply elem_of_rows|done].
Qed.
(** The test passes for grids of the same shape in the same frame, whatever the rounding does to numbers that are not integers; and no grids of different
    dimensions or offsets pass it. *)
Theorem C78_aligned rint a b : (forall z, rint (this (Q2Qc (inject_Z z))) = z) -> g_nx a = g_nx b -> g_ny a = g_ny b -> (g_ox a == g_ox b)%Q -> (g_oy a == g_oy b)%Q ->
  aligned rint aone a b = true.
Proof.
  intros Hr Hnx Hny Hx Hy. unfold aligned. rewrite !bool_decide_eq_false_2 by auto. apply Qeq_bool_iff in Hx, Hy. rewrite Hx, Hy. cbn [negb orb].
  rewrite aapp_1. cbn zeta. cbn [vx vy]. rewrite !Hr. by rewrite !bool_decide_eq_true_2.
Qed.
Theorem C78_aligned_only rint tf a b : aligned rint tf a b = true -> g_nx a = g_nx b /\ g_ny a = g_ny b /\ (g_ox a == g_ox b)%Q /\ (g_oy a == g_oy b)%Q.
Proof.
  unfold aligned. destruct (_ || _) eqn:E; [done|]. intros _. apply orb_false_iff in E as [E E4]. apply orb_false_iff in E as [E E3]. apply orb_false_iff in E as [E1 E2].
  apply bool_decide_eq_false in E1, E2. apply negb_false_iff in E3, E4. apply Qeq_bool_iff in E3, E4. split; [by apply dec_stable|]. split; [by apply dec_stable|]. done.
Qed.
(** Grids whose frames are shifted against each other by more than half a unit do not pass it either, if [rint] rounds to a nearest integer. *)
Theorem C78_apart rint x y z a b : (forall q, inject_Z (rint q) - (1 # 2) <= q <= inject_Z (rint q) + (1 # 2))%Q ->
  aligned rint (Aff 1 0 0 0 1 0 0 0 1 x y z) a b = true -> (- (1 # 2) <= this x <= 1 # 2)%Q /\ (- (1 # 2) <= this y <= 1 # 2)%Q.
Proof.
  intros Hr. unfold aligned. destruct (_ || _); [done|]. cbn zeta. set (p := aapp _ _). intros H. apply andb_true_iff in H as [H1 H2]. apply bool_decide_eq_true in H1, H2.
  assert (E1 : (this (vx p) == inject_Z (g_nx b) + this x)%Q).
  { replace (vx p) with (Q2Qc (inject_Z (g_nx b)) + x)%Qc by (subst p; unfold aapp; cbn; ring). cbn [this Qcplus Q2Qc]. rewrite !Qred_correct. reflexivity. }
  assert (E2 : (this (vy p) == inject_Z (g_ny b) + this y)%Q).
  { replace (vy p) with (Q2Qc (inject_Z (g_ny b)) + y)%Qc by (subst p; unfold aapp; cbn; ring). cbn [this Qcplus Q2Qc]. rewrite !Qred_correct. reflexivity. }
  pose proof (Hr (this (vx p))) as K1. pose proof (Hr (this (vy p))) as K2. rewrite H1 in K1. rewrite H2 in K2. clear H1 H2 Hr.
  set (u := this (vx p)) in *. set (v := this (vy p)) in *. clearbody u v. set (i := this x) in *. set (j := this y) in *. clearbody i j. lra.
Qed.
Example C78_apart_nonvacuous : (forall q, inject_Z (Qfloor (q + (1 # 2))) - (1 # 2) <= q <= inject_Z (Qfloor (q + (1 # 2))) + (1 # 2))%Q /\
  aligned (fun q => Qfloor (q + (1 # 2))) (Aff 1 0 0 0 1 0 0 0 1 (Q2Qc (1 # 4)) 0 0) (Geo 4 4 1 1 0 0) (Geo 4 4 1 1 0 0) = true /\
  aligned (fun q => Qfloor (q + (1 # 2))) (Aff 1 0 0 0 1 0 0 0 1 0 (Q2Qc 1) 0) (Geo 4 4 1 1 0 0) (Geo 4 4 1 1 0 0) = false.
Proof.
  split; [|split; vm_compute; reflexivity]. intros q. pose proof (Qfloor_le (q + (1 # 2))) as H1. pose proof (Qlt_floor (q + (1 # 2))) as H2.
  rewrite inject_Z_plus in H2. set (f := inject_Z _) in *. change (inject_Z 1) with 1%Q in H2. lra.
Qed.
(** The test does not look at the scale: grids whose cells have different sizes pass it, so that a cell of the output gets the class of another place. *)
Theorem C78_scale_refuted : exists rint a b, (forall z, rint (this (Q2Qc (inject_Z z))) = z) /\ good_geo a /\ good_geo b /\ aligned rint aone a b = true /\
  exists x y u v, a_cell a x y /\ in_cell a x y u v /\ ~ in_cell b x y u v.
Proof.
  exists (fun q => Qfloor q), (Geo 4 4 1 1 0 0), (Geo 4 4 2 2 0 0).
  split; [intros z; cbn [this Q2Qc]; rewrite (Qfloor_comp _ _ (Qred_correct (inject_Z z))); apply Qfloor_Z|].
  do 2 (split; [unfold good_geo, size_end; cbn; repeat split; lia || lra|]). split; [vm_compute; reflexivity|].
  exists 2, 2, (5 # 2), (5 # 2). split; [unfold a_cell; cbn; lia|]. split; [vm_compute; repeat split; congruence|]. intros (H&_). vm_compute in H. by apply H.
Qed.
(** Nor does it look at the size of the cells when it compares the frames: with cells smaller than a unit it passes for frames that are a cell apart. *)
Theorem C78_shift_refuted : exists rint tf a b, (forall z, rint (this (Q2Qc (inject_Z z))) = z) /\ good_geo a /\ a = b /\ aligned rint tf a b = true /\
  exists x y u v, a_cell a x y /\ in_cell a x y u v /\ let p := aapp tf (Vec (Q2Qc u) (Q2Qc v) 0) in ~ in_cell b x y (this (vx p)) (this (vy p)).
Proof.
  exists (fun q => Qfloor (q + (1 # 2))), (Aff 1 0 0 0 1 0 0 0 1 (Q2Qc (1 # 4)) 0 0), (Geo 4 4 (1 # 4) (1 # 4) 0 0), (Geo 4 4 (1 # 4) (1 # 4) 0 0).
  split. { intros z. cbn [this Q2Qc]. rewrite (Qfloor_comp (Qred (inject_Z z) + (1 # 2)) (inject_Z z + (1 # 2))) by (by rewrite Qred_correct).
    pose proof (Qfloor_le (inject_Z z + (1 # 2))) as H1. pose proof (Qlt_floor (inject_Z z + (1 # 2))) as H2. set (f := Qfloor _) in *.
    rewrite inject_Z_plus in H2. assert (K1 : (inject_Z f < inject_Z (z + 1))%Q) by (rewrite inject_Z_plus; change (inject_Z 1) with 1%Q; lra).
    assert (K2 : (inject_Z z < inject_Z (f + 1))%Q) by (rewrite inject_Z_plus; lra). rewrite <-Zlt_Qlt in K1, K2. lia. }
  split; [unfold good_geo, size_end; cbn; repeat split; lia || lra|]. split; [done|]. split; [vm_compute; reflexivity|].
  exists 2, 2, (5 # 8), (5 # 8). split; [unfold a_cell; cbn; lia|]. split; [vm_compute; repeat split; congruence|]. cbn zeta. intros (_&H&_). vm_compute in H. discriminate H.
Qed.
Example C78_nonvacuous : let cm := fun c : Z => if c =? 1 then Some 10 else if c =? 2 then Some 20 else None in
  let inp := fun c : Z * Z => if c.1 =? 0 then 1 else 2 in
  (forall x y, 0 <= x < 2 -> 0 <= y < 2 -> is_Some (cm (inp (x, y)))) /\ (exists x y, 0 <= x < 2 /\ 0 <= y < 2 /\ cm ((fun _ : Z * Z => 3) (x, y)) = None) /\
  match project_classes cm (rows 2 2) inp (fun _ => 0) with Ok d => d (0, 1) = 10 /\ d (1, 1) = 20 | _ => False end.
Proof.
  cbn zeta. split; [intros x y _ _; cbn [fst]; destruct (x =? 0); vm_compute; eauto|]. split; [exists 0, 0; vm_compute; repeat split; congruence|]. vm_compute. split; reflexivity.
Qed.

(** ** C79: the smallest and the largest value of a band *)
Lemma min_max_fold l : forall m, let r := foldl (fun m v => (if Qlt_le_dec v m.1 then v else m.1, if Qlt_le_dec m.2 v then v else m.2)) m l in
  (r.1 = m.1 \/ r.1 ∈ l) /\ (r.1 <= m.1)%Q /\ (forall v, v ∈ l -> (r.1 <= v)%Q) /\ (r.2 = m.2 \/ r.2 ∈ l) /\ (m.2 <= r.2)%Q /\ (forall v, v ∈ l -> (v <= r.2)%Q).
Proof.
  induction l as [|v l IH]; intros m; cbn zeta; cbn [foldl].
  { split; [by left|]. split; [lra|]. split; [intros v Hv; by apply elem_of_nil in Hv|]. split; [by left|]. split; [lra|]. intros v Hv; by apply elem_of_nil in Hv. }
  destruct (IH (if Qlt_le_dec v m.1 then v else m.1, if Qlt_le_dec m.2 v then v else m.2)) as (H1&H2&H3&H4&H5&H6). cbn [fst snd] in *.
  set (r := foldl _ _ l) in *.
  assert (K2 : (r.1 <= v /\ r.1 <= m.1)%Q) by (destruct (Qlt_le_dec v m.1); lra). assert (K5 : (v <= r.2 /\ m.2 <= r.2)%Q) by (destruct (Qlt_le_dec m.2 v); lra).
  split; [destruct H1 as [H1|H1]; [|right; by right]; destruct (Qlt_le_dec v m.1); rewrite H1; [right; left|by left]|]. split; [lra|].
  split; [intros v' [->|Hv]%elem_of_cons; [lra|auto]|].
  split; [destruct H4 as [H4|H4]; [|right; by right]; destruct (Qlt_le_dec m.2 v); rewrite H4; [right; left|by left]|]. split; [lra|].
  intros v' [->|Hv]%elem_of_cons; [lra|auto].
Qed.
(** The minimum is a smallest value of the grid. The maximum is a largest value of the grid if some value lies above [numeric_limits::min()], which for integer
    types is the smallest value of the type. *)
Theorem C79_min_max hi lo l : l <> [] -> (forall v, v ∈ l -> (v <= hi)%Q) -> let r := min_max hi lo l in
  ((exists v, v ∈ l /\ v == r.1)%Q /\ forall v, v ∈ l -> (r.1 <= v)%Q) /\
  ((exists v, v ∈ l /\ lo <= v)%Q -> (exists v, v ∈ l /\ v == r.2)%Q /\ forall v, v ∈ l -> (v <= r.2)%Q).
Proof.
  intros Hne Hhi. cbn zeta. unfold min_max. destruct (min_max_fold l (hi, lo)) as (H1&H2&H3&H4&H5&H6). cbn [fst snd] in *. set (r := foldl _ _ l) in *. split.
  - split; [|done]. destruct H1 as [H1|H1]; [|exists r.1; split; [done|lra]]. destruct l as [|v l]; [done|]. exists v. split; [left|].
    specialize (H3 v (elem_of_list_here _ _)). specialize (Hhi v (elem_of_list_here _ _)). rewrite H1 in H3 |- *. lra.
  - intros (v&Hv&Hlo). split; [|done]. destruct H4 as [H4|H4]; [|exists r.2; split; [done|lra]]. exists v. split; [done|]. specialize (H6 v Hv). rewrite H4 in H6 |- *. lra.
Qed.
(** For floating point grids [numeric_limits::min()] is the smallest positive number: the maximum of a grid of negative values is wrong. *)
Theorem C79_negative_refuted lo : (0 < lo)%Q -> exists hi l, l <> [] /\ (forall v, v ∈ l -> (v <= hi)%Q) /\ forall v, v ∈ l -> ~ (v == (min_max hi lo l).2)%Q.
Proof.
  intros Hlo. exists 10%Q, [(-1)%Q; (-2)%Q]. split; [done|]. split; [intros v [->|[->|Hv]%elem_of_cons]%elem_of_cons; [vm_compute; congruence..|by apply elem_of_nil in Hv]|].
  intros v Hv. unfold min_max. destruct (min_max_fold [(-1)%Q; (-2)%Q] (10%Q, lo)) as (_&_&_&_&H5&_). cbn [fst snd] in H5. set (r := foldl _ _ _) in *.
  assert (v < 0)%Q; [|lra]. by apply elem_of_cons in Hv as [->|[->|Hv]%elem_of_cons]; [..|apply elem_of_nil in Hv].
Qed.
Example C79_nonvacuous : min_max 1000 (1 # 1000) [3; -2; 7; 5]%Q = (-2, 7)%Q /\ (exists v, v ∈ [3; -2; 7; 5]%Q /\ (1 # 1000) <= v)%Q.
Proof. split; [vm_compute; reflexivity|]. exists 3%Q. split; [left|vm_compute; congruence]. Qed.

(** ** C80: grids whose cells coincide *)
(** [translation f]: the frame is moved, but not turned *)
Definition translation (f : aff) : Prop := exists x y z, f = Aff 1 0 0 0 1 0 0 0 1 x y z.
(** the centre of a cell in the frame of the root node *)
Definition world_centre (f : aff) (g : geo) (m n : Z) : vec := aapp f (Vec (Q2Qc (fst (from_grid g m n))) (Q2Qc (snd (from_grid g m n))) 0).
Definition int_conv (to_int : Q -> Z) : Prop := forall q z, (q == inject_Z z)%Q -> -2147483648 <= z < 2147483648 -> to_int q = z.
Lemma translate_x f g : translation f -> exists x y, forall m n, (this (vx (world_centre f g m n)) == fst (from_grid g m n) + this x /\ this (vy (world_centre f g m n)) == snd (from_grid g m n) + this y)%Q.
Proof.
  intros (x&y&z&->). exists x, y. intros m' n'. unfold world_centre. generalize (fst (from_grid g m' n')), (snd (from_grid g m' n')). intros u v.
  assert (Hv : aapp (Aff 1 0 0 0 1 0 0 0 1 x y z) (Vec (Q2Qc u) (Q2Qc v) 0) = Vec (Q2Qc u + x) (Q2Qc v + y) z) by (unfold aapp; cbn; f_equal; ring).
  rewrite Hv. cbn [vx vy]. unfold Qcplus. cbn [this Q2Qc]. rewrite !Qred_correct. split; reflexivity.
Qed.
(** For frames that are not turned the test holds exactly if the cells have the same size and the cells of one grid are the cells of the other one, renumbered
    by a shift (of less than 2^31 cells). *)
Theorem C80_cells to_int fa fb a b : int_conv to_int -> good_geo a -> good_geo b -> translation fa -> translation fb ->
  (forall i j, (forall m n, this (vx (world_centre fa a m n)) == this (vx (world_centre fb b (m + i) (n + j))) /\ this (vy (world_centre fa a m n)) == this (vy (world_centre fb b (m + i) (n + j))))%Q ->
    -2147483648 <= i < 2147483648 /\ -2147483648 <= j < 2147483648) ->
  cell_aligned to_int fa fb a b = true <->
  (g_sx a == g_sx b /\ g_sy a == g_sy b)%Q /\
  exists i j, forall m n, (this (vx (world_centre fa a m n)) == this (vx (world_centre fb b (m + i) (n + j))) /\ this (vy (world_centre fa a m n)) == this (vy (world_centre fb b (m + i) (n + j))))%Q.
Proof.
  intros HC (Hax&Hay&_) (Hbx&Hby&_) Ta Tb Hrange.
  destruct (translate_x fa a Ta) as (xa&ya&Ha). destruct (translate_x fb b Tb) as (xb&yb&Hb).
  unfold cell_aligned. fold (world_centre fa a 0 0). fold (world_centre fb b 0 0). cbn zeta.
  set (dx := ((this (vx (world_centre fa a 0 0)) - this (vx (world_centre fb b 0 0))) * (1 / g_sx a))%Q).
  set (dy := ((this (vy (world_centre fa a 0 0)) - this (vy (world_centre fb b 0 0))) * (1 / g_sy a))%Q).
  assert (Hshift : forall i j, (g_sx a == g_sx b)%Q -> (g_sy a == g_sy b)%Q -> (dx == inject_Z i)%Q -> (dy == inject_Z j)%Q ->
    forall m n, (this (vx (world_centre fa a m n)) == this (vx (world_centre fb b (m + i) (n + j))) /\ this (vy (world_centre fa a m n)) == this (vy (world_centre fb b (m + i) (n + j))))%Q).
  { intros i j Hx Hy Hi Hj m n. destruct (Ha m n) as [A1 A2]. destruct (Hb (m + i) (n + j)) as [B1 B2]. destruct (Ha 0 0) as [A3 A4]. destruct (Hb 0 0) as [B3 B4].
    rewrite A1, A2, B1, B2. unfold dx in Hi. unfold dy in Hj. rewrite A3, B3 in Hi. rewrite A4, B4 in Hj. clear - Hax Hay Hx Hy Hi Hj. unfold from_grid in *. cbn [fst snd] in *.
    rewrite !inject_Z_plus, <-Hi, <-Hj, <-Hx, <-Hy. change (inject_Z 0) with 0%Q. split; field; lra. }
  destruct (Qeq_bool (g_sx a) (g_sx b)) eqn:Ex, (Qeq_bool (g_sy a) (g_sy b)) eqn:Ey; cbn [negb orb].
  - apply Qeq_bool_iff in Ex, Ey. rewrite andb_true_iff, !Qeq_bool_iff. split.
    + intros [H1 H2]. split; [done|]. exists (to_int dx), (to_int dy). apply Hshift; lra || done.
    + intros (_&i&j&HM). destruct (Hrange i j HM) as [Ri Rj]. specialize (HM 0 0) as [M1 M2].
      destruct (Ha 0 0) as [A3 A4]. destruct (Hb 0 0) as [B3 B4]. destruct (Hb (0 + i) (0 + j)) as [B1 B2].
      assert (Di : (dx == inject_Z i)%Q). { unfold dx. rewrite B3, M1, B1. unfold from_grid. cbn [fst snd]. rewrite inject_Z_plus, Ex. change (inject_Z 0) with 0%Q. field. lra. }
      assert (Dj : (dy == inject_Z j)%Q). { unfold dy. rewrite B4, M2, B2. unfold from_grid. cbn [fst snd]. rewrite inject_Z_plus, Ey. change (inject_Z 0) with 0%Q. field. lra. }
      rewrite (HC _ _ Di Ri), (HC _ _ Dj Rj), Di, Dj. split; ring.
  - split; [done|]. intros ((_&H)&_). by apply Qeq_bool_neq in Ey.
  - split; [done|]. intros ((H&_)&_). by apply Qeq_bool_neq in Ex.
  - split; [done|]. intros ((H&_)&_). by apply Qeq_bool_neq in Ex.
Qed.
(** Frames that are turned against each other pass the test if the first cells coincide. *)
Theorem C80_turned_refuted : exists to_int fa fb a b, int_conv to_int /\ good_geo a /\ good_geo b /\ cell_aligned to_int fa fb a b = true /\
  forall i j, exists m n, ~ (this (vx (world_centre fa a m n)) == this (vx (world_centre fb b (m + i) (n + j))))%Q.
Proof.
  exists Qfloor, aone, (Aff 0 (-(1)) 0 1 0 0 0 0 1 1 0 0), (Geo 4 4 1 1 0 0), (Geo 4 4 1 1 0 0).
  split; [intros q z Hq _; by rewrite (Qfloor_comp _ _ Hq), Qfloor_Z|]. do 2 (split; [unfold good_geo, size_end; cbn; repeat split; lia || lra|]).
  split; [vm_compute; reflexivity|]. intros i j.
  destruct (Qeq_dec (this (vx (world_centre aone (Geo 4 4 1 1 0 0) 0 0))) (this (vx (world_centre (Aff 0 (-(1)) 0 1 0 0 0 0 1 1 0 0) (Geo 4 4 1 1 0 0) (0 + i) (0 + j))))) as [He|He]; [|by exists 0, 0].
  exists 1, 0. intros H. unfold world_centre, aapp, aone in *. cbn [vx vy vz a11 a12 a13 t1] in *. unfold Qcplus, Qcmult, Qcopp in *. cbn [this Q2Qc] in *.
  rewrite !Qred_correct in *. unfold from_grid in *. cbn [fst snd g_sx g_ox g_sy g_oy] in *. rewrite !inject_Z_plus in *. change (inject_Z 0) with 0%Q in *. change (inject_Z 1) with 1%Q in *. lra.
Qed.
Example C80_nonvacuous : let a := Geo 4 4 (1 # 2) (1 # 2) 0 0 in let b := Geo 8 3 (1 # 2) (1 # 2) 1 0 in let f := Aff 1 0 0 0 1 0 0 0 1 (Q2Qc (3 # 2)) 0 0 in
  good_geo a /\ good_geo b /\ translation aone /\ translation f /\ int_conv Qfloor /\ cell_aligned Qfloor aone f a b = true /\
  cell_aligned Qfloor aone (Aff 1 0 0 0 1 0 0 0 1 (Q2Qc (4 # 3)) 0 0) a b = false.
Proof.
  cbn zeta. do 2 (split; [unfold good_geo, size_end; cbn; repeat split; lia || lra|]). split; [by exists 0%Qc, 0%Qc, 0%Qc|]. split; [by eexists _, _, _|].
  split; [intros q z Hq _; by rewrite (Qfloor_comp _ _ Hq), Qfloor_Z|]. split; vm_compute; reflexivity.
Qed.
