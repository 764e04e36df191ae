(** Model of VoxelTraversal (src/tools/VoxelTraversal.hpp).  C51, C62.

    Coordinates are rational numbers (the rounding of double is not modelled).  Lengths along the ray are divided by the length of the
    direction: only comparisons between them are made, so that the square root is not needed.  NaN is [None]. *)
From Coq Require Import ZArith QArith Qround Qabs Lqa.
From stdpp Require Import prelude.
From Verif Require Import Base Bresenham GridModel GridProps.
Local Open Scope Z_scope.

Record voxel : Type := Voxel { v_x : Z; v_y : Z; step_x : Z; step_y : Z; delta_x : option Q; delta_y : option Q; max_x : option Q; max_y : option Q; v_valid : bool }.
Definition sign_step (d : Q) : Z := if Qlt_le_dec 0 d then 1 else -1.
(** :53-54: (dir / dir.x() * scale).norm() divided by dir.norm(); zero divided by zero is NaN, and so is a norm with a NaN in it *)
Definition delta (s d : Q) : option Q := if Qeq_dec d 0 then None else Some (s / Qabs d)%Q.
(** :35-59; [None] if the origin is outside: the cell and the distances are not initialised then *)
Definition init (conv : Z -> Z) (g : geo) (x y dx dy : Q) : option voxel :=
  match to_grid conv g x y with
  | None => None
  | Some (xi, yi, xmod, ymod) =>
    let ddx := delta (g_sx g) dx in let ddy := delta (g_sy g) dy in
    Some (Voxel (to_int xi) (to_int yi) (sign_step dx) (sign_step dy) ddx ddy ((fun d => d * xmod)%Q <$> ddx) ((fun d => d * ymod)%Q <$> ddy) true)
  end.
(** the comparison of doubles; false if there is a NaN *)
Definition less (a b : option Q) : bool := match a, b with Some a, Some b => if Qlt_le_dec a b then true else false | _, _ => false end.
Definition plus (a b : option Q) : option Q := match a, b with Some a, Some b => Some (a + b)%Q | _, _ => None end.
(** :66-86 *)
Definition inside (g : geo) (x y : Z) : bool := (x >=? 0) && (x <? to_int (g_nx g)) && (y >=? 0) && (y <? to_int (g_ny g)).
Definition step (g : geo) (v : voxel) : voxel :=
  let v' := if less (max_x v) (max_y v)
            then Voxel (v_x v + step_x v) (v_y v) (step_x v) (step_y v) (delta_x v) (delta_y v) (plus (max_x v) (delta_x v)) (max_y v) (v_valid v)
            else Voxel (v_x v) (v_y v + step_y v) (step_x v) (step_y v) (delta_x v) (delta_y v) (max_x v) (plus (max_y v) (delta_y v)) (v_valid v) in
  Voxel (v_x v') (v_y v') (step_x v') (step_y v') (delta_x v') (delta_y v') (max_x v') (max_y v') (v_valid v' && inside g (v_x v') (v_y v')).
(** the loop of the users: [while( step( pos ) ) ...], the positions that it gets to see, and the one where step returns false *)
Fixpoint traverse (g : geo) (fuel : nat) (v : voxel) : out () (list pos * pos) :=
  match fuel with
  | O => NoFuel
  | S fuel => let v := step g v in
              if v_valid v then r <~ traverse g fuel v ;; Ok ((v_x v, v_y v) :: r.1, r.2) else Ok ([], (v_x v, v_y v))
  end.

(** * Specification *)
(** a neighbour across an edge, in the direction of the ray *)
Definition forward (dx dy : Q) (c c' : pos) : Prop :=
  (c' = (c.1 + 1, c.2) /\ (0 < dx)%Q) \/ (c' = (c.1 - 1, c.2) /\ (dx < 0)%Q) \/ (c' = (c.1, c.2 + 1) /\ (0 < dy)%Q) \/ (c' = (c.1, c.2 - 1) /\ (dy < 0)%Q).
Fixpoint chain (R : pos -> pos -> Prop) (c : pos) (l : list pos) : Prop := match l with [] => True | c' :: l => R c c' /\ chain R c' l end.
Definition small (g : geo) : Prop := good_geo g /\ g_nx g < 2 ^ 31 /\ g_ny g < 2 ^ 31.

Lemma to_int_small z : 0 <= z < 2 ^ 31 -> to_int z = z.
Proof. intros Hz. unfold to_int. rewrite Z.mod_small; lia. Qed.
Lemma inside_iff g x y : small g -> inside g x y = true <-> a_cell g x y.
Proof.
  intros ((_ & _ & Hx & Hy) & Hsx & Hsy). unfold inside, a_cell. rewrite !to_int_small by lia. rewrite !andb_true_iff, !Z.geb_le, !Z.ltb_lt. lia.
Qed.
Lemma chain_mono (R R' : pos -> pos -> Prop) : (forall c c', R c c' -> R' c c') -> forall l c, chain R c l -> chain R' c l.
Proof. intros H. induction l as [|c' l IH]; intros c; [done|]. intros [H1 H2]. split; [by apply H|by apply IH]. Qed.

(** an upper bound of the number of steps *)
Definition room (g : geo) (v : voxel) : Z :=
  (if decide (step_x v = 1) then g_nx g - v_x v else v_x v + 1) + (if decide (step_y v = 1) then g_ny g - v_y v else v_y v + 1).
(** one step goes to a neighbour across an edge; nothing but the position, the distance and the flag change *)
Lemma step_spec g v : let v' := step g v in step_x v' = step_x v /\ step_y v' = step_y v /\ delta_x v' = delta_x v /\ delta_y v' = delta_y v /\
  (v_valid v' = v_valid v && inside g (v_x v') (v_y v')) /\
  ((less (max_x v) (max_y v) = true /\ v_x v' = v_x v + step_x v /\ v_y v' = v_y v /\ max_x v' = plus (max_x v) (delta_x v) /\ max_y v' = max_y v) \/
   (less (max_x v) (max_y v) = false /\ v_x v' = v_x v /\ v_y v' = v_y v + step_y v /\ max_x v' = max_x v /\ max_y v' = plus (max_y v) (delta_y v))).
Proof. unfold step. cbn zeta. destruct (less (max_x v) (max_y v)); cbn; tauto. Qed.

(** the traversal as a whole; [Inv] is any invariant of the steps *)
Lemma traverse_ind g (Inv : voxel -> Prop) (R : pos -> pos -> Prop) : small g ->
  (forall v, Inv v -> Inv (step g v) /\ R (v_x v, v_y v) (v_x (step g v), v_y (step g v))) ->
  forall fuel v, Inv v -> v_valid v = true -> (step_x v = 1 \/ step_x v = -1) -> (step_y v = 1 \/ step_y v = -1) -> a_cell g (v_x v) (v_y v) -> room g v <= Z.of_nat fuel ->
  exists l e, traverse g fuel v = Ok (l, e) /\ chain R (v_x v, v_y v) (l ++ [e]) /\ (forall c, c ∈ l -> a_cell g c.1 c.2) /\ ~ a_cell g e.1 e.2.
Proof.
  intros Hs Hstep. induction fuel as [|fuel IH]; intros v Hi Hv Hsx Hsy Hc Hr.
  { exfalso. unfold room in Hr. unfold a_cell in Hc. repeat case_decide; lia. }
  cbn [traverse]. cbn zeta. destruct (step_spec g v) as (E1 & E2 & _ & _ & Ev & Hcase). destruct (Hstep v Hi) as [Hi' HR].
  destruct (v_valid (step g v)) eqn:Evalid.
  - rewrite Hv in Ev. cbn [andb] in Ev. symmetry in Ev. apply inside_iff in Ev; [|done].
    destruct (IH (step g v) Hi' Evalid) as (l & e & Hl & Hch & Hin & Hout); [by rewrite E1|by rewrite E2|done| |].
    + unfold room in *. rewrite E1, E2. destruct Hcase as [(_ & -> & -> & _)|(_ & -> & -> & _)]; repeat case_decide; lia.
    + rewrite Hl. cbn [obind fst snd]. exists ((v_x (step g v), v_y (step g v)) :: l), e. split; [done|]. split; [split; [done|exact Hch]|]. split; [|done].
      intros c Hcin. apply elem_of_cons in Hcin as [->|Hcin]; [exact Ev|by apply Hin].
  - exists [], (v_x (step g v), v_y (step g v)). split; [done|]. split; [by split|]. split; [intros c Hcin; by apply elem_of_nil in Hcin|].
    cbn [fst snd]. intros Hin. apply inside_iff in Hin; [|done]. rewrite Hv, Hin in Ev. discriminate Ev.
Qed.
Lemma sign_step_pm d : sign_step d = 1 \/ sign_step d = -1.
Proof. unfold sign_step. destruct (Qlt_le_dec 0 d); auto. Qed.

(** ** C51 *)
(** a cell across an edge, in the x direction of the ray or the y direction of the step *)
Definition edge (c c' : pos) : Prop := Z.abs (c.1 - c'.1) + Z.abs (c.2 - c'.2) = 1.
Definition voxel_fuel (g : geo) : nat := Z.to_nat (g_nx g + g_ny g + 2).

(** A traversal of a ray that starts in the grid ends, after having visited cells of the grid that are connected by edges, on a cell
    outside that is next to the last one. *)
Theorem C51_terminates conv g x y dx dy : conv_ok conv -> small g -> in_rect g x y -> exists v l e, init conv g x y dx dy = Some v /\ traverse g (voxel_fuel g) v = Ok (l, e) /\
  in_cell g (v_x v) (v_y v) x y /\ chain edge (v_x v, v_y v) (l ++ [e]) /\ (forall c, c ∈ l -> a_cell g c.1 c.2) /\ ~ a_cell g e.1 e.2.
Proof.
  intros Hconv Hs Hin. destruct (C31_inside conv g x y Hconv (proj1 Hs) Hin) as (xi & yi & xm & ym & Ht & Hc & Hcell & _).
  unfold init. rewrite Ht. cbn zeta. eexists. pose proof Hs as ((_ & _ & Hnx & Hny) & Hbx & Hby). unfold a_cell in Hc.
  destruct (traverse_ind g (fun v => (step_x v = 1 \/ step_x v = -1) /\ (step_y v = 1 \/ step_y v = -1)) edge Hs) with (fuel := voxel_fuel g)
    (v := Voxel (to_int xi) (to_int yi) (sign_step dx) (sign_step dy) (delta (g_sx g) dx) (delta (g_sy g) dy) ((fun d => d * xm)%Q <$> delta (g_sx g) dx) ((fun d => d * ym)%Q <$> delta (g_sy g) dy) true)
    as (l & e & Hl & Hrest).
  - intros v [Hsx Hsy]. destruct (step_spec g v) as (E1 & E2 & _ & _ & _ & Hcase). rewrite E1, E2. split; [done|]. unfold edge. cbn [fst snd].
    destruct Hcase as [(_ & -> & -> & _)|(_ & -> & -> & _)]; lia.
  - cbn. split; apply sign_step_pm.
  - done.
  - apply sign_step_pm.
  - apply sign_step_pm.
  - cbn. rewrite !to_int_small by lia. exact Hc.
  - unfold room, voxel_fuel. cbn. rewrite !to_int_small by lia. repeat case_decide; lia.
  - exists l, e. split; [done|]. split; [exact Hl|]. split; [|exact Hrest]. cbn. rewrite !to_int_small by lia. exact Hcell.
Qed.
(** If the ray is not parallel to the x axis, every move is in its direction. *)
Theorem C51_forward conv g x y dx dy : conv_ok conv -> small g -> in_rect g x y -> ~ (dy == 0)%Q -> exists v l e,
  init conv g x y dx dy = Some v /\ traverse g (voxel_fuel g) v = Ok (l, e) /\ chain (forward dx dy) (v_x v, v_y v) (l ++ [e]).
Proof.
  intros Hconv Hs Hin Hdy. destruct (C31_inside conv g x y Hconv (proj1 Hs) Hin) as (xi & yi & xm & ym & Ht & Hc & Hcell & _).
  unfold init. rewrite Ht. cbn zeta. eexists. pose proof Hs as ((_ & _ & Hnx & Hny) & Hbx & Hby). unfold a_cell in Hc.
  destruct (traverse_ind g (fun v => step_x v = sign_step dx /\ step_y v = sign_step dy /\ ((dx == 0)%Q -> max_x v = None)) (forward dx dy) Hs) with (fuel := voxel_fuel g)
    (v := Voxel (to_int xi) (to_int yi) (sign_step dx) (sign_step dy) (delta (g_sx g) dx) (delta (g_sy g) dy) ((fun d => d * xm)%Q <$> delta (g_sx g) dx) ((fun d => d * ym)%Q <$> delta (g_sy g) dy) true)
    as (l & e & Hl & Hrest & _).
  - intros v (Hsx & Hsy & Hnan). destruct (step_spec g v) as (E1 & E2 & _ & _ & _ & Hcase). rewrite E1, E2. unfold forward. cbn [fst snd].
    destruct Hcase as [(Hlt & -> & -> & -> & _)|(_ & -> & -> & -> & _)].
    + assert (Hdx : ~ (dx == 0)%Q). { intros H0. rewrite (Hnan H0) in Hlt. discriminate Hlt. }
      split; [split; [done|]; split; [done|]; by intros H0|]. rewrite Hsx. unfold sign_step. destruct (Qlt_le_dec 0 dx) as [Hp|Hp]; [by left|].
      right. left. split; [done|]. apply Qle_lteq in Hp as [Hp|Hp]; [done|done].
    + split; [done|]. rewrite Hsy. unfold sign_step. right. right. destruct (Qlt_le_dec 0 dy) as [Hp|Hp]; [by left|].
      right. split; [done|]. apply Qle_lteq in Hp as [Hp|Hp]; [done|done].
  - cbn. split; [done|]. split; [done|]. intros H0. unfold delta. by destruct (Qeq_dec dx 0).
  - done.
  - apply sign_step_pm.
  - apply sign_step_pm.
  - cbn. rewrite !to_int_small by lia. exact Hc.
  - unfold room, voxel_fuel. cbn. rewrite !to_int_small by lia. repeat case_decide; lia.
  - exists l, e. split; [done|]. split; [exact Hl|exact Hrest].
Qed.
Definition demo_conv (z : Z) : Z := if decide (0 <= z) then z else z + size_end.
Lemma demo_conv_ok : conv_ok demo_conv.
Proof. intros z Hz. unfold demo_conv. rewrite decide_True by lia. done. Qed.
Definition demo_geo : geo := Geo 5 4 1 1 (-2) 3.
Lemma demo_small : small demo_geo.
Proof. unfold small, good_geo, demo_geo, size_end. cbn. repeat split; lia || lra. Qed.
Example C51_nonvacuous : small demo_geo /\ in_rect demo_geo (3#2) (11#2) /\ ~ (-2 == 0)%Q /\
  exists v, init demo_conv demo_geo (3#2) (11#2) (-3) (-2) = Some v /\ (v_x v, v_y v) = (3, 2) /\ traverse demo_geo (voxel_fuel demo_geo) v = Ok ([(2, 2); (2, 1); (1, 1); (1, 0); (0, 0)], (-1, 0)).
Proof.
  split; [apply demo_small|]. split; [unfold in_rect, demo_geo; cbn; repeat split; lra|]. split; [done|].
  eexists. split; [vm_compute; reflexivity|]. split; vm_compute; reflexivity.
Qed.
(** A ray in the direction of the x axis moves down. *)
Theorem C51_x_axis_refuted : exists v e, in_rect demo_geo (3#2) (11#2) /\ init demo_conv demo_geo (3#2) (11#2) 1 0 = Some v /\ (v_x v, v_y v) = (3, 2) /\
  traverse demo_geo (voxel_fuel demo_geo) v = Ok ([(3, 1); (3, 0)], e) /\ ~ chain (forward 1 0) (v_x v, v_y v) [(3, 1); (3, 0)].
Proof.
  eexists _, _. split; [unfold in_rect, demo_geo; cbn; repeat split; lra|]. split; [vm_compute; reflexivity|]. split; [vm_compute; reflexivity|].
  split; [vm_compute; reflexivity|]. cbn. unfold forward. cbn. intros [[[H _]|[[H _]|[[H _]|[_ H]]]] _]; try discriminate H. Qed.

(** ** C62 *)
(** the ray goes through a cell (with its border) *)
Definition meets (g : geo) (x y dx dy : Q) (c : pos) : Prop := exists t, (0 <= t)%Q /\
  (g_ox g + inject_Z c.1 * g_sx g <= x + t * dx)%Q /\ (x + t * dx <= g_ox g + (inject_Z c.1 + 1) * g_sx g)%Q /\
  (g_oy g + inject_Z c.2 * g_sy g <= y + t * dy)%Q /\ (y + t * dy <= g_oy g + (inject_Z c.2 + 1) * g_sy g)%Q.
Lemma inject_minus_1 z : (inject_Z (z + -1) == inject_Z z - 1)%Q.
Proof. rewrite inject_Z_plus. change (inject_Z (-1)) with (-1)%Q. ring. Qed.
(** In a grid of unit cells, a ray with a negative direction meets every cell that is visited. *)
Theorem C62_cells_on_ray conv g x y dx dy : conv_ok conv -> small g -> in_rect g x y -> (g_sx g == 1)%Q -> (g_sy g == 1)%Q -> (dx < 0)%Q -> (dy < 0)%Q -> exists v l e,
  init conv g x y dx dy = Some v /\ traverse g (voxel_fuel g) v = Ok (l, e) /\ forall c, c ∈ l ++ [e] -> meets g x y dx dy c.
Proof.
  intros Hconv Hs Hin Hsx1 Hsy1 Hdx Hdy. destruct (C31_inside conv g x y Hconv (proj1 Hs) Hin) as (xi & yi & xm & ym & Ht & Hc & (I1 & I2 & I3 & I4) & Hxm & Hym & Hb1 & Hb2 & Hb3 & Hb4).
  unfold init. rewrite Ht. cbn zeta. pose proof Hs as ((_ & _ & Hnx & Hny) & Hbx & Hby). unfold a_cell in Hc.
  assert (Dx : exists a, delta (g_sx g) dx = Some a /\ (a * (- dx) == 1)%Q /\ (0 < a)%Q).
  { unfold delta. destruct (Qeq_dec dx 0) as [H0|H0]; [lra|]. eexists. split; [done|]. rewrite Qabs_neg by lra. rewrite Hsx1. split; [field; lra|]. apply Qlt_shift_div_l; lra. }
  assert (Dy : exists a, delta (g_sy g) dy = Some a /\ (a * (- dy) == 1)%Q /\ (0 < a)%Q).
  { unfold delta. destruct (Qeq_dec dy 0) as [H0|H0]; [lra|]. eexists. split; [done|]. rewrite Qabs_neg by lra. rewrite Hsy1. split; [field; lra|]. apply Qlt_shift_div_l; lra. }
  destruct Dx as (ax & Ex & Hax & Hax0), Dy as (ay & Ey & Hay & Hay0). rewrite Ex, Ey. cbn [fmap option_fmap option_map].
  set (v0 := Voxel (to_int xi) (to_int yi) (sign_step dx) (sign_step dy) (Some ax) (Some ay) (Some (ax * xm)%Q) (Some (ay * ym)%Q) true).
  set (Inv := fun v : voxel => step_x v = -1 /\ step_y v = -1 /\ delta_x v = Some ax /\ delta_y v = Some ay /\ exists mx my t, max_x v = Some mx /\ max_y v = Some my /\
    (mx * (- dx) == x - (g_ox g + inject_Z (v_x v)))%Q /\ (my * (- dy) == y - (g_oy g + inject_Z (v_y v)))%Q /\ (0 <= t)%Q /\ (t <= mx)%Q /\ (t <= my)%Q /\
    (x + t * dx <= g_ox g + inject_Z (v_x v) + 1)%Q /\ (y + t * dy <= g_oy g + inject_Z (v_y v) + 1)%Q).
  assert (Hinv0 : Inv v0).
  { unfold Inv, v0. cbn [step_x step_y delta_x delta_y max_x max_y v_x v_y]. unfold sign_step. destruct (Qlt_le_dec 0 dx); [lra|]. destruct (Qlt_le_dec 0 dy); [lra|].
    split; [done|]. split; [done|]. split; [done|]. split; [done|]. exists (ax * xm)%Q, (ay * ym)%Q, 0%Q. split; [done|]. split; [done|]. rewrite !to_int_small by lia.
    rewrite Hsx1 in *. rewrite Hsy1 in *.
    split; [setoid_replace (ax * xm * - dx)%Q with (ax * - dx * xm)%Q by ring; rewrite Hax; lra|].
    split; [setoid_replace (ay * ym * - dy)%Q with (ay * - dy * ym)%Q by ring; rewrite Hay; lra|].
    split; [lra|]. split; [nra|]. split; [nra|]. split; lra. }
  assert (Hmeets : forall v, Inv v -> meets g x y dx dy (v_x v, v_y v)).
  { intros v (_ & _ & _ & _ & mx & my & t & _ & _ & H1 & H2 & H3 & H4 & H5 & H6 & H7). exists t. cbn [fst snd]. rewrite Hsx1, Hsy1. split; [done|].
    assert (t * (- dx) <= mx * (- dx))%Q by (apply Qmult_le_compat_r; lra). assert (t * (- dy) <= my * (- dy))%Q by (apply Qmult_le_compat_r; lra).
    repeat split; lra. }
  assert (Hstep : forall v, Inv v -> Inv (step g v)).
  { intros v (S1 & S2 & D1 & D2 & mx & my & t & M1 & M2 & H1 & H2 & H3 & H4 & H5 & H6 & H7).
    destruct (step_spec g v) as (E1 & E2 & E3 & E4 & _ & Hcase). unfold Inv. rewrite E1, E2, E3, E4. do 4 (split; [done|]).
    destruct Hcase as [(Hlt & X & Y & MX & MY)|(Hlt & X & Y & MX & MY)]; rewrite X, Y, MX, MY, ?M1, ?M2, ?D1, ?D2, ?S1, ?S2; cbn [plus];
      rewrite M1, M2 in Hlt; cbn [less] in Hlt; destruct (Qlt_le_dec mx my) as [Hq|Hq]; try discriminate Hlt.
    - exists (mx + ax)%Q, my, mx. split; [done|]. split; [done|]. rewrite inject_minus_1.
      assert (mx * (- dy) <= my * (- dy))%Q by (apply Qmult_le_compat_r; lra).
      assert (t * (- dy) <= mx * (- dy))%Q by (apply Qmult_le_compat_r; lra).
      repeat split; lra.
    - exists mx, (my + ay)%Q, my. split; [done|]. split; [done|]. rewrite inject_minus_1.
      assert (my * (- dx) <= mx * (- dx))%Q by (apply Qmult_le_compat_r; lra).
      assert (t * (- dx) <= my * (- dx))%Q by (apply Qmult_le_compat_r; lra).
      repeat split; lra. }
  destruct (traverse_ind g Inv (fun _ c' => meets g x y dx dy c') Hs) with (fuel := voxel_fuel g) (v := v0) as (l & e & Hl & Hch & _).
  - intros v Hv. split; [by apply Hstep|]. by apply Hmeets, Hstep.
  - done.
  - done.
  - apply sign_step_pm.
  - apply sign_step_pm.
  - cbn. rewrite !to_int_small by lia. exact Hc.
  - unfold room, voxel_fuel, v0. cbn. rewrite !to_int_small by lia. repeat case_decide; lia.
  - exists v0, l, e. split; [done|]. split; [exact Hl|]. revert Hch. generalize (v_x v0, v_y v0). induction (l ++ [e]) as [|c' l' IH]; intros c0 Hch c Hcin; [by apply elem_of_nil in Hcin|].
    destruct Hch as [Hm Hch]. apply elem_of_cons in Hcin as [->|Hcin]; [done|]. by apply (IH c').
Qed.
Example C62_nonvacuous : small demo_geo /\ in_rect demo_geo (3#2) (11#2) /\ (g_sx demo_geo == 1)%Q /\ (g_sy demo_geo == 1)%Q /\ (-3 < 0)%Q /\ (-2 < 0)%Q.
Proof. split; [apply demo_small|]. split; [unfold in_rect, demo_geo; cbn; repeat split; lra|]. repeat split; reflexivity. Qed.
(** In other directions it can leave the ray: from a point close to the right border of a cell, a ray to the right that hardly rises goes up
    first.  The distance to the border is taken from the wrong side of the cell. *)
Theorem C62_direction_refuted : exists v, in_rect demo_geo (-11#10) (31#10) /\ init demo_conv demo_geo (-11#10) (31#10) 1 (1#4) = Some v /\
  traverse demo_geo (voxel_fuel demo_geo) v = Ok ([(0, 1); (1, 1); (2, 1); (3, 1); (4, 1); (4, 2)], (5, 2)) /\ ~ meets demo_geo (-11#10) (31#10) 1 (1#4) (0, 1).
Proof.
  eexists. split; [unfold in_rect, demo_geo; cbn; repeat split; lra|]. split; [vm_compute; reflexivity|]. split; [vm_compute; reflexivity|].
  intros (t & H0 & H1 & H2 & H3 & H4). unfold demo_geo in *. cbn [g_ox g_oy g_sx g_sy fst snd] in *. unfold inject_Z in *. lra.
Qed.
(** In a grid with larger cells it can leave the ray, too: the offset in the cell is not divided by the size of a cell. *)
Theorem C62_scale_refuted : let g := Geo 5 4 2 2 0 0 in exists v, small g /\ in_rect g 9 (39#5) /\ init demo_conv g 9 (39#5) (-2) (-1) = Some v /\
  traverse g (voxel_fuel g) v = Ok ([(3, 3); (2, 3); (1, 3); (1, 2); (0, 2)], (-1, 2)) /\ ~ meets g 9 (39#5) (-2) (-1) (1, 3).
Proof.
  cbn zeta. eexists. split; [unfold small, good_geo, size_end; cbn; repeat split; lia || lra|]. split; [unfold in_rect; cbn; repeat split; lra|].
  split; [vm_compute; reflexivity|]. split; [vm_compute; reflexivity|]. intros (t & H0 & H1 & H2 & H3 & H4). unfold demo_geo in *. cbn [g_ox g_oy g_sx g_sy fst snd] in *. unfold inject_Z in *. lra.
Qed.
