(** The geometry of grids: src/maps/GridBase.{hpp,cpp}.

    Simplification: [double] is modelled by the rational numbers (exact arithmetic, no rounding, no infinities). The conversion of a
    [double] to [size_t] is kept as an oracle [conv] for values outside the range of [size_t], because C++ leaves it undefined. *)
From stdpp Require Import prelude.
From Coq Require Import ZArith QArith Qround.
From Verif Require Import Base Bresenham.
Local Open Scope Z_scope.

Definition size_end : Z := 18446744073709551616.
Definition pos : Type := Z * Z.

(** GridBase.hpp:83-85, the geometry members of a grid (constructor GridBase.cpp:13-21) *)
Record geo := Geo { g_nx : Z; g_ny : Z; g_sx : Q; g_sy : Q; g_ox : Q; g_oy : Q }.

Section model.
  (** the value of [size_t v = d] for an integral double [d]; it is [d] itself if [d] fits (see [conv_ok]) *)
  Context (conv : Z -> Z).

  (** GridBase.cpp:392-408, [toGrid(x, y, xi, yi, xmod, ymod)]; [None]: the call returns false *)
  Definition to_grid (g : geo) (x y : Q) : option (Z * Z * Q * Q) :=
    let am := conv (Qfloor ((x - g_ox g) / g_sx g)) in
    let an := conv (Qfloor ((y - g_oy g) / g_sy g)) in
    if (0 <=? am) && (am <? g_nx g) && (0 <=? an) && (an <? g_ny g)
    then Some (am, an, x - (inject_Z am * g_sx g + g_ox g), y - (inject_Z an * g_sy g + g_oy g))%Q
    else None.

  (** GridBase.cpp:416-430, [toGridTimesX]; [cellSizeX * multiplier] is computed in [size_t] *)
  Definition to_grid_times (g : geo) (x y : Q) (m : Z) : option pos :=
    let am := conv (Qfloor ((x - g_ox g) / g_sx g * inject_Z m)) in
    let an := conv (Qfloor ((y - g_oy g) / g_sy g * inject_Z m)) in
    if (am <? to_size (g_nx g * m)) && (an <? to_size (g_ny g * m)) then Some (am, an) else None.
End model.

(** GridBase.cpp:451-455, [fromGrid] *)
Definition from_grid (g : geo) (xi yi : Z) : Q * Q :=
  ((inject_Z xi + (1 # 2)) * g_sx g + g_ox g, (inject_Z yi + (1 # 2)) * g_sy g + g_oy g)%Q.
(** GridBase.cpp:474-478, [contains] *)
Definition g_contains (g : geo) (p : pos) : bool :=
  (fst p >=? 0) && (fst p <? g_nx g) && (snd p >=? 0) && (snd p <? g_ny g).
(** GridBase.cpp:492-495, [getCellExtents]: a box (min, max) of [int] vectors *)
Definition get_cell_extents (g : geo) : pos * pos := ((0, 0), (to_int (g_nx g), to_int (g_ny g))).
(** GridBase.cpp:480-490, [getExtents]: (min, max) *)
Definition get_extents (g : geo) : (Q * Q) * (Q * Q) :=
  let ce := get_cell_extents g in
  ((g_ox g + inject_Z (fst (fst ce)) * g_sx g, g_oy g + inject_Z (snd (fst ce)) * g_sy g),
   (g_ox g + (inject_Z (fst (snd ce)) + 1) * g_sx g, g_oy g + (inject_Z (snd (snd ce)) + 1) * g_sy g))%Q.

(** ** Oriented rectangles *)
Record corners (A : Type) := Corners { c_ul : A; c_ur : A; c_dl : A; c_dr : A }.
Arguments Corners {A}. Arguments c_ul {A}. Arguments c_ur {A}. Arguments c_dl {A}. Arguments c_dr {A}.

(** GridBase.cpp:60-79: the corners of the rectangle. [pose]: the position; [c], [s]: cosine and sine of the orientation. *)
Definition rect_corners (pose : Q * Q) (c s : Q) (size_x size_y : Q) : corners (Q * Q) :=
  let hx := (size_x / 2)%Q in let hy := (size_y / 2)%Q in
  let rot (x y : Q) : Q * Q := (fst pose + (c * x - s * y), snd pose + (s * x + c * y))%Q in
  let ul := rot hx (- hy)%Q in let ur := rot hx hy in let dr := rot (- hx)%Q hy in let dl := rot (- hx)%Q (- hy)%Q in
  let r := if Qlt_le_dec (fst ul) (fst dl) then Corners dl dr ul ur else Corners ul ur dl dr in
  if Qlt_le_dec (snd (c_ur r)) (snd (c_ul r)) then Corners (c_ur r) (c_ul r) (c_dr r) (c_dl r) else r.

Section rects.
  Context (conv : Z -> Z).
  (** GridBase.cpp:58-113, [getRectPoints]; [None]: returns false *)
  Definition get_rect_points (g : geo) (pose : Q * Q) (c s size_x size_y : Q) (m : Z) : option (corners pos) :=
    let w := rect_corners pose c s size_x size_y in
    match to_grid_times conv g (fst (c_ul w)) (snd (c_ul w)) m with
    | None => None
    | Some ul =>
      match to_grid_times conv g (fst (c_ur w)) (snd (c_ur w)) m with
      | None => None
      | Some ur =>
        match to_grid_times conv g (fst (c_dl w)) (snd (c_dl w)) m with
        | None => None
        | Some dl =>
          match to_grid_times conv g (fst (c_dr w)) (snd (c_dr w)) m with
          | None => None
          | Some dr => Some (Corners ul ur dl dr)
          end
        end
      end
    end.

  (** GridBase.cpp:307-330: the two sides of the outline, from the topmost to the lowest corner. *)
  Definition outline (fuel : nat) (p : corners pos) : out unit (list pos * list pos) :=
    if snd (c_ur p) >? snd (c_dr p) then
      l1 <~ line_bresenham fuel (c_ur p) (c_ul p) [] ;; l <~ line_bresenham fuel (c_ul p) (c_dl p) l1 ;;
      r1 <~ line_bresenham fuel (c_ur p) (c_dr p) [] ;; r <~ line_bresenham fuel (c_dr p) (c_dl p) r1 ;; Ok (l, r)
    else
      l1 <~ line_bresenham fuel (c_dr p) (c_ur p) [] ;; l <~ line_bresenham fuel (c_ur p) (c_ul p) l1 ;;
      r1 <~ line_bresenham fuel (c_dr p) (c_dl p) [] ;; r <~ line_bresenham fuel (c_dl p) (c_ul p) r1 ;; Ok (l, r).

  (** GridBase.cpp:346-353 and 355-362, the inner loops: consume the points whose cell row is [cy] and update minimum and maximum.
      [y / multiplier] is a double division, truncated: exact for the coordinates that occur. *)
  Fixpoint eat_row (m cy : Z) (l : list pos) (mm : Z * Z) : list pos * (Z * Z) :=
    match l with
    | [] => ([], mm)
    | p :: r => if snd p / m =? cy
                then eat_row m cy r (if fst mm >? fst p then fst p else fst mm, if snd mm <? fst p then fst p else snd mm)
                else (l, mm)
    end.
  (** GridBase.cpp:370-374, the cells of a row: the columns from [mn] to [mx] that are in the grid *)
  Definition row_calls (g : geo) (cy mn mx : Z) : list pos := (fun x => (x, cy)) <$> filter (fun x => x < g_nx g) (seqZ mn (mx + 1 - mn)).

  (** GridBase.cpp:337-375, the loop of [forEachInRectangle]; the result lists the calls of the callback *)
  Fixpoint rect_rows (g : geo) (m : Z) (fuel : nat) (left right : list pos) (calls : list pos) : out unit (list pos) :=
    match left, right with
    | l0 :: _, r0 :: _ =>
      match fuel with
      | O => NoFuel
      | S f =>
        let cy := snd l0 / m in
        if negb (snd r0 =? snd l0) then Bad Abort (* assert, line 344 *)
        else
          let '(left', mm) := eat_row m cy left (size_end - 1, 0) in
          let '(right', mm') := eat_row m cy right mm in
          if cy >=? g_ny g then rect_rows g m f left' right' calls
          else rect_rows g m f left' right' (calls ++ row_calls g cy (fst mm' / m) (snd mm' / m))
      end
    | _, _ => Ok calls
    end.

  (** GridBase.cpp:292-375, [forEachInRectangle]; [None]: returns false without any call *)
  Definition for_each_in_rectangle (fuel : nat) (g : geo) (pose : Q * Q) (c s size_x size_y : Q) : out unit (option (list pos)) :=
    match get_rect_points g pose c s size_x size_y 10 with
    | None => Ok None
    | Some p =>
      lr <~ outline fuel p ;;
      calls <~ rect_rows g 10 fuel (fst lr) (snd lr) [] ;;
      Ok (Some calls)
    end.
End rects.
