(** Model of MLSGrid, src/maps/MLSGrid.cpp and MLSGrid.hpp.

    The cells are lists (ListGridProps.v shows to what extent ListGrid provides that); an iterator is a cell and the position
    in its list.  The type of the patches and the merge of two patches are parameters here; MlsPatch.v models them. *)
From Coq Require Import ZArith.
From stdpp Require Import prelude gmap strings pretty.
From Verif Require Import Base Ids.
From Verif Require ListGrid.

(** ** updateCell *)
Section Update.
  Context {P : Type}.
  (** SurfacePatch::merge: may change both patches, even if it returns false *)
  Context (merge : P -> P -> bool * P * P).

  (** MLSGrid.cpp:489-494: merge the new patch with every patch of the cell; the flag marks the elements of [merged] *)
  Fixpoint phase1 (l : list P) (o : P) : list (P * bool) * P :=
    match l with
    | [] => ([], o)
    | p :: r =>
      let '(b, p1, o1) := merge p o in
      let '(r', o2) := phase1 r o1 in
      ((p1, b) :: r', o2)
    end.
  (** MLSGrid.cpp:507-517: merge the first element of [merged] with the later ones, which are erased if that succeeds *)
  Fixpoint absorb (f : P) (l : list (P * bool)) : P * list (P * bool) :=
    match l with
    | [] => (f, [])
    | (q, false) :: r => let '(f1, r1) := absorb f r in (f1, (q, false) :: r1)
    | (q, true) :: r =>
      let '(b, f1, q1) := merge f q in
      let '(f2, r2) := absorb f1 r in
      (f2, if b then r2 else (q1, true) :: r2)
    end.
  (** MLSGrid.cpp:505-519, for a cell of at most [n] patches *)
  Fixpoint phase2 (n : nat) (l : list (P * bool)) : option (list P) :=
    match l with
    | [] => Some []
    | (q, b) :: r =>
      match n with
      | O => None
      | S n =>
        let '(q1, r1) := if b then absorb q r else (q, r) in
        l1 ← phase2 n r1; Some (q1 :: l1)
      end
    end.
  Definition any_merged (l : list (P * bool)) : bool := existsb snd l.
  (** MLSGrid.cpp:482-521; the second component says whether a patch was inserted *)
  Definition update_list (l : list P) (o : P) : option (list P * bool) :=
    let '(l1, o1) := phase1 l o in
    if any_merged l1 then l2 ← phase2 (length l1) l1; Some (l2, false)
    else Some (o1 :: l1.*1, true).
End Update.

Section Mls.
  Context {P : Type} (merge : P -> P -> bool * P * P).

  (** MLSGrid.hpp:300-312.  [m_count] is an integer instead of size_t: it is at least the number of patches (MlsProps.v), so
      it does not become negative, and a grid with 2^64 patches does not fit into memory.  [m_extents]: the corners of the
      box, [None] if it is empty. *)
  Record mls := Mls {
    m_w : nat; m_h : nat;
    m_cell : nat -> nat -> list P;
    m_count : Z;
    m_index : option (gset (nat * nat));
    m_extents : option (nat * nat * (nat * nat)) }.

  Definition set_cell (x y : nat) (l : list P) (c : nat -> nat -> list P) : nat -> nat -> list P :=
    fun x' y' => if decide (x' = x /\ y' = y) then l else c x' y'.
  Definition with_cell (x y : nat) (l : list P) (s : mls) : mls :=
    Mls (m_w s) (m_h s) (set_cell x y l (m_cell s)) (m_count s) (m_index s) (m_extents s).
  Definition with_count (c : Z) (s : mls) : mls := Mls (m_w s) (m_h s) (m_cell s) c (m_index s) (m_extents s).

  (** Eigen::AlignedBox::extend *)
  Definition extend (x y : nat) (b : option (nat * nat * (nat * nat))) : option (nat * nat * (nat * nat)) :=
    match b with
    | None => Some ((x, y), (x, y))
    | Some ((x1, y1), (x2, y2)) => Some ((x1 `min` x, y1 `min` y), (x2 `max` x, y2 `max` y))
    end.
  (** MLSGrid.cpp:730-738 *)
  Definition add_cell (x y : nat) (s : mls) : mls :=
    Mls (m_w s) (m_h s) (m_cell s) (m_count s + 1) ((fun i => {[(x, y)]} ∪ i) <$> m_index s) (extend x y (m_extents s)).

  (** MLSGrid.cpp:20-26 *)
  Definition new_mls (w h : nat) : mls := Mls w h (fun _ _ => []) 0 None None.
  (** MLSGrid.cpp:28-35 *)
  Definition mclear (s : mls) : mls := Mls (m_w s) (m_h s) (fun _ _ => []) 0 ((fun _ => ∅) <$> m_index s) None.
  (** MLSGrid.cpp:399-409 *)
  Definition insert_head (x y : nat) (p : P) (s : mls) : mls := add_cell x y (with_cell x y (p :: m_cell s x y) s).
  Definition insert_tail (x y : nat) (p : P) (s : mls) : mls := add_cell x y (with_cell x y (m_cell s x y ++ [p]) s).
  (** MLSGrid.cpp:411-416, for the element [i] of a cell *)
  Definition erase (x y i : nat) (s : mls) : mls :=
    with_count (m_count s - 1) (with_cell x y (delete i (m_cell s x y)) s).
  (** changing a patch through an iterator *)
  Definition set_patch (x y i : nat) (p : P) (s : mls) : mls := with_cell x y (<[i := p]> (m_cell s x y)) s.
  (** MLSGrid.cpp:482-521 *)
  Definition update_cell (x y : nat) (o : P) (s : mls) : out mls mls :=
    match update_list merge (m_cell s x y) o with
    | None => NoFuel
    | Some (l, true) => Ok (add_cell x y (with_cell x y l s))
    | Some (l, false) =>
      Ok (with_count (m_count s - Z.of_nat (length (m_cell s x y) - length l)) (with_cell x y l s))
    end.
  Definition cells_of (s : mls) : list (nat * nat) := ListGrid.coords (m_w s) (m_h s).
  (** MLSGrid.cpp:740-753 *)
  Definition generate_index (s : mls) : gset (nat * nat) :=
    list_to_set (filter (fun xy => m_cell s xy.1 xy.2 <> []) (cells_of s)).
  (** MLSGrid.cpp:755-760 *)
  Definition init_index (s : mls) : mls :=
    Mls (m_w s) (m_h s) (m_cell s) (m_count s) (Some (if decide (0 < m_count s)%Z then generate_index s else ∅)) (m_extents s).
  (** MLSGrid.cpp:762-765; only the cells, see ListGridProps.v for the lists *)
  Definition mmove (xd yd : Z) (s : mls) : mls :=
    Mls (m_w s) (m_h s)
        (fun x y =>
           let ox := (Z.of_nat x - xd)%Z in let oy := (Z.of_nat y - yd)%Z in
           if decide (x < m_w s /\ y < m_h s /\ (0 <= ox < Z.of_nat (m_w s))%Z /\ (0 <= oy < Z.of_nat (m_h s))%Z)
           then m_cell s (Z.to_nat ox) (Z.to_nat oy) else [])
        (m_count s) (m_index s) (m_extents s).
  (** MLSGrid.cpp:46-60: the index of the target is kept *)
  Definition massign (src s : mls) : mls :=
    Mls (m_w src) (m_h src) (m_cell src) (m_count src) (m_index s) (m_extents src).

  Inductive mop :=
  | MInsHead (x y : nat) (p : P) | MInsTail (x y : nat) (p : P)
  | MErase (x y i : nat) | MSet (x y i : nat) (p : P)
  | MUpdate (x y : nat) (o : P)
  | MClear | MInitIndex | MMove (xd yd : Z).
  Definition mlegal (o : mop) (s : mls) : Prop :=
    match o with
    | MInsHead x y _ | MInsTail x y _ | MUpdate x y _ => x < m_w s /\ y < m_h s
    | MErase x y i | MSet x y i _ => i < length (m_cell s x y)
    | MClear | MInitIndex | MMove _ _ => True
    end.
  Definition mstep (o : mop) (s : mls) : out mls mls :=
    match o with
    | MInsHead x y p => Ok (insert_head x y p s)
    | MInsTail x y p => Ok (insert_tail x y p s)
    | MErase x y i => Ok (erase x y i s)
    | MSet x y i p => Ok (set_patch x y i p s)
    | MUpdate x y o => update_cell x y o s
    | MClear => Ok (mclear s)
    | MInitIndex => Ok (init_index s)
    | MMove xd yd => Ok (mmove xd yd s)
    end.

  (** ** writeMap and readMap

      A file is its four lines of text and the bytes behind them.  [image] is the memory image of a record, of [sz] bytes, and
      [of_image] reads a record from it: the layout of the structs is not modelled. *)
  Context (rec : Type) (sz : nat) (image : rec -> list Byte.byte) (of_image : list Byte.byte -> rec).
  Context (store : P -> nat -> nat -> rec) (load : rec -> P * nat * nat).
  (** MLSGrid.cpp:307-316 *)
  Definition records (s : mls) : list rec :=
    xy ← cells_of s; (fun p => store p xy.1 xy.2) <$> m_cell s xy.1 xy.2.
  (** MLSGrid.cpp:299-317 *)
  Definition write_map (s : mls) : list string * list Byte.byte :=
    (["mls"; "1.3"; pretty (Z.of_nat sz); "bin"]%string, mjoin (image <$> records s)).
  (** MLSGrid.cpp:372-375: read as long as there is a whole record.  A position outside of the grid is undefined behaviour. *)
  Fixpoint read_records (fuel : nat) (bs : list Byte.byte) (s : mls) : out mls mls :=
    if decide (length bs < sz) then Ok s
    else match fuel with
         | O => NoFuel
         | S f =>
           let '(p, x, y) := load (of_image (take sz bs)) in
           if decide (x < m_w s /\ y < m_h s) then read_records f (drop sz bs) (insert_tail x y p s) else Bad UB
         end.
  (** MLSGrid.cpp:319-377; OldMaps.v reads the older versions too, from the bytes of the file.  [lexical_cast] of a text that is not a number throws. *)
  Definition read_map (file : list string * list Byte.byte) (s : mls) : out mls mls :=
    match file.1 with
    | [magic; version; size; bin] =>
      if decide (magic <> "mls"%string) then Throw s
      else if decide (version <> "1.3"%string) then Throw s
      else match to_long size with
           | None => Throw s
           | Some n =>
             if decide (bin <> "bin"%string) then Throw s
             else if decide (n <> Z.of_nat sz) then Throw s
             else read_records (length file.2) file.2 s
           end
    | _ => Throw s
    end.
End Mls.
Arguments mls : clear implicits.
Arguments mop : clear implicits.
