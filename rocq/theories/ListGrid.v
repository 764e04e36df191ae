(** Model of ListGrid, src/tools/ListGrid.hpp: a grid of singly linked lists with back pointers, the nodes in a pool.

    Simplifications: [C] is any type of values; the pool is a finite map from addresses to nodes and an arbitrary allocator
    that returns unused addresses; a cell index outside of the array is undefined behaviour (boost::multi_array
    asserts it in debug builds only). *)
From Coq Require Import ZArith.
From stdpp Require Import prelude gmap.
From Verif Require Import Base.

Section ListGrid.
  Context {V : Type}.

  (** [Item**]: the address of a cell, or of the member [next] of a node *)
  Inductive slot := SCell (x y : nat) | SNext (p : positive).
  (** ListGrid.hpp:20-27 *)
  Record lnode := Nd { nd_val : V; nd_next : option positive; nd_this : slot }.
  (** ListGrid.hpp:274-277; a missing entry of [g_cells] is a null pointer *)
  Record grid := Grid { g_w : nat; g_h : nat; g_cells : gmap (nat * nat) positive; g_heap : gmap positive lnode }.

  Context (alloc : gmap positive lnode -> positive).

  Notation G := (out grid grid).
  Definition in_range (g : grid) (x y : nat) : Prop := x < g_w g /\ y < g_h g.
  Global Instance in_range_dec g x y : Decision (in_range g x y).
  Proof. unfold in_range. apply _. Defined.
  Definition set_heap (g : grid) h := Grid (g_w g) (g_h g) (g_cells g) h.
  Definition set_cells (g : grid) c := Grid (g_w g) (g_h g) c (g_heap g).
  (** store a pointer in a cell *)
  Definition put_cell (x y : nat) (o : option positive) (c : gmap (nat * nat) positive) : gmap (nat * nat) positive :=
    match o with Some p => <[(x, y) := p]> c | None => delete (x, y) c end.
  Definition with_next (nd : lnode) o := Nd (nd_val nd) o (nd_this nd).
  Definition with_this (nd : lnode) s := Nd (nd_val nd) (nd_next nd) s.
  Definition with_value (nd : lnode) v := Nd v (nd_next nd) (nd_this nd).
  Definition node_at (p : positive) (g : grid) (k : lnode -> G) : G :=
    match g_heap g !! p with Some nd => k nd | None => Bad UB end.

  (** [*pthis = o] *)
  Definition write_slot (s : slot) (o : option positive) (g : grid) : G :=
    match s with
    | SCell x y => if decide (in_range g x y) then Ok (set_cells g (put_cell x y o (g_cells g))) else Bad UB
    | SNext p => node_at p g (fun nd => Ok (set_heap g (<[p := with_next nd o]> (g_heap g))))
    end.

  (** ListGrid.hpp:208-218 *)
  Definition insert_head (x y : nat) (v : V) (g : grid) : G :=
    if decide (in_range g x y) then
      let p := alloc (g_heap g) in
      let nx := g_cells g !! (x, y) in
      let g1 := set_heap g (<[p := Nd v nx (SCell x y)]> (g_heap g)) in
      g2 <~ match nx with
            | Some q => node_at q g1 (fun nd => Ok (set_heap g1 (<[q := with_this nd (SNext p)]> (g_heap g1))))
            | None => Ok g1 end ;;
      Ok (set_cells g2 (<[(x, y) := p]> (g_cells g2)))
    else Bad UB.

  (** ListGrid.hpp:225-231: the last node *)
  Fixpoint walk (fuel : nat) (cur last : option positive) (g : grid) : out grid (option positive) :=
    match cur with
    | None => Ok last
    | Some q =>
      match fuel with
      | O => NoFuel
      | S f => match g_heap g !! q with Some nd => walk f (nd_next nd) (Some q) g | None => Bad UB end
      end
    end.
  (** ListGrid.hpp:223-247 *)
  Definition insert_tail (x y : nat) (v : V) (g : grid) : G :=
    if decide (in_range g x y) then
      last <~ walk (size (g_heap g)) (g_cells g !! (x, y)) None g ;;
      let p := alloc (g_heap g) in
      match last with
      | Some q =>
        let g1 := set_heap g (<[p := Nd v None (SNext q)]> (g_heap g)) in
        node_at q g1 (fun nd => Ok (set_heap g1 (<[q := with_next nd (Some p)]> (g_heap g1))))
      | None =>
        let g1 := set_heap g (<[p := Nd v None (SCell x y)]> (g_heap g)) in
        Ok (set_cells g1 (<[(x, y) := p]> (g_cells g1)))
      end
    else Bad UB.

  (** ListGrid.hpp:250-262; the returned iterator is the successor *)
  Definition erase (p : positive) (g : grid) : out grid (grid * option positive) :=
    match g_heap g !! p with
    | None => Bad UB
    | Some nd0 =>
      let res := nd_next nd0 in
      g1 <~ write_slot (nd_this nd0) (nd_next nd0) g ;;
      match g_heap g1 !! p with
      | None => Bad UB
      | Some nd =>
        g2 <~ match nd_next nd with
              | Some q => node_at q g1 (fun nq => Ok (set_heap g1 (<[q := with_this nq (nd_this nd)]> (g_heap g1))))
              | None => Ok g1 end ;;
        Ok (set_heap g2 (delete p (g_heap g2)), res)
      end
    end.

  (** [*it = v] through an iterator, ListGrid.hpp:51-54 *)
  Definition set_value (p : positive) (v : V) (g : grid) : G :=
    node_at p g (fun nd => Ok (set_heap g (<[p := with_value nd v]> (g_heap g)))).

  (** ListGrid.hpp:264-272 *)
  Definition clear (g : grid) : grid := Grid (g_w g) (g_h g) ∅ ∅.
  (** ListGrid.hpp:172-176 *)
  Definition resize (w h : nat) (g : grid) : grid := Grid w h ∅ ∅.

  (** ListGrid.hpp:154-160 *)
  Fixpoint free_chain (fuel : nat) (o : option positive) (g : grid) : G :=
    match o with
    | None => Ok g
    | Some p =>
      match fuel with
      | O => NoFuel
      | S f => node_at p g (fun nd => free_chain f (nd_next nd) (set_heap g (delete p (g_heap g))))
      end
    end.
  (** the order of the two loops, e.g. ListGrid.hpp:144-146 *)
  Definition coords (w h : nat) : list (nat * nat) := x ← seq 0 w; y ← seq 0 h; [(x, y)].
  (** ListGrid.hpp:125-168. [boost::swap] of two arrays exchanges the elements, not the storage: the addresses of the cells
      stay the same. *)
  Definition move (xd yd : Z) (g : grid) : G :=
    if decide (Z.of_nat (g_w g) <= Z.abs xd \/ Z.of_nat (g_h g) <= Z.abs yd)%Z then Ok (clear g)
    else
      let tmp := g_cells g in
      iter_out (fun xy g1 =>
        let nx := (Z.of_nat xy.1 + xd)%Z in
        let ny := (Z.of_nat xy.2 + yd)%Z in
        if decide (nx < 0 \/ Z.of_nat (g_w g) <= nx \/ ny < 0 \/ Z.of_nat (g_h g) <= ny)%Z then
          free_chain (size (g_heap g1)) (tmp !! xy) g1
        else Ok (set_cells g1 (put_cell (Z.to_nat nx) (Z.to_nat ny) (tmp !! xy) (g_cells g1))))
        (coords (g_w g) (g_h g)) (set_cells g ∅).

  (** iteration from beginCell to endCell, ListGrid.hpp:181-203 *)
  Fixpoint elements (fuel : nat) (o : option positive) (g : grid) : out grid (list (positive * V)) :=
    match o with
    | None => Ok []
    | Some p =>
      match fuel with
      | O => NoFuel
      | S f => match g_heap g !! p with
               | Some nd => r <~ elements f (nd_next nd) g ;; Ok ((p, nd_val nd) :: r)
               | None => Bad UB end
      end
    end.
  Definition cell (x y : nat) (g : grid) : out grid (list (positive * V)) :=
    if decide (in_range g x y) then elements (S (size (g_heap g))) (g_cells g !! (x, y)) g else Bad UB.

  (** ListGrid.hpp:85-117, for two different objects that were made by the constructors at 67-73.  The copy constructor (79-83)
      is not modelled: it calls this function without having initialised [mem_pool], which [clear] then reads (267). *)
  Definition assign (src g : grid) : G :=
    let g0 := clear (if decide (g_w src = g_w g /\ g_h src = g_h g) then g else resize (g_w src) (g_h src) g) in
    iter_out (fun xy g1 =>
      match cell xy.1 xy.2 src with
      | Ok l => iter_out (fun pv => insert_tail xy.1 xy.2 pv.2) l (set_cells g1 (delete xy (g_cells g1)))
      | Throw _ => Bad UB | Bad b => Bad b | NoFuel => NoFuel end)
      (coords (g_w src) (g_h src)) g0.

  (** ListGrid.hpp:69-73 *)
  Definition new_grid (w h : nat) : grid := Grid w h ∅ ∅.
  (** programs *)
  Inductive lop :=
  | InsHead (x y : nat) (v : V)
  | InsTail (x y : nat) (v : V)
  | Erase (p : positive)
  | SetVal (p : positive) (v : V)
  | Clear
  | Resize (w h : nat)
  | Move (xd yd : Z).
  Definition lstep (o : lop) (g : grid) : G :=
    match o with
    | InsHead x y v => insert_head x y v g
    | InsTail x y v => insert_tail x y v g
    | Erase p => r <~ erase p g ;; Ok r.1
    | SetVal p v => set_value p v g
    | Clear => Ok (clear g)
    | Resize w h => Ok (resize w h g)
    | Move xd yd => move xd yd g
    end.
End ListGrid.
Arguments grid : clear implicits.
Arguments lop : clear implicits.
Arguments lnode : clear implicits.
