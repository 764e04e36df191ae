(** Operators that fill surface grids or read them (C87 - C90): src/operators/MLSProjection.cpp, src/operators/MergeMLS.cpp,
    src/maps/MLSGrid.cpp:523-624, src/operators/GridFloatToMLS.cpp, src/operators/MLSToPointCloud.cpp.

    Simplifications: [double] and [float] are modelled by the rational numbers; a frame is given by the affine map between it and another frame.
    The type of the patches and the merge of two patches are parameters, as in MlsModel.v; the update model SLOPE is not modelled. *)
From stdpp Require Import prelude gmap.
From Coq Require Import QArith Qcanon Qround Lqa Qabs.
From Verif Require Import Base Bresenham GridModel GridProps Transform MlsModel MlsProps MlsUpdate Elevation.
From Verif Require ListGrid ListGridProps Access Cloud.
Local Open Scope Z_scope.

(** ** Model *)
Section Put.
  Context {P : Type} (merge : P -> P -> bool * P * P) (conv : Z -> Z).

  (** MLSGrid.cpp:482-521 for any cell: a cell outside of the arrays is undefined behaviour *)
  Definition cell_put (m n : Z) (o : P) (s : mls P) : out (mls P) (mls P) :=
    if decide ((0 <= m < Z.of_nat (m_w s)) /\ (0 <= n < Z.of_nat (m_h s))) then update_cell merge (Z.to_nat m) (Z.to_nat n) o s else Bad UB.
  (** MLSGrid.cpp:523-541, [update]; [g] is the geometry of the grid *)
  Definition put (g : geo) (x y : Q) (o : P) (s : mls P) : out (mls P) (mls P) :=
    match to_grid conv g x y with
    | Some (m, n, _, _) => cell_put m n o s
    | None => Ok s
    end.

  (** MLSProjection.cpp:160-194, [projectPointcloud]: a point comes with the data from which [mk] makes a patch at its height (variance, colour);
      [area] is the area of interest *)
  Context {D : Type} (mk : Q -> D -> P).
  Definition project (g : geo) (T : aff) (area : option Cloud.box) (pts : list (vec * D)) : mls P -> out (mls P) (mls P) :=
    iter_out (fun p s =>
      let v := aapp T p.1 in
      if match area with Some b => negb (Cloud.contains b v) | None => false end then Ok s
      else put g (this (vx v)) (this (vy v)) (mk (this (vz v)) p.2) s) pts.
  (** MLSProjection.cpp:52-104, [projectPointcloudWithUncertainty] without negative information: [smear] changes the deviation of a patch of a cell,
      [index] lists the positions of the index of the temporary grid *)
  Definition project_uncertain (index : gset (nat * nat) -> list (nat * nat)) (smear : nat -> nat -> P -> P) (g : geo) (T : aff) (area : option Cloud.box) (pts : list (vec * D)) (s : mls P) : out (mls P) (mls P) :=
    if decide (m_count s = 0) then
      s1 <~ project g T area pts (init_index s) ;;
      match m_index s1 with
      | None => Bad UB
      | Some i => Ok (foldl (fun s1 xy => with_cell xy.1 xy.2 (smear xy.1 xy.2 <$> m_cell s1 xy.1 xy.2) s1) s1 (index i))
      end
    else
      s1 <~ project g T area pts (init_index (new_mls (m_w s) (m_h s))) ;;
      match m_index s1 with
      | None => Bad UB
      | Some i => iter_out (fun xy s => iter_out (fun p s => cell_put (Z.of_nat xy.1) (Z.of_nat xy.2) (smear xy.1 xy.2 p) s) (m_cell s1 xy.1 xy.2) s) (index i) s
      end.

  (** the mean of a patch *)
  Context (mean : P -> Q) (set_mean : Q -> P -> P).
  (** an input grid: its geometry, its content and the transform between its frame and that of the output *)
  Record input := Input { i_geo : geo; i_cell : nat -> nat -> list P; i_tf : aff }.
  Definition i_coords (i : input) : list (nat * nat) := ListGrid.coords (Z.to_nat (g_nx (i_geo i))) (Z.to_nat (g_ny (i_geo i))).
  (** the centre of a cell, at a height *)
  Definition centre (g : geo) (x y : nat) (z : Q) : vec :=
    let c := from_grid g (Z.of_nat x) (Z.of_nat y) in Vec (Q2Qc (fst c)) (Q2Qc (snd c)) (Q2Qc z).
  (** MergeMLS.cpp:42-77; [i_tf] is the transform from the input to the output *)
  Definition merge_forward (g : geo) (ins : list input) : mls P -> out (mls P) (mls P) :=
    iter_out (fun i => iter_out (fun xy => iter_out (fun p s =>
      let v := aapp (i_tf i) (centre (i_geo i) xy.1 xy.2 (mean p)) in
      put g (this (vx v)) (this (vy v)) (set_mean (this (vz v)) p) s) (i_cell i xy.1 xy.2)) (i_coords i)) ins.
  (** MergeMLS.cpp:78-127; [i_tf] is the transform from the output to the input *)
  Definition merge_reverse (g : geo) (ins : list input) : mls P -> out (mls P) (mls P) :=
    iter_out (fun xy => iter_out (fun i s =>
      let v := aapp (i_tf i) (centre g xy.1 xy.2 0) in
      match to_grid conv (i_geo i) (this (vx v)) (this (vy v)) with
      | Some (m, n, _, _) =>
        iter_out (fun p s => cell_put (Z.of_nat xy.1) (Z.of_nat xy.2) (set_mean (mean p + this (vz v))%Q p) s) (i_cell i (Z.to_nat m) (Z.to_nat n)) s
      | None => Ok s
      end) ins) (ListGrid.coords (Z.to_nat (g_nx g)) (Z.to_nat (g_ny g))).
  (** MLSGrid.cpp:570-624, [merge]: the index holds the cells with patches, in the order of [coords]; [adapt] combines the deviation of a patch with that
      of the offset and sets the update index, [off] is the mean of the offset *)
  Definition merge_grid (g : geo) (adapt : P -> P) (off : Q) (i : input) : mls P -> out (mls P) (mls P) :=
    iter_out (fun xy s =>
      let v := aapp (i_tf i) (centre (i_geo i) xy.1 xy.2 0) in
      match to_grid conv g (this (vx v)) (this (vy v)) with
      | Some (m, n, _, _) =>
        iter_out (fun p s => cell_put m n (adapt (set_mean (mean p + (off + this (vz v)))%Q p)) s) (i_cell i xy.1 xy.2) s
      | None => Ok s
      end) (filter (fun xy => i_cell i xy.1 xy.2 <> []) (i_coords i)).

  (** GridFloatToMLS.cpp:55-84: [data] are the values of the grid, [gg] its geometry, [T] the result of [relativeTransform( grid, mls )], the map from the frame
      of the grid to that of the surface grid *)
  Definition float_to_mls (g : geo) (gg : geo) (data : Z * Z -> D) (flat : D -> P) (T : aff) : mls P -> out (mls P) (mls P) :=
    iter_out (fun c s =>
      let v := aapp T (Vec (Q2Qc (g_sx g * inject_Z c.1 + g_ox g)) (Q2Qc (g_sy g * inject_Z c.2 + g_oy g)) 0) in
      match to_grid conv gg (this (vx v)) (this (vy v)) with
      | Some (m, n, _, _) => cell_put c.1 c.2 (flat (data (m, n))) s
      | None => Ok s
      end) (rows (g_nx g) (g_ny g)).
End Put.

(** MLSToPointCloud.cpp:28-72.  [T] is the transform from the grid to the root frame *)
Section ToCloud.
  Definition vertical_distance (g : geo) : Q := let d := ((g_sx g + g_sy g) * (1 # 2))%Q in if Qlt_le_dec 0 d then d else (1 # 10)%Q.
  (** the loop over the heights *)
  Fixpoint heights (fuel : nat) (step z max : Q) : out unit (list Q) :=
    match fuel with
    | O => NoFuel
    | S n => if Qlt_le_dec max z then Ok [] else r <~ heights n step (z + step)%Q max ;; Ok (z :: r)
    end.
  Definition patch_heights (fuel : nat) (step : Q) (p : Access.spatch) : out unit (list Q) :=
    match Access.sp_kind p with
    | Access.KHorizontal => Ok [Access.sp_mean p]
    | Access.KVertical => heights fuel step (Access.sp_mean p - Access.sp_height p)%Q (Access.sp_mean p)
    | Access.KNegative => Ok []
    end.
  Fixpoint collect {A B} (f : A -> out unit (list B)) (l : list A) : out unit (list B) :=
    match l with [] => Ok [] | a :: l => x <~ f a ;; y <~ collect f l ;; Ok (x ++ y) end.
  Definition to_cloud (fuel : nat) (g : geo) (T : aff) (cells : nat -> nat -> list Access.spatch) : out unit (list vec) :=
    collect (fun xy => collect (fun p =>
      let c := aapp T (centre g xy.1 xy.2 0) in
      hs <~ patch_heights fuel (vertical_distance g) p ;; Ok ((fun h => Vec (vx c) (vy c) (vz c + Q2Qc h)%Qc) <$> hs)) (cells xy.1 xy.2))
      (ListGrid.coords (Z.to_nat (g_nx g)) (Z.to_nat (g_ny g))).
End ToCloud.

(** ** Specification *)
(** the content of a cell after the patches [os] were put into it, one after the other *)
Fixpoint cell_run {P} (merge : P -> P -> bool * P * P) (l os : list P) : option (list P) :=
  match os with
  | [] => Some l
  | o :: os => match update_list merge l o with Some (l', _) => cell_run merge l' os | None => None end
  end.
(** the arrays of the grid have the size of the geometry *)
Definition fits {P} (g : geo) (s : mls P) : Prop := Z.of_nat (m_w s) = g_nx g /\ Z.of_nat (m_h s) = g_ny g.
Global Instance q_le_dec (a b : Q) : Decision (a <= b)%Q.
Proof. destruct (Qlt_le_dec b a) as [H|H]; [right|by left]. by apply Qlt_not_le. Defined.
Global Instance q_lt_dec (a b : Q) : Decision (a < b)%Q.
Proof. destruct (Qlt_le_dec a b) as [H|H]; [by left|right]. by apply Qle_not_lt. Defined.
Global Instance in_cell_dec g x y u v : Decision (in_cell g x y u v).
Proof. unfold in_cell. apply _. Defined.
(** the position is above a cell *)
Definition above (g : geo) (x y : nat) (v : vec) : Prop := in_cell g (Z.of_nat x) (Z.of_nat y) (this (vx v)) (this (vy v)).
Global Instance above_dec g x y v : Decision (above g x y v).
Proof. unfold above. apply _. Defined.
Definition in_area (area : option Cloud.box) (v : vec) : Prop := match area with Some b => Cloud.contains b v = true | None => True end.
Global Instance in_area_dec a v : Decision (in_area a v).
Proof. destruct a; cbn; apply _. Defined.
Definition close_to (g : geo) (v : vec) : Prop := near g (this (vx v)) (this (vy v)).
(** The operation [f] puts the patches [hits x y] into the cell (x, y), one after the other, and does nothing else. *)
Definition puts {P} (merge : P -> P -> bool * P * P) (g : geo) (f : mls P -> out (mls P) (mls P)) (hits : nat -> nat -> list P) : Prop :=
  forall s, fits g s -> exists s', f s = Ok s' /\ fits g s' /\ forall x y, (x < m_w s)%nat -> (y < m_h s)%nat -> cell_run merge (m_cell s x y) (hits x y) = Some (m_cell s' x y).

Section Facts.
  Context {P : Type} (merge : P -> P -> bool * P * P) (conv : Z -> Z).
  Lemma cell_run_app l os os' : cell_run merge l (os ++ os') = (l' ← cell_run merge l os; cell_run merge l' os').
  Proof.
    revert l. induction os as [|o os IH]; intros l; [done|]. cbn [app cell_run]. destruct (update_list merge l o) as [[l' b]|]; [|done]. apply IH.
  Qed.
  Lemma puts_none g : puts merge g (fun s => Ok s) (fun _ _ => []).
  Proof. intros s Hs. exists s. done. Qed.
  Lemma puts_cell g m n o : a_cell g m n -> puts merge g (cell_put merge m n o) (fun x y => if decide (Z.of_nat x = m /\ Z.of_nat y = n) then [o] else []).
  Proof.
    intros [Hm Hn] s [Hw Hh]. unfold cell_put. rewrite decide_True by lia. unfold update_cell.
    destruct (update_list_ok merge (m_cell s (Z.to_nat m) (Z.to_nat n)) o) as (l & b & Hu & _). rewrite Hu.
    set (s1 := with_cell (Z.to_nat m) (Z.to_nat n) l s). assert (Hc : forall x y, cell_run merge (m_cell s x y) (if decide (Z.of_nat x = m /\ Z.of_nat y = n) then [o] else []) = Some (m_cell s1 x y)).
    { intros x y. unfold s1. cbn [with_cell m_cell]. unfold set_cell. destruct (decide (Z.of_nat x = m /\ Z.of_nat y = n)) as [[E1 E2]|Hne].
      - assert (x = Z.to_nat m) as -> by lia. assert (y = Z.to_nat n) as -> by lia. cbn [cell_run]. rewrite Hu, decide_True by done. done.
      - rewrite decide_False by lia. done. }
    destruct b; eexists; (split; [reflexivity|]); (split; [by split|]); intros x y _ _; apply Hc.
  Qed.
  Lemma puts_iter {A} g (f : A -> mls P -> out (mls P) (mls P)) (h : A -> nat -> nat -> list P) l : (forall a, a ∈ l -> puts merge g (f a) (h a)) ->
    puts merge g (iter_out f l) (fun x y => a ← l; h a x y).
  Proof.
    intros Hl. induction l as [|a l IH]; [apply puts_none|]. intros s Hs. destruct (Hl a ltac:(left) s Hs) as (s1 & H1 & F1 & C1).
    destruct (IH ltac:(intros b Hb; apply Hl; by right) s1 F1) as (s2 & H2 & F2 & C2). exists s2. cbn [iter_out]. rewrite H1. cbn [obind]. split; [done|]. split; [done|].
    intros x y Hx Hy. rewrite bind_cons, cell_run_app, C1 by done. cbn [mbind option_bind]. apply C2; destruct Hs, F1; lia.
  Qed.
  Lemma puts_ext g f h h' : puts merge g f h -> (forall x y, a_cell g (Z.of_nat x) (Z.of_nat y) -> h x y = h' x y) -> puts merge g f h'.
  Proof.
    intros Hf He s Hs. destruct (Hf s Hs) as (s1 & H1 & F1 & C1). exists s1. split; [done|]. split; [done|]. intros x y Hx Hy. rewrite <-He; [by apply C1|].
    destruct Hs. split; lia.
  Qed.
  Lemma puts_at g v o : conv_wraps conv -> Access.usable g -> close_to g v ->
    puts merge g (put merge conv g (this (vx v)) (this (vy v)) o) (fun x y => if decide (above g x y v) then [o] else []).
  Proof.
    intros HC (Hg & HX & HY) HN. unfold put. destruct (to_grid conv g _ _) as [[[[m n] xm] ym]|] eqn:E.
    - destruct (to_grid_cell conv _ _ _ _ _ _ _ HC Hg HX HY HN E) as [HA HI]. eapply puts_ext; [by apply puts_cell|]. intros x y HA'. cbn.
      unfold above. destruct (decide (Z.of_nat x = m /\ Z.of_nat y = n)) as [[<- <-]|Hne]; [by rewrite decide_True|]. rewrite decide_False; [done|].
      intros HI'. apply Hne. by destruct (in_cell_fun _ _ _ _ _ _ _ Hg HI' HI).
    - eapply puts_ext; [apply puts_none|]. intros x y HA. cbn. rewrite decide_False; [done|]. by apply (to_grid_none conv _ _ _ _ _ (proj1 HC) Hg E).
  Qed.
End Facts.
Lemma bind_if {A B} (Q : A -> Prop) `{!forall a, Decision (Q a)} (f : A -> B) l : (a ← l; if decide (Q a) then [f a] else []) = f <$> filter Q l.
Proof.
  induction l as [|a l IH]; [done|]. rewrite bind_cons, filter_cons, IH. by destruct (decide (Q a)).
Qed.

(** ** C87: projecting point clouds into surface grids *)
(** A projection puts a patch at the height of each point into the cell below the point, in the order of the points, for those points
    that are in the area of interest. *)
Theorem C87_project {P D} (merge : P -> P -> bool * P * P) conv (mk : Q -> D -> P) g T area pts : conv_wraps conv -> Access.usable g -> (forall p, p ∈ pts -> close_to g (aapp T p.1)) ->
  puts merge g (project merge conv mk g T area pts) (fun x y => (fun p => mk (this (vz (aapp T p.1))) p.2) <$> filter (fun p => in_area area (aapp T p.1) /\ above g x y (aapp T p.1)) pts).
Proof.
  intros HC HU HN. unfold project. eapply puts_ext.
  - apply puts_iter with (h := fun p x y => if decide (in_area area (aapp T p.1) /\ above g x y (aapp T p.1)) then [mk (this (vz (aapp T p.1))) p.2] else []).
    intros p Hp. cbn zeta. destruct (decide (in_area area (aapp T p.1))) as [Ha|Ha].
    + assert ((match area with Some b => negb (Cloud.contains b (aapp T p.1)) | None => false end) = false) as ->.
      { destruct area as [b|]; [|done]. cbn in Ha. by rewrite Ha. }
      eapply puts_ext; [apply puts_at; auto|]. intros x y _. cbn beta. destruct (decide (above g x y (aapp T p.1))); [by rewrite decide_True|]. rewrite decide_False; [done|]. tauto.
    + assert ((match area with Some b => negb (Cloud.contains b (aapp T p.1)) | None => false end) = true) as ->.
      { destruct area as [b|]; cbn in Ha; [|tauto]. by destruct (Cloud.contains b _). }
      eapply puts_ext; [apply puts_none|]. intros x y _. cbn beta. rewrite decide_False; [done|]. tauto.
  - intros x y _. by rewrite <-bind_if.
Qed.
(** Putting patches into a cell loses no information: if every patch carries the set of measurements that it stands for, then the patches of the cell
    together stand for the measurements of the old and the new patches; and the labels do not influence the patches. *)
Theorem C87_no_loss {P} (merge : P -> P -> bool * P * P) (l os : list (P * gset nat)) : exists l', cell_run (lmerge merge) l os = Some l' /\
  labels l' = labels l ∪ labels os /\ cell_run merge l.*1 os.*1 = Some l'.*1.
Proof.
  revert l. induction os as [|[o T] os IH]; intros l; [exists l; split; [done|]; split; [set_solver|done]|].
  rewrite fmap_cons. cbn [cell_run fst]. destruct (update_list_ok (lmerge merge) l (o, T)) as (l1 & b & Hu & _). rewrite Hu.
  destruct (IH l1) as (l' & Hr & Hl & Hs). exists l'. split; [done|]. rewrite labels_cons. split.
  - rewrite Hl, (C50_no_loss _ _ _ _ _ _ Hu). set_solver.
  - rewrite (C50_labels_are_ghosts merge l o T), Hu. cbn. done.
Qed.
Section Uncertain.
  Context {P D : Type} (merge : P -> P -> bool * P * P) (conv : Z -> Z) (mk : Q -> D -> P).
  Definition indexed (s : mls P) : Prop := in_grid s /\ count_ge s /\ idx_exact s /\ is_Some (m_index s).
  Lemma cell_put_indexed m n o s s' : indexed s -> cell_put merge m n o s = Ok s' -> indexed s'.
  Proof.
    intros (Hg & Hc & Hi & Hs). unfold cell_put. destruct (decide _) as [Hd|]; [|done]. intros Hu.
    assert (Hl : mlegal (MUpdate (Z.to_nat m) (Z.to_nat n) o) s) by (cbn; lia).
    destruct (step_inv merge (MUpdate (Z.to_nat m) (Z.to_nat n) o) s s' Hl Hu Hg) as (H1 & H2 & H3). destruct (H3 I) as (_ & _ & _ & H4).
    split; [done|]. split; [by apply H2|]. split; [by apply H4|].
    unfold update_cell in Hu. destruct (update_list _ _ _) as [[l []]|]; [injection Hu as <-|injection Hu as <-|done]; [|done].
    cbn [add_cell with_cell m_index]. destruct Hs as [i ->]. by eexists.
  Qed.
  Lemma project_indexed g T area pts : forall s s', indexed s -> project merge conv mk g T area pts s = Ok s' -> indexed s'.
  Proof.
    induction pts as [|p pts IH]; intros s s' Hs; [intros [= <-]; done|]. unfold project. cbn [iter_out]. cbn zeta.
    destruct (match area with Some b => _ | None => false end); [cbn [obind]; by apply IH|].
    unfold put at 1. destruct (to_grid conv g _ _) as [[[[m n] ?] ?]|]; [|cbn [obind]; by apply IH].
    destruct (cell_put merge m n _ s) as [s1| | |] eqn:E; try done. cbn [obind]. apply IH. by eapply cell_put_indexed.
  Qed.
  Lemma bind_at {A B} `{!EqDecision A} (f : A -> list B) (k : A) l : NoDup l -> (a ← l; if decide (k = a) then f a else []) = if decide (k ∈ l) then f k else [].
  Proof.
    induction 1 as [|a l Ha Hl IH]; [by rewrite decide_False by apply not_elem_of_nil|]. rewrite bind_cons, IH.
    destruct (decide (k = a)) as [->|Hne].
    - rewrite decide_False, decide_True by (by left || done). apply app_nil_r.
    - cbn [app]. destruct (decide (k ∈ l)) as [Hin|Hnin]; [rewrite decide_True by (by right); done|]. rewrite decide_False; [done|]. intros [?|?]%elem_of_cons; done.
  Qed.
  Lemma smear_fold (smear : nat -> nat -> P -> P) l : NoDup l -> forall s,
    let s' := foldl (fun s1 xy => with_cell xy.1 xy.2 (smear xy.1 xy.2 <$> m_cell s1 xy.1 xy.2) s1) s l in
    m_w s' = m_w s /\ m_h s' = m_h s /\ forall x y, m_cell s' x y = if decide ((x, y) ∈ l) then smear x y <$> m_cell s x y else m_cell s x y.
  Proof.
    induction 1 as [|[a b] l Ha Hl IH]; intros s; cbn zeta; cbn [foldl]; [split; [done|]; split; [done|]; intros x y; by rewrite decide_False by apply not_elem_of_nil|].
    destruct (IH (with_cell a b (smear a b <$> m_cell s a b) s)) as (Hw & Hh & Hc). cbn [fst snd]. split; [done|]. split; [done|].
    intros x y. rewrite Hc. cbn [with_cell m_cell]. unfold set_cell. destruct (decide (x = a /\ y = b)) as [[-> ->]|Hne].
    - rewrite decide_False, decide_True by (by left || done). done.
    - destruct (decide ((x, y) ∈ l)) as [Hin|Hnin]; [by rewrite decide_True by (by right)|]. rewrite decide_False; [done|]. intros [[= -> ->]|?]%elem_of_cons; [by apply Hne|done].
  Qed.
  Definition enumerates (index : gset (nat * nat) -> list (nat * nat)) : Prop := forall i, NoDup (index i) /\ forall xy, xy ∈ index i <-> xy ∈ i.
  (** With the uncertainty of the transform the points are first gathered in an empty grid; the resulting patches of each cell, with their new deviations, are
      the content of the cell if the grid was empty, and are put into the cell otherwise. *)
  Theorem C87_uncertain index smear g T area pts s : conv_wraps conv -> Access.usable g -> (forall p, p ∈ pts -> close_to g (aapp T p.1)) ->
    enumerates index -> mrun merge (fun _ => True) True s -> fits g s ->
    exists s', project_uncertain merge conv mk index smear g T area pts s = Ok s' /\ fits g s' /\ forall x y, (x < m_w s)%nat -> (y < m_h s)%nat ->
      exists l, cell_run merge [] ((fun p => mk (this (vz (aapp T p.1))) p.2) <$> filter (fun p => in_area area (aapp T p.1) /\ above g x y (aapp T p.1)) pts) = Some l /\
      (m_count s = 0 -> m_cell s x y = [] /\ m_cell s' x y = smear x y <$> l) /\
      (m_count s <> 0 -> cell_run merge (m_cell s x y) (smear x y <$> l) = Some (m_cell s' x y)).
  Proof.
    intros HC HU HN HE Hr Hf. destruct (mrun_basic merge _ _ _ Hr) as [Hg Hc]. pose proof (C87_project merge conv mk g T area pts HC HU HN) as HP.
    assert (HI : forall t : mls P, in_grid t -> count_ge t -> m_count t = 0 -> (forall x y, m_cell t x y = []) /\ indexed (init_index t)).
    { intros t Htg Htc Ht0. assert (Hem : forall x y, m_cell t x y = []).
      { intros x y. destruct (m_cell t x y) eqn:E; [done|]. destruct (Htg x y) as [Hx Hy]; [unfold occupied; by rewrite E|].
        pose proof (patches_le t x y Hx Hy) as Hp. unfold count_ge in Htc. rewrite E in Hp. cbn in Hp. lia. }
      split; [done|]. split; [exact Htg|]. split; [exact Htc|]. split; [|by eexists].
      intros i Hi x y. cbn in Hi. injection Hi as <-. rewrite decide_False by lia. unfold occupied. cbn [m_cell init_index]. rewrite Hem. split; [set_solver|done]. }
    unfold project_uncertain. destruct (decide (m_count s = 0)) as [H0|H0].
    - destruct (HI s Hg Hc H0) as [Hem Hidx]. destruct (HP (init_index s) Hf) as (s1 & H1 & F1 & C1). rewrite H1. cbn [obind].
      destruct (project_indexed g T area pts _ _ Hidx H1) as (G1 & _ & X1 & [i Hi]). rewrite Hi. destruct (HE i) as [Hnd Hin].
      eexists. split; [reflexivity|]. destruct (smear_fold smear (index i) Hnd s1) as (Hw & Hh & Hcell). split; [destruct F1; split; [by rewrite Hw|by rewrite Hh]|].
      intros x y Hx Hy. specialize (C1 x y Hx Hy). cbn [init_index m_cell] in C1. rewrite Hem in C1. eexists. split; [exact C1|]. split; [|done]. intros _.
      split; [apply Hem|]. rewrite Hcell. destruct (decide ((x, y) ∈ index i)) as [|Hni]; [done|].
      assert (m_cell s1 x y = []) as ->; [|done]. destruct (m_cell s1 x y) eqn:E; [done|]. exfalso. apply Hni, Hin, (X1 i Hi). unfold occupied. by rewrite E.
    - set (t := new_mls (m_w s) (m_h s) : mls P). destruct (HI t) as [Hem Hidx].
      { intros x y Ho. by destruct Ho. } { unfold count_ge. destruct (patches t) eqn:E; [done|]. destruct (patches_pos t) as (x & y & Ho); [lia|]. by destruct Ho. } { done. }
      destruct (HP (init_index t) Hf) as (s1 & H1 & F1 & C1). rewrite H1. cbn [obind].
      destruct (project_indexed g T area pts _ _ Hidx H1) as (G1 & _ & X1 & [i Hi]). rewrite Hi. destruct (HE i) as [Hnd Hin].
      assert (HA : forall x y, (x, y) ∈ index i -> a_cell g (Z.of_nat x) (Z.of_nat y)).
      { intros x y Hxy. apply Hin, (X1 i Hi) in Hxy. destruct (G1 x y Hxy). destruct F1. split; lia. }
      assert (HF : puts merge g (iter_out (fun xy s => iter_out (fun p s => cell_put merge (Z.of_nat xy.1) (Z.of_nat xy.2) (smear xy.1 xy.2 p) s) (m_cell s1 xy.1 xy.2) s) (index i))
                     (fun x y => smear x y <$> m_cell s1 x y)).
      { eapply puts_ext.
        - apply puts_iter with (h := fun xy x y => p ← m_cell s1 xy.1 xy.2; if decide (Z.of_nat x = Z.of_nat xy.1 /\ Z.of_nat y = Z.of_nat xy.2) then [smear xy.1 xy.2 p] else []).
          intros [a b] Hab. cbn [fst snd]. apply (puts_iter merge g (fun p s => cell_put merge (Z.of_nat a) (Z.of_nat b) (smear a b p) s)
            (fun p x y => if decide (Z.of_nat x = Z.of_nat a /\ Z.of_nat y = Z.of_nat b) then [smear a b p] else [])). intros p _. apply puts_cell. by apply HA.
        - intros x y _. cbn beta. transitivity (xy ← index i; if decide ((x, y) = xy) then smear xy.1 xy.2 <$> m_cell s1 xy.1 xy.2 else []).
          + apply list_bind_ext; [|done]. intros [a b]. cbn [fst snd]. destruct (decide ((x, y) = (a, b))) as [[= <- <-]|Hne].
            * clear. induction (m_cell s1 x y) as [|p l IH]; [done|]. rewrite bind_cons, fmap_cons, IH, decide_True by done. done.
            * clear -Hne. induction (m_cell s1 a b) as [|p l IH]; [done|]. rewrite bind_cons, IH, decide_False; [done|]. intros [? ?]. apply Hne. f_equal; lia.
          + rewrite bind_at by done. cbn [fst snd]. destruct (decide _) as [|Hni]; [done|]. destruct (m_cell s1 x y) eqn:E; [done|].
            exfalso. apply Hni, Hin, (X1 i Hi). unfold occupied. by rewrite E. }
      destruct (HF s Hf) as (s' & H' & F' & C'). exists s'. split; [exact H'|]. split; [done|]. intros x y Hx Hy. specialize (C1 x y Hx Hy). cbn [t init_index m_cell new_mls] in C1.
      eexists. split; [exact C1|]. split; [done|]. intros _. by apply C'.
  Qed.
End Uncertain.
(** a simple kind of patches for the examples: heights, which are averaged if their distance is at most 1 *)
Definition demo_merge (p o : Q) : bool * Q * Q := if decide (Qabs (p - o) <= 1)%Q then (true, Qred ((p + o) / 2), o) else (false, p, o).
Definition demo_conv : Z -> Z := fun z => if z <? 0 then z + size_end else z.
Lemma demo_conv_wraps : conv_wraps demo_conv.
Proof. split; intros z Hz; unfold demo_conv, size_end, half in *; destruct (Z.ltb_spec z 0); lia. Qed.
Definition demo_geo : geo := Geo 2 3 1 1 0 0.
Lemma demo_usable : Access.usable demo_geo.
Proof. unfold Access.usable, good_geo, size_end, half; cbn; repeat split; lia || lra. Qed.
Definition demo_pt (x y z : Q) : vec := Vec (Q2Qc x) (Q2Qc y) (Q2Qc z).
Definition demo_lift : aff := Aff 1 0 0 0 1 0 0 0 1 0 0 (Q2Qc 10).
Definition demo_pts : list (vec * unit) := [(demo_pt (1#2) (1#2) 0, ()); (demo_pt (3#2) (5#2) 5, ()); (demo_pt (1#2) (3#4) 1, ()); (demo_pt 7 0 0, ()); (demo_pt (1#3) (1#5) 6, ())].
Example C87_nonvacuous : conv_wraps demo_conv /\ Access.usable demo_geo /\ (forall p, p ∈ demo_pts -> close_to demo_geo (aapp demo_lift p.1)) /\ fits demo_geo (new_mls 2 3 : mls Q) /\
  match project demo_merge demo_conv (fun z _ => z) demo_geo demo_lift None demo_pts (new_mls 2 3) with
  | Ok s => m_cell s 0%nat 0%nat = [16; 21 # 2]%Q /\ m_cell s 1%nat 2%nat = [15]%Q /\ m_cell s 1%nat 1%nat = []
  | _ => False
  end /\
  match project_uncertain demo_merge demo_conv (fun z _ => z) elements (fun _ _ p => p) demo_geo demo_lift (Some (Cloud.Box (demo_pt 0 0 0) (demo_pt 2 2 12))) demo_pts (insert_head 0 0 10%Q (new_mls 2 3)) with
  | Ok s => m_cell s 0%nat 0%nat = [41 # 4]%Q /\ m_cell s 1%nat 2%nat = []
  | _ => False
  end.
Proof.
  split; [apply demo_conv_wraps|]. split; [apply demo_usable|]. split.
  { intros p Hp. unfold demo_pts in Hp. repeat (apply elem_of_cons in Hp as [->|Hp]; [vm_compute; repeat split; congruence|]). by apply elem_of_nil in Hp. }
  split; [done|]. split; vm_compute; repeat split.
Qed.

(** ** C88: merging surface grids *)
Section MergeGrids.
  Context {P : Type} (merge : P -> P -> bool * P * P) (conv : Z -> Z) (mean : P -> Q) (set_mean : Q -> P -> P).
  (** the place of a patch of an input grid in the frame of the output *)
  Definition place (i : input (P:=P)) (xy : nat * nat) (h : Q) : vec := aapp (i_tf i) (centre (i_geo i) xy.1 xy.2 h).
  Lemma bind_if_const {A B} (Q : Prop) `{!Decision Q} (f : A -> B) l : (a ← l; if decide Q then [f a] else []) = if decide Q then f <$> l else [].
  Proof. destruct (decide Q); induction l as [|a l IH]; try done; rewrite bind_cons, IH; done. Qed.
  (** Every patch of an input is put, at its height in the frame of the output, into the cell of the output that contains the centre of its cell. *)
  Theorem C88_forward g ins : conv_wraps conv -> Access.usable g ->
    (forall i xy p, i ∈ ins -> xy ∈ i_coords i -> p ∈ i_cell i xy.1 xy.2 -> close_to g (place i xy (mean p))) ->
    puts merge g (merge_forward merge conv mean set_mean g ins)
      (fun x y => i ← ins; xy ← i_coords i; (fun p => set_mean (this (vz (place i xy (mean p)))) p) <$> filter (fun p => above g x y (place i xy (mean p))) (i_cell i xy.1 xy.2)).
  Proof.
    intros HC HU HN. unfold merge_forward. apply (puts_iter merge g _ (fun i x y => xy ← i_coords i; _)). intros i Hi.
    apply (puts_iter merge g _ (fun xy x y => (fun p => set_mean (this (vz (place i xy (mean p)))) p) <$> _)). intros xy Hxy. eapply puts_ext.
    - apply puts_iter with (h := fun p x y => if decide (above g x y (place i xy (mean p))) then [set_mean (this (vz (place i xy (mean p)))) p] else []).
      intros p Hp. apply (puts_at merge conv g (place i xy (mean p))); auto.
    - intros x y _. by rewrite <-bind_if.
  Qed.
  (** The same for the merge of one grid into another, except that the height of all patches of a cell is moved by the same amount: the height of the centre
      of the cell, and the offset. *)
  Theorem C88_grid g adapt off i : conv_wraps conv -> Access.usable g -> (forall xy, xy ∈ i_coords i -> close_to g (place i xy 0)) ->
    puts merge g (merge_grid merge conv mean set_mean g adapt off i)
      (fun x y => xy ← i_coords i; if decide (above g x y (place i xy 0)) then (fun p => adapt (set_mean (mean p + (off + this (vz (place i xy 0))))%Q p)) <$> i_cell i xy.1 xy.2 else []).
  Proof.
    intros HC (Hg & HX & HY) HN. unfold merge_grid. eapply puts_ext.
    - apply puts_iter with (h := fun xy x y => if decide (above g x y (place i xy 0)) then (fun p => adapt (set_mean (mean p + (off + this (vz (place i xy 0))))%Q p)) <$> i_cell i xy.1 xy.2 else []).
      intros xy Hxy. apply elem_of_list_filter in Hxy as [_ Hxy]. cbn zeta. specialize (HN xy Hxy). fold (place i xy 0). set (v := place i xy 0) in *. clearbody v.
      destruct (to_grid conv g _ _) as [[[[m n] xm] ym]|] eqn:E.
      + destruct (to_grid_cell conv _ _ _ _ _ _ _ HC Hg HX HY HN E) as [HA HI]. eapply puts_ext.
        * apply puts_iter with (h := fun p x y => if decide (Z.of_nat x = m /\ Z.of_nat y = n) then [adapt (set_mean (mean p + (off + this (vz v)))%Q p)] else []).
          intros p _. by apply puts_cell.
        * intros x y _. cbn beta. rewrite bind_if_const. unfold above. destruct (decide (Z.of_nat x = m /\ Z.of_nat y = n)) as [[<- <-]|Hne]; [by rewrite decide_True|].
          rewrite decide_False; [done|]. intros HI'. apply Hne. by destruct (in_cell_fun _ _ _ _ _ _ _ Hg HI' HI).
      + eapply puts_ext; [apply puts_none|]. intros x y HA. cbn. rewrite decide_False; [done|]. by apply (to_grid_none conv _ _ _ _ _ (proj1 HC) Hg E).
    - intros x y _. cbn beta. clear HN. induction (i_coords i) as [|xy l IH]; [done|]. rewrite bind_cons, filter_cons.
      destruct (decide (i_cell i xy.1 xy.2 <> [])) as [Hne|He]; [by rewrite bind_cons, IH|]. rewrite IH. destruct (i_cell i xy.1 xy.2); [|exfalso; by apply He]. by destruct (decide _).
  Qed.
  (** In reverse mode every cell of the output receives the patches of the cells of the inputs that contain its centre, with heights moved by that of the centre. *)
  Theorem C88_reverse g ins : conv_wraps conv -> good_geo g ->
    (forall i xy, i ∈ ins -> xy ∈ ListGrid.coords (Z.to_nat (g_nx g)) (Z.to_nat (g_ny g)) -> Access.usable (i_geo i) /\ close_to (i_geo i) (aapp (i_tf i) (centre g xy.1 xy.2 0))) ->
    puts merge g (merge_reverse merge conv mean set_mean g ins)
      (fun x y => i ← ins; let v := aapp (i_tf i) (centre g x y 0) in
         xy ← i_coords i; if decide (above (i_geo i) xy.1 xy.2 v) then (fun p => set_mean (mean p + this (vz v))%Q p) <$> i_cell i xy.1 xy.2 else []).
  Proof.
    intros HC HG HN. unfold merge_reverse. eapply puts_ext.
    - apply puts_iter with (h := fun c x y => if decide ((x, y) = c) then i ← ins; let v := aapp (i_tf i) (centre g c.1 c.2 0) in
         xy ← i_coords i; if decide (above (i_geo i) xy.1 xy.2 v) then (fun p => set_mean (mean p + this (vz v))%Q p) <$> i_cell i xy.1 xy.2 else [] else []).
      intros [a b] Hab. cbn [fst snd]. assert (HA : a_cell g (Z.of_nat a) (Z.of_nat b)).
      { apply ListGridProps.elem_of_coords in Hab as [H1 H2]. destruct HG as (_&_&?&?). split; lia. }
      eapply puts_ext.
      + apply puts_iter with (h := fun i x y => if decide ((x, y) = (a, b)) then let v := aapp (i_tf i) (centre g a b 0) in
          xy ← i_coords i; if decide (above (i_geo i) xy.1 xy.2 v) then (fun p => set_mean (mean p + this (vz v))%Q p) <$> i_cell i xy.1 xy.2 else [] else []).
        intros i Hi. cbn zeta. destruct (HN i (a, b) Hi Hab) as [(Hg & HX & HY) Hnear]. cbn [fst snd] in Hnear. set (v := aapp (i_tf i) (centre g a b 0)) in *. clearbody v.
        destruct (to_grid conv (i_geo i) _ _) as [[[[m n] xm] ym]|] eqn:E.
        * destruct (to_grid_cell conv _ _ _ _ _ _ _ HC Hg HX HY Hnear E) as [HA' HI]. eapply puts_ext.
          -- apply puts_iter with (h := fun p x y => if decide (Z.of_nat x = Z.of_nat a /\ Z.of_nat y = Z.of_nat b) then [set_mean (mean p + this (vz v))%Q p] else []). intros p _. by apply puts_cell.
          -- intros x y _. cbn beta. rewrite bind_if_const. destruct (decide ((x, y) = (a, b))) as [[= -> ->]|Hne].
             ++ rewrite decide_True by done. destruct HA' as [Hm Hn].
                transitivity (xy ← i_coords i; if decide ((Z.to_nat m, Z.to_nat n) = xy) then (fun p => set_mean (mean p + this (vz v))%Q p) <$> i_cell i xy.1 xy.2 else []).
                ** rewrite bind_at by apply ListGridProps.NoDup_coords. rewrite decide_True; [done|]. apply ListGridProps.elem_of_coords. cbn. lia.
                ** apply list_bind_ext; [|done]. intros [c d]. cbn [fst snd]. unfold above. destruct (decide ((Z.to_nat m, Z.to_nat n) = (c, d))) as [[= <- <-]|Hne].
                   --- rewrite decide_True; [done|]. by rewrite !Z2Nat.id by lia.
                   --- rewrite decide_False; [done|]. intros HI'. apply Hne. destruct (in_cell_fun _ _ _ _ _ _ _ Hg HI' HI) as [<- <-]. by rewrite !Nat2Z.id.
             ++ rewrite decide_False; [done|]. intros [? ?]. apply Hne. f_equal; lia.
        * eapply puts_ext; [apply puts_none|]. intros x y _. cbn beta. destruct (decide _); [|done]. symmetry.
          assert (HB : forall l : list (nat * nat), (forall c, c ∈ l -> a_cell (i_geo i) (Z.of_nat c.1) (Z.of_nat c.2)) ->
            (xy ← l; if decide (above (i_geo i) xy.1 xy.2 v) then (fun p => set_mean (mean p + this (vz v))%Q p) <$> i_cell i xy.1 xy.2 else []) = []).
          { induction l as [|c l IH]; intros Hl; [done|]. rewrite bind_cons, IH by (intros; apply Hl; by right). rewrite decide_False; [done|].
            apply (to_grid_none conv _ _ _ _ _ (proj1 HC) Hg E). apply Hl. left. }
          apply HB. intros [c d] Hc. apply ListGridProps.elem_of_coords in Hc. destruct Hg as (_&_&?&?). cbn [fst snd]. split; lia.
      + intros x y _. cbn beta. destruct (decide _) as [|]; [done|]. clear. induction ins as [|i l IH]; [done|]. by rewrite bind_cons, IH.
    - intros x y HA. cbn beta. rewrite bind_at by apply ListGridProps.NoDup_coords. cbn [fst snd]. rewrite decide_True; [done|]. apply ListGridProps.elem_of_coords. destruct HA. lia.
  Qed.
End MergeGrids.
(** In frames that are turned around the vertical axis only, the merge of one grid into another gives every patch its height in the other frame. *)
Theorem C88_height {P} (i : input (P:=P)) xy h : Access.upright (i_tf i) -> (this (vz (place i xy h)) == h + (0 + this (vz (place i xy 0))))%Q.
Proof.
  intros HU. unfold place, centre. destruct (Access.upright_local (i_tf i) (Q2Qc (from_grid (i_geo i) (Z.of_nat xy.1) (Z.of_nat xy.2)).1) (Q2Qc (from_grid (i_geo i) (Z.of_nat xy.1) (Z.of_nat xy.2)).2) (Q2Qc h) 0 HU) as (_&_&->).
  destruct (Access.upright_local (i_tf i) (Q2Qc (from_grid (i_geo i) (Z.of_nat xy.1) (Z.of_nat xy.2)).1) (Q2Qc (from_grid (i_geo i) (Z.of_nat xy.1) (Z.of_nat xy.2)).2) (Q2Qc 0) 0 HU) as (_&_&->).
  rewrite !Cloud.this_add. cbn [this Q2Qc]. rewrite !Qred_correct. ring.
Qed.
(** In tilted frames it does not. *)
Theorem C88_tilted_refuted : exists (i : input (P:=Q)) xy h, adet (i_tf i) = 1%Qc /\ ~ (this (vz (place i xy h)) == h + (0 + this (vz (place i xy 0))))%Q.
Proof.
  exists (Input demo_geo (fun _ _ => []) (Aff 1 0 0 0 (Q2Qc (3 # 5)) (Q2Qc (-4 # 5)) 0 (Q2Qc (4 # 5)) (Q2Qc (3 # 5)) 0 0 0)), (0%nat, 0%nat), 1%Q.
  split; [apply Qc_is_canon; vm_compute; reflexivity|]. vm_compute. discriminate.
Qed.
(** In reverse mode the heights are right for frames at the same height. *)
Theorem C88_reverse_height g (tf : aff) x y m : Access.upright tf -> t3 tf = 0%Qc ->
  (this (vz (aapp tf (centre g x y (m + this (vz (aapp tf (centre g x y 0))))))) == m)%Q.
Proof.
  intros HU H3. unfold centre. set (cx := Q2Qc (from_grid g (Z.of_nat x) (Z.of_nat y)).1). set (cy := Q2Qc (from_grid g (Z.of_nat x) (Z.of_nat y)).2).
  destruct (Access.upright_local tf cx cy (Q2Qc 0) 0 HU) as (_&_&->). destruct (Access.upright_local tf cx cy (Q2Qc (m + this (Q2Qc 0 + t3 tf)%Qc)) 0 HU) as (_&_&->).
  rewrite H3, !Cloud.this_add. cbn [this Q2Qc]. rewrite !Qred_correct, Cloud.this_add. cbn [this Q2Qc]. rewrite !Qred_correct. unfold inject_Z. ring.
Qed.
(** If the frames are at different heights, the patches are moved to the wrong side: the height in the output should be that which the transform to the input
    maps to the mean. *)
Theorem C88_reverse_refuted : exists g tf x y m, Access.upright tf /\ ~ (this (vz (aapp tf (centre g x y (m + this (vz (aapp tf (centre g x y 0))))))) == m)%Q.
Proof. exists demo_geo, demo_lift, 0%nat, 0%nat, 1%Q. split; [done|]. vm_compute. discriminate. Qed.
Definition demo_cells (x y : nat) : list Q := if decide (x = 1%nat /\ y = 0%nat) then [3; 7]%Q else if decide (x = 0%nat /\ y = 0%nat) then [1]%Q else [].
Definition demo_input : input := Input demo_geo demo_cells (Aff 1 0 0 0 1 0 0 0 1 (Q2Qc (-1)) 0 (Q2Qc 2)).
Example C88_nonvacuous : (forall xy p, xy ∈ i_coords demo_input -> p ∈ i_cell demo_input xy.1 xy.2 -> close_to demo_geo (place demo_input xy p)) /\ Access.upright (i_tf demo_input) /\
  match merge_forward demo_merge demo_conv id (fun z _ => z) demo_geo [demo_input; demo_input] (insert_head 0 0 6%Q (new_mls 2 3)) with Ok s => m_cell s 0%nat 0%nat = [9; 21 # 4]%Q | _ => False end /\
  match merge_grid demo_merge demo_conv id (fun z _ => z) demo_geo id 1%Q demo_input (new_mls 2 3) with Ok s => m_cell s 0%nat 0%nat = [10; 6]%Q | _ => False end /\
  match merge_reverse demo_merge demo_conv id (fun z _ => z) demo_geo [demo_input] (new_mls 2 3) with Ok s => m_cell s 1%nat 0%nat = [3]%Q /\ m_cell s 0%nat 0%nat = [] | _ => False end.
Proof.
  split.
  { intros [x y] p Hxy _. apply ListGridProps.elem_of_coords in Hxy. cbn [demo_input i_geo demo_geo g_nx g_ny] in Hxy. change (Z.to_nat 2) with 2%nat in Hxy. change (Z.to_nat 3) with 3%nat in Hxy.
    destruct Hxy as [Hx Hy]. destruct x as [|[|]]; [| |lia]; destruct y as [|[|[|]]]; try lia; vm_compute; repeat split; congruence. }
  split; [done|]. split; [|split]; vm_compute; repeat split.
Qed.

(** ** C89: filling a surface grid from an elevation grid *)
(** the corner of a cell in which its points have the smallest coordinates *)
Definition corner_of (g : geo) (x y : Z) : vec := Vec (Q2Qc (g_sx g * inject_Z x + g_ox g)) (Q2Qc (g_sy g * inject_Z y + g_oy g)) 0.
Definition over (g : geo) (c : Z * Z) (v : vec) : Prop := in_cell g c.1 c.2 (this (vx v)) (this (vy v)).
Global Instance over_dec g c v : Decision (over g c v).
Proof. unfold over. apply _. Defined.
Lemma NoDup_pairs {A B} (l : list A) (k : list B) : NoDup l -> NoDup k -> NoDup (b ← k; a ← l; [(a, b)]).
Proof.
  intros Hl. induction 1 as [|b k Hb Hk IH]; [constructor|]. rewrite bind_cons. apply NoDup_app. split; [|split; [|done]].
  - clear -Hl. induction Hl as [|a l Ha Hl IH]; [constructor|]. rewrite bind_cons. cbn [app]. constructor; [|done].
    intros (a' & H & Hin)%elem_of_list_bind. apply elem_of_list_singleton in H. injection H as <-. done.
  - intros [x y] (a1 & H1 & _)%elem_of_list_bind (b2 & (a2 & H2 & _)%elem_of_list_bind & Hb2)%elem_of_list_bind.
    apply elem_of_list_singleton in H1, H2. injection H1 as -> ->. injection H2 as _ <-. done.
Qed.
Lemma NoDup_rows w h : NoDup (rows w h).
Proof. unfold rows. apply NoDup_pairs; apply NoDup_seqZ. Qed.
(** Every cell gets the value of the cell of the elevation grid that contains its corner, transformed by [T]. *)
Theorem C89_values {P D} (merge : P -> P -> bool * P * P) conv g gg (data : Z * Z -> D) flat T : conv_wraps conv -> Access.usable gg ->
  (forall c, c ∈ rows (g_nx g) (g_ny g) -> close_to gg (aapp T (corner_of g c.1 c.2))) ->
  puts merge g (float_to_mls merge conv g gg data flat T)
    (fun x y => (fun c => flat (data c)) <$> filter (fun c => over gg c (aapp T (corner_of g (Z.of_nat x) (Z.of_nat y)))) (rows (g_nx gg) (g_ny gg))).
Proof.
  intros HC (Hg & HX & HY) HN. unfold float_to_mls. eapply puts_ext.
  - apply puts_iter with (h := fun c x y => if decide ((Z.of_nat x, Z.of_nat y) = c) then (fun c => flat (data c)) <$> filter (fun c' => over gg c' (aapp T (corner_of g c.1 c.2))) (rows (g_nx gg) (g_ny gg)) else []).
    intros [a b] Hc. cbn [fst snd]. cbn zeta. pose proof (HN _ Hc) as Hnear. cbn [fst snd] in Hnear. apply elem_of_rows in Hc as [Ha Hb]. fold (corner_of g a b).
    set (v := aapp T (corner_of g a b)) in *. clearbody v. destruct (to_grid conv gg _ _) as [[[[m n] xm] ym]|] eqn:E.
    + destruct (to_grid_cell conv _ _ _ _ _ _ _ HC Hg HX HY Hnear E) as [[Hm Hn] HI]. eapply puts_ext; [apply puts_cell; by split|]. intros x y _. cbn beta.
      destruct (decide ((Z.of_nat x, Z.of_nat y) = (a, b))) as [[= <- <-]|Hne].
      * rewrite decide_True by done. rewrite <-bind_if. transitivity (c ← rows (g_nx gg) (g_ny gg); if decide ((m, n) = c) then [flat (data c)] else []).
        -- rewrite bind_at by apply NoDup_rows. rewrite decide_True; [done|]. by apply elem_of_rows.
        -- apply list_bind_ext; [|done]. intros [c d]. unfold over. cbn [fst snd]. destruct (decide ((m, n) = (c, d))) as [[= <- <-]|Hne]; [by rewrite decide_True|].
           rewrite decide_False; [done|]. intros HI'. apply Hne. destruct (in_cell_fun _ _ _ _ _ _ _ Hg HI' HI) as [-> ->]. done.
      * rewrite decide_False; [done|]. intros [E1 E2]. apply Hne. by rewrite E1, E2.
    + eapply puts_ext; [apply puts_none|]. intros x y _. cbn beta. destruct (decide _); [|done]. rewrite <-bind_if. symmetry.
      assert (HB : forall l, (forall c, c ∈ l -> a_cell gg c.1 c.2) -> (c ← l; if decide (over gg c v) then [flat (data c)] else []) = []).
      { induction l as [|c l IH]; intros Hl; [done|]. rewrite bind_cons, IH by (intros; apply Hl; by right). rewrite decide_False; [done|].
        apply (to_grid_none conv _ _ _ _ _ (proj1 HC) Hg E). apply Hl. left. }
      apply HB. intros [c d] Hc%elem_of_rows. exact Hc.
  - intros x y [Hx Hy]. cbn beta. rewrite bind_at by apply NoDup_rows. cbn [fst snd]. rewrite decide_True; [done|]. by apply elem_of_rows.
Qed.
(** In particular, from a grid of the same shape in the same frame every cell gets the value of the cell at the same place. *)
Theorem C89_same {P D} (merge : P -> P -> bool * P * P) conv g (data : Z * Z -> D) flat : conv_wraps conv -> Access.usable g ->
  puts merge g (float_to_mls merge conv g g data flat aone) (fun x y => [flat (data (Z.of_nat x, Z.of_nat y))]).
Proof.
  intros HC HU. assert (HI : forall a b, a_cell g a b -> over g (a, b) (aapp aone (corner_of g a b))).
  { intros a b _. rewrite aapp_1. unfold over, in_cell, corner_of. cbn [vx vy fst snd]. rewrite !Access.this_q2qc. destruct HU as ((Hx & Hy & _) & _). repeat split; nra. }
  eapply puts_ext; [apply C89_values; [done|done|]|].
  - intros [a b] [Ha Hb]%elem_of_rows. assert (HA : a_cell g a b) by (by split). specialize (HI a b HA). unfold over in HI. cbn [fst snd] in HI. cbn [fst snd]. unfold close_to, near.
    destruct HU as ((Hx & Hy & _) & HX & HY). destruct HI as (H1 & H2 & H3 & H4). cbn [fst snd] in *.
    assert (0 <= inject_Z a)%Q by (change 0%Q with (inject_Z 0); rewrite <-Zle_Qle; lia). assert (0 <= inject_Z b)%Q by (change 0%Q with (inject_Z 0); rewrite <-Zle_Qle; lia).
    assert (inject_Z a + 1 <= inject_Z half)%Q by (change 1%Q with (inject_Z 1); rewrite <-inject_Z_plus, <-Zle_Qle; lia).
    assert (inject_Z b + 1 <= inject_Z half)%Q by (change 1%Q with (inject_Z 1); rewrite <-inject_Z_plus, <-Zle_Qle; lia).
    assert (0 <= inject_Z half)%Q by (by vm_compute). set (X := this (vx _)) in *. set (Y := this (vy _)) in *. clearbody X Y. generalize dependent (inject_Z half). intros hf. intros. repeat split; nra.
  - intros x y HA. cbn beta. rewrite <-bind_if. transitivity (c ← rows (g_nx g) (g_ny g); if decide ((Z.of_nat x, Z.of_nat y) = c) then [flat (data c)] else []).
    + apply list_bind_ext; [|done]. intros [c d]. destruct (decide ((Z.of_nat x, Z.of_nat y) = (c, d))) as [[= <- <-]|Hne]; [by rewrite decide_True by (by apply HI)|].
      rewrite decide_False; [done|]. intros HI'. apply Hne. destruct HU as (Hg & _). destruct (in_cell_fun _ _ _ _ _ _ _ Hg HI' (HI _ _ HA)) as [E1 E2]. cbn in E1, E2. by rewrite E1, E2.
    + rewrite bind_at by apply NoDup_rows. rewrite decide_True; [done|]. by apply elem_of_rows.
Qed.
(** The transform is used in the wrong direction: from a grid that is moved by one cell, a cell gets the value of another place.  [fm] and [fg] are the
    frames of the surface grid and of the elevation grid. *)
Theorem C89_frames_refuted : exists conv g gg (data : Z * Z -> Q) fm fg s m n x y, conv_wraps conv /\ Access.usable g /\ Access.usable gg /\ translation fm /\ translation fg /\
  float_to_mls demo_merge conv g gg data id (amul (ainv fm) fg) (new_mls 3 3) = Ok s /\
  (vx (aapp fm (corner_of g (Z.of_nat x) (Z.of_nat y))) = vx (aapp fg (corner_of gg m n)) /\ vy (aapp fm (corner_of g (Z.of_nat x) (Z.of_nat y))) = vy (aapp fg (corner_of gg m n))) /\
  a_cell gg m n /\ exists v, m_cell s x y = [v] /\ ~ (v == data (m, n))%Q.
Proof.
  exists demo_conv, (Geo 3 3 1 1 0 0), (Geo 3 3 1 1 0 0), (fun c => inject_Z c.1), aone, (Aff 1 0 0 0 1 0 0 0 1 (Q2Qc 1) 0 0).
  destruct (float_to_mls demo_merge demo_conv (Geo 3 3 1 1 0 0) (Geo 3 3 1 1 0 0) (fun c => inject_Z c.1) id (amul (ainv aone) (Aff 1 0 0 0 1 0 0 0 1 (Q2Qc 1) 0 0)) (new_mls 3 3)) as [s| | |] eqn:E.
  2-4: vm_compute in E; discriminate E.
  exists s, 0, 0, 1%nat, 0%nat. split; [apply demo_conv_wraps|]. do 2 (split; [unfold Access.usable, good_geo, size_end, half; cbn; repeat split; lia || lra|]). do 2 (split; [by eexists _, _, _|]). split; [done|].
  split; [split; apply Qc_is_canon; vm_compute; reflexivity|]. split; [split; cbn; lia|].
  exists 2%Q. split; [|vm_compute; discriminate].
  assert (H : match float_to_mls demo_merge demo_conv (Geo 3 3 1 1 0 0) (Geo 3 3 1 1 0 0) (fun c => inject_Z c.1) id (amul (ainv aone) (Aff 1 0 0 0 1 0 0 0 1 (Q2Qc 1) 0 0)) (new_mls 3 3) with Ok s => m_cell s 1%nat 0%nat = [2%Q] | _ => False end) by (vm_compute; reflexivity).
  rewrite E in H. exact H.
Qed.
Example C89_nonvacuous : conv_wraps demo_conv /\ Access.usable demo_geo /\ fits demo_geo (new_mls 2 3 : mls Q) /\
  match float_to_mls demo_merge demo_conv demo_geo demo_geo (fun c => inject_Z (c.1 + 10 * c.2)) id aone (new_mls 2 3) with
  | Ok s => m_cell s 1%nat 2%nat = [21]%Q /\ m_cell s 0%nat 1%nat = [10]%Q
  | _ => False
  end.
Proof. split; [apply demo_conv_wraps|]. split; [apply demo_usable|]. split; [done|]. vm_compute. done. Qed.

(** ** C90: reading a surface grid as a point cloud *)
Definition span_bottom (p : Access.spatch) : Q := (Access.sp_mean p - match Access.sp_kind p with Access.KHorizontal => 0 | _ => Access.sp_height p end)%Q.
Definition span_top (p : Access.spatch) : Q := Access.sp_mean p.
Lemma heights_ok step max : (0 < step)%Q -> forall n z, (max - z < inject_Z (Z.of_nat n) * step)%Q -> forall fuel, (n < fuel)%nat -> exists hs, heights fuel step z max = Ok hs /\
  (forall h, h ∈ hs -> (z <= h <= max)%Q) /\ forall t, (z <= t <= max)%Q -> exists h, h ∈ hs /\ (h <= t < h + step)%Q.
Proof.
  intros Hs. induction n as [|n IH]; intros z Hz fuel Hf; (destruct fuel as [|fuel]; [lia|]); cbn [heights].
  - change (inject_Z (Z.of_nat 0)) with 0%Q in Hz. destruct (Qlt_le_dec max z) as [H|H]; [|exfalso; lra]. exists []. split; [done|]. split; [intros h Hh; by apply elem_of_nil in Hh|]. intros t Ht. exfalso. lra.
  - destruct (Qlt_le_dec max z) as [H|H]; [exists []; split; [done|]; split; [intros h Hh; by apply elem_of_nil in Hh|]; intros t Ht; exfalso; lra|].
    destruct (IH (z + step)%Q) with (fuel := fuel) as (hs & Hh & Hr & Hc); [|lia|].
    { rewrite Nat2Z.inj_succ in Hz. unfold Z.succ in Hz. rewrite inject_Z_plus in Hz. change (inject_Z 1) with 1%Q in Hz. lra. }
    exists (z :: hs). rewrite Hh. cbn [obind]. split; [done|]. split.
    + intros h [->|Hin]%elem_of_cons; [lra|]. specialize (Hr h Hin). lra.
    + intros t Ht. destruct (Qlt_le_dec t (z + step)) as [Hlt|Hge]; [exists z; split; [left|lra]|]. destruct (Hc t ltac:(lra)) as (h & Hin & Hh2). exists h. split; [by right|done].
Qed.
Lemma collect_ok {A B} (f : A -> out unit (list B)) l : (forall a, a ∈ l -> exists r, f a = Ok r) -> exists r, collect f l = Ok r /\
  forall b, b ∈ r <-> exists a s, a ∈ l /\ f a = Ok s /\ b ∈ s.
Proof.
  induction l as [|a l IH]; intros Hl; [exists []; split; [done|]; intros b; split; [by intros ?%elem_of_nil|intros (? & ? & ?%elem_of_nil & _); done]|].
  destruct (Hl a ltac:(left)) as [r Hr]. destruct IH as (r' & Hr' & Hin); [intros; apply Hl; by right|]. exists (r ++ r'). cbn [collect]. rewrite Hr. cbn [obind]. rewrite Hr'. cbn [obind]. split; [done|].
  intros b. rewrite elem_of_app, Hin. split.
  - intros [Hb|(a' & s & Ha & Hs & Hb)]; [exists a, r; split; [left|done]|exists a', s; split; [by right|done]].
  - intros (a' & s & [->|Ha]%elem_of_cons & Hs & Hb); [left; by assert (s = r) as <- by congruence|right; eauto].
Qed.
Lemma enough_fuel step (ps : list Access.spatch) : (0 < step)%Q -> exists n, forall p, p ∈ ps -> (Access.sp_height p < inject_Z (Z.of_nat n) * step)%Q.
Proof.
  intros Hs. induction ps as [|p ps [n Hn]]; [exists O; intros p Hp; by apply elem_of_nil in Hp|].
  set (k := Z.to_nat (Qfloor (Access.sp_height p / step) + 1)). exists (Nat.max k n). intros q Hq.
  assert (HM : forall a b : nat, (a <= b)%nat -> (inject_Z (Z.of_nat a) * step <= inject_Z (Z.of_nat b) * step)%Q).
  { intros a b Hab. apply Qmult_le_compat_r; [|lra]. rewrite <-Zle_Qle. lia. }
  apply elem_of_cons in Hq as [->|Hq]; [|eapply Qlt_le_trans; [by apply Hn|apply HM; lia]].
  eapply Qlt_le_trans; [|apply (HM k); lia]. assert (E : (Access.sp_height p == Access.sp_height p / step * step)%Q) by (field; lra). rewrite E at 1.
  apply Qmult_lt_r; [done|]. eapply Qlt_le_trans; [apply Qlt_floor|]. rewrite <-Zle_Qle. unfold k. lia.
Qed.
Lemma lift_point T g x y h : Access.upright T -> let c := aapp T (centre g x y 0) in Vec (vx c) (vy c) (vz c + Q2Qc h)%Qc = aapp T (centre g x y h).
Proof.
  intros (H1&H2&H3&H4&H5). cbn zeta. unfold centre, aapp. cbn [vx vy vz]. rewrite H1, H2, H3, H4, H5. change (Q2Qc 0) with 0%Qc. f_equal; ring.
Qed.
(** For a frame that is not tilted, every vertex is at the centre of a cell, at a height that a patch of the cell covers; every horizontal patch has a vertex,
    vertical patches have vertices of a distance of at most the mean cell size, and patches that stand for free space have none. *)
Theorem C90_cloud g T cells : good_geo g -> Access.upright T -> exists fuel vs, to_cloud fuel g T cells = Ok vs /\
  (forall v, v ∈ vs -> exists x y p h, a_cell g (Z.of_nat x) (Z.of_nat y) /\ p ∈ cells x y /\ Access.sp_kind p <> Access.KNegative /\ (span_bottom p <= h <= span_top p)%Q /\ v = aapp T (centre g x y h)) /\
  (forall x y p, a_cell g (Z.of_nat x) (Z.of_nat y) -> p ∈ cells x y -> Access.sp_kind p = Access.KHorizontal -> aapp T (centre g x y (Access.sp_mean p)) ∈ vs) /\
  (forall x y p t, a_cell g (Z.of_nat x) (Z.of_nat y) -> p ∈ cells x y -> Access.sp_kind p = Access.KVertical -> (span_bottom p <= t <= span_top p)%Q ->
     exists h, aapp T (centre g x y h) ∈ vs /\ (h <= t < h + (g_sx g + g_sy g) * (1 # 2))%Q).
Proof.
  intros (Hx & Hy & Hnx & Hny) HU. set (cs := ListGrid.coords (Z.to_nat (g_nx g)) (Z.to_nat (g_ny g))).
  assert (Hcs : forall x y, (x, y) ∈ cs <-> a_cell g (Z.of_nat x) (Z.of_nat y)).
  { intros x y. unfold cs. rewrite ListGridProps.elem_of_coords. unfold a_cell. lia. }
  assert (Hd : vertical_distance g = ((g_sx g + g_sy g) * (1 # 2))%Q /\ (0 < vertical_distance g)%Q).
  { unfold vertical_distance. cbn zeta. destruct (Qlt_le_dec 0 _) as [|H]; [done|]. exfalso. lra. }
  destruct Hd as [Hd Hd0]. destruct (enough_fuel (vertical_distance g) (xy ← cs; cells xy.1 xy.2) Hd0) as [n Hn]. exists (S n).
  assert (HP : forall x y p, (x, y) ∈ cs -> p ∈ cells x y -> exists hs, patch_heights (S n) (vertical_distance g) p = Ok hs /\
    (forall h, h ∈ hs -> Access.sp_kind p <> Access.KNegative /\ (span_bottom p <= h <= span_top p)%Q) /\ (Access.sp_kind p = Access.KHorizontal -> Access.sp_mean p ∈ hs) /\
    (Access.sp_kind p = Access.KVertical -> forall t, (span_bottom p <= t <= span_top p)%Q -> exists h, h ∈ hs /\ (h <= t < h + vertical_distance g)%Q)).
  { intros x y p Hxy Hp. unfold patch_heights, span_bottom, span_top. destruct (Access.sp_kind p) eqn:Ek.
    - exists [Access.sp_mean p]. split; [done|]. split; [intros h ->%elem_of_list_singleton; split; [done|lra]|]. split; [intros _; left|done].
    - destruct (heights_ok (vertical_distance g) (Access.sp_mean p) Hd0 n (Access.sp_mean p - Access.sp_height p)) with (fuel := S n) as (hs & Hh & Hr & Hc); [|lia|].
      { assert (H := Hn p). apply Qle_lt_trans with (Access.sp_height p); [lra|]. apply H. apply elem_of_list_bind. exists (x, y). done. }
      exists hs. split; [done|]. split; [intros h Hin; split; [done|by apply Hr]|]. split; [done|]. intros _. exact Hc.
    - exists []. split; [done|]. split; [intros h Hin; by apply elem_of_nil in Hin|done]. }
  set (f := fun (xy : nat * nat) p => let c := aapp T (centre g xy.1 xy.2 0) in hs <~ patch_heights (S n) (vertical_distance g) p ;; Ok ((fun h => Vec (vx c) (vy c) (vz c + Q2Qc h)%Qc) <$> hs)).
  assert (HF : forall x y p, (x, y) ∈ cs -> p ∈ cells x y -> exists hs, patch_heights (S n) (vertical_distance g) p = Ok hs /\ f (x, y) p = Ok ((fun h => aapp T (centre g x y h)) <$> hs)).
  { intros x y p Hxy Hp. destruct (HP x y p Hxy Hp) as (hs & Hh & _). exists hs. split; [done|]. unfold f. cbn zeta. rewrite Hh. cbn [obind fst snd]. f_equal. apply list_fmap_ext. intros _ h _. by apply lift_point. }
  assert (HC : forall xy, xy ∈ cs -> exists r, collect (f xy) (cells xy.1 xy.2) = Ok r /\ forall v, v ∈ r <-> exists p s, p ∈ cells xy.1 xy.2 /\ f xy p = Ok s /\ v ∈ s).
  { intros [x y] Hxy. apply collect_ok. intros p Hp. destruct (HF x y p Hxy Hp) as (hs & _ & ->). by eexists. }
  destruct (collect_ok (fun xy => collect (f xy) (cells xy.1 xy.2)) cs) as (vs & Hvs & Hin); [intros xy Hxy; destruct (HC xy Hxy) as (r & -> & _); by eexists|].
  exists vs. split; [exact Hvs|].
  assert (HV : forall v, v ∈ vs <-> exists x y p hs h, (x, y) ∈ cs /\ p ∈ cells x y /\ patch_heights (S n) (vertical_distance g) p = Ok hs /\ h ∈ hs /\ v = aapp T (centre g x y h)).
  { intros v. rewrite Hin. split.
    - intros ([x y] & s & Hxy & Hs & Hv). destruct (HC _ Hxy) as (r & Hr & Hrv). cbn [fst snd] in *. rewrite Hr in Hs. injection Hs as <-.
      apply Hrv in Hv as (p & s & Hp & Hs & Hv). destruct (HF x y p Hxy Hp) as (hs & Hh & Hf). rewrite Hf in Hs. injection Hs as <-. apply elem_of_list_fmap in Hv as (h & -> & Hv). by exists x, y, p, hs, h.
    - intros (x & y & p & hs & h & Hxy & Hp & Hh & Hhs & ->). destruct (HC _ Hxy) as (r & Hr & Hrv). cbn [fst snd] in *. exists (x, y), r. split; [done|]. split; [done|]. apply Hrv.
      destruct (HF x y p Hxy Hp) as (hs' & Hh' & Hf). assert (hs' = hs) as -> by congruence. exists p. eexists. split; [done|]. split; [exact Hf|]. apply elem_of_list_fmap. by exists h. }
  split; [|split].
  - intros v (x & y & p & hs & h & Hxy & Hp & Hh & Hhs & ->)%HV. destruct (HP x y p Hxy Hp) as (hs' & Hh' & Hr & _). assert (hs' = hs) as -> by congruence. destruct (Hr h Hhs) as [Hk Hr'].
    exists x, y, p, h. split; [by apply Hcs|]. done.
  - intros x y p Hxy%Hcs Hp Hk. destruct (HP x y p Hxy Hp) as (hs & Hh & _ & Hm & _). apply HV. exists x, y, p, hs, (Access.sp_mean p). repeat (split; [done|]). split; [by apply Hm|done].
  - intros x y p t Hxy%Hcs Hp Hk Ht. destruct (HP x y p Hxy Hp) as (hs & Hh & _ & _ & Hc). destruct (Hc Hk t Ht) as (h & Hhs & Hb). exists h. split; [|by rewrite Hd in Hb].
    apply HV. by exists x, y, p, hs, h.
Qed.
(** In a tilted frame the vertices are not where the patches are. *)
Theorem C90_tilted_refuted : exists g T cells vs, good_geo g /\ adet T = 1%Qc /\ (forall x y p, p ∈ cells x y -> Access.sp_kind p = Access.KHorizontal) /\ to_cloud 1 g T cells = Ok vs /\
  exists v, v ∈ vs /\ forall x y p, p ∈ cells x y -> v <> aapp T (centre g x y (Access.sp_mean p)).
Proof.
  exists (Geo 1 1 1 1 0 0), (Aff 1 0 0 0 (Q2Qc (3 # 5)) (Q2Qc (-4 # 5)) 0 (Q2Qc (4 # 5)) (Q2Qc (3 # 5)) 0 0 0), (fun x y => if decide (x = O /\ y = O) then [Access.SPatch 1 1 0 Access.KHorizontal] else []).
  eexists. split; [unfold good_geo, size_end; cbn; repeat split; lia || lra|]. split; [apply Qc_is_canon; vm_compute; reflexivity|].
  split; [intros x y p; destruct (decide _); [intros ->%elem_of_list_singleton; done|by intros ?%elem_of_nil]|]. split; [cbn; reflexivity|].
  eexists. split; [left|]. intros x y p. destruct (decide _) as [[-> ->]|]; [|by intros ?%elem_of_nil]. intros ->%elem_of_list_singleton H.
  apply (f_equal (fun v => this (vz v))) in H. vm_compute in H. discriminate H.
Qed.
Example C90_nonvacuous : good_geo demo_geo /\ Access.upright demo_lift /\
  match to_cloud 5 demo_geo demo_lift (fun x y => if decide (x = 1%nat /\ y = 0%nat) then [Access.SPatch 3 1 (5 # 2) Access.KVertical; Access.SPatch 7 1 0 Access.KHorizontal; Access.SPatch 7 1 1 Access.KNegative] else []) with
  | Ok vs => (fun v => (this (vx v), this (vy v), this (vz v))) <$> vs = [(3#2, 1#2, 21#2); (3#2, 1#2, 23#2); (3#2, 1#2, 25#2); (3#2, 1#2, 17)]%Q
  | _ => False
  end.
Proof. split; [apply demo_usable|]. split; [done|]. vm_compute. reflexivity. Qed.
