(** The arrays of traversability grids and the pointers to them (C139): src/maps/TraversabilityGrid.hpp:131-157, TraversabilityGrid.cpp:161-171, 201-231, 232-246 and 272-286, with
    Layer::getData, removeData and the copies of layers (Layer.hpp:139-161, Layer.cpp:21-43, 152-167) and Grid::getGridData (Grid.hpp:195-213).

    Simplifications: the bytes are integers, the other metadata of the layer and the classes are left out (C35, C37); the conversion of probabilities is that of C37. *)
From stdpp Require Import prelude gmap.
From Verif Require Import Base.

(** TraversabilityGrid.cpp:11-12: the names of the bands *)
Inductive band := BTrav | BProb.
#[global] Instance band_eq : EqDecision band.
Proof. solve_decision. Defined.
(** boost::multi_array with two dimensions; [a_cell y x] *)
Record arr := Arr { a_h : nat; a_w : nat; a_cell : nat -> nat -> Z }.
(** [t_data]: the addresses of the arrays in the map of the layer; [t_cache]: traversabilityArray and probabilityArray, [None] for NULL (TraversabilityGrid.hpp:132-133) *)
Record tgrid := TGrid { t_w : nat; t_h : nat; t_data : band -> option positive; t_cache : band -> option positive }.
Definition set_band {A} (b : band) (v : A) (f : band -> A) (b' : band) : A := if decide (b' = b) then v else f b'.
Definition both_bands : list band := [BTrav; BProb].
Record mem := Mem { m_arrays : gmap positive arr; m_grids : gmap positive tgrid }.

Inductive top :=
| TNew (g : positive) (w h : nat)                        (* TraversabilityGrid g( w, h, … ) *)
| TDel (g : positive)                                    (* ~TraversabilityGrid *)
| TCopy (g g' : positive)                                (* TraversabilityGrid g( g' ), and g'.clone() *)
| TAssign (g g' : positive)                              (* g = g', and g.set( g' ) *)
| TSet (g : positive) (b : band) (x y : nat) (v : Z)     (* setTraversability, setProbability *)
| TGet (g : positive) (b : band) (x y : nat)             (* getTraversability, getProbability *)
| TPut (g : positive) (b : band) (x y : nat) (v : Z)     (* g.getGridData( b )[y][x] = v *)
| TRead (g : positive) (b : band) (x y : nat)            (* g.getGridData( b )[y][x] *)
| TConst (g : positive) (b : band) (x y : nat)           (* the same for a constant grid *)
| TRemove (g : positive) (b : band).                     (* g.removeData( b ) *)
(** what a call returns; [Thrown]: an exception *)
Inductive tres := Done | Byte (v : Z) | Thrown.

Section model.
  (** the memory allocator *)
  Context (alloc : gmap positive arr -> positive).
  Notation R := (out mem (mem * tres)).

  (** multi_array::resize keeps the cells that exist in both; new ones are 0 *)
  Definition resize (h w : nat) (a : arr) : arr := Arr h w (fun y x => if decide (y < a_h a /\ x < a_w a) then a_cell a y x else 0%Z).
  (** Layer::getData, Layer.hpp:139-161: a new empty array if there is none *)
  Definition get_data (b : band) (t : tgrid) (hp : gmap positive arr) : tgrid * gmap positive arr * positive :=
    match t_data t b with
    | Some a => (t, hp, a)
    | None => let a := alloc hp in (TGrid (t_w t) (t_h t) (set_band b (Some a) (t_data t)) (t_cache t), <[a := Arr 0 0 (fun _ _ => 0%Z)]> hp, a)
    end.
  (** Grid::getGridData, Grid.hpp:197-202 *)
  Definition grid_data (b : band) (t : tgrid) (hp : gmap positive arr) : tgrid * gmap positive arr * positive :=
    match get_data b t hp with (t', hp', a) => (t', alter (resize (t_h t) (t_w t)) a hp', a) end.
  (** setTraversabilityArray and setProbabilityArray, TraversabilityGrid.cpp:201-231 *)
  Definition cached (b : band) (t : tgrid) (hp : gmap positive arr) : tgrid * gmap positive arr * positive :=
    match t_cache t b with
    | Some a => (t, hp, a)
    | None => match grid_data b t hp with (t', hp', a) => (TGrid (t_w t') (t_h t') (t_data t') (set_band b (Some a) (t_cache t')), hp', a) end
    end.
  (** the access to a cell; the array may be gone *)
  Definition read_cell (a : positive) (x y : nat) (hp : gmap positive arr) (k : Z -> R) : R :=
    match hp !! a with Some r => if decide (y < a_h r /\ x < a_w r) then k (a_cell r y x) else Bad UB | None => Bad UB end.
  Definition write_cell (a : positive) (x y : nat) (v : Z) (hp : gmap positive arr) (k : gmap positive arr -> R) : R :=
    match hp !! a with
    | Some r => if decide (y < a_h r /\ x < a_w r) then k (<[a := Arr (a_h r) (a_w r) (fun y' x' => if decide (y' = y /\ x' = x) then v else a_cell r y' x')]> hp) else Bad UB
    | None => Bad UB
    end.
  (** Layer.cpp:161-167 *)
  Definition remove_data (t : tgrid) (hp : gmap positive arr) : gmap positive arr :=
    foldr (fun b hp => match t_data t b with Some a => delete a hp | None => hp end) hp both_bands.
  (** Layer.cpp:26-28 and 39-40: the arrays are copied *)
  Definition clone_data (d : band -> option positive) (hp : gmap positive arr) : option ((band -> option positive) * gmap positive arr) :=
    foldr (fun b r => r ≫= fun '(d', hp') => match d b with
                                            | None => Some (d', hp')
                                            | Some a => c ← hp' !! a; let a' := alloc hp' in Some (set_band b (Some a') d', <[a' := c]> hp')
                                            end) (Some (fun _ => None, hp)) both_bands.

  Definition with_grid (g : positive) (m : mem) (k : tgrid -> R) : R := match m_grids m !! g with Some t => k t | None => Bad IllTyped end.
  Definition tstep (o : top) (m : mem) : R :=
    match o with
    | TNew g w h => (* TraversabilityGrid.hpp:146-153 *)
      match m_grids m !! g with
      | Some _ => Bad IllTyped
      | None => Ok (Mem (m_arrays m) (<[g := TGrid w h (fun _ => None) (fun _ => None)]> (m_grids m)), Done)
      end
    | TDel g => (* Layer.cpp:59-62 *)
      with_grid g m (fun t => Ok (Mem (remove_data t (m_arrays m)) (delete g (m_grids m)), Done))
    | TCopy g g' => (* the implicit copy constructor: Layer.cpp:21-29 and all members *)
      match m_grids m !! g with
      | Some _ => Bad IllTyped
      | None => with_grid g' m (fun t => match clone_data (t_data t) (m_arrays m) with
                                         | Some (d, hp) => Ok (Mem hp (<[g := TGrid (t_w t) (t_h t) d (t_cache t)]> (m_grids m)), Done)
                                         | None => Bad UB end)
      end
    | TAssign g g' => (* TraversabilityGrid.cpp:272-286 with Layer.cpp:31-43 *)
      with_grid g m (fun t => with_grid g' m (fun t' =>
        if decide (g = g') then Ok (Mem (m_arrays m) (<[g := TGrid (t_w t) (t_h t) (t_data t) (fun _ => None)]> (m_grids m)), Done)
        else match clone_data (t_data t') (remove_data t (m_arrays m)) with
             | Some (d, hp) => Ok (Mem hp (<[g := TGrid (t_w t') (t_h t') d (fun _ => None)]> (m_grids m)), Done)
             | None => Bad UB end))
    | TSet g b x y v => (* TraversabilityGrid.cpp:161-165 and 233-240 *)
      with_grid g m (fun t => match cached b t (m_arrays m) with
                              | (t', hp, a) => write_cell a x y v hp (fun hp' => Ok (Mem hp' (<[g := t']> (m_grids m)), Done)) end)
    | TGet g b x y => (* TraversabilityGrid.cpp:167-171 and 242-247 *)
      with_grid g m (fun t => match cached b t (m_arrays m) with
                              | (t', hp, a) => read_cell a x y hp (fun v => Ok (Mem hp (<[g := t']> (m_grids m)), Byte v)) end)
    | TPut g b x y v =>
      with_grid g m (fun t => match grid_data b t (m_arrays m) with
                              | (t', hp, a) => write_cell a x y v hp (fun hp' => Ok (Mem hp' (<[g := t']> (m_grids m)), Done)) end)
    | TRead g b x y =>
      with_grid g m (fun t => match grid_data b t (m_arrays m) with
                              | (t', hp, a) => read_cell a x y hp (fun v => Ok (Mem hp (<[g := t']> (m_grids m)), Byte v)) end)
    | TConst g b x y => (* Grid.hpp:205-208, Layer.hpp:167-175 *)
      with_grid g m (fun t => match t_data t b with
                              | None => Ok (m, Thrown)
                              | Some a => read_cell a x y (m_arrays m) (fun v => Ok (m, Byte v)) end)
    | TRemove g b => (* Layer.cpp:152-159 *)
      with_grid g m (fun t => match t_data t b with
                              | None => Ok (m, Done)
                              | Some a => Ok (Mem (delete a (m_arrays m)) (<[g := TGrid (t_w t) (t_h t) (set_band b None (t_data t)) (t_cache t)]> (m_grids m)), Done) end)
    end.
  Fixpoint trun (ops : list top) (m : mem) : out mem (mem * list tres) :=
    match ops with
    | [] => Ok (m, [])
    | o :: r => match tstep o m with
                | Ok (m', x) => match trun r m' with Ok (m2, l) => Ok (m2, x :: l) | Throw s => Throw s | Bad e => Bad e | NoFuel => NoFuel end
                | Throw s => Throw s | Bad e => Bad e | NoFuel => NoFuel
                end
    end.
End model.

(** ** Specification *)
(** A grid is its size and, per band, the value of each cell, [None] as long as there is none. [s_used]: a cell was read or written with setTraversability, getTraversability,
    setProbability or getProbability since the grid was made or assigned to. *)
Record sgrid := SGrid { s_w : nat; s_h : nat; s_band : band -> option (nat -> nat -> Z); s_used : bool }.
Definition blank (_ _ : nat) : Z := 0.
Definition value (s : sgrid) (b : band) : nat -> nat -> Z := default blank (s_band s b).
Definition put (y x : nat) (v : Z) (f : nat -> nat -> Z) (y' x' : nat) : Z := if decide (y' = y /\ x' = x) then v else f y' x'.
(** the effect of a call, [None] if the call is not allowed: the cell is outside, there is no such grid or there is one already; a used grid is copied by the copy constructor; a band of a used grid is removed *)
Definition sstep (o : top) (m : gmap positive sgrid) : option (gmap positive sgrid * tres) :=
  match o with
  | TNew g w h => match m !! g with Some _ => None | None => Some (<[g := SGrid w h (fun _ => None) false]> m, Done) end
  | TDel g => s ← m !! g; Some (delete g m, Done)
  | TCopy g g' => match m !! g with Some _ => None | None => s ← m !! g'; if s_used s then None else Some (<[g := s]> m, Done) end
  | TAssign g g' => _ ← m !! g; s ← m !! g'; Some (<[g := SGrid (s_w s) (s_h s) (s_band s) false]> m, Done)
  | TSet g b x y v => s ← m !! g; if decide (y < s_h s /\ x < s_w s) then Some (<[g := SGrid (s_w s) (s_h s) (set_band b (Some (put y x v (value s b))) (s_band s)) true]> m, Done) else None
  | TGet g b x y => s ← m !! g; if decide (y < s_h s /\ x < s_w s) then Some (<[g := SGrid (s_w s) (s_h s) (set_band b (Some (value s b)) (s_band s)) true]> m, Byte (value s b y x)) else None
  | TPut g b x y v => s ← m !! g; if decide (y < s_h s /\ x < s_w s) then Some (<[g := SGrid (s_w s) (s_h s) (set_band b (Some (put y x v (value s b))) (s_band s)) (s_used s)]> m, Done) else None
  | TRead g b x y => s ← m !! g; if decide (y < s_h s /\ x < s_w s) then Some (<[g := SGrid (s_w s) (s_h s) (set_band b (Some (value s b)) (s_band s)) (s_used s)]> m, Byte (value s b y x)) else None
  | TConst g b x y => s ← m !! g; match s_band s b with None => Some (m, Thrown) | Some f => if decide (y < s_h s /\ x < s_w s) then Some (m, Byte (f y x)) else None end
  | TRemove g b => s ← m !! g; if s_used s then None else Some (<[g := SGrid (s_w s) (s_h s) (set_band b None (s_band s)) false]> m, Done)
  end.
Fixpoint srun (ops : list top) (m : gmap positive sgrid) : option (gmap positive sgrid * list tres) :=
  match ops with
  | [] => Some (m, [])
  | o :: r => '(m', x) ← sstep o m; '(m2, l) ← srun r m'; Some (m2, x :: l)
  end.

(** ** Every grid has its own arrays *)
Definition band_ok (hp : gmap positive arr) (h w : nat) (d : option positive) (f : option (nat -> nat -> Z)) : Prop :=
  match d, f with
  | Some a, Some f => exists r, hp !! a = Some r /\ a_h r = h /\ a_w r = w /\ forall y x, y < h -> x < w -> a_cell r y x = f y x
  | None, None => True
  | _, _ => False
  end.
Record gr (hp : gmap positive arr) (t : tgrid) (s : sgrid) : Prop := GR {
  gr_w : t_w t = s_w s; gr_h : t_h t = s_h s;
  gr_band : forall b, band_ok hp (t_h t) (t_w t) (t_data t b) (s_band s b);
  gr_inj : forall b b' a, t_data t b = Some a -> t_data t b' = Some a -> b = b';
  gr_cache : forall b a, t_cache t b = Some a -> t_data t b = Some a /\ s_used s = true }.
Definition owns (t : tgrid) (a : positive) : Prop := exists b, t_data t b = Some a.
Record rel (m : mem) (ss : gmap positive sgrid) : Prop := Rel {
  rel_grid : forall g, match m_grids m !! g, ss !! g with Some t, Some s => gr (m_arrays m) t s | None, None => True | _, _ => False end;
  rel_sep : forall g g' t t' a, m_grids m !! g = Some t -> m_grids m !! g' = Some t' -> owns t a -> owns t' a -> g = g' }.
Lemma rel_some m ss g s : rel m ss -> ss !! g = Some s -> exists t, m_grids m !! g = Some t /\ gr (m_arrays m) t s.
Proof. intros [H _] Hs. specialize (H g). rewrite Hs in H. destruct (m_grids m !! g) as [t|]; [|done]. by exists t. Qed.
Lemma rel_none m ss g : rel m ss -> ss !! g = None -> m_grids m !! g = None.
Proof. intros [H _] Hs. specialize (H g). rewrite Hs in H. by destruct (m_grids m !! g). Qed.
Lemma rel_some' m ss g t : rel m ss -> m_grids m !! g = Some t -> exists s, ss !! g = Some s /\ gr (m_arrays m) t s.
Proof. intros [H _] Hs. specialize (H g). rewrite Hs in H. destruct (ss !! g) as [s|]; [|done]. by exists s. Qed.
Lemma owned_live hp t s a : gr hp t s -> owns t a -> is_Some (hp !! a).
Proof. intros Hg [b Hb]. pose proof (gr_band _ _ _ Hg b) as H. rewrite Hb in H. destruct (s_band s b); [|done]. destruct H as (r&->&_). done. Qed.
Lemma gr_frame hp hp' t s : gr hp t s -> (forall a, owns t a -> hp' !! a = hp !! a) -> gr hp' t s.
Proof.
  intros [H1 H2 H3 H4 H5] H. split; try done. intros b. specialize (H3 b). unfold band_ok in *. destruct (t_data t b) as [a|] eqn:E; [|done]. destruct (s_band s b); [|done]. rewrite H; [done|by exists b].
Qed.
(** the step of one grid: it uses its own arrays and new ones *)
Lemma rel_update m ss g hp t s : rel m ss -> gr hp t s ->
  (forall a, owns t a -> m_arrays m !! a = None \/ exists t0, m_grids m !! g = Some t0 /\ owns t0 a) ->
  (forall a, is_Some (m_arrays m !! a) -> hp !! a = m_arrays m !! a \/ exists t0, m_grids m !! g = Some t0 /\ owns t0 a) ->
  rel (Mem hp (<[g := t]> (m_grids m))) (<[g := s]> ss).
Proof.
  intros HR Hg Ho Hf. split; cbn [m_grids m_arrays].
  - intros g'. destruct (decide (g' = g)) as [->|Hne]; [by rewrite !lookup_insert|]. rewrite !lookup_insert_ne by done. pose proof (rel_grid _ _ HR g') as H. destruct (m_grids m !! g') as [t'|] eqn:Et; [|done]. destruct (ss !! g') as [s'|]; [|done].
    apply (gr_frame _ _ _ _ H). intros a Ha. destruct (Hf a (owned_live _ _ _ _ H Ha)) as [|(t0&Ht0&Hx)]; [done|]. exfalso. apply Hne. exact (rel_sep _ _ HR g' g t' t0 a Et Ht0 Ha Hx).
  - assert (HX : forall g' t' a, g' <> g -> m_grids m !! g' = Some t' -> owns t' a -> owns t a -> False).
    { intros g' t' a Hne Ht' Ha' Ha. destruct (rel_some' _ _ _ _ HR Ht') as (s'&_&Hs'). destruct (Ho a Ha) as [Hn|(t0&Ht0&Hx)]; [destruct (owned_live _ _ _ _ Hs' Ha') as [r Hr]; rewrite Hr in Hn; done|]. apply Hne. exact (rel_sep _ _ HR g' g t' t0 a Ht' Ht0 Ha' Hx). }
    intros g1 g2 t1 t2 a H1 H2 O1 O2. destruct (decide (g1 = g)) as [->|N1], (decide (g2 = g)) as [->|N2].
    + done.
    + rewrite lookup_insert in H1. rewrite lookup_insert_ne in H2 by done. injection H1 as <-. destruct (HX g2 t2 a N2 H2 O2 O1).
    + rewrite lookup_insert in H2. rewrite lookup_insert_ne in H1 by done. injection H2 as <-. destruct (HX g1 t1 a N1 H1 O1 O2).
    + rewrite lookup_insert_ne in H1, H2 by done. exact (rel_sep _ _ HR g1 g2 t1 t2 a H1 H2 O1 O2).
Qed.
Lemma set_band_eq {A} b (v : A) f : set_band b v f b = v.
Proof. unfold set_band. by rewrite decide_True. Qed.
Lemma set_band_ne {A} b b' (v : A) f : b' <> b -> set_band b v f b' = f b'.
Proof. intros H. unfold set_band. by rewrite decide_False. Qed.

Section proofs.
  Context (alloc : gmap positive arr -> positive) (Hal : forall h, h !! alloc h = None).

  (** what an access leaves behind: the array at [a] is that of the band, the others are as before *)
  Definition opened (hp : gmap positive arr) (t : tgrid) (s : sgrid) (b : band) (u : bool) (t' : tgrid) (hp' : gmap positive arr) (a : positive) : Prop :=
    gr hp' t' (SGrid (s_w s) (s_h s) (set_band b (Some (value s b)) (s_band s)) u) /\ t_data t' b = Some a /\
    (forall a', owns t' a' -> hp !! a' = None \/ owns t a') /\ (forall a', is_Some (hp !! a') -> hp' !! a' = hp !! a' \/ owns t a').
  Lemma grid_data_spec hp t s b : gr hp t s -> exists t' hp' a, grid_data alloc b t hp = (t', hp', a) /\ opened hp t s b (s_used s) t' hp' a /\ t_cache t' = t_cache t.
  Proof using Hal.
    intros Hg. pose proof Hg as [E1 E2 HB HI HC]. unfold grid_data, get_data. destruct (t_data t b) as [a|] eqn:Ed.
    - exists t, (alter (resize (t_h t) (t_w t)) a hp), a. split; [done|]. split; [|done]. split; [|split; [done|split]].
      + pose proof (HB b) as Hb. rewrite Ed in Hb. unfold band_ok in Hb. destruct (s_band s b) as [f|] eqn:Ef; [|done]. destruct Hb as (r&Hr&R1&R2&R3). split; cbn [s_w s_h s_band s_used]; try done.
        intros b'. destruct (decide (b' = b)) as [->|Hne].
        * rewrite set_band_eq, Ed. unfold band_ok, value. rewrite Ef. cbn [default from_option id]. eexists. rewrite lookup_alter, Hr. split; [reflexivity|]. cbn [resize a_h a_w a_cell]. do 2 (split; [done|]). intros y x Hy Hx. rewrite decide_True by (rewrite R1, R2; done). by apply R3.
        * rewrite set_band_ne by done. specialize (HB b'). unfold band_ok in *. destruct (t_data t b') as [a'|] eqn:Ea'; [|done]. rewrite lookup_alter_ne; [done|]. intros ->. apply Hne. by apply (HI b' b a').
      + intros a' Ha'. by right.
      + intros a' _. destruct (decide (a' = a)) as [->|Hne]; [right; by exists b|]. left. by rewrite lookup_alter_ne.
    - set (a := alloc hp). pose proof (Hal hp) as Hfr. fold a in Hfr.
      eexists _, _, a. split; [reflexivity|]. cbn [t_cache]. split; [|done]. assert (Hna : forall b' , t_data t b' <> Some a).
      { intros b' Hb'. destruct (owned_live _ _ _ a Hg) as [r Hr]; [by exists b'|]. rewrite Hr in Hfr. done. }
      assert (Hnone : s_band s b = None) by (pose proof (HB b) as Hb; rewrite Ed in Hb; unfold band_ok in Hb; by destruct (s_band s b)).
      split; [|split; [cbn [t_data]; by rewrite set_band_eq|split]].
      + split; cbn [t_w t_h t_data t_cache s_w s_h s_band s_used]; try done.
        * intros b'. destruct (decide (b' = b)) as [->|Hne].
          -- rewrite !set_band_eq. unfold band_ok, value. rewrite Hnone. cbn [default from_option id]. eexists. rewrite lookup_alter, lookup_insert. split; [reflexivity|]. cbn [resize a_h a_w a_cell]. do 2 (split; [done|]). intros y x Hy Hx. rewrite decide_False by lia. done.
          -- rewrite !set_band_ne by done. specialize (HB b'). unfold band_ok in *. destruct (t_data t b') as [a'|] eqn:Ea'; [|done]. rewrite lookup_alter_ne, lookup_insert_ne; [done|intros ->; by apply (Hna b')|intros ->; by apply (Hna b')].
        * intros b1 b2 a' H1 H2. destruct (decide (b1 = b)) as [->|N1], (decide (b2 = b)) as [->|N2]; [done| | |].
          -- rewrite set_band_eq in H1. rewrite set_band_ne in H2 by done. injection H1 as <-. by destruct (Hna b2).
          -- rewrite set_band_eq in H2. rewrite set_band_ne in H1 by done. injection H2 as <-. by destruct (Hna b1).
          -- rewrite set_band_ne in H1, H2 by done. by apply (HI b1 b2 a').
        * intros b' a' Hc. destruct (HC b' a' Hc) as [Hd Hu]. split; [|done]. rewrite set_band_ne; [done|]. intros ->. by rewrite Ed in Hd.
      + intros a' [b' Hb']. cbn [t_data] in Hb'. destruct (decide (b' = b)) as [->|Hne]; [rewrite set_band_eq in Hb'; injection Hb' as <-; by left|]. rewrite set_band_ne in Hb' by done. right. by exists b'.
      + intros a' [r Hr]. left. assert (a <> a') by (intros ->; by rewrite Hr in Hfr). by rewrite lookup_alter_ne, lookup_insert_ne.
  Qed.
  Lemma cached_spec hp t s b : gr hp t s -> exists t' hp' a, cached alloc b t hp = (t', hp', a) /\ opened hp t s b true t' hp' a.
  Proof using Hal.
    intros Hg. unfold cached. destruct (t_cache t b) as [a|] eqn:Ec.
    - destruct (gr_cache _ _ _ Hg b a Ec) as [Hd Hu]. exists t, hp, a. split; [done|]. pose proof Hg as [E1 E2 HB HI HC]. pose proof (HB b) as Hb. rewrite Hd in Hb. destruct (s_band s b) as [f|] eqn:Ef; [|done].
      split; [|split; [done|split; [by right|by left]]]. split; cbn [s_w s_h s_band s_used]; try done.
      + intros b'. destruct (decide (b' = b)) as [->|Hne]; [rewrite set_band_eq, Hd; unfold value; rewrite Ef; exact Hb|rewrite set_band_ne by done; apply HB].
      + intros b' a' Hc. split; [|done]. by apply HC.
    - destruct (grid_data_spec hp t s b Hg) as (t'&hp'&a&->&(G&Hd&Ho&Hf)&Hcc). eexists _, _, a. split; [reflexivity|]. split; [|split; [done|split; [|done]]].
      + destruct G as [E1 E2 HB HI HC]. split; cbn [t_w t_h t_data t_cache s_w s_h s_band s_used] in *; try done. intros b' a' Hc. split; [|done]. destruct (decide (b' = b)) as [->|Hne]; [rewrite set_band_eq in Hc; by injection Hc as <-|]. rewrite set_band_ne in Hc by done. by apply HC.
      + intros a' [b' Hb']. apply Ho. by exists b'.
  Qed.
  Lemma opened_read hp t s b u t' hp' a x y : opened hp t s b u t' hp' a -> y < s_h s -> x < s_w s -> forall k, read_cell a x y hp' k = k (value s b y x).
  Proof using Type.
    intros (G&Hd&_&_) Hy Hx k. pose proof (gr_band _ _ _ G b) as Hb. rewrite Hd in Hb. cbn [s_band] in Hb. rewrite set_band_eq in Hb. destruct Hb as (r&Hr&R1&R2&R3). unfold read_cell. rewrite Hr.
    pose proof (gr_w _ _ _ G) as E1. pose proof (gr_h _ _ _ G) as E2. cbn [s_w s_h] in E1, E2. rewrite decide_True by (rewrite R1, R2, E1, E2; done). rewrite R3; [done|by rewrite E2|by rewrite E1].
  Qed.
  Lemma opened_write hp t s b u t' hp' a x y v : opened hp t s b u t' hp' a -> y < s_h s -> x < s_w s ->
    exists hp2, (forall k, write_cell a x y v hp' k = k hp2) /\ gr hp2 t' (SGrid (s_w s) (s_h s) (set_band b (Some (put y x v (value s b))) (s_band s)) u) /\
      (forall a', is_Some (hp !! a') -> hp2 !! a' = hp !! a' \/ owns t a').
  Proof using Type.
    intros (G&Hd&Ho&Hf) Hy Hx. pose proof (gr_band _ _ _ G b) as Hb. rewrite Hd in Hb. cbn [s_band] in Hb. rewrite set_band_eq in Hb. destruct Hb as (r&Hr&R1&R2&R3).
    pose proof G as [E1 E2 HB HI HC]. cbn [s_w s_h s_band s_used] in E1, E2, HB, HC. eexists. split; [intros k; unfold write_cell; rewrite Hr, decide_True by (rewrite R1, R2, E1, E2; done); reflexivity|]. split.
    - split; cbn [s_w s_h s_band s_used]; try done. intros b'. destruct (decide (b' = b)) as [->|Hne].
      + rewrite set_band_eq, Hd. unfold band_ok. eexists. rewrite lookup_insert. split; [reflexivity|]. cbn [a_h a_w a_cell]. do 2 (split; [done|]). intros y' x' Hy' Hx'. unfold put. case_decide; [done|]. by apply R3.
      + specialize (HB b'). rewrite set_band_ne in HB |- * by done. unfold band_ok in *. destruct (t_data t' b') as [a'|] eqn:Ea'; [|done]. rewrite lookup_insert_ne; [done|]. intros <-. apply Hne. by apply (HI b' b a).
    - intros a' Ha'. destruct (decide (a' = a)) as [->|Hne]; [|rewrite lookup_insert_ne by done; by apply Hf]. destruct (Ho a) as [Hn|]; [by exists b| |by right]. destruct Ha' as [q Hq]. by rewrite Hq in Hn.
  Qed.
  (** deleting and copying the arrays of a grid *)
  Lemma remove_data_lookup t hp a : ~ owns t a -> remove_data t hp !! a = hp !! a.
  Proof using Type.
    intros Ha. unfold remove_data, both_bands. cbn [foldr].
    assert (H : forall b (h : gmap positive arr), (match t_data t b with Some a' => delete a' h | None => h end) !! a = h !! a) by (intros b h; destruct (t_data t b) as [a'|] eqn:E; [|done]; rewrite lookup_delete_ne; [done|]; intros ->; apply Ha; by exists b). by rewrite !H.
  Qed.
  Lemma clone_data_spec hp t s u : gr hp t s -> exists d hp', clone_data alloc (t_data t) hp = Some (d, hp') /\ (forall c, (forall b, c b = None) -> gr hp' (TGrid (t_w t) (t_h t) d c) (SGrid (s_w s) (s_h s) (s_band s) u)) /\
    (forall b a, d b = Some a -> hp !! a = None) /\ (forall a, is_Some (hp !! a) -> hp' !! a = hp !! a).
  Proof using Hal.
    intros Hg. pose proof Hg as [E1 E2 HB HI HC]. unfold clone_data, both_bands. cbn [foldr mbind option_bind].
    set (a1 := alloc hp).
    assert (HP : exists d1 hp1, (match t_data t BProb with None => Some ((fun _ : band => @None positive), hp) | Some a => c ← hp !! a; Some (set_band BProb (Some a1) (fun _ => None), <[a1 := c]> hp) end) = Some (d1, hp1) /\
      d1 BTrav = None /\ band_ok hp1 (t_h t) (t_w t) (d1 BProb) (s_band s BProb) /\ (forall a, d1 BProb = Some a -> hp !! a = None) /\ (forall a, is_Some (hp !! a) -> hp1 !! a = hp !! a)).
    { pose proof (HB BProb) as Hb. destruct (t_data t BProb) as [a|].
      - destruct (s_band s BProb) as [f|]; [|done]. destruct Hb as (r&Hr&Hrest). rewrite Hr. cbn [mbind option_bind]. eexists _, _. split; [reflexivity|]. split; [done|]. rewrite set_band_eq. split; [exists r; split; [apply lookup_insert|done]|]. split; [intros a' [= <-]; apply Hal|].
        intros a' [q Hq]. rewrite lookup_insert_ne; [done|]. intros Hx. rewrite <-Hx in Hq. unfold a1 in Hq. by rewrite Hal in Hq.
      - destruct (s_band s BProb); [done|]. eexists _, _. split; [reflexivity|]. done. }
    destruct HP as (d1&hp1&HP&D1&B1&F1&L1). cbv zeta. fold a1. rewrite HP. cbn [mbind option_bind]. set (a2 := alloc hp1).
    pose proof (HB BTrav) as Hb. destruct (t_data t BTrav) as [a|] eqn:Ed.
    - destruct (s_band s BTrav) as [f|] eqn:Ef; [|done]. destruct Hb as (r&Hr&Hrest). rewrite (L1 a) by (rewrite Hr; done). rewrite Hr. cbn [mbind option_bind]. eexists _, _. split; [reflexivity|].
      assert (N2 : forall a', is_Some (hp1 !! a') -> a2 <> a') by (intros a' [q Hq] Hx; rewrite <-Hx in Hq; unfold a2 in Hq; by rewrite Hal in Hq).
      assert (Hfr2 : hp !! a2 = None) by (destruct (hp !! a2) eqn:E; [|done]; exfalso; assert (HS : is_Some (hp !! a2)) by (rewrite E; done); pose proof (L1 a2 HS) as HL; unfold a2 in HL at 1; rewrite Hal in HL; by rewrite <-HL in E).
      split; [|split].
      + intros c Hc. split; cbn [t_w t_h t_data t_cache s_w s_h s_band s_used]; try done.
        * intros [|]; [rewrite set_band_eq, Ef; exists r; split; [apply lookup_insert|done]|]. rewrite set_band_ne by done. unfold band_ok in *. destruct (d1 BProb) as [p|]; [|done]. destruct (s_band s BProb); [|done]. destruct B1 as (q&Hq&Hq'). exists q. split; [|done]. rewrite lookup_insert_ne; [done|]. apply N2. by rewrite Hq.
        * assert (Hx : forall p, d1 BProb = Some p -> a2 <> p) by (intros p Hp; apply N2; unfold band_ok in B1; rewrite Hp in B1; destruct (s_band s BProb); [|done]; destruct B1 as (q&->&_); done).
          intros [|] [|] p H1 H2; try done; rewrite set_band_eq in *; rewrite set_band_ne in * by done; [injection H1 as <-; by destruct (Hx a2 H2)|injection H2 as <-; by destruct (Hx a2 H1)].
        * intros b p Hp. by rewrite Hc in Hp.
      + intros [|] p Hp; [rewrite set_band_eq in Hp; by injection Hp as <-|]. rewrite set_band_ne in Hp by done. by apply F1.
      + intros p Hp. rewrite lookup_insert_ne; [by apply L1|]. apply N2. rewrite (L1 p Hp). done.
    - destruct (s_band s BTrav) eqn:Ef; [done|]. eexists _, _. split; [reflexivity|]. split; [|split; [|done]].
      + intros c Hc. split; cbn [t_w t_h t_data t_cache s_w s_h s_band s_used]; try done.
        * intros [|]; [by rewrite D1, Ef|done].
        * intros [|] [|] p H1 H2; congruence.
        * intros b p Hp. by rewrite Hc in Hp.
      + intros [|] p Hp; [by rewrite D1 in Hp|by apply F1].
  Qed.

  Lemma tstep_spec o m ss ss' x : rel m ss -> sstep o ss = Some (ss', x) -> exists m', tstep alloc o m = Ok (m', x) /\ rel m' ss'.
  Proof using Hal.
    intros HR H. destruct o as [g w h|g|g g'|g g'|g b cx cy v|g b cx cy|g b cx cy v|g b cx cy|g b cx cy|g b]; cbn [sstep] in H.
    - destruct (ss !! g) eqn:E; [done|]. injection H as <- <-. cbn [tstep]. rewrite (rel_none _ _ _ HR E). eexists. split; [reflexivity|]. apply rel_update; [done| | |by left].
      + split; cbn; done.
      + intros a [b Hb]. done.
    - destruct (ss !! g) as [s|] eqn:E; [|done]. cbn [mbind option_bind] in H. injection H as <- <-. destruct (rel_some _ _ _ _ HR E) as (t&Ht&Hg). cbn [tstep]. unfold with_grid. rewrite Ht. eexists. split; [reflexivity|]. split; cbn [m_grids m_arrays].
      + intros g'. destruct (decide (g' = g)) as [->|Hne]; [by rewrite !lookup_delete|]. rewrite !lookup_delete_ne by done. pose proof (rel_grid _ _ HR g') as H. destruct (m_grids m !! g') as [t'|] eqn:Et; [|done]. destruct (ss !! g'); [|done].
        apply (gr_frame _ _ _ _ H). intros a Ha. apply remove_data_lookup. intros Ha'. apply Hne. exact (rel_sep _ _ HR g' g t' t a Et Ht Ha Ha').
      + intros g1 g2 t1 t2 a H1 H2. apply lookup_delete_Some in H1 as [_ H1]. apply lookup_delete_Some in H2 as [_ H2]. by apply (rel_sep _ _ HR g1 g2 t1 t2 a).
    - destruct (ss !! g) eqn:E; [done|]. destruct (ss !! g') as [s|] eqn:E'; [|done]. cbn [mbind option_bind] in H. destruct (s_used s) eqn:Eu; [done|]. injection H as <- <-. destruct (rel_some _ _ _ _ HR E') as (t&Ht&Hg). cbn [tstep]. unfold with_grid.
      rewrite (rel_none _ _ _ HR E), Ht. destruct (clone_data_spec _ _ _ false Hg) as (d&hp&->&G&F&L). eexists. split; [reflexivity|]. apply rel_update; [done| | |].
      + replace s with (SGrid (s_w s) (s_h s) (s_band s) false) by (destruct s; cbn in Eu; by subst). apply G. intros b. destruct (t_cache t b) as [a|] eqn:Ec; [|done]. destruct (gr_cache _ _ _ Hg b a Ec) as [_ Hu]. by rewrite Hu in Eu.
      + intros a [b Hb]. left. by apply (F b).
      + intros a Ha. left. by apply L.
    - destruct (ss !! g) as [s0|] eqn:E; [|done]. cbn [mbind option_bind] in H. destruct (ss !! g') as [s|] eqn:E'; [|done]. cbn [mbind option_bind] in H. injection H as <- <-.
      destruct (rel_some _ _ _ _ HR E) as (t0&Ht0&Hg0). destruct (rel_some _ _ _ _ HR E') as (t&Ht&Hg). cbn [tstep]. unfold with_grid. rewrite Ht0, Ht. destruct (decide (g = g')) as [<-|Hne].
      + rewrite Ht0 in Ht. injection Ht as <-. rewrite E in E'. injection E' as <-. eexists. split; [reflexivity|]. apply rel_update; [done| | |by left].
        * destruct Hg as [E1 E2 HB HI HC]. split; cbn; done.
        * intros a [b Hb]. right. exists t0. split; [done|]. by exists b.
      + assert (Hg' : gr (remove_data t0 (m_arrays m)) t s).
        { apply (gr_frame _ _ _ _ Hg). intros a Ha. apply remove_data_lookup. intros Ha'. apply Hne. exact (rel_sep _ _ HR g g' t0 t a Ht0 Ht Ha' Ha). }
        destruct (clone_data_spec _ _ _ false Hg') as (d&hp&->&G&F&L). eexists. split; [reflexivity|].
        assert (HD : forall a, owns t0 a \/ ~ owns t0 a) by (intros a; unfold owns; destruct (decide (t_data t0 BTrav = Some a)); [left; by exists BTrav|]; destruct (decide (t_data t0 BProb = Some a)); [left; by exists BProb|]; right; intros [[|] ?]; done).
        apply rel_update; [done| | |].
        * by apply G.
        * intros a [b Hb]. destruct (HD a) as [Ha|Ha]; [right; by exists t0|left]. rewrite <-(remove_data_lookup t0 _ a Ha). by apply (F b).
        * intros a Ha. destruct (HD a) as [Hx|Hx]; [right; by exists t0|left]. rewrite L; [by apply remove_data_lookup|]. by rewrite remove_data_lookup.
    - destruct (ss !! g) as [s|] eqn:E; [|done]. cbn [mbind option_bind] in H. destruct (decide (cy < s_h s /\ cx < s_w s)) as [[Hy Hx]|]; [|done]. injection H as <- <-. destruct (rel_some _ _ _ _ HR E) as (t&Ht&Hg). cbn [tstep]. unfold with_grid. rewrite Ht.
      destruct (cached_spec _ _ _ b Hg) as (t'&hp&a&->&HO). destruct (opened_write _ _ _ _ _ _ _ _ cx cy v HO Hy Hx) as (hp2&->&G&Hf). eexists. split; [reflexivity|]. destruct HO as (_&_&Ho&_).
      apply rel_update; [done|done| |]; [intros a' Ha'; destruct (Ho a' Ha'); [by left|right; by exists t]|intros a' Ha'; destruct (Hf a' Ha'); [by left|right; by exists t]].
    - destruct (ss !! g) as [s|] eqn:E; [|done]. cbn [mbind option_bind] in H. destruct (decide (cy < s_h s /\ cx < s_w s)) as [[Hy Hx]|]; [|done]. injection H as <- <-. destruct (rel_some _ _ _ _ HR E) as (t&Ht&Hg). cbn [tstep]. unfold with_grid. rewrite Ht.
      destruct (cached_spec _ _ _ b Hg) as (t'&hp&a&->&HO). rewrite (opened_read _ _ _ _ _ _ _ _ cx cy HO Hy Hx). eexists. split; [reflexivity|]. destruct HO as (G&_&Ho&Hf).
      apply rel_update; [done|done| |]; [intros a' Ha'; destruct (Ho a' Ha'); [by left|right; by exists t]|intros a' Ha'; destruct (Hf a' Ha'); [by left|right; by exists t]].
    - destruct (ss !! g) as [s|] eqn:E; [|done]. cbn [mbind option_bind] in H. destruct (decide (cy < s_h s /\ cx < s_w s)) as [[Hy Hx]|]; [|done]. injection H as <- <-. destruct (rel_some _ _ _ _ HR E) as (t&Ht&Hg). cbn [tstep]. unfold with_grid. rewrite Ht.
      destruct (grid_data_spec _ _ _ b Hg) as (t'&hp&a&->&HO&_). destruct (opened_write _ _ _ _ _ _ _ _ cx cy v HO Hy Hx) as (hp2&->&G&Hf). eexists. split; [reflexivity|]. destruct HO as (_&_&Ho&_).
      apply rel_update; [done|done| |]; [intros a' Ha'; destruct (Ho a' Ha'); [by left|right; by exists t]|intros a' Ha'; destruct (Hf a' Ha'); [by left|right; by exists t]].
    - destruct (ss !! g) as [s|] eqn:E; [|done]. cbn [mbind option_bind] in H. destruct (decide (cy < s_h s /\ cx < s_w s)) as [[Hy Hx]|]; [|done]. injection H as <- <-. destruct (rel_some _ _ _ _ HR E) as (t&Ht&Hg). cbn [tstep]. unfold with_grid. rewrite Ht.
      destruct (grid_data_spec _ _ _ b Hg) as (t'&hp&a&->&HO&_). rewrite (opened_read _ _ _ _ _ _ _ _ cx cy HO Hy Hx). eexists. split; [reflexivity|]. destruct HO as (G&_&Ho&Hf).
      apply rel_update; [done|done| |]; [intros a' Ha'; destruct (Ho a' Ha'); [by left|right; by exists t]|intros a' Ha'; destruct (Hf a' Ha'); [by left|right; by exists t]].
    - destruct (ss !! g) as [s|] eqn:E; [|done]. cbn [mbind option_bind] in H. destruct (rel_some _ _ _ _ HR E) as (t&Ht&Hg). cbn [tstep]. unfold with_grid. rewrite Ht. pose proof (gr_band _ _ _ Hg b) as Hb. pose proof (gr_w _ _ _ Hg) as E1. pose proof (gr_h _ _ _ Hg) as E2.
      destruct (s_band s b) as [f|] eqn:Ef.
      + destruct (decide (cy < s_h s /\ cx < s_w s)) as [[Hy Hx]|]; [|done]. injection H as <- <-. destruct (t_data t b) as [a|]; [|done]. destruct Hb as (r&Hr&R1&R2&R3). unfold read_cell. rewrite Hr, decide_True by (rewrite R1, R2, E1, E2; done). rewrite R3 by (by rewrite ?E1, ?E2). by eexists.
      + injection H as <- <-. destruct (t_data t b); [done|]. by eexists.
    - destruct (ss !! g) as [s|] eqn:E; [|done]. cbn [mbind option_bind] in H. destruct (s_used s) eqn:Eu; [done|]. injection H as <- <-. destruct (rel_some _ _ _ _ HR E) as (t&Ht&Hg). cbn [tstep]. unfold with_grid. rewrite Ht. pose proof Hg as [E1 E2 HB HI HC].
      destruct (t_data t b) as [a|] eqn:Ed.
      + eexists. split; [reflexivity|]. apply rel_update; [done| | |].
        * split; cbn [t_w t_h t_data t_cache s_w s_h s_band s_used]; try done.
          -- intros b'. destruct (decide (b' = b)) as [->|Hne]; [by rewrite !set_band_eq|]. rewrite !set_band_ne by done. specialize (HB b'). unfold band_ok in *. destruct (t_data t b') as [a'|] eqn:Ea'; [|done]. rewrite lookup_delete_ne; [done|]. intros <-. apply Hne. by apply (HI b' b a).
          -- intros b1 b2 a' H1 H2. destruct (decide (b1 = b)) as [->|N1]; [by rewrite set_band_eq in H1|]. destruct (decide (b2 = b)) as [->|N2]; [by rewrite set_band_eq in H2|]. rewrite set_band_ne in H1, H2 by done. by apply (HI b1 b2 a').
          -- intros b' a' Hc. destruct (HC b' a' Hc) as [_ Hu]. by rewrite Hu in Eu.
        * intros a' [b' Hb']. cbn [t_data] in Hb'. destruct (decide (b' = b)) as [->|Hne]; [by rewrite set_band_eq in Hb'|]. rewrite set_band_ne in Hb' by done. right. exists t. split; [done|]. by exists b'.
        * intros a' _. destruct (decide (a' = a)) as [->|Hne]; [right; exists t; split; [done|]; by exists b|left]. by rewrite lookup_delete_ne.
      + eexists. split; [reflexivity|]. replace m with (Mem (m_arrays m) (<[g := t]> (m_grids m))) by (rewrite insert_id by done; by destruct m). apply rel_update; [done| | |by left].
        * split; cbn [s_w s_h s_band s_used]; try done; [|intros b' a' Hc; destruct (HC b' a' Hc) as [_ Hu]; by rewrite Hu in Eu]. intros b'. destruct (decide (b' = b)) as [->|Hne]; [by rewrite set_band_eq, Ed|]. rewrite set_band_ne by done. apply HB.
        * intros a' Ha'. right. by exists t.
  Qed.
  Lemma trun_spec ops : forall m ss ss' l, rel m ss -> srun ops ss = Some (ss', l) -> exists m', trun alloc ops m = Ok (m', l) /\ rel m' ss'.
  Proof using Hal.
    induction ops as [|o ops IH]; intros m ss ss' l HR H; cbn [srun] in H; [injection H as <- <-; by exists m|].
    destruct (sstep o ss) as [[s1 x]|] eqn:E; [|done]. cbn [mbind option_bind] in H. destruct (srun ops s1) as [[s2 l2]|] eqn:E2; [|done]. cbn [mbind option_bind] in H. injection H as <- <-.
    destruct (tstep_spec o m ss s1 x HR E) as (m1&H1&HR1). destruct (IH m1 s1 s2 l2 HR1 E2) as (m2&H2&HR2). exists m2. cbn [trun]. by rewrite H1, H2.
  Qed.
  (** ** C139 *)
  (** Every allowed sequence of calls returns what the specification says: each grid has its own cells, however they are accessed. *)
  Theorem C139_cells ops ss' l : srun ops ∅ = Some (ss', l) -> exists m', trun alloc ops (Mem ∅ ∅) = Ok (m', l).
  Proof using Hal.
    intros H. destruct (trun_spec ops (Mem ∅ ∅) ∅ ss' l) as (m'&Hm&_); [|done|by exists m'].
    split; cbn [m_grids m_arrays]; [intros g; by rewrite !lookup_empty|intros g g' t t' a Ht; by rewrite lookup_empty in Ht].
  Qed.
End proofs.
Definition c139_alloc (h : gmap positive arr) : positive := fresh (dom h : gset positive).
Lemma c139_alloc_fresh h : h !! c139_alloc h = None.
Proof. apply (not_elem_of_dom (D := gset positive)). exact (is_fresh (dom h : gset positive)). Qed.
(** two grids: written, read, copied, assigned, removed; the later calls do not mix up the cells *)
Definition c139_ops : list top :=
  [TNew 1 2 3; TPut 1 BTrav 1 2 4; TCopy 2 1; TSet 2 BTrav 1 2 7; TGet 1 BTrav 1 2; TGet 2 BTrav 1 2; TSet 1 BProb 0 0 9; TNew 3 1 1; TConst 3 BProb 0 0; TAssign 3 1; TSet 1 BTrav 1 2 6; TGet 3 BTrav 1 2; TGet 3 BProb 0 0; TDel 1; TRead 3 BTrav 1 2;
   TAssign 3 3; TRemove 3 BTrav; TGet 3 BTrav 1 2; TGet 3 BProb 0 0; TConst 2 BTrav 1 2].
Example C139_nonvacuous : (forall h, h !! c139_alloc h = None) /\
  exists ss', srun c139_ops ∅ = Some (ss', [Done; Done; Done; Done; Byte 4; Byte 7; Done; Done; Thrown; Done; Done; Byte 4; Byte 9; Done; Byte 4; Done; Done; Byte 0; Byte 9; Byte 7]).
Proof. split; [apply c139_alloc_fresh|]. eexists. vm_compute. reflexivity. Qed.
(** The copy constructor, and clone, of a grid in use: a value that is set in the copy is set in the original, and not in the copy; once the original is gone, an access to the copy is an access to freed memory (finding). *)
Theorem C139_copy_refuted : (exists m', trun c139_alloc [TNew 1 2 2; TSet 1 BTrav 0 0 5; TCopy 2 1; TSet 2 BTrav 0 0 7; TGet 1 BTrav 0 0; TRead 2 BTrav 0 0] (Mem ∅ ∅) = Ok (m', [Done; Done; Done; Done; Byte 7; Byte 5])) /\
  trun c139_alloc [TNew 1 2 2; TSet 1 BTrav 0 0 5; TCopy 2 1; TDel 1; TGet 2 BTrav 0 0] (Mem ∅ ∅) = Bad UB.
Proof. split; [eexists|]; vm_compute; reflexivity. Qed.
(** removeData of a band in use: the next access is one to freed memory (finding). *)
Theorem C139_remove_refuted : trun c139_alloc [TNew 1 2 2; TSet 1 BTrav 0 0 5; TRemove 1 BTrav; TGet 1 BTrav 0 0] (Mem ∅ ∅) = Bad UB.
Proof. vm_compute. reflexivity. Qed.
