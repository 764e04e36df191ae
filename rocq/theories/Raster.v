(** Bands of a grid and raster files (C105-C108): src/maps/Grid.hpp, GridBase.cpp:497-560, Grids.hpp:72-98.

    Simplifications: all bands of a grid have one cell type, whose values are a parameter; other metadata of the layer is left out (C35); GDAL is external: a raster file is
    its size, its geotransform and its bands with their nodata values, [RasterIO] copies line by line, files with an empty raster cannot be created. Numbers are rational.
    In a file each band has its own nodata value (the GTiff driver of GDAL keeps one for all bands of a file). *)
From Coq Require Import ZArith QArith Qcanon String Lia.
From stdpp Require Import prelude strings gmap.
From Verif Require Import Base Ids Persist.

Record geotransform := GT { gt0 : Qc; gt1 : Qc; gt2 : Qc; gt3 : Qc; gt4 : Qc; gt5 : Qc }.

Section Raster.
  Context {A : Type} (zero : A).

  (** boost::multi_array with two dimensions *)
  Record array := Arr { a_h : nat; a_w : nat; a_data : list A }.
  Definition cell (a : array) (y x : nat) : option A :=
    if decide (y < a_h a /\ x < a_w a) then a_data a !! (y * a_w a + x) else None.
  (** multi_array::resize keeps the cells that exist in both; new ones are [T()] *)
  Definition resize (h w : nat) (a : array) : array :=
    Arr h w ((fun n => default zero (cell a (n / w) (n mod w))) <$> seq 0 (h * w)).

  Record grid := Grid { g_w : nat; g_h : nat; g_sx : Qc; g_sy : Qc; g_ox : Qc; g_oy : Qc; g_type : nat;
                        g_bands : gmap string array; g_nodata : gmap string A }.
  Definition with_bands (g : grid) (b : gmap string array) : grid := Grid (g_w g) (g_h g) (g_sx g) (g_sy g) (g_ox g) (g_oy g) (g_type g) b (g_nodata g).
  Definition with_nodata (g : grid) (n : gmap string A) : grid := Grid (g_w g) (g_h g) (g_sx g) (g_sy g) (g_ox g) (g_oy g) (g_type g) (g_bands g) n.
  (** GridBase.cpp:9-21 *)
  Definition new_grid (w h : nat) (sx sy ox oy : Qc) (ty : nat) : grid := Grid w h sx sy ox oy ty ∅ ∅.

  (** Grid::getGridData, Grid.hpp:197-202, with Layer::getData (Layer.hpp:139-161): the array, stored again with the size of the grid *)
  Definition the_band (g : grid) (key : string) : array := resize (g_h g) (g_w g) (default (Arr 0 0 []) (g_bands g !! key)).
  Definition grid_data (g : grid) (key : string) : grid := with_bands g (<[key := the_band g key]> (g_bands g)).
  (** createBand, Grid.hpp:171-174 *)
  Definition create_band (g : grid) (key : string) : grid := grid_data g key.
  (** hasBand, 115-118 *)
  Definition has_band (g : grid) (key : string) : bool := bool_decide (is_Some (g_bands g !! key)).
  (** getFromRaster for a constant grid, 219-222 with 205-208: the array must exist; an index outside of it is an error *)
  Definition get_raster (g : grid) (key : string) (x y : nat) : out unit A :=
    match g_bands g !! key with
    | None => Throw tt
    | Some a => match cell a y x with Some v => Ok v | None => Bad UB end
    end.
  (** assignment through getFromRaster, 226-229 *)
  Definition set_raster (g : grid) (key : string) (x y : nat) (v : A) : out grid grid :=
    let g := grid_data g key in
    if decide (y < g_h g /\ x < g_w g)
    then Ok (with_bands g (<[key := Arr (g_h g) (g_w g) (<[y * g_w g + x := v]> (a_data (the_band g key)))]> (g_bands g)))
    else Bad UB.
  (** setNoData, 121-124 and 147-154; getNoData, 136-144 *)
  Definition set_nodata (g : grid) (key : string) (v : A) : grid := with_nodata g (<[key := v]> (g_nodata g)).
  Definition set_nodata_all (g : grid) (v : A) : grid := with_nodata g (((fun _ => v) <$> g_bands g) ∪ g_nodata g).
  Definition get_nodata (g : grid) (key : string) : option A := g_nodata g !! key.
  (** copyBandFrom, Grid.hpp:306-317. The assignment of arrays asserts equal sizes; std::bad_cast for another cell type. Whether the target exists after
      the exception for a missing source is not specified by the language: here it does not. *)
  Definition copy_band (g source : grid) (source_band target : string) : out grid grid :=
    if decide (g_type source = g_type g) then
      let key := match target with EmptyString => source_band | _ => target end in
      match g_bands source !! source_band with
      | None => Throw g
      | Some a =>
        let g := grid_data g key in
        if decide (a_h a = g_h g /\ a_w a = g_w g) then
          let g := with_bands g (<[key := a]> (g_bands g)) in
          Ok (match get_nodata source source_band with Some v => set_nodata g key v | None => g end)
        else Bad Abort
      end
    else Throw g.

  (** ** Raster files *)
  Record rband := RBand { rb_type : nat; rb_data : list A; rb_nodata : option A }.
  Record raster := Raster { r_w : nat; r_h : nat; r_gt : option geotransform; r_bands : list rband }.

  (** GDALRasterBand::RasterIO for reading: line [j] of the file goes to [start + j * stride]. The loops over lines and columns as one: [n = j * w + i]. *)
  Definition io_index (w : nat) (start stride : Z) (n : nat) : Z := (start + Z.of_nat (n / w) * stride + Z.of_nat (n mod w))%Z.
  Fixpoint io (w : nat) (start stride : Z) (src : list A) (ns : list nat) (mem : list A) : option (list A) :=
    match ns with
    | [] => Some mem
    | n :: r =>
      let k := io_index w start stride n in
      match src !! n with
      | Some v => if decide (0 <= k < Z.of_nat (length mem))%Z then io w start stride src r (<[Z.to_nat k := v]> mem) else None
      | None => None
      end
    end.
  (** the loops of Grid.hpp:684-686, [n = yi * cellSizeX + xi] *)
  Definition mirror_from (w n : nat) : nat := (n / w + 1) * w + (w - 1 - n mod w).
  Fixpoint mirror (w : nat) (ns : list nat) (mem : list A) : option (list A) :=
    match ns with
    | [] => Some mem
    | n :: r => match mem !! mirror_from w n with
                | Some v => if decide (n < length mem) then mirror w r (<[n := v]> mem) else None
                | None => None
                end
    end.
  (** one round of the loop, Grid.hpp:645-689 with checkBandType, 721-777 *)
  Definition read_band (xneg yneg : bool) (g : grid) (key : string) (b : rband) : out grid grid :=
    if decide (rb_type b = g_type g) then
      let w := g_w g in let h := g_h g in
      let a := the_band g key in
      if decide (w = 0 \/ h = 0) then Bad UB else
      let a1 := if xneg then resize (h + 1) w a else a in
      let start := ((if xneg then w else 0) + (if yneg then w * (h - 1) else 0))%nat in
      let stride := if yneg then (- Z.of_nat w)%Z else Z.of_nat w in
      match io w (Z.of_nat start) stride (rb_data b) (seq 0 (h * w)) (a_data a1) with
      | None => Bad UB
      | Some mem =>
        match (if xneg then mirror w (seq 0 (h * w)) mem else Some mem) with
        | None => Bad UB
        | Some mem =>
          let a2 := if xneg then resize h w (Arr (h + 1) w mem) else Arr h w mem in
          let g := with_bands g (<[key := a2]> (g_bands g)) in
          Ok (match rb_nodata b with Some v => set_nodata g key v | None => g end)
        end
      end
    else Throw g.
  Fixpoint read_bands (xneg yneg : bool) (r : raster) (keys : list string) (i : Z) (g : grid) : out grid grid :=
    match keys with
    | [] => Ok g
    | key :: keys => if decide (1 <= i)%Z then
                       match r_bands r !! Z.to_nat (i - 1) with
                       | None => Throw g
                       | Some b => g1 <~ read_band xneg yneg g key b ;; read_bands xneg yneg r keys (i + 1) g1
                       end
                     else Throw g
    end.
  Definition qabs (q : Qc) : Qc := if Qclt_le_dec q 0 then (- q)%Qc else q.
  Definition qgt (a b : Qc) : bool := if Qclt_le_dec b a then true else false.
  Definition qneg (a : Qc) : bool := if Qclt_le_dec a 0 then true else false.
  (** readGridData, Grid.hpp:589-691 *)
  Definition read_grid (r : raster) (keys : list string) (base : Z) (g : grid) : out grid grid :=
    if decide ((g_w g <> 0 /\ r_w r <> g_w g) \/ (g_h g <> 0 /\ r_h r <> g_h g)) then Throw g else
    let g := Grid (r_w r) (r_h r) (g_sx g) (g_sy g) (g_ox g) (g_oy g) (g_type g) (g_bands g) (g_nodata g) in
    let go (xneg yneg : bool) (g : grid) :=
      if decide (Z.of_nat (length (r_bands r)) - base + 1 < Z.of_nat (length keys))%Z then Throw g else read_bands xneg yneg r keys base g in
    if decide (g_sx g = 0%Qc \/ g_sy g = 0%Qc) then
      match r_gt r with
      | None => Throw g
      | Some t =>
        let sx := qabs (gt1 t) in let sy := qabs (gt5 t) in
        let g := Grid (g_w g) (g_h g) sx sy (g_ox g) (g_oy g) (g_type g) (g_bands g) (g_nodata g) in
        if qgt (qabs (gt4 t * Q2Qc (inject_Z (Z.of_nat (g_h g))))) (sy * Q2Qc (1 # 100)) || qgt (qabs (gt2 t)) (sx * Q2Qc (1 # 100)) then Throw g
        else go (qneg (gt1 t)) (qneg (gt5 t)) g
      end
    else go false false g.
  (** readGridFromGdal, GridBase.cpp:505-560: the grid and the translation *)
  Definition read_from_gdal (r : raster) (name : string) (band : Z) : out unit (grid * (Qc * Qc)) :=
    if decide (Z.of_nat (length (r_bands r)) < band)%Z then Throw tt else
    if decide (band < 1)%Z then Bad UB else
    match r_bands r !! Z.to_nat (band - 1) with
    | None => Bad UB
    | Some b =>
      match read_grid r [name] band (new_grid 0 0 0 0 0 0 (rb_type b)), r_gt r with
      | Ok g, Some t =>
        let ox := if qneg (gt1 t) then (gt0 t - Q2Qc (inject_Z (Z.of_nat (g_w g))) * g_sx g)%Qc else gt0 t in
        let oy := if qneg (gt5 t) then (gt3 t - Q2Qc (inject_Z (Z.of_nat (g_h g))) * g_sy g)%Qc else gt3 t in
        Ok (g, (ox, oy))
      | Bad b, _ => Bad b
      | _, _ => Throw tt
      end
    end.

  (** ** Writing *)
  (** the upper left part of the transform of the frame to the root and its translation: [x' = fa x + fb y + ftx], [y' = fc x + fd y + fty] *)
  Record plane := Plane { fa : Qc; fb : Qc; ftx : Qc; fc : Qc; fd : Qc; fty : Qc }.
  Definition no_frame : plane := Plane 1 0 0 0 1 0.
  (** Grid.hpp:527-555: frame * translate(offset) * scale *)
  Definition geo_of (f : plane) (g : grid) : geotransform :=
    GT (fa f * g_ox g + fb f * g_oy g + ftx f) (fa f * g_sx g) (fb f * g_sy g)
       (fc f * g_ox g + fd f * g_oy g + fty f) (fc f * g_sx g) (fd f * g_sy g).
  (** writeGridData, Grid.hpp:505-587 *)
  Definition write_band (g : grid) (key : string) : rband := RBand (g_type g) (a_data (the_band g key)) (get_nodata g key).
  Definition write_grid (f : plane) (keys : list string) (g : grid) : out unit (raster * grid) :=
    if decide (g_w g = 0 \/ g_h g = 0 \/ keys = []) then Throw tt
    else Ok (Raster (g_w g) (g_h g) (Some (geo_of f g)) (write_band g <$> keys), foldl grid_data g keys).

  (** getFullPath, Grid.hpp:326-327 *)
  Definition full_path (path key : string) : string := path +:+ "_" +:+ key +:+ ".tiff".
  (** the arrays among the metadata, Grid.hpp:430-435 *)
  Definition layers (g : grid) : list string := (map_to_list (g_bands g)).*1.
  (** what the item keeps in the scene file, GridBase.cpp:27-41 and Grid.hpp:437-439 *)
  Record header := Header { hd_w : nat; hd_h : nat; hd_sx : Qc; hd_sy : Qc; hd_ox : Qc; hd_oy : Qc; hd_layers : list string }.
  Definition header_of (g : grid) : header := Header (g_w g) (g_h g) (g_sx g) (g_sy g) (g_ox g) (g_oy g) (layers g).
  Definition of_header (hd : header) (ty : nat) : grid := new_grid (hd_w hd) (hd_h hd) (hd_sx hd) (hd_sy hd) (hd_ox hd) (hd_oy hd) ty.
  Fixpoint write_files (f : plane) (path : string) (g : grid) (keys : list string) (dir : gmap string raster) : out unit (gmap string raster) :=
    match keys with
    | [] => Ok dir
    | k :: keys => x <~ write_grid f [k] g ;; let '(r, g1) := x in write_files f path g1 keys (<[full_path path k := r]> dir)
    end.
  (** Grid::serialize, Grid.hpp:424-453, into files; [path]: getMapFileName *)
  Definition save (single : bool) (f : plane) (path : string) (g : grid) (dir : gmap string raster) : out unit (header * gmap string raster) :=
    if single
    then x <~ write_grid f (layers g) g ;; let '(r, g1) := x in Ok (header_of g, <[full_path path "" := r]> dir)
    else d <~ write_files f path g (layers g) dir ;; Ok (header_of g, d).
  Fixpoint load_files (path : string) (keys : list string) (dir : gmap string raster) (g : grid) : out grid grid :=
    match keys with
    | [] => Ok g
    | k :: keys => match dir !! full_path path k with
                   | None => Throw g
                   | Some r => g1 <~ read_grid r [k] 1 g ;; load_files path keys dir g1
                   end
    end.
  (** Grid::unserialize, Grid.hpp:374-423, from files *)
  Definition load (single : bool) (path : string) (hd : header) (ty : nat) (dir : gmap string raster) : out grid grid :=
    match (if single then dir !! full_path path "" else None) with
    | Some r => read_grid r (hd_layers hd) 1 (of_header hd ty)
    | None => load_files path (hd_layers hd) dir (of_header hd ty)
    end.

  (** the same with streams, Grid.hpp:486-496: the cells as they lie in memory. A short stream leaves the remaining cells. *)
  Definition write_stream (g : grid) (key : string) : list A := a_data (the_band g key).
  Definition save_streams (path : string) (g : grid) (st : gmap string (list A)) : header * gmap string (list A) :=
    (header_of g, foldl (fun st k => <[full_path path k := write_stream g k]> st) st (layers g)).
  Definition read_stream (g : grid) (key : string) (s : list A) : grid :=
    let d := a_data (the_band g key) in
    with_bands g (<[key := Arr (g_h g) (g_w g) (take (length d) s ++ drop (length s) d)]> (g_bands g)).
  Fixpoint load_streams (path : string) (keys : list string) (st : gmap string (list A)) (g : grid) : out grid grid :=
    match keys with
    | [] => Ok g
    | k :: keys => match st !! full_path path k with
                   | None => Throw g
                   | Some s => load_streams path keys st (read_stream g k s)
                   end
    end.

  (** ** Lemmas *)
  Definition sized (h w : nat) (a : array) : Prop := a_h a = h /\ a_w a = w /\ length (a_data a) = h * w.
  Definition wf (g : grid) : Prop := forall k a, g_bands g !! k = Some a -> sized (g_h g) (g_w g) a.

  Lemma divmod_lin (w x y : nat) : x < w -> (y * w + x) / w = y /\ (y * w + x) mod w = x.
  Proof using Type.
    intros H. split.
    - rewrite Nat.add_comm, Nat.div_add by lia. rewrite Nat.div_small by done. lia.
    - rewrite Nat.add_comm, Nat.mod_add by lia. by apply Nat.mod_small.
  Qed.
  Lemma lin_inj (w x y x' y' : nat) : x < w -> x' < w -> y * w + x = y' * w + x' -> x = x' /\ y = y'.
  Proof using Type. intros H H' E. pose proof (divmod_lin w x y H) as [D1 D2]. pose proof (divmod_lin w x' y' H') as [D3 D4]. rewrite E in D1, D2. split; congruence. Qed.
  Lemma lin_lt (w h x y : nat) : x < w -> y < h -> y * w + x < h * w.
  Proof using Type. intros H1 H2. nia. Qed.
  Lemma lin_split (w h n : nat) : n < h * w -> exists x y, x < w /\ y < h /\ n = y * w + x.
  Proof using Type.
    intros H. assert (w <> 0) by nia. exists (n mod w), (n / w).
    pose proof (Nat.mod_upper_bound n w). pose proof (Nat.div_mod n w). split; [lia|]. split; [|nia].
    apply Nat.div_lt_upper_bound; nia.
  Qed.
  Lemma sized_resize (h w : nat) (a : array) : sized h w (resize h w a).
  Proof using Type. split; [done|]. split; [done|]. cbn. rewrite fmap_length, seq_length. done. Qed.
  Lemma resize_lookup (h w : nat) (a : array) (n : nat) : n < h * w -> a_data (resize h w a) !! n = Some (default zero (cell a (n / w) (n mod w))).
  Proof using Type. intros H. cbn. rewrite list_lookup_fmap, lookup_seq_lt by done. done. Qed.
  Lemma cell_resize (h w : nat) (a : array) (x y : nat) : x < w -> y < h -> cell (resize h w a) y x = Some (default zero (cell a y x)).
  Proof using Type.
    intros Hx Hy. unfold cell at 1. rewrite decide_True by (cbn; lia). change (a_w (resize h w a)) with w.
    rewrite resize_lookup by (by apply lin_lt). destruct (divmod_lin w x y Hx) as [-> ->]. done.
  Qed.
  Lemma cell_sized (h w : nat) (a : array) (x y : nat) : sized h w a -> x < w -> y < h -> cell a y x = a_data a !! (y * w + x).
  Proof using Type. intros (H1 & H2 & H3) Hx Hy. unfold cell. rewrite decide_True by lia. by rewrite H2. Qed.
  Lemma cell_some (h w : nat) (a : array) (x y : nat) : sized h w a -> x < w -> y < h -> is_Some (cell a y x).
  Proof using Type. intros H Hx Hy. rewrite (cell_sized h w) by done. apply lookup_lt_is_Some. destruct H as (_ & _ & ->). by apply lin_lt. Qed.
  Lemma resize_same (h w : nat) (a : array) : sized h w a -> resize h w a = a.
  Proof using Type.
    intros H. destruct a as [h0 w0 d]. destruct H as (H1 & H2 & H3). cbn in H1, H2, H3. subst h0 w0. unfold resize. f_equal.
    apply list_eq. intros n. destruct (decide (n < h * w)) as [Hn|Hn].
    - change (a_data (resize h w (Arr h w d)) !! n = d !! n). rewrite resize_lookup by done.
      destruct (lin_split w h n Hn) as (x & y & Hx & Hy & ->). destruct (divmod_lin w x y Hx) as [-> ->].
      rewrite (cell_sized h w) by done. cbn. destruct (lookup_lt_is_Some_2 d (y * w + x)) as [v ->]; [lia|]. done.
    - rewrite !lookup_ge_None_2; [done|lia|]. rewrite fmap_length, seq_length. lia.
  Qed.
  Lemma the_band_wf (g : grid) (k : string) (a : array) : wf g -> g_bands g !! k = Some a -> the_band g k = a.
  Proof using Type. intros H E. unfold the_band. rewrite E. cbn. apply resize_same. by apply (H k). Qed.
  Lemma wf_insert (g : grid) (k : string) (a : array) : wf g -> sized (g_h g) (g_w g) a -> wf (with_bands g (<[k := a]> (g_bands g))).
  Proof using Type.
    intros H Ha k' a' E. cbn in E |- *. destruct (decide (k = k')) as [->|Hne].
    - rewrite lookup_insert in E. injection E as <-. done.
    - rewrite lookup_insert_ne in E by done. by apply (H k').
  Qed.
  Lemma wf_grid_data (g : grid) (k : string) : wf g -> wf (grid_data g k).
  Proof using Type. intros H. apply wf_insert; [done|]. apply sized_resize. Qed.
  Lemma wf_new (w h : nat) (sx sy ox oy : Qc) (ty : nat) : wf (new_grid w h sx sy ox oy ty).
  Proof using Type. intros k a E. cbn in E. by rewrite lookup_empty in E. Qed.

  Lemma io_ok (w : nat) (start stride : Z) (src : list A) (ns : list nat) : forall mem,
    (forall n, n ∈ ns -> (0 <= io_index w start stride n < Z.of_nat (length mem))%Z /\ is_Some (src !! n)) ->
    NoDup (io_index w start stride <$> ns) ->
    exists mem', io w start stride src ns mem = Some mem' /\ length mem' = length mem /\
      (forall n, n ∈ ns -> mem' !! Z.to_nat (io_index w start stride n) = src !! n) /\
      (forall k, (forall n, n ∈ ns -> Z.to_nat (io_index w start stride n) <> k) -> mem' !! k = mem !! k).
  Proof using Type.
    induction ns as [|n ns IH]; intros mem Hin Hnd.
    - exists mem. split; [done|]. split; [done|]. split; [|done]. intros n Hn. by apply elem_of_nil in Hn.
    - destruct (Hin n) as [Hr [v Hv]]; [by left|]. rewrite fmap_cons in Hnd. apply NoDup_cons in Hnd. destruct Hnd as [Hni Hnd].
      cbn [io]. rewrite Hv, decide_True by done.
      destruct (IH (<[Z.to_nat (io_index w start stride n) := v]> mem)) as (mem' & E & L & H1 & H2); [|done|].
      { intros m Hm. rewrite insert_length. apply Hin. by right. }
      exists mem'. split; [done|]. split; [by rewrite L, insert_length|].
      assert (Hoff : forall m, m ∈ ns -> Z.to_nat (io_index w start stride m) <> Z.to_nat (io_index w start stride n)).
      { intros m Hm Heq. destruct (Hin m) as [Hr' _]; [by right|]. apply Hni. apply elem_of_list_fmap. exists m. split; [lia|done]. }
      split.
      + intros m Hm. apply elem_of_cons in Hm. destruct Hm as [->|Hm]; [|by apply H1].
        rewrite H2 by done. rewrite list_lookup_insert by lia. done.
      + intros k Hk. rewrite H2 by (intros m Hm; apply Hk; by right). apply list_lookup_insert_ne. apply Hk. by left.
  Qed.

  Lemma mirror_ok (w h : nat) (mem : list A) : length mem = (h + 1) * w ->
    exists mem', mirror w (seq 0 (h * w)) mem = Some mem' /\ length mem' = length mem /\ (forall n, n < h * w -> mem' !! n = mem !! mirror_from w n).
  Proof using Type.
    intros L.
    assert (G : forall m n cur, n + m = h * w -> length cur = length mem -> (forall k, n <= k -> cur !! k = mem !! k) ->
      (forall k, k < n -> cur !! k = mem !! mirror_from w k) ->
      exists mem', mirror w (seq n m) cur = Some mem' /\ length mem' = length mem /\ (forall k, k < h * w -> mem' !! k = mem !! mirror_from w k)).
    { induction m as [|m IH]; intros n cur Hn Hl Hge Hlt.
      - exists cur. split; [done|]. split; [done|]. intros k Hk. apply Hlt. lia.
      - cbn [seq mirror]. destruct (lin_split w h n) as (x & y & Hx & Hy & Hxy); [lia|].
        assert (Hm : mirror_from w n = (y + 1) * w + (w - 1 - x)).
        { unfold mirror_from. subst n. destruct (divmod_lin w x y Hx) as [-> ->]. done. }
        assert (n < mirror_from w n) by nia. assert (mirror_from w n < length mem) by nia.
        destruct (lookup_lt_is_Some_2 mem (mirror_from w n)) as [v Hv]; [done|].
        rewrite Hge by lia. rewrite Hv, decide_True by lia. apply (IH (S n)); [lia|by rewrite insert_length| |].
        + intros k Hk. rewrite list_lookup_insert_ne by lia. apply Hge. lia.
        + intros k Hk. destruct (decide (k = n)) as [->|Hne]; [by rewrite list_lookup_insert by lia|].
          rewrite list_lookup_insert_ne by done. apply Hlt. lia. }
    apply (G (h * w) 0 mem); [lia|done|done|lia].
  Qed.
  Lemma mirror_from_lin (w x y : nat) : x < w -> mirror_from w (y * w + x) = (y + 1) * w + (w - 1 - x).
  Proof using Type. intros Hx. unfold mirror_from. destruct (divmod_lin w x y Hx) as [-> ->]. done. Qed.

  (** where pixel [i] of a line of [w] goes *)
  Definition flip (neg : bool) (w i : nat) : nat := if neg then w - 1 - i else i.
  Lemma io_index_lin (w x y : nat) (start stride : Z) : x < w -> io_index w start stride (y * w + x) = (start + Z.of_nat y * stride + Z.of_nat x)%Z.
  Proof using Type. intros Hx. unfold io_index. destruct (divmod_lin w x y Hx) as [-> ->]. done. Qed.

  Lemma read_band_ok (xneg yneg : bool) (g : grid) (key : string) (b : rband) :
    rb_type b = g_type g -> g_w g <> 0 -> g_h g <> 0 -> length (rb_data b) = g_h g * g_w g ->
    exists a, read_band xneg yneg g key b = Ok (let g1 := with_bands g (<[key := a]> (g_bands g)) in
                                             match rb_nodata b with Some v => set_nodata g1 key v | None => g1 end) /\
      sized (g_h g) (g_w g) a /\
      forall x y, x < g_w g -> y < g_h g -> cell a (flip yneg (g_h g) y) (flip xneg (g_w g) x) = rb_data b !! (y * g_w g + x).
  Proof using Type.
    intros Ht Hw Hh Hl. unfold read_band. rewrite decide_True by done. rewrite decide_False by lia.
    set (w := g_w g) in *. set (h := g_h g) in *. set (a1 := if xneg then resize (h + 1) w (the_band g key) else the_band g key).
    set (start := (if xneg then w else 0) + (if yneg then w * (h - 1) else 0)). set (stride := if yneg then (- Z.of_nat w)%Z else Z.of_nat w).
    assert (La : length (a_data a1) = (if xneg then h + 1 else h) * w).
    { unfold a1. destruct xneg; [apply (sized_resize (h + 1) w)|apply (sized_resize h w)]. }
    assert (Hidx : forall x y, x < w -> y < h -> io_index w (Z.of_nat start) stride (y * w + x) = Z.of_nat ((if xneg then w else 0) + flip yneg h y * w + x)).
    { intros x y Hx Hy. rewrite io_index_lin by done. unfold start, stride, flip. destruct xneg, yneg; nia. }
    destruct (io_ok w (Z.of_nat start) stride (rb_data b) (seq 0 (h * w)) (a_data a1)) as (mem & Eio & Lio & Hio & _).
    { intros n Hn. apply elem_of_seq in Hn. destruct (lin_split w h n) as (x & y & Hx & Hy & ->); [lia|]. split.
      - rewrite Hidx, La by done. unfold flip. destruct xneg, yneg; nia.
      - apply lookup_lt_is_Some. rewrite Hl. by apply lin_lt. }
    { apply NoDup_fmap_2_strong; [|apply NoDup_seq]. intros n m Hn Hm Heq. apply elem_of_seq in Hn, Hm.
      destruct (lin_split w h n) as (x & y & Hx & Hy & ->); [lia|]. destruct (lin_split w h m) as (x' & y' & Hx' & Hy' & ->); [lia|].
      rewrite !Hidx in Heq by done. apply Nat2Z.inj in Heq.
      destruct (lin_inj w x (flip yneg h y) x' (flip yneg h y')) as [-> Hyy]; [done|done|lia|].
      assert (y = y') as ->; [|done]. unfold flip in Hyy. destruct yneg; lia. }
    assert (Hput : forall x y, x < w -> y < h -> mem !! ((if xneg then w else 0) + flip yneg h y * w + x) = rb_data b !! (y * w + x)).
    { intros x y Hx Hy. rewrite <- (Hio (y * w + x)); [|apply elem_of_seq; split; [lia|by apply lin_lt]]. rewrite Hidx by done. by rewrite Nat2Z.id. }
    rewrite Eio. destruct xneg.
    - destruct (mirror_ok w h mem) as (mem' & Em & Lm & Hm); [by rewrite Lio, La|]. rewrite Em.
      exists (resize h w (Arr (h + 1) w mem')). split; [done|]. split; [apply sized_resize|].
      intros x y Hx Hy. assert (Hf : flip yneg h y < h) by (unfold flip; destruct yneg; lia). assert (Hfx : flip true w x < w) by (unfold flip; lia).
      rewrite cell_resize by done.
      rewrite (cell_sized (h + 1) w); [|split; [done|]; split; [done|]; cbn; by rewrite Lm, Lio, La|done|lia]. cbn [a_data].
      rewrite Hm by (by apply lin_lt). rewrite mirror_from_lin by done.
      replace ((flip yneg h y + 1) * w + (w - 1 - flip true w x)) with (w + flip yneg h y * w + x) by (unfold flip; lia).
      rewrite Hput by done. destruct (lookup_lt_is_Some_2 (rb_data b) (y * w + x)) as [v ->]; [rewrite Hl; by apply lin_lt|]. done.
    - exists (Arr h w mem). assert (Hs : sized h w (Arr h w mem)) by (split; [done|]; split; [done|]; cbn; by rewrite Lio, La). split; [done|]. split; [done|].
      intros x y Hx Hy. assert (Hf : flip yneg h y < h) by (unfold flip; destruct yneg; lia).
      rewrite (cell_sized h w) by done. cbn [a_data]. rewrite <- Hput by done. done.
  Qed.
End Raster.
Arguments array : clear implicits.
Arguments grid : clear implicits.
Arguments raster : clear implicits.
Arguments rband : clear implicits.
