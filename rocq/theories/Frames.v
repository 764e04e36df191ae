(** Images copied to bands (C108): src/maps/Grids.hpp:77-98 and 101-113, Grids.cpp:34-48, Grid.hpp:476-484.

    An image of the camera is the list of its bytes; a distance image is its width, its height and its cells line by line; the model of bands is Raster.v. *)
From Coq Require Import ZArith QArith Qcanon String Lia.
From stdpp Require Import prelude strings gmap.
From Verif Require Import Base Raster RasterProps.

Section Frames.
  Context {A : Type} (zero : A).

  (** the loop of ImageRGB24::copyFromFrame, Grids.hpp:86-94: three pointers, each of which has to stay in its array; the last bytes must be complete *)
  Fixpoint spread (k : nat) (bytes : list A) (r g b : list A) : option (list A * list A * list A) :=
    match bytes with
    | [] => Some (r, g, b)
    | x :: y :: z :: rest =>
      if decide (k < length r /\ k < length g /\ k < length b) then spread (S k) rest (<[k := x]> r) (<[k := y]> g) (<[k := z]> b) else None
    | _ => None
    end.
  Definition put (g : grid A) (key : string) (d : list A) : grid A := with_bands g (<[key := Arr (g_h g) (g_w g) d]> (g_bands g)).
  (** ImageRGB24::copyFromFrame, Grids.hpp:77-97 *)
  Definition copy_from_frame (rgb : bool) (bytes : list A) (g : grid A) : out (grid A) (grid A) :=
    if rgb then
      let g := grid_data zero (grid_data zero (grid_data zero g "r") "g") "b" in
      match spread 0 bytes (a_data (the_band zero g "r")) (a_data (the_band zero g "g")) (a_data (the_band zero g "b")) with
      | Some (r, gr, b) => Ok (put (put (put g "r" r) "g" gr) "b" b)
      | None => Bad UB
      end
    else Bad Abort.

  (** the loops of DistanceGrid::copyFromDistanceImage, Grids.cpp:40-46, [n = y * cellSizeX + x] *)
  Fixpoint copy_cells (ns : list nat) (src d : list A) : option (list A) :=
    match ns with
    | [] => Some d
    | n :: ns => match src !! n with Some v => copy_cells ns src (<[n := v]> d) | None => None end
    end.
  Record image := Image { im_w : nat; im_h : nat; im_data : list A }.
  Definition copy_from_distance (im : image) (g : grid A) : out (grid A) (grid A) :=
    let g := grid_data zero g "distance" in
    match copy_cells (seq 0 (g_h g * g_w g)) (im_data im) (a_data (the_band zero g "distance")) with
    | Some d => Ok (put g "distance" d)
    | None => Bad UB
    end.
  (** convertToFrame, Grid.hpp:476-484: the cells as they lie in memory *)
  Definition to_frame (g : grid A) (key : string) : image := Image (g_w g) (g_h g) (a_data (the_band zero g key)).
End Frames.
Arguments image : clear implicits.

(** copyGridToGrid, Grids.hpp:101-113, with [conv] for the cast and the scale; [first]: the first name of getBands() of the source *)
Section Copy.
  Context {A B : Type} (za : A) (zb : B) (conv : A -> B).
  Fixpoint convert_cells (w1 w2 : nat) (cells : list (nat * nat)) (src : list A) (d : list B) : option (list B) :=
    match cells with
    | [] => Some d
    | (y, x) :: cells => match src !! (y * w1 + x) with
                         | Some v => convert_cells w1 w2 cells src (<[y * w2 + x := conv v]> d)
                         | None => None
                         end
    end.
  Definition box (h w : nat) : list (nat * nat) := y ← seq 0 h; (fun x => (y, x)) <$> seq 0 w.
  Definition copy_grid (first : string) (g1 : grid A) (g2 : grid B) : out (grid B) (grid B) :=
    let g1 := grid_data za g1 first in
    let g2 := grid_data zb g2 "elevation" in
    match convert_cells (g_w g1) (g_w g2) (box (g_h g1 `min` g_h g2) (g_w g1 `min` g_w g2)) (a_data (the_band za g1 first)) (a_data (the_band zb g2 "elevation")) with
    | Some d => Ok (put g2 "elevation" d)
    | None => Bad UB
    end.
End Copy.

Section Proofs.
  Context {A : Type} (zero : A).

  Lemma spread_ok (n : nat) : forall k (bytes r g b : list A), length bytes = 3 * n -> k + n <= length r -> length g = length r -> length b = length r ->
    exists r' g' b', spread k bytes r g b = Some (r', g', b') /\ length r' = length r /\ length g' = length r /\ length b' = length r /\
      forall m, (k <= m < k + n -> r' !! m = bytes !! (3 * (m - k)) /\ g' !! m = bytes !! (3 * (m - k) + 1) /\ b' !! m = bytes !! (3 * (m - k) + 2)) /\
                (~ k <= m < k + n -> r' !! m = r !! m /\ g' !! m = g !! m /\ b' !! m = b !! m).
  Proof using Type.
    induction n as [|n IH]; intros k bytes r g b Hb Hr Hg Hbl.
    - destruct bytes; [|cbn in Hb; lia]. exists r, g, b. do 4 (split; [done|]). intros m. split; [lia|done].
    - destruct bytes as [|x [|y [|z rest]]]; cbn in Hb; [lia|lia|lia|]. cbn [spread]. rewrite decide_True by lia.
      destruct (IH (S k) rest (<[k := x]> r) (<[k := y]> g) (<[k := z]> b)) as (r' & g' & b' & E & L1 & L2 & L3 & H); [lia|rewrite insert_length; lia|by rewrite !insert_length|by rewrite !insert_length|].
      rewrite insert_length in L1, L2, L3. exists r', g', b'. do 4 (split; [done|]). intros m. destruct (H m) as [H1 H2]. split.
      + intros Hm. destruct (decide (m = k)) as [->|Hne].
        * destruct H2 as (E1 & E2 & E3); [lia|]. rewrite E1, E2, E3, !list_lookup_insert by lia. rewrite Nat.sub_diag. done.
        * destruct H1 as (E1 & E2 & E3); [lia|]. rewrite E1, E2, E3. replace (3 * (m - k)) with (S (S (S (3 * (m - S k))))) by lia. done.
      + intros Hm. destruct H2 as (E1 & E2 & E3); [lia|]. rewrite E1, E2, E3. rewrite !list_lookup_insert_ne by lia. done.
  Qed.

  Lemma put_get (g : grid A) (key b : string) (d : list A) (x y : nat) : length d = g_h g * g_w g -> x < g_w g -> y < g_h g ->
    get_raster (put g key d) b x y = if bool_decide (key = b) then match d !! (y * g_w g + x) with Some v => Ok v | None => Bad UB end else get_raster g b x y.
  Proof using Type.
    intros Hd Hx Hy. unfold get_raster, put. cbn [g_bands with_bands]. destruct (decide (key = b)) as [<-|Hne].
    - rewrite lookup_insert, bool_decide_eq_true_2 by done. rewrite (cell_sized (g_h g) (g_w g)) by done. done.
    - rewrite lookup_insert_ne by done. by rewrite bool_decide_eq_false_2.
  Qed.
  Lemma band_get (g : grid A) (k : string) (x y : nat) : wf g -> has_band g k = true -> x < g_w g -> y < g_h g ->
    get_raster g k x y = match a_data (the_band zero g k) !! (y * g_w g + x) with Some v => Ok v | None => Bad UB end.
  Proof using Type.
    intros Hwf Hk Hx Hy. apply bool_decide_eq_true in Hk. destruct Hk as [a Ha]. rewrite (the_band_wf zero g k a) by done. unfold get_raster. rewrite Ha.
    rewrite (cell_sized (g_h g) (g_w g)); [done|by apply (Hwf k)|done|done].
  Qed.
  Lemma band_length (g : grid A) (k : string) : length (a_data (the_band zero g k)) = g_h g * g_w g.
  Proof using Type. apply (sized_resize zero (g_h g) (g_w g)). Qed.
  (** what a cell holds: zero for a band that does not exist *)
  Definition value (g : grid A) (b : string) (x y : nat) : out unit A := if has_band g b then get_raster g b x y else Ok zero.

  (** C108: pixel [(x, y)] of an image as wide as the grid is found in cell [(x, y)]; lines that the image does not have, and other bands, keep their values *)
  Theorem C108_frame (g : grid A) (bytes : list A) (lines : nat) :
    wf g -> lines <= g_h g -> length bytes = 3 * (lines * g_w g) ->
    exists g', copy_from_frame zero true bytes g = Ok g' /\ g_w g' = g_w g /\ g_h g' = g_h g /\
      (forall b, has_band g' b = has_band g b || bool_decide (b ∈ ["r"; "g"; "b"])) /\
      (forall c b x y v, [("r", 0); ("g", 1); ("b", 2)] !! c = Some (b, c) -> x < g_w g -> y < lines ->
        bytes !! (3 * (y * g_w g + x) + c) = Some v -> get_raster g' b x y = Ok v) /\
      (forall b x y, b ∉ ["r"; "g"; "b"] \/ lines <= y -> has_band g' b = true -> x < g_w g -> y < g_h g -> get_raster g' b x y = value g b x y).
  Proof using Type.
    intros Hwf Hlines Hl. unfold copy_from_frame. cbv zeta. set (g1 := grid_data zero (grid_data zero (grid_data zero g "r") "g") "b").
    assert (Hwf1 : wf g1) by (by repeat apply wf_grid_data).
    assert (Hhas : forall b, has_band g1 b = has_band g b || bool_decide (b ∈ ["r"; "g"; "b"])).
    { intros b. unfold g1. rewrite !has_grid_data. destruct (has_band g b); [by rewrite !orb_true_r|]. rewrite !orb_false_r. cbn [orb].
      rewrite <- !bool_decide_or. apply bool_decide_ext. rewrite !elem_of_cons, elem_of_nil. naive_solver. }
    assert (Hval : forall b x y, x < g_w g -> y < g_h g -> has_band g1 b = true -> get_raster g1 b x y = value g b x y).
    { intros b x y Hx Hy Hb. unfold g1. rewrite !get_grid_data by (done || by repeat apply wf_grid_data). rewrite !has_grid_data. unfold value. rewrite Hhas in Hb.
      destruct (has_band g b); cbn [orb negb andb]; [by rewrite !orb_true_r, !andb_false_r|]. rewrite !orb_false_r. cbn [orb] in Hb. apply bool_decide_eq_true in Hb.
      rewrite !elem_of_cons, elem_of_nil in Hb. destruct Hb as [->|[->|[->|[]]]]; done. }
    destruct (spread_ok (lines * g_w g) 0 bytes (a_data (the_band zero g1 "r")) (a_data (the_band zero g1 "g")) (a_data (the_band zero g1 "b"))) as (r & gr & b & E & L1 & L2 & L3 & H);
      [done|rewrite band_length; change (lines * g_w g <= g_h g * g_w g); nia|by rewrite !band_length|by rewrite !band_length|].
    rewrite E. rewrite band_length in L1, L2, L3. change (g_h g1 * g_w g1) with (g_h g * g_w g) in *. eexists. split; [reflexivity|]. split; [done|]. split; [done|].
    set (g2 := put (put (put g1 "r" r) "g" gr) "b" b).
    assert (Hs : forall k, k ∈ ["r"; "g"; "b"] -> is_Some (g_bands g1 !! k)).
    { intros k Hk. pose proof (Hhas k) as Hb. rewrite (bool_decide_eq_true_2 (k ∈ _)) in Hb by done. rewrite orb_true_r in Hb. by apply bool_decide_eq_true in Hb. }
    assert (Hh2 : forall k, has_band g2 k = has_band g1 k).
    { intros k. unfold g2, put, has_band. cbn [g_bands with_bands]. apply bool_decide_ext.
      destruct (decide (k = "b")) as [->|]; [rewrite lookup_insert; split; [|by eexists]; intros _; apply Hs; by apply (bool_decide_unpack _)|]. rewrite lookup_insert_ne by done.
      destruct (decide (k = "g")) as [->|]; [rewrite lookup_insert; split; [|by eexists]; intros _; apply Hs; by apply (bool_decide_unpack _)|]. rewrite lookup_insert_ne by done.
      destruct (decide (k = "r")) as [->|]; [rewrite lookup_insert; split; [|by eexists]; intros _; apply Hs; by apply (bool_decide_unpack _)|]. by rewrite lookup_insert_ne by done. }
    assert (Hget : forall k x y, x < g_w g -> y < g_h g -> get_raster g2 k x y =
      if bool_decide ("b" = k) then match b !! (y * g_w g + x) with Some v => Ok v | None => Bad UB end else
      if bool_decide ("g" = k) then match gr !! (y * g_w g + x) with Some v => Ok v | None => Bad UB end else
      if bool_decide ("r" = k) then match r !! (y * g_w g + x) with Some v => Ok v | None => Bad UB end else get_raster g1 k x y).
    { intros k x y Hx Hy. unfold g2. rewrite !put_get by done. done. }
    split; [intros k; rewrite Hh2; apply Hhas|]. split.
    - intros c k x y v Hc Hx Hy Hv. assert (Hn : 0 <= y * g_w g + x < 0 + lines * g_w g) by (split; [lia|by apply lin_lt]).
      destruct (H (y * g_w g + x)) as [H1 _]. destruct (H1 Hn) as (E1 & E2 & E3). rewrite Nat.sub_0_r in E1, E2, E3.
      rewrite Hget by (done || lia).
      destruct c as [|[|[|c]]]; cbn in Hc; [| | |by destruct c]; injection Hc as <-.
      + rewrite Nat.add_0_r in Hv. change (bool_decide ("b" = "r")) with false. change (bool_decide ("g" = "r")) with false. change (bool_decide ("r" = "r")) with true. cbn iota. by rewrite E1, Hv.
      + change (bool_decide ("b" = "g")) with false. change (bool_decide ("g" = "g")) with true. cbn iota. by rewrite E2, Hv.
      + change (bool_decide ("b" = "b")) with true. cbn iota. by rewrite E3, Hv.
    - intros k x y Hor Hk Hx Hy. rewrite Hh2 in Hk. rewrite <- Hval by done. rewrite Hget by done.
      assert (Hcase : forall (l : list A) key, key = k -> key ∈ ["r"; "g"; "b"] -> (lines <= y -> l !! (y * g_w g + x) = a_data (the_band zero g1 key) !! (y * g_w g + x)) ->
        match l !! (y * g_w g + x) with Some v => Ok v | None => Bad UB end = get_raster g1 k x y).
      { intros l key -> Hin Hl'. destruct Hor as [Hor|Hor]; [done|]. rewrite Hl' by done. symmetry. exact (band_get g1 k x y Hwf1 Hk Hx Hy). }
      destruct (H (y * g_w g + x)) as [_ H2].
      assert (H2' : lines <= y -> r !! (y * g_w g + x) = a_data (the_band zero g1 "r") !! (y * g_w g + x) /\ gr !! (y * g_w g + x) = a_data (the_band zero g1 "g") !! (y * g_w g + x) /\ b !! (y * g_w g + x) = a_data (the_band zero g1 "b") !! (y * g_w g + x)).
      { intros Hly. apply H2. nia. }
      clear H2. case_bool_decide as B1; [apply (Hcase b "b"); [done|by apply (bool_decide_unpack _)|apply H2']|]. case_bool_decide as B2; [apply (Hcase gr "g"); [done|by apply (bool_decide_unpack _)|apply H2']|].
      case_bool_decide as B3; [apply (Hcase r "r"); [done|by apply (bool_decide_unpack _)|apply H2']|done].
  Qed.

  Lemma copy_cells_ok (ns : list nat) (src : list A) : forall d, (forall n, n ∈ ns -> n < length src /\ n < length d) ->
    exists d', copy_cells ns src d = Some d' /\ length d' = length d /\ forall n, d' !! n = if bool_decide (n ∈ ns) then src !! n else d !! n.
  Proof using Type.
    induction ns as [|n ns IH]; intros d H.
    - exists d. do 2 (split; [done|]). intros n. by rewrite bool_decide_eq_false_2 by (by apply not_elem_of_nil).
    - cbn [copy_cells]. destruct (H n) as [H1 H2]; [by left|]. destruct (lookup_lt_is_Some_2 src n H1) as [v Hv]. rewrite Hv.
      destruct (IH (<[n := v]> d)) as (d' & E & L & F). { intros m Hm. rewrite insert_length. apply H. by right. }
      exists d'. split; [done|]. rewrite insert_length in L. split; [done|]. intros m. rewrite F.
      destruct (decide (m ∈ ns)) as [Hin|Hin].
      + rewrite !bool_decide_eq_true_2; [done|by right|done].
      + rewrite (bool_decide_eq_false_2 (m ∈ ns)) by done. destruct (decide (n = m)) as [->|Hne].
        * rewrite list_lookup_insert by done. rewrite bool_decide_eq_true_2 by (by left). done.
        * rewrite list_lookup_insert_ne by done. rewrite bool_decide_eq_false_2; [done|]. rewrite elem_of_cons. intros [?|?]; congruence.
  Qed.
  Theorem C108_distance (g : grid A) (im : image A) :
    wf g -> im_w im = g_w g -> im_h im = g_h g -> length (im_data im) = im_h im * im_w im ->
    exists g', copy_from_distance zero im g = Ok g' /\ g_w g' = g_w g /\ g_h g' = g_h g /\
      forall b x y, x < g_w g -> y < g_h g -> 
        (forall v, b = "distance" -> im_data im !! (y * im_w im + x) = Some v -> get_raster g' b x y = Ok v) /\
        (b <> "distance" -> get_raster g' b x y = get_raster g b x y).
  Proof using Type.
    intros Hwf Hw Hh Hl. unfold copy_from_distance. cbv zeta. set (g1 := grid_data zero g "distance").
    change (g_h g1) with (g_h g). change (g_w g1) with (g_w g).
    destruct (copy_cells_ok (seq 0 (g_h g * g_w g)) (im_data im) (a_data (the_band zero g1 "distance"))) as (d & E & L & F).
    { intros n Hn. apply elem_of_seq in Hn. rewrite Hl, Hw, Hh, band_length. change (g_h g1 * g_w g1) with (g_h g * g_w g). lia. }
    rewrite E. eexists. split; [reflexivity|]. split; [done|]. split; [done|]. rewrite band_length in L.
    intros b x y Hx Hy. rewrite put_get by done. split.
    - intros v -> Hv. rewrite bool_decide_eq_true_2 by done. change (g_w g1) with (g_w g). rewrite F, bool_decide_eq_true_2.
      + rewrite <- Hw. by rewrite Hv.
      + apply elem_of_seq. split; [lia|]. by apply lin_lt.
    - intros Hne. rewrite bool_decide_eq_false_2 by done. unfold g1. rewrite get_grid_data by done. by rewrite bool_decide_eq_false_2 by done.
  Qed.
  (** the image of a band shows its cells; copied to a band of a grid of the same size, it gives the same cells *)
  Theorem C108_to_frame (g : grid A) (k : string) : wf g -> has_band g k = true ->
    im_w (to_frame zero g k) = g_w g /\ im_h (to_frame zero g k) = g_h g /\
    forall x y v, x < g_w g -> y < g_h g -> get_raster g k x y = Ok v -> im_data (to_frame zero g k) !! (y * g_w g + x) = Some v.
  Proof using Type.
    intros Hwf Hk. split; [done|]. split; [done|]. intros x y v Hx Hy Hv. rewrite band_get in Hv by done. cbn [to_frame im_data].
    destruct (a_data (the_band zero g k) !! _); [by injection Hv as ->|done].
  Qed.
End Proofs.

Section CopyProofs.
  Context {A B : Type} (za : A) (zb : B) (conv : A -> B).
  Lemma convert_ok (w1 w2 : nat) (cells : list (nat * nat)) (src : list A) : forall d : list B,
    (forall y x, (y, x) ∈ cells -> x < w1 /\ x < w2 /\ y * w1 + x < length src /\ y * w2 + x < length d) ->
    exists d', convert_cells conv w1 w2 cells src d = Some d' /\ length d' = length d /\
      forall y x, x < w2 -> d' !! (y * w2 + x) = if bool_decide ((y, x) ∈ cells) then conv <$> src !! (y * w1 + x) else d !! (y * w2 + x).
  Proof using Type.
    induction cells as [|[y0 x0] cells IH]; intros d H.
    - exists d. do 2 (split; [done|]). intros y x Hx. by rewrite bool_decide_eq_false_2 by (by apply not_elem_of_nil).
    - cbn [convert_cells]. destruct (H y0 x0) as (H1 & H2 & H3 & H4); [by left|]. destruct (lookup_lt_is_Some_2 src _ H3) as [v Hv]. rewrite Hv.
      destruct (IH (<[y0 * w2 + x0 := conv v]> d)) as (d' & E & L & F). { intros y x Hm. rewrite insert_length. apply H. by right. }
      exists d'. split; [done|]. rewrite insert_length in L. split; [done|]. intros y x Hx. rewrite F by done.
      destruct (decide ((y, x) ∈ cells)) as [Hin|Hin].
      + rewrite !bool_decide_eq_true_2; [done|by right|done].
      + rewrite (bool_decide_eq_false_2 ((y, x) ∈ cells)) by done. destruct (decide ((y0, x0) = (y, x))) as [Heq|Hne].
        * injection Heq as -> ->. rewrite list_lookup_insert by done. rewrite bool_decide_eq_true_2 by (by left). by rewrite Hv.
        * rewrite list_lookup_insert_ne. 2: { intros Heq. apply Hne. destruct (lin_inj w2 x0 y0 x y) as [-> ->]; done. }
          rewrite bool_decide_eq_false_2; [done|]. rewrite elem_of_cons. intros [?|?]; congruence.
  Qed.
  Lemma box_spec (h w y x : nat) : (y, x) ∈ box h w <-> y < h /\ x < w.
  Proof using Type.
    unfold box. rewrite elem_of_list_bind. split.
    - intros (y' & H & Hy). apply elem_of_list_fmap in H. destruct H as (x' & E & Hx). injection E as -> ->. apply elem_of_seq in Hx, Hy. lia.
    - intros [Hy Hx]. exists y. split; [apply elem_of_list_fmap; exists x; split; [done|apply elem_of_seq; lia]|apply elem_of_seq; lia].
  Qed.
  (** C108: the common part of two grids is converted, the rest keeps its values *)
  Theorem C108_grid (first : string) (g1 : grid A) (g2 : grid B) : wf g1 -> wf g2 -> has_band g1 first = true ->
    exists g', copy_grid za zb conv first g1 g2 = Ok g' /\ g_w g' = g_w g2 /\ g_h g' = g_h g2 /\
      forall b x y, x < g_w g2 -> y < g_h g2 ->
        get_raster g' b x y =
          if bool_decide (b = "elevation") then
            if decide (x < g_w g1 /\ y < g_h g1) then match get_raster g1 first x y with Ok v => Ok (conv v) | o => Bad UB end
            else value zb g2 b x y
          else get_raster g2 b x y.
  Proof using Type.
    intros Hwf1 Hwf2 Hf. unfold copy_grid. cbv zeta. rewrite grid_data_id by done. set (e := grid_data zb g2 "elevation").
    change (g_w e) with (g_w g2). change (g_h e) with (g_h g2).
    destruct (convert_ok (g_w g1) (g_w g2) (box (g_h g1 `min` g_h g2) (g_w g1 `min` g_w g2)) (a_data (the_band za g1 first)) (a_data (the_band zb e "elevation"))) as (d & E & L & F).
    { intros y x Hin. apply box_spec in Hin. rewrite !band_length. change (g_h e * g_w e) with (g_h g2 * g_w g2). split; [lia|]. split; [lia|]. split; apply lin_lt; lia. }
    rewrite E. eexists. split; [reflexivity|]. split; [done|]. split; [done|]. rewrite band_length in L. intros b x y Hx Hy. rewrite put_get by done.
    change (g_w e) with (g_w g2). destruct (decide (b = "elevation")) as [->|Hne].
    - rewrite !bool_decide_eq_true_2 by done. rewrite F by done. case_decide as Hin.
      + rewrite bool_decide_eq_true_2 by (apply box_spec; lia). rewrite (band_get za g1) by (done || lia). by destruct (a_data (the_band za g1 first) !! _).
      + rewrite bool_decide_eq_false_2 by (rewrite box_spec; lia).
        assert (He : has_band e "elevation" = true) by (unfold e; rewrite has_grid_data; done).
        transitivity (get_raster e "elevation" x y); [symmetry; apply (band_get zb e); [by apply wf_grid_data|done|done|done]|].
        unfold e. rewrite get_grid_data by done. unfold value. change (bool_decide ("elevation" = "elevation")) with true. cbn [andb]. by destruct (has_band g2 "elevation").
    - rewrite (bool_decide_eq_false_2 (b = "elevation")) by done. rewrite (bool_decide_eq_false_2 ("elevation" = b)) by done.
      unfold e. rewrite get_grid_data by done. by rewrite (bool_decide_eq_false_2 ("elevation" = b)) by done.
  Qed.
End CopyProofs.

(** ** Examples and limits *)
Example C108_nonvacuous : exists g g', wf g /\ copy_from_frame 0 true [1; 2; 3; 4; 5; 6] g = Ok g' /\ g_w g = 2 /\ g_h g = 2 /\
  get_raster g' "g" 1 0 = Ok 5 /\ get_raster g' "r" 0 0 = Ok 1 /\ get_raster g' "b" 1 1 = Ok 0.
Proof. exists (new_grid 2 2 1 1 0 0 0). eexists. split; [apply wf_new|]. split; [vm_compute; reflexivity|]. done. Qed.
(** an image larger than the grid is written past the end of the arrays *)
Theorem C108_large_refuted : exists (g : grid nat) bytes, wf g /\ copy_from_frame 0 true bytes g = Bad UB.
Proof. exists (new_grid 1 1 1 1 0 0 0), [1; 2; 3; 4; 5; 6]. split; [apply wf_new|]. done. Qed.
(** an image as large as the grid but not as wide is mixed up; one with fewer cells is read past its end *)
Theorem C108_width_refuted : exists (g g' : grid nat) im im', wf g /\ length (im_data im) = im_h im * im_w im /\ copy_from_distance 0 im g = Ok g' /\
  1 < im_h im /\ 1 < g_h g /\ im_data im !! (1 * im_w im + 0) = Some 4 /\ get_raster g' "distance" 0 1 = Ok 3 /\
  length (im_data im') = im_h im' * im_w im' /\ copy_from_distance 0 im' g = Bad UB.
Proof.
  exists (new_grid 2 3 1 1 0 0 0). eexists. exists (Image 3 2 [1; 2; 3; 4; 5; 6]), (Image 1 1 [1]). split; [apply wf_new|]. split; [done|]. split; [vm_compute; reflexivity|]. do 2 (split; [cbn; lia|]). done.
Qed.
