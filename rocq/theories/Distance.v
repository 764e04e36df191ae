(** Point clouds from distance images, and the thinning of point clouds.  C118, C119.
    src/operators/DistanceGridToPointcloud.cpp, src/operators/SimplifyPointcloud.cpp

    Simplifications: as in Cloud.v, coordinates are rational numbers and the transform between the frames is a parameter (the identity where the code
    skips it). The functions of the library CGAL are parameters with what its manual says about them as hypotheses. *)
From stdpp Require Import prelude.
From Coq Require Import Sorting.Sorted ZArith QArith Qcanon Field.
From Coq Require Import Lqa.
From Verif Require Import Base GridModel GridProps Transform Cloud.
Local Open Scope Z_scope.

(** * C118: distance images *)
(** ** Model *)
(** a value of the band of distances, as [isnormal] sees it (line 66): a normal number, which is not zero, or something else (zero, a subnormal number, NaN, infinite) *)
Inductive reading := Normal (d : Qc) | Other.
(** Grids.hpp:80-99; the pixels are those of the three bands *)
Record image := Image { i_width : Z; i_height : Z; i_pixel : pos -> Z * Z * Z }.
(** an input of the operator *)
Inductive input := IDistance (g : geo) (d : pos -> reading) | IImage (i : image) | IOther.
(** lines 22-37: the last of each kind *)
Fixpoint last_distance (l : list input) (r : option (geo * (pos -> reading))) : option (geo * (pos -> reading)) :=
  match l with [] => r | IDistance g d :: l => last_distance l (Some (g, d)) | _ :: l => last_distance l r end.
Fixpoint last_image (l : list input) (r : option image) : option image :=
  match l with [] => r | IImage i :: l => last_image l (Some i) | _ :: l => last_image l r end.
Definition qltb (x y : Qc) : bool := if Qclt_le_dec x y then true else false.
Definition in_image (i : image) (p : pos) : bool := (0 <=? p.1) && (p.1 <? i_width i) && (0 <=? p.2) && (p.2 <? i_height i).
(** lines 86-88 *)
Definition color_of (c : Z * Z * Z) : vec := let f := Q2Qc (1 # 255) in Vec (Q2Qc (inject_Z c.1.1) * f)%Qc (Q2Qc (inject_Z c.1.2) * f)%Qc (Q2Qc (inject_Z c.2) * f)%Qc.
(** lines 65-91, one cell; a pixel outside the image is undefined *)
Definition add_cell (T : aff) (g : geo) (dist : pos -> reading) (img : option image) (max_distance factor : Qc) (p : pos) (t : cloud) : out cloud cloud :=
  match dist p with
  | Other => Ok t
  | Normal d =>
    if qltb d max_distance then
      let r := Vec (Q2Qc (fst (from_grid g p.1 p.2)) * d)%Qc (Q2Qc (snd (from_grid g p.1 p.2)) * d)%Qc (1 * d)%Qc in
      let t := set_verts (verts t ++ [aapp T r]) t in
      let t := set_vars (push (d * factor)%Qc (vars t)) t in
      match img with
      | None => Ok t
      | Some i => if in_image i p then Ok (set_colors (push (color_of (i_pixel i p)) (colors t)) t) else Bad UB
      end
    else Ok t
  end.
Fixpoint add_cells (T : aff) (g : geo) (dist : pos -> reading) (img : option image) (max_distance factor : Qc) (ps : list pos) (t : cloud) : out cloud cloud :=
  match ps with [] => Ok t | p :: ps => t <~ add_cell T g dist img max_distance factor p t ;; add_cells T g dist img max_distance factor ps t end.
(** lines 60-62: columns, and rows in each of them *)
Definition columns (g : geo) : list pos := x ← seqZ 0 (g_nx g); (fun y => (x, y)) <$> seqZ 0 (g_ny g).
(** lines 12-98, updateAll; [T] is the transform from the frame of the grid to that of the cloud. Without a distance image a null pointer is used (line 39). *)
Definition from_distance (T : aff) (ins : list input) (max_distance factor : Qc) (t : cloud) : out cloud cloud :=
  let img := last_image ins None in
  match last_distance ins None with
  | None => Bad UB
  | Some (g, dist) =>
    let t := set_vars (Some (default [] (vars t))) t in
    let t := set_colors (create img (colors t)) t in
    add_cells T g dist img max_distance factor (columns g) (clear t)
  end.

(** ** Specification *)
(** the cell has a distance, which is below the limit *)
Definition measured (dist : pos -> reading) (max_distance : Qc) (p : pos) : Prop := exists d, dist p = Normal d /\ (d < max_distance)%Qc.
(** the order of the cells: by column, then by row *)
Definition before (p q : pos) : Prop := p.1 < q.1 \/ p.1 = q.1 /\ p.2 < q.2.
(** [v] is the point at the distance [d] (measured along the axis) on the ray through the centre of the cell [p] of the image plane at distance 1 *)
Definition on_ray (g : geo) (p : pos) (d : Qc) (v : vec) : Prop := vz v = d /\ vx v = (Q2Qc (fst (from_grid g p.1 p.2)) * d)%Qc /\ vy v = (Q2Qc (snd (from_grid g p.1 p.2)) * d)%Qc.
(** a pixel as a colour from 0 to 1 *)
Definition is_color (c : Z * Z * Z) (v : vec) : Prop :=
  (vx v * Q2Qc 255 = Q2Qc (inject_Z c.1.1))%Qc /\ (vy v * Q2Qc 255 = Q2Qc (inject_Z c.1.2))%Qc /\ (vz v * Q2Qc 255 = Q2Qc (inject_Z c.2))%Qc.

(** ** Proof *)
Lemma qltb_spec x y : qltb x y = true <-> (x < y)%Qc.
Proof. unfold qltb. destruct (Qclt_le_dec x y) as [H|H]; split; try done. intros H2. exfalso. apply (Qcle_not_lt _ _ H H2). Qed.
Lemma columns_elem g p : p ∈ columns g <-> a_cell g p.1 p.2.
Proof.
  unfold columns, a_cell. rewrite elem_of_list_bind. split.
  - intros (x&Hp&Hx). apply elem_of_list_fmap in Hp as (y&->&Hy). apply elem_of_seqZ in Hx, Hy. cbn. lia.
  - destruct p as [x y]. cbn. intros [Hx Hy]. exists x. split; [|apply elem_of_seqZ; lia]. apply elem_of_list_fmap. exists y. split; [done|]. apply elem_of_seqZ. lia.
Qed.
Lemma sorted_app {A} (R : A -> A -> Prop) l1 l2 : StronglySorted R l1 -> StronglySorted R l2 -> (forall x y, x ∈ l1 -> y ∈ l2 -> R x y) -> StronglySorted R (l1 ++ l2).
Proof.
  intros H1 H2 H. induction H1 as [|a l1 H1 IH Ha]; [done|]. cbn. constructor.
  - apply IH. intros x y Hx Hy. apply H; [by right|done].
  - apply Forall_app. split; [done|]. apply Forall_forall. intros y Hy. apply H; [by left|done].
Qed.
Lemma columns_sorted g : StronglySorted before (columns g).
Proof.
  unfold columns. assert (K : forall n a, StronglySorted before (x ← seqZ a (Z.of_nat n); (fun y => (x, y)) <$> seqZ 0 (g_ny g))).
  { induction n as [|n IH]; intros a; [constructor|]. rewrite (seqZ_cons a (Z.of_nat (S n))) by lia. replace (Z.pred (Z.of_nat (S n))) with (Z.of_nat n) by lia. cbn [mbind list_bind].
    apply sorted_app; [|apply IH|].
    - assert (C : forall k b, StronglySorted before ((fun y => (a, y)) <$> seqZ b (Z.of_nat k))).
      { induction k as [|k IHk]; intros b; [constructor|]. rewrite (seqZ_cons b (Z.of_nat (S k))) by lia. replace (Z.pred (Z.of_nat (S k))) with (Z.of_nat k) by lia. cbn [fmap list_fmap].
        constructor; [apply IHk|]. apply Forall_fmap, Forall_forall. intros y Hy. apply elem_of_seqZ in Hy. right. cbn. lia. }
      destruct (decide (0 <= g_ny g)); [rewrite <-(Z2Nat.id (g_ny g)) by done; apply C|]. rewrite (seqZ_nil 0 (g_ny g)) by lia. constructor.
    - intros p q Hp Hq. apply elem_of_list_fmap in Hp as (y&->&_). apply elem_of_list_bind in Hq as (x&Hq&Hx). apply elem_of_list_fmap in Hq as (y'&->&_). apply elem_of_seqZ in Hx. left. cbn. lia. }
  destruct (decide (0 <= g_nx g)); [rewrite <-(Z2Nat.id (g_nx g)) by done; apply K|]. rewrite (seqZ_nil 0 (g_nx g)) by lia. constructor.
Qed.
Global Instance measured_dec dist m p : Decision (measured dist m p).
Proof.
  unfold measured. destruct (dist p) as [d|]; [|right; by intros (d&?&_)]. destruct (Qclt_le_dec d m) as [H|H]; [left; by exists d|].
  right. intros (d'&E&H'). injection E as <-. apply (Qcle_not_lt _ _ H H').
Qed.
Lemma filter_sorted {A} (R : A -> A -> Prop) P `{forall x, Decision (P x)} l : StronglySorted R l -> StronglySorted R (filter P l).
Proof.
  induction 1 as [|a l _ IH Ha]; [constructor|]. rewrite filter_cons. destruct (decide (P a)); [|done]. constructor; [done|].
  apply Forall_forall. intros x Hx. apply elem_of_list_filter in Hx as [_ Hx]. by apply (proj1 (Forall_forall _ _) Ha).
Qed.
(** the three lists that are written, for the cells [ps] *)
Definition grown (T : aff) (g : geo) (dist : pos -> reading) (img : option image) (factor : Qc) (ps : list pos) (t t' : cloud) : Prop :=
  exists vs us cs, verts t' = verts t ++ vs /\ vars t' = Some (default [] (vars t) ++ us) /\ normals t' = normals t /\ attrs t' = attrs t /\
    colors t' = match img with Some _ => Some (default [] (colors t) ++ cs) | None => colors t end /\
    Forall2 (fun p v => exists d r, dist p = Normal d /\ on_ray g p d r /\ v = aapp T r) ps vs /\
    Forall2 (fun p u => exists d, dist p = Normal d /\ u = (d * factor)%Qc) ps us /\
    match img with Some i => Forall2 (fun p c => is_color (i_pixel i p) c) ps cs | None => True end.
Lemma color_of_is c : is_color c (color_of c).
Proof.
  assert (K : forall x, (x * Q2Qc (1 # 255) * Q2Qc 255)%Qc = x). { intros x. rewrite <-Qcmult_assoc. replace (Q2Qc (1 # 255) * Q2Qc 255)%Qc with 1%Qc by (by apply Qc_is_canon). ring. }
  unfold is_color, color_of. cbn. by rewrite !K.
Qed.
Lemma add_cells_ok T g dist img m factor ps t : (forall i p, img = Some i -> p ∈ ps -> measured dist m p -> in_image i p = true) -> is_Some (vars t) -> (is_Some img -> is_Some (colors t)) ->
  exists t', add_cells T g dist img m factor ps t = Ok t' /\ grown T g dist img factor (filter (measured dist m) ps) t t'.
Proof.
  revert t. induction ps as [|p ps IH]; intros t Hi Hv Hc.
  { exists t. split; [done|]. exists [], [], []. rewrite !app_nil_r. destruct Hv as [u Hv]. rewrite Hv. destruct img as [i|]; [destruct (Hc ltac:(eauto)) as [c Hc']; rewrite Hc'|]; cbn; rewrite ?app_nil_r; repeat split; constructor. }
  cbn [add_cells]. rewrite filter_cons. destruct (decide (measured dist m p)) as [Hm|Hm].
  - unfold add_cell at 1. destruct Hm as (d&Hd&Hlt). rewrite Hd, (proj2 (qltb_spec _ _) Hlt). cbv zeta.
    set (r := Vec _ _ (1 * d)%Qc). assert (Hr : on_ray g p d r). { split; [apply Qcmult_1_l|done]. }
    assert (Hp : forall i, img = Some i -> in_image i p = true). { intros i Ei. apply (Hi i p Ei); [by left|]. by exists d. }
    set (t1 := set_verts _ t). set (t2 := set_vars _ t1).
    destruct img as [i|].
    + rewrite (Hp i eq_refl). cbn [obind]. set (t3 := set_colors _ t2).
      destruct (IH t3) as (t'&E&vs&us&cs&H1&H2&H3&H4&H5&H6&H7&H8); [intros i' q Ei Hq; apply Hi; [done|by right]|by eexists|intros _; by eexists|].
      exists t'. split; [exact E|]. exists (aapp T r :: vs), ((d * factor)%Qc :: us), (color_of (i_pixel i p) :: cs).
      split; [rewrite H1; cbn; by rewrite <-app_assoc|]. split; [rewrite H2; cbn; by rewrite <-app_assoc|]. split; [done|]. split; [done|]. split; [rewrite H5; cbn; by rewrite <-app_assoc|].
      split; [constructor; [by exists d, r|done]|]. split; [constructor; [by exists d|done]|]. constructor; [apply color_of_is|done].
    + cbn [obind]. destruct (IH t2) as (t'&E&vs&us&cs&H1&H2&H3&H4&H5&H6&H7&_); [done|by eexists|by intros [? ?]|].
      exists t'. split; [exact E|]. exists (aapp T r :: vs), ((d * factor)%Qc :: us), [].
      split; [rewrite H1; cbn; by rewrite <-app_assoc|]. split; [rewrite H2; cbn; by rewrite <-app_assoc|]. split; [done|]. split; [done|]. split; [by rewrite H5|].
      split; [constructor; [by exists d, r|done]|]. split; [constructor; [by exists d|done]|done].
  - assert (E : add_cell T g dist img m factor p t = Ok t).
    { unfold add_cell. destruct (dist p) as [d|] eqn:Ed; [|done]. destruct (qltb d m) eqn:El; [|done]. exfalso. apply Hm. exists d. split; [done|by apply qltb_spec]. }
    rewrite E. cbn [obind]. apply IH; [|done|done]. intros i q Ei Hq. apply Hi; [done|by right].
Qed.
(** what the operator uses: the last inputs *)
Lemma last_distance_app l g d l' r : Forall (fun i => match i with IDistance _ _ => False | _ => True end) l' -> last_distance (l ++ IDistance g d :: l') r = Some (g, d).
Proof.
  intros H. revert r. induction l as [|[] l IH]; intros r; cbn; try apply IH. clear -H. revert H. generalize (Some (g, d)) as r'. induction l' as [|i l' IH]; intros r' H; [done|]. apply Forall_cons in H as [Hi H]. destruct i; [done|by apply IH..].
Qed.

(** ** Theorems *)
(** With a distance image [g], [dist] (the last one of the inputs) and, if there is an image, one that covers it, the cloud consists of one vertex for each cell
    with a normal distance below the limit, in the order of columns: the point at this distance on the ray through the cell's centre, transformed to the frame of
    the cloud. Its variance is proportional to the distance, and its colour that of the pixel. Other data of the cloud is emptied. *)
Theorem C118_points T ins m factor t g dist : last_distance ins None = Some (g, dist) ->
  (forall i, last_image ins None = Some i -> g_nx g <= i_width i /\ g_ny g <= i_height i) ->
  exists t' ps us, from_distance T ins m factor t = Ok t' /\
    StronglySorted before ps /\ (forall p, p ∈ ps <-> a_cell g p.1 p.2 /\ measured dist m p) /\
    Forall2 (fun p v => exists d r, dist p = Normal d /\ on_ray g p d r /\ v = aapp T r) ps (verts t') /\
    vars t' = Some us /\ Forall2 (fun p u => exists d, dist p = Normal d /\ u = (d * factor)%Qc) ps us /\
    match last_image ins None with
    | Some i => exists cs, colors t' = Some cs /\ Forall2 (fun p c => is_color (i_pixel i p) c) ps cs
    | None => colors t' = (fun _ => []) <$> colors t
    end /\ normals t' = (fun _ => []) <$> normals t /\ attrs t' = (fun _ => []) <$> attrs t.
Proof.
  intros Hd Hi. unfold from_distance. rewrite Hd. set (img := last_image ins None) in *.
  set (t0 := clear _).
  destruct (add_cells_ok T g dist img m factor (columns g) t0) as (t'&E&vs&us&cs&H1&H2&H3&H4&H5&H6&H7&H8).
  - intros i p Ei Hp _. destruct (Hi i Ei) as [Hw Hh]. apply columns_elem in Hp as [Hx Hy]. unfold in_image. rewrite !andb_true_iff, !Z.leb_le, !Z.ltb_lt. lia.
  - by eexists.
  - intros [i Ei]. unfold t0. rewrite Ei. cbn. by eexists.
  - exists t', (filter (measured dist m) (columns g)), us. split; [exact E|]. split; [apply filter_sorted, columns_sorted|].
    split. { intros p. rewrite elem_of_list_filter, columns_elem. tauto. }
    split; [rewrite H1; exact H6|]. split; [exact H2|]. split; [exact H7|].
    split; [|split; [exact H3|exact H4]].
    destruct img as [i|]; [|exact H5]. exists cs. split; [rewrite H5; cbn; done|exact H8].
Qed.
(** Seen from the frame of the image, every vertex projects back to its own cell: looking up (x / z, y / z) in the grid gives the cell with its distance. *)
Theorem C118_project T U ins m factor t g dist t' conv : last_distance ins None = Some (g, dist) ->
  (forall i, last_image ins None = Some i -> g_nx g <= i_width i /\ g_ny g <= i_height i) -> from_distance T ins m factor t = Ok t' ->
  good_geo g -> conv_ok conv -> (forall v, aapp U (aapp T v) = v) -> (forall p d, dist p = Normal d -> d <> 0%Qc) ->
  forall n v, verts t' !! n = Some v -> let w := aapp U v in
  exists p xm ym, to_grid conv g (this (vx w / vz w)%Qc) (this (vy w / vz w)%Qc) = Some (p.1, p.2, xm, ym) /\ dist p = Normal (vz w) /\ (vz w < m)%Qc.
Proof.
  intros Hd Hi E Hg Hc HU Hz n v Hv w. destruct (C118_points T ins m factor t g dist Hd Hi) as (t''&ps&us&E'&_&Hps&HF&_). rewrite E in E'. injection E' as <-.
  destruct (Forall2_lookup_r _ _ _ _ _ HF Hv) as (p&Hp&d&r&Hdp&(Rz&Rx&Ry)&->). unfold w. rewrite HU.
  apply elem_of_list_lookup_2, Hps in Hp as [Ha (d'&Ed&Hlt)]. rewrite Hdp in Ed. injection Ed as <-. specialize (Hz p d Hdp).
  assert (K : forall q, (Q2Qc q * d / d)%Qc = Q2Qc q). { intros q. field. exact Hz. }
  rewrite Rx, Ry, Rz, !K. destruct (to_grid_index conv g (this (Q2Qc (fst (from_grid g p.1 p.2)))) (this (Q2Qc (snd (from_grid g p.1 p.2)))) p.1 p.2 Hc Hg Ha) as (xm&ym&Et&_).
  { unfold in_cell. cbn [this Q2Qc]. rewrite !Qred_correct. unfold from_grid. cbn [fst snd]. destruct Hg as (S1&S2&_). repeat split; lra. }
  exists p, xm, ym. rewrite Et. done.
Qed.
(** Every vertex has one variance and, if there is an image, one colour; so it is also if the cloud had no colours before. *)
Theorem C118_aligned T ins m factor t g dist t' : last_distance ins None = Some (g, dist) ->
  (forall i, last_image ins None = Some i -> g_nx g <= i_width i /\ g_ny g <= i_height i) -> from_distance T ins m factor t = Ok t' ->
  normals t = None -> attrs t = None -> (last_image ins None = None -> colors t = None) -> complete t'.
Proof.
  intros Hd Hi E Hn Ha Hc. destruct (C118_points T ins m factor t g dist Hd Hi) as (t''&ps&us&E'&_&_&HF&Hu&HF2&Hcol&Hn'&Ha'). rewrite E in E'. injection E' as <-.
  apply Forall2_length in HF, HF2. rewrite Hn in Hn'. rewrite Ha in Ha'. cbn in Hn', Ha'. unfold complete. rewrite Hn', Ha', Hu. split; [done|]. split; [|split; [done|intros l El; injection El as <-; congruence]].
  intros l El. destruct (last_image ins None) as [i|].
  - destruct Hcol as (cs&Ec&HF3). rewrite Ec in El. injection El as <-. apply Forall2_length in HF3. congruence.
  - rewrite Hc in Hcol by done. cbn in Hcol. congruence.
Qed.

(** The hypotheses are met: two rows of three cells, of which two have a distance below the limit. *)
Definition demo_geo : geo := Geo 3 2 (1 # 2) (1 # 2) (-(3 # 4)) (-(1 # 2)).
Definition demo_dist (p : pos) : reading := if decide (p = (0, 1)) then Normal (Q2Qc 2) else if decide (p = (2, 0)) then Normal (Q2Qc 4) else if decide (p = (1, 1)) then Normal (Q2Qc 20) else Other.
Definition demo_image : image := Image 3 2 (fun p => (p.1, p.2, 255)).
Example C118_nonvacuous : good_geo demo_geo /\ last_distance [IImage demo_image; IDistance demo_geo demo_dist] None = Some (demo_geo, demo_dist) /\
  exists t', from_distance aone [IImage demo_image; IDistance demo_geo demo_dist] (Q2Qc 10) (Q2Qc (1 # 10)) (Cloud [] None None None None) = Ok t' /\
    (show <$> verts t' = [(-(1), 1 # 2, 2); (2, -(1), 4)])%Q /\ length (default [] (colors t')) = 2%nat.
Proof.
  split; [unfold good_geo, demo_geo, size_end; cbn; repeat split; lia || lra|]. split; [done|].
  eexists. split; [vm_compute; reflexivity|]. split; vm_compute; reflexivity.
Qed.

(** ** What does not hold *)
(** Without a distance image among the inputs a null pointer is used. *)
Theorem C118_missing_refuted T i m factor t : from_distance T [IImage i; IOther] m factor t = Bad UB.
Proof. done. Qed.
(** An image that is smaller than the distance image is read outside of its bounds. *)
Theorem C118_image_refuted : exists g dist i, last_distance [IDistance g dist; IImage i] None = Some (g, dist) /\ i_height i < g_ny g /\
  forall T factor t, from_distance T [IDistance g dist; IImage i] (Q2Qc 10) factor t = Bad UB.
Proof.
  exists (Geo 1 2 1 1 0 0), (fun p => if decide (p = (0, 1)) then Normal 1%Qc else Other), (Image 1 1 (fun _ => (0, 0, 0))). split; [done|]. split; [cbn; lia|]. intros T factor t. reflexivity.
Qed.
(** Distances below zero are accepted: the points are behind the sensor, and have negative variances. *)
Theorem C118_negative_refuted : exists g dist t', from_distance aone [IDistance g dist] (Q2Qc 10) (Q2Qc (1 # 10)) (Cloud [] None None None None) = Ok t' /\
  exists v u, verts t' = [v] /\ vars t' = Some [u] /\ (vz v < 0)%Qc /\ (u < 0)%Qc.
Proof. exists (Geo 1 1 1 1 0 0), (fun _ => Normal (- (1))%Qc). eexists. split; [reflexivity|]. eexists _, _. split; [reflexivity|]. split; [reflexivity|]. split; reflexivity. Qed.
(** Without an image the colours of earlier runs are removed but the band of colours remains, with no colour for any vertex: such a cloud is not complete (and cannot be saved, C117). *)
Theorem C118_colors_refuted : exists g dist t t', complete t /\ from_distance aone [IDistance g dist] (Q2Qc 10) 1%Qc t = Ok t' /\ colors t' = Some [] /\ length (verts t') = 1%nat.
Proof.
  exists (Geo 1 1 1 1 0 0), (fun _ => Normal 1%Qc), (Cloud [] None (Some []) None None). eexists. split; [|split; [reflexivity|split; reflexivity]].
  unfold complete. cbn. repeat split; intros l E; try discriminate E. by injection E as <-.
Qed.

(** * C119: thinning of point clouds *)
(** ** Model *)
Section simplify.
  (** CGAL::grid_simplify_point_set and CGAL::remove_outliers followed by erase, and CGAL::jet_smooth_point_set: functions on points with their numbers *)
  Context (thin outliers smooth : list (nat * vec) -> list (nat * vec)).
  (** SimplifyPointcloud.cpp:72-132; the three arguments are whether the parameters [simplifyCellSize], [outlierPercentage] and [smoothNeighbours] are positive *)
  Definition remaining (use_thin use_outliers use_smooth : bool) (c : cloud) : list (nat * vec) :=
    let l := imap pair (verts c) in
    let l := if use_thin then thin l else l in
    let l := if use_outliers then outliers l else l in
    if use_smooth then smooth l else l.
  (** SimplifyPointcloud.cpp:150-159; [at] throws *)
  Fixpoint copy_points (ps : list (nat * vec)) (src t : cloud) : out cloud cloud :=
    match ps with
    | [] => Ok t
    | p :: ps =>
      let t := set_verts (verts t ++ [p.2]) t in
      t <~ match normals src with None => Ok t | Some l => match l !! p.1 with Some n => Ok (set_normals (push n (normals t)) t) | None => Throw t end end ;;
      t <~ match colors src with None => Ok t | Some l => match l !! p.1 with Some n => Ok (set_colors (push n (colors t)) t) | None => Throw t end end ;;
      copy_points ps src t
    end.
  (** SimplifyPointcloud.cpp:64-163, updateAll, for an input and an output that are different *)
  Definition simplify (use_thin use_outliers use_smooth : bool) (src t : cloud) : out cloud cloud :=
    let t := Cloud (verts t) (create (normals src) (normals t)) (create (colors src) (colors t)) (attrs t) (vars t) in
    copy_points (remaining use_thin use_outliers use_smooth src) src t.

  (** ** Specification *)
  (** what CGAL does: removing points keeps some of them, in any order; smoothing moves points and keeps their numbers *)
  Definition removes (f : list (nat * vec) -> list (nat * vec)) : Prop := forall l, f l ⊆+ l.
  Definition moves (f : list (nat * vec) -> list (nat * vec)) : Prop := forall l, (f l).*1 = l.*1.

  (** ** Proof *)
  Lemma imap_pair_fst {A} (l : list A) : (imap pair l).*1 = seq 0 (length l).
  Proof using Type.
    apply list_eq. intros i. rewrite list_lookup_fmap, list_lookup_imap. destruct (l !! i) as [x|] eqn:E; cbn.
    - apply lookup_lt_Some in E. by rewrite lookup_seq_lt.
    - apply lookup_ge_None in E. symmetry. by apply lookup_seq_ge.
  Qed.
  Lemma copy_points_ok ps src t : complete src -> Forall (fun p => p.1 < length (verts src))%nat ps ->
    copy_points ps src t = Ok (Cloud (verts t ++ ps.*2)
      (match normals src with Some l => match ps with [] => normals t | _ => Some (default [] (normals t) ++ pick ps.*1 l) end | None => normals t end)
      (match colors src with Some l => match ps with [] => colors t | _ => Some (default [] (colors t) ++ pick ps.*1 l) end | None => colors t end) (attrs t) (vars t)).
  Proof using Type.
    intros Hc. pose proof Hc as (Hn&Hcc&_). revert t. induction ps as [|[i v] ps IH]; intros t Hf.
    { destruct t as [tv tn tc ta tx]. cbn. rewrite app_nil_r. by destruct (normals src), (colors src). }
    apply Forall_cons in Hf as [Hi Hf]. cbn [copy_points fst snd]. cbn in Hi.
    assert (En : forall l, normals src = Some l -> exists n, l !! i = Some n). { intros l El. apply lookup_lt_is_Some. rewrite (Hn l El). exact Hi. }
    assert (Ec : forall l, colors src = Some l -> exists n, l !! i = Some n). { intros l El. apply lookup_lt_is_Some. rewrite (Hcc l El). exact Hi. }
    destruct (normals src) as [ln|] eqn:E1; [destruct (En ln eq_refl) as [n Hln]; rewrite Hln|]; cbn [obind]; (destruct (colors src) as [lc|] eqn:E2; [destruct (Ec lc eq_refl) as [c Hlc]; rewrite Hlc|]; cbn [obind]).
    all: rewrite IH by done; f_equal; cbn; rewrite <-?app_assoc; f_equal.
    all: unfold pick; cbn; rewrite ?Hln, ?Hlc; destruct ps; cbn; by rewrite <-?app_assoc.
  Qed.
  Lemma remaining_spec a b s c : (a = true -> removes thin) -> (b = true -> removes outliers) -> (s = true -> moves smooth) ->
    exists l, l ⊆+ imap pair (verts c) /\ (remaining a b s c).*1 = l.*1 /\ (s = false -> remaining a b s c = l).
  Proof using Type.
    intros Ha Hb Hs. unfold remaining. set (l0 := imap pair (verts c)). set (l1 := if a then thin l0 else l0). set (l2 := if b then outliers l1 else l1).
    exists l2. split; [|split].
    - transitivity l1; [unfold l2; destruct b; [by apply Hb|done]|unfold l1; destruct a; [by apply Ha|done]].
    - destruct s; [by apply Hs|done].
    - by intros ->.
  Qed.

  (** ** Theorems *)
  (** The remaining vertices are appended to the output. Each of them comes from another vertex of the input (numbers [keep]), at its place unless points are smoothed,
      and has the normal and the colour of this vertex. Nothing throws if the input has a normal and a colour for each vertex, or none at all. *)
  Theorem C119_simplify a b s src t : complete src -> (a = true -> removes thin) -> (b = true -> removes outliers) -> (s = true -> moves smooth) ->
    exists t' keep vs, simplify a b s src t = Ok t' /\ NoDup keep /\ (forall i, i ∈ keep -> i < length (verts src))%nat /\
      verts t' = verts t ++ vs /\ length vs = length keep /\ (s = false -> vs = pick keep (verts src)) /\
      normals t' = match normals src with Some l => Some (default [] (normals t) ++ pick keep l) | None => normals t end /\
      colors t' = match colors src with Some l => Some (default [] (colors t) ++ pick keep l) | None => colors t end /\
      attrs t' = attrs t /\ vars t' = vars t.
  Proof using Type.
    intros Hc Ha Hb Hs. destruct (remaining_spec a b s src Ha Hb Hs) as (l&Hl&H1&H2). set (ps := remaining a b s src) in *.
    assert (Hk : ps.*1 ⊆+ seq 0 (length (verts src))). { rewrite H1, <-(imap_pair_fst (verts src)). by apply fmap_submseteq. }
    assert (Hin : forall i, i ∈ ps.*1 -> (i < length (verts src))%nat). { intros i Hi. apply (elem_of_submseteq _ _ _ Hi) in Hk. apply elem_of_seq in Hk. lia. }
    unfold simplify. fold ps. rewrite copy_points_ok; [|done|apply Forall_forall; intros p Hp; apply Hin; by apply elem_of_list_fmap_1].
    eexists _, ps.*1, ps.*2. split; [reflexivity|]. split.
    { assert (HN : NoDup (seq 0 (length (verts src)))) by apply NoDup_seq. destruct (submseteq_Permutation _ _ Hk) as [k Hperm]. rewrite Hperm in HN. by apply NoDup_app in HN as [? _]. }
    split; [done|]. cbn [verts normals colors attrs vars]. split; [done|]. split; [by rewrite !fmap_length|]. split.
    { intros Es. rewrite (H2 Es). assert (HF : Forall (fun p => verts src !! p.1 = Some p.2) l).
      { apply Forall_forall. intros p Hp. apply (elem_of_submseteq _ _ _ Hp) in Hl. apply elem_of_lookup_imap in Hl as (i&x&->&Hx). done. }
      clear -HF. induction HF as [|[i x] l Hx _ IH]; [done|]. cbn in *. unfold pick in *. cbn. rewrite Hx. by f_equal. }
    split; [|split; [|done]].
    - destruct (normals src) as [ln|]; [|done]. destruct ps as [|]; cbn; [by rewrite app_nil_r|]. by destruct (normals t).
    - destruct (colors src) as [lc|]; [|done]. destruct ps as [|]; cbn; [by rewrite app_nil_r|]. by destruct (colors t).
  Qed.
  (** Into an empty output nothing gets out of step: it is complete again. *)
  Theorem C119_aligned a b s src t' : complete src -> (a = true -> removes thin) -> (b = true -> removes outliers) -> (s = true -> moves smooth) ->
    simplify a b s src (Cloud [] None None None None) = Ok t' -> complete t' /\ (length (verts t') <= length (verts src))%nat.
  Proof using Type.
    intros Hc Ha Hb Hs E. destruct (C119_simplify a b s src (Cloud [] None None None None) Hc Ha Hb Hs) as (t''&keep&vs&E'&HN&Hin&Hv&HL&_&Hn&Hcol&Hat&Hva). rewrite E in E'. injection E' as <-.
    cbn in Hv, Hn, Hcol, Hat, Hva. destruct Hc as (Cn&Cc&_).
    assert (Hp : forall (l : list vec), length l = length (verts src) -> length (pick keep l) = length keep).
    { intros l El. clear -Hin El. induction keep as [|i keep IH]; [done|]. unfold pick in *. cbn. destruct (lookup_lt_is_Some_2 l i) as [x ->]. { rewrite El. apply Hin. by left. } cbn. rewrite IH; [done|]. intros j Hj. apply Hin. by right. }
    split.
    - unfold complete. rewrite Hat, Hva, Hv. split; [|split; [|split; done]].
      + intros l El. rewrite Hn in El. destruct (normals src) as [ln|]; [|done]. injection El as <-. rewrite HL. apply Hp. by apply Cn.
      + intros l El. rewrite Hcol in El. destruct (colors src) as [lc|]; [|done]. injection El as <-. rewrite HL. apply Hp. by apply Cc.
    - rewrite Hv, HL. assert (Hsub : keep ⊆+ seq 0 (length (verts src))). { apply NoDup_submseteq; [done|]. intros i Hi. apply elem_of_seq. specialize (Hin i Hi). lia. }
      apply submseteq_length in Hsub. by rewrite seq_length in Hsub.
  Qed.
  (** With all steps switched off the input is appended as it is. *)
  Theorem C119_off src t : complete src -> exists t', simplify false false false src t = Ok t' /\ verts t' = verts t ++ verts src /\
    normals t' = match normals src with Some l => Some (default [] (normals t) ++ l) | None => normals t end.
  Proof using Type.
    intros Hc. unfold simplify, remaining. rewrite copy_points_ok; [|done|].
    - eexists. split; [reflexivity|]. cbn [verts normals]. split.
      { f_equal. apply list_eq. intros i. rewrite list_lookup_fmap, list_lookup_imap. by destruct (verts src !! i). }
      destruct (normals src) as [ln|] eqn:En; [|done]. rewrite imap_pair_fst. destruct Hc as (Cn&_). specialize (Cn ln En).
      assert (Hp : pick (seq 0 (length (verts src))) ln = ln).
      { rewrite <-Cn. clear. unfold pick. induction ln as [|x ln IH] using rev_ind; [done|]. rewrite app_length, seq_app, omap_app. cbn. rewrite list_lookup_middle by (cbn; lia). f_equal.
        rewrite <-IH at 2. assert (K : forall (k : list nat), (forall i, i ∈ k -> i < length ln)%nat -> omap (fun i => (ln ++ [x]) !! i) k = omap (fun i => ln !! i) k).
        { induction k as [|i k IHk]; intros Hk; [done|]. cbn. rewrite lookup_app_l by (apply Hk; by left). rewrite IHk; [done|]. intros j Hj. apply Hk. by right. }
        apply K. intros i Hi. apply elem_of_seq in Hi. lia. }
      rewrite Hp. destruct (imap pair (verts src)) as [|] eqn:Ei; [|cbn; by destruct (normals t)].
      assert (length ln = 0%nat). { rewrite Cn. apply (f_equal length) in Ei. by rewrite imap_length in Ei. } destruct ln; [|done]. cbn. by rewrite app_nil_r.
    - apply Forall_forall. intros p Hp. apply elem_of_lookup_imap in Hp as (i&x&->&Hx). cbn. by apply lookup_lt_Some in Hx.
  Qed.
End simplify.

(** The hypotheses are met: an operation that keeps every other point, and one that raises points. *)
Fixpoint halve {A} (l : list A) : list A := match l with x :: _ :: l => x :: halve l | l => l end.
Lemma halve_removes : removes halve.
Proof.
  intros l. remember (length l) as n eqn:Hn. revert l Hn. induction n as [n IH] using lt_wf_ind. intros [|x [|y l]] Hn; [done|done|]. cbn. apply submseteq_skip, submseteq_cons. apply (IH (length l)); [cbn in Hn; lia|done].
Qed.
Definition raise_points (l : list (nat * vec)) : list (nat * vec) := (fun p => (p.1, Vec (vx p.2) (vy p.2) (vz p.2 + 1)%Qc)) <$> l.
Definition three : cloud := Cloud [pt 0 0 0; pt 1 0 0; pt 2 0 0] (Some [pt 0 0 1; pt 0 1 0; pt 1 0 0]) None None None.
Example C119_nonvacuous : complete three /\ removes halve /\ moves raise_points /\
  exists t', simplify halve halve raise_points true false true three (Cloud [] None None None None) = Ok t' /\ (show <$> verts t' = [(0, 0, 1); (2, 0, 1)])%Q /\ option_map (fmap show) (normals t') = Some [(0, 0, 1); (1, 0, 0)]%Q.
Proof.
  split. { unfold complete. cbn. repeat split; intros l E; try discriminate E. by injection E as <-. }
  split; [apply halve_removes|]. split. { intros l. unfold raise_points. rewrite <-list_fmap_compose. by apply list_fmap_ext. }
  eexists. split; [vm_compute; reflexivity|]. split; vm_compute; reflexivity.
Qed.

(** ** What does not hold *)
(** The output is not cleared: a second run adds every vertex once more. *)
Theorem C119_twice_refuted thin outliers smooth : exists src t' t'', complete src /\ simplify thin outliers smooth false false false src (Cloud [] None None None None) = Ok t' /\ simplify thin outliers smooth false false false src t' = Ok t'' /\
  verts t'' = verts src ++ verts src /\ verts src <> [].
Proof. exists (Cloud [pt 1 2 3] None None None None). eexists _, _. split; [unfold complete; cbn; by repeat split|]. split; [reflexivity|]. split; [reflexivity|]. split; [reflexivity|done]. Qed.
(** Variances are not copied, and an output that has some is left with too few of them. *)
Theorem C119_variances_refuted thin outliers smooth : exists src t t', complete src /\ complete t /\ vars src = Some [1%Qc] /\ simplify thin outliers smooth false false false src t = Ok t' /\ vars t' = Some [] /\ length (verts t') = 1%nat.
Proof.
  exists (Cloud [pt 1 2 3] None None None (Some [1%Qc])), (Cloud [] None None None (Some [])). eexists. split; [unfold complete; cbn; repeat split; intros l E; try discriminate E; by injection E as <-|].
  split; [unfold complete; cbn; repeat split; intros l E; try discriminate E; by injection E as <-|]. split; [done|]. split; [reflexivity|]. done.
Qed.
(** With too few normals in the input an exception leaves a vertex without normal in the output. *)
Theorem C119_normals_refuted thin outliers smooth : exists src t, complete t /\ exists t', simplify thin outliers smooth false false false src t = Throw t' /\ ~ complete t'.
Proof.
  exists (Cloud [pt 1 2 3] (Some []) None None None), (Cloud [] None None None None). split; [unfold complete; cbn; by repeat split|]. eexists. split; [reflexivity|].
  intros (H&_). specialize (H [] eq_refl). cbn in H. done.
Qed.
