(** Access to elevations, collections of surface grids and map segments (C81 - C86):
    src/tools/GridAccess.cpp, src/maps/MLSGrid.cpp:418-470, src/maps/MLSPatch.hpp:100-128, src/maps/MLSMap.cpp, src/maps/MapSegment.cpp.

    Simplifications: [double] and [float] are modelled by the rational numbers; a frame is given by the affine map between it and another frame (see
    Transform.v for how it results from the frame tree). *)
From stdpp Require Import prelude.
From Coq Require Import QArith Qcanon Qround Qabs Lqa.
From Verif Require Import Base Bresenham GridModel GridProps Transform Elevation.
Local Open Scope Z_scope.

(** ** Model *)
(** an elevation grid with the transform from the root node to its frame *)
Record egrid := EGrid { eg_geo : geo; eg_data : Z * Z -> Q; eg_to : aff }.

Section grid_access.
  Context (conv : Z -> Z).
  (** GridAccess.cpp:62, [t.inverse( Isometry )(2,3)]: the inverse of the linear part is its transpose *)
  Definition z_offset (t : aff) : Q := this (- (a13 t * t1 t + a23 t * t2 t + a33 t * t3 t))%Qc.
  (** GridAccess.cpp:25-35, [evalGridPoint]; [None] if the position is left alone *)
  Definition eval_grid (g : egrid) (p : vec) : option Q :=
    let l := aapp (eg_to g) p in
    match to_grid conv (eg_geo g) (this (vx l)) (this (vy l)) with
    | Some (x, y, _, _) => Some (eg_data g (x, y) + z_offset (eg_to g))%Q
    | None => None
    end.
  (** GridAccess.cpp:37-71, [getElevation]: the result and the remembered grid *)
  Fixpoint first_grid {G A} (eval : G -> option A) (gs : list G) (last : option G) : option A * option G :=
    match gs with
    | [] => (None, last)
    | g :: r => match eval g with Some z => (Some z, Some g) | None => first_grid eval r (Some g) end
    end.
  Definition grid_elevation (gs : list egrid) (cache : option egrid) (p : vec) : option Q * option egrid :=
    match cache with
    | Some g => (eval_grid g p, Some g)
    | None => first_grid (fun g => eval_grid g p) gs None
    end.
  (** a sequence of calls *)
  Fixpoint elevations (gs : list egrid) (cache : option egrid) (ps : list vec) : list (option Q) :=
    match ps with [] => [] | p :: r => let '(z, c) := grid_elevation gs cache p in z :: elevations gs c r end.
End grid_access.

(** MLSPatch.hpp: the type of a patch *)
Inductive kind := KHorizontal | KVertical | KNegative.
Record spatch := SPatch { sp_mean : Q; sp_dev : Q; sp_height : Q; sp_kind : kind }.
Definition flat (p : spatch) : bool := match sp_kind p with KHorizontal => true | _ => false end.
Definition is_negative (p : spatch) : bool := match sp_kind p with KNegative => true | _ => false end.
Definition qmaxb (a b : Q) : Q := if Qlt_le_dec a b then b else a.
Definition qabs (a : Q) : Q := if Qlt_le_dec a 0 then (- a)%Q else a.
(** MLSPatch.hpp:106-119, [distance] *)
Definition distance (p o : spatch) : Q :=
  if negb (flat p) && negb (flat o) then 0%Q
  else if negb (flat p) then if Qlt_le_dec (sp_mean p) (sp_mean o) then (sp_mean o - sp_mean p)%Q else qmaxb 0 (sp_mean p - sp_height p - sp_mean o)
  else if negb (flat o) then if Qlt_le_dec (sp_mean o) (sp_mean p) then (sp_mean p - sp_mean o)%Q else qmaxb 0 (sp_mean o - sp_height o - sp_mean p)
  else qabs (sp_mean p - sp_mean o).
(** MLSGrid.cpp:430-431: [d < sqrt( a ) * sigma], which for [0 <= d] is [0 < sigma] and [d * d < a * sigma * sigma] *)
Definition within (p o : spatch) (sigma : Q) : bool :=
  if Qlt_le_dec 0 sigma then
    if Qlt_le_dec (distance p o * distance p o) ((sp_dev o * sp_dev o + sp_dev p * sp_dev p) * (sigma * sigma)) then true else false
  else false.
(** MLSGrid.cpp:424-438, [get( Position, SurfacePatch )]: the index of the result in the list of the cell *)
Fixpoint find_patch (ignore : bool) (l : list spatch) (o : spatch) (sigma : Q) : option (nat * spatch) :=
  match l with
  | [] => None
  | p :: r => if within p o sigma && (negb ignore || negb (is_negative p)) then Some (O, p) else (fun e => (S e.1, e.2)) <$> find_patch ignore r o sigma
  end.
Record mgrid := MGrid { mg_geo : geo; mg_cells : Z * Z -> list spatch; mg_to : aff }.

Section mls_access.
  Context (conv : Z -> Z).
  (** MLSGrid.cpp:446-470, [get( Vector2d, zpos, zstdev )], except for the update model SLOPE; the arguments are in the frame of the grid *)
  Definition mls_get (g : mgrid) (x y z dev : Q) : option (Q * Q) :=
    match to_grid conv (mg_geo g) x y with
    | Some (m, n, _, _) => (fun e => (sp_mean e.2, sp_dev e.2)) <$> find_patch true (mg_cells g (m, n)) (SPatch z dev 0 KHorizontal) 3
    | None => None
    end.
  Definition eval_mls (p : vec) (dev : Q) (g : mgrid) : option (Q * Q) :=
    let v := aapp (mg_to g) p in mls_get g (this (vx v)) (this (vy v)) (this (vz v)) dev.
  (** GridAccess.cpp:196-239, [MLSAccess::getElevation]: height and deviation *)
  Definition mls_elevation (gs : list mgrid) (cache : option mgrid) (p : vec) (dev : Q) : option (Q * Q) * option mgrid :=
    match cache with
    | Some g => (eval_mls p dev g, Some g)
    | None => first_grid (eval_mls p dev) gs None
    end.

  (** MLSMap.cpp:62-83, [getPatch]; [t] is the transform from the map to the grid *)
  Definition shift_mean (d : Q) (p : spatch) : spatch := SPatch (sp_mean p + d) (sp_dev p) (sp_height p) (sp_kind p).
  Definition patch_in (g : mgrid) (t : aff) (p : vec) (o : spatch) (sigma : Q) : option spatch :=
    let v := aapp t p in
    match to_grid conv (mg_geo g) (this (vx v)) (this (vy v)) with
    | Some (m, n, _, _) => (fun e => shift_mean (- this (t3 t)) e.2) <$> find_patch true (mg_cells g (m, n)) (shift_mean (this (t3 t)) o) sigma
    | None => None
    end.
  (** MLSMap.cpp:85-107, [MLSMap::getPatch]: the cache holds a grid and the transform at the time of its use *)
  Fixpoint search_grids (gs : list mgrid) (p : vec) (o : spatch) (sigma : Q) : option (spatch * mgrid) :=
    match gs with
    | [] => None
    | g :: r => match patch_in g (mg_to g) p o sigma with Some q => Some (q, g) | None => search_grids r p o sigma end
    end.
  Definition map_patch (gs : list mgrid) (cache : option (mgrid * aff)) (p : vec) (o : spatch) (sigma : Q) : option spatch * option (mgrid * aff) :=
    match match cache with Some (g, t) => patch_in g t p o sigma | None => None end with
    | Some q => (Some q, cache)
    | None => match search_grids (reverse gs) p o sigma with
              | Some (q, g) => (Some q, Some (g, mg_to g))
              | None => (None, cache)
              end
    end.
End mls_access.

(** MLSMap.cpp:146-170, [createGrid]: the transform of the new frame; [sx], [sy] are the cell sizes of the active grid *)
Definition align_down (x s : Q) : Q := (inject_Z (Qfloor (x / s)) * s)%Q.
Definition created_frame (aligned : bool) (sx sy : Q) (t : aff) : aff :=
  if aligned then Aff 1 0 0 0 1 0 0 0 1 (Q2Qc (align_down (this (t1 t)) sx)) (Q2Qc (align_down (this (t2 t)) sy)) (t3 t) else t.
(** MLSMap.cpp:122-136, [selectActiveGrid]: the loop over the grids, given the transforms from the frame to the grids *)
Definition plane_dist (t : aff) : Q := qmaxb (qabs (this (t1 t))) (qabs (this (t2 t))).
Fixpoint select_grid (ts : list aff) (i : nat) (best : option nat) (dist : Q) : option nat :=
  match ts with
  | [] => best
  | t :: r => if Qlt_le_dec (plane_dist t) dist then select_grid r (S i) (Some i) (plane_dist t) else select_grid r (S i) best dist
  end.
(** MLSMap.cpp:109-144: a map is the list of the frames of its grids (their transforms to the root node) and the index of the active grid; [fn] is the
    frame for which a grid is wanted, [s] the cell size *)
Definition select_active (sx sy : Q) (frames : list aff) (active : nat) (fn : aff) (threshold : Q) : out unit (list aff * nat) :=
  match select_grid ((fun f => amul (ainv f) fn) <$> frames) 0 None threshold with
  | Some i => Ok (frames, i)
  | None =>
    match frames !! active with
    | None => Bad UB
    | Some f => Ok (frames ++ [amul f (created_frame true sx sy (amul (ainv f) fn))], length frames)
    end
  end.

(** MapSegment.cpp:115-147, [getMapForPose]: the index of the part, for the squared norms of the differences of the poses; [None] is infinity *)
Fixpoint nearest_part (ds : list Q) (i : nat) (best : option (nat * Q)) : option (nat * Q) :=
  match ds with
  | [] => best
  | d :: r => nearest_part r (S i) (match best with Some (_, b) => if Qlt_le_dec d b then Some (i, d) else best | None => Some (i, d) end)
  end.
(** MapSegment.cpp:149-162, [getBestMap] *)
Fixpoint best_part (ws : list Q) (i : nat) (best : option nat) (w : Q) : option nat :=
  match ws with [] => best | v :: r => if Qlt_le_dec w v then best_part r (S i) (Some i) v else best_part r (S i) best w end.
(** MapSegment.cpp:86-113, [getTransform]: the index of the Gaussian; the largest weight is kept in an [int], [trunc] is the conversion *)
Fixpoint best_gaussian (trunc : Q -> Z) (ws : list Q) (i : nat) (best : option nat) (w : Z) : option nat :=
  match ws with [] => best | v :: r => if Qlt_le_dec (inject_Z w) v then best_gaussian trunc r (S i) (Some i) (trunc v) else best_gaussian trunc r (S i) best w end.

(** ** C81: elevations of a grid *)
(** the frame is turned around the vertical axis only *)
Definition upright (t : aff) : Prop := a13 t = 0%Qc /\ a23 t = 0%Qc /\ a31 t = 0%Qc /\ a32 t = 0%Qc /\ a33 t = 1%Qc.
Definition usable (g : geo) : Prop := good_geo g /\ g_nx g <= half /\ g_ny g <= half.
Definition near_local (g : geo) (t : aff) (p : vec) : Prop := let l := aapp t p in near g (this (vx l)) (this (vy l)).
(** the position lies above, or below, the grid *)
Definition covers (g : geo) (t : aff) (p : vec) : Prop := let l := aapp t p in in_rect g (this (vx l)) (this (vy l)).
(** [z] is the height, in the root frame, of the surface of the grid at the position [p] *)
Definition surface_height (g : egrid) (p : vec) (z : Q) : Prop :=
  exists m n, a_cell (eg_geo g) m n /\ (let l := aapp (eg_to g) p in in_cell (eg_geo g) m n (this (vx l)) (this (vy l))) /\
  let q := aapp (eg_to g) (Vec (vx p) (vy p) (Q2Qc z)) in (this (vz q) == eg_data g (m, n))%Q /\ in_cell (eg_geo g) m n (this (vx q)) (this (vy q)).
Lemma upright_local t x y z z' : upright t -> vx (aapp t (Vec x y z)) = vx (aapp t (Vec x y z')) /\ vy (aapp t (Vec x y z)) = vy (aapp t (Vec x y z')) /\
  vz (aapp t (Vec x y z)) = (z + t3 t)%Qc.
Proof. intros (H1&H2&H3&H4&H5). unfold aapp. cbn [vx vy vz]. rewrite H1, H2, H3, H4, H5. split; [ring|]. split; ring. Qed.
Lemma upright_offset t : upright t -> (z_offset t == - this (t3 t))%Q.
Proof.
  intros (H1&H2&H3&H4&H5). unfold z_offset. rewrite H1, H2, H5. replace (- (0 * t1 t + 0 * t2 t + 1 * t3 t))%Qc with (- t3 t)%Qc by ring.
  unfold Qcopp. cbn [this Q2Qc]. apply Qred_correct.
Qed.
Lemma eval_grid_spec conv g p : conv_wraps conv -> usable (eg_geo g) -> upright (eg_to g) -> near_local (eg_geo g) (eg_to g) p ->
  match eval_grid conv g p with Some z => surface_height g p z | None => ~ covers (eg_geo g) (eg_to g) p end.
Proof.
  intros HC (Hg&HX&HY) HU HN. unfold eval_grid. destruct (to_grid conv _ _ _) as [[[[m n] xm] ym]|] eqn:E.
  - destruct (to_grid_cell conv _ _ _ _ _ _ _ HC Hg HX HY HN E) as [HA HI]. exists m, n. split; [done|]. split; [done|]. cbn zeta.
    destruct p as [px py pz]. cbn [vx vy] in *.
    destruct (upright_local (eg_to g) px py (Q2Qc (eg_data g (m, n) + z_offset (eg_to g))) pz HU) as (-> & -> & Hz). split; [|done]. rewrite Hz.
    unfold Qcplus. cbn [this Q2Qc]. rewrite !Qred_correct, upright_offset by done. ring.
  - intros HR. apply (C31_outside conv _ _ _ HC Hg HX HY HN) in HR. by apply HR.
Qed.
(** With a single grid all calls, in any order, return the height of its surface, or nothing for positions that it does not cover. *)
Theorem C81_single conv g ps i p : conv_wraps conv -> usable (eg_geo g) -> upright (eg_to g) -> (forall p, p ∈ ps -> near_local (eg_geo g) (eg_to g) p) -> ps !! i = Some p ->
  match elevations conv [g] None ps !! i with
  | Some (Some z) => surface_height g p z
  | Some None => ~ covers (eg_geo g) (eg_to g) p
  | None => False
  end.
Proof.
  intros HC HU HR HN Hp. assert (HE : forall c, c = None \/ c = Some g -> elevations conv [g] c ps = (eval_grid conv g) <$> ps).
  { clear. induction ps as [|p ps IH]; intros c Hc; [done|]. rewrite fmap_cons. cbn [elevations]. destruct Hc as [-> | ->]; cbn [grid_elevation first_grid].
    - destruct (eval_grid conv g p); f_equal; apply IH; by right.
    - f_equal. apply IH. by right. }
  rewrite (HE None) by (by left). rewrite list_lookup_fmap, Hp. cbn [fmap option_fmap option_map]. apply eval_grid_spec; try done. apply HN. by eapply elem_of_list_lookup_2.
Qed.
(** The first call on any number of grids answers from the first one that covers the position. *)
Theorem C81_first conv gs p : conv_wraps conv -> (forall g, g ∈ gs -> usable (eg_geo g) /\ upright (eg_to g) /\ near_local (eg_geo g) (eg_to g) p) ->
  match (grid_elevation conv gs None p).1 with
  | Some z => exists i g, gs !! i = Some g /\ surface_height g p z /\ forall j h, (j < i)%nat -> gs !! j = Some h -> ~ covers (eg_geo h) (eg_to h) p
  | None => forall g, g ∈ gs -> ~ covers (eg_geo g) (eg_to g) p
  end.
Proof.
  intros HC HG. unfold grid_elevation. generalize (@None egrid). induction gs as [|g gs IH]; intros last; cbn [first_grid].
  { cbn. intros g Hg. by apply elem_of_nil in Hg. }
  destruct (HG g (elem_of_list_here _ _)) as (U&R&N). pose proof (eval_grid_spec conv g p HC U R N) as HE. destruct (eval_grid conv g p) as [z|].
  - cbn [fst]. exists O, g. split; [done|]. split; [done|]. intros j h Hj. lia.
  - specialize (IH ltac:(intros h Hh; apply HG; by right) (Some g)). destruct (first_grid _ gs (Some g)) as [[z|] c]; cbn [fst] in *.
    + destruct IH as (i&h&Hi&Hs&Hb). exists (S i), h. split; [done|]. split; [done|]. intros [|j] h' Hj Hh; [by injection Hh as <-|]. apply (Hb j); [lia|done].
    + intros h [->|Hh]%elem_of_cons; [done|]. by apply IH.
Qed.
(** Later calls only look at the grid that answered first: a position covered by another grid is reported as unknown. *)
Theorem C81_cache_refuted : exists conv gs p q, conv_wraps conv /\ (forall g, g ∈ gs -> usable (eg_geo g) /\ upright (eg_to g)) /\
  (exists z, elevations conv gs None [q] = [Some z]) /\ (exists z, elevations conv gs None [p; q] = [Some z; None]).
Proof.
  exists (fun z => if z <? 0 then z + size_end else z), [EGrid (Geo 2 2 1 1 0 0) (fun _ => 1%Q) aone; EGrid (Geo 2 2 1 1 10 0) (fun _ => 2%Q) aone].
  exists (Vec (Q2Qc (1 # 2)) (Q2Qc (1 # 2)) 0), (Vec (Q2Qc (21 # 2)) (Q2Qc (1 # 2)) 0).
  split; [split; intros z Hz; unfold size_end, half in *; destruct (Z.ltb_spec z 0); lia|]. split.
  - intros g Hg. assert (HU : upright aone) by (by unfold upright). apply elem_of_cons in Hg as [->|Hg]; [|apply elem_of_cons in Hg as [->|Hg]; [|by apply elem_of_nil in Hg]]; (split; [|done]);
      unfold usable, good_geo, size_end, half; cbn; repeat split; lia || lra.
  - split; eexists; vm_compute; reflexivity.
Qed.
(** In a grid that is tilted the height is not that of a point of the grid. *)
Theorem C81_tilted_refuted : exists conv g p z, conv_wraps conv /\ usable (eg_geo g) /\ adet (eg_to g) = 1%Qc /\ eval_grid conv g p = Some z /\
  forall h, (forall c, eg_data g c = h) -> ~ (this (vz (aapp (eg_to g) (Vec (vx p) (vy p) (Q2Qc z)))) == h)%Q.
Proof.
  exists (fun z => if z <? 0 then z + size_end else z), (EGrid (Geo 2 2 1 1 0 0) (fun _ => 1%Q) (Aff 1 0 0 0 (Q2Qc (3 # 5)) (Q2Qc (-4 # 5)) 0 (Q2Qc (4 # 5)) (Q2Qc (3 # 5)) 0 0 0)).
  exists (Vec (Q2Qc (1 # 2)) (Q2Qc (3 # 2)) 0), 1%Q.
  split; [split; intros z Hz; unfold size_end, half in *; destruct (Z.ltb_spec z 0); lia|]. split; [unfold usable, good_geo, size_end, half; cbn; repeat split; lia || lra|].
  split; [apply Qc_is_canon; vm_compute; reflexivity|]. split; [vm_compute; reflexivity|].
  intros h Hh. specialize (Hh (0, 0)). cbn in Hh. subst h. intros H. vm_compute in H. discriminate H.
Qed.
Example C81_nonvacuous : let conv := fun z => if z <? 0 then z + size_end else z in
  let g := EGrid (Geo 2 2 1 1 0 0) (fun c => inject_Z (fst c + 10 * snd c)) (Aff 1 0 0 0 1 0 0 0 1 0 0 (Q2Qc (-3))) in
  let p := Vec (Q2Qc (3 # 2)) (Q2Qc (1 # 2)) (Q2Qc 7) in
  conv_wraps conv /\ usable (eg_geo g) /\ upright (eg_to g) /\ near_local (eg_geo g) (eg_to g) p /\ elevations conv [g] None [p; p] = [Some 4%Q; Some 4%Q].
Proof.
  cbn zeta. split; [split; intros z Hz; unfold size_end, half in *; destruct (Z.ltb_spec z 0); lia|]. split; [unfold usable, good_geo, size_end, half; cbn; repeat split; lia || lra|].
  split; [done|]. split; [vm_compute; repeat split; congruence|]. vm_compute. reflexivity.
Qed.

(** ** C82: finding a patch in a cell *)
Lemma distance_nonneg p o : (0 <= distance p o)%Q.
Proof.
  unfold distance, qmaxb, qabs. destruct (flat p), (flat o); cbn [negb andb]; try lra;
  repeat match goal with |- context [Qlt_le_dec ?a ?b] => destruct (Qlt_le_dec a b) end; lra.
Qed.
(** the distance between the height intervals of two patches: flat patches are points, others reach down from the mean by their height *)
Definition span_top (p : spatch) : Q := sp_mean p.
Definition span_bottom (p : spatch) : Q := if flat p then sp_mean p else (sp_mean p - sp_height p)%Q.
Definition wf_patch (p : spatch) : Prop := (0 <= sp_height p /\ 0 <= sp_dev p)%Q.
(** The distance of two patches of which one is flat is that of their height intervals. *)
Theorem C82_distance p o : wf_patch p -> wf_patch o -> flat p || flat o = true ->
  (distance p o == 0 /\ exists h, span_bottom p <= h /\ h <= span_top p /\ span_bottom o <= h /\ h <= span_top o)%Q \/
  (0 < distance p o /\ (distance p o == span_bottom o - span_top p \/ distance p o == span_bottom p - span_top o))%Q.
Proof.
  intros [Hp _] [Ho _] Hf. unfold distance, span_bottom, span_top, qmaxb, qabs. destruct (flat p), (flat o); try discriminate Hf; cbn [negb andb];
  repeat match goal with |- context [Qlt_le_dec ?a ?b] => destruct (Qlt_le_dec a b) end;
  try (right; split; [lra|]; first [left; lra|right; lra]).
  - destruct (Qlt_le_dec (sp_mean o) (sp_mean p)); [right; split; [lra|]; right; lra|]. left. split; [lra|]. exists (sp_mean p). lra.
  - left. split; [lra|]. exists (sp_mean p). lra.
  - left. split; [lra|]. exists (sp_mean o). lra.
Qed.
(** Two patches that are not flat are always at distance zero, however far apart. *)
Theorem C82_vertical_refuted : exists p o, wf_patch p /\ wf_patch o /\ (distance p o == 0)%Q /\ (span_top p < span_bottom o)%Q.
Proof. exists (SPatch 1 1 1 KVertical), (SPatch 100 1 1 KVertical). repeat split; vm_compute; congruence. Qed.
(** The search returns the first patch of the cell that is close enough and does not stand for free space, and nothing if there is none. *)
Definition acceptable (o : spatch) (sigma : Q) (p : spatch) : Prop :=
  (0 < sigma)%Q /\ (distance p o * distance p o < (sp_dev o * sp_dev o + sp_dev p * sp_dev p) * (sigma * sigma))%Q /\ sp_kind p <> KNegative.
Lemma acceptable_dec o sigma p : within p o sigma && (negb true || negb (is_negative p)) = true <-> acceptable o sigma p.
Proof.
  unfold within, acceptable, is_negative. destruct (Qlt_le_dec 0 sigma) as [H|H]; cbn [andb].
  - destruct (Qlt_le_dec (distance p o * distance p o) _) as [H'|H']; cbn [andb negb orb].
    + destruct (sp_kind p); cbn; naive_solver.
    + split; [done|]. intros (_&H2&_). by apply Qlt_not_le in H2.
  - split; [done|]. intros (H1&_). by apply Qlt_not_le in H1.
Qed.
Theorem C82_find l o sigma :
  match find_patch true l o sigma with
  | Some (i, p) => l !! i = Some p /\ acceptable o sigma p /\ forall j q, (j < i)%nat -> l !! j = Some q -> ~ acceptable o sigma q
  | None => forall p, p ∈ l -> ~ acceptable o sigma p
  end.
Proof.
  induction l as [|p l IH]; cbn [find_patch]; [intros p Hp; by apply elem_of_nil in Hp|].
  destruct (within p o sigma && (negb true || negb (is_negative p))) eqn:E.
  - apply acceptable_dec in E. split; [done|]. split; [done|]. intros j q Hj. lia.
  - assert (Hn : ~ acceptable o sigma p) by (intros Ha; apply acceptable_dec in Ha; congruence).
    destruct (find_patch true l o sigma) as [[i q]|]; cbn [fmap option_fmap option_map fst snd].
    + destruct IH as (Hi&Ha&Hb). split; [done|]. split; [done|]. intros [|j] r Hj Hr; [by injection Hr as <-|]. apply (Hb j); [lia|done].
    + intros q [->|Hq]%elem_of_cons; [done|]. by apply IH.
Qed.
(** It is not the nearest patch that is returned. *)
Theorem C82_nearest_refuted : exists l o p q, snd <$> find_patch true l o 3 = Some p /\ q ∈ l /\ acceptable o 3 q /\ (distance q o < distance p o)%Q.
Proof.
  exists [SPatch 2 1 0 KHorizontal; SPatch 0 1 0 KHorizontal], (SPatch 0 1 0 KHorizontal), (SPatch 2 1 0 KHorizontal), (SPatch 0 1 0 KHorizontal).
  split; [vm_compute; reflexivity|]. split; [right; left|]. split; [unfold acceptable; vm_compute; repeat split; congruence|]. vm_compute. reflexivity.
Qed.
Example C82_nonvacuous : let l := [SPatch 9 1 0 KHorizontal; SPatch 1 1 0 KNegative; SPatch 2 1 (1 # 2) KVertical; SPatch 0 1 0 KHorizontal] in
  find_patch true l (SPatch 0 1 0 KHorizontal) 3 = Some (2%nat, SPatch 2 1 (1 # 2) KVertical) /\ find_patch true l (SPatch 50 1 0 KHorizontal) 3 = None.
Proof. split; vm_compute; reflexivity. Qed.

(** ** C83: elevations of a surface grid *)
(** [r] is the result of looking for a surface close to the height [z] at (x, y), in the frame of the grid *)
Definition surface_at (g : mgrid) (x y z dev : Q) (r : option (Q * Q)) : Prop :=
  match r with
  | Some (h, d) => exists m n p, a_cell (mg_geo g) m n /\ in_cell (mg_geo g) m n x y /\ p ∈ mg_cells g (m, n) /\ acceptable (SPatch z dev 0 KHorizontal) 3 p /\ h = sp_mean p /\ d = sp_dev p
  | None => forall m n p, a_cell (mg_geo g) m n -> in_cell (mg_geo g) m n x y -> p ∈ mg_cells g (m, n) -> ~ acceptable (SPatch z dev 0 KHorizontal) 3 p
  end.
Theorem C83_get conv g x y z dev : conv_wraps conv -> usable (mg_geo g) -> near (mg_geo g) x y -> surface_at g x y z dev (mls_get conv g x y z dev).
Proof.
  intros HC (Hg&HX&HY) HN. unfold mls_get. destruct (to_grid conv _ _ _) as [[[[m n] xm] ym]|] eqn:E.
  - destruct (to_grid_cell conv _ _ _ _ _ _ _ HC Hg HX HY HN E) as [HA HI]. pose proof (C82_find (mg_cells g (m, n)) (SPatch z dev 0 KHorizontal) 3) as HF.
    destruct (find_patch true _ _ _) as [[i p]|]; cbn [fmap option_fmap option_map fst snd surface_at].
    + destruct HF as (Hi&Ha&_). exists m, n, p. do 2 (split; [done|]). split; [by eapply elem_of_list_lookup_2|]. done.
    + intros m' n' p HA' HI' Hp. destruct (in_cell_fun _ _ _ _ _ _ _ Hg HI HI') as [<- <-]. by apply HF.
  - cbn [surface_at]. intros m n p HA HI. by destruct (to_grid_none conv _ _ _ m n (proj1 HC) Hg E HA HI).
Qed.
(** With a single grid whose frame is upright and not raised, every call of [MLSAccess::getElevation] returns the height of a surface close to the position, ... *)
Theorem C83_access conv g cache p dev : conv_wraps conv -> usable (mg_geo g) -> near_local (mg_geo g) (mg_to g) p -> cache = None \/ cache = Some g -> upright (mg_to g) -> t3 (mg_to g) = 0%Qc ->
  let l := aapp (mg_to g) p in surface_at g (this (vx l)) (this (vy l)) (this (vz p)) dev (mls_elevation conv [g] cache p dev).1 /\
  ((mls_elevation conv [g] cache p dev).2 = Some g).
Proof.
  intros HC HU HN Hc HR H3. cbn zeta. assert (HZ : vz (aapp (mg_to g) p) = vz p).
  { destruct p as [px py pz]. destruct (upright_local (mg_to g) px py pz pz HR) as (_&_&->). rewrite H3. cbn [vz]. ring. }
  assert (HE : (mls_elevation conv [g] cache p dev) = (eval_mls conv p dev g, Some g)).
  { destruct Hc as [-> | ->]; cbn [mls_elevation first_grid]; [|done]. by destruct (eval_mls conv p dev g). }
  rewrite HE. cbn [fst snd]. split; [|done]. unfold eval_mls. rewrite HZ. by apply C83_get.
Qed.
(** ... but in a raised frame the height is relative to the frame of the grid, while the position is not (GridAccess adds the offset). *)
Theorem C83_raised_refuted : exists conv g p h d, conv_wraps conv /\ usable (mg_geo g) /\ upright (mg_to g) /\ (mls_elevation conv [g] None p 1).1 = Some (h, d) /\
  ~ (h == this (vz p))%Q /\ forall c q, q ∈ mg_cells g c -> (this (vz (aapp (mg_to g) p)) == sp_mean q)%Q.
Proof.
  exists (fun z => if z <? 0 then z + size_end else z), (MGrid (Geo 2 2 1 1 0 0) (fun _ => [SPatch 2 1 0 KHorizontal]) (Aff 1 0 0 0 1 0 0 0 1 0 0 (Q2Qc (-3)))).
  exists (Vec (Q2Qc (1 # 2)) (Q2Qc (1 # 2)) (Q2Qc 5)), 2%Q, 1%Q.
  split; [split; intros z Hz; unfold size_end, half in *; destruct (Z.ltb_spec z 0); lia|]. split; [unfold usable, good_geo, size_end, half; cbn; repeat split; lia || lra|].
  split; [done|]. split; [vm_compute; reflexivity|]. split; [vm_compute; discriminate|].
  intros c q Hq. cbn in Hq. apply elem_of_list_singleton in Hq as ->. vm_compute. reflexivity.
Qed.
Example C83_nonvacuous : let conv := fun z => if z <? 0 then z + size_end else z in
  let g := MGrid (Geo 2 2 1 1 0 0) (fun c => if decide (c = (1, 0)) then [SPatch 20 1 0 KHorizontal; SPatch 2 (1 # 2) 0 KHorizontal] else []) aone in
  let p := Vec (Q2Qc (3 # 2)) (Q2Qc (1 # 2)) (Q2Qc 3) in
  conv_wraps conv /\ usable (mg_geo g) /\ near_local (mg_geo g) (mg_to g) p /\ upright (mg_to g) /\ (mls_elevation conv [g] None p 1).1 = Some (2, 1 # 2)%Q.
Proof.
  cbn zeta. split; [split; intros z Hz; unfold size_end, half in *; destruct (Z.ltb_spec z 0); lia|]. split; [unfold usable, good_geo, size_end, half; cbn; repeat split; lia || lra|].
  split; [vm_compute; repeat split; congruence|]. split; [done|]. vm_compute. reflexivity.
Qed.

(** ** C84: patches of a map that consists of several grids *)
(** [q] is a patch of the grid [g] below or above [p], close to [o] in height; its mean is given in the frame of the map *)
Definition patch_of (p : vec) (o : spatch) (sigma : Q) (g : mgrid) (q : spatch) : Prop :=
  exists m n r, a_cell (mg_geo g) m n /\ (let l := aapp (mg_to g) p in in_cell (mg_geo g) m n (this (vx l)) (this (vy l))) /\ r ∈ mg_cells g (m, n) /\
  (let h := this (t3 (mg_to g)) in acceptable (SPatch (sp_mean o + h) (sp_dev o) (sp_height o) (sp_kind o)) sigma r /\ q = SPatch (sp_mean r + - h) (sp_dev r) (sp_height r) (sp_kind r)).
(** the remembered grid, if any, is one of the map, and was not moved *)
Definition fresh_cache (gs : list mgrid) (cache : option (mgrid * aff)) : Prop := match cache with Some (g, t) => g ∈ gs /\ t = mg_to g | None => True end.
Lemma patch_in_spec conv g p o sigma : conv_wraps conv -> usable (mg_geo g) -> near_local (mg_geo g) (mg_to g) p ->
  match patch_in conv g (mg_to g) p o sigma with Some q => patch_of p o sigma g q | None => forall q, ~ patch_of p o sigma g q end.
Proof.
  intros HC (Hg&HX&HY) HN. unfold patch_in. destruct (to_grid conv _ _ _) as [[[[m n] xm] ym]|] eqn:E.
  - destruct (to_grid_cell conv _ _ _ _ _ _ _ HC Hg HX HY HN E) as [HA HI]. pose proof (C82_find (mg_cells g (m, n)) (shift_mean (this (t3 (mg_to g))) o) sigma) as HF.
    destruct (find_patch true _ _ _) as [[i r]|]; cbn [fmap option_fmap option_map fst snd].
    + destruct HF as (Hi&Ha&_). exists m, n, r. do 2 (split; [done|]). split; [by eapply elem_of_list_lookup_2|]. done.
    + intros q (m'&n'&r&HA'&HI'&Hr&Ha&_). destruct (in_cell_fun _ _ _ _ _ _ _ Hg HI HI') as [<- <-]. by apply (HF r).
  - intros q (m&n&r&HA&HI&_). by destruct (to_grid_none conv _ _ _ m n (proj1 HC) Hg E HA HI).
Qed.
Lemma search_grids_spec conv gs p o sigma : conv_wraps conv -> (forall g, g ∈ gs -> usable (mg_geo g) /\ near_local (mg_geo g) (mg_to g) p) ->
  match search_grids conv gs p o sigma with
  | Some (q, g) => exists i, gs !! i = Some g /\ patch_of p o sigma g q /\ forall j h q', (j < i)%nat -> gs !! j = Some h -> ~ patch_of p o sigma h q'
  | None => forall g q, g ∈ gs -> ~ patch_of p o sigma g q
  end.
Proof.
  intros HC. induction gs as [|g gs IH]; intros HG; cbn [search_grids]; [intros g q Hg; by apply elem_of_nil in Hg|].
  destruct (HG g (elem_of_list_here _ _)) as [U N]. pose proof (patch_in_spec conv g p o sigma HC U N) as HP. destruct (patch_in conv g (mg_to g) p o sigma) as [q|].
  - exists O. split; [done|]. split; [done|]. intros j h q' Hj. lia.
  - specialize (IH ltac:(intros h Hh; apply HG; by right)). destruct (search_grids conv gs p o sigma) as [[q h]|].
    + destruct IH as (i&Hi&Hs&Hb). exists (S i). split; [done|]. split; [done|]. intros [|j] h' q' Hj Hh; [injection Hh as <-; apply HP|]. apply (Hb j); [lia|done].
    + intros h q [->|Hh]%elem_of_cons; [apply HP|]. by apply IH.
Qed.
(** A patch is found exactly if a grid of the map has a matching one, and is one of those; this holds for all sequences of calls while no grid is moved. *)
Theorem C84_patch conv gs cache p o sigma : conv_wraps conv -> (forall g, g ∈ gs -> usable (mg_geo g) /\ near_local (mg_geo g) (mg_to g) p) -> fresh_cache gs cache ->
  fresh_cache gs (map_patch conv gs cache p o sigma).2 /\
  match (map_patch conv gs cache p o sigma).1 with
  | Some q => exists g, g ∈ gs /\ patch_of p o sigma g q
  | None => forall g q, g ∈ gs -> ~ patch_of p o sigma g q
  end.
Proof.
  intros HC HG HF. unfold map_patch.
  assert (HS : forall b, b = match search_grids conv (reverse gs) p o sigma with Some (q, g) => (Some q, Some (g, mg_to g)) | None => (None, cache) end ->
    fresh_cache gs b.2 /\ match b.1 with Some q => exists g, g ∈ gs /\ patch_of p o sigma g q | None => forall g q, g ∈ gs -> ~ patch_of p o sigma g q end).
  { intros b ->. pose proof (search_grids_spec conv (reverse gs) p o sigma HC) as HS. specialize (HS ltac:(intros g Hg; apply HG; by rewrite elem_of_reverse in Hg)).
    destruct (search_grids conv (reverse gs) p o sigma) as [[q g]|]; cbn [fst snd].
    - destruct HS as (i&Hi&Hs&_). assert (g ∈ gs) by (apply elem_of_reverse; by eapply elem_of_list_lookup_2). split; [done|]. by exists g.
    - split; [done|]. intros g q Hg. apply HS. by apply elem_of_reverse. }
  destruct cache as [[g t]|]; cbn [fresh_cache] in HF.
  - destruct HF as [Hg ->]. destruct (HG g Hg) as [U N]. pose proof (patch_in_spec conv g p o sigma HC U N) as HP. destruct (patch_in conv g (mg_to g) p o sigma) as [q|].
    + cbn [fst snd]. split; [done|]. by exists g.
    + by apply HS.
  - by apply HS.
Qed.
(** The first call answers from the newest grid that has a matching patch ... *)
Theorem C84_newest conv gs p o sigma q : conv_wraps conv -> (forall g, g ∈ gs -> usable (mg_geo g) /\ near_local (mg_geo g) (mg_to g) p) ->
  (map_patch conv gs None p o sigma).1 = Some q -> exists i g, gs !! i = Some g /\ patch_of p o sigma g q /\ forall j h q', (i < j)%nat -> gs !! j = Some h -> ~ patch_of p o sigma h q'.
Proof.
  intros HC HG. unfold map_patch. pose proof (search_grids_spec conv (reverse gs) p o sigma HC) as HS. specialize (HS ltac:(intros g Hg; apply HG; by rewrite elem_of_reverse in Hg)).
  destruct (search_grids conv (reverse gs) p o sigma) as [[q' g]|]; [|done]. cbn [fst]. intros [= ->]. destruct HS as (i&Hi&Hs&Hb). 
  assert (Hl : (i < length gs)%nat) by (apply lookup_lt_Some in Hi; by rewrite reverse_length in Hi).
  rewrite reverse_lookup in Hi by done. exists (length gs - S i)%nat, g. split; [done|]. split; [done|]. intros j h q' Hj Hh. assert (j < length gs)%nat by (by eapply lookup_lt_Some).
  apply (Hb (length gs - S j)%nat); [lia|]. rewrite reverse_lookup by lia. rewrite <-Hh. f_equal. lia.
Qed.
(** ... but later calls prefer the grid of the previous answer. *)
Theorem C84_newest_refuted : exists conv g1 g2 p1 p2 o c q1 q2, conv_wraps conv /\ usable (mg_geo g1) /\ usable (mg_geo g2) /\
  (map_patch conv [g1; g2] None p1 o 3).2 = c /\ (map_patch conv [g1; g2] c p2 o 3).1 = Some q1 /\ (map_patch conv [g1; g2] None p2 o 3).1 = Some q2 /\ q1 <> q2.
Proof.
  exists (fun z => if z <? 0 then z + size_end else z), (MGrid (Geo 4 4 1 1 0 0) (fun _ => [SPatch 1 1 0 KHorizontal]) aone), (MGrid (Geo 2 2 1 1 0 0) (fun _ => [SPatch 2 1 0 KHorizontal]) aone).
  exists (Vec (Q2Qc (7 # 2)) (Q2Qc (7 # 2)) 0), (Vec (Q2Qc (1 # 2)) (Q2Qc (1 # 2)) 0), (SPatch 1 1 0 KHorizontal). do 3 eexists.
  split; [split; intros z Hz; unfold size_end, half in *; destruct (Z.ltb_spec z 0); lia|]. do 2 (split; [unfold usable, good_geo, size_end, half; cbn; repeat split; lia || lra|]).
  split; [reflexivity|]. split; [vm_compute; reflexivity|]. split; [vm_compute; reflexivity|]. discriminate.
Qed.
(** After a grid was moved, patches are still found where it was before. *)
Theorem C84_moved_refuted : exists conv g t p o c q, conv_wraps conv /\ usable (mg_geo g) /\ (map_patch conv [g] None p o 3).2 = c /\
  let g' := MGrid (mg_geo g) (mg_cells g) t in (map_patch conv [g'] c p o 3).1 = Some q /\ (map_patch conv [g'] None p o 3).1 = None.
Proof.
  exists (fun z => if z <? 0 then z + size_end else z), (MGrid (Geo 4 4 1 1 0 0) (fun _ => [SPatch 1 1 0 KHorizontal]) aone), (Aff 1 0 0 0 1 0 0 0 1 (Q2Qc 100) 0 0).
  exists (Vec (Q2Qc (7 # 2)) (Q2Qc (7 # 2)) 0), (SPatch 1 1 0 KHorizontal). do 2 eexists.
  split; [split; intros z Hz; unfold size_end, half in *; destruct (Z.ltb_spec z 0); lia|]. split; [unfold usable, good_geo, size_end, half; cbn; repeat split; lia || lra|].
  split; [reflexivity|]. cbn zeta. split; vm_compute; reflexivity.
Qed.
Example C84_nonvacuous : let conv := fun z => if z <? 0 then z + size_end else z in
  let g1 := MGrid (Geo 4 4 1 1 0 0) (fun _ => [SPatch 1 1 0 KHorizontal]) aone in let g2 := MGrid (Geo 2 2 1 1 0 0) (fun _ => [SPatch 2 1 0 KHorizontal]) (Aff 1 0 0 0 1 0 0 0 1 0 0 (Q2Qc 1)) in
  let p := Vec (Q2Qc (1 # 2)) (Q2Qc (1 # 2)) 0 in
  conv_wraps conv /\ (forall g, g ∈ [g1; g2] -> usable (mg_geo g) /\ near_local (mg_geo g) (mg_to g) p) /\ fresh_cache [g1; g2] (Some (g1, mg_to g1)) /\
  (map_patch conv [g1; g2] None p (SPatch 1 1 0 KHorizontal) 3).1 = Some (SPatch 1 1 0 KHorizontal).
Proof.
  cbn zeta. split; [split; intros z Hz; unfold size_end, half in *; destruct (Z.ltb_spec z 0); lia|]. split.
  - intros g Hg. apply elem_of_cons in Hg as [->|Hg]; [|apply elem_of_cons in Hg as [->|Hg]; [|by apply elem_of_nil in Hg]];
      (split; [unfold usable, good_geo, size_end, half; cbn; repeat split; lia || lra|vm_compute; repeat split; congruence]).
  - split; [split; [left|done]|]. vm_compute. reflexivity.
Qed.

(** ** C85: new grids of a map, and the choice of the active one *)
Lemma this_q2qc q : (this (Q2Qc q) == q)%Q.
Proof. cbn [this Q2Qc]. apply Qred_correct. Qed.
Lemma align_down_spec x s : (0 < s)%Q -> (align_down x s <= x /\ x < align_down x s + s)%Q.
Proof.
  intros Hs. unfold align_down. pose proof (proj1 (floor_spec (x / s) _) eq_refl) as [H1 H2]. apply (div_le _ _ _ Hs) in H1.
  assert (H3 : (x < (inject_Z (Qfloor (x / s)) + 1) * s)%Q) by (apply (div_lt _ _ _ Hs); done). split; [done|]. lra.
Qed.
(** An aligned frame is upright, lies less than one cell below the wanted position in each direction of the plane, and keeps the height. *)
Theorem C85_position sx sy t : (0 < sx)%Q -> (0 < sy)%Q -> let f := created_frame true sx sy t in
  translation f /\ (this (t1 f) <= this (t1 t) /\ this (t1 t) < this (t1 f) + sx)%Q /\ (this (t2 f) <= this (t2 t) /\ this (t2 t) < this (t2 f) + sy)%Q /\ t3 f = t3 t.
Proof.
  intros Hx Hy. cbn zeta. unfold created_frame. cbn [t1 t2 t3]. rewrite !this_q2qc. split; [by eexists _, _, _|].
  split; [by apply align_down_spec|]. split; [by apply align_down_spec|done].
Qed.
(** The cells of a grid that is created relative to the active one, in an upright frame, are cells of the active one. *)
Theorem C85_cells to_int f g t : int_conv to_int -> good_geo g -> translation f -> -2147483648 <= Qfloor (this (t1 t) / g_sx g) < 2147483648 -> -2147483648 <= Qfloor (this (t2 t) / g_sy g) < 2147483648 ->
  cell_aligned to_int (amul f (created_frame true (g_sx g) (g_sy g) t)) f g g = true.
Proof.
  intros HC Hg (x&y&z&->) Rx Ry. pose proof Hg as (Hsx&Hsy&_). unfold created_frame.
  set (i := Qfloor (this (t1 t) / g_sx g)) in *. set (j := Qfloor (this (t2 t) / g_sy g)) in *. unfold align_down. fold i j.
  set (f := Aff 1 0 0 0 1 0 0 0 1 x y z). set (c := Aff 1 0 0 0 1 0 0 0 1 (Q2Qc (inject_Z i * g_sx g)) (Q2Qc (inject_Z j * g_sy g)) (t3 t)).
  assert (Hf : amul f c = Aff 1 0 0 0 1 0 0 0 1 (Q2Qc (inject_Z i * g_sx g) + x) (Q2Qc (inject_Z j * g_sy g) + y) (t3 t + z)) by (unfold amul, f, c; cbn; f_equal; ring).
  assert (HM : forall m n, (this (vx (world_centre (amul f c) g m n)) == fst (from_grid g m n) + (inject_Z i * g_sx g + this x) /\
     this (vy (world_centre (amul f c) g m n)) == snd (from_grid g m n) + (inject_Z j * g_sy g + this y))%Q).
  { intros m n. rewrite Hf. unfold world_centre. generalize (fst (from_grid g m n)), (snd (from_grid g m n)). intros u v.
    assert (Hv : aapp (Aff 1 0 0 0 1 0 0 0 1 (Q2Qc (inject_Z i * g_sx g) + x) (Q2Qc (inject_Z j * g_sy g) + y) (t3 t + z)) (Vec (Q2Qc u) (Q2Qc v) 0) =
      Vec (Q2Qc u + (Q2Qc (inject_Z i * g_sx g) + x)) (Q2Qc v + (Q2Qc (inject_Z j * g_sy g) + y)) (t3 t + z)) by (unfold aapp; cbn; f_equal; ring).
    rewrite Hv. cbn [vx vy]. unfold Qcplus. cbn [this Q2Qc]. rewrite !Qred_correct. split; reflexivity. }
  assert (HA : forall m n, (this (vx (world_centre f g m n)) == fst (from_grid g m n) + this x /\ this (vy (world_centre f g m n)) == snd (from_grid g m n) + this y)%Q).
  { intros m n. unfold world_centre. generalize (fst (from_grid g m n)), (snd (from_grid g m n)). intros u v.
    assert (Hv : aapp f (Vec (Q2Qc u) (Q2Qc v) 0) = Vec (Q2Qc u + x) (Q2Qc v + y) z) by (unfold aapp, f; cbn; f_equal; ring).
    rewrite Hv. cbn [vx vy]. unfold Qcplus. cbn [this Q2Qc]. rewrite !Qred_correct. split; reflexivity. }
  apply (C80_cells to_int (amul f c) f g g HC Hg Hg); [rewrite Hf; by eexists _, _, _|by eexists _, _, _| |].
  - intros i' j' HE. specialize (HE 0 0) as [E1 E2]. destruct (HM 0 0) as [M1 M2]. destruct (HA (0 + i') (0 + j')) as [A1 A2]. rewrite M1, A1 in E1. rewrite M2, A2 in E2.
    unfold from_grid in E1, E2. cbn [fst snd] in E1, E2. rewrite inject_Z_plus in E1, E2. change (inject_Z 0) with 0%Q in E1, E2.
    assert (Hi : (inject_Z i == inject_Z i')%Q) by (apply (Qmult_inj_r _ _ (g_sx g)); [intros H0; rewrite H0 in Hsx; by apply Qlt_irrefl in Hsx|lra]).
    assert (Hj : (inject_Z j == inject_Z j')%Q) by (apply (Qmult_inj_r _ _ (g_sy g)); [intros H0; rewrite H0 in Hsy; by apply Qlt_irrefl in Hsy|lra]).
    apply (proj1 (inject_Z_injective _ _)) in Hi; apply (proj1 (inject_Z_injective _ _)) in Hj. clearbody i j. subst i' j'. done.
  - split; [split; reflexivity|]. exists i, j. intros m n. destruct (HM m n) as [M1 M2]. destruct (HA (m + i) (n + j)) as [A1 A2]. rewrite M1, M2, A1, A2.
    unfold from_grid. cbn [fst snd]. rewrite !inject_Z_plus. split; ring.
Qed.
(** A grid that is created relative to the map is aligned to the frame of the map, not to the cells of the active grid. *)
Theorem C85_relative_refuted : exists to_int fm f g t, int_conv to_int /\ good_geo g /\ translation fm /\ translation f /\
  cell_aligned to_int (amul fm (created_frame true (g_sx g) (g_sy g) t)) f g g = false.
Proof.
  exists Qfloor, aone, (Aff 1 0 0 0 1 0 0 0 1 (Q2Qc (1 # 2)) 0 0), (Geo 4 4 1 1 0 0), aone.
  split; [intros q z Hq _; by rewrite (Qfloor_comp _ _ Hq), Qfloor_Z|]. split; [unfold good_geo, size_end; cbn; repeat split; lia || lra|].
  split; [by eexists _, _, _|]. split; [by eexists _, _, _|]. vm_compute. reflexivity.
Qed.
Lemma select_grid_spec ts : forall i best dist, 
  match select_grid ts i best dist with
  | Some k => (best = Some k /\ forall t, t ∈ ts -> (dist <= plane_dist t)%Q) \/
     exists j t, k = (i + j)%nat /\ ts !! j = Some t /\ (plane_dist t < dist)%Q /\ (forall u, u ∈ ts -> (plane_dist t <= plane_dist u)%Q) /\
       forall j' u, (j' < j)%nat -> ts !! j' = Some u -> (plane_dist t < plane_dist u)%Q
  | None => best = None /\ forall t, t ∈ ts -> (dist <= plane_dist t)%Q
  end.
Proof.
  induction ts as [|t ts IH]; intros i best dist; cbn [select_grid].
  { destruct best; [left|]; (split; [done|]); intros t Ht; by apply elem_of_nil in Ht. }
  destruct (Qlt_le_dec (plane_dist t) dist) as [H|H].
  - specialize (IH (S i) (Some i) (plane_dist t)). destruct (select_grid ts (S i) (Some i) (plane_dist t)) as [k|]; [|destruct IH as [? _]; done]. right.
    destruct IH as [[E Hm]|(j&u&->&Hj&Hlt&Hm&Hb)].
    + injection E as <-. exists O, t. split; [lia|]. split; [done|]. split; [done|]. split; [|intros; lia]. intros u [->|Hu]%elem_of_cons; [apply Qle_refl|]. by apply Hm.
    + exists (S j), u. split; [lia|]. split; [done|]. split; [lra|]. split.
      * intros v [->|Hv]%elem_of_cons; [lra|]. by apply Hm.
      * intros [|j'] v Hj' Hv; [injection Hv as <-; lra|]. apply (Hb j'); [lia|done].
  - specialize (IH (S i) best dist). destruct (select_grid ts (S i) best dist) as [k|].
    + destruct IH as [[-> Hm]|(j&u&->&Hj&Hlt&Hm&Hb)].
      * left. split; [done|]. intros u [->|Hu]%elem_of_cons; auto.
      * right. exists (S j), u. split; [lia|]. split; [done|]. split; [done|]. split.
        -- intros v [->|Hv]%elem_of_cons; [lra|]. by apply Hm.
        -- intros [|j'] v Hj' Hv; [injection Hv as <-; lra|]. apply (Hb j'); [lia|done].
    + destruct IH as [-> Hm]. split; [done|]. intros u [->|Hu]%elem_of_cons; auto.
Qed.
(** how far the origin of the frame [fn] is from that of the frame [f], along the first or the second axis of [f], whichever is more *)
Definition frame_dist (fn f : aff) : Q :=
  let o := aapp (ainv f) (aapp fn (Vec 0 0 0)) in let x := Qabs (this (vx o)) in let y := Qabs (this (vy o)) in if Qlt_le_dec x y then y else x.
Lemma qabs_abs a : qabs a = Qabs a.
Proof. destruct a as [n d]. unfold qabs. destruct (Qlt_le_dec (n # d) 0) as [H|H]; unfold Qlt, Qle in H; cbn in H; unfold Qabs, Qopp; cbn; f_equal; lia. Qed.
Lemma frame_dist_plane fn f : frame_dist fn f = plane_dist (amul (ainv f) fn).
Proof.
  unfold frame_dist, plane_dist, qmaxb. rewrite !qabs_abs. cbv zeta. rewrite <-aapp_mul.
  assert (E : forall t, vx (aapp t (Vec 0 0 0)) = t1 t /\ vy (aapp t (Vec 0 0 0)) = t2 t) by (intros t; unfold aapp; cbn; split; ring).
  destruct (E (amul (ainv f) fn)) as [-> ->]. done.
Qed.
(** If a grid is closer than the threshold, a closest one becomes active and no grid is made; otherwise a new grid is made active, whose frame lies within
    one cell of the wanted position. *)
Theorem C85_select sx sy frames active fn threshold : (0 < sx)%Q -> (0 < sy)%Q -> (active < length frames)%nat -> (forall f, f ∈ frames -> adet f <> 0%Qc) ->
  exists frames' i, select_active sx sy frames active fn threshold = Ok (frames', i) /\
  ((exists f, f ∈ frames /\ frame_dist fn f < threshold)%Q ->
     frames' = frames /\ exists f, frames !! i = Some f /\ (frame_dist fn f < threshold)%Q /\ forall h, h ∈ frames -> (frame_dist fn f <= frame_dist fn h)%Q) /\
  ((forall f, f ∈ frames -> threshold <= frame_dist fn f)%Q ->
     exists f n, frames !! active = Some f /\ frames' = frames ++ [n] /\ frames' !! i = Some n /\
     let want := amul (ainv f) fn in let got := amul (ainv f) n in
     (this (t1 got) <= this (t1 want) /\ this (t1 want) < this (t1 got) + sx)%Q /\ (this (t2 got) <= this (t2 want) /\ this (t2 want) < this (t2 got) + sy)%Q /\ t3 got = t3 want).
Proof.
  intros Hx Hy Hact Hdet. unfold select_active. pose proof (select_grid_spec ((fun f => amul (ainv f) fn) <$> frames) 0 None threshold) as HS.
  destruct (select_grid _ 0 None threshold) as [k|].
  - destruct HS as [[? _]|(j&t&->&Hj&Hlt&Hm&_)]; [done|]. exists frames, j. split; [done|]. apply list_lookup_fmap_inv in Hj as (f&->&Hf). split.
    + intros _. split; [done|]. exists f. split; [done|]. rewrite !frame_dist_plane. split; [done|]. intros h Hh. rewrite frame_dist_plane. apply Hm. apply elem_of_list_fmap. by exists h.
    + intros Hall. specialize (Hall f (elem_of_list_lookup_2 _ _ _ Hf)). rewrite frame_dist_plane in Hall. revert Hlt Hall. clear. cbv beta. generalize (plane_dist (amul (ainv f) fn)). intros d H1 H2. exfalso. lra.
  - destruct HS as [_ HS]. destruct (lookup_lt_is_Some_2 frames active Hact) as [f Hf]. rewrite Hf. eexists _, _. split; [reflexivity|]. split.
    + intros (h&Hh&Hlt). exfalso. specialize (HS (amul (ainv h) fn) ltac:(apply elem_of_list_fmap; by exists h)). rewrite frame_dist_plane in Hlt. revert Hlt HS. clear. generalize (plane_dist (amul (ainv h) fn)). intros d H1 H2. lra.
    + intros _. eexists f, _. split; [done|]. split; [reflexivity|]. split; [by rewrite lookup_app_r, Nat.sub_diag by lia|]. cbn zeta.
      rewrite amul_assoc, ainv_l, amul_1_l by (apply Hdet; by eapply elem_of_list_lookup_2).
      destruct (C85_position sx sy (amul (ainv f) fn) Hx Hy) as (_&H1&H2&H3). exact (conj H1 (conj H2 H3)).
Qed.
Example C85_nonvacuous : let frames := [aone; Aff 1 0 0 0 1 0 0 0 1 (Q2Qc 10) 0 0] in let at_ x := Aff 1 0 0 0 1 0 0 0 1 (Q2Qc x) 0 0 in
  (forall f, f ∈ frames -> adet f <> 0%Qc) /\ snd <$> (match select_active (1 # 2) 1 frames 0 (at_ 9%Q) 5 with Ok r => Some r | _ => None end) = Some 1%nat /\
  match select_active (1 # 2) 1 frames 0 (at_ (101 # 5)) 5 with Ok (fs, i) => i = 2%nat /\ (fun f => this (t1 f)) <$> fs = [0; 10; 20]%Q | _ => False end.
Proof.
  cbn zeta. split; [intros f Hf; apply elem_of_cons in Hf as [->|Hf]; [|apply elem_of_cons in Hf as [->|Hf]; [|by apply elem_of_nil in Hf]]; intros H; apply (f_equal this) in H; vm_compute in H; discriminate H|].
  split; [vm_compute; reflexivity|]. vm_compute. split; reflexivity.
Qed.

(** ** C86: the parts of a map segment *)
Lemma nearest_part_spec ds : forall i best, match best with Some _ => True | None => True end ->
  match nearest_part ds i best with
  | None => ds = [] /\ best = None
  | Some (k, d) => (forall e, e ∈ ds -> (d <= e)%Q) /\ (match best with Some (_, b) => (d <= b)%Q | None => True end) /\
     (best = Some (k, d) \/ exists j, k = (i + j)%nat /\ ds !! j = Some d)
  end.
Proof.
  induction ds as [|e ds IH]; intros i best _; cbn [nearest_part].
  { destruct best as [[k d]|]; [|done]. split; [intros e He; by apply elem_of_nil in He|]. split; [apply Qle_refl|by left]. }
  set (b := match best with Some (_, b) => if Qlt_le_dec e b then Some (i, e) else best | None => Some (i, e) end).
  specialize (IH (S i) b ltac:(by destruct b)). destruct (nearest_part ds (S i) b) as [[k d]|].
  - destruct IH as (Hm&Hb&Hw). subst b. destruct best as [[k0 b0]|].
    + destruct (Qlt_le_dec e b0) as [H|H].
      * split; [intros e' [->|He]%elem_of_cons; auto|]. split; [lra|]. right. destruct Hw as [E|(j&->&Hj)]; [injection E as <- <-; exists O; split; [lia|done]|].
        exists (S j). split; [lia|done].
      * split; [intros e' [->|He]%elem_of_cons; [lra|auto]|]. split; [lra|]. destruct Hw as [E|(j&->&Hj)]; [by left|]. right. exists (S j). split; [lia|done].
    + split; [intros e' [->|He]%elem_of_cons; auto|]. split; [done|]. right. destruct Hw as [E|(j&->&Hj)]; [injection E as <- <-; exists O; split; [lia|done]|].
      exists (S j). split; [lia|done].
  - destruct IH as [_ IH]. subst b. destruct best as [[k0 b0]|]; [|done]. by destruct (Qlt_le_dec e b0).
Qed.
(** The part whose pose is closest to the wanted one is returned, whenever there are parts. *)
Theorem C86_pose ds : match nearest_part ds 0 None with Some (i, d) => ds !! i = Some d /\ forall e, e ∈ ds -> (d <= e)%Q | None => ds = [] end.
Proof.
  pose proof (nearest_part_spec ds 0 None I) as H. destruct (nearest_part ds 0 None) as [[i d]|]; [|by destruct H].
  destruct H as (Hm&_&[?|(j&->&Hj)]); [done|]. done.
Qed.
Lemma best_part_spec ws : forall i best w,
  match best_part ws i best w with
  | Some k => (best = Some k /\ forall v, v ∈ ws -> (v <= w)%Q) \/ exists j v, k = (i + j)%nat /\ ws !! j = Some v /\ (w < v)%Q /\ forall u, u ∈ ws -> (u <= v)%Q
  | None => best = None /\ forall v, v ∈ ws -> (v <= w)%Q
  end.
Proof.
  induction ws as [|v ws IH]; intros i best w; cbn [best_part].
  { destruct best; [left|]; (split; [done|]); intros t Ht; by apply elem_of_nil in Ht. }
  destruct (Qlt_le_dec w v) as [H|H].
  - specialize (IH (S i) (Some i) v). destruct (best_part ws (S i) (Some i) v) as [k|]; [|destruct IH as [? _]; done]. right.
    destruct IH as [[E Hm]|(j&u&->&Hj&Hlt&Hm)].
    + injection E as <-. exists O, v. split; [lia|]. split; [done|]. split; [done|]. intros u [->|Hu]%elem_of_cons; [apply Qle_refl|auto].
    + exists (S j), u. split; [lia|]. split; [done|]. split; [lra|]. intros u' [->|Hu]%elem_of_cons; [lra|auto].
  - specialize (IH (S i) best w). destruct (best_part ws (S i) best w) as [k|].
    + destruct IH as [[-> Hm]|(j&u&->&Hj&Hlt&Hm)].
      * left. split; [done|]. intros u [->|Hu]%elem_of_cons; auto.
      * right. exists (S j), u. split; [lia|]. split; [done|]. split; [done|]. intros u' [->|Hu]%elem_of_cons; [lra|auto].
    + destruct IH as [-> Hm]. split; [done|]. intros u [->|Hu]%elem_of_cons; auto.
Qed.
(** The part with the largest weight is returned, and nothing if no weight is positive. *)
Theorem C86_best ws : match best_part ws 0 None 0 with Some i => exists w, ws !! i = Some w /\ (0 < w)%Q /\ forall v, v ∈ ws -> (v <= w)%Q | None => forall v, v ∈ ws -> (v <= 0)%Q end.
Proof.
  pose proof (best_part_spec ws 0 None 0) as H. destruct (best_part ws 0 None 0) as [i|]; [|by destruct H].
  destruct H as [[? _]|(j&w&->&Hj&Hlt&Hm)]; [done|]. by exists w.
Qed.
(** The distribution that [update] leaves behind, a single Gaussian of weight 1, is the one that is returned; with integer weights it is the largest one ... *)
Theorem C86_transform trunc ws : (forall z, trunc (inject_Z z) = z) -> (forall v, v ∈ ws -> exists z, v = inject_Z z) ->
  match best_gaussian trunc ws 0 None 0 with Some i => exists w, ws !! i = Some w /\ (0 < w)%Q /\ forall v, v ∈ ws -> (v <= w)%Q | None => forall v, v ∈ ws -> (v <= 0)%Q end.
Proof.
  intros HT HW. assert (HE : forall i best z, best_gaussian trunc ws i best z = best_part ws i best (inject_Z z)).
  { clear - HT HW. induction ws as [|v ws IH]; intros i best z; [done|]. cbn [best_gaussian best_part]. destruct (HW v (elem_of_list_here _ _)) as [u ->].
    assert (HW' : forall v, v ∈ ws -> exists z, v = inject_Z z) by (intros; apply HW; by right).
    destruct (Qlt_le_dec (inject_Z z) (inject_Z u)); [rewrite HT|]; by apply IH. }
  rewrite HE. apply C86_best.
Qed.
(** ... but with other weights a Gaussian with a smaller weight may be returned, since the largest weight is stored in an integer. *)
Theorem C86_weights_refuted trunc : trunc (9 # 10)%Q = 0 -> exists ws i w v, best_gaussian trunc ws 0 None 0 = Some i /\ ws !! i = Some w /\ v ∈ ws /\ (w < v)%Q.
Proof.
  intros HT. exists [9 # 10; 1 # 10]%Q, 1%nat, (1 # 10)%Q, (9 # 10)%Q. cbn [best_gaussian].
  destruct (Qlt_le_dec (inject_Z 0) (9 # 10)) as [_|H]; [|by vm_compute in H]. rewrite HT. destruct (Qlt_le_dec (inject_Z 0) (1 # 10)) as [_|H]; [|by vm_compute in H].
  split; [done|]. split; [done|]. split; [left|vm_compute; reflexivity].
Qed.
Example C86_nonvacuous : nearest_part [5; 2; 3; 2]%Q 0 None = Some (1%nat, 2%Q) /\ best_part [1 # 2; 3; 1]%Q 0 None 0 = Some 1%nat /\ best_gaussian Qfloor [1]%Q 0 None 0 = Some O.
Proof. split; [|split]; vm_compute; reflexivity. Qed.
