(** Statistics of the cells in a rectangle: src/maps/TraversabilityGrid.cpp:16-86, 97-139 and 141-153.  C138.

    The cells of a rectangle are those of C34, the table of distances that of C45, the statistic that of C37, the worst class that of C57.
    Simplifications: as there; distances are squared, as in Lut.v (the least square is the square of the least distance). The table of distances to a box, which
    is not used without a border, is left out. *)
From stdpp Require Import prelude.
From Coq Require Import ZArith QArith Qround Qabs Lqa.
From Verif Require Import Base Bresenham GridModel GridProps RectProps.
From Verif Require Trav Lut Growing.
Local Open Scope Z_scope.

(** ** Model *)
Section model.
  Context (conv : Z -> Z).
  (** [std::max], TraversabilityGrid.cpp:38 *)
  Definition larger (a b : Q) : Q := if Qlt_le_dec a b then b else a.
  (** TraversabilityGrid.cpp:49-52, one call: the class of the cell and the distance to the cell of the centre, [None] if that was not initialised (line 46) *)
  Definition add_inner (scale radius : Q) (centre : option pos) (data : pos -> nat) (p : pos) (st : Trav.stat) : out Trav.stat Trav.stat :=
    match centre with
    | None => Bad UB
    | Some m =>
      match Lut.radial_get scale radius (fst p - fst m) (snd p - snd m) with
      | Ok d => Trav.add_measurement (data p) d st
      | Throw _ => Throw st
      | Bad e => Bad e
      | NoFuel => NoFuel
      end
    end.
  (** TraversabilityGrid.cpp:81-86 with the constructor of the helper (32-47) and a new statistic. The result of forEachInRectangle is ignored. *)
  Definition compute_statistic (fuel : nat) (g : geo) (data : pos -> nat) (pose : Q * Q) (c s sx sy : Q) : out Trav.stat Trav.stat :=
    let centre := match to_grid conv g (fst pose) (snd pose) with Some (x, y, _, _) => Some (x, y) | None => None end in
    match for_each_in_rectangle conv fuel g pose c s sx sy with
    | Ok None => Ok Trav.new_stat
    | Ok (Some calls) => iter_out (add_inner (g_sx g) (larger sx sy) centre data) calls Trav.new_stat
    | Throw _ => Throw Trav.new_stat
    | Bad e => Bad e
    | NoFuel => NoFuel
    end.
  (** TraversabilityGrid.cpp:97-139 *)
  Definition worst_in_rectangle (fuel : nat) (g : geo) (cl : list Trav.tclass) (data : pos -> nat) (pose : Q * Q) (c s sx sy : Q) : out unit Trav.tclass :=
    match compute_statistic fuel g data pose c s sx sy with Ok st => Trav.worst_class cl st | Throw _ => Throw tt | Bad e => Bad e | NoFuel => NoFuel end.
  (** TraversabilityGrid.cpp:141-153; [prob]: the bytes of the band, read as in 240-245 *)
  Definition worst_probability (fuel : nat) (g : geo) (prob : pos -> Z) (pose : Q * Q) (c s sx sy : Q) : out unit Q :=
    r <~ for_each_in_rectangle conv fuel g pose c s sx sy ;;
    Ok (foldl (fun worst p => let cur := (inject_Z (prob p) / 255)%Q in if Qlt_le_dec cur worst then cur else worst) 1%Q (default [] r)).
End model.

(** ** The cells of a rectangle are near its centre *)
Lemma sum_abs c s : (c * c + s * s == 1)%Q -> (Qabs c + Qabs s <= 3 # 2)%Q.
Proof.
  intros H. assert (Hc : (Qabs c * Qabs c == c * c)%Q) by (rewrite <-Qabs_Qmult; apply Qabs_pos; nra). assert (Hs : (Qabs s * Qabs s == s * s)%Q) by (rewrite <-Qabs_Qmult; apply Qabs_pos; nra).
  pose proof (Qabs_nonneg c). pose proof (Qabs_nonneg s). destruct (Qlt_le_dec (3 # 2) (Qabs c + Qabs s)) as [Hlt|]; [|done]. exfalso.
  generalize dependent (Qabs c). generalize dependent (Qabs s). intros x Hx Hx0 y Hy Hy0 Hlt. assert ((9 # 4) < (x + y) * (x + y))%Q by nra. assert (HQ : (0 <= (x - y) * (x - y))%Q) by (destruct (Qlt_le_dec x y); nra). nra.
Qed.
Lemma turned c s u v h : (c * c + s * s == 1)%Q -> (- h <= u <= h)%Q -> (- h <= v <= h)%Q -> (- ((3 # 2) * h) <= c * u + s * v <= (3 # 2) * h)%Q.
Proof.
  intros Hcs Hu Hv. pose proof (sum_abs c s Hcs) as HA. assert (Hh : (0 <= h)%Q) by lra.
  assert (HM : forall a w, (- h <= w <= h)%Q -> (- (Qabs a * h) <= a * w <= Qabs a * h)%Q).
  { intros a w Hw. destruct (Qlt_le_dec a 0) as [Ha|Ha]; [rewrite (Qabs_neg a) by lra|rewrite (Qabs_pos a) by lra]; nra. }
  pose proof (HM c u Hu). pose proof (HM s v Hv). assert ((Qabs c + Qabs s) * h <= (3 # 2) * h)%Q by (apply Qmult_le_compat_r; done). lra.
Qed.
Lemma outline_box P b a : outlined P b -> a ∈ b ->
  (exists k k', (k = c_ul P \/ k = c_ur P \/ k = c_dl P \/ k = c_dr P) /\ (k' = c_ul P \/ k' = c_ur P \/ k' = c_dl P \/ k' = c_dr P) /\ fst k <= fst a <= fst k') /\
  (exists k k', (k = c_ul P \/ k = c_ur P \/ k = c_dl P \/ k = c_dr P) /\ (k' = c_ul P \/ k' = c_ur P \/ k' = c_dl P \/ k' = c_dr P) /\ snd k <= snd a <= snd k').
Proof.
  intros (l1&l2&l3&l4&HP&S1&S2&S3&S4) Ha. rewrite HP in Ha.
  assert (HG : forall p q l, straight p q l -> (p = c_ul P \/ p = c_ur P \/ p = c_dl P \/ p = c_dr P) -> (q = c_ul P \/ q = c_ur P \/ q = c_dl P \/ q = c_dr P) -> a ∈ l ->
    (exists k k', (k = c_ul P \/ k = c_ur P \/ k = c_dl P \/ k = c_dr P) /\ (k' = c_ul P \/ k' = c_ur P \/ k' = c_dl P \/ k' = c_dr P) /\ fst k <= fst a <= fst k') /\
    (exists k k', (k = c_ul P \/ k = c_ur P \/ k = c_dl P \/ k = c_dr P) /\ (k' = c_ul P \/ k' = c_ur P \/ k' = c_dl P \/ k' = c_dr P) /\ snd k <= snd a <= snd k')).
  { intros p q l HS Hp Hq Hl. destruct (st_box _ _ _ HS a Hl) as [HX HY]. split.
    - destruct (Z.le_ge_cases (fst p) (fst q)); [exists p, q|exists q, p]; (split; [done|]); (split; [done|]); unfold pos in *; lia.
    - destruct (Z.le_ge_cases (snd p) (snd q)); [exists p, q|exists q, p]; (split; [done|]); (split; [done|]); unfold pos in *; lia. }
  rewrite !elem_of_app in Ha. destruct Ha as [[Ha|Ha]|[Ha|Ha]].
  - apply (HG _ _ _ S1); auto.
  - destruct S2 as [S2|S2]; apply (HG _ _ _ S2); auto.
  - destruct S3 as [S3|S3]; apply (HG _ _ _ S3); auto.
  - apply (HG _ _ _ S4); auto.
Qed.
(** one axis: a cell between sub-cells of points within [r] of the centre *)
Lemma axis_near o sc a e p m w w' z r : (0 < sc)%Q -> a / 10 <= p <= e / 10 ->
  (w < o + (inject_Z a + 1) * (sc / 10))%Q -> (o + inject_Z e * (sc / 10) <= w')%Q -> (z - r <= w)%Q -> (w' <= z + r)%Q ->
  (o + inject_Z m * sc <= z)%Q -> (z < o + (inject_Z m + 1) * sc)%Q -> (inject_Z (Z.abs (p - m)) * sc < r + sc)%Q.
Proof.
  intros Hs [H1 H2] W1 W2 Z1 Z2 M1 M2.
  assert (A1 : a + 1 <= 10 * (p + 1)) by (pose proof (Z.mod_pos_bound a 10); pose proof (Z.div_mod a 10); lia).
  assert (A2 : 10 * p <= e) by (pose proof (Z.mod_pos_bound e 10); pose proof (Z.div_mod e 10); lia).
  rewrite Zle_Qle in A1, A2. rewrite !inject_Z_plus, inject_Z_mult, inject_Z_plus in A1. rewrite inject_Z_mult in A2. change (inject_Z 1) with 1%Q in *. change (inject_Z 10) with 10%Q in *.
  assert (B1 : ((inject_Z a + 1) * (sc / 10) <= (inject_Z p + 1) * sc)%Q) by (assert ((inject_Z a + 1) * (sc / 10) == (inject_Z a + 1) * sc / 10)%Q by field; apply Qmult_le_r with (z := 10%Q); [lra|]; assert (((inject_Z a + 1) * (sc / 10) * 10 == (inject_Z a + 1) * sc)%Q) as -> by field; nra).
  assert (B2 : (inject_Z p * sc <= inject_Z e * (sc / 10))%Q) by (apply Qmult_le_r with (z := 10%Q); [lra|]; assert ((inject_Z e * (sc / 10) * 10 == inject_Z e * sc)%Q) as -> by field; nra).
  destruct (Z.abs_spec (p - m)) as [[_ ->]|[_ ->]]; unfold Z.sub; rewrite ?inject_Z_opp, inject_Z_plus, ?inject_Z_opp; nra.
Qed.
(** every corner is within three quarters of the larger size of the centre, in both axes *)
Lemma corner_near pose c s sx sy w : (c * c + s * s == 1)%Q -> (0 <= sx)%Q -> (0 <= sy)%Q ->
  (exists a b : Q, (a = 1 \/ a = -1)%Q /\ (b = 1 \/ b = -1)%Q /\ rect_point pose c s sx sy a b w) ->
  (fst pose - (3 # 4) * larger sx sy <= fst w <= fst pose + (3 # 4) * larger sx sy)%Q /\ (snd pose - (3 # 4) * larger sx sy <= snd w <= snd pose + (3 # 4) * larger sx sy)%Q.
Proof.
  intros Hcs Hx Hy (a&b&Ha&Hb&[E1 E2]).
  assert (HL : (sx <= larger sx sy /\ sy <= larger sx sy)%Q) by (unfold larger; destruct (Qlt_le_dec sx sy); lra). destruct HL as [L1 L2].
  assert (Hu : (- (larger sx sy / 2) <= a * (sx / 2) <= larger sx sy / 2)%Q) by (clear - Ha L1 Hx; generalize dependent (larger sx sy); intros L L1; unfold Qdiv; change (/ 2)%Q with (1 # 2)%Q; destruct Ha as [-> | ->]; split; lra).
  assert (Hv : (- (larger sx sy / 2) <= b * (sy / 2) <= larger sx sy / 2)%Q) by (clear - Hb L2 Hy; generalize dependent (larger sx sy); intros L L2; unfold Qdiv; change (/ 2)%Q with (1 # 2)%Q; destruct Hb as [-> | ->]; split; lra).
  assert (Hcs' : (s * s + c * c == 1)%Q) by (rewrite Qplus_comm; exact Hcs).
  assert (Hcs'' : (c * c + (- s) * (- s) == 1)%Q) by (rewrite <-Hcs; ring).
  pose proof (turned c (- s) _ _ _ Hcs'' Hu Hv) as T1. pose proof (turned s c _ _ _ Hcs' Hu Hv) as T2.
  rewrite E1, E2. set (U := (a * (sx / 2))%Q) in *. set (V := (b * (sy / 2))%Q) in *. assert (EN : (c * U - s * V == c * U + - s * V)%Q) by ring. rewrite EN. set (T := (c * U + - s * V)%Q) in *. set (T' := (s * U + c * V)%Q) in *. clearbody T T'. clear - T1 T2. set (L := larger sx sy) in *. clearbody L. unfold Qdiv in *. change (/ 2)%Q with (1 # 2)%Q in *. repeat split; lra.
Qed.
Lemma all_corners_near pose c s sx sy k : (c * c + s * s == 1)%Q -> (0 <= sx)%Q -> (0 <= sy)%Q -> let w := rect_corners pose c s sx sy in
  (k = c_ul w \/ k = c_ur w \/ k = c_dl w \/ k = c_dr w) ->
  (fst pose - (3 # 4) * larger sx sy <= fst k <= fst pose + (3 # 4) * larger sx sy)%Q /\ (snd pose - (3 # 4) * larger sx sy <= snd k <= snd pose + (3 # 4) * larger sx sy)%Q.
Proof.
  intros Hcs Hx Hy w Hk. apply (corner_near pose c s sx sy k Hcs Hx Hy). destruct (C34_corners pose c s sx sy) as (a&b&Ha&Hb&R1&R2&R3&R4). fold w in R1, R2, R3, R4.
  assert (NA : (- a = 1 \/ - a = -1)%Q) by (destruct Ha as [-> | ->]; [by right|by left]). assert (NB : (- b = 1 \/ - b = -1)%Q) by (destruct Hb as [-> | ->]; [by right|by left]).
  destruct Hk as [->|[->|[->| ->]]]; eauto 10.
Qed.
Lemma centre_inside g pose c s sx sy : each (fun xy => in_rect g (fst xy) (snd xy)) (rect_corners pose c s sx sy) -> in_rect g (fst pose) (snd pose).
Proof.
  intros (U1&U2&U3&U4). destruct (C34_corners pose c s sx sy) as (a&b&_&_&[E1 E2]&_&_&[F1 F2]). destruct U1 as (A1&A2&A3&A4), U4 as (B1&B2&B3&B4).
  rewrite E1 in A1, A2. rewrite E2 in A3, A4. rewrite F1 in B1, B2. rewrite F2 in B3, B4. set (u := (sx / 2)%Q) in *. set (v := (sy / 2)%Q) in *.
  split; [|split; [|split]].
  - assert (fst pose + (c * (- a * u) - s * (- b * v)) == 2 * fst pose - (fst pose + (c * (a * u) - s * (b * v))))%Q by ring. lra.
  - assert (fst pose + (c * (- a * u) - s * (- b * v)) == 2 * fst pose - (fst pose + (c * (a * u) - s * (b * v))))%Q by ring. lra.
  - assert (snd pose + (s * (- a * u) + c * (- b * v)) == 2 * snd pose - (snd pose + (s * (a * u) + c * (b * v))))%Q by ring. lra.
  - assert (snd pose + (s * (- a * u) + c * (- b * v)) == 2 * snd pose - (snd pose + (s * (a * u) + c * (b * v))))%Q by ring. lra.
Qed.
Lemma spanned_near g pose c s sx sy P b p m : good_geo g -> (c * c + s * s == 1)%Q -> (0 <= sx)%Q -> (0 <= sy)%Q ->
  both (fun xy p => in_cell (sub g 10) (fst p) (snd p) (fst xy) (snd xy)) (rect_corners pose c s sx sy) P -> outlined P b -> spanned 10 b p -> in_cell g (fst m) (snd m) (fst pose) (snd pose) ->
  (inject_Z (Z.abs (fst p - fst m)) * g_sx g < (3 # 4) * larger sx sy + g_sx g)%Q /\ (inject_Z (Z.abs (snd p - snd m)) * g_sy g < (3 # 4) * larger sx sy + g_sy g)%Q.
Proof.
  intros Hg Hcs Hx Hy HB HO (a&e&Ha&He&R1&R2&Hae) (M1&M2&M3&M4). pose proof Hg as (Hsx&Hsy&_).
  assert (HW : forall k, (k = c_ul P \/ k = c_ur P \/ k = c_dl P \/ k = c_dr P) -> exists w, in_cell (sub g 10) (fst k) (snd k) (fst w) (snd w) /\
    (fst pose - (3 # 4) * larger sx sy <= fst w <= fst pose + (3 # 4) * larger sx sy)%Q /\ (snd pose - (3 # 4) * larger sx sy <= snd w <= snd pose + (3 # 4) * larger sx sy)%Q).
  { destruct HB as (B1&B2&B3&B4). intros k Hk. destruct Hk as [->|[->|[->| ->]]]; (eexists; split; [eassumption|]); apply (all_corners_near pose c s sx sy _ Hcs Hx Hy); auto. }
  destruct (outline_box P b a HO Ha) as [(k1&k1'&K1&_&X1) (k2&k2'&K2&_&Y1)]. destruct (outline_box P b e HO He) as [(k3'&k3&_&K3&X3) (k4'&k4&_&K4&Y4)].
  destruct (HW k1 K1) as (w1&(_&I1&_&_)&N1&_). destruct (HW k2 K2) as (w2&(_&_&_&I2)&_&N2). destruct (HW k3 K3) as (w3&(I3&_&_&_)&N3&_). destruct (HW k4 K4) as (w4&(_&_&I4&_)&_&N4).
  cbn [sub g_ox g_oy g_sx g_sy] in I1, I2, I3, I4. change (inject_Z 10) with 10%Q in *. split.
  - apply (axis_near (g_ox g) (g_sx g) (fst k1) (fst k3) (fst p) (fst m) (fst w1) (fst w3) (fst pose)); try done; try apply N1; try apply N3.
    assert (fst k1 / 10 <= fst a / 10) by (apply Z.div_le_mono; [lia|apply X1]). assert (fst e / 10 <= fst k3 / 10) by (apply Z.div_le_mono; [lia|apply X3]). unfold pos in *. lia.
  - apply (axis_near (g_oy g) (g_sy g) (snd k2) (snd k4) (snd p) (snd m) (snd w2) (snd w4) (snd pose)); try done; try apply N2; try apply N4.
    assert (snd k2 / 10 <= snd a / 10) by (apply Z.div_le_mono; [lia|apply Y1]). assert (snd e / 10 <= snd k4 / 10) by (apply Z.div_le_mono; [lia|apply Y4]). unfold pos in *. lia.
Qed.
(** the table of distances has an entry for a cell near the centre, if the rectangle is at least eight cells large *)
Lemma table_entry scale radius d : Lut.radial_ok scale radius -> (8 * scale <= radius)%Q -> (inject_Z (Z.abs d) * scale < (3 # 4) * radius + scale)%Q ->
  - Lut.per_line_half scale radius <= d < Lut.per_line scale radius - Lut.per_line_half scale radius.
Proof.
  intros HR H8 Hd. pose proof (Lut.radial_sizes scale radius HR) as (S1&S2&_). destruct HR as (Hs&Hr&_).
  assert (Hq : (0 <= radius / scale)%Q) by (apply Qle_shift_div_l; [done|lra]).
  assert (HF : (radius < (inject_Z (Lut.per_line_half scale radius) + 1) * scale)%Q).
  { unfold Lut.per_line_half, Lut.q_to_int in *. destruct (Qlt_le_dec (radius / scale) 0) as [Hn|_]; [exfalso; lra|]. pose proof (Qlt_floor (radius / scale)) as HQ. rewrite inject_Z_plus in HQ. change (inject_Z 1) with 1%Q in HQ.
    apply (Qmult_lt_r _ _ scale Hs) in HQ. assert (E : (radius / scale * scale == radius)%Q) by (field; lra). rewrite E in HQ. exact HQ. }
  set (h := Lut.per_line_half scale radius) in *. assert (HA : Z.abs d < h).
  { rewrite Zlt_Qlt. apply (Qmult_lt_r _ _ scale Hs). nra. }
  lia.
Qed.

(** ** C138 *)
(** the rectangle is not so nearly upright that a row is missed (C34_missed_row_refuted) *)
Definition upright (g : geo) (pose : Q * Q) (c s sx sy : Q) : Prop :=
  forall P, both (fun xy p => in_cell (sub g 10) (fst p) (snd p) (fst xy) (snd xy)) (rect_corners pose c s sx sy) P -> snd (c_ur P) > snd (c_dr P) \/ snd (c_ul P) <= snd (c_dl P).
(** the cells of the rectangle: those between points of the lines between the corners, in the same row *)
Definition cell_of_rectangle (g : geo) (pose : Q * Q) (c s sx sy : Q) (cs : list pos) : Prop :=
  NoDup cs /\ exists P b, both (fun xy p => in_cell (sub g 10) (fst p) (snd p) (fst xy) (snd xy)) (rect_corners pose c s sx sy) P /\ outlined P b /\
    forall p, p ∈ cs <-> a_cell g (fst p) (snd p) /\ spanned 10 b p.
Definition on_grid (g : geo) (pose : Q * Q) (c s sx sy : Q) : Prop := each (fun xy => in_rect g (fst xy) (snd xy)) (rect_corners pose c s sx sy).
Definition near_grid (g : geo) (pose : Q * Q) (c s sx sy : Q) : Prop := each (fun xy => near (sub g 10) (fst xy) (snd xy)) (rect_corners pose c s sx sy).

Lemma fold_measurements sc rad m data ps : (forall p, p ∈ ps -> exists d, Lut.radial_get sc rad (fst p - fst m) (snd p - snd m) = Ok d /\ (d == Growing.dist2 sc sc (fst p - fst m) (snd p - snd m))%Q) ->
  exists ms, Forall2 (fun (p : pos) (e : nat * Q) => e.1 = data p /\ (e.2 == Growing.dist2 sc sc (fst p - fst m) (snd p - snd m))%Q) ps ms /\
    forall st, iter_out (add_inner sc rad (Some m) data) ps st = Trav.add_all ms st.
Proof.
  induction ps as [|p ps IH]; intros H; [exists []; split; [constructor|done]|]. destruct IH as (ms&HF&HI); [intros q Hq; apply H; by right|]. destruct (H p) as (d&Hd&Ed); [left|].
  exists ((data p, d) :: ms). split; [by constructor|]. intros st. unfold Trav.add_all. cbn [iter_out]. unfold add_inner at 1. rewrite Hd. cbn [fst snd].
  destruct (Trav.add_measurement (data p) d st); cbn [obind]; [apply HI|done|done|done].
Qed.
(** Of a rectangle on a grid with square cells that is at least eight cells large: the statistic is the one of the classes of its cells, each cell counted once, with
    the distance between the middle of the cell and that of the cell of the centre. Of a rectangle with a corner outside of the grid, it stays empty. *)
Theorem C138_statistic conv g data pose c s sx sy : conv_wraps conv -> good_geo g -> g_nx g * 10 <= 715827882 -> g_ny g * 10 <= 715827882 -> near_grid g pose c s sx sy ->
  (c * c + s * s == 1)%Q -> (0 <= sx)%Q -> (0 <= sy)%Q -> g_sy g = g_sx g -> (8 * g_sx g <= larger sx sy)%Q -> Lut.radial_ok (g_sx g) (larger sx sy) -> upright g pose c s sx sy ->
  (forall p, a_cell g (fst p) (snd p) -> (data p < 255)%nat) ->
  exists st, (exists n, forall fuel, (n <= fuel)%nat -> compute_statistic conv fuel g data pose c s sx sy = Ok st) /\
    (~ on_grid g pose c s sx sy -> st = Trav.new_stat) /\
    (on_grid g pose c s sx sy -> exists cs m ms, cell_of_rectangle g pose c s sx sy cs /\ in_cell g (fst m) (snd m) (fst pose) (snd pose) /\
       Forall2 (fun (p : pos) (e : nat * Q) => e.1 = data p /\ (e.2 == Growing.dist2 (g_sx g) (g_sx g) (fst p - fst m) (snd p - snd m))%Q) cs ms /\ Trav.accurate ms st /\ Trav.add_all ms Trav.new_stat = Ok st).
Proof.
  intros HC Hg HX HY HN Hcs Hx Hy Hsq H8 HR HU HD. destruct (C34_rectangle conv g pose c s sx sy HC Hg HX HY HN) as (r&(n&Hr)&HM). destruct r as [cs|].
  - destruct HM as (HG&HND&HA&P&b&HB&HO&HI). specialize (HI (HU P HB)). pose proof (centre_inside _ _ _ _ _ _ HG) as Hc. destruct HC as [HC HC'].
    destruct (C31_inside conv g _ _ HC Hg Hc) as (mx&my&xm&ym&Ht&Hm&Hin&_). set (m := (mx, my)).
    destruct (fold_measurements (g_sx g) (larger sx sy) m data cs) as (ms&HF&HE).
    { intros p Hp. apply HI in Hp as [_ Hp]. destruct (spanned_near g pose c s sx sy P b p m Hg Hcs Hx Hy HB HO Hp Hin) as [N1 N2]. rewrite Hsq in N2.
      destruct (Lut.C45_radial (g_sx g) (larger sx sy) (fst p - fst m) (snd p - snd m) HR (table_entry _ _ _ HR H8 N1) (table_entry _ _ _ HR H8 N2)) as (d&Hd&Ed). exists d. split; [done|]. exact Ed. }
    destruct (Trav.C37_statistics ms) as (st&Hst&Hacc).
    { intros e He. destruct (elem_of_list_lookup_1 _ _ He) as (i&Hi). destruct (Forall2_lookup_r _ _ _ _ _ HF Hi) as (p&Hp&[-> _]). apply HD, HA. by eapply elem_of_list_lookup_2. }
    exists st. split; [|split; [by intros Hno|]].
    + exists n. intros fuel Hf. unfold compute_statistic. rewrite (Hr fuel Hf), Ht. rewrite HE. exact Hst.
    + intros _. exists cs, m, ms. split; [|done]. split; [done|]. exists P, b. done.
  - exists Trav.new_stat. split; [|split; [done|by intros Hno]]. exists n. intros fuel Hf. unfold compute_statistic. by rewrite (Hr fuel Hf).
Qed.
(** The worst class: that of a cell of the rectangle, and no cell has a class of a smaller drivability; an exception if the rectangle is not on the grid. *)
Theorem C138_worst conv g cl data pose c s sx sy : conv_wraps conv -> good_geo g -> g_nx g * 10 <= 715827882 -> g_ny g * 10 <= 715827882 -> near_grid g pose c s sx sy ->
  (c * c + s * s == 1)%Q -> (0 <= sx)%Q -> (0 <= sy)%Q -> g_sy g = g_sx g -> (8 * g_sx g <= larger sx sy)%Q -> Lut.radial_ok (g_sx g) (larger sx sy) -> upright g pose c s sx sy ->
  Trav.registry cl -> (forall p, a_cell g (fst p) (snd p) -> (data p < 255)%nat /\ exists k, Trav.known (data p) k cl) ->
  exists r, (exists n, forall fuel, (n <= fuel)%nat -> worst_in_rectangle conv fuel g cl data pose c s sx sy = r) /\
    (~ on_grid g pose c s sx sy -> r = Throw tt) /\
    (on_grid g pose c s sx sy -> exists cs, cell_of_rectangle g pose c s sx sy cs /\ (cs = [] -> r = Throw tt) /\
       (cs <> [] -> exists k, r = Ok k /\ (exists p, p ∈ cs /\ Trav.known (data p) k cl) /\ forall p k', p ∈ cs -> Trav.known (data p) k' cl -> (Trav.drivability k <= Trav.drivability k')%Q)).
Proof.
  intros HC Hg HX HY HN Hcs Hx Hy Hsq H8 HR HU HREG HD.
  destruct (C138_statistic conv g data pose c s sx sy HC Hg HX HY HN Hcs Hx Hy Hsq H8 HR HU) as (st&(n&Hst)&H1&H2); [intros p Hp; by apply HD|].
  exists (Trav.worst_class cl st). split; [exists n; intros fuel Hf; unfold worst_in_rectangle; by rewrite (Hst fuel Hf)|]. split.
  - intros Hno. rewrite (H1 Hno). destruct (Trav.C57_worst_class cl [] Trav.new_stat HREG) as [_ HW]; [intros e He; by apply elem_of_nil in He|done|]. by apply HW.
  - intros Hon. destruct (H2 Hon) as (cs&m&ms&HCS&_&HF&_&HE). exists cs. split; [done|].
    assert (HM : forall e, e ∈ ms -> exists p, p ∈ cs /\ e.1 = data p).
    { intros e He. destruct (elem_of_list_lookup_1 _ _ He) as (i&Hi). destruct (Forall2_lookup_r _ _ _ _ _ HF Hi) as (p&Hp&[Hd _]). exists p. split; [by eapply elem_of_list_lookup_2|done]. }
    assert (HM' : forall p, p ∈ cs -> exists e, e ∈ ms /\ e.1 = data p).
    { intros p Hp. destruct (elem_of_list_lookup_1 _ _ Hp) as (i&Hi). destruct (Forall2_lookup_l _ _ _ _ _ HF Hi) as (e&He&[Hd _]). exists e. split; [by eapply elem_of_list_lookup_2|done]. }
    assert (HCA : forall p, p ∈ cs -> a_cell g (fst p) (snd p)) by (destruct HCS as (_&P&b&_&_&HI); intros p Hp; by apply HI in Hp as [? _]).
    destruct (Trav.C57_worst_class cl ms st HREG) as [W1 W2]; [intros e He; destruct (HM e He) as (p&Hp&->); by apply HD, HCA|done|]. split.
    + intros ->. apply W2. by apply Forall2_nil_inv_l in HF.
    + intros Hne. destruct W1 as (k&Hk&(e&He&Hke)&Hle); [intros ->; apply Forall2_nil_inv_r in HF; done|]. exists k. split; [done|]. split.
      * destruct (HM e He) as (p&Hp&Hd). exists p. split; [done|]. by rewrite <-Hd.
      * intros p k' Hp Hk'. destruct (HM' p Hp) as (e'&He'&Hd). apply (Hle e'); [done|]. by rewrite Hd.
Qed.
(** The worst probability: the least one of the cells of the rectangle, or 1 if none is below; for a rectangle with a corner outside of the grid it is 1 (finding). *)
Theorem C138_probability conv g prob pose c s sx sy : conv_wraps conv -> good_geo g -> g_nx g * 10 <= 715827882 -> g_ny g * 10 <= 715827882 -> near_grid g pose c s sx sy -> upright g pose c s sx sy ->
  exists q, (exists n, forall fuel, (n <= fuel)%nat -> worst_probability conv fuel g prob pose c s sx sy = Ok q) /\
    (~ on_grid g pose c s sx sy -> q = 1%Q) /\
    (on_grid g pose c s sx sy -> exists cs, cell_of_rectangle g pose c s sx sy cs /\ (q <= 1)%Q /\ (forall p, p ∈ cs -> (q <= inject_Z (prob p) / 255)%Q) /\ (q = 1%Q \/ exists p, p ∈ cs /\ q = (inject_Z (prob p) / 255)%Q)).
Proof.
  intros HC Hg HX HY HN HU. destruct (C34_rectangle conv g pose c s sx sy HC Hg HX HY HN) as (r&(n&Hr)&HM). eexists. split; [exists n; intros fuel Hf; unfold worst_probability; rewrite (Hr fuel Hf); reflexivity|].
  destruct r as [cs|]; [|split; [done|intros Hon; done]]. destruct HM as (HG&HND&HA&P&b&HB&HO&HI). split; [done|]. intros _. exists cs. split; [split; [done|exists P, b; split; [done|]; split; [done|]; apply HI, HU, HB]|].
  cbn [default from_option id]. clear HA HI HND HB HO. unfold Datatypes.id.
  assert (HF : forall l w, let q := foldl (fun worst p => let cur := (inject_Z (prob p) / 255)%Q in if Qlt_le_dec cur worst then cur else worst) w l in
    (q <= w)%Q /\ (forall p, p ∈ l -> (q <= inject_Z (prob p) / 255)%Q) /\ (q = w \/ exists p, p ∈ l /\ q = (inject_Z (prob p) / 255)%Q)).
  { clear. induction l as [|p l IH]; intros w; cbn [foldl].
    - split; [apply Qle_refl|]. split; [intros p Hp; by apply elem_of_nil in Hp|by left].
    - cbv zeta in IH |- *. destruct (Qlt_le_dec (inject_Z (prob p) / 255) w) as [Hlt|Hle].
      + destruct (IH (inject_Z (prob p) / 255)%Q) as (I1&I2&I3). split; [lra|]. split; [intros p' [->|Hp]%elem_of_cons; auto|]. right. destruct I3 as [->|(p'&Hp&->)]; [exists p; split; [left|done]|exists p'; split; [by right|done]].
      + destruct (IH w) as (I1&I2&I3). split; [done|]. split; [intros p' [->|Hp]%elem_of_cons; [lra|auto]|]. destruct I3 as [->|(p'&Hp&->)]; [by left|right; exists p'; split; [by right|done]]. }
  exact (HF cs 1%Q).
Qed.
(** a rectangle of eight by four cells, turned, of a grid of twenty by twenty cells; the class of a cell is 1, but 3 in one column *)
Definition c138_data (p : pos) : nat := if decide (fst p = 12) then 3%nat else 1%nat.
Definition c138_classes : list Trav.tclass := Trav.rapply (Trav.RRegister (1 # 4)%Q) (Trav.rapply (Trav.RRegister (1 # 2)%Q) []).
Lemma c138_upright : upright c34_grid (10%Q, 10%Q) (4 # 5) (3 # 5) 8 4.
Proof.
  intros P (_&H1&_&H2). left. destruct (Z.lt_ge_cases (snd (c_dr P)) (snd (c_ur P))) as [|Hle]; [unfold pos in *; lia|]. exfalso. destruct H1 as (_&_&_&H1), H2 as (_&_&H2&_).
  rewrite Zle_Qle in Hle. assert (E1 : (snd (c_ur (rect_corners (10, 10) (4 # 5) (3 # 5) 8 4)) == 14)%Q) by reflexivity. assert (E2 : (snd (c_dr (rect_corners (10, 10) (4 # 5) (3 # 5) 8 4)) == 46 # 5)%Q) by reflexivity.
  rewrite E1 in H1. rewrite E2 in H2. cbn [sub c34_grid g_oy g_sy] in H1, H2. change (inject_Z 10) with 10%Q in *. unfold Qdiv in *. change (/ 10)%Q with (1 # 10)%Q in *. lra.
Qed.
Example C138_nonvacuous : let g := c34_grid in let pose := (10%Q, 10%Q) in let c := (4 # 5)%Q in let s := (3 # 5)%Q in
  conv_wraps c34_conv /\ good_geo g /\ near_grid g pose c s 8 4 /\ on_grid g pose c s 8 4 /\ (c * c + s * s == 1)%Q /\ g_sy g = g_sx g /\ (8 * g_sx g <= larger 8 4)%Q /\ Lut.radial_ok (g_sx g) (larger 8 4) /\ upright g pose c s 8 4 /\
  Trav.registry c138_classes /\ (forall p, (c138_data p < 255)%nat /\ exists k, Trav.known (c138_data p) k c138_classes) /\
  worst_in_rectangle c34_conv 400 g c138_classes c138_data pose c s 8 4 = Ok (1 # 4)%Q /\ worst_probability c34_conv 400 g (fun p => 200 - 10 * fst p) pose c s 8 4 = Ok (60 # 255)%Q.
Proof.
  cbv zeta. split; [apply c34_conv_wraps|]. split; [unfold good_geo, size_end; cbn; repeat split; lia || lra|]. split; [vm_compute; repeat split; congruence|]. split; [vm_compute; repeat split; congruence|]. split; [reflexivity|]. split; [reflexivity|].
  split; [vm_compute; congruence|]. split; [vm_compute; repeat split; congruence|]. split; [apply c138_upright|]. split; [repeat first [apply Trav.registry_new|apply Trav.registry_step; [|cbn; lia]]|]. split.
  { intros p. unfold c138_data. destruct (decide (fst p = 12)); (split; [lia|eexists; reflexivity]). }
  split; vm_compute; reflexivity.
Qed.
(** A rectangle of the size of a cell that covers four cells: the distance of one of them is read behind the table (finding). *)
Theorem C138_small_refuted : on_grid c34_grid ((59 # 10)%Q, (59 # 10)%Q) 1 0 1 1 /\ good_geo c34_grid /\ Lut.radial_ok (g_sx c34_grid) (larger 1 1) /\ upright c34_grid ((59 # 10)%Q, (59 # 10)%Q) 1 0 1 1 /\
  compute_statistic c34_conv 400 c34_grid c138_data ((59 # 10)%Q, (59 # 10)%Q) 1 0 1 1 = Bad UB.
Proof.
  split; [vm_compute; repeat split; congruence|]. split; [unfold good_geo, size_end; cbn; repeat split; lia || lra|]. split; [vm_compute; repeat split; congruence|]. split; [|vm_compute; reflexivity].
  intros P (H1&_&H2&_). right. destruct (Z.le_gt_cases (snd (c_ul P)) (snd (c_dl P))) as [|Hlt]; [done|]. exfalso. destruct H1 as (_&_&H1&_), H2 as (_&_&_&H2).
  assert (Hle : snd (c_dl P) + 1 <= snd (c_ul P)) by (unfold pos in *; lia). rewrite Zle_Qle, inject_Z_plus in Hle. change (inject_Z 1) with 1%Q in Hle.
  assert (E1 : (snd (c_ul (rect_corners (59 # 10, 59 # 10) 1 0 1 1)) == 27 # 5)%Q) by reflexivity. assert (E2 : (snd (c_dl (rect_corners (59 # 10, 59 # 10) 1 0 1 1)) == 27 # 5)%Q) by reflexivity.
  rewrite E1 in H1. rewrite E2 in H2. cbn [sub c34_grid g_oy g_sy] in H1, H2. change (inject_Z 10) with 10%Q in *. unfold Qdiv in *. change (/ 10)%Q with (1 # 10)%Q in *. lra.
Qed.
(** Cells that are not square: the table has entries for offsets along the other axis that are too few (finding). *)
Theorem C138_oblong_refuted : exists g, good_geo g /\ on_grid g (10%Q, 10%Q) (4 # 5) (3 # 5) 8 4 /\ (8 * g_sx g <= larger 8 4)%Q /\ Lut.radial_ok (g_sx g) (larger 8 4) /\ compute_statistic c34_conv 2000 g c138_data (10%Q, 10%Q) (4 # 5) (3 # 5) 8 4 = Bad UB.
Proof.
  exists (Geo 20 80 1 (1 # 4) 0 0). split; [unfold good_geo, size_end; cbn; repeat split; lia || lra|]. split; [vm_compute; repeat split; congruence|]. split; [vm_compute; congruence|]. split; [vm_compute; repeat split; congruence|]. vm_compute; reflexivity.
Qed.
