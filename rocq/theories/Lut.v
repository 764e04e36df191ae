(** Models of RadialLookUpTable (src/tools/RadialLookUpTable.cpp) and BoxLookUpTable (src/tools/BoxLookUpTable.cpp).  C45, C59.

    Numbers are rational, the rounding of double is not modelled.  Instead of distances the tables hold squared distances, which avoids
    the square root; the maximum of distances is the root of the maximum of their squares.  Angles are not modelled: the table of angles
    has the same size and is read at the same index. *)
From Coq Require Import ZArith QArith Qround Qabs Qminmax Lqa.
From stdpp Require Import prelude.
From Verif Require Import Base Bresenham Growing.
Local Open Scope Z_scope.

(** conversion of a double to int, towards zero *)
Definition q_to_int (q : Q) : Z := if Qlt_le_dec q 0 then - Qfloor (- q) else Qfloor q.
Definition to_uint (z : Z) : Z := z mod 4294967296.

(** ** RadialLookUpTable *)
Section Radial.
  Context (scale radius : Q).
  (** RadialLookUpTable.cpp:18-19 *)
  Definition per_line : Z := q_to_int (radius / scale * 2).
  Definition per_line_half : Z := q_to_int (radius / scale).
  (** :26-41: the table; reading outside of it is undefined *)
  Definition radial_entry (i : Z) : Q := dist2 scale scale (i mod per_line - per_line_half) (i / per_line - per_line_half).
  Definition radial_read (i : Z) : out () Q := if decide (0 <= i < per_line * per_line) then Ok (radial_entry i) else Bad UB.
  (** :68-73 (and 60-65 for the angles) *)
  Definition radial_get (x y : Z) : out () Q :=
    let xd := to_uint (x + per_line_half) in let yd := to_uint (y + per_line_half) in
    radial_read (to_uint (per_line * yd + xd)).

  (** a table whose size is an int *)
  Definition radial_ok : Prop := (0 < scale)%Q /\ (0 <= radius)%Q /\ (radius / scale * 2 < 46341)%Q.
  Lemma radial_sizes : radial_ok -> 0 <= per_line_half /\ (per_line = 2 * per_line_half \/ per_line = 2 * per_line_half + 1) /\ per_line <= 46340.
  Proof.
    intros (Hs & Hr & Hb). unfold per_line, per_line_half, q_to_int.
    assert (Hp : (0 <= radius / scale)%Q). { apply Qle_shift_div_l; [done|]. lra. }
    destruct (Qlt_le_dec (radius / scale * 2) 0) as [H|_]; [lra|]. destruct (Qlt_le_dec (radius / scale) 0) as [H|_]; [lra|].
    set (q := (radius / scale)%Q) in *. clearbody q. split; [|split].
    - rewrite <- (Qfloor_Z 0). by apply Qfloor_resp_le.
    - assert (H1 : (inject_Z (Qfloor q) <= q)%Q) by apply Qfloor_le. assert (H2 : (q < inject_Z (Qfloor q + 1))%Q) by apply Qlt_floor.
      rewrite inject_Z_plus in H2.
      assert (2 * Qfloor q <= Qfloor (q * 2)).
      { rewrite <- (Qfloor_Z (2 * Qfloor q)). apply Qfloor_resp_le. rewrite inject_Z_mult. change (inject_Z 2) with 2%Q. lra. }
      assert (Qfloor (q * 2) < 2 * Qfloor q + 2).
      { rewrite Zlt_Qlt. eapply Qle_lt_trans; [apply Qfloor_le|]. rewrite inject_Z_plus, inject_Z_mult. change (inject_Z 2) with 2%Q. change (inject_Z 1) with 1%Q in H2. lra. }
      lia.
    - assert (Qfloor (q * 2) < 46341); [|lia]. rewrite Zlt_Qlt. eapply Qle_lt_trans; [apply Qfloor_le|]. done.
  Qed.
  (** the lookups for which the table has an entry are correct *)
  Theorem C45_radial x y : radial_ok -> - per_line_half <= x < per_line - per_line_half -> - per_line_half <= y < per_line - per_line_half ->
    exists q, radial_get x y = Ok q /\ (q == (inject_Z x * scale) * (inject_Z x * scale) + (inject_Z y * scale) * (inject_Z y * scale))%Q.
  Proof.
    intros Hok Hx Hy. pose proof (radial_sizes Hok) as (Hh & Hn & Hmax). unfold radial_get. cbn zeta.
    unfold to_uint, radial_read, radial_entry. rewrite (Z.mod_small (x + per_line_half)), (Z.mod_small (y + per_line_half)) by lia.
    set (n := per_line) in *. set (k := per_line_half) in *. clearbody n k.
    assert (Hb : 0 <= n * (y + k) + (x + k) < n * n) by nia.
    rewrite !(Z.mod_small (n * (y + k) + (x + k)) 4294967296) by nia. rewrite decide_True by done. eexists. split; [reflexivity|].
    assert ((n * (y + k) + (x + k)) mod n = x + k) as ->. { rewrite Z.add_comm, Z.mul_comm, Z_mod_plus_full. apply Z.mod_small. lia. }
    assert ((n * (y + k) + (x + k)) / n = y + k) as ->. { rewrite Z.add_comm, Z.mul_comm, Z_div_plus_full by lia. rewrite Z.div_small by lia. lia. }
    unfold dist2. replace (x + k - k) with x by lia. replace (y + k - k) with y by lia. reflexivity.
  Qed.
End Radial.
Example C45_radial_nonvacuous : radial_ok (1#2) 2 /\ per_line (1#2) 2 = 8 /\ per_line_half (1#2) 2 = 4 /\ exists q, radial_get (1#2) 2 3 (-4) = Ok q /\ (q == 25 # 4)%Q.
Proof. split; [unfold radial_ok; repeat split; by vm_compute|]. do 2 (split; [by vm_compute|]). eexists. split; vm_compute; reflexivity. Qed.
(** There is no check: the lookup of an offset that is as far from the centre as the radius reads behind the table, or the entry of
    another offset. *)
Theorem C45_radial_refuted : radial_ok (1#2) 2 /\ radial_get (1#2) 2 4 4 = Bad UB /\ radial_get (1#2) 2 4 0 = radial_get (1#2) 2 (-4) 1.
Proof. split; [unfold radial_ok; repeat split; by vm_compute|]. split; vm_compute; reflexivity. Qed.

(** ** BoxLookUpTable *)
(** the members that the others are computed from; false as long as there is no table *)
Record box : Type := Box { b_scale : Q; b_sx : Q; b_sy : Q; b_max : Q; b_table : bool }.
(** BoxLookUpTable.cpp:10-13 *)
Definition new_box : box := Box 0 0 0 0 false.
Definition epsilon : Q := 1 # 100000.
Definition qlt (a b : Q) : bool := if Qlt_le_dec a b then true else false.
(** :15-48 *)
Definition recompute (b : box) (scale sx sy maxd : Q) : box :=
  if qlt (Qabs (b_scale b - scale)) epsilon && qlt (Qabs (sx - b_sx b)) epsilon && qlt (Qabs (sy - b_sy b)) epsilon && qlt maxd (b_max b + epsilon)
  then b else Box scale sx sy maxd true.
(** one of the two axes *)
Section Axis.
  Context (scale size maxd : Q).
  Definition half : Q := size / 2 + maxd.
  (** C's fmod for positive arguments *)
  Definition fmod (a b : Q) : Q := a - inject_Z (Qfloor (a / b)) * b.
  (** :34-39 *)
  Definition offset : Q := let o := (scale / 2 - fmod half scale)%Q in if Qlt_le_dec o 0 then (o + scale)%Q else o.
  (** :41-42 *)
  Definition cells : Z := Qceiling ((offset + size + maxd * 2) / scale).
  (** :44-45 *)
  Definition centre : Q := half + offset.
  (** :67, 122: the column (or row) of a coordinate *)
  Definition column (p : Q) : Z := q_to_int ((p + centre) / scale).
  (** :65, 71: the sampled coordinates *)
  Definition samples : list Q := (fun k => - half + inject_Z k * (scale / 10))%Q <$> seqZ 0 (Qceiling (2 * half / (scale / 10))).
  (** a sample inside of the table *)
  Definition usable : list Q := filter (fun p => 0 <= column p < cells) samples.
End Axis.
Definition cells_x (b : box) : Z := cells (b_scale b) (b_sx b) (b_max b).
Definition cells_y (b : box) : Z := cells (b_scale b) (b_sy b) (b_max b).
Definition column_x (b : box) : Q -> Z := column (b_scale b) (b_sx b) (b_max b).
Definition column_y (b : box) : Q -> Z := column (b_scale b) (b_sy b) (b_max b).
(** :78-109: the squared distance of a point to the box *)
Definition excess (p size : Q) : Q := let p := Qabs p in if Qlt_le_dec (size / 2) p then (p - size / 2)%Q else 0%Q.
Definition box_dist2 (b : box) (x y : Q) : Q := excess x (b_sx b) * excess x (b_sx b) + excess y (b_sy b) * excess y (b_sy b).
(** :50-115: the entry [i] of the table *)
Definition box_entry (b : box) (i : Z) : Q :=
  foldr (fun p m => if decide (cells_x b * column_y b p.2 + column_x b p.1 = i) then Qmax (box_dist2 b p.1 p.2) m else m) 0%Q
    (x ← usable (b_scale b) (b_sx b) (b_max b); y ← usable (b_scale b) (b_sy b) (b_max b); [(x, y)]).
(** :117-132 *)
Definition box_get (b : box) (xp yp : Q) : out () Q :=
  if b_table b then
    let x := column_x b xp in let y := column_y b yp in
    if decide (x < 0 \/ cells_x b < x \/ y < 0 \/ cells_y b < y) then Throw ()
    else let i := cells_x b * y + x in if decide (0 <= i < cells_x b * cells_y b) then Ok (box_entry b i) else Bad UB
  else Throw ().

(** ** Specification *)
(** the arguments of recompute make sense *)
Definition good_params (scale sx sy maxd : Q) : Prop := (0 < scale)%Q /\ (0 <= sx)%Q /\ (0 <= sy)%Q /\ (0 <= maxd)%Q /\ (0 < sx / 2 + maxd)%Q /\ (0 < sy / 2 + maxd)%Q.
(** the states of a table after any sequence of computations *)
Inductive box_state : box -> Prop :=
| box_new : box_state new_box
| box_recompute b scale sx sy maxd : box_state b -> good_params scale sx sy maxd -> box_state (recompute b scale sx sy maxd).
Lemma box_state_good b : box_state b -> b_table b = true -> good_params (b_scale b) (b_sx b) (b_sy b) (b_max b).
Proof. induction 1 as [|b scale sx sy maxd Hb IH Hg]; [done|]. unfold recompute. destruct (_ && _); [done|]. done. Qed.

(** lra does not know the division *)
Lemma div_by (q : Q) (p : positive) : (q / inject_Z (Z.pos p) == q * (1 # p))%Q.
Proof. reflexivity. Qed.
Ltac qlra := change 2%Q with (inject_Z 2) in *; change 10%Q with (inject_Z 10) in *; rewrite ?div_by in *; change (inject_Z 2) with 2%Q in *; change (inject_Z 10) with 10%Q in *; lra.
Section AxisLemmas.
  Context (scale size maxd : Q) (Hs : (0 < scale)%Q) (Hsize : (0 <= size)%Q) (Hmax : (0 <= maxd)%Q).
  Notation half := (half size maxd). Notation offset := (offset scale size maxd). Notation cells := (cells scale size maxd).
  Notation centre := (centre scale size maxd). Notation column := (column scale size maxd). Notation samples := (samples scale size maxd).
  Lemma fmod_bounds a : (0 <= fmod a scale < scale)%Q.
  Proof using Hs.
    unfold fmod. assert (H1 : (inject_Z (Qfloor (a / scale)) <= a / scale)%Q) by apply Qfloor_le.
    assert (H2 : (a / scale < inject_Z (Qfloor (a / scale) + 1))%Q) by apply Qlt_floor. rewrite inject_Z_plus in H2. change (inject_Z 1) with 1%Q in H2.
    assert (Ha : (a == a / scale * scale)%Q) by (field; qlra). set (f := inject_Z _) in *. set (q := (a / scale)%Q) in *. clearbody f q.
    rewrite Ha. split; nra.
  Qed.
  Lemma offset_bounds : (0 <= offset < scale)%Q.
  Proof using Hs.
    unfold Lut.offset. cbn zeta. pose proof (fmod_bounds half). destruct (Qlt_le_dec _ 0); split; qlra.
  Qed.
  Lemma column_pos p : (0 <= p + centre)%Q -> column p = Qfloor ((p + centre) / scale).
  Proof using Hs.
    intros Hp. unfold Lut.column, q_to_int. destruct (Qlt_le_dec _ 0) as [H|]; [|done]. exfalso.
    apply (Qlt_not_le _ _ H). apply Qle_shift_div_l; [done|]. qlra.
  Qed.
  Lemma column_bounds p : (0 <= p + centre)%Q -> (inject_Z (column p) * scale <= p + centre < (inject_Z (column p) + 1) * scale)%Q.
  Proof using Hs.
    intros Hp. rewrite column_pos by done. set (q := ((p + centre) / scale)%Q).
    assert (Hq : (p + centre == q * scale)%Q) by (unfold q; field; qlra). rewrite Hq.
    assert (H1 : (inject_Z (Qfloor q) <= q)%Q) by apply Qfloor_le. assert (H2 : (q < inject_Z (Qfloor q + 1))%Q) by apply Qlt_floor.
    rewrite inject_Z_plus in H2. change (inject_Z 1) with 1%Q in H2. clearbody q. split; nra.
  Qed.
  Lemma column_in p : (- half <= p < half)%Q -> 0 <= column p < cells.
  Proof using Hs.
    intros Hp. pose proof offset_bounds as Ho. assert (Hc : (0 <= p + centre)%Q) by (unfold Lut.centre; qlra).
    pose proof (column_bounds p Hc) as [H1 H2]. split.
    - rewrite column_pos by done. rewrite <- (Qfloor_Z 0). apply Qfloor_resp_le. apply Qle_shift_div_l; [done|]. change (inject_Z 0) with 0%Q. qlra.
    - rewrite Zlt_Qlt. unfold Lut.cells. eapply Qlt_le_trans; [|apply Qle_ceiling]. apply Qlt_shift_div_l; [done|].
      unfold Lut.centre, Lut.half in *. qlra.
  Qed.
  (** every coordinate of the range that is not in the last tenth of a cell shares its column with a sample *)
  Lemma sample_near p : (- half <= p < half - scale / 10)%Q -> exists q, q ∈ samples /\ column q = column p /\ (- half <= q < half)%Q.
  Proof using Hs.
    intros Hp. pose proof offset_bounds as Ho. assert (Hc : (0 <= p + centre)%Q) by (unfold Lut.centre; qlra).
    pose proof (column_bounds p Hc) as [H1 H2]. pose proof (column_in p) as Hci.
    (* the start of the column, or of the range *)
    set (c0 := (inject_Z (column p) * scale - centre)%Q). set (st := (scale / 10)%Q).
    assert (Hst : (0 < st)%Q) by (unfold st; qlra). assert (Hst' : (st * 10 == scale)%Q) by (unfold st; field).
    set (k := Z.max 0 (Qceiling ((c0 + half) / st))). set (q := (- half + inject_Z k * st)%Q).
    assert (Hk : (c0 + half <= inject_Z k * st)%Q /\ ((k = 0) \/ (inject_Z k * st < c0 + half + st)%Q)).
    { set (t := ((c0 + half) / st)%Q). assert (Ht : (c0 + half == t * st)%Q) by (unfold t; field; qlra).
      assert (Hc1 : (t <= inject_Z (Qceiling t))%Q) by apply Qle_ceiling.
      assert (Hc2 : (inject_Z (Qceiling t) < t + 1)%Q).
      { pose proof (Qceiling_lt t) as H. assert (He : (inject_Z (Qceiling t - 1) == inject_Z (Qceiling t) - 1)%Q) by (rewrite <- Z.add_opp_r, inject_Z_plus; reflexivity).
        rewrite He in H. qlra. }
      unfold k. fold t. destruct (Z.max_spec 0 (Qceiling t)) as [[Hlt ->]|[Hle ->]].
      - rewrite Ht. split; [nra|]. right. nra.
      - rewrite Zle_Qle in Hle. change (inject_Z 0) with 0%Q in *. split; [rewrite Ht; nra|by left]. }
    destruct Hk as [Hk1 Hk2].
    assert (Hk0 : 0 <= k) by (unfold k; lia). assert (Hk0' : (0 <= inject_Z k)%Q) by (rewrite Zle_Qle in Hk0; exact Hk0).
    assert (Hqs : (q < c0 + scale)%Q /\ (q < half)%Q).
    { unfold q. destruct Hk2 as [->|Hk2].
      - change (inject_Z 0) with 0%Q. unfold c0. split; [qlra|]. unfold Lut.centre in *. qlra.
      - unfold c0 in *. unfold st in *. split; qlra. }
    exists q. split; [|split].
    - unfold Lut.samples. apply elem_of_list_fmap. exists k. split; [done|]. apply elem_of_seqZ. split; [done|].
      rewrite Z.add_0_l, Zlt_Qlt. eapply Qlt_le_trans; [|apply Qle_ceiling]. fold st. apply Qlt_shift_div_l; [done|].
      unfold q in Hqs. qlra.
    - assert (Hq0 : (0 <= q + centre)%Q). { unfold q, Lut.centre in *. assert (0 <= inject_Z k * st)%Q by nra. qlra. }
      pose proof (column_bounds q Hq0) as [H3 H4].
      assert (Hge : (c0 <= q)%Q) by (unfold q; qlra). unfold c0 in Hge, Hqs.
      assert (column q < column p + 1). { rewrite Zlt_Qlt, inject_Z_plus. change (inject_Z 1) with 1%Q. nra. }
      assert (column p < column q + 1). { rewrite Zlt_Qlt, inject_Z_plus. change (inject_Z 1) with 1%Q. nra. }
      lia.
    - unfold q. assert (0 <= inject_Z k * st)%Q by nra. split; [qlra|]. unfold q in Hqs. qlra.
  Qed.
  Lemma column_dist p q : (- half <= p)%Q -> (- half <= q)%Q -> column p = column q -> (Qabs (p - q) < scale)%Q.
  Proof using Hs.
    intros Hp Hq He. pose proof offset_bounds as Ho.
    assert (Hp0 : (0 <= p + centre)%Q) by (unfold Lut.centre; qlra). assert (Hq0 : (0 <= q + centre)%Q) by (unfold Lut.centre; qlra).
    pose proof (column_bounds p Hp0) as [H1 H2]. pose proof (column_bounds q Hq0) as [H3 H4]. rewrite He in H1, H2.
    apply Qabs_case; intros; qlra.
  Qed.
  Lemma samples_range q : q ∈ samples -> (- half <= q)%Q.
  Proof using Hs.
    unfold Lut.samples. intros Hq. apply elem_of_list_fmap in Hq as (k & -> & Hk). apply elem_of_seqZ in Hk as [Hk _].
    rewrite Zle_Qle in Hk. change (inject_Z 0) with 0%Q in Hk. assert (0 <= inject_Z k * (scale / 10))%Q; [|qlra].
    apply Qmult_le_0_compat; [done|qlra].
  Qed.
End AxisLemmas.

(** the range for which the table is computed *)
Definition in_range (b : box) (x y : Q) : Prop := (Qabs x < b_sx b / 2 + b_max b)%Q /\ (Qabs y < b_sy b / 2 + b_max b)%Q.
(** The lookup of every point that is nearer to the box than the largest distance in both directions reads inside of the table. *)
Theorem C45_box b x y : box_state b -> b_table b = true -> in_range b x y -> exists q, box_get b x y = Ok q.
Proof.
  intros Hb Ht [Hx Hy]. destruct (box_state_good b Hb Ht) as (Hs & Hsx & Hsy & Hm & _ & _). unfold box_get. rewrite Ht. cbn zeta.
  apply Qabs_Qlt_condition in Hx, Hy.
  assert (Hcx : 0 <= column_x b x < cells_x b). { apply (column_in (b_scale b) (b_sx b) (b_max b) Hs x). unfold half. qlra. }
  assert (Hcy : 0 <= column_y b y < cells_y b). { apply (column_in (b_scale b) (b_sy b) (b_max b) Hs y). unfold half. qlra. }
  rewrite decide_False by lia. rewrite decide_True by nia. by eexists.
Qed.
(** The box lookup never reads before the table, and a point far away is refused. *)
Theorem C45_box_refuses b x y : box_state b -> b_table b = true ->
  (column_x b x < 0 \/ column_y b y < 0 \/ cells_x b < column_x b x \/ cells_y b < column_y b y) -> box_get b x y = Throw ().
Proof. intros _ Ht H. unfold box_get. rewrite Ht. cbn zeta. by rewrite decide_True by tauto. Qed.

Definition matches (b : box) (i : Z) (p : Q * Q) : Prop := cells_x b * column_y b p.2 + column_x b p.1 = i.
Lemma box_entry_spec b (i : Z) l :
  let r := foldr (fun p m => if decide (cells_x b * column_y b p.2 + column_x b p.1 = i) then Qmax (box_dist2 b p.1 p.2) m else m) 0%Q l in
  (forall p, p ∈ l -> matches b i p -> (box_dist2 b p.1 p.2 <= r)%Q) /\
  ((r = 0%Q /\ forall p, p ∈ l -> ~ matches b i p) \/ exists p, p ∈ l /\ matches b i p /\ (r == box_dist2 b p.1 p.2)%Q).
Proof.
  assert (Hpos : forall x y, (0 <= box_dist2 b x y)%Q). { intros x y. unfold box_dist2. set (a := excess x _). set (c := excess y _). clearbody a c. nra. }
  induction l as [|p l IH]; cbn [foldr]; cbn zeta.
  { split; [intros p Hp; by apply elem_of_nil in Hp|]. left. split; [done|]. intros p Hp. by apply elem_of_nil in Hp. }
  destruct IH as [IH1 IH2]. cbn zeta in *. set (m := foldr _ 0%Q l) in *. clearbody m.
  destruct (decide (cells_x b * column_y b p.2 + column_x b p.1 = i)) as [He|He].
  - split.
    + intros p' Hp' He'. apply elem_of_cons in Hp' as [->|Hp']; [apply Q.le_max_l|]. eapply Qle_trans; [by apply IH1|apply Q.le_max_r].
    + right. destruct (Qlt_le_dec (box_dist2 b p.1 p.2) m) as [Hlt|Hle].
      * destruct IH2 as [[-> _]|(p' & Hp' & He' & Hm)]; [pose proof (Hpos p.1 p.2); qlra|]. exists p'. split; [by right|]. split; [done|].
        rewrite <- Hm. apply Q.max_r. qlra.
      * exists p. split; [by left|]. split; [done|]. by apply Q.max_l.
  - split.
    + intros p' Hp' He'. apply elem_of_cons in Hp' as [->|Hp']; [done|]. by apply IH1.
    + destruct IH2 as [[-> Hno]|(p' & Hp' & Hrest)]; [left|right; exists p'; split; [by right|done]]. split; [done|].
      intros p' Hp'. apply elem_of_cons in Hp' as [->|Hp']; [done|]. by apply Hno.
Qed.
(** Unless the point is in the last tenth of a cell of the range, the answer is the distance from the box of a point that is less than a
    cell away in both directions. *)
Theorem C59_box_distance b x y : box_state b -> b_table b = true -> in_range b x y ->
  (x < b_sx b / 2 + b_max b - b_scale b / 10)%Q -> (y < b_sy b / 2 + b_max b - b_scale b / 10)%Q ->
  exists q x' y', box_get b x y = Ok q /\ (q == box_dist2 b x' y')%Q /\ (Qabs (x - x') < b_scale b)%Q /\ (Qabs (y - y') < b_scale b)%Q.
Proof.
  intros Hb Ht [Hx Hy] Hx' Hy'. destruct (box_state_good b Hb Ht) as (Hs & Hsx & Hsy & Hm & _ & _). unfold box_get. rewrite Ht. cbn zeta.
  apply Qabs_Qlt_condition in Hx, Hy.
  assert (Hcx : 0 <= column_x b x < cells_x b). { apply (column_in (b_scale b) (b_sx b) (b_max b) Hs x). unfold half. qlra. }
  assert (Hcy : 0 <= column_y b y < cells_y b). { apply (column_in (b_scale b) (b_sy b) (b_max b) Hs y). unfold half. qlra. }
  rewrite decide_False by lia. rewrite decide_True by nia.
  destruct (sample_near (b_scale b) (b_sx b) (b_max b) Hs x) as (qx & Hqx & Hqxc & Hqxr); [unfold half; qlra|].
  destruct (sample_near (b_scale b) (b_sy b) (b_max b) Hs y) as (qy & Hqy & Hqyc & Hqyr); [unfold half; qlra|].
  set (l := x ← usable (b_scale b) (b_sx b) (b_max b); y ← usable (b_scale b) (b_sy b) (b_max b); [(x, y)]).
  assert (Hl : forall p, p ∈ l <-> (p.1 ∈ samples (b_scale b) (b_sx b) (b_max b) /\ 0 <= column_x b p.1 < cells_x b) /\
    (p.2 ∈ samples (b_scale b) (b_sy b) (b_max b) /\ 0 <= column_y b p.2 < cells_y b)).
  { intros [px py]. unfold l. rewrite elem_of_list_bind. setoid_rewrite elem_of_list_bind. setoid_rewrite elem_of_list_singleton.
    unfold usable. setoid_rewrite elem_of_list_filter. cbn [fst snd]. split.
    - intros (x1 & (y1 & [= -> ->] & [H1 H1']) & [H2 H2']). done.
    - intros [[H1 H2] [H3 H4]]. exists px. split; [|split; done]. exists py. split; [done|split; done]. }
  destruct (box_entry_spec b (cells_x b * column_y b y + column_x b x) l) as [_ [[_ Hno]|(p & Hp & Hmt & Hr)]].
  - exfalso. apply (Hno (qx, qy)).
    + apply Hl. cbn [fst snd]. unfold column_x, column_y in *. rewrite Hqxc, Hqyc. done.
    + unfold matches. cbn [fst snd]. unfold column_x, column_y. by rewrite Hqxc, Hqyc.
  - exists (box_entry b (cells_x b * column_y b y + column_x b x)), p.1, p.2. split; [done|]. split; [exact Hr|].
    apply Hl in Hp as [[Hp1 Hp2] [Hp3 Hp4]]. unfold matches in Hmt.
    assert (column_y b y = column_y b p.2 /\ column_x b x = column_x b p.1) as [Hey Hex].
    { clear - Hmt Hcx Hcy Hp2 Hp4. set (n := cells_x b) in *. clearbody n. assert (column_y b y = column_y b p.2) as He by nia. rewrite He in Hmt. lia. }
    apply samples_range in Hp1, Hp3; [|done..]. split.
    + apply (column_dist (b_scale b) (b_sx b) (b_max b) Hs); [unfold half; qlra|done|exact Hex].
    + apply (column_dist (b_scale b) (b_sy b) (b_max b) Hs); [unfold half; qlra|done|exact Hey].
Qed.
Definition demo_box : box := recompute (recompute new_box (1#2) 1 2 1) (1#1) (3#2) 1 (3#2).
Lemma demo_box_state : box_state demo_box.
Proof. unfold demo_box. repeat first [apply box_new|apply box_recompute|unfold good_params; repeat split; by vm_compute]. Qed.
Example C45_C59_box_nonvacuous : box_state demo_box /\ b_table demo_box = true /\ in_range demo_box 1 (-3#2) /\
  (1 < b_sx demo_box / 2 + b_max demo_box - b_scale demo_box / 10)%Q /\ exists q, box_get demo_box 1 (-3#2) = Ok q /\ (0 < q)%Q.
Proof.
  split; [exact demo_box_state|]. split; [done|]. split; [split; by vm_compute|]. split; [by vm_compute|]. eexists. split; vm_compute; reflexivity.
Qed.
(** The check accepts the number of columns as a column: a point just outside of the range is not refused but read from the next row, or
    behind the end of the table. *)
Theorem C45_box_refuted : exists b x y, box_state b /\ b_table b = true /\ box_get b x y = Bad UB.
Proof.
  exists demo_box, 3%Q, 2%Q. split; [exact demo_box_state|]. split; [done|]. vm_compute. reflexivity.
Qed.
(** The last column may have no sample: points there that are almost the largest distance away from the box get the distance 0. *)
Theorem C59_edge_refuted : exists b x y, box_state b /\ b_table b = true /\ in_range b x y /\ (3 < box_dist2 b x y)%Q /\
  exists q, box_get b x y = Ok q /\ (q == 0)%Q.
Proof.
  exists (recompute new_box 1 (11#10) (11#10) 2), (252#100)%Q, 0%Q. split.
  { apply box_recompute; [apply box_new|]. unfold good_params. repeat split; by vm_compute. }
  split; [done|]. split; [split; by vm_compute|]. split; [by vm_compute|]. eexists. split; vm_compute; reflexivity.
Qed.
(** The distances in the table are those to the box, a rectangle of the given size around the origin: [d] is the square of the distance of
    (x, y) from the nearest point of the rectangle. *)
Definition dist2_to_box (sx sy x y d : Q) : Prop :=
  (exists u v, Qabs u <= sx / 2 /\ Qabs v <= sy / 2 /\ d == (x - u) * (x - u) + (y - v) * (y - v))%Q /\
  (forall u v, Qabs u <= sx / 2 -> Qabs v <= sy / 2 -> d <= (x - u) * (x - u) + (y - v) * (y - v))%Q.
Lemma excess_spec p size : (0 <= size)%Q ->
  (exists u, Qabs u <= size / 2 /\ excess p size * excess p size == (p - u) * (p - u))%Q /\
  (forall u, Qabs u <= size / 2 -> excess p size * excess p size <= (p - u) * (p - u))%Q.
Proof.
  intros Hs. unfold excess. cbn zeta. destruct (Qlt_le_dec (size / 2) (Qabs p)) as [H|H].
  - split.
    + destruct (Qlt_le_dec p 0) as [Hn|Hp].
      * exists (- (size / 2))%Q. split; [rewrite Qabs_opp, Qabs_pos; qlra|]. rewrite (Qabs_neg p) by qlra. ring.
      * exists (size / 2)%Q. split; [rewrite Qabs_pos; qlra|]. rewrite (Qabs_pos p) by qlra. ring.
    + intros u Hu. apply Qabs_Qle_condition in Hu. set (h := (size / 2)%Q) in *. clearbody h.
      destruct (Qlt_le_dec p 0) as [Hn|Hp]; [rewrite (Qabs_neg p) in * by qlra|rewrite (Qabs_pos p) in * by qlra]; nra.
  - split.
    + exists p. split; [done|]. ring.
    + intros u _. set (e := (p - u)%Q). clearbody e. nra.
Qed.
Theorem C59_dist b x y : (0 <= b_sx b)%Q -> (0 <= b_sy b)%Q -> dist2_to_box (b_sx b) (b_sy b) x y (box_dist2 b x y).
Proof.
  intros Hx Hy. destruct (excess_spec x (b_sx b) Hx) as [(u & Hu & Eu) Mu]. destruct (excess_spec y (b_sy b) Hy) as [(v & Hv & Ev) Mv].
  unfold box_dist2. split.
  - exists u, v. split; [done|]. split; [done|]. by rewrite Eu, Ev.
  - intros u' v' Hu' Hv'. apply Qplus_le_compat; auto.
Qed.
(** After every computation there is a table, for the requested scale and box up to the tolerance, and for at least the requested
    distance. *)
Theorem C59_recompute b scale sx sy maxd : box_state b -> good_params scale sx sy maxd -> (epsilon <= scale)%Q ->
  let b' := recompute b scale sx sy maxd in
  b_table b' = true /\ (Qabs (b_scale b' - scale) < epsilon)%Q /\ (Qabs (b_sx b' - sx) < epsilon)%Q /\ (Qabs (b_sy b' - sy) < epsilon)%Q /\ (maxd < b_max b' + epsilon)%Q.
Proof.
  intros Hb Hg He. cbn zeta. assert (Hn : b_table b = false -> b = new_box).
  { clear -Hb. induction Hb as [|b scale sx sy maxd Hb IH Hg]; [done|]. unfold recompute. destruct (_ && _); [done|]. done. }
  unfold recompute. destruct (qlt (Qabs (b_scale b - scale)) epsilon && qlt (Qabs (sx - b_sx b)) epsilon && qlt (Qabs (sy - b_sy b)) epsilon && qlt maxd (b_max b + epsilon)) eqn:E.
  - apply andb_prop in E as [E E4]. apply andb_prop in E as [E E3]. apply andb_prop in E as [E1 E2]. unfold qlt in *.
    destruct (Qlt_le_dec (Qabs (b_scale b - scale)) epsilon) as [H1|]; [|done]. destruct (Qlt_le_dec (Qabs (sx - b_sx b)) epsilon) as [H2|]; [|done].
    destruct (Qlt_le_dec (Qabs (sy - b_sy b)) epsilon) as [H3|]; [|done]. destruct (Qlt_le_dec maxd _) as [H4|]; [|done].
    rewrite (Qabs_Qminus (b_sx b)), (Qabs_Qminus (b_sy b)). split; [|done].
    destruct (b_table b); [done|]. rewrite (Hn eq_refl) in H1. cbn [new_box b_scale] in H1.
    exfalso. apply Qabs_Qlt_condition in H1. lra.
  - cbn [b_table b_scale b_sx b_sy b_max]. split; [done|]. assert (Z0 : forall q, (Qabs (q - q) < epsilon)%Q).
    { intros q. assert (E0 : (q - q == 0)%Q) by ring. rewrite E0. reflexivity. }
    do 3 (split; [apply Z0|]). unfold epsilon. lra.
Qed.
Example C59_recompute_nonvacuous : box_state demo_box /\ good_params 1 (3#2) 1 (7#2) /\ (epsilon <= 1)%Q /\ b_max (recompute demo_box 1 (3#2) 1 (7#2)) = (7#2) /\ recompute demo_box 1 (3#2) 1 1 = demo_box.
Proof. split; [exact demo_box_state|]. split; [unfold good_params; repeat split; by vm_compute|]. split; [by vm_compute|]. split; vm_compute; reflexivity. Qed.
(** A scale below the tolerance leaves a new object without table. *)
Theorem C59_tiny_refuted : exists scale sx sy maxd, good_params scale sx sy maxd /\ b_table (recompute new_box scale sx sy maxd) = false.
Proof. exists (1 # 1000000)%Q, (1 # 1000000)%Q, (1 # 1000000)%Q, (1 # 1000000)%Q. split; [unfold good_params; repeat split; by vm_compute|]. vm_compute. reflexivity. Qed.
