(** The line iterator of src/tools/BresenhamLine.{hpp,cpp} (C33). *)
From stdpp Require Import prelude.
From Coq Require Import ZArith Lia.
From Verif Require Import Base.
Local Open Scope Z_scope.

(** ** Machine integers *)
Definition int_min : Z := -2147483648.
Definition int_max : Z := 2147483647.
(** the value of an [int] expression; overflow is undefined behaviour *)
Definition cint (z : Z) : out unit Z := if decide (int_min <= z <= int_max) then Ok z else Bad UB.
(** conversions between [size_t] and [int] (two's complement) *)
Definition to_int (z : Z) : Z := (z + 2147483648) mod 4294967296 - 2147483648.
Definition to_size (z : Z) : Z := z mod 18446744073709551616.

(** ** Model *)
(** BresenhamLine.hpp:54-56, the members of [Bresenham] ([e2] is a local of [getNextPoint]) *)
Record bres := Bres { b_has : bool; b_x0 : Z; b_y0 : Z; b_x1 : Z; b_y1 : Z; b_dx : Z; b_sx : Z; b_dy : Z; b_sy : Z; b_err : Z }.

(** BresenhamLine.cpp:18-28, [init]; [abs] of the smallest int is undefined *)
Definition b_init (sx sy ex ey : Z) : out unit bres :=
  ddx <~ cint (ex - sx) ;; dx <~ cint (Z.abs ddx) ;;
  ddy <~ cint (ey - sy) ;; ady <~ cint (Z.abs ddy) ;; dy <~ cint (- ady) ;;
  err <~ cint (dx + dy) ;;
  Ok (Bres true sx sy ex ey dx (if sx <? ex then 1 else -1) dy (if sy <? ey then 1 else -1) err).

(** BresenhamLine.cpp:44-63, [getNextPoint(int&, int&)] *)
Definition b_next (b : bres) : out unit (option (Z * Z) * bres) :=
  if b_has b then
    if (b_x0 b =? b_x1 b) && (b_y0 b =? b_y1 b) then
      Ok (Some (b_x0 b, b_y0 b), Bres false (b_x0 b) (b_y0 b) (b_x1 b) (b_y1 b) (b_dx b) (b_sx b) (b_dy b) (b_sy b) (b_err b))
    else
      e2 <~ cint (2 * b_err b) ;;
      xe <~ (if e2 >? b_dy b then err <~ cint (b_err b + b_dy b) ;; x <~ cint (b_x0 b + b_sx b) ;; Ok (x, err) else Ok (b_x0 b, b_err b)) ;;
      ye <~ (if e2 <? b_dx b then err <~ cint (snd xe + b_dx b) ;; y <~ cint (b_y0 b + b_sy b) ;; Ok (y, err) else Ok (b_y0 b, snd xe)) ;;
      Ok (Some (b_x0 b, b_y0 b), Bres true (fst xe) (fst ye) (b_x1 b) (b_y1 b) (b_dx b) (b_sx b) (b_dy b) (b_sy b) (snd ye))
  else Ok (None, b).

(** BresenhamLine.cpp:65-71, [getLine]: the loop over [getNextPoint]; the points are appended to the vector *)
Fixpoint b_line (fuel : nat) (b : bres) (acc : list (Z * Z)) : out unit (list (Z * Z)) :=
  match fuel with
  | O => NoFuel
  | S f =>
    r <~ b_next b ;;
    match fst r with
    | Some p => b_line f (snd r) (acc ++ [p])
    | None => Ok acc
    end
  end.

(** The points between two integer positions. The number of loop iterations is bounded by the fuel; [C33_line] shows that any
    sufficiently large amount gives the same result. *)
Definition line_int (fuel : nat) (p q : Z * Z) : out unit (list (Z * Z)) :=
  b <~ b_init (fst p) (snd p) (fst q) (snd q) ;; b_line fuel b [].

(** BresenhamLine.cpp:74-79, [lineBresenham] on grid positions ([size_t] coordinates, converted to [int] and back) *)
Definition line_bresenham (fuel : nat) (p q : Z * Z) (acc : list (Z * Z)) : out unit (list (Z * Z)) :=
  b <~ b_init (to_int (fst p)) (to_int (snd p)) (to_int (fst q)) (to_int (snd q)) ;;
  l <~ b_line fuel b [] ;;
  Ok (acc ++ ((fun xy => (to_size (fst xy), to_size (snd xy))) <$> l)).

(** ** Specification *)
(** [l] is a rasterisation of the segment from [p] to [q]. *)
Definition span (p q : Z * Z) : Z := Z.max (Z.abs (fst q - fst p)) (Z.abs (snd q - snd p)).
Record straight (p q : Z * Z) (l : list (Z * Z)) : Prop := {
  st_first : head l = Some p;
  st_last : last l = Some q;
  st_length : Z.of_nat (length l) = span p q + 1;
  (** the coordinate with the larger difference moves by exactly one towards the end point, the other one by at most one *)
  st_step : forall k a b, l !! k = Some a -> l !! S k = Some b ->
    (Z.abs (snd q - snd p) <= Z.abs (fst q - fst p) -> fst b - fst a = Z.sgn (fst q - fst p)) /\
    (Z.abs (fst q - fst p) < Z.abs (snd q - snd p) -> snd b - snd a = Z.sgn (snd q - snd p)) /\
    (fst b - fst a = 0 \/ fst b - fst a = Z.sgn (fst q - fst p)) /\
    (snd b - snd a = 0 \/ snd b - snd a = Z.sgn (snd q - snd p));
  (** inside the bounding box *)
  st_box : forall a, a ∈ l -> Z.min (fst p) (fst q) <= fst a <= Z.max (fst p) (fst q) /\ Z.min (snd p) (snd q) <= snd a <= Z.max (snd p) (snd q);
  (** at most half a cell away from the ideal line, measured along the minor axis *)
  st_close : forall a, a ∈ l -> 2 * Z.abs ((fst a - fst p) * (snd q - snd p) - (snd a - snd p) * (fst q - fst p)) <= span p q }.

(** ** Proof *)
Lemma cint_ok z : int_min <= z <= int_max -> cint z = Ok z.
Proof. intros H. unfold cint. by rewrite decide_True. Qed.

Section run.
  (** [D], [E]: the absolute differences *)
  Context (D E : Z) (HD : 0 <= D) (HE : 0 <= E).
  Definition rr (ij : Z * Z) : Z := fst ij * E - snd ij * D.
  Definition adv (ij : Z * Z) : Z * Z :=
    let e2 := 2 * (D - E - rr ij) in
    (if e2 >? - E then fst ij + 1 else fst ij, if e2 <? D then snd ij + 1 else snd ij).
  Definition at_ (k : nat) : Z * Z := Nat.iter k adv (0, 0).

  Definition nice (k : Z) (ij : Z * Z) : Prop :=
    0 <= fst ij /\ 0 <= snd ij /\
    (E <= D -> fst ij = k /\ (0 < D -> - D < 2 * rr ij <= D) /\ (E = D -> rr ij = 0)) /\
    (D < E -> snd ij = k /\ - E <= 2 * rr ij < E).
  Lemma adv_nice k ij : 0 < D \/ 0 < E -> nice k ij -> nice (k + 1) (adv ij).
  Proof using HD HE.
    destruct ij as [i j]. unfold nice, adv, rr. cbn [fst snd]. intros Hpos (Hi&Hj&H1&H2).
    destruct (Z.gtb_spec (2 * (D - E - (i * E - j * D))) (- E)) as [Hx|Hx]; destruct (Z.ltb_spec (2 * (D - E - (i * E - j * D))) D) as [Hy|Hy];
      (split; [lia|]); (split; [lia|]); (split; intros HH; [destruct (H1 HH) as (Hk&Hb&He)|destruct (H2 HH) as (Hk&Hb)]).
    all: try (assert (0 < D) as HD0 by lia; specialize (Hb HD0)).
    all: try (split; [lia|]); try nia.
    all: try (split; [intros _; nia|]); try (intros ->; specialize (He eq_refl); nia).
    all: exfalso; destruct (decide (E = D)) as [->|Hne]; [specialize (He eq_refl); nia|nia].
  Qed.
  Lemma at_nice k : 0 < D \/ 0 < E -> nice (Z.of_nat k) (at_ k).
  Proof using HD HE.
    intros Hpos. induction k as [|k IH].
    - unfold nice, at_, rr. cbn. lia.
    - replace (Z.of_nat (S k)) with (Z.of_nat k + 1) by lia. by apply adv_nice.
  Qed.
  Lemma at_S k : at_ (S k) = adv (at_ k).
  Proof using. done. Qed.
  Lemma at_step k : (fst (at_ (S k)) = fst (at_ k) \/ fst (at_ (S k)) = fst (at_ k) + 1) /\ (snd (at_ (S k)) = snd (at_ k) \/ snd (at_ (S k)) = snd (at_ k) + 1).
  Proof using.
    rewrite at_S. unfold adv. cbn [fst snd]. destruct (_ >? _), (_ <? _); lia.
  Qed.
  Lemma at_mono k n : (k <= n)%nat -> fst (at_ k) <= fst (at_ n) /\ snd (at_ k) <= snd (at_ n).
  Proof using. induction 1 as [|n Hn IH]; [lia|]. pose proof (at_step n). lia. Qed.
  Definition N_ : nat := Z.to_nat (Z.max D E).
  Lemma at_end : at_ N_ = (D, E).
  Proof using HD HE.
    destruct (decide (0 < D \/ 0 < E)) as [Hpos|Hn].
    - pose proof (at_nice N_ Hpos) as (Hi&Hj&H1&H2). destruct (at_ N_) as [i j] eqn:HN. unfold N_, rr in *. cbn [fst snd] in *.
      destruct (decide (E <= D)) as [HL|HL].
      + destruct (H1 HL) as (Hk&Hb&_). rewrite Z.max_l in Hk by lia. assert (i = D) as -> by lia. assert (0 < D) as HD0 by lia. specialize (Hb HD0).
        f_equal. nia.
      + destruct (H2 ltac:(lia)) as (Hk&Hb). rewrite Z.max_r in Hk by lia. assert (j = E) as -> by lia. f_equal. nia.
    - assert (D = 0) as HD0 by lia. assert (E = 0) as HE0 by lia. unfold N_. by rewrite HD0, HE0.
  Qed.
  Lemma at_before k : (k < N_)%nat -> at_ k <> (D, E).
  Proof using HD HE.
    intros Hk Heq. assert (Hpos : 0 < D \/ 0 < E) by (unfold N_ in Hk; lia).
    pose proof (at_nice k Hpos) as (_&_&H1&H2). rewrite Heq in H1, H2. cbn [fst snd] in *. unfold N_ in Hk. lia.
  Qed.

  (** the iterator follows [at_] *)
  Context (px py sx sy : Z) (Hsx : sx = 1 \/ sx = -1) (Hsy : sy = 1 \/ sy = -1).
  Context (HB : 3 * D <= int_max) (HB' : 3 * E <= int_max).
  Context (Hx0 : int_min <= px <= int_max) (Hx1 : int_min <= px + D * sx <= int_max).
  Context (Hy0 : int_min <= py <= int_max) (Hy1 : int_min <= py + E * sy <= int_max).
  Definition pt (k : nat) : Z * Z := (px + fst (at_ k) * sx, py + snd (at_ k) * sy).
  Definition bst (k : nat) : bres :=
    Bres true (px + fst (at_ k) * sx) (py + snd (at_ k) * sy) (px + D * sx) (py + E * sy) D sx (- E) sy (D - E - rr (at_ k)).
  Definition bend : bres :=
    Bres false (px + D * sx) (py + E * sy) (px + D * sx) (py + E * sy) D sx (- E) sy (D - E - rr (D, E)).
  Lemma next_mid k : (k < N_)%nat -> b_next (bst k) = Ok (Some (pt k), bst (S k)).
  Proof using HB HB' HD HE Hsx Hsy Hx0 Hx1 Hy0 Hy1.
    intros Hk. assert (Hpos : 0 < D \/ 0 < E) by (unfold N_ in Hk; lia).
    pose proof (at_before k Hk) as Hne. pose proof (at_nice k Hpos) as Hn. pose proof (at_mono k N_ ltac:(lia)) as Hm. pose proof (at_mono (S k) N_ ltac:(lia)) as Hm'.
    rewrite at_end in Hm, Hm'. cbn [fst snd] in Hm, Hm'. pose proof (at_S k) as HS.
    unfold b_next, bst, pt. rewrite HS in *. unfold adv in *. destruct (at_ k) as [i j]. unfold nice, rr in *. cbn [fst snd b_has b_x0 b_y0 b_x1 b_y1 b_dx b_sx b_dy b_sy b_err] in *.
    replace ((px + i * sx =? px + D * sx) && (py + j * sy =? py + E * sy)) with false.
    2:{ symmetry. apply andb_false_iff. destruct (decide (i = D)) as [->|Hi].
        - right. apply Z.eqb_neq. intros Heq. apply Hne. f_equal. nia.
        - left. apply Z.eqb_neq. nia. }
    assert (Hr : - Z.max D E <= 2 * (i * E - j * D) <= Z.max D E).
    { destruct Hn as (_&_&H1&H2). destruct (decide (E <= D)) as [HL|HL].
      - destruct (H1 HL) as (_&Hb&_). specialize (Hb ltac:(lia)). lia.
      - destruct (H2 ltac:(lia)) as (_&Hb). lia. }
    assert (Hij : 0 <= i /\ 0 <= j) by (destruct Hn as (?&?&_); done).
    remember (2 * (D - E - (i * E - j * D))) as e2 eqn:Hdef.
    assert (He2 : int_min <= e2 <= int_max) by (unfold int_min, int_max in *; lia).
    rewrite cint_ok by done. cbn [obind].
    destruct (Z.gtb_spec e2 (- E)) as [Hx|Hx]; destruct (Z.ltb_spec e2 D) as [Hy|Hy]; cbn [fst snd] in *.
    - rewrite !cint_ok by (clear Hn Hne; unfold int_min, int_max in *; destruct Hsx as [->| ->], Hsy as [->| ->]; lia). cbn [obind fst snd]. rewrite !cint_ok by (clear Hn Hne; unfold int_min, int_max in *; destruct Hsx as [->| ->], Hsy as [->| ->]; lia). cbn [obind fst snd]. do 3 f_equal; try lia.
    - rewrite !cint_ok by (clear Hn Hne; unfold int_min, int_max in *; destruct Hsx as [->| ->], Hsy as [->| ->]; lia). cbn [obind fst snd]. do 3 f_equal; lia.
    - cbn [obind fst snd]. rewrite !cint_ok by (clear Hn Hne; unfold int_min, int_max in *; destruct Hsx as [->| ->], Hsy as [->| ->]; lia). cbn [obind fst snd]. do 3 f_equal; lia.
    - cbn [obind fst snd]. done.
  Qed.
  Lemma next_end : b_next (bst N_) = Ok (Some (pt N_), bend).
  Proof using HD HE.
    unfold b_next, bst, bend, pt. rewrite at_end. cbn [fst snd b_has b_x0 b_y0 b_x1 b_y1 b_dx b_sx b_dy b_sy b_err]. by rewrite !Z.eqb_refl.
  Qed.
  Lemma line_from n : forall k fuel acc, (k + n = N_)%nat -> (n + 2 <= fuel)%nat ->
    b_line fuel (bst k) acc = Ok (acc ++ (pt <$> seq k (S n))).
  Proof using HB HB' HD HE Hsx Hsy Hx0 Hx1 Hy0 Hy1.
    induction n as [|n IH]; intros k fuel acc Hk Hf.
    - assert (k = N_) as -> by lia. destruct fuel as [|[|fuel]]; [lia|lia|]. cbn [b_line]. rewrite next_end. cbn [obind fst snd]. cbn [b_line].
      unfold bend at 1, b_next. cbn. done.
    - destruct fuel as [|fuel]; [lia|]. cbn [b_line]. rewrite next_mid by lia. cbn [obind fst snd]. rewrite (IH (S k)) by lia.
      rewrite <-app_assoc. done.
  Qed.
End run.

Lemma init_ok p q : int_min <= fst p <= int_max -> int_min <= snd p <= int_max -> int_min <= fst q <= int_max -> int_min <= snd q <= int_max ->
  3 * span p q <= int_max ->
  exists sx sy D E, b_init (fst p) (snd p) (fst q) (snd q) = Ok (bst D E (fst p) (snd p) sx sy 0) /\
    D = Z.abs (fst q - fst p) /\ E = Z.abs (snd q - snd p) /\ (sx = 1 \/ sx = -1) /\ (sy = 1 \/ sy = -1) /\
    fst p + D * sx = fst q /\ snd p + E * sy = snd q.
Proof.
  destruct p as [px py], q as [qx qy]. unfold span. cbn [fst snd]. intros Hpx Hpy Hqx Hqy HB.
  exists (if px <? qx then 1 else -1), (if py <? qy then 1 else -1), (Z.abs (qx - px)), (Z.abs (qy - py)).
  split.
  - unfold b_init. rewrite !(cint_ok (qx - px)), !(cint_ok (qy - py)) by (unfold int_min, int_max in *; lia). cbn [obind].
    rewrite !(cint_ok (Z.abs _)) by (unfold int_min, int_max in *; lia). cbn [obind].
    rewrite !(cint_ok (- Z.abs _)) by (unfold int_min, int_max in *; lia). cbn [obind].
    rewrite !cint_ok by (unfold int_min, int_max in *; lia). cbn [obind].
    unfold bst, at_, rr. cbn [Nat.iter nat_rect fst snd]. f_equal.
    destruct (Z.ltb_spec px qx); destruct (Z.ltb_spec py qy); f_equal; lia.
  - split; [done|]. split; [done|]. destruct (Z.ltb_spec px qx); destruct (Z.ltb_spec py qy); lia.
Qed.

Lemma straight_run D E p q sx sy : D = Z.abs (fst q - fst p) -> E = Z.abs (snd q - snd p) ->
  (sx = 1 \/ sx = -1) -> (sy = 1 \/ sy = -1) -> fst p + D * sx = fst q -> snd p + E * sy = snd q ->
  straight p q (pt D E (fst p) (snd p) sx sy <$> seq 0 (S (N_ D E))).
Proof.
  intros HD HE Hsx Hsy Hx Hy. assert (0 <= D) as HD0 by lia. assert (0 <= E) as HE0 by lia.
  assert (HN : Z.of_nat (N_ D E) = span p q) by (unfold N_, span; subst; lia).
  assert (Hlk : forall k a, (pt D E p.1 p.2 sx sy <$> seq 0 (S (N_ D E))) !! k = Some a <-> (k <= N_ D E)%nat /\ a = pt D E p.1 p.2 sx sy k).
  { intros k a. rewrite list_lookup_fmap, fmap_Some. setoid_rewrite lookup_seq. split.
    - intros (x&[-> ?]&->). split; [lia|done].
    - intros [Hk ->]. exists k. split; [lia|done]. }
  assert (Hmem : forall a, a ∈ (pt D E p.1 p.2 sx sy <$> seq 0 (S (N_ D E))) -> exists k, (k <= N_ D E)%nat /\ a = pt D E p.1 p.2 sx sy k).
  { intros a [k Hk]%elem_of_list_lookup. exists k. by apply Hlk. }
  constructor.
  - cbn. unfold pt, at_. cbn. f_equal. rewrite (surjective_pairing p) at 3. f_equal; lia.
  - rewrite last_lookup, fmap_length, seq_length. cbn [Nat.pred]. apply Hlk. split; [lia|]. unfold pt. rewrite at_end by done. cbn [fst snd].
    rewrite Hx, Hy. by destruct q.
  - rewrite fmap_length, seq_length, <-HN. lia.
  - intros k a b [Ha ->]%Hlk [Hb ->]%Hlk. unfold pt. cbn [fst snd]. pose proof (at_step D E k) as [Si Sj].
    assert (Hpos : 0 < D \/ 0 < E) by (unfold N_ in Hb; lia).
    pose proof (at_mono D E (S k) (N_ D E) ltac:(lia)) as Hm'. rewrite at_end in Hm' by done. pose proof (at_mono D E 0 k ltac:(lia)) as Hm0.
    change (at_ D E 0) with (0, 0) in Hm0. cbn [fst snd] in Hm', Hm0. rewrite <-HD, <-HE.
    assert (Hsgx : 0 < D -> Z.sgn (fst q - fst p) = sx) by (clear - Hx Hsx; intros; destruct Hsx as [->| ->]; lia).
    assert (Hsgy : 0 < E -> Z.sgn (snd q - snd p) = sy) by (clear - Hy Hsy; intros; destruct Hsy as [->| ->]; lia).
    assert (Hmaj : (E <= D -> fst (at_ D E (S k)) = fst (at_ D E k) + 1) /\ (D < E -> snd (at_ D E (S k)) = snd (at_ D E k) + 1)).
    { pose proof (at_nice D E HD0 HE0 k Hpos) as (_&_&H1&H2). pose proof (at_nice D E HD0 HE0 (S k) Hpos) as (_&_&H1'&H2'). split; intros HL.
      - destruct (H1 HL) as [-> _]. destruct (H1' HL) as [-> _]. clear. lia.
      - destruct (H2 HL) as [-> _]. destruct (H2' HL) as [-> _]. clear. lia. }
    destruct Hmaj as [M1 M2]. clear HD HE Hlk Hmem HN Hb Ha.
    split; [|split; [|split]].
    + intros HL. rewrite (M1 HL), Hsgx by (clear - HL Hpos; lia). clear. lia.
    + intros HL. rewrite (M2 HL), Hsgy by (clear - HL Hpos; lia). clear. lia.
    + destruct Si as [->|Si]; [left; clear; lia|right]. rewrite Si, Hsgx by (clear - Si Hm0 Hm'; lia). clear; lia.
    + destruct Sj as [->|Sj]; [left; clear; lia|right]. rewrite Sj, Hsgy by (clear - Sj Hm0 Hm'; lia). clear; lia.
  - intros a (k&Hk&->)%Hmem. unfold pt. cbn [fst snd]. pose proof (at_mono D E k (N_ D E) Hk) as Hm. rewrite at_end in Hm by done.
    pose proof (at_mono D E 0 k ltac:(lia)) as Hm0. change (at_ D E 0) with (0, 0) in Hm0. cbn [fst snd] in Hm, Hm0.
    clear - Hm Hm0 Hx Hy Hsx Hsy. destruct Hsx as [->| ->], Hsy as [->| ->]; lia.
  - intros a (k&Hk&->)%Hmem. unfold pt. cbn [fst snd].
    replace (p.1 + (at_ D E k).1 * sx - p.1) with ((at_ D E k).1 * sx) by lia. replace (p.2 + (at_ D E k).2 * sy - p.2) with ((at_ D E k).2 * sy) by lia.
    replace (q.2 - p.2) with (E * sy) by lia. replace (q.1 - p.1) with (D * sx) by lia.
    replace ((at_ D E k).1 * sx * (E * sy) - (at_ D E k).2 * sy * (D * sx)) with (sx * sy * rr D E (at_ D E k)) by (unfold rr; lia).
    replace (Z.abs (sx * sy * rr D E (at_ D E k))) with (Z.abs (rr D E (at_ D E k))) by (destruct Hsx as [->| ->], Hsy as [->| ->]; lia).
    rewrite <-HN. unfold N_. destruct (decide (0 < D \/ 0 < E)) as [Hpos|Hn].
    + pose proof (at_nice D E HD0 HE0 k Hpos) as (_&_&H1&H2). destruct (decide (E <= D)) as [HL|HL].
      * destruct (H1 HL) as (_&Hb&_). specialize (Hb ltac:(lia)). lia.
      * destruct (H2 ltac:(lia)) as (_&Hb). lia.
    + assert (D = 0) as -> by lia. assert (E = 0) as -> by lia. unfold rr. lia.
Qed.

(** ** C33 *)
(** Every line whose span is at most a third of the largest int is rasterised without overflow, the loop ends, and the result
    is a straight line. *)
Theorem C33_line p q :
  int_min <= fst p <= int_max -> int_min <= snd p <= int_max -> int_min <= fst q <= int_max -> int_min <= snd q <= int_max ->
  3 * span p q <= int_max ->
  exists l, (forall fuel, (length l < fuel)%nat -> line_int fuel p q = Ok l) /\ straight p q l.
Proof.
  intros Hpx Hpy Hqx Hqy HB. destruct (init_ok p q Hpx Hpy Hqx Hqy HB) as (sx&sy&D&E&Hi&HD&HE&Hsx&Hsy&Hx&Hy).
  exists (pt D E (fst p) (snd p) sx sy <$> seq 0 (S (N_ D E))). split; [|by apply straight_run].
  intros fuel Hf. rewrite fmap_length, seq_length in Hf. unfold line_int. rewrite Hi. cbn [obind]. apply line_from with (n := N_ D E); unfold span in HB; lia.
Qed.
(** the same for grid positions, appended to what the vector already holds *)
Theorem C33_positions p q acc :
  0 <= fst p -> 0 <= snd p -> 0 <= fst q -> 0 <= snd q -> Z.max (Z.max (fst p) (snd p)) (Z.max (fst q) (snd q)) <= 715827882 ->
  exists l, (forall fuel, (length l < fuel)%nat -> line_bresenham fuel p q acc = Ok (acc ++ l)) /\ straight p q l.
Proof.
  intros Hpx Hpy Hqx Hqy HB.
  assert (HI : forall z, 0 <= z <= 715827882 -> to_int z = z) by (intros z Hz; unfold to_int; rewrite Z.mod_small; lia).
  destruct (C33_line p q) as (l&Hl&Hst); try (unfold int_min, int_max, span; lia).
  exists l. split; [|done]. intros fuel Hf. unfold line_bresenham. rewrite !HI by lia. specialize (Hl fuel Hf). unfold line_int in Hl.
  destruct (b_init p.1 p.2 q.1 q.2) as [b| | |]; cbn [obind] in *; try discriminate. rewrite Hl. cbn [obind]. do 2 f_equal.
  transitivity (id <$> l); [|apply list_fmap_id]. apply list_fmap_ext. intros k a Hk. assert (a ∈ l) as Ha by (apply elem_of_list_lookup; eauto).
  destruct (st_box _ _ _ Hst a Ha) as [H1 H2]. unfold to_size. rewrite !Z.mod_small by lia. by destruct a.
Qed.
Example C33_nonvacuous : line_int 20 (0, 0) (5, 2) = Ok [(0, 0); (1, 0); (2, 1); (3, 1); (4, 2); (5, 2)] /\
  line_int 20 (3, 9) (1, 4) = Ok [(3, 9); (3, 8); (2, 7); (2, 6); (1, 5); (1, 4)].
Proof. split; vm_compute; reflexivity. Qed.
(** For larger differences the [int] arithmetic overflows. *)
Theorem C33_overflow_refuted : exists p q, int_min <= fst p <= int_max /\ int_min <= snd p <= int_max /\ int_min <= fst q <= int_max /\ int_min <= snd q <= int_max /\
  forall fuel, line_int fuel p q = Bad UB.
Proof. exists (-2000000000, 0), (2000000000, 0). cbn. unfold int_min, int_max. repeat split; try lia. Qed.
