(** Classifying terrain from slopes and steps.  C128, C129.
    src/operators/SimpleTraversability.cpp:114-285

    Simplifications: numbers are rational, or infinite, or not a number; the rounding of double is not modelled. The input layers that are configured exist, and the output band is not the
    band of the probabilities. The log at 275-282 is left out; it only reads classes. *)
From Coq Require Import ZArith QArith Qabs Qround Lqa.
From stdpp Require Import prelude.
From Verif Require Import Base Bresenham Trav Growing Passages.
Local Open Scope Z_scope.

(** * Model *)
(** a float *)
Inductive val := Fin (q : Q) | PInf | NInf | NaN.
(** [!=] of C++ *)
Definition differ (a b : val) : bool :=
  match a, b with Fin x, Fin y => negb (Qeq_bool x y) | PInf, PInf | NInf, NInf => false | _, _ => true end.
(** [a > q] *)
Definition above (a : val) (q : Q) : bool := match a with Fin x => if Qlt_le_dec q x then true else false | PInf => true | _ => false end.
(** [fabs] *)
Definition fabs (a : val) : val := match a with Fin x => Fin (Qabs x) | NInf => PInf | a => a end.
(** a band of an input layer: its number of columns and rows, its values and the value for missing data, if there is one *)
Record band := Band { b_w : Z; b_h : Z; b_data : cell -> val; b_no_data : option val }.
(** SimpleTraversability.hpp:14-44 *)
Record config := Config { maximum_slope : Q; class_count : Z; min_width : Q; ground_clearance : Q; obstacle_clearance : Q }.
Definition UNKNOWN : nat := 0.
Definition CUSTOM : Z := 2.
Definition uint8 (z : Z) : nat := Z.to_nat (z mod 256).
(** 146-153 *)
Definition unknown_value (b : band) : val := match b_no_data b with Some v => v | None => NInf end.
(** 171-183: the value of a cell, if the band is configured and has one; outside of the band it is undefined *)
Definition read (b : option band) (c : cell) : out unit (option val) :=
  match b with
  | None => Ok None
  | Some b => if decide (is_cell (b_w b) (b_h b) c) then Ok (if differ (b_data b c) (unknown_value b) then Some (b_data b c) else None) else Bad UB
  end.
Definition nonzero (q : Q) : bool := negb (Qeq_bool q 0).
(** 216: [rint] of a quotient, see Passages.v *)
Definition klass (cf : config) (s : Q) : Z :=
  let q := (s / maximum_slope cf * inject_Z (class_count cf))%Q in class_count cf - rint (Qnum q) (Zpos (Qden q)).
(** 185-220: the new class of a cell and the new probability, where they are set; the conversion of something that is not a number to int is undefined *)
Definition classify (cf : config) (has_slope_input : bool) (slope step : option val) : out unit (option nat * option nat) :=
  if match step with Some v => nonzero (ground_clearance cf) && above v (ground_clearance cf) | None => false end then Ok (Some OBSTACLE, Some 255%nat)
  else match slope with
  | None => if has_slope_input then Ok (Some UNKNOWN, None) else Ok (None, None)
  | Some s =>
    if nonzero (maximum_slope cf) then
      if above (fabs s) (maximum_slope cf) then Ok (Some OBSTACLE, Some 255%nat)
      else match fabs s with Fin q => Ok (Some (uint8 (CUSTOM + klass cf q)), Some 255%nat) | _ => Bad UB end
    else Ok (None, None)
  end.
(** the output layer: its number of columns and rows, scales, classes and probabilities of the cells, the registered classes; TraversabilityGrid.hpp *)
Record grid := Grid { g_w : Z; g_h : Z; g_sx : Q; g_sy : Q; g_class : cell -> nat; g_prob : cell -> nat; g_reg : list tclass }.
Definition with_cells (g : grid) (s : maps) : grid := Grid (g_w g) (g_h g) (g_sx g) (g_sy g) s.1 s.2 (g_reg g).
Definition with_reg (g : grid) (l : list tclass) : grid := Grid (g_w g) (g_h g) (g_sx g) (g_sy g) (g_class g) (g_prob g) l.
(** what cannot happen for other states is passed on *)
Definition lift {A B S} (s : S) (o : out A B) : out S B := match o with Ok b => Ok b | Throw _ => Throw s | Bad e => Bad e | NoFuel => NoFuel end.
(** 171-220: what is written for a cell *)
Definition new_values (cf : config) (slope step : option band) (c : cell) : out unit (option nat * option nat) :=
  vs <~ read slope c ;; vt <~ read step c ;; classify cf (match slope with Some _ => true | None => false end) vs vt.
Definition write (f : cell -> nat) (c : cell) (v : option nat) : cell -> nat := match v with Some v => upd c v f | None => f end.
Definition one_cell (cf : config) (slope step : option band) (c : cell) (s : maps) : out maps maps :=
  r <~ lift s (new_values cf slope step c) ;; Ok (write s.1 c r.1, write s.2 c r.2).
(** 162-222 *)
Definition classify_all (cf : config) (slope step : option band) (g : grid) : out maps maps :=
  iter_out (one_cell cf slope step) (all_cells (g_w g) (g_h g)) (g_class g, g_prob g).
(** 224-233 *)
Definition post_process (cf : config) (fuel : nat) (g : grid) (s : maps) : out maps maps :=
  s <~ (if Qlt_le_dec 0 (min_width cf) then close_passages (g_w g) (g_h g) (g_sx g) (g_sy g) (min_width cf) fuel s.1 s.2 else Ok s) ;;
  Ok (if Qlt_le_dec 0 (obstacle_clearance cf) then grow_obstacles (g_w g) (g_h g) (g_sx g) (g_sy g) (obstacle_clearance cf) s.1 s.2 else s).
(** 240-241 *)
Definition driveability (n i : Z) : Q := (1 / inject_Z n + (1 - 1 / inject_Z n) / inject_Z n * inject_Z i)%Q.
(** 235-243; the division by zero for no classes makes a class whose drivability is not a number, which is not modelled *)
Definition register_classes (cf : config) (l : list tclass) : out (list tclass) (list tclass) :=
  if decide (class_count cf = 0) then Bad IllTyped else
  iter_out (fun i l => match mk_class (driveability (class_count cf) i) with Some k => Ok (set_class (uint8 (CUSTOM + i)) k l) | None => Throw l end)
    (seqZ 0 (class_count cf + 1)) (set_class OBSTACLE 0%Q l).
(** 245-264: sum and number of the classes that are known; the mean, rounded *)
Definition known_cells (g : grid) (f : cell -> nat) : list nat := filter (fun k => k <> UNKNOWN) (f <$> all_cells (g_w g) (g_h g)).
Definition mean_class (l : list nat) : nat :=
  let sum := Z.of_nat (sum_list l) in let n := Z.of_nat (length l) in if decide (n = 0) then 0%nat else uint8 ((2 * sum + n) / (2 * n)).
(** 262-273 *)
Definition register_unknown (g : grid) : out grid grid :=
  k7 <~ lift g (get_class 7 (g_reg g)) ;;
  let m := mean_class (known_cells g (g_class g)) in
  if decide (m <= 1)%nat then
    match mk_class (drivability k7) with Some k => Ok (with_reg g (set_class UNKNOWN k (g_reg g))) | None => Throw g end
  else k <~ lift g (get_class m (g_reg g)) ;; Ok (with_reg g (set_class UNKNOWN k (g_reg g))).
(** 114-285: with an output layer; the probabilities are zero first *)
Definition update_all (cf : config) (fuel : nat) (slope step : option band) (g : grid) : out grid grid :=
  let g0 := with_cells g (g_class g, fun _ => 0%nat) in
  match slope, step with
  | None, None => Throw g0
  | _, _ =>
    s <~ lift g0 (classify_all cf slope step g0) ;; s <~ lift g0 (post_process cf fuel g0 s) ;;
    let g1 := with_cells g0 s in
    l <~ lift g1 (register_classes cf (g_reg g1)) ;; register_unknown (with_reg g1 l)
  end.

(** * Specification *)
(** the same number *)
Definition same (a b : val) : Prop := match a, b with Fin x, Fin y => (x == y)%Q | PInf, PInf | NInf, NInf => True | _, _ => False end.
(** the value for missing data is minus infinity if the band has none *)
Definition missing (b : band) (c : cell) : Prop := same (b_data b c) (default NInf (b_no_data b)).
(** greater than a number *)
Definition greater (v : val) (q : Q) : Prop := match v with Fin x => (q < x)%Q | PInf => True | _ => False end.
(** the slope of a cell in either direction is greater than the maximum *)
Definition steep (v : val) (q : Q) : Prop := match v with Fin x => (q < x \/ q < - x)%Q | PInf | NInf => True | NaN => False end.
(** the step around the cell is known and greater than the clearance, and a clearance is configured *)
Definition too_high (cf : config) (step : option band) (c : cell) : Prop :=
  exists b, step = Some b /\ ~ missing b c /\ ~ (ground_clearance cf == 0)%Q /\ greater (b_data b c) (ground_clearance cf).
(** [z] is the integer nearest to [q]; the even one if there are two *)
Definition nearest (q : Q) (z : Z) : Prop := (Qabs (q - inject_Z z) <= 1 # 2)%Q /\ ((Qabs (q - inject_Z z) == 1 # 2)%Q -> Z.even z = true).
(** the class of a cell: an obstacle if the step is too high; otherwise unknown if the slope is; an obstacle if the slope is too steep; otherwise one of
    the classes 2 ... 2 + class_count, by the quotient of the slope and the maximum slope *)
Definition terrain (cf : config) (slope : band) (step : option band) (c : cell) (k : nat) : Prop :=
  (too_high cf step c /\ k = 1%nat) \/
  (~ too_high cf step c /\ missing slope c /\ k = 0%nat) \/
  (~ too_high cf step c /\ ~ missing slope c /\ steep (b_data slope c) (maximum_slope cf) /\ k = 1%nat) \/
  (~ too_high cf step c /\ ~ missing slope c /\ exists q i, b_data slope c = Fin q /\ (Qabs q <= maximum_slope cf)%Q /\
     nearest (Qabs q / maximum_slope cf * inject_Z (class_count cf)) i /\ 0 <= i <= class_count cf /\ Z.of_nat k = 2 + class_count cf - i).
(** the bands that are read cover the output layer *)
Definition covers (g : grid) (b : band) : Prop := g_w g <= b_w b /\ g_h g <= b_h b.
(** what the operator is made for: a band of slopes that are numbers, a maximum slope and between 1 and 253 classes; layers of the same size *)
Definition usable (cf : config) (slope : band) (step : option band) (g : grid) : Prop :=
  (0 < maximum_slope cf)%Q /\ 1 <= class_count cf <= 253 /\ covers g slope /\ (forall b, step = Some b -> covers g b) /\
  (forall c, is_cell (g_w g) (g_h g) c -> b_data slope c <> NaN).
(** limits of the two ways of post-processing, where they are used; see C41 and C58 *)
Definition processable (cf : config) (fuel : nat) (g : grid) : Prop :=
  ((0 < min_width cf)%Q -> can_close (g_w g) (g_h g) (g_sx g) (g_sy g) (min_width cf) /\ (lut_fuel (g_sx g) (g_sy g) (min_width cf) <= fuel)%nat /\ class_count cf <= 252) /\
  ((0 < obstacle_clearance cf)%Q -> fits (g_w g) (g_h g) (g_sx g) (g_sy g) (obstacle_clearance cf)).

(** * Rounding *)
Lemma rint_spec num den : 0 < den -> 2 * Z.abs (num - den * rint num den) <= den /\ (2 * Z.abs (num - den * rint num den) = den -> Z.even (rint num den) = true).
Proof.
  intros Hd. unfold rint. cbn zeta. pose proof (Z.div_mod num den) as H. pose proof (Z.mod_pos_bound num den Hd) as Hb. specialize (H ltac:(lia)).
  set (q := num / den) in *. set (r := num mod den) in *.
  assert (num - den * q = r) as E1 by lia. assert (num - den * (q + 1) = r - den) as E2 by lia.
  repeat case_decide; [rewrite E1; lia|rewrite E2; lia|]. destruct (Z.even q) eqn:E.
  - rewrite E1. split; [lia|done].
  - rewrite E2. split; [lia|]. intros _. change (q + 1) with (Z.succ q). rewrite Z.even_succ, <- Z.negb_even, E. done.
Qed.
Lemma rint_nearest (q : Q) : nearest q (rint (Qnum q) (Zpos (Qden q))).
Proof.
  destruct q as [n d]. cbn [Qnum Qden]. destruct (rint_spec n (Zpos d)) as [H1 H2]; [lia|]. set (r := rint n (Z.pos d)) in *.
  assert (Qabs ((n # d) - inject_Z r) == Z.abs (n - Zpos d * r) # d)%Q as E.
  { unfold Qminus, Qplus, Qopp, inject_Z, Qabs, Qeq. cbn [Qnum Qden]. rewrite Pos.mul_1_r. f_equal. f_equal. lia. }
  unfold nearest. rewrite E. unfold Qle, Qeq. cbn [Qnum Qden]. split; [lia|]. intros He. apply H2. lia.
Qed.
Lemma nearest_mono p q i j : nearest p i -> nearest q j -> (p <= q)%Q -> i <= j.
Proof.
  intros [Hi Hi2] [Hj Hj2] Hpq. destruct (decide (i <= j)) as [|Hn]; [done|exfalso].
  assert (Hij : (inject_Z j + 1 <= inject_Z i)%Q). { change 1%Q with (inject_Z 1). rewrite <- inject_Z_plus, <- Zle_Qle. lia. }
  pose proof Hi as Hi'. pose proof Hj as Hj'. apply Qabs_Qle_condition in Hi, Hj.
  assert (He1 : (p - inject_Z i == - (1 # 2))%Q) by lra. assert (He2 : (q - inject_Z j == 1 # 2)%Q) by lra.
  assert (Heq : (inject_Z i == inject_Z (j + 1))%Q). { rewrite inject_Z_plus. change (inject_Z 1) with 1%Q. lra. }
  pose proof (proj1 (inject_Z_injective i (j + 1)) Heq) as ->.
  assert (A : Z.even (j + 1) = true). { apply Hi2. rewrite He1. reflexivity. }
  assert (B : Z.even j = true). { apply Hj2. rewrite He2. reflexivity. }
  change (j + 1) with (Z.succ j) in A. rewrite Z.even_succ, <- Z.negb_even, B in A. done.
Qed.
Lemma nearest_int i j : nearest (inject_Z i) j -> i = j.
Proof.
  intros [H _]. unfold Qminus in H. rewrite <- inject_Z_opp, <- inject_Z_plus in H.
  unfold Qabs, inject_Z, Qle in H. cbn in H. lia.
Qed.

(** * The cells *)
Lemma differ_same a b : differ a b = true <-> ~ same a b.
Proof.
  destruct a as [x| | |], b as [y| | |]; cbn; try tauto; try (split; [done|tauto]).
  rewrite negb_true_iff. rewrite <- not_true_iff_false, Qeq_bool_iff. done.
Qed.
Lemma above_greater v q : above v q = true <-> greater v q.
Proof. destruct v as [x| | |]; cbn; try done. destruct (Qlt_le_dec q x) as [H|H]; [done|]. split; [done|]. intros H'. lra. Qed.
Lemma nonzero_spec q : nonzero q = true <-> ~ (q == 0)%Q.
Proof. unfold nonzero. rewrite negb_true_iff, <- not_true_iff_false, Qeq_bool_iff. done. Qed.
Lemma above_steep v q : above (fabs v) q = true <-> steep v q.
Proof.
  rewrite above_greater. destruct v as [x| | |]; cbn; try done. pose proof (Qle_Qabs x). pose proof (Qle_Qabs (- x)) as H2. rewrite Qabs_opp in H2.
  split; [|lra]. apply Qabs_case; lra.
Qed.
Definition inside (g : grid) (c : cell) : Prop := is_cell (g_w g) (g_h g) c.
Lemma read_spec b c g : covers g b -> inside g c -> read (Some b) c = Ok (if differ (b_data b c) (unknown_value b) then Some (b_data b c) else None).
Proof. intros [H1 H2] [H3 H4]. cbn. rewrite decide_True; [done|]. split; lia. Qed.
Lemma not_steep_fin v m : v <> NaN -> ~ steep v m -> exists q, v = Fin q /\ (Qabs q <= m)%Q.
Proof.
  intros Hn Hs. destruct v as [x| | |]; cbn in Hs; try tauto. exists x. split; [done|]. apply Qnot_lt_le. intros Hlt. apply Hs.
  revert Hlt. apply Qabs_case; lra.
Qed.
Lemma class_spec cf q : (0 < maximum_slope cf)%Q -> 1 <= class_count cf <= 253 -> (Qabs q <= maximum_slope cf)%Q -> exists i,
  nearest (Qabs q / maximum_slope cf * inject_Z (class_count cf)) i /\ 0 <= i <= class_count cf /\ Z.of_nat (uint8 (CUSTOM + klass cf (Qabs q))) = 2 + class_count cf - i.
Proof.
  intros Hm Hn Hq. set (p := (Qabs q / maximum_slope cf * inject_Z (class_count cf))%Q). exists (rint (Qnum p) (Zpos (Qden p))).
  pose proof (rint_nearest p) as Hr. set (i := rint (Qnum p) (Zpos (Qden p))) in *.
  assert (Hd : (0 <= Qabs q / maximum_slope cf /\ Qabs q / maximum_slope cf <= 1)%Q).
  { split; [apply Qle_shift_div_l; [done|]; pose proof (Qabs_nonneg q); lra|apply Qle_shift_div_r; [done|lra]]. }
  assert (Hc : (0 < inject_Z (class_count cf))%Q). { change 0%Q with (inject_Z 0). rewrite <- Zlt_Qlt. lia. }
  assert (Hp : (inject_Z 0 <= p /\ p <= inject_Z (class_count cf))%Q).
  { unfold p. change (inject_Z 0) with 0%Q. split; nra. }
  assert (Hself : forall z, nearest (inject_Z z) z). { intros z. pose proof (rint_nearest (inject_Z z)) as H. pose proof (nearest_int _ _ H) as E. by rewrite <- E in H. }
  assert (Hi : 0 <= i <= class_count cf). { split; [apply (nearest_mono _ _ _ _ (Hself 0) Hr); apply Hp|apply (nearest_mono _ _ _ _ Hr (Hself _)); apply Hp]. }
  split; [done|]. split; [done|]. unfold uint8, klass, CUSTOM. fold p. fold i. rewrite Z2Nat.id by (apply Z.mod_pos_bound; lia). rewrite Z.mod_small; lia.
Qed.
Lemma new_values_spec cf slope step g c : usable cf slope step g -> inside g c -> exists k, terrain cf slope step c k /\ (k <= 2 + Z.to_nat (class_count cf))%nat /\
  new_values cf (Some slope) step c = Ok (Some k, if decide (k = 0%nat) then None else Some 255%nat).
Proof.
  intros (Hm & Hn & Hcs & Hct & Hnan) Hc. unfold new_values. rewrite (read_spec slope c g) by done. cbn [obind].
  assert (Hst : exists vt, read step c = Ok vt /\ (match vt with Some v => nonzero (ground_clearance cf) && above v (ground_clearance cf) | None => false end = true <-> too_high cf step c)).
  { destruct step as [b|].
    - rewrite (read_spec b c g) by auto. eexists. split; [done|]. destruct (differ (b_data b c) (unknown_value b)) eqn:E.
      + rewrite andb_true_iff, nonzero_spec, above_greater. split.
        * intros [H1 H2]. exists b. split; [done|]. split; [by apply differ_same|]. done.
        * intros (b' & [= <-] & _ & H). done.
      + split; [done|]. intros (b' & [= <-] & H & _). exfalso. apply differ_same in H. unfold unknown_value in E. unfold default in H. cbn in H.
        rewrite E in H. done.
    - exists None. split; [done|]. split; [done|]. by intros (b' & ? & _). }
  destruct Hst as (vt & -> & Hhigh). cbn [obind]. unfold classify.
  destruct (match vt with Some v => nonzero (ground_clearance cf) && above v (ground_clearance cf) | None => false end) eqn:Eh.
  { exists 1%nat. split; [left; split; [by apply Hhigh|done]|]. split; [lia|done]. }
  assert (Hnh : ~ too_high cf step c) by (intros H; apply Hhigh in H; done). clear Hhigh Eh vt.
  destruct (differ (b_data slope c) (unknown_value slope)) eqn:Ed.
  2:{ exists 0%nat. split; [|split; [lia|done]]. right. left. split; [done|]. split; [|done]. unfold missing. unfold unknown_value in Ed.
      destruct (b_data slope c) as [x| | |] eqn:Ev; destruct (b_no_data slope) as [[y| | |]|]; cbn in Ed |- *; try done.
      apply negb_false_iff, Qeq_bool_iff in Ed. done. }
  assert (Hnm : ~ missing slope c) by (by apply differ_same).
  assert (Hnz : nonzero (maximum_slope cf) = true) by (apply nonzero_spec; lra). rewrite Hnz.
  destruct (above (fabs (b_data slope c)) (maximum_slope cf)) eqn:Ea.
  { exists 1%nat. split; [|split; [lia|done]]. right. right. left. split; [done|]. split; [done|]. split; [by apply above_steep|done]. }
  destruct (not_steep_fin (b_data slope c) (maximum_slope cf)) as (q & Eq & Hq); [by apply Hnan| |].
  { intros H. apply above_steep in H. congruence. }
  rewrite Eq. cbn [fabs]. destruct (class_spec cf q) as (i & H1 & H2 & H3); [done..|].
  exists (uint8 (CUSTOM + klass cf (Qabs q))). split.
  - right. right. right. split; [done|]. split; [done|]. exists q, i. done.
  - split; [lia|]. rewrite decide_False by lia. done.
Qed.
Lemma one_cells (f : cell -> out unit (option nat * option nat)) (r : cell -> option nat * option nat) l : (forall c, c ∈ l -> f c = Ok (r c)) -> forall s,
  exists s', iter_out (fun c s => v <~ lift s (f c) ;; Ok (write s.1 c v.1, write s.2 c v.2)) l s = Ok s' /\
    (forall c, c ∈ l -> s'.1 c = default (s.1 c) (r c).1 /\ s'.2 c = default (s.2 c) (r c).2).
Proof.
  intros Hf.
  assert (Hgen : forall l', (forall c, c ∈ l' -> f c = Ok (r c)) -> forall s, exists s', iter_out (fun c s => v <~ lift s (f c) ;; Ok (write s.1 c v.1, write s.2 c v.2)) l' s = Ok s' /\
    (forall c, c ∈ l' -> s'.1 c = default (s.1 c) (r c).1 /\ s'.2 c = default (s.2 c) (r c).2) /\ (forall c, c ∉ l' -> s'.1 c = s.1 c /\ s'.2 c = s.2 c)).
  { clear Hf l. induction l' as [|x l' IH]; intros Hf s.
    { exists s. split; [done|]. split; [|done]. intros c Hc. by apply elem_of_nil in Hc. }
    cbn [iter_out]. rewrite (Hf x) by (by left). cbn [lift obind].
    assert (Hw : forall (m : cell -> nat) v c, write m x v c = if decide (c = x) then default (m c) v else m c).
    { intros m v c. unfold write. destruct v as [v|]; [|by case_decide]. unfold upd. by case_decide. }
    destruct (IH ltac:(intros c Hc; apply Hf; by right) (write s.1 x (r x).1, write s.2 x (r x).2)) as (s' & H1 & H2 & H3).
    exists s'. split; [done|]. cbn [fst snd] in H2, H3. split.
    - intros c Hc. destruct (decide (c ∈ l')) as [Hin|Hout].
      + destruct (H2 c Hin) as [-> ->]. rewrite !Hw. case_decide as E; [subst c|done]. by destruct (r x) as [[|] [|]].
      + destruct (H3 c Hout) as [-> ->]. rewrite !Hw. apply elem_of_cons in Hc as [->|Hc]; [|by destruct (Hout Hc)]. by rewrite !decide_True by done.
    - intros c Hc. apply not_elem_of_cons in Hc as [Hne Hout]. destruct (H3 c Hout) as [-> ->]. rewrite !Hw. by rewrite !decide_False by done. }
  intros s. destruct (Hgen l Hf s) as (s' & H1 & H2 & _). by exists s'.
Qed.
Lemma classify_all_spec cf slope step g : usable cf slope step g -> exists s, classify_all cf (Some slope) step g = Ok s /\
  forall c, inside g c -> terrain cf slope step c (s.1 c) /\ (s.1 c <= 2 + Z.to_nat (class_count cf))%nat /\ s.2 c = if decide (s.1 c = 0%nat) then g_prob g c else 255%nat.
Proof.
  intros Hu. set (r := fun c => match new_values cf (Some slope) step c with Ok v => v | _ => (None, None) end).
  destruct (one_cells (new_values cf (Some slope) step) r (all_cells (g_w g) (g_h g))) with (s := (g_class g, g_prob g)) as (s & H1 & H2).
  { intros c Hc. apply elem_of_all_cells in Hc. unfold r. destruct (new_values_spec cf slope step g c Hu Hc) as (k & _ & _ & ->). done. }
  exists s. split; [exact H1|]. intros c Hc. destruct (H2 c) as [E1 E2]; [by apply elem_of_all_cells|].
  destruct (new_values_spec cf slope step g c Hu Hc) as (k & Hk & Hb & E). unfold r in E1, E2. rewrite E in E1, E2. cbn in E1, E2. rewrite E1.
  split; [done|]. split; [done|]. rewrite E2. by case_decide.
Qed.

(** * Post-processing *)
Definition near_obstacle (cf : config) (g : grid) (o c : cell) : Prop := (0 < obstacle_clearance cf)%Q /\ in_radius (g_sx g) (g_sy g) (obstacle_clearance cf) o c.
(** two obstacles that are nearer to each other than the minimal width *)
Definition passage (cf : config) (g : grid) (plain : cell -> nat) (a b : cell) : Prop := (0 < min_width cf)%Q /\ inside g a /\ plain a = 1%nat /\ inside g b /\ plain b = 1%nat /\
  a <> b /\ closer (g_sx g) (g_sy g) (min_width cf) a b.
(** the map [s] is the map [plain] with passages closed and then obstacles grown *)
Definition processed (cf : config) (g : grid) (plain : cell -> nat) (cls prob : cell -> nat) : Prop :=
  (forall c, inside g c -> cls c = plain c \/ cls c = 1%nat) /\
  (forall c o, inside g c -> inside g o -> plain o = 1%nat -> o = c \/ near_obstacle cf g o c -> cls c = 1%nat) /\
  (forall a b, passage cf g plain a b -> exists l, chain b l a /\ forall o, o ∈ l -> inside g o /\ between a b o /\ cls o = 1%nat /\ forall c, inside g c -> near_obstacle cf g o c -> cls c = 1%nat) /\
  (forall c, inside g c -> cls c <> plain c -> exists o, inside g o /\ (o = c \/ near_obstacle cf g o c) /\ (plain o = 1%nat \/ exists a b, passage cf g plain a b /\ between a b o)) /\
  (forall c, inside g c -> (plain c <> 0%nat -> prob c = 255%nat) /\ (plain c = 0%nat -> prob c = 0%nat \/ prob c = 255%nat /\ exists a b, passage cf g plain a b /\ between a b c)).
Local Instance in_radius_dec sx sy r o c : Decision (in_radius sx sy r o c).
Proof. unfold in_radius. destruct (Qlt_le_dec (dist2 sx sy (c.1 - o.1) (c.2 - o.2)) (r * r)) as [H|H]; [by left|right]. lra. Defined.
Lemma post_spec cf fuel g s : processable cf fuel g -> (forall c, inside g c -> (s.1 c <= 2 + Z.to_nat (class_count cf))%nat) -> 1 <= class_count cf ->
  (forall c, inside g c -> s.2 c = if decide (s.1 c = 0%nat) then 0%nat else 255%nat) ->
  exists s', post_process cf fuel g s = Ok s' /\ processed cf g s.1 s'.1 s'.2.
Proof.
  intros [Hc Hg] Hb Hn Hp. unfold post_process.
  assert (H1 : exists s1, (if Qlt_le_dec 0 (min_width cf) then close_passages (g_w g) (g_h g) (g_sx g) (g_sy g) (min_width cf) fuel s.1 s.2 else Ok s) = Ok s1 /\
    (forall c, inside g c -> (s1.1 c = s.1 c /\ s1.2 c = s.2 c) \/ (s1.1 c = 1%nat /\ s1.2 c = 255%nat /\ s.1 c <> 1%nat /\ exists a b, passage cf g s.1 a b /\ between a b c)) /\
    (forall a b, passage cf g s.1 a b -> exists l, chain b l a /\ forall c, c ∈ l -> inside g c /\ between a b c /\ s1.1 c = 1%nat)).
  { destruct (Qlt_le_dec 0 (min_width cf)) as [Hm|Hm].
    - destruct (Hc Hm) as (Hcc & Hf & H252). destruct (close_spec (g_w g) (g_h g) (g_sx g) (g_sy g) (min_width cf) fuel s.1 s.2 Hcc Hf) as (d & p & E & E1 & E2).
      exists (d, p). split; [done|]. cbn [fst snd]. split.
      + intros c Hin. destruct (E1 c Hin) as [(? & ? & _)|(H1 & H2 & H3 & H4)]; [by left|right]. do 3 (split; [done|]).
        destruct H4 as [H4|(a & b & [Ha1 Ha2] & [Hb1 Hb2] & Hne & Hcl & Hbt)]; [pose proof (Hb c Hin); lia|]. exists a, b. done.
      + intros a b (_ & Ha1 & Ha2 & Hb1 & Hb2 & Hne & Hcl). destruct (E2 a b) as (l & L1 & _ & L2); [done|done|done|done|]. by exists l.
    - exists s. split; [done|]. split; [by left|]. intros a b (H & _). lra. }
  destruct H1 as (s1 & E0 & A1 & A2).
  match goal with |- context [obind ?m _] => replace m with (Ok (S := maps) s1) by (symmetry; exact E0) end. cbn [obind].
  assert (H2 : exists s2, (if Qlt_le_dec 0 (obstacle_clearance cf) then grow_obstacles (g_w g) (g_h g) (g_sx g) (g_sy g) (obstacle_clearance cf) s1.1 s1.2 else s1) = s2 /\
    (forall c, inside g c -> (forall o, inside g o -> s1.1 o = 1%nat -> o = c \/ near_obstacle cf g o c -> s2.1 c = 1%nat) /\
      (s2.1 c = s1.1 c \/ s2.1 c = 1%nat /\ exists o, inside g o /\ s1.1 o = 1%nat /\ near_obstacle cf g o c) /\
      (s2.2 c = s1.2 c \/ s1.1 c = 1%nat /\ s2.2 c = 255%nat))).
  { eexists. split; [done|]. intros c Hin. destruct (Qlt_le_dec 0 (obstacle_clearance cf)) as [Hm|Hm].
    - pose proof (C41_dilation (g_w g) (g_h g) (g_sx g) (g_sy g) (obstacle_clearance cf) s1.1 s1.2 (Hg Hm)) as HC.
      destruct (grow_obstacles _ _ _ _ _ _ _) as [d p]. cbn [fst snd]. destruct (HC c Hin) as (B1 & B2 & B3). split; [|split].
      + intros o Ho Ho1 [->|[_ Hr]]; [|apply B1; by exists o].
        apply B1. exists c. split; [done|]. split; [done|]. unfold in_radius. rewrite !Z.sub_diag. unfold dist2. change (inject_Z 0) with 0%Q. nra.
      + destruct (decide (d c = 1%nat)) as [E|E].
        * destruct (decide (s1.1 c = 1%nat)) as [E'|E']; [left; congruence|]. right. split; [done|].
          (* decidable search over the cells *)
          destruct (decide (Exists (fun o => s1.1 o = 1%nat /\ in_radius (g_sx g) (g_sy g) (obstacle_clearance cf) o c) (all_cells (g_w g) (g_h g)))) as [Hex|Hex].
          -- apply Exists_exists in Hex as (o & Ho & Ho1 & Ho2). apply elem_of_all_cells in Ho. exists o. done.
          -- exfalso. apply E'. rewrite <- E. symmetry. apply B2. intros (o & Ho & Ho1 & Ho2). apply Hex. apply Exists_exists. exists o.
             split; [by apply elem_of_all_cells|done].
        * left. apply B2. intros Hex. apply E. by apply B1.
      + done.
    - split; [|by split; left]. intros o Ho Ho1 [->|[? _]]; [done|lra]. }
  destruct H2 as (s2 & -> & B). exists s2. split; [done|].
  assert (Keep : forall o, inside g o -> s.1 o = 1%nat -> s1.1 o = 1%nat).
  { intros o Ho Ho1. destruct (A1 o Ho) as [[-> _]|(? & _)]; done. }
  split; [|split; [|split; [|split]]].
  - intros c Hin. destruct (B c Hin) as (_ & [->|[-> _]] & _); [|by right]. destruct (A1 c Hin) as [[-> _]|(-> & _)]; [by left|by right].
  - intros c o Hin Ho Ho1 Hor. destruct (B c Hin) as (B1 & _). apply (B1 o); auto.
  - intros a b Hab. destruct (A2 a b Hab) as (l & Hl & Hall). exists l. split; [done|]. intros o Ho. destruct (Hall o Ho) as (Ho1 & Ho2 & Ho3). split; [done|]. split; [done|].
    split; [apply (proj1 (B o Ho1) o); auto|]. intros c Hin Hno. apply (proj1 (B c Hin) o); auto.
  - intros c Hin Hne. destruct (B c Hin) as (_ & [E|(E & o & Ho & Ho1 & Ho2)] & _).
    + rewrite E in Hne. destruct (A1 c Hin) as [[E' _]|(_ & _ & _ & Hex)]; [done|]. exists c. split; [done|]. split; [by left|]. by right.
    + exists o. split; [done|]. split; [by right|]. destruct (A1 o Ho) as [[E' _]|(_ & _ & _ & Hex)]; [left; congruence|by right].
  - intros c Hin. destruct (B c Hin) as (_ & _ & Hpr). pose proof (Hp c Hin) as Hpc. destruct (A1 c Hin) as [[E1 E2]|(E1 & E2 & E3 & Hex)].
    + split; intros Hk; [rewrite decide_False in Hpc by done|rewrite decide_True in Hpc by done].
      * destruct Hpr as [->|[_ ->]]; congruence.
      * left. destruct Hpr as [->|[E _]]; congruence.
    + assert (s2.2 c = 255%nat) by (destruct Hpr as [->|[_ ->]]; done). split; [done|]. right. done.
Qed.

(** * The classes *)
Lemma driveability_range n i : 1 <= n -> 0 <= i <= n -> (0 < driveability n i /\ driveability n i <= 1)%Q.
Proof.
  intros Hn Hi. unfold driveability.
  assert (Hc : (1 <= inject_Z n)%Q). { change 1%Q with (inject_Z 1). rewrite <- Zle_Qle. lia. }
  assert (Hi1 : (0 <= inject_Z i)%Q). { change 0%Q with (inject_Z 0). rewrite <- Zle_Qle. lia. }
  assert (Hi2 : (inject_Z i <= inject_Z n)%Q). { rewrite <- Zle_Qle. lia. }
  set (x := inject_Z n) in *. set (y := inject_Z i) in *. set (u := (/ x)%Q).
  assert (Hu : (u * x == 1)%Q). { unfold u. rewrite Qmult_comm. apply Qmult_inv_r. lra. }
  assert (Hu0 : (0 < u)%Q). { unfold u. apply Qinv_lt_0_compat. lra. }
  assert (Hu1 : (u <= 1)%Q) by nra.
  assert (E : (1 / x + (1 - 1 / x) / x * y == u + (1 - u) * (u * y))%Q). { unfold Qdiv. fold u. ring. }
  rewrite E. assert (0 <= u * y)%Q by nra. assert (u * y <= 1)%Q by nra. split; nra.
Qed.
Lemma driveability_mono n i j : 1 <= n -> i <= j -> (driveability n i <= driveability n j)%Q.
Proof.
  intros Hn Hij. unfold driveability.
  assert (Hc : (1 <= inject_Z n)%Q). { change 1%Q with (inject_Z 1). rewrite <- Zle_Qle. lia. }
  assert (Hi2 : (inject_Z i <= inject_Z j)%Q). { rewrite <- Zle_Qle. lia. }
  set (x := inject_Z n) in *. set (u := (/ x)%Q).
  assert (Hu : (u * x == 1)%Q). { unfold u. rewrite Qmult_comm. apply Qmult_inv_r. lra. }
  assert (Hu0 : (0 < u)%Q). { unfold u. apply Qinv_lt_0_compat. lra. }
  assert (Hu1 : (u <= 1)%Q) by nra. unfold Qdiv. fold u. assert (0 <= (1 - 1 * u) * u)%Q by nra. nra.
Qed.
Lemma driveability_top n : 1 <= n -> (driveability n n == 1)%Q.
Proof.
  intros Hn. unfold driveability. assert (Hc : (1 <= inject_Z n)%Q). { change 1%Q with (inject_Z 1). rewrite <- Zle_Qle. lia. }
  field. lra.
Qed.
Lemma register_classes_spec cf l : 1 <= class_count cf <= 253 -> exists l', register_classes cf l = Ok l' /\
  l' !! 1%nat = Some 0%Q /\ (forall i, (i <= Z.to_nat (class_count cf))%nat -> l' !! (2 + i)%nat = Some (driveability (class_count cf) (Z.of_nat i))) /\
  (forall j, (Z.to_nat (class_count cf) + 2 < j)%nat -> l' !! j = l !! j).
Proof.
  intros Hn. unfold register_classes. rewrite decide_False by lia. set (n := class_count cf) in *.
  set (f := fun (i : Z) (l : list tclass) => match mk_class (driveability n i) with Some k => Ok (set_class (uint8 (CUSTOM + i)) k l) | None => Throw l end).
  assert (Hgen : forall m : nat, Z.of_nat m <= n + 1 -> exists l', iter_out f (seqZ 0 (Z.of_nat m)) (set_class OBSTACLE 0%Q l) = Ok l' /\
    l' !! 1%nat = Some 0%Q /\ (forall i, (i < m)%nat -> l' !! (2 + i)%nat = Some (driveability n (Z.of_nat i))) /\ (2 <= length l')%nat /\
    (forall j, (m + 1 < j)%nat -> l' !! j = l !! j)).
  { induction m as [|m IH]; intros Hm.
    - eexists. split; [done|]. split; [by rewrite set_class_lookup|]. split; [lia|]. split; [rewrite set_class_length; unfold OBSTACLE; lia|].
      intros j Hj. rewrite set_class_lookup. unfold OBSTACLE. rewrite decide_False by lia. case_decide; [done|]. rewrite decide_False by lia. symmetry. apply lookup_ge_None_2. lia.
    - destruct (IH ltac:(lia)) as (l' & E & H1 & H2 & Hlen & H3).
      assert (Hsucc : seqZ 0 (Z.of_nat (S m)) = seqZ 0 (Z.of_nat m) ++ [Z.of_nat m]).
      { rewrite Nat2Z.inj_succ. unfold Z.succ. rewrite seqZ_app by lia. done. }
      rewrite Hsucc.
      assert (Happ : forall a b s, iter_out f (a ++ b) s = obind (iter_out f a s) (iter_out f b)).
      { induction a as [|x a IHa]; intros b s; [done|]. cbn [app iter_out]. destruct (f x s); cbn [obind]; [apply IHa|done..]. }
      rewrite Happ, E. cbn [obind iter_out]. unfold f at 1.
      destruct (driveability_range n (Z.of_nat m)) as [D1 D2]; [lia|lia|].
      unfold mk_class. destruct (Qlt_le_dec (driveability n (Z.of_nat m)) 0) as [?|_]; [lra|]. destruct (Qlt_le_dec (driveability n (Z.of_nat m)) (1000001 # 1000000)) as [_|?]; [|lra].
      cbn [obind]. assert (Eu : uint8 (CUSTOM + Z.of_nat m) = (2 + m)%nat). { unfold uint8, CUSTOM. rewrite Z.mod_small by lia. lia. }
      rewrite Eu. eexists. split; [done|]. rewrite set_class_length. split; [|split; [|split]].
      + rewrite set_class_lookup, decide_False by lia. rewrite decide_True by lia. done.
      + intros i Hi. rewrite set_class_lookup. destruct (decide (i = m)) as [->|Hne]; [by rewrite decide_True|]. rewrite decide_False by lia.
        assert (Hl : l' !! (2 + i)%nat = Some (driveability n (Z.of_nat i))) by (apply H2; lia). rewrite decide_True; [done|]. by apply lookup_lt_Some in Hl.
      + lia.
      + intros j Hj. rewrite set_class_lookup, decide_False by lia. case_decide as Ej; [apply H3; lia|]. rewrite decide_False by lia.
        rewrite <- H3 by lia. symmetry. apply lookup_ge_None_2. lia. }
  destruct (Hgen (Z.to_nat (n + 1))) as (l' & E & H1 & H2 & _ & H3); [lia|]. rewrite Z2Nat.id in E by lia. exists l'. split; [exact E|].
  split; [done|]. split; [intros i Hi; apply H2; lia|]. intros j Hj. apply H3. lia.
Qed.
(** the mean, rounded *)
Lemma sum_bounds l lo hi : (forall k, k ∈ l -> lo <= k <= hi)%nat -> (length l * lo <= sum_list l <= length l * hi)%nat.
Proof.
  induction l as [|k l IH]; intros H; [cbn; lia|]. assert (lo <= k <= hi)%nat by (apply H; by left). assert (length l * lo <= sum_list l <= length l * hi)%nat by (apply IH; intros; apply H; by right).
  cbn. lia.
Qed.
Lemma mean_spec l b : (b < 256)%nat -> (forall k, k ∈ l -> 1 <= k <= b)%nat ->
  (l = [] -> mean_class l = 0%nat) /\ (l <> [] -> (1 <= mean_class l <= b)%nat /\
    let m := Z.of_nat (mean_class l) in (2 * m - 1) * Z.of_nat (length l) <= 2 * Z.of_nat (sum_list l) < (2 * m + 1) * Z.of_nat (length l)).
Proof.
  intros Hb Hl. split; [by intros ->|]. intros Hne. destruct (sum_bounds l 1 b Hl) as [H1 H2]. unfold mean_class. cbn zeta.
  assert (Hlen : (0 < length l)%nat) by (destruct l; [done|cbn; lia]). rewrite decide_False by lia.
  set (n := Z.of_nat (length l)) in *. set (s := Z.of_nat (sum_list l)) in *.
  assert (Hs : n <= s <= n * Z.of_nat b) by nia. assert (Hn : 0 < n) by lia.
  pose proof (Z.div_mod (2 * s + n) (2 * n)) as Hd. pose proof (Z.mod_pos_bound (2 * s + n) (2 * n)) as Hm. set (q := (2 * s + n) / (2 * n)) in *. set (r := (2 * s + n) mod (2 * n)) in *.
  assert (Hq : 1 <= q <= Z.of_nat b).
  { split; [apply Z.div_le_lower_bound; lia|]. unfold q. apply Z.lt_succ_r. apply Z.div_lt_upper_bound; nia. }
  assert (E : Z.of_nat (uint8 q) = q). { unfold uint8. rewrite Z.mod_small by lia. lia. }
  split; [lia|]. rewrite E. nia.
Qed.
Lemma sum_filter (l : list nat) : sum_list (filter (fun k => k <> UNKNOWN) l) = sum_list l.
Proof. induction l as [|k l IH]; [done|]. rewrite filter_cons. unfold UNKNOWN in *. case_decide; cbn; [lia|]. rewrite IH. lia. Qed.

(** * C128 *)
Definition ends (o : out grid grid) (g : grid) : Prop := o = Ok g \/ o = Throw g.
Lemma register_unknown_spec g (n : nat) : (forall c, inside g c -> g_class g c <= n)%nat -> (n < 256)%nat -> (n < length (g_reg g))%nat ->
  match g_reg g !! 7%nat with
  | None => register_unknown g = Throw g
  | Some k7 => good_class k7 -> exists k, register_unknown g = Ok (with_reg g (set_class UNKNOWN k (g_reg g))) /\
      let ks := g_class g <$> all_cells (g_w g) (g_h g) in let cnt := Z.of_nat (length (filter (fun k => k <> 0%nat) ks)) in let sum := Z.of_nat (sum_list ks) in
      (2 * sum < 3 * cnt \/ cnt = 0 -> k = drivability k7) /\
      (~ (2 * sum < 3 * cnt \/ cnt = 0) -> exists m, (2 <= m)%nat /\ g_reg g !! m = Some k /\ (2 * Z.of_nat m - 1) * cnt <= 2 * sum < (2 * Z.of_nat m + 1) * cnt)
  end.
Proof.
  intros Hk Hn Hlen. unfold register_unknown. destruct (g_reg g !! 7%nat) as [k7|] eqn:E7.
  2:{ assert (E : get_class 7 (g_reg g) = Throw (g_reg g)). { unfold get_class. rewrite decide_True; [done|]. by apply lookup_ge_None. }
      by rewrite E. }
  intros Hg. assert (E : get_class 7 (g_reg g) = Ok k7) by (by apply known_iff). rewrite E. cbn [lift obind].
  set (ks := g_class g <$> all_cells (g_w g) (g_h g)).
  pose proof (mean_spec (known_cells g (g_class g)) n Hn) as [M1 M2].
  { intros k Hin. unfold known_cells in Hin. apply elem_of_list_filter in Hin as [Hne Hin]. apply elem_of_list_fmap in Hin as (c & -> & Hc). apply elem_of_all_cells in Hc.
    unfold UNKNOWN in Hne. pose proof (Hk c Hc). lia. }
  assert (Hsum : sum_list (known_cells g (g_class g)) = sum_list ks) by (apply sum_filter).
  rewrite Hsum in M2. change (known_cells g (g_class g)) with (filter (fun k => k <> 0%nat) ks) in *. set (L := filter (fun k => k <> 0%nat) ks) in *.
  assert (HL : L = [] <-> Z.of_nat (length L) = 0). { destruct L; [done|]. cbn. split; [done|lia]. }
  cbn zeta. destruct (decide (mean_class L <= 1)%nat) as [Hle|Hgt].
  - rewrite (drivability_good k7 Hg). exists (drivability k7). split; [done|]. split; [done|]. intros Hno. exfalso. apply Hno.
    destruct (decide (L = [])) as [HLe|HLe]; [right; by apply HL|]. left. destruct (M2 HLe) as [M3 M4]. assert (Em : mean_class L = 1%nat) by lia. cbn zeta in M4. rewrite Em in M4. lia.
  - assert (HLe : L <> []). { intros HLe. rewrite (M1 HLe) in Hgt. lia. }
    destruct (M2 HLe) as [M3 M4]. destruct (lookup_lt_is_Some_2 (g_reg g) (mean_class L)) as [k Ek]; [lia|].
    assert (E2 : get_class (mean_class L) (g_reg g) = Ok k) by (by apply known_iff). rewrite E2. cbn [lift obind]. exists k. split; [done|]. split.
    + intros [H|H]; [|by apply HL in H]. exfalso. cbn zeta in M4. assert (2 <= Z.of_nat (mean_class L)) by lia. assert (0 <= Z.of_nat (length L)) by lia. nia.
    + intros _. exists (mean_class L). split; [lia|]. done.
Qed.
(** the state of the whole operator; the cells do not change any more after the post-processing *)
Lemma update_all_spec cf fuel slope step g : usable cf slope step g -> processable cf fuel g -> exists plain cls prob l,
  (forall c, inside g c -> terrain cf slope step c (plain c) /\ plain c <= 2 + Z.to_nat (class_count cf))%nat /\ processed cf g plain cls prob /\
  register_classes cf (g_reg g) = Ok l /\ update_all cf fuel (Some slope) step g = register_unknown (Grid (g_w g) (g_h g) (g_sx g) (g_sy g) cls prob l).
Proof.
  intros Hu Hp. unfold update_all. set (g0 := with_cells g (g_class g, fun _ => 0%nat)).
  destruct (classify_all_spec cf slope step g0 Hu) as (s & E & Hs). destruct (post_spec cf fuel g0 s) as (s' & E' & Hs').
  - exact Hp.
  - intros c Hc. by apply Hs.
  - destruct Hu as (_ & ? & _). lia.
  - intros c Hc. by apply Hs.
  - destruct (register_classes_spec cf (g_reg g)) as (l & El & _); [by destruct Hu as (_ & ? & _)|].
    exists s.1, s'.1, s'.2, l. split; [intros c Hc; destruct (Hs c Hc) as (? & ? & _); done|]. split; [exact Hs'|]. split; [done|].
    rewrite E. cbn [lift obind]. rewrite E'. cbn [lift obind]. change (g_reg (with_cells g0 s')) with (g_reg g). rewrite El. cbn [lift obind]. done.
Qed.
(** For every map of slopes, with or without a map of steps, and every configuration with a maximum slope and between 1 and 253 classes (at most 252 if passages
    are closed): the class of every cell is the one [terrain] describes, or an obstacle by the post-processing. An obstacle stays one; all cells nearer to an obstacle
    than the clearance become obstacles; obstacles nearer to each other than the minimal width are connected by a chain of obstacles, which are grown as well; and every
    cell that differs has one of these reasons. The probability of every cell whose class is not unknown is 255, and that of the others zero, except for closed passages.
    Only the end of the operator can throw (C129). *)
Theorem C128_map cf fuel slope step g : usable cf slope step g -> processable cf fuel g -> exists plain g', ends (update_all cf fuel (Some slope) step g) g' /\
  (forall c, inside g c -> terrain cf slope step c (plain c)) /\ processed cf g plain (g_class g') (g_prob g') /\
  (g_w g', g_h g', g_sx g', g_sy g') = (g_w g, g_h g, g_sx g, g_sy g).
Proof.
  intros Hu Hp. destruct (update_all_spec cf fuel slope step g Hu Hp) as (plain & cls & prob & l & Ht & Hpr & Hl & E). exists plain.
  rewrite E. unfold register_unknown. cbn [g_reg g_class].
  set (g1 := Grid (g_w g) (g_h g) (g_sx g) (g_sy g) cls prob l).
  assert (H7 : (exists k, get_class 7 l = Ok k) \/ get_class 7 l = Throw l). { destruct (C36_unknown l 7) as [[k Hk]|H]; [left; by exists k|by right]. }
  destruct H7 as [[k7 E7]|E7]; rewrite E7; cbn [lift obind]; cycle 1.
  { exists g1. split; [by right|]. split; [intros c Hc; by apply Ht|]. split; [exact Hpr|done]. }
  set (m := mean_class (known_cells g1 cls)). case_decide.
  - destruct (mk_class (drivability k7)); [exists (with_reg g1 (set_class UNKNOWN t l)); split; [by left|]|exists g1; split; [by right|]];
      (split; [intros c Hc; by apply Ht|]; split; [exact Hpr|done]).
  - destruct (C36_unknown l m) as [[k Hk]|Hk].
    + unfold known in Hk. rewrite Hk. cbn [lift obind]. exists (with_reg g1 (set_class UNKNOWN k l)). split; [by left|]. split; [intros c Hc; by apply Ht|]. split; [exact Hpr|done].
    + rewrite Hk. cbn [lift obind]. exists g1. split; [by right|]. split; [intros c Hc; by apply Ht|]. split; [exact Hpr|done].
Qed.
(** the description leaves no choice *)
Theorem C128_determined cf slope step c k1 k2 : terrain cf slope step c k1 -> terrain cf slope step c k2 -> k1 = k2.
Proof.
  assert (Hns : forall q m, (Qabs q <= m)%Q -> ~ steep (Fin q) m).
  { intros q m H. cbn. pose proof (Qle_Qabs q). pose proof (Qle_Qabs (- q)) as H2. rewrite Qabs_opp in H2. lra. }
  intros [[H1 ->]|[(H1 & H2 & ->)|[(H1 & H2 & H3 & ->)|(H1 & H2 & q & i & Hq & Hle & Hi & Hb & Hk)]]] [[J1 ->]|[(J1 & J2 & ->)|[(J1 & J2 & J3 & ->)|(J1 & J2 & q' & i' & Jq & Jle & Ji & Jb & Jk)]]]; try done; try tauto.
  - exfalso. rewrite Jq in H3. by apply Hns in H3.
  - exfalso. rewrite Hq in J3. by apply Hns in J3.
  - rewrite Hq in Jq. injection Jq as <-. assert (i = i'). { apply Z.le_antisymm; eapply nearest_mono; try done; apply Qle_refl. } lia.
Qed.
Example C128_nonvacuous : let slope := Band 3 2 (fun c => if decide (c = (0, 0)) then Fin (- (1 # 2)) else if decide (c = (1, 0)) then NInf else if decide (c = (2, 0)) then Fin 2 else Fin (1 # 8)) None in
  let step := Band 3 2 (fun c => if decide (c = (1, 1)) then Fin 3 else Fin 0) (Some (Fin (-1))) in
  let cf := Config 1 10 (1 # 2) 1 (5 # 4) in let g := Grid 3 2 1 1 (fun _ => 9%nat) (fun _ => 9%nat) [] in
  usable cf slope (Some step) g /\ processable cf 20 g /\
  terrain cf slope (Some step) (0, 0) 7 /\ terrain cf slope (Some step) (1, 0) 0 /\ terrain cf slope (Some step) (2, 0) 1 /\ terrain cf slope (Some step) (1, 1) 1 /\ terrain cf slope (Some step) (0, 1) 11 /\
  exists g', update_all cf 20 (Some slope) (Some step) g = Ok g' /\ ((g_class g' <$> all_cells 3 2), (g_prob g' <$> all_cells 3 2)) = ([7; 1; 1; 1; 1; 1], [255; 0; 255; 255; 255; 255])%nat.
Proof.
  cbn zeta. set (slope := Band _ _ _ _). set (step := Band 3 2 _ (Some _)). set (cf := Config _ _ _ _ _). set (g := Grid _ _ _ _ _ _ _).
  assert (Hsl : forall c, b_data slope c <> NaN) by (intros c; unfold slope; cbn; by repeat case_decide).
  assert (Hhigh : forall c, too_high cf (Some step) c <-> c = (1, 1)).
  { intros c. unfold too_high. split.
    - intros (b & [= <-] & _ & _ & H). unfold step in H. cbn in H. case_decide; [done|]. cbn in H. lra.
    - intros ->. exists step. split; [done|]. split; [by vm_compute|]. split; [by vm_compute|by vm_compute]. }
  assert (Hmiss : forall c, missing slope c <-> c = (1, 0)).
  { intros c. unfold missing, slope. cbn. repeat case_decide; subst; try done; split; try done. }
  split; [split; [by vm_compute|]; split; [cbn; lia|]; split; [done|]; split; [by intros b [= <-]|intros c _; apply Hsl]|].
  split. { split; intros _; [split; [split; [done|]; split; [done|]; repeat split; by vm_compute|split; [vm_compute; lia|done]]|split; [done|]; split; [done|]; repeat split; by vm_compute]. }
  assert (Hn : forall c, c <> (1, 1) -> ~ too_high cf (Some step) c) by (intros c Hc; by rewrite Hhigh).
  assert (Hm : forall c, c <> (1, 0) -> ~ missing slope c) by (intros c Hc; by rewrite Hmiss).
  split. { right; right; right. split; [by apply Hn|]. split; [by apply Hm|]. exists (- (1 # 2))%Q, 5. split; [done|]. split; [by vm_compute|]. split; [split; by vm_compute|]. done. }
  split. { right; left. split; [by apply Hn|]. split; [by apply Hmiss|done]. }
  split. { right; right; left. split; [by apply Hn|]. split; [by apply Hm|]. split; [left; by vm_compute|done]. }
  split. { left. split; [by apply Hhigh|done]. }
  split. { right; right; right. split; [by apply Hn|]. split; [by apply Hm|]. exists (1 # 8)%Q, 1. split; [done|]. split; [by vm_compute|]. split; [split; by vm_compute|]. done. }
  destruct (update_all cf 20 (Some slope) (Some step) g) as [g'| | |] eqn:E; [exists g'; split; [done|]|exfalso..].
  - match type of E with ?x = _ => assert (H : match x with Ok g' => (g_class g' <$> all_cells 3 2, g_prob g' <$> all_cells 3 2) = ([7; 1; 1; 1; 1; 1], [255; 0; 255; 255; 255; 255])%nat | _ => False end) by (vm_compute; reflexivity) end.
    rewrite E in H. exact H.
  - match type of E with ?x = _ => assert (H : match x with Ok _ => True | _ => False end) by (vm_compute; exact I) end. rewrite E in H. exact H.
  - match type of E with ?x = _ => assert (H : match x with Ok _ => True | _ => False end) by (vm_compute; exact I) end. rewrite E in H. exact H.
  - match type of E with ?x = _ => assert (H : match x with Ok _ => True | _ => False end) by (vm_compute; exact I) end. rewrite E in H. exact H.
Qed.

(** * What C128 excludes *)
(** new_values never throws *)
Lemma new_values_cases cf slope step c : (exists v, new_values cf slope step c = Ok v) \/ new_values cf slope step c = Bad UB.
Proof.
  unfold new_values. assert (Hr : forall b, (exists v, read b c = Ok v) \/ read b c = Bad UB).
  { intros [b|]; cbn; [|left; by eexists]. case_decide; [left; by eexists|by right]. }
  destruct (Hr slope) as [[vs ->]| ->]; [|by right]. cbn [obind]. destruct (Hr step) as [[vt ->]| ->]; [|by right]. cbn [obind]. unfold classify.
  repeat match goal with |- context [if ?x then _ else _] => destruct x end; try (left; by eexists);
    destruct vs as [[| | |]|]; cbn [fabs]; repeat match goal with |- context [if ?x then _ else _] => destruct x end; try (left; by eexists); by right.
Qed.
Lemma classify_bad cf slope step g c : inside g c -> new_values cf slope step c = Bad UB -> classify_all cf slope step g = Bad UB.
Proof.
  intros Hc Hb. apply elem_of_all_cells in Hc. unfold classify_all. generalize (g_class g, g_prob g). induction (all_cells (g_w g) (g_h g)) as [|x l IH]; intros s; [by apply elem_of_nil in Hc|].
  cbn [iter_out]. unfold one_cell at 1. apply elem_of_cons in Hc as [->|Hc]; [by rewrite Hb|].
  destruct (new_values_cases cf slope step x) as [[v ->]| ->]; [|done]. cbn [lift obind]. by apply IH.
Qed.
(** A slope that is not a number makes the operator convert it to an integer, unless the step is too high, even if this is the value for missing data. *)
Theorem C128_nan_refuted cf fuel slope step g c : inside g c -> covers g slope -> (forall b, step = Some b -> covers g b) -> ~ (maximum_slope cf == 0)%Q ->
  b_data slope c = NaN -> ~ too_high cf step c -> update_all cf fuel (Some slope) step g = Bad UB.
Proof.
  intros Hc Hs Ht Hm Hnan Hh. unfold update_all. rewrite (classify_bad cf (Some slope) step _ c); [done|done|].
  unfold new_values. rewrite (read_spec slope c g) by done. rewrite Hnan. cbn [obind]. assert (Hd : differ NaN (unknown_value slope) = true) by done. rewrite Hd.
  assert (Hz : nonzero (maximum_slope cf) = true) by (by apply nonzero_spec).
  destruct step as [b|]; [rewrite (read_spec b c g) by auto|]; cbn [obind read]; unfold classify; rewrite Hz; cbn [fabs above]; [|done].
  destruct (differ (b_data b c) (unknown_value b)) eqn:E; [|done]. destruct (nonzero (ground_clearance cf) && above (b_data b c) (ground_clearance cf)) eqn:E2; [|done].
  exfalso. apply Hh. apply andb_true_iff in E2 as [E2 E3]. exists b. split; [done|]. split; [by apply differ_same|]. split; [by apply nonzero_spec|by apply above_greater].
Qed.
(** An input layer that is smaller than the output layer is read outside of its bounds. *)
Theorem C128_smaller_refuted cf fuel slope step g b c : slope = Some b \/ step = Some b -> inside g c -> ~ is_cell (b_w b) (b_h b) c -> update_all cf fuel slope step g = Bad UB.
Proof.
  intros Hb Hc Hn. assert (Hbad : new_values cf slope step c = Bad UB).
  { unfold new_values. assert (Hr : forall b, (exists v, read b c = Ok v) \/ read b c = Bad UB).
    { intros [b'|]; cbn; [|left; by eexists]. case_decide; [left; by eexists|by right]. }
    assert (Hb' : read (Some b) c = Bad UB) by (cbn; by rewrite decide_False).
    destruct Hb as [-> | ->]; rewrite Hb'; [done|]. destruct (Hr slope) as [[v ->]| ->]; done. }
  unfold update_all. rewrite (classify_bad cf slope step _ c) by done. destruct slope, step; [done..|by destruct Hb].
Qed.
(** Without slopes, or without a maximum slope, the cells whose step is not too high keep the class of the update before, with the probability zero. *)
Theorem C128_stale_refuted cf fuel slope step g : (slope = None /\ step <> None) \/ (exists b, slope = Some b /\ covers g b /\ (maximum_slope cf == 0)%Q /\ forall c, inside g c -> ~ missing b c) ->
  (forall b, step = Some b -> covers g b) -> (min_width cf <= 0)%Q -> (obstacle_clearance cf <= 0)%Q -> 1 <= class_count cf <= 253 ->
  exists g', ends (update_all cf fuel slope step g) g' /\ forall c, inside g c -> ~ too_high cf step c -> g_class g' c = g_class g c /\ g_prob g' c = 0%nat.
Proof.
  intros Hsl Hst Hw Ho Hn. set (g0 := with_cells g (g_class g, fun _ => 0%nat)).
  assert (Hcl : exists s, classify_all cf slope step g0 = Ok s /\ forall c, inside g c -> ~ too_high cf step c -> s.1 c = g_class g c /\ s.2 c = 0%nat).
  { set (r := fun c => match new_values cf slope step c with Ok v => v | _ => (None, None) end).
    assert (Hv : forall c, inside g c -> exists v, new_values cf slope step c = Ok v /\ (~ too_high cf step c -> v = (None, None))).
    { intros c Hc. unfold new_values.
      assert (Ht : exists vt, read step c = Ok vt /\ (match vt with Some v => nonzero (ground_clearance cf) && above v (ground_clearance cf) | None => false end = true -> too_high cf step c)).
      { destruct step as [b|]; [rewrite (read_spec b c g) by auto|by exists None]. eexists. split; [done|]. destruct (differ (b_data b c) (unknown_value b)) eqn:E; [|done].
        rewrite andb_true_iff, nonzero_spec, above_greater. intros [H1 H2]. exists b. split; [done|]. split; [by apply differ_same|done]. }
      destruct Ht as (vt & -> & Ht). unfold classify.
      destruct Hsl as [[-> _]|(b & -> & Hb & Hz & Hm)].
      - cbn [read obind]. destruct (match vt with Some v => _ | None => _ end) eqn:E; eexists; (split; [done|]); [|done]. intros Hno. exfalso. apply Hno. by apply Ht.
      - rewrite (read_spec b c g) by done. assert (Hd : differ (b_data b c) (unknown_value b) = true) by (apply differ_same; by apply Hm). rewrite Hd. cbn [obind].
        assert (Hzz : nonzero (maximum_slope cf) = false) by (apply not_true_iff_false; intros H; by apply nonzero_spec in H). rewrite Hzz.
        destruct (match vt with Some v => _ | None => _ end) eqn:E; eexists; (split; [done|]); [|done]. intros Hno. exfalso. apply Hno. by apply Ht. }
    destruct (one_cells (new_values cf slope step) r (all_cells (g_w g) (g_h g))) with (s := (g_class g, fun _ : cell => 0%nat)) as (s & H1 & H2).
    { intros c Hc. apply elem_of_all_cells in Hc. unfold r. by destruct (Hv c Hc) as (v & -> & _). }
    exists s. split; [exact H1|]. intros c Hc Hno. destruct (H2 c) as [E1 E2]; [by apply elem_of_all_cells|]. destruct (Hv c Hc) as (v & E & Ev). unfold r in E1, E2. rewrite E in E1, E2.
    rewrite (Ev Hno) in E1, E2. done. }
  destruct Hcl as (s & Es & Hs).
  assert (Hp : post_process cf fuel g0 s = Ok s). { unfold post_process. destruct (Qlt_le_dec 0 (min_width cf)); [lra|]. cbn [obind]. destruct (Qlt_le_dec 0 (obstacle_clearance cf)); [lra|done]. }
  destruct (register_classes_spec cf (g_reg g) Hn) as (l & El & _).
  assert (Hup : update_all cf fuel slope step g = register_unknown (with_reg (with_cells g0 s) l)).
  { unfold update_all. fold g0. rewrite Es. cbn [lift obind]. rewrite Hp. cbn [lift obind]. change (g_reg (with_cells g0 s)) with (g_reg g). rewrite El. cbn [lift obind].
    destruct slope, step; try done. destruct Hsl as [[_ ?]|(b & ? & _)]; done. }
  rewrite Hup. clear Hup. set (g1 := with_reg (with_cells g0 s) l). unfold register_unknown. cbn [g_reg].
  destruct (C36_unknown (g_reg g1) 7) as [[k7 E7]|E7]; [unfold known in E7|]; rewrite E7; cbn [lift obind]; [|exists g1; split; [by right|exact Hs]].
  case_decide.
  - destruct (mk_class (drivability k7)); eexists; (split; [first [by left|by right]|exact Hs]).
  - destruct (C36_unknown (g_reg g1) (mean_class (known_cells g1 (g_class g1)))) as [[k Hk]|Hk]; [unfold known in Hk|]; rewrite Hk; cbn [lift obind]; eexists; (split; [first [by left|by right]|exact Hs]).
Qed.
(** The documentation says that the classes are less than 2 + class_count; flat terrain has that class. *)
Theorem C128_range_refuted cf slope step g c k q : usable cf slope step g -> terrain cf slope step c k -> ~ too_high cf step c -> ~ missing slope c -> b_data slope c = Fin q -> (q == 0)%Q ->
  Z.of_nat k = 2 + class_count cf.
Proof.
  intros (Hm & Hn & _) Ht Hh Hmi Hq Hz. destruct Ht as [[H _]|[(_ & H & _)|[(_ & _ & H & _)|(_ & _ & q' & i & Eq & Hle & Hi & Hb & Hk)]]]; [done|done| |].
  - rewrite Hq in H. cbn in H. lra.
  - rewrite Hq in Eq. injection Eq as <-. assert (E : (Qabs q / maximum_slope cf * inject_Z (class_count cf) == inject_Z 0)%Q).
    { rewrite Hz. change (inject_Z 0) with 0%Q. change (Qabs 0) with 0%Q. unfold Qdiv. apply Qeq_trans with (0 * inject_Z (class_count cf))%Q; [apply Qmult_comp; [apply Qmult_0_l|reflexivity]|apply Qmult_0_l]. }
    assert (Hi0 : nearest (inject_Z 0) i). { destruct Hi as [A B]. split; [by rewrite <- E|]. rewrite <- E. exact B. }
    apply nearest_int in Hi0. lia.
Qed.
(** With 254 classes the class of flat terrain is 256, which is stored as unknown terrain. *)
Theorem C128_many_refuted : let slope := Band 1 1 (fun _ => Fin 0) None in let g := Grid 1 1 1 1 (fun _ => 9%nat) (fun _ => 9%nat) [] in
  match update_all (Config 1 254 0 0 0) 0 (Some slope) None g with Ok g' => g_class g' (0, 0) = UNKNOWN /\ g_prob g' (0, 0) = 255%nat | _ => False end.
Proof. vm_compute. split; reflexivity. Qed.

(** * C129 *)
(** The operator succeeds if there are at least five classes, or if the map has the class 7 already. Then obstacles have the drivability zero, and the class 2 + i has
    1/n + (1 - 1/n) * i/n; other classes are as before. Unknown terrain has the drivability of the class nearest to the mean of all other cells, or that of
    class 7 if all cells are unknown or the mean is nearer to an obstacle. *)
Theorem C129_classes cf fuel slope step g : usable cf slope step g -> processable cf fuel g -> Forall good_class (g_reg g) ->
  5 <= class_count cf \/ (8 <= length (g_reg g))%nat ->
  exists g', update_all cf fuel (Some slope) step g = Ok g' /\ known 1 0%Q (g_reg g') /\
    (forall i : nat, Z.of_nat i <= class_count cf -> exists d, known (2 + i) d (g_reg g') /\
      let n := inject_Z (class_count cf) in (d == 1 / n + (1 - 1 / n) * (inject_Z (Z.of_nat i) / n))%Q) /\
    (forall j k, class_count cf + 2 < Z.of_nat j -> known j k (g_reg g') <-> known j k (g_reg g)) /\
    exists k, known 0 k (g_reg g') /\
      let ks := g_class g' <$> all_cells (g_w g) (g_h g) in let count := Z.of_nat (length (filter (fun k => k <> 0%nat) ks)) in let sum := Z.of_nat (sum_list ks) in
      (2 * sum < 3 * count \/ count = 0 -> exists k7, known 7 k7 (g_reg g') /\ k = drivability k7) /\
      (~ (2 * sum < 3 * count \/ count = 0) -> exists m, known m k (g_reg g') /\ (2 * Z.of_nat m - 1) * count <= 2 * sum < (2 * Z.of_nat m + 1) * count).
Proof.
  intros Hu Hp Hgood Hmany. destruct (update_all_spec cf fuel slope step g Hu Hp) as (plain & cls & prob & l & Ht & Hpr & Hl & E).
  assert (Hn : 1 <= class_count cf <= 253) by apply Hu.
  destruct (register_classes_spec cf (g_reg g) Hn) as (l' & El & L1 & L2 & L3). rewrite Hl in El. injection El as <-.
  set (g1 := Grid (g_w g) (g_h g) (g_sx g) (g_sy g) cls prob l) in *.
  assert (Hlast : l !! (2 + Z.to_nat (class_count cf))%nat = Some (driveability (class_count cf) (Z.of_nat (Z.to_nat (class_count cf))))) by (by apply L2).
  assert (Hlen : (2 + Z.to_nat (class_count cf) < length l)%nat) by (by apply lookup_lt_Some in Hlast).
  pose proof (register_unknown_spec g1 (2 + Z.to_nat (class_count cf))) as HR. cbn [g_class g_reg g_w g_h] in HR.
  assert (Hb : forall c, inside g1 c -> (cls c <= 2 + Z.to_nat (class_count cf))%nat). { intros c Hc. destruct (proj1 Hpr c Hc) as [-> | ->]; [by apply Ht|lia]. }
  specialize (HR Hb ltac:(lia) Hlen).
  assert (H7 : exists k7, l !! 7%nat = Some k7 /\ good_class k7).
  { destruct (decide (5 <= class_count cf)) as [H5|H5].
    - exists (driveability (class_count cf) 5). split; [apply (L2 5%nat); lia|]. right. destruct (driveability_range (class_count cf) 5); [lia|lia|]. split; [lra|]. lra.
    - destruct Hmany as [?|H8]; [lia|]. destruct (lookup_lt_is_Some_2 (g_reg g) 7) as [k7 E7]; [lia|]. exists k7. rewrite L3 by lia. split; [done|].
      by apply (Forall_lookup_1 _ _ 7%nat k7 Hgood). }
  destruct H7 as (k7 & E7 & G7). change (g_reg g1) with l in HR. rewrite E7 in HR. destruct (HR G7) as (k & Er & Hk). rewrite Er in E. eexists. split; [exact E|]. cbn [with_reg g_reg g_class g1].
  assert (Hset : forall j, j <> 0%nat -> set_class UNKNOWN k l !! j = l !! j).
  { intros j Hj. rewrite set_class_lookup. unfold UNKNOWN. rewrite decide_False by done. case_decide; [done|]. rewrite decide_False by lia. symmetry. apply lookup_ge_None_2. lia. }
  assert (Hkn : forall j k', j <> 0%nat -> known j k' (set_class UNKNOWN k l) <-> l !! j = Some k') by (intros j k' Hj; rewrite known_iff, Hset by done; done).
  split; [by apply Hkn|]. split; [|split].
  - intros i Hi. exists (driveability (class_count cf) (Z.of_nat i)). split; [apply Hkn; [lia|]; apply L2; lia|]. cbn zeta. unfold driveability. field.
    intros H. change 0%Q with (inject_Z 0) in H. pose proof (proj1 (inject_Z_injective _ _) H). lia.
  - intros j k' Hj. rewrite Hkn by lia. rewrite known_iff. rewrite L3 by lia. done.
  - exists k. split. { apply known_iff. rewrite set_class_lookup. by rewrite decide_True. }
    cbn zeta in Hk |- *. destruct Hk as [Hk1 Hk2]. split.
    + intros H. exists k7. split; [by apply Hkn|]. by apply Hk1.
    + intros H. destruct (Hk2 H) as (m & Hm & Em & Hmb). exists m. split; [apply Hkn; [lia|done]|done].
Qed.
(** Of two cells with slopes, the one with the gentler slope does not have less drivability, unless it has been made an obstacle; flat terrain has the drivability one. *)
Theorem C129_order cf fuel slope step g g' c1 c2 q1 q2 : usable cf slope step g -> processable cf fuel g -> Forall good_class (g_reg g) -> 5 <= class_count cf \/ (8 <= length (g_reg g))%nat ->
  update_all cf fuel (Some slope) step g = Ok g' -> inside g c1 -> inside g c2 -> ~ missing slope c1 -> ~ missing slope c2 ->
  b_data slope c1 = Fin q1 -> b_data slope c2 = Fin q2 -> (Qabs q1 <= Qabs q2)%Q -> g_class g' c1 <> 1%nat ->
  exists d1 d2, known (g_class g' c1) d1 (g_reg g') /\ known (g_class g' c2) d2 (g_reg g') /\ (d2 <= d1)%Q /\ (0 < d1)%Q /\ ((q1 == 0)%Q -> (d1 == 1)%Q).
Proof.
  intros Hu Hp Hgood Hmany E Hc1 Hc2 Hm1 Hm2 Hq1 Hq2 Hle Hno. assert (Hn : 1 <= class_count cf <= 253) by apply Hu.
  destruct (C128_map cf fuel slope step g Hu Hp) as (plain & g2 & He & Ht & Hpr & _). rewrite E in He. destruct He as [[= <-]|?]; [|done].
  destruct (update_all_spec cf fuel slope step g Hu Hp) as (plain' & cls & prob & l & _ & _ & Hl & E2).
  destruct (register_classes_spec cf (g_reg g) Hn) as (l' & El & L1 & L2 & L3). rewrite Hl in El. injection El as <-.
  assert (Hreg : forall j, j <> 0%nat -> g_reg g' !! j = l !! j).
  { rewrite E in E2. unfold register_unknown in E2. cbn [g_reg] in E2. intros j Hj.
    assert (Hset : forall k, set_class UNKNOWN k l !! j = l !! j).
    { intros k. rewrite set_class_lookup. unfold UNKNOWN. rewrite decide_False by done. destruct (decide (j < length l)%nat); [done|]. rewrite decide_False by lia. symmetry. apply lookup_ge_None_2. lia. }
    destruct (C36_unknown l 7) as [[k7 E7]|E7]; [unfold known in E7|]; rewrite E7 in E2; cbn [lift obind] in E2; [|done]. case_decide.
    - destruct (mk_class (drivability k7)); [|done]. injection E2 as ->. cbn [with_reg g_reg]. apply Hset.
    - destruct (get_class _ l) as [k| | |]; cbn [lift obind] in E2; try done. injection E2 as ->. cbn [with_reg g_reg]. apply Hset. }
  destruct Hpr as (P1 & P2 & _). destruct (P1 c1 Hc1) as [Ec1|?]; [|done].
  assert (Hpl : plain c1 <> 1%nat) by congruence.
  pose proof (Ht c1 Hc1) as T1. pose proof (Ht c2 Hc2) as T2.
  destruct T1 as [[_ ?]|[(_ & ? & _)|[(_ & _ & _ & ?)|(_ & _ & p & i & Ep & Hpm & Hi & Hb & Hk)]]]; [done|done|done|]. rewrite Hq1 in Ep. injection Ep as <-.
  exists (driveability (class_count cf) (class_count cf - i)).
  assert (K1 : known (g_class g' c1) (driveability (class_count cf) (class_count cf - i)) (g_reg g')).
  { rewrite Ec1. replace (plain c1) with (2 + Z.to_nat (class_count cf - i))%nat by lia. apply known_iff. rewrite Hreg by lia. rewrite L2 by lia. do 2 f_equal. lia. }
  destruct (driveability_range (class_count cf) (class_count cf - i)) as [D1 D2]; [lia|lia|].
  assert (Htop : (q1 == 0)%Q -> (driveability (class_count cf) (class_count cf - i) == 1)%Q).
  { intros Hz. assert (Ez : (Qabs q1 / maximum_slope cf * inject_Z (class_count cf) == inject_Z 0)%Q).
    { rewrite Hz. change (inject_Z 0) with 0%Q. change (Qabs 0) with 0%Q. unfold Qdiv. apply Qeq_trans with (0 * inject_Z (class_count cf))%Q; [apply Qmult_comp; [apply Qmult_0_l|reflexivity]|apply Qmult_0_l]. }
    assert (Hi0 : nearest (inject_Z 0) i). { destruct Hi as [A B]. split; [by rewrite <- Ez|]. rewrite <- Ez. exact B. }
    apply nearest_int in Hi0. subst i. rewrite Z.sub_0_r. apply driveability_top. lia. }
  assert (Hobst : g_class g' c2 = 1%nat -> exists d2, known (g_class g' c1) (driveability (class_count cf) (class_count cf - i)) (g_reg g') /\ known (g_class g' c2) d2 (g_reg g') /\
    (d2 <= driveability (class_count cf) (class_count cf - i))%Q /\ (0 < driveability (class_count cf) (class_count cf - i))%Q /\ ((q1 == 0)%Q -> (driveability (class_count cf) (class_count cf - i) == 1)%Q)).
  { intros ->. exists 0%Q. split; [done|]. split; [apply known_iff; by rewrite Hreg|]. split; [lra|]. done. }
  destruct (P1 c2 Hc2) as [Ec2|?]; [|by apply Hobst].
  destruct T2 as [[_ ?]|[(_ & ? & _)|[(_ & _ & _ & ?)|(_ & _ & p & j & Ep & Hpm2 & Hj & Hb2 & Hk2)]]]; [apply Hobst; congruence|done|apply Hobst; congruence|]. rewrite Hq2 in Ep. injection Ep as <-.
  exists (driveability (class_count cf) (class_count cf - j)). split; [done|]. split.
  { rewrite Ec2. replace (plain c2) with (2 + Z.to_nat (class_count cf - j))%nat by lia. apply known_iff. rewrite Hreg by lia. rewrite L2 by lia. do 2 f_equal. lia. }
  split; [|done]. apply driveability_mono; [lia|]. assert (i <= j); [|lia]. apply (nearest_mono _ _ _ _ Hi Hj).
  destruct Hu as (Hm & _). assert (Hc : (0 < inject_Z (class_count cf))%Q). { change 0%Q with (inject_Z 0). rewrite <- Zlt_Qlt. lia. }
  assert (0 < / maximum_slope cf)%Q by (by apply Qinv_lt_0_compat). unfold Qdiv. apply Qmult_le_compat_r; [|lra]. apply Qmult_le_compat_r; [done|lra].
Qed.
Example C129_nonvacuous : let slope := Band 3 1 (fun c => if decide (c = (0, 0)) then Fin (1 # 2) else if decide (c = (1, 0)) then NInf else Fin 0) None in
  let cf := Config 1 10 0 1 0 in let g := Grid 3 1 1 1 (fun _ => 9%nat) (fun _ => 9%nat) [] in
  usable cf slope None g /\ processable cf 20 g /\ Forall good_class (g_reg g) /\
  match update_all cf 20 (Some slope) None g with Ok g' => (g_class g' <$> all_cells 3 1) = [7; 0; 12]%nat /\ option_map Qred (g_reg g' !! 0%nat) = Some (Qred (driveability 10 8)) | _ => False end.
Proof.
  cbn zeta. set (slope := Band _ _ _ _). set (cf := Config _ _ _ _ _). set (g := Grid _ _ _ _ _ _ _).
  split; [split; [by vm_compute|]; split; [cbn; lia|]; split; [done|]; split; [done|]; intros c _; unfold slope; cbn; by repeat case_decide|].
  split. { split; intros H; cbn in H; lra. }
  split; [constructor|]. vm_compute. split; reflexivity.
Qed.
(** With fewer than five classes the operator throws at the end, unless the map has a class 7 already: it looks that class up in any case. The map has been written then. *)
Theorem C129_few_refuted cf fuel slope step g : usable cf slope step g -> processable cf fuel g -> class_count cf < 5 -> (length (g_reg g) <= 7)%nat ->
  exists plain g', update_all cf fuel (Some slope) step g = Throw g' /\ (forall c, inside g c -> terrain cf slope step c (plain c)) /\ processed cf g plain (g_class g') (g_prob g').
Proof.
  intros Hu Hp Hlt Hlen. destruct (update_all_spec cf fuel slope step g Hu Hp) as (plain & cls & prob & l & Ht & Hpr & Hl & E).
  assert (Hn : 1 <= class_count cf <= 253) by apply Hu.
  destruct (register_classes_spec cf (g_reg g) Hn) as (l' & El & L1 & L2 & L3). rewrite Hl in El. injection El as <-.
  exists plain. rewrite E. unfold register_unknown. cbn [g_reg].
  assert (E7 : get_class 7 l = Throw l). { unfold get_class. rewrite decide_True; [done|]. apply lookup_ge_None. rewrite L3 by lia. apply lookup_ge_None_2. lia. }
  rewrite E7. cbn [lift obind]. eexists. split; [done|]. split; [intros c Hc; by apply Ht|]. exact Hpr.
Qed.
