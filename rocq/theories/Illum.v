(** Model of GridIllumination (src/operators/GridIllumination.cpp).  C115: the cells between a cell and the light.  C116: the light.

    Positions in the plane are rational numbers, heights and the light are real numbers (no rounding; heights that are infinite or NaN are not modelled).
    Lengths along the way to the light are divided by the distance to the light where they are only compared with each other, as in Voxel.v; NaN is [None] there. *)
From Coq Require Import Qreals Reals Lra ZArith QArith Qround Qabs Lqa.
From stdpp Require Import prelude.
From Verif Require Import Base Bresenham GridModel GridProps Voxel.
Local Open Scope Z_scope.

(** * Model: the way to the light *)
(** :71-101, the loop; [goal] is the cell of the light source if it is in the grid, [cx], [cy] are [size_t]. The result are the cells whose heights are looked at. *)
Fixpoint walk (fuel : nat) (g : geo) (goal : option pos) (stepx stepy : Z) (deltax deltay : option Q) (cx cy : Z) (maxx maxy : option Q) : out () (list pos) :=
  match fuel with
  | O => NoFuel
  | S fuel =>
    let b := less maxx maxy in
    let cx := if b then to_size (cx + stepx) else cx in
    let cy := if b then cy else to_size (cy + stepy) in
    let maxx := if b then plus maxx deltax else maxx in
    let maxy := if b then maxy else plus maxy deltay in
    if negb ((cx >=? 0) && (cx <? g_nx g) && (cy >=? 0) && (cy <? g_ny g)) then Ok []
    else if decide (goal = Some (cx, cy)) then Ok []
    else r <~ walk fuel g goal stepx stepy deltax deltay cx cy maxx maxy ;; Ok ((cx, cy) :: r)
  end.
(** :23-24 *)
Definition light_cell (conv : Z -> Z) (g : geo) (lx ly : Q) : option pos := match to_grid conv g lx ly with Some (xi, yi, _, _) => Some (xi, yi) | None => None end.
Definition half_of (d : option Q) : option Q := (fun d => d * (1 # 2))%Q <$> d.
(** :30-101 for cell (x, y) and a light above (lx, ly) *)
Definition looked_at (fuel : nat) (conv : Z -> Z) (g : geo) (lx ly : Q) (x y : Z) : out () (list pos) :=
  let dx := (lx - fst (from_grid g x y))%Q in
  let dy := (ly - snd (from_grid g x y))%Q in
  let deltax := delta (g_sx g) dx in
  let deltay := delta (g_sy g) dy in
  walk fuel g (light_cell conv g lx ly) (sign_step dx) (sign_step dy) deltax deltay x y (half_of deltax) (half_of deltay).

(** * Specification *)
(** the point at fraction [t] of the way from the centre of cell (x, y) to the light *)
Definition on_way (g : geo) (lx ly : Q) (x y : Z) (t : Q) : Q * Q :=
  let c := from_grid g x y in (fst c + t * (lx - fst c), snd c + t * (ly - snd c))%Q.
(** the points of a cell without its border, and with its border *)
Definition in_open (g : geo) (c : pos) (p : Q * Q) : Prop :=
  (g_ox g + inject_Z c.1 * g_sx g < p.1)%Q /\ (p.1 < g_ox g + (inject_Z c.1 + 1) * g_sx g)%Q /\
  (g_oy g + inject_Z c.2 * g_sy g < p.2)%Q /\ (p.2 < g_oy g + (inject_Z c.2 + 1) * g_sy g)%Q.
Definition in_closed (g : geo) (c : pos) (p : Q * Q) : Prop :=
  (g_ox g + inject_Z c.1 * g_sx g <= p.1)%Q /\ (p.1 <= g_ox g + (inject_Z c.1 + 1) * g_sx g)%Q /\
  (g_oy g + inject_Z c.2 * g_sy g <= p.2)%Q /\ (p.2 <= g_oy g + (inject_Z c.2 + 1) * g_sy g)%Q.

(** * Proof *)
(** ** The loop in terms of the number of steps in both directions *)
Definition mult (i : nat) (a : Q) : Q := ((inject_Z (Z.of_nat i) + (1 # 2)) * a)%Q.
Section states.
  Context (oa ob : option Q).
  Definition next (ij : nat * nat) : nat * nat :=
    if less (mult ij.1 <$> oa) (mult ij.2 <$> ob) then (S ij.1, ij.2) else (ij.1, S ij.2).
  Fixpoint state (k : nat) : nat * nat := match k with O => (0, 0)%nat | S k => next (state k) end.
  Lemma state_sum k : (fst (state k) + snd (state k) = k)%nat.
  Proof using. induction k as [|k IH]; [done|]. cbn [state]. unfold next. destruct (less _ _); cbn [fst snd]; lia. Qed.
  Lemma state_mono k k' : (k <= k')%nat -> (fst (state k) <= fst (state k') /\ snd (state k) <= snd (state k'))%nat.
  Proof using. induction 1 as [|k' H IH]; [lia|]. cbn [state]. unfold next. destruct (less _ _); cbn [fst snd]; lia. Qed.
End states.

Definition cell_at (x y sx sy : Z) (ij : nat * nat) : pos := (x + sx * Z.of_nat ij.1, y + sy * Z.of_nat ij.2).
Definition same_opt (a b : option Q) : Prop := match a, b with Some a, Some b => (a == b)%Q | None, None => True | _, _ => False end.
Lemma less_same a a' b b' : same_opt a a' -> same_opt b b' -> less a b = less a' b'.
Proof.
  destruct a as [a|], a' as [a'|], b as [b|], b' as [b'|]; try done. cbn. intros H1 H2.
  destruct (Qlt_le_dec a b), (Qlt_le_dec a' b'); try done; exfalso; lra.
Qed.
Lemma mult_S i a : (mult (S i) a == mult i a + a)%Q.
Proof. unfold mult. rewrite Nat2Z.inj_succ. unfold Z.succ. rewrite inject_Z_plus. change (inject_Z 1) with 1%Q. ring. Qed.
Lemma plus_same m i o : same_opt m (mult i <$> o) -> same_opt (plus m o) (mult (S i) <$> o).
Proof. destruct m as [m|], o as [a|]; try done. cbn. intros H. rewrite mult_S, H. reflexivity. Qed.

Definition stays (g : geo) (goal : option pos) (c : pos) : Prop := a_cell g c.1 c.2 /\ goal <> Some c.
Lemma size_step g n c s : good_geo g -> n < size_end -> 0 <= c < n -> s = 1 \/ s = -1 ->
  (to_size (c + s) <? n) = true -> to_size (c + s) = c + s /\ 0 <= c + s < n.
Proof.
  intros _ Hn Hc Hs H. apply Z.ltb_lt in H. unfold to_size in *. unfold size_end in Hn. destruct (decide (c + s = -1)) as [E|E].
  - rewrite E in H. change (-1 mod 18446744073709551616) with 18446744073709551615 in H. lia.
  - rewrite Z.mod_small in * by lia. lia.
Qed.
Lemma size_stay n c s : n < size_end -> 0 <= c + s < n -> to_size (c + s) = c + s.
Proof. intros Hn Hc. unfold to_size. unfold size_end in Hn. apply Z.mod_small. lia. Qed.

Lemma walk_ok g goal x y sx sy oa ob : good_geo g -> (sx = 1 \/ sx = -1) -> (sy = 1 \/ sy = -1) -> forall fuel k mx my,
  let c := cell_at x y sx sy (state oa ob k) in a_cell g c.1 c.2 ->
  same_opt mx (mult (state oa ob k).1 <$> oa) -> same_opt my (mult (state oa ob k).2 <$> ob) ->
  (exists n, walk fuel g goal sx sy oa ob c.1 c.2 mx my = Ok ((fun i => cell_at x y sx sy (state oa ob i)) <$> seq (S k) n) /\
     (forall i, (k < i <= k + n)%nat -> stays g goal (cell_at x y sx sy (state oa ob i))) /\
     ~ stays g goal (cell_at x y sx sy (state oa ob (k + n + 1)))) \/
  (walk fuel g goal sx sy oa ob c.1 c.2 mx my = NoFuel /\ forall i, (k <= i <= k + fuel)%nat -> a_cell g (cell_at x y sx sy (state oa ob i)).1 (cell_at x y sx sy (state oa ob i)).2).
Proof.
  intros Hg Hsx Hsy. induction fuel as [|fuel IH]; intros k mx my c Hc Hmx Hmy.
  { right. split; [done|]. intros i Hi. assert (i = k) as -> by lia. exact Hc. }
  cbn [walk]. cbn zeta. pose proof Hg as (_&_&Hnx&Hny). rewrite (less_same _ _ _ _ Hmx Hmy).
  assert (Hnext : state oa ob (S k) = next oa ob (state oa ob k)) by done. unfold next in Hnext.
  set (b := less (mult (state oa ob k).1 <$> oa) (mult (state oa ob k).2 <$> ob)) in *.
  set (c' := cell_at x y sx sy (state oa ob (S k))).
  assert (Hc' : c' = if b then (c.1 + sx, c.2) else (c.1, c.2 + sy)).
  { unfold c', c. rewrite Hnext. unfold cell_at. destruct b; cbn [fst snd]; f_equal; lia. }
  set (X := if b then to_size (c.1 + sx) else c.1). set (Y := if b then c.2 else to_size (c.2 + sy)).
  destruct Hc as [Hcx Hcy].
  assert (HXY : ((X >=? 0) && (X <? g_nx g) && (Y >=? 0) && (Y <? g_ny g)) = true <-> a_cell g c'.1 c'.2).
  { rewrite !andb_true_iff, !Z.geb_le, Hc'. unfold X, Y, a_cell. destruct b; cbn [fst snd].
    - split.
      + intros (((H1&H2)&H3)&H4). destruct (size_step g (g_nx g) c.1 sx Hg (proj2 Hnx) Hcx Hsx H2) as [E H]. split; [done|]. lia.
      + intros [H1 H2]. rewrite (size_stay _ _ _ (proj2 Hnx) H1), !Z.ltb_lt. lia.
    - split.
      + intros (((H1&H2)&H3)&H4). destruct (size_step g (g_ny g) c.2 sy Hg (proj2 Hny) Hcy Hsy H4) as [E H]. split; [done|]. lia.
      + intros [H1 H2]. rewrite (size_stay _ _ _ (proj2 Hny) H2), !Z.ltb_lt. lia. }
  destruct ((X >=? 0) && (X <? g_nx g) && (Y >=? 0) && (Y <? g_ny g)) eqn:Ein; cbn [negb].
  2: { left. exists 0%nat. split; [done|]. split; [lia|]. rewrite Nat.add_0_r, Nat.add_1_r. fold c'. intros [H _]. apply HXY in H. discriminate H. }
  pose proof (proj1 HXY eq_refl) as Hin.
  assert (HXYc : (X, Y) = c').
  { rewrite Hc' in Hin |- *. unfold X, Y. destruct b; cbn [fst snd] in *; destruct Hin as [H1 H2].
    - by rewrite (size_stay _ _ _ (proj2 Hnx) H1).
    - by rewrite (size_stay _ _ _ (proj2 Hny) H2). }
  rewrite HXYc. case_decide as Hgoal.
  { left. exists 0%nat. split; [done|]. split; [lia|]. rewrite Nat.add_0_r, Nat.add_1_r. fold c'. intros [_ H]. done. }
  assert (X = c'.1) as -> by (by rewrite <-HXYc). assert (Y = c'.2) as -> by (by rewrite <-HXYc).
  destruct (IH (S k) (if b then plus mx oa else mx) (if b then my else plus my ob)) as [(n&Hrun&Hst&Hstop)|[Hrun Hst]].
  - exact Hin.
  - rewrite Hnext. destruct b; cbn [fst snd]; [by apply plus_same|done].
  - rewrite Hnext. destruct b; cbn [fst snd]; [done|by apply plus_same].
  - left. exists (S n). fold c' in Hrun. rewrite Hrun. cbn [obind]. split; [done|]. split.
    + intros i Hi. destruct (decide (i = S k)) as [->|Hne]; [by split|]. apply Hst. lia.
    + replace (k + S n + 1)%nat with (S k + n + 1)%nat by lia. exact Hstop.
  - right. fold c' in Hrun. rewrite Hrun. split; [done|]. intros i Hi. destruct (decide (i = k)) as [->|Hne]; [by split|]. apply Hst. lia.
Qed.

(** ** Geometry *)
  (** bounds of the time at which the way is in row (column) [i] *)
  Definition lo (i : nat) (o : option Q) (t : Q) : Prop := match i, o with S i, Some a => (mult i a <= t)%Q | _, _ => True end.
  Definition hi (i : nat) (o : option Q) (t : Q) : Prop := match o with Some a => (t <= mult i a)%Q | None => i = 0%nat end.
  Definition slo (i : nat) (o : option Q) (t : Q) : Prop := match i, o with S i, Some a => (mult i a < t)%Q | _, _ => True end.
  Definition shi (i : nat) (o : option Q) (t : Q) : Prop := match o with Some a => (t < mult i a)%Q | None => i = 0%nat end.
  Definition pos_opt (o : option Q) : Prop := match o with Some a => (0 < a)%Q | None => True end.

  Lemma mult_pos i a : (0 < a)%Q -> (0 < mult i a)%Q.
  Proof.
    intros Ha. unfold mult. assert (0 <= inject_Z (Z.of_nat i))%Q by (change 0%Q with (inject_Z 0); rewrite <-Zle_Qle; lia).
    apply Qmult_lt_0_compat; lra.
  Qed.
  Lemma mult_le i j a : (0 < a)%Q -> (i <= j)%nat -> (mult i a <= mult j a)%Q.
  Proof.
    intros Ha Hij. unfold mult. assert (inject_Z (Z.of_nat i) <= inject_Z (Z.of_nat j))%Q by (rewrite <-Zle_Qle; lia).
    apply Qmult_le_compat_r; lra.
  Qed.

Lemma state_none ob k : fst (state None ob k) = 0%nat.
Proof. induction k as [|k IH]; [done|]. cbn [state]. unfold next. cbn. exact IH. Qed.
Lemma state_inv a b k : (0 < a)%Q -> (0 < b)%Q -> let ij := state (Some a) (Some b) k in
  (match ij.1 with O => True | S i => (mult i a <= mult ij.2 b)%Q end) /\ (match ij.2 with O => True | S j => (mult j b <= mult ij.1 a)%Q end).
Proof.
  intros Ha Hb. induction k as [|k IH]; [done|]. cbn [state]. cbn zeta in *. unfold next. 
  set (ij := state (Some a) (Some b) k) in *. destruct IH as [IH1 IH2]. cbn.
  destruct (Qlt_le_dec (mult ij.1 a) (mult ij.2 b)) as [Hlt|Hle]; cbn [fst snd].
  - split; [lra|]. destruct ij.2 as [|j]; [done|]. pose proof (mult_le ij.1 (S ij.1) a Ha ltac:(lia)). lra.
  - split; [|lra]. destruct ij.1 as [|i]; [done|]. pose proof (mult_le ij.2 (S ij.2) b Hb ltac:(lia)). lra.
Qed.
(** the time of entering a cell of the way *)
Lemma touch oa b k : pos_opt oa -> (0 < b)%Q -> (0 < k)%nat -> let ij := state oa (Some b) k in
  exists t, (0 < t)%Q /\ lo ij.1 oa t /\ lo ij.2 (Some b) t /\ hi ij.1 oa t /\ hi ij.2 (Some b) t /\ forall t', lo ij.1 oa t' -> lo ij.2 (Some b) t' -> (t <= t')%Q.
Proof.
  intros Ha Hb Hk ij. pose proof (state_sum oa (Some b) k) as Hsum. fold ij in Hsum. destruct oa as [a|].
  - destruct (state_inv a b k Ha Hb) as [H1 H2]. fold ij in H1, H2. cbn in Ha. destruct ij as [i j]. cbn [fst snd] in *. unfold lo, hi.
    destruct i as [|i], j as [|j]; [lia| | |].
    + exists (mult j b). pose proof (mult_pos j b Hb). split; [lra|]. split; [done|]. split; [lra|]. split; [lra|]. split; [apply mult_le; [done|lia]|]. intros; lra.
    + exists (mult i a). pose proof (mult_pos i a Ha). split; [lra|]. split; [lra|]. split; [done|]. split; [apply mult_le; [done|lia]|]. split; [lra|]. intros; lra.
    + pose proof (mult_pos j b Hb). pose proof (mult_pos i a Ha). pose proof (mult_le i (S i) a Ha ltac:(lia)). pose proof (mult_le j (S j) b Hb ltac:(lia)).
      destruct (Qlt_le_dec (mult i a) (mult j b)).
      * exists (mult j b). repeat split; try lra. intros; lra.
      * exists (mult i a). repeat split; try lra. intros; lra.
  - pose proof (state_none (Some b) k) as H0. fold ij in H0. destruct ij as [i j]. cbn [fst snd] in *. subst i. destruct j as [|j]; [lia|]. unfold lo, hi.
    exists (mult j b). pose proof (mult_pos j b Hb). pose proof (mult_le j (S j) b Hb ltac:(lia)). repeat split; try lra. intros; lra.
Qed.
Lemma crossed oa b i j t : pos_opt oa -> (0 < b)%Q -> slo i oa t -> shi i oa t -> slo j (Some b) t -> shi j (Some b) t -> state oa (Some b) (i + j) = (i, j).
Proof.
  intros Ha Hb L1 U1 L2 U2. pose proof (state_sum oa (Some b) (i + j)) as Hsum. destruct oa as [a|].
  - destruct (state_inv a b (i + j) Ha Hb) as [H1 H2]. cbn in Ha. destruct (state (Some a) (Some b) (i + j)) as [i' j'] eqn:Es. cbn [fst snd] in *. unfold slo, shi in *.
    destruct (decide (i' = i)) as [->|Hne]; [f_equal; lia|]. exfalso. destruct (decide (i < i')%nat) as [Hlt|Hge].
    + destruct i' as [|i']; [lia|]. destruct j as [|j]; [lia|]. pose proof (mult_le i i' a Ha ltac:(lia)). pose proof (mult_le j' j b Hb ltac:(lia)). lra.
    + destruct j' as [|j']; [lia|]. destruct i as [|i]; [lia|]. pose proof (mult_le j j' b Hb ltac:(lia)). pose proof (mult_le i' i a Ha ltac:(lia)). lra.
  - pose proof (state_none (Some b) (i + j)) as H0. cbn in U1. subst i. destruct (state None (Some b) (0 + j)) as [i' j']. cbn [fst snd] in *. subst i'. f_equal. lia.
Qed.
(** the position on the way in one direction, in terms of the number of steps *)
Lemma sign_cases d : (sign_step d = 1 /\ (0 < d)%Q /\ (Qabs d == d)%Q) \/ (sign_step d = -1 /\ (d <= 0)%Q /\ (Qabs d == - d)%Q).
Proof.
  unfold sign_step. destruct (Qlt_le_dec 0 d) as [H|H]; [left|right]; (split; [done|]; split; [done|]).
  - apply Qabs_pos. lra.
  - by apply Qabs_neg.
Qed.
Lemma side s o z i t d : (0 < s)%Q ->
  ((o + inject_Z (z + sign_step d * i) * s <= (inject_Z z + (1 # 2)) * s + o + t * d)%Q /\ ((inject_Z z + (1 # 2)) * s + o + t * d <= o + (inject_Z (z + sign_step d * i) + 1) * s)%Q) <->
  ((inject_Z i - (1 # 2)) * s <= t * Qabs d)%Q /\ (t * Qabs d <= (inject_Z i + (1 # 2)) * s)%Q.
Proof.
  intros Hs. destruct (sign_cases d) as [(->&Hd&Ea)|(->&Hd&Ea)]; rewrite Ea, inject_Z_plus, inject_Z_mult.
  - change (inject_Z 1) with 1%Q. split; intros [H1 H2]; split; lra.
  - change (inject_Z (-1)) with (-(1))%Q. split; intros [H1 H2]; split; lra.
Qed.
Lemma side_strict s o z i t d : (0 < s)%Q ->
  ((o + inject_Z (z + sign_step d * i) * s < (inject_Z z + (1 # 2)) * s + o + t * d)%Q /\ ((inject_Z z + (1 # 2)) * s + o + t * d < o + (inject_Z (z + sign_step d * i) + 1) * s)%Q) <->
  ((inject_Z i - (1 # 2)) * s < t * Qabs d)%Q /\ (t * Qabs d < (inject_Z i + (1 # 2)) * s)%Q.
Proof.
  intros Hs. destruct (sign_cases d) as [(->&Hd&Ea)|(->&Hd&Ea)]; rewrite Ea, inject_Z_plus, inject_Z_mult.
  - change (inject_Z 1) with 1%Q. split; intros [H1 H2]; split; lra.
  - change (inject_Z (-1)) with (-(1))%Q. split; intros [H1 H2]; split; lra.
Qed.
Lemma abs_pos d : ~ (d == 0)%Q -> (0 < Qabs d)%Q.
Proof. intros H. destruct (sign_cases d) as [(_&Hd&->)|(_&Hd&->)]; [done|]. apply Qle_lteq in Hd as [Hd|Hd]; [lra|done]. Qed.
Lemma mult_delta i s d : ~ (d == 0)%Q -> (mult i (s / Qabs d) * Qabs d == (inject_Z (Z.of_nat i) + (1 # 2)) * s)%Q.
Proof. intros Hd. pose proof (abs_pos d Hd). unfold mult. field. lra. Qed.
Lemma delta_pos s d : (0 < s)%Q -> pos_opt (delta s d).
Proof.
  intros Hs. unfold delta. destruct (Qeq_dec d 0) as [|H]; [done|]. cbn. pose proof (abs_pos d H). apply Qlt_shift_div_l; [done|]. lra.
Qed.
Lemma cancel a b c : (0 < c)%Q -> (a * c <= b * c)%Q -> (a <= b)%Q.
Proof. intros Hc H. by apply Qmult_le_r in H. Qed.
Lemma cancel_lt a b c : (0 < c)%Q -> (a * c < b * c)%Q -> (a < b)%Q.
Proof. intros Hc H. by apply Qmult_lt_r in H. Qed.
Lemma bounds_closed s d i t : (0 < s)%Q -> (0 < t)%Q -> lo i (delta s d) t -> hi i (delta s d) t ->
  ((inject_Z (Z.of_nat i) - (1 # 2)) * s <= t * Qabs d)%Q /\ (t * Qabs d <= (inject_Z (Z.of_nat i) + (1 # 2)) * s)%Q.
Proof.
  intros Hs Ht. unfold delta, lo, hi. destruct (Qeq_dec d 0) as [H|H].
  - intros _ ->. rewrite H. change (Qabs 0) with 0%Q. change (inject_Z (Z.of_nat 0)) with 0%Q. lra.
  - pose proof (abs_pos d H) as Hp. intros HL HU. split.
    + destruct i as [|i]. { change (inject_Z (Z.of_nat 0)) with 0%Q. assert (0 <= t * Qabs d)%Q by (apply Qmult_le_0_compat; lra). lra. }
      assert (mult i (s / Qabs d) * Qabs d <= t * Qabs d)%Q as HH by (apply Qmult_le_compat_r; lra). rewrite mult_delta in HH by done.
      rewrite Nat2Z.inj_succ. unfold Z.succ. rewrite inject_Z_plus. change (inject_Z 1) with 1%Q. lra.
    + assert (t * Qabs d <= mult i (s / Qabs d) * Qabs d)%Q as HH by (apply Qmult_le_compat_r; lra). by rewrite mult_delta in HH by done.
Qed.
Lemma bounds_strict s d i t : (0 < s)%Q -> (0 < t)%Q ->
  ((inject_Z (Z.of_nat i) - (1 # 2)) * s < t * Qabs d)%Q -> (t * Qabs d < (inject_Z (Z.of_nat i) + (1 # 2)) * s)%Q -> slo i (delta s d) t /\ shi i (delta s d) t.
Proof.
  intros Hs Ht HL HU. unfold delta, slo, shi. destruct (Qeq_dec d 0) as [H|H].
  - rewrite H in HL. change (Qabs 0) with 0%Q in HL. destruct i as [|i]; [done|]. exfalso. rewrite Nat2Z.inj_succ in HL. unfold Z.succ in HL. rewrite inject_Z_plus in HL. change (inject_Z 1) with 1%Q in HL.
    assert (0 <= inject_Z (Z.of_nat i))%Q by (change 0%Q with (inject_Z 0); rewrite <-Zle_Qle; lia).
    assert (0 <= inject_Z (Z.of_nat i) * s)%Q by (apply Qmult_le_0_compat; lra). lra.
  - pose proof (abs_pos d H) as Hp. split.
    + destruct i as [|i]; [done|]. apply (cancel_lt _ _ (Qabs d) Hp). rewrite mult_delta by done.
      rewrite Nat2Z.inj_succ in HL. unfold Z.succ in HL. rewrite inject_Z_plus in HL. change (inject_Z 1) with 1%Q in HL. lra.
    + apply (cancel_lt _ _ (Qabs d) Hp). by rewrite mult_delta by done.
Qed.

Definition steps_to (d : Q) (z c : Z) : Z := sign_step d * (c - z).
Lemma steps_cell d z c : z + sign_step d * steps_to d z c = c.
Proof. unfold steps_to. destruct (sign_cases d) as [(->&_)|(->&_)]; lia. Qed.
Lemma steps_nonneg s i t d : (0 < s)%Q -> (0 < t)%Q -> (t * Qabs d < (inject_Z i + (1 # 2)) * s)%Q -> 0 <= i.
Proof.
  intros Hs Ht H. destruct (decide (0 <= i)) as [|Hn]; [done|]. exfalso. assert (inject_Z i <= -(1))%Q by (change (-(1))%Q with (inject_Z (-1)); rewrite <-Zle_Qle; lia).
  pose proof (Qabs_nonneg d). assert (0 <= t * Qabs d)%Q by (apply Qmult_le_0_compat; lra).
  assert ((inject_Z i + (1 # 2)) * s <= (-(1 # 2)) * s)%Q by (apply Qmult_le_compat_r; lra). lra.
Qed.
(** the numbers of steps to a cell which the way crosses *)
Lemma open_steps g lx ly x y c t : good_geo g -> (0 < t)%Q -> in_open g c (on_way g lx ly x y t) ->
  let dx := (lx - fst (from_grid g x y))%Q in let dy := (ly - snd (from_grid g x y))%Q in
  exists i j : nat, c = cell_at x y (sign_step dx) (sign_step dy) (i, j) /\
    (((inject_Z (Z.of_nat i) - (1 # 2)) * g_sx g < t * Qabs dx)%Q /\ (t * Qabs dx < (inject_Z (Z.of_nat i) + (1 # 2)) * g_sx g)%Q) /\
    (((inject_Z (Z.of_nat j) - (1 # 2)) * g_sy g < t * Qabs dy)%Q /\ (t * Qabs dy < (inject_Z (Z.of_nat j) + (1 # 2)) * g_sy g)%Q).
Proof.
  intros (Hsx&Hsy&_) Ht (I1&I2&I3&I4) dx dy. unfold on_way in *. cbn [fst snd] in *. fold dx in I1, I2. fold dy in I3, I4.
  pose proof (steps_cell dx x c.1) as E1. pose proof (steps_cell dy y c.2) as E2. rewrite <-E1 in I1, I2. rewrite <-E2 in I3, I4.
  unfold from_grid in *. cbn [fst snd] in *.
  destruct (proj1 (side_strict (g_sx g) (g_ox g) x (steps_to dx x c.1) t dx Hsx)) as [X1 X2]. { split; lra. }
  destruct (proj1 (side_strict (g_sy g) (g_oy g) y (steps_to dy y c.2) t dy Hsy)) as [Y1 Y2]. { split; lra. }
  pose proof (steps_nonneg _ _ _ _ Hsx Ht X2) as N1. pose proof (steps_nonneg _ _ _ _ Hsy Ht Y2) as N2.
  exists (Z.to_nat (steps_to dx x c.1)), (Z.to_nat (steps_to dy y c.2)). rewrite !Z2Nat.id by done. split; [|by repeat split].
  unfold cell_at. cbn [fst snd]. rewrite !Z2Nat.id by done. rewrite E1, E2. by destruct c.
Qed.
Lemma closed_steps g lx ly x y i j t : good_geo g -> (0 < t)%Q ->
  let dx := (lx - fst (from_grid g x y))%Q in let dy := (ly - snd (from_grid g x y))%Q in
  lo i (delta (g_sx g) dx) t -> hi i (delta (g_sx g) dx) t -> lo j (delta (g_sy g) dy) t -> hi j (delta (g_sy g) dy) t ->
  in_closed g (cell_at x y (sign_step dx) (sign_step dy) (i, j)) (on_way g lx ly x y t).
Proof.
  intros (Hsx&Hsy&_) Ht dx dy L1 U1 L2 U2. destruct (bounds_closed _ _ _ _ Hsx Ht L1 U1) as [X1 X2]. destruct (bounds_closed _ _ _ _ Hsy Ht L2 U2) as [Y1 Y2].
  destruct (proj2 (side (g_sx g) (g_ox g) x (Z.of_nat i) t dx Hsx) (conj X1 X2)) as [P1 P2].
  destruct (proj2 (side (g_sy g) (g_oy g) y (Z.of_nat j) t dy Hsy) (conj Y1 Y2)) as [P3 P4].
  unfold in_closed, cell_at, on_way. cbn [fst snd]. fold dx dy. unfold from_grid. cbn [fst snd]. repeat split; lra.
Qed.
Lemma way_end g lx ly x y : (fst (on_way g lx ly x y 1) == lx)%Q /\ (snd (on_way g lx ly x y 1) == ly)%Q.
Proof. unfold on_way. cbn [fst snd]. split; ring. Qed.
Lemma steps_inj x y sx sy ij ij' : (sx = 1 \/ sx = -1) -> (sy = 1 \/ sy = -1) -> cell_at x y sx sy ij = cell_at x y sx sy ij' -> ij = ij'.
Proof. destruct ij as [i j], ij' as [i' j']. unfold cell_at. cbn [fst snd]. intros [->| ->] [->| ->] E; injection E as E1 E2; f_equal; lia. Qed.
Lemma sign_one d : sign_step d = 1 \/ sign_step d = -1.
Proof. destruct (sign_cases d) as [(->&_)|(->&_)]; auto. Qed.
Lemma steps_bound z s i n : 0 <= z < n -> (s = 1 \/ s = -1) -> 0 <= z + s * Z.of_nat i < n -> Z.of_nat i < n.
Proof. intros H [->| ->] H'; lia. Qed.
Lemma between_cells n z s i i' : 0 <= z < n -> (s = 1 \/ s = -1) -> (i <= i')%nat -> 0 <= z + s * Z.of_nat i' < n -> 0 <= z + s * Z.of_nat i < n.
Proof. intros H [->| ->] Hi H'; lia. Qed.
(** a point of the line before a point of the rectangle *)
Lemma convex o n s c d t p : (0 < s)%Q -> (o < c)%Q -> (c < o + n * s)%Q -> (1 < t)%Q -> (o <= c + t * d)%Q -> (c + t * d <= o + n * s)%Q -> (p == c + d)%Q -> (o <= p)%Q /\ (p < o + n * s)%Q.
Proof.
  intros Hs H1 H2 Ht H3 H4 Hp. destruct (Qlt_le_dec 0 d) as [Hd|Hd].
  - assert (1 * d < t * d)%Q by (apply Qmult_lt_compat_r; lra). split; lra.
  - assert (1 * -d <= t * -d)%Q by (apply Qmult_le_compat_r; lra). split; lra.
Qed.

(** Light above a point that is in no row of centres ([ly] differs from the centre's [y]), not in the cell itself and, if it is in the grid, inside a cell and not on the border of one.
    The heights looked at for a cell are those of cells that the straight way to the light meets, apart from the cell itself and the cell of the light, and of all those that it crosses.
    The loop ends within as many steps as the grid has columns and rows. *)
Definition walk_fuel (g : geo) : nat := Z.to_nat (g_nx g + g_ny g).
Theorem C115_walk conv g lx ly x y : conv_wraps conv -> good_geo g -> g_nx g <= half -> g_ny g <= half -> near g lx ly -> a_cell g x y ->
  ~ (ly == snd (from_grid g x y))%Q -> ~ in_cell g x y lx ly -> (in_rect g lx ly -> exists c, in_open g c (lx, ly)) ->
  exists l, looked_at (walk_fuel g) conv g lx ly x y = Ok l /\ NoDup l /\
    (forall c, c ∈ l -> a_cell g c.1 c.2 /\ c <> (x, y) /\ ~ in_cell g c.1 c.2 lx ly /\
       exists t, (0 < t)%Q /\ (t <= 1)%Q /\ in_closed g c (on_way g lx ly x y t)) /\
    (forall c t, a_cell g c.1 c.2 -> c <> (x, y) -> ~ in_cell g c.1 c.2 lx ly -> (0 < t)%Q -> (t <= 1)%Q -> in_open g c (on_way g lx ly x y t) -> c ∈ l).
Proof.
  intros Hconv Hg HX HY Hnear Hxy Hdy Hown Hopen. pose proof (proj1 Hconv) as Hcok. pose proof Hg as (Hsx&Hsy&Hnx&Hny).
  unfold looked_at. set (dx := (lx - fst (from_grid g x y))%Q). set (dy := (ly - snd (from_grid g x y))%Q).
  set (sx := sign_step dx). set (sy := sign_step dy). set (goal := light_cell conv g lx ly).
  assert (Hdy0 : ~ (dy == 0)%Q). { unfold dy. intros H. apply Hdy. lra. }
  assert (Edy : delta (g_sy g) dy = Some (g_sy g / Qabs dy)%Q). { unfold delta. by destruct (Qeq_dec dy 0). }
  pose proof (delta_pos (g_sx g) dx Hsx) as Ha. pose proof (delta_pos (g_sy g) dy Hsy) as Hb. rewrite Edy in Hb. cbn in Hb.
  set (oa := delta (g_sx g) dx) in *. set (b := (g_sy g / Qabs dy)%Q) in *. rewrite Edy.
  pose proof (sign_one dx : sx = 1 \/ sx = -1) as S1. pose proof (sign_one dy : sy = 1 \/ sy = -1) as S2.
  (* the cell of the light *)
  assert (Hgoal : forall c, a_cell g c.1 c.2 -> in_cell g c.1 c.2 lx ly -> goal = Some c).
  { intros c Hc Hi. destruct (to_grid_index conv g lx ly c.1 c.2 Hcok Hg Hc Hi) as (xm&ym&E&_). unfold goal, light_cell. rewrite E. by destruct c. }
  assert (Hgoal2 : forall c, goal = Some c -> in_rect g lx ly /\ a_cell g c.1 c.2 /\ in_cell g c.1 c.2 lx ly).
  { intros c E. unfold goal, light_cell in E. assert (in_rect g lx ly) as HR. { apply (C31_outside conv g lx ly Hconv Hg HX HY Hnear). intros E'. rewrite E' in E. done. }
    destruct (C31_inside conv g lx ly Hcok Hg HR) as (xi&yi&xm&ym&E'&HA&HI&_). rewrite E' in E. injection E as <-. done. }
  assert (HL : forall cL, goal = Some cL -> exists i j : nat, cL = cell_at x y sx sy (i, j) /\ state oa (Some b) (i + j) = (i, j) /\ (0 < i + j)%nat /\
     slo i oa 1 /\ shi i oa 1 /\ slo j (Some b) 1 /\ shi j (Some b) 1 /\ (Qabs dx < (inject_Z (Z.of_nat i) + (1 # 2)) * g_sx g)%Q /\ (Qabs dy < (inject_Z (Z.of_nat j) + (1 # 2)) * g_sy g)%Q).
  { intros cL E. destruct (Hgoal2 cL E) as (HR&HA&HI). destruct (Hopen HR) as (c&Hc).
    assert (c = cL) as ->.
    { assert (in_cell g c.1 c.2 lx ly) as HI'. { destruct Hc as (Q1&Q2&Q3&Q4). cbn in *. unfold in_cell. repeat split; lra. }
      assert (a_cell g c.1 c.2) as HA'.
      { destruct HR as (R1&R2&R3&R4). destruct HI' as (Q1&Q2&Q3&Q4).
        assert (K : forall o s n z p, (0 < s)%Q -> (o <= p)%Q -> (p < o + inject_Z n * s)%Q -> (o + inject_Z z * s <= p)%Q -> (p < o + (inject_Z z + 1) * s)%Q -> 0 <= z < n).
        { clear. intros o s n z p Hs P1 P2 P3 P4. split.
          - assert (0 < inject_Z z + 1)%Q as H. { apply (cancel_lt _ _ s Hs). lra. } change 1%Q with (inject_Z 1) in H. change 0%Q with (inject_Z 0) in H. rewrite <-inject_Z_plus, <-Zlt_Qlt in H. lia.
          - assert (inject_Z z < inject_Z n)%Q as H. { apply (cancel_lt _ _ s Hs). lra. } by rewrite <-Zlt_Qlt in H. }
        split; [eapply (K (g_ox g) (g_sx g) _ _ lx)|eapply (K (g_oy g) (g_sy g) _ _ ly)]; done. }
      pose proof (Hgoal c HA' HI') as E'. rewrite E in E'. by injection E'. }
    destruct (way_end g lx ly x y) as [W1 W2].
    assert (in_open g cL (on_way g lx ly x y 1)) as Hc1. { destruct Hc as (Q1&Q2&Q3&Q4). unfold in_open. cbn [fst snd] in Q1, Q2, Q3, Q4. rewrite W1, W2. done. }
    destruct (open_steps g lx ly x y cL 1 Hg ltac:(lra) Hc1) as (i&j&Ec&[X1 X2]&[Y1 Y2]). fold dx in Ec, X1, X2. fold dy in Ec, Y1, Y2. fold sx in Ec. fold sy in Ec.
    destruct (bounds_strict (g_sx g) dx i 1 Hsx ltac:(lra) X1 X2) as [L1 U1]. destruct (bounds_strict (g_sy g) dy j 1 Hsy ltac:(lra) Y1 Y2) as [L2 U2]. fold oa in L1, U1. rewrite Edy in L2, U2.
    exists i, j. split; [done|]. split; [by apply (crossed oa b i j 1)|]. split; [|repeat split; try done; lra].
    destruct (decide (0 < i + j)%nat) as [|Hn]; [done|]. exfalso. assert (i = 0%nat) as -> by lia. assert (j = 0%nat) as -> by lia. apply Hown.
    unfold cell_at in Ec. cbn [fst snd] in Ec. rewrite !Z.mul_0_r, !Z.add_0_r in Ec. by rewrite Ec in HI. }
  destruct (walk_ok g goal x y sx sy oa (Some b) Hg S1 S2 (walk_fuel g) 0 (half_of oa) (half_of (Some b))) as [(n&Hrun&Hst&Hstop)|[_ Hst]].
  { unfold cell_at. cbn. rewrite !Z.mul_0_r, !Z.add_0_r. done. }
  { destruct oa as [a|]; [|done]. cbn. unfold mult. change (inject_Z (Z.of_nat 0)) with 0%Q. lra. }
  { cbn. unfold mult. change (inject_Z (Z.of_nat 0)) with 0%Q. lra. }
  2: { exfalso. specialize (Hst (walk_fuel g) ltac:(lia)). pose proof (state_sum oa (Some b) (walk_fuel g)) as Hs. destruct Hst as [B1 B2]. unfold cell_at in B1, B2. cbn [fst snd] in B1, B2.
       apply (steps_bound _ _ _ _ (proj1 Hxy) S1) in B1. apply (steps_bound _ _ _ _ (proj2 Hxy) S2) in B2. unfold walk_fuel in *. destruct Hxy. lia. }
  unfold cell_at in Hrun at 1 2. cbn [fst snd state] in Hrun. rewrite !Z.mul_0_r, !Z.add_0_r in Hrun.
  eexists. split; [exact Hrun|]. split; [|split].
  - apply NoDup_fmap_2_strong; [|apply NoDup_seq]. intros k k' _ _ E. apply (steps_inj x y sx sy _ _ S1 S2) in E. rewrite <-(state_sum oa (Some b) k), <-(state_sum oa (Some b) k'). by rewrite E.
  - intros c Hc. apply elem_of_list_fmap in Hc as (k&->&Hk). apply elem_of_seq in Hk. destruct (Hst k ltac:(lia)) as [HA Hng]. pose proof (state_sum oa (Some b) k) as Hsum.
    split; [exact HA|]. split.
    { intros E. assert (cell_at x y sx sy (0, 0)%nat = (x, y)) as E0. { unfold cell_at. cbn. by rewrite !Z.mul_0_r, !Z.add_0_r. } rewrite <-E0 in E. apply (steps_inj x y sx sy _ _ S1 S2) in E. rewrite E in Hsum. cbn in Hsum. lia. }
    split. { intros HI. apply Hng. by apply Hgoal. }
    destruct (touch oa b k Ha Hb ltac:(lia)) as (t&Ht&L1&L2&U1&U2&Hmin). exists t. split; [done|].
    destruct (state oa (Some b) k) as [i j] eqn:Ek. cbn [fst snd] in *.
    assert (in_closed g (cell_at x y sx sy (i, j)) (on_way g lx ly x y t)) as Hcl. { apply closed_steps; try done; fold dy; rewrite Edy; done. }
    split; [|done]. destruct (Qlt_le_dec 1 t) as [Hgt|]; [|done]. exfalso.
    destruct (to_grid conv g lx ly) as [[[[xi yi] xm] ym]|] eqn:Etg.
    + destruct (HL (xi, yi)) as (iL&jL&EL&EsL&HposL&LL1&UL1&LL2&UL2&_). { unfold goal, light_cell. by rewrite Etg. }
      assert (k < iL + jL)%nat as Hlt.
      { destruct (decide (k < iL + jL)%nat) as [|Hge]; [done|]. exfalso. destruct (Hst (iL + jL)%nat ltac:(lia)) as [_ Hne]. apply Hne. rewrite EsL, <-EL. unfold goal, light_cell. by rewrite Etg. }
      destruct (state_mono oa (Some b) k (iL + jL) ltac:(lia)) as [M1 M2]. rewrite Ek, EsL in M1, M2. cbn [fst snd] in M1, M2.
      assert (lo i oa 1) as Q1. { unfold lo. destruct i as [|i]; [done|]. destruct oa as [a|]; [|done]. destruct iL as [|iL]; [lia|]. cbn in LL1. pose proof (mult_le i iL a Ha ltac:(lia)). lra. }
      assert (lo j (Some b) 1) as Q2. { unfold lo. destruct j as [|j]; [done|]. destruct jL as [|jL]; [lia|]. cbn in LL2. pose proof (mult_le j jL b Hb ltac:(lia)). lra. }
      pose proof (Hmin 1%Q Q1 Q2). lra.
    + assert (in_rect g lx ly) as HR.
      { destruct Hcl as (P1&P2&P3&P4). destruct HA as [A1 A2]. set (c := cell_at x y sx sy (i, j)) in *. unfold on_way in P1, P2, P3, P4. cbn [fst snd] in P1, P2, P3, P4. fold dx in P1, P2. fold dy in P3, P4.
        unfold from_grid in P1, P2, P3, P4. cbn [fst snd] in P1, P2, P3, P4.
        assert (K : forall o s z n zc, (0 < s)%Q -> 0 <= z < n -> 0 <= zc < n -> (o < (inject_Z zc + (1 # 2)) * s + o)%Q /\ ((inject_Z zc + (1 # 2)) * s + o < o + inject_Z n * s)%Q /\
            (o <= o + inject_Z z * s)%Q /\ (o + (inject_Z z + 1) * s <= o + inject_Z n * s)%Q).
        { clear. intros o s z n zc Hs Hz Hzc. assert (0 <= inject_Z z)%Q by (change 0%Q with (inject_Z 0); rewrite <-Zle_Qle; lia). assert (0 <= inject_Z zc)%Q by (change 0%Q with (inject_Z 0); rewrite <-Zle_Qle; lia).
          assert (inject_Z z + 1 <= inject_Z n)%Q by (change 1%Q with (inject_Z 1); rewrite <-inject_Z_plus, <-Zle_Qle; lia).
          assert (inject_Z zc + 1 <= inject_Z n)%Q by (change 1%Q with (inject_Z 1); rewrite <-inject_Z_plus, <-Zle_Qle; lia).
          assert (0 <= inject_Z z * s)%Q by (apply Qmult_le_0_compat; lra). assert (0 <= inject_Z zc * s)%Q by (apply Qmult_le_0_compat; lra).
          assert ((inject_Z z + 1) * s <= inject_Z n * s)%Q by (apply Qmult_le_compat_r; lra). assert ((inject_Z zc + 1) * s <= inject_Z n * s)%Q by (apply Qmult_le_compat_r; lra). repeat split; lra. }
        destruct (K (g_ox g) (g_sx g) c.1 (g_nx g) x Hsx A1 (proj1 Hxy)) as (K1&K2&K3&K4). destruct (K (g_oy g) (g_sy g) c.2 (g_ny g) y Hsy A2 (proj2 Hxy)) as (K5&K6&K7&K8).
        destruct (convex (g_ox g) (inject_Z (g_nx g)) (g_sx g) (fst (from_grid g x y)) dx t lx Hsx) as [R1 R2]; [unfold from_grid; cbn [fst]; lra..|unfold dx; lra|].
        destruct (convex (g_oy g) (inject_Z (g_ny g)) (g_sy g) (snd (from_grid g x y)) dy t ly Hsy) as [R3 R4]; [unfold from_grid; cbn [snd]; lra..|unfold dy; lra|].
        done. }
      apply (C31_outside conv g lx ly Hconv Hg HX HY Hnear) in HR. by apply HR.
  - intros c t HA Hne Hnl Ht Ht1 Hc. destruct (open_steps g lx ly x y c t Hg Ht Hc) as (i&j&Ec&[X1 X2]&[Y1 Y2]). fold dx in Ec, X1, X2. fold dy in Ec, Y1, Y2. fold sx in Ec. fold sy in Ec.
    destruct (bounds_strict (g_sx g) dx i t Hsx Ht X1 X2) as [L1 U1]. destruct (bounds_strict (g_sy g) dy j t Hsy Ht Y1 Y2) as [L2 U2]. fold oa in L1, U1. rewrite Edy in L2, U2.
    pose proof (crossed oa b i j t Ha Hb L1 U1 L2 U2) as Es.
    assert (0 < i + j)%nat as Hpos. { destruct (decide (0 < i + j)%nat) as [|Hn]; [done|]. exfalso. apply Hne. rewrite Ec. assert (i = 0%nat) as -> by lia. assert (j = 0%nat) as -> by lia. unfold cell_at. cbn. by rewrite !Z.mul_0_r, !Z.add_0_r. }
    apply elem_of_list_fmap. exists (i + j)%nat. rewrite Es. split; [done|]. apply elem_of_seq. split; [lia|].
    destruct (decide (i + j < 1 + n)%nat) as [|Hge]; [done|]. exfalso. apply Hstop. cbn [Nat.add]. rewrite Nat.add_1_r.
    destruct (state_mono oa (Some b) (S n) (i + j) ltac:(lia)) as [M1 M2]. rewrite Es in M1, M2. cbn [fst snd] in M1, M2.
    set (ij := state oa (Some b) (S n)) in *. split.
    { rewrite Ec in HA. destruct HA as [A1 A2]. unfold cell_at in *. cbn [fst snd] in *. split; [by apply (between_cells _ _ _ _ _ (proj1 Hxy) S1 M1)|by apply (between_cells _ _ _ _ _ (proj2 Hxy) S2 M2)]. }
    intros Eg. destruct (HL _ Eg) as (iL&jL&EL&EsL&HposL&_&_&_&_&B1&B2). apply (steps_inj x y sx sy _ _ S1 S2) in EL. pose proof (state_sum oa (Some b) (S n)) as Hsum. fold ij in Hsum.
    rewrite EL in Hsum. cbn [fst snd] in Hsum.
    assert (K : forall s d i iL, (0 < s)%Q -> ((inject_Z (Z.of_nat i) - (1 # 2)) * s < t * Qabs d)%Q -> (Qabs d < (inject_Z (Z.of_nat iL) + (1 # 2)) * s)%Q -> (i <= iL)%nat).
    { clear -Ht Ht1. intros s d i iL Hs P1 P2. pose proof (Qabs_nonneg d). assert (t * Qabs d <= 1 * Qabs d)%Q by (apply Qmult_le_compat_r; lra).
      assert (inject_Z (Z.of_nat i) - (1 # 2) < inject_Z (Z.of_nat iL) + (1 # 2))%Q as P. { apply (cancel_lt _ _ s Hs). lra. }
      assert (inject_Z (Z.of_nat i) < inject_Z (Z.of_nat iL + 1))%Q as P'. { rewrite inject_Z_plus. change (inject_Z 1) with 1%Q. lra. } rewrite <-Zlt_Qlt in P'. lia. }
    pose proof (K _ _ _ _ Hsx X1 B1). pose proof (K _ _ _ _ Hsy Y1 B2). assert (iL = i) as -> by lia. assert (jL = j) as -> by lia.
    apply Hnl. destruct (Hgoal2 _ Eg) as (_&_&HI). rewrite EL in HI. rewrite Ec. exact HI.
Qed.

(** The loop ends for every light, within the grid and without the cell itself. *)
Theorem C115_ends conv g lx ly x y : good_geo g -> a_cell g x y ->
  exists l, looked_at (walk_fuel g) conv g lx ly x y = Ok l /\ forall c, c ∈ l -> a_cell g c.1 c.2 /\ c <> (x, y) /\ light_cell conv g lx ly <> Some c.
Proof.
  intros Hg Hxy. unfold looked_at. set (dx := (lx - fst (from_grid g x y))%Q). set (dy := (ly - snd (from_grid g x y))%Q). set (goal := light_cell conv g lx ly).
  pose proof (sign_one dx) as S1. pose proof (sign_one dy) as S2. set (sx := sign_step dx) in *. set (sy := sign_step dy) in *. set (oa := delta (g_sx g) dx). set (ob := delta (g_sy g) dy).
  assert (HH : forall o, same_opt (half_of o) (mult 0 <$> o)). { intros [a|]; [|done]. cbn. unfold mult. change (inject_Z (Z.of_nat 0)) with 0%Q. lra. }
  destruct (walk_ok g goal x y sx sy oa ob Hg S1 S2 (walk_fuel g) 0 (half_of oa) (half_of ob)) as [(n&Hrun&Hst&_)|[_ Hst]].
  { unfold cell_at. cbn. rewrite !Z.mul_0_r, !Z.add_0_r. done. }
  { apply HH. } { apply HH. }
  - unfold cell_at in Hrun at 1 2. cbn [fst snd state] in Hrun. rewrite !Z.mul_0_r, !Z.add_0_r in Hrun. eexists. split; [exact Hrun|].
    intros c Hc. apply elem_of_list_fmap in Hc as (k&->&Hk). apply elem_of_seq in Hk. destruct (Hst k ltac:(lia)) as [HA Hng]. pose proof (state_sum oa ob k) as Hsum.
    split; [exact HA|]. split; [|exact Hng].
    intros E. assert (cell_at x y sx sy (0, 0)%nat = (x, y)) as E0. { unfold cell_at. cbn. by rewrite !Z.mul_0_r, !Z.add_0_r. } rewrite <-E0 in E. apply (steps_inj x y sx sy _ _ S1 S2) in E. rewrite E in Hsum. cbn in Hsum. lia.
  - exfalso. specialize (Hst (walk_fuel g) ltac:(lia)). pose proof (state_sum oa ob (walk_fuel g)) as Hs. destruct Hst as [B1 B2]. unfold cell_at in B1, B2. cbn [fst snd] in B1, B2.
    apply (steps_bound _ _ _ _ (proj1 Hxy) S1) in B1. apply (steps_bound _ _ _ _ (proj2 Hxy) S2) in B2. unfold walk_fuel in *. destruct Hxy. lia.
Qed.

(** ** Examples *)
Lemma to_size_wraps : conv_wraps to_size.
Proof.
  split.
  - intros z Hz. unfold to_size. apply Z.mod_small. exact Hz.
  - intros z Hz. unfold to_size, size_end. rewrite <-(Z.mod_add _ 1) by lia. apply Z.mod_small. lia.
Qed.
(** 4 x 3 cells of size 1, light above (33/10, 12/5) in cell (3, 2), seen from cell (0, 0) *)
Definition ex_geo : geo := Geo 4 3 1 1 0 0.
Example C115_nonvacuous :
  conv_wraps to_size /\ good_geo ex_geo /\ g_nx ex_geo <= half /\ g_ny ex_geo <= half /\ near ex_geo (33 # 10) (12 # 5) /\ a_cell ex_geo 0 0 /\
  ~ ((12 # 5) == snd (from_grid ex_geo 0 0))%Q /\ ~ in_cell ex_geo 0 0 (33 # 10) (12 # 5) /\ in_rect ex_geo (33 # 10) (12 # 5) /\ in_open ex_geo (3, 2) ((33 # 10), (12 # 5))%Q /\
  looked_at (walk_fuel ex_geo) to_size ex_geo (33 # 10) (12 # 5) 0 0 = Ok [(1, 0); (1, 1); (2, 1); (2, 2)].
Proof.
  split; [exact to_size_wraps|]. split. { unfold good_geo, size_end; cbn. repeat split; lia || lra. }
  split; [done|]. split; [done|]. split. { unfold near, half. cbn. change (inject_Z 9223372036854775808) with (9223372036854775808 # 1)%Q. repeat split; lra. }
  split. { unfold a_cell; cbn; lia. } split. { cbn. change (inject_Z 0) with 0%Q. lra. } split. { unfold in_cell. cbn. change (inject_Z 0) with 0%Q. lra. }
  split. { unfold in_rect. cbn. change (inject_Z 4) with 4%Q. change (inject_Z 3) with 3%Q. repeat split; lra. }
  split. { unfold in_open. cbn. change (inject_Z 2) with 2%Q. change (inject_Z 3) with 3%Q. repeat split; lra. }
  vm_compute. reflexivity.
Qed.

(** With the light in the same row of centres the loop goes down the column of the cell: cells between the cell and the light are not looked at, and cells off the way are. *)
Theorem C115_row_refuted : exists conv g lx ly x y l c c', conv_wraps conv /\ good_geo g /\ a_cell g x y /\ ~ in_cell g x y lx ly /\ in_open g (2, 1) (lx, ly) /\
  looked_at (walk_fuel g) conv g lx ly x y = Ok l /\
  a_cell g c.1 c.2 /\ c <> (x, y) /\ ~ in_cell g c.1 c.2 lx ly /\ in_open g c (on_way g lx ly x y (1 # 2)) /\ c ∉ l /\
  c' ∈ l /\ forall t, ~ in_closed g c' (on_way g lx ly x y t).
Proof.
  exists to_size, (Geo 3 3 1 1 0 0), (5 # 2)%Q, (3 # 2)%Q, 0, 1, [(0, 0)], (1, 1), (0, 0).
  split; [exact to_size_wraps|]. split. { unfold good_geo, size_end; cbn. repeat split; lia || lra. } split. { unfold a_cell; cbn; lia. }
  split. { unfold in_cell. cbn. change (inject_Z 0) with 0%Q. lra. } split. { unfold in_open. cbn. change (inject_Z 2) with 2%Q. change (inject_Z 1) with 1%Q. repeat split; lra. }
  split. { vm_compute. reflexivity. } split. { unfold a_cell; cbn; lia. } split; [done|]. split. { unfold in_cell. cbn. change (inject_Z 1) with 1%Q. lra. }
  split. { unfold in_open, on_way, from_grid. cbn [fst snd g_sx g_sy g_ox g_oy]. change (inject_Z 1) with 1%Q. change (inject_Z 0) with 0%Q. repeat split; lra. }
  split. { rewrite elem_of_list_singleton. done. } split; [by apply elem_of_list_singleton|].
  intros t. unfold in_closed, on_way, from_grid. cbn [fst snd g_sx g_sy g_ox g_oy]. change (inject_Z 1) with 1%Q. change (inject_Z 0) with 0%Q. lra.
Qed.
(** With the light exactly above a corner of cells the loop can pass by the cell of the light and look at cells behind it. *)
Theorem C115_corner_refuted : exists conv g lx ly x y l c, conv_wraps conv /\ good_geo g /\ a_cell g x y /\ ~ in_cell g x y lx ly /\ ~ (ly == snd (from_grid g x y))%Q /\ in_rect g lx ly /\
  looked_at (walk_fuel g) conv g lx ly x y = Ok l /\ c ∈ l /\ forall t, in_closed g c (on_way g lx ly x y t) -> (2 < t)%Q.
Proof.
  exists to_size, (Geo 6 6 1 1 0 0), 2%Q, 3%Q, 0, 4, [(0, 3); (1, 3); (1, 2); (2, 2); (2, 1); (3, 1); (3, 0); (4, 0)], (3, 0).
  split; [exact to_size_wraps|]. split. { unfold good_geo, size_end; cbn. repeat split; lia || lra. } split. { unfold a_cell; cbn; lia. }
  split. { unfold in_cell. cbn. change (inject_Z 0) with 0%Q. lra. } split. { cbn. change (inject_Z 4) with 4%Q. lra. } split. { unfold in_rect. cbn. change (inject_Z 6) with 6%Q. repeat split; lra. }
  split. { vm_compute. reflexivity. } split. { rewrite !elem_of_cons. tauto. }
  intros t. unfold in_closed, on_way, from_grid. cbn [fst snd g_sx g_sy g_ox g_oy]. change (inject_Z 4) with 4%Q. change (inject_Z 3) with 3%Q. change (inject_Z 0) with 0%Q. lra.
Qed.
(** With the light above the cell itself but not above its centre the loop goes on past the light to the border of the grid. *)
Theorem C115_own_refuted : exists conv g lx ly x y l c, conv_wraps conv /\ good_geo g /\ a_cell g x y /\ in_open g (x, y) (lx, ly) /\ ~ (ly == snd (from_grid g x y))%Q /\
  looked_at (walk_fuel g) conv g lx ly x y = Ok l /\ c ∈ l /\ forall t, in_closed g c (on_way g lx ly x y t) -> (2 <= t)%Q.
Proof.
  exists to_size, (Geo 3 3 1 1 0 0), (3 # 4)%Q, (3 # 5)%Q, 0, 0, [(1, 0); (1, 1); (2, 1)], (1, 0).
  split; [exact to_size_wraps|]. split. { unfold good_geo, size_end; cbn. repeat split; lia || lra. } split. { unfold a_cell; cbn; lia. }
  split. { unfold in_open. cbn. change (inject_Z 0) with 0%Q. repeat split; lra. } split. { cbn. change (inject_Z 0) with 0%Q. lra. }
  split. { vm_compute. reflexivity. } split. { rewrite !elem_of_cons. tauto. }
  intros t. unfold in_closed, on_way, from_grid. cbn [fst snd g_sx g_sy g_ox g_oy]. change (inject_Z 1) with 1%Q. change (inject_Z 0) with 0%Q. lra.
Qed.
