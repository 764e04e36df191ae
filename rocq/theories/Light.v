(** Model of the light of GridIllumination (src/operators/GridIllumination.cpp).  C116.

    The cells whose heights are looked at are those of Illum.v. Heights and the light are real numbers without rounding; what [double] has beyond real numbers is kept, because quotients by zero occur.
    Heights that are infinite or NaN are not modelled. *)
From Coq Require Import ZArith QArith Qreals Reals.
From stdpp Require Import prelude strings.
From Verif Require Import Base Bresenham GridModel GridProps Illum.
From Coq Require Import Lra.
Local Open Scope R_scope.

(** * Model *)
(** values of [double], without the sign of zero: the divisors here are norms and differences of equal numbers, which are never negative zero *)
Inductive dbl := Fin (r : R) | PInf | NInf | NaN.
Definition d_sub (a b : dbl) : dbl :=
  match a, b with
  | NaN, _ | _, NaN | PInf, PInf | NInf, NInf => NaN
  | Fin a, Fin b => Fin (a - b)
  | PInf, _ | _, NInf => PInf
  | NInf, _ | _, PInf => NInf
  end.
Definition d_div (a b : dbl) : dbl :=
  match a, b with
  | NaN, _ | _, NaN => NaN
  | Fin a, Fin b => if Req_EM_T b 0 then (if Rlt_dec 0 a then PInf else if Rlt_dec a 0 then NInf else NaN) else Fin (a / b)
  | Fin _, _ => Fin 0
  | PInf, Fin b => if Rlt_dec b 0 then NInf else PInf
  | NInf, Fin b => if Rlt_dec b 0 then PInf else NInf
  | _, _ => NaN
  end.
Definition d_lt (a b : dbl) : bool :=
  match a, b with
  | NaN, _ | _, NaN => false
  | Fin a, Fin b => if Rlt_dec a b then true else false
  | NInf, NInf => false | NInf, _ => true
  | Fin _, PInf => true
  | _, _ => false
  end.
(** std::max and std::min *)
Definition d_max (a b : dbl) : dbl := if d_lt a b then b else a.
Definition d_min (a b : dbl) : dbl := if d_lt b a then b else a.

Definition norm (x y : Q) : R := R_sqrt.sqrt (Q2R x * Q2R x + Q2R y * Q2R y).
(** :89, the distance of the centres of two cells *)
Definition dist (g : geo) (p c : pos) : R :=
  norm (fst (from_grid g c.1 c.2) - fst (from_grid g p.1 p.2))%Q (snd (from_grid g c.1 c.2) - snd (from_grid g p.1 p.2))%Q.
(** :35, the distance of a cell to the light in the plane *)
Definition light_dist (g : geo) (lx ly : Q) (p : pos) : R := norm (lx - fst (from_grid g p.1 p.2))%Q (ly - snd (from_grid g p.1 p.2))%Q.
(** :38-40 and :65-104 for cell [p] of height [h p], the light in height [lz] of diameter [d] and the cells [l] of the loop *)
Definition light (g : geo) (lx ly : Q) (lz d : R) (h : pos -> R) (p : pos) (l : list pos) : dbl :=
  let n := light_dist g lx ly p in
  let light_min := d_div (Fin (lz - h p - / 2 * d)) (Fin n) in
  let light_max := d_div (Fin (lz - h p + / 2 * d)) (Fin n) in
  let max_light := foldl (fun m c => d_max m (d_div (d_sub (d_div (Fin (h c - h p)) (Fin (dist g p c))) light_min) (d_sub light_max light_min))) (Fin 0) l in
  d_sub (Fin 1) (d_min max_light (Fin 1)).

(** the arrays of the grid by the name of their band; creation of a missing array and the limits of arrays are not modelled *)
Notation bands := (string -> pos -> R).
Definition elevation_max : string := "elevation_max".
Definition put (b : string) (p : pos) (v : R) (w : bands) : bands := fun b' p' => if decide (b' = b /\ p' = p) then v else w b' p'.
(** :27-108, the loops over the cells [ps]; a light that is not a number does not occur (C116_all) and is [Bad IllTyped] here *)
Fixpoint update_cells (conv : Z -> Z) (g : geo) (lx ly : Q) (lz d : R) (band : string) (ps : list pos) (w : bands) : out () bands :=
  match ps with
  | [] => Ok w
  | p :: ps =>
    l <~ looked_at (walk_fuel g) conv g lx ly p.1 p.2 ;;
    match light g lx ly lz d (w elevation_max) p l with
    | Fin v => update_cells conv g lx ly lz d band ps (put band p v w)
    | _ => Bad IllTyped
    end
  end.
(** the cells in the order of the loops: columns outside, rows inside *)
Definition all_cells (g : geo) : list pos := x ← seqZ 0 (g_nx g); (fun y => (x, y)) <$> seqZ 0 (g_ny g).
Definition update_all (conv : Z -> Z) (g : geo) (lx ly : Q) (lz d : R) (band : string) (w : bands) : out () bands := update_cells conv g lx ly lz d band (all_cells g) w.

(** * Specification *)
(** The height, above the centre of cell [c], of a straight line which starts on the surface of cell [p] and ends at height [z] above the light's place.
    Lengths are those between the centres of the cells, as the code takes them. *)
Definition line_height (g : geo) (lx ly : Q) (h : pos -> R) (p c : pos) (z : R) : R := h p + (z - h p) * (dist g p c / light_dist g lx ly p).
(** the lower and the upper end of the lamp *)
Definition low_line (g : geo) (lx ly : Q) (lz d : R) (h : pos -> R) (p c : pos) : R := line_height g lx ly h p c (lz - d / 2).
Definition high_line (g : geo) (lx ly : Q) (lz d : R) (h : pos -> R) (p c : pos) : R := line_height g lx ly h p c (lz + d / 2).
(** the part of the lamp, between 0 and 1, that is seen from [p] above cell [c] *)
Definition seen_above (g : geo) (lx ly : Q) (lz d : R) (h : pos -> R) (p c : pos) : R :=
  let lo := low_line g lx ly lz d h p c in let hi := high_line g lx ly lz d h p c in
  Rmax 0 (Rmin 1 ((hi - h c) / (hi - lo))).

(** * Proof *)
Lemma norm_nonneg x y : 0 <= norm x y.
Proof. apply sqrt_pos. Qed.
Lemma sq_sum_pos a b : a <> 0 \/ b <> 0 -> 0 < a * a + b * b.
Proof.
  intros [H|H].
  - pose proof (Rsqr_pos_lt a H). pose proof (Rle_0_sqr b). unfold Rsqr in *. lra.
  - pose proof (Rsqr_pos_lt b H). pose proof (Rle_0_sqr a). unfold Rsqr in *. lra.
Qed.
Lemma Q2R_nonzero q : ~ (q == 0)%Q -> Q2R q <> 0.
Proof. intros H E. apply H. apply eqR_Qeq. rewrite E. unfold Q2R. cbn. lra. Qed.
Lemma norm_pos x y : ~ (x == 0)%Q \/ ~ (y == 0)%Q -> 0 < norm x y.
Proof. intros H. apply sqrt_lt_R0, sq_sum_pos. destruct H as [H|H]; [left|right]; by apply Q2R_nonzero. Qed.
Lemma norm_zero x y : (x == 0)%Q -> (y == 0)%Q -> norm x y = 0.
Proof. intros Hx Hy. unfold norm. rewrite (Qeq_eqR _ _ Hx), (Qeq_eqR _ _ Hy). replace (Q2R 0) with 0 by (unfold Q2R; cbn; lra). rewrite Rmult_0_l, Rplus_0_l. apply sqrt_0. Qed.
Lemma centre_inj s o z z' : (0 < s)%Q -> (((inject_Z z + (1 # 2)) * s + o) - ((inject_Z z' + (1 # 2)) * s + o) == 0)%Q -> z = z'.
Proof.
  intros Hs H. assert ((inject_Z z - inject_Z z') * s == 0)%Q as E. { rewrite <-H. ring. }
  apply Qmult_integral in E as [E|E].
  - apply inject_Z_injective. rewrite <-(Qplus_0_l (inject_Z z')), <-E. ring.
  - rewrite E in Hs. discriminate Hs.
Qed.
Lemma dist_pos g p c : good_geo g -> c <> p -> 0 < dist g p c.
Proof.
  intros (Hsx&Hsy&_) Hne. apply norm_pos. unfold from_grid. cbn [fst snd]. destruct (Z.eq_dec c.1 p.1) as [E1|N1].
  - right. intros H. apply (centre_inj _ _ _ _ Hsy) in H. apply Hne. destruct c, p. cbn in *. by subst.
  - left. intros H. apply (centre_inj _ _ _ _ Hsx) in H. done.
Qed.
Lemma d_lt_fin a b : d_lt (Fin a) (Fin b) = true <-> a < b.
Proof. cbn. destruct (Rlt_dec a b); by split. Qed.

(** ** The largest value of the loop *)
Definition max_ok (m : dbl) : Prop := match m with Fin r => 0 <= r | PInf => True | _ => False end.
Lemma d_max_ok m z : max_ok m -> max_ok (d_max m z).
Proof.
  unfold d_max. destruct m as [r| | |]; try done; cbn [max_ok]; intros Hr; [|by destruct z].
  destruct z as [r'| | |]; cbn [d_lt]; try exact Hr; [|done]. destruct (Rlt_dec r r'); cbn; lra.
Qed.
Lemma fold_ok (z : pos -> dbl) l m : max_ok m -> max_ok (foldl (fun m c => d_max m (z c)) m l).
Proof. revert m. induction l as [|c l IH]; intros m Hm; [done|]. cbn [foldl]. by apply IH, d_max_ok. Qed.
Definition result (m : dbl) : dbl := d_sub (Fin 1) (d_min m (Fin 1)).
Lemma result_fin r : result (Fin r) = Fin (1 - Rmin r 1).
Proof. unfold result, d_min. cbn [d_lt]. unfold Rmin. destruct (Rlt_dec 1 r), (Rle_dec r 1); cbn; f_equal; lra. Qed.
Lemma result_ok m : max_ok m -> exists v, result m = Fin v /\ 0 <= v <= 1.
Proof.
  destruct m as [r| | |]; try done; intros Hr; cbn in Hr.
  - rewrite result_fin. eexists. split; [done|]. unfold Rmin. destruct (Rle_dec r 1); lra.
  - exists 0. unfold result, d_min. cbn. split; [f_equal; lra|lra].
Qed.
Lemma clamp z : 0 <= z -> 1 - Rmin z 1 = Rmax 0 (Rmin 1 (1 - z)).
Proof.
  intros Hz. rewrite (Rmin_right 1 (1 - z)) by lra. destruct (Rle_dec z 1).
  - rewrite Rmin_left, Rmax_right by lra. done.
  - rewrite Rmin_right, Rmax_left by lra. lra.
Qed.
Lemma clamp_le z r : 0 <= r -> z <= r -> 1 - Rmin r 1 <= Rmax 0 (Rmin 1 (1 - z)).
Proof.
  intros Hr Hz. rewrite clamp by done. apply Rle_max_compat_l. apply Rle_min_compat_l. lra.
Qed.
Lemma light_fold g lx ly lz d h p l : exists z : pos -> dbl, light g lx ly lz d h p l = result (foldl (fun m c => d_max m (z c)) (Fin 0) l) /\
  z = (fun c => let n := light_dist g lx ly p in
     d_div (d_sub (d_div (Fin (h c - h p)) (Fin (dist g p c))) (d_div (Fin (lz - h p - / 2 * d)) (Fin n))) (d_sub (d_div (Fin (lz - h p + / 2 * d)) (Fin n)) (d_div (Fin (lz - h p - / 2 * d)) (Fin n)))).
Proof. eexists. split; [|reflexivity]. reflexivity. Qed.
Lemma fold_fin (z : pos -> dbl) (zr : pos -> R) l m : (forall c, c ∈ l -> z c = Fin (zr c)) ->
  exists r, foldl (fun m c => d_max m (z c)) (Fin m) l = Fin r /\ m <= r /\ (forall c, c ∈ l -> zr c <= r) /\ (r = m \/ exists c, c ∈ l /\ r = zr c).
Proof.
  revert m. induction l as [|c l IH]; intros m Hz. { exists m. split; [done|]. split; [lra|]. split; [|by left]. intros c Hc. by apply elem_of_nil in Hc. }
  cbn [foldl]. rewrite (Hz c (elem_of_list_here _ _)). unfold d_max at 2. cbn [d_lt]. destruct (Rlt_dec m (zr c)) as [Hlt|Hge].
  - destruct (IH (zr c)) as (r&E&H1&H2&H3). { intros c' Hc'. apply Hz. by right. } exists r. split; [exact E|]. split; [lra|]. split.
    + intros c' Hc'. apply elem_of_cons in Hc' as [->|Hc']; [done|by apply H2].
    + right. destruct H3 as [->|(c'&Hc'&->)]; [exists c; by repeat constructor|exists c'; split; [by right|done]].
  - destruct (IH m) as (r&E&H1&H2&H3). { intros c' Hc'. apply Hz. by right. } exists r. split; [exact E|]. split; [lra|]. split.
    + intros c' Hc'. apply elem_of_cons in Hc' as [->|Hc']; [lra|by apply H2].
    + destruct H3 as [->|(c'&Hc'&->)]; [by left|right; exists c'; split; [by right|done]].
Qed.
Lemma fold_keep (z : pos -> dbl) l m : (forall c, c ∈ l -> d_lt m (z c) = false) -> foldl (fun m c => d_max m (z c)) m l = m.
Proof.
  intros Hz. induction l as [|c l IH]; [done|]. cbn [foldl]. unfold d_max at 2. rewrite (Hz c (elem_of_list_here _ _)). apply IH. intros c' Hc'. apply Hz. by right.
Qed.
Lemma fold_inf (z : pos -> dbl) l m : max_ok m -> (exists c, c ∈ l /\ z c = PInf) -> foldl (fun m c => d_max m (z c)) m l = PInf.
Proof.
  revert m. induction l as [|c l IH]; intros m Hm (c'&Hc'&E). { by apply elem_of_nil in Hc'. }
  cbn [foldl]. apply elem_of_cons in Hc' as [->|Hc'].
  - assert (d_max m (z c) = PInf) as ->. { unfold d_max. rewrite E. by destruct m. } apply fold_keep. intros c' _. by destruct (z c').
  - apply IH; [by apply d_max_ok|by exists c'].
Qed.

(** ** Theorems *)
(** the light is a number between 0 and 1, for every lamp and all heights *)
Theorem C116_range g lx ly lz d h p l : exists v, light g lx ly lz d h p l = Fin v /\ 0 <= v <= 1.
Proof. destruct (light_fold g lx ly lz d h p l) as (z&->&_). apply result_ok, fold_ok. cbn. lra. Qed.

Lemma rel_value g lx ly lz d h p c : good_geo g -> 0 < light_dist g lx ly p -> 0 < d -> c <> p ->
  exists r, (let n := light_dist g lx ly p in
     d_div (d_sub (d_div (Fin (h c - h p)) (Fin (dist g p c))) (d_div (Fin (lz - h p - / 2 * d)) (Fin n))) (d_sub (d_div (Fin (lz - h p + / 2 * d)) (Fin n)) (d_div (Fin (lz - h p - / 2 * d)) (Fin n)))) = Fin r /\
    seen_above g lx ly lz d h p c = Rmax 0 (Rmin 1 (1 - r)).
Proof.
  intros Hg Hn Hd Hne. pose proof (dist_pos g p c Hg Hne) as Hs. cbn zeta. set (n := light_dist g lx ly p) in *. set (s := dist g p c) in *.
  cbn [d_div]. destruct (Req_EM_T s 0); [lra|]. destruct (Req_EM_T n 0); [lra|]. cbn [d_sub d_div].
  assert (0 < d / n) as Hdn. { apply Rmult_lt_0_compat; [done|]. by apply Rinv_0_lt_compat. }
  assert ((lz - h p + / 2 * d) / n - (lz - h p - / 2 * d) / n = d / n) as E by (field; lra). rewrite E. destruct (Req_EM_T (d / n) 0); [lra|].
  eexists. split; [reflexivity|]. unfold seen_above, high_line, low_line, line_height. fold n. fold s. f_equal. f_equal.
  replace (h p + (lz + d / 2 - h p) * (s / n) - (h p + (lz - d / 2 - h p) * (s / n))) with (d * (s / n)) by (field; lra). field. lra.
Qed.
(** a lamp with an extent, not exactly above the centre of the cell: the light is the least part of the lamp seen above one of the cells looked at *)
Theorem C116_part g lx ly lz d h p l : good_geo g -> 0 < light_dist g lx ly p -> 0 < d -> (forall c, c ∈ l -> c <> p) ->
  exists v, light g lx ly lz d h p l = Fin v /\ v <= 1 /\ (forall c, c ∈ l -> v <= seen_above g lx ly lz d h p c) /\ (v = 1 \/ exists c, c ∈ l /\ v = seen_above g lx ly lz d h p c).
Proof.
  intros Hg Hn Hd Hl. destruct (light_fold g lx ly lz d h p l) as (z&->&Ez).
  assert (exists zr : pos -> R, forall c, c ∈ l -> z c = Fin (zr c) /\ seen_above g lx ly lz d h p c = Rmax 0 (Rmin 1 (1 - zr c))) as (zr&Hzr).
  { exists (fun c => match z c with Fin r => r | _ => 0 end). intros c Hc. destruct (rel_value g lx ly lz d h p c Hg Hn Hd (Hl c Hc)) as (r&E1&E2). rewrite Ez. rewrite E1. done. }
  destruct (fold_fin z zr l 0) as (r&E&H0&H1&H2). { intros c Hc. by apply Hzr. }
  rewrite E, result_fin. eexists. split; [reflexivity|]. split. { unfold Rmin. destruct (Rle_dec r 1); lra. } split.
  - intros c Hc. rewrite (proj2 (Hzr c Hc)). by apply clamp_le, H1.
  - destruct H2 as [->|(c&Hc&->)].
    + left. rewrite Rmin_left by lra. lra.
    + right. exists c. split; [done|]. rewrite (proj2 (Hzr c Hc)). by apply clamp.
Qed.
(** a lamp without extent: all or nothing *)
Theorem C116_point g lx ly lz h p l : good_geo g -> 0 < light_dist g lx ly p -> (forall c, c ∈ l -> c <> p) ->
  ((forall c, c ∈ l -> h c <= low_line g lx ly lz 0 h p c) -> light g lx ly lz 0 h p l = Fin 1) /\
  ((exists c, c ∈ l /\ low_line g lx ly lz 0 h p c < h c) -> light g lx ly lz 0 h p l = Fin 0).
Proof.
  intros Hg Hn Hl. destruct (light_fold g lx ly lz 0 h p l) as (z&->&Ez).
  assert (Hz : forall c, c ∈ l -> (low_line g lx ly lz 0 h p c < h c -> z c = PInf) /\ (h c <= low_line g lx ly lz 0 h p c -> z c = NInf \/ z c = NaN)).
  { intros c Hc. pose proof (dist_pos g p c Hg (Hl c Hc)) as Hs. rewrite Ez. cbn zeta. unfold low_line, line_height. set (n := light_dist g lx ly p) in *. set (s := dist g p c) in *.
    cbn [d_div]. destruct (Req_EM_T s 0); [lra|]. destruct (Req_EM_T n 0); [lra|]. cbn [d_sub d_div].
    assert ((lz - h p + / 2 * 0) / n - (lz - h p - / 2 * 0) / n = 0) as -> by (field; lra). destruct (Req_EM_T 0 0); [|lra].
    assert (Q : (h c - h p) / s - (lz - h p - / 2 * 0) / n = (h c - (h p + (lz - 0 / 2 - h p) * (s / n))) / s) by (field; lra). rewrite Q.
    set (q := h c - (h p + (lz - 0 / 2 - h p) * (s / n))). assert (0 < / s) as Hi by (by apply Rinv_0_lt_compat). unfold Rdiv. split; intros HH.
    - assert (0 < q) by (unfold q; lra). assert (0 < q * / s) by (by apply Rmult_lt_0_compat). by destruct (Rlt_dec 0 (q * / s)).
    - assert (q <= 0) as Hq by (unfold q; lra). assert (q * / s <= 0). { replace 0 with (0 * / s) by lra. apply Rmult_le_compat_r; lra. }
      destruct (Rlt_dec 0 (q * / s)); [lra|]. destruct (Rlt_dec (q * / s) 0); auto. }
  split.
  - intros HH. rewrite fold_keep. { rewrite result_fin. f_equal. unfold Rmin. destruct (Rle_dec 0 1); lra. }
    intros c Hc. destruct (proj2 (Hz c Hc) (HH c Hc)) as [-> | ->]; done.
  - intros (c&Hc&HH). rewrite fold_inf. { unfold result, d_min. cbn. f_equal. lra. } { cbn. lra. } exists c. split; [done|]. by apply (Hz c Hc).
Qed.
(** exactly above the centre of the cell nothing shades the lamp *)
Theorem C116_above g lx ly lz d h p l : (lx == fst (from_grid g p.1 p.2))%Q -> (ly == snd (from_grid g p.1 p.2))%Q -> light g lx ly lz d h p l = Fin 1.
Proof.
  intros Hx Hy. destruct (light_fold g lx ly lz d h p l) as (z&->&Ez). rewrite fold_keep. { rewrite result_fin. f_equal. unfold Rmin. destruct (Rle_dec 0 1); lra. }
  intros c _. rewrite Ez. cbn zeta. unfold light_dist. rewrite norm_zero; [|rewrite Hx; ring|rewrite Hy; ring].
  cbn [d_div]. destruct (Req_EM_T 0 0); [|lra].
  repeat match goal with |- context [match (if ?b then _ else _) with _ => _ end] => destruct b end; cbn; repeat (match goal with |- context [if ?b then _ else _] => destruct b; cbn; try lra end); try done.
Qed.
Lemma lines_apart g lx ly lz d h p c : good_geo g -> 0 < light_dist g lx ly p -> 0 < d -> c <> p -> low_line g lx ly lz d h p c < high_line g lx ly lz d h p c.
Proof.
  intros Hg Hn Hd Hne. pose proof (dist_pos g p c Hg Hne) as Hs. unfold low_line, high_line, line_height.
  assert (0 < dist g p c / light_dist g lx ly p) as Hq. { apply Rmult_lt_0_compat; [done|]. by apply Rinv_0_lt_compat. }
  apply Rplus_lt_compat_l, Rmult_lt_compat_r; lra.
Qed.
Lemma seen_bounds lo hi x : lo < hi -> let v := Rmax 0 (Rmin 1 ((hi - x) / (hi - lo))) in
  (1 <= v -> x <= lo) /\ (x <= lo -> v = 1) /\ (v <= 0 -> hi <= x) /\ (hi <= x -> v = 0).
Proof.
  intros Hlt v. assert (0 < / (hi - lo)) as Hi by (apply Rinv_0_lt_compat; lra). set (q := (hi - x) / (hi - lo)) in *.
  assert (Hq : q * (hi - lo) = hi - x) by (unfold q; field; lra).
  assert (H1 : 1 <= q <-> x <= lo). { split; intros H. - assert (1 * (hi - lo) <= q * (hi - lo)) by (apply Rmult_le_compat_r; lra). lra. - unfold q. apply (Rmult_le_reg_r (hi - lo)); [lra|]. fold q. rewrite Hq. lra. }
  assert (H0 : q <= 0 <-> hi <= x). { split; intros H. - assert (q * (hi - lo) <= 0 * (hi - lo)) by (apply Rmult_le_compat_r; lra). lra. - apply (Rmult_le_reg_r (hi - lo)); [lra|]. rewrite Hq. lra. }
  split; [|split; [|split]].
  - intros H. apply H1. unfold v in H. pose proof (Rmin_r 1 q). destruct (Rle_dec 0 (Rmin 1 q)); [rewrite Rmax_right in H by done|rewrite Rmax_left in H by lra]; lra.
  - intros H. apply H1 in H. unfold v. rewrite Rmin_left, Rmax_right by lra. done.
  - intros H. apply H0. unfold v in H. pose proof (Rmax_r 0 (Rmin 1 q)) as Hm. destruct (Rle_dec 1 q); [rewrite Rmin_left in Hm, H by done|rewrite Rmin_right in Hm, H by lra]; lra.
  - intros H. apply H0 in H. unfold v. rewrite Rmin_right, Rmax_left by lra. done.
Qed.
Lemma all_or (f k : pos -> R) (l : list pos) : (forall c, c ∈ l -> f c <= k c) \/ (exists c, c ∈ l /\ k c < f c).
Proof.
  induction l as [|c l IH]. { left. intros c Hc. by apply elem_of_nil in Hc. }
  destruct (Rle_lt_dec (f c) (k c)) as [H|H]; [|right; exists c; split; [by left|done]]. destruct IH as [IH|(c'&Hc'&H')]; [left|right; exists c'; split; [by right|done]].
  intros c' Hc'. apply elem_of_cons in Hc' as [->|Hc']; [done|by apply IH].
Qed.
(** full light: no cell looked at is higher than the line to the lower end of the lamp *)
Theorem C116_full g lx ly lz d h p l : good_geo g -> 0 < light_dist g lx ly p -> 0 <= d -> (forall c, c ∈ l -> c <> p) ->
  light g lx ly lz d h p l = Fin 1 <-> forall c, c ∈ l -> h c <= low_line g lx ly lz d h p c.
Proof.
  intros Hg Hn Hd Hl. destruct (Rle_lt_or_eq_dec 0 d Hd) as [Hd'|<-].
  - destruct (C116_part g lx ly lz d h p l Hg Hn Hd' Hl) as (v&->&Hv&H1&H2). split.
    + intros E. injection E as ->. intros c Hc. specialize (H1 c Hc). by apply (seen_bounds _ _ (h c) (lines_apart g lx ly lz d h p c Hg Hn Hd' (Hl c Hc))).
    + intros HH. f_equal. destruct H2 as [->|(c&Hc&->)]; [done|]. apply (seen_bounds _ _ (h c) (lines_apart g lx ly lz d h p c Hg Hn Hd' (Hl c Hc))). by apply HH.
  - destruct (C116_point g lx ly lz h p l Hg Hn Hl) as [H1 H2]. split; [|exact H1].
    intros E c Hc. destruct (Rle_dec (h c) (low_line g lx ly lz 0 h p c)) as [|Hgt]; [done|]. exfalso. rewrite H2 in E. { injection E. lra. } exists c. split; [done|lra].
Qed.
(** no light: some cell looked at reaches the line to the upper end of the lamp (is above the line, if the lamp has no extent) *)
Theorem C116_dark g lx ly lz d h p l : good_geo g -> 0 < light_dist g lx ly p -> 0 <= d -> (forall c, c ∈ l -> c <> p) ->
  light g lx ly lz d h p l = Fin 0 <-> exists c, c ∈ l /\ (if Req_EM_T d 0 then high_line g lx ly lz d h p c < h c else high_line g lx ly lz d h p c <= h c).
Proof.
  intros Hg Hn Hd Hl. destruct (Req_EM_T d 0) as [->|Hd0].
  - destruct (C116_point g lx ly lz h p l Hg Hn Hl) as [H1 H2]. assert (E : forall c, high_line g lx ly lz 0 h p c = low_line g lx ly lz 0 h p c). { intros c. unfold high_line, low_line. f_equal. lra. } split.
    + intros E0. destruct (all_or h (low_line g lx ly lz 0 h p) l) as [HF|HE].
      * rewrite H1 in E0. { injection E0. lra. } intros c Hc. by apply HF.
      * destruct HE as (c&Hc&HH). exists c. split; [done|]. by rewrite E.
    + intros (c&Hc&HH). rewrite E in HH. apply H2. by exists c.
  - assert (0 < d) as Hd' by lra. destruct (C116_part g lx ly lz d h p l Hg Hn Hd' Hl) as (v&->&Hv&H1&H2). split.
    + intros E. injection E as ->. destruct H2 as [H2|(c&Hc&E)]; [lra|]. exists c. split; [done|]. apply (seen_bounds _ _ (h c) (lines_apart g lx ly lz d h p c Hg Hn Hd' (Hl c Hc))). unfold seen_above in E. lra.
    + intros (c&Hc&HH). f_equal. apply (seen_bounds _ _ (h c) (lines_apart g lx ly lz d h p c Hg Hn Hd' (Hl c Hc))) in HH. specialize (H1 c Hc). unfold seen_above in H1. rewrite HH in H1.
      destruct H2 as [->|(c'&Hc'&->)]; [lra|]. unfold seen_above in *. pose proof (Rmax_l 0 (Rmin 1 ((high_line g lx ly lz d h p c' - h c') / (high_line g lx ly lz d h p c' - low_line g lx ly lz d h p c')))). lra.
Qed.
(** raising other cells never gives more light *)
Theorem C116_shade g lx ly lz d h h' p l : good_geo g -> 0 < light_dist g lx ly p -> 0 <= d -> (forall c, c ∈ l -> c <> p) -> h' p = h p -> (forall c, c ∈ l -> h c <= h' c) ->
  exists v v', light g lx ly lz d h p l = Fin v /\ light g lx ly lz d h' p l = Fin v' /\ v' <= v.
Proof.
  intros Hg Hn Hd Hl Ep Hle. assert (El : forall c z, line_height g lx ly h' p c z = line_height g lx ly h p c z). { intros c z. unfold line_height. by rewrite Ep. }
  destruct (Rle_lt_or_eq_dec 0 d Hd) as [Hd'|<-].
  - destruct (C116_part g lx ly lz d h p l Hg Hn Hd' Hl) as (v&->&Hv&H1&H2). destruct (C116_part g lx ly lz d h' p l Hg Hn Hd' Hl) as (v'&->&Hv'&H1'&H2'). exists v, v'. split; [done|]. split; [done|].
    destruct H2 as [->|(c&Hc&->)]; [done|]. apply (Rle_trans _ _ _ (H1' c Hc)). unfold seen_above, high_line, low_line. rewrite !El. fold (low_line g lx ly lz d h p c) (high_line g lx ly lz d h p c).
    pose proof (lines_apart g lx ly lz d h p c Hg Hn Hd' (Hl c Hc)) as Hlt. apply Rle_max_compat_l, Rle_min_compat_l, Rmult_le_compat_r; [|specialize (Hle c Hc); lra]. left. apply Rinv_0_lt_compat. lra.
  - destruct (C116_range g lx ly lz 0 h p l) as (v&E&Hv). destruct (C116_range g lx ly lz 0 h' p l) as (v'&E'&Hv'). exists v, v'. split; [done|]. split; [done|].
    destruct (all_or h (low_line g lx ly lz 0 h p) l) as [HF|HE].
    + rewrite (proj1 (C116_point g lx ly lz h p l Hg Hn Hl)) in E. { injection E as <-. lra. } intros c Hc. by apply HF.
    + destruct HE as (c&Hc&HH). rewrite (proj2 (C116_point g lx ly lz h' p l Hg Hn Hl)) in E'. { injection E' as <-. lra. } exists c. split; [done|]. unfold low_line in *. rewrite El. specialize (Hle c Hc). lra.
Qed.

(** ** The whole grid *)
Lemma put_same b p v w : put b p v w b p = v.
Proof. unfold put. case_decide as H; [done|]. exfalso. by apply H. Qed.
Lemma put_other b p v w b' p' : b' <> b \/ p' <> p -> put b p v w b' p' = w b' p'.
Proof. unfold put. intros H. case_decide as E; [|done]. destruct E as [-> ->]. by destruct H. Qed.
Lemma light_ext g lx ly lz d h h' p l : (forall c, h c = h' c) -> light g lx ly lz d h p l = light g lx ly lz d h' p l.
Proof.
  intros E. unfold light. rewrite (E p). f_equal. f_equal. set (m := Fin 0). clearbody m. revert m. induction l as [|c l IH]; intros m; [done|]. cbn [foldl]. rewrite (E c). apply IH.
Qed.
Lemma update_cells_ok conv g lx ly lz d band ps w : good_geo g -> band <> elevation_max -> NoDup ps -> (forall p, p ∈ ps -> a_cell g p.1 p.2) ->
  exists w', update_cells conv g lx ly lz d band ps w = Ok w' /\
    (forall p, p ∈ ps -> exists l, looked_at (walk_fuel g) conv g lx ly p.1 p.2 = Ok l /\ light g lx ly lz d (w elevation_max) p l = Fin (w' band p)) /\
    (forall b p, b <> band \/ p ∉ ps -> w' b p = w b p).
Proof.
  intros Hg Hb. revert w. induction ps as [|p ps IH]; intros w Hnd Hin. { exists w. split; [done|]. split; [|done]. intros p Hp. by apply elem_of_nil in Hp. }
  apply NoDup_cons in Hnd as [Hp Hnd]. destruct (C115_ends conv g lx ly p.1 p.2 Hg (Hin p (elem_of_list_here _ _))) as (l&El&_).
  destruct (C116_range g lx ly lz d (w elevation_max) p l) as (v&Ev&_).
  destruct (IH (put band p v w) Hnd) as (w'&E&H1&H2). { intros p' Hp'. apply Hin. by right. }
  exists w'. cbn [update_cells]. rewrite El. cbn [obind]. rewrite Ev. split; [exact E|]. split.
  - intros p' Hp'. apply elem_of_cons in Hp' as [->|Hp'].
    + exists l. split; [done|]. rewrite Ev. f_equal. rewrite (H2 band p) by (by right). by rewrite put_same.
    + destruct (H1 p' Hp') as (l'&El'&Ev'). exists l'. split; [done|]. rewrite <-Ev'. apply light_ext. intros c. symmetry. apply put_other. left. by apply not_eq_sym.
  - intros b p' Hbp. rewrite H2; [apply put_other|]; destruct Hbp as [Hbp|Hbp]; auto; right; intros Hq; apply Hbp; subst; [by left|by right].
Qed.
Lemma all_cells_elem g p : p ∈ all_cells g <-> a_cell g p.1 p.2.
Proof.
  unfold all_cells, a_cell. rewrite elem_of_list_bind. split.
  - intros (x&Hp&Hx). apply elem_of_list_fmap in Hp as (y&->&Hy). apply elem_of_seqZ in Hx. apply elem_of_seqZ in Hy. cbn. lia.
  - intros [H1 H2]. exists p.1. split; [|apply elem_of_seqZ; lia]. apply elem_of_list_fmap. exists p.2. split; [by destruct p|apply elem_of_seqZ; lia].
Qed.
Lemma all_cells_NoDup g : NoDup (all_cells g).
Proof.
  unfold all_cells. assert (forall xs : list Z, NoDup xs -> NoDup (x ← xs; (fun y : Z => (x, y)) <$> seqZ 0 (g_ny g) : list pos)) as K; [|apply K, NoDup_seqZ].
  induction xs as [|x xs IH]; intros Hnd; [constructor|]. apply NoDup_cons in Hnd as [Hx Hnd]. cbn [mbind list_bind]. apply NoDup_app. split; [|split; [|by apply IH]].
  - apply NoDup_fmap_2; [|apply NoDup_seqZ]. intros a b E. by injection E.
  - intros p Hp Hp'. apply elem_of_list_fmap in Hp as (y&->&_). apply elem_of_list_bind in Hp' as (x'&Hp'&Hx'). apply elem_of_list_fmap in Hp' as (y'&E&_). injection E as -> ->. done.
Qed.
(** updateAll with an output band other than that of the heights: it ends, every cell gets its light from the heights, and nothing else changes *)
Theorem C116_all conv g lx ly lz d band w : good_geo g -> band <> elevation_max ->
  exists w', update_all conv g lx ly lz d band w = Ok w' /\
    (forall p, a_cell g p.1 p.2 -> exists l, looked_at (walk_fuel g) conv g lx ly p.1 p.2 = Ok l /\ light g lx ly lz d (w elevation_max) p l = Fin (w' band p) /\ 0 <= w' band p <= 1) /\
    (forall b p, b <> band \/ ~ a_cell g p.1 p.2 -> w' b p = w b p).
Proof.
  intros Hg Hb. destruct (update_cells_ok conv g lx ly lz d band (all_cells g) w Hg Hb (all_cells_NoDup g)) as (w'&E&H1&H2). { intros p. apply all_cells_elem. }
  exists w'. split; [exact E|]. split.
  - intros p Hp. destruct (H1 p) as (l&El&Ev). { by apply all_cells_elem. } exists l. split; [done|]. split; [done|]. destruct (C116_range g lx ly lz d (w elevation_max) p l) as (v&Ev'&Hv). rewrite Ev in Ev'. injection Ev' as ->. done.
  - intros b p [Hbp|Hbp]; apply H2; [by left|right]. intros Hq. apply Hbp. by apply all_cells_elem.
Qed.
(** Together with C115: for a light in general position a cell is fully lit only if no cell that the way to the light crosses is higher than the line to the lamp, and it is dark if one of them reaches the line to the upper end. *)
Theorem C116_seen conv g lx ly lz d band w w' p : conv_wraps conv -> good_geo g -> (g_nx g <= half)%Z -> (g_ny g <= half)%Z -> near g lx ly -> a_cell g p.1 p.2 ->
  ~ (ly == snd (from_grid g p.1 p.2))%Q -> ~ in_cell g p.1 p.2 lx ly -> (in_rect g lx ly -> exists c, in_open g c (lx, ly)) ->
  0 <= d -> band <> elevation_max -> update_all conv g lx ly lz d band w = Ok w' ->
  let h := w elevation_max in
  forall c t, a_cell g c.1 c.2 -> c <> p -> ~ in_cell g c.1 c.2 lx ly -> (0 < t)%Q -> (t <= 1)%Q -> in_open g c (on_way g lx ly p.1 p.2 t) ->
    (w' band p = 1 -> h c <= low_line g lx ly lz d h p c) /\ (high_line g lx ly lz d h p c < h c -> w' band p = 0).
Proof.
  intros Hc Hg HX HY Hn Hp Hdy Hown Hopen Hd Hb Hu h c t Hca Hcp Hcl Ht Ht1 Hct.
  destruct (C116_all conv g lx ly lz d band w Hg Hb) as (w0&E&H1&_). rewrite Hu in E. injection E as <-. destruct (H1 p Hp) as (l&El&Ev&_).
  destruct (C115_walk conv g lx ly p.1 p.2 Hc Hg HX HY Hn Hp Hdy Hown Hopen) as (l'&El'&_&_&Hall). rewrite El in El'. injection El' as <-.
  assert (c ∈ l) as Hcl2. { apply (Hall c t); try done. by destruct p. }
  assert (forall c, c ∈ l -> c <> p) as Hl. { destruct (C115_ends conv g lx ly p.1 p.2 Hg Hp) as (l'&El'&Hne). rewrite El in El'. injection El' as <-. intros c' Hc'. destruct (Hne c' Hc') as (_&Hx&_). by destruct p. }
  assert (0 < light_dist g lx ly p) as Hpos. { apply norm_pos. right. intros H. apply Hdy. rewrite <-(Qplus_0_l (snd (from_grid g p.1 p.2))), <-H. ring. }
  split.
  - intros E1. rewrite E1 in Ev. by apply (proj1 (C116_full g lx ly lz d h p l Hg Hpos Hd Hl) Ev).
  - intros HH. assert (light g lx ly lz d h p l = Fin 0) as E0. { apply (C116_dark g lx ly lz d h p l Hg Hpos Hd Hl). exists c. split; [done|]. destruct (Req_EM_T d 0); lra. }
    unfold h in E0. rewrite Ev in E0. by injection E0.
Qed.

(** ** Examples *)
Lemma norm_vertical y : norm 0 y = Rabs (Q2R y).
Proof. unfold norm. replace (Q2R 0) with 0 by (unfold Q2R; cbn; lra). rewrite Rmult_0_l, Rplus_0_l. apply sqrt_Rsqr_abs. Qed.
Lemma norm_same x y x' y' : (x == x')%Q -> (y == y')%Q -> norm x y = norm x' y'.
Proof. intros Hx Hy. unfold norm. by rewrite (Qeq_eqR _ _ Hx), (Qeq_eqR _ _ Hy). Qed.
Lemma small_geo nx ny : (0 <= nx < 100)%Z -> (0 <= ny < 100)%Z -> good_geo (Geo nx ny 1 1 0 0).
Proof. intros Hx Hy. unfold good_geo, size_end. cbn. split; [done|]. split; [done|]. split; lia. Qed.
(** one column of three cells, the lamp at height 2 with extent 2 above (1/2, -3/2); the middle cell has height 1/2, the others 0. Half of the lamp is seen from the last cell, above the middle one. *)
Definition col : geo := Geo 1 3 1 1 0 0.
Definition col_h (p : pos) : R := if decide (p = (0, 1)%Z) then / 2 else 0.
Lemma col_light : light_dist col (1 # 2) (-(3 # 2)) (0, 2)%Z = 4.
Proof. unfold light_dist. rewrite (norm_same _ _ 0 (-4 # 1)%Q) by reflexivity. rewrite norm_vertical. unfold Q2R. cbn. rewrite Rabs_left; lra. Qed.
Lemma col_dist y : (y = 0 \/ y = 1)%Z -> dist col (0, 2)%Z (0, y)%Z = 2 - IZR y.
Proof.
  unfold dist. intros [->| ->].
  - rewrite (norm_same _ _ 0 (-2 # 1)%Q) by reflexivity. rewrite norm_vertical. unfold Q2R. cbn. rewrite Rabs_left; lra.
  - rewrite (norm_same _ _ 0 (-1 # 1)%Q) by reflexivity. rewrite norm_vertical. unfold Q2R. cbn. rewrite Rabs_left; lra.
Qed.
Lemma col_good : good_geo col.
Proof. by apply small_geo. Qed.
Example C116_nonvacuous :
  good_geo col /\ (let l := [(0, 1); (0, 0)]%Z in
   looked_at (walk_fuel col) to_size col (1 # 2) (-(3 # 2)) 0 2 = Ok l /\ 0 < light_dist col (1 # 2) (-(3 # 2)) (0, 2)%Z /\ (forall c, c ∈ l -> c <> (0, 2)%Z) /\
   low_line col (1 # 2) (-(3 # 2)) 2 2 col_h (0, 2)%Z (0, 1)%Z = / 4 /\ high_line col (1 # 2) (-(3 # 2)) 2 2 col_h (0, 2)%Z (0, 1)%Z = 3 / 4 /\ col_h (0, 1)%Z = / 2 /\
   light col (1 # 2) (-(3 # 2)) 2 2 col_h (0, 2)%Z l = Fin (/ 2)).
Proof.
  split; [exact col_good|]. cbn zeta. set (l := [(0, 1); (0, 0)]%Z).
  assert (Hl : forall c, c ∈ l -> c <> (0, 2)%Z). { intros c Hc. unfold l in Hc. rewrite !elem_of_cons, elem_of_nil in Hc. by destruct Hc as [->|[->|[]]]. }
  split; [vm_compute; reflexivity|]. rewrite col_light. split; [lra|]. split; [exact Hl|].
  assert (H2 : col_h (0, 2)%Z = 0) by done. assert (H1 : col_h (0, 1)%Z = / 2) by done. assert (H0 : col_h (0, 0)%Z = 0) by done.
  assert (E1 : low_line col (1 # 2) (-(3 # 2)) 2 2 col_h (0, 2)%Z (0, 1)%Z = / 4). { unfold low_line, line_height. rewrite col_light, col_dist, H2 by auto. lra. }
  assert (E2 : high_line col (1 # 2) (-(3 # 2)) 2 2 col_h (0, 2)%Z (0, 1)%Z = 3 / 4). { unfold high_line, line_height. rewrite col_light, col_dist, H2 by auto. lra. }
  assert (E3 : low_line col (1 # 2) (-(3 # 2)) 2 2 col_h (0, 2)%Z (0, 0)%Z = / 2). { unfold low_line, line_height. rewrite col_light, col_dist, H2 by auto. lra. }
  assert (E4 : high_line col (1 # 2) (-(3 # 2)) 2 2 col_h (0, 2)%Z (0, 0)%Z = 3 / 2). { unfold high_line, line_height. rewrite col_light, col_dist, H2 by auto. lra. }
  split; [exact E1|]. split; [exact E2|]. split; [exact H1|].
  assert (S1 : seen_above col (1 # 2) (-(3 # 2)) 2 2 col_h (0, 2)%Z (0, 1)%Z = / 2). { unfold seen_above. rewrite E1, E2, H1. replace ((3 / 4 - / 2) / (3 / 4 - / 4)) with (/ 2) by lra. rewrite Rmin_right, Rmax_right by lra. done. }
  assert (S0 : seen_above col (1 # 2) (-(3 # 2)) 2 2 col_h (0, 2)%Z (0, 0)%Z = 1). { unfold seen_above. rewrite E3, E4, H0. replace ((3 / 2 - 0) / (3 / 2 - / 2)) with (3 / 2) by lra. rewrite Rmin_left, Rmax_right by lra. done. }
  destruct (C116_part col (1 # 2) (-(3 # 2)) 2 2 col_h (0, 2)%Z l col_good) as (v&->&_&Hle&Hv); [rewrite col_light; lra|lra|exact Hl|].
  specialize (Hle (0, 1)%Z (elem_of_list_here _ _)). rewrite S1 in Hle. f_equal. destruct Hv as [->|(c&Hc&->)]; [lra|]. unfold l in Hc. rewrite !elem_of_cons, elem_of_nil in Hc. destruct Hc as [->|[->|[]]]; [done|]. rewrite S0 in Hle. lra.
Qed.
(** A wall between a cell and a light in the same row of centres: the cell counts as fully lit. *)
Definition row_h (p : pos) : R := if decide (p = (1, 1)%Z) then 100 else 0.
Theorem C116_row_refuted : exists conv g lx ly lz h p c l, conv_wraps conv /\ good_geo g /\ a_cell g p.1 p.2 /\ a_cell g c.1 c.2 /\ c <> p /\ ~ in_cell g c.1 c.2 lx ly /\
  in_open g c (on_way g lx ly p.1 p.2 (1 # 2)) /\ high_line g lx ly lz 0 h p c < h c /\ looked_at (walk_fuel g) conv g lx ly p.1 p.2 = Ok l /\ light g lx ly lz 0 h p l = Fin 1.
Proof.
  exists to_size, (Geo 3 3 1 1 0 0), (5 # 2)%Q, (3 # 2)%Q, 1, row_h, (0, 1)%Z, (1, 1)%Z, [(0, 0)%Z].
  split; [exact to_size_wraps|]. split; [by apply small_geo|]. split; [unfold a_cell; cbn; lia|]. split; [unfold a_cell; cbn; lia|]. split; [done|].
  split. { unfold in_cell. cbn. intros (_&H&_). revert H. by vm_compute. } split. { unfold in_open. repeat split; by vm_compute. }
  set (g := Geo 3 3 1 1 0 0).
  assert (Hx : forall x, norm x 0 = Rabs (Q2R x)). { intros x. unfold norm. replace (Q2R 0) with 0 by (unfold Q2R; cbn; lra). rewrite Rmult_0_l, Rplus_0_r. apply sqrt_Rsqr_abs. }
  assert (E1 : light_dist g (5 # 2) (3 # 2) (0, 1)%Z = 2). { unfold light_dist. rewrite (norm_same _ _ 2%Q 0%Q) by reflexivity. rewrite Hx. unfold Q2R. cbn. rewrite Rabs_right; lra. }
  assert (E2 : dist g (0, 1)%Z (1, 1)%Z = 1). { unfold dist. rewrite (norm_same _ _ 1%Q 0%Q) by reflexivity. rewrite Hx. unfold Q2R. cbn. rewrite Rabs_right; lra. }
  split. { unfold high_line, line_height. rewrite E1, E2. change (row_h (0, 1)%Z) with 0. change (row_h (1, 1)%Z) with 100. lra. }
  split; [vm_compute; reflexivity|]. apply (C116_point g); [by apply small_geo|rewrite E1; lra| |].
  - intros c Hc. apply elem_of_list_singleton in Hc as ->. done.
  - intros c Hc. apply elem_of_list_singleton in Hc as ->. unfold low_line, line_height. rewrite E1. change (row_h (0, 1)%Z) with 0. change (row_h (0, 0)%Z) with 0.
    assert (0 <= dist g (0, 1)%Z (0, 0)%Z) by apply norm_nonneg. lra.
Qed.
(** With the band of the heights as output the light of a cell is computed from lights instead of heights: on flat ground a cell counts as dark. *)
Theorem C116_band_refuted : exists conv g lx ly lz w w' p l, conv_wraps conv /\ good_geo g /\ a_cell g p.1 p.2 /\ (forall c, w elevation_max c = 0) /\
  update_all conv g lx ly lz 0 elevation_max w = Ok w' /\ looked_at (walk_fuel g) conv g lx ly p.1 p.2 = Ok l /\ light g lx ly lz 0 (w elevation_max) p l = Fin 1 /\ w' elevation_max p = 0.
Proof.
  set (g := Geo 1 2 1 1 0 0). set (w := (fun _ _ => 0) : bands). 
  assert (Hg : good_geo g) by (by apply small_geo).
  assert (EL : light_dist g (1 # 2) (-(5 # 2)) (0, 1)%Z = 4). { unfold light_dist. rewrite (norm_same _ _ 0 (-4 # 1)%Q) by reflexivity. rewrite norm_vertical. unfold Q2R. cbn. rewrite Rabs_left; lra. }
  assert (EL0 : light_dist g (1 # 2) (-(5 # 2)) (0, 0)%Z = 3). { unfold light_dist. rewrite (norm_same _ _ 0 (-3 # 1)%Q) by reflexivity. rewrite norm_vertical. unfold Q2R. cbn. rewrite Rabs_left; lra. }
  assert (ED : dist g (0, 1)%Z (0, 0)%Z = 1). { unfold dist. rewrite (norm_same _ _ 0 (-1 # 1)%Q) by reflexivity. rewrite norm_vertical. unfold Q2R. cbn. rewrite Rabs_left; lra. }
  assert (L0 : looked_at (walk_fuel g) to_size g (1 # 2) (-(5 # 2)) 0 0 = Ok []) by (vm_compute; reflexivity).
  assert (L1 : looked_at (walk_fuel g) to_size g (1 # 2) (-(5 # 2)) 0 1 = Ok [(0, 0)%Z]) by (vm_compute; reflexivity).
  assert (V0 : forall h, light g (1 # 2) (-(5 # 2)) 1 0 h (0, 0)%Z [] = Fin 1). { intros h. apply (C116_point g); [done|rewrite EL0; lra| |]; intros c Hc; by apply elem_of_nil in Hc. }
  assert (Hl : forall c, c ∈ [(0, 0)%Z] -> c <> (0, 1)%Z). { intros c Hc. by apply elem_of_list_singleton in Hc as ->. }
  exists to_size, g, (1 # 2)%Q, (-(5 # 2))%Q, 1, w, (put elevation_max (0, 1)%Z 0 (put elevation_max (0, 0)%Z 1 w)), (0, 1)%Z, [(0, 0)%Z].
  split; [exact to_size_wraps|]. split; [done|]. split; [unfold a_cell; cbn; lia|]. split; [done|]. split; [|split; [exact L1|split]].
  - unfold update_all. change (all_cells g) with [(0, 0); (0, 1)]%Z. cbn [update_cells fst snd]. rewrite L0. cbn [obind]. rewrite V0, L1. cbn [obind].
    rewrite (proj2 (C116_point g (1 # 2) (-(5 # 2)) 1 _ (0, 1)%Z [(0, 0)%Z] Hg ltac:(rewrite EL; lra) Hl)); [done|].
    exists (0, 0)%Z. split; [by left|]. unfold low_line, line_height. rewrite EL, ED, put_same, put_other by (right; done). unfold w. lra.
  - apply (C116_point g); [done|rewrite EL; lra|done|]. intros c Hc. apply elem_of_list_singleton in Hc as ->. unfold low_line, line_height. rewrite EL, ED. unfold w. lra.
  - by rewrite put_same.
Qed.
