(** Free space between the sensor and the surface (C140): src/operators/MLSProjection.cpp:52-175 with negative information.

    Simplifications as in MlsProj.v. The fields of a patch are Qc numbers, so that equal numbers are equal; [norm] stands for the length of a vector in the plane, which may be irrational. *)
From stdpp Require Import prelude gmap.
From Coq Require Import ZArith QArith Qcanon Lia Lqa Field.
From Verif Require Import Base Bresenham GridModel GridProps Transform MlsModel MlsProps MlsUpdate MlsProj.
From Verif Require ListGrid ListGridProps Access Cloud.
Local Open Scope Z_scope.

Notation qz z := (Q2Qc (inject_Z z)).
Definition qcabs (q : Qc) : Qc := if Qclt_le_dec q 0 then (- q)%Qc else q.

(** ** Model *)
Section model.
  Context {P D : Type} (merge : P -> P -> bool * P * P) (conv : Z -> Z) (mk : Q -> D -> P).
  (** the fields of a patch, and SurfacePatch( mean, stdev, height, NEGATIVE ) *)
  Context (mean dev height : P -> Qc) (negative : Qc -> Qc -> Qc -> P) (norm : Qc -> Qc -> Qc).

  (** MLSProjection.cpp:151-155; [c]: the cell of the patch, [o]: that of the origin, [a]: one on the line *)
  Definition factor (c o a : pos) : Qc :=
    let xdiff := fst c - fst o in let ydiff := snd c - snd o in
    if decide (Z.abs ydiff <= Z.abs xdiff /\ xdiff <> 0) then (qz (fst a - fst o) / qz xdiff)%Qc
    else if decide (ydiff <> 0) then (qz (snd a - snd o) / qz ydiff)%Qc else 1%Qc.
  (** MLSProjection.cpp:127-140: [plane_dist], and by how much the height changes over one cell *)
  Definition plane_dist (g : geo) (c o : pos) : Qc :=
    let p := from_grid g (fst o) (snd o) in let q := from_grid g (fst c) (snd c) in norm (Q2Qc (fst p) - Q2Qc (fst q))%Qc (Q2Qc (snd p) - Q2Qc (snd q))%Qc.
  Definition drop (g : geo) (c o : pos) (oz : Qc) (p : P) : Qc :=
    let d := plane_dist g c o in let z := (oz - mean p)%Qc in
    if decide ((d * z)%Qc = 0%Qc) then 0%Qc else (Q2Qc (g_sx g) / d * z)%Qc.
  (** MLSProjection.cpp:142-168: the cells and patches for updateCell *)
  Definition free_updates (fuel : nat) (g : geo) (o : pos) (oz : Qc) (c : pos) (p : P) : out unit (list (pos * P)) :=
    line <~ line_bresenham fuel c o [] ;;
    let h := drop g c o oz p in let z := (oz - mean p)%Qc in
    Ok (omap (fun a => let f := factor c o a in
                       let np := negative (mean p + h * f + z * (1 - f))%Qc (dev p * f)%Qc (qcabs ((height p + h) * f)) in
                       if Qclt_le_dec f 1 then Some (a, np) else None) line).
  Definition add_free (fuel : nat) (g : geo) (o : pos) (oz : Qc) (c : pos) (p : P) (s : mls P) : out (mls P) (mls P) :=
    match free_updates fuel g o oz c p with
    | Ok us => iter_out (fun u s => cell_put merge (fst u.1) (snd u.1) u.2 s) us s
    | Throw _ => Throw s | Bad e => Bad e | NoFuel => NoFuel
    end.
  (** the positions of a std::set< Position > in its order (GridBase.hpp:40-50) *)
  Definition in_order (w h : nat) (i : gset (nat * nat)) : list (nat * nat) := filter (fun xy => xy ∈ i) (ListGrid.coords w h).
  Definition zpos (xy : nat * nat) : pos := (Z.of_nat xy.1, Z.of_nat xy.2).
  (** MLSProjection.cpp:52-172 with m_negativeInformation; [origin]: the position of the sensor in the frame of the grid. For an empty grid, the loop is over the index of the grid that is
      updated: a position that is inserted behind the current one is visited as well. No update is one of the cell that the loop is at, so that its patches can be smeared first. *)
  Definition project_free (fuel : nat) (smear : nat -> nat -> P -> P) (g : geo) (T : aff) (area : option Cloud.box) (pts : list (vec * D)) (origin : vec) (s : mls P) : out (mls P) (mls P) :=
    if decide (m_count s = 0) then
      s1 <~ project merge conv mk g T area pts (init_index s) ;;
      match to_grid conv g (this (vx origin)) (this (vy origin)) with
      | None => Throw s1
      | Some (ox, oy, _, _) =>
        iter_out (fun xy s =>
          match m_index s with
          | None => Bad UB
          | Some i => if decide (xy ∈ i) then
              let l := smear xy.1 xy.2 <$> m_cell s xy.1 xy.2 in
              iter_out (fun p s => add_free fuel g (ox, oy) (vz origin) (zpos xy) p s) l (with_cell xy.1 xy.2 l s)
            else Ok s
          end) (ListGrid.coords (m_w s) (m_h s)) s1
      end
    else
      match project merge conv mk g T area pts (init_index (new_mls (m_w s) (m_h s))) with
      | Ok s1 =>
        match to_grid conv g (this (vx origin)) (this (vy origin)) with
        | None => Throw s
        | Some (ox, oy, _, _) =>
          match m_index s1 with
          | None => Bad UB
          | Some i => iter_out (fun xy s => iter_out (fun p s =>
              s <~ cell_put merge (Z.of_nat xy.1) (Z.of_nat xy.2) (smear xy.1 xy.2 p) s ;;
              add_free fuel g (ox, oy) (vz origin) (zpos xy) (smear xy.1 xy.2 p) s) (m_cell s1 xy.1 xy.2) s) (in_order (m_w s) (m_h s) i) s
          end
        end
      | Throw _ => Throw s | Bad e => Bad e | NoFuel => NoFuel
      end.

  (** ** Specification *)
  (** the free space at the [k]-th of [n] cells of the way from a patch to the sensor: the fraction (n - k) / n of the way from the sensor to the patch; its upper end is on the line from the
      sensor to the mean of the patch, raised by [h] *)
  Definition fraction (n k : nat) : Qc := (qz (Z.of_nat n - Z.of_nat k) / qz (Z.of_nat n))%Qc.
  Definition wedge (oz h : Qc) (p : P) (f : Qc) : P := negative (f * (mean p + h) + (1 - f) * oz)%Qc (f * dev p)%Qc (qcabs (f * (height p + h))).
  (** by how much the line from the patch to the sensor rises over the width of a cell: the two are as far apart as the centres of their cells *)
  Definition rise (g : geo) (c o : pos) (oz : Qc) (p : P) : Qc :=
    let d := norm (qz (fst o - fst c) * Q2Qc (g_sx g))%Qc (qz (snd o - snd c) * Q2Qc (g_sy g))%Qc in
    if decide (d = 0%Qc) then 0%Qc else ((oz - mean p) * Q2Qc (g_sx g) / d)%Qc.
  (** the patches for the cells of the line [L] but the first one, in that order *)
  Definition freed (g : geo) (o : pos) (oz : Qc) (c : pos) (p : P) (L : list pos) : list (pos * P) :=
    imap (fun k a => (a, wedge oz (rise g c o oz p) p (fraction (length L - 1) (S k)))) (tail L).
  Definition at_cell (x y : nat) (us : list (pos * P)) : list P := u ← us; if decide (u.1 = zpos (x, y)) then [u.2] else [].
End model.

(** ** The fraction of the way *)
Lemma qz_ne z : z <> 0 -> qz z <> 0%Qc.
Proof. intros Hz H. apply (f_equal this) in H. cbn in H. assert (E : (inject_Z z == 0)%Q) by (rewrite <-(Qred_correct (inject_Z z)), H; reflexivity). unfold Qeq in E. cbn in E. lia. Qed.
Lemma qz_opp z : qz (- z) = (- qz z)%Qc.
Proof. apply Qc_is_canon. cbn. rewrite !Qred_correct. reflexivity. Qed.
Lemma qz_sub a b : qz (a - b) = (qz a - qz b)%Qc.
Proof. apply Qc_is_canon. cbn. rewrite !Qred_correct. unfold Z.sub. rewrite inject_Z_plus, inject_Z_opp. reflexivity. Qed.
Lemma qz_lt a b : a < b -> (qz a < qz b)%Qc.
Proof. intros H. unfold Qclt. cbn. rewrite !Qred_correct. by rewrite <-Zlt_Qlt. Qed.
Lemma factor_line c o L k a : straight c o L -> L !! k = Some a -> (1 < length L)%nat -> factor c o a = fraction (length L - 1) k.
Proof.
  intros HS Hk Hn. pose proof (st_length _ _ _ HS) as HL. unfold span in HL.
  assert (H0 : L !! 0%nat = Some c) by (rewrite <-head_lookup; apply (st_first _ _ _ HS)).
  assert (HX : Z.abs (snd o - snd c) <= Z.abs (fst o - fst c) -> fst a = fst c + Z.of_nat k * Z.sgn (fst o - fst c)).
  { intros HA. revert a Hk. induction k as [|k IH]; intros a Hk; [pose proof (eq_trans (eq_sym H0) Hk) as E0; injection E0 as <-; lia|]. destruct (lookup_lt_is_Some_2 L k) as [b Hb]; [apply lookup_lt_Some in Hk; unfold pos in *; lia|].
    pose proof (st_step _ _ _ HS k b a Hb Hk) as (H1&_). specialize (H1 HA). specialize (IH b Hb). rewrite Nat2Z.inj_succ, Z.mul_succ_l. unfold pos in *. lia. }
  assert (HY : Z.abs (fst o - fst c) < Z.abs (snd o - snd c) -> snd a = snd c + Z.of_nat k * Z.sgn (snd o - snd c)).
  { intros HA. revert a Hk HX. induction k as [|k IH]; intros a Hk HX; [pose proof (eq_trans (eq_sym H0) Hk) as E0; injection E0 as <-; lia|]. destruct (lookup_lt_is_Some_2 L k) as [b Hb]; [apply lookup_lt_Some in Hk; unfold pos in *; lia|].
    pose proof (st_step _ _ _ HS k b a Hb Hk) as (_&H1&_). specialize (H1 HA). specialize (IH b Hb ltac:(unfold pos in *; lia)). rewrite Nat2Z.inj_succ, Z.mul_succ_l. unfold pos in *. lia. }
  assert (HQ : forall d m j : Z, 0 < m -> d = m \/ d = - m -> forall e, e = j * Z.sgn d -> (qz e / qz d = qz j / qz m)%Qc).
  { intros d m j Hm [->| ->] e ->.
    - rewrite Z.sgn_pos, Z.mul_1_r by lia. done.
    - rewrite Z.sgn_neg by lia. replace (j * -1) with (- j) by lia. rewrite !qz_opp. pose proof (qz_ne m ltac:(lia)). field. split; [done|]. intros E. apply H. rewrite <-(Qcopp_involutive (qz m)), E. reflexivity. }
  unfold factor, fraction. destruct (decide (Z.abs (snd c - snd o) <= Z.abs (fst c - fst o) /\ fst c - fst o <> 0)) as [[H1 H2]|Hno].
  - specialize (HX ltac:(unfold pos in *; lia)). apply HQ; [lia|unfold pos in *; lia|]. unfold pos in *. nia.
  - assert (HA : Z.abs (fst o - fst c) < Z.abs (snd o - snd c)) by (unfold pos in *; lia). specialize (HY HA). rewrite decide_True by (unfold pos in *; lia). apply HQ; [lia|unfold pos in *; lia|]. unfold pos in *. nia.
Qed.
Lemma fraction_lt n k : (0 < n)%nat -> (0 < k)%nat -> (fraction n k < 1)%Qc.
Proof.
  intros Hn Hk. unfold fraction. assert (Hp : (0 < qz (Z.of_nat n))%Qc) by (apply (qz_lt 0); lia).
  destruct (Qclt_le_dec (qz (Z.of_nat n - Z.of_nat k) / qz (Z.of_nat n)) 1) as [|H]; [done|]. exfalso. apply (Qcmult_le_compat_r _ _ (qz (Z.of_nat n))) in H; [|by apply Qclt_le_weak].
  unfold Qcdiv in H. rewrite <-Qcmult_assoc, (Qcmult_comm (/ _)%Qc), Qcmult_inv_r in H by (by apply qz_ne; lia). rewrite Qcmult_1_l, Qcmult_1_r in H. apply (Qcle_not_lt _ _ H). apply qz_lt. lia.
Qed.
Lemma fraction_0 n : (0 < n)%nat -> fraction n 0 = 1%Qc.
Proof. intros Hn. unfold fraction. rewrite Z.sub_0_r. apply Qcmult_inv_r. apply qz_ne. lia. Qed.
Lemma omap_imap {A B} (f : A -> option B) (h : nat -> A -> B) l : (forall k a, l !! k = Some a -> f a = Some (h k a)) -> omap f l = imap h l.
Proof.
  revert h. induction l as [|a l IH]; intros h H; [done|]. cbn [omap list_omap imap]. rewrite (H 0%nat a) by done. f_equal. apply (IH (fun k => h (S k))). intros k b Hb. by apply (H (S k)).
Qed.

Section proofs.
  Context {P D : Type} (merge : P -> P -> bool * P * P) (conv : Z -> Z) (mk : Q -> D -> P).
  Context (mean dev height : P -> Qc) (negative : Qc -> Qc -> Qc -> P) (norm : Qc -> Qc -> Qc).
  Notation freed := (freed mean dev height negative norm).
  Notation free_updates := (free_updates mean dev height negative norm).

  Lemma plane_dist_eq g c o : plane_dist norm g c o = norm (qz (fst o - fst c) * Q2Qc (g_sx g))%Qc (qz (snd o - snd c) * Q2Qc (g_sy g))%Qc.
  Proof using Type.
    unfold plane_dist, from_grid. cbn [fst snd]. f_equal; apply Qc_is_canon; unfold qz; cbn [this Q2Qc Qcminus Qcplus Qcopp Qcmult]; rewrite ?Qred_correct; unfold Z.sub; rewrite inject_Z_plus, inject_Z_opp; ring.
  Qed.
  Lemma drop_rise g c o oz p : drop mean norm g c o oz p = rise mean norm g c o oz p.
  Proof using Type.
    unfold drop, rise. cbv zeta. rewrite <-plane_dist_eq. set (d := plane_dist norm g c o). destruct (decide (d = 0%Qc)) as [Hd|Hd].
    - rewrite Hd. rewrite decide_True by ring. done.
    - destruct (decide ((d * (oz - mean p))%Qc = 0%Qc)) as [E|E].
      + apply Qcmult_integral in E as [E|E]; [done|]. rewrite E. field. done.
      + field. done.
  Qed.
  (** ** C140 *)
  (** The way from a patch to the sensor: a straight line of cells, from the cell of the patch to that of the sensor; each of its cells but the first one gets one free patch. *)
  Theorem C140_beam g o c : 0 <= fst c -> 0 <= snd c -> 0 <= fst o -> 0 <= snd o -> Z.max (Z.max (fst c) (snd c)) (Z.max (fst o) (snd o)) <= 715827882 ->
    exists L, straight c o L /\ forall oz p fuel, (length L < fuel)%nat -> free_updates fuel g o oz c p = Ok (freed g o oz c p L).
  Proof using Type.
    intros H1 H2 H3 H4 H5. destruct (C33_positions c o [] H1 H2 H3 H4 H5) as (L&HL&HS). exists L. split; [done|]. intros oz p fuel Hf. unfold FreeSpace.free_updates. rewrite (HL fuel Hf). cbn [obind app].
    f_equal. rewrite drop_rise. set (h := rise mean norm g c o oz p). pose proof (st_first _ _ _ HS) as H0. destruct L as [|a0 L']; [done|]. cbn in H0. injection H0 as ->. unfold FreeSpace.freed. fold h. cbn [tail].
    destruct L' as [|a1 L'].
    - cbn [omap list_omap imap]. pose proof (st_last _ _ _ HS) as Hl. cbn in Hl. injection Hl as <-. unfold factor. rewrite !decide_False by (unfold pos in *; lia). destruct (Qclt_le_dec 1 1) as [Hx|]; [by apply Qclt_not_eq in Hx|done].
    - assert (Hn : (1 < length (c :: a1 :: L'))%nat) by (cbn; lia). set (n := (length (c :: a1 :: L') - 1)%nat). assert (Hn0 : (0 < n)%nat) by (unfold n; cbn; lia).
      set (M := a1 :: L') in *. change (omap ?F (c :: M)) with (match F c with Some y => y :: omap F M | None => omap F M end). cbv beta zeta.
      rewrite (factor_line c o (c :: M) 0 c HS eq_refl Hn). fold n. rewrite (fraction_0 n Hn0). destruct (Qclt_le_dec 1 1) as [Hx|_]; [by apply Qclt_not_eq in Hx|].
      apply omap_imap. intros k a Hk. cbv beta zeta. rewrite (factor_line c o (c :: M) (S k) a HS Hk Hn). fold n. destruct (Qclt_le_dec (fraction n (S k)) 1) as [_|Hx]; [|exfalso; apply (Qcle_not_lt _ _ Hx), fraction_lt; [done|lia]].
      do 2 f_equal. unfold wedge. match goal with |- _ = negative (fraction ?m _ * _ + _)%Qc _ _ => change m with n end. f_equal; [ring|ring|f_equal; ring].
  Qed.
  (** The free patches of one way are put into the cells. *)
  Notation put_all := (iter_out (fun (u : pos * P) s => cell_put merge (fst u.1) (snd u.1) u.2 s)).
  Lemma puts_free g o c : a_cell g (fst c) (snd c) -> a_cell g (fst o) (snd o) -> g_nx g <= 715827882 -> g_ny g <= 715827882 ->
    exists L, straight c o L /\ (forall oz p fuel s, (Z.to_nat (Z.max (g_nx g) (g_ny g)) < fuel)%nat -> add_free merge mean dev height negative norm fuel g o oz c p s = put_all (freed g o oz c p L) s) /\
      forall oz p, puts merge g (put_all (freed g o oz c p L)) (fun x y => at_cell x y (freed g o oz c p L)).
  Proof using Type.
    intros [C1 C2] [O1 O2] HX HY. destruct (C140_beam g o c) as (L&HS&HL); try lia. exists L. split; [done|]. split.
    - intros oz p fuel s Hf. assert (HLen : (length L < fuel)%nat) by (pose proof (st_length _ _ _ HS) as HS'; unfold span in HS'; lia). unfold add_free. by rewrite (HL oz p fuel HLen).
    - intros oz p. eapply puts_ext.
      + apply puts_iter with (h := fun (u : pos * P) x y => if decide (Z.of_nat x = fst u.1 /\ Z.of_nat y = snd u.1) then [u.2] else []). intros u Hu. apply puts_cell.
        unfold FreeSpace.freed in Hu. apply elem_of_lookup_imap in Hu as (k&a&->&Ha). cbn [fst]. destruct (st_box _ _ _ HS a) as [B1 B2]; [destruct L as [|b L']; [done|]; cbn [tail] in Ha; right; by eapply elem_of_list_lookup_2|]. split; lia.
      + intros x y _. unfold at_cell. apply list_bind_ext; [|done]. intros [[ux uy] q]. cbn [fst snd]. unfold zpos. cbn [fst snd]. destruct (decide (Z.of_nat x = ux /\ Z.of_nat y = uy)) as [[<- <-]|Hne]; [by rewrite decide_True|]. rewrite decide_False; [done|]. intros [= -> ->]. by apply Hne.
  Qed.
  Lemma iter_out_ext {A S'} (f f' : A -> S' -> out S' S') l : (forall a s, a ∈ l -> f a s = f' a s) -> forall s, iter_out f l s = iter_out f' l s.
  Proof using Type.
    intros H. induction l as [|a l IH]; intros s; [done|]. cbn [iter_out]. rewrite H by left. destruct (f' a s) as [s1| | |]; cbn [obind]; [|done|done|done]. apply IH. intros b s2 Hb. apply H. by right.
  Qed.
  Lemma puts_then g f1 f2 h1 h2 : puts merge g f1 h1 -> puts merge g f2 h2 -> puts merge g (fun s => s <~ f1 s ;; f2 s) (fun x y => h1 x y ++ h2 x y).
  Proof using Type.
    intros H1 H2 s Hs. destruct (H1 s Hs) as (s1&E1&F1&C1). destruct (H2 s1 F1) as (s2&E2&F2&C2). exists s2. rewrite E1. cbn [obind]. split; [done|]. split; [done|]. intros x y Hx Hy. rewrite cell_run_app, C1 by done. cbn [mbind option_bind]. apply C2; destruct Hs, F1; lia.
  Qed.
  Lemma choose_lines {A B} (Q : A -> Prop) `{!forall a, Decision (Q a)} (R : A -> B -> Prop) (d : B) (l : list A) `{!EqDecision A} : (forall a, Q a -> a ∈ l) -> (forall a, Q a -> exists b, R a b) -> exists f, forall a, Q a -> R a (f a).
  Proof using Type.
    intros Hl HR. assert (HCH : forall l' : list A, exists f : A -> B, forall a, Q a -> a ∈ l' -> R a (f a)).
    { induction l' as [|a l' [f IH]]; [exists (fun _ => d); intros a _ Ha; by apply elem_of_nil in Ha|]. destruct (decide (Q a)) as [Ha|Ha].
      - destruct (HR a Ha) as [b Hb]. exists (fun a' => if decide (a' = a) then b else f a'). intros a' Ha' Hin. destruct (decide (a' = a)) as [->|Hne]; [done|]. apply elem_of_cons in Hin as [?|?]; [done|by apply IH].
      - exists f. intros a' Ha' [->|?]%elem_of_cons; [done|by apply IH]. }
    destruct (HCH l) as [f Hf]. exists f. intros a Ha. apply Hf; [done|by apply Hl].
  Qed.
  (** A grid with patches: the points are gathered in an empty grid; of each cell of that grid, in the order of the cells, each patch is put into the cell, with its new deviation, and then one free patch into
      each other cell on the way to the sensor. *)
  Theorem C140_filled smear g T area pts origin s : conv_wraps conv -> Access.usable g -> g_nx g <= 715827882 -> g_ny g <= 715827882 -> (forall p, p ∈ pts -> close_to g (aapp T p.1)) ->
    in_rect g (this (vx origin)) (this (vy origin)) -> fits g s -> m_count s <> 0 ->
    exists (temp : nat -> nat -> list P) (o : pos) (lines : nat * nat -> list pos) s',
      (forall x y, (x < m_w s)%nat -> (y < m_h s)%nat -> cell_run merge [] ((fun p => mk (this (vz (aapp T p.1))) p.2) <$> filter (fun p => in_area area (aapp T p.1) /\ above g x y (aapp T p.1)) pts) = Some (temp x y)) /\
      in_cell g (fst o) (snd o) (this (vx origin)) (this (vy origin)) /\
      (forall xy, xy ∈ ListGrid.coords (m_w s) (m_h s) -> straight (zpos xy) o (lines xy)) /\
      (exists n, forall fuel, (n <= fuel)%nat -> project_free merge conv mk mean dev height negative norm fuel smear g T area pts origin s = Ok s') /\
      forall x y, (x < m_w s)%nat -> (y < m_h s)%nat ->
        cell_run merge (m_cell s x y) (xy ← ListGrid.coords (m_w s) (m_h s); p ← smear xy.1 xy.2 <$> temp xy.1 xy.2;
          (if decide ((x, y) = xy) then [p] else []) ++ at_cell x y (freed g o (vz origin) (zpos xy) p (lines xy))) = Some (m_cell s' x y).
  Proof using Type.
    intros HC HU HX HY HN HI Hf Hc. pose proof HU as (Hg&_). pose proof Hf as [Fw Fh].
    destruct (C31_inside conv g _ _ (proj1 HC) Hg HI) as (ox&oy&xm&ym&Ht&Ho&Hoc&_). set (o := (ox, oy) : pos).
    pose proof (C87_project merge conv mk g T area pts HC HU HN) as HP. set (t := new_mls (m_w s) (m_h s) : mls P).
    destruct (HP (init_index t) Hf) as (s1&H1&F1&C1).
    assert (Hidx : indexed (init_index t)).
    { split; [intros x y Hoc'; by destruct Hoc'|]. split; [unfold count_ge; destruct (patches (init_index t)) eqn:E; [done|]; destruct (patches_pos (init_index t)) as (x&y&Hoc'); [lia|]; by destruct Hoc'|]. split; [|by eexists].
      intros i Hi x y. cbn in Hi. injection Hi as <-. unfold occupied. cbn [m_cell init_index t new_mls]. split; [set_solver|done]. }
    destruct (project_indexed merge conv mk g T area pts _ _ Hidx H1) as (G1&_&X1&[i Hi]).
    assert (HCO : forall xy, xy ∈ ListGrid.coords (m_w s) (m_h s) -> a_cell g (Z.of_nat xy.1) (Z.of_nat xy.2)).
    { intros [x y] Hxy. apply ListGridProps.elem_of_coords in Hxy as [? ?]. split; cbn [fst snd]; lia. }
    destruct (choose_lines (fun xy => xy ∈ ListGrid.coords (m_w s) (m_h s)) (fun xy L => straight (zpos xy) o L /\ (forall oz p fuel s, (Z.to_nat (Z.max (g_nx g) (g_ny g)) < fuel)%nat -> add_free merge mean dev height negative norm fuel g o oz (zpos xy) p s = put_all (freed g o oz (zpos xy) p L) s) /\
      forall oz p, puts merge g (put_all (freed g o oz (zpos xy) p L)) (fun x y => at_cell x y (freed g o oz (zpos xy) p L))) [] (ListGrid.coords (m_w s) (m_h s))) as [lines HL]; [done| |].
    { intros xy Hxy. apply (puts_free g o (zpos xy)); [by apply HCO|done|done|done]. }
    assert (HF : puts merge g (iter_out (fun xy s => iter_out (fun p s =>
              s <~ cell_put merge (Z.of_nat xy.1) (Z.of_nat xy.2) (smear xy.1 xy.2 p) s ;;
              put_all (freed g o (vz origin) (zpos xy) (smear xy.1 xy.2 p) (lines xy)) s) (m_cell s1 xy.1 xy.2) s) (in_order (m_w s) (m_h s) i))
        (fun x y => xy ← ListGrid.coords (m_w s) (m_h s); p ← smear xy.1 xy.2 <$> m_cell s1 xy.1 xy.2; (if decide ((x, y) = xy) then [p] else []) ++ at_cell x y (freed g o (vz origin) (zpos xy) p (lines xy)))).
    { eapply puts_ext.
      - apply puts_iter with (h := fun xy x y => p ← m_cell s1 xy.1 xy.2; (if decide (Z.of_nat x = Z.of_nat xy.1 /\ Z.of_nat y = Z.of_nat xy.2) then [smear xy.1 xy.2 p] else []) ++ at_cell x y (freed g o (vz origin) (zpos xy) (smear xy.1 xy.2 p) (lines xy))).
        intros xy Hxy. apply elem_of_list_filter in Hxy as [_ Hxy].
        apply (puts_iter merge g (fun p s => s <~ cell_put merge (Z.of_nat xy.1) (Z.of_nat xy.2) (smear xy.1 xy.2 p) s ;; put_all (freed g o (vz origin) (zpos xy) (smear xy.1 xy.2 p) (lines xy)) s)
          (fun p x y => (if decide (Z.of_nat x = Z.of_nat xy.1 /\ Z.of_nat y = Z.of_nat xy.2) then [smear xy.1 xy.2 p] else []) ++ at_cell x y (freed g o (vz origin) (zpos xy) (smear xy.1 xy.2 p) (lines xy)))).
        intros p _. apply puts_then; [apply puts_cell; by apply HCO|]. by apply HL.
      - intros x y _. cbv beta. unfold in_order. clear HL HCO. induction (ListGrid.coords (m_w s) (m_h s)) as [|[a b] l IH]; [done|]. rewrite filter_cons, bind_cons, <-IH.
        assert (HE : (p ← m_cell s1 a b; (if decide (Z.of_nat x = Z.of_nat a /\ Z.of_nat y = Z.of_nat b) then [smear a b p] else []) ++ at_cell x y (freed g o (vz origin) (zpos (a, b)) (smear a b p) (lines (a, b)))) =
                     (p ← smear a b <$> m_cell s1 a b; (if decide ((x, y) = (a, b)) then [p] else []) ++ at_cell x y (freed g o (vz origin) (zpos (a, b)) p (lines (a, b))))).
        { clear. induction (m_cell s1 a b) as [|p l IH]; [done|]. rewrite fmap_cons, !bind_cons, IH. f_equal. f_equal. destruct (decide ((x, y) = (a, b))) as [[= <- <-]|Hne]; [by rewrite decide_True|]. rewrite decide_False; [done|]. intros [? ?]. apply Hne. f_equal; lia. }
        destruct (decide ((a, b) ∈ i)) as [Hin|Hni]; [rewrite bind_cons; cbn [fst snd]; by rewrite HE|]. cbn [fst snd]. assert (Hnil : m_cell s1 a b = []); [|rewrite Hnil; reflexivity].
        destruct (m_cell s1 a b) eqn:E; [done|]. exfalso. apply Hni, (X1 i Hi). unfold occupied. by rewrite E. }
    destruct (HF s Hf) as (s'&H'&F'&C').
    exists (m_cell s1), o, lines, s'. split; [|split; [done|split; [intros xy Hxy; by apply HL|split]]].
    - intros x y Hx Hy. specialize (C1 x y Hx Hy). exact C1.
    - exists (S (Z.to_nat (Z.max (g_nx g) (g_ny g)))). intros fuel Hfu. unfold project_free. rewrite decide_False by done. fold t. rewrite H1, Ht, Hi. fold o. rewrite <-H'.
      apply iter_out_ext. intros xy s2 Hxy. apply elem_of_list_filter in Hxy as [_ Hxy]. apply iter_out_ext. intros p s3 _. destruct (cell_put merge _ _ _ s3) as [s4| | |]; cbn [obind]; [|done|done|done]. destruct (HL xy Hxy) as (_&HA&_). apply HA. lia.
    - exact C'.
  Qed.
  (** A sensor outside of the grid is an exception; a grid with patches is as before. *)
  Theorem C140_outside fuel smear g T area pts origin s : conv_wraps conv -> Access.usable g -> (forall p, p ∈ pts -> close_to g (aapp T p.1)) -> close_to g origin ->
    ~ in_rect g (this (vx origin)) (this (vy origin)) -> fits g s -> m_count s <> 0 ->
    project_free merge conv mk mean dev height negative norm fuel smear g T area pts origin s = Throw s.
  Proof using Type.
    intros HC HU HN HO HI Hf Hc. pose proof HU as (Hg&HX&HY). unfold project_free. rewrite decide_False by done.
    destruct (C87_project merge conv mk g T area pts HC HU HN (init_index (new_mls (m_w s) (m_h s))) Hf) as (s1&H1&_). rewrite H1.
    destruct (to_grid conv g (this (vx origin)) (this (vy origin))) as [[[[m n] xm] ym]|] eqn:E; [|done]. exfalso. apply HI, (C31_outside conv); [done|done|done|done|done|]. by rewrite E.
  Qed.
End proofs.
(** What a free patch covers, if the sensor is not below the patch: from the line to the lower end of the patch up to a line that is above the one to its mean; so the line of sight itself is free. *)
Notation patch := (Qc * Qc * Qc * bool)%type.
Notation p_mean := (fun p : patch => p.1.1.1).
Notation p_dev := (fun p : patch => p.1.1.2).
Notation p_height := (fun p : patch => p.1.2).
Notation p_negative := (fun a b c : Qc => (a, b, c, true)).
(** a patch that is vertical or free is the space from its mean down to its mean less its height (MLSPatch.hpp:134-150, without deviations) *)
Definition top_of (p : patch) : Qc := p_mean p.
Definition bottom_of (p : patch) : Qc := (p_mean p - p_height p)%Qc.
Lemma rise_nonneg norm g c o oz (p : patch) : (0 < g_sx g)%Q -> (forall x y, 0 <= norm x y)%Qc -> (p_mean p <= oz)%Qc -> (0 <= rise p_mean norm g c o oz p)%Qc.
Proof.
  intros Hs Hn Hz. unfold rise. cbv zeta. set (d := norm _ _) in *. destruct (decide _) as [_|Hd]; [apply Qcle_refl|]. assert (H0 : (0 <= d)%Qc) by apply Hn.
  assert (Hd' : (0 < d)%Qc) by (destruct (Qcle_lt_or_eq _ _ H0) as [?|E]; [done|by symmetry in E]).
  assert (HS : (0 <= Q2Qc (g_sx g))%Qc) by (change (0 <= Qred (g_sx g))%Q; rewrite Qred_correct; by apply Qlt_le_weak).
  destruct (Qclt_le_dec ((oz - p_mean p) * Q2Qc (g_sx g) / d) 0) as [H|H]; [|done]. exfalso.
  apply (Qcmult_lt_compat_r _ _ d Hd') in H. rewrite Qcmult_0_l in H. replace ((oz - p_mean p) * Q2Qc (g_sx g) / d * d)%Qc with ((oz - p_mean p) * Q2Qc (g_sx g))%Qc in H by (by field).
  apply (Qclt_not_le _ _ H). rewrite <-(Qcmult_0_l (Q2Qc (g_sx g))). apply Qcmult_le_compat_r; [|done]. apply (proj1 (Qcle_minus_iff _ _)) in Hz. exact Hz.
Qed.
Theorem C140_wedge norm g c o oz (p : patch) f : (0 < g_sx g)%Q -> (forall x y, 0 <= norm x y)%Qc -> (0 <= f)%Qc -> (0 <= p_height p)%Qc -> (p_mean p <= oz)%Qc ->
  let h := rise p_mean norm g c o oz p in let free := wedge p_mean p_dev p_height p_negative oz h p f in let sight z := (f * z + (1 - f) * oz)%Qc in
  bottom_of free = sight (bottom_of p) /\ top_of free = sight (p_mean p + h)%Qc /\ (bottom_of free <= sight (p_mean p))%Qc /\ (sight (p_mean p) <= top_of free)%Qc.
Proof.
  intros Hs Hn Hf Hh Hz h. assert (Hr : (0 <= h)%Qc) by (by apply rise_nonneg). clearbody h. destruct p as [[[mean dv] height] b]. unfold bottom_of, top_of, wedge. cbn [fst snd] in *.
  assert (HP : (0 <= f * (height + h))%Qc) by (rewrite <-(Qcmult_0_r f), !(Qcmult_comm f); apply Qcmult_le_compat_r; [|done]; rewrite <-(Qcplus_0_l 0); by apply Qcplus_le_compat).
  assert (HQ : qcabs (f * (height + h)) = (f * (height + h))%Qc) by (unfold qcabs; destruct (Qclt_le_dec _ 0) as [H|H]; [exfalso; by apply (Qcle_not_lt _ _ HP)|done]). rewrite HQ.
  assert (HM : forall a b, (0 <= b)%Qc -> (a <= a + f * b)%Qc) by (intros a b' Hb; rewrite <-(Qcplus_0_r a) at 1; apply Qcplus_le_compat; [apply Qcle_refl|]; rewrite <-(Qcmult_0_r f), !(Qcmult_comm f); by apply Qcmult_le_compat_r).
  split; [ring|]. split; [ring|]. split.
  - replace (f * (mean + h) + (1 - f) * oz - f * (height + h))%Qc with (f * (mean - height) + (1 - f) * oz)%Qc by ring. replace (f * mean + (1 - f) * oz)%Qc with (f * (mean - height) + (1 - f) * oz + f * height)%Qc by ring. by apply HM.
  - replace (f * (mean + h) + (1 - f) * oz)%Qc with (f * mean + (1 - f) * oz + f * h)%Qc by ring. by apply HM.
Qed.
(** a length: exact along the axes *)
Definition demo_norm (x y : Qc) : Qc := (qcabs x + qcabs y)%Qc.
Definition row5 : geo := Geo 5 1 1 1 0 0.
(** If the sensor is below the patch, the free patch need not contain the line of sight. *)
Theorem C140_below_refuted : ~ forall g c o oz (p : patch) f, (0 < g_sx g)%Q -> (0 <= f)%Qc -> (0 <= p_height p)%Qc ->
  let free := wedge p_mean p_dev p_height p_negative oz (rise p_mean demo_norm g c o oz p) p f in
  (bottom_of free <= f * p_mean p + (1 - f) * oz)%Qc /\ (f * p_mean p + (1 - f) * oz <= top_of free)%Qc.
Proof.
  intros H. specialize (H row5 (0, 0) (3, 0) 0%Qc (Q2Qc 3, 0%Qc, 0%Qc, false) (Q2Qc (2 # 3))). cbn beta zeta in H. destruct H as [_ H]; [reflexivity|by vm_compute|by vm_compute|]. vm_compute in H. by apply H.
Qed.
(** a never merging kind of patches, and one hit in the first cell of a row whose last cell has the sensor *)
Definition apart (p o : patch) : bool * patch * patch := (false, p, o).
Definition one_hit : list (vec * unit) := [(demo_pt (1#2) (1#2) 0, ())].
Definition from_hit (s : mls patch) : out (mls patch) (mls patch) :=
  project_free apart demo_conv (fun z _ => (Q2Qc z, 1%Qc, 0%Qc, false)) p_mean p_dev p_height p_negative demo_norm 20 (fun _ _ p => p) row5 (Aff 1 0 0 0 1 0 0 0 1 0 0 0) None one_hit (demo_pt (9#2) (1#2) 4) s.
Definition counts (r : out (mls patch) (mls patch)) : list nat := match r with Ok s => (fun x => length (filter (fun p => p.2 = true) (m_cell s x 0%nat))) <$> seq 0 5 | _ => [] end.
(** An empty grid: the free patches are themselves taken for surfaces, if they are in cells behind the current one; one hit makes up to 8 patches per cell, where a grid with patches gets one. *)
Theorem C140_again_refuted : counts (from_hit (insert_head 0 0 (0%Qc, 0%Qc, 0%Qc, false) (new_mls 5 1))) = [0; 1; 1; 1; 1]%nat /\ counts (from_hit (new_mls 5 1)) = [0; 1; 2; 4; 8]%nat.
Proof. split; vm_compute; reflexivity. Qed.
Lemma row5_usable : Access.usable row5.
Proof. unfold Access.usable, good_geo, size_end, half; cbn; repeat split; lia || lra. Qed.
Example C140_nonvacuous : conv_wraps demo_conv /\ Access.usable row5 /\ g_nx row5 <= 715827882 /\ g_ny row5 <= 715827882 /\ (forall p, p ∈ one_hit -> close_to row5 (aapp (Aff 1 0 0 0 1 0 0 0 1 0 0 0) p.1)) /\
  in_rect row5 (9 # 2) (1 # 2) /\ ~ in_rect row5 (11 # 2) (1 # 2) /\
  (let s := insert_head 2 0 (0%Qc, 0%Qc, 0%Qc, false) (new_mls 5 1) in fits row5 s /\ m_count s <> 0 /\
   match from_hit s with Ok s' => m_cell s' 1%nat 0%nat = [(Q2Qc (7 # 4), Q2Qc (3 # 4), Q2Qc (3 # 4), true)] /\ length (m_cell s' 2%nat 0%nat) = 2%nat | _ => False end) /\
  (forall x y, 0 <= demo_norm x y)%Qc.
Proof.
  split; [apply demo_conv_wraps|]. split; [apply row5_usable|]. split; [done|]. split; [done|]. split.
  { intros p Hp. unfold one_hit in Hp. apply elem_of_list_singleton in Hp as ->. vm_compute; repeat split; congruence. }
  split; [vm_compute; repeat split; congruence|]. split; [intros (_&H&_); vm_compute in H; done|]. split; [vm_compute; repeat split; congruence|].
  intros x y. unfold demo_norm. rewrite <-(Qcplus_0_l 0). assert (HA : forall q, (0 <= qcabs q)%Qc) by (intros q; unfold qcabs; destruct (Qclt_le_dec q 0) as [Hq|Hq]; [|done]; apply Qcopp_le_compat in Hq || (apply Qclt_le_weak, Qcopp_le_compat in Hq); by replace (- 0)%Qc with 0%Qc in Hq by ring). by apply Qcplus_le_compat.
Qed.
