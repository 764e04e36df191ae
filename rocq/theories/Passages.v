(** Model of SimpleTraversability::closeNarrowPassages and of its look-up table RadialLUT
    (src/operators/SimpleTraversability.cpp:287-376, 427-479).  C44, C58.

    Scales and the width are rational numbers (the rounding of double is not modelled); cells are pairs (x, y).  The debug output is
    left out. *)
From Coq Require Import ZArith QArith Qround Lqa.
From stdpp Require Import prelude.
From Verif Require Import Base Bresenham Growing.
Local Open Scope Z_scope.

(** rint: the nearest integer to num / den, ties to the even one.  Two different quotients of ints cannot both round to a double
    half-way between two integers, so computing the quotient in double makes no difference. *)
Definition rint (num den : Z) : Z :=
  let q := num / den in let rem := num mod den in
  if decide (2 * rem < den) then q else if decide (den < 2 * rem) then q + 1 else if Z.even q then q else q + 1.

Section Close.
  (** the size of the map in cells, the scales and the minimal width *)
  Context (w h : Z) (sx sy d : Q).

  (** ** RadialLUT *)
  (** :297-307 *)
  Definition lut_cx : Z := Qceiling (d / sx).
  Definition lut_cy : Z := Qceiling (d / sy).
  Definition lut_w : Z := 2 * lut_cx + 1.
  Definition lut_h : Z := 2 * lut_cy + 1.
  Definition in_lut (p : cell) : Prop := 0 <= p.1 < lut_w /\ 0 <= p.2 < lut_h.
  (** :305, 309-332: the entries of the table parents *)
  Definition parent (p : cell) : cell :=
    let dx := lut_cx - p.1 in let dy := lut_cy - p.2 in
    if decide (dx = 0 /\ dy = 0) then (-1, -1)
    else if decide (Z.abs dy < Z.abs dx) then (p.1 + Z.quot dx (Z.abs dx), p.2 + rint dy (Z.abs dx))
    else (p.1 + rint dx (Z.abs dy), p.2 + Z.quot dy (Z.abs dy)).
  (** :317-318: the entries of the table in_distance *)
  Definition in_distance (p : cell) : bool :=
    let dx := lut_cx - p.1 in let dy := lut_cy - p.2 in
    if decide (dx = 0 /\ dy = 0) then false else if Qlt_le_dec (dist2 sx sy dx dy) (d * d) then true else false.
  (** reading a table outside of its extents is undefined *)
  Definition read_parent (p : cell) : out () cell := if decide (in_lut p) then Ok (parent p) else Bad UB.
  Definition read_in_distance (p : cell) : out () bool := if decide (in_lut p) then Ok (in_distance p) else Bad UB.
  (** :317: the squares are computed in int *)
  Definition precompute : out () () := if decide (lut_cx * lut_cx <= int_max /\ lut_cy * lut_cy <= int_max) then Ok () else Bad UB.

  (** the classes and the probabilities *)
  Definition maps : Type := (cell -> nat) * (cell -> nat).
  (** :360-374, the loop of markSingleRadius; [at_] is (centerx, centery) *)
  Fixpoint mark_path (fuel : nat) (at_ p : cell) (s : maps) : out maps maps :=
    match fuel with
    | O => NoFuel
    | S fuel =>
      if decide (p.1 <> -1 /\ p.2 <> -1) then
        let m := (to_int (at_.1 + p.1 - lut_cx), to_int (at_.2 + p.2 - lut_cy)) in
        if decide (is_cell w h m) then
          let s' := if decide (s.1 m = OBSTACLE) then s else (upd m 255%nat s.1, upd m 255%nat s.2) in
          match read_parent p with Ok p' => mark_path fuel at_ p' s' | _ => Bad UB end
        else Bad UB
      else Ok s
    end.
  (** :358-375 *)
  Definition mark_single (fuel : nat) (at_ p : cell) (s : maps) : out maps maps :=
    match read_parent p with Ok p' => mark_path fuel at_ p' s | _ => Bad UB end.
  Definition lut_cells : list cell := y ← seqZ 0 lut_h; x ← seqZ 0 lut_w; [(x, y)].
  (** :334-356 *)
  Definition mark_all_radius (fuel : nat) (at_ : cell) : maps -> out maps maps :=
    iter_out (fun p s =>
      let m := (to_int (at_.1 - lut_cx + p.1), to_int (at_.2 - lut_cy + p.2)) in
      if decide (is_cell w h m) then
        match read_in_distance p with
        | Ok b => if b && bool_decide (s.1 m = OBSTACLE) then mark_single fuel at_ p s else Ok s
        | _ => Bad UB
        end
      else Ok s) lut_cells.
  (** :467-478 *)
  Definition convert (s : maps) (c : cell) : maps := if decide (s.1 c = 255%nat) then (upd c OBSTACLE s.1, upd c 255%nat s.2) else s.
  (** :427-479 *)
  Definition close_passages (fuel : nat) (orig prob : cell -> nat) : out maps maps :=
    match precompute with
    | Ok _ =>
      s <~ iter_out (fun c (s : maps) => if decide (s.1 c = OBSTACLE) then mark_all_radius fuel c s else Ok s) (all_cells w h) ((orig, prob) : maps) ;;
      Ok (foldl convert s (all_cells w h))
    | _ => Bad UB
    end.

  (** * Specification *)
  (** a map that is not larger than 2^30 cells in each direction, positive scales, a width of at most 46340 cells *)
  Definition can_close : Prop := 0 <= w <= 1073741824 /\ 0 <= h <= 1073741824 /\ (0 < sx)%Q /\ (0 < sy)%Q /\ (0 <= d)%Q /\
    (d / sx <= inject_Z 46340)%Q /\ (d / sy <= inject_Z 46340)%Q.
  (** two cells whose centres are nearer than the width *)
  Definition closer (a b : cell) : Prop := (dist2 sx sy (a.1 - b.1) (a.2 - b.2) < d * d)%Q.
  (** [c] is in the smallest rectangle that contains [a] and [b] *)
  Definition between (a b c : cell) : Prop := Z.min a.1 b.1 <= c.1 <= Z.max a.1 b.1 /\ Z.min a.2 b.2 <= c.2 <= Z.max a.2 b.2.
  (** the least number of steps from a cell to another *)
  Definition far (a b : cell) : Z := Z.max (Z.abs (a.1 - b.1)) (Z.abs (a.2 - b.2)).
  (** neighbours, also diagonal ones *)
  Definition touches (a b : cell) : Prop := Z.abs (a.1 - b.1) <= 1 /\ Z.abs (a.2 - b.2) <= 1.
  (** a chain of neighbours from [a] through the cells [l] to [b], the last of them *)
  Fixpoint chain (a : cell) (l : list cell) (b : cell) : Prop :=
    match l with [] => a = b | c :: l => touches a c /\ chain c l b end.

  Lemma rint_bounds num den : 0 < den -> Z.abs num <= den ->
    (0 <= num -> 0 <= rint num den <= Z.min 1 num) /\ (num <= 0 -> Z.max (-1) num <= rint num den <= 0) /\
    (Z.abs num = den -> rint num den = num / den).
  Proof.
    intros Hd Ha. unfold rint. cbn zeta.
    destruct (decide (num = den)) as [->|Hne1].
    { rewrite Z_div_same_full, Z_mod_same_full by lia. repeat split; intros; repeat case_decide; lia. }
    destruct (decide (num = - den)) as [->|Hne2].
    { assert (- den / den = -1) as ->. { replace (- den) with (-1 * den) by lia. apply Z.div_mul. lia. }
      assert (- den mod den = 0) as ->. { replace (- den) with (-1 * den) by lia. apply Z.mod_mul. lia. }
      repeat split; intros; repeat case_decide; lia. }
    destruct (decide (0 <= num)) as [Hp|Hn].
    - rewrite Z.div_small, Z.mod_small by lia. repeat split; intros; repeat case_decide; cbn; lia.
    - assert (num / den = -1) as ->. { symmetry. apply (Z.div_unique_pos _ _ _ (num + den)); lia. }
      assert (num mod den = num + den) as ->. { symmetry. apply (Z.mod_unique_pos _ _ (-1)); lia. }
      repeat split; intros; repeat case_decide; cbn; lia.
  Qed.
  Lemma quot_sgn x : x <> 0 -> Z.quot x (Z.abs x) = Z.sgn x.
  Proof.
    intros Hx. destruct (decide (0 < x)) as [Hp|Hn].
    - rewrite Z.abs_eq, Z.quot_same, Z.sgn_pos by lia. done.
    - rewrite Z.abs_neq, Z.sgn_neg by lia. replace (- x) with (-1 * x) by lia.
      rewrite <- (Z.mul_1_l x) at 1. rewrite Z.quot_mul_cancel_r by lia. done.
  Qed.

  (** how far an entry is from the centre, in steps *)
  Definition steps (p : cell) : Z := Z.max (Z.abs (lut_cx - p.1)) (Z.abs (lut_cy - p.2)).
  Lemma parent_spec p : p <> (lut_cx, lut_cy) -> let q := parent p in
    steps q = steps p - 1 /\ between p (lut_cx, lut_cy) q /\ touches p q.
  Proof.
    intros Hne. unfold parent. cbn zeta. destruct p as [x y]. cbn [fst snd].
    rewrite decide_False by (intros [? ?]; apply Hne; f_equal; lia).
    assert (Hne' : lut_cx - x <> 0 \/ lut_cy - y <> 0).
    { destruct (decide (lut_cx - x = 0)); [|by left]. right. intros ?. apply Hne. f_equal; lia. }
    clear Hne. unfold steps, between, touches. generalize dependent lut_cx. generalize dependent lut_cy. intros cy cx Hne.
    destruct (decide (Z.abs (cy - y) < Z.abs (cx - x))) as [Hlt|Hge]; cbn [fst snd].
    - rewrite quot_sgn by lia. destruct (rint_bounds (cy - y) (Z.abs (cx - x))) as (H1 & H2 & _); [lia|lia|].
      set (t := rint _ _) in *. clearbody t. destruct (Z.le_gt_cases 0 (cy - y)) as [Hs|Hs].
      + specialize (H1 Hs). clear H2. destruct (Z.le_gt_cases (cx - x) 0).
        * rewrite Z.sgn_neg by lia. split; [lia|]. repeat split; lia.
        * rewrite Z.sgn_pos by lia. split; [lia|]. repeat split; lia.
      + specialize (H2 ltac:(lia)). clear H1. destruct (Z.le_gt_cases (cx - x) 0).
        * rewrite Z.sgn_neg by lia. split; [lia|]. repeat split; lia.
        * rewrite Z.sgn_pos by lia. split; [lia|]. repeat split; lia.
    - rewrite quot_sgn by lia. destruct (rint_bounds (cx - x) (Z.abs (cy - y))) as (H1 & H2 & H3); [lia|lia|].
      assert (H4 : cx - x = Z.abs (cy - y) -> rint (cx - x) (Z.abs (cy - y)) = 1).
      { intros He. rewrite H3 by lia. rewrite He. apply Z_div_same_full. lia. }
      assert (H5 : cx - x = - Z.abs (cy - y) -> rint (cx - x) (Z.abs (cy - y)) = -1).
      { intros He. rewrite H3 by lia. rewrite He. replace (- Z.abs (cy - y)) with (-1 * Z.abs (cy - y)) by lia. apply Z.div_mul. lia. }
      clear H3. set (t := rint _ _) in *. clearbody t. destruct (Z.le_gt_cases 0 (cx - x)) as [Hs|Hs].
      + specialize (H1 Hs). clear H2 H5. destruct (Z.le_gt_cases (cy - y) 0).
        * rewrite Z.sgn_neg by lia. split; [lia|]. repeat split; lia.
        * rewrite Z.sgn_pos by lia. split; [lia|]. repeat split; lia.
      + specialize (H2 ltac:(lia)). clear H1 H4. destruct (Z.le_gt_cases (cy - y) 0).
        * rewrite Z.sgn_neg by lia. split; [lia|]. repeat split; lia.
        * rewrite Z.sgn_pos by lia. split; [lia|]. repeat split; lia.
  Qed.

  Lemma lut_bounds : can_close -> 0 <= lut_cx <= 46340 /\ 0 <= lut_cy <= 46340.
  Proof.
    intros (_ & _ & Hsx & Hsy & Hd & Hx & Hy). unfold lut_cx, lut_cy.
    assert (H : forall s, (0 < s)%Q -> (d / s <= inject_Z 46340)%Q -> 0 <= Qceiling (d / s) <= 46340).
    { intros s Hs Hle. split.
      - rewrite <- (Qceiling_Z 0). apply Qceiling_resp_le. apply Qle_shift_div_l; [done|]. change (inject_Z 0) with 0%Q. lra.
      - rewrite <- (Qceiling_Z 46340). by apply Qceiling_resp_le. }
    split; by apply H.
  Qed.
  Lemma to_int_id x : -2147483648 <= x <= 2147483647 -> to_int x = x.
  Proof. intros Hx. unfold to_int. rewrite Z.mod_small; lia. Qed.

  (** the cell of the map that an entry of the table stands for *)
  Definition place (at_ p : cell) : cell := (at_.1 + p.1 - lut_cx, at_.2 + p.2 - lut_cy).
  Definition mark (s : maps) (m : cell) : maps := if decide (s.1 m = OBSTACLE) then s else (upd m 255%nat s.1, upd m 255%nat s.2).
  Lemma mark_path_spec : can_close -> forall fuel at_ p s, is_cell w h at_ -> is_cell w h (place at_ p) -> in_lut p -> steps p + 1 < Z.of_nat fuel ->
    exists l, mark_path fuel at_ p s = Ok (foldl mark s (place at_ p :: l)) /\ chain (place at_ p) l at_ /\ Z.of_nat (length l) = steps p /\
      (forall c, c ∈ l -> is_cell w h c /\ between (place at_ p) at_ c).
  Proof.
    intros Hcc. pose proof (lut_bounds Hcc) as [Hlx Hly]. pose proof Hcc as (Hw & Hh & _).
    induction fuel as [|fuel IH]; intros at_ p s Hat Hp Hin Hf; [unfold steps in Hf; lia|].
    cbn [mark_path]. unfold in_lut, lut_w, lut_h in Hin. rewrite decide_True by lia. cbn zeta.
    assert (Hpl : (to_int (at_.1 + p.1 - lut_cx), to_int (at_.2 + p.2 - lut_cy)) = place at_ p).
    { unfold is_cell in Hat. unfold place. rewrite !to_int_id by lia. done. }
    rewrite Hpl. rewrite decide_True by done. unfold read_parent. rewrite decide_True by (unfold in_lut, lut_w, lut_h; lia).
    fold (mark s (place at_ p)). destruct (decide (p = (lut_cx, lut_cy))) as [->|Hne].
    - exists []. assert (Hat' : place at_ (lut_cx, lut_cy) = at_). { unfold place. destruct at_. cbn. f_equal; lia. }
      assert (Hpar : parent (lut_cx, lut_cy) = (-1, -1)). { unfold parent. cbn zeta. cbn [fst snd]. rewrite decide_True by lia. done. }
      rewrite Hpar. destruct fuel as [|fuel]; [unfold steps in Hf; cbn in Hf; lia|]. cbn [mark_path fst snd].
      rewrite decide_False by lia. split; [done|]. split; [cbn; by rewrite Hat'|]. split; [unfold steps; cbn [fst snd length]; lia|]. intros c Hc. by apply elem_of_nil in Hc.
    - destruct (parent_spec p Hne) as (Hs & Hb & Ht). set (q := parent p) in *. clearbody q.
      assert (Hbq : between (place at_ p) at_ (place at_ q)). { unfold between, place in *. cbn [fst snd] in *. lia. }
      assert (Hq : is_cell w h (place at_ q)). { unfold is_cell, between in *. lia. }
      destruct (IH at_ q (mark s (place at_ p)) Hat Hq) as (l & Hl & Hch & Hlen & Hbt).
      { unfold in_lut, lut_w, lut_h. unfold between in Hb. cbn [fst snd] in Hb. lia. }
      { lia. }
      exists (place at_ q :: l). split; [by rewrite Hl|]. split.
      + cbn [chain]. split; [|done]. unfold touches, place in *. cbn [fst snd] in *. lia.
      + split; [cbn [length]; lia|]. intros c. rewrite elem_of_cons. intros [->|Hc]; [done|]. destruct (Hbt c Hc) as [H1 H2]. split; [done|].
        unfold between in *. lia.
  Qed.

  (** ** what the marking may do *)
  Section Marking.
    Context (orig prob : cell -> nat).
    Definition obst (c : cell) : Prop := is_cell w h c /\ orig c = OBSTACLE.
    Definition narrow (c : cell) : Prop := exists a b, obst a /\ obst b /\ a <> b /\ closer a b /\ between a b c.
    Definition inv (s : maps) : Prop := forall c,
      (s.1 c = orig c /\ s.2 c = prob c) \/ (orig c <> OBSTACLE /\ s.1 c = 255%nat /\ s.2 c = 255%nat /\ is_cell w h c /\ narrow c).
    Definition later (s s' : maps) : Prop := forall c, (s'.1 c = s.1 c) \/ s.1 c <> OBSTACLE /\ s'.1 c = 255%nat.
    Definition marked (s : maps) (c : cell) : Prop := is_cell w h c /\ (s.1 c = OBSTACLE \/ s.1 c = 255%nat).
    Definition closed (s : maps) (a b : cell) : Prop := exists l, chain b l a /\ Z.of_nat (length l) = far a b /\ forall c, c ∈ l -> marked s c /\ between a b c.
    Lemma later_refl s : later s s.
    Proof. intros c. by left. Qed.
    Lemma later_trans s1 s2 s3 : later s1 s2 -> later s2 s3 -> later s1 s3.
    Proof. intros H12 H23 c. specialize (H12 c). specialize (H23 c). unfold OBSTACLE in *. intuition congruence. Qed.
    Lemma marked_later s s' c : later s s' -> marked s c -> marked s' c.
    Proof. intros Hl [Hc Hm]. split; [done|]. specialize (Hl c). intuition congruence. Qed.
    Lemma closed_later s s' a b : later s s' -> closed s a b -> closed s' a b.
    Proof. intros Hl (l & Hch & Hlen & Hm). exists l. split; [done|]. split; [done|]. intros c Hc. destruct (Hm c Hc). split; [by eapply marked_later|done]. Qed.
    Lemma inv_obst s c : inv s -> s.1 c = OBSTACLE <-> orig c = OBSTACLE.
    Proof. intros Hi. specialize (Hi c). unfold OBSTACLE in *. intuition congruence. Qed.
    Lemma mark_spec s m : inv s -> is_cell w h m -> narrow m -> inv (mark s m) /\ later s (mark s m) /\ marked (mark s m) m.
    Proof.
      intros Hi Hm Hn. unfold mark. destruct (decide (s.1 m = OBSTACLE)) as [Ho|Ho].
      - split; [done|]. split; [apply later_refl|]. split; [done|by left].
      - split; [|split].
        + intros c. cbn [fst snd]. destruct (decide (c = m)) as [->|Hne]; [|rewrite !upd_other by done; apply Hi].
          right. rewrite !upd_same. split; [|done]. by rewrite <- (inv_obst s).
        + intros c. cbn [fst snd]. destruct (decide (c = m)) as [->|Hne]; [|rewrite !upd_other by done; by left].
          right. rewrite upd_same. done.
        + split; [done|]. right. cbn. apply upd_same.
    Qed.
    Lemma marks_spec l s : inv s -> (forall c, c ∈ l -> is_cell w h c /\ narrow c) ->
      inv (foldl mark s l) /\ later s (foldl mark s l) /\ forall c, c ∈ l -> marked (foldl mark s l) c.
    Proof.
      revert s. induction l as [|m l IH]; intros s Hi Hl; cbn [foldl].
      - split; [done|]. split; [apply later_refl|]. intros c Hc. by apply elem_of_nil in Hc.
      - destruct (Hl m) as [Hm Hn]; [by left|]. destruct (mark_spec s m Hi Hm Hn) as (H1 & H2 & H3).
        destruct (IH (mark s m) H1) as (H4 & H5 & H6); [intros c Hc; apply Hl; by right|]. split; [done|].
        split; [by eapply later_trans|]. intros c. rewrite elem_of_cons. intros [->|Hc]; [by eapply marked_later|by apply H6].
    Qed.
    (** loops in which every round establishes something that lasts *)
    Lemma iter_lasting (f : cell -> maps -> out maps maps) (P : cell -> maps -> Prop) l :
      (forall p s s', later s s' -> P p s -> P p s') ->
      (forall p s, p ∈ l -> inv s -> exists s', f p s = Ok s' /\ inv s' /\ later s s' /\ P p s') ->
      forall s, inv s -> exists s', iter_out f l s = Ok s' /\ inv s' /\ later s s' /\ forall p, p ∈ l -> P p s'.
    Proof.
      intros Hmono. induction l as [|p l IH]; intros Hf s Hi.
      - exists s. split; [done|]. split; [done|]. split; [apply later_refl|]. intros p Hp. by apply elem_of_nil in Hp.
      - destruct (Hf p s) as (s1 & H1 & Hi1 & Hl1 & Hp1); [by left|done|].
        destruct (IH ltac:(intros q s' Hq; apply Hf; by right) s1 Hi1) as (s2 & H2 & Hi2 & Hl2 & Hp2).
        exists s2. cbn [iter_out]. rewrite H1. cbn [obind]. split; [done|]. split; [done|]. split; [by eapply later_trans|].
        intros q. rewrite elem_of_cons. intros [->|Hq]; [by eapply Hmono|by apply Hp2].
    Qed.

    Lemma elem_of_lut_cells p : p ∈ lut_cells <-> in_lut p.
    Proof. apply (elem_of_all_cells lut_w lut_h). Qed.
    Lemma mark_all_radius_spec fuel a s : can_close -> lut_cx + lut_cy + 2 < Z.of_nat fuel -> obst a -> inv s ->
      exists s', mark_all_radius fuel a s = Ok s' /\ inv s' /\ later s s' /\ forall b, obst b -> a <> b -> closer a b -> closed s' a b.
    Proof.
      intros Hcc Hf Ha Hi. pose proof (lut_bounds Hcc) as [Hlx Hly]. pose proof Hcc as (Hw & Hh & Hsx & Hsy & Hd & _). destruct Ha as [Hac Hao].
      unfold mark_all_radius.
      destruct (iter_lasting
        (fun p s =>
          let m := (to_int (a.1 - lut_cx + p.1), to_int (a.2 - lut_cy + p.2)) in
          if decide (is_cell w h m) then
          match read_in_distance p with
          | Ok b => if b && bool_decide (s.1 m = OBSTACLE) then mark_single fuel a p s else Ok s
          | _ => Bad UB end else Ok s)
        (fun p s => obst (place a p) -> a <> place a p -> closer a (place a p) -> closed s a (place a p)) lut_cells) with (s := s)
        as (s' & H1 & H2 & H3 & H4).
      - intros p s1 s2 Hl H Ho Hne Hc. eapply closed_later; [done|]. by apply H.
      - intros p s1 Hp Hi1. apply elem_of_lut_cells in Hp as Hin. cbn zeta.
        assert (Hpl : (to_int (a.1 - lut_cx + p.1), to_int (a.2 - lut_cy + p.2)) = place a p).
        { unfold in_lut, lut_w, lut_h in Hin. unfold is_cell in Hac. unfold place. rewrite !to_int_id by lia. f_equal; lia. }
        rewrite Hpl. assert (read_in_distance p = Ok (in_distance p)) as -> by (unfold read_in_distance; by rewrite decide_True).
        assert (Hstay : (obst (place a p) -> a <> place a p -> closer a (place a p) -> False) ->
          exists s', (Ok s1 : out maps maps) = Ok s' /\ inv s' /\ later s1 s' /\ (obst (place a p) -> a <> place a p -> closer a (place a p) -> closed s' a (place a p))).
        { intros H. exists s1. split; [done|]. split; [done|]. split; [apply later_refl|]. intros. exfalso. by apply H. }
        destruct (decide (is_cell w h (place a p))) as [Hc|Hc]; [|apply Hstay; intros [? _]; done].
        destruct (in_distance p) eqn:Ed; cbn [andb].
        2:{ apply Hstay. intros _ Hne Hcl. unfold in_distance in Ed. cbn zeta in Ed.
            destruct (decide (lut_cx - p.1 = 0 /\ lut_cy - p.2 = 0)) as [[He1 He2]|He].
            - apply Hne. unfold place. destruct a. cbn. f_equal; lia.
            - destruct (Qlt_le_dec _ _) as [|Hge]; [done|]. apply (Qlt_not_le _ _ Hcl). unfold place. cbn [fst snd].
              replace (a.1 - (a.1 + p.1 - lut_cx)) with (lut_cx - p.1) by lia. replace (a.2 - (a.2 + p.2 - lut_cy)) with (lut_cy - p.2) by lia. done. }
        case_bool_decide as Hob.
        2:{ apply Hstay. intros [_ Ho] _ _. apply Hob. by apply inv_obst. }
        apply inv_obst in Hob; [|done].
        assert (Hne : p <> (lut_cx, lut_cy)).
        { intros ->. unfold in_distance in Ed. cbn zeta in Ed. cbn [fst snd] in Ed. rewrite decide_True in Ed by lia. done. }
        assert (Hcl : closer a (place a p)).
        { unfold in_distance in Ed. cbn zeta in Ed. destruct (decide (lut_cx - p.1 = 0 /\ lut_cy - p.2 = 0)); [done|].
          destruct (Qlt_le_dec _ _) as [Hlt|]; [|done]. unfold closer, place. cbn [fst snd].
          replace (a.1 - (a.1 + p.1 - lut_cx)) with (lut_cx - p.1) by lia. replace (a.2 - (a.2 + p.2 - lut_cy)) with (lut_cy - p.2) by lia. done. }
        assert (Hane : a <> place a p).
        { intros He. apply Hne. destruct p as [px py], a as [ax ay]. unfold place in He. cbn [fst snd] in He. injection He as He1 He2. f_equal; lia. }
        unfold mark_single, read_parent. rewrite decide_True by done.
        destruct (parent_spec p Hne) as (Hs & Hb & Ht). set (q := parent p) in *. clearbody q.
        assert (Hbq : between a (place a p) (place a q)). { unfold between, place in *. cbn [fst snd] in *. lia. }
        destruct (mark_path_spec Hcc fuel a q s1 Hac) as (l & Hl & Hch & Hlen & Hbt).
        { unfold is_cell, between in *. lia. }
        { unfold in_lut, lut_w, lut_h in *. unfold between in Hb. cbn [fst snd] in Hb. lia. }
        { rewrite Hs. unfold steps, in_lut, lut_w, lut_h in *. lia. }
        assert (Hall : forall c, c ∈ place a q :: l -> is_cell w h c /\ between a (place a p) c).
        { intros c. rewrite elem_of_cons. intros [->|Hc']; [split; [unfold is_cell, between in *; lia|done]|].
          destruct (Hbt c Hc') as [H1 H2]. split; [done|]. unfold between in *. lia. }
        destruct (marks_spec (place a q :: l) s1 Hi1) as (M1 & M2 & M3).
        { intros c Hc'. destruct (Hall c Hc') as [H1 H2]. split; [done|]. exists a, (place a p). do 4 (split; [done|]). done. }
        eexists. split; [exact Hl|]. split; [done|]. split; [done|]. intros _ _ _. exists (place a q :: l). split.
        + cbn [chain]. split; [|done]. unfold touches, place in *. cbn [fst snd] in *. lia.
        + split; [cbn [length]; rewrite Nat2Z.inj_succ, Hlen, Hs; unfold steps, far, place; cbn [fst snd]; lia|]. intros c Hc'. split; [by apply M3|by apply Hall].
      - done.
      - exists s'. split; [done|]. split; [done|]. split; [done|]. intros b Hb Hne Hcl.
        set (p := (b.1 - a.1 + lut_cx, b.2 - a.2 + lut_cy)).
        assert (Hpl : place a p = b). { unfold place, p. destruct b. cbn. f_equal; lia. }
        specialize (H4 p). rewrite Hpl in H4. apply H4; [|done|done|done]. apply elem_of_lut_cells.
        assert (H : forall z s, (0 < s)%Q -> (inject_Z z * s * (inject_Z z * s) < d * d)%Q -> Z.abs z <= Qceiling (d / s)).
        { intros z sc Hsc Hz. pose proof (near_window d z sc Hsc Hd Hz) as Hw'. unfold trunc in Hw'.
          pose proof (Qle_floor_ceiling (d / sc)) as Hfc. rewrite <- Zle_Qle in Hfc. lia. }
        unfold closer, dist2 in Hcl. unfold in_lut, lut_w, lut_h, p. cbn [fst snd].
        assert (Z.abs (a.1 - b.1) <= lut_cx). { apply H; [done|]. assert (0 <= inject_Z (a.2 - b.2) * sy * (inject_Z (a.2 - b.2) * sy))%Q by nra. lra. }
        assert (Z.abs (a.2 - b.2) <= lut_cy). { apply H; [done|]. assert (0 <= inject_Z (a.1 - b.1) * sx * (inject_Z (a.1 - b.1) * sx))%Q by nra. lra. }
        lia.
    Qed.
  End Marking.

  (** the conversion of the marks *)
  Lemma convert_spec l s : let s' := foldl convert s l in
    forall c, (s.1 c = 255%nat /\ c ∈ l -> s'.1 c = OBSTACLE /\ s'.2 c = 255%nat) /\ (~ (s.1 c = 255%nat /\ c ∈ l) -> s'.1 c = s.1 c /\ s'.2 c = s.2 c).
  Proof.
    revert s. induction l as [|m l IH]; intros s; cbn [foldl]; cbn zeta.
    { intros c. split; [|done]. intros [_ Hc]. by apply elem_of_nil in Hc. }
    intros c. set (s1 := convert s m). destruct (IH s1 c) as [H1 H2]. cbn zeta in *.
    assert (Hs1 : (c = m /\ s.1 c = 255%nat /\ s1.1 c = OBSTACLE /\ s1.2 c = 255%nat) \/ (~ (c = m /\ s.1 c = 255%nat) /\ s1.1 c = s.1 c /\ s1.2 c = s.2 c)).
    { unfold s1, convert. destruct (decide (s.1 m = 255%nat)) as [He|He]; cbn [fst snd].
      - destruct (decide (c = m)) as [->|Hne]; [left; by rewrite !upd_same|right]. rewrite !upd_other by done. naive_solver.
      - right. split; [|done]. intros [-> ?]. done. }
    destruct Hs1 as [(-> & He & E1 & E2)|(Hn & E1 & E2)].
    - assert (Hno : ~ (s1.1 m = 255%nat /\ m ∈ l)). { rewrite E1. by intros []. } destruct (H2 Hno) as [-> ->]. split; [done|]. intros Hn.
      exfalso. apply Hn. split; [done|by left].
    - rewrite E1, E2 in *. split.
      + intros [He Hin]. apply H1. split; [done|]. apply elem_of_cons in Hin as [->|Hin]; [|done]. exfalso. by apply Hn.
      + intros Hno. apply H2. intros [He Hin]. apply Hno. split; [done|by right].
  Qed.

  (** ** C44 and C58 *)
  Definition lut_fuel : nat := Z.to_nat (lut_cx + lut_cy + 3).
  Lemma close_spec fuel orig prob : can_close -> (lut_fuel <= fuel)%nat -> exists data prob', close_passages fuel orig prob = Ok (data, prob') /\
    (forall c, is_cell w h c ->
      (data c = orig c /\ prob' c = prob c /\ orig c <> 255%nat) \/
      (data c = OBSTACLE /\ prob' c = 255%nat /\ orig c <> OBSTACLE /\ (orig c = 255%nat \/ narrow orig c))) /\
    (forall a b, obst orig a -> obst orig b -> a <> b -> closer a b -> exists l, chain b l a /\ Z.of_nat (length l) = far a b /\ forall c, c ∈ l -> is_cell w h c /\ between a b c /\ data c = OBSTACLE).
  Proof.
    intros Hcc Hfuel. pose proof (lut_bounds Hcc) as [Hlx Hly]. unfold lut_fuel in Hfuel. unfold close_passages, precompute.
    rewrite decide_True by (unfold int_max; nia).
    destruct (iter_lasting orig prob (fun c s => if decide (s.1 c = OBSTACLE) then mark_all_radius fuel c s else Ok s)
      (fun a s => obst orig a -> forall b, obst orig b -> a <> b -> closer a b -> closed s a b) (all_cells w h)) with (s := (orig, prob))
      as (s & Hs & Hi & _ & Hclosed).
    - intros a s s' Hl H Ha b Hb Hne Hc. eapply (closed_later orig prob); [done|]. by apply H.
    - intros a s Ha Hi. apply elem_of_all_cells in Ha. destruct (decide (s.1 a = OBSTACLE)) as [Ho|Ho].
      + destruct (mark_all_radius_spec orig prob fuel a s Hcc) as (s' & H1 & H2 & H3 & H4); [lia|split; [done|]; by apply (inv_obst orig prob s)|done|].
        exists s'. split; [done|]. split; [done|]. split; [done|]. intros _. done.
      + exists s. split; [done|]. split; [done|]. split; [apply later_refl|]. intros [_ Ha']. exfalso. apply Ho. by apply (inv_obst orig prob s).
    - intros c. left. done.
    - rewrite Hs. cbn [obind]. pose proof (convert_spec (all_cells w h) s) as Hconv. cbn zeta in Hconv.
      destruct (foldl convert s (all_cells w h)) as [data prob'] eqn:E. exists data, prob'. split; [done|]. cbn [fst snd] in Hconv.
      setoid_rewrite elem_of_all_cells in Hconv. split.
      + intros c Hc. destruct (Hconv c) as [C1 C2]. destruct (Hi c) as [[H1 H2]|(H1 & H2 & H3 & H4 & H5)].
        * destruct (decide (orig c = 255%nat)) as [He|He].
          -- right. destruct C1 as [-> ->]; [by rewrite H1|]. split; [done|]. split; [done|]. split; [by rewrite He|by left].
          -- left. destruct C2 as [-> ->]; [rewrite H1; by intros []|]. done.
        * right. destruct C1 as [-> ->]; [done|]. do 3 (split; [done|]). by right.
      + intros a b Ha Hb Hne Hcl. destruct (Hclosed a) with (b := b) as (l & Hch & Hlen & Hm); [by apply elem_of_all_cells, Ha|done..|].
        exists l. split; [done|]. split; [done|]. intros c Hc. destruct (Hm c Hc) as [[H1 H2] H3]. split; [done|]. split; [done|].
        destruct (Hconv c) as [C1 C2]. destruct H2 as [H2|H2]; [|by apply C1].
        destruct C2 as [-> _]; [rewrite H2; by intros []|]. done.
  Qed.
  (** closeNarrowPassages terminates and accesses only cells inside of the map and entries inside of the look-up table *)
  Theorem C44_safe orig prob : can_close -> exists fuel, forall fuel', (fuel <= fuel')%nat -> exists s, close_passages fuel' orig prob = Ok s.
  Proof.
    intros Hcc. exists lut_fuel. intros fuel' Hf. destruct (close_spec fuel' orig prob Hcc Hf) as (data & prob' & H & _). by eexists.
  Qed.
  (** Any two obstacles that are closer than the width are connected by a chain of neighbouring obstacles afterwards, with as few steps as possible.  All obstacles stay
      obstacles, and a cell that changes lies between two obstacles closer than the width (or had the class 255), becomes an obstacle
      and gets the full probability. *)
  Theorem C58_closes fuel orig prob data prob' : can_close -> (lut_fuel <= fuel)%nat -> close_passages fuel orig prob = Ok (data, prob') ->
    (forall a b, obst orig a -> obst orig b -> a <> b -> closer a b -> exists l, chain b l a /\ Z.of_nat (length l) = far a b /\ forall c, c ∈ l -> is_cell w h c /\ between a b c /\ data c = OBSTACLE) /\
    (forall c, is_cell w h c -> (data c = orig c /\ prob' c = prob c) \/
      (data c = OBSTACLE /\ prob' c = 255%nat /\ (orig c = 255%nat \/ exists a b, obst orig a /\ obst orig b /\ a <> b /\ closer a b /\ between a b c))).
  Proof.
    intros Hcc Hf H. destruct (close_spec fuel orig prob Hcc Hf) as (data' & prob'' & H' & H1 & H2). rewrite H in H'. injection H' as <- <-.
    split; [done|]. intros c Hc. destruct (H1 c Hc) as [(? & ? & _)|(? & ? & _ & ?)]; [by left|right]. done.
  Qed.
End Close.

(** A map with two obstacles two cells apart; one cell has the class 255. *)
Definition p_orig (c : cell) : nat := if decide (c = (0, 0) \/ c = (3, 2)) then 1%nat else if decide (c = (4, 0)) then 255%nat else 3%nat.
Example C44_C58_nonvacuous : can_close 5 3 (1#2) (1#2) 2 /\ obst 5 3 p_orig (0, 0) /\ obst 5 3 p_orig (3, 2) /\ closer (1#2) (1#2) 2 (0, 0) (3, 2) /\
  exists d p, close_passages 5 3 (1#2) (1#2) 2 (lut_fuel (1#2) (1#2) 2) p_orig (fun _ => 7%nat) = Ok (d, p) /\
    d <$> all_cells 5 3 = [1; 3; 3; 3; 1;  3; 1; 1; 3; 3;  3; 3; 3; 1; 3]%nat /\ p <$> all_cells 5 3 = [7; 7; 7; 7; 255;  7; 255; 255; 7; 7;  7; 7; 7; 7; 7]%nat.
Proof.
  split. { unfold can_close. repeat split; try lia; by vm_compute. }
  split. { split; [unfold is_cell; cbn; lia|done]. } split. { split; [unfold is_cell; cbn; lia|done]. } split; [by vm_compute|].
  eexists _, _. split; [vm_compute; reflexivity|]. split; vm_compute; reflexivity.
Qed.
(** Cells of class 255 become obstacles even if there is no obstacle in the map. *)
Theorem C58_class_255_refuted : exists orig, (forall c, ~ obst 5 3 orig c) /\ exists d p,
  close_passages 5 3 (1#2) (1#2) 2 (lut_fuel (1#2) (1#2) 2) orig (fun _ => 7%nat) = Ok (d, p) /\ d (4, 0) = OBSTACLE.
Proof.
  exists (fun c => if decide (c = (4, 0)) then 255%nat else 3%nat). split. { intros c [_ H]. unfold OBSTACLE in H. by destruct (decide (c = (4, 0))). }
  eexists _, _. split; [vm_compute; reflexivity|]. vm_compute. reflexivity.
Qed.
