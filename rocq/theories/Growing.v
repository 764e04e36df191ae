(** Models of growObstacles (src/operators/SimpleTraversability.cpp:378-425), growObjects
    (src/operators/ObjectGrowing.hpp:31-91) and growTerrains (src/operators/TraversabilityGrowClasses.cpp:17-89).  C41 and C42.

    Scales and radii are rational numbers (the rounding of double is not modelled); cells are pairs (x, y). *)
From Coq Require Import ZArith QArith Qround Lqa.
From stdpp Require Import prelude.
From Verif Require Import Base Bresenham Trav.
Local Open Scope Z_scope.

Notation cell := (Z * Z)%type (only parsing).
Definition upd {V} (c : cell) (v : V) (f : cell -> V) : cell -> V := fun c' => if decide (c' = c) then v else f c'.
Lemma upd_same {V} c (v : V) f : upd c v f c = v.
Proof. unfold upd. by rewrite decide_True. Qed.
Lemma upd_other {V} c c' (v : V) f : c' <> c -> upd c v f c' = f c'.
Proof. intros. unfold upd. by rewrite decide_False. Qed.

Section Grid.
  (** the number of cells, the scales and the radius *)
  Context (w h : Z) (sx sy r : Q).

  (** conversion of a non-negative double to int *)
  Definition trunc (q : Q) : Z := Qfloor q.
  Definition is_cell (c : cell) : Prop := 0 <= c.1 < w /\ 0 <= c.2 < h.
  Global Instance is_cell_dec c : Decision (is_cell c).
  Proof. unfold is_cell. apply _. Defined.
  Definition offsets (wx wy : Z) : list cell := oy ← seqZ (- wy) (2 * wy + 1); ox ← seqZ (- wx) (2 * wx + 1); [(ox, oy)].
  Definition all_cells : list cell := y ← seqZ 0 h; x ← seqZ 0 w; [(x, y)].
  Definition dist2 (dx dy : Z) : Q := (inject_Z dx * sx) * (inject_Z dx * sx) + (inject_Z dy * sy) * (inject_Z dy * sy).
  Definition near (o : cell) : bool := if Qlt_le_dec (dist2 o.1 o.2) (r * r) then true else false.
  (** the cell that an offset leads to, if it is in the radius and in the map; e.g. SimpleTraversability.cpp:406-412.  The sum of an
      unsigned int and an int is computed modulo 2^32 and converted to int. *)
  Definition target (c o : cell) : option cell :=
    let t := (to_int (c.1 + o.1), to_int (c.2 + o.2)) in
    if near o && bool_decide (is_cell t) then Some t else None.

  (** ** SimpleTraversability::growObstacles: the classes and the probabilities *)
  Definition OBSTACLE : nat := 1.
  Definition grow_obstacles (orig prob : cell -> nat) : (cell -> nat) * (cell -> nat) :=
    foldl (fun s c =>
      if decide (orig c = OBSTACLE) then
        foldl (fun s o => match target c o with
                          | Some t => (upd t OBSTACLE s.1, upd c 255%nat s.2)
                          | None => s
                          end) s (offsets (trunc (r / sx)) (trunc (r / sy)))
      else s) (orig, prob) all_cells.

  (** ** ObjectGrowing::growObjects; [bigger] is the table of the policy, which has [size] rows and columns *)
  Definition grow_objects (size : nat) (bigger : nat -> nat -> bool) (orig : cell -> nat) : out (cell -> nat) (cell -> nat) :=
    iter_out (fun c => iter_out (fun o d =>
        match target c o with
        | Some t => if decide (orig c < size /\ d t < size)%nat then Ok (if bigger (orig c) (d t) then upd t (orig c) d else d) else Bad UB
        | None => Ok d
        end) (offsets (trunc (r / sx + 1)) (trunc (r / sy + 1)))) all_cells orig.

  (** ** TraversabilityGrowClasses::growTerrains: the class and the byte of the probability of each cell.  0.0001 lies between the
      probabilities that 0 and 1 stand for; writing a probability that was read stores the same byte (C38_exact). *)
  Definition grow_terrains (classes : list tclass) (inp : cell -> nat * nat) : out (cell -> nat * nat) (cell -> nat * nat) :=
    iter_out (fun c d0 =>
      if decide ((inp c).2 = 0%nat) then Ok d0 else
      match classes !! (inp c).1 with
      | None => Bad UB
      | Some cur =>
        iter_out (fun o d =>
          match target c o with
          | Some t => match classes !! (d t).1 with
                      | None => Bad UB
                      | Some other =>
                        Ok (if decide ((d t).2 = 0%nat) then upd t (inp c) d
                            else if Qlt_le_dec (drivability cur) (drivability other) then upd t (inp c) d else d)
                      end
          | None => Ok d
          end) (offsets (trunc (r / sx + 1)) (trunc (r / sy + 1))) d0
      end) all_cells inp.

  (** * Specification *)
  (** a map that is not larger than the type int, positive scales, a radius of less than 2^31 - 2 cells *)
  Definition fits : Prop := 0 <= w <= int_max /\ 0 <= h <= int_max /\ (0 < sx)%Q /\ (0 < sy)%Q /\ (0 <= r)%Q /\
    (r / sx < inject_Z 2147483646)%Q /\ (r / sy < inject_Z 2147483646)%Q.
  Definition in_radius (c t : cell) : Prop := (dist2 (t.1 - c.1) (t.2 - c.2) < r * r)%Q.

  Lemma elem_of_offsets wx wy o : o ∈ offsets wx wy <-> - wx <= o.1 <= wx /\ - wy <= o.2 <= wy.
  Proof.
    unfold offsets. destruct o as [x y]. rewrite elem_of_list_bind. setoid_rewrite elem_of_list_bind. setoid_rewrite elem_of_list_singleton.
    setoid_rewrite elem_of_seqZ. cbn. split.
    - intros (y' & (x' & [= -> ->] & Hx) & Hy). lia.
    - intros [Hx Hy]. exists y. split; [|lia]. exists x. split; [done|lia].
  Qed.
  Lemma elem_of_all_cells c : c ∈ all_cells <-> is_cell c.
  Proof.
    unfold all_cells, is_cell. destruct c as [x y]. rewrite elem_of_list_bind. setoid_rewrite elem_of_list_bind. setoid_rewrite elem_of_list_singleton.
    setoid_rewrite elem_of_seqZ. cbn. split.
    - intros (y' & (x' & [= -> ->] & Hx) & Hy). lia.
    - intros [Hx Hy]. exists y. split; [|lia]. exists x. split; [done|lia].
  Qed.
  (** an offset in the radius is in the window *)
  Lemma near_window d s : (0 < s)%Q -> (0 <= r)%Q -> (inject_Z d * s * (inject_Z d * s) < r * r)%Q -> Z.abs d <= trunc (r / s).
  Proof.
    intros Hs Hr Hd. unfold trunc. rewrite <- (Qfloor_Z (Z.abs d)). apply Qfloor_resp_le.
    apply Qle_shift_div_l; [done|]. apply Qnot_lt_le. intros Hlt.
    assert (Hd' : (inject_Z (Z.abs d) * s * (inject_Z (Z.abs d) * s) == inject_Z d * s * (inject_Z d * s))%Q).
    { destruct (Z.abs_eq_or_opp d) as [->| ->]; [reflexivity|]. rewrite inject_Z_opp. ring. }
    rewrite <- Hd' in Hd. apply (Qlt_not_le _ _ Hd). nra.
  Qed.
  Lemma near_bound o : fits -> near o = true -> Z.abs o.1 <= trunc (r / sx) /\ Z.abs o.2 <= trunc (r / sy).
  Proof.
    intros (_ & _ & Hsx & Hsy & Hr & _) Hn. unfold near in Hn. destruct (Qlt_le_dec _ _) as [Hlt|]; [|done]. unfold dist2 in Hlt.
    split; apply near_window; try done.
    - assert (0 <= inject_Z o.2 * sy * (inject_Z o.2 * sy))%Q by nra. lra.
    - assert (0 <= inject_Z o.1 * sx * (inject_Z o.1 * sx))%Q by nra. lra.
  Qed.
  Lemma trunc_bound s : (0 < s)%Q -> (0 <= r)%Q -> (r / s < inject_Z 2147483646)%Q -> 0 <= trunc (r / s) < 2147483646.
  Proof.
    intros Hs Hr Hlt. unfold trunc. split.
    - rewrite <- (Qfloor_Z 0). apply Qfloor_resp_le. apply Qle_shift_div_l; [done|]. change (inject_Z 0) with 0%Q. lra.
    - rewrite Zlt_Qlt. eapply Qle_lt_trans; [apply Qfloor_le|done].
  Qed.
  Lemma to_int_spec x o : 0 <= x <= int_max -> -2147483647 <= o <= 2147483647 ->
    (x + o <= int_max -> to_int (x + o) = x + o) /\ (int_max < x + o -> to_int (x + o) < 0).
  Proof.
    unfold to_int, int_max. intros Hx Ho. split; intros H.
    - rewrite Z.mod_small; lia.
    - rewrite <- (Z_mod_plus_full _ (-1)). rewrite Z.mod_small; lia.
  Qed.
  Lemma target_spec c o t : fits -> is_cell c -> target c o = Some t <->
    near o = true /\ t = (c.1 + o.1, c.2 + o.2) /\ is_cell t.
  Proof.
    intros Hf Hc. unfold target. cbn zeta. destruct (near o) eqn:Hn; cbn [andb]; [|naive_solver].
    pose proof (near_bound o Hf Hn) as [H1 H2]. pose proof Hf as (Hw & Hh & Hsx & Hsy & Hr & Hlx & Hly).
    pose proof (trunc_bound sx Hsx Hr Hlx). pose proof (trunc_bound sy Hsy Hr Hly). destruct Hc as [Hcx Hcy].
    destruct (to_int_spec c.1 o.1) as [Hx1 Hx2]; [lia|lia|]. destruct (to_int_spec c.2 o.2) as [Hy1 Hy2]; [lia|lia|].
    case_bool_decide as Ht.
    - destruct (decide (int_max < c.1 + o.1)) as [Hgt|Hle]; [specialize (Hx2 Hgt); unfold is_cell in Ht; cbn in Ht; lia|].
      destruct (decide (int_max < c.2 + o.2)) as [Hgt'|Hle']; [specialize (Hy2 Hgt'); unfold is_cell in Ht; cbn in Ht; lia|].
      rewrite Hx1, Hy1 in * by lia. naive_solver.
    - split; [done|]. intros (_ & -> & Ht'). exfalso. apply Ht. unfold is_cell in *. cbn in *.
      rewrite Hx1, Hy1 by lia. done.
  Qed.
  (** the targets of a cell are the cells in the radius, if the window is large enough *)
  Lemma targets_spec wx wy c t : fits -> is_cell c -> trunc (r / sx) <= wx -> trunc (r / sy) <= wy ->
    t ∈ omap (target c) (offsets wx wy) <-> is_cell t /\ in_radius c t.
  Proof.
    intros Hf Hc Hwx Hwy. rewrite elem_of_list_omap. split.
    - intros (o & _ & Ht). apply target_spec in Ht as (Hn & -> & Ht); [|done|done]. split; [done|]. unfold in_radius. cbn.
      replace (c.1 + o.1 - c.1) with o.1 by lia. replace (c.2 + o.2 - c.2) with o.2 by lia.
      unfold near in Hn. by destruct (Qlt_le_dec _ _).
    - intros [Ht Hin]. exists (t.1 - c.1, t.2 - c.2). assert (Hn : near (t.1 - c.1, t.2 - c.2) = true).
      { unfold near, in_radius in *. cbn. destruct (Qlt_le_dec _ _) as [|Hge]; [done|]. by apply Qlt_not_le in Hin. }
      split.
      + pose proof (near_bound _ Hf Hn) as [H1 H2]. cbn [fst snd] in H1, H2. apply elem_of_offsets. cbn [fst snd]. lia.
      + apply target_spec; [done|done|]. split; [done|]. split; [|done]. destruct t; cbn. f_equal; lia.
  Qed.
  Lemma foldl_targets {S} (f : S -> cell -> S) c os s :
    foldl (fun s o => match target c o with Some t => f s t | None => s end) s os = foldl f s (omap (target c) os).
  Proof. revert s. induction os as [|o os IH]; intros s; [done|]. cbn [foldl omap list_omap]. destruct (target c o); [|apply IH]. cbn. apply IH. Qed.
  Lemma iter_targets {S} (f : cell -> S -> out S S) c os s :
    iter_out (fun o s => match target c o with Some t => f t s | None => Ok s end) os s = iter_out f (omap (target c) os) s.
  Proof.
    revert s. induction os as [|o os IH]; intros s; [done|]. cbn [iter_out omap list_omap]. destruct (target c o) as [t|]; cbn [iter_out obind]; [|apply IH].
    destruct (f t s); cbn [obind]; [apply IH|done..].
  Qed.

  (** * C41 *)
  Lemma mark_all ts c s : let s' := foldl (fun s t => (upd t OBSTACLE s.1, upd c 255%nat s.2)) s ts in
    (forall t, s'.1 t = if decide (t ∈ ts) then OBSTACLE else s.1 t) /\ (forall t, t <> c \/ ts = [] -> s'.2 t = s.2 t) /\ (ts <> [] -> s'.2 c = 255%nat).
  Proof.
    revert s. induction ts as [|t ts IH]; intros s; cbn [foldl].
    - split; [|done]. intros t. by rewrite decide_False by (apply not_elem_of_nil).
    - destruct (IH (upd t OBSTACLE s.1, upd c 255%nat s.2)) as (H1 & H2 & H3). cbn zeta. cbn [fst snd] in *. split; [|split].
      + intros t'. rewrite H1. destruct (decide (t' ∈ ts)), (decide (t' ∈ t :: ts)) as [Hin|Hin]; try done.
        * exfalso. apply Hin. set_solver.
        * apply elem_of_cons in Hin as [->|Hin]; [apply upd_same|done].
        * apply upd_other. set_solver.
      + intros t' [Hne|]; [|done]. rewrite H2 by (by left). by apply upd_other.
      + intros _. destruct ts; [cbn; by rewrite upd_same|by apply H3].
  Qed.
  (** growObstacles makes an obstacle of exactly the cells that are nearer to an obstacle than the radius, and leaves the classes of the
      other cells alone; it writes the probability of cells that were obstacles before, and of no other cells. *)
  Theorem C41_dilation orig prob : fits -> let '(data, prob') := grow_obstacles orig prob in
    forall t, is_cell t ->
      ((exists c, is_cell c /\ orig c = OBSTACLE /\ in_radius c t) -> data t = OBSTACLE) /\
      (~ (exists c, is_cell c /\ orig c = OBSTACLE /\ in_radius c t) -> data t = orig t) /\
      (prob' t = prob t \/ orig t = OBSTACLE /\ prob' t = 255%nat).
  Proof.
    intros Hf. unfold grow_obstacles.
    assert (Hgen : forall cs s, (forall c, c ∈ cs -> is_cell c) ->
      (forall t, is_cell t -> s.2 t = prob t \/ orig t = OBSTACLE /\ s.2 t = 255%nat) ->
      let s' := foldl (fun s c =>
        if decide (orig c = OBSTACLE) then
        foldl (fun s o => match target c o with Some t => (upd t OBSTACLE s.1, upd c 255%nat s.2) | None => s end) s (offsets (trunc (r / sx)) (trunc (r / sy)))
        else s) s cs in
      forall t, is_cell t ->
        ((exists c, c ∈ cs /\ orig c = OBSTACLE /\ in_radius c t) -> s'.1 t = OBSTACLE) /\
        (s.1 t = OBSTACLE -> s'.1 t = OBSTACLE) /\
        (~ (exists c, c ∈ cs /\ orig c = OBSTACLE /\ in_radius c t) -> s'.1 t = s.1 t) /\
        (s'.2 t = prob t \/ orig t = OBSTACLE /\ s'.2 t = 255%nat)).
    { induction cs as [|c cs IH]; intros s Hcs Hp.
      - cbn zeta. intros t Ht. cbn [foldl]. split; [set_solver|]. split; [done|]. split; [done|]. by apply Hp.
      - cbn zeta. cbn [foldl]. intros t Ht. set (s1 := if decide (orig c = OBSTACLE) then _ else s).
        assert (Hs1 : (forall t, is_cell t -> s1.1 t = OBSTACLE \/ s1.1 t = s.1 t) /\
          (forall t, is_cell t -> orig c = OBSTACLE /\ in_radius c t -> s1.1 t = OBSTACLE) /\
          (forall t, is_cell t -> ~ (orig c = OBSTACLE /\ in_radius c t) -> s1.1 t = s.1 t) /\
          (forall t, is_cell t -> s1.2 t = prob t \/ orig t = OBSTACLE /\ s1.2 t = 255%nat)).
        { unfold s1. destruct (decide (orig c = OBSTACLE)) as [Ho|Ho].
          - rewrite (foldl_targets (fun s t => (upd t OBSTACLE s.1, upd c 255%nat s.2))).
            set (ts := omap (target c) _).
            assert (Hts : forall t, t ∈ ts <-> is_cell t /\ in_radius c t).
            { intros t'. apply targets_spec; [done|apply Hcs; set_solver|lia|lia]. }
            destruct (mark_all ts c s) as (H1 & H2 & H3). split; [|split; [|split]].
            + intros t' Ht'. rewrite H1. case_decide; auto.
            + intros t' Ht' [_ Hin]. rewrite H1. rewrite decide_True; [done|]. by apply Hts.
            + intros t' Ht' Hn. rewrite H1. rewrite decide_False; [done|]. rewrite Hts. tauto.
            + intros t' Ht'. destruct (decide (t' = c)) as [->|Hne].
              * destruct (decide (ts = [])) as [He|He]; [rewrite H2 by (by right); by apply Hp|]. right. split; [done|by apply H3].
              * rewrite H2 by (by left). by apply Hp.
          - split; [auto|]. split; [naive_solver|]. split; [done|done]. }
        destruct Hs1 as (Ha & Hb & Hc & Hd). destruct (IH s1 ltac:(set_solver) Hd t Ht) as (H1 & H2 & H3 & H4).
        split; [|split; [|split]].
        + intros (c' & Hin & Ho & Hr). apply elem_of_cons in Hin as [->|Hin]; [apply H2; by apply Hb|]. apply H1. eauto.
        + intros Hs. apply H2. destruct (Ha t Ht) as [->| ->]; done.
        + intros Hn. rewrite H3; [apply Hc; [done|]|].
          * intros [Ho Hr]. apply Hn. exists c. split; [set_solver|done].
          * intros (c' & Hin & Hr). apply Hn. exists c'. split; [set_solver|done].
        + done. }
    destruct (foldl _ (orig, prob) all_cells) as [data prob'] eqn:E. intros t Ht.
    destruct (Hgen all_cells (orig, prob)) with (t := t) as (H1 & _ & H3 & H4); [intros c; by apply elem_of_all_cells|by left|done|].
    cbn zeta in *. rewrite E in H1, H3, H4. cbn [fst snd] in *. split; [|split; [|done]].
    - intros (c & Hc & Hr). apply H1. exists c. by rewrite elem_of_all_cells.
    - intros Hn. apply H3. intros (c & Hc & Hr). apply Hn. exists c. by rewrite <- elem_of_all_cells.
  Qed.

  (** * Growing by a relation *)
  Section Rel.
    Context {V : Type} (bigger : V -> V -> bool).
    Definition put (v : V) (t : cell) (d : cell -> V) : cell -> V := if bigger v (d t) then upd t v d else d.
    Definition grown (orig : cell -> V) (cs : list cell) (ts : cell -> list cell) (d : cell -> V) : cell -> V :=
      foldl (fun d c => foldl (fun d t => put (orig c) t d) d (ts c)) d cs.
    Lemma put_spec v t d t' : put v t d t' = if decide (t' = t) then (if bigger v (d t) then v else d t) else d t'.
    Proof. unfold put. destruct (bigger v (d t)); unfold upd; case_decide; subst; done. Qed.
    Lemma puts_spec v ts d : (forall a, bigger a a = false) -> (forall a b c, bigger a b = true -> bigger b c = true -> bigger a c = true) ->
      forall t, let r := foldl (fun d t => put v t d) d ts t in
      (r = d t \/ r = v /\ t ∈ ts /\ bigger v (d t) = true) /\ (t ∈ ts -> bigger v r = false) /\ (r = d t \/ bigger r (d t) = true).
    Proof.
      intros Hirr Htr. revert d. induction ts as [|t0 ts IH]; intros d t; cbn [foldl]; cbn zeta.
      { split; [by left|]. split; [set_solver|by left]. }
      destruct (IH (put v t0 d) t) as (H1 & H2 & H3). cbn zeta in *. rewrite put_spec in H1, H3.
      destruct (decide (t = t0)) as [->|Hne].
      - destruct (bigger v (d t0)) eqn:Eb.
        + assert (foldl (fun d t => put v t d) (put v t0 d) ts t0 = v) as Hv. { destruct H1 as [H|[H _]]; exact H. }
          rewrite Hv. split; [right; split; [done|]; split; [set_solver|done]|]. split; [by rewrite Hirr|]. by right.
        + destruct H1 as [H1|(H1 & _ & H1')]; [|congruence]. rewrite H1. split; [by left|]. split; [done|by left].
      - split; [|split].
        + destruct H1 as [->|(-> & Hin & Hb)]; [by left|]. right. split; [done|]. split; [set_solver|done].
        + intros Hin. apply elem_of_cons in Hin as [->|Hin]; [done|by apply H2].
        + done.
    Qed.
    Lemma grown_spec orig cs ts : (forall a, bigger a a = false) -> (forall a b c, bigger a b = true -> bigger b c = true -> bigger a c = true) ->
      forall d t, let r := grown orig cs ts d t in
      (r = d t \/ exists c, c ∈ cs /\ t ∈ ts c /\ r = orig c) /\ (forall c, c ∈ cs -> t ∈ ts c -> bigger (orig c) r = false) /\ (r = d t \/ bigger r (d t) = true).
    Proof.
      intros Hirr Htr. induction cs as [|c cs IH]; intros d t; unfold grown; cbn [foldl]; cbn zeta.
      { split; [by left|]. split; [set_solver|by left]. }
      fold (grown orig cs ts (foldl (fun d t => put (orig c) t d) d (ts c))).
      set (d1 := foldl (fun d t => put (orig c) t d) d (ts c)).
      destruct (puts_spec (orig c) (ts c) d Hirr Htr t) as (P1 & P2 & P3). cbn zeta in *. fold d1 in P1, P2, P3.
      destruct (IH d1 t) as (H1 & H2 & H3). cbn zeta in *. split; [|split].
      - destruct H1 as [H1|(c' & Hin & Ht & H1)]; [|right; exists c'; split; [set_solver|done]]. rewrite H1.
        destruct P1 as [P1|(P1 & Ht & _)]; [by left|]. right. exists c. split; [set_solver|done].
      - intros c' Hin Ht. apply elem_of_cons in Hin as [->|Hin]; [|by apply H2]. specialize (P2 Ht).
        destruct H3 as [->|H3]; [done|]. destruct (bigger (orig c) (grown orig cs ts d1 t)) eqn:Eb; [|done].
        by rewrite (Htr _ _ _ Eb H3) in P2.
      - destruct H3 as [->|H3]; [done|]. right. destruct P3 as [<-|P3]; [done|]. by eapply Htr.
    Qed.
  End Rel.

  Lemma window_ok : fits -> trunc (r / sx) <= trunc (r / sx + 1) /\ trunc (r / sy) <= trunc (r / sy + 1).
  Proof. intros _. unfold trunc. split; apply Qfloor_resp_le; lra. Qed.

  (** * C42, ObjectGrowing *)
  (** [bigger] is a strict partial order on the values below [size] that occur in the grid *)
  Theorem C42_objects size bigger orig : fits -> (forall c, is_cell c -> orig c < size)%nat ->
    (forall a, bigger a a = false) -> (forall a b c, bigger a b = true -> bigger b c = true -> bigger a c = true) ->
    exists data, grow_objects size bigger orig = Ok data /\ forall t, is_cell t ->
      (data t = orig t \/ exists c, is_cell c /\ in_radius c t /\ data t = orig c) /\
      (forall c, is_cell c -> in_radius c t -> bigger (orig c) (data t) = false).
  Proof.
    intros Hf Hsz Hirr Htr. set (os := offsets (trunc (r / sx + 1)) (trunc (r / sy + 1))). set (ts := fun c => omap (target c) os).
    assert (Hts : forall c t, is_cell c -> t ∈ ts c <-> is_cell t /\ in_radius c t).
    { intros c t Hc. apply targets_spec; [done|done|apply window_ok, Hf|apply window_ok, Hf]. }
    assert (Hin : forall tl c d, is_cell c -> (forall t, is_cell t -> d t < size)%nat -> (forall t, t ∈ tl -> is_cell t) ->
      let d' := foldl (fun d t => put bigger (orig c) t d) d tl in
      iter_out (fun t d => if decide (orig c < size /\ d t < size)%nat then Ok (if bigger (orig c) (d t) then upd t (orig c) d else d) else Bad UB) tl d = Ok d' /\
      (forall t, is_cell t -> d' t < size)%nat).
    { induction tl as [|t tl IH]; intros c d Hc Hd Htl; cbn [foldl iter_out]; cbn zeta; [done|].
      rewrite decide_True by (split; [by apply Hsz|apply Hd, Htl; set_solver]). cbn [obind]. fold (put bigger (orig c) t d).
      apply IH; [done| |set_solver]. intros t' Ht'. rewrite put_spec. case_decide; [|by apply Hd]. subst. destruct (bigger _ _); [by apply Hsz|by apply Hd]. }
    assert (Hout : forall cs d, (forall c, c ∈ cs -> is_cell c) -> (forall t, is_cell t -> d t < size)%nat ->
      iter_out (fun c => iter_out (fun o d => match target c o with
        | Some t => if decide (orig c < size /\ d t < size)%nat then Ok (if bigger (orig c) (d t) then upd t (orig c) d else d) else Bad UB
        | None => Ok d end) os) cs d = Ok (grown bigger orig cs ts d)).
    { induction cs as [|c cs IH]; intros d Hcs Hd; [done|]. cbn [iter_out]. unfold grown. cbn [foldl].
      rewrite (iter_targets (fun t d => if decide (orig c < size /\ d t < size)%nat then Ok (if bigger (orig c) (d t) then upd t (orig c) d else d) else Bad UB)).
      assert (Hc : is_cell c) by (apply Hcs; set_solver).
      change (omap (target c) os) with (ts c). destruct (Hin (ts c) c d Hc Hd) as [-> Hd']; [intros t Ht; by apply (Hts c t Hc)|]. cbn [obind]. apply IH; [set_solver|done]. }
    unfold grow_objects. fold os. rewrite Hout; [|intros c; by apply elem_of_all_cells|done]. eexists. split; [reflexivity|]. intros t Ht.
    destruct (grown_spec bigger orig all_cells ts Hirr Htr orig t) as (H1 & H2 & _). cbn zeta in *. split.
    - destruct H1 as [H1|(c & Hc & Htc & H1)]; [by left|]. right. apply elem_of_all_cells in Hc. exists c. split; [done|]. split; [|done]. by apply Hts.
    - intros c Hc Hr. apply H2; [by apply elem_of_all_cells|]. by apply Hts.
  Qed.

  (** * C42, TraversabilityGrowClasses *)
  Section Terrain.
    Context (classes : list tclass).
    Definition driv (k : nat) : Q := match classes !! k with Some c => drivability c | None => 0%Q end.
    Definition worse (a b : nat * nat) : bool :=
      bool_decide (a.2 <> 0%nat) && (bool_decide (b.2 = 0%nat) || (if Qlt_le_dec (driv a.1) (driv b.1) then true else false)).
    Lemma worse_irr a : worse a a = false.
    Proof.
      unfold worse. case_bool_decide; [|done]. rewrite bool_decide_eq_false_2 by done. cbn. destruct (Qlt_le_dec _ _) as [H1|]; [by apply Qlt_irrefl in H1|done].
    Qed.
    Lemma worse_trans a b c : worse a b = true -> worse b c = true -> worse a c = true.
    Proof.
      unfold worse. rewrite !andb_true_iff, !orb_true_iff, !bool_decide_eq_true. intros [Ha Hab] [Hb Hbc]. split; [done|].
      destruct Hab as [|Hab]; [done|]. destruct Hbc as [|Hbc]; [by left|]. right.
      destruct (Qlt_le_dec (driv a.1) (driv b.1)); [|done]. destruct (Qlt_le_dec (driv b.1) (driv c.1)); [|done].
      destruct (Qlt_le_dec (driv a.1) (driv c.1)) as [|Hge]; [done|]. exfalso. lra.
    Qed.
    (** A cell is known if its probability is not 0.  If all classes of the map are registered, each cell of the result has the class and
        probability of a cell in the radius (or keeps its own), and if there is a known cell in the radius the result is known and
        not better to drive on than any known cell in the radius. *)
    Theorem C42_terrains inp : fits -> (forall c, is_cell c -> (inp c).1 < length classes)%nat ->
      exists data, grow_terrains classes inp = Ok data /\ forall t, is_cell t ->
        (data t = inp t \/ exists c, is_cell c /\ in_radius c t /\ data t = inp c) /\
        (forall c, is_cell c -> in_radius c t -> (inp c).2 <> 0%nat -> (data t).2 <> 0%nat /\ (driv (data t).1 <= driv (inp c).1)%Q).
    Proof.
      intros Hf Hsz. set (os := offsets (trunc (r / sx + 1)) (trunc (r / sy + 1))). set (ts := fun c => omap (target c) os).
      assert (Hts : forall c t, is_cell c -> t ∈ ts c <-> is_cell t /\ in_radius c t).
      { intros c t Hc. apply targets_spec; [done|done|apply window_ok, Hf|apply window_ok, Hf]. }
      assert (Hin : forall tl c cur d, is_cell c -> (inp c).2 <> 0%nat -> classes !! (inp c).1 = Some cur -> (forall t, is_cell t -> (d t).1 < length classes)%nat ->
        (forall t, t ∈ tl -> is_cell t) ->
        let d' := foldl (fun d t => put worse (inp c) t d) d tl in
        iter_out (fun t d => match classes !! (d t).1 with None => Bad UB | Some other =>
          Ok (if decide ((d t).2 = 0%nat) then upd t (inp c) d else if Qlt_le_dec (drivability cur) (drivability other) then upd t (inp c) d else d) end) tl d = Ok d' /\
        (forall t, is_cell t -> (d' t).1 < length classes)%nat).
      { induction tl as [|t tl IH]; intros c cur d Hc Hk Hcur Hd Htl; cbn [foldl iter_out]; cbn zeta; [done|].
        destruct (lookup_lt_is_Some_2 classes (d t).1) as [other Ho]; [apply Hd, Htl; set_solver|]. rewrite Ho. cbn [obind].
        assert (Hput : (if decide ((d t).2 = 0%nat) then upd t (inp c) d else if Qlt_le_dec (drivability cur) (drivability other) then upd t (inp c) d else d) = put worse (inp c) t d).
        { unfold put, worse. rewrite bool_decide_eq_true_2 by done. cbn [andb]. unfold driv. rewrite Hcur, Ho.
          destruct (decide ((d t).2 = 0%nat)) as [Hz|Hz]; [by rewrite bool_decide_eq_true_2|]. rewrite bool_decide_eq_false_2 by done. cbn. by destruct (Qlt_le_dec _ _). }
        rewrite Hput. apply (IH c cur); [done|done|done| |set_solver]. intros t' Ht'. rewrite put_spec. destruct (decide (t' = t)) as [->|]; [|by apply Hd]. destruct (worse _ _); [by apply Hsz|by apply Hd]. }
      assert (Hskip : forall tl c d, (inp c).2 = 0%nat -> foldl (fun d t => put worse (inp c) t d) d tl = d).
      { induction tl as [|t tl IH]; intros c d Hz; [done|]. cbn [foldl]. rewrite IH by done. unfold put, worse. by rewrite bool_decide_eq_false_2 by (by intros []). }
      assert (Hout : forall cs d, (forall c, c ∈ cs -> is_cell c) -> (forall t, is_cell t -> (d t).1 < length classes)%nat ->
        iter_out (fun c d0 => if decide ((inp c).2 = 0%nat) then Ok d0 else
          match classes !! (inp c).1 with None => Bad UB | Some cur =>
          iter_out (fun o d => match target c o with
          | Some t => match classes !! (d t).1 with None => Bad UB | Some other =>
                        Ok (if decide ((d t).2 = 0%nat) then upd t (inp c) d else if Qlt_le_dec (drivability cur) (drivability other) then upd t (inp c) d else d) end
          | None => Ok d end) os d0 end) cs d = Ok (grown worse inp cs ts d)).
      { induction cs as [|c cs IH]; intros d Hcs Hd; [done|]. cbn [iter_out]. unfold grown. cbn [foldl]. assert (Hc : is_cell c) by (apply Hcs; set_solver).
        destruct (decide ((inp c).2 = 0%nat)) as [Hz|Hz].
        - rewrite Hskip by done. cbn [obind]. apply IH; [set_solver|done].
        - destruct (lookup_lt_is_Some_2 classes (inp c).1) as [cur Hcur]; [by apply Hsz|]. rewrite Hcur.
          rewrite (iter_targets (fun t d => match classes !! (d t).1 with None => Bad UB | Some other =>
                        Ok (if decide ((d t).2 = 0%nat) then upd t (inp c) d else if Qlt_le_dec (drivability cur) (drivability other) then upd t (inp c) d else d) end)).
          change (omap (target c) os) with (ts c). destruct (Hin (ts c) c cur d Hc Hz Hcur Hd) as [-> Hd']; [intros t Ht; by apply (Hts c t Hc)|]. cbn [obind]. apply IH; [set_solver|done]. }
      unfold grow_terrains. fold os. rewrite Hout; [|intros c; by apply elem_of_all_cells|done]. eexists. split; [reflexivity|]. intros t Ht.
      destruct (grown_spec worse inp all_cells ts worse_irr worse_trans inp t) as (H1 & H2 & _). cbn zeta in *. split.
      - destruct H1 as [H1|(c & Hc & Htc & H1)]; [by left|]. right. apply elem_of_all_cells in Hc. exists c. split; [done|]. split; [|done]. by apply Hts.
      - intros c Hc Hr Hk. specialize (H2 c ltac:(by apply elem_of_all_cells) ltac:(by apply Hts)).
        unfold worse in H2. rewrite bool_decide_eq_true_2 in H2 by done. cbn [andb] in H2. apply orb_false_iff in H2 as [H2 H3].
        apply bool_decide_eq_false in H2. split; [done|]. destruct (Qlt_le_dec (driv (inp c).1) _) as [|Hle]; [done|]. exact Hle.
    Qed.
  End Terrain.
End Grid.

(** * Concrete cases *)
Definition g_orig (c : cell) : nat := if decide (c = (1, 1)) then 1%nat else 3%nat.
Example fits_4_3 : fits 4 3 1 (1#2) (5#4).
Proof. unfold fits, int_max. repeat split; try lia; by vm_compute. Qed.
Example C41_nonvacuous : fits 4 3 1 (1#2) (5#4) /\
  let '(d, p) := grow_obstacles 4 3 1 (1#2) (5#4) g_orig (fun _ => 7%nat) in
  (d <$> all_cells 4 3 = [1; 1; 1; 3; 1; 1; 1; 3; 1; 1; 1; 3]%nat) /\ p <$> all_cells 4 3 = [7; 7; 7; 7; 7; 255; 7; 7; 7; 7; 7; 7]%nat.
Proof. split; [exact fits_4_3|]. vm_compute. done. Qed.
(** The probability of the cells that become obstacles is not written; the probability of the obstacles they come from is. *)
Theorem C41_probability_refuted : exists orig prob t, is_cell 4 3 t /\ orig t <> OBSTACLE /\
  let '(d, p) := grow_obstacles 4 3 1 (1#2) (5#4) orig prob in d t = OBSTACLE /\ p t = 0%nat.
Proof. exists g_orig, (fun _ => 0%nat), (0, 0). split; [unfold is_cell; cbn; lia|]. split; [done|]. vm_compute. done. Qed.

(** a policy of three values where 1 grows over 2 and over 0, and 2 over 0 *)
Definition g_bigger (a b : nat) : bool := match a, b with 1%nat, 2%nat | 1%nat, 0%nat | 2%nat, 0%nat => true | _, _ => false end.
Definition g_obj (c : cell) : nat := if decide (c = (1, 1)) then 1%nat else if decide (c = (3, 0)) then 2%nat else 0%nat.
Example C42_objects_nonvacuous : fits 4 3 1 (1#2) (5#4) /\ (forall c, is_cell 4 3 c -> g_obj c < 3)%nat /\ (forall a, g_bigger a a = false) /\
  (forall a b c, g_bigger a b = true -> g_bigger b c = true -> g_bigger a c = true) /\
  exists d, grow_objects 4 3 1 (1#2) (5#4) 3 g_bigger g_obj = Ok d /\ d <$> all_cells 4 3 = [1; 1; 1; 2; 1; 1; 1; 2; 1; 1; 1; 2]%nat.
Proof.
  split; [exact fits_4_3|]. split. { intros c _. unfold g_obj. repeat case_decide; lia. }
  split; [by intros [|[|[|]]]|]. split; [by intros [|[|[|]]] [|[|[|]]] [|[|[|]]]|].
  eexists. split; [vm_compute; reflexivity|]. vm_compute. done.
Qed.
(** The table of the policy has no row for the largest value: growing a map that contains it is undefined behaviour. *)
Theorem C42_max_value_refuted : exists orig, (forall c, orig c <= 255)%nat /\ grow_objects 4 3 1 (1#2) (5#4) 255 (fun _ _ => false) orig = Bad UB.
Proof. exists (fun _ => 255%nat). split; [lia|]. vm_compute. done. Qed.

Definition g_terrain (c : cell) : nat * nat := if decide (c = (1, 1)) then (1, 200)%nat else if decide (c = (3, 0)) then (0, 0)%nat else (2, 100)%nat.
Example C42_terrains_nonvacuous : fits 4 3 1 (1#2) (5#4) /\ (forall c, is_cell 4 3 c -> (g_terrain c).1 < length [1%Q; (1#4)%Q; (1#2)%Q])%nat /\
  exists d, grow_terrains 4 3 1 (1#2) (5#4) [1%Q; (1#4)%Q; (1#2)%Q] g_terrain = Ok d /\
    d <$> all_cells 4 3 = [(1, 200); (1, 200); (1, 200); (2, 100); (1, 200); (1, 200); (1, 200); (2, 100); (1, 200); (1, 200); (1, 200); (2, 100)]%nat.
Proof.
  split; [exact fits_4_3|]. split. { intros c _. unfold g_terrain. repeat case_decide; cbn; lia. }
  eexists. split; [vm_compute; reflexivity|]. vm_compute. done.
Qed.
(** A cell with a class that was never registered makes growing undefined. *)
Theorem C42_unregistered_refuted : grow_terrains 4 3 1 (1#2) (5#4) [1%Q; (1#4)%Q] g_terrain = Bad UB.
Proof. vm_compute. done. Qed.
