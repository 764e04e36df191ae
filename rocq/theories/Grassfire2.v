(** The expansion of TraversabilityGrassfire (src/operators/TraversabilityGrassfire.cpp:14-34, 37-160, 167-298, 399-469).  C39, C60, C61. *)
From Coq Require Import ZArith QArith Qround Qabs Qminmax Lqa.
From stdpp Require Import prelude.
From Verif Require Import Base Bresenham Growing Grassfire.
Local Open Scope Z_scope.

Section Fire.
  (** the size of the MLSGrid, its patches, the configuration *)
  Context (w h : Z) (patches : cell -> list patch) (cfg : config).

  (** getNearestPatchWhereRobotFits at a cell *)
  Definition find_at (c : cell) (height : Q) : out () (option (patch * bool)) := find_patch cfg (S (length (patches c))) (patches c) height.
  (** the maps bestPatchMap and visited, the searchList; [expanded] is not in the code, it logs the calls of addNeightboursToSearchList *)
  Record fire : Type := Fire { best : cell -> option patch; visited : cell -> bool; queue : list (cell * patch); expanded : list cell }.
  (** :204-213: the neighbours of a cell in the grid *)
  Definition ring8 : list cell := [(-1, -1); (0, -1); (1, -1); (-1, 0); (1, 0); (-1, 1); (0, 1); (1, 1)].
  Definition neighbour (c o : cell) : option cell :=
    let n := (to_size (c.1 + o.1), to_size (c.2 + o.2)) in if decide (n.1 < w /\ n.2 < h) then Some n else None.
  Definition neighbours (c : cell) : list cell := omap (neighbour c) ring8.
  (** :199-219 *)
  Definition expand (c : cell) (p : patch) (s : fire) : fire :=
    Fire (upd c (Some p) (best s)) (upd c true (visited s)) (queue s ++ ((fun n => (n, p)) <$> neighbours c)) (expanded s ++ [c]).
  (** :167-197; the arrays have the size of the grid *)
  Definition check (c : cell) (origin : patch) (s : fire) : out fire fire :=
    if decide (is_cell w h c) then
      if visited s c then Ok s
      else match find_at c (top origin) with
           | Ok (Some (p, true)) => Ok (Fire (upd c (Some p) (best s)) (upd c true (visited s)) (queue s) (expanded s))
           | Ok (Some (p, false)) => Ok (expand c p (Fire (best s) (upd c true (visited s)) (queue s) (expanded s)))
           | Ok None => Ok (Fire (upd c None (best s)) (upd c true (visited s)) (queue s) (expanded s))
           | _ => NoFuel
           end
    else Bad UB.
  (** :452-459 *)
  Fixpoint burn (fuel : nat) (s : fire) : out fire fire :=
    match fuel with
    | O => NoFuel
    | S fuel => match queue s with
                | [] => Ok s
                | (c, o) :: q => s <~ check c o (Fire (best s) (visited s) q (expanded s)) ;; burn fuel s
                end
    end.

  (** ** The start, :222-298 *)
  (** :252-261 *)
  Definition rim (i : Z) : list cell := filter (fun o : cell => ~ (Z.abs o.2 <> i /\ Z.abs o.1 <> i)) (yi ← seqZ (- i) (2 * i + 1); xi ← seqZ (- i) (2 * i + 1); [(xi, yi)]).
  (** :246-250: the best patch so far, its cell and height difference *)
  Definition candidate : Type := option (cell * patch * Q).
  (** :262-281 *)
  Definition try_start (start : cell) (z : Q) (o : cell) (b : candidate) : out candidate candidate :=
    match neighbour start o with
    | None => Ok b
    | Some n =>
      match find_at n z with
      | Ok None => Ok b
      | Ok (Some (p, _)) =>
        let d := Qabs (z - p_mean p + p_stdev p) in
        Ok (if match b with None => true | Some (_, m) => qlt d m end then Some (n, p, d) else b)
      | _ => NoFuel
      end
    end.
  Fixpoint find_start (i : Z) (n : nat) (start : cell) (z : Q) : out candidate candidate :=
    match n with
    | O => Ok None
    | S n => b <~ iter_out (try_start start z) (rim i) None ;;
             match b with Some _ => Ok b | None => find_start (i + 1) n start z end
    end.
  (** :222-298; [None] if there is no start *)
  Definition drive_plane (start : cell) (z : Q) : out fire (option fire) :=
    match find_start 0 10 start z with
    | Ok (Some (c, p, _)) => Ok (Some (expand c p (Fire (fun _ => None) (fun _ => false) [] [])))
    | Ok None => Ok None
    | _ => NoFuel
    end.

  (** * Specification *)
  (** a grid of at most 2^60 cells in each direction whose patches have no negative standard deviations *)
  Definition fire_ok : Prop := 0 <= w <= 2 ^ 60 /\ 0 <= h <= 2 ^ 60 /\ forall c p, is_cell w h c -> p ∈ patches c -> (0 <= p_stdev p)%Q.
  Definition next_to (c d : cell) : Prop := c <> d /\ Z.abs (c.1 - d.1) <= 1 /\ Z.abs (c.2 - d.2) <= 1.
  (** cells and patches that the robot can get to from the start, each step being allowed by the search of C40 *)
  Inductive reach (c0 : cell) (p0 : patch) : cell -> patch -> Prop :=
  | reach_start : reach c0 p0 c0 p0
  | reach_step d pd c p : reach c0 p0 d pd -> next_to d c -> is_cell w h c -> find_at c (top pd) = Ok (Some (p, false)) -> reach c0 p0 c p.
  (** the entry of a cell is the answer of the search from the height of a neighbour that the fire was spread from *)
  Definition decided (s : fire) (c : cell) : Prop := exists d pd, d ∈ expanded s /\ next_to d c /\ best s d = Some pd /\
    ((exists p, find_at c (top pd) = Ok (Some (p, false)) /\ best s c = Some p /\ c ∈ expanded s) \/
     (exists p, find_at c (top pd) = Ok (Some (p, true)) /\ best s c = Some p /\ c ∉ expanded s) \/
     (find_at c (top pd) = Ok None /\ best s c = None /\ c ∉ expanded s)).

  Lemma to_size_id x : 0 <= x < 2 ^ 64 -> to_size x = x.
  Proof. intros Hx. unfold to_size. apply Z.mod_small. lia. Qed.
  Lemma to_size_neg x : - 2 ^ 60 <= x < 0 -> 2 ^ 62 < to_size x.
  Proof. intros Hx. unfold to_size. rewrite <- (Z_mod_plus_full _ 1). rewrite Z.mod_small; lia. Qed.
  Lemma neighbour_spec c o n : fire_ok -> is_cell w h c -> - 2 ^ 59 <= o.1 <= 2 ^ 59 -> - 2 ^ 59 <= o.2 <= 2 ^ 59 ->
    neighbour c o = Some n <-> n = (c.1 + o.1, c.2 + o.2) /\ is_cell w h n.
  Proof.
    intros (Hw & Hh & _) [Hx Hy] Hox Hoy. unfold neighbour. cbn zeta. cbn [fst snd].
    assert (Hcx : (c.1 + o.1 < 0 /\ 2 ^ 62 < to_size (c.1 + o.1)) \/ (0 <= c.1 + o.1 /\ to_size (c.1 + o.1) = c.1 + o.1)).
    { destruct (decide (c.1 + o.1 < 0)); [left|right]; (split; [lia|]); [apply to_size_neg|apply to_size_id]; lia. }
    assert (Hcy : (c.2 + o.2 < 0 /\ 2 ^ 62 < to_size (c.2 + o.2)) \/ (0 <= c.2 + o.2 /\ to_size (c.2 + o.2) = c.2 + o.2)).
    { destruct (decide (c.2 + o.2 < 0)); [left|right]; (split; [lia|]); [apply to_size_neg|apply to_size_id]; lia. }
    unfold is_cell. destruct (decide (to_size (c.1 + o.1) < w /\ to_size (c.2 + o.2) < h)) as [Hd|Hd].
    - destruct Hcx as [[? ?]|[Hcx Ex]]; [lia|]. destruct Hcy as [[? ?]|[Hcy Ey]]; [lia|]. rewrite Ex, Ey in *. split.
      + intros [= <-]. cbn [fst snd]. split; [done|lia].
      + intros [-> _]. done.
    - split; [done|]. intros [-> Hn]. cbn [fst snd] in Hn. destruct Hcx as [[? ?]|[_ Hcx]]; [lia|]. destruct Hcy as [[? ?]|[_ Hcy]]; [lia|].
      rewrite Hcx, Hcy in Hd. lia.
  Qed.
  Lemma elem_of_ring8 o : o ∈ ring8 <-> o <> (0, 0) /\ Z.abs o.1 <= 1 /\ Z.abs o.2 <= 1.
  Proof.
    unfold ring8. destruct o as [x y]. rewrite !elem_of_cons, elem_of_nil. cbn [fst snd]. split.
    - intros H. repeat destruct H as [H|H]; try done; injection H as -> ->; split; (done || lia).
    - intros (Hne & Hx & Hy). assert (x = -1 \/ x = 0 \/ x = 1) as Hx' by lia. assert (y = -1 \/ y = 0 \/ y = 1) as Hy' by lia.
      destruct Hx' as [->|[->| ->]], Hy' as [->|[->| ->]]; tauto.
  Qed.
  Lemma elem_of_neighbours c n : fire_ok -> is_cell w h c -> n ∈ neighbours c <-> next_to c n /\ is_cell w h n.
  Proof.
    intros Hok Hc. unfold neighbours. rewrite elem_of_list_omap. split.
    - intros (o & Ho & Hn). apply elem_of_ring8 in Ho as (Hne & Hx & Hy). apply neighbour_spec in Hn as [-> Hn]; [|done|done|lia|lia].
      split; [|done]. unfold next_to. cbn [fst snd]. split; [|lia]. intros He. apply Hne. destruct o as [ox oy], c as [cx cy]. cbn [fst snd] in He. injection He as ??. f_equal; lia.
    - intros [(Hne & Hx & Hy) Hn]. exists (n.1 - c.1, n.2 - c.2). split.
      + apply elem_of_ring8. cbn [fst snd]. split; [|lia]. intros [= H1 H2]. apply Hne. destruct c, n. cbn [fst snd] in *. f_equal; lia.
      + apply neighbour_spec; [done|done|cbn [fst snd]; lia|cbn [fst snd]; lia|]. cbn [fst snd]. split; [|done]. destruct n. cbn [fst snd]. f_equal; lia.
  Qed.
  Lemma length_neighbours c : (length (neighbours c) <= 8)%nat.
  Proof.
    unfold neighbours, ring8. assert (H : forall l, (length (omap (neighbour c) l) <= length l)%nat); [|apply H].
    induction l as [|o l IH]; [done|]. cbn [omap list_omap]. destruct (neighbour c o); cbn [length]; lia.
  Qed.
  Lemma find_at_ok c z : fire_ok -> is_cell w h c -> exists a, find_at c z = Ok a /\ answer_ok cfg (patches c) z a.
  Proof. intros (_ & _ & Hsd) Hc. apply C40_search; [intros p; by apply Hsd|lia]. Qed.

  (** ** the invariant of the fire *)
  Section Inv.
    Context (c0 : cell) (p0 : patch).
    Record good (s : fire) : Prop := {
      g_nodup : NoDup (expanded s);
      g_start : c0 ∈ expanded s /\ best s c0 = Some p0;
      g_exp : forall c, c ∈ expanded s -> is_cell w h c /\ visited s c = true /\ exists p, best s c = Some p /\ reach c0 p0 c p;
      g_queue : forall c o, (c, o) ∈ queue s -> is_cell w h c /\ exists d, d ∈ expanded s /\ next_to d c /\ best s d = Some o;
      g_decided : forall c, visited s c = true -> c = c0 \/ decided s c;
      g_rest : forall c, visited s c = false -> best s c = None;
      g_front : forall d c, d ∈ expanded s -> next_to d c -> is_cell w h c -> visited s c = true \/ exists o, (c, o) ∈ queue s
    }.
    Lemma good_expand c p s q0 : fire_ok -> good s -> is_cell w h c -> visited s c = false ->
      (forall c' o', (c', o') ∈ q0 -> (c', o') ∈ queue s) ->
      (forall c' o', (c', o') ∈ queue s -> c' = c \/ (c', o') ∈ q0) ->
      (exists d pd, d ∈ expanded s /\ next_to d c /\ best s d = Some pd /\ find_at c (top pd) = Ok (Some (p, false))) ->
      good (expand c p (Fire (best s) (upd c true (visited s)) q0 (expanded s))).
    Proof.
      intros Hok [G1 G2 G3 G4 G5 G6 G7] Hc Hv Hq1 Hq2 (d & pd & Hd & Hnt & Hbd & Hfind).
      assert (Hnin : forall c', c' ∈ expanded s -> c' <> c). { intros c' Hc' ->. apply G3 in Hc' as (_ & Hv' & _). congruence. }
      assert (Hb : forall c', c' ∈ expanded s -> upd c (Some p) (best s) c' = best s c'). { intros c' Hc'. apply upd_other. by apply Hnin. }
      constructor; cbn [expand best visited queue expanded].
      - apply NoDup_app. split; [done|]. split; [|apply NoDup_singleton]. intros c' Hc' Hs. apply elem_of_list_singleton in Hs. by apply (Hnin c').
      - destruct G2 as [G2 G2']. split; [apply elem_of_app; by left|]. by rewrite Hb.
      - intros c' Hc'. apply elem_of_app in Hc' as [Hc'|Hc'].
        + destruct (G3 c' Hc') as (H1 & H2 & H3). split; [done|]. split; [rewrite !upd_other by (by apply Hnin); done|]. by rewrite Hb.
        + apply elem_of_list_singleton in Hc' as ->. split; [done|]. split; [by rewrite upd_same|]. exists p. split; [apply upd_same|].
          destruct (G3 d Hd) as (_ & _ & pd' & Hpd' & Hr). rewrite Hbd in Hpd'. injection Hpd' as <-. by eapply reach_step.
      - intros c' o' Hin. apply elem_of_app in Hin as [Hin|Hin].
        + destruct (G4 c' o' (Hq1 _ _ Hin)) as (H1 & d' & H2 & H3 & H4). split; [done|]. exists d'. split; [apply elem_of_app; by left|]. split; [done|]. by rewrite Hb.
        + apply elem_of_list_fmap in Hin as (n & [= -> ->] & Hn). apply elem_of_neighbours in Hn as [H1 H2]; [|done|done]. split; [done|].
          exists c. split; [apply elem_of_app; right; by apply elem_of_list_singleton|]. split; [done|]. apply upd_same.
      - intros c' Hv'. destruct (decide (c' = c)) as [->|Hne].
        + right. unfold decided; cbn [expand best visited queue expanded]. exists d, pd. split; [apply elem_of_app; by left|]. split; [done|]. split; [by rewrite Hb|]. left. exists p.
          split; [done|]. split; [apply upd_same|]. apply elem_of_app. right. by apply elem_of_list_singleton.
        + rewrite !upd_other in Hv' by done. destruct (G5 c' Hv') as [->|(d' & pd' & H1 & H2 & H3 & H4)]; [by left|]. right. unfold decided; cbn [expand best visited queue expanded].
          exists d', pd'. split; [apply elem_of_app; by left|]. split; [done|]. split; [by rewrite Hb|].
          rewrite upd_other by done. destruct H4 as [(q & ? & ? & ?)|[(q & ? & ? & ?)|(? & ? & ?)]].
          * left. exists q. split; [done|]. split; [done|]. apply elem_of_app. by left.
          * right. left. exists q. split; [done|]. split; [done|]. rewrite elem_of_app, elem_of_list_singleton. by intros [|].
          * right. right. split; [done|]. split; [done|]. rewrite elem_of_app, elem_of_list_singleton. by intros [|].
      - intros c' Hv'. destruct (decide (c' = c)) as [->|Hne]; [by rewrite upd_same in Hv'|]. rewrite !upd_other in * by done. by apply G6.
      - intros d' c' Hd' Hnt' Hc'. destruct (decide (c' = c)) as [->|Hne]; [left; apply upd_same|]. rewrite !upd_other by done.
        apply elem_of_app in Hd' as [Hd'|Hd'].
        + destruct (G7 d' c' Hd' Hnt' Hc') as [|[o' Hin]]; [by left|]. destruct (Hq2 _ _ Hin) as [|Hin']; [done|]. right. exists o'. apply elem_of_app. by left.
        + apply elem_of_list_singleton in Hd' as ->. right. exists p. apply elem_of_app. right. apply elem_of_list_fmap. exists c'. split; [done|].
          by apply elem_of_neighbours.
    Qed.
    Lemma good_settle c v s q0 : good s -> is_cell w h c -> visited s c = false ->
      (forall c' o', (c', o') ∈ q0 -> (c', o') ∈ queue s) -> (forall c' o', (c', o') ∈ queue s -> c' = c \/ (c', o') ∈ q0) ->
      (exists d pd, d ∈ expanded s /\ next_to d c /\ best s d = Some pd /\
        ((exists p, v = Some p /\ find_at c (top pd) = Ok (Some (p, true))) \/ (v = None /\ find_at c (top pd) = Ok None))) ->
      good (Fire (upd c v (best s)) (upd c true (visited s)) q0 (expanded s)).
    Proof.
      intros [G1 G2 G3 G4 G5 G6 G7] Hc Hv Hq1 Hq2 (d & pd & Hd & Hnt & Hbd & Hfind).
      assert (Hnin : forall c', c' ∈ expanded s -> c' <> c). { intros c' Hc' ->. apply G3 in Hc' as (_ & Hv' & _). congruence. }
      assert (Hcn : c ∉ expanded s). { intros Hin. by apply (Hnin c). }
      assert (Hb : forall c', c' ∈ expanded s -> upd c v (best s) c' = best s c'). { intros c' Hc'. apply upd_other. by apply Hnin. }
      constructor; cbn [best visited queue expanded].
      - done.
      - destruct G2 as [G2 G2']. split; [done|]. by rewrite Hb.
      - intros c' Hc'. destruct (G3 c' Hc') as (H1 & H2 & H3). split; [done|]. split; [rewrite !upd_other by (by apply Hnin); done|]. by rewrite Hb.
      - intros c' o' Hin. destruct (G4 c' o' (Hq1 _ _ Hin)) as (H1 & d' & H2 & H3 & H4). split; [done|]. exists d'. split; [done|]. split; [done|]. by rewrite Hb.
      - intros c' Hv'. destruct (decide (c' = c)) as [->|Hne].
        + right. unfold decided; cbn [expand best visited queue expanded]. exists d, pd. split; [done|]. split; [done|]. split; [by rewrite Hb|]. right. cbn [best]. rewrite upd_same.
          destruct Hfind as [(p & -> & Hf)|[-> Hf]]; [left; by exists p|by right].
        + rewrite !upd_other in Hv' by done. destruct (G5 c' Hv') as [->|(d' & pd' & H1 & H2 & H3 & H4)]; [by left|]. right. unfold decided; cbn [expand best visited queue expanded].
          exists d', pd'. split; [done|]. split; [done|]. split; [by rewrite Hb|]. cbn [best]. rewrite upd_other by done. exact H4.
      - intros c' Hv'. destruct (decide (c' = c)) as [->|Hne]; [by rewrite upd_same in Hv'|]. rewrite !upd_other in * by done. by apply G6.
      - intros d' c' Hd' Hnt' Hc'. destruct (decide (c' = c)) as [->|Hne]; [left; apply upd_same|]. rewrite !upd_other by done.
        destruct (G7 d' c' Hd' Hnt' Hc') as [|[o' Hin]]; [by left|]. destruct (Hq2 _ _ Hin) as [|Hin']; [done|]. right. by exists o'.
    Qed.

    (** ** termination: unvisited cells and the length of the queue *)
    Definition unvisited (v : cell -> bool) : nat := length (filter (fun c => v c = false) (all_cells w h)).
    Lemma unvisited_decr v c : is_cell w h c -> v c = false -> (unvisited (upd c true v) < unvisited v)%nat.
    Proof.
      intros Hc Hv. apply elem_of_all_cells in Hc. unfold unvisited. induction (all_cells w h) as [|c' l IH]; [by apply elem_of_nil in Hc|].
      assert (Hle : forall l, (length (filter (fun c' => upd c true v c' = false) l) <= length (filter (fun c' => v c' = false) l))%nat).
      { clear. induction l as [|c' l IH]; [done|]. destruct (decide (c' = c)) as [->|Hne].
        - rewrite filter_cons_False by (by rewrite upd_same). rewrite filter_cons. case_decide; cbn [length]; lia.
        - rewrite !filter_cons. assert (Hu : upd c true v c' = v c') by (by apply upd_other). destruct (decide (upd c true v c' = false)), (decide (v c' = false)); cbn [length]; lia || congruence. }
      destruct (decide (c' = c)) as [->|Hne].
      - rewrite filter_cons_False by (by rewrite upd_same). rewrite filter_cons_True by done. cbn [length]. specialize (Hle l). lia.
      - apply elem_of_cons in Hc as [->|Hc]; [done|]. specialize (IH Hc). rewrite !filter_cons. assert (Hu : upd c true v c' = v c') by (by apply upd_other).
        destruct (decide (upd c true v c' = false)), (decide (v c' = false)); cbn [length]; lia || congruence.
    Qed.
    Definition work (s : fire) : nat := 8 * unvisited (visited s) + length (queue s).

    Lemma burn_spec : fire_ok -> forall fuel s, good s -> (work s < fuel)%nat -> exists s', burn fuel s = Ok s' /\ good s' /\ queue s' = [].
    Proof.
      intros Hok. induction fuel as [|fuel IH]; intros s Hg Hf; [lia|]. cbn [burn].
      destruct (queue s) as [|[c o] q] eqn:Eq; [by exists s|].
      assert (Hin : (c, o) ∈ queue s) by (rewrite Eq; left). destruct (g_queue s Hg c o Hin) as (Hc & d & Hd & Hnt & Hbd).
      unfold check. rewrite decide_True by done. cbn [visited].
      assert (Hq1 : forall c' o', (c', o') ∈ q -> (c', o') ∈ queue s). { intros c' o' H. rewrite Eq. by right. }
      assert (Hq2 : forall c' o', (c', o') ∈ queue s -> c' = c \/ (c', o') ∈ q).
      { intros c' o'. rewrite Eq. rewrite elem_of_cons. intros [[= -> ->]|H]; [by left|by right]. }
      destruct (visited s c) eqn:Ev.
      - cbn [obind]. apply IH.
        + destruct Hg as [G1 G2 G3 G4 G5 G6 G7]. constructor; cbn [best visited queue expanded]; try done.
          * intros c' o' H. by apply G4, Hq1.
          * intros d' c' Hd' Hnt' Hc'. destruct (G7 d' c' Hd' Hnt' Hc') as [|[o' Hin']]; [by left|].
            destruct (Hq2 _ _ Hin') as [->|]; [by left|]. right. by exists o'.
        + unfold work in *. cbn [visited queue]. rewrite Eq in Hf. cbn [length] in Hf. lia.
      - destruct (find_at_ok c (top o) Hok Hc) as (a & Ha & _). rewrite Ha. pose proof (unvisited_decr (visited s) c Hc Ev) as Hdec.
        destruct a as [[p [|]]|]; cbn [obind best queue expanded visited].
        + apply IH.
          * apply good_settle; try done. exists d, o. split; [done|]. split; [done|]. split; [done|]. left. by exists p.
          * unfold work in *. cbn [visited queue]. rewrite Eq in Hf. cbn [length] in Hf. lia.
        + apply IH.
          * apply good_expand; try done. by exists d, o.
          * unfold work in *. cbn [expand visited queue]. rewrite Eq in Hf. cbn [length] in Hf. rewrite app_length, fmap_length.
            pose proof (length_neighbours c). unfold unvisited in *.
            assert (Hext : length (filter (λ c1, upd c true (upd c true (visited s)) c1 = false) (all_cells w h)) = length (filter (λ c1, upd c true (visited s) c1 = false) (all_cells w h))).
            { f_equal. apply list_filter_iff. intros c1. unfold upd. repeat case_decide; done. }
            rewrite Hext. lia.
        + apply IH.
          * apply good_settle; try done. exists d, o. split; [done|]. split; [done|]. split; [done|]. by right.
          * unfold work in *. cbn [visited queue]. rewrite Eq in Hf. cbn [length] in Hf. lia.
    Qed.
  End Inv.

  (** the state after the start *)
  Lemma good_start c0 p0 : fire_ok -> is_cell w h c0 -> good c0 p0 (expand c0 p0 (Fire (fun _ => None) (fun _ => false) [] [])).
  Proof.
    intros Hok Hc. constructor; cbn [expand best visited queue expanded app].
    - apply NoDup_singleton.
    - split; [by apply elem_of_list_singleton|apply upd_same].
    - intros c Hin. apply elem_of_list_singleton in Hin as ->. split; [done|]. split; [apply upd_same|]. exists p0. split; [apply upd_same|constructor].
    - intros c o Hin. apply elem_of_list_fmap in Hin as (n & [= -> ->] & Hn). apply elem_of_neighbours in Hn as [H1 H2]; [|done|done]. split; [done|].
      exists c0. split; [by apply elem_of_list_singleton|]. split; [done|]. apply upd_same.
    - intros c Hv. destruct (decide (c = c0)) as [->|Hne]; [by left|]. by rewrite upd_other in Hv.
    - intros c Hv. destruct (decide (c = c0)) as [->|Hne]; [by rewrite upd_same in Hv|]. by rewrite upd_other.
    - intros d c Hd Hnt Hc'. apply elem_of_list_singleton in Hd as ->. right. exists p0. apply elem_of_list_fmap. exists c. split; [done|]. by apply elem_of_neighbours.
  Qed.

  (** ** C39 *)
  Definition fire_fuel : nat := Z.to_nat (8 * w * h + 9).
  Lemma length_all_cells : 0 <= w -> 0 <= h -> Z.of_nat (length (all_cells w h)) = w * h.
  Proof.
    intros Hw Hh. unfold all_cells.
    assert (H : forall l : list Z, length (l ≫= fun y => seqZ 0 w ≫= fun x => [(x, y)]) = (length l * Z.to_nat w)%nat).
    { induction l as [|y l IH]; [done|]. rewrite bind_cons, app_length, IH. f_equal.
      assert (H' : forall k, length (k ≫= fun x : Z => [(x, y)]) = length k). { induction k as [|x k IHk]; [done|]. rewrite bind_cons, app_length, IHk. done. }
      rewrite H', seqZ_length. done. }
    rewrite H, seqZ_length. nia.
  Qed.
  (** Whatever the start, the fire goes out, having spread from each cell at most once and without leaving the grid.  The cells it has
      spread from can be reached from the start; the entry of each other cell is the answer of the search from a cell the fire has
      spread from next to it; and a cell that is not next to one of them has no entry. *)
  Theorem C39_fire c0 p0 : fire_ok -> is_cell w h c0 -> exists s, burn fire_fuel (expand c0 p0 (Fire (fun _ => None) (fun _ => false) [] [])) = Ok s /\
    NoDup (expanded s) /\ c0 ∈ expanded s /\ best s c0 = Some p0 /\
    (forall c, c ∈ expanded s -> is_cell w h c /\ exists p, best s c = Some p /\ reach c0 p0 c p) /\
    (forall d c, d ∈ expanded s -> next_to d c -> is_cell w h c -> c = c0 \/ decided s c) /\
    (forall c, best s c <> None -> c = c0 \/ exists d, d ∈ expanded s /\ next_to d c).
  Proof.
    intros Hok Hc. destruct (burn_spec c0 p0 Hok fire_fuel _ (good_start c0 p0 Hok Hc)) as (s & Hs & [G1 G2 G3 G4 G5 G6 G7] & Hq).
    { unfold work, unvisited. cbn [expand visited queue]. rewrite app_nil_l, fmap_length. pose proof (length_neighbours c0).
      set (l := filter _ (all_cells w h)). assert (length l <= length (all_cells w h))%nat by apply filter_length.
      destruct Hok as (Hw & Hh & _). pose proof (length_all_cells ltac:(lia) ltac:(lia)). unfold fire_fuel.
      assert (Hsmall : (length l < length (all_cells w h))%nat \/ (length l = length (all_cells w h))%nat) by lia. lia. }
    exists s. split; [done|]. split; [done|]. destruct G2 as [G2 G2']. split; [done|]. split; [done|]. split; [|split].
    - intros c Hin. destruct (G3 c Hin) as (H1 & _ & H2). done.
    - intros d c Hd Hnt Hcc. destruct (G7 d c Hd Hnt Hcc) as [Hv|[o Hin]]; [by apply G5|]. rewrite Hq in Hin. by apply elem_of_nil in Hin.
    - intros c Hb. destruct (visited s c) eqn:Ev; [|by apply G6 in Ev]. destruct (G5 c Ev) as [->|(d & pd & H1 & H2 & _)]; [by left|]. right. by exists d.
  Qed.

  (** If what the search answers at a cell does not depend on the reachable neighbour that it starts from, the fire spreads from exactly
      the cells that can be reached. *)
  Corollary C39_exact c0 p0 : fire_ok -> is_cell w h c0 ->
    (forall c d pd d' pd' p, reach c0 p0 d pd -> next_to d c -> find_at c (top pd) = Ok (Some (p, false)) -> reach c0 p0 d' pd' -> next_to d' c -> is_cell w h c ->
       find_at c (top pd') = Ok (Some (p, false)) /\ (c = c0 -> p = p0)) ->
    exists s, burn fire_fuel (expand c0 p0 (Fire (fun _ => None) (fun _ => false) [] [])) = Ok s /\
      forall c p, reach c0 p0 c p <-> c ∈ expanded s /\ best s c = Some p.
  Proof.
    intros Hok Hc0 Hsame. destruct (C39_fire c0 p0 Hok Hc0) as (s & Hs & Hnd & Hin0 & Hb0 & Hexp & Hdec & _). exists s. split; [done|].
    assert (Hsp : forall c, c ∈ expanded s -> exists p, best s c = Some p /\ reach c0 p0 c p) by (intros c Hc; by apply Hexp).
    intros c p. split.
    - induction 1 as [|d pd c p Hr [IHe IHb] Hnt Hcc Hfind]; [done|].
      destruct (decide (c = c0)) as [->|Hne].
      { destruct (Hsame c0 d pd d pd p Hr Hnt Hfind Hr Hnt Hcc) as [_ Heq]. by rewrite (Heq eq_refl). }
      destruct (Hdec d c IHe Hnt Hcc) as [|(d' & pd' & He' & Hnt' & Hb' & Hcase)]; [done|].
      destruct (Hsp d' He') as (pd'' & Hb'' & Hr'). rewrite Hb' in Hb''. injection Hb'' as <-.
      destruct (Hsame c d pd d' pd' p Hr Hnt Hfind Hr' Hnt' Hcc) as [Hf' _].
      destruct Hcase as [(q & Hq & Hb & He)|[(q & Hq & _)|(Hq & _)]]; rewrite Hf' in Hq; [|discriminate Hq|discriminate Hq].
      injection Hq as <-. done.
    - intros [He Hb]. destruct (Hsp c He) as (p' & Hb' & Hr). rewrite Hb in Hb'. by injection Hb' as <-.
  Qed.

  (** ** the start *)
  Lemma elem_of_rim i o : 0 <= i -> o ∈ rim i <-> Z.max (Z.abs o.1) (Z.abs o.2) = i.
  Proof.
    intros Hi. unfold rim. rewrite elem_of_list_filter. rewrite elem_of_list_bind. split.
    - intros [Hr (yi & Hin & Hy)]. apply elem_of_list_bind in Hin as (xi & Hin & Hx). apply elem_of_list_singleton in Hin as ->.
      apply elem_of_seqZ in Hx, Hy. cbn [fst snd] in *. destruct (decide (Z.abs yi = i)), (decide (Z.abs xi = i)); lia.
    - intros Hm. split; [lia|]. destruct o as [x y]. cbn [fst snd] in *. exists y. split; [|apply elem_of_seqZ; lia]. apply elem_of_list_bind. exists x.
      split; [by apply elem_of_list_singleton|apply elem_of_seqZ; lia].
  Qed.
  (** a cell, the answer there, and the offset *)
  Definition fits_at (start : cell) (z : Q) (o n : cell) (p : patch) : Prop :=
    n = (start.1 + o.1, start.2 + o.2) /\ is_cell w h n /\ exists b, find_at n z = Ok (Some (p, b)).
  Definition start_diff (z : Q) (p : patch) : Q := Qabs (z - p_mean p + p_stdev p).
  Lemma try_rim start z i : fire_ok -> is_cell w h start -> forall l b, (forall o, o ∈ l -> Z.max (Z.abs o.1) (Z.abs o.2) = i) -> 0 <= i < 10 ->
    match b with None => True | Some (n, p, d) => d = start_diff z p /\ exists o, Z.max (Z.abs o.1) (Z.abs o.2) = i /\ fits_at start z o n p end ->
    exists b', iter_out (try_start start z) l b = Ok b' /\
      match b' with
      | None => b = None /\ forall o n p, o ∈ l -> ~ fits_at start z o n p
      | Some (n, p, d) => d = start_diff z p /\ (exists o, Z.max (Z.abs o.1) (Z.abs o.2) = i /\ fits_at start z o n p) /\
          (forall o n' p', o ∈ l -> fits_at start z o n' p' -> (d <= start_diff z p')%Q) /\
          match b with None => True | Some (_, d0) => (d <= d0)%Q end
      end.
  Proof.
    intros Hok Hst. induction l as [|o l IH]; intros b Hl Hi Hb.
    { exists b. split; [done|]. destruct b as [[[n p] d]|].
      - destruct Hb as [-> Hb]. split; [done|]. split; [done|]. split; [|apply Qle_refl]. intros o n' p' Ho. by apply elem_of_nil in Ho.
      - split; [done|]. intros o n p Ho. by apply elem_of_nil in Ho. }
    assert (Ho : Z.max (Z.abs o.1) (Z.abs o.2) = i) by (apply Hl; left).
    assert (Hl' : forall o, o ∈ l -> Z.max (Z.abs o.1) (Z.abs o.2) = i) by (intros; apply Hl; by right).
    cbn [iter_out]. unfold try_start at 1. pose proof (fun n => neighbour_spec start o n Hok Hst ltac:(lia) ltac:(lia)) as Hns.
    destruct (neighbour start o) as [n|] eqn:En.
    - destruct (proj1 (Hns n) eq_refl) as [Hn Hnc]. destruct (find_at_ok n z Hok Hnc) as (a & Ha & _). rewrite Ha. destruct a as [[p bo]|].
      + assert (Hfit : fits_at start z o n p) by (split; [done|]; split; [done|]; by exists bo).
        assert (Hfit1 : forall n' p', fits_at start z o n' p' -> start_diff z p' = start_diff z p).
        { intros n' p' (Hn' & _ & b' & Hb'). rewrite <- Hn in Hn'. subst n'. rewrite Ha in Hb'. by injection Hb' as -> _. }
        cbn zeta. cbn [obind]. fold (start_diff z p).
        destruct (match b with None => true | Some (_, m) => qlt (start_diff z p) m end) eqn:Em.
        * destruct (IH (Some (n, p, start_diff z p)) Hl' Hi) as (b' & Hb' & Hs'); [split; [done|by exists o]|]. exists b'. split; [exact Hb'|].
          destruct b' as [[[n' p'] d']|]; [|by destruct Hs']. destruct Hs' as (H1 & H2 & H3 & H4). split; [done|]. split; [done|]. split.
          -- intros o' n'' p'' Hin Hf. apply elem_of_cons in Hin as [->|Hin]; [|by eapply H3]. by rewrite (Hfit1 _ _ Hf).
          -- destruct b as [[[n0 p00] d0]|]; [|done]. apply qlt_iff in Em. lra.
        * destruct b as [[[n0 p00] d0]|]; [|done]. apply qlt_not in Em. destruct (IH (Some (n0, p00, d0)) Hl' Hi Hb) as (b' & Hb' & Hs'). exists b'. split; [exact Hb'|].
          destruct b' as [[[n' p'] d']|]; [|by destruct Hs']. destruct Hs' as (H1 & H2 & H3 & H4). split; [done|]. split; [done|]. split; [|done].
          intros o' n'' p'' Hin Hf. apply elem_of_cons in Hin as [->|Hin]; [|by eapply H3]. rewrite (Hfit1 _ _ Hf). lra.
      + cbn [obind]. assert (Hnf : forall n' p', ~ fits_at start z o n' p').
        { intros n' p' (Hn' & _ & b' & Hb'). rewrite <- Hn in Hn'. subst n'. rewrite Ha in Hb'. discriminate Hb'. }
        destruct (IH b Hl' Hi Hb) as (b' & Hb' & Hs'). exists b'. split; [exact Hb'|]. destruct b' as [[[n' p'] d']|].
        * destruct Hs' as (H1 & H2 & H3 & H4). split; [done|]. split; [done|]. split; [|done]. intros o' n'' p'' Hin Hf.
          apply elem_of_cons in Hin as [->|Hin]; [by apply Hnf in Hf|by eapply H3].
        * destruct Hs' as [-> H1]. split; [done|]. intros o' n'' p'' Hin Hf. apply elem_of_cons in Hin as [->|Hin]; [by apply Hnf in Hf|by eapply H1].
    - cbn [obind]. assert (Hnf : forall n' p', ~ fits_at start z o n' p').
      { intros n' p' (Hn' & Hc' & _). specialize (Hns n'). destruct Hns as [_ Hns]. by specialize (Hns (conj Hn' Hc')). }
      destruct (IH b Hl' Hi Hb) as (b' & Hb' & Hs'). exists b'. split; [exact Hb'|]. destruct b' as [[[n' p'] d']|].
      + destruct Hs' as (H1 & H2 & H3 & H4). split; [done|]. split; [done|]. split; [|done]. intros o' n'' p'' Hin Hf.
        apply elem_of_cons in Hin as [->|Hin]; [by apply Hnf in Hf|by eapply H3].
      + destruct Hs' as [-> H1]. split; [done|]. intros o' n'' p'' Hin Hf. apply elem_of_cons in Hin as [->|Hin]; [by apply Hnf in Hf|by eapply H1].
  Qed.
  Definition ring_of (o : cell) : Z := Z.max (Z.abs o.1) (Z.abs o.2).
  Lemma find_start_spec start z : fire_ok -> is_cell w h start -> forall n i, 0 <= i -> i + Z.of_nat n = 10 ->
    exists b, find_start i n start z = Ok b /\
      match b with
      | None => forall o c p, i <= ring_of o < 10 -> ~ fits_at start z o c p
      | Some (c, p, _) => exists o, i <= ring_of o < 10 /\ fits_at start z o c p /\
          forall o' c' p', i <= ring_of o' <= ring_of o -> fits_at start z o' c' p' -> ring_of o' = ring_of o /\ (start_diff z p <= start_diff z p')%Q
      end.
  Proof.
    intros Hok Hst. induction n as [|n IH]; intros i Hi Hn.
    { exists None. split; [done|]. intros o c p Hr. lia. }
    cbn [find_start]. destruct (try_rim start z i Hok Hst (rim i) None) as (b & Hb & Hs); [intros o Ho; by apply elem_of_rim|lia|done|].
    rewrite Hb. cbn [obind]. destruct b as [[[c p] d]|].
    - eexists. split; [reflexivity|]. destruct Hs as (Hd & (o & Ho & Hf) & Hmin & _). exists o. unfold ring_of. rewrite Ho. split; [lia|]. split; [done|].
      intros o' c' p' Hr Hf'. assert (Hi' : Z.max (Z.abs o'.1) (Z.abs o'.2) = i) by lia. split; [done|]. rewrite <- Hd. eapply Hmin; [|exact Hf']. by apply elem_of_rim.
    - destruct Hs as [_ Hs]. destruct (IH (i + 1)) as (b & Hb' & Hs'); [lia|lia|]. exists b. split; [exact Hb'|].
      assert (Hno : forall o c p, ring_of o = i -> ~ fits_at start z o c p). { intros o c p Hr. apply Hs. by apply elem_of_rim. }
      destruct b as [[[c p] d]|].
      + destruct Hs' as (o & Hr & Hf & Hmin). exists o. split; [lia|]. split; [done|]. intros o' c' p' Hr' Hf'.
        destruct (decide (ring_of o' = i)) as [He|He]; [by apply Hno in Hf'|]. apply (Hmin o' c' p'); [lia|done].
      + intros o c p Hr. destruct (decide (ring_of o = i)) as [He|He]; [by apply Hno|]. apply Hs'. lia.
  Qed.
  (** The fire starts in the nearest ring of cells (of the nine around the start position) with a patch that the search finds there; it
      does not start only if there is none. *)
  Theorem C39_start start z : fire_ok -> is_cell w h start ->
    (drive_plane start z = Ok None /\ forall o c p, ring_of o < 10 -> ~ fits_at start z o c p) \/
    (exists o c p, drive_plane start z = Ok (Some (expand c p (Fire (fun _ => None) (fun _ => false) [] []))) /\ ring_of o < 10 /\ fits_at start z o c p /\
       forall o' c' p', ring_of o' <= ring_of o -> fits_at start z o' c' p' -> ring_of o' = ring_of o /\ (start_diff z p <= start_diff z p')%Q).
  Proof.
    intros Hok Hst. unfold drive_plane. destruct (find_start_spec start z Hok Hst 10 0) as (b & -> & Hs); [lia|lia|].
    assert (Hr0 : forall o, 0 <= ring_of o) by (intros o; unfold ring_of; lia).
    destruct b as [[[c p] d]|].
    - right. destruct Hs as (o & Hr & Hf & Hmin). exists o, c, p. split; [done|]. split; [lia|]. split; [done|]. intros o' c' p' Hle. apply Hmin. specialize (Hr0 o'). lia.
    - left. split; [done|]. intros o c p Hr. apply Hs. specialize (Hr0 o). lia.
  Qed.

  (** ** The classes, :37-160, 14-34, 404-417 *)
  (** The scales of the grid and the slope of the plane that is fitted to points (numeric::PlaneFitting, acos) are not modelled. *)
  Context (sx sy : Q) (slope : list (Q * Q * Q) -> Q).
  (** the number of cells of the output's probability array; its traversability array is resized to the size of the input, :234 *)
  Context (tw th : Z).
  (** :61-110: the neighbours with a patch, their offsets *)
  Definition known (b : cell -> option patch) (c : cell) : list (cell * patch) :=
    omap (fun o => n ← neighbour c o; q ← b n; Some (o, q)) ring8.
  (** :37-160 *)
  Definition class_of (b : cell -> option patch) (c : cell) : out () Z :=
    match b c with
    | None => Ok 0
    | Some p =>
      if existsb (fun oq => qlt (max_step cfg) (Qabs (top oq.2 - top p))) (known b c) then Ok 1
      else if bool_decide (length (known b c) < 5)%nat then Ok 0
      else let sl := slope (((fun oq : cell * patch => (inject_Z oq.1.1 * sx, inject_Z oq.1.2 * sy, top p - top oq.2)%Q) <$> known b c) ++ [(0, 0, 0)%Q]) in
           if qlt (max_slope cfg) sl then Ok 1
           else let v := 1 + Qceiling ((1 - sl / max_slope cfg - (1 # 100000)) * inject_Z (n_classes cfg)) in
                if bool_decide (0 <= v < 256) then Ok v else Bad UB
    end.
  (** :14-34.  Dividing zero by zero gives NaN, which can not be converted to a byte. *)
  Definition prob_of (p : patch) : out () Q :=
    if bool_decide (n_nominal cfg < p_count p) then Ok 1%Q
    else if bool_decide (n_nominal cfg = 0) then Bad UB else Ok (inject_Z (p_count p) / inject_Z (n_nominal cfg))%Q.
  Definition classify (b : cell -> option patch) (c : cell) (s : (cell -> Z) * (cell -> Q)) : out ((cell -> Z) * (cell -> Q)) ((cell -> Z) * (cell -> Q)) :=
    match class_of b c with
    | Ok v => let cls := upd c v s.1 in
              if decide (is_cell tw th c) then
                match b c with
                | None => Ok (upd c 0 cls, upd c 0%Q s.2)
                | Some p => match prob_of p with Ok q => Ok (cls, upd c q s.2) | _ => Bad UB end
                end
              else Bad UB
    | _ => Bad UB
    end.
  (** :404-417 after the initialisation :241-246 *)
  Definition classify_all (b : cell -> option patch) : out ((cell -> Z) * (cell -> Q)) ((cell -> Z) * (cell -> Q)) :=
    iter_out (classify b) (all_cells w h) (fun _ => 0, fun _ => 0%Q).
  (** :419-469; [None] if there is no start *)
  Definition update_all (start : cell) (z : Q) : out () (option (fire * (cell -> Z) * (cell -> Q))) :=
    match drive_plane start z with
    | Ok None => Ok None
    | Ok (Some s) => match burn fire_fuel s with
                     | Ok s => match classify_all (best s) with Ok (cls, prob) => Ok (Some (s, cls, prob)) | Bad e => Bad e | _ => NoFuel end
                     | Bad e => Bad e
                     | _ => NoFuel
                     end
    | Bad e => Bad e
    | _ => NoFuel
    end.

  (** * C60 *)
  (** a steep step between a cell and one next to it *)
  Definition steep (b : cell -> option patch) (c : cell) (p : patch) : Prop :=
    exists n q, next_to c n /\ is_cell w h n /\ b n = Some q /\ (max_step cfg < Qabs (top q - top p))%Q.
  (** the number of neighbours with an entry *)
  Definition known_count (b : cell -> option patch) (c : cell) (k : nat) : Prop :=
    exists l, NoDup l /\ (forall n, n ∈ l <-> next_to c n /\ is_cell w h n /\ b n <> None) /\ length l = k.
  (** the points the plane is fitted to: the cell and its neighbours with an entry *)
  Definition fit_points (b : cell -> option patch) (c : cell) (p : patch) (pts : list (Q * Q * Q)) : Prop :=
    forall pt, pt ∈ pts <-> pt = (0, 0, 0)%Q \/ exists n q, next_to c n /\ is_cell w h n /\ b n = Some q /\
      pt = (inject_Z (n.1 - c.1) * sx, inject_Z (n.2 - c.2) * sy, top p - top q)%Q.
  Definition class_ok (b : cell -> option patch) (c : cell) (v : Z) (pr : Q) : Prop :=
    match b c with
    | None => v = 0 /\ pr = 0%Q
    | Some p => (pr == Qminmax.Qmin 1 (inject_Z (p_count p) / inject_Z (n_nominal cfg)))%Q /\
        ((steep b c p /\ v = 1) \/
         (~ steep b c p /\ exists k, known_count b c k /\
            (((k < 5)%nat /\ v = 0) \/
             ((5 <= k)%nat /\ exists pts, fit_points b c p pts /\ let sl := slope pts in
                ((max_slope cfg < sl)%Q /\ v = 1) \/
                ((sl <= max_slope cfg)%Q /\ 1 <= v <= 1 + n_classes cfg /\
                 (inject_Z (v - 2) < (1 - sl / max_slope cfg - (1 # 100000)) * inject_Z (n_classes cfg))%Q /\
                 ((1 - sl / max_slope cfg - (1 # 100000)) * inject_Z (n_classes cfg) <= inject_Z (v - 1))%Q)))))
    end.

  Lemma elem_of_known b c o q : fire_ok -> is_cell w h c -> (o, q) ∈ known b c <->
    let n := (c.1 + o.1, c.2 + o.2) in next_to c n /\ is_cell w h n /\ b n = Some q.
  Proof.
    intros Hok Hc. unfold known. rewrite elem_of_list_omap. cbn zeta. split.
    - intros (o' & Ho' & He). apply bind_Some in He as (n & Hn & He). apply bind_Some in He as (q' & Hq' & He). injection He as -> ->.
      assert (Hin : n ∈ neighbours c) by (apply elem_of_list_omap; by exists o). apply elem_of_neighbours in Hin; [|done|done].
      apply elem_of_ring8 in Ho' as (_ & H1 & H2). apply neighbour_spec in Hn as [<- Hn]; [|done|done|lia|lia]. tauto.
    - intros (Hnt & Hn & Hq). exists o. destruct Hnt as (Hne & H1 & H2). cbn [fst snd] in *. split.
      + apply elem_of_ring8. split; [|lia]. intros ->. apply Hne. destruct c. cbn [fst snd]. f_equal; lia.
      + assert (He : neighbour c o = Some (c.1 + o.1, c.2 + o.2)) by (apply neighbour_spec; [done|done|lia|lia|done]).
        rewrite He. cbn [mbind option_bind]. rewrite Hq. done.
  Qed.
  Lemma next_to_diff c n : n = (c.1 + (n.1 - c.1), c.2 + (n.2 - c.2)).
  Proof. destruct n, c. cbn [fst snd]. f_equal; lia. Qed.
  Lemma NoDup_tagged {A B} (g : A -> option B) (l : list A) : NoDup l -> NoDup (omap (fun o => q ← g o; Some (o, q)) l).*1.
  Proof.
    induction 1 as [|o l Hn Hnd IH]; [constructor|]. cbn [omap list_omap]. destruct (g o) as [q|] eqn:E; cbn [mbind option_bind]; [|exact IH].
    rewrite fmap_cons. constructor; [|exact IH]. cbn [fst]. intros Hin. apply Hn. apply elem_of_list_fmap in Hin as ([o' q'] & -> & Hin).
    apply elem_of_list_omap in Hin as (o'' & Hin & He). destruct (g o''); [|discriminate He]. cbn in He. injection He as -> _. exact Hin.
  Qed.
  Lemma known_counted b c : fire_ok -> is_cell w h c -> known_count b c (length (known b c)).
  Proof.
    intros Hok Hc. exists ((fun oq : cell * patch => (c.1 + oq.1.1, c.2 + oq.1.2)) <$> known b c). split; [|split].
    - assert (H : NoDup (known b c).*1).
      { assert (He : known b c = omap (fun o => q ← (n ← neighbour c o; b n); Some (o, q)) ring8).
        { unfold known. induction ring8 as [|o l IH]; [done|]. cbn [omap list_omap]. rewrite <- IH. by destruct (neighbour c o). }
        rewrite He. apply NoDup_tagged. apply (bool_decide_unpack (NoDup ring8)). vm_compute. exact Logic.I. }
      assert (He : (fun oq : cell * patch => (c.1 + oq.1.1, c.2 + oq.1.2)) <$> known b c = (fun o : cell => (c.1 + o.1, c.2 + o.2)) <$> (known b c).*1)
        by (by rewrite <- list_fmap_compose).
      rewrite He. apply NoDup_fmap_2; [|done]. intros [x y] [x' y'] [= H1 H2]. f_equal; lia.
    - intros n. rewrite elem_of_list_fmap. split.
      + intros ([o q] & -> & Hin). apply elem_of_known in Hin as (H1 & H2 & H3); [|done|done]. cbn [fst snd]. split; [done|]. split; [done|]. by rewrite H3.
      + intros (H1 & H2 & H3). destruct (b n) as [q|] eqn:Eq; [|done]. exists ((n.1 - c.1, n.2 - c.2), q). cbn [fst snd].
        split; [apply next_to_diff|]. apply elem_of_known; [done|done|]. cbn [fst snd]. rewrite <- next_to_diff. done.
    - apply fmap_length.
  Qed.
  Lemma steep_iff b c p : fire_ok -> is_cell w h c -> existsb (fun oq => qlt (max_step cfg) (Qabs (top oq.2 - top p))) (known b c) = true <-> steep b c p.
  Proof.
    intros Hok Hc. rewrite existsb_exists. split.
    - intros ([o q] & Hin & Hlt). apply elem_of_list_In in Hin. apply elem_of_known in Hin as (H1 & H2 & H3); [|done|done]. apply qlt_iff in Hlt.
      eexists _, q. split; [exact H1|]. split; [exact H2|]. split; [exact H3|exact Hlt].
    - intros (n & q & H1 & H2 & H3 & H4). exists ((n.1 - c.1, n.2 - c.2), q). split; [|by apply qlt_iff]. apply elem_of_list_In, elem_of_known; [done|done|].
      cbn [fst snd]. rewrite <- next_to_diff. done.
  Qed.
  Lemma Qceiling_bounds x : (inject_Z (Qceiling x - 1) < x)%Q /\ (x <= inject_Z (Qceiling x))%Q.
  Proof. split; [apply Qceiling_lt|apply Qle_ceiling]. Qed.

  Definition class_hyp : Prop := fire_ok /\ (0 < max_slope cfg)%Q /\ 0 <= n_classes cfg <= 254 /\ 1 <= n_nominal cfg /\
    (forall pts, 0 <= slope pts)%Q /\ w <= tw /\ h <= th.
  Lemma class_of_ok b c : class_hyp -> is_cell w h c -> exists v, class_of b c = Ok v /\
    forall pr, match b c with None => pr = 0%Q | Some p => (pr == Qmin 1 (inject_Z (p_count p) / inject_Z (n_nominal cfg)))%Q end -> class_ok b c v pr.
  Proof.
    intros (Hok & Hms & Hn & Hnom & Hsl & _) Hc. unfold class_of, class_ok. destruct (b c) as [p|]; [|by exists 0].
    destruct (existsb _ (known b c)) eqn:Ex.
    { apply steep_iff in Ex; [|done|done]. exists 1. split; [done|]. intros pr Hpr. split; [done|]. by left. }
    assert (Hst : ~ steep b c p). { intros H. apply steep_iff in H; [|done|done]. congruence. }
    pose proof (known_counted b c Hok Hc) as Hk. destruct (bool_decide (length (known b c) < 5)%nat) eqn:E5.
    { apply bool_decide_eq_true in E5. exists 0. split; [done|]. intros pr Hpr. split; [done|]. right. split; [done|]. eexists. split; [exact Hk|]. by left. }
    apply bool_decide_eq_false in E5. cbn zeta.
    set (pts := ((fun oq : cell * patch => (inject_Z oq.1.1 * sx, inject_Z oq.1.2 * sy, top p - top oq.2)%Q) <$> known b c) ++ [(0, 0, 0)%Q]).
    assert (Hpts : fit_points b c p pts).
    { intros pt. unfold pts. rewrite elem_of_app, elem_of_list_singleton, elem_of_list_fmap. split.
      - intros [([o q] & -> & Hin)| ->]; [|by left]. right. apply elem_of_known in Hin as (H1 & H2 & H3); [|done|done].
        eexists _, q. split; [exact H1|]. split; [exact H2|]. split; [exact H3|]. cbn [fst snd]. do 2 f_equal; f_equal; f_equal; lia.
      - intros [->|(n & q & H1 & H2 & H3 & ->)]; [by right|]. left. exists ((n.1 - c.1, n.2 - c.2), q). split; [done|]. apply elem_of_known; [done|done|].
        cbn [fst snd]. rewrite <- next_to_diff. done. }
    specialize (Hsl pts). destruct (qlt (max_slope cfg) (slope pts)) eqn:Es.
    { apply qlt_iff in Es. exists 1. split; [done|]. intros pr Hpr. split; [done|]. right. split; [done|]. eexists. split; [exact Hk|]. right.
      split; [lia|]. exists pts. split; [done|]. by left. }
    apply qlt_not in Es.
    assert (Hr : (0 <= slope pts / max_slope cfg <= 1)%Q).
    { split; [apply Qle_shift_div_l; [done|lra]|apply Qle_shift_div_r; [done|lra]]. }
    set (x := ((1 - slope pts / max_slope cfg - (1 # 100000)) * inject_Z (n_classes cfg))%Q).
    destruct (Qceiling_bounds x) as [Hx1 Hx2].
    assert (Hn0 : (0 <= inject_Z (n_classes cfg) <= 254)%Q). { split; [change 0%Q with (inject_Z 0)|change 254%Q with (inject_Z 254)]; rewrite <- Zle_Qle; lia. }
    assert (Hxn : (x <= inject_Z (n_classes cfg))%Q). { unfold x. nra. }
    assert (Hx0 : (-1 < x)%Q). { unfold x. nra. }
    assert (Hc1 : Qceiling x <= n_classes cfg).
    { assert (inject_Z (Qceiling x - 1) < inject_Z (n_classes cfg))%Q by lra. rewrite <- Zlt_Qlt in H. lia. }
    assert (Hc0 : 0 <= Qceiling x).
    { assert (inject_Z (-1) < inject_Z (Qceiling x))%Q by (change (inject_Z (-1)) with (-1)%Q; lra). rewrite <- Zlt_Qlt in H. lia. }
    exists (1 + Qceiling x). rewrite bool_decide_true by lia. split; [done|]. intros pr Hpr. split; [done|]. right. split; [done|]. eexists. split; [exact Hk|]. right.
    split; [lia|]. exists pts. split; [done|]. right. split; [done|]. split; [lia|]. fold x.
    replace (1 + Qceiling x - 2) with (Qceiling x - 1) by lia. replace (1 + Qceiling x - 1) with (Qceiling x) by lia. done.
  Qed.
  Lemma prob_of_ok p : class_hyp -> exists q, prob_of p = Ok q /\ (q == Qmin 1 (inject_Z (p_count p) / inject_Z (n_nominal cfg)))%Q.
  Proof.
    intros (_ & _ & _ & Hnom & _). unfold prob_of. assert (Hp : (0 < inject_Z (n_nominal cfg))%Q) by (change 0%Q with (inject_Z 0); rewrite <- Zlt_Qlt; lia).
    destruct (decide (n_nominal cfg < p_count p)) as [Hlt|Hge].
    - rewrite bool_decide_true by done. exists 1%Q. split; [done|]. symmetry. apply Q.min_l. apply Qle_shift_div_l; [done|].
      rewrite Qmult_1_l. rewrite <- Zle_Qle. lia.
    - rewrite bool_decide_false by done. rewrite bool_decide_false by lia. eexists. split; [done|]. symmetry. apply Q.min_r. apply Qle_shift_div_r; [done|].
      rewrite Qmult_1_l. rewrite <- Zle_Qle. lia.
  Qed.
  (** Every cell gets its class and probability; the classes are among those registered (0 to 1 + numTraversabilityClasses). *)
  Theorem C60_classes b : class_hyp -> exists cls prob, classify_all b = Ok (cls, prob) /\ forall c, is_cell w h c -> class_ok b c (cls c) (prob c) /\ 0 <= cls c <= 1 + n_classes cfg.
  Proof.
    intros Hyp. unfold classify_all.
    assert (Hgen : forall l s, (forall c, c ∈ l -> is_cell w h c) -> exists cls prob, iter_out (classify b) l s = Ok (cls, prob) /\
      forall c, (c ∈ l -> class_ok b c (cls c) (prob c)) /\ (c ∉ l -> cls c = s.1 c /\ prob c = s.2 c)).
    { induction l as [|c l IH]; intros s Hl; cbn [iter_out].
      - exists s.1, s.2. destruct s. split; [done|]. intros c. split; [intros H; by apply elem_of_nil in H|done].
      - assert (Hc : is_cell w h c) by (apply Hl; left). destruct (class_of_ok b c Hyp Hc) as (v & Hv & Hvok).
        assert (Ht : is_cell tw th c). { destruct Hyp as (_ & _ & _ & _ & _ & H1 & H2). unfold is_cell in *. lia. }
        assert (Hstep : exists pr, classify b c s = Ok (upd c v s.1, upd c pr s.2) /\ class_ok b c v pr \/
                        classify b c s = Ok (upd c 0 (upd c v s.1), upd c pr s.2) /\ v = 0 /\ class_ok b c v pr).
        { unfold classify. rewrite Hv. cbn zeta. rewrite decide_True by done. destruct (b c) as [p|] eqn:Eb.
          - destruct (prob_of_ok p Hyp) as (q & -> & Hq). exists q. left. split; [done|]. by apply Hvok.
          - exists 0%Q. right. split; [done|]. specialize (Hvok 0%Q eq_refl). split; [|done]. unfold class_ok in Hvok. rewrite Eb in Hvok. by destruct Hvok. }
        assert (Hstep' : exists cls0 pr, classify b c s = Ok (cls0, upd c pr s.2) /\ cls0 c = v /\ (forall c', c' <> c -> cls0 c' = s.1 c') /\ class_ok b c v pr).
        { destruct Hstep as (pr & [[H1 H2]|(H1 & H2 & H3)]).
          - eexists _, pr. split; [exact H1|]. split; [apply upd_same|]. split; [|done]. intros c' Hne. by apply upd_other.
          - eexists _, pr. split; [exact H1|]. rewrite upd_same. split; [done|]. split; [|done]. intros c' Hne. by rewrite !upd_other. }
        destruct Hstep' as (cls0 & pr & -> & H1 & H2 & H3). cbn [obind].
        destruct (IH (cls0, upd c pr s.2)) as (cls & prob & Hit & Hall); [intros; apply Hl; by right|]. exists cls, prob. split; [exact Hit|].
        intros c'. destruct (Hall c') as [Ha Hb]. split.
        + intros Hin. destruct (decide (c' ∈ l)) as [Hl'|Hl']; [by apply Ha|]. apply elem_of_cons in Hin as [->|Hin]; [|done].
          destruct (Hb Hl') as [-> ->]. cbn [fst snd]. rewrite H1, upd_same. done.
        + intros Hin. rewrite not_elem_of_cons in Hin. destruct Hin as [Hne Hin]. destruct (Hb Hin) as [-> ->]. cbn [fst snd]. rewrite H2, upd_other by done. done. }
    destruct (Hgen (all_cells w h) (fun _ => 0, fun _ => 0%Q)) as (cls & prob & Hit & Hall); [intros c; apply elem_of_all_cells|]. exists cls, prob. split; [exact Hit|].
    intros c Hc. assert (Hok : class_ok b c (cls c) (prob c)) by (by apply Hall, elem_of_all_cells). split; [done|].
    destruct Hyp as (_ & _ & Hn & _). unfold class_ok in Hok. destruct (b c) as [p|]; [|lia].
    destruct Hok as [_ [[_ Hv]|(_ & k & _ & [[_ Hv]|(_ & pts & _ & [[_ Hv]|(_ & Hv & _)])])]]; lia.
  Qed.

  (** * C61 *)
  (** If the robot is at least as high as the steps it can take, every cell with a drivable class can be reached from the start, its
      neighbours with an entry differ by at most the step height, and every cell that the search found to be an obstacle is marked
      as one. *)
  Theorem C61_safe start z s cls prob : class_hyp -> is_cell w h start -> (max_step cfg <= robot_height cfg)%Q ->
    update_all start z = Ok (Some (s, cls, prob)) ->
    exists c0 p0, (exists o, ring_of o < 10 /\ fits_at start z o c0 p0) /\
      (forall c, is_cell w h c -> 2 <= cls c -> exists p, best s c = Some p /\ reach c0 p0 c p /\
         forall n q, next_to c n -> is_cell w h n -> best s n = Some q -> (Qabs (top q - top p) <= max_step cfg)%Q) /\
      (forall c p, is_cell w h c -> best s c = Some p -> c ∉ expanded s -> cls c = 1).
  Proof.
    intros Hyp Hst Hrob Hup. assert (Hok : fire_ok) by (by destruct Hyp). unfold update_all in Hup.
    destruct (C39_start start z Hok Hst) as [[Hd _]|(o & c0 & p0 & Hd & Hr & Hf & _)]; rewrite Hd in Hup; [discriminate Hup|].
    assert (Hc0 : is_cell w h c0) by (by destruct Hf as (_ & ? & _)).
    destruct (C39_fire c0 p0 Hok Hc0) as (s' & Hb & Hnd & Hin0 & Hb0 & Hexp & Hdec & Hfar). rewrite Hb in Hup.
    destruct (C60_classes (best s') Hyp) as (cls' & prob' & Hcl & Hall). rewrite Hcl in Hup. injection Hup as -> -> ->.
    exists c0, p0. split; [by exists o|].
    assert (Hobs : forall c p, is_cell w h c -> best s c = Some p -> c ∉ expanded s -> cls c = 1).
    { intros c p Hc Hbc Hne. destruct (Hfar c) as [->|(d & Hd' & Hnt)]; [by rewrite Hbc|done|].
      destruct (Hdec d c Hd' Hnt Hc) as [->|(d' & pd & He & Hnt' & Hbd & Hcase)]; [done|].
      destruct Hcase as [(q & _ & _ & Hin)|[(q & Hq & Hbq & _)|(_ & Hbn & _)]]; [done| |congruence].
      rewrite Hbc in Hbq. injection Hbq as <-. destruct (find_at_ok c (top pd) Hok Hc) as (a & Ha & Hans). rewrite Hq in Ha. injection Ha as <-.
      assert (Hstep : (max_step cfg < top p - top pd)%Q). { cbn in Hans. destruct Hans as [_ [[[_ H]|[_ H]]|H]]; lra. }
      assert (Hsteep : steep (best s) c p).
      { exists d', pd. split; [destruct Hnt' as (? & ? & ?); split; [done|lia]|]. split; [by apply Hexp|]. split; [done|].
        rewrite Qabs_Qminus. eapply Qlt_le_trans; [exact Hstep|]. apply Qle_Qabs. }
      destruct (Hall c Hc) as [Hco _]. unfold class_ok in Hco. rewrite Hbc in Hco. destruct Hco as [_ [[_ ->]|[H _]]]; [done|by apply H in Hsteep]. }
    split; [|exact Hobs].
    intros c Hc Hcls. destruct (Hall c Hc) as [Hco _]. unfold class_ok in Hco. destruct (best s c) as [p|] eqn:Eb; [|lia].
    assert (Hin : c ∈ expanded s). { destruct (decide (c ∈ expanded s)); [done|]. pose proof (Hobs c p Hc Eb ltac:(done)). lia. }
    destruct (Hexp c Hin) as (_ & p' & Hp' & Hrc). rewrite Eb in Hp'. injection Hp' as <-. exists p. split; [done|]. split; [done|].
    intros n q Hnt Hn Hq. destruct (Qlt_le_dec (max_step cfg) (Qabs (top q - top p))) as [Hlt|]; [|done]. exfalso.
    assert (Hsteep : steep (best s) c p) by (by exists n, q). destruct Hco as [_ [[_ Hv]|[Hns _]]]; [lia|done].
  Qed.
End Fire.

(** * Concrete cases *)
(** a floor of 6 x 4 cells with a wall at x = 4 that has no gap, a hole without patches at (0, 3) and a shelf above (1, 1) *)
Definition demo_map (c : cell) : list patch :=
  if decide (c.1 = 4) then [Patch 2 2 20] else if decide (c = (0, 3)) then [] else if decide (c = (1, 1)) then [Patch 0 0 20; Patch 5 0 20] else [Patch 0 0 20].
Definition demo_run := update_all 6 4 demo_map demo_cfg 1 1 (fun _ => 0%Q) 6 4 (2, 1) 0.
Lemma demo_fire_ok : fire_ok 6 4 demo_map.
Proof.
  split; [lia|]. split; [lia|]. intros c p _ Hp. unfold demo_map in Hp.
  repeat match type of Hp with _ ∈ (if ?d then _ else _) => destruct d end; rewrite ?elem_of_cons, elem_of_nil in Hp;
    repeat destruct Hp as [->|Hp]; try done; vm_compute; discriminate.
Qed.
Example C39_C60_C61_nonvacuous : class_hyp 6 4 demo_map demo_cfg (fun _ => 0%Q) 6 4 /\ is_cell 6 4 (2, 1) /\ (max_step demo_cfg <= robot_height demo_cfg)%Q /\
  exists s cls prob, demo_run = Ok (Some (s, cls, prob)) /\ (cls <$> all_cells 6 4) = [0; 5; 5; 1; 1; 0; 5; 5; 5; 1; 1; 0; 0; 5; 5; 1; 1; 0; 0; 0; 5; 1; 1; 0] /\
    best s (5, 1) = None /\ best s (4, 1) = Some (Patch 2 2 20) /\ (4, 1) ∉ expanded s /\ length (expanded s) = 15%nat.
Proof.
  split.
  { split; [apply demo_fire_ok|]. split; [done|]. split; [vm_compute; intuition discriminate|]. split; [vm_compute; discriminate|].
    split; [intros _; apply Qle_refl|lia]. }
  split; [split; cbn; lia|]. split; [vm_compute; discriminate|].
  assert (H2 : match demo_run with Ok (Some (s, cls, prob)) => (cls <$> all_cells 6 4, best s (5, 1), best s (4, 1), bool_decide ((4, 1) ∈ expanded s), length (expanded s)) | _ => ([], None, None, true, 0%nat) end
    = ([0; 5; 5; 1; 1; 0; 5; 5; 5; 1; 1; 0; 0; 5; 5; 1; 1; 0; 0; 0; 5; 1; 1; 0], None, Some (Patch 2 2 20), false, 15%nat)) by (vm_compute; reflexivity).
  revert H2. generalize demo_run. intros r H2. destruct r as [[[[s cls] prob]|]| | |]; [|discriminate H2|discriminate H2|discriminate H2|discriminate H2].
  exists s, cls, prob. split; [done|].
  split; [exact (f_equal (fun t => t.1.1.1.1) H2)|]. split; [exact (f_equal (fun t => t.1.1.1.2) H2)|]. split; [exact (f_equal (fun t => t.1.1.2) H2)|].
  split; [|exact (f_equal snd H2)]. pose proof (f_equal (fun t => t.1.2) H2) as H6. by apply bool_decide_eq_false in H6.
Qed.
(** The fire settles a cell when it first gets next to it: here (1, 0) is an obstacle as seen from the start (0, 0), although it can be
    reached over (0, 1). *)
Definition stair_map (c : cell) : list patch :=
  if decide (c = (0, 0)) then [Patch 0 0 20] else if decide (c = (0, 1)) then [Patch (1#5) 0 20] else if decide (c = (1, 0)) then [Patch (2#5) 0 20] else [].
Theorem C39_order_refuted : fire_ok 2 2 stair_map /\ reach 2 2 stair_map demo_cfg (0, 0) (Patch 0 0 20) (1, 0) (Patch (2#5) 0 20) /\
  exists s, burn 2 2 stair_map demo_cfg (fire_fuel 2 2) (expand 2 2 (0, 0) (Patch 0 0 20) (Fire (fun _ => None) (fun _ => false) [] [])) = Ok s /\ (1, 0) ∉ expanded s.
Proof.
  split; [|split].
  - split; [lia|]. split; [lia|]. intros c p _ Hp. unfold stair_map in Hp.
    repeat match type of Hp with _ ∈ (if ?d then _ else _) => destruct d end; rewrite ?elem_of_cons, elem_of_nil in Hp;
      repeat destruct Hp as [->|Hp]; try done; vm_compute; discriminate.
  - eapply (reach_step _ _ _ _ _ _ (0, 1) (Patch (1#5) 0 20)); [|split; [done|cbn; lia]|split; cbn; lia|vm_compute; reflexivity].
    eapply (reach_step _ _ _ _ _ _ (0, 0) (Patch 0 0 20)); [constructor|split; [done|cbn; lia]|split; cbn; lia|vm_compute; reflexivity].
  - assert (H : match burn 2 2 stair_map demo_cfg (fire_fuel 2 2) (expand 2 2 (0, 0) (Patch 0 0 20) (Fire (fun _ => None) (fun _ => false) [] [])) with Ok s => bool_decide ((1, 0) ∈ expanded s) | _ => true end = false) by (vm_compute; reflexivity).
    revert H. generalize (burn 2 2 stair_map demo_cfg (fire_fuel 2 2) (expand 2 2 (0, 0) (Patch 0 0 20) (Fire (fun _ => None) (fun _ => false) [] []))).
    intros [s| | |] H; try discriminate H. exists s. split; [done|]. by apply bool_decide_eq_false in H.
Qed.
(** The fire may start on an obstacle. *)
Theorem C39_obstacle_start_refuted : exists p s, find_at (fun _ => [Patch 2 2 20]) demo_cfg (0, 0) 0 = Ok (Some (p, true)) /\
  drive_plane 1 1 (fun _ => [Patch 2 2 20]) demo_cfg (0, 0) 0 = Ok (Some s) /\ expanded s = [(0, 0)] /\ best s (0, 0) = Some p.
Proof. eexists _, _. split; [vm_compute; reflexivity|]. split; [vm_compute; reflexivity|]. split; vm_compute; reflexivity. Qed.
(** Among the cells of a ring it need not start with the patch whose top is closest to the start position: the standard deviation is
    taken with the wrong sign.  The patch chosen here is 0.1 above, the other one exactly at the start height. *)
Theorem C39_closest_refuted : let m := fun c : cell => if decide (c = (0, 0)) then [Patch (-1#10) (1#10) 20] else if decide (c = (2, 0)) then [Patch (1#20) (1#20) 20] else [] in
  exists s, drive_plane 3 1 m demo_cfg (1, 0) 0 = Ok (Some s) /\ expanded s = [(2, 0)] /\
    (Qabs (0 - top (Patch (-1#10) (1#10) 20)) < Qabs (0 - top (Patch (1#20) (1#20) 20)))%Q.
Proof. cbn zeta. eexists. split; [vm_compute; reflexivity|]. split; [vm_compute; reflexivity|]. vm_compute. reflexivity. Qed.
(** An output grid that is smaller than the input is written out of bounds. *)
Theorem C60_small_output_refuted : update_all 6 4 demo_map demo_cfg 1 1 (fun _ => 0%Q) 5 4 (2, 1) 0 = Bad UB.
Proof. vm_compute. reflexivity. Qed.
