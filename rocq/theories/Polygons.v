(** Sets of polygons: intersection and distance queries.  C120.
    src/maps/PolygonMap.cpp

    The library Box2D is a parameter: bounding boxes, the broad phase (a tree of enlarged bounding boxes that is searched in an order of its own), the distance
    of shapes and the test of points, with what is used of them as hypotheses. Distances are rational numbers. Polygons are named by numbers and live as long as
    the sets that contain them; the numbers of the tree's nodes are not modelled. *)
From stdpp Require Import prelude.
From Coq Require Import QArith.
From Coq Require Import Lqa.
From Verif Require Import Base.
Local Open Scope nat_scope.

(** * Model *)
Section model.
  Context {shape pose box point : Type}.
  (** [ComputeAABB] *)
  Context (box_of : shape -> pose -> box).
  (** the box that [CreateProxy] stores (it is enlarged), and the order in which [Query] visits the polygons whose stored boxes overlap a box *)
  Context (fat : box -> box) (overlap : box -> box -> bool) (visit : list (nat * box) -> box -> list nat).
  (** [b2Distance], the limit of line 204 and the largest float *)
  Context (dist : shape -> pose -> shape -> pose -> Q) (limit largest : Q).
  (** the vertices of a shape, and [TestPoint] of a shape with a transform *)
  Context (points : shape -> list point) (test_point : shape -> pose -> point -> bool).

  (** PolygonMap.cpp:18-27; [p_area] is distanceCompShape *)
  Record polygon := Polygon { p_shape : shape; p_area : shape; p_pose : pose; p_box : box; p_moved : bool }.
  (** PolygonMap.cpp:74-91: the polygons with their boxes in the broad phase, curTestPoly, collisionPoly, hasCollision and minDistance *)
  Record pset := PSet { s_members : list (nat * box); s_cur : option nat; s_hit : option nat; s_has : bool; s_min : Q }.
  Record world := World { polys : nat -> polygon; sets : nat -> pset }.
  Definition set_poly (p : nat) (x : polygon) (w : world) : world := World (fun q => if decide (q = p) then x else polys w q) (sets w).
  Definition set_set (s : nat) (x : pset) (w : world) : world := World (polys w) (fun q => if decide (q = s) then x else sets w q).
  (** PolygonMap.cpp:43-49, the constructor *)
  Definition new_polygon (identity : pose) (sh : shape) : polygon := Polygon sh sh identity (box_of sh identity) true.
  (** PolygonMap.cpp:77-80 *)
  Definition new_set : pset := PSet [] None None false largest.
  (** PolygonMap.cpp:51-55, setDistanceCalculationArea *)
  Definition set_area (p : nat) (a : shape) (w : world) : world :=
    let x := polys w p in set_poly p (Polygon (p_shape x) a (p_pose x) (box_of a (p_pose x)) (p_moved x)) w.
  (** PolygonMap.cpp:63-70 *)
  Definition move (p : nat) (t : pose) (w : world) : world :=
    let x := polys w p in set_poly p (Polygon (p_shape x) (p_area x) t (box_of (p_area x) t) true) w.
  (** PolygonMap.cpp:108-117 *)
  Definition add (s p : nat) (w : world) : world :=
    let x := sets w s in set_set s (PSet (s_members x ++ [(p, fat (p_box (polys w p)))]) (s_cur x) (s_hit x) (s_has x) (s_min x)) w.
  (** PolygonMap.cpp:187-201 *)
  Definition measure (w : world) (p q : nat) : Q := dist (p_shape (polys w p)) (p_pose (polys w p)) (p_shape (polys w q)) (p_pose (polys w q)).
  (** PolygonMap.cpp:184-222, QueryCallback, for the polygons in the order of the visit: whether there is a collision, with which polygon, and the least distance *)
  Fixpoint scan (d : nat -> Q) (l : list nat) (hit : option nat) (mn : Q) : bool * option nat * Q :=
    match l with
    | [] => (false, hit, mn)
    | q :: l =>
      let mn := if Qlt_le_dec (d q) mn then d q else mn in
      if Qlt_le_dec (d q) limit then (true, Some q, mn) else scan d l hit mn
    end.
  (** PolygonMap.cpp:124-138, doQuery *)
  Definition do_query (s p : nat) (w : world) : world :=
    let x := sets w s in
    if bool_decide (s_cur x = Some p) && negb (p_moved (polys w p)) then w
    else
      let y := polys w p in
      let w := set_poly p (Polygon (p_shape y) (p_area y) (p_pose y) (p_box y) false) w in
      let r := scan (measure w p) (visit (s_members x) (p_box y)) (s_hit x) largest in
      set_set s (PSet (s_members x) (Some p) r.1.2 r.1.1 r.2) w.
  Inductive op := Move (p : nat) (t : pose) | Area (p : nat) (a : shape) | Add (s p : nat) | Distance (s p : nat) | Intersects (s p : nat) | Inside (s p : nat).
  Inductive answer := ANone | ADistance (d : Q) | ABool (b : bool) | ABad.
  (** PolygonMap.cpp:147-171, isInside after the query; without a polygon there is no collision *)
  Definition inside_hit (s p : nat) (w : world) : answer :=
    if s_has (sets w s) then
      match s_hit (sets w s) with
      | Some q => ABool (forallb (test_point (p_shape (polys w q)) (p_pose (polys w p))) (points (p_shape (polys w p))))
      | None => ABad
      end
    else ABool false.
  Definition step (o : op) (w : world) : world * answer :=
    match o with
    | Move p t => (move p t w, ANone)
    | Area p a => (set_area p a w, ANone)
    | Add s p => (add s p w, ANone)
    | Distance s p => let w := do_query s p w in (w, ADistance (s_min (sets w s)))
    | Intersects s p => let w := do_query s p w in (w, ABool (s_has (sets w s)))
    | Inside s p => let w := do_query s p w in (w, inside_hit s p w)
    end.
  Fixpoint run (l : list op) (w : world) : world := match l with [] => w | o :: l => run l (step o w).1 end.

  (** * Specification *)
  (** what is used of the broad phase: it visits exactly the polygons whose boxes overlap *)
  Definition visits_all : Prop := forall ms b q, q ∈ visit ms b <-> exists b', (q, b') ∈ ms /\ overlap b' b = true.
  (** touching shapes have overlapping boxes, if the areas around them cover the shapes *)
  Definition boxes_meet (covers : shape -> shape -> Prop) : Prop := forall a sh x a' sh' x', covers a sh -> covers a' sh' -> (dist sh x sh' x' < limit)%Q -> overlap (fat (box_of a' x')) (box_of a x) = true.
  (** the polygons a query for [p] looks at: those whose area's box (enlarged) overlaps that of [p], wherever they are now *)
  Definition close (w : world) (p q : nat) : Prop :=
    overlap (fat (box_of (p_area (polys w q)) (p_pose (polys w q)))) (box_of (p_area (polys w p)) (p_pose (polys w p))) = true.
  (** the distance of two polygons in their poses *)
  Definition distance (w : world) (p q : nat) : Q := dist (p_shape (polys w p)) (p_pose (polys w p)) (p_shape (polys w q)) (p_pose (polys w q)).
  Definition a_member (w : world) (s q : nat) : Prop := exists b, (q, b) ∈ s_members (sets w s).
  (** the world at the beginning: polygons as constructed or moved, and empty sets *)
  Definition fresh (w : world) : Prop := (forall p, p_box (polys w p) = box_of (p_area (polys w p)) (p_pose (polys w p)) /\ p_moved (polys w p) = true) /\ forall s, sets w s = new_set.
  Definition is_query (o : op) : bool := match o with Distance _ _ | Intersects _ _ | Inside _ _ => true | _ => false end.
  (** distances that b2Distance returns are below the largest float *)
  Definition finite_distances : Prop := forall sh x sh' x', (dist sh x sh' x' < largest)%Q.
  (** a history that prepares polygons and fills sets, without queries; polygons stay where they are once they have been added *)
  Fixpoint prepares (l : list op) : Prop :=
    match l with
    | [] => True
    | Add s p :: l => prepares l /\ Forall (fun o => match o with Move q _ | Area q _ => q <> p | _ => True end) l
    | o :: l => is_query o = false /\ prepares l
    end.
  (** afterwards: queries of the set [s], and polygons that are in no set may move *)
  Definition uses (s : nat) (w : world) (l : list op) : Prop :=
    Forall (fun o => match o with Move p _ => forall s', ~ a_member w s' p | Distance s' _ | Intersects s' _ | Inside s' _ => s' = s | Area _ _ | Add _ _ => False end) l.
  (** the right answers *)
  Definition right_distance (w : world) (s p : nat) (d : Q) : Prop :=
    (exists q, a_member w s q /\ close w p q /\ (distance w p q < limit)%Q) /\ (d < limit)%Q \/
    (forall q, a_member w s q -> close w p q -> (limit <= distance w p q)%Q) /\
      ((forall q, a_member w s q -> ~ close w p q) /\ d = largest \/
       (exists q, a_member w s q /\ close w p q /\ d = distance w p q) /\ forall q, a_member w s q -> close w p q -> (d <= distance w p q)%Q).
  Definition right_intersects (w : world) (s p : nat) (b : bool) : Prop := b = true <-> exists q, a_member w s q /\ close w p q /\ (distance w p q < limit)%Q.
  Definition right_answer (w : world) (o : op) (a : answer) : Prop :=
    match o with
    | Distance s p => exists d, a = ADistance d /\ right_distance w s p d
    | Intersects s p => exists b, a = ABool b /\ right_intersects w s p b
    | _ => True
    end.

  (** * Proof *)
  Lemma scan_has d l hit mn : (scan d l hit mn).1.1 = true <-> exists q, q ∈ l /\ (d q < limit)%Q.
  Proof using Type.
    revert mn. induction l as [|q l IH]; intros mn; cbn [scan]. { split; [done|]. intros (q&Hq&_). by apply elem_of_nil in Hq. }
    destruct (Qlt_le_dec (d q) limit) as [H|H]; cbn [fst].
    - split; [|done]. intros _. exists q. split; [by left|done].
    - rewrite IH. split; intros (r&Hr&Hlt); exists r; (split; [|done]); [by right|]. apply elem_of_cons in Hr as [->|Hr]; [|done]. exfalso. lra.
  Qed.
  Lemma scan_hit d l hit mn : (scan d l hit mn).1.1 = true -> exists q, (scan d l hit mn).1.2 = Some q /\ q ∈ l /\ (d q < limit)%Q.
  Proof using Type.
    revert mn. induction l as [|q l IH]; intros mn; cbn [scan]; [done|]. destruct (Qlt_le_dec (d q) limit) as [H|H]; cbn [fst snd].
    - intros _. exists q. split; [done|]. split; [by left|done].
    - intros E. destruct (IH _ E) as (r&E'&Hr&Hlt). exists r. split; [done|]. split; [by right|done].
  Qed.
  Lemma scan_hit_min d l hit mn : (scan d l hit mn).1.1 = true -> ((scan d l hit mn).2 < limit)%Q.
  Proof using Type.
    revert mn. induction l as [|q l IH]; intros mn; cbn [scan]; [done|]. destruct (Qlt_le_dec (d q) limit) as [H|H]; cbn [fst snd]; [|apply IH]. intros _. destruct (Qlt_le_dec (d q) mn); lra.
  Qed.
  Lemma scan_min d l hit mn : (scan d l hit mn).1.1 = false -> ((scan d l hit mn).2 <= mn)%Q /\ (forall q, q ∈ l -> ((scan d l hit mn).2 <= d q)%Q) /\
    ((scan d l hit mn).2 = mn \/ exists q, q ∈ l /\ (scan d l hit mn).2 = d q).
  Proof using Type.
    revert mn. induction l as [|q l IH]; intros mn; cbn [scan fst snd]. { intros _. split; [lra|]. split; [intros q Hq; by apply elem_of_nil in Hq|by left]. }
    destruct (Qlt_le_dec (d q) limit) as [H|H]; cbn [fst snd]; [done|]. intros E. destruct (IH _ E) as (H1&H2&H3). clear IH E. set (r := (scan d l hit _).2) in *.
    destruct (Qlt_le_dec (d q) mn) as [Hq|Hq].
    - split; [lra|]. split; [intros r' [->|Hr]%elem_of_cons; [done|by apply H2]|]. right. destruct H3 as [H3|(r'&Hr&H3)]; [exists q; split; [by left|done]|exists r'; split; [by right|done]].
    - split; [lra|]. split; [intros r' [->|Hr]%elem_of_cons; [lra|by apply H2]|]. destruct H3 as [H3|(r'&Hr&H3)]; [by left|right; exists r'; split; [by right|done]].
  Qed.
  (** what a set remembers is the result of a query for [p] *)
  Definition result (w : world) (s p : nat) : Prop :=
    exists hit, (s_has (sets w s), s_hit (sets w s), s_min (sets w s)) = scan (distance w p) (visit (s_members (sets w s)) (p_box (polys w p))) hit largest.
  Definition boxed (w : world) : Prop :=
    (forall p, p_box (polys w p) = box_of (p_area (polys w p)) (p_pose (polys w p))) /\ forall s q b, (q, b) ∈ s_members (sets w s) -> b = fat (p_box (polys w q)).
  (** two worlds that differ in what is remembered only *)
  Definition alike (w w' : world) : Prop :=
    (forall p, p_shape (polys w p) = p_shape (polys w' p) /\ p_area (polys w p) = p_area (polys w' p) /\ p_pose (polys w p) = p_pose (polys w' p) /\ p_box (polys w p) = p_box (polys w' p)) /\
    forall s, s_members (sets w s) = s_members (sets w' s).
  Lemma alike_distance w w' p q : alike w w' -> distance w p q = distance w' p q.
  Proof using Type. intros [H _]. unfold distance. destruct (H p) as (->&_&->&_), (H q) as (->&_&->&_). done. Qed.
  Lemma alike_close w w' p q : alike w w' -> close w p q <-> close w' p q.
  Proof using Type. intros [H _]. unfold close. destruct (H p) as (_&->&->&_), (H q) as (_&->&->&_). done. Qed.
  Lemma alike_member w w' s q : alike w w' -> a_member w s q <-> a_member w' s q.
  Proof using Type. intros [_ H]. unfold a_member. by rewrite H. Qed.
  Lemma alike_boxed w w' : alike w w' -> boxed w -> boxed w'.
  Proof using Type.
    intros [H1 H2] [B1 B2]. split.
    - intros p. destruct (H1 p) as (_&E1&E2&E3). rewrite <-E1, <-E2, <-E3. apply B1.
    - intros s q b Hb. rewrite <-H2 in Hb. destruct (H1 q) as (_&_&_&<-). by eapply B2.
  Qed.
  Lemma visited w s p q : visits_all -> boxed w -> q ∈ visit (s_members (sets w s)) (p_box (polys w p)) <-> a_member w s q /\ close w p q.
  Proof using Type.
    intros Hv [B1 B2]. unfold visits_all in Hv. rewrite Hv. unfold close, a_member. rewrite <-!B1. split.
    - intros (b&Hb&Ho). rewrite <-(B2 s q b Hb). split; [by exists b|done].
    - intros [[b Hb] Ho]. exists b. split; [done|]. by rewrite (B2 s q b Hb).
  Qed.
  Lemma result_right w s p : visits_all -> finite_distances -> boxed w -> result w s p -> right_distance w s p (s_min (sets w s)) /\ right_intersects w s p (s_has (sets w s)).
  Proof using Type.
    intros Hv Hf HB [hit E]. set (l := visit _ _) in E. assert (Hl : forall q, q ∈ l <-> a_member w s q /\ close w p q) by (intros q; by apply visited).
    assert (E1 : s_has (sets w s) = (scan (distance w p) l hit largest).1.1) by (by rewrite <-E). assert (E2 : s_min (sets w s) = (scan (distance w p) l hit largest).2) by (by rewrite <-E).
    assert (HI : right_intersects w s p (s_has (sets w s))).
    { unfold right_intersects. rewrite E1, scan_has. split; intros (q&Hq&H).
      - exists q. apply Hl in Hq as [? ?]. done.
      - exists q. destruct H as [? ?]. split; [by apply Hl|done]. }
    split; [|exact HI]. destruct (s_has (sets w s)) eqn:Eh.
    - left. split; [by apply HI|]. rewrite E2. apply scan_hit_min. congruence.
    - right. assert (Hno : forall q, a_member w s q -> close w p q -> (limit <= distance w p q)%Q).
      { intros q Hq Hc. destruct (Qlt_le_dec (distance w p q) limit) as [H|H]; [|done]. exfalso. assert (false = true) by (apply HI; exists q; done). done. }
      split; [exact Hno|]. rewrite E2. destruct (scan_min (distance w p) l hit largest ltac:(congruence)) as (H1&H2&H3). destruct H3 as [H3|(q&Hq&H3)].
      + left. split; [|done]. intros q Hq Hc. assert (Hin : q ∈ l) by (apply Hl; done). specialize (H2 q Hin). rewrite H3 in H2. pose proof (Hf (p_shape (polys w p)) (p_pose (polys w p)) (p_shape (polys w q)) (p_pose (polys w q))). unfold distance in H2. lra.
      + right. split; [exists q; apply Hl in Hq as [? ?]; done|]. intros r Hr Hc. apply H2, Hl. done.
  Qed.
  Lemma do_query_alike s p w : alike w (do_query s p w).
  Proof using Type.
    unfold do_query. destruct (bool_decide _ && _); [done|]. split.
    - intros q. unfold set_set, set_poly. cbn. case_decide as E; [subst; done|done].
    - intros s'. unfold set_set, set_poly. cbn. case_decide as E; [subst; done|done].
  Qed.
  (** the state while a set is used *)
  Definition usable (s : nat) (w : world) : Prop :=
    boxed w /\ (forall p, s_cur (sets w s) = Some p -> p_moved (polys w p) = false -> result w s p) /\ forall s', s' <> s -> s_cur (sets w s') = None.
  Lemma do_query_result s p w : usable s w -> usable s (do_query s p w) /\ result (do_query s p w) s p.
  Proof using Type.
    intros (HB&HR&HN). pose proof (do_query_alike s p w) as HA. assert (HB' : boxed (do_query s p w)) by (by eapply alike_boxed).
    unfold do_query in *. destruct (bool_decide (s_cur (sets w s) = Some p)) eqn:Ec; [destruct (p_moved (polys w p)) eqn:Em|]; cbn [andb negb] in *.
    2: { apply bool_decide_eq_true in Ec. split; [done|]. by apply HR. }
    all: set (w1 := set_poly _ _ w) in *; set (r := scan _ _ _ _) in *; set (w2 := set_set _ _ w1) in *.
    all: assert (Es : sets w2 s = PSet (s_members (sets w s)) (Some p) r.1.2 r.1.1 r.2) by (unfold w2, set_set; cbn [sets]; by rewrite decide_True).
    all: assert (Hres : result w2 s p) by (exists (s_hit (sets w s)); rewrite Es; cbn [s_has s_hit s_min s_members];
      replace (p_box (polys w2 p)) with (p_box (polys w p)) by apply HA; change (distance w2 p) with (measure w1 p); fold r; by destruct r as [[? ?] ?]).
    all: split; [|exact Hres]; split; [exact HB'|]; split.
    1,3: intros q Eq _; unfold w2, set_set in Eq; cbn [sets] in Eq; rewrite decide_True in Eq by done; cbn in Eq; injection Eq as <-; exact Hres.
    all: intros s' Hs; unfold w2, set_set; cbn [sets]; rewrite decide_False by done; by apply HN.
  Qed.
  Lemma result_alike w w' s p : (forall q, a_member w s q \/ q = p -> polys w q = polys w' q) -> sets w s = sets w' s -> visits_all -> boxed w -> result w s p -> result w' s p.
  Proof using Type.
    intros Hp Hs Hv HB [hit E]. exists hit. rewrite <-Hs. rewrite E. rewrite <-(Hp p) by by right.
    assert (Hl : forall q, q ∈ visit (s_members (sets w s)) (p_box (polys w p)) -> distance w p q = distance w' p q).
    { intros q Hq. apply visited in Hq as [Hm _]; [|done|done]. unfold distance. by rewrite <-(Hp p), <-(Hp q) by auto. }
    revert Hl. generalize (visit (s_members (sets w s)) (p_box (polys w p))) as l. generalize largest as mn. clear. intros mn l Hl. revert mn. induction l as [|q l IH]; intros mn; [done|]. cbn [scan].
    rewrite (Hl q) by by left. destruct (Qlt_le_dec (distance w' p q) limit); [done|]. apply IH. intros r Hr. apply Hl. by right.
  Qed.
  Lemma step_usable s o w : visits_all -> usable s w -> uses s w [o] -> usable s (step o w).1.
  Proof using Type.
    intros Hv HU Ho. apply Forall_cons in Ho as [Ho _]. destruct o as [p t|p a|s' p|s' p|s' p|s' p]; try done.
    2,3,4: subst s'; cbn [step fst]; by apply do_query_result.
    cbn [step fst]. destruct HU as ([B1 B2]&HR&HN).
    assert (Hpoly : forall q, q <> p -> polys (move p t w) q = polys w q). { intros q Hq. unfold move, set_poly. cbn. by rewrite decide_False. }
    assert (HB' : boxed (move p t w)).
    { split.
      - intros q. destruct (decide (q = p)) as [->|Hq]; [|by rewrite Hpoly]. unfold move, set_poly. cbn. by rewrite decide_True.
      - intros s' q b Hb. cbn in Hb. rewrite Hpoly; [by eapply B2|]. intros ->. apply (Ho s'). by exists b. }
    split; [exact HB'|]. split; [|exact HN]. intros q Eq Hm. cbn in Eq.
    assert (Hq : q <> p). { intros ->. unfold move, set_poly in Hm. cbn in Hm. by rewrite decide_True in Hm. }
    rewrite Hpoly in Hm by done. apply (result_alike w); [|done|done|done|by apply HR].
    intros r [Hr| ->]; [|by rewrite Hpoly]. rewrite Hpoly; [done|]. intros ->. by apply (Ho s).
  Qed.
  Lemma step_members o w s q : is_query o = true \/ (exists p t, o = Move p t) -> a_member (step o w).1 s q <-> a_member w s q.
  Proof using Type.
    intros [Ho|(p&t&->)]; [|done]. destruct o; try done; cbn [step fst]; symmetry; apply alike_member, do_query_alike.
  Qed.
  Lemma uses_step s w o l : uses s w (o :: l) -> uses s (step o w).1 l.
  Proof using Type.
    intros H. apply Forall_cons in H as [Ho H]. eapply Forall_impl; [exact H|]. intros o' Ho'. destruct o' as [p t| | | | |]; try done. intros s' Hm. apply (Ho' s'). revert Hm. apply step_members.
    destruct o; try done; eauto.
  Qed.
  Lemma run_usable s l w : visits_all -> usable s w -> uses s w l -> usable s (run l w) /\ forall o, uses s w (l ++ [o]) -> uses s (run l w) [o].
  Proof using Type.
    intros Hv. revert w. induction l as [|o l IH]; intros w HU Hl; [done|]. cbn [run app]. destruct (IH (step o w).1) as [H1 H2].
    - apply step_usable; [done|done|]. apply Forall_cons in Hl as [Ho _]. by apply Forall_singleton.
    - by apply uses_step.
    - split; [done|]. intros o' Ho'. apply H2. by apply uses_step.
  Qed.
  Definition unqueried (w : world) : Prop := boxed w /\ forall s, s_cur (sets w s) = None.
  Lemma run_prepares l w : unqueried w -> prepares l -> (forall s q, a_member w s q -> Forall (fun o => match o with Move r _ | Area r _ => r <> q | _ => True end) l) -> unqueried (run l w).
  Proof using Type.
    revert w. induction l as [|o l IH]; intros w HU Hp Hm; [done|]. cbn [run].
    assert (Hm' : forall s q, a_member w s q -> Forall (fun o => match o with Move r _ | Area r _ => r <> q | _ => True end) l). { intros s q Hq. specialize (Hm s q Hq). by apply Forall_cons in Hm as [_ ?]. }
    destruct HU as [[B1 B2] HN].
    assert (K : forall p (x : polygon), (forall s, ~ a_member w s p) -> p_box x = box_of (p_area x) (p_pose x) -> unqueried (set_poly p x w)).
    { intros p x Hn Hx. split; [|done]. split.
      - intros q. unfold set_poly. cbn. case_decide; [done|]. apply B1.
      - intros s q b Hb. unfold set_poly. cbn. cbn in Hb. case_decide as Hq; [|by eapply B2]. subst q. exfalso. apply (Hn s). by exists b. }
    destruct o as [p t|p a|s p|s p|s p|s p]; cbn [prepares is_query] in Hp; try (by destruct Hp).
    - apply IH; [|by destruct Hp|exact Hm']. apply K; [|done]. intros s Hq. specialize (Hm s p Hq). apply Forall_cons in Hm as [? _]. done.
    - apply IH; [|by destruct Hp|exact Hm']. apply K; [|done]. intros s Hq. specialize (Hm s p Hq). apply Forall_cons in Hm as [? _]. done.
    - destruct Hp as [Hp HF]. assert (Hmem : forall s' q b, (q, b) ∈ s_members (sets (step (Add s p) w).1 s') -> (q, b) ∈ s_members (sets w s') \/ (q = p /\ b = fat (p_box (polys w p)))).
      { intros s' q b Hb. cbn in Hb. unfold set_set in Hb. case_decide as E; [|by left]. subst. cbn in Hb. apply elem_of_app in Hb as [Hb|Hb]; [by left|]. apply elem_of_list_singleton in Hb. right. by injection Hb as -> ->. }
      apply IH; [|exact Hp|].
      + split; [split; [exact B1|]|].
        * intros s' q b Hb. apply Hmem in Hb as [Hb|[-> ->]]; [by eapply B2|done].
        * intros s'. cbn. unfold set_set. case_decide; [|apply HN]. cbn. apply HN.
      + intros s' q [b Hb]. apply Hmem in Hb as [Hb|[-> ->]]; [|exact HF]. apply (Hm' s' q). by exists b.
  Qed.
  Lemma fresh_unqueried w : fresh w -> unqueried w.
  Proof using Type.
    intros [H1 H2]. split; [split|].
    - intros p. apply H1.
    - intros s q b Hb. rewrite H2 in Hb. cbn in Hb. by apply elem_of_nil in Hb.
    - intros s. by rewrite H2.
  Qed.
  Lemma history w0 l1 s l2 o : visits_all -> fresh w0 -> prepares l1 -> uses s (run l1 w0) (l2 ++ [o]) -> usable s (run l2 (run l1 w0)) /\ uses s (run l2 (run l1 w0)) [o].
  Proof using Type.
    intros Hv Hf Hp Hu. assert (HU : unqueried (run l1 w0)).
    { apply run_prepares; [by apply fresh_unqueried|done|]. intros s' q [b Hb]. destruct Hf as [_ Hf]. rewrite Hf in Hb. by apply elem_of_nil in Hb. }
    destruct HU as [HB HN]. destruct (run_usable s l2 (run l1 w0) Hv) as [H1 H2].
    - split; [done|]. split; [|by intros s' _]. intros p Ep. by rewrite HN in Ep.
    - apply Forall_app in Hu as [Hu _]. exact Hu.
    - split; [done|]. by apply H2.
  Qed.

  (** * Theorems *)
  (** Sets are filled, with polygons that then stay where they are. After this one of the sets is asked, and polygons that are in no set may move, in any order and any
      number of times. Then every answer is right for the poses at that moment, although most of them come from what the set remembers. *)
  Theorem C120_answers w0 l1 s l2 o : visits_all -> finite_distances -> fresh w0 -> prepares l1 -> uses s (run l1 w0) (l2 ++ [o]) ->
    right_answer (run l2 (run l1 w0)) o (step o (run l2 (run l1 w0))).2.
  Proof using Type.
    intros Hv Hfin Hf Hp Hu. destruct (history w0 l1 s l2 o Hv Hf Hp Hu) as [HU Ho]. set (w := run l2 (run l1 w0)) in *. apply Forall_cons in Ho as [Ho _].
    destruct o as [p t|p a|s' p|s' p|s' p|s' p]; try done; cbn [step snd right_answer]; subst s'.
    all: destruct (do_query_result s p w HU) as [[HB _] HR]; destruct (result_right _ s p Hv Hfin HB HR) as [HD HI]; pose proof (do_query_alike s p w) as HA.
    - eexists. split; [done|]. clear -HD HA. unfold right_distance in *. setoid_rewrite (alike_member w _ s _ HA). setoid_rewrite (alike_close w _ p _ HA). setoid_rewrite (alike_distance w _ p _ HA). exact HD.
    - eexists. split; [done|]. clear -HI HA. unfold right_intersects in *. setoid_rewrite (alike_member w _ s _ HA). setoid_rewrite (alike_close w _ p _ HA). setoid_rewrite (alike_distance w _ p _ HA). exact HI.
  Qed.
  (** What the answers speak about is what the caller has asked for: a polygon's pose and area are those of the last call, and the members of a set are the polygons that
      have been added to it. *)
  Theorem C120_state w0 l : let w := run l w0 in
    (forall p, p_shape (polys w p) = p_shape (polys w0 p) /\
      p_pose (polys w p) = default (p_pose (polys w0 p)) (last (omap (fun o => match o with Move q t => if decide (q = p) then Some t else None | _ => None end) l)) /\
      p_area (polys w p) = default (p_area (polys w0 p)) (last (omap (fun o => match o with Area q a => if decide (q = p) then Some a else None | _ => None end) l))) /\
    forall s q, a_member w s q <-> a_member w0 s q \/ Add s q ∈ l.
  Proof using Type.
    assert (L : forall {A} (x : A) l d, default d (last (x :: l)) = default x (last l)). { intros A x l' d. rewrite last_cons. by destruct (last l'). }
    revert w0. induction l as [|o l IH]; intros w0; cbn [run]. { split; [done|]. intros s q. split; [by left|]. intros [H|H]; [done|by apply elem_of_nil in H]. }
    destruct (IH (step o w0).1) as [H1 H2]. cbv zeta. split.
    - intros p. destruct (H1 p) as (E1&E2&E3). rewrite E1, E2, E3. clear -L. destruct o as [q t|q a|s q|s q|s q|s q]; cbn [step fst omap list_omap].
      1,2: unfold move, set_area, set_poly; cbn [polys]; case_decide as E; case_decide as E'; subst; try done; cbn [p_pose p_area p_shape]; rewrite ?L; done.
      1: done.
      all: destruct (do_query_alike s q w0) as [HA _]; destruct (HA p) as (->&->&->&_); done.
    - intros s q. rewrite H2, elem_of_cons. assert (K : a_member (step o w0).1 s q <-> a_member w0 s q \/ Add s q = o); [|tauto].
      destruct o as [p t|p a|s' p|s' p|s' p|s' p]; cbn [step fst].
      1,2: split; [by left|by intros [?|?]].
      2,3,4: rewrite <-(alike_member w0 _ s q (do_query_alike s' p w0)); split; [by left|by intros [?|?]].
      unfold a_member, add, set_set. cbn [sets]. case_decide as E; cbn [s_members].
      + subst. split.
        * intros [b Hb]. apply elem_of_app in Hb as [Hb|Hb]; [left; by exists b|right]. apply elem_of_list_singleton in Hb. by injection Hb as -> _.
        * intros [[b Hb]|Hb]; [exists b; apply elem_of_app; by left|]. injection Hb as ->. eexists. apply elem_of_app. right. by apply elem_of_list_singleton.
      + split; [by left|]. intros [?|Hb]; [done|]. injection Hb as -> ->. done.
  Qed.
  (** If the areas of the polygons cover them, boxes do not matter: a polygon intersects the set exactly if it touches a member. *)
  Theorem C120_touching covers w0 l1 s l2 p : visits_all -> finite_distances -> boxes_meet covers -> fresh w0 -> prepares l1 -> uses s (run l1 w0) (l2 ++ [Intersects s p]) ->
    let w := run l2 (run l1 w0) in (forall q, covers (p_area (polys w q)) (p_shape (polys w q))) ->
    (step (Intersects s p) w).2 = ABool true <-> exists q, a_member w s q /\ (distance w p q < limit)%Q.
  Proof using Type.
    intros Hv Hfin Hb Hf Hp Hu w Hc. destruct (C120_answers w0 l1 s l2 _ Hv Hfin Hf Hp Hu) as (b&E&HI). fold w in E, HI. rewrite E. unfold right_intersects in HI. split.
    - intros Eb. injection Eb as ->. destruct (proj1 HI eq_refl) as (q&?&_&?). by exists q.
    - intros (q&Hq&Hd). f_equal. apply HI. exists q. split; [done|]. split; [|done]. unfold close. by eapply Hb.
  Qed.
  (** The answer to isInside is about one of the touching members: every vertex of the polygon, as it was given, is tested against this member in the polygon's own pose.
      If one member only is touched, it is this one. *)
  Theorem C120_inside w0 l1 s l2 p : visits_all -> finite_distances -> fresh w0 -> prepares l1 -> uses s (run l1 w0) (l2 ++ [Inside s p]) ->
    let w := run l2 (run l1 w0) in let touched q := a_member w s q /\ close w p q /\ (distance w p q < limit)%Q in
    exists b, (step (Inside s p) w).2 = ABool b /\ ((forall q, ~ touched q) -> b = false) /\
      forall q, touched q -> (forall r, touched r -> r = q) -> b = forallb (test_point (p_shape (polys w q)) (p_pose (polys w p))) (points (p_shape (polys w p))).
  Proof using Type.
    intros Hv Hfin Hf Hp Hu w touched. destruct (history w0 l1 s l2 _ Hv Hf Hp Hu) as [HU Ho]. fold w in HU, Ho. cbn [step snd].
    destruct (do_query_result s p w HU) as [[HB _] HR]. destruct (result_right _ s p Hv Hfin HB HR) as [_ HI]. pose proof (do_query_alike s p w) as HA. set (w' := do_query s p w) in *.
    unfold right_intersects in HI.
    assert (HI' : s_has (sets w' s) = true <-> exists q, touched q). { rewrite HI. unfold touched. setoid_rewrite (alike_member w _ s _ HA). setoid_rewrite (alike_close w _ p _ HA). by setoid_rewrite (alike_distance w _ p _ HA). }
    unfold inside_hit. destruct (s_has (sets w' s)) eqn:Eh.
    - destruct HR as [hit E]. rewrite Eh in E. destruct (scan_hit (distance w' p) (visit (s_members (sets w' s)) (p_box (polys w' p))) hit largest ltac:(by rewrite <-E)) as (q&Eq&Hq&Hd). rewrite <-E in Eq. cbn in Eq. rewrite Eq.
      apply (visited w' s p q Hv HB) in Hq as [Hqm Hqc]. assert (Ht : touched q). { split; [by apply (alike_member w w' s q HA)|]. split; [by apply (alike_close w w' p q HA)|]. by rewrite (alike_distance w w' p q HA). }
      eexists. split; [reflexivity|]. split; [intros Hn; by destruct (Hn q)|]. intros r Hr Honly. rewrite <-(Honly q Ht). destruct HA as [HA _]. destruct (HA p) as (->&_&->&_), (HA q) as (->&_). done.
    - exists false. split; [done|]. split; [done|]. intros q Hq _. assert (false = true) by (apply HI'; by exists q). done.
  Qed.
End model.

(** * Polygons on a line, for the examples *)
(** A polygon is an interval, a pose is a translation, and the broad phase enlarges boxes by one. *)
Definition ex_box (s : Z * Z) (t : Z) : Z * Z := ((s.1 + t)%Z, (s.2 + t)%Z).
Definition ex_fat (b : Z * Z) : Z * Z := ((b.1 - 1)%Z, (b.2 + 1)%Z).
Definition ex_overlap (a b : Z * Z) : bool := (a.1 <=? b.2)%Z && (b.1 <=? a.2)%Z.
Definition ex_visit (ms : list (nat * (Z * Z))) (b : Z * Z) : list nat := fst <$> filter (fun m => ex_overlap m.2 b = true) ms.
Definition ex_dist (s : Z * Z) (t : Z) (s' : Z * Z) (t' : Z) : Q :=
  inject_Z (Z.min 1000000 (Z.max 0 (Z.max ((s'.1 + t') - (s.2 + t)) ((s.1 + t) - (s'.2 + t')))))%Z.
Definition ex_points (s : Z * Z) : list Z := [s.1; s.2].
Definition ex_test (s : Z * Z) (t v : Z) : bool := (s.1 <=? v - t)%Z && (v - t <=? s.2)%Z.
Definition ex_limit : Q := 1 # 1000.
Definition ex_largest : Q := 10000000 # 1.
Definition ex_covers (a s : Z * Z) : Prop := (a.1 <= s.1 /\ s.2 <= a.2)%Z.
Notation ex_world := (@world (Z * Z) Z (Z * Z)).
Notation ex_run := (run ex_box ex_fat ex_visit ex_dist ex_limit ex_largest ex_points ex_test).
Notation ex_step := (step ex_box ex_fat ex_visit ex_dist ex_limit ex_largest ex_points ex_test).
Notation ex_right := (right_answer ex_box ex_fat ex_overlap ex_dist ex_limit ex_largest).
Definition ex_start : ex_world :=
  World (fun p => new_polygon ex_box 0%Z (match p with 0 => (0%Z, 2%Z) | 1 => (10%Z, 20%Z) | 2 => (30%Z, 40%Z) | _ => (5%Z, 13%Z) end)) (fun _ => new_set ex_largest).
Lemma ex_visits : visits_all ex_overlap ex_visit.
Proof.
  intros ms b q. unfold ex_visit. rewrite elem_of_list_fmap. split.
  - intros ((q'&b')&->&H). apply elem_of_list_filter in H as [H1 H2]. by exists b'.
  - intros (b'&H1&H2). exists (q, b'). split; [done|]. by apply elem_of_list_filter.
Qed.
Lemma ex_finite : finite_distances ex_dist ex_largest.
Proof. intros s t s' t'. unfold ex_dist, ex_largest, Qlt, inject_Z. cbn [Qnum Qden]. lia. Qed.
Lemma ex_meet : boxes_meet ex_box ex_fat ex_overlap ex_dist ex_limit ex_covers.
Proof.
  intros [a1 a2] [s1 s2] x [b1 b2] [r1 r2] y [H1 H2] [H3 H4] H. cbn in H1, H2, H3, H4. unfold ex_dist, ex_limit, Qlt, inject_Z in H. cbn [Qnum Qden fst snd] in H.
  unfold ex_overlap, ex_fat, ex_box. cbn [fst snd]. apply andb_true_iff. rewrite !Z.leb_le. lia.
Qed.
Lemma ex_fresh : fresh ex_box ex_largest ex_start.
Proof. split; [by intros p|done]. Qed.
Lemma ex_not_member (w : ex_world) (s p : nat) : p ∉ (s_members (sets w s)).*1 -> ~ a_member w s p.
Proof. intros H [b Hb]. apply H. apply elem_of_list_fmap. by exists (p, b). Qed.
(** both intervals at their poses *)
Definition ex_within (w : ex_world) (p q : nat) : Prop :=
  (fst (p_shape (polys w q)) + p_pose (polys w q) <= fst (p_shape (polys w p)) + p_pose (polys w p) /\
   snd (p_shape (polys w p)) + p_pose (polys w p) <= snd (p_shape (polys w q)) + p_pose (polys w q))%Z.

(** A robot at the origin is driven between two obstacles. *)
Definition ex_fill : list (op (shape := Z * Z) (pose := Z)) := [Move 2 100%Z; Area 0 ((-5), 8)%Z; Add 7 1; Add 7 2].
Definition ex_drive : list (op (shape := Z * Z) (pose := Z)) := [Distance 7 0; Intersects 7 0; Move 0 4%Z; Distance 7 0; Distance 7 0; Move 0 9%Z; Intersects 7 0; Inside 7 0; Distance 7 3].
Fixpoint ex_answers (l : list (op (shape := Z * Z) (pose := Z))) (w : ex_world) : list answer := match l with [] => [] | o :: l => (ex_step o w).2 :: ex_answers l (ex_step o w).1 end.
Example C120_nonvacuous :
  visits_all ex_overlap ex_visit /\ finite_distances ex_dist ex_largest /\ boxes_meet ex_box ex_fat ex_overlap ex_dist ex_limit ex_covers /\
  (forall q, ex_covers (p_area (polys (ex_run ex_drive (ex_run ex_fill ex_start)) q)) (p_shape (polys (ex_run ex_drive (ex_run ex_fill ex_start)) q))) /\
  fresh ex_box ex_largest ex_start /\ prepares ex_fill /\ uses 7 (ex_run ex_fill ex_start) ex_drive /\
  ex_answers ex_drive (ex_run ex_fill ex_start) = [ADistance ex_largest; ABool false; ANone; ADistance 4; ADistance 4; ANone; ABool true; ABool false; ADistance 0].
Proof.
  split; [exact ex_visits|]. split; [exact ex_finite|]. split; [exact ex_meet|]. split. { intros [|[|[|[|q]]]]; vm_compute; by split. }
  split; [exact ex_fresh|]. split. { cbn. repeat (split || constructor); done. }
  split; [|by vm_compute]. unfold ex_drive, uses. repeat (apply Forall_cons; split); try done.
  all: intros s'; apply ex_not_member; cbn; unfold set_set; cbn; repeat case_decide; cbn; set_solver.
Qed.

(** * What does not hold *)
Definition ex_moves (w : ex_world) (l : list (op (shape := Z * Z) (pose := Z))) : Prop :=
  Forall (fun o => match o with Move p _ => forall s, ~ a_member w s p | o => is_query o = true end) l.
(** The note that a polygon has moved is shared by all sets: the first set that is asked takes it away, and the second answers for the old pose. *)
Theorem C120_two_sets_refuted :
  ~ forall w0 l1 l2 o, fresh ex_box ex_largest w0 -> prepares l1 -> ex_moves (ex_run l1 w0) (l2 ++ [o]) -> ex_right (ex_run l2 (ex_run l1 w0)) o (ex_step o (ex_run l2 (ex_run l1 w0))).2.
Proof.
  intros H. specialize (H ex_start [Add 7 1; Add 8 2] [Intersects 8 0; Move 0 30%Z; Intersects 7 0] (Intersects 8 0) ex_fresh). destruct H as (b&E&HI).
  - cbn. repeat (split || constructor); done.
  - unfold ex_moves. repeat (apply Forall_cons; split); try done. intros s. apply ex_not_member. cbn; unfold set_set; cbn; repeat case_decide; cbn; set_solver.
  - vm_compute in E. injection E as <-. assert (false = true); [|done]. apply HI. exists 2. split; [eexists; vm_compute; by left|]. by split.
Qed.
(** A polygon that is added after a query is not seen by the next query for the same polygon. *)
Theorem C120_add_refuted : ~ forall w0 l1 s q p, fresh ex_box ex_largest w0 -> prepares l1 ->
  let o := Intersects s p in let w := ex_run [o; Add s q] (ex_run l1 w0) in ex_right w o (ex_step o w).2.
Proof.
  intros H. destruct (H ex_start [Move 0 10%Z] 7 1 0 ex_fresh) as (b&E&HI). { cbn. done. }
  vm_compute in E. injection E as <-. assert (false = true); [|done]. apply HI. exists 1. split; [eexists; vm_compute; by left|]. by split.
Qed.
(** A new area for the distances has no effect until the polygon is moved. *)
Theorem C120_area_refuted : ~ forall w0 l1 s p a, fresh ex_box ex_largest w0 -> prepares l1 ->
  let o := Distance s p in let w := ex_run [o; Area p a] (ex_run l1 w0) in ex_right w o (ex_step o w).2.
Proof.
  intros H. destruct (H ex_start [Add 7 1] 7 0 ((-10), 15)%Z ex_fresh) as (d&E&HD). { cbn. repeat (split || constructor); done. }
  vm_compute in E. injection E as <-. destruct HD as [[_ HD]|[_ [[HD _]|[_ HD]]]].
  - by vm_compute in HD.
  - apply (HD 1); [eexists; vm_compute; by left|done].
  - assert (Hm : a_member (ex_run [Distance 7 0; Area 0 (-10, 15)%Z] (ex_run [Add 7 1] ex_start)) 7 1) by (eexists; vm_compute; by left).
    specialize (HD 1 Hm eq_refl). vm_compute in HD. by apply HD.
Qed.
(** A polygon that is moved after it has been added is looked for at its old place. *)
Theorem C120_member_refuted : ~ forall w0 s q p t, fresh ex_box ex_largest w0 ->
  let o := Intersects s p in let w := ex_run [Add s q; Move q t] w0 in ex_right w o (ex_step o w).2.
Proof.
  intros H. destruct (H ex_start 7 1 0 (-9)%Z ex_fresh) as (b&E&HI).
  vm_compute in E. injection E as <-. assert (false = true); [|done]. apply HI. exists 1. split; [eexists; vm_compute; by left|]. by split.
Qed.
(** The vertices are tested as they were given, and the member in the pose of the polygon: a polygon that has been moved into a member is not inside of it. *)
Theorem C120_pose_refuted : ~ forall w0 l1 s l2 p q, fresh ex_box ex_largest w0 -> prepares l1 -> uses s (ex_run l1 w0) (l2 ++ [Inside s p]) ->
  let w := ex_run l2 (ex_run l1 w0) in a_member w s q -> ex_within w p q -> (ex_step (Inside s p) w).2 = ABool true.
Proof.
  intros H. specialize (H ex_start [Add 7 1] 7 [Move 0 12%Z] 0 1 ex_fresh).
  assert (E : (ex_step (Inside 7 0) (ex_run [Move 0 12%Z] (ex_run [Add 7 1] ex_start))).2 = ABool false) by by vm_compute.
  rewrite H in E; [done| | | |].
  - cbn. repeat (split || constructor); done.
  - unfold uses. repeat (apply Forall_cons; split); try done. intros s. apply ex_not_member. cbn; unfold set_set; cbn; repeat case_decide; cbn; set_solver.
  - eexists; vm_compute; by left.
  - vm_compute. split; done.
Qed.
(** Without any pose, a polygon that lies in one member and touches another one is reported outside, if that one is found first. *)
Theorem C120_first_refuted : ~ forall w0 l1 s p q, fresh ex_box ex_largest w0 -> prepares l1 -> (forall r, p_pose (polys w0 r) = 0%Z) -> Forall (fun o => match o with Move _ _ => False | _ => True end) l1 ->
  let w := ex_run l1 w0 in a_member w s q -> ex_within w p q -> (ex_step (Inside s p) w).2 = ABool true.
Proof.
  intros H. set (w0 := World (fun p => new_polygon ex_box 0%Z (match p with 0 => (11%Z, 12%Z) | 1 => (12%Z, 20%Z) | _ => (5%Z, 13%Z) end)) (fun _ => new_set ex_largest) : ex_world).
  specialize (H w0 [Add 7 1; Add 7 3] 7 0 3).
  assert (E : (ex_step (Inside 7 0) (ex_run [Add 7 1; Add 7 3] w0)).2 = ABool false) by by vm_compute.
  rewrite H in E; [done| | | | | |].
  - split; [by intros p|done].
  - cbn. repeat (split || constructor); done.
  - done.
  - repeat (apply Forall_cons; split); try done.
  - eexists; vm_compute; right; by left.
  - vm_compute. split; done.
Qed.
