(** Filling the gaps of an elevation map: src/operators/Projection.cpp:46-53 and 91-165, [updateAll] and [interpolateMap].  C137.

    Simplifications: heights are rationals, an infinite height is [None]; the band exists. The Delaunay triangulation of CGAL is an argument [locate]: what the
    theorems need of it is the record [delaunay]. A cell of the grid is (column, row), stored at [data[row][column]]; in the code x is the row. *)
From stdpp Require Import prelude.
From Coq Require Import QArith Qcanon Qround Lqa.
From Verif Require Import Base Bresenham GridModel GridProps Transform Elevation.
Local Open Scope Z_scope.

(** ** Model *)
(** a point that is inserted: row, column and height *)
Notation site := (Z * Z * Q)%type (only parsing).
(** what [locate] finds: no face or one without three vertices, or a face; [None]: the infinite vertex *)
Inductive located := Nowhere | Face (a b c : option site).
(** the content of a cell afterwards; [Broken]: infinite or not a number, by a division by zero *)
Inductive value := Unknown | Known (z : Q) | Broken.
(** the coordinates of a point *)
Definition coords (s : site) : Q * Q * Q := (inject_Z s.1.1, inject_Z s.1.2, s.2).
(** Projection.cpp:148-157: the rows (x, y, 1) of the matrix; its inverse by cofactors (Eigen/LU), the product with the heights and with (x, y, 1) *)
Definition det (a b c : Q * Q * Q) : Q := (a.1.1 * (b.1.2 - c.1.2) - a.1.2 * (b.1.1 - c.1.1) + (b.1.1 * c.1.2 - c.1.1 * b.1.2))%Q.
Definition solve (a b c : Q * Q * Q) (x y : Q) : value :=
  if Qeq_dec (det a b c) 0 then Broken else
  let k1 := (((b.1.2 - c.1.2) * a.2 + (c.1.2 - a.1.2) * b.2 + (a.1.2 - b.1.2) * c.2) / det a b c)%Q in
  let k2 := (((c.1.1 - b.1.1) * a.2 + (a.1.1 - c.1.1) * b.2 + (b.1.1 - a.1.1) * c.2) / det a b c)%Q in
  let k3 := (((b.1.1 * c.1.2 - c.1.1 * b.1.2) * a.2 + (c.1.1 * a.1.2 - a.1.1 * c.1.2) * b.2 + (a.1.1 * b.1.2 - b.1.1 * a.1.2) * c.2) / det a b c)%Q in
  Known (x * k1 + y * k2 + 1 * k3)%Q.
Section model.
  (** CGAL: the face with the position in the triangulation of the points; [junk]: the coordinates of the infinite vertex, which are not initialised *)
  Context (locate : list site -> Z * Z -> located) (junk : Q * Q * Q).
  (** Projection.cpp:118-133: the points that are inserted, in order *)
  Definition sites (nx ny : Z) (d : Z * Z -> option Q) : list site := x ← seqZ 0 ny; y ← seqZ 0 nx; match d (y, x) with Some z => [(x, y, z)] | None => [] end.
  (** the bounds of Projection.cpp:113-116 and 127-130: least and largest row, least and largest column *)
  Definition bounds (nx ny : Z) (l : list site) : (Z * Z) * (Z * Z) :=
    foldl (fun b s => ((Z.min b.1.1 s.1.1, Z.max b.1.2 s.1.1), (Z.min b.2.1 s.1.2, Z.max b.2.2 s.1.2))) (((ny - 1) mod size_end, 0), ((nx - 1) mod size_end, 0)) l.
  (** Projection.cpp:139-159, one cell *)
  Definition fill (l : list site) (d : Z * Z -> value) (p : Z * Z) : Z * Z -> value :=
    match d (p.2, p.1) with
    | Unknown =>
      match locate l p with
      | Nowhere => d
      | Face a b c => let pt := fun v => match v with Some s => coords s | None => junk end in upd (p.2, p.1) (solve (pt a) (pt b) (pt c) (inject_Z p.1) (inject_Z p.2)) d
      end
    | _ => d
    end.
  (** Projection.cpp:91-165 *)
  Definition interpolate (nx ny : Z) (d : Z * Z -> option Q) : Z * Z -> value :=
    let l := sites nx ny d in let '((x0, x1), (y0, y1)) := bounds nx ny l in
    foldl (fill l) (fun c => match d c with Some z => Known z | None => Unknown end) (x ← seqZ x0 (x1 - x0); y ← seqZ y0 (y1 - y0); [(x, y)]).
  (** Projection.cpp:46-53: the bands of the maxima and the minima *)
  Definition update_all (conv : Z -> Z) (g : geo) (root : aff) (ins : list (aff * list vec)) : (Z * Z -> value) * (Z * Z -> option Q) :=
    let e := project conv g root ins in (interpolate (g_nx g) (g_ny g) e.1, e.2).
End model.

(** ** What a triangulation guarantees *)
(** the position [p] is in the triangle of [a], [b] and [c], and [wa], [wb], [wc] are its weights *)
Definition weights (p a b c : Z * Z) (wa wb wc : Q) : Prop :=
  (0 <= wa /\ 0 <= wb /\ 0 <= wc /\ wa + wb + wc == 1 /\
   wa * inject_Z a.1 + wb * inject_Z b.1 + wc * inject_Z c.1 == inject_Z p.1 /\ wa * inject_Z a.2 + wb * inject_Z b.2 + wc * inject_Z c.2 == inject_Z p.2)%Q.
(** three positions on a line *)
Definition flat (a b c : Z * Z) : Prop := (b.1 - a.1) * (c.2 - a.2) = (b.2 - a.2) * (c.1 - a.1).
(** three points of [l] that are not on a line, with [p] in their triangle *)
Definition spans (l : list site) (p : Z * Z) (a b c : site) : Prop := a ∈ l /\ b ∈ l /\ c ∈ l /\ ~ flat a.1 b.1 c.1 /\ exists wa wb wc, weights p a.1 b.1 c.1 wa wb wc.
(** The contract, for points with different positions: a face without the infinite vertex is a triangle of points around the position; there is one if the position
    is in any triangle of points; otherwise the face has the infinite vertex; and there are no faces if all points are on a line. *)
Record delaunay (locate : list site -> Z * Z -> located) : Prop := Delaunay {
  dl_face l p a b c : NoDup l.*1 -> locate l p = Face (Some a) (Some b) (Some c) -> spans l p a b c;
  dl_in l p a b c : NoDup l.*1 -> spans l p a b c -> exists a' b' c', locate l p = Face (Some a') (Some b') (Some c');
  dl_plane l p a b c : NoDup l.*1 -> a ∈ l -> b ∈ l -> c ∈ l -> ~ flat a.1 b.1 c.1 -> locate l p <> Nowhere;
  dl_line l p : NoDup l.*1 -> (forall a b c, a ∈ l -> b ∈ l -> c ∈ l -> flat a.1 b.1 c.1) -> locate l p = Nowhere }.

(** ** The loops *)
Lemma elem_of_sites nx ny d x y z : (x, y, z) ∈ sites nx ny d <-> 0 <= x < ny /\ 0 <= y < nx /\ d (y, x) = Some z.
Proof.
  unfold sites. rewrite elem_of_list_bind. split.
  - intros (x'&Hx&Hin). apply elem_of_list_bind in Hx as (y'&Hy&Hin'). apply elem_of_seqZ in Hin, Hin'.
    destruct (d (y', x')) as [z'|] eqn:E; [|by apply elem_of_nil in Hy]. apply elem_of_list_singleton in Hy. injection Hy as -> -> ->. split; [lia|]. split; [lia|done].
  - intros (Hx&Hy&Hd). exists x. split; [|apply elem_of_seqZ; lia]. apply elem_of_list_bind. exists y. split; [|apply elem_of_seqZ; lia]. rewrite Hd. by apply elem_of_list_singleton.
Qed.
Lemma sites_NoDup nx ny d : NoDup (sites nx ny d).*1.
Proof.
  unfold sites. pose proof (NoDup_seqZ 0 ny) as HN. revert HN. induction (seqZ 0 ny) as [|x xs IH]; intros HN; [constructor|].
  apply NoDup_cons in HN as [Hx HN]. rewrite bind_cons, fmap_app. apply NoDup_app. split; [|split; [|by apply IH]].
  - clear. pose proof (NoDup_seqZ 0 nx) as HN. revert HN. induction (seqZ 0 nx) as [|y ys IH]; intros HN; [constructor|]. apply NoDup_cons in HN as [Hy HN]. rewrite bind_cons, fmap_app.
    apply NoDup_app. split; [destruct (d (y, x)); [apply NoDup_singleton|constructor]|]. split; [|by apply IH].
    intros p Hp Hq. apply elem_of_list_fmap in Hp as (s&->&Hs). apply elem_of_list_fmap in Hq as (s'&Es&Hs'). apply elem_of_list_bind in Hs' as (y'&Hs'&Hin).
    destruct (d (y, x)) as [z|]; [|by apply elem_of_nil in Hs]. apply elem_of_list_singleton in Hs as ->. destruct (d (y', x)) as [z'|]; [|by apply elem_of_nil in Hs'].
    apply elem_of_list_singleton in Hs' as ->. cbn in Es. injection Es as ->. done.
  - intros p Hp Hq. apply elem_of_list_fmap in Hp as (s&->&Hs). apply elem_of_list_fmap in Hq as (s'&Es&Hs'). apply elem_of_list_bind in Hs as (y&Hs&_). apply elem_of_list_bind in Hs' as (x'&Hs'&Hin).
    apply elem_of_list_bind in Hs' as (y'&Hs'&_). destruct (d (y, x)) as [z|]; [|by apply elem_of_nil in Hs]. apply elem_of_list_singleton in Hs as ->.
    destruct (d (y', x')) as [z'|]; [|by apply elem_of_nil in Hs']. apply elem_of_list_singleton in Hs' as ->. cbn in Es. injection Es as -> _. done.
Qed.
Lemma bounds_spec nx ny d : 0 <= nx <= size_end -> 0 <= ny <= size_end -> forall x y, 0 <= x < ny -> 0 <= y < nx -> let b := bounds nx ny (sites nx ny d) in
  (b.1.1 <= x < b.1.2 <-> (exists s, s ∈ sites nx ny d /\ s.1.1 <= x) /\ exists s, s ∈ sites nx ny d /\ x < s.1.1) /\
  (b.2.1 <= y < b.2.2 <-> (exists s, s ∈ sites nx ny d /\ s.1.2 <= y) /\ exists s, s ∈ sites nx ny d /\ y < s.1.2).
Proof.
  intros HX HY x y Hx Hy. cbv zeta. unfold bounds. rewrite !(Z.mod_small (_ - 1) size_end) by lia. set (l := sites nx ny d).
  assert (HL : forall s, s ∈ l -> 0 <= s.1.1 < ny /\ 0 <= s.1.2 < nx) by (intros [[u v] z] Hs; apply elem_of_sites in Hs; cbn; lia).
  assert (HG : forall l', (forall s, s ∈ l' -> 0 <= s.1.1 < ny /\ 0 <= s.1.2 < nx) -> forall b : (Z * Z) * (Z * Z),
    let r := foldl (fun b (s : site) => ((Z.min b.1.1 s.1.1, Z.max b.1.2 s.1.1), (Z.min b.2.1 s.1.2, Z.max b.2.2 s.1.2))) b l' in
    (r.1.1 <= x <-> b.1.1 <= x \/ exists s, s ∈ l' /\ s.1.1 <= x) /\ (x < r.1.2 <-> x < b.1.2 \/ exists s, s ∈ l' /\ x < s.1.1) /\
    (r.2.1 <= y <-> b.2.1 <= y \/ exists s, s ∈ l' /\ s.1.2 <= y) /\ (y < r.2.2 <-> y < b.2.2 \/ exists s, s ∈ l' /\ y < s.1.2)).
  { clear. induction l' as [|s l' IH]; intros HL b; cbn [foldl].
    - cbv zeta. repeat split; try tauto; intros [?|(?&H&_)]; try done; by apply elem_of_nil in H.
    - destruct (IH ltac:(intros; apply HL; by right) ((Z.min b.1.1 s.1.1, Z.max b.1.2 s.1.1), (Z.min b.2.1 s.1.2, Z.max b.2.2 s.1.2))) as (H1&H2&H3&H4). cbv zeta. cbn [fst snd] in H1, H2, H3, H4.
      assert (HE : forall P : site -> Prop, (exists s', s' ∈ s :: l' /\ P s') <-> P s \/ exists s', s' ∈ l' /\ P s').
      { intros P. split; [intros (s'&Hs&HP); apply elem_of_cons in Hs as [->|Hs]; [by left|right; eauto]|]. intros [HP|(s'&Hs&HP)]; [exists s; split; [left|done]|exists s'; split; [by right|done]]. }
      rewrite H1, H2, H3, H4, !HE, !Z.min_le_iff, !Z.max_lt_iff. tauto. }
  destruct (HG l HL ((ny - 1, 0), (nx - 1, 0))) as (H1&H2&H3&H4). cbn [fst snd] in H1, H2, H3, H4.
  split; (split; [intros [HA HB]; apply H1 in HA || apply H3 in HA; apply H2 in HB || apply H4 in HB|intros [HA HB]]).
  - destruct HB as [HB|HB]; [lia|]. split; [|done]. destruct HA as [HA|HA]; [|done]. destruct HB as (s&Hs&Hlt). specialize (HL s Hs). lia.
  - split; [apply H1; by right|apply H2; by right].
  - destruct HB as [HB|HB]; [lia|]. split; [|done]. destruct HA as [HA|HA]; [|done]. destruct HB as (s&Hs&Hlt). specialize (HL s Hs). lia.
  - split; [apply H3; by right|apply H4; by right].
Qed.
Lemma fill_fold locate junk l ps : NoDup ps -> forall d c, (c.2, c.1) ∉ ps -> foldl (fill locate junk l) d ps c = d c.
Proof.
  intros _. induction ps as [|p ps IH]; intros d c Hc; [done|]. cbn [foldl]. rewrite IH by (intros H; apply Hc; by right). unfold fill.
  destruct (d (p.2, p.1)); [|done|done]. destruct (locate l p); [done|]. unfold upd. destruct (decide (c = (p.2, p.1))) as [->|]; [|done]. exfalso. apply Hc. cbn. destruct p. left.
Qed.
Lemma fill_fold_in locate junk l ps : NoDup ps -> forall d c, (c.2, c.1) ∈ ps -> foldl (fill locate junk l) d ps c = fill locate junk l d (c.2, c.1) c.
Proof.
  induction ps as [|p ps IH]; intros HN d c Hc; [by apply elem_of_nil in Hc|]. apply NoDup_cons in HN as [Hp HN]. cbn [foldl]. apply elem_of_cons in Hc as [<-|Hc].
  - by rewrite fill_fold.
  - rewrite (IH HN) by done. assert (Hne : p <> (c.2, c.1)) by (intros ->; done). assert (E : fill locate junk l d p c = d c).
    { unfold fill. destruct (d (p.2, p.1)); [|done|done]. destruct (locate l p); [done|]. unfold upd. destruct (decide (c = (p.2, p.1))) as [->|]; [|done]. exfalso. apply Hne. by destruct p. }
    unfold fill at 1 3. cbn [fst snd]. replace (c.1, c.2) with c by (by destruct c). rewrite E. destruct (d c) eqn:Ed; [|by rewrite E|by rewrite E].
    destruct (locate l (c.2, c.1)); [by rewrite E|]. unfold upd. by rewrite !decide_True.
Qed.
(** what happens to a cell *)
Lemma interpolate_cell locate junk nx ny d x y : 0 <= nx <= size_end -> 0 <= ny <= size_end -> 0 <= x < ny -> 0 <= y < nx -> let l := sites nx ny d in
  interpolate locate junk nx ny d (y, x) =
    match d (y, x) with
    | Some z => Known z
    | None =>
      let b := bounds nx ny l in
      if decide ((b.1.1 <= x < b.1.2) /\ (b.2.1 <= y < b.2.2)) then
        match locate l (x, y) with
        | Nowhere => Unknown
        | Face a b c => let pt := fun v => match v with Some s => coords s | None => junk end in solve (pt a) (pt b) (pt c) (inject_Z x) (inject_Z y)
        end
      else Unknown
    end.
Proof.
  intros HX HY Hx Hy. cbv zeta. unfold interpolate. destruct (bounds nx ny (sites nx ny d)) as [[x0 x1] [y0 y1]]. cbn [fst snd].
  set (ps := x ← seqZ x0 (x1 - x0); y ← seqZ y0 (y1 - y0); [(x, y)]).
  assert (Hin : forall u v, (u, v) ∈ ps <-> x0 <= u < x1 /\ y0 <= v < y1).
  { intros u v. unfold ps. rewrite elem_of_list_bind. split.
    - intros (u'&Hu&Hi). apply elem_of_list_bind in Hu as (v'&Hv&Hj). apply elem_of_list_singleton in Hv. injection Hv as -> ->. apply elem_of_seqZ in Hi, Hj. lia.
    - intros [Hu Hv]. exists u. split; [|apply elem_of_seqZ; lia]. apply elem_of_list_bind. exists v. split; [by apply elem_of_list_singleton|apply elem_of_seqZ; lia]. }
  assert (HN : NoDup ps).
  { unfold ps. clear. pose proof (NoDup_seqZ x0 (x1 - x0)) as HN. revert HN. induction (seqZ x0 (x1 - x0)) as [|u us IH]; intros HN; [constructor|]. apply NoDup_cons in HN as [Hu HN].
    rewrite bind_cons. apply NoDup_app. split; [|split; [|by apply IH]].
    - pose proof (NoDup_seqZ y0 (y1 - y0)) as HM. revert HM. clear. induction (seqZ y0 (y1 - y0)) as [|v vs IH]; intros HM; [constructor|]. apply NoDup_cons in HM as [Hv HM]. rewrite bind_cons. cbn [app].
      apply NoDup_cons. split; [|by apply IH]. intros Hi. apply elem_of_list_bind in Hi as (v'&Hi&Hj). apply elem_of_list_singleton in Hi. injection Hi as ->. done.
    - intros p Hp Hq. apply elem_of_list_bind in Hp as (v&Hp&_). apply elem_of_list_singleton in Hp as ->. apply elem_of_list_bind in Hq as (u'&Hq&Hi). apply elem_of_list_bind in Hq as (v'&Hq&_).
      apply elem_of_list_singleton in Hq. injection Hq as -> _. done. }
  destruct (decide ((x0 <= x < x1) /\ (y0 <= y < y1))) as [Hb|Hb].
  - rewrite fill_fold_in by (done || by apply Hin). unfold fill. cbn [fst snd]. destruct (d (y, x)) as [z|] eqn:Ed; cbn; [by rewrite Ed|].
    destruct (locate (sites nx ny d) (x, y)); [by rewrite Ed|]. unfold upd. by rewrite decide_True.
  - rewrite fill_fold by (done || by rewrite Hin). by destruct (d (y, x)).
Qed.

(** ** Planes *)
Lemma det_flat (a b c : site) : (det (coords a) (coords b) (coords c) == 0)%Q <-> flat a.1 b.1 c.1.
Proof.
  assert (E : (det (coords a) (coords b) (coords c) == inject_Z ((b.1.1 - a.1.1) * (c.1.2 - a.1.2) - (b.1.2 - a.1.2) * (c.1.1 - a.1.1)))%Q).
  { unfold det, coords. cbn [fst snd]. unfold Z.sub. rewrite inject_Z_plus, inject_Z_opp, !inject_Z_mult, !inject_Z_plus, !inject_Z_opp. ring. }
  rewrite E. change 0%Q with (inject_Z 0). rewrite inject_Z_injective. unfold flat. lia.
Qed.
(** the plane through three points, at a position with weights *)
Lemma solve_weights (a b c : site) p wa wb wc : ~ flat a.1 b.1 c.1 -> weights p a.1 b.1 c.1 wa wb wc ->
  exists v, solve (coords a) (coords b) (coords c) (inject_Z p.1) (inject_Z p.2) = Known v /\ (v == wa * a.2 + wb * b.2 + wc * c.2)%Q.
Proof.
  intros HF (Wa&Wb&Wc&HS&HX&HY). unfold solve. destruct (Qeq_dec _ _) as [E|E]; [by apply det_flat in E|]. eexists. split; [reflexivity|].
  rewrite <-HX, <-HY. unfold det, coords in *. cbn [fst snd] in *. assert (Hc : (wc == 1 - wa - wb)%Q) by lra. rewrite Hc. field. exact E.
Qed.

(** ** C137 *)
(** the cell lies in the rows and columns between cells with known heights, the last row and column excluded *)
Definition in_box (nx ny : Z) (d : Z * Z -> option Q) (c : Z * Z) : Prop :=
  (exists k z, a_cell (Geo nx ny 1 1 0 0) k.1 k.2 /\ d k = Some z /\ k.1 <= c.1) /\ (exists k z, a_cell (Geo nx ny 1 1 0 0) k.1 k.2 /\ d k = Some z /\ c.1 < k.1) /\
  (exists k z, a_cell (Geo nx ny 1 1 0 0) k.1 k.2 /\ d k = Some z /\ k.2 <= c.2) /\ (exists k z, a_cell (Geo nx ny 1 1 0 0) k.1 k.2 /\ d k = Some z /\ c.2 < k.2).
(** [v] is the height at [c] of a plane through the heights of three known cells, not on a line, with [c] in their triangle: the mean with the weights of [c] *)
Definition mean_of_three (nx ny : Z) (d : Z * Z -> option Q) (c : Z * Z) (v : Q) : Prop :=
  exists k1 k2 k3 z1 z2 z3 w1 w2 w3, a_cell (Geo nx ny 1 1 0 0) k1.1 k1.2 /\ a_cell (Geo nx ny 1 1 0 0) k2.1 k2.2 /\ a_cell (Geo nx ny 1 1 0 0) k3.1 k3.2 /\
    d k1 = Some z1 /\ d k2 = Some z2 /\ d k3 = Some z3 /\ ~ flat k1 k2 k3 /\ weights c k1 k2 k3 w1 w2 w3 /\ (v == w1 * z1 + w2 * z2 + w3 * z3)%Q.
Definition known_on_line (nx ny : Z) (d : Z * Z -> option Q) : Prop :=
  forall k1 k2 k3 z1 z2 z3, a_cell (Geo nx ny 1 1 0 0) k1.1 k1.2 -> a_cell (Geo nx ny 1 1 0 0) k2.1 k2.2 -> a_cell (Geo nx ny 1 1 0 0) k3.1 k3.2 ->
    d k1 = Some z1 -> d k2 = Some z2 -> d k3 = Some z3 -> flat k1 k2 k3.
Lemma flat_swap a b c : flat (a.2, a.1) (b.2, b.1) (c.2, c.1) <-> flat a b c.
Proof. unfold flat. cbn [fst snd]. lia. Qed.
Lemma weights_swap p a b c wa wb wc : weights (p.2, p.1) (a.2, a.1) (b.2, b.1) (c.2, c.1) wa wb wc <-> weights p a b c wa wb wc.
Proof. unfold weights. cbn [fst snd]. tauto. Qed.
Lemma box_bounds nx ny d c : 0 <= nx <= size_end -> 0 <= ny <= size_end -> a_cell (Geo nx ny 1 1 0 0) c.1 c.2 -> let b := bounds nx ny (sites nx ny d) in
  (b.1.1 <= c.2 < b.1.2) /\ (b.2.1 <= c.1 < b.2.2) <-> in_box nx ny d c.
Proof.
  intros HX HY [Hx Hy]. cbn in Hx, Hy. destruct (bounds_spec nx ny d HX HY c.2 c.1 Hy Hx) as [H1 H2]. cbv zeta. rewrite H1, H2. unfold in_box, a_cell. cbn [g_nx g_ny].
  assert (HE : forall P : Z * Z -> Prop, (exists s, s ∈ sites nx ny d /\ P (s.1.2, s.1.1)) <-> exists k z, (0 <= k.1 < nx /\ 0 <= k.2 < ny) /\ d k = Some z /\ P k).
  { intros P. split.
    - intros ([[u v] z]&Hs&HP). apply elem_of_sites in Hs as (Hu&Hv&Hd). exists (v, u), z. cbn in *. split; [lia|]. done.
    - intros ([u v]&z&[Hu Hv]&Hd&HP). exists (v, u, z). split; [apply elem_of_sites; cbn in *; auto|done]. }
  rewrite (HE (fun k => k.2 <= c.2)), (HE (fun k => c.2 < k.2)), (HE (fun k => k.1 <= c.1)), (HE (fun k => c.1 < k.1)). tauto.
Qed.
(** Known heights stay. A cell outside of the box of the known ones (or in its last row or column) stays unknown, as do all if the known ones are on a line. A cell
    in the box that is in a triangle of known ones gets the height there of a plane through three known heights around it. *)
Theorem C137_cells locate junk nx ny d c : delaunay locate -> 0 <= nx <= size_end -> 0 <= ny <= size_end -> a_cell (Geo nx ny 1 1 0 0) c.1 c.2 ->
  let d' := interpolate locate junk nx ny d in
  (forall z, d c = Some z -> d' c = Known z) /\
  (d c = None -> ~ in_box nx ny d c \/ known_on_line nx ny d -> d' c = Unknown) /\
  (d c = None -> in_box nx ny d c -> (exists v, mean_of_three nx ny d c v) -> exists v, d' c = Known v /\ mean_of_three nx ny d c v).
Proof.
  intros HD HX HY HA d'. subst d'. pose proof HA as [Hx Hy]. cbn [g_nx g_ny] in Hx, Hy. pose proof (interpolate_cell locate junk nx ny d c.2 c.1 HX HY Hy Hx) as HI. cbv zeta in HI.
  replace (c.1, c.2) with c in HI by (by destruct c). rewrite HI. clear HI. pose proof (sites_NoDup nx ny d) as HN. pose proof (box_bounds nx ny d c HX HY HA) as HB. cbv zeta in HB.
  assert (HS : forall k z, a_cell (Geo nx ny 1 1 0 0) k.1 k.2 -> d k = Some z -> (k.2, k.1, z) ∈ sites nx ny d).
  { intros k z [Hk1 Hk2] Hd. apply elem_of_sites. cbn in Hk1, Hk2. split; [lia|]. split; [lia|]. by destruct k. }
  split; [by intros z ->|]. split.
  - intros -> HC. destruct (decide _) as [Hb|Hb]; [|done]. destruct HC as [HC|HC]; [by apply HB in Hb|]. rewrite (dl_line _ HD) by (try done;
      intros [[u1 v1] z1] [[u2 v2] z2] [[u3 v3] z3] H1 H2 H3; apply elem_of_sites in H1 as (?&?&H1), H2 as (?&?&H2), H3 as (?&?&H3); cbn [fst snd];
      apply (flat_swap (v1, u1) (v2, u2) (v3, u3)); apply (HC (v1, u1) (v2, u2) (v3, u3) z1 z2 z3); done). done.
  - intros -> Hbox (v0&k1&k2&k3&z1&z2&z3&w1&w2&w3&A1&A2&A3&E1&E2&E3&HF&HW&_). apply HB in Hbox. rewrite decide_True by done.
    destruct (dl_in _ HD (sites nx ny d) (c.2, c.1) (k1.2, k1.1, z1) (k2.2, k2.1, z2) (k3.2, k3.1, z3) HN) as (a&b&e&HL).
    { split; [by apply HS|]. split; [by apply HS|]. split; [by apply HS|]. cbn [fst snd]. rewrite flat_swap. split; [done|]. exists w1, w2, w3. by apply weights_swap. }
    rewrite HL. cbv zeta. destruct (dl_face _ HD _ _ _ _ _ HN HL) as (Ha&Hb&He&HF'&wa&wb&we&HW').
    destruct (solve_weights a b e (c.2, c.1) wa wb we HF' HW') as (v&Hv&Ev). exists v. cbn [fst snd] in Hv. split; [done|].
    destruct a as [[ua va] za], b as [[ub vb] zb], e as [[ue ve] ze]. apply elem_of_sites in Ha as (?&?&Ha), Hb as (?&?&Hb), He as (?&?&He). cbn [fst snd] in *.
    exists (va, ua), (vb, ub), (ve, ue), za, zb, ze, wa, wb, we. split; [done|]. split; [done|]. split; [done|]. split; [done|]. split; [done|]. split; [done|].
    split; [by rewrite <-flat_swap|]. split; [|done]. apply weights_swap. done.
Qed.
(** An interpolated height is between the least and the largest known one, and on a plane if all known ones are. *)
Theorem C137_range nx ny d c v lo hi : mean_of_three nx ny d c v -> (forall k z, a_cell (Geo nx ny 1 1 0 0) k.1 k.2 -> d k = Some z -> (lo <= z <= hi)%Q) -> (lo <= v <= hi)%Q.
Proof.
  intros (k1&k2&k3&z1&z2&z3&w1&w2&w3&A1&A2&A3&E1&E2&E3&_&(W1&W2&W3&HS&_)&Ev) HR. destruct (HR _ _ A1 E1) as [L1 U1], (HR _ _ A2 E2) as [L2 U2], (HR _ _ A3 E3) as [L3 U3]. rewrite Ev.
  assert (H1 : (w1 * lo <= w1 * z1 <= w1 * hi)%Q) by nra. assert (H2 : (w2 * lo <= w2 * z2 <= w2 * hi)%Q) by nra. assert (H3 : (w3 * lo <= w3 * z3 <= w3 * hi)%Q) by nra.
  assert (HL : (lo == w1 * lo + w2 * lo + w3 * lo)%Q) by (rewrite <-(Qmult_1_l lo) at 1; rewrite <-HS; ring).
  assert (HH : (hi == w1 * hi + w2 * hi + w3 * hi)%Q) by (rewrite <-(Qmult_1_l hi) at 1; rewrite <-HS; ring). lra.
Qed.
Theorem C137_plane nx ny d c v p q r : mean_of_three nx ny d c v ->
  (forall k z, a_cell (Geo nx ny 1 1 0 0) k.1 k.2 -> d k = Some z -> (z == p * inject_Z k.1 + q * inject_Z k.2 + r)%Q) -> (v == p * inject_Z c.1 + q * inject_Z c.2 + r)%Q.
Proof.
  intros (k1&k2&k3&z1&z2&z3&w1&w2&w3&A1&A2&A3&E1&E2&E3&_&(W1&W2&W3&HS&HX&HY)&Ev) HR. rewrite Ev, (HR _ _ A1 E1), (HR _ _ A2 E2), (HR _ _ A3 E3), <-HX, <-HY.
  rewrite <-(Qmult_1_l r) at 4. rewrite <-HS. ring.
Qed.
(** [updateAll]: where vertices are above a cell, the maximum is the highest of them; elsewhere it is interpolated from those. The minimum stays infinite there. *)
Theorem C137_update locate junk conv g root ins : delaunay locate -> conv_wraps conv -> good_geo g -> g_nx g <= half -> g_ny g <= half ->
  (forall T vs v, (T, vs) ∈ ins -> v ∈ vs -> let p := aapp root (aapp T v) in near g (this (vx p)) (this (vy p))) ->
  let r := update_all locate junk conv g root ins in
  exists top : Z * Z -> option Q, (forall x y, a_cell g x y -> highest (height_above g root ins x y) (top (x, y)) /\ lowest (height_above g root ins x y) (r.2 (x, y))) /\
    forall c, a_cell g c.1 c.2 ->
      (forall z, top c = Some z -> r.1 c = Known z) /\
      (top c = None -> in_box (g_nx g) (g_ny g) top c -> (exists v, mean_of_three (g_nx g) (g_ny g) top c v) -> exists v, r.1 c = Known v /\ mean_of_three (g_nx g) (g_ny g) top c v).
Proof.
  intros HD HC Hg HX HY HN r. exists (project conv g root ins).1. split; [intros x y HA; by apply (C76_project conv g root ins HC Hg HX HY HN)|].
  intros c HA. unfold r, update_all. cbn [fst]. assert (HB : 0 <= g_nx g <= size_end /\ 0 <= g_ny g <= size_end) by (destruct HA; unfold half, size_end in *; lia). destruct HB as [B1 B2].
  destruct (C137_cells locate junk (g_nx g) (g_ny g) (project conv g root ins).1 c HD B1 B2 HA) as (H1&_&H3). by split.
Qed.
(** A cell in the last row of known heights is not filled, even between two known ones (finding). *)
Theorem C137_border_refuted : exists nx ny d c, 0 <= nx <= size_end /\ 0 <= ny <= size_end /\ a_cell (Geo nx ny 1 1 0 0) c.1 c.2 /\ d c = None /\ (exists v, mean_of_three nx ny d c v) /\
  forall locate junk, interpolate locate junk nx ny d c = Unknown.
Proof.
  exists 3, 3, (fun c => if decide (c ∈ [(0, 0); (2, 0); (0, 2); (2, 2)]) then Some 5%Q else None), (1, 2).
  split; [done|]. split; [done|]. split; [by cbn|]. split; [reflexivity|]. split.
  - exists 5%Q, (0, 2), (2, 2), (0, 0), 5%Q, 5%Q, 5%Q, (1 # 2)%Q, (1 # 2)%Q, 0%Q. repeat split; try reflexivity; try done; cbn; lra.
  - intros locate junk. pose proof (interpolate_cell locate junk 3 3 (fun c => if decide (c ∈ [(0, 0); (2, 0); (0, 2); (2, 2)]) then Some 5%Q else None) 2 1) as H. cbv zeta in H.
    rewrite H by (done || unfold size_end; lia). match goal with |- context [bounds 3 3 ?l] => let b := eval vm_compute in (bounds 3 3 l) in replace (bounds 3 3 l) with b by (vm_compute; reflexivity) end.
    cbn [fst snd]. rewrite (decide_False (P := 0 <= 2 < 2 /\ 0 <= 1 < 2)) by lia. reflexivity.
Qed.

(** ** A triangulation by trying all triangles *)
Definition cross (p a b : Z * Z) : Z := (a.1 - p.1) * (b.2 - p.2) - (a.2 - p.2) * (b.1 - p.1).
Definition around (p a b c : Z * Z) : bool := let D := cross a b c in negb (D =? 0) && (0 <=? D * cross p b c) && (0 <=? D * cross p c a) && (0 <=? D * cross p a b).
Definition triples (l : list site) : list (site * site * site) := a ← l; b ← l; c ← l; [(a, b, c)].
Definition try_all (l : list site) (p : Z * Z) : located :=
  match head (List.filter (fun t => around p t.1.1.1 t.1.2.1 t.2.1) (triples l)) with
  | Some (a, b, c) => Face (Some a) (Some b) (Some c)
  | None => match head (List.filter (fun t => negb (cross t.1.1.1 t.1.2.1 t.2.1 =? 0)) (triples l)) with Some (a, b, _) => Face None (Some a) (Some b) | None => Nowhere end
  end.
Lemma cross_flat a b c : cross a b c = 0 <-> flat a b c.
Proof. unfold cross, flat. lia. Qed.
Lemma elem_of_triples l a b c : (a, b, c) ∈ triples l <-> a ∈ l /\ b ∈ l /\ c ∈ l.
Proof.
  unfold triples. rewrite elem_of_list_bind. split.
  - intros (a'&H&Ha). apply elem_of_list_bind in H as (b'&H&Hb). apply elem_of_list_bind in H as (c'&H&Hc). apply elem_of_list_singleton in H. injection H as -> -> ->. done.
  - intros (Ha&Hb&Hc). exists a. split; [|done]. apply elem_of_list_bind. exists b. split; [|done]. apply elem_of_list_bind. exists c. split; [by apply elem_of_list_singleton|done].
Qed.
Lemma head_filter {A} (f : A -> bool) (l : list A) : match head (List.filter f l) with Some a => a ∈ l /\ f a = true | None => forall a, a ∈ l -> f a = false end.
Proof.
  induction l as [|a l IH]; cbn; [intros a Ha; by apply elem_of_nil in Ha|]. destruct (f a) eqn:E; cbn; [split; [left|done]|].
  destruct (head (List.filter f l)); [destruct IH; split; [by right|done]|]. intros a' [->|Ha]%elem_of_cons; auto.
Qed.
Lemma cross_q p a b : (inject_Z (cross p a b) == (inject_Z a.1 - inject_Z p.1) * (inject_Z b.2 - inject_Z p.2) - (inject_Z a.2 - inject_Z p.2) * (inject_Z b.1 - inject_Z p.1))%Q.
Proof. unfold cross, Z.sub. rewrite inject_Z_plus, inject_Z_opp, !inject_Z_mult, !inject_Z_plus, !inject_Z_opp. ring. Qed.
Lemma around_spec p a b c : around p a b c = true <-> ~ flat a b c /\ exists wa wb wc, weights p a b c wa wb wc.
Proof.
  unfold around. rewrite !andb_true_iff, negb_true_iff, Z.eqb_neq, !Z.leb_le, cross_flat. split.
  - intros [[[HF H1] H2] H3]. split; [done|]. set (D := cross a b c) in *. assert (HD : D <> 0) by (unfold D; by rewrite cross_flat).
    assert (HQ : ~ (inject_Z D == 0)%Q) by (change 0%Q with (inject_Z 0); by rewrite inject_Z_injective).
    exists (inject_Z (cross p b c) / inject_Z D)%Q, (inject_Z (cross p c a) / inject_Z D)%Q, (inject_Z (cross p a b) / inject_Z D)%Q.
    assert (HP : forall z, 0 <= D * z -> (0 <= inject_Z z / inject_Z D)%Q).
    { intros z Hz. assert (E : (inject_Z z / inject_Z D == inject_Z (D * z) / (inject_Z D * inject_Z D))%Q) by (rewrite inject_Z_mult; field; done). rewrite E.
      apply Qle_shift_div_l; [|rewrite Qmult_0_l; change 0%Q with (inject_Z 0); by rewrite <-Zle_Qle]. rewrite <-inject_Z_mult. change 0%Q with (inject_Z 0). rewrite <-Zlt_Qlt. nia. }
    split; [by apply HP|]. split; [by apply HP|]. split; [by apply HP|].
    assert (HQ' : ~ ((inject_Z b.1 - inject_Z a.1) * (inject_Z c.2 - inject_Z a.2) - (inject_Z b.2 - inject_Z a.2) * (inject_Z c.1 - inject_Z a.1) == 0)%Q) by (rewrite <-cross_q; exact HQ).
    clear HP H1 H2 H3 HQ HD HF. unfold D. rewrite !cross_q. split; [field; exact HQ'|]. split; field; exact HQ'.
  - intros (HF&wa&wb&wc&Wa&Wb&Wc&HS&HX&HY). set (D := cross a b c). assert (HD : D <> 0) by (unfold D; by rewrite cross_flat).
    assert (HP : forall z w, (0 <= w)%Q -> (inject_Z z == w * inject_Z D)%Q -> 0 <= D * z).
    { intros z w Hw E. rewrite Zle_Qle, inject_Z_mult, E. assert (E' : (inject_Z D * (w * inject_Z D) == w * (inject_Z D * inject_Z D))%Q) by ring. rewrite E'.
      apply Qmult_le_0_compat; [done|]. rewrite <-inject_Z_mult. change 0%Q with (inject_Z 0). rewrite <-Zle_Qle. nia. }
    assert (Hc : (wc == 1 - wa - wb)%Q) by lra. rewrite Hc in HX, HY.
    split; [split; [split; [done|]|]|].
    + apply (HP _ wa Wa). unfold D. rewrite !cross_q, <-HX, <-HY. ring.
    + apply (HP _ wb Wb). unfold D. rewrite !cross_q, <-HX, <-HY. ring.
    + apply (HP _ wc Wc). unfold D. rewrite !cross_q, <-HX, <-HY, Hc. ring.
Qed.
Lemma try_all_delaunay : delaunay try_all.
Proof.
  split.
  - intros l p a b c _. unfold try_all. pose proof (head_filter (fun t : site * site * site => around p t.1.1.1 t.1.2.1 t.2.1) (triples l)) as HH.
    destruct (head _) as [[[a' b'] c']|].
    + intros H. injection H as -> -> ->. destruct HH as [Hi Ha]. apply elem_of_triples in Hi as (?&?&?). cbn [fst snd] in Ha. apply around_spec in Ha as [? ?]. by repeat split.
    + destruct (head _) as [[[? ?] ?]|]; intros H; discriminate H.
  - intros l p a b c _ (Ha&Hb&Hc&HF&HW). unfold try_all. pose proof (head_filter (fun t : site * site * site => around p t.1.1.1 t.1.2.1 t.2.1) (triples l)) as HH.
    destruct (head _) as [[[a' b'] c']|]; [eauto|]. exfalso. specialize (HH (a, b, c)). rewrite elem_of_triples in HH. specialize (HH ltac:(done)). cbn [fst snd] in HH.
    assert (Ht : around p a.1 b.1 c.1 = true) by (by apply around_spec). rewrite Ht in HH. done.
  - intros l p a b c _ Ha Hb Hc HF. unfold try_all. destruct (head (List.filter _ (triples l))) as [[[a' b'] c']|]; [done|].
    pose proof (head_filter (fun t : site * site * site => negb (cross t.1.1.1 t.1.2.1 t.2.1 =? 0)) (triples l)) as HH. destruct (head _) as [[[a' b'] c']|]; [done|]. exfalso.
    specialize (HH (a, b, c)). rewrite elem_of_triples in HH. specialize (HH ltac:(done)). cbn [fst snd] in HH. apply negb_false_iff, Z.eqb_eq, cross_flat in HH. done.
  - intros l p _ HF. unfold try_all. pose proof (head_filter (fun t : site * site * site => around p t.1.1.1 t.1.2.1 t.2.1) (triples l)) as HH.
    destruct (head _) as [[[a' b'] c']|].
    + exfalso. destruct HH as [Hi Ha]. apply elem_of_triples in Hi as (?&?&?). cbn [fst snd] in Ha. apply around_spec in Ha as [Ha _]. apply Ha. by apply HF.
    + clear HH. pose proof (head_filter (fun t : site * site * site => negb (cross t.1.1.1 t.1.2.1 t.2.1 =? 0)) (triples l)) as HH. destruct (head _) as [[[a' b'] c']|]; [|done].
      exfalso. destruct HH as [Hi Ha]. apply elem_of_triples in Hi as (?&?&?). cbn [fst snd] in Ha. apply negb_true_iff, Z.eqb_neq in Ha. apply Ha. apply cross_flat. by apply HF.
Qed.
(** A cell in the box, but in no triangle of known ones, is filled with the help of the coordinates of the infinite vertex: it can get any height (finding). *)
Theorem C137_hull_refuted : exists locate nx ny d c, delaunay locate /\ 0 <= nx <= size_end /\ 0 <= ny <= size_end /\ a_cell (Geo nx ny 1 1 0 0) c.1 c.2 /\ d c = None /\
  (forall k z, d k = Some z -> z = 5%Q) /\ forall v, exists junk v', interpolate locate junk nx ny d c = Known v' /\ (v' == v)%Q.
Proof.
  exists try_all, 3, 3, (fun c => if decide (c ∈ [(2, 0); (0, 2); (2, 2)]) then Some 5%Q else None), (0, 0). split; [exact try_all_delaunay|].
  split; [done|]. split; [done|]. split; [by cbn|]. split; [reflexivity|]. split; [intros k z; destruct (decide _); [by injection 1|done]|].
  intros v. exists (0, 0, v)%Q. pose proof (interpolate_cell try_all (0, 0, v)%Q 3 3 (fun c => if decide (c ∈ [(2, 0); (0, 2); (2, 2)]) then Some 5%Q else None) 0 0) as H. cbv zeta in H.
  rewrite H by (done || unfold size_end; lia).
  match goal with |- context [bounds 3 3 ?l] => let b := eval vm_compute in (bounds 3 3 l) in replace (bounds 3 3 l) with b by (vm_compute; reflexivity) end.
  cbn [fst snd]. rewrite (decide_True (P := 0 <= 0 < 2 /\ 0 <= 0 < 2)) by lia.
  match goal with |- context [try_all ?l ?p] => let b := eval vm_compute in (try_all l p) in replace (try_all l p) with b by (vm_compute; reflexivity) end.
  destruct (decide ((0, 0) ∈ _)) as [Hd|_]; [exfalso; repeat (apply elem_of_cons in Hd as [Hd|Hd]; [discriminate Hd|]); by apply elem_of_nil in Hd|]. unfold solve, det, coords. cbn [fst snd]. destruct (Qeq_dec _ _) as [E|E]; [exfalso; vm_compute in E; discriminate E|].
  eexists. split; [reflexivity|]. clear E. unfold inject_Z. field.
Qed.
Example C137_nonvacuous : let d := fun c => if decide (c = (0, 0)) then Some 0%Q else if decide (c = (3, 0)) then Some 3%Q else if decide (c = (0, 3)) then Some 6%Q else if decide (c = (3, 3)) then Some 9%Q else None in
  delaunay try_all /\ in_box 4 4 d (1, 2) /\ mean_of_three 4 4 d (1, 2) 5%Q /\ exists v, interpolate try_all (0, 0, 0)%Q 4 4 d (1, 2) = Known v /\ (v == 5)%Q.
Proof.
  cbv zeta. split; [exact try_all_delaunay|]. split; [|split].
  - split; [exists (0, 0), 0%Q; by vm_compute|]. split; [exists (3, 0), 3%Q; by vm_compute|]. split; [exists (0, 0), 0%Q; by vm_compute|exists (0, 3), 6%Q; by vm_compute].
  - exists (0, 0), (0, 3), (3, 3), 0%Q, 6%Q, 9%Q, (1 # 3)%Q, (1 # 3)%Q, (1 # 3)%Q. repeat split; try reflexivity; try done; cbn; lra.
  - eexists. split; [vm_compute; reflexivity|reflexivity].
Qed.
