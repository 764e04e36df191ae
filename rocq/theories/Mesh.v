(** Model of the meshing of laser scans (src/operators/ScanMeshing.cpp:112-307), of LaserScan::addScanLine (src/maps/LaserScan.cpp:43-68)
    and of the normals of a mesh (src/maps/TriMesh.cpp:28-66).  C109, C110, C111.

    The arithmetic on floating point numbers comes from outside of the model (Section variables): which readings pass the filters of range
    and edge angle (:142-158), where a reading lies (:160-185), whether two points are closer than maxEdgeLength (:259-263), whether the
    angle psi of a column is on the other half of the sphere (:274), the colour of a remission (:199-204), the variance of a reading
    (:191-192), the normal of three points.  The markers (:206-228, :297-300) are only printed and are left out. *)
From Coq Require Import ZArith.
From stdpp Require Import prelude strings gmap.
From Verif Require Import Base.
Local Open Scope Z_scope.

Definition face : Type := Z * Z * Z.

Section Mesh.
  (** F: angles of the scan; V: points; C: colours; D: variances; N: normals *)
  Context {F V C D N : Type}.

  (** LaserScan.hpp:20-25 *)
  Record line : Type := Line { phi : F; ranges : list Z; rems : list Z }.
  (** LaserScan.hpp:42-45, the other fields do not change; points_per_line is not set by the constructor (LaserScan.cpp:15-18), [None] *)
  Record scan : Type := Scan { per_line : option Z; lines : list line }.
  (** LaserScan.cpp:43-68, without the angles; a line of another length only prints a warning (:60-61) *)
  Definition add_scan_line (ln : line) (s : scan) : scan :=
    Scan (match lines s with [] => Some (Z.of_nat (length (ranges ln))) | _ => per_line s end) (lines s ++ [ln]).

  Context (use_rem : bool).
  Context (wanted : line -> nat -> bool) (place : line -> nat -> V) (variance : line -> nat -> D) (color : Z -> C).
  Context (close : V -> V -> bool) (behind : nat -> bool).

  (** the vectors of the mesh that are filled, ScanMeshing.cpp:121-128; attrs: whether the bit SCAN_EDGE is set *)
  Record mesh : Type := Mesh { points : list V; cols : list C; attrs : list bool; vars : list D; faces : list face }.
  (** with the two arrays of indices, :141-142; [None]: an entry that was never written *)
  Record st : Type := St { msh : mesh; cur : list (option Z); prev : list (option Z) }.

  Definition fetch (a : list (option Z)) (i : nat) : out () Z := match a !! i with Some (Some v) => Ok v | _ => Bad UB end.
  Definition store (a : list (option Z)) (i : nat) (v : Z) : out () (list (option Z)) := if decide (i < length a)%nat then Ok (<[i := Some v]> a) else Bad UB.
  (** points[i] for an int *)
  Definition point_at (l : list V) (i : Z) : out () V := if decide (0 <= i) then match l !! Z.to_nat i with Some v => Ok v | None => Bad UB end else Bad UB.

  (** :147 *)
  Definition has_rem (ln : line) : bool := bool_decide (length (ranges ln) = length (rems ln)).

  (** :158-237, one reading: the mesh, and what is written to idx_line *)
  Definition add_reading (nlines : nat) (ln : line) (l p : nat) (m : mesh) : mesh * Z :=
    if wanted ln p then
      let m' := Mesh (points m ++ [place ln p])
                     (if use_rem && has_rem ln then cols m ++ (match rems ln !! p with Some r => [color r] | None => [] end) else cols m)
                     (attrs m ++ [bool_decide (p = 0%nat) || bool_decide (S p = length (ranges ln)) || bool_decide (l = 0%nat) || bool_decide (S l = nlines)])
                     (vars m ++ [variance ln p]) (faces m) in
      (m', Z.of_nat (length (points m')) - 1)
    else (m, -1).

  (** :250-285: the turn n of the loop over the triangles of a quad; the accumulator is first_poly ([None] for -1) and the faces *)
  Definition le01 (a b : nat) : nat := if decide (a <= b)%nat then 1%nat else 0%nat.
  Definition try_triangle (p : nat) (pts : list V) (poly : list Z) (n : nat) (acc : option nat * list face) : out () (option nat * list face) :=
    match poly !! (0 + le01 n 0)%nat, poly !! (1 + le01 n 1)%nat, poly !! (2 + le01 n 2)%nat with
    | Some a, Some b, Some c =>
      if (0 <? a) && (0 <? b) && (0 <? c) && (match acc.1 with None => true | Some f => Nat.even (f + n) end) then
        pa <~ point_at pts a ;; pb <~ point_at pts b ;; pc <~ point_at pts c ;;
        if close pa pb && close pa pc && close pb pc
        then Ok (Some n, acc.2 ++ [if behind p then (a, c, b) else (a, b, c)])
        else Ok acc
      else Ok acc
    | _, _, _ => Bad UB
    end.
  (** :240-287 *)
  Definition make_faces (l p : nat) (s : st) : out () st :=
    match l, p with
    | S _, S p' =>
      p0 <~ fetch (prev s) p' ;; p1 <~ fetch (prev s) p ;; p2 <~ fetch (cur s) p ;; p3 <~ fetch (cur s) p' ;;
      let poly := [p0; p1; p2; p3] in
      let pts := points (msh s) in
      a <~ try_triangle p pts poly 0 (None, faces (msh s)) ;;
      a <~ try_triangle p pts poly 1 a ;;
      a <~ try_triangle p pts poly 2 a ;;
      a <~ try_triangle p pts poly 3 a ;;
      Ok (St (Mesh pts (cols (msh s)) (attrs (msh s)) (vars (msh s)) a.2) (cur s) (prev s))
    | _, _ => Ok s
    end.
  (** the body of the loop over the points of a line, :150-290 *)
  Definition visit (nlines : nat) (ln : line) (l p : nat) (s : st) : out () st :=
    let '(m, i) := add_reading nlines ln l p (msh s) in
    c <~ store (cur s) p i ;; make_faces l p (St m c (prev s)).
  Fixpoint visit_from (nlines : nat) (ln : line) (l p k : nat) (s : st) : out () st :=
    match k with O => Ok s | S k => s <~ visit nlines ln l p s ;; visit_from nlines ln l (S p) k s end.
  (** :144-295: the lines; the two arrays are swapped after each *)
  Fixpoint visit_lines (nlines : nat) (l : nat) (ls : list line) (s : st) : out () st :=
    match ls with
    | [] => Ok s
    | ln :: ls => s <~ visit_from nlines ln l 0 (length (ranges ln)) s ;; visit_lines nlines (S l) ls (St (msh s) (prev s) (cur s))
    end.
  (** TriMesh.cpp:28-66; [normal]: :47, [finish]: :56-64 for one vertex *)
  Context (zero : N) (normal : V -> V -> V -> N) (finish : N -> N).
  Definition face_normal (pts : list V) (f : face) (ns : list N) : out () (list N) :=
    let '(a, b, c) := f in
    pa <~ point_at pts a ;; pb <~ point_at pts b ;; pc <~ point_at pts c ;;
    let n := normal pa pb pc in
    Ok (<[Z.to_nat c := n]> (<[Z.to_nat b := n]> (<[Z.to_nat a := n]> ns))).
  Fixpoint face_normals (pts : list V) (fs : list face) (ns : list N) : out () (list N) :=
    match fs with [] => Ok ns | f :: fs => ns <~ face_normal pts f ns ;; face_normals pts fs ns end.
  Definition vertex_normals (pts : list V) (fs : list face) : out () (list N) :=
    ns <~ face_normals pts fs (replicate (length pts) zero) ;; Ok (finish <$> ns).

  (** what is in the output at the end; the colours are removed if there are none, :307-308 *)
  Record result : Type := Result { r_points : list V; r_cols : option (list C); r_attrs : list bool; r_vars : list D; r_faces : list face; r_normals : list N }.
  (** :112-314; assert: :306; an array of automatic storage needs a positive number of elements, :141 *)
  Definition update_all (s : scan) : out () result :=
    match per_line s with
    | None => Bad UB
    | Some n =>
      if decide (n <= 0) then Bad UB else
      let empty := replicate (Z.to_nat n) None in
      t <~ visit_lines (length (lines s)) 0 (lines s) (St (Mesh [] [] [] [] []) empty empty) ;;
      let m := msh t in
      ns <~ vertex_normals (points m) (faces m) ;;
      if bool_decide (cols m = []) || bool_decide (length (cols m) = length (points m))
      then Ok (Result (points m) (match cols m with [] => None | _ => Some (cols m) end) (attrs m) (vars m) (faces m) ns)
      else Bad Abort
    end.
End Mesh.
Arguments line : clear implicits. Arguments scan : clear implicits.

(** * Specification *)
Section Spec.
  Context {F V C D N : Type} (use_rem : bool).
  Context (wanted : line F -> nat -> bool) (place : line F -> nat -> V) (variance : line F -> nat -> D) (color : Z -> C).
  Context (close : V -> V -> bool) (behind : nat -> bool) (zero : N) (normal : V -> V -> V -> N) (finish : N -> N).
  Notation update_all := (update_all use_rem wanted place variance color close behind zero normal finish).
  Notation scan := (scan F). Notation line := (line F).

  (** every line has the announced number of readings *)
  Definition uniform (n : nat) (s : scan) : Prop := (0 < n)%nat /\ per_line s = Some (Z.of_nat n) /\ Forall (fun ln => length (ranges ln) = n) (lines s).
  (** the positions (line, point) in the order of the scan, before point p of line l *)
  Definition cells_before (n l p : nat) : list (nat * nat) := (seq 0 l ≫= fun i => pair i <$> seq 0 n) ++ (pair l <$> seq 0 p).
  Definition cells (n : nat) (s : scan) : list (nat * nat) := cells_before n (length (lines s)) 0.
  (** the reading at a position passes the filters *)
  Definition good (s : scan) (c : nat * nat) : bool := match lines s !! c.1 with Some ln => wanted ln c.2 | None => false end.
  Definition at_line {A} (s : scan) (f : line -> nat -> A) (c : nat * nat) : option A := (fun ln => f ln c.2) <$> lines s !! c.1.
  (** the readings that pass, in the order of the scan *)
  Definition readings (n : nat) (s : scan) : list (nat * nat) := filter (fun c => good s c = true) (cells n s).
  Definition on_edge (n : nat) (s : scan) (c : nat * nat) : bool :=
    bool_decide (c.2 = 0%nat) || bool_decide (S c.2 = n) || bool_decide (c.1 = 0%nat) || bool_decide (S c.1 = length (lines s)).
  Definition the_color (ln : line) (p : nat) : option C := color <$> rems ln !! p.
  (** the corners of the quad between lines l and l+1 and columns p and p+1 *)
  Definition quad (l p : nat) : list (nat * nat) := [(l, p); (l, S p); (S l, S p); (S l, p)].
  (** corner n of the quad left out, the three others are vertices and their distances are below the limit *)
  Definition triangle (n : nat) (s : scan) (l p k : nat) (a b c : nat) : Prop :=
    exists ca cb cc va vb vc, delete k (quad l p) = [ca; cb; cc] /\ (k < 4)%nat /\
      readings n s !! a = Some ca /\ readings n s !! b = Some cb /\ readings n s !! c = Some cc /\
      at_line s place ca = Some va /\ at_line s place cb = Some vb /\ at_line s place cc = Some vc /\
      close va vb = true /\ close va vc = true /\ close vb vc = true.
  (** the face for it: on the other half of the sphere the order is reversed *)
  Definition oriented (p : nat) (a b c : nat) : face := if behind (S p) then (Z.of_nat a, Z.of_nat c, Z.of_nat b) else (Z.of_nat a, Z.of_nat b, Z.of_nat c).
End Spec.

(** * Proofs *)
Lemma cells_S n l p : cells_before n l (S p) = cells_before n l p ++ [(l, p)].
Proof. unfold cells_before. rewrite seq_S, fmap_app, (assoc_L (++)). done. Qed.
Lemma cells_line n l : cells_before n l n = cells_before n (S l) 0.
Proof.
  unfold cells_before. rewrite (seq_S l 0), bind_app. change (seq 0 0) with (@nil nat). cbn [fmap list_fmap mbind list_bind Nat.add].
  rewrite !app_nil_r. done.
Qed.
Lemma cells_in n l p c : c ∈ cells_before n l p <-> ((c.1 < l)%nat /\ (c.2 < n)%nat) \/ (c.1 = l /\ (c.2 < p)%nat).
Proof.
  destruct c as [i j]. unfold cells_before. rewrite elem_of_app, elem_of_list_bind. cbn.
  rewrite elem_of_list_fmap. split.
  - intros [(x & Hx & Hs)|(x & Hx & Hs)].
    + apply elem_of_list_fmap in Hx as (y & Hy & Hys). injection Hy as -> ->. apply elem_of_seq in Hs, Hys. left. lia.
    + injection Hx as -> ->. apply elem_of_seq in Hs. right. lia.
  - intros [[H1 H2]|[-> H2]].
    + left. exists i. split; [|apply elem_of_seq; lia]. apply elem_of_list_fmap. exists j. split; [done|]. apply elem_of_seq. lia.
    + right. exists j. split; [done|]. apply elem_of_seq. lia.
Qed.
(** [c] comes before [d] *)
Definition earlier (c d : nat * nat) : Prop := (c.1 < d.1)%nat \/ (c.1 = d.1 /\ (c.2 < d.2)%nat).
Lemma cells_prefix n l p l' p' : (p <= n)%nat -> (l < l')%nat \/ (l = l' /\ (p <= p')%nat) -> exists k, cells_before n l' p' = cells_before n l p ++ k.
Proof.
  intros Hp [Hl|[-> Hl]].
  - assert (Hn : exists k, cells_before n l n = cells_before n l p ++ k).
    { clear Hl. induction n as [|m IH] in p, Hp |- *.
      - exists []. assert (p = 0%nat) as -> by lia. by rewrite app_nil_r.
      - exists (pair l <$> seq p (S m - p)). unfold cells_before. rewrite <- (assoc_L (++)), <- fmap_app. repeat f_equal.
        replace (S m) with (p + (S m - p))%nat at 1 by lia. apply seq_app. }
    destruct Hn as [k0 Hk0]. rewrite cells_line in Hk0.
    assert (H0 : exists k, cells_before n l' 0 = cells_before n (S l) 0 ++ k).
    { replace l' with (S l + (l' - S l))%nat by lia. generalize (l' - S l)%nat. intros d.
      exists (seq (S l) d ≫= fun i => pair i <$> seq 0 n). unfold cells_before. change (seq 0 0) with (@nil nat). cbn [fmap list_fmap]. rewrite !app_nil_r.
      rewrite seq_app, bind_app. done. }
    destruct H0 as [k1 Hk1]. exists (k0 ++ k1 ++ (pair l' <$> seq 0 p')).
    replace (cells_before n l' p') with (cells_before n l' 0 ++ (pair l' <$> seq 0 p')).
    + rewrite Hk1, Hk0. by rewrite !(assoc_L (++)).
    + unfold cells_before. change (seq 0 0) with (@nil nat). cbn [fmap list_fmap]. by rewrite app_nil_r.
  - exists (pair l' <$> seq p (p' - p)). unfold cells_before. rewrite <- (assoc_L (++)), <- fmap_app. repeat f_equal.
    replace p' with (p + (p' - p))%nat at 1 by lia. apply seq_app.
Qed.

Section Proofs.
  Context {F V C D N : Type} (use_rem : bool).
  Context (wanted : line F -> nat -> bool) (place : line F -> nat -> V) (variance : line F -> nat -> D) (color : Z -> C).
  Context (close : V -> V -> bool) (behind : nat -> bool) (zero : N) (normal : V -> V -> V -> N) (finish : N -> N).
  Local Notation update_all := (update_all use_rem wanted place variance color close behind zero normal finish).
  Local Notation scan := (scan F). Notation line := (line F).
  Local Notation good := (good wanted). Notation readings := (readings wanted).
  Local Notation try_triangle := (try_triangle close behind).
  Local Notation make_faces := (make_faces close behind).
  Local Notation visit := (visit use_rem wanted place variance color close behind).
  Local Notation visit_from := (visit_from use_rem wanted place variance color close behind).
  Local Notation visit_lines := (visit_lines use_rem wanted place variance color close behind).

  Local Notation st := (@st V C D).

  (** ** Normals *)
  Lemma face_normal_ok pts (f : face) (ns : list N) : 0 <= f.1.1 < Z.of_nat (length pts) -> 0 <= f.1.2 < Z.of_nat (length pts) -> 0 <= f.2 < Z.of_nat (length pts) ->
    exists pa pb pc, pts !! Z.to_nat f.1.1 = Some pa /\ pts !! Z.to_nat f.1.2 = Some pb /\ pts !! Z.to_nat f.2 = Some pc /\
      face_normal normal pts f ns = Ok (<[Z.to_nat f.2 := normal pa pb pc]> (<[Z.to_nat f.1.2 := normal pa pb pc]> (<[Z.to_nat f.1.1 := normal pa pb pc]> ns))).
  Proof using Type.
    destruct f as [[a b] c]. cbn. intros Ha Hb Hc.
    destruct (lookup_lt_is_Some_2 pts (Z.to_nat a)) as [pa Hpa]; [lia|]. destruct (lookup_lt_is_Some_2 pts (Z.to_nat b)) as [pb Hpb]; [lia|].
    destruct (lookup_lt_is_Some_2 pts (Z.to_nat c)) as [pc Hpc]; [lia|]. exists pa, pb, pc. repeat split; try done.
    unfold point_at. rewrite !decide_True by lia. by rewrite Hpa, Hpb, Hpc.
  Qed.
  Definition touches (i : nat) (f : face) : bool := bool_decide (Z.of_nat i = f.1.1) || bool_decide (Z.of_nat i = f.1.2) || bool_decide (Z.of_nat i = f.2).
  Definition in_range (k : nat) (f : face) : Prop := 0 <= f.1.1 < Z.of_nat k /\ 0 <= f.1.2 < Z.of_nat k /\ 0 <= f.2 < Z.of_nat k.
  Definition last_face (i : nat) (fs : list face) : option face := last (filter (fun f => touches i f = true) fs).
  Definition normal_at (pts : list V) (f : face) : option N :=
    match pts !! Z.to_nat f.1.1, pts !! Z.to_nat f.1.2, pts !! Z.to_nat f.2 with Some a, Some b, Some c => Some (normal a b c) | _, _, _ => None end.
  Lemma face_normals_ok pts fs (ns : list N) : Forall (in_range (length pts)) fs -> length ns = length pts ->
    exists ns', face_normals normal pts fs ns = Ok ns' /\ length ns' = length pts /\
      forall i, (i < length pts)%nat -> ns' !! i = match last_face i fs with Some f => normal_at pts f | None => ns !! i end.
  Proof using Type.
    intros Hf. induction Hf as [|f fs (Ha & Hb & Hc) Hfs IH] in ns |- *; intros Hl.
    - exists ns. split; [done|]. split; [done|]. intros i Hi. done.
    - destruct (face_normal_ok pts f ns Ha Hb Hc) as (pa & pb & pc & Hpa & Hpb & Hpc & He). cbn [face_normals]. rewrite He. cbn [obind].
      destruct (IH (<[Z.to_nat f.2 := normal pa pb pc]> (<[Z.to_nat f.1.2 := normal pa pb pc]> (<[Z.to_nat f.1.1 := normal pa pb pc]> ns)))) as (ns' & He' & Hl' & Hns).
      { by rewrite !insert_length. }
      exists ns'. split; [done|]. split; [done|]. intros i Hi. rewrite Hns by done. unfold last_face. rewrite filter_cons.
      assert (Hx : normal_at pts f = Some (normal pa pb pc)) by (unfold normal_at; by rewrite Hpa, Hpb, Hpc).
      destruct (last (filter (fun g => touches i g = true) fs)) as [g|] eqn:Hg.
      + destruct (decide (touches i f = true)); [|by rewrite Hg]. rewrite last_cons, Hg. done.
      + destruct (decide (touches i f = true)) as [Ht|Ht].
        * rewrite last_cons, Hg, Hx. unfold touches in Ht. apply orb_true_iff in Ht as [Ht|Ht]; [apply orb_true_iff in Ht as [Ht|Ht]|]; apply bool_decide_eq_true_1 in Ht.
          -- rewrite <- Ht. rewrite Nat2Z.id. destruct (decide (i = Z.to_nat f.2)) as [->|]; [apply list_lookup_insert; rewrite !insert_length; lia|].
             rewrite list_lookup_insert_ne by done. destruct (decide (i = Z.to_nat f.1.2)) as [->|]; [apply list_lookup_insert; rewrite !insert_length; lia|].
             rewrite list_lookup_insert_ne by done. apply list_lookup_insert. lia.
          -- rewrite <- Ht. rewrite Nat2Z.id. destruct (decide (i = Z.to_nat f.2)) as [->|]; [apply list_lookup_insert; rewrite !insert_length; lia|].
             rewrite list_lookup_insert_ne by done. apply list_lookup_insert. rewrite insert_length. lia.
          -- rewrite <- Ht. rewrite Nat2Z.id. apply list_lookup_insert. rewrite !insert_length. lia.
        * rewrite Hg. unfold touches in Ht. rewrite !orb_true_iff, !bool_decide_eq_true in Ht.
          rewrite !list_lookup_insert_ne by lia. done.
  Qed.
  (** C111 *)
  Theorem C111_normals pts fs : Forall (in_range (length pts)) fs ->
    exists ns, vertex_normals zero normal finish pts fs = Ok ns /\ length ns = length pts /\
      forall i, (i < length pts)%nat -> ns !! i = match last_face i fs with Some f => finish <$> normal_at pts f | None => Some (finish zero) end.
  Proof using Type.
    intros Hf. destruct (face_normals_ok pts fs (replicate (length pts) zero) Hf) as (ns & He & Hl & Hn); [apply replicate_length|].
    exists (finish <$> ns). unfold vertex_normals. rewrite He. cbn [obind]. split; [done|]. split; [by rewrite fmap_length|].
    intros i Hi. rewrite list_lookup_fmap, Hn by done. destruct (last_face i fs); [done|]. rewrite lookup_replicate_2 by done. done.
  Qed.
  Lemma normals_ok pts fs : Forall (in_range (length pts)) fs -> exists ns, vertex_normals zero normal finish pts fs = Ok ns /\ length ns = length pts.
  Proof using Type. intros Hf. destruct (C111_normals pts fs Hf) as (ns & He & Hl & _). eauto. Qed.

  (** ** One quad *)
  Definition skip (k : nat) (l : list Z) : list Z := delete k l.
  Definition usable (pts : list V) (poly : list Z) (k : nat) : bool :=
    match skip k poly with
    | [a; b; c] => (0 <? a) && (0 <? b) && (0 <? c) &&
        match pts !! Z.to_nat a, pts !! Z.to_nat b, pts !! Z.to_nat c with
        | Some pa, Some pb, Some pc => close pa pb && close pa pc && close pb pc
        | _, _, _ => false
        end
    | _ => false
    end.
  Definition the_face (p : nat) (poly : list Z) (k : nat) : face :=
    match skip k poly with [a; b; c] => if behind p then (a, c, b) else (a, b, c) | _ => (0, 0, 0) end.
  Definition choice (pts : list V) (poly : list Z) : list nat :=
    let u := usable pts poly in
    if u 0%nat then 0%nat :: (if u 2%nat then [2%nat] else [])
    else if u 1%nat then 1%nat :: (if u 3%nat then [3%nat] else [])
    else if u 2%nat then [2%nat] else if u 3%nat then [3%nat] else [].
  Lemma try_ok p pts p0 p1 p2 p3 k acc : (k < 4)%nat -> Forall (fun i => i < Z.of_nat (length pts)) [p0; p1; p2; p3] ->
    try_triangle p pts [p0; p1; p2; p3] k acc =
      Ok (if usable pts [p0; p1; p2; p3] k && match acc.1 with None => true | Some f => Nat.even (f + k) end
          then (Some k, acc.2 ++ [the_face p [p0; p1; p2; p3] k]) else acc).
  Proof using Type.
    intros Hk Hf.
    assert (Hgo : forall a b c, skip k [p0; p1; p2; p3] = [a; b; c] -> a < Z.of_nat (length pts) -> b < Z.of_nat (length pts) -> c < Z.of_nat (length pts) ->
      try_triangle p pts [p0; p1; p2; p3] k acc =
        (if (0 <? a) && (0 <? b) && (0 <? c) && (match acc.1 with None => true | Some f => Nat.even (f + k) end) then
          pa <~ point_at pts a ;; pb <~ point_at pts b ;; pc <~ point_at pts c ;;
          if close pa pb && close pa pc && close pb pc then Ok (Some k, acc.2 ++ [if behind p then (a, c, b) else (a, b, c)]) else Ok acc
        else Ok acc) ->
      try_triangle p pts [p0; p1; p2; p3] k acc =
      Ok (if usable pts [p0; p1; p2; p3] k && match acc.1 with None => true | Some f => Nat.even (f + k) end
          then (Some k, acc.2 ++ [the_face p [p0; p1; p2; p3] k]) else acc)).
    { intros a b c Hs Ha Hb Hc ->. unfold usable, the_face. rewrite Hs.
      destruct (0 <? a) eqn:E0; cbn [andb]; [|done]. destruct (0 <? b) eqn:E1; cbn [andb]; [|done]. destruct (0 <? c) eqn:E2; cbn [andb]; [|done].
      apply Z.ltb_lt in E0, E1, E2.
      destruct (lookup_lt_is_Some_2 pts (Z.to_nat a)) as [pa Hpa]; [lia|]. destruct (lookup_lt_is_Some_2 pts (Z.to_nat b)) as [pb Hpb]; [lia|].
      destruct (lookup_lt_is_Some_2 pts (Z.to_nat c)) as [pc Hpc]; [lia|]. unfold point_at. rewrite !decide_True by lia. rewrite Hpa, Hpb, Hpc. cbn [obind].
      destruct (match acc.1 with None => true | Some f => Nat.even (f + k) end).
      - destruct (close pa pb && close pa pc && close pb pc); done.
      - by rewrite andb_false_r. }
    rewrite !Forall_cons in Hf. destruct Hf as (H0 & H1 & H2 & H3 & _).
    destruct k as [|[|[|[|k]]]]; [eapply Hgo; try done..|lia].
  Qed.
  Lemma four_tries p pts p0 p1 p2 p3 fs : Forall (fun i => i < Z.of_nat (length pts)) [p0; p1; p2; p3] ->
    exists f, (a <~ try_triangle p pts [p0; p1; p2; p3] 0 (None, fs) ;; a <~ try_triangle p pts [p0; p1; p2; p3] 1 a ;;
               a <~ try_triangle p pts [p0; p1; p2; p3] 2 a ;; try_triangle p pts [p0; p1; p2; p3] 3 a) =
              Ok (f, fs ++ (the_face p [p0; p1; p2; p3] <$> choice pts [p0; p1; p2; p3])).
  Proof using Type.
    intros Hf. rewrite try_ok by (done || lia). cbn [obind fst snd]. unfold choice.
    destruct (usable pts [p0; p1; p2; p3] 0) eqn:U0; cbn [andb]; rewrite try_ok by (done || lia); cbn [obind fst snd Nat.even Nat.add].
    - rewrite andb_false_r. cbn [fst snd]. rewrite try_ok by (done || lia). cbn [obind fst snd Nat.even Nat.add]. rewrite andb_true_r.
      destruct (usable pts [p0; p1; p2; p3] 2) eqn:U2; rewrite try_ok by (done || lia); cbn [obind fst snd Nat.even Nat.add]; rewrite andb_false_r; eexists; [|done].
      by rewrite <- (assoc_L (++)).
    - rewrite andb_true_r. destruct (usable pts [p0; p1; p2; p3] 1) eqn:U1.
      + rewrite try_ok by (done || lia); cbn [obind fst snd Nat.even Nat.add]. rewrite andb_false_r. rewrite try_ok by (done || lia); cbn [obind fst snd Nat.even Nat.add].
        rewrite andb_true_r. destruct (usable pts [p0; p1; p2; p3] 3) eqn:U3; eexists; [|done]. by rewrite <- (assoc_L (++)).
      + rewrite try_ok by (done || lia); cbn [obind fst snd Nat.even Nat.add]. rewrite andb_true_r.
        destruct (usable pts [p0; p1; p2; p3] 2) eqn:U2; rewrite try_ok by (done || lia); cbn [obind fst snd Nat.even Nat.add].
        * rewrite andb_false_r. eexists. done.
        * rewrite andb_true_r. destruct (usable pts [p0; p1; p2; p3] 3) eqn:U3; eexists; [done|]. cbn. by rewrite app_nil_r.
  Qed.

  (** ** Every scan *)
  Definition near (x y : V) : Prop := close x y = true \/ close y x = true.
  (** the indices of a face are three different ones, and the points are closer to each other than the limit *)
  Definition sound (pts : list V) (f : face) : Prop :=
    let '(a, b, c) := f in 0 < a /\ 0 < b /\ 0 < c /\ a <> b /\ a <> c /\ b <> c /\
    exists pa pb pc, pts !! Z.to_nat a = Some pa /\ pts !! Z.to_nat b = Some pb /\ pts !! Z.to_nat c = Some pc /\ near pa pb /\ near pa pc /\ near pb pc.
  Lemma sound_app pts pts' f : sound pts f -> sound (pts ++ pts') f.
  Proof using Type.
    destruct f as [[a b] c]. intros (H1 & H2 & H3 & H4 & H5 & H6 & pa & pb & pc & Ha & Hb & Hc & H). do 6 (split; [done|]).
    destruct H as (N1 & N2 & N3).
    exists pa, pb, pc. repeat split; try done; by apply lookup_app_l_Some.
  Qed.
  Lemma sound_range pts f : sound pts f -> in_range (length pts) f.
  Proof using Type.
    destruct f as [[a b] c]. intros (H1 & H2 & H3 & _ & _ & _ & pa & pb & pc & Ha & Hb & Hc & _).
    apply lookup_lt_Some in Ha, Hb, Hc. unfold in_range. cbn. lia.
  Qed.
  Definition entries_ok (k : nat) (a : list (option Z)) : Prop := forall i v, a !! i = Some (Some v) -> v < Z.of_nat k.
  Definition apart (a b : list (option Z)) : Prop := forall i j v, a !! i = Some (Some v) -> b !! j = Some (Some v) -> v < 0.
  Definition inj (a : list (option Z)) : Prop := forall i j v, a !! i = Some (Some v) -> a !! j = Some (Some v) -> i = j \/ v < 0.
  Record sane (s : st) : Prop := {
    sane_attrs : length (attrs (msh s)) = length (points (msh s));
    sane_vars : length (vars (msh s)) = length (points (msh s));
    sane_faces : Forall (sound (points (msh s))) (faces (msh s));
    sane_cur : entries_ok (length (points (msh s))) (cur s);
    sane_prev : entries_ok (length (points (msh s))) (prev s);
    sane_cc : inj (cur s); sane_pp : inj (prev s); sane_cp : apart (cur s) (prev s) }.
  Lemma usable_sound p pts (poly : list Z) k : (k < 4)%nat -> length poly = 4%nat -> usable pts poly k = true ->
    (forall i j v, poly !! i = Some v -> poly !! j = Some v -> i = j \/ v <= 0) -> sound pts (the_face p poly k).
  Proof using Type.
    intros Hk Hl Hu Hd. destruct poly as [|p0 [|p1 [|p2 [|p3 [|]]]]]; try done.
    assert (Hgo : forall a b c i j m, (skip k [p0; p1; p2; p3] = [a; b; c]) -> [p0; p1; p2; p3] !! i = Some a -> [p0; p1; p2; p3] !! j = Some b -> [p0; p1; p2; p3] !! m = Some c ->
       i <> j -> i <> m -> j <> m -> sound pts (the_face p [p0; p1; p2; p3] k)).
    { intros a b c i j m Hs Hi Hj Hm N1 N2 N3. unfold usable in Hu. unfold the_face. rewrite Hs in *.
      apply andb_true_iff in Hu as [Hpos Hu]. apply andb_true_iff in Hpos as [Hpos H2]. apply andb_true_iff in Hpos as [H0 H1].
      apply Z.ltb_lt in H0, H1, H2.
      destruct (pts !! Z.to_nat a) as [pa|] eqn:Ea; [|done]. destruct (pts !! Z.to_nat b) as [pb|] eqn:Eb; [|done]. destruct (pts !! Z.to_nat c) as [pc|] eqn:Ec; [|done].
      apply andb_true_iff in Hu as [Hu C2]. apply andb_true_iff in Hu as [C0 C1].
      assert (a <> b) by (intros ->; destruct (Hd _ _ _ Hi Hj); [done|lia]). assert (a <> c) by (intros ->; destruct (Hd _ _ _ Hi Hm); [done|lia]).
      assert (b <> c) by (intros ->; destruct (Hd _ _ _ Hj Hm); [done|lia]).
      destruct (behind p); cbn; repeat split; try done.
      - exists pa, pc, pb. repeat split; try done; (by left) || (by right).
      - exists pa, pb, pc. repeat split; try done; by left. }
    destruct k as [|[|[|[|k]]]]; [| | | |lia].
    - apply (Hgo p1 p2 p3 1%nat 2%nat 3%nat); done.
    - apply (Hgo p0 p2 p3 0%nat 2%nat 3%nat); done.
    - apply (Hgo p0 p1 p3 0%nat 1%nat 3%nat); done.
    - apply (Hgo p0 p1 p2 0%nat 1%nat 2%nat); done.
  Qed.
  Lemma choice_usable pts poly k : k ∈ choice pts poly -> (k < 4)%nat /\ usable pts poly k = true.
  Proof using Type.
    unfold choice. destruct (usable pts poly 0) eqn:U0.
    - rewrite elem_of_cons. intros [->|H]; [split; [lia|done]|]. destruct (usable pts poly 2) eqn:U2; [|by apply elem_of_nil in H].
      apply elem_of_list_singleton in H as ->. split; [lia|done].
    - destruct (usable pts poly 1) eqn:U1.
      + rewrite elem_of_cons. intros [->|H]; [split; [lia|done]|]. destruct (usable pts poly 3) eqn:U3; [|by apply elem_of_nil in H].
        apply elem_of_list_singleton in H as ->. split; [lia|done].
      + destruct (usable pts poly 2) eqn:U2; [intros ->%elem_of_list_singleton; split; [lia|done]|].
        destruct (usable pts poly 3) eqn:U3; [intros ->%elem_of_list_singleton; split; [lia|done]|]. by intros H%elem_of_nil.
  Qed.
  Lemma fetch_ok a i v : fetch a i = Ok v -> a !! i = Some (Some v).
  Proof using Type. unfold fetch. destruct (a !! i) as [[w|]|]; intros H; try done. by injection H as ->. Qed.
  Lemma make_faces_eq l p (s : st) p0 p1 p2 p3 : prev s !! p = Some (Some p0) -> prev s !! S p = Some (Some p1) -> cur s !! S p = Some (Some p2) -> cur s !! p = Some (Some p3) ->
    entries_ok (length (points (msh s))) (cur s) -> entries_ok (length (points (msh s))) (prev s) ->
    make_faces (S l) (S p) s = Ok (St (Mesh (points (msh s)) (cols (msh s)) (attrs (msh s)) (vars (msh s))
      (faces (msh s) ++ (the_face (S p) [p0; p1; p2; p3] <$> choice (points (msh s)) [p0; p1; p2; p3]))) (cur s) (prev s)).
  Proof using Type.
    intros H0 H1 H2 H3 Hc Hp. cbn [make_faces]. unfold fetch. rewrite H0, H1, H2, H3. cbn [obind].
    destruct (four_tries (S p) (points (msh s)) p0 p1 p2 p3 (faces (msh s))) as [f Hf].
    { repeat constructor; eauto. }
    destruct (try_triangle (S p) (points (msh s)) [p0; p1; p2; p3] 0 (None, faces (msh s))) as [a0| | |]; try done. cbn [obind] in *.
    destruct (try_triangle (S p) (points (msh s)) [p0; p1; p2; p3] 1 a0) as [a1| | |]; try done. cbn [obind] in *.
    destruct (try_triangle (S p) (points (msh s)) [p0; p1; p2; p3] 2 a1) as [a2| | |]; try done. cbn [obind] in *.
    rewrite Hf. done.
  Qed.
  Lemma make_faces_sane l p (s s' : st) : sane s -> make_faces l p s = Ok s' -> sane s' /\ length (points (msh s')) = length (points (msh s)).
  Proof using Type.
    intros Hs He. destruct l as [|l], p as [|p]; try (injection He as <-; split; done).
    assert (exists p0 p1 p2 p3, prev s !! p = Some (Some p0) /\ prev s !! S p = Some (Some p1) /\ cur s !! S p = Some (Some p2) /\ cur s !! p = Some (Some p3))
      as (p0 & p1 & p2 & p3 & H0 & H1 & H2 & H3).
    { cbn [make_faces] in He. destruct (fetch (prev s) p) as [p0| | |] eqn:E0; try done. destruct (fetch (prev s) (S p)) as [p1| | |] eqn:E1; try done.
      destruct (fetch (cur s) (S p)) as [p2| | |] eqn:E2; try done. destruct (fetch (cur s) p) as [p3| | |] eqn:E3; try done.
      apply fetch_ok in E0, E1, E2, E3. by exists p0, p1, p2, p3. }
    destruct Hs as [Ha Hv Hf Hc Hp Hcc Hpp Hcp]. rewrite (make_faces_eq l p s p0 p1 p2 p3) in He by done. injection He as <-. split; [|done]. split; cbn; try done.
    apply Forall_app. split; [done|]. apply Forall_fmap, Forall_forall. intros k Hk. apply choice_usable in Hk as [Hk Hu]. cbn.
    apply usable_sound; [done|done|done|]. intros i j v Hi Hj.
    assert (Hcase : forall i v, [p0; p1; p2; p3] !! i = Some v -> (i = 0%nat /\ prev s !! p = Some (Some v)) \/ (i = 1%nat /\ prev s !! S p = Some (Some v)) \/
       (i = 2%nat /\ cur s !! S p = Some (Some v)) \/ (i = 3%nat /\ cur s !! p = Some (Some v))).
    { clear - H0 H1 H2 H3. intros i v Hi. destruct i as [|[|[|[|i]]]]; cbn in Hi; try (injection Hi as <-); [by left|by right; left|by right; right; left|by right; right; right|done]. }
    apply Hcase in Hi, Hj. clear Hcase.
    destruct Hi as [[-> Hi]|[[-> Hi]|[[-> Hi]|[-> Hi]]]], Hj as [[-> Hj]|[[-> Hj]|[[-> Hj]|[-> Hj]]]];
      try (by left);
      try (destruct (Hpp _ _ _ Hi Hj); lia); try (destruct (Hcc _ _ _ Hi Hj); lia);
      try (pose proof (Hcp _ _ _ Hi Hj); lia); try (pose proof (Hcp _ _ _ Hj Hi); lia).
  Qed.
  Lemma visit_sane nl ln l p (s s' : st) : sane s -> visit nl ln l p s = Ok s' -> sane s'.
  Proof using Type.
    intros Hs He. unfold visit, add_reading, store in He. destruct Hs as [Ha Hv Hf Hc Hp Hcc Hpp Hcp].
    set (k := length (points (msh s))) in *.
    destruct (wanted ln p) eqn:Hw.
    - cbn [points cols attrs vars faces] in He. destruct (decide (p < length (cur s))%nat) as [Hlt|]; [|done]. cbn [obind] in He.
      match type of He with make_faces _ _ ?t = _ => apply (make_faces_sane l p t s') in He as [He _]; [done|] end.
      assert (Hk : Z.of_nat (length (points (msh s) ++ [place ln p])) - 1 = Z.of_nat k). { rewrite app_length. cbn [length]. subst k. lia. }
      split; cbn [msh cur prev points attrs vars faces]; rewrite ?Hk, ?app_length; cbn [length]; rewrite ?Ha, ?Hv; try done.
      + eapply Forall_impl; [done|]. intros f. apply sound_app.
      + intros i v Hi. destruct (decide (i = p)) as [->|].
        * rewrite list_lookup_insert in Hi by done. injection Hi as <-. subst k. lia.
        * rewrite list_lookup_insert_ne in Hi by done. apply Hc in Hi. subst k. lia.
      + intros i v Hi. apply Hp in Hi. subst k. lia.
      + intros i j v Hi Hj. destruct (decide (i = p)) as [->|], (decide (j = p)) as [->|]; [by left| | |].
        * rewrite list_lookup_insert in Hi by done. rewrite list_lookup_insert_ne in Hj by done. injection Hi as <-. apply Hc in Hj. lia.
        * rewrite list_lookup_insert in Hj by done. rewrite list_lookup_insert_ne in Hi by done. injection Hj as <-. apply Hc in Hi. lia.
        * rewrite list_lookup_insert_ne in Hi, Hj by done. eauto.
      + intros i j v Hi Hj. destruct (decide (i = p)) as [->|].
        * rewrite list_lookup_insert in Hi by done. injection Hi as <-. apply Hp in Hj. lia.
        * rewrite list_lookup_insert_ne in Hi by done. eauto.
    - destruct (decide (p < length (cur s))%nat) as [Hlt|]; [|done]. cbn [obind] in He.
      match type of He with make_faces _ _ ?t = _ => apply (make_faces_sane l p t s') in He as [He _]; [done|] end.
      split; cbn [msh cur prev]; try done.
      + intros i v Hi. destruct (decide (i = p)) as [->|].
        * rewrite list_lookup_insert in Hi by done. injection Hi as <-. lia.
        * rewrite list_lookup_insert_ne in Hi by done. by apply Hc in Hi.
      + intros i j v Hi Hj. destruct (decide (i = p)) as [->|], (decide (j = p)) as [->|]; [by left| | |].
        * rewrite list_lookup_insert in Hi by done. injection Hi as <-. right. lia.
        * rewrite list_lookup_insert in Hj by done. injection Hj as <-. right. lia.
        * rewrite list_lookup_insert_ne in Hi, Hj by done. eauto.
      + intros i j v Hi Hj. destruct (decide (i = p)) as [->|].
        * rewrite list_lookup_insert in Hi by done. injection Hi as <-. lia.
        * rewrite list_lookup_insert_ne in Hi by done. eauto.
  Qed.
  Lemma visit_from_sane nl ln l p k (s s' : st) : sane s -> visit_from nl ln l p k s = Ok s' -> sane s'.
  Proof using Type.
    induction k as [|k IH] in p, s |- *; intros Hs He; cbn [visit_from] in He.
    - by injection He as <-.
    - destruct (visit nl ln l p s) as [s1| | |] eqn:E; try done. cbn [obind] in He. apply IH in He; [done|]. by eapply visit_sane.
  Qed.
  Lemma visit_lines_sane nl l ls (s s' : st) : sane s -> visit_lines nl l ls s = Ok s' -> sane s'.
  Proof using Type.
    induction ls as [|ln ls IH] in l, s |- *; intros Hs He; cbn [visit_lines] in He.
    - by injection He as <-.
    - destruct (visit_from nl ln l 0 (length (ranges ln)) s) as [s1| | |] eqn:E; try done. cbn [obind] in He. apply IH in He; [done|].
      apply visit_from_sane in E; [|done]. destruct E as [Ha Hv Hf Hc Hp Hcc Hpp Hcp]. split; cbn; try done. intros i j v Hi Hj. by eapply Hcp.
  Qed.
  Lemma start_sane k : sane (St (Mesh [] [] [] [] []) (replicate k None) (replicate k None)).
  Proof using Type.
    assert (Hn : forall i v, replicate k (@None Z) !! i = Some (Some v) -> False). { intros i v Hi. by apply lookup_replicate_1 in Hi as [Hi _]. }
    split; cbn; try done; repeat intro; exfalso; eauto.
  Qed.
  (** C109: whatever the scan is, if the operator returns then the output is a mesh: the faces refer to existing vertices, three different ones
      that are closer to each other than the limit, and each vertex has a variance, an attribute and a normal *)
  Theorem C109_valid s r : update_all s = Ok r ->
    Forall (sound (r_points r)) (r_faces r) /\ length (r_attrs r) = length (r_points r) /\ length (r_vars r) = length (r_points r) /\
    length (r_normals r) = length (r_points r) /\ (forall cs, r_cols r = Some cs -> length cs = length (r_points r)).
  Proof using Type.
    unfold update_all. intros H. destruct (per_line s) as [n|]; [|done]. destruct (decide (n <= 0)); [done|].
    destruct (visit_lines (length (lines s)) 0 (lines s) _) as [t| | |] eqn:E; try done. cbn [obind] in H.
    apply visit_lines_sane in E; [|apply start_sane]. destruct E as [Ha Hv Hf _ _ _ _ _].
    destruct (normals_ok (points (msh t)) (faces (msh t))) as (ns & Hns & Hl). { eapply Forall_impl; [done|]. apply sound_range. }
    rewrite Hns in H. cbn [obind] in H. destruct (bool_decide (cols (msh t) = []) || bool_decide (length (cols (msh t)) = length (points (msh t)))) eqn:Ec; [|done].
    injection H as <-. cbn. repeat split; try done. intros cs Hcs. destruct (cols (msh t)) eqn:Ecs; [done|]. injection Hcs as <-.
    apply orb_true_iff in Ec as [Ec|Ec]; apply bool_decide_eq_true_1 in Ec; done.
  Qed.
  (** a defect: the first vertex is in no face, whatever the scan is (:256 tests for indices greater than 0) *)
  Theorem C109_first_refuted s r : update_all s = Ok r -> Forall (fun f => f.1.1 <> 0 /\ f.1.2 <> 0 /\ f.2 <> 0) (r_faces r).
  Proof using Type.
    intros H. apply C109_valid in H as [H _]. eapply Forall_impl; [done|]. intros [[a b] c] (H1 & H2 & H3 & _). cbn. lia.
  Qed.

  (** ** Scans with lines of equal length *)
  Section Uniform.
  Context (n : nat) (s : scan) (U : uniform n s).
  Notation G := (fun c => good s c = true).
  Definition num (c : nat * nat) : Z := if good s c then Z.of_nat (length (filter G (cells_before n c.1 c.2))) else -1.
  Definition seen (l p : nat) : list (nat * nat) := filter G (cells_before n l p).
  Definition colored : bool := use_rem && forallb has_rem (lines s).
  (** which vectors there are after the readings [cs] *)
  Definition holds_readings (cs : list (nat * nat)) (m : mesh) : Prop :=
    Some <$> points m = at_line s place <$> cs /\ Some <$> vars m = at_line s variance <$> cs /\ attrs m = on_edge n s <$> cs /\
    Some <$> cols m = if colored then (fun c => mjoin (at_line s (the_color color) c)) <$> cs else [].
  Lemma seen_S l p : seen l (S p) = seen l p ++ (if good s (l, p) then [(l, p)] else []).
  Proof using Type.
    unfold seen. rewrite cells_S, filter_app. f_equal. rewrite filter_cons, filter_nil. destruct (good s (l, p)); done.
  Qed.
  Lemma seen_line l : seen l n = seen (S l) 0.
  Proof using Type. unfold seen. by rewrite cells_line. Qed.
  Lemma num_lookup l p l' p' : good s (l, p) = true -> (p < n)%nat -> (l < l')%nat \/ (l = l' /\ (p < p')%nat) ->
    seen l' p' !! Z.to_nat (num (l, p)) = Some (l, p) /\ 0 <= num (l, p) < Z.of_nat (length (seen l' p')).
  Proof using Type.
    intros Hg Hp Hl. destruct (cells_prefix n l (S p) l' p') as [k Hk]; [lia| |].
    { destruct Hl as [Hl|[-> Hl]]; [by left|right; split; [done|lia]]. }
    unfold num. rewrite Hg. cbn [fst snd]. rewrite Nat2Z.id. fold (seen l p).
    assert (Hs : seen l' p' = seen l p ++ [(l, p)] ++ filter G k).
    { unfold seen at 1. rewrite Hk, filter_app. fold (seen l (S p)). rewrite seen_S, Hg. by rewrite <- (assoc_L (++)). }
    rewrite Hs. split; [by apply list_lookup_middle|]. rewrite !app_length. cbn [length]. lia.
  Qed.
  Lemma uniform_line l ln : lines s !! l = Some ln -> length (ranges ln) = n.
  Proof using U. destruct U as (_ & _ & Hf). intros Hl. by eapply Forall_lookup_1 in Hf. Qed.
  (** what a quad contributes when both of its lines were read *)
  Definition num_quad (l p : nat) : list Z := num <$> quad l p.
  Definition quad_faces (pts : list V) (l p : nat) : list face := the_face (S p) (num_quad l p) <$> choice pts (num_quad l p).
  Definition cell_faces (pts : list V) (c : nat * nat) : list face := match c with (S l, S p) => quad_faces pts l p | _ => [] end.
  (** the choice does not depend on points that are added later *)
  Lemma usable_app (pts pts' : list V) poly k : Forall (fun i => i < Z.of_nat (length pts)) poly -> usable (pts ++ pts') poly k = usable pts poly k.
  Proof using Type.
    intros Hf. unfold usable, skip. assert (Hd : Forall (fun i => i < Z.of_nat (length pts)) (delete k poly)) by (by apply Forall_delete).
    destruct (delete k poly) as [|a [|b [|c [|]]]]; try done. rewrite !Forall_cons in Hd. destruct Hd as (Ha & Hb & Hc & _).
    destruct (0 <? a) eqn:E0; cbn [andb]; [|done]. destruct (0 <? b) eqn:E1; cbn [andb]; [|done]. destruct (0 <? c) eqn:E2; cbn [andb]; [|done].
    apply Z.ltb_lt in E0, E1, E2. rewrite !lookup_app_l by lia. done.
  Qed.
  Lemma choice_app (pts pts' : list V) poly : Forall (fun i => i < Z.of_nat (length pts)) poly -> choice (pts ++ pts') poly = choice pts poly.
  Proof using Type. intros Hf. unfold choice. by rewrite !usable_app. Qed.

  Record inv (l p : nat) (t : st) : Prop := {
    inv_read : holds_readings (seen l p) (msh t);
    inv_lc : length (cur t) = n; inv_lp : length (prev t) = n;
    inv_cur : forall q, (q < p)%nat -> cur t !! q = Some (Some (num (l, q)));
    inv_prev : forall l' q, l = S l' -> (q < n)%nat -> prev t !! q = Some (Some (num (l', q)));
    inv_old : entries_ok (length (points (msh t))) (cur t) /\ entries_ok (length (points (msh t))) (prev t);
    inv_faces : faces (msh t) = cells_before n l p ≫= cell_faces (points (msh t)) }.
  Lemma holds_length cs m : holds_readings cs m -> length (points m) = length cs.
  Proof using Type. intros (H & _). apply (f_equal length) in H. by rewrite !fmap_length in H. Qed.
  Lemma cell_faces_app (pts pts' : list V) l p : length pts = length (seen l p) -> (p <= n)%nat ->
    (cells_before n l p ≫= cell_faces (pts ++ pts')) = (cells_before n l p ≫= cell_faces pts).
  Proof using Type.
    intros Hl Hp. assert (Hc : forall c, c ∈ cells_before n l p -> cell_faces (pts ++ pts') c = cell_faces pts c).
    { intros [[|i] [|j]] Hc; try done. cbn [cell_faces]. unfold quad_faces. f_equal. apply choice_app. apply cells_in in Hc. cbn in Hc.
      unfold num_quad, quad. apply Forall_fmap. rewrite Hl.
      assert (Hx : forall x y, (y < n)%nat -> (x < l)%nat \/ (x = l /\ (y < p)%nat) -> num (x, y) < Z.of_nat (length (seen l p))).
      { intros x y Hy Hxy. destruct (good s (x, y)) eqn:Eg; [|unfold num; rewrite Eg; lia]. by apply (num_lookup x y l p). }
      repeat constructor; cbn; apply Hx; lia. }
    induction (cells_before n l p) as [|c cs IH]; [done|]. cbn. rewrite Hc by left. f_equal. apply IH. intros d Hd. apply Hc. by right.
  Qed.
  Definition same_remissions : Prop := use_rem = false \/ Forall (fun ln => has_rem ln = true) (lines s) \/ Forall (fun ln => has_rem ln = false) (lines s).
  Lemma colored_line l ln : same_remissions -> lines s !! l = Some ln -> use_rem && has_rem ln = colored.
  Proof using Type.
    intros Hs Hl. unfold colored. destruct Hs as [Hs|[Hs|Hs]]; [by rewrite Hs| |]; f_equal.
    - assert (forallb has_rem (lines s) = true) as ->. { apply forallb_forall. intros x Hx. rewrite Forall_forall in Hs. apply Hs. by apply elem_of_list_In. }
      rewrite Forall_lookup in Hs. eauto.
    - rewrite Forall_lookup in Hs. rewrite (Hs _ _ Hl). symmetry. apply not_true_iff_false. intros Hf. rewrite forallb_forall in Hf.
      specialize (Hf ln). rewrite (Hs _ _ Hl) in Hf. discriminate Hf. apply elem_of_list_In. by eapply elem_of_list_lookup_2.
  Qed.
  Lemma add_ok l p ln (m : mesh) : same_remissions -> lines s !! l = Some ln -> (p < n)%nat -> holds_readings (seen l p) m ->
    exists m' pts', add_reading use_rem wanted place variance color (length (lines s)) ln l p m = (m', num (l, p)) /\ holds_readings (seen l (S p)) m' /\
      points m' = points m ++ pts' /\ faces m' = faces m.
  Proof using U.
    intros Hs Hl Hp Hr. pose proof (holds_length _ _ Hr) as Hlen. unfold add_reading. rewrite seen_S.
    assert (Hg : good s (l, p) = wanted ln p). { unfold good. cbn. by rewrite Hl. }
    rewrite Hg. pose proof (uniform_line _ _ Hl) as Hn. destruct Hr as (H1 & H2 & H3 & H4).
    destruct (wanted ln p) eqn:Hw.
    - eexists _, [place ln p]. split.
      { f_equal. unfold num. rewrite Hg. cbn [fst snd points]. fold (seen l p). rewrite app_length, Hlen. cbn [length]. lia. }
      split; [|split; done].
      unfold holds_readings. cbn [points vars attrs cols]. rewrite !fmap_app, H1, H2, H3. split; [|split; [|split]].
        * f_equal. cbn. unfold at_line. cbn. by rewrite Hl.
        * f_equal. cbn. unfold at_line. cbn. by rewrite Hl.
        * f_equal. cbn. unfold on_edge. cbn [fst snd]. by rewrite Hn.
        * rewrite (colored_line l ln) by done. destruct colored eqn:Ec; [|done]. rewrite fmap_app, H4. f_equal.
          assert (Hrem : has_rem ln = true). { rewrite <- (colored_line l ln) in Ec by done. by apply andb_true_iff in Ec as [_ Ec]. }
          apply bool_decide_eq_true_1 in Hrem. cbn. unfold at_line. cbn [fst snd]. rewrite Hl. cbn. unfold the_color.
          destruct (lookup_lt_is_Some_2 (rems ln) p) as [r Hrp]; [lia|]. by rewrite Hrp.
    - exists m, []. rewrite !app_nil_r. split; [|split; [done|split; done]]. f_equal. unfold num. by rewrite Hg.
  Qed.
  Lemma visit_ok l p ln (t : st) : same_remissions -> lines s !! l = Some ln -> (p < n)%nat -> inv l p t ->
    exists t', visit (length (lines s)) ln l p t = Ok t' /\ inv l (S p) t'.
  Proof using U.
    intros Hs Hl Hp [Hr Hlc Hlp Hc Hv [Ho1 Ho2] Hf]. unfold visit.
    destruct (add_ok l p ln (msh t) Hs Hl Hp Hr) as (m' & pts' & -> & Hr' & Hpts & Hfs).
    unfold store. rewrite decide_True by lia. cbn [obind].
    pose proof (holds_length _ _ Hr) as Hlen. pose proof (holds_length _ _ Hr') as Hlen'.
    assert (Hnum : num (l, p) < Z.of_nat (length (points m'))).
    { rewrite Hlen'. destruct (good s (l, p)) eqn:Eg; [|unfold num; rewrite Eg; lia]. apply (num_lookup l p l (S p)); [done|lia|right; split; [done|lia]]. }
    assert (Hcur : forall q, (q < S p)%nat -> <[p:=Some (num (l, p))]> (cur t) !! q = Some (Some (num (l, q)))).
    { intros q Hq. destruct (decide (q = p)) as [->|]; [apply list_lookup_insert; lia|]. rewrite list_lookup_insert_ne by done. apply Hc. lia. }
    assert (Hmono : (length (points (msh t)) <= length (points m'))%nat) by (rewrite Hpts, app_length; lia).
    assert (He1 : entries_ok (length (points m')) (<[p:=Some (num (l, p))]> (cur t))).
    { intros i v Hi. destruct (decide (i = p)) as [->|].
      - rewrite list_lookup_insert in Hi by lia. injection Hi as <-. done.
      - rewrite list_lookup_insert_ne in Hi by done. apply Ho1 in Hi. lia. }
    assert (He2 : entries_ok (length (points m')) (prev t)). { intros i v Hi. apply Ho2 in Hi. lia. }
    assert (Hold : faces m' = cells_before n l p ≫= cell_faces (points m')).
    { rewrite Hfs, Hf, Hpts. symmetry. apply cell_faces_app; [done|lia]. }
    destruct l as [|l].
    { eexists. split; [done|]. split; cbn [msh cur prev]; try done; [by rewrite insert_length|].
      rewrite cells_S, bind_app, <- Hold. cbn. by rewrite app_nil_r. }
    destruct p as [|p].
    { eexists. split; [done|]. split; cbn [msh cur prev]; try done; [by rewrite insert_length|].
      rewrite cells_S, bind_app, <- Hold. cbn. by rewrite app_nil_r. }
    rewrite (make_faces_eq l p _ (num (l, p)) (num (l, S p)) (num (S l, S p)) (num (S l, p))); cbn [msh cur prev].
    - eexists. split; [done|]. split; cbn [msh cur prev points faces]; try done; [by rewrite insert_length|].
      rewrite cells_S, bind_app, <- Hold. f_equal. cbn. rewrite app_nil_r. done.
    - apply Hv; [done|lia].
    - apply Hv; [done|lia].
    - apply Hcur. lia.
    - apply Hcur. lia.
    - done.
    - done.
  Qed.
  Lemma visit_from_ok l p k ln (t : st) : same_remissions -> lines s !! l = Some ln -> (p + k = n)%nat -> inv l p t ->
    exists t', visit_from (length (lines s)) ln l p k t = Ok t' /\ inv l n t'.
  Proof using U.
    intros Hs Hl. induction k as [|k IH] in p, t |- *; intros Hp Hi; cbn [visit_from].
    - exists t. rewrite Nat.add_0_r in Hp. subst p. done.
    - destruct (visit_ok l p ln t Hs Hl) as (t1 & -> & Hi1); [lia|done|]. cbn [obind]. apply IH; [lia|done].
  Qed.
  Lemma visit_lines_ok l ls (t : st) : same_remissions -> drop l (lines s) = ls -> (l <= length (lines s))%nat -> inv l 0 t ->
    exists t', visit_lines (length (lines s)) l ls t = Ok t' /\ inv (length (lines s)) 0 t'.
  Proof using U.
    intros Hs. induction ls as [|ln ls IH] in l, t |- *; intros Hd Hle Hi; cbn [visit_lines].
    - exists t. split; [done|]. apply (f_equal length) in Hd. rewrite drop_length in Hd. cbn in Hd. by replace (length (lines s)) with l by lia.
    - assert (Hl : lines s !! l = Some ln). { replace l with (l + 0)%nat by lia. rewrite <- lookup_drop, Hd. done. }
      destruct (visit_from_ok l 0 (length (ranges ln)) ln t Hs Hl) as (t1 & -> & Hi1); [by rewrite (uniform_line _ _ Hl)|done|]. cbn [obind].
      apply IH.
      + replace (S l) with (l + 1)%nat by lia. rewrite <- drop_drop, Hd. done.
      + apply lookup_lt_Some in Hl. lia.
      + destruct Hi1 as [Hr Hlc Hlp Hc Hv [Ho1 Ho2] Hf]. split; cbn [msh cur prev]; try done.
        * by rewrite <- seen_line.
        * intros q Hq. lia.
        * intros l' q Heq Hq. injection Heq as <-. by apply Hc.
        * by rewrite <- cells_line.
  Qed.
  Lemma update_ok : same_remissions -> exists r, update_all s = Ok r /\
    Some <$> r_points r = at_line s place <$> readings n s /\ Some <$> r_vars r = at_line s variance <$> readings n s /\ r_attrs r = on_edge n s <$> readings n s /\
    match r_cols r with
    | Some cs => colored = true /\ readings n s <> [] /\ Some <$> cs = (fun c => mjoin (at_line s (the_color color) c)) <$> readings n s
    | None => colored = false \/ readings n s = []
    end /\
    r_faces r = cells n s ≫= cell_faces (r_points r).
  Proof using U.
    intros Hs. destruct U as (Hn & Hpl & _). unfold update_all. rewrite Hpl. rewrite decide_False by lia. rewrite Nat2Z.id.
    destruct (visit_lines_ok 0 (lines s) (St (Mesh [] [] [] [] []) (replicate n None) (replicate n None)) Hs) as (t & Et & Hi); [by rewrite drop_0|lia| |].
    { assert (Hnone : forall i v, replicate n (@None Z) !! i = Some (Some v) -> False). { intros i v Hi. by apply lookup_replicate_1 in Hi as [Hi _]. }
      split; cbn [msh cur prev]; try (by rewrite replicate_length).
      - unfold holds_readings, seen, cells_before. cbn. by destruct colored.
      - intros q Hq. lia.
      - done.
      - split; intros i v Hi; exfalso; eauto.
      - done. }
    rewrite Et. cbn [obind]. destruct Hi as [(H1 & H2 & H3 & H4) _ _ _ _ _ Hf].
    apply visit_lines_sane in Et; [|apply start_sane]. destruct Et as [_ _ Hsound _ _ _ _ _].
    destruct (normals_ok (points (msh t)) (faces (msh t))) as (ns & Hns & Hl). { eapply Forall_impl; [done|]. apply sound_range. }
    rewrite Hns. cbn [obind]. change (seen (length (lines s)) 0) with (readings n s) in *.
    assert (Hcl : cols (msh t) = [] \/ length (cols (msh t)) = length (points (msh t))).
    { apply (f_equal length) in H1, H4. rewrite !fmap_length in H1. destruct colored; rewrite !fmap_length in H4.
      - right. lia.
      - left. by apply nil_length_inv. }
    assert ((bool_decide (cols (msh t) = []) || bool_decide (length (cols (msh t)) = length (points (msh t)))) = true) as ->.
    { apply orb_true_iff. rewrite !bool_decide_eq_true. done. }
    eexists. split; [done|]. cbn [r_points r_vars r_attrs r_cols r_faces]. repeat split; try done.
    destruct (cols (msh t)) as [|c cs] eqn:Ec; destruct colored.
    - right. destruct (readings n s); [done|discriminate H4].
    - by left.
    - split; [done|]. split; [|done]. intros H0. rewrite H0 in H4. discriminate H4.
    - discriminate H4.
  Qed.

  Lemma cells_NoDup l p : NoDup (cells_before n l p).
  Proof using Type.
    assert (Hrow : forall i m : nat, NoDup ((pair i <$> seq 0 m) : list (nat * nat))).
    { intros i m. apply NoDup_fmap_2; [intros x y; congruence|apply NoDup_seq]. }
    unfold cells_before. apply NoDup_app. split; [|split; [|apply Hrow]].
    - induction l as [|l IH]; [constructor|]. rewrite seq_S, bind_app. apply NoDup_app. split; [done|]. split.
      + intros [x y] Hx Hy. apply elem_of_list_bind in Hx as (i & Hi & His). apply elem_of_list_fmap in Hi as (j & Hj & _). injection Hj as -> ->.
        cbn in Hy. rewrite app_nil_r in Hy. apply elem_of_list_fmap in Hy as (k & Hk & _). injection Hk as -> ->. apply elem_of_seq in His. lia.
      + cbn. rewrite app_nil_r. apply Hrow.
    - intros [x y] Hx Hy. apply elem_of_list_bind in Hx as (i & Hi & His). apply elem_of_list_fmap in Hi as (j & Hj & _). injection Hj as -> ->.
      apply elem_of_list_fmap in Hy as (k & Hk & _). injection Hk as -> ->. apply elem_of_seq in His. lia.
  Qed.
  Lemma num_iff c (a : nat) : (c.1 < length (lines s))%nat -> (c.2 < n)%nat -> (readings n s !! a = Some c <-> num c = Z.of_nat a).
  Proof using Type.
    destruct c as [l p]. cbn [fst snd]. intros Hl Hp. split.
    - intros Ha. assert (Hg : good s (l, p) = true). { apply elem_of_list_lookup_2 in Ha. unfold readings in Ha. by apply elem_of_list_filter in Ha as [Ha _]. }
      destruct (num_lookup l p (length (lines s)) 0 Hg Hp) as [Hn Hpos]; [by left|]. change (seen (length (lines s)) 0) with (readings n s) in *.
      assert (Z.to_nat (num (l, p)) = a); [|lia]. eapply NoDup_lookup; [|done|done]. apply NoDup_filter, cells_NoDup.
    - intros Ha. destruct (good s (l, p)) eqn:Hg; [|unfold num in Ha; rewrite Hg in Ha; lia].
      destruct (num_lookup l p (length (lines s)) 0 Hg Hp) as [Hn Hpos]; [by left|]. rewrite Ha, Nat2Z.id in Hn. done.
  Qed.
  Lemma points_at (pts : list V) (a : nat) c v : Some <$> pts = at_line s place <$> readings n s -> readings n s !! a = Some c -> (pts !! a = Some v <-> at_line s place c = Some v).
  Proof using Type.
    intros Hp Ha. apply (f_equal (fun l => l !! a)) in Hp. rewrite !list_lookup_fmap, Ha in Hp. cbn in Hp.
    destruct (pts !! a) as [w|]; [|done]. cbn in Hp. injection Hp as Hp. rewrite <- Hp. split; congruence.
  Qed.
  Notation triangle := (triangle wanted place close n s).
  Lemma usable_iff (pts : list V) l p k : Some <$> pts = at_line s place <$> readings n s -> (S l < length (lines s))%nat -> (S p < n)%nat -> (k < 4)%nat ->
    (usable pts (num_quad l p) k = true <-> exists a b c : nat, (0 < a)%nat /\ (0 < b)%nat /\ (0 < c)%nat /\ triangle l p k a b c).
  Proof using Type.
    intros Hpts Hl Hp Hk.
    assert (Hin : Forall (fun c => (c.1 < length (lines s))%nat /\ (c.2 < n)%nat) (delete k (quad l p))). { apply Forall_delete. repeat constructor; cbn; lia. }
    assert (exists ca cb cc, delete k (quad l p) = [ca; cb; cc]) as (ca & cb & cc & Hd). { destruct k as [|[|[|[|]]]]; [do 3 eexists; reflexivity..|lia]. }
    assert (Hsk : skip k (num_quad l p) = [num ca; num cb; num cc]). { unfold skip, num_quad. change ([num ca; num cb; num cc]) with (num <$> [ca; cb; cc]). rewrite <- Hd. destruct k as [|[|[|[|]]]]; [done..|lia]. }
    rewrite Hd in Hin. rewrite !Forall_cons in Hin. destruct Hin as ([A1 A2] & [B1 B2] & [C1 C2] & _).
    unfold usable. rewrite Hsk. split.
    - intros Hu. apply andb_true_iff in Hu as [Hpos Hu]. apply andb_true_iff in Hpos as [Hpos Z2]. apply andb_true_iff in Hpos as [Z0 Z1]. apply Z.ltb_lt in Z0, Z1, Z2.
      destruct (pts !! Z.to_nat (num ca)) as [va|] eqn:Ea; [|done]. destruct (pts !! Z.to_nat (num cb)) as [vb|] eqn:Eb; [|done]. destruct (pts !! Z.to_nat (num cc)) as [vc|] eqn:Ec; [|done].
      apply andb_true_iff in Hu as [Hu N3]. apply andb_true_iff in Hu as [N1 N2].
      assert (Ra : readings n s !! Z.to_nat (num ca) = Some ca) by (apply num_iff; [done|done|lia]).
      assert (Rb : readings n s !! Z.to_nat (num cb) = Some cb) by (apply num_iff; [done|done|lia]).
      assert (Rc : readings n s !! Z.to_nat (num cc) = Some cc) by (apply num_iff; [done|done|lia]).
      exists (Z.to_nat (num ca)), (Z.to_nat (num cb)), (Z.to_nat (num cc)). split; [lia|]. split; [lia|]. split; [lia|].
      exists ca, cb, cc, va, vb, vc. split; [done|]. split; [done|]. split; [done|]. split; [done|]. split; [done|].
      split; [by eapply points_at|]. split; [by eapply points_at|]. split; [by eapply points_at|]. done.
    - intros (a & b & c & Ha & Hb & Hc & ca' & cb' & cc' & va & vb & vc & Hd' & _ & Ra & Rb & Rc & Pa & Pb & Pc & N1 & N2 & N3).
      rewrite Hd in Hd'. injection Hd' as <- <- <-.
      rewrite <- (points_at pts a ca va Hpts Ra) in Pa. rewrite <- (points_at pts b cb vb Hpts Rb) in Pb. rewrite <- (points_at pts c cc vc Hpts Rc) in Pc.
      apply num_iff in Ra; [|done|done]. apply num_iff in Rb; [|done|done]. apply num_iff in Rc; [|done|done]. rewrite Ra, Rb, Rc, !Nat2Z.id, Pa, Pb, Pc, N1, N2, N3.
      cbn [andb]. rewrite !andb_true_iff. rewrite !Z.ltb_lt. lia.
  Qed.
  Lemma the_face_eq l p k a b c : (S l < length (lines s))%nat -> (S p < n)%nat -> triangle l p k a b c -> the_face (S p) (num_quad l p) k = oriented behind p a b c.
  Proof using Type.
    intros Hl Hp (ca & cb & cc & va & vb & vc & Hd & Hk & Ra & Rb & Rc & _).
    assert (Hin : Forall (fun c => (c.1 < length (lines s))%nat /\ (c.2 < n)%nat) (delete k (quad l p))). { apply Forall_delete. repeat constructor; cbn; lia. }
    rewrite Hd in Hin. rewrite !Forall_cons in Hin. destruct Hin as ([A1 A2] & [B1 B2] & [C1 C2] & _).
    assert (Hsk : skip k (num_quad l p) = [num ca; num cb; num cc]). { unfold skip, num_quad. change ([num ca; num cb; num cc]) with (num <$> [ca; cb; cc]). rewrite <- Hd. destruct k as [|[|[|[|]]]]; [done..|lia]. }
    apply num_iff in Ra; [|done|done]. apply num_iff in Rb; [|done|done]. apply num_iff in Rc; [|done|done].
    unfold the_face, oriented. rewrite Hsk, Ra, Rb, Rc. done.
  Qed.
  Lemma quads_eq (pts : list V) : cells n s ≫= cell_faces pts = seq 0 (length (lines s) - 1) ≫= fun l => seq 0 (n - 1) ≫= fun p => quad_faces pts l p.
  Proof using U.
    destruct U as (Hn & _). unfold cells, cells_before. change (seq 0 0) with (@nil nat). cbn [fmap list_fmap]. rewrite app_nil_r.
    assert (Hb : forall ls : list nat, (ls ≫= fun i => pair i <$> seq 0 n) ≫= cell_faces pts = ls ≫= fun i => (pair i <$> seq 0 n) ≫= cell_faces pts).
    { induction ls as [|i ls IH]; [done|]. cbn [mbind list_bind]. rewrite bind_app. by rewrite IH. }
    rewrite Hb. clear Hb.
    assert (H0 : forall ls : list nat, (pair 0%nat <$> ls) ≫= cell_faces pts = []). { induction ls as [|x ls IH]; [done|]. cbn. done. }
    assert (HS : forall l m, (pair (S l) <$> seq 0 m) ≫= cell_faces pts = seq 0 (m - 1) ≫= fun p => quad_faces pts l p).
    { intros l [|m]; [done|]. replace (S m - 1)%nat with m by lia. cbn [seq fmap list_fmap mbind list_bind]. rewrite <- fmap_S_seq.
      cbn [app cell_faces]. induction (seq 0 m) as [|x xs IH]; [done|]. cbn in *. by rewrite IH. }
    destruct (length (lines s)) as [|L]; [done|]. replace (S L - 1)%nat with L by lia. cbn [seq mbind list_bind]. rewrite H0. cbn [app]. rewrite <- fmap_S_seq.
    induction (seq 0 L) as [|x xs IH]; [done|]. cbn [fmap list_fmap mbind list_bind] in *. rewrite HS. f_equal. exact IH.
  Qed.
  End Uniform.

  (** C109: lines of equal length, and remissions in each of the lines or in none (or not used): the vertices are the readings that pass the
      filters, in the order of the scan, each with its variance, its mark of the edge of the scan and, if there are remissions, its colour *)
  Theorem C109_vertices n s : uniform n s -> same_remissions s -> exists r, update_all s = Ok r /\
    Some <$> r_points r = at_line s place <$> readings n s /\ Some <$> r_vars r = at_line s variance <$> readings n s /\ r_attrs r = on_edge n s <$> readings n s /\
    match r_cols r with
    | Some cs => use_rem && forallb has_rem (lines s) = true /\ readings n s <> [] /\ Some <$> cs = (fun c => mjoin (at_line s (the_color color) c)) <$> readings n s
    | None => use_rem && forallb has_rem (lines s) = false \/ readings n s = []
    end.
  Proof using Type. intros U Hs. destruct (update_ok n s U Hs) as (r & H1 & H2 & H3 & H4 & H5 & _). by exists r. Qed.
  (** C110: the faces are the triangles of the quads between neighbouring lines and columns.  A quad has at most two, which then leave out
      opposite corners; it has one if three of its corners are vertices (other than the first) that are close enough, and two if this holds of any three. *)
  Theorem C110_faces n s : uniform n s -> same_remissions s -> exists r fs, update_all s = Ok r /\
    r_faces r = (seq 0 (length (lines s) - 1) ≫= fun l => seq 0 (n - 1) ≫= fun p => fs l p) /\
    forall l p, (S l < length (lines s))%nat -> (S p < n)%nat ->
      let tri k a b c := (0 < a)%nat /\ (0 < b)%nat /\ (0 < c)%nat /\ triangle wanted place close n s l p k a b c in
      (forall f, f ∈ fs l p -> exists k a b c, tri k a b c /\ f = oriented behind p a b c) /\
      ((exists k a b c, tri k a b c) -> fs l p <> []) /\
      (length (fs l p) <= 2)%nat /\
      (forall f g, fs l p = [f; g] -> exists k a b c a' b' c', tri k a b c /\ tri (k + 2)%nat a' b' c' /\ f = oriented behind p a b c /\ g = oriented behind p a' b' c') /\
      ((forall k, (k < 4)%nat -> exists a b c, tri k a b c) -> length (fs l p) = 2%nat).
  Proof using Type.
    intros U Hs. destruct (update_ok n s U Hs) as (r & H1 & Hpts & _ & _ & _ & Hf). exists r, (quad_faces n s (r_points r)). split; [done|].
    split; [by rewrite Hf, quads_eq|]. intros l p Hl Hp tri. unfold quad_faces.
    assert (Hu : forall k, (k < 4)%nat -> usable (r_points r) (num_quad n s l p) k = true <-> exists a b c, tri k a b c).
    { intros k Hk. unfold tri. rewrite (usable_iff n s (r_points r) l p k Hpts Hl Hp Hk). done. }
    assert (Hlt : forall k a b c, tri k a b c -> (k < 4)%nat).
    { intros k a b c (_ & _ & _ & ca & cb & cc & va & vb & vc & _ & Hk & _). done. }
    assert (He : forall k a b c, tri k a b c -> the_face (S p) (num_quad n s l p) k = oriented behind p a b c).
    { intros k a b c (_ & _ & _ & Ht). by apply the_face_eq. }
    split; [|split; [|split; [|split]]].
    - intros f Hfin. apply elem_of_list_fmap in Hfin as (k & -> & Hk). apply choice_usable in Hk as [Hk Huk]. apply Hu in Huk as (a & b & c & Ht); [|done].
      exists k, a, b, c. split; [done|]. by apply He.
    - intros (k & a & b & c & Ht) Hnil. apply fmap_nil_inv in Hnil. pose proof (Hlt _ _ _ _ Ht) as Hk.
      assert (Huk : usable (r_points r) (num_quad n s l p) k = true) by (apply Hu; [done|by exists a, b, c]). unfold choice in Hnil.
      destruct k as [|[|[|[|k]]]]; [| | | |lia]; rewrite Huk in Hnil;
        destruct (usable (r_points r) (num_quad n s l p) 0); try discriminate Hnil; destruct (usable (r_points r) (num_quad n s l p) 1); try discriminate Hnil;
        destruct (usable (r_points r) (num_quad n s l p) 2); discriminate Hnil.
    - rewrite fmap_length. unfold choice. destruct (usable (r_points r) (num_quad n s l p) 0), (usable (r_points r) (num_quad n s l p) 1), (usable (r_points r) (num_quad n s l p) 2), (usable (r_points r) (num_quad n s l p) 3); cbn; lia.
    - intros f g Hfg. assert (Hc : exists k, (k < 2)%nat /\ choice (r_points r) (num_quad n s l p) = [k; (k + 2)%nat]).
      { unfold choice in *. destruct (usable (r_points r) (num_quad n s l p) 0), (usable (r_points r) (num_quad n s l p) 1), (usable (r_points r) (num_quad n s l p) 2), (usable (r_points r) (num_quad n s l p) 3); try discriminate Hfg;
          solve [exists 0%nat; split; [lia|done] | exists 1%nat; split; [lia|done]]. }
      destruct Hc as (k & Hk & Hc). rewrite Hc in Hfg. cbn in Hfg. injection Hfg as <- <-.
      assert (Hin1 : k ∈ choice (r_points r) (num_quad n s l p)) by (rewrite Hc; left).
      assert (Hin2 : (k + 2)%nat ∈ choice (r_points r) (num_quad n s l p)) by (rewrite Hc; right; left).
      apply choice_usable in Hin1 as [L1 U1]. apply choice_usable in Hin2 as [L2 U2].
      apply Hu in U1 as (a & b & c & T1); [|done]. apply Hu in U2 as (a' & b' & c' & T2); [|done].
      exists k, a, b, c, a', b', c'. split; [done|]. split; [done|]. split; by apply He.
    - intros Hall. rewrite fmap_length. unfold choice. rewrite (proj2 (Hu 0%nat ltac:(lia)) (Hall 0%nat ltac:(lia))), (proj2 (Hu 2%nat ltac:(lia)) (Hall 2%nat ltac:(lia))). done.
  Qed.
End Proofs.

(** * Examples and defects *)
(** a reading of range 0 fails; a reading lies at its tilt and its column; points are close if neither coordinate differs by more than 1 *)
Definition demo_wanted (ln : line Z) (p : nat) : bool := match ranges ln !! p with Some r => 0 <? r | None => false end.
Definition demo_place (ln : line Z) (p : nat) : Z * Z := (phi ln, Z.of_nat p).
Definition demo_close (a b : Z * Z) : bool := (Z.abs (a.1 - b.1) <=? 1) && (Z.abs (a.2 - b.2) <=? 1).
Definition demo_update (use_rem : bool) : scan Z -> out () (@result (Z * Z) Z Z Z) :=
  update_all use_rem demo_wanted demo_place (fun ln p => default 0 (ranges ln !! p)) (fun r => r) demo_close (fun p => bool_decide (p = 2%nat)) 0 (fun _ _ _ => 1) (fun n => n).
Definition no_scan : scan Z := Scan None [].
Definition record (ls : list (line Z)) : scan Z := foldl (fun s ln => add_scan_line ln s) no_scan ls.
(** a scan that was recorded line by line holds these lines, and announces the number of readings of the first one *)
Theorem C109_recorded {F} (ln : line F) (ls : list (line F)) :
  foldl (fun s ln => add_scan_line ln s) (Scan None []) (ln :: ls) = Scan (Some (Z.of_nat (length (ranges ln)))) (ln :: ls).
Proof.
  cbn [foldl]. change (add_scan_line ln (Scan None [])) with (Scan (Some (Z.of_nat (length (ranges ln)))) ([ln] ++ [])).
  assert (H : forall done_, foldl (fun s ln => add_scan_line ln s) (Scan (Some (Z.of_nat (length (ranges ln)))) (ln :: done_)) ls =
    Scan (Some (Z.of_nat (length (ranges ln)))) ((ln :: done_) ++ ls)).
  { induction ls as [|l ls IH]; intros done_; [by rewrite app_nil_r|]. cbn [foldl].
    change (add_scan_line l _) with (Scan (Some (Z.of_nat (length (ranges ln)))) (ln :: (done_ ++ [l]))). rewrite IH. by rewrite app_comm_cons, <- app_assoc. }
  apply (H []).
Qed.
Definition demo_lines : list (line Z) := [Line 0 [5; 6; 0] [1; 2; 3]; Line 1 [7; 8; 9] [4; 5; 6]; Line 2 [3; 0; 4] [7; 8; 9]].

Example C109_nonvacuous : uniform 3 (record demo_lines) /\ same_remissions true (record demo_lines) /\
  match demo_update true (record demo_lines) with
  | Ok r => r_points r = [(0, 0); (0, 1); (1, 0); (1, 1); (1, 2); (2, 0); (2, 2)] /\ r_cols r = Some [1; 2; 4; 5; 6; 7; 9] /\ r_vars r = [5; 6; 7; 8; 9; 3; 4] /\
      r_attrs r = [true; true; true; false; true; true; true] /\ r_faces r = [(1, 3, 2); (1, 3, 4); (2, 3, 5); (3, 6, 4)] /\ r_normals r = [0; 1; 1; 1; 1; 1; 1]
  | _ => False
  end.
Proof.
  split; [split; [lia|split; [done|repeat constructor]]|]. split; [right; left; repeat constructor|]. vm_compute. done.
Qed.
Example C110_nonvacuous : triangle demo_wanted demo_place demo_close 3 (record demo_lines) 0 0 0 1 3 2.
Proof. exists (0, 1)%nat, (1, 1)%nat, (1, 0)%nat, (0, 1), (1, 1), (1, 0). repeat split; try done; cbn; lia. Qed.
Example C111_nonvacuous : Forall (in_range 4) [(0, 1, 2); (1, 2, 3)] /\
  vertex_normals 0 (fun a b c => a + b + c) (fun n => n) [1; 2; 4; 8] [(0, 1, 2); (1, 2, 3)] = Ok [7; 14; 14; 14].
Proof. split; [|done]. repeat constructor; cbn; lia. Qed.

(** a quad of four readings that are all close has one face only if the first vertex is one of them *)
Theorem C110_first_refuted : match demo_update false (record [Line 0 [5; 5] []; Line 1 [5; 5] []]) with Ok r => length (r_points r) = 4%nat /\ r_faces r = [(1, 3, 2)] | _ => False end.
Proof. vm_compute. done. Qed.
(** a line that is longer than the first one is recorded, and the operator writes behind the end of an array *)
Theorem C109_long_refuted : demo_update false (record [Line 0 [5; 5] []; Line 1 [5; 5; 5] []]) = Bad UB.
Proof. done. Qed.
(** after a shorter line entries are read that were never written *)
Theorem C109_short_refuted : demo_update false (record [Line 0 [5; 5; 5] []; Line 1 [5] []; Line 1 [5; 5; 5] []]) = Bad UB.
Proof. done. Qed.
(** or that are left from the line before the last: faces connect the fourth line with the first *)
Theorem C110_stale_refuted : match demo_update false (record [Line 0 [5; 5; 5] []; Line 9 [5; 5; 5] []; Line 9 [5] []; Line 0 [5; 5; 5] []]) with
  | Ok r => r_points r = [(0, 0); (0, 1); (0, 2); (9, 0); (9, 1); (9, 2); (9, 0); (0, 0); (0, 1); (0, 2)] /\ r_faces r = [(1, 8, 7); (2, 8, 9); (1, 8, 2)]
  | _ => False end.
Proof. vm_compute. done. Qed.
(** remissions in one of two lines only: an assertion fails at the end *)
Theorem C109_remission_refuted : demo_update true (record [Line 0 [5; 5] [1; 2]; Line 1 [5; 5] []]) = Bad Abort.
Proof. done. Qed.
(** a scan without lines: the number of points per line was never set *)
Theorem C109_empty_refuted : demo_update false (record []) = Bad UB.
Proof. done. Qed.
(** the normal of a vertex is that of one of its faces, so the order of the faces matters *)
Theorem C111_order_refuted : exists fs fs', fs ≡ₚ fs' /\ Forall (in_range 4) fs /\
  vertex_normals 0 (fun a b c => a + b + c) (fun n => n) [1; 2; 4; 8] fs <> vertex_normals 0 (fun a b c => a + b + c) (fun n => n) [1; 2; 4; 8] fs'.
Proof.
  exists [(0, 1, 2); (1, 2, 3)], [(1, 2, 3); (0, 1, 2)]. split; [apply perm_swap|]. split; [repeat constructor; cbn; lia|]. vm_compute. discriminate.
Qed.
