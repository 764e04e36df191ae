(** The parameters of operators in files.  C130.
    The [serialize] and [unserialize] functions of src/operators.

    Simplifications: numbers are of one type; [boost::lexical_cast] is a pair of functions, of which the theorems assume that a written number is read back (it writes as many digits as that takes).
    A file is the list of scalars of the operator, as in Persist.v. *)
From Coq Require Import ZArith QArith String.
From stdpp Require Import prelude strings.
From Verif Require Import Base EnvModel Persist Growing Passages SimpleTrav.
Local Open Scope string_scope.

Section Params.
  (** numbers and their texts *)
  Context {num : Type} (text : num -> string) (number : string -> option num).
  Notation node := (list (string * string)) (only parsing).

  (** * Model *)
  (** Serialization.cpp:219-223 *)
  Definition has_key (n : node) (key : string) : bool := match scalar n key with Some _ => true | None => false end.
  (** Serialization.cpp:225-237: a missing scalar is only reported *)
  Definition read_string (n : node) (key : string) (old : string) : string := default old (scalar n key).
  (** Serialization.hpp:124-133; [None]: bad_lexical_cast *)
  Definition read_number (n : node) (key : string) (old : num) : option num := match scalar n key with Some t => number t | None => Some old end.
  (** Serialization.cpp:379-388 and Environment.cpp:108-112, for all operators: Operator::serialize is EnvironmentItem::serialize *)
  Definition item_node (class id label : string) : node := [("class", class); ("id", id); ("label", label)].

  (** SimpleTraversability.hpp:85-103; SLOPE is 0, MAX_STEP is 1 *)
  Record trav := Trav { t_ids : string * string; t_bands : string * string; t_maximum_slope : num; t_class_count : num; t_min_width : num; t_ground_clearance : num; t_obstacle_clearance : num; t_output_band : string }.
  (** SimpleTraversability.cpp:38-56 *)
  Definition save_input (i id band : string) : node := if decide (id <> "" /\ band <> "") then [("input" +:+ i, id); ("input" +:+ i +:+ "_band", band)] else [].
  Definition save_trav (t : trav) : node :=
    save_input "0" (t_ids t).1 (t_bands t).1 ++ save_input "1" (t_ids t).2 (t_bands t).2 ++
    [("maximum_slope", text (t_maximum_slope t)); ("class_count", text (t_class_count t)); ("ground_clearance", text (t_ground_clearance t));
     ("min_width", text (t_min_width t)); ("output_band", t_output_band t)].
  (** SimpleTraversability.cpp:58-78 *)
  Definition load_input (n : node) (i : string) (old : string * string) : string * string :=
    if has_key n ("input" +:+ i) then (read_string n ("input" +:+ i) "", read_string n ("input" +:+ i +:+ "_band") "") else old.
  Definition load_trav (n : node) (t : trav) : option trav :=
    let i0 := load_input n "0" ((t_ids t).1, (t_bands t).1) in let i1 := load_input n "1" ((t_ids t).2, (t_bands t).2) in
    a ← read_number n "maximum_slope" (t_maximum_slope t); b ← read_number n "class_count" (t_class_count t);
    c ← read_number n "ground_clearance" (t_ground_clearance t); d ← read_number n "min_width" (t_min_width t);
    Some (Trav (i0.1, i1.1) (i0.2, i1.2) a b d c (t_obstacle_clearance t) (read_string n "output_band" (t_output_band t))).
  (** SimpleTraversability.hpp:38-43 and the default constructor; [zero] is the number 0 *)
  Definition new_trav (zero : num) : trav := Trav ("", "") ("", "") zero zero zero zero zero "".

  (** ScanMeshing.hpp:14-30; the flags are left out *)
  Record meshing := Meshing { m_edge_angle : num; m_edge_length : num; m_remission_scale : num; m_marker_threshold : num; m_min_range : num; m_max_range : num }.
  (** ScanMeshing.cpp:27-33 *)
  Definition save_meshing (m : meshing) : node :=
    [("maxEdgeLength", text (m_edge_length m)); ("remissionScaleFactor", text (m_edge_length m)); ("minRange", text (m_min_range m))].
  (** ScanMeshing.cpp:35-41 *)
  Definition load_meshing (n : node) (m : meshing) : option meshing :=
    a ← read_number n "maxEdgeLength" (m_edge_length m); b ← read_number n "remissionScaleFactor" a; c ← read_number n "minRange" (m_min_range m);
    Some (Meshing (m_edge_angle m) b (m_remission_scale m) (m_marker_threshold m) c (m_max_range m)).
  (** GridFloatToMLS.cpp:12-22 *)
  Definition save_to_mls (band : string) : node := [("band_name", band)].
  Definition load_to_mls (n : node) (band : string) : string := read_string n "band_name" band.
  (** MLSToGrid.cpp:16-26 *)
  Definition save_to_grid (layer : string) : node := [("out_layer_name", layer)].
  Definition load_to_grid (n : node) (layer : string) : string := read_string n "out_layer_name" layer.
  (** * C130 *)
  (** a file of the operator: its class, id and label first *)
  Definition file (class id label : string) (fields : node) : node := item_node class id label ++ fields.
  (** a written number is read back *)
  Definition exact_text : Prop := forall x, number (text x) = Some x.

  (** a field of a file, by computation *)
  Ltac entry := vm_compute; reflexivity.

  (** Saving an operator that classifies terrain, and loading the file into any other one, gives the layers, bands, slope, number of classes, clearance of the ground, width and
      output band; an input without a layer or a band is that of the other operator, and so is the clearance around obstacles. *)
  Theorem C130_traversability class id label t t0 : exact_text -> exists t', load_trav (file class id label (save_trav t)) t0 = Some t' /\
    (t_maximum_slope t', t_class_count t', t_min_width t', t_ground_clearance t', t_output_band t') = (t_maximum_slope t, t_class_count t, t_min_width t, t_ground_clearance t, t_output_band t) /\
    (t_ids t').1 = (if decide ((t_ids t).1 <> "" /\ (t_bands t).1 <> "") then (t_ids t).1 else (t_ids t0).1) /\
    (t_bands t').1 = (if decide ((t_ids t).1 <> "" /\ (t_bands t).1 <> "") then (t_bands t).1 else (t_bands t0).1) /\
    (t_ids t').2 = (if decide ((t_ids t).2 <> "" /\ (t_bands t).2 <> "") then (t_ids t).2 else (t_ids t0).2) /\
    (t_bands t').2 = (if decide ((t_ids t).2 <> "" /\ (t_bands t).2 <> "") then (t_bands t).2 else (t_bands t0).2) /\
    t_obstacle_clearance t' = t_obstacle_clearance t0.
  Proof using Type.
    intros Ht. destruct t as [[i0 i1] [b0 b1] ms cc mw gc oc ob]. unfold file, save_trav, save_input. cbn [t_ids t_bands t_maximum_slope t_class_count t_min_width t_ground_clearance t_output_band fst snd].
    unfold load_trav, load_input, read_number, has_key, read_string.
    destruct (decide (i0 <> "" /\ b0 <> "")) as [H0|H0], (decide (i1 <> "" /\ b1 <> "")) as [H1|H1];
    cbn [app item_node];
    match goal with |- context [scalar ?l "maximum_slope"] => set (n := l);
      assert (E1 : scalar n "maximum_slope" = Some (text ms)) by entry; assert (E2 : scalar n "class_count" = Some (text cc)) by entry;
      assert (E3 : scalar n "ground_clearance" = Some (text gc)) by entry; assert (E4 : scalar n "min_width" = Some (text mw)) by entry; assert (E5 : scalar n "output_band" = Some ob) by entry end;
    [assert (F0 : scalar n ("input" +:+ "0") = Some i0) by entry; assert (G0 : scalar n ("input" +:+ "0" +:+ "_band") = Some b0) by entry;
     assert (F1 : scalar n ("input" +:+ "1") = Some i1) by entry; assert (G1 : scalar n ("input" +:+ "1" +:+ "_band") = Some b1) by entry
    |assert (F0 : scalar n ("input" +:+ "0") = Some i0) by entry; assert (G0 : scalar n ("input" +:+ "0" +:+ "_band") = Some b0) by entry;
     assert (F1 : scalar n ("input" +:+ "1") = None) by entry; assert (G1 : True) by exact I
    |assert (F0 : scalar n ("input" +:+ "0") = None) by entry; assert (G0 : True) by exact I;
     assert (F1 : scalar n ("input" +:+ "1") = Some i1) by entry; assert (G1 : scalar n ("input" +:+ "1" +:+ "_band") = Some b1) by entry
    |assert (F0 : scalar n ("input" +:+ "0") = None) by entry; assert (G0 : True) by exact I;
     assert (F1 : scalar n ("input" +:+ "1") = None) by entry; assert (G1 : True) by exact I];
    rewrite E1, E2, E3, E4, E5, F0, F1, ?G0, ?G1, !Ht; cbn [mbind option_bind default]; eexists; (split; [reflexivity|]); cbn; done.
  Qed.
  (** ScanMeshing keeps the largest length of edges and the least range; its other parameters are those of the operator that loads. *)
  Theorem C130_meshing class id label m m0 : exact_text -> exists m', load_meshing (file class id label (save_meshing m)) m0 = Some m' /\
    m_edge_length m' = m_edge_length m /\ m_min_range m' = m_min_range m /\
    (m_edge_angle m', m_remission_scale m', m_marker_threshold m', m_max_range m') = (m_edge_angle m0, m_remission_scale m0, m_marker_threshold m0, m_max_range m0).
  Proof using Type.
    intros Ht. unfold load_meshing, read_number, file, save_meshing. cbn [app item_node].
    match goal with |- context [scalar ?l "maxEdgeLength"] => set (n := l) end.
    assert (E1 : scalar n "maxEdgeLength" = Some (text (m_edge_length m))) by entry. assert (E2 : scalar n "remissionScaleFactor" = Some (text (m_edge_length m))) by entry.
    assert (E3 : scalar n "minRange" = Some (text (m_min_range m))) by entry. rewrite E1, E2, E3, !Ht. cbn [mbind option_bind]. eexists. split; [reflexivity|]. done.
  Qed.
  (** The band of GridFloatToMLS and the layer of MLSToGrid are kept. *)
  Theorem C130_names class id label name old : load_to_mls (file class id label (save_to_mls name)) old = name /\ load_to_grid (file class id label (save_to_grid name)) old = name.
  Proof using Type. split; entry. Qed.
  (** A parameter that is missing in the file, as in files of older versions, keeps its value; with none of them in the file loading succeeds and changes nothing. *)
  Theorem C130_missing n t m band :
    (forall t', load_trav n t = Some t' ->
       (scalar n "maximum_slope" = None -> t_maximum_slope t' = t_maximum_slope t) /\ (scalar n "class_count" = None -> t_class_count t' = t_class_count t) /\
       (scalar n "ground_clearance" = None -> t_ground_clearance t' = t_ground_clearance t) /\ (scalar n "min_width" = None -> t_min_width t' = t_min_width t) /\
       (scalar n "output_band" = None -> t_output_band t' = t_output_band t) /\
       (scalar n "input0" = None -> (t_ids t').1 = (t_ids t).1 /\ (t_bands t').1 = (t_bands t).1) /\ (scalar n "input1" = None -> (t_ids t').2 = (t_ids t).2 /\ (t_bands t').2 = (t_bands t).2)) /\
    ((forall key, key ∈ ["maximum_slope"; "class_count"; "ground_clearance"; "min_width"; "output_band"; "input0"; "input1"] -> scalar n key = None) -> load_trav n t = Some t) /\
    ((forall key, key ∈ ["maxEdgeLength"; "remissionScaleFactor"; "minRange"] -> scalar n key = None) -> load_meshing n m = Some m) /\
    (scalar n "band_name" = None -> load_to_mls n band = band) /\ (scalar n "out_layer_name" = None -> load_to_grid n band = band).
  Proof using Type.
    split; [|split; [|split; [|split]]].
    - intros t' H. unfold load_trav in H. destruct (read_number n "maximum_slope" _) as [a|] eqn:E1; [|done]. destruct (read_number n "class_count" _) as [b|] eqn:E2; [|done].
      destruct (read_number n "ground_clearance" _) as [c|] eqn:E3; [|done]. destruct (read_number n "min_width" _) as [d|] eqn:E4; [|done]. cbn [mbind option_bind] in H. injection H as <-.
      unfold read_number in *. cbn [t_ids t_bands t_maximum_slope t_class_count t_min_width t_ground_clearance t_output_band fst snd].
      split; [intros K; rewrite K in E1; by injection E1|]. split; [intros K; rewrite K in E2; by injection E2|]. split; [intros K; rewrite K in E3; by injection E3|]. split; [intros K; rewrite K in E4; by injection E4|].
      split; [intros K; unfold read_string; by rewrite K|]. unfold load_input, has_key. change ("input" +:+ "0") with "input0". change ("input" +:+ "1") with "input1". split; intros K; by rewrite K.
    - intros H. unfold load_trav, load_input, has_key, read_number, read_string. change ("input" +:+ "0") with "input0". change ("input" +:+ "1") with "input1".
      rewrite !H by (repeat constructor). cbn. by destruct t as [[] []].
    - intros H. unfold load_meshing, read_number. rewrite !H by (repeat constructor). cbn. by destruct m.
    - intros H. unfold load_to_mls, read_string. by rewrite H.
    - intros H. unfold load_to_grid, read_string. by rewrite H.
  Qed.
End Params.

(** texts of natural numbers *)
Fixpoint a_text (n : nat) : string := match n with O => "" | S n => "I" +:+ a_text n end.
Definition a_number (s : string) : option nat := Some (String.length s).
Lemma a_exact : exact_text a_text a_number.
Proof.
  intros n. unfold a_number. f_equal. induction n as [|n IH]; [done|]. cbn [a_text]. change (S (String.length (a_text n)) = S n). by rewrite IH.
Qed.
Example C130_nonvacuous : load_trav a_number (file "envire::SimpleTraversability" "/3" "" (save_trav a_text (Trav ("/1", "/2") ("slope", "") 3%nat 10%nat 2%nat 1%nat 4%nat "band"))) (new_trav 0%nat) =
  Some (Trav ("/1", "") ("slope", "") 3%nat 10%nat 2%nat 1%nat 0%nat "band").
Proof. vm_compute. reflexivity. Qed.
(** A clearance around obstacles that has been set is lost, so a cell next to an obstacle that the saved operator makes an obstacle is not one for the loaded operator. *)
Theorem C130_clearance_refuted : exists (text : Q -> string) (number : string -> option Q) (t t' : trav (num := Q)) (slope : band) (g g1 g2 : grid), (forall x, x = t_maximum_slope t \/ x = t_class_count t \/ x = t_min_width t \/ x = t_ground_clearance t \/ x = t_obstacle_clearance t -> number (text x) = Some x) /\
  load_trav number (file "envire::SimpleTraversability" "/3" "" (save_trav text t)) (new_trav 0%Q) = Some t' /\
  let run := fun t => update_all (Config (t_maximum_slope t) (Qround.Qfloor (t_class_count t)) (t_min_width t) (t_ground_clearance t) (t_obstacle_clearance t)) 0 (Some slope) None g in
  run t = Ok g1 /\ run t' = Ok g2 /\ g_class g1 (1, 0)%Z = OBSTACLE /\ g_class g2 (1, 0)%Z <> OBSTACLE.
Proof.
  set (text := fun q : Q => if Qeq_bool q 0 then "0" else if Qeq_bool q 1 then "1" else if Qeq_bool q 2 then "2" else "10").
  set (number := fun s : string => Some (if decide (s = "0") then 0%Q else if decide (s = "1") then 1%Q else if decide (s = "2") then 2%Q else 10%Q)).
  set (t := Trav ("/1", "") ("slope", "") 1%Q 10%Q 0%Q 0%Q 2%Q "").
  set (t' := Trav ("/1", "") ("slope", "") 1%Q 10%Q 0%Q 0%Q 0%Q "").
  set (slope := Band 2 1 (fun c => if decide (c = (0, 0)%Z) then Fin 2 else Fin 0) None).
  set (g := Grid 2 1 1 1 (fun _ => 0%nat) (fun _ => 0%nat) []).
  set (run := fun t : trav (num := Q) => update_all (Config (t_maximum_slope t) (Qround.Qfloor (t_class_count t)) (t_min_width t) (t_ground_clearance t) (t_obstacle_clearance t)) 0 (Some slope) None g).
  assert (H1 : match run t with Ok g1 => g_class g1 (1, 0)%Z = OBSTACLE | _ => False end) by (vm_compute; reflexivity).
  assert (H2 : match run t' with Ok g2 => g_class g2 (1, 0)%Z <> OBSTACLE | _ => False end) by (vm_compute; discriminate).
  destruct (run t) as [g1| | |] eqn:E1; [|contradiction H1..]. destruct (run t') as [g2| | |] eqn:E2; [|contradiction H2..].
  exists text, number, t, t', slope, g, g1, g2. split.
  { intros x [-> |[-> |[-> |[-> | ->]]]]; vm_compute; reflexivity. }
  split; [vm_compute; reflexivity|]. cbn zeta. split; [exact E1|]. split; [exact E2|]. split; [exact H1|exact H2].
Qed.
(** The factor for remissions is lost: its entry in the file is the length of edges. *)
Theorem C130_remission_refuted : exists m m0 : meshing (num := nat), m_remission_scale m <> m_remission_scale m0 /\
  match load_meshing a_number (file "envire::ScanMeshing" "/3" "" (save_meshing a_text m)) m0 with Some m' => m_remission_scale m' = m_remission_scale m0 | None => False end.
Proof. exists (Meshing 1 2 3 4 5 6)%nat, (Meshing 1 1 10 1 1 1)%nat. split; [done|]. vm_compute. reflexivity. Qed.
(** The hypotheses of C130_missing are met: a file with nothing but the number of classes. *)
Example C130_missing_nonvacuous : let n := file "envire::SimpleTraversability" "/3" "" [("class_count", a_text 7)] in
  scalar n "maximum_slope" = None /\ scalar n "input1" = None /\ load_trav a_number n (Trav ("/1", "/2") ("a", "b") 1 2 3 4 5 "out")%nat = Some (Trav ("/1", "/2") ("a", "b") 1 7 3 4 5 "out")%nat.
Proof. vm_compute. done. Qed.
