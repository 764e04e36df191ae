(** Drawings of environments.  C121.
    src/tools/GraphViz.cpp

    Simplifications: a drawing is a list of nodes and five lists of edges instead of the text in the file. Of a node the name, the unique id in its label and its form are kept,
    not the class name, the user's label and the transform. *)
From stdpp Require Import prelude strings gmap.
From Verif Require Import Base EnvModel EnvSpec EnvLib EnvGood EnvStep EnvStep2 EnvStep3 EnvDemo EnvProps EnvProps2.
From Coq Require Import Ascii.

(** * Model *)
(** GraphViz.cpp:9-14, dot_id *)
Fixpoint dot_id (s : string) : string :=
  match s with EmptyString => EmptyString | String c s => String (if decide (c = "/"%char) then "_"%char else c) (dot_id s) end.
Inductive form := Ellipse | Octagon | Box.
(** GraphViz.cpp:36-59 *)
Definition form_of (k : kind) : form := match k with KFrame => Ellipse | KOp _ _ => Octagon | KLayer | KMap => Box end.
Record node := Node { n_name : string; n_label : string; n_form : form }.
Record drawing := Drawing { d_nodes : list node; d_tree : list (string * string); d_layers : list (string * string);
  d_in : list (string * string); d_out : list (string * string); d_maps : list (string * string) }.
Definition each {A B S} (f : A -> out S B) : list A -> out S (list B) := fix go l := match l with [] => Ok [] | x :: l => y <~ f x ;; ys <~ go l ;; Ok (y :: ys) end.
(** the item at an address; a dangling pointer is undefined *)
Definition deref (h : gmap positive item) (p : ptr) : out unit item := match h !! p with Some it => Ok it | None => Bad UB end.
(** GraphViz.cpp:22-62; all items are frames, layers or operators *)
Definition draw_item (h : gmap positive item) (i : string * ptr) : out unit node := it <~ deref h i.2 ;; Ok (Node (dot_id (it_id it)) (it_id it) (form_of (it_kind it))).
(** GraphViz.cpp:67-70 and 94-98: from the first to the second *)
Definition edge (h : gmap positive item) (l : ptr * ptr) : out unit (string * string) := a <~ deref h l.1 ;; b <~ deref h l.2 ;; Ok (dot_id (it_id a), dot_id (it_id b)).
(** GraphViz.cpp:76-80, 86-89 and 103-107: from the second to the first *)
Definition back_edge (h : gmap positive item) (l : ptr * ptr) : out unit (string * string) := a <~ deref h l.2 ;; b <~ deref h l.1 ;; Ok (dot_id (it_id a), dot_id (it_id b)).
(** GraphViz.cpp:16-110, writeToFile *)
Definition draw (h : gmap positive item) (x : env) : out unit drawing :=
  ns <~ each (draw_item h) (e_items x) ;;
  ts <~ each (edge h) (e_tree x) ;;
  ls <~ each (back_edge h) (e_layers x) ;;
  is <~ each (back_edge h) (e_in x) ;;
  os <~ each (edge h) (e_out x) ;;
  ms <~ each (back_edge h) (e_maps x) ;;
  Ok (Drawing ns ts ls is os ms).

(** * Specification *)
(** [n] is the name of the node for the item [p] *)
Definition drawn_as (w : world) (p : ptr) (n : string) : Prop := exists it, w_heap w !! p = Some it /\ n = dot_id (it_id it).
(** one edge for each link, from the first item to the second one, or the other way round *)
Definition edges_of (w : world) (links : list (ptr * ptr)) (edges : list (string * string)) : Prop := Forall2 (fun l g => drawn_as w l.1 g.1 /\ drawn_as w l.2 g.2) links edges.
Definition back_edges_of (w : world) (links : list (ptr * ptr)) (edges : list (string * string)) : Prop := Forall2 (fun l g => drawn_as w l.2 g.1 /\ drawn_as w l.1 g.2) links edges.
(** no two ids of the environment become the same when slashes are replaced *)
Definition distinct_names (w : world) (e : eid) : Prop :=
  forall p q ip iq, w_heap w !! p = Some ip -> it_env ip = Some e -> w_heap w !! q = Some iq -> it_env iq = Some e -> dot_id (it_id ip) = dot_id (it_id iq) -> it_id ip = it_id iq.
(** the form says what kind of item it is *)
Definition shows (f : form) (k : kind) : Prop := match f with Ellipse => is_frame k = true | Octagon => is_op k = true | Box => is_layer k = true end.

(** * Proof *)
Lemma each_ok {A B S} (f : A -> out S B) (P : A -> B -> Prop) l : (forall x, x ∈ l -> exists y, f x = Ok y /\ P x y) -> exists ys, each f l = Ok ys /\ Forall2 P l ys.
Proof.
  induction l as [|x l IH]; intros H; [exists []; split; [done|constructor]|]. destruct (H x) as (y&E&Hy); [by left|]. destruct IH as (ys&E'&Hys); [intros z Hz; apply H; by right|].
  exists (y :: ys). cbn [each]. rewrite E. cbn [obind]. fold (each f). rewrite E'. split; [done|by constructor].
Qed.
Lemma edge_ok w e l : in_env w e l.1 -> in_env w e l.2 -> exists g, edge (w_heap w) l = Ok g /\ drawn_as w l.1 g.1 /\ drawn_as w l.2 g.2.
Proof.
  intros (a&Ha&_) (b&Hb&_). unfold edge, deref. rewrite Ha, Hb. cbn [obind]. eexists. split; [done|]. split; [by exists a|by exists b].
Qed.
Lemma back_edge_ok w e l : in_env w e l.1 -> in_env w e l.2 -> exists g, back_edge (w_heap w) l = Ok g /\ drawn_as w l.2 g.1 /\ drawn_as w l.1 g.2.
Proof.
  intros (a&Ha&_) (b&Hb&_). unfold back_edge, deref. rewrite Ha, Hb. cbn [obind]. eexists. split; [done|]. split; [by exists b|by exists a].
Qed.

(** * Theorems *)
(** The drawing of an environment has exactly one node for each of its items, with the unique id as label and a form for its kind, and exactly one edge for each link:
    from child frames to their parents, from parent layers to their children, from inputs to operators, from operators to outputs, and from frames to their maps. *)
Theorem C121_drawing w e x : reachable w -> w_envs w !! e = Some x ->
  exists d, draw (w_heap w) x = Ok d /\
    NoDup (n_label <$> d_nodes d) /\
    (forall n, n ∈ d_nodes d <-> exists p it, w_heap w !! p = Some it /\ it_env it = Some e /\ n_label n = it_id it /\ drawn_as w p (n_name n) /\ shows (n_form n) (it_kind it)) /\
    edges_of w (e_tree x) (d_tree d) /\ back_edges_of w (e_layers x) (d_layers d) /\ back_edges_of w (e_in x) (d_in d) /\ edges_of w (e_out x) (d_out d) /\
    back_edges_of w (e_maps x) (d_maps d).
Proof.
  intros HW Hx. destruct (C09_links_inside w e x HW Hx) as (L1&L2&L3&L4&L5). destruct (reach_parts _ _ _ HW Hx) as (I&_&_).
  destruct (each_ok (draw_item (w_heap w)) (fun i n => exists it, w_heap w !! i.2 = Some it /\ it_env it = Some e /\ it_id it = i.1 /\ n = Node (dot_id (it_id it)) (it_id it) (form_of (it_kind it))) (e_items x)) as (ns&En&Hn).
  { intros [id p] Hp. apply (inv_items _ _ I) in Hp as (it&H1&H2&H3). cbn in H1. exists (Node (dot_id (it_id it)) (it_id it) (form_of (it_kind it))). unfold draw_item, deref. cbn [snd]. rewrite H1. cbn [obind]. split; [done|]. by exists it. }
  destruct (each_ok (edge (w_heap w)) _ (e_tree x) (fun l Hl => edge_ok w e l (proj1 (L1 l.1 l.2 ltac:(by destruct l))) (proj2 (L1 l.1 l.2 ltac:(by destruct l))))) as (ts&Et&Ht).
  destruct (each_ok (back_edge (w_heap w)) _ (e_layers x) (fun l Hl => back_edge_ok w e l (proj1 (L2 l.1 l.2 ltac:(by destruct l))) (proj2 (L2 l.1 l.2 ltac:(by destruct l))))) as (ls&El&Hl).
  destruct (each_ok (back_edge (w_heap w)) _ (e_in x) (fun l Hl => back_edge_ok w e l (proj1 (L3 l.1 l.2 ltac:(by destruct l))) (proj2 (L3 l.1 l.2 ltac:(by destruct l))))) as (is&Ei&Hi).
  destruct (each_ok (edge (w_heap w)) _ (e_out x) (fun l Hl => edge_ok w e l (proj1 (L4 l.1 l.2 ltac:(by destruct l))) (proj2 (L4 l.1 l.2 ltac:(by destruct l))))) as (os&Eo&Ho).
  destruct (each_ok (back_edge (w_heap w)) _ (e_maps x) (fun l Hl => back_edge_ok w e l (proj1 (L5 l.1 l.2 ltac:(by destruct l))) (proj2 (L5 l.1 l.2 ltac:(by destruct l))))) as (ms&Em&Hm).
  exists (Drawing ns ts ls is os ms). unfold draw. rewrite En. cbn [obind]. rewrite Et. cbn [obind]. rewrite El. cbn [obind]. rewrite Ei. cbn [obind]. rewrite Eo. cbn [obind]. rewrite Em. cbn [obind].
  split; [done|]. cbn [d_nodes d_tree d_layers d_in d_out d_maps]. split; [|split; [|done]].
  - assert (E : n_label <$> ns = (e_items x).*1).
    { clear -Hn. induction Hn as [|i n l ns (it&_&_&E&->) _ IH]; [done|]. cbn. by rewrite IH, E. }
    rewrite E. apply (inv_nodup _ _ I).
  - intros n. split.
    + intros H. apply elem_of_list_lookup in H as (k&Hk). destruct (Forall2_lookup_r _ _ _ _ _ Hn Hk) as (i&_&it&H1&H2&H3&->). exists i.2, it. cbn. split; [done|]. split; [done|]. split; [done|].
      split; [by exists it|]. by destruct (it_kind it).
    + intros (p&it&H1&H2&H3&(it'&H4&H5)&H6). rewrite H1 in H4. injection H4 as <-. assert (Hin : (it_id it, p) ∈ e_items x). { apply (inv_items _ _ I). by exists it. }
      apply elem_of_list_lookup in Hin as (k&Hk). destruct (Forall2_lookup_l _ _ _ _ _ Hn Hk) as (n'&Hk'&it'&H1'&_&_&E). cbn in H1'. rewrite H1 in H1'. injection H1' as <-. apply elem_of_list_lookup. exists k. rewrite Hk'. f_equal. rewrite E.
      destruct n as [a b c]. cbn in *. subst. f_equal. by destruct c, (it_kind it).
Qed.
(** If no two ids become the same when slashes are replaced, different items are different nodes, and an edge between the nodes of two items is a link between these items. *)
Theorem C121_faithful w e x d : reachable w -> w_envs w !! e = Some x -> distinct_names w e -> draw (w_heap w) x = Ok d ->
  NoDup (n_name <$> d_nodes d) /\
  forall p q a b, in_env w e p -> in_env w e q -> drawn_as w p a -> drawn_as w q b ->
    ((a, b) ∈ d_tree d <-> (p, q) ∈ e_tree x) /\ ((a, b) ∈ d_layers d <-> (q, p) ∈ e_layers x) /\ ((a, b) ∈ d_in d <-> (q, p) ∈ e_in x) /\
    ((a, b) ∈ d_out d <-> (p, q) ∈ e_out x) /\ ((a, b) ∈ d_maps d <-> (q, p) ∈ e_maps x).
Proof.
  intros HW Hx HD Ed. destruct (C121_drawing w e x HW Hx) as (d'&Ed'&Hnd&Hn&H1&H2&H3&H4&H5). rewrite Ed in Ed'. injection Ed' as <-.
  destruct (C09_links_inside w e x HW Hx) as (L1&L2&L3&L4&L5). destruct (C01_lookup_exact w e x HW Hx) as [_ Hinj]. split.
  - assert (K : forall ns, ns ⊆ d_nodes d -> NoDup (n_label <$> ns) -> NoDup (n_name <$> ns)); [|by apply K].
    induction ns as [|n ns IH]; intros Hs Hnd'; [constructor|]. cbn in *. apply NoDup_cons in Hnd' as [Hni Hnd']. constructor; [|apply IH; [set_solver|done]].
    intros Hin. apply Hni. apply elem_of_list_fmap in Hin as (m&Em&Hm). apply elem_of_list_fmap. exists m. split; [|done].
    destruct (proj1 (Hn n) ltac:(apply Hs; by left)) as (p&ip&P1&P2&P3&(ip'&P4&P5)&_). destruct (proj1 (Hn m) ltac:(apply Hs; by right)) as (q&iq&Q1&Q2&Q3&(iq'&Q4&Q5)&_).
    rewrite P1 in P4. injection P4 as <-. rewrite Q1 in Q4. injection Q4 as <-. rewrite P3, Q3. apply (HD p q); try done. congruence.
  - intros p q a b (ip&P1&P2) (iq&Q1&Q2) (ip'&P1'&->) (iq'&Q1'&->). rewrite P1 in P1'. injection P1' as <-. rewrite Q1 in Q1'. injection Q1' as <-.
    assert (Same : forall r i c, w_heap w !! r = Some i -> it_env i = Some e -> in_env w e c -> drawn_as w c (dot_id (it_id i)) -> c = r).
    { intros r i c R1 R2 (ic&C1&C2) (ic'&C1'&C3). rewrite C1 in C1'. injection C1' as <-. apply (Hinj c r ic i); try done. by apply (HD c r). }
    assert (K : forall links edges, (forall c p, (c, p) ∈ links -> in_env w e c /\ in_env w e p) -> edges_of w links edges -> (dot_id (it_id ip), dot_id (it_id iq)) ∈ edges <-> (p, q) ∈ links).
    { intros links edges Hin HF. split; intros H; apply elem_of_list_lookup in H as (k&Hk).
      - destruct (Forall2_lookup_r _ _ _ _ _ HF Hk) as ([c r]&Hk'&E1&E2). apply elem_of_list_lookup_2 in Hk'. destruct (Hin c r Hk') as [Hc Hr]. cbn in E1, E2.
        by rewrite <-(Same p ip c P1 P2 Hc E1), <-(Same q iq r Q1 Q2 Hr E2).
      - destruct (Forall2_lookup_l _ _ _ _ _ HF Hk) as ([c r]&Hk'&(i1&I1&E1)&(i2&I2&E2)). cbn in *. rewrite P1 in I1. injection I1 as <-. rewrite Q1 in I2. injection I2 as <-. subst. by eapply elem_of_list_lookup_2. }
    assert (K' : forall links edges, (forall c p, (c, p) ∈ links -> in_env w e c /\ in_env w e p) -> back_edges_of w links edges -> (dot_id (it_id ip), dot_id (it_id iq)) ∈ edges <-> (q, p) ∈ links).
    { intros links edges Hin HF. split; intros H; apply elem_of_list_lookup in H as (k&Hk).
      - destruct (Forall2_lookup_r _ _ _ _ _ HF Hk) as ([c r]&Hk'&E1&E2). apply elem_of_list_lookup_2 in Hk'. destruct (Hin c r Hk') as [Hc Hr]. cbn in E1, E2.
        by rewrite <-(Same p ip r P1 P2 Hr E1), <-(Same q iq c Q1 Q2 Hc E2).
      - destruct (Forall2_lookup_l _ _ _ _ _ HF Hk) as ([c r]&Hk'&(i1&I1&E1)&(i2&I2&E2)). cbn in *. rewrite P1 in I1. injection I1 as <-. rewrite Q1 in I2. injection I2 as <-. subst. by eapply elem_of_list_lookup_2. }
    split; [by apply K|]. split; [by apply K'|]. split; [by apply K'|]. split; [by apply K|by apply K'].
Qed.
(** The name of a node is the unique id, with underscores in place of the slashes and nothing else changed. *)
Theorem C121_name s : list_ascii_of_string (dot_id s) = List.map (fun c => if Ascii.eqb c "/" then "_"%char else c) (list_ascii_of_string s).
Proof.
  induction s as [|c s IH]; [done|]. cbn [dot_id list_ascii_of_string List.map]. rewrite IH. f_equal. destruct (Ascii.eqb_spec c "/") as [->|H]; [by rewrite decide_True|by rewrite decide_False].
Qed.
Lemma distinct_check w e x : reachable w -> w_envs w !! e = Some x -> NoDup (dot_id <$> (e_items x).*1) -> distinct_names w e.
Proof.
  intros HW Hx Hnd p q ip iq P1 P2 Q1 Q2 E. destruct (reach_parts _ _ _ HW Hx) as (I&_&_).
  assert (Hp : (it_id ip, p) ∈ e_items x) by (apply (inv_items _ _ I); by exists ip). assert (Hq : (it_id iq, q) ∈ e_items x) by (apply (inv_items _ _ I); by exists iq).
  assert (Hp' : it_id ip ∈ (e_items x).*1) by (apply elem_of_list_fmap; by exists (it_id ip, p)). assert (Hq' : it_id iq ∈ (e_items x).*1) by (apply elem_of_list_fmap; by exists (it_id iq, q)).
  apply elem_of_list_lookup in Hp' as (i&Hi), Hq' as (j&Hj). assert (i = j); [|congruence].
  apply (NoDup_lookup _ i j (dot_id (it_id ip)) Hnd); rewrite list_lookup_fmap; [by rewrite Hi|rewrite Hj; cbn; by rewrite E].
Qed.
Example C121_nonvacuous : reachable demo_world /\ w_envs demo_world !! 1%positive = Some (demo_env 1) /\ distinct_names demo_world 1 /\
  exists d, draw (w_heap demo_world) (demo_env 1) = Ok d /\ length (d_nodes d) = 6 /\ d_tree d = [("_2", "_0"); ("_a", "_2")] /\ d_layers d = [("_m_3", "_x_l")] /\
    d_in d = [("_m_3", "_4")] /\ d_out d = [("_4", "_x_l")] /\ d_maps d = [("_a", "_m_3")].
Proof.
  assert (E : w_envs demo_world !! 1%positive = Some (demo_env 1)) by (vm_compute; reflexivity).
  split; [apply demo_reachable|]. split; [exact E|]. split.
  - apply (distinct_check _ _ _ demo_reachable E). vmdec.
  - eexists. split; [vm_compute; reflexivity|]. vm_compute. repeat (split || reflexivity).
Qed.
(** Slashes and underscores are not told apart: the items "/x/l" and "/x_l" are one node, and what is linked to one of them seems to be linked to the other one. *)
Theorem C121_names_refuted : ~ forall w e x d, reachable w -> w_envs w !! e = Some x -> draw (w_heap w) x = Ok d -> NoDup (n_name <$> d_nodes d).
Proof.
  intros H. set (w := demo_plus [ONew 30 KFrame "/x_l" 3; OHold 30; OAddChildF 1 11 30]).
  assert (K : exists x d, w_envs w !! 1%positive = Some x /\ draw (w_heap w) x = Ok d /\ (n_name <$> d_nodes d) = ["_0"; "_2"; "_4"; "_a"; "_m_3"; "_x_l"; "_x_l"]).
  { eexists _, _. split; [vm_compute; reflexivity|]. split; [vm_compute; reflexivity|]. vm_compute. reflexivity. }
  destruct K as (x&d&E1&E2&E3). specialize (H w 1%positive x d (demo_plus_reachable _) E1 E2). rewrite E3 in H. revert H. assert (K : ~ NoDup ["_0"; "_2"; "_4"; "_a"; "_m_3"; "_x_l"; "_x_l"]) by vmdec. exact K.
Qed.
