(** Saving and loading point clouds and meshes.  C147.
    src/maps/Pointcloud.cpp:16-71, src/maps/TriMesh.cpp:10-26, with Layer.cpp:45-57, Environment.cpp:108-123 and the factory, Serialization.hpp:20-25 (which calls the function of the class itself; a virtual call would load no more than Layer.cpp does).

    The file of the vertices is that of Ply.v (C117), the description that of MapHeader.v (C135, C136), with the simplifications there. Of the file in the old text format, which is modelled in
    CloudText.v, only the result is a parameter. The parser of the ply library calls the error callback, which throws (PlyFile.cpp:141-145), whenever it would return false. *)
From Coq Require Import ZArith String.
From stdpp Require Import prelude strings.
From Verif Require Import Base EnvModel Ids Persist.
From Verif Require MapHeader Ply.
Local Open Scope string_scope.
Local Open Scope nat_scope.

(** ** Model *)
Notation yaml := MapHeader.yaml (only parsing).
Notation ymap := (list (string * MapHeader.yaml)) (only parsing).
(** the content of a stream: one with the header and the body of a ply file, or any other *)
Inductive content := PlyContent (h : list Ply.element) (bs : list Ply.byte) | Other (bs : list Ply.byte).
Section Files.
  Context {num : Type} (text : num -> string) (number : string -> option num) (zero one : num).
  (** [readText] on the content of a stream, Pointcloud.cpp:83-111 *)
  Context (from_text : content -> Ply.item -> out unit Ply.item).
  (** what the static and global variables of PlyFile.cpp hold from earlier files *)
  Context (st : Ply.ty -> Ply.vec) (si : Z) (stt : Ply.tri).
  Notation matrix := (MapHeader.matrix (num := num)).
  (** a point cloud or mesh: id, label and flag, the origin of the sensor, and the data; a mesh has faces *)
  Record cloud := CloudItem { c_item : MapHeader.item; c_origin : matrix; c_data : Ply.item }.
  (** ENVIRONMENT_ITEM_DEF, Pointcloud.cpp:9 and TriMesh.cpp:8 *)
  Definition class_of (d : Ply.item) : string := match Ply.faces d with Some _ => "envire::TriMesh" | None => "envire::Pointcloud" end.
  (** Transform::Identity() *)
  Definition identity : matrix := fun i j => if decide (i = j) then one else zero.
  (** Pointcloud.cpp:16-18 and TriMesh.cpp:10-12; [mesh]: a TriMesh *)
  Definition new_cloud (mesh : bool) : cloud := CloudItem (MapHeader.Item "" "" false) identity (Ply.Item (Ply.Cloud [] None None []) (if mesh then Some [] else None)).
  (** Pointcloud.cpp:61-65, with the default precision *)
  Definition write_ply (d : Ply.item) : out unit content := r <~ Ply.write d true ;; Ok (PlyContent r.1 r.2).
  (** Pointcloud.cpp:67-71: whether the parser has read the file, and the data *)
  Definition read_ply (s : content) (d : Ply.item) : out unit (bool * Ply.item) :=
    match s with PlyContent h bs => d <~ Ply.read st si stt d h bs ;; Ok (true, d) | Other _ => Throw tt end.
  (** Pointcloud.cpp:35-39 with Layer.cpp:45-50: the description *)
  Definition describe (c : cloud) : ymap :=
    (MapHeader.item_node (class_of (c_data c)) (MapHeader.i_id (c_item c)) (MapHeader.i_label (c_item c)) ++
     [("immutable", MapHeader.YScalar (MapHeader.bool_text (MapHeader.i_immutable (c_item c)))); ("sensor_origin", MapHeader.write_matrix text 4 (c_origin c))])%list.
  Definition ply_name (d : Ply.item) (id : string) : string := map_file_name (class_of d) id +:+ ".ply".
  Definition txt_name (d : Ply.item) (id : string) : string := map_file_name (class_of d) id +:+ ".txt".
  (** Pointcloud.cpp:30-43 and TriMesh.cpp:14-19: both write the description and then the stream *)
  Definition save (c : cloud) : out unit (ymap * (string * content)) :=
    s <~ write_ply (c_data c) ;; Ok (describe c, (ply_name (c_data c) (MapHeader.i_id (c_item c)), s)).
  (** Pointcloud.cpp:45-52 *)
  Definition load_description (n : ymap) (c : cloud) : out unit cloud :=
    match MapHeader.load_item n (c_item c) with
    | None => Throw tt
    | Some it =>
      o <~ (if MapHeader.has_key n "sensor_origin" then MapHeader.read_matrix number 4 n "sensor_origin" (c_origin c) else Ok identity) ;;
      Ok (CloudItem it o (c_data c))
    end.
  (** Pointcloud.cpp:54-58 and TriMesh.cpp:25; a stream that does not exist is an exception (Serialization.cpp:289-292, 326-329 and 663-664). A mesh ignores the result of the parser. *)
  Definition load_data (streams : string -> option content) (c : cloud) : out unit cloud :=
    match streams (ply_name (c_data c) (MapHeader.i_id (c_item c))) with
    | None => Throw tt
    | Some s =>
      r <~ read_ply s (c_data c) ;;
      let c' := CloudItem (c_item c) (c_origin c) r.2 in
      match Ply.faces (c_data c), r.1 with
      | None, false =>
        match streams (txt_name (c_data c) (MapHeader.i_id (c_item c))) with
        | None => Throw tt
        | Some t => d <~ from_text t r.2 ;; Ok (CloudItem (c_item c) (c_origin c) d)
        end
      | _, _ => Ok c'
      end
    end.
  (** Pointcloud.cpp:45-59 and TriMesh.cpp:21-26 *)
  Definition load (n : ymap) (streams : string -> option content) (c : cloud) : out unit cloud := c <~ load_description n c ;; load_data streams c.

  (** ** Specification *)
  Definition same_entries (a b : matrix) : Prop := forall i j, i < 4 -> j < 4 -> a i j = b i j.
  Definition is_mesh (d : Ply.item) : bool := match Ply.faces d with Some _ => true | None => false end.

  (** ** Proof *)
  Lemma load_described c c0 : MapHeader.exact text number -> first_char (MapHeader.i_id (c_item c)) = Some slash ->
    exists o, load_description (describe c) c0 = Ok (CloudItem (c_item c) o (c_data c0)) /\ same_entries o (c_origin c).
  Proof using Type.
    intros Ht Hid. destruct c as [[id label im] o d]. cbn [c_item MapHeader.i_id c_origin c_data] in *. set (n := describe _). unfold load_description.
    assert (E1 : MapHeader.find n "id" = Some (MapHeader.YScalar id)) by reflexivity. assert (E2 : MapHeader.find n "label" = Some (MapHeader.YScalar label)) by reflexivity.
    assert (E3 : MapHeader.find n "immutable" = Some (MapHeader.YScalar (MapHeader.bool_text im))) by reflexivity.
    assert (E4 : MapHeader.find n "sensor_origin" = Some (MapHeader.write_matrix text 4 o)) by reflexivity.
    assert (EI : MapHeader.load_item n (c_item c0) = Some (MapHeader.Item id label im)).
    { unfold MapHeader.load_item, MapHeader.read, MapHeader.read_text. rewrite E1, E2, E3. cbn [from_option]. unfold Datatypes.id, old_id. rewrite Hid. cbn [mbind option_bind]. rewrite decide_True by done. by destruct im. }
    rewrite EI. unfold MapHeader.has_key. rewrite E4. destruct (MapHeader.C135_matrix text number 4 n "sensor_origin" o (c_origin c0) Ht ltac:(lia) E4) as (m&Em&Hm).
    rewrite Em. cbn [obind]. exists m. done.
  Qed.

  (** ** Theorems *)
  (** Saving a point cloud or mesh, and loading it into a new one of its class from the streams that were written: id, label, flag, origin of the sensor, vertices, normals and faces are the same, colours
      are rounded down to a multiple of 1/255. Other data of the vertices is lost (C117). *)
  Theorem C147_again c streams : MapHeader.exact text number -> first_char (MapHeader.i_id (c_item c)) = Some slash -> Ply.good_item (c_data c) ->
    exists n name s, save c = Ok (n, (name, s)) /\ (streams name = Some s -> exists c', load n streams (new_cloud (is_mesh (c_data c))) = Ok c' /\
      c_item c' = c_item c /\ same_entries (c_origin c') (c_origin c) /\
      Ply.vertices (Ply.body (c_data c')) = Ply.vertices (Ply.body (c_data c)) /\ Ply.normals (Ply.body (c_data c')) = Ply.normals (Ply.body (c_data c)) /\ Ply.faces (c_data c') = Ply.faces (c_data c) /\
      match Ply.colors (Ply.body (c_data c)), Ply.colors (Ply.body (c_data c')) with Some l, Some l' => Forall2 Ply.near_color l l' | None, None => True | _, _ => False end /\
      Ply.others (Ply.body (c_data c')) = [] /\
      (Ply.colors (Ply.body (c_data c)) = None -> Ply.others (Ply.body (c_data c)) = [] -> c_data c' = c_data c)).
  Proof using Type.
    intros Ht Hid Hg. destruct (Ply.C117_load (c_data c) true Hg) as (h&bs&Hw&HL). exists (describe c), (ply_name (c_data c) (MapHeader.i_id (c_item c))), (PlyContent h bs).
    split; [unfold save, write_ply; by rewrite Hw|]. intros Hs.
    destruct (load_described c (new_cloud (is_mesh (c_data c))) Ht Hid) as (o&EL&Ho). unfold load. rewrite EL. cbn [obind]. unfold load_data. cbn [c_item c_data c_origin new_cloud].
    assert (EF : Ply.Item (Ply.Cloud [] None None []) (if is_mesh (c_data c) then Some [] else None) = Ply.fresh (c_data c)) by (unfold is_mesh, Ply.fresh; by destruct (Ply.faces (c_data c))).
    rewrite EF. assert (EN : forall i, ply_name (Ply.fresh (c_data c)) i = ply_name (c_data c) i) by (intros i; unfold ply_name, class_of, Ply.fresh; cbn; by destruct (Ply.faces (c_data c))).
    rewrite EN, Hs. cbn [read_ply]. destruct (HL st si stt (Ply.fresh (c_data c))) as (d&cs&ER&Hv&Hn&Hc&Hcs&Hot&Hf). rewrite ER. cbn [obind fst snd].
    exists (CloudItem (c_item c) o d). split; [by destruct (Ply.faces (Ply.fresh (c_data c)))|]. cbn [c_item c_origin c_data].
    assert (Et : forall (l : list Ply.vec), Ply.through_vec true <$> l = l). { intros l. induction l as [|[[x y] z] l IH]; [done|]. cbn. by f_equal. }
    split; [done|]. split; [done|]. split; [by rewrite Hv, Et|]. split.
    { rewrite Hn. destruct (Ply.normals (Ply.body (c_data c))) as [l|]; [|done]. cbn. by rewrite Et. }
    split. { rewrite Hf. unfold Ply.fresh. cbn. by destruct (Ply.faces (c_data c)). }
    split. { rewrite Hc. unfold Ply.fresh. cbn. destruct (Ply.colors (Ply.body (c_data c))), cs; done. }
    split; [by rewrite Hot|]. intros Hcn Hon. destruct (Ply.C117_exact (c_data c) Hg Hcn Hon) as (h'&bs'&Hw'&HE). rewrite Hw in Hw'. injection Hw' as <- <-. rewrite HE in ER. by injection ER.
  Qed.
  (** A file without an origin of the sensor, as older versions wrote it, gives the identity, whatever the origin was before. Then the result is that of the data. *)
  Theorem C147_old n c it : MapHeader.find n "sensor_origin" = None -> MapHeader.load_item n (c_item c) = Some it -> forall streams c', load n streams c = Ok c' ->
    c_item c' = it /\ forall i j, c_origin c' i j = if decide (i = j) then one else zero.
  Proof using Type.
    intros Hn Hi streams c' H. unfold load, load_description in H. rewrite Hi in H. unfold MapHeader.has_key in H. rewrite Hn in H. cbn [obind] in H. unfold load_data in H. cbn [c_item c_origin c_data] in H.
    destruct (streams _) as [s|]; [|done]. destruct (read_ply s _) as [[b d]| | |] eqn:ER; try done. cbn [obind fst snd] in H.
    assert (Eb : b = true). { destruct s; [|done]. cbn in ER. destruct (Ply.read _ _ _ _ _ _); [|done..]. by injection ER as <- _. } subst b.
    destruct (Ply.faces (c_data c)); injection H as <-; done.
  Qed.
  (** A cloud whose normals or colours are not as many as its vertices is not saved. *)
  Theorem C147_counts c : (exists l, Ply.normals (Ply.body (c_data c)) = Some l /\ length l <> length (Ply.vertices (Ply.body (c_data c)))) \/
      ((forall l, Ply.normals (Ply.body (c_data c)) = Some l -> length l = length (Ply.vertices (Ply.body (c_data c)))) /\ exists l, Ply.colors (Ply.body (c_data c)) = Some l /\ length l <> length (Ply.vertices (Ply.body (c_data c)))) ->
    save c = Throw tt.
  Proof using Type. intros H. unfold save, write_ply. by rewrite (Ply.C117_counts (c_data c) true H). Qed.
  (** A stream that is missing, is cut short anywhere in its body, or is not a ply file at all, ends loading with an exception, or (if the description is already bad) another failure: it never gives a cloud. *)
  Theorem C147_damaged n streams c c' id : load n streams c = Ok c' -> MapHeader.i_id (c_item c') = id ->
    exists h bs, streams (map_file_name (if is_mesh (c_data c) then "envire::TriMesh" else "envire::Pointcloud") id +:+ ".ply") = Some (PlyContent h bs) /\
    forall d bs' x, Ply.good_item d -> bs' = (bs ++ x)%list -> x <> [] -> Ply.write d true <> Ok (h, bs').
  Proof using Type.
    intros H Hid. unfold load in H. destruct (load_description n c) as [c1| | |] eqn:E1; [|done..]. cbn [obind] in H.
    assert (Ed : c_data c1 = c_data c). { unfold load_description in E1. destruct (MapHeader.load_item _ _); [|done]. match type of E1 with obind ?m _ = _ => destruct m; [|done..] end. by injection E1 as <-. }
    unfold load_data in H. destruct (streams _) as [s|] eqn:Es; [|done].
    assert (EN : ply_name (c_data c1) (MapHeader.i_id (c_item c1)) = map_file_name (if is_mesh (c_data c) then "envire::TriMesh" else "envire::Pointcloud") (MapHeader.i_id (c_item c1)) +:+ ".ply").
    { unfold ply_name, class_of, is_mesh. rewrite Ed. by destruct (Ply.faces (c_data c)). }
    rewrite EN in Es. destruct s as [h bs|]; [|done]. cbn [read_ply] in H. destruct (Ply.read st si stt (c_data c1) h bs) as [d1| | |] eqn:ER; [|done..]. cbn [obind fst snd] in H.
    assert (Ec : c_item c' = c_item c1) by (destruct (Ply.faces (c_data c1)); injection H as <-; done). rewrite Ec in Hid. subst id.
    exists h, bs. split; [exact Es|]. intros d bs' x Hg Hb Hx Hw. rewrite (Ply.C117_truncated d true h bs' bs x Hg Hw Hb Hx) in ER. done.
  Qed.
End Files.
(** The old text format is not read (finding): a cloud without a ply stream is an exception although there is a text stream, and what [readText] does never matters. *)
Theorem C147_text_refuted {num} (number : string -> option num) zero one st si stt n streams c :
  (forall f g, load number zero one f st si stt n streams c = load number zero one g st si stt n streams c) /\
  (forall f it o, load_description number zero one n c = Ok (CloudItem it o (c_data c)) -> streams (ply_name (c_data c) (MapHeader.i_id it)) = None -> load number zero one f st si stt n streams c = Throw tt).
Proof.
  split.
  - intros f g. unfold load. destruct (load_description number zero one n c) as [c1| | |]; [|done..]. cbn [obind]. unfold load_data. destruct (streams _) as [s|]; [|done].
    destruct s as [h bs|]; [|done]. cbn [read_ply]. destruct (Ply.read _ _ _ _ _ _); [|done..]. cbn [obind fst snd]. by destruct (Ply.faces (c_data c1)).
  - intros f it o E Hs. unfold load. rewrite E. cbn [obind]. unfold load_data. cbn [c_item c_data]. by rewrite Hs.
Qed.
(** The hypotheses are met: a mesh of one triangle with normals, colours and variances, and a cloud of three points without any of them, which comes back as it was. *)
Definition ex_mesh : cloud (num := nat) := CloudItem (MapHeader.Item "/world/7" "scan" true) (fun i j => 4 * i + j) Ply.triangle.
Definition ex_cloud : cloud (num := nat) := CloudItem (MapHeader.Item "/world/8" "" false) (fun i j => i * j) (Ply.Item (Ply.Cloud [Ply.point 0 0 0; Ply.point 1 0 0; Ply.point 0 (-7) 2] None None []) None).
Example C147_nonvacuous : MapHeader.exact MapHeader.n_text MapHeader.n_of /\ Ply.good_item (c_data ex_mesh) /\ Ply.good_item (c_data ex_cloud) /\
  ply_name (c_data ex_mesh) "/world/7" = "envire::TriMesh_world_7.ply" /\
  (exists n s, save MapHeader.n_text ex_cloud = Ok (n, ("envire::Pointcloud_world_8.ply", s)) /\
     let streams := fun name => if decide (name = "envire::Pointcloud_world_8.ply") then Some s else None in
     exists c, load MapHeader.n_of 0 1 (fun _ _ => Bad UB) (fun _ => Ply.point 5 5 5) 7%Z (7, 7, 7)%Z n streams (new_cloud 0 1 false) = Ok c /\ c_data c = c_data ex_cloud /\ c_origin c 2 3 = 6) /\
  save MapHeader.n_text (CloudItem (num := nat) (MapHeader.Item "/1" "" false) (fun _ _ => 0) (Ply.Item (Ply.Cloud [Ply.point 0 0 0] (Some []) None []) None)) = Throw tt.
Proof.
  assert (Hg : Ply.good_item (c_data ex_cloud)) by (split; [|split]; intros l E; done).
  split; [exact MapHeader.n_exact|]. split; [exact Ply.triangle_good|]. split; [done|]. split; [done|]. split; [|done].
  destruct (Ply.C117_load (c_data ex_cloud) true Hg) as (h&bs&Hw&_).
  set (streams := fun name => if decide (name = "envire::Pointcloud_world_8.ply") then Some (PlyContent h bs) else None).
  destruct (C147_again MapHeader.n_text MapHeader.n_of 0 1 (fun _ _ => Bad UB) (fun _ => Ply.point 5 5 5) 7%Z (7, 7, 7)%Z ex_cloud streams MapHeader.n_exact eq_refl Hg) as (n&name&s&Es&HL).
  assert (E2 : save MapHeader.n_text ex_cloud = Ok (describe MapHeader.n_text ex_cloud, ("envire::Pointcloud_world_8.ply", PlyContent h bs))) by (unfold save, write_ply; by rewrite Hw).
  rewrite E2 in Es. injection Es as <- <- <-. destruct HL as (c&E&_&Ho&_&_&_&_&_&Hd); [done|]. eexists _, _. split; [exact E2|]. cbv zeta. fold streams. exists c. split; [exact E|]. split; [by apply Hd|]. by rewrite Ho by lia.
Qed.
