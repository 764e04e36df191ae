(** Model of saving and loading an environment: FileSerialization in src/core/Serialization.cpp:347-648,
    EnvironmentItem::serialize/unserialize in Environment.cpp:108-123.

    Simplifications:
    - the YAML library is not modelled: a document is the tree of scalars that is handed to it, and reading gives the
      same tree back (scalars with NUL characters are excluded by this);
    - the files of the scene directory are a finite map from names to contents; two streams to the same file leave the
      content of the later one;
    - the [serialize] functions of the item classes and their factories are parameters ([codec]);
    - the document has the list of objects first and the list of links second, as [writeToFile] produces it. *)
From Coq Require Import ZArith String.
From stdpp Require Import prelude strings gmap pretty.
From Verif Require Import Base EnvModel Ids.

(** A YAML mapping whose values are scalars. *)
Notation node := (list (string * string)) (only parsing).
Record doc := Doc { d_objs : list node; d_links : list node }.
Notation files := (gmap string string) (only parsing).

(** YAMLSerializationImpl::findNodeInMap and getScalar, Serialization.cpp:117-157: the last entry with the key counts;
    [None] is the exception "not a scalar node". *)
Definition scalar (n : node) (key : string) : option string := assoc key (reverse n).

(** What the classes do, by kind and content of an item:
    [c_class]: getClassName(); [c_fields]: the scalars that [serialize] writes besides id; [c_streams]: the binary streams it
    writes, as extension of getMapFileName() and data; [c_reg]: the registered factories. A factory sees the scalars of
    the object, its id and the files, and returns the item, or nothing if it throws. *)
Definition factory : Type := (string -> option string) -> string -> (string -> option string) -> option (kind * Z).
Record codec := Codec {
  c_class : kind -> Z -> string;
  c_fields : kind -> Z -> node;
  c_streams : kind -> Z -> list (string * string);
  c_reg : list (string * factory);
}.

Section Persist.
  Context (c : codec).

  (** ** Saving *)

  (** Serialization.cpp:379-388 and EnvironmentItem::serialize, Environment.cpp:108-112 *)
  Definition obj_node (it : item) : node :=
    ("class", c_class c (it_kind it) (it_val it)) :: ("id", it_id it) :: c_fields c (it_kind it) (it_val it).
  (** names and contents of the files an item writes, e.g. MLSGrid.cpp:151, TriMesh.cpp:18, LaserScan.cpp:24 *)
  Definition obj_files (it : item) : list (string * string) :=
    (fun xd => (map_file_name (c_class c (it_kind it) (it_val it)) (it_id it) +:+ xd.1, xd.2)) <$> c_streams c (it_kind it) (it_val it).
  Definition write_files (l : list (string * string)) (fs : files) : files :=
    foldl (fun f nd => <[nd.1 := nd.2]> f) fs l.

  (** a link, Serialization.cpp:391-446 *)
  Definition link_node (ty ka kb : string) (h : gmap positive item) (ab : ptr * ptr) : option node :=
    a ← h !! ab.1; b ← h !! ab.2; Some [("type", ty); (ka, it_id a); (kb, it_id b)].

  (** FileSerialization::writeToFile, Serialization.cpp:347-479. [None]: a dangling pointer was followed. *)
  Definition save (h : gmap positive item) (x : env) (fs : files) : option (doc * files) :=
    its ← mapM (fun ip : string * ptr => h !! ip.2) (e_items x);
    l1 ← mapM (link_node "frameNodeTree" "child" "parent" h) (e_tree x);
    l2 ← mapM (link_node "layerTree" "child" "parent" h) (e_layers x);
    l3 ← mapM (link_node "operatorGraphInput" "operator" "layer" h) (e_in x);
    l4 ← mapM (link_node "operatorGraphOutput" "operator" "layer" h) (e_out x);
    l5 ← mapM (link_node "cartesianMapGraph" "map" "node" h) (e_maps x);
    Some (Doc (obj_node <$> its) (l1 ++ l2 ++ l3 ++ l4 ++ l5), write_files (its ≫= obj_files) fs).

  (** ** Loading *)

  (** Environment.cpp:117-119 and Serialization.cpp:484-487: old files have ids without slash. Reading the first character of an
      empty string is undefined ([None]). *)
  Definition old_id (id : string) : option string :=
    match first_char id with
    | None => None
    | Some ch => Some (if decide (ch = slash) then id else "/" +:+ id)
    end.

  (** One object: Serialization.cpp:538-575, SerializationFactory::createObject, EnvironmentItem::unserialize
      (Environment.cpp:114-123). [p] is the address of the new item; [last] is [lastID].
      If the scalar "id" is missing, the item has an empty id. *)
  Definition load_obj (me : eid) (fs : files) (p : ptr) (n : node) (s : st) (last : Z) : out st (st * Z) :=
    match scalar n "class" with
    | None => Throw s
    | Some cls =>
      match find_class (c_reg c) cls with
      | None => Throw s
      | Some f =>
        match old_id (default "" (scalar n "id")) with
        | None => Bad UB
        | Some id =>
          match f (scalar n) id (fun name => fs !! name) with
          | None => Throw s
          | Some (k, v) =>
            match hp s !! p with
            | Some _ => Bad IllTyped
            | None =>
              s1 <~ attach_core me p (put p (Item k id None v 0 0) s) ;;
              deref p s1 (fun it =>
                s2 <~ (if decide (it_id it = "0" \/ it_id it = "/0") then
                         if is_frame (it_kind it) then
                           Ok (set_en s1 (Env (e_items (en s1)) (e_tree (en s1)) (e_layers (en s1)) (e_in (en s1)) (e_out (en s1))
                                              (e_maps (en s1)) p (e_prefix (en s1)) (e_last (en s1)) (e_handlers (en s1))))
                         else Bad Abort
                       else Ok s1) ;;
                Ok (s2, match id_number (it_id it) with
                        | Some i => if decide (last < i)%Z then i else last
                        | None => last end))
            end
          end
        end
      end
    end.
  Fixpoint load_objs (me : eid) (fs : files) (l : list (ptr * node)) (s : st) (last : Z) : out st (st * Z) :=
    match l with
    | [] => Ok (s, last)
    | (p, n) :: r => sl <~ load_obj me fs p n s last ;; load_objs me fs r sl.1 sl.2
    end.

  (** getMap, Serialization.cpp:481-492, with Environment::getItem<T>(id), Environment.hpp:132-141 *)
  Definition find_item (f : kind -> bool) (n : node) (key : string) (s : st) : out st ptr :=
    match scalar n key with
    | None => Throw s
    | Some id0 =>
      match old_id id0 with
      | None => Bad UB
      | Some id =>
        match get_item (en s) id with
        | None => Throw s
        | Some p => deref p s (fun it => if f (it_kind it) then Ok p else Throw s)
        end
      end
    end.
  (** One link: Serialization.cpp:577-616. [std::map::insert] keeps an existing entry, [std::multimap::insert] adds one. *)
  Definition load_link (n : node) (s : st) : out st st :=
    match scalar n "type" with
    | None => Throw s
    | Some ty =>
      if decide (ty = "frameNodeTree") then
        a <~ find_item is_frame n "child" s ;; b <~ find_item is_frame n "parent" s ;;
        Ok (set_en s (with_tree (en s) (map_ins plt a b (e_tree (en s)))))
      else if decide (ty = "layerTree") then
        a <~ find_item is_layer n "child" s ;; b <~ find_item is_layer n "parent" s ;;
        Ok (set_en s (with_layers (en s) (ins plt a b (e_layers (en s)))))
      else if decide (ty = "operatorGraphInput") then
        a <~ find_item is_op n "operator" s ;; b <~ find_item is_layer n "layer" s ;;
        Ok (set_en s (with_in (en s) (ins plt a b (e_in (en s)))))
      else if decide (ty = "operatorGraphOutput") then
        a <~ find_item is_op n "operator" s ;; b <~ find_item is_layer n "layer" s ;;
        Ok (set_en s (with_out (en s) (ins plt a b (e_out (en s)))))
      else if decide (ty = "cartesianMapGraph") then
        a <~ find_item is_map n "map" s ;; b <~ find_item is_frame n "node" s ;;
        Ok (set_en s (with_maps (en s) (map_ins plt a b (e_maps (en s)))))
      else Ok s
    end.

  (** Serialization.cpp:517-627 after the new environment was created: its root node is detached and destroyed, and the
      content of the document is added. [lastID] is a 64 bit number. *)
  Definition load_st (me : eid) (ps : list ptr) (d : doc) (fs : files) (s : st) : M :=
    s1 <~ detach_drop me (e_root (en s)) s ;;
    sl <~ load_objs me fs (zip ps (d_objs d)) s1 0 ;;
    s2 <~ iter_out load_link (d_links d) sl.1 ;;
    if decide (sl.2 = long_max) then Bad UB
    else Ok (set_en s2 (with_last (en s2) (sl.2 + 1))).

  (** FileSerialization::readFromFile, Serialization.cpp:494-648. [me], [r], [ps]: addresses of the new environment, of its first
      root node and of the loaded items. *)
  Definition load (me : eid) (r : ptr) (ps : list ptr) (d : doc) (fs : files) (w : world) : W :=
    w1 <~ new_env me r w ;; on_env me (load_st me ps d fs) w1.
End Persist.
