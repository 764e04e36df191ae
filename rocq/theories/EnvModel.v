(** Model of the environment core: src/core/Environment.{hpp,cpp}, EnvironmentItem.hpp,
    EventSource.cpp and the environment related parts of FrameNode.cpp, Layer.cpp, Operator.cpp.

    Simplifications that hold for the whole file:
    - the content of an item (transform, grid data, ...) is one opaque integer [it_val];
    - the C++ class of an item is one of the four kinds of [kind];
    - event handlers only record what they receive (they do not call back into the environment and
      keep no smart pointers), [EventFilter] is not modelled;
    - threads are not modelled. *)
From stdpp Require Import prelude strings gmap pretty.
From Verif Require Import Base.

Notation ptr := positive (only parsing).   (* address of an item *)
Notation eid := positive (only parsing).   (* address of an environment *)
Notation hid := positive (only parsing).   (* address of an event handler *)

(** Item classes. [KOp i o]: an Operator with input arity [i] and output arity [o]
    (Operator.hpp; 0 means unlimited). [KMap] is a CartesianMap, which is also a Layer. *)
Inductive kind := KFrame | KLayer | KMap | KOp (i o : nat).
Global Instance kind_eq_dec : EqDecision kind.
Proof. solve_decision. Defined.

Definition is_frame (k : kind) : bool := match k with KFrame => true | _ => false end.
Definition is_layer (k : kind) : bool := match k with KLayer | KMap => true | _ => false end.
Definition is_map (k : kind) : bool := match k with KMap => true | _ => false end.
Definition is_op (k : kind) : bool := match k with KOp _ _ => true | _ => false end.

(** EnvironmentItem.hpp:79-192 (fields [ref_count], [unique_id], [env]) plus the opaque content.
    [it_user] is a ghost: how many of the counted references are smart pointers of the user program. *)
Record item := Item {
  it_kind : kind;
  it_id : string;
  it_env : option eid;
  it_val : Z;
  it_user : nat;
  it_refs : nat;
}.

(** event::Type and event::Operation, EventTypes.hpp *)
Inductive etype := EItem | ETree | EFrame | ELayer | ERoot.
Inductive eop := EAdd | ERemove | EUpdate.
Global Instance etype_eq_dec : EqDecision etype.
Proof. solve_decision. Defined.
Global Instance eop_eq_dec : EqDecision eop.
Proof. solve_decision. Defined.

(** An event as a handler sees it (Event.hpp:18-54): type, operation, the unique ids of the one or
    two items ("" if there is no second one) and, for ITEM ADD/UPDATE, class and content of the item. *)
Record event := Ev {
  ev_type : etype;
  ev_op : eop;
  ev_a : string;
  ev_b : string;
  ev_item : option (kind * Z);
}.

(** Environment.hpp:34-59. [e_tree], [e_layers]: (child, parent); [e_in], [e_out]: (operator, layer);
    [e_maps]: (map, frame node). The pointer keyed tables are in address order, [e_items] in id order. *)
Record env := Env {
  e_items : list (string * ptr);
  e_tree : list (ptr * ptr);
  e_layers : list (ptr * ptr);
  e_in : list (ptr * ptr);
  e_out : list (ptr * ptr);
  e_maps : list (ptr * ptr);
  e_root : ptr;
  e_prefix : string;
  e_last : Z;
  e_handlers : list hid;
}.

(** One call of EventHandler::receive: environment, handler, event. *)
Record delivery := Dl { d_env : eid; d_handler : hid; d_event : event }.

(** What a member function of one environment works on: the heap of items, the environment, and the
    list of all deliveries so far. *)
Record st := St { hp : gmap positive item; en : env; tr : list delivery }.

Notation M := (out st st).

Definition plt (a b : positive) : bool := Pos.ltb a b.

(** field updates *)
Definition set_hp (s : st) (h : gmap positive item) : st := St h (en s) (tr s).
Definition set_en (s : st) (e : env) : st := St (hp s) e (tr s).
Definition put (p : ptr) (it : item) (s : st) : st := set_hp s (<[p := it]> (hp s)).

Definition with_items (e : env) x := Env x (e_tree e) (e_layers e) (e_in e) (e_out e) (e_maps e) (e_root e) (e_prefix e) (e_last e) (e_handlers e).
Definition with_tree (e : env) x := Env (e_items e) x (e_layers e) (e_in e) (e_out e) (e_maps e) (e_root e) (e_prefix e) (e_last e) (e_handlers e).
Definition with_layers (e : env) x := Env (e_items e) (e_tree e) x (e_in e) (e_out e) (e_maps e) (e_root e) (e_prefix e) (e_last e) (e_handlers e).
Definition with_in (e : env) x := Env (e_items e) (e_tree e) (e_layers e) x (e_out e) (e_maps e) (e_root e) (e_prefix e) (e_last e) (e_handlers e).
Definition with_out (e : env) x := Env (e_items e) (e_tree e) (e_layers e) (e_in e) x (e_maps e) (e_root e) (e_prefix e) (e_last e) (e_handlers e).
Definition with_maps (e : env) x := Env (e_items e) (e_tree e) (e_layers e) (e_in e) (e_out e) x (e_root e) (e_prefix e) (e_last e) (e_handlers e).
Definition with_prefix (e : env) x := Env (e_items e) (e_tree e) (e_layers e) (e_in e) (e_out e) (e_maps e) (e_root e) x (e_last e) (e_handlers e).
Definition with_last (e : env) x := Env (e_items e) (e_tree e) (e_layers e) (e_in e) (e_out e) (e_maps e) (e_root e) (e_prefix e) x (e_handlers e).
Definition with_handlers (e : env) x := Env (e_items e) (e_tree e) (e_layers e) (e_in e) (e_out e) (e_maps e) (e_root e) (e_prefix e) (e_last e) x.

Definition with_id (it : item) x := Item (it_kind it) x (it_env it) (it_val it) (it_user it) (it_refs it).
Definition with_env (it : item) x := Item (it_kind it) (it_id it) x (it_val it) (it_user it) (it_refs it).
Definition with_val (it : item) x := Item (it_kind it) (it_id it) (it_env it) x (it_user it) (it_refs it).
Definition with_refs (it : item) u r := Item (it_kind it) (it_id it) (it_env it) (it_val it) u r.

(** Access through an item pointer: undefined behaviour if the item was destroyed. *)
Definition deref {A} (p : ptr) (s : st) (k : item -> out st A) : out st A :=
  match hp s !! p with Some it => k it | None => Bad UB end.

(** ** References *)

(** A temporary smart pointer to an item goes away: intrusive_ptr_release, Environment.cpp:25, after
    an earlier intrusive_ptr_add_ref. The net effect is that an item nobody references is deleted
    (destructor assertion: Environment.cpp:48-51). *)
Definition drop_temp (p : ptr) (s : st) : M :=
  match hp s !! p with
  | None => Ok s
  | Some it =>
    if decide (it_refs it = 0) then
      match it_env it with
      | None => Ok (set_hp s (delete p (hp s)))
      | Some _ => Bad Abort
      end
    else Ok s
  end.

(** A counted reference goes away: intrusive_ptr_release, Environment.cpp:25. *)
Definition release (p : ptr) (s : st) : M :=
  deref p s (fun it => drop_temp p (put p (with_refs it (it_user it) (pred (it_refs it))) s)).

(** ** Events *)

(** Environment::handle (Environment.cpp:172-175) and EventSource::handle (EventSource.cpp:10-17), with
    the construction and destruction of the temporary Event and its two smart pointers
    (Event.cpp:55-58). [hs] are the handlers in registration order. *)
Definition emit_to (hs : list hid) (me : eid) (t : etype) (o : eop) (a : ptr) (b : option ptr) (s : st) : M :=
  deref a s (fun ia =>
    let payload := match t, o with
                   | EItem, EAdd | EItem, EUpdate => Some (it_kind ia, it_val ia)
                   | _, _ => None end in
    match b with
    | None =>
      let e := Ev t o (it_id ia) "" payload in
      drop_temp a (St (hp s) (en s) (tr s ++ map (fun h => Dl me h e) hs))
    | Some b' =>
      deref b' s (fun ib =>
        let e := Ev t o (it_id ia) (it_id ib) payload in
        s1 <~ drop_temp a (St (hp s) (en s) (tr s ++ map (fun h => Dl me h e) hs)) ;;
        drop_temp b' s1)
    end).

Definition emit (me : eid) (t : etype) (o : eop) (a : ptr) (b : option ptr) (s : st) : M :=
  emit_to (e_handlers (en s)) me t o a b s.

(** ** Queries (pure) *)
(** Environment.cpp:480-487 *)
Definition get_parent (e : env) (n : ptr) : option ptr := assoc n (e_tree e).
(** Environment.cpp:489-498 *)
Definition get_parents (e : env) (l : ptr) : list ptr := values_of l (e_layers e).
(** Environment.cpp:514-524 *)
Definition get_children (e : env) (n : ptr) : list ptr := keys_of n (e_tree e).
(** Environment.cpp:526-548 *)
Definition get_layer_children (e : env) (l : ptr) : list ptr := keys_of l (e_layers e).
(** Environment.cpp:590-596 *)
Definition get_frame (e : env) (m : ptr) : option ptr := assoc m (e_maps e).
(** Environment.cpp:598-607 *)
Definition get_maps (e : env) (n : ptr) : list ptr := keys_of n (e_maps e).
(** Environment.cpp:681-690 *)
Definition get_inputs (e : env) (o : ptr) : list ptr := values_of o (e_in e).
(** Environment.cpp:692-701 *)
Definition get_outputs (e : env) (o : ptr) : list ptr := values_of o (e_out e).
(** Environment.cpp:703-716 *)
Definition get_generated_from (e : env) (l : ptr) : list ptr :=
  flat_map (fun o => get_outputs e o) (keys_of l (e_in e)).
(** Environment.cpp:718-727 *)
Definition get_generator (e : env) (l : ptr) : option ptr := head (keys_of l (e_out e)).
(** Environment.hpp:96-103 *)
Definition get_item (e : env) (id : string) : option ptr := assoc id (e_items e).

(** ** Attaching *)

(** 32 bit signed conversion, [int numeric_id = ++last_id] (Environment.cpp:277); the conversion from
    long is implementation defined, wrapping on all common compilers. *)
Definition int_max : Z := 2147483647.
Definition wrap_int (z : Z) : Z := (z + 2147483648) `mod` 4294967296 - 2147483648.

(** Environment.cpp:269-273: empty id -> prefix; relative id -> prefix + id. *)
Definition full_id (prefix id : string) : string :=
  let id1 := if decide (id = "") then prefix else id in
  if decide (first_char id1 = Some slash) then id1 else prefix +:+ id1.

(** Environment.cpp:279-283: first free number. [int] overflow is undefined behaviour. *)
Fixpoint search_id (fuel : nat) (items : list (string * ptr)) (base : string) (n : Z) : out st Z :=
  match fuel with
  | O => NoFuel
  | S f =>
    match assoc (base +:+ pretty n) items with
    | None => Ok n
    | Some _ => if decide (n = int_max) then Bad UB else search_id f items base (n + 1)
    end
  end.

(** Environment.cpp:263-307 without lines 289-294 (see [attach_item] for these). [me] is [this]. *)
Definition attach_core (me : eid) (p : ptr) (s : st) : M :=
  deref p s (fun it =>
    s1 <~ match it_env it with
          | None =>
            let id1 := full_id (e_prefix (en s)) (it_id it) in
            if decide (last_char id1 = Some slash) then
              n <~ search_id (S (length (e_items (en s)))) (e_items (en s)) id1 (wrap_int (e_last (en s) + 1)) ;;
              Ok (put p (with_id it (id1 +:+ pretty n)) (set_en s (with_last (en s) n)))
            else Ok (put p (with_id it id1) s)
          | Some _ => Ok s
          end ;;
    deref p s1 (fun it1 =>
      match assoc (it_id it1) (e_items (en s1)) with
      | Some _ => Throw s1
      | None =>
        let s2 := set_en s1 (with_items (en s1) (ins str_ltb (it_id it1) p (e_items (en s1)))) in
        let s3 := put p (with_refs (with_env it1 (Some me)) (it_user it1) (S (it_refs it1))) s2 in
        emit me EItem EAdd p None s3
      end)).

(** [if( !x->isAttached() ) attachItem( x )] *)
Definition attach_if_free (me : eid) (p : ptr) (s : st) : M :=
  deref p s (fun it => match it_env it with None => attach_core me p s | Some _ => Ok s end).

(** ** Frame tree *)

(** Environment.cpp:450-458 *)
Definition remove_child_f (me : eid) (parent child : ptr) (s : st) : M :=
  if decide (get_parent (en s) child = Some parent) then
    s1 <~ emit me ETree ERemove parent (Some child) s ;;
    Ok (set_en s1 (with_tree (en s1) (del_key child (e_tree (en s1)))))
  else Ok s.

(** Environment.cpp:404-424 *)
Definition add_child_f (me : eid) (parent child : ptr) (s : st) : M :=
  if decide (parent = child) then Bad Abort else
  if decide (get_parent (en s) child = Some parent) then Ok s else
  s1 <~ attach_if_free me child s ;;
  s2 <~ match get_parent (en s1) child with
        | Some q => remove_child_f me q child s1
        | None => Ok s1 end ;;
  let s3 := set_en s2 (with_tree (en s2) (map_ins plt child parent (e_tree (en s2)))) in
  emit me ETree EAdd parent (Some child) s3.

(** ** Layer tree *)

(** Environment.cpp:460-478 *)
Definition remove_child_l (me : eid) (parent child : ptr) (s : st) : M :=
  s1 <~ emit me ELayer ERemove parent (Some child) s ;;
  Ok (set_en s1 (with_layers (en s1) (del_one child parent (e_layers (en s1))))).

(** Environment.cpp:426-448 *)
Definition add_child_l (me : eid) (parent child : ptr) (s : st) : M :=
  if decide (parent = child) then Bad Abort else
  if decide (assoc child (e_layers (en s)) = Some parent) then Ok s else
  s1 <~ attach_if_free me child s ;;
  let s2 := set_en s1 (with_layers (en s1) (ins plt child parent (e_layers (en s1)))) in
  emit me ELayer EAdd parent (Some child) s2.

(** ** Operator graph (no events) *)

(** Environment.cpp:609-625 *)
Definition add_input (me : eid) (o l : ptr) (s : st) : M :=
  if decide (assoc o (e_in (en s)) = Some l) then Ok s else
  s1 <~ attach_if_free me o s ;;
  s2 <~ attach_if_free me l s1 ;;
  Ok (set_en s2 (with_in (en s2) (ins plt o l (e_in (en s2))))).
(** Environment.cpp:627-643 *)
Definition add_output (me : eid) (o l : ptr) (s : st) : M :=
  if decide (assoc o (e_out (en s)) = Some l) then Ok s else
  s1 <~ attach_if_free me o s ;;
  s2 <~ attach_if_free me l s1 ;;
  Ok (set_en s2 (with_out (en s2) (ins plt o l (e_out (en s2))))).
(** Environment.cpp:645-648, 650-661, 663-666, 668-679 *)
Definition remove_inputs (o : ptr) (s : st) : M :=
  Ok (set_en s (with_in (en s) (del_key o (e_in (en s))))).
Definition remove_input (o l : ptr) (s : st) : M :=
  Ok (set_en s (with_in (en s) (del_all o l (e_in (en s))))).
Definition remove_outputs (o : ptr) (s : st) : M :=
  Ok (set_en s (with_out (en s) (del_key o (e_out (en s))))).
Definition remove_output (o l : ptr) (s : st) : M :=
  Ok (set_en s (with_out (en s) (del_all o l (e_out (en s))))).

(** ** Map placement *)

(** Environment.cpp:580-588 *)
Definition detach_frame (me : eid) (m n : ptr) (s : st) : M :=
  if decide (get_frame (en s) m = Some n) then
    s1 <~ emit me EFrame ERemove m (Some n) s ;;
    Ok (set_en s1 (with_maps (en s1) (del_key m (e_maps (en s1)))))
  else Ok s.

(** Environment.cpp:558-577, the part of setFrameNode after both arguments are attached *)
Definition place_map (me : eid) (m n : ptr) (s : st) : M :=
  match get_frame (en s) m with
  | Some n0 =>
    if decide (n0 = n) then Ok s else
    s1 <~ detach_frame me m n0 s ;;
    let s2 := set_en s1 (with_maps (en s1) (map_set plt m n (e_maps (en s1)))) in
    emit me EFrame EAdd m (Some n) s2
  | None =>
    let s2 := set_en s (with_maps (en s) (map_set plt m n (e_maps (en s)))) in
    emit me EFrame EAdd m (Some n) s2
  end.

(** setFrameNode (Environment.cpp:550-578) called with a map that is attached already *)
Definition set_frame_attached (me : eid) (m n : ptr) (s : st) : M :=
  s1 <~ attach_if_free me n s ;; place_map me m n s1.

(** Environment.cpp:254-260: second half of attachItem(CartesianMap*, FrameNode* ). *)
Definition default_frame (me : eid) (m : ptr) (n : option ptr) (s : st) : M :=
  match get_frame (en s) m with
  | Some _ => Ok s
  | None => set_frame_attached me m (match n with Some x => x | None => e_root (en s) end) s
  end.

(** Environment.cpp:550-578 *)
Definition set_frame (me : eid) (m n : ptr) (s : st) : M :=
  s1 <~ attach_if_free me n s ;;
  deref m s1 (fun it =>
    s2 <~ match it_env it with
          | None => s' <~ attach_core me m s1 ;; default_frame me m None s'
          | Some _ => Ok s1
          end ;;
    place_map me m n s2).

(** ** Detaching *)

(** Environment.cpp:357-388: the removal calls are collected from the tables first (findMapItem,
    Environment.cpp:309-317) and run afterwards. *)
Definition mentions (p : ptr) (kv : ptr * ptr) : Prop := kv.1 = p \/ kv.2 = p.
Global Instance mentions_dec p kv : Decision (mentions p kv).
Proof. unfold mentions. apply _. Defined.

Definition remove_links (me : eid) (p : ptr) (s : st) : M :=
  let e := en s in
  s1 <~ iter_out (fun cp => remove_child_f me cp.2 cp.1) (filter (mentions p) (e_tree e)) s ;;
  s2 <~ iter_out (fun cp => remove_child_l me cp.2 cp.1) (filter (mentions p) (e_layers e)) s1 ;;
  s3 <~ iter_out (fun ol => remove_input ol.1 ol.2) (filter (mentions p) (e_in e)) s2 ;;
  s4 <~ iter_out (fun ol => remove_output ol.1 ol.2) (filter (mentions p) (e_out e)) s3 ;;
  iter_out (fun mn => detach_frame me mn.1 mn.2) (filter (mentions p) (e_maps e)) s4.

(** Environment.cpp:321-322 and 348-396 (detachItem without the deep part). The result is the state and
    the returned smart pointer, which now owns the reference of the table. *)
Definition detach_one (me : eid) (p : ptr) (s : st) : out st (st * ptr) :=
  deref p s (fun it0 =>
    match assoc (it_id it0) (e_items (en s)) with
    | None => Bad Abort
    | Some _ =>
      s1 <~ remove_links me p s ;;
      s2 <~ emit me EItem ERemove p None s1 ;;
      deref p s2 (fun it =>
        match assoc (it_id it) (e_items (en s2)) with
        | None => Bad UB
        | Some q =>
          Ok (put p (with_env it None)
                  (set_en s2 (with_items (en s2) (del_key (it_id it) (e_items (en s2))))), q)
        end)
    end).

(** The caller ignores the returned smart pointer. *)
Definition detach_drop (me : eid) (p : ptr) (s : st) : M :=
  r <~ detach_one me p s ;; release r.2 r.1.

(** Environment.cpp:319-397. [fuel] bounds the recursion depth of a deep detach. *)
Fixpoint detach (fuel : nat) (me : eid) (deep : bool) (p : ptr) (s : st) : out st (st * ptr) :=
  match fuel with
  | O => NoFuel
  | S f =>
    deref p s (fun it =>
      match assoc (it_id it) (e_items (en s)) with
      | None => Bad Abort
      | Some _ =>
        s1 <~ (if deep && is_frame (it_kind it) then
                 let sub := fun c s0 => r <~ detach f me deep c s0 ;; release r.2 r.1 in
                 s1 <~ iter_out sub (get_children (en s) p) s ;;
                 iter_out sub (get_maps (en s1) p) s1
               else Ok s) ;;
        detach_one me p s1
      end)
  end.

(** Enough for every acyclic frame tree: a node, its chain of descendants, a map. *)
Definition detach_fuel (s : st) : nat := S (S (length (e_tree (en s)))).

(** ** Handlers *)

(** Environment.cpp:160-169 *)
Fixpoint publish_childs (fuel : nat) (me : eid) (h : hid) (parent : ptr) (s : st) : M :=
  match fuel with
  | O => NoFuel
  | S f =>
    iter_out (fun c s0 =>
      s1 <~ emit_to [h] me ETree EAdd parent (Some c) s0 ;;
      publish_childs f me h c s1) (get_children (en s) parent) s
  end.

(** Environment.cpp:177-199 *)
Definition add_handler (me : eid) (h : hid) (s : st) : M :=
  s1 <~ iter_out (fun ip => emit_to [h] me EItem EAdd ip.2 None) (e_items (en s)) s ;;
  s2 <~ emit_to [h] me ERoot EAdd (e_root (en s1)) None s1 ;;
  s3 <~ publish_childs (S (S (length (e_tree (en s2))))) me h (e_root (en s2)) s2 ;;
  s4 <~ iter_out (fun mn => emit_to [h] me EFrame EAdd mn.1 (Some mn.2)) (e_maps (en s3)) s3 ;;
  Ok (set_en s4 (with_handlers (en s4) (e_handlers (en s4) ++ [h]))).

(** Environment.cpp:201-223 (the emptiness test at 209 only avoids a recursive call that would do
    nothing, so it is left out) *)
Fixpoint detach_childs (fuel : nat) (me : eid) (h : hid) (parent : ptr) (s : st) : M :=
  match fuel with
  | O => NoFuel
  | S f =>
    iter_out (fun c s0 =>
      s1 <~ detach_childs f me h c s0 ;;
      s2 <~ iter_out (fun m => emit_to [h] me EFrame ERemove m (Some c)) (get_maps (en s1) c) s1 ;;
      emit_to [h] me ETree ERemove parent (Some c) s2) (get_children (en s) parent) s
  end.

(** Environment.cpp:225-240 *)
Definition remove_handler (me : eid) (h : hid) (s : st) : M :=
  s1 <~ detach_childs (S (S (length (e_tree (en s))))) me h (e_root (en s)) s ;;
  s2 <~ emit_to [h] me ERoot ERemove (e_root (en s1)) None s1 ;;
  s3 <~ iter_out (fun ip => emit_to [h] me EItem ERemove ip.2 None) (e_items (en s2)) s2 ;;
  Ok (set_en s3 (with_handlers (en s3) (filter (fun x => x <> h) (e_handlers (en s3))))).

(** Environment.cpp:242-249. Reading the first character of an empty string is undefined. *)
Definition norm_prefix (p : string) : option string :=
  match first_char p with
  | None => None
  | Some c =>
    let p1 := if decide (c = slash) then p else "/" +:+ p in
    Some (if decide (last_char p1 = Some slash) then p1 else p1 +:+ "/")
  end.

(** ** Worlds: any number of items and environments *)
Record world := World { w_heap : gmap positive item; w_envs : gmap positive env; w_tr : list delivery }.

Notation W := (out world world).

Definition focus (e : eid) (w : world) : option st :=
  match w_envs w !! e with Some x => Some (St (w_heap w) x (w_tr w)) | None => None end.
Definition unfocus (e : eid) (w : world) (s : st) : world :=
  World (hp s) (<[e := en s]> (w_envs w)) (tr s).

(** call a member function of environment [e] (undefined if there is no such environment) *)
Definition on_env (e : eid) (f : st -> M) (w : world) : W :=
  match focus e w with
  | None => Bad UB
  | Some s =>
    match f s with
    | Ok s' => Ok (unfocus e w s')
    | Throw s' => Throw (unfocus e w s')
    | Bad b => Bad b
    | NoFuel => NoFuel
    end
  end.

Definition wderef (p : ptr) (w : world) (k : item -> W) : W :=
  match w_heap w !! p with Some it => k it | None => Bad UB end.

(** static C++ types of the arguments *)
Definition typed (f : kind -> bool) (p : ptr) (w : world) (k : W) : W :=
  wderef p w (fun it => if f (it_kind it) then k else Bad IllTyped).

(** Environment.cpp:263-307 including the move from another environment (289-294), where the smart
    pointer returned by detach() is dropped. *)
Definition attach_item (me : eid) (p : ptr) (w : world) : W :=
  wderef p w (fun it =>
    match it_env it with
    | Some e2 =>
      if decide (e2 = me) then on_env me (attach_core me p) w
      else w1 <~ on_env e2 (detach_drop e2 p) w ;; on_env me (attach_core me p) w1
    | None => on_env me (attach_core me p) w
    end).

(** Environment.cpp:251-261 *)
Definition attach_map (me : eid) (m : ptr) (n : option ptr) (w : world) : W :=
  w1 <~ attach_item me m w ;; on_env me (default_frame me m n) w1.

(** Environment.cpp:139-147; [r] is the address of the new root node *)
Definition new_env (e : eid) (r : ptr) (w : world) : W :=
  match w_envs w !! e, w_heap w !! r with
  | None, None =>
    let x := Env [] [] [] [] [] [] r "/" 1 [] in
    on_env e (attach_core e r)
      (World (<[r := Item KFrame "/0" None 0 0 0]> (w_heap w)) (<[e := x]> (w_envs w)) (w_tr w))
  | _, _ => Bad IllTyped
  end.

(** Environment.cpp:149-158; each round detaches the first item of the table. *)
Fixpoint detach_all (fuel : nat) (me : eid) (s : st) : M :=
  match e_items (en s) with
  | [] => Ok s
  | (_, p) :: _ =>
    match fuel with
    | O => NoFuel
    | S f => s1 <~ detach_drop me p s ;; detach_all f me s1
    end
  end.
Definition del_env (e : eid) (w : world) : W :=
  w1 <~ on_env e (fun s => detach_all (length (e_items (en s))) e s) w ;;
  Ok (World (w_heap w1) (delete e (w_envs w1)) (w_tr w1)).

(** ** User programs *)
Inductive op :=
| ONew (p : ptr) (k : kind) (id : string) (v : Z)    (* new X(id) *)
| OHold (p : ptr)                                     (* X::Ptr x = p *)
| ORelease (p : ptr)                                  (* a smart pointer of the user goes away *)
| OSetId (p : ptr) (id : string)                      (* setUniqueId *)
| OSetVal (p : ptr) (v : Z)                           (* setTransform: change and itemModified *)
| ONewEnv (e : eid) (r : ptr)
| ODelEnv (e : eid)
| OAttach (e : eid) (p : ptr)
| OAttachMap (e : eid) (m : ptr) (n : option ptr)
| ODetach (e : eid) (p : ptr) (deep keep : bool)      (* keep: the returned Ptr is stored *)
| OAddChildF (e : eid) (parent child : ptr)
| OAddChildL (e : eid) (parent child : ptr)
| ORemChildF (e : eid) (parent child : ptr)
| ORemChildL (e : eid) (parent child : ptr)
| OSetFrame (e : eid) (m n : ptr)
| ODetFrame (e : eid) (m n : ptr)
| OAddInput (e : eid) (o l : ptr)
| OAddOutput (e : eid) (o l : ptr)
| ORemInput (e : eid) (o l : ptr)
| ORemOutput (e : eid) (o l : ptr)
| ORemInputs (e : eid) (o : ptr)
| ORemOutputs (e : eid) (o : ptr)
| OSetPrefix (e : eid) (s : string)
| OAddHandler (e : eid) (h : hid)
| ORemHandler (e : eid) (h : hid)
| OModified (e : eid) (p : ptr)                       (* itemModified *)
| OOpAddInput (o l : ptr)                             (* Operator::addInput ... *)
| OOpAddOutput (o l : ptr)
| OOpSetInput (o l : ptr)
| OOpSetOutput (o l : ptr)
| ODetachFromOp (l : ptr).                            (* Layer::detachFromOperator *)

Definition arity_in (k : kind) : nat := match k with KOp i _ => i | _ => 0 end.
Definition arity_out (k : kind) : nat := match k with KOp _ o => o | _ => 0 end.

(** Operator.cpp:26-32; an item without environment is a NULL dereference *)
Definition op_add_input (o l : ptr) (w : world) : W :=
  wderef o w (fun it =>
    match it_env it with
    | None => Bad UB
    | Some e =>
      on_env e (fun s =>
        if decide (arity_in (it_kind it) <> 0 /\ arity_in (it_kind it) <= length (get_inputs (en s) o))
        then Throw s else add_input e o l s) w
    end).
(** Operator.cpp:40-46 *)
Definition op_add_output (o l : ptr) (w : world) : W :=
  wderef o w (fun it =>
    match it_env it with
    | None => Bad UB
    | Some e =>
      on_env e (fun s =>
        if decide (arity_out (it_kind it) <> 0 /\ arity_out (it_kind it) <= length (get_outputs (en s) o))
        then Throw s else add_output e o l s) w
    end).
(** Operator.cpp:20-24 *)
Definition op_set_input (o l : ptr) (w : world) : W :=
  wderef o w (fun it =>
    match it_env it with
    | None => Bad UB
    | Some e => w1 <~ on_env e (remove_inputs o) w ;; op_add_input o l w1
    end).
(** Operator.cpp:34-38 *)
Definition op_set_output (o l : ptr) (w : world) : W :=
  wderef o w (fun it =>
    match it_env it with
    | None => Bad UB
    | Some e => w1 <~ on_env e (remove_outputs o) w ;; op_add_output o l w1
    end).
(** Layer.cpp:101-118 (the assert at 116) *)
Definition detach_from_op (l : ptr) (w : world) : W :=
  wderef l w (fun it =>
    match it_env it with
    | None => Bad Abort
    | Some e =>
      on_env e (fun s =>
        match get_generator (en s) l with
        | Some g => remove_input g l s
        | None => Ok s
        end) w
    end).

Definition new_item (p : ptr) (k : kind) (id : string) (v : Z) (w : world) : W :=
  match w_heap w !! p with
  | Some _ => Bad IllTyped
  | None => Ok (World (<[p := Item k id None v 0 0]> (w_heap w)) (w_envs w) (w_tr w))
  end.

Definition wput (p : ptr) (it : item) (w : world) : world :=
  World (<[p := it]> (w_heap w)) (w_envs w) (w_tr w).

(** a smart pointer of the user is destroyed (Environment.cpp:25) *)
Definition user_release (p : ptr) (w : world) : W :=
  wderef p w (fun it =>
    match it_user it with
    | O => Bad IllTyped
    | S u =>
      let it' := with_refs it u (pred (it_refs it)) in
      if decide (it_refs it' = 0) then
        match it_env it with
        | None => Ok (World (delete p (w_heap w)) (w_envs w) (w_tr w))
        | Some _ => Bad Abort
        end
      else Ok (wput p it' w)
    end).

(** Detach by the user: the returned smart pointer is kept or dropped. *)
Definition user_detach (e : eid) (p : ptr) (deep keep : bool) (w : world) : W :=
  on_env e (fun s =>
    r <~ detach (detach_fuel s) e deep p s ;;
    if keep then deref r.2 r.1 (fun it => Ok (put r.2 (with_refs it (S (it_user it)) (it_refs it)) r.1))
    else release r.2 r.1) w.

Definition step (w : world) (o : op) : W :=
  match o with
  | ONew p k id v => new_item p k id v w
  | OHold p => wderef p w (fun it => Ok (wput p (with_refs it (S (it_user it)) (S (it_refs it))) w))
  | ORelease p => user_release p w
  | OSetId p id =>     (* Environment.cpp:58-64 *)
    wderef p w (fun it => match it_env it with
                          | Some _ => Throw w
                          | None => Ok (wput p (with_id it id) w) end)
  | OSetVal p v =>     (* FrameNode.cpp:95-102 *)
    wderef p w (fun it =>
      let w1 := wput p (with_val it v) w in
      match it_env it with
      | None => Ok w1
      | Some e => on_env e (emit e EItem EUpdate p None) w1
      end)
  | ONewEnv e r => new_env e r w
  | ODelEnv e => del_env e w
  | OAttach e p => attach_item e p w
  | OAttachMap e m n =>
    typed is_map m w (match n with
                      | Some x => typed is_frame x w (attach_map e m n w)
                      | None => attach_map e m n w end)
  | ODetach e p deep keep => user_detach e p deep keep w
  | OAddChildF e a b => typed is_frame a w (typed is_frame b w (on_env e (add_child_f e a b) w))
  | OAddChildL e a b => typed is_layer a w (typed is_layer b w (on_env e (add_child_l e a b) w))
  | ORemChildF e a b => typed is_frame a w (typed is_frame b w (on_env e (remove_child_f e a b) w))
  | ORemChildL e a b => typed is_layer a w (typed is_layer b w (on_env e (remove_child_l e a b) w))
  | OSetFrame e m n => typed is_map m w (typed is_frame n w (on_env e (set_frame e m n) w))
  | ODetFrame e m n => typed is_map m w (typed is_frame n w (on_env e (detach_frame e m n) w))
  | OAddInput e o l => typed is_op o w (typed is_layer l w (on_env e (add_input e o l) w))
  | OAddOutput e o l => typed is_op o w (typed is_layer l w (on_env e (add_output e o l) w))
  | ORemInput e o l => typed is_op o w (typed is_layer l w (on_env e (remove_input o l) w))
  | ORemOutput e o l => typed is_op o w (typed is_layer l w (on_env e (remove_output o l) w))
  | ORemInputs e o => typed is_op o w (on_env e (remove_inputs o) w)
  | ORemOutputs e o => typed is_op o w (on_env e (remove_outputs o) w)
  | OSetPrefix e p =>
    match norm_prefix p with
    | None => Bad UB
    | Some p' => on_env e (fun s => Ok (set_en s (with_prefix (en s) p'))) w
    end
  | OAddHandler e h => on_env e (add_handler e h) w
  | ORemHandler e h => on_env e (remove_handler e h) w
  | OModified e p => wderef p w (fun _ => on_env e (emit e EItem EUpdate p None) w)
  | OOpAddInput o l => typed is_op o w (typed is_layer l w (op_add_input o l w))
  | OOpAddOutput o l => typed is_op o w (typed is_layer l w (op_add_output o l w))
  | OOpSetInput o l => typed is_op o w (typed is_layer l w (op_set_input o l w))
  | OOpSetOutput o l => typed is_op o w (typed is_layer l w (op_set_output o l w))
  | ODetachFromOp l => typed is_layer l w (detach_from_op l w)
  end.

Definition world0 : world := World ∅ ∅ [].

(** A program is a list of operations; exceptions are caught between operations. *)
Fixpoint run (w : world) (os : list op) : W :=
  match os with
  | [] => Ok w
  | o :: r =>
    match step w o with
    | Ok w' => run w' r
    | Throw w' => run w' r
    | Bad b => Bad b
    | NoFuel => NoFuel
    end
  end.
