(** Specification vocabulary for the environment core, independent of how the operations work:
    well-formed worlds, the API contract, and the mirror a passive listener builds from events. *)
From stdpp Require Import prelude strings gmap.
From Verif Require Import Base EnvModel.

(** ** Who is attached where *)
(** item [p] is attached to environment [e] and its class satisfies [f] *)
Definition has (f : kind -> bool) (e : eid) (h : gmap positive item) (p : ptr) : Prop :=
  exists it, h !! p = Some it /\ it_env it = Some e /\ f (it_kind it) = true.
Definition any (k : kind) : bool := true.
Definition in_env (w : world) (e : eid) (p : ptr) : Prop :=
  exists it, w_heap w !! p = Some it /\ it_env it = Some e.
Definition unattached (w : world) (p : ptr) : Prop :=
  exists it, w_heap w !! p = Some it /\ it_env it = None.
Definition is_root (w : world) (p : ptr) : Prop :=
  exists e x, w_envs w !! e = Some x /\ e_root x = p.

(** ** The frame tree *)
Definition parent_of (x : env) (c p : ptr) : Prop := (c, p) ∈ e_tree x.
(** nobody is their own ancestor *)
Definition Acyclic (x : env) : Prop := forall a, ~ tc (parent_of x) a a.
(** [q] belongs to the subtree of frame [p]: a frame below [p] (or [p]), or a map placed on such a frame *)
Definition below (x : env) (p q : ptr) : Prop :=
  rtc (parent_of x) q p \/ exists n, (q, n) ∈ e_maps x /\ rtc (parent_of x) n p.

(** ** The API contract

    What a caller has to respect: arguments of link functions belong to the environment (where the code
    attaches an argument itself, it may also be unattached), only items of the environment are
    detached or reported as modified, the root node is neither detached, moved nor given a parent, and a
    frame does not become a child of itself or of one of its descendants ("the frames are sorted in a
    tree", Environment.hpp:330-334; the code does not check this, see [frame_cycle_refuted]).
    Every operation not listed may be called with anything. *)
Definition legal (w : world) (o : op) : Prop :=
  match o with
  | OAttach e p => in_env w e p \/ ~ is_root w p
  | OAttachMap e m (Some n) => in_env w e n \/ unattached w n
  | ODetach e p _ _ => in_env w e p /\ ~ is_root w p
  | OAddChildF e a b => in_env w e a /\ (in_env w e b \/ unattached w b) /\ ~ is_root w b /\
                        (forall x, w_envs w !! e = Some x -> ~ rtc (parent_of x) a b)
  | OAddChildL e a b => in_env w e a /\ (in_env w e b \/ unattached w b)
  | ORemChildL e a b => in_env w e a /\ in_env w e b
  | OSetFrame e m n => (in_env w e m \/ unattached w m) /\ (in_env w e n \/ unattached w n)
  | OAddInput e o l | OAddOutput e o l =>
    (in_env w e o \/ unattached w o) /\ (in_env w e l \/ unattached w l)
  | OModified e p => in_env w e p
  | OOpAddInput o l | OOpAddOutput o l | OOpSetInput o l | OOpSetOutput o l =>
    exists e, in_env w e o /\ (in_env w e l \/ unattached w l)
  | _ => True
  end.

(** Worlds reachable by programs that respect the contract; exceptions are caught. *)
Definition steps_to (w : world) (o : op) (w' : world) : Prop :=
  step w o = Ok w' \/ step w o = Throw w'.

Inductive history : world -> list op -> world -> Prop :=
| history_nil w : history w [] w
| history_cons w o w1 os w' :
    legal w o -> steps_to w o w1 -> history w1 os w' -> history w (o :: os) w'.

Definition reachable (w : world) : Prop := exists os, history world0 os w.

(** ** The mirror of a listener

    What a passive listener knows after a sequence of events: class and content of the items, parent of
    each frame, frame of each map, multiset of layer links (child, parent); everything by unique id. *)
Record mirror := Mir {
  m_items : gmap string (kind * Z);
  m_tree : gmap string string;
  m_maps : gmap string string;
  m_layers : list (string * string);
}.
Definition mirror0 : mirror := Mir ∅ ∅ ∅ [].

Definition known (f : kind -> bool) (m : mirror) (id : string) : Prop :=
  match m_items m !! id with Some v => f v.1 = true | None => False end.
Global Instance known_dec f m id : Decision (known f m id).
Proof. unfold known. destruct (m_items m !! id); apply _. Defined.

Definition unlinked (m : mirror) (id : string) : Prop :=
  m_tree m !! id = None /\ map_Forall (fun _ p => p <> id) (m_tree m) /\
  m_maps m !! id = None /\ map_Forall (fun _ p => p <> id) (m_maps m) /\
  Forall (fun cp => cp.1 <> id /\ cp.2 <> id) (m_layers m).
Global Instance unlinked_dec m id : Decision (unlinked m id).
Proof. unfold unlinked. apply _. Defined.

(** One event. [None]: the event does not fit to what was announced before (an item announced twice, a link
    between unknown items or items of the wrong class, a second parent, the removal of a frame link or of a
    placement that does not exist, the removal of an item that still has links, ...). *)
Definition second_id (e : event) : bool := match ev_b e with EmptyString => false | _ => true end.
Definition mstep (m : mirror) (e : event) : option mirror :=
  match ev_type e, ev_op e, ev_item e, second_id e with
  | EItem, EAdd, Some v, false =>
    if decide (m_items m !! ev_a e = None)
    then Some (Mir (<[ev_a e := v]> (m_items m)) (m_tree m) (m_maps m) (m_layers m)) else None
  | EItem, EUpdate, Some v, false =>
    if decide (known (fun k => bool_decide (k = v.1)) m (ev_a e))
    then Some (Mir (<[ev_a e := v]> (m_items m)) (m_tree m) (m_maps m) (m_layers m)) else None
  | EItem, ERemove, None, false =>
    if decide (known any m (ev_a e) /\ unlinked m (ev_a e))
    then Some (Mir (delete (ev_a e) (m_items m)) (m_tree m) (m_maps m) (m_layers m)) else None
  | ETree, EAdd, None, _ => (* a: parent, b: child *)
    if decide (known is_frame m (ev_a e) /\ known is_frame m (ev_b e) /\ m_tree m !! ev_b e = None)
    then Some (Mir (m_items m) (<[ev_b e := ev_a e]> (m_tree m)) (m_maps m) (m_layers m)) else None
  | ETree, ERemove, None, _ =>
    if decide (m_tree m !! ev_b e = Some (ev_a e))
    then Some (Mir (m_items m) (delete (ev_b e) (m_tree m)) (m_maps m) (m_layers m)) else None
  | EFrame, EAdd, None, _ => (* a: map, b: frame node *)
    if decide (known is_map m (ev_a e) /\ known is_frame m (ev_b e) /\ m_maps m !! ev_a e = None)
    then Some (Mir (m_items m) (m_tree m) (<[ev_a e := ev_b e]> (m_maps m)) (m_layers m)) else None
  | EFrame, ERemove, None, _ =>
    if decide (m_maps m !! ev_a e = Some (ev_b e))
    then Some (Mir (m_items m) (m_tree m) (delete (ev_a e) (m_maps m)) (m_layers m)) else None
  | ELayer, EAdd, None, _ => (* a: parent, b: child *)
    if decide (known is_layer m (ev_a e) /\ known is_layer m (ev_b e))
    then Some (Mir (m_items m) (m_tree m) (m_maps m) ((ev_b e, ev_a e) :: m_layers m)) else None
  | ELayer, ERemove, None, _ => (* may be sent for a link that does not exist *)
    if decide (known is_layer m (ev_a e) /\ known is_layer m (ev_b e))
    then Some (Mir (m_items m) (m_tree m) (m_maps m) (del_one (ev_b e) (ev_a e) (m_layers m))) else None
  | ERoot, EAdd, None, false | ERoot, ERemove, None, false => if decide (known is_frame m (ev_a e)) then Some m else None
  | _, _, _, _ => None
  end.

Fixpoint replay (m : mirror) (es : list event) : option mirror :=
  match es with
  | [] => Some m
  | e :: r => match mstep m e with Some m' => replay m' r | None => None end
  end.

(** unique id, and class and content, of the item at an address *)
Definition idn (h : gmap positive item) (p : ptr) : string :=
  match h !! p with Some it => it_id it | None => "" end.
Definition payload_of (h : gmap positive item) (p : ptr) : kind * Z :=
  match h !! p with Some it => (it_kind it, it_val it) | None => (KLayer, 0%Z) end.
Definition by_id (h : gmap positive item) (l : list (ptr * ptr)) : list (string * string) :=
  (fun kv => (idn h kv.1, idn h kv.2)) <$> l.

(** The mirror agrees with the content of the environment. *)
Definition mirrors (m : mirror) (h : gmap positive item) (x : env) : Prop :=
  m_items m = list_to_map ((fun ip => (ip.1, payload_of h ip.2)) <$> e_items x) /\
  m_tree m = list_to_map (by_id h (e_tree x)) /\
  m_maps m = list_to_map (by_id h (e_maps x)) /\
  m_layers m ≡ₚ by_id h (e_layers x).

(** events received by handler [h] from environment [e] *)
Definition received (e : eid) (h : hid) (t : list delivery) : list event :=
  d_event <$> filter (fun d => d_env d = e /\ d_handler d = h) t.

(** ** Well-formed environments *)
Record Inv (me : eid) (s : st) : Prop := {
  inv_items : forall id p, (id, p) ∈ e_items (en s) <->
      exists it, hp s !! p = Some it /\ it_env it = Some me /\ it_id it = id;
  inv_nodup : NoDup (e_items (en s)).*1;
  inv_tree_nodup : NoDup (e_tree (en s)).*1;
  inv_maps_nodup : NoDup (e_maps (en s)).*1;
  inv_tree : forall c p, (c, p) ∈ e_tree (en s) -> has is_frame me (hp s) c /\ has is_frame me (hp s) p /\ c <> p;
  inv_layers : forall c p, (c, p) ∈ e_layers (en s) -> has is_layer me (hp s) c /\ has is_layer me (hp s) p /\ c <> p;
  inv_in : forall o l, (o, l) ∈ e_in (en s) -> has is_op me (hp s) o /\ has is_layer me (hp s) l;
  inv_out : forall o l, (o, l) ∈ e_out (en s) -> has is_op me (hp s) o /\ has is_layer me (hp s) l;
  inv_maps : forall m n, (m, n) ∈ e_maps (en s) -> has is_map me (hp s) m /\ has is_frame me (hp s) n;
  inv_refs : forall p it, hp s !! p = Some it ->
      it_refs it = it_user it + match it_env it with Some _ => 1 | None => 0 end;
  inv_slash : forall id p, (id, p) ∈ e_items (en s) -> first_char id = Some slash;
  inv_end : forall id p, (id, p) ∈ e_items (en s) -> last_char id <> Some slash;
  inv_prefix : first_char (e_prefix (en s)) = Some slash /\ last_char (e_prefix (en s)) = Some slash;
}.

(** the root node is an attached frame without parent *)
Definition RootOk (me : eid) (s : st) : Prop :=
  has is_frame me (hp s) (e_root (en s)) /\ get_parent (en s) (e_root (en s)) = None.

Record WInv (w : world) : Prop := {
  winv_env : forall e x, w_envs w !! e = Some x ->
      Inv e (St (w_heap w) x (w_tr w)) /\ RootOk e (St (w_heap w) x (w_tr w)) /\ Acyclic x;
  winv_owner : forall p it e, w_heap w !! p = Some it -> it_env it = Some e -> is_Some (w_envs w !! e);
  winv_refs : forall p it, w_heap w !! p = Some it ->
      it_refs it = it_user it + match it_env it with Some _ => 1 | None => 0 end;
}.

(** ** Calls that are possible at all

    Pointers are alive, arguments have the C++ type of the parameter, asserted preconditions hold, and an item that
    is moved from another environment is held by the user (the smart pointer returned by the internal
    detach is dropped, Environment.cpp:289-294). *)
(** enough numbers are left below the limit of [int] to attach [k] items *)
Definition room (k : nat) (s : st) : Prop :=
  (-2147483649 <= e_last (en s))%Z /\
  (e_last (en s) + Z.of_nat k * (Z.of_nat (length (e_items (en s))) + 1 + Z.of_nat k) <= int_max)%Z.

Definition kind_ok (f : kind -> bool) (w : world) (p : ptr) : Prop :=
  exists it, w_heap w !! p = Some it /\ f (it_kind it) = true.
Definition live_env (w : world) (e : eid) : Prop := is_Some (w_envs w !! e).
Definition movable (w : world) (e : eid) (p : ptr) : Prop :=
  forall it, w_heap w !! p = Some it -> it_env it = None \/ it_env it = Some e \/ it_user it <> 0.

Definition valid (w : world) (o : op) : Prop :=
  (forall e x, w_envs w !! e = Some x -> room 3 (St (w_heap w) x (w_tr w))) /\
  match o with
  | ONew p _ _ _ => w_heap w !! p = None
  | OHold p | OSetId p _ | OSetVal p _ => kind_ok any w p
  | ORelease p => exists it, w_heap w !! p = Some it /\ it_user it <> 0
  | ONewEnv e r => w_envs w !! e = None /\ w_heap w !! r = None
  | ODelEnv e | OAddHandler e _ | ORemHandler e _ => live_env w e
  | OAttach e p => live_env w e /\ kind_ok any w p /\ movable w e p
  | OAttachMap e m n => live_env w e /\ kind_ok is_map w m /\ movable w e m /\
                        (forall x, n = Some x -> kind_ok is_frame w x)
  | ODetach e p _ _ => live_env w e
  | OAddChildF e a b | ORemChildF e a b => live_env w e /\ kind_ok is_frame w a /\ kind_ok is_frame w b
  | OAddChildL e a b => live_env w e /\ kind_ok is_layer w a /\ kind_ok is_layer w b /\ a <> b
  | ORemChildL e a b => live_env w e /\ kind_ok is_layer w a /\ kind_ok is_layer w b
  | OSetFrame e m n | ODetFrame e m n => live_env w e /\ kind_ok is_map w m /\ kind_ok is_frame w n
  | OAddInput e o l | OAddOutput e o l | ORemInput e o l | ORemOutput e o l =>
    live_env w e /\ kind_ok is_op w o /\ kind_ok is_layer w l
  | ORemInputs e o | ORemOutputs e o => live_env w e /\ kind_ok is_op w o
  | OSetPrefix e s => live_env w e /\ s <> ""
  | OModified e p => live_env w e
  | OOpAddInput o l | OOpAddOutput o l | OOpSetInput o l | OOpSetOutput o l =>
    kind_ok is_op w o /\ kind_ok is_layer w l
  | ODetachFromOp l => kind_ok is_layer w l /\ exists e, in_env w e l
  end.
