(** Model of the event queue and of applying events to an environment: src/core/Event.cpp, src/core/EventHandler.cpp. *)
From stdpp Require Import prelude strings gmap pretty.
From Verif Require Import Base EnvModel.

(** ** Queue *)
(** event::Result, Event.hpp *)
Inductive mres := MCancel | MInvalidate | MIgnore.

Definition same_ids (a b : event) : Prop := ev_type a = ev_type b /\ ev_a a = ev_a b /\ ev_b a = ev_b b.
Global Instance same_ids_dec a b : Decision (same_ids a b).
Proof. unfold same_ids. apply _. Defined.

(** Event.cpp:60-78, [new.merge( old )] *)
Definition merge (new old : event) : mres :=
  if decide (same_ids new old /\ ev_op new = ev_op old) then MInvalidate else
  if decide (((ev_op new = ERemove /\ ev_op old = EAdd) \/ (ev_op new = EAdd /\ ev_op old = ERemove)) /\ same_ids new old) then MCancel else
  if decide ((ev_op new = ERemove /\ ev_op old = EUpdate) /\ same_ids new old) then MInvalidate else MIgnore.

(** EventHandler.cpp:83-101: the loop over the pending messages; returns the messages that are left and [valid]. *)
Fixpoint merge_loop (ev : event) (q : list event) (valid : bool) : list event * bool :=
  match q with
  | [] => ([], valid)
  | old :: r =>
    match merge ev old with
    | MCancel => merge_loop ev r false
    | MInvalidate => merge_loop ev r valid
    | MIgnore => let rv := merge_loop ev r valid in (old :: rv.1, rv.2)
    end
  end.
(** EventHandler.cpp:75-107. The event already carries ids and content, which is what Event::ref( true ) stores
    (Event.cpp:80-101). Here the calls are atomic; QueueThreads.v models the mutex and threads. *)
Definition q_handle (q : list event) (ev : event) : list event :=
  let qv := merge_loop ev q true in
  if qv.2 : bool then qv.1 ++ [ev] else qv.1.
Definition q_run (es : list event) : list event := foldl q_handle [] es.

(** ** Dispatching *)
(** the virtual functions of EventDispatcher, EventHandler.hpp:70-95 *)
Inductive callback :=
| CItemAttached | CItemDetached | CItemModified | CChildAddedF | CChildRemovedF | CChildAddedL | CChildRemovedL
| CFrameNodeSet | CFrameNodeDetached | CSetRootNode | CRemoveRootNode.
(** EventHandler.cpp:47-73; [None]: std::runtime_error *)
Definition dispatch (t : etype) (o : eop) : option callback :=
  match t, o with
  | EItem, EAdd => Some CItemAttached
  | EItem, ERemove => Some CItemDetached
  | EItem, EUpdate => Some CItemModified
  | ETree, EAdd => Some CChildAddedF
  | ETree, ERemove => Some CChildRemovedF
  | ELayer, EAdd => Some CChildAddedL
  | ELayer, ERemove => Some CChildRemovedL
  | EFrame, EAdd => Some CFrameNodeSet
  | EFrame, ERemove => Some CFrameNodeDetached
  | ERoot, EAdd => Some CSetRootNode
  | ERoot, ERemove => Some CRemoveRootNode
  | _, _ => None
  end.

(** ** Applying *)
(** EnvironmentItem.hpp:14-31: [item->set( other )] copies the content if the classes agree and does nothing otherwise.
    Followed by itemModified. Simplification: classes derived from the class of [item] are not distinguished. *)
Definition set_item (me : eid) (p : ptr) (v : kind * Z) (s : st) : M :=
  deref p s (fun it =>
    emit me EItem EUpdate p None (if decide (it_kind it = v.1) then put p (with_val it v.2) s else s)).
(** Event.cpp:121-124 and 137-142: the item of the event, here at the fresh address [c], is attached. The reference of the
    event itself is dropped after [apply] and not counted. *)
Definition attach_new (me : eid) (c : ptr) (id : string) (v : kind * Z) (s : st) : M :=
  attach_core me c (put c (Item v.1 id None v.2 0 0) s).
(** a static_cast to the class of the callback, EventHandler.cpp:47-73 *)
Definition cast (f : kind -> bool) (p : ptr) (s : st) (k : M) : M :=
  deref p s (fun it => if f (it_kind it) then k else Bad IllTyped).
Definition link2 (fa fb : kind -> bool) (a b : option ptr) (s : st) (k : ptr -> ptr -> M) : M :=
  match a, b with
  | Some a, Some b => cast fa a s (cast fb b s (k a b))
  | _, _ => Ok s          (* lenient: NULL is ignored, Event.cpp:161-231 *)
  end.

(** Event.cpp:251-258 with ApplyEventHelper (103-249), [lenient = true]. *)
Definition apply_event (me : eid) (c : ptr) (ev : event) (s : st) : M :=
  let a := get_item (en s) (ev_a ev) in
  let b := get_item (en s) (ev_b ev) in
  match dispatch (ev_type ev) (ev_op ev) with
  | None => Throw s
  | Some CItemAttached =>
    match ev_item ev with
    | None => Bad UB
    | Some v => match a with Some p => set_item me p v s | None => attach_new me c (ev_a ev) v s end
    end
  | Some CItemModified =>
    match ev_item ev with
    | None => Bad UB
    | Some v => match a with
                | Some p => set_item me p v s
                | None => (* itemModified( NULL ), Event.cpp:146: the handlers dereference it *)
                  s1 <~ attach_new me c (ev_a ev) v s ;; match e_handlers (en s1) with [] => Ok s1 | _ => Bad UB end
                end
    end
  | Some CItemDetached =>
    match a with
    | Some p => if decide (p = e_root (en s)) then Ok s else detach_drop me p s
    | None => Ok s
    end
  | Some CChildAddedF => link2 is_frame is_frame a b s (fun p c => add_child_f me p c s)
  | Some CChildRemovedF => link2 is_frame is_frame a b s (fun p c => remove_child_f me p c s)
  | Some CChildAddedL => link2 is_layer is_layer a b s (fun p c => add_child_l me p c s)
  | Some CChildRemovedL => link2 is_layer is_layer a b s (fun p c => remove_child_l me p c s)
  | Some CFrameNodeSet => link2 is_map is_frame a b s (fun m n => set_frame me m n s)
  | Some CFrameNodeDetached => link2 is_map is_frame a b s (fun m n => detach_frame me m n s)
  | Some CSetRootNode | Some CRemoveRootNode => Ok s
  end.
(** EventQueue::flush with EventProcessor::process, EventHandler.cpp:109-125; one fresh address per event *)
Fixpoint apply_events (me : eid) (es : list (ptr * event)) (s : st) : M :=
  match es with
  | [] => Ok s
  | (c, ev) :: r => s1 <~ apply_event me c ev s ;; apply_events me r s1
  end.
