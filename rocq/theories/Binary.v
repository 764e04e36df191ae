(** Transport of events as binary messages (C103) and context updates (C104): BinarySerialization and SynchronizationEventHandler in
    src/core/Serialization.cpp:651-925.

    Simplifications: the YAML library is an argument of the model (a function that writes a sequence of mappings and one that reads it); the
    [serialize] functions of the item classes and their factories are arguments ([codec], Persist.v); the leaked streams of a name that is
    opened twice and the null entries that a failed lookup of a stream leaves behind (661) are not modelled; the order in which the streams are stored in a
    message is that of [map_to_list] instead of that of the names. *)
From Coq Require Import ZArith Ascii String.
From stdpp Require Import prelude strings gmap pretty.
From Verif Require Import Base AssocLemmas EnvModel EnvSpec EnvLib EnvGood EnvWorld EnvDemo EnvProps2 EnvProps3 EventModel EventApply QueueProps SyncLib SyncProps Ids Persist PersistLib PersistProps.

(** core/EventTypes.hpp, struct EnvireBinaryEvent *)
Record bevent := BEv {
  b_type : etype; b_op : eop; b_a : string; b_b : string;
  b_class : string; b_yaml : string; b_names : list string; b_data : list string }.

(** the events that carry an item *)
Definition carries (t : etype) (o : eop) : bool := match t, o with EItem, EAdd | EItem, EUpdate => true | _, _ => false end.

Section Binary.
  Context (c : codec) (write : list (list (string * string)) -> string) (read : string -> option (list (list (string * string)))).
  (** [stringstreams], Serialization.hpp:212 *)
  Notation streams := (gmap string string).

  (** the size of the buffer, Serialization.cpp:764 *)
  Definition yaml_size : nat := Z.to_nat 10000.
  Local Opaque yaml_size.
  (** BinarySerialization::serializeBinaryEvent, Serialization.cpp:753-816: the result, the message; the streams are deleted afterwards. The YAML text
      is cut off at the end of the buffer. *)
  Definition serialize_item (it : item) (t : etype) (o : eop) (a b : string) (s : streams) : bool * bevent :=
    let text := write [obj_node c it] in
    let all := map_to_list (write_files (obj_files c it) s) in
    (bool_decide (String.length text <= yaml_size),
     BEv t o a b (c_class c (it_kind it) (it_val it)) (String.substring 0 yaml_size text) all.*1 all.*2).

  (** the first mapping with the class, 720-730; [None]: an exception because a mapping has no class *)
  Fixpoint find_node (cls : string) (l : list (list (string * string))) : option (option (list (string * string))) :=
    match l with
    | [] => Some None
    | n :: r => match scalar n "class" with
                | None => None
                | Some k => if decide (k = cls) then Some (Some n) else find_node cls r
                end
    end.
  (** BinarySerialization::unserializeBinaryEvent, Serialization.cpp:700-751. If it throws, the streams that were there so far stay. *)
  Definition unserialize_item (m : bevent) (s : streams) : out streams (item * streams) :=
    match read (b_yaml m) with
    | None => Throw s
    | Some l =>
      match find_node (b_class m) l with
      | None | Some None => Throw s
      | Some (Some n) =>
        let s := write_files (zip (b_names m) (b_data m)) s in
        match find_class (c_reg c) (b_class m) with
        | None => Throw s
        | Some f =>
          match old_id (default "" (scalar n "id")) with
          | None => Bad UB
          | Some id =>
            match f (scalar n) id (fun name => s !! name) with
            | None => Throw s
            | Some (k, v) => Ok (Item k id None v 0 0, ∅)
            end
          end
        end
      end
    end.

  (** SynchronizationEventHandler::addBinaryEvent, Serialization.cpp:898-907. The item of the event is there (the ids of an event and of its item
      agree, Event.cpp:83-84). *)
  Definition send (ev : event) (s : streams) : out unit (bevent * streams) :=
    if carries (ev_type ev) (ev_op ev) then
      match ev_item ev with
      | None => Bad Abort
      | Some (k, v) => Ok ((serialize_item (Item k (ev_a ev) None v 0 0) (ev_type ev) (ev_op ev) (ev_a ev) (ev_b ev) s).2, ∅)
      end
    else Ok (BEv (ev_type ev) (ev_op ev) (ev_a ev) (ev_b ev) "" "" [] [], s).
  Fixpoint send_all (l : list event) (s : streams) : out unit (list bevent) :=
    match l with
    | [] => Ok []
    | ev :: r => ms <~ send ev s ;; rest <~ send_all r ms.2 ;; Ok (ms.1 :: rest)
    end.

  (** BinarySerialization::applyEvent, Serialization.cpp:681-698: as [apply_event] (EventModel.v), but with an item that has an id of its own. The state is that of
      the environment and of the serialization. *)
  Definition receive (me : eid) (p : ptr) (m : bevent) (ss : st * streams) : out (st * streams) (st * streams) :=
    let lift (r : M) (t : streams) : out (st * streams) (st * streams) :=
      match r with Ok s => Ok (s, t) | Throw s => Throw (s, t) | Bad b => Bad b | NoFuel => NoFuel end in
    if carries (b_type m) (b_op m) then
      match unserialize_item m ss.2 with
      | Ok (it, t) =>
        let ev := Ev (b_type m) (b_op m) (b_a m) (b_b m) (Some (it_kind it, it_val it)) in
        lift (match get_item (en ss.1) (b_a m) with
              | Some _ => apply_event me p ev ss.1
              | None => s1 <~ EventModel.attach_new me p (it_id it) (it_kind it, it_val it) ss.1 ;;
                        match b_op m with
                        | EUpdate => match e_handlers (en s1) with [] => Ok s1 | _ => Bad UB end
                        | _ => Ok s1
                        end
              end) t
      | Throw t => Throw (ss.1, t)
      | Bad b => Bad b
      | NoFuel => NoFuel
      end
    else lift (apply_event me p (Ev (b_type m) (b_op m) (b_a m) (b_b m) None) ss.1) ss.2.
  (** BinarySerialization::applyEvents, Serialization.cpp:673-679, with the addresses of the received items *)
  Fixpoint receive_all (me : eid) (l : list (ptr * bevent)) (ss : st * streams) : out (st * streams) (st * streams) :=
    match l with
    | [] => Ok ss
    | (p, m) :: r => s1 <~ receive me p m ss ;; receive_all me r s1
    end.

  (** * C103 *)
  (** the YAML library reads what it writes *)
  Definition yaml_ok : Prop := forall l, read (write l) = Some l.
  (** the message can carry the item: the class reads what it writes, to different streams, and the YAML text fits into the buffer *)
  Definition portable (k : kind) (id : string) (v : Z) : Prop :=
    stable c k v /\ NoDup (c_streams c k v).*1 /\ first_char id = Some slash /\ String.length (write [obj_node c (Item k id None v 0 0)]) <= yaml_size.

  Lemma substring_all s n : String.length s <= n -> String.substring 0 n s = s.
  Proof. revert n. induction s as [|ch s IH]; intros [|n] H; cbn in *; try done; [lia|]. f_equal. apply IH. lia. Qed.
  Lemma zip_fst_snd {A B} (l : list (A * B)) : zip l.*1 l.*2 = l.
  Proof. induction l as [|[a b] l IH]; [done|]. cbn. f_equal. apply IH. Qed.
  Lemma write_files_all (f g : streams) : write_files (map_to_list f) g = f ∪ g.
  Proof.
    apply map_eq. intros i. rewrite lookup_union. destruct (f !! i) as [x|] eqn:E.
    - rewrite (write_files_in (map_to_list f) g i x); [by destruct (g !! i)|apply NoDup_fst_map_to_list|by apply elem_of_map_to_list].
    - rewrite write_files_notin; [by destruct (g !! i)|]. intros ([a b]&->&H%elem_of_map_to_list)%elem_of_list_fmap. cbn in E. congruence.
  Qed.
  Lemma app_inj (p a b : string) : p +:+ a = p +:+ b -> a = b.
  Proof. induction p as [|ch p IH]; cbn; [done|]. intros [= H]. by apply IH. Qed.
  Lemma obj_files_nodup it : NoDup (c_streams c (it_kind it) (it_val it)).*1 -> NoDup (obj_files c it).*1.
  Proof.
    intros H. unfold obj_files. rewrite <- list_fmap_compose. cbn. change (NoDup ((fun ext => map_file_name (c_class c (it_kind it) (it_val it)) (it_id it) +:+ ext) ∘ fst <$> c_streams c (it_kind it) (it_val it))).
    rewrite list_fmap_compose. apply NoDup_fmap; [|done]. intros x y. apply app_inj.
  Qed.

  (** What is received is what was sent: class, id and content of the item, whatever an earlier message that failed has left behind. *)
  Theorem C103_item k id v t o a b old : yaml_ok -> portable k id v ->
    let it := Item k id None v 0 0 in
    (serialize_item it t o a b ∅).1 = true /\ unserialize_item (serialize_item it t o a b ∅).2 old = Ok (it, ∅).
  Proof.
    intros HY (HS&HN&Hf&Hl) it. fold it in Hl. split; [by apply bool_decide_eq_true_2|]. unfold unserialize_item, serialize_item. cbn [snd b_yaml b_class b_names b_data].
    rewrite substring_all by done. rewrite HY. pose proof (obj_node_nodup c it HS) as ND. cbn [find_node].
    assert (scalar (obj_node c it) "class" = Some (c_class c k v)) as -> by (apply scalar_nodup; [done|]; left).
    rewrite decide_True by done. destruct HS as (HS1&HS2&HS3&f&Hfc&HS4). cbn [it_kind it_val it]. rewrite Hfc.
    assert (scalar (obj_node c it) "id" = Some id) as -> by (apply scalar_nodup; [done|]; right; left).
    change (default "" (Some id)) with id. unfold old_id. rewrite Hf, decide_True by done. rewrite zip_fst_snd, write_files_all.
    rewrite (HS4 id); [done| |].
    - intros key y Hin. apply scalar_nodup; [done|]. right. by right.
    - intros ext data Hin. apply lookup_union_Some_l, write_files_in; [by apply (obj_files_nodup it)|]. unfold obj_files. apply elem_of_list_fmap. by exists (ext, data).
  Qed.

  (** the events that a message can carry *)
  Definition sendable (ev : event) : Prop :=
    match carries (ev_type ev) (ev_op ev), ev_item ev with
    | true, Some (k, v) => portable k (ev_a ev) v
    | true, None => False
    | false, _ => True
    end.
  (** Sending events and applying what arrives has the same effect as applying the events themselves. *)
  Theorem C103_events me es ps s : yaml_ok -> Forall sendable es -> length ps = length es ->
    exists ms, send_all es ∅ = Ok ms /\ length ms = length es /\
      receive_all me (zip ps ms) (s, ∅) =
        match apply_events me (zip ps es) s with Ok s' => Ok (s', ∅) | Throw s' => Throw (s', ∅) | Bad b => Bad b | NoFuel => NoFuel end.
  Proof.
    intros HY. revert ps s. induction es as [|ev es IH]; intros ps s HF HL; [by exists []; destruct ps|].
    destruct ps as [|p ps]; [done|]. injection HL as HL. apply Forall_cons in HF as [He HF].
    assert (exists m, send ev ∅ = Ok (m, ∅) /\ receive me p m (s, ∅) =
      match apply_event me p ev s with Ok s' => Ok (s', ∅) | Throw s' => Throw (s', ∅) | Bad b => Bad b | NoFuel => NoFuel end) as (m&Hs&Hr).
    { destruct ev as [t o a b it]. unfold sendable in He. unfold send. cbn [ev_type ev_op ev_a ev_b ev_item] in *.
      destruct (carries t o) eqn:Ec.
      - destruct it as [[k v]|]; [|done]. destruct (C103_item k a v t o a b ∅ HY He) as [_ H]. eexists. split; [reflexivity|].
        unfold receive. cbn [serialize_item snd b_type b_op b_a b_b]. rewrite Ec. cbn [snd fst].
        change (BEv t o a b _ _ _ _) with (serialize_item (Item k a None v 0 0) t o a b ∅).2. rewrite H. cbn [it_kind it_val it_id].
        destruct (get_item (en s) a) as [q|] eqn:Ha; [done|]. unfold apply_event. cbn [ev_type ev_op ev_a ev_b ev_item]. rewrite Ha.
        destruct t, o; try done; cbn [dispatch]; (destruct (EventModel.attach_new me p a (k, v) s) as [s1| | |]; [|done..]); done.
      - eexists. split; [reflexivity|]. unfold receive. cbn [b_type b_op b_a b_b]. rewrite Ec. by destruct t, o. }
    cbn [zip zip_with apply_events]. destruct (apply_event me p ev s) as [s1|s1|b|] eqn:Ea; cbn [obind].
    - destruct (IH ps s1 HF HL) as (ms&H1&H2&H3). exists (m :: ms). cbn [send_all]. rewrite Hs. cbn [obind fst snd]. rewrite H1. split; [done|].
      split; [cbn; lia|]. cbn [zip zip_with receive_all]. rewrite Hr. cbn [obind]. exact H3.
    - destruct (IH ps s HF HL) as (ms&H1&H2&_). exists (m :: ms). cbn [send_all]. rewrite Hs. cbn [obind fst snd]. rewrite H1. split; [done|].
      split; [cbn; lia|]. cbn [zip zip_with receive_all]. rewrite Hr. done.
    - destruct (IH ps s HF HL) as (ms&H1&H2&_). exists (m :: ms). cbn [send_all]. rewrite Hs. cbn [obind fst snd]. rewrite H1. split; [done|].
      split; [cbn; lia|]. cbn [zip zip_with receive_all]. rewrite Hr. done.
    - destruct (IH ps s HF HL) as (ms&H1&H2&_). exists (m :: ms). cbn [send_all]. rewrite Hs. cbn [obind fst snd]. rewrite H1. split; [done|].
      split; [cbn; lia|]. cbn [zip zip_with receive_all]. rewrite Hr. done.
  Qed.

  (** A history of the source, sent as messages and applied in a replica, leaves the replica in agreement with the source. *)
  Theorem C103_sync lay w e x h os w' me r :
    yaml_ok ->
    reachable w -> w_envs w !! e = Some x -> filter (fun k => k = h) (e_handlers x) = [h] ->
    history w os w' -> Forall (hands_off e h) os ->
    Inv me r -> has is_frame me (hp r) (e_root (en r)) -> agree lay (env_st w x) r ->
    exists x' t, w_envs w' !! e = Some x' /\ w_tr w' = w_tr w ++ t /\
      (no_reuse (env_st w x) (received e h t) -> (lay = true -> layers_clean (by_id (w_heap w) (e_layers x)) (received e h t)) ->
       is_Some (content (env_st w' x') !! root_id r) -> Forall sendable (q_run (received e h t)) ->
       exists ms, send_all (q_run (received e h t)) ∅ = Ok ms /\ length ms = length (q_run (received e h t)) /\
       forall ps, length ps = length ms -> NoDup ps -> Forall (fun c => hp r !! c = None) ps ->
       exists r', receive_all me (zip ps ms) (r, ∅) = Ok (r', ∅) /\ agree lay (env_st w' x') r' /\
         Inv me r' /\ has is_frame me (hp r') (e_root (en r')) /\ root_id r' = root_id r).
  Proof.
    intros HY HW Hx Hh Hos Hho HI Hr HA. destruct (C21_sync lay w e x h os w' me r HW Hx Hh Hos Hho HI Hr HA) as (x'&t&Hx'&Ht&_&HS).
    exists x', t. do 2 (split; [done|]). intros HR HL HC HF. set (es := q_run (received e h t)) in *.
    destruct (C103_events me es (replicate (length es) 1%positive) r HY HF (replicate_length _ _)) as (ms&Hms&Hlen&_).
    exists ms. do 2 (split; [done|]). intros ps Hps HN HP.
    destruct (C103_events me es ps r HY HF ltac:(lia)) as (ms'&Hms'&_&Hrec). assert (ms' = ms) as -> by congruence.
    destruct (HS (zip ps es) HR HL HC) as (r'&E&H').
    - apply snd_zip. lia.
    - by rewrite fst_zip by lia.
    - by rewrite fst_zip by lia.
    - exists r'. rewrite Hrec, E. by split.
  Qed.
End Binary.

(** * A YAML library for the examples *)
Fixpoint put_string (s r : string) : string :=
  match s with EmptyString => String ";"%char r | String ch s => String "x"%char (String ch (put_string s r)) end.
Fixpoint get_string (t : string) : option (string * string) :=
  match t with
  | String "x"%char (String ch t) => match get_string t with Some (s, r) => Some (String ch s, r) | None => None end
  | String ";"%char t => Some (EmptyString, t)
  | _ => None
  end.
Fixpoint put_node (n : list (string * string)) (r : string) : string :=
  match n with [] => String "."%char r | (k, v) :: n => String ","%char (put_string k (put_string v (put_node n r))) end.
Fixpoint get_node (fuel : nat) (t : string) : option (list (string * string) * string) :=
  match fuel, t with
  | S fuel, String ","%char t =>
    match get_string t with
    | Some (k, t) => match get_string t with
                     | Some (v, t) => match get_node fuel t with Some (n, r) => Some ((k, v) :: n, r) | None => None end
                     | None => None end
    | None => None end
  | S _, String "."%char t => Some ([], t)
  | _, _ => None
  end.
Fixpoint put_nodes (l : list (list (string * string))) : string :=
  match l with [] => "." | n :: l => String "-"%char (put_node n (put_nodes l)) end.
Fixpoint get_nodes (fuel : nat) (t : string) : option (list (list (string * string))) :=
  match fuel, t with
  | S fuel', String "-"%char t => match get_node fuel t with
                             | Some (n, t) => match get_nodes fuel' t with Some l => Some (n :: l) | None => None end
                             | None => None end
  | S _, String "."%char "" => Some []
  | _, _ => None
  end.
Definition demo_read (t : string) : option (list (list (string * string))) := get_nodes (S (String.length t)) t.

Lemma get_put_string s r : get_string (put_string s r) = Some (s, r).
Proof. induction s as [|ch s IH]; [done|]. cbn. by rewrite IH. Qed.
Lemma put_string_length s r : String.length r < String.length (put_string s r).
Proof. induction s as [|ch s IH]; cbn; lia. Qed.
Lemma get_put_node n r fuel : String.length (put_node n r) <= fuel -> get_node fuel (put_node n r) = Some (n, r).
Proof.
  revert fuel. induction n as [|[k v] n IH]; intros fuel H; (destruct fuel as [|fuel]; [cbn in H; lia|]); [done|]. cbn [put_node get_node].
  rewrite !get_put_string, IH; [done|]. cbn in H. pose proof (put_string_length k (put_string v (put_node n r))). pose proof (put_string_length v (put_node n r)). lia.
Qed.
Lemma put_node_length n r : String.length r < String.length (put_node n r).
Proof. induction n as [|[k v] n IH]; cbn; [lia|]. pose proof (put_string_length k (put_string v (put_node n r))). pose proof (put_string_length v (put_node n r)). lia. Qed.
Lemma demo_yaml_ok : yaml_ok put_nodes demo_read.
Proof.
  intros l. unfold demo_read. enough (forall fuel, String.length (put_nodes l) <= fuel -> get_nodes fuel (put_nodes l) = Some l) as H by (apply H; lia).
  induction l as [|n l IH]; intros fuel H; (destruct fuel as [|fuel]; [cbn in H; lia|]); [done|]. cbn [put_nodes get_nodes].
  cbn in H. rewrite get_put_node by lia. pose proof (put_node_length n (put_nodes l)). rewrite IH by lia. done.
Qed.

(** A map with a stream and a frame travel. *)
Example C103_nonvacuous :
  yaml_ok put_nodes demo_read /\
  Forall (sendable demo_codec put_nodes) [Ev EItem EAdd "/f" "" (Some (KFrame, 3%Z)); Ev EItem EUpdate "/m" "" (Some (KMap, 7%Z)); Ev EFrame EAdd "/m" "/f" None] /\
  c_streams demo_codec KMap 7 = [(".mls", "7")].
Proof.
  split; [apply demo_yaml_ok|]. split; [|done].
  assert (forall k id v, (long_min <= v <= long_max)%Z -> match k with KOp i o => (Z.of_nat i <= long_max)%Z /\ (Z.of_nat o <= long_max)%Z | _ => True end ->
    first_char id = Some slash -> Nat.leb (String.length (put_nodes [obj_node demo_codec (Item k id None v 0 0)])) yaml_size = true -> portable demo_codec put_nodes k id v) as H.
  { intros k id v Hv Hk Hid Hl. split; [by apply demo_stable|]. split; [destruct k; cbn; (apply NoDup_nil_2 || apply NoDup_singleton)|]. split; [done|]. by apply Nat.leb_le. }
  rewrite !Forall_cons. unfold sendable. cbn [ev_type ev_op ev_item ev_a carries]. split; [|split; [|done]]; (apply H; [done|done|done|vm_compute; reflexivity]).
Qed.

(** A class with a text property of any length: longer texts are cut off, the sender does not notice (serializeBinaryEvent is called without
    a look at its result, Serialization.cpp:906), and the receiver throws. *)
Fixpoint text (n : nat) : string := match n with O => EmptyString | S n => String "t"%char (text n) end.
Definition text_codec : codec := Codec (fun _ _ => "Text") (fun _ v => [("text", text (Z.to_nat v))]) (fun _ _ => [])
  [("Text", fun rd _ _ => match rd "text" with Some t => Some (KFrame, Z.of_nat (String.length t)) | None => None end)].
Lemma text_stable v : (0 <= v)%Z -> stable text_codec KFrame v.
Proof.
  intros Hv. split; [repeat constructor; set_solver|]. split; [set_solver|]. split; [set_solver|]. eexists. split; [reflexivity|].
  intros id rd fs H _. cbv beta. rewrite (H "text" (text (Z.to_nat v))) by (left). f_equal. f_equal.
  assert (forall n, String.length (text n) = n) as -> by (intros n; induction n; cbn; congruence). lia.
Qed.
Definition text_message (v : Z) : bevent :=
  (serialize_item text_codec put_nodes (Item KFrame "/f" None v 0 0) EItem EAdd "/f" "" ∅).2.
Lemma text_cut : demo_read (b_yaml (text_message 6000)) = None /\ Nat.eqb (String.length (b_yaml (text_message 6000))) yaml_size = true.
Proof. vm_compute. split; reflexivity. Qed.
Theorem C103_large_refuted : exists v, stable text_codec KFrame v /\ yaml_ok put_nodes demo_read /\
  exists m, send text_codec put_nodes (Ev EItem EAdd "/f" "" (Some (KFrame, v))) ∅ = Ok (m, ∅) /\
    String.length (b_yaml m) = yaml_size /\ unserialize_item text_codec demo_read m ∅ = Throw ∅.
Proof.
  destruct text_cut as [H1 H2]. revert H1 H2. generalize (text_stable 6000 ltac:(done)). generalize 6000%Z. intros v H0 H1 H2.
  exists v. split; [done|]. split; [apply demo_yaml_ok|]. exists (text_message v). split; [done|]. split; [by apply Nat.eqb_eq|].
  unfold unserialize_item. by rewrite H1.
Qed.

(** A message that fails leaves its streams behind: the next message is decoded with them. *)
Theorem C103_stale_refuted : exists m1 m2 it old,
  unserialize_item demo_codec demo_read m2 ∅ = Throw ∅ /\
  unserialize_item demo_codec demo_read m1 ∅ = Throw old /\
  unserialize_item demo_codec demo_read m2 old = Ok (it, ∅).
Proof.
  exists (BEv EItem EAdd "/m" "" "Unknown" (put_nodes [[("class", "Unknown"); ("id", "/m")]]) ["envire::MLSGrid_m.mls"] ["5"]),
         (BEv EItem EAdd "/m" "" "envire::MLSGrid" (put_nodes [obj_node demo_codec (Item KMap "/m" None 7 0 0)]) [] []),
         (Item KMap "/m" None 5 0 0), {["envire::MLSGrid_m.mls" := "5"]}.
  split; [vm_compute; reflexivity|]. split; vm_compute; reflexivity.
Qed.
