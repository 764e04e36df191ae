(** What applying one event does to an environment. *)
From stdpp Require Import prelude strings gmap pretty.
From Verif Require Import Base AssocLemmas EnvModel EnvSpec EnvLib EnvGood EnvAttach EnvLinks EnvLinks2 EnvDetach EnvWorld EnvStep EventModel.

(** ** What can be observed of an environment, by unique id *)
(** class and content of the items *)
Definition content (s : st) : gmap string (kind * Z) :=
  list_to_map ((fun ip => (ip.1, payload_of (hp s) ip.2)) <$> e_items (en s)).
(** the links, in the order in which events name the two items: frame tree (parent, child), placement (map, frame), layer
    tree (parent, child) *)
Definition linked (s : st) (t : etype) (a b : string) : Prop :=
  match t with
  | ETree => (b, a) ∈ by_id (hp s) (e_tree (en s))
  | EFrame => (a, b) ∈ by_id (hp s) (e_maps (en s))
  | ELayer => (b, a) ∈ by_id (hp s) (e_layers (en s))
  | _ => False
  end.
(** id of the root node *)
Definition root_id (s : st) : string := idn (hp s) (e_root (en s)).

(** ** Events that make sense at all
    Only combinations the library emits; item events carry the item, and its id is one an attached item can have; no
    item is linked with itself. *)
Definition proper_id (id : string) : Prop := first_char id = Some slash /\ last_char id <> Some slash.
Definition event_ok (ev : event) : Prop :=
  match ev_type ev, ev_op ev with
  | EItem, EAdd | EItem, EUpdate => proper_id (ev_a ev) /\ is_Some (ev_item ev)
  | EItem, ERemove => True
  | ETree, EAdd | ELayer, EAdd => ev_a ev <> ev_b ev
  | _, EUpdate => False
  | _, _ => True
  end.
(** the classes the two items of a link have *)
Definition ends_ok (t : etype) (ka kb : kind) : Prop :=
  match t with
  | ETree => is_frame ka = true /\ is_frame kb = true
  | EFrame => is_map ka = true /\ is_frame kb = true
  | ELayer => is_layer ka = true /\ is_layer kb = true
  | _ => True
  end.
(** the link event names items of the right class, as far as they exist *)
Definition kinds_ok (s : st) (ev : event) : Prop :=
  forall va vb, content s !! ev_a ev = Some va -> content s !! ev_b ev = Some vb -> ends_ok (ev_type ev) va.1 vb.1.
(** UPDATE of an item that does not exist while somebody listens *)
Definition null_update (s : st) (ev : event) : Prop :=
  ev_type ev = EItem /\ ev_op ev = EUpdate /\ content s !! ev_a ev = None /\ e_handlers (en s) <> [].

(** ** The effect, by unique id *)
(** the end of a link of which every item has at most one: the child of a frame link, the map of a placement *)
Definition single_end (t : etype) (a b : string) : option string :=
  match t with ETree => Some b | EFrame => Some a | _ => None end.
Definition replaces (t : etype) (a b a' b' : string) : Prop :=
  exists k, single_end t a b = Some k /\ single_end t a' b' = Some k.

Definition effect (ev : event) (s s' : st) : Prop :=
  let a := ev_a ev in let b := ev_b ev in
  match ev_type ev, ev_op ev with
  | ERoot, _ => content s' = content s /\ forall t x y, linked s' t x y <-> linked s t x y
  | EItem, ERemove =>
    if decide (a = root_id s) then content s' = content s /\ forall t x y, linked s' t x y <-> linked s t x y
    else content s' = delete a (content s) /\ forall t x y, linked s' t x y <-> linked s t x y /\ x <> a /\ y <> a
  | EItem, _ =>
    (forall t x y, linked s' t x y <-> linked s t x y) /\
    (forall v, ev_item ev = Some v ->
       content s' = match content s !! a with
                    | None => <[a := v]> (content s)
                    | Some v0 => if decide (v0.1 = v.1) then <[a := v]> (content s) else content s
                    end)
  | ty, EAdd =>
    content s' = content s /\
    forall t x y, linked s' t x y <->
      (linked s t x y /\ ~ (t = ty /\ (x, y) <> (a, b) /\ is_Some (content s !! a) /\ is_Some (content s !! b) /\ replaces ty a b x y)) \/
      (t = ty /\ x = a /\ y = b /\ is_Some (content s !! a) /\ is_Some (content s !! b))
  | ty, ERemove =>
    content s' = content s /\
    (forall t x y, ~ (t = ty /\ x = a /\ y = b) -> linked s' t x y <-> linked s t x y) /\
    (ty <> ELayer \/ NoDup (e_layers (en s)) -> ~ linked s' ty a b)
  | _, _ => True
  end.

(** ** What stays *)
(** [s'] is well formed, has the same handlers, prefix and root; the items of other environments are untouched; no
    other object than [c] is new; layer links stay duplicate free unless an existing one is added again *)
Record Safe (me : eid) (c : ptr) (ev : event) (s s' : st) : Prop := {
  sf_inv : Inv me s';
  sf_handlers : e_handlers (en s') = e_handlers (en s);
  sf_prefix : e_prefix (en s') = e_prefix (en s);
  sf_root : e_root (en s') = e_root (en s);
  sf_root_has : has is_frame me (hp s') (e_root (en s'));
  sf_root_id : root_id s' = root_id s;
  sf_other : forall q it e', e' <> me -> it_env it = Some e' -> (hp s !! q = Some it <-> hp s' !! q = Some it);
  sf_new : forall q, q <> c -> hp s !! q = None -> hp s' !! q = None;
  sf_layers : NoDup (e_layers (en s)) -> (ev_type ev = ELayer -> ev_op ev = EAdd -> ~ linked s ELayer (ev_a ev) (ev_b ev)) ->
              NoDup (e_layers (en s'));
}.

(** ** Lookup *)
Lemma content_lookup s id : content s !! id = payload_of (hp s) <$> get_item (en s) id.
Proof.
  unfold content, get_item. induction (e_items (en s)) as [|[i p] l IH]; [done|]. rewrite fmap_cons. cbn [list_to_map fst snd assoc foldr].
  destruct (decide (i = id)) as [->|Hne]; simpl.
  - rewrite lookup_insert. by rewrite decide_True.
  - rewrite lookup_insert_ne by done. rewrite decide_False by congruence. exact IH.
Qed.
Section s.
  Context (me : eid) (s : st) (HI : Inv me s).
  Lemma get_item_has id p : get_item (en s) id = Some p -> exists it, hp s !! p = Some it /\ it_env it = Some me /\ it_id it = id.
  Proof using HI. apply (inv_assoc me s HI). Qed.
  Lemma get_item_kind id p f : get_item (en s) id = Some p -> f (payload_of (hp s) p).1 = true -> has f me (hp s) p /\ idn (hp s) p = id.
  Proof using HI.
    intros H Hf. destruct (get_item_has _ _ H) as (it&Hp&He&Hid). unfold payload_of in Hf. rewrite Hp in Hf.
    split; [by exists it|]. unfold idn. by rewrite Hp.
  Qed.
  Lemma get_item_any id p : get_item (en s) id = Some p -> has any me (hp s) p /\ idn (hp s) p = id.
  Proof using HI. intros H. by apply get_item_kind. Qed.
  Lemma get_item_idn p : has any me (hp s) p -> get_item (en s) (idn (hp s) p) = Some p.
  Proof using HI. intros (it&Hp&He&_). unfold idn. rewrite Hp. apply (inv_assoc me s HI). eauto. Qed.
End s.
Lemma elem_of_by_id h l x y : (x, y) ∈ by_id h l <-> exists p q, (p, q) ∈ l /\ idn h p = x /\ idn h q = y.
Proof.
  unfold by_id. rewrite elem_of_list_fmap. split.
  - intros ([p q]&Heq&Hin). simpl in Heq. exists p, q. naive_solver.
  - intros (p&q&Hin&<-&<-). by exists (p, q).
Qed.

(** ** The functions, for attached arguments *)
Section here.
  Context (me : eid) (s : st) (HI : Inv me s).
  Lemma attach_if_free_here p : has any me (hp s) p -> attach_if_free me p s = Ok s.
  Proof using HI. intros (it&Hp&He&_). unfold attach_if_free, deref. by rewrite Hp, He. Qed.

  Lemma add_child_f_here p c : has is_frame me (hp s) p -> has is_frame me (hp s) c -> p <> c -> exists s',
    add_child_f me p c s = Ok s' /\ Good true me s s' /\ hp s' = hp s /\
    en s' = with_tree (en s) (if decide (get_parent (en s) c = Some p) then e_tree (en s) else ins plt c p (del_key c (e_tree (en s)))).
  Proof using HI.
    intros Hp Hc Hne. unfold add_child_f. rewrite decide_False by done.
    case_decide as Hpar.
    - exists s. split; [done|]. split; [by apply Good_refl|]. by rewrite with_tree_id.
    - rewrite attach_if_free_here by (by eapply has_any). cbn [obind].
      assert (HR : exists s2, match get_parent (en s) c with Some q => remove_child_f me q c s | None => Ok s end = Ok s2 /\
        Good true me s s2 /\ hp s2 = hp s /\ en s2 = with_tree (en s) (del_key c (e_tree (en s)))).
      { destruct (get_parent (en s) c) as [q|] eqn:Hq.
        - pose proof (remove_child_f_wp False true me q c s HI) as HW. destruct (remove_child_f me q c s) as [s2|?|?|]; try done.
          exists s2. split; [done|]. destruct HW as (?&?&HX). rewrite decide_True in HX by done. done.
        - exists s. split; [done|]. split; [by apply Good_refl|]. rewrite del_key_fresh by done. by rewrite with_tree_id. }
      destruct HR as (s2&->&G2&H2&X2). cbn [obind]. pose proof (g_inv _ _ _ _ G2) as I2.
      assert (Hnone : get_parent (en s2) c = None).
      { unfold get_parent. rewrite X2. simpl. rewrite assoc_del_key. by rewrite decide_True. }
      assert (Hmi : map_ins plt c p (e_tree (en s2)) = ins plt c p (e_tree (en s2))).
      { unfold map_ins. unfold get_parent in Hnone. by rewrite Hnone. }
      rewrite Hmi. rewrite <- H2 in Hc, Hp.
      assert (I3 : Inv me (set_en s2 (with_tree (en s2) (ins plt c p (e_tree (en s2)))))).
      { apply (Inv_tree_ins me s2 I2); auto. }
      unfold emit. rewrite (emit_to_ok me); [|done|by eapply has_any|intros b Hb; simplify_eq; by eapply has_any].
      assert (G3 := Good_tree_ins me s2 I2 true p c Hc Hp (not_eq_sym Hne) Hnone).
      eexists. split; [reflexivity|]. simpl. split; [by eapply Good_trans; [exact G2|exact G3]|]. split; [done|]. by rewrite X2.
  Qed.
  Lemma add_child_l_here p c : has is_layer me (hp s) p -> has is_layer me (hp s) c -> p <> c -> exists s',
    add_child_l me p c s = Ok s' /\ Good true me s s' /\ hp s' = hp s /\
    en s' = with_layers (en s) (if decide (assoc c (e_layers (en s)) = Some p) then e_layers (en s) else ins plt c p (e_layers (en s))).
  Proof using HI.
    intros Hp Hc Hne. unfold add_child_l. rewrite decide_False by done.
    case_decide as Hpar.
    - exists s. split; [done|]. split; [by apply Good_refl|]. by rewrite with_layers_id.
    - rewrite attach_if_free_here by (by eapply has_any). cbn [obind].
      assert (I2 : Inv me (set_en s (with_layers (en s) (ins plt c p (e_layers (en s)))))).
      { apply (Inv_layers_ins me s HI); auto. }
      unfold emit. rewrite (emit_to_ok me); [|done|by eapply has_any|intros b Hb; simplify_eq; by eapply has_any].
      eexists. split; [reflexivity|]. simpl. split; [exact (Good_layers_ins me s HI true p c Hc Hp (not_eq_sym Hne))|]. done.
  Qed.
  Lemma set_frame_here m n : has is_map me (hp s) m -> has is_frame me (hp s) n -> exists s',
    set_frame me m n s = Ok s' /\ Good true me s s' /\ hp s' = hp s /\
    en s' = with_maps (en s) (if decide (get_frame (en s) m = Some n) then e_maps (en s) else ins plt m n (del_key m (e_maps (en s)))).
  Proof using HI.
    intros Hm Hn. unfold set_frame. rewrite attach_if_free_here by (by eapply has_any). cbn [obind].
    destruct Hm as (im&Hpm&Hem&Hkm). unfold deref. rewrite Hpm, Hem. cbn [obind].
    pose proof (place_map_wp False true me m n s HI ltac:(by exists im) Hn) as HW.
    destruct (place_map me m n s) as [s'|?|?|]; try done. by exists s'.
  Qed.
  Lemma remove_child_f_here p c : exists s', remove_child_f me p c s = Ok s' /\ Good true me s s' /\ hp s' = hp s /\
    en s' = with_tree (en s) (if decide (get_parent (en s) c = Some p) then del_key c (e_tree (en s)) else e_tree (en s)).
  Proof using HI.
    pose proof (remove_child_f_wp False true me p c s HI) as HW. destruct (remove_child_f me p c s) as [s'|?|?|]; try done. by exists s'.
  Qed.
  Lemma remove_child_l_here p c : has is_layer me (hp s) p -> has is_layer me (hp s) c -> exists s',
    remove_child_l me p c s = Ok s' /\ Good true me s s' /\ hp s' = hp s /\ en s' = with_layers (en s) (del_one c p (e_layers (en s))).
  Proof using HI.
    intros Hp Hc. pose proof (remove_child_l_wp False true me p c s HI Hc Hp) as HW. destruct (remove_child_l me p c s) as [s'|?|?|]; try done. by exists s'.
  Qed.
  Lemma detach_frame_here m n : exists s', detach_frame me m n s = Ok s' /\ Good true me s s' /\ hp s' = hp s /\
    en s' = with_maps (en s) (if decide (get_frame (en s) m = Some n) then del_key m (e_maps (en s)) else e_maps (en s)).
  Proof using HI.
    pose proof (detach_frame_wp False true me m n s HI) as HW. destruct (detach_frame me m n s) as [s'|?|?|]; try done. by exists s'.
  Qed.
End here.

(** attaching a new object under a complete id that is free *)
Lemma attach_new_here me s c id v : Inv me s -> hp s !! c = None -> proper_id id -> get_item (en s) id = None -> exists s',
  attach_new me c id v s = Ok s' /\ Inv me s' /\ hp s' = <[c := Item v.1 id (Some me) v.2 0 1]> (hp s) /\
  en s' = with_items (en s) (ins str_ltb id c (e_items (en s))).
Proof.
  intros HI Hc [Hs He] Hn. unfold attach_new, attach_core, deref. cbn [put set_hp hp en]. rewrite lookup_insert. cbn [it_env it_id].
  assert (Hid : id <> "") by (intros ->; done). assert (full_id (e_prefix (en s)) id = id) as ->.
  { unfold full_id. rewrite (decide_False (P := id = "")) by done. by rewrite decide_True. }
  rewrite decide_False by done. cbn [obind]. unfold put at 1, set_hp at 1. cbn [hp]. rewrite lookup_insert.
  unfold get_item in Hn. unfold put, set_hp, set_en, with_refs, with_env, with_id. cbn [hp en tr it_id it_kind it_env it_val it_user it_refs].
  rewrite Hn. rewrite !insert_insert.
  set (s1 := St (<[c := Item v.1 id None v.2 0 0]> (hp s)) (en s) (tr s)).
  assert (I1 : Inv me s1).
  { apply (Inv_other me (hp s) _ (en s) (tr s)); [by destruct s| |].
    - split.
      + intros q it Hq Hqe. exists it. split; [|done]. rewrite lookup_insert_ne; [done|]. intros ->. congruence.
      + intros q it Hq Hqe. apply lookup_insert_Some in Hq as [[<- <-]|[_ Hq]]; [done|]. by exists it.
    - intros q it Hq. apply lookup_insert_Some in Hq as [[<- <-]|[_ Hq]]; [done|]. by apply (inv_refs _ _ HI) in Hq. }
  pose proof (Inv_attach me s1 I1 c (Item v.1 id None v.2 0 0)) as HA. unfold s1 in HA. cbn [hp en tr] in HA. rewrite lookup_insert in HA.
  specialize (HA eq_refl eq_refl id Hn Hs He (e_last (en s))). cbn [e_items] in HA. rewrite insert_insert in HA.
  assert (Hx : with_last (en s) (e_last (en s)) = en s) by (by destruct (en s)). rewrite Hx in HA.
  unfold emit. rewrite (emit_to_ok me); [|apply HA| |done].
  - eexists. split; [reflexivity|]. split; [apply HA|]. done.
  - simpl. apply has_insert. by left.
Qed.

(** ** Tables by id *)
Section ids.
  Context (me : eid) (s : st) (HI : Inv me s).
  Let D := has any me (hp s).
  Context (l : list (ptr * ptr)) (HD : forall a b, (a, b) ∈ l -> D a /\ D b).
  Context (k v : ptr) (Dk : D k) (Dv : D v).

  Lemma fun_add i j : NoDup l.*1 ->
    (i, j) ∈ by_id (hp s) (if decide (assoc k l = Some v) then l else ins plt k v (del_key k l)) <->
    (i = idn (hp s) k /\ j = idn (hp s) v) \/ ((i, j) ∈ by_id (hp s) l /\ i <> idn (hp s) k).
  Proof using HI HD Dk Dv.
    intros ND.
    assert (HP : forall a b, (a, b) ∈ (if decide (assoc k l = Some v) then l else ins plt k v (del_key k l)) <-> (a = k /\ b = v) \/ ((a, b) ∈ l /\ a <> k)).
    { intros a b. case_decide as Ha.
      - split.
        + intros Hin. destruct (decide (a = k)) as [->|]; [|by right]. left. split; [done|]. apply assoc_nodup in Hin; [|done]. congruence.
        + intros [[-> ->]|[? _]]; [by apply assoc_in|done].
      - rewrite elem_of_ins, elem_of_del_key. simpl. naive_solver. }
    rewrite !elem_of_by_id. split.
    - intros (p&q&Hin&<-&<-). apply HP in Hin as [[-> ->]|[Hin Hne]]; [by left|]. right. split; [by exists p, q|].
      intros Hid. apply Hne. apply (inv_id_inj me s HI); [by apply (HD p q)|done|done].
    - intros [[-> ->]|[(p&q&Hin&<-&<-) Hne]]; [exists k, v|exists p, q]; rewrite HP; [auto|]. split; [|done]. right. split; [done|]. by intros ->.
  Qed.
  Lemma fun_del i j : NoDup l.*1 ->
    (i, j) ∈ by_id (hp s) (if decide (assoc k l = Some v) then del_key k l else l) <->
    (i, j) ∈ by_id (hp s) l /\ ~ (i = idn (hp s) k /\ j = idn (hp s) v).
  Proof using HI HD Dk Dv.
    intros ND.
    assert (HP : forall a b, (a, b) ∈ (if decide (assoc k l = Some v) then del_key k l else l) <-> (a, b) ∈ l /\ ~ (a = k /\ b = v)).
    { intros a b. case_decide as Ha.
      - rewrite elem_of_del_key. simpl. split; [naive_solver|]. intros [Hin Hne]. split; [done|]. intros ->. apply Hne. split; [done|].
        apply assoc_nodup in Hin; [|done]. congruence.
      - split; [|naive_solver]. intros Hin. split; [done|]. intros [-> ->]. apply Ha. by apply assoc_nodup. }
    rewrite !elem_of_by_id. split.
    - intros (p&q&Hin&<-&<-). apply HP in Hin as [Hin Hne]. split; [by exists p, q|]. intros [H1 H2]. apply Hne. destruct (HD _ _ Hin).
      split; apply (inv_id_inj me s HI); done.
    - intros [(p&q&Hin&<-&<-) Hne]. exists p, q. rewrite HP. split; [|done]. split; [done|]. intros [-> ->]. by apply Hne.
  Qed.
  Lemma set_add i j :
    (i, j) ∈ by_id (hp s) (if decide (assoc k l = Some v) then l else ins plt k v l) <->
    (i = idn (hp s) k /\ j = idn (hp s) v) \/ (i, j) ∈ by_id (hp s) l.
  Proof using HI HD Dk Dv.
    rewrite !elem_of_by_id. case_decide as Ha.
    - split; [by right|]. intros [[-> ->]|H]; [|done]. exists k, v. split; [by apply assoc_in|done].
    - setoid_rewrite elem_of_ins. split.
      + intros (p&q&[Heq|Hin]&<-&<-); [left; naive_solver|right; by exists p, q].
      + intros [[-> ->]|(p&q&Hin&<-&<-)]; [exists k, v|exists p, q]; auto.
  Qed.
  Lemma set_del_other i j : ~ (i = idn (hp s) k /\ j = idn (hp s) v) ->
    (i, j) ∈ by_id (hp s) (del_one k v l) <-> (i, j) ∈ by_id (hp s) l.
  Proof using HI HD Dk Dv.
    intros Hne. rewrite !elem_of_by_id. split.
    - intros (p&q&Hin&<-&<-). apply elem_of_del_one in Hin. by exists p, q.
    - intros (p&q&Hin&<-&<-). exists p, q. split; [|done]. destruct (decide ((k, v) ∈ l)) as [Hk|Hk].
      + apply (del_one_perm k v) in Hk. rewrite <-Hk in Hin. apply elem_of_cons in Hin as [Heq|]; [|done]. injection Heq as -> ->. by destruct Hne.
      + by rewrite del_one_notin.
  Qed.
  Lemma set_del_gone : NoDup l -> ~ (idn (hp s) k, idn (hp s) v) ∈ by_id (hp s) (del_one k v l).
  Proof using HI HD Dk Dv.
    intros ND. rewrite elem_of_by_id. intros (p&q&Hin&Hp&Hq).
    destruct (HD p q) as [Hp' Hq']; [by eapply elem_of_del_one|].
    assert (p = k) as -> by (by apply (inv_id_inj me s HI)). assert (q = v) as -> by (by apply (inv_id_inj me s HI)).
    pose proof Hin as Hl. apply elem_of_del_one in Hl. apply del_one_perm in Hl. rewrite <-Hl in ND. by apply NoDup_cons in ND as [? _].
  Qed.
End ids.
Lemma by_id_idn me s l i j : (forall a b, (a, b) ∈ l -> has any me (hp s) a /\ has any me (hp s) b) -> Inv me s ->
  (i, j) ∈ by_id (hp s) l -> is_Some (content s !! i) /\ is_Some (content s !! j).
Proof.
  intros HD HI (p&q&Hin&<-&<-)%elem_of_by_id. destruct (HD _ _ Hin). rewrite !content_lookup.
  rewrite !(get_item_idn me s HI) by done. split; eauto.
Qed.
(** links only connect items of the environment *)
Lemma linked_known me s t x y : Inv me s -> linked s t x y -> is_Some (content s !! x) /\ is_Some (content s !! y).
Proof.
  intros HI. destruct t; simpl; [done| | | |done]; intros H.
  - apply (by_id_idn me) in H as [? ?]; [done|apply (tree_D me s HI)|done].
  - apply (by_id_idn me) in H as [? ?]; [done|apply (maps_D me s HI)|done].
  - apply (by_id_idn me) in H as [? ?]; [done|apply (layers_D me s HI)|done].
Qed.

(** ** One event *)
Lemma Safe_links me c ev s s' : has is_frame me (hp s) (e_root (en s)) -> Good true me s s' -> hp s' = hp s ->
  (NoDup (e_layers (en s)) -> (ev_type ev = ELayer -> ev_op ev = EAdd -> ~ linked s ELayer (ev_a ev) (ev_b ev)) -> NoDup (e_layers (en s'))) ->
  Safe me c ev s s'.
Proof.
  intros HR HG Hh HL. constructor; [by apply HG..| | | | |done].
  - by rewrite (g_root _ _ _ _ HG), Hh.
  - unfold root_id. by rewrite (g_root _ _ _ _ HG), Hh.
  - apply HG.
  - intros. by rewrite Hh.
Qed.
Lemma Safe_refl me c ev s : has is_frame me (hp s) (e_root (en s)) -> Inv me s -> Safe me c ev s s.
Proof. intros HR HI. apply Safe_links; [done|by apply Good_refl|done|done]. Qed.

Lemma del_one_nodup (k v : positive) l : NoDup l -> NoDup (del_one k v l).
Proof.
  intros HN. destruct (decide ((k, v) ∈ l)) as [Hk|Hk]; [|by rewrite del_one_notin].
  apply del_one_perm in Hk. rewrite <-Hk in HN. by apply NoDup_cons in HN as [_ ?].
Qed.
Section apply.
  Context (me : eid) (s : st) (HI : Inv me s) (HR : has is_frame me (hp s) (e_root (en s))) (c : ptr).

  Lemma apply_tree o a b it : (o = EAdd -> a <> b) -> o <> EUpdate -> kinds_ok s (Ev ETree o a b it) -> exists s',
    apply_event me c (Ev ETree o a b it) s = Ok s' /\ Safe me c (Ev ETree o a b it) s s' /\ effect (Ev ETree o a b it) s s'.
  Proof using HI HR.
    intros Hne Ho HK. unfold apply_event, kinds_ok, effect in *. cbn [ev_type ev_op ev_a ev_b ev_item] in *. rewrite !content_lookup in *.
    destruct (get_item (en s) a) as [p|] eqn:Ha; [destruct (get_item (en s) b) as [q|] eqn:Hb|].
    - destruct (HK _ _ eq_refl eq_refl) as [K1 K2]. destruct (get_item_kind me s HI _ _ _ Ha K1) as [Hp Hpa]. destruct (get_item_kind me s HI _ _ _ Hb K2) as [Hq Hqb].
      pose proof (has_any _ _ _ _ Hp) as Dp. pose proof (has_any _ _ _ _ Hq) as Dq.
      destruct o; [..|done]; cbn [dispatch link2].
      + destruct (add_child_f_here me s HI p q Hp Hq) as (s'&E&G&Hh&Hx); [intros ->; apply Hne; congruence|].
        exists s'. destruct Hp as (ip&Hp0&Hp1&Hp2), Hq as (iq&Hq0&Hq1&Hq2). unfold cast, deref. rewrite Hp0, Hp2, Hq0, Hq2.
        split; [done|]. split; [apply Safe_links; [done..|]; by rewrite Hx|].
        split; [unfold content; by rewrite Hh, Hx|]. intros t x y. unfold linked. rewrite Hh, Hx. destruct t; cbn [with_tree e_tree e_maps e_layers]; try (split; [intros; left; split; [done|]; by intros [? _]|]; intros [[? _]|[? _]]; done).
        unfold get_parent. rewrite (fun_add me s HI (e_tree (en s)) (tree_D me s HI) q p Dq Dp y x) by apply HI. rewrite Hpa, Hqb.
        unfold replaces. cbn [single_end]. split.
        * intros [[-> ->]|[H1 H2]]; [right; eauto 10|]. left. split; [done|]. intros (_&_&_&_&k&Hk1&Hk2). congruence.
        * intros [[H1 H2]|(_&->&->&_)]; [|by left]. destruct (decide (y = b)) as [->|]; [|by right]. destruct (decide (x = a)) as [->|]; [by left|].
          exfalso. apply H2. split; [done|]. split; [congruence|]. split; [done|]. split; [done|]. by exists b.
      + destruct (remove_child_f_here me s HI p q) as (s'&E&G&Hh&Hx).
        exists s'. destruct Hp as (ip&Hp0&Hp1&Hp2), Hq as (iq&Hq0&Hq1&Hq2). unfold cast, deref. rewrite Hp0, Hp2, Hq0, Hq2.
        split; [done|]. split; [apply Safe_links; [done..|]; by rewrite Hx|].
        split; [unfold content; by rewrite Hh, Hx|].
        pose proof (fun i j => fun_del me s HI (e_tree (en s)) (tree_D me s HI) q p Dq Dp i j (inv_tree_nodup _ _ HI)) as HF. rewrite Hpa, Hqb in HF.
        unfold linked. rewrite Hh, Hx. split.
        * intros t x y Hn. destruct t; try done. cbn [with_tree e_tree]. unfold get_parent. rewrite HF. split; [by intros [? _]|]. intros H. split; [done|]. intros [-> ->]. by apply Hn.
        * intros _. cbn [with_tree e_tree]. unfold get_parent. rewrite HF. intros [_ H]. by apply H.
    - destruct o; [..|done]; cbn [dispatch link2]; exists s; (split; [done|]); (split; [by apply Safe_refl|]); (split; [done|]).
      + intros t x y. split; [intros; left; split; [done|]; intros (_&_&_&[? ?]&_); done|]. intros [[? _]|(_&_&_&_&[? ?])]; done.
      + split; [done|]. intros _ H. apply (linked_known me) in H as [_ [? H]]; [|done]. rewrite content_lookup, Hb in H. done.
    - destruct o; [..|done]; cbn [dispatch link2]; exists s; (split; [done|]); (split; [by apply Safe_refl|]); (split; [done|]).
      + intros t x y. split; [intros; left; split; [done|]; intros (_&_&[? ?]&_); done|]. intros [[? _]|(_&_&_&[? ?]&_)]; done.
      + split; [done|]. intros _ H. apply (linked_known me) in H as [[? H] _]; [|done]. rewrite content_lookup, Ha in H. done.
  Qed.
  Lemma apply_frame o a b it : o <> EUpdate -> kinds_ok s (Ev EFrame o a b it) -> exists s',
    apply_event me c (Ev EFrame o a b it) s = Ok s' /\ Safe me c (Ev EFrame o a b it) s s' /\ effect (Ev EFrame o a b it) s s'.
  Proof using HI HR.
    intros Ho HK. unfold apply_event, kinds_ok, effect in *. cbn [ev_type ev_op ev_a ev_b ev_item] in *. rewrite !content_lookup in *.
    destruct (get_item (en s) a) as [p|] eqn:Ha; [destruct (get_item (en s) b) as [q|] eqn:Hb|].
    - destruct (HK _ _ eq_refl eq_refl) as [K1 K2]. destruct (get_item_kind me s HI _ _ _ Ha K1) as [Hp Hpa]. destruct (get_item_kind me s HI _ _ _ Hb K2) as [Hq Hqb].
      pose proof (has_any _ _ _ _ Hp) as Dp. pose proof (has_any _ _ _ _ Hq) as Dq.
      destruct o; [..|done]; cbn [dispatch link2].
      + destruct (set_frame_here me s HI p q Hp Hq) as (s'&E&G&Hh&Hx).
        exists s'. destruct Hp as (ip&Hp0&Hp1&Hp2), Hq as (iq&Hq0&Hq1&Hq2). unfold cast, deref. rewrite Hp0, Hp2, Hq0, Hq2.
        split; [done|]. split; [apply Safe_links; [done..|]; by rewrite Hx|].
        split; [unfold content; by rewrite Hh, Hx|]. intros t x y. unfold linked. rewrite Hh, Hx. destruct t; cbn [with_maps e_tree e_maps e_layers]; try (split; [intros; left; split; [done|]; by intros [? _]|]; intros [[? _]|[? _]]; done).
        unfold get_frame. rewrite (fun_add me s HI (e_maps (en s)) (maps_D me s HI) p q Dp Dq x y) by apply HI. rewrite Hpa, Hqb.
        unfold replaces. cbn [single_end]. split.
        * intros [[-> ->]|[H1 H2]]; [right; eauto 10|]. left. split; [done|]. intros (_&_&_&_&k&Hk1&Hk2). congruence.
        * intros [[H1 H2]|(_&->&->&_)]; [|by left]. destruct (decide (x = a)) as [->|]; [|by right]. destruct (decide (y = b)) as [->|]; [by left|].
          exfalso. apply H2. split; [done|]. split; [congruence|]. split; [done|]. split; [done|]. by exists a.
      + destruct (detach_frame_here me s HI p q) as (s'&E&G&Hh&Hx).
        exists s'. destruct Hp as (ip&Hp0&Hp1&Hp2), Hq as (iq&Hq0&Hq1&Hq2). unfold cast, deref. rewrite Hp0, Hp2, Hq0, Hq2.
        split; [done|]. split; [apply Safe_links; [done..|]; by rewrite Hx|].
        split; [unfold content; by rewrite Hh, Hx|].
        pose proof (fun i j => fun_del me s HI (e_maps (en s)) (maps_D me s HI) p q Dp Dq i j (inv_maps_nodup _ _ HI)) as HF. rewrite Hpa, Hqb in HF.
        unfold linked. rewrite Hh, Hx. split.
        * intros t x y Hn. destruct t; try done. cbn [with_maps e_maps]. unfold get_frame. rewrite HF. split; [by intros [? _]|]. intros H. split; [done|]. intros [-> ->]. by apply Hn.
        * intros _. cbn [with_maps e_maps]. unfold get_frame. rewrite HF. intros [_ H]. by apply H.
    - destruct o; [..|done]; cbn [dispatch link2]; exists s; (split; [done|]); (split; [by apply Safe_refl|]); (split; [done|]).
      + intros t x y. split; [intros; left; split; [done|]; intros (_&_&_&[? ?]&_); done|]. intros [[? _]|(_&_&_&_&[? ?])]; done.
      + split; [done|]. intros _ H. apply (linked_known me) in H as [_ [? H]]; [|done]. rewrite content_lookup, Hb in H. done.
    - destruct o; [..|done]; cbn [dispatch link2]; exists s; (split; [done|]); (split; [by apply Safe_refl|]); (split; [done|]).
      + intros t x y. split; [intros; left; split; [done|]; intros (_&_&[? ?]&_); done|]. intros [[? _]|(_&_&_&[? ?]&_)]; done.
      + split; [done|]. intros _ H. apply (linked_known me) in H as [[? H] _]; [|done]. rewrite content_lookup, Ha in H. done.
  Qed.
  Lemma apply_layer o a b it : (o = EAdd -> a <> b) -> o <> EUpdate -> kinds_ok s (Ev ELayer o a b it) -> exists s',
    apply_event me c (Ev ELayer o a b it) s = Ok s' /\ Safe me c (Ev ELayer o a b it) s s' /\ effect (Ev ELayer o a b it) s s'.
  Proof using HI HR.
    intros Hne Ho HK. unfold apply_event, kinds_ok, effect in *. cbn [ev_type ev_op ev_a ev_b ev_item] in *. rewrite !content_lookup in *.
    destruct (get_item (en s) a) as [p|] eqn:Ha; [destruct (get_item (en s) b) as [q|] eqn:Hb|].
    - destruct (HK _ _ eq_refl eq_refl) as [K1 K2]. destruct (get_item_kind me s HI _ _ _ Ha K1) as [Hp Hpa]. destruct (get_item_kind me s HI _ _ _ Hb K2) as [Hq Hqb].
      pose proof (has_any _ _ _ _ Hp) as Dp. pose proof (has_any _ _ _ _ Hq) as Dq.
      destruct o; [..|done]; cbn [dispatch link2].
      + destruct (add_child_l_here me s HI p q Hp Hq) as (s'&E&G&Hh&Hx); [intros ->; apply Hne; congruence|].
        exists s'. destruct Hp as (ip&Hp0&Hp1&Hp2), Hq as (iq&Hq0&Hq1&Hq2). unfold cast, deref. rewrite Hp0, Hp2, Hq0, Hq2.
        split; [done|]. split; [apply Safe_links; [done..|]; rewrite Hx; cbn [with_layers e_layers]; intros HN Hnl; case_decide; [done|]; rewrite ins_perm; apply NoDup_cons; (split; [|done]); intros Hin; apply (Hnl eq_refl eq_refl); cbn [linked]; apply elem_of_by_id; by exists q, p|].
        split; [unfold content; by rewrite Hh, Hx|]. intros t x y. unfold linked. rewrite Hh, Hx. destruct t; cbn [with_layers e_tree e_maps e_layers]; try (split; [intros; left; split; [done|]; by intros [? _]|]; intros [[? _]|[? _]]; done).
        rewrite (set_add me s HI (e_layers (en s)) (layers_D me s HI) q p Dq Dp y x). rewrite Hpa, Hqb.
        unfold replaces. cbn [single_end]. split.
        * intros [[-> ->]|H1]; [right; eauto 10|]. left. split; [done|]. by intros (_&_&_&_&k&Hk1&Hk2).
        * intros [[H1 _]|(_&->&->&_)]; [by right|by left].
      + destruct (remove_child_l_here me s HI p q Hp Hq) as (s'&E&G&Hh&Hx).
        exists s'. destruct Hp as (ip&Hp0&Hp1&Hp2), Hq as (iq&Hq0&Hq1&Hq2). unfold cast, deref. rewrite Hp0, Hp2, Hq0, Hq2.
        split; [done|]. split; [apply Safe_links; [done..|]; rewrite Hx; cbn [with_layers e_layers]; intros HN _; by apply del_one_nodup|].
        split; [unfold content; by rewrite Hh, Hx|].
        unfold linked. rewrite Hh, Hx. split.
        * intros t x y Hn. destruct t; try done. cbn [with_layers e_layers].
          rewrite (set_del_other me s HI (e_layers (en s)) (layers_D me s HI) q p Dq Dp y x); [done|]. rewrite Hpa, Hqb. intros [-> ->]. by apply Hn.
        * intros [?|HN]; [done|]. cbn [with_layers e_layers]. rewrite <-Hpa, <-Hqb. by apply (set_del_gone me s HI _ (layers_D me s HI) q p Dq Dp).
    - destruct o; [..|done]; cbn [dispatch link2]; exists s; (split; [done|]); (split; [by apply Safe_refl|]); (split; [done|]).
      + intros t x y. split; [intros; left; split; [done|]; intros (_&_&_&[? ?]&_); done|]. intros [[? _]|(_&_&_&_&[? ?])]; done.
      + split; [done|]. intros _ H. apply (linked_known me) in H as [_ [? H]]; [|done]. rewrite content_lookup, Hb in H. done.
    - destruct o; [..|done]; cbn [dispatch link2]; exists s; (split; [done|]); (split; [by apply Safe_refl|]); (split; [done|]).
      + intros t x y. split; [intros; left; split; [done|]; intros (_&_&[? ?]&_); done|]. intros [[? _]|(_&_&_&[? ?]&_)]; done.
      + split; [done|]. intros _ H. apply (linked_known me) in H as [[? H] _]; [|done]. rewrite content_lookup, Ha in H. done.
  Qed.

  Lemma root_of_id p : get_item (en s) (root_id s) = Some p <-> p = e_root (en s).
  Proof using HI HR.
    unfold root_id. rewrite (get_item_idn me s HI); [|by eapply has_any]. naive_solver.
  Qed.

  Lemma set_item_ok p it v : hp s !! p = Some it -> it_env it = Some me -> exists s', set_item me p v s = Ok s' /\ Inv me s' /\ en s' = en s /\
    hp s' = if decide (it_kind it = v.1) then <[p := with_val it v.2]> (hp s) else hp s.
  Proof using HI HR.
    intros Hp He. unfold set_item, deref. rewrite Hp. set (s1 := if decide (it_kind it = v.1) then put p (with_val it v.2) s else s).
    assert (I1 : Inv me s1 /\ en s1 = en s /\ hp s1 = if decide (it_kind it = v.1) then <[p := with_val it v.2]> (hp s) else hp s).
    { unfold s1. case_decide; [|done]. split; [|done]. apply (Inv_other me (hp s) _ (en s) (tr s)); [by destruct s| |].
      - by apply (same_view_put me _ p it).
      - intros q i Hq. apply lookup_insert_Some in Hq as [[<- <-]|[_ Hq]]; [simpl; by apply (inv_refs _ _ HI) in Hp|]. by apply (inv_refs _ _ HI) in Hq. }
    destruct I1 as (I1&X1&H1). unfold emit. rewrite (emit_to_ok me); [|done| |done].
    - eexists. split; [reflexivity|]. split; [by apply (Inv_tr me s1)|]. done.
    - rewrite H1. case_decide; [|by exists it]. exists (with_val it v.2). by rewrite lookup_insert.
  Qed.

  Lemma apply_set p a b v it : get_item (en s) a = Some p -> hp s !! p = Some it -> it_env it = Some me -> forall o s', o <> ERemove ->
    Inv me s' -> en s' = en s -> hp s' = (if decide (it_kind it = v.1) then <[p := with_val it v.2]> (hp s) else hp s) ->
    Safe me c (Ev EItem o a b (Some v)) s s' /\ effect (Ev EItem o a b (Some v)) s s'.
  Proof using HI HR.
    intros Ha Hp He o s' Ho I' X' H'.
    assert (HS : same_view me (hp s) (hp s')). { rewrite H'. case_decide; [by apply (same_view_put me _ p it)|]. split; intros; eauto. }
    assert (HB : forall l, (forall x y, (x, y) ∈ l -> has any me (hp s) x /\ has any me (hp s) y) -> by_id (hp s') l = by_id (hp s) l).
    { intros l Hl. by apply (by_id_same me). }
    assert (HL : forall t x y, linked s' t x y <-> linked s t x y).
    { intros t x y. unfold linked. rewrite X'. destruct t; try done; rewrite HB; try done; [apply (tree_D me s HI)|apply (maps_D me s HI)|apply (layers_D me s HI)]. }
    split.
    - constructor; rewrite ?X'; try done.
      + by apply (has_same me (hp s)).
      + unfold root_id. rewrite X'. apply (idn_same me); [done|by eapply has_any].
      + intros q i e' Hne Hi. rewrite H'. case_decide; [|done]. destruct (decide (q = p)) as [->|Hq].
        * rewrite lookup_insert, Hp. split; intros H1; [injection H1 as <-; congruence|]. injection H1 as <-. simpl in Hi. congruence.
        * by rewrite lookup_insert_ne.
      + intros q _ Hq. rewrite H'. case_decide; [|done]. rewrite lookup_insert_ne; [done|]. intros ->. congruence.
    - assert (HC : content s' = match content s !! a with None => <[a := v]> (content s)
         | Some v0 => if decide (v0.1 = v.1) then <[a := v]> (content s) else content s end).
      { rewrite content_lookup, Ha. cbn [fmap option_fmap option_map]. assert (payload_of (hp s) p = (it_kind it, it_val it)) as -> by (unfold payload_of; by rewrite Hp). cbn [fst].
        apply map_eq. intros i. rewrite content_lookup, X', H'. case_decide as Hk; [|by rewrite content_lookup].
        destruct (decide (i = a)) as [->|Hne].
        - rewrite lookup_insert, Ha. cbn [fmap option_fmap option_map]. unfold payload_of. rewrite lookup_insert. cbn [with_val it_kind it_val]. rewrite Hk. by destruct v.
        - rewrite lookup_insert_ne by done. rewrite content_lookup. destruct (get_item (en s) i) as [q|] eqn:Hq; [|done].
          cbn [fmap option_fmap option_map]. f_equal. unfold payload_of. rewrite lookup_insert_ne; [done|].
          intros <-. apply Hne. destruct (get_item_any me s HI _ _ Ha) as [_ <-]. by destruct (get_item_any me s HI _ _ Hq) as [_ <-]. }
      unfold effect. cbn [ev_type ev_op ev_a ev_b ev_item]. destruct o; [|done|]; (split; [done|]); by intros ? [= <-].
  Qed.

  Lemma apply_new a b v o s' : hp s !! c = None -> get_item (en s) a = None -> o <> ERemove ->
    Inv me s' -> hp s' = <[c := Item v.1 a (Some me) v.2 0 1]> (hp s) -> en s' = with_items (en s) (ins str_ltb a c (e_items (en s))) ->
    Safe me c (Ev EItem o a b (Some v)) s s' /\ effect (Ev EItem o a b (Some v)) s s'.
  Proof using HI HR.
    intros Hc Ha Ho I' H' X'.
    assert (Hold : forall q, has any me (hp s) q -> hp s' !! q = hp s !! q).
    { intros q (iq&Hq&_). rewrite H', lookup_insert_ne; [done|]. intros ->. congruence. }
    assert (Hidn : forall q, has any me (hp s) q -> idn (hp s') q = idn (hp s) q) by (intros q Hq; unfold idn; by rewrite Hold).
    assert (HB : forall l, (forall x y, (x, y) ∈ l -> has any me (hp s) x /\ has any me (hp s) y) -> by_id (hp s') l = by_id (hp s) l).
    { intros l Hl. apply by_id_ext. intros x y Hxy. apply Hl in Hxy as [? ?]. by rewrite !Hidn. }
    assert (HL : forall t x y, linked s' t x y <-> linked s t x y).
    { intros t x y. unfold linked. rewrite X'. destruct t; try done; cbn [with_items e_tree e_maps e_layers]; rewrite HB; try done; [apply (tree_D me s HI)|apply (maps_D me s HI)|apply (layers_D me s HI)]. }
    split.
    - constructor; rewrite ?X'; try done.
      + destruct HR as (ir&Hr&?&?). exists ir. simpl. rewrite Hold; [done|by exists ir].
      + unfold root_id. rewrite X'. apply Hidn. by eapply has_any.
      + intros q i e' Hne Hi. rewrite H'. destruct (decide (q = c)) as [->|Hq].
        * rewrite lookup_insert, Hc. split; intros H1; [done|]. injection H1 as <-. simpl in Hi. congruence.
        * by rewrite lookup_insert_ne.
      + intros q Hq Hn. by rewrite H', lookup_insert_ne.
    - assert (HC : content s' = <[a := v]> (content s)).
      { apply map_eq. intros i. rewrite content_lookup, X'. unfold get_item in *. cbn [with_items e_items]. rewrite assoc_ins by done.
        destruct (decide (i = a)) as [->|Hne].
        - rewrite lookup_insert. rewrite ?decide_True by done. cbn [fmap option_fmap option_map]. unfold payload_of. rewrite H', lookup_insert. by destruct v.
        - rewrite lookup_insert_ne by done. rewrite content_lookup. rewrite ?decide_False by done. unfold get_item.
          destruct (assoc i (e_items (en s))) as [q|] eqn:Hq; [|done]. cbn [fmap option_fmap option_map]. f_equal. unfold payload_of.
          rewrite Hold; [done|]. by apply (get_item_any me s HI i). }
      unfold effect. cbn [ev_type ev_op ev_a ev_b ev_item]. assert (content s !! a = None) as -> by (by rewrite content_lookup, Ha).
      destruct o; [|done|]; (split; [done|]); by intros ? [= <-].
  Qed.

  Lemma apply_remove a b it : exists s',
    apply_event me c (Ev EItem ERemove a b it) s = Ok s' /\ Safe me c (Ev EItem ERemove a b it) s s' /\ effect (Ev EItem ERemove a b it) s s'.
  Proof using HI HR.
    unfold apply_event, effect. cbn [ev_type ev_op ev_a ev_b ev_item dispatch].
    destruct (get_item (en s) a) as [p|] eqn:Ha.
    - destruct (decide (p = e_root (en s))) as [Hpr|Hpr].
      + exists s. split; [done|]. split; [by apply Safe_refl|]. rewrite decide_True; [done|]. subst p. destruct (get_item_any me s HI _ _ Ha) as [_ <-]. done.
      + assert (Har : a <> root_id s). { intros ->. apply Hpr. by apply root_of_id. }
        destruct (get_item_has me s HI _ _ Ha) as (it0&Hp&He&Hid). destruct (detach_drop_ok me s p it0 HI Hp He) as (s'&Hd&HRm).
        exists s'. rewrite (decide_False (P := a = root_id s)) by done. split; [done|].
        assert (Hout : forall q, q <> p -> hp s' !! q = hp s !! q).
        { intros q Hq. apply (r_heap _ _ _ _ HRm). by rewrite elem_of_list_singleton. }
        assert (Hidn : forall q, q <> p -> idn (hp s') q = idn (hp s) q) by (intros q Hq; unfold idn; by rewrite Hout).
        assert (Hpi : forall q, has any me (hp s) q -> idn (hp s) q = a <-> q = p).
        { intros q Hq. destruct (get_item_any me s HI _ _ Ha) as [Dp <-]. split; [|by intros ->]. intros Heq. by apply (inv_id_inj me s HI). }
        assert (HB : forall l, (forall x y, (x, y) ∈ l -> has any me (hp s) x /\ has any me (hp s) y) -> forall x y,
           (x, y) ∈ by_id (hp s') (outside [p] l) <-> (x, y) ∈ by_id (hp s) l /\ x <> a /\ y <> a).
        { intros l Hl x y. rewrite !elem_of_by_id. split.
          - intros (u&w&Hin&<-&<-). apply elem_of_outside in Hin as (Hin&Hu&Hw). rewrite elem_of_list_singleton in Hu, Hw. destruct (Hl _ _ Hin).
            rewrite !Hidn by done. split; [by exists u, w|]. rewrite !Hpi by done. done.
          - intros ((u&w&Hin&<-&<-)&Hu&Hw). destruct (Hl _ _ Hin). rewrite Hpi in Hu, Hw by done. exists u, w. rewrite !Hidn by done.
            rewrite elem_of_outside, !elem_of_list_singleton. done. }
        pose proof (r_good _ _ _ _ HRm) as HG.
        assert (Hrt : e_root (en s') = e_root (en s)) by apply HG.
        split.
        * constructor; [by apply HG..| | | | |].
          -- rewrite Hrt. destruct HR as (ir&?&?&?). exists ir. by rewrite Hout.
          -- unfold root_id. rewrite Hrt. by apply Hidn.
          -- apply HG.
          -- intros q _ Hq. rewrite Hout; [done|]. intros ->. congruence.
          -- intros HN _. rewrite (r_layers _ _ _ _ HRm). by apply NoDup_filter.
        * split.
          -- apply map_eq. intros i. rewrite content_lookup. unfold get_item. rewrite (r_items _ _ _ _ HRm), <-(items_without me s p it0 HI Hp He), assoc_del_key, Hid.
             case_decide as Hi; [subst i; by rewrite lookup_delete|]. rewrite lookup_delete_ne by done. rewrite content_lookup. unfold get_item.
             destruct (assoc i (e_items (en s))) as [q|] eqn:Hq; [|done]. cbn [fmap option_fmap option_map]. f_equal. unfold payload_of. rewrite Hout; [done|].
             intros ->. apply Hi. destruct (get_item_any me s HI _ _ Ha) as [_ <-]. by destruct (get_item_any me s HI _ _ Hq) as [_ <-].
          -- intros t x y. unfold linked. destruct t; [naive_solver| | | |naive_solver].
             ++ rewrite (r_tree _ _ _ _ HRm), HB by apply (tree_D me s HI). tauto.
             ++ rewrite (r_maps _ _ _ _ HRm), HB by apply (maps_D me s HI). tauto.
             ++ rewrite (r_layers _ _ _ _ HRm), HB by apply (layers_D me s HI). tauto.
    - exists s. split; [done|]. split; [by apply Safe_refl|].
      assert (Hn : content s !! a = None) by (by rewrite content_lookup, Ha).
      case_decide; [done|]. split; [by rewrite delete_notin|]. intros t x y. split; [|by intros [? _]].
      intros H0. split; [done|]. apply (linked_known me) in H0 as [[? ?] [? ?]]; [|done]. split; congruence.
  Qed.
End apply.

(** Every event that makes sense can be applied to every well formed environment. *)
Theorem apply_event_ok me c ev s :
  Inv me s -> has is_frame me (hp s) (e_root (en s)) -> hp s !! c = None -> event_ok ev -> kinds_ok s ev -> ~ null_update s ev ->
  exists s', apply_event me c ev s = Ok s' /\ Safe me c ev s s' /\ effect ev s s'.
Proof.
  intros HI HR Hc HE HK HN. destruct ev as [ty o a b it].
  destruct ty.
  - destruct o.
    + destruct HE as [Hid [v Hv]]. cbn in Hid, Hv. subst it. unfold apply_event. cbn [ev_type ev_op ev_a ev_b ev_item dispatch].
      destruct (get_item (en s) a) as [p|] eqn:Ha.
      * destruct (get_item_has me s HI _ _ Ha) as (it0&Hp&He&Hid0). destruct (set_item_ok me s HI HR p it0 v Hp He) as (s'&E&I'&X'&H').
        exists s'. split; [done|]. by apply (apply_set me s HI HR c p a b v it0 Ha Hp He EAdd s').
      * destruct (attach_new_here me s c a v HI Hc Hid Ha) as (s'&E&I'&H'&X'). exists s'. split; [done|].
        by apply (apply_new me s HI HR c a b v EAdd s').
    + by apply apply_remove.
    + destruct HE as [Hid [v Hv]]. cbn in Hid, Hv. subst it. unfold apply_event. cbn [ev_type ev_op ev_a ev_b ev_item dispatch].
      destruct (get_item (en s) a) as [p|] eqn:Ha.
      * destruct (get_item_has me s HI _ _ Ha) as (it0&Hp&He&Hid0). destruct (set_item_ok me s HI HR p it0 v Hp He) as (s'&E&I'&X'&H').
        exists s'. split; [done|]. by apply (apply_set me s HI HR c p a b v it0 Ha Hp He EUpdate s').
      * destruct (attach_new_here me s c a v HI Hc Hid Ha) as (s'&E&I'&H'&X'). exists s'. rewrite E. cbn [obind].
        assert (e_handlers (en s') = []) as ->.
        { rewrite X'. simpl. destruct (e_handlers (en s)) eqn:Hh; [done|]. exfalso. apply HN. unfold null_update. rewrite Hh, content_lookup. cbn. by rewrite Ha. }
        split; [done|]. by apply (apply_new me s HI HR c a b v EUpdate s').
  - apply apply_tree; [done|done| |by intros ->|done]. intros ->. exact HE.
  - apply apply_frame; [done|done|by intros ->|done].
  - apply apply_layer; [done|done| |by intros ->|done]. intros ->. exact HE.
  - destruct o; [..|done]; (exists s; split; [done|]; split; [by apply Safe_refl|done]).
Qed.
