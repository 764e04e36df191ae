(** Lemmas for Persist.v: the two phases of loading. *)
From Coq Require Import ZArith String Sorted.
From stdpp Require Import prelude strings gmap pretty relations.
From Verif Require Import Base AssocLemmas EnvModel EnvSpec EnvLib EnvGood EnvAttach EnvWorld Ids Persist.

(** ** Documents *)
Lemma scalar_nodup (n : node) key v : NoDup n.*1 -> scalar n key = Some v <-> (key, v) ∈ n.
Proof.
  intros ND. unfold scalar. rewrite assoc_nodup.
  - by rewrite elem_of_reverse.
  - rewrite fmap_reverse. by rewrite reverse_Permutation.
Qed.

Lemma write_files_notin l (fs : files) name : name ∉ l.*1 -> write_files l fs !! name = fs !! name.
Proof.
  unfold write_files. revert fs. induction l as [|[a b] l IH]; intros fs; simpl; [done|].
  rewrite not_elem_of_cons. intros [? ?]. rewrite IH by done. by rewrite lookup_insert_ne.
Qed.
Lemma write_files_in l (fs : files) name data : NoDup l.*1 -> (name, data) ∈ l -> write_files l fs !! name = Some data.
Proof.
  unfold write_files. revert fs. induction l as [|[a b] l IH]; intros fs; simpl; [intros _ H; by apply not_elem_of_nil in H|].
  intros [Hn ND]%NoDup_cons [Heq|Hin]%elem_of_cons; [|by apply IH].
  injection Heq as -> ->. fold (write_files l (<[a:=b]> fs)). rewrite write_files_notin by done. by rewrite lookup_insert.
Qed.

(** ** Objects *)
Definition loaded (me : eid) (it : item) : item := Item (it_kind it) (it_id it) (Some me) (it_val it) 0 1.

(** The factory of a class reads what the class writes. *)
Definition stable (c : codec) (k : kind) (v : Z) : Prop :=
  NoDup (c_fields c k v).*1 /\ "class" ∉ (c_fields c k v).*1 /\ "id" ∉ (c_fields c k v).*1 /\
  exists f, find_class (c_reg c) (c_class c k v) = Some f /\
  forall id rd fs,
    (forall key y, (key, y) ∈ c_fields c k v -> rd key = Some y) ->
    (forall ext data, (ext, data) ∈ c_streams c k v -> fs (map_file_name (c_class c k v) id +:+ ext) = Some data) ->
    f rd id fs = Some (k, v).

Lemma obj_node_nodup c it : stable c (it_kind it) (it_val it) -> NoDup (obj_node c it).*1.
Proof.
  intros (?&?&?&_). unfold obj_node. rewrite !fmap_cons. simpl. constructor; [|constructor; done].
  rewrite not_elem_of_cons. done.
Qed.

Lemma Inv_put me s p it t :
  Inv me s -> hp s !! p = None -> it_env it = None -> it_refs it = it_user it ->
  Inv me (St (<[p := it]> (hp s)) (en s) t).
Proof.
  intros HI Hp He Hr.
  assert (Hnot : ~ has any me (hp s) p) by (intros (it'&?&?&_); congruence).
  assert (Hhas : forall f q, has f me (hp s) q -> has f me (<[p := it]> (hp s)) q).
  { intros f q Hq. apply has_insert. right. split; [by eapply has_ne|done]. }
  constructor; simpl; try apply HI.
  - intros id q. rewrite (inv_items _ _ HI). split.
    + intros (it1&Hq&He1&Hid). exists it1. split; [|done]. rewrite lookup_insert_ne; [done|]. intros ->. congruence.
    + intros (it1&Hq&He1&Hid). apply lookup_insert_Some in Hq as [[<- <-]|[Hne Hq]]; [congruence|]. eauto.
  - intros a q Hin. apply (inv_tree _ _ HI) in Hin as (?&?&?). eauto.
  - intros a q Hin. apply (inv_layers _ _ HI) in Hin as (?&?&?). eauto.
  - intros a q Hin. apply (inv_in _ _ HI) in Hin as (?&?). eauto.
  - intros a q Hin. apply (inv_out _ _ HI) in Hin as (?&?). eauto.
  - intros a q Hin. apply (inv_maps _ _ HI) in Hin as (?&?). eauto.
  - intros q it1 Hq. apply lookup_insert_Some in Hq as [[<- <-]|[Hne Hq]]; [|by apply (inv_refs _ _ HI) in Hq].
    rewrite He. lia.
Qed.

Definition with_root (x : env) (r : ptr) : env :=
  Env (e_items x) (e_tree x) (e_layers x) (e_in x) (e_out x) (e_maps x) r (e_prefix x) (e_last x) (e_handlers x).
Lemma Inv_root me h x t r : Inv me (St h x t) -> Inv me (St h (with_root x r) t).
Proof. intros HI. constructor; simpl; apply HI. Qed.
Lemma Inv_last me h x t l : Inv me (St h x t) -> Inv me (St h (with_last x l) t).
Proof. intros HI. constructor; simpl; apply HI. Qed.

Lemma attach_new me s p k id v :
  hp s !! p = None -> e_handlers (en s) = [] -> first_char id = Some slash -> last_char id <> Some slash ->
  assoc id (e_items (en s)) = None ->
  attach_core me p (put p (Item k id None v 0 0) s)
  = Ok (St (<[p := Item k id (Some me) v 0 1]> (hp s)) (with_items (en s) (ins str_ltb id p (e_items (en s)))) (tr s)).
Proof.
  intros Hp Hh Hf Hl Ha. unfold attach_core, deref, put, set_hp. simpl. rewrite lookup_insert. simpl.
  assert (full_id (e_prefix (en s)) id = id) as ->.
  { unfold full_id. rewrite (decide_False (P := id = "")) by (intros ->; discriminate Hf). by rewrite decide_True. }
  rewrite decide_False by done. simpl. rewrite lookup_insert. simpl. rewrite Ha.
  unfold emit, emit_to, deref, put, set_hp. simpl. rewrite Hh. simpl.
  rewrite lookup_insert. unfold drop_temp. simpl. rewrite lookup_insert. simpl.
  rewrite !insert_insert, app_nil_r. done.
Qed.

Lemma load_obj_ok c me fs p it s last :
  Inv me s -> hp s !! p = None -> e_handlers (en s) = [] -> stable c (it_kind it) (it_val it) ->
  first_char (it_id it) = Some slash -> last_char (it_id it) <> Some slash -> assoc (it_id it) (e_items (en s)) = None ->
  (it_id it = "/0" -> it_kind it = KFrame) ->
  (forall name data, (name, data) ∈ obj_files c it -> fs !! name = Some data) ->
  exists s', load_obj c me fs p (obj_node c it) s last
    = Ok (s', match id_number (it_id it) with Some i => if decide (last < i)%Z then i else last | None => last end) /\
    Inv me s' /\ hp s' = <[p := loaded me it]> (hp s) /\ tr s' = tr s /\
    en s' = with_root (with_items (en s) (ins str_ltb (it_id it) p (e_items (en s))))
                      (if decide (it_id it = "/0") then p else e_root (en s)).
Proof.
  intros HI Hp Hh HS Hf Hl Ha Hk Hfs. pose proof (obj_node_nodup c it HS) as ND.
  destruct HS as (HS1&HS2&HS3&f&Hfc&HS4). unfold load_obj.
  assert (scalar (obj_node c it) "class" = Some (c_class c (it_kind it) (it_val it))) as ->.
  { apply scalar_nodup; [done|]. unfold obj_node. left. }
  rewrite Hfc.
  assert (scalar (obj_node c it) "id" = Some (it_id it)) as ->.
  { apply scalar_nodup; [done|]. unfold obj_node. right. left. }
  simpl. unfold old_id. rewrite Hf, decide_True by done.
  rewrite (HS4 (it_id it) (scalar (obj_node c it)) (fun name => fs !! name)).
  - rewrite Hp, attach_new by done. simpl. unfold deref. simpl. rewrite lookup_insert. simpl.
    assert (HI' : Inv me (St (<[p := loaded me it]> (hp s)) (with_items (en s) (ins str_ltb (it_id it) p (e_items (en s)))) (tr s))).
    { pose proof (Inv_put me s p (Item (it_kind it) (it_id it) None (it_val it) 0 0) (tr s) HI Hp eq_refl eq_refl) as HP.
      pose proof (Inv_attach me _ HP p _ (lookup_insert _ _ _) eq_refl (it_id it) Ha Hf Hl (e_last (en s)) (tr s)) as HQ.
      simpl in HQ. rewrite insert_insert in HQ. unfold attached_as in HQ. simpl in HQ. unfold loaded.
      destruct (en s). exact HQ. }
    destruct (decide (it_id it = "/0")) as [E|E].
    + rewrite decide_True by auto. rewrite (Hk E). simpl. eexists. split; [reflexivity|].
      split; [|split; [|split; [done|done]]].
      * unfold loaded in HI'. rewrite Hk in HI' by done. apply (Inv_root _ _ _ _ p) in HI'. exact HI'.
      * unfold loaded. by rewrite Hk.
    + rewrite decide_False by (intros [E'|?]; [rewrite E' in Hf; discriminate Hf|done]). simpl.
      eexists. split; [reflexivity|]. split; [exact HI'|]. split; [done|]. split; [done|]. by destruct (en s).
  - intros key y Hin. apply scalar_nodup; [done|]. unfold obj_node. right. by right.
  - intros ext data Hin. apply Hfs. unfold obj_files. apply elem_of_list_fmap. by exists (ext, data).
Qed.

(** what is known after the objects were loaded *)
Lemma load_objs_ok c me fs : forall (ps : list ptr) (its : list item) s last,
  length ps = length its -> Inv me s -> e_handlers (en s) = [] ->
  NoDup ps -> (forall p, p ∈ ps -> hp s !! p = None) ->
  NoDup (it_id <$> its) ->
  (forall it, it ∈ its -> stable c (it_kind it) (it_val it) /\
     first_char (it_id it) = Some slash /\ last_char (it_id it) <> Some slash /\ assoc (it_id it) (e_items (en s)) = None /\
     (it_id it = "/0" -> it_kind it = KFrame) /\
     (forall name data, (name, data) ∈ obj_files c it -> fs !! name = Some data)) ->
  exists s' last', load_objs c me fs (zip ps (obj_node c <$> its)) s last = Ok (s', last') /\
    Inv me s' /\ tr s' = tr s /\
    (forall q, q ∉ ps -> hp s' !! q = hp s !! q) /\
    (forall p it, (p, it) ∈ zip ps its -> hp s' !! p = Some (loaded me it)) /\
    (forall id p, (id, p) ∈ e_items (en s') <-> (id, p) ∈ e_items (en s) \/ exists it, (p, it) ∈ zip ps its /\ it_id it = id) /\
    e_tree (en s') = e_tree (en s) /\ e_layers (en s') = e_layers (en s) /\ e_in (en s') = e_in (en s) /\
    e_out (en s') = e_out (en s) /\ e_maps (en s') = e_maps (en s) /\ e_handlers (en s') = [] /\
    e_prefix (en s') = e_prefix (en s) /\
    (forall p it, (p, it) ∈ zip ps its -> it_id it = "/0" -> e_root (en s') = p) /\
    ((forall it, it ∈ its -> it_id it <> "/0") -> e_root (en s') = e_root (en s)) /\
    (last <= last')%Z /\
    (forall it n, it ∈ its -> id_number (it_id it) = Some n -> (n <= last')%Z) /\
    (last' = last \/ exists it, it ∈ its /\ id_number (it_id it) = Some last').
Proof.
  induction ps as [|p ps IH]; intros [|it its] s last Hlen HI Hh NDp Hfree NDi Hits; try discriminate.
  - exists s, last. split; [done|]. simpl. do 3 (split; [done|]). split; [by intros ?? ?%elem_of_nil|]. split.
    { intros id q. split; [auto|]. intros [?|(it&Hin&_)]; [done|]. by apply elem_of_nil in Hin. }
    do 7 (split; [done|]). split; [by intros ?? ?%elem_of_nil|]. split; [done|]. split; [done|].
    split; [by intros ?? ?%elem_of_nil|]. by left.
  - injection Hlen as Hlen. apply NoDup_cons in NDp as [Hp NDp]. rewrite fmap_cons in NDi. apply NoDup_cons in NDi as [Hi NDi].
    destruct (Hits it (elem_of_list_here _ _)) as (HS&Hf&Hl&Ha&Hk&Hfs).
    destruct (load_obj_ok c me fs p it s last HI (Hfree p (elem_of_list_here _ _)) Hh HS Hf Hl Ha Hk Hfs)
      as (s1&E1&HI1&Hhp1&Htr1&Hen1).
    set (last1 := match id_number (it_id it) with Some i => if decide (last < i)%Z then i else last | None => last end) in *.
    edestruct (IH its s1 last1) as (s'&last'&E&HI'&Htr&Hhp&Hnew&Hitems&Ht1&Ht2&Ht3&Ht4&Ht5&Hh'&Hpre&Hroot&Hroot2&Hlast&Hmax&Hex); try done.
    + by rewrite Hen1.
    + intros q Hq. rewrite Hhp1, lookup_insert_ne by (by intros ->). apply Hfree. by right.
    + intros it' Hin. destruct (Hits it' (elem_of_list_further _ _ _ Hin)) as (HS'&Hf'&Hl'&Ha'&Hk'&Hfs').
      do 3 (split; [done|]). split; [|done]. rewrite Hen1. simpl. rewrite assoc_ins by done.
      rewrite decide_False; [done|]. intros Heq. apply Hi. rewrite <- Heq. by apply elem_of_list_fmap_1.
    + exists s', last'. change (zip (p :: ps) (obj_node c <$> it :: its)) with ((p, obj_node c it) :: zip ps (obj_node c <$> its)).
      cbn [load_objs]. rewrite E1. cbn [obind fst snd]. split; [exact E|]. split; [done|].
      assert (Hzip : forall q it', (q, it') ∈ zip ps its -> q ∈ ps /\ it' ∈ its).
      { intros q it' Hin. split; [by eapply elem_of_zip_l|by eapply elem_of_zip_r]. }
      split; [congruence|]. split.
      { intros q [? ?]%not_elem_of_cons. rewrite Hhp by done. by rewrite Hhp1, lookup_insert_ne. }
      split.
      { intros q it' Hin. simpl in Hin. apply elem_of_cons in Hin as [Heq|Hin]; [|by apply Hnew]. injection Heq as -> ->.
        rewrite Hhp by done. by rewrite Hhp1, lookup_insert. }
      split.
      { intros id q. rewrite Hitems, Hen1. simpl. rewrite elem_of_ins. split.
        - intros [[Heq|Hin]|(it'&Hin&Hid)].
          + injection Heq as -> ->. right. exists it. split; [|done]. apply elem_of_list_here.
          + by left.
          + right. exists it'. split; [|done]. by apply elem_of_list_further.
        - intros [Hin|(it'&Hin&Hid)]; [by left; right|].
          apply elem_of_cons in Hin as [Heq|Hin]; [injection Heq as -> ->; subst; by left; left|].
          right. eauto. }
      rewrite Ht1, Ht2, Ht3, Ht4, Ht5, Hpre, Hen1. do 7 (split; [done|]). split.
      { intros q it' Hin Hid. apply elem_of_cons in Hin as [Heq|Hin]; [|by eapply Hroot].
        injection Heq as -> ->. rewrite Hroot2, Hen1; [simpl; by rewrite decide_True|].
        intros it'' Hin'' Hid''. apply Hi. rewrite Hid, <- Hid''. by apply elem_of_list_fmap_1. }
      split.
      { intros Hno. rewrite Hroot2, Hen1; [|intros it' Hin; apply Hno; by right]. simpl.
        rewrite decide_False; [done|]. apply Hno. left. }
      assert (last <= last1)%Z by (unfold last1; repeat case_match; lia).
      split; [lia|]. split.
      { intros it' n [->|Hin]%elem_of_cons Hn; [|by eapply Hmax]. enough (n <= last1)%Z by lia.
        unfold last1. rewrite Hn. destruct (decide (last < n)%Z); lia. }
      destruct Hex as [->|(it'&Hin&Hn)]; [|right; exists it'; split; [by right|done]].
      unfold last1. destruct (id_number (it_id it)) as [i|] eqn:Ei; [|by left].
      destruct (decide (last < i)%Z); [|by left].
      right. exists it. split; [left|done].
Qed.

(** ** Links *)
Lemma iter_out_app {S A} (f : A -> S -> out S S) l1 l2 s :
  iter_out f (l1 ++ l2) s = (s1 <~ iter_out f l1 s ;; iter_out f l2 s1).
Proof.
  revert s. induction l1 as [|a l1 IH]; intros s; [done|]. cbn [app iter_out].
  destruct (f a s); simpl; [apply IH|done|done|done].
Qed.

Section Links.
  Context (me e : eid) (h hp' : gmap positive item) (items' : list (string * ptr)) (phi : ptr -> ptr).
  Context (Hphi : forall a it, h !! a = Some it -> it_env it = Some e ->
     assoc (it_id it) items' = Some (phi a) /\ hp' !! phi a = Some (loaded me it) /\ first_char (it_id it) = Some slash).

  Lemma find_item_ok f a (n : node) key s : hp s = hp' -> e_items (en s) = items' -> has f e h a ->
    scalar n key = Some (idn h a) -> find_item f n key s = Ok (phi a).
  Proof using Hphi.
    intros Hh Hi (it&Ha&He&Hf) Hs. destruct (Hphi a it Ha He) as (H1&H2&H3).
    unfold find_item. rewrite Hs. unfold idn. rewrite Ha. unfold old_id. rewrite H3, decide_True by done.
    unfold get_item. rewrite Hi, H1. unfold deref. rewrite Hh, H2. simpl. by rewrite Hf.
  Qed.

  Definition img (ab : ptr * ptr) : ptr * ptr := (phi ab.1, phi ab.2).
  Definition put_all (F : ptr -> ptr -> list (ptr * ptr) -> list (ptr * ptr)) (t acc : list (ptr * ptr)) : list (ptr * ptr) :=
    foldl (fun acc ab => F (phi ab.1) (phi ab.2) acc) acc t.

  Lemma link_node_some ty ka kb f g a b : has f e h a -> has g e h b ->
    link_node ty ka kb h (a, b) = Some [("type", ty); (ka, idn h a); (kb, idn h b)].
  Proof. intros (ia&Ha&_) (ib&Hb&_). unfold link_node, idn. simpl. by rewrite Ha, Hb. Qed.


  Lemma links_gen ty ka kb f g F (get : env -> list (ptr * ptr)) (upd : env -> list (ptr * ptr) -> env) :
    (forall x l, get (upd x l) = l) -> (forall x, upd x (get x) = x) -> (forall x l l', upd (upd x l) l' = upd x l') ->
    (forall x l, e_items (upd x l) = e_items x) ->
    (forall s a b, hp s = hp' -> e_items (en s) = items' -> has f e h a -> has g e h b ->
       load_link [("type", ty); (ka, idn h a); (kb, idn h b)] s = Ok (set_en s (upd (en s) (F (phi a) (phi b) (get (en s)))))) ->
    forall t s, hp s = hp' -> e_items (en s) = items' -> (forall a b, (a, b) ∈ t -> has f e h a /\ has g e h b) ->
    exists ns, mapM (link_node ty ka kb h) t = Some ns /\
      iter_out load_link ns s = Ok (set_en s (upd (en s) (put_all F t (get (en s))))).
  Proof using Hphi.
    intros G1 G2 G3 G4 HL t. induction t as [|[a b] t IH]; intros s Hh Hi Ht.
    - exists []. split; [done|]. simpl. rewrite G2. by destruct s.
    - destruct (Ht a b (elem_of_list_here _ _)) as [Ha Hb].
      destruct (IH (set_en s (upd (en s) (F (phi a) (phi b) (get (en s)))))) as (ns&E&En).
      + done.
      + simpl. by rewrite G4.
      + intros a' b' Hin. apply Ht. by right.
      + exists ([("type", ty); (ka, idn h a); (kb, idn h b)] :: ns). split.
        * cbn [mapM]. rewrite (link_node_some _ _ _ f g) by done. simpl. by rewrite E.
        * cbn [iter_out]. rewrite (HL s a b) by done. cbn [obind]. rewrite En. simpl. unfold set_en. simpl. by rewrite G1, G3.
  Qed.

  Ltac one := intros s a b Hh Hi Ha Hb; unfold load_link; cbv [scalar reverse]; cbn [rev_append assoc]; simpl;
    rewrite (find_item_ok _ a _ _ s Hh Hi Ha) by done; cbn [obind]; rewrite (find_item_ok _ b _ _ s Hh Hi Hb) by done; done.

  Lemma tree_links t s : hp s = hp' -> e_items (en s) = items' -> (forall a b, (a, b) ∈ t -> has is_frame e h a /\ has is_frame e h b) ->
    exists ns, mapM (link_node "frameNodeTree" "child" "parent" h) t = Some ns /\
      iter_out load_link ns s = Ok (set_en s (with_tree (en s) (put_all (map_ins plt) t (e_tree (en s))))).
  Proof using Hphi. revert t s. apply (links_gen _ _ _ _ _ _ e_tree with_tree); [done|by intros []|done|done|]. one. Qed.
  Lemma layer_links t s : hp s = hp' -> e_items (en s) = items' -> (forall a b, (a, b) ∈ t -> has is_layer e h a /\ has is_layer e h b) ->
    exists ns, mapM (link_node "layerTree" "child" "parent" h) t = Some ns /\
      iter_out load_link ns s = Ok (set_en s (with_layers (en s) (put_all (ins plt) t (e_layers (en s))))).
  Proof using Hphi. revert t s. apply (links_gen _ _ _ _ _ _ e_layers with_layers); [done|by intros []|done|done|]. one. Qed.
  Lemma in_links t s : hp s = hp' -> e_items (en s) = items' -> (forall a b, (a, b) ∈ t -> has is_op e h a /\ has is_layer e h b) ->
    exists ns, mapM (link_node "operatorGraphInput" "operator" "layer" h) t = Some ns /\
      iter_out load_link ns s = Ok (set_en s (with_in (en s) (put_all (ins plt) t (e_in (en s))))).
  Proof using Hphi. revert t s. apply (links_gen _ _ _ _ _ _ e_in with_in); [done|by intros []|done|done|]. one. Qed.
  Lemma out_links t s : hp s = hp' -> e_items (en s) = items' -> (forall a b, (a, b) ∈ t -> has is_op e h a /\ has is_layer e h b) ->
    exists ns, mapM (link_node "operatorGraphOutput" "operator" "layer" h) t = Some ns /\
      iter_out load_link ns s = Ok (set_en s (with_out (en s) (put_all (ins plt) t (e_out (en s))))).
  Proof using Hphi. revert t s. apply (links_gen _ _ _ _ _ _ e_out with_out); [done|by intros []|done|done|]. one. Qed.
  Lemma map_links t s : hp s = hp' -> e_items (en s) = items' -> (forall a b, (a, b) ∈ t -> has is_map e h a /\ has is_frame e h b) ->
    exists ns, mapM (link_node "cartesianMapGraph" "map" "node" h) t = Some ns /\
      iter_out load_link ns s = Ok (set_en s (with_maps (en s) (put_all (map_ins plt) t (e_maps (en s))))).
  Proof using Hphi. revert t s. apply (links_gen _ _ _ _ _ _ e_maps with_maps); [done|by intros []|done|done|]. one. Qed.

  (** *** the tables afterwards *)
  Lemma phi_inj a b : (forall id p q, h !! p <> None -> idn h p = id -> idn h q = id -> has any e h p -> has any e h q -> p = q) ->
    has any e h a -> has any e h b -> phi a = phi b -> a = b.
  Proof using Hphi.
    intros Hinj Ha Hb Heq. pose proof Ha as (ia&Ha1&Ha2&_). pose proof Hb as (ib&Hb1&Hb2&_).
    destruct (Hphi a ia Ha1 Ha2) as (_&H1&_). destruct (Hphi b ib Hb1 Hb2) as (_&H2&_). rewrite Heq, H2 in H1.
    injection H1 as E1 E2 E3. apply (Hinj (idn h a) a b); auto; [congruence|]. unfold idn. by rewrite Ha1, Hb1.
  Qed.
End Links.

Section Tables.
  Context (phi : ptr -> ptr) (D : ptr -> Prop) (Hinj : forall a b, D a -> D b -> phi a = phi b -> a = b).

  Lemma put_all_elem F t acc ab :
    (forall k v l x, x ∈ F k v l -> x = (k, v) \/ x ∈ l) -> ab ∈ put_all phi F t acc -> ab ∈ acc \/ ab ∈ img phi <$> t.
  Proof.
    intros HF. unfold put_all. revert acc. induction t as [|[a b] t IH]; intros acc; [auto|]. cbn [foldl].
    intros [Hin|Hin]%IH; [|right; by right]. apply HF in Hin as [->|Hin]; [right; by left|auto].
  Qed.
  Lemma map_ins_elem {K V} `{!EqDecision K} (ltb : K -> K -> bool) (k : K) (v : V) l x : x ∈ map_ins ltb k v l -> x = (k, v) \/ x ∈ l.
  Proof. unfold map_ins. case_match; [auto|]. apply elem_of_ins. Qed.
  Lemma ins_elem {K V} `{!EqDecision K} (ltb : K -> K -> bool) (k : K) (v : V) l x : x ∈ ins ltb k v l -> x = (k, v) \/ x ∈ l.
  Proof. apply elem_of_ins. Qed.
  Lemma map_ins_nodup {K V} `{!EqDecision K} (ltb : K -> K -> bool) (k : K) (v : V) l : NoDup l.*1 -> NoDup (map_ins ltb k v l).*1.
  Proof. unfold map_ins. intros. case_match; [done|by apply ins_nodup]. Qed.
  Lemma put_map_nodup t acc : NoDup acc.*1 -> NoDup (put_all phi (map_ins plt) t acc).*1.
  Proof. unfold put_all. revert acc. induction t as [|ab t IH]; intros acc ND; [done|]. cbn [foldl]. apply IH. by apply map_ins_nodup. Qed.

  Lemma put_map_assoc t acc a :
    D a -> (forall k v, (k, v) ∈ t -> D k) ->
    assoc (phi a) (put_all phi (map_ins plt) t acc)
    = match assoc (phi a) acc with Some v => Some v | None => phi <$> assoc a t end.
  Proof using Hinj.
    intros Ha. unfold put_all. revert acc. induction t as [|[k v] t IH]; intros acc Ht; cbn [foldl assoc].
    - by destruct (assoc (phi a) acc).
    - rewrite IH by (intros k' v' Hin; eapply Ht; by right). simpl. unfold map_ins.
      destruct (assoc (phi k) acc) as [u|] eqn:Ek.
      + destruct (assoc (phi a) acc) as [u'|] eqn:Ea; [done|]. rewrite decide_False; [done|]. intros ->. congruence.
      + rewrite assoc_ins by done. case_decide as Hd.
        * assert (a = k) as -> by (apply Hinj; [done|eapply Ht; left|done]). rewrite Ek. by rewrite decide_True.
        * destruct (assoc (phi a) acc) as [u'|] eqn:Ea; [done|]. rewrite decide_False; [done|]. congruence.
  Qed.

  (** equal keys of a multimap stay in order of insertion *)
  Definition sorted (l : list (ptr * ptr)) : Prop := StronglySorted (fun a b => plt b.1 a.1 = false) l.
  Lemma ins_sorted k v l : sorted l -> sorted (ins plt k v l).
  Proof.
    unfold sorted. induction l as [|[k' v'] l IH]; simpl; intros HS.
    - constructor; [constructor|constructor].
    - inversion_clear HS as [|? ? HS' HF]. destruct (plt k k') eqn:E.
      + constructor; [by constructor|]. constructor; simpl.
        * unfold plt in *. apply Pos.ltb_lt in E. apply Pos.ltb_ge. lia.
        * eapply Forall_impl; [exact HF|]. intros [k2 v2]. simpl. unfold plt in *. apply Pos.ltb_lt in E. rewrite !Pos.ltb_ge. lia.
      + constructor; [auto|]. apply Forall_forall. intros [k2 v2] [Heq|Hin]%elem_of_ins; simpl.
        * injection Heq as -> ->. done.
        * rewrite Forall_forall in HF. apply (HF (k2, v2) Hin).
  Qed.
  Lemma values_of_cons (k k' v : ptr) l : values_of k ((k', v) :: l) = if decide (k' = k) then v :: values_of k l else values_of k l.
  Proof. unfold values_of. rewrite filter_cons. simpl. by case_decide. Qed.
  Lemma values_of_ins k k' v l : sorted l ->
    values_of k (ins plt k' v l) = values_of k l ++ (if decide (k' = k) then [v] else []).
  Proof.
    unfold sorted. induction l as [|[k2 v2] l IH]; cbn [ins]; intros HS.
    - rewrite values_of_cons. by case_decide.
    - inversion_clear HS as [|? ? HS' HF]. destruct (plt k' k2) eqn:E.
      + rewrite values_of_cons. case_decide as Hd; [|by rewrite app_nil_r]. subst k'.
        assert (values_of k ((k2, v2) :: l) = []) as ->; [|done].
        unfold values_of. rewrite list_filter_none; [done|]. intros [k3 v3] Hin. simpl. intros ->.
        unfold plt in *. apply Pos.ltb_lt in E. apply elem_of_cons in Hin as [Heq|Hin]; [injection Heq as -> ->; lia|].
        rewrite Forall_forall in HF. apply HF in Hin. simpl in Hin. apply Pos.ltb_ge in Hin. lia.
      + rewrite !values_of_cons. rewrite IH by done. by destruct (decide (k2 = k)).
  Qed.
  Lemma put_ins_values t acc a : sorted acc -> D a -> (forall k v, (k, v) ∈ t -> D k) ->
    values_of (phi a) (put_all phi (ins plt) t acc) = values_of (phi a) acc ++ (phi <$> values_of a t).
  Proof using Hinj.
    intros HS Ha. unfold put_all. revert acc HS. induction t as [|[k v] t IH]; intros acc HS Ht; cbn [foldl].
    - by rewrite app_nil_r.
    - rewrite IH; [|by apply ins_sorted|intros k' v' Hin; eapply Ht; by right]. simpl.
      rewrite values_of_ins by done. rewrite <- (assoc_L (++)). f_equal. rewrite values_of_cons.
      case_decide as Hd.
      + assert (k = a) as -> by (apply Hinj; [eapply Ht; left|done|done]). by rewrite decide_True.
      + rewrite decide_False; [done|]. congruence.
  Qed.
End Tables.
