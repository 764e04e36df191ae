(** attachItem *)
From stdpp Require Import prelude strings gmap pretty.
From Verif Require Import Base AssocLemmas EnvModel EnvSpec EnvLib EnvGood.

Lemma first_char_app a b c : first_char a = Some c -> first_char (a +:+ b) = Some c.
Proof. by destruct a. Qed.
Lemma full_id_slash prefix id :
  first_char prefix = Some slash -> first_char (full_id prefix id) = Some slash.
Proof. intros. unfold full_id. repeat case_decide; auto using first_char_app. Qed.

(** a number never ends with a slash *)
Lemma last_char_app a b c : last_char b = Some c -> last_char (a +:+ b) = Some c.
Proof.
  intros Hb. induction a as [|x a IH]; [done|]. change (String x a +:+ b) with (String x (a +:+ b)).
  simpl. rewrite IH. destruct (a +:+ b) eqn:Hab; [|done]. destruct a; [|done]. by change (b = "") in Hab; subst.
Qed.
Lemma pretty_go_last (x : N) : forall s c, last_char s = Some c -> last_char (pretty_N_go x s) = Some c.
Proof.
  induction (N.lt_wf_0 x) as [x _ IH]; intros s c Hs. destruct (decide (x = 0)%N) as [->|Hx]; [by rewrite pretty_N_go_0|].
  rewrite pretty_N_go_step by lia. apply IH; [apply N.div_lt; lia|]. simpl. by destruct s.
Qed.
Lemma pretty_char_slash n : pretty_N_char n <> slash.
Proof. unfold pretty_N_char, slash. repeat case_match; discriminate. Qed.
Lemma pretty_N_last (x : N) : exists c, last_char (pretty x) = Some c /\ c <> slash.
Proof.
  unfold pretty, pretty_N. case_decide as Hx; [by exists (Ascii.ascii_of_nat 48)|].
  rewrite pretty_N_go_step by lia. eexists. split; [by apply pretty_go_last|]. apply pretty_char_slash.
Qed.
Lemma pretty_Z_last (n : Z) : exists c, last_char (pretty n) = Some c /\ c <> slash.
Proof.
  unfold pretty, pretty_Z. destruct n as [|x|x].
  - by exists (Ascii.ascii_of_nat 48).
  - apply pretty_N_last.
  - destruct (pretty_N_last (Npos x)) as (c&Hc&Hn). exists c. split; [|done]. by apply (last_char_app "-").
Qed.

Lemma has_insert f e h p it' q :
  has f e (<[p := it']> h) q <->
  (q = p /\ it_env it' = Some e /\ f (it_kind it') = true) \/ (q <> p /\ has f e h q).
Proof.
  unfold has. split.
  - intros (it&Hq&He&Hf). apply lookup_insert_Some in Hq. naive_solver.
  - intros [(->&He&Hf)|(Hne&it&Hq&He&Hf)].
    + exists it'. by rewrite lookup_insert.
    + exists it. by rewrite lookup_insert_ne.
Qed.
Lemma idn_insert_ne h p it q : q <> p -> idn (<[p := it]> h) q = idn h q.
Proof. intros. unfold idn. by rewrite lookup_insert_ne. Qed.
Lemma payload_insert_ne h p it q : q <> p -> payload_of (<[p := it]> h) q = payload_of h q.
Proof. intros. unfold payload_of. by rewrite lookup_insert_ne. Qed.

Section other_item.
  (** changing an item that is not attached here does not change the links *)
  Context (me : eid) (s : st) (HI : Inv me s) (p : ptr).
  Context (Hp : ~ has any me (hp s) p).

  Lemma has_ne f q : has f me (hp s) q -> q <> p.
  Proof using Hp. intros Hq ->. apply Hp. eauto using has_any. Qed.

  Lemma by_id_other h' l :
    (forall a b, (a, b) ∈ l -> has any me (hp s) a /\ has any me (hp s) b) ->
    (forall q, q <> p -> h' !! q = hp s !! q) -> by_id h' l = by_id (hp s) l.
  Proof using Hp.
    intros Hl Hh. apply by_id_ext. intros a b Hab. apply Hl in Hab as [Ha Hb].
    unfold idn. rewrite !Hh; eauto using has_ne.
  Qed.
  Lemma items_other h' :
    (forall q, q <> p -> h' !! q = hp s !! q) ->
    (fun ip => (ip.1, payload_of h' ip.2)) <$> e_items (en s)
    = (fun ip => (ip.1, payload_of (hp s) ip.2)) <$> e_items (en s).
  Proof using HI Hp.
    intros Hh. apply list_fmap_ext. intros i [id q] Hi. apply elem_of_list_lookup_2 in Hi.
    apply (inv_items _ _ HI) in Hi as (it&Hq&He&_). simpl. unfold payload_of. rewrite Hh; [done|].
    apply (has_ne any). by exists it.
  Qed.
  Lemma mirrors_other m h' x :
    e_items x = e_items (en s) -> e_tree x = e_tree (en s) -> e_maps x = e_maps (en s) -> e_layers x = e_layers (en s) ->
    (forall q, q <> p -> h' !! q = hp s !! q) ->
    mirrors m (hp s) (en s) -> mirrors m h' x.
  Proof using HI Hp.
    intros E1 E2 E3 E4 Hh (M1&M2&M3&M4). unfold mirrors. rewrite E1, E2, E3, E4.
    rewrite (items_other h' Hh).
    rewrite !(by_id_other h'); auto; intros a b Hab.
    - apply (inv_layers _ _ HI) in Hab as (?&?&_). eauto using has_any.
    - apply (inv_maps _ _ HI) in Hab as (?&?). eauto using has_any.
    - apply (inv_tree _ _ HI) in Hab as (?&?&_). eauto using has_any.
  Qed.
End other_item.

(** an unattached item changes its id *)
Lemma Inv_rename me s p it id' t :
  Inv me s -> hp s !! p = Some it -> it_env it = None ->
  Inv me (St (<[p := with_id it id']> (hp s)) (en s) t).
Proof.
  intros HI Hp He.
  assert (Hnot : ~ has any me (hp s) p) by (intros (it'&?&?&_); naive_solver).
  assert (Hhas : forall f q, has f me (hp s) q -> has f me (<[p := with_id it id']> (hp s)) q).
  { intros f q Hq. apply has_insert. right. split; [by eapply has_ne|done]. }
  constructor; simpl; try apply HI.
  - intros id q. rewrite (inv_items _ _ HI). split.
    + intros (it1&Hq&He1&Hid). exists it1. split; [|done]. rewrite lookup_insert_ne; [done|]. intros ->. naive_solver.
    + intros (it1&Hq&He1&Hid). apply lookup_insert_Some in Hq as [[<- <-]|[Hne Hq]]; [simpl in He1; congruence|]. eauto.
  - intros c q Hin. apply (inv_tree _ _ HI) in Hin as (?&?&?). eauto.
  - intros c q Hin. apply (inv_layers _ _ HI) in Hin as (?&?&?). eauto.
  - intros c q Hin. apply (inv_in _ _ HI) in Hin as (?&?). eauto.
  - intros c q Hin. apply (inv_out _ _ HI) in Hin as (?&?). eauto.
  - intros c q Hin. apply (inv_maps _ _ HI) in Hin as (?&?). eauto.
  - intros q it1 Hq. apply lookup_insert_Some in Hq as [[<- <-]|[Hne Hq]]; [|by apply (inv_refs _ _ HI) in Hq].
    simpl. by apply (inv_refs _ _ HI) in Hp.
Qed.

Definition attached_as (it : item) (me : eid) (id : string) : item :=
  Item (it_kind it) id (Some me) (it_val it) (it_user it) (S (it_refs it)).

Section attach.
  Context (me : eid) (s : st) (HI : Inv me s) (p : ptr) (it : item).
  Context (Hp : hp s !! p = Some it) (He : it_env it = None).
  Context (id' : string) (Hfree : assoc id' (e_items (en s)) = None) (Hslash : first_char id' = Some slash) (Hend : last_char id' <> Some slash) (l' : Z).
  Let h' := <[p := attached_as it me id']> (hp s).
  Let x' := with_items (with_last (en s) l') (ins str_ltb id' p (e_items (en s))).

  Lemma attach_not : ~ has any me (hp s) p.
  Proof using He Hp. intros (it1&Hq&Hq2&_). rewrite Hp in Hq. injection Hq as <-. rewrite He in Hq2. discriminate Hq2. Qed.

  Lemma Inv_attach t : Inv me (St h' x' t).
  Proof using HI He Hfree Hp Hslash Hend.
    pose proof attach_not as Hnot.
    assert (Hhas : forall f q, has f me (hp s) q -> has f me h' q).
    { intros f q Hq. apply has_insert. right. split; [by eapply has_ne|done]. }
    constructor; simpl; try apply HI.
    - intros id q. rewrite elem_of_ins, (inv_items _ _ HI). split.
      + intros [Heq|(it1&Hq&He1&Hid)].
        * injection Heq as -> ->. exists (attached_as it me id'). unfold h'. by rewrite lookup_insert.
        * exists it1. split; [|done]. unfold h'. rewrite lookup_insert_ne; [done|]. intros ->. naive_solver.
      + intros (it1&Hq&He1&Hid). unfold h' in Hq. apply lookup_insert_Some in Hq as [[<- <-]|[Hne Hq]].
        * left. simpl in Hid. by subst.
        * right. eauto.
    - apply ins_nodup; [done|apply HI].
    - intros c q Hin. apply (inv_tree _ _ HI) in Hin as (?&?&?). eauto.
    - intros c q Hin. apply (inv_layers _ _ HI) in Hin as (?&?&?). eauto.
    - intros c q Hin. apply (inv_in _ _ HI) in Hin as (?&?). eauto.
    - intros c q Hin. apply (inv_out _ _ HI) in Hin as (?&?). eauto.
    - intros c q Hin. apply (inv_maps _ _ HI) in Hin as (?&?). eauto.
    - intros q it1 Hq. unfold h' in Hq. apply lookup_insert_Some in Hq as [[<- <-]|[Hne Hq]]; [|by apply (inv_refs _ _ HI) in Hq].
      simpl. apply (inv_refs _ _ HI) in Hp. rewrite He in Hp. lia.
    - intros id q [?|Hin]%elem_of_ins; [naive_solver|]. by apply (inv_slash _ _ HI) in Hin.
    - intros id q [?|Hin]%elem_of_ins; [naive_solver|]. by apply (inv_end _ _ HI) in Hin.
  Qed.

  Lemma attach_mirrors m :
    mirrors m (hp s) (en s) ->
    exists m', mstep m (mk_event h' EItem EAdd p None) = Some m' /\ mirrors m' h' x'.
  Proof using HI He Hfree Hp.
    intros HM. pose proof attach_not as Hnot.
    assert (Hh : forall q, q <> p -> h' !! q = hp s !! q) by (intros; unfold h'; by rewrite lookup_insert_ne).
    assert (Hidp : idn h' p = id') by (unfold idn, h'; by rewrite lookup_insert).
    unfold mk_event, mstep. simpl. rewrite Hidp.
    rewrite decide_True by (eapply (mirrors_no_item me s); eauto).
    eexists. split; [done|].
    pose proof (mirrors_other me s HI p Hnot m h' (en s) eq_refl eq_refl eq_refl eq_refl Hh HM) as (M1&M2&M3&M4).
    repeat split; simpl; try done.
    rewrite M1. rewrite (list_to_map_proper ((fun ip => (ip.1, payload_of h' ip.2)) <$> ins str_ltb id' p (e_items (en s)))
       ((fun ip => (ip.1, payload_of h' ip.2)) <$> (id', p) :: e_items (en s))); [done| |].
    - rewrite <- list_fmap_compose. change ((fun ip : string * positive => ip.1) <$> ?l) with (l.*1).
      apply ins_nodup; [done|apply HI].
    - by rewrite ins_perm.
  Qed.

  Lemma Good_attach :
    Good false me s (St h' x' (tr s ++ deliver me (e_handlers (en s)) [mk_event h' EItem EAdd p None])).
  Proof using HI He Hfree Hp Hslash Hend.
    pose proof attach_not as Hnot. constructor; simpl.
    - apply Inv_attach.
    - done.
    - done.
    - done.
    - intros q it' Hq. unfold h' in Hq. apply lookup_insert_Some in Hq as [[<- <-]|[Hne Hq]]; eauto 10.
    - intros q it1 e' Hne He1. unfold h'. split; intros Hq.
      + rewrite lookup_insert_ne; [done|]. intros ->. naive_solver.
      + apply lookup_insert_Some in Hq as [[<- <-]|[Hne' Hq]]; [simpl in He1; congruence|done].
    - intros q it1 Hq _. unfold h'. destruct (decide (q = p)) as [->|]; [rewrite lookup_insert|rewrite lookup_insert_ne by done]; by eexists.
    - intros q it1 Hq He1. exists it1. split; [|done]. unfold h'. rewrite lookup_insert_ne; [done|]. intros ->. naive_solver.
    - exists [mk_event h' EItem EAdd p None]. split; [reflexivity|]. intros m HM. destruct (attach_mirrors m HM) as (m'&Hs&Hm'). exists m'. simpl. by rewrite Hs.
  Qed.
End attach.

(** What attaching does. [Ok]: the item was unattached, has now a free id of the requested form; nothing else
    changed but the counter. [Throw]: nothing changed but possibly the id of the (unattached) item. *)
Definition id_form (prefix old new : string) : Prop :=
  let f := full_id prefix old in
  (last_char f <> Some slash /\ new = f) \/ (last_char f = Some slash /\ exists n : Z, new = f +:+ pretty n).

Definition attach_post (me : eid) (p : ptr) (s : st) (it : item) (s' : st) : Prop :=
  it_env it = None /\
  exists id' l', id_form (e_prefix (en s)) (it_id it) id' /\ assoc id' (e_items (en s)) = None /\
  hp s' = <[p := attached_as it me id']> (hp s) /\
  en s' = with_items (with_last (en s) l') (ins str_ltb id' p (e_items (en s))) /\
  tr s' = tr s ++ deliver me (e_handlers (en s)) [mk_event (hp s') EItem EAdd p None].

Definition attach_throw (me : eid) (p : ptr) (s : st) (it : item) (s' : st) : Prop :=
  en s' = en s /\ tr s' = tr s /\
  ((it_env it <> None /\ hp s' = hp s) \/
   (it_env it = None /\ last_char (full_id (e_prefix (en s)) (it_id it)) <> Some slash /\
    assoc (full_id (e_prefix (en s)) (it_id it)) (e_items (en s)) <> None /\
    hp s' = <[p := with_id it (full_id (e_prefix (en s)) (it_id it))]> (hp s))).

Lemma attach_core_wp E k me p s it :
  Inv me s -> hp s !! p = Some it -> it_env it = None \/ it_env it = Some me -> E \/ room (S k) s ->
  wp E (attach_core me p s)
     (fun s' => Good false me s s' /\ attach_post me p s it s' /\ (E \/ room k s'))
     (fun s' => Inv me s' /\ attach_throw me p s it s').
Proof.
  intros HI Hp He Hroom. unfold attach_core, deref. rewrite Hp.
  destruct (it_env it) as [e2|] eqn:Hit.
  - destruct He as [|He]; [done|]. simplify_eq. simpl. rewrite Hp.
    assert (assoc (it_id it) (e_items (en s)) = Some p) as -> by (apply (inv_assoc _ _ HI); eauto).
    simpl. split; [done|]. repeat split. left. split; [congruence|done].
  - set (f := full_id (e_prefix (en s)) (it_id it)).
    assert (Hfs : first_char f = Some slash) by (apply full_id_slash, HI).
    assert (Hfin : forall l' id', assoc id' (e_items (en s)) = None -> first_char id' = Some slash -> last_char id' <> Some slash ->
      id_form (e_prefix (en s)) (it_id it) id' ->
      (E \/ (e_last (en s) <= l' <= e_last (en s) + 1 + Z.of_nat (length (e_items (en s))))%Z) ->
      let s1 := put p (with_id it id') (set_en s (with_last (en s) l')) in
      wp E (emit me EItem EAdd p None
             (put p (with_refs (with_env (with_id it id') (Some me)) (it_user it) (S (it_refs it)))
               (set_en s1 (with_items (en s1) (ins str_ltb id' p (e_items (en s1)))))))
       (fun s' => Good false me s s' /\ attach_post me p s it s' /\ (E \/ room k s'))
       (fun s' => Inv me s' /\ attach_throw me p s it s')).
    { intros l' id' Hn Hsl Hse Hform Hb s1. unfold emit. subst s1. simpl.
      match goal with |- context [emit_to _ _ _ _ _ _ ?S] => set (s2 := S) end.
      assert (Hs2 : s2 = St (<[p := attached_as it me id']> (hp s))
         (with_items (with_last (en s) l') (ins str_ltb id' p (e_items (en s)))) (tr s)).
      { unfold s2, put, set_en, set_hp. simpl. by rewrite insert_insert. }
      clearbody s2. subst s2.
      rewrite (emit_to_ok me).
      + simpl. split; [by eapply Good_attach|]. split; [split; [done|]; by exists id', l'|].
        destruct Hroom as [|[Hr1 Hr2]]; [by left|]. destruct Hb as [|Hb]; [by left|]. right.
        unfold room. simpl. rewrite length_ins. split; [lia|]. nia.
      + by apply Inv_attach.
      + simpl. apply has_insert. left. done.
      + done. }
    case_decide as Hsl.
    + pose proof (search_id_wp E k s f Hroom) as Hsrch. fold f.
      destruct (search_id (S (length (e_items (en s)))) (e_items (en s)) f (wrap_int (e_last (en s) + 1))) as [n|?|?|];
        simpl in *; try done.
      destruct Hsrch as [Hsrch Hb].
      rewrite lookup_insert. simpl. rewrite Hsrch. apply (Hfin n); [done|by apply first_char_app| |right; eauto|].
      { destruct (pretty_Z_last n) as (c&Hc&Hne). rewrite (last_char_app f _ _ Hc). congruence. }
      destruct Hb; [by left|right; lia].
    + fold f. simpl. rewrite lookup_insert. simpl. destruct (assoc f (e_items (en s))) eqn:Ha.
      * simpl. split; [by apply Inv_rename|]. repeat split. right. repeat split; try done. fold f. congruence.
      * pose proof (Hfin (e_last (en s)) f Ha Hfs Hsl) as HF. simpl in HF.
        assert (Hx : with_last (en s) (e_last (en s)) = en s) by (by destruct (en s)). rewrite Hx in HF.
        apply HF; [left; done|]. right. lia.
Qed.
