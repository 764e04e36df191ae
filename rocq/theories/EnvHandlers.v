(** Registration and removal of event handlers. *)
From stdpp Require Import prelude strings gmap pretty relations.
From Verif Require Import Base AssocLemmas EnvModel EnvSpec EnvLib EnvGood EnvAttach EnvLinks EnvLinks2 EnvDetach EnvDeep.

(** ** What is emitted *)
Definition tree_add (h : gmap positive item) (cp : ptr * ptr) : event := mk_event h ETree EAdd cp.2 (Some cp.1).
Definition tree_rem (h : gmap positive item) (cp : ptr * ptr) : event := mk_event h ETree ERemove cp.2 (Some cp.1).
Definition map_add (h : gmap positive item) (mn : ptr * ptr) : event := mk_event h EFrame EAdd mn.1 (Some mn.2).
Definition map_rem (h : gmap positive item) (mn : ptr * ptr) : event := mk_event h EFrame ERemove mn.1 (Some mn.2).

(** links below [p], parents first *)
Fixpoint pre_links (x : env) (n : nat) (p : ptr) : list (ptr * ptr) :=
  match n with
  | O => []
  | S n => get_children x p ≫= (fun c => (c, p) :: pre_links x n c)
  end.
(** links strictly below [p] in the order of their removal; [inl]: frame link, [inr]: map placement *)
Fixpoint post_links (x : env) (n : nat) (p : ptr) : list (ptr * ptr + ptr * ptr) :=
  match n with
  | O => []
  | S n => get_children x p ≫= (fun c =>
      post_links x n c ++ ((fun m => inr (m, c)) <$> get_maps x c) ++ [inl (c, p)])
  end.
Definition rem_event (h : gmap positive item) (k : ptr * ptr + ptr * ptr) : event :=
  match k with inl cp => tree_rem h cp | inr mn => map_rem h mn end.

Definition reg_events (h : gmap positive item) (x : env) : list event :=
  ((fun ip => mk_event h EItem EAdd ip.2 None) <$> e_items x) ++
  [mk_event h ERoot EAdd (e_root x) None] ++
  (tree_add h <$> pre_links x (S (S (length (e_tree x)))) (e_root x)) ++
  (map_add h <$> e_maps x).
Definition unreg_events (h : gmap positive item) (x : env) : list event :=
  (rem_event h <$> post_links x (S (S (length (e_tree x)))) (e_root x)) ++
  [mk_event h ERoot ERemove (e_root x) None] ++
  ((fun ip => mk_event h EItem ERemove ip.2 None) <$> e_items x).

Lemma add_tr_app s t1 t2 : add_tr (add_tr s t1) t2 = add_tr s (t1 ++ t2).
Proof. unfold add_tr. simpl. by rewrite app_assoc. Qed.
Lemma add_tr_nil s : add_tr s [] = s.
Proof. unfold add_tr. rewrite app_nil_r. by destruct s. Qed.
Lemma Inv_add_tr me s t : Inv me s -> Inv me (add_tr s t).
Proof. apply Inv_tr. Qed.

Lemma iter_emit {A} me hs (f : A -> st -> M) (ev : A -> list event) L : forall s,
  (forall c t, c ∈ L -> f c (add_tr s t) = Ok (add_tr s (t ++ deliver me hs (ev c)))) ->
  forall t, iter_out f L (add_tr s t) = Ok (add_tr s (t ++ deliver me hs (L ≫= ev))).
Proof.
  induction L as [|c L IH]; intros s Hf t; simpl; [by rewrite app_nil_r|].
  rewrite Hf by left. simpl. rewrite IH by (intros; apply Hf; by right). by rewrite deliver_app, app_assoc.
Qed.

Lemma height_S x n p : height x n p -> height x (S n) p.
Proof. revert p. induction n as [|n IH]; intros p; [done|]. intros H c Hc. apply IH. by apply H. Qed.

Lemma bind_fmap {A B C} (f : B -> C) (g : A -> list B) (l : list A) : f <$> (l ≫= g) = l ≫= (fun x => f <$> g x).
Proof. induction l as [|a l IH]; [done|]. rewrite !bind_cons, fmap_app. by rewrite IH. Qed.
Lemma bind_ext {A B} (f g : A -> list B) (l : list A) : (forall x, x ∈ l -> f x = g x) -> l ≫= f = l ≫= g.
Proof. intros H. induction l as [|a l IH]; [done|]. rewrite !bind_cons. rewrite H by left. rewrite IH; [done|]. intros. apply H. by right. Qed.
Lemma bind_single {A B} (f : A -> B) (l : list A) : l ≫= (fun x => [f x]) = f <$> l.
Proof. induction l as [|a l IH]; [done|]. rewrite bind_cons, IH. done. Qed.

Lemma NoDup_bind {A B} (f : A -> list B) (l : list A) :
  (forall x1 x2 y, x1 ∈ l -> x2 ∈ l -> y ∈ f x1 -> y ∈ f x2 -> x1 = x2) ->
  (forall x, x ∈ l -> NoDup (f x)) -> NoDup l -> NoDup (l ≫= f).
Proof.
  intros Hinj Hf Hl. induction Hl as [|x l Hx Hl IH]; [constructor|]. rewrite bind_cons. apply NoDup_app.
  split; [apply Hf; left|]. split.
  - intros y Hy Hin. apply elem_of_list_bind in Hin as (x'&Hy'&Hx'). apply Hx.
    rewrite (Hinj x x' y); [done|left|by right|done|done].
  - apply IH; [|intros; apply Hf; by right]. intros x1 x2 y H1 H2. apply Hinj; by right.
Qed.

Section handler.
  Context (me : eid) (h : hid) (s : st) (HI : Inv me s).

  Lemma emit1 t o a b tt : has any me (hp s) a -> (forall b', b = Some b' -> has any me (hp s) b') ->
    emit_to [h] me t o a b (add_tr s tt) = Ok (add_tr s (tt ++ deliver me [h] [mk_event (hp s) t o a b])).
  Proof using HI. intros. rewrite (emit_to_ok me); [|by apply Inv_add_tr|done|done]. by rewrite add_tr_app. Qed.

  Lemma publish_ok n : forall p tt, height (en s) n p ->
    publish_childs n me h p (add_tr s tt) =
    Ok (add_tr s (tt ++ deliver me [h] (tree_add (hp s) <$> pre_links (en s) n p))).
  Proof using HI.
    induction n as [|n IH]; intros p tt Hh; [done|]. simpl. rewrite bind_fmap.
    apply (iter_emit me [h]). intros c t Hc. apply elem_of_keys_of in Hc. pose proof Hc as Hc'. apply (tree_D me s HI) in Hc' as [Dc Dp].
    rewrite emit1; [|done|naive_solver]. simpl. rewrite IH by (by apply Hh).
    rewrite <- app_assoc. do 3 f_equal. 
  Qed.

  Lemma detach_childs_ok n : forall p tt, height (en s) n p ->
    detach_childs n me h p (add_tr s tt) =
    Ok (add_tr s (tt ++ deliver me [h] (rem_event (hp s) <$> post_links (en s) n p))).
  Proof using HI.
    induction n as [|n IH]; intros p tt Hh; [done|]. simpl. rewrite bind_fmap.
    apply (iter_emit me [h]). intros c t Hc. apply elem_of_keys_of in Hc. pose proof Hc as Hc'. apply (tree_D me s HI) in Hc' as [Dc Dp].
    rewrite IH by (by apply Hh). simpl.
    rewrite (iter_emit me [h] _ (fun m => [map_rem (hp s) (m, c)])).
    2: { intros m t' Hm. apply elem_of_keys_of in Hm. apply (maps_D me s HI) in Hm as [Dm _]. rewrite emit1; [done|done|naive_solver]. }
    simpl. rewrite emit1; [|done|naive_solver].
    rewrite !fmap_app, !deliver_app, <- !app_assoc. do 5 f_equal.
    rewrite bind_single, <- list_fmap_compose. done.
  Qed.
End handler.

Lemma add_handler_ok me h s : Inv me s -> Acyclic (en s) -> has any me (hp s) (e_root (en s)) ->
  add_handler me h s = Ok (St (hp s) (with_handlers (en s) (e_handlers (en s) ++ [h]))
                              (tr s ++ deliver me [h] (reg_events (hp s) (en s)))).
Proof.
  intros HI HA Hr. unfold add_handler, reg_events.
  rewrite <- (add_tr_nil s) at 2.
  rewrite (iter_emit me [h] _ (fun ip => [mk_event (hp s) EItem EAdd ip.2 None])).
  2: { intros [id p] t Hin. apply (inv_items _ _ HI) in Hin as (it&Hp&He&_). apply emit1; [done|by exists it|done]. }
  cbn [obind]. repeat change (en (add_tr s ?t)) with (en s). rewrite emit1 by done. cbn [obind]. repeat change (en (add_tr s ?t)) with (en s).
  rewrite publish_ok; [|done|apply height_S, height_bound, HA]. cbn [obind].
  repeat change (en (add_tr s ?t)) with (en s).
  rewrite (iter_emit me [h] _ (fun mn => [map_add (hp s) mn])).
  2: { intros [m n] t Hin. apply (maps_D me s HI) in Hin as [Dm Dn]. apply emit1; [done|done|naive_solver]. }
  cbn [obind]. unfold set_en, add_tr. cbn [hp en tr]. do 2 f_equal.
  rewrite !bind_single, !deliver_app, <- !app_assoc. done.
Qed.

Lemma remove_handler_ok me h s : Inv me s -> Acyclic (en s) -> has any me (hp s) (e_root (en s)) ->
  remove_handler me h s = Ok (St (hp s) (with_handlers (en s) (filter (fun x => x <> h) (e_handlers (en s))))
                              (tr s ++ deliver me [h] (unreg_events (hp s) (en s)))).
Proof.
  intros HI HA Hr. unfold remove_handler, unreg_events.
  rewrite <- (add_tr_nil s) at 3.
  rewrite detach_childs_ok; [|done|apply height_S, height_bound, HA].
  cbn [obind]. repeat change (en (add_tr s ?t)) with (en s). rewrite emit1 by done. cbn [obind]. repeat change (en (add_tr s ?t)) with (en s).
  rewrite (iter_emit me [h] _ (fun ip => [mk_event (hp s) EItem ERemove ip.2 None])).
  2: { intros [id p] t Hin. apply (inv_items _ _ HI) in Hin as (it&Hp&He&_). apply emit1; [done|by exists it|done]. }
  cbn [obind]. unfold set_en, add_tr. cbn [hp en tr]. do 2 f_equal.
  rewrite !bind_single, !deliver_app, <- !app_assoc. done.
Qed.

(** ** The links that are published *)
Section links.
  Context (x : env) (HND : NoDup (e_tree x).*1) (HMD : NoDup (e_maps x).*1) (HA : Acyclic x).

  Lemma rtc_last a b : tc (parent_of x) a b -> exists c, rtc (parent_of x) a c /\ parent_of x c b.
  Proof using. intros H. induction H as [a b H|a b c H _ (d&Hd&Hdc)]; [exists a; split; [constructor|done]|]. exists d. split; [by eapply rtc_l|done]. Qed.

  Lemma elem_of_pre_links n : forall p c q, height x n p ->
    (c, q) ∈ pre_links x n p <-> parent_of x c q /\ rtc (parent_of x) q p.
  Proof using.
    induction n as [|n IH]; intros p c q Hh; [done|]. simpl. rewrite elem_of_list_bind. split.
    - intros (d&Hin&Hd). apply elem_of_keys_of in Hd. apply elem_of_cons in Hin as [?|Hin].
      + simplify_eq. split; [done|constructor].
      + apply IH in Hin as [? ?]; [|by apply Hh]. split; [done|]. by eapply rtc_r.
    - intros [Hc Hq]. apply rtc_tc in Hq as [->|Hq].
      + exists c. split; [left|by apply elem_of_keys_of].
      + apply rtc_last in Hq as (d&Hqd&Hd). exists d. split; [right|by apply elem_of_keys_of].
        apply IH; [by apply Hh|done].
  Qed.

  Lemma pre_links_nodup n : forall p, height x n p -> NoDup (pre_links x n p).
  Proof using HND HA.
    induction n as [|n IH]; intros p Hh; [constructor|]. simpl. apply NoDup_bind.
    - intros c d [a b] Hc Hd Ha Hb. apply elem_of_keys_of in Hc, Hd.
      assert (Hab : forall c, parent_of x c p -> (a, b) ∈ (c, p) :: pre_links x n c -> parent_of x a b /\ rtc (parent_of x) a c).
      { intros e He [?|Hin]%elem_of_cons; [simplify_eq; split; [done|constructor]|].
        apply elem_of_pre_links in Hin as [? ?]; [|by apply Hh]. split; [done|]. by eapply rtc_l. }
      apply Hab in Ha as [_ Ha]; [|done]. apply Hab in Hb as [_ Hb]; [|done].
      destruct (comparable x HND a c d Ha Hb) as [H|H]; [|symmetry]; by eapply siblings.
    - intros c Hc. apply elem_of_keys_of in Hc. apply NoDup_cons. split; [|apply IH; by apply Hh].
      intros Hin. apply elem_of_pre_links in Hin as [_ Hin]; [|by apply Hh]. by apply (not_under_child x HA c p).
    - by apply NoDup_keys_of.
  Qed.

  Lemma elem_of_post_links n : forall p k, height x n p ->
    k ∈ post_links x n p <-> match k with
      | inl (c, q) => parent_of x c q /\ rtc (parent_of x) q p
      | inr (m, c) => (m, c) ∈ e_maps x /\ tc (parent_of x) c p end.
  Proof using.
    induction n as [|n IH]; intros p k Hh; [done|]. simpl. rewrite elem_of_list_bind. split.
    - intros (d&Hin&Hd). apply elem_of_keys_of in Hd. rewrite !elem_of_app, elem_of_list_fmap, elem_of_list_singleton in Hin.
      destruct Hin as [Hin|[(m& ->&Hm)| ->]].
      + apply IH in Hin; [|by apply Hh]. destruct k as [[c q]|[m c]].
        * split; [apply Hin|]. eapply rtc_r; [apply Hin|done].
        * split; [apply Hin|]. eapply tc_r; [apply Hin|done].
      + apply elem_of_keys_of in Hm. split; [done|by apply tc_once].
      + split; [done|constructor].
    - intros Hk. destruct k as [[c q]|[m c]].
      + destruct Hk as [Hc Hq]. apply rtc_tc in Hq as [->|Hq].
        * exists c. split; [|by apply elem_of_keys_of]. rewrite !elem_of_app, !elem_of_list_singleton. tauto.
        * apply rtc_last in Hq as (d&Hqd&Hd). exists d. split; [|by apply elem_of_keys_of].
          rewrite elem_of_app. left. apply IH; [by apply Hh|done].
      + destruct Hk as [Hm Hc]. apply rtc_last in Hc as (d&Hcd&Hd). exists d. split; [|by apply elem_of_keys_of].
        rewrite !elem_of_app. apply rtc_tc in Hcd as [->|Hcd].
        * right. left. apply elem_of_list_fmap. exists m. split; [done|]. by apply elem_of_keys_of.
        * left. apply IH; [by apply Hh|done].
  Qed.

  Lemma post_links_nodup n : forall p, height x n p -> NoDup (post_links x n p).
  Proof using HND HA HMD.
    induction n as [|n IH]; intros p Hh; [constructor|]. simpl. apply NoDup_bind.
    - intros c d k Hc Hd Ha Hb. apply elem_of_keys_of in Hc, Hd.
      assert (Hab : forall c, parent_of x c p -> k ∈ post_links x n c ++ ((fun m => inr (m, c)) <$> get_maps x c) ++ [inl (c, p)] ->
        match k with inl (a, b) => rtc (parent_of x) a c | inr (m, f) => rtc (parent_of x) f c end).
      { intros e He. rewrite !elem_of_app, elem_of_list_fmap, elem_of_list_singleton. intros [Hin|[(m& ->&Hm)| ->]].
        - apply elem_of_post_links in Hin; [|by apply Hh]. destruct k as [[a b]|[m f]].
          + destruct Hin. by eapply rtc_l.
          + destruct Hin. by apply tc_rtc.
        - constructor.
        - constructor. }
      apply Hab in Ha; [|done]. apply Hab in Hb; [|done].
      destruct k as [[a b]|[m a]]; (destruct (comparable x HND a c d Ha Hb) as [H|H]; [|symmetry]; by eapply siblings).
    - intros c Hc. apply elem_of_keys_of in Hc. rewrite !NoDup_app.
      split; [apply IH; by apply Hh|]. split.
      { intros k Hk. apply elem_of_post_links in Hk; [|by apply Hh].
        rewrite elem_of_app, elem_of_list_fmap, elem_of_list_singleton. intros [(m& ->&Hm)| ->].
        - destruct Hk as [_ Hk]. by apply (HA c).
        - destruct Hk as [_ Hk]. by apply (not_under_child x HA c p). }
      split. { apply NoDup_fmap_2; [intros ?? Heq; by simplify_eq|]. by apply NoDup_keys_of. }
      split; [|apply NoDup_singleton]. intros k. rewrite elem_of_list_fmap, elem_of_list_singleton. by intros (m& ->&_) ?.
    - by apply NoDup_keys_of.
  Qed.
End links.

(** ** What a mirror makes of it *)
Definition up_to_date (es : list event) (m m' : mirror) : Prop := replay m es = Some m'.

Section reg.
  Context (me : eid) (s : st) (HI : Inv me s).
  Let D := has any me (hp s).

  Lemma replay_add_items L : forall m,
    (forall id p, (id, p) ∈ L -> (id, p) ∈ e_items (en s)) -> NoDup L.*1 ->
    (forall id p, (id, p) ∈ L -> m_items m !! id = None) ->
    replay m ((fun ip => mk_event (hp s) EItem EAdd ip.2 None) <$> L) =
    Some (Mir (list_to_map ((fun ip => (ip.1, payload_of (hp s) ip.2)) <$> L) ∪ m_items m) (m_tree m) (m_maps m) (m_layers m)).
  Proof using HI.
    induction L as [|[id p] L IH]; intros m Hin HND Hfr.
    - simpl. rewrite (left_id_L ∅ (∪)). by destruct m.
    - simpl in HND. apply NoDup_cons in HND as [Hn HND].
      pose proof (Hin id p (elem_of_list_here _ _)) as Hp. apply (inv_items _ _ HI) in Hp as (it&Hp&He&Hid).
      assert (Hidn : idn (hp s) p = id) by (unfold idn; by rewrite Hp).
      rewrite fmap_cons. cbn [replay]. unfold mk_event at 1, mstep. cbn [ev_type ev_op ev_item ev_a ev_b snd second_id].
      rewrite Hidn. rewrite decide_True by (eapply Hfr; left). rewrite IH.
      + simpl. f_equal. f_equal. rewrite <- insert_union_r; [|].
        * by rewrite insert_union_l.
        * apply not_elem_of_list_to_map_1. rewrite <- list_fmap_compose.
          change ((fun ip : string * positive => ip.1) <$> L) with (L.*1). done.
      + intros. apply Hin. by right.
      + done.
      + intros id' p' Hin'. simpl. rewrite lookup_insert_ne; [eapply Hfr; by right|]. intros <-. apply Hn.
        apply elem_of_list_fmap. by exists (id, p').
  Qed.

  Lemma replay_add_tree L : forall m,
    (forall c p, (c, p) ∈ L -> known is_frame m (idn (hp s) c) /\ known is_frame m (idn (hp s) p)) ->
    NoDup ((idn (hp s)) <$> L.*1) ->
    (forall c p, (c, p) ∈ L -> m_tree m !! idn (hp s) c = None) ->
    replay m (tree_add (hp s) <$> L) =
    Some (Mir (m_items m) (list_to_map (by_id (hp s) L) ∪ m_tree m) (m_maps m) (m_layers m)).
  Proof using.
    induction L as [|[c p] L IH]; intros m Hk HND Hfr.
    - simpl. rewrite (left_id_L ∅ (∪)). by destruct m.
    - simpl in HND. apply NoDup_cons in HND as [Hn HND]. destruct (Hk c p (elem_of_list_here _ _)) as [Kc Kp].
      rewrite fmap_cons. cbn [replay]. unfold tree_add at 1, mk_event, mstep. cbn [ev_type ev_op ev_item ev_a ev_b fst snd second_id].
      rewrite decide_True by (split; [done|]; split; [done|]; eapply Hfr; left). rewrite IH.
      + simpl. f_equal. f_equal. rewrite <- insert_union_r; [|].
        * by rewrite insert_union_l.
        * apply lookup_by_id_none. intros a b Hab Heq. apply Hn. rewrite <- Heq. apply elem_of_list_fmap. exists a. split; [done|].
          apply elem_of_list_fmap. by exists (a, b).
      + intros c' p' Hin. apply (Hk c' p'). by right.
      + done.
      + intros c' p' Hin'. simpl. rewrite lookup_insert_ne; [eapply Hfr; by right|]. intros Heq. apply Hn. rewrite Heq.
        apply elem_of_list_fmap. exists c'. split; [done|]. apply elem_of_list_fmap. by exists (c', p').
  Qed.
  Lemma replay_add_maps L : forall m,
    (forall c p, (c, p) ∈ L -> known is_map m (idn (hp s) c) /\ known is_frame m (idn (hp s) p)) ->
    NoDup ((idn (hp s)) <$> L.*1) ->
    (forall c p, (c, p) ∈ L -> m_maps m !! idn (hp s) c = None) ->
    replay m (map_add (hp s) <$> L) =
    Some (Mir (m_items m) (m_tree m) (list_to_map (by_id (hp s) L) ∪ m_maps m) (m_layers m)).
  Proof using.
    induction L as [|[c p] L IH]; intros m Hk HND Hfr.
    - simpl. rewrite (left_id_L ∅ (∪)). by destruct m.
    - simpl in HND. apply NoDup_cons in HND as [Hn HND]. destruct (Hk c p (elem_of_list_here _ _)) as [Kc Kp].
      rewrite fmap_cons. cbn [replay]. unfold map_add at 1, mk_event, mstep. cbn [ev_type ev_op ev_item ev_a ev_b fst snd second_id].
      rewrite decide_True by (split; [done|]; split; [done|]; eapply Hfr; left). rewrite IH.
      + simpl. f_equal. f_equal. rewrite <- insert_union_r; [|].
        * by rewrite insert_union_l.
        * apply lookup_by_id_none. intros a b Hab Heq. apply Hn. rewrite <- Heq. apply elem_of_list_fmap. exists a. split; [done|].
          apply elem_of_list_fmap. by exists (a, b).
      + intros c' p' Hin. apply (Hk c' p'). by right.
      + done.
      + intros c' p' Hin'. simpl. rewrite lookup_insert_ne; [eapply Hfr; by right|]. intros Heq. apply Hn. rewrite Heq.
        apply elem_of_list_fmap. exists c'. split; [done|]. apply elem_of_list_fmap. by exists (c', p').
  Qed.

  Lemma ids_nodup (L : list ptr) : NoDup L -> (forall p, p ∈ L -> D p) -> NoDup (idn (hp s) <$> L).
  Proof using HI.
    intros HND HD. induction HND as [|p L Hn HND IH]; simpl; [constructor|].
    apply NoDup_cons. split; [|apply IH; intros; apply HD; by right].
    rewrite elem_of_list_fmap. intros (q&Heq&Hq). apply Hn.
    rewrite (inv_id_inj me s HI p q); [done|apply HD; left|apply HD; by right|done].
  Qed.

  Lemma keys_nodup (L : list (ptr * ptr)) : (forall a b c, (a, b) ∈ L -> (a, c) ∈ L -> b = c) -> NoDup L -> NoDup L.*1.
  Proof using.
    intros Hf HND. induction HND as [|[a b] L Hn HND IH]; simpl; [constructor|].
    apply NoDup_cons. split.
    - rewrite elem_of_list_fmap. intros ([a' c]& ->&Hin). simpl in *. apply Hn.
      rewrite (Hf a' b c); [done|left|by right].
    - apply IH. intros a' b' c' H1 H2. eapply Hf; by right.
  Qed.

  (** a freshly registered handler: all items, all placements, and the frame links connected to the root *)
  Lemma reg_mirror : Acyclic (en s) -> has is_frame me (hp s) (e_root (en s)) ->
    exists L, (forall c p, (c, p) ∈ L <-> parent_of (en s) c p /\ rtc (parent_of (en s)) p (e_root (en s))) /\
      NoDup L.*1 /\
      replay mirror0 (reg_events (hp s) (en s)) =
      Some (Mir (list_to_map ((fun ip => (ip.1, payload_of (hp s) ip.2)) <$> e_items (en s)))
                (list_to_map (by_id (hp s) L)) (list_to_map (by_id (hp s) (e_maps (en s)))) []).
  Proof using HI.
    intros HA Hroot. set (n := S (S (length (e_tree (en s))))). set (L := pre_links (en s) n (e_root (en s))).
    assert (Hh : height (en s) n (e_root (en s))) by (apply height_S, height_bound, HA).
    assert (HL : forall c p, (c, p) ∈ L <-> parent_of (en s) c p /\ rtc (parent_of (en s)) p (e_root (en s))).
    { intros. by apply elem_of_pre_links. }
    assert (HLD : NoDup L.*1).
    { apply keys_nodup; [|apply pre_links_nodup; [apply HI|done|done]]. intros a b c Hb Hc. apply HL in Hb as [Hb _], Hc as [Hc _].
      by eapply (parent_fun (en s) (inv_tree_nodup _ _ HI)). }
    exists L. split; [done|]. split; [done|].
    unfold reg_events. fold n. fold L.
    set (m1 := Mir (list_to_map ((fun ip => (ip.1, payload_of (hp s) ip.2)) <$> e_items (en s))) ∅ ∅ []).
    assert (R1 : replay mirror0 ((fun ip => mk_event (hp s) EItem EAdd ip.2 None) <$> e_items (en s)) = Some m1).
    { rewrite replay_add_items; [|done|apply HI|done]. unfold m1. simpl. by rewrite (right_id_L ∅ (∪)). }
    assert (Hk : forall f p, has f me (hp s) p -> forall t mm l, known f (Mir (m_items m1) t mm l) (idn (hp s) p)).
    { intros f p (it&Hp&He&Hf) t mm l. unfold known. simpl.
      assert (m_items m1 !! idn (hp s) p = Some (it_kind it, it_val it)) as Hm.
      { unfold m1. simpl. unfold idn. rewrite Hp. apply elem_of_list_to_map_1.
        - rewrite <- list_fmap_compose. change ((fun ip : string * positive => ip.1) <$> e_items (en s)) with (e_items (en s)).*1. apply HI.
        - apply elem_of_list_fmap. exists (it_id it, p). simpl. split; [unfold payload_of; by rewrite Hp|]. apply (inv_items _ _ HI). eauto. }
      simpl in Hm. by rewrite Hm. }
    rewrite (replay_app _ _ _ _ R1).
    assert (R2 : replay m1 [mk_event (hp s) ERoot EAdd (e_root (en s)) None] = Some m1).
    { cbn [replay]. unfold mk_event, mstep. cbn [ev_type ev_op ev_item ev_a]. rewrite decide_True; [done|]. by apply (Hk is_frame _ Hroot ∅ ∅ []). }
    rewrite (replay_app _ _ _ _ R2).
    assert (R3 : replay m1 (tree_add (hp s) <$> L) = Some (Mir (m_items m1) (list_to_map (by_id (hp s) L)) ∅ [])).
    { rewrite replay_add_tree.
      - unfold m1. simpl. by rewrite (right_id_L ∅ (∪)).
      - intros c p [Hcp _]%HL. apply (inv_tree _ _ HI) in Hcp as (Hc&Hp&_). split; [apply (Hk is_frame _ Hc ∅ ∅ [])|apply (Hk is_frame _ Hp ∅ ∅ [])].
      - apply ids_nodup; [done|]. intros c. rewrite elem_of_list_fmap. intros ([c' p]& ->&Hin). apply HL in Hin as [Hcp _]. simpl.
        apply (tree_D me s HI) in Hcp; tauto.
      - done. }
    rewrite (replay_app _ _ _ _ R3). rewrite replay_add_maps.
    - simpl. by rewrite (right_id_L ∅ (∪)).
    - intros c p Hcp. apply (inv_maps _ _ HI) in Hcp as (Hc&Hp). split; [apply (Hk is_map _ Hc)|apply (Hk is_frame _ Hp)].
    - apply ids_nodup; [apply HI|]. intros c. rewrite elem_of_list_fmap. intros ([c' p]& ->&Hin). simpl.
      apply (maps_D me s HI) in Hin; tauto.
    - done.
  Qed.
End reg.
