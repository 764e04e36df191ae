(** Basic reasoning tools for the environment model: weakest preconditions, events, mirrors. *)
From stdpp Require Import prelude strings gmap.
From Verif Require Import Base AssocLemmas EnvModel EnvSpec.

(** ** Outcomes *)
(** [E] is the excuse for undefined behaviour and divergence: [False] for progress, [True] for safety. *)
Definition wp (E : Prop) {S A} (o : out S A) (Q : A -> Prop) (X : S -> Prop) : Prop :=
  match o with Ok a => Q a | Throw s => X s | Bad _ | NoFuel => E end.

Lemma wp_bind E {S A B} (m : out S A) (f : A -> out S B) Q X :
  wp E m (fun a => wp E (f a) Q X) X -> wp E (obind m f) Q X.
Proof. by destruct m. Qed.
Lemma wp_mono E {S A} (m : out S A) (Q Q' : A -> Prop) (X X' : S -> Prop) :
  wp E m Q X -> (forall a, Q a -> Q' a) -> (forall s, X s -> X' s) -> wp E m Q' X'.
Proof. destruct m; simpl; auto. Qed.
Lemma wp_ok E {S A} (m : out S A) Q X a : wp E m Q X -> m = Ok a -> Q a.
Proof. intros H ->. done. Qed.
Lemma wp_throw E {S A} (m : out S A) Q X s : wp E m Q X -> m = Throw s -> X s.
Proof. intros H ->. done. Qed.
Lemma wp_iter E {S A} (f : A -> S -> out S S) (I : list A -> S -> Prop) X (l : list A) s :
  I l s ->
  (forall x r s, I (x :: r) s -> (exists p, l = p ++ x :: r) -> wp E (f x s) (I r) X) ->
  wp E (iter_out f l s) (I []) X.
Proof.
  assert (H : forall l l0 p s, l0 = p ++ l -> I l s ->
    (forall x r s, I (x :: r) s -> (exists p, l0 = p ++ x :: r) -> wp E (f x s) (I r) X) ->
    wp E (iter_out f l s) (I []) X).
  { clear. induction l as [|x l IH]; intros l0 p s Hl HI Hstep; [done|]. simpl. apply wp_bind.
    eapply wp_mono; [apply Hstep; eauto| |auto]. intros s1 Hs1. eapply (IH l0 (p ++ [x])); [|done|done].
    rewrite <- app_assoc. done. }
  intros. by eapply (H l l []).
Qed.

(** ** Facts about [has] *)
Lemma has_any f e h p : has f e h p -> has any e h p.
Proof. intros (it&?&?&?). by exists it. Qed.
Lemma has_kind f e h p it : has f e h p -> h !! p = Some it -> f (it_kind it) = true /\ it_env it = Some e.
Proof. intros (it'&?&?&?) ?. naive_solver. Qed.

Section inv.
  Context (me : eid) (s : st) (HI : Inv me s).

  Lemma inv_id_inj p q : has any me (hp s) p -> has any me (hp s) q -> idn (hp s) p = idn (hp s) q -> p = q.
  Proof using HI.
    intros (ip&Hp&Ep&_) (iq&Hq&Eq&_). unfold idn. rewrite Hp, Hq. intros Hid.
    assert (H1 : (it_id ip, p) ∈ e_items (en s)) by (apply (inv_items _ _ HI); eauto).
    assert (H2 : (it_id ip, q) ∈ e_items (en s)) by (apply (inv_items _ _ HI); eauto).
    apply assoc_nodup in H1; [|apply HI]. apply assoc_nodup in H2; [|apply HI]. congruence.
  Qed.
  Lemma inv_assoc id p : assoc id (e_items (en s)) = Some p <->
    exists it, hp s !! p = Some it /\ it_env it = Some me /\ it_id it = id.
  Proof using HI. rewrite assoc_nodup by apply HI. apply (inv_items _ _ HI). Qed.
  Lemma inv_refs_pos p it : hp s !! p = Some it -> it_env it <> None -> it_refs it <> 0.
  Proof using HI. intros H1 H2. rewrite (inv_refs _ _ HI _ _ H1). destruct (it_env it); [lia|done]. Qed.
  Lemma drop_temp_attached p : has any me (hp s) p -> drop_temp p s = Ok s.
  Proof using HI.
    intros (it&Hp&Ep&_). unfold drop_temp. rewrite Hp, decide_False; [done|].
    eapply inv_refs_pos; [done|congruence].
  Qed.
End inv.

(** ** Events *)
Definition mk_event (h : gmap positive item) (t : etype) (o : eop) (a : ptr) (b : option ptr) : event :=
  Ev t o (idn h a) (match b with Some b => idn h b | None => "" end)
     (match t, o with EItem, EAdd | EItem, EUpdate => Some (payload_of h a) | _, _ => None end).
Definition deliver (me : eid) (hs : list hid) (es : list event) : list delivery :=
  es ≫= (fun e => map (fun h => Dl me h e) hs).

Lemma deliver_app me hs es1 es2 : deliver me hs (es1 ++ es2) = deliver me hs es1 ++ deliver me hs es2.
Proof. unfold deliver. by rewrite bind_app. Qed.

Definition add_tr (s : st) (t : list delivery) : st := St (hp s) (en s) (tr s ++ t).

Lemma emit_to_ok me s hs t o a b :
  Inv me s -> has any me (hp s) a -> (forall b', b = Some b' -> has any me (hp s) b') ->
  emit_to hs me t o a b s = Ok (add_tr s (deliver me hs [mk_event (hp s) t o a b])).
Proof.
  intros HI Ha Hb. pose proof Ha as (ia&Hpa&Ea&_). unfold emit_to, deref. rewrite Hpa.
  assert (HI' : forall t', Inv me (add_tr s t')) by (intros; destruct HI; constructor; auto).
  assert (Hpay : payload_of (hp s) a = (it_kind ia, it_val ia)) by (unfold payload_of; by rewrite Hpa).
  assert (Hid : idn (hp s) a = it_id ia) by (unfold idn; by rewrite Hpa).
  destruct b as [b|].
  - destruct (Hb b eq_refl) as (ib&Hpb&Eb&_). rewrite Hpb.
    assert (Hidb : idn (hp s) b = it_id ib) by (unfold idn; by rewrite Hpb).
    unfold mk_event. rewrite Hpay, Hid, Hidb. unfold deliver. simpl. rewrite app_nil_r.
    match goal with |- context [drop_temp a (St _ _ (_ ++ ?t))] => change (St (hp s) (en s) (tr s ++ t)) with (add_tr s t) end.
    rewrite (drop_temp_attached me) by (auto using HI'). simpl. by rewrite (drop_temp_attached me) by (eauto using HI').
  - unfold mk_event. rewrite Hpay, Hid. unfold deliver. simpl. rewrite app_nil_r.
    match goal with |- context [drop_temp a (St _ _ (_ ++ ?t))] => change (St (hp s) (en s) (tr s ++ t)) with (add_tr s t) end.
    by rewrite (drop_temp_attached me) by (auto using HI').
Qed.

Lemma Inv_tr me s t : Inv me s -> Inv me (St (hp s) (en s) t).
Proof. intros []; constructor; auto. Qed.

(** ** Mirror tables *)
Lemma by_id_ext h h' l :
  (forall k v, (k, v) ∈ l -> idn h k = idn h' k /\ idn h v = idn h' v) -> by_id h l = by_id h' l.
Proof.
  intros H. unfold by_id. apply list_fmap_ext. intros i [k v] Hi. simpl.
  apply elem_of_list_lookup_2 in Hi. apply H in Hi as [-> ->]. done.
Qed.

Section tables.
  Context (h : gmap positive item) (D : positive -> Prop).
  Context (Hinj : forall p q, D p -> D q -> idn h p = idn h q -> p = q).

  Lemma by_id_keys_notin (l : list (positive * positive)) k :
    D k -> (forall a b, (a, b) ∈ l -> D a) -> k ∉ l.*1 -> idn h k ∉ (by_id h l).*1.
  Proof using Hinj.
    intros Hk HD Hn. unfold by_id. rewrite <- list_fmap_compose. rewrite elem_of_list_fmap.
    intros [[a b] [Heq Hin]]. simpl in Heq. apply Hn. apply elem_of_list_fmap. exists (a, b).
    split; [|done]. simpl. apply Hinj; eauto.
  Qed.
  Lemma by_id_nodup (l : list (positive * positive)) :
    (forall a b, (a, b) ∈ l -> D a) -> NoDup l.*1 -> NoDup (by_id h l).*1.
  Proof using Hinj.
    induction l as [|[a b] l IH]; intros HD ND; [constructor|]. simpl in *.
    apply NoDup_cons in ND as [Hn ND]. apply NoDup_cons. split.
    - apply by_id_keys_notin; [eapply HD; left| |done]. intros; eapply HD; right; done.
    - apply IH; [|done]. intros; eapply HD; right; done.
  Qed.
  Lemma by_id_lookup (l : list (positive * positive)) k :
    D k -> (forall a b, (a, b) ∈ l -> D a) ->
    (list_to_map (by_id h l) : gmap string string) !! idn h k = idn h <$> assoc k l.
  Proof using Hinj.
    intros Hk HD. induction l as [|[a b] l IH]; [done|]. simpl. case_decide as Hd.
    - subst. by rewrite lookup_insert.
    - rewrite lookup_insert_ne; [apply IH; intros; eapply HD; right; done|].
      intros Heq. apply Hd. symmetry. apply Hinj; [eapply HD; left|done|done].
  Qed.
  Lemma by_id_ins (l : list (positive * positive)) ltb k v :
    D k -> (forall a b, (a, b) ∈ l -> D a) -> NoDup l.*1 -> assoc k l = None ->
    list_to_map (by_id h (ins ltb k v l)) = <[idn h k := idn h v]> (list_to_map (by_id h l) : gmap string string).
  Proof using Hinj.
    intros Hk HD ND Hn.
    assert (Hp : by_id h (ins ltb k v l) ≡ₚ by_id h ((k, v) :: l)) by (unfold by_id; by rewrite ins_perm).
    rewrite (list_to_map_proper _ (by_id h ((k, v) :: l))); [done| |done].
    apply by_id_nodup.
    - intros a b [Heq|Hin]%elem_of_ins; [naive_solver|eauto].
    - by apply ins_nodup.
  Qed.
  Lemma by_id_del (l : list (positive * positive)) k :
    D k -> (forall a b, (a, b) ∈ l -> D a) ->
    list_to_map (by_id h (del_key k l)) = delete (idn h k) (list_to_map (by_id h l) : gmap string string).
  Proof using Hinj.
    intros Hk HD. unfold del_key. induction l as [|[a b] l IH]; [symmetry; apply delete_empty|].
    rewrite filter_cons. simpl. case_decide as Hd; simpl.
    - rewrite delete_insert_ne; [by rewrite IH by (intros; eapply HD; right; done)|].
      intros Heq. apply Hd. symmetry. apply Hinj; [done|eapply HD; left|done].
    - assert (a = k) as -> by (destruct (decide (a = k)); tauto). rewrite delete_insert_delete.
      apply IH. intros; eapply HD; right; done.
  Qed.
End tables.

Lemma lookup_by_id_none h (l : list (positive * positive)) id :
  (forall a b, (a, b) ∈ l -> idn h a <> id) -> (list_to_map (by_id h l) : gmap string string) !! id = None.
Proof.
  induction l as [|[a b] l IH]; intros H; [done|]. simpl. rewrite lookup_insert_ne; [|eapply H; left].
  apply IH. intros; eapply H; right; done.
Qed.
Lemma by_id_value h (l : list (positive * positive)) k v :
  (list_to_map (by_id h l) : gmap string string) !! k = Some v ->
  exists a b, (a, b) ∈ l /\ idn h a = k /\ idn h b = v.
Proof.
  intros H. apply elem_of_list_to_map_2 in H. unfold by_id in H. apply elem_of_list_fmap in H as [[a b] [? ?]].
  exists a, b. naive_solver.
Qed.

(** ** Mirrors *)
Section mirrors.
  Context (me : eid) (s : st) (HI : Inv me s) (m : mirror) (HM : mirrors m (hp s) (en s)).

  Lemma mirrors_item p it : hp s !! p = Some it -> it_env it = Some me ->
    m_items m !! it_id it = Some (it_kind it, it_val it).
  Proof using HI HM.
    intros Hp He. destruct HM as (Hm&_). rewrite Hm.
    apply elem_of_list_to_map_1.
    - rewrite <- list_fmap_compose. change ((fun ip : string * positive => ip.1) <$> e_items (en s)) with (e_items (en s)).*1.
      apply HI.
    - apply elem_of_list_fmap. exists (it_id it, p). simpl. split.
      + unfold payload_of. by rewrite Hp.
      + apply (inv_items _ _ HI). eauto.
  Qed.
  Lemma mirrors_no_item id : assoc id (e_items (en s)) = None -> m_items m !! id = None.
  Proof using HI HM.
    intros Hn. destruct HM as (Hm&_). rewrite Hm. apply not_elem_of_list_to_map_1.
    rewrite <- list_fmap_compose. change ((fun ip : string * positive => ip.1) <$> e_items (en s)) with (e_items (en s)).*1.
    by apply assoc_none.
  Qed.
  Lemma mirrors_known f p : has f me (hp s) p -> known f m (idn (hp s) p).
  Proof using HI HM.
    intros (it&Hp&He&Hf). unfold known, idn. rewrite Hp. by rewrite (mirrors_item p it).
  Qed.
End mirrors.
