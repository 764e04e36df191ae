(** The compressed queue carries a replica from the state before the events to the state after them. *)
From stdpp Require Import prelude strings gmap pretty.
From Coq Require Import Sorting.Sorted.
From Verif Require Import Base AssocLemmas EnvModel EnvSpec EnvLib EnvGood EnvAttach EnvLinks EnvLinks2 EnvDetach EnvDeep EnvHandlers EnvWorld EnvStep EnvStep2 EnvStep3 EnvDemo EnvProps EnvProps2 EnvProps3 EventModel EventApply QueueProps.

Global Instance event_eq_dec : EqDecision event.
Proof. solve_decision. Defined.

(** ** Events by name *)
Definition IA i v : event := Ev EItem EAdd i "" (Some v).
Definition IU i v : event := Ev EItem EUpdate i "" (Some v).
Definition IR i : event := Ev EItem ERemove i "" None.
Definition LA t a b : event := Ev t EAdd a b None.
Definition LR t a b : event := Ev t ERemove a b None.

(** the links a listener knows, in the order in which events name the two items (cf. [linked]) *)
Definition mlinked (m : mirror) (t : etype) (a b : string) : Prop :=
  match t with
  | ETree => m_tree m !! b = Some a
  | EFrame => m_maps m !! a = Some b
  | ELayer => (b, a) ∈ m_layers m
  | _ => False
  end.
(** classes of the two ends of a link *)
Definition ka (t : etype) : kind -> bool := match t with ETree => is_frame | EFrame => is_map | ELayer => is_layer | _ => any end.
Definition kb (t : etype) : kind -> bool := match t with ETree => is_frame | EFrame => is_frame | ELayer => is_layer | _ => any end.
Lemma ends_ok_k t x y : ka t x = true -> kb t y = true -> ends_ok t x y.
Proof. by destruct t. Qed.
Definition is_kind (f : kind -> bool) (m : mirror) (i : string) : Prop := exists v, m_items m !! i = Some v /\ f v.1 = true.
Lemma known_is f m i : known f m i <-> is_kind f m i.
Proof. unfold known, is_kind. destruct (m_items m !! i) as [v|]; [|naive_solver]. split; [by exists v|]. by intros (?&[= <-]&?). Qed.
Definition wlinks (m : mirror) : Prop := forall t a b, mlinked m t a b -> is_kind (ka t) m a /\ is_kind (kb t) m b.

(** ** One event, from the point of view of the listener *)
Inductive mcase (m : mirror) (ev : event) (m' : mirror) : Prop :=
| MC_IA i v : ev = IA i v -> m_items m !! i = None -> m_items m' = <[i := v]> (m_items m) ->
    (forall t a b, mlinked m' t a b <-> mlinked m t a b) -> m_layers m' = m_layers m -> mcase m ev m'
| MC_IU i v v0 : ev = IU i v -> m_items m !! i = Some v0 -> v0.1 = v.1 -> m_items m' = <[i := v]> (m_items m) ->
    (forall t a b, mlinked m' t a b <-> mlinked m t a b) -> m_layers m' = m_layers m -> mcase m ev m'
| MC_IR i : ev = IR i -> is_Some (m_items m !! i) -> m_items m' = delete i (m_items m) ->
    (forall t a b, mlinked m' t a b <-> mlinked m t a b) -> (forall t a b, mlinked m t a b -> a <> i /\ b <> i) ->
    m_layers m' = m_layers m -> mcase m ev m'
| MC_LA t a b : ev = LA t a b -> is_link t = true -> is_kind (ka t) m a -> is_kind (kb t) m b -> m_items m' = m_items m ->
    (forall t' x y, mlinked m' t' x y <-> mlinked m t' x y \/ (t' = t /\ x = a /\ y = b)) ->
    (t <> ELayer -> ~ mlinked m t a b) ->
    m_layers m' = (if decide (t = ELayer) then (b, a) :: m_layers m else m_layers m) -> mcase m ev m'
| MC_LR t a b : ev = LR t a b -> is_link t = true -> is_kind (ka t) m a -> is_kind (kb t) m b -> m_items m' = m_items m ->
    (forall t' x y, ~ (t' = t /\ x = a /\ y = b) -> mlinked m' t' x y <-> mlinked m t' x y) ->
    (t <> ELayer -> mlinked m t a b) -> (t <> ELayer \/ NoDup (m_layers m) -> ~ mlinked m' t a b) ->
    (forall t' x y, mlinked m' t' x y -> mlinked m t' x y) ->
    m_layers m' = (if decide (t = ELayer) then del_one b a (m_layers m) else m_layers m) -> mcase m ev m'
| MC_root o a : ev = Ev ERoot o a "" None -> o <> EUpdate -> m' = m -> mcase m ev m'.

Lemma second_id_false ty o a b it : second_id (Ev ty o a b it) = false -> b = "".
Proof. unfold second_id. simpl. by destruct b. Qed.
Lemma mstep_case m ev m' : wlinks m -> mstep m ev = Some m' -> mcase m ev m'.
Proof.
  intros W. destruct ev as [ty o a b it]. unfold mstep. cbn [ev_type ev_op ev_item ev_a ev_b].
  destruct ty, o, it as [v|]; try done; try (destruct (second_id _) eqn:Hb; [done|]; apply second_id_false in Hb as ->);
    (case_decide as D; [|done]); intros [= <-].
  - by eapply (MC_IA _ _ _ a v).
  - destruct D as [K (U1&U2&U3&U4&U5)]. eapply (MC_IR _ _ _ a); try done; [by eapply known_some|].
    intros t x y. destruct t; simpl; try done; intros H.
    + split; [by eapply U2|]. intros ->. congruence.
    + split; [|by eapply U4]. intros ->. congruence.
    + rewrite Forall_forall in U5. apply U5 in H as [? ?]. done.
  - apply known_is in D as (v0&Hv0&Hk). apply bool_decide_eq_true in Hk. by eapply (MC_IU _ _ _ a v v0).
  - destruct D as (D1&D2&D3). eapply (MC_LA _ _ _ ETree a b); try done; [by apply known_is..| |].
    + intros t' x y. destruct t'; simpl; try (naive_solver congruence). rewrite lookup_insert_Some. split; [naive_solver|].
      intros [H|(_&->&->)]; [|by left]. destruct (decide (b = y)) as [->|]; [congruence|by right].
    + simpl. congruence.
  - destruct (W ETree a b D) as [Ka Kb]. eapply (MC_LR _ _ _ ETree a b); try done.
    + intros t' x y Hne. destruct t'; simpl; try done. destruct (decide (y = b)) as [->|].
      * rewrite lookup_delete, D. naive_solver.
      * by rewrite lookup_delete_ne.
    + intros _. simpl. by rewrite lookup_delete.
    + intros t' x y. destruct t'; simpl; try done. rewrite lookup_delete_Some. by intros [_ ?].
  - destruct D as (D1&D2&D3). eapply (MC_LA _ _ _ EFrame a b); try done; [by apply known_is..| |].
    + intros t' x y. destruct t'; simpl; try (naive_solver congruence). rewrite lookup_insert_Some. split; [naive_solver|].
      intros [H|(_&->&->)]; [|by left]. destruct (decide (a = x)) as [->|]; [congruence|by right].
    + simpl. congruence.
  - destruct (W EFrame a b D) as [Ka Kb]. eapply (MC_LR _ _ _ EFrame a b); try done.
    + intros t' x y Hne. destruct t'; simpl; try done. destruct (decide (x = a)) as [->|].
      * rewrite lookup_delete, D. naive_solver.
      * by rewrite lookup_delete_ne.
    + intros _. simpl. by rewrite lookup_delete.
    + intros t' x y. destruct t'; simpl; try done. rewrite lookup_delete_Some. by intros [_ ?].
  - destruct D as (D1&D2). eapply (MC_LA _ _ _ ELayer a b); try done; [by apply known_is..|].
    intros t' x y. destruct t'; simpl; try (naive_solver congruence). rewrite elem_of_cons. naive_solver congruence.
  - destruct D as (D1&D2). eapply (MC_LR _ _ _ ELayer a b); try done; [by apply known_is..| | |].
    + intros t' x y Hne. destruct t'; simpl; try done. split; [apply elem_of_del_one|]. intros H.
      destruct (decide ((b, a) ∈ m_layers m)) as [Hin|Hn]; [|by rewrite del_one_notin].
      apply del_one_perm in Hin. rewrite <-Hin in H. apply elem_of_cons in H as [Heq|]; [|done]. injection Heq as -> ->. by destruct Hne.
    + intros [?|HN]; [done|]. simpl. intros H. pose proof H as Hin. apply elem_of_del_one, del_one_perm in Hin. rewrite <-Hin in HN.
      by apply NoDup_cons in HN as [? _].
    + intros t' x y. destruct t'; simpl; try done. apply elem_of_del_one.
  - by eapply MC_root.
  - by eapply MC_root.
Qed.

Lemma mcase_wlinks m ev m' : wlinks m -> mcase m ev m' -> wlinks m'.
Proof.
  intros W HC t a b. destruct HC as [i v _ Hn HI HL _|i v v0 _ Hv Hk HI HL _|i _ Hi HI HL HU _|t0 a0 b0 _ _ Ka Kb HI HL _ _|t0 a0 b0 _ _ _ _ HI _ _ _ HL _|o x _ _ ->].
  - rewrite HL. intros (K1&K2)%W. unfold is_kind. rewrite HI.
    destruct K1 as (v1&H1&?), K2 as (v2&H2&?). split; [exists v1|exists v2]; (split; [|done]); rewrite lookup_insert_ne; congruence.
  - rewrite HL. intros (K1&K2)%W. unfold is_kind. rewrite HI.
    destruct K1 as (v1&H1&?), K2 as (v2&H2&?). split.
    + destruct (decide (i = a)) as [->|]; [exists v; rewrite lookup_insert; split; [done|congruence]|exists v1; by rewrite lookup_insert_ne].
    + destruct (decide (i = b)) as [->|]; [exists v; rewrite lookup_insert; split; [done|congruence]|exists v2; by rewrite lookup_insert_ne].
  - rewrite HL. intros H. destruct (HU _ _ _ H). apply W in H as (K1&K2). unfold is_kind. rewrite HI. by rewrite !lookup_delete_ne by congruence.
  - unfold is_kind. rewrite HI, HL. intros [H|(->&->&->)]; [by apply W|by split].
  - unfold is_kind. rewrite HI. intros H%HL. by apply W.
  - apply W.
Qed.

(** ** Pending events *)
Definition canon (x : event) : Prop :=
  (exists i v, x = IA i v) \/ (exists i v, x = IU i v) \/ (exists i, x = IR i) \/
  (exists t a b, is_link t = true /\ (x = LA t a b \/ x = LR t a b)) \/ (exists o a, o <> EUpdate /\ x = Ev ERoot o a "" None).
Lemma mcase_canon m ev m' : mcase m ev m' -> canon ev.
Proof. unfold canon. intros []; naive_solver. Qed.

Lemma in_handle q ev x : x ∈ q_handle q ev <-> (x ∈ q /\ kept ev x) \/ (x = ev /\ forall old, old ∈ q -> merge ev old <> MCancel).
Proof.
  rewrite q_handle_eq, elem_of_app, elem_of_list_filter. case_decide as D.
  - rewrite elem_of_nil. apply Exists_exists in D as (o&?&?). naive_solver.
  - rewrite elem_of_list_singleton. assert (forall old, old ∈ q -> merge ev old <> MCancel); [|naive_solver].
    intros o Ho Hm. apply D, Exists_exists. eauto.
Qed.
Lemma handle_canon q ev : Forall canon q -> canon ev -> Forall canon (q_handle q ev).
Proof. rewrite !Forall_forall. intros H ? x [[? _]|[-> _]]%in_handle; [by apply H|done]. Qed.

Ltac slots := unfold same_ids, IA, IU, IR, LA, LR in *; cbn [ev_type ev_op ev_a ev_b ev_item] in *.
Lemma keep_item (P Q R T S : Prop) : ~ Q -> ~ R -> ~ T -> ((P /\ ~ Q /\ ~ R) \/ (T /\ S)) <-> P.
Proof. tauto. Qed.
Section handle.
  Context (q : list event) (HC : Forall canon q).
  Lemma in_IA i v x : (forall v, IA i v ∉ q) -> IR i ∉ q -> x ∈ q_handle q (IA i v) <-> x ∈ q \/ x = IA i v.
  Proof using HC.
    intros N1 N2. rewrite in_handle. rewrite Forall_forall in HC.
    assert (HK : forall x, x ∈ q -> kept (IA i v) x).
    { intros y Hy. apply kept_spec. intros [Hs Ho]. destruct (HC y Hy) as [(j&w&->)|[(j&w&->)|[(j&->)|[(t&a&b&Hl&[->| ->])|(o&a&Ho'&->)]]]]; slots;
        naive_solver. }
    split; [naive_solver|]. intros [Hx|Hx]; [by left; auto|]. right. split; [done|]. intros o Ho Hm. specialize (HK o Ho). unfold kept in HK. congruence.
  Qed.
  Lemma in_IU i v x : x ∈ q_handle q (IU i v) <-> (x ∈ q /\ forall w, x <> IU i w) \/ x = IU i v.
  Proof using HC.
    rewrite in_handle. rewrite Forall_forall in HC.
    assert (HK : forall x, x ∈ q -> (kept (IU i v) x <-> forall w, x <> IU i w)).
    { intros y Hy. rewrite kept_spec. split.
      - intros Hk w ->. apply Hk. slots. auto.
      - intros Hn [Hs Ho]. destruct (HC y Hy) as [(j&w&->)|[(j&w&->)|[(j&->)|[(t&a&b&Hl&[->| ->])|(o&a&Ho'&->)]]]]; slots; naive_solver. }
    split.
    - intros [[Hx Hk]|[-> _]]; [left|by right]. split; [done|]. by apply HK.
    - intros [[Hx Hk]|Hx]; [left|right].
      + split; [done|]. by apply HK.
      + split; [done|]. intros o Ho Hm. apply cancel_spec in Hm. slots. naive_solver.
  Qed.
  Lemma in_IR i x : x ∈ q_handle q (IR i) <->
    (x ∈ q /\ (forall w, x <> IA i w) /\ (forall w, x <> IU i w) /\ x <> IR i) \/ (x = IR i /\ forall w, IA i w ∉ q).
  Proof using HC.
    rewrite in_handle. rewrite Forall_forall in HC.
    assert (HK : forall x, x ∈ q -> (kept (IR i) x <-> (forall w, x <> IA i w) /\ (forall w, x <> IU i w) /\ x <> IR i)).
    { intros y Hy. rewrite kept_spec. split.
      - intros Hk. split; [|split]; [intros w ->|intros w ->|intros ->]; apply Hk; slots; auto.
      - intros (H1&H2&H3) [Hs Ho]. destruct (HC y Hy) as [(j&w&->)|[(j&w&->)|[(j&->)|[(t&a&b&Hl&[->| ->])|(o&a&Ho'&->)]]]]; slots; naive_solver. }
    split.
    - intros [[Hx Hk]|[-> Hc]]; [left|right]. { split; [done|]. by apply HK. }
      split; [done|]. intros w Hw. apply (Hc _ Hw). apply cancel_spec. slots. auto.
    - intros [[Hx Hk]|[-> Hc]]; [left|right]. { split; [done|]. by apply HK. }
      split; [done|]. intros o Ho Hm. apply cancel_spec in Hm as [Hs Ho2].
      destruct (HC o Ho) as [(j&w&->)|[(j&w&->)|[(j&->)|[(t&a&b&Hl&[->| ->])|(o'&a&Ho'&->)]]]]; slots; naive_solver.
  Qed.
  Lemma in_LA t a b x : is_link t = true -> x ∈ q_handle q (LA t a b) <->
    (x ∈ q /\ x <> LA t a b /\ x <> LR t a b) \/ (x = LA t a b /\ LR t a b ∉ q).
  Proof using HC.
    intros Hl. rewrite in_handle. rewrite Forall_forall in HC.
    assert (HK : forall x, x ∈ q -> (kept (LA t a b) x <-> x <> LA t a b /\ x <> LR t a b)).
    { intros y Hy. rewrite kept_spec. split.
      - intros Hk. split; intros ->; apply Hk; slots; auto 10.
      - intros (H1&H2) [Hs Ho]. destruct (HC y Hy) as [(j&w&->)|[(j&w&->)|[(j&->)|[(t'&a'&b'&Hl'&[->| ->])|(o&a'&Ho'&->)]]]]; slots; naive_solver. }
    split.
    - intros [[Hx Hk]|[-> Hc]]; [left|right]. { split; [done|]. by apply HK. }
      split; [done|]. intros Hw. apply (Hc _ Hw). apply cancel_spec. slots. auto.
    - intros [[Hx Hk]|[-> Hc]]; [left|right]. { split; [done|]. by apply HK. }
      split; [done|]. intros o Ho Hm. apply cancel_spec in Hm as [Hs Ho2].
      destruct (HC o Ho) as [(j&w&->)|[(j&w&->)|[(j&->)|[(t'&a'&b'&Hl'&[->| ->])|(o'&a'&Ho'&->)]]]]; slots; naive_solver.
  Qed.
  Lemma in_LR t a b x : is_link t = true -> x ∈ q_handle q (LR t a b) <->
    (x ∈ q /\ x <> LA t a b /\ x <> LR t a b) \/ (x = LR t a b /\ LA t a b ∉ q).
  Proof using HC.
    intros Hl. rewrite in_handle. rewrite Forall_forall in HC.
    assert (HK : forall x, x ∈ q -> (kept (LR t a b) x <-> x <> LA t a b /\ x <> LR t a b)).
    { intros y Hy. rewrite kept_spec. split.
      - intros Hk. split; intros ->; apply Hk; slots; auto 10.
      - intros (H1&H2) [Hs Ho]. destruct (HC y Hy) as [(j&w&->)|[(j&w&->)|[(j&->)|[(t'&a'&b'&Hl'&[->| ->])|(o&a'&Ho'&->)]]]]; slots; naive_solver. }
    split.
    - intros [[Hx Hk]|[-> Hc]]; [left|right]. { split; [done|]. by apply HK. }
      split; [done|]. intros Hw. apply (Hc _ Hw). apply cancel_spec. slots. auto.
    - intros [[Hx Hk]|[-> Hc]]; [left|right]. { split; [done|]. by apply HK. }
      split; [done|]. intros o Ho Hm. apply cancel_spec in Hm as [Hs Ho2].
      destruct (HC o Ho) as [(j&w&->)|[(j&w&->)|[(j&->)|[(t'&a'&b'&Hl'&[->| ->])|(o'&a'&Ho'&->)]]]]; slots; naive_solver.
  Qed.
  Lemma in_root o a x : ev_type x <> ERoot -> x ∈ q_handle q (Ev ERoot o a "" None) <-> x ∈ q.
  Proof using.
    intros Hx. rewrite in_handle. split; [|intros H; left; split; [done|]; apply kept_spec; slots; naive_solver].
    intros [[? _]|[-> _]]; [done|]. by destruct Hx.
  Qed.
  Lemma dec_item (f : string -> kind * Z -> event) i : (forall x, Decision (exists v, x = f i v)) -> (exists v, f i v ∈ q) \/ (forall v, f i v ∉ q).
  Proof using.
    intros HD. destruct (decide (Exists (fun x => exists v, x = f i v) q)) as [H|H].
    - left. apply Exists_exists in H as (x&Hin&v&->). by exists v.
    - right. intros v Hv. apply H, Exists_exists. by exists (f i v); eauto.
  Qed.
  Lemma dec_IA i : (exists v, IA i v ∈ q) \/ (forall v, IA i v ∉ q).
  Proof using.
    apply dec_item. intros x. destruct (ev_item x) as [v|] eqn:Hv; [|right; by intros [v ->]].
    destruct (decide (x = IA i v)) as [H|H]; [left; by exists v|right]. intros [w ->]. apply H. by injection Hv as ->.
  Qed.
  Lemma dec_IU i : (exists v, IU i v ∈ q) \/ (forall v, IU i v ∉ q).
  Proof using.
    apply dec_item. intros x. destruct (ev_item x) as [v|] eqn:Hv; [|right; by intros [v ->]].
    destruct (decide (x = IU i v)) as [H|H]; [left; by exists v|right]. intros [w ->]. apply H. by injection Hv as ->.
  Qed.
End handle.

(** a pair of pending events that must not be applied in this order *)
Definition okp (x y : event) : Prop :=
  (forall i v, y = IA i v -> (forall w, x <> IU i w) /\ forall t a b, is_link t = true -> x = LA t a b -> a <> i /\ b <> i) /\
  (forall i v t a b, x = IA i v -> is_link t = true -> y = LR t a b -> (a = i -> ka t v.1 = true) /\ (b = i -> kb t v.1 = true)).
Lemma sorted_filter (R : event -> event -> Prop) (P : event -> Prop) `{!forall x, Decision (P x)} l : StronglySorted R l -> StronglySorted R (filter P l).
Proof.
  induction 1 as [|x l HS IH HF]; [constructor|]. rewrite filter_cons. case_decide; [|done]. constructor; [done|].
  apply Forall_forall. intros y [_ Hy]%elem_of_list_filter. rewrite Forall_forall in HF. by apply HF.
Qed.
Lemma sorted_snoc (R : event -> event -> Prop) l y : StronglySorted R l -> Forall (fun x => R x y) l -> StronglySorted R (l ++ [y]).
Proof.
  induction 1 as [|x l HS IH HF]; intros H; [repeat constructor|]. apply Forall_cons in H as [Hx H]. simpl. constructor; [by apply IH|].
  apply Forall_app. split; [done|]. by repeat constructor.
Qed.
Lemma sorted_handle q ev : StronglySorted okp q -> (forall x, x ∈ q -> okp x ev) -> StronglySorted okp (q_handle q ev).
Proof.
  intros HS HO. rewrite q_handle_eq. case_decide; [rewrite app_nil_r; by apply sorted_filter|].
  apply sorted_snoc; [by apply sorted_filter|]. apply Forall_forall. intros x [_ Hx]%elem_of_list_filter. by apply HO.
Qed.

(** ** The state of the queue *)
Section queue.
  Context (lay : bool) (m : mirror).
  (** the links that are followed: layer links only if they are never added twice nor removed in vain *)
  Definition cov (t : etype) : Prop := t = ETree \/ t = EFrame \/ (t = ELayer /\ lay = true).
  Record J (mc : mirror) (q : list event) : Prop := {
    j_w : wlinks mc;
    j_nd : lay = true -> NoDup (m_layers mc);
    j_canon : Forall canon q;
    j_ord : StronglySorted okp q;
    j_A : forall i v, IA i v ∈ q -> m_items m !! i = None /\ exists v', m_items mc !! i = Some v' /\ v.1 = v'.1 /\ ((forall w, IU i w ∉ q) -> v' = v);
    j_U : forall i v, IU i v ∈ q -> m_items mc !! i = Some v /\ ((forall w, IA i w ∉ q) -> exists v0, m_items m !! i = Some v0 /\ v0.1 = v.1);
    j_R : forall i, IR i ∈ q -> m_items mc !! i = None /\ m_items m !! i <> None;
    j_0 : forall i, (forall w, IA i w ∉ q) -> (forall w, IU i w ∉ q) -> IR i ∉ q -> m_items m !! i = m_items mc !! i;
    j_LA : forall t a b, is_link t = true -> LA t a b ∈ q -> mlinked mc t a b;
    j_LAm : forall t a b, cov t -> LA t a b ∈ q -> ~ mlinked m t a b;
    j_LR : forall t a b, cov t -> LR t a b ∈ q -> ~ mlinked mc t a b /\ mlinked m t a b;
    j_LRk : forall t a b, is_link t = true -> LR t a b ∈ q ->
      (forall v, m_items m !! a = Some v -> ka t v.1 = true) /\ (forall v, m_items m !! b = Some v -> kb t v.1 = true);
    j_L0 : forall t a b, cov t -> LA t a b ∉ q -> LR t a b ∉ q -> mlinked m t a b <-> mlinked mc t a b;
  }.
  Lemma cov_link t : cov t -> is_link t = true.
  Proof using. intros [->|[->|[-> _]]]; done. Qed.
  (** an id known before and now names an item of the same class *)
  Lemma j_kind mc q i v v' : J mc q -> m_items m !! i = Some v -> m_items mc !! i = Some v' -> v.1 = v'.1.
  Proof using.
    intros HJ Hv Hv'. destruct (dec_IA q i) as [[w Hw]|NA]; [apply (j_A _ _ HJ) in Hw as [? _]; congruence|].
    destruct (dec_IU q i) as [[w Hw]|NU].
    - apply (j_U _ _ HJ) in Hw as [? H]. destruct (H NA) as (v0&?&?). congruence.
    - destruct (decide (IR i ∈ q)) as [HR|NR]; [apply (j_R _ _ HJ) in HR as [? _]; congruence|].
      rewrite (j_0 _ _ HJ i) in Hv by done. congruence.
  Qed.

  (** the event is allowed here *)
  Definition fine (mc : mirror) (ev : event) : Prop :=
    (forall i v, ev = IA i v -> m_items m !! i = None) /\
    (lay = true -> forall a b, (ev = LA ELayer a b -> ~ mlinked mc ELayer a b) /\ (ev = LR ELayer a b -> mlinked mc ELayer a b)).

  Lemma J_step mc q ev mc' : J mc q -> mstep mc ev = Some mc' -> fine mc ev -> J mc' (q_handle q ev).
  Proof using.
    intros HJ HM [G1 G2]. pose proof (mstep_case _ _ _ (j_w _ _ HJ) HM) as HC.
    pose proof (mcase_wlinks _ _ _ (j_w _ _ HJ) HC) as HW. pose proof (mcase_canon _ _ _ HC) as Hcan. clear HM.
    destruct HC as [i v -> Hn HI HL HY|i v v0 -> Hv Hk HI HL HY|i -> Hi HI HL HU HY|t a b -> Ht Ka Kb HI HL HX HY|t a b -> Ht Ka Kb HI HL1 HL2 HL3 HL4 HY|o x -> Ho ->].
    - (* item added *)
      assert (NA : forall w, IA i w ∉ q) by (intros w Hw; apply (j_A _ _ HJ) in Hw as (_&?&?&_); congruence).
      assert (NU : forall w, IU i w ∉ q) by (intros w Hw; apply (j_U _ _ HJ) in Hw as (?&_); congruence).
      specialize (G1 i v eq_refl).
      assert (NR : IR i ∉ q) by (intros Hw; by apply (j_R _ _ HJ) in Hw as (_&?)).
      pose proof (fun x => in_IA q (j_canon _ _ HJ) i v x NA NR) as HQ.
      constructor; rewrite ?HY; try done.
      + apply HJ.
      + by apply handle_canon; [apply HJ|].
      + apply sorted_handle; [apply HJ|]. intros x Hx. split; [|done]. intros j w Heq. injection Heq as <- <-. split; [by intros w ->; apply (NU w)|].
        intros t a b Ht ->. apply (j_LA _ _ HJ) in Hx; [|done]. apply (j_w _ _ HJ) in Hx as [(?&?&_) (?&?&_)]. split; congruence.
      + intros j w Hw. apply HQ in Hw as [Hw|Heq].
        * destruct (decide (j = i)) as [->|Hne]; [by apply NA in Hw|]. apply (j_A _ _ HJ) in Hw as (?&v'&?&?&HN). split; [done|].
          exists v'. rewrite HI, lookup_insert_ne by done. split; [done|]. split; [done|]. intros HN2. apply HN. intros w' Hw'. apply (HN2 w'), HQ. by left.
        * injection Heq as -> ->. split; [done|]. exists v. by rewrite HI, lookup_insert.
      + intros j w Hw. apply HQ in Hw as [Hw|Heq]; [|done].
        destruct (decide (j = i)) as [->|Hne]; [by apply NU in Hw|]. apply (j_U _ _ HJ) in Hw as (?&HN).
        rewrite HI, lookup_insert_ne by done. split; [done|]. intros HN2. apply HN. intros w' Hw'. apply (HN2 w'), HQ. by left.
      + intros j Hw. apply HQ in Hw as [Hw|Heq]; [|done].
        destruct (decide (j = i)) as [->|Hne]; [by apply NR in Hw|]. rewrite HI, lookup_insert_ne by done. by apply (j_R _ _ HJ).
      + intros j N1 N2 N3. destruct (decide (j = i)) as [->|Hne]; [exfalso; apply (N1 v), HQ; by right|].
        rewrite HI, lookup_insert_ne by done. apply (j_0 _ _ HJ); [intros w Hw; apply (N1 w)|intros w Hw; apply (N2 w)|intros Hw; apply N3]; apply HQ; by left.
      + intros t a b Ht Hin. apply HL. apply HQ in Hin as [Hin|Heq]; [by apply (j_LA _ _ HJ)|done].
      + intros t a b Ht Hin. apply HQ in Hin as [Hin|Heq]; [by apply (j_LAm _ _ HJ)|done].
      + intros t a b Ht Hin. rewrite HL. apply HQ in Hin as [Hin|Heq]; [by apply (j_LR _ _ HJ)|done].
      + intros t a b Ht Hin. apply HQ in Hin as [Hin|Heq]; [by apply (j_LRk _ _ HJ)|done].
      + intros t a b Ht N1 N2. rewrite HL. apply (j_L0 _ _ HJ); [done|intros Hw; apply N1|intros Hw; apply N2]; apply HQ; by left.
    - (* item modified *)
      pose proof (fun x => in_IU q (j_canon _ _ HJ) i v x) as HQ.
      assert (NR : IR i ∉ q) by (intros Hw; apply (j_R _ _ HJ) in Hw as (?&_); congruence).
      assert (QA : forall j w, IA j w ∈ q_handle q (IU i v) <-> IA j w ∈ q) by (intros j w; rewrite HQ; naive_solver).
      assert (QR : forall j, IR j ∈ q_handle q (IU i v) <-> IR j ∈ q) by (intros; rewrite HQ; naive_solver).
      assert (QL1 : forall t a b, LA t a b ∈ q_handle q (IU i v) <-> LA t a b ∈ q) by (intros; rewrite HQ; naive_solver).
      assert (QL2 : forall t a b, LR t a b ∈ q_handle q (IU i v) <-> LR t a b ∈ q) by (intros; rewrite HQ; naive_solver).
      constructor; rewrite ?HY; try done.
      + apply HJ.
      + by apply handle_canon; [apply HJ|].
      + apply sorted_handle; [apply HJ|]. intros x Hx. by split.
      + intros j w Hw. apply QA in Hw. apply (j_A _ _ HJ) in Hw as (?&v'&Hv'&?&HN). split; [done|]. rewrite HI.
        destruct (decide (j = i)) as [->|Hne].
        * exists v. rewrite lookup_insert. split; [done|]. split; [congruence|]. intros NU. exfalso. apply (NU v), HQ. by right.
        * exists v'. rewrite lookup_insert_ne by done. split; [done|]. split; [done|]. intros HN2. apply HN. intros w' Hw'. apply (HN2 w'), HQ. left. split; [done|]. intros ? Heq; injection Heq; congruence.
      + intros j w Hw. apply HQ in Hw as [[Hw Hnew]|Heq].
        * assert (j <> i) by (intros ->; by apply (Hnew w)). apply (j_U _ _ HJ) in Hw as (?&HN). rewrite HI, lookup_insert_ne by done. split; [done|].
          intros HN2. apply HN. intros w'. rewrite <-QA. apply HN2.
        * injection Heq as -> ->. rewrite HI, lookup_insert. split; [done|]. intros NA.
          destruct (dec_IU q i) as [[w Hw]|NU].
          -- apply (j_U _ _ HJ) in Hw as (?&HN). destruct HN as (v1&?&?); [intros w'; rewrite <-QA; apply NA|]. exists v1. split; [done|]. congruence.
          -- exists v0. split; [|done]. rewrite (j_0 _ _ HJ i); [done| |done|done]. intros w'; rewrite <-QA; apply NA.
      + intros j Hw. apply QR in Hw. destruct (decide (j = i)) as [->|Hne]; [done|]. rewrite HI, lookup_insert_ne by done. by apply (j_R _ _ HJ).
      + intros j N1 N2 N3. destruct (decide (j = i)) as [->|Hne]; [exfalso; apply (N2 v), HQ; by right|].
        rewrite HI, lookup_insert_ne by done. apply (j_0 _ _ HJ); [intros w; rewrite <-QA; apply N1|intros w Hw; apply (N2 w), HQ; left; split; [done|intros ? Heq; injection Heq; congruence]|by rewrite <-QR].
      + intros t a b Ht Hin. apply HL. apply QL1 in Hin. by apply (j_LA _ _ HJ).
      + intros t a b Ht Hin. apply QL1 in Hin. by apply (j_LAm _ _ HJ).
      + intros t a b Ht Hin. rewrite HL. apply QL2 in Hin. by apply (j_LR _ _ HJ).
      + intros t a b Ht Hin. apply QL2 in Hin. by apply (j_LRk _ _ HJ).
      + intros t a b Ht. rewrite HL, QL1, QL2. by apply (j_L0 _ _ HJ).
    - (* item removed *)
      pose proof (fun x => in_IR q (j_canon _ _ HJ) i x) as HQ.
      assert (NR : IR i ∉ q) by (intros Hw; apply (j_R _ _ HJ) in Hw as (Hw&_); rewrite Hw in Hi; by destruct Hi).
      assert (QA : forall j w, IA j w ∈ q_handle q (IR i) <-> IA j w ∈ q /\ j <> i) by (intros j w; rewrite HQ; naive_solver).
      assert (QU : forall j w, IU j w ∈ q_handle q (IR i) <-> IU j w ∈ q /\ j <> i) by (intros j w; rewrite HQ; naive_solver).
      assert (QR : forall j, j <> i -> IR j ∈ q_handle q (IR i) <-> IR j ∈ q) by (intros; rewrite HQ; naive_solver).
      assert (QL1 : forall t a b, LA t a b ∈ q_handle q (IR i) <-> LA t a b ∈ q) by (intros; rewrite HQ; naive_solver).
      assert (QL2 : forall t a b, is_link t = true -> LR t a b ∈ q_handle q (IR i) <-> LR t a b ∈ q) by (intros [] ? ? ?; rewrite HQ; naive_solver).
      constructor; rewrite ?HY; try done.
      + apply HJ.
      + by apply handle_canon; [apply HJ|].
      + apply sorted_handle; [apply HJ|]. intros x Hx. split; [done|]. intros j w t a b _ Ht Heq. by destruct t.
      + intros j w [Hw Hne]%QA. apply (j_A _ _ HJ) in Hw as (?&v'&Hv'&?&HN). split; [done|]. exists v'. rewrite HI, lookup_delete_ne by done.
        split; [done|]. split; [done|]. intros HN2. apply HN. intros w' Hw'. apply (HN2 w'), QU. done.
      + intros j w [Hw Hne]%QU. apply (j_U _ _ HJ) in Hw as (?&HN). rewrite HI, lookup_delete_ne by done. split; [done|]. intros HN2. apply HN. intros w' Hw'.
        apply (HN2 w'), QA. done.
      + intros j Hw. destruct (decide (j = i)) as [->|Hne].
        * rewrite HI, lookup_delete. split; [done|]. apply HQ in Hw as [(_&_&_&?)|[_ NA]]; [done|].
          destruct (dec_IU q i) as [[w Hw]|NU].
          -- apply (j_U _ _ HJ) in Hw as (_&HN). destruct (HN NA) as (?&->&_). done.
          -- rewrite (j_0 _ _ HJ i) by done. by destruct Hi as [? ->].
        * rewrite HI, lookup_delete_ne by done. apply QR in Hw; [|done]. by apply (j_R _ _ HJ).
      + intros j N1 N2 N3. destruct (decide (j = i)) as [->|Hne].
        * rewrite HI, lookup_delete. destruct (dec_IA q i) as [[w Hw]|NA]; [by apply (j_A _ _ HJ) in Hw as [? _]|]. exfalso. apply N3, HQ. by right.
        * rewrite HI, lookup_delete_ne by done. apply (j_0 _ _ HJ); [intros w Hw; by apply (N1 w), QA|intros w Hw; by apply (N2 w), QU|by rewrite <-QR].
      + intros t a b Ht Hin. apply HL. apply QL1 in Hin. by apply (j_LA _ _ HJ).
      + intros t a b Ht Hin. apply QL1 in Hin. by apply (j_LAm _ _ HJ).
      + intros t a b Ht Hin. rewrite HL. apply QL2 in Hin; [|by apply cov_link]. by apply (j_LR _ _ HJ).
      + intros t a b Ht Hin. apply QL2 in Hin; [|done]. by apply (j_LRk _ _ HJ).
      + intros t a b Ht. rewrite HL, QL1, QL2 by (by apply cov_link). by apply (j_L0 _ _ HJ).
    - (* link added *)
      pose proof (fun x => in_LA q (j_canon _ _ HJ) t a b x Ht) as HQ.
      assert (Hne : t <> EItem) by (by intros ->).
      assert (QA : forall j w, IA j w ∈ q_handle q (LA t a b) <-> IA j w ∈ q) by (intros; rewrite HQ; apply keep_item; unfold IA, IU, IR, LA, LR; congruence).
      assert (QU : forall j w, IU j w ∈ q_handle q (LA t a b) <-> IU j w ∈ q) by (intros; rewrite HQ; apply keep_item; unfold IA, IU, IR, LA, LR; congruence).
      assert (QR : forall j, IR j ∈ q_handle q (LA t a b) <-> IR j ∈ q) by (intros; rewrite HQ; apply keep_item; unfold IA, IU, IR, LA, LR; congruence).
      assert (NL : cov t -> ~ mlinked mc t a b).
      { intros [->|[->|[-> Hlay]]]; [by apply HX..|]. destruct (G2 Hlay a b) as [? _]. auto. }
      assert (NLA : cov t -> LA t a b ∉ q) by (intros Hc Hin; apply (j_LA _ _ HJ) in Hin; [by apply NL|done]).
      constructor; try done.
      + intros Hlay. rewrite HY. case_decide as D; [|by apply HJ]. subst t. apply NoDup_cons. split; [|by apply HJ]. destruct (G2 Hlay a b) as [HG _]. by apply HG.
      + by apply handle_canon; [apply HJ|].
      + apply sorted_handle; [apply HJ|]. intros x Hx. split; [intros ? ? Heq; injection Heq as -> _; done|done].
      + intros i v. rewrite QA, HI. intros (?&v'&?&?&HN)%(j_A _ _ HJ). split; [done|]. exists v'. split; [done|]. split; [done|]. intros HN2. apply HN. intros w. rewrite <-QU. apply HN2.
      + intros i v. rewrite QU, HI. intros (?&HN)%(j_U _ _ HJ). split; [done|]. intros HN2. apply HN. intros w. rewrite <-QA. apply HN2.
      + intros i. rewrite QR, HI. apply HJ.
      + intros i N1 N2 N3. rewrite HI. apply (j_0 _ _ HJ); [intros w; rewrite <-QA; apply N1|intros w; rewrite <-QU; apply N2|by rewrite <-QR].
      + intros t' x y Ht' Hin. apply HL. apply HQ in Hin as [(Hin&_&_)|[Heq _]]; [left; by apply (j_LA _ _ HJ)|right]. by injection Heq.
      + intros t' x y Ht' Hin. apply HQ in Hin as [(Hin&_&_)|[Heq HR]]; [by apply (j_LAm _ _ HJ)|]. injection Heq as -> -> ->.
        rewrite (j_L0 _ _ HJ); [by apply NL|done|by apply NLA|done].
      + intros t' x y Ht' Hin. apply HQ in Hin as [(Hin&_&Hne2)|[Heq HR]]; [|done]. rewrite HL. apply (j_LR _ _ HJ) in Hin as [? ?]; [|done]. split; [|done].
        intros [?|(->&->&->)]; [done|]. by destruct Hne2.
      + intros t' x y Ht' Hin. apply HQ in Hin as [(Hin&_&_)|[Heq _]]; [by apply (j_LRk _ _ HJ)|done].
      + intros t' x y Ht' N1 N2. rewrite HL. destruct (decide (LA t' x y = LA t a b)) as [Heq|Hd].
        * injection Heq as -> -> ->. destruct (decide (LR t a b ∈ q)) as [HR|NR].
          -- apply (j_LR _ _ HJ) in HR as [? ?]; [|done]. naive_solver.
          -- exfalso. apply N1, HQ. by right.
        * assert (~ (t' = t /\ x = a /\ y = b)) by (intros (->&->&->); done).
          rewrite (j_L0 _ _ HJ t' x y); [tauto|done|intros Hw; apply N1|intros Hw; apply N2]; apply HQ; left; (split; [done|]); split; try done; intros Heq; apply Hd; injection Heq as -> -> ->; done.
    - (* link removed *)
      pose proof (fun x => in_LR q (j_canon _ _ HJ) t a b x Ht) as HQ.
      assert (Hne : t <> EItem) by (by intros ->).
      assert (QA : forall j w, IA j w ∈ q_handle q (LR t a b) <-> IA j w ∈ q) by (intros; rewrite HQ; apply keep_item; unfold IA, IU, IR, LA, LR; congruence).
      assert (QU : forall j w, IU j w ∈ q_handle q (LR t a b) <-> IU j w ∈ q) by (intros; rewrite HQ; apply keep_item; unfold IA, IU, IR, LA, LR; congruence).
      assert (QR : forall j, IR j ∈ q_handle q (LR t a b) <-> IR j ∈ q) by (intros; rewrite HQ; apply keep_item; unfold IA, IU, IR, LA, LR; congruence).
      assert (YL : cov t -> mlinked mc t a b).
      { intros [->|[->|[-> Hlay]]]; [by apply HL2..|]. destruct (G2 Hlay a b) as [_ ?]. auto. }
      assert (NL : cov t -> ~ mlinked mc' t a b).
      { intros Hc. apply HL3. destruct Hc as [->|[->|[-> Hlay]]]; [by left..|]. right. by apply HJ. }
      assert (NLR : cov t -> LR t a b ∉ q) by (intros Hc Hin; apply (j_LR _ _ HJ) in Hin as [Hin _]; [by apply Hin, YL|done]).
      constructor; try done.
      + intros Hlay. rewrite HY. pose proof (j_nd _ _ HJ Hlay) as HN. case_decide as D; [|done].
        destruct (decide ((b, a) ∈ m_layers mc)) as [Hin|Hn]; [|by rewrite del_one_notin]. apply del_one_perm in Hin. rewrite <-Hin in HN. by apply NoDup_cons in HN as [_ ?].
      + by apply handle_canon; [apply HJ|].
      + apply sorted_handle; [apply HJ|]. intros x Hx. split; [done|]. intros i v t' a' b' -> _ Heq. injection Heq as -> -> ->.
        apply (j_A _ _ HJ) in Hx as (_&v'&Hv'&Hk&_). destruct Ka as (va&Hva&Hka), Kb as (vb&Hvb&Hkb). split; intros ->; congruence.
      + intros i v. rewrite QA, HI. intros (?&v'&?&?&HN)%(j_A _ _ HJ). split; [done|]. exists v'. split; [done|]. split; [done|]. intros HN2. apply HN. intros w. rewrite <-QU. apply HN2.
      + intros i v. rewrite QU, HI. intros (?&HN)%(j_U _ _ HJ). split; [done|]. intros HN2. apply HN. intros w. rewrite <-QA. apply HN2.
      + intros i. rewrite QR, HI. apply HJ.
      + intros i N1 N2 N3. rewrite HI. apply (j_0 _ _ HJ); [intros w; rewrite <-QA; apply N1|intros w; rewrite <-QU; apply N2|by rewrite <-QR].
      + intros t' x y Ht' Hin. apply HQ in Hin as [(Hin&Hne2&_)|[Heq _]]; [|done]. apply HL1; [|by apply (j_LA _ _ HJ)]. by intros (->&->&->).
      + intros t' x y Ht' Hin. apply HQ in Hin as [(Hin&_&_)|[Heq HR]]; [by apply (j_LAm _ _ HJ)|done].
      + intros t' x y Ht' Hin. apply HQ in Hin as [(Hin&_&Hne2)|[Heq HR]].
        * apply (j_LR _ _ HJ) in Hin as [? ?]; [|done]. split; [|done]. by intros ?%HL4.
        * injection Heq as -> -> ->. split; [by apply NL|]. rewrite (j_L0 _ _ HJ); [by apply YL|done|done|by apply NLR].
      + intros t' x y Ht' Hin. apply HQ in Hin as [(Hin&_&_)|[Heq _]]; [by apply (j_LRk _ _ HJ)|]. injection Heq as -> -> ->.
        destruct Ka as (va&Hva&Hka), Kb as (vb&Hvb&Hkb). split; intros v Hv; erewrite j_kind; eauto.
      + intros t' x y Ht' N1 N2. destruct (decide (LA t' x y = LA t a b)) as [Heq|Hd].
        * injection Heq as -> -> ->. destruct (decide (LA t a b ∈ q)) as [HR|NR].
          -- apply (j_LAm _ _ HJ) in HR; [|done]. specialize (NL Ht'). tauto.
          -- exfalso. apply N2, HQ. by right.
        * rewrite HL1 by (intros (->&->&->); done).
          apply (j_L0 _ _ HJ t' x y); [done|intros Hw; apply N1|intros Hw; apply N2]; apply HQ; left; (split; [done|]); split; try done; intros Heq; apply Hd; injection Heq as -> -> ->; done.
    - (* root *)
      pose proof (in_root q o x) as HQ.
      constructor; try (apply HJ).
      + by apply handle_canon; [apply HJ|].
      + apply sorted_handle; [apply HJ|]. intros y Hy. split; [done|]. intros j w t a b _ Ht Heq. by destruct t.
      + intros i v. rewrite HQ by done. intros (?&v'&?&?&HN)%(j_A _ _ HJ). split; [done|]. exists v'. split; [done|]. split; [done|]. intros HN2. apply HN. intros w. rewrite <-(HQ (IU i w)) by done. apply HN2.
      + intros i v. rewrite HQ by done. intros (?&HN)%(j_U _ _ HJ). split; [done|]. intros HN2. apply HN. intros w. rewrite <-(HQ (IA i w)) by done. apply HN2.
      + intros i. rewrite HQ by done. apply HJ.
      + intros i N1 N2 N3. apply (j_0 _ _ HJ); [intros w; rewrite <-(HQ (IA i w)) by done; apply N1|intros w; rewrite <-(HQ (IU i w)) by done; apply N2|by rewrite <-(HQ (IR i)) by done].
      + intros t a b Ht. rewrite HQ by (by destruct t). by apply (j_LA _ _ HJ).
      + intros t a b Ht. rewrite HQ by (apply cov_link in Ht; by destruct t). by apply (j_LAm _ _ HJ).
      + intros t a b Ht. rewrite HQ by (apply cov_link in Ht; by destruct t). by apply (j_LR _ _ HJ).
      + intros t a b Ht. rewrite HQ by (by destruct t). by apply (j_LRk _ _ HJ).
      + intros t a b Ht. rewrite !HQ by (apply cov_link in Ht; by destruct t). by apply (j_L0 _ _ HJ).
  Qed.
End queue.

Lemma J_init lay m : wlinks m -> (lay = true -> NoDup (m_layers m)) -> J lay m m [].
Proof.
  intros HW HN. constructor. 4: apply SSorted_nil. 3: apply Forall_nil_2. all: intros *; rewrite ?elem_of_nil; try done; by intros ? [].
Qed.
Fixpoint fine_all (lay : bool) (m mc : mirror) (es : list event) : Prop :=
  match es with
  | [] => True
  | ev :: r => fine lay m mc ev /\ forall mc', mstep mc ev = Some mc' -> fine_all lay m mc' r
  end.
Lemma J_run lay m es : forall mc q mf, J lay m mc q -> replay mc es = Some mf -> fine_all lay m mc es -> J lay m mf (foldl q_handle q es).
Proof.
  induction es as [|ev es IH]; intros mc q mf HJ HR HF; cbn [replay foldl] in *; [by injection HR as <-|].
  destruct (mstep mc ev) as [mc'|] eqn:HM; [|done]. destruct HF as [H1 H2]. eapply IH; [by eapply J_step|done|by apply H2].
Qed.

(** ** Applying it *)
Section apply.
  Context (lay : bool) (mc : mirror) (me : eid) (rid : string).
  Context (HW : wlinks mc) (HP : forall i v, m_items mc !! i = Some v -> proper_id i)
          (HD : forall t a b, mlinked mc t a b -> a <> b) (HRID : is_Some (m_items mc !! rid)).
  Notation cov := (cov lay).
  Record T (todo : list event) (r : st) : Prop := {
    t_inv : Inv me r;
    t_root : has is_frame me (hp r) (e_root (en r));
    t_rid : root_id r = rid;
    t_canon : Forall canon todo;
    t_ord : StronglySorted okp todo;
    t_nodup : NoDup todo;
    t_A : forall i v, IA i v ∈ todo -> exists v', m_items mc !! i = Some v' /\ v.1 = v'.1 /\ ((forall w, IU i w ∉ todo) -> v' = v) /\
      forall v0, content r !! i = Some v0 -> v0.1 = v.1;
    t_U : forall i v, IU i v ∈ todo -> m_items mc !! i = Some v /\ ((forall w, IA i w ∉ todo) -> exists v0, content r !! i = Some v0 /\ v0.1 = v.1);
    t_R : forall i, IR i ∈ todo -> m_items mc !! i = None;
    t_0 : forall i, (forall w, IA i w ∉ todo) -> (forall w, IU i w ∉ todo) -> IR i ∉ todo -> content r !! i = m_items mc !! i;
    t_S1 : forall t a b, cov t -> mlinked mc t a b -> LA t a b ∉ todo -> linked r t a b;
    t_S2 : forall t a b, cov t -> ~ mlinked mc t a b -> LR t a b ∉ todo -> ~ linked r t a b;
    t_LA : forall t a b, is_link t = true -> LA t a b ∈ todo -> mlinked mc t a b;
    t_LAr : forall a b, lay = true -> LA ELayer a b ∈ todo -> ~ linked r ELayer a b;
    t_LR : forall t a b, cov t -> LR t a b ∈ todo -> ~ mlinked mc t a b;
    t_LRk : forall t a b, is_link t = true -> LR t a b ∈ todo ->
      (forall v, content r !! a = Some v -> ka t v.1 = true) /\ (forall v, content r !! b = Some v -> kb t v.1 = true);
    t_nd : lay = true -> NoDup (e_layers (en r));
  }.

  (** an item that exists in the end and is not about to be added exists already *)
  Lemma t_there todo r i v : T todo r -> (forall w, IA i w ∉ todo) -> m_items mc !! i = Some v -> exists v0, content r !! i = Some v0 /\ v0.1 = v.1.
  Proof using.
    intros HT NA Hv. destruct (dec_IU todo i) as [[w Hw]|NU].
    - apply (t_U _ _ HT) in Hw as [Hw HN]. destruct (HN NA) as (v0&?&?). exists v0. split; [done|]. congruence.
    - exists v. split; [|done]. rewrite (t_0 _ _ HT i NA NU); [done|]. intros HR%(t_R _ _ HT). congruence.
  Qed.

  Lemma single_eq t a b x y : mlinked mc t a b -> mlinked mc t x y -> replaces t a b x y -> (x, y) = (a, b).
  Proof using. intros H1 H2 (k&E1&E2). destruct t; simpl in *; simplify_eq; done. Qed.

  (** what the items part needs after the content of [i] was overwritten by [v] *)
  Lemma T_set todo r r' c i v ev : (ev = IA i v \/ ev = IU i v) -> T (ev :: todo) r -> Safe me c ev r r' -> effect ev r r' ->
    (forall v0, content r !! i = Some v0 -> v0.1 = v.1) -> T todo r'.
  Proof using HRID.
    intros Hev HT HS HE Hk.
    assert (Hmc : exists v', m_items mc !! i = Some v' /\ v'.1 = v.1 /\ ((forall w, IU i w ∉ todo) -> v' = v) /\ forall w, IA i w ∈ todo -> ev = IA i v).
    { destruct Hev as [->| ->].
      - destruct (t_A _ _ HT i v) as (v'&?&?&HN&_); [left|]. exists v'. split; [done|]. split; [done|]. split; [|done].
        intros NU. apply HN. intros w. rewrite elem_of_cons. intros [|Hw]; [done|]. by apply (NU w).
      - destruct (t_U _ _ HT i v) as (?&_); [left|]. exists v. split; [done|]. split; [done|]. split; [done|].
        intros w Hw. exfalso. pose proof (t_ord _ _ HT) as HO. inversion HO as [|? ? _ HF]; subst. rewrite Forall_forall in HF.
        destruct (HF _ Hw) as [HF1 _]. destruct (HF1 i w eq_refl) as [HF2 _]. by apply (HF2 v). }
    destruct Hmc as (v'&Hv'&Hkv&HvU&HvA).
    assert (HC : content r' = <[i:=v]> (content r) /\ forall t x y, linked r' t x y <-> linked r t x y).
    { destruct Hev as [->| ->]; destruct HE as [HL HE]; (split; [|done]); rewrite (HE v eq_refl); cbn [IA IU ev_a];
        (destruct (content r !! i) as [v0|] eqn:H0; [|done]); by rewrite decide_True by auto. }
    clear HE. destruct HC as [HC HL].
    assert (Hnl : ev_type ev = EItem) by (by destruct Hev as [->| ->]).
    assert (Hin : forall x, x ∈ todo -> x ∈ ev :: todo) by (intros; by right).
    constructor.
    - apply HS.
    - apply HS.
    - rewrite (sf_root_id _ _ _ _ _ HS). apply HT.
    - by eapply Forall_inv_tail, HT.
    - pose proof (t_ord _ _ HT) as HO. by inversion HO.
    - pose proof (t_nodup _ _ HT) as HO. by apply NoDup_cons in HO as [_ ?].
    - intros j w Hw. destruct (decide (j = i)) as [->|Hne].
      + rewrite HC, lookup_insert. destruct (t_A _ _ HT i w (Hin _ Hw)) as (v2&Hv2&Hk2&HN&_). exists v2. split; [done|]. split; [done|]. split.
        * intros NU. apply HN. intros w'. rewrite elem_of_cons. intros [Heq|]; [|by apply (NU w')]. by rewrite (HvA _ Hw) in Heq.
        * intros v0 [= <-]. congruence.
      + rewrite HC, lookup_insert_ne by done. destruct (t_A _ _ HT j w (Hin _ Hw)) as (v2&Hv2&Hk2&HN&HX). exists v2. split; [done|]. split; [done|]. split; [|done].
        intros NU. apply HN. intros w'. rewrite elem_of_cons. intros [Heq|]; [|by apply (NU w')]. destruct Hev as [->| ->]; [done|]. by injection Heq.
    - intros j w Hw. destruct (t_U _ _ HT j w (Hin _ Hw)) as [Hm HN]. split; [done|]. intros NA. destruct (decide (j = i)) as [->|Hne].
      + exists v. rewrite HC, lookup_insert. split; [done|]. congruence.
      + rewrite HC, lookup_insert_ne by done. apply HN. intros w'. rewrite elem_of_cons. intros [Heq|]; [|by apply (NA w')].
        destruct Hev as [->| ->]; [|done]. by injection Heq.
    - intros j Hw. apply (t_R _ _ HT). auto.
    - intros j NA NU NR. destruct (decide (j = i)) as [->|Hne].
      + rewrite HC, lookup_insert, Hv'. by rewrite HvU.
      + rewrite HC, lookup_insert_ne by done. apply (t_0 _ _ HT).
        * intros w. rewrite elem_of_cons. intros [Heq|]; [|by apply (NA w)]. destruct Hev as [->| ->]; [|done]. by injection Heq.
        * intros w. rewrite elem_of_cons. intros [Heq|]; [|by apply (NU w)]. destruct Hev as [->| ->]; [done|]. by injection Heq.
        * rewrite elem_of_cons. intros [Heq|]; [|by apply NR]. by destruct Hev as [->| ->].
    - intros t a b Ht Hm Hn. apply HL, (t_S1 _ _ HT); [done..|]. rewrite elem_of_cons. intros [Heq|]; [|done].
      rewrite <-Heq in Hnl. cbn in Hnl. subst t. by destruct Hm.
    - intros t a b Ht Hm Hn. rewrite HL. apply (t_S2 _ _ HT); [done..|]. rewrite elem_of_cons. intros [Heq|]; [|done].
      rewrite <-Heq in Hnl. cbn in Hnl. subst t. by apply cov_link in Ht.
    - intros t a b Ht Hm. apply (t_LA _ _ HT); auto.
    - intros a b Ht Hm. rewrite HL. apply (t_LAr _ _ HT); auto.
    - intros t a b Ht Hm. apply (t_LR _ _ HT); auto.
    - intros t a b Ht Hm. destruct (t_LRk _ _ HT t a b Ht (Hin _ Hm)) as [H1 H2].
      assert (HA : (a = i -> ka t v.1 = true) /\ (b = i -> kb t v.1 = true)).
      { destruct Hev as [->| ->].
        - pose proof (t_ord _ _ HT) as HO. inversion HO as [|? ? _ HF]; subst. rewrite Forall_forall in HF.
          destruct (HF _ Hm) as [_ HF1]. by apply (HF1 i v t a b).
        - destruct (t_there _ _ i v' HT) as (v0&Hv0&Hk0); [|done|].
          { intros w. rewrite elem_of_cons. intros [?|Hw]; [done|]. by apply HvA in Hw. }
          split; intros ->; rewrite <-(Hk _ Hv0); auto. }
      rewrite HC. split; intros w; rewrite lookup_insert_Some; intros [[<- <-]|[_ Hw]]; auto; by apply HA.
    - intros Hlay. apply (sf_layers _ _ _ _ _ HS); [by apply HT|]. rewrite Hnl. done.
  Qed.

  Lemma T_step c ev todo r : T (ev :: todo) r -> hp r !! c = None -> exists r', apply_event me c ev r = Ok r' /\ Safe me c ev r r' /\ T todo r'.
  Proof using HW HP HD HRID.
    intros HT Hc. pose proof (t_canon _ _ HT) as HC. apply Forall_cons in HC as [HC HCt].
    pose proof (t_ord _ _ HT) as HO. assert (HOt : StronglySorted okp todo) by (by inversion HO).
    assert (HOx : forall y, y ∈ todo -> okp ev y) by (inversion HO as [|? ? _ HF]; by rewrite Forall_forall in HF).
    pose proof (t_nodup _ _ HT) as HN. apply NoDup_cons in HN as [HNx HNt].
    assert (Hin : forall x, x ∈ todo -> x ∈ ev :: todo) by (intros; by right).
    pose proof (apply_event_ok me c ev r (t_inv _ _ HT) (t_root _ _ HT) Hc) as HA.
    destruct HC as [(i&v&->)|[(i&v&->)|[(i&->)|[(t&a&b&Ht&[->| ->])|(o&a&Ho'&->)]]]].
    - destruct (t_A _ _ HT i v) as (v'&Hv'&Hk&_&Hr); [left|].
      destruct HA as (r'&HA&HS&HE); [by split; [eapply HP|eexists]|done|by intros (_&?&_)|].
      exists r'. split; [done|]. split; [done|]. apply (T_set todo r r' c i v (IA i v)); auto.
    - destruct (t_U _ _ HT i v) as (Hv'&_); [left|].
      assert (NA : forall w, IA i w ∉ IU i v :: todo).
      { intros w. rewrite elem_of_cons. intros [?|Hw]; [done|]. destruct (HOx _ Hw) as [HF1 _]. destruct (HF1 i w eq_refl) as [HF2 _]. by apply (HF2 v). }
      destruct (t_there _ _ i v HT NA Hv') as (v0&Hv0&Hk).
      destruct HA as (r'&HA&HS&HE); [by split; [eapply HP|eexists]|done|intros (_&_&Hx&_); cbn in Hx; congruence|].
      exists r'. split; [done|]. split; [done|]. apply (T_set todo r r' c i v (IU i v)); auto. intros w Hw. congruence.
    - assert (Hv' : m_items mc !! i = None) by (apply (t_R _ _ HT); left).
      assert (Hir : i <> rid) by (intros ->; rewrite Hv' in HRID; by destruct HRID).
      destruct HA as (r'&HA&HS&HE); [done|by intros ? ? _ _|by intros (_&?&_)|].
      exists r'. split; [done|]. split; [done|]. unfold effect in HE. cbn [IR ev_type ev_op ev_a] in HE.
      rewrite decide_False in HE by (by rewrite (t_rid _ _ HT)). destruct HE as [HCo HL].
      constructor; try done.
      + apply HS.
      + apply HS.
      + rewrite (sf_root_id _ _ _ _ _ HS). apply HT.
      + intros j w Hw. destruct (t_A _ _ HT j w (Hin _ Hw)) as (v'&?&?&HN&?). exists v'. split; [done|]. split; [done|]. split.
        * intros NU. apply HN. intros w'. rewrite elem_of_cons. intros [?|?]; [done|by apply (NU w')].
        * rewrite HCo. intros v0. rewrite lookup_delete_Some. intros [_ ?]. auto.
      + intros j w Hw. destruct (t_U _ _ HT j w (Hin _ Hw)) as [Hm HN]. split; [done|]. intros NA.
        destruct HN as (v0&?&?). { intros w'. rewrite elem_of_cons. intros [?|?]; [done|by apply (NA w')]. }
        exists v0. rewrite HCo, lookup_delete_ne by congruence. done.
      + intros j Hw. apply (t_R _ _ HT). auto.
      + intros j NA NU NR. rewrite HCo. destruct (decide (j = i)) as [->|Hne]; [by rewrite lookup_delete, Hv'|]. rewrite lookup_delete_ne by done.
        apply (t_0 _ _ HT); [intros w|intros w|]; rewrite elem_of_cons; intros [Heq|?]; try done; [by apply (NA w)|by apply (NU w)|]. by injection Heq.
      + intros t a b Ht Hm Hn. apply HL. split.
        * apply (t_S1 _ _ HT); [done..|]. rewrite elem_of_cons. by intros [?|?].
        * apply HW in Hm as [(?&?&_) (?&?&_)]. split; congruence.
      + intros t a b Ht Hm Hn. rewrite HL. intros [Hl _]. revert Hl. apply (t_S2 _ _ HT); [done..|]. rewrite elem_of_cons. intros [Heq|?]; [|done].
        injection Heq as -> _ _. by apply cov_link in Ht.
      + intros t a b Ht Hm. apply (t_LA _ _ HT); auto.
      + intros a b Ht Hm. rewrite HL. intros [Hl _]. revert Hl. apply (t_LAr _ _ HT); auto.
      + intros t a b Ht Hm. apply (t_LR _ _ HT); auto.
      + intros t a b Ht Hm. destruct (t_LRk _ _ HT t a b Ht (Hin _ Hm)) as [H1 H2]. rewrite HCo. split; intros w; rewrite lookup_delete_Some; intros [_ ?]; auto.
      + intros Hlay. apply (sf_layers _ _ _ _ _ HS); [by apply HT|done].
    - (* link added *)
      assert (Hm : mlinked mc t a b) by (apply (t_LA _ _ HT); [done|left]).
      destruct (HW _ _ _ Hm) as [(va&Hva&Hka) (vb&Hvb&Hkb)].
      assert (Hne : t <> EItem) by (by intros ->).
      assert (NA : forall i w, i = a \/ i = b -> IA i w ∉ LA t a b :: todo).
      { intros i w Hi. rewrite elem_of_cons. intros [Heq|Hw]; [injection Heq; congruence|]. destruct (HOx _ Hw) as [HF1 _]. destruct (HF1 i w eq_refl) as [_ HF2].
        destruct (HF2 t a b Ht eq_refl). naive_solver. }
      destruct (t_there _ _ a va HT) as (ra&Hra&Hkra); [auto|done|]. destruct (t_there _ _ b vb HT) as (rb&Hrb&Hkrb); [auto|done|].
      destruct HA as (r'&HA&HS&HE).
      { unfold event_ok. cbn. apply HD in Hm. by destruct t. }
      { intros x y. cbn. intros Hx Hy. apply ends_ok_k; congruence. }
      { intros (Hx&_). done. }
      exists r'. split; [done|]. split; [done|].
      assert (HE2 : content r' = content r /\ forall t' x y, linked r' t' x y <->
        (linked r t' x y /\ ~ (t' = t /\ (x, y) <> (a, b) /\ replaces t a b x y)) \/ (t' = t /\ x = a /\ y = b)).
      { unfold effect in HE. cbn [LA ev_type ev_op ev_a ev_b] in HE. rewrite Hra, Hrb in HE.
        assert (is_Some (Some ra) /\ is_Some (Some rb)) as [S1 S2] by (split; by eexists).
        destruct t; try done; destruct HE as [HE1 HE2]; (split; [done|]); intros t' x y; rewrite HE2; tauto. }
      clear HE. destruct HE2 as [HCo HL].
      constructor; try done.
      + apply HS.
      + apply HS.
      + rewrite (sf_root_id _ _ _ _ _ HS). apply HT.
      + intros j w Hw. destruct (t_A _ _ HT j w (Hin _ Hw)) as (v'&?&?&HN&?). exists v'. rewrite HCo. split; [done|]. split; [done|]. split; [|done].
        intros NU. apply HN. intros w'. rewrite elem_of_cons. intros [?|?]; [done|by apply (NU w')].
      + intros j w Hw. destruct (t_U _ _ HT j w (Hin _ Hw)) as [Hm2 HN]. split; [done|]. intros NA2. rewrite HCo. apply HN.
        intros w'. rewrite elem_of_cons. intros [Heq|?]; [injection Heq; congruence|by apply (NA2 w')].
      + intros j Hw. apply (t_R _ _ HT). auto.
      + intros j NA2 NU NR. rewrite HCo.
        apply (t_0 _ _ HT); [intros w|intros w|]; rewrite elem_of_cons; intros [Heq|?]; try done; [by apply (NA2 w)|by apply (NU w)].
      + intros t' x y Ht' Hm2 Hn. apply HL. destruct (decide (LA t' x y = LA t a b)) as [Heq|Hd].
        * right. by injection Heq.
        * left. split; [apply (t_S1 _ _ HT); [done..|]; rewrite elem_of_cons; by intros [?|?]|]. intros (->&Hxy&Hrep). apply Hxy. by eapply single_eq.
      + intros t' x y Ht' Hm2 Hn. rewrite HL. intros [[Hl _]|(->&->&->)]; [|done]. revert Hl. apply (t_S2 _ _ HT); [done..|]. rewrite elem_of_cons. by intros [?|?].
      + intros t' x y Ht' Hm2. apply (t_LA _ _ HT); auto.
      + intros x y Hlay Hm2. rewrite HL. intros [[Hl _]|(<-&->&->)]; [|done]. revert Hl. apply (t_LAr _ _ HT); auto.
      + intros t' x y Ht' Hm2. apply (t_LR _ _ HT); auto.
      + intros t' x y Ht' Hm2. rewrite HCo. apply (t_LRk _ _ HT); auto.
      + intros Hlay. apply (sf_layers _ _ _ _ _ HS); [by apply HT|]. cbn. intros -> _. apply (t_LAr _ _ HT); [done|left].
    - (* link removed *)
      assert (Hne : t <> EItem) by (by intros ->).
      destruct (t_LRk _ _ HT t a b Ht) as [Hka Hkb]; [left|].
      destruct HA as (r'&HA&HS&HE).
      { unfold event_ok. cbn. by destruct t. }
      { intros x y. cbn. intros Hx Hy. apply ends_ok_k; auto. }
      { intros (_&?&_). done. }
      exists r'. split; [done|]. split; [done|].
      assert (HE2 : content r' = content r /\ (forall t' x y, ~ (t' = t /\ x = a /\ y = b) -> linked r' t' x y <-> linked r t' x y) /\
        (cov t -> ~ linked r' t a b)).
      { unfold effect in HE. cbn [LR ev_type ev_op ev_a ev_b] in HE.
        destruct t; try done; destruct HE as (HE1&HE2&HE3); (split; [done|]); (split; [done|]); intros Hcov; apply HE3; try (by left).
        right. apply HT. by destruct Hcov as [?|[?|[_ ?]]]. }
      clear HE. destruct HE2 as (HCo&HL&HLn).
      constructor; try done.
      + apply HS.
      + apply HS.
      + rewrite (sf_root_id _ _ _ _ _ HS). apply HT.
      + intros j w Hw. destruct (t_A _ _ HT j w (Hin _ Hw)) as (v'&?&?&HN&?). exists v'. rewrite HCo. split; [done|]. split; [done|]. split; [|done].
        intros NU. apply HN. intros w'. rewrite elem_of_cons. intros [?|?]; [done|by apply (NU w')].
      + intros j w Hw. destruct (t_U _ _ HT j w (Hin _ Hw)) as [Hm2 HN]. split; [done|]. intros NA2. rewrite HCo. apply HN.
        intros w'. rewrite elem_of_cons. intros [?|?]; [done|by apply (NA2 w')].
      + intros j Hw. apply (t_R _ _ HT). auto.
      + intros j NA2 NU NR. rewrite HCo.
        apply (t_0 _ _ HT); [intros w|intros w|]; rewrite elem_of_cons; intros [Heq|?]; try done; [by apply (NA2 w)|by apply (NU w)|injection Heq; congruence].
      + intros t' x y Ht' Hm2 Hn. apply HL.
        * intros (->&->&->). revert Hm2. apply (t_LR _ _ HT); [done|left].
        * apply (t_S1 _ _ HT); [done..|]. rewrite elem_of_cons. by intros [?|?].
      + intros t' x y Ht' Hm2 Hn. destruct (decide (LR t' x y = LR t a b)) as [Heq|Hd].
        * injection Heq as -> -> ->. by apply HLn.
        * rewrite HL by (intros (->&->&->); done). apply (t_S2 _ _ HT); [done..|]. rewrite elem_of_cons. by intros [?|?].
      + intros t' x y Ht' Hm2. apply (t_LA _ _ HT); auto.
      + intros x y Hlay Hm2. destruct (decide (LR ELayer x y = LR t a b)) as [Heq|Hd].
        * injection Heq as <- -> ->. apply HLn. unfold SyncLib.cov. auto.
        * rewrite HL by (intros (<-&->&->); done). apply (t_LAr _ _ HT); auto.
      + intros t' x y Ht' Hm2. apply (t_LR _ _ HT); auto.
      + intros t' x y Ht' Hm2. rewrite HCo. apply (t_LRk _ _ HT); auto.
      + intros Hlay. apply (sf_layers _ _ _ _ _ HS); [by apply HT|]. done.
    - (* root *)
      assert (Hl : forall t x y, is_link t = true -> LA t x y <> Ev ERoot o a "" None /\ LR t x y <> Ev ERoot o a "" None).
      { intros t x y Ht. split; intros Heq; injection Heq as -> _ _ _; done. }
      destruct HA as (r'&HA&HS&HE).
      { unfold event_ok. cbn. by destruct o. }
      { by intros x y _ _. }
      { intros (?&_). done. }
      exists r'. split; [done|]. split; [done|]. assert (HE2 : content r' = content r /\ forall t x y, linked r' t x y <-> linked r t x y) by (by destruct o).
      destruct HE2 as [HCo HL]. constructor; try done.
      + apply HS.
      + apply HS.
      + rewrite (sf_root_id _ _ _ _ _ HS). apply HT.
      + intros j w Hw. destruct (t_A _ _ HT j w (Hin _ Hw)) as (v'&?&?&HN&?). exists v'. rewrite HCo. split; [done|]. split; [done|]. split; [|done].
        intros NU. apply HN. intros w'. rewrite elem_of_cons. intros [?|?]; [done|by apply (NU w')].
      + intros j w Hw. destruct (t_U _ _ HT j w (Hin _ Hw)) as [Hm2 HN]. split; [done|]. intros NA2. rewrite HCo. apply HN.
        intros w'. rewrite elem_of_cons. intros [?|?]; [done|by apply (NA2 w')].
      + intros j Hw. apply (t_R _ _ HT). auto.
      + intros j NA2 NU NR. rewrite HCo.
        apply (t_0 _ _ HT); [intros w|intros w|]; rewrite elem_of_cons; intros [Heq|?]; try done; [by apply (NA2 w)|by apply (NU w)].
      + intros t' x y Ht' Hm2 Hn. apply HL, (t_S1 _ _ HT); [done..|]. rewrite elem_of_cons. intros [?|?]; [|done]. apply cov_link in Ht'. by destruct (Hl t' x y Ht').
      + intros t' x y Ht' Hm2 Hn. rewrite HL. apply (t_S2 _ _ HT); [done..|]. rewrite elem_of_cons. intros [?|?]; [|done]. apply cov_link in Ht'. by destruct (Hl t' x y Ht').
      + intros t' x y Ht' Hm2. apply (t_LA _ _ HT); auto.
      + intros x y Hlay Hm2. rewrite HL. apply (t_LAr _ _ HT); auto.
      + intros t' x y Ht' Hm2. apply (t_LR _ _ HT); auto.
      + intros t' x y Ht' Hm2. rewrite HCo. apply (t_LRk _ _ HT); auto.
      + intros Hlay. apply (sf_layers _ _ _ _ _ HS); [by apply HT|]. done.
  Qed.

  Lemma T_run ces : forall r, T ces.*2 r -> NoDup ces.*1 -> Forall (fun c => hp r !! c = None) ces.*1 ->
    exists r', apply_events me ces r = Ok r' /\ T [] r' /\ e_handlers (en r') = e_handlers (en r) /\ e_prefix (en r') = e_prefix (en r) /\
      (forall q it e', e' <> me -> it_env it = Some e' -> (hp r !! q = Some it <-> hp r' !! q = Some it)) /\
      (forall q, q ∉ ces.*1 -> hp r !! q = None -> hp r' !! q = None).
  Proof using HW HP HD HRID.
    induction ces as [|[c ev] ces IH]; intros r HT HN HF; [exists r; done|]. rewrite !fmap_cons in *. cbn [fst snd] in *.
    apply NoDup_cons in HN as [HN1 HN2]. apply Forall_cons in HF as [Hc HF].
    destruct (T_step c ev ces.*2 r HT Hc) as (r1&E1&S1&T1). destruct (IH r1 T1 HN2) as (r'&E'&T'&Hh&Hp&Ho&Hn).
    { rewrite Forall_forall in HF |- *. intros q Hq. apply (sf_new _ _ _ _ _ S1); [|by apply HF]. intros ->. done. }
    exists r'. cbn [apply_events]. rewrite E1. cbn [obind]. split; [done|]. split; [done|].
    rewrite Hh, Hp, (sf_handlers _ _ _ _ _ S1), (sf_prefix _ _ _ _ _ S1). split; [done|]. split; [done|]. split.
    - intros q it e' Hne He. rewrite (sf_other _ _ _ _ _ S1) by done. by apply (Ho q it e').
    - intros q Hq Hr. rewrite not_elem_of_cons in Hq. destruct Hq. apply Hn; [done|]. by apply (sf_new _ _ _ _ _ S1).
  Qed.
End apply.
