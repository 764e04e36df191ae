(** C20 (the event queue keeps a minimal set), C22 (applying events keeps a replica consistent), C23 (dispatching). *)
From stdpp Require Import prelude strings gmap pretty.
From Verif Require Import Base AssocLemmas EnvModel EnvSpec EnvLib EnvGood EnvAttach EnvLinks EnvLinks2 EnvDetach EnvDeep EnvHandlers EnvWorld EnvStep EnvStep2 EnvStep3 EnvDemo EnvProps EnvProps2 EnvProps3 EventModel EventApply.

(** ** C20 *)
Global Instance mres_eq_dec : EqDecision mres.
Proof. solve_decision. Defined.
Definition kept (ev old : event) : Prop := merge ev old = MIgnore.
Global Instance kept_dec ev old : Decision (kept ev old).
Proof. unfold kept. destruct (merge ev old); [right; done..|by left]. Defined.
Lemma merge_loop_eq ev q v : merge_loop ev q v = (filter (kept ev) q, v && bool_decide (Forall (fun old => merge ev old <> MCancel) q)).
Proof.
  revert v. induction q as [|old q IH]; intros v.
  - cbn [merge_loop]. rewrite bool_decide_true by constructor. by rewrite andb_true_r.
  - cbn [merge_loop]. rewrite filter_cons. destruct (merge ev old) eqn:Hm; rewrite IH.
    + rewrite decide_False by (unfold kept; by rewrite Hm). f_equal. rewrite andb_false_l. symmetry. apply andb_false_iff. right.
      apply bool_decide_eq_false. intros H. by apply Forall_cons in H as [? _].
    + rewrite decide_False by (unfold kept; by rewrite Hm). f_equal. f_equal. apply bool_decide_ext. rewrite Forall_cons. rewrite Hm. naive_solver.
    + rewrite decide_True by (unfold kept; by rewrite Hm). cbn [fst snd]. f_equal. f_equal. apply bool_decide_ext. rewrite Forall_cons. rewrite Hm. naive_solver.
Qed.
Lemma q_handle_eq q ev : q_handle q ev =
  filter (kept ev) q ++ (if decide (Exists (fun old => merge ev old = MCancel) q) then [] else [ev]).
Proof.
  unfold q_handle. rewrite merge_loop_eq. cbn [fst snd andb].
  case_bool_decide as H; case_decide as H2; try done.
  - exfalso. apply Exists_exists in H2 as (x&Hx&Hm). rewrite Forall_forall in H. by apply (H x).
  - by rewrite app_nil_r.
  - exfalso. apply H. apply Forall_forall. intros x Hx Hm. apply H2. apply Exists_exists. eauto.
Qed.
Lemma kept_spec ev old : kept ev old <->
  ~ (same_ids ev old /\ (ev_op ev = ev_op old \/ ev_op ev = ERemove \/ (ev_op ev = EAdd /\ ev_op old = ERemove))).
Proof.
  unfold kept, merge. repeat case_decide; split; try done; try tauto.
  intros _ [Hs [Ho|[Ho|[Ho1 Ho2]]]]; [by auto| |].
  - destruct (ev_op old) eqn:E; [apply H0; auto|apply H; split; congruence|apply H1; auto].
  - apply H0. auto.
Qed.
Lemma cancel_spec ev old : merge ev old = MCancel <->
  same_ids ev old /\ ((ev_op ev = ERemove /\ ev_op old = EAdd) \/ (ev_op ev = EAdd /\ ev_op old = ERemove)).
Proof.
  unfold merge. repeat case_decide; split; try done; try tauto.
  destruct H as [_ H]. intros [_ [[H1 H2]|[H1 H2]]]; congruence.
Qed.

(** no two events of the queue may be merged *)
Definition minimal (q : list event) : Prop :=
  forall l1 x l2 y l3, q = l1 ++ x :: l2 ++ y :: l3 -> kept y x.
Lemma minimal_handle q ev : minimal q -> minimal (q_handle q ev).
Proof.
  intros HM l1 x l2 y l3 Heq. rewrite q_handle_eq in Heq.
  assert (Hfil : forall q l1 x l2 y l3, minimal q -> filter (kept ev) q = l1 ++ x :: l2 ++ y :: l3 -> kept y x).
  { clear. intros q. induction q as [|z q IH]; intros l1 x l2 y l3 HM.
    - intros H. by apply app_cons_not_nil in H.
    - assert (HM' : minimal q) by (intros k1 a k2 b k3 ->; by apply (HM (z :: k1) a k2 b k3)).
      rewrite filter_cons. case_decide as Hz; [|by apply IH]. destruct l1 as [|z' l1]; intros H; injection H as -> H.
      + assert (y ∈ q) as Hy.
        { assert (y ∈ filter (kept ev) q) as Hy by (rewrite H; set_solver). by apply elem_of_list_filter in Hy as [_ ?]. }
        apply elem_of_list_split in Hy as (k1&k2&->). by apply (HM [] x k1 y k2).
      + by eapply IH. }
  case_decide as HE.
  - rewrite app_nil_r in Heq. by eapply Hfil.
  - destruct l3 as [|z l3 _] using rev_ind.
    + replace (l1 ++ x :: l2 ++ [y]) with ((l1 ++ x :: l2) ++ [y]) in Heq by (by rewrite <-app_assoc).
      apply app_inj_tail in Heq as [Heq <-]. assert (x ∈ filter (kept ev) q) as Hx by (rewrite Heq; set_solver).
      by apply elem_of_list_filter in Hx as [? _].
    + replace (l1 ++ x :: l2 ++ y :: l3 ++ [z]) with ((l1 ++ x :: l2 ++ y :: l3) ++ [z]) in Heq
        by (rewrite <-!app_assoc; cbn; by rewrite <-!app_assoc).
      apply app_inj_tail in Heq as [Heq _]. by eapply Hfil.
Qed.
Lemma q_run_minimal es : minimal (q_run es).
Proof.
  unfold q_run. rewrite <-(reverse_involutive es). induction (reverse es) as [|ev r IH].
  - intros l1 x l2 y l3 H. by apply app_cons_not_nil in H.
  - rewrite reverse_cons, foldl_app. cbn [foldl]. by apply minimal_handle.
Qed.

(** The queue after any sequence of events since the last flush: *)
(** at most one event per (type, operation, ids) *)
Theorem C20_unique es : NoDup ((fun ev => (ev_type ev, ev_op ev, ev_a ev, ev_b ev)) <$> q_run es).
Proof.
  pose proof (q_run_minimal es) as HM. induction (q_run es) as [|x q IH]; [constructor|].
  rewrite fmap_cons. apply NoDup_cons. split.
  - intros Hin. apply elem_of_list_fmap in Hin as (y&Heq&Hy). apply elem_of_list_split in Hy as (l1&l2&->).
    pose proof (HM [] x l1 y l2 eq_refl) as HK. apply kept_spec in HK. apply HK. injection Heq as H1 H2 H3 H4. unfold same_ids. auto.
  - apply IH. intros l1 a l2 b l3 ->. by apply (HM (x :: l1) a l2 b l3).
Qed.
(** never an ADD together with a REMOVE for the same (type, ids) *)
Theorem C20_no_add_and_remove es x y : x ∈ q_run es -> y ∈ q_run es -> ev_op x = EAdd -> ev_op y = ERemove ->
  ev_type x = ev_type y -> ev_a x = ev_a y -> ev_b x = ev_b y -> False.
Proof.
  pose proof (q_run_minimal es) as HM. intros Hx Hy Ox Oy Ht Ha Hb.
  apply elem_of_list_split in Hx as (l1&l2&Hq). rewrite Hq in Hy, HM. apply elem_of_app in Hy as [Hy|Hy]; [|apply elem_of_cons in Hy as [->|Hy]].
  - apply elem_of_list_split in Hy as (k1&k2&->). pose proof (HM k1 y k2 x l2 ltac:(by rewrite <-app_assoc)) as HK. apply kept_spec in HK. apply HK. unfold same_ids. auto 10.
  - congruence.
  - apply elem_of_list_split in Hy as (k1&k2&->). pose proof (HM l1 x k1 y k2 eq_refl) as HK. apply kept_spec in HK. apply HK. unfold same_ids. auto 10.
Qed.
(** an UPDATE is never pending before a REMOVE of the same item *)
Theorem C20_no_update_before_remove es l1 x l2 y l3 : q_run es = l1 ++ x :: l2 ++ y :: l3 -> ev_op x = EUpdate -> ev_op y = ERemove ->
  ev_type x = ev_type y -> ev_a x = ev_a y -> ev_b x = ev_b y -> False.
Proof.
  intros Hq Ox Oy Ht Ha Hb. pose proof (q_run_minimal es _ _ _ _ _ Hq) as HK. apply kept_spec in HK. apply HK. unfold same_ids. auto 10.
Qed.
(** nothing is invented, and the order is kept *)
Theorem C20_sublist es : q_run es `sublist_of` es.
Proof.
  unfold q_run. rewrite <-(reverse_involutive es). induction (reverse es) as [|ev r IH]; [constructor|].
  rewrite reverse_cons, foldl_app. cbn [foldl]. rewrite q_handle_eq. apply sublist_app; [|case_decide; [apply sublist_nil_l|done]].
  etrans; [|exact IH]. generalize (foldl q_handle [] (reverse r)). intros q. clear. induction q as [|z q IH]; [done|].
  rewrite filter_cons. case_decide; by constructor.
Qed.
(** a queue that has to merge: add, update, update, remove another one, add it again *)
Definition c20_events : list event :=
  [Ev EItem EAdd "/a" "" (Some (KMap, 1%Z)); Ev EItem EUpdate "/a" "" (Some (KMap, 2%Z)); Ev EItem ERemove "/b" "" None;
   Ev EFrame EAdd "/a" "/0" None; Ev EItem EUpdate "/a" "" (Some (KMap, 3%Z)); Ev EFrame ERemove "/a" "/0" None; Ev EItem EUpdate "/c" "" (Some (KMap, 3%Z));
   Ev EItem ERemove "/c" "" None; Ev EItem EAdd "/b" "" (Some (KMap, 3%Z))].
Example C20_nonvacuous : q_run c20_events =
  [Ev EItem EAdd "/a" "" (Some (KMap, 1%Z)); Ev EItem EUpdate "/a" "" (Some (KMap, 3%Z)); Ev EItem ERemove "/c" "" None].
Proof. vm_compute. reflexivity. Qed.

(** ** C23 *)
(** the kinds of events the library emits *)
Definition emitted_kinds : list (etype * eop) :=
  [(EItem, EAdd); (EItem, ERemove); (EItem, EUpdate); (ETree, EAdd); (ETree, ERemove); (EFrame, EAdd); (EFrame, ERemove);
   (ELayer, EAdd); (ELayer, ERemove); (ERoot, EAdd); (ERoot, ERemove)].
Definition dispatchable (ev : event) : Prop := (ev_type ev, ev_op ev) ∈ emitted_kinds.
(** one callback for each of them, another one for each kind, and an exception for everything else *)
Theorem C23_dispatch t o : is_Some (dispatch t o) <-> (t, o) ∈ emitted_kinds.
Proof.
  unfold emitted_kinds. split.
  - destruct t, o; simpl; intros [? H]; first [set_solver|done].
  - intros H. repeat (apply elem_of_cons in H as [H|H]; [injection H as -> ->; eauto|]). by apply elem_of_nil in H.
Qed.
Theorem C23_distinct t o t' o' cb : dispatch t o = Some cb -> dispatch t' o' = Some cb -> t = t' /\ o = o'.
Proof. destruct t, o, t', o'; simpl; intros [= <-] H; first [done|discriminate H]. Qed.

Lemma mstep_dispatchable m ev m' : mstep m ev = Some m' -> dispatchable ev.
Proof.
  intros H. apply C23_dispatch. unfold mstep in H.
  destruct (ev_type ev), (ev_op ev), (ev_item ev); try done; eauto.
Qed.
Lemma replay_dispatchable m es m' : replay m es = Some m' -> Forall dispatchable es.
Proof.
  revert m. induction es as [|ev es IH]; intros m; simpl; [constructor|]. destruct (mstep m ev) as [m1|] eqn:H; [|done].
  intros H1. constructor; [by eapply mstep_dispatchable|]. by eapply IH.
Qed.
Definition view (h : gmap positive item) (x : env) : mirror :=
  Mir (list_to_map ((fun ip => (ip.1, payload_of h ip.2)) <$> e_items x)) (list_to_map (by_id h (e_tree x))) (list_to_map (by_id h (e_maps x))) (by_id h (e_layers x)).
Lemma mirrors_view h x : mirrors (view h x) h x.
Proof. done. Qed.
Lemma deliver_in e hs es d : d ∈ deliver e hs es -> d_event d ∈ es.
Proof.
  unfold deliver. intros H. apply elem_of_list_bind in H as (ev&H&Hev). apply elem_of_list_fmap in H as (h&->&_). done.
Qed.
Lemma mk_dispatchable h t o a b : (t, o) ∈ emitted_kinds -> dispatchable (mk_event h t o a b).
Proof. done. Qed.

(** Everything an environment tells its handlers can be dispatched. *)
Theorem C23_emitted w o w' e x x' : reachable w -> legal w o -> steps_to w o w' -> w_envs w !! e = Some x -> w_envs w' !! e = Some x' ->
  exists t, w_tr w' = w_tr w ++ t /\ forall d, d ∈ t -> d_env d = e -> is_Some (dispatch (ev_type (d_event d)) (ev_op (d_event d))).
Proof.
  intros HW HL Hs Hx Hx'. pose proof (steps_eff _ _ _ (reachable_inv _ HW) HL Hs) as HE. destruct (ef_tr _ _ _ HE) as (t&Ht&HT).
  exists t. split; [done|]. intros d Hd He. apply C23_dispatch. change (dispatchable (d_event d)).
  assert (Hd' : d ∈ filter (fun d => d_env d = e) t) by (by apply elem_of_list_filter).
  destruct (HT e x x' Hx Hx') as [(Hhs&es&Hf&Hr)|(k&Hhp&[(->&->&Hf)|(->&->&Hf)])]; rewrite Hf in Hd'; apply deliver_in in Hd'.
  - destruct (Hr _ (mirrors_view _ _)) as (m'&Hm&_). apply replay_dispatchable in Hm. rewrite Forall_forall in Hm. by apply Hm.
  - unfold reg_events in Hd'. rewrite !elem_of_app, !elem_of_list_fmap, elem_of_list_singleton in Hd'.
    destruct Hd' as [(?&->&_)|[->|[(?&->&_)|(?&->&_)]]]; unfold dispatchable, emitted_kinds, tree_add, map_add; cbn [mk_event ev_type ev_op]; set_solver.
  - unfold unreg_events in Hd'. rewrite !elem_of_app, !elem_of_list_fmap, elem_of_list_singleton in Hd'.
    destruct Hd' as [([?|?]&->&_)|[->|(?&->&_)]]; unfold dispatchable, emitted_kinds, tree_rem, map_rem; cbn [rem_event mk_event tree_rem map_rem ev_type ev_op]; set_solver.
Qed.
Theorem C23_emitted_destroy w e x : reachable w -> w_envs w !! e = Some x -> exists w' t,
  step w (ODelEnv e) = Ok w' /\ w_tr w' = w_tr w ++ t /\ forall d, d ∈ t -> is_Some (dispatch (ev_type (d_event d)) (ev_op (d_event d))).
Proof.
  intros HW Hx. destruct (reach_parts _ _ _ HW Hx) as (I&R&A).
  destruct (detach_all_ok e (length (e_items x)) _ I) as (D&s'&Hok&HR&Hnil&HD); [done|].
  pose proof (r_good _ _ _ _ HR) as HG. destruct (g_tr _ _ _ _ HG) as (es&Htr&Hrep). simpl in Htr, Hrep.
  eexists _, _. split. { cbn [step]. unfold del_env, on_env, focus. rewrite Hx. cbn [en]. rewrite Hok. reflexivity. }
  split; [exact Htr|]. intros d Hd%deliver_in. apply C23_dispatch. change (dispatchable (d_event d)).
  destruct (Hrep _ (mirrors_view _ _)) as (m'&Hm&_). apply replay_dispatchable in Hm. rewrite Forall_forall in Hm. by apply Hm.
Qed.
Example C23_nonvacuous : exists x, w_envs demo_world !! 1%positive = Some x /\ e_handlers x <> [] /\ 4 <= length (e_items x).
Proof. assert (exists x, w_envs demo_world !! 1%positive = Some x /\ (e_handlers x <> [] /\ 4 <= length (e_items x))) as (x&Hx&H) by vmdec. exists x. split; [exact Hx|exact H]. Qed.

(** ** C22 *)
(** every id has one class *)
Definition typed_event (K : string -> kind) (ev : event) : Prop :=
  match ev_type ev with
  | EItem => forall v, ev_item ev = Some v -> v.1 = K (ev_a ev)
  | ty => ends_ok ty (K (ev_a ev)) (K (ev_b ev))
  end.
Definition typed_env (K : string -> kind) (s : st) : Prop := forall i v, content s !! i = Some v -> v.1 = K i.

Lemma typed_kinds K s ev : typed_env K s -> typed_event K ev -> kinds_ok s ev.
Proof.
  intros HE HT va vb Ha Hb. unfold typed_event in HT. apply HE in Ha, Hb. destruct (ev_type ev); try done; simpl in *; by rewrite Ha, Hb.
Qed.
Lemma effect_typed K ev s s' : typed_env K s -> typed_event K ev -> event_ok ev -> effect ev s s' -> typed_env K s'.
Proof.
  intros HE HT HO HF. unfold typed_env. unfold typed_event, event_ok, effect in *. intros i v.
  destruct (ev_type ev) eqn:Et, (ev_op ev) eqn:Eo; try (destruct HF as [-> _]; by apply HE); try done.
  - destruct HF as [_ HF]. destruct HO as [_ [v0 Hv0]]. rewrite (HF _ Hv0). destruct (content s !! ev_a ev).
    + case_decide; [|apply HE]. rewrite lookup_insert_Some. intros [[<- <-]|[_ H1]]; [by apply HT|by apply HE].
    + rewrite lookup_insert_Some. intros [[<- <-]|[_ H1]]; [by apply HT|by apply HE].
  - case_decide; destruct HF as [-> _]; [by apply HE|]. rewrite lookup_delete_Some. intros [_ H1]. by apply HE.
  - destruct HF as [_ HF]. destruct HO as [_ [v0 Hv0]]. rewrite (HF _ Hv0). destruct (content s !! ev_a ev).
    + case_decide; [|apply HE]. rewrite lookup_insert_Some. intros [[<- <-]|[_ H1]]; [by apply HT|by apply HE].
    + rewrite lookup_insert_Some. intros [[<- <-]|[_ H1]]; [by apply HT|by apply HE].
Qed.

Lemma apply_events_ok K me es : forall s, Inv me s -> has is_frame me (hp s) (e_root (en s)) -> typed_env K s ->
  NoDup es.*1 -> Forall (fun ce => hp s !! ce.1 = None /\ event_ok ce.2 /\ typed_event K ce.2) es ->
  e_handlers (en s) = [] \/ Forall (fun ce => ~ (ev_type ce.2 = EItem /\ ev_op ce.2 = EUpdate)) es ->
  exists s', apply_events me es s = Ok s' /\ Inv me s' /\ has is_frame me (hp s') (e_root (en s')) /\ typed_env K s' /\
    e_handlers (en s') = e_handlers (en s) /\ e_root (en s') = e_root (en s) /\
    forall q it e', e' <> me -> it_env it = Some e' -> (hp s !! q = Some it <-> hp s' !! q = Some it).
Proof.
  induction es as [|[c ev] es IH]; intros s HI HR HT HN HF HU; [exists s; done|].
  apply NoDup_cons in HN as [HN1 HN2]. apply Forall_cons in HF as [(Hc&HO&HTe) HF]. cbn [fst snd] in *.
  destruct (apply_event_ok me c ev s HI HR Hc HO) as (s1&E1&S1&F1); [by eapply typed_kinds| |].
  { intros (H1&H2&_&H4). destruct HU as [|HU]; [done|]. apply Forall_cons in HU as [HU _]. by apply HU. }
  destruct (IH s1) as (s'&E'&I'&R'&T'&Hh'&Hr'&Ho'); [apply S1|apply S1|by eapply effect_typed|done| | |].
  - rewrite Forall_forall in HF. apply Forall_forall. intros [c2 ev2] H2. destruct (HF _ H2) as (Hc2&?&?). split; [|done]. apply (sf_new _ _ _ _ _ S1); [|done].
    cbn [fst]. intros ->. apply HN1. apply elem_of_list_fmap. by exists (c, ev2).
  - rewrite (sf_handlers _ _ _ _ _ S1). destruct HU as [|HU]; [by left|]. right. by apply Forall_cons in HU as [_ ?].
  - exists s'. cbn [apply_events]. rewrite E1. cbn [obind]. split; [done|]. split; [done|]. split; [done|]. split; [done|].
    rewrite Hh', Hr', (sf_handlers _ _ _ _ _ S1), (sf_root _ _ _ _ _ S1). split; [done|]. split; [done|].
    intros q it e' Hne He. rewrite (sf_other _ _ _ _ _ S1) by done. by apply (Ho' q it e').
Qed.

(** Applying any sequence of events (the source does not matter, events may be lost, repeated or reordered) works and leaves
    all environments well formed: unique ids and exact lookup (C01), one owner (C02), one parent and one frame (C08), links only
    between items of the environment (C09). *)
Theorem C22_apply_any w e x K es :
  reachable w -> w_envs w !! e = Some x -> typed_env K (St (w_heap w) x (w_tr w)) ->
  NoDup es.*1 -> Forall (fun ce => w_heap w !! ce.1 = None /\ event_ok ce.2 /\ typed_event K ce.2) es ->
  e_handlers x = [] \/ Forall (fun ce => ~ (ev_type ce.2 = EItem /\ ev_op ce.2 = EUpdate)) es ->
  exists s', apply_events e es (St (w_heap w) x (w_tr w)) = Ok s' /\ Inv e s' /\
    (forall e' x', e' <> e -> w_envs w !! e' = Some x' -> Inv e' (St (hp s') x' (tr s'))).
Proof.
  intros HW Hx HT HN HF HU. destruct (reach_parts _ _ _ HW Hx) as (I&[R _]&A).
  destruct (apply_events_ok K e es _ I R HT HN HF HU) as (s'&E&I'&R'&T'&Hh&Hr&Ho). exists s'. split; [done|]. split; [done|].
  intros e' x' Hne Hx'. destruct (reach_parts _ _ _ HW Hx') as (I2&_&_). apply (Inv_other e' (w_heap w) _ x' (w_tr w)); [done| |].
  - cbn [hp] in Ho. split; intros q it Hq He; exists it; (split; [|done]); by apply (Ho q it e').
  - apply I'.
Qed.

(** A replica that applies events to the demo environment: a new map that is placed on the root, then overwritten, then the removal
    of an unknown item, of the root and of a frame that has links. *)
Definition demo_st : st := St (w_heap demo_world) (demo_env 1) (w_tr demo_world).
Definition c22_kinds (i : string) : kind := match content demo_st !! i with Some v => v.1 | None => KMap end.
Definition c22_events : list (ptr * event) :=
  [(200%positive, Ev EItem EAdd "/new" "" (Some (KMap, 5%Z))); (201%positive, Ev EFrame EAdd "/new" (root_id demo_st) None);
   (202%positive, Ev EItem EAdd "/new" "" (Some (KMap, 6%Z))); (203%positive, Ev EFrame EAdd "/new" (idn (w_heap demo_world) 11) None);
   (204%positive, Ev EItem ERemove "/nowhere" "" None); (205%positive, Ev EItem ERemove (root_id demo_st) "" None);
   (206%positive, Ev EItem ERemove (idn (w_heap demo_world) 11) "" None)].
Global Instance event_ok_dec ev : Decision (event_ok ev).
Proof. unfold event_ok, proper_id. destruct (ev_type ev), (ev_op ev); apply _. Defined.
Global Instance ends_ok_dec t a b : Decision (ends_ok t a b).
Proof. unfold ends_ok. destruct t; apply _. Defined.
Global Instance typed_event_dec K ev : Decision (typed_event K ev).
Proof.
  unfold typed_event. destruct (ev_type ev); try apply _. destruct (ev_item ev) as [v|]; [|left; done].
  destruct (decide (v.1 = K (ev_a ev))) as [H|H]; [left; by intros ? [= <-]|right; eauto].
Defined.
Example C22_nonvacuous : w_envs demo_world !! 1%positive = Some (demo_env 1) /\ typed_env c22_kinds demo_st /\ NoDup c22_events.*1 /\
  Forall (fun ce => is_gone demo_world ce.1 /\ event_ok ce.2 /\ typed_event c22_kinds ce.2) c22_events /\ e_handlers (demo_env 1) <> [] /\
  Forall (fun ce => ~ (ev_type ce.2 = EItem /\ ev_op ce.2 = EUpdate)) c22_events /\
  match apply_events 1 c22_events demo_st with
  | Ok s' => content s' !! "/new" = Some (KMap, 6%Z) /\ content s' !! idn (w_heap demo_world) 11 = None /\ (length (e_items (en s')) = length (e_items (demo_env 1)))
  | _ => False end.
Proof.
  split.
  { assert (exists x, w_envs demo_world !! 1%positive = Some x /\ True) as (x&Hx&_) by vmdec. unfold demo_env. rewrite Hx. reflexivity. }
  split; [unfold typed_env, c22_kinds; intros i v ->; reflexivity|].
  split; [vmdec|]. split; [vmdec|]. split; [vmdec|]. split; [vmdec|].
  assert (match apply_events 1 c22_events demo_st with
   | Ok s' => bool_decide (content s' !! "/new" = Some (KMap, 6%Z) /\ content s' !! idn (w_heap demo_world) 11 = None /\ (length (e_items (en s')) = length (e_items (demo_env 1))))
   | _ => false end = true) as H by vmtrue.
  destruct (apply_events 1 c22_events demo_st); [|discriminate H..]. by apply bool_decide_eq_true in H.
Qed.

(** *** What the code does outside of this *)
(** UPDATE of an unknown item attaches it and then reports the modification of the null pointer, which every handler dereferences. *)
Theorem C22_null_update_refuted : exists me c ev s, Inv me s /\ RootOk me s /\ hp s !! c = None /\ event_ok ev /\ kinds_ok s ev /\ apply_event me c ev s = Bad UB.
Proof.
  exists 1%positive, 200%positive, (Ev EItem EUpdate "/new" "" (Some (KMap, 5%Z))), demo_st.
  assert (exists x, w_envs demo_world !! 1%positive = Some x /\ True) as (x&Hx&_) by vmdec.
  assert (Hd : demo_st = St (w_heap demo_world) x (w_tr demo_world)) by (unfold demo_st, demo_env; by rewrite Hx).
  destruct (reach_parts _ _ _ demo_reachable Hx) as (I&R&_). rewrite <-Hd in I, R.
  split; [exact I|]. split; [exact R|]. split; [change (is_gone demo_world 200); vmdec|]. split; [vmdec|]. split; [intros ? ? _ _; exact Logic.I|].
  assert (match apply_event 1 200 (Ev EItem EUpdate "/new" "" (Some (KMap, 5%Z))) demo_st with Bad UB => true | _ => false end = true) as H by vmtrue.
  destruct (apply_event _ _ _ _) as [| |[]|]; try discriminate H. reflexivity.
Qed.
(** A link of an item with itself runs into an assertion. *)
Theorem C22_self_link_refuted me c s p : Inv me s -> has is_frame me (hp s) p ->
  apply_event me c (Ev ETree EAdd (idn (hp s) p) (idn (hp s) p) None) s = Bad Abort.
Proof.
  intros HI Hp. unfold apply_event. cbn [ev_type ev_op ev_a ev_b dispatch]. rewrite (get_item_idn me s HI) by (by eapply has_any). cbn [link2].
  destruct Hp as (it&Hp&He&Hk). unfold cast, deref. rewrite Hp, Hk. unfold add_child_f. by rewrite decide_True.
Qed.
(** Nothing prevents events from closing a cycle in the frame tree: with two frames below the root, adding each as child of the other. *)
Theorem C22_cycle_refuted me s p q c1 c2 : Inv me s -> has is_frame me (hp s) p -> has is_frame me (hp s) q -> p <> q ->
  exists s', apply_events me [(c1, Ev ETree EAdd (idn (hp s) p) (idn (hp s) q) None); (c2, Ev ETree EAdd (idn (hp s) q) (idn (hp s) p) None)] s = Ok s' /\
    ~ Acyclic (en s').
Proof.
  intros HI Hp Hq Hne. cbn [apply_events].
  assert (Hfirst : forall s1 a b c, Inv me s1 -> has is_frame me (hp s1) a -> has is_frame me (hp s1) b ->
     apply_event me c (Ev ETree EAdd (idn (hp s1) a) (idn (hp s1) b) None) s1 = add_child_f me a b s1).
  { intros s1 a b c I1 Ha Hb. unfold apply_event. cbn [ev_type ev_op ev_a ev_b dispatch].
    rewrite !(get_item_idn me s1 I1) by (by eapply has_any). cbn [link2]. destruct Ha as (ia&Ha1&_&Ha2), Hb as (ib&Hb1&_&Hb2).
    unfold cast, deref. by rewrite Ha1, Ha2, Hb1, Hb2. }
  rewrite Hfirst by done. destruct (add_child_f_here me s HI p q Hp Hq Hne) as (s1&->&G1&H1&X1). cbn [obind].
  rewrite <-H1. rewrite Hfirst; [|apply G1|by rewrite H1..].
  destruct (add_child_f_here me s1 (g_inv _ _ _ _ G1) q p) as (s2&->&G2&H2&X2); [by rewrite H1..|done|]. cbn [obind]. exists s2. split; [done|].
  assert (L1 : (q, p) ∈ e_tree (en s1)).
  { clear X2. rewrite X1. simpl. clear X1. case_decide as D; [exact (assoc_in _ _ _ D)|]. apply elem_of_ins. by left. }
  assert (L2 : (p, q) ∈ e_tree (en s2)).
  { clear X1. rewrite X2. simpl. clear X2. case_decide as D; [exact (assoc_in _ _ _ D)|]. apply elem_of_ins. by left. }
  assert (L3 : (q, p) ∈ e_tree (en s2)).
  { clear X1. rewrite X2. simpl. clear X2. case_decide as D; [done|]. apply elem_of_ins. right. apply elem_of_del_key. split; [done|]. by apply not_eq_sym. }
  intros HA. apply (HA p). eapply tc_l; [exact L2|]. by apply tc_once.
Qed.
