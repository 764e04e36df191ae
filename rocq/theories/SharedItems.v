(** Queues that do not copy items (C144): src/core/Event.cpp:80-101 with [clone] false, which is the default (EventHandler.hpp:120), and 111-147 and 251-258.

    The event refers to the item itself. Only events that announce or update an item are modelled here, as only they refer to an item; applying the others is in EventModel.v. *)
From stdpp Require Import prelude strings gmap pretty relations.
From Verif Require Import Base AssocLemmas EnvModel EnvSpec EnvLib EnvGood EnvAttach EnvLinks EnvLinks2 EnvDetach EnvDeep EnvHandlers EnvWorld EnvStep EnvStep2 EnvStep3 EnvDemo EnvProps EnvProps2 EnvProps3 EnvEffects.

(** ** Model *)
(** Event::apply on environment [e] for an event about item [p]; [update] tells whether it announces or updates. Event.cpp:118-148; [item->set] (EnvironmentItem.hpp:14-31) does nothing if the classes differ.
    The id in the event is that of the item. itemModified( NULL ) in line 146 is undefined if somebody listens. *)
Definition apply_shared (update : bool) (e : eid) (p : ptr) (w : world) : W :=
  match w_heap w !! p, w_envs w !! e with
  | Some it, Some x =>
    match get_item x (it_id it) with
    | Some q => wderef q w (fun iq => if decide (it_kind iq = it_kind it) then step w (OSetVal q (it_val it)) else step w (OModified e q))
    | None => w1 <~ step w (OAttach e p) ;; if update then match e_handlers x with [] => Ok w1 | _ => Bad UB end else Ok w1
    end
  | _, _ => Bad UB
  end.

(** ** Proofs *)
Lemma received_other e1 e2 h hs ev : e1 <> e2 -> received e1 h (map (fun k => Dl e2 k ev) hs) = [].
Proof.
  intros Hne. unfold received. induction hs as [|k hs IH]; [done|]. cbn [map]. rewrite filter_cons, decide_False; [done|]. cbn. by intros [-> _].
Qed.
(** If the receiver knows the item, it gets the content, nothing else changes, and nobody at the source is told anything. *)
Theorem C144_known update w e1 e2 x p it q iq : reachable w -> w_heap w !! p = Some it -> it_env it = Some e1 -> e1 <> e2 -> w_envs w !! e2 = Some x -> get_item x (it_id it) = Some q -> w_heap w !! q = Some iq ->
  exists w' t, apply_shared update e2 p w = Ok w' /\ w_envs w' = w_envs w /\
    w_heap w' = <[q := Item (it_kind iq) (it_id iq) (it_env iq) (if decide (it_kind iq = it_kind it) then it_val it else it_val iq) (it_user iq) (it_refs iq)]> (w_heap w) /\
    w_tr w' = w_tr w ++ t /\ forall h, received e1 h t = [].
Proof.
  intros HW Hp He1 Hne Hx Hq Hiq. assert (Hqe : it_env iq = Some e2) by (apply (C01_lookup_exact _ _ _ HW Hx) in Hq as (it'&Hp'&He&_); congruence).
  pose proof (winv_refs _ (reachable_inv _ HW) _ _ Hiq) as Hr. rewrite Hqe in Hr.
  unfold apply_shared. rewrite Hp, Hx, Hq. unfold wderef at 1. rewrite Hiq. destruct (decide (it_kind iq = it_kind it)) as [Hk|Hk]; cbn [step]; unfold wderef; rewrite Hiq.
  - rewrite Hqe. unfold on_env, focus. cbn [wput w_envs]. rewrite Hx. unfold emit, emit_to, deref. cbn [w_heap hp wput]. rewrite lookup_insert.
    unfold drop_temp. cbn [hp]. rewrite lookup_insert. cbn [with_val it_refs]. rewrite decide_False by lia. eexists _, _. split; [reflexivity|]. cbn [unfocus w_envs w_heap w_tr hp en tr wput]. split; [by apply insert_id|].
    split; [unfold with_val; by rewrite Hqe|]. split; [reflexivity|]. intros h. by apply received_other.
  - unfold on_env, focus. rewrite Hx. unfold emit, emit_to, deref. cbn [w_heap hp]. rewrite Hiq. unfold drop_temp. cbn [hp]. rewrite Hiq. rewrite decide_False by lia. eexists _, _. split; [reflexivity|].
    cbn [unfocus w_envs w_heap w_tr hp en tr]. split; [by apply insert_id|]. split; [symmetry; apply insert_id; rewrite Hiq; by destruct iq|]. split; [reflexivity|]. intros h. by apply received_other.
Qed.
Lemma received_deliver e h hs es : h ∈ hs -> es <> [] -> received e h (deliver e hs es) <> [].
Proof.
  intros Hh He HR. destruct es as [|ev es]; [done|]. assert (HI : Dl e h ev ∈ deliver e hs (ev :: es)).
  { rewrite deliver_delivered. unfold delivered. rewrite fmap_cons. cbn. apply elem_of_app. left. apply elem_of_list_fmap. by exists h. }
  unfold received in HR. apply fmap_nil_inv in HR. assert (HX : Dl e h ev ∈ filter (fun d => d_env d = e /\ d_handler d = h) (deliver e hs (ev :: es))) by (by apply elem_of_list_filter). rewrite HR in HX. by apply elem_of_nil in HX.
Qed.
(** Otherwise the item itself goes over to the receiver: it is lost to the source, with all its links there, and every listener of the source - thus also the queue, which is being flushed - is told so meanwhile. *)
Theorem C144_taken w w' e1 e2 x1 x2 p it : reachable w -> w_heap w !! p = Some it -> it_env it = Some e1 -> e1 <> e2 -> ~ is_root w p -> w_envs w !! e1 = Some x1 -> w_envs w !! e2 = Some x2 -> get_item x2 (it_id it) = None ->
  apply_shared false e2 p w = Ok w' ->
  (exists it', w_heap w' !! p = Some it' /\ it_env it' = Some e2) /\
  (exists x1', w_envs w' !! e1 = Some x1' /\ (forall id q, get_item x1' id = Some q <-> get_item x1 id = Some q /\ q <> p) /\ e_tree x1' = keep_out p (e_tree x1) /\ e_maps x1' = keep_out p (e_maps x1)) /\
  exists t, w_tr w' = w_tr w ++ t /\ forall h, h ∈ e_handlers x1 -> received e1 h t <> [].
Proof.
  intros HW Hp He Hne Hnr Hx1 Hx2 Hg H. unfold apply_shared in H. rewrite Hp, Hx2, Hg in H. destruct (step w (OAttach e2 p)) as [w1| | |] eqn:Hs; [|done..]. cbn [obind] in H. injection H as ->.
  destruct (C02_move _ _ _ _ _ _ _ HW Hp He Hne Hx1 Hnr Hs) as (M1&x1'&Hx1'&M2&M3&_&_&_&M4). split; [done|]. split; [by exists x1'|].
  assert (HL : legal w (OAttach e2 p)) by (by right). pose proof (steps_eff _ _ _ (reachable_inv _ HW) HL (or_introl Hs)) as HE. destruct (ef_tr _ _ _ HE) as (t&Ht&HT). exists t. split; [done|]. intros h Hh.
  destruct (HT e1 x1 x1' Hx1 Hx1') as [(Hhs&es&Hf&Hr)|(k&Hhp&[(Hk&_)|(Hk&_)])]; [|discriminate..].
  assert (Hes : es <> []).
  { intros ->. set (m := Mir (list_to_map ((fun ip => (ip.1, payload_of (w_heap w) ip.2)) <$> e_items x1)) (list_to_map (by_id (w_heap w) (e_tree x1))) (list_to_map (by_id (w_heap w) (e_maps x1))) (by_id (w_heap w) (e_layers x1))).
    destruct (Hr m) as (m'&Hm'&(N1&_)); [by repeat split|]. cbn in Hm'. injection Hm' as <-. cbn [m_items m] in N1.
    assert (G1 : get_item x1 (it_id it) = Some p) by (apply (C01_lookup_exact _ _ _ HW Hx1); by exists it).
    assert (HIn : (it_id it, p) ∈ e_items x1) by (by apply assoc_in).
    assert (HS : is_Some ((list_to_map ((fun ip => (ip.1, payload_of (w_heap w) ip.2)) <$> e_items x1) : gmap string (kind * Z)) !! it_id it)).
    { match goal with |- is_Some ?o => destruct o eqn:Eo end; [by eexists|]. apply not_elem_of_list_to_map_2 in Eo. exfalso. apply Eo. rewrite <-list_fmap_compose. apply elem_of_list_fmap. by exists (it_id it, p). }
    rewrite N1 in HS. destruct HS as [v HS]. apply elem_of_list_to_map_2 in HS. apply elem_of_list_fmap in HS as ([id q]&Heq&HIn'). cbn in Heq. injection Heq as <- _.
    assert (Hreach : WInv w') by apply HE. destruct (winv_parts _ _ _ Hreach Hx1') as (I&_&_).
    assert (G2 : get_item x1' (it_id it) = Some q) by (apply assoc_nodup; [apply (inv_nodup _ _ I)|done]). apply M2 in G2 as [G2 G3]. congruence. }
  intros HR. apply (received_deliver e1 h (e_handlers x1) es Hh Hes). rewrite <-HR. unfold received. rewrite <-Hf. f_equal.
  clear. induction t as [|d t IH]; [done|]. rewrite !filter_cons. destruct (decide (d_env d = e1)) as [Hd|Hd].
  - rewrite filter_cons. destruct (decide (d_env d = e1 /\ d_handler d = h)) as [HD|HD]; by rewrite IH.
  - rewrite IH. rewrite (decide_False (P := d_env d = e1 /\ d_handler d = h)); [done|]. by intros [? _].
Qed.
Definition told_to (e : eid) (h : hid) (w w' : world) : list event := received e h (drop (length (w_tr w)) (w_tr w')).
Example C144_nonvacuous : (exists it, w_heap demo_world !! 12%positive = Some it /\ it_env it = Some 1%positive /\ it_id it = "/a") /\ ~ is_root demo_world 12 /\
  (exists x, w_envs demo_world !! 2%positive = Some x /\ get_item x "/a" = None) /\ (exists x, w_envs demo_world !! 1%positive = Some x /\ e_handlers x = [100%positive]) /\
  match apply_shared false 2 12 demo_world with Ok w' => bool_decide (in_env w' 2 12 /\ ev_op <$> told_to 1 100 demo_world w' = [ERemove; ERemove; ERemove]) | _ => false end = true /\
  let w := demo_plus [ONew 40 KFrame "/a" 1; OAttach 2 40] in (exists x, w_envs w !! 2%positive = Some x /\ get_item x "/a" = Some 40%positive) /\
  match apply_shared false 2 12 w with Ok w' => bool_decide (it_val <$> w_heap w' !! 40%positive = Some 60%Z /\ told_to 1 100 w w' = []) | _ => false end = true.
Proof.
  split; [vmdec|]. split; [apply not_root_b; vmtrue|]. split; [vmdec|]. split; [vmdec|]. split; [vmtrue|]. cbn zeta. split; [vmdec|vmtrue].
Qed.
