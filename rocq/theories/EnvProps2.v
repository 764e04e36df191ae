(** Properties of the environment core, second part: detaching, links, life time. *)
From stdpp Require Import prelude strings gmap pretty relations.
From Verif Require Import Base AssocLemmas EnvModel EnvSpec EnvLib EnvGood EnvAttach EnvLinks EnvLinks2 EnvDetach EnvDeep EnvHandlers EnvWorld EnvStep EnvStep2 EnvStep3 EnvDemo EnvProps.

Lemma on_env_ok e f w w' : on_env e f w = Ok w' ->
  exists x s', w_envs w !! e = Some x /\ f (St (w_heap w) x (w_tr w)) = Ok s' /\ w' = unfocus e w s'.
Proof.
  unfold on_env, focus. destruct (w_envs w !! e) as [x|]; [|done]. destruct (f _) eqn:Hf; [|done..]. intros H. injection H as <-. eauto.
Qed.
Lemma typed_ok f p w k w' : typed f p w k = Ok w' -> exists it, w_heap w !! p = Some it /\ f (it_kind it) = true /\ k = Ok w'.
Proof. unfold typed, wderef. destruct (w_heap w !! p) as [it|] eqn:Hp; [|done]. destruct (f (it_kind it)) eqn:Hf; [|done]. eauto. Qed.

(** ** C06, C07 *)
(** what is left of an item that is not attached any more: destroyed unless the user has [u] references *)
Definition leftover (it : item) (u : nat) : option item :=
  match u with O => None | S _ => Some (Item (it_kind it) (it_id it) None (it_val it) u u) end.

Theorem C07_detach_exact w e x p it deep keep :
  reachable w -> w_envs w !! e = Some x -> w_heap w !! p = Some it -> it_env it = Some e -> ~ is_root w p ->
  exists w' x' (D : list ptr),
    step w (ODetach e p deep keep) = Ok w' /\
    (forall q, q ∈ D <-> q = p \/ (deep = true /\ is_frame (it_kind it) = true /\ below x p q)) /\
    w_envs w' = <[e := x']> (w_envs w) /\
    e_items x' = filter (fun ip => ip.2 ∉ D) (e_items x) /\
    e_tree x' = filter (fun kv => kv.1 ∉ D /\ kv.2 ∉ D) (e_tree x) /\
    e_layers x' = filter (fun kv => kv.1 ∉ D /\ kv.2 ∉ D) (e_layers x) /\
    e_in x' = filter (fun kv => kv.1 ∉ D /\ kv.2 ∉ D) (e_in x) /\
    e_out x' = filter (fun kv => kv.1 ∉ D /\ kv.2 ∉ D) (e_out x) /\
    e_maps x' = filter (fun kv => kv.1 ∉ D /\ kv.2 ∉ D) (e_maps x) /\
    e_root x' = e_root x /\ e_prefix x' = e_prefix x /\ e_handlers x' = e_handlers x /\
    (forall q, q ∉ D -> w_heap w' !! q = w_heap w !! q) /\
    (forall q iq, q ∈ D -> w_heap w !! q = Some iq -> it_env iq = Some e /\
       w_heap w' !! q = leftover iq (if keep then if decide (q = p) then S (it_user iq) else it_user iq else it_user iq)).
Proof.
  intros HW Hx Hp He Hnr. destruct (reach_parts _ _ _ HW Hx) as (I&R&A).
  destruct (user_detach_ok e deep keep p _ it I A Hp He) as (D&s1&s'&Hok&HR&HG&HD&Hh&Hen&_).
  assert (HpD : p ∉ D) by (intros ?%HD; tauto).
  pose proof (g_inv _ _ _ _ (r_good _ _ _ _ HR)) as I1.
  assert (Hp1 : hp s1 !! p = Some it) by (rewrite (r_heap _ _ _ _ HR) by done; done).
  exists (unfocus e w s'), (en s'), (D ++ [p]).
  split. { cbn [step]. unfold user_detach, on_env, focus. rewrite Hx. by rewrite Hok. }
  split.
  { intros q. rewrite elem_of_app, elem_of_list_singleton, HD. simpl. destruct (decide (q = p)) as [->|Hne]; [tauto|].
    assert (has is_frame e (w_heap w) p <-> is_frame (it_kind it) = true) as ->; [|tauto].
    split; [intros (i&?&?&?); congruence|intros; by exists it]. }
  pose proof (g_root _ _ _ _ HG) as G1. pose proof (g_root _ _ _ _ (r_good _ _ _ _ HR)) as G2.
  pose proof (g_prefix _ _ _ _ HG) as G3. pose proof (g_prefix _ _ _ _ (r_good _ _ _ _ HR)) as G4.
  pose proof (g_handlers _ _ _ _ HG) as G5. pose proof (g_handlers _ _ _ _ (r_good _ _ _ _ HR)) as G6.
  simpl in *. split; [done|].
  assert (Ho : forall l, keep_out p (outside D l) = filter (fun kv => kv.1 ∉ (D ++ [p]) /\ kv.2 ∉ (D ++ [p])) l).
  { intros l. rewrite outside_one, outside_app. done. }
  rewrite Hen. simpl. rewrite (r_tree _ _ _ _ HR), (r_layers _ _ _ _ HR), (r_ins _ _ _ _ HR), (r_outs _ _ _ _ HR), (r_maps _ _ _ _ HR), !Ho.
  split. { rewrite (items_without e s1 p it I1 Hp1 He), (r_items _ _ _ _ HR). rewrite list_filter_filter. simpl.
    apply list_filter_ext_in. intros [id q] _. simpl. rewrite elem_of_app. tauto. }
  rewrite G2, G4, G6.
  split; [done|]. split; [done|]. split; [done|]. split; [done|]. split; [done|]. split; [done|]. split; [done|]. split; [done|].
  rewrite Hh. split.
  - intros q Hq. rewrite elem_of_app, elem_of_list_singleton in Hq. rewrite after_ne by tauto. apply (r_heap _ _ _ _ HR). tauto.
  - intros q iq Hq Hiq. rewrite elem_of_app, elem_of_list_singleton in Hq. destruct (decide (q = p)) as [->|Hne].
    + assert (iq = it) as -> by congruence. split; [done|]. unfold after_detach, leftover. destruct keep.
      * by rewrite lookup_insert.
      * destruct (it_user it); [by rewrite lookup_delete|by rewrite lookup_insert].
    + rewrite after_ne by done. destruct Hq as [Hq|]; [|done]. destruct (r_gone _ _ _ _ HR q iq Hq Hiq) as [H1 H2]. split; [done|].
      rewrite H2. unfold leftover. by destruct keep.
Qed.

(** the flat case spelled out *)
Theorem C06_detach_flat w e x p it keep :
  reachable w -> w_envs w !! e = Some x -> w_heap w !! p = Some it -> it_env it = Some e -> ~ is_root w p ->
  exists w' x',
    step w (ODetach e p false keep) = Ok w' /\ w_envs w' = <[e := x']> (w_envs w) /\
    e_items x' = filter (fun ip => ip.2 <> p) (e_items x) /\
    e_tree x' = filter (fun kv => kv.1 <> p /\ kv.2 <> p) (e_tree x) /\
    e_layers x' = filter (fun kv => kv.1 <> p /\ kv.2 <> p) (e_layers x) /\
    e_in x' = filter (fun kv => kv.1 <> p /\ kv.2 <> p) (e_in x) /\
    e_out x' = filter (fun kv => kv.1 <> p /\ kv.2 <> p) (e_out x) /\
    e_maps x' = filter (fun kv => kv.1 <> p /\ kv.2 <> p) (e_maps x) /\
    (forall q, q <> p -> w_heap w' !! q = w_heap w !! q) /\
    w_heap w' !! p = leftover it (if keep then S (it_user it) else it_user it).
Proof.
  intros HW Hx Hp He Hnr. destruct (C07_detach_exact w e x p it false keep HW Hx Hp He Hnr)
    as (w'&x'&D&Hs&HD&Henv&H1&H2&H3&H4&H5&H6&_&_&_&H7&H8).
  assert (HD' : forall q, q ∉ D <-> q <> p) by (intros q; rewrite HD; naive_solver).
  assert (Hf : forall l : list (ptr * ptr), filter (fun kv => kv.1 ∉ D /\ kv.2 ∉ D) l = filter (fun kv => kv.1 <> p /\ kv.2 <> p) l).
  { intros l. apply list_filter_ext_in. intros kv _. by rewrite !HD'. }
  exists w', x'. rewrite H2, H3, H4, H5, H6, !Hf. split; [done|]. split; [done|]. split.
  { rewrite H1. apply list_filter_ext_in. intros kv _. by rewrite HD'. }
  repeat (split; [done|]). split.
  - intros q Hq. apply H7. by apply HD'.
  - destruct (H8 p it) as [_ ->]; [apply HD; by left|done|]. by rewrite decide_True.
Qed.
Example C06_nonvacuous : reachable demo_world /\ in_env demo_world 1 13 /\ ~ is_root demo_world 13 /\
  exists w', step demo_world (ODetach 1 13 false true) = Ok w' /\ unattached w' 13 /\
  exists x', w_envs w' !! 1%positive = Some x' /\ e_maps x' = [] /\ e_in x' = [] /\ e_out x' = [(15, 14)]%positive.
Proof.
  split; [apply demo_reachable|]. split; [vmdec|]. split; [apply not_root_b; vmtrue|]. eapply ok_step. vmtrue.
Qed.
Example C07_nonvacuous : reachable demo_world /\ in_env demo_world 1 11 /\ ~ is_root demo_world 11 /\
  below (demo_env 1) 11 13 /\
  exists w', step demo_world (ODetach 1 11 true false) = Ok w' /\ unattached w' 13 /\ unattached w' 12 /\ is_gone w' 11 /\
  exists x', w_envs w' !! 1%positive = Some x' /\ e_items x' = [("/0", 10); ("/4", 15); ("/x/l", 14)]%positive.
Proof.
  split; [apply demo_reachable|]. split; [vmdec|]. split; [apply not_root_b; vmtrue|]. split.
  { right. exists 12%positive. split; [vmdec|]. apply rtc_once. unfold parent_of. vmdec. }
  eapply ok_step. vmtrue.
Qed.

(** ** C08 *)
Theorem C08_single_parent w e x : reachable w -> w_envs w !! e = Some x ->
  (forall c p q, (c, p) ∈ e_tree x -> (c, q) ∈ e_tree x -> p = q) /\
  (forall m n k, (m, n) ∈ e_maps x -> (m, k) ∈ e_maps x -> n = k).
Proof.
  intros HW Hx. destruct (reach_parts _ _ _ HW Hx) as (I&_&_). split.
  - intros c p q. rewrite <-!assoc_nodup by apply (inv_tree_nodup _ _ I). congruence.
  - intros c p q. rewrite <-!assoc_nodup by apply (inv_maps_nodup _ _ I). congruence.
Qed.
Theorem C08_add_child w e p c w' :
  reachable w -> legal w (OAddChildF e p c) -> step w (OAddChildF e p c) = Ok w' ->
  exists x x', w_envs w !! e = Some x /\ w_envs w' = <[e := x']> (w_envs w) /\
    get_parent x' c = Some p /\ (forall d, d <> c -> get_parent x' d = get_parent x d) /\
    e_layers x' = e_layers x /\ e_in x' = e_in x /\ e_out x' = e_out x /\ e_maps x' = e_maps x /\
    in_env w' e c.
Proof.
  intros HW (La&Lb&Lr&Lc) Hs. cbn [step] in Hs.
  apply typed_ok in Hs as (ip&Hp&Kp&Hs). apply typed_ok in Hs as (ic&Hc&Kc&Hs). apply on_env_ok in Hs as (x&s'&Hx&Hs&->).
  destruct (reach_parts _ _ _ HW Hx) as (I&R&A).
  assert (Hpc : p <> c). { intros ->. apply (Lc x Hx). constructor. }
  pose proof (add_child_f_wp True 0 e p c _ ic I (in_env_has _ _ _ _ _ La Hp Kp) Hc Kc (free_or_at _ _ _ _ Lb Hc) Hpc (or_introl Logic.I)) as Hwp.
  rewrite Hs in Hwp. destruct Hwp as (_&(i&Hi&Hie&_)&Ht&?&?&?&?). simpl in *.
  exists x, (en s'). split; [done|]. split; [done|]. split; [|split].
  - unfold get_parent. rewrite Ht. case_decide as Hd; [done|]. apply assoc_nodup.
    + apply ins_nodup; [by rewrite assoc_del_key, decide_True|]. apply del_key_nodup, (inv_tree_nodup _ _ I).
    + rewrite elem_of_ins. by left.
  - intros d Hd. unfold get_parent. rewrite Ht. case_decide; [done|]. rewrite assoc_ins, assoc_del_key.
    + rewrite !decide_False by done. done.
    + by rewrite assoc_del_key, decide_True.
  - repeat (split; [done|]). by exists i.
Qed.
Theorem C08_set_frame w e m n w' :
  reachable w -> legal w (OSetFrame e m n) -> step w (OSetFrame e m n) = Ok w' ->
  exists x x', w_envs w !! e = Some x /\ w_envs w' = <[e := x']> (w_envs w) /\
    get_frame x' m = Some n /\ (forall k, k <> m -> get_frame x' k = get_frame x k) /\
    e_layers x' = e_layers x /\ e_in x' = e_in x /\ e_out x' = e_out x /\ e_tree x' = e_tree x /\
    in_env w' e m /\ in_env w' e n.
Proof.
  intros HW (La&Lb) Hs. cbn [step] in Hs.
  apply typed_ok in Hs as (ip&Hp&Kp&Hs). apply typed_ok in Hs as (ic&Hc&Kc&Hs). apply on_env_ok in Hs as (x&s'&Hx&Hs&->).
  destruct (reach_parts _ _ _ HW Hx) as (I&R&A).
  pose proof (set_frame_wp True 0 e m n _ ip ic I Hp Kp Hc Kc (free_or_at _ _ _ _ La Hp) (free_or_at _ _ _ _ Lb Hc) (proj1 R) (or_introl Logic.I)) as Hwp.
  rewrite Hs in Hwp. destruct Hwp as (_&(i&Hi&Hie&_)&(j&Hj&Hje&_)&Ht&?&?&?&?).
  { intros Hn. eapply no_frame_free; [by apply reachable_inv|done..]. } simpl in *.
  exists x, (en s'). split; [done|]. split; [done|]. split; [|split].
  - unfold get_frame. rewrite Ht. case_decide as Hd; [done|]. apply assoc_nodup.
    + apply ins_nodup; [by rewrite assoc_del_key, decide_True|]. apply del_key_nodup, (inv_maps_nodup _ _ I).
    + rewrite elem_of_ins. by left.
  - intros d Hd. unfold get_frame. rewrite Ht. case_decide; [done|]. rewrite assoc_ins, assoc_del_key.
    + rewrite !decide_False by done. done.
    + by rewrite assoc_del_key, decide_True.
  - repeat (split; [done|]). split; [by exists i|by exists j].
Qed.
Example C08_nonvacuous : legal demo_world (OAddChildF 1 10 12) /\ (exists w', step demo_world (OAddChildF 1 10 12) = Ok w' /\ True) /\
  get_parent (demo_env 1) 12 = Some 11%positive /\
  legal demo_world (OSetFrame 1 13 11) /\ (exists w', step demo_world (OSetFrame 1 13 11) = Ok w' /\ True) /\ get_frame (demo_env 1) 13 = Some 12%positive.
Proof.
  split; [apply legalb_ok; vmtrue|]. split; [eapply ok_step; vmtrue|]. split; [vmtrue|].
  split; [apply legalb_ok; vmtrue|]. split; [eapply ok_step; vmtrue|vmtrue].
Qed.

(** ** C09 *)
Theorem C09_links_inside w e x : reachable w -> w_envs w !! e = Some x ->
  (forall c p, (c, p) ∈ e_tree x -> in_env w e c /\ in_env w e p) /\
  (forall c p, (c, p) ∈ e_layers x -> in_env w e c /\ in_env w e p) /\
  (forall o l, (o, l) ∈ e_in x -> in_env w e o /\ in_env w e l) /\
  (forall o l, (o, l) ∈ e_out x -> in_env w e o /\ in_env w e l) /\
  (forall m n, (m, n) ∈ e_maps x -> in_env w e m /\ in_env w e n).
Proof.
  intros HW Hx. destruct (reach_parts _ _ _ HW Hx) as (I&_&_).
  assert (Hh : forall f q, has f e (w_heap w) q -> in_env w e q) by (intros f q (i&?&?&_); by exists i).
  split; [|split; [|split; [|split]]].
  - intros c p (?&?&_)%(inv_tree _ _ I). eauto.
  - intros c p (?&?&_)%(inv_layers _ _ I). eauto.
  - intros c p (?&?)%(inv_in _ _ I). eauto.
  - intros c p (?&?)%(inv_out _ _ I). eauto.
  - intros c p (?&?)%(inv_maps _ _ I). eauto.
Qed.
(** The contract is needed: the code does not check that a parent belongs to the environment (finding). *)
Theorem C09_unchecked_refuted : exists w, reachable w /\ exists w', step w (OAddChildF 1 30 12) = Ok w' /\
  ~ in_env w' 1 30 /\ exists x, w_envs w' !! 1%positive = Some x /\ (12, 30)%positive ∈ e_tree x.
Proof.
  exists (demo_plus [ONew 30 KFrame "/f" 3; OHold 30]). split; [apply demo_plus_reachable|]. eapply ok_step. vmtrue.
Qed.

(** ** C10 *)
(** FrameNode.cpp:67-73, getRoot: follow the parents; [n] bounds the number of steps *)
Fixpoint climb (n : nat) (x : env) (p : ptr) : option ptr :=
  match n with
  | O => None
  | S n => match get_parent x p with None => Some p | Some q => climb n x q end
  end.

Lemma climb_none x n : Acyclic x -> forall p, climb n x p = None ->
  exists l, length l = n /\ NoDup l /\ (forall a, a ∈ l -> a ∈ (e_tree x).*1) /\ forall a, a ∈ l -> rtc (parent_of x) p a.
Proof.
  intros HA. induction n as [|n IH]; intros p H; simpl in H.
  { exists []. split; [done|]. split; [constructor|]. split; intros a Ha; by apply elem_of_nil in Ha. }
  destruct (get_parent x p) as [q|] eqn:Hq; [|done]. apply assoc_in in Hq.
  destruct (IH q H) as (l&Hlen&Hnd&Hk&Hr). exists (p :: l). split; [by simpl; f_equal|]. split; [|split].
  - constructor; [|done]. intros Hin. apply (HA p). apply (tc_rtc_r p q p); [by apply tc_once|by apply Hr].
  - intros a [->|Ha]%elem_of_cons; [|by apply Hk]. apply elem_of_list_fmap. by exists (p, q).
  - intros a [->|Ha]%elem_of_cons; [constructor|]. eapply rtc_l; [exact Hq|by apply Hr].
Qed.
Lemma climb_some x n : forall p r, climb n x p = Some r -> get_parent x r = None /\ rtc (parent_of x) p r.
Proof.
  induction n as [|n IH]; intros p r H; simpl in H; [done|]. destruct (get_parent x p) as [q|] eqn:Hq.
  - destruct (IH _ _ H) as [H1 H2]. split; [done|]. eapply rtc_l; [|done]. by apply assoc_in in Hq.
  - injection H as <-. split; [done|constructor].
Qed.
Lemma climb_total x p : Acyclic x -> exists r, climb (S (length (e_tree x))) x p = Some r.
Proof.
  intros HA. destruct (climb (S (length (e_tree x))) x p) as [r|] eqn:H; [by exists r|].
  destruct (climb_none x _ HA p H) as (l&Hlen&Hnd&Hk&_).
  assert (length l <= length (e_tree x).*1). { apply submseteq_length, NoDup_submseteq; done. }
  rewrite fmap_length in *. lia.
Qed.
Theorem C10_tree w e x : reachable w -> w_envs w !! e = Some x ->
  (forall a, ~ tc (parent_of x) a a) /\
  (forall p, exists r, climb (S (length (e_tree x))) x p = Some r /\ get_parent x r = None /\ rtc (parent_of x) p r).
Proof.
  intros HW Hx. destruct (reach_parts _ _ _ HW Hx) as (I&_&HA). split; [done|]. intros p.
  destruct (climb_total x p HA) as [r Hr]. exists r. split; [done|]. by apply climb_some in Hr.
Qed.
Example C10_nonvacuous : climb 3 (demo_env 1) 12 = Some 10%positive. Proof. vmtrue. Qed.
(** The code does not check this itself: addChild accepts a descendant as parent, after which getRoot loops (finding). *)
Lemma climb_cycle x a b n : get_parent x a = Some b -> get_parent x b = Some a -> climb n x a = None /\ climb n x b = None.
Proof. intros H1 H2. induction n as [|n [IH1 IH2]]; [done|]. simpl. by rewrite H1, H2. Qed.
Theorem frame_cycle_refuted : exists w, reachable w /\ in_env w 1 11 /\ in_env w 1 12 /\ ~ is_root w 11 /\
  exists w', step w (OAddChildF 1 12 11) = Ok w' /\
  exists x, w_envs w' !! 1%positive = Some x /\ tc (parent_of x) 11%positive 11%positive /\ forall n, climb n x 11 = None.
Proof.
  exists demo_world. split; [apply demo_reachable|]. split; [vmdec|]. split; [vmdec|]. split; [apply not_root_b; vmtrue|].
  assert (exists w', step demo_world (OAddChildF 1 12 11) = Ok w' /\ exists x, w_envs w' !! 1%positive = Some x /\
    get_parent x 11 = Some 12%positive /\ get_parent x 12 = Some 11%positive) as (w'&Hs&x&Hx&H1&H2) by (eapply ok_step; vmtrue).
  exists w'. split; [done|]. exists x. split; [done|]. split.
  - apply tc_l with 12%positive; [|apply tc_once]; by apply assoc_in.
  - intros n. by apply (climb_cycle x 11 12).
Qed.

(** ** C11 *)
Theorem C11_add w e p c w' :
  reachable w -> legal w (OAddChildL e p c) -> step w (OAddChildL e p c) = Ok w' ->
  exists x x', w_envs w !! e = Some x /\ w_envs w' = <[e := x']> (w_envs w) /\
    (c, p) ∈ e_layers x' /\
    ((c, p) ∉ e_layers x -> e_layers x' ≡ₚ (c, p) :: e_layers x) /\
    (forall d q, (d, q) <> (c, p) -> (d, q) ∈ e_layers x' <-> (d, q) ∈ e_layers x) /\
    e_tree x' = e_tree x /\ e_in x' = e_in x /\ e_out x' = e_out x /\ e_maps x' = e_maps x.
Proof.
  intros HW (La&Lb) Hs. cbn [step] in Hs.
  apply typed_ok in Hs as (ip&Hp&Kp&Hs). apply typed_ok in Hs as (ic&Hc&Kc&Hs). apply on_env_ok in Hs as (x&s'&Hx&Hs&->).
  destruct (reach_parts _ _ _ HW Hx) as (I&R&A).
  assert (Hpc : p <> c). { intros ->. unfold add_child_l in Hs. by rewrite decide_True in Hs. }
  pose proof (add_child_l_wp True 0 e p c _ ic I (in_env_has _ _ _ _ _ La Hp Kp) Hc Kc (free_or_at _ _ _ _ Lb Hc) Hpc (or_introl Logic.I)) as Hwp.
  rewrite Hs in Hwp. destruct Hwp as (_&_&Ht&?&?&?&?). simpl in *.
  exists x, (en s'). split; [done|]. split; [done|]. rewrite Ht. case_decide as Hd.
  - apply assoc_in in Hd. repeat (split; [done|]). done.
  - split; [rewrite elem_of_ins; by left|]. split; [intros _; apply ins_perm|]. split; [|done].
    intros d q Hne. rewrite elem_of_ins. naive_solver.
Qed.
Theorem C11_remove w e p c w' :
  reachable w -> legal w (ORemChildL e p c) -> step w (ORemChildL e p c) = Ok w' ->
  exists x x', w_envs w !! e = Some x /\ w_envs w' = <[e := x']> (w_envs w) /\
    ((c, p) ∈ e_layers x -> (c, p) :: e_layers x' ≡ₚ e_layers x) /\
    ((c, p) ∉ e_layers x -> e_layers x' = e_layers x) /\
    (NoDup (e_layers x) -> (c, p) ∉ e_layers x') /\
    e_tree x' = e_tree x /\ e_in x' = e_in x /\ e_out x' = e_out x /\ e_maps x' = e_maps x.
Proof.
  intros HW (La&Lb) Hs. cbn [step] in Hs.
  apply typed_ok in Hs as (ip&Hp&Kp&Hs). apply typed_ok in Hs as (ic&Hc&Kc&Hs). apply on_env_ok in Hs as (x&s'&Hx&Hs&->).
  destruct (reach_parts _ _ _ HW Hx) as (I&R&A).
  pose proof (remove_child_l_wp True false e p c _ I (in_env_has _ _ _ _ _ Lb Hc Kc) (in_env_has _ _ _ _ _ La Hp Kp)) as Hwp.
  rewrite Hs in Hwp. destruct Hwp as (_&_&Ht). simpl in *.
  exists x, (en s'). split; [done|]. split; [done|]. rewrite Ht. simpl.
  split; [apply del_one_perm|]. split; [apply del_one_notin|]. split; [|done]. intros Hnd Hin.
  destruct (decide ((c, p) ∈ e_layers x)) as [Hin'|Hn].
  - pose proof (del_one_perm c p (e_layers x) Hin') as Hperm. rewrite <-Hperm in Hnd. by apply NoDup_cons in Hnd as [? _].
  - rewrite del_one_notin in Hin by done. done.
Qed.
(** adding a link twice is harmless if the child has no other parent *)
Theorem C11_add_again w e x p c :
  reachable w -> w_envs w !! e = Some x -> (c, p) ∈ e_layers x ->
  (forall q, (c, q) ∈ e_layers x -> q = p) -> step w (OAddChildL e p c) = Ok w.
Proof.
  intros HW Hx Hin Honly. destruct (reach_parts _ _ _ HW Hx) as (I&R&A).
  destruct (inv_layers _ _ I c p Hin) as ((ic&Hc&Hce&Hck)&(ip&Hp&Hpe&Hpk)&Hne). simpl in *.
  cbn [step]. unfold typed, wderef. rewrite Hc, Hp, Hpk, Hck. unfold on_env, focus. rewrite Hx.
  unfold add_child_l. rewrite decide_False by congruence. rewrite decide_True.
  - unfold unfocus. simpl. rewrite insert_id by done. by destruct w.
  - simpl. destruct (assoc_some c (e_layers x)) as [v Hv]; [apply elem_of_list_fmap; by exists (c, p)|]. rewrite Hv. f_equal.
    apply Honly. by apply assoc_in.
Qed.
Example C11_nonvacuous : step demo_world (OAddChildL 1 13 14) = Ok demo_world.
Proof.
  assert (exists x, w_envs demo_world !! 1%positive = Some x /\ e_layers x = [(14, 13)]%positive) as (x&Hx&Hl) by vmdec.
  apply (C11_add_again demo_world 1 x); [apply demo_reachable|done|rewrite Hl; left|].
  intros q. rewrite Hl. clear. intros [H|H%elem_of_nil]%elem_of_cons; [by injection H|done].
Qed.
(** With two parents the duplicate check of the code looks at the wrong entry: the link is stored twice and survives its
    removal (finding). *)
Theorem C11_duplicate_refuted :
  exists w, run_legal world0 (demo_ops ++ [ONew 30 KLayer "" 3; OAttach 1 30; OAddChildL 1 30 14; OAddChildL 1 30 14; ORemChildL 1 30 14]) = Some w /\
  exists x, w_envs w !! 1%positive = Some x /\ (14, 30)%positive ∈ e_layers x.
Proof. eapply ok_run. vmtrue. Qed.

(** ** C13, C14 *)
(** The code removes an input link of the generator instead of its output link, so the layer stays generated (finding). *)
Theorem C13_still_generated w w' l e x :
  reachable w -> in_env w e l -> w_envs w !! e = Some x -> step w (ODetachFromOp l) = Ok w' ->
  exists x', w_envs w' !! e = Some x' /\ get_generator x' l = get_generator x l.
Proof.
  intros HW (it&Hl&He) Hx Hs. cbn [step] in Hs. apply typed_ok in Hs as (il&Hl'&Kl&Hs).
  unfold detach_from_op, wderef in Hs. rewrite Hl, He in Hs. apply on_env_ok in Hs as (y&s'&Hy&Hs&->).
  assert (y = x) as -> by congruence. exists (en s'). simpl. rewrite lookup_insert. split; [done|].
  destruct (get_generator x l) as [g|] eqn:Hg; simpl in Hs; rewrite Hg in Hs.
  - unfold remove_input in Hs. injection Hs as <-. by rewrite <-Hg.
  - injection Hs as <-. done.
Qed.
Theorem C13_refuted : exists w, reachable w /\ in_env w 1 14 /\ exists w', step w (ODetachFromOp 14) = Ok w' /\
  exists x', w_envs w' !! 1%positive = Some x' /\ get_generator x' 14 = Some 15%positive.
Proof.
  exists demo_world. split; [apply demo_reachable|]. split; [vmdec|]. eapply ok_step; vmtrue.
Qed.
Theorem C14_generator w e x l : reachable w -> w_envs w !! e = Some x ->
  (get_generator x l = None <-> forall o, (o, l) ∉ e_out x) /\
  (forall o, get_generator x l = Some o -> l ∈ get_outputs x o) /\
  (forall o, (o, l) ∈ e_out x -> (forall o', (o', l) ∈ e_out x -> o' = o) -> get_generator x l = Some o).
Proof.
  intros HW Hx. unfold get_generator, get_outputs.
  assert (Hk : forall o, o ∈ keys_of l (e_out x) <-> (o, l) ∈ e_out x) by (intros; apply elem_of_keys_of).
  destruct (keys_of l (e_out x)) as [|g r] eqn:Hkeys; simpl.
  - split; [|split].
    + split; [|done]. intros _ o. rewrite <-Hk. apply not_elem_of_nil.
    + done.
    + intros o Ho. apply Hk in Ho. by apply elem_of_nil in Ho.
  - assert (Hg : (g, l) ∈ e_out x) by (apply Hk; left). split; [|split].
    + split; [done|]. intros H. by destruct (H g).
    + intros o Ho. injection Ho as <-. by apply elem_of_values_of.
    + intros o Ho Hu. f_equal. by apply Hu.
Qed.
(** nothing keeps a layer from having two generators (finding) *)
Theorem C14_refuted : exists w, reachable w /\ exists x, w_envs w !! 1%positive = Some x /\
  (15, 14)%positive ∈ e_out x /\ (30, 14)%positive ∈ e_out x.
Proof.
  exists (demo_plus [ONew 30 (KOp 1 1) "" 3; OAttach 1 30; OOpSetOutput 30 14]). split; [apply demo_plus_reachable|]. vmdec.
Qed.

(** ** C29 *)
Theorem C29_destroy w e x :
  reachable w -> w_envs w !! e = Some x ->
  exists w', step w (ODelEnv e) = Ok w' /\ w_envs w' = delete e (w_envs w) /\
    (forall q, ~ in_env w e q -> w_heap w' !! q = w_heap w !! q) /\
    (forall q it, w_heap w !! q = Some it -> it_env it = Some e -> w_heap w' !! q = leftover it (it_user it)) /\
    (forall q, ~ in_env w' e q).
Proof.
  intros HW Hx. destruct (reach_parts _ _ _ HW Hx) as (I&R&A).
  destruct (detach_all_ok e (length (e_items x)) _ I) as (D&s'&Hok&HR&Hnil&HD); [done|].
  eexists. split. { cbn [step]. unfold del_env, on_env, focus. rewrite Hx. cbn [en]. rewrite Hok. reflexivity. }
  cbn [w_envs w_heap unfocus]. split; [by rewrite delete_insert_delete|].
  assert (Hin : forall q, has any e (w_heap w) q <-> in_env w e q).
  { intros q. split; intros (i&H1&H2); exists i; [tauto|done]. }
  split; [|split].
  - intros q Hq. apply (r_heap _ _ _ _ HR). rewrite HD. simpl. by rewrite Hin.
  - intros q it Hq He. destruct (r_gone _ _ _ _ HR q it) as [_ Hg]; [apply HD; by exists it|done|]. exact Hg.
  - intros q (it&Hq&He). simpl in Hq.
    assert (Hi : (it_id it, q) ∈ e_items (en s')) by (apply (inv_items _ _ (g_inv _ _ _ _ (r_good _ _ _ _ HR))); by exists it).
    rewrite Hnil in Hi. by apply elem_of_nil in Hi.
Qed.
Example C29_nonvacuous : exists w', step demo_world (ODelEnv 1) = Ok w' /\
  is_gone w' 11 /\ unattached w' 12 /\ unattached w' 13 /\ in_env w' 2 21.
Proof. eapply ok_step. vmtrue. Qed.

(** ** C30 *)
(** every possible call that respects the contract returns (normally or with an exception): no undefined behaviour, no failed
    assertion, no endless loop *)
Theorem C30_safe w o : reachable w -> legal w o -> valid w o -> exists w', steps_to w o w'.
Proof.
  intros HW HL HV. pose proof (step_eff False w o (reachable_inv _ HW) HL (or_intror HV)) as H.
  unfold steps_to. destruct (step w o); [eauto|eauto|done|done].
Qed.
(** attached and held items are alive, and survive every call *)
Theorem C30_alive w e x id p : reachable w -> w_envs w !! e = Some x -> get_item x id = Some p ->
  exists it, w_heap w !! p = Some it /\ 0 < it_refs it.
Proof.
  intros HW Hx Hg. apply (C01_lookup_exact _ _ _ HW Hx) in Hg as (it&Hp&He&_). exists it. split; [done|].
  rewrite (winv_refs _ (reachable_inv _ HW) _ _ Hp), He. lia.
Qed.
Theorem C30_held_survives w o w' q it : reachable w -> legal w o -> steps_to w o w' ->
  w_heap w !! q = Some it -> it_user it <> 0 -> o <> ORelease q -> is_Some (w_heap w' !! q).
Proof. intros HW HL Hs. apply (ef_held _ _ _ (steps_eff _ _ _ (reachable_inv _ HW) HL Hs)). Qed.
Global Instance room_dec k s : Decision (room k s).
Proof. unfold room. apply _. Defined.
Example C30_nonvacuous : legal demo_world (OAttach 1 21) /\ valid demo_world (OAttach 1 21).
Proof.
  split; [apply legalb_ok; vmtrue|]. split.
  - change (map_Forall (fun _ x => room 3 (St (w_heap demo_world) x (w_tr demo_world))) (w_envs demo_world)). vmdec.
  - split; [|split].
    + assert (exists x, w_envs demo_world !! 1%positive = Some x /\ True) as (x&Hx&_) by vmdec. by exists x.
    + unfold kind_ok. vmdec.
    + assert (exists it, w_heap demo_world !! 21%positive = Some it /\ it_user it <> 0) as (it&Hx&Hu) by vmdec.
      intros it' Hit'. right. right. rewrite Hx in Hit'. injection Hit' as <-. exact Hu.
Qed.
(** Moving an item that only the old environment refers to accesses it after it was destroyed (finding). *)
Theorem C30_move_refuted : exists w p, reachable w /\ in_env w 2 p /\ ~ is_root w p /\ legal w (OAttach 1 p) /\
  step w (OAttach 1 p) = Bad UB.
Proof.
  exists (demo_plus [ORelease 21]), 21%positive. split; [apply demo_plus_reachable|]. split; [vmdec|].
  split; [apply not_root_b; vmtrue|]. split; [apply legalb_ok; vmtrue|]. apply bad_step. vmtrue.
Qed.

(** ** C52 *)
Lemma norm_prefix_id p : first_char p = Some slash -> last_char p = Some slash -> norm_prefix p = Some p.
Proof. intros H1 H2. unfold norm_prefix. rewrite H1. rewrite decide_True by done. by rewrite decide_True. Qed.
Theorem C52_prefix w e x s : reachable w -> w_envs w !! e = Some x -> s <> "" ->
  exists p a b, step w (OSetPrefix e s) = Ok (World (w_heap w) (<[e := with_prefix x p]> (w_envs w)) (w_tr w)) /\
    first_char p = Some slash /\ last_char p = Some slash /\
    p = a +:+ s +:+ b /\ (a = "" \/ a = "/") /\ (b = "" \/ b = "/") /\
    norm_prefix p = Some p.
Proof.
  intros HW Hx Hs. destruct (norm_prefix s) as [p|] eqn:Hp.
  - pose proof (norm_prefix_ok _ _ Hp) as [H1 H2]. pose proof Hp as Hp'. unfold norm_prefix in Hp'.
    destruct (first_char s) as [c|] eqn:Hc; [|done]. injection Hp' as Hp'.
    exists p, (if decide (c = slash) then "" else "/"), (if decide (last_char (if decide (c = slash) then s else "/" +:+ s) = Some slash) then "" else "/").
    split. { cbn [step]. rewrite Hp. unfold on_env, focus. by rewrite Hx. }
    split; [done|]. split; [done|]. split.
    { rewrite <-Hp'. destruct (decide (c = slash)); case_decide.
      - change ("" +:+ s +:+ "") with (s +:+ ""). clear. induction s as [|a s IH]; [done|]. change (String a s +:+ "") with (String a (s +:+ "")). by f_equal.
      - done.
      - change ("/" +:+ s +:+ "") with (String slash (s +:+ "")). change ("/" +:+ s) with (String slash s). f_equal. clear.
        induction s as [|a s IH]; [done|]. change (String a s +:+ "") with (String a (s +:+ "")). by f_equal.
      - done. }
    split; [clear; case_decide; auto|]. split; [clear; case_decide; auto|]. by apply norm_prefix_id.
  - unfold norm_prefix in Hp. destruct s; done.
Qed.
Example C52_nonvacuous : norm_prefix "robot" = Some "/robot/" /\ norm_prefix "/r" = Some "/r/" /\ norm_prefix "r/" = Some "/r/".
Proof. by vm_compute. Qed.
(** the empty prefix makes the code read the first character of an empty string (finding) *)
Theorem C52_empty_refuted w e : step w (OSetPrefix e "") = Bad UB.
Proof. done. Qed.

(** ** C55 *)
Theorem C55_lookups_agree w e x : reachable w -> w_envs w !! e = Some x ->
  (forall c p, get_parent x c = Some p <-> c ∈ get_children x p) /\
  (forall m n, get_frame x m = Some n <-> m ∈ get_maps x n) /\
  (forall c p, p ∈ get_parents x c <-> c ∈ get_layer_children x p) /\
  (forall l l', l' ∈ get_generated_from x l <-> exists o, l ∈ get_inputs x o /\ l' ∈ get_outputs x o).
Proof.
  intros HW Hx. destruct (reach_parts _ _ _ HW Hx) as (I&_&_). unfold get_parent, get_children, get_frame, get_maps, get_parents, get_layer_children, get_inputs, get_outputs.
  split; [|split; [|split]].
  - intros c p. by rewrite assoc_nodup, elem_of_keys_of by apply (inv_tree_nodup _ _ I).
  - intros c p. by rewrite assoc_nodup, elem_of_keys_of by apply (inv_maps_nodup _ _ I).
  - intros c p. by rewrite elem_of_keys_of, elem_of_values_of.
  - intros l l'. unfold get_generated_from, get_outputs. rewrite elem_of_list_In, in_flat_map. split.
    + intros (o&Ho&Hl). exists o. rewrite <-elem_of_list_In in Ho, Hl. rewrite elem_of_keys_of in Ho. by rewrite elem_of_values_of.
    + intros (o&Ho&Hl). exists o. rewrite <-!elem_of_list_In. rewrite elem_of_keys_of. by rewrite elem_of_values_of in Ho.
Qed.
Example C55_nonvacuous : get_generated_from (demo_env 1) 13 = [14%positive] /\ get_maps (demo_env 1) 12 = [13%positive].
Proof. split; vmtrue. Qed.
