(** Properties of the event streams. *)
From stdpp Require Import prelude strings gmap pretty relations.
From Verif Require Import Base AssocLemmas EnvModel EnvSpec EnvLib EnvGood EnvAttach EnvLinks EnvLinks2 EnvDetach EnvDeep EnvHandlers EnvWorld EnvStep EnvStep2 EnvStep3 EnvDemo EnvProps EnvProps2.

(** ** Received events *)
Lemma received_app e h t1 t2 : received e h (t1 ++ t2) = received e h t1 ++ received e h t2.
Proof. unfold received. by rewrite filter_app, fmap_app. Qed.
Lemma received_filter e h t : received e h t = d_event <$> filter (fun d => d_handler d = h) (filter (fun d => d_env d = e) t).
Proof. unfold received. f_equal. rewrite list_filter_filter. apply list_filter_ext_in. intros d _. tauto. Qed.
Lemma received_deliver e h hs es t : filter (fun d => d_env d = e) t = deliver e hs es ->
  received e h t = es ≫= (fun ev => (fun _ => ev) <$> filter (fun k => k = h) hs).
Proof.
  intros Ht. rewrite received_filter, Ht. clear Ht t. unfold deliver. induction es as [|ev es IH]; [done|].
  rewrite !bind_cons, filter_app, fmap_app, IH. f_equal. clear. induction hs as [|k hs IH]; [done|].
  simpl. rewrite !filter_cons. simpl. case_decide; [|done]. rewrite !fmap_cons, IH. done.
Qed.
Lemma received_once e h hs es t : filter (fun d => d_env d = e) t = deliver e hs es -> filter (fun k => k = h) hs = [h] -> received e h t = es.
Proof. intros Ht Hh. rewrite (received_deliver _ _ _ _ _ Ht), Hh. simpl. apply list_bind_singleton || (clear; induction es; [done|]; simpl; by f_equal). Qed.
Lemma received_never e h hs es t : filter (fun d => d_env d = e) t = deliver e hs es -> h ∉ hs -> received e h t = [].
Proof.
  intros Ht Hh. rewrite (received_deliver _ _ _ _ _ Ht). rewrite list_filter_none; [|by intros k Hk ->]. clear. induction es; [done|]. done.
Qed.
Lemma once_nodup h (hs : list hid) : h ∉ hs -> filter (fun k => k = h) (hs ++ [h]) = [h].
Proof. intros Hn. rewrite filter_app, list_filter_none; [|by intros k Hk ->]. simpl. rewrite filter_cons, decide_True by done. done. Qed.

(** what may not happen to the listener [h] of environment [e] *)
Definition hands_off (e : eid) (h : hid) (o : op) : Prop := o <> OAddHandler e h /\ o <> ORemHandler e h /\ o <> ODelEnv e.

Lemma mirrors_handlers m hp x l : mirrors m hp x -> mirrors m hp (with_handlers x l).
Proof. done. Qed.

Lemma follow_step e h w o w' x m :
  WInv w -> legal w o -> steps_to w o w' -> hands_off e h o -> w_envs w !! e = Some x -> filter (fun k => k = h) (e_handlers x) = [h] ->
  mirrors m (w_heap w) x ->
  exists x' t m', w_envs w' !! e = Some x' /\ filter (fun k => k = h) (e_handlers x') = [h] /\ w_tr w' = w_tr w ++ t /\
    replay m (received e h t) = Some m' /\ mirrors m' (w_heap w') x'.
Proof.
  intros HW HL Hs (Ho1&Ho2&Ho3) Hx Hh Hm. pose proof (steps_eff _ _ _ HW HL Hs) as HE.
  destruct (ef_dom _ _ _ HE e) as [x' Hx']; [by eexists|done|]. destruct (ef_tr _ _ _ HE) as (t&Ht&HT).
  exists x', t. destruct (HT e x x' Hx Hx') as [(Hhs&es&Hf&Hr)|(k&Hhp&[(->&->&Hf)|(->&->&Hf)])].
  - destruct (Hr m Hm) as (m'&Hr1&Hr2). exists m'. rewrite Hhs. rewrite (received_once _ _ _ _ _ Hf Hh). done.
  - exists m. split; [done|]. assert (k <> h) by congruence. split.
    { simpl. rewrite filter_app, Hh, filter_cons, decide_False by done. done. }
    split; [done|]. rewrite (received_never e h _ _ _ Hf) by (by rewrite elem_of_list_singleton). split; [done|]. rewrite Hhp. done.
  - exists m. split; [done|]. assert (k <> h) by congruence. split.
    { simpl. rewrite list_filter_filter. transitivity (filter (fun k => k = h) (e_handlers x)); [|done]. apply list_filter_ext_in. intros a _. naive_solver. }
    split; [done|]. rewrite (received_never e h _ _ _ Hf) by (by rewrite elem_of_list_singleton). split; [done|]. rewrite Hhp. done.
Qed.
Lemma follow_history e h w os w' : history w os w' -> WInv w -> Forall (hands_off e h) os -> forall x m,
  w_envs w !! e = Some x -> filter (fun k => k = h) (e_handlers x) = [h] -> mirrors m (w_heap w) x ->
  exists x' t m', w_envs w' !! e = Some x' /\ w_tr w' = w_tr w ++ t /\
    replay m (received e h t) = Some m' /\ mirrors m' (w_heap w') x'.
Proof.
  intros HH. induction HH as [w|w o w1 os w' HL Hs HH IH]; intros HW Ho x m Hx Hh Hm.
  - exists x, [], m. by rewrite app_nil_r.
  - apply Forall_cons in Ho as [Ho1 Ho2]. destruct (follow_step e h w o w1 x m) as (x1&t1&m1&Hx1&Hh1&Ht1&Hr1&Hm1); [done..|].
    destruct (IH (ef_inv _ _ _ (steps_eff _ _ _ HW HL Hs)) Ho2 x1 m1 Hx1 Hh1 Hm1) as (x'&t2&m'&?&Ht2&Hr2&?). exists x', (t1 ++ t2), m'.
    split; [done|]. split; [by rewrite Ht2, Ht1, app_assoc|]. split; [|done]. rewrite received_app. by rewrite (replay_app _ _ _ _ Hr1).
Qed.

(** ** C16 *)
(** all frame links belong to the tree below the root node *)
Definition connected (x : env) : Prop := forall c p, parent_of x c p -> rtc (parent_of x) p (e_root x).

Lemma registration w e x h : WInv w -> w_envs w !! e = Some x -> exists w' t,
  step w (OAddHandler e h) = Ok w' /\ w_heap w' = w_heap w /\ w_envs w' = <[e := with_handlers x (e_handlers x ++ [h])]> (w_envs w) /\
  w_tr w' = w_tr w ++ t /\ t = deliver e [h] (reg_events (w_heap w) x).
Proof.
  intros HW Hx. destruct (winv_parts _ _ _ HW Hx) as (I&[R _]&A).
  pose proof (add_handler_ok e h (St (w_heap w) x (w_tr w)) I A (has_any _ _ _ _ R)) as Hok.
  eexists _, _. split; [cbn [step]; unfold on_env, focus; rewrite Hx, Hok; reflexivity|]. done.
Qed.

(** Items, root and placements are published completely; of the frame links exactly those connected to the root node; no
    layer links. *)
Theorem C16_registration w e x h : reachable w -> w_envs w !! e = Some x -> exists w' t m,
  step w (OAddHandler e h) = Ok w' /\ w_heap w' = w_heap w /\ w_tr w' = w_tr w ++ t /\
  Forall (fun d => d_env d = e /\ d_handler d = h) t /\
  replay mirror0 (received e h t) = Some m /\
  m_items m = list_to_map ((fun ip => (ip.1, payload_of (w_heap w) ip.2)) <$> e_items x) /\
  m_maps m = list_to_map (by_id (w_heap w) (e_maps x)) /\ m_layers m = [] /\
  (forall c p, has any e (w_heap w) c -> has any e (w_heap w) p ->
     m_tree m !! idn (w_heap w) c = Some (idn (w_heap w) p) <-> parent_of x c p /\ rtc (parent_of x) p (e_root x)) /\
  (exists r, r ∈ received e h t /\ ev_type r = ERoot /\ ev_op r = EAdd /\ ev_a r = idn (w_heap w) (e_root x)).
Proof.
  intros HW%reachable_inv Hx. destruct (registration w e x h HW Hx) as (w'&t&Hs&Hhp&Henv&Ht&Htt).
  destruct (winv_parts _ _ _ HW Hx) as (I&[R _]&A). destruct (reg_mirror e _ I A R) as (L&HL&HND&Hrep). simpl in *.
  assert (Hrec : received e h t = reg_events (w_heap w) x).
  { rewrite Htt. eapply (received_once e h [h]); [apply filter_deliver_same|]. by rewrite filter_cons, decide_True. }
  eexists w', t, _. split; [done|]. split; [done|]. split; [done|]. split.
  { rewrite Htt. apply Forall_forall. intros d Hd. unfold deliver in Hd. apply elem_of_list_bind in Hd as (ev&Hd&_).
    simpl in Hd. by apply elem_of_list_singleton in Hd as ->. }
  rewrite Hrec. split; [exact Hrep|]. split; [done|]. split; [done|]. split; [done|]. split.
  - intros c p Hc Hp. rewrite <-HL. cbn [m_tree]. split.
    + intros Hl. apply elem_of_list_to_map_2 in Hl. unfold by_id in Hl. apply elem_of_list_fmap in Hl as ([c' p']&Heq&Hin). simpl in Heq. injection Heq as E1 E2.
      pose proof Hin as Hin'. apply HL in Hin' as [Hin' _]. apply (inv_tree _ _ I) in Hin' as (Hc'&Hp'&_). simpl in *.
      rewrite (inv_id_inj _ _ I c c'), (inv_id_inj _ _ I p p'); try done; by apply (has_any is_frame).
    + intros Hin. apply elem_of_list_to_map_1.
      * assert (Hk : (by_id (w_heap w) L).*1 = idn (w_heap w) <$> L.*1) by (unfold by_id; by rewrite <-!list_fmap_compose).
        rewrite Hk. apply (ids_nodup e _ I); [done|]. intros q Hq. apply elem_of_list_fmap in Hq as ([a b]&->&Hab). apply HL in Hab as [Hab _].
        apply (inv_tree _ _ I) in Hab as (Ha&_). by apply (has_any is_frame).
      * unfold by_id. apply elem_of_list_fmap. by exists (c, p).
  - exists (mk_event (w_heap w) ERoot EAdd (e_root x) None). split; [|done]. unfold reg_events. rewrite !elem_of_app. right. left. left.
Qed.
(** if there are no layer links and all frame links are below the root node the handler knows everything *)
Lemma reg_exact w e x h : WInv w -> w_envs w !! e = Some x -> connected x -> e_layers x = [] -> exists w' t m,
  step w (OAddHandler e h) = Ok w' /\ w_heap w' = w_heap w /\ w_envs w' = <[e := with_handlers x (e_handlers x ++ [h])]> (w_envs w) /\
  w_tr w' = w_tr w ++ t /\ replay mirror0 (received e h t) = Some m /\ mirrors m (w_heap w) x.
Proof.
  intros HW Hx Hc Hl. destruct (registration w e x h HW Hx) as (w'&t&Hs&Hhp&Henv&Ht&Htt).
  destruct (winv_parts _ _ _ HW Hx) as (I&[R _]&A). destruct (reg_mirror e _ I A R) as (L&HL&HND&Hrep). simpl in *.
  assert (Hrec : received e h t = reg_events (w_heap w) x).
  { rewrite Htt. eapply (received_once e h [h]); [apply filter_deliver_same|]. by rewrite filter_cons, decide_True. }
  eexists w', t, _. do 4 (split; [done|]). rewrite Hrec. split; [exact Hrep|].
  split; [done|]. split; [|split; [done|by rewrite Hl]]. simpl. apply list_to_map_proper.
  - assert (Hk : (by_id (w_heap w) L).*1 = idn (w_heap w) <$> L.*1) by (unfold by_id; by rewrite <-!list_fmap_compose).
    rewrite Hk. apply (ids_nodup e _ I); [done|]. intros q Hq. apply elem_of_list_fmap in Hq as ([a b]&->&Hab). apply HL in Hab as [Hab _].
    apply (inv_tree _ _ I) in Hab as (Ha&_). by apply (has_any is_frame).
  - unfold by_id. apply fmap_Permutation. apply NoDup_Permutation.
    + by apply NoDup_fmap_1 in HND.
    + eapply NoDup_fmap_1, (inv_tree_nodup _ _ I).
    + intros [c p]. rewrite HL. split; [by intros [? _]|]. intros H. split; [done|]. by apply (Hc c).
Qed.
Theorem C16_registration_exact w e x h : reachable w -> w_envs w !! e = Some x -> connected x -> e_layers x = [] -> exists w' t m,
  step w (OAddHandler e h) = Ok w' /\ w_heap w' = w_heap w /\ w_tr w' = w_tr w ++ t /\
  replay mirror0 (received e h t) = Some m /\ mirrors m (w_heap w) x.
Proof. intros HW%reachable_inv Hx Hc Hl. destruct (reg_exact w e x h) as (w'&t&m&?&?&_&?&?&?); [done..|]. by exists w', t, m. Qed.
Example C16_nonvacuous : exists w, reachable w /\ exists x, w_envs w !! 1%positive = Some x /\ e_tree x = [(11, 10); (12, 11)]%positive /\
  e_maps x = [(13, 12)]%positive /\ e_layers x = [] /\ connected x.
Proof.
  exists (demo_plus [ORemChildL 1 13 14]). split; [apply demo_plus_reachable|].
  assert (exists x, w_envs (demo_plus [ORemChildL 1 13 14]) !! 1%positive = Some x /\ e_tree x = [(11, 10); (12, 11)]%positive /\
    e_maps x = [(13, 12)]%positive /\ e_layers x = [] /\ e_root x = 10%positive) as (x&Hx&Ht&Hm&Hl&Hr) by vmdec.
  exists x. do 4 (split; [done|]). clear Hx Hm Hl. intros c p. unfold parent_of at 1. rewrite Ht, Hr.
  intros [H|[H|H%elem_of_nil]%elem_of_cons]%elem_of_cons; [injection H as -> ->; constructor| |done]. injection H as -> ->.
  apply rtc_once. unfold parent_of. rewrite Ht. left.
Qed.
(** Layer links are not published (finding). *)
Theorem C16_layers_refuted : exists w x, reachable w /\ w_envs w !! 1%positive = Some x /\ e_layers x <> [] /\
  forall h w' t m, step w (OAddHandler 1 h) = Ok w' -> w_tr w' = w_tr w ++ t -> replay mirror0 (received 1 h t) = Some m ->
  ~ mirrors m (w_heap w) x.
Proof.
  assert (exists x, w_envs demo_world !! 1%positive = Some x /\ e_layers x = [(14, 13)]%positive) as (x&Hx&Hl) by vmdec.
  exists demo_world, x. split; [apply demo_reachable|]. split; [done|]. split; [by rewrite Hl|].
  intros h w' t m Hs Ht Hrep (_&_&_&Hml).
  destruct (registration _ _ _ h (reachable_inv _ demo_reachable) Hx) as (w2&t2&Hs2&_&_&Ht2&Htt).
  rewrite Hs2 in Hs. injection Hs as ->. rewrite Ht2 in Ht. apply app_inv_head in Ht as <-.
  destruct (winv_parts _ _ _ (reachable_inv _ demo_reachable) Hx) as (I&[R _]&A). destruct (reg_mirror _ _ I A R) as (L&_&_&Hrep2). simpl in Hrep2.
  rewrite Htt in Hrep. erewrite (received_once 1 h [h]) in Hrep; [|apply filter_deliver_same|by rewrite filter_cons, decide_True].
  rewrite Hrep2 in Hrep. injection Hrep as <-. simpl in Hml. rewrite Hl in Hml. by apply Permutation_nil_cons in Hml.
Qed.
(** Frame links of a subtree without connection to the root node are not published either (finding). *)
Theorem C16_orphan_refuted : exists w x, reachable w /\ w_envs w !! 1%positive = Some x /\ e_layers x = [] /\
  forall h w' t m, step w (OAddHandler 1 h) = Ok w' -> w_tr w' = w_tr w ++ t -> replay mirror0 (received 1 h t) = Some m ->
  ~ mirrors m (w_heap w) x.
Proof.
  set (w := demo_plus [ORemChildL 1 13 14; ORemChildF 1 10 11]). assert (HR : reachable w) by apply demo_plus_reachable.
  assert (exists x, w_envs w !! 1%positive = Some x /\ e_layers x = [] /\ e_tree x = [(12, 11)]%positive /\ e_root x = 10%positive) as (x&Hx&Hl&Hte&Hr) by vmdec.
  exists w, x. split; [done|]. split; [done|]. split; [done|].
  intros h w' t m Hs Ht Hrep (_&Hmt&_&_).
  destruct (registration _ _ _ h (reachable_inv _ HR) Hx) as (w2&t2&Hs2&_&_&Ht2&Htt).
  rewrite Hs2 in Hs. injection Hs as ->. rewrite Ht2 in Ht. apply app_inv_head in Ht as <-.
  destruct (winv_parts _ _ _ (reachable_inv _ HR) Hx) as (I&[R _]&A). destruct (reg_mirror _ _ I A R) as (L&HL&_&Hrep2). simpl in Hrep2, HL.
  rewrite Htt in Hrep. erewrite (received_once 1 h [h]) in Hrep; [|apply filter_deliver_same|by rewrite filter_cons, decide_True].
  rewrite Hrep2 in Hrep. injection Hrep as <-. simpl in Hmt. rewrite Hte in Hmt.
  assert (L = []) as ->.
  { destruct L as [|[c p] L]; [done|]. exfalso. destruct (proj1 (HL c p) (elem_of_list_here _ _)) as [H1 H2]. unfold parent_of in H1. rewrite Hte in H1.
    apply elem_of_list_singleton in H1. injection H1 as -> ->. rewrite Hr in H2. apply rtc_inv in H2 as [H2|(y&H2&_)]; [done|].
    unfold parent_of in H2. rewrite Hte in H2. apply elem_of_list_singleton in H2. done. }
  simpl in Hmt. clear -Hmt. apply (f_equal (fun g : gmap string string => g !! idn (w_heap w) 12)) in Hmt. simpl in Hmt. by rewrite lookup_empty, lookup_insert in Hmt.
Qed.

(** ** C15 *)
Lemma new_env_result w e r w1 : step w (ONewEnv e r) = Ok w1 ->
  w_envs w1 !! e = Some (Env [("/0", r)] [] [] [] [] [] r "/" 1 []).
Proof.
  cbn [step]. unfold new_env. destruct (w_envs w !! e) as [?|] eqn:He; [done|]. destruct (w_heap w !! r) as [?|] eqn:Hr; [done|].
  unfold on_env, focus. cbn [w_envs w_heap w_tr]. rewrite lookup_insert. unfold attach_core, deref. cbn [hp en]. rewrite lookup_insert.
  cbn [it_env it_id e_prefix]. unfold obind at 1.
  assert (Hf : full_id "/" "/0" = "/0") by (vm_compute; reflexivity). cbv zeta. rewrite Hf.
  rewrite decide_False by (vm_compute; discriminate). unfold put at 1. cbn [hp set_hp]. unfold put. cbn [hp set_hp en]. rewrite lookup_insert.
  cbn [it_id with_id e_items assoc]. unfold emit, emit_to, deref. cbn [hp set_hp set_en en e_handlers with_items put]. rewrite lookup_insert.
  unfold drop_temp. cbn [hp]. rewrite lookup_insert. cbn [it_refs with_refs]. rewrite decide_False by done.
  intros [= <-]. unfold unfocus. cbn [w_envs en]. rewrite insert_insert, lookup_insert. reflexivity.
Qed.

(** A listener registered on a new environment always has exactly its content. *)
Theorem C15_mirror w0 w1 w2 w3 e r h os :
  reachable w0 -> step w0 (ONewEnv e r) = Ok w1 -> step w1 (OAddHandler e h) = Ok w2 -> history w2 os w3 -> Forall (hands_off e h) os ->
  exists x t m, w_envs w3 !! e = Some x /\ w_tr w3 = w_tr w1 ++ t /\
    replay mirror0 (received e h t) = Some m /\ mirrors m (w_heap w3) x.
Proof.
  intros HW Hs1 Hs2 HH Hos. pose proof (steps_eff w0 (ONewEnv e r) w1 (reachable_inv _ HW) Logic.I (or_introl Hs1)) as HE1.
  pose proof (new_env_result _ _ _ _ Hs1) as Hx1. set (x1 := Env _ _ _ _ _ _ _ _ _ _) in Hx1.
  destruct (reg_exact w1 e x1 h (ef_inv _ _ _ HE1) Hx1) as (w2'&t1&m1&Hs2'&Hhp&Henv&Ht1&Hr1&Hm1); [|done|].
  { intros c p H. by apply elem_of_nil in H. }
  rewrite Hs2 in Hs2'. injection Hs2' as <-.
  pose proof (steps_eff w1 (OAddHandler e h) w2 (ef_inv _ _ _ HE1) Logic.I (or_introl Hs2)) as HE2.
  destruct (follow_history e h w2 os w3 HH (ef_inv _ _ _ HE2) Hos (with_handlers x1 [h]) m1) as (x3&t2&m3&Hx3&Ht2&Hr3&Hm3).
  - rewrite Henv, lookup_insert. done.
  - simpl. by rewrite filter_cons, decide_True.
  - rewrite Hhp. exact Hm1.
  - exists x3, (t1 ++ t2), m3. split; [done|]. split; [by rewrite Ht2, Ht1, app_assoc|]. split; [|done].
    rewrite received_app. by rewrite (replay_app _ _ _ _ Hr1).
Qed.
(** The same for a listener registered later, if registration published everything (see C16). *)
Theorem C15_mirror_later w1 w2 w3 e x1 h os :
  reachable w1 -> w_envs w1 !! e = Some x1 -> h ∉ e_handlers x1 -> connected x1 -> e_layers x1 = [] ->
  step w1 (OAddHandler e h) = Ok w2 -> history w2 os w3 -> Forall (hands_off e h) os ->
  exists x t m, w_envs w3 !! e = Some x /\ w_tr w3 = w_tr w1 ++ t /\
    replay mirror0 (received e h t) = Some m /\ mirrors m (w_heap w3) x.
Proof.
  intros HW Hx1 Hh Hc Hl Hs2 HH Hos.
  destruct (reg_exact w1 e x1 h (reachable_inv _ HW) Hx1 Hc Hl) as (w2'&t1&m1&Hs2'&Hhp&Henv&Ht1&Hr1&Hm1).
  rewrite Hs2 in Hs2'. injection Hs2' as <-.
  pose proof (steps_eff w1 (OAddHandler e h) w2 (reachable_inv _ HW) Logic.I (or_introl Hs2)) as HE2.
  destruct (follow_history e h w2 os w3 HH (ef_inv _ _ _ HE2) Hos (with_handlers x1 (e_handlers x1 ++ [h])) m1) as (x3&t2&m3&Hx3&Ht2&Hr3&Hm3).
  - rewrite Henv, lookup_insert. done.
  - simpl. by apply once_nodup.
  - rewrite Hhp. exact Hm1.
  - exists x3, (t1 ++ t2), m3. split; [done|]. split; [by rewrite Ht2, Ht1, app_assoc|]. split; [|done].
    rewrite received_app. by rewrite (replay_app _ _ _ _ Hr1).
Qed.
(** When the environment is destroyed, a listener that is up to date ends up empty. *)
Theorem C15_destroy w e x h m : reachable w -> w_envs w !! e = Some x -> filter (fun k => k = h) (e_handlers x) = [h] ->
  mirrors m (w_heap w) x -> exists w' t, step w (ODelEnv e) = Ok w' /\ w_tr w' = w_tr w ++ t /\ replay m (received e h t) = Some mirror0.
Proof.
  intros HW Hx Hh Hm. destruct (reach_parts _ _ _ HW Hx) as (I&R&A).
  destruct (detach_all_ok e (length (e_items x)) _ I) as (D&s'&Hok&HR&Hnil&HD); [done|].
  pose proof (r_good _ _ _ _ HR) as HG. destruct (g_tr _ _ _ _ HG) as (es&Htr&Hrep). simpl in Htr, Hrep.
  eexists. exists (deliver e (e_handlers x) es). split. { cbn [step]. unfold del_env, on_env, focus. rewrite Hx. cbn [en]. rewrite Hok. reflexivity. }
  cbn [w_tr unfocus]. split; [done|].
  rewrite (received_once e h (e_handlers x) es); [|apply filter_deliver_same|done]. destruct (Hrep m Hm) as (m'&Hr&Hm').
  rewrite Hr. f_equal. destruct m' as [i t p l]. destruct Hm' as (H1&H2&H3&H4). simpl in *. pose proof (g_inv _ _ _ _ HG) as I'.
  assert (Hno : forall f q, has f e (hp s') q -> False).
  { intros f q (it&Hq&He&_). assert (Hi : (it_id it, q) ∈ e_items (en s')) by (apply (inv_items _ _ I'); by exists it). rewrite Hnil in Hi. by apply elem_of_nil in Hi. }
  assert (Hempty : forall l : list (ptr * ptr), (forall a b, (a, b) ∈ l -> False) -> l = []).
  { intros [|[a b] l0] Hl; [done|]. exfalso. eapply Hl. left. }
  rewrite (Hempty (e_tree (en s'))) in H2 by (intros a b Hab; apply (inv_tree _ _ I') in Hab as (?&_); by eapply Hno).
  rewrite (Hempty (e_maps (en s'))) in H3 by (intros a b Hab; apply (inv_maps _ _ I') in Hab as (?&_); by eapply Hno).
  rewrite (Hempty (e_layers (en s'))) in H4 by (intros a b Hab; apply (inv_layers _ _ I') in Hab as (?&_); by eapply Hno).
  rewrite Hnil in H1. simpl in *. apply Permutation_nil_r in H4. by subst.
Qed.
Lemma history_inv w o os w' : history w (o :: os) w' -> exists w1, legal w o /\ steps_to w o w1 /\ history w1 os w'.
Proof. intros H. inversion H; subst. eauto. Qed.
(** the demo history is an instance of C15 *)
Example C15_nonvacuous : exists w0 w1 w2, reachable w0 /\ step w0 (ONewEnv 1 10) = Ok w1 /\ step w1 (OAddHandler 1 100) = Ok w2 /\
  history w2 (drop 2 demo_ops) demo_world /\ Forall (hands_off 1 100) (drop 2 demo_ops) /\ length (received 1 100 (w_tr demo_world)) = 14.
Proof.
  pose proof demo_history as HH.
  change demo_ops with (ONewEnv 1 10 :: OAddHandler 1 100 :: drop 2 demo_ops) in HH.
  exists world0. apply history_inv in HH as (w1&HL1&Hs1&HH). apply history_inv in HH as (w2&HL2&Hs2&HH2). exists w1, w2.
  split; [exists []; constructor|].
  assert (H1 : exists w', step world0 (ONewEnv 1 10) = Ok w' /\ True) by (eapply ok_step; vmtrue). destruct H1 as (w1'&Hw1&_).
  destruct Hs1 as [Hs1|Hs1]; [|by rewrite Hw1 in Hs1]. split; [done|].
  destruct (registration w1 1 (Env [("/0", 10%positive)] [] [] [] [] [] 10 "/" 1 []) 100) as (w2'&t&Hw2&_).
  { apply (steps_eff world0 (ONewEnv 1 10) w1 WInv0 Logic.I (or_introl Hs1)). }
  { by apply (new_env_result world0). }
  destruct Hs2 as [Hs2|Hs2]; [|by rewrite Hw2 in Hs2]. split; [done|]. split; [exact HH2|]. split; [|vmtrue]. clear. vm_compute. repeat (constructor; [done|]). constructor.
Qed.

(** ** C17 *)
Lemma replay_rem h K : forall m,
  (forall c p, inl (c, p) ∈ K -> m_tree m !! idn h c = Some (idn h p)) ->
  (forall c p, inr (c, p) ∈ K -> m_maps m !! idn h c = Some (idn h p)) ->
  NoDup ((fun k => match k with inl cp => (true, idn h cp.1) | inr mn => (false, idn h mn.1) end) <$> K) ->
  exists m', replay m (rem_event h <$> K) = Some m' /\ m_items m' = m_items m /\ m_layers m' = m_layers m /\
    (forall i, m_tree m' !! i = if decide ((true, i) ∈ (fun k => match k with inl cp => (true, idn h cp.1) | inr mn => (false, idn h mn.1) end) <$> K) then None else m_tree m !! i) /\
    (forall i, m_maps m' !! i = if decide ((false, i) ∈ (fun k => match k with inl cp => (true, idn h cp.1) | inr mn => (false, idn h mn.1) end) <$> K) then None else m_maps m !! i).
Proof.
  induction K as [|k K IH]; intros m Ht Hm HND.
  { exists m. split; [done|]. split; [done|]. split; [done|]. split; intros i; (rewrite decide_False; [done|apply not_elem_of_nil]). }
  rewrite fmap_cons in HND. apply NoDup_cons in HND as [Hn HND]. destruct k as [[c p]|[c p]].
  - set (m1 := Mir (m_items m) (delete (idn h c) (m_tree m)) (m_maps m) (m_layers m)).
    assert (H1 : mstep m (rem_event h (inl (c, p))) = Some m1).
    { unfold mstep. simpl. rewrite decide_True; [done|]. apply Ht. left. }
    destruct (IH m1) as (m'&Hr&Hi&Hl&Htr&Hmp).
    + intros c' p' Hin. simpl. rewrite lookup_delete_ne; [apply Ht; by right|]. intros Heq. apply Hn. apply elem_of_list_fmap. exists (inl (c', p')). simpl. by rewrite Heq.
    + intros c' p' Hin. apply Hm. by right.
    + done.
    + exists m'. rewrite fmap_cons. cbn [replay]. rewrite H1. split; [done|]. split; [done|]. split; [done|]. split; intros i.
      * rewrite Htr. simpl. destruct (decide (i = idn h c)) as [->|Hne].
        -- rewrite (decide_True (P := (true, idn h c) ∈ (true, idn h c) :: _)) by left. case_decide; [done|]. by rewrite lookup_delete.
        -- rewrite lookup_delete_ne by done. destruct (decide ((true, i) ∈ _ <$> K)) as [Hin|Hni].
           ++ rewrite decide_True; [done|]. by right.
           ++ rewrite decide_False; [done|]. rewrite elem_of_cons. intros [?|?]; [congruence|done].
      * rewrite Hmp. simpl. destruct (decide ((false, i) ∈ _ <$> K)) as [Hin|Hni].
        ++ rewrite decide_True; [done|]. by right.
        ++ rewrite decide_False; [done|]. rewrite elem_of_cons. intros [?|?]; [congruence|done].
  - set (m1 := Mir (m_items m) (m_tree m) (delete (idn h c) (m_maps m)) (m_layers m)).
    assert (H1 : mstep m (rem_event h (inr (c, p))) = Some m1).
    { unfold mstep. simpl. rewrite decide_True; [done|]. apply Hm. left. }
    destruct (IH m1) as (m'&Hr&Hi&Hl&Htr&Hmp).
    + intros c' p' Hin. apply Ht. by right.
    + intros c' p' Hin. simpl. rewrite lookup_delete_ne; [apply Hm; by right|]. intros Heq. apply Hn. apply elem_of_list_fmap. exists (inr (c', p')). simpl. by rewrite Heq.
    + done.
    + exists m'. rewrite fmap_cons. cbn [replay]. rewrite H1. split; [done|]. split; [done|]. split; [done|]. split; intros i.
      * rewrite Htr. simpl. destruct (decide ((true, i) ∈ _ <$> K)) as [Hin|Hni].
        ++ rewrite decide_True; [done|]. by right.
        ++ rewrite decide_False; [done|]. rewrite elem_of_cons. intros [?|?]; [congruence|done].
      * rewrite Hmp. simpl. destruct (decide (i = idn h c)) as [->|Hne].
        -- rewrite (decide_True (P := (false, idn h c) ∈ (false, idn h c) :: _)) by left. case_decide; [done|]. by rewrite lookup_delete.
        -- rewrite lookup_delete_ne by done. destruct (decide ((false, i) ∈ _ <$> K)) as [Hin|Hni].
           ++ rewrite decide_True; [done|]. by right.
           ++ rewrite decide_False; [done|]. rewrite elem_of_cons. intros [?|?]; [congruence|done].
Qed.
Lemma replay_rem_items h (L : list (string * ptr)) : forall m,
  (forall id p, (id, p) ∈ L -> idn h p = id /\ is_Some (m_items m !! id)) -> NoDup L.*1 ->
  (forall id, is_Some (m_items m !! id) -> id ∈ L.*1) ->
  m_tree m = ∅ -> m_maps m = ∅ -> m_layers m = [] ->
  replay m ((fun ip => mk_event h EItem ERemove ip.2 None) <$> L) = Some mirror0.
Proof.
  induction L as [|[id p] L IH]; intros [mi mt mm ml] Hin HND Hall Ht Hm Hl; cbn [m_items m_tree m_maps m_layers] in *; subst.
  - assert (mi = ∅) as ->; [|done]. apply map_empty. intros i. apply eq_None_not_Some. intros H%Hall. by apply elem_of_nil in H.
  - rewrite fmap_cons in HND, Hall. apply NoDup_cons in HND as [Hn HND]. destruct (Hin id p (elem_of_list_here _ _)) as [Hid [v Hv]].
    assert (Hev : mk_event h EItem ERemove p None = Ev EItem ERemove id "" None) by (unfold mk_event, idn in *; destruct (h !! p); simplify_eq; done).
    rewrite fmap_cons. cbn [replay snd]. rewrite Hev. unfold mstep at 1. cbn [ev_type ev_op ev_item ev_a]. rewrite decide_True.
    + cbn [m_items m_tree m_maps m_layers snd]. apply IH; simpl; try done.
      * intros id' p' Hin'. destruct (Hin id' p') as [? ?]; [by right|]. split; [done|]. rewrite lookup_delete_ne; [done|].
        intros ->. apply Hn, elem_of_list_fmap. by exists (id', p').
      * intros id' [v' Hv']. apply lookup_delete_Some in Hv' as [Hne Hv']. assert (Hi : id' ∈ id :: L.*1) by (apply Hall; by exists v').
        apply elem_of_cons in Hi as [?|?]; [congruence|done].
    + split.
      * unfold known. simpl. by rewrite Hv.
      * unfold unlinked. simpl. split; [done|]. split; [intros ? ? H; by rewrite lookup_empty in H|]. split; [done|].
        split; [intros ? ? H; by rewrite lookup_empty in H|]. constructor.
Qed.

(** A listener that is up to date is told to remove everything when it is unregistered, provided that there are no layer
    links and that all frame links and placements are in the tree below the root node, with no map on the root node itself. *)
Theorem C17_unregistration w e x h m :
  reachable w -> w_envs w !! e = Some x -> h ∈ e_handlers x -> mirrors m (w_heap w) x ->
  e_layers x = [] -> connected x -> (forall a n, (a, n) ∈ e_maps x -> tc (parent_of x) n (e_root x)) ->
  exists w' t x', step w (ORemHandler e h) = Ok w' /\ w_tr w' = w_tr w ++ t /\ w_heap w' = w_heap w /\
    w_envs w' !! e = Some x' /\ h ∉ e_handlers x' /\ (forall k, k <> h -> k ∈ e_handlers x' <-> k ∈ e_handlers x) /\
    Forall (fun d => d_env d = e /\ d_handler d = h) t /\
    replay m (received e h t) = Some mirror0.
Proof.
  intros HW Hx Hh (Hmi&Hmt&Hmm&Hml) Hl Hc Hmaps. destruct (reach_parts _ _ _ HW Hx) as (I&[R _]&A).
  pose proof (remove_handler_ok e h (St (w_heap w) x (w_tr w)) I A (has_any _ _ _ _ R)) as Hok.
  eexists _, (deliver e [h] (unreg_events (w_heap w) x)), _.
  split; [cbn [step]; unfold on_env, focus; rewrite Hx, Hok; reflexivity|]. split; [done|]. split; [done|].
  split; [cbn [w_envs unfocus]; by rewrite lookup_insert|]. cbn [en add_tr set_en e_handlers with_handlers].
  split; [rewrite elem_of_list_filter; tauto|]. split; [intros k Hk; rewrite elem_of_list_filter; tauto|]. split.
  { apply Forall_forall. intros d Hd. unfold deliver in Hd. apply elem_of_list_bind in Hd as (ev&Hd&_). simpl in Hd. by apply elem_of_list_singleton in Hd as ->. }
  rewrite (received_once e h [h] (unreg_events (w_heap w) x)); [|apply filter_deliver_same|by rewrite filter_cons, decide_True].
  set (n := S (S (length (e_tree x)))). set (K := post_links x n (e_root x)).
  assert (Hhe : height x n (e_root x)) by (apply height_S, height_bound, A).
  assert (HK : forall k, k ∈ K <-> match k with inl (c, q) => parent_of x c q /\ rtc (parent_of x) q (e_root x)
      | inr (m, c) => (m, c) ∈ e_maps x /\ tc (parent_of x) c (e_root x) end) by (intros; by apply elem_of_post_links).
  assert (Hlt : forall c p, (c, p) ∈ e_tree x -> m_tree m !! idn (w_heap w) c = Some (idn (w_heap w) p)).
  { intros c p Hcp. rewrite Hmt. apply elem_of_list_to_map_1; [|unfold by_id; apply elem_of_list_fmap; by exists (c, p)].
    assert (Hk : (by_id (w_heap w) (e_tree x)).*1 = idn (w_heap w) <$> (e_tree x).*1) by (unfold by_id; by rewrite <-!list_fmap_compose).
    rewrite Hk. apply (ids_nodup e _ I); [apply (inv_tree_nodup _ _ I)|]. intros q Hq. apply elem_of_list_fmap in Hq as ([a b]&->&Hab).
    apply (inv_tree _ _ I) in Hab as (Ha&_). by apply (has_any is_frame). }
  assert (Hlm : forall c p, (c, p) ∈ e_maps x -> m_maps m !! idn (w_heap w) c = Some (idn (w_heap w) p)).
  { intros c p Hcp. rewrite Hmm. apply elem_of_list_to_map_1; [|unfold by_id; apply elem_of_list_fmap; by exists (c, p)].
    assert (Hk : (by_id (w_heap w) (e_maps x)).*1 = idn (w_heap w) <$> (e_maps x).*1) by (unfold by_id; by rewrite <-!list_fmap_compose).
    rewrite Hk. apply (ids_nodup e _ I); [apply (inv_maps_nodup _ _ I)|]. intros q Hq. apply elem_of_list_fmap in Hq as ([a b]&->&Hab).
    apply (inv_maps _ _ I) in Hab as (Ha&_). by apply (has_any is_map). }
  destruct (replay_rem (w_heap w) K m) as (m1&Hr1&Hi1&Hl1&Ht1&Hm1).
  - intros c p Hin. apply HK in Hin as [Hin _]. by apply Hlt.
  - intros c p Hin. apply HK in Hin as [Hin _]. by apply Hlm.
  - assert (Hnd : NoDup K) by (apply post_links_nodup; [apply (inv_tree_nodup _ _ I)|apply (inv_maps_nodup _ _ I)|done..]).
    revert Hnd HK. clear -I. generalize K. clear K. intros K Hnd HK.
    assert (Hsub : forall k, k ∈ K -> match k with inl (c, q) => (c, q) ∈ e_tree x | inr (c, q) => (c, q) ∈ e_maps x end).
    { intros k Hk%HK. destruct k as [[c q]|[c q]]; apply Hk. }
    clear HK. induction Hnd as [|k K Hn Hnd IH]; [constructor|]. rewrite fmap_cons. apply NoDup_cons. split; [|apply IH; intros; apply Hsub; by right].
    rewrite elem_of_list_fmap. intros (k'&Heq&Hk'). apply Hn. replace k with k'; [done|].
    pose proof (Hsub k (elem_of_list_here _ _)) as H1. pose proof (Hsub k' (elem_of_list_further _ _ _ Hk')) as H2.
    destruct k as [[c q]|[c q]], k' as [[c' q']|[c' q']]; try done; simpl in Heq; injection Heq as Heq; f_equal.
    + pose proof H1 as G1. pose proof H2 as G2. apply (inv_tree _ _ I) in G1 as (G1&_), G2 as (G2&_).
      assert (c = c') as <- by (apply (inv_id_inj _ _ I); [by apply (has_any is_frame)..|done]).
      f_equal. apply assoc_nodup in H1, H2; try apply (inv_tree_nodup _ _ I). congruence.
    + pose proof H1 as G1. pose proof H2 as G2. apply (inv_maps _ _ I) in G1 as (G1&_), G2 as (G2&_).
      assert (c = c') as <- by (apply (inv_id_inj _ _ I); [by apply (has_any is_map)..|done]).
      f_equal. apply assoc_nodup in H1, H2; try apply (inv_maps_nodup _ _ I). congruence.
  - unfold unreg_events. fold n. fold K. rewrite (replay_app _ _ _ _ Hr1).
    assert (Hkn : forall id p, (id, p) ∈ e_items x -> idn (w_heap w) p = id /\ m_items m1 !! id = Some (payload_of (w_heap w) p)).
    { intros id p Hin. pose proof Hin as Hin'. apply (inv_items _ _ I) in Hin' as (it&Hp&He&Hid). split; [unfold idn; simpl in Hp; by rewrite Hp|].
      rewrite Hi1, Hmi. apply elem_of_list_to_map_1.
      - rewrite <-list_fmap_compose. change ((fun ip : string * positive => ip.1) <$> e_items x) with (e_items x).*1. apply (inv_nodup _ _ I).
      - apply elem_of_list_fmap. by exists (id, p). }
    assert (R2 : replay m1 [mk_event (w_heap w) ERoot ERemove (e_root x) None] = Some m1).
    { cbn [replay]. unfold mk_event, mstep. cbn [ev_type ev_op ev_item ev_a]. rewrite decide_True; [done|].
      destruct R as (it&Hp&He&Hf). simpl in *. assert (Hin : (it_id it, e_root x) ∈ e_items x) by (apply (inv_items _ _ I); by exists it).
      apply Hkn in Hin as [Hin1 Hin2]. unfold known. rewrite Hin1, Hin2. unfold payload_of. by rewrite Hp. }
    rewrite (replay_app _ _ _ _ R2). apply replay_rem_items.
    + intros id p Hin. destruct (Hkn _ _ Hin) as [? ?]. split; [done|]. by eexists.
    + apply (inv_nodup _ _ I).
    + intros id [v Hv]. rewrite Hi1, Hmi in Hv. apply elem_of_list_to_map_2 in Hv. apply elem_of_list_fmap in Hv as ([i p]&Heq&Hin). simpl in Heq.
      injection Heq as -> ->. apply elem_of_list_fmap. by exists (i, p).
    + apply map_empty. intros i. rewrite Ht1. case_decide as Hd; [done|]. rewrite Hmt. apply not_elem_of_list_to_map_1. intros Hi. apply Hd.
      unfold by_id in Hi. rewrite <-list_fmap_compose in Hi. apply elem_of_list_fmap in Hi as ([c p]&->&Hin). apply elem_of_list_fmap. exists (inl (c, p)).
      split; [done|]. apply HK. split; [done|]. by apply (Hc c).
    + apply map_empty. intros i. rewrite Hm1. case_decide as Hd; [done|]. rewrite Hmm. apply not_elem_of_list_to_map_1. intros Hi. apply Hd.
      unfold by_id in Hi. rewrite <-list_fmap_compose in Hi. apply elem_of_list_fmap in Hi as ([c p]&->&Hin). apply elem_of_list_fmap. exists (inr (c, p)).
      split; [done|]. apply HK. split; [done|]. by eapply Hmaps.
    + rewrite Hl1. rewrite Hl in Hml. by apply Permutation_nil_r in Hml.
Qed.

(** Whatever the links are, every item is taken back exactly once. *)
Theorem C17_items_removed w e x h :
  reachable w -> w_envs w !! e = Some x -> h ∈ e_handlers x -> exists w' t, step w (ORemHandler e h) = Ok w' /\ w_tr w' = w_tr w ++ t /\
    ev_a <$> filter (fun ev => ev_type ev = EItem) (received e h t) = (e_items x).*1 /\
    Forall (fun ev => ev_op ev = ERemove) (received e h t).
Proof.
  intros HW Hx Hh. destruct (reach_parts _ _ _ HW Hx) as (I&[R _]&A).
  pose proof (remove_handler_ok e h (St (w_heap w) x (w_tr w)) I A (has_any _ _ _ _ R)) as Hok.
  eexists _, (deliver e [h] (unreg_events (w_heap w) x)).
  split; [cbn [step]; unfold on_env, focus; rewrite Hx, Hok; reflexivity|]. split; [done|].
  rewrite (received_once e h [h] (unreg_events (w_heap w) x)); [|apply filter_deliver_same|by rewrite filter_cons, decide_True].
  unfold unreg_events. split.
  - rewrite !filter_app. rewrite list_filter_none.
    2: { intros ev Hev. apply elem_of_list_fmap in Hev as ([[]|[]]&->&_); done. }
    rewrite app_nil_l. rewrite (list_filter_none _ [_]) by (intros ev ->%elem_of_list_singleton; done). rewrite app_nil_l.
    assert (Hall : forall ip, ip ∈ e_items x -> idn (w_heap w) ip.2 = ip.1).
    { intros [id p] Hin. apply (inv_items _ _ I) in Hin as (it&Hp&He&Hid). unfold idn. simpl in *. by rewrite Hp. }
    revert Hall. clear. induction (e_items x) as [|[id p] L IH]; intros Hall; [done|]. rewrite !fmap_cons, filter_cons, decide_True by done.
    rewrite fmap_cons. f_equal; [apply (Hall (id, p)); left|]. apply IH. intros ip Hip. apply Hall. by right.
  - apply Forall_app. split; [|apply Forall_app; split].
    + apply Forall_fmap, Forall_forall. intros [[]|[]] _; done.
    + by constructor.
    + apply Forall_fmap, Forall_forall. done.
Qed.
(** The demo environment without its layer link satisfies all hypotheses. *)
Example C17_nonvacuous : exists w x m, reachable w /\ w_envs w !! 1%positive = Some x /\ 100%positive ∈ e_handlers x /\ mirrors m (w_heap w) x /\
  e_layers x = [] /\ connected x /\ (forall a n, (a, n) ∈ e_maps x -> tc (parent_of x) n (e_root x)) /\ e_tree x <> [] /\ e_maps x <> [].
Proof.
  exists (demo_plus [ORemChildL 1 13 14]).
  assert (exists x, w_envs (demo_plus [ORemChildL 1 13 14]) !! 1%positive = Some x /\ e_tree x = [(11, 10); (12, 11)]%positive /\ e_maps x = [(13, 12)]%positive /\
    e_layers x = [] /\ e_root x = 10%positive /\ e_handlers x = [100]%positive) as (x&Hx&Ht&Hm&Hl&Hr&Hh) by vmdec.
  eexists x, (Mir _ _ _ _). split; [apply demo_plus_reachable|]. split; [done|]. clear Hx. rewrite Hh, Hl, Hr. split; [left|].
  split; [unfold mirrors; cbn [m_items m_tree m_maps m_layers]; repeat (split; [reflexivity|]); reflexivity|]. split; [done|].
  assert (P1 : parent_of x 11 10) by (unfold parent_of; rewrite Ht; left).
  assert (P2 : parent_of x 12 11) by (unfold parent_of; rewrite Ht; right; left).
  split; [|split; [|by rewrite Ht, Hm]].
  - intros c p H. unfold parent_of in H. rewrite Ht in H. rewrite Hr. apply elem_of_cons in H as [[= -> ->]|H]; [constructor|].
    apply elem_of_list_singleton in H as [= -> ->]. by apply rtc_once.
  - intros a n H. rewrite Hm in H. apply elem_of_list_singleton in H as [= -> ->]. eapply tc_l; [done|by constructor].
Qed.

(** Without the conditions the claim is false: a map on the root node is removed although its placement is not taken back. *)
Lemma bad_replay (m : mirror) es : match replay m es with Some _ => false | None => true end = true -> replay m es = None.
Proof. by destruct (replay m es). Qed.
Definition c17_bad : list op := [ONewEnv 3 30; OAddHandler 3 300; ONew 31 KMap "" 1; OAttachMap 3 31 (Some 30%positive)].
Theorem C17_refuted : exists w w' t, reachable w /\ step w (ORemHandler 3 300) = Ok w' /\ w_tr w' = w_tr w ++ t /\
  (exists m, replay mirror0 (received 3 300 (w_tr w)) = Some m) /\ replay mirror0 (received 3 300 (w_tr w')) = None.
Proof.
  exists (demo_plus c17_bad). assert (exists w', step (demo_plus c17_bad) (ORemHandler 3 300) = Ok w' /\
    match replay mirror0 (received 3 300 (w_tr w')) with Some _ => false | None => true end = true) as (w'&Hs&Hr%bad_replay).
  { eapply ok_step. vmtrue. }
  pose proof (steps_eff (demo_plus c17_bad) (ORemHandler 3 300) w' (reachable_inv _ (demo_plus_reachable _)) Logic.I (or_introl Hs)) as HE.
  destruct (ef_tr _ _ _ HE) as (t&Ht&_).
  exists w', t. split; [apply demo_plus_reachable|]. split; [exact Hs|]. split; [exact Ht|]. split; [|exact Hr]. clear -t.
  destruct (replay mirror0 (received 3 300 (w_tr (demo_plus c17_bad)))) eqn:H; [eauto|]. exfalso.
  assert (G : match replay mirror0 (received 3 300 (w_tr (demo_plus c17_bad))) with Some _ => true | None => false end = true) by vmtrue.
  rewrite H in G. discriminate.
Qed.

(** ** C18 *)
(** the item with this id was announced and not taken back yet *)
Definition announced (es : list event) (id : string) : Prop :=
  exists es1 c v es2, es = es1 ++ Ev EItem EAdd id c v :: es2 /\ forall b, Ev EItem ERemove id b None ∉ es2.
Definition is_link (t : etype) : bool := match t with ETree | EFrame | ELayer => true | _ => false end.

Definition links_known (m : mirror) : Prop :=
  (forall c p, m_tree m !! c = Some p -> is_Some (m_items m !! c) /\ is_Some (m_items m !! p)) /\
  (forall c p, m_maps m !! c = Some p -> is_Some (m_items m !! c) /\ is_Some (m_items m !! p)) /\
  (forall c p, (c, p) ∈ m_layers m -> is_Some (m_items m !! c) /\ is_Some (m_items m !! p)).
Lemma known_some f m id : known f m id -> is_Some (m_items m !! id).
Proof. unfold known. destruct (m_items m !! id); [by eexists|done]. Qed.
Lemma announced_nil id : ~ announced [] id.
Proof. intros (es1&c&v&es2&H&_). by destruct es1. Qed.
Lemma announced_other es ev id : announced es id -> (forall b, ev <> Ev EItem ERemove id b None) -> announced (es ++ [ev]) id.
Proof.
  intros (es1&c&v&es2&->&H) Hne. exists es1, c, v, (es2 ++ [ev]). split; [by rewrite <-app_assoc|]. intros b Hb.
  apply elem_of_app in Hb as [Hb|Hb]; [by eapply H|]. apply elem_of_list_singleton in Hb. by eapply Hne.
Qed.
Lemma announced_snoc es ev id : announced (es ++ [ev]) id -> announced es id \/ exists c v, ev = Ev EItem EAdd id c v.
Proof.
  intros (es1&c&v&es2&Heq&H). destruct es2 as [|z es2 _] using rev_ind.
  - apply app_inj_tail in Heq as [-> ->]. right. by eexists _, _.
  - rewrite app_comm_cons, app_assoc in Heq. apply app_inj_tail in Heq as [-> ->]. left. exists es1, c, v, es2. split; [done|]. intros b Hb. apply (H b). set_solver.
Qed.
Lemma mstep_links m ev m' : links_known m -> mstep m ev = Some m' -> links_known m' /\
  (is_link (ev_type ev) = true -> is_Some (m_items m !! ev_a ev) /\ is_Some (m_items m !! ev_b ev)) /\
  match ev_type ev, ev_op ev with
  | EItem, EAdd => m_items m !! ev_a ev = None /\ is_Some (m_items m' !! ev_a ev) /\ forall id, id <> ev_a ev -> m_items m' !! id = m_items m !! id
  | EItem, ERemove => ev_item ev = None /\ is_Some (m_items m !! ev_a ev) /\ m_items m' = delete (ev_a ev) (m_items m)
  | _, _ => forall id, is_Some (m_items m' !! id) <-> is_Some (m_items m !! id)
  end.
Proof.
  intros (L1&L2&L3). destruct ev as [ty op a b it]. unfold mstep. cbn [ev_type ev_op ev_a ev_b ev_item is_link].
  assert (Hins : forall v id, is_Some (m_items m !! id) -> is_Some (<[a:=v]> (m_items m) !! id)).
  { intros v id ?. destruct (decide (id = a)) as [->|]; [rewrite lookup_insert; by eexists|by rewrite lookup_insert_ne]. }
  destruct ty, op, it as [v|]; try done; try (destruct (second_id _); [done|]); (case_decide as D; [|done]); intros [= <-]; cbn [m_items m_tree m_maps m_layers].
  - split; [|split; [done|]].
    + repeat split; naive_solver.
    + split; [done|]. split; [rewrite lookup_insert; by eexists|]. intros id ?. by rewrite lookup_insert_ne.
  - destruct D as [Dk (D1&D2&D3&D4&D5)]. split; [|split; [done|]].
    + assert (Hdel : forall id, id <> a -> is_Some (m_items m !! id) -> is_Some (delete a (m_items m) !! id)) by (intros; by rewrite lookup_delete_ne).
      split; [|split]; cbn [m_items m_tree m_maps m_layers].
      * intros c p Hcp. destruct (L1 c p Hcp). split; apply Hdel; try done; [congruence|]. by apply (D2 c p).
      * intros c p Hcp. destruct (L2 c p Hcp). split; apply Hdel; try done; [congruence|]. by apply (D4 c p).
      * intros c p Hcp. destruct (L3 c p Hcp). rewrite Forall_forall in D5. destruct (D5 _ Hcp). split; by apply Hdel.
    + split; [done|]. split; [by apply known_some in Dk|done].
  - apply known_some in D. split; [|split; [done|]].
    + repeat split; naive_solver.
    + intros id. split; [|apply Hins]. destruct (decide (id = a)) as [->|]; [done|by rewrite lookup_insert_ne].
  - destruct D as (D1%known_some&D2%known_some&D3). split; [|split; [done|done]]. split; [|split]; cbn [m_items m_tree m_maps m_layers]; try done.
    intros c p [[<- <-]|[_ Hcp]]%lookup_insert_Some; [done|by apply L1].
  - destruct (L1 _ _ D). split; [|done]. split; [|split]; cbn [m_items m_tree m_maps m_layers]; try done.
    intros c p [_ Hcp]%lookup_delete_Some. by apply L1.
  - destruct D as (D1%known_some&D2%known_some&D3). split; [|split; [done|done]]. split; [|split]; cbn [m_items m_tree m_maps m_layers]; try done.
    intros c p [[<- <-]|[_ Hcp]]%lookup_insert_Some; [done|by apply L2].
  - destruct (L2 _ _ D). split; [|done]. split; [|split]; cbn [m_items m_tree m_maps m_layers]; try done.
    intros c p [_ Hcp]%lookup_delete_Some. by apply L2.
  - destruct D as (D1%known_some&D2%known_some). split; [|split; [done|done]]. split; [|split]; cbn [m_items m_tree m_maps m_layers]; try done.
    intros c p [[= -> ->]|Hcp]%elem_of_cons; [done|by apply L3].
  - destruct D as (D1%known_some&D2%known_some). split; [|split; [done|done]]. split; [|split]; cbn [m_items m_tree m_maps m_layers]; try done.
    intros c p Hcp. apply L3. by apply elem_of_del_one in Hcp.
  - done.
  - done.
Qed.

Lemma replay_announced es : forall m, replay mirror0 es = Some m -> links_known m /\ forall id, is_Some (m_items m !! id) <-> announced es id.
Proof.
  induction es as [|ev es IH] using rev_ind; intros m Hm.
  - injection Hm as <-. split; [split; [|split]; simpl; intros c p H; by apply lookup_empty_Some in H || by apply elem_of_nil in H|].
    intros id. split; [intros [? H]; simpl in H; by apply lookup_empty_Some in H|by intros ?%announced_nil].
  - destruct (replay mirror0 es) as [m1|] eqn:Hm1.
    2: { exfalso. revert Hm Hm1. generalize mirror0. clear. induction es as [|z es IH]; intros m0; [done|]. simpl. destruct (mstep m0 z); [apply IH|done]. }
    rewrite (replay_app _ _ _ _ Hm1) in Hm. simpl in Hm. destruct (mstep m1 ev) as [m2|] eqn:H2; [|done]. injection Hm as <-.
    destruct (IH m1 eq_refl) as [L1 A1]. destruct (mstep_links _ _ _ L1 H2) as (L2&_&HI). split; [done|]. intros id.
    destruct ev as [ty op a b it]. cbn [ev_type ev_op ev_a ev_b ev_item] in HI.
    assert (Hsame : (forall id, is_Some (m_items m2 !! id) <-> is_Some (m_items m1 !! id)) -> (ty, op) <> (EItem, EAdd) -> (ty, op) <> (EItem, ERemove) ->
      is_Some (m_items m2 !! id) <-> announced (es ++ [Ev ty op a b it]) id).
    { intros Hs N1 N2. rewrite Hs, A1. split.
      - intros Ha. apply announced_other; [done|]. intros c Heq. apply N2. congruence.
      - intros [Ha|(c&v&Heq)]%announced_snoc; [done|]. exfalso. apply N1. congruence. }
    destruct ty, op; try (apply Hsame; done).
    + destruct HI as (H1&H3&H4). destruct (decide (id = a)) as [->|Hne].
      * split; [intros _|done]. exists es, b, it, []. split; [done|]. intros c Hc. by apply elem_of_nil in Hc.
      * rewrite H4, A1 by done. split; [intros; apply announced_other; [done|]; intros; congruence|].
        intros [Ha|(c&v&Heq)]%announced_snoc; [done|]. congruence.
    + destruct HI as (->&H3&->). destruct (decide (id = a)) as [->|Hne].
      * rewrite lookup_delete. split; [by intros []|]. intros (es1&c&v&es2&Heq&Hn). exfalso. destruct es2 as [|z es2 _] using rev_ind.
        -- apply app_inj_tail in Heq as [_ Heq]. congruence.
        -- rewrite app_comm_cons, app_assoc in Heq. apply app_inj_tail in Heq as [_ <-]. apply (Hn b). set_solver.
      * rewrite lookup_delete_ne, A1 by done. split; [intros; apply announced_other; [done|]; intros; congruence|].
        intros [Ha|(c&v&Heq)]%announced_snoc; [done|]. congruence.
Qed.

(** what an event in the middle of a stream may refer to *)
Definition fits (before : list event) (ev : event) : Prop :=
  match ev_type ev, ev_op ev with
  | EItem, EAdd => ~ announced before (ev_a ev)
  | EItem, _ => announced before (ev_a ev)
  | ERoot, _ => announced before (ev_a ev)
  | _, _ => announced before (ev_a ev) /\ announced before (ev_b ev)
  end.
Lemma replay_fits es1 ev es2 m : replay mirror0 (es1 ++ ev :: es2) = Some m -> fits es1 ev.
Proof.
  intros H. assert (exists m1, replay mirror0 es1 = Some m1) as [m1 Hm1].
  { revert H. generalize mirror0. clear. induction es1 as [|z es1 IH]; intros m0; simpl; [eauto|]. destruct (mstep m0 z); [apply IH|done]. }
  rewrite (replay_app _ _ _ _ Hm1) in H. simpl in H. destruct (mstep m1 ev) as [m2|] eqn:H2; [|done].
  destruct (replay_announced _ _ Hm1) as [L1 A1]. destruct (mstep_links _ _ _ L1 H2) as (_&HL&HI).
  destruct ev as [ty op a b it]. unfold fits. cbn [ev_type ev_op ev_a ev_b ev_item is_link] in *.
  destruct ty, op; rewrite <-!A1; try (by apply HL); try (by destruct HI as (?&?&?)).
  - destruct HI as (-> & _). by intros [].
  - unfold mstep in H2. cbn [ev_type ev_op ev_a ev_b ev_item] in H2. destruct it; [|done]. destruct (second_id _); [done|]. case_decide as D; [|done]. by apply known_some in D.
  - unfold mstep in H2. cbn [ev_type ev_op ev_a ev_b ev_item] in H2. destruct it; [done|]. destruct (second_id _); [done|]. case_decide as D; [|done]. by apply known_some in D.
  - unfold mstep in H2. cbn [ev_type ev_op ev_a ev_b ev_item] in H2. destruct it; [done|]. destruct (second_id _); [done|]. case_decide as D; [|done]. by apply known_some in D.
Qed.

(** All events of a listener registered from the beginning only refer to items that are announced and not taken back, and
    no item is announced twice. *)
Theorem C18_announced w0 w1 w2 w3 e r h os :
  reachable w0 -> step w0 (ONewEnv e r) = Ok w1 -> step w1 (OAddHandler e h) = Ok w2 -> history w2 os w3 -> Forall (hands_off e h) os ->
  exists t, w_tr w3 = w_tr w1 ++ t /\
    forall es1 ev es2, received e h t = es1 ++ ev :: es2 -> fits es1 ev.
Proof.
  intros HW H1 H2 HH Ho. destruct (C15_mirror _ _ _ _ _ _ _ _ HW H1 H2 HH Ho) as (x&t&m&_&Ht&Hr&_).
  exists t. split; [done|]. intros es1 ev es2 Heq. rewrite Heq in Hr. by eapply replay_fits.
Qed.
(** the hypotheses are those of C15 (see C15_nonvacuous); the stream of the demo contains all kinds of link events *)
Example C18_nonvacuous : forallb (fun t => existsb (fun ev => bool_decide (ev_type ev = t)) (received 1 100 (w_tr demo_world))) [EItem; ETree; EFrame; ELayer; ERoot] = true.
Proof. vmtrue. Qed.

(** ** C19 *)
Lemma history_snoc w os w1 o w2 : history w os w1 -> legal w1 o -> steps_to w1 o w2 -> history w (os ++ [o]) w2.
Proof. intros H. induction H as [w|w o' w' os w1 HL Hs HH IH]; intros; simpl; econstructor; eauto using history. Qed.
(** [es] is delivered to all of [hs], one event after the other, and each to the handlers in order *)
Definition delivered (e : eid) (hs : list hid) (es : list event) : list delivery :=
  mjoin ((fun ev => (fun h => Dl e h ev) <$> hs) <$> es).
Lemma deliver_delivered e hs es : deliver e hs es = delivered e hs es.
Proof. unfold deliver, delivered. induction es as [|ev es IH]; [done|]. rewrite bind_cons, fmap_cons. simpl. f_equal. apply IH. Qed.
Theorem C19_delivery w o w' e x x' :
  reachable w -> legal w o -> steps_to w o w' -> w_envs w !! e = Some x -> w_envs w' !! e = Some x' ->
  exists t es, w_tr w' = w_tr w ++ t /\
    (e_handlers x' = e_handlers x /\ filter (fun d => d_env d = e) t = delivered e (e_handlers x) es \/
     (exists h, o = OAddHandler e h /\ e_handlers x' = e_handlers x ++ [h] /\ filter (fun d => d_env d = e) t = delivered e [h] es) \/
     (exists h, o = ORemHandler e h /\ e_handlers x' = filter (fun k => k <> h) (e_handlers x) /\ filter (fun d => d_env d = e) t = delivered e [h] es)).
Proof.
  intros HW HL Hs Hx Hx'. pose proof (steps_eff _ _ _ (reachable_inv _ HW) HL Hs) as HE. destruct (ef_tr _ _ _ HE) as (t&Ht&HT). exists t.
  destruct (HT e x x' Hx Hx') as [(Hhs&es&Hf&Hr)|(k&Hhp&[(->&->&Hf)|(->&->&Hf)])].
  - exists es. rewrite <-deliver_delivered. auto.
  - eexists. split; [done|]. right. left. exists k. rewrite <-deliver_delivered. done.
  - eexists. split; [done|]. right. right. exists k. rewrite <-deliver_delivered. done.
Qed.
(** A handler that is not registered is told nothing until it is registered. *)
Theorem C19_silent w os w' e x h : reachable w -> history w os w' -> w_envs w !! e = Some x -> h ∉ e_handlers x ->
  Forall (fun o => o <> OAddHandler e h /\ o <> ORemHandler e h /\ o <> ODelEnv e) os -> exists t, w_tr w' = w_tr w ++ t /\ received e h t = [].
Proof.
  intros HW HH. apply reachable_inv in HW. revert x HW. induction HH as [w|w o w1 os w' HL Hs HH IH]; intros x HW Hx Hh Ho.
  - exists []. by rewrite app_nil_r.
  - apply Forall_cons in Ho as [(N1&N2&N3) Ho]. pose proof (steps_eff _ _ _ HW HL Hs) as HE. destruct (ef_tr _ _ _ HE) as (t&Ht&HT).
    destruct (ef_dom _ _ _ HE e) as [x1 Hx1]; [by eexists|done|].
    assert (received e h t = [] /\ h ∉ e_handlers x1) as [Hr1 Hh1].
    { destruct (HT e x x1 Hx Hx1) as [(Hhs&es&Hf&Hr)|(k&Hhp&[(->&->&Hf)|(->&->&Hf)])].
      - rewrite Hhs. split; [by apply (received_never e h _ _ _ Hf)|done].
      - assert (k <> h) by congruence. split; [apply (received_never e h _ _ _ Hf); set_solver|]. simpl. set_solver.
      - assert (k <> h) by congruence. split; [apply (received_never e h _ _ _ Hf); set_solver|]. simpl. rewrite elem_of_list_filter. tauto. }
    destruct (IH x1 (ef_inv _ _ _ HE) Hx1 Hh1 Ho) as (t2&Ht2&Hr2). exists (t ++ t2). rewrite Ht2, Ht, app_assoc. split; [done|].
    by rewrite received_app, Hr1, Hr2.
Qed.
(** In particular after unregistration. *)
Theorem C17_no_further_events w w1 os w' e x h :
  reachable w -> w_envs w !! e = Some x -> step w (ORemHandler e h) = Ok w1 -> history w1 os w' ->
  Forall (fun o => o <> OAddHandler e h /\ o <> ORemHandler e h /\ o <> ODelEnv e) os -> exists t, w_tr w' = w_tr w1 ++ t /\ received e h t = [].
Proof.
  intros HW Hx Hs HH Ho. assert (HW1 : reachable w1).
  { destruct HW as (os0&H0). exists (os0 ++ [ORemHandler e h]). eapply history_snoc; [done|done|by left]. }
  destruct (reach_parts _ _ _ HW Hx) as (I&[R _]&A).
  pose proof (remove_handler_ok e h (St (w_heap w) x (w_tr w)) I A (has_any _ _ _ _ R)) as Hok.
  assert (Hs' := Hs). cbn [step] in Hs'. unfold on_env, focus in Hs'. rewrite Hx, Hok in Hs'. injection Hs' as <-.
  eapply C19_silent; [done|done|cbn [w_envs unfocus]; by rewrite lookup_insert|cbn [en e_handlers with_handlers]; rewrite elem_of_list_filter; tauto|done].
Qed.

(** The events of the destruction go to all handlers. *)
Theorem C19_destroy w e x : reachable w -> w_envs w !! e = Some x ->
  exists w' es, step w (ODelEnv e) = Ok w' /\ w_tr w' = w_tr w ++ delivered e (e_handlers x) es.
Proof.
  intros HW Hx. destruct (reach_parts _ _ _ HW Hx) as (I&R&A).
  destruct (detach_all_ok e (length (e_items x)) _ I) as (D&s'&Hok&HR&Hnil&HD); [done|].
  pose proof (r_good _ _ _ _ HR) as HG. destruct (g_tr _ _ _ _ HG) as (es&Htr&Hrep). simpl in Htr, Hrep.
  eexists _, es. split. { cbn [step]. unfold del_env, on_env, focus. rewrite Hx. cbn [en]. rewrite Hok. reflexivity. }
  cbn [w_tr unfocus]. by rewrite <-deliver_delivered.
Qed.
(** two handlers on the demo environment and an operation that tells both of them two events *)
Definition c19_ops : list op := [OAddHandler 1 101; OAddHandler 1 102; ORemHandler 1 101].
Example C19_nonvacuous : reachable (demo_plus c19_ops) /\ (exists x, w_envs (demo_plus c19_ops) !! 1%positive = Some x /\ e_handlers x = [100; 102]%positive) /\
  legal (demo_plus c19_ops) (OSetVal 12 70) /\
  exists w', step (demo_plus c19_ops) (OSetVal 12 70) = Ok w' /\ (fun d => d_handler d) <$> drop (length (w_tr (demo_plus c19_ops))) (w_tr w') = [100; 102]%positive.
Proof.
  split; [apply demo_plus_reachable|]. split; [vmdec|]. split; [done|]. eapply ok_step. vmtrue.
Qed.
