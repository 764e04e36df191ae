(** Every legal operation keeps every environment well-formed, informs the handlers, keeps ids of attached
    items and keeps items alive that somebody holds; and it is free of undefined behaviour if [valid]. *)
From stdpp Require Import prelude strings gmap pretty relations.
From Verif Require Import Base AssocLemmas EnvModel EnvSpec EnvLib EnvGood EnvAttach EnvLinks EnvLinks2 EnvDetach EnvDeep EnvHandlers EnvWorld.

Definition ids_ok (w w' : world) : Prop := forall q it it' e,
  w_heap w !! q = Some it -> w_heap w' !! q = Some it' -> it_env it = Some e -> it_env it' = Some e -> it_id it' = it_id it.

(** handler [h] was registered with or removed from environment [e]; only [h] is told *)
Definition handler_op (o : op) (w w' : world) (t : list delivery) (e : eid) (x x' : env) : Prop :=
  exists h, w_heap w' = w_heap w /\
    ((o = OAddHandler e h /\ x' = with_handlers x (e_handlers x ++ [h]) /\
      filter (fun d => d_env d = e) t = deliver e [h] (reg_events (w_heap w) x)) \/
     (o = ORemHandler e h /\ x' = with_handlers x (filter (fun k => k <> h) (e_handlers x)) /\
      filter (fun d => d_env d = e) t = deliver e [h] (unreg_events (w_heap w) x))).

Record Eff (w : world) (o : op) (w' : world) : Prop := {
  ef_inv : WInv w';
  ef_kind : forall q it it', w_heap w !! q = Some it -> w_heap w' !! q = Some it' -> it_kind it' = it_kind it;
  ef_held : forall q it, w_heap w !! q = Some it -> it_user it <> 0 -> o <> ORelease q -> is_Some (w_heap w' !! q);
  ef_ids : ids_ok w w';
  ef_dom : forall e, is_Some (w_envs w !! e) -> o <> ODelEnv e -> is_Some (w_envs w' !! e);
  ef_tr : exists t, w_tr w' = w_tr w ++ t /\
      forall e x x', w_envs w !! e = Some x -> w_envs w' !! e = Some x' ->
        told w w' t e x x' \/ handler_op o w w' t e x x';
}.

Lemma Eff_of_Facts0 d w o w' : Facts d w w' -> ids_ok w w' -> Eff w o w'.
Proof.
  intros HF Hids. constructor; [apply HF| |intros q it ? ? _; eapply HF; eauto|done| |].
  - intros q it it' H1 H2. destruct (fa_old _ _ _ HF _ _ H2) as (it0&?&?&?). congruence.
  - intros e He _. by apply (fa_dom _ _ _ HF).
  - destruct (fa_tr _ _ _ HF) as (t&Ht&HT). exists t. split; [done|]. intros e x x' H1 H2. left. by apply HT.
Qed.
Lemma Eff_of_Facts b w o w' : Facts (Some b) w w' -> Eff w o w'.
Proof.
  intros HF. eapply Eff_of_Facts0; [done|]. intros q it it' e H1 H2 H3 H4. pose proof (fa_ids _ _ _ HF) as Hi. destruct b.
  - by eapply Hi.
  - destruct (Hi _ _ _ H1 H3) as (it2&?&?&?). congruence.
Qed.

(** ** Operations that only change the heap *)
Lemma quiet w h' :
  WInv w -> (forall e, is_Some (w_envs w !! e) -> same_view e (w_heap w) h' /\ same_val e (w_heap w) h') ->
  (forall p it, h' !! p = Some it -> it_refs it = it_user it + match it_env it with Some _ => 1 | None => 0 end) ->
  (forall p it e, h' !! p = Some it -> it_env it = Some e -> is_Some (w_envs w !! e)) ->
  WInv (World h' (w_envs w) (w_tr w)) /\
  exists t, w_tr w = w_tr w ++ t /\ forall e x x', w_envs w !! e = Some x -> w_envs w !! e = Some x' ->
     told w (World h' (w_envs w) (w_tr w)) t e x x'.
Proof.
  intros HW HS Hr Ho. split.
  - constructor; simpl; [|done|done]. intros e x Hx. destruct (winv_parts _ _ _ HW Hx) as (I&(R&P)&A).
    destruct (HS e) as [HS1 HS2]; [eauto|]. split; [by eapply Inv_other|]. split; [|done]. split; [|done]. by eapply has_same.
  - exists []. split; [by rewrite app_nil_r|]. intros e x x' Hx Hx'. simplify_eq. split; [done|]. exists []. split; [done|].
    intros m Hm. exists m. split; [done|]. destruct (HS e) as [HS1 HS2]; [eauto|]. simpl.
    eapply mirrors_same; [apply (winv_parts _ _ _ HW Hx)|done|done|done].
Qed.

Lemma same_at_fresh e h p it : h !! p = None -> it_env it <> Some e -> same_at e h (<[p := it]> h).
Proof.
  intros Hp He q it' Hq. destruct (decide (q = p)) as [->|Hne].
  - rewrite lookup_insert. split; intros; congruence.
  - by rewrite lookup_insert_ne.
Qed.
Lemma same_view_put e h p it it' : h !! p = Some it -> vw it' = vw it -> same_view e h (<[p := it']> h).
Proof.
  intros Hp Hv. split.
  - intros q i Hq He. destruct (decide (q = p)) as [->|Hne].
    + rewrite lookup_insert. assert (i = it) as -> by congruence. by exists it'.
    + rewrite lookup_insert_ne by done. by exists i.
  - intros q i Hq He. destruct (decide (q = p)) as [->|Hne].
    + rewrite lookup_insert in Hq. assert (i = it') as -> by congruence. by exists it.
    + rewrite lookup_insert_ne in Hq by done. by exists i.
Qed.
Lemma same_val_put e h p it it' : h !! p = Some it -> it_val it' = it_val it -> same_val e h (<[p := it']> h).
Proof.
  intros Hp Hv q i Hq He. destruct (decide (q = p)) as [->|Hne].
  - rewrite lookup_insert. simplify_eq. simpl. by f_equal.
  - rewrite lookup_insert_ne by done. by rewrite Hq.
Qed.
Lemma same_at_loose e h p it it' : h !! p = Some it -> it_env it <> Some e -> it_env it' <> Some e -> same_at e h (<[p := it']> h).
Proof.
  intros Hp H1 H2 q i He. destruct (decide (q = p)) as [->|Hne].
  - rewrite lookup_insert. split; intros; congruence.
  - by rewrite lookup_insert_ne.
Qed.
Lemma same_at_delete e h p it : h !! p = Some it -> it_env it <> Some e -> same_at e h (delete p h).
Proof.
  intros Hp H1 q i He. destruct (decide (q = p)) as [->|Hne].
  - rewrite lookup_delete. split; intros; congruence.
  - by rewrite lookup_delete_ne.
Qed.

Lemma quiet_eff w o h' :
  WInv w -> (forall e, is_Some (w_envs w !! e) -> same_view e (w_heap w) h' /\ same_val e (w_heap w) h') ->
  (forall p it, h' !! p = Some it -> it_refs it = it_user it + match it_env it with Some _ => 1 | None => 0 end) ->
  (forall p it e, h' !! p = Some it -> it_env it = Some e -> is_Some (w_envs w !! e)) ->
  (forall q it it', w_heap w !! q = Some it -> h' !! q = Some it' -> it_kind it' = it_kind it) ->
  (forall q it, w_heap w !! q = Some it -> it_user it <> 0 -> o <> ORelease q -> is_Some (h' !! q)) ->
  Eff w o (World h' (w_envs w) (w_tr w)).
Proof.
  intros HW HS Hr Ho Hk Hh. destruct (quiet w h' HW HS Hr Ho) as [HW' (t&Ht&HT)]. constructor; simpl; try done.
  - intros q it it' e H1 H2 H3 H4. simpl in *. destruct (HS e) as [[HS1 _] _]; [by eapply (winv_owner _ HW)|].
    destruct (HS1 q it H1 H3) as (it2&H5&H6). unfold vw in H6. simplify_eq. done.
  - exists t. split; [done|]. intros e x x' H1 H2. left. by apply HT.
Qed.

Section step.
Context (E : Prop).
Local Notation WP := (wp E).

Lemma new_item_wp p k id v w : WInv w -> E \/ w_heap w !! p = None ->
  WP (new_item p k id v w) (Eff w (ONew p k id v)) (Eff w (ONew p k id v)).
Proof.
  intros HW HE. unfold new_item. destruct (w_heap w !! p) eqn:Hp; simpl; [destruct HE; [done|congruence]|].
  apply quiet_eff; [done|..].
  - intros e _. assert (same_at e (w_heap w) (<[p := Item k id None v 0 0]> (w_heap w))) by (by apply same_at_fresh).
    split; [by apply same_at_view|by apply same_at_val].
  - intros q it Hq. apply lookup_insert_Some in Hq as [[<- <-]|[Hne Hq]]; [done|]. by apply (winv_refs _ HW) in Hq.
  - intros q it e Hq He. apply lookup_insert_Some in Hq as [[<- <-]|[Hne Hq]]; [done|]. by eapply (winv_owner _ HW).
  - intros q it it' H1 H2. apply lookup_insert_Some in H2 as [[<- <-]|[Hne Hq]]; congruence.
  - intros q it H1 _ _. rewrite lookup_insert_ne; [eauto|congruence].
Qed.
Lemma wderef_wp p w (k : item -> W) Q X : E \/ kind_ok any w p ->
  (forall it, w_heap w !! p = Some it -> WP (k it) Q X) -> WP (wderef p w k) Q X.
Proof.
  intros HE Hk. unfold wderef. destruct (w_heap w !! p) eqn:Hp; [by apply Hk|]. simpl.
  destruct HE as [|(it&?&?)]; [done|congruence].
Qed.
Lemma put_eff w o p it it' : WInv w -> w_heap w !! p = Some it -> vw it' = vw it -> it_val it' = it_val it ->
  it_refs it' + it_user it = it_refs it + it_user it' -> Eff w o (wput p it' w).
Proof.
  intros HW Hp Hv Hval Hr. unfold vw in Hv. apply quiet_eff; [done|..].
  - intros e _. split; [by eapply same_view_put|by eapply same_val_put].
  - intros q i Hq. apply lookup_insert_Some in Hq as [[<- <-]|[Hne Hq]]; [|by apply (winv_refs _ HW) in Hq].
    pose proof (winv_refs _ HW _ _ Hp). assert (it_env it' = it_env it) as -> by congruence. lia.
  - intros q i e Hq He. apply lookup_insert_Some in Hq as [[<- <-]|[Hne Hq]]; [|by eapply (winv_owner _ HW)].
    apply (winv_owner _ HW p it); [done|congruence].
  - intros q i i' H1 H2. apply lookup_insert_Some in H2 as [[<- <-]|[Hne Hq]]; congruence.
  - intros q i H1 _ _. destruct (decide (p = q)) as [->|]; [rewrite lookup_insert; eauto|]. rewrite lookup_insert_ne; eauto.
Qed.
Lemma hold_wp p w : WInv w -> E \/ kind_ok any w p ->
  WP (step w (OHold p)) (Eff w (OHold p)) (Eff w (OHold p)).
Proof.
  intros HW HE. simpl. apply wderef_wp; [done|]. intros it Hp. simpl.
  eapply put_eff; [done|done|done|done|]. simpl. lia.
Qed.
Lemma release_wp p w : WInv w -> E \/ (exists it, w_heap w !! p = Some it /\ it_user it <> 0) ->
  WP (step w (ORelease p)) (Eff w (ORelease p)) (Eff w (ORelease p)).
Proof.
  intros HW HE. simpl. unfold user_release. apply wderef_wp.
  { destruct HE as [|(it&?&?)]; [by left|right; by exists it]. }
  intros it Hp. pose proof (winv_refs _ HW _ _ Hp) as Hr. destruct (it_user it) as [|u] eqn:Hu.
  { simpl. destruct HE as [|(i&?&?)]; [done|congruence]. }
  simpl. case_decide as Hz.
  - destruct (it_env it) as [e|] eqn:He; simpl; [lia|]. apply quiet_eff; [done|..].
    + intros e _. assert (same_at e (w_heap w) (delete p (w_heap w))) by (eapply same_at_delete; [done|congruence]).
      split; [by apply same_at_view|by apply same_at_val].
    + intros q i Hq. apply lookup_delete_Some in Hq as [_ Hq]. by apply (winv_refs _ HW) in Hq.
    + intros q i e Hq. apply lookup_delete_Some in Hq as [_ Hq]. intros. by eapply (winv_owner _ HW).
    + intros q i i' H1 H2. apply lookup_delete_Some in H2 as [_ H2]. congruence.
    + intros q i H1 _ Hne. rewrite lookup_delete_ne; [eauto|congruence].
  - simpl. eapply put_eff; [done|done|done|done|]. simpl. rewrite Hu. lia.
Qed.
Lemma set_id_wp p id w : WInv w -> E \/ kind_ok any w p ->
  WP (step w (OSetId p id)) (Eff w (OSetId p id)) (fun w' => w' = w).
Proof.
  intros HW HE. simpl. apply wderef_wp; [done|]. intros it Hp. destruct (it_env it) as [e|] eqn:He; simpl; [done|].
  apply quiet_eff; [done|..].
  - intros e _. assert (same_at e (w_heap w) (<[p := with_id it id]> (w_heap w))).
    { eapply same_at_loose; [done|congruence|simpl; congruence]. }
    split; [by apply same_at_view|by apply same_at_val].
  - intros q i Hq. apply lookup_insert_Some in Hq as [[<- <-]|[Hne Hq]]; [|by apply (winv_refs _ HW) in Hq].
    apply (winv_refs _ HW) in Hp. done.
  - intros q i e Hq Hi. apply lookup_insert_Some in Hq as [[<- <-]|[Hne Hq]]; [|by eapply (winv_owner _ HW)]. simpl in *. congruence.
  - intros q i i' H1 H2. apply lookup_insert_Some in H2 as [[<- <-]|[Hne Hq]]; [|congruence]. simpl. congruence.
  - intros q i H1 _ _. destruct (decide (p = q)) as [->|]; [rewrite lookup_insert; eauto|]. rewrite lookup_insert_ne; eauto.
Qed.
End step.

(** ** Changed values *)
Lemma update_mirror e h x t p it v m :
  Inv e (St h x t) -> h !! p = Some it -> it_env it = Some e -> mirrors m h x ->
  exists m', mstep m (mk_event (<[p := with_val it v]> h) EItem EUpdate p None) = Some m' /\
             mirrors m' (<[p := with_val it v]> h) x.
Proof.
  intros HI Hp He HM. set (h' := <[p := with_val it v]> h).
  assert (HS : same_view e h h') by (by eapply same_view_put).
  pose proof HM as (M1&M2&M3&M4).
  assert (Hid : idn h' p = it_id it) by (unfold idn, h'; by rewrite lookup_insert).
  assert (Hpay : payload_of h' p = (it_kind it, v)) by (unfold payload_of, h'; by rewrite lookup_insert).
  assert (Hin : (it_id it, p) ∈ e_items x). { apply (inv_items _ _ HI). exists it. done. }
  assert (Hlook : m_items m !! it_id it = Some (it_kind it, it_val it)).
  { rewrite M1. apply elem_of_list_to_map_1.
    - rewrite <-list_fmap_compose. apply (inv_nodup _ _ HI).
    - apply elem_of_list_fmap. exists (it_id it, p). split; [|done]. simpl. unfold payload_of. by rewrite Hp. }
  eexists. split.
  - unfold mstep, mk_event. cbn [ev_type ev_op ev_item ev_a]. rewrite Hid, Hpay. rewrite decide_True; [reflexivity|].
    unfold known. rewrite Hlook. simpl. by apply bool_decide_eq_true.
  - unfold mirrors. cbn [m_items m_tree m_maps m_layers].
    rewrite !(by_id_same e h h'); [|done|apply (layers_D e _ HI)|done|apply (maps_D e _ HI)|done|apply (tree_D e _ HI)].
    split; [|done]. apply map_eq. intros id. destruct (decide (id = it_id it)) as [->|Hne].
    + rewrite lookup_insert. symmetry. apply elem_of_list_to_map_1.
      * rewrite <-list_fmap_compose. apply (inv_nodup _ _ HI).
      * apply elem_of_list_fmap. exists (it_id it, p). split; [|done]. simpl. by rewrite Hpay.
    + rewrite lookup_insert_ne by done. rewrite M1.
      change (fun ip : string * positive => (ip.1, payload_of h ip.2)) with (prod_map (@Datatypes.id string) (payload_of h)).
      change (fun ip : string * positive => (ip.1, payload_of h' ip.2)) with (prod_map (@Datatypes.id string) (payload_of h')).
      rewrite !list_to_map_fmap, !lookup_fmap. destruct (list_to_map (e_items x) !! id) as [q|] eqn:Hq; [|done].
      apply elem_of_list_to_map_2 in Hq. apply (inv_items _ _ HI) in Hq as (i2&Hi2&_&Hid2). simpl in *. f_equal.
      unfold h'. rewrite payload_insert_ne; [done|congruence].
Qed.

(** ** Environments that change silently or tell only one handler *)
Definition same_content (x y : env) : Prop :=
  e_items y = e_items x /\ e_tree y = e_tree x /\ e_layers y = e_layers x /\ e_in y = e_in x /\ e_out y = e_out x /\
  e_maps y = e_maps x /\ e_root y = e_root x.

Lemma swap_inv w e x y t : WInv w -> w_envs w !! e = Some x -> same_content x y ->
  first_char (e_prefix y) = Some slash /\ last_char (e_prefix y) = Some slash ->
  WInv (World (w_heap w) (<[e := y]> (w_envs w)) t).
Proof.
  intros HW Hx (H1&H2&H3&H4&H5&H6&H7) Hp. constructor; simpl.
  - intros e' z Hz. apply lookup_insert_Some in Hz as [[<- <-]|[Hne Hz]].
    + destruct (winv_parts _ _ _ HW Hx) as (I&(R1&R2)&A). split; [|split].
      * destruct I; constructor; simpl in *; rewrite ?H1, ?H2, ?H3, ?H4, ?H5, ?H6; done.
      * split; simpl in *; rewrite ?H7; [done|]. unfold get_parent in *. by rewrite H2.
      * intros a Ha. apply (A a). eapply tc_sub; [|done]. unfold parent_of. by rewrite H2.
    + destruct (winv_parts _ _ _ HW Hz) as (I&R&A). split; [by apply (Inv_tr _ _ t) in I|]. done.
  - intros p it e' Hq He. destruct (decide (e' = e)) as [->|]; [rewrite lookup_insert; eauto|].
    rewrite lookup_insert_ne by done. by eapply (winv_owner _ HW).
  - apply (winv_refs _ HW).
Qed.
Lemma swap_eff w o e x y t : WInv w -> w_envs w !! e = Some x -> same_content x y ->
  first_char (e_prefix y) = Some slash /\ last_char (e_prefix y) = Some slash ->
  (forall d, d ∈ t -> d_env d = e) ->
  (t = [] /\ e_handlers y = e_handlers x) \/
    handler_op o w (World (w_heap w) (<[e := y]> (w_envs w)) (w_tr w ++ t)) t e x y ->
  Eff w o (World (w_heap w) (<[e := y]> (w_envs w)) (w_tr w ++ t)).
Proof.
  intros HW Hx HC Hp Ht Ho. constructor; simpl.
  - by eapply swap_inv.
  - congruence.
  - eauto.
  - intros q it it' e' H1 H2. simpl in *. congruence.
  - intros e' He' _. destruct (decide (e' = e)) as [->|]; [rewrite lookup_insert; eauto|by rewrite lookup_insert_ne].
  - exists t. split; [done|]. intros e' z z' Hz Hz'. destruct (decide (e' = e)) as [->|Hne].
    + rewrite lookup_insert in Hz'. simplify_eq. destruct Ho as [[-> Hh]|Ho]; [left|by right].
      split; [done|]. exists []. split; [done|]. intros m (M1&M2&M3&M4). exists m. split; [done|]. simpl.
      destruct HC as (H1&H2&H3&_&_&H6&_). unfold mirrors. by rewrite H1, H2, H3, H6.
    + rewrite lookup_insert_ne in Hz' by done. simplify_eq. left. split; [done|]. exists []. split.
      * apply list_filter_none. intros d Hd. rewrite (Ht d Hd). congruence.
      * intros m Hm. by exists m.
Qed.

Lemma deliver_env e hs es d : d ∈ deliver e hs es -> d_env d = e.
Proof. intros Hd. unfold deliver in Hd. apply elem_of_list_bind in Hd as (ev&Hd&_). by apply elem_of_list_fmap in Hd as (h& ->&_). Qed.

Lemma last_char_snoc a c : last_char (a +:+ String c "") = Some c.
Proof.
  induction a as [|x a IH]; [done|]. change (String x a +:+ String c "") with (String x (a +:+ String c "")). destruct a as [|y a]; [done|]. exact IH.
Qed.
Lemma norm_prefix_ok p p' : norm_prefix p = Some p' -> first_char p' = Some slash /\ last_char p' = Some slash.
Proof.
  unfold norm_prefix. destruct (first_char p) as [c|] eqn:Hc; [|done]. intros H. injection H as <-.
  set (q := if decide (c = slash) then p else "/" +:+ p).
  assert (Hq : first_char q = Some slash).
  { unfold q. case_decide; [congruence|]. done. }
  case_decide as Hl; [done|]. split; [by apply first_char_app|]. by apply last_char_snoc.
Qed.

Section step2.
Context (E : Prop).
Local Notation WP := (wp E).

Lemma on_env_cases e f w Q X : (E \/ live_env w e) ->
  (forall x, w_envs w !! e = Some x -> WP (f (St (w_heap w) x (w_tr w))) (fun s' => Q (unfocus e w s')) (fun s' => X (unfocus e w s'))) ->
  WP (on_env e f w) Q X.
Proof.
  intros HE Hf. destruct (w_envs w !! e) as [x|] eqn:Hx.
  - eapply wp_on_env; [done|by apply Hf|done|done].
  - destruct HE as [HE|[x Hx']]; [by apply wp_no_env|congruence].
Qed.

Lemma set_prefix_wp e p w : WInv w -> E \/ (live_env w e /\ p <> "") ->
  WP (step w (OSetPrefix e p)) (Eff w (OSetPrefix e p)) (fun _ => False).
Proof.
  intros HW HE. cbn [step]. destruct (norm_prefix p) as [p'|] eqn:Hp.
  - apply on_env_cases; [tauto|]. intros x Hx. simpl. unfold unfocus. simpl.
    rewrite <-(app_nil_r (w_tr w)) at 1. eapply swap_eff; [done|done|done|by eapply norm_prefix_ok|by intros ?; rewrite elem_of_nil|by left].
  - simpl. destruct HE as [|[_ Hne]]; [done|]. destruct Hne. unfold norm_prefix in Hp. destruct (first_char p) eqn:Hc; [done|].
    destruct p; [done|]. discriminate.
Qed.
Lemma add_handler_wp e h w : WInv w -> E \/ live_env w e ->
  WP (step w (OAddHandler e h)) (Eff w (OAddHandler e h)) (fun _ => False).
Proof.
  intros HW HE. cbn [step]. apply on_env_cases; [done|]. intros x Hx. destruct (winv_parts _ _ _ HW Hx) as (I&[R _]&A).
  rewrite (add_handler_ok e h _ I A (has_any _ _ _ _ R)). simpl. unfold unfocus. simpl.
  eapply swap_eff; [done|done|done|apply (inv_prefix _ _ I)|intros d; apply deliver_env|].
  right. exists h. split; [done|]. left. split; [done|]. split; [done|]. apply filter_deliver_same.
Qed.
Lemma rem_handler_wp e h w : WInv w -> E \/ live_env w e ->
  WP (step w (ORemHandler e h)) (Eff w (ORemHandler e h)) (fun _ => False).
Proof.
  intros HW HE. cbn [step]. apply on_env_cases; [done|]. intros x Hx. destruct (winv_parts _ _ _ HW Hx) as (I&[R _]&A).
  rewrite (remove_handler_ok e h _ I A (has_any _ _ _ _ R)). simpl. unfold unfocus. simpl.
  eapply swap_eff; [done|done|done|apply (inv_prefix _ _ I)|intros d; apply deliver_env|].
  right. exists h. split; [done|]. right. split; [done|]. split; [done|]. apply filter_deliver_same.
Qed.

Lemma set_val_wp p v w : WInv w -> E \/ kind_ok any w p ->
  WP (step w (OSetVal p v)) (Eff w (OSetVal p v)) (fun _ => False).
Proof.
  intros HW HE. cbn [step]. apply wderef_wp; [done|]. intros it Hp.
  set (h' := <[p := with_val it v]> (w_heap w)).
  assert (HS : forall e, same_view e (w_heap w) h') by (intros e; by eapply same_view_put).
  assert (Hr : forall q i, h' !! q = Some i -> it_refs i = it_user i + match it_env i with Some _ => 1 | None => 0 end).
  { intros q i Hq. apply lookup_insert_Some in Hq as [[<- <-]|[Hne Hq]]; [|by apply (winv_refs _ HW) in Hq].
    apply (winv_refs _ HW) in Hp. done. }
  assert (Ho : forall q i e, h' !! q = Some i -> it_env i = Some e -> is_Some (w_envs w !! e)).
  { intros q i e Hq He. apply lookup_insert_Some in Hq as [[<- <-]|[Hne Hq]]; by eapply (winv_owner _ HW). }
  assert (Hk : forall q i i', w_heap w !! q = Some i -> h' !! q = Some i' -> it_kind i' = it_kind i).
  { intros q i i' H1 H2. apply lookup_insert_Some in H2 as [[<- <-]|[Hne Hq]]; [|congruence]. simpl. congruence. }
  assert (Hh : forall q i, w_heap w !! q = Some i -> is_Some (h' !! q)).
  { intros q i H1. unfold h'. destruct (decide (p = q)) as [->|]; [rewrite lookup_insert; eauto|]. rewrite lookup_insert_ne; eauto. }
  destruct (it_env it) as [e|] eqn:He.
  - destruct (winv_owner _ HW _ _ _ Hp He) as [x Hx]. unfold on_env, focus, wput. cbn [w_envs w_heap w_tr]. rewrite Hx.
    fold h'. destruct (winv_parts _ _ _ HW Hx) as (I&(R&P)&A).
    assert (I' : Inv e (St h' x (w_tr w))) by (by eapply Inv_other).
    unfold emit. rewrite (emit_to_ok e); [|done| |done]; cycle 1.
    { exists (with_val it v). split; [apply lookup_insert|done]. }
    simpl. set (t := deliver e (e_handlers x) [mk_event h' EItem EUpdate p None]).
    constructor; simpl.
    + constructor; simpl; [|intros q i e' Hq Hi|done].
      * intros e' z Hz. apply lookup_insert_Some in Hz as [[<- <-]|[Hne Hz]].
        { split; [by apply (Inv_tr _ _ (w_tr w ++ t)) in I'|]. split; [|done]. split; [by eapply has_same|done]. }
        destruct (winv_parts _ _ _ HW Hz) as (I2&(R2&P2)&A2). split; [by eapply Inv_other|].
        split; [|done]. split; [by eapply has_same|done].
      * destruct (decide (e' = e)) as [->|]; [rewrite lookup_insert; eauto|rewrite lookup_insert_ne by done; eauto].
    + done.
    + eauto.
    + intros q i i' e' H1 H2 H3 H4. simpl in *. destruct (HS e') as [HS1 _]. destruct (HS1 q i H1 H3) as (i2&H5&H6).
      unfold vw in H6. simplify_eq. done.
    + intros e' He' _. destruct (decide (e' = e)) as [->|]; [rewrite lookup_insert; eauto|by rewrite lookup_insert_ne].
    + exists t. split; [done|]. intros e' z z' Hz Hz'. left. destruct (decide (e' = e)) as [->|Hne].
      * rewrite lookup_insert in Hz'. simplify_eq. split; [done|]. eexists. split; [by apply filter_deliver_same|].
        intros m Hm. destruct (update_mirror e _ _ _ p it v m I Hp He Hm) as (m'&Hm1&Hm2). exists m'. split; [|done].
        fold h' in Hm1. cbn [replay]. by rewrite Hm1.
      * rewrite lookup_insert_ne in Hz' by done. simplify_eq. split; [done|]. exists []. split; [by apply filter_deliver_other|].
        intros m Hm. exists m. split; [done|]. simpl. eapply mirrors_same; [apply (winv_parts _ _ _ HW Hz)|done| |done].
        intros q i Hq Hi. unfold h'. rewrite lookup_insert_ne by congruence. by rewrite Hq.
  - simpl. apply quiet_eff; [done| |done|done|done|eauto]. intros e' He'. split; [done|].
    intros q i Hq Hi. fold h'. unfold h'. rewrite lookup_insert_ne by congruence. by rewrite Hq.
Qed.
Lemma modified_wp e p w : WInv w -> in_env w e p -> E \/ live_env w e ->
  WP (step w (OModified e p)) (Eff w (OModified e p)) (fun _ => False).
Proof.
  intros HW (it&Hp&He) HE. cbn [step]. apply wderef_wp; [right; by exists it|]. intros it2 _. apply on_env_cases; [done|].
  intros x Hx. destruct (winv_parts _ _ _ HW Hx) as (I&R&A).
  unfold emit. rewrite (emit_to_ok e); [|done|by exists it|done]. simpl.
  eapply (Eff_of_Facts false). apply (lift false e w x); [done|done| |done|done].
  apply (Good_event false e (St (w_heap w) x (w_tr w)) x); [done|done|done|done|done|]. simpl. intros m Hm.
  assert (Hi : <[p := with_val it (it_val it)]> (w_heap w) = w_heap w) by (apply insert_id; rewrite Hp; by destruct it).
  destruct (update_mirror e _ _ _ p it (it_val it) m I Hp He Hm) as (m'&Hm1&Hm2). rewrite Hi in Hm1, Hm2. by exists m'.
Qed.
End step2.
