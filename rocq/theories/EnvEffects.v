(** Exact effects of the single operations of the environment: what they change, and that they change nothing else. *)
From stdpp Require Import prelude strings gmap pretty relations.
From Verif Require Import Base AssocLemmas EnvModel EnvSpec EnvLib EnvGood EnvAttach EnvLinks EnvLinks2 EnvDetach EnvDeep EnvHandlers EnvWorld EnvStep EnvStep2 EnvStep3 EnvDemo EnvProps EnvProps2.

(** ** C63: attaching under a free name *)
Theorem C63_attach_named w e x p it :
  reachable w -> w_envs w !! e = Some x -> w_heap w !! p = Some it -> it_env it = None ->
  last_char (requested (e_prefix x) (it_id it)) <> Some slash -> get_item x (requested (e_prefix x) (it_id it)) = None ->
  exists w' x', step w (OAttach e p) = Ok w' /\
    w_heap w' = <[p := Item (it_kind it) (requested (e_prefix x) (it_id it)) (Some e) (it_val it) (it_user it) (S (it_refs it))]> (w_heap w) /\
    w_envs w' = <[e := x']> (w_envs w) /\
    (forall id, get_item x' id = if decide (id = requested (e_prefix x) (it_id it)) then Some p else get_item x id) /\
    e_tree x' = e_tree x /\ e_layers x' = e_layers x /\ e_in x' = e_in x /\ e_out x' = e_out x /\ e_maps x' = e_maps x /\
    e_root x' = e_root x /\ e_prefix x' = e_prefix x /\ e_last x' = e_last x /\ e_handlers x' = e_handlers x.
Proof.
  intros HW Hx Hp He Hl Hf. destruct (reach_parts _ _ _ HW Hx) as (I&_&_). pose proof (inv_prefix _ _ I) as [Hpf _]. simpl in *.
  rewrite <-(requested_full x _ Hpf) in *. unfold get_item in *.
  cbn [step]. unfold attach_item, wderef. rewrite Hp, He. unfold on_env, focus. rewrite Hx.
  unfold attach_core, deref. cbn [hp en]. rewrite Hp, He. rewrite decide_False by done. cbn [obind hp put set_hp set_en en]. rewrite lookup_insert.
  cbn [with_id it_id]. rewrite Hf. unfold emit, emit_to, deref. cbn [hp en set_hp set_en put]. rewrite lookup_insert.
  unfold drop_temp. cbn [hp]. rewrite lookup_insert. cbn [with_refs it_refs with_env with_id]. rewrite decide_False by lia.
  eexists _, _. split; [reflexivity|]. cbn [unfocus w_heap w_envs hp en]. split; [rewrite insert_insert; reflexivity|]. split; [reflexivity|].
  cbn [with_items e_items e_tree e_layers e_in e_out e_maps e_root e_prefix e_last e_handlers]. split; [|repeat split].
  intros id. rewrite assoc_ins by done. done.
Qed.
Example C63_nonvacuous :
  let w := demo_plus [ONew 30 KLayer "new" 3] in
  reachable w /\ (exists x, w_envs w !! 1%positive = Some x /\ requested (e_prefix x) "new" = "/new" /\ get_item x "/new" = None) /\ unattached w 30 /\
  exists w', step w (OAttach 1 30) = Ok w' /\ in_env w' 1 30.
Proof.
  split; [apply demo_plus_reachable|]. split; [vmdec|]. split; [vmdec|]. eapply ok_step. vmtrue.
Qed.

(** ** C64: removing a link *)
Theorem C64_remove_child w e p c w' :
  reachable w -> step w (ORemChildF e p c) = Ok w' ->
  exists x x', w_envs w !! e = Some x /\ w_envs w' = <[e := x']> (w_envs w) /\ w_heap w' = w_heap w /\
    (get_parent x c = Some p -> get_parent x' c = None) /\ (get_parent x c <> Some p -> w' = w) /\
    (forall d, d <> c -> get_parent x' d = get_parent x d) /\
    e_items x' = e_items x /\ e_layers x' = e_layers x /\ e_in x' = e_in x /\ e_out x' = e_out x /\ e_maps x' = e_maps x.
Proof.
  intros HW Hs. cbn [step] in Hs.
  apply typed_ok in Hs as (ip&Hp&Kp&Hs). apply typed_ok in Hs as (ic&Hc&Kc&Hs). apply on_env_ok in Hs as (x&s'&Hx&Hs&->).
  destruct (reach_parts _ _ _ HW Hx) as (I&R&A). rewrite remove_child_f_eq in Hs by done. cbn [en hp tr] in Hs.
  exists x, (en s'). destruct (decide (get_parent x c = Some p)) as [Hd|Hd]; injection Hs as <-.
  - cbn [unfocus w_heap w_envs hp en with_tree e_items e_layers e_in e_out e_maps]. unfold get_parent. cbn [e_tree with_tree].
    repeat (split; [done|]). split; [intros _; by rewrite assoc_del_key, decide_True|]. split; [done|]. split; [|done].
    intros d Hne. by rewrite assoc_del_key, decide_False.
  - cbn [unfocus w_heap w_envs hp en]. split; [done|]. split; [done|]. split; [done|]. split; [done|]. split; [|done].
    intros _. destruct w as [h es t]. unfold unfocus. cbn [w_heap w_envs w_tr hp en tr] in *. by rewrite insert_id.
Qed.
Theorem C64_detach_frame w e m n w' :
  reachable w -> step w (ODetFrame e m n) = Ok w' ->
  exists x x', w_envs w !! e = Some x /\ w_envs w' = <[e := x']> (w_envs w) /\ w_heap w' = w_heap w /\
    (get_frame x m = Some n -> get_frame x' m = None) /\ (get_frame x m <> Some n -> w' = w) /\
    (forall k, k <> m -> get_frame x' k = get_frame x k) /\
    e_items x' = e_items x /\ e_tree x' = e_tree x /\ e_layers x' = e_layers x /\ e_in x' = e_in x /\ e_out x' = e_out x.
Proof.
  intros HW Hs. cbn [step] in Hs.
  apply typed_ok in Hs as (ip&Hp&Kp&Hs). apply typed_ok in Hs as (ic&Hc&Kc&Hs). apply on_env_ok in Hs as (x&s'&Hx&Hs&->).
  destruct (reach_parts _ _ _ HW Hx) as (I&R&A).
  exists x, (en s'). destruct (decide (get_frame x m = Some n)) as [Hd|Hd].
  - pose proof (detach_frame_wp False false e m n _ I) as Hwp. rewrite Hs in Hwp. destruct Hwp as (_&Hh&Hen). cbn [hp en] in Hh, Hen.
    rewrite decide_True in Hen by done. cbn [unfocus w_heap w_envs]. rewrite Hen, Hh.
    cbn [with_maps e_items e_tree e_layers e_in e_out]. unfold get_frame. cbn [e_maps with_maps].
    repeat (split; [done|]). split; [intros _; by rewrite assoc_del_key, decide_True|]. split; [done|]. split; [|done].
    intros d Hne. by rewrite assoc_del_key, decide_False.
  - unfold detach_frame in Hs. cbn [en] in Hs. rewrite decide_False in Hs by done. injection Hs as <-.
    cbn [unfocus w_heap w_envs hp en]. split; [done|]. split; [done|]. split; [done|]. split; [done|]. split; [|done].
    intros _. destruct w as [h es t]. unfold unfocus. cbn [w_heap w_envs w_tr hp en tr] in *. by rewrite insert_id.
Qed.
Example C64_nonvacuous :
  (exists w', step demo_world (ORemChildF 1 11 12) = Ok w' /\ exists x', w_envs w' !! 1%positive = Some x' /\ get_parent x' 12 = None) /\ get_parent (demo_env 1) 12 = Some 11%positive /\
  (exists w', step demo_world (ODetFrame 1 13 12) = Ok w' /\ exists x', w_envs w' !! 1%positive = Some x' /\ get_frame x' 13 = None) /\ get_frame (demo_env 1) 13 = Some 12%positive.
Proof. split; [eapply ok_step; vmtrue|]. split; [vmtrue|]. split; [eapply ok_step; vmtrue|vmtrue]. Qed.

(** ** C65: inputs and outputs of operators *)
Theorem C65_add_input w e o l w' :
  reachable w -> legal w (OAddInput e o l) -> step w (OAddInput e o l) = Ok w' ->
  exists x x', w_envs w !! e = Some x /\ w_envs w' = <[e := x']> (w_envs w) /\ in_env w' e o /\ in_env w' e l /\
    (forall o' l', l' ∈ get_inputs x' o' <-> l' ∈ get_inputs x o' \/ (o' = o /\ l' = l)) /\
    (l ∉ get_inputs x o -> length (get_inputs x' o) = S (length (get_inputs x o))) /\
    e_tree x' = e_tree x /\ e_layers x' = e_layers x /\ e_out x' = e_out x /\ e_maps x' = e_maps x.
Proof.
  intros HW (La&Lb) Hs. cbn [step] in Hs.
  apply typed_ok in Hs as (ip&Hp&Kp&Hs). apply typed_ok in Hs as (ic&Hc&Kc&Hs). apply on_env_ok in Hs as (x&s'&Hx&Hs&->).
  destruct (reach_parts _ _ _ HW Hx) as (I&R&A).
  pose proof (add_input_wp True 0 e o l _ ip ic I Hp Kp Hc Kc (free_or_at _ _ _ _ La Hp) (free_or_at _ _ _ _ Lb Hc) (or_introl Logic.I)) as Hwp.
  rewrite Hs in Hwp. destruct Hwp as (_&(i&Hi&Hie&_)&(j&Hj&Hje&_)&Ht&H1&H2&H3&H4). cbn [en] in *.
  exists x, (en s'). split; [done|]. split; [done|]. split; [by exists i|]. split; [by exists j|]. unfold get_inputs. rewrite Ht.
  split; [|split; [|done]].
  - intros o' l'. rewrite !elem_of_values_of. destruct (decide (assoc o (e_in x) = Some l)) as [Hd|Hd].
    + apply assoc_in in Hd. split; [by left|]. intros [?|[-> ->]]; done.
    + rewrite elem_of_ins. split; [intros [H|?]; [injection H as -> ->; by right|by left]|intros [?|[-> ->]]; [by right|by left]].
  - intros Hn. rewrite elem_of_values_of in Hn. rewrite decide_False by (intros Hd; by apply Hn, assoc_in).
    unfold values_of. rewrite !fmap_length. rewrite (Permutation_length (filter_Permutation _ _ _ (ins_perm plt o l (e_in x)))).
    rewrite filter_cons_True by done. done.
Qed.
Theorem C65_add_output w e o l w' :
  reachable w -> legal w (OAddOutput e o l) -> step w (OAddOutput e o l) = Ok w' ->
  exists x x', w_envs w !! e = Some x /\ w_envs w' = <[e := x']> (w_envs w) /\ in_env w' e o /\ in_env w' e l /\
    (forall o' l', l' ∈ get_outputs x' o' <-> l' ∈ get_outputs x o' \/ (o' = o /\ l' = l)) /\
    (l ∉ get_outputs x o -> length (get_outputs x' o) = S (length (get_outputs x o))) /\
    e_tree x' = e_tree x /\ e_layers x' = e_layers x /\ e_in x' = e_in x /\ e_maps x' = e_maps x.
Proof.
  intros HW (La&Lb) Hs. cbn [step] in Hs.
  apply typed_ok in Hs as (ip&Hp&Kp&Hs). apply typed_ok in Hs as (ic&Hc&Kc&Hs). apply on_env_ok in Hs as (x&s'&Hx&Hs&->).
  destruct (reach_parts _ _ _ HW Hx) as (I&R&A).
  pose proof (add_output_wp True 0 e o l _ ip ic I Hp Kp Hc Kc (free_or_at _ _ _ _ La Hp) (free_or_at _ _ _ _ Lb Hc) (or_introl Logic.I)) as Hwp.
  rewrite Hs in Hwp. destruct Hwp as (_&(i&Hi&Hie&_)&(j&Hj&Hje&_)&Ht&H1&H2&H3&H4). cbn [en] in *.
  exists x, (en s'). split; [done|]. split; [done|]. split; [by exists i|]. split; [by exists j|]. unfold get_outputs. rewrite Ht.
  split; [|split; [|done]].
  - intros o' l'. rewrite !elem_of_values_of. destruct (decide (assoc o (e_out x) = Some l)) as [Hd|Hd].
    + apply assoc_in in Hd. split; [by left|]. intros [?|[-> ->]]; done.
    + rewrite elem_of_ins. split; [intros [H|?]; [injection H as -> ->; by right|by left]|intros [?|[-> ->]]; [by right|by left]].
  - intros Hn. rewrite elem_of_values_of in Hn. rewrite decide_False by (intros Hd; by apply Hn, assoc_in).
    unfold values_of. rewrite !fmap_length. rewrite (Permutation_length (filter_Permutation _ _ _ (ins_perm plt o l (e_out x)))).
    rewrite filter_cons_True by done. done.
Qed.
(** removing one link, or all of an operator: no event, no other change *)
Theorem C65_remove w e x o l io il :
  w_envs w !! e = Some x -> w_heap w !! o = Some io -> is_op (it_kind io) = true -> w_heap w !! l = Some il -> is_layer (it_kind il) = true ->
  (exists x', step w (ORemInput e o l) = Ok (World (w_heap w) (<[e := x']> (w_envs w)) (w_tr w)) /\
     (forall o' l', l' ∈ get_inputs x' o' <-> l' ∈ get_inputs x o' /\ ~ (o' = o /\ l' = l)) /\ with_in x' (e_in x) = x) /\
  (exists x', step w (ORemOutput e o l) = Ok (World (w_heap w) (<[e := x']> (w_envs w)) (w_tr w)) /\
     (forall o' l', l' ∈ get_outputs x' o' <-> l' ∈ get_outputs x o' /\ ~ (o' = o /\ l' = l)) /\ with_out x' (e_out x) = x) /\
  (exists x', step w (ORemInputs e o) = Ok (World (w_heap w) (<[e := x']> (w_envs w)) (w_tr w)) /\
     (forall o', get_inputs x' o' = if decide (o' = o) then [] else get_inputs x o') /\ with_in x' (e_in x) = x) /\
  (exists x', step w (ORemOutputs e o) = Ok (World (w_heap w) (<[e := x']> (w_envs w)) (w_tr w)) /\
     (forall o', get_outputs x' o' = if decide (o' = o) then [] else get_outputs x o') /\ with_out x' (e_out x) = x).
Proof.
  intros Hx Ho Ko Hl Kl. cbn [step]. unfold typed, wderef. rewrite Ho, Ko, Hl, Kl. unfold on_env, focus. rewrite Hx.
  assert (Hone : forall t : list (ptr * ptr), forall o' l', l' ∈ values_of o' (del_all o l t) <-> l' ∈ values_of o' t /\ ~ (o' = o /\ l' = l)).
  { intros t o' l'. rewrite !elem_of_values_of. unfold del_all. rewrite elem_of_list_filter. split.
    - intros [H1 H2]. split; [done|]. intros [-> ->]. done.
    - intros [H1 H2]. split; [|done]. intros H. injection H as -> ->. by apply H2. }
  assert (Hall : forall t : list (ptr * ptr), forall o', values_of o' (del_key o t) = if decide (o' = o) then [] else values_of o' t).
  { intros t o'. unfold values_of, del_key. rewrite list_filter_filter. case_decide as Hd.
    - subst o'. rewrite list_filter_none; [done|]. intros kv _. tauto.
    - f_equal. apply list_filter_ext_in. intros kv _. split; [tauto|]. intros <-. split; [done|]. congruence. }
  split; [|split; [|split]]; (eexists; split; [reflexivity|]; split; [|by destruct x]).
  - intros o' l'. apply Hone.
  - intros o' l'. apply Hone.
  - intros o'. apply Hall.
  - intros o'. apply Hall.
Qed.
(** Operator::setInput, setOutput: the layer becomes the only one *)
Theorem C65_set_input w o l w' :
  reachable w -> legal w (OOpSetInput o l) -> step w (OOpSetInput o l) = Ok w' ->
  exists e x x', in_env w e o /\ w_envs w !! e = Some x /\ w_envs w' = <[e := x']> (w_envs w) /\ in_env w' e l /\
    get_inputs x' o = [l] /\ (forall o', o' <> o -> get_inputs x' o' = get_inputs x o') /\
    e_tree x' = e_tree x /\ e_layers x' = e_layers x /\ e_out x' = e_out x /\ e_maps x' = e_maps x.
Proof.
  intros HW (e&La&Lb) Hs. pose proof HW as HW0. cbn [step] in Hs.
  apply typed_ok in Hs as (io&Ho&Ko&Hs). apply typed_ok in Hs as (il&Hl&Kl&Hs).
  pose proof La as (io'&Ho'&Heo). rewrite Ho in Ho'. injection Ho' as <-.
  unfold op_set_input, wderef in Hs. rewrite Ho, Heo in Hs.
  destruct (winv_owner _ (reachable_inv _ HW) _ _ _ Ho Heo) as [x Hx].
  unfold on_env at 1, focus in Hs. rewrite Hx in Hs. cbn [remove_inputs obind] in Hs.
  set (w1 := unfocus e w _) in Hs.
  unfold op_add_input, wderef in Hs. replace (w_heap w1) with (w_heap w) in Hs by done. rewrite Ho, Heo in Hs.
  apply on_env_ok in Hs as (x1&s'&Hx1&Hs&->). cbn [en] in Hs.
  unfold w1 in Hx1. cbn [unfocus w_envs] in Hx1. rewrite lookup_insert in Hx1. injection Hx1 as <-.
  destruct (reach_parts _ _ _ HW Hx) as (I&R&A).
  assert (Hdel : assoc o (del_key o (e_in x)) = None) by (by rewrite assoc_del_key, decide_True).
  match type of Hs with (if ?d then _ else _) = _ => destruct d end; [done|].
  assert (I1 : Inv e (St (w_heap w1) (with_in x (del_key o (e_in x))) (w_tr w1))).
  { pose proof (remove_inputs_wp False false e o _ I) as Hwp. cbn in Hwp. apply (g_inv _ _ _ _ (proj1 Hwp)). }
  pose proof (add_input_wp True 0 e o l _ io il I1 Ho Ko Hl Kl (or_intror Heo) (free_or_at _ _ _ _ Lb Hl) (or_introl Logic.I)) as Hwp.
  cbn [set_en en hp] in Hs. rewrite Hs in Hwp. destruct Hwp as (_&_&(j&Hj&Hje&_)&Ht&H1&H2&H3&H4).
  cbn [en with_in e_tree e_layers e_out e_maps e_in] in *. rewrite Hdel, decide_False in Ht by done.
  exists e, x, (en s'). split; [done|]. split; [done|]. split; [unfold w1; cbn [unfocus w_envs]; by rewrite insert_insert|]. split; [by exists j|].
  assert (Hv : forall o', values_of o' (e_in (en s')) = (if decide (o' = o) then [l] else values_of o' (e_in x))).
  { intros o'. rewrite Ht. unfold values_of, del_key. case_decide as Hd.
    - subst o'. apply Permutation_singleton_r. rewrite (ins_perm plt o l). rewrite filter_cons_True by done. rewrite list_filter_filter.
      rewrite list_filter_none; [done|]. intros kv _. tauto.
    - assert (Hf : filter (fun kv : ptr * ptr => kv.1 = o') (ins plt o l (filter (fun kv => kv.1 <> o) (e_in x))) = filter (fun kv : ptr * ptr => kv.1 = o') (filter (fun kv => kv.1 <> o) (e_in x))).
      { generalize (filter (fun kv : ptr * ptr => kv.1 <> o) (e_in x)). intros t. induction t as [|[a b] t IH]; cbn [ins].
        - rewrite filter_cons_False; [done|]. cbn. congruence.
        - destruct (plt o a).
          + rewrite filter_cons_False; [done|]. cbn. congruence.
          + destruct (decide (a = o')); [rewrite !filter_cons_True by done|rewrite !filter_cons_False by done]; by rewrite IH. }
      rewrite Hf, list_filter_filter. f_equal. apply list_filter_ext_in. intros kv _. split; [tauto|]. intros <-. split; [done|]. congruence. }
  split; [unfold get_inputs; by rewrite Hv, decide_True|]. split; [intros o' Hne; unfold get_inputs; by rewrite Hv, decide_False|]. done.
Qed.
Theorem C65_set_output w o l w' :
  reachable w -> legal w (OOpSetOutput o l) -> step w (OOpSetOutput o l) = Ok w' ->
  exists e x x', in_env w e o /\ w_envs w !! e = Some x /\ w_envs w' = <[e := x']> (w_envs w) /\ in_env w' e l /\
    get_outputs x' o = [l] /\ (forall o', o' <> o -> get_outputs x' o' = get_outputs x o') /\
    e_tree x' = e_tree x /\ e_layers x' = e_layers x /\ e_in x' = e_in x /\ e_maps x' = e_maps x.
Proof.
  intros HW (e&La&Lb) Hs. pose proof HW as HW0. cbn [step] in Hs.
  apply typed_ok in Hs as (io&Ho&Ko&Hs). apply typed_ok in Hs as (il&Hl&Kl&Hs).
  pose proof La as (io'&Ho'&Heo). rewrite Ho in Ho'. injection Ho' as <-.
  unfold op_set_output, wderef in Hs. rewrite Ho, Heo in Hs.
  destruct (winv_owner _ (reachable_inv _ HW) _ _ _ Ho Heo) as [x Hx].
  unfold on_env at 1, focus in Hs. rewrite Hx in Hs. cbn [remove_outputs obind] in Hs.
  set (w1 := unfocus e w _) in Hs.
  unfold op_add_output, wderef in Hs. replace (w_heap w1) with (w_heap w) in Hs by done. rewrite Ho, Heo in Hs.
  apply on_env_ok in Hs as (x1&s'&Hx1&Hs&->). cbn [en] in Hs.
  unfold w1 in Hx1. cbn [unfocus w_envs] in Hx1. rewrite lookup_insert in Hx1. injection Hx1 as <-.
  destruct (reach_parts _ _ _ HW Hx) as (I&R&A).
  assert (Hdel : assoc o (del_key o (e_out x)) = None) by (by rewrite assoc_del_key, decide_True).
  match type of Hs with (if ?d then _ else _) = _ => destruct d end; [done|].
  assert (I1 : Inv e (St (w_heap w1) (with_out x (del_key o (e_out x))) (w_tr w1))).
  { pose proof (remove_outputs_wp False false e o _ I) as Hwp. cbn in Hwp. apply (g_inv _ _ _ _ (proj1 Hwp)). }
  pose proof (add_output_wp True 0 e o l _ io il I1 Ho Ko Hl Kl (or_intror Heo) (free_or_at _ _ _ _ Lb Hl) (or_introl Logic.I)) as Hwp.
  cbn [set_en en hp] in Hs. rewrite Hs in Hwp. destruct Hwp as (_&_&(j&Hj&Hje&_)&Ht&H1&H2&H3&H4).
  cbn [en with_out e_tree e_layers e_out e_maps e_in] in *. rewrite Hdel, decide_False in Ht by done.
  exists e, x, (en s'). split; [done|]. split; [done|]. split; [unfold w1; cbn [unfocus w_envs]; by rewrite insert_insert|]. split; [by exists j|].
  assert (Hv : forall o', values_of o' (e_out (en s')) = (if decide (o' = o) then [l] else values_of o' (e_out x))).
  { intros o'. rewrite Ht. unfold values_of, del_key. case_decide as Hd.
    - subst o'. apply Permutation_singleton_r. rewrite (ins_perm plt o l). rewrite filter_cons_True by done. rewrite list_filter_filter.
      rewrite list_filter_none; [done|]. intros kv _. tauto.
    - assert (Hf : filter (fun kv : ptr * ptr => kv.1 = o') (ins plt o l (filter (fun kv => kv.1 <> o) (e_out x))) = filter (fun kv : ptr * ptr => kv.1 = o') (filter (fun kv => kv.1 <> o) (e_out x))).
      { generalize (filter (fun kv : ptr * ptr => kv.1 <> o) (e_out x)). intros t. induction t as [|[a b] t IH]; cbn [ins].
        - rewrite filter_cons_False; [done|]. cbn. congruence.
        - destruct (plt o a).
          + rewrite filter_cons_False; [done|]. cbn. congruence.
          + destruct (decide (a = o')); [rewrite !filter_cons_True by done|rewrite !filter_cons_False by done]; by rewrite IH. }
      rewrite Hf, list_filter_filter. f_equal. apply list_filter_ext_in. intros kv _. split; [tauto|]. intros <-. split; [done|]. congruence. }
  split; [unfold get_outputs; by rewrite Hv, decide_True|]. split; [intros o' Hne; unfold get_outputs; by rewrite Hv, decide_False|]. done.
Qed.
Example C65_nonvacuous :
  (legal demo_world (OAddInput 1 15 14) /\ exists w', step demo_world (OAddInput 1 15 14) = Ok w' /\ exists x', w_envs w' !! 1%positive = Some x' /\ get_inputs x' 15 = [13; 14]%positive) /\
  (legal demo_world (OAddOutput 1 15 13) /\ exists w', step demo_world (OAddOutput 1 15 13) = Ok w' /\ exists x', w_envs w' !! 1%positive = Some x' /\ get_outputs x' 15 = [14; 13]%positive) /\
  (legal demo_world (OOpSetInput 15 14) /\ exists w', step demo_world (OOpSetInput 15 14) = Ok w' /\ exists x', w_envs w' !! 1%positive = Some x' /\ get_inputs x' 15 = [14]%positive) /\
  (legal demo_world (OOpSetOutput 15 13) /\ exists w', step demo_world (OOpSetOutput 15 13) = Ok w' /\ exists x', w_envs w' !! 1%positive = Some x' /\ get_outputs x' 15 = [13]%positive) /\
  (exists w', step demo_world (ORemInput 1 15 13) = Ok w' /\ exists x', w_envs w' !! 1%positive = Some x' /\ get_inputs x' 15 = []).
Proof.
  split; [split; [apply legalb_ok; vmtrue|eapply ok_step; vmtrue]|]. split; [split; [apply legalb_ok; vmtrue|eapply ok_step; vmtrue]|].
  split; [split; [apply legalb_ok; vmtrue|eapply ok_step; vmtrue]|]. split; [split; [apply legalb_ok; vmtrue|eapply ok_step; vmtrue]|].
  eapply ok_step; vmtrue.
Qed.

(** ** C66: attaching a map places it on the given node, or on the root *)
Theorem C66_attach_map w e m n w' :
  reachable w -> legal w (OAttachMap e m n) -> unattached w m -> step w (OAttachMap e m n) = Ok w' ->
  exists x x', w_envs w !! e = Some x /\ w_envs w' = <[e := x']> (w_envs w) /\ in_env w' e m /\
    get_frame x' m = Some (match n with Some k => k | None => e_root x end) /\
    (forall k, k <> m -> get_frame x' k = get_frame x k) /\
    e_tree x' = e_tree x /\ e_layers x' = e_layers x /\ e_in x' = e_in x /\ e_out x' = e_out x.
Proof.
  intros HW HL Hun Hs. pose proof Hun as (im&Hm&Hem).
  assert (Hs' : is_map (it_kind im) = true /\ (forall k, n = Some k -> exists ik, w_heap w !! k = Some ik /\ is_frame (it_kind ik) = true) /\ attach_map e m n w = Ok w').
  { cbn [step] in Hs. apply typed_ok in Hs as (i&Hi&Ki&Hs). rewrite Hm in Hi. injection Hi as <-. split; [done|].
    destruct n as [k|]; [|split; [done|exact Hs]]. apply typed_ok in Hs as (ik&Hk&Kk&Hs). split; [|exact Hs]. intros k' Hk'. injection Hk' as <-. eauto. }
  clear Hs. destruct Hs' as (Km&Kn&Hs). unfold attach_map in Hs. unfold attach_item, wderef in Hs. rewrite Hm, Hem in Hs.
  destruct (on_env e (attach_core e m) w) as [w1| | |] eqn:Ha; [|done..]. cbn [obind] in Hs.
  apply on_env_ok in Ha as (x&s1&Hx&Ha&->). apply on_env_ok in Hs as (x1&s2&Hx1&Hs&->).
  cbn [unfocus w_envs w_heap w_tr] in Hx1, Hs. rewrite lookup_insert in Hx1. injection Hx1 as <-.
  destruct (reach_parts _ _ _ HW Hx) as (I&R&A).
  pose proof (attach_core_wp True 0 e m _ im I Hm (or_introl Hem) (or_introl Logic.I)) as Hwp. rewrite Ha in Hwp.
  destruct Hwp as (G1&(_&id'&l'&_&_&Hh1&Hen1&_)&_). cbn [hp en] in Hh1, Hen1.
  set (k := match n with Some k => k | None => e_root (en s1) end).
  assert (Hroot : e_root (en s1) = e_root x) by (by rewrite Hen1).
  assert (Hk : exists ik, w_heap w !! k = Some ik /\ is_frame (it_kind ik) = true /\ (it_env ik = None \/ it_env ik = Some e)).
  { unfold k. destruct n as [k'|].
    - destruct (Kn k' eq_refl) as (ik&Hk&Kk). exists ik. split; [done|]. split; [done|]. cbn in HL. apply (free_or_at _ _ _ _ HL Hk).
    - rewrite Hroot. destruct R as ((ir&Hr&Her&Kr)&_). eauto. }
  destruct Hk as (ik&Hk&Kk&Hek).
  assert (Hkm : k <> m). { intros Hkm. rewrite Hkm, Hm in Hk. injection Hk as <-. by destruct (it_kind im). }
  assert (Hm1 : hp s1 !! m = Some (attached_as im e id')) by (by rewrite Hh1, lookup_insert).
  pose proof (default_frame_wp True 0 e m n s1 ik) as Hwp.
  destruct s1 as [h1 en1 tr1]. cbn [hp en tr] in *. rewrite Hs in Hwp. destruct Hwp as (G2&_&_&Hq&Hmaps&H1&H2&H3&H4).
  - apply G1.
  - exists (attached_as im e id'). done.
  - fold k. by rewrite Hh1, lookup_insert_ne.
  - done.
  - done.
  - by left.
  - cbn [hp en] in *. fold k in Hq, Hmaps. rewrite Hen1 in Hmaps, H1, H2, H3, H4. cbn [with_items with_last e_maps e_tree e_layers e_in e_out] in *.
    assert (Hnf : get_frame x m = None). { destruct (get_frame x m) as [z|] eqn:Hz; [|done]. exfalso.
      destruct (inv_maps _ _ I m z (assoc_in _ _ _ Hz)) as ((i&Hi&Hei&_)&_). cbn [hp] in Hi. rewrite Hm in Hi. injection Hi as <-. congruence. }
    exists x, (en s2). split; [done|]. split; [cbn [unfocus w_envs en]; by rewrite insert_insert|]. split.
    { exists (attached_as im e id'). split; [|done]. rewrite Hq by (intros ?; by apply Hkm). done. }
    rewrite decide_True in Hmaps by exact Hnf. unfold get_frame. rewrite Hmaps.
    split; [|split; [|done]].
    + rewrite assoc_ins by done. rewrite decide_True by done. unfold k. by rewrite Hroot.
    + intros k' Hk'. rewrite assoc_ins by done. by rewrite decide_False.
Qed.
Example C66_nonvacuous :
  let w := demo_plus [ONew 30 KMap "" 3; ONew 31 KFrame "" 3] in
  reachable w /\ unattached w 30 /\
  (exists w', step w (OAttachMap 1 30 (Some 31%positive)) = Ok w' /\ exists x', w_envs w' !! 1%positive = Some x' /\ get_frame x' 30 = Some 31%positive) /\ legal w (OAttachMap 1 30 (Some 31%positive)) /\
  (exists w', step w (OAttachMap 1 30 None) = Ok w' /\ exists x', w_envs w' !! 1%positive = Some x' /\ get_frame x' 30 = Some 10%positive).
Proof.
  split; [apply demo_plus_reachable|]. split; [vmdec|]. split; [eapply ok_step; vmtrue|]. split; [apply legalb_ok; vmtrue|]. eapply ok_step; vmtrue.
Qed.

(** ** C67: changing the content of an item *)
Theorem C67_set_content w p it v :
  reachable w -> w_heap w !! p = Some it ->
  exists w', step w (OSetVal p v) = Ok w' /\ w_envs w' = w_envs w /\
    w_heap w' = <[p := Item (it_kind it) (it_id it) (it_env it) v (it_user it) (it_refs it)]> (w_heap w).
Proof.
  intros HW Hp. cbn [step]. unfold wderef. rewrite Hp. destruct (it_env it) as [e|] eqn:He.
  - destruct (winv_owner _ (reachable_inv _ HW) _ _ _ Hp He) as [x Hx].
    unfold on_env, focus. cbn [wput w_envs]. rewrite Hx. unfold emit, emit_to, deref. cbn [w_heap hp wput]. rewrite lookup_insert.
    unfold drop_temp. cbn [hp]. rewrite lookup_insert. cbn [with_val it_refs].
    pose proof (winv_refs _ (reachable_inv _ HW) _ _ Hp) as Hr. rewrite He in Hr. rewrite decide_False by lia.
    eexists. split; [reflexivity|]. cbn [unfocus w_envs w_heap hp en wput]. split; [by apply insert_id|]. unfold with_val. by rewrite He.
  - eexists. split; [reflexivity|]. cbn [wput w_envs w_heap]. unfold with_val. by rewrite He.
Qed.
Example C67_nonvacuous : exists it, w_heap demo_world !! 12%positive = Some it /\ it_env it = Some 1%positive /\ it_val it = 60%Z.
Proof. vmdec. Qed.

(** ** C68: smart pointers *)
(** Copying a smart pointer changes only the number of references. When one goes away, the item is destroyed
    exactly if that was the last one and it is not attached; nothing else changes and nobody is told. *)
Theorem C68_smart_pointers w p it :
  reachable w -> w_heap w !! p = Some it ->
  step w (OHold p) = Ok (World (<[p := Item (it_kind it) (it_id it) (it_env it) (it_val it) (S (it_user it)) (S (it_refs it))]> (w_heap w)) (w_envs w) (w_tr w)) /\
  (forall u, it_user it = S u -> step w (ORelease p) =
    Ok (World (if decide (u = 0 /\ it_env it = None) then delete p (w_heap w)
               else <[p := Item (it_kind it) (it_id it) (it_env it) (it_val it) u (pred (it_refs it))]> (w_heap w)) (w_envs w) (w_tr w))).
Proof.
  intros HW Hp. pose proof (winv_refs _ (reachable_inv _ HW) _ _ Hp) as Hr. cbn [step]. unfold user_release, wderef. rewrite Hp. split; [done|].
  intros u Hu. rewrite Hu. cbn [with_refs it_refs]. rewrite Hu in Hr. destruct (it_env it) as [e|] eqn:He.
  - rewrite decide_False by lia. rewrite decide_False by naive_solver. unfold wput, with_refs. by rewrite He.
  - destruct (decide (u = 0)) as [->|Hz].
    + rewrite decide_True by lia. by rewrite decide_True.
    + rewrite decide_False by lia. rewrite decide_False by naive_solver. unfold wput, with_refs. by rewrite He.
Qed.
Example C68_nonvacuous :
  let w := demo_plus [ONew 30 KLayer "" 3; OHold 30] in
  reachable w /\ unattached w 30 /\ (exists w', step w (ORelease 30) = Ok w' /\ is_gone w' 30) /\ (exists w', step w (ORelease 12) = Ok w' /\ in_env w' 1 12).
Proof. split; [apply demo_plus_reachable|]. split; [vmdec|]. split; eapply ok_step; vmtrue. Qed.

(** ** C69: a new environment *)
Theorem C69_new_environment w e r :
  w_envs w !! e = None -> w_heap w !! r = None ->
  exists w' x, step w (ONewEnv e r) = Ok w' /\ w_envs w' = <[e := x]> (w_envs w) /\
    w_heap w' = <[r := Item KFrame "/0" (Some e) 0 0 1]> (w_heap w) /\ w_tr w' = w_tr w /\
    e_items x = [("/0", r)] /\ e_root x = r /\ e_prefix x = "/" /\ e_handlers x = [] /\
    e_tree x = [] /\ e_layers x = [] /\ e_in x = [] /\ e_out x = [] /\ e_maps x = [].
Proof.
  intros He Hr. cbn [step]. unfold new_env. rewrite He, Hr. unfold on_env, focus. cbn [w_envs w_heap w_tr]. rewrite lookup_insert.
  unfold attach_core, deref. cbn [hp en e_prefix e_items]. rewrite lookup_insert. cbn [it_env it_id].
  change (full_id "/" "/0") with "/0". rewrite decide_False by (vm_compute; congruence). cbn [obind hp put set_hp set_en en]. rewrite lookup_insert.
  cbn [with_id it_id e_items assoc]. unfold emit, emit_to, deref. cbn [hp en set_hp set_en put]. rewrite lookup_insert.
  unfold drop_temp. cbn [hp]. rewrite lookup_insert. cbn [with_refs it_refs with_env with_id]. rewrite decide_False by lia.
  eexists _, _. split; [reflexivity|]. cbn [unfocus w_heap w_envs w_tr hp en tr]. rewrite !insert_insert. split; [reflexivity|]. split; [reflexivity|].
  cbn [with_items e_items e_tree e_layers e_in e_out e_maps e_root e_prefix e_last e_handlers map]. rewrite app_nil_r. repeat (split; [reflexivity|]). reflexivity.
Qed.
Example C69_nonvacuous : w_envs demo_world !! 9%positive = None /\ is_gone demo_world 90 /\
  exists w', step demo_world (ONewEnv 9 90) = Ok w' /\ in_env w' 9 90.
Proof. split; [vmtrue|]. split; [vmtrue|]. eapply ok_step. vmtrue. Qed.
