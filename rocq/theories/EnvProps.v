(** Properties of the environment core: identity, ownership, links, life time.

    Vocabulary: [reachable], [legal], [valid], [in_env], [below], ... in EnvSpec.v. [w_heap w !! p = Some it]: there is an item at
    address [p]; [it_env it = Some e]: it is attached to environment [e]; [w_envs w !! e = Some x]: environment [e] exists
    and has content [x]. *)
From stdpp Require Import prelude strings gmap pretty relations.
From Verif Require Import Base AssocLemmas EnvModel EnvSpec EnvLib EnvGood EnvAttach EnvLinks EnvLinks2 EnvDetach EnvDeep EnvHandlers EnvWorld EnvStep EnvStep2 EnvStep3 EnvDemo.

Lemma reach_parts w e x : reachable w -> w_envs w !! e = Some x ->
  Inv e (St (w_heap w) x (w_tr w)) /\ RootOk e (St (w_heap w) x (w_tr w)) /\ Acyclic x.
Proof. intros HW%reachable_inv. by apply winv_parts. Qed.

(** ** C01 *)
Theorem C01_lookup_exact w e x :
  reachable w -> w_envs w !! e = Some x ->
  (forall id p, get_item x id = Some p <->
     exists it, w_heap w !! p = Some it /\ it_env it = Some e /\ it_id it = id) /\
  (forall p q ip iq, w_heap w !! p = Some ip -> it_env ip = Some e ->
     w_heap w !! q = Some iq -> it_env iq = Some e -> it_id ip = it_id iq -> p = q).
Proof.
  intros HW Hx. destruct (reach_parts _ _ _ HW Hx) as (I&_&_). split.
  - intros id p. unfold get_item. rewrite assoc_nodup by apply (inv_nodup _ _ I). by rewrite (inv_items _ _ I).
  - intros p q ip iq Hp Hep Hq Heq Hid. apply (inv_id_inj _ _ I); [by exists ip|by exists iq|]. unfold idn. simpl. by rewrite Hp, Hq.
Qed.
Example C01_nonvacuous : reachable demo_world /\ get_item (demo_env 1) "/m/3" = Some 13%positive /\
  get_item (demo_env 2) "/m/3" = None /\ get_item (demo_env 2) "/7" = Some 21%positive.
Proof. split; [apply demo_reachable|]. by vm_compute. Qed.

(** ** C02 *)
Theorem C02_one_owner w p it :
  reachable w -> w_heap w !! p = Some it ->
  forall e, it_env it = Some e <-> exists x, w_envs w !! e = Some x /\ get_item x (it_id it) = Some p.
Proof.
  intros HW Hp e. split.
  - intros He. destruct (winv_owner _ (reachable_inv _ HW) _ _ _ Hp He) as [x Hx]. exists x. split; [done|].
    apply (C01_lookup_exact _ _ _ HW Hx). by exists it.
  - intros (x&Hx&Hg). apply (C01_lookup_exact _ _ _ HW Hx) in Hg as (it'&Hp'&He&_). congruence.
Qed.

(** Moving an item to another environment takes it and all its links out of the old one. The item has to be held by the
    user, see [C30_move_refuted]. *)
Lemma detach_drop_world w e x p it : WInv w -> w_envs w !! e = Some x -> w_heap w !! p = Some it -> it_env it = Some e ->
  exists s', on_env e (detach_drop e p) w = Ok (unfocus e w s') /\ Removed e (St (w_heap w) x (w_tr w)) s' [p].
Proof.
  intros HW Hx Hp He. destruct (winv_parts _ _ _ HW Hx) as (I&_&_).
  destruct (detach_drop_ok e _ p it I Hp He) as (s'&Hs&HR). exists s'. unfold on_env, focus. by rewrite Hx, Hs.
Qed.
Theorem C02_move w w' e e2 p it x2 :
  reachable w -> w_heap w !! p = Some it -> it_env it = Some e2 -> e2 <> e -> w_envs w !! e2 = Some x2 ->
  ~ is_root w p -> step w (OAttach e p) = Ok w' ->
  (exists it', w_heap w' !! p = Some it' /\ it_env it' = Some e) /\
  exists x2', w_envs w' !! e2 = Some x2' /\
    (forall id q, get_item x2' id = Some q <-> get_item x2 id = Some q /\ q <> p) /\
    e_tree x2' = keep_out p (e_tree x2) /\ e_layers x2' = keep_out p (e_layers x2) /\
    e_in x2' = keep_out p (e_in x2) /\ e_out x2' = keep_out p (e_out x2) /\ e_maps x2' = keep_out p (e_maps x2).
Proof.
  intros HW Hp He2 Hne Hx2 Hnr Hs. assert (HI := reachable_inv _ HW).
  assert (Hpost := attach_item_wp True 0 e p w it HI Hp (or_intror Hnr) (or_introl Logic.I)).
  assert (Hreach : reachable w').
  { destruct HW as [os Hos]. exists (os ++ [OAttach e p]).
    assert (forall u v ops, history u ops v -> legal v (OAttach e p) -> steps_to v (OAttach e p) w' -> history u (ops ++ [OAttach e p]) w') as Happ.
    { intros u v ops Hh. induction Hh; intros; simpl; econstructor; eauto. constructor. }
    eapply Happ; [done|by right|by left]. }
  cbn [step] in Hs. rewrite Hs in Hpost. simpl in Hpost. destruct Hpost as (HF&_&_&(it'&Hp'&He'&_)&_).
  split; [by exists it'|].
  destruct (detach_drop_world w e2 x2 p it HI Hx2 Hp He2) as (s1&Hs1&HR).
  unfold attach_item, wderef in Hs. rewrite Hp, He2, decide_False in Hs by done. rewrite Hs1 in Hs. cbn [obind] in Hs.
  unfold on_env, focus in Hs. destruct (w_envs (unfocus e2 w s1) !! e) as [y|] eqn:Hy; [|done].
  destruct (attach_core e p _) as [s2| | |] eqn:Hac; [|done..]. injection Hs as <-. cbn [w_envs unfocus] in *.
  exists (en s1). rewrite lookup_insert_ne by done. rewrite lookup_insert. split; [done|]. split.
  - pose proof (g_inv _ _ _ _ (r_good _ _ _ _ HR)) as I1. intros id q. unfold get_item.
    rewrite !assoc_nodup; [|apply (reach_parts _ _ _ HW Hx2)|apply (inv_nodup _ _ I1)].
    rewrite (r_items _ _ _ _ HR). rewrite elem_of_list_filter. simpl. rewrite elem_of_list_singleton. tauto.
  - rewrite !outside_one. split; [apply HR|]. split; [apply HR|]. split; [apply HR|]. split; [apply HR|apply HR].
Qed.
Example C02_nonvacuous : reachable demo_world /\ in_env demo_world 2 21 /\ ~ is_root demo_world 21 /\
  (exists x, w_envs demo_world !! 2%positive = Some x /\ e_tree x = [(21, 20)]%positive) /\
  exists w', step demo_world (OAttach 1 21) = Ok w' /\ in_env w' 1 21 /\
  exists x', w_envs w' !! 2%positive = Some x' /\ e_tree x' = [].
Proof.
  split; [apply demo_reachable|]. split; [vmdec|]. split; [apply not_root_b; vmtrue|]. split; [vmdec|]. eapply ok_step. vmtrue.
Qed.

(** ** C03 *)
Definition requested (prefix id : string) : string :=
  if decide (id = "") then prefix else if decide (first_char id = Some slash) then id else prefix +:+ id.

Lemma requested_full x id : first_char (e_prefix x) = Some slash -> full_id (e_prefix x) id = requested (e_prefix x) id.
Proof.
  intros Hf. unfold full_id, requested. destruct (decide (id = "")) as [->|]; [|done]. by rewrite decide_True.
Qed.
Theorem C03_fresh_id w e x p it :
  reachable w -> w_envs w !! e = Some x -> w_heap w !! p = Some it -> it_env it = None ->
  it_id it = "" \/ last_char (it_id it) = Some slash ->
  (0 <= e_last x)%Z -> (e_last x + Z.of_nat (length (e_items x)) + 2 <= int_max)%Z ->
  exists w' it' n, step w (OAttach e p) = Ok w' /\ w_heap w' !! p = Some it' /\ it_env it' = Some e /\
    (0 < n)%Z /\ it_id it' = requested (e_prefix x) (it_id it) +:+ pretty n /\ get_item x (it_id it') = None.
Proof.
  intros HW Hx Hp He Hid Hlo Hhi. destruct (reach_parts _ _ _ HW Hx) as (I&_&_). pose proof (inv_prefix _ _ I) as [Hpf Hpl]. simpl in *.
  assert (Hroom : False \/ room 1 (St (w_heap w) x (w_tr w))). { right. unfold room. simpl. lia. }
  assert (Hlast : last_char (full_id (e_prefix x) (it_id it)) = Some slash).
  { rewrite requested_full by done. unfold requested. destruct (decide (it_id it = "")) as [|Hne]; [done|].
    destruct Hid as [|Hid]; [done|]. case_decide; [done|]. clear -Hid.
    induction (e_prefix x) as [|c s IH]; [done|]. change (String c s +:+ it_id it) with (String c (s +:+ it_id it)).
    destruct (s +:+ it_id it) as [|d t] eqn:Hs; [|exact IH].
    destruct s; [|discriminate]. change ("" +:+ it_id it) with (it_id it) in Hs. rewrite Hs in Hid. discriminate. }
  pose proof (attach_core_wp False 0 e p _ it I Hp (or_introl He) Hroom) as Hwp.
  cbn [step]. unfold attach_item, wderef. rewrite Hp, He. unfold on_env, focus. rewrite Hx.
  destruct (attach_core e p _) as [s'|s'| |] eqn:Hac; simpl in Hwp; [|exfalso|done|done].
  - destruct Hwp as (_&(_&id'&l'&Hform&Hfree&Hh&Hen&_)&_). simpl in *.
    (* the number *)
    assert (Hsearch := search_id_wp False 0 (St (w_heap w) x (w_tr w)) (full_id (e_prefix x) (it_id it)) Hroom).
    unfold attach_core, deref in Hac. cbn [hp en] in Hac. rewrite Hp, He in Hac. rewrite decide_True in Hac by done.
    cbn [en] in Hsearch.
    destruct (search_id _ _ _ _) as [n| | |]; cbn [obind] in Hac; [|done..]. simpl in Hsearch. destruct Hsearch as (Hn&[|Hrange]); [done|].
    cbn [hp put set_hp set_en en] in Hac. rewrite lookup_insert in Hac. cbn [with_id it_id with_last e_items] in Hac.
    rewrite Hn in Hac.
    exists (unfocus e w s'), (attached_as it e id'), n. simpl. rewrite Hh, lookup_insert. split; [done|]. split; [done|]. split; [done|].
    split; [lia|].
    assert (id' = full_id (e_prefix x) (it_id it) +:+ pretty n) as ->.
    { pose proof Hac as Hac2. unfold emit, emit_to, deref in Hac2. cbn [hp put set_hp set_en en] in Hac2. rewrite lookup_insert in Hac2.
      unfold drop_temp in Hac2. cbn [hp] in Hac2. rewrite lookup_insert in Hac2. cbn [with_refs it_refs with_env with_id] in Hac2.
      rewrite decide_False in Hac2 by lia. injection Hac2 as <-. cbn [hp] in Hh.
      apply (f_equal (fun h => h !! p)) in Hh. rewrite !lookup_insert in Hh. by injection Hh. }
    split; [by rewrite requested_full|]. unfold get_item. exact Hn.
  - destruct Hwp as (_&_&_&[[? _]|(_&Hl&_)]); [done|]. by apply Hl.
Qed.
Theorem C03_ids_absolute w e p it :
  reachable w -> w_heap w !! p = Some it -> it_env it = Some e -> first_char (it_id it) = Some slash.
Proof.
  intros HW Hp He. destruct (winv_owner _ (reachable_inv _ HW) _ _ _ Hp He) as [x Hx].
  destruct (reach_parts _ _ _ HW Hx) as (I&_&_). apply (inv_slash _ _ I _ p). apply (inv_items _ _ I). by exists it.
Qed.
Example C03_nonvacuous : exists w, reachable w /\ (exists it, w_heap w !! 30%positive = Some it /\ it_id it = "q/" /\ it_env it = None) /\
  exists w', step w (OAttach 1 30) = Ok w' /\ exists it', w_heap w' !! 30%positive = Some it' /\ it_id it' = "/q/5".
Proof.
  exists (demo_plus [ONew 30 KLayer "q/" 3]). split; [apply demo_plus_reachable|]. split; [vmdec|]. eapply ok_step. vmtrue.
Qed.

(** ** C04 *)
(** [p] is attached to [e] before, after and between the operations *)
Inductive stays (e : eid) (p : ptr) : world -> list op -> world -> Prop :=
| stays_nil w : in_env w e p -> stays e p w [] w
| stays_cons w o w1 os w' : in_env w e p -> legal w o -> steps_to w o w1 -> stays e p w1 os w' -> stays e p w (o :: os) w'.

Lemma stays_here e p w os w' : stays e p w os w' -> in_env w e p.
Proof. by destruct 1. Qed.
Lemma reachable_step w o w' : reachable w -> legal w o -> steps_to w o w' -> reachable w'.
Proof.
  intros [os Hos] HL Hs. exists (os ++ [o]). revert HL Hs. induction Hos; intros; simpl; econstructor; eauto. constructor.
Qed.
Theorem C04_id_stable e p w os w' it it' :
  reachable w -> stays e p w os w' -> w_heap w !! p = Some it -> w_heap w' !! p = Some it' -> it_id it' = it_id it.
Proof.
  intros HW Hs. revert it HW. induction Hs as [w _|w o w1 os w' (i&Hi&Hie) HL Hs Hst IH]; intros it HW Hp Hp'; [congruence|].
  assert (i = it) as -> by congruence. destruct (stays_here _ _ _ _ _ Hst) as (i1&Hi1&Hie1).
  rewrite (IH i1); [|by eapply reachable_step|done|done].
  eapply (ef_ids _ _ _ (steps_eff _ _ _ (reachable_inv _ HW) HL Hs)); eauto.
Qed.
Theorem C04_set_id_rejected w p id : (exists e, in_env w e p) -> step w (OSetId p id) = Throw w.
Proof. intros (e&it&Hp&He). cbn [step]. unfold wderef. by rewrite Hp, He. Qed.
Fixpoint staysb (e : eid) (p : ptr) (w : world) (os : list op) : bool :=
  in_envb w e p &&
  match os with
  | [] => true
  | o :: os => legalb w o && match step w o with Ok w1 | Throw w1 => staysb e p w1 os | _ => false end
  end.
Lemma staysb_ok e p os : forall w, staysb e p w os = true -> exists w', stays e p w os w'.
Proof.
  induction os as [|o os IH]; intros w; simpl; intros [H1 H2]%andb_true_iff.
  - exists w. constructor. by apply in_envb_ok.
  - apply andb_true_iff in H2 as [H2 H3]. destruct (step w o) as [w1|w1| |] eqn:Hs; [..|done|done]; destruct (IH _ H3) as [w' Hw']; exists w';
    (eapply stays_cons; [by apply in_envb_ok|by apply legalb_ok| |done]); [by left|by right].
Qed.
Example C04_nonvacuous : exists w', stays 1 12 demo_world [ODetach 1 11 false false; OSetId 12 "/b"; OSetPrefix 1 "zz"; OAddChildF 1 10 12] w'.
Proof. apply staysb_ok. vmtrue. Qed.

(** ** C05 *)
Theorem C05_rejected_attach w w' e p it :
  reachable w -> w_heap w !! p = Some it -> it_env it = None \/ it_env it = Some e ->
  step w (OAttach e p) = Throw w' ->
  w_envs w' = w_envs w /\ w_tr w' = w_tr w /\ (forall q, q <> p -> w_heap w' !! q = w_heap w !! q) /\
  (it_env it = Some e -> w_heap w' = w_heap w) /\
  (it_env it = None -> exists x, w_envs w !! e = Some x /\
     w_heap w' !! p = Some (with_id it (requested (e_prefix x) (it_id it))) /\
     exists q, get_item x (requested (e_prefix x) (it_id it)) = Some q).
Proof.
  intros HW Hp He Hs. cbn [step] in Hs. unfold attach_item, wderef in Hs. rewrite Hp in Hs.
  assert (on_env e (attach_core e p) w = Throw w') as Ht.
  { destruct He as [He|He]; rewrite He in Hs; [done|]. by rewrite decide_True in Hs. }
  clear Hs. unfold on_env, focus in Ht. destruct (w_envs w !! e) as [x|] eqn:Hx; [|done].
  destruct (reach_parts _ _ _ HW Hx) as (I&_&_). pose proof (inv_prefix _ _ I) as [Hpf _].
  pose proof (attach_core_wp True 0 e p _ it I Hp He (or_introl Logic.I)) as Hwp.
  destruct (attach_core e p _) as [|s'| |]; [done| |done|done]. injection Ht as <-. simpl in Hwp.
  destruct Hwp as (_&Hen&Htr&Hcase). simpl in *. rewrite Hen, Htr. rewrite insert_id by done. split; [done|]. split; [done|].
  rewrite requested_full in Hcase by done.
  destruct Hcase as [[Hn Hh]|(Hn&_&Hex&Hh)]; rewrite Hh.
  - split; [done|]. split; [done|]. done.
  - split; [intros q Hq; by rewrite lookup_insert_ne|]. split; [congruence|]. intros _. exists x. split; [done|]. split; [apply lookup_insert|].
    unfold get_item. destruct (assoc _ _) as [q|]; [by exists q|done].
Qed.
Example C05_nonvacuous : exists w, reachable w /\ unattached w 30 /\ exists w', step w (OAttach 1 30) = Throw w' /\ True.
Proof.
  exists (demo_plus [ONew 30 KLayer "a" 3]). split; [apply demo_plus_reachable|]. split; [vmdec|]. eapply throw_step. vmtrue.
Qed.
(** A rejected move from another environment is not undone: the item is lost there (finding). *)
Theorem C05_move_refuted : exists w e e2 p, reachable w /\ in_env w e2 p /\ e2 <> e /\ ~ is_root w p /\
  exists w', step w (OAttach e p) = Throw w' /\ unattached w' p.
Proof.
  exists (demo_plus [ONew 30 KLayer "/7" 3; OAttach 1 30]), 1%positive, 2%positive, 21%positive.
  split; [apply demo_plus_reachable|]. split; [vmdec|]. split; [done|]. split; [apply not_root_b; vmtrue|]. eapply throw_step. vmtrue.
Qed.
