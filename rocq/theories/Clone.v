(** Cloning a map into an environment (C114): [CartesianMap::cloneTo], Layer.cpp:194-227, on top of the model of the environment core. *)
From stdpp Require Import prelude strings gmap pretty relations.
From Verif Require Import Base AssocLemmas EnvModel EnvSpec EnvLib EnvGood EnvAttach EnvLinks EnvLinks2 EnvWorld EnvStep EnvStep2 EnvStep3 EnvDemo EnvProps EnvProps2 EnvProps3 Transform.

(** ** Model *)
(** [clone()], EnvironmentItem.hpp:27-30, with the copy constructor Environment.cpp:38-41: a new unattached item with an empty unique id and a copy of
    the content. [c] is the address of the new item. The label of a map is not modelled (the copy constructor drops it as well). *)
Definition clone_item (c p : ptr) (w : world) : W := wderef p w (fun it => new_item c (it_kind it) "" (it_val it) w).

(** Layer.cpp:200-208, the frame stack in the order of the [push_back] calls; a frame without parent that is not the root is followed by a call on the
    null pointer. The fuel bounds the loop. *)
Fixpoint frame_stack (fuel : nat) (w : world) (root frame : ptr) : out world (list ptr) :=
  match fuel with
  | O => NoFuel
  | S n =>
    if decide (frame = root) then Ok []
    else match frame_parent w frame with
         | Ok (Some q) => st <~ frame_stack n w root q ;; Ok (frame :: st)
         | Ok None => Bad UB
         | Bad b => Bad b
         | _ => NoFuel
         end
  end.

(** Layer.cpp:212-220, the loop over the stack from its back; [st] is the stack from the back, [fresh] are the addresses of the copies. Gives the last
    [frame]. FrameNode::addChild, FrameNode.cpp:40-43. *)
Fixpoint clone_frames (e : eid) (st fresh : list ptr) (frame : ptr) (w : world) : out world (world * ptr) :=
  match st, fresh with
  | [], _ => Ok (w, frame)
  | f :: st, c :: fresh =>
    w1 <~ clone_item c f w ;;
    w2 <~ step w1 (OAddChildF e frame c) ;;
    clone_frames e st fresh c w2
  | _ :: _, [] => NoFuel
  end.

(** Layer.cpp:194-227: map [m] is cloned to environment [e]; the copy gets address [copy] and the frames the addresses [fresh] *)
Definition clone_to (fuel : nat) (m : ptr) (e : eid) (copy : ptr) (fresh : list ptr) (w : world) : W :=
  w1 <~ clone_item copy m w ;;
  w2 <~ step w1 (OAttachMap e copy None) ;;
  wderef m w2 (fun it =>
    match it_env it with
    | None => Bad UB
    | Some e1 =>
      match w_envs w2 !! e1, w_envs w2 !! e with
      | Some x1, Some x2 =>
        match get_frame x1 m with
        | None => Bad UB
        | Some f =>
          st <~ frame_stack fuel w2 (e_root x1) f ;;
          r <~ clone_frames e (rev st) fresh (e_root x2) w2 ;;
          step r.1 (OSetFrame e copy r.2)
        end
      | _, _ => Bad UB
      end
    end).

(** ** Specification *)
(** [way x f r l]: going up from frame [f] by [getParent] leads to [r]; [l] are the frames on the way, without [r] *)
Inductive way (x : env) : ptr -> ptr -> list ptr -> Prop :=
| way_nil r : way x r r []
| way_cons f q r l : get_parent x f = Some q -> way x q r l -> way x f r (f :: l).

(** [p] in [w] and [c] in [w'] have the same class and the same content *)
Definition same_content (w w' : world) (p c : ptr) : Prop :=
  exists i j, w_heap w !! p = Some i /\ w_heap w' !! c = Some j /\ it_kind i = it_kind j /\ it_val i = it_val j.

(** ** Proof *)
Lemma way_snoc x f q r l : way x f q l -> get_parent x q = Some r -> way x f r (l ++ [q]).
Proof. induction 1 as [|f q' q l Hf HW IH]; intros Hq; simpl; [by repeat econstructor|]. econstructor; [done|auto]. Qed.

(** the item [c] just made is nobody's parent, child, map or frame *)
Lemma fresh_table w e x c : reachable w -> w_envs w !! e = Some x -> w_heap w !! c = None ->
  get_parent x c = None /\ get_frame x c = None.
Proof.
  intros HW Hx Hc. destruct (reach_parts _ _ _ HW Hx) as (I&_&_). split.
  - destruct (get_parent x c) as [q|] eqn:Hq; [|done]. destruct (inv_tree _ _ I c q (assoc_in _ _ _ Hq)) as ((i&Hi&_)&_). cbn in Hi. congruence.
  - destruct (get_frame x c) as [q|] eqn:Hq; [|done]. destruct (inv_maps _ _ I c q (assoc_in _ _ _ Hq)) as ((i&Hi&_)&_). cbn in Hi. congruence.
Qed.

Definition numbered (x : env) (id : string) : Prop := exists n : Z, id = e_prefix x +:+ pretty n.

Lemma new_wp w e x c K v k : reachable w -> w_envs w !! e = Some x -> w_heap w !! c = None -> room (S k) (St (w_heap w) x (w_tr w)) ->
  let h := <[c := Item K "" None v 0 0]> (w_heap w) in
  reachable (World h (w_envs w) (w_tr w)) /\
  exists id l' t', numbered x id /\
    attach_core e c (St h x (w_tr w)) = Ok (St (<[c := Item K id (Some e) v 0 1]> (w_heap w)) (with_items (with_last x l') (ins str_ltb id c (e_items x))) t') /\
    Good false e (St h x (w_tr w)) (St (<[c := Item K id (Some e) v 0 1]> (w_heap w)) (with_items (with_last x l') (ins str_ltb id c (e_items x))) t') /\
    room k (St (<[c := Item K id (Some e) v 0 1]> (w_heap w)) (with_items (with_last x l') (ins str_ltb id c (e_items x))) t').
Proof.
  intros HW Hx Hc Hr h.
  assert (HW1 : reachable (World h (w_envs w) (w_tr w))).
  { eapply (reachable_step w (ONew c K "" v)); [done|done|]. left. cbn [step]. unfold new_item. by rewrite Hc. }
  split; [done|]. destruct (reach_parts _ e x HW1 Hx) as (I&_&_). cbn [w_heap w_tr] in I.
  pose proof (attach_core_wp False k e c (St h x (w_tr w)) (Item K "" None v 0 0) I) as Hwp. cbn [hp] in Hwp.
  specialize (Hwp ltac:(unfold h; by rewrite lookup_insert) (or_introl eq_refl) (or_intror Hr)).
  pose proof (inv_prefix _ _ I) as [Hp1 Hp2]. cbn [en] in Hp1, Hp2.
  assert (Hfull : full_id (e_prefix x) "" = e_prefix x). { unfold full_id. rewrite decide_True by done. by rewrite decide_True. }
  destruct (attach_core e c (St h x (w_tr w))) as [s'|s'|?|]; [| |done|done]; cbn [wp] in Hwp.
  - destruct Hwp as (G&(_&id&l'&Hid&_&Hh&Hen&Htr)&[?|Hr']); [done|]. cbn [hp en tr it_id] in *.
    exists id, l', (tr s'). unfold h in Hh. rewrite insert_insert in Hh. unfold attached_as in Hh. cbn in Hh. destruct s' as [h' x' t']. cbn [hp en tr] in *. subst h' x'.
    split; [|by auto]. unfold id_form in Hid. rewrite Hfull in Hid. destruct Hid as [[? _]|[_ ?]]; [congruence|done].
  - exfalso. destruct Hwp as (_&_&_&[[H _]|(_&H&_)]); cbn in H; [done|]. rewrite Hfull in H. done.
Qed.

(** a copy becomes the child of frame [a] *)
Lemma add_new_child w e x a c v k : reachable w -> w_envs w !! e = Some x -> has is_frame e (w_heap w) a -> w_heap w !! c = None ->
  room (S k) (St (w_heap w) x (w_tr w)) ->
  let w1 := World (<[c := Item KFrame "" None v 0 0]> (w_heap w)) (w_envs w) (w_tr w) in
  exists id l' t', numbered x id /\ legal w1 (OAddChildF e a c) /\
    let x' := with_tree (with_items (with_last x l') (ins str_ltb id c (e_items x))) (ins plt c a (e_tree x)) in
    let w' := World (<[c := Item KFrame id (Some e) v 0 1]> (w_heap w)) (<[e := x']> (w_envs w)) t' in
    step w1 (OAddChildF e a c) = Ok w' /\ room k (St (w_heap w') x' t').
Proof.
  intros HW Hx Ha Hc Hr w1. destruct (new_wp w e x c KFrame v k HW Hx Hc Hr) as (HW1&id&l'&t'&Hid&Hatt&G&Hr').
  destruct (fresh_table w e x c HW Hx Hc) as [Hpc _]. destruct (reach_parts _ _ _ HW Hx) as (I0&R0&_).
  assert (Hac : a <> c). { intros ->. destruct Ha as (i&Hi&_). congruence. }
  pose proof Ha as (ia&Hia&Eia&Kia).
  assert (L : legal w1 (OAddChildF e a c)).
  { cbn. split; [|split; [|split]].
    - exists ia. unfold w1. cbn. rewrite lookup_insert_ne by done. done.
    - right. exists (Item KFrame "" None v 0 0). unfold w1. cbn. by rewrite lookup_insert.
    - intros (e'&y&Hy&Hroot). cbn in Hy. destruct (reach_parts _ _ _ HW Hy) as (_&((i&Hi&_)&_)&_). cbn in Hi. rewrite Hroot in Hi. congruence.
    - intros y Hy Hp. unfold w1 in Hy. cbn in Hy. rewrite Hx in Hy. injection Hy as <-. apply rtc_inv_r in Hp as [Heq|(q&_&Hq)]; [done|].
      destruct (inv_tree _ _ I0 q c Hq) as (_&(i&Hi&_)&_). cbn in Hi. congruence. }
  exists id. set (s1 := St (<[c := Item KFrame id (Some e) v 0 1]> (w_heap w)) (with_items (with_last x l') (ins str_ltb id c (e_items x))) t').
  fold s1 in Hatt, G, Hr'. pose proof (g_inv _ _ _ _ G) as I1.
  assert (Hc1 : has is_frame e (hp s1) c). { exists (Item KFrame id (Some e) v 0 1). unfold s1. cbn. by rewrite lookup_insert. }
  assert (Ha1 : has is_frame e (hp s1) a). { exists ia. unfold s1. cbn. by rewrite lookup_insert_ne. }
  pose proof (Inv_tree_ins e s1 I1 c a (tr s1) Hc1 Ha1 (not_eq_sym Hac) Hpc) as I2.
  exists l', (t' ++ deliver e (e_handlers x) [mk_event (hp s1) ETree EAdd a (Some c)]).
  split; [done|]. split; [done|]. cbv zeta. split; [|exact Hr'].
  cbn [step]. unfold typed, wderef. cbn [w_heap w1]. rewrite lookup_insert_ne by done. rewrite Hia. rewrite Kia. rewrite lookup_insert. cbn [is_frame it_kind].
  unfold on_env, focus. cbn [w_envs w1 w_heap w_tr]. rewrite Hx. unfold add_child_f. rewrite decide_False by done. cbn [en]. rewrite Hpc. rewrite decide_False by done.
  unfold attach_if_free, deref. cbn [hp]. rewrite lookup_insert. cbn [it_env]. rewrite Hatt. cbn [obind].
  assert (Hp1 : get_parent (en s1) c = None) by exact Hpc. rewrite Hp1. cbn [obind].
  assert (Hmi : map_ins plt c a (e_tree (en s1)) = ins plt c a (e_tree x)). { unfold map_ins. unfold get_parent in Hp1. by rewrite Hp1. }
  rewrite Hmi. unfold emit. rewrite (emit_to_ok e); [|exact I2|by eapply has_any|]; [|intros b Hb; injection Hb as <-; by eapply has_any].
  reflexivity.
Qed.

(** the copy of the map is attached *)
Lemma attach_new_map w e x c v k : reachable w -> w_envs w !! e = Some x -> w_heap w !! c = None -> room (S k) (St (w_heap w) x (w_tr w)) ->
  let w1 := World (<[c := Item KMap "" None v 0 0]> (w_heap w)) (w_envs w) (w_tr w) in
  exists id l' t', numbered x id /\
    let x' := with_maps (with_items (with_last x l') (ins str_ltb id c (e_items x))) (ins plt c (e_root x) (e_maps x)) in
    let w' := World (<[c := Item KMap id (Some e) v 0 1]> (w_heap w)) (<[e := x']> (w_envs w)) t' in
    step w1 (OAttachMap e c None) = Ok w' /\ room k (St (w_heap w') x' t').
Proof.
  intros HW Hx Hc Hr w1. destruct (new_wp w e x c KMap v k HW Hx Hc Hr) as (HW1&id&l'&t'&Hid&Hatt&G&Hr').
  destruct (fresh_table w e x c HW Hx Hc) as [_ Hpc]. destruct (reach_parts _ _ _ HW Hx) as (I0&R0&_).
  exists id. set (s1 := St (<[c := Item KMap id (Some e) v 0 1]> (w_heap w)) (with_items (with_last x l') (ins str_ltb id c (e_items x))) t').
  fold s1 in Hatt, G, Hr'. pose proof (g_inv _ _ _ _ G) as I1.
  pose proof R0 as ((ir&Hir&Eir&Kir)&_). cbn [hp en] in Hir.
  assert (Hrc : e_root x <> c) by congruence.
  assert (Hc1 : has is_map e (hp s1) c). { exists (Item KMap id (Some e) v 0 1). unfold s1. cbn. by rewrite lookup_insert. }
  assert (Hr1 : has is_frame e (hp s1) (e_root x)). { exists ir. unfold s1. cbn. by rewrite lookup_insert_ne. }
  assert (Hnf : get_frame (en s1) c = None) by exact Hpc.
  pose proof (Inv_maps_ins e s1 I1 c (e_root x) (tr s1) Hc1 Hr1 Hnf) as I2.
  exists l', (t' ++ deliver e (e_handlers x) [mk_event (hp s1) EFrame EAdd c (Some (e_root x))]).
  split; [done|]. cbv zeta. split; [|exact Hr'].
  cbn [step]. unfold typed, wderef. cbn [w_heap w1]. rewrite lookup_insert. cbn [is_map it_kind].
  unfold attach_map, attach_item, wderef. cbn [w_heap w1]. rewrite lookup_insert. cbn [it_env].
  unfold on_env at 1, focus. cbn [w_envs w1 w_heap w_tr]. rewrite Hx, Hatt. cbn [obind].
  unfold on_env, focus. cbn [unfocus w_envs w_heap w_tr]. rewrite lookup_insert. change (St (hp s1) (en s1) (tr s1)) with s1.
  unfold default_frame. rewrite Hnf. unfold set_frame_attached, attach_if_free, deref. change (e_root (en s1)) with (e_root x).
  destruct Hr1 as (ir1&Hir1&Eir1&_). rewrite Hir1, Eir1. cbn [obind]. unfold place_map. rewrite Hnf. cbn [obind].
  assert (Hms : map_set plt c (e_root x) (e_maps (en s1)) = ins plt c (e_root x) (e_maps x)). { unfold map_set. unfold get_frame in Hnf. by rewrite del_key_fresh. }
  rewrite Hms. unfold emit. rewrite (emit_to_ok e); [|exact I2|by eapply has_any|].
  - unfold unfocus, add_tr. cbn. rewrite insert_insert. reflexivity.
  - intros b Hb; injection Hb as <-. exists ir1. done.
Qed.

(** the map is placed on a frame, both in the environment *)
Lemma place_attached w e x m n : reachable w -> w_envs w !! e = Some x -> has is_map e (w_heap w) m -> has is_frame e (w_heap w) n ->
  legal w (OSetFrame e m n) /\
  exists x' t', step w (OSetFrame e m n) = Ok (World (w_heap w) (<[e := x']> (w_envs w)) t') /\
    get_frame x' m = Some n /\ (forall q, q <> m -> get_frame x' q = get_frame x q) /\ x' = with_maps x (e_maps x').
Proof.
  intros HW Hx Hm Hn. destruct (reach_parts _ _ _ HW Hx) as (I&_&_).
  pose proof Hm as (im&Him&Eim&Kim). pose proof Hn as (i_n&Hin&Ein&Kin). split.
  { cbn. split; left; [by exists im|by exists i_n]. }
  pose proof (place_map_wp False false e m n _ I Hm Hn) as Hwp.
  cbn [step]. unfold typed, wderef. rewrite Him, Kim, Hin, Kin. unfold on_env, focus. rewrite Hx.
  unfold set_frame, attach_if_free, deref. cbn [hp]. rewrite Hin, Ein. cbn [obind hp]. rewrite Him, Eim. cbn [obind].
  destruct (place_map e m n (St (w_heap w) x (w_tr w))) as [s'|s'|?|]; [|done..]. destruct Hwp as (G&Hh&Hen). cbn [hp en] in *.
  exists (en s'), (tr s'). unfold unfocus. rewrite Hh. split; [done|]. unfold get_frame in *. rewrite Hen. cbn [with_maps e_maps].
  split; [|split; [|done]].
  - case_decide as Hd; [exact Hd|]. rewrite assoc_ins; [by rewrite decide_True|]. rewrite assoc_del_key. by rewrite decide_True.
  - intros q Hq. case_decide as Hd; [done|]. rewrite assoc_ins by (rewrite assoc_del_key; by rewrite decide_True). rewrite decide_False by done.
    rewrite assoc_del_key. by rewrite decide_False.
Qed.

(** everything but the items [new] and their links is as before *)
Definition grew (e : eid) (new : list ptr) (w w' : world) (x x' : env) : Prop :=
  w_envs w' = <[e := x']> (w_envs w) /\
  (forall q, q ∉ new -> w_heap w' !! q = w_heap w !! q /\ get_parent x' q = get_parent x q /\ get_frame x' q = get_frame x q) /\
  e_layers x' = e_layers x /\ e_in x' = e_in x /\ e_out x' = e_out x /\ e_root x' = e_root x /\ e_prefix x' = e_prefix x /\ e_handlers x' = e_handlers x.
Lemma grew_trans e n1 n2 w w1 w2 x x1 x2 : grew e n1 w w1 x x1 -> grew e n2 w1 w2 x1 x2 -> grew e (n1 ++ n2) w w2 x x2.
Proof.
  intros (A1&A2&A3&A4&A5&A6&A7&A8) (B1&B2&B3&B4&B5&B6&B7&B8). split; [rewrite B1, A1; apply insert_insert|]. split; [|repeat split; congruence].
  intros q Hq. rewrite elem_of_app in Hq. destruct (A2 q) as (?&?&?); [tauto|]. destruct (B2 q) as (?&?&?); [tauto|]. repeat split; congruence.
Qed.
Lemma history_app w os w1 os' w2 : history w os w1 -> history w1 os' w2 -> history w (os ++ os') w2.
Proof. induction 1; intros; simpl; [done|]. econstructor; eauto. Qed.
Lemma history_reachable w os w' : reachable w -> history w os w' -> reachable w'.
Proof. intros (os0&H0) H. exists (os0 ++ os). by eapply history_app. Qed.

Lemma clone_frames_ok e : forall st fresh a w x, reachable w -> w_envs w !! e = Some x -> has is_frame e (w_heap w) a ->
  (forall f, f ∈ st -> kind_ok is_frame w f) -> length fresh = length st -> NoDup fresh -> (forall c, c ∈ fresh -> w_heap w !! c = None) ->
  room (length st) (St (w_heap w) x (w_tr w)) ->
  exists w' x' b os, clone_frames e st fresh a w = Ok (w', b) /\ history w os w' /\ grew e fresh w w' x x' /\ e_maps x' = e_maps x /\
    way x' b a (rev fresh) /\ Forall2 (same_content w w') st fresh /\ Forall (in_env w' e) fresh /\ has is_frame e (w_heap w') b.
Proof.
  induction st as [|f st IH]; intros [|c fresh] a w x HW Hx Ha Hst Hlen ND Hfr Hr; try done.
  { exists w, x, a, []. split; [done|]. split; [constructor|]. split; [|split; [done|split; [constructor|split; [constructor|split; [constructor|done]]]]].
    split; [by rewrite insert_id|]. repeat split. }
  cbn [length] in Hlen, Hr. injection Hlen as Hlen. apply NoDup_cons in ND as [Hcn ND].
  assert (Hc : w_heap w !! c = None) by (apply Hfr; left).
  destruct (Hst f ltac:(left)) as (i_f&Hf&Kf).
  assert (Kf' : it_kind i_f = KFrame) by (by destruct (it_kind i_f)).
  destruct (add_new_child w e x a c (it_val i_f) (length st) HW Hx Ha Hc Hr) as (id&l'&t'&Hid&HL&Hs&Hr'). cbv zeta in HL, Hs, Hr'.
  set (w1 := World (<[c := Item KFrame "" None (it_val i_f) 0 0]> (w_heap w)) (w_envs w) (w_tr w)) in *.
  set (x2 := with_tree (with_items (with_last x l') (ins str_ltb id c (e_items x))) (ins plt c a (e_tree x))) in *.
  set (w2 := World (<[c := Item KFrame id (Some e) (it_val i_f) 0 1]> (w_heap w)) (<[e := x2]> (w_envs w)) t') in *.
  assert (Hnew : step w (ONew c KFrame "" (it_val i_f)) = Ok w1) by (cbn [step]; unfold new_item; by rewrite Hc).
  assert (H12 : history w [ONew c KFrame "" (it_val i_f); OAddChildF e a c] w2).
  { econstructor; [done|left; exact Hnew|]. econstructor; [exact HL|left; exact Hs|constructor]. }
  destruct (fresh_table w e x c HW Hx Hc) as [Hpc Hfc].
  assert (Halive : forall q, q <> c -> w_heap w2 !! q = w_heap w !! q) by (intros q Hq; unfold w2; cbn; by rewrite lookup_insert_ne).
  assert (G12 : grew e [c] w w2 x x2).
  { split; [done|]. split; [|done]. intros q Hq. rewrite elem_of_list_singleton in Hq. split; [by apply Halive|]. split; [|done].
    unfold get_parent, x2. cbn [with_tree e_tree]. rewrite assoc_ins by exact Hpc. by rewrite decide_False. }
  assert (Hc2 : w_heap w2 !! c = Some (Item KFrame id (Some e) (it_val i_f) 0 1)) by (unfold w2; cbn; by rewrite lookup_insert).
  destruct (IH fresh c w2 x2) as (w'&x'&b&os&Hrun&Hh&G&Hmaps&Hway&Hcont&Hin&Hb).
  - by eapply history_reachable.
  - unfold w2. cbn. by rewrite lookup_insert.
  - eexists. split; [exact Hc2|done].
  - intros g Hg. destruct (Hst g) as (ig&Hig&Kg); [by right|]. exists ig. rewrite Halive; [done|]. congruence.
  - done.
  - done.
  - intros d Hd. rewrite Halive by congruence. apply Hfr. by right.
  - exact Hr'.
  - pose proof (grew_trans _ _ _ _ _ _ _ _ _ G12 G) as GG. pose proof G as (_&Gq&_).
    exists w', x', b, ([ONew c KFrame "" (it_val i_f); OAddChildF e a c] ++ os). split.
    { cbn [clone_frames]. unfold clone_item, wderef. rewrite Hf. rewrite Kf'. change (new_item c KFrame "" (it_val i_f) w) with (step w (ONew c KFrame "" (it_val i_f))).
      rewrite Hnew. cbn [obind]. rewrite Hs. cbn [obind]. exact Hrun. }
    split; [by eapply history_app|]. split; [exact GG|]. split; [by rewrite Hmaps|]. split.
    { cbn [rev]. eapply way_snoc; [exact Hway|]. destruct (Gq c Hcn) as (_&->&_). unfold get_parent, x2. cbn [with_tree e_tree]. rewrite assoc_ins by exact Hpc. by rewrite decide_True. }
    split; [|split; [|exact Hb]].
    + constructor.
      * exists i_f, (Item KFrame id (Some e) (it_val i_f) 0 1). destruct (Gq c Hcn) as (->&_). done.
      * eapply (Forall2_impl (fun p q => same_content w2 w' p q /\ p ∈ st)).
        -- apply Forall2_same_length_lookup. split; [done|]. intros i p q Hp Hq. split; [by eapply (Forall2_lookup_lr _ _ _ _ _ _ Hcont)|by eapply elem_of_list_lookup_2].
        -- intros p q ((i&j&Hi&Hj&K&V)&Hp). exists i, j. rewrite Halive in Hi; [done|]. destruct (Hst p) as (ip&Hip&_); [by right|congruence].
    + constructor; [|exact Hin]. eexists. destruct (Gq c Hcn) as (->&_). split; [exact Hc2|done].
Qed.

Lemma way_in x f r l : way x f r l -> forall g, g ∈ l -> is_Some (get_parent x g).
Proof. induction 1 as [|f q r l Hf HW IH]; intros g Hg; [by apply elem_of_nil in Hg|]. apply elem_of_cons in Hg as [->|Hg]; eauto. Qed.
Lemma way_ext x y f r l : way x f r l -> (forall g, g ∈ l -> get_parent y g = get_parent x g) -> way y f r l.
Proof. induction 1 as [|f q r l Hf HW IH]; intros Hg; econstructor; [rewrite Hg by left; exact Hf|]. apply IH. intros g Hin. apply Hg. by right. Qed.
Lemma parent_at w e x f q : reachable w -> w_envs w !! e = Some x -> get_parent x f = Some q -> has is_frame e (w_heap w) f.
Proof. intros HW Hx Hq. destruct (reach_parts _ _ _ HW Hx) as (I&_&_). by destruct (inv_tree _ _ I f q (assoc_in _ _ _ Hq)) as (?&_). Qed.

Lemma frame_stack_way w e x r f l : reachable w -> w_envs w !! e = Some x -> way x f r l -> get_parent x r = None -> forall fuel, length l < fuel ->
  frame_stack fuel w r f = Ok l.
Proof.
  intros HW Hx. induction 1 as [r|f q r l Hf HWay IH]; intros Hr [|fuel] Hlt; cbn [length] in Hlt; try lia; cbn [frame_stack].
  - by rewrite decide_True.
  - rewrite decide_False by congruence. destruct (parent_at _ _ _ _ _ HW Hx Hf) as (i&Hi&Ei&_). unfold frame_parent. rewrite Hi, Ei, Hx, Hf.
    rewrite IH by (done || lia). done.
Qed.
Lemma frame_stack_orphan w e x r root f l : reachable w -> w_envs w !! e = Some x -> way x f r l -> get_parent x r = None -> get_parent x root = None -> in_env w e r ->
  r <> root -> forall fuel, length l < fuel -> frame_stack fuel w root f = Bad UB.
Proof.
  intros HW Hx HWay Hr Hroot Hrin Hne. induction HWay as [r|f q r l Hf HWay IH]; intros [|fuel] Hlt; cbn [length] in Hlt; try lia; cbn [frame_stack].
  - rewrite decide_False by done. destruct Hrin as (i&Hi&Ei). unfold frame_parent. by rewrite Hi, Ei, Hx, Hr.
  - rewrite decide_False by congruence. destruct (parent_at _ _ _ _ _ HW Hx Hf) as (i&Hi&Ei&_). unfold frame_parent. rewrite Hi, Ei, Hx, Hf.
    rewrite IH by (done || lia). done.
Qed.

(** what the first two lines do, for any map *)
Lemma clone_start w e2 x2 m im copy k : reachable w -> w_heap w !! m = Some im -> it_kind im = KMap -> w_envs w !! e2 = Some x2 -> w_heap w !! copy = None ->
  room (S k) (St (w_heap w) x2 (w_tr w)) ->
  exists w1 w2 x2' ic, clone_item copy m w = Ok w1 /\ step w1 (OAttachMap e2 copy None) = Ok w2 /\
    history w [ONew copy KMap "" (it_val im); OAttachMap e2 copy None] w2 /\ grew e2 [copy] w w2 x2 x2' /\ e_tree x2' = e_tree x2 /\
    w_heap w2 !! copy = Some ic /\ it_env ic = Some e2 /\ it_kind ic = KMap /\ it_val ic = it_val im /\ numbered x2 (it_id ic) /\
    room k (St (w_heap w2) x2' (w_tr w2)).
Proof.
  intros HW Hm Km Hx Hc Hr. destruct (attach_new_map w e2 x2 copy (it_val im) k HW Hx Hc Hr) as (id&l'&t'&Hid&Hs&Hr'). cbv zeta in Hs, Hr'.
  destruct (fresh_table w e2 x2 copy HW Hx Hc) as [Hpc Hfc].
  eexists _, _, _, _. split; [unfold clone_item, wderef; rewrite Hm, Km; unfold new_item; rewrite Hc; reflexivity|]. split; [exact Hs|]. split.
  { econstructor; [done|left; cbn [step]; unfold new_item; rewrite Hc; reflexivity|]. econstructor; [done|left; exact Hs|constructor]. }
  split.
  { split; [reflexivity|]. split; [|done]. intros q Hq. rewrite elem_of_list_singleton in Hq. cbn [w_heap]. rewrite lookup_insert_ne by congruence. split; [done|]. split; [done|].
    unfold get_frame. cbn [with_maps e_maps]. rewrite assoc_ins by exact Hfc. by rewrite decide_False. }
  split; [done|]. cbn [w_heap]. rewrite lookup_insert. split; [reflexivity|]. done.
Qed.

(** ** C114 *)
Theorem C114_clone fuel w e1 x1 m im f l e2 x2 copy fresh :
  reachable w -> w_envs w !! e1 = Some x1 -> w_heap w !! m = Some im -> it_env im = Some e1 -> it_kind im = KMap ->
  get_frame x1 m = Some f -> way x1 f (e_root x1) l ->
  w_envs w !! e2 = Some x2 -> room (S (length l)) (St (w_heap w) x2 (w_tr w)) ->
  NoDup (copy :: fresh) -> (forall c, c ∈ copy :: fresh -> w_heap w !! c = None) -> length fresh = length l -> length l < fuel ->
  exists w' x2' ic f' os, clone_to fuel m e2 copy fresh w = Ok w' /\ history w os w' /\
    w_heap w' !! copy = Some ic /\ it_env ic = Some e2 /\ it_kind ic = KMap /\ it_val ic = it_val im /\ numbered x2 (it_id ic) /\
    get_frame x2' copy = Some f' /\ way x2' f' (e_root x2') (rev fresh) /\
    Forall2 (same_content w w') l (rev fresh) /\ Forall (in_env w' e2) fresh /\
    w_envs w' = <[e2 := x2']> (w_envs w) /\
    (forall q, q ∉ copy :: fresh -> w_heap w' !! q = w_heap w !! q /\ get_parent x2' q = get_parent x2 q /\ get_frame x2' q = get_frame x2 q) /\
    e_layers x2' = e_layers x2 /\ e_in x2' = e_in x2 /\ e_out x2' = e_out x2 /\
    e_root x2' = e_root x2 /\ e_prefix x2' = e_prefix x2 /\ e_handlers x2' = e_handlers x2.
Proof.
  intros HW Hx1 Hm Em Km Hf Hway Hx2 Hroom ND Hfr Hlen Hfuel. apply NoDup_cons in ND as [Hcf ND].
  assert (Hc : w_heap w !! copy = None) by (apply Hfr; left).
  destruct (clone_start w e2 x2 m im copy (length l) HW Hm Km Hx2 Hc Hroom) as (w1&w2&y2&ic&H1&H2&Hh2&G2&Ht2&Hic&Eic&Kic&Vic&Hid&Hr2).
  pose proof (history_reachable _ _ _ HW Hh2) as HW2. pose proof G2 as (Genv&Gq&Gl&Gi&Go&Groot&_).
  assert (Hmc : m <> copy) by congruence.
  (* environment of the original after the copy was attached *)
  assert (Hy1 : exists y1, w_envs w2 !! e1 = Some y1 /\ e_tree y1 = e_tree x1 /\ e_root y1 = e_root x1 /\ get_frame y1 m = Some f).
  { rewrite Genv. destruct (decide (e1 = e2)) as [<-|Hne].
    - exists y2. rewrite lookup_insert. rewrite Hx1 in Hx2. injection Hx2 as <-. split; [done|]. split; [done|]. split; [done|].
      destruct (Gq m) as (_&_&->); [by rewrite elem_of_list_singleton|done].
    - exists x1. by rewrite lookup_insert_ne. }
  destruct Hy1 as (y1&Hy1&Ht1&Hr1&Hf1).
  assert (Hy2 : w_envs w2 !! e2 = Some y2) by (by rewrite Genv, lookup_insert).
  assert (Hroot1 : get_parent y1 (e_root y1) = None) by (by destruct (reach_parts _ _ _ HW2 Hy1) as (_&[_ ?]&_)).
  assert (Hway1 : way y1 f (e_root y1) l). { rewrite Hr1. eapply way_ext; [exact Hway|]. intros g _. unfold get_parent. by rewrite Ht1. }
  pose proof (frame_stack_way w2 e1 y1 _ f l HW2 Hy1 Hway1 Hroot1 fuel Hfuel) as Hstack.
  destruct (clone_frames_ok e2 (rev l) fresh (e_root y2) w2 y2) as (w3&x3&f'&os&Hrun&Hh3&G3&Hmaps3&Hway3&Hcont&Hin&Hb).
  - done.
  - done.
  - by destruct (reach_parts _ _ _ HW2 Hy2) as (_&[? _]&_).
  - intros g Hg. rewrite elem_of_list_In, <-in_rev, <-elem_of_list_In in Hg. destruct (way_in _ _ _ _ Hway1 g Hg) as [q Hq].
    destruct (parent_at _ _ _ _ _ HW2 Hy1 Hq) as (i&Hi&_&Ki). by exists i.
  - rewrite rev_length. done.
  - done.
  - intros c Hcin. destruct (Gq c) as (->&_); [rewrite elem_of_list_singleton; congruence|]. apply Hfr. by right.
  - rewrite rev_length. done.
  - pose proof (history_reachable _ _ _ HW2 Hh3) as HW3. pose proof (grew_trans _ _ _ _ _ _ _ _ _ G2 G3) as G. pose proof G as (Fenv&Fq&Fl&Fi&Fo&Froot&Fpre&Fhan).
    assert (Hx3 : w_envs w3 !! e2 = Some x3) by (by rewrite Fenv, lookup_insert).
    destruct G3 as (_&G3q&_&_&_&G3root&_).
    destruct (G3q copy Hcf) as (Hcopy3&_&_).
    assert (Hcm : has is_map e2 (w_heap w3) copy). { exists ic. rewrite Hcopy3, Kic. done. }
    destruct (place_attached w3 e2 x3 copy f' HW3 Hx3 Hcm Hb) as (HL&x'&t'&Hs&Hfr'&Hfo&Hwith).
    exists (World (w_heap w3) (<[e2 := x']> (w_envs w3)) t'), x', ic, f', (([ONew copy KMap "" (it_val im); OAttachMap e2 copy None] ++ os) ++ [OSetFrame e2 copy f']).
    split.
    { unfold clone_to. rewrite H1. cbn [obind]. rewrite H2. cbn [obind]. unfold wderef.
      destruct (Gq m) as (->&_); [by rewrite elem_of_list_singleton|]. rewrite Hm, Em, Hy1, Hy2, Hf1, Hstack. cbn [obind]. rewrite Hrun. cbn [obind fst snd]. exact Hs. }
    split. { eapply history_snoc; [by eapply history_app|exact HL|left; exact Hs]. }
    assert (Htree : forall q, get_parent x' q = get_parent x3 q) by (intros q; rewrite Hwith; done).
    assert (Hroot' : e_root x' = e_root x3) by (rewrite Hwith; done).
    cbn [w_heap w_envs]. rewrite Hcopy3. do 5 (split; [done|]). split; [done|]. split.
    { rewrite Hroot', G3root. eapply way_ext; [exact Hway3|]. intros; apply Htree. }
    split.
    { apply Forall2_reverse in Hcont. unfold reverse in Hcont. rewrite <-!rev_alt in Hcont. rewrite rev_involutive in Hcont.
      apply Forall2_same_length_lookup. split; [by eapply Forall2_length|]. intros i p q Hp Hq.
      destruct (Forall2_lookup_lr _ _ _ _ _ _ Hcont Hp Hq) as (ip&iq&Hip&Hiq&K&V). exists ip, iq. cbn [w_heap].
      apply elem_of_list_lookup_2 in Hp. destruct (way_in _ _ _ _ Hway p Hp) as [z Hz]. destruct (parent_at _ _ _ _ _ HW Hx1 Hz) as (i0&Hi0&_).
      destruct (Gq p) as (Eq&_); [rewrite elem_of_list_singleton; congruence|]. rewrite <-Eq. done. }
    split. { eapply Forall_impl; [exact Hin|]. intros c (i&Hi&Ei). by exists i. }
    split; [by rewrite Fenv, insert_insert|].
    split.
    { intros q Hq. destruct (Fq q) as (E1&E2&E3); [done|]. split; [done|]. rewrite Htree. split; [done|]. rewrite Hfo; [done|]. intros ->. apply Hq. left. }
    rewrite Hwith. cbn [with_maps e_layers e_in e_out e_root e_prefix e_handlers]. done.
Qed.

(** the copy is where the original was: same transform to the root of the target *)
Section transform.
  Context (tf : Z -> aff).
  Definition val_at (w : world) (p : ptr) : Z := match w_heap w !! p with Some i => it_val i | None => 0 end.
  Fixpoint product (w : world) (l : list ptr) : aff := match l with [] => aone | p :: l => amul (product w l) (tf (val_at w p)) end.
  Lemma way_placed w e x f r l : reachable w -> w_envs w !! e = Some x -> way x f r l -> get_parent x r = None -> in_env w e r -> placed tf w f (product w l) r.
  Proof using.
    intros HW Hx. destruct (reach_parts _ _ _ HW Hx) as (I&_&_). induction 1 as [r|f q r l Hf HWay IH]; intros Hr Hin.
    - destruct Hin as (i&Hi&Ei). cbn [product]. eapply placed_top; [done|done|done|]. intros q Hq. apply assoc_nodup in Hq; [|apply I]. unfold get_parent in Hr. congruence.
    - destruct (parent_at _ _ _ _ _ HW Hx Hf) as (i&Hi&Ei&_). cbn [product]. unfold val_at. rewrite Hi. eapply placed_up; [done|done|done|by apply assoc_in|auto].
  Qed.
End transform.

Theorem C114_transform tf fuel w e1 x1 m im f l e2 x2 copy fresh A r :
  reachable w -> w_envs w !! e1 = Some x1 -> w_heap w !! m = Some im -> it_env im = Some e1 -> it_kind im = KMap ->
  get_frame x1 m = Some f -> way x1 f (e_root x1) l -> placed tf w f A r ->
  w_envs w !! e2 = Some x2 -> room (S (length l)) (St (w_heap w) x2 (w_tr w)) ->
  NoDup (copy :: fresh) -> (forall c, c ∈ copy :: fresh -> w_heap w !! c = None) -> length fresh = length l -> length l < fuel ->
  exists w' x2' f', clone_to fuel m e2 copy fresh w = Ok w' /\ w_envs w' !! e2 = Some x2' /\ get_frame x2' copy = Some f' /\ placed tf w' f' A (e_root x2).
Proof.
  intros HW Hx1 Hm Em Km Hf Hway HA Hx2 Hroom ND Hfr Hlen Hfuel.
  destruct (C114_clone fuel w e1 x1 m im f l e2 x2 copy fresh HW Hx1 Hm Em Km Hf Hway Hx2 Hroom ND Hfr Hlen Hfuel)
    as (w'&x'&ic&f'&os&Hrun&Hh&Hic&_&_&_&_&Hf'&Hway'&Hcont&_&Henv&_&_&_&_&Hroot&_).
  pose proof (history_reachable _ _ _ HW Hh) as HW'.
  assert (Hx' : w_envs w' !! e2 = Some x') by (by rewrite Henv, lookup_insert).
  exists w', x', f'. split; [done|]. split; [done|]. split; [done|].
  assert (A = product tf w l) as ->.
  { destruct (reach_parts _ _ _ HW Hx1) as (_&((i&Hi&Ei&_)&Hr)&_). cbn [hp en] in *.
    pose proof (way_placed tf w e1 x1 f (e_root x1) l HW Hx1 Hway Hr (ex_intro _ i (conj Hi Ei))) as HA'. by destruct (placed_fun tf w f A r HW HA _ _ HA'). }
  assert (product tf w l = product tf w' (rev fresh)) as ->.
  { clear -Hcont. induction Hcont as [|p q l l' (i&j&Hi&Hj&_&V) _ IH]; [done|]. cbn [product]. unfold val_at. by rewrite Hi, Hj, IH, V. }
  rewrite <-Hroot. destruct (reach_parts _ _ _ HW' Hx') as (_&((i&Hi&Ei&_)&Hr)&_). cbn [hp en] in *.
  eapply way_placed; [done|done|done|done|]. by exists i.
Qed.

(** a map of an environment whose frame does not hang below the root node: call on the null pointer (the copy is already attached by then) *)
Theorem C114_orphan fuel w e1 x1 m im f l r e2 x2 copy fresh :
  reachable w -> w_envs w !! e1 = Some x1 -> w_heap w !! m = Some im -> it_env im = Some e1 -> it_kind im = KMap ->
  get_frame x1 m = Some f -> way x1 f r l -> get_parent x1 r = None -> r <> e_root x1 -> in_env w e1 r ->
  w_envs w !! e2 = Some x2 -> room 1 (St (w_heap w) x2 (w_tr w)) -> w_heap w !! copy = None -> length l < fuel ->
  clone_to fuel m e2 copy fresh w = Bad UB.
Proof.
  intros HW Hx1 Hm Em Km Hf Hway Hr Hne Hrin Hx2 Hroom Hc Hfuel.
  destruct (clone_start w e2 x2 m im copy 0 HW Hm Km Hx2 Hc Hroom) as (w1&w2&y2&ic&H1&H2&Hh2&G2&Ht2&Hic&Eic&Kic&Vic&Hid&Hr2).
  pose proof (history_reachable _ _ _ HW Hh2) as HW2. pose proof G2 as (Genv&Gq&Gl&Gi&Go&Groot&_).
  assert (Hmc : m <> copy) by congruence.
  assert (Hy1 : exists y1, w_envs w2 !! e1 = Some y1 /\ e_tree y1 = e_tree x1 /\ e_root y1 = e_root x1 /\ get_frame y1 m = Some f).
  { rewrite Genv. destruct (decide (e1 = e2)) as [<-|Hne2].
    - exists y2. rewrite lookup_insert. rewrite Hx1 in Hx2. injection Hx2 as <-. split; [done|]. split; [done|]. split; [done|].
      destruct (Gq m) as (_&_&->); [by rewrite elem_of_list_singleton|done].
    - exists x1. by rewrite lookup_insert_ne. }
  destruct Hy1 as (y1&Hy1&Ht1&Hr1&Hf1).
  assert (Hy2 : w_envs w2 !! e2 = Some y2) by (by rewrite Genv, lookup_insert).
  assert (Hroot1 : get_parent y1 (e_root y1) = None) by (by destruct (reach_parts _ _ _ HW2 Hy1) as (_&[_ ?]&_)).
  assert (Hway1 : way y1 f r l). { eapply way_ext; [exact Hway|]. intros g _. unfold get_parent. by rewrite Ht1. }
  unfold clone_to. rewrite H1. cbn [obind]. rewrite H2. cbn [obind]. unfold wderef.
  destruct (Gq m) as (->&_); [by rewrite elem_of_list_singleton|]. rewrite Hm, Em, Hy1, Hy2, Hf1.
  rewrite (frame_stack_orphan w2 e1 y1 r (e_root y1) f l); [done|done|done|done| |done| |congruence|done].
  - unfold get_parent in *. by rewrite Ht1.
  - destruct Hrin as (i&Hi&Ei). exists i. destruct (Gq r) as (->&_); [rewrite elem_of_list_singleton; congruence|done].
Qed.

(** every map that has not been attached *)
Theorem C114_unattached fuel w m im e2 x2 copy fresh :
  reachable w -> w_heap w !! m = Some im -> it_env im = None -> it_kind im = KMap ->
  w_envs w !! e2 = Some x2 -> room 1 (St (w_heap w) x2 (w_tr w)) -> w_heap w !! copy = None ->
  clone_to fuel m e2 copy fresh w = Bad UB.
Proof.
  intros HW Hm Em Km Hx2 Hroom Hc.
  destruct (clone_start w e2 x2 m im copy 0 HW Hm Km Hx2 Hc Hroom) as (w1&w2&y2&ic&H1&H2&Hh2&G2&_).
  pose proof G2 as (Genv&Gq&_). unfold clone_to. rewrite H1. cbn [obind]. rewrite H2. cbn [obind]. unfold wderef.
  destruct (Gq m) as (->&_); [rewrite elem_of_list_singleton; congruence|]. by rewrite Hm, Em.
Qed.

(** ** Concrete cases *)
(** the frame and map of the demo: map 13 on frame 12, below frame 11, below the root 10 of environment 1 *)
Example C114_nonvacuous :
  let w := demo_world in
  reachable w /\ in_env w 1 13 /\ get_frame (demo_env 1) 13 = Some 12%positive /\ way (demo_env 1) 12 (e_root (demo_env 1)) [12%positive; 11%positive] /\
  room 3 (St (w_heap w) (demo_env 2) (w_tr w)) /\ (forall c, c ∈ [30%positive; 31%positive; 32%positive] -> w_heap w !! c = None) /\
  exists w' x', clone_to 3 13 2 30 [31%positive; 32%positive] w = Ok w' /\ w_envs w' !! 2%positive = Some x' /\
    get_frame x' 30 = Some 32%positive /\ get_parent x' 32 = Some 31%positive /\ get_parent x' 31 = Some 20%positive /\
    val_at w' 32 = 60%Z /\ val_at w' 31 = 5%Z /\ val_at w' 30 = 7%Z.
Proof.
  split; [apply demo_reachable|]. split; [vmdec|]. split; [vmtrue|]. split.
  { eapply way_cons; [vmtrue|]. eapply way_cons; [vmtrue|]. assert (e_root (demo_env 1) = 10%positive) as -> by vmtrue. constructor. }
  split; [unfold room; vm_compute; split; discriminate|]. split; [apply Forall_forall; vmdec|].
  assert (exists w', clone_to 3 13 2 30 [31%positive; 32%positive] demo_world = Ok w' /\ exists x', w_envs w' !! 2%positive = Some x' /\
    get_frame x' 30 = Some 32%positive /\ get_parent x' 32 = Some 31%positive /\ get_parent x' 31 = Some 20%positive /\
    val_at w' 32 = 60%Z /\ val_at w' 31 = 5%Z /\ val_at w' 30 = 7%Z) as (w'&H1&x'&H2).
  { assert (match clone_to 3 13 2 30 [31%positive; 32%positive] demo_world with Ok w' =>
      match w_envs w' !! 2%positive with Some x' => bool_decide (get_frame x' 30 = Some 32%positive /\ get_parent x' 32 = Some 31%positive /\ get_parent x' 31 = Some 20%positive /\
    val_at w' 32 = 60%Z /\ val_at w' 31 = 5%Z /\ val_at w' 30 = 7%Z) | None => false end | _ => false end = true) as H by vmtrue.
    revert H. destruct (clone_to 3 13 2 30 [31%positive; 32%positive] demo_world) as [w'|?|?|]; [|discriminate..]. intros H. exists w'. split; [reflexivity|].
    destruct (w_envs w' !! 2%positive) as [x'|]; [|discriminate]. exists x'. split; [reflexivity|]. exact (proj1 (bool_decide_eq_true _) H). }
  exists w', x'. split; [exact H1|exact H2].
Qed.

(** an attached map on a frame that was attached but never put below the root cannot be cloned *)
Theorem C114_orphan_refuted : exists w m e1 e2 x1 f, reachable w /\ in_env w e1 m /\ w_envs w !! e1 = Some x1 /\ get_frame x1 m = Some f /\
  forall fuel copy fresh, (0 < fuel)%nat -> w_heap w !! copy = None -> clone_to fuel m e2 copy fresh w = Bad UB.
Proof.
  set (w := demo_plus [ONew 30 KFrame "" 3; OAttach 1 30; ONew 31 KMap "" 4; OSetFrame 1 31 30]).
  assert (exists x1, w_envs w !! 1%positive = Some x1 /\ get_frame x1 31 = Some 30%positive /\ get_parent x1 30 = None /\ e_root x1 = 10%positive) as (x1&Hx1&Hf&Hp&Hr).
  { assert (match w_envs w !! 1%positive with Some x1 => bool_decide (get_frame x1 31 = Some 30%positive /\ get_parent x1 30 = None /\ e_root x1 = 10%positive) | None => false end = true) as H by vmtrue.
    revert H. destruct (w_envs w !! 1%positive) as [x1|]; [|discriminate]. intros H. exists x1. split; [reflexivity|]. exact (proj1 (bool_decide_eq_true _) H). }
  assert (exists im, w_heap w !! 31%positive = Some im /\ it_env im = Some 1%positive /\ it_kind im = KMap) as (im&Him&Eim&Kim).
  { assert (match w_heap w !! 31%positive with Some x1 => bool_decide (it_env x1 = Some 1%positive /\ it_kind x1 = KMap) | None => false end = true) as H by vmtrue.
    revert H. destruct (w_heap w !! 31%positive) as [i1|]; [|discriminate]. intros H. exists i1. split; [reflexivity|]. exact (proj1 (bool_decide_eq_true _) H). }
  assert (exists x2, w_envs w !! 2%positive = Some x2 /\ room 1 (St (w_heap w) x2 (w_tr w))) as (x2&Hx2&Hr2).
  { assert (match w_envs w !! 2%positive with Some x2 => bool_decide ((-2147483649 <= e_last x2)%Z /\ (e_last x2 + Z.of_nat 1 * (Z.of_nat (length (e_items x2)) + 1 + Z.of_nat 1) <= int_max)%Z) | None => false end = true) as H by vmtrue.
    revert H. destruct (w_envs w !! 2%positive) as [x2|]; [|discriminate]. intros H. exists x2. split; [reflexivity|]. exact (proj1 (bool_decide_eq_true _) H). }
  assert (HW : reachable w) by apply demo_plus_reachable.
  assert (Hin : in_env w 1 30) by vmdec.
  clearbody w. exists w, 31%positive, 1%positive, 2%positive, x1, 30%positive.
  split; [exact HW|]. split; [by exists im|]. split; [exact Hx1|]. split; [exact Hf|]. intros fuel copy fresh Hfuel Hc.
  eapply (C114_orphan fuel w 1 x1 31 im 30 [] 30); try eassumption; [constructor|]. rewrite Hr. discriminate.
Qed.

(** two maps on one frame: the clones are on different frames *)
Theorem C114_shared_refuted : exists w m1 m2 e1 e2 x1 f, reachable w /\ w_envs w !! e1 = Some x1 /\ m1 <> m2 /\ get_frame x1 m1 = Some f /\ get_frame x1 m2 = Some f /\
  exists w1 w2 x2 c1 c2 l1 l2 fuel, clone_to fuel m1 e2 c1 l1 w = Ok w1 /\ clone_to fuel m2 e2 c2 l2 w1 = Ok w2 /\ w_envs w2 !! e2 = Some x2 /\
    is_Some (get_frame x2 c1) /\ is_Some (get_frame x2 c2) /\ get_frame x2 c1 <> get_frame x2 c2.
Proof.
  set (w := demo_plus [ONew 29 KMap "" 4; OSetFrame 1 29 12]).
  assert (exists x1, w_envs w !! 1%positive = Some x1 /\ get_frame x1 13 = Some 12%positive /\ get_frame x1 29 = Some 12%positive) as (x1&Hx1&Hf1&Hf2).
  { assert (match w_envs w !! 1%positive with Some x1 => bool_decide (get_frame x1 13 = Some 12%positive /\ get_frame x1 29 = Some 12%positive) | None => false end = true) as H by vmtrue.
    revert H. destruct (w_envs w !! 1%positive) as [x1|]; [|discriminate]. intros H. exists x1. split; [reflexivity|]. exact (proj1 (bool_decide_eq_true _) H). }
  assert (exists w1, clone_to 3 13 2 30 [31%positive; 32%positive] w = Ok w1 /\ exists w2, clone_to 3 29 2 33 [34%positive; 35%positive] w1 = Ok w2 /\ exists x2, w_envs w2 !! 2%positive = Some x2 /\
    get_frame x2 30 = Some 32%positive /\ get_frame x2 33 = Some 35%positive) as (w1&H1&w2&H2&x2&Hx2&G1&G2).
  { assert (match clone_to 3 13 2 30 [31%positive; 32%positive] w with Ok w1 => match clone_to 3 29 2 33 [34%positive; 35%positive] w1 with Ok w2 =>
      match w_envs w2 !! 2%positive with Some x2 => bool_decide (get_frame x2 30 = Some 32%positive /\ get_frame x2 33 = Some 35%positive) | None => false end | _ => false end | _ => false end = true) as H by vmtrue.
    revert H. destruct (clone_to 3 13 2 30 [31%positive; 32%positive] w) as [w1|?|?|]; [|discriminate..]. intros H. exists w1. split; [reflexivity|].
    destruct (clone_to 3 29 2 33 [34%positive; 35%positive] w1) as [w2|?|?|]; [|discriminate..]. exists w2. split; [reflexivity|].
    destruct (w_envs w2 !! 2%positive) as [x2|]; [|discriminate]. exists x2. split; [reflexivity|]. exact (proj1 (bool_decide_eq_true _) H). }
  assert (HW : reachable w) by apply demo_plus_reachable. clearbody w.
  exists w, 13%positive, 29%positive, 1%positive, 2%positive, x1, 12%positive. split; [exact HW|]. split; [exact Hx1|]. split; [discriminate|]. split; [exact Hf1|]. split; [exact Hf2|].
  exists w1, w2, x2, 30%positive, 33%positive, [31%positive; 32%positive], [34%positive; 35%positive], 3%nat. split; [exact H1|]. split; [exact H2|]. split; [exact Hx2|].
  rewrite G1, G2. split; [by eexists|]. split; [by eexists|]. discriminate.
Qed.

(** the copy does not have the unique id of the original *)
Theorem C114_id_refuted : exists w m e1 e2 w' copy fresh fuel, reachable w /\ in_env w e1 m /\ clone_to fuel m e2 copy fresh w = Ok w' /\ idn (w_heap w') copy <> idn (w_heap w) m.
Proof.
  assert (exists w', clone_to 3 13 2 30 [31%positive; 32%positive] demo_world = Ok w' /\ idn (w_heap w') 30 <> idn (w_heap demo_world) 13) as (w'&H1&H2).
  { assert (match clone_to 3 13 2 30 [31%positive; 32%positive] demo_world with Ok w' => bool_decide (idn (w_heap w') 30 <> idn (w_heap demo_world) 13) | _ => false end = true) as H by vmtrue.
    revert H. destruct (clone_to 3 13 2 30 [31%positive; 32%positive] demo_world) as [w'|?|?|]; [|discriminate..]. intros H. exists w'. split; [reflexivity|]. exact (proj1 (bool_decide_eq_true _) H). }
  exists demo_world, 13%positive, 1%positive, 2%positive, w', 30%positive, [31%positive; 32%positive], 3%nat. split; [apply demo_reachable|]. split; [vmdec|]. split; [exact H1|exact H2].
Qed.
