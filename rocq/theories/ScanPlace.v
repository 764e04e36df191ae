(** Matching a point cloud in an environment.  C127.
    icp/icpLocalization.cpp:183-252, on top of the model of the environment core.

    Simplifications: what the matching computes is an argument, namely the number of pairs and the transform that ICP::align gives to the frame (icp.hpp:413-418, 148-162: exactly one
    setTransform); the other fields of the result are left out. The content of the cloud and of the frame is a number, as everywhere in the environment core. *)
From stdpp Require Import prelude strings gmap pretty relations.
From Verif Require Import Base AssocLemmas EnvModel EnvSpec EnvLib EnvGood EnvAttach EnvLinks EnvLinks2 EnvWorld EnvStep EnvStep2 EnvStep3 EnvDemo EnvProps EnvProps2 EnvProps3 EnvEffects Clone.

(** * Model *)
(** icpLocalization.cpp:183-187, removeLastSavedPointCloud *)
Definition remove_last (e : eid) (pc fn : ptr) (w : world) : W :=
  w1 <~ step w (ODetach e pc false false) ;; step w1 (ODetach e fn false false).
(** icpLocalization.cpp:188-200: [from] is [inputData.pc2World], [fn] the address of the new frame; CartesianMap::setFrameNode, Layer.cpp:176-181 *)
Definition place_cloud (e : eid) (pc fn : ptr) (from : Z) (w : world) : W :=
  w1 <~ step w (OAttachMap e pc None) ;;
  w2 <~ step w1 (ONew fn KFrame "" from) ;;
  w3 <~ step w2 (OAttach e fn) ;;
  match w_envs w3 !! e with
  | None => Bad UB
  | Some x =>
    w4 <~ step w3 (OAddChildF e (e_root x) fn) ;;
    wderef pc w4 (fun it => match it_env it with None => Throw w4 | Some e' => step w4 (OSetFrame e' pc fn) end)
  end.
(** icpLocalization.cpp:188-252, doScanMatch: with the cloud is stored what the frame has in the end, if there are pairs; [debug]: environment_debug_path is not empty *)
Definition do_scan_match (e : eid) (pc fn : ptr) (from aligned : Z) (pairs : nat) (save debug : bool) (w : world) : out world (world * option Z) :=
  w1 <~ place_cloud e pc fn from w ;;
  w2 <~ step w1 (OSetVal fn aligned) ;;
  r <~ (if decide (0 < pairs) then match w_heap w2 !! fn with Some it => Ok (w2, Some (it_val it)) | None => Bad UB end else Ok (w2, None)) ;;
  if negb save || negb debug then w3 <~ remove_last e pc fn r.1 ;; Ok (w3, r.2) else Ok r.

(** * Specification *)
(** environments that differ in nothing but the number for the next unique id *)
Definition same_env (x y : env) : Prop := y = with_last x (e_last y).
(** the worlds differ in nothing but the number for the next unique id of environment [e], and what handlers have received *)
Definition same_world (e : eid) (w w' : world) : Prop :=
  w_heap w' = w_heap w /\ exists x x', w_envs w !! e = Some x /\ w_envs w' = <[e := x']> (w_envs w) /\ same_env x x'.

(** * Proof *)
Lemma filter_ins_out {A} `{!EqDecision A} (P : A * positive -> Prop) `{!forall kv, Decision (P kv)} (lt : A -> A -> bool) k v (l : list (A * positive)) :
  ~ P (k, v) -> filter P (ins lt k v l) = filter P l.
Proof.
  intros Hn. induction l as [|[a b] l IH]; cbn [ins]; [rewrite filter_cons; by rewrite decide_False|]. destruct (lt k a); rewrite filter_cons; [by rewrite decide_False|].
  rewrite IH. by rewrite filter_cons.
Qed.
Lemma place_exact w e x m n : reachable w -> w_envs w !! e = Some x -> has is_map e (w_heap w) m -> has is_frame e (w_heap w) n -> get_frame x m <> Some n ->
  legal w (OSetFrame e m n) /\
  exists t', step w (OSetFrame e m n) = Ok (World (w_heap w) (<[e := with_maps x (ins plt m n (del_key m (e_maps x)))]> (w_envs w)) t').
Proof.
  intros HW Hx Hm Hn Hd. destruct (reach_parts _ _ _ HW Hx) as (I&_&_).
  pose proof Hm as (im&Him&Eim&Kim). pose proof Hn as (i_n&Hin&Ein&Kin). split.
  { cbn. split; left; [by exists im|by exists i_n]. }
  pose proof (place_map_wp False false e m n _ I Hm Hn) as Hwp.
  cbn [step]. unfold typed, wderef. rewrite Him, Kim, Hin, Kin. unfold on_env, focus. rewrite Hx.
  unfold set_frame, attach_if_free, deref. cbn [hp]. rewrite Hin, Ein. cbn [obind hp]. rewrite Him, Eim. cbn [obind].
  destruct (place_map e m n (St (w_heap w) x (w_tr w))) as [s'|s'|?|]; [|done..]. destruct Hwp as (G&Hh&Hen). cbn [hp en] in *.
  exists (tr s'). unfold unfocus. rewrite Hh, Hen. rewrite decide_False by done. done.
Qed.
Lemma child_exact w e x a c : reachable w -> w_envs w !! e = Some x -> has is_frame e (w_heap w) a -> has is_frame e (w_heap w) c -> a <> c -> get_parent x c = None ->
  exists t', step w (OAddChildF e a c) = Ok (World (w_heap w) (<[e := with_tree x (ins plt c a (e_tree x))]> (w_envs w)) t').
Proof.
  intros HW Hx Ha Hc Hne Hp. destruct (reach_parts _ _ _ HW Hx) as (I&_&_).
  pose proof Ha as (ia&Hia&Eia&Kia). pose proof Hc as (ic&Hic&Eic&Kic).
  pose proof (Inv_tree_ins e _ I c a (w_tr w) Hc Ha (not_eq_sym Hne) Hp) as I2.
  cbn [step]. unfold typed, wderef. rewrite Hia, Kia, Hic, Kic. unfold on_env, focus. rewrite Hx.
  unfold add_child_f. rewrite decide_False by done. cbn [en]. rewrite Hp. rewrite decide_False by done.
  unfold attach_if_free, deref. cbn [hp]. rewrite Hic, Eic. cbn [obind en]. rewrite Hp. cbn [obind].
  assert (Hmi : map_ins plt c a (e_tree x) = ins plt c a (e_tree x)). { unfold map_ins. unfold get_parent in Hp. by rewrite Hp. }
  unfold set_en. cbn [en hp tr]. rewrite Hmi. unfold emit. rewrite (emit_to_ok e); [|exact I2|by eapply has_any|]; [|intros b Hb; injection Hb as <-; by eapply has_any].
  eexists. reflexivity.
Qed.

(** what the environment has after the cloud and its frame were placed *)
Definition with_cloud (x : env) (l : Z) (id1 id2 : string) (pc fn : ptr) : env :=
  with_maps (with_tree (with_items (with_last x l) (ins str_ltb id2 fn (ins str_ltb id1 pc (e_items x)))) (ins plt fn (e_root x) (e_tree x))) (ins plt pc fn (e_maps x)).
Lemma del_ins_key c v (l : list (positive * positive)) : assoc c l = None -> del_key c (ins plt c v l) = l.
Proof.
  intros H. unfold del_key. rewrite filter_ins_out by (cbn; tauto). change (del_key c l = l). by apply del_key_fresh.
Qed.
Lemma place_ok w e x pc fn v from : reachable w -> w_envs w !! e = Some x -> w_heap w !! pc = None -> w_heap w !! fn = None -> pc <> fn -> room 2 (St (w_heap w) x (w_tr w)) ->
  let w0 := World (<[pc := Item KMap "" None v 0 0]> (w_heap w)) (w_envs w) (w_tr w) in
  exists l id1 id2 t, numbered x id1 /\ numbered x id2 /\
    let w' := World (<[fn := Item KFrame id2 (Some e) from 0 1]> (<[pc := Item KMap id1 (Some e) v 0 1]> (w_heap w))) (<[e := with_cloud x l id1 id2 pc fn]> (w_envs w)) t in
    place_cloud e pc fn from w0 = Ok w' /\ reachable w'.
Proof.
  intros HW Hx Hpc Hfn Hne Hr w0.
  destruct (attach_new_map w e x pc v 1 HW Hx Hpc Hr) as (id1&l1&t1&Hid1&Hs1&Hr1). cbv zeta in Hs1, Hr1. fold w0 in Hs1.
  destruct (fresh_table w e x pc HW Hx Hpc) as [_ Hfpc]. destruct (fresh_table w e x fn HW Hx Hfn) as [Hpfn _].
  destruct (reach_parts _ _ _ HW Hx) as (I0&((ir&Hir&Eir&Kir)&Hrp)&_). cbn [hp en] in Hir, Hrp.
  set (x1 := with_maps (with_items (with_last x l1) (ins str_ltb id1 pc (e_items x))) (ins plt pc (e_root x) (e_maps x))) in *.
  set (w1 := World (<[pc := Item KMap id1 (Some e) v 0 1]> (w_heap w)) (<[e := x1]> (w_envs w)) t1) in *.
  assert (HW0 : reachable w0). { eapply (reachable_step w (ONew pc KMap "" v)); [done|done|]. left. cbn [step]. unfold new_item. by rewrite Hpc. }
  assert (HW1 : reachable w1). { eapply (reachable_step w0 (OAttachMap e pc None)); [done|done|]. by left. }
  assert (Hx1 : w_envs w1 !! e = Some x1) by (unfold w1; cbn; by rewrite lookup_insert).
  assert (Hfn1 : w_heap w1 !! fn = None) by (unfold w1; cbn; by rewrite lookup_insert_ne).
  destruct (new_wp w1 e x1 fn KFrame from 0 HW1 Hx1 Hfn1 Hr1) as (HW2&id2&l2&t2&Hid2&Hatt&G&_).
  set (w2 := World (<[fn := Item KFrame "" None from 0 0]> (w_heap w1)) (w_envs w1) (w_tr w1)) in *.
  set (x3 := with_items (with_last x1 l2) (ins str_ltb id2 fn (e_items x1))) in *.
  set (w3 := World (<[fn := Item KFrame id2 (Some e) from 0 1]> (w_heap w1)) (<[e := x3]> (w_envs w1)) t2).
  assert (Hs3 : step w2 (OAttach e fn) = Ok w3).
  { cbn [step]. unfold attach_item, wderef. unfold w2 at 1. cbn [w_heap]. rewrite lookup_insert. cbn [it_env]. unfold on_env, focus. cbn [w2 w_envs w_heap w_tr]. rewrite Hx1.
    rewrite Hatt. reflexivity. }
  assert (Hnr : ~ is_root w2 fn). { intros (e'&y&Hy&Hroot). cbn in Hy. destruct (reach_parts _ _ _ HW1 Hy) as (_&((i&Hi&_)&_)&_). cbn in Hi. rewrite Hroot in Hi. unfold w1 in Hfn1. cbn in Hfn1. congruence. }
  assert (HW3 : reachable w3). { eapply (reachable_step w2 (OAttach e fn)); [done| |by left]. cbn. by right. }
  assert (Hx3 : w_envs w3 !! e = Some x3) by (unfold w3; cbn; by rewrite lookup_insert).
  assert (Hrpc : e_root x <> pc) by congruence. assert (Hrfn : e_root x <> fn) by congruence.
  assert (Ha3 : has is_frame e (w_heap w3) (e_root x)). { exists ir. unfold w3, w1. cbn. by rewrite !lookup_insert_ne. }
  assert (Hc3 : has is_frame e (w_heap w3) fn). { eexists. unfold w3. cbn. rewrite lookup_insert. split; [reflexivity|done]. }
  assert (Hm3 : has is_map e (w_heap w3) pc). { eexists. unfold w3, w1. cbn. rewrite lookup_insert_ne by done. rewrite lookup_insert. split; [reflexivity|done]. }
  destruct (child_exact w3 e x3 (e_root x) fn HW3 Hx3 Ha3 Hc3 Hrfn Hpfn) as (t4&Hs4).
  set (x4 := with_tree x3 (ins plt fn (e_root x) (e_tree x3))) in *. set (w4 := World (w_heap w3) (<[e := x4]> (w_envs w3)) t4) in *.
  assert (HL4 : legal w3 (OAddChildF e (e_root x) fn)).
  { unfold legal. split; [|split; [|split]].
    - destruct Ha3 as (i&?&?&_). by exists i.
    - left. destruct Hc3 as (i&?&?&_). by exists i.
    - intros (e'&y&Hy&Hroot). destruct (decide (e' = e)) as [->|He].
      + rewrite Hx3 in Hy. injection Hy as <-. cbn in Hroot. done.
      + unfold w3, w1 in Hy. cbn in Hy. rewrite !lookup_insert_ne in Hy by done. destruct (reach_parts _ _ _ HW Hy) as (_&((i&Hi&_)&_)&_). cbn in Hi. congruence.
    - intros y Hy Hp. rewrite Hx3 in Hy. injection Hy as <-. apply rtc_inv_r in Hp as [Heq|(q&_&Hq)]; [done|].
      unfold parent_of in Hq. change (e_tree x3) with (e_tree x) in Hq. destruct (inv_tree _ _ I0 q fn Hq) as (_&(i&Hi&_)&_). cbn in Hi. congruence. }
  assert (HW4 : reachable w4) by (eapply (reachable_step w3); [done|exact HL4|by left]).
  assert (Hx4 : w_envs w4 !! e = Some x4) by (unfold w4; cbn; by rewrite lookup_insert).
  assert (Hg4 : get_frame x4 pc = Some (e_root x)). { change (assoc pc (ins plt pc (e_root x) (e_maps x)) = Some (e_root x)). rewrite assoc_ins by exact Hfpc. by rewrite decide_True. }
  destruct (place_exact w4 e x4 pc fn HW4 Hx4 Hm3 Hc3) as (HL5&t5&Hs5). { rewrite Hg4. congruence. }
  change (e_maps x4) with (ins plt pc (e_root x) (e_maps x)) in Hs5. rewrite del_ins_key in Hs5 by exact Hfpc.
  set (w5 := World (w_heap w4) _ t5) in Hs5.
  assert (E5 : w5 = World (<[fn := Item KFrame id2 (Some e) from 0 1]> (<[pc := Item KMap id1 (Some e) v 0 1]> (w_heap w))) (<[e := with_cloud x l2 id1 id2 pc fn]> (w_envs w)) t5).
  { unfold w5, w4, w3, w1. cbn [w_heap w_envs]. rewrite !insert_insert. reflexivity. }
  exists l2, id1, id2, t5. split; [done|]. split; [done|]. cbv zeta. rewrite <- E5. split.
  - unfold place_cloud. rewrite Hs1. cbn [obind]. change (step w1 (ONew fn KFrame "" from)) with (new_item fn KFrame "" from w1). unfold new_item. rewrite Hfn1. fold w2. cbn [obind].
    rewrite Hs3. cbn [obind]. rewrite Hx3. change (e_root x3) with (e_root x). rewrite Hs4. cbn [obind]. unfold wderef. destruct Hm3 as (im&Him&Eim&_). change (w_heap w4) with (w_heap w3). rewrite Him, Eim. exact Hs5.
  - eapply (reachable_step w4); [done|exact HL5|by left].
Qed.

Lemma detach_gone w e x p it : reachable w -> w_envs w !! e = Some x -> w_heap w !! p = Some it -> it_env it = Some e -> it_user it = 0 -> e_root x <> p ->
  exists w' x', step w (ODetach e p false false) = Ok w' /\ reachable w' /\ w_heap w' = delete p (w_heap w) /\ w_envs w' = <[e := x']> (w_envs w) /\
    e_items x' = filter (fun ip => ip.2 <> p) (e_items x) /\
    e_tree x' = filter (fun kv => kv.1 <> p /\ kv.2 <> p) (e_tree x) /\
    e_layers x' = filter (fun kv => kv.1 <> p /\ kv.2 <> p) (e_layers x) /\
    e_in x' = filter (fun kv => kv.1 <> p /\ kv.2 <> p) (e_in x) /\
    e_out x' = filter (fun kv => kv.1 <> p /\ kv.2 <> p) (e_out x) /\
    e_maps x' = filter (fun kv => kv.1 <> p /\ kv.2 <> p) (e_maps x) /\
    e_root x' = e_root x /\ e_prefix x' = e_prefix x /\ e_handlers x' = e_handlers x.
Proof.
  intros HW Hx Hp He Hu Hroot.
  assert (Hnr : ~ is_root w p).
  { intros (e'&y&Hy&Hr). destruct (reach_parts _ _ _ HW Hy) as (_&((i&Hi&Ei&_)&_)&_). cbn in Hi. rewrite Hr in Hi. rewrite Hp in Hi. injection Hi as <-. rewrite He in Ei. injection Ei as <-. congruence. }
  destruct (C07_detach_exact w e x p it false false HW Hx Hp He Hnr) as (w'&x'&D&Hs&HD&Henv&H1&H2&H3&H4&H5&H6&Hr&Hpre&Hh&H7&H8).
  assert (HD' : forall q, q ∉ D <-> q <> p) by (intros q; rewrite HD; naive_solver).
  assert (Hf : forall l : list (ptr * ptr), filter (fun kv => kv.1 ∉ D /\ kv.2 ∉ D) l = filter (fun kv => kv.1 <> p /\ kv.2 <> p) l).
  { intros l. apply list_filter_ext_in. intros kv _. by rewrite !HD'. }
  exists w', x'. split; [done|]. split. { eapply reachable_step; [exact HW| |left; exact Hs]. cbn. split; [by exists it|done]. }
  rewrite H2, H3, H4, H5, H6, !Hf. split.
  { apply map_eq. intros q. destruct (decide (q = p)) as [->|Hq]; [|rewrite lookup_delete_ne by done; by apply H7, HD'].
    rewrite lookup_delete. destruct (H8 p it) as [_ ->]; [apply HD; by left|done|]. by rewrite Hu. }
  split; [done|]. split; [|done]. rewrite H1. apply list_filter_ext_in. intros kv _. by rewrite HD'.
Qed.

(** nothing in the tables mentions an address where there is no item *)
Lemma unmentioned w e x p : reachable w -> w_envs w !! e = Some x -> w_heap w !! p = None ->
  (forall ip, ip ∈ e_items x -> ip.2 <> p) /\
  (forall l kv, l ∈ [e_tree x; e_layers x; e_in x; e_out x; e_maps x] -> kv ∈ l -> kv.1 <> p /\ kv.2 <> p).
Proof.
  intros HW Hx Hp. destruct (reach_parts _ _ _ HW Hx) as (I&_&_).
  assert (N : forall f q, has f e (w_heap w) q -> q <> p). { intros f q (i&Hi&_) ->. congruence. }
  split.
  - intros [id q] Hin. apply (inv_items _ _ I) in Hin as (i&Hi&_). cbn in *. congruence.
  - intros l [a b] Hl Hin. cbn. rewrite !elem_of_cons, elem_of_nil in Hl. destruct Hl as [->|[->|[->|[->|[->|[]]]]]].
    + destruct (inv_tree _ _ I a b Hin) as (?&?&_). eauto.
    + destruct (inv_layers _ _ I a b Hin) as (?&?&_). eauto.
    + destruct (inv_in _ _ I a b Hin) as (?&?). eauto.
    + destruct (inv_out _ _ I a b Hin) as (?&?). eauto.
    + destruct (inv_maps _ _ I a b Hin) as (?&?). eauto.
Qed.

Lemma removed_ok w e x pc fn l id1 id2 t v f : reachable w -> w_envs w !! e = Some x -> w_heap w !! pc = None -> w_heap w !! fn = None -> pc <> fn ->
  let w1 := World (<[fn := Item KFrame id2 (Some e) f 0 1]> (<[pc := Item KMap id1 (Some e) v 0 1]> (w_heap w))) (<[e := with_cloud x l id1 id2 pc fn]> (w_envs w)) t in
  reachable w1 -> exists w', remove_last e pc fn w1 = Ok w' /\ reachable w' /\ same_world e w w'.
Proof.
  intros HW Hx Hpc Hfn Hne w1 HW1.
  destruct (unmentioned w e x pc HW Hx Hpc) as [U1 U2]. destruct (unmentioned w e x fn HW Hx Hfn) as [V1 V2].
  destruct (reach_parts _ _ _ HW Hx) as (_&((ir&Hir&_)&_)&_). cbn in Hir.
  destruct (detach_gone w1 e (with_cloud x l id1 id2 pc fn) pc (Item KMap id1 (Some e) v 0 1) HW1) as (w2&x2&Hs2&HW2&Hh2&He2&I2&T2&L2&N2&O2&M2&R2&P2&H2); [| |done|done| |].
  { unfold w1. cbn. by rewrite lookup_insert. } { unfold w1. cbn. rewrite lookup_insert_ne by done. by rewrite lookup_insert. } { cbn. congruence. }
  destruct (detach_gone w2 e x2 fn (Item KFrame id2 (Some e) f 0 1) HW2) as (w3&x3&Hs3&HW3&Hh3&He3&I3&T3&L3&N3&O3&M3&R3&P3&H3); [| |done|done| |].
  { rewrite He2. by rewrite lookup_insert. } { rewrite Hh2. rewrite lookup_delete_ne by done. unfold w1. cbn. by rewrite lookup_insert. } { rewrite R2. cbn. congruence. }
  exists w3. split; [unfold remove_last; rewrite Hs2; exact Hs3|]. split; [done|]. split.
  { rewrite Hh3, Hh2. unfold w1. cbn [w_heap]. rewrite delete_insert_ne by done. rewrite !delete_insert_delete. rewrite (delete_notin _ pc) by done. by apply delete_notin. }
  exists x, x3. split; [done|]. split; [rewrite He3, He2; unfold w1; cbn [w_envs]; by rewrite !insert_insert|].
  unfold with_cloud in *. cbn [e_items e_tree e_layers e_in e_out e_maps e_root e_prefix e_handlers with_maps with_tree with_items with_last] in *.
  rewrite I2 in I3. rewrite T2 in T3. rewrite L2 in L3. rewrite N2 in N3. rewrite O2 in O3. rewrite M2 in M3. clear I2 T2 L2 N2 O2 M2.
  assert (Out : forall q (k : list (positive * positive)), (forall kv, kv ∈ k -> kv.1 <> q /\ kv.2 <> q) -> filter (fun kv => kv.1 <> q /\ kv.2 <> q) k = k).
  { intros q k H. by apply list_filter_id. }
  rewrite (Out pc) in L3 by (intros kv; apply U2; set_solver). rewrite (Out fn) in L3 by (intros kv; apply V2; set_solver).
  rewrite (Out pc) in N3 by (intros kv; apply U2; set_solver). rewrite (Out fn) in N3 by (intros kv; apply V2; set_solver).
  rewrite (Out pc) in O3 by (intros kv; apply U2; set_solver). rewrite (Out fn) in O3 by (intros kv; apply V2; set_solver).
  rewrite (filter_ins_out _ plt pc) in M3 by (cbn; tauto). rewrite (Out pc) in M3 by (intros kv; apply U2; set_solver). rewrite (Out fn) in M3 by (intros kv; apply V2; set_solver).
  rewrite list_filter_filter in T3. rewrite (filter_ins_out _ plt fn) in T3 by (cbn; tauto). rewrite <- (list_filter_filter (fun kv : positive * positive => kv.1 <> fn /\ kv.2 <> fn)) in T3.
  rewrite (Out pc) in T3 by (intros kv; apply U2; set_solver). rewrite (Out fn) in T3 by (intros kv; apply V2; set_solver).
  assert (EI : e_items x3 = e_items x).
  { rewrite I3, list_filter_filter. rewrite filter_ins_out by (cbn; tauto). rewrite filter_ins_out by (cbn; tauto). apply list_filter_id. intros ip Hin. split; [by apply V1|by apply U1]. }
  unfold same_env. destruct x3, x. cbn in *. subst. unfold with_last. cbn. congruence.
Qed.

(** * Theorems *)
Definition result (pairs : nat) (aligned : Z) : option Z := if decide (0 < pairs) then Some aligned else None.
Lemma match_ok w e x pc fn v from aligned pairs : reachable w -> w_envs w !! e = Some x -> w_heap w !! pc = None -> w_heap w !! fn = None -> pc <> fn ->
  room 2 (St (w_heap w) x (w_tr w)) ->
  exists w0 l id1 id2 t, numbered x id1 /\ numbered x id2 /\ step w (ONew pc KMap "" v) = Ok w0 /\
    let w1 := World (<[fn := Item KFrame id2 (Some e) aligned 0 1]> (<[pc := Item KMap id1 (Some e) v 0 1]> (w_heap w))) (<[e := with_cloud x l id1 id2 pc fn]> (w_envs w)) t in
    reachable w1 /\
    forall save debug, do_scan_match e pc fn from aligned pairs save debug w0 =
      if save && debug then Ok (w1, result pairs aligned) else (w3 <~ remove_last e pc fn w1 ;; Ok (w3, result pairs aligned)).
Proof.
  intros HW Hx Hpc Hfn Hne Hr. destruct (place_ok w e x pc fn v from HW Hx Hpc Hfn Hne Hr) as (l&id1&id2&t&N1&N2&Hs&HW').
  set (w' := World _ _ t) in Hs, HW'.
  assert (Hf : w_heap w' !! fn = Some (Item KFrame id2 (Some e) from 0 1)) by (unfold w'; cbn; by rewrite lookup_insert).
  destruct (C67_set_content w' fn _ aligned HW' Hf) as (w1&Hs1&He1&Hh1). cbn [it_kind it_id it_env it_user it_refs] in Hh1.
  eexists _, l, id1, id2, (w_tr w1). split; [done|]. split; [done|]. split; [cbn [step]; unfold new_item; rewrite Hpc; reflexivity|]. cbv zeta.
  assert (E : World (<[fn := Item KFrame id2 (Some e) aligned 0 1]> (<[pc := Item KMap id1 (Some e) v 0 1]> (w_heap w))) (<[e := with_cloud x l id1 id2 pc fn]> (w_envs w)) (w_tr w1) = w1).
  { destruct w1 as [h1 e1 t1]. cbn [w_heap w_envs w_tr] in *. rewrite Hh1, He1. unfold w'. cbn [w_heap w_envs]. by rewrite insert_insert. }
  rewrite E. split; [eapply (reachable_step w' (OSetVal fn aligned)); [done|done|by left]|].
  intros save debug. unfold do_scan_match. rewrite Hs. cbn [obind]. fold w'. rewrite Hs1. cbn [obind].
  assert (Hf1 : w_heap w1 !! fn = Some (Item KFrame id2 (Some e) aligned 0 1)) by (rewrite Hh1; by rewrite lookup_insert).
  rewrite Hf1. unfold result. destruct (decide (0 < pairs)); cbn [obind fst snd it_val]; destruct save, debug; reflexivity.
Qed.

(** Matching a point cloud that was just made: the result has the transform that the matching gave to its frame, if there are pairs. If the cloud is saved, it is in the environment,
    on a new frame below the root with this transform; everything else is as before, *)
Theorem C127_saved w e x pc fn v from aligned pairs : reachable w -> w_envs w !! e = Some x -> w_heap w !! pc = None -> w_heap w !! fn = None -> pc <> fn ->
  room 2 (St (w_heap w) x (w_tr w)) ->
  exists w0 w' x' id1 id2, step w (ONew pc KMap "" v) = Ok w0 /\ do_scan_match e pc fn from aligned pairs true true w0 = Ok (w', result pairs aligned) /\ reachable w' /\
    w_heap w' !! pc = Some (Item KMap id1 (Some e) v 0 1) /\ w_heap w' !! fn = Some (Item KFrame id2 (Some e) aligned 0 1) /\ numbered x id1 /\ numbered x id2 /\
    get_frame x' pc = Some fn /\ get_parent x' fn = Some (e_root x) /\ get_parent x' pc = None /\ get_frame x' fn = None /\
    grew e [pc; fn] w w' x x'.
Proof.
  intros HW Hx Hpc Hfn Hne Hr. destruct (match_ok w e x pc fn v from aligned pairs HW Hx Hpc Hfn Hne Hr) as (w0&l&id1&id2&t&N1&N2&Hs&HW1&Hm). cbv zeta in HW1, Hm.
  destruct (fresh_table w e x pc HW Hx Hpc) as [P1 F1]. destruct (fresh_table w e x fn HW Hx Hfn) as [P2 F2].
  eexists w0, _, (with_cloud x l id1 id2 pc fn), id1, id2. split; [done|]. split; [apply (Hm true true)|]. split; [done|]. cbn [w_heap].
  rewrite lookup_insert_ne by done. rewrite !lookup_insert. split; [done|]. split; [done|]. split; [done|]. split; [done|].
  unfold get_frame, get_parent, with_cloud. cbn [e_tree e_maps with_maps with_tree with_items with_last]. rewrite !assoc_ins by done.
  rewrite !decide_True by done. rewrite !decide_False by done. split; [done|]. split; [done|]. split; [done|]. split; [done|].
  split; [done|]. split; [|done]. intros q Hq. rewrite !elem_of_cons, elem_of_nil in Hq. cbn [w_heap]. rewrite !lookup_insert_ne by (intros ->; tauto). split; [done|].
  unfold get_frame, get_parent. cbn [e_tree e_maps with_maps with_tree with_items with_last]. rewrite !assoc_ins by done. rewrite !decide_False by (intros ->; tauto). done.
Qed.
(** until it is removed: then everything is as it was before the cloud was made. *)
Theorem C127_removed w e x pc fn v from aligned pairs : reachable w -> w_envs w !! e = Some x -> w_heap w !! pc = None -> w_heap w !! fn = None -> pc <> fn ->
  room 2 (St (w_heap w) x (w_tr w)) ->
  exists w0 w1 w', step w (ONew pc KMap "" v) = Ok w0 /\ do_scan_match e pc fn from aligned pairs true true w0 = Ok (w1, result pairs aligned) /\
    remove_last e pc fn w1 = Ok w' /\ reachable w' /\ same_world e w w'.
Proof.
  intros HW Hx Hpc Hfn Hne Hr. destruct (match_ok w e x pc fn v from aligned pairs HW Hx Hpc Hfn Hne Hr) as (w0&l&id1&id2&t&N1&N2&Hs&HW1&Hm). cbv zeta in HW1, Hm.
  destruct (removed_ok w e x pc fn l id1 id2 t v aligned HW Hx Hpc Hfn Hne HW1) as (w'&Hs'&HW'&Hsame).
  eexists w0, _, w'. split; [done|]. split; [apply (Hm true true)|]. done.
Qed.
(** If it is not saved, or no path for debugging is set, everything is as it was before the cloud was made. *)
Theorem C127_not_saved w e x pc fn v from aligned pairs save debug : reachable w -> w_envs w !! e = Some x -> w_heap w !! pc = None -> w_heap w !! fn = None -> pc <> fn ->
  room 2 (St (w_heap w) x (w_tr w)) -> save && debug = false ->
  exists w0 w', step w (ONew pc KMap "" v) = Ok w0 /\ do_scan_match e pc fn from aligned pairs save debug w0 = Ok (w', result pairs aligned) /\ reachable w' /\ same_world e w w'.
Proof.
  intros HW Hx Hpc Hfn Hne Hr Hsave. destruct (match_ok w e x pc fn v from aligned pairs HW Hx Hpc Hfn Hne Hr) as (w0&l&id1&id2&t&N1&N2&Hs&HW1&Hm). cbv zeta in HW1, Hm.
  destruct (removed_ok w e x pc fn l id1 id2 t v aligned HW Hx Hpc Hfn Hne HW1) as (w'&Hs'&HW'&Hsame).
  exists w0, w'. split; [done|]. split; [rewrite Hm, Hsave, Hs'; done|]. done.
Qed.
Definition ex_cloud : world := demo_plus [ONew 30 KMap "" 7].
Definition ex_saved : out world (world * option Z) := do_scan_match 1 30 31 5 6 3 true true ex_cloud.
Example C127_nonvacuous : reachable demo_world /\ w_heap demo_world !! 30%positive = None /\ w_heap demo_world !! 31%positive = None /\
  (exists x, w_envs demo_world !! 1%positive = Some x /\ room 2 (St (w_heap demo_world) x (w_tr demo_world)) /\ e_maps x <> []) /\
  match ex_saved with
  | Ok (w, r) => r = Some 6%Z /\ (match w_envs w !! 1%positive with Some x => (length (e_items x), get_frame x 30, get_parent x 31) = (length (e_items (demo_env 1)) + 2, Some 31%positive, Some (e_root x)) | None => False end)
  | _ => False end.
Proof.
  split; [apply demo_reachable|]. split; [vm_compute; reflexivity|]. split; [vm_compute; reflexivity|]. split.
  - exists (demo_env 1). split; [vm_compute; reflexivity|]. split; [split; vm_compute; intros H; discriminate H|]. vm_compute. intros H. discriminate H.
  - vm_compute. repeat split.
Qed.

(** * What does not hold *)
(** A cloud that is not saved is destroyed, although the caller still has its address: matching it again, or removing it, is undefined. *)
Theorem C127_dangling_refuted w e x pc fn v from aligned pairs save debug : reachable w -> w_envs w !! e = Some x -> w_heap w !! pc = None -> w_heap w !! fn = None -> pc <> fn ->
  room 2 (St (w_heap w) x (w_tr w)) -> save && debug = false ->
  exists w0 w', step w (ONew pc KMap "" v) = Ok w0 /\ do_scan_match e pc fn from aligned pairs save debug w0 = Ok (w', result pairs aligned) /\
    remove_last e pc fn w' = Bad UB /\ (forall fn' from' aligned' pairs' save' debug', do_scan_match e pc fn' from' aligned' pairs' save' debug' w' = Bad UB).
Proof.
  intros HW Hx Hpc Hfn Hne Hr Hsave. destruct (C127_not_saved w e x pc fn v from aligned pairs save debug HW Hx Hpc Hfn Hne Hr Hsave) as (w0&w'&Hs&Hm&_&Hh&x0&x'&_&Hen&_).
  exists w0, w'. split; [done|]. split; [done|]. rewrite <- Hh in Hpc. split.
  - unfold remove_last. cbn [step]. unfold user_detach, on_env, focus. rewrite Hen, lookup_insert. unfold detach_fuel. cbn [detach]. unfold deref. cbn [hp]. by rewrite Hpc.
  - intros. unfold do_scan_match, place_cloud. cbn [step]. unfold typed, wderef. by rewrite Hpc.
Qed.
