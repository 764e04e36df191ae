(** C25, C28: saving and loading. *)
From Coq Require Import ZArith Ascii String Sorted.
From stdpp Require Import prelude strings gmap pretty relations.
From Verif Require Import Base AssocLemmas EnvModel EnvSpec EnvLib EnvGood EnvAttach EnvWorld EnvStep3 EnvProps EnvRoot EnvDemo Ids Persist PersistLib.

(** * Specification *)
(** Two environments have the same content: under each id there is an item of the same class and content (or none
    in both), and items with the same id are linked to items with the same ids, in the same order. *)
Record same_content (h : gmap positive item) (x : env) (h' : gmap positive item) (x' : env) : Prop := {
  sc_items : forall id, payload_of h <$> get_item x id = payload_of h' <$> get_item x' id;
  sc_links : forall id p p', get_item x id = Some p -> get_item x' id = Some p' ->
    idn h <$> get_parent x p = idn h' <$> get_parent x' p' /\
    idn h <$> get_frame x p = idn h' <$> get_frame x' p' /\
    idn h <$> get_parents x p = idn h' <$> get_parents x' p' /\
    idn h <$> get_inputs x p = idn h' <$> get_inputs x' p' /\
    idn h <$> get_outputs x p = idn h' <$> get_outputs x' p';
  sc_root : idn h (e_root x) = idn h' (e_root x');
}.

(** the names of all files that the items of an environment write *)
Definition file_names (c : codec) (h : gmap positive item) (x : env) : list string :=
  e_items x ≫= fun ip => match h !! ip.2 with Some it => (obj_files c it).*1 | None => [] end.

(** * Proofs *)
Definition load_rest (c : codec) (me : eid) (ps : list ptr) (d : doc) (fs : files) (s : st) : M :=
  sl <~ load_objs c me fs (zip ps (d_objs d)) s 0 ;;
  s2 <~ iter_out load_link (d_links d) sl.1 ;;
  if decide (sl.2 = long_max) then Bad UB
  else Ok (set_en s2 (with_last (en s2) (sl.2 + 1))).
Definition empty_st (r : ptr) (w : world) : st := St (w_heap w) (Env [] [] [] [] [] [] r "/" 1 []) (w_tr w).
Definition finish (me : eid) (w : world) (s : st) : world := World (hp s) (<[me := en s]> (w_envs w)) (tr s).

Lemma load_unfold c me r ps d fs w : w_envs w !! me = None -> w_heap w !! r = None ->
  load c me r ps d fs w
  = match load_rest c me ps d fs (empty_st r w) with
    | Ok s => Ok (finish me w s) | Throw s => Throw (finish me w s) | Bad b => Bad b | NoFuel => NoFuel end.
Proof.
  intros He Hr. unfold load, new_env. rewrite He, Hr. unfold on_env at 1. unfold focus. simpl. rewrite lookup_insert. simpl.
  pose proof (attach_new me (empty_st r w) r KFrame "/0" 0) as HA. unfold put, set_hp in HA. simpl in HA.
  rewrite HA; [|done|done|done|done|done]. simpl. unfold on_env, focus, unfocus. simpl. rewrite lookup_insert. simpl.
  unfold load_st. simpl.
  assert (forall t, detach_drop me r (St (<[r:=Item KFrame "/0" (Some me) 0 0 1]> (w_heap w)) (Env [("/0", r)] [] [] [] [] [] r "/" 1 []) t)
    = Ok (St (w_heap w) (Env [] [] [] [] [] [] r "/" 1 []) t)) as HD.
  { intros t. unfold detach_drop, detach_one, deref. simpl. rewrite lookup_insert. simpl.
    unfold emit, emit_to, deref. simpl. rewrite lookup_insert. unfold drop_temp. simpl. rewrite lookup_insert. simpl.
    rewrite lookup_insert. simpl. unfold release, deref. simpl. rewrite lookup_insert. simpl. unfold drop_temp. simpl.
    rewrite lookup_insert. simpl. unfold set_hp. simpl.
    rewrite !delete_insert_delete. rewrite delete_notin by done. by rewrite app_nil_r. }
  rewrite HD. simpl. unfold load_rest, empty_st.
  destruct (load_objs c me fs (zip ps (d_objs d)) _ 0) as [[s last]|s|b|]; simpl.
  - destruct (iter_out load_link (d_links d) s) as [s2|s2|b|]; simpl;
      [|unfold finish; simpl; by rewrite !insert_insert|done|done].
    case_decide; [done|]. unfold finish. simpl. by rewrite !insert_insert.
  - unfold finish. simpl. by rewrite !insert_insert.
  - done.
  - done.
Qed.

Lemma empty_inv me r w : WInv w -> w_envs w !! me = None -> Inv me (empty_st r w).
Proof.
  intros HW He. constructor; simpl; try (by intros ?? ?%elem_of_nil); try (by constructor); try done.
  - intros id p. split; [by intros ?%elem_of_nil|]. intros (it&Hp&Hit&_).
    destruct (winv_owner _ HW _ _ _ Hp Hit) as [y Hy]. congruence.
  - apply (winv_refs _ HW).
Qed.

Lemma mapM_lookup (h : gmap positive item) (l : list (string * ptr)) :
  (forall id p, (id, p) ∈ l -> exists it, h !! p = Some it /\ it_id it = id) ->
  exists its, mapM (fun ip : string * ptr => h !! ip.2) l = Some its /\ it_id <$> its = l.*1 /\
    length its = length l /\
    (forall it, it ∈ its <-> exists ip, ip ∈ l /\ h !! ip.2 = Some it) /\
    forall c, (its ≫= obj_files c).*1 = l ≫= (fun ip => match h !! ip.2 with Some it => (obj_files c it).*1 | None => [] end).
Proof.
  induction l as [|[id p] l IH]; intros Hl.
  - exists []. do 3 (split; [done|]). split; [|done]. intros it. split; [by intros ?%elem_of_nil|]. intros (?&?%elem_of_nil&_). done.
  - destruct (Hl id p (elem_of_list_here _ _)) as (it&Hp&Hid).
    destruct IH as (its&E&E1&E2&E3&E4). { intros id' p' Hin. apply Hl. by right. }
    exists (it :: its). split; [cbn [mapM]; simpl; rewrite Hp; simpl; by rewrite E|].
    split; [rewrite !fmap_cons; by rewrite Hid, E1|]. split; [simpl; by rewrite E2|]. split.
    + intros it'. rewrite elem_of_cons, E3. split.
      * intros [->|(ip&Hin&Hip)]; [exists (id, p); split; [left|done]|exists ip; split; [by right|done]].
      * intros (ip&[->|Hin]%elem_of_cons&Hip); [left; simpl in Hip; congruence|right; eauto].
    + intros c. rewrite !bind_cons, fmap_app, E4. simpl. by rewrite Hp.
Qed.

Lemma elem_zip {A B} (l : list A) (k : list B) b : length l = length k -> b ∈ k -> exists a, (a, b) ∈ zip l k.
Proof.
  revert k. induction l as [|a l IH]; intros [|b' k] Hlen Hb; try discriminate; [by apply elem_of_nil in Hb|].
  apply elem_of_cons in Hb as [->|Hb]; [exists a; left|]. destruct (IH k) as (a'&?); [by injection Hlen|done|]. exists a'. by right.
Qed.

Lemma tc_img {A B} (R : A -> A -> Prop) (S : B -> B -> Prop) (f : A -> B) (D : A -> Prop) :
  (forall u v, S u v -> exists a b, u = f a /\ v = f b /\ R a b) ->
  (forall a b, R a b -> D a /\ D b) -> (forall a b, D a -> D b -> f a = f b -> a = b) ->
  forall u v, tc S u v -> exists a b, u = f a /\ v = f b /\ tc R a b /\ D a /\ D b.
Proof.
  intros HS HD Hi u v Htc. induction Htc as [u v Huv|u v z Huv Htc IH].
  - destruct (HS u v Huv) as (a&b&->&->&Hab). exists a, b. split; [done|]. split; [done|]. split; [by apply tc_once|by apply HD].
  - destruct (HS u v Huv) as (a&b&->&Hv&Hab). destruct IH as (b'&c&Hv'&->&Hbc&Db&Dc). destruct (HD a b Hab) as [Da Db'].
    assert (b = b') as -> by (apply Hi; congruence). exists a, c. split; [done|]. split; [done|]. split; [by eapply tc_l|done].
Qed.

(** * C25: what is saved is loaded again *)
(** [w]: when saving; [w2]: when loading, e.g. in another process, any consistent world (every reachable one is, EnvStep3.reachable_inv,
    and so is the result of loading). The addresses of the new objects are fresh. *)
Theorem C25_lossless c w e x fs0 w2 me r ps :
  reachable w -> w_envs w !! e = Some x ->
  (forall id p, (id, p) ∈ e_items x -> stable c (payload_of (w_heap w) p).1 (payload_of (w_heap w) p).2) ->
  NoDup (file_names c (w_heap w) x) ->
  (forall id p, (id, p) ∈ e_items x -> id_number id <> Some long_max) ->
  WInv w2 -> w_envs w2 !! me = None -> w_heap w2 !! r = None ->
  length ps = length (e_items x) -> NoDup ps -> (forall p, p ∈ ps -> w_heap w2 !! p = None) ->
  exists d fs w' x',
    save c (w_heap w) x fs0 = Some (d, fs) /\
    load c me r ps d fs w2 = Ok w' /\
    w_envs w' !! me = Some x' /\
    same_content (w_heap w) x (w_heap w') x' /\
    (forall p it, w_heap w2 !! p = Some it -> w_heap w' !! p = Some it) /\
    (forall e', e' <> me -> w_envs w' !! e' = w_envs w2 !! e') /\
    w_tr w' = w_tr w2 /\ WInv w'.
Proof.
  intros HR Hx Hst Hfn Hnum HW2 Hme Hr Hlen NDps Hps.
  pose proof (reachable_root w e x HR Hx) as Hroot0.
  destruct (reach_parts w e x HR Hx) as (HI&[HRf HRp]&HA). simpl in HRf, HRp. set (h := w_heap w) in *.
  assert (Hin : forall id p, (id, p) ∈ e_items x <-> exists it, h !! p = Some it /\ it_env it = Some e /\ it_id it = id)
    by apply (inv_items _ _ HI).
  destruct (mapM_lookup h (e_items x)) as (its&Eits&Eids&Elen&Hits&Hfiles).
  { intros id p (it&?&?&?)%Hin. eauto. }
  set (fs := write_files (its ≫= obj_files c) fs0).
  assert (Hitsin : forall it, it ∈ its -> exists p, h !! p = Some it /\ it_env it = Some e /\ (it_id it, p) ∈ e_items x).
  { intros it ([id p]&Hip&Hp)%Hits. simpl in Hp. exists p. split; [done|].
    pose proof (proj1 (Hin _ _) Hip) as (it1&Hp1&He&Hid). rewrite Hp in Hp1. injection Hp1 as <-. split; [done|]. by rewrite Hid. }
  edestruct (load_objs_ok c me fs ps its (empty_st r w2) 0) as
    (s1&last1&E1&HI1&Htr1&Hhp1&Hnew1&Hit1&T1&T2&T3&T4&T5&Hh1&Hpre1&Hrt1&_&Hlast1&Hmax1&Hex1).
  { congruence. }
  { by apply empty_inv. }
  { done. }
  { done. }
  { done. }
  { rewrite Eids. apply (inv_nodup _ _ HI). }
  { intros it Hi. destruct (Hitsin it Hi) as (p&Hp&He&Hip).
    specialize (Hst _ _ Hip). unfold payload_of in Hst. fold h in Hst. rewrite Hp in Hst. split; [exact Hst|].
    split; [by apply (inv_slash _ _ HI) in Hip|]. split; [by apply (inv_end _ _ HI) in Hip|]. split; [done|]. split.
    - intros H0. destruct HRf as (itr&Hr1&Hr2&Hr3). unfold idn in Hroot0. fold h in Hroot0. rewrite Hr1 in Hroot0.
      assert ((it_id itr, e_root x) ∈ e_items x) as Hir by (apply Hin; eauto).
      rewrite Hroot0 in Hir. rewrite H0 in Hip.
      apply assoc_nodup in Hir; [|apply (inv_nodup _ _ HI)]. apply assoc_nodup in Hip; [|apply (inv_nodup _ _ HI)].
      rewrite Hir in Hip. injection Hip as <-. rewrite Hr1 in Hp. injection Hp as ->. by destruct (it_kind it).
    - intros name data Hnd. unfold fs. apply write_files_in.
      + rewrite Hfiles. exact Hfn.
      + apply elem_of_list_bind. eauto. }
  simpl in Hhp1, Hit1, T1, T2, T3, T4, T5, Hpre1, Htr1.
  set (phi := fun a => default xH (assoc (idn h a) (e_items (en s1)))).
  assert (Hphi : forall a it, h !! a = Some it -> it_env it = Some e ->
     assoc (it_id it) (e_items (en s1)) = Some (phi a) /\ hp s1 !! phi a = Some (loaded me it) /\ first_char (it_id it) = Some slash).
  { intros a it Ha He. assert ((it_id it, a) ∈ e_items x) as Hia by (apply Hin; eauto).
    assert (it ∈ its) as Hii by (apply Hits; by exists (it_id it, a)).
    destruct (elem_zip ps its it) as (p&Hp); [congruence|done|].
    assert (assoc (it_id it) (e_items (en s1)) = Some p) as Hap.
    { apply assoc_nodup; [apply (inv_nodup _ _ HI1)|]. apply Hit1. right. eauto. }
    assert (phi a = p) as ->. { unfold phi, idn. rewrite Ha, Hap. done. }
    split; [done|]. split; [by apply Hnew1|]. by apply (inv_slash _ _ HI) in Hia. }
  assert (Hinj0 : forall p q, idn h p = idn h q -> has any e h p -> has any e h q -> p = q).
  { intros p q Heq (ip&Hp&Hpe&_) (iq&Hq&Hqe&_). unfold idn in Heq. rewrite Hp, Hq in Heq.
    assert ((it_id ip, p) ∈ e_items x) as H1 by (apply Hin; eauto). assert ((it_id iq, q) ∈ e_items x) as H2 by (apply Hin; eauto).
    rewrite Heq in H1. apply assoc_nodup in H1; [|apply (inv_nodup _ _ HI)]. apply assoc_nodup in H2; [|apply (inv_nodup _ _ HI)]. congruence. }
  assert (Hinj : forall a b, has any e h a -> has any e h b -> phi a = phi b -> a = b).
  { intros a b Ha Hb Hab. eapply (phi_inj me e h (hp s1) (e_items (en s1)) phi Hphi); [|exact Ha|exact Hb|exact Hab].
    intros id p q _ E2 E3 Hp Hq. apply Hinj0; [congruence|done|done]. }
  assert (Hhas : forall f a, has f e h a -> has f me (hp s1) (phi a)).
  { intros f a (it&Ha&He&Hf). destruct (Hphi a it Ha He) as (_&H2&_). by exists (loaded me it). }
  destruct (tree_links me e h (hp s1) (e_items (en s1)) phi Hphi (e_tree x) s1) as (n1&N1&L1); [done|done| |].
  { intros a b Hab. apply (inv_tree _ _ HI) in Hab as (?&?&_). done. }
  set (s2 := set_en s1 _) in L1.
  destruct (layer_links me e h (hp s1) (e_items (en s1)) phi Hphi (e_layers x) s2) as (n2&N2&L2); [done|done| |].
  { intros a b Hab. apply (inv_layers _ _ HI) in Hab as (?&?&_). done. }
  set (s3 := set_en s2 _) in L2.
  destruct (in_links me e h (hp s1) (e_items (en s1)) phi Hphi (e_in x) s3) as (n3&N3&L3); [done|done| |].
  { intros a b Hab. apply (inv_in _ _ HI) in Hab as (?&?). done. }
  set (s4 := set_en s3 _) in L3.
  destruct (out_links me e h (hp s1) (e_items (en s1)) phi Hphi (e_out x) s4) as (n4&N4&L4); [done|done| |].
  { intros a b Hab. apply (inv_out _ _ HI) in Hab as (?&?). done. }
  set (s5 := set_en s4 _) in L4.
  destruct (map_links me e h (hp s1) (e_items (en s1)) phi Hphi (e_maps x) s5) as (n5&N5&L5); [done|done| |].
  { intros a b Hab. apply (inv_maps _ _ HI) in Hab as (?&?). done. }
  set (s6 := set_en s5 _) in L5.
  set (d := Doc (obj_node c <$> its) (n1 ++ n2 ++ n3 ++ n4 ++ n5)).
  set (s7 := set_en s6 (with_last (en s6) (last1 + 1))).
  assert (Hsave : save c h x fs0 = Some (d, fs)).
  { unfold save. rewrite Eits. simpl. rewrite N1. simpl. rewrite N2. simpl. rewrite N3. simpl. rewrite N4. simpl. rewrite N5. done. }
  assert (Hload : load_rest c me ps d fs (empty_st r w2) = Ok s7).
  { unfold load_rest. unfold d at 1. cbn [d_objs]. rewrite E1. cbn [obind fst snd]. unfold d. cbn [d_links].
    rewrite iter_out_app, L1. cbn [obind]. rewrite iter_out_app, L2. cbn [obind]. rewrite iter_out_app, L3. cbn [obind].
    rewrite iter_out_app, L4. cbn [obind]. rewrite L5. cbn [obind]. rewrite decide_False; [done|].
    destruct Hex1 as [->|(it&Hi&Hn)]; [done|]. intros ->. destruct (Hitsin it Hi) as (p&_&_&Hip). by apply Hnum in Hip. }
  exists d, fs, (finish me w2 s7), (en s7). split; [exact Hsave|].
  split. { rewrite load_unfold by done. by rewrite Hload. }
  split. { simpl. by rewrite lookup_insert. }
  assert (X1 : e_tree (en s7) = put_all phi (map_ins plt) (e_tree x) []) by (unfold s7, s6, s5, s4, s3, s2; simpl; by rewrite T1).
  assert (X2 : e_layers (en s7) = put_all phi (ins plt) (e_layers x) []) by (unfold s7, s6, s5, s4, s3, s2; simpl; by rewrite T2).
  assert (X3 : e_in (en s7) = put_all phi (ins plt) (e_in x) []) by (unfold s7, s6, s5, s4, s3, s2; simpl; by rewrite T3).
  assert (X4 : e_out (en s7) = put_all phi (ins plt) (e_out x) []) by (unfold s7, s6, s5, s4, s3, s2; simpl; by rewrite T4).
  assert (X5 : e_maps (en s7) = put_all phi (map_ins plt) (e_maps x) []) by (unfold s7, s6, s5, s4, s3, s2; simpl; by rewrite T5).
  assert (X6 : e_items (en s7) = e_items (en s1)) by done.
  assert (X7 : hp s7 = hp s1) by done.
  assert (X8 : e_root (en s7) = e_root (en s1)) by done.
  assert (Xp : e_prefix (en s7) = "/") by exact Hpre1.
  assert (X9 : tr s7 = w_tr w2) by exact Htr1.
  clearbody s7. clear s2 s3 s4 s5 s6 L1 L2 L3 L4 L5 n1 n2 n3 n4 n5 N1 N2 N3 N4 N5 d Hsave Hload.
  assert (Hmem : forall F t u v, (forall k v l y, y ∈ F k v l -> y = (k, v) \/ y ∈ l) ->
    (u, v) ∈ put_all phi F t [] -> exists a b, u = phi a /\ v = phi b /\ (a, b) ∈ t).
  { intros F t u v HF Huv. apply put_all_elem in Huv as [Huv|Huv]; [by apply elem_of_nil in Huv| |done].
    apply elem_of_list_fmap in Huv as ([a b]&Heq&Hab). injection Heq as -> ->. eauto. }
  assert (Hgi : forall id p, get_item x id = Some p -> get_item (en s7) id = Some (phi p) /\ has any e h p).
  { intros id p Hp. apply assoc_in in Hp. apply Hin in Hp as (it&Hp&He&<-). split.
    - unfold get_item. rewrite X6. by apply Hphi.
    - by exists it. }
  assert (Hidn : forall f p, has f e h p -> idn h p = idn (hp s7) (phi p)).
  { intros f p (it&Hp&He&_). rewrite X7. destruct (Hphi p it Hp He) as (_&H2&_). unfold idn. by rewrite Hp, H2. }
  assert (Hrootphi : e_root (en s7) = phi (e_root x)).
  { rewrite X8. destruct HRf as (itr&Hr1&Hr2&Hr3). destruct (Hphi _ _ Hr1 Hr2) as (H1&_&_).
    unfold idn in Hroot0. fold h in Hroot0. rewrite Hr1 in Hroot0.
    apply assoc_in in H1. apply Hit1 in H1 as [H1|(it&Hz&Hid)]; [by apply elem_of_nil in H1|].
    apply (Hrt1 _ it Hz). congruence. }
  assert (HI7 : Inv me s7).
  { constructor.
    - intros id p. rewrite X6, X7. apply (inv_items _ _ HI1).
    - rewrite X6. apply HI1.
    - rewrite X1. apply put_map_nodup. constructor.
    - rewrite X5. apply put_map_nodup. constructor.
    - intros u v. rewrite X1, X7. intros (a&b&->&->&Hab)%Hmem; [|apply map_ins_elem].
      apply (inv_tree _ _ HI) in Hab as (Ha&Hb&Hne). split; [by apply Hhas|]. split; [by apply Hhas|].
      intros Heq. apply Hne. apply Hinj; [by eapply has_any|by eapply has_any|done].
    - intros u v. rewrite X2, X7. intros (a&b&->&->&Hab)%Hmem; [|apply ins_elem].
      apply (inv_layers _ _ HI) in Hab as (Ha&Hb&Hne). split; [by apply Hhas|]. split; [by apply Hhas|].
      intros Heq. apply Hne. apply Hinj; [by eapply has_any|by eapply has_any|done].
    - intros u v. rewrite X3, X7. intros (a&b&->&->&Hab)%Hmem; [|apply ins_elem].
      apply (inv_in _ _ HI) in Hab as (Ha&Hb). split; by apply Hhas.
    - intros u v. rewrite X4, X7. intros (a&b&->&->&Hab)%Hmem; [|apply ins_elem].
      apply (inv_out _ _ HI) in Hab as (Ha&Hb). split; by apply Hhas.
    - intros u v. rewrite X5, X7. intros (a&b&->&->&Hab)%Hmem; [|apply map_ins_elem].
      apply (inv_maps _ _ HI) in Hab as (Ha&Hb). split; by apply Hhas.
    - rewrite X7. apply (inv_refs _ _ HI1).
    - rewrite X6. apply (inv_slash _ _ HI1).
    - rewrite X6. apply (inv_end _ _ HI1).
    - by rewrite Xp. }
  assert (D1 : forall k v, (k, v) ∈ e_tree x -> has any e h k). { intros k v Hkv. apply (inv_tree _ _ HI) in Hkv as (?&_). by eapply has_any. }
  assert (D2 : forall k v, (k, v) ∈ e_layers x -> has any e h k). { intros k v Hkv. apply (inv_layers _ _ HI) in Hkv as (?&_). by eapply has_any. }
  assert (D3 : forall k v, (k, v) ∈ e_in x -> has any e h k). { intros k v Hkv. apply (inv_in _ _ HI) in Hkv as (?&_). by eapply has_any. }
  assert (D4 : forall k v, (k, v) ∈ e_out x -> has any e h k). { intros k v Hkv. apply (inv_out _ _ HI) in Hkv as (?&_). by eapply has_any. }
  assert (D5 : forall k v, (k, v) ∈ e_maps x -> has any e h k). { intros k v Hkv. apply (inv_maps _ _ HI) in Hkv as (?&_). by eapply has_any. }
  assert (Hpar : forall p, has any e h p -> get_parent (en s7) (phi p) = phi <$> get_parent x p).
  { intros p Hp. unfold get_parent. rewrite X1. by rewrite (put_map_assoc phi (has any e h) Hinj). }
  assert (Hfr : forall p, has any e h p -> get_frame (en s7) (phi p) = phi <$> get_frame x p).
  { intros p Hp. unfold get_frame. rewrite X5. by rewrite (put_map_assoc phi (has any e h) Hinj). }
  assert (Hval : forall t p, has any e h p -> (forall k v, (k, v) ∈ t -> has any e h k) ->
     values_of (phi p) (put_all phi (ins plt) t []) = phi <$> values_of p t).
  { intros t p Hp Ht. rewrite (put_ins_values phi (has any e h) Hinj); [done|constructor|done|done]. }
  split.
  { constructor.
    - intros id. destruct (get_item x id) as [p|] eqn:Ep.
      + destruct (Hgi id p Ep) as [-> Hp]. simpl. f_equal. destruct Hp as (it&Hp&He&_).
        destruct (Hphi p it Hp He) as (_&H2&_). unfold payload_of. simpl. rewrite X7, H2. fold h. by rewrite Hp.
      + destruct (get_item (en s7) id) as [p'|] eqn:Ep'; [|done]. exfalso. unfold get_item in Ep'. rewrite X6 in Ep'.
        apply assoc_in in Ep'. apply Hit1 in Ep' as [Ep'|(it&Hz&Hid)]; [by apply elem_of_nil in Ep'|].
        apply elem_of_zip_r in Hz. destruct (Hitsin it Hz) as (p&_&_&Hip). rewrite Hid in Hip.
        apply assoc_none in Ep. apply Ep. apply elem_of_list_fmap. by exists (id, p).
    - intros id p p' Hp Hp'. destruct (Hgi id p Hp) as [Hp2 Hhp]. rewrite Hp2 in Hp'. injection Hp' as <-. simpl.
      assert (Hl : forall f (l : list ptr), (forall q, q ∈ l -> has f e h q) -> idn h <$> l = idn (hp s7) <$> (phi <$> l)).
      { intros f l Hl. rewrite <- list_fmap_compose. apply list_fmap_ext. intros i q Hq. apply elem_of_list_lookup_2 in Hq.
        simpl. eapply Hidn. by apply Hl. }
      split; [|split; [|split; [|split]]].
      + rewrite Hpar by done. destruct (get_parent x p) as [q|] eqn:Eq; [|done]. simpl. f_equal.
        apply assoc_in, (inv_tree _ _ HI) in Eq as (_&Hq&_). by eapply Hidn.
      + rewrite Hfr by done. destruct (get_frame x p) as [q|] eqn:Eq; [|done]. simpl. f_equal.
        apply assoc_in, (inv_maps _ _ HI) in Eq as (_&Hq). by eapply Hidn.
      + unfold get_parents. rewrite X2, Hval by done. apply (Hl is_layer). intros q Hq%elem_of_values_of. by apply (inv_layers _ _ HI) in Hq as (_&?&_).
      + unfold get_inputs. rewrite X3, Hval by done. apply (Hl is_layer). intros q Hq%elem_of_values_of. by apply (inv_in _ _ HI) in Hq as (_&?).
      + unfold get_outputs. rewrite X4, Hval by done. apply (Hl is_layer). intros q Hq%elem_of_values_of. by apply (inv_out _ _ HI) in Hq as (_&?).
    - simpl. rewrite Hrootphi. by eapply Hidn. }
  split. { intros p it Hp. simpl. rewrite X7, Hhp1; [done|]. intros Hp2. apply Hps in Hp2. congruence. }
  split. { intros e' Hne. simpl. by rewrite lookup_insert_ne. }
  split; [exact X9|].
  assert (Hnew : forall q it, hp s7 !! q = Some it -> w_heap w2 !! q = Some it \/ (q ∈ ps /\ it_env it = Some me)).
  { intros q it Hq. rewrite X7 in Hq. destruct (decide (q ∈ ps)) as [Hqp|Hqp]; [|left; by rewrite Hhp1 in Hq].
    right. split; [done|]. destruct (elem_zip its ps q) as (it'&Hz); [congruence|done|].
    assert ((q, it') ∈ zip ps its) as Hz'.
    { apply elem_of_lookup_zip_with in Hz as (i&a&b&Heq&Ha&Hb). injection Heq as -> ->.
      apply elem_of_lookup_zip_with. exists i, b, a. done. }
    rewrite (Hnew1 _ _ Hz') in Hq. by injection Hq as <-. }
  constructor; simpl.
  - intros e' y Hy. apply lookup_insert_Some in Hy as [[<- <-]|[Hne Hy]].
    + destruct s7 as [h7 x7 t7]. simpl in *. split; [exact HI7|]. split.
      * split; simpl; [rewrite X7, Hrootphi; by apply Hhas|]. rewrite Hrootphi, Hpar by (by eapply has_any). by rewrite HRp.
      * intros u Hu. eapply (tc_img (parent_of x) (parent_of x7) phi (has any e h)) in Hu as (a&b&Ha&Hb&Htc&Da&Db); try done.
        { assert (a = b) as -> by (apply Hinj; congruence). by apply (HA b). }
        { intros u' v'. unfold parent_of. rewrite X1. intros (a&b&->&->&Hab)%Hmem; [eauto|apply map_ins_elem]. }
        { intros a b Hab. apply (inv_tree _ _ HI) in Hab as (?&?&_). eauto using has_any. }
    + destruct (winv_parts w2 e' y HW2 Hy) as (J1&(J2&J3)&J4).
      assert (same_at e' (w_heap w2) (hp s7)) as HS.
      { intros q it He. split; intros Hq.
        - rewrite X7, Hhp1; [done|]. intros Hp2. apply Hps in Hp2. congruence.
        - apply Hnew in Hq as [?|[_ ?]]; [done|congruence]. }
      split. { eapply Inv_other; [exact J1|by apply same_at_view|]. apply (inv_refs _ _ HI7). }
      split; [|done]. split; [|done]. simpl in *. eapply has_same; [by apply same_at_view|done].
  - intros p it e' Hp He. destruct (decide (e' = me)) as [->|Hne]; [rewrite lookup_insert; eauto|].
    rewrite lookup_insert_ne by done. apply Hnew in Hp as [Hp|[_ ?]]; [|congruence]. by eapply (winv_owner _ HW2).
  - apply (inv_refs _ _ HI7).
Qed.

(** ** Numbers in ids *)
Lemma digit_char n : (n < 10)%N -> digit (pretty_N_char n) = Some (Z.of_N n).
Proof.
  intros Hn. assert (n = 0 \/ n = 1 \/ n = 2 \/ n = 3 \/ n = 4 \/ n = 5 \/ n = 6 \/ n = 7 \/ n = 8 \/ n = 9)%N as H by lia.
  destruct_or! H; subst; reflexivity.
Qed.
Lemma digits_go : forall x s, digits 0 (pretty_N_go x s) = digits (Z.of_N x) s.
Proof.
  intros x. induction (N.lt_wf_0 x) as [x _ IH]; intros s. destruct (decide (x = 0)%N) as [->|Hx]; [done|].
  rewrite pretty_N_go_step by lia. rewrite IH by (apply N.div_lt; lia). cbn [digits].
  rewrite digit_char by (apply N.mod_lt; lia). f_equal.
  pose proof (N.div_mod x 10 ltac:(lia)) as Hdm. lia.
Qed.
Lemma go_first x : forall s, (x <> 0)%N -> exists n, (n < 10)%N /\ first_char (pretty_N_go x s) = Some (pretty_N_char n).
Proof.
  induction (N.lt_wf_0 x) as [x _ IH]; intros s Hx. rewrite pretty_N_go_step by lia.
  destruct (decide (x `div` 10 = 0)%N) as [->|Hd].
  - rewrite pretty_N_go_0. exists (x `mod` 10)%N. split; [apply N.mod_lt; lia|done].
  - apply IH; [apply N.div_lt; lia|done].
Qed.
Lemma unsigned_pretty (n : N) :
  match pretty n with EmptyString => None | _ => digits 0 (pretty n) end = Some (Z.of_N n) /\
  exists m, (m < 10)%N /\ first_char (pretty n) = Some (pretty_N_char m).
Proof.
  unfold pretty, pretty_N. case_decide as Hn; [subst; split; [done|by exists 0%N]|].
  destruct (go_first n "" Hn) as (m&Hm&Hf). split; [|eauto]. destruct (pretty_N_go n "") eqn:E; [discriminate Hf|].
  rewrite <- E. rewrite digits_go. done.
Qed.
Lemma to_long_pretty z : (long_min <= z <= long_max)%Z -> to_long (pretty z) = Some z.
Proof.
  intros Hz. unfold to_long.
  assert (Hpos : forall n : N, match pretty n with
    | String "-"%char t => Z.opp <$> match t with EmptyString => None | _ => digits 0 t end
    | String "+"%char t => match t with EmptyString => None | _ => digits 0 t end
    | _ => match pretty n with EmptyString => None | _ => digits 0 (pretty n) end end = Some (Z.of_N n)).
  { intros n. destruct (unsigned_pretty n) as [H1 (m&Hm&Hf)]. destruct (pretty n) as [|ch t] eqn:E; [discriminate Hf|].
    injection Hf as ->. rewrite <- H1.
    assert (m = 0 \/ m = 1 \/ m = 2 \/ m = 3 \/ m = 4 \/ m = 5 \/ m = 6 \/ m = 7 \/ m = 8 \/ m = 9)%N as H by lia.
    destruct_or! H; subst; reflexivity. }
  destruct z as [|p|p].
  - done.
  - change (pretty (Zpos p)) with (pretty (Npos p)). rewrite Hpos. by rewrite decide_True.
  - change (pretty (Zneg p)) with ("-" +:+ pretty (Npos p)). destruct (unsigned_pretty (Npos p)) as [H1 _].
    change ("-" +:+ pretty (Npos p)) with (String "-" (pretty (Npos p))). cbn [String.append]. rewrite H1. simpl. by rewrite decide_True.
Qed.
Lemma pretty_go_chars x : forall s, ~ has_char slash s -> ~ has_char slash (pretty_N_go x s).
Proof.
  induction (N.lt_wf_0 x) as [x _ IH]; intros s Hs. destruct (decide (x = 0)%N) as [->|Hx]; [by rewrite pretty_N_go_0|].
  rewrite pretty_N_go_step by lia. apply IH; [apply N.div_lt; lia|]. unfold has_char in *. cbn [list_ascii_of_string].
  rewrite not_elem_of_cons. split; [|done]. intros H. by apply (pretty_char_slash (x `mod` 10)).
Qed.
Lemma pretty_no_slash (z : Z) : ~ has_char slash (pretty z).
Proof.
  assert (H : forall n : N, ~ has_char slash (pretty n)).
  { intros n. unfold pretty, pretty_N. case_decide; [|apply pretty_go_chars; apply not_elem_of_nil].
    apply (bool_decide_eq_false_1 (has_char slash "0")). vm_compute. done. }
  destruct z as [|p|p].
  - apply (H 0%N).
  - apply (H (Npos p)).
  - change (pretty (Zneg p)) with (String "-" (pretty (Npos p))). unfold has_char. cbn [list_ascii_of_string].
    rewrite not_elem_of_cons. split; [done|]. apply H.
Qed.
Lemma last_slash s : last_char s = Some slash -> exists a, s = a +:+ "/".
Proof.
  induction s as [|ch s IH]; [done|]. destruct s as [|c2 s].
  - intros [= ->]. by exists "".
  - intros H. destruct (IH H) as (a&E). exists (String ch a). by rewrite E.
Qed.
Lemma id_number_gen base (z : Z) : last_char base = Some slash -> (long_min <= z <= long_max)%Z -> id_number (base +:+ pretty z) = Some z.
Proof.
  intros (a&->)%last_slash Hz. unfold id_number. pose proof (pretty_no_slash z) as Hns.
  assert (id_suffix ((a +:+ "/") +:+ pretty z) = Some (pretty z)) as ->; [|by apply to_long_pretty].
  rewrite <- app_assoc_s. apply suffix_of; [done|].
  destruct (split_slash (a +:+ "/" +:+ pretty z)) as (a'&b'&E&Hr&Hb').
  { apply occurs_char. by exists a, (pretty z). }
  rewrite Hr. f_equal. clear Hr. revert a' E. induction a as [|ch a IH]; intros [|ch' a'] E; [done| | |].
  - exfalso. injection E as _ E. apply Hns. rewrite E. apply occurs_char. by exists a', b'.
  - exfalso. injection E as _ E. apply Hb'. apply occurs_char. exists a, (pretty z). by rewrite <- E.
  - injection E as _ E. simpl. f_equal. by apply IH.
Qed.

(** * C28: the counter after loading *)
(** no number at the end of an id exceeds [l] *)
Definition numbers_upto (l : Z) (x : env) : Prop := forall id p n, (id, p) ∈ e_items x -> id_number id = Some n -> (n <= l)%Z.

Lemma obind_ok {S A B} (m : out S A) (f : A -> out S B) b : obind m f = Ok b -> exists a, m = Ok a /\ f a = Ok b.
Proof. destruct m; simpl; [eauto|done..]. Qed.

Lemma load_obj_any c me fs p n s last s' last' : Inv me s -> load_obj c me fs p n s last = Ok (s', last') ->
  Inv me s' /\ (last <= last')%Z /\
  forall id q, (id, q) ∈ e_items (en s') -> (id, q) ∈ e_items (en s) \/ forall k, id_number id = Some k -> (k <= last')%Z.
Proof.
  intros HI. unfold load_obj. destruct (scalar n "class"); [|done]. destruct (find_class _ _) as [f|]; [|done].
  destruct (old_id _) as [id|]; [|done]. destruct (f _ _ _) as [[k v]|]; [|done]. destruct (hp s !! p) eqn:Hp; [done|].
  intros (s1&E1&E)%obind_ok.
  pose proof (Inv_put me s p (Item k id None v 0 0) (tr s) HI Hp eq_refl eq_refl) as HP.
  pose proof (attach_core_wp True 0 me p _ (Item k id None v 0 0) HP (lookup_insert _ _ _) (or_introl eq_refl) (or_introl Logic.I)) as HW.
  change (St (<[p:=Item k id None v 0 0]> (hp s)) (en s) (tr s)) with (put p (Item k id None v 0 0) s) in HW. rewrite E1 in HW.
  destruct HW as (HG&(_&id'&l'&_&Hfree&Hhp&Hen&_)&_). pose proof (g_inv _ _ _ _ HG) as HI1.
  unfold deref in E. rewrite Hhp, lookup_insert in E. simpl in E.
  apply obind_ok in E as (s2&E2&E). injection E as <- <-.
  assert (Inv me s2 /\ e_items (en s2) = e_items (en s1)) as [HI2 Hit2].
  { case_decide; [|injection E2 as <-; done]. destruct (is_frame k); [|done]. injection E2 as <-. split; [|done].
    pose proof (Inv_root me (hp s1) (en s1) (tr s1) p) as HR. destruct s1. exact (HR HI1). }
  split; [done|]. assert (last <= match id_number id' with Some i => if decide (last < i)%Z then i else last | None => last end)%Z as Hle.
  { destruct (id_number id') as [i|]; [|lia]. destruct (decide (last < i)%Z); lia. }
  split; [done|]. intros id0 q. rewrite Hit2, Hen. simpl. intros [Heq|Hin]%elem_of_ins; [|by left].
  right. injection Heq as -> ->. intros i ->. destruct (decide (last < i)%Z); lia.
Qed.
Lemma load_objs_any c me fs l : forall s last s' last', Inv me s -> load_objs c me fs l s last = Ok (s', last') ->
  Inv me s' /\ (last <= last')%Z /\
  forall id q, (id, q) ∈ e_items (en s') -> (id, q) ∈ e_items (en s) \/ forall k, id_number id = Some k -> (k <= last')%Z.
Proof.
  induction l as [|[p n] l IH]; intros s last s' last' HI; cbn [load_objs].
  - intros [= <- <-]. split; [done|]. split; [lia|auto].
  - intros ([s1 last1]&E1&E)%obind_ok. simpl in E. destruct (load_obj_any _ _ _ _ _ _ _ _ _ HI E1) as (HI1&Hl1&H1).
    destruct (IH _ _ _ _ HI1 E) as (HI'&Hl'&H'). split; [done|]. split; [lia|].
    intros id q [Hin|Hk]%H'; [|auto]. apply H1 in Hin as [Hin|Hk]; [auto|]. right. intros k Hk'. apply Hk in Hk'. lia.
Qed.
Lemma load_link_items n s s' : load_link n s = Ok s' -> e_items (en s') = e_items (en s).
Proof.
  unfold load_link. destruct (scalar n "type"); [|done]. repeat case_decide; try (by intros [= <-]);
    intros (a&_&E)%obind_ok; apply obind_ok in E as (b&_&E); by injection E as <-.
Qed.
Lemma load_links_items l : forall s s', iter_out load_link l s = Ok s' -> e_items (en s') = e_items (en s).
Proof.
  induction l as [|n l IH]; intros s s'; cbn [iter_out]; [by intros [= <-]|]. intros (s1&E1&E)%obind_ok.
  apply IH in E. apply load_link_items in E1. congruence.
Qed.

(** For every document, well-formed or not: if loading succeeds, the counter is above all numbers in use. *)
Theorem C28_counter c me r ps d fs w w' x' :
  WInv w -> w_envs w !! me = None -> w_heap w !! r = None ->
  load c me r ps d fs w = Ok w' -> w_envs w' !! me = Some x' -> numbers_upto (e_last x' - 1) x'.
Proof.
  intros HW Hme Hr HL Hx. rewrite load_unfold in HL by done.
  destruct (load_rest c me ps d fs (empty_st r w)) as [s|?|?|] eqn:E; try done. injection HL as <-.
  simpl in Hx. rewrite lookup_insert in Hx. injection Hx as <-.
  unfold load_rest in E. apply obind_ok in E as ([s1 last]&E1&E). apply obind_ok in E as (s2&E2&E). simpl in E2, E.
  destruct (decide (last = long_max)) as [|Hmax]; [done|]. injection E as <-.
  destruct (load_objs_any _ _ _ _ _ _ _ _ (empty_inv me r w HW Hme) E1) as (_&Hl&Hk).
  intros id p n. simpl. rewrite (load_links_items _ _ _ E2). intros [Hin|Hn]%Hk Hnum; [by apply elem_of_nil in Hin|].
  apply Hn in Hnum. lia.
Qed.

(** Then the next generated id is built from the next number, without search: attaching succeeds and the item gets the
    requested base followed by this number, and the same holds for the next item. Numbers of the C++ type [int] are assumed to suffice. *)
Theorem C28_next me s p it :
  Inv me s -> numbers_upto (e_last (en s)) (en s) -> (0 <= e_last (en s) < int_max)%Z ->
  hp s !! p = Some it -> it_env it = None -> last_char (full_id (e_prefix (en s)) (it_id it)) = Some slash ->
  exists s', attach_core me p s = Ok s' /\
    idn (hp s') p = full_id (e_prefix (en s)) (it_id it) +:+ pretty (e_last (en s) + 1)%Z /\
    get_item (en s') (full_id (e_prefix (en s)) (it_id it) +:+ pretty (e_last (en s) + 1)%Z) = Some p /\
    e_last (en s') = (e_last (en s) + 1)%Z /\
    numbers_upto (e_last (en s')) (en s').
Proof.
  intros HI Hab Hb Hp He Hf. set (base := full_id (e_prefix (en s)) (it_id it)) in *. set (n := (e_last (en s) + 1)%Z).
  assert (Hint : int_max = 2147483647%Z) by done.
  assert (id_number (base +:+ pretty n) = Some n) as Hnum.
  { apply id_number_gen; [done|]. unfold long_min, long_max, n in *. lia. }
  assert (Hfree : assoc (base +:+ pretty n) (e_items (en s)) = None).
  { destruct (assoc _ _) as [q|] eqn:E; [|done]. apply assoc_in in E. apply (Hab _ _ n) in E; [|done]. unfold n in E. lia. }
  unfold attach_core, deref. rewrite Hp, He. fold base. rewrite decide_True by done.
  rewrite wrap_int_small by (unfold n in *; lia). fold n. cbn [search_id]. rewrite Hfree. cbn [obind].
  simpl. rewrite lookup_insert. simpl. rewrite Hfree. unfold emit.
  unfold emit_to, deref. simpl. rewrite lookup_insert. simpl. unfold drop_temp. simpl. rewrite lookup_insert. simpl.
  eexists. split; [reflexivity|]. simpl. split; [unfold idn; by rewrite lookup_insert|]. split.
  { unfold get_item. simpl. rewrite assoc_ins by done. by rewrite decide_True. }
  split; [done|]. intros id q k. simpl. intros [Heq|Hin]%elem_of_ins Hk.
  - injection Heq as -> ->. rewrite Hnum in Hk. injection Hk as <-. lia.
  - apply (Hab _ _ k) in Hin; [|done]. unfold n. lia.
Qed.

(** * A concrete case *)
(** Four classes in the style of the library: frames, layers and operators are written as text, maps as a binary stream. *)
Definition demo_class (k : kind) : string :=
  match k with KFrame => "envire::FrameNode" | KLayer => "envire::Layer" | KMap => "envire::MLSGrid" | KOp _ _ => "envire::Projection" end.
Definition read_num (rd : string -> option string) (key : string) : option Z := rd key ≫= to_long.
Definition make_frame : factory := fun rd _ _ => v ← read_num rd "val"; Some (KFrame, v).
Definition make_layer : factory := fun rd _ _ => v ← read_num rd "val"; Some (KLayer, v).
Definition make_map : factory := fun _ id fs => v ← read_num fs (map_file_name "envire::MLSGrid" id +:+ ".mls"); Some (KMap, v).
Definition make_op : factory := fun rd _ _ =>
  a ← read_num rd "in"; b ← read_num rd "out"; v ← read_num rd "val"; Some (KOp (Z.to_nat a) (Z.to_nat b), v).
Definition demo_fields (k : kind) (v : Z) : list (string * string) :=
  match k with
  | KMap => []
  | KOp i o => [("val", pretty v); ("in", pretty (Z.of_nat i)); ("out", pretty (Z.of_nat o))]
  | _ => [("val", pretty v)] end.
Definition demo_codec : codec := Codec
  (fun k _ => demo_class k) demo_fields
  (fun k v => match k with KMap => [(".mls", pretty v)] | _ => [] end)
  (register [("envire::FrameNode", make_frame); ("envire::Layer", make_layer); ("envire::MLSGrid", make_map); ("envire::Projection", make_op)]).

Lemma demo_stable k v : (long_min <= v <= long_max)%Z ->
  match k with KOp i o => (Z.of_nat i <= long_max)%Z /\ (Z.of_nat o <= long_max)%Z | _ => True end -> stable demo_codec k v.
Proof.
  intros Hv Hk. unfold stable.
  assert (forall key (rd : string -> option string) z, (long_min <= z <= long_max)%Z -> rd key = Some (pretty z) -> read_num rd key = Some z) as HR.
  { intros key rd z Hz Hrd. unfold read_num. rewrite Hrd. by apply to_long_pretty. }
  split. { destruct k; simpl; repeat constructor; set_solver. }
  split. { destruct k; simpl; set_solver. }
  split. { destruct k; simpl; set_solver. }
  destruct k as [| | |i o].
  - exists make_frame. split; [lazy -[make_frame make_layer make_map make_op]; reflexivity|]. intros id rd fs H1 H2.
    unfold make_frame. rewrite (HR "val" rd v); [done|done|]. apply H1. simpl. left.
  - exists make_layer. split; [lazy -[make_frame make_layer make_map make_op]; reflexivity|]. intros id rd fs H1 H2.
    unfold make_layer. rewrite (HR "val" rd v); [done|done|]. apply H1. simpl. left.
  - exists make_map. split; [lazy -[make_frame make_layer make_map make_op]; reflexivity|]. intros id rd fs H1 H2.
    unfold make_map. rewrite (HR _ fs v); [done|done|]. apply (H2 ".mls"). simpl. left.
  - exists make_op. split; [lazy -[make_frame make_layer make_map make_op]; reflexivity|]. intros id rd fs H1 H2. destruct Hk as [Hi Ho].
    assert (long_min <= Z.of_nat i <= long_max /\ long_min <= Z.of_nat o <= long_max)%Z as [Hi2 Ho2] by (unfold long_min in *; lia).
    unfold make_op. rewrite (HR "in" rd (Z.of_nat i)); [|done|apply H1; simpl; right; left].
    rewrite (HR "out" rd (Z.of_nat o)); [|done|apply H1; simpl; right; right; left].
    rewrite (HR "val" rd v); [|done|apply H1; simpl; left]. simpl. by rewrite !Nat2Z.id.
Qed.

(** a check of the hypotheses of C25 by computation *)
Definition savable (h : gmap positive item) (x : env) : bool :=
  forallb (fun ip : string * ptr =>
    let '(k, v) := payload_of h ip.2 in
    bool_decide (long_min <= v <= long_max)%Z && bool_decide (id_number ip.1 <> Some long_max) &&
    match k with KOp i o => bool_decide (Z.of_nat i <= long_max)%Z && bool_decide (Z.of_nat o <= long_max)%Z | _ => true end) (e_items x)
  && bool_decide (NoDup (file_names demo_codec h x)).
Lemma savable_ok h x : savable h x = true ->
  (forall id p, (id, p) ∈ e_items x -> stable demo_codec (payload_of h p).1 (payload_of h p).2) /\
  NoDup (file_names demo_codec h x) /\
  (forall id p, (id, p) ∈ e_items x -> id_number id <> Some long_max).
Proof.
  unfold savable. intros [Hall Hnd]%andb_true_iff. rewrite forallb_forall in Hall. apply bool_decide_eq_true in Hnd.
  split; [|split; [done|]]; intros id p Hin; apply elem_of_list_In in Hin; apply Hall in Hin; simpl in Hin;
    destruct (payload_of h p) as [k v]; apply andb_true_iff in Hin as [[Hv Hn]%andb_true_iff Hk];
    apply bool_decide_eq_true in Hv; apply bool_decide_eq_true in Hn; [|done].
  simpl. apply demo_stable; [done|]. destruct k; try done. apply andb_true_iff in Hk as [H1 H2].
  apply bool_decide_eq_true in H1. by apply bool_decide_eq_true in H2.
Qed.

(** The demo environment (6 items, every kind of link) can be saved and loaded in a new process. *)
Example C25_nonvacuous :
  reachable demo_world /\
  exists x, w_envs demo_world !! 1%positive = Some x /\ length (e_items x) = 6 /\
  e_tree x <> [] /\ e_layers x <> [] /\ e_in x <> [] /\ e_out x <> [] /\ e_maps x <> [] /\
  (forall id p, (id, p) ∈ e_items x -> stable demo_codec (payload_of (w_heap demo_world) p).1 (payload_of (w_heap demo_world) p).2) /\
  NoDup (file_names demo_codec (w_heap demo_world) x) /\ file_names demo_codec (w_heap demo_world) x = ["envire::MLSGrid_m_3.mls"] /\
  (forall id p, (id, p) ∈ e_items x -> id_number id <> Some long_max) /\
  WInv world0 /\ w_envs world0 !! 1%positive = None /\ w_heap world0 !! 1%positive = None /\
  NoDup [31;32;33;34;35;36]%positive /\ (forall p, p ∈ [31;32;33;34;35;36]%positive -> w_heap world0 !! p = None).
Proof.
  split; [apply demo_reachable|].
  assert (exists x, w_envs demo_world !! 1%positive = Some x /\ (savable (w_heap demo_world) x = true /\ length (e_items x) = 6 /\
    e_tree x <> [] /\ e_layers x <> [] /\ e_in x <> [] /\ e_out x <> [] /\ e_maps x <> [] /\
    file_names demo_codec (w_heap demo_world) x = ["envire::MLSGrid_m_3.mls"])) as (x&Hx&Hs&H1&H2&H3&H4&H5&H6&H7) by vmdec.
  exists x. apply savable_ok in Hs as (S1&S2&S3). do 7 (split; [assumption|]). do 4 (split; [assumption|]).
  split; [apply reachable_inv; exists []; constructor|]. split; [done|]. split; [done|].
  split; [vmdec|]. intros p _. apply lookup_empty.
Qed.

(** * Where it fails *)
(** Two maps whose ids differ only in '/' and '_' write the same file: one of them is loaded with the content of the other. *)
Definition clash_ops : list op :=
  [ONewEnv 1 10; ONew 11 KMap "/a/b" 1; OAttachMap 1 11 None; ONew 12 KMap "/a_b" 2; OAttachMap 1 12 None].
Definition clash_world : world := match run_legal world0 clash_ops with Some w => w | None => world0 end.
Global Opaque clash_world.
Definition reload (w : world) (ps : list ptr) : option (world * env) :=
  x ← w_envs w !! 1%positive;
  df ← save demo_codec (w_heap w) x ∅;
  match load demo_codec 1 10 ps df.1 df.2 world0 with
  | Ok w' => x' ← w_envs w' !! 1%positive; Some (w', x')
  | _ => None end.
Theorem C25_clash_refuted :
  reachable clash_world /\
  exists x, w_envs clash_world !! 1%positive = Some x /\
  (forall id p, (id, p) ∈ e_items x -> stable demo_codec (payload_of (w_heap clash_world) p).1 (payload_of (w_heap clash_world) p).2) /\
  (payload_of (w_heap clash_world) <$> get_item x "/a/b") = Some (KMap, 1%Z) /\
  match reload clash_world [31;32;33]%positive with
  | Some (w', x') => payload_of (w_heap w') <$> get_item x' "/a/b" = Some (KMap, 2%Z)
  | None => False end.
Proof.
  split.
  { apply (run_legal_reachable clash_ops). Transparent clash_world. unfold clash_world. Opaque clash_world.
    destruct (run_legal world0 clash_ops) eqn:H; [done|]. exfalso. revert H. vm_compute. discriminate. }
  assert (exists x, w_envs clash_world !! 1%positive = Some x /\ (
    forallb (fun ip : string * ptr => bool_decide (payload_of (w_heap clash_world) ip.2 ∈ [(KFrame, 0%Z); (KMap, 1%Z); (KMap, 2%Z)])) (e_items x) = true /\
    payload_of (w_heap clash_world) <$> get_item x "/a/b" = Some (KMap, 1%Z))) as (x&Hx&Hall&Hp) by vmdec.
  exists x. split; [exact Hx|]. split.
  { intros id p Hin. rewrite forallb_forall in Hall. apply elem_of_list_In in Hin. apply Hall in Hin. apply bool_decide_eq_true in Hin.
    cbn [snd] in Hin. revert Hin. generalize (payload_of (w_heap clash_world) p). clear. intros kv Hin.
    rewrite !elem_of_cons, elem_of_nil in Hin.
    destruct Hin as [->|[->|[->|[]]]]; apply demo_stable; try done. }
  split; [exact Hp|].
  assert (bool_decide (option_map (fun wx : world * env => payload_of (w_heap wx.1) <$> get_item wx.2 "/a/b") (reload clash_world [31;32;33]%positive)
    = Some (Some (KMap, 2%Z))) = true) as Hr by vmtrue.
  apply bool_decide_eq_true in Hr. destruct (reload clash_world _) as [[w' x']|]; [|discriminate Hr]. simpl in Hr. by injection Hr as ->.
Qed.

(** The environment prefix is not part of the file. *)
Theorem C25_prefix_refuted : exists w x, reachable w /\ w_envs w !! 1%positive = Some x /\ savable (w_heap w) x = true /\
  e_prefix x = "/robot/" /\
  match reload w [31]%positive with Some (_, x') => e_prefix x' = "/" | None => False end.
Proof.
  set (os := [ONewEnv 1 10; OSetPrefix 1 "/robot/"]).
  set (w := match run_legal world0 os with Some w => w | None => world0 end).
  assert (reachable w). { apply (run_legal_reachable os). unfold w. destruct (run_legal world0 os) eqn:H; [done|]. exfalso. revert H. vm_compute. discriminate. }
  assert (exists x, w_envs w !! 1%positive = Some x /\ (savable (w_heap w) x = true /\ e_prefix x = "/robot/")) as (x&Hx&Hs&Hp) by vmdec.
  exists w, x. do 4 (split; [assumption|]).
  assert (bool_decide (option_map (fun wx : world * env => e_prefix wx.2) (reload w [31]%positive) = Some "/") = true) as Hr by vmtrue.
  apply bool_decide_eq_true in Hr. destruct (reload w _) as [[w' x']|]; [|discriminate Hr]. simpl in Hr. by injection Hr as ->.
Qed.

(** An id with the largest number cannot be loaded: [lastID + 1] overflows. *)
Theorem C28_limit_refuted : exists w x, reachable w /\ w_envs w !! 1%positive = Some x /\
  (exists p, get_item x "/9223372036854775807" = Some p) /\
  match save demo_codec (w_heap w) x ∅ with
  | Some (d, fs) => load demo_codec 1 10 [31; 32]%positive d fs world0 = Bad UB
  | None => False end.
Proof.
  set (os := [ONewEnv 1 10; ONew 11 KFrame "/9223372036854775807" 1; OAttach 1 11]).
  set (w := match run_legal world0 os with Some w => w | None => world0 end).
  assert (reachable w). { apply (run_legal_reachable os). unfold w. destruct (run_legal world0 os) eqn:H; [done|]. exfalso. revert H. vm_compute. discriminate. }
  assert (exists x, w_envs w !! 1%positive = Some x /\ (get_item x "/9223372036854775807" = Some 11%positive /\
    match save demo_codec (w_heap w) x ∅ with
    | Some (d, fs) => match load demo_codec 1 10 [31; 32]%positive d fs world0 with Bad UB => true | _ => false end
    | None => false end = true)) as (x&Hx&Hs&Hp) by vmdec.
  exists w, x. do 2 (split; [assumption|]). split; [eauto|]. destruct (save _ _ _ _) as [[d fs]|]; [|done].
  by destruct (load _ _ _ _ _ _ _) as [| |[]|].
Qed.

(** The hypotheses of C28: the demo environment is loaded (numbers 0, 2, 3, 4), and the next item gets number 6. *)
Example C28_nonvacuous :
  WInv world0 /\
  match reload demo_world [31;32;33;34;35;36]%positive with
  | Some (w', x') => e_last x' = 5%Z /\ (exists p, get_item x' "/4" = Some p) /\ numbers_upto 4 x' /\
      exists s', attach_core 1 40 (put 40 (Item KLayer "new/" None 0 0 0) (St (w_heap w') x' (w_tr w'))) = Ok s' /\ idn (hp s') 40 = "/new/6"
  | None => False end.
Proof.
  split; [apply reachable_inv; exists []; constructor|].
  assert (match reload demo_world [31;32;33;34;35;36]%positive with
  | Some (w', x') => bool_decide (e_last x' = 5%Z) && bool_decide (get_item x' "/4" <> None) &&
      forallb (fun ip : string * ptr => match id_number ip.1 with Some n => bool_decide (n <= 4)%Z | None => true end) (e_items x') &&
      match attach_core 1 40 (put 40 (Item KLayer "new/" None 0 0 0) (St (w_heap w') x' (w_tr w'))) with
      | Ok s' => bool_decide (idn (hp s') 40 = "/new/6") | _ => false end
  | None => false end = true) as H by vmtrue.
  destruct (reload demo_world _) as [[w' x']|]; [|done]. apply andb_true_iff in H as [[[H1 H2]%andb_true_iff H3]%andb_true_iff H4].
  apply bool_decide_eq_true in H1. apply bool_decide_eq_true in H2. rewrite forallb_forall in H3.
  split; [exact H1|]. split. { destruct (get_item x' "/4"); [eauto|done]. } split.
  { intros id p n Hin Hn. apply elem_of_list_In in Hin. apply H3 in Hin. simpl in Hin. rewrite Hn in Hin. by apply bool_decide_eq_true in Hin. }
  destruct (attach_core _ _ _) as [s'| | |]; [|done..]. apply bool_decide_eq_true in H4. eauto.
Qed.
