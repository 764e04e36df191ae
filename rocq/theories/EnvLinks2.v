(** Operator links and map placement. *)
From stdpp Require Import prelude strings gmap pretty.
From Verif Require Import Base AssocLemmas EnvModel EnvSpec EnvLib EnvGood EnvAttach EnvLinks.

Lemma Good_throw me s p it s' :
  Inv me s -> hp s !! p = Some it -> Inv me s' -> attach_throw me p s it s' -> Good false me s s'.
Proof.
  intros HI Hp HI' (Hx&Ht&Hh). destruct s' as [h' x' t']; simpl in *. subst x' t'.
  destruct Hh as [[_ Hh]|(He&_&_&Hh)]; subst h'.
  { destruct s. by apply Good_refl. }
  assert (Hnot : ~ has any me (hp s) p).
  { intros (it1&Hq&Hq2&_). congruence. }
  constructor; simpl; try done.
  - intros q it' Hq. apply lookup_insert_Some in Hq as [[<- <-]|[Hne Hq]]; eauto 10.
  - intros q it1 e' Hne He1. split; intros Hq.
    + rewrite lookup_insert_ne; [done|]. intros ->. congruence.
    + apply lookup_insert_Some in Hq as [[<- <-]|[Hne' Hq]]; [simpl in He1; congruence|done].
  - intros q it1 Hq _. destruct (decide (q = p)) as [->|]; [rewrite lookup_insert|rewrite lookup_insert_ne by done]; by eexists.
  - intros q it1 Hq He1. exists it1. split; [|done]. rewrite lookup_insert_ne; [done|]. intros ->. congruence.
  - exists []. split; [by rewrite app_nil_r|]. intros m Hm. exists m. split; [done|].
    eapply (mirrors_other me s HI p); eauto. intros. by rewrite lookup_insert_ne.
Qed.

Lemma attach_throw_links me p s it s' : attach_throw me p s it s' -> same_links (en s) (en s').
Proof. intros (->&_). done. Qed.
Lemma same_links_refl x : same_links x x.
Proof. done. Qed.
Lemma same_links_trans x y z : same_links x y -> same_links y z -> same_links x z.
Proof. unfold same_links. intuition congruence. Qed.

(** attach both ends, if needed *)
Lemma attach_two_wp E k me o l s io il f :
  Inv me s -> hp s !! o = Some io -> hp s !! l = Some il -> o <> l ->
  it_env io = None \/ it_env io = Some me -> it_env il = None \/ it_env il = Some me ->
  E \/ room (S (S k)) s ->
  forall (Q X : st -> Prop),
  (forall s', Good false me s s' -> has (fun k' => bool_decide (k' = it_kind io)) me (hp s') o ->
     has (fun k' => bool_decide (k' = it_kind il)) me (hp s') l -> same_links (en s) (en s') -> (E \/ room k s') -> wp E (f s') Q X) ->
  (forall s', Good false me s s' -> same_links (en s) (en s') -> X s') ->
  wp E (s1 <~ attach_if_free me o s ;; s2 <~ attach_if_free me l s1 ;; f s2) Q X.
Proof.
  intros HI Ho Hl Hne Heo Hel Hr Q X HQ HX. apply wp_bind.
  eapply wp_mono; [by apply (attach_if_free_wp E (S k) me o s io)| |].
  - intros s1 (G1&Ho1&S1&Hq1&_&_&R1). apply wp_bind.
    eapply wp_mono; [apply (attach_if_free_wp E k me l s1 il); [apply G1|by rewrite Hq1|done|done]| |].
    + intros s2 (G2&Hl2&S2&Hq2&_&_&R2). apply HQ; [by eapply Good_trans| |done|by eapply same_links_trans|done].
      by eapply Good_has.
    + intros s2 (I2&Hel2&T2). apply HX.
      * eapply Good_trans; [exact G1|]. eapply Good_throw; [apply G1| |done|done]. by rewrite Hq1.
      * eapply same_links_trans; [done|]. by eapply attach_throw_links.
  - intros s1 (I1&_&T1). apply HX; [exact (Good_throw _ _ _ _ _ HI Ho I1 T1)|by eapply attach_throw_links].
Qed.

Lemma add_input_wp E k me o l s io il :
  Inv me s -> hp s !! o = Some io -> is_op (it_kind io) = true -> hp s !! l = Some il -> is_layer (it_kind il) = true ->
  it_env io = None \/ it_env io = Some me -> it_env il = None \/ it_env il = Some me -> E \/ room (S (S k)) s ->
  wp E (add_input me o l s)
     (fun s' => Good false me s s' /\ has is_op me (hp s') o /\ has is_layer me (hp s') l /\
        e_in (en s') = (if decide (assoc o (e_in (en s)) = Some l) then e_in (en s) else ins plt o l (e_in (en s))) /\
        e_tree (en s') = e_tree (en s) /\ e_layers (en s') = e_layers (en s) /\ e_out (en s') = e_out (en s) /\
        e_maps (en s') = e_maps (en s))
     (fun s' => Good false me s s' /\ same_links (en s) (en s')).
Proof.
  intros HI Ho Hko Hl Hkl Heo Hel Hr. unfold add_input. case_decide as Hd; simpl.
  - split; [by apply Good_refl|]. apply assoc_in, (inv_in _ _ HI) in Hd. naive_solver.
  - eapply attach_two_wp; [done|exact Ho|exact Hl|intros ->; rewrite Ho in Hl; simplify_eq; by destruct (it_kind il)|done|done|done| |].
    + intros s' G Ho' Hl' (L1&L2&L3&L4&L5) _. simpl. rewrite L1, L2, L3, L4, L5.
      assert (Ho2 : has is_op me (hp s') o) by (by eapply has_of_kind).
      assert (Hl2 : has is_layer me (hp s') l) by (by eapply has_of_kind).
      split; [|done]. eapply Good_trans; [exact G|]. rewrite <- L3. apply Good_in; [apply G|].
      intros a b [?|Hab]%elem_of_ins; [naive_solver|]. by apply (inv_in _ _ (g_inv _ _ _ _ G)).
    + auto.
Qed.
Lemma add_output_wp E k me o l s io il :
  Inv me s -> hp s !! o = Some io -> is_op (it_kind io) = true -> hp s !! l = Some il -> is_layer (it_kind il) = true ->
  it_env io = None \/ it_env io = Some me -> it_env il = None \/ it_env il = Some me -> E \/ room (S (S k)) s ->
  wp E (add_output me o l s)
     (fun s' => Good false me s s' /\ has is_op me (hp s') o /\ has is_layer me (hp s') l /\
        e_out (en s') = (if decide (assoc o (e_out (en s)) = Some l) then e_out (en s) else ins plt o l (e_out (en s))) /\
        e_tree (en s') = e_tree (en s) /\ e_layers (en s') = e_layers (en s) /\ e_in (en s') = e_in (en s) /\
        e_maps (en s') = e_maps (en s))
     (fun s' => Good false me s s' /\ same_links (en s) (en s')).
Proof.
  intros HI Ho Hko Hl Hkl Heo Hel Hr. unfold add_output. case_decide as Hd; simpl.
  - split; [by apply Good_refl|]. apply assoc_in, (inv_out _ _ HI) in Hd. naive_solver.
  - eapply attach_two_wp; [done|exact Ho|exact Hl|intros ->; rewrite Ho in Hl; simplify_eq; by destruct (it_kind il)|done|done|done| |].
    + intros s' G Ho' Hl' (L1&L2&L3&L4&L5) _. simpl. rewrite L1, L2, L3, L4, L5.
      assert (Ho2 : has is_op me (hp s') o) by (by eapply has_of_kind).
      assert (Hl2 : has is_layer me (hp s') l) by (by eapply has_of_kind).
      split; [|done]. eapply Good_trans; [exact G|]. rewrite <- L4. apply Good_out; [apply G|].
      intros a b [?|Hab]%elem_of_ins; [naive_solver|]. by apply (inv_out _ _ (g_inv _ _ _ _ G)).
    + auto.
Qed.

Lemma detach_frame_wp E d me m n s : Inv me s ->
  wp E (detach_frame me m n s)
     (fun s' => Good d me s s' /\ hp s' = hp s /\
        en s' = with_maps (en s) (if decide (get_frame (en s) m = Some n) then del_key m (e_maps (en s)) else e_maps (en s)))
     (fun _ => False).
Proof.
  intros HI. unfold detach_frame. case_decide as Hc; simpl.
  - pose proof (assoc_in _ _ _ Hc) as Hin. apply (maps_D _ _ HI) in Hin as [Dc Dp].
    unfold emit. rewrite (emit_to_ok me); [|done|done|naive_solver]. simpl.
    split; [|done]. exact (Good_maps_del me s HI d m n Hc).
  - split; [by apply Good_refl|]. by rewrite with_maps_id.
Qed.

Lemma place_map_wp E d me m n s : Inv me s -> has is_map me (hp s) m -> has is_frame me (hp s) n ->
  wp E (place_map me m n s)
     (fun s' => Good d me s s' /\ hp s' = hp s /\
        en s' = with_maps (en s) (if decide (get_frame (en s) m = Some n) then e_maps (en s)
                                  else ins plt m n (del_key m (e_maps (en s)))))
     (fun _ => False).
Proof.
  intros HI Hm Hn. unfold place_map.
  assert (Hins : forall s1, Inv me s1 -> hp s1 = hp s -> get_frame (en s1) m = None ->
    wp E (emit me EFrame EAdd m (Some n) (set_en s1 (with_maps (en s1) (map_set plt m n (e_maps (en s1))))))
      (fun s' => Good d me s1 s' /\ hp s' = hp s1 /\ en s' = with_maps (en s1) (ins plt m n (e_maps (en s1)))) (fun _ => False)).
  { intros s1 I1 H1 F1. unfold emit, map_set. rewrite del_key_fresh by done. rewrite <- H1 in Hm, Hn.
    rewrite (emit_to_ok me).
    - simpl. split; [|done]. exact (Good_maps_ins me s1 I1 d m n Hm Hn F1).
    - by apply (Inv_maps_ins me s1 I1).
    - by eapply has_any.
    - intros b Hb. simplify_eq. by eapply has_any. }
  destruct (get_frame (en s) m) as [n0|] eqn:Hf.
  - destruct (decide (n0 = n)) as [->|Hne]; simpl.
    + rewrite decide_True by done. split; [by apply Good_refl|]. by rewrite with_maps_id.
    + rewrite (decide_False (P := Some n0 = Some n)) by congruence.
      apply wp_bind. eapply wp_mono; [by apply (detach_frame_wp E d)| |done].
      intros s1 (G1&H1&X1). rewrite decide_True in X1 by done.
      eapply wp_mono; [apply Hins; [apply G1|done|]| |done].
      * unfold get_frame. rewrite X1. simpl. rewrite assoc_del_key. by rewrite decide_True.
      * intros s2 (G2&H2&X2). split; [by eapply Good_trans|]. rewrite X1 in X2. simpl in X2. split; [congruence|done].
  - simpl. eapply wp_mono; [by apply Hins| |done].
    intros s2 (G2&H2&X2). rewrite del_key_fresh by done. done.
Qed.

Lemma has_lookup f me h p : has f me h p -> exists it, h !! p = Some it /\ it_env it = Some me /\ f (it_kind it) = true.
Proof. done. Qed.

(** setFrameNode on an attached map *)
Lemma set_frame_attached_wp E k me m n s i_n :
  Inv me s -> has is_map me (hp s) m -> hp s !! n = Some i_n -> is_frame (it_kind i_n) = true ->
  it_env i_n = None \/ it_env i_n = Some me -> E \/ room (S k) s ->
  wp E (set_frame_attached me m n s)
     (fun s' => Good false me s s' /\ has is_frame me (hp s') n /\ (E \/ room k s') /\
        (forall q, q <> n -> hp s' !! q = hp s !! q) /\
        e_maps (en s') = (if decide (get_frame (en s) m = Some n) then e_maps (en s)
                          else ins plt m n (del_key m (e_maps (en s)))) /\
        e_tree (en s') = e_tree (en s) /\ e_layers (en s') = e_layers (en s) /\ e_in (en s') = e_in (en s) /\
        e_out (en s') = e_out (en s))
     (fun s' => Good false me s s' /\ same_links (en s) (en s')).
Proof.
  intros HI Hm Hn Hk He Hr. unfold set_frame_attached. apply wp_bind.
  eapply wp_mono; [by apply (attach_if_free_wp E k me n s i_n)| |].
  - intros s1 (G1&Hn1&(L1&L2&L3&L4&L5)&Hq1&_&_&R1).
    assert (Hn2 : has is_frame me (hp s1) n) by (by eapply has_of_kind).
    assert (Hm2 : has is_map me (hp s1) m) by (by eapply Good_has).
    eapply wp_mono; [apply (place_map_wp E false me m n s1); [apply G1|done|done]| |done].
    intros s2 (G2&H2&X2). unfold get_frame in X2. rewrite L5 in X2. fold (get_frame (en s) m) in X2.
    split; [by eapply Good_trans|]. split; [by rewrite H2|].
    split. { destruct R1 as [?|[? ?]]; [by left|right]. unfold room. rewrite X2. done. }
    split; [intros; rewrite H2; auto|]. rewrite X2. simpl. rewrite L1, L2, L3, L4. done.
  - intros s1 (I1&_&T1). split; [eapply Good_throw; eauto|by eapply attach_throw_links].
Qed.

(** the default placement of attachItem(CartesianMap* ) *)
Lemma default_frame_wp E k me m no s i_n :
  Inv me s -> has is_map me (hp s) m ->
  hp s !! (match no with Some n => n | None => e_root (en s) end) = Some i_n -> is_frame (it_kind i_n) = true ->
  it_env i_n = None \/ it_env i_n = Some me -> E \/ room (S k) s ->
  wp E (default_frame me m no s)
     (fun s' => Good false me s s' /\ (E \/ room k s') /\ get_frame (en s') m <> None /\
        (forall q, q <> match no with Some n => n | None => e_root (en s) end -> hp s' !! q = hp s !! q) /\
        e_maps (en s') = (if decide (get_frame (en s) m = None)
                          then ins plt m (match no with Some n => n | None => e_root (en s) end) (e_maps (en s))
                          else e_maps (en s)) /\
        e_tree (en s') = e_tree (en s) /\ e_layers (en s') = e_layers (en s) /\ e_in (en s') = e_in (en s) /\
        e_out (en s') = e_out (en s))
     (fun s' => Good false me s s' /\ same_links (en s) (en s')).
Proof.
  intros HI Hm Hn Hk He Hr. unfold default_frame. destruct (get_frame (en s) m) as [n0|] eqn:Hf; simpl.
  - split; [by apply Good_refl|]. split; [by eapply (room_le _ (S k)); [lia|]|]. split; [congruence|]. done.
  - eapply wp_mono; [by eapply set_frame_attached_wp| |done].
    intros s' (G&Hn'&R&Hq&X1&X2). rewrite (decide_False (P := get_frame (en s) m = Some _)) in X1 by congruence.
    rewrite del_key_fresh in X1 by done.
    split; [done|]. split; [done|]. split.
    { unfold get_frame. rewrite X1. rewrite assoc_ins by done. by rewrite decide_True. }
    rewrite X1. split; [done|]. done.
Qed.

Lemma del_ins_key {V} (k : positive) (v : V) (l : list (positive * V)) :
  assoc k l = None -> del_key k (ins plt k v l) = l.
Proof.
  unfold del_key. induction l as [|[a b] l IH]; intros Hn; simpl.
  - rewrite filter_cons. simpl. by rewrite decide_False by naive_solver.
  - simpl in Hn. destruct (decide (k = a)) as [|Hka]; [done|]. destruct (plt k a).
    + rewrite filter_cons. simpl. rewrite decide_False by naive_solver.
      change (del_key k ((a, b) :: l) = (a, b) :: l). apply del_key_fresh. simpl. by rewrite decide_False.
    + rewrite filter_cons. simpl. rewrite decide_True by congruence. by rewrite IH.
Qed.

Lemma set_frame_wp E k me m n s im i_n :
  Inv me s -> hp s !! m = Some im -> is_map (it_kind im) = true -> hp s !! n = Some i_n -> is_frame (it_kind i_n) = true ->
  it_env im = None \/ it_env im = Some me -> it_env i_n = None \/ it_env i_n = Some me ->
  has is_frame me (hp s) (e_root (en s)) -> E \/ room (S (S (S k))) s ->
  (it_env im = None -> get_frame (en s) m = None) ->
  wp E (set_frame me m n s)
     (fun s' => Good false me s s' /\ has is_map me (hp s') m /\ has is_frame me (hp s') n /\
        e_maps (en s') = (if decide (get_frame (en s) m = Some n) then e_maps (en s)
                          else ins plt m n (del_key m (e_maps (en s)))) /\
        e_tree (en s') = e_tree (en s) /\ e_layers (en s') = e_layers (en s) /\ e_in (en s') = e_in (en s) /\
        e_out (en s') = e_out (en s))
     (fun s' => Good false me s s' /\ same_links (en s) (en s')).
Proof.
  intros HI Hm Hkm Hn Hkn Hem Hen Hroot Hr Hfree. unfold set_frame. apply wp_bind.
  assert (Hmn : m <> n). { intros ->. rewrite Hm in Hn. simplify_eq. by destruct (it_kind i_n). }
  eapply wp_mono; [by apply (attach_if_free_wp E (S (S k)) me n s i_n)| |].
  2: { intros s1 (I1&_&T1). split; [eapply Good_throw; eauto|by eapply attach_throw_links]. }
  intros s1 (G1&Hn1&S1&Hq1&_&_&R1).
  assert (Hn2 : has is_frame me (hp s1) n) by (by eapply has_of_kind).
  unfold deref. rewrite (Hq1 m Hmn), Hm.
  destruct (it_env im) as [e2|] eqn:Heim.
  - destruct Hem as [|Hem]; [done|]. simplify_eq. simpl.
    assert (Hm1 : has is_map me (hp s1) m) by (exists im; by rewrite (Hq1 m Hmn)).
    eapply wp_mono; [apply (place_map_wp E false me m n s1); [apply G1|done|done]| |done].
    destruct S1 as (L1&L2&L3&L4&L5).
    intros s2 (G2&H2&X2). unfold get_frame in X2. rewrite L5 in X2. fold (get_frame (en s) m) in X2.
    split; [by eapply Good_trans|]. rewrite H2. split; [done|]. split; [done|].
    rewrite X2. simpl. rewrite L1, L2, L3, L4. done.
  - apply wp_bind. apply wp_bind.
    eapply wp_mono; [apply (attach_core_wp E (S k) me m s1 im); [apply G1|by rewrite Hq1|by left|done]| |].
    2: { intros s2 (I2&T2). split.
         - eapply Good_trans; [exact G1|]. eapply Good_throw; [apply G1|rewrite Hq1 by done; exact Hm|done|done].
         - eapply same_links_trans; [done|]. by eapply attach_throw_links. }
    intros s2 (G2&HP2&R2). pose proof HP2 as (_&id'&l'&_&_&Hh2&Hx2&_).
    assert (S2 : same_links (en s1) (en s2)) by (by rewrite Hx2).
    assert (Hm2 : has is_map me (hp s2) m).
    { exists (attached_as im me id'). rewrite Hh2, lookup_insert. done. }
    assert (G12 : Good false me s s2) by (by eapply Good_trans).
    assert (Hroot2 : has is_frame me (hp s2) (e_root (en s2))).
    { rewrite (g_root _ _ _ _ G12). by eapply Good_has. }
    destruct Hroot2 as (ir&Hir&Heir&Hkir).
    pose proof (same_links_trans _ _ _ S1 S2) as S12.
    assert (Hnof : get_frame (en s2) m = None).
    { unfold get_frame. destruct S12 as (_&_&_&_&->). by apply Hfree. }
    eapply wp_mono; [apply (default_frame_wp E k me m None s2 ir); [apply G2|done|done|done|by right|done]| |].
    2: { intros s3 (G3&S3). split; [by eapply Good_trans|by eapply same_links_trans]. }
    intros s3 (G3&R3&_&_&X1&X2&X3&X4&X5). rewrite decide_True in X1 by done.
    assert (Hm3 : has is_map me (hp s3) m) by (by eapply Good_has).
    assert (Hn3 : has is_frame me (hp s3) n).
    { exact (Good_has _ _ _ _ _ G3 (Good_has _ _ _ _ _ G2 Hn2)). }
    eapply wp_mono; [apply (place_map_wp E false me m n s3); [apply G3|done|done]| |done].
    intros s4 (G4&H4&Y). destruct S12 as (L1&L2&L3&L4&L5).
    split. { exact (Good_trans _ _ _ _ _ G12 (Good_trans _ _ _ _ _ G3 G4)). }
    rewrite H4. split; [done|]. split; [done|]. rewrite Y. simpl. rewrite X1, X2, X3, X4, X5.
    unfold get_frame in Hnof. rewrite L5 in Hnof. specialize (Hfree eq_refl).
    rewrite (decide_False (P := get_frame (en s) m = Some n)) by congruence.
    rewrite (del_key_fresh m (e_maps (en s))) by done.
    rewrite L1, L2, L3, L4, L5. split; [|done].
    unfold get_frame. rewrite X1, L5. rewrite assoc_ins by done. rewrite (decide_True (P := m = m)) by done.
    clear Y. case_decide as Hrn.
    + by injection Hrn as ->.
    + by rewrite del_ins_key.
Qed.

Lemma remove_inputs_wp E d me o s : Inv me s ->
  wp E (remove_inputs o s) (fun s' => Good d me s s' /\ hp s' = hp s /\ en s' = with_in (en s) (del_key o (e_in (en s)))) (fun _ => False).
Proof.
  intros HI. simpl. split; [|done]. apply Good_in; [done|]. intros a b [? _]%elem_of_del_key. by apply (inv_in _ _ HI).
Qed.
Lemma remove_outputs_wp E d me o s : Inv me s ->
  wp E (remove_outputs o s) (fun s' => Good d me s s' /\ hp s' = hp s /\ en s' = with_out (en s) (del_key o (e_out (en s)))) (fun _ => False).
Proof.
  intros HI. simpl. split; [|done]. apply Good_out; [done|]. intros a b [? _]%elem_of_del_key. by apply (inv_out _ _ HI).
Qed.
Lemma remove_input_wp E d me o l s : Inv me s ->
  wp E (remove_input o l s) (fun s' => Good d me s s' /\ hp s' = hp s /\ en s' = with_in (en s) (del_all o l (e_in (en s)))) (fun _ => False).
Proof.
  intros HI. simpl. split; [|done]. apply Good_in; [done|]. unfold del_all. intros a b [_ ?]%elem_of_list_filter. by apply (inv_in _ _ HI).
Qed.
Lemma remove_output_wp E d me o l s : Inv me s ->
  wp E (remove_output o l s) (fun s' => Good d me s s' /\ hp s' = hp s /\ en s' = with_out (en s) (del_all o l (e_out (en s)))) (fun _ => False).
Proof.
  intros HI. simpl. split; [|done]. apply Good_out; [done|]. unfold del_all. intros a b [_ ?]%elem_of_list_filter. by apply (inv_out _ _ HI).
Qed.
