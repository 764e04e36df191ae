(** detachItem: removal of the links of an item, and of the item itself. *)
From stdpp Require Import prelude strings gmap pretty.
From Verif Require Import Base AssocLemmas EnvModel EnvSpec EnvLib EnvGood EnvAttach EnvLinks EnvLinks2.

Lemma wp_iter_fold {A T} E (f : A -> st -> out st st) (I : T -> st -> Prop) (g : T -> A -> T) X l : forall t s,
  I t s -> (forall x t s, x ∈ l -> I t s -> wp E (f x s) (I (g t x)) X) ->
  wp E (iter_out f l s) (I (foldl g t l)) X.
Proof.
  induction l as [|x l IH]; intros t s HI Hf; simpl; [done|].
  apply wp_bind. eapply wp_mono; [apply Hf; [left|done]| |done].
  intros s1 H1. apply IH; [done|]. intros. apply Hf; [by right|done].
Qed.

Definition keep_out (p : ptr) (l : list (ptr * ptr)) : list (ptr * ptr) := filter (fun kv => ~ mentions p kv) l.
Lemma elem_of_keep_out p l kv : kv ∈ keep_out p l <-> kv ∈ l /\ ~ mentions p kv.
Proof. unfold keep_out. rewrite elem_of_list_filter. tauto. Qed.

Lemma fold_del_key_if (ks l : list (positive * positive)) :
  NoDup l.*1 -> NoDup ks.*1 -> (forall x, x ∈ ks -> x ∈ l) ->
  foldl (fun t kv => if decide (assoc kv.1 t = Some kv.2) then del_key kv.1 t else t) l ks
  = foldl (fun t kv => del_key kv.1 t) l ks.
Proof.
  revert l. induction ks as [|[a b] ks IH]; intros l Hl Hk Hin; [done|].
  simpl in Hk. apply NoDup_cons in Hk as [Ha Hk].
  cbn [foldl fst snd]. rewrite decide_True by (apply assoc_nodup; [done|]; apply Hin; left).
  apply IH; [by apply del_key_nodup|done|]. intros [a' b'] Hx. apply elem_of_del_key. split; [apply Hin; by right|].
  simpl. intros ->. apply Ha. apply elem_of_list_fmap. by exists (a, b').
Qed.
Lemma filter_keys_nodup {K V} (P : K * V -> Prop) {HDec : forall x, Decision (P x)} (l : list (K * V)) : NoDup l.*1 -> NoDup (filter P l).*1.
Proof.
  induction l as [|[a b] l IH]; intros H; [done|]. simpl in H. apply NoDup_cons in H as [Ha H].
  rewrite filter_cons. case_decide; [|auto]. simpl. apply NoDup_cons. split; [|auto].
  rewrite elem_of_list_fmap. intros [[a' b'] [-> Hin]]. apply elem_of_list_filter in Hin as [_ Hin].
  apply Ha. apply elem_of_list_fmap. by exists (a', b').
Qed.

(** all tables without the links of [p] *)
Definition unlink (p : ptr) (x : env) : env :=
  with_maps (with_out (with_in (with_layers (with_tree x (keep_out p (e_tree x))) (keep_out p (e_layers x)))
    (keep_out p (e_in x))) (keep_out p (e_out x))) (keep_out p (e_maps x)).

Lemma remove_links_wp me p s : Inv me s ->
  wp False (remove_links me p s) (fun s' => Good true me s s' /\ hp s' = hp s /\ en s' = unlink p (en s)) (fun _ => False).
Proof.
  intros HI. unfold remove_links. simpl.
  (* frame tree *)
  apply wp_bind. eapply wp_mono.
  { eapply (wp_iter_fold _ _ (fun t s' => Good true me s s' /\ hp s' = hp s /\ en s' = with_tree (en s) t)
      (fun t kv => if decide (assoc kv.1 t = Some kv.2) then del_key kv.1 t else t)).
    - split; [by apply Good_refl|]. split; [done|]. instantiate (1 := e_tree (en s)). by rewrite with_tree_id.
    - intros [c q] t s1 _ (G&H&X). eapply wp_mono; [apply (remove_child_f_wp False true); apply G| |done].
      intros s2 (G2&H2&X2). split; [by eapply Good_trans|]. split; [congruence|]. rewrite X2, X. simpl.
      done. }
  2: done.
  intros s1 (G1&H1&X1). rewrite fold_del_key_if in X1; [|apply HI|apply filter_keys_nodup, HI|intros x Hx; by apply elem_of_list_filter in Hx as [_ Hx]].
  rewrite foldl_del_key_filter in X1 by apply HI. change (filter _ (e_tree (en s))) with (keep_out p (e_tree (en s))) in X1.
  (* layers *)
  apply wp_bind. eapply wp_mono.
  { eapply (wp_iter_fold _ _ (fun t s' => Good true me s s' /\ hp s' = hp s /\ en s' = with_layers (en s1) t)
      (fun t kv => del_one kv.1 kv.2 t)).
    - split; [done|]. split; [done|]. instantiate (1 := e_layers (en s)). rewrite X1. by destruct (en s).
    - intros [c q] t s2 Hin (G&H&X). apply elem_of_list_filter in Hin as [_ Hin].
      apply (inv_layers _ _ HI) in Hin as (Hc&Hq&_).
      eapply wp_mono; [apply (remove_child_l_wp False true); [apply G|by rewrite H..]| |done].
      intros s3 (G3&H3&X3). split; [by eapply Good_trans|]. split; [congruence|]. by rewrite X3, X. }
  2: done.
  intros s2 (G2&H2&X2). rewrite foldl_del_one_filter in X2. change (filter _ (e_layers (en s))) with (keep_out p (e_layers (en s))) in X2.
  (* inputs *)
  apply wp_bind. eapply wp_mono.
  { eapply (wp_iter_fold _ _ (fun t s' => Good true me s s' /\ hp s' = hp s /\ en s' = with_in (en s2) t)
      (fun t kv => del_all kv.1 kv.2 t)).
    - split; [done|]. split; [done|]. instantiate (1 := e_in (en s)). rewrite X2, X1. by destruct (en s).
    - intros [c q] t s3 _ (G&H&X).
      eapply wp_mono; [apply (remove_input_wp False true); apply G| |done].
      intros s4 (G4&H4&X4). split; [by eapply Good_trans|]. split; [congruence|]. by rewrite X4, X. }
  2: done.
  intros s3 (G3&H3&X3). rewrite foldl_del_all_filter in X3. change (filter _ (e_in (en s))) with (keep_out p (e_in (en s))) in X3.
  (* outputs *)
  apply wp_bind. eapply wp_mono.
  { eapply (wp_iter_fold _ _ (fun t s' => Good true me s s' /\ hp s' = hp s /\ en s' = with_out (en s3) t)
      (fun t kv => del_all kv.1 kv.2 t)).
    - split; [done|]. split; [done|]. instantiate (1 := e_out (en s)). rewrite X3, X2, X1. by destruct (en s).
    - intros [c q] t s4 _ (G&H&X).
      eapply wp_mono; [apply (remove_output_wp False true); apply G| |done].
      intros s5 (G5&H5&X5). split; [by eapply Good_trans|]. split; [congruence|]. by rewrite X5, X. }
  2: done.
  intros s4 (G4&H4&X4). rewrite foldl_del_all_filter in X4. change (filter _ (e_out (en s))) with (keep_out p (e_out (en s))) in X4.
  (* map placement *)
  eapply wp_mono.
  { eapply (wp_iter_fold _ _ (fun t s' => Good true me s s' /\ hp s' = hp s /\ en s' = with_maps (en s4) t)
      (fun t kv => if decide (assoc kv.1 t = Some kv.2) then del_key kv.1 t else t)).
    - split; [done|]. split; [done|]. instantiate (1 := e_maps (en s)). rewrite X4, X3, X2, X1. by destruct (en s).
    - intros [c q] t s5 _ (G&H&X). eapply wp_mono; [apply (detach_frame_wp False true); apply G| |done].
      intros s6 (G6&H6&X6). split; [by eapply Good_trans|]. split; [congruence|]. rewrite X6, X. simpl.
      done. }
  2: done.
  intros s5 (G5&H5&X5). split; [done|]. split; [done|].
  rewrite fold_del_key_if in X5; [|apply HI|apply filter_keys_nodup, HI|intros x Hx; by apply elem_of_list_filter in Hx as [_ Hx]].
  rewrite foldl_del_key_filter in X5 by apply HI. change (filter _ (e_maps (en s))) with (keep_out p (e_maps (en s))) in X5.
  rewrite X5, X4, X3, X2, X1. done.
Qed.

(** the environment after the item [p], called [id], is gone *)
Definition without_item (p : ptr) (id : string) (x : env) : env :=
  with_items (unlink p x) (del_key id (e_items x)).

Lemma keep_out_not p l a b : (a, b) ∈ keep_out p l -> a <> p /\ b <> p.
Proof. rewrite elem_of_keep_out. unfold mentions. simpl. tauto. Qed.

Section detach1.
  Context (me : eid) (s : st) (HI : Inv me s) (p : ptr) (it : item).
  Context (Hp : hp s !! p = Some it) (He : it_env it = Some me).

  (** the mirror after the final ITEM REMOVE *)
  Lemma remove_item_mirrors m h' :
    (forall q, q <> p -> h' !! q = hp s !! q) ->
    mirrors m (hp s) (unlink p (en s)) -> Inv me (St (hp s) (unlink p (en s)) []) ->
    exists m', mstep m (mk_event (hp s) EItem ERemove p None) = Some m' /\
               mirrors m' h' (without_item p (it_id it) (en s)).
  Proof using HI He Hp.
    intros Hh HM HI1. set (s1 := St (hp s) (unlink p (en s)) []) in *.
    assert (Dp : has any me (hp s) p) by (by exists it).
    assert (Hinj : forall q, has any me (hp s) q -> q <> p -> idn (hp s) q <> idn (hp s) p).
    { intros q Hq Hne Heq. apply Hne. by apply (inv_id_inj me s HI). }
    unfold mk_event, mstep. simpl. rewrite decide_True.
    - eexists. split; [done|]. destruct HM as (M1&M2&M3&M4).
      assert (Hidp : idn (hp s) p = it_id it) by (unfold idn; by rewrite Hp).
      assert (Hb : forall l, (forall a b, (a, b) ∈ l -> a <> p /\ b <> p) -> by_id h' l = by_id (hp s) l).
      { intros l Hl. apply by_id_ext. intros a b [Ha Hb]%Hl. unfold idn. by rewrite !Hh. }
      repeat split; simpl.
      + rewrite M1. simpl. rewrite Hidp.
        assert (Hdel : forall l : list (string * positive), NoDup l.*1 -> (it_id it, p) ∈ l -> (forall id q, (id, q) ∈ l -> id <> it_id it -> q <> p) ->
          delete (it_id it) (list_to_map ((fun ip : string * positive => (ip.1, payload_of (hp s) ip.2)) <$> l) : gmap string (kind * Z)) =
          list_to_map ((fun ip : string * positive => (ip.1, payload_of h' ip.2)) <$> del_key (it_id it) l)).
        { clear -Hh. intros l HND _ Hl. unfold del_key. induction l as [|[id q] l IH].
          - apply delete_empty.
          - simpl in HND. apply NoDup_cons in HND as [Hn HND]. rewrite filter_cons, fmap_cons, list_to_map_cons. cbn [fst snd].
            assert (IH' := IH HND (fun a b H => Hl a b (elem_of_list_further _ _ _ H))).
            case_decide as Hc.
            + rewrite fmap_cons, list_to_map_cons. cbn [fst snd]. rewrite delete_insert_ne by congruence. rewrite IH'. f_equal.
              unfold payload_of. rewrite Hh; [done|]. apply (Hl id q); [left|done].
            + assert (id = it_id it) as -> by (by destruct (decide (id = it_id it))). rewrite delete_insert_delete. done. }
        apply Hdel; [apply HI|apply (inv_items _ _ HI); eauto|].
        intros id q Hin Hne ->. apply (inv_items _ _ HI) in Hin as (it2&H2&_&?). congruence.
      + rewrite M2. simpl. rewrite Hb; [done|]. apply keep_out_not.
      + rewrite M3. simpl. rewrite Hb; [done|]. apply keep_out_not.
      + rewrite M4. simpl. rewrite Hb; [done|]. apply keep_out_not.
    - split; [by apply (mirrors_known me s1 HI1 m HM any p)|].
      destruct HM as (M1&M2&M3&M4).
      assert (HT : forall a b, (a, b) ∈ e_tree (unlink p (en s)) -> idn (hp s) a <> idn (hp s) p /\ idn (hp s) b <> idn (hp s) p).
      { intros a b Hab. pose proof (keep_out_not _ _ _ _ Hab) as [? ?]. apply (tree_D me s1 HI1) in Hab as [? ?]. auto. }
      assert (HMp : forall a b, (a, b) ∈ e_maps (unlink p (en s)) -> idn (hp s) a <> idn (hp s) p /\ idn (hp s) b <> idn (hp s) p).
      { intros a b Hab. pose proof (keep_out_not _ _ _ _ Hab) as [? ?]. apply (maps_D me s1 HI1) in Hab as [? ?]. auto. }
      assert (HL : forall a b, (a, b) ∈ e_layers (unlink p (en s)) -> idn (hp s) a <> idn (hp s) p /\ idn (hp s) b <> idn (hp s) p).
      { intros a b Hab. pose proof (keep_out_not _ _ _ _ Hab) as [? ?]. apply (layers_D me s1 HI1) in Hab as [? ?]. auto. }
      unfold unlinked. rewrite M2, M3. repeat split.
      + apply lookup_by_id_none. intros a b Hab. by apply HT in Hab as [? _].
      + intros k v Hkv. apply by_id_value in Hkv as (a&b&Hab&<-&<-). by apply HT in Hab as [_ ?].
      + apply lookup_by_id_none. intros a b Hab. by apply HMp in Hab as [? _].
      + intros k v Hkv. apply by_id_value in Hkv as (a&b&Hab&<-&<-). by apply HMp in Hab as [_ ?].
      + apply Forall_forall. intros [k v] Hkv. rewrite M4 in Hkv. unfold by_id in Hkv.
        apply elem_of_list_fmap in Hkv as [[a b] [Heq Hab]]. simpl in Heq. simplify_eq. simpl. by apply HL.
  Qed.

  Lemma detach_one_ok : exists es,
    detach_one me p s = Ok (St (<[p := with_env it None]> (hp s)) (without_item p (it_id it) (en s))
                               (tr s ++ deliver me (e_handlers (en s)) es), p) /\
    (forall h' m, (forall q, q <> p -> h' !! q = hp s !! q) -> mirrors m (hp s) (en s) ->
      exists m', replay m es = Some m' /\ mirrors m' h' (without_item p (it_id it) (en s))).
  Proof using HI He Hp.
    unfold detach_one, deref. rewrite Hp.
    assert (Ha : assoc (it_id it) (e_items (en s)) = Some p) by (apply (inv_assoc _ _ HI); eauto).
    rewrite Ha. pose proof (remove_links_wp me p s HI) as HR.
    destruct (remove_links me p s) as [s1|?|?|]; simpl in HR; try done.
    destruct HR as (G&H1&X1). simpl.
    assert (Dp : has any me (hp s1) p) by (rewrite H1; by exists it).
    unfold emit. rewrite (emit_to_ok me); [|apply G|done|done]. simpl. rewrite H1, Hp.
    rewrite X1. simpl. rewrite Ha.
    destruct (g_tr _ _ _ _ G) as (es&Ht&HM).
    exists (es ++ [mk_event (hp s) EItem ERemove p None]). split.
    - f_equal. f_equal. unfold put, set_en, set_hp, add_tr. simpl. f_equal; [by rewrite H1|].
      rewrite Ht, deliver_app, <- app_assoc. done.
    - intros h' m Hh Hm. destruct (HM m Hm) as (m1&R1&Hm1). rewrite H1, X1 in Hm1.
      assert (HI1 : Inv me (St (hp s) (unlink p (en s)) [])).
      { rewrite <- H1, <- X1. destruct s1. apply (Inv_tr me (St hp en tr)), G. }
      destruct (remove_item_mirrors m1 h' Hh Hm1 HI1) as (m2&S2&Hm2).
      exists m2. split; [|done]. rewrite (replay_app _ _ _ _ R1). simpl. by rewrite S2.
  Qed.

  (** [u]: references of the user afterwards; without any the item is destroyed *)
  Definition after_detach (u : nat) : gmap positive item :=
    match u with
    | O => delete p (hp s)
    | S _ => <[p := Item (it_kind it) (it_id it) None (it_val it) u u]> (hp s)
    end.

  Lemma after_ne u q : q <> p -> after_detach u !! q = hp s !! q.
  Proof using. intros. unfold after_detach. destruct u; [by rewrite lookup_delete_ne|by rewrite lookup_insert_ne]. Qed.
  Lemma after_eq u it' : after_detach u !! p = Some it' ->
    u <> 0 /\ it' = Item (it_kind it) (it_id it) None (it_val it) u u.
  Proof using. unfold after_detach. destruct u; [by rewrite lookup_delete|]. rewrite lookup_insert. naive_solver. Qed.

  Lemma has_after f u q : has f me (after_detach u) q <-> has f me (hp s) q /\ q <> p.
  Proof using.
    unfold has. destruct (decide (q = p)) as [->|Hne].
    - split; [|tauto]. intros (it'&H1&H2&_). apply after_eq in H1 as [_ ->]. done.
    - rewrite after_ne by done. tauto.
  Qed.

  Lemma Inv_after u t : Inv me (St (after_detach u) (without_item p (it_id it) (en s)) t).
  Proof using HI He Hp.
    constructor; simpl.
    - intros id q. rewrite elem_of_del_key. simpl. rewrite (inv_items _ _ HI). split.
      + intros ((it1&Hq&He1&Hid)&Hne). exists it1. split; [|done]. rewrite after_ne; [done|]. intros ->. congruence.
      + intros (it1&Hq&He1&Hid). destruct (decide (q = p)) as [->|Hne]; [apply after_eq in Hq as [_ ->]; done|].
        rewrite after_ne in Hq by done. split; [eauto|]. intros ->. apply Hne.
        apply (inv_id_inj me s HI); [by exists it1|by exists it|]. unfold idn. by rewrite Hq, Hp.
    - apply del_key_nodup, HI.
    - apply filter_keys_nodup, HI.
    - apply filter_keys_nodup, HI.
    - intros c q Hin. pose proof (keep_out_not _ _ _ _ Hin) as [? ?]. apply elem_of_keep_out in Hin as [Hin _].
      apply (inv_tree _ _ HI) in Hin. rewrite !has_after. tauto.
    - intros c q Hin. pose proof (keep_out_not _ _ _ _ Hin) as [? ?]. apply elem_of_keep_out in Hin as [Hin _].
      apply (inv_layers _ _ HI) in Hin. rewrite !has_after. tauto.
    - intros c q Hin. pose proof (keep_out_not _ _ _ _ Hin) as [? ?]. apply elem_of_keep_out in Hin as [Hin _].
      apply (inv_in _ _ HI) in Hin. rewrite !has_after. tauto.
    - intros c q Hin. pose proof (keep_out_not _ _ _ _ Hin) as [? ?]. apply elem_of_keep_out in Hin as [Hin _].
      apply (inv_out _ _ HI) in Hin. rewrite !has_after. tauto.
    - intros c q Hin. pose proof (keep_out_not _ _ _ _ Hin) as [? ?]. apply elem_of_keep_out in Hin as [Hin _].
      apply (inv_maps _ _ HI) in Hin. rewrite !has_after. tauto.
    - intros q it1 Hq. destruct (decide (q = p)) as [->|Hne].
      + apply after_eq in Hq as [_ ->]. simpl. lia.
      + rewrite after_ne in Hq by done. by apply (inv_refs _ _ HI) in Hq.
    - intros id q [Hin _]%elem_of_del_key. by apply (inv_slash _ _ HI) in Hin.
    - intros id q [Hin _]%elem_of_del_key. by apply (inv_end _ _ HI) in Hin.
    - apply HI.
  Qed.

  Lemma Good_after u es : it_user it <= u ->
    (forall h' m, (forall q, q <> p -> h' !! q = hp s !! q) -> mirrors m (hp s) (en s) ->
      exists m', replay m es = Some m' /\ mirrors m' h' (without_item p (it_id it) (en s))) ->
    Good true me s (St (after_detach u) (without_item p (it_id it) (en s)) (tr s ++ deliver me (e_handlers (en s)) es)).
  Proof using HI He Hp.
    intros Hu HM. constructor; simpl; try done.
    - apply Inv_after.
    - intros q it' Hq. destruct (decide (q = p)) as [->|Hne].
      + apply after_eq in Hq as [_ ->]. exists it. simpl. repeat split; done.
      + rewrite after_ne in Hq by done. exists it'. auto.
    - intros q it1 e' Hne He1. destruct (decide (q = p)) as [->|Hne'].
      + split; intros Hq; [congruence|]. apply after_eq in Hq as [_ ->]. done.
      + by rewrite after_ne.
    - intros q it1 Hq Hu1. destruct (decide (q = p)) as [->|Hne']; [|by rewrite after_ne].
      rewrite Hp in Hq. injection Hq as <-. unfold after_detach. destruct u; [lia|]. rewrite lookup_insert. eauto.
    - intros q it1 it1' Hq Hq'. destruct (decide (q = p)) as [->|Hne']; [|rewrite after_ne in Hq' by done; congruence].
      apply after_eq in Hq' as [_ ->]. rewrite Hp in Hq. by injection Hq as <-.
    - exists es. split; [done|]. intros m Hm. apply HM; [|done]. intros. by apply after_ne.
  Qed.
End detach1.

(** ** Sets of items removed *)
Definition outside (D : list ptr) (l : list (ptr * ptr)) : list (ptr * ptr) :=
  filter (fun kv => kv.1 ∉ D /\ kv.2 ∉ D) l.

(** [s'] is [s] without the items in [D] *)
Record Removed (me : eid) (s s' : st) (D : list ptr) : Prop := {
  r_good : Good true me s s';
  r_heap : forall q, q ∉ D -> hp s' !! q = hp s !! q;
  r_gone : forall q it, q ∈ D -> hp s !! q = Some it ->
     it_env it = Some me /\
     hp s' !! q = match it_user it with
                  | O => None
                  | S _ => Some (Item (it_kind it) (it_id it) None (it_val it) (it_user it) (it_user it)) end;
  r_in : forall q, q ∈ D -> is_Some (hp s !! q);
  r_items : e_items (en s') = filter (fun ip => ip.2 ∉ D) (e_items (en s));
  r_tree : e_tree (en s') = outside D (e_tree (en s));
  r_layers : e_layers (en s') = outside D (e_layers (en s));
  r_ins : e_in (en s') = outside D (e_in (en s));
  r_outs : e_out (en s') = outside D (e_out (en s));
  r_maps : e_maps (en s') = outside D (e_maps (en s));
  r_last : e_last (en s') = e_last (en s);
}.

Lemma outside_nil l : outside [] l = l.
Proof. unfold outside. apply list_filter_id. intros. split; apply not_elem_of_nil. Qed.
Lemma outside_app D1 D2 l : outside D2 (outside D1 l) = outside (D1 ++ D2) l.
Proof.
  unfold outside. rewrite list_filter_filter. apply list_filter_ext_in. intros [a b] _. simpl.
  rewrite !not_elem_of_app. tauto.
Qed.
Lemma outside_one p l : keep_out p l = outside [p] l.
Proof.
  unfold outside, keep_out. apply list_filter_ext_in. intros [a b] _. unfold mentions. simpl.
  rewrite !elem_of_list_singleton. tauto.
Qed.
Lemma elem_of_outside D l a b : (a, b) ∈ outside D l <-> (a, b) ∈ l /\ a ∉ D /\ b ∉ D.
Proof. unfold outside. rewrite elem_of_list_filter. simpl. tauto. Qed.

Lemma Removed_nil me s : Inv me s -> Removed me s s [].
Proof.
  intros HI. constructor; rewrite ?outside_nil; auto.
  - by apply Good_refl.
  - intros q it H. by apply not_elem_of_nil in H.
  - intros q H. by apply not_elem_of_nil in H.
  - symmetry. apply list_filter_id. intros. apply not_elem_of_nil.
Qed.
Lemma Removed_trans me s s1 s2 D1 D2 :
  Removed me s s1 D1 -> Removed me s1 s2 D2 -> (forall q, q ∈ D2 -> q ∉ D1) -> Removed me s s2 (D1 ++ D2).
Proof.
  intros A B Hd. constructor.
  - eapply Good_trans; [apply A|apply B].
  - intros q [Hq1 Hq2]%not_elem_of_app. rewrite (r_heap _ _ _ _ B) by done. by apply (r_heap _ _ _ _ A).
  - intros q it Hq Hs. destruct (decide (q ∈ D1)) as [H1|H1].
    + assert (q ∉ D2) by (intros H2; by apply (Hd _ H2)). rewrite (r_heap _ _ _ _ B) by done. by apply (r_gone _ _ _ _ A).
    + apply elem_of_app in Hq as [|Hq]; [done|]. apply (r_gone _ _ _ _ B); [done|]. by rewrite (r_heap _ _ _ _ A).
  - intros q [Hq|Hq]%elem_of_app; [by apply (r_in _ _ _ _ A)|].
    rewrite <- (r_heap _ _ _ _ A) by (by apply Hd). by apply (r_in _ _ _ _ B).
  - rewrite (r_items _ _ _ _ B), (r_items _ _ _ _ A), list_filter_filter. apply list_filter_ext_in.
    intros [id q] _. simpl. rewrite not_elem_of_app. tauto.
  - by rewrite (r_tree _ _ _ _ B), (r_tree _ _ _ _ A), outside_app.
  - by rewrite (r_layers _ _ _ _ B), (r_layers _ _ _ _ A), outside_app.
  - by rewrite (r_ins _ _ _ _ B), (r_ins _ _ _ _ A), outside_app.
  - by rewrite (r_outs _ _ _ _ B), (r_outs _ _ _ _ A), outside_app.
  - by rewrite (r_maps _ _ _ _ B), (r_maps _ _ _ _ A), outside_app.
  - by rewrite (r_last _ _ _ _ B), (r_last _ _ _ _ A).
Qed.

Lemma items_without me s p it : Inv me s -> hp s !! p = Some it -> it_env it = Some me ->
  del_key (it_id it) (e_items (en s)) = filter (fun ip => ip.2 ∉ [p]) (e_items (en s)).
Proof.
  intros HI Hp He. unfold del_key. apply list_filter_ext_in. intros [id q] Hin. simpl. rewrite elem_of_list_singleton.
  apply (inv_items _ _ HI) in Hin as (it2&H2&He2&Hid). split.
  - intros Hne ->. congruence.
  - intros Hne ->. apply Hne. apply (inv_id_inj me s HI); [by exists it2|by exists it|]. unfold idn. by rewrite H2, Hp.
Qed.

(** detach and drop the returned pointer *)
Lemma detach_drop_ok me s p it : Inv me s -> hp s !! p = Some it -> it_env it = Some me ->
  exists s', detach_drop me p s = Ok s' /\ Removed me s s' [p].
Proof.
  intros HI Hp He. destruct (detach_one_ok me s HI p it Hp He) as (es&Hd&HM).
  pose proof (Good_after me s HI p it Hp He (it_user it) es (le_n _) HM) as HG.
  exists (St (after_detach s p it (it_user it)) (without_item p (it_id it) (en s)) (tr s ++ deliver me (e_handlers (en s)) es)). split.
  - unfold detach_drop. rewrite Hd. simpl. unfold release, deref. simpl. rewrite lookup_insert. simpl.
    pose proof (inv_refs _ _ HI _ _ Hp) as Hr. rewrite He in Hr.
    unfold drop_temp, put, set_hp. simpl. rewrite lookup_insert. simpl. rewrite insert_insert.
    case_decide as Hz; unfold after_detach.
    + assert (it_user it = 0) as -> by lia. rewrite delete_insert_delete. done.
    + destruct (it_user it) as [|u] eqn:Hu; [lia|]. unfold with_refs, with_env. simpl.
      assert (pred (it_refs it) = S u) as -> by lia. rewrite ?Hu. done.
  - constructor; simpl; rewrite <- ?outside_one; auto.
    + intros q Hq. apply after_ne. rewrite elem_of_list_singleton in Hq. done.
    + intros q it1 ->%elem_of_list_singleton Hq. assert (it1 = it) as -> by congruence. split; [done|].
      unfold after_detach. destruct (it_user it); [by rewrite lookup_delete|by rewrite lookup_insert].
    + intros q ->%elem_of_list_singleton. eauto.
    + by eapply items_without.
Qed.
