(** Attaching, detaching, creating and destroying environments; the main theorem about single steps. *)
From stdpp Require Import prelude strings gmap pretty relations.
From Verif Require Import Base AssocLemmas EnvModel EnvSpec EnvLib EnvGood EnvAttach EnvLinks EnvLinks2 EnvDetach EnvDeep EnvHandlers EnvWorld EnvStep EnvStep2.

Definition room_at (k : nat) (w : world) (e : eid) : Prop :=
  forall x, w_envs w !! e = Some x -> room k (St (w_heap w) x (w_tr w)).

Lemma rest_removed e s s' D : Removed e s s' D -> e_root (en s) ∉ D -> RootOk e s -> Acyclic (en s) -> RootOk e s' /\ Acyclic (en s').
Proof.
  intros HR Hn [(ir&Hir&Her&Hkr) Hp] HA. split; [split|].
  - rewrite (g_root _ _ _ _ (r_good _ _ _ _ HR)). exists ir. rewrite (r_heap _ _ _ _ HR) by done. done.
  - rewrite (g_root _ _ _ _ (r_good _ _ _ _ HR)). unfold get_parent in *. eapply keys_sub; [|done].
    intros [a b]. rewrite (r_tree _ _ _ _ HR). rewrite elem_of_outside. tauto.
  - eapply Acyclic_sub; [done|]. intros a b. rewrite (Removed_parent _ _ _ _ _ _ HR). tauto.
Qed.

Lemma frame_map k : is_frame k = true -> is_map k = true -> False.
Proof. by destruct k. Qed.
Lemma ids_ok_heap w w' : w_heap w' = w_heap w -> ids_ok w w'.
Proof. intros Hh q it it' e H1 H2. congruence. Qed.

Section step.
Context (E : Prop).
Local Notation WP := (wp E).

(** an unattached item *)
Lemma attach_free_wp k me p w it : WInv w -> w_heap w !! p = Some it -> it_env it = None ->
  E \/ (live_env w me /\ room_at (S k) w me) ->
  WP (on_env me (attach_core me p) w)
    (fun w' => Facts (Some false) w w' /\ (forall q, q <> p -> w_heap w' !! q = w_heap w !! q) /\
       has (fun k' => bool_decide (k' = it_kind it)) me (w_heap w') p /\ (E \/ room_at k w' me))
    (fun w' => Facts (Some false) w w' /\ (forall q, q <> p -> w_heap w' !! q = w_heap w !! q) /\
       (exists it', w_heap w' !! p = Some it' /\ it_env it' = None)).
Proof.
  intros HW Hp He HE. apply on_env_cases; [tauto|]. intros x Hx. destruct (winv_parts _ _ _ HW Hx) as (I&R&A).
  assert (Hrm : E \/ room (S k) (St (w_heap w) x (w_tr w))). { destruct HE as [|[_ Hr]]; [by left|right; by apply Hr]. }
  eapply wp_mono; [exact (attach_core_wp E k me p _ it I Hp (or_introl He) Hrm)| |].
  - intros s' (HG&(_&id'&l'&_&_&Hh&Hen&_)&Hr). simpl in *. split; [|split; [|split]].
    + destruct (rest_same _ _ _ HG) as [R' A']; [by rewrite Hen|done|done|]. by apply (lift false me w x).
    + intros q Hq. rewrite Hh. by rewrite lookup_insert_ne.
    + rewrite Hh. exists (attached_as it me id'). split; [apply lookup_insert|]. split; [done|]. by apply bool_decide_eq_true.
    + destruct Hr as [|Hr]; [by left|right]. intros y Hy. simpl in Hy. rewrite lookup_insert in Hy. simplify_eq.
      destruct s'; done.
  - intros s' (I'&Ht). pose proof (Good_throw _ _ _ _ _ I Hp I' Ht) as HG. pose proof (attach_throw_links _ _ _ _ _ Ht) as [Htree _].
    split; [|split].
    + destruct (rest_same _ _ _ HG Htree R A) as [R' A']. by apply (lift false me w x).
    + destruct Ht as (_&_&[[? _]|(_&_&_&Hh)]); [done|]. simpl in *. intros q Hq. rewrite Hh. by rewrite lookup_insert_ne.
    + destruct Ht as (_&_&[[? _]|(_&_&_&Hh)]); [done|]. simpl in *. rewrite Hh. eexists. split; [apply lookup_insert|]. done.
Qed.

Definition att_post (k : nat) (me : eid) (p : ptr) (it : item) (w w' : world) : Prop :=
  Facts None w w' /\ (forall q, q <> p -> w_heap w' !! q = w_heap w !! q) /\ it_env it <> Some me /\
  has (fun k' => bool_decide (k' = it_kind it)) me (w_heap w') p /\ (E \/ room_at k w' me).

Lemma attach_item_wp k me p w it : WInv w -> w_heap w !! p = Some it -> in_env w me p \/ ~ is_root w p ->
  E \/ (live_env w me /\ movable w me p /\ room_at (S k) w me) ->
  WP (attach_item me p w) (att_post k me p it w) (fun w' => Facts None w w' /\ ids_ok w w').
Proof.
  intros HW Hp Lp HE. unfold attach_item, wderef. rewrite Hp. destruct (it_env it) as [e2|] eqn:He.
  - case_decide as Hd; [subst e2|].
    + apply on_env_cases; [right; by eapply (winv_owner _ HW)|]. intros x Hx. destruct (winv_parts _ _ _ HW Hx) as (I&R&A).
      assert (Hrm : E \/ room (S k) (St (w_heap w) x (w_tr w))). { destruct HE as [|(_&_&Hr)]; [by left|right; by apply Hr]. }
      eapply wp_mono; [exact (attach_core_wp E k me p _ it I Hp (or_intror He) Hrm)| |].
      * intros s' (_&(Hn&_)&_). congruence.
      * intros s' (I'&Ht). pose proof (Good_throw _ _ _ _ _ I Hp I' Ht) as HG. pose proof (attach_throw_links _ _ _ _ _ Ht) as [Htree _].
        split.
        { destruct (rest_same _ _ _ HG Htree R A) as [R' A']. eapply Facts_weak. by apply (lift false me w x). }
        destruct Ht as (_&_&[[_ Hh]|[Hn _]]); [|congruence]. by apply ids_ok_heap.
    + destruct (winv_owner _ HW _ _ _ Hp He) as [x Hx]. destruct (winv_parts _ _ _ HW Hx) as (I&R&A).
      destruct (detach_drop_ok e2 _ p it I Hp He) as (s1&Hs1&HR).
      assert (Hroot : e_root x <> p).
      { intros <-. destruct Lp as [(i&Hi&He')|Hn]; [congruence|]. apply Hn. by exists e2, x. }
      destruct (rest_removed _ _ _ _ HR) as [R' A']; [simpl; rewrite elem_of_list_singleton; done|done|done|].
      assert (HF : Facts (Some true) w (unfocus e2 w s1)).
      { apply (lift true e2 w x); [done|done|apply (r_good _ _ _ _ HR)|done|done]. }
      unfold on_env at 1, focus. rewrite Hx, Hs1. cbn [obind].
      assert (Hq : forall q, q <> p -> w_heap (unfocus e2 w s1) !! q = w_heap w !! q).
      { intros q Hq. simpl. rewrite (r_heap _ _ _ _ HR); [done|]. by rewrite elem_of_list_singleton. }
      destruct (r_gone _ _ _ _ HR p it) as [_ Hgone]; [by rewrite elem_of_list_singleton|done|].
      destruct (it_user it) as [|u] eqn:Hu.
      * apply on_env_cases.
        { destruct HE as [|(_&Hm&_)]; [by left|]. destruct (Hm it Hp) as [?|[?|?]]; congruence. }
        intros y Hy. unfold attach_core, deref. cbn [hp w_heap unfocus]. rewrite Hgone. simpl.
        destruct HE as [|(_&Hm&_)]; [done|]. destruct (Hm it Hp) as [?|[?|?]]; congruence.
      * eapply wp_mono; [apply (attach_free_wp k me p _ _ (fa_inv _ _ _ HF) Hgone)|..].
        { done. }
        { destruct HE as [|(Hl&_&Hr)]; [by left|right]. split; [by apply (fa_dom _ _ _ HF)|].
          intros y Hy. simpl in Hy. rewrite lookup_insert_ne in Hy by done. apply (Hr y Hy). }
        { intros w' (HF'&Hq'&Hhas&Hr'). split; [|split; [|split; [congruence|split; [done|done]]]].
          - eapply Facts_trans; eapply Facts_weak; done.
          - intros q Hne. rewrite Hq' by done. by apply Hq. }
        { intros w' (HF'&Hq'&(it'&Hp'&He')). split.
          - eapply Facts_trans; eapply Facts_weak; done.
          - intros q i i' e' H1 H2 H3 H4. destruct (decide (q = p)) as [->|Hne]; [congruence|].
            rewrite Hq', Hq in H2 by done. congruence. }
  - eapply wp_mono; [apply (attach_free_wp k me p w it HW Hp He)|..].
    + destruct HE as [|(?&?&?)]; [by left|by right].
    + intros w' (HF&Hq&Hh&Hr). split; [by eapply Facts_weak|]. split; [done|]. split; [congruence|done].
    + intros w' (HF&Hq&(it'&Hp'&He')). split; [by eapply Facts_weak|]. intros q i i' e' H1 H2 H3 H4.
      destruct (decide (q = p)) as [->|Hne]; [congruence|]. rewrite Hq in H2 by done. congruence.
Qed.

Lemma att_ids k me p it w w' : w_heap w !! p = Some it -> att_post k me p it w w' -> ids_ok w w'.
Proof.
  intros Hp (_&Hq&Hne&(it'&Hp'&He'&_)&_) q i i' e H1 H2 H3 H4. destruct (decide (q = p)) as [->|Hn]; [congruence|].
  rewrite Hq in H2 by done. congruence.
Qed.
Lemma attach_eff e p w : WInv w -> legal w (OAttach e p) ->
  E \/ (live_env w e /\ kind_ok any w p /\ movable w e p /\ rooms 1 w) ->
  WP (step w (OAttach e p)) (Eff w (OAttach e p)) (Eff w (OAttach e p)).
Proof.
  intros HW HL HE. cbn [step]. destruct (w_heap w !! p) as [it|] eqn:Hp.
  - eapply wp_mono; [apply (attach_item_wp 0 e p w it HW Hp HL)|..].
    + destruct HE as [|(?&?&?&Hr)]; [by left|right]. split; [done|]. split; [done|]. intros x Hx. by apply (Hr e).
    + intros w' HA. pose proof (att_ids _ _ _ _ _ _ Hp HA) as Hi. destruct HA as [HF _]. by eapply Eff_of_Facts0.
    + intros w' [HF Hi]. by eapply Eff_of_Facts0.
  - unfold attach_item, wderef. rewrite Hp. simpl. destruct HE as [|(_&(i&?&?)&_)]; [done|congruence].
Qed.

Lemma attach_map_wp e m n w im op : WInv w -> w_heap w !! m = Some im -> is_map (it_kind im) = true ->
  (forall x, n = Some x -> free_or w e x /\ kind_ok is_frame w x) ->
  E \/ (live_env w e /\ movable w e m /\ rooms 2 w) ->
  WP (attach_map e m n w) (Eff w op) (Eff w op).
Proof.
  intros HW Hm Km Hn HE. unfold attach_map. apply wp_bind.
  assert (Hnr : ~ is_root w m).
  { intros (e'&x&Hx&<-). destruct (winv_parts _ _ _ HW Hx) as (_&[(i&Hi&_&Hf) _]&_). simpl in *. rewrite Hi in Hm. injection Hm as ->.
    by eapply frame_map. }
  eapply wp_mono; [apply (attach_item_wp 1 e m w im HW Hm (or_intror Hnr))|..].
  - destruct HE as [|(?&?&Hr)]; [by left|right]. split; [done|]. split; [done|]. intros x Hx. by apply (Hr e).
  - intros w1 HA. pose proof (att_ids _ _ _ _ _ _ Hm HA) as Hi. destruct HA as (HF&Hq&Hne&Hhas&Hroom).
    assert (HW1 : WInv w1) by apply HF.
    apply on_env_cases; [right; destruct Hhas as (?&?&?&_); by eapply (winv_owner _ HW1)|]. intros x Hx.
    destruct (winv_parts _ _ _ HW1 Hx) as (I&R&A).
    assert (Hhm : has is_map e (w_heap w1) m) by (by eapply has_of_kind).
    assert (exists i_n, w_heap w1 !! (match n with Some n => n | None => e_root x end) = Some i_n /\ is_frame (it_kind i_n) = true /\
              (it_env i_n = None \/ it_env i_n = Some e) /\
              (match n with Some n => n | None => e_root x end) <> m) as (i_n&Hin&Hkn&Hen&Hnm).
    { assert (Hfm : forall q it, w_heap w1 !! q = Some it -> is_frame (it_kind it) = true -> q <> m).
      { intros q it Hq1 Hf ->. destruct Hhm as (i&Hi1&_&Hi2). simpl in *. rewrite Hi1 in Hq1. injection Hq1 as ->. by eapply frame_map. }
      destruct n as [n|].
      - destruct (Hn n eq_refl) as [Hfr (i&Hi1&Hk)]. assert (n <> m).
        { intros ->. rewrite Hm in Hi1. injection Hi1 as ->. by eapply frame_map. }
        exists i. rewrite Hq by done. split; [done|]. split; [done|]. split; [by eapply free_or_at|done].
      - destruct R as [(ir&Hir&Her&Hkr) _]. simpl in *. exists ir. split; [done|]. split; [done|]. split; [by right|]. by eapply Hfm. }
    assert (Hrm : E \/ room 1 (St (w_heap w1) x (w_tr w1))). { destruct Hroom as [|Hr]; [by left|right; by apply Hr]. }
    assert (Hcomp : forall w2 (nn : ptr), nn = (match n with Some n => n | None => e_root x end) -> Facts (Some false) w1 w2 -> Eff w op w2).
    { intros w2 nn -> HF2. eapply Eff_of_Facts0; [eapply Facts_trans; [exact HF|by eapply Facts_weak]|].
      intros q i i' e' H1 H2 H3 H4. destruct (decide (q = m)) as [->|Hqm].
      - destruct Hhas as (i1&Hi1&Hie1&_). destruct (fa_ids _ _ _ HF2 m i1 e Hi1 Hie1) as (i2&Hi2&Hie2&_). simplify_eq.
      - assert (w_heap w1 !! q = Some i) by (by rewrite Hq). destruct (fa_ids _ _ _ HF2 q i e') as (i2&?&?&?); [done|done|]. congruence. }
    eapply wp_mono; [exact (default_frame_wp E 0 e m n _ i_n I Hhm Hin Hkn Hen Hrm)|..].
    + intros s' (HG&_&_&_&_&Ht&_). eapply Hcomp; [done|]. destruct (rest_same _ _ _ HG Ht R A). by apply (lift false e w1 x).
    + intros s' (HG&Ht&_). eapply Hcomp; [done|]. destruct (rest_same _ _ _ HG Ht R A). by apply (lift false e w1 x).
  - intros w1 [HF Hi]. by eapply Eff_of_Facts0.
Qed.
Lemma attach_map_eff e m n w : WInv w -> legal w (OAttachMap e m n) ->
  E \/ (live_env w e /\ kind_ok is_map w m /\ movable w e m /\ (forall x, n = Some x -> kind_ok is_frame w x) /\ rooms 2 w) ->
  WP (step w (OAttachMap e m n)) (Eff w (OAttachMap e m n)) (Eff w (OAttachMap e m n)).
Proof.
  intros HW HL HE. cbn [step]. apply wp_typed; [tauto|]. intros im Hm Km. destruct n as [n|].
  - apply wp_typed; [destruct HE as [|(?&?&?&Hk&?)]; [by left|right; by apply Hk]|]. intros i_n Hn Kn.
    eapply attach_map_wp; [done|done|done| |tauto]. intros y Hy. simplify_eq. split; [done|]. by exists i_n.
  - eapply attach_map_wp; [done|done|done| |tauto]. done.
Qed.

(** ** Detaching *)
Lemma detach_eff e p deep keep w : WInv w -> legal w (ODetach e p deep keep) ->
  WP (step w (ODetach e p deep keep)) (Eff w (ODetach e p deep keep)) (fun _ => False).
Proof.
  intros HW [(it&Hp&He) Hnr]. cbn [step]. unfold user_detach.
  apply on_env_cases; [right; by eapply (winv_owner _ HW)|]. intros x Hx. destruct (winv_parts _ _ _ HW Hx) as (I&R&A).
  destruct (user_detach_ok e deep keep p _ it I A Hp He) as (D&s1&s'&Hok&HR&HG&HD&Hh&Hen&_). rewrite Hok. simpl.
  assert (HpD : p ∉ D) by (intros ?%HD; tauto).
  assert (HrD : e_root x ∉ D).
  { intros (_&_&Hb&Hn)%HD. simpl in *. destruct Hb as [Hb|(n&Hin&_)].
    - inversion Hb as [|? ? ? Hpar Hrest]; subst; [done|]. unfold parent_of in Hpar. destruct R as [_ Hroot]. unfold get_parent in Hroot.
      apply assoc_none in Hroot. destruct Hroot. apply elem_of_list_fmap. by eexists (_, _).
    - apply (inv_maps _ _ I) in Hin as [(i&Hi&_&Hk) _]. simpl in *. destruct R as [(ir&Hir&_&Hkr) _]. simpl in *. rewrite Hi in Hir. injection Hir as ->. by eapply frame_map. }
  destruct (rest_removed _ _ _ _ HR HrD R A) as [R1 A1].
  assert (Hrp : e_root x <> p). { intros <-. apply Hnr. by exists e, x. }
  eapply (Eff_of_Facts true). apply (lift true e w x); [done|done|exact (Good_trans _ _ _ _ _ (r_good _ _ _ _ HR) HG)|..].
  - destruct R1 as [R1a R1b]. split.
    + rewrite (g_root _ _ _ _ HG), (g_root _ _ _ _ (r_good _ _ _ _ HR)) in *. simpl in *. rewrite Hh. eapply has_after; eauto.
    + rewrite (g_root _ _ _ _ HG). unfold get_parent in *. eapply keys_sub; [|exact R1b]. rewrite Hen. intros kv. simpl. rewrite elem_of_keep_out. tauto.
  - eapply Acyclic_sub; [exact A1|]. intros a b. unfold parent_of. rewrite Hen. simpl. rewrite elem_of_keep_out. tauto.
Qed.

(** ** Environments *)
Lemma new_env_eff e r w : WInv w -> E \/ (w_envs w !! e = None /\ w_heap w !! r = None) ->
  WP (step w (ONewEnv e r)) (Eff w (ONewEnv e r)) (Eff w (ONewEnv e r)).
Proof.
  intros HW HE. cbn [step]. unfold new_env. destruct (w_envs w !! e) as [|] eqn:Hx; [simpl; destruct HE as [|[? _]]; [done|congruence]|].
  destruct (w_heap w !! r) eqn:Hr; [simpl; destruct HE as [|[_ ?]]; [done|congruence]|].
  set (x0 := Env [] [] [] [] [] [] r "/" 1 []). set (h0 := <[r := Item KFrame "/0" None 0 0 0]> (w_heap w)).
  set (w0 := World h0 (<[e := x0]> (w_envs w)) (w_tr w)).
  assert (HS : forall e', same_at e' (w_heap w) h0) by (intros e'; by apply same_at_fresh).
  assert (Hrefs : forall q i, h0 !! q = Some i -> it_refs i = it_user i + match it_env i with Some _ => 1 | None => 0 end).
  { intros q i Hq. apply lookup_insert_Some in Hq as [[<- <-]|[Hne Hq]]; [done|]. by apply (winv_refs _ HW) in Hq. }
  assert (HX : WInvX e w0).
  { constructor; simpl.
    - intros e' y Hne Hy. rewrite lookup_insert_ne in Hy by done. destruct (winv_parts _ _ _ HW Hy) as (I&(R&P)&A).
      split; [eapply Inv_other; [done|by apply same_at_view|done]|]. split; [|done]. split; [|done].
      eapply has_same; [by apply same_at_view|done].
    - intros q i e' Hq He. apply lookup_insert_Some in Hq as [[<- <-]|[Hne Hq]]; [done|].
      destruct (decide (e' = e)) as [->|]; [rewrite lookup_insert; eauto|]. rewrite lookup_insert_ne by done. by eapply (winv_owner _ HW). }
  assert (Hnone : forall q i, h0 !! q = Some i -> it_env i <> Some e).
  { intros q i Hq He. apply lookup_insert_Some in Hq as [[<- <-]|[Hne Hq]]; [done|].
    destruct (winv_owner _ HW q i e Hq He). congruence. }
  assert (I0 : Inv e (St h0 x0 (w_tr w))).
  { constructor; simpl; try (intros ? ?; rewrite elem_of_nil; done); try apply NoDup_nil_2; [|done|done].
    intros id q. rewrite elem_of_nil. split; [done|]. intros (i&Hi&He&_). by eapply Hnone. }
  assert (H0 : h0 !! r = Some (Item KFrame "/0" None 0 0 0)) by apply lookup_insert.
  unfold on_env, focus, w0. cbn [w_envs w_heap w_tr]. rewrite lookup_insert.
  assert (Hwp := attach_core_wp E 0 e r (St h0 x0 (w_tr w)) _ I0 H0 (or_introl eq_refl)).
  assert (Hroom : E \/ room 1 (St h0 x0 (w_tr w))).
  { right. unfold room, x0, int_max. simpl. lia. }
  specialize (Hwp Hroom). destruct (attach_core e r (St h0 x0 (w_tr w))) as [s'|s'|b|]; simpl in *; [|exfalso|done|done].
  - destruct Hwp as (HG&(_&id'&l'&_&_&Hh&Hen&Htr)&_). simpl in *.
    assert (HW' : WInv (unfocus e w0 s')).
    { eapply lift_inv; [done|exact HG|split|].
      - rewrite Hen, Hh. simpl. exists (attached_as (Item KFrame "/0" None 0 0 0) e id'). split; [apply lookup_insert|done].
      - by rewrite Hen.
      - intros a Ha. rewrite Hen in Ha. simpl in Ha. inversion Ha as [? ? Hb|? ? ? Hb _]; subst; by apply elem_of_nil in Hb. }
    change (World (hp s') (<[e := en s']> (<[e := x0]> (w_envs w))) (tr s')) with (unfocus e w0 s').
    constructor; simpl.
    + done.
    + intros q i i' H1 H2. rewrite Hh in H2. apply lookup_insert_Some in H2 as [[<- <-]|[Hne H2]]; [congruence|].
      unfold h0 in H2. rewrite lookup_insert_ne in H2 by done. congruence.
    + intros q i H1 _ _. rewrite Hh. unfold h0. rewrite !lookup_insert_ne by congruence. eauto.
    + intros q i i' e' H1 H2 H3 H4. simpl in H2. rewrite Hh in H2. apply lookup_insert_Some in H2 as [[<- <-]|[Hne H2]]; [congruence|].
      unfold h0 in H2. rewrite lookup_insert_ne in H2 by done. congruence.
    + intros e' [y Hy] _. destruct (decide (e' = e)) as [->|]; [congruence|]. rewrite !lookup_insert_ne by done. eauto.
    + exists []. rewrite Htr. unfold deliver. simpl. split; [done|]. intros e' y y' Hy Hy'.
      assert (e' <> e) by congruence. rewrite !lookup_insert_ne in Hy' by done. simplify_eq. left. split; [done|].
      exists []. split; [done|]. intros m Hm. exists m. split; [done|]. simpl.
      destruct (winv_parts _ _ _ HW Hy) as (I&_).
      destruct (others false e w0 x0 s' (tr s') HX HG e' y) as (_&_&_&_&HM); [done|simpl; by rewrite lookup_insert_ne|].
      apply HM. simpl. eapply mirrors_same; [done|by apply same_at_view|by apply same_at_val|done].
  - destruct Hwp as (_&_&_&[[? _]|(_&_&Hn&_)]); done.
Qed.
Lemma del_env_eff e w : WInv w -> E \/ live_env w e ->
  WP (step w (ODelEnv e)) (Eff w (ODelEnv e)) (fun _ => False).
Proof.
  intros HW HE. cbn [step]. unfold del_env. apply wp_bind. apply on_env_cases; [done|]. intros x Hx.
  destruct (winv_parts _ _ _ HW Hx) as (I&R&A).
  destruct (detach_all_ok e (length (e_items x)) _ I) as (D&s'&Hok&HR&Hnil&HD); [done|]. simpl. rewrite Hok. simpl.
  pose proof (r_good _ _ _ _ HR) as HG. destruct (g_tr _ _ _ _ HG) as (es&Htr&_). simpl in Htr.
  assert (Hd : forall e', e' <> e -> delete e (<[e:=en s']> (w_envs w)) !! e' = w_envs w !! e').
  { intros e' Hne. rewrite lookup_delete_ne by done. by rewrite lookup_insert_ne. }
  constructor; simpl.
  - constructor; simpl.
    + intros e' y Hy. destruct (decide (e' = e)) as [->|Hne]; [by rewrite lookup_delete in Hy|]. rewrite Hd in Hy by done.
      destruct (others true e w x s' (tr s') (WInv_X e w HW) HG e' y) as (_&?&?&?&_); done.
    + intros p it e' Hp He. destruct (decide (e' = e)) as [->|Hne].
      * assert (Hin : (it_id it, p) ∈ e_items (en s')) by (apply (inv_items _ _ (g_inv _ _ _ _ HG)); by exists it).
        rewrite Hnil in Hin. by apply elem_of_nil in Hin.
      * rewrite Hd by done. eapply (winv_owner _ HW p it); [|done]. by apply (g_other _ _ _ _ HG p it e').
    + apply (inv_refs _ _ (g_inv _ _ _ _ HG)).
  - intros q it it' H1 H2. destruct (g_old _ _ _ _ HG _ _ H2) as (i&Hi&?&_). simpl in Hi. congruence.
  - intros q it H1 H2 _. by eapply (g_held _ _ _ _ HG).
  - intros q it it' e' H1 H2 _ _. simpl in *. by eapply (g_ids _ _ _ _ HG).
  - intros e' He' Hne. rewrite Hd; [done|congruence].
  - exists (deliver e (e_handlers x) es). split; [done|]. intros e' y y' Hy Hy'.
    destruct (decide (e' = e)) as [->|Hne]; [by rewrite lookup_delete in Hy'|]. rewrite Hd in Hy' by done. simplify_eq.
    left. split; [done|]. exists []. split; [by apply filter_deliver_other|]. intros m Hm. exists m. split; [done|]. simpl.
    destruct (others true e w x s' (tr s') (WInv_X e w HW) HG e' y) as (_&_&_&_&HM); [done|done|]. by apply HM.
Qed.

Lemma op_set_input_eff o l w e : WInv w -> in_env w e o -> free_or w e l ->
  E \/ (rooms 2 w /\ kind_ok is_op w o /\ kind_ok is_layer w l) ->
  WP (step w (OOpSetInput o l)) (Eff w (OOpSetInput o l)) (Eff w (OOpSetInput o l)).
Proof.
  intros HW Lo Ll HE. cbn [step]. apply wp_typed; [tauto|]. intros io Ho Ko. apply wp_typed; [tauto|]. intros il Hl Kl.
  unfold op_set_input, wderef. rewrite Ho. pose proof Lo as (i&Hi&He). assert (i = io) as -> by congruence. rewrite He.
  destruct (in_env_live _ _ _ HW Lo) as [x Hx].
  destruct (rem_facts e _ w x (rem_inputs_ok e o) HW Hx) as (s'&Hok&HF&Hh). pose proof Hok as Hok'. rewrite Hok. cbn [obind].
  set (w1 := unfocus e w s'). assert (Hheap : w_heap w1 = w_heap w) by done.
  eapply wp_mono; [eapply (op_add_input_eff E o l w1 (OOpSetInput o l) e io il); [apply HF|..]|..]; try done; try (by rewrite Hheap).
  - destruct Lo as (i2&?&?). exists i2. by rewrite Hheap.
  - destruct Ll as [(i2&?&?)|(i2&?&?)]; [left|right]; exists i2; by rewrite Hheap.
  - destruct HE as [|[Hr _]]; [by left|right]. intros e' y Hy. unfold w1 in Hy. simpl in Hy.
    unfold on_env, focus, remove_inputs in Hok'. rewrite Hx in Hok'. injection Hok' as Hh1 Hen1 Htr1. 
    apply lookup_insert_Some in Hy as [[<- <-]|[Hne Hy]].
    + specialize (Hr e x Hx). unfold room in *. simpl in *. 
      assert (en s' = with_in x (del_key o (e_in x))) as ->. { apply (f_equal (lookup e)) in Hen1. rewrite !lookup_insert in Hen1. by simplify_eq. }
      done.
    + apply (Hr e' y Hy).
  - intros w2 HE2. by apply (Eff_after w w1 w2).
  - intros w2 HE2. by apply (Eff_after w w1 w2).
Qed.
Lemma op_set_output_eff o l w e : WInv w -> in_env w e o -> free_or w e l ->
  E \/ (rooms 2 w /\ kind_ok is_op w o /\ kind_ok is_layer w l) ->
  WP (step w (OOpSetOutput o l)) (Eff w (OOpSetOutput o l)) (Eff w (OOpSetOutput o l)).
Proof.
  intros HW Lo Ll HE. cbn [step]. apply wp_typed; [tauto|]. intros io Ho Ko. apply wp_typed; [tauto|]. intros il Hl Kl.
  unfold op_set_output, wderef. rewrite Ho. pose proof Lo as (i&Hi&He). assert (i = io) as -> by congruence. rewrite He.
  destruct (in_env_live _ _ _ HW Lo) as [x Hx].
  destruct (rem_facts e _ w x (rem_outputs_ok e o) HW Hx) as (s'&Hok&HF&Hh). pose proof Hok as Hok'. rewrite Hok. cbn [obind].
  set (w1 := unfocus e w s'). assert (Hheap : w_heap w1 = w_heap w) by done.
  eapply wp_mono; [eapply (op_add_output_eff E o l w1 (OOpSetOutput o l) e io il); [apply HF|..]|..]; try done; try (by rewrite Hheap).
  - destruct Lo as (i2&?&?). exists i2. by rewrite Hheap.
  - destruct Ll as [(i2&?&?)|(i2&?&?)]; [left|right]; exists i2; by rewrite Hheap.
  - destruct HE as [|[Hr _]]; [by left|right]. intros e' y Hy. unfold w1 in Hy. simpl in Hy.
    unfold on_env, focus, remove_outputs in Hok'. rewrite Hx in Hok'. injection Hok' as Hh1 Hen1 Htr1. 
    apply lookup_insert_Some in Hy as [[<- <-]|[Hne Hy]].
    + specialize (Hr e x Hx). unfold room in *. simpl in *. 
      assert (en s' = with_out x (del_key o (e_out x))) as ->. { apply (f_equal (lookup e)) in Hen1. rewrite !lookup_insert in Hen1. by simplify_eq. }
      done.
    + apply (Hr e' y Hy).
  - intros w2 HE2. by apply (Eff_after w w1 w2).
  - intros w2 HE2. by apply (Eff_after w w1 w2).
Qed.
Lemma detach_from_op_eff l w : WInv w -> E \/ (kind_ok is_layer w l /\ exists e, in_env w e l) ->
  WP (step w (ODetachFromOp l)) (Eff w (ODetachFromOp l)) (Eff w (ODetachFromOp l)).
Proof.
  intros HW HE. cbn [step]. apply wp_typed; [tauto|]. intros il Hl Kl. unfold detach_from_op, wderef. rewrite Hl.
  destruct (it_env il) as [e|] eqn:He.
  - apply rem_eff; [|done|right; by eapply (winv_owner _ HW)]. intros s I. destruct (get_generator (en s) l) as [g|].
    + by apply rem_input_ok.
    + exists s. split; [done|]. split; [by apply Good_refl|]. done.
  - simpl. destruct HE as [|(_&e&i&?&?)]; [done|congruence].
Qed.

Lemma rooms_le k w : k <= 3 -> rooms 3 w -> rooms k w.
Proof.
  intros Hk Hr e x Hx. specialize (Hr e x Hx). destruct (room_le False 3 k (St (w_heap w) x (w_tr w)) Hk (or_intror Hr)) as [|]; done.
Qed.

Theorem step_eff w o : WInv w -> legal w o -> E \/ valid w o -> WP (step w o) (Eff w o) (Eff w o).
Proof.
  intros HW HL HV. assert (HV' : E \/ (rooms 3 w /\ rooms 2 w /\ rooms 1 w /\ valid w o)).
  { destruct HV as [|HV]; [by left|right]. pose proof (proj1 HV). split; [done|]. split; [apply rooms_le; [lia|done]|]. split; [apply rooms_le; [lia|done]|done]. }
  assert (HX : forall X : world -> Prop, wp E (step w o) (Eff w o) X -> (forall w', X w' -> Eff w o w') -> WP (step w o) (Eff w o) (Eff w o)).
  { intros X H1 H2. eapply wp_mono; [exact H1|done|done]. }
  clear HV. unfold valid in HV'. destruct o.
  - apply new_item_wp; tauto.
  - apply hold_wp; tauto.
  - apply release_wp; tauto.
  - eapply HX; [apply set_id_wp; tauto|]. intros w' ->. eapply (Eff_of_Facts false). by apply Facts_refl.
  - eapply HX; [apply set_val_wp; tauto|done].
  - apply new_env_eff; tauto.
  - eapply HX; [apply del_env_eff; tauto|done].
  - apply attach_eff; tauto.
  - apply attach_map_eff; tauto.
  - eapply HX; [apply detach_eff; tauto|done].
  - apply add_child_f_eff; tauto.
  - apply add_child_l_eff; tauto.
  - apply rem_child_f_eff; tauto.
  - apply rem_child_l_eff; tauto.
  - apply set_frame_eff; tauto.
  - apply det_frame_eff; tauto.
  - apply add_input_eff; tauto.
  - apply add_output_eff; tauto.
  - cbn [step]. apply wp_typed; [tauto|]. intros ? _ _. apply wp_typed; [tauto|]. intros ? _ _. apply rem_eff; [apply rem_input_ok|done|tauto].
  - cbn [step]. apply wp_typed; [tauto|]. intros ? _ _. apply wp_typed; [tauto|]. intros ? _ _. apply rem_eff; [apply rem_output_ok|done|tauto].
  - cbn [step]. apply wp_typed; [tauto|]. intros ? _ _. apply rem_eff; [apply rem_inputs_ok|done|tauto].
  - cbn [step]. apply wp_typed; [tauto|]. intros ? _ _. apply rem_eff; [apply rem_outputs_ok|done|tauto].
  - eapply HX; [apply set_prefix_wp; tauto|done].
  - eapply HX; [apply add_handler_wp; tauto|done].
  - eapply HX; [apply rem_handler_wp; tauto|done].
  - eapply HX; [apply modified_wp; tauto|done].
  - cbn [step]. apply wp_typed; [tauto|]. intros ? ? ?. apply wp_typed; [tauto|]. intros ? ? ?. destruct HL as (e&?&?).
    eapply op_add_input_eff; eauto. tauto.
  - cbn [step]. apply wp_typed; [tauto|]. intros ? ? ?. apply wp_typed; [tauto|]. intros ? ? ?. destruct HL as (e&?&?).
    eapply op_add_output_eff; eauto. tauto.
  - destruct HL as (e&?&?). eapply op_set_input_eff; eauto. tauto.
  - destruct HL as (e&?&?). eapply op_set_output_eff; eauto. tauto.
  - apply detach_from_op_eff; tauto.
Qed.
End step.

Lemma WInv0 : WInv world0.
Proof. constructor; simpl; intros; by simplify_map_eq. Qed.
Lemma steps_eff w o w' : WInv w -> legal w o -> steps_to w o w' -> Eff w o w'.
Proof.
  intros HW HL Hs. pose proof (step_eff True w o HW HL (or_introl Logic.I)) as H.
  destruct Hs as [Hs|Hs]; rewrite Hs in H; exact H.
Qed.
Lemma history_inv w os w' : WInv w -> history w os w' -> WInv w'.
Proof. intros HW Hh. revert HW. induction Hh as [|w o w1 os w' HL Hs _ IH]; intros HW; [done|]. apply IH. by apply (steps_eff w o w1). Qed.
Lemma reachable_inv w : reachable w -> WInv w.
Proof. intros [os Hh]. eapply history_inv; [|done]. apply WInv0. Qed.
