(** Deep detach: exactly the subtree goes. *)
From stdpp Require Import prelude strings gmap pretty relations.
From Verif Require Import Base AssocLemmas EnvModel EnvSpec EnvLib EnvGood EnvAttach EnvLinks EnvLinks2 EnvDetach.

Section forest.
  Context (x : env) (HND : NoDup (e_tree x).*1) (HA : Acyclic x).

  Lemma parent_fun c p q : parent_of x c p -> parent_of x c q -> p = q.
  Proof using HND. unfold parent_of. intros Hp Hq. apply (assoc_nodup c) in Hp; [|done]. apply (assoc_nodup c) in Hq; [|done]. congruence. Qed.

  Lemma comparable n a b : rtc (parent_of x) n a -> rtc (parent_of x) n b -> rtc (parent_of x) a b \/ rtc (parent_of x) b a.
  Proof using HND.
    intros Ha. revert b. induction Ha as [|n n' a Hn Ha IH]; intros b Hb; [by left|].
    inversion Hb as [|? n'' ? Hn' Hb']; subst.
    - right. by eapply rtc_l.
    - rewrite <- (parent_fun _ _ _ Hn Hn') in Hb'. auto.
  Qed.
  Lemma siblings a b p : parent_of x a p -> parent_of x b p -> rtc (parent_of x) a b -> a = b.
  Proof using HND HA.
    intros Ha Hb H. inversion H as [|? p' ? Hp Hr]; subst; [done|].
    rewrite <- (parent_fun _ _ _ Ha Hp) in Hr. destruct (HA b). by eapply tc_rtc_r; [apply tc_once|].
  Qed.
  Lemma not_under_child c p : parent_of x c p -> ~ rtc (parent_of x) p c.
  Proof using HA. intros Hc Hp. destruct (HA c). by eapply tc_rtc_r; [apply tc_once|]. Qed.
End forest.

(** The height of the subtree of [p] is less than [n]. *)
Fixpoint height (x : env) (n : nat) (p : ptr) : Prop :=
  match n with O => False | S n => forall c, parent_of x c p -> height x n c end.


Global Instance height_dec (x : env) n p : Decision (height x n p).
Proof.
  revert p. induction n as [|n IH]; intros p; simpl; [right; intros []|].
  destruct (decide (Forall (fun c => height x n c) (get_children x p))) as [H|H].
  - left. rewrite Forall_forall in H. intros c Hc. apply H. unfold get_children. by apply elem_of_keys_of.
  - right. intros Hc. apply H. apply Forall_forall. intros c Hin. apply Hc. by apply elem_of_keys_of.
Qed.
Lemma not_height (x : env) n p : ~ height x (S n) p -> exists c, parent_of x c p /\ ~ height x n c.
Proof.
  intros H. destruct (decide (Exists (fun c => ~ height x n c) (get_children x p))) as [He|He].
  - apply Exists_exists in He as (c&Hc&Hn). exists c. split; [by apply elem_of_keys_of|done].
  - destruct H. simpl. intros c Hc. destruct (height_dec x n c) as [|Hn]; [done|]. destruct He.
    apply Exists_exists. exists c. split; [by apply elem_of_keys_of|done].
Qed.

(** in an acyclic finite tree the height is bounded by the number of links *)
Lemma height_bound (x : env) p : Acyclic x -> height x (S (length (e_tree x))) p.
Proof.
  intros HA.
  assert (HC : forall n p, ~ height x n p -> exists l, length l = n /\ NoDup l /\
     forall c, c ∈ l -> c ∈ (e_tree x).*1 /\ tc (parent_of x) c p).
  { induction n as [|n IH]; intros q Hq.
    - exists []. split; [done|]. split; [constructor|]. intros c Hc. by apply not_elem_of_nil in Hc.
    - apply not_height in Hq as (c&Hc&Hn). destruct (IH c Hn) as (l&Hl&HND&Hin).
      exists (c :: l). split; [simpl; lia|]. split.
      + apply NoDup_cons. split; [|done]. intros Hcl. apply Hin in Hcl as [_ Htc]. by apply (HA c).
      + intros d [->|Hd]%elem_of_cons.
        * split; [|by apply tc_once]. apply elem_of_list_fmap. by exists (c, q).
        * apply Hin in Hd as [? Htc]. split; [done|]. eapply tc_r; eauto. }
  destruct (height_dec x (S (length (e_tree x))) p) as [|Hn]; [done|].
  destruct (HC _ _ Hn) as (l&Hl&HND&Hin).
  assert (l ⊆ (e_tree x).*1) as Hsub by (intros c Hc; by apply Hin).
  pose proof (submseteq_length _ _ (NoDup_submseteq _ _ HND Hsub)) as Hlen. rewrite fmap_length in Hlen. lia.
Qed.

Lemma tc_sub x y a b : (forall a b, parent_of y a b -> parent_of x a b) -> tc (parent_of y) a b -> tc (parent_of x) a b.
Proof. intros Hs Ht. induction Ht; [apply tc_once; auto|eapply tc_l; eauto]. Qed.
Lemma Acyclic_sub x y : Acyclic x -> (forall a b, parent_of y a b -> parent_of x a b) -> Acyclic y.
Proof. intros HA Hs a Ht. apply (HA a). by eapply tc_sub. Qed.
Lemma rtc_sub x y a b : (forall a b, parent_of y a b -> parent_of x a b) -> rtc (parent_of y) a b -> rtc (parent_of x) a b.
Proof. intros Hs Ht. induction Ht; [constructor|eapply rtc_l; eauto]. Qed.
Lemma height_sub x y n p : (forall a b, parent_of y a b -> parent_of x a b) -> height x n p -> height y n p.
Proof. intros Hs. revert p. induction n as [|n IH]; intros p; simpl; [done|]. eauto. Qed.

Lemma Removed_parent me s s' D a b : Removed me s s' D ->
  parent_of (en s') a b <-> parent_of (en s) a b /\ a ∉ D /\ b ∉ D.
Proof. intros R. unfold parent_of. rewrite (r_tree _ _ _ _ R). by rewrite elem_of_outside. Qed.

Lemma Removed_below me s s' D p : Removed me s s' D -> (forall q, below (en s) p q -> q ∉ D) ->
  forall q, below (en s') p q <-> below (en s) p q.
Proof.
  intros R Hd.
  assert (Hsub : forall a b, parent_of (en s') a b -> parent_of (en s) a b).
  { intros a b Hab. by apply (Removed_parent _ _ _ _ _ _ R) in Hab as [? _]. }
  assert (Hpath : forall q, rtc (parent_of (en s)) q p -> rtc (parent_of (en s')) q p).
  { intros q Hq. induction Hq as [|q q' p Hq Hp IH]; [constructor|]. eapply rtc_l; [|by apply IH].
    apply (Removed_parent _ _ _ _ _ _ R). split; [done|]. split; apply Hd; left; [by eapply rtc_l|done]. }
  intros q. split.
  - intros [Hq|(n&Hqn&Hn)].
    + left. by eapply rtc_sub.
    + right. exists n. rewrite (r_maps _ _ _ _ R) in Hqn. apply elem_of_outside in Hqn as [? _]. split; [done|]. by eapply rtc_sub.
  - intros [Hq|(n&Hqn&Hn)]; [left; auto|right].
    exists n. split; [|by apply Hpath]. rewrite (r_maps _ _ _ _ R). apply elem_of_outside. split; [done|].
    split; apply Hd; [right; eauto|by left].
Qed.

Lemma iter_app {S A} (f : A -> S -> out S S) l s1 s2 : forall s0,
  iter_out f l s0 = Ok s1 -> forall x, f x s1 = Ok s2 -> iter_out f (l ++ [x]) s0 = Ok s2.
Proof.
  induction l as [|y l IH]; intros s0; simpl.
  - intros [= ->] x ->. done.
  - destruct (f y s0); simpl; try done. apply IH.
Qed.

Definition drop_detach (n : nat) (me : eid) (deep : bool) (c : ptr) (s0 : st) : M :=
  r <~ detach n me deep c s0 ;; release r.2 r.1.

Lemma detach_S f me deep p s : detach (S f) me deep p s =
  deref p s (fun it =>
    match assoc (it_id it) (e_items (en s)) with
    | None => Bad Abort
    | Some _ =>
      s1 <~ (if deep && is_frame (it_kind it) then
               s1 <~ iter_out (drop_detach f me deep) (get_children (en s) p) s ;;
               iter_out (drop_detach f me deep) (get_maps (en s1) p) s1
             else Ok s) ;;
      detach_one me p s1
    end).
Proof. reflexivity. Qed.

Lemma NoDup_keys_of {K V} `{!EqDecision K, !EqDecision V} (v : V) (l : list (K * V)) : NoDup l.*1 -> NoDup (keys_of v l).
Proof. intros H. unfold keys_of. by apply filter_keys_nodup. Qed.

(** what detach returns: everything below [p] but [p] was removed, then [p] itself is detached *)
Definition detach_post (me : eid) (deep : bool) (p : ptr) (s : st) (r : st * ptr) : Prop :=
  exists D s1, Removed me s s1 D /\ detach_one me p s1 = Ok r /\
    (forall q, q ∈ D <-> deep = true /\ has is_frame me (hp s) p /\ below (en s) p q /\ q <> p).

Lemma drop_detach_of_post n me deep p s it : Inv me s -> hp s !! p = Some it -> it_env it = Some me ->
  (exists r, detach n me deep p s = Ok r /\ detach_post me deep p s r) ->
  exists D s', drop_detach n me deep p s = Ok s' /\ Removed me s s' D /\
    (forall q, q ∈ D <-> q = p \/ (deep = true /\ has is_frame me (hp s) p /\ below (en s) p q)).
Proof.
  intros HI Hp He (r&Hr&D&s1&R&Hone&HD).
  assert (HpD : p ∉ D) by (intros H; apply HD in H; tauto).
  assert (Hp1 : hp s1 !! p = Some it) by (by rewrite (r_heap _ _ _ _ R)).
  destruct (detach_drop_ok me s1 p it (g_inv _ _ _ _ (r_good _ _ _ _ R)) Hp1 He) as (s2&Hd&R2).
  exists (D ++ [p]), s2. split.
  - unfold drop_detach. rewrite Hr. simpl. unfold detach_drop in Hd. rewrite Hone in Hd. done.
  - split.
    + eapply Removed_trans; [done..|]. intros q ->%elem_of_list_singleton. done.
    + intros q. rewrite elem_of_app, HD, elem_of_list_singleton. destruct (decide (q = p)); tauto.
Qed.

(** a non-recursive detach *)
Lemma detach_flat n me deep p s it : Inv me s -> hp s !! p = Some it -> it_env it = Some me ->
  deep && is_frame (it_kind it) = false ->
  exists r, detach (S n) me deep p s = Ok r /\ detach_post me deep p s r.
Proof.
  intros HI Hp He Hk. simpl. unfold deref. rewrite Hp.
  assert (assoc (it_id it) (e_items (en s)) = Some p) as -> by (apply (inv_assoc _ _ HI); eauto).
  rewrite Hk. simpl. destruct (detach_one_ok me s HI p it Hp He) as (es&Hd&_). rewrite Hd.
  eexists. split; [done|]. exists [], s. split; [by apply Removed_nil|]. split; [done|].
  intros q. split; [intros H; by apply not_elem_of_nil in H|]. intros (->&(it2&H2&_&H3)&_). simpl in Hk. congruence.
Qed.

(** detach a list of items whose subtrees are disjoint *)
Lemma iter_detach me (f : ptr -> st -> M) (B : ptr -> ptr -> Prop) L : forall s,
  Inv me s ->
  (forall c, c ∈ L -> B c c) -> NoDup L ->
  (forall c d q, c ∈ L -> d ∈ L -> B c q -> B d q -> c = d) ->
  (forall c s0 D0, c ∈ L -> Removed me s s0 D0 -> (forall q, B c q -> q ∉ D0) ->
     exists D s', f c s0 = Ok s' /\ Removed me s0 s' D /\ (forall q, q ∈ D <-> B c q)) ->
  exists D s', iter_out f L s = Ok s' /\ Removed me s s' D /\ (forall q, q ∈ D <-> exists c, c ∈ L /\ B c q).
Proof.
  induction L as [|c L IH] using rev_ind; intros s HI HB HND Hdis Hf.
  - exists [], s. split; [done|]. split; [by apply Removed_nil|]. intros q. split; [intros H; by apply not_elem_of_nil in H|].
    intros (c&H&_). by apply not_elem_of_nil in H.
  - apply NoDup_app in HND as (HND&Hnc&_).
    destruct (IH s HI) as (D1&s1&Hi&R1&HD1).
    + intros. apply HB. apply elem_of_app. by left.
    + done.
    + intros d e q Hd He. apply Hdis; apply elem_of_app; by left.
    + intros d s0 D0 Hd HR0 Hdj. apply (Hf d s0 D0); [apply elem_of_app; by left|done|done].
    + assert (HcL : c ∈ L ++ [c]) by (apply elem_of_app; right; by apply elem_of_list_singleton).
      assert (Hcd : forall q, B c q -> q ∉ D1).
      { intros q Hq Hin. apply HD1 in Hin as (d&Hd&Hdq). assert (c = d) as ->.
        { eapply Hdis; [done| |done|done]. apply elem_of_app. by left. }
        apply (Hnc d Hd). by apply elem_of_list_singleton. }
      destruct (Hf c s1 D1 HcL R1 Hcd) as (D2&s2&Hc&R2&HD2).
      exists (D1 ++ D2), s2. split; [by eapply iter_app|]. split.
      * eapply Removed_trans; [done..|]. intros q Hq. apply Hcd. by apply HD2.
      * intros q. rewrite elem_of_app, HD1, HD2. split.
        { intros [(d&Hd&Hq)|Hq]; [exists d; split; [apply elem_of_app; by left|done]|by exists c]. }
        { intros (d&[Hd| ->%elem_of_list_singleton]%elem_of_app&Hq); [left; eauto|by right]. }
Qed.

Lemma detach_deep_ok n : forall me p s it,
  Inv me s -> Acyclic (en s) -> hp s !! p = Some it -> it_env it = Some me -> height (en s) n p ->
  exists r, detach (S n) me true p s = Ok r /\ detach_post me true p s r.
Proof.
  induction n as [|n IH]; intros me p s it HI HA Hp He Hh; [done|].
  destruct (is_frame (it_kind it)) eqn:Hk; [|by apply (detach_flat (S n) me true p s it); [..|rewrite Hk]].
  assert (Dp : has is_frame me (hp s) p) by (by exists it).
  pose proof (inv_tree_nodup _ _ HI) as HND.
  (* children *)
  assert (H1 : exists D1 s1, iter_out (drop_detach (S n) me true) (get_children (en s) p) s = Ok s1 /\ Removed me s s1 D1 /\
     (forall q, q ∈ D1 <-> exists c, c ∈ get_children (en s) p /\ below (en s) c q)).
  { apply (iter_detach me _ (fun c q => below (en s) c q)); [done| | | |].
    - intros c _. left. constructor.
    - by apply NoDup_keys_of.
    - intros c d q Hc Hd Hcq Hdq. apply elem_of_keys_of in Hc, Hd.
      assert (Hn : exists m, rtc (parent_of (en s)) m c /\ rtc (parent_of (en s)) m d).
      { destruct Hcq as [Hcq|(m&Hqm&Hm)]; destruct Hdq as [Hdq|(m'&Hqm'&Hm')].
        - by exists q.
        - exfalso. apply (inv_maps _ _ HI) in Hqm' as [(iq&Hiq&_&Hkq) _].
          assert (Hfr : has is_frame me (hp s) q).
          { inversion Hcq as [|? z ? Hz _]; subst; [apply (inv_tree _ _ HI) in Hc; tauto|apply (inv_tree _ _ HI) in Hz; tauto]. }
          destruct Hfr as (iq'&Hiq'&_&Hkq'). rewrite Hiq in Hiq'. injection Hiq' as <-. by destruct (it_kind iq).
        - exfalso. apply (inv_maps _ _ HI) in Hqm as [(iq&Hiq&_&Hkq) _].
          assert (Hfr : has is_frame me (hp s) q).
          { inversion Hdq as [|? z ? Hz _]; subst; [apply (inv_tree _ _ HI) in Hd; tauto|apply (inv_tree _ _ HI) in Hz; tauto]. }
          destruct Hfr as (iq'&Hiq'&_&Hkq'). rewrite Hiq in Hiq'. injection Hiq' as <-. by destruct (it_kind iq).
        - exists m. split; [done|]. apply (assoc_nodup q) in Hqm; [|apply HI]. apply (assoc_nodup q) in Hqm'; [|apply HI].
          by simplify_eq. }
      destruct Hn as (m&Hmc&Hmd).
      destruct (comparable (en s) HND m c d Hmc Hmd) as [Hcd|Hcd]; [|symmetry]; by eapply (siblings (en s) HND HA).
    - intros c s0 D0 Hc R0 Hd. apply elem_of_keys_of in Hc.
      pose proof (inv_tree _ _ HI _ _ Hc) as ((ic&Hic&Hec&Hkc)&_&_).
      assert (HcD : c ∉ D0) by (apply Hd; left; constructor).
      assert (Hsub : forall a b, parent_of (en s0) a b -> parent_of (en s) a b).
      { intros a b Hab. by apply (Removed_parent _ _ _ _ _ _ R0) in Hab as [? _]. }
      assert (Hic0 : hp s0 !! c = Some ic) by (by rewrite (r_heap _ _ _ _ R0)).
      pose proof (g_inv _ _ _ _ (r_good _ _ _ _ R0)) as HI0.
      destruct (drop_detach_of_post (S n) me true c s0 ic) as (D&s'&Hs'&R'&HD'); [done..| |].
      + apply (IH me c s0 ic); [done|by eapply Acyclic_sub|done|done|].
        eapply height_sub; [done|]. by apply Hh.
      + exists D, s'. split; [done|]. split; [done|]. intros q. rewrite HD'.
        rewrite (Removed_below _ _ _ _ _ R0 Hd). split.
        * intros [->|(_&_&?)]; [left; constructor|done].
        * intros ?. right. split; [done|]. split; [by exists ic|done]. }
  destruct H1 as (D1&s1&Hi1&R1&HD1).
  pose proof (g_inv _ _ _ _ (r_good _ _ _ _ R1)) as HI1.
  assert (HpD1 : p ∉ D1).
  { intros H. apply HD1 in H as (c&Hc&Hb). apply elem_of_keys_of in Hc. destruct Hb as [Hb|(m&Hm&_)].
    - by apply (not_under_child (en s) HA c p).
    - apply (inv_maps _ _ HI) in Hm as [(ip&Hip&_&Hkp) _]. rewrite Hp in Hip. injection Hip as <-. by destruct (it_kind it). }
  assert (Hmaps : forall m, (m, p) ∈ e_maps (en s) -> m ∉ D1).
  { intros m Hm H. apply HD1 in H as (c&Hc&Hb). apply elem_of_keys_of in Hc. destruct Hb as [Hb|(m'&Hm'&Hb)].
    - apply (inv_maps _ _ HI) in Hm as [(ip&Hip&_&Hkp) _].
      assert (Hfr : has is_frame me (hp s) m).
      { inversion Hb as [|? z ? Hz _]; subst; [apply (inv_tree _ _ HI) in Hc; tauto|apply (inv_tree _ _ HI) in Hz; tauto]. }
      destruct Hfr as (iq'&Hiq'&_&Hkq'). rewrite Hip in Hiq'. injection Hiq' as <-. by destruct (it_kind ip).
    - apply (assoc_nodup m) in Hm; [|apply HI]. apply (assoc_nodup m) in Hm'; [|apply HI]. simplify_eq.
      by apply (not_under_child (en s) HA c p). }
  (* maps *)
  assert (H2 : exists D2 s2, iter_out (drop_detach (S n) me true) (get_maps (en s1) p) s1 = Ok s2 /\ Removed me s1 s2 D2 /\
     (forall q, q ∈ D2 <-> exists c, c ∈ get_maps (en s1) p /\ c = q)).
  { apply (iter_detach me _ (fun c q => c = q)); [done| | | |].
    - done.
    - apply NoDup_keys_of, HI1.
    - congruence.
    - intros c s0 D0 Hc R0 Hd. apply elem_of_keys_of in Hc.
      pose proof (inv_maps _ _ HI1 _ _ Hc) as ((ic&Hic&Hec&Hkc)&_).
      assert (Hic0 : hp s0 !! c = Some ic) by (rewrite (r_heap _ _ _ _ R0); [done|by apply Hd]).
      assert (Hnf : is_frame (it_kind ic) = false) by (by destruct (it_kind ic)).
      pose proof (g_inv _ _ _ _ (r_good _ _ _ _ R0)) as HI0.
      destruct (drop_detach_of_post (S n) me true c s0 ic) as (D&s'&Hs'&R'&HD'); [done..| |].
      + apply (detach_flat n me true c s0 ic); [done..|]. by rewrite Hnf.
      + exists D, s'. split; [done|]. split; [done|]. intros q. rewrite HD'. split; [|by left].
        intros [->|(_&(ic'&Hic'&_&Hk')&_)]; [done|]. congruence. }
  destruct H2 as (D2&s2&Hi2&R2&HD2).
  assert (HD2' : forall q, q ∈ D2 <-> (q, p) ∈ e_maps (en s)).
  { intros q. rewrite HD2. unfold get_maps. rewrite (r_maps _ _ _ _ R1). split.
    - intros (c&Hc& ->). apply elem_of_keys_of, elem_of_outside in Hc as [? _]. done.
    - intros Hq. exists q. split; [|done]. apply elem_of_keys_of, elem_of_outside. split; [done|]. split; [by apply Hmaps|done]. }
  assert (R12 : Removed me s s2 (D1 ++ D2)).
  { eapply Removed_trans; [done..|]. intros q Hq. apply Hmaps. by apply HD2'. }
  assert (HpD2 : p ∉ D2).
  { intros H. apply HD2' in H. apply (inv_maps _ _ HI) in H as [(ip&Hip&_&Hkp) _]. rewrite Hp in Hip. injection Hip as <-. by destruct (it_kind it). }
  assert (Hp2 : hp s2 !! p = Some it).
  { rewrite (r_heap _ _ _ _ R12); [done|]. apply not_elem_of_app. done. }
  destruct (detach_one_ok me s2 (g_inv _ _ _ _ (r_good _ _ _ _ R12)) p it Hp2 He) as (es&Hone&_).
  eexists. split.
  - rewrite detach_S. unfold deref. rewrite Hp.
    assert (assoc (it_id it) (e_items (en s)) = Some p) as -> by (apply (inv_assoc _ _ HI); eauto).
    rewrite Hk. cbn [andb].
    rewrite Hi1. cbn [obind]. rewrite Hi2. cbn [obind]. exact Hone.
  - exists (D1 ++ D2), s2. split; [done|]. split; [done|]. intros q. rewrite elem_of_app, HD1, HD2'. split.
    + intros [(c&Hc&Hb)|Hq].
      * split; [done|]. split; [done|]. apply elem_of_keys_of in Hc. split.
        { destruct Hb as [Hb|(m&Hm&Hb)]; [left; by eapply rtc_r|right; exists m; split; [done|by eapply rtc_r]]. }
        { intros ->. apply HpD1. apply HD1. exists c. split; [by apply elem_of_keys_of|done]. }
      * split; [done|]. split; [done|]. split; [right; exists p; split; [done|constructor]|]. intros ->. by apply HpD2, HD2'.
    + intros (_&_&[Hq|(m&Hm&Hq)]&Hne).
      * left. apply rtc_tc in Hq as [->|Hq]; [done|]. 
        assert (Hlast : forall a b, tc (parent_of (en s)) a b -> exists c, rtc (parent_of (en s)) a c /\ parent_of (en s) c b).
        { clear. intros a b H. induction H as [a b H|a b c H _ (d&Hd&Hdc)]; [exists a; split; [constructor|done]|].
          exists d. split; [by eapply rtc_l|done]. }
        destruct (Hlast _ _ Hq) as (c&Hc&Hcp). exists c. split; [by apply elem_of_keys_of|by left].
      * apply rtc_tc in Hq as [->|Hq]; [by right|]. left.
        assert (Hlast : forall a b, tc (parent_of (en s)) a b -> exists c, rtc (parent_of (en s)) a c /\ parent_of (en s) c b).
        { clear. intros a b H. induction H as [a b H|a b c H _ (d&Hd&Hdc)]; [exists a; split; [constructor|done]|].
          exists d. split; [by eapply rtc_l|done]. }
        destruct (Hlast _ _ Hq) as (c&Hc&Hcp). exists c. split; [by apply elem_of_keys_of|]. right. eauto.
Qed.

(** detachItem, deep or not *)
Lemma detach_ok me deep p s it : Inv me s -> Acyclic (en s) -> hp s !! p = Some it -> it_env it = Some me ->
  exists r, detach (detach_fuel s) me deep p s = Ok r /\ detach_post me deep p s r.
Proof.
  intros HI HA Hp He. unfold detach_fuel. destruct deep.
  - eapply detach_deep_ok; [done..|]. by apply height_bound.
  - by apply (detach_flat _ me false p s it).
Qed.

Lemma Removed_disjoint me s s1 s2 D1 D2 : Removed me s s1 D1 -> Removed me s1 s2 D2 -> forall q, q ∈ D2 -> q ∉ D1.
Proof.
  intros A B q H2 H1. destruct (r_in _ _ _ _ B q H2) as [it1 Hq1]. destruct (r_gone _ _ _ _ B q it1 H2 Hq1) as [He _].
  destruct (r_in _ _ _ _ A q H1) as [it Hq]. destruct (r_gone _ _ _ _ A q it H1 Hq) as [_ Hg]. rewrite Hq1 in Hg.
  destruct (it_user it); [done|]. injection Hg as ->. done.
Qed.

(** the user calls detachItem and keeps or drops the result *)
Lemma user_detach_ok (me : eid) (deep keep : bool) (p : ptr) (s : st) (it : item) : Inv me s -> Acyclic (en s) -> hp s !! p = Some it -> it_env it = Some me ->
  exists D s1 s',
    (r <~ detach (detach_fuel s) me deep p s ;;
     if keep then deref r.2 r.1 (fun it => Ok (put r.2 (with_refs it (S (it_user it)) (it_refs it)) r.1))
     else release r.2 r.1) = Ok s' /\
    Removed me s s1 D /\ Good true me s1 s' /\
    (forall q, q ∈ D <-> deep = true /\ has is_frame me (hp s) p /\ below (en s) p q /\ q <> p) /\
    hp s' = after_detach s1 p it (if keep then S (it_user it) else it_user it) /\
    en s' = without_item p (it_id it) (en s1) /\
    (keep = false -> Removed me s1 s' [p]).
Proof.
  intros HI HA Hp He. destruct (detach_ok me deep p s it HI HA Hp He) as (r&Hr&D&s1&R&Hone&HD).
  assert (HpD : p ∉ D) by (intros H; apply HD in H; tauto).
  assert (Hp1 : hp s1 !! p = Some it) by (by rewrite (r_heap _ _ _ _ R)).
  pose proof (g_inv _ _ _ _ (r_good _ _ _ _ R)) as HI1.
  destruct (detach_one_ok me s1 HI1 p it Hp1 He) as (es&Hd&HM).
  rewrite Hone in Hd. injection Hd as ->. exists D, s1. rewrite Hr. cbn [obind fst snd].
  pose proof (inv_refs _ _ HI1 _ _ Hp1) as Hrefs. rewrite He in Hrefs.
  destruct keep.
  - eexists. split.
    + unfold deref. simpl. rewrite lookup_insert. reflexivity.
    + assert (Hh : hp (put p (with_refs (with_env it None) (S (it_user (with_env it None))) (it_refs (with_env it None)))
          (St (<[p:=with_env it None]> (hp s1)) (without_item p (it_id it) (en s1)) (tr s1 ++ deliver me (e_handlers (en s1)) es)))
          = after_detach s1 p it (S (it_user it))).
      { unfold put, set_hp, with_refs, with_env, after_detach. simpl. rewrite insert_insert. do 3 f_equal. lia. }
      split; [done|]. split; [|split; [done|]; split; [exact Hh|]; split; [done|done]].
      pose proof (Good_after me s1 HI1 p it Hp1 He (S (it_user it)) es ltac:(lia) HM) as HG.
      unfold put, set_hp in *. simpl in *. by rewrite Hh.
  - destruct (detach_drop_ok me s1 p it HI1 Hp1 He) as (s2&Hdd&R2). unfold detach_drop in Hdd. rewrite Hone in Hdd. simpl in Hdd.
    exists s2. split; [done|]. split; [done|]. split; [apply R2|]. split; [done|].
    unfold release, deref in Hdd. simpl in Hdd. rewrite lookup_insert in Hdd. unfold put, set_hp, drop_temp in Hdd. simpl in Hdd.
    rewrite lookup_insert, insert_insert in Hdd. simpl in Hdd.
    case_decide as Hz; simplify_eq; simpl.
    + assert (it_user it = 0) as Hu by lia. split; [|done]. unfold after_detach. rewrite Hu. apply delete_insert_delete.
    + split; [|done]. unfold after_detach. destruct (it_user it) as [|u] eqn:Hu; [lia|]. unfold with_refs, with_env. simpl.
      do 3 f_equal; lia.
Qed.

(** the destructor *)
Lemma detach_all_ok me n : forall s, Inv me s -> length (e_items (en s)) <= n ->
  exists D s', detach_all n me s = Ok s' /\ Removed me s s' D /\ e_items (en s') = [] /\
    (forall q, q ∈ D <-> has any me (hp s) q).
Proof.
  induction n as [|n IH]; intros s HI Hl; simpl.
  - destruct (e_items (en s)) as [|[id p] l] eqn:Hi; [|simpl in Hl; lia].
    exists [], s. split; [done|]. split; [by apply Removed_nil|]. split; [done|]. intros q.
    split; [intros H; by apply not_elem_of_nil in H|]. intros (it&Hq&He&_).
    assert (H : (it_id it, q) ∈ e_items (en s)) by (apply (inv_items _ _ HI); eauto). rewrite Hi in H. by apply not_elem_of_nil in H.
  - destruct (e_items (en s)) as [|[id p] l] eqn:Hi.
    + exists [], s. split; [done|]. split; [by apply Removed_nil|]. split; [done|]. intros q.
      split; [intros H; by apply not_elem_of_nil in H|]. intros (it&Hq&He&_).
      assert (H : (it_id it, q) ∈ e_items (en s)) by (apply (inv_items _ _ HI); eauto). rewrite Hi in H. by apply not_elem_of_nil in H.
    + assert (Hin : (id, p) ∈ e_items (en s)) by (rewrite Hi; left).
      apply (inv_items _ _ HI) in Hin as (it&Hp&He&Hid).
      destruct (detach_drop_ok me s p it HI Hp He) as (s1&Hd&R1). rewrite Hd. cbn [obind].
      destruct (IH s1) as (D&s2&Ha&R2&Hi2&HD).
      * apply (r_good _ _ _ _ R1).
      * rewrite (r_items _ _ _ _ R1), Hi. rewrite filter_cons. simpl. rewrite decide_False by (rewrite elem_of_list_singleton; tauto).
        pose proof (filter_length (fun ip : string * positive => ip.2 ∉ [p]) l). simpl in Hl. lia.
      * exists ([p] ++ D), s2. split; [done|]. split; [eapply Removed_trans; [done..|]; by eapply Removed_disjoint|].
        split; [done|]. intros q. rewrite elem_of_app, elem_of_list_singleton, HD. unfold has. split.
        { intros [->|(iq&Hq&Heq&_)]; [by exists it|]. destruct (decide (q = p)) as [->|Hne]; [by exists it|].
          rewrite (r_heap _ _ _ _ R1) in Hq by (by rewrite elem_of_list_singleton). by exists iq. }
        { intros (iq&Hq&Heq&_). destruct (decide (q = p)) as [->|Hne]; [by left|right].
          exists iq. by rewrite (r_heap _ _ _ _ R1) by (by rewrite elem_of_list_singleton). }
Qed.
