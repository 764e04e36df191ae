(** Lemmas about the association lists of Base.v. *)
From stdpp Require Import prelude gmap.
From Verif Require Import Base.


Lemma list_filter_id {A} (P : A -> Prop) `{!forall x, Decision (P x)} (l : list A) :
  (forall x, x ∈ l -> P x) -> filter P l = l.
Proof.
  induction l as [|x l IH]; intros Hl; [done|]. rewrite filter_cons, decide_True by (apply Hl; left).
  f_equal. apply IH. intros; apply Hl; by right.
Qed.
Lemma list_filter_none {A} (P : A -> Prop) `{!forall x, Decision (P x)} (l : list A) :
  (forall x, x ∈ l -> ~ P x) -> filter P l = [].
Proof.
  induction l as [|x l IH]; intros Hl; [done|]. rewrite filter_cons, decide_False by (apply Hl; left).
  apply IH. intros; apply Hl; by right.
Qed.
Lemma list_filter_ext_in {A} (P Q : A -> Prop) `{!forall x, Decision (P x)} `{!forall x, Decision (Q x)} (l : list A) :
  (forall x, x ∈ l -> P x <-> Q x) -> filter P l = filter Q l.
Proof.
  induction l as [|x l IH]; intros Hl; [done|]. rewrite !filter_cons. rewrite IH by (intros; apply Hl; by right).
  specialize (Hl x ltac:(left)). repeat case_decide; tauto.
Qed.

Section Assoc.
  Context {K V : Type} `{!EqDecision K} `{!EqDecision V}.
  Implicit Types (l : list (K * V)) (k : K) (v : V).

  Lemma assoc_in k v l : assoc k l = Some v -> (k, v) ∈ l.
  Proof.
    induction l as [|[k' v'] l IH]; simpl; [done|].
    case_decide; intros; simplify_eq; [left|right; auto].
  Qed.
  Lemma assoc_none k l : assoc k l = None <-> k ∉ l.*1.
  Proof.
    induction l as [|[k' v'] l IH]; simpl.
    - split; [intros _; apply not_elem_of_nil|done].
    - rewrite not_elem_of_cons. case_decide; simplify_eq; [|naive_solver]. split; [done|]. naive_solver.
  Qed.
  Lemma assoc_some k l : k ∈ l.*1 -> exists v, assoc k l = Some v.
  Proof.
    intros. destruct (assoc k l) eqn:E; [eauto|]. apply assoc_none in E; done.
  Qed.
  Lemma assoc_nodup k v l : NoDup l.*1 -> assoc k l = Some v <-> (k, v) ∈ l.
  Proof.
    intros ND. split; [apply assoc_in|].
    induction l as [|[k' v'] l IH]; simpl; [intros H; by apply not_elem_of_nil in H|].
    simpl in ND. apply NoDup_cons in ND as [Hn ND].
    intros [|Hin]%elem_of_cons; simplify_eq.
    - by rewrite decide_True.
    - rewrite decide_False; [auto|]. intros ->. apply Hn. apply elem_of_list_fmap. by exists (k', v).
  Qed.

  Lemma ins_perm ltb k v l : ins ltb k v l ≡ₚ (k, v) :: l.
  Proof.
    induction l as [|[k' v'] l IH]; simpl; [done|].
    destruct (ltb k k'); [done|]. rewrite IH. apply perm_swap.
  Qed.
  Lemma elem_of_ins ltb k v l x : x ∈ ins ltb k v l <-> x = (k, v) \/ x ∈ l.
  Proof. rewrite ins_perm. apply elem_of_cons. Qed.
  Lemma ins_keys ltb k v l : (ins ltb k v l).*1 ≡ₚ k :: l.*1.
  Proof. by rewrite ins_perm. Qed.
  Lemma ins_nodup ltb k v l : assoc k l = None -> NoDup l.*1 -> NoDup (ins ltb k v l).*1.
  Proof. rewrite ins_keys, assoc_none. intros. by apply NoDup_cons. Qed.
  Lemma length_ins ltb k v l : length (ins ltb k v l) = S (length l).
  Proof. by rewrite ins_perm. Qed.
  Lemma filter_ins (P : K * V -> Prop) `{!forall x, Decision (P x)} ltb k v l :
    filter P (ins ltb k v l) ≡ₚ filter P [(k, v)] ++ filter P l.
  Proof. by rewrite ins_perm, <- filter_app. Qed.

  Lemma elem_of_del_key k l x : x ∈ del_key k l <-> x ∈ l /\ x.1 <> k.
  Proof. unfold del_key. rewrite elem_of_list_filter. naive_solver. Qed.
  Lemma del_key_nodup k l : NoDup l.*1 -> NoDup (del_key k l).*1.
  Proof.
    unfold del_key. intros ND. induction l as [|[k' v'] l IH]; [done|].
    simpl in ND. apply NoDup_cons in ND as [Hn ND]. rewrite filter_cons. case_decide; simpl; [|auto].
    apply NoDup_cons. split; [|auto]. rewrite elem_of_list_fmap. intros [[a b] [-> Hin]].
    apply elem_of_list_filter in Hin as [_ Hin]. apply Hn, elem_of_list_fmap. by exists (a, b).
  Qed.
  Lemma assoc_del_key k k' l : assoc k (del_key k' l) = if decide (k = k') then None else assoc k l.
  Proof.
    unfold del_key. induction l as [|[a b] l IH]; simpl; [by case_decide|].
    rewrite filter_cons. simpl. repeat (case_decide; simpl in *); subst; rewrite ?IH; try congruence; try tauto.
  Qed.
  Lemma assoc_ins ltb k v k' l :
    assoc k l = None -> assoc k' (ins ltb k v l) = if decide (k' = k) then Some v else assoc k' l.
  Proof.
    induction l as [|[a b] l IH]; simpl; [done|].
    destruct (decide (k = a)); [done|]. intros Hn. destruct (ltb k a); simpl; [done|].
    rewrite (IH Hn). repeat case_decide; subst; congruence.
  Qed.
  Lemma del_key_fresh k l : assoc k l = None -> del_key k l = l.
  Proof.
    unfold del_key. induction l as [|[a b] l IH]; simpl; [done|].
    destruct (decide (k = a)); [done|]. intros. rewrite filter_cons. simpl. rewrite decide_True by congruence. by rewrite IH.
  Qed.
  Lemma del_key_sublist k l : del_key k l `sublist_of` l.
  Proof.
    unfold del_key. induction l as [|x l IH]; [constructor|].
    rewrite filter_cons. case_decide; by constructor.
  Qed.

  (** removing the collected entries one by one equals filtering *)
  Lemma del_one_notin k v l : (k, v) ∉ l -> del_one k v l = l.
  Proof.
    induction l as [|x l IH]; simpl; [done|]. rewrite not_elem_of_cons. intros [? ?].
    rewrite decide_False by congruence. by rewrite IH.
  Qed.
  Lemma del_one_perm k v l : (k, v) ∈ l -> (k, v) :: del_one k v l ≡ₚ l.
  Proof.
    induction l as [|x l IH]; simpl; [intros H; by apply not_elem_of_nil in H|].
    intros Hin. case_decide; [by subst|].
    apply elem_of_cons in Hin as [?|Hin]; [congruence|]. rewrite perm_swap. by rewrite IH.
  Qed.
  Lemma elem_of_del_one k v l x : x ∈ del_one k v l -> x ∈ l.
  Proof.
    induction l as [|y l IH]; simpl; [done|]. case_decide; [by right|].
    intros [->|]%elem_of_cons; [left|right; auto].
  Qed.

  Lemma foldl_del_one_head x (ks : list (K * V)) l :
    x ∉ ks -> foldl (fun l kv => del_one kv.1 kv.2 l) (x :: l) ks
              = x :: foldl (fun l kv => del_one kv.1 kv.2 l) l ks.
  Proof.
    revert l. induction ks as [|[a b] ks IH]; intros l; [done|].
    rewrite not_elem_of_cons. intros [? ?]. simpl. rewrite decide_False by congruence. by apply IH.
  Qed.
  Lemma foldl_del_one_filter (P : K * V -> Prop) `{!forall x, Decision (P x)} l :
    foldl (fun l kv => del_one kv.1 kv.2 l) l (filter P l) = filter (fun x => ~ P x) l.
  Proof.
    induction l as [|x l IH]; [done|]. rewrite !filter_cons. case_decide as HP.
    - rewrite (decide_False (P := ~ P x)) by auto. simpl. rewrite decide_True by (by destruct x). apply IH.
    - rewrite (decide_True (P := ~ P x)) by auto. rewrite foldl_del_one_head.
      + by rewrite IH.
      + rewrite elem_of_list_filter. naive_solver.
  Qed.

  Lemma del_all_head_ne x k v l : x <> (k, v) -> del_all k v (x :: l) = x :: del_all k v l.
  Proof. intros. unfold del_all. rewrite filter_cons. by rewrite decide_True. Qed.
  Lemma foldl_del_all_head x (ks : list (K * V)) l :
    x ∉ ks -> foldl (fun l kv => del_all kv.1 kv.2 l) (x :: l) ks
              = x :: foldl (fun l kv => del_all kv.1 kv.2 l) l ks.
  Proof.
    revert l. induction ks as [|[a b] ks IH]; intros l; [done|].
    rewrite not_elem_of_cons. intros [? ?]. cbn [foldl]. rewrite del_all_head_ne by done. by apply IH.
  Qed.
  Lemma foldl_del_all_elem x (ks : list (K * V)) l :
    x ∈ foldl (fun l kv => del_all kv.1 kv.2 l) l ks <-> x ∈ l /\ x ∉ ks.
  Proof.
    revert l. induction ks as [|[a b] ks IH]; intros l; simpl.
    - split; [intros; split; [done|apply not_elem_of_nil]|naive_solver].
    - rewrite IH. unfold del_all. rewrite elem_of_list_filter, not_elem_of_cons. naive_solver.
  Qed.
  Lemma foldl_del_all_filter (P : K * V -> Prop) `{!forall x, Decision (P x)} l :
    foldl (fun l kv => del_all kv.1 kv.2 l) l (filter P l) = filter (fun x => ~ P x) l.
  Proof.
    assert (Hg : forall ks l0,
      foldl (fun l kv => del_all kv.1 kv.2 l) l0 ks = filter (fun x => x ∉ ks) l0).
    { induction ks as [|[a b] ks IH]; intros l0; cbn [foldl].
      - symmetry. apply list_filter_id. intros. apply not_elem_of_nil.
      - rewrite IH. unfold del_all. rewrite list_filter_filter. apply list_filter_iff.
        intros x. simpl. rewrite not_elem_of_cons. tauto. }
    rewrite Hg. apply list_filter_ext_in. intros x Hx. rewrite elem_of_list_filter. tauto.
  Qed.

  Lemma elem_of_values_of k v l : v ∈ values_of k l <-> (k, v) ∈ l.
  Proof.
    unfold values_of. rewrite elem_of_list_fmap. split.
    - intros [[a b] [-> [? ?]%elem_of_list_filter]]; simpl in *; by subst.
    - intros. exists (k, v). split; [done|]. by apply elem_of_list_filter.
  Qed.
  Lemma elem_of_keys_of k v l : k ∈ keys_of v l <-> (k, v) ∈ l.
  Proof.
    unfold keys_of. rewrite elem_of_list_fmap. split.
    - intros [[a b] [-> [? ?]%elem_of_list_filter]]; simpl in *; by subst.
    - intros. exists (k, v). split; [done|]. by apply elem_of_list_filter.
  Qed.

  (** removal of collected entries by key, when keys are unique *)
  Lemma foldl_del_key_filter (P : K * V -> Prop) `{!forall x, Decision (P x)} l :
    NoDup l.*1 -> foldl (fun l kv => del_key kv.1 l) l (filter P l) = filter (fun x => ~ P x) l.
  Proof.
    assert (Hh : forall ks x l, x.1 ∉ ks.*1 -> foldl (fun l (kv : K * V) => del_key kv.1 l) (x :: l) ks
              = x :: foldl (fun l kv => del_key kv.1 l) l ks).
    { clear. induction ks as [|[a b] ks IH]; intros x l; [done|]. simpl. rewrite not_elem_of_cons. intros [? ?].
      unfold del_key at 2. rewrite filter_cons. simpl. rewrite decide_True by done. by apply IH. }
    intros ND. induction l as [|x l IH]; [done|]. simpl in ND. apply NoDup_cons in ND as [Hn ND].
    rewrite !filter_cons. case_decide as HP.
    - rewrite (decide_False (P := ~ P x)) by auto. simpl. unfold del_key at 2. rewrite filter_cons.
      rewrite decide_False by (simpl; tauto).
      change (filter (fun kv => kv.1 <> x.1) l) with (del_key x.1 l).
      rewrite del_key_fresh; [auto|]. by apply assoc_none.
    - rewrite (decide_True (P := ~ P x)) by auto. rewrite Hh, IH; [done..|].
      rewrite elem_of_list_fmap. intros [y [Hy [? ?]%elem_of_list_filter]]. apply Hn.
      apply elem_of_list_fmap. eauto.
  Qed.
End Assoc.

