(** C50: updateCell keeps the information of the patches.

    Every patch gets a set of labels: the measurements it stands for.  A merge that succeeds adds the labels of the other patch,
    and nothing else changes labels. *)
From Coq Require Import ZArith Lia.
From stdpp Require Import prelude gmap.
From Verif Require Import Base MlsModel.

Section Labels.
  Context {P : Type} (merge : P -> P -> bool * P * P).
  Notation lp := (P * gset nat)%type (only parsing).

  Definition lmerge (p o : lp) : bool * lp * lp :=
    let '(b, p1, o1) := merge p.1 o.1 in (b, (p1, if b then p.2 ∪ o.2 else p.2), (o1, o.2)).
  Definition labels (l : list lp) : gset nat := ⋃ l.*2.

  (** ** the labels do not influence the patches *)
  Definition strip (e : lp * bool) : P * bool := (e.1.1, e.2).
  Lemma phase1_strip l o : let '(l1, o1) := phase1 lmerge l o in
    phase1 merge l.*1 o.1 = (strip <$> l1, o1.1) /\ o1.2 = o.2.
  Proof.
    revert o. induction l as [|[p S] l IH]; intros [o T]; [done|]. cbn. unfold lmerge at 1. cbn.
    destruct (merge p o) as [[b p1] o1]. specialize (IH (o1, T)).
    destruct (phase1 lmerge l (o1, T)) as [l1 [o2 T2]]. cbn in *. destruct IH as [-> ->]. done.
  Qed.
  Lemma absorb_strip f l : let '(f1, l1) := absorb lmerge f l in
    absorb merge f.1 (strip <$> l) = (f1.1, strip <$> l1).
  Proof.
    revert f. induction l as [|[[q S] b] l IH]; intros [f T]; [done|]. cbn. destruct b; cbn.
    - unfold lmerge at 1. cbn. destruct (merge f q) as [[b f1] q1].
      specialize (IH (f1, if b then T ∪ S else T)). destruct (absorb lmerge _ l) as [[f2 T2] l2]. cbn in *. rewrite IH.
      destruct b; done.
    - specialize (IH (f, T)). destruct (absorb lmerge (f, T) l) as [[f2 T2] l2]. cbn in *. by rewrite IH.
  Qed.
  Lemma phase2_strip n : forall l : list (lp * bool),
    phase2 merge n (strip <$> l) = (fun k : list lp => k.*1) <$> phase2 lmerge n l.
  Proof.
    induction n as [|n IH]; intros [|[[q S] b] l]; try done. rewrite fmap_cons. cbn [phase2 strip fst snd]. destruct b.
    - pose proof (absorb_strip (q, S) l) as Ha. destruct (absorb lmerge (q, S) l) as [[f T] l1]. cbn [fst] in Ha.
      rewrite Ha, IH. by destruct (phase2 lmerge n l1).
    - rewrite IH. by destruct (phase2 lmerge n l).
  Qed.
  (** updateCell on labelled patches is updateCell on the patches *)
  Theorem C50_labels_are_ghosts l o T :
    update_list merge l.*1 o = (fun r => (r.1.*1, r.2)) <$> update_list lmerge l (o, T).
  Proof.
    unfold update_list. pose proof (phase1_strip l (o, T)) as H1.
    destruct (phase1 lmerge l (o, T)) as [l1 [o1 T1]]. cbn in H1. destruct H1 as [-> _].
    assert (any_merged (strip <$> l1) = any_merged l1) as ->.
    { unfold any_merged. induction l1 as [|[e b] l1 IH]; [done|]. cbn. f_equal. apply IH. }
    destruct (any_merged l1).
    - rewrite fmap_length, phase2_strip. by destruct (phase2 lmerge (length l1) l1).
    - cbn. f_equal. f_equal. f_equal. rewrite <- !list_fmap_compose. done.
  Qed.

  (** ** the parts of the algorithm *)
  Definition flagged (l : list (lp * bool)) : list lp := (filter (fun e => e.2 = true) l).*1.
  Definition unflagged (l : list (lp * bool)) : list lp := (filter (fun e => e.2 = false) l).*1.

  Lemma labels_cons p S (l : list lp) : labels ((p, S) :: l) = S ∪ labels l.
  Proof. done. Qed.
  Lemma phase1_labels l o T : let '(l1, o1) := phase1 lmerge l (o, T) in
    labels l1.*1 ∪ T = labels l ∪ T /\ (any_merged l1 = true -> T ⊆ labels l1.*1) /\ (any_merged l1 = false -> labels l1.*1 = labels l).
  Proof.
    revert o. induction l as [|[p S] l IH]; intros o; [done|]. cbn [phase1]. unfold lmerge at 1. cbn [fst snd].
    destruct (merge p o) as [[b p1] o1]. specialize (IH o1). destruct (phase1 lmerge l (o1, T)) as [l1 o2].
    destruct IH as (H1 & H2 & H3). rewrite fmap_cons. cbn [fst]. rewrite !labels_cons. unfold any_merged in *. cbn.
    destruct b; cbn.
    - split; [set_solver|]. split; [set_solver|done].
    - split; [set_solver|]. split; [set_solver|]. intros Hn. by rewrite H3.
  Qed.
  Lemma absorb_labels f S l : let '(f1, l1) := absorb lmerge (f, S) l in f1.2 ∪ labels l1.*1 = S ∪ labels l.*1.
  Proof.
    revert f S. induction l as [|[[q U] b] l IH]; intros f S; [done|]. cbn [absorb]. destruct b.
    - unfold lmerge at 1. cbn [fst snd]. destruct (merge f q) as [[b f1] q1].
      specialize (IH f1 (if b then S ∪ U else S)). destruct (absorb lmerge _ l) as [f2 l2].
      rewrite fmap_cons. cbn [fst]. rewrite labels_cons. destruct b; [set_solver|]. rewrite fmap_cons. cbn [fst]. rewrite labels_cons. set_solver.
    - specialize (IH f S). destruct (absorb lmerge (f, S) l) as [f2 l2]. rewrite !fmap_cons. cbn [fst]. rewrite !labels_cons. set_solver.
  Qed.
  Lemma phase2_labels n : forall l l', phase2 lmerge n l = Some l' -> labels l' = labels l.*1.
  Proof.
    induction n as [|n IH]; intros [|[[q S] b] l] l'; cbn [phase2]; try (intros [= <-]; done); try done.
    destruct b.
    - pose proof (absorb_labels q S l) as Ha. destruct (absorb lmerge (q, S) l) as [[f T] l1]. cbn in Ha.
      destruct (phase2 lmerge n l1) as [l2|] eqn:H2; [|done]. cbn [mbind option_bind]. intros [= <-].
      rewrite labels_cons, (IH _ _ H2), fmap_cons. cbn [fst]. rewrite labels_cons. done.
    - destruct (phase2 lmerge n l) as [l2|] eqn:H2; [|done]. cbn [mbind option_bind]. intros [= <-].
      rewrite labels_cons, (IH _ _ H2), fmap_cons. cbn [fst]. rewrite labels_cons. done.
  Qed.
  (** no information is lost and none is made up *)
  Theorem C50_no_loss l o T l' b : update_list lmerge l (o, T) = Some (l', b) -> labels l' = labels l ∪ T.
  Proof.
    unfold update_list. pose proof (phase1_labels l o T) as H1. pose proof (phase1_strip l (o, T)) as H2.
    destruct (phase1 lmerge l (o, T)) as [l1 [o1 T1]]. destruct H1 as (H1 & Ht & Hf). destruct H2 as [_ HT]. cbn in HT. subst T1.
    destruct (any_merged l1).
    - destruct (phase2 lmerge (length l1) l1) as [l2|] eqn:E; [|done]. cbn [mbind option_bind]. intros [= <- <-].
      rewrite (phase2_labels _ _ _ E). specialize (Ht eq_refl). set_solver.
    - intros [= <- <-]. rewrite labels_cons. specialize (Hf eq_refl). rewrite Hf. set_solver.
  Qed.

  (** ** patches that do not match *)
  Definition matches (p o : P) : bool := (merge p o).1.1.
  (** merging with [o] does not change [o], nor a patch that does not match it *)
  Definition quiet (l : list P) (o : P) : Prop :=
    forall p b p1 o1, p ∈ l -> merge p o = (b, p1, o1) -> o1 = o /\ (b = false -> p1 = p).

  Lemma phase1_quiet l o T : quiet l.*1 o -> let '(l1, o1) := phase1 lmerge l (o, T) in
    o1 = (o, T) /\ unflagged l1 = filter (fun e => matches e.1 o = false) l /\
    (forall e, e ∈ flagged l1 -> T ⊆ e.2 /\ exists p, p ∈ l.*1 /\ merge p o = (true, e.1, o)) /\
    (any_merged l1 = false <-> Forall (fun e => matches e.1 o = false) l).
  Proof.
    induction l as [|[p S] l IH]; intros Hq.
    { cbn. do 2 (split; [done|]). split; [set_solver|]. split; [constructor|done]. }
    cbn [phase1]. unfold lmerge at 1. cbn [fst snd].
    destruct (merge p o) as [[b p1] o1] eqn:Hm. destruct (Hq p _ _ _ ltac:(set_solver) Hm) as [-> Hb].
    destruct (phase1 lmerge l (o, T)) as [l1 o2].
    destruct IH as (-> & Hu & Hfl & Ha); [intros p' b' p1' o1' Hin; apply Hq; set_solver|]. split; [done|].
    assert (matches p o = b) as Hb' by (unfold matches; by rewrite Hm).
    split; [|split].
    - unfold unflagged in *. destruct b.
      + rewrite filter_cons_False by done. rewrite filter_cons_False by (cbn; congruence). exact Hu.
      + rewrite filter_cons_True by done. rewrite filter_cons_True by done. rewrite fmap_cons, Hu. cbn. by rewrite (Hb eq_refl).
    - unfold flagged in *. destruct b.
      + rewrite filter_cons_True by done. rewrite fmap_cons. intros e. rewrite elem_of_cons. intros [->|He].
        * cbn. split; [set_solver|]. exists p. split; [set_solver|done].
        * destruct (Hfl e He) as (H1 & p' & Hp' & H2). split; [done|]. exists p'. split; [set_solver|done].
      + rewrite filter_cons_False by done. intros e He. destruct (Hfl e He) as (H1 & p' & Hp' & H2). split; [done|].
        exists p'. split; [set_solver|done].
    - rewrite Forall_cons. cbn [fst]. rewrite Hb'. unfold any_merged in *. cbn. rewrite orb_false_iff. by rewrite Ha.
  Qed.
  Lemma absorb_parts T f S l : T ⊆ S -> (forall e, e ∈ flagged l -> T ⊆ e.2) ->
    let '(f1, l1) := absorb lmerge (f, S) l in
    T ⊆ f1.2 /\ unflagged l1 = unflagged l /\ (forall e, e ∈ flagged l1 -> T ⊆ e.2).
  Proof.
    revert f S. induction l as [|[[q U] b] l IH]; intros f S HS Hl; [done|]. cbn [absorb]. destruct b.
    - unfold lmerge at 1. cbn [fst snd]. destruct (merge f q) as [[b f1] q1].
      specialize (IH f1 (if b then S ∪ U else S)). destruct (absorb lmerge _ l) as [f2 l2].
      assert (T ⊆ U) as HU. { apply (Hl (q, U)). unfold flagged. rewrite filter_cons_True by done. rewrite fmap_cons. set_solver. }
      destruct IH as (H1 & H2 & H3).
      { destruct b; set_solver. }
      { intros e He. apply Hl. unfold flagged. rewrite filter_cons_True by done. rewrite fmap_cons. set_solver. }
      split; [done|]. destruct b.
      + split; [|done]. rewrite H2. unfold unflagged. by rewrite (filter_cons_False _ (_, true)) by done.
      + split.
        * unfold unflagged in *. rewrite !(filter_cons_False _ (_, true)) by done. done.
        * unfold flagged in *. rewrite filter_cons_True by done. rewrite fmap_cons. intros e. rewrite elem_of_cons. intros [->|He]; [done|by apply H3].
    - specialize (IH f S HS). destruct (absorb lmerge (f, S) l) as [f2 l2]. destruct IH as (H1 & H2 & H3).
      { intros e He. apply Hl. unfold flagged in *. by rewrite filter_cons_False by done. }
      split; [done|]. split.
      + unfold unflagged in *. rewrite !filter_cons_True by done. rewrite !fmap_cons. by rewrite H2.
      + unfold flagged in *. by rewrite filter_cons_False by done.
  Qed.
  Lemma phase2_parts T n : forall l l', phase2 lmerge n l = Some l' ->
    (forall e, e ∈ flagged l -> T ⊆ e.2) -> (forall e, e ∈ unflagged l -> ~ T ⊆ e.2) ->
    filter (fun e => ~ T ⊆ e.2) l' = unflagged l.
  Proof.
    induction n as [|n IH]; intros [|[[q S] b] l] l'; cbn [phase2]; try (intros [= <-]; done); try done.
    destruct b.
    - intros Hp Hf Hu. assert (T ⊆ S) as HS. { apply (Hf (q, S)). unfold flagged. rewrite filter_cons_True by done. rewrite fmap_cons. set_solver. }
      pose proof (absorb_parts T q S l HS) as Ha. destruct (absorb lmerge (q, S) l) as [[f U] l1]. destruct Ha as (H1 & H2 & H3).
      { intros e He. apply Hf. unfold flagged in *. rewrite filter_cons_True by done. rewrite fmap_cons. set_solver. }
      destruct (phase2 lmerge n l1) as [l2|] eqn:E; [|done]. cbn [mbind option_bind] in Hp. injection Hp as <-.
      rewrite filter_cons_False by (intros Hn; by apply Hn).
      rewrite (IH _ _ E H3).
      + rewrite H2. unfold unflagged. by rewrite filter_cons_False by done.
      + intros e. rewrite H2. intros He. apply Hu. unfold unflagged in *. by rewrite filter_cons_False by done.
    - intros Hp Hf Hu. destruct (phase2 lmerge n l) as [l2|] eqn:E; [|done]. cbn [mbind option_bind] in Hp. injection Hp as <-.
      rewrite filter_cons_True.
      2:{ apply (Hu (q, S)). unfold unflagged. rewrite filter_cons_True by done. rewrite fmap_cons. set_solver. }
      rewrite (IH _ _ E).
      + unfold unflagged. rewrite (filter_cons_True _ (_, false)) by done. done.
      + intros e He. apply Hf. unfold flagged in *. by rewrite filter_cons_False by done.
      + intros e He. apply Hu. unfold unflagged in *. rewrite filter_cons_True by done. rewrite fmap_cons. set_solver.
  Qed.
  (** the patches that do not contain the information of [o] afterwards are the patches that did not match [o], unchanged and
      in order; and a patch is inserted exactly if nothing matched *)
  Theorem C50_unmatched l o t l' b :
    quiet l.*1 o -> t ∉ labels l -> update_list lmerge l (o, {[t]}) = Some (l', b) ->
    filter (fun e => t ∉ e.2) l' = filter (fun e => matches e.1 o = false) l /\
    (b = true <-> Forall (fun e => matches e.1 o = false) l) /\
    (b = true -> l' = (o, {[t]}) :: l).
  Proof.
    intros Hq Ht. unfold update_list. pose proof (phase1_quiet l o {[t]} Hq) as H1.
    destruct (phase1 lmerge l (o, {[t]})) as [l1 o1]. destruct H1 as (-> & Hu & Hf & Ha).
    assert (Hl : forall e, e ∈ l -> t ∉ e.2).
    { intros [p S] He Hin. apply Ht. unfold labels. apply elem_of_union_list. exists S. split; [|done].
      apply elem_of_list_fmap. by exists (p, S). }
    assert (Hext : forall k : list lp, filter (fun e => t ∉ e.2) k = filter (fun e => ~ {[t]} ⊆ e.2) k).
    { intros k. apply list_filter_iff. intros e. by rewrite singleton_subseteq_l. }
    rewrite Hext. destruct (any_merged l1) eqn:Em.
    - destruct (phase2 lmerge (length l1) l1) as [l2|] eqn:E; [|done]. cbn [mbind option_bind]. intros [= <- <-]. split; [|split; [|done]].
      + rewrite (phase2_parts {[t]} _ _ _ E); [done|intros e He; by apply Hf|]. intros e. rewrite Hu.
        intros He. apply elem_of_list_filter in He as [_ He]. rewrite singleton_subseteq_l. by apply Hl.
      + split; [done|]. intros Hall. apply Ha in Hall. done.
    - assert (Hall : Forall (fun e => matches e.1 o = false) l) by (by apply Ha).
      assert (Hfil : filter (fun e : lp => matches e.1 o = false) l = l).
      { clear - Hall. induction Hall; [done|]. rewrite filter_cons_True by done. by f_equal. }
      assert (l1.*1 = l) as ->.
      { rewrite <- Hfil, <- Hu. unfold unflagged. f_equal. clear - Em. induction l1 as [|[e b] l1 IH]; [done|].
        unfold any_merged in Em. cbn in Em. apply orb_false_iff in Em as [-> Em]. rewrite filter_cons_True by done. f_equal. by apply IH. }
      intros [= <- <-]. split; [|done]. rewrite filter_cons_False by (cbn; set_solver).
      rewrite Hfil. clear - Hl. induction l as [|e l IH]; [done|]. rewrite filter_cons_True.
      + f_equal. apply IH. intros e' He. apply Hl. set_solver.
      + rewrite singleton_subseteq_l. apply Hl. set_solver.
  Qed.
  (** some patch contains the information of [o] *)
  Theorem C50_contained l o t l' b : update_list lmerge l (o, {[t]}) = Some (l', b) -> exists e, e ∈ l' /\ t ∈ e.2.
  Proof.
    intros Hu. pose proof (C50_no_loss _ _ _ _ _ Hu) as Hl. assert (t ∈ labels l') as Ht by (rewrite Hl; set_solver).
    unfold labels in Ht. apply elem_of_union_list in Ht as (S & HS & Ht). apply elem_of_list_fmap in HS as ([p S'] & -> & He). eauto.
  Qed.

  (** ** exactly one patch *)
  Lemma absorb_all (Q : P -> Prop) f S l :
    (forall p q, Q p -> Q q -> exists r q1, merge p q = (true, r, q1) /\ Q r) ->
    Q f -> (forall e, e ∈ flagged l -> Q e.1) -> let '(f1, l1) := absorb lmerge (f, S) l in Q f1.1 /\ flagged l1 = [].
  Proof.
    intros HQ. revert f S. induction l as [|[[q U] b] l IH]; intros f S Hf Hl; [done|]. cbn [absorb]. destruct b.
    - assert (Q q) as Hq. { apply (Hl (q, U)). unfold flagged. rewrite filter_cons_True by done. rewrite fmap_cons. set_solver. }
      destruct (HQ f q Hf Hq) as (r & q1 & Hm & Hr). unfold lmerge at 1. cbn [fst snd]. rewrite Hm.
      specialize (IH r (S ∪ U) Hr). destruct (absorb lmerge (r, S ∪ U) l) as [f2 l2]. apply IH.
      intros e He. apply Hl. unfold flagged in *. rewrite filter_cons_True by done. rewrite fmap_cons. set_solver.
    - specialize (IH f S Hf). destruct (absorb lmerge (f, S) l) as [f2 l2].
      unfold flagged in *. rewrite (filter_cons_False _ (_, false)) by done. apply IH. by rewrite filter_cons_False in Hl.
  Qed.
  Lemma phase2_none n : forall l l', phase2 lmerge n l = Some l' -> flagged l = [] -> l' = l.*1.
  Proof.
    induction n as [|n IH]; intros [|[[q S] b] l] l'; cbn [phase2]; try (intros [= <-]; done); try done.
    destruct b.
    - intros _ Hf. unfold flagged in Hf. by rewrite filter_cons_True in Hf.
    - destruct (phase2 lmerge n l) as [l2|] eqn:E; [|done]. cbn [mbind option_bind]. intros [= <-] Hf. rewrite (IH _ _ E); [done|].
      unfold flagged in *. by rewrite filter_cons_False in Hf.
  Qed.
  Lemma unflagged_all (l : list (lp * bool)) : flagged l = [] -> unflagged l = l.*1.
  Proof.
    unfold flagged, unflagged. induction l as [|[e b] l IH]; [done|]. destruct b.
    - by rewrite filter_cons_True.
    - rewrite filter_cons_False by done. intros H. rewrite filter_cons_True by done. rewrite !fmap_cons. by rewrite IH.
  Qed.
  Lemma phase2_single (Q : P -> Prop) T n : forall l l', phase2 lmerge n l = Some l' ->
    (forall p q, Q p -> Q q -> exists r q1, merge p q = (true, r, q1) /\ Q r) ->
    (forall e, e ∈ flagged l -> Q e.1 /\ T ⊆ e.2) -> (forall e, e ∈ unflagged l -> ~ T ⊆ e.2) -> flagged l <> [] ->
    length (filter (fun e => T ⊆ e.2) l') = 1.
  Proof.
    induction n as [|n IH]; intros [|[[q S] b] l] l'; cbn [phase2]; try (intros [= <-]; done); try done.
    destruct b.
    - intros Hp HQ Hf Hu _. destruct (Hf (q, S)) as [Hq HS].
      { unfold flagged. rewrite filter_cons_True by done. rewrite fmap_cons. set_solver. }
      assert (Hf' : forall e, e ∈ flagged l -> Q e.1 /\ T ⊆ e.2).
      { intros e He. apply Hf. unfold flagged in *. rewrite filter_cons_True by done. rewrite fmap_cons. set_solver. }
      pose proof (absorb_all Q q S l HQ Hq (fun e He => proj1 (Hf' e He))) as H1.
      pose proof (absorb_parts T q S l HS (fun e He => proj2 (Hf' e He))) as H2.
      destruct (absorb lmerge (q, S) l) as [[f U] l1]. destruct H1 as [_ H1]. destruct H2 as (HU & H2 & _).
      destruct (phase2 lmerge n l1) as [l2|] eqn:E; [|done]. cbn [mbind option_bind] in Hp. injection Hp as <-.
      rewrite (phase2_none _ _ _ E H1). rewrite filter_cons_True by done. cbn [length]. f_equal.
      rewrite <- (unflagged_all l1 H1), H2.
      assert (filter (fun e : lp => T ⊆ e.2) (unflagged l) = []) as ->; [|done].
      assert (forall e, e ∈ unflagged l -> ~ T ⊆ e.2) as Hu'.
      { intros e He. apply Hu. unfold unflagged in *. by rewrite filter_cons_False. }
      clear - Hu'. induction (unflagged l) as [|e k IH]; [done|]. rewrite filter_cons_False by (apply Hu'; set_solver).
      apply IH. intros e' He. apply Hu'. set_solver.
    - intros Hp HQ Hf Hu Hne. destruct (phase2 lmerge n l) as [l2|] eqn:E; [|done]. cbn [mbind option_bind] in Hp. injection Hp as <-.
      rewrite filter_cons_False.
      2:{ apply (Hu (q, S)). unfold unflagged. rewrite filter_cons_True by done. rewrite fmap_cons. set_solver. }
      apply (IH _ _ E HQ).
      + intros e He. apply Hf. unfold flagged in *. by rewrite filter_cons_False by done.
      + intros e He. apply Hu. unfold unflagged in *. rewrite filter_cons_True by done. rewrite fmap_cons. set_solver.
      + unfold flagged in *. by rewrite filter_cons_False in Hne.
  Qed.
  (** If the patches that [o] was merged into can always be merged with each other ([Q] describes these patches), exactly one patch
      contains the information of [o] afterwards. *)
  Theorem C50_single (Q : P -> Prop) l o t l' b :
    quiet l.*1 o -> t ∉ labels l -> update_list lmerge l (o, {[t]}) = Some (l', b) ->
    (forall p r, p ∈ l.*1 -> merge p o = (true, r, o) -> Q r) ->
    (forall p q, Q p -> Q q -> exists r q1, merge p q = (true, r, q1) /\ Q r) ->
    length (filter (fun e => t ∈ e.2) l') = 1.
  Proof.
    intros Hq Ht Hup HQ1 HQ2. pose proof (C50_unmatched _ _ _ _ _ Hq Ht Hup) as (_ & Hb & Hins).
    revert Hup. unfold update_list. pose proof (phase1_quiet l o {[t]} Hq) as H1.
    assert (Hl : forall e, e ∈ l -> t ∉ e.2).
    { intros [p S] He Hin. apply Ht. unfold labels. apply elem_of_union_list. exists S. split; [|done].
      apply elem_of_list_fmap. by exists (p, S). }
    destruct (phase1 lmerge l (o, {[t]})) as [l1 o1]. destruct H1 as (-> & Hu & Hf & Ha).
    assert (Hext : forall k : list lp, filter (fun e => t ∈ e.2) k = filter (fun e => {[t]} ⊆ e.2) k).
    { intros k. apply list_filter_iff. intros e. by rewrite singleton_subseteq_l. }
    destruct (any_merged l1) eqn:Em.
    - destruct (phase2 lmerge (length l1) l1) as [l2|] eqn:E; [|done]. cbn [mbind option_bind]. intros [= <- <-]. rewrite Hext.
      apply (phase2_single Q {[t]} _ _ _ E HQ2).
      + intros e He. destruct (Hf e He) as (HS & p & Hp & Hm). split; [|done]. by apply (HQ1 p).
      + intros e. rewrite Hu. intros He. apply elem_of_list_filter in He as [_ He]. rewrite singleton_subseteq_l. by apply Hl.
      + intros Hn. assert (Hc : any_merged l1 = false); [|congruence].
        clear - Hn. unfold flagged, any_merged in *. induction l1 as [|[e b] l1 IH]; [done|]. destruct b.
        * by rewrite filter_cons_True in Hn.
        * rewrite filter_cons_False in Hn by done. cbn. by apply IH.
    - intros [= <- <-]. rewrite (Hins eq_refl). rewrite filter_cons_True by (cbn; set_solver). cbn [length]. f_equal.
      clear - Hl. induction l as [|e l IH]; [done|]. rewrite filter_cons_False by (apply Hl; set_solver).
      apply IH. intros e' He. apply Hl. set_solver.
  Qed.
  (** and the patches that contain it are described by [Q] *)
  Lemma phase2_where (Q : P -> Prop) T n : forall l l', phase2 lmerge n l = Some l' ->
    (forall p q, Q p -> Q q -> exists r q1, merge p q = (true, r, q1) /\ Q r) ->
    (forall e, e ∈ flagged l -> Q e.1) -> (forall e, e ∈ unflagged l -> ~ T ⊆ e.2) ->
    forall e, e ∈ l' -> T ⊆ e.2 -> Q e.1.
  Proof.
    induction n as [|n IH]; intros [|[[q S] b] l] l'; cbn [phase2]; try (intros [= <-]; set_solver); try done.
    destruct b.
    - intros Hp HQ Hf Hu. assert (Q q) as Hq. { apply (Hf (q, S)). unfold flagged. rewrite filter_cons_True by done. rewrite fmap_cons. set_solver. }
      assert (Hf' : forall e, e ∈ flagged l -> Q e.1).
      { intros e He. apply Hf. unfold flagged in *. rewrite filter_cons_True by done. rewrite fmap_cons. set_solver. }
      assert (Hu' : forall e, e ∈ unflagged l -> ~ T ⊆ e.2).
      { intros e He. apply Hu. unfold unflagged in *. by rewrite filter_cons_False by done. }
      pose proof (absorb_all Q q S l HQ Hq Hf') as Ha. pose proof (absorb_parts ∅ q S l ltac:(set_solver) ltac:(set_solver)) as Hb.
      destruct (absorb lmerge (q, S) l) as [[f U] l1]. destruct Ha as [Hqf Hn]. destruct Hb as (_ & Hb & _). cbn in Hqf.
      destruct (phase2 lmerge n l1) as [l2|] eqn:E; [|done]. cbn [mbind option_bind] in Hp. injection Hp as <-.
      intros e. rewrite elem_of_cons. intros [->|He]; [done|]. apply (IH _ _ E HQ); [rewrite Hn; set_solver| |done]. by rewrite Hb.
    - intros Hp HQ Hf Hu. destruct (phase2 lmerge n l) as [l2|] eqn:E; [|done]. cbn [mbind option_bind] in Hp. injection Hp as <-.
      intros e. rewrite elem_of_cons. intros [->|He] HT.
      + exfalso. apply (Hu (q, S)); [|done]. unfold unflagged. rewrite filter_cons_True by done. rewrite fmap_cons. set_solver.
      + apply (IH _ _ E HQ); [| |done|done].
        * intros e' He'. apply Hf. unfold flagged in *. by rewrite filter_cons_False by done.
        * intros e' He'. apply Hu. unfold unflagged in *. rewrite filter_cons_True by done. rewrite fmap_cons. set_solver.
  Qed.
  Theorem C50_where (Q : P -> Prop) l o t l' b :
    quiet l.*1 o -> t ∉ labels l -> update_list lmerge l (o, {[t]}) = Some (l', b) ->
    Q o -> (forall p r, p ∈ l.*1 -> merge p o = (true, r, o) -> Q r) ->
    (forall p q, Q p -> Q q -> exists r q1, merge p q = (true, r, q1) /\ Q r) ->
    forall e, e ∈ l' -> t ∈ e.2 -> Q e.1.
  Proof.
    intros Hq Ht Hup HQo HQ1 HQ2. pose proof (C50_unmatched _ _ _ _ _ Hq Ht Hup) as (_ & Hb & Hins).
    assert (Hl : forall e, e ∈ l -> t ∉ e.2).
    { intros [p S] He Hin. apply Ht. unfold labels. apply elem_of_union_list. exists S. split; [|done].
      apply elem_of_list_fmap. by exists (p, S). }
    destruct b.
    { rewrite (Hins eq_refl). intros e. rewrite elem_of_cons. intros [->|He]; [done|]. intros Hin. by destruct (Hl e He). }
    revert Hup. unfold update_list. pose proof (phase1_quiet l o {[t]} Hq) as H1.
    destruct (phase1 lmerge l (o, {[t]})) as [l1 o1]. destruct H1 as (-> & Hu & Hf & Ha).
    destruct (any_merged l1) eqn:Em; [|done].
    destruct (phase2 lmerge (length l1) l1) as [l2|] eqn:E; [|done]. cbn [mbind option_bind]. intros [= <-] e He Hin.
    apply (phase2_where Q {[t]} _ _ _ E HQ2); [| |done|by rewrite singleton_subseteq_l].
    - intros e' He'. destruct (Hf e' He') as (HS & p & Hp & Hm). by apply (HQ1 p).
    - intros e'. rewrite Hu. intros He'. apply elem_of_list_filter in He' as [_ He']. rewrite singleton_subseteq_l. by apply Hl.
  Qed.
  (** the same if at most one patch matches [o] *)
  Lemma absorb_none f l : flagged l = [] -> absorb lmerge f l = (f, l).
  Proof.
    induction l as [|[q b] l IH]; [done|]. unfold flagged in *. destruct b.
    - by rewrite filter_cons_True.
    - rewrite filter_cons_False by done. intros H. cbn. by rewrite IH.
  Qed.
  Lemma phase2_one n : forall l l', phase2 lmerge n l = Some l' -> length (flagged l) <= 1 -> l' = l.*1.
  Proof.
    induction n as [|n IH]; intros [|[q b] l] l'; cbn [phase2]; try (intros [= <-]; done); try done.
    destruct b.
    - intros Hp Hl. unfold flagged in Hl. rewrite filter_cons_True in Hl by done. cbn in Hl.
      assert (flagged l = []) as H0. { unfold flagged. destruct (filter _ l); [done|cbn in Hl; lia]. }
      rewrite absorb_none in Hp by done. destruct (phase2 lmerge n l) as [l2|] eqn:E; [|done]. cbn [mbind option_bind] in Hp.
      injection Hp as <-. rewrite fmap_cons. f_equal. apply (phase2_none _ _ _ E H0).
    - intros Hp Hl. destruct (phase2 lmerge n l) as [l2|] eqn:E; [|done]. cbn [mbind option_bind] in Hp.
      injection Hp as <-. rewrite fmap_cons. f_equal. apply (IH _ _ E). unfold flagged in *. by rewrite filter_cons_False in Hl.
  Qed.
  Theorem C50_one_match l o t l' b :
    quiet l.*1 o -> t ∉ labels l -> update_list lmerge l (o, {[t]}) = Some (l', b) ->
    length (filter (fun e => matches e.1 o = true) l) <= 1 ->
    length (filter (fun e => t ∈ e.2) l') = 1.
  Proof.
    intros Hq Ht Hup Hone. pose proof (C50_unmatched _ _ _ _ _ Hq Ht Hup) as (Hun & Hb & Hins).
    assert (Hlen : forall (A : Type) (Q Q' : A -> Prop) `{forall x, Decision (Q x)} `{forall x, Decision (Q' x)} (k : list A),
      (forall x, Q' x <-> ~ Q x) -> length (filter Q k) + length (filter Q' k) = length k).
    { intros A Q Q' HQ HQ' k HQQ. induction k as [|x k IH]; [done|]. destruct (decide (Q x)) as [Hx|Hx].
      - rewrite filter_cons_True, filter_cons_False by (done || rewrite HQQ; tauto). cbn. lia.
      - rewrite filter_cons_False, filter_cons_True by (done || rewrite HQQ; tauto). cbn. lia. }
    pose proof (Hlen _ (fun e : lp => t ∈ e.2) (fun e : lp => t ∉ e.2) _ _ l' ltac:(done)) as H1. rewrite Hun in H1.
    pose proof (Hlen _ (fun e : lp => matches e.1 o = true) (fun e : lp => matches e.1 o = false) _ _ l) as H2.
    feed specialize H2. { intros e. destruct (matches e.1 o); split; congruence. }
    destruct b.
    - rewrite (Hins eq_refl) in H1. cbn [length] in H1. rewrite Hins by done.
      assert (length (filter (fun e : lp => matches e.1 o = true) l) = 0) as H0.
      { destruct Hb as [Hb _]. specialize (Hb eq_refl). clear - Hb. induction Hb; [done|].
        by rewrite filter_cons_False by congruence. }
      rewrite (Hins eq_refl) in Hun. lia.
    - revert Hup. unfold update_list. pose proof (phase1_quiet l o {[t]} Hq) as Hp1.
      destruct (phase1 lmerge l (o, {[t]})) as [l1 o1] eqn:E1. destruct Hp1 as (-> & Hu & Hf & Ha).
      assert (length l1 = length l) as Hl1.
      { enough (forall k (o o' : lp) k1, phase1 lmerge k o = (k1, o') -> length k1 = length k) as Hk by (by eapply Hk). clear.
        induction k as [|p k IH]; intros o o' k1; cbn; [by intros [= <- <-]|].
        destruct (lmerge p o) as [[b p1] o1]. destruct (phase1 lmerge k o1) as [r o2] eqn:E. intros [= <- <-]. cbn. f_equal. by eapply IH. }
      destruct (any_merged l1) eqn:Em; [|done].
      destruct (phase2 lmerge (length l1) l1) as [l2|] eqn:E; [|done]. cbn [mbind option_bind]. intros [= <-].
      pose proof (Hlen _ (fun e : lp * bool => e.2 = true) (fun e => e.2 = false) _ _ l1) as H3.
      feed specialize H3. { intros [? []]; cbn; split; congruence. }
      assert (length (filter (fun e : lp * bool => e.2 = false) l1) = length (unflagged l1)) as H4.
      { unfold unflagged. by rewrite fmap_length. }
      rewrite Hu in H4. assert (length (flagged l1) <= 1) as H5. { unfold flagged. rewrite fmap_length. lia. }
      assert (1 <= length (flagged l1)) as H6.
      { assert (flagged l1 <> []); [|destruct (flagged l1); [done|cbn; lia]]. intros Hn. clear - Hn Em.
        unfold flagged, any_merged in *. induction l1 as [|[e b] l1 IH]; [done|]. destruct b.
        * by rewrite filter_cons_True in Hn.
        * rewrite filter_cons_False in Hn by done. cbn in Em. by apply IH. }
      apply (phase2_one _ _ _ E) in H5. subst l2. rewrite fmap_length in H1. unfold flagged in H6. rewrite fmap_length in H6. lia.
  Qed.
End Labels.
