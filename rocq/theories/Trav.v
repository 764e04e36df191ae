(** Model of TraversabilityGrid's class registry, statistics and queries (src/maps/TraversabilityGrid.hpp/.cpp), and of FoldOperator
    (src/operators/Fold.hpp).  C36, C37, C43, C56, C57.

    Drivabilities and distances are rational numbers; the rounding of double is not modelled here. *)
From Coq Require Import ZArith QArith Qminmax.
From stdpp Require Import prelude.
From Verif Require Import Base.
Local Open Scope nat_scope.

(** TraversabilityGrid.hpp:17-30: -1 marks an empty placeholder *)
Definition tclass : Type := Q.
Definition placeholder : tclass := (-1)%Q.
(** TraversabilityGrid.hpp:17-24 *)
Definition mk_class (d : Q) : option tclass := if Qlt_le_dec d 0 then None else if Qlt_le_dec d (1000001 # 1000000) then Some d else None.
(** TraversabilityGrid.hpp:42-61 *)
Definition traversable (k : tclass) : bool := if Qlt_le_dec 0 k then true else false.
Definition drivability (k : tclass) : Q := if Qlt_le_dec k 0 then 0%Q else k.

(** TraversabilityGrid.cpp:183-189; [num] is an uint8_t *)
Definition set_class (num : nat) (k : tclass) (l : list tclass) : list tclass :=
  <[num := k]> (if decide (length l <= num) then l ++ replicate (num + 1 - length l) placeholder else l).
(** TraversabilityGrid.cpp:191-199 *)
Definition get_class (num : nat) (l : list tclass) : out (list tclass) tclass :=
  if decide (length l <= num) then Throw l else match l !! num with Some k => Ok k | None => Bad UB end.
(** TraversabilityGrid.cpp:173-181; the conversion to uint8_t is a remainder *)
Definition register (k : tclass) (l : list tclass) : option nat * list tclass :=
  if decide (255 <= length l) then (None, l)
  else let id := Nat.modulo (length l + 1) 256 in (Some id, set_class id k l).

Inductive rop := RSet (num : nat) (k : tclass) | RRegister (k : tclass).
Definition rapply (o : rop) (l : list tclass) : list tclass :=
  match o with RSet n k => set_class n k l | RRegister k => (register k l).2 end.
(** the argument of setTraversabilityClass has type uint8_t *)
Definition rtyped (o : rop) : Prop := match o with RSet n _ => n < 256 | RRegister _ => True end.
(** every registry that a program can make *)
Inductive registry : list tclass -> Prop :=
| registry_new : registry []
| registry_step o l : registry l -> rtyped o -> registry (rapply o l).

(** * C36 *)
Definition known (num : nat) (k : tclass) (l : list tclass) : Prop := get_class num l = Ok k.
Lemma known_iff num k l : known num k l <-> l !! num = Some k.
Proof.
  unfold known, get_class. case_decide as H.
  - split; [done|]. intros Hl. apply lookup_lt_Some in Hl. lia.
  - split; [destruct (l !! num); by intros [= <-]|]. by intros ->.
Qed.
Lemma set_class_lookup num k l i : set_class num k l !! i =
  if decide (i = num) then Some k else if decide (i < length l) then l !! i else if decide (i < num) then Some placeholder else None.
Proof.
  unfold set_class. destruct (decide (i = num)) as [->|Hne].
  - rewrite list_lookup_insert; [done|]. case_decide; [rewrite app_length, replicate_length; lia|lia].
  - rewrite list_lookup_insert_ne by done. destruct (decide (length l <= num)).
    + destruct (decide (i < length l)); [by rewrite lookup_app_l|].
      rewrite lookup_app_r by lia. destruct (decide (i < num)).
      * apply lookup_replicate_2. lia.
      * apply lookup_replicate_None. lia.
    + destruct (decide (i < length l)); [done|]. destruct (decide (i < num)); [lia|]. apply lookup_ge_None_2. lia.
Qed.
Lemma set_class_length num k l : length (set_class num k l) = length l `max` (num + 1).
Proof. unfold set_class. rewrite insert_length. case_decide; [rewrite app_length, replicate_length; lia|lia]. Qed.
Lemma registry_length l : registry l -> length l <= 256.
Proof.
  induction 1 as [|o l Hl IH Ho]; [cbn; lia|]. destruct o; cbn in *.
  - rewrite set_class_length. lia.
  - unfold register. case_decide; [done|]. cbn. rewrite set_class_length.
    pose proof (Nat.mod_upper_bound (length l + 1) 256). lia.
Qed.
(** a registered class gets an id that no class had, can be read back, and all other classes stay as they are *)
Theorem C36_register l k id l' : registry l -> register k l = (Some id, l') ->
  (forall k', ~ known id k' l) /\ known id k l' /\ id < 256 /\ (forall i k', known i k' l -> known i k' l').
Proof.
  intros Hr. unfold register. case_decide as Hl; [done|].
  rewrite Nat.mod_small by lia. cbn zeta. intros [= <- <-]. split; [|split; [|split; [lia|]]].
  - intros k'. rewrite known_iff. intros H. apply lookup_lt_Some in H. lia.
  - rewrite known_iff, set_class_lookup. by rewrite decide_True.
  - intros i k'. rewrite !known_iff, set_class_lookup. intros H. pose proof (lookup_lt_Some _ _ _ H).
    rewrite decide_False by lia. by rewrite decide_True.
Qed.
(** a refused registration changes nothing, and a registration is refused exactly if the last but one id is in use *)
Theorem C36_refused l k : (forall l', register k l = (None, l') -> l' = l) /\ ((register k l).1 = None <-> exists k', known 254 k' l).
Proof.
  unfold register. case_decide as H; cbn.
  - split; [by intros l' [= ->]|]. split; [|done]. intros _. destruct (lookup_lt_is_Some_2 l 254) as [k' Hk]; [lia|]. exists k'. by rewrite known_iff.
  - split; [done|]. split; [done|]. intros [k' Hk]. rewrite known_iff in Hk. apply lookup_lt_Some in Hk. lia.
Qed.
(** setTraversabilityClass changes only this class; new ids below it get placeholders *)
Theorem C36_set l num k : known num k (set_class num k l) /\
  (forall i k', i <> num -> known i k' l -> known i k' (set_class num k l)) /\
  (forall i k', i <> num -> known i k' (set_class num k l) -> known i k' l \/ k' = placeholder /\ i < num).
Proof.
  setoid_rewrite known_iff. setoid_rewrite set_class_lookup. split; [by rewrite decide_True|]. split.
  - intros i k' Hne H. pose proof (lookup_lt_Some _ _ _ H). rewrite decide_False by done. by rewrite decide_True.
  - intros i k' Hne. rewrite decide_False by done. case_decide; [by left|]. case_decide; [|done]. intros [= <-]. by right.
Qed.
(** asking for a class that is not known raises an exception; nothing outside of the table is read *)
Theorem C36_unknown l num : (exists k, known num k l) \/ get_class num l = Throw l.
Proof.
  setoid_rewrite known_iff. unfold get_class. case_decide as H; [by right|]. left. apply lookup_lt_is_Some_2. lia.
Qed.
(** a class can be made exactly for drivabilities between 0 and 1, with a margin for rounding, and has this drivability *)
Theorem C36_make d : (forall k, mk_class d = Some k -> drivability k = d) /\ (is_Some (mk_class d) <-> 0 <= d /\ d < 1000001 # 1000000)%Q.
Proof.
  unfold mk_class, drivability. destruct (Qlt_le_dec d 0) as [H|H].
  - split; [done|]. split; [by intros [k Hk]|]. intros [H1 _]. by apply Qle_not_lt in H1.
  - destruct (Qlt_le_dec d (1000001 # 1000000)) as [H'|H'].
    + split; [|by split; [|eauto]]. intros k [= <-]. destruct (Qlt_le_dec d 0) as [H1|_]; [|done]. by apply Qle_not_lt in H.
    + split; [done|]. split; [by intros [k Hk]|]. intros [_ H1]. by apply Qlt_not_le in H1.
Qed.
Example C36_nonvacuous : exists l, registry l /\ register 1%Q l = (Some 5, [(-1)%Q; (1#2)%Q; 0%Q; (1#4)%Q; (-1)%Q; 1%Q]) /\ registry (register 1%Q l).2.
Proof.
  exists (rapply (RSet 2 0%Q) (rapply (RRegister (1#4)%Q) (rapply (RRegister (1#2)%Q) []))).
  assert (H : registry (rapply (RSet 2 0%Q) (rapply (RRegister (1#4)%Q) (rapply (RRegister (1#2)%Q) [])))).
  { repeat first [apply registry_new|apply registry_step; [|cbn; lia]]. }
  split; [done|]. split; [reflexivity|]. by apply (registry_step (RRegister 1%Q)) in H.
Qed.
(** Not all ids can be used: each registration skips one.  After 128 registrations no further class is accepted, although the 128 even
    ids still hold placeholders. *)
Definition register_many (n : nat) : list tclass := Nat.iter n (fun l => (register 1%Q l).2) [].
Lemma register_many_registry n : registry (register_many n).
Proof. induction n as [|n IH]; [constructor|]. by apply (registry_step (RRegister 1%Q)) in IH. Qed.
Theorem C36_capacity_refuted : registry (register_many 128) /\ (register 1%Q (register_many 128)).1 = None /\
  forall i, i < 128 -> known (2 * i) placeholder (register_many 128).
Proof.
  split; [apply register_many_registry|]. split; [vm_compute; reflexivity|].
  assert (H : (fun i => register_many 128 !! (2 * i)) <$> seq 0 128 = replicate 128 (Some placeholder)) by (vm_compute; reflexivity).
  intros i Hi. rewrite known_iff. apply (f_equal (fun l => l !! i)) in H. rewrite list_lookup_fmap, lookup_seq_lt, lookup_replicate_2 in H by done.
  cbn [fmap option_fmap option_map] in H. rewrite Nat.add_0_l in H. apply (inj Some) in H. exact H.
Qed.

(** * C56: saving and loading the classes

    TraversabilityGrid.cpp:249-270.  The document is a function from keys; the cast in the call of setTraversabilityClass is the
    identity for the at most 256 classes that there are. *)
Definition save_classes (l : list tclass) : nat * (nat -> option Q) := (length l, fun i => drivability <$> l !! i).
Fixpoint load_from (i n : nat) (doc : nat -> option Q) (l : list tclass) : out (list tclass) (list tclass) :=
  match n with
  | O => Ok l
  | S n => match doc i with
           | None => load_from (S i) n doc l
           | Some d => match mk_class d with
                       | None => Throw l
                       | Some k => load_from (S i) n doc (set_class (Nat.modulo i 256) k l)
                       end
           end
  end.
Definition load_classes (d : nat * (nat -> option Q)) : out (list tclass) (list tclass) := load_from 0 d.1 d.2 [].
(** classes are made by the constructor or are placeholders *)
Definition good_class (k : tclass) : Prop := k = placeholder \/ (0 <= k < 1000001 # 1000000)%Q.
Lemma drivability_good k : good_class k -> mk_class (drivability k) = Some (drivability k).
Proof.
  intros Hk. unfold mk_class, drivability. destruct (Qlt_le_dec k 0) as [Hn|Hn]; [by vm_compute|].
  destruct (Qlt_le_dec k 0) as [Hn'|_]; [by apply Qle_not_lt in Hn|].
  destruct Hk as [->|[H1 H2]]; [by vm_compute in Hn|]. destruct (Qlt_le_dec k _) as [|H]; [done|]. by apply Qlt_not_le in H2.
Qed.
Lemma load_from_spec l : Forall good_class l -> length l <= 256 -> forall n i acc, i + n = length l -> acc = drivability <$> take i l ->
  load_from i n (fun i => drivability <$> l !! i) acc = Ok (drivability <$> l).
Proof.
  intros Hg Hl. induction n as [|n IH]; intros i acc Hi ->.
  { cbn. f_equal. f_equal. apply take_ge. lia. }
  cbn [load_from]. destruct (lookup_lt_is_Some_2 l i) as [k Hk]; [lia|]. rewrite Hk. cbn [fmap option_fmap option_map].
  rewrite drivability_good. 2:{ rewrite Forall_lookup in Hg. by apply (Hg i). }
  rewrite IH; [done|lia|]. rewrite Nat.mod_small by lia. apply list_eq. intros j. rewrite set_class_lookup.
  rewrite fmap_length, take_length. rewrite list_lookup_fmap. destruct (decide (j = i)) as [->|Hne].
  - rewrite list_lookup_fmap, lookup_take by lia. by rewrite Hk.
  - rewrite Nat.min_l by lia. rewrite list_lookup_fmap. destruct (decide (j < i)).
    + rewrite !lookup_take by lia. done.
    + try rewrite decide_False by lia. rewrite !lookup_take_ge by lia. done.
Qed.
(** Loading restores the number of classes and the drivability of each; unused ids become classes of drivability 0, which is what
    getDrivability answers for them anyway. *)
Theorem C56_round_trip l : registry l -> Forall good_class l -> exists l', load_classes (save_classes l) = Ok l' /\
  length l' = length l /\ forall i k, known i k l -> exists k', known i k' l' /\ drivability k' = drivability k /\ traversable k' = traversable k.
Proof.
  intros Hr Hg. exists (drivability <$> l). unfold load_classes, save_classes. cbn [fst snd]. split.
  - apply load_from_spec; [done|by apply registry_length|lia|done].
  - split; [by rewrite fmap_length|]. intros i k. rewrite known_iff. intros Hk. exists (drivability k). split; [|split].
    + rewrite known_iff, list_lookup_fmap, Hk. done.
    + unfold drivability. destruct (Qlt_le_dec k 0) as [|Hn]; [done|]. destruct (Qlt_le_dec k 0) as [Hk'|]; [|done]. by apply Qle_not_lt in Hn.
    + unfold traversable, drivability. destruct (Qlt_le_dec k 0) as [Hn|Hn].
      * destruct (Qlt_le_dec 0 0) as [H|]; [by apply Qlt_irrefl in H|]. destruct (Qlt_le_dec 0 k) as [H|]; [|done].
        exfalso. apply (Qlt_irrefl 0). by apply Qlt_trans with k.
      * done.
Qed.
Example C56_nonvacuous : exists l, registry l /\ Forall good_class l /\ l = [(-1)%Q; (1#2)%Q; 0%Q; (1#4)%Q].
Proof.
  exists (rapply (RSet 2 0%Q) (rapply (RRegister (1#4)%Q) (rapply (RRegister (1#2)%Q) []))). split.
  { repeat first [apply registry_new|apply registry_step; [|cbn; lia]]. }
  split; [|done]. change (Forall good_class [(-1)%Q; (1#2)%Q; 0%Q; (1#4)%Q]).
  repeat (apply Forall_cons; split); [by left|right; split; by vm_compute..|apply Forall_nil; done].
Qed.

(** * Statistics *)
(** TraversabilityGrid.hpp:68-73 and 117-127; size_t counters do not overflow *)
Definition dbl_max : Q := inject_Z (2 ^ 1024 - 2 ^ 971).
Record stat := Stat { st_total : nat; st_high : nat; st_min : list Q; st_counts : list nat }.
Definition new_stat : stat := Stat 0 0 (replicate 255 dbl_max) (replicate 255 0).
(** TraversabilityGrid.hpp:84-90; indexing a vector beyond its size is undefined *)
Definition qmin (a b : Q) : Q := if Qlt_le_dec b a then b else a.
Definition add_measurement (klass : nat) (d : Q) (s : stat) : out stat stat :=
  match st_min s !! klass, st_counts s !! klass with
  | Some m, Some c => Ok (Stat (S (st_total s)) (st_high s `max` klass) (<[klass := qmin d m]> (st_min s)) (<[klass := S c]> (st_counts s)))
  | _, _ => Bad UB
  end.
(** TraversabilityGrid.hpp:92-96 *)
Definition stat_for_class (klass : nat) (s : stat) : out stat (Q * nat) :=
  match st_min s !! klass, st_counts s !! klass with Some m, Some c => Ok (m, c) | _, _ => Bad UB end.
Definition add_all (l : list (nat * Q)) (s : stat) : out stat stat := iter_out (fun e s => add_measurement e.1 e.2 s) l s.

(** ** C37 *)
Definition dists (k : nat) (l : list (nat * Q)) : list Q := (filter (fun e => e.1 = k) l).*2.
(** [m] is the minimum of the distances, or the largest double if there are none (or all of them are larger) *)
Definition least (m : Q) (ds : list Q) : Prop := (forall d, d ∈ ds -> m <= d)%Q /\ (m <= dbl_max)%Q /\ (m ∈ ds \/ m = dbl_max).
Definition accurate (l : list (nat * Q)) (s : stat) : Prop :=
  st_total s = length l /\
  ((forall e, e ∈ l -> e.1 <= st_high s) /\ (l = [] /\ st_high s = 0 \/ exists d, (st_high s, d) ∈ l)) /\
  forall k, k < 255 -> exists m c, stat_for_class k s = Ok (m, c) /\ c = length (dists k l) /\ least m (dists k l).

Lemma qmin_spec a b : (qmin a b <= a /\ qmin a b <= b)%Q /\ (qmin a b = a \/ qmin a b = b).
Proof.
  unfold qmin. destruct (Qlt_le_dec b a) as [H|H].
  - split; [|by right]. split; [by apply Qlt_le_weak|apply Qle_refl].
  - split; [|by left]. split; [apply Qle_refl|done].
Qed.
Lemma dists_snoc k l e d : dists k (l ++ [(e, d)]) = if decide (e = k) then dists k l ++ [d] else dists k l.
Proof.
  unfold dists. rewrite filter_app, fmap_app. destruct (decide (e = k)) as [->|Hne].
  - rewrite filter_cons_True by done. done.
  - rewrite filter_cons_False by done. cbn. by rewrite app_nil_r.
Qed.
Lemma add_accurate l s k d : k < 255 -> accurate l s -> exists s', add_measurement k d s = Ok s' /\ accurate (l ++ [(k, d)]) s'.
Proof.
  intros Hk (Ht & (Hh1 & Hh2) & Hc). destruct (Hc k Hk) as (m & c & Hs & -> & Hm1 & Hm2 & Hm3).
  unfold stat_for_class in Hs. unfold add_measurement.
  destruct (st_min s !! k) as [m'|] eqn:Em; [|done]. destruct (st_counts s !! k) as [c'|] eqn:Ec; [|done]. injection Hs as -> ->.
  eexists. split; [reflexivity|]. split; [cbn; rewrite app_length; cbn; lia|]. split.
  { cbn [st_high]. split.
    - intros e He. apply elem_of_app in He as [He|He]; [specialize (Hh1 e He); lia|]. apply elem_of_list_singleton in He as ->. cbn. lia.
    - right. destruct (decide (k <= st_high s)) as [Hle|Hgt].
      + rewrite Nat.max_l by done. destruct Hh2 as [[-> Hz]|[d' Hd]].
        * exists d. assert (k = st_high s) as <- by lia. set_solver.
        * exists d'. set_solver.
      + rewrite Nat.max_r by lia. exists d. set_solver. }
  intros k' Hk'. unfold stat_for_class. cbn [st_min st_counts]. destruct (decide (k = k')) as [<-|Hne].
  - rewrite list_lookup_insert by (by eapply lookup_lt_Some). rewrite list_lookup_insert by (by eapply lookup_lt_Some).
    eexists _, _. split; [reflexivity|]. rewrite dists_snoc, decide_True by done. split; [rewrite app_length; cbn; lia|].
    destruct (qmin_spec d m) as [[H1 H2] H3]. split; [|split].
    + intros d' Hd. apply elem_of_app in Hd as [Hd|Hd]; [apply Qle_trans with m; [done|by apply Hm1]|]. apply elem_of_list_singleton in Hd as ->. done.
    + by apply Qle_trans with m.
    + destruct H3 as [->| ->]; [left; set_solver|]. destruct Hm3; [left; set_solver|by right].
  - rewrite !list_lookup_insert_ne by done. destruct (Hc k' Hk') as (m2 & c2 & Hs & H2). unfold stat_for_class in Hs.
    exists m2, c2. split; [done|]. by rewrite dists_snoc, decide_False by done.
Qed.
Lemma new_accurate : accurate [] new_stat.
Proof.
  split; [done|]. split; [split; [set_solver|by left]|]. intros k Hk. exists dbl_max, 0. unfold stat_for_class, new_stat. cbn [st_min st_counts].
  rewrite !lookup_replicate_2 by done. split; [done|]. split; [done|]. split; [set_solver|]. split; [apply Qle_refl|by right].
Qed.
(** after any sequence of measurements with classes below 255 every number is exact *)
Theorem C37_statistics l : (forall e, e ∈ l -> e.1 < 255) -> exists s, add_all l new_stat = Ok s /\ accurate l s.
Proof.
  assert (Hgen : forall l2 l1 s, accurate l1 s -> (forall e, e ∈ l2 -> e.1 < 255) -> exists s', add_all l2 s = Ok s' /\ accurate (l1 ++ l2) s').
  { induction l2 as [|[k d] l2 IH]; intros l1 s Hs Hl.
    - exists s. split; [done|]. by rewrite app_nil_r.
    - destruct (add_accurate l1 s k d) as (s1 & H1 & H2); [apply (Hl (k, d)); set_solver|done|].
      destruct (IH (l1 ++ [(k, d)]) s1 H2) as (s2 & H3 & H4); [set_solver|].
      exists s2. unfold add_all in *. cbn [iter_out fst snd]. rewrite H1. cbn [obind]. split; [done|]. by rewrite <- app_assoc in H4. }
  intros Hl. apply (Hgen l [] new_stat new_accurate Hl).
Qed.
Example C37_nonvacuous : exists l, (forall e, e ∈ l -> e.1 < 255) /\ l = [(3, 2%Q); (1, 1%Q); (3, (1#2)%Q)] /\
  exists s, add_all l new_stat = Ok s /\ st_total s = 3 /\ st_high s = 3 /\ stat_for_class 3 s = Ok ((1#2)%Q, 2).
Proof.
  eexists. split; [|split; [reflexivity|]].
  - intros e He. repeat (apply elem_of_cons in He as [->|He]; [cbn; lia|]). by apply elem_of_nil in He.
  - destruct (add_all [(3, 2%Q); (1, 1%Q); (3, (1#2)%Q)] new_stat) as [s| | |] eqn:E; vm_compute in E; try done.
    exists s. split; [done|]. injection E as <-. done.
Qed.
(** a cell with the class 255 leads to a write behind the vectors *)
Theorem C37_class_255_refuted l s d : (forall e, e ∈ l -> e.1 < 255) -> add_all l new_stat = Ok s -> add_measurement 255 d s = Bad UB.
Proof.
  intros Hl Hs. assert (Hlen : length (st_min s) = 255).
  { assert (Hg : forall l s s', add_all l s = Ok s' -> length (st_min s') = length (st_min s)).
    { clear. induction l as [|[k d] l IH]; intros s s'; unfold add_all in *; cbn [iter_out]; [by intros [= <-]|].
      unfold add_measurement at 1. cbn [fst snd]. destruct (st_min s !! k); [|done]. destruct (st_counts s !! k); [|done]. cbn [obind].
      intros H. apply IH in H. rewrite H. cbn. apply insert_length. }
    apply Hg in Hs. rewrite Hs. unfold new_stat. cbn [st_min]. apply replicate_length. }
  unfold add_measurement. rewrite (lookup_ge_None_2 (st_min s) 255) by lia. done.
Qed.

(** * C57: the worst class in a rectangle
    TraversabilityGrid.cpp:97-139, for the statistic [s] of the rectangle; the loop over the classes [i, i + n) *)
Fixpoint worst_loop (l : list tclass) (s : stat) (i n : nat) (cur : option tclass) : out unit (option tclass) :=
  match n with
  | O => Ok cur
  | S n =>
    match stat_for_class i s with
    | Ok (_, O) => worst_loop l s (S i) n cur
    | Ok (_, S _) =>
      match get_class i l with
      | Ok k =>
        if match cur with None => true | Some k0 => if Qlt_le_dec (drivability k) (drivability k0) then true else false end
        then if traversable k then worst_loop l s (S i) n (Some k) else Ok (Some k)
        else worst_loop l s (S i) n cur
      | _ => Throw ()
      end
    | _ => Bad UB
    end
  end.
Definition worst_class (l : list tclass) (s : stat) : out unit tclass :=
  c <~ worst_loop l s 0 (S (st_high s)) None ;; match c with Some k => Ok k | None => Throw () end.

Lemma not_traversable_least k : traversable k = false -> drivability k = 0%Q \/ (drivability k == 0)%Q.
Proof.
  unfold traversable, drivability. destruct (Qlt_le_dec 0 k); [done|]. intros _. destruct (Qlt_le_dec k 0); [by left|]. right. by apply Qle_antisym.
Qed.
Lemma drivability_nonneg k : (0 <= drivability k)%Q.
Proof. unfold drivability. destruct (Qlt_le_dec k 0); [apply Qle_refl|done]. Qed.
Lemma worst_loop_spec cl s ms : accurate ms s -> (forall e, e ∈ ms -> e.1 < 255 /\ exists k, known e.1 k cl) ->
  forall n i cur, i + n = S (st_high s) ->
  (match cur with None => forall e, e ∈ ms -> i <= e.1
                | Some k => (exists e, e ∈ ms /\ known e.1 k cl) /\ forall e k', e ∈ ms -> e.1 < i -> known e.1 k' cl -> (drivability k <= drivability k')%Q end) ->
  exists r, worst_loop cl s i n cur = Ok r /\
    match r with None => ms = [] | Some k => (exists e, e ∈ ms /\ known e.1 k cl) /\ forall e k', e ∈ ms -> known e.1 k' cl -> (drivability k <= drivability k')%Q end.
Proof.
  intros (Ht & (Hh1 & Hh2) & Hc) Hms. induction n as [|n IH]; intros i cur Hi Hcur.
  { exists cur. split; [done|]. destruct cur as [k|].
    - destruct Hcur as [He Hmin]. split; [done|]. intros e k' Hin. apply Hmin; [done|]. specialize (Hh1 e Hin). lia.
    - destruct ms as [|e ms]; [done|]. specialize (Hcur e ltac:(set_solver)). specialize (Hh1 e ltac:(set_solver)). lia. }
  cbn [worst_loop].
  assert (i < 255) as Hi255.
  { destruct Hh2 as [[_ Hz]|[d Hd]]; [lia|]. destruct (Hms _ Hd) as [H _]. cbn in H. lia. }
  destruct (Hc i Hi255) as (m & c & Hs & -> & _). rewrite Hs.
  assert (Hin : forall e, e ∈ ms -> e.1 = i -> exists d, d ∈ dists i ms).
  { intros [k d] He Hk. cbn in Hk. subst k. exists d. unfold dists. apply elem_of_list_fmap. exists (i, d). split; [done|]. by apply elem_of_list_filter. }
  destruct (length (dists i ms)) as [|c'] eqn:El.
  - apply IH; [lia|]. assert (Hno : forall e, e ∈ ms -> e.1 <> i).
    { intros e He Hk. destruct (Hin e He Hk) as [d Hd]. destruct (dists i ms); [by apply elem_of_nil in Hd|done]. }
    destruct cur as [k|].
    + destruct Hcur as [He Hmin]. split; [done|]. intros e k' Hin' Hlt. apply Hmin; [done|]. specialize (Hno e Hin'). lia.
    + intros e Hin'. specialize (Hcur e Hin'). specialize (Hno e Hin'). lia.
  - destruct (dists i ms) as [|d ds] eqn:Ed; [done|].
    assert (exists e, e ∈ ms /\ e.1 = i) as (e & He & Hei).
    { assert (d ∈ dists i ms) as Hd by (rewrite Ed; set_solver). unfold dists in Hd. apply elem_of_list_fmap in Hd as (e & _ & He).
      apply elem_of_list_filter in He as [H1 H2]. by exists e. }
    destruct (Hms e He) as (_ & k & Hk). rewrite Hei in Hk. unfold known in Hk. rewrite Hk.
    assert (Huniq : forall k', known i k' cl -> k' = k). { intros k'. unfold known. rewrite Hk. by intros [= ->]. }
    set (better := match cur with None => true | Some k0 => if Qlt_le_dec (drivability k) (drivability k0) then true else false end).
    destruct better eqn:Eb.
    + destruct (traversable k) eqn:Etr.
      * apply IH; [lia|]. split; [exists e; by rewrite Hei|]. intros e' k' He' Hlt Hk'. destruct (decide (e'.1 = i)) as [Heq|Hne].
        { rewrite Heq in Hk'. rewrite (Huniq k' Hk'). apply Qle_refl. }
        subst better. destruct cur as [k0|].
        -- destruct Hcur as [_ Hmin]. destruct (Qlt_le_dec (drivability k) (drivability k0)) as [Hlt'|]; [|done].
           apply Qle_trans with (drivability k0); [by apply Qlt_le_weak|]. apply (Hmin e'); [done|lia|done].
        -- specialize (Hcur e' He'). lia.
      * exists (Some k). split; [done|]. split; [exists e; by rewrite Hei|]. intros e' k' _ _.
        pose proof (drivability_nonneg k'). destruct (not_traversable_least k Etr) as [->|Hz]; [done|]. by rewrite Hz.
    + apply IH; [lia|]. subst better. destruct cur as [k0|]; [|done]. destruct (Qlt_le_dec (drivability k) (drivability k0)) as [|Hle]; [done|].
      destruct Hcur as [He0 Hmin]. split; [done|]. intros e' k' He' Hlt Hk'. destruct (decide (e'.1 = i)) as [Heq|Hne].
      * rewrite Heq in Hk'. by rewrite (Huniq k' Hk').
      * apply (Hmin e'); [done|lia|done].
Qed.
(** If the rectangle covers a cell and all classes in it are registered, the answer is a class of a covered cell and no covered cell has
    a class of a smaller drivability; if it covers no cell, an exception is thrown. *)
Theorem C57_worst_class cl ms s : registry cl -> (forall e, e ∈ ms -> e.1 < 255 /\ exists k, known e.1 k cl) -> add_all ms new_stat = Ok s ->
  (ms <> [] -> exists k, worst_class cl s = Ok k /\ (exists e, e ∈ ms /\ known e.1 k cl) /\
    forall e k', e ∈ ms -> known e.1 k' cl -> (drivability k <= drivability k')%Q) /\
  (ms = [] -> worst_class cl s = Throw ()).
Proof.
  intros _ Hms Hs. destruct (C37_statistics ms) as (s' & Hs' & Hacc); [intros e He; by apply Hms|].
  rewrite Hs in Hs'. injection Hs' as <-.
  destruct (worst_loop_spec cl s ms Hacc Hms (S (st_high s)) 0 None) as (r & Hr & Hspec); [lia|intros; lia|].
  unfold worst_class. rewrite Hr. cbn [obind]. split.
  - intros Hne. destruct r as [k|]; [|done]. by exists k.
  - intros ->. destruct r as [k|]; [|done]. destruct Hspec as [(e & He & _) _]. by apply elem_of_nil in He.
Qed.
Example C57_nonvacuous : exists cl ms, registry cl /\ (forall e, e ∈ ms -> e.1 < 255 /\ exists k, known e.1 k cl) /\ length ms = 3 /\
  exists s, add_all ms new_stat = Ok s /\ worst_class cl s = Ok (1#4)%Q.
Proof.
  exists (rapply (RRegister (1#4)%Q) (rapply (RRegister (1#2)%Q) [])), [(1, 1%Q); (3, 2%Q); (1, 0%Q)].
  split. { repeat first [apply registry_new|apply registry_step; [|cbn; lia]]. }
  split. { intros e He. repeat (apply elem_of_cons in He as [->|He]; [split; [cbn; lia|eexists; reflexivity]|]). by apply elem_of_nil in He. }
  split; [done|]. destruct (add_all [(1, 1%Q); (3, 2%Q); (1, 0%Q)] new_stat) as [s| | |] eqn:E; vm_compute in E; try done.
  exists s. split; [done|]. injection E as <-. vm_compute. done.
Qed.

(** * FoldOperator *)
Lemma NoDup_bind {A B} (f : A -> list B) l : (forall x1 x2 y, x1 ∈ l -> x2 ∈ l -> y ∈ f x1 -> y ∈ f x2 -> x1 = x2) ->
  (forall x, x ∈ l -> NoDup (f x)) -> NoDup l -> NoDup (l ≫= f).
Proof.
  intros Hinj Hf Hl. induction Hl as [|x l Hx Hl IH]; [constructor|]. rewrite bind_cons. apply NoDup_app. split; [apply Hf; left|]. split.
  - intros y Hy Hy'. apply elem_of_list_bind in Hy' as (x' & Hy' & Hx'). apply Hx. rewrite (Hinj x x' y); [done|left|by right|done|done].
  - apply IH; [intros x1 x2 y H1 H2; apply Hinj; by right|]. intros x' Hx'. apply Hf. by right.
Qed.
From Verif Require Import Bresenham.
Local Open Scope Z_scope.
Section Fold.
  (** the size of the input grid and its cells, first index y *)
  Context (w h : Z) (input : Z -> Z -> Q).
  (** reading boost::multi_array outside of its extents is undefined *)
  Definition read (y x : Z) : out unit Q := if decide (0 <= x < w /\ 0 <= y < h) then Ok (input y x) else Bad UB.
  (** Fold.hpp:34 *)
  Definition n_half (n : Z) : Z := (n + 1) / 2.
  Definition window (n : Z) : list (Z * Z) :=
    y ← seqZ (- n_half n) (2 * n_half n); x ← seqZ (- n_half n) (2 * n_half n); [(y, x)].
  (** Fold.hpp:39-49: the variables cnt and sum *)
  Definition fold_one (xs ys : Z) (o : Z * Z) (acc : Z * Q) : out (Z * Q) (Z * Q) :=
    let xr := to_size (xs + o.2) in let yr := to_size (ys + o.1) in
    if decide (w < xr \/ h < yr) then Ok acc
    else match read yr xr with Ok v => Ok (acc.1 + 1, (acc.2 + v)%Q) | _ => Bad UB end.
  (** Fold.hpp:30-56 *)
  Definition fold_cell (n xs ys : Z) : out (Z * Q) Q :=
    r <~ iter_out (fold_one xs ys) (window n) (0, 0%Q) ;;
    Ok (if decide (r.1 = 0) then r.2 else (r.2 / inject_Z r.1)%Q).
  (** Fold.hpp:75-83; the output grid is not the input grid *)
  Definition cells : list (Z * Z) := y ← seqZ 0 h; x ← seqZ 0 w; [(y, x)].
  Definition fold_all (n : Z) : out (Z * Q) (list ((Z * Z) * Q)) :=
    foldr (fun c r => v <~ fold_cell n c.2 c.1 ;; l <~ r ;; Ok ((c, v) :: l)) (Ok []) cells.

  (** ** specification: the cells in the window of a cell, their mean *)
  Definition in_window (n x y x' y' : Z) : Prop := let k := (n + 1) / 2 in - k <= x' - x < k /\ - k <= y' - y < k.
  Definition a_cell (x y : Z) : Prop := 0 <= x < w /\ 0 <= y < h.
  Definition qsum (l : list Q) : Q := foldr Qplus 0%Q l.
  (** [m] is the mean of the input over the cells in the window *)
  Definition window_mean (n x y : Z) (m : Q) : Prop := exists l : list (Z * Z), NoDup l /\
    (forall x' y', (y', x') ∈ l <-> in_window n x y x' y' /\ a_cell x' y') /\
    (m * inject_Z (Z.of_nat (length l)) == qsum ((fun c => input c.1 c.2) <$> l))%Q /\ (l = [] -> m == 0)%Q.

  Lemma elem_of_window n o : o ∈ window n <-> - n_half n <= o.1 < n_half n /\ - n_half n <= o.2 < n_half n.
  Proof.
    unfold window. destruct o as [y x]. rewrite elem_of_list_bind. setoid_rewrite elem_of_list_bind. setoid_rewrite elem_of_list_singleton.
    setoid_rewrite elem_of_seqZ. cbn. split.
    - intros (y' & (x' & [= -> ->] & Hx) & Hy). lia.
    - intros [Hy Hx]. exists y. split; [|lia]. exists x. split; [done|lia].
  Qed.
  Lemma NoDup_window n : NoDup (window n).
  Proof.
    unfold window. apply NoDup_bind; [| |apply NoDup_seqZ].
    - intros y1 y2 o _ _ H1 H2. apply elem_of_list_bind in H1 as (? & H1 & _), H2 as (? & H2 & _).
      apply elem_of_list_singleton in H1 as ->. apply elem_of_list_singleton in H2. congruence.
    - intros y _. apply NoDup_bind; [| |apply NoDup_seqZ].
      + intros x1 x2 o _ _ H1 H2. apply elem_of_list_singleton in H1 as ->. apply elem_of_list_singleton in H2. congruence.
      + intros x _. apply NoDup_singleton.
  Qed.
  Lemma elem_of_cells c : c ∈ cells <-> a_cell c.2 c.1.
  Proof.
    unfold cells, a_cell. destruct c as [y x]. rewrite elem_of_list_bind. setoid_rewrite elem_of_list_bind. setoid_rewrite elem_of_list_singleton.
    setoid_rewrite elem_of_seqZ. cbn. split.
    - intros (y' & (x' & [= -> ->] & Hx) & Hy). lia.
    - intros [Hx Hy]. exists y. split; [|lia]. exists x. split; [done|lia].
  Qed.
  (** sizes that fit into memory, and a window size that fits into int *)
  Definition bounded (n : Z) : Prop := 0 <= w < 2 ^ 62 /\ 0 <= h < 2 ^ 62 /\ 0 <= n < 2 ^ 31.
  Lemma to_size_off x o n : bounded n -> 0 <= x < 2 ^ 62 -> - n_half n <= o < n_half n ->
    (x + o < 0 -> 2 ^ 62 < to_size (x + o)) /\ (0 <= x + o -> to_size (x + o) = x + o).
  Proof.
    intros (Hw & Hh & Hn) Hx Ho. assert (Hhalf : 0 <= n_half n <= 2 ^ 31).
    { unfold n_half. split; [apply Z.div_pos; lia|]. apply Z.div_le_upper_bound; lia. }
    unfold to_size. change 18446744073709551616 with (2 ^ 64). split; intros Hs.
    - rewrite <- (Z_mod_plus_full _ 1 (2 ^ 64)). rewrite Z.mod_small; lia.
    - apply Z.mod_small. lia.
  Qed.
  Lemma fold_one_cases n xs ys o acc : bounded n -> a_cell xs ys -> o ∈ window n ->
    (a_cell (xs + o.2) (ys + o.1) /\ fold_one xs ys o acc = Ok (acc.1 + 1, (acc.2 + input (ys + o.1) (xs + o.2))%Q)) \/
    (~ a_cell (xs + o.2) (ys + o.1) /\ fold_one xs ys o acc = Ok acc /\ (xs + o.2 < 0 \/ w < xs + o.2 \/ ys + o.1 < 0 \/ h < ys + o.1)) \/
    (0 <= xs + o.2 <= w /\ 0 <= ys + o.1 <= h /\ (xs + o.2 = w \/ ys + o.1 = h) /\ fold_one xs ys o acc = Bad UB).
  Proof.
    intros Hb [Hx Hy] Ho. apply elem_of_window in Ho as [Ho1 Ho2]. destruct Hb as (Hw & Hh & Hn) eqn:Eb. clear Eb.
    destruct (to_size_off xs o.2 n) as [Hx1 Hx2]; [done|lia|done|]. destruct (to_size_off ys o.1 n) as [Hy1 Hy2]; [done|lia|done|].
    unfold fold_one. cbn zeta. destruct (decide (xs + o.2 < 0)) as [Hxn|Hxp].
    { right. left. split; [unfold a_cell; lia|]. rewrite decide_True by (specialize (Hx1 Hxn); lia). split; [done|lia]. }
    destruct (decide (ys + o.1 < 0)) as [Hyn|Hyp].
    { right. left. split; [unfold a_cell; lia|]. rewrite decide_True by (specialize (Hy1 Hyn); lia). split; [done|lia]. }
    rewrite Hx2, Hy2 by lia. destruct (decide (w < xs + o.2 \/ h < ys + o.1)) as [Hout|Hin].
    { right. left. split; [unfold a_cell; lia|]. split; [done|lia]. }
    unfold read. destruct (decide (0 <= xs + o.2 < w /\ 0 <= ys + o.1 < h)) as [Hc|Hc].
    - left. split; [done|]. done.
    - right. right. split; [lia|]. split; [lia|]. split; [lia|]. done.
  Qed.

  (** C43 holds for the window sizes 0, 1 and 2 *)
  Theorem C43_mean n : bounded n -> n <= 2 -> exists l, fold_all n = Ok l /\ l.*1 = cells /\
    forall x y m, ((y, x), m) ∈ l -> window_mean n x y m.
  Proof.
    intros Hb Hn2. assert (Hhalf : n_half n <= 1). { unfold n_half. apply Z.lt_succ_r, Z.div_lt_upper_bound; lia. }
    assert (Hcell : forall x y, a_cell x y -> exists m, fold_cell n x y = Ok m /\ window_mean n x y m).
    { intros x y Hc. unfold fold_cell.
      assert (Hloop : forall os acc, (forall o, o ∈ os -> o ∈ window n) ->
        iter_out (fold_one x y) os acc = Ok (let l := filter (fun o => a_cell (x + o.2) (y + o.1)) os in
          (acc.1 + Z.of_nat (length l), foldl (fun a o => a + input (y + o.1) (x + o.2))%Q acc.2 l))).
      { induction os as [|o os IH]; intros acc Hos.
        - cbn. rewrite Z.add_0_r. by destruct acc.
        - cbn [iter_out]. assert (o ∈ window n) as Ho by (apply Hos; set_solver). pose proof Ho as Ho'. apply elem_of_window in Ho'.
          destruct (fold_one_cases n x y o acc Hb Hc Ho) as [[Hin ->]|[(Hout & -> & _)|(H1 & H2 & H3 & _)]]; cbn [obind].
          + rewrite IH by set_solver. cbn zeta. rewrite filter_cons_True by done. cbn [length foldl fst snd]. f_equal. f_equal. lia.
          + rewrite IH by set_solver. cbn zeta. by rewrite filter_cons_False by done.
          + unfold a_cell in Hc. lia. }
      rewrite Hloop by done. cbn [obind fst snd]. cbn zeta. set (l := filter _ (window n)).
      eexists. split; [reflexivity|]. exists ((fun o => (y + o.1, x + o.2)) <$> l). split; [|split; [|split]].
      - apply NoDup_fmap_2; [intros [] []; cbn; intros [= ? ?]; f_equal; lia|]. apply NoDup_filter, NoDup_window.
      - intros x' y'. rewrite elem_of_list_fmap. unfold in_window. cbv zeta. change ((n + 1) / 2) with (n_half n). split.
        + intros (o & [= -> ->] & Ho). apply elem_of_list_filter in Ho as [H1 H2]. apply elem_of_window in H2. split; [lia|done].
        + intros [Hw Hc']. exists (y' - y, x' - x). cbn. split; [f_equal; lia|]. apply elem_of_list_filter. cbn.
          split; [by replace (x + (x' - x)) with x' by lia; replace (y + (y' - y)) with y' by lia|].
          apply elem_of_window. cbn. lia.
      - rewrite fmap_length, <- list_fmap_compose. cbn. rewrite Z.add_0_l.
        assert (Hsum : forall k a, (foldl (fun a o => a + input (y + o.1) (x + o.2)) a k == a + qsum ((fun o => input (y + o.1) (x + o.2)) <$> k))%Q).
        { induction k as [|o k IH]; intros a; [unfold qsum; cbn [foldl foldr fmap list_fmap]; ring|]. rewrite fmap_cons.
          cbn [foldl]. rewrite IH. unfold qsum. cbn [foldr]. ring. }
        change (((λ c : Z * Z, input c.1 c.2) ∘ (λ o : Z * Z, (y + o.1, x + o.2)%Z))) with (fun o : Z * Z => input (y + o.1) (x + o.2)).
        destruct (decide (Z.of_nat (length l) = 0)) as [Hz|Hnz].
        + destruct l; [cbn; ring|cbn in Hz; lia].
        + rewrite Hsum. field. intros Hq. apply Hnz. unfold Qeq in Hq. cbn in Hq. lia.
      - intros Hnil. apply fmap_nil_inv in Hnil. rewrite Hnil. cbn. reflexivity. }
    assert (Hall : forall cs, (forall c, c ∈ cs -> a_cell c.2 c.1) ->
      exists l, foldr (fun c r => v <~ fold_cell n c.2 c.1 ;; l <~ r ;; Ok ((c, v) :: l)) (Ok []) cs = Ok l /\ l.*1 = cs /\
        forall x y m, ((y, x), m) ∈ l -> window_mean n x y m).
    { induction cs as [|[y x] cs IH]; intros Hcs; [exists []; split; [done|split; [done|set_solver]]|].
      destruct (Hcell x y) as (m & Hm & Hmean); [apply (Hcs (y, x)); set_solver|].
      destruct IH as (l & Hl & Hl1 & Hl2); [set_solver|]. cbn [foldr fst snd]. rewrite Hm. cbn [obind]. rewrite Hl. cbn [obind].
      eexists. split; [reflexivity|]. split; [cbn; by rewrite Hl1|]. intros x' y' m'. rewrite elem_of_cons. intros [[= -> -> ->]|Hin]; [done|by apply Hl2]. }
    apply Hall. intros c. apply elem_of_cells.
  Qed.
  (** and for every larger window there is an access outside of the grid, whatever the size of the grid *)
  Theorem C43_refuted n : bounded n -> 3 <= n -> 0 < w -> 0 < h -> fold_all n = Bad UB.
  Proof.
    intros Hb Hn Hw0 Hh0. assert (Hhalf : 2 <= n_half n). { unfold n_half. apply Z.div_le_lower_bound; lia. }
    assert (Hloop : forall x y os acc, a_cell x y -> (forall o, o ∈ os -> o ∈ window n) ->
      (exists r, iter_out (fold_one x y) os acc = Ok r) \/ iter_out (fold_one x y) os acc = Bad UB).
    { intros x y os acc Hc. revert acc. induction os as [|o os IH]; intros acc Hos; [left; by eexists|]. cbn [iter_out].
      destruct (fold_one_cases n x y o acc Hb Hc) as [[_ ->]|[(_ & -> & _)|(_ & _ & _ & ->)]]; [apply Hos; set_solver| | |]; cbn [obind].
      - apply IH. set_solver.
      - apply IH. set_solver.
      - by right. }
    assert (Hbad : forall x y os acc o, a_cell x y -> (forall o, o ∈ os -> o ∈ window n) -> o ∈ os ->
      (forall acc, fold_one x y o acc = Bad UB) -> iter_out (fold_one x y) os acc = Bad UB).
    { intros x y os acc o Hc. revert acc. induction os as [|o' os IH]; intros acc Hos Hin Ho; [by apply elem_of_nil in Hin|]. cbn [iter_out].
      apply elem_of_cons in Hin as [<-|Hin]; [by rewrite Ho|].
      destruct (fold_one_cases n x y o' acc Hb Hc) as [[_ ->]|[(_ & -> & _)|(_ & _ & _ & ->)]]; [apply Hos; set_solver| | |]; cbn [obind]; [apply IH; [set_solver|done|done]..|done]. }
    assert (Hcell : forall x y, a_cell x y -> (exists m, fold_cell n x y = Ok m) \/ fold_cell n x y = Bad UB).
    { intros x y Hc. unfold fold_cell. destruct (Hloop x y (window n) (0, 0%Q) Hc ltac:(done)) as [[r ->]| ->]; cbn [obind]; eauto. }
    assert (Hlast : fold_cell n (w - 1) (h - 1) = Bad UB).
    { unfold fold_cell. rewrite (Hbad (w - 1) (h - 1) _ _ (0, 1)); [done|unfold a_cell; lia|done|apply elem_of_window; cbn; lia|].
      intros acc. destruct (fold_one_cases n (w - 1) (h - 1) (0, 1) acc Hb) as [[Hc _]|[(_ & _ & Hc)|(_ & _ & _ & H)]]; [unfold a_cell; lia|apply elem_of_window; cbn; lia| | |done].
      - exfalso. unfold a_cell in Hc. cbn in Hc. lia.
      - exfalso. cbn in Hc. lia. }
    assert (Hall : forall cs, (forall c, c ∈ cs -> a_cell c.2 c.1) ->
      let r := foldr (fun c r => v <~ fold_cell n c.2 c.1 ;; l <~ r ;; Ok ((c, v) :: l)) (Ok []) cs in
      ((exists l, r = Ok l) \/ r = Bad UB) /\ ((h - 1, w - 1) ∈ cs -> r = Bad UB)).
    { induction cs as [|[y x] cs IH]; intros Hcs; [split; [left; by eexists|intros H; by apply elem_of_nil in H]|].
      destruct IH as [IH1 IH2]; [set_solver|]. cbn [foldr fst snd] in *. cbn zeta in *.
      destruct (Hcell x y) as [[m Hm]|Hm]; [apply (Hcs (y, x)); set_solver| |].
      - rewrite Hm. cbn [obind]. destruct IH1 as [[l IH1]|IH1].
        + rewrite IH1. cbn [obind]. split; [left; by eexists|]. rewrite elem_of_cons. intros [[= <- <-]|Hin]; [congruence|]. specialize (IH2 Hin). congruence.
        + rewrite IH1. cbn [obind]. split; [by right|done].
      - rewrite Hm. cbn [obind]. split; [by right|done]. }
    apply Hall; [intros c; apply elem_of_cells|]. apply elem_of_cells. unfold a_cell. cbn. lia.
  Qed.
End Fold.
Example C43_nonvacuous : bounded 3 2 2 /\ exists l, fold_all 3 2 (fun y x => inject_Z (10 * y + x)) 2 = Ok l /\ exists m, (((1, 2), m) ∈ l) /\ (m == 13 # 2)%Q.
Proof.
  split; [unfold bounded; lia|]. eexists. split; [vm_compute; reflexivity|]. eexists. split.
  { do 5 (apply elem_of_list_further). apply elem_of_list_here. }
  vm_compute. reflexivity.
Qed.
