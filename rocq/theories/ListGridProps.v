(** C46: every cell of a ListGrid behaves like a list. *)
From Coq Require Import ZArith Lia.
From stdpp Require Import prelude gmap.
From Verif Require Import Base ListGrid.

(** * Specification: a grid of lists

    An element is its handle (what an iterator holds) and its value.  [a_moved x y] says that the first element of the cell
    came there by [move] and nothing was put in front of it since. *)
Section Spec.
  Context {V : Type}.
  Record lists := Lists {
    a_w : nat; a_h : nat;
    a_cell : nat -> nat -> list (positive * V);
    a_moved : nat -> nat -> bool }.
  Definition upd {A} (x y : nat) (v : A) (f : nat -> nat -> A) : nat -> nat -> A :=
    fun x' y' => if decide (x' = x /\ y' = y) then v else f x' y'.
  Definition empty_lists (w h : nat) : lists := Lists w h (fun _ _ => []) (fun _ _ => false).
  (** the new element gets the handle [p] *)
  Definition aapply (p : positive) (o : lop V) (a : lists) : lists :=
    match o with
    | InsHead x y v =>
      Lists (a_w a) (a_h a) (upd x y ((p, v) :: a_cell a x y) (a_cell a)) (upd x y false (a_moved a))
    | InsTail x y v =>
      Lists (a_w a) (a_h a) (upd x y (a_cell a x y ++ [(p, v)]) (a_cell a))
            (upd x y (match a_cell a x y with [] => false | _ => a_moved a x y end) (a_moved a))
    | Erase q => Lists (a_w a) (a_h a) (fun x y => filter (fun e => e.1 <> q) (a_cell a x y)) (a_moved a)
    | SetVal q v =>
      Lists (a_w a) (a_h a) (fun x y => map (fun e => if decide (e.1 = q) then (q, v) else e) (a_cell a x y)) (a_moved a)
    | Clear => empty_lists (a_w a) (a_h a)
    | Resize w h => empty_lists w h
    | Move xd yd =>
      Lists (a_w a) (a_h a)
            (fun x y =>
               let ox := (Z.of_nat x - xd)%Z in let oy := (Z.of_nat y - yd)%Z in
               if decide (x < a_w a /\ y < a_h a /\ (0 <= ox)%Z /\ (0 <= oy)%Z)
               then a_cell a (Z.to_nat ox) (Z.to_nat oy) else [])
            (fun _ _ => true)
    end.
  (** the contract: cells exist, iterators are valid; the last clause is the exception that the code needs *)
  Definition alegal (o : lop V) (a : lists) : Prop :=
    match o with
    | InsHead x y _ | InsTail x y _ => x < a_w a /\ y < a_h a
    | Erase q => exists x y, q ∈ (a_cell a x y).*1 /\ (a_moved a x y = true -> head (a_cell a x y).*1 <> Some q)
    | SetVal q _ => exists x y, q ∈ (a_cell a x y).*1
    | Clear | Resize _ _ | Move _ _ => True
    end.
End Spec.
Arguments lists : clear implicits.

Lemma elem_of_coords w h x y : (x, y) ∈ coords w h <-> x < w /\ y < h.
Proof.
  unfold coords. rewrite elem_of_list_bind. split.
  - intros (x' & Hb & Hx). apply elem_of_list_bind in Hb as (y' & Hy & Hy'). apply elem_of_list_singleton in Hy.
    injection Hy as -> ->. rewrite elem_of_seq in *. lia.
  - intros [Hx Hy]. exists x. split; [|apply elem_of_seq; lia]. apply elem_of_list_bind. exists y.
    split; [set_solver|apply elem_of_seq; lia].
Qed.
Lemma NoDup_coords w h : NoDup (coords w h).
Proof.
  unfold coords. generalize 0 at 2 as s0. induction w as [|w IH]; intros s0; [constructor|].
  cbn. apply NoDup_app. split; [|split].
  - clear. generalize 0. induction h as [|h IH]; intros s; cbn; [constructor|]. constructor; [|apply IH].
    intros Hin. apply elem_of_list_bind in Hin as (y' & Hy & Hy'). apply elem_of_list_singleton in Hy.
    injection Hy as <-. apply elem_of_seq in Hy'. lia.
  - intros [a b] H1 H2. apply elem_of_list_bind in H1 as (y1 & Hy1 & _). apply elem_of_list_singleton in Hy1.
    injection Hy1 as -> ->. apply elem_of_list_bind in H2 as (x2 & H2 & Hx2).
    apply elem_of_list_bind in H2 as (y2 & Hy2 & _). apply elem_of_list_singleton in Hy2. injection Hy2 as -> ->.
    apply elem_of_seq in Hx2. lia.
  - apply IH.
Qed.

Section Refine.
  Context {V : Type}.
  Notation heap := (gmap positive (lnode V)) (only parsing).

  (** the pointer [o] leads through the nodes [l]; the back pointer of the first one is [s] if given *)
  Fixpoint seg (h : heap) (s : option slot) (o : option positive) (l : list (positive * V)) : Prop :=
    match l with
    | [] => o = None
    | (p, v) :: r =>
      o = Some p /\ exists nd, h !! p = Some nd /\ nd_val nd = v /\
        match s with Some s => nd_this nd = s | None => True end /\ seg h (Some (SNext p)) (nd_next nd) r
    end.
  Definition first_slot (a : lists V) (x y : nat) : option slot := if a_moved a x y then None else Some (SCell x y).
  Record Rel (g : grid V) (a : lists V) : Prop := MkRel {
    R_w : g_w g = a_w a;
    R_h : g_h g = a_h a;
    R_seg : forall x y, seg (g_heap g) (first_slot a x y) (g_cells g !! (x, y)) (a_cell a x y);
    R_range : forall x y, a_cell a x y <> [] -> x < a_w a /\ y < a_h a;
    R_nodup : forall x y, NoDup (a_cell a x y).*1;
    R_disj : forall x y x' y' p, p ∈ (a_cell a x y).*1 -> p ∈ (a_cell a x' y').*1 -> x = x' /\ y = y';
    R_dom : forall p, is_Some (g_heap g !! p) -> exists x y, p ∈ (a_cell a x y).*1
  }.

  Lemma seg_frame h h' s o l : (forall p, p ∈ l.*1 -> h' !! p = h !! p) -> seg h s o l -> seg h' s o l.
  Proof.
    revert s o. induction l as [|[p v] r IH]; intros s o Hf; [done|].
    intros [-> (nd & Hnd & Hv & Hs & Hr)]. split; [done|].
    exists nd. rewrite Hf; [|set_solver]. do 3 (split; [done|]). apply IH; [|done]. intros q Hq. apply Hf. set_solver.
  Qed.
  Lemma seg_weaken h s o l : seg h s o l -> seg h None o l.
  Proof. destruct l as [|[p v] r]; [done|]. intros [-> (nd & Hnd & Hv & Hs & Hr)]. split; [done|]. eauto 10. Qed.
  Lemma seg_live h s o l p : seg h s o l -> p ∈ l.*1 -> is_Some (h !! p).
  Proof.
    revert s o. induction l as [|[q v] r IH]; intros s o; [cbn; set_solver|].
    intros [-> (nd & Hnd & Hv & Hs & Hr)]. cbn. rewrite elem_of_cons. intros [->|Hp]; [eauto|]. by eapply IH.
  Qed.
  Lemma seg_size h s o l : seg h s o l -> NoDup l.*1 -> length l <= size h.
  Proof.
    intros Hs Hn. assert (list_to_set l.*1 ⊆ dom h) as Hsub.
    { intros p Hp. apply elem_of_list_to_set in Hp. apply elem_of_dom. by eapply seg_live. }
    apply subseteq_size in Hsub. rewrite size_list_to_set in Hsub; [|done]. rewrite fmap_length, size_dom in Hsub. done.
  Qed.
  Lemma seg_elements h w hh c s o l f :
    seg h s o l -> length l <= f -> elements f o (Grid w hh c h) = Ok l.
  Proof.
    revert s o f. induction l as [|[p v] r IH]; intros s o f; cbn.
    - intros -> _. by destruct f.
    - intros [-> (nd & Hnd & Hv & Hs & Hr)] Hf. destruct f as [|f]; [lia|]. cbn. rewrite Hnd.
      rewrite (IH _ _ f Hr) by lia. cbn. by subst v.
  Qed.

  (** iterating yields the list of the specification *)
  Theorem C46_iterate g a x y : Rel g a -> x < g_w g -> y < g_h g -> cell x y g = Ok (a_cell a x y).
  Proof.
    intros HR Hx Hy. unfold cell. rewrite decide_True by done. destruct g as [w h c hp].
    eapply seg_elements; [apply (R_seg _ _ HR)|]. apply Nat.le_le_succ_r.
    eapply seg_size; [apply (R_seg _ _ HR)|apply (R_nodup _ _ HR)].
  Qed.

  Lemma rel_empty w h : Rel (new_grid w h) (empty_lists w h).
  Proof.
    split; try done; cbn.
    - intros. constructor.
    - intros x y x' y' p Hp. set_solver.
    - intros p [nd Hnd]. rewrite lookup_empty in Hnd. done.
  Qed.

  Lemma upd_same {A} x y (v : A) f : upd x y v f x y = v.
  Proof. unfold upd. by rewrite decide_True. Qed.
  Lemma upd_other {A} x y (v : A) f x' y' : ~ (x' = x /\ y' = y) -> upd x y v f x' y' = f x' y'.
  Proof. intros. unfold upd. by rewrite decide_False. Qed.

  Lemma walk_ok hp s o l f z g :
    g_heap g = hp -> seg hp s o l -> length l <= f ->
    walk f o z g = Ok (match last l with Some e => Some e.1 | None => z end).
  Proof.
    intros Hg. revert s o f z. induction l as [|[p v] r IH]; intros s o f z; cbn -[last].
    - intros -> _. by destruct f.
    - intros [-> (nd & Hnd & Hv & Hs & Hr)] Hf. destruct f as [|f]; [lia|]. cbn -[last]. rewrite Hg, Hnd.
      rewrite (IH _ _ f _ Hr) by lia. rewrite last_cons. by destruct (last r).
  Qed.
  (** append a node behind a chain *)
  Lemma seg_snoc hp s o l q w p v :
    seg hp s o (l ++ [(q, w)]) -> NoDup (l ++ [(q, w)]).*1 -> p ∉ (l ++ [(q, w)]).*1 ->
    exists nd, hp !! q = Some nd /\
      seg (<[q := with_next nd (Some p)]> (<[p := Nd v None (SNext q)]> hp)) s o ((l ++ [(q, w)]) ++ [(p, v)]).
  Proof.
    revert s o. induction l as [|[p0 v0] r IH]; intros s o.
    - cbn. intros [-> (nd & Hnd & Hv & Hs & Hr)] Hn Hp. exists nd. split; [done|].
      split; [done|]. eexists. rewrite lookup_insert. do 3 (split; [done|]). cbn. split; [done|].
      eexists. rewrite lookup_insert_ne by set_solver. rewrite lookup_insert. done.
    - intros [-> (nd0 & Hnd & Hv & Hs & Hr)] Hn Hp. rewrite <- !app_comm_cons in *. cbn in Hn, Hp.
      apply NoDup_cons in Hn as [Hn0 Hn]. apply not_elem_of_cons in Hp as [Hp0 Hp].
      destruct (IH _ _ Hr Hn Hp) as (nd & Hq & Hseg). exists nd. split; [done|].
      split; [done|]. exists nd0. rewrite lookup_insert_ne.
      2:{ intros ->. apply Hn0. rewrite fmap_app. set_solver. }
      rewrite lookup_insert_ne by done. eauto.
  Qed.
  (** ** setting a value *)
  Lemma seg_set hp s o l q nd v :
    hp !! q = Some nd -> seg hp s o l ->
    seg (<[q := with_value nd v]> hp) s o (map (fun e => if decide (e.1 = q) then (q, v) else e) l).
  Proof.
    intros Hq. revert s o. induction l as [|[p w] r IH]; intros s o; [done|].
    intros [-> (nd0 & Hnd & Hv & Hs & Hr)]. cbn. destruct (decide (p = q)) as [->|Hne].
    - rewrite Hq in Hnd. injection Hnd as ->. split; [done|]. eexists. rewrite lookup_insert.
      do 3 (split; [done|]). by apply IH.
    - split; [done|]. exists nd0. rewrite lookup_insert_ne by done. do 3 (split; [done|]). by apply IH.
  Qed.
  Lemma map_set_fst (l : list (positive * V)) q v :
    (map (fun e => if decide (e.1 = q) then (q, v) else e) l).*1 = l.*1.
  Proof.
    induction l as [|[p w] r IH]; [done|]. cbn. f_equal; [|exact IH]. by destruct (decide (p = q)).
  Qed.
  Lemma set_value_ok q v g a :
    Rel g a -> (exists x y, q ∈ (a_cell a x y).*1) ->
    exists g', set_value q v g = Ok g' /\ Rel g' (aapply 1 (SetVal q v) a).
  Proof.
    intros HR (x & y & Hin). destruct (seg_live _ _ _ _ _ (R_seg _ _ HR x y) Hin) as [nd Hnd].
    unfold set_value, node_at. rewrite Hnd. eexists. split; [reflexivity|].
    split; cbn; try apply HR.
    - intros x' y'. apply seg_set; [done|]. apply (R_seg _ _ HR).
    - intros x' y' Hne. apply (R_range _ _ HR). intros Hl. apply Hne. by rewrite Hl.
    - intros x' y'. rewrite map_set_fst. apply (R_nodup _ _ HR).
    - intros x1 y1 x2 y2 p. rewrite !map_set_fst. apply (R_disj _ _ HR).
    - intros p Hp. destruct (decide (p = q)) as [->|Hne].
      + exists x, y. by rewrite map_set_fst.
      + rewrite lookup_insert_ne in Hp by done. destruct (R_dom _ _ HR p Hp) as (x' & y' & Hp').
        exists x', y'. by rewrite map_set_fst.
  Qed.

  (** ** erasing *)
  Lemma filter_id (l : list (positive * V)) q : q ∉ l.*1 -> filter (fun e => e.1 <> q) l = l.
  Proof.
    induction l as [|[p v] r IH]; [done|]. rewrite fmap_cons, not_elem_of_cons. cbn [fst]. intros [Hp Hr].
    rewrite filter_cons_True by (cbn; congruence). by rewrite IH.
  Qed.
  (** unlinking the node [q] in the middle of a chain *)
  Lemma seg_unlink hp s o l1 q w l2 nd :
    seg hp s o (l1 ++ (q, w) :: l2) -> NoDup (l1 ++ (q, w) :: l2).*1 -> hp !! q = Some nd ->
    (l1 = [] -> exists s0, s = Some s0) ->
    exists hp1,
      (** writing through the back pointer *)
      match l1 with
      | [] => s = Some (nd_this nd) /\ hp1 = hp
      | _ => exists p ndp, p <> q /\ p ∈ l1.*1 /\ nd_this nd = SNext p /\ hp !! p = Some ndp /\
                          hp1 = <[p := with_next ndp (nd_next nd)]> hp
      end /\
      hp1 !! q = Some nd /\
      match nd_next nd with
      | None => l2 = [] /\ seg (delete q hp1) s (match l1 with [] => None | _ => o end) (l1 ++ l2)
      | Some r => exists ndr, hp1 !! r = Some ndr /\ r ∈ l2.*1 /\
                    seg (delete q (<[r := with_this ndr (nd_this nd)]> hp1)) s (match l1 with [] => Some r | _ => o end) (l1 ++ l2)
      end.
  Proof.
    revert s o. induction l1 as [|[p0 v0] l1 IH]; intros s o Hs Hn Hq Hfirst.
    - destruct (Hfirst eq_refl) as [s0 ->]. cbn in *. destruct Hs as [-> (nd' & Hnd & Hv & Hst & Hr)].
      rewrite Hq in Hnd. injection Hnd as <-. exists hp. split; [by subst|]. split; [done|].
      apply NoDup_cons in Hn as [Hn0 Hn].
      destruct l2 as [|[r vr] l2]; cbn in Hr.
      + rewrite Hr. done.
      + destruct Hr as [-> (ndr & Hndr & Hvr & Hsr & Hrr)]. exists ndr. split; [done|].
        cbn in Hn0. rewrite not_elem_of_cons in Hn0. destruct Hn0 as [Hqr Hn0].
        cbn in Hn. apply NoDup_cons in Hn as [Hr Hn].
        split; [cbn; set_solver|]. split; [done|]. eexists. rewrite lookup_delete_ne by done. rewrite lookup_insert.
        do 2 (split; [done|]). cbn. split; [done|]. eapply seg_frame; [|exact Hrr].
        intros t Ht. rewrite lookup_delete_ne by (intros ->; done). by rewrite lookup_insert_ne by (intros ->; done).
    - cbn in Hs. destruct Hs as [-> (nd0 & Hnd0 & Hv0 & Hs0 & Hr)].
      rewrite <- app_comm_cons in Hn. cbn in Hn. apply NoDup_cons in Hn as [Hn0 Hn].
      assert (Hp0q : p0 <> q). { intros ->. apply Hn0. rewrite fmap_app. cbn. set_solver. }
      destruct (IH (Some (SNext p0)) (nd_next nd0) Hr Hn Hq ltac:(eauto)) as (hp1 & Hw & Hq1 & Hrest).
      destruct l1 as [|[p1 v1] l1].
      + destruct Hw as [Hsl ->]. injection Hsl as Hsl.
        exists (<[p0 := with_next nd0 (nd_next nd)]> hp). split.
        { exists p0, nd0. rewrite <- Hsl. repeat split; try done. set_solver. }
        split; [by rewrite lookup_insert_ne|].
        destruct (nd_next nd) as [r|].
        * destruct Hrest as (ndr & Hndr & Hrl & Hseg). assert (Hrp : r <> p0).
          { intros ->. apply Hn0. cbn. set_solver. }
          exists ndr. rewrite lookup_insert_ne by done. do 2 (split; [done|]). split; [done|].
          eexists. rewrite lookup_delete_ne by done. rewrite lookup_insert_ne by done. rewrite lookup_insert.
          do 3 (split; [done|]). cbn in *. eapply seg_frame; [|exact Hseg].
          intros t Ht. destruct (decide (t = q)) as [->|Htq]; [by rewrite !lookup_delete|].
          rewrite !(lookup_delete_ne _ q) by done. destruct (decide (t = r)) as [->|Htr]; [by rewrite !lookup_insert|].
          rewrite !(lookup_insert_ne _ r) by done. rewrite lookup_insert_ne; [done|].
          intros <-. apply Hn0. cbn. set_solver.
        * destruct Hrest as [-> Hseg]. split; [done|]. split; [done|].
          eexists. rewrite lookup_delete_ne by done. rewrite lookup_insert. do 3 (split; [done|]). cbn in *. done.
      + destruct Hw as (p & ndp & Hpq & Hpin & Hth & Hp & ->).
        assert (Hpp0 : p <> p0). { intros ->. apply Hn0. rewrite fmap_app. set_solver. }
        exists (<[p := with_next ndp (nd_next nd)]> hp). split.
        { exists p, ndp. repeat split; try done. set_solver. }
        split; [done|].
        destruct (nd_next nd) as [r|].
        * destruct Hrest as (ndr & Hndr & Hrl & Hseg). assert (Hrp : r <> p0).
          { intros ->. apply Hn0. rewrite fmap_app. cbn. set_solver. }
          exists ndr. do 2 (split; [done|]). split; [done|].
          eexists. rewrite lookup_delete_ne by done. rewrite lookup_insert_ne by done. rewrite lookup_insert_ne by done.
          split; [exact Hnd0|]. do 2 (split; [done|]). exact Hseg.
        * destruct Hrest as [-> Hseg]. split; [done|]. split; [done|].
          eexists. rewrite lookup_delete_ne by done. rewrite lookup_insert_ne by done.
          split; [exact Hnd0|]. do 2 (split; [done|]). exact Hseg.
  Qed.
  Context (alloc : gmap positive (lnode V) -> positive).
  Context (Hfresh : forall h, h !! alloc h = None).

  Lemma fresh_not_in g a x y : Rel g a -> alloc (g_heap g) ∉ (a_cell a x y).*1.
  Proof.
    intros HR Hin. destruct (seg_live _ _ _ _ _ (R_seg _ _ HR x y) Hin) as [nd Hnd]. by rewrite Hfresh in Hnd.
  Qed.
  Lemma insert_head_ok x y v g a :
    Rel g a -> x < a_w a -> y < a_h a ->
    exists g', insert_head alloc x y v g = Ok g' /\ Rel g' (aapply (alloc (g_heap g)) (InsHead x y v) a).
  Proof.
    intros HR Hx Hy. unfold insert_head. set (p := alloc (g_heap g)).
    rewrite decide_True by (split; [by rewrite (R_w _ _ HR)|by rewrite (R_h _ _ HR)]).
    assert (Hnew : forall x y, p ∉ (a_cell a x y).*1) by (intros; by eapply fresh_not_in).
    pose proof (R_seg _ _ HR x y) as Hs.
    assert (exists hp,
      (match g_cells g !! (x, y) with
       | Some q => node_at q (set_heap g (<[p:=Nd v (g_cells g !! (x, y)) (SCell x y)]> (g_heap g)))
            (λ nd, Ok (set_heap (set_heap g (<[p:=Nd v (g_cells g !! (x, y)) (SCell x y)]> (g_heap g)))
                  (<[q:=with_this nd (SNext p)]>
                   (g_heap (set_heap g (<[p:=Nd v (g_cells g !! (x, y)) (SCell x y)]> (g_heap g)))))))
       | None => Ok (set_heap g (<[p:=Nd v (g_cells g !! (x, y)) (SCell x y)]> (g_heap g)))
       end) = Ok (set_heap g hp) /\
      seg hp (Some (SCell x y)) (Some p) ((p, v) :: a_cell a x y) /\
      (forall q, q <> p -> q ∉ (a_cell a x y).*1 -> hp !! q = g_heap g !! q)) as (hp & -> & Hseg & Hother).
    { destruct (a_cell a x y) as [|[q w] r] eqn:Hl.
      - cbn in Hs. rewrite Hs. eexists. split; [reflexivity|]. split.
        + split; [done|]. eexists. rewrite lookup_insert. done.
        + intros q Hq _. by rewrite lookup_insert_ne.
      - destruct Hs as [Ho (nd & Hnd & Hv & _ & Hr)]. rewrite Ho. unfold node_at. cbn.
        assert (q <> p) as Hqp.
        { intros ->. apply (Hnew x y). rewrite Hl. cbn. set_solver. }
        rewrite lookup_insert_ne by done. rewrite Hnd. eexists. split; [reflexivity|].
        pose proof (R_nodup _ _ HR x y) as Hn. rewrite Hl in Hn. cbn in Hn. apply NoDup_cons in Hn as [Hq Hn].
        assert (Hrp : p ∉ r.*1). { intros Hin. apply (Hnew x y). rewrite Hl. cbn. set_solver. }
        split.
        + split; [done|]. eexists. rewrite lookup_insert_ne by done. rewrite lookup_insert.
          do 3 (split; [done|]). split; [done|]. eexists. rewrite lookup_insert. do 3 (split; [done|]). cbn.
          eapply seg_frame; [|exact Hr]. intros t Ht.
          rewrite lookup_insert_ne by (intros ->; done). rewrite lookup_insert_ne by (intros ->; done). done.
        + intros t Ht Hin. rewrite lookup_insert_ne by (intros ->; set_solver). by rewrite lookup_insert_ne. }
    cbn. eexists. split; [reflexivity|].
    assert (Hcs : forall x' y', a_cell (aapply p (InsHead x y v) a) x' y' =
                           upd x y ((p, v) :: a_cell a x y) (a_cell a) x' y') by done.
    split; try apply HR.
    - intros x' y'. cbn. destruct (decide (x' = x /\ y' = y)) as [[-> ->]|Hne].
      + unfold first_slot. cbn. rewrite !upd_same, lookup_insert. done.
      + unfold first_slot. cbn. rewrite !upd_other by done. rewrite lookup_insert_ne by naive_solver.
        eapply seg_frame; [|apply (R_seg _ _ HR)]. intros q Hq. apply Hother.
        * intros ->. by eapply Hnew.
        * intros Hq'. apply Hne. destruct (R_disj _ _ HR _ _ _ _ _ Hq Hq'). done.
    - intros x' y'. rewrite Hcs. destruct (decide (x' = x /\ y' = y)) as [[-> ->]|Hne]; [done|].
      rewrite upd_other by done. apply (R_range _ _ HR).
    - intros x' y'. rewrite Hcs. destruct (decide (x' = x /\ y' = y)) as [[-> ->]|Hne].
      + rewrite upd_same. cbn. apply NoDup_cons. split; [apply Hnew|apply (R_nodup _ _ HR)].
      + rewrite upd_other by done. apply (R_nodup _ _ HR).
    - intros x1 y1 x2 y2 q. rewrite !Hcs. unfold upd.
      destruct (decide (x1 = x /\ y1 = y)) as [[-> ->]|H1], (decide (x2 = x /\ y2 = y)) as [[-> ->]|H2]; cbn; try done.
      + rewrite elem_of_cons. intros [->|Hq] Hq2; [by destruct (Hnew x2 y2)|]. by eapply (R_disj _ _ HR).
      + rewrite elem_of_cons. intros Hq2 [->|Hq]; [by destruct (Hnew x1 y1)|]. by eapply (R_disj _ _ HR).
      + apply (R_disj _ _ HR).
    - intros q Hq. cbn in Hq. destruct (decide (q = p)) as [->|Hqp].
      { exists x, y. rewrite Hcs, upd_same. cbn. set_solver. }
      destruct (decide (q ∈ (a_cell a x y).*1)) as [Hin|Hin].
      { exists x, y. rewrite Hcs, upd_same. cbn. set_solver. }
      rewrite Hother in Hq by done. destruct (R_dom _ _ HR q Hq) as (x' & y' & Hq').
      exists x', y'. rewrite Hcs. rewrite upd_other; [done|]. intros [-> ->]. done.
  Qed.

  Lemma insert_tail_ok x y v g a :
    Rel g a -> x < a_w a -> y < a_h a ->
    exists g', insert_tail alloc x y v g = Ok g' /\ Rel g' (aapply (alloc (g_heap g)) (InsTail x y v) a).
  Proof.
    intros HR Hx Hy. unfold insert_tail. set (p := alloc (g_heap g)).
    rewrite decide_True by (split; [by rewrite (R_w _ _ HR)|by rewrite (R_h _ _ HR)]).
    assert (Hnew : forall x y, p ∉ (a_cell a x y).*1) by (intros; by eapply fresh_not_in).
    pose proof (R_seg _ _ HR x y) as Hs. pose proof (R_nodup _ _ HR x y) as Hn.
    rewrite (walk_ok _ _ _ _ _ None g eq_refl Hs) by (by eapply seg_size). cbn.
    assert (exists g',
      (match match last (a_cell a x y) with Some e => Some e.1 | None => None end with
       | Some q => node_at q (set_heap g (<[p:=Nd v None (SNext q)]> (g_heap g)))
            (λ nd, Ok (set_heap (set_heap g (<[p:=Nd v None (SNext q)]> (g_heap g)))
                  (<[q:=with_next nd (Some p)]> (g_heap (set_heap g (<[p:=Nd v None (SNext q)]> (g_heap g)))))))
       | None => Ok (set_cells (set_heap g (<[p:=Nd v None (SCell x y)]> (g_heap g)))
              (<[(x, y):=p]> (g_cells (set_heap g (<[p:=Nd v None (SCell x y)]> (g_heap g))))))
       end) = Ok g' /\ g_w g' = g_w g /\ g_h g' = g_h g /\
      seg (g_heap g') (first_slot (aapply p (InsTail x y v) a) x y) (g_cells g' !! (x, y)) (a_cell a x y ++ [(p, v)]) /\
      (forall x' y', ~ (x' = x /\ y' = y) -> g_cells g' !! (x', y') = g_cells g !! (x', y')) /\
      (forall q, q <> p -> q ∉ (a_cell a x y).*1 -> g_heap g' !! q = g_heap g !! q)) as (g' & Hg & Hw & Hh & Hseg & Hc & Hother).
    { unfold first_slot. cbn. rewrite upd_same.
      destruct (a_cell a x y) as [|[q0 w0] l0] eqn:Hl0.
      - cbn. eexists. split; [reflexivity|]. do 2 (split; [done|]). cbn. rewrite lookup_insert. split.
        + split; [done|]. eexists. rewrite lookup_insert. done.
        + split.
          * intros x' y' Hne. rewrite lookup_insert_ne by naive_solver. done.
          * intros q Hq _. by rewrite lookup_insert_ne.
      - destruct (exists_last (l := (q0, w0) :: l0) ltac:(done)) as (l & [q w] & Hl). rewrite Hl.
        rewrite last_snoc. cbn. specialize (Hnew x y). rewrite Hl0, Hl in Hnew.
        fold (first_slot a x y). rewrite Hl in Hs, Hn.
        destruct (seg_snoc _ _ _ _ q w p v Hs Hn Hnew) as (nd & Hq & Hseg). unfold node_at. cbn.
        assert (q <> p). { intros ->. apply Hnew. rewrite fmap_app. set_solver. }
        rewrite lookup_insert_ne by done. rewrite Hq. eexists. split; [reflexivity|]. cbn.
        do 2 (split; [done|]). split; [done|]. split; [done|].
        intros t Ht Hin. rewrite lookup_insert_ne.
        2:{ intros ->. apply Hin. rewrite fmap_app. set_solver. }
        by rewrite lookup_insert_ne. }
    exists g'. split; [exact Hg|].
    assert (Hcs : forall x' y', a_cell (aapply p (InsTail x y v) a) x' y' =
                           upd x y (a_cell a x y ++ [(p, v)]) (a_cell a) x' y') by done.
    split; try (cbn; rewrite ?Hw, ?Hh; apply HR).
    - intros x' y'. destruct (decide (x' = x /\ y' = y)) as [[-> ->]|Hne].
      + rewrite Hcs, upd_same. exact Hseg.
      + rewrite Hcs. unfold first_slot. cbn. rewrite !upd_other by done. rewrite Hc by done.
        eapply seg_frame; [|apply (R_seg _ _ HR)]. intros q Hq. apply Hother.
        * intros ->. by eapply Hnew.
        * intros Hq'. apply Hne. destruct (R_disj _ _ HR _ _ _ _ _ Hq Hq'). done.
    - intros x' y'. rewrite Hcs. destruct (decide (x' = x /\ y' = y)) as [[-> ->]|Hne]; [done|].
      rewrite upd_other by done. apply (R_range _ _ HR).
    - intros x' y'. rewrite Hcs. destruct (decide (x' = x /\ y' = y)) as [[-> ->]|Hne].
      + rewrite upd_same, fmap_app. apply NoDup_app. split; [done|]. split; [|apply NoDup_singleton].
        cbn. intros t Ht Ht2. apply elem_of_list_singleton in Ht2 as ->. by eapply Hnew.
      + rewrite upd_other by done. apply (R_nodup _ _ HR).
    - intros x1 y1 x2 y2 q. rewrite !Hcs. unfold upd.
      destruct (decide (x1 = x /\ y1 = y)) as [[-> ->]|H1], (decide (x2 = x /\ y2 = y)) as [[-> ->]|H2]; try done.
      + rewrite fmap_app, elem_of_app. cbn. rewrite elem_of_list_singleton.
        intros [Hq| ->] Hq2; [|by destruct (Hnew x2 y2)]. by eapply (R_disj _ _ HR).
      + rewrite fmap_app, elem_of_app. cbn. rewrite elem_of_list_singleton.
        intros Hq2 [Hq| ->]; [|by destruct (Hnew x1 y1)]. by eapply (R_disj _ _ HR).
      + apply (R_disj _ _ HR).
    - intros q Hq. destruct (decide (q = p)) as [->|Hqp].
      { exists x, y. rewrite Hcs, upd_same, fmap_app. cbn. set_solver. }
      destruct (decide (q ∈ (a_cell a x y).*1)) as [Hin|Hin].
      { exists x, y. rewrite Hcs, upd_same, fmap_app. set_solver. }
      rewrite Hother in Hq by done. destruct (R_dom _ _ HR q Hq) as (x' & y' & Hq').
      exists x', y'. rewrite Hcs. rewrite upd_other; [done|]. intros [-> ->]. done.
  Qed.


  Lemma seg_next hp s o l1 q w l2 nd :
    seg hp s o (l1 ++ (q, w) :: l2) -> hp !! q = Some nd -> NoDup (l1 ++ (q, w) :: l2).*1 -> nd_next nd = head l2.*1.
  Proof.
    revert s o. induction l1 as [|[p0 v0] l1 IH]; intros s o Hs Hq Hn.
    - cbn in Hs. destruct Hs as [-> (nd' & Hnd & Hv & Hst & Hr)]. rewrite Hq in Hnd. injection Hnd as <-.
      destruct l2 as [|[r vr] l2]; cbn in Hr; [done|]. by destruct Hr.
    - cbn in Hs. destruct Hs as [-> (nd' & Hnd & Hv & Hst & Hr)]. rewrite <- app_comm_cons in Hn. cbn in Hn.
      apply NoDup_cons in Hn as [Hn0 Hn]. by eapply IH.
  Qed.
  Lemma erase_ok q g a :
    Rel g a -> alegal (Erase q) a ->
    exists g' l1 w l2 x y, a_cell a x y = l1 ++ (q, w) :: l2 /\
      erase q g = Ok (g', head l2.*1) /\ Rel g' (aapply 1 (Erase q) a).
  Proof.
    intros HR (x & y & Hin & Hmv).
    destruct (seg_live _ _ _ _ _ (R_seg _ _ HR x y) Hin) as [nd Hnd].
    pose proof Hin as Hin'. apply elem_of_list_fmap in Hin' as ([q' w] & Hq' & Hin'). cbn in Hq'. subst q'.
    apply elem_of_list_split in Hin' as (l1 & l2 & Hl).
    pose proof (R_seg _ _ HR x y) as Hs. pose proof (R_nodup _ _ HR x y) as Hn. rewrite Hl in Hs, Hn, Hmv.
    assert (Hfirst : l1 = [] -> exists s0, first_slot a x y = Some s0).
    { intros ->. unfold first_slot. destruct (a_moved a x y); [by destruct Hmv|eauto]. }
    pose proof (seg_next _ _ _ _ _ _ _ _ Hs Hnd Hn) as Hnext.
    destruct (seg_unlink _ _ _ _ _ _ _ _ Hs Hn Hnd Hfirst) as (hp1 & Hw & Hq1 & Hrest).
    destruct (R_range _ _ HR x y) as [Hrx Hry]. { rewrite Hl. by destruct l1. }
    assert (Hqout : q ∉ l1.*1 /\ q ∉ l2.*1 /\ NoDup (l1 ++ l2).*1).
    { rewrite fmap_app in Hn. cbn in Hn. apply NoDup_app in Hn as (Hn1 & Hd & Hn2). apply NoDup_cons in Hn2 as [Hq2 Hn2].
      split; [|split; [done|]].
      - intros Hq. apply (Hd q Hq). set_solver.
      - rewrite fmap_app. apply NoDup_app. split; [done|]. split; [|done]. intros t Ht Ht2. apply (Hd t Ht). set_solver. }
    destruct Hqout as (Hq1out & Hq2out & Hn12).
    (** the write through the back pointer *)
    assert (exists g1, write_slot (nd_this nd) (nd_next nd) g = Ok g1 /\ g_w g1 = g_w g /\ g_h g1 = g_h g /\ g_heap g1 = hp1 /\
      g_cells g1 !! (x, y) = match l1 with [] => nd_next nd | _ => g_cells g !! (x, y) end /\
      (forall x' y', ~ (x' = x /\ y' = y) -> g_cells g1 !! (x', y') = g_cells g !! (x', y')) /\
      (forall t, t ∉ (a_cell a x y).*1 -> hp1 !! t = g_heap g !! t)) as (g1 & Hws & Hg1w & Hg1h & Hg1 & Hcxy & Hcs & Hhp1).
    { destruct l1 as [|e1 l1].
      - destruct Hw as [Hsl ->]. unfold first_slot in Hsl. destruct (a_moved a x y); [done|]. injection Hsl as <-.
        unfold write_slot. rewrite decide_True by (split; [by rewrite (R_w _ _ HR)|by rewrite (R_h _ _ HR)]).
        eexists. split; [reflexivity|]. cbn. do 3 (split; [done|]). split; [|split; [|done]].
        + destruct (nd_next nd); cbn; [by rewrite lookup_insert|by rewrite lookup_delete].
        + intros x' y' Hne. destruct (nd_next nd); cbn; [rewrite lookup_insert_ne by naive_solver|rewrite lookup_delete_ne by naive_solver]; done.
      - destruct Hw as (p & ndp & Hpq & Hpin & Hth & Hp & ->). rewrite Hth. unfold write_slot, node_at. rewrite Hp.
        eexists. split; [reflexivity|]. cbn. do 5 (split; [done|]).
        intros t Ht. rewrite lookup_insert_ne; [done|]. intros ->. apply Ht. rewrite Hl, fmap_app. set_solver. }
    assert (exists hp2, erase q g = Ok (set_heap g1 (delete q hp2), head l2.*1) /\
        seg (delete q hp2) (first_slot a x y) (g_cells g1 !! (x, y)) (l1 ++ l2) /\
        (forall t, t ∉ (a_cell a x y).*1 -> hp2 !! t = g_heap g !! t)) as (hp2 & He & Hseg & Hhp2).
    { unfold erase. rewrite Hnd, Hws. cbn. rewrite Hg1, Hq1.
      rewrite Hcxy. rewrite <- Hnext. destruct (nd_next nd) as [r|].
      - destruct Hrest as (ndr & Hr & Hrin & Hseg). unfold node_at. rewrite Hg1, Hr. cbn.
        eexists. split; [reflexivity|]. split; [exact Hseg|].
        intros t Ht. rewrite lookup_insert_ne; [by apply Hhp1|]. intros ->. apply Ht. rewrite Hl, fmap_app. cbn. set_solver.
      - destruct Hrest as [-> Hseg]. cbn. rewrite Hg1. eexists. split; [reflexivity|]. split; [exact Hseg|]. done. }
    exists (set_heap g1 (delete q hp2)), l1, w, l2, x, y. split; [done|]. split; [exact He|].
    assert (Hfil : forall x' y', filter (fun e => e.1 <> q) (a_cell a x' y') =
                     if decide (x' = x /\ y' = y) then l1 ++ l2 else a_cell a x' y').
    { intros x' y'. destruct (decide (x' = x /\ y' = y)) as [[-> ->]|Hne].
      - rewrite Hl, filter_app, filter_cons_False by (cbn; naive_solver). by rewrite !filter_id.
      - apply filter_id. intros Hq. apply Hne. by apply (R_disj _ _ HR _ _ _ _ q). }
    split; cbn.
    - rewrite Hg1w. apply HR.
    - rewrite Hg1h. apply HR.
    - intros x' y'. rewrite Hfil. unfold first_slot. cbn. destruct (decide (x' = x /\ y' = y)) as [[-> ->]|Hne]; [exact Hseg|].
      rewrite Hcs by done. eapply seg_frame; [|apply (R_seg _ _ HR)]. intros t Ht.
      assert (t ∉ (a_cell a x y).*1) as Ht'. { intros Ht'. apply Hne. by apply (R_disj _ _ HR _ _ _ _ t). }
      rewrite lookup_delete_ne by (intros ->; done). by apply Hhp2.
    - intros x' y'. rewrite Hfil. destruct (decide (x' = x /\ y' = y)) as [[-> ->]|Hne]; [done|]. apply (R_range _ _ HR).
    - intros x' y'. rewrite Hfil. destruct (decide (x' = x /\ y' = y)) as [[-> ->]|Hne]; [done|]. apply (R_nodup _ _ HR).
    - intros x1 y1 x2 y2 t. rewrite !Hfil.
      assert (Hsub : forall x' y', t ∈ (if decide (x' = x /\ y' = y) then l1 ++ l2 else a_cell a x' y').*1 -> t ∈ (a_cell a x' y').*1).
      { intros x' y'. destruct (decide (x' = x /\ y' = y)) as [[-> ->]|Hne]; [|done].
        rewrite Hl, !fmap_app. cbn. set_solver. }
      intros H1 H2. apply (R_disj _ _ HR _ _ _ _ t); by apply Hsub.
    - intros t Ht. assert (t <> q) as Htq. { intros ->. rewrite lookup_delete in Ht. by destruct Ht. }
      rewrite lookup_delete_ne in Ht by done.
      destruct (decide (t ∈ (a_cell a x y).*1)) as [Hin2|Hin2].
      + exists x, y. rewrite Hfil, decide_True by done. rewrite Hl in Hin2. revert Hin2. rewrite !fmap_app. cbn. set_solver.
      + rewrite Hhp2 in Ht by done. destruct (R_dom _ _ HR t Ht) as (x' & y' & Hin').
        exists x', y'. rewrite Hfil, decide_False; [done|]. intros [-> ->]. done.
  Qed.

  (** ** moving *)
  Lemma free_chain_ok hp s o l f g :
    g_heap g = hp -> seg hp s o l -> NoDup l.*1 -> length l <= f ->
    exists hp', free_chain f o g = Ok (set_heap g hp') /\
      (forall p, p ∈ l.*1 -> hp' !! p = None) /\ (forall p, p ∉ l.*1 -> hp' !! p = hp !! p).
  Proof.
    revert hp s o f g. induction l as [|[p v] r IH]; intros hp s o f g Hg; cbn.
    - intros -> _ _. exists hp. subst hp. destruct g. split; [by destruct f|]. split; [set_solver|done].
    - intros [-> (nd & Hnd & Hv & Hs & Hr)] Hn Hf. apply NoDup_cons in Hn as [Hp Hn].
      destruct f as [|f]; [lia|]. cbn. unfold node_at. rewrite Hg, Hnd.
      destruct (IH (delete p hp) (Some (SNext p)) (nd_next nd) f (set_heap g (delete p hp))) as (hp' & -> & Hin & Hout); try done.
      { eapply seg_frame; [|exact Hr]. intros t Ht. rewrite lookup_delete_ne; [done|]. intros ->. done. }
      { lia. }
      exists hp'. split; [done|]. split.
      + intros t. rewrite elem_of_cons. intros [->|Ht]; [|by apply Hin].
        rewrite Hout by done. by rewrite lookup_delete.
      + intros t. rewrite not_elem_of_cons. intros [Htp Ht]. rewrite Hout by done. by rewrite lookup_delete_ne.
  Qed.
  Definition shifted (xd yd : Z) (x y : nat) : Z * Z := ((Z.of_nat x + xd)%Z, (Z.of_nat y + yd)%Z).
  Definition falls (w h : nat) (n : Z * Z) : Prop :=
    (n.1 < 0 \/ Z.of_nat w <= n.1 \/ n.2 < 0 \/ Z.of_nat h <= n.2)%Z.
  Lemma move_loop w h xd yd (a : lists V) g cs : forall g1,
    Rel g a -> g_w g = w -> g_h g = h -> NoDup cs ->
    (forall x y p, (x, y) ∈ cs -> p ∈ (a_cell a x y).*1 -> g_heap g1 !! p = g_heap g !! p) ->
    exists g2,
      iter_out (fun xy g1 =>
        let nx := (Z.of_nat xy.1 + xd)%Z in
        let ny := (Z.of_nat xy.2 + yd)%Z in
        if decide (nx < 0 \/ Z.of_nat w <= nx \/ ny < 0 \/ Z.of_nat h <= ny)%Z then
          free_chain (size (g_heap g1)) (g_cells g !! xy) g1
        else Ok (set_cells g1 (put_cell (Z.to_nat nx) (Z.to_nat ny) (g_cells g !! xy) (g_cells g1))))
        cs g1 = Ok g2 /\
      g_w g2 = g_w g1 /\ g_h g2 = g_h g1 /\
      (forall x y, (x, y) ∈ cs -> ~ falls w h (shifted xd yd x y) ->
         g_cells g2 !! (Z.to_nat (Z.of_nat x + xd), Z.to_nat (Z.of_nat y + yd)) = g_cells g !! (x, y)) /\
      (forall x' y', (forall x y, (x, y) ∈ cs -> ~ falls w h (shifted xd yd x y) -> shifted xd yd x y <> (Z.of_nat x', Z.of_nat y')) ->
         g_cells g2 !! (x', y') = g_cells g1 !! (x', y')) /\
      (forall x y p, (x, y) ∈ cs -> falls w h (shifted xd yd x y) -> p ∈ (a_cell a x y).*1 -> g_heap g2 !! p = None) /\
      (forall p, (forall x y, (x, y) ∈ cs -> falls w h (shifted xd yd x y) -> p ∉ (a_cell a x y).*1) ->
         g_heap g2 !! p = g_heap g1 !! p).
  Proof.
    induction cs as [|[x0 y0] cs IH]; intros g1 HR Hw Hh Hn Hheap.
    - cbn. exists g1. do 3 (split; [done|]). do 3 (split; [set_solver|]). done.
    - apply NoDup_cons in Hn as [Hxy Hn]. cbn [iter_out].
      assert (exists g1', (let nx := (Z.of_nat x0 + xd)%Z in let ny := (Z.of_nat y0 + yd)%Z in
        if decide (nx < 0 \/ Z.of_nat w <= nx \/ ny < 0 \/ Z.of_nat h <= ny)%Z then
          free_chain (size (g_heap g1)) (g_cells g !! (x0, y0)) g1
        else Ok (set_cells g1 (put_cell (Z.to_nat nx) (Z.to_nat ny) (g_cells g !! (x0, y0)) (g_cells g1)))) = Ok g1' /\
        g_w g1' = g_w g1 /\ g_h g1' = g_h g1 /\
        (~ falls w h (shifted xd yd x0 y0) ->
            g_cells g1' !! (Z.to_nat (Z.of_nat x0 + xd), Z.to_nat (Z.of_nat y0 + yd)) = g_cells g !! (x0, y0)) /\
        (forall x' y', (~ falls w h (shifted xd yd x0 y0) -> shifted xd yd x0 y0 <> (Z.of_nat x', Z.of_nat y')) -> g_cells g1' !! (x', y') = g_cells g1 !! (x', y')) /\
        (falls w h (shifted xd yd x0 y0) -> forall p, p ∈ (a_cell a x0 y0).*1 -> g_heap g1' !! p = None) /\
        (forall p, (falls w h (shifted xd yd x0 y0) -> p ∉ (a_cell a x0 y0).*1) -> g_heap g1' !! p = g_heap g1 !! p))
        as (g1' & Hstep & Hw1 & Hh1 & Hstay & Hcother & Hfall & Hhother).
      { cbn zeta. destruct (decide _) as [Hf|Hf].
        - assert (seg (g_heap g1) (first_slot a x0 y0) (g_cells g !! (x0, y0)) (a_cell a x0 y0)) as Hs.
          { eapply seg_frame; [|apply (R_seg _ _ HR)]. intros p Hp. eapply Hheap; [|exact Hp]. set_solver. }
          destruct (free_chain_ok _ _ _ _ (size (g_heap g1)) g1 eq_refl Hs (R_nodup _ _ HR _ _)
                      ltac:(eapply seg_size; [exact Hs|apply (R_nodup _ _ HR)])) as (hp' & -> & Hin & Hout).
          eexists. split; [reflexivity|]. do 2 (split; [done|]). cbn. split; [by intros []|]. split; [done|]. split; [by intros _|].
          intros p Hp. apply Hout. by apply Hp.
        - eexists. split; [reflexivity|]. do 2 (split; [done|]). cbn. split; [|split; [|split; [by intros Hf'|done]]].
          + intros _. destruct (g_cells g !! (x0, y0)); cbn; [by rewrite lookup_insert|by rewrite lookup_delete].
          + intros x' y' Hne. assert ((Z.to_nat (Z.of_nat x0 + xd), Z.to_nat (Z.of_nat y0 + yd)) <> (x', y')).
            { intros [= H1 H2]. apply Hne; [done|]. unfold shifted. f_equal; lia. }
            destruct (g_cells g !! (x0, y0)); cbn; [by rewrite lookup_insert_ne|by rewrite lookup_delete_ne]. }
      cbn [fst snd] in Hstep |- *. rewrite Hstep. cbn [obind].
      destruct (IH g1' HR Hw Hh Hn) as (g2 & Hg2 & Hw2 & Hh2 & H1 & H2 & H3 & H4).
      { intros x y p Hin Hp. rewrite Hhother; [eapply Hheap; [|exact Hp]; set_solver|].
        intros _ Hp'. destruct (R_disj _ _ HR _ _ _ _ _ Hp Hp') as [-> ->]. done. }
      exists g2. split; [exact Hg2|]. split; [by rewrite Hw2|]. split; [by rewrite Hh2|].
      split; [|split; [|split]].
      + intros x y Hin Hnf. apply elem_of_cons in Hin as [[= -> ->]|Hin]; [|by apply H1].
        rewrite H2; [by apply Hstay|]. intros x y Hin' _ Heq. unfold shifted, falls in *. cbn in Hnf.
        injection Heq as Hx Hy. assert (x = x0 /\ y = y0) as [-> ->] by lia. done.
      + intros x' y' Hne. rewrite H2; [apply Hcother|]; [apply Hne; set_solver|]. intros x y Hin. apply Hne. set_solver.
      + intros x y p Hin Hf Hp. apply elem_of_cons in Hin as [[= -> ->]|Hin]; [|by eapply H3].
        rewrite H4; [by apply Hfall|]. intros x y Hin Hf' Hp'. destruct (R_disj _ _ HR _ _ _ _ _ Hp Hp') as [-> ->]. done.
      + intros p Hp. rewrite H4, Hhother; [done| |].
        * intros Hf. apply Hp; [set_solver|done].
        * intros x y Hin. apply Hp. set_solver.
  Qed.
  Lemma move_ok xd yd g a :
    Rel g a -> exists g', move xd yd g = Ok g' /\ Rel g' (aapply 1 (Move xd yd) a).
  Proof.
    intros HR. unfold move. pose proof (R_w _ _ HR) as Hw. pose proof (R_h _ _ HR) as Hh.
    assert (Hrg : forall x y p, p ∈ (a_cell a x y).*1 -> x < a_w a /\ y < a_h a).
    { intros x y p Hp. apply (R_range _ _ HR). intros Hl. rewrite Hl in Hp. set_solver. }
    destruct (decide _) as [Hbig|Hsmall].
    - eexists. split; [reflexivity|].
      assert (Hnil : forall x y, a_cell (aapply 1 (Move xd yd) a) x y = []).
      { intros x y. cbn. destruct (decide _) as [(Hx & Hy & Hox & Hoy)|_]; [|done].
        destruct (a_cell a _ _) as [|e l] eqn:Hl; [done|]. exfalso.
        destruct (R_range _ _ HR (Z.to_nat (Z.of_nat x - xd)) (Z.to_nat (Z.of_nat y - yd))) as [H1 H2]; [by rewrite Hl|]. lia. }
      split; try done; intros.
      + cbn [g_cells clear]. rewrite lookup_empty, Hnil. done.
      + by rewrite Hnil in H.
      + rewrite Hnil. constructor.
      + rewrite Hnil in H. set_solver.
      + cbn in H. rewrite lookup_empty in H. by destruct H.
    - destruct (move_loop (g_w g) (g_h g) xd yd a g (coords (g_w g) (g_h g)) (set_cells g ∅) HR eq_refl eq_refl
                  (NoDup_coords _ _) ltac:(done)) as (g2 & Hg2 & Hw2 & Hh2 & H1 & H2 & H3 & H4).
      exists g2. split; [exact Hg2|]. clear Hg2. cbn in Hw2, Hh2.
      set (a' := aapply 1 (Move xd yd) a).
      (** a cell that stays *)
      assert (Hcell : forall x y, a_cell a' x y <> [] ->
        exists x0 y0, x0 < a_w a /\ y0 < a_h a /\ x < a_w a /\ y < a_h a /\ shifted xd yd x0 y0 = (Z.of_nat x, Z.of_nat y) /\
          a_cell a' x y = a_cell a x0 y0).
      { intros x y. subst a'. cbn. destruct (decide _) as [(Hx & Hy & Hox & Hoy)|_]; [|done]. intros Hne.
        destruct (R_range _ _ HR _ _ Hne). do 2 eexists. do 4 (split; [eassumption|]). split; [|reflexivity].
        unfold shifted. f_equal; lia. }
      assert (Hcell0 : forall x y x0 y0, x < a_w a -> y < a_h a -> shifted xd yd x0 y0 = (Z.of_nat x, Z.of_nat y) ->
          a_cell a' x y = a_cell a x0 y0).
      { intros x y x0 y0 Hx Hy [= Hx0 Hy0]. subst a'. cbn. rewrite decide_True by lia. f_equal; lia. }
      assert (Hnf : forall x y x0 y0, x < a_w a -> y < a_h a -> shifted xd yd x0 y0 = (Z.of_nat x, Z.of_nat y) ->
          ~ falls (g_w g) (g_h g) (shifted xd yd x0 y0)).
      { intros x y x0 y0 Hx Hy ->. unfold falls. cbn. rewrite Hw, Hh. lia. }
      split.
      + cbn. by rewrite Hw2.
      + cbn. by rewrite Hh2.
      + intros x y. change (seg (g_heap g2) None (g_cells g2 !! (x, y)) (a_cell a' x y)).
        destruct (a_cell a' x y) as [|e l] eqn:Hl.
        * cbn. destruct (decide (x < g_w g /\ y < g_h g)) as [[Hx Hy]|Hout].
          -- destruct (decide (0 <= Z.of_nat x - xd /\ 0 <= Z.of_nat y - yd /\ Z.of_nat x - xd < Z.of_nat (g_w g) /\ Z.of_nat y - yd < Z.of_nat (g_h g))%Z) as [Hin|Hin].
             ++ assert (Hsh : shifted xd yd (Z.to_nat (Z.of_nat x - xd)) (Z.to_nat (Z.of_nat y - yd)) = (Z.of_nat x, Z.of_nat y))
                  by (unfold shifted; f_equal; lia).
                pose proof Hsh as [= Hsx Hsy].
                specialize (H1 (Z.to_nat (Z.of_nat x - xd)) (Z.to_nat (Z.of_nat y - yd))).
                rewrite Hsx, Hsy, !Nat2Z.id in H1. rewrite H1.
                ** pose proof (R_seg _ _ HR (Z.to_nat (Z.of_nat x - xd)) (Z.to_nat (Z.of_nat y - yd))) as Hs.
                   rewrite <- (Hcell0 x y _ _ ltac:(lia) ltac:(lia) Hsh) in Hs. rewrite Hl in Hs. exact Hs.
                ** apply elem_of_coords. lia.
                ** eapply Hnf; [..|exact Hsh]; lia.
             ++ rewrite H2; [apply lookup_empty|]. intros x0 y0 H0 _ [= Hx0 Hy0]. apply elem_of_coords in H0. lia.
          -- rewrite H2; [apply lookup_empty|]. intros x0 y0 _ Hf Heq. apply Hf. rewrite Heq. unfold falls. cbn. lia.
        * destruct (Hcell x y) as (x0 & y0 & Hx0 & Hy0 & Hx & Hy & Hsh & Heq); [by rewrite Hl|].
          pose proof Hsh as [= Hsx Hsy]. specialize (H1 x0 y0). rewrite Hsx, Hsy, !Nat2Z.id in H1. rewrite H1.
          -- rewrite <- Hl, Heq. eapply seg_weaken. eapply seg_frame; [|apply (R_seg _ _ HR)].
             intros p Hp. rewrite H4; [done|]. intros x1 y1 Hin Hf Hp1.
             destruct (R_disj _ _ HR _ _ _ _ _ Hp Hp1) as [<- <-]. by eapply Hnf in Hf.
          -- apply elem_of_coords. lia.
          -- eapply Hnf; [..|exact Hsh]; lia.
      + intros x y Hne. destruct (Hcell x y Hne) as (x0 & y0 & Hx0 & Hy0 & Hx & Hy & Hsh & Heq). done.
      + intros x y. destruct (a_cell a' x y) eqn:Hl; [constructor|].
        destruct (Hcell x y) as (x0 & y0 & Hx0 & Hy0 & Hx & Hy & Hsh & Heq); [by rewrite Hl|]. rewrite <- Hl, Heq. apply (R_nodup _ _ HR).
      + intros x1 y1 x2 y2 p Hp1 Hp2.
        destruct (Hcell x1 y1) as (u1 & v1 & _ & _ & _ & _ & Hsh1 & Heq1). { intros Hl. rewrite Hl in Hp1. set_solver. }
        destruct (Hcell x2 y2) as (u2 & v2 & _ & _ & _ & _ & Hsh2 & Heq2). { intros Hl. rewrite Hl in Hp2. set_solver. }
        rewrite Heq1 in Hp1. rewrite Heq2 in Hp2. destruct (R_disj _ _ HR _ _ _ _ _ Hp1 Hp2) as [<- <-].
        rewrite Hsh1 in Hsh2. injection Hsh2 as ? ?. lia.
      + intros p Hp. destruct (decide (is_Some (g_heap g !! p))) as [Hold|Hold].
        * destruct (R_dom _ _ HR p Hold) as (x0 & y0 & Hp0). destruct (Hrg _ _ _ Hp0) as [Hx0 Hy0].
          destruct (decide (falls (g_w g) (g_h g) (shifted xd yd x0 y0))) as [Hf|Hf].
          { rewrite (H3 x0 y0 p) in Hp; [by destruct Hp| |done|done]. apply elem_of_coords. lia. }
          exists (Z.to_nat (Z.of_nat x0 + xd)), (Z.to_nat (Z.of_nat y0 + yd)).
          unfold falls, shifted in Hf. cbn in Hf. rewrite (Hcell0 _ _ x0 y0); [done|lia|lia|].
          unfold shifted. f_equal; lia.
        * exfalso. rewrite H4 in Hp; [done|]. intros x y _ _ Hin. apply Hold. eapply seg_live; [apply (R_seg _ _ HR)|exact Hin].
  Qed.

  (** ** assignment *)
  Lemma Rel_ext g a a' :
    a_w a' = a_w a -> a_h a' = a_h a -> (forall x y, a_cell a' x y = a_cell a x y) ->
    (forall x y, a_moved a' x y = a_moved a x y) -> Rel g a -> Rel g a'.
  Proof.
    intros Hw Hh Hc Hm HR. split.
    - rewrite Hw. apply HR.
    - rewrite Hh. apply HR.
    - intros x y. unfold first_slot. rewrite Hc, Hm. apply (R_seg _ _ HR).
    - intros x y. rewrite Hc, Hw, Hh. apply (R_range _ _ HR).
    - intros x y. rewrite Hc. apply (R_nodup _ _ HR).
    - intros x y x' y' p. rewrite !Hc. apply (R_disj _ _ HR).
    - intros p Hp. destruct (R_dom _ _ HR p Hp) as (x & y & Hin). exists x, y. by rewrite Hc.
  Qed.
  Lemma insert_all_ok x y (l : list (positive * V)) : forall g a,
    Rel g a -> x < a_w a -> y < a_h a -> (forall x y, a_moved a x y = false) ->
    exists g' a', iter_out (fun pv => insert_tail alloc x y pv.2) l g = Ok g' /\ Rel g' a' /\
      a_w a' = a_w a /\ a_h a' = a_h a /\
      (a_cell a' x y).*2 = (a_cell a x y).*2 ++ l.*2 /\
      (forall x' y', ~ (x' = x /\ y' = y) -> a_cell a' x' y' = a_cell a x' y') /\
      (forall x y, a_moved a' x y = false).
  Proof.
    induction l as [|[p v] l IH]; intros g a HR Hx Hy Hm.
    - exists g, a. split; [done|]. split; [done|]. rewrite app_nil_r. eauto 10.
    - cbn [iter_out]. destruct (insert_tail_ok x y v g a HR Hx Hy) as (g1 & Hg1 & HR1).
      cbn [snd]. rewrite Hg1. cbn [obind].
      set (a1 := aapply (alloc (g_heap g)) (InsTail x y v) a) in *.
      assert (Hm1 : forall x y, a_moved a1 x y = false).
      { intros x' y'. subst a1. cbn. unfold upd. destruct (decide _); [|apply Hm]. destruct (a_cell a x y); [done|]. apply Hm. }
      destruct (IH g1 a1 HR1 Hx Hy Hm1) as (g' & a' & Hg' & HR' & Hw' & Hh' & Hc & Hco & Hm').
      exists g', a'. split; [exact Hg'|]. split; [done|]. split; [done|]. split; [done|]. split; [|split; [|done]].
      + rewrite Hc. subst a1. cbn. rewrite upd_same, fmap_app, <- app_assoc. done.
      + intros x' y' Hne. rewrite Hco by done. subst a1. cbn. by rewrite upd_other.
  Qed.
  Lemma assign_loop src asrc cs : forall g a,
    Rel src asrc -> Rel g a -> a_w a = a_w asrc -> a_h a = a_h asrc -> NoDup cs ->
    (forall x y, (x, y) ∈ cs -> x < a_w asrc /\ y < a_h asrc) ->
    (forall x y, (x, y) ∈ cs -> a_cell a x y = []) -> (forall x y, a_moved a x y = false) ->
    exists g' a',
      iter_out (fun xy g1 =>
        match cell xy.1 xy.2 src with
        | Ok l => iter_out (fun pv => insert_tail alloc xy.1 xy.2 pv.2) l (set_cells g1 (delete xy (g_cells g1)))
        | Throw _ => Bad UB | Bad b => Bad b | NoFuel => NoFuel end) cs g = Ok g' /\
      Rel g' a' /\ a_w a' = a_w asrc /\ a_h a' = a_h asrc /\
      (forall x y, (x, y) ∈ cs -> (a_cell a' x y).*2 = (a_cell asrc x y).*2) /\
      (forall x y, (x, y) ∉ cs -> a_cell a' x y = a_cell a x y) /\
      (forall x y, a_moved a' x y = false).
  Proof.
    induction cs as [|[x y] cs IH]; intros g a HRs HR Hw Hh Hn Hin Hnil Hm.
    - exists g, a. split; [done|]. do 3 (split; [done|]). split; [set_solver|]. done.
    - apply NoDup_cons in Hn as [Hxy Hn]. cbn [iter_out fst snd].
      destruct (Hin x y ltac:(set_solver)) as [Hx Hy].
      rewrite (C46_iterate src asrc x y HRs) by (rewrite ?(R_w _ _ HRs), ?(R_h _ _ HRs); done).
      assert (set_cells g (delete (x, y) (g_cells g)) = g) as ->.
      { pose proof (R_seg _ _ HR x y) as Hs. rewrite (Hnil x y) in Hs by set_solver. cbn in Hs.
        unfold set_cells. rewrite delete_notin by done. by destruct g. }
      destruct (insert_all_ok x y (a_cell asrc x y) g a HR) as (g1 & a1 & Hg1 & HR1 & Hw1 & Hh1 & Hc1 & Hco1 & Hm1);
        [by rewrite Hw|by rewrite Hh|done|].
      rewrite Hg1. cbn [obind].
      destruct (IH g1 a1 HRs HR1) as (g' & a' & Hg' & HR' & Hw' & Hh' & Hc' & Hco' & Hm'); try done.
      + by rewrite Hw1.
      + by rewrite Hh1.
      + intros x' y' H'. apply Hin. set_solver.
      + intros x' y' H'. rewrite Hco1; [apply Hnil; set_solver|]. intros [-> ->]. done.
      + exists g', a'. split; [exact Hg'|]. do 3 (split; [done|]). split; [|split; [|done]].
        * intros x' y' H'. apply elem_of_cons in H' as [[= -> ->]|H']; [|by apply Hc'].
          rewrite Hco' by done. rewrite Hc1, (Hnil x y) by set_solver. done.
        * intros x' y' H'. apply not_elem_of_cons in H' as [Hne H']. rewrite Hco' by done. apply Hco1. intros [-> ->]. done.
  Qed.
  (** what a reader sees *)
  Definition read (g : grid V) : lists V :=
    Lists (g_w g) (g_h g) (fun x y => match cell x y g with Ok l => l | _ => [] end) (fun _ _ => false).
  Lemma assign_ok src asrc g :
    Rel src asrc -> exists g', assign alloc src g = Ok g' /\ Rel g' (read g') /\ g_w g' = g_w src /\ g_h g' = g_h src /\
      forall x y, (a_cell (read g') x y).*2 = (a_cell asrc x y).*2.
  Proof.
    intros HRs. unfold assign. set (g0 := clear _).
    assert (g0 = new_grid (a_w asrc) (a_h asrc)) as ->.
    { subst g0. rewrite <- (R_w _ _ HRs), <- (R_h _ _ HRs). destruct (decide _) as [[-> ->]|_]; done. }
    destruct (assign_loop src asrc (coords (g_w src) (g_h src)) (new_grid (a_w asrc) (a_h asrc)) (empty_lists (a_w asrc) (a_h asrc)))
      as (g' & a' & Hg' & HR' & Hw' & Hh' & Hc' & Hco' & Hm'); try done.
    - apply rel_empty.
    - apply NoDup_coords.
    - intros x y Hin. apply elem_of_coords in Hin. by rewrite (R_w _ _ HRs), (R_h _ _ HRs) in Hin.
    - exists g'. split; [exact Hg'|].
      assert (Hcell : forall x y, a_cell (read g') x y = a_cell a' x y).
      { intros x y. cbn. destruct (decide (x < g_w g' /\ y < g_h g')) as [[Hx Hy]|Hout].
        - by rewrite (C46_iterate g' a' x y HR' Hx Hy).
        - unfold cell. rewrite decide_False by done. destruct (a_cell a' x y) eqn:Hl; [done|].
          destruct Hout. rewrite (R_w _ _ HR'), (R_h _ _ HR'). apply (R_range _ _ HR'). by rewrite Hl. }
      split; [|split; [|split]].
      + eapply Rel_ext; [..|exact HR']; cbn; [by rewrite (R_w _ _ HR')|by rewrite (R_h _ _ HR')|exact Hcell|done].
      + by rewrite (R_w _ _ HR'), (R_w _ _ HRs).
      + by rewrite (R_h _ _ HR'), (R_h _ _ HRs).
      + intros x y. rewrite Hcell. destruct (decide ((x, y) ∈ coords (g_w src) (g_h src))) as [Hin|Hin]; [by apply Hc'|].
        rewrite Hco' by done. cbn. destruct (a_cell asrc x y) eqn:Hl; [done|].
        destruct Hin. apply elem_of_coords. rewrite (R_w _ _ HRs), (R_h _ _ HRs). apply (R_range _ _ HRs). by rewrite Hl.
  Qed.

  (** * Histories *)
  Lemma step_ok o g a : Rel g a -> alegal o a ->
    exists g', lstep alloc o g = Ok g' /\ Rel g' (aapply (alloc (g_heap g)) o a).
  Proof.
    intros HR Hl. destruct o; cbn [lstep alegal] in *.
    - destruct Hl. by apply insert_head_ok.
    - destruct Hl. by apply insert_tail_ok.
    - destruct (erase_ok p g a HR Hl) as (g' & l1 & w & l2 & x & y & _ & -> & HR'). cbn. eauto.
    - by apply set_value_ok.
    - eexists. split; [done|]. cbn. pose proof (R_w _ _ HR) as Hw. pose proof (R_h _ _ HR) as Hh.
      unfold clear. rewrite Hw, Hh. apply rel_empty.
    - eexists. split; [done|]. apply rel_empty.
    - destruct (move_ok xd yd g a HR) as (g' & -> & HR'). eauto.
  Qed.
  (** a grid and the lists it stands for, after any legal history; two grids may be assigned to each other *)
  Inductive lrun : grid V -> lists V -> Prop :=
  | l_new w h : lrun (new_grid w h) (empty_lists w h)
  | l_step o g a g' : lrun g a -> alegal o a -> lstep alloc o g = Ok g' -> lrun g' (aapply (alloc (g_heap g)) o a)
  | l_assign src asrc g a g' : lrun src asrc -> lrun g a -> assign alloc src g = Ok g' -> lrun g' (read g').
  Lemma lrun_rel g a : lrun g a -> Rel g a.
  Proof.
    induction 1 as [|o g a g' _ IH Hl Hs|src asrc g a g' _ IH1 _ IH2 Hs].
    - apply rel_empty.
    - destruct (step_ok o g a IH Hl) as (g2 & Hg2 & HR2). rewrite Hs in Hg2. injection Hg2 as <-. done.
    - destruct (assign_ok src asrc g IH1) as (g2 & Hg2 & HR2 & _). rewrite Hs in Hg2. injection Hg2 as <-. done.
  Qed.

  (** C46 except for erasing the first element of a cell that was moved: after every history, iterating over a cell yields the
      elements of the list, in order, and every legal operation succeeds and does to the lists what [aapply] says. *)
  Theorem C46_lists g a : lrun g a ->
    (forall x y, x < a_w a -> y < a_h a -> cell x y g = Ok (a_cell a x y)) /\
    (forall o, alegal o a -> exists g', lstep alloc o g = Ok g' /\ lrun g' (aapply (alloc (g_heap g)) o a)).
  Proof.
    intros Hr. pose proof (lrun_rel _ _ Hr) as HR. split.
    - intros x y Hx Hy. apply C46_iterate; [done|by rewrite (R_w _ _ HR)|by rewrite (R_h _ _ HR)].
    - intros o Hl. destruct (step_ok o g a HR Hl) as (g' & Hg' & _). exists g'. split; [done|]. by eapply l_step.
  Qed.
  (** a new element has a handle that no element of the grid has *)
  Theorem C46_new_handle g a x y : lrun g a -> alloc (g_heap g) ∉ (a_cell a x y).*1.
  Proof. intros Hr. apply fresh_not_in. by apply lrun_rel. Qed.
  (** erase returns the element behind the erased one, and only its cell changes *)
  Theorem C46_erase g a q x y l1 w l2 : lrun g a ->
    a_cell a x y = l1 ++ (q, w) :: l2 -> (a_moved a x y = true -> l1 <> []) ->
    exists g', erase q g = Ok (g', head l2.*1) /\ cell x y g' = Ok (l1 ++ l2) /\
      forall x' y', x' < a_w a -> y' < a_h a -> ~ (x' = x /\ y' = y) -> cell x' y' g' = cell x' y' g.
  Proof.
    intros Hr Hl Hm. pose proof (lrun_rel _ _ Hr) as HR.
    assert (Hin : q ∈ (a_cell a x y).*1) by (rewrite Hl, fmap_app; cbn; set_solver).
    assert (Hleg : alegal (Erase q) a).
    { exists x, y. split; [done|]. intros Hmv. specialize (Hm Hmv). pose proof (R_nodup _ _ HR x y) as Hn. rewrite Hl in *.
      destruct l1 as [|[q1 w1] l1]; [done|]. cbn in *. intros [= ->]. apply NoDup_cons in Hn as [Hn _]. apply Hn.
      rewrite fmap_app. cbn. set_solver. }
    destruct (erase_ok q g a HR Hleg) as (g' & k1 & w' & k2 & x' & y' & Hl' & He & HR').
    assert (x' = x /\ y' = y) as [-> ->].
    { apply (R_disj _ _ HR _ _ _ _ q); [|done]. rewrite Hl', fmap_app. cbn. set_solver. }
    rewrite Hl in Hl'. pose proof (R_nodup _ _ HR x y) as Hn. rewrite Hl in Hn.
    assert (k2 = l2 /\ k1 = l1) as [-> ->].
    { clear - Hl' Hn. revert k1 Hl' Hn. induction l1 as [|[p v] l1 IH]; intros [|[p' v'] k1]; cbn; intros Hl Hn.
      - by injection Hl.
      - injection Hl as -> -> ->. apply NoDup_cons in Hn as [Hn _]. destruct Hn. rewrite fmap_app. cbn. set_solver.
      - injection Hl as -> -> Hl. apply NoDup_cons in Hn as [Hn _]. destruct Hn. rewrite fmap_app. cbn. set_solver.
      - injection Hl as -> -> Hl. apply NoDup_cons in Hn as [_ Hn]. destruct (IH _ Hl Hn) as [-> ->]. done. }
    assert (Hxy : x < a_w a /\ y < a_h a). { apply (R_range _ _ HR). rewrite Hl. by destruct l1. }
    pose proof (R_w _ _ HR) as Hw. pose proof (R_h _ _ HR) as Hh.
    pose proof (R_w _ _ HR') as Hw'. pose proof (R_h _ _ HR') as Hh'. cbn in Hw', Hh'.
    exists g'. split; [done|]. split.
    - rewrite (C46_iterate g' _ x y HR') by lia. cbn. rewrite Hl.
      rewrite fmap_app in Hn. apply NoDup_app in Hn as (_ & Hd & Hn2). cbn in Hn2. apply NoDup_cons in Hn2 as [Hq2 _].
      rewrite filter_app, filter_cons_False by (cbn; naive_solver). rewrite !filter_id; [done|done|].
      intros Hq1. apply (Hd q Hq1). cbn. set_solver.
    - intros x' y' Hx' Hy' Hne. rewrite (C46_iterate g' _ x' y' HR'), (C46_iterate g _ x' y' HR) by lia. cbn.
      rewrite filter_id; [done|]. intros Hq. apply Hne. by apply (R_disj _ _ HR _ _ _ _ q).
  Qed.
  (** assignment copies every list *)
  Theorem C46_copy src asrc g a : lrun src asrc -> lrun g a ->
    exists g', assign alloc src g = Ok g' /\ lrun g' (read g') /\ g_w g' = g_w src /\ g_h g' = g_h src /\
      forall x y, x < g_w src -> y < g_h src ->
        exists l, cell x y g' = Ok l /\ l.*2 = (a_cell asrc x y).*2.
  Proof.
    intros Hs Hr. pose proof (lrun_rel _ _ Hs) as HRs.
    destruct (assign_ok src asrc g HRs) as (g' & Hg' & HR' & Hw & Hh & Hc). exists g'. split; [done|].
    split; [eapply l_assign; [exact Hs|exact Hr|exact Hg']|]. do 2 (split; [done|]). intros x y Hx Hy.
    exists (a_cell (read g') x y). split; [|apply Hc]. apply C46_iterate; [done|lia|lia].
  Qed.
End Refine.

(** * A concrete allocator and the exceptions *)
Definition fresh_node {V} (h : gmap positive (lnode V)) : positive := fresh (dom h).
Lemma fresh_node_ok {V} (h : gmap positive (lnode V)) : h !! fresh_node h = None.
Proof. apply not_elem_of_dom. apply is_fresh. Qed.

(** a history with all operations; erasing the middle and the head of a list works *)
Example C46_nonvacuous :
  exists g a, lrun (V := nat) fresh_node g a /\
    cell 1 0 g = Ok (a_cell a 1 0) /\ (a_cell a 1 0).*2 = [7; 5; 6] /\ (a_cell a 0 1).*2 = [] /\
    alegal (Erase (default 1%positive (head (a_cell a 1 0).*1))) a.
Proof.
  assert (H0 := l_new (V := nat) fresh_node 2 3).
  assert (Hs : forall (o : lop nat) g a, lrun fresh_node g a -> alegal o a ->
     exists g', lstep fresh_node o g = Ok g' /\ lrun fresh_node g' (aapply (fresh_node (g_heap g)) o a)).
  { intros o g a Hr Hl. eapply (C46_lists fresh_node fresh_node_ok); done. }
  destruct (Hs (InsTail 0 1 5) _ _ H0 ltac:(cbn; lia)) as (g1 & _ & H1).
  destruct (Hs (InsTail 0 1 6) _ _ H1 ltac:(cbn; lia)) as (g2 & _ & H2).
  destruct (Hs (Move 1 (-1)) _ _ H2 ltac:(cbn; done)) as (g3 & _ & H3).
  destruct (Hs (InsHead 1 0 7) _ _ H3 ltac:(cbn; lia)) as (g4 & _ & H4).
  eexists _, _. split; [exact H4|]. split; [|split; [|split]].
  - eapply (C46_lists fresh_node fresh_node_ok); [exact H4|cbn; lia|cbn; lia].
  - reflexivity.
  - reflexivity.
  - cbn. exists 1, 0. split; [cbn; set_solver|]. done.
Qed.

(** Without the exception the claim is false: [move] leaves the back pointer of the first element of a cell pointing to the
    old cell.  Erasing this element leaves the freed node in the new cell. *)
Theorem C46_move_refuted :
  exists g a q, lrun (V := nat) fresh_node g a /\ a_cell a 1 0 = [(q, 5)] /\ cell 1 0 g = Ok [(q, 5)] /\
    exists g', erase q g = Ok (g', None) /\ cell 1 0 g' = Bad UB.
Proof.
  assert (H0 := l_new (V := nat) fresh_node 2 1).
  assert (H1 := l_step fresh_node (InsTail 0 0 5) _ _ _ H0 ltac:(cbn; lia) ltac:(vm_compute; reflexivity)).
  assert (H2 := l_step fresh_node (Move 1 0) _ _ _ H1 ltac:(cbn; done) ltac:(vm_compute; reflexivity)).
  eexists _, _, _. split; [exact H2|]. split; [vm_compute; reflexivity|]. split; [vm_compute; reflexivity|].
  eexists. split; vm_compute; reflexivity.
Qed.
