(** C47, C48 and C50: the counters of MLSGrid, its file format and updateCell. *)
From Coq Require Import ZArith Lia.
From stdpp Require Import prelude gmap strings pretty.
From Verif Require Import Base Ids PersistProps MlsModel.
From Verif Require ListGrid ListGridProps.

Section UpdateFacts.
  Context {P : Type} (merge : P -> P -> bool * P * P).
  Lemma phase1_length l o : length (phase1 merge l o).1 = length l.
  Proof.
    revert o. induction l as [|p l IH]; intros o; [done|]. cbn. destruct (merge p o) as [[b p1] o1].
    specialize (IH o1). destruct (phase1 merge l o1) as [r' o2]. cbn in *. by rewrite IH.
  Qed.
  Lemma absorb_length f l : length (absorb merge f l).2 <= length l.
  Proof.
    revert f. induction l as [|[q b] l IH]; intros f; [done|]. cbn. destruct b.
    - destruct (merge f q) as [[b f1] q1]. specialize (IH f1). destruct (absorb merge f1 l) as [f2 r2]. cbn in *.
      destruct b; cbn; lia.
    - specialize (IH f). destruct (absorb merge f l) as [f2 r2]. cbn in *. lia.
  Qed.
  Lemma phase2_ok n : forall l, length l <= n -> exists l', phase2 merge n l = Some l' /\
    length l' <= length l /\ (l <> [] -> l' <> []).
  Proof.
    induction n as [|n IH]; intros [|[q b] l] Hn; cbn in Hn; try lia; cbn.
    1,2: by exists [].
    destruct b.
    - pose proof (absorb_length q l) as Ha. destruct (absorb merge q l) as [q1 r1]. cbn in Ha.
      destruct (IH r1 ltac:(lia)) as (l' & -> & Hl & _). cbn. eexists. split; [done|]. cbn. split; [lia|done].
    - destruct (IH l ltac:(lia)) as (l' & -> & Hl & _). cbn. eexists. split; [done|]. cbn. split; [lia|done].
  Qed.
  Lemma update_list_ok l o : exists l' b, update_list merge l o = Some (l', b) /\ l' <> [] /\
    (b = true -> length l' = S (length l)) /\ (b = false -> length l' <= length l).
  Proof.
    unfold update_list. pose proof (phase1_length l o) as Hl. destruct (phase1 merge l o) as [l1 o1]. cbn in Hl.
    destruct (any_merged l1) eqn:Ha.
    - destruct (phase2_ok (length l1) l1 (le_n _)) as (l' & -> & Hlen & Hne). cbn. do 2 eexists. split; [done|].
      split; [|split; [done|lia]]. apply Hne. by destruct l1.
    - do 2 eexists. split; [done|]. split; [done|]. split; [|done]. cbn. rewrite fmap_length. lia.
  Qed.
End UpdateFacts.

(** * C47 *)
Section Counters.
  Context {P : Type} (merge : P -> P -> bool * P * P).
  Notation mls := (mls P) (only parsing).

  (** specification *)
  Definition patches (s : mls) : nat := sum_list ((fun xy => length (m_cell s xy.1 xy.2)) <$> ListGrid.coords (m_w s) (m_h s)).
  Definition occupied (s : mls) (x y : nat) : Prop := m_cell s x y <> [].
  Definition inside (x y : nat) (b : option (nat * nat * (nat * nat))) : Prop :=
    match b with None => False | Some ((x1, y1), (x2, y2)) => x1 <= x <= x2 /\ y1 <= y <= y2 end.

  (** all histories that only use operations from [ops], with assignments from other such grids if [asg] *)
  Inductive mrun (ops : mop P -> Prop) (asg : Prop) : mls -> Prop :=
  | m_new w h : mrun ops asg (new_mls w h)
  | m_step o s s' : mrun ops asg s -> ops o -> mlegal o s -> mstep merge o s = Ok s' -> mrun ops asg s'
  | m_assign src s : asg -> mrun ops asg src -> mrun ops asg s -> mrun ops asg (massign src s).

  Lemma sum_upd (f f' : nat * nat -> nat) cs xy :
    NoDup cs -> xy ∈ cs -> (forall z, z <> xy -> f' z = f z) ->
    sum_list (f' <$> cs) + f xy = sum_list (f <$> cs) + f' xy.
  Proof.
    intros Hn. induction cs as [|c cs IH]; [set_solver|]. apply NoDup_cons in Hn as [Hc Hn].
    rewrite elem_of_cons. intros Hin Heq. cbn. destruct (decide (c = xy)) as [->|Hne].
    - assert (f' <$> cs = f <$> cs) as ->.
      { apply list_fmap_ext. intros i z Hz. apply Heq. intros ->. apply Hc. by eapply elem_of_list_lookup_2. }
      lia.
    - destruct Hin as [->|Hin]; [done|]. rewrite Heq by done. specialize (IH Hn Hin Heq). lia.
  Qed.
  Lemma patches_set x y l s : x < m_w s -> y < m_h s ->
    patches (with_cell x y l s) + length (m_cell s x y) = patches s + length l.
  Proof.
    intros Hx Hy. unfold patches.
    pose proof (sum_upd (fun xy => length (m_cell s xy.1 xy.2)) (fun xy => length (m_cell (with_cell x y l s) xy.1 xy.2))
             (ListGrid.coords (m_w s) (m_h s)) (x, y)) as H. cbn in H.
    unfold set_cell in H at 3. rewrite decide_True in H by done. apply H.
    - apply ListGridProps.NoDup_coords.
    - by apply ListGridProps.elem_of_coords.
    - intros [x' y'] Hne. unfold set_cell. cbn. rewrite decide_False; [done|]. intros [-> ->]. done.
  Qed.
  Lemma patches_le s x y : x < m_w s -> y < m_h s -> length (m_cell s x y) <= patches s.
  Proof. intros Hx Hy. pose proof (patches_set x y [] s Hx Hy) as H. cbn in H. lia. Qed.
  Lemma patches_pos s : 0 < patches s -> exists x y, occupied s x y.
  Proof.
    unfold patches. induction (ListGrid.coords (m_w s) (m_h s)) as [|[x y] cs IH]; cbn; [lia|].
    intros H. destruct (m_cell s x y) eqn:Hl; [apply IH; cbn in H; lia|]. exists x, y. unfold occupied. by rewrite Hl.
  Qed.

  (** lists exist only inside of the grid *)
  Definition in_grid (s : mls) : Prop := forall x y, occupied s x y -> x < m_w s /\ y < m_h s.
  Lemma in_grid_set x y l s : (l <> [] -> x < m_w s /\ y < m_h s) -> in_grid s -> in_grid (with_cell x y l s).
  Proof.
    intros Hl Hg x' y'. unfold occupied. cbn. unfold set_cell. destruct (decide _) as [[-> ->]|_]; [done|]. apply Hg.
  Qed.
  Definition idx_covers (s : mls) : Prop := forall i, m_index s = Some i -> forall x y, occupied s x y -> (x, y) ∈ i.
  Definition idx_exact (s : mls) : Prop := forall i, m_index s = Some i -> forall x y, (x, y) ∈ i <-> occupied s x y.
  Definition ext_covers (s : mls) : Prop := forall x y, occupied s x y -> inside x y (m_extents s).
  Definition count_ok (s : mls) : Prop := m_count s = Z.of_nat (patches s).
  Definition count_ge (s : mls) : Prop := (Z.of_nat (patches s) <= m_count s)%Z.

  Lemma inside_extend x y x' y' b : inside x y b -> inside x y (extend x' y' b).
  Proof. destruct b as [[[x1 y1] [x2 y2]]|]; cbn; [|done]. lia. Qed.
  Lemma inside_extend_self x y b : inside x y (extend x y b).
  Proof. destruct b as [[[x1 y1] [x2 y2]]|]; cbn; lia. Qed.

  (** what inserting a patch does *)
  Lemma add_cell_inv x y l s :
    x < m_w s -> y < m_h s -> l <> [] -> length l = S (length (m_cell s x y)) ->
    let s' := add_cell x y (with_cell x y l s) in
    (in_grid s -> in_grid s') /\ (count_ok s -> count_ok s') /\ (count_ge s -> count_ge s') /\
    (idx_covers s -> idx_covers s') /\ (idx_exact s -> idx_exact s') /\ (ext_covers s -> ext_covers s').
  Proof.
    intros Hx Hy Hl Hlen s'. pose proof (patches_set x y l s Hx Hy) as Hp.
    assert (Hocc : forall x' y', occupied s' x' y' <-> (x' = x /\ y' = y) \/ occupied s x' y').
    { intros x' y'. unfold occupied. subst s'. cbn. unfold set_cell. destruct (decide _) as [Heq|Hne]; [|tauto]. tauto. }
    change (patches (with_cell x y l s)) with (patches s') in Hp.
    split; [|split; [|split; [|split; [|split]]]].
    - intros Hg x' y'. rewrite Hocc. intros [[-> ->]|Ho]; [done|]. by apply Hg.
    - unfold count_ok. intros Hc. subst s'. cbn [m_count add_cell with_cell]. rewrite Hc. lia.
    - unfold count_ge. intros Hc. subst s'. cbn [m_count add_cell with_cell]. lia.
    - intros Hi i Hs' x' y'. subst s'. cbn in Hs'. destruct (m_index s) as [i0|] eqn:Hs; [|done]. injection Hs' as <-.
      rewrite Hocc. intros [[-> ->]|Ho]; [set_solver|]. specialize (Hi _ Hs _ _ Ho). set_solver.
    - intros Hi i Hs' x' y'. subst s'. cbn in Hs'. destruct (m_index s) as [i0|] eqn:Hs; [|done]. injection Hs' as <-.
      rewrite Hocc. specialize (Hi _ Hs x' y'). rewrite elem_of_union, elem_of_singleton, Hi. naive_solver.
    - intros He x' y'. rewrite Hocc. subst s'. cbn [m_extents add_cell with_cell]. intros [[-> ->]|Ho].
      + apply inside_extend_self.
      + apply inside_extend. by apply He.
  Qed.
  (** what replacing a list by a list that is not longer does *)
  Lemma shrink_inv x y l s :
    (l <> [] -> occupied s x y) -> length l <= length (m_cell s x y) ->
    let s' := with_count (m_count s - Z.of_nat (length (m_cell s x y) - length l)) (with_cell x y l s) in
    (in_grid s -> in_grid s') /\ (in_grid s -> count_ok s -> count_ok s') /\ (in_grid s -> count_ge s -> count_ge s') /\
    (idx_covers s -> idx_covers s') /\ ((occupied s x y -> l <> []) -> idx_exact s -> idx_exact s') /\ (ext_covers s -> ext_covers s').
  Proof.
    intros Hl Hlen s'.
    assert (Hocc : forall x' y', occupied s' x' y' -> occupied s x' y').
    { intros x' y'. unfold occupied. subst s'. cbn. unfold set_cell. destruct (decide _) as [[-> ->]|Hne]; [|done]. done. }
    assert (Hcnt : in_grid s -> (Z.of_nat (patches s') = Z.of_nat (patches s) - Z.of_nat (length (m_cell s x y) - length l))%Z).
    { intros Hg. destruct (m_cell s x y) as [|e r] eqn:Hc.
      - assert (l = []) as -> by (destruct l; [done|cbn in Hlen; lia]). cbn. rewrite Z.sub_0_r. f_equal. unfold patches.
        cbn. f_equal. apply list_fmap_ext. intros i [x' y'] _. cbn. unfold set_cell. destruct (decide _) as [[-> ->]|_]; [by rewrite Hc|done].
      - destruct (Hg x y) as [Hx Hy]; [unfold occupied; by rewrite Hc|].
        pose proof (patches_set x y l s Hx Hy) as Hp. change (patches (with_cell x y l s)) with (patches s') in Hp.
        pose proof (patches_le s x y Hx Hy). rewrite Hc in *. lia. }
    split; [|split; [|split; [|split; [|split]]]].
    - intros Hg x' y' Ho. apply Hg. by apply Hocc.
    - intros Hg Hc. unfold count_ok in *. rewrite (Hcnt Hg), <- Hc. done.
    - intros Hg Hc. unfold count_ge in *. rewrite (Hcnt Hg). subst s'. cbn [m_count with_count]. lia.
    - intros Hi i Hs' x' y' Ho. eapply Hi; [exact Hs'|]. by apply Hocc.
    - intros Hne Hi i Hs' x' y'. rewrite (Hi i Hs' x' y'). split; [|apply Hocc]. intros Ho. unfold occupied. subst s'. cbn.
      unfold set_cell. destruct (decide _) as [[-> ->]|_]; [by apply Hne|done].
    - intros He x' y' Ho. apply He. by apply Hocc.
  Qed.
  Definition not_move (o : mop P) : Prop := match o with MMove _ _ => False | _ => True end.
  Definition not_erase (o : mop P) : Prop := match o with MErase _ _ _ => False | _ => True end.

  Lemma moved_occupied xd yd s x y : occupied (mmove xd yd s) x y -> x < m_w s /\ y < m_h s.
  Proof. unfold occupied. cbn. destruct (decide _) as [(Hx & Hy & _)|_]; done. Qed.

  (** the number of patches does not grow when the grid is moved *)
  Lemma patches_move xd yd s : patches (mmove xd yd s) <= patches s.
  Proof.
    unfold patches. cbn [m_w m_h mmove].
    set (cs := ListGrid.coords (m_w s) (m_h s)).
    (** the source cell of a cell *)
    set (src := fun xy : nat * nat => (Z.to_nat (Z.of_nat xy.1 - xd), Z.to_nat (Z.of_nat xy.2 - yd))).
    set (ok := fun xy : nat * nat => (0 <= Z.of_nat xy.1 - xd < Z.of_nat (m_w s))%Z /\ (0 <= Z.of_nat xy.2 - yd < Z.of_nat (m_h s))%Z).
    assert (forall ds, (forall xy, xy ∈ ds -> xy ∈ cs) ->
      sum_list ((fun xy => length (m_cell (mmove xd yd s) xy.1 xy.2)) <$> ds) =
      sum_list ((fun xy => length (m_cell s xy.1 xy.2)) <$> (src <$> filter ok ds))) as Heq.
    { intros ds. induction ds as [|[x y] ds IH]; intros Hds; [done|]. rewrite fmap_cons. cbn [sum_list].
      rewrite IH by (intros; apply Hds; set_solver).
      assert ((x, y) ∈ cs) as Hin by (apply Hds; set_solver). apply ListGridProps.elem_of_coords in Hin as [Hx Hy].
      cbn [m_cell mmove fst snd]. destruct (decide (ok (x, y))) as [Hok|Hok].
      - rewrite filter_cons_True by done. rewrite fmap_cons. cbn [fmap list_fmap sum_list]. rewrite decide_True.
        + done.
        + destruct Hok. cbn in *. done.
      - rewrite filter_cons_False by done. rewrite decide_False; [done|]. intros (_ & _ & H1 & H2). apply Hok. done. }
    rewrite Heq by done. clear Heq.
    assert (forall ds es : list (nat * nat), NoDup ds -> (forall z, z ∈ ds -> z ∈ es) ->
      sum_list ((fun xy => length (m_cell s xy.1 xy.2)) <$> ds) <= sum_list ((fun xy => length (m_cell s xy.1 xy.2)) <$> es)) as Hsub.
    { clear. intros ds es Hn Hsub.
      assert (ds ⊆+ es) as Hsm by (by apply NoDup_submseteq).
      clear Hn Hsub. induction Hsm; cbn; lia. }
    apply Hsub.
    - apply NoDup_fmap_2_strong.
      + intros [x1 y1] [x2 y2] H1 H2. apply elem_of_list_filter in H1 as [[H1 H1'] _], H2 as [[H2 H2'] _]. cbn in *.
        subst src. cbn. intros [= Hx Hy]. f_equal; lia.
      + apply NoDup_filter. apply ListGridProps.NoDup_coords.
    - intros z Hz. apply elem_of_list_fmap in Hz as ([x y] & -> & Hin). apply elem_of_list_filter in Hin as [[H1 H2] Hin].
      cbn in *. apply ListGridProps.elem_of_coords. cbn. lia.
  Qed.

  Lemma step_inv o s s' : mlegal o s -> mstep merge o s = Ok s' -> in_grid s ->
    in_grid s' /\ (count_ge s -> count_ge s') /\
    (not_move o -> (count_ok s -> count_ok s') /\ (ext_covers s -> ext_covers s') /\
       (count_ge s -> idx_covers s -> idx_covers s') /\
       (not_erase o -> count_ge s -> idx_exact s -> idx_exact s')).
  Proof.
    intros Hl Hs Hg. destruct o as [x y p|x y p|x y i|x y i p|x y o| | |xd yd]; cbn [mstep mlegal not_move not_erase] in *.
    - injection Hs as <-. destruct Hl as [Hx Hy].
      destruct (add_cell_inv x y (p :: m_cell s x y) s Hx Hy ltac:(done) eq_refl) as (H1 & H2 & H3 & H4 & H5 & H6). tauto.
    - injection Hs as <-. destruct Hl as [Hx Hy].
      destruct (add_cell_inv x y (m_cell s x y ++ [p]) s Hx Hy) as (H1 & H2 & H3 & H4 & H5 & H6).
      { by destruct (m_cell s x y). } { rewrite app_length. cbn. lia. } tauto.
    - injection Hs as <-.
      assert (Hlen : length (delete i (m_cell s x y)) = length (m_cell s x y) - 1).
      { apply length_delete. by apply lookup_lt_is_Some_2. }
      destruct (shrink_inv x y (delete i (m_cell s x y)) s) as (H1 & H2 & H3 & H4 & H5 & H6).
      { intros _. unfold occupied. destruct (m_cell s x y); [cbn in Hl; lia|done]. }
      { lia. }
      rewrite Hlen in *. replace (length (m_cell s x y) - (length (m_cell s x y) - 1)) with 1 in * by lia.
      unfold erase. tauto.
    - injection Hs as <-.
      assert (Hlen : length (<[i:=p]> (m_cell s x y)) = length (m_cell s x y)) by apply insert_length.
      destruct (shrink_inv x y (<[i:=p]> (m_cell s x y)) s) as (H1 & H2 & H3 & H4 & H5 & H6).
      { intros _. unfold occupied. destruct (m_cell s x y); [cbn in Hl; lia|done]. }
      { lia. }
      rewrite Hlen, Nat.sub_diag, Z.sub_0_r in *.
      assert (with_count (m_count s) (with_cell x y (<[i:=p]> (m_cell s x y)) s) = set_patch x y i p s) as E by done.
      rewrite E in *. split; [tauto|]. split; [tauto|]. intros _. split; [tauto|]. split; [tauto|]. split; [tauto|].
      intros _ _. apply H5. intros Ho Hn. rewrite Hn in Hlen. cbn in Hlen. unfold occupied in Ho. by destruct (m_cell s x y).
    - unfold update_cell in Hs. destruct Hl as [Hx Hy].
      destruct (update_list_ok merge (m_cell s x y) o) as (l & b & Hu & Hne & Ht & Hf). rewrite Hu in Hs. destruct b.
      + injection Hs as <-. destruct (add_cell_inv x y l s Hx Hy Hne (Ht eq_refl)) as (H1 & H2 & H3 & H4 & H5 & H6). tauto.
      + injection Hs as <-. specialize (Hf eq_refl).
        destruct (shrink_inv x y l s) as (H1 & H2 & H3 & H4 & H5 & H6).
        { intros _ Hnil. unfold occupied in *. rewrite Hnil in Hf. destruct l; [done|cbn in Hf; lia]. }
        { done. } tauto.
    - injection Hs as <-.
      assert (Hno : forall x y, ~ occupied (mclear s) x y) by (intros x y H; by apply H).
      assert (Hp : patches (mclear s) = 0).
      { destruct (patches (mclear s)) eqn:E; [done|]. destruct (patches_pos (mclear s)) as (x & y & Ho); [lia|]. by destruct (Hno x y). }
      split; [intros x y Ho; by destruct (Hno x y)|]. split; [intros _; unfold count_ge; rewrite Hp; done|]. intros _.
      split; [intros _; unfold count_ok; rewrite Hp; done|]. split; [intros _ x y Ho; by destruct (Hno x y)|].
      split; [intros _ _ i Hi x y Ho; by destruct (Hno x y)|]. intros _ _ _ i Hi x y. cbn in Hi.
      destruct (m_index s); [|done]. injection Hi as <-. split; [set_solver|]. intros Ho. by destruct (Hno x y).
    - injection Hs as <-. split; [exact Hg|]. split; [done|]. intros _. split; [done|]. split; [done|].
      assert (Hex : count_ge s -> idx_exact (init_index s)).
      { intros Hc i Hi x y. cbn in Hi. injection Hi as <-. unfold occupied. cbn [m_cell init_index].
        destruct (decide (0 < m_count s)%Z) as [Hpos|Hpos].
        - unfold generate_index, cells_of. rewrite elem_of_list_to_set, elem_of_list_filter, ListGridProps.elem_of_coords. cbn.
          split; [tauto|]. intros Ho. split; [done|]. by apply Hg.
        - split; [set_solver|]. intros Ho. destruct (Hg x y Ho) as [Hx Hy]. pose proof (patches_le s x y Hx Hy) as Hp.
          unfold count_ge in Hc. destruct (m_cell s x y) eqn:E; [done|]. cbn in Hp. lia. }
      split; [|by intros _ Hc _; apply Hex]. intros Hc _ i Hi x y Ho. by apply (Hex Hc i Hi).
    - injection Hs as <-. split; [intros x y Ho; apply moved_occupied in Ho; exact Ho|]. split; [|done].
      unfold count_ge. intros Hc. pose proof (patches_move xd yd s). cbn [m_count mmove]. lia.
  Qed.

  Lemma mrun_basic ops asg s : mrun ops asg s -> in_grid s /\ count_ge s.
  Proof.
    induction 1 as [w h|o s s' _ [Hg Hc] _ Hl Hs|src s _ _ [Hg Hc] _ _].
    - split; [intros x y H; by destruct H|]. unfold count_ge.
      destruct (patches (new_mls w h)) eqn:E; [done|]. destruct (patches_pos (new_mls w h)) as (x & y & Ho); [lia|]. by destruct Ho.
    - destruct (step_inv o s s' Hl Hs Hg) as (H1 & H2 & _). auto.
    - done.
  Qed.

  (** every legal operation succeeds *)
  Theorem C47_total ops asg s o : mrun ops asg s -> mlegal o s -> exists s', mstep merge o s = Ok s'.
  Proof.
    intros _ _. destruct o; cbn; eauto. unfold update_cell.
    destruct (update_list_ok merge (m_cell s x y) o) as (l & b & -> & _). destruct b; eauto.
  Qed.

  (** getCellCount() is the number of patches, if the grid is not moved *)
  Theorem C47_count s : mrun not_move True s -> m_count s = Z.of_nat (patches s).
  Proof.
    intros Hr. change (count_ok s).
    induction Hr as [w h|o s s' Hr IH Ho Hl Hs|src s _ _ IH _ _].
    - unfold count_ok. destruct (patches (new_mls w h)) eqn:E; [done|].
      destruct (patches_pos (new_mls w h)) as (x & y & Hocc); [lia|]. by destruct Hocc.
    - destruct (mrun_basic _ _ _ Hr) as [Hg _]. destruct (step_inv o s s' Hl Hs Hg) as (_ & _ & H). destruct (H Ho) as (H1 & _). auto.
    - done.
  Qed.
  (** the extents cover all patches, if the grid is not moved *)
  Theorem C47_extents s x y : mrun not_move True s -> m_cell s x y <> [] -> inside x y (m_extents s).
  Proof.
    intros Hr. revert x y. change (ext_covers s).
    induction Hr as [w h|o s s' Hr IH Ho Hl Hs|src s _ _ IH _ _].
    - intros x y Hocc. by destruct Hocc.
    - destruct (mrun_basic _ _ _ Hr) as [Hg _]. destruct (step_inv o s s' Hl Hs Hg) as (_ & _ & H). destruct (H Ho) as (_ & H1 & _). auto.
    - done.
  Qed.
  (** the index contains every cell with a patch, if the grid is not moved and not assigned to *)
  Theorem C47_index_covers s i x y :
    mrun not_move False s -> m_index s = Some i -> m_cell s x y <> [] -> (x, y) ∈ i.
  Proof.
    intros Hr Hi Hocc. revert i Hi x y Hocc. change (idx_covers s).
    induction Hr as [w h|o s s' Hr IH Ho Hl Hs|]; [done| |done].
    destruct (mrun_basic _ _ _ Hr) as [Hg Hc]. destruct (step_inv o s s' Hl Hs Hg) as (_ & _ & H). destruct (H Ho) as (_ & _ & H1 & _). auto.
  Qed.
  (** ... and no other cell, if no patch is erased by the user: updateCell may erase patches *)
  Theorem C47_index s i x y :
    mrun (fun o => not_move o /\ not_erase o) False s -> m_index s = Some i -> (x, y) ∈ i <-> m_cell s x y <> [].
  Proof.
    intros Hr Hi. revert i Hi x y. change (idx_exact s).
    induction Hr as [w h|o s s' Hr IH [Ho He] Hl Hs|]; [done| |done].
    destruct (mrun_basic _ _ _ Hr) as [Hg Hc]. destruct (step_inv o s s' Hl Hs Hg) as (_ & _ & H). destruct (H Ho) as (_ & _ & _ & H1). auto.
  Qed.
  (** after any history, initIndex makes the index exact *)
  Theorem C47_reindex s x y :
    mrun (fun _ => True) True s ->
    exists i, m_index (init_index s) = Some i /\ ((x, y) ∈ i <-> m_cell s x y <> []).
  Proof.
    intros Hr. destruct (mrun_basic _ _ _ Hr) as [Hg Hc]. eexists. split; [reflexivity|].
    destruct (decide (0 < m_count s)%Z) as [Hpos|Hpos].
    - unfold generate_index, cells_of. rewrite elem_of_list_to_set, elem_of_list_filter, ListGridProps.elem_of_coords. cbn.
      split; [tauto|]. intros Ho. split; [done|]. by apply Hg.
    - split; [set_solver|]. intros Ho. destruct (Hg x y Ho) as [Hx Hy]. pose proof (patches_le s x y Hx Hy) as Hp.
      unfold count_ge in Hc. destruct (m_cell s x y) eqn:E; [done|]. cbn in Hp. lia.
  Qed.
End Counters.

(** * Concrete grids: patches are numbers, equal numbers merge *)
Definition nat_merge (p o : nat) : bool * nat * nat := if decide (p = o) then (true, S p, o) else (false, p, o).

Ltac mrun_step H o :=
  eapply (m_step nat_merge _ _ o) in H; [|cbn; tauto|vm_compute; lia|reflexivity].
Example C47_nonvacuous :
  exists s, mrun nat_merge (fun o => not_move o /\ not_erase o) False s /\ m_count s = 3%Z /\ patches s = 3 /\
    m_cell s 1 2 = [6; 7] /\ m_index s = Some {[(0, 0); (1, 2)]} /\ m_extents s = Some ((0, 0), (1, 2)).
Proof.
  pose proof (m_new nat_merge (fun o => not_move o /\ not_erase o) False 2 3) as H.
  mrun_step H (@MInitIndex nat). mrun_step H (MInsTail 1 2 7). mrun_step H (MInsHead 1 2 5). mrun_step H (MInsHead 0 0 9).
  mrun_step H (MUpdate 1 2 5). (* merges with the 5 *)
  eexists. split; [exact H|].
  do 2 (split; [vm_compute; reflexivity|]). split; [vm_compute; reflexivity|].
  split; [|vm_compute; reflexivity].
  apply (f_equal Some). apply set_eq. intros [x y]. cbn. set_solver.
Qed.

(** moving the grid makes the counter, the index and the extents wrong *)
Theorem C47_move_refuted :
  exists s, mrun nat_merge (fun _ => True) False s /\ m_count s = 1%Z /\ patches s = 0.
Proof.
  pose proof (m_new nat_merge (fun _ => True) False 2 1) as H.
  mrun_step H (MInsHead 1 0 5). mrun_step H (@MMove nat 1 0).
  eexists. split; [exact H|]. split; vm_compute; reflexivity.
Qed.
Theorem C47_move_index_refuted :
  exists s i, mrun nat_merge (fun _ => True) False s /\ m_index s = Some i /\ m_cell s 1 0 = [5] /\
    (1, 0) ∉ i /\ ~ inside 1 0 (m_extents s).
Proof.
  pose proof (m_new nat_merge (fun _ => True) False 2 1) as H.
  mrun_step H (@MInitIndex nat). mrun_step H (MInsHead 0 0 5). mrun_step H (@MMove nat 1 0).
  eexists _, _. split; [exact H|].
  split; [reflexivity|]. split; [vm_compute; reflexivity|]. split; [cbn; set_solver|]. cbn. lia.
Qed.
(** erasing the last patch of a cell leaves the cell in the index *)
Theorem C47_erase_refuted :
  exists s i, mrun nat_merge not_move False s /\ m_index s = Some i /\ m_cell s 0 0 = [] /\ (0, 0) ∈ i.
Proof.
  pose proof (m_new nat_merge not_move False 2 1) as H.
  mrun_step H (@MInitIndex nat). mrun_step H (MInsHead 0 0 5). mrun_step H (@MErase nat 0 0 0).
  eexists _, _. split; [exact H|].
  split; [reflexivity|]. split; [vm_compute; reflexivity|]. cbn. set_solver.
Qed.
(** assigning to a grid keeps its old index *)
Theorem C47_assign_refuted :
  exists s i, mrun nat_merge (fun o => not_move o /\ not_erase o) True s /\ m_index s = Some i /\ m_cell s 0 0 = [5] /\ (0, 0) ∉ i.
Proof.
  pose proof (m_new nat_merge (fun o => not_move o /\ not_erase o) True 2 1) as H.
  pose proof H as H2. mrun_step H (MInsHead 0 0 5). mrun_step H2 (@MInitIndex nat).
  pose proof (m_assign nat_merge _ _ _ _ Logic.I H H2) as H3.
  eexists _, _. split; [exact H3|].
  split; [reflexivity|]. split; [vm_compute; reflexivity|]. cbn. set_solver.
Qed.

(** * C48 *)
Section Files.
  Context {P rec : Type} (sz : nat) (image : rec -> list Byte.byte) (of_image : list Byte.byte -> rec).
  Context (store : P -> nat -> nat -> rec) (load : rec -> P * nat * nat).
  Context (Hsz : 0 < sz) (Hsz_max : (Z.of_nat sz <= long_max)%Z).
  Context (Hlen : forall r, length (image r) = sz).
  Context (Himage : forall r, of_image (image r) = r).
  (** positions are stored as size_t *)
  Context (max : nat) (Hload : forall p x y, x < max -> y < max -> load (store p x y) = (p, x, y)).

  (** the patches that the records put into a cell *)
  Definition for_cell (x y : nat) (rs : list rec) : list P :=
    omap (fun r => let '(p, x', y') := load r in if decide (x = x' /\ y = y') then Some p else None) rs.
  Lemma read_records_ok rs : forall f s,
    (forall r, r ∈ rs -> (load r).1.2 < m_w s /\ (load r).2 < m_h s) -> length rs <= f ->
    exists s', read_records rec sz of_image load f (mjoin (image <$> rs)) s = Ok s' /\
      m_w s' = m_w s /\ m_h s' = m_h s /\ forall x y, m_cell s' x y = m_cell s x y ++ for_cell x y rs.
  Proof.
    induction rs as [|r rs IH]; intros f s Hin Hf.
    - cbn. exists s. destruct f; cbn; (destruct (decide _) as [_|Hn]; [|lia]); (do 3 (split; [done|])); intros; by rewrite app_nil_r.
    - destruct f as [|f]; [cbn in Hf; lia|]. cbn [read_records fmap list_fmap mjoin list_join]. rewrite decide_False.
      2:{ rewrite app_length, Hlen. lia. }
      rewrite take_app_alt, drop_app_alt by (by rewrite Hlen). rewrite Himage.
      destruct (Hin r ltac:(set_solver)) as [Hx Hy]. destruct (load r) as [[p x] y] eqn:Hr. cbn in Hx, Hy.
      rewrite decide_True by done.
      destruct (IH f (insert_tail x y p s)) as (s' & Hs' & Hw & Hh & Hc).
      { intros r' Hr'. apply Hin. set_solver. } { cbn in Hf. lia. }
      exists s'. split; [exact Hs'|]. split; [done|]. split; [done|]. intros x' y'. rewrite Hc.
      cbn [m_cell insert_tail add_cell with_cell]. unfold set_cell. cbn [for_cell omap list_omap]. rewrite Hr.
      destruct (decide (x' = x /\ y' = y)) as [[-> ->]|Hne]; [by rewrite <- app_assoc|done].
  Qed.
  Lemma for_cell_app x y r1 r2 : for_cell x y (r1 ++ r2) = for_cell x y r1 ++ for_cell x y r2.
  Proof. apply omap_app. Qed.
  Lemma for_cell_store x y x' y' (l : list P) : x' < max -> y' < max ->
    for_cell x y ((fun p => store p x' y') <$> l) = if decide (x = x' /\ y = y') then l else [].
  Proof.
    intros Hx Hy. induction l as [|p l IH]; [by destruct (decide _)|]. rewrite fmap_cons. cbn [for_cell omap list_omap].
    rewrite Hload by done.
    fold (for_cell x y ((fun p => store p x' y') <$> l)). rewrite IH. by destruct (decide _).
  Qed.
  Lemma for_cell_records x y (s : mls P) :
    m_w s <= max -> m_h s <= max -> in_grid s -> for_cell x y (records rec store s) = m_cell s x y.
  Proof.
    intros Hw Hh Hg. unfold records, cells_of.
    assert (forall cs, NoDup cs -> (forall x y, (x, y) ∈ cs -> x < max /\ y < max) -> for_cell x y (cs ≫= fun xy => (fun p => store p xy.1 xy.2) <$> m_cell s xy.1 xy.2) =
       if decide ((x, y) ∈ cs) then m_cell s x y else []) as H.
    { intros cs. induction cs as [|[x' y'] cs IH]; intros Hn Hmax; [done|]. apply NoDup_cons in Hn as [Hc Hn].
      destruct (Hmax x' y') as [Hx' Hy']; [set_solver|].
      rewrite bind_cons, for_cell_app, for_cell_store by done.
      rewrite IH by (done || intros; apply Hmax; set_solver). cbn [fst snd].
      destruct (decide (x = x' /\ y = y')) as [[-> ->]|Hne].
      - rewrite decide_False by done. rewrite decide_True by set_solver. apply app_nil_r.
      - destruct (decide ((x, y) ∈ cs)) as [Hin|Hin].
        + by rewrite decide_True by set_solver.
        + rewrite decide_False; [done|]. rewrite elem_of_cons. intros [[= -> ->]|]; naive_solver. }
    rewrite H; [|apply ListGridProps.NoDup_coords|].
    2:{ intros x' y' Hin. apply ListGridProps.elem_of_coords in Hin. lia. }
    destruct (decide _) as [_|Hout]; [done|].
    destruct (m_cell s x y) eqn:E; [done|]. destruct Hout. apply ListGridProps.elem_of_coords. apply Hg. unfold occupied. by rewrite E.
  Qed.
  (** reading what was written into an empty grid of the same size gives every patch of every cell, in order *)
  Theorem C48_roundtrip merge ops asg (s : mls P) : mrun merge ops asg s -> m_w s <= max -> m_h s <= max ->
    exists s', read_map rec sz of_image load (write_map rec sz image store s) (new_mls (m_w s) (m_h s)) = Ok s' /\
      m_w s' = m_w s /\ m_h s' = m_h s /\ forall x y, m_cell s' x y = m_cell s x y.
  Proof using Hlen Himage Hload Hsz Hsz_max.
    intros Hr Hmw Hmh. destruct (mrun_basic _ _ _ _ Hr) as [Hg _].
    unfold read_map, write_map. cbn [fst snd]. rewrite decide_False by (intros H; by apply H). rewrite decide_False by (intros H; by apply H).
    rewrite to_long_pretty by (unfold long_min; unfold long_max in *; lia).
    rewrite decide_False by (intros H; by apply H). rewrite decide_False by (intros H; by apply H).
    destruct (read_records_ok (records rec store s) (length (mjoin (image <$> records rec store s))) (new_mls (m_w s) (m_h s)))
      as (s' & Hs' & Hw & Hh & Hc).
    - intros r Hrec. unfold records, cells_of in Hrec. apply elem_of_list_bind in Hrec as ([x y] & Hrec & Hin).
      apply elem_of_list_fmap in Hrec as (p & -> & _).
      apply ListGridProps.elem_of_coords in Hin. cbn. rewrite Hload by lia. done.
    - clear - Hlen Hsz. induction (records rec store s) as [|r rs IH]; [done|]. change (S (length rs) <= length (image r ++ mjoin (image <$> rs))). rewrite app_length, Hlen. lia.
    - exists s'. split; [exact Hs'|]. split; [done|]. split; [done|]. intros x y. rewrite Hc. cbn. by apply for_cell_records.
  Qed.
End Files.

(** ** the records of version 1.3

    The numbers and the fitted plane are parameters. *)
Section Store13.
  Context {F Pl : Type} (one : F) (inv_pow4 : F -> F) (plane_of : F -> F -> Pl).
  Inductive ptype := VERTICAL | HORIZONTAL | NEGATIVE.
  (** MLSPatch.hpp:443-462 *)
  Record spatch := SPatch {
    sp_mean : F; sp_stdev : F; sp_height : F; sp_plane : Pl; sp_min : F; sp_max : F; sp_n : F; sp_normsq : F;
    sp_idx : nat; sp_color : Byte.byte * Byte.byte * Byte.byte; sp_type : ptype }.
  (** MLSPatch.hpp:51-62; the colour is not initialised *)
  Definition make_patch (junk : Byte.byte * Byte.byte * Byte.byte) (mean stdev height : F) (t : ptype) : spatch :=
    SPatch mean stdev height (plane_of mean stdev) mean mean one (inv_pow4 stdev) 0 junk t.
  (** MLSGrid.cpp:261-273 and 289-297: [SurfacePatchStore13] and [SurfacePatchStore] have the same members in the same order *)
  Record store13 := Store13 {
    st_mean : F; st_stdev : F; st_height : F; st_plane : Pl; st_min : F; st_max : F; st_n : F; st_normsq : F;
    st_idx : nat; st_color : Byte.byte * Byte.byte * Byte.byte; st_type : ptype; st_x : nat; st_y : nat }.
  (** MLSGrid.cpp:293-294 *)
  Definition store_patch (p : spatch) (x y : nat) : store13 :=
    Store13 (sp_mean p) (sp_stdev p) (sp_height p) (sp_plane p) (sp_min p) (sp_max p) (sp_n p) (sp_normsq p)
            (sp_idx p) (sp_color p) (sp_type p) x y.
  (** MLSGrid.cpp:275-286 *)
  Definition to_patch junk (d : store13) : spatch :=
    let p := make_patch junk (st_mean d) (st_stdev d) (st_height d) (st_type d) in
    SPatch (sp_mean p) (sp_stdev p) (sp_height p) (st_plane d) (st_min d) (st_max d) (st_n d) (st_normsq d)
           (st_idx d) (st_color d) (sp_type p).
  (** every member of a patch survives *)
  Theorem C48_patch junk p x y :
    to_patch junk (store_patch p x y) = p /\ st_x (store_patch p x y) = x /\ st_y (store_patch p x y) = y.
  Proof. by destruct p. Qed.
End Store13.

(** a grid of bytes with records of three bytes *)
Definition byte_store (p : Byte.byte) (x y : nat) : Byte.byte * Byte.byte * Byte.byte :=
  (p, default Byte.x00 (Byte.of_nat x), default Byte.x00 (Byte.of_nat y)).
Definition byte_image (r : Byte.byte * Byte.byte * Byte.byte) : list Byte.byte := let '(a, b, c) := r in [a; b; c].
Definition byte_of_image (l : list Byte.byte) : Byte.byte * Byte.byte * Byte.byte :=
  match l with a :: b :: c :: _ => (a, b, c) | _ => (Byte.x00, Byte.x00, Byte.x00) end.
Definition byte_load (r : Byte.byte * Byte.byte * Byte.byte) : Byte.byte * nat * nat :=
  let '(a, b, c) := r in (a, Byte.to_nat b, Byte.to_nat c).
Lemma byte_nat x : x < 256 -> Byte.to_nat (default Byte.x00 (Byte.of_nat x)) = x.
Proof.
  intros Hx. destruct (Byte.of_nat x) as [b|] eqn:E; cbn.
  - by apply Byte.to_of_nat.
  - apply Byte.of_nat_None_iff in E. lia.
Qed.
Example C48_nonvacuous :
  (forall r, length (byte_image r) = 3) /\ (forall r, byte_of_image (byte_image r) = r) /\
  (forall p x y, x < 256 -> y < 256 -> byte_load (byte_store p x y) = (p, x, y)) /\
  exists s, mrun (fun p o => (false, p, o)) (fun _ => True) True s /\ m_w s <= 256 /\ m_h s <= 256 /\
    m_cell s 1 0 = [Byte.x07; Byte.x09].
Proof.
  split; [by intros [[a b] c]|]. split; [by intros [[a b] c]|]. split.
  { intros p x y Hx Hy. cbn. by rewrite !byte_nat. }
  pose proof (m_new (fun p o : Byte.byte => (false, p, o)) (fun _ => True) True 2 1) as H.
  eapply (m_step _ _ _ (MInsTail 1 0 Byte.x09)) in H; [|done|cbn; lia|reflexivity].
  eapply (m_step _ _ _ (MInsHead 1 0 Byte.x07)) in H; [|done|cbn; lia|reflexivity].
  eexists. split; [exact H|]. cbn. split; [lia|]. split; [lia|]. reflexivity.
Qed.
