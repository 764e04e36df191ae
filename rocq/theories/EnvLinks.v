(** Link functions of the environment: effect on tables, well-formedness, events. *)
From stdpp Require Import prelude strings gmap pretty.
From Verif Require Import Base AssocLemmas EnvModel EnvSpec EnvLib EnvGood EnvAttach.

Lemma with_tree_id x : with_tree x (e_tree x) = x. Proof. by destruct x. Qed.
Lemma with_layers_id x : with_layers x (e_layers x) = x. Proof. by destruct x. Qed.
Lemma with_maps_id x : with_maps x (e_maps x) = x. Proof. by destruct x. Qed.
Lemma with_in_id x : with_in x (e_in x) = x. Proof. by destruct x. Qed.
Lemma with_out_id x : with_out x (e_out x) = x. Proof. by destruct x. Qed.

Lemma room_le (E : Prop) k k' s : k' <= k -> E \/ room k s -> E \/ room k' s.
Proof. intros Hk [|[Hr1 Hr2]]; [by left|right]. split; [done|]. nia. Qed.

(** the five link tables agree *)
Definition same_links (x y : env) : Prop :=
  e_tree y = e_tree x /\ e_layers y = e_layers x /\ e_in y = e_in x /\ e_out y = e_out x /\ e_maps y = e_maps x.

Section tables.
  Context (me : eid) (s : st) (HI : Inv me s).
  Let D := has any me (hp s).
  Lemma D_inj p q : D p -> D q -> idn (hp s) p = idn (hp s) q -> p = q.
  Proof using HI. by apply inv_id_inj. Qed.
  Lemma tree_D a b : (a, b) ∈ e_tree (en s) -> D a /\ D b.
  Proof using HI. intros H. apply (inv_tree _ _ HI) in H as (?&?&?). split; by eapply has_any. Qed.
  Lemma maps_D a b : (a, b) ∈ e_maps (en s) -> D a /\ D b.
  Proof using HI. intros H. apply (inv_maps _ _ HI) in H as (?&?). split; by eapply has_any. Qed.
  Lemma layers_D a b : (a, b) ∈ e_layers (en s) -> D a /\ D b.
  Proof using HI. intros H. apply (inv_layers _ _ HI) in H as (?&?&?). split; by eapply has_any. Qed.
  Lemma in_D a b : (a, b) ∈ e_in (en s) -> D a /\ D b.
  Proof using HI. intros H. apply (inv_in _ _ HI) in H as (?&?). split; by eapply has_any. Qed.
  Lemma out_D a b : (a, b) ∈ e_out (en s) -> D a /\ D b.
  Proof using HI. intros H. apply (inv_out _ _ HI) in H as (?&?). split; by eapply has_any. Qed.

  (** frame tree *)
  Lemma Inv_tree_del c t : Inv me (St (hp s) (with_tree (en s) (del_key c (e_tree (en s)))) t).
  Proof using HI.
    constructor; simpl; try apply HI.
    - apply del_key_nodup, HI.
    - intros a b [? _]%elem_of_del_key. by apply HI.
  Qed.
  Lemma Inv_tree_ins c p t : has is_frame me (hp s) c -> has is_frame me (hp s) p -> c <> p ->
    get_parent (en s) c = None ->
    Inv me (St (hp s) (with_tree (en s) (ins plt c p (e_tree (en s)))) t).
  Proof using HI.
    intros. constructor; simpl; try apply HI.
    - apply ins_nodup; [done|apply HI].
    - intros a b [?|?]%elem_of_ins; [naive_solver|]. by apply HI.
  Qed.
  Lemma Inv_maps_del c t : Inv me (St (hp s) (with_maps (en s) (del_key c (e_maps (en s)))) t).
  Proof using HI.
    constructor; simpl; try apply HI.
    - apply del_key_nodup, HI.
    - intros a b [? _]%elem_of_del_key. by apply HI.
  Qed.
  Lemma Inv_maps_ins m n t : has is_map me (hp s) m -> has is_frame me (hp s) n ->
    get_frame (en s) m = None ->
    Inv me (St (hp s) (with_maps (en s) (ins plt m n (e_maps (en s)))) t).
  Proof using HI.
    intros. constructor; simpl; try apply HI.
    - apply ins_nodup; [done|apply HI].
    - intros a b [?|?]%elem_of_ins; [naive_solver|]. by apply HI.
  Qed.
  Lemma Inv_layers_ins c p t : has is_layer me (hp s) c -> has is_layer me (hp s) p -> c <> p ->
    Inv me (St (hp s) (with_layers (en s) (ins plt c p (e_layers (en s)))) t).
  Proof using HI.
    intros. constructor; simpl; try apply HI.
    intros a b [?|?]%elem_of_ins; [naive_solver|]. by apply HI.
  Qed.
  Lemma Inv_layers_del c p t : Inv me (St (hp s) (with_layers (en s) (del_one c p (e_layers (en s)))) t).
  Proof using HI.
    constructor; simpl; try apply HI. intros a b ?%elem_of_del_one. by apply HI.
  Qed.
  Lemma Inv_in l t : (forall a b, (a, b) ∈ l -> has is_op me (hp s) a /\ has is_layer me (hp s) b) ->
    Inv me (St (hp s) (with_in (en s) l) t).
  Proof using HI. intros. constructor; simpl; try apply HI. done. Qed.
  Lemma Inv_out l t : (forall a b, (a, b) ∈ l -> has is_op me (hp s) a /\ has is_layer me (hp s) b) ->
    Inv me (St (hp s) (with_out (en s) l) t).
  Proof using HI. intros. constructor; simpl; try apply HI. done. Qed.

  Lemma Good_in d l : (forall a b, (a, b) ∈ l -> has is_op me (hp s) a /\ has is_layer me (hp s) b) ->
    Good d me s (set_en s (with_in (en s) l)).
  Proof using HI. intros. apply (Good_silent d me s); simpl; try done. by apply Inv_in. Qed.
  Lemma Good_out d l : (forall a b, (a, b) ∈ l -> has is_op me (hp s) a /\ has is_layer me (hp s) b) ->
    Good d me s (set_en s (with_out (en s) l)).
  Proof using HI. intros. apply (Good_silent d me s); simpl; try done. by apply Inv_out. Qed.

  Lemma Good_tree_del d p c : get_parent (en s) c = Some p ->
    Good d me s (St (hp s) (with_tree (en s) (del_key c (e_tree (en s))))
                    (tr s ++ deliver me (e_handlers (en s)) [mk_event (hp s) ETree ERemove p (Some c)])).
  Proof using HI.
    intros Hc. pose proof (assoc_in _ _ _ Hc) as Hin. apply tree_D in Hin as [Dc Dp].
    apply Good_event; simpl; auto using Inv_tree_del. intros m (M1&M2&M3&M4).
    unfold mk_event, mstep. simpl. rewrite decide_True.
    - eexists. split; [done|]. repeat split; simpl; try done.
      rewrite M2. symmetry. apply (by_id_del _ D); [apply D_inj|done|]. intros a b Hab. apply tree_D in Hab; tauto.
    - rewrite M2. rewrite (by_id_lookup _ D); [|apply D_inj|done|intros a b Hab; apply tree_D in Hab; tauto].
      unfold get_parent in Hc. by rewrite Hc.
  Qed.
  Lemma Good_tree_ins d p c : has is_frame me (hp s) c -> has is_frame me (hp s) p -> c <> p ->
    get_parent (en s) c = None ->
    Good d me s (St (hp s) (with_tree (en s) (ins plt c p (e_tree (en s))))
                    (tr s ++ deliver me (e_handlers (en s)) [mk_event (hp s) ETree EAdd p (Some c)])).
  Proof using HI.
    intros Hc Hp Hne Hn. apply Good_event; simpl; auto using Inv_tree_ins. intros m HM. pose proof HM as (M1&M2&M3&M4).
    unfold mk_event, mstep. simpl. rewrite decide_True.
    - eexists. split; [done|]. repeat split; simpl; try done.
      rewrite M2. symmetry. apply (by_id_ins _ D); [apply D_inj|by eapply has_any| |apply HI|done].
      intros a b Hab. apply tree_D in Hab; tauto.
    - repeat split; [by eapply mirrors_known..|].
      rewrite M2. rewrite (by_id_lookup _ D); [|apply D_inj|by eapply has_any|intros a b Hab; apply tree_D in Hab; tauto].
      unfold get_parent in Hn. by rewrite Hn.
  Qed.
  Lemma Good_maps_del d m n : get_frame (en s) m = Some n ->
    Good d me s (St (hp s) (with_maps (en s) (del_key m (e_maps (en s))))
                    (tr s ++ deliver me (e_handlers (en s)) [mk_event (hp s) EFrame ERemove m (Some n)])).
  Proof using HI.
    intros Hc. pose proof (assoc_in _ _ _ Hc) as Hin. apply maps_D in Hin as [Dc Dp].
    apply Good_event; simpl; auto using Inv_maps_del. intros mm (M1&M2&M3&M4).
    unfold mk_event, mstep. simpl. rewrite decide_True.
    - eexists. split; [done|]. repeat split; simpl; try done.
      rewrite M3. symmetry. apply (by_id_del _ D); [apply D_inj|done|]. intros a b Hab. apply maps_D in Hab; tauto.
    - rewrite M3. rewrite (by_id_lookup _ D); [|apply D_inj|done|intros a b Hab; apply maps_D in Hab; tauto].
      unfold get_frame in Hc. by rewrite Hc.
  Qed.
  Lemma Good_maps_ins d m n : has is_map me (hp s) m -> has is_frame me (hp s) n ->
    get_frame (en s) m = None ->
    Good d me s (St (hp s) (with_maps (en s) (ins plt m n (e_maps (en s))))
                    (tr s ++ deliver me (e_handlers (en s)) [mk_event (hp s) EFrame EAdd m (Some n)])).
  Proof using HI.
    intros Hc Hp Hn. apply Good_event; simpl; auto using Inv_maps_ins. intros mm HM. pose proof HM as (M1&M2&M3&M4).
    unfold mk_event, mstep. simpl. rewrite decide_True.
    - eexists. split; [done|]. repeat split; simpl; try done.
      rewrite M3. symmetry. apply (by_id_ins _ D); [apply D_inj|by eapply has_any| |apply HI|done].
      intros a b Hab. apply maps_D in Hab; tauto.
    - repeat split; [by eapply mirrors_known..|].
      rewrite M3. rewrite (by_id_lookup _ D); [|apply D_inj|by eapply has_any|intros a b Hab; apply maps_D in Hab; tauto].
      unfold get_frame in Hn. by rewrite Hn.
  Qed.
  Lemma Good_layers_ins d p c : has is_layer me (hp s) c -> has is_layer me (hp s) p -> c <> p ->
    Good d me s (St (hp s) (with_layers (en s) (ins plt c p (e_layers (en s))))
                    (tr s ++ deliver me (e_handlers (en s)) [mk_event (hp s) ELayer EAdd p (Some c)])).
  Proof using HI.
    intros Hc Hp Hne. apply Good_event; simpl; auto using Inv_layers_ins. intros m HM. pose proof HM as (M1&M2&M3&M4).
    unfold mk_event, mstep. simpl. rewrite decide_True.
    - eexists. split; [done|]. repeat split; simpl; try done.
      unfold by_id. rewrite ins_perm. simpl. by rewrite M4.
    - split; by eapply mirrors_known.
  Qed.
  Lemma Good_layers_del d p c : has is_layer me (hp s) c -> has is_layer me (hp s) p ->
    Good d me s (St (hp s) (with_layers (en s) (del_one c p (e_layers (en s))))
                    (tr s ++ deliver me (e_handlers (en s)) [mk_event (hp s) ELayer ERemove p (Some c)])).
  Proof using HI.
    intros Hc Hp. apply Good_event; simpl; auto using Inv_layers_del. intros m HM. pose proof HM as (M1&M2&M3&M4).
    unfold mk_event, mstep. simpl. rewrite decide_True by (split; by eapply mirrors_known).
    eexists. split; [done|]. repeat split; simpl; try done.
    assert (Hinj : forall a b, (a, b) ∈ e_layers (en s) -> idn (hp s) a = idn (hp s) c -> idn (hp s) b = idn (hp s) p -> (a, b) = (c, p)).
    { intros a b Hab Ha Hb. apply layers_D in Hab as [Da Db]. assert (Dc : D c) by (by eapply has_any). assert (Dp : D p) by (by eapply has_any). by rewrite (D_inj a c), (D_inj b p). }
    destruct (decide ((c, p) ∈ e_layers (en s))) as [Hin|Hnin].
    - pose proof (del_one_perm c p _ Hin) as Hperm.
      assert (Hmin : (idn (hp s) c, idn (hp s) p) ∈ m_layers m).
      { rewrite M4. unfold by_id. apply elem_of_list_fmap. by exists (c, p). }
      pose proof (del_one_perm _ _ _ Hmin) as Hperm2.
      apply (Permutation_cons_inv (a := (idn (hp s) c, idn (hp s) p))).
      rewrite Hperm2, M4. unfold by_id. by rewrite <- Hperm at 1.
    - rewrite (del_one_notin c p) by done. rewrite del_one_notin; [done|]. rewrite M4.
      unfold by_id. rewrite elem_of_list_fmap. intros [[a b] [Heq Hab]]. simpl in Heq. simplify_eq.
      apply Hnin. rewrite <- (Hinj a b); auto; congruence.
  Qed.
End tables.

(** ** The functions *)

Lemma attach_if_free_wp E k me p s it :
  Inv me s -> hp s !! p = Some it -> it_env it = None \/ it_env it = Some me -> E \/ room (S k) s ->
  wp E (attach_if_free me p s)
     (fun s' => Good false me s s' /\ has (fun k => bool_decide (k = it_kind it)) me (hp s') p /\
                same_links (en s) (en s') /\ (forall q, q <> p -> hp s' !! q = hp s !! q) /\
                (it_env it = Some me -> s' = s) /\
                (it_env it = None -> attach_post me p s it s') /\ (E \/ room k s'))
     (fun s' => Inv me s' /\ it_env it = None /\ attach_throw me p s it s').
Proof.
  intros HI Hp He Hr. unfold attach_if_free, deref. rewrite Hp.
  destruct (it_env it) as [e2|] eqn:Hit; simpl.
  - destruct He as [|He]; [done|]. split; [by apply Good_refl|]. split.
    { exists it. rewrite bool_decide_true; naive_solver. }
    repeat split; try done. by eapply (room_le _ (S k)); [lia|].
  - eapply wp_mono; [apply attach_core_wp; eauto| |].
    + intros s' (HG&HP&HR). split; [done|]. pose proof HP as (_&id'&l'&_&_&Hh&Hx&_). repeat split.
      * exists (attached_as it me id'). rewrite Hh, lookup_insert. by rewrite bool_decide_true.
      * by rewrite Hx.
      * by rewrite Hx.
      * by rewrite Hx.
      * by rewrite Hx.
      * by rewrite Hx.
      * intros q Hq. by rewrite Hh, lookup_insert_ne.
      * done.
      * done.
      * by destruct HP as [_ HP].
      * done.
    + simpl. intros s' (?&?). auto.
Qed.

Lemma has_of_kind f k me h p : has (fun k' => bool_decide (k' = k)) me h p -> f k = true -> has f me h p.
Proof. intros (it&?&?&Hk) Hf. exists it. split; [done|]. split; [done|]. apply bool_decide_eq_true in Hk. by subst. Qed.

Lemma Good_has me s s' f p : Good false me s s' -> has f me (hp s) p -> has f me (hp s') p.
Proof.
  intros HG (it&Hp&He&Hf). destruct (g_ids _ _ _ _ HG _ _ Hp He) as (it'&Hp'&He'&_).
  exists it'. split; [done|]. split; [done|]. destruct (g_old _ _ _ _ HG _ _ Hp') as (it0&H0&Hk&_). congruence.
Qed.

Lemma remove_child_f_eq me p c s : Inv me s ->
  remove_child_f me p c s =
  if decide (get_parent (en s) c = Some p)
  then Ok (St (hp s) (with_tree (en s) (del_key c (e_tree (en s))))
              (tr s ++ deliver me (e_handlers (en s)) [mk_event (hp s) ETree ERemove p (Some c)]))
  else Ok s.
Proof.
  intros HI. unfold remove_child_f. case_decide as Hc; [|done].
  pose proof (assoc_in _ _ _ Hc) as Hin. apply (tree_D _ _ HI) in Hin as [Dc Dp].
  unfold emit. rewrite (emit_to_ok me); [done|done|done|]. naive_solver.
Qed.
Lemma remove_child_f_wp E d me p c s : Inv me s ->
  wp E (remove_child_f me p c s)
     (fun s' => Good d me s s' /\ hp s' = hp s /\
        en s' = with_tree (en s) (if decide (get_parent (en s) c = Some p) then del_key c (e_tree (en s)) else e_tree (en s)))
     (fun _ => False).
Proof.
  intros HI. rewrite remove_child_f_eq by done. case_decide as Hc; simpl.
  - split; [by apply Good_tree_del|done].
  - split; [by apply Good_refl|]. by rewrite with_tree_id.
Qed.

Lemma add_child_f_wp E k me p c s ic :
  Inv me s -> has is_frame me (hp s) p -> hp s !! c = Some ic -> is_frame (it_kind ic) = true ->
  it_env ic = None \/ it_env ic = Some me -> p <> c -> E \/ room (S k) s ->
  wp E (add_child_f me p c s)
     (fun s' => Good false me s s' /\ has is_frame me (hp s') c /\
        e_tree (en s') = (if decide (get_parent (en s) c = Some p) then e_tree (en s)
                          else ins plt c p (del_key c (e_tree (en s)))) /\
        e_layers (en s') = e_layers (en s) /\ e_in (en s') = e_in (en s) /\ e_out (en s') = e_out (en s) /\
        e_maps (en s') = e_maps (en s))
     (fun s' => Inv me s' /\ it_env ic = None /\ attach_throw me c s ic s').
Proof.
  intros HI Hp Hc Hk Hce Hne Hr. unfold add_child_f. rewrite decide_False by done.
  case_decide as Hpar; simpl.
  - split; [by apply Good_refl|]. split; [|done]. apply assoc_in in Hpar. by apply (inv_tree _ _ HI) in Hpar as (?&_).
  - apply wp_bind. eapply wp_mono; [by apply (attach_if_free_wp E k me c s ic)| |naive_solver].
    intros s1 (G1&Hc1&(L1&L2&L3&L4&L5)&Hq1&_&_&_). pose proof (g_inv _ _ _ _ G1) as I1.
    assert (Hcf : has is_frame me (hp s1) c) by (by eapply has_of_kind).
    assert (Hpf : has is_frame me (hp s1) p) by (by eapply Good_has).
    (* the removal of the old parent *)
    assert (HR : wp E (match get_parent (en s1) c with Some q => remove_child_f me q c s1 | None => Ok s1 end)
      (fun s2 => Good false me s1 s2 /\ hp s2 = hp s1 /\ en s2 = with_tree (en s1) (del_key c (e_tree (en s1)))) (fun _ => False)).
    { destruct (get_parent (en s1) c) as [q|] eqn:Hq.
      - eapply wp_mono; [by apply (remove_child_f_wp E false)| |done].
        intros s2 (G2&H2&X2). rewrite decide_True in X2 by done. done.
      - simpl. split; [by apply Good_refl|]. split; [done|]. rewrite del_key_fresh by done. by rewrite with_tree_id. }
    apply wp_bind. eapply wp_mono; [exact HR| |done].
    intros s2 (G2&H2&X2). pose proof (g_inv _ _ _ _ G2) as I2.
    assert (Hnone : get_parent (en s2) c = None).
    { unfold get_parent. rewrite X2. simpl. rewrite assoc_del_key. by rewrite decide_True. }
    unfold emit.
    assert (Hmi : map_ins plt c p (e_tree (en s2)) = ins plt c p (e_tree (en s2))).
    { unfold map_ins. unfold get_parent in Hnone. by rewrite Hnone. }
    rewrite Hmi. clear Hmi. rewrite <- H2 in Hcf, Hpf.
    assert (I3 : Inv me (set_en s2 (with_tree (en s2) (ins plt c p (e_tree (en s2)))))).
    { apply (Inv_tree_ins me s2 I2); auto. }
    rewrite (emit_to_ok me); [|done|by eapply has_any|intros b Hb; simplify_eq; by eapply has_any].
    simpl. assert (G3 := Good_tree_ins me s2 I2 false p c Hcf Hpf (not_eq_sym Hne) Hnone).
    rewrite X2 in *. simpl in *. rewrite L1, L2, L3, L4, L5 in *.
    split; [|done]. eapply Good_trans; [exact G1|]. eapply Good_trans; [exact G2|]. exact G3.
Qed.

Lemma remove_child_l_wp E d me p c s : Inv me s -> has is_layer me (hp s) c -> has is_layer me (hp s) p ->
  wp E (remove_child_l me p c s)
     (fun s' => Good d me s s' /\ hp s' = hp s /\ en s' = with_layers (en s) (del_one c p (e_layers (en s))))
     (fun _ => False).
Proof.
  intros HI Hc Hp. unfold remove_child_l, emit.
  rewrite (emit_to_ok me); [|done|by eapply has_any|intros b Hb; simplify_eq; by eapply has_any]. simpl.
  split; [exact (Good_layers_del me s HI d p c Hc Hp)|done].
Qed.

Lemma add_child_l_wp E k me p c s ic :
  Inv me s -> has is_layer me (hp s) p -> hp s !! c = Some ic -> is_layer (it_kind ic) = true ->
  it_env ic = None \/ it_env ic = Some me -> p <> c -> E \/ room (S k) s ->
  wp E (add_child_l me p c s)
     (fun s' => Good false me s s' /\ has is_layer me (hp s') c /\
        e_layers (en s') = (if decide (assoc c (e_layers (en s)) = Some p) then e_layers (en s)
                          else ins plt c p (e_layers (en s))) /\
        e_tree (en s') = e_tree (en s) /\ e_in (en s') = e_in (en s) /\ e_out (en s') = e_out (en s) /\
        e_maps (en s') = e_maps (en s))
     (fun s' => Inv me s' /\ it_env ic = None /\ attach_throw me c s ic s').
Proof.
  intros HI Hp Hc Hk Hce Hne Hr. unfold add_child_l. rewrite decide_False by done.
  case_decide as Hpar; simpl.
  - split; [by apply Good_refl|]. split; [|done]. apply assoc_in in Hpar. by apply (inv_layers _ _ HI) in Hpar as (?&_).
  - apply wp_bind. eapply wp_mono; [by apply (attach_if_free_wp E k me c s ic)| |naive_solver].
    intros s1 (G1&Hc1&(L1&L2&L3&L4&L5)&Hq1&_&_&_). pose proof (g_inv _ _ _ _ G1) as I1.
    assert (Hcf : has is_layer me (hp s1) c) by (by eapply has_of_kind).
    assert (Hpf : has is_layer me (hp s1) p) by (by eapply Good_has).
    unfold emit.
    assert (I2 : Inv me (set_en s1 (with_layers (en s1) (ins plt c p (e_layers (en s1)))))).
    { apply (Inv_layers_ins me s1 I1); auto. }
    rewrite (emit_to_ok me); [|done|by eapply has_any|intros b Hb; simplify_eq; by eapply has_any].
    simpl. assert (G2 := Good_layers_ins me s1 I1 false p c Hcf Hpf (not_eq_sym Hne)).
    rewrite L1, L2, L3, L4, L5 in *.
    split; [|done]. eapply Good_trans; [exact G1|]. exact G2.
Qed.

