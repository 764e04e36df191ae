(** C21: queued synchronisation reproduces the source. *)
From stdpp Require Import prelude strings gmap pretty.
From Coq Require Import Sorting.Sorted.
From Verif Require Import Base AssocLemmas EnvModel EnvSpec EnvLib EnvGood EnvAttach EnvLinks EnvLinks2 EnvDetach EnvDeep EnvHandlers EnvWorld EnvStep EnvStep2 EnvStep3 EnvDemo EnvProps EnvProps2 EnvProps3 EventModel EventApply QueueProps SyncLib.

(** ** A mirror and the environment it mirrors *)
Section mirror.
  Context (me : eid) (s : st) (HI : Inv me s) (m : mirror) (HM : mirrors m (hp s) (en s)).
  Let any_inj : forall p q, has any me (hp s) p -> has any me (hp s) q -> idn (hp s) p = idn (hp s) q -> p = q := inv_id_inj me s HI.
  Lemma mir_content : m_items m = content s.
  Proof using HM. apply HM. Qed.
  Lemma mir_linked t a b : mlinked m t a b <-> linked s t a b.
  Proof using HM HI.
    destruct HM as (_&HT&HF&HL). destruct t; try done; cbn.
    - rewrite HT. split; [apply elem_of_list_to_map_2|]. apply elem_of_list_to_map_1.
      apply (by_id_nodup (hp s) (has any me (hp s)) any_inj); [|apply HI]. intros p q (H&_)%(inv_tree _ _ HI). by eapply has_any.
    - rewrite HF. split; [apply elem_of_list_to_map_2|]. apply elem_of_list_to_map_1.
      apply (by_id_nodup (hp s) (has any me (hp s)) any_inj); [|apply HI]. intros p q (H&_)%(inv_maps _ _ HI). by eapply has_any.
    - by rewrite HL.
  Qed.
  Lemma mir_nodup : NoDup (e_layers (en s)) -> NoDup (m_layers m).
  Proof using HM HI.
    intros HN. destruct HM as (_&_&_&->). unfold by_id. apply NoDup_fmap_2_strong; [|done].
    intros [p q] [p' q'] H1 H2 Heq. injection Heq as E1 E2. apply (inv_layers _ _ HI) in H1 as (?%has_any&?%has_any&_), H2 as (?%has_any&?%has_any&_).
    f_equal; by apply any_inj.
  Qed.
  Lemma mir_known f p : has f me (hp s) p -> is_kind f m (idn (hp s) p).
  Proof using HM HI.
    intros Hp. exists (payload_of (hp s) p). rewrite mir_content, content_lookup. rewrite (get_item_idn me s HI) by (by eapply has_any).
    split; [done|]. destruct Hp as (it&Hp&_&Hk). unfold payload_of. by rewrite Hp.
  Qed.
  Lemma mir_wlinks : wlinks m.
  Proof using HM HI.
    intros t a b. rewrite mir_linked. destruct t; try done; cbn; rewrite elem_of_by_id; intros (p&q&Hin&<-&<-).
    - apply (inv_tree _ _ HI) in Hin as (?&?&_). split; by apply mir_known.
    - apply (inv_maps _ _ HI) in Hin as (?&?). split; by apply mir_known.
    - apply (inv_layers _ _ HI) in Hin as (?&?&_). split; by apply mir_known.
  Qed.
  Lemma mir_distinct t a b : mlinked m t a b -> a <> b.
  Proof using HM HI.
    rewrite mir_linked. destruct t; try done; cbn; rewrite elem_of_by_id; intros (p&q&Hin&<-&<-) Heq.
    - apply (inv_tree _ _ HI) in Hin as (H1%has_any&H2%has_any&Hne). apply Hne. by apply any_inj.
    - apply (inv_maps _ _ HI) in Hin as (H1&H2). assert (p = q) as -> by (apply any_inj; [by eapply has_any..|done]).
      destruct H1 as (i1&E1&_&K1), H2 as (i2&E2&_&K2). assert (i1 = i2) as -> by congruence. by destruct (it_kind i2).
    - apply (inv_layers _ _ HI) in Hin as (H1%has_any&H2%has_any&Hne). apply Hne. by apply any_inj.
  Qed.
  Lemma mir_proper i v : m_items m !! i = Some v -> proper_id i.
  Proof using HM HI.
    rewrite mir_content, content_lookup. destruct (get_item (en s) i) as [p|] eqn:Hp; [|done]. intros _.
    apply assoc_in in Hp. split; [by eapply (inv_slash _ _ HI)|by eapply (inv_end _ _ HI)].
  Qed.
End mirror.

Global Instance mlinked_dec m t a b : Decision (mlinked m t a b).
Proof. unfold mlinked. destruct t; apply _. Defined.

(** ** The general statement about lists of events *)
Lemma sync_list lay m es mc me r ces :
  wlinks m -> (lay = true -> NoDup (m_layers m)) -> replay m es = Some mc -> fine_all lay m m es ->
  wlinks mc -> (forall i v, m_items mc !! i = Some v -> proper_id i) -> (forall t a b, mlinked mc t a b -> a <> b) ->
  Inv me r -> has is_frame me (hp r) (e_root (en r)) ->
  (forall i, content r !! i = m_items m !! i \/ (m_items m !! i = None /\ i = root_id r)) ->
  is_Some (m_items mc !! root_id r) ->
  (m_items m !! root_id r = None -> is_kind is_frame mc (root_id r) /\
     forall t a b, is_link t = true -> LR t a b ∈ es -> (a = root_id r -> ka t KFrame = true) /\ (b = root_id r -> kb t KFrame = true)) ->
  (forall t a b, cov lay t -> linked r t a b <-> mlinked m t a b) -> (lay = true -> NoDup (e_layers (en r))) ->
  ces.*2 = q_run es -> NoDup ces.*1 -> Forall (fun c => hp r !! c = None) ces.*1 ->
  exists r', apply_events me ces r = Ok r' /\ Inv me r' /\ has is_frame me (hp r') (e_root (en r')) /\ root_id r' = root_id r /\
    content r' = m_items mc /\ (forall t a b, cov lay t -> linked r' t a b <-> mlinked mc t a b) /\ (lay = true -> NoDup (e_layers (en r')) /\ NoDup (m_layers mc)) /\
    e_handlers (en r') = e_handlers (en r) /\ e_prefix (en r') = e_prefix (en r) /\
    (forall q it e', e' <> me -> it_env it = Some e' -> (hp r !! q = Some it <-> hp r' !! q = Some it)).
Proof.
  intros W HN HR HF Wc HP HD HI Hroot HC Hrid Hrx HL HNr Hq HND HFr.
  pose proof (J_run lay m es m [] mc (J_init lay m W HN) HR HF) as HJ. fold (q_run es) in HJ.
  assert (Hrk : forall v, content r !! root_id r = Some v -> v.1 = KFrame).
  { intros v. rewrite content_lookup. unfold root_id. rewrite (get_item_idn me r HI) by (by eapply has_any). intros [= <-].
    destruct Hroot as (it&Hp&_&Hk). unfold payload_of. rewrite Hp. by destruct (it_kind it). }
  assert (HT : T lay mc me (root_id r) (q_run es) r).
  { constructor; try done; try (apply HJ).
    - apply (NoDup_fmap_1 (fun ev => (ev_type ev, ev_op ev, ev_a ev, ev_b ev))). apply C20_unique.
    - intros i v Hin. destruct (j_A _ _ _ _ HJ i v Hin) as (Hm&v'&Hv'&Hk&Hu). exists v'. split; [done|]. split; [done|]. split; [done|].
      intros v0 H0. destruct (HC i) as [Heq|[_ ->]]; [congruence|]. rewrite (Hrk _ H0). destruct (Hrx Hm) as [(v2&E2&K2) _].
      assert (v2 = v') as -> by congruence. rewrite Hk. by destruct (v'.1).
    - intros i v Hin. destruct (j_U _ _ _ _ HJ i v Hin) as (Hm&Hu). split; [done|]. intros NA. destruct (Hu NA) as (v0&?&?). exists v0.
      destruct (HC i) as [->|[? _]]; [done|congruence].
    - intros i N1 N2 N3. pose proof (j_0 _ _ _ _ HJ i N1 N2 N3) as H0. destruct (HC i) as [->|[Hn ->]]; [done|]. rewrite Hn in H0. rewrite <-H0 in Hrid. by destruct Hrid.
    - intros t a b Ht Hm NA. apply HL; [done|]. apply (j_L0 _ _ _ _ HJ); [done..| |done]. intros Hin. by apply (j_LR _ _ _ _ HJ) in Hin as [? _].
    - intros t a b Ht Hm NA. rewrite HL by done. rewrite (j_L0 _ _ _ _ HJ); [done..| |done]. intros Hin. apply (j_LA _ _ _ _ HJ) in Hin; [done|by eapply cov_link].
    - intros a b Hlay Hin. rewrite HL by (right; right; done). apply (j_LAm _ _ _ _ HJ); [right; right; done|done].
    - intros t a b Ht Hin. destruct (j_LRk _ _ _ _ HJ t a b Ht Hin) as [H1 H2].
      assert (Hes : LR t a b ∈ es) by (eapply elem_of_submseteq; [exact Hin|apply sublist_submseteq, C20_sublist]).
      split; intros v Hv.
      + destruct (HC a) as [Heq|[Hn Heq]]; [apply H1; congruence|]. destruct (Hrx ltac:(congruence)) as [_ HX]. rewrite Heq in Hv. rewrite (Hrk _ Hv).
        by apply (HX t a b).
      + destruct (HC b) as [Heq|[Hn Heq]]; [apply H2; congruence|]. destruct (Hrx ltac:(congruence)) as [_ HX]. rewrite Heq in Hv. rewrite (Hrk _ Hv).
        by apply (HX t a b). }
  rewrite <-Hq in HT. destruct (T_run lay mc me (root_id r) Wc HP HD Hrid ces r HT HND HFr) as (r'&E&T'&Hh&Hp&Ho&_).
  exists r'. split; [done|]. split; [apply T'|]. split; [apply T'|]. split; [apply T'|]. split.
  { apply map_eq. intros i. apply (t_0 _ _ _ _ _ _ T'); intros *; apply not_elem_of_nil. }
  split; [|split; [intros Hlay; split; [by apply T'|by apply HJ]|done]].
  intros t a b Ht. split; intros H.
  - destruct (decide (mlinked mc t a b)) as [|Hn]; [done|]. exfalso. revert H. apply (t_S2 _ _ _ _ _ _ T'); [done..|apply not_elem_of_nil].
  - apply (t_S1 _ _ _ _ _ _ T'); [done..|apply not_elem_of_nil].
Qed.

(** ** The statement *)
(** Source and replica have the same items with the same content, frame links and placements; with [lay] also the same layer links,
    none of them twice. *)
Definition agree (lay : bool) (s r : st) : Prop :=
  content r = content s /\
  (forall a b, linked r ETree a b <-> linked s ETree a b) /\
  (forall a b, linked r EFrame a b <-> linked s EFrame a b) /\
  (lay = true -> (forall a b, linked r ELayer a b <-> linked s ELayer a b) /\ NoDup (e_layers (en s)) /\ NoDup (e_layers (en r))).
(** no id that is in use at the beginning is announced (again) by the events *)
Definition no_reuse (s : st) (es : list event) : Prop :=
  Forall (fun ev => ev_type ev = EItem -> ev_op ev = EAdd -> content s !! ev_a ev = None) es.
(** the events only add layer links that do not exist and remove layer links that exist; [ls]: the links (child, parent) so far *)
Fixpoint layers_clean (ls : list (string * string)) (es : list event) : Prop :=
  match es with
  | [] => True
  | ev :: r =>
    match ev_type ev, ev_op ev with
    | ELayer, EAdd => (ev_b ev, ev_a ev) ∉ ls /\ layers_clean ((ev_b ev, ev_a ev) :: ls) r
    | ELayer, ERemove => (ev_b ev, ev_a ev) ∈ ls /\ layers_clean (filter (fun l => l <> (ev_b ev, ev_a ev)) ls) r
    | _, _ => layers_clean ls r
    end
  end.

Global Instance layers_clean_dec es : forall ls, Decision (layers_clean ls es).
Proof.
  induction es as [|ev es IH]; intros ls; cbn [layers_clean]; [left; exact Logic.I|]. destruct (ev_type ev), (ev_op ev); apply _.
Defined.
Global Instance no_reuse_dec s es : Decision (no_reuse s es).
Proof. unfold no_reuse. apply _. Defined.

Lemma del_one_filter (l : list (string * string)) k v : NoDup l -> del_one k v l = filter (fun x => x <> (k, v)) l.
Proof.
  induction l as [|x l IH]; intros HN; [done|]. apply NoDup_cons in HN as [Hn HN]. rewrite filter_cons. cbn [del_one].
  destruct (decide (x = (k, v))) as [->|Hne].
  - rewrite decide_False by auto. clear IH HN. induction l as [|y l IH]; [done|]. rewrite filter_cons, decide_True; [by rewrite <-IH by set_solver|]. set_solver.
  - rewrite decide_True by done. by rewrite IH.
Qed.
Lemma fine_from lay m es : forall mc mf ls, wlinks mc -> replay mc es = Some mf ->
  (forall ev, ev ∈ es -> ev_type ev = EItem -> ev_op ev = EAdd -> m_items m !! ev_a ev = None) ->
  (lay = true -> NoDup (m_layers mc) /\ m_layers mc ≡ₚ ls /\ layers_clean ls es) -> fine_all lay m mc es.
Proof.
  induction es as [|ev es IH]; intros mc mf ls HW HR H1 H2; [done|]. cbn [replay fine_all] in *.
  destruct (mstep mc ev) as [mc1|] eqn:HM; [|done]. split.
  - split.
    + intros i v ->. by apply (H1 (IA i v)); [left|..].
    + intros Hlay a b. destruct (H2 Hlay) as (_&HL&HC). split; intros ->; cbn in HC; destruct HC as [HC _]; cbn; by rewrite HL.
  - intros mc' [= <-]. pose proof (mstep_case _ _ _ HW HM) as HCa.
    apply (IH mc1 mf (match ev_type ev, ev_op ev with ELayer, EAdd => (ev_b ev, ev_a ev) :: ls
        | ELayer, ERemove => filter (fun l => l <> (ev_b ev, ev_a ev)) ls | _, _ => ls end)); [by eapply mcase_wlinks|done|intros; apply H1; [by right|done..]|].
    intros Hlay. destruct (H2 Hlay) as (HN&HL&HC). clear IH H1 H2 HR.
    destruct HCa as [i v -> _ _ _ HY|i v v0 -> _ _ _ _ HY|i -> _ _ _ _ HY|t a b -> Ht _ _ _ _ _ HY|t a b -> Ht _ _ _ _ _ _ _ HY|o x -> _ ->]; rewrite ?HY; cbn in HC |- *; try done.
    + destruct t; try done; cbn in *. destruct HC as [Hn HC]. rewrite decide_True by done. split; [apply NoDup_cons; split; [by rewrite HL|done]|]. split; [by rewrite HL|done].
    + destruct t; try done; cbn in *. destruct HC as [Hn HC]. rewrite decide_True by done. rewrite del_one_filter by done. split; [by apply NoDup_filter|]. split; [by rewrite HL|done].
Qed.

Lemma follow_history2 e h w os w' : history w os w' -> WInv w -> Forall (hands_off e h) os -> forall x m,
  w_envs w !! e = Some x -> filter (fun k => k = h) (e_handlers x) = [h] -> mirrors m (w_heap w) x ->
  exists x' t m', w_envs w' !! e = Some x' /\ w_tr w' = w_tr w ++ t /\
    replay m (received e h t) = Some m' /\ mirrors m' (w_heap w') x' /\ filter (fun k => k = h) (e_handlers x') = [h].
Proof.
  intros HH. induction HH as [w|w o w1 os w' HL Hs HH IH]; intros HW Ho x m Hx Hh Hm.
  - exists x, [], m. by rewrite app_nil_r.
  - apply Forall_cons in Ho as [Ho1 Ho2]. destruct (follow_step e h w o w1 x m) as (x1&t1&m1&Hx1&Hh1&Ht1&Hr1&Hm1); [done..|].
    destruct (IH (ef_inv _ _ _ (steps_eff _ _ _ HW HL Hs)) Ho2 x1 m1 Hx1 Hh1 Hm1) as (x'&t2&m'&?&Ht2&Hr2&?). exists x', (t1 ++ t2), m'.
    split; [done|]. split; [by rewrite Ht2, Ht1, app_assoc|]. unfold received. rewrite filter_app, fmap_app. by rewrite (replay_app _ _ _ _ Hr1).
Qed.

(** Between two flushes. The source environment [e] of a reachable world has the queue [h] as a listener; a replica that agrees with the source before an
    arbitrary history agrees with it again after the queued events were applied. *)
Definition env_st (w : world) (x : env) : st := St (w_heap w) x (w_tr w).
Theorem C21_sync lay w e x h os w' me r :
  reachable w -> w_envs w !! e = Some x -> filter (fun k => k = h) (e_handlers x) = [h] ->
  history w os w' -> Forall (hands_off e h) os ->
  Inv me r -> has is_frame me (hp r) (e_root (en r)) -> agree lay (env_st w x) r ->
  exists x' t, w_envs w' !! e = Some x' /\ w_tr w' = w_tr w ++ t /\ filter (fun k => k = h) (e_handlers x') = [h] /\
    forall ces, no_reuse (env_st w x) (received e h t) ->
      (lay = true -> layers_clean (by_id (w_heap w) (e_layers x)) (received e h t)) ->
      is_Some (content (env_st w' x') !! root_id r) ->
      ces.*2 = q_run (received e h t) -> NoDup ces.*1 -> Forall (fun c => hp r !! c = None) ces.*1 ->
      exists r', apply_events me ces r = Ok r' /\ agree lay (env_st w' x') r' /\
        Inv me r' /\ has is_frame me (hp r') (e_root (en r')) /\ root_id r' = root_id r.
Proof.
  intros HW Hx Hh HH Ho HI Hroot (A1&A2&A3&A4).
  assert (exists m, mirrors m (w_heap w) x) as [m Hm] by (eexists (Mir _ _ _ (by_id (w_heap w) (e_layers x))); do 3 (split; [reflexivity|]); reflexivity).
  destruct (reach_parts _ _ _ HW Hx) as (IS&_&_).
  destruct (follow_history2 e h w os w' HH (reachable_inv _ HW) Ho x m Hx Hh Hm) as (x'&t&m'&Hx'&Ht&Hr&Hm'&Hh'). exists x', t. do 3 (split; [done|]).
  intros ces HNR HLC Hrid Hq HND HFr.
  assert (HW' : WInv w') by (eapply EnvStep3.history_inv; [by apply reachable_inv|exact HH]).
  destruct (winv_env _ HW' e x' Hx') as (IS'&_&_).
  assert (Hcov : forall t a b, cov lay t -> linked r t a b <-> mlinked m t a b).
  { intros t' a b Ht'. rewrite (mir_linked e (env_st w x) IS m Hm). destruct Ht' as [->|[->|[-> Hlay]]]; [apply A2|apply A3|]. by destruct (A4 Hlay) as [? _]. }
  destruct (sync_list lay m (received e h t) m' me r ces) as (r'&E&I'&R'&Rid&C'&L'&N'&_); try done.
  - by eapply (mir_wlinks e (env_st w x)).
  - intros Hlay. eapply (mir_nodup e (env_st w x)); [done..|]. by destruct (A4 Hlay) as (_&?&_).
  - eapply (fine_from lay m _ m m'); [by eapply (mir_wlinks e (env_st w x))|exact Hr|..].
    + intros ev Hev H1 H2. rewrite (mir_content (env_st w x) m Hm). unfold no_reuse in HNR. rewrite Forall_forall in HNR. by apply HNR.
    + intros Hlay. split; [eapply (mir_nodup e (env_st w x)); [done..|]; by destruct (A4 Hlay) as (_&?&_)|].
      split; [apply Hm|]. by apply HLC.
  - by eapply (mir_wlinks e (env_st w' x')).
  - by eapply (mir_proper e (env_st w' x')).
  - by eapply (mir_distinct e (env_st w' x')).
  - intros i. left. by rewrite A1, (mir_content (env_st w x) m Hm).
  - by rewrite (mir_content (env_st w' x') m' Hm').
  - intros Hn. exfalso. rewrite (mir_content (env_st w x) m Hm), <-A1 in Hn. rewrite content_lookup in Hn. unfold root_id in Hn.
    rewrite (get_item_idn me r HI) in Hn by (by eapply has_any). done.
  - intros Hlay. by destruct (A4 Hlay) as (_&_&?).
  - exists r'. split; [done|]. split; [|done].
    assert (HL' : forall t a b, cov lay t -> linked r' t a b <-> linked (env_st w' x') t a b).
    { intros t' a b Ht'. rewrite L' by done. by apply (mir_linked e (env_st w' x') IS'). }
    split; [by rewrite C', (mir_content (env_st w' x') m' Hm')|]. split; [intros; apply HL'; by left|]. split; [intros; apply HL'; right; by left|].
    intros Hlay. split; [intros; apply HL'; right; by right|]. split; [|by apply N']. destruct (N' Hlay) as [_ ND]. destruct Hm' as (_&_&_&Hl'). rewrite Hl' in ND. by apply NoDup_fmap_1 in ND.
Qed.

Lemma history_reachable w os w' : reachable w -> history w os w' -> reachable w'.
Proof. intros HW HH. revert HW. induction HH as [|w o w1 os w' HL Hs HH IH]; intros HW; [done|]. apply IH. by eapply reachable_step. Qed.
(** Any number of flushes: between two of them the source goes through an arbitrary history; [rounds w r w' r'] leads from source and replica to source and
    replica. *)
Inductive rounds (lay : bool) (e : eid) (h : hid) (me : eid) : world -> st -> world -> st -> Prop :=
| rounds_nil w r : rounds lay e h me w r w r
| rounds_cons w x r os w1 x1 t ces r1 w2 r2 :
    history w os w1 -> Forall (hands_off e h) os -> w_envs w !! e = Some x -> w_envs w1 !! e = Some x1 -> w_tr w1 = w_tr w ++ t ->
    no_reuse (env_st w x) (received e h t) ->
    (lay = true -> layers_clean (by_id (w_heap w) (e_layers x)) (received e h t)) ->
    is_Some (content (env_st w1 x1) !! root_id r) ->
    ces.*2 = q_run (received e h t) -> NoDup ces.*1 -> Forall (fun c => hp r !! c = None) ces.*1 ->
    apply_events me ces r = Ok r1 -> rounds lay e h me w1 r1 w2 r2 -> rounds lay e h me w r w2 r2.
Theorem C21_rounds lay e h me w r w' r' x :
  rounds lay e h me w r w' r' ->
  reachable w -> w_envs w !! e = Some x -> filter (fun k => k = h) (e_handlers x) = [h] ->
  Inv me r -> has is_frame me (hp r) (e_root (en r)) -> agree lay (env_st w x) r ->
  exists x', w_envs w' !! e = Some x' /\ agree lay (env_st w' x') r'.
Proof.
  intros HR. revert x. induction HR as [w r|w y r os w1 x1 t ces r1 w2 r2 HH Ho Hy Hx1 Ht HNR HLC Hrid Hq HND HFr HE HR IH]; intros x HW Hx Hh HI Hroot HA; [by exists x|].
  assert (y = x) as -> by congruence.
  destruct (C21_sync lay w e x h os w1 me r HW Hx Hh HH Ho HI Hroot HA) as (x1'&t'&Hx1'&Ht'&Hh1&HS).
  assert (x1' = x1) as -> by congruence. assert (t' = t) as -> by (rewrite Ht in Ht'; by apply app_inv_head in Ht').
  destruct (HS ces HNR HLC Hrid Hq HND HFr) as (r1'&HE'&HA'&HI'&HR'&_). assert (r1' = r1) as -> by congruence.
  apply (IH x1); try done. by eapply history_reachable.
Qed.

(** The first flush: a replica that consists of its root node only, which has the id of the root node of the source, gets everything that is published on
    registration (see C16 for what is not). *)
Lemma reg_no_removal h x t a b : is_link t = true -> LR t a b ∉ reg_events h x.
Proof.
  intros Ht. unfold reg_events. rewrite !elem_of_app, !elem_of_list_fmap, elem_of_list_singleton.
  intros [(?&Heq&_)|[Heq|[([]&Heq&_)|([]&Heq&_)]]]; unfold LR, mk_event, tree_add, map_add in Heq; cbn in Heq; try discriminate; congruence.
Qed.
Theorem C21_initial w e x h me r v :
  reachable w -> w_envs w !! e = Some x -> connected x -> e_layers x = [] ->
  Inv me r -> has is_frame me (hp r) (e_root (en r)) -> content r = {[ root_id (env_st w x) := v ]} -> root_id r = root_id (env_st w x) ->
  e_tree (en r) = [] -> e_maps (en r) = [] -> e_layers (en r) = [] ->
  exists w' t, step w (OAddHandler e h) = Ok w' /\ w_tr w' = w_tr w ++ t /\
    forall ces, ces.*2 = q_run (received e h t) -> NoDup ces.*1 -> Forall (fun c => hp r !! c = None) ces.*1 ->
    exists r', apply_events me ces r = Ok r' /\ agree true (env_st w x) r' /\ Inv me r' /\ has is_frame me (hp r') (e_root (en r')) /\ root_id r' = root_id r.
Proof.
  intros HW Hx Hc Hl HI Hroot HC Hrid Ht Hm Hla.
  destruct (registration w e x h (reachable_inv _ HW) Hx) as (w'&t&Hs&Hhp&Henv&Htr&Htt).
  destruct (reg_exact w e x h (reachable_inv _ HW) Hx Hc Hl) as (w2&t2&m&Hs2&_&_&Htr2&Hrep&Hmir).
  assert (w2 = w') as -> by congruence. assert (t2 = t) as -> by (rewrite Htr in Htr2; by apply app_inv_head in Htr2). clear Hs2 Htr2.
  assert (Hrec : received e h t = reg_events (w_heap w) x).
  { rewrite Htt. eapply (received_once e h [h]); [apply filter_deliver_same|]. by rewrite filter_cons, decide_True. }
  destruct (reach_parts _ _ _ HW Hx) as (IS&[RS _]&_).
  exists w', t. do 2 (split; [done|]). intros ces Hq HND HFr.
  assert (W0 : wlinks mirror0) by (intros [] a b; cbn; rewrite ?lookup_empty, ?elem_of_nil; done).
  assert (NL : forall ev, ev ∈ received e h t -> ev_type ev <> ELayer).
  { rewrite Hrec. unfold reg_events. intros ev. rewrite !elem_of_app, !elem_of_list_fmap, elem_of_list_singleton.
    by intros [(?&->&_)|[->|[([]&->&_)|([]&->&_)]]]. }
  assert (LC : forall es ls, (forall ev, ev ∈ es -> ev_type ev <> ELayer) -> layers_clean ls es).
  { clear. induction es as [|ev es IH]; intros ls H; [done|]. cbn [layers_clean]. assert (ev_type ev <> ELayer) by (apply H; left).
    assert (layers_clean ls es) by (apply IH; intros; apply H; by right). by destruct (ev_type ev), (ev_op ev). }
  destruct (sync_list true mirror0 (received e h t) m me r ces) as (r'&E&I'&R'&Rid&C'&L'&N'&_); try done.
  - intros _. constructor.
  - eapply (fine_from true mirror0 _ mirror0 m []); [done|done|intros; apply lookup_empty|]. intros _. split; [constructor|]. split; [done|]. by apply LC.
  - by eapply (mir_wlinks e (env_st w x)).
  - by eapply (mir_proper e (env_st w x)).
  - by eapply (mir_distinct e (env_st w x)).
  - intros i. destruct (decide (i = root_id r)) as [->|Hne]; [right; split; [apply lookup_empty|done]|left]. rewrite HC, lookup_singleton_ne by congruence.
    symmetry. apply lookup_empty.
  - rewrite Hrid. destruct (mir_known e (env_st w x) IS m Hmir is_frame _ RS) as (v0&Hv0&_). unfold root_id. cbn in Hv0 |- *. rewrite Hv0. by eexists.
  - intros _. split; [rewrite Hrid; by apply (mir_known e (env_st w x) IS m Hmir is_frame _ RS)|]. intros t' a b Ht' Hin. rewrite Hrec in Hin. by apply reg_no_removal in Hin.
  - intros t' a b _. unfold linked. rewrite Ht, Hm, Hla. destruct t'; cbn; rewrite ?lookup_empty, ?elem_of_nil; done.
  - intros _. rewrite Hla. constructor.
  - exists r'. split; [done|]. split; [|done].
    assert (HL' : forall t a b, cov true t -> linked r' t a b <-> linked (env_st w x) t a b).
    { intros t' a b Ht'. rewrite L' by done. by apply (mir_linked e (env_st w x) IS). }
    split; [by rewrite C', (mir_content (env_st w x) m Hmir)|]. split; [intros; apply HL'; by left|]. split; [intros; apply HL'; right; by left|].
    intros Hlay. split; [intros; apply HL'; right; by right|]. split; [|by apply N']. cbn. rewrite Hl. constructor.
Qed.

(** ** Instances *)
(** what the queue [h] of environment [e] got between two worlds *)
Definition between (e : eid) (h : hid) (w w' : world) : list event := received e h (drop (length (w_tr w)) (w_tr w')).
Lemma demo_agree w x : NoDup (e_layers x) -> agree true (env_st w x) (env_st w x).
Proof. by intros H. Qed.
(** A window with merged and cancelled events of all types, starting from the demo environment and a copy of it *)
Definition c21_ops : list op :=
  [ODetach 1 13 false true; ONew 50 KFrame "/n" 1; OAddChildF 1 12 50; OSetVal 50 2; OSetVal 50 3; OAddChildF 1 10 50; ONew 51 KLayer "/k" 4; OAddChildL 1 14 51;
   ONew 52 KFrame "/o" 4; OAddChildF 1 50 52; ODetach 1 52 false false; ORemChildF 1 11 12; OSetVal 11 77; ODetach 1 12 false false].
Global Instance hands_off_dec e h o : Decision (hands_off e h o).
Proof.
  unfold hands_off. destruct o; try (left; repeat split; discriminate).
  - destruct (decide (e0 = e)) as [->|]; [right; naive_solver|left; repeat split; try discriminate; congruence].
  - destruct (decide (e0 = e)) as [->|]; [destruct (decide (h0 = h)) as [->|]|]; [right; naive_solver|left; repeat split; try discriminate; congruence..].
  - destruct (decide (e0 = e)) as [->|]; [destruct (decide (h0 = h)) as [->|]|]; [right; naive_solver|left; repeat split; try discriminate; congruence..].
Defined.
Example C21_nonvacuous : exists w', run_legal demo_world c21_ops = Some w' /\ Forall (hands_off 1 100) c21_ops /\
  filter (fun k => k = 100%positive) (e_handlers (demo_env 1)) = [100%positive] /\ NoDup (e_layers (demo_env 1)) /\
  no_reuse demo_st (between 1 100 demo_world w') /\ layers_clean (by_id (w_heap demo_world) (e_layers (demo_env 1))) (between 1 100 demo_world w') /\
  (exists x', w_envs w' !! 1%positive = Some x' /\ content (env_st w' x') !! root_id demo_st <> None) /\
  (length (between 1 100 demo_world w') = 18 /\ length (q_run (between 1 100 demo_world w')) = 11).
Proof.
  assert (match run_legal demo_world c21_ops with Some w' => bool_decide (Forall (hands_off 1 100) c21_ops /\
  filter (fun k => k = 100%positive) (e_handlers (demo_env 1)) = [100%positive] /\ NoDup (e_layers (demo_env 1)) /\
  no_reuse demo_st (between 1 100 demo_world w') /\ layers_clean (by_id (w_heap demo_world) (e_layers (demo_env 1))) (between 1 100 demo_world w') /\
  (exists x', w_envs w' !! 1%positive = Some x' /\ content (env_st w' x') !! root_id demo_st <> None) /\
  (length (between 1 100 demo_world w') = 18 /\ length (q_run (between 1 100 demo_world w')) = 11)) | None => false end = true) as H by vmtrue.
  destruct (run_legal demo_world c21_ops) as [w'|]; [|discriminate H]. exists w'. split; [reflexivity|]. by apply bool_decide_eq_true in H.
Qed.

(** ** What the guards exclude *)
(** An item is replaced by another one with the same id: the removal and the addition cancel each other, the queue is empty, and the replica keeps the old
    content for ever (finding). *)
Definition c21_stale0 : list op := [ONew 60 KLayer "/z" 1; OAttach 1 60].
Definition c21_stale : list op := [ODetach 1 60 false false; ONew 61 KLayer "/z" 2; OAttach 1 61].
Theorem C21_reuse_refuted : exists w x w' x', reachable w /\ w_envs w !! 1%positive = Some x /\ agree true (env_st w x) (env_st w x) /\
  history w c21_stale w' /\ w_envs w' !! 1%positive = Some x' /\ Forall (hands_off 1 100) c21_stale /\
  filter (fun k => k = 100%positive) (e_handlers x) = [100%positive] /\
  length (between 1 100 w w') = 2 /\ q_run (between 1 100 w w') = [] /\ ~ agree false (env_st w' x') (env_st w x).
Proof.
  exists (demo_plus c21_stale0).
  assert (exists x, w_envs (demo_plus c21_stale0) !! 1%positive = Some x /\ NoDup (e_layers x) /\ filter (fun k => k = 100%positive) (e_handlers x) = [100%positive] /\
    content (env_st (demo_plus c21_stale0) x) !! "/z" = Some (KLayer, 1%Z)) as (x&Hx&HN&Hh&Hc) by vmdec. exists x.
  assert (match run_legal (demo_plus c21_stale0) c21_stale with Some w' => bool_decide (
    (exists x', w_envs w' !! 1%positive = Some x' /\ content (env_st w' x') !! "/z" = Some (KLayer, 2%Z)) /\
    length (between 1 100 (demo_plus c21_stale0) w') = 2 /\ length (q_run (between 1 100 (demo_plus c21_stale0) w')) = 0) | None => false end = true) as H by vmtrue.
  destruct (run_legal (demo_plus c21_stale0) c21_stale) as [w'|] eqn:Hw; [|discriminate H]. apply bool_decide_eq_true in H as ((x'&Hx'&Hc')&Hl&Hq).
  exists w', x'. split; [apply demo_plus_reachable|]. split; [exact Hx|]. split; [by apply demo_agree|]. split; [by apply run_legal_ok|]. split; [exact Hx'|].
  split; [vmdec|]. split; [exact Hh|]. split; [exact Hl|]. split; [by apply nil_length_inv|]. intros (HA&_). rewrite HA, Hc' in Hc. discriminate Hc.
Qed.
(** Removing a layer link that does not exist is reported, and cancels the event of adding it afterwards (finding). *)
Definition c21_layer0 : list op := [ONew 60 KLayer "/z" 1; OAttach 1 60].
Definition c21_layer : list op := [ORemChildL 1 13 60; OAddChildL 1 13 60].
Theorem C21_layer_refuted : exists w x w' x', reachable w /\ w_envs w !! 1%positive = Some x /\ agree true (env_st w x) (env_st w x) /\
  history w c21_layer w' /\ w_envs w' !! 1%positive = Some x' /\ Forall (hands_off 1 100) c21_layer /\
  filter (fun k => k = 100%positive) (e_handlers x) = [100%positive] /\ no_reuse (env_st w x) (between 1 100 w w') /\
  length (between 1 100 w w') = 2 /\ q_run (between 1 100 w w') = [] /\ ~ agree true (env_st w' x') (env_st w x).
Proof.
  exists (demo_plus c21_layer0).
  assert (exists x, w_envs (demo_plus c21_layer0) !! 1%positive = Some x /\ NoDup (e_layers x) /\ filter (fun k => k = 100%positive) (e_handlers x) = [100%positive] /\
    ("/z", "/m/3") ∉ by_id (w_heap (demo_plus c21_layer0)) (e_layers x)) as (x&Hx&HN&Hh&Hc) by vmdec. exists x.
  assert (match run_legal (demo_plus c21_layer0) c21_layer with Some w' => bool_decide (
    (exists x', w_envs w' !! 1%positive = Some x' /\ ("/z", "/m/3") ∈ by_id (w_heap w') (e_layers x')) /\
    (exists x, w_envs (demo_plus c21_layer0) !! 1%positive = Some x /\ no_reuse (env_st (demo_plus c21_layer0) x) (between 1 100 (demo_plus c21_layer0) w')) /\
    length (between 1 100 (demo_plus c21_layer0) w') = 2 /\ length (q_run (between 1 100 (demo_plus c21_layer0) w')) = 0) | None => false end = true) as H by vmtrue.
  destruct (run_legal (demo_plus c21_layer0) c21_layer) as [w'|] eqn:Hw; [|discriminate H]. apply bool_decide_eq_true in H as ((x'&Hx'&Hc')&(x0&Hx0&Hnr)&Hl&Hq).
  assert (x0 = x) as -> by congruence.
  exists w', x'. split; [apply demo_plus_reachable|]. split; [exact Hx|]. split; [by apply demo_agree|]. split; [by apply run_legal_ok|]. split; [exact Hx'|].
  split; [vmdec|]. split; [exact Hh|]. split; [exact Hnr|]. split; [exact Hl|]. split; [by apply nil_length_inv|]. intros (_&_&_&HA). destruct (HA eq_refl) as [HA1 _].
  apply Hc. by apply (HA1 "/m/3" "/z").
Qed.
(** A fresh environment is a replica as in [C21_initial]. *)
Example C21_initial_nonvacuous : exists w x r, reachable w /\ w_envs w !! 1%positive = Some x /\ connected x /\ e_layers x = [] /\ length (e_items x) = 6 /\
  Inv 2 r /\ has is_frame 2 (hp r) (e_root (en r)) /\ content r = {[ root_id (env_st w x) := (KFrame, 0%Z) ]} /\ root_id r = root_id (env_st w x) /\
  e_tree (en r) = [] /\ e_maps (en r) = [] /\ e_layers (en r) = [].
Proof.
  assert (exists w, run_legal world0 [ONewEnv 2 20] = Some w /\ (exists y, w_envs w !! 2%positive = Some y /\ content (env_st w y) = {[ "/0" := (KFrame, 0%Z) ]} /\
     root_id (env_st w y) = "/0" /\ e_tree y = [] /\ e_maps y = [] /\ e_layers y = [])) as (w2&Hw2&y&Hy&Hcy&Hry&H1&H2&H3) by (eapply (ok_run _ (fun w => exists y, w_envs w !! 2%positive = Some y /\ content (env_st w y) = _ /\ root_id (env_st w y) = _ /\ e_tree y = _ /\ e_maps y = _ /\ e_layers y = _)); vmtrue).
  assert (HR2 : reachable w2) by (by eapply run_legal_reachable). destruct (reach_parts _ _ _ HR2 Hy) as (IS&[RS _]&_).
  exists (demo_plus [ORemChildL 1 13 14]).
  assert (exists x, w_envs (demo_plus [ORemChildL 1 13 14]) !! 1%positive = Some x /\ e_tree x = [(11, 10); (12, 11)]%positive /\
    e_layers x = [] /\ e_root x = 10%positive /\ length (e_items x) = 6 /\ root_id (env_st (demo_plus [ORemChildL 1 13 14]) x) = "/0")
    as (x&Hx&Ht&Hl&Hr&Hn&Hi) by vmdec.
  assert (Hc : connected x).
  { clear - Ht Hr. intros c p. unfold parent_of at 1. rewrite Ht, Hr.
    intros [H|[H|H%elem_of_nil]%elem_of_cons]%elem_of_cons; [injection H as -> ->; constructor| |done]. injection H as -> ->.
    apply rtc_once. unfold parent_of. rewrite Ht. left. }
  exists x, (env_st w2 y). split; [apply demo_plus_reachable|]. split; [exact Hx|]. split; [exact Hc|]. split; [exact Hl|]. split; [exact Hn|].
  split; [exact IS|]. split; [exact RS|]. rewrite Hi. split; [exact Hcy|]. split; [exact Hry|]. split; [exact H1|]. split; [exact H2|exact H3].
Qed.
