(** Context updates (C104): SynchronizationEventHandler::process with useContextUpdates, src/core/Serialization.cpp:851-888 and 915-919. An event about a map
    is followed by events about all frames above it, so that a receiver that missed everything before can place the map. *)
From Coq Require Import ZArith String.
From stdpp Require Import prelude strings gmap pretty.
From Verif Require Import Base AssocLemmas EnvModel EnvSpec EnvLib EnvGood EnvWorld EnvDemo EnvProps EnvProps2 EnvProps3 EventModel EventApply QueueProps SyncLib SyncProps.

(** the loop of Serialization.cpp:874-883: the frame and its ancestors. It does not end if the frames form a cycle. *)
Fixpoint frames_up (fuel : nat) (x : env) (f : ptr) : out unit (list ptr) :=
  match fuel with
  | O => NoFuel
  | S n => match get_parent x f with
           | None => Ok [f]
           | Some p => l <~ frames_up n x p ;; Ok (f :: l)
           end
  end.
(** the events of the loop *)
Fixpoint frame_events (h : gmap positive item) (child : option ptr) (l : list ptr) : list event :=
  match l with
  | [] => []
  | f :: r => mk_event h EItem EUpdate f None ::
              match child with Some c => [mk_event h ETree EAdd f (Some c)] | None => [] end ++
              frame_events h (Some f) r
  end.
(** SynchronizationEventHandler::process, Serialization.cpp:851-888, for the event of item [p]. With [queued] the event was stored in an
    EventQueue before; the item is then a copy, which belongs to no environment (Event.cpp:79-84), and getFrameNode fails (Layer.cpp:188-192). *)
Definition process (fuel : nat) (queued : bool) (s : st) (o : eop) (p : ptr) : out unit (list event) :=
  let first := mk_event (hp s) EItem o p None in
  match hp s !! p with
  | None => Bad UB
  | Some it =>
    if is_map (it_kind it) then
      if queued then Bad Abort
      else match get_frame (en s) p with
           | None => Ok [first; mk_event (hp s) EFrame EAdd p None]
           | Some f => l <~ frames_up fuel (en s) f ;;
                       Ok (first :: frame_events (hp s) None l ++ [mk_event (hp s) EFrame EAdd p (Some f)])
           end
    else Ok [first]
  end.

(** * Applying such events *)
Section apply.
  Context (K : string -> kind * Z).
  (** item events bring items in the form of [K]; links connect items that were brought before *)
  Fixpoint wf (known : list string) (es : list event) : Prop :=
    match es with
    | [] => True
    | ev :: r =>
      match ev_type ev, ev_op ev with
      | EItem, EAdd | EItem, EUpdate => proper_id (ev_a ev) /\ ev_item ev = Some (K (ev_a ev)) /\ wf (ev_a ev :: known) r
      | ETree, EAdd | EFrame, EAdd => ev_a ev <> ev_b ev /\ ev_a ev ∈ known /\ ev_b ev ∈ known /\ ends_ok (ev_type ev) (K (ev_a ev)).1 (K (ev_b ev)).1 /\ wf known r
      | _, _ => False
      end
    end.
  Definition brought (es : list event) : list string :=
    ev_a <$> filter (fun ev => ev_type ev = EItem) es.
  Definition added (es : list event) : list (etype * string * string) :=
    (fun ev => (ev_type ev, ev_a ev, ev_b ev)) <$> filter (fun ev => ev_type ev <> EItem) es.

  Lemma wf_run me es : forall known r ps, Inv me r -> has is_frame me (hp r) (e_root (en r)) -> e_handlers (en r) = [] ->
    wf known es -> (forall id, id ∈ known -> content r !! id = Some (K id)) ->
    (forall id v, id ∈ brought es -> content r !! id = Some v -> v.1 = (K id).1) ->
    (forall t a b a' b', (t, a, b) ∈ added es -> (t, a', b') ∈ added es -> replaces t a b a' b' -> a = a' /\ b = b') ->
    length ps = length es -> NoDup ps -> Forall (fun p => hp r !! p = None) ps ->
    exists r', apply_events me (zip ps es) r = Ok r' /\ Inv me r' /\ has is_frame me (hp r') (e_root (en r')) /\
      e_handlers (en r') = [] /\ root_id r' = root_id r /\
      (forall id, content r' !! id = if decide (id ∈ brought es) then Some (K id) else content r !! id) /\
      (forall t x y, linked r' t x y <-> (t, x, y) ∈ added es \/ (linked r t x y /\ ~ exists a b, (t, a, b) ∈ added es /\ replaces t a b x y)) /\
      (forall q it e', e' <> me -> it_env it = Some e' -> (hp r !! q = Some it <-> hp r' !! q = Some it)).
  Proof.
    induction es as [|ev es IH]; intros known r ps HI HR HH HW HK HT HU HL HN HF.
    { destruct ps; [|done]. exists r. cbn. split; [done|]. do 4 (split; [done|]). split; [done|]. split; [|done].
      intros t x y. split; [intros H; right; split; [done|]; intros (a&b&Hin&_); by apply elem_of_nil in Hin|]. intros [H|[H _]]; [by apply elem_of_nil in H|done]. }
    destruct ps as [|p ps]; [done|]. injection HL as HL. apply NoDup_cons in HN as [Hn HN]. apply Forall_cons in HF as [Hp HF].
    cbn [zip zip_with apply_events].
    assert (Hcase : (ev_type ev = EItem /\ (ev_op ev = EAdd \/ ev_op ev = EUpdate) /\ proper_id (ev_a ev) /\ ev_item ev = Some (K (ev_a ev)) /\ wf (ev_a ev :: known) es) \/
      ((ev_type ev = ETree \/ ev_type ev = EFrame) /\ ev_op ev = EAdd /\ ev_a ev <> ev_b ev /\ ev_a ev ∈ known /\ ev_b ev ∈ known /\ ends_ok (ev_type ev) (K (ev_a ev)).1 (K (ev_b ev)).1 /\ wf known es)).
    { cbn [wf] in HW. destruct (ev_type ev), (ev_op ev); try done; [left; tauto..|right; tauto|right; tauto]. }
    assert (Hnew : forall s', Safe me p ev r s' -> Forall (fun p => hp s' !! p = None) ps).
    { intros s' HS. rewrite Forall_forall in *. intros q Hq. apply (sf_new _ _ _ _ _ HS); [by intros ->|by apply HF]. }
    destruct Hcase as [(Ht&Ho&Hpr&Hit&HW')|(Ht&Ho&Hne&Ha&Hb&He&HW')].
    - destruct (apply_event_ok me p ev r HI HR Hp) as (s1&E&HS&HE).
      { unfold event_ok. rewrite Ht. destruct Ho as [-> | ->]; (split; [done|by eexists]). }
      { intros va vb _ _. by rewrite Ht. }
      { by intros (_&_&_&?). }
      rewrite E. cbn [obind].
      assert (HC : (forall t x y, linked s1 t x y <-> linked r t x y) /\ content s1 = <[ev_a ev := K (ev_a ev)]> (content r)).
      { unfold effect in HE. rewrite Ht in HE. assert (brought (ev :: es) = ev_a ev :: brought es) as HB by (unfold brought; by rewrite filter_cons, decide_True by done).
        destruct Ho as [Ho|Ho]; rewrite Ho in HE; destruct HE as [H1 H2]; (split; [done|]); rewrite (H2 _ Hit);
          (destruct (content r !! ev_a ev) as [v0|] eqn:E0; [|done]); (rewrite decide_True; [done|]); (apply (HT (ev_a ev)); [rewrite HB; left|done]). }
      destruct HC as [HC1 HC2].
      assert (HB : brought (ev :: es) = ev_a ev :: brought es) by (unfold brought; by rewrite filter_cons, decide_True by done).
      assert (HA : added (ev :: es) = added es) by (unfold added; rewrite filter_cons, decide_False; [done|intros H; by apply H]).
      destruct (IH (ev_a ev :: known) s1 ps) as (r'&E'&I'&R'&H'&D'&C'&L'&O').
      { apply HS. } { apply HS. } { by rewrite (sf_handlers _ _ _ _ _ HS). } { done. }
      { intros id Hid. rewrite HC2. destruct (decide (id = ev_a ev)) as [->|Hd]; [by rewrite lookup_insert|]. rewrite lookup_insert_ne by done.
        apply HK. apply elem_of_cons in Hid as [?|?]; done. }
      { intros id v Hid. rewrite HC2. destruct (decide (id = ev_a ev)) as [->|Hd]; [rewrite lookup_insert; by intros [= <-]|]. rewrite lookup_insert_ne by done.
        apply HT. rewrite HB. by right. }
      { by rewrite HA in HU. } { done. } { done. } { by apply Hnew. }
      exists r'. split; [done|]. split; [done|]. split; [done|]. split; [done|]. split; [rewrite D'; apply HS|]. split; [|split].
      + intros id. rewrite C', HB. destruct (decide (id ∈ brought es)) as [Hi|Hi]; [rewrite decide_True; [done|by right]|]. rewrite HC2.
        destruct (decide (id = ev_a ev)) as [->|Hd]; [rewrite lookup_insert, decide_True; [done|by left]|]. rewrite lookup_insert_ne by done.
        rewrite decide_False; [done|]. rewrite elem_of_cons. tauto.
      + intros t x y. rewrite L', HA. by rewrite HC1.
      + intros q it e' H1 H2. rewrite (sf_other _ _ _ _ _ HS q it e' H1 H2). by apply (O' q it e').
    - destruct (apply_event_ok me p ev r HI HR Hp) as (s1&E&HS&HE).
      { unfold event_ok. destruct Ht as [-> | ->]; rewrite Ho; done. }
      { intros va vb. rewrite (HK _ Ha), (HK _ Hb). by intros [= <-] [= <-]. }
      { intros (H&_). rewrite H in Ht. by destruct Ht. }
      rewrite E. cbn [obind].
      assert (HC : content s1 = content r /\ forall t x y, linked s1 t x y <->
        (linked r t x y /\ ~ (t = ev_type ev /\ (x, y) <> (ev_a ev, ev_b ev) /\ replaces (ev_type ev) (ev_a ev) (ev_b ev) x y)) \/ (t = ev_type ev /\ x = ev_a ev /\ y = ev_b ev)).
      { unfold effect in HE. pose proof (HK _ Ha) as Ka. pose proof (HK _ Hb) as Kb. rewrite Ho in HE. destruct Ht as [Ht|Ht]; rewrite Ht in HE |- *; destruct HE as [H1 H2]; (split; [done|]);
          intros t x y; rewrite H2, Ka, Kb; (assert (is_Some (Some (K (ev_a ev))) /\ is_Some (Some (K (ev_b ev)))) as [? ?] by (split; by eexists)); tauto. }
      destruct HC as [HC1 HC2].
      assert (HB : brought (ev :: es) = brought es) by (unfold brought; rewrite filter_cons, decide_False; [done|]; destruct Ht as [-> | ->]; done).
      assert (HA : added (ev :: es) = (ev_type ev, ev_a ev, ev_b ev) :: added es) by (unfold added; rewrite filter_cons, decide_True; [done|]; destruct Ht as [-> | ->]; done).
      destruct (IH known s1 ps) as (r'&E'&I'&R'&H'&D'&C'&L'&O').
      { apply HS. } { apply HS. } { by rewrite (sf_handlers _ _ _ _ _ HS). } { done. } { by rewrite HC1. }
      { rewrite HC1. by rewrite HB in HT. } { intros t a b a' b' H1 H2. apply HU; rewrite HA; by right. } { done. } { done. } { by apply Hnew. }
      exists r'. split; [done|]. split; [done|]. split; [done|]. split; [done|]. split; [rewrite D'; apply HS|]. split; [|split].
      + intros id. by rewrite C', HB, HC1.
      + intros t x y. rewrite L', HA, HC2, elem_of_cons. setoid_rewrite elem_of_cons. split.
        * intros [H|[[[H1 H2]|(->&->&->)] H3]]; [by left; right| |by left; left].
          destruct (decide ((t, x, y) = (ev_type ev, ev_a ev, ev_b ev))) as [Heq|Hd]; [by left; left|]. right. split; [done|].
          intros (a&b&[Heq|Hin]&Hre).
          -- injection Heq as -> -> ->. apply H2. split; [done|]. split; [congruence|done].
          -- apply H3. by exists a, b.
        * intros [[Heq|H]|[H1 H2]]; [|by left|].
          -- injection Heq as -> -> ->.
             destruct (decide ((ev_type ev, ev_a ev, ev_b ev) ∈ added es)) as [|Hni]; [by left|]. right. split; [by right|]. intros (a&b&Hin&Hre).
             apply Hni. destruct (HU (ev_type ev) a b (ev_a ev) (ev_b ev)) as [<- <-]; [rewrite HA; by right|rewrite HA; by left|done|done].
          -- right. split.
             ++ left. split; [done|]. intros (->&Hd&Hre). apply H2. exists (ev_a ev), (ev_b ev). split; [by left|done].
             ++ intros (a&b&Hin&Hre). apply H2. exists a, b. split; [by right|done].
      + intros q it e' H1 H2. rewrite (sf_other _ _ _ _ _ HS q it e' H1 H2). by apply (O' q it e').
  Qed.
End apply.

(** * C104 *)
(** the frames above a frame, by unique id, independent of how they are collected: each is the parent of the one before, and the last one has no parent *)
Fixpoint ancestors (s : st) (l : list string) : Prop :=
  match l with
  | [] => True
  | [f] => forall p, ~ linked s ETree p f
  | f :: ((p :: _) as r) => linked s ETree p f /\ ancestors s r
  end.
(** neighbours in a list *)
Fixpoint steps_of (l : list string) : list (string * string) :=
  match l with f :: ((p :: _) as r) => (p, f) :: steps_of r | _ => [] end.

Lemma frames_up_head n x f l : frames_up n x f = Ok l -> exists r, l = f :: r.
Proof. destruct n as [|n]; [done|]. cbn. destruct (get_parent x f) as [p|]; [|intros [= <-]; by eexists]. destruct (frames_up n x p); [|done..]. intros [= <-]. by eexists. Qed.
Lemma frames_up_det n : forall m x f l l', frames_up n x f = Ok l -> frames_up m x f = Ok l' -> l = l'.
Proof.
  induction n as [|n IH]; [done|]. intros [|m] x f l l'; [done|]. cbn. destruct (get_parent x f) as [p|]; [|by intros [= <-] [= <-]].
  destruct (frames_up n x p) as [a| | |] eqn:E1; [|done..]. destruct (frames_up m x p) as [b| | |] eqn:E2; [|done..]. intros [= <-] [= <-]. f_equal. by eapply IH.
Qed.
Lemma frames_up_suffix n x f l a g r : frames_up n x f = Ok l -> l = a ++ g :: r -> exists m, frames_up m x g = Ok (g :: r).
Proof.
  revert f l a. induction n as [|n IH]; [done|]. intros f l a. cbn. destruct (get_parent x f) as [p|] eqn:Hp.
  - destruct (frames_up n x p) as [t| | |] eqn:E; [|done..]. intros [= <-] Heq. destruct a as [|a0 a]; injection Heq as <- Heq.
    + subst r. exists (S n). cbn. by rewrite Hp, E.
    + by apply (IH p t a).
  - intros [= <-]. destruct a as [|a0 a]; [|intros [= _ H]; by destruct a]. intros [= <- <-]. exists 1. cbn. by rewrite Hp.
Qed.
Lemma frames_up_nodup n x f l : frames_up n x f = Ok l -> NoDup l.
Proof.
  revert f l. induction n as [|n IH]; [done|]. intros f l H. pose proof H as H0. cbn in H. destruct (get_parent x f) as [p|].
  - destruct (frames_up n x p) as [t| | |] eqn:E; [|done..]. injection H as <-. constructor; [|by eapply IH]. intros (a&r&->)%elem_of_list_split.
    destruct (frames_up_suffix _ _ _ _ (f :: a) f r H0 eq_refl) as (m&Hm). pose proof (frames_up_det _ _ _ _ _ _ H0 Hm) as Heq. apply (f_equal length) in Heq.
    cbn in Heq. rewrite app_length in Heq. cbn in Heq. lia.
  - injection H as <-. apply NoDup_singleton.
Qed.
Lemma frames_up_frames me s n f l : Inv me s -> has is_frame me (hp s) f -> frames_up n (en s) f = Ok l -> Forall (has is_frame me (hp s)) l.
Proof.
  intros HI. revert f l. induction n as [|n IH]; [done|]. intros f l Hf. cbn. destruct (get_parent (en s) f) as [p|] eqn:Hp.
  - destruct (frames_up n (en s) p) as [t| | |] eqn:E; [|done..]. intros [= <-]. constructor; [done|]. apply (IH p); [|done].
    unfold get_parent in Hp. apply assoc_in in Hp. by apply (inv_tree _ _ HI) in Hp as (_&?&_).
  - intros [= <-]. by constructor.
Qed.
(** what the loop collects are the ancestors *)
Lemma frames_up_ancestors me s n f l : Inv me s -> has is_frame me (hp s) f -> frames_up n (en s) f = Ok l -> ancestors s (idn (hp s) <$> l).
Proof.
  intros HI. revert f l. induction n as [|n IH]; [done|]. intros f l Hf. cbn [frames_up]. destruct (get_parent (en s) f) as [p|] eqn:Hp.
  - unfold get_parent in Hp. apply assoc_in in Hp. pose proof (inv_tree _ _ HI _ _ Hp) as (_&Hpf&_).
    destruct (frames_up n (en s) p) as [t| | |] eqn:E; [|done..]. intros [= <-]. destruct (frames_up_head _ _ _ _ E) as (r&->). rewrite !fmap_cons. split.
    + apply elem_of_by_id. by exists f, p.
    + rewrite <- fmap_cons. by apply (IH p).
  - intros [= <-]. intros p. cbn. rewrite elem_of_by_id. intros (q&p'&Hin&Hq&_). unfold get_parent in Hp.
    assert (q = f) as ->. { apply (inv_tree _ _ HI) in Hin as (Hq'&_&_). eapply inv_id_inj; [exact HI|by eapply has_any..|done]. }
    apply assoc_nodup in Hin; [|apply HI]. congruence.
Qed.
Lemma frames_up_total n x f r : climb n x f = Some r -> exists l, frames_up n x f = Ok l.
Proof.
  revert f. induction n as [|n IH]; [done|]. intros f. cbn. destruct (get_parent x f) as [p|]; [|by eexists]. intros H. destruct (IH p H) as (l&->). by eexists.
Qed.

(** the pair of the frame that was handled last and its parent in front *)
Definition behind (c : option string) (l : list string) : list string := match c with Some c => c :: l | None => l end.
Lemma frame_events_brought h l : forall c, brought (frame_events h c l) = idn h <$> l.
Proof.
  induction l as [|f l IH]; intros c; [done|]. unfold brought. cbn [frame_events]. rewrite filter_cons, decide_True by done. rewrite filter_app, !fmap_cons, fmap_app.
  change (ev_a <$> filter _ (frame_events h (Some f) l)) with (brought (frame_events h (Some f) l)). rewrite IH. by destruct c.
Qed.
Lemma frame_events_added h l : forall c, added (frame_events h c l) = (fun pf => (ETree, pf.1, pf.2)) <$> steps_of (behind (idn h <$> c) (idn h <$> l)).
Proof.
  induction l as [|f l IH]; intros c; [by destruct c|]. unfold added. cbn [frame_events]. rewrite filter_cons, decide_False by (intros H; by apply H).
  rewrite filter_app, fmap_app. change ((fun ev => (ev_type ev, ev_a ev, ev_b ev)) <$> filter _ (frame_events h (Some f) l)) with (added (frame_events h (Some f) l)).
  rewrite IH. by destruct c.
Qed.
Lemma added_app a b : added (a ++ b) = added a ++ added b.
Proof. unfold added. by rewrite filter_app, fmap_app. Qed.
Lemma brought_app a b : brought (a ++ b) = brought a ++ brought b.
Proof. unfold brought. by rewrite filter_app, fmap_app. Qed.
Lemma wf_app K a : forall known b, wf K known a -> (forall known', (forall i, i ∈ known' <-> i ∈ known \/ i ∈ brought a) -> wf K known' b) -> wf K known (a ++ b).
Proof.
  induction a as [|ev a IH]; intros known b Ha Hb; [apply Hb; intros i; split; [by left|intros [?|H]; [done|by apply elem_of_nil in H]]|].
  cbn [app wf] in *. destruct (ev_type ev) eqn:Et, (ev_op ev) eqn:Eo; try done.
  1,2: destruct Ha as (H1&H2&H3); split; [done|]; split; [done|]; apply IH; [done|]; intros known' Hk; apply Hb; intros i; rewrite Hk;
       unfold brought at 2; rewrite filter_cons, decide_True by done; rewrite fmap_cons; change (ev_a <$> filter _ a) with (brought a); rewrite !elem_of_cons; tauto.
  all: destruct Ha as (H1&H2&H3&H4&H5); do 4 (split; [done|]); apply IH; [done|]; intros known' Hk; apply Hb; intros i; rewrite Hk;
       unfold brought at 2; rewrite filter_cons, decide_False by (rewrite Et; done); done.
Qed.

Section source.
  Context (me : eid) (s : st) (HI : Inv me s).
  Definition src (id : string) : kind * Z := default (KLayer, 0%Z) (content s !! id).
  Lemma src_idn p : has any me (hp s) p -> content s !! idn (hp s) p = Some (payload_of (hp s) p) /\ src (idn (hp s) p) = payload_of (hp s) p.
  Proof using HI. intros Hp. unfold src. rewrite content_lookup, (get_item_idn me s HI) by done. done. Qed.
  Lemma src_proper p : has any me (hp s) p -> proper_id (idn (hp s) p).
  Proof using HI. intros Hp. pose proof (get_item_idn me s HI p Hp) as H. apply assoc_in in H. split; [by eapply (inv_slash _ _ HI)|by eapply (inv_end _ _ HI)]. Qed.
  Lemma src_kind f p : has f me (hp s) p -> f (src (idn (hp s) p)).1 = true.
  Proof using HI. intros Hp. destruct (src_idn p (has_any _ _ _ _ Hp)) as [_ ->]. destruct Hp as (it&Hp&_&Hk). unfold payload_of. by rewrite Hp. Qed.

  Lemma frame_events_wf l : forall c known, Forall (has is_frame me (hp s)) l -> NoDup (idn (hp s) <$> l) ->
    (forall p, c = Some p -> has is_frame me (hp s) p /\ idn (hp s) p ∈ known /\ idn (hp s) p ∉ idn (hp s) <$> l) ->
    wf src known (frame_events (hp s) c l).
  Proof using HI.
    induction l as [|f l IH]; intros c known HF HN HC; [done|]. apply Forall_cons in HF as [Hf HF]. rewrite fmap_cons in HN. apply NoDup_cons in HN as [Hn HN].
    cbn [frame_events wf mk_event ev_type ev_op ev_a ev_b ev_item]. split; [apply src_proper; by eapply has_any|]. split; [f_equal; symmetry; apply src_idn; by eapply has_any|].
    assert (wf src (idn (hp s) f :: known) (frame_events (hp s) (Some f) l)) as HR.
    { apply IH; [done|done|]. intros p [= <-]. split; [done|]. split; [by left|done]. }
    destruct c as [p|]; [|done]. destruct (HC p eq_refl) as (Hp&Hk&Hni). cbn [app wf mk_event ev_type ev_op ev_a ev_b].
    split; [intros Heq; apply Hni; rewrite fmap_cons, <- Heq; left|]. split; [left|]. split; [by right|]. split; [|done]. split; by apply src_kind.
  Qed.
End source.

Lemma steps_in l a b : (a, b) ∈ steps_of l -> b ∈ l /\ a ∈ l.
Proof.
  induction l as [|f [|p l] IH]; [intros H; by apply elem_of_nil in H..|]. change (steps_of (f :: p :: l)) with ((p, f) :: steps_of (p :: l)). intros [[= -> ->]|H]%elem_of_cons; [split; [left|right; left]|].
  destruct (IH H) as [H1 H2]. split; by right.
Qed.
Lemma steps_fun l a a' b : NoDup l -> (a, b) ∈ steps_of l -> (a', b) ∈ steps_of l -> a = a'.
Proof.
  induction l as [|f [|p l] IH]; [intros _ H; by apply elem_of_nil in H..|]. intros [Hn HN]%NoDup_cons. change (steps_of (f :: p :: l)) with ((p, f) :: steps_of (p :: l)).
  intros [[= -> ->]|H1]%elem_of_cons [H2|H2]%elem_of_cons.
  - congruence.
  - by apply steps_in in H2 as [? _].
  - injection H2 as -> ->. by apply steps_in in H1 as [? _].
  - by apply IH.
Qed.

(** Source: a map of an environment in any reachable state; the event that announces or updates it is processed with context updates. Receiver: any consistent
    environment, whatever it knows, nobody listening, the ids it shares with the source used for items of the same class. Applying the events always works;
    afterwards the map and all frames above it are there with the content of the source, linked as in the source, and nothing else has changed except
    for other links of the same items that these replace. *)
Theorem C104_context w e x p o me r :
  reachable w -> w_envs w !! e = Some x -> has is_map e (w_heap w) p -> o = EAdd \/ o = EUpdate ->
  let s := env_st w x in let m := idn (w_heap w) p in
  exists es chain, process (S (length (e_tree x))) false s o p = Ok es /\
    match chain with [] => forall f, ~ linked s EFrame m f | f :: _ => linked s EFrame m f /\ ancestors s chain end /\
    forall ps, Inv me r -> has is_frame me (hp r) (e_root (en r)) -> e_handlers (en r) = [] ->
      (forall id v v', content s !! id = Some v -> content r !! id = Some v' -> v'.1 = v.1) ->
      length ps = length es -> NoDup ps -> Forall (fun q => hp r !! q = None) ps ->
      exists r', apply_events me (zip ps es) r = Ok r' /\ Inv me r' /\ has is_frame me (hp r') (e_root (en r')) /\ root_id r' = root_id r /\
        (forall id, content r' !! id = if decide (id ∈ m :: chain) then content s !! id else content r !! id) /\
        (forall a b, linked r' ETree a b <-> (a, b) ∈ steps_of chain \/ (linked r ETree a b /\ forall a', (a', b) ∉ steps_of chain)) /\
        (forall a b, linked r' EFrame a b <-> (a = m /\ head chain = Some b) \/ (linked r EFrame a b /\ (a = m -> chain = []))) /\
        (forall a b, linked r' ELayer a b <-> linked r ELayer a b).
Proof.
  intros HW Hx Hm Ho s m. destruct (reach_parts _ _ _ HW Hx) as (HI&_&HA). change (Inv e s) in HI.
  change (w_heap w) with (hp s) in Hm, m. pose proof Hm as (it&Hp&_&Hk). unfold process. rewrite Hp, Hk.
  set (first := mk_event (hp s) EItem o p None).
  assert (Hfw : forall known, wf (src s) (m :: known) [] -> wf (src s) known [first]).
  { intros known _. assert (proper_id m /\ Some (payload_of (hp s) p) = Some (src s m)) as [H1 H2].
    { split; [eapply src_proper; [exact HI|by eapply has_any]|]. f_equal. symmetry. eapply src_idn; [exact HI|by eapply has_any]. }
    destruct Ho as [-> | ->]; (split; [done|split; done]). }
  assert (Hsm : content s !! m = Some (src s m)).
  { unfold src. destruct (src_idn e s HI p (has_any _ _ _ _ Hm)) as [H _]. change (idn (hp s) p) with m in H. by rewrite H. }
  destruct (get_frame (en s) p) as [f|] eqn:Hf.
  - unfold get_frame in Hf. apply assoc_in in Hf. pose proof (inv_maps _ _ HI _ _ Hf) as [_ Hff].
    destruct (climb_total x f HA) as (rt&Hrt). destruct (frames_up_total _ _ _ _ Hrt) as (l&Hl). change (en s) with x. rewrite Hl. cbn [obind].
    eexists _, (idn (hp s) <$> l). split; [reflexivity|]. destruct (frames_up_head _ _ _ _ Hl) as (l'&El).
    pose proof (frames_up_frames e s _ f l HI Hff Hl) as HFl.
    assert (HN : NoDup (idn (hp s) <$> l)).
    { apply NoDup_fmap_2_strong; [|by eapply frames_up_nodup]. rewrite Forall_forall in HFl. intros a b Ha Hb. eapply inv_id_inj; [exact HI|by eapply has_any, HFl..]. }
    assert (Hmf : linked s EFrame m (idn (hp s) f)) by (apply elem_of_by_id; by exists p, f).
    assert (Hml : m ∉ idn (hp s) <$> l).
    { intros (q&Hq&Hin)%elem_of_list_fmap. rewrite Forall_forall in HFl. apply HFl in Hin. assert (q = p) as -> by (eapply inv_id_inj; [exact HI|by eapply has_any..|done]).
      destruct Hin as (it'&H1&_&H2). assert (it' = it) as -> by congruence. by destruct (it_kind it). }
    split. { rewrite El, fmap_cons. split; [done|]. rewrite <- fmap_cons, <- El. by eapply frames_up_ancestors. }
    intros ps RI RR RH RK Hlen HNp HFp.
    set (last := mk_event (hp s) EFrame EAdd p (Some f)) in *. set (mid := frame_events (hp s) None l) in *.
    assert (HB : brought (first :: mid ++ [last]) = m :: (idn (hp s) <$> l)).
    { change (first :: mid ++ [last]) with ([first] ++ mid ++ [last]). rewrite !brought_app. unfold mid. rewrite frame_events_brought.
      replace (brought [last]) with (@nil string) by done. by rewrite app_nil_r. }
    assert (HAd : added (first :: mid ++ [last]) = ((fun pf => (ETree, pf.1, pf.2)) <$> steps_of (idn (hp s) <$> l)) ++ [(EFrame, m, idn (hp s) f)]).
    { change (first :: mid ++ [last]) with ([first] ++ mid ++ [last]). rewrite !added_app. unfold mid. by rewrite frame_events_added. }
    assert (HAin : forall t a b, (t, a, b) ∈ added (first :: mid ++ [last]) <-> (t = ETree /\ (a, b) ∈ steps_of (idn (hp s) <$> l)) \/ (t = EFrame /\ a = m /\ b = idn (hp s) f)).
    { intros t a b. rewrite HAd, elem_of_app, elem_of_list_fmap, elem_of_list_singleton. split.
      - intros [([a' b']&[= -> -> ->]&H)|[= -> -> ->]]; [by left|by right].
      - intros [[-> H]|(->&->&->)]; [left; by exists (a, b)|by right]. }
    destruct (wf_run (src s) me (first :: mid ++ [last]) [] r ps) as (r'&E'&I'&R'&H'&D'&C'&L'&O'); try done.
    { change (first :: mid ++ [last]) with ([first] ++ mid ++ [last]). apply wf_app; [by apply Hfw|]. intros k1 Hk1.
      assert (m ∈ k1) as Hm1 by (apply Hk1; right; by left).
      apply wf_app; [apply frame_events_wf with (me := e); done|]. intros k2 Hk2. unfold mid in Hk2. rewrite frame_events_brought in Hk2.
      cbn [wf last mk_event ev_type ev_op ev_a ev_b]. change (idn (hp s) p) with m. split.
      { intros Heq. apply Hml. rewrite Heq, El. left. }
      split; [apply Hk2; by left|]. split; [apply Hk2; right; rewrite El; left|]. split; [|done]. split; eapply src_kind; done. }
    { intros id Hid. by apply elem_of_nil in Hid. }
    { intros id v Hid Hv. rewrite HB in Hid.
      assert (content s !! id = Some (src s id)) as Hs.
      { apply elem_of_cons in Hid as [->|(q&->&Hq)%elem_of_list_fmap]; [done|]. rewrite Forall_forall in HFl. apply HFl in Hq.
        destruct (src_idn e s HI q (has_any _ _ _ _ Hq)) as [H1 H2]. by rewrite H1, H2. }
      by apply (RK id). }
    { intros t a b a' b' H1%HAin H2%HAin (k&Hk1&Hk2). destruct H1 as [[-> H1]|(->&->&->)], H2 as [[? H2]|(?&->&->)]; try done.
      cbn in Hk1, Hk2. assert (b = b') as <- by congruence. split; [|done]. by eapply steps_fun. }
    exists r'. split; [done|]. split; [done|]. split; [done|]. split; [done|]. split; [|split; [|split]].
    + intros id. rewrite C', HB. destruct (decide _) as [Hid|]; [|done].
      apply elem_of_cons in Hid as [->|(q&->&Hq)%elem_of_list_fmap]; [done|]. rewrite Forall_forall in HFl. apply HFl in Hq.
      destruct (src_idn e s HI q (has_any _ _ _ _ Hq)) as [H1 H2]. by rewrite H1, H2.
    + intros a b. rewrite L', HAin. split.
      * intros [[[_ H]|(H&_)]|[H1 H2]]; [by left|done|]. right. split; [done|]. intros a' Hin. apply H2. exists a', b. rewrite HAin. split; [by left|]. by exists b.
      * intros [H|[H1 H2]]; [by left; left|]. right. split; [done|]. intros (a'&b'&Hin&k&Hk1&Hk2). apply HAin in Hin as [[_ Hin]|(?&_)]; [|done]. cbn in Hk1, Hk2.
        assert (b' = b) as -> by congruence. by eapply H2.
    + intros a b. rewrite L', HAin. split.
      * intros [[[H _]|(_&->&->)]|[H1 H2]]; [done|left; split; [done|by rewrite El]|]. right. split; [done|]. intros ->. exfalso. apply H2.
        exists m, (idn (hp s) f). rewrite HAin. split; [by right|]. by exists m.
      * intros [[-> H]|[H1 H2]].
        -- rewrite El, fmap_cons in H. injection H as <-. left. by right.
        -- right. split; [done|]. intros (a'&b'&Hin&k&Hk1&Hk2). apply HAin in Hin as [[? _]|(_&->&->)]; [done|]. cbn in Hk1, Hk2.
           assert (a = m) as -> by congruence. specialize (H2 eq_refl). by rewrite El in H2.
    + intros a b. rewrite L', HAin. split; [intros [[[? _]|(?&_)]|[? _]]; done|]. intros H. right. split; [done|]. intros (a'&b'&Hin&_). apply HAin in Hin as [[? _]|(?&_)]; done.
  - eexists _, []. split; [reflexivity|]. split.
    { intros f. cbn. rewrite elem_of_by_id. intros (q&f'&Hin&Hq&_). assert (q = p) as ->.
      { pose proof (inv_maps _ _ HI _ _ Hin) as [Hq' _]. eapply inv_id_inj; [exact HI|by eapply has_any..|done]. }
      apply assoc_nodup in Hin; [|apply HI]. unfold get_frame in Hf. change x with (en s) in Hin. congruence. }
    intros ps RI RR RH RK Hlen HNp HFp. destruct ps as [|p1 [|p2 [|]]]; try done. apply NoDup_cons in HNp as [Hn1 _]. apply Forall_cons in HFp as [HF1 _].
    assert (HB : brought [first] = [m]) by done. assert (HAd : added [first] = []) by done.
    destruct (wf_run (src s) me [first] [] r [p1]) as (r'&E'&I'&R'&H'&D'&C'&L'&O'); try done.
    { by apply Hfw. }
    { intros id Hid. by apply elem_of_nil in Hid. }
    { intros id v Hid Hv. rewrite HB in Hid. apply elem_of_list_singleton in Hid as ->. by apply (RK m). }
    { intros t a b a' b' H. rewrite HAd in H. by apply elem_of_nil in H. }
    { apply NoDup_singleton. }
    { by constructor. }
    exists r'. split.
    { cbn [zip zip_with apply_events] in *. destruct (apply_event me p1 first r) as [r1| | |]; [|done..]. cbn [obind] in *. injection E' as ->.
      unfold apply_event. cbn [mk_event ev_type ev_op ev_a ev_b dispatch]. assert (get_item (en r') "" = None) as ->; [|by destruct (get_item _ _)].
      destruct (get_item (en r') "") as [q|] eqn:Hq; [|done]. apply assoc_in in Hq. by apply (inv_slash _ _ I') in Hq. }
    split; [done|]. split; [done|]. split; [done|]. rewrite HAd in L'. assert (forall t a b, linked r' t a b <-> linked r t a b) as HL.
    { intros t a b. rewrite L'. split; [intros [H|[H _]]; [by apply elem_of_nil in H|done]|]. intros H. right. split; [done|]. intros (a'&b'&Hin&_). by apply elem_of_nil in Hin. }
    split; [|split; [|split]].
    + intros id. rewrite C', HB. destruct (decide _) as [Hid|]; [|done]. by apply elem_of_list_singleton in Hid as ->.
    + intros a b. rewrite HL. split; [intros H; right; split; [done|]; intros a' Hin; by apply elem_of_nil in Hin|]. intros [H|[H _]]; [by apply elem_of_nil in H|done].
    + intros a b. rewrite HL. split; [by right|]. intros [[_ H]|[H _]]; done.
    + intros a b. apply HL.
Qed.

(** The map of the demo environment (on a frame below a frame below the root), and a replica that knows nothing. *)
Definition c104_replica (os : list op) : option st := w ← run_legal world0 (ONewEnv 2 20 :: os); x ← w_envs w !! 2%positive; Some (env_st w x).
Example C104_nonvacuous : has is_map 1 (hp demo_st) 13 /\
  match process (S (length (e_tree (en demo_st)))) false demo_st EUpdate 13 with Ok es => length es = 7 | _ => False end /\
  exists r, c104_replica [] = Some r /\ Inv 2 r /\ has is_frame 2 (hp r) (e_root (en r)) /\ e_handlers (en r) = [] /\
    content r = {[ "/0" := (KFrame, 0%Z) ]} /\ content demo_st !! "/0" = Some (KFrame, 0%Z).
Proof.
  split. { exists (default (Item KLayer "" None 0 0 0) (hp demo_st !! 13%positive)). vm_compute. done. }
  split; [vmtrue|].
  assert (exists w, run_legal world0 [ONewEnv 2 20] = Some w /\ (exists y, w_envs w !! 2%positive = Some y /\ content (env_st w y) = {[ "/0" := (KFrame, 0%Z) ]} /\ e_handlers y = []))
    as (w2&Hw2&y&Hy&Hcy&Hh) by (eapply (ok_run _ (fun w => exists y, w_envs w !! 2%positive = Some y /\ content (env_st w y) = _ /\ e_handlers y = _)); vmtrue).
  assert (HR2 : reachable w2) by (by eapply run_legal_reachable). destruct (reach_parts _ _ _ HR2 Hy) as (IS&[RS _]&_).
  exists (env_st w2 y). split; [unfold c104_replica; rewrite Hw2; cbn [mbind option_bind]; by rewrite Hy|]. do 4 (split; [done|]). vmtrue.
Qed.

(** * Where it fails *)
(** With a queue whose events may be processed in another thread (allowMultithreading) the items of the events are copies without an environment. *)
Theorem C104_copied_refuted fuel s o p me : has is_map me (hp s) p -> process fuel true s o p = Bad Abort.
Proof. intros (it&Hp&_&Hk). unfold process. by rewrite Hp, Hk. Qed.
(** If somebody listens at the receiver, the first frame that the receiver does not know breaks it, because it is announced with an update. *)
Theorem C104_listener_refuted : exists es r ps, process (S (length (e_tree (en demo_st)))) false demo_st EAdd 13 = Ok es /\ c104_replica [OAddHandler 2 100] = Some r /\
  length ps = length es /\ NoDup ps /\ Forall (fun q => hp r !! q = None) ps /\ apply_events 2 (zip ps es) r = Bad UB.
Proof.
  assert (match process (S (length (e_tree (en demo_st)))) false demo_st EAdd 13, c104_replica [OAddHandler 2 100] with
    | Ok es, Some r => bool_decide (length [31;32;33;34;35;36;37]%positive = length es /\ NoDup [31;32;33;34;35;36;37]%positive /\ Forall (fun q => hp r !! q = None) [31;32;33;34;35;36;37]%positive) &&
      match apply_events 2 (zip [31;32;33;34;35;36;37]%positive es) r with Bad UB => true | _ => false end
    | _, _ => false end = true) as H by vmtrue.
  destruct (process _ _ _ _ _) as [es| | |]; [|discriminate H..]. destruct (c104_replica _) as [r|]; [|discriminate H]. apply andb_true_iff in H as [(H1&H2&H3)%bool_decide_eq_true H4].
  exists es, r, [31;32;33;34;35;36;37]%positive. split; [reflexivity|]. split; [reflexivity|]. split; [exact H1|]. split; [exact H2|]. split; [exact H3|].
  destruct (apply_events _ _ _) as [| |[]|]; try discriminate H4. reflexivity.
Qed.
