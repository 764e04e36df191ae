(** Filters of event handlers (C142): src/core/EventHandler.hpp:20-67, EventHandler.cpp:9-28.

    Handlers and filters are objects of the user, numbered. A handler records the events that its method [handle] is called with. The method [filter] of a filter is code of the user: [behave f] gives, from
    the state of the filter and an event, the new state, the events that the filter passes to its handler by itself meanwhile, and whether the event may pass. Handlers that cause further events are not modelled. *)
From stdpp Require Import prelude.
From Coq Require Import Lia.
From Verif Require Import Base.

(** ** Model *)
Section model.
  Context {M S : Type} (behave : nat -> S -> M -> S * list M * bool).
  Record world := World {
    filter_of : nat -> option nat;   (** EventHandler::filter, EventHandler.hpp:66 *)
    target : nat -> option nat;      (** EventFilter::handler, EventHandler.hpp:41 *)
    mind : nat -> S;                 (** the state of a filter *)
    dead_handler : nat -> bool;
    dead_filter : nat -> bool;
    got : nat -> list M }.
  Definition upd {A} (k : nat) (a : A) (m : nat -> A) (i : nat) : A := if decide (i = k) then a else m i.
  (** the method [handle] of a handler *)
  Definition handle (h : nat) (m : M) (w : world) : out world world :=
    if dead_handler w h then Bad UB else Ok (World (filter_of w) (target w) (mind w) (dead_handler w) (dead_filter w) (upd h (got w h ++ [m]) (got w))).
  (** EventHandler.cpp:9-12 *)
  Definition pass (f : nat) (m : M) (w : world) : out world world :=
    if dead_filter w f then Bad UB else match target w f with None => Bad UB | Some h => handle h m w end.
  (** EventHandler.cpp:14-22 *)
  Definition receive (h : nat) (m : M) (w : world) : out world world :=
    if dead_handler w h then Bad UB
    else match filter_of w h with
         | None => handle h m w
         | Some f =>
           if dead_filter w f then Bad UB
           else let '(s, own, ok) := behave f (mind w f) m in
             w <~ iter_out (fun m w => pass f m w) own (World (filter_of w) (target w) (upd f s (mind w)) (dead_handler w) (dead_filter w) (got w)) ;;
             if ok then handle h m w else Ok w
         end.
  (** EventHandler.cpp:24-28; a null pointer is [None] *)
  Definition set_filter (h : nat) (f : option nat) (w : world) : out world world :=
    if dead_handler w h then Bad UB
    else match f with
         | None => Bad UB
         | Some f => if dead_filter w f then Bad UB else Ok (World (upd h (Some f) (filter_of w)) (upd f (Some h) (target w)) (mind w) (dead_handler w) (dead_filter w) (got w))
         end.
  Inductive op := Receive (h : nat) (m : M) | SetFilter (h : nat) (f : option nat) | Pass (f : nat) (m : M) | KillHandler (h : nat) | KillFilter (f : nat).
  Definition step (o : op) (w : world) : out world world :=
    match o with
    | Receive h m => receive h m w
    | SetFilter h f => set_filter h f w
    | Pass f m => pass f m w
    | KillHandler h => if dead_handler w h then Bad UB else Ok (World (filter_of w) (target w) (mind w) (upd h true (dead_handler w)) (dead_filter w) (got w))   (** EventHandler.hpp:55 *)
    | KillFilter f => if dead_filter w f then Bad UB else Ok (World (filter_of w) (target w) (mind w) (dead_handler w) (upd f true (dead_filter w)) (got w))   (** EventHandler.hpp:24 *)
    end.
  Definition run (ops : list op) (w : world) : out world world := iter_out step ops w.
  (** EventHandler.hpp:23 and 54 *)
  Definition start (s : nat -> S) : world := World (fun _ => None) (fun _ => None) s (fun _ => false) (fun _ => false) (fun _ => []).
End model.
Arguments op : clear implicits.

(** ** Specification *)
Section spec.
  Context {M S : Type} (behave : nat -> S -> M -> S * list M * bool).
  (** the filter that was set last in handler [h] *)
  Definition last_filter (h : nat) (ops : list (op M)) : option nat :=
    last (omap (fun o => match o with SetFilter h' (Some f) => if decide (h' = h) then Some f else None | _ => None end) ops).
  (** the handler that filter [f] was set in last *)
  Definition last_handler (f : nat) (ops : list (op M)) : option nat :=
    last (omap (fun o => match o with SetFilter h (Some f') => if decide (f' = f) then Some h else None | _ => None end) ops).
  (** the events that were sent to a handler *)
  Definition sent (h : nat) (ops : list (op M)) : list M := omap (fun o => match o with Receive h' m => if decide (h' = h) then Some m else None | _ => None end) ops.
  (** no filter is ever set in another handler than its owner *)
  Definition owned (owner : nat -> nat) (ops : list (op M)) : Prop := forall h f, SetFilter h (Some f) ∈ ops -> owner f = h.
  (** an operation that concerns handler [h]: on itself, or on a filter it owns *)
  Definition concerns (owner : nat -> nat) (h : nat) (o : op M) : Prop :=
    match o with Receive h' _ | SetFilter h' _ | KillHandler h' => h' = h | Pass f _ | KillFilter f => owner f = h end.
  #[global] Instance concerns_dec owner h o : Decision (concerns owner h o).
  Proof. destruct o; cbn; apply _. Defined.
End spec.

(** ** Proofs *)
Section proofs.
  Context {M S : Type} (behave : nat -> S -> M -> S * list M * bool).
  Notation world := (@world M S).
  Notation step := (step behave).
  Notation run := (run behave).
  Implicit Types (w : world) (ops : list (op M)).

  Lemma upd_eq {A} k (a : A) m : upd k a m k = a.
  Proof using Type. unfold upd. by rewrite decide_True. Qed.
  Lemma upd_ne {A} k (a : A) m i : i <> k -> upd k a m i = m i.
  Proof using Type. intros H. unfold upd. by rewrite decide_False. Qed.
  Lemma iter_app {St A} (f : A -> St -> out St St) l1 l2 s : iter_out f (l1 ++ l2) s = obind (iter_out f l1 s) (iter_out f l2).
  Proof using Type. revert s. induction l1 as [|x l1 IH]; intros s; [done|]. cbn. destruct (f x s); [apply IH|done..]. Qed.
  Lemma run_snoc ops o w : run (ops ++ [o]) w = obind (run ops w) (step o).
  Proof using Type. unfold EventFilters.run. rewrite iter_app. destruct (iter_out step ops w) as [w'| | |]; [|done..]. cbn. by destruct (step o w'). Qed.
  Lemma last_snoc_some {A} (l : list A) x : last (l ++ [x]) = Some x.
  Proof using Type. apply last_snoc. Qed.

  (** everything but the events received is as before *)
  Definition same w w' : Prop := filter_of w' = filter_of w /\ target w' = target w /\ mind w' = mind w /\ dead_handler w' = dead_handler w /\ dead_filter w' = dead_filter w.
  Lemma passes_ok f h l w : dead_filter w f = false -> target w f = Some h -> dead_handler w h = false ->
    exists w', iter_out (fun m w => pass f m w) l w = Ok w' /\ same w w' /\ forall i, got w' i = got w i ++ (if decide (i = h) then l else []).
  Proof using Type.
    revert w. induction l as [|m l IH]; intros w Hf Ht Hh; cbn [iter_out].
    - exists w. split; [done|]. split; [done|]. intros i. destruct (decide _); by rewrite app_nil_r.
    - unfold pass at 1. rewrite Hf, Ht. unfold handle. rewrite Hh. cbn [obind].
      match goal with |- context [iter_out _ l ?w1] => destruct (IH w1 Hf Ht Hh) as (w'&E&HS&HG) end. exists w'. split; [exact E|]. split; [exact HS|].
      intros i. rewrite HG. cbn [got]. destruct (decide (i = h)) as [->|Hi]; [rewrite upd_eq, <-app_assoc; done|by rewrite upd_ne].
  Qed.
  Lemma passes_bad f l w w' : iter_out (fun m w => pass f m w) l w = Ok w' -> l <> [] -> dead_filter w f = false /\ exists h, target w f = Some h /\ dead_handler w h = false.
  Proof using Type.
    destruct l as [|m l]; [done|]. intros H _. cbn [iter_out] in H. unfold pass at 1 in H. destruct (dead_filter w f); [done|]. split; [done|]. destruct (target w f) as [h|]; [|done]. exists h. split; [done|].
    unfold handle in H. by destruct (dead_handler w h).
  Qed.
  Lemma passes_any f l w w' : iter_out (fun m w => pass f m w) l w = Ok w' -> same w w' /\ forall i, got w' i = got w i ++ (if decide (target w f = Some i) then l else []).
  Proof using Type.
    intros H. destruct (decide (l = [])) as [->|Hl].
    - cbn in H. injection H as <-. split; [done|]. intros i. destruct (decide _); by rewrite app_nil_r.
    - destruct (passes_bad _ _ _ _ H Hl) as (Hf&h&Ht&Hh). destruct (passes_ok f h l w Hf Ht Hh) as (w2&E&HS&HG). rewrite E in H. injection H as ->. split; [done|]. intros i. rewrite HG, Ht.
      destruct (decide (i = h)) as [->|Hi]; [by rewrite decide_True|]. rewrite decide_False; [done|]. congruence.
  Qed.
  (** what sending an event does, if it is defined *)
  Lemma receive_inv h m w w' : receive behave h m w = Ok w' -> dead_handler w h = false /\
    filter_of w' = filter_of w /\ target w' = target w /\ dead_handler w' = dead_handler w /\ dead_filter w' = dead_filter w /\
    match filter_of w h with
    | None => mind w' = mind w /\ forall i, got w' i = got w i ++ (if decide (i = h) then [m] else [])
    | Some f => dead_filter w f = false /\ let '(s, own, ok) := behave f (mind w f) m in mind w' = upd f s (mind w) /\
        forall i, got w' i = got w i ++ (if decide (target w f = Some i) then own else []) ++ (if decide (i = h) then if ok : bool then [m] else [] else [])
    end.
  Proof using Type.
    unfold receive. destruct (dead_handler w h) eqn:Hh; [done|]. intros H. split; [done|]. destruct (filter_of w h) as [f|].
    - destruct (dead_filter w f) eqn:Hf; [done|]. destruct (behave f (mind w f) m) as [[s own] ok]. destruct (iter_out _ own _) as [w1| | |] eqn:E; [|done..]. cbn [obind] in H.
      apply passes_any in E as [(E1&E2&E3&E4&E5) E6]. cbn [filter_of target mind dead_handler dead_filter got] in *. destruct ok.
      + unfold handle in H. rewrite E4, Hh in H. injection H as <-. cbn [filter_of target mind dead_handler dead_filter got]. repeat (split; [done|]). intros i.
        destruct (decide (i = h)) as [->|Hi]; [rewrite upd_eq, E6, <-app_assoc; done|]. rewrite upd_ne, E6, app_nil_r by done. done.
      + injection H as <-. repeat (split; [done|]). intros i. rewrite E6. destruct (decide (i = h)); by rewrite app_nil_r.
    - unfold handle in H. rewrite Hh in H. injection H as <-. cbn. repeat (split; [done|]). intros i. destruct (decide (i = h)) as [->|Hi]; [by rewrite upd_eq|by rewrite upd_ne, app_nil_r].
  Qed.
  Definition tracks ops w : Prop :=
    (forall h, filter_of w h = last_filter h ops) /\ (forall f, target w f = last_handler f ops) /\
    (forall h, dead_handler w h = true <-> KillHandler h ∈ ops) /\ (forall f, dead_filter w f = true <-> KillFilter f ∈ ops).
  Lemma last_filter_snoc h ops o : last_filter h (ops ++ [o]) = match o with SetFilter h' (Some f) => if decide (h' = h) then Some f else last_filter h ops | _ => last_filter h ops end.
  Proof using Type. unfold last_filter. rewrite omap_app. destruct o as [| h' [f|]| | |]; cbn; rewrite ?app_nil_r; try done. destruct (decide _); cbn; [apply last_snoc|by rewrite app_nil_r]. Qed.
  Lemma last_handler_snoc f ops o : last_handler f (ops ++ [o]) = match o with SetFilter h (Some f') => if decide (f' = f) then Some h else last_handler f ops | _ => last_handler f ops end.
  Proof using Type. unfold last_handler. rewrite omap_app. destruct o as [| h' [f'|]| | |]; cbn; rewrite ?app_nil_r; try done. destruct (decide _); cbn; [apply last_snoc|by rewrite app_nil_r]. Qed.
  Lemma in_snoc (o o' : op M) ops : o ∈ ops ++ [o'] <-> o ∈ ops \/ o = o'.
  Proof using Type. rewrite elem_of_app, elem_of_list_singleton. done. Qed.
  Lemma pass_inv f m w w' : pass f m w = Ok w' -> dead_filter w f = false /\ exists h, target w f = Some h /\ dead_handler w h = false /\ same w w' /\ forall i, got w' i = got w i ++ (if decide (i = h) then [m] else []).
  Proof using Type.
    unfold pass. destruct (dead_filter w f); [done|]. destruct (target w f) as [h|] eqn:Ht; [|done]. unfold handle. destruct (dead_handler w h) eqn:Hh; [done|]. intros [= <-]. split; [done|]. exists h. repeat (split; [done|]).
    intros i. cbn. destruct (decide (i = h)) as [->|Hi]; [by rewrite upd_eq|by rewrite upd_ne, app_nil_r].
  Qed.
  Lemma run_tracks s ops w : run ops (start s) = Ok w -> tracks ops w.
  Proof using Type.
    revert w. induction ops as [|o ops IH] using rev_ind; intros w H.
    - cbn in H. injection H as <-. repeat split; try done; intros HH; by apply elem_of_nil in HH.
    - rewrite run_snoc in H. destruct (run ops (start s)) as [w0| | |]; [|done..]. cbn [obind] in H. specialize (IH w0 eq_refl). destruct IH as (I1&I2&I3&I4).
      assert (HK : forall o', in_snoc o' o ops = in_snoc o' o ops) by done. clear HK.
      destruct o as [h m|h [f|]|f m|h|f]; cbn [EventFilters.step] in H.
      + apply receive_inv in H as (_&E1&E2&E3&E4&_). unfold tracks. rewrite E1, E2, E3, E4. split; [intros; rewrite last_filter_snoc; apply I1|]. split; [intros; rewrite last_handler_snoc; apply I2|].
        split; intros x; rewrite in_snoc; [rewrite I3|rewrite I4]; naive_solver.
      + unfold set_filter in H. destruct (dead_handler w0 h); [done|]. destruct (dead_filter w0 f); [done|]. injection H as <-. unfold tracks. cbn [filter_of target dead_handler dead_filter].
        split; [intros x; rewrite last_filter_snoc; unfold upd; destruct (decide (x = h)) as [->|]; [by rewrite decide_True|rewrite decide_False by done; apply I1]|].
        split; [intros x; rewrite last_handler_snoc; unfold upd; destruct (decide (x = f)) as [->|]; [by rewrite decide_True|rewrite decide_False by done; apply I2]|].
        split; intros x; rewrite in_snoc; [rewrite I3|rewrite I4]; naive_solver.
      + unfold set_filter in H. by destruct (dead_handler w0 h).
      + apply pass_inv in H as (_&h&_&_&(E1&E2&_&E3&E4)&_). unfold tracks. rewrite E1, E2, E3, E4. split; [intros; rewrite last_filter_snoc; apply I1|]. split; [intros; rewrite last_handler_snoc; apply I2|].
        split; intros x; rewrite in_snoc; [rewrite I3|rewrite I4]; naive_solver.
      + destruct (dead_handler w0 h); [done|]. injection H as <-. unfold tracks. cbn [filter_of target dead_handler dead_filter]. split; [intros; rewrite last_filter_snoc; apply I1|]. split; [intros; rewrite last_handler_snoc; apply I2|].
        split; intros x; rewrite in_snoc; [unfold upd; destruct (decide (x = h)) as [->|]; [naive_solver|rewrite I3]|rewrite I4]; naive_solver.
      + destruct (dead_filter w0 f); [done|]. injection H as <-. unfold tracks. cbn [filter_of target dead_handler dead_filter]. split; [intros; rewrite last_filter_snoc; apply I1|]. split; [intros; rewrite last_handler_snoc; apply I2|].
        split; intros x; rewrite in_snoc; [rewrite I3|unfold upd; destruct (decide (x = f)) as [->|]; [naive_solver|rewrite I4]]; naive_solver.
  Qed.
  Lemma alive (b : bool) (P : Prop) : (b = true <-> P) -> ~ P -> b = false.
  Proof using Type. destruct b; naive_solver. Qed.

  (** After any history, an event sent to a handler without filter is received by it, and by no other. *)
  Theorem C142_open s ops w h m : run ops (start s) = Ok w -> last_filter h ops = None -> KillHandler h ∉ ops ->
    exists w', run (ops ++ [Receive h m]) (start s) = Ok w' /\ forall i, got w' i = got w i ++ (if decide (i = h) then [m] else []).
  Proof using Type.
    intros H HF HK. rewrite run_snoc, H. cbn [obind EventFilters.step]. destruct (run_tracks _ _ _ H) as (I1&I2&I3&I4). unfold receive. rewrite (alive _ _ (I3 h) HK), I1, HF. unfold handle.
    rewrite (alive _ _ (I3 h) HK). eexists. split; [done|]. intros i. cbn. destruct (decide (i = h)) as [->|Hi]; [by rewrite upd_eq|by rewrite upd_ne, app_nil_r].
  Qed.
  (** With the filter that was set last, the filter decides: what it passes by itself goes to the handler in which the filter was set last, before the event, if it may pass, goes to the handler it was sent to. *)
  Theorem C142_filtered s ops w h m f h2 : run ops (start s) = Ok w -> last_filter h ops = Some f -> last_handler f ops = Some h2 -> KillHandler h ∉ ops -> KillHandler h2 ∉ ops -> KillFilter f ∉ ops ->
    exists w', run (ops ++ [Receive h m]) (start s) = Ok w' /\ let '(s', own, ok) := behave f (mind w f) m in
      mind w' f = s' /\ forall i, got w' i = got w i ++ (if decide (i = h2) then own else []) ++ (if decide (i = h) then if ok : bool then [m] else [] else []).
  Proof using Type.
    intros H HF HT HK HK2 HKF. rewrite run_snoc, H. cbn [obind EventFilters.step]. destruct (run_tracks _ _ _ H) as (I1&I2&I3&I4).
    assert (HO : exists w', receive behave h m w = Ok w').
    { unfold receive. rewrite (alive _ _ (I3 h) HK), I1, HF, (alive _ _ (I4 f) HKF). destruct (behave f (mind w f) m) as [[s1 own] ok].
      match goal with |- context [iter_out _ own ?w1] => destruct (passes_ok f h2 own w1) as (w1'&E&(E1&E2&E3&E4&E5)&_) end; [by apply (alive _ _ (I4 f))|cbn; by rewrite I2|by apply (alive _ _ (I3 h2))|].
      rewrite E. cbn [obind]. destruct ok; [|by eexists]. unfold handle. rewrite E4. cbn. rewrite (alive _ _ (I3 h) HK). by eexists. }
    destruct HO as [w' HO]. exists w'. split; [done|]. apply receive_inv in HO as (_&_&_&_&_&HO). rewrite I1, HF in HO. destruct HO as [_ HO]. destruct (behave f (mind w f) m) as [[s1 own] ok]. destruct HO as [HM HG].
    split; [rewrite HM; apply upd_eq|]. intros i. rewrite HG, I2, HT. destruct (decide (i = h2)) as [->|Hi]; [by rewrite decide_True|]. rewrite decide_False by congruence. done.
  Qed.
  (** A filter can pass an event by itself at any time, also after it was replaced by another one. *)
  Theorem C142_pass s ops w f m h : run ops (start s) = Ok w -> last_handler f ops = Some h -> KillHandler h ∉ ops -> KillFilter f ∉ ops ->
    exists w', run (ops ++ [Pass f m]) (start s) = Ok w' /\ forall i, got w' i = got w i ++ (if decide (i = h) then [m] else []).
  Proof using Type.
    intros H HT HK HKF. rewrite run_snoc, H. cbn [obind EventFilters.step]. destruct (run_tracks _ _ _ H) as (I1&I2&I3&I4).
    destruct (passes_ok f h [m] w) as (w'&E&_&HG); [by apply (alive _ _ (I4 f))|by rewrite I2|by apply (alive _ _ (I3 h))|]. exists w'. split; [|done].
    cbn [iter_out] in E. destruct (pass f m w) as [w2| | |]; [|done..]. cbn in E. by injection E as ->.
  Qed.
  (** A handler in which no filter was ever set received exactly the events sent to it, in their order. *)
  Theorem C142_all s ops w h : run ops (start s) = Ok w -> last_filter h ops = None -> got w h = sent h ops.
  Proof using Type.
    revert w. induction ops as [|o ops IH] using rev_ind; intros w H HF; [cbn in H; by injection H as <-|].
    rewrite run_snoc in H. destruct (run ops (start s)) as [w0| | |] eqn:E; [|done..]. cbn [obind] in H. rewrite last_filter_snoc in HF. unfold sent. rewrite omap_app. fold (sent h ops).
    assert (HF0 : last_filter h ops = None) by (destruct o as [|h' [f|]| | |]; try done; destruct (decide _); done).
    specialize (IH w0 eq_refl HF0). destruct (run_tracks _ _ _ E) as (I1&I2&I3&I4).
    assert (HT : forall f, target w0 f <> Some h).
    { intros f. rewrite I2. intros Hl. unfold last_handler in Hl. apply last_Some_elem_of in Hl. apply elem_of_list_omap in Hl as (x&Hx&Hx2). destruct x as [|h' [f'|]| | |]; try done. destruct (decide _); [|done]. injection Hx2 as ->.
      unfold last_filter in HF0. apply last_None in HF0. assert (f' ∈ @nil nat) as HX; [|by apply elem_of_nil in HX]. rewrite <-HF0. apply elem_of_list_omap. eexists. split; [exact Hx|]. cbn. by rewrite decide_True. }
    destruct o as [h' m|h' [f|]|f m|h'|f]; cbn [EventFilters.step] in H; cbn [omap list_omap].
    - apply receive_inv in H as (_&_&_&_&_&H). destruct (decide (h' = h)) as [->|Hh].
      + rewrite I1, HF0 in H. destruct H as [_ HG]. by rewrite HG, decide_True, IH.
      + rewrite app_nil_r. destruct (filter_of w0 h') as [f|].
        * destruct H as [_ H]. destruct (behave f (mind w0 f) m) as [[s1 own] ok]. destruct H as [_ HG]. rewrite HG, decide_False by apply HT. rewrite decide_False by done. by rewrite !app_nil_r.
        * destruct H as [_ HG]. rewrite HG, decide_False by done. by rewrite app_nil_r.
    - unfold set_filter in H. destruct (dead_handler w0 h'); [done|]. destruct (dead_filter w0 f); [done|]. injection H as <-. by rewrite app_nil_r.
    - unfold set_filter in H. by destruct (dead_handler w0 h').
    - apply pass_inv in H as (_&h'&Ht&_&_&HG). rewrite HG, decide_False, !app_nil_r; [done|]. intros ->. by apply (HT f).
    - destruct (dead_handler w0 h'); [done|]. injection H as <-. by rewrite app_nil_r.
    - destruct (dead_filter w0 f); [done|]. injection H as <-. by rewrite app_nil_r.
  Qed.
  (** the two worlds agree on what concerns handler [h] *)
  Definition agree (owner : nat -> nat) (h : nat) w w' : Prop :=
    filter_of w' h = filter_of w h /\ dead_handler w' h = dead_handler w h /\ got w' h = got w h /\
    forall f, owner f = h -> target w' f = target w f /\ mind w' f = mind w f /\ dead_filter w' f = dead_filter w f.
  Definition tidy (owner : nat -> nat) w : Prop := (forall x f, filter_of w x = Some f -> owner f = x) /\ (forall x f, target w f = Some x -> owner f = x).
  Lemma step_tidy owner o w w' : owned owner [o] -> tidy owner w -> step o w = Ok w' -> tidy owner w'.
  Proof using Type.
    intros HO [T1 T2] H. destruct o as [h m|h [f|]|f m|h|f]; cbn [EventFilters.step] in H.
    - apply receive_inv in H as (_&E1&E2&_). unfold tidy. by rewrite E1, E2.
    - unfold set_filter in H. destruct (dead_handler w h); [done|]. destruct (dead_filter w f); [done|]. injection H as <-. assert (owner f = h) by (apply HO; by left).
      split; cbn; intros x f'; unfold upd; destruct (decide _); naive_solver.
    - unfold set_filter in H. by destruct (dead_handler w h).
    - apply pass_inv in H as (_&h&_&_&(E1&E2&_)&_). unfold tidy. by rewrite E1, E2.
    - destruct (dead_handler w h); [done|]. by injection H as <-.
    - destruct (dead_filter w f); [done|]. by injection H as <-.
  Qed.
  Lemma agree_trans owner h w1 w2 w3 : agree owner h w1 w2 -> agree owner h w2 w3 -> agree owner h w1 w3.
  Proof using Type. intros (A1&A2&A3&A4) (B1&B2&B3&B4). repeat split; try congruence; intros; destruct (A4 f), (B4 f); try done; destruct_and?; congruence. Qed.
  Lemma agree_sym owner h w1 w2 : agree owner h w1 w2 -> agree owner h w2 w1.
  Proof using Type. intros (A1&A2&A3&A4). split; [done|]. split; [done|]. split; [done|]. intros f Hf. destruct (A4 f Hf) as (?&?&?). done. Qed.
  Lemma step_other owner h o w w' : ~ concerns owner h o -> tidy owner w -> step o w = Ok w' -> owned owner [o] -> agree owner h w w'.
  Proof using Type.
    intros HC [T1 T2] H HO. destruct o as [h' m|h' [f|]|f m|h'|f]; cbn [EventFilters.step concerns] in H, HC.
    - apply receive_inv in H as (_&E1&E2&E3&E4&H). destruct (filter_of w h') as [f|] eqn:Ef.
      + destruct H as [_ H]. destruct (behave f (mind w f) m) as [[s1 own] ok]. destruct H as [HM HG]. specialize (T1 _ _ Ef). unfold agree. rewrite E1, E2, E3, E4, HM. split; [done|]. split; [done|]. split.
        * rewrite HG, decide_False by (intros Ht; specialize (T2 _ _ Ht); congruence). rewrite decide_False by done. by rewrite !app_nil_r.
        * intros f' Hf'. rewrite upd_ne by congruence. done.
      + destruct H as [HM HG]. unfold agree. rewrite E1, E2, E3, E4, HM. split; [done|]. split; [done|]. split; [|done]. rewrite HG, decide_False by done. by rewrite app_nil_r.
    - unfold set_filter in H. destruct (dead_handler w h'); [done|]. destruct (dead_filter w f); [done|]. injection H as <-. assert (owner f = h') by (apply HO; by left).
      unfold agree. cbn. rewrite upd_ne by done. repeat (split; [done|]). intros f' Hf'. rewrite upd_ne by congruence. done.
    - unfold set_filter in H. by destruct (dead_handler w h').
    - apply pass_inv in H as (_&h'&Ht&_&(E1&E2&E3&E4&E5)&HG). unfold agree. rewrite E1, E2, E3, E4, E5. split; [done|]. split; [done|]. split; [|done]. specialize (T2 _ _ Ht). rewrite HG, decide_False by congruence. by rewrite app_nil_r.
    - destruct (dead_handler w h'); [done|]. injection H as <-. unfold agree. cbn. rewrite upd_ne by done. done.
    - destruct (dead_filter w f); [done|]. injection H as <-. unfold agree. cbn. split; [done|]. split; [done|]. split; [done|]. intros f' Hf'. rewrite upd_ne by congruence. done.
  Qed.
  Lemma step_own owner h o w w1 w' : concerns owner h o -> tidy owner w -> tidy owner w' -> agree owner h w w' -> step o w = Ok w1 -> owned owner [o] -> exists w1', step o w' = Ok w1' /\ agree owner h w1 w1'.
  Proof using Type.
    intros HC [T1 T2] [T1' T2'] (A1&A2&A3&A4) H HO. destruct o as [h' m|h' [f|]|f m|h'|f]; cbn [EventFilters.step concerns] in H, HC |- *.
    - subst h'. pose proof H as HI. apply receive_inv in HI as (Hd&E1&E2&E3&E4&HI).
      assert (HX : exists w1', receive behave h m w' = Ok w1').
      { unfold receive in H |- *. rewrite A2, A1. rewrite Hd in H |- *. destruct (filter_of w h) as [f|] eqn:Ef.
        - specialize (T1 _ _ Ef). destruct (A4 f T1) as (B1&B2&B3). rewrite B3, B2. destruct (dead_filter w f) eqn:Hf; [done|]. destruct (behave f (mind w f) m) as [[s1 own] ok].
          destruct (iter_out _ own _) as [w2| | |] eqn:E in H; [|done..].
          match goal with |- context [iter_out ?g own ?w3] => assert (HW : exists w4, iter_out g own w3 = Ok w4 /\ dead_handler w4 = dead_handler w') end.
          { destruct (decide (own = [])) as [->|Ho]; [eexists; split; [done|done]|]. apply passes_bad in E as (_&h2&Ht&Hh2); [|done]. cbn in Ht, Hh2. assert (h2 = h) as -> by (specialize (T2 _ _ Ht); congruence).
            match goal with |- context [iter_out _ own ?w3] => destruct (passes_ok f h own w3) as (w4&E'&(_&_&_&E5&_)&_) end; [cbn; congruence|cbn; congruence|cbn; congruence|]. exists w4. split; [exact E'|exact E5]. }
          destruct HW as (w4&E'&Hw4). rewrite E'. cbn [obind]. destruct ok; [|by eexists]. unfold handle. rewrite Hw4, A2, Hd. by eexists.
        - unfold handle. rewrite A2, Hd. by eexists. }
      destruct HX as [w1' HX]. exists w1'. split; [done|]. apply receive_inv in HX as (_&F1&F2&F3&F4&HX). rewrite A1 in HX. unfold agree. rewrite E1, E2, E3, E4, F1, F2, F3, F4. split; [done|]. split; [done|].
      destruct (filter_of w h) as [f|] eqn:Ef.
      + specialize (T1 _ _ Ef). destruct (A4 f T1) as (B1&B2&B3). destruct HI as [_ HI]. destruct HX as [_ HX]. rewrite B2 in HX. destruct (behave f (mind w f) m) as [[s1 own] ok]. destruct HI as [HM HG]. destruct HX as [HM' HG'].
        split; [rewrite HG, HG', A3, B1; done|]. intros f' Hf'. destruct (A4 f' Hf') as (C1&C2&C3). rewrite HM, HM'. split; [done|]. split; [unfold upd; by destruct (decide _)|by rewrite ?C2, ?C3].
      + destruct HI as [HM HG]. destruct HX as [HM' HG']. split; [by rewrite HG, HG', A3|]. intros f' Hf'. destruct (A4 f' Hf') as (C1&C2&C3). by rewrite HM, HM'.
    - subst h'. unfold set_filter in H |- *. rewrite A2. destruct (dead_handler w h) eqn:?; [done|]. assert (Ho : owner f = h) by (apply HO; by left). destruct (A4 f Ho) as (B1&B2&B3). rewrite B3. destruct (dead_filter w f) eqn:?; [done|]. injection H as <-.
      eexists. split; [done|]. unfold agree. cbn. rewrite !upd_eq. split; [done|]. split; [cbn; congruence|]. split; [done|]. intros f' Hf'. destruct (A4 f' Hf') as (C1&C2&C3). split; [unfold upd; by destruct (decide _)|by rewrite ?C2, ?C3].
    - unfold set_filter in H. by destruct (dead_handler w h').
    - apply pass_inv in H as (Hf&h2&Ht&Hh&(E1&E2&E3&E4&E5)&HG). destruct (A4 f HC) as (B1&B2&B3). assert (h2 = h) as -> by (specialize (T2 _ _ Ht); congruence).
      unfold pass. rewrite B3, Hf, B1, Ht. unfold handle. rewrite A2, Hh. eexists. split; [done|]. unfold agree. cbn. rewrite E1, E2, E3, E4, E5, HG, upd_eq, decide_True, A3 by done. done.
    - subst h'. rewrite A2. destruct (dead_handler w h) eqn:?; [done|]. injection H as <-. eexists. split; [done|]. unfold agree. cbn. rewrite !upd_eq. done.
    - destruct (A4 f HC) as (B1&B2&B3). rewrite B3. destruct (dead_filter w f) eqn:?; [done|]. injection H as <-. eexists. split; [done|]. unfold agree. cbn. split; [done|]. split; [done|]. split; [done|].
      intros f' Hf'. destruct (A4 f' Hf') as (C1&C2&C3). split; [done|]. split; [done|]. unfold upd; destruct (decide _); congruence.
  Qed.
  (** If every filter is set in one handler only, what a handler receives depends on nothing but the operations on it and on its filters. *)
  Theorem C142_apart owner s ops w h : owned owner ops -> run ops (start s) = Ok w -> exists w', run (filter (concerns owner h) ops) (start s) = Ok w' /\ got w' h = got w h.
  Proof using Type.
    intros HO H. assert (HX : exists w', run (filter (concerns owner h) ops) (start s) = Ok w' /\ agree owner h w w' /\ tidy owner w /\ tidy owner w'); [|destruct HX as (w'&E&(_&_&A3&_)&_); by exists w'].
    revert w H. induction ops as [|o ops IH] using rev_ind; intros w H.
    - cbn in H. injection H as <-. eexists. split; [done|]. repeat split; done.
    - rewrite run_snoc in H. destruct (run ops (start s)) as [w0| | |] eqn:E; [|done..]. cbn [obind] in H. destruct (IH ltac:(intros x f Hx; apply HO; apply elem_of_app; by left) w0 eq_refl) as (w'&E'&HA&HT&HT').
      assert (HO1 : owned owner [o]) by (intros x f Hx; apply HO; apply elem_of_app; by right). pose proof (step_tidy _ _ _ _ HO1 HT H) as HT1. rewrite filter_app. destruct (decide (concerns owner h o)) as [HC|HC].
      + rewrite filter_cons, decide_True by done. change (filter (concerns owner h) []) with (@nil (op M)). rewrite run_snoc, E'. cbn [obind]. destruct (step_own _ _ _ _ _ _ HC HT HT' HA H HO1) as (w1'&E1&HA1). exists w1'. split; [done|]. split; [done|]. split; [done|]. by apply (step_tidy owner o w').
      + rewrite filter_cons, decide_False by done. change (filter (concerns owner h) []) with (@nil (op M)). rewrite app_nil_r. exists w'. split; [done|]. split; [|done]. eapply agree_trans; [|exact HA]. apply agree_sym. by apply (step_other owner h o).
  Qed.
  (** There is no way back to a handler without a filter, and a filter that was deleted leaves a handler that cannot be used. *)
  Theorem C142_remove s ops w h : run ops (start s) = Ok w -> run (ops ++ [SetFilter h None]) (start s) = Bad UB.
  Proof using Type. intros H. rewrite run_snoc, H. cbn. unfold set_filter. by destruct (dead_handler w h). Qed.
  Theorem C142_deleted s ops w h f m : run ops (start s) = Ok w -> last_filter h ops = Some f -> KillFilter f ∈ ops -> run (ops ++ [Receive h m]) (start s) = Bad UB.
  Proof using Type.
    intros H HF HK. rewrite run_snoc, H. cbn. destruct (run_tracks _ _ _ H) as (I1&I2&I3&I4). unfold receive. destruct (dead_handler w h); [done|]. rewrite I1, HF. by rewrite (proj2 (I4 f)).
  Qed.
End proofs.
(** a filter that holds back an event until the next one *)
Definition delay (f : nat) (held : option nat) (m : nat) : option nat * list nat * bool := (Some m, match held with Some x => [x] | None => [] end, false).
(** A filter that is set in two handlers passes what was sent to the first one to the second one. *)
Theorem C142_shared_refuted : ~ forall ops w h, run delay ops (start (fun _ => None)) = Ok w -> sent h ops = [] -> got w h = [].
Proof.
  intros H. pose (ops := [SetFilter 0 (Some 0); SetFilter 1 (Some 0); Receive 0 7; Receive 0 8]). specialize (H ops).
  assert (HX : match run delay ops (start (fun _ => None)) with Ok w => got w 1 = [7] | _ => False end) by (vm_compute; reflexivity).
  destruct (run delay ops (start (fun _ => None))) as [w| | |]; [|done..]. rewrite (H w 1 eq_refl) in HX; [discriminate|]. by vm_compute.
Qed.
Example C142_nonvacuous : let ops := [Receive 0 1; SetFilter 0 (Some 3); Receive 0 2; Receive 1 3; Receive 0 4; SetFilter 0 (Some 5); Pass 3 6; Receive 0 7; KillFilter 3; Receive 0 8] in
  owned (fun _ => 0) ops /\ match run delay ops (start (fun _ => None)) with Ok w => got w 0 = [1; 2; 6; 7] /\ got w 1 = [3] | _ => False end /\ last_filter 0 ops = Some 5 /\ last_handler 3 ops = Some 0 /\ last_filter 1 ops = None.
Proof. cbn zeta. split; [|by vm_compute]. intros h f H. repeat (apply elem_of_cons in H as [H|H]; [try discriminate; by injection H as -> ->|]). by apply elem_of_nil in H. Qed.
