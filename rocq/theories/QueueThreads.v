(** Event queues between threads (C143): src/core/EventHandler.cpp:75-115 with src/core/EventHandler.hpp:105-139.

    Any number of threads call [handle] and [flush] of one queue. The steps of different threads alternate in any order; a step is taking the mutex, the treatment of one pending event by the loop of [handle]
    or [flush], or the rest of the call, at the end of which the mutex is released. The method [process] is code of the user: [fails] tells for which events it throws, [reenters] for which it calls [handle]
    of the same queue, as EventProcessor (EventHandler.cpp:117-125) does if the queue is registered with the environment that it changes. *)
From stdpp Require Import prelude strings.
From Coq Require Import Lia.
From Verif Require Import Base EnvModel EventModel QueueProps.

(** ** Model *)
Inductive call := Handle (e : event) | Flush.
(** where a thread is: outside, in the loop of [handle] or [flush] at the i-th pending event, or waiting for the mutex within [process] *)
Inductive place := Outside | InHandle (e : event) (i : nat) (valid : bool) | InFlush (i : nat) | Waiting (i : nat).
Record conf := Conf { queue : list event; log : list event; mutex : option nat; threads : list (list call * place) }.
Section model.
  Context (fails reenters : event -> bool).
  Definition enter (k : call) : place := match k with Handle e => InHandle e 0 true | Flush => InFlush 0 end.
  (** one step of thread [t]; [None]: it has finished or is blocked *)
  Definition tstep (t : nat) (c : conf) : option conf :=
    match threads c !! t with
    | None => None
    | Some (_, Waiting _) => None     (* the mutex is not recursive, and held by the thread itself *)
    | Some (ks, Outside) =>     (* boost::lock_guard, EventHandler.cpp:77 and 110 *)
      match ks, mutex c with
      | k :: r, None => Some (Conf (queue c) (log c) (Some t) (<[t := (r, enter k)]> (threads c)))
      | _, _ => None
      end
    | Some (r, InHandle e i valid) =>     (* EventHandler.cpp:84-106 *)
      match queue c !! i with
      | Some old =>
        match merge e old with
        | MCancel => Some (Conf (delete i (queue c)) (log c) (mutex c) (<[t := (r, InHandle e i false)]> (threads c)))
        | MInvalidate => Some (Conf (delete i (queue c)) (log c) (mutex c) (<[t := (r, InHandle e i valid)]> (threads c)))
        | MIgnore => Some (Conf (queue c) (log c) (mutex c) (<[t := (r, InHandle e (S i) valid)]> (threads c)))
        end
      | None => Some (Conf (if valid then queue c ++ [e] else queue c) (log c) None (<[t := (r, Outside)]> (threads c)))
      end
    | Some (r, InFlush i) =>     (* EventHandler.cpp:111-115; an exception releases the mutex *)
      match queue c !! i with
      | Some e =>
        if reenters e then Some (Conf (queue c) (log c ++ [e]) (mutex c) (<[t := (r, Waiting i)]> (threads c)))
        else if fails e then Some (Conf (queue c) (log c ++ [e]) None (<[t := (r, Outside)]> (threads c)))
        else Some (Conf (queue c) (log c ++ [e]) (mutex c) (<[t := (r, InFlush (S i))]> (threads c)))
      | None => Some (Conf [] (log c) None (<[t := (r, Outside)]> (threads c)))
      end
    end.
  (** a schedule tells which thread is next; a thread that is blocked does nothing *)
  Definition exec (sched : list nat) (c : conf) : conf := foldl (fun c t => default c (tstep t c)) c sched.
  Definition start (progs : list (list call)) : conf := Conf [] [] None ((fun p => (p, Outside)) <$> progs).
End model.

(** ** Specification *)
Section spec.
  Context (fails : event -> bool).
  (** the events that [process] is called with by [flush]: up to the first for which it throws *)
  Fixpoint upto (q : list event) : list event := match q with [] => [] | e :: r => if fails e then [e] else e :: upto r end.
  (** the calls one after the other, on the pending events (for which C20 tells which ones these are) and the events that [process] was called with *)
  Definition one_call (s : list event * list event) (k : call) : list event * list event :=
    match k with
    | Handle e => (q_handle s.1 e, s.2)
    | Flush => (if decide (Exists (fun e => fails e = true) s.1) then s.1 else [], s.2 ++ upto s.1)
    end.
  Definition in_order (ks : list call) : list event * list event := foldl one_call ([], []) ks.
  (** the calls of thread [t] *)
  Definition by_thread (t : nat) (l : list (nat * call)) : list call := snd <$> filter (fun x => x.1 = t) l.
  (** the call in which a thread is *)
  Definition current (p : place) : list call := match p with Outside => [] | InHandle e _ _ => [Handle e] | InFlush _ | Waiting _ => [Flush] end.
  (** the events handed over *)
  Definition handled (ks : list call) : list event := omap (fun k => match k with Handle e => Some e | Flush => None end) ks.
  (** all calls have ended *)
  Definition ended (c : conf) : Prop := mutex c = None /\ forall t r p, threads c !! t = Some (r, p) -> r = [] /\ p = Outside.
End spec.

(** ** Proofs *)
Section proofs.
  Context (fails reenters : event -> bool).
  Notation tstep := (tstep fails reenters).
  Notation exec := (exec fails reenters).
  Notation in_order := (in_order fails).

  Lemma by_snoc t l x : by_thread t (l ++ [x]) = by_thread t l ++ (if decide (x.1 = t) then [x.2] else []).
  Proof using Type. unfold by_thread. rewrite filter_app, fmap_app, filter_cons. destruct (decide _); done. Qed.
  Lemma in_order_snoc l k : in_order (l ++ [k]) = one_call fails (in_order l) k.
  Proof using Type. unfold QueueThreads.in_order. by rewrite foldl_app. Qed.
  Lemma exec_snoc l t c : exec (l ++ [t]) c = default (exec l c) (tstep t (exec l c)).
  Proof using Type. unfold QueueThreads.exec. by rewrite foldl_app. Qed.
  (** how far the call has come since the mutex was taken, when [s] were the pending and the processed events *)
  Definition within (s : list event * list event) (q l : list event) (p : place) : Prop :=
    match p with
    | Outside => False
    | InHandle e i v => l = s.2 /\ (i <= length q)%nat /\ merge_loop e s.1 true = (take i q ++ (merge_loop e (drop i q) v).1, (merge_loop e (drop i q) v).2)
    | InFlush i => q = s.1 /\ (i <= length q)%nat /\ l = s.2 ++ take i q /\ Forall (fun e => fails e = false) (take i q)
    | Waiting i => q = s.1 /\ (i < length q)%nat /\ l = s.2 ++ take (S i) q
    end.
  Definition ordered (progs : list (list call)) (c : conf) (lin : list (nat * call)) : Prop :=
    length (threads c) = length progs /\
    (forall t r p, threads c !! t = Some (r, p) -> progs !! t = Some (by_thread t lin ++ current p ++ r)) /\
    Forall (fun x => x.1 < length progs)%nat lin /\
    match mutex c with
    | None => (queue c, log c) = in_order (snd <$> lin) /\ forall t r p, threads c !! t = Some (r, p) -> p = Outside
    | Some h => exists r p, threads c !! h = Some (r, p) /\ within (in_order (snd <$> lin)) (queue c) (log c) p /\ forall t r' p', t <> h -> threads c !! t = Some (r', p') -> p' = Outside
    end.
  Lemma upto_ok l e r : Forall (fun e => fails e = false) l -> upto fails (l ++ e :: r) = l ++ upto fails (e :: r).
  Proof using Type. induction 1 as [|x l Hx _ IH]; [done|]. cbn [app upto]. rewrite Hx. by f_equal. Qed.
  Lemma upto_all l : Forall (fun e => fails e = false) l -> upto fails l = l.
  Proof using Type. induction 1 as [|x l Hx _ IH]; [done|]. cbn [upto]. rewrite Hx. by f_equal. Qed.
  (** a step within a call, and the end of a call *)
  Lemma keep progs c lin t r p q l m p' : ordered progs c lin -> threads c !! t = Some (r, p) -> mutex c = Some t -> m = Some t -> current p' = current p -> within (in_order (snd <$> lin)) q l p' ->
    ordered progs (Conf q l m (<[t := (r, p')]> (threads c))) lin.
  Proof using Type.
    intros (O1&O2&O3&O4) Ht Hm -> Hc HW. rewrite Hm in O4. destruct O4 as (r0&p0&E0&_&HO). assert (Hlt : (t < length (threads c))%nat) by (by eapply lookup_lt_Some). split; [cbn; by rewrite insert_length|]. split.
    - cbn. intros t' r' p1 Hl. destruct (decide (t' = t)) as [->|Hne]; [rewrite list_lookup_insert in Hl by done; injection Hl as <- <-; rewrite Hc; by apply O2|]. rewrite list_lookup_insert_ne in Hl by done. by apply O2.
    - split; [done|]. cbn. exists r, p'. rewrite list_lookup_insert by done. split; [done|]. split; [done|]. intros t' r' p1 Hne Hl. rewrite list_lookup_insert_ne in Hl by done. by apply (HO t' r').
  Qed.
  Lemma finish progs c lin t r p q l k : ordered progs c lin -> threads c !! t = Some (r, p) -> mutex c = Some t -> current p = [k] -> (q, l) = in_order ((snd <$> lin) ++ [k]) ->
    ordered progs (Conf q l None (<[t := (r, Outside)]> (threads c))) (lin ++ [(t, k)]).
  Proof using Type.
    intros (O1&O2&O3&O4) Ht Hm Hc HW. rewrite Hm in O4. destruct O4 as (r0&p0&E0&_&HO). assert (Hlt : (t < length (threads c))%nat) by (by eapply lookup_lt_Some). split; [cbn; by rewrite insert_length|]. split.
    - cbn. intros t' r' p1 Hl. rewrite by_snoc. cbn [fst snd]. destruct (decide (t' = t)) as [->|Hne].
      + rewrite list_lookup_insert in Hl by done. injection Hl as <- <-. rewrite decide_True by done. rewrite (O2 _ _ _ Ht), Hc. cbn. by rewrite <-app_assoc.
      + rewrite list_lookup_insert_ne in Hl by done. rewrite decide_False by done. rewrite app_nil_r. by apply O2.
    - split; [apply Forall_app; split; [done|constructor; [cbn; lia|done]]|]. cbn [mutex queue log threads]. rewrite fmap_app. split; [exact HW|]. intros t' r' p1 Hl. destruct (decide (t' = t)) as [->|Hne].
      + rewrite list_lookup_insert in Hl by done. by injection Hl as _ <-.
      + rewrite list_lookup_insert_ne in Hl by done. by apply (HO t' r').
  Qed.
  Lemma holder progs c lin t r p : ordered progs c lin -> threads c !! t = Some (r, p) -> p <> Outside -> mutex c = Some t /\ within (in_order (snd <$> lin)) (queue c) (log c) p.
  Proof using Type.
    intros (_&_&_&O4) Ht Hp. destruct (mutex c) as [h|]; [|destruct O4 as [_ O4]; by apply O4 in Ht]. destruct O4 as (r0&p0&E0&HW&HO). destruct (decide (t = h)) as [->|Hne]; [|by apply HO in Ht]. rewrite E0 in Ht. injection Ht as -> ->. done.
  Qed.
  Lemma drop_delete (q : list event) i x : q !! i = Some x -> take i (delete i q) = take i q /\ drop i (delete i q) = drop (S i) q /\ drop i q = x :: drop (S i) q.
  Proof using Type.
    intros H. pose proof (lookup_lt_Some _ _ _ H). rewrite delete_take_drop. rewrite (drop_S q x i H). split; [|split; [|done]]; [rewrite take_app_alt; [done|rewrite take_length; lia]|]. rewrite drop_app_alt; [done|rewrite take_length; lia].
  Qed.
  Lemma step_ordered progs c lin t c' : ordered progs c lin -> tstep t c = Some c' -> exists more, ordered progs c' (lin ++ more).
  Proof using Type.
    intros HO H. unfold QueueThreads.tstep in H. destruct (threads c !! t) as [[r p]|] eqn:Ht; [|done]. destruct p as [|e i v|i|i].
    - destruct r as [|k r]; [done|]. destruct (mutex c) as [h|] eqn:Hm; [done|]. injection H as <-. exists []. rewrite app_nil_r. destruct HO as (O1&O2&O3&O4). rewrite Hm in O4. destruct O4 as [O4 O5].
      assert (Hlt : (t < length (threads c))%nat) by (by eapply lookup_lt_Some). split; [cbn; by rewrite insert_length|]. split.
      + cbn. intros t' r' p' Hl. destruct (decide (t' = t)) as [->|Hne].
        * rewrite list_lookup_insert in Hl by done. injection Hl as <- <-. rewrite (O2 _ _ _ Ht). by destruct k.
        * rewrite list_lookup_insert_ne in Hl by done. by apply O2.
      + split; [done|]. cbn. exists r, (enter k). rewrite list_lookup_insert by done. split; [done|]. rewrite <-O4. split; [|intros t' r' p' Hne Hl; rewrite list_lookup_insert_ne in Hl by done; by apply (O5 t' r')].
        destruct k; cbn [enter within fst snd].
        * split; [done|]. split; [lia|]. rewrite take_0, drop_0. cbn. by destruct (merge_loop e (queue c) true).
        * split; [done|]. split; [lia|]. rewrite take_0, app_nil_r. split; [done|constructor].
    - destruct (holder _ _ _ _ _ _ HO Ht) as [Hm (W1&W2&W3)]; [done|]. destruct (queue c !! i) as [old|] eqn:Eo.
      + pose proof (lookup_lt_Some _ _ _ Eo) as Hi. destruct (drop_delete _ _ _ Eo) as (D1&D2&D3). rewrite D3 in W3. cbn [merge_loop] in W3. exists []. rewrite app_nil_r.
        destruct (merge e old); injection H as <-.
        * apply (keep _ _ _ _ _ (InHandle e i v)); try done. cbn [within]. split; [done|]. split; [rewrite length_delete by (by rewrite Eo); lia|]. by rewrite D1, D2.
        * apply (keep _ _ _ _ _ (InHandle e i v)); try done. cbn [within]. split; [done|]. split; [rewrite length_delete by (by rewrite Eo); lia|]. by rewrite D1, D2.
        * apply (keep _ _ _ _ _ (InHandle e i v)); try done. cbn [within]. split; [done|]. split; [lia|]. rewrite W3. cbn [fst snd]. rewrite (take_S_r _ _ old) by done. by rewrite <-app_assoc.
      + injection H as <-. exists [(t, Handle e)]. apply (finish _ _ _ _ _ (InHandle e i v)); try done. rewrite in_order_snoc. cbn [one_call]. unfold q_handle. apply lookup_ge_None in Eo.
        rewrite W3. rewrite drop_ge, take_ge by lia. cbn [merge_loop fst snd]. rewrite app_nil_r. by rewrite W1.
    - destruct (holder _ _ _ _ _ _ HO Ht) as [Hm (W1&W2&W3&W4)]; [done|]. destruct (queue c !! i) as [e|] eqn:Ee.
      + pose proof (lookup_lt_Some _ _ _ Ee) as Hi. destruct (reenters e); [|destruct (fails e) eqn:Hf]; injection H as <-.
        * exists []. rewrite app_nil_r. apply (keep _ _ _ _ _ (InFlush i)); try done. cbn [within]. split; [done|]. split; [done|]. rewrite W3, (take_S_r _ _ e) by done. by rewrite <-app_assoc.
        * exists [(t, Flush)]. apply (finish _ _ _ _ _ (InFlush i)); try done. rewrite in_order_snoc. cbn [one_call]. rewrite <-W1. rewrite decide_True.
          -- f_equal. assert (HU : upto fails (queue c) = take i (queue c) ++ [e]); [|by rewrite HU, W3, <-app_assoc]. transitivity (upto fails (take i (queue c) ++ e :: drop (S i) (queue c))); [by rewrite (take_drop_middle _ _ _ Ee)|]. rewrite upto_ok by done. cbn [upto]. by rewrite Hf.
          -- apply Exists_exists. exists e. split; [|done]. by eapply elem_of_list_lookup_2.
        * exists []. rewrite app_nil_r. apply (keep _ _ _ _ _ (InFlush i)); try done. cbn [within]. split; [done|]. split; [lia|]. rewrite W3, (take_S_r _ _ e) by done. split; [by rewrite <-app_assoc|]. apply Forall_app. split; [done|]. by constructor.
      + injection H as <-. apply lookup_ge_None in Ee. rewrite take_ge in W3, W4 by lia. exists [(t, Flush)]. apply (finish _ _ _ _ _ (InFlush i)); try done. rewrite in_order_snoc. cbn [one_call]. rewrite <-W1. rewrite decide_False.
        * by rewrite upto_all, W3.
        * intros HX%Exists_exists. destruct HX as (e&He&Hf). rewrite Forall_forall in W4. rewrite (W4 e He) in Hf. done.
    - done.
  Qed.
  Lemma start_ordered progs : ordered progs (start progs) [].
  Proof using Type.
    split; [cbn; by rewrite fmap_length|]. split.
    - intros t r p H. cbn in H. rewrite list_lookup_fmap in H. destruct (progs !! t) as [k|]; [|done]. cbn in H. by injection H as -> <-.
    - split; [done|]. cbn. split; [done|]. intros t r p H. rewrite list_lookup_fmap in H. destruct (progs !! t) as [k|]; [|done]. cbn in H. by injection H as _ <-.
  Qed.
  Lemma exec_ordered progs sched : exists lin, ordered progs (exec sched (start progs)) lin.
  Proof using Type.
    induction sched as [|t sched [lin IH]] using rev_ind; [exists []; apply start_ordered|]. rewrite exec_snoc. destruct (tstep t _) as [c'|] eqn:E; [|by exists lin]. cbn [default from_option id].
    destruct (step_ordered _ _ _ _ _ IH E) as [more H]. by exists (lin ++ more).
  Qed.
  Lemma handle_sublist q e : q_handle q e `sublist_of` q ++ [e].
  Proof using Type. rewrite q_handle_eq. apply sublist_app; [|case_decide; [apply sublist_nil_l|done]]. induction q as [|z q IH]; [done|]. rewrite filter_cons. case_decide; by constructor. Qed.
  (** Calls one after the other: if [process] does not throw, every event is processed at most as often as it was handed over, and in that order; the pending events are always those of C20. *)
  Theorem C143_once ks : (forall e, fails e = false) -> (in_order ks).2 ++ (in_order ks).1 `sublist_of` handled ks.
  Proof using Type.
    intros HF. induction ks as [|k ks IH] using rev_ind; [done|]. rewrite in_order_snoc. unfold handled. rewrite omap_app. fold (handled ks). destruct (in_order ks) as [q l]. cbn [fst snd] in IH. destruct k as [e|]; cbn [one_call fst snd].
    - cbn. etrans; [apply sublist_app; [done|apply handle_sublist]|]. rewrite app_assoc. by apply sublist_app.
    - rewrite decide_False. + cbn. rewrite !app_nil_r. rewrite upto_all; [done|]. by apply Forall_forall. + intros H%Exists_exists. destruct H as (e&_&He). by rewrite HF in He.
  Qed.
  Theorem C143_pending ks : exists es, es `suffix_of` handled ks /\ (in_order ks).1 = q_run es.
  Proof using Type.
    induction ks as [|k ks (es&(l0&IH1)&IH2)] using rev_ind; [by exists []|]. rewrite in_order_snoc. unfold handled. rewrite omap_app. fold (handled ks). destruct k as [e|]; cbn [one_call fst snd].
    - exists (es ++ [e]). cbn. split; [exists l0; by rewrite IH1, app_assoc|]. rewrite IH2. unfold q_run. by rewrite foldl_app.
    - cbn. rewrite app_nil_r. destruct (decide _); [exists es; split; [by exists l0|done]|]. exists []. split; [|done]. exists (handled ks). by rewrite app_nil_r.
  Qed.
  (** Whatever the threads do, there is an order of all the calls that have ended, in which the calls of each thread come in its order, so that whenever no thread is in a call, the pending events and the events
      that were processed are those of the calls done one after the other in that order. *)
  Theorem C143_order progs sched : let c := exec sched (start progs) in exists lin,
    (forall t p, progs !! t = Some p -> exists r pl, threads c !! t = Some (r, pl) /\ p = by_thread t lin ++ current pl ++ r) /\ Forall (fun x => x.1 < length progs)%nat lin /\
    (mutex c = None -> (queue c, log c) = in_order (snd <$> lin)) /\ (in_order (snd <$> lin)).2 `prefix_of` log c.
  Proof using Type.
    cbn zeta. destruct (exec_ordered progs sched) as [lin (O1&O2&O3&O4)]. exists lin. set (c := exec sched (start progs)) in *. split; [|split; [done|split]].
    - intros t p Hp. destruct (threads c !! t) as [[r pl]|] eqn:Et; [|apply lookup_ge_None in Et; apply lookup_lt_Some in Hp; lia]. exists r, pl. split; [done|]. specialize (O2 _ _ _ Et). rewrite Hp in O2. by injection O2.
    - intros Hm. rewrite Hm in O4. by destruct O4.
    - destruct (mutex c) as [h|]; [|destruct O4 as [O4 _]; by rewrite <-O4]. destruct O4 as (r&p&_&HW&_). destruct p as [|e i v|i|i]; cbn in HW; [done|by destruct HW as [-> _]|destruct HW as (_&_&->&_); by eexists|destruct HW as (_&_&->); by eexists].
  Qed.
  (** At no time are two threads in a call. *)
  Theorem C143_exclusive progs sched t1 t2 r1 r2 p1 p2 : let c := exec sched (start progs) in threads c !! t1 = Some (r1, p1) -> threads c !! t2 = Some (r2, p2) -> t1 <> t2 -> p1 = Outside \/ p2 = Outside.
  Proof using Type.
    cbn zeta. destruct (exec_ordered progs sched) as [lin HO]. intros H1 H2 Hne. destruct (decide (mutex (exec sched (start progs)) = Some t1)) as [Hm|Hm].
    - right. destruct p2; try done; destruct (holder _ _ _ _ _ _ HO H2) as [Hm2 _]; try done; congruence.
    - left. destruct p1; try done; by destruct (holder _ _ _ _ _ _ HO H1) as [Hm2 _].
  Qed.
  (** Unless [process] calls the queue again, some thread can go on as long as not all calls have ended. *)
  Theorem C143_progress progs sched : (forall e, reenters e = false) -> let c := exec sched (start progs) in
    (exists t, is_Some (tstep t c)) \/ ended c.
  Proof using Type.
    intros HR. cbn zeta. destruct (exec_ordered progs sched) as [lin HO]. set (c := exec sched (start progs)) in *. assert (HW : forall t r i, threads c !! t = Some (r, Waiting i) -> False).
    { assert (HG : forall s, forall t r i, threads (exec s (start progs)) !! t = Some (r, Waiting i) -> False); [|intros t r i; apply HG].
      clear HO c. intros s. induction s as [|u s IH] using rev_ind; intros t r i H.
      - cbn in H. rewrite list_lookup_fmap in H. by destruct (progs !! t).
      - rewrite exec_snoc in H. destruct (tstep u (exec s (start progs))) as [c'|] eqn:E; [|by eapply IH]. cbn in H. unfold QueueThreads.tstep in E. destruct (threads (exec s (start progs)) !! u) as [[r0 p0]|] eqn:Eu; [|done].
        assert (HI : forall q, threads c' = <[u := q]> (threads (exec s (start progs))) -> (forall j, q.2 <> Waiting j) -> False).
        { intros q Hq Hj. rewrite Hq in H. destruct (decide (t = u)) as [->|Hne]; [rewrite list_lookup_insert in H by (by eapply lookup_lt_Some); injection H as ->; by apply (Hj i)|rewrite list_lookup_insert_ne in H by done; by eapply IH]. }
        destruct p0 as [|e j v|j|j]; [destruct r0 as [|k r0]; [done|]; destruct (mutex _); [done|]; injection E as <-; eapply HI; [done|]; by destruct k|destruct (_ !! j); [destruct (merge _ _)|]; injection E as <-; by eapply HI| |done].
        destruct (_ !! j); [rewrite HR in E; destruct (fails _)|]; injection E as <-; by eapply HI. }
    destruct (mutex c) as [h|] eqn:Hm.
    - left. exists h. destruct HO as (_&_&_&O4). rewrite Hm in O4. destruct O4 as (r&p&E&Hp&_). unfold QueueThreads.tstep. rewrite E. destruct p as [|e i v|i|i]; [done| | |by apply HW in E].
      + destruct (queue c !! i); [destruct (merge _ _)|]; by eexists.
      + destruct (queue c !! i); [destruct (reenters _); [|destruct (fails _)]|]; by eexists.
    - destruct (decide (Forall (fun x => x.1 = []) (threads c))) as [HF|HF].
      + right. split; [done|]. intros t r p Ht. split; [by apply (proj1 (Forall_lookup _ _) HF _ _ Ht)|]. destruct HO as (_&_&_&O4). rewrite Hm in O4. destruct O4 as [_ O4]. by apply (O4 t r).
      + left. apply not_Forall_Exists in HF; [|apply _]. apply Exists_exists in HF as ([r p]&Hr&Hne). apply elem_of_list_lookup in Hr as [t Ht]. exists t. unfold QueueThreads.tstep. rewrite Ht.
        destruct HO as (_&_&_&O4). rewrite Hm in O4. destruct O4 as [_ O4]. rewrite (O4 _ _ _ Ht). cbn in Hne. destruct r; [done|]. rewrite Hm. by eexists.
  Qed.
  Definition calls (c : conf) : nat := sum_list_with (fun x => length x.1) (threads c).
  Definition inner (c : conf) : nat := match mutex c with None => 0 | Some h => match threads c !! h with Some (_, InHandle _ i _) | Some (_, InFlush i) => S (length (queue c) - i) | _ => 0 end end.
  Lemma sum_insert (l : list (list call * place)) t x y : l !! t = Some y -> (sum_list_with (fun x => length x.1) (<[t := x]> l) + length y.1 = sum_list_with (fun x => length x.1) l + length x.1)%nat.
  Proof using Type. revert t. induction l as [|a l IH]; intros t H; [done|]. destruct t as [|t]; [cbn in H; injection H as ->; change (<[0 := x]> (y :: l)) with (x :: l); cbn [sum_list_with]; lia|]. cbn in H. specialize (IH t H). change (<[S t := x]> (a :: l)) with (a :: <[t := x]> l). cbn [sum_list_with]. lia. Qed.
  Lemma step_less progs c lin t c' : ordered progs c lin -> tstep t c = Some c' -> (calls c' < calls c \/ calls c' = calls c /\ inner c' < inner c)%nat.
  Proof using Type.
    intros HO H. unfold QueueThreads.tstep in H. destruct (threads c !! t) as [[r p]|] eqn:Ht; [|done]. pose proof (lookup_lt_Some _ _ _ Ht) as Hlt.
    assert (HS : forall x, (sum_list_with (fun x => length x.1) (<[t := x]> (threads c)) + length r = calls c + length x.1)%nat) by (intros x; apply (sum_insert _ _ _ _ Ht)).
    destruct p as [|e i v|i|i]; [destruct r as [|k r]; [done|]; destruct (mutex c); [done|]; injection H as <-; left; specialize (HS (r, enter k)); unfold calls at 1; cbn [threads]; cbn [length fst] in HS; lia| | |done].
    - destruct (holder _ _ _ _ _ _ HO Ht) as [Hm _]; [done|]. right. destruct (queue c !! i) as [old|] eqn:Eo.
      + pose proof (lookup_lt_Some _ _ _ Eo). assert (length (delete i (queue c)) = length (queue c) - 1)%nat by (rewrite length_delete by (by rewrite Eo); lia).
        destruct (merge e old); injection H as <-; (split; [unfold calls at 1; cbn [threads]; match goal with |- context [<[t := ?x]> _] => specialize (HS x) end; cbn [fst] in HS; lia|]); unfold inner; cbn [mutex threads queue]; rewrite Hm, Ht, list_lookup_insert by done; lia.
      + injection H as <-. split; [unfold calls at 1; cbn [threads]; specialize (HS (r, Outside)); cbn [fst] in HS; lia|]. unfold inner. cbn [mutex]. rewrite Hm, Ht. lia.
    - destruct (holder _ _ _ _ _ _ HO Ht) as [Hm _]; [done|]. right. destruct (queue c !! i) as [old|] eqn:Eo.
      + pose proof (lookup_lt_Some _ _ _ Eo). destruct (reenters old); [|destruct (fails old)]; injection H as <-; (split; [unfold calls at 1; cbn [threads]; match goal with |- context [<[t := ?x]> _] => specialize (HS x) end; cbn [fst] in HS; lia|]); unfold inner; cbn [mutex threads queue];
          rewrite Hm, Ht, ?list_lookup_insert by done; lia.
      + injection H as <-. split; [unfold calls at 1; cbn [threads]; specialize (HS (r, Outside)); cbn [fst] in HS; lia|]. unfold inner. cbn [mutex]. rewrite Hm, Ht. lia.
  Qed.
  (** If every thread is given its turn again and again, all calls come to their end. *)
  Theorem C143_ends progs (f : nat -> nat) : (forall e, reenters e = false) -> (forall t n, (t < length progs)%nat -> exists m, (n <= m)%nat /\ f m = t) -> exists n, ended (exec (f <$> seq 0 n) (start progs)).
  Proof using Type.
    intros HR HF. set (at_ := fun n => exec (f <$> seq 0 n) (start progs)).
    assert (HN : forall n, at_ (S n) = default (at_ n) (tstep (f n) (at_ n))) by (intros n; unfold at_; rewrite seq_S, fmap_app; apply exec_snoc).
    assert (HX : forall k1 k2 n, calls (at_ n) = k1 -> inner (at_ n) = k2 -> exists n, ended (at_ n)); [|by apply (HX _ _ 0 eq_refl eq_refl)].
    induction k1 as [k1 IH1] using lt_wf_ind. induction k2 as [k2 IH2] using lt_wf_ind. intros n E1 E2.
    destruct (C143_progress progs (f <$> seq 0 n) HR) as [[t [c' Ht]]|HE]; [|by exists n]. fold (at_ n) in Ht.
    assert (Hlt : (t < length progs)%nat).
    { destruct (exec_ordered progs (f <$> seq 0 n)) as [lin (O1&_)]. fold (at_ n) in O1. rewrite <-O1. unfold QueueThreads.tstep in Ht. destruct (threads (at_ n) !! t) eqn:El; [|done]. by eapply lookup_lt_Some. }
    destruct (HF t n Hlt) as (m&Hm&Hf). remember (m - n)%nat as d eqn:Hd. revert n E1 E2 Ht Hm Hd. induction d as [|d IHd]; intros n E1 E2 Ht Hm Hd.
    - assert (m = n) as -> by lia. destruct (exec_ordered progs (f <$> seq 0 n)) as [lin HO]. fold (at_ n) in HO. specialize (HN n). rewrite Hf, Ht in HN. change (at_ (S n) = c') in HN.
      destruct (step_less _ _ _ _ _ HO Ht) as [HL|[HL1 HL2]]; [by apply (IH1 (calls c') ltac:(lia) (inner c') (S n)); rewrite HN|by apply (IH2 (inner c') ltac:(lia) (S n)); rewrite HN; [lia|]].
    - destruct (tstep (f n) (at_ n)) as [c2|] eqn:E.
      + destruct (exec_ordered progs (f <$> seq 0 n)) as [lin HO]. fold (at_ n) in HO. specialize (HN n). rewrite E in HN. change (at_ (S n) = c2) in HN.
        destruct (step_less _ _ _ _ _ HO E) as [HL|[HL1 HL2]]; [by apply (IH1 (calls c2) ltac:(lia) (inner c2) (S n)); rewrite HN|by apply (IH2 (inner c2) ltac:(lia) (S n)); rewrite HN; [lia|]].
      + specialize (HN n). rewrite E in HN. change (at_ (S n) = at_ n) in HN. apply (IHd (S n)); [by rewrite HN|by rewrite HN|by rewrite HN|lia|lia].
  Qed.
  (** If [process] calls the queue again, nothing happens any more, in no thread. *)
  Theorem C143_deadlock progs sched t r i : let c := exec sched (start progs) in threads c !! t = Some (r, Waiting i) -> forall more, exec more c = c.
  Proof using Type.
    cbn zeta. destruct (exec_ordered progs sched) as [lin HO]. intros Ht more. set (c := exec sched (start progs)) in *. destruct (holder _ _ _ _ _ _ HO Ht) as [Hm _]; [done|].
    assert (HB : forall u, tstep u c = None).
    { intros u. unfold QueueThreads.tstep. destruct (threads c !! u) as [[r' p]|] eqn:Eu; [|done]. destruct (decide (u = t)) as [->|Hne]; [rewrite Ht in Eu; by injection Eu as <- <-|].
      destruct HO as (_&_&_&O4). rewrite Hm in O4. destruct O4 as (_&_&_&_&O4). rewrite (O4 _ _ _ Hne Eu), Hm. by destruct r'. }
    induction more as [|u more IH] using rev_ind; [done|]. rewrite exec_snoc, IH, HB. done.
  Qed.
End proofs.
Definition add_event (x : string) : event := Ev EItem EAdd x "" (Some (KMap, 0%Z)).
Definition remove_event (x : string) : event := Ev EItem ERemove x "" None.
Definition never (e : event) : bool := false.
Definition only (x : string) (e : event) : bool := bool_decide (ev_a e = x).
(** A thread that flushes a queue whose processing calls the queue again waits forever. *)
Theorem C143_deadlock_refuted : ~ forall reenters progs, exists sched, ended (exec never reenters sched (start progs)).
Proof.
  intros H. destruct (H (only "a") [[Handle (add_event "a"); Flush]]) as [sched HE]. 
  assert (HC : forall n, let c := exec never (only "a") (replicate n 0) (start [[Handle (add_event "a"); Flush]]) in ~ ended c).
  { intros n. cbn zeta. assert (HS : exec never (only "a") (replicate 4 0) (start [[Handle (add_event "a"); Flush]]) = Conf [add_event "a"] [add_event "a"] (Some 0) [([], Waiting 0)]) by (vm_compute; reflexivity).
    destruct (decide (n < 4)%nat) as [Hn|Hn].
    - assert (n = 0 \/ n = 1 \/ n = 2 \/ n = 3) as [-> | [-> | [-> | ->]]] by lia; intros [HM HT]; try (vm_compute in HM; discriminate HM); specialize (HT 0); vm_compute in HT; by edestruct HT.
    - replace n with (4 + (n - 4))%nat by lia. rewrite replicate_add. unfold exec at 1. rewrite foldl_app. fold (exec never (only "a") (replicate 4 0) (start [[Handle (add_event "a"); Flush]])).
      fold (exec never (only "a") (replicate (n - 4) 0) (exec never (only "a") (replicate 4 0) (start [[Handle (add_event "a"); Flush]]))).
      rewrite (C143_deadlock never (only "a") _ (replicate 4 0) 0 [] 0) by (by rewrite HS). rewrite HS. intros [HM _]. discriminate HM. }
  assert (HX : exists n, exec never (only "a") sched (start [[Handle (add_event "a"); Flush]]) = exec never (only "a") (replicate n 0) (start [[Handle (add_event "a"); Flush]])).
  { clear HE. induction sched as [|t sched [n IH]] using rev_ind; [by exists 0|]. rewrite exec_snoc, IH. destruct t as [|t].
    - exists (S n). replace (replicate (S n) 0) with (replicate n 0 ++ [0]) by (by rewrite <-replicate_S_end). by rewrite exec_snoc.
    - exists n. destruct (exec_ordered never (only "a") [[Handle (add_event "a"); Flush]] (replicate n 0)) as [lin (O1&_)]. unfold tstep. rewrite lookup_ge_None_2 by (rewrite O1; cbn; lia). done. }
  destruct HX as [n HX]. rewrite HX in HE. by apply (HC n).
Qed.
(** If processing an event throws, the event stays, and the events before it are processed again. *)
Theorem C143_again_refuted : ~ forall fails ks, (in_order fails ks).2 `sublist_of` handled ks.
Proof.
  intros H. specialize (H (only "b") [Handle (add_event "a"); Handle (add_event "b"); Flush; Flush]). apply sublist_length in H. vm_compute in H. lia.
Qed.
(** two threads that hand over events while a third one flushes *)
Definition demo_progs : list (list call) := [[Handle (add_event "a"); Handle (add_event "b")]; [Handle (remove_event "b"); Handle (add_event "c")]; [Flush; Flush]].
Example C143_nonvacuous :
  let after sched := let c := exec never never sched (start demo_progs) in ((fun e => (ev_op e, ev_a e)) <$> log c, (fun e => (ev_op e, ev_a e)) <$> queue c, mutex c) in
  after (mjoin (replicate 20 [0; 1; 2])) = ([(EAdd, "a"); (ERemove, "b"); (EAdd, "b"); (EAdd, "c")], [], None) /\
  after (mjoin (replicate 20 [2; 1; 0])) = ([(ERemove, "b"); (EAdd, "a")], [(EAdd, "c"); (EAdd, "b")], None) /\
  after (mjoin (replicate 20 [1; 0; 0; 2])) = ([(EAdd, "a"); (EAdd, "c")], [], None) /\
  after (replicate 5 0 ++ [1; 1; 0; 2; 0; 1]) = ([], [(EAdd, "a")], Some 1) /\
  (forall t n, (t < length demo_progs)%nat -> exists m, (n <= m)%nat /\ (m mod 3)%nat = t) /\
  threads (exec never (only "a") (replicate 4 0) (start [[Handle (add_event "a"); Flush]])) !! 0 = Some ([], Waiting 0).
Proof.
  cbn zeta. do 4 (split; [vm_compute; reflexivity|]). split; [|vm_compute; reflexivity]. intros t n Ht. exists (t + n * 3)%nat. split; [lia|]. rewrite Nat.mod_add by lia. by apply Nat.mod_small.
Qed.
