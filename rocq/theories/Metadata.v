(** Metadata of layers (C35): src/core/Layer.hpp:119-196, Layer.cpp:21-62 and 145-167, Holder.hpp.

    A [Holder<T>] is a heap cell with the type [T] (a number) and the value (an integer, simplification). *)
From stdpp Require Import prelude strings gmap fin_map_dom.
From Verif Require Import Base.

Notation cell := (nat * Z)%type (only parsing).
(** [std::map<std::string, HolderBase*>]; the iteration order is not observable and left open *)
Notation data_map := (gmap string positive) (only parsing).
Record mem := Mem { m_holders : gmap positive cell; m_layers : gmap positive data_map }.

Inductive mop :=
| MNew (l : positive)                                 (* Layer l *)
| MDel (l : positive)                                 (* ~Layer *)
| MHas (l : positive) (n : string)                    (* l.hasData(n) *)
| MHasT (l : positive) (n : string) (t : nat)         (* l.hasData<T>(n) *)
| MGet (l : positive) (n : string) (t : nat)          (* l.getData<T>(n), read *)
| MSet (l : positive) (n : string) (t : nat) (v : Z)  (* l.getData<T>(n) = v *)
| MConst (l : positive) (n : string) (t : nat)        (* const getData<T>(n) *)
| MRem (l : positive) (n : string)                    (* l.removeData(n) *)
| MClear (l : positive)                               (* l.removeData() *)
| MCopy (l l' : positive)                             (* Layer l'( l ) *)
| MAssign (l l' : positive).                          (* l = l' *)
Inductive mres := RUnit | RBool (b : bool) | RVal (v : Z) | RThrow.

Section Model.
  (** the value of a new [T()], and the memory allocator (any function that returns unused addresses) *)
  Context (dflt : nat -> Z) (alloc : gmap positive cell -> positive).
  Notation R := (out mem (mem * mres)).

  Definition layer (l : positive) (m : mem) (k : data_map -> R) : R :=
    match m_layers m !! l with Some d => k d | None => Bad IllTyped end.
  Definition put_layer (l : positive) (d : data_map) (h : gmap positive cell) (m : mem) : mem :=
    Mem h (<[l := d]> (m_layers m)).

  (** HolderBase::get, Holder.hpp:65-75: [dynamic_cast] gives NULL if the type differs, and NULL is dereferenced *)
  Definition holder (a : positive) (t : nat) (h : gmap positive cell) (k : Z -> R) : R :=
    match h !! a with
    | Some (t', v) => if decide (t' = t) then k v else Bad UB
    | None => Bad UB
    end.

  (** Layer.hpp:139-161 up to the use of the reference *)
  Definition get_data (l : positive) (n : string) (t : nat) (m : mem) (k : mem -> positive -> Z -> R) : R :=
    layer l m (fun d =>
      match d !! n with
      | Some a => holder a t (m_holders m) (k m a)
      | None =>
        let a := alloc (m_holders m) in
        let h := <[a := (t, dflt t)]> (m_holders m) in
        holder a t h (k (put_layer l (<[n := a]> d) h m) a)
      end).

  (** Layer.cpp:160-167: [delete] of each holder, then [clear] *)
  Fixpoint delete_all (as_ : list positive) (h : gmap positive cell) : option (gmap positive cell) :=
    match as_ with
    | [] => Some h
    | a :: r => match h !! a with Some _ => delete_all r (delete a h) | None => None end
    end.

  (** The loops of Layer.cpp:26-28 and 39-40; [HolderBase::clone], Holder.hpp:53-57. [map::insert] keeps an existing entry. *)
  Fixpoint clone_all (src : list (string * positive)) (d : data_map) (h : gmap positive cell) : option (data_map * gmap positive cell) :=
    match src with
    | [] => Some (d, h)
    | (n, a) :: r =>
      match h !! a with
      | None => None
      | Some c =>
        let b := alloc h in
        clone_all r (match d !! n with Some _ => d | None => <[n := b]> d end) (<[b := c]> h)
      end
    end.

  Definition mstep (m : mem) (o : mop) : R :=
    match o with
    | MNew l => match m_layers m !! l with
                | Some _ => Bad IllTyped
                | None => Ok (put_layer l ∅ (m_holders m) m, RUnit) end
    | MDel l => (* Layer.cpp:60-63 *)
      layer l m (fun d =>
        match delete_all (map_to_list d).*2 (m_holders m) with
        | Some h => Ok (Mem h (delete l (m_layers m)), RUnit)
        | None => Bad UB end)
    | MHas l n => layer l m (fun d => Ok (m, RBool (bool_decide (is_Some (d !! n)))))
    | MHasT l n t => (* Layer.hpp:126-133 *)
      layer l m (fun d =>
        match d !! n with
        | None => Ok (m, RBool false)
        | Some a => match m_holders m !! a with
                    | Some (t', _) => Ok (m, RBool (bool_decide (t' = t)))
                    | None => Bad UB end
        end)
    | MGet l n t => get_data l n t m (fun m' _ v => Ok (m', RVal v))
    | MSet l n t v => get_data l n t m (fun m' a _ => Ok (Mem (<[a := (t, v)]> (m_holders m')) (m_layers m'), RUnit))
    | MConst l n t => (* Layer.hpp:167-175 *)
      layer l m (fun d =>
        match d !! n with
        | None => Ok (m, RThrow)
        | Some a => holder a t (m_holders m) (fun v => Ok (m, RVal v))
        end)
    | MRem l n => (* Layer.cpp:152-159 *)
      layer l m (fun d =>
        match d !! n with
        | None => Ok (m, RUnit)
        | Some a => match m_holders m !! a with
                    | Some _ => Ok (put_layer l (delete n d) (delete a (m_holders m)) m, RUnit)
                    | None => Bad UB end
        end)
    | MClear l =>
      layer l m (fun d =>
        match delete_all (map_to_list d).*2 (m_holders m) with
        | Some h => Ok (put_layer l ∅ h m, RUnit)
        | None => Bad UB end)
    | MCopy l l' => (* Layer.cpp:21-29 *)
      layer l m (fun d =>
        match m_layers m !! l' with
        | Some _ => Bad IllTyped
        | None =>
          match clone_all (map_to_list d) ∅ (m_holders m) with
          | Some (d', h) => Ok (put_layer l' d' h m, RUnit)
          | None => Bad UB end
        end)
    | MAssign l l' => (* Layer.cpp:31-43 *)
      layer l m (fun d => layer l' m (fun d' =>
        if decide (l = l') then Ok (m, RUnit) else
        match delete_all (map_to_list d).*2 (m_holders m) with
        | None => Bad UB
        | Some h =>
          match clone_all (map_to_list d') ∅ h with
          | Some (d'', h') => Ok (put_layer l d'' h' m, RUnit)
          | None => Bad UB end
        end))
    end.

  (** a program: the results of its calls, in order *)
  Fixpoint mrun (m : mem) (os : list mop) : out mem (mem * list mres) :=
    match os with
    | [] => Ok (m, [])
    | o :: r =>
      match mstep m o with
      | Ok (m', x) => match mrun m' r with Ok (m'', xs) => Ok (m'', x :: xs) | Throw s => Throw s | Bad b => Bad b | NoFuel => NoFuel end
      | Throw s => Throw s | Bad b => Bad b | NoFuel => NoFuel
      end
    end.

  (** * Specification: a layer is a finite map from names to values of some type *)
  Notation amem := (gmap positive (gmap string cell)) (only parsing).
  Definition on (l : positive) (A : amem) (k : gmap string cell -> option (amem * mres)) : option (amem * mres) :=
    match A !! l with Some d => k d | None => None end.
  (** [None]: a call that is not allowed (an unknown layer, a layer created twice, or a value read as the wrong type) *)
  Definition astep (A : amem) (o : mop) : option (amem * mres) :=
    match o with
    | MNew l => if decide (A !! l = None) then Some (<[l := ∅]> A, RUnit) else None
    | MDel l => on l A (fun _ => Some (delete l A, RUnit))
    | MHas l n => on l A (fun d => Some (A, RBool (bool_decide (is_Some (d !! n)))))
    | MHasT l n t => on l A (fun d => Some (A, RBool (bool_decide (fst <$> d !! n = Some t))))
    | MGet l n t => on l A (fun d =>
        match d !! n with
        | Some (t', v) => if decide (t' = t) then Some (A, RVal v) else None
        | None => Some (<[l := <[n := (t, dflt t)]> d]> A, RVal (dflt t))
        end)
    | MSet l n t v => on l A (fun d =>
        match d !! n with
        | Some (t', _) => if decide (t' = t) then Some (<[l := <[n := (t, v)]> d]> A, RUnit) else None
        | None => Some (<[l := <[n := (t, v)]> d]> A, RUnit)
        end)
    | MConst l n t => on l A (fun d =>
        match d !! n with
        | Some (t', v) => if decide (t' = t) then Some (A, RVal v) else None
        | None => Some (A, RThrow)
        end)
    | MRem l n => on l A (fun d => Some (<[l := delete n d]> A, RUnit))
    | MClear l => on l A (fun _ => Some (<[l := ∅]> A, RUnit))
    | MCopy l l' => on l A (fun d => if decide (A !! l' = None) then Some (<[l' := d]> A, RUnit) else None)
    | MAssign l l' => on l A (fun _ => on l' A (fun d' => Some (<[l := d']> A, RUnit)))
    end.
  Fixpoint arun (A : amem) (os : list mop) : option (amem * list mres) :=
    match os with
    | [] => Some (A, [])
    | o :: r => match astep A o with
                | Some (A', x) => match arun A' r with Some (A'', xs) => Some (A'', x :: xs) | None => None end
                | None => None end
    end.

  (** * Proofs *)
  Context (Halloc : forall h, h !! alloc h = None).

  Definition rep (h : gmap positive cell) (d : data_map) (am : gmap string cell) : Prop :=
    forall n, match d !! n with Some a => h !! a = am !! n /\ is_Some (h !! a) | None => am !! n = None end.
  Definition inj (d : data_map) : Prop := forall n1 n2 a, d !! n1 = Some a -> d !! n2 = Some a -> n1 = n2.
  Definition range (d : data_map) (a : positive) : Prop := exists n, d !! n = Some a.
  Record Rel (m : mem) (A : amem) : Prop := {
    r_dom : forall l, is_Some (m_layers m !! l) <-> is_Some (A !! l);
    r_rep : forall l d am, m_layers m !! l = Some d -> A !! l = Some am -> rep (m_holders m) d am;
    r_inj : forall l d, m_layers m !! l = Some d -> inj d;
    r_own : forall l1 l2 d1 d2 a, m_layers m !! l1 = Some d1 -> m_layers m !! l2 = Some d2 -> range d1 a -> range d2 a -> l1 = l2;
    r_leak : forall a, is_Some (m_holders m !! a) -> exists l d, m_layers m !! l = Some d /\ range d a;
  }.

  Lemma Rel_put m A l d0 d h am : Rel m A -> default ∅ (m_layers m !! l) = d0 ->
    rep h d am -> inj d ->
    (forall a, ~ range d0 a -> is_Some (m_holders m !! a) -> h !! a = m_holders m !! a) ->
    (forall a, range d a -> range d0 a \/ m_holders m !! a = None) ->
    (forall a, is_Some (h !! a) -> range d a \/ (~ range d0 a /\ is_Some (m_holders m !! a))) ->
    Rel (put_layer l d h m) (<[l := am]> A).
  Proof using Type.
    intros HR Hd0 Hrep Hinj Hkeep Hnew Hleak.
    assert (Hother : forall l' d' a, l' <> l -> m_layers m !! l' = Some d' -> range d' a -> ~ range d0 a /\ is_Some (m_holders m !! a)).
    { intros l' d' a Hne Hl' Hr. split.
      - intros Hr0. destruct (m_layers m !! l) as [dl|] eqn:Hl; simpl in Hd0; subst d0.
        + apply Hne. by eapply (r_own _ _ HR).
        + destruct Hr0 as (?&?). by rewrite lookup_empty in *.
      - destruct Hr as (n&Hn). destruct (r_dom _ _ HR l') as [Hi _]. destruct Hi as (am'&Ham'); [by eauto|].
        pose proof (r_rep _ _ HR _ _ _ Hl' Ham' n) as Hrr. rewrite Hn in Hrr. tauto. }
    constructor; simpl.
    - intros l'. destruct (decide (l = l')) as [<-|Hne]; [rewrite !lookup_insert; by split; eauto|].
      rewrite !lookup_insert_ne by done. apply HR.
    - intros l' d' am'. destruct (decide (l = l')) as [<-|Hne]; [rewrite !lookup_insert; by intros [= <-] [= <-]|].
      rewrite !lookup_insert_ne by done. intros Hl' Ha' n. pose proof (r_rep _ _ HR _ _ _ Hl' Ha' n) as Hr.
      destruct (d' !! n) as [a|] eqn:Hn; [|done]. destruct (Hother l' d' a) as [H1 H2]; [done|done|by exists n|]. rewrite Hkeep; done.
    - intros l' d'. destruct (decide (l = l')) as [<-|Hne]; [rewrite lookup_insert; by intros [= <-]|].
      rewrite lookup_insert_ne by done. apply HR.
    - intros l1 l2 d1 d2 a. destruct (decide (l = l1)) as [<-|Hn1], (decide (l = l2)) as [<-|Hn2]; [done|..];
        rewrite ?lookup_insert, ?lookup_insert_ne by done.
      + intros [= <-] H2 Hr1 Hr2. destruct (Hother l2 d2 a) as [H3 H4]; [done..|]. destruct (Hnew a Hr1) as [?|Hx]; [done|].
        rewrite Hx in H4. by destruct H4.
      + intros H1 [= <-] Hr1 Hr2. destruct (Hother l1 d1 a) as [H3 H4]; [done..|]. destruct (Hnew a Hr2) as [?|Hx]; [done|].
        rewrite Hx in H4. by destruct H4.
      + apply HR.
    - intros a Ha. destruct (Hleak a Ha) as [Hr|[Hr Ha']].
      + exists l, d. by rewrite lookup_insert.
      + destruct (r_leak _ _ HR a Ha') as (l'&d'&Hl'&Hr'). exists l', d'. rewrite lookup_insert_ne; [done|]. intros <-.
        rewrite Hl' in Hd0. by simpl in Hd0; subst.
  Qed.
  Lemma Rel_del m A l : Rel m A -> m_layers m !! l = Some ∅ -> Rel (Mem (m_holders m) (delete l (m_layers m))) (delete l A).
  Proof using Type.
    intros HR Hl. constructor; simpl.
    - intros l'. destruct (decide (l = l')) as [<-|Hne]; [rewrite !lookup_delete; split; by intros []|].
      rewrite !lookup_delete_ne by done. apply HR.
    - intros l' d am [? H1]%lookup_delete_Some [_ H2]%lookup_delete_Some. by eapply HR.
    - intros l' d [? H1]%lookup_delete_Some. by eapply HR.
    - intros l1 l2 d1 d2 a [? H1]%lookup_delete_Some [? H2]%lookup_delete_Some. by eapply HR.
    - intros a Ha. destruct (r_leak _ _ HR a Ha) as (l'&d'&Hl'&Hr'). exists l', d'. rewrite lookup_delete_ne; [done|]. intros <-.
      rewrite Hl in Hl'. injection Hl' as <-. destruct Hr' as (?&?). by rewrite lookup_empty in *.
  Qed.

  Lemma delete_all_spec as_ h : NoDup as_ -> (forall a, a ∈ as_ -> is_Some (h !! a)) ->
    exists h', delete_all as_ h = Some h' /\ forall a, h' !! a = if decide (a ∈ as_) then None else h !! a.
  Proof using Type.
    revert h. induction as_ as [|a as_ IH]; intros h Hnd Hin; simpl.
    - by exists h.
    - destruct (Hin a) as (c&Hc); [left|]. rewrite Hc. apply NoDup_cons in Hnd as [Ha Hnd].
      destruct (IH (delete a h)) as (h'&Hh'&Hs); [done| |].
      + intros b Hb. rewrite lookup_delete_ne by (intros ->; done). apply Hin. by right.
      + exists h'. split; [done|]. intros b. rewrite Hs. destruct (decide (b = a)) as [->|Hne].
        * rewrite decide_False by done. rewrite decide_True by left. apply lookup_delete.
        * destruct (decide (b ∈ as_)); [by rewrite decide_True by (by right)|]. rewrite decide_False.
          -- by rewrite lookup_delete_ne.
          -- intros [?|?]%elem_of_cons; done.
  Qed.
  Lemma range_list (d : data_map) a : a ∈ (map_to_list d).*2 <-> range d a.
  Proof using Type.
    rewrite elem_of_list_fmap. split.
    - intros ((n&b)&->&Hin). exists n. by apply elem_of_map_to_list in Hin.
    - intros (n&Hn). exists (n, a). split; [done|]. by apply elem_of_map_to_list.
  Qed.
  Lemma inj_nodup (d : data_map) : inj d -> NoDup (map_to_list d).*2.
  Proof using Type.
    intros Hi. apply NoDup_fmap_2_strong; [|apply NoDup_map_to_list]. intros [n1 a1] [n2 a2] H1 H2 Heq. simpl in Heq. subst a2.
    apply elem_of_map_to_list in H1, H2. f_equal. by eapply Hi.
  Qed.
  Lemma clear_spec m A l d : Rel m A -> m_layers m !! l = Some d ->
    exists h, delete_all (map_to_list d).*2 (m_holders m) = Some h /\ Rel (put_layer l ∅ h m) (<[l := ∅]> A) /\
              forall a, ~ range d a -> h !! a = m_holders m !! a.
  Proof using Type.
    intros HR Hl. destruct (delete_all_spec (map_to_list d).*2 (m_holders m)) as (h&Hh&Hs).
    - by apply inj_nodup, (r_inj _ _ HR l).
    - intros a (n&Hn)%range_list. destruct (r_dom _ _ HR l) as [Hi _]. destruct Hi as (am'&Ham'); [by eauto|].
      pose proof (r_rep _ _ HR _ _ _ Hl Ham' n) as Hrr. rewrite Hn in Hrr. tauto.
    - exists h. split; [done|]. assert (Hk : forall a, ~ range d a -> h !! a = m_holders m !! a).
      { intros a Ha. rewrite Hs, decide_False; [done|]. by rewrite range_list. }
      split; [|done]. eapply Rel_put; [done|by rewrite Hl| | | | |]; simpl.
      + intros n. by rewrite lookup_empty.
      + intros n1 n2 a. by rewrite lookup_empty.
      + intros a Ha _. by apply Hk.
      + intros a (n&Hn). by rewrite lookup_empty in Hn.
      + intros a. rewrite Hs. case_decide as Ha; [by intros []|]. rewrite range_list in Ha. auto.
  Qed.

  (** while holders are cloned: [h0] is untouched, [d] refers to new cells only *)
  Record Cl (h0 : gmap positive cell) (d : data_map) (h : gmap positive cell) : Prop := {
    c_old : forall a, is_Some (h0 !! a) -> h !! a = h0 !! a;
    c_inj : inj d;
    c_new : forall a, range d a -> h0 !! a = None /\ is_Some (h !! a);
    c_all : forall a, is_Some (h !! a) -> range d a \/ is_Some (h0 !! a);
  }.
  Lemma clone_spec h0 src : forall d h, Cl h0 d h -> NoDup src.*1 -> (forall n a, (n, a) ∈ src -> is_Some (h0 !! a) /\ d !! n = None) ->
    exists d' h', clone_all src d h = Some (d', h') /\ Cl h0 d' h' /\
      (forall n a, (n, a) ∈ src -> exists b, d' !! n = Some b /\ h' !! b = h0 !! a) /\
      (forall n, n ∉ src.*1 -> d' !! n = d !! n) /\ (forall a, is_Some (h !! a) -> h' !! a = h !! a).
  Proof using Halloc.
    induction src as [|[n a] src IH]; intros d h HC Hnd Hin.
    - exists d, h. split; [done|]. split; [done|]. split; [by intros n a ?%elem_of_nil|]. done.
    - simpl. apply NoDup_cons in Hnd as [Hn Hnd]. destruct (Hin n a) as [Ha Hdn]; [left|]. rewrite (c_old _ _ _ HC a Ha).
      destruct Ha as [c Hc]. rewrite Hc, Hdn. set (b := alloc h). assert (Hb : h !! b = None) by apply Halloc.
      assert (Hb0 : h0 !! b = None).
      { destruct (h0 !! b) as [x|] eqn:Hx; [|done]. rewrite <- (c_old _ _ _ HC b) in Hx by eauto. congruence. }
      assert (Hbd : ~ range d b). { intros Hr. destruct (c_new _ _ _ HC b Hr) as [_ [x Hx]]. congruence. }
      destruct (IH (<[n := b]> d) (<[b := c]> h)) as (d'&h'&Hrun&HC'&Hs1&Hs2&Hs3).
      + constructor.
        * intros x Hx. rewrite lookup_insert_ne; [by apply HC|]. intros <-. rewrite Hb0 in Hx. by destruct Hx.
        * intros n1 n2 x. destruct (decide (n = n1)) as [<-|], (decide (n = n2)) as [<-|]; rewrite ?lookup_insert, ?lookup_insert_ne by done; [done|..].
          -- intros [= <-] ?. destruct Hbd. by exists n2.
          -- intros ? [= <-]. destruct Hbd. by exists n1.
          -- apply HC.
        * intros x (n'&Hn'). destruct (decide (n = n')) as [<-|].
          -- rewrite lookup_insert in Hn'. injection Hn' as <-. rewrite lookup_insert. by eauto.
          -- rewrite lookup_insert_ne in Hn' by done. destruct (c_new _ _ _ HC x) as [H1 H2]; [by exists n'|]. split; [done|].
             rewrite lookup_insert_ne; [done|]. intros <-. destruct Hbd. by exists n'.
        * intros x. destruct (decide (b = x)) as [<-|]; [intros _; left; exists n; by rewrite lookup_insert|].
          rewrite lookup_insert_ne by done. intros Hx. destruct (c_all _ _ _ HC x Hx) as [(n'&Hn')|?]; [|by right]. left. exists n'.
          rewrite lookup_insert_ne; [done|]. intros <-. congruence.
      + done.
      + intros n' a' Hin'. split; [eapply Hin; by right|]. rewrite lookup_insert_ne; [eapply (Hin n' a'); by right|].
        intros <-. apply Hn. apply elem_of_list_fmap. by exists (n, a').
      + exists d', h'. split; [done|]. split; [done|]. split; [|split].
        * intros n' a' [[= -> ->]|Hin']%elem_of_cons; [|by apply Hs1]. exists b. rewrite Hs2 by done. rewrite lookup_insert. split; [done|].
          rewrite Hs3; rewrite lookup_insert; [done|by eauto].
        * intros n' Hn'. simpl in Hn'. apply not_elem_of_cons in Hn' as [H1 H2]. rewrite Hs2 by done. by rewrite lookup_insert_ne by done.
        * intros x Hx. assert (b <> x). { intros <-. rewrite Hb in Hx. by destruct Hx. }
          rewrite Hs3; rewrite lookup_insert_ne by done; done.
  Qed.
  (** cloning the data of [d] (known as [am]) into the empty layer [l] *)
  Lemma clone_into m A l d am : Rel m A -> default ∅ (m_layers m !! l) = ∅ -> rep (m_holders m) d am ->
    exists d' h', clone_all (map_to_list d) ∅ (m_holders m) = Some (d', h') /\ Rel (put_layer l d' h' m) (<[l := am]> A).
  Proof using Halloc.
    intros HR Hl Hrep. destruct (clone_spec (m_holders m) (map_to_list d) ∅ (m_holders m)) as (d'&h'&Hrun&HC&Hs1&Hs2&Hs3).
    - constructor; [done|intros n1 n2 a; by rewrite lookup_empty|intros a (n&Hn); by rewrite lookup_empty in Hn|auto].
    - apply NoDup_fst_map_to_list.
    - intros n a Hin%elem_of_map_to_list. rewrite lookup_empty. split; [|done]. specialize (Hrep n). rewrite Hin in Hrep. tauto.
    - exists d', h'. split; [done|]. eapply Rel_put; [done|done| | | | |]; simpl.
      + intros n. destruct (d !! n) as [a|] eqn:Hn.
        * destruct (Hs1 n a) as (b&Hb&Hv); [by apply elem_of_map_to_list|]. rewrite Hb. specialize (Hrep n). rewrite Hn in Hrep.
          rewrite Hv. tauto.
        * rewrite Hs2; [|].
          -- rewrite lookup_empty. specialize (Hrep n). by rewrite Hn in Hrep.
          -- rewrite elem_of_list_fmap. intros ([n' a]&->&Hin%elem_of_map_to_list). simpl in *. congruence.
      + apply HC.
      + intros a _ Ha. by apply HC.
      + intros a Ha. right. by apply HC.
      + intros a Ha. destruct (c_all _ _ _ HC a Ha) as [?|?]; [by left|]. right. split; [|done]. intros (n&Hn). by rewrite lookup_empty in Hn.
  Qed.

  Lemma Rel_same m A l am : Rel m A -> A !! l = Some am -> Rel m (<[l := am]> A).
  Proof using Type. intros HR Ha. by rewrite insert_id. Qed.

  (** create or overwrite one value *)
  Lemma Rel_write m A l d am n a t v : Rel m A -> m_layers m !! l = Some d -> A !! l = Some am ->
    (d !! n = Some a \/ d !! n = None /\ m_holders m !! a = None) ->
    Rel (put_layer l (<[n := a]> d) (<[a := (t, v)]> (m_holders m)) m) (<[l := <[n := (t, v)]> am]> A).
  Proof using Type.
    intros HR Hl Ha Hn. pose proof (r_rep _ _ HR _ _ _ Hl Ha) as Hrep. pose proof (r_inj _ _ HR _ _ Hl) as Hinj.
    assert (Hoth : forall n', n' <> n -> d !! n' <> Some a).
    { intros n' Hne Hn'. destruct Hn as [Hn|[_ Hn]]; [by apply Hne; eapply Hinj|]. specialize (Hrep n'). rewrite Hn' in Hrep.
      destruct Hrep as [_ [x Hx]]. congruence. }
    eapply Rel_put; [done|by rewrite Hl| | | | |]; simpl.
    - intros n'. destruct (decide (n = n')) as [<-|Hne]; [rewrite !lookup_insert; by eauto|]. rewrite !lookup_insert_ne by done.
      specialize (Hrep n'). destruct (d !! n') as [a'|] eqn:Hn'; [|done]. rewrite lookup_insert_ne; [done|]. intros <-. by eapply Hoth.
    - intros n1 n2 x. destruct (decide (n = n1)) as [<-|], (decide (n = n2)) as [<-|]; rewrite ?lookup_insert, ?lookup_insert_ne by done; [done|..].
      + intros [= <-] ?. by destruct (Hoth n2).
      + intros ? [= <-]. by destruct (Hoth n1).
      + apply Hinj.
    - intros x Hx Hs. rewrite lookup_insert_ne; [done|]. intros <-. destruct Hn as [Hn|[_ Hn]]; [apply Hx; by exists n|].
      rewrite Hn in Hs. by destruct Hs.
    - intros x (n'&Hn'). destruct (decide (n = n')) as [<-|Hne].
      + rewrite lookup_insert in Hn'. injection Hn' as <-. destruct Hn as [Hn|[_ Hn]]; [left; by exists n|by right].
      + rewrite lookup_insert_ne in Hn' by done. left. by exists n'.
    - intros x. destruct (decide (a = x)) as [<-|Hne]; [intros _; left; exists n; by rewrite lookup_insert|].
      rewrite lookup_insert_ne by done. intros Hx. destruct (r_leak _ _ HR x Hx) as (l'&d'&Hl'&(n'&Hn')). destruct (decide (l' = l)) as [->|Hl2].
      + left. assert (d' = d) as -> by congruence. exists n'. rewrite lookup_insert_ne; [done|]. intros <-. destruct Hn as [Hn|[Hn _]]; congruence.
      + right. split; [|done]. intros Hr. apply Hl2. eapply (r_own _ _ HR); [done|done|by exists n'|done].
  Qed.

  Lemma mstep_ok m A o : Rel m A ->
    match astep A o with
    | Some (A', x) => exists m', mstep m o = Ok (m', x) /\ Rel m' A'
    | None => exists b, mstep m o = Bad b
    end.
  Proof using Halloc.
    intros HR.
    assert (Hlay : forall l, match A !! l with
        | Some am => exists d, m_layers m !! l = Some d /\ rep (m_holders m) d am
        | None => m_layers m !! l = None end).
    { intros l. destruct (A !! l) as [am|] eqn:Ha.
      - destruct (r_dom _ _ HR l) as [_ Hi]. destruct Hi as [d Hd]; [by eauto|]. exists d. split; [done|]. by eapply HR.
      - destruct (m_layers m !! l) as [d|] eqn:Hd; [|done]. destruct (r_dom _ _ HR l) as [Hi _]. destruct Hi as [? ?]; [by eauto|]. congruence. }
    destruct o as [l|l|l n|l n t|l n t|l n t v|l n t|l n|l|l l'|l l']; unfold mstep, astep, on, get_data, layer, holder; simpl;
      pose proof (Hlay l) as Hl; destruct (A !! l) as [am|] eqn:Ha; try (destruct Hl as (d&Hd&Hrep); rewrite Hd); try (rewrite Hl; by eauto).
    - rewrite decide_False by done. by eauto.
    - rewrite Hl. rewrite decide_True by done. eexists. split; [done|]. eapply Rel_put; [done|by rewrite Hl| | | | |]; simpl.
      + intros n. by rewrite lookup_empty.
      + intros n1 n2 a. by rewrite lookup_empty.
      + done.
      + intros a (n&Hn). by rewrite lookup_empty in Hn.
      + intros a Ha'. right. split; [|done]. intros (n&Hn). by rewrite lookup_empty in Hn.
    - destruct (clear_spec m A l d HR Hd) as (h&Hh&HR'&_). rewrite Hh. eexists. split; [done|].
      apply (Rel_del _ _ l) in HR'; [|simpl; by rewrite lookup_insert]. simpl in HR'. rewrite !delete_insert_delete in HR'. done.
    - eexists. split; [|done]. do 3 f_equal. specialize (Hrep n). destruct (d !! n) as [a|].
      + destruct Hrep as [H1 H2]. rewrite H1 in H2. rewrite !bool_decide_true by eauto. done.
      + rewrite Hrep. rewrite !bool_decide_false by (by intros []). done.
    - specialize (Hrep n). destruct (d !! n) as [a|].
      + destruct Hrep as [H1 [[t' v] Hv]]. rewrite Hv. rewrite <- H1, Hv. simpl. eexists. split; [|done]. do 3 f_equal.
        apply bool_decide_ext. split; [by intros ->|by intros [= ->]].
      + rewrite Hrep. simpl. eexists. split; [|done]. do 2 f_equal.
    - pose proof (Hrep n) as Hn. destruct (d !! n) as [a|] eqn:Hdn.
      + destruct Hn as [H1 [[t' v] Hv]]. rewrite Hv. rewrite <- H1, Hv. case_decide; by eauto.
      + rewrite Hn. rewrite lookup_insert. rewrite decide_True by done. eexists. split; [done|].
        apply Rel_write; [done..|]. right. split; [done|apply Halloc].
    - pose proof (Hrep n) as Hn. destruct (d !! n) as [a|] eqn:Hdn.
      + destruct Hn as [H1 [[t' v'] Hv]]. rewrite Hv. rewrite <- H1, Hv. case_decide; [|by eauto]. eexists. split; [done|].
        pose proof (Rel_write m A l d am n a t v HR Hd Ha (or_introl Hdn)) as HR'. unfold put_layer in HR'.
        rewrite (insert_id d) in HR' by done. rewrite (insert_id (m_layers m)) in HR' by done. done.
      + rewrite Hn. rewrite lookup_insert. rewrite decide_True by done. eexists. split; [done|]. simpl. rewrite insert_insert.
        apply Rel_write; [done..|]. right. split; [done|apply Halloc].
    - pose proof (Hrep n) as Hn. destruct (d !! n) as [a|] eqn:Hdn.
      + destruct Hn as [H1 [[t' v'] Hv]]. rewrite Hv. rewrite <- H1, Hv. case_decide; by eauto.
      + rewrite Hn. by eauto.
    - pose proof (Hrep n) as Hn. pose proof (r_inj _ _ HR _ _ Hd) as Hinj. destruct (d !! n) as [a|] eqn:Hdn.
      + destruct Hn as [H1 [c Hv]]. rewrite Hv. eexists. split; [done|].
        assert (Hoth : forall n', n' <> n -> d !! n' <> Some a) by (intros n' Hne Hn'; apply Hne; by eapply Hinj).
        eapply Rel_put; [done|by rewrite Hd| | | | |]; simpl.
        * intros n'. destruct (decide (n = n')) as [<-|Hne]; [by rewrite !lookup_delete|]. rewrite !lookup_delete_ne by done.
          specialize (Hrep n'). destruct (d !! n') as [a'|] eqn:Hn'; [|done]. rewrite lookup_delete_ne; [done|]. intros <-. by eapply Hoth.
        * intros n1 n2 x [_ Hx1]%lookup_delete_Some [_ Hx2]%lookup_delete_Some. by eapply Hinj.
        * intros x Hx _. rewrite lookup_delete_ne; [done|]. intros <-. apply Hx. by exists n.
        * intros x (n'&[_ Hn']%lookup_delete_Some). left. by exists n'.
        * intros x [y [Hne Hx]%lookup_delete_Some]. destruct (decide (x ∈ (map_to_list d).*2)) as [(n'&Hn')%range_list|Hr].
          -- left. exists n'. rewrite lookup_delete_ne; [done|]. intros <-. congruence.
          -- right. rewrite range_list in Hr. split; [done|by eauto].
      + eexists. split; [done|]. rewrite (delete_notin am) by done. by apply Rel_same.
    - destruct (clear_spec m A l d HR Hd) as (h&Hh&HR'&_). rewrite Hh. by eauto.
    - pose proof (Hlay l') as Hl'. destruct (A !! l') as [am'|] eqn:Ha'.
      + destruct Hl' as (d'&Hd'&_). rewrite Hd'. rewrite decide_False by done. by eauto.
      + rewrite Hl'. rewrite decide_True by done. destruct (clone_into m A l' d am HR) as (d'&h'&Hrun&HR'); [by rewrite Hl'|done|].
        rewrite Hrun. by eauto.
    - pose proof (Hlay l') as Hl'. destruct (A !! l') as [am'|] eqn:Ha'; [|rewrite Hl'; by eauto].
      destruct Hl' as (d'&Hd'&Hrep'). rewrite Hd'. case_decide as Heq.
      + subst l'. assert (am' = am) as -> by congruence. eexists. split; [done|]. by apply Rel_same.
      + destruct (clear_spec m A l d HR Hd) as (h&Hh&HR'&Hk). rewrite Hh.
        destruct (clone_into (put_layer l ∅ h m) (<[l := ∅]> A) l d' am' HR') as (d2&h2&Hrun&HR2); [simpl; by rewrite lookup_insert| |].
        * intros n. specialize (Hrep' n). destruct (d' !! n) as [a|] eqn:Hn; [|done]. simpl. rewrite Hk; [done|].
          intros Hr. apply Heq. eapply (r_own _ _ HR l l' d d' a); [done..|by exists n].
        * simpl in Hrun. rewrite Hrun. eexists. split; [done|]. unfold put_layer in HR2. simpl in HR2. rewrite !insert_insert in HR2. exact HR2.
  Qed.

  Definition mem0 : mem := Mem ∅ ∅.
  Lemma Rel0 : Rel mem0 ∅.
  Proof using Type.
    constructor; simpl; [intros; rewrite !lookup_empty; split; by intros []|intros *; by rewrite lookup_empty..|]. intros a [? H]. by rewrite lookup_empty in H.
  Qed.

  (** ** C35: every program sees exactly what it would see on independent finite maps, one per layer; only programs the
      specification does not allow fail. *)
  Theorem C35_refines os :
    match arun ∅ os with
    | Some (A, xs) => exists m, mrun mem0 os = Ok (m, xs) /\ Rel m A
    | None => exists b, mrun mem0 os = Bad b
    end.
  Proof using Halloc.
    assert (H : forall m A, Rel m A -> match arun A os with
        | Some (A, xs) => exists m', mrun m os = Ok (m', xs) /\ Rel m' A
        | None => exists b, mrun m os = Bad b end); [|apply H, Rel0].
    induction os as [|o os IH]; intros m A HR; simpl; [by eauto|]. pose proof (mstep_ok m A o HR) as Hs.
    destruct (astep A o) as [[A' x]|].
    - destruct Hs as (m'&Hm'&HR'). rewrite Hm'. specialize (IH m' A' HR'). destruct (arun A' os) as [[A'' xs]|].
      + destruct IH as (m''&Hm''&HR''). rewrite Hm''. by eauto.
      + destruct IH as (b&Hb). rewrite Hb. by eauto.
    - destruct Hs as (b&Hb). rewrite Hb. by eauto.
  Qed.
  (** No value outlives its layer: when all layers are gone, so are all holders. *)
  Theorem C35_no_leak os m xs A ys : mrun mem0 os = Ok (m, xs) -> arun ∅ os = Some (A, ys) -> A = ∅ -> m_holders m = ∅.
  Proof using Halloc.
    intros Hm Ha ->. pose proof (C35_refines os) as H. rewrite Ha in H. destruct H as (m'&Hm'&HR). rewrite Hm in Hm'. injection Hm' as <- _.
    apply map_eq. intros a. rewrite lookup_empty. destruct (m_holders m !! a) as [c|] eqn:Hc; [|done].
    destruct (r_leak _ _ HR a) as (l&d&Hl&_); [by eauto|]. destruct (r_dom _ _ HR l) as [Hi _]. destruct Hi as [? Hx]; [by eauto|].
    by rewrite lookup_empty in Hx.
  Qed.
  (** Layer.hpp:135-138 promises an exception for a wrong type; the code dereferences NULL instead. *)
  Theorem C35_wrong_type_refuted os A ys l am n t' v t : arun ∅ os = Some (A, ys) -> A !! l = Some am -> am !! n = Some (t', v) -> t' <> t ->
    exists m, mrun mem0 os = Ok (m, ys) /\ mstep m (MGet l n t) = Bad UB.
  Proof using Halloc.
    intros Ha Hl Hn Ht. pose proof (C35_refines os) as H. rewrite Ha in H. destruct H as (m&Hm&HR). exists m. split; [done|].
    destruct (r_dom _ _ HR l) as [_ Hi]. destruct Hi as [d Hd]; [by eauto|]. pose proof (r_rep _ _ HR _ _ _ Hd Hl n) as Hr.
    unfold mstep, get_data, layer, holder. rewrite Hd. destruct (d !! n) as [a|]; [|congruence]. destruct Hr as [Hr _]. rewrite Hr, Hn.
    by rewrite decide_False.
  Qed.
End Model.

Definition demo_dflt (t : nat) : Z := Z.of_nat t.
Definition demo_alloc (h : gmap positive cell) : positive := fresh (dom h : gset positive).
Definition demo_prog : list mop :=
  [MNew 1; MHas 1 "a"; MGet 1 "a" 3; MSet 1 "b" 4 9; MCopy 1 2; MSet 2 "b" 4 10; MConst 1 "b" 4; MConst 2 "b" 4; MRem 2 "a"; MHas 1 "a";
   MHasT 2 "b" 4; MConst 2 "a" 3; MAssign 2 1; MGet 2 "a" 3; MGet 2 "b" 4; MDel 1; MClear 2; MHas 2 "b"; MDel 2].
Example C35_nonvacuous : (forall h, h !! demo_alloc h = None) /\
  (exists A, arun demo_dflt ∅ demo_prog = Some (A,
          [RUnit; RBool false; RVal 3; RUnit; RUnit; RUnit; RVal 9; RVal 10; RUnit; RBool true; RBool true; RThrow; RUnit; RVal 3; RVal 9;
           RUnit; RUnit; RBool false; RUnit]) /\ A = ∅) /\
  (exists A ys am, arun demo_dflt ∅ (take 4 demo_prog) = Some (A, ys) /\ A !! 1%positive = Some am /\ am !! "b" = Some (4, 9%Z)).
Proof.
  split; [intros h; apply (not_elem_of_dom (D := gset positive)); exact (is_fresh (dom h : gset positive))|]. split.
  - destruct (arun demo_dflt ∅ demo_prog) as [[A ys]|] eqn:H.
    + assert (bool_decide (fst <$> arun demo_dflt ∅ demo_prog = Some ∅) = true) as H1%bool_decide_eq_true by (vm_compute; done).
      assert (snd <$> arun demo_dflt ∅ demo_prog = Some [RUnit; RBool false; RVal 3; RUnit; RUnit; RUnit; RVal 9; RVal 10; RUnit; RBool true;
        RBool true; RThrow; RUnit; RVal 3; RVal 9; RUnit; RUnit; RBool false; RUnit]) as H2 by (vm_compute; done).
      rewrite H in H1, H2. injection H1 as ->. injection H2 as ->. by exists ∅.
    + assert (bool_decide (is_Some (arun demo_dflt ∅ demo_prog)) = true) as H1%bool_decide_eq_true by (vm_compute; done).
      rewrite H in H1. by destruct H1.
  - assert (match arun demo_dflt ∅ (take 4 demo_prog) with
            | Some (A, _) => match A !! 1%positive with Some am => am !! "b" | None => None end | None => None end = Some (4, 9%Z)) as H
      by (vm_compute; done).
    destruct (arun demo_dflt ∅ (take 4 demo_prog)) as [[A ys]|]; [|done]. destruct (A !! 1%positive) as [am|] eqn:Hl; [|done]. by exists A, ys, am.
Qed.
