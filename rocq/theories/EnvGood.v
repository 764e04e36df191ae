(** The relation between the states before and after a member function, and the attach primitive. *)
From stdpp Require Import prelude strings gmap pretty.
From Verif Require Import Base AssocLemmas EnvModel EnvSpec EnvLib.

(** [Good d me s s']: [s'] is well-formed, items of other environments are untouched, no item appears, held
    items survive, handlers/prefix/root are the same, the deliveries are those of a valid event sequence that
    carries every mirror of [s] to a mirror of [s'].
    [d = false]: attached items stay attached under the same id; [d = true]: no item changes its id. *)
Record Good (d : bool) (me : eid) (s s' : st) : Prop := {
  g_inv : Inv me s';
  g_handlers : e_handlers (en s') = e_handlers (en s);
  g_prefix : e_prefix (en s') = e_prefix (en s);
  g_root : e_root (en s') = e_root (en s);
  g_old : forall q it', hp s' !! q = Some it' -> exists it, hp s !! q = Some it /\
      it_kind it' = it_kind it /\ it_val it' = it_val it /\ it_user it <= it_user it';
  g_other : forall q it e', e' <> me -> it_env it = Some e' -> (hp s !! q = Some it <-> hp s' !! q = Some it);
  g_held : forall q it, hp s !! q = Some it -> it_user it <> 0 -> is_Some (hp s' !! q);
  g_ids : if d then (forall q it it', hp s !! q = Some it -> hp s' !! q = Some it' -> it_id it' = it_id it)
          else (forall q it, hp s !! q = Some it -> it_env it = Some me ->
                exists it', hp s' !! q = Some it' /\ it_env it' = Some me /\ it_id it' = it_id it);
  g_tr : exists es, tr s' = tr s ++ deliver me (e_handlers (en s)) es /\
      forall m, mirrors m (hp s) (en s) -> exists m', replay m es = Some m' /\ mirrors m' (hp s') (en s');
}.

Lemma Good_refl d me s : Inv me s -> Good d me s s.
Proof.
  intros HI. constructor; auto.
  - intros q it' H. exists it'. auto.
  - destruct d; [congruence|]. intros. eauto.
  - exists []. split; [by rewrite app_nil_r|]. intros m Hm. exists m. done.
Qed.

Lemma replay_app m es1 es2 m1 : replay m es1 = Some m1 -> replay m (es1 ++ es2) = replay m1 es2.
Proof.
  revert m. induction es1 as [|e es1 IH]; intros m; simpl; [congruence|].
  destruct (mstep m e); [apply IH|done].
Qed.

Lemma Good_trans d me s1 s2 s3 : Good d me s1 s2 -> Good d me s2 s3 -> Good d me s1 s3.
Proof.
  intros A B. constructor.
  - apply B.
  - by rewrite (g_handlers _ _ _ _ B), (g_handlers _ _ _ _ A).
  - by rewrite (g_prefix _ _ _ _ B), (g_prefix _ _ _ _ A).
  - by rewrite (g_root _ _ _ _ B), (g_root _ _ _ _ A).
  - intros q it3 F3. destruct (g_old _ _ _ _ B _ _ F3) as (it2&F2&?&?&?).
    destruct (g_old _ _ _ _ A _ _ F2) as (it1&F1&?&?&?). exists it1. repeat split; [done|congruence|congruence|lia].
  - intros q it e' Hne He. rewrite (g_other _ _ _ _ A q it e' Hne He). by apply (g_other _ _ _ _ B q it e').
  - intros q it F1 Hu. destruct (g_held _ _ _ _ A _ _ F1 Hu) as [it2 F2].
    destruct (g_old _ _ _ _ A _ _ F2) as (it1&F1'&_&_&Hu1). rewrite F1 in F1'. simplify_eq.
    eapply (g_held _ _ _ _ B _ _ F2). lia.
  - pose proof (g_ids _ _ _ _ A) as IA. pose proof (g_ids _ _ _ _ B) as IB. destruct d.
    + intros q it it3 F1 F3. destruct (g_old _ _ _ _ B _ _ F3) as (it2&F2&_).
      rewrite (IB _ _ _ F2 F3). eauto.
    + intros q it F1 He. destruct (IA _ _ F1 He) as (it2&F2&He2&Hid2).
      destruct (IB _ _ F2 He2) as (it3&F3&He3&Hid3). exists it3. repeat split; congruence.
  - destruct (g_tr _ _ _ _ A) as (es1&Ht1&HM1). destruct (g_tr _ _ _ _ B) as (es2&Ht2&HM2).
    exists (es1 ++ es2). split.
    + rewrite Ht2, Ht1, (g_handlers _ _ _ _ A), deliver_app. by rewrite app_assoc.
    + intros m Hm. destruct (HM1 m Hm) as (m1&R1&Hm1). destruct (HM2 m1 Hm1) as (m2&R2&Hm2).
      exists m2. split; [|done]. by rewrite (replay_app _ _ _ _ R1).
Qed.

(** changing only the tables, with one event *)
Lemma Good_event d me s x' ev :
  Inv me s -> Inv me (St (hp s) x' (tr s)) ->
  e_handlers x' = e_handlers (en s) -> e_prefix x' = e_prefix (en s) -> e_root x' = e_root (en s) ->
  (forall m, mirrors m (hp s) (en s) -> exists m', mstep m ev = Some m' /\ mirrors m' (hp s) x') ->
  Good d me s (St (hp s) x' (tr s ++ deliver me (e_handlers (en s)) [ev])).
Proof.
  intros HI HI' Hh Hp Hr HM. constructor; simpl; auto.
  - by apply (Inv_tr _ _ _ HI').
  - intros q it' H. exists it'. auto.
  - destruct d; [congruence|]. intros. eauto.
  - exists [ev]. split; [done|]. intros m Hm. destruct (HM m Hm) as (m'&Hs&Hm'). exists m'. simpl. by rewrite Hs.
Qed.
(** changing only the tables, without event *)
Lemma Good_silent d me s x' :
  Inv me s -> Inv me (St (hp s) x' (tr s)) ->
  e_handlers x' = e_handlers (en s) -> e_prefix x' = e_prefix (en s) -> e_root x' = e_root (en s) ->
  (forall m, mirrors m (hp s) (en s) -> mirrors m (hp s) x') ->
  Good d me s (St (hp s) x' (tr s)).
Proof.
  intros HI HI' Hh Hp Hr HM. constructor; simpl; auto.
  - intros q it' H. exists it'. auto.
  - destruct d; [congruence|]. intros. eauto.
  - exists []. split; [by rewrite app_nil_r|]. intros m Hm. exists m. auto.
Qed.

(** ** Generated ids *)
Lemma wrap_int_small z : (-2147483648 <= z <= int_max)%Z -> wrap_int z = z.
Proof. unfold wrap_int, int_max. intros. rewrite Z.mod_small; lia. Qed.

Lemma app_inj_1 (b x y : string) : b +:+ x = b +:+ y -> x = y.
Proof. induction b as [|c b IH]; simpl; [done|]. intros H. simplify_eq. auto. Qed.

Lemma taken_bound (items : list (string * positive)) base n (k : nat) :
  (forall i, i < k -> assoc (base +:+ pretty (n + Z.of_nat i)%Z) items <> None) -> k <= length items.
Proof.
  intros H.
  assert (Hnd : NoDup ((fun i => base +:+ pretty (n + Z.of_nat i)%Z) <$> seq 0 k)).
  { apply NoDup_fmap_2; [|apply NoDup_seq]. intros i j Hij. apply app_inj_1 in Hij. apply (inj pretty) in Hij. lia. }
  assert (Hsub : ((fun i => base +:+ pretty (n + Z.of_nat i)%Z) <$> seq 0 k) ⊆ items.*1).
  { intros x Hx. apply elem_of_list_fmap in Hx as (i&->&Hi). apply elem_of_seq in Hi.
    specialize (H i ltac:(lia)). destruct (assoc (base +:+ pretty (n + Z.of_nat i)%Z) items) as [p|] eqn:E; [|done].
    apply assoc_in in E. apply elem_of_list_fmap. by exists (base +:+ pretty (n + Z.of_nat i)%Z, p). }
  pose proof (submseteq_length _ _ (NoDup_submseteq _ _ Hnd Hsub)) as Hl.
  by rewrite fmap_length, seq_length, fmap_length in Hl.
Qed.

Lemma search_id_spec fuel items base n :
  match search_id fuel items base n with
  | Ok n' => assoc (base +:+ pretty n') items = None /\ (n <= n')%Z /\
             (forall k, (n <= k < n')%Z -> assoc (base +:+ pretty k) items <> None)
  | Throw _ => False
  | Bad _ => exists k : nat, (n + Z.of_nat k = int_max)%Z /\
             (forall i, i <= k -> assoc (base +:+ pretty (n + Z.of_nat i)%Z) items <> None)
  | NoFuel => forall i, i < fuel -> assoc (base +:+ pretty (n + Z.of_nat i)%Z) items <> None
  end.
Proof.
  revert n. induction fuel as [|f IH]; intros n; simpl; [intros; lia|].
  destruct (assoc (base +:+ pretty n) items) eqn:E.
  - case_decide as Hn.
    + exists 0. split; [lia|]. intros i Hi. assert (i = 0) as -> by lia. replace (n + Z.of_nat 0)%Z with n by lia. congruence.
    + specialize (IH (n + 1)%Z). destruct (search_id f items base (n + 1)) as [n'|s|b|].
      * destruct IH as (?&?&Hk). repeat split; [done|lia|]. intros k Hk'.
        destruct (decide (k = n)); [subst; congruence|]. apply Hk. lia.
      * done.
      * destruct IH as (k&Hk&Hi). exists (S k). split; [lia|]. intros [|i] Hi'.
        { replace (n + Z.of_nat 0)%Z with n by lia. congruence. }
        { replace (n + Z.of_nat (S i))%Z with (n + 1 + Z.of_nat i)%Z by lia. apply Hi. lia. }
      * intros [|i] Hi'.
        { replace (n + Z.of_nat 0)%Z with n by lia. congruence. }
        { replace (n + Z.of_nat (S i))%Z with (n + 1 + Z.of_nat i)%Z by lia. apply IH. lia. }
  - repeat split; [done|lia|]. intros; lia.
Qed.

Lemma search_id_wp E k s base :
  E \/ room (S k) s ->
  wp E (search_id (S (length (e_items (en s)))) (e_items (en s)) base (wrap_int (e_last (en s) + 1)))
    (fun n => assoc (base +:+ pretty n) (e_items (en s)) = None /\
       (E \/ (e_last (en s) < n <= e_last (en s) + 1 + Z.of_nat (length (e_items (en s))))%Z))
    (fun _ => False).
Proof.
  intros HE. pose proof (search_id_spec (S (length (e_items (en s)))) (e_items (en s)) base (wrap_int (e_last (en s) + 1))) as H.
  destruct (search_id _ _ _ _) as [n| | |]; simpl.
  - destruct H as (?&?&Hk). split; [done|]. destruct HE as [HE|[Hr1 Hr2]]; [by left|right].
    rewrite wrap_int_small in * by lia. split; [lia|].
    assert (Z.to_nat (n - (e_last (en s) + 1)) <= length (e_items (en s))); [|lia].
    apply (taken_bound _ base (e_last (en s) + 1)). intros i Hi. apply Hk. lia.
  - done.
  - destruct HE as [HE|[Hr1 Hr2]]; [done|]. exfalso. destruct H as (j&Hk&Hi).
    assert (S j <= length (e_items (en s))).
    { eapply (taken_bound _ base (wrap_int (e_last (en s) + 1))). intros i Hlt. apply Hi. lia. }
    rewrite wrap_int_small in Hk; lia.
  - exfalso. apply taken_bound in H. lia.
Qed.
