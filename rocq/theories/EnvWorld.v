(** From one environment to the whole world: every legal operation keeps every environment well-formed. *)
From stdpp Require Import prelude strings gmap pretty relations.
From Verif Require Import Base AssocLemmas EnvModel EnvSpec EnvLib EnvGood EnvAttach EnvLinks EnvLinks2 EnvDetach EnvDeep EnvHandlers.

(** the events [es] that environment [e] sent are told to all its handlers and keep mirrors valid *)
Definition told (w w' : world) (t : list delivery) (e : eid) (x x' : env) : Prop :=
  e_handlers x' = e_handlers x /\
  exists es, filter (fun d => d_env d = e) t = deliver e (e_handlers x) es /\
    forall m, mirrors m (w_heap w) x -> exists m', replay m es = Some m' /\ mirrors m' (w_heap w') x'.

Record Facts (d : option bool) (w w' : world) : Prop := {
  fa_inv : WInv w';
  fa_old : forall q it', w_heap w' !! q = Some it' -> exists it, w_heap w !! q = Some it /\
      it_kind it' = it_kind it /\ it_user it <= it_user it';
  fa_held : forall q it, w_heap w !! q = Some it -> it_user it <> 0 -> is_Some (w_heap w' !! q);
  fa_ids : match d with
           | Some true => forall q it it', w_heap w !! q = Some it -> w_heap w' !! q = Some it' -> it_id it' = it_id it
           | Some false => forall q it e, w_heap w !! q = Some it -> it_env it = Some e ->
                 exists it', w_heap w' !! q = Some it' /\ it_env it' = Some e /\ it_id it' = it_id it
           | None => True end;
  fa_dom : forall e, is_Some (w_envs w !! e) <-> is_Some (w_envs w' !! e);
  fa_tr : exists t, w_tr w' = w_tr w ++ t /\
      forall e x x', w_envs w !! e = Some x -> w_envs w' !! e = Some x' -> told w w' t e x x';
}.

Lemma Facts_weak d w w' : Facts d w w' -> Facts None w w'.
Proof. intros [??????]. constructor; auto. Qed.
Lemma Facts_refl d w : WInv w -> Facts d w w.
Proof.
  intros HW. constructor; auto.
  - intros q it' H. exists it'. auto.
  - destruct d as [[]|]; [congruence|eauto|done].
  - exists []. split; [by rewrite app_nil_r|]. intros e x x' H1 H2. simplify_eq. split; [done|].
    exists []. split; [done|]. intros m Hm. by exists m.
Qed.
Lemma Facts_trans d w1 w2 w3 : Facts d w1 w2 -> Facts d w2 w3 -> Facts d w1 w3.
Proof.
  intros A B. constructor.
  - apply B.
  - intros q it3 F3. destruct (fa_old _ _ _ B _ _ F3) as (it2&F2&?&?).
    destruct (fa_old _ _ _ A _ _ F2) as (it1&F1&?&?). exists it1. repeat split; [done|congruence|lia].
  - intros q it F1 Hu. destruct (fa_held _ _ _ A _ _ F1 Hu) as [it2 F2].
    destruct (fa_old _ _ _ A _ _ F2) as (it1&F1'&_&Hu1). rewrite F1 in F1'. simplify_eq.
    eapply (fa_held _ _ _ B _ _ F2). lia.
  - pose proof (fa_ids _ _ _ A) as IA. pose proof (fa_ids _ _ _ B) as IB. destruct d as [[]|]; [| |done].
    + intros q it it3 F1 F3. destruct (fa_old _ _ _ B _ _ F3) as (it2&F2&_).
      rewrite (IB _ _ _ F2 F3). eauto.
    + intros q it e F1 He. destruct (IA _ _ _ F1 He) as (it2&F2&He2&Hid2).
      destruct (IB _ _ _ F2 He2) as (it3&F3&He3&Hid3). exists it3. repeat split; congruence.
  - intros e. rewrite (fa_dom _ _ _ A e). apply (fa_dom _ _ _ B e).
  - destruct (fa_tr _ _ _ A) as (t1&H1&T1). destruct (fa_tr _ _ _ B) as (t2&H2&T2).
    exists (t1 ++ t2). split; [by rewrite H2, H1, app_assoc|]. intros e x1 x3 E1 E3.
    assert (is_Some (w_envs w2 !! e)) as [x2 E2] by (apply (fa_dom _ _ _ A e); eauto).
    destruct (T1 e x1 x2 E1 E2) as (Hh1&es1&Hf1&Hm1). destruct (T2 e x2 x3 E2 E3) as (Hh2&es2&Hf2&Hm2).
    split; [congruence|]. exists (es1 ++ es2). split.
    + rewrite filter_app, Hf1, Hf2, Hh1. by rewrite deliver_app.
    + intros m Hm. destruct (Hm1 m Hm) as (m2&R1&M2). destruct (Hm2 m2 M2) as (m3&R2&M3). exists m3. split; [|done].
      by rewrite (replay_app _ _ _ _ R1).
Qed.

(** an environment that was not involved *)
Definition vw (it : item) : kind * string * option eid := (it_kind it, it_id it, it_env it).
Definition same_view (e : eid) (h h' : gmap positive item) : Prop :=
  (forall q it, h !! q = Some it -> it_env it = Some e -> exists it', h' !! q = Some it' /\ vw it' = vw it) /\
  (forall q it', h' !! q = Some it' -> it_env it' = Some e -> exists it, h !! q = Some it /\ vw it' = vw it).
Definition same_val (e : eid) (h h' : gmap positive item) : Prop :=
  forall q it, h !! q = Some it -> it_env it = Some e -> it_val <$> h' !! q = Some (it_val it).
Definition same_at (e : eid) (h h' : gmap positive item) : Prop :=
  forall q it, it_env it = Some e -> (h !! q = Some it <-> h' !! q = Some it).

Lemma same_at_view e h h' : same_at e h h' -> same_view e h h'.
Proof. intros HS. split; intros q it Hq He; exists it; (split; [|done]); by apply (HS q it). Qed.
Lemma same_at_val e h h' : same_at e h h' -> same_val e h h'.
Proof. intros HS q it Hq He. apply (HS q it He) in Hq. by rewrite Hq. Qed.

Lemma has_same e h h' f p : same_view e h h' -> has f e h p -> has f e h' p.
Proof.
  intros [HS _] (it&Hp&He&Hf). destruct (HS p it Hp He) as (it'&Hp'&Hv). unfold vw in Hv. simplify_eq.
  exists it'. split; [done|]. split; congruence.
Qed.
Lemma idn_same e h h' q : same_view e h h' -> has any e h q -> idn h' q = idn h q.
Proof.
  intros [HS _] (it&Hp&He&_). destruct (HS q it Hp He) as (it'&Hp'&Hv). unfold vw in Hv. simplify_eq.
  unfold idn. by rewrite Hp, Hp'.
Qed.
Lemma payload_same e h h' q : same_view e h h' -> same_val e h h' -> has any e h q -> payload_of h' q = payload_of h q.
Proof.
  intros [HS _] HV (it&Hp&He&_). destruct (HS q it Hp He) as (it'&Hp'&Hv). unfold vw in Hv. simplify_eq.
  specialize (HV q it Hp He). rewrite Hp' in HV. simpl in HV. simplify_eq.
  unfold payload_of. rewrite Hp, Hp'. by f_equal.
Qed.

Lemma Inv_other e h h' x t t' : Inv e (St h x t) -> same_view e h h' ->
  (forall p it, h' !! p = Some it -> it_refs it = it_user it + match it_env it with Some _ => 1 | None => 0 end) ->
  Inv e (St h' x t').
Proof.
  intros HI HS Hr. constructor; simpl.
  - intros id p. rewrite (inv_items _ _ HI). simpl. destruct HS as [H1 H2]. split.
    + intros (it&Hp&He&Hid). destruct (H1 p it Hp He) as (it'&Hp'&Hv). unfold vw in Hv. simplify_eq.
      exists it'. split; [done|]. split; congruence.
    + intros (it&Hp&He&Hid). destruct (H2 p it Hp He) as (it'&Hp'&Hv). unfold vw in Hv. simplify_eq.
      exists it'. split; [done|]. split; congruence.
  - apply HI.
  - apply HI.
  - apply HI.
  - intros c p Hin. apply (inv_tree _ _ HI) in Hin as (?&?&?). eauto using has_same.
  - intros c p Hin. apply (inv_layers _ _ HI) in Hin as (?&?&?). eauto using has_same.
  - intros c p Hin. apply (inv_in _ _ HI) in Hin as (?&?). eauto using has_same.
  - intros c p Hin. apply (inv_out _ _ HI) in Hin as (?&?). eauto using has_same.
  - intros c p Hin. apply (inv_maps _ _ HI) in Hin as (?&?). eauto using has_same.
  - done.
  - apply (inv_slash _ _ HI).
  - apply (inv_end _ _ HI).
  - apply HI.
Qed.
Lemma by_id_same e h h' l : same_view e h h' -> (forall a b, (a, b) ∈ l -> has any e h a /\ has any e h b) -> by_id h' l = by_id h l.
Proof. intros HS Hl. apply by_id_ext. intros a b [Ha Hb]%Hl. split; by eapply idn_same. Qed.
Lemma mirrors_same e h h' x t m : Inv e (St h x t) -> same_view e h h' -> same_val e h h' -> mirrors m h x -> mirrors m h' x.
Proof.
  intros HI HS HV (M1&M2&M3&M4).
  unfold mirrors. rewrite !(by_id_same e h h'); [|done|apply (layers_D e _ HI)|done|apply (maps_D e _ HI)|done|apply (tree_D e _ HI)].
  split; [|done]. rewrite M1. f_equal. apply list_fmap_ext. intros i [id q] Hi. apply elem_of_list_lookup_2 in Hi.
  apply (inv_items _ _ HI) in Hi as (it&Hp&He&_). simpl. f_equal. symmetry. eapply payload_same; [done|done|by exists it].
Qed.

Lemma filter_deliver_other e me hs es : e <> me -> filter (fun d => d_env d = e) (deliver me hs es) = [].
Proof.
  intros Hne. apply list_filter_none. intros d Hd. unfold deliver in Hd. apply elem_of_list_bind in Hd as (ev&Hd&_).
  apply elem_of_list_fmap in Hd as (h& ->&_). simpl. congruence.
Qed.
Lemma filter_deliver_same e hs es : filter (fun d => d_env d = e) (deliver e hs es) = deliver e hs es.
Proof.
  apply list_filter_id. intros d Hd. unfold deliver in Hd. apply elem_of_list_bind in Hd as (ev&Hd&_).
  by apply elem_of_list_fmap in Hd as (h& ->&_).
Qed.

Lemma winv_parts w e x : WInv w -> w_envs w !! e = Some x ->
  Inv e (St (w_heap w) x (w_tr w)) /\ RootOk e (St (w_heap w) x (w_tr w)) /\ Acyclic x.
Proof. intros HW. apply HW. Qed.

(** what is known if nothing is known about environment [e] itself *)
Record WInvX (e : eid) (w : world) : Prop := {
  wx_env : forall e' x, e' <> e -> w_envs w !! e' = Some x ->
      Inv e' (St (w_heap w) x (w_tr w)) /\ RootOk e' (St (w_heap w) x (w_tr w)) /\ Acyclic x;
  wx_owner : forall p it e', w_heap w !! p = Some it -> it_env it = Some e' -> is_Some (w_envs w !! e');
}.
Lemma WInv_X e w : WInv w -> WInvX e w.
Proof. intros HW. constructor; intros; eapply HW; eauto. Qed.

Lemma others d e w x s' t' : WInvX e w -> Good d e (St (w_heap w) x (w_tr w)) s' ->
  forall e' y, e' <> e -> w_envs w !! e' = Some y ->
    same_at e' (w_heap w) (hp s') /\
    Inv e' (St (hp s') y t') /\ RootOk e' (St (hp s') y t') /\ Acyclic y /\
    forall m, mirrors m (w_heap w) y -> mirrors m (hp s') y.
Proof.
  intros HW HG e' y Hne Hy.
  assert (HS : same_at e' (w_heap w) (hp s')).
  { intros q it He. by apply (g_other _ _ _ _ HG q it e'). }
  destruct (wx_env _ _ HW _ _ Hne Hy) as (I2&(R2&P2)&A2). split; [done|]. split.
  { eapply Inv_other; [exact I2|by apply same_at_view|]. apply (inv_refs _ _ (g_inv _ _ _ _ HG)). }
  split. { split; [|done]. simpl in *. eapply has_same; [by apply same_at_view|done]. }
  split; [done|]. intros m Hm. eapply (mirrors_same e'); [exact I2|by apply same_at_view|by apply same_at_val|done].
Qed.

Lemma lift_inv d e w x s' : WInvX e w -> Good d e (St (w_heap w) x (w_tr w)) s' ->
  RootOk e s' -> Acyclic (en s') -> WInv (unfocus e w s').
Proof.
  intros HW HG HR HA. constructor; simpl.
  - intros e' y Hy. apply lookup_insert_Some in Hy as [[<- <-]|[Hne Hy]].
    * destruct s' as [h2 x2 t2]; simpl in *. split; [apply HG|]. done.
    * assert (e' <> e) by congruence. destruct (others _ _ _ _ _ (tr s') HW HG e' y) as (_&?&?&?&_); done.
  - intros p it e' Hp He. destruct (decide (e' = e)) as [->|Hne]; [rewrite lookup_insert; eauto|].
    rewrite lookup_insert_ne by done. eapply (wx_owner _ _ HW); [|done].
    by apply (g_other _ _ _ _ HG p it e').
  - apply (inv_refs _ _ (g_inv _ _ _ _ HG)).
Qed.

(** a member function of [e] was called *)
Lemma lift d e w x s' : WInv w -> w_envs w !! e = Some x -> Good d e (St (w_heap w) x (w_tr w)) s' ->
  RootOk e s' -> Acyclic (en s') -> Facts (Some d) w (unfocus e w s').
Proof.
  intros HW Hx HG HR HA.
  constructor; simpl.
  - eapply lift_inv; eauto using WInv_X.
  - intros q it' Hq. destruct (g_old _ _ _ _ HG _ _ Hq) as (it&?&?&?&?). eauto.
  - apply (g_held _ _ _ _ HG).
  - pose proof (g_ids _ _ _ _ HG) as Hids. destruct d; [done|].
    intros q it e' Hq He. destruct (decide (e' = e)) as [->|Hne]; [by eapply Hids|].
    exists it. split; [by apply (g_other _ _ _ _ HG q it e')|done].
  - intros e'. destruct (decide (e' = e)) as [->|Hne]; [rewrite lookup_insert, Hx; split; eauto|by rewrite lookup_insert_ne].
  - destruct (g_tr _ _ _ _ HG) as (es&Ht&HM). simpl in *. exists (deliver e (e_handlers x) es). split; [done|].
    intros e' y y' Hy Hy'. destruct (decide (e' = e)) as [->|Hne].
    + rewrite Hx in Hy. rewrite lookup_insert in Hy'. simplify_eq. split; [apply (g_handlers _ _ _ _ HG)|].
      exists es. split; [by apply filter_deliver_same|]. simpl. done.
    + rewrite lookup_insert_ne in Hy' by done. simplify_eq. split; [done|]. exists []. split; [by apply filter_deliver_other|].
      intros m Hm. exists m. split; [done|]. simpl.
      destruct (others _ _ _ _ _ (tr s') (WInv_X e w HW) HG e' y) as (_&_&_&_&HMM); auto.
Qed.

Lemma wp_on_env (E : Prop) e f w x (Q X : st -> Prop) (Q' X' : world -> Prop) :
  w_envs w !! e = Some x -> wp E (f (St (w_heap w) x (w_tr w))) Q X ->
  (forall s', Q s' -> Q' (unfocus e w s')) -> (forall s', X s' -> X' (unfocus e w s')) ->
  wp E (on_env e f w) Q' X'.
Proof. intros Hx Hw HQ HX. unfold on_env, focus. rewrite Hx. destruct (f _); simpl in *; auto. Qed.
Lemma wp_no_env (E : Prop) e f w (Q X : world -> Prop) : w_envs w !! e = None -> E -> wp E (on_env e f w) Q X.
Proof. intros Hx HE. unfold on_env, focus. by rewrite Hx. Qed.

Lemma wp_typed (E : Prop) f p w k (Q X : world -> Prop) :
  E \/ kind_ok f w p -> (forall it, w_heap w !! p = Some it -> f (it_kind it) = true -> wp E k Q X) ->
  wp E (typed f p w k) Q X.
Proof.
  intros HE Hk. unfold typed, wderef. destruct (w_heap w !! p) as [it|] eqn:Hp.
  - destruct (f (it_kind it)) eqn:Hf; [by eapply Hk|]. simpl. destruct HE as [|(it'&?&?)]; [done|]. congruence.
  - simpl. destruct HE as [|(it'&?&?)]; [done|]. congruence.
Qed.

(** ** Root and acyclicity *)
Lemma keys_sub (l l' : list (ptr * ptr)) k : (forall kv, kv ∈ l' -> kv ∈ l) -> assoc k l = None -> assoc k l' = None.
Proof.
  intros Hs Hn. destruct (assoc k l') as [v|] eqn:Hv; [|done]. apply assoc_in, Hs in Hv.
  apply assoc_none in Hn. destruct Hn. apply elem_of_list_fmap. by exists (k, v).
Qed.
Lemma rest_sub e s s' : Good false e s s' -> (forall kv, kv ∈ e_tree (en s') -> kv ∈ e_tree (en s)) ->
  RootOk e s -> Acyclic (en s) -> RootOk e s' /\ Acyclic (en s').
Proof.
  intros HG Hs [HR HP] HA. split; [split|].
  - rewrite (g_root _ _ _ _ HG). by eapply Good_has.
  - rewrite (g_root _ _ _ _ HG). unfold get_parent in *. by eapply keys_sub.
  - eapply Acyclic_sub; [done|]. unfold parent_of. auto.
Qed.
Lemma rest_same e s s' : Good false e s s' -> e_tree (en s') = e_tree (en s) ->
  RootOk e s -> Acyclic (en s) -> RootOk e s' /\ Acyclic (en s').
Proof. intros HG Ht. apply rest_sub; [done|]. by rewrite Ht. Qed.

Lemma tc_ins x y c p a b : (forall u v, parent_of y u v -> (u, v) = (c, p) \/ parent_of x u v) ->
  tc (parent_of y) a b -> tc (parent_of x) a b \/ (rtc (parent_of x) a c /\ rtc (parent_of x) p b) \/ rtc (parent_of x) p c.
Proof.
  intros Hy Ht. induction Ht as [a b Hab|a b d Hab Ht IH].
  - apply Hy in Hab as [?|Hab]; simplify_eq; [right; left; split; constructor|left; by apply tc_once].
  - apply Hy in Hab as [?|Hab]; simplify_eq.
    + destruct IH as [Hbd|[[Hb Hd]|?]]; [|right; right; done|right; right; done].
      right. left. split; [constructor|by apply tc_rtc].
    + destruct IH as [Hbd|[[Hb Hd]|?]]; [left; by eapply tc_l| |right; right; done].
      right. left. split; [by eapply rtc_l|done].
Qed.
Lemma Acyclic_ins x y c p : Acyclic x -> ~ rtc (parent_of x) p c ->
  (forall u v, parent_of y u v -> (u, v) = (c, p) \/ parent_of x u v) -> Acyclic y.
Proof.
  intros HA Hn Hy a Ht. destruct (tc_ins x y c p a a Hy Ht) as [H|[[H1 H2]|H]]; [by apply (HA a)| |done].
  apply Hn. by eapply rtc_transitive.
Qed.
