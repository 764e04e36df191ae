(** The remaining operations: links, attaching, detaching, environments, operators; and the main theorem. *)
From stdpp Require Import prelude strings gmap pretty relations.
From Verif Require Import Base AssocLemmas EnvModel EnvSpec EnvLib EnvGood EnvAttach EnvLinks EnvLinks2 EnvDetach EnvDeep EnvHandlers EnvWorld EnvStep.

Definition free_or (w : world) (e : eid) (p : ptr) : Prop := in_env w e p \/ unattached w p.
Lemma free_or_at w e p it : free_or w e p -> w_heap w !! p = Some it -> it_env it = None \/ it_env it = Some e.
Proof. intros [(i&H1&H2)|(i&H1&H2)] Hp; rewrite Hp in H1; injection H1 as <-; auto. Qed.
Lemma in_env_has w e p it f : in_env w e p -> w_heap w !! p = Some it -> f (it_kind it) = true -> has f e (w_heap w) p.
Proof. intros (i&H1&H2) Hp Hf. rewrite Hp in H1. injection H1 as <-. by exists it. Qed.

Definition rooms (k : nat) (w : world) : Prop := forall e x, w_envs w !! e = Some x -> room k (St (w_heap w) x (w_tr w)).

Section step.
Context (E : Prop).
Local Notation WP := (wp E).

Lemma lift_wp b e w x o (m : M) (Q X : st -> Prop) :
  WInv w -> w_envs w !! e = Some x ->
  wp E m Q X ->
  (forall s', Q s' -> Good b e (St (w_heap w) x (w_tr w)) s' /\ RootOk e s' /\ Acyclic (en s')) ->
  (forall s', X s' -> Good b e (St (w_heap w) x (w_tr w)) s' /\ RootOk e s' /\ Acyclic (en s')) ->
  wp E m (fun s' => Eff w o (unfocus e w s')) (fun s' => Eff w o (unfocus e w s')).
Proof.
  intros HW Hx Hm HQ HX. eapply wp_mono; [exact Hm| |]; intros s' Hs; simpl.
  - destruct (HQ s' Hs) as (?&?&?). eapply (Eff_of_Facts b). by apply (lift b e w x).
  - destruct (HX s' Hs) as (?&?&?). eapply (Eff_of_Facts b). by apply (lift b e w x).
Qed.
(** operations that leave the frame tree alone *)
Lemma lift_wp_same e w x o (m : M) (Q X : st -> Prop) :
  WInv w -> w_envs w !! e = Some x ->
  wp E m Q X ->
  (forall s', Q s' -> Good false e (St (w_heap w) x (w_tr w)) s' /\ e_tree (en s') = e_tree x) ->
  (forall s', X s' -> Good false e (St (w_heap w) x (w_tr w)) s' /\ e_tree (en s') = e_tree x) ->
  wp E m (fun s' => Eff w o (unfocus e w s')) (fun s' => Eff w o (unfocus e w s')).
Proof.
  intros HW Hx Hm HQ HX. destruct (winv_parts _ _ _ HW Hx) as (I&R&A).
  eapply (lift_wp false); [done|done|exact Hm| |].
  - intros s' Hs. destruct (HQ s' Hs) as [HG Ht]. split; [done|]. by eapply rest_same.
  - intros s' Hs. destruct (HX s' Hs) as [HG Ht]. split; [done|]. by eapply rest_same.
Qed.

Lemma add_child_f_eff e a b w : WInv w -> legal w (OAddChildF e a b) ->
  E \/ (rooms 1 w /\ live_env w e /\ kind_ok is_frame w a /\ kind_ok is_frame w b) ->
  WP (step w (OAddChildF e a b)) (Eff w (OAddChildF e a b)) (Eff w (OAddChildF e a b)).
Proof.
  intros HW (La&Lb&Lr&Lc) HE. cbn [step]. apply wp_typed; [tauto|]. intros ia Ha Ka. apply wp_typed; [tauto|]. intros ib Hb Kb.
  apply on_env_cases; [tauto|]. intros x Hx. destruct (winv_parts _ _ _ HW Hx) as (I&R&A).
  assert (Hab : a <> b). { intros ->. apply (Lc x Hx). constructor. }
  assert (Hrm : E \/ room 1 (St (w_heap w) x (w_tr w))). { destruct HE as [|[Hr _]]; [by left|right; by apply (Hr e)]. }
  pose proof (add_child_f_wp E 0 e a b _ ib I (in_env_has _ _ _ _ _ La Ha Ka) Hb Kb (free_or_at _ _ _ _ Lb Hb) Hab Hrm) as Hwp.
  eapply (lift_wp false); [done|done|exact Hwp| |].
  - intros s' (HG&Hc&Ht&_). split; [done|]. simpl in *. case_decide as Hd; [by eapply rest_same|]. split; [split|].
    + rewrite (g_root _ _ _ _ HG). simpl. eapply Good_has; [done|]. apply R.
    + rewrite (g_root _ _ _ _ HG). simpl. unfold get_parent. rewrite Ht. destruct (assoc _ _) as [v|] eqn:Hv; [|done].
      apply assoc_in in Hv. rewrite ins_perm in Hv. apply elem_of_cons in Hv as [Heq|Hv].
      * injection Heq as Hr _. destruct Lr. exists e, x. done.
      * apply elem_of_del_key in Hv as [Hv _]. destruct R as [_ R]. unfold get_parent in R. simpl in R.
        apply assoc_none in R. destruct R. apply elem_of_list_fmap. by exists (e_root x, v).
    + eapply (Acyclic_ins x _ b a A); [by apply Lc|]. intros u v Huv. unfold parent_of in *. rewrite Ht, ins_perm in Huv.
      apply elem_of_cons in Huv as [Heq|Huv]; [by left|right]. by apply elem_of_del_key in Huv as [Huv _].
  - intros s' (Hi&_&Hthrow). pose proof (Good_throw _ _ _ _ _ I Hb Hi Hthrow) as HG. split; [done|].
    eapply rest_same; [done| |done|done]. by apply attach_throw_links in Hthrow as [? _].
Qed.
Lemma rem_child_f_eff e a b w : WInv w ->
  E \/ (live_env w e /\ kind_ok is_frame w a /\ kind_ok is_frame w b) ->
  WP (step w (ORemChildF e a b)) (Eff w (ORemChildF e a b)) (Eff w (ORemChildF e a b)).
Proof.
  intros HW HE. cbn [step]. apply wp_typed; [tauto|]. intros ia Ha Ka. apply wp_typed; [tauto|]. intros ib Hb Kb.
  apply on_env_cases; [tauto|]. intros x Hx. destruct (winv_parts _ _ _ HW Hx) as (I&R&A).
  eapply (lift_wp false); [done|done|exact (remove_child_f_wp E false e a b _ I)| |done].
  intros s' (HG&_&Hen). split; [done|]. eapply rest_sub; [done| |done|done]. rewrite Hen. simpl. intros kv. clear Hen.
  case_decide; [|done]. destruct kv. intros [? _]%elem_of_del_key. done.
Qed.
Lemma add_child_l_eff e a b w : WInv w -> legal w (OAddChildL e a b) ->
  E \/ (rooms 1 w /\ live_env w e /\ kind_ok is_layer w a /\ kind_ok is_layer w b /\ a <> b) ->
  WP (step w (OAddChildL e a b)) (Eff w (OAddChildL e a b)) (Eff w (OAddChildL e a b)).
Proof.
  intros HW (La&Lb) HE. cbn [step]. apply wp_typed; [tauto|]. intros ia Ha Ka. apply wp_typed; [tauto|]. intros ib Hb Kb.
  apply on_env_cases; [tauto|]. intros x Hx. destruct (winv_parts _ _ _ HW Hx) as (I&R&A).
  destruct (decide (a = b)) as [->|Hab].
  { unfold add_child_l. rewrite decide_True by done. simpl. destruct HE as [|(_&_&_&_&Hne)]; done. }
  assert (Hrm : E \/ room 1 (St (w_heap w) x (w_tr w))). { destruct HE as [|[Hr _]]; [by left|right; by apply (Hr e)]. }
  pose proof (add_child_l_wp E 0 e a b _ ib I (in_env_has _ _ _ _ _ La Ha Ka) Hb Kb (free_or_at _ _ _ _ Lb Hb) Hab Hrm) as Hwp.
  eapply lift_wp_same; [done|done|exact Hwp| |].
  - intros s' (HG&_&_&Ht&_). done.
  - intros s' (Hi&_&Hthrow). split; [exact (Good_throw _ _ _ _ _ I Hb Hi Hthrow)|].
    by apply attach_throw_links in Hthrow as [? _].
Qed.
Lemma rem_child_l_eff e a b w : WInv w -> legal w (ORemChildL e a b) ->
  E \/ (live_env w e /\ kind_ok is_layer w a /\ kind_ok is_layer w b) ->
  WP (step w (ORemChildL e a b)) (Eff w (ORemChildL e a b)) (Eff w (ORemChildL e a b)).
Proof.
  intros HW (La&Lb) HE. cbn [step]. apply wp_typed; [tauto|]. intros ia Ha Ka. apply wp_typed; [tauto|]. intros ib Hb Kb.
  apply on_env_cases; [tauto|]. intros x Hx. destruct (winv_parts _ _ _ HW Hx) as (I&R&A).
  eapply lift_wp_same; [done|done|exact (remove_child_l_wp E false e a b _ I (in_env_has _ _ _ _ _ Lb Hb Kb) (in_env_has _ _ _ _ _ La Ha Ka))| |done].
  intros s' (HG&_&Hen). split; [done|]. by rewrite Hen.
Qed.
Lemma no_frame_free e w x m im : WInv w -> w_envs w !! e = Some x -> w_heap w !! m = Some im -> it_env im = None -> get_frame x m = None.
Proof.
  intros HW Hx Hm He. destruct (winv_parts _ _ _ HW Hx) as (I&R&A). destruct (get_frame x m) as [n|] eqn:Hn; [|done].
  apply assoc_in in Hn. apply (inv_maps _ _ I) in Hn as [(i&Hi&Hi2&_) _]. simpl in *. congruence.
Qed.
Lemma set_frame_eff e m n w : WInv w -> legal w (OSetFrame e m n) ->
  E \/ (rooms 3 w /\ live_env w e /\ kind_ok is_map w m /\ kind_ok is_frame w n) ->
  WP (step w (OSetFrame e m n)) (Eff w (OSetFrame e m n)) (Eff w (OSetFrame e m n)).
Proof.
  intros HW (La&Lb) HE. cbn [step]. apply wp_typed; [tauto|]. intros ia Ha Ka. apply wp_typed; [tauto|]. intros ib Hb Kb.
  apply on_env_cases; [tauto|]. intros x Hx. destruct (winv_parts _ _ _ HW Hx) as (I&R&A).
  assert (Hrm : E \/ room 3 (St (w_heap w) x (w_tr w))). { destruct HE as [|[Hr _]]; [by left|right; by apply (Hr e)]. }
  eapply lift_wp_same; [done|done| | |].
  - refine (set_frame_wp E 0 e m n _ ia ib I Ha Ka Hb Kb (free_or_at _ _ _ _ La Ha) (free_or_at _ _ _ _ Lb Hb) (proj1 R) Hrm _).
    intros Hn. eapply no_frame_free; done.
  - intros s' (HG&_&_&_&Ht&_). done.
  - intros s' (HG&Ht&_). done.
Qed.
Lemma det_frame_eff e m n w : WInv w ->
  E \/ (live_env w e /\ kind_ok is_map w m /\ kind_ok is_frame w n) ->
  WP (step w (ODetFrame e m n)) (Eff w (ODetFrame e m n)) (Eff w (ODetFrame e m n)).
Proof.
  intros HW HE. cbn [step]. apply wp_typed; [tauto|]. intros ia Ha Ka. apply wp_typed; [tauto|]. intros ib Hb Kb.
  apply on_env_cases; [tauto|]. intros x Hx. destruct (winv_parts _ _ _ HW Hx) as (I&R&A).
  eapply lift_wp_same; [done|done|exact (detach_frame_wp E false e m n _ I)| |done].
  intros s' (HG&_&Hen). split; [done|]. by rewrite Hen.
Qed.
Lemma add_input_eff0 e o l w x io il op : WInv w -> w_envs w !! e = Some x -> free_or w e o -> free_or w e l -> E \/ rooms 2 w ->
  w_heap w !! o = Some io -> is_op (it_kind io) = true -> w_heap w !! l = Some il -> is_layer (it_kind il) = true ->
  wp E (add_input e o l (St (w_heap w) x (w_tr w))) (fun s' => Eff w op (unfocus e w s')) (fun s' => Eff w op (unfocus e w s')).
Proof.
  intros HW Hx La Lb HE Ha Ka Hb Kb. destruct (winv_parts _ _ _ HW Hx) as (I&R&A).
  assert (Hrm : E \/ room 2 (St (w_heap w) x (w_tr w))). { destruct HE as [|Hr]; [by left|right; by apply (Hr e)]. }
  eapply lift_wp_same; [done|done|exact (add_input_wp E 0 e o l _ io il I Ha Ka Hb Kb (free_or_at _ _ _ _ La Ha) (free_or_at _ _ _ _ Lb Hb) Hrm)| |].
  - intros s' (HG&_&_&_&Ht&_). done.
  - intros s' (HG&Ht&_). done.
Qed.
Lemma add_output_eff0 e o l w x io il op : WInv w -> w_envs w !! e = Some x -> free_or w e o -> free_or w e l -> E \/ rooms 2 w ->
  w_heap w !! o = Some io -> is_op (it_kind io) = true -> w_heap w !! l = Some il -> is_layer (it_kind il) = true ->
  wp E (add_output e o l (St (w_heap w) x (w_tr w))) (fun s' => Eff w op (unfocus e w s')) (fun s' => Eff w op (unfocus e w s')).
Proof.
  intros HW Hx La Lb HE Ha Ka Hb Kb. destruct (winv_parts _ _ _ HW Hx) as (I&R&A).
  assert (Hrm : E \/ room 2 (St (w_heap w) x (w_tr w))). { destruct HE as [|Hr]; [by left|right; by apply (Hr e)]. }
  eapply lift_wp_same; [done|done|exact (add_output_wp E 0 e o l _ io il I Ha Ka Hb Kb (free_or_at _ _ _ _ La Ha) (free_or_at _ _ _ _ Lb Hb) Hrm)| |].
  - intros s' (HG&_&_&_&Ht&_). done.
  - intros s' (HG&Ht&_). done.
Qed.
Lemma add_input_eff e o l w : WInv w -> legal w (OAddInput e o l) ->
  E \/ (rooms 2 w /\ live_env w e /\ kind_ok is_op w o /\ kind_ok is_layer w l) ->
  WP (step w (OAddInput e o l)) (Eff w (OAddInput e o l)) (Eff w (OAddInput e o l)).
Proof.
  intros HW (La&Lb) HE. cbn [step]. apply wp_typed; [tauto|]. intros ia Ha Ka. apply wp_typed; [tauto|]. intros ib Hb Kb.
  apply on_env_cases; [tauto|]. intros x Hx. eapply add_input_eff0; eauto. tauto.
Qed.
Lemma add_output_eff e o l w : WInv w -> legal w (OAddOutput e o l) ->
  E \/ (rooms 2 w /\ live_env w e /\ kind_ok is_op w o /\ kind_ok is_layer w l) ->
  WP (step w (OAddOutput e o l)) (Eff w (OAddOutput e o l)) (Eff w (OAddOutput e o l)).
Proof.
  intros HW (La&Lb) HE. cbn [step]. apply wp_typed; [tauto|]. intros ia Ha Ka. apply wp_typed; [tauto|]. intros ib Hb Kb.
  apply on_env_cases; [tauto|]. intros x Hx. eapply add_output_eff0; eauto. tauto.
Qed.

(** removal of operator links: any operation *)
Definition rem_ok (e : eid) (f : st -> M) : Prop := forall s, Inv e s ->
  exists s', f s = Ok s' /\ Good false e s s' /\ e_tree (en s') = e_tree (en s) /\ hp s' = hp s.
Lemma rem_inputs_ok e o : rem_ok e (remove_inputs o).
Proof. intros s I. pose proof (remove_inputs_wp False false e o s I) as Hw. destruct (remove_inputs o s) as [s'| | |]; [|done..]. destruct Hw as (HG&Hh&He). exists s'. rewrite He. done. Qed.
Lemma rem_outputs_ok e o : rem_ok e (remove_outputs o).
Proof. intros s I. pose proof (remove_outputs_wp False false e o s I) as Hw. destruct (remove_outputs o s) as [s'| | |]; [|done..]. destruct Hw as (HG&Hh&He). exists s'. rewrite He. done. Qed.
Lemma rem_input_ok e o l : rem_ok e (remove_input o l).
Proof. intros s I. pose proof (remove_input_wp False false e o l s I) as Hw. destruct (remove_input o l s) as [s'| | |]; [|done..]. destruct Hw as (HG&Hh&He). exists s'. rewrite He. done. Qed.
Lemma rem_output_ok e o l : rem_ok e (remove_output o l).
Proof. intros s I. pose proof (remove_output_wp False false e o l s I) as Hw. destruct (remove_output o l s) as [s'| | |]; [|done..]. destruct Hw as (HG&Hh&He). exists s'. rewrite He. done. Qed.
Lemma rem_facts e f w x : rem_ok e f -> WInv w -> w_envs w !! e = Some x ->
  exists s', on_env e f w = Ok (unfocus e w s') /\ Facts (Some false) w (unfocus e w s') /\ hp s' = w_heap w.
Proof.
  intros Hf HW Hx. destruct (winv_parts _ _ _ HW Hx) as (I&R&A). destruct (Hf _ I) as (s'&Hok&HG&Ht&Hh).
  exists s'. unfold on_env, focus. rewrite Hx, Hok. split; [done|]. split; [|done].
  destruct (rest_same _ _ _ HG Ht R A). by eapply (lift false e w x).
Qed.
Lemma rem_eff e f w op : rem_ok e f -> WInv w -> E \/ live_env w e -> WP (on_env e f w) (Eff w op) (Eff w op).
Proof.
  intros Hf HW HE. destruct (w_envs w !! e) as [x|] eqn:Hx.
  - destruct (rem_facts e f w x Hf HW Hx) as (s'&->&HF&_). simpl. by eapply Eff_of_Facts.
  - destruct HE as [HE|[x Hx']]; [by apply wp_no_env|congruence].
Qed.

(** ** Operators and layers *)
Lemma in_env_live w e p : WInv w -> in_env w e p -> live_env w e.
Proof. intros HW (it&?&?). by eapply (winv_owner _ HW). Qed.

Lemma op_add_input_eff o l w op e io il : WInv w -> in_env w e o -> free_or w e l -> E \/ rooms 2 w ->
  w_heap w !! o = Some io -> is_op (it_kind io) = true -> w_heap w !! l = Some il -> is_layer (it_kind il) = true ->
  WP (op_add_input o l w) (Eff w op) (Eff w op).
Proof.
  intros HW Lo Ll HE Ho Ko Hl Kl. unfold op_add_input, wderef. rewrite Ho.
  pose proof Lo as (i&Hi&He). assert (i = io) as -> by congruence. rewrite He.
  apply on_env_cases; [right; by eapply in_env_live|]. intros x Hx. case_decide.
  - simpl. eapply (Eff_of_Facts false). destruct (winv_parts _ _ _ HW Hx) as (I&R&A). eapply (lift false); try done. by apply Good_refl.
  - eapply add_input_eff0; eauto. by left.
Qed.
Lemma op_add_output_eff o l w op e io il : WInv w -> in_env w e o -> free_or w e l -> E \/ rooms 2 w ->
  w_heap w !! o = Some io -> is_op (it_kind io) = true -> w_heap w !! l = Some il -> is_layer (it_kind il) = true ->
  WP (op_add_output o l w) (Eff w op) (Eff w op).
Proof.
  intros HW Lo Ll HE Ho Ko Hl Kl. unfold op_add_output, wderef. rewrite Ho.
  pose proof Lo as (i&Hi&He). assert (i = io) as -> by congruence. rewrite He.
  apply on_env_cases; [right; by eapply in_env_live|]. intros x Hx. case_decide.
  - simpl. eapply (Eff_of_Facts false). destruct (winv_parts _ _ _ HW Hx) as (I&R&A). eapply (lift false); try done. by apply Good_refl.
  - eapply add_output_eff0; eauto. by left.
Qed.

(** composing with a first part that leaves the heap alone *)
Lemma Eff_after w w1 w2 o : Facts (Some false) w w1 -> w_heap w1 = w_heap w -> Eff w1 o w2 ->
  (forall e h, o <> OAddHandler e h) -> (forall e h, o <> ORemHandler e h) -> Eff w o w2.
Proof.
  intros HF Hh HE Hn1 Hn2. constructor.
  - apply HE.
  - rewrite <-Hh. apply HE.
  - rewrite <-Hh. apply HE.
  - intros q it it' e. rewrite <-Hh. apply (ef_ids _ _ _ HE).
  - intros e He. apply (ef_dom _ _ _ HE). by apply (fa_dom _ _ _ HF).
  - destruct (fa_tr _ _ _ HF) as (t1&H1&T1). destruct (ef_tr _ _ _ HE) as (t2&H2&T2).
    exists (t1 ++ t2). split; [by rewrite H2, H1, app_assoc|]. intros e x1 x3 E1 E3. left.
    assert (is_Some (w_envs w1 !! e)) as [x2 E2] by (apply (fa_dom _ _ _ HF e); eauto).
    destruct (T1 e x1 x2 E1 E2) as (Hh1&es1&Hf1&Hm1). destruct (T2 e x2 x3 E2 E3) as [(Hh2&es2&Hf2&Hm2)|(h&_&[[Ho _]|[Ho _]])];
      [|by destruct (Hn1 e h)|by destruct (Hn2 e h)].
    split; [congruence|]. exists (es1 ++ es2). split.
    + rewrite filter_app, Hf1, Hf2, Hh1. by rewrite deliver_app.
    + intros m Hm. destruct (Hm1 m Hm) as (m2&R1&M2). destruct (Hm2 m2 M2) as (m3&R2&M3). exists m3. split; [|done].
      by rewrite (replay_app _ _ _ _ R1).
Qed.
End step.
