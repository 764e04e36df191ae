(** The root node of an environment never changes and has the id "/0" (Environment.cpp:139-147). *)
From stdpp Require Import prelude strings gmap pretty relations.
From Verif Require Import Base AssocLemmas EnvModel EnvSpec EnvLib EnvWorld EnvStep EnvStep3 EnvDemo EnvProps EnvProps2.

Definition Sub (x x' : env) : Prop := e_root x' = e_root x.
Definition wm (x : env) (r : M) : Prop := wp True r (fun s => Sub x (en s)) (fun s => Sub x (en s)).
Definition wmp (x : env) (r : out st (st * ptr)) : Prop := wp True r (fun s => Sub x (en s.1)) (fun s => Sub x (en s)).

Lemma Sub_refl x : Sub x x. Proof. done. Qed.
Lemma Sub_trans x y z : Sub x y -> Sub y z -> Sub x z.
Proof. unfold Sub. congruence. Qed.
Lemma wm_bind x m f : wm x m -> (forall s, Sub x (en s) -> wm x (f s)) -> wm x (obind m f).
Proof. intros H1 H2. apply wp_bind. eapply wp_mono; [exact H1|exact H2|done]. Qed.
Lemma wm_bindp x m f : wmp x m -> (forall s, Sub x (en s.1) -> wm x (f s)) -> wm x (obind m f).
Proof. intros H1 H2. apply wp_bind. eapply wp_mono; [exact H1|exact H2|done]. Qed.
Lemma wmp_bind x m f : wm x m -> (forall s, Sub x (en s) -> wmp x (f s)) -> wmp x (obind m f).
Proof. intros H1 H2. apply wp_bind. eapply wp_mono; [exact H1|exact H2|done]. Qed.
Lemma wm_iter {A} x (f : A -> st -> M) l s : Sub x (en s) -> (forall a s, Sub x (en s) -> wm x (f a s)) -> wm x (iter_out f l s).
Proof.
  revert s. induction l as [|a l IH]; intros s Hs Hf; simpl; [exact Hs|]. apply wm_bind; [by apply Hf|]. intros s1 H1. by apply IH.
Qed.
Lemma deref_wm x p s k : (forall it, wm x (k it)) -> wm x (deref p s k).
Proof. intros H. unfold deref. destruct (hp s !! p); [apply H|done]. Qed.
Lemma deref_wmp x p s k : (forall it, wmp x (k it)) -> wmp x (deref p s k).
Proof. intros H. unfold deref. destruct (hp s !! p); [apply H|done]. Qed.
Lemma ok_wm x s : Sub x (en s) -> wm x (Ok s). Proof. done. Qed.
Lemma throw_wm x s : Sub x (en s) -> wm x (Throw s). Proof. done. Qed.

Lemma drop_temp_wm x p s : Sub x (en s) -> wm x (drop_temp p s).
Proof. intros H. unfold drop_temp. destruct (hp s !! p); [|exact H]. case_decide; [destruct (it_env i); [done|exact H]|exact H]. Qed.
Lemma release_wm x p s : Sub x (en s) -> wm x (release p s).
Proof. intros H. apply deref_wm. intros it. by apply drop_temp_wm. Qed.
Lemma emit_to_wm x hs me t o a b s : Sub x (en s) -> wm x (emit_to hs me t o a b s).
Proof.
  intros H. apply deref_wm. intros ia. destruct b as [b|]; [|by apply drop_temp_wm]. apply deref_wm. intros ib.
  apply wm_bind; [by apply drop_temp_wm|]. intros. by apply drop_temp_wm.
Qed.
Lemma emit_wm x me t o a b s : Sub x (en s) -> wm x (emit me t o a b s).
Proof. apply emit_to_wm. Qed.
Lemma attach_core_wm x me p s : Sub x (en s) -> wm x (attach_core me p s).
Proof.
  intros H. apply deref_wm. intros it. apply wm_bind.
  - destruct (it_env it); [exact H|]. cbv zeta; case_decide; [|exact H]. unfold wm. apply wp_bind.
    assert (Hs : forall f l b n, wp True (search_id f l b n) (fun _ => True) (fun _ => False)).
    { induction f as [|f IH]; intros l b n; simpl; [done|]. destruct (assoc _ l); [|done]. case_decide; [done|]. apply IH. }
    eapply wp_mono; [apply Hs| |done]. intros n _. exact H.
  - intros s1 H1. apply deref_wm. intros it1. destruct (assoc _ _); [exact H1|]. by apply emit_wm.
Qed.
Lemma attach_if_free_wm x me p s : Sub x (en s) -> wm x (attach_if_free me p s).
Proof. intros H. apply deref_wm. intros it. destruct (it_env it); [exact H|by apply attach_core_wm]. Qed.
Lemma remove_child_f_wm x me a b s : Sub x (en s) -> wm x (remove_child_f me a b s).
Proof. intros H. unfold remove_child_f. case_decide; [|exact H]. apply wm_bind; [by apply emit_wm|]. by intros. Qed.
Lemma add_child_f_wm x me a b s : Sub x (en s) -> wm x (add_child_f me a b s).
Proof.
  intros H. unfold add_child_f. case_decide as Dc; [done|]. case_decide as Dd; [exact H|]. apply wm_bind; [by apply attach_if_free_wm|].
  intros s1 H1. clear Dd. apply wm_bind; [destruct (get_parent _ _); [by apply remove_child_f_wm|exact H1]|]. intros s2 H2. by apply emit_wm.
Qed.
Lemma remove_child_l_wm x me a b s : Sub x (en s) -> wm x (remove_child_l me a b s).
Proof. intros H. apply wm_bind; [by apply emit_wm|]. by intros. Qed.
Lemma add_child_l_wm x me a b s : Sub x (en s) -> wm x (add_child_l me a b s).
Proof.
  intros H. unfold add_child_l. case_decide as Dc; [done|]. case_decide as Dd; [exact H|]. apply wm_bind; [by apply attach_if_free_wm|].
  intros s1 H1. by apply emit_wm.
Qed.
Lemma remove_inputs_wm x o s : Sub x (en s) -> wm x (remove_inputs o s).
Proof. done. Qed.
Lemma remove_outputs_wm x o s : Sub x (en s) -> wm x (remove_outputs o s).
Proof. done. Qed.
Lemma remove_input_wm x o l s : Sub x (en s) -> wm x (remove_input o l s).
Proof. done. Qed.
Lemma remove_output_wm x o l s : Sub x (en s) -> wm x (remove_output o l s).
Proof. done. Qed.
Lemma add_input_wm x me o l s : Sub x (en s) -> wm x (add_input me o l s).
Proof.
  intros H. unfold add_input. case_decide; [exact H|]. apply wm_bind; [by apply attach_if_free_wm|]. intros s1 H1.
  apply wm_bind; [by apply attach_if_free_wm|]. by intros.
Qed.
Lemma add_output_wm x me o l s : Sub x (en s) -> wm x (add_output me o l s).
Proof.
  intros H. unfold add_output. case_decide; [exact H|]. apply wm_bind; [by apply attach_if_free_wm|]. intros s1 H1.
  apply wm_bind; [by apply attach_if_free_wm|]. by intros.
Qed.
Lemma detach_frame_wm x me a b s : Sub x (en s) -> wm x (detach_frame me a b s).
Proof. intros H. unfold detach_frame. case_decide; [|exact H]. apply wm_bind; [by apply emit_wm|]. by intros. Qed.
Lemma place_map_wm x me a b s : Sub x (en s) -> wm x (place_map me a b s).
Proof.
  intros H. unfold place_map. destruct (get_frame _ _); [|by apply emit_wm]. case_decide; [exact H|].
  apply wm_bind; [by apply detach_frame_wm|]. intros. by apply emit_wm.
Qed.
Lemma set_frame_attached_wm x me a b s : Sub x (en s) -> wm x (set_frame_attached me a b s).
Proof. intros H. apply wm_bind; [by apply attach_if_free_wm|]. intros. by apply place_map_wm. Qed.
Lemma default_frame_wm x me a b s : Sub x (en s) -> wm x (default_frame me a b s).
Proof. intros H. unfold default_frame. destruct (get_frame _ _); [exact H|]. by apply set_frame_attached_wm. Qed.
Lemma set_frame_wm x me a b s : Sub x (en s) -> wm x (set_frame me a b s).
Proof.
  intros H. apply wm_bind; [by apply attach_if_free_wm|]. intros s1 H1. apply deref_wm. intros it. apply wm_bind.
  - destruct (it_env it); [exact H1|]. apply wm_bind; [by apply attach_core_wm|]. intros. by apply default_frame_wm.
  - intros. by apply place_map_wm.
Qed.
Lemma remove_links_wm x me p s : Sub x (en s) -> wm x (remove_links me p s).
Proof.
  intros H. unfold remove_links. apply wm_bind; [apply wm_iter; [done|]; intros; by apply remove_child_f_wm|]. intros s1 H1.
  apply wm_bind; [apply wm_iter; [done|]; intros; by apply remove_child_l_wm|]. intros s2 H2.
  apply wm_bind; [apply wm_iter; [done|]; intros; by apply remove_input_wm|]. intros s3 H3.
  apply wm_bind; [apply wm_iter; [done|]; intros; by apply remove_output_wm|]. intros s4 H4.
  apply wm_iter; [done|]; intros; by apply detach_frame_wm.
Qed.
Lemma detach_one_wm x me p s : Sub x (en s) -> wmp x (detach_one me p s).
Proof.
  intros H. apply deref_wmp. intros it0. destruct (assoc _ _); [|done]. apply wmp_bind; [by apply remove_links_wm|]. intros s1 H1.
  apply wmp_bind; [by apply emit_wm|]. intros s2 H2. apply deref_wmp. intros it. destruct (assoc _ _); [|done]. exact H2.
Qed.
Lemma detach_drop_wm x me p s : Sub x (en s) -> wm x (detach_drop me p s).
Proof. intros H. apply wm_bindp; [by apply detach_one_wm|]. intros. by apply release_wm. Qed.
Lemma detach_wm x f me deep : forall p s, Sub x (en s) -> wmp x (detach f me deep p s).
Proof.
  induction f as [|f IH]; intros p s H; [done|]. apply deref_wmp. intros it. destruct (assoc _ _); [|done]. fold detach.
  assert (Hsub : forall c s0, Sub x (en s0) -> wm x (r <~ detach f me deep c s0 ;; release r.2 r.1)).
  { intros c s0 H0. apply wm_bindp; [by apply IH|]. intros. by apply release_wm. }
  apply wmp_bind; [|intros; by apply detach_one_wm]. destruct (deep && is_frame (it_kind it)); [|exact H].
  apply wm_bind; [by apply wm_iter|]. intros. by apply wm_iter.
Qed.
Lemma publish_wm x f me h : forall p s, Sub x (en s) -> wm x (publish_childs f me h p s).
Proof.
  induction f as [|f IH]; intros p s H; [done|]. simpl. apply wm_iter; [done|]. intros c s0 H0. apply wm_bind; [by apply emit_to_wm|].
  intros. by apply IH.
Qed.
Lemma add_handler_wm x me h s : Sub x (en s) -> wm x (add_handler me h s).
Proof.
  intros H. unfold add_handler. apply wm_bind; [apply wm_iter; [done|]; intros; by apply emit_to_wm|]. intros s1 H1.
  apply wm_bind; [by apply emit_to_wm|]. intros s2 H2. apply wm_bind; [by apply publish_wm|]. intros s3 H3.
  apply wm_bind; [apply wm_iter; [done|]; intros; by apply emit_to_wm|]. by intros.
Qed.
Lemma detach_childs_wm x f me h : forall p s, Sub x (en s) -> wm x (detach_childs f me h p s).
Proof.
  induction f as [|f IH]; intros p s H; [done|]. simpl. apply wm_iter; [done|]. intros c s0 H0. apply wm_bind; [by apply IH|].
  intros s1 H1. apply wm_bind; [apply wm_iter; [done|]; intros; by apply emit_to_wm|]. intros. by apply emit_to_wm.
Qed.
Lemma remove_handler_wm x me h s : Sub x (en s) -> wm x (remove_handler me h s).
Proof.
  intros H. unfold remove_handler. apply wm_bind; [by apply detach_childs_wm|]. intros s1 H1.
  apply wm_bind; [by apply emit_to_wm|]. intros s2 H2.
  apply wm_bind; [apply wm_iter; [done|]; intros; by apply emit_to_wm|]. by intros.
Qed.
Lemma detach_all_wm x f me : forall s, Sub x (en s) -> wm x (detach_all f me s).
Proof.
  induction f as [|f IH]; intros s H; simpl; destruct (e_items (en s)) as [|[? p] ?]; [exact H|done|exact H|].
  apply wm_bind; [by apply detach_drop_wm|]. intros. by apply IH.
Qed.

(** ** Worlds *)
Definition SubW (w w' : world) : Prop := forall e x', w_envs w' !! e = Some x' ->
  exists x, w_envs w !! e = Some x /\ Sub x x'.
Definition wW (w : world) (r : W) : Prop := wp True r (SubW w) (SubW w).
Lemma SubW_refl w : SubW w w.
Proof. intros e x Hx. exists x. split; [done|apply Sub_refl]. Qed.
Lemma SubW_trans w1 w2 w3 : SubW w1 w2 -> SubW w2 w3 -> SubW w1 w3.
Proof.
  intros H1 H2 e x3 Hx3. destruct (H2 e x3 Hx3) as (x2&Hx2&HS). destruct (H1 e x2 Hx2) as (x1&Hx1&HS1).
  exists x1. split; [done|]. by eapply Sub_trans.
Qed.
Lemma on_env_wW e f w : (forall x s, Sub x (en s) -> wm x (f s)) -> wW w (on_env e f w).
Proof.
  intros H. unfold on_env, focus. destruct (w_envs w !! e) as [x|] eqn:Hx; [|done].
  specialize (H x (St (w_heap w) x (w_tr w)) (Sub_refl x)).
  assert (HS : forall s, Sub x (en s) -> SubW w (unfocus e w s)).
  { intros s Hs e' x'. simpl. destruct (decide (e = e')) as [<-|Hne].
    - rewrite lookup_insert. intros [= <-]. eauto.
    - rewrite lookup_insert_ne by done. intros H'. exists x'. split; [done|apply Sub_refl]. }
  destruct (f _); [apply HS, H..|done|done].
Qed.
Lemma wW_bind w m f : wW w m -> (forall w1, SubW w w1 -> wW w1 (f w1)) -> wW w (obind m f).
Proof.
  intros H1 H2. apply wp_bind. eapply wp_mono; [exact H1| |done]. intros w1 Hw1. eapply wp_mono; [by apply H2|..]; intros; by eapply SubW_trans.
Qed.
Lemma wderef_wW w p w0 k : (forall it, wW w (k it)) -> wW w (wderef p w0 k).
Proof. intros H. unfold wderef. destruct (_ !! p); [apply H|done]. Qed.
Lemma typed_wW w f p w0 k : wW w k -> wW w (typed f p w0 k).
Proof. intros H. apply wderef_wW. intros it. destruct (f _); [done|done]. Qed.
Lemma attach_item_wW me p w : wW w (attach_item me p w).
Proof.
  apply wderef_wW. intros it. destruct (it_env it) as [e2|]; [case_decide|]; [apply on_env_wW; intros; by apply attach_core_wm| |apply on_env_wW; intros; by apply attach_core_wm].
  apply wW_bind; [apply on_env_wW; intros; by apply detach_drop_wm|]. intros w1 _. apply on_env_wW; intros; by apply attach_core_wm.
Qed.
Lemma attach_map_wW me m n w : wW w (attach_map me m n w).
Proof. apply wW_bind; [apply attach_item_wW|]. intros w1 _. apply on_env_wW; intros; by apply default_frame_wm. Qed.

Lemma same_envs_W w w' : w_envs w' = w_envs w -> SubW w w'.
Proof. intros He e x. rewrite He. intros Hx. exists x. split; [done|apply Sub_refl]. Qed.
Lemma op_add_input_wW o l w : wW w (op_add_input o l w).
Proof.
  apply wderef_wW. intros it. destruct (it_env it); [|done]. apply on_env_wW. intros x s H. case_decide; [exact H|by apply add_input_wm].
Qed.
Lemma op_add_output_wW o l w : wW w (op_add_output o l w).
Proof.
  apply wderef_wW. intros it. destruct (it_env it); [|done]. apply on_env_wW. intros x s H. case_decide; [exact H|by apply add_output_wm].
Qed.
Definition new_env_op (o : op) : bool := match o with ONewEnv _ _ => true | _ => false end.
Lemma step_root w o : new_env_op o = false -> wW w (step w o).
Proof.
  destruct o; simpl; intros Ha; try done; try (match goal with |- wW _ (wderef _ _ _) => apply wderef_wW; intros it end); repeat apply typed_wW;
    try (apply on_env_wW; intros;
      first [by apply add_child_f_wm|by apply add_child_l_wm|by apply remove_child_f_wm|by apply remove_child_l_wm|by apply set_frame_wm
            |by apply detach_frame_wm|by apply remove_input_wm|by apply remove_output_wm|by apply remove_inputs_wm|by apply remove_outputs_wm
            |by apply add_input_wm|by apply add_output_wm
            |by apply add_handler_wm|by apply remove_handler_wm|by apply emit_wm]).
  - unfold new_item. destruct (_ !! p); [done|]. by apply same_envs_W.
  - by apply same_envs_W.
  - apply wderef_wW. intros it. destruct (it_user it); [done|]. cbv zeta; case_decide; [|by apply same_envs_W]. destruct (it_env it); [done|by apply same_envs_W].
  - destruct (it_env it); by apply same_envs_W.
  - destruct (it_env it); [|by apply same_envs_W].
    assert (H : wW (wput p (with_val it v) w) (on_env p0 (emit p0 EItem EUpdate p None) (wput p (with_val it v) w))) by (apply on_env_wW; intros; by apply emit_wm).
    eapply wp_mono; [exact H|..]; intros w1 H1 e x Hx; destruct (H1 e x Hx) as (y&?&?); by exists y.
  - apply wW_bind; [apply on_env_wW; intros; by apply detach_all_wm|]. intros w1 _ e' x'. simpl.
    intros [? Hx]%lookup_delete_Some. exists x'. split; [done|apply Sub_refl].
  - apply attach_item_wW.
  - destruct n; [apply typed_wW|]; apply attach_map_wW.
  - unfold user_detach. apply on_env_wW. intros x s H. apply wm_bindp; [by apply detach_wm|]. intros r Hr. destruct keep.
    + apply deref_wm. intros. exact Hr.
    + by apply release_wm.
  - destruct (norm_prefix s); [|done]. apply on_env_wW. intros x s1 H. exact H.
  - apply op_add_input_wW.
  - apply op_add_output_wW.
  - apply wderef_wW. intros it. destruct (it_env it); [|done]. apply wW_bind; [apply on_env_wW; intros; by apply remove_inputs_wm|].
    intros w1 _. apply op_add_input_wW.
  - apply wderef_wW. intros it. destruct (it_env it); [|done]. apply wW_bind; [apply on_env_wW; intros; by apply remove_outputs_wm|].
    intros w1 _. apply op_add_output_wW.
  - unfold detach_from_op. apply wderef_wW. intros it. destruct (it_env it); [|done]. apply on_env_wW. intros x s H. destruct (get_generator _ _); [by apply remove_input_wm|exact H].
Qed.

Definition root_named (w : world) : Prop := forall e x, w_envs w !! e = Some x -> idn (w_heap w) (e_root x) = "/0".

Lemma root_named_step w o w' : WInv w -> legal w o -> steps_to w o w' -> root_named w -> root_named w'.
Proof.
  intros HW HL Hs HR e x' Hx'. pose proof (steps_eff _ _ _ HW HL Hs) as HE. pose proof (ef_inv _ _ _ HE) as HW'.
  assert (Hold : forall x, w_envs w !! e = Some x -> e_root x' = e_root x -> idn (w_heap w') (e_root x') = "/0").
  { intros x Hx Hr. rewrite Hr. destruct (winv_parts _ _ _ HW Hx) as (I&(Ro&_)&_). destruct Ro as (it&Hit&Hie&_). simpl in *.
    destruct (winv_parts _ _ _ HW' Hx') as (I'&(Ro'&_)&_). destruct Ro' as (it'&Hit'&Hie'&_). simpl in *. rewrite Hr in *.
    specialize (HR e x Hx). unfold idn in *. rewrite Hit in HR. rewrite Hit'. rewrite <- HR.
    eapply (ef_ids _ _ _ HE); eauto. }
  destruct (new_env_op o) eqn:Hn.
  - destruct o; try done. destruct (decide (e = e0)) as [<-|Hne].
    + clear Hold. destruct Hs as [Hs|Hs]; simpl in Hs; unfold new_env in Hs;
      destruct (w_envs w !! e) eqn:He; try done; destruct (w_heap w !! r) eqn:Hr; try done; revert Hs;
      unfold on_env, focus; simpl; rewrite lookup_insert; unfold attach_core, deref; simpl; rewrite lookup_insert; simpl;
      rewrite lookup_insert; simpl; unfold emit, emit_to, deref; simpl; rewrite lookup_insert; simpl; unfold drop_temp; simpl;
      rewrite lookup_insert; simpl; try done.
      intros [= <-]. simpl in Hx'. rewrite lookup_insert in Hx'. injection Hx' as <-. unfold idn. simpl. by rewrite lookup_insert.
    + assert (w_envs w !! e = Some x') as Hx; [|by eapply Hold].
      destruct Hs as [Hs|Hs]; simpl in Hs; unfold new_env in Hs;
      destruct (w_envs w !! e0) eqn:He; try done; destruct (w_heap w !! r) eqn:Hr; try done; revert Hs;
      unfold on_env; destruct (focus _ _) eqn:Hf; try done; destruct (attach_core _ _ _) eqn:Ha; try done; intros [= <-];
      unfold unfocus in Hx'; simpl in Hx'; by rewrite !lookup_insert_ne in Hx' by done.
  - pose proof (step_root w o Hn) as H. assert (SubW w w') as HS by (destruct Hs as [Hs|Hs]; rewrite Hs in H; exact H).
    destruct (HS e x' Hx') as (x&Hx&Hr). by eapply Hold.
Qed.

Lemma reachable_root w e x : reachable w -> w_envs w !! e = Some x -> idn (w_heap w) (e_root x) = "/0".
Proof.
  intros (os&Hos). assert (root_named world0) as H0. { intros e' x'. simpl. by rewrite lookup_empty. }
  assert (WInv world0) as HW by (apply reachable_inv; exists []; constructor).
  assert (root_named w) as H; [|apply H]. clear e x. induction Hos as [|w o w1 os w' HL Hs Hh IH]; [done|].
  apply IH; [by eapply root_named_step|]. by apply (steps_eff _ _ _ HW HL Hs).
Qed.
