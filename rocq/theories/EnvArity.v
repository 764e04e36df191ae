(** The arity of operators (C12). *)
From stdpp Require Import prelude strings gmap pretty relations.
From Verif Require Import Base AssocLemmas EnvModel EnvSpec EnvLib EnvWorld EnvStep EnvStep3 EnvDemo EnvProps EnvProps2.

(** no operator has more inputs or outputs than before *)
Definition Sub (x x' : env) : Prop :=
  forall o, length (get_inputs x' o) <= length (get_inputs x o) /\ length (get_outputs x' o) <= length (get_outputs x o).
Definition wm (x : env) (r : M) : Prop := wp True r (fun s => Sub x (en s)) (fun s => Sub x (en s)).
Definition wmp (x : env) (r : out st (st * ptr)) : Prop := wp True r (fun s => Sub x (en s.1)) (fun s => Sub x (en s)).

Lemma Sub_refl x : Sub x x. Proof. done. Qed.
Lemma Sub_trans x y z : Sub x y -> Sub y z -> Sub x z.
Proof. intros H1 H2 o. destruct (H1 o), (H2 o). lia. Qed.
Lemma wm_bind x m f : wm x m -> (forall s, Sub x (en s) -> wm x (f s)) -> wm x (obind m f).
Proof. intros H1 H2. apply wp_bind. eapply wp_mono; [exact H1|exact H2|done]. Qed.
Lemma wm_bindp x m f : wmp x m -> (forall s, Sub x (en s.1) -> wm x (f s)) -> wm x (obind m f).
Proof. intros H1 H2. apply wp_bind. eapply wp_mono; [exact H1|exact H2|done]. Qed.
Lemma wmp_bind x m f : wm x m -> (forall s, Sub x (en s) -> wmp x (f s)) -> wmp x (obind m f).
Proof. intros H1 H2. apply wp_bind. eapply wp_mono; [exact H1|exact H2|done]. Qed.
Lemma wm_iter {A} x (f : A -> st -> M) l s : Sub x (en s) -> (forall a s, Sub x (en s) -> wm x (f a s)) -> wm x (iter_out f l s).
Proof.
  revert s. induction l as [|a l IH]; intros s Hs Hf; simpl; [exact Hs|]. apply wm_bind; [by apply Hf|]. intros s1 H1. by apply IH.
Qed.
Lemma deref_wm x p s k : (forall it, wm x (k it)) -> wm x (deref p s k).
Proof. intros H. unfold deref. destruct (hp s !! p); [apply H|done]. Qed.
Lemma deref_wmp x p s k : (forall it, wmp x (k it)) -> wmp x (deref p s k).
Proof. intros H. unfold deref. destruct (hp s !! p); [apply H|done]. Qed.
Lemma ok_wm x s : Sub x (en s) -> wm x (Ok s). Proof. done. Qed.
Lemma throw_wm x s : Sub x (en s) -> wm x (Throw s). Proof. done. Qed.

Lemma drop_temp_wm x p s : Sub x (en s) -> wm x (drop_temp p s).
Proof. intros H. unfold drop_temp. destruct (hp s !! p); [|exact H]. case_decide; [destruct (it_env i); [done|exact H]|exact H]. Qed.
Lemma release_wm x p s : Sub x (en s) -> wm x (release p s).
Proof. intros H. apply deref_wm. intros it. by apply drop_temp_wm. Qed.
Lemma emit_to_wm x hs me t o a b s : Sub x (en s) -> wm x (emit_to hs me t o a b s).
Proof.
  intros H. apply deref_wm. intros ia. destruct b as [b|]; [|by apply drop_temp_wm]. apply deref_wm. intros ib.
  apply wm_bind; [by apply drop_temp_wm|]. intros. by apply drop_temp_wm.
Qed.
Lemma emit_wm x me t o a b s : Sub x (en s) -> wm x (emit me t o a b s).
Proof. apply emit_to_wm. Qed.
Lemma attach_core_wm x me p s : Sub x (en s) -> wm x (attach_core me p s).
Proof.
  intros H. apply deref_wm. intros it. apply wm_bind.
  - destruct (it_env it); [exact H|]. cbv zeta; case_decide; [|exact H]. unfold wm. apply wp_bind.
    assert (Hs : forall f l b n, wp True (search_id f l b n) (fun _ => True) (fun _ => False)).
    { induction f as [|f IH]; intros l b n; simpl; [done|]. destruct (assoc _ l); [|done]. case_decide; [done|]. apply IH. }
    eapply wp_mono; [apply Hs| |done]. intros n _. exact H.
  - intros s1 H1. apply deref_wm. intros it1. destruct (assoc _ _); [exact H1|]. by apply emit_wm.
Qed.
Lemma attach_if_free_wm x me p s : Sub x (en s) -> wm x (attach_if_free me p s).
Proof. intros H. apply deref_wm. intros it. destruct (it_env it); [exact H|by apply attach_core_wm]. Qed.
Lemma remove_child_f_wm x me a b s : Sub x (en s) -> wm x (remove_child_f me a b s).
Proof. intros H. unfold remove_child_f. case_decide; [|exact H]. apply wm_bind; [by apply emit_wm|]. by intros. Qed.
Lemma add_child_f_wm x me a b s : Sub x (en s) -> wm x (add_child_f me a b s).
Proof.
  intros H. unfold add_child_f. case_decide as Dc; [done|]. case_decide as Dd; [exact H|]. apply wm_bind; [by apply attach_if_free_wm|].
  intros s1 H1. clear Dd. apply wm_bind; [destruct (get_parent _ _); [by apply remove_child_f_wm|exact H1]|]. intros s2 H2. by apply emit_wm.
Qed.
Lemma remove_child_l_wm x me a b s : Sub x (en s) -> wm x (remove_child_l me a b s).
Proof. intros H. apply wm_bind; [by apply emit_wm|]. by intros. Qed.
Lemma add_child_l_wm x me a b s : Sub x (en s) -> wm x (add_child_l me a b s).
Proof.
  intros H. unfold add_child_l. case_decide as Dc; [done|]. case_decide as Dd; [exact H|]. apply wm_bind; [by apply attach_if_free_wm|].
  intros s1 H1. by apply emit_wm.
Qed.
Lemma values_of_filter_le (P : ptr * ptr -> Prop) `{forall kv, Decision (P kv)} o (l : list (ptr * ptr)) :
  length (values_of o (filter P l)) <= length (values_of o l).
Proof.
  unfold values_of. rewrite !fmap_length. rewrite list_filter_filter. induction l as [|kv l IH]; [done|].
  rewrite !filter_cons. repeat case_decide; simpl; try lia; tauto.
Qed.
Lemma Sub_in x s (l : list (ptr * ptr)) : Sub x (en s) -> (forall o, length (values_of o l) <= length (values_of o (e_in (en s)))) ->
  Sub x (en (set_en s (with_in (en s) l))).
Proof. intros H Hl o. destruct (H o). specialize (Hl o). unfold get_inputs, get_outputs in *. simpl. lia. Qed.
Lemma Sub_out x s (l : list (ptr * ptr)) : Sub x (en s) -> (forall o, length (values_of o l) <= length (values_of o (e_out (en s)))) ->
  Sub x (en (set_en s (with_out (en s) l))).
Proof. intros H Hl o. destruct (H o). specialize (Hl o). unfold get_inputs, get_outputs in *. simpl. lia. Qed.
Lemma remove_inputs_wm x o s : Sub x (en s) -> wm x (remove_inputs o s).
Proof. intros H. apply ok_wm, Sub_in; [done|]. intros. apply values_of_filter_le. Qed.
Lemma remove_outputs_wm x o s : Sub x (en s) -> wm x (remove_outputs o s).
Proof. intros H. apply ok_wm, Sub_out; [done|]. intros. apply values_of_filter_le. Qed.
Lemma remove_input_wm x o l s : Sub x (en s) -> wm x (remove_input o l s).
Proof. intros H. apply ok_wm, Sub_in; [done|]. intros. apply values_of_filter_le. Qed.
Lemma remove_output_wm x o l s : Sub x (en s) -> wm x (remove_output o l s).
Proof. intros H. apply ok_wm, Sub_out; [done|]. intros. apply values_of_filter_le. Qed.
Lemma detach_frame_wm x me a b s : Sub x (en s) -> wm x (detach_frame me a b s).
Proof. intros H. unfold detach_frame. case_decide; [|exact H]. apply wm_bind; [by apply emit_wm|]. by intros. Qed.
Lemma place_map_wm x me a b s : Sub x (en s) -> wm x (place_map me a b s).
Proof.
  intros H. unfold place_map. destruct (get_frame _ _); [|by apply emit_wm]. case_decide; [exact H|].
  apply wm_bind; [by apply detach_frame_wm|]. intros. by apply emit_wm.
Qed.
Lemma set_frame_attached_wm x me a b s : Sub x (en s) -> wm x (set_frame_attached me a b s).
Proof. intros H. apply wm_bind; [by apply attach_if_free_wm|]. intros. by apply place_map_wm. Qed.
Lemma default_frame_wm x me a b s : Sub x (en s) -> wm x (default_frame me a b s).
Proof. intros H. unfold default_frame. destruct (get_frame _ _); [exact H|]. by apply set_frame_attached_wm. Qed.
Lemma set_frame_wm x me a b s : Sub x (en s) -> wm x (set_frame me a b s).
Proof.
  intros H. apply wm_bind; [by apply attach_if_free_wm|]. intros s1 H1. apply deref_wm. intros it. apply wm_bind.
  - destruct (it_env it); [exact H1|]. apply wm_bind; [by apply attach_core_wm|]. intros. by apply default_frame_wm.
  - intros. by apply place_map_wm.
Qed.
Lemma remove_links_wm x me p s : Sub x (en s) -> wm x (remove_links me p s).
Proof.
  intros H. unfold remove_links. apply wm_bind; [apply wm_iter; [done|]; intros; by apply remove_child_f_wm|]. intros s1 H1.
  apply wm_bind; [apply wm_iter; [done|]; intros; by apply remove_child_l_wm|]. intros s2 H2.
  apply wm_bind; [apply wm_iter; [done|]; intros; by apply remove_input_wm|]. intros s3 H3.
  apply wm_bind; [apply wm_iter; [done|]; intros; by apply remove_output_wm|]. intros s4 H4.
  apply wm_iter; [done|]; intros; by apply detach_frame_wm.
Qed.
Lemma detach_one_wm x me p s : Sub x (en s) -> wmp x (detach_one me p s).
Proof.
  intros H. apply deref_wmp. intros it0. destruct (assoc _ _); [|done]. apply wmp_bind; [by apply remove_links_wm|]. intros s1 H1.
  apply wmp_bind; [by apply emit_wm|]. intros s2 H2. apply deref_wmp. intros it. destruct (assoc _ _); [|done]. exact H2.
Qed.
Lemma detach_drop_wm x me p s : Sub x (en s) -> wm x (detach_drop me p s).
Proof. intros H. apply wm_bindp; [by apply detach_one_wm|]. intros. by apply release_wm. Qed.
Lemma detach_wm x f me deep : forall p s, Sub x (en s) -> wmp x (detach f me deep p s).
Proof.
  induction f as [|f IH]; intros p s H; [done|]. apply deref_wmp. intros it. destruct (assoc _ _); [|done]. fold detach.
  assert (Hsub : forall c s0, Sub x (en s0) -> wm x (r <~ detach f me deep c s0 ;; release r.2 r.1)).
  { intros c s0 H0. apply wm_bindp; [by apply IH|]. intros. by apply release_wm. }
  apply wmp_bind; [|intros; by apply detach_one_wm]. destruct (deep && is_frame (it_kind it)); [|exact H].
  apply wm_bind; [by apply wm_iter|]. intros. by apply wm_iter.
Qed.
Lemma publish_wm x f me h : forall p s, Sub x (en s) -> wm x (publish_childs f me h p s).
Proof.
  induction f as [|f IH]; intros p s H; [done|]. simpl. apply wm_iter; [done|]. intros c s0 H0. apply wm_bind; [by apply emit_to_wm|].
  intros. by apply IH.
Qed.
Lemma add_handler_wm x me h s : Sub x (en s) -> wm x (add_handler me h s).
Proof.
  intros H. unfold add_handler. apply wm_bind; [apply wm_iter; [done|]; intros; by apply emit_to_wm|]. intros s1 H1.
  apply wm_bind; [by apply emit_to_wm|]. intros s2 H2. apply wm_bind; [by apply publish_wm|]. intros s3 H3.
  apply wm_bind; [apply wm_iter; [done|]; intros; by apply emit_to_wm|]. by intros.
Qed.
Lemma detach_childs_wm x f me h : forall p s, Sub x (en s) -> wm x (detach_childs f me h p s).
Proof.
  induction f as [|f IH]; intros p s H; [done|]. simpl. apply wm_iter; [done|]. intros c s0 H0. apply wm_bind; [by apply IH|].
  intros s1 H1. apply wm_bind; [apply wm_iter; [done|]; intros; by apply emit_to_wm|]. intros. by apply emit_to_wm.
Qed.
Lemma remove_handler_wm x me h s : Sub x (en s) -> wm x (remove_handler me h s).
Proof.
  intros H. unfold remove_handler. apply wm_bind; [by apply detach_childs_wm|]. intros s1 H1.
  apply wm_bind; [by apply emit_to_wm|]. intros s2 H2.
  apply wm_bind; [apply wm_iter; [done|]; intros; by apply emit_to_wm|]. by intros.
Qed.
Lemma detach_all_wm x f me : forall s, Sub x (en s) -> wm x (detach_all f me s).
Proof.
  induction f as [|f IH]; intros s H; simpl; destruct (e_items (en s)) as [|[? p] ?]; [exact H|done|exact H|].
  apply wm_bind; [by apply detach_drop_wm|]. intros. by apply IH.
Qed.

(** ** Worlds *)
Definition SubW (w w' : world) : Prop := forall e x', w_envs w' !! e = Some x' ->
  (exists x, w_envs w !! e = Some x /\ Sub x x') \/ (forall o, get_inputs x' o = [] /\ get_outputs x' o = []).
Definition wW (w : world) (r : W) : Prop := wp True r (SubW w) (SubW w).
Lemma SubW_refl w : SubW w w.
Proof. intros e x Hx. left. exists x. split; [done|apply Sub_refl]. Qed.
Lemma SubW_trans w1 w2 w3 : SubW w1 w2 -> SubW w2 w3 -> SubW w1 w3.
Proof.
  intros H1 H2 e x3 Hx3. destruct (H2 e x3 Hx3) as [(x2&Hx2&HS)|Hn]; [|by right]. destruct (H1 e x2 Hx2) as [(x1&Hx1&HS1)|Hn].
  - left. exists x1. split; [done|]. by eapply Sub_trans.
  - right. intros o. destruct (HS o) as [Ha Hb]. destruct (Hn o) as [Hc Hd]. rewrite Hc, Hd in *. simpl in *.
    split; apply nil_length_inv; lia.
Qed.
Lemma on_env_wW e f w : (forall x s, Sub x (en s) -> wm x (f s)) -> wW w (on_env e f w).
Proof.
  intros H. unfold on_env, focus. destruct (w_envs w !! e) as [x|] eqn:Hx; [|done].
  specialize (H x (St (w_heap w) x (w_tr w)) (Sub_refl x)).
  assert (HS : forall s, Sub x (en s) -> SubW w (unfocus e w s)).
  { intros s Hs e' x'. simpl. destruct (decide (e = e')) as [<-|Hne].
    - rewrite lookup_insert. intros [= <-]. left. eauto.
    - rewrite lookup_insert_ne by done. intros H'. left. exists x'. split; [done|apply Sub_refl]. }
  destruct (f _); [apply HS, H..|done|done].
Qed.
Lemma wW_bind w m f : wW w m -> (forall w1, SubW w w1 -> wW w1 (f w1)) -> wW w (obind m f).
Proof.
  intros H1 H2. apply wp_bind. eapply wp_mono; [exact H1| |done]. intros w1 Hw1. eapply wp_mono; [by apply H2|..]; intros; by eapply SubW_trans.
Qed.
Lemma wderef_wW w p w0 k : (forall it, wW w (k it)) -> wW w (wderef p w0 k).
Proof. intros H. unfold wderef. destruct (_ !! p); [apply H|done]. Qed.
Lemma typed_wW w f p w0 k : wW w k -> wW w (typed f p w0 k).
Proof. intros H. apply wderef_wW. intros it. destruct (f _); [done|done]. Qed.
Lemma attach_item_wW me p w : wW w (attach_item me p w).
Proof.
  apply wderef_wW. intros it. destruct (it_env it) as [e2|]; [case_decide|]; [apply on_env_wW; intros; by apply attach_core_wm| |apply on_env_wW; intros; by apply attach_core_wm].
  apply wW_bind; [apply on_env_wW; intros; by apply detach_drop_wm|]. intros w1 _. apply on_env_wW; intros; by apply attach_core_wm.
Qed.
Lemma attach_map_wW me m n w : wW w (attach_map me m n w).
Proof. apply wW_bind; [apply attach_item_wW|]. intros w1 _. apply on_env_wW; intros; by apply default_frame_wm. Qed.

(** operations that may add an input or output *)
Definition adds_link (o : op) : bool :=
  match o with OAddInput _ _ _ | OAddOutput _ _ _ | OOpAddInput _ _ | OOpAddOutput _ _ | OOpSetInput _ _ | OOpSetOutput _ _ => true | _ => false end.
Lemma same_envs_W w w' : w_envs w' = w_envs w -> SubW w w'.
Proof. intros He e x. rewrite He. intros Hx. left. exists x. split; [done|apply Sub_refl]. Qed.
Lemma step_sub w o : adds_link o = false -> wW w (step w o).
Proof.
  destruct o; simpl; intros Ha; try done; try (match goal with |- wW _ (wderef _ _ _) => apply wderef_wW; intros it end); repeat apply typed_wW;
    try (apply on_env_wW; intros;
      first [by apply add_child_f_wm|by apply add_child_l_wm|by apply remove_child_f_wm|by apply remove_child_l_wm|by apply set_frame_wm
            |by apply detach_frame_wm|by apply remove_input_wm|by apply remove_output_wm|by apply remove_inputs_wm|by apply remove_outputs_wm
            |by apply add_handler_wm|by apply remove_handler_wm|by apply emit_wm]).
  - unfold new_item. destruct (_ !! p); [done|]. by apply same_envs_W.
  - by apply same_envs_W.
  - apply wderef_wW. intros it. destruct (it_user it); [done|]. cbv zeta; case_decide; [|by apply same_envs_W]. destruct (it_env it); [done|by apply same_envs_W].
  - destruct (it_env it); by apply same_envs_W.
  - destruct (it_env it); [|by apply same_envs_W].
    assert (H : wW (wput p (with_val it v) w) (on_env p0 (emit p0 EItem EUpdate p None) (wput p (with_val it v) w))) by (apply on_env_wW; intros; by apply emit_wm).
    eapply wp_mono; [exact H|..]; intros w1 H1 e x Hx; destruct (H1 e x Hx) as [?|?]; auto.
  - unfold new_env. destruct (w_envs w !! e) as [x|] eqn:He; [done|]. destruct (_ !! r); [done|].
    set (w1 := World _ (<[_ := _]> _) _). assert (H : wW w1 (on_env e (attach_core e r) w1)) by (apply on_env_wW; intros; by apply attach_core_wm).
    assert (SubW w w1). { intros e' x'. unfold w1. simpl. destruct (decide (e = e')) as [<-|Hne].
      - rewrite lookup_insert. intros [= <-]. right. done.
      - rewrite lookup_insert_ne by done. intros. left. exists x'. split; [done|apply Sub_refl]. }
    eapply wp_mono; [exact H|..]; intros; by eapply SubW_trans.
  - apply wW_bind; [apply on_env_wW; intros; by apply detach_all_wm|]. intros w1 _ e' x'. simpl.
    intros [? Hx]%lookup_delete_Some. left. exists x'. split; [done|apply Sub_refl].
  - apply attach_item_wW.
  - destruct n; [apply typed_wW|]; apply attach_map_wW.
  - unfold user_detach. apply on_env_wW. intros x s H. apply wm_bindp; [by apply detach_wm|]. intros r Hr. destruct keep.
    + apply deref_wm. intros. exact Hr.
    + by apply release_wm.
  - destruct (norm_prefix s); [|done]. apply on_env_wW. intros x s1 H. exact H.
  - unfold detach_from_op. apply wderef_wW. intros it. destruct (it_env it); [|done]. apply on_env_wW. intros x s H. destruct (get_generator _ _); [by apply remove_input_wm|exact H].
Qed.

(** ** Adding *)
Lemma values_of_ins o l q (t : list (ptr * ptr)) : length (values_of q (ins plt o l t)) = (if decide (q = o) then 1 else 0) + length (values_of q t).
Proof.
  assert (Hp : values_of q (ins plt o l t) ≡ₚ values_of q ((o, l) :: t)) by (unfold values_of; by rewrite ins_perm).
  rewrite Hp. unfold values_of. rewrite filter_cons. simpl. repeat case_decide; simplify_eq; done.
Qed.
(** at most one more input for [o], nothing else *)
Definition OneIn (o : ptr) (x x' : env) : Prop := forall q,
  length (get_inputs x' q) <= (if decide (q = o) then 1 else 0) + length (get_inputs x q) /\ length (get_outputs x' q) <= length (get_outputs x q).
Definition OneOut (o : ptr) (x x' : env) : Prop := forall q,
  length (get_outputs x' q) <= (if decide (q = o) then 1 else 0) + length (get_outputs x q) /\ length (get_inputs x' q) <= length (get_inputs x q).
Lemma add_input_one me o l s : wp True (add_input me o l s) (fun s' => OneIn o (en s) (en s')) (fun s' => Sub (en s) (en s')).
Proof.
  unfold add_input. case_decide; [intros q; case_decide; lia|]. apply wp_bind.
  eapply wp_mono; [apply (attach_if_free_wm (en s)); apply Sub_refl| |done]. intros s1 H1. apply wp_bind.
  eapply wp_mono; [apply (attach_if_free_wm (en s)); exact H1| |done]. intros s2 H2 q. destruct (H2 q) as [Ha Hb].
  unfold get_inputs, get_outputs in *. simpl. rewrite values_of_ins. lia.
Qed.
Lemma add_output_one me o l s : wp True (add_output me o l s) (fun s' => OneOut o (en s) (en s')) (fun s' => Sub (en s) (en s')).
Proof.
  unfold add_output. case_decide; [intros q; case_decide; lia|]. apply wp_bind.
  eapply wp_mono; [apply (attach_if_free_wm (en s)); apply Sub_refl| |done]. intros s1 H1. apply wp_bind.
  eapply wp_mono; [apply (attach_if_free_wm (en s)); exact H1| |done]. intros s2 H2 q. destruct (H2 q) as [Ha Hb].
  unfold get_inputs, get_outputs in *. simpl. rewrite values_of_ins. lia.
Qed.

(** within the limits everywhere *)
Definition fits (n : nat) (a : nat) : Prop := a = 0 \/ n <= a.
Definition Fits (w : world) : Prop := forall e x p it, w_envs w !! e = Some x -> w_heap w !! p = Some it ->
  fits (length (get_inputs x p)) (arity_in (it_kind it)) /\ fits (length (get_outputs x p)) (arity_out (it_kind it)).

Lemma no_links_free w e x p : WInv w -> w_envs w !! e = Some x -> w_heap w !! p = None -> get_inputs x p = [] /\ get_outputs x p = [].
Proof.
  intros HW Hx Hp. destruct (winv_parts _ _ _ HW Hx) as (I&_&_). unfold get_inputs, get_outputs.
  split.
  - destruct (values_of p (e_in x)) as [|l r] eqn:H; [done|]. assert (Hin : l ∈ values_of p (e_in x)) by (rewrite H; left).
    apply elem_of_values_of in Hin. apply (inv_in _ _ I) in Hin as [(i&Hi&_) _]. simpl in Hi. congruence.
  - destruct (values_of p (e_out x)) as [|l r] eqn:H; [done|]. assert (Hin : l ∈ values_of p (e_out x)) by (rewrite H; left).
    apply elem_of_values_of in Hin. apply (inv_out _ _ I) in Hin as [(i&Hi&_) _]. simpl in Hi. congruence.
Qed.
Lemma Fits_sub w w' : WInv w -> Fits w -> SubW w w' ->
  (forall q it it', w_heap w !! q = Some it -> w_heap w' !! q = Some it' -> it_kind it' = it_kind it) -> Fits w'.
Proof.
  intros HW HF HS Hk e x' p it' Hx' Hp'. destruct (HS e x' Hx') as [(x&Hx&Hsub)|Hn].
  - destruct (Hsub p) as [Ha Hb]. destruct (w_heap w !! p) as [it|] eqn:Hp.
    + rewrite (Hk _ _ _ Hp Hp'). destruct (HF _ _ _ _ Hx Hp) as [[?|?] [?|?]]; split; unfold fits; (left; done) || (right; lia).
    + destruct (no_links_free _ _ _ _ HW Hx Hp) as [H1 H2]. rewrite H1, H2 in *. simpl in *. split; right; lia.
  - destruct (Hn p) as [-> ->]. simpl. split; right; lia.
Qed.

(** An exception of an adding operation adds nothing. *)
Lemma on_env_post e f w (Q X : st -> Prop) : (forall x, w_envs w !! e = Some x -> wp True (f (St (w_heap w) x (w_tr w))) Q X) ->
  wp True (on_env e f w) (fun w' => exists s, w' = unfocus e w s /\ Q s) (fun w' => exists s, w' = unfocus e w s /\ X s).
Proof.
  intros H. unfold on_env, focus. destruct (w_envs w !! e) as [x|]; [|done]. specialize (H x eq_refl). destruct (f _); [simpl in *; eauto..|done|done].
Qed.
Lemma SubW_one w e x s : w_envs w !! e = Some x -> Sub x (en s) -> SubW w (unfocus e w s).
Proof.
  intros Hx Hs e' x'. simpl. destruct (decide (e = e')) as [<-|Hne].
  - rewrite lookup_insert. intros [= <-]. left. eauto.
  - rewrite lookup_insert_ne by done. intros H'. left. exists x'. split; [done|apply Sub_refl].
Qed.

Definition kinds_kept (w w' : world) : Prop :=
  forall q it it', w_heap w !! q = Some it -> w_heap w' !! q = Some it' -> it_kind it' = it_kind it.

Lemma op_add_input_fits o l w : WInv w -> Fits w ->
  wp True (op_add_input o l w) (fun w' => kinds_kept w w' -> Fits w') (fun w' => kinds_kept w w' -> Fits w').
Proof.
  intros HW HF. unfold op_add_input, wderef. destruct (w_heap w !! o) as [it|] eqn:Ho; [|done]. destruct (it_env it) as [e|] eqn:He; [|done].
  destruct (w_envs w !! e) as [x|] eqn:Hx; [|unfold on_env, focus; by rewrite Hx].
  eapply wp_mono; [apply (on_env_post _ _ _ (fun s => ~ (arity_in (it_kind it) <> 0 /\ arity_in (it_kind it) <= length (get_inputs x o)) /\ OneIn o x (en s)) (fun s => Sub x (en s)))|..].
  - intros y Hy. assert (y = x) as -> by congruence. case_decide as Hd; [apply Sub_refl|]. eapply wp_mono; [apply add_input_one|..]; auto.
  - intros w' (s&->&Hd&Hone) Hk e' x' p it' Hx' Hp'. simpl in Hx', Hp'. destruct (decide (e = e')) as [<-|Hne].
    + rewrite lookup_insert in Hx'. injection Hx' as <-. destruct (Hone p) as [Ha Hb]. destruct (w_heap w !! p) as [ip|] eqn:Hp.
      * rewrite (Hk _ _ _ Hp Hp'). destruct (HF _ _ _ _ Hx Hp) as [H1 H2]. case_decide as Hpo.
        -- subst p. assert (ip = it) as -> by congruence. split; [|destruct H2; unfold fits in *; lia].
           destruct (decide (arity_in (it_kind it) = 0)); [by left|]. right. lia.
        -- destruct H1, H2; unfold fits in *; lia.
      * destruct (no_links_free _ _ _ _ HW Hx Hp) as [H1 H2]. rewrite H1, H2 in *. rewrite decide_False in Ha by congruence. simpl in *. split; right; lia.
    + rewrite lookup_insert_ne in Hx' by done. destruct (w_heap w !! p) as [ip|] eqn:Hp.
      * rewrite (Hk _ _ _ Hp Hp'). by eapply HF.
      * destruct (no_links_free _ _ _ _ HW Hx' Hp) as [-> ->]. simpl. split; right; lia.
  - intros w' (s&->&Hs) Hk. eapply Fits_sub; [done|done|by eapply SubW_one|done].
Qed.
Lemma op_add_output_fits o l w : WInv w -> Fits w ->
  wp True (op_add_output o l w) (fun w' => kinds_kept w w' -> Fits w') (fun w' => kinds_kept w w' -> Fits w').
Proof.
  intros HW HF. unfold op_add_output, wderef. destruct (w_heap w !! o) as [it|] eqn:Ho; [|done]. destruct (it_env it) as [e|] eqn:He; [|done].
  destruct (w_envs w !! e) as [x|] eqn:Hx; [|unfold on_env, focus; by rewrite Hx].
  eapply wp_mono; [apply (on_env_post _ _ _ (fun s => ~ (arity_out (it_kind it) <> 0 /\ arity_out (it_kind it) <= length (get_outputs x o)) /\ OneOut o x (en s)) (fun s => Sub x (en s)))|..].
  - intros y Hy. assert (y = x) as -> by congruence. case_decide as Hd; [apply Sub_refl|]. eapply wp_mono; [apply add_output_one|..]; auto.
  - intros w' (s&->&Hd&Hone) Hk e' x' p it' Hx' Hp'. simpl in Hx', Hp'. destruct (decide (e = e')) as [<-|Hne].
    + rewrite lookup_insert in Hx'. injection Hx' as <-. destruct (Hone p) as [Ha Hb]. destruct (w_heap w !! p) as [ip|] eqn:Hp.
      * rewrite (Hk _ _ _ Hp Hp'). destruct (HF _ _ _ _ Hx Hp) as [H1 H2]. case_decide as Hpo.
        -- subst p. assert (ip = it) as -> by congruence. split; [destruct H1; unfold fits in *; lia|].
           destruct (decide (arity_out (it_kind it) = 0)); [by left|]. right. lia.
        -- destruct H1, H2; unfold fits in *; lia.
      * destruct (no_links_free _ _ _ _ HW Hx Hp) as [H1 H2]. rewrite H1, H2 in *. rewrite decide_False in Ha by congruence. simpl in *. split; right; lia.
    + rewrite lookup_insert_ne in Hx' by done. destruct (w_heap w !! p) as [ip|] eqn:Hp.
      * rewrite (Hk _ _ _ Hp Hp'). by eapply HF.
      * destruct (no_links_free _ _ _ _ HW Hx' Hp) as [-> ->]. simpl. split; right; lia.
  - intros w' (s&->&Hs) Hk. eapply Fits_sub; [done|done|by eapply SubW_one|done].
Qed.

(** ** C12 *)
(** the operator interface: everything except Environment::addInput and Environment::addOutput *)
Definition op_interface (o : op) : Prop := match o with OAddInput _ _ _ | OAddOutput _ _ _ => False | _ => True end.
Lemma Fits_step w o w' : WInv w -> legal w o -> op_interface o -> Fits w -> steps_to w o w' -> Fits w'.
Proof.
  intros HW HL HI HF Hs. pose proof (steps_eff _ _ _ HW HL Hs) as HE.
  assert (Hk : kinds_kept w w') by (intros ???; apply (ef_kind _ _ _ HE)).
  assert (Hgo : forall Q : world -> Prop, wp True (step w o) Q Q -> Q w').
  { intros Q HQ. destruct Hs as [Hs|Hs]; rewrite Hs in HQ; exact HQ. }
  destruct (adds_link o) eqn:Ha.
  2:{ eapply Fits_sub; [done|done| |exact Hk]. apply Hgo, step_sub, Ha. }
  assert (Ht : forall f p k (Q : world -> Prop), wp True k Q Q -> wp True (typed f p w k) Q Q).
  { intros f p k Q H. unfold typed, wderef. destruct (_ !! p); [|done]. by destruct (f _). }
  assert (HG : wp True (step w o) (fun w' => kinds_kept w w' -> Fits w') (fun w' => kinds_kept w w' -> Fits w')); [|by apply Hgo in HG; apply HG].
  destruct o; try done; cbn [step]; do 2 apply Ht.
  - by apply op_add_input_fits.
  - by apply op_add_output_fits.
  - unfold op_set_input, wderef. destruct (w_heap w !! o) as [it|] eqn:Ho; [|done]. destruct (it_env it) as [e|]; [|done]. apply wp_bind.
    destruct (on_env e (remove_inputs o) w) as [w1|w1| |] eqn:Hw1; [|by unfold on_env in Hw1; destruct (focus e w)|done|done]. simpl.
    assert (Hr : step w (ORemInputs e o) = Ok w1).
    { cbn [step]. unfold typed, wderef. rewrite Ho.
      destruct (is_op (it_kind it)) eqn:Hop; [done|]. exfalso. clear Hgo.
      destruct Hs as [Hs|Hs]; cbn [step] in Hs; unfold typed, wderef in Hs; rewrite Ho, Hop in Hs; done. }
    pose proof (steps_eff w (ORemInputs e o) w1 HW Logic.I (or_introl Hr)) as HE1.
    assert (Hh : w_heap w1 = w_heap w). { apply EnvProps2.on_env_ok in Hw1 as (x&s&_&Hsx&->). injection Hsx as <-. done. }
    eapply wp_mono; [apply (op_add_input_fits o l w1)|..].
    + apply HE1.
    + eapply Fits_sub; [done|done| |by apply (ef_kind _ _ _ HE1)].
      pose proof (step_sub w (ORemInputs e o) eq_refl) as HS. unfold wW in HS. by rewrite Hr in HS.
    + intros w2 H2 Hk2. apply H2. intros q a b Ha' Hb'. rewrite Hh in Ha'. by eapply Hk2.
    + intros w2 H2 Hk2. apply H2. intros q a b Ha' Hb'. rewrite Hh in Ha'. by eapply Hk2.
  - unfold op_set_output, wderef. destruct (w_heap w !! o) as [it|] eqn:Ho; [|done]. destruct (it_env it) as [e|]; [|done]. apply wp_bind.
    destruct (on_env e (remove_outputs o) w) as [w1|w1| |] eqn:Hw1; [|by unfold on_env in Hw1; destruct (focus e w)|done|done]. simpl.
    assert (Hr : step w (ORemOutputs e o) = Ok w1).
    { cbn [step]. unfold typed, wderef. rewrite Ho.
      destruct (is_op (it_kind it)) eqn:Hop; [done|]. exfalso. clear Hgo.
      destruct Hs as [Hs|Hs]; cbn [step] in Hs; unfold typed, wderef in Hs; rewrite Ho, Hop in Hs; done. }
    pose proof (steps_eff w (ORemOutputs e o) w1 HW Logic.I (or_introl Hr)) as HE1.
    assert (Hh : w_heap w1 = w_heap w). { apply EnvProps2.on_env_ok in Hw1 as (x&s&_&Hsx&->). injection Hsx as <-. done. }
    eapply wp_mono; [apply (op_add_output_fits o l w1)|..].
    + apply HE1.
    + eapply Fits_sub; [done|done| |by apply (ef_kind _ _ _ HE1)].
      pose proof (step_sub w (ORemOutputs e o) eq_refl) as HS. unfold wW in HS. by rewrite Hr in HS.
    + intros w2 H2 Hk2. apply H2. intros q a b Ha' Hb'. rewrite Hh in Ha'. by eapply Hk2.
    + intros w2 H2 Hk2. apply H2. intros q a b Ha' Hb'. rewrite Hh in Ha'. by eapply Hk2.
Qed.

(** as long as only the operator interface is used, no operator exceeds its declared arity (0: unlimited) *)
Theorem C12_arity os w e x p it :
  history world0 os w -> Forall op_interface os -> w_envs w !! e = Some x -> w_heap w !! p = Some it ->
  (arity_in (it_kind it) <> 0 -> length (get_inputs x p) <= arity_in (it_kind it)) /\
  (arity_out (it_kind it) <> 0 -> length (get_outputs x p) <= arity_out (it_kind it)).
Proof.
  intros HH HI Hx Hp. cut (Fits w).
  { intros HF. destruct (HF e x p it Hx Hp) as [[?|?] [?|?]]; split; try done; tauto. }
  assert (Hgen : forall w0 os w, history w0 os w -> WInv w0 -> Fits w0 -> Forall op_interface os -> Fits w).
  { clear. intros w0 os w HH. induction HH as [|w o w1 os w' HL Hs HH IH]; [done|]. intros HW HF HI. apply Forall_cons in HI as [HI1 HI2].
    apply IH; [by eapply steps_eff|by eapply Fits_step|done]. }
  eapply Hgen; [exact HH|apply WInv0| |exact HI]. intros e' x' p' it' Hx'. done.
Qed.
(** a rejected call changes nothing *)
Theorem C12_full_throws w e x o l it :
  reachable w -> w_envs w !! e = Some x -> w_heap w !! o = Some it -> it_env it = Some e -> is_op (it_kind it) = true ->
  (exists il, w_heap w !! l = Some il /\ is_layer (it_kind il) = true) ->
  (arity_in (it_kind it) <> 0 -> length (get_inputs x o) = arity_in (it_kind it) -> step w (OOpAddInput o l) = Throw w) /\
  (arity_out (it_kind it) <> 0 -> length (get_outputs x o) = arity_out (it_kind it) -> step w (OOpAddOutput o l) = Throw w).
Proof.
  intros HW Hx Ho He Hop (il&Hl&Hla).
  assert (Hid : unfocus e w (St (w_heap w) x (w_tr w)) = w). { unfold unfocus. simpl. rewrite insert_id by done. by destruct w. }
  split; intros H1 H2; cbn [step]; unfold typed, wderef; rewrite Ho, Hop, Hl, Hla; unfold op_add_input, op_add_output, wderef; rewrite Ho, He;
    unfold on_env, focus; rewrite Hx; cbn [en]; rewrite decide_True by lia; by rewrite Hid.
Qed.
Example C12_nonvacuous : Forall op_interface demo_ops /\ history world0 demo_ops demo_world /\
  (exists w', step demo_world (OOpAddInput 15 14) = Throw w' /\ True) /\
  (exists it, w_heap demo_world !! 15%positive = Some it /\ arity_in (it_kind it) = 1) /\ get_inputs (demo_env 1) 15 = [13%positive].
Proof.
  split; [repeat constructor|]. split; [apply demo_history|].
  split; [eapply throw_step; vmtrue|]. split; [vmdec|vmtrue].
Qed.
(** Environment::addInput does not check the arity (as documented: "through the Operator interface") *)
Theorem C12_environment_interface_refuted : exists w, reachable w /\
  (exists it, w_heap w !! 15%positive = Some it /\ arity_in (it_kind it) = 1) /\
  exists x, w_envs w !! 1%positive = Some x /\ length (get_inputs x 15) = 2.
Proof. exists (demo_plus [OAddInput 1 15 14]). split; [apply demo_plus_reachable|]. split; vmdec. Qed.
