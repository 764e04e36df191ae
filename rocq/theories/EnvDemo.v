(** A decision procedure for the contract, used to show that concrete histories are reachable. *)
From stdpp Require Import prelude strings gmap pretty relations.
From Verif Require Import Base AssocLemmas EnvModel EnvSpec.

Definition in_envb (w : world) (e : eid) (p : ptr) : bool :=
  match w_heap w !! p with Some it => bool_decide (it_env it = Some e) | None => false end.
Definition unattachedb (w : world) (p : ptr) : bool :=
  match w_heap w !! p with Some it => bool_decide (it_env it = None) | None => false end.
Definition is_rootb (w : world) (p : ptr) : bool :=
  existsb (fun ex => bool_decide (e_root ex.2 = p)) (map_to_list (w_envs w)).
Definition freeb w e p := in_envb w e p || unattachedb w p.

(** the ancestors of [a], if [n] rounds are enough *)
Fixpoint closure (n : nat) (x : env) (l : list ptr) : list ptr :=
  match n with O => l | S n => closure n x (l ++ (l ≫= (fun c => values_of c (e_tree x)))) end.
Definition no_pathb (x : env) (a b : ptr) : bool :=
  let l := closure (length (e_tree x)) x [a] in
  bool_decide (a ∈ l) && bool_decide (b ∉ l) && forallb (fun cp => bool_decide (cp.1 ∈ l -> cp.2 ∈ l)) (e_tree x).

Definition legalb (w : world) (o : op) : bool :=
  match o with
  | OAttach e p => in_envb w e p || negb (is_rootb w p)
  | OAttachMap e m (Some n) => freeb w e n
  | ODetach e p _ _ => in_envb w e p && negb (is_rootb w p)
  | OAddChildF e a b => in_envb w e a && freeb w e b && negb (is_rootb w b) &&
                        match w_envs w !! e with Some x => no_pathb x a b | None => true end
  | OAddChildL e a b => in_envb w e a && freeb w e b
  | ORemChildL e a b => in_envb w e a && in_envb w e b
  | OSetFrame e m n => freeb w e m && freeb w e n
  | OAddInput e o l | OAddOutput e o l => freeb w e o && freeb w e l
  | OModified e p => in_envb w e p
  | OOpAddInput o l | OOpAddOutput o l | OOpSetInput o l | OOpSetOutput o l =>
    match w_heap w !! o with
    | Some it => match it_env it with Some e => freeb w e l | None => false end
    | None => false end
  | _ => true
  end.

Fixpoint run_legal (w : world) (os : list op) : option world :=
  match os with
  | [] => Some w
  | o :: r => if legalb w o then match step w o with Ok w' | Throw w' => run_legal w' r | _ => None end else None
  end.

Lemma in_envb_ok w e p : in_envb w e p = true -> in_env w e p.
Proof. unfold in_envb, in_env. destruct (w_heap w !! p); [|done]. intros ?%bool_decide_eq_true. eauto. Qed.
Lemma unattachedb_ok w p : unattachedb w p = true -> unattached w p.
Proof. unfold unattachedb, unattached. destruct (w_heap w !! p); [|done]. intros ?%bool_decide_eq_true. eauto. Qed.
Lemma freeb_ok w e p : freeb w e p = true -> in_env w e p \/ unattached w p.
Proof. unfold freeb. intros [?|?]%orb_true_iff; eauto using in_envb_ok, unattachedb_ok. Qed.
Lemma is_rootb_ok w p : negb (is_rootb w p) = true -> ~ is_root w p.
Proof.
  intros H%negb_true_iff (e&x&Hx&Hr). assert (is_rootb w p = true); [|congruence]. apply existsb_exists.
  exists (e, x). split; [|by apply bool_decide_eq_true]. apply elem_of_list_In, elem_of_map_to_list, Hx.
Qed.
Lemma no_pathb_ok x a b : no_pathb x a b = true -> ~ rtc (parent_of x) a b.
Proof.
  unfold no_pathb. generalize (closure (length (e_tree x)) x [a]). intros l H Hp.
  apply andb_true_iff in H as [[Ha%bool_decide_eq_true Hb%bool_decide_eq_true]%andb_true_iff Hc].
  assert (forall c d, rtc (parent_of x) c d -> c ∈ l -> d ∈ l) as Hcl; [|by apply Hb, (Hcl a b)].
  clear -Hc. intros c d Hr. induction Hr as [|c d e Hcd _ IH]; [done|]. intros Hin. apply IH.
  rewrite forallb_forall in Hc. specialize (Hc (c, d)). unfold parent_of in Hcd. rewrite elem_of_list_In in Hcd.
  apply Hc, bool_decide_eq_true in Hcd. by apply Hcd.
Qed.
Lemma legalb_ok w o : legalb w o = true -> legal w o.
Proof.
  destruct o; simpl; try done; intros H;
    repeat match goal with H : _ && _ = true |- _ => apply andb_true_iff in H as [? ?] end;
    repeat split; eauto using in_envb_ok, freeb_ok, is_rootb_ok.
  - apply orb_true_iff in H as [?|?]; eauto using in_envb_ok, is_rootb_ok.
  - destruct n; [|done]. by apply freeb_ok.
  - intros x Hx. rewrite Hx in *. by apply no_pathb_ok.
  - destruct (w_heap w !! o) as [it|] eqn:Ho; [|done]. destruct (it_env it) as [e|] eqn:He; [|done].
    exists e. split; [by exists it|by apply freeb_ok].
  - destruct (w_heap w !! o) as [it|] eqn:Ho; [|done]. destruct (it_env it) as [e|] eqn:He; [|done].
    exists e. split; [by exists it|by apply freeb_ok].
  - destruct (w_heap w !! o) as [it|] eqn:Ho; [|done]. destruct (it_env it) as [e|] eqn:He; [|done].
    exists e. split; [by exists it|by apply freeb_ok].
  - destruct (w_heap w !! o) as [it|] eqn:Ho; [|done]. destruct (it_env it) as [e|] eqn:He; [|done].
    exists e. split; [by exists it|by apply freeb_ok].
Qed.
Lemma run_legal_ok os : forall w w', run_legal w os = Some w' -> history w os w'.
Proof.
  induction os as [|o os IH]; simpl; intros w w' H; [simplify_eq; constructor|].
  destruct (legalb w o) eqn:HL; [|done]. destruct (step w o) as [w1|w1| |] eqn:Hs; [..|done|done].
  - econstructor; [by apply legalb_ok|by left|by apply IH].
  - econstructor; [by apply legalb_ok|by right|by apply IH].
Qed.
Lemma run_legal_reachable os w : run_legal world0 os = Some w -> reachable w.
Proof. intros H. exists os. by apply run_legal_ok. Qed.

(** ** A history that uses most operations
    Environment 1 with root 10; frames 11 > 12 below the root; map 13 on frame 12; layer 14 below 13; operator 15
    from 13 to 14; environment 2 with root 20 and frame 21; the user holds 12, 13 and 21. *)
Definition demo_ops : list op :=
  [ ONewEnv 1 10; OAddHandler 1 100; ONew 11 KFrame "" 5; ONew 12 KFrame "a" 6; OHold 12;
    OAddChildF 1 10 11; OAddChildF 1 11 12; ONew 13 KMap "m/" 7; OHold 13; OSetFrame 1 13 12;
    ONew 14 KLayer "/x/l" 8; OAddChildL 1 13 14; ONew 15 (KOp 1 1) "" 0; OAttach 1 15; OOpAddInput 15 13; OOpAddOutput 15 14;
    ONewEnv 2 20; ONew 21 KFrame "/7" 9; OHold 21; OAddChildF 2 20 21; OSetVal 12 60 ].
Definition demo_world : world := match run_legal world0 demo_ops with Some w => w | None => world0 end.
Lemma demo_reachable : reachable demo_world.
Proof.
  apply (run_legal_reachable demo_ops). unfold demo_world.
  destruct (run_legal world0 demo_ops) eqn:H; [done|]. exfalso. revert H. vm_compute. discriminate.
Qed.
(** the environment at address [e] in the demo *)
Definition demo_env (e : eid) : env := match w_envs demo_world !! e with Some x => x | None => Env [] [] [] [] [] [] 1 "" 0 [] end.

(** ** Checking concrete cases *)
(** the demo history continued with [os]; if [os] breaks the contract this is the empty world *)
Definition demo_plus (os : list op) : world := match run_legal world0 (demo_ops ++ os) with Some w => w | None => world0 end.
Lemma demo_plus_reachable os : reachable (demo_plus os).
Proof.
  unfold demo_plus. destruct (run_legal world0 (demo_ops ++ os)) as [w|] eqn:Hw; [by eapply run_legal_reachable|].
  exists []. constructor.
Qed.
Global Instance in_env_dec w e p : Decision (in_env w e p).
Proof.
  unfold in_env. destruct (w_heap w !! p) as [it|]; [|right; naive_solver].
  destruct (decide (it_env it = Some e)); [left; eauto|right; naive_solver].
Defined.
Global Instance unattached_dec w p : Decision (unattached w p).
Proof.
  unfold unattached. destruct (w_heap w !! p) as [it|]; [|right; naive_solver].
  destruct (decide (it_env it = None)); [left; eauto|right; naive_solver].
Defined.
Lemma not_root_b w p : is_rootb w p = false -> ~ is_root w p.
Proof. intros H. apply is_rootb_ok. by rewrite H. Qed.
Global Instance at_env_dec w e (Q : env -> Prop) `{forall x, Decision (Q x)} : Decision (exists x, w_envs w !! e = Some x /\ Q x).
Proof.
  destruct (w_envs w !! e) as [x|]; [|right; naive_solver].
  destruct (decide (Q x)); [left; eauto|right; naive_solver].
Defined.
Global Instance at_item_dec w p (Q : item -> Prop) `{forall x, Decision (Q x)} : Decision (exists it, w_heap w !! p = Some it /\ Q it).
Proof.
  destruct (w_heap w !! p) as [x|]; [|right; naive_solver].
  destruct (decide (Q x)); [left; eauto|right; naive_solver].
Defined.
Definition is_gone (w : world) (p : ptr) : Prop := w_heap w !! p = None.
Global Instance is_gone_dec w p : Decision (is_gone w p).
Proof. unfold is_gone. destruct (w_heap w !! p); [right; done|by left]. Defined.

Lemma ok_step w o (P : world -> Prop) `{forall w, Decision (P w)} :
  match step w o with Ok w' => bool_decide (P w') | _ => false end = true -> exists w', step w o = Ok w' /\ P w'.
Proof. destruct (step w o); [|done..]. intros H1%bool_decide_eq_true. eauto. Qed.
Lemma throw_step w o (P : world -> Prop) `{forall w, Decision (P w)} :
  match step w o with Throw w' => bool_decide (P w') | _ => false end = true -> exists w', step w o = Throw w' /\ P w'.
Proof. destruct (step w o); [done| |done..]. intros H1%bool_decide_eq_true. eauto. Qed.
Lemma bad_step w o : match step w o with Bad UB => true | _ => false end = true -> step w o = Bad UB.
Proof. by destruct (step w o) as [| |[]|]. Qed.
Lemma ok_run os (P : world -> Prop) `{forall w, Decision (P w)} :
  match run_legal world0 os with Some w' => bool_decide (P w') | None => false end = true -> exists w', run_legal world0 os = Some w' /\ P w'.
Proof. destruct (run_legal world0 os); [|done]. intros H1%bool_decide_eq_true. eauto. Qed.
Ltac vmtrue := vm_compute; reflexivity.
Ltac vmdec := eapply bool_decide_eq_true; vm_compute; reflexivity.

Lemma demo_history : history world0 demo_ops demo_world.
Proof.
  unfold demo_world. destruct (run_legal world0 demo_ops) as [w|] eqn:Hw; [by apply run_legal_ok|]. exfalso.
  assert (H : match run_legal world0 demo_ops with Some _ => true | None => false end = true) by vmtrue. by rewrite Hw in H.
Qed.
Global Opaque demo_world demo_plus.
