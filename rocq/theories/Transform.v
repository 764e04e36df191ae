(** Relative transforms between frame nodes (C24): Environment.cpp:744-790, FrameNode.cpp:57-93, Core.hpp:140-178.

    Simplifications: transforms are affine maps with rational coefficients (exact arithmetic instead of [double]); the variant with uncertainty is not
    modelled. The content of an item is an integer in [EnvModel]; [tf] says which transform it stands for, and all theorems hold for every [tf]. *)
From stdpp Require Import prelude strings gmap relations.
From Coq Require Import QArith Qcanon Field.
From Verif Require Import Base AssocLemmas EnvModel EnvSpec EnvLib EnvGood EnvWorld EnvStep EnvStep2 EnvStep3 EnvDemo EnvProps EnvProps2.

(** ** Affine maps of the three dimensional space ([Eigen::Affine3d]) *)
Record aff := Aff { a11 : Qc; a12 : Qc; a13 : Qc; a21 : Qc; a22 : Qc; a23 : Qc; a31 : Qc; a32 : Qc; a33 : Qc; t1 : Qc; t2 : Qc; t3 : Qc }.
Record vec := Vec { vx : Qc; vy : Qc; vz : Qc }.
Local Open Scope Qc_scope.
Definition aone : aff := Aff 1 0 0 0 1 0 0 0 1 0 0 0.
(** [a * v] *)
Definition aapp (a : aff) (v : vec) : vec :=
  Vec (a11 a * vx v + a12 a * vy v + a13 a * vz v + t1 a)
      (a21 a * vx v + a22 a * vy v + a23 a * vz v + t2 a)
      (a31 a * vx v + a32 a * vy v + a33 a * vz v + t3 a).
(** [a * b] *)
Definition amul (a b : aff) : aff :=
  Aff (a11 a * a11 b + a12 a * a21 b + a13 a * a31 b) (a11 a * a12 b + a12 a * a22 b + a13 a * a32 b) (a11 a * a13 b + a12 a * a23 b + a13 a * a33 b)
      (a21 a * a11 b + a22 a * a21 b + a23 a * a31 b) (a21 a * a12 b + a22 a * a22 b + a23 a * a32 b) (a21 a * a13 b + a22 a * a23 b + a23 a * a33 b)
      (a31 a * a11 b + a32 a * a21 b + a33 a * a31 b) (a31 a * a12 b + a32 a * a22 b + a33 a * a32 b) (a31 a * a13 b + a32 a * a23 b + a33 a * a33 b)
      (a11 a * t1 b + a12 a * t2 b + a13 a * t3 b + t1 a) (a21 a * t1 b + a22 a * t2 b + a23 a * t3 b + t2 a) (a31 a * t1 b + a32 a * t2 b + a33 a * t3 b + t3 a).
Definition adet (a : aff) : Qc :=
  a11 a * (a22 a * a33 a - a23 a * a32 a) - a12 a * (a21 a * a33 a - a23 a * a31 a) + a13 a * (a21 a * a32 a - a22 a * a31 a).
(** [a.inverse()]; meaningful if the determinant is not zero *)
Definition ainv (a : aff) : aff :=
  let d := adet a in
  let b11 := (a22 a * a33 a - a23 a * a32 a) / d in let b12 := (a13 a * a32 a - a12 a * a33 a) / d in let b13 := (a12 a * a23 a - a13 a * a22 a) / d in
  let b21 := (a23 a * a31 a - a21 a * a33 a) / d in let b22 := (a11 a * a33 a - a13 a * a31 a) / d in let b23 := (a13 a * a21 a - a11 a * a23 a) / d in
  let b31 := (a21 a * a32 a - a22 a * a31 a) / d in let b32 := (a12 a * a31 a - a11 a * a32 a) / d in let b33 := (a11 a * a22 a - a12 a * a21 a) / d in
  Aff b11 b12 b13 b21 b22 b23 b31 b32 b33
    (- (b11 * t1 a + b12 * t2 a + b13 * t3 a)) (- (b21 * t1 a + b22 * t2 a + b23 * t3 a)) (- (b31 * t1 a + b32 * t2 a + b33 * t3 a)).

Lemma amul_assoc a b c : amul a (amul b c) = amul (amul a b) c.
Proof. destruct a, b, c. unfold amul. cbn. f_equal; ring. Qed.
Lemma amul_1_l a : amul aone a = a.
Proof. destruct a. unfold amul. cbn. f_equal; ring. Qed.
Lemma amul_1_r a : amul a aone = a.
Proof. destruct a. unfold amul. cbn. f_equal; ring. Qed.
Lemma ainv_l a : adet a <> 0 -> amul (ainv a) a = aone.
Proof. destruct a. unfold amul, ainv, adet, aone. cbn. intros H. f_equal; field; exact H. Qed.
Lemma ainv_r a : adet a <> 0 -> amul a (ainv a) = aone.
Proof. destruct a. unfold amul, ainv, adet, aone. cbn. intros H. f_equal; field; exact H. Qed.
Lemma adet_mul a b : adet (amul a b) = adet a * adet b.
Proof. destruct a, b. unfold amul, adet. cbn. ring. Qed.
Lemma adet_1 : adet aone = 1.
Proof. unfold adet, aone. cbn. ring. Qed.
Lemma aapp_mul a b v : aapp (amul a b) v = aapp a (aapp b v).
Proof. destruct a, b, v. unfold amul, aapp. cbn. f_equal; ring. Qed.
Lemma aapp_1 v : aapp aone v = v.
Proof. destruct v. unfold aapp. cbn. f_equal; ring. Qed.
Lemma adet_mul_ne a b : adet a <> 0 -> adet b <> 0 -> adet (amul a b) <> 0.
Proof. intros Ha Hb. rewrite adet_mul. intros H. apply Qcmult_integral in H as [?|?]; done. Qed.
Lemma ainv_unique a b : adet a <> 0 -> amul a b = aone -> b = ainv a.
Proof. intros Ha H. rewrite <-(amul_1_l b), <-(ainv_l a Ha), <-amul_assoc, H. apply amul_1_r. Qed.
Lemma ainv_det a : adet a <> 0 -> adet (ainv a) <> 0.
Proof. intros Ha H. assert (adet (amul (ainv a) a) = 0) as H2 by (rewrite adet_mul, H; ring). rewrite ainv_l, adet_1 in H2 by done. discriminate H2. Qed.
Lemma ainv_mul a b : adet a <> 0 -> adet b <> 0 -> ainv (amul (ainv a) b) = amul (ainv b) a.
Proof.
  intros Ha Hb. symmetry. apply ainv_unique; [by apply adet_mul_ne; [apply ainv_det|]|].
  rewrite <-amul_assoc, (amul_assoc b), ainv_r, amul_1_l, ainv_l by done. done.
Qed.

(** ** Model *)
Section model.
  Context (tf : Z -> aff).

  (** FrameNode.cpp:75-83, [getTransform]; undefined behaviour for a dangling pointer *)
  Definition frame_tf (w : world) (p : ptr) : out unit aff :=
    match w_heap w !! p with Some it => Ok (tf (it_val it)) | None => Bad UB end.
  (** FrameNode.cpp:57-60 and 80-83, [getParent] ([isRoot] is its negation): goes through the [env] member, which is null for an unattached node *)
  Definition frame_parent (w : world) (p : ptr) : out unit (option ptr) :=
    match w_heap w !! p with
    | None => Bad UB
    | Some it => match it_env it with
                 | None => Bad UB
                 | Some e => match w_envs w !! e with None => Bad UB | Some x => Ok (get_parent x p) end
                 end
    end.
  (** Environment.cpp:750-762, [relativeFrameNodeRoot]; the fuel bounds the number of loop iterations *)
  Fixpoint rel_root (fuel : nat) (w : world) (t : ptr) (c : aff) : out unit (aff * ptr) :=
    match fuel with
    | O => NoFuel
    | S f =>
      q <~ frame_parent w t ;;
      match q with
      | None => Ok (c, t)
      | Some q => a <~ frame_tf w t ;; rel_root f w q (amul a c)
      end
    end.
  (** Environment.cpp:764-777, [relativeTransform] *)
  Definition relative_transform (fuel : nat) (w : world) (from to : ptr) : out unit aff :=
    if decide (from = to) then Ok aone
    else
      fg <~ rel_root fuel w from aone ;;
      tg <~ rel_root fuel w to aone ;;
      if decide (snd fg = snd tg) then Ok (amul (ainv (fst tg)) (fst fg)) else Throw tt.
  (** Layer.cpp:188-192 and Environment.cpp:590-596, [CartesianMap::getFrameNode]: the null pointer for a map without frame *)
  Definition map_frame (w : world) (m : ptr) : out unit (option ptr) :=
    match w_heap w !! m with
    | None => Bad UB
    | Some it => match it_env it with
                 | None => Bad Abort
                 | Some e => match w_envs w !! e with None => Bad UB | Some x => Ok (get_frame x m) end
                 end
    end.
  (** Core.hpp:156-159 and 174-177, [toMap] and [fromMap] with a frame *)
  Definition to_map (fuel : nat) (w : world) (m : ptr) (v : vec) (frame : ptr) : out unit vec :=
    f <~ map_frame w m ;;
    match f with None => Bad UB | Some f => a <~ relative_transform fuel w frame f ;; Ok (aapp a v) end.
  Definition from_map (fuel : nat) (w : world) (m : ptr) (v : vec) (frame : ptr) : out unit vec :=
    f <~ map_frame w m ;;
    match f with None => Bad UB | Some f => a <~ relative_transform fuel w f frame ;; Ok (aapp a v) end.

  (** ** Specification *)
  (** [placed w p A r]: [r] is the topmost frame above [p], and [A] the product of the transforms on the way, which maps coordinates in [p] to
      coordinates in [r]. The parents are those recorded by the environment that owns the frame. *)
  Inductive placed (w : world) : ptr -> aff -> ptr -> Prop :=
  | placed_top p it e x : w_heap w !! p = Some it -> it_env it = Some e -> w_envs w !! e = Some x ->
      (forall q, (p, q) ∉ e_tree x) -> placed w p aone p
  | placed_up p q r it e x A : w_heap w !! p = Some it -> it_env it = Some e -> w_envs w !! e = Some x ->
      (p, q) ∈ e_tree x -> placed w q A r -> placed w p (amul A (tf (it_val it))) r.
  (** all transforms can be inverted *)
  Definition invertible : Prop := forall v, adet (tf v) <> 0.
  (** the outcome for every sufficiently large bound on the loops *)
  Definition yields {A} (f : nat -> out unit A) (o : out unit A) : Prop := exists n, forall fuel, (n <= fuel)%nat -> f fuel = o.

  (** ** Proof *)
  Lemma placed_det w p A r : invertible -> placed w p A r -> adet A <> 0.
  Proof using. intros HI. induction 1 as [|p q r it e x A Hp He Hx Hin HP IH]; [by rewrite adet_1|]. by apply adet_mul_ne. Qed.
  Lemma placed_fun w p A r : reachable w -> placed w p A r -> forall A' r', placed w p A' r' -> A = A' /\ r = r'.
  Proof using.
    intros HW. induction 1 as [p it e x Hp He Hx Hno|p q r it e x A Hp He Hx Hin HP IH]; intros A' r'.
    - inversion 1 as [|? q ? it' e' x' ? Hp' He' Hx' Hin' HP' ]; subst; [done|]. assert (it' = it) as -> by congruence. assert (e' = e) as -> by congruence.
      assert (x' = x) as -> by congruence. by apply Hno in Hin'.
    - inversion 1 as [? it' e' x' Hp' He' Hx' Hno'|? q' ? it' e' x' A2 Hp' He' Hx' Hin' HP']; subst.
      + assert (it' = it) as -> by congruence. assert (e' = e) as -> by congruence. assert (x' = x) as -> by congruence. by apply Hno' in Hin.
      + assert (it' = it) as -> by congruence. assert (e' = e) as -> by congruence. assert (x' = x) as -> by congruence.
        destruct (reach_parts _ _ _ HW Hx) as (HI&_). assert (q' = q) as ->.
        { pose proof (inv_tree_nodup _ _ HI) as HN. cbn in HN. apply assoc_nodup in Hin; [|done]. apply assoc_nodup in Hin'; [|done]. congruence. }
        destruct (IH _ _ HP') as [-> ->]. done.
  Qed.
  Lemma rel_root_climb w e x : reachable w -> w_envs w !! e = Some x -> forall n p r, has is_frame e (w_heap w) p -> climb n x p = Some r ->
    exists A, placed w p A r /\ has is_frame e (w_heap w) r /\ forall fuel c, (n <= fuel)%nat -> rel_root fuel w p c = Ok (amul A c, r).
  Proof using.
    intros HW Hx. destruct (reach_parts _ _ _ HW Hx) as (HI&_). induction n as [|n IH]; intros p r Hp Hr; [done|]. cbn [climb] in Hr.
    pose proof Hp as (it&Hit&He&_). destruct (get_parent x p) as [q|] eqn:Hq.
    - pose proof (assoc_in _ _ _ Hq) as Hin. destruct (inv_tree _ _ HI p q Hin) as (_&Hqf&_). destruct (IH q r Hqf Hr) as (A&HP&Hrf&Hrun).
      exists (amul A (tf (it_val it))). split; [by eapply placed_up|]. split; [done|]. intros [|fuel] c Hf; [lia|]. cbn [rel_root]. unfold frame_parent, frame_tf. rewrite Hit, He, Hx, Hq. cbn [obind].
      rewrite Hrun by lia. by rewrite amul_assoc.
    - injection Hr as <-. exists aone. split.
      + eapply placed_top; [done..|]. intros q Hin. apply assoc_nodup in Hin; [|apply HI]. unfold get_parent in Hq. cbn in Hin. congruence.
      + split; [done|]. intros [|fuel] c Hf; [lia|]. cbn [rel_root]. unfold frame_parent. rewrite Hit, He, Hx, Hq. cbn [obind]. by rewrite amul_1_l.
  Qed.
  Lemma rel_root_ok w e p : reachable w -> has is_frame e (w_heap w) p ->
    exists A r n, placed w p A r /\ has is_frame e (w_heap w) r /\ forall fuel c, (n <= fuel)%nat -> rel_root fuel w p c = Ok (amul A c, r).
  Proof using.
    intros HW Hp. pose proof Hp as (it&Hit&He&_). destruct (winv_owner _ (reachable_inv _ HW) p it e Hit He) as [x Hx].
    destruct (reach_parts _ _ _ HW Hx) as (_&_&HA). destruct (climb_total x p HA) as [r Hr].
    destruct (rel_root_climb w e x HW Hx _ p r Hp Hr) as (A&HP&Hrf&Hrun). by eexists A, r, _.
  Qed.
  Lemma relative_ok w e e' p q : reachable w -> has is_frame e (w_heap w) p -> has is_frame e' (w_heap w) q -> p <> q ->
    exists A B r r', placed w p A r /\ placed w q B r' /\ yields (fun fuel => relative_transform fuel w p q) (if decide (r = r') then Ok (amul (ainv B) A) else Throw tt).
  Proof using.
    intros HW Hp Hq Hne. destruct (rel_root_ok w e p HW Hp) as (A&r&n&HP&_&Hrun). destruct (rel_root_ok w e' q HW Hq) as (B&r'&n'&HQ&_&Hrun').
    exists A, B, r, r'. split; [done|]. split; [done|]. exists (n + n')%nat. intros fuel Hf. unfold relative_transform. rewrite decide_False by done.
    rewrite Hrun by lia. cbn [obind]. rewrite Hrun' by lia. cbn [obind fst snd]. by rewrite !amul_1_r.
  Qed.

  (** ** C24 *)
  (** every frame of an environment has a place below exactly one topmost frame *)
  Theorem C24_placed w e p : reachable w -> has is_frame e (w_heap w) p -> exists A r, placed w p A r /\ forall A' r', placed w p A' r' -> A' = A /\ r' = r.
  Proof using.
    intros HW Hp. destruct (rel_root_ok w e p HW Hp) as (A&r&_&HP&_). exists A, r. split; [done|]. intros A' r' HP'. destruct (placed_fun _ _ _ _ HW HP _ _ HP') as [-> ->]. done.
  Qed.
  (** The call always returns or throws; it returns exactly for frames below the same topmost frame. What it returns maps the coordinates of every point in
      [from] to its coordinates in [to]: both describe the same point in the topmost frame. *)
  Theorem C24_relative w e e' from to A B r r' : reachable w -> invertible -> has is_frame e (w_heap w) from -> has is_frame e' (w_heap w) to ->
    placed w from A r -> placed w to B r' ->
    (r = r' -> exists T, yields (fun fuel => relative_transform fuel w from to) (Ok T) /\ adet T <> 0 /\ forall v, aapp B (aapp T v) = aapp A v) /\
    (r <> r' -> yields (fun fuel => relative_transform fuel w from to) (Throw tt)).
  Proof using.
    intros HW HI Hf Ht HA HB. destruct (decide (from = to)) as [->|Hne].
    - destruct (placed_fun _ _ _ _ HW HA _ _ HB) as [-> ->]. split; [|done]. intros _. exists aone. split; [exists O; intros; unfold relative_transform; by rewrite decide_True|].
      split; [by rewrite adet_1|]. intros v. by rewrite aapp_1.
    - destruct (relative_ok w e e' from to HW Hf Ht Hne) as (A'&B'&s&s'&HA'&HB'&HY). destruct (placed_fun _ _ _ _ HW HA _ _ HA') as [-> ->].
      destruct (placed_fun _ _ _ _ HW HB _ _ HB') as [-> ->]. pose proof (placed_det _ _ _ _ HI HA). pose proof (placed_det _ _ _ _ HI HB). split.
      + intros ->. rewrite decide_True in HY by done. eexists. split; [exact HY|]. split; [by apply adet_mul_ne; [apply ainv_det|]|].
        intros v. by rewrite <-aapp_mul, amul_assoc, ainv_r, amul_1_l.
      + intros Hr. by rewrite decide_False in HY by done.
  Qed.
  (** [relativeTransform(f, f)] is the identity. *)
  Theorem C24_self w f : yields (fun fuel => relative_transform fuel w f f) (Ok aone).
  Proof using. exists O. intros. unfold relative_transform. by rewrite decide_True. Qed.
  (** [relativeTransform(child, parent)] is the transform of the child. *)
  Theorem C24_parent w e x c p it : reachable w -> invertible -> w_envs w !! e = Some x -> (c, p) ∈ e_tree x -> w_heap w !! c = Some it ->
    yields (fun fuel => relative_transform fuel w c p) (Ok (tf (it_val it))).
  Proof using.
    intros HW HI Hx Hin Hit. destruct (reach_parts _ _ _ HW Hx) as (I&_&HAc). destruct (inv_tree _ _ I c p Hin) as (Hc&Hp&Hne). cbn [hp] in *.
    destruct (relative_ok w e e c p HW Hc Hp Hne) as (A&B&r&r'&HA&HB&HY). pose proof (placed_det _ _ _ _ HI HB) as HdB.
    pose proof Hc as (it'&Hit'&He&_). assert (it' = it) as -> by congruence. assert (HA' : placed w c (amul B (tf (it_val it))) r') by (by eapply placed_up).
    destruct (placed_fun _ _ _ _ HW HA _ _ HA') as [-> ->]. rewrite decide_True in HY by done. by rewrite amul_assoc, ainv_l, amul_1_l in HY by done.
  Qed.
  (** [relativeTransform(b, c) * relativeTransform(a, b) = relativeTransform(a, c)] *)
  Theorem C24_compose w e1 e2 e3 a b c T1 T2 : reachable w -> invertible -> has is_frame e1 (w_heap w) a -> has is_frame e2 (w_heap w) b -> has is_frame e3 (w_heap w) c ->
    yields (fun fuel => relative_transform fuel w a b) (Ok T1) -> yields (fun fuel => relative_transform fuel w b c) (Ok T2) ->
    yields (fun fuel => relative_transform fuel w a c) (Ok (amul T2 T1)).
  Proof using.
    intros HW HI Ha Hb Hc [n1 H1] [n2 H2].
    assert (Hval : forall e e' p q T n, has is_frame e (w_heap w) p -> has is_frame e' (w_heap w) q -> (forall fuel, (n <= fuel)%nat -> relative_transform fuel w p q = Ok T) ->
      exists A B r, placed w p A r /\ placed w q B r /\ T = amul (ainv B) A).
    { clear - HW HI. intros e e' p q T n Hp Hq H. destruct (decide (p = q)) as [->|Hne].
      - destruct (rel_root_ok w e q HW Hp) as (A&r&_&HA&_). exists A, A, r. split; [done|]. split; [done|]. rewrite ainv_l by (by eapply placed_det).
        specialize (H n ltac:(lia)). unfold relative_transform in H. rewrite decide_True in H by done. congruence.
      - destruct (relative_ok w e e' p q HW Hp Hq Hne) as (A&B&r&r'&HA&HB&[n' HY]). specialize (H (n + n')%nat ltac:(lia)). rewrite HY in H by lia.
        destruct (decide (r = r')) as [->|]; [|done]. injection H as <-. by exists A, B, r'. }
    destruct (Hval _ _ _ _ _ _ Ha Hb H1) as (A&B&r&HA&HB&->). destruct (Hval _ _ _ _ _ _ Hb Hc H2) as (B'&C&r'&HB'&HC&->).
    destruct (placed_fun _ _ _ _ HW HB _ _ HB') as [<- <-]. pose proof (placed_det _ _ _ _ HI HB).
    replace (amul (amul (ainv C) B) (amul (ainv B) A)) with (amul (ainv C) A) by (by rewrite <-amul_assoc, (amul_assoc B), ainv_r, amul_1_l).
    destruct (decide (a = c)) as [->|Hne].
    - destruct (placed_fun _ _ _ _ HW HA _ _ HC) as [<- _]. rewrite ainv_l by (by eapply placed_det). apply C24_self.
    - destruct (relative_ok w _ _ a c HW Ha Hc Hne) as (A2&C2&s&s'&HA2&HC2&HY). destruct (placed_fun _ _ _ _ HW HA _ _ HA2) as [<- <-].
      destruct (placed_fun _ _ _ _ HW HC _ _ HC2) as [<- <-]. by rewrite decide_True in HY by done.
  Qed.
  (** [relativeTransform(b, a)] is the inverse of [relativeTransform(a, b)]. *)
  Theorem C24_inverse w e1 e2 a b T : reachable w -> invertible -> has is_frame e1 (w_heap w) a -> has is_frame e2 (w_heap w) b ->
    yields (fun fuel => relative_transform fuel w a b) (Ok T) ->
    exists T', yields (fun fuel => relative_transform fuel w b a) (Ok T') /\ amul T' T = aone /\ amul T T' = aone.
  Proof using.
    intros HW HI Ha Hb HT. destruct (decide (a = b)) as [->|Hne].
    - exists aone. split; [apply C24_self|]. destruct HT as [n HT]. specialize (HT n ltac:(lia)). unfold relative_transform in HT. rewrite decide_True in HT by done. injection HT as <-. by rewrite amul_1_l.
    - destruct (relative_ok w _ _ a b HW Ha Hb Hne) as (A&B&r&r'&HA&HB&[n HY]). destruct HT as [n' HT]. specialize (HT (n + n')%nat ltac:(lia)). rewrite HY in HT by lia.
      destruct (decide (r = r')) as [->|]; [|done]. injection HT as <-. destruct (relative_ok w _ _ b a HW Hb Ha ltac:(done)) as (B2&A2&s&s'&HB2&HA2&HY2).
      destruct (placed_fun _ _ _ _ HW HA _ _ HA2) as [<- <-]. destruct (placed_fun _ _ _ _ HW HB _ _ HB2) as [<- <-]. rewrite decide_True in HY2 by done.
      pose proof (placed_det _ _ _ _ HI HA). pose proof (placed_det _ _ _ _ HI HB). exists (amul (ainv A) B). split; [done|].
      split; [rewrite <-amul_assoc, (amul_assoc B), ainv_r, amul_1_l, ainv_l by done; done|rewrite <-amul_assoc, (amul_assoc A), ainv_r, amul_1_l, ainv_l by done; done].
  Qed.
  (** [toMap] and [fromMap] are inverse to each other. *)
  Theorem C24_map_round_trip w e x m f e' g v : reachable w -> invertible -> w_envs w !! e = Some x -> (m, f) ∈ e_maps x -> has is_frame e' (w_heap w) g ->
    (exists A B r, placed w f A r /\ placed w g B r) ->
    exists u, yields (fun fuel => from_map fuel w m v g) (Ok u) /\ yields (fun fuel => to_map fuel w m u g) (Ok v).
  Proof using.
    intros HW HI Hx Hin Hg (A&B&r&HA&HB). destruct (reach_parts _ _ _ HW Hx) as (I&_). destruct (inv_maps _ _ I m f Hin) as (Hm&Hf). cbn [hp] in *.
    destruct (C24_relative w e e' f g A B r r HW HI Hf Hg HA HB) as [Hok _]. destruct (Hok eq_refl) as (T&HT&_).
    destruct (C24_inverse w e e' f g T HW HI Hf Hg HT) as (T'&HT'&Hinv&_). pose proof Hm as (it&Hit&He&_).
    assert (Hmf : map_frame w m = Ok (Some f)).
    { unfold map_frame. rewrite Hit, He, Hx. f_equal. unfold get_frame. apply assoc_nodup; [apply I|done]. }
    exists (aapp T v). split.
    - destruct HT as [n HT]. exists n. intros fuel Hfu. unfold from_map. rewrite Hmf. cbn [obind]. by rewrite HT.
    - destruct HT' as [n HT']. exists n. intros fuel Hfu. unfold to_map. rewrite Hmf. cbn [obind]. rewrite HT' by done. cbn [obind]. by rewrite <-aapp_mul, Hinv, aapp_1.
  Qed.
End model.

(** In the demo history: frame 12 (content 60) below 11 (content 5) below the root 10; translation by the content along x. *)
Definition demo_tf (v : Z) : aff := Aff 1 0 0 0 1 0 0 0 1 (Q2Qc (inject_Z v)) 0 0.
Example C24_nonvacuous : invertible demo_tf /\ reachable demo_world /\ has is_frame 1 (w_heap demo_world) 12 /\ has is_frame 1 (w_heap demo_world) 10 /\
  match relative_transform demo_tf 9 demo_world 12 10 with Ok a => t1 a = Q2Qc (inject_Z 65) | _ => False end /\
  relative_transform demo_tf 9 demo_world 21 10 = Throw tt /\
  match from_map demo_tf 9 demo_world 13 (Vec 1 0 0) 10 with Ok v => vx v = Q2Qc (inject_Z 66) | _ => False end.
Proof.
  split; [intros v; unfold demo_tf, adet; cbn; intros H; discriminate H|]. split; [apply demo_reachable|]. split; [vmdec|]. split; [vmdec|].
  split; [|split; [vmtrue|]].
  - assert (match relative_transform demo_tf 9 demo_world 12 10 with Ok a => Qeq_bool (t1 a) (inject_Z 65) | _ => false end = true) as H by vmtrue.
    destruct (relative_transform demo_tf 9 demo_world 12 10) as [a| | |]; [|discriminate H..]. apply Qc_is_canon. by apply Qeq_bool_eq.
  - assert (match from_map demo_tf 9 demo_world 13 (Vec 1 0 0) 10 with Ok v => Qeq_bool (vx v) (inject_Z 66) | _ => false end = true) as H by vmtrue.
    destruct (from_map demo_tf 9 demo_world 13 (Vec 1 0 0) 10) as [a| | |]; [|discriminate H..]. apply Qc_is_canon. by apply Qeq_bool_eq.
Qed.
