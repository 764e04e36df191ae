(** Aligning point clouds (C96, C97, C99, C101): icp/icp.hpp, icp/icp.cpp, icp/ransac.hpp.

    Simplifications: [double] is modelled by the rational numbers (exact arithmetic); infinity is [None]. The kd-tree, the order in which [std::sort] leaves equal
    elements, the eigenvector solver and the random numbers are arguments of the model; the theorems say what they need of them. *)
From stdpp Require Import prelude sorting.
From Coq Require Import QArith Qcanon Qround Lqa Sorting.Permutation.
From Verif Require Import Base Transform.
Local Open Scope Qc_scope.

(** ** Model: pairs of points *)
(** icp.hpp:33-80: [x], [p] and the list of positions and distances *)
Record pairs := Pairs { p_x : list vec; p_p : list vec; p_l : list (nat * Qc) }.
(** icp.cpp:116-121 *)
Definition no_pairs : pairs := Pairs [] [] [].
(** icp.cpp:12-21 *)
Definition add (a b : vec) (d : Qc) (s : pairs) : pairs := Pairs (p_x s ++ [a]) (p_p s ++ [b]) (p_l s ++ [(length (p_l s), d)]).
(** icp.cpp:23-43; [None] is not a number *)
Definition trim (sort : list (nat * Qc) -> list (nat * Qc)) (n : nat) (s : pairs) : option Qc * pairs :=
  let l := take n (sort (p_l s)) in (snd <$> last l, Pairs (p_x s) (p_p s) l).

(** *** The transform that aligns the pairs (icp.cpp:45-104) *)
Definition vadd (a b : vec) : vec := Vec (vx a + vx b) (vy a + vy b) (vz a + vz b).
Definition vsub (a b : vec) : vec := Vec (vx a - vx b) (vy a - vy b) (vz a - vz b).
Definition vscale (k : Qc) (a : vec) : vec := Vec (k * vx a) (k * vy a) (k * vz a).
Definition vzero : vec := Vec 0 0 0.
Record mat := Mat { m00 : Qc; m01 : Qc; m02 : Qc; m10 : Qc; m11 : Qc; m12 : Qc; m20 : Qc; m21 : Qc; m22 : Qc }.
(** [a * b.transpose()] *)
Definition outer (a b : vec) : mat :=
  Mat (vx a * vx b) (vx a * vy b) (vx a * vz b) (vy a * vx b) (vy a * vy b) (vy a * vz b) (vz a * vx b) (vz a * vy b) (vz a * vz b).
Definition mmap2 (f : Qc -> Qc -> Qc) (a b : mat) : mat :=
  Mat (f (m00 a) (m00 b)) (f (m01 a) (m01 b)) (f (m02 a) (m02 b)) (f (m10 a) (m10 b)) (f (m11 a) (m11 b)) (f (m12 a) (m12 b))
      (f (m20 a) (m20 b)) (f (m21 a) (m21 b)) (f (m22 a) (m22 b)).
Definition mzero : mat := Mat 0 0 0 0 0 0 0 0 0.
Definition mscale (k : Qc) (a : mat) : mat := mmap2 (fun x _ => k * x) a a.
Definition mtrans (a : mat) : mat := Mat (m00 a) (m10 a) (m20 a) (m01 a) (m11 a) (m21 a) (m02 a) (m12 a) (m22 a).
Definition trace (a : mat) : Qc := m00 a + m11 a + m22 a.
(** a quaternion or a vector of four numbers *)
Record four := Four { f0 : Qc; f1 : Qc; f2 : Qc; f3 : Qc }.
(** icp.cpp:76-82: the rows of the matrix [q_px] *)
Definition q_px (s : mat) : four * four * four * four :=
  let A := mmap2 Qcminus s (mtrans s) in let tr := trace s in
  let d0 := m12 A in let d1 := m20 A in let d2 := m01 A in
  (Four tr d0 d1 d2, Four d0 (m00 A - tr) (m01 A) (m02 A), Four d1 (m10 A) (m11 A - tr) (m12 A), Four d2 (m20 A) (m21 A) (m22 A - tr)).
Definition dot4 (a b : four) : Qc := f0 a * f0 b + f1 a * f1 b + f2 a * f2 b + f3 a * f3 b.
Definition mul4 (m : four * four * four * four) (v : four) : four := let '(a, b, c, d) := m in Four (dot4 a v) (dot4 b v) (dot4 c v) (dot4 d v).
(** [Eigen::Quaterniond::toRotationMatrix] of the vector divided by its norm (the eigenvectors of the solver have norm one), with translation zero *)
Definition rot (q : four) : aff :=
  let n := dot4 q q in let w := f0 q in let x := f1 q in let y := f2 q in let z := f3 q in let t := Q2Qc 2 / n in
  Aff (1 - t * (y * y + z * z)) (t * (x * y - w * z)) (t * (x * z + w * y))
      (t * (x * y + w * z)) (1 - t * (x * x + z * z)) (t * (y * z - w * x))
      (t * (x * z - w * y)) (t * (y * z + w * x)) (1 - t * (x * x + y * y)) 0 0 0.
Definition with_shift (r : aff) (t : vec) : aff :=
  Aff (a11 r) (a12 r) (a13 r) (a21 r) (a22 r) (a23 r) (a31 r) (a32 r) (a33 r) (vx t) (vy t) (vz t).
Definition qnat (n : nat) : Qc := Q2Qc (inject_Z (Z.of_nat n)).
Definition vsum (l : list vec) : vec := foldr vadd vzero l.
Definition qsum (l : list Qc) : Qc := foldr Qcplus 0 l.
(** the pairs that the list refers to; reading behind the end of the vectors is undefined *)
Fixpoint collect (s : pairs) (l : list (nat * Qc)) : option (list (vec * vec * Qc)) :=
  match l with
  | [] => Some []
  | (i, d) :: r => match p_x s !! i, p_p s !! i, collect s r with Some a, Some b, Some t => Some ((a, b, d) :: t) | _, _, _ => None end
  end.
(** icp.cpp:45-104, the transform and the mean square error; [eig] gives the eigenvector for the largest eigenvalue *)
Definition get_transform (eig : four * four * four * four -> four) (s : pairs) : out unit (aff * Qc) :=
  if decide (length (p_l s) < 3)%nat then Throw tt else
  match collect s (p_l s) with
  | None => Bad UB
  | Some l =>
    let n_inv := / qnat (length l) in
    let mu_p := vscale n_inv (vsum (map (fun t => t.1.2) l)) in let mu_x := vscale n_inv (vsum (map (fun t => t.1.1) l)) in
    let mu_d := n_inv * qsum (map (fun t => t.2 * t.2) l) in
    let sigma := mmap2 Qcminus (mscale n_inv (foldr (mmap2 Qcplus) mzero (map (fun t => outer t.1.2 t.1.1) l))) (outer mu_p mu_x) in
    let r := rot (eig (q_px sigma)) in
    Ok (with_shift r (vsub mu_x (aapp r mu_p)), mu_d)
  end.

(** ** C96: trimming *)
Definition ordered (l : list (nat * Qc)) : Prop := forall i j a b, l !! i = Some a -> l !! j = Some b -> (i <= j)%nat -> a.2 <= b.2.
(** [std::sort] *)
Definition sorts (sort : list (nat * Qc) -> list (nat * Qc)) : Prop := forall l, Permutation (sort l) l /\ ordered (sort l).

(** Trimming keeps the requested number of pairs, or all if there are fewer; no pair that is dropped is closer than a pair that is kept; the result is the largest kept
    distance. *)
Theorem C96_trim sort n s d s' : sorts sort -> trim sort n s = (d, s') ->
  p_x s' = p_x s /\ p_p s' = p_p s /\ length (p_l s') = Nat.min n (length (p_l s)) /\
  (exists dropped, Permutation (p_l s) (p_l s' ++ dropped) /\ forall k o, k ∈ p_l s' -> o ∈ dropped -> k.2 <= o.2) /\
  match d with
  | None => p_l s' = []
  | Some m => (exists k, k ∈ p_l s' /\ k.2 = m) /\ forall k, k ∈ p_l s' -> k.2 <= m
  end.
Proof.
  intros Hs [= <- <-]. destruct (Hs (p_l s)) as [Hp Ho]. cbn [p_x p_p p_l]. set (l := sort (p_l s)) in *. clearbody l.
  split; [done|]. split; [done|]. split; [rewrite take_length; f_equal; apply Permutation_length in Hp; lia|]. split.
  - exists (drop n l). split; [rewrite take_drop; by symmetry|]. intros k o Hk Ho'. apply elem_of_list_lookup in Hk as [i Hi]. apply elem_of_list_lookup in Ho' as [j Hj].
    apply lookup_take_Some in Hi as [Hi Hlt]. rewrite lookup_drop in Hj. apply (Ho i (n + j)%nat k o Hi Hj). lia.
  - destruct (last (take n l)) as [m|] eqn:Hm; cbn.
    + rewrite last_lookup in Hm. assert (Hm2 := Hm). apply lookup_take_Some in Hm as [Hm Hlt]. split.
      * exists m. split; [|done]. apply elem_of_list_lookup. eauto.
      * intros k Hk. apply elem_of_list_lookup in Hk as [i Hi]. assert (Hb := lookup_lt_Some _ _ _ Hi). apply lookup_take_Some in Hi as [Hi _].
        apply (Ho i _ k m Hi Hm). lia.
    + by apply last_None in Hm.
Qed.

(** The pairs that were added, in their order. *)
Definition added (l : list (vec * vec * Qc)) : pairs := foldl (fun s t => add t.1.1 t.1.2 t.2 s) no_pairs l.
Lemma added_spec l : p_x (added l) = map (fun t => t.1.1) l /\ p_p (added l) = map (fun t => t.1.2) l /\ p_l (added l) = imap (fun i t => (i, t.2)) l.
Proof.
  unfold added. induction l as [|t l IH] using rev_ind; [done|]. rewrite foldl_app. set (st := foldl _ no_pairs l) in *. clearbody st. destruct IH as (H1&H2&H3). cbn.
  rewrite H1, H2, H3, !map_app, imap_app, imap_length. cbn. rewrite Nat.add_0_r. done.
Qed.
Lemma collect_some s l (k : list (vec * vec * Qc)) : (forall i d, (i, d) ∈ l -> exists t, k !! i = Some t /\ p_x s !! i = Some t.1.1 /\ p_p s !! i = Some t.1.2 /\ d = t.2) ->
  exists r, collect s l = Some r /\ r = omap (fun e => k !! e.1) l /\ length r = length l.
Proof.
  induction l as [|[i d] l IH]; intros H; [by exists []|]. destruct IH as (r&Hr&Hk&Hl); [intros j e He; apply H; by right|].
  destruct (H i d) as (t&Ht&Hx&Hp&->); [left|]. exists (t :: r). cbn. rewrite Hx, Hp, Hr, Ht. destruct t as [[a b] e]. cbn. split; [done|]. split; [by rewrite Hk|]. f_equal. done.
Qed.
(** After adding pairs to an empty object and trimming, the object stands for a part of the added pairs: as many as requested, with no smaller distance among the others. *)
Theorem C96_pairs sort n l : sorts sort -> exists kept dropped,
  collect (trim sort n (added l)).2 (p_l (trim sort n (added l)).2) = Some kept /\ Permutation l (kept ++ dropped) /\ length kept = Nat.min n (length l) /\
  forall k o, k ∈ kept -> o ∈ dropped -> k.2 <= o.2.
Proof.
  intros Hs. destruct (added_spec l) as (Hx&Hp&Hl). destruct (trim sort n (added l)) as [d s'] eqn:E. cbn [snd].
  destruct (C96_trim sort n (added l) d s' Hs E) as (Ex&Ep&En&(dr&Hd&Ho)&_). rewrite Hl in Hd, En. rewrite imap_length in En.
  assert (Hin : forall i d, (i, d) ∈ p_l s' ++ dr -> exists t, l !! i = Some t /\ p_x s' !! i = Some t.1.1 /\ p_p s' !! i = Some t.1.2 /\ d = t.2).
  { intros i e Hi. rewrite <- Hd in Hi. apply elem_of_list_lookup in Hi as [j Hj]. rewrite list_lookup_imap in Hj. destruct (l !! j) as [t|] eqn:Ht; [|done].
    cbn in Hj. injection Hj as <- <-. exists t. rewrite Ex, Ep, Hx, Hp, !list_lookup_fmap, Ht. done. }
  destruct (collect_some s' (p_l s') l) as (r&Hr&Hrk&Hrl). { intros i e He. apply Hin, elem_of_app. by left. }
  exists r, (omap (fun e => l !! e.1) dr). split; [done|]. split; [|split].
  - rewrite Hrk, <- omap_app, <- Hd. clear. assert (H : forall k, omap (fun e : nat * Qc => (k ++ l) !! e.1) (imap (fun i t => ((length k + i)%nat, t.2)) l) = l).
    { induction l as [|t l IH]; intros k; [done|]. cbn. rewrite Nat.add_0_r, list_lookup_middle by done. f_equal.
      specialize (IH (k ++ [t])). rewrite <- app_assoc in IH. cbn in IH. etransitivity; [|exact IH]. f_equal. apply imap_ext. intros i x _. cbn. f_equal. rewrite app_length. cbn. lia. }
    specialize (H []). cbn in H. by rewrite H.
  - rewrite Hrl, En. done.
  - intros k o Hk Ho'. rewrite Hrk in Hk. apply elem_of_list_omap in Hk as ([i e]&Hi&Hk). apply elem_of_list_omap in Ho' as ([j f]&Hj&Ho').
    destruct (Hin i e) as (t&Ht&_&_&->); [apply elem_of_app; by left|]. destruct (Hin j f) as (u&Hu&_&_&->); [apply elem_of_app; by right|].
    cbn in Hk, Ho'. rewrite Ht in Hk. rewrite Hu in Ho'. injection Hk as <-. injection Ho' as <-. apply (Ho _ _ Hi Hj).
Qed.
(** Pairs added after trimming get the positions of other pairs: here the object stands for a pair that was dropped, and not for the new pair. *)
Theorem C96_add_refuted sort : sorts sort -> exists l n a b d,
  let s := add a b d (trim sort n (added l)).2 in exists r, collect s (p_l s) = Some r /\ length r = S n /\ forall e, (a, b, e) ∉ r.
Proof.
  intros Hs. set (v := Vec 1 0 0). exists [(vzero, vzero, 0); (vzero, vzero, 0)], 1%nat, v, v, 0. cbn zeta.
  destruct (C96_pairs sort 1 [(vzero, vzero, 0); (vzero, vzero, 0)] Hs) as (kept&dropped&Hk&Hp&Hl&_).
  destruct (added_spec [(vzero, vzero, 0); (vzero, vzero, 0)]) as (Hx&Hq&Hls). set (s0 := added _) in *. clearbody s0.
  destruct (trim sort 1 s0) as [d s1] eqn:E. cbn [snd] in *. destruct (C96_trim _ _ _ _ _ Hs E) as (Ex&Ep&En&_&_). rewrite Hls in En. cbn in En.
  destruct (p_l s1) as [|[i e] [|? ?]] eqn:El; [done| |done]. unfold add. cbn [p_l p_x p_p]. rewrite El, Ex, Ep, Hx, Hq. cbn [length map].
  cbn [collect] in Hk. rewrite Ex, Ep, Hx, Hq in Hk. cbn [map] in Hk.
  assert (Hi : (i = 0 \/ i = 1)%nat). { destruct i as [|[|i]]; [by left|by right|done]. }
  exists [(vzero, vzero, e); (vzero, vzero, 0)]. split; [destruct Hi as [-> | ->]; done|]. split; [done|]. intros f [Hf|[Hf|Hf%elem_of_nil]%elem_of_cons]%elem_of_cons; done.
Qed.
Lemma sorted_ordered l : StronglySorted (fun a b : nat * Qc => a.2 <= b.2) l -> ordered l.
Proof.
  induction 1 as [|x l Hl IH Hx]; intros i j a b Ha Hb Hij; [done|]. destruct i as [|i]; cbn in Ha.
  - injection Ha as <-. destruct j as [|j]; cbn in Hb; [injection Hb as <-; apply Qcle_refl|]. rewrite Forall_forall in Hx. apply Hx. apply elem_of_list_lookup. eauto.
  - destruct j as [|j]; [lia|]. apply (IH i j a b Ha Hb). lia.
Qed.
Lemma sorts_exists : exists sort, sorts sort.
Proof.
  assert (D : forall a b : nat * Qc, Decision (a.2 <= b.2)) by (intros a b; destruct (Qclt_le_dec b.2 a.2); [right; by apply Qclt_not_le|by left]).
  assert (T : Total (fun a b : nat * Qc => a.2 <= b.2)) by (intros a b; destruct (Qclt_le_dec b.2 a.2); [right; by apply Qclt_le_weak|by left]).
  assert (R : Transitive (fun a b : nat * Qc => a.2 <= b.2)) by (intros a b c; apply Qcle_trans).
  exists (merge_sort (fun a b : nat * Qc => a.2 <= b.2)). intros l. split; [apply merge_sort_Permutation|]. apply sorted_ordered. by apply StronglySorted_merge_sort.
Qed.
Example C96_nonvacuous : exists sort, sorts sort /\ let l := [(vzero, vzero, Q2Qc 3); (vzero, Vec 1 0 0, Q2Qc 1); (Vec 1 0 0, vzero, Q2Qc 2)] in
  p_l (added l) = [(0%nat, Q2Qc 3); (1%nat, Q2Qc 1); (2%nat, Q2Qc 2)] /\ (trim sort 1 (added l)).1 = Some (Q2Qc 1).
Proof.
  destruct sorts_exists as [sort Hs]. exists sort. split; [done|]. split; [reflexivity|]. set (l := [_; _; _]).
  destruct (trim sort 1 (added l)) as [d s'] eqn:E. destruct (C96_trim _ _ _ _ _ Hs E) as (_&_&Hl&(dr&Hp&Ho)&Hd).
  change (p_l (added l)) with [(0%nat, Q2Qc 3); (1%nat, Q2Qc 1); (2%nat, Q2Qc 2)] in *. destruct (p_l s') as [|k [|? ?]]; [done| |done]. cbn [fst].
  assert (H1 : (1%nat, Q2Qc 1) ∈ [k] ++ dr) by (rewrite <- Hp; right; left). assert (H2 : k ∈ [(0%nat, Q2Qc 3); (1%nat, Q2Qc 1); (2%nat, Q2Qc 2)]) by (rewrite Hp; left).
  assert (Hk : k.2 = Q2Qc 1).
  { apply elem_of_app in H1 as [H1%elem_of_list_singleton|H1]; [by rewrite <- H1|]. specialize (Ho k _ ltac:(left) H1). cbn in Ho.
    apply elem_of_cons in H2 as [->|[->|[->|H2%elem_of_nil]%elem_of_cons]%elem_of_cons]; [|done| |done]; exfalso; revert Ho; by vm_compute. }
  destruct d as [m|]; [|done]. destruct Hd as [(k'&->%elem_of_list_singleton&<-) _]. by rewrite Hk.
Qed.

(** ** C97: the transform *)
Definition vsq (v : vec) : Qc := vx v * vx v + vy v * vy v + vz v * vz v.
(** the sum of the squared distances after applying [a] to the second points *)
Definition residual (a : aff) (l : list (vec * vec * Qc)) : Qc := qsum (map (fun t => vsq (vsub t.1.1 (aapp a t.1.2))) l).
(** rows and columns are orthogonal and of length one, orientation is kept *)
Definition rotation (a : aff) : Prop :=
  a11 a * a11 a + a12 a * a12 a + a13 a * a13 a = 1 /\ a21 a * a21 a + a22 a * a22 a + a23 a * a23 a = 1 /\ a31 a * a31 a + a32 a * a32 a + a33 a * a33 a = 1 /\
  a11 a * a21 a + a12 a * a22 a + a13 a * a23 a = 0 /\ a11 a * a31 a + a12 a * a32 a + a13 a * a33 a = 0 /\ a21 a * a31 a + a22 a * a32 a + a23 a * a33 a = 0 /\
  adet a = 1.

Lemma sq_nonneg (a : Qc) : 0 <= a * a.
Proof. unfold Qcle, Qcmult. cbn [this Q2Qc]. rewrite !Qred_correct. destruct (this a) as [p q]. unfold Qle. cbn. nia. Qed.
Lemma qnat_S n : qnat (S n) = qnat n + 1.
Proof. unfold qnat. rewrite Nat2Z.inj_succ. unfold Z.succ. apply Qc_is_canon. cbn [this Q2Qc Qcplus]. rewrite !Qred_correct, inject_Z_plus. change (this 1) with 1%Q. reflexivity. Qed.
Lemma qnat_nonneg n : 0 <= qnat n.
Proof. unfold Qcle, qnat. cbn [this Q2Qc]. rewrite !Qred_correct. unfold Qle. cbn. lia. Qed.
Lemma qnat_ne n : (0 < n)%nat -> qnat n <> 0.
Proof.
  intros H Hn. apply (f_equal this) in Hn. unfold qnat in Hn. cbn [this Q2Qc] in Hn. assert (H2 : (inject_Z (Z.of_nat n) == inject_Z 0)%Q).
  { rewrite <- (Qred_correct (inject_Z (Z.of_nat n))), Hn. reflexivity. }
  unfold Qeq in H2. cbn in H2. lia.
Qed.
Lemma sum_sq (t : Qc) l : qsum (map (fun a => (a - t) * (a - t)) l) = qsum (map (fun a => a * a) l) - Q2Qc 2 * t * qsum l + qnat (length l) * (t * t).
Proof.
  assert (T : Q2Qc 2 = 1 + 1) by (by apply Qc_is_canon). rewrite T.
  unfold qsum in *. induction l as [|a l IH]; [cbn; change (qnat 0) with 0; ring|]. cbn [map foldr length] in *. rewrite IH, qnat_S. ring.
Qed.
Lemma mean_best (t m : Qc) l : qsum l = qnat (length l) * m -> qsum (map (fun a => (a - m) * (a - m)) l) <= qsum (map (fun a => (a - t) * (a - t)) l).
Proof.
  intros H. rewrite !sum_sq, H. set (n := qnat (length l)). set (S := qsum (map _ l)).
  assert (E : S - Q2Qc 2 * t * (n * m) + n * (t * t) = (S - Q2Qc 2 * m * (n * m) + n * (m * m)) + n * ((m - t) * (m - t))).
  { assert (T : Q2Qc 2 = 1 + 1) by (by apply Qc_is_canon). rewrite T. ring. }
  rewrite E. rewrite <- (Qcplus_0_r (S - _ + _)) at 1. apply Qcplus_le_compat; [apply Qcle_refl|].
  rewrite <- (Qcmult_0_l ((m - t) * (m - t))). apply Qcmult_le_compat_r; [apply qnat_nonneg|apply sq_nonneg].
Qed.
Lemma residual_split r u l : residual (with_shift r u) l =
  qsum (map (fun a => (a - vx u) * (a - vx u)) (map (fun t => vx t.1.1 - vx (aapp (with_shift r vzero) t.1.2)) l)) +
  qsum (map (fun a => (a - vy u) * (a - vy u)) (map (fun t => vy t.1.1 - vy (aapp (with_shift r vzero) t.1.2)) l)) +
  qsum (map (fun a => (a - vz u) * (a - vz u)) (map (fun t => vz t.1.1 - vz (aapp (with_shift r vzero) t.1.2)) l)).
Proof.
  unfold residual. induction l as [|t l IH]; [cbn; ring|]. unfold qsum in *. cbn [map foldr] in *. rewrite IH.
  destruct t as [[x p] d]. destruct x, p, u, r. unfold vsq, vsub, aapp, with_shift, vzero. cbn. ring.
Qed.
Lemma sums_linear r l : let d t := vsub t.1.1 (aapp (with_shift r vzero) t.1.2) in
  vsub (vsum (map (fun t : vec * vec * Qc => t.1.1) l)) (aapp (with_shift r vzero) (vsum (map (fun t => t.1.2) l))) =
  Vec (qsum (map (fun t => vx (d t)) l)) (qsum (map (fun t => vy (d t)) l)) (qsum (map (fun t => vz (d t)) l)).
Proof.
  cbn zeta. induction l as [|t l IH]; [unfold vsub, aapp, with_shift, vzero; cbn; f_equal; ring|]. cbn [map]. unfold qsum, vsum in *. cbn [foldr].
  pose proof (f_equal vx IH) as I1. pose proof (f_equal vy IH) as I2. pose proof (f_equal vz IH) as I3. clear IH. destruct t as [[x p] d].
  set (sx := foldr vadd vzero (map (fun t : vec * vec * Qc => t.1.1) l)) in *. set (sp := foldr vadd vzero (map (fun t : vec * vec * Qc => t.1.2) l)) in *. clearbody sx sp.
  unfold vsub in *. cbn [vx vy vz fst snd] in *. f_equal; [rewrite <- I1|rewrite <- I2|rewrite <- I3]; destruct x, p, r, sx, sp; unfold vadd, aapp, with_shift, vzero; cbn; ring.
Qed.
Lemma rot_rotation q : dot4 q q <> 0 -> rotation (rot q).
Proof.
  intros H. destruct q as [w x y z]. unfold dot4 in H. cbn in H. unfold rotation, rot, adet, dot4. cbn. assert (T : Q2Qc 2 = 1 + 1) by (by apply Qc_is_canon). rewrite T.
  repeat split; by field.
Qed.
Lemma rotation_shift r u : rotation r -> rotation (with_shift r u).
Proof. done. Qed.
Lemma rot_shift q : with_shift (rot q) vzero = rot q.
Proof. done. Qed.

(** The transform for at least three pairs is a rotation and a translation; with this rotation, no other translation brings the points closer to their partners; the
    reported error is the mean of the squared distances of the pairs. Fewer pairs give an error. *)
Theorem C97_translation eig s l : collect s (p_l s) = Some l -> (forall m, dot4 (eig m) (eig m) <> 0) ->
  if decide (length l < 3)%nat then get_transform eig s = Throw tt
  else exists a mse, get_transform eig s = Ok (a, mse) /\ rotation a /\ (forall t, residual a l <= residual (with_shift a t) l) /\
    mse * qnat (length l) = qsum (map (fun t => t.2 * t.2) l).
Proof.
  intros Hc He. assert (Hl : length l = length (p_l s)).
  { revert l Hc. induction (p_l s) as [|[i d] r IH]; intros l Hc; cbn in Hc; [by injection Hc as <-|].
    destruct (p_x s !! i); [|done]. destruct (p_p s !! i); [|done]. destruct (collect s r) as [u|]; [|done]. injection Hc as <-. cbn. by rewrite (IH u). }
  unfold get_transform. rewrite <- Hl. case_decide as H3; [done|]. rewrite Hc. assert (Hn : qnat (length l) <> 0) by (apply qnat_ne; lia).
  eexists _, _. split; [reflexivity|]. set (sig := mmap2 _ _ _). set (r := rot _). assert (Hr : rotation r) by apply rot_rotation, He.
  assert (Hz : with_shift r vzero = r) by apply rot_shift. clearbody r. clear sig. split; [by apply rotation_shift|]. split.
  - intros t. change (with_shift (with_shift r _) t) with (with_shift r t). rewrite !residual_split.
    pose proof (sums_linear r l) as Hsum. cbn zeta in Hsum. rewrite Hz in *.
    set (xs := vsum _) in *. set (ps := vsum (map (fun t : vec * vec * Qc => t.1.2) l)) in *. clearbody xs ps.
    pose proof (f_equal vx Hsum) as S1. pose proof (f_equal vy Hsum) as S2. pose proof (f_equal vz Hsum) as S3. clear Hsum.
    assert (Z : t1 r = 0 /\ t2 r = 0 /\ t3 r = 0) by (destruct r; injection Hz as <- <- <-; done). destruct Z as (Z1&Z2&Z3).
    apply Qcplus_le_compat; [apply Qcplus_le_compat|]; apply mean_best; rewrite map_length; unfold vsub in S1, S2, S3; cbn [vx vy vz] in S1, S2, S3;
      [rewrite <- S1|rewrite <- S2|rewrite <- S3]; unfold vsub, vscale, aapp; cbn [vx vy vz]; rewrite ?Z1, ?Z2, ?Z3; by field.
  - by field.
Qed.

(** ** The rotation is wrong *)
Definition eigen (m : four * four * four * four) (v : four) (e : Qc) : Prop := v <> Four 0 0 0 0 /\ mul4 m v = Four (e * f0 v) (e * f1 v) (e * f2 v) (e * f3 v).
(** the solver gives an eigenvector of the matrix for its largest eigenvalue *)
Definition solves (eig : four * four * four * four -> four) (m : four * four * four * four) : Prop :=
  exists e, eigen m (eig m) e /\ forall u e', eigen m u e' -> e' <= e.
(** ten points, and the same points turned by 90 degrees about the third axis *)
Definition turn : aff := Aff 0 (-1) 0 1 0 0 0 0 1 0 0 0.
Definition ten : list (vec * vec * Qc) :=
  map (fun p => (aapp turn p, p, 0)) [Vec (Q2Qc 2) 0 0; Vec (Q2Qc (-2)) 0 0; Vec 0 (Q2Qc 2) 0; Vec 0 (Q2Qc (-2)) 0; Vec 0 0 (Q2Qc 2); Vec 0 0 (Q2Qc (-2)); Vec 0 0 1; Vec 0 0 (-1); Vec 0 0 1; Vec 0 0 (-1)].
(** the matrix that the code makes for these pairs *)
Definition ten_matrix : four * four * four * four :=
  let a := Q2Qc (6 # 5) in let b := Q2Qc (8 # 5) in (Four a 0 0 b, Four 0 (- a) b 0, Four 0 (- b) (- a) 0, Four b 0 0 (- a)).
Lemma rot_scale k q : k <> 0 -> dot4 q q <> 0 -> rot (Four (k * f0 q) (k * f1 q) (k * f2 q) (k * f3 q)) = rot q.
Proof.
  intros Hk Hq. destruct q as [w x y z]. unfold rot. assert (D : dot4 (Four (k * w) (k * x) (k * y) (k * z)) (Four (k * w) (k * x) (k * y) (k * z)) = (k * k) * dot4 (Four w x y z) (Four w x y z)).
  { unfold dot4. cbn. ring. }
  cbn [f0 f1 f2 f3] in *. rewrite D. set (n := dot4 _ _) in *. clearbody n. f_equal; field; done.
Qed.

Lemma ten_eigen v e : eigen ten_matrix v e -> Q2Qc 2 <= e -> exists k, k <> 0 /\ v = Four (k * Q2Qc 2) 0 0 k.
Proof.
  intros [Hn Hv] He. destruct v as [w x y z]. unfold mul4, ten_matrix, dot4 in Hv. pose proof (f_equal f0 Hv) as E0. pose proof (f_equal f1 Hv) as E1.
  pose proof (f_equal f2 Hv) as E2. pose proof (f_equal f3 Hv) as E3. cbn [f0 f1 f2 f3] in E0, E1, E2, E3. clear Hv.
  set (a := Q2Qc (6 # 5)) in *. set (b := Q2Qc (8 # 5)) in *.
  assert (N : forall u v : Qc, u * u + v * v = 0 -> u = 0).
  { intros u v H. apply (f_equal this) in H. apply Qc_is_canon. unfold Qcplus, Qcmult in H. cbn [this Q2Qc] in H. assert (H2 : (this u * this u + this v * this v == 0)%Q).
    { rewrite <- (Qred_correct (this u * this u)), <- (Qred_correct (this v * this v)), <- (Qred_correct (_ + _)), H. reflexivity. }
    change (this 0) with 0%Q. nra. }
  assert (B : b * b <> 0) by done. assert (B2 : b <> 0) by done.
  (* the middle rows: (e + a) x = b y and (e + a) y = - b x *)
  assert (X : (e + a) * x = b * y). { transitivity (e * x + a * x); [ring|]. rewrite <- E1. ring. }
  assert (Y : (e + a) * y = - b * x). { transitivity (e * y + a * y); [ring|]. rewrite <- E2. ring. }
  assert (S : b * (x * x + y * y) = 0). { transitivity (x * (b * x) + y * (b * y)); [ring|]. rewrite <- X. assert (b * x = - ((e + a) * y)) as -> by (rewrite Y; ring). ring. }
  assert (S' : x * x + y * y = 0) by (destruct (Qcmult_integral _ _ S); done).
  assert (Hx : x = 0) by (by apply (N x y)). assert (Hy : y = 0) by (apply (N y x); rewrite <- S'; ring). subst x y.
  (* the outer rows: (e - a) w = b z and (e + a) z = b w *)
  assert (W : (e - a) * w = b * z). { transitivity (e * w - a * w); [ring|]. rewrite <- E0. ring. }
  assert (Z : (e + a) * z = b * w). { transitivity (e * z + a * z); [ring|]. rewrite <- E3. ring. }
  assert (EE : (e - Q2Qc 2) * (e + Q2Qc 2) * w = 0).
  { assert (Hab : a * a + b * b = Q2Qc 2 * Q2Qc 2) by (by apply Qc_is_canon). transitivity ((e + a) * ((e - a) * w) - b * (b * w)); [|rewrite W, <- Z; ring].
    transitivity ((e * e - (a * a + b * b)) * w); [rewrite Hab|]; ring. }
  assert (Z2 : w = 0 \/ e = Q2Qc 2).
  { destruct (Qcmult_integral _ _ EE) as [H|H]; [|by left]. right. destruct (Qcmult_integral _ _ H) as [H'|H'].
    - transitivity (e - Q2Qc 2 + Q2Qc 2); [ring|]. rewrite H'. ring.
    - exfalso. assert (e = - Q2Qc 2) as ->; [transitivity (e + Q2Qc 2 - Q2Qc 2); [ring|rewrite H'; ring]|]. by apply He. }
  assert (Hwz : w = 0 -> z = 0).
  { intros ->. assert (H : b * z = 0) by (rewrite <- W; ring). destruct (Qcmult_integral _ _ H); done. }
  destruct Z2 as [->| ->]; [rewrite Hwz in Hn; done|].
  assert (Hw : w = z * Q2Qc 2).
  { assert (Q2Qc 2 + a = b * Q2Qc 2) as Hab by (by apply Qc_is_canon). rewrite Hab in Z. assert (H : b * (w - z * Q2Qc 2) = 0) by (transitivity (b * w - b * Q2Qc 2 * z); [ring|rewrite Z; ring]).
    destruct (Qcmult_integral _ _ H) as [|H']; [done|]. transitivity (w - z * Q2Qc 2 + z * Q2Qc 2); [ring|rewrite H'; ring]. }
  exists z. split; [|by rewrite Hw]. intros ->. apply Hn. rewrite Hw. f_equal; ring.
Qed.

(** Ten points and their images under a rotation by 90 degrees: with a correct eigenvector solver the result is not the rotation, although the rotation brings all points
    exactly to their partners. The lower right block of the matrix should be the sum, not the difference of the covariance and its transpose (icp.cpp:76-82). *)
Theorem C97_rotation_refuted eig : solves eig ten_matrix -> exists b a mse,
  rotation b /\ residual b ten = 0 /\ get_transform eig (added ten) = Ok (a, mse) /\ residual a ten <> 0.
Proof.
  intros Hs. exists turn. assert (E : exists mse, get_transform eig (added ten) = Ok (with_shift (rot (eig ten_matrix)) (vsub vzero (aapp (rot (eig ten_matrix)) vzero)), mse)).
  { unfold get_transform. case_decide as H; [exfalso; revert H; vm_compute; lia|].
    assert (collect (added ten) (p_l (added ten)) = Some ten) as -> by (vm_compute; reflexivity).
    assert (q_px (mmap2 Qcminus (mscale (/ qnat (length ten)) (foldr (mmap2 Qcplus) mzero (map (fun t => outer t.1.2 t.1.1) ten)))
      (outer (vscale (/ qnat (length ten)) (vsum (map (fun t => t.1.2) ten))) (vscale (/ qnat (length ten)) (vsum (map (fun t => t.1.1) ten))))) = ten_matrix) as ->.
    { unfold ten_matrix, q_px. cbn zeta. repeat f_equal; apply Qc_is_canon; vm_compute; reflexivity. }
    assert (vscale (/ qnat (length ten)) (vsum (map (fun t => t.1.2) ten)) = vzero) as -> by (unfold vscale, vzero; f_equal; apply Qc_is_canon; vm_compute; reflexivity).
    assert (vscale (/ qnat (length ten)) (vsum (map (fun t => t.1.1) ten)) = vzero) as -> by (unfold vscale, vzero; f_equal; apply Qc_is_canon; vm_compute; reflexivity).
    eexists. reflexivity. }
  destruct E as [mse E]. eexists _, mse. split; [repeat split; by apply Qc_is_canon|]. split; [by apply Qc_is_canon|]. split; [exact E|].
  assert (T : eigen ten_matrix (Four (Q2Qc 2) 0 0 1) (Q2Qc 2)). { split; [done|]. unfold mul4, ten_matrix, dot4. cbn [f0 f1 f2 f3]. f_equal; by apply Qc_is_canon. }
  destruct Hs as (e&He&Hmax). destruct (ten_eigen _ _ He (Hmax _ _ T)) as (k&Hk&->).
  assert (rot (Four (k * Q2Qc 2) 0 0 k) = rot (Four (Q2Qc 2) 0 0 1)) as ->.
  { rewrite <- (rot_scale k (Four (Q2Qc 2) 0 0 1)) by done. cbn [f0 f1 f2 f3]. f_equal. f_equal; ring. }
  intros H. apply (f_equal this) in H. revert H. vm_compute. done.
Qed.
Example C97_nonvacuous : let eig (_ : four * four * four * four) := Four (Q2Qc 2) 0 0 1 in solves eig ten_matrix /\ dot4 (eig ten_matrix) (eig ten_matrix) <> 0 /\
  collect (added ten) (p_l (added ten)) = Some ten /\ length ten = 10%nat.
Proof.
  cbn zeta. assert (T : eigen ten_matrix (Four (Q2Qc 2) 0 0 1) (Q2Qc 2)). { split; [done|]. unfold mul4, ten_matrix, dot4. cbn [f0 f1 f2 f3]. f_equal; by apply Qc_is_canon. }
  split; [|split; [done|split; [vm_compute; reflexivity|done]]]. exists (Q2Qc 2). split; [done|]. intros u e He. destruct (Qclt_le_dec (Q2Qc 2) e) as [H|H]; [|done].
  destruct (ten_eigen u e He) as (k&Hk&->); [by apply Qclt_le_weak|]. destruct He as [_ He]. apply (f_equal f3) in He. unfold mul4, ten_matrix, dot4 in He. cbn [f0 f1 f2 f3] in He.
  assert (E : (Q2Qc 2 - e) * k = 0).
  { transitivity (Q2Qc (8 # 5) * (k * Q2Qc 2) + 0 * 0 + 0 * 0 + - Q2Qc (6 # 5) * k - e * k); [|rewrite He; ring].
    assert (Q2Qc 2 = Q2Qc (8 # 5) * Q2Qc 2 - Q2Qc (6 # 5)) as E2 by (by apply Qc_is_canon). rewrite E2 at 1. ring. }
  destruct (Qcmult_integral _ _ E) as [E'|]; [|done]. assert (e = Q2Qc 2) as ->; [transitivity (Q2Qc 2 - (Q2Qc 2 - e)); [ring|rewrite E'; ring]|]. apply Qcle_refl.
Qed.


(** ** Model: iterative alignment (icp.hpp:455-507) *)
(** icp.hpp:220-234 with the filter of icp.hpp:190-194, which accepts every pair; [near box p] is the point of the model nearest to [p] and its distance, if it is within [box]
    ([None] is infinity) *)
Definition matches (near : option Qc -> vec -> option (vec * Qc)) (box : option Qc) (pts : list vec) : list (vec * vec * Qc) :=
  omap (fun p => match near box p with Some (q, d) => Some (q, p, d) | None => None end) pts.
(** icp.hpp:335-376: Result; infinity is [None] *)
Record result := Res { r_tf : aff; r_iter : nat; r_pairs : nat; r_mse : option Qc; r_diff : option Qc; r_box : option Qc }.
(** [x > y] where [x] may be infinite *)
Definition above (x : option Qc) (y : Qc) : bool := match x with None => true | Some v => if Qclt_le_dec y v then true else false end.
Section align.
  Context (near : option Qc -> vec -> option (vec * Qc)) (sort : list (nat * Qc) -> list (nat * Qc)) (eig : four * four * four * four -> four).
  (** [pts]: the points that the adapter yields, in the root frame; [n_po]: icp.hpp:474 *)
  Context (pts : list vec) (n_po : nat) (min_mse min_diff : Qc).
  (** icp.hpp:467-490; [n] is the number of rounds that are left *)
  Fixpoint align_loop (n : nat) (r : result) : out unit result :=
    match n with
    | O => Ok r
    | S n' =>
        if above (r_mse r) min_mse && above (r_diff r) min_diff then
          let '(d, s) := trim sort n_po (added (matches near (r_box r) (map (aapp (r_tf r)) pts))) in
          let box := (fun x => x * Q2Qc 2) <$> d in
          if decide (length (p_l s) < 3)%nat then Ok (Res (r_tf r) (r_iter r) (length (p_l s)) (r_mse r) (r_diff r) box) else
          t <~ get_transform eig s ;;
          align_loop n' (Res (amul t.1 (r_tf r)) (S (r_iter r)) (length (p_l s)) (Some t.2) ((fun o => o - t.2) <$> r_mse r) box)
        else Ok r
    end.
  (** icp.hpp:455-466 *)
  Definition align (max_iter : nat) : out unit result := align_loop max_iter (Res aone 0 0 None None None).
End align.
(** icp.hpp:145-158: the new transform of the frame node. (The program replaces the linear part by its nearest rotation, which changes nothing for rotations in exact arithmetic.) *)
Definition apply_transform (fn l2g c : aff) : aff := amul (amul (amul fn (ainv l2g)) c) l2g.

(** ** C99 *)
(** One round of the alignment: of the matches of the points, moved by [c], the [n] best are kept, and [t] is a rigid motion that, among those with the same rotation, brings the kept points
    closest to their partners. *)
Definition round_ok near (pts : list vec) (n : nat) (c : aff) (box : option Qc) (t : aff) (mse : Qc) (kept : list (vec * vec * Qc)) : Prop :=
  let ms := p ← pts; match near box (aapp c p) with Some (q, d) => [(q, aapp c p, d)] | None => [] end in
  (exists dropped, Permutation ms (kept ++ dropped) /\ forall k o, k ∈ kept -> o ∈ dropped -> k.2 <= o.2) /\ length kept = Nat.min n (length ms) /\ (3 <= length kept)%nat /\
  rotation t /\ (forall u, residual t kept <= residual (with_shift t u) kept) /\ mse * qnat (length kept) = qsum (map (fun p => p.2 * p.2) kept).
(** The search radius: at first unlimited, then twice the largest distance of the pairs kept before. *)
Definition box_ok (prev : option (list (vec * vec * Qc))) (box : option Qc) : Prop :=
  match prev with
  | None => box = None
  | Some kept => exists m, box = Some (m * Q2Qc 2) /\ (exists p, p ∈ kept /\ p.2 = m) /\ forall p, p ∈ kept -> p.2 <= m
  end.
(** the transforms of the rounds, one after the other *)
Definition compose (l : list (aff * Qc * list (vec * vec * Qc))) : aff := foldl (fun c r => amul r.1.1 c) aone l.

Lemma matches_pairs near box c pts : matches near box (map (aapp c) pts) = p ← pts; match near box (aapp c p) with Some (q, d) => [(q, aapp c p, d)] | None => [] end.
Proof. unfold matches. induction pts as [|p pts IH]; [done|]. rewrite bind_cons, <-IH. cbn. by destruct (near box (aapp c p)) as [[q d]|]. Qed.
Lemma collect_dist s l r : collect s l = Some r -> map snd r = map snd l /\ length r = length l.
Proof.
  revert r. induction l as [|[i d] l IH]; intros r H; cbn in H; [by injection H as <-|].
  destruct (p_x s !! i); [|done]. destruct (p_p s !! i); [|done]. destruct (collect s l) as [u|]; [|done]. injection H as <-. destruct (IH u eq_refl) as [E1 E2]. cbn. by rewrite E1, E2.
Qed.
Lemma above_true x y : above x y = true <-> match x with None => True | Some v => y < v end.
Proof. unfold above. destruct x as [v|]; [|done]. by destruct (Qclt_le_dec y v) as [H|H]; [|split; [done|intros H2; by apply Qcle_not_lt in H]]. Qed.
Lemma rotation_one : rotation aone.
Proof. repeat split; apply Qc_is_canon; reflexivity. Qed.
Lemma rotation_rows b u1 u2 u3 v1 v2 v3 : rotation b ->
  (u1 * a11 b + u2 * a21 b + u3 * a31 b) * (v1 * a11 b + v2 * a21 b + v3 * a31 b) + (u1 * a12 b + u2 * a22 b + u3 * a32 b) * (v1 * a12 b + v2 * a22 b + v3 * a32 b) +
  (u1 * a13 b + u2 * a23 b + u3 * a33 b) * (v1 * a13 b + v2 * a23 b + v3 * a33 b) = u1 * v1 + u2 * v2 + u3 * v3.
Proof.
  intros (H1&H2&H3&H4&H5&H6&_). transitivity (u1 * v1 * (a11 b * a11 b + a12 b * a12 b + a13 b * a13 b) + u2 * v2 * (a21 b * a21 b + a22 b * a22 b + a23 b * a23 b) +
    u3 * v3 * (a31 b * a31 b + a32 b * a32 b + a33 b * a33 b) + (u1 * v2 + u2 * v1) * (a11 b * a21 b + a12 b * a22 b + a13 b * a23 b) +
    (u1 * v3 + u3 * v1) * (a11 b * a31 b + a12 b * a32 b + a13 b * a33 b) + (u2 * v3 + u3 * v2) * (a21 b * a31 b + a22 b * a32 b + a23 b * a33 b)); [ring|].
  rewrite H1, H2, H3, H4, H5, H6. ring.
Qed.
Lemma rotation_mul a b : rotation a -> rotation b -> rotation (amul a b).
Proof.
  intros Ha Hb. assert (D : adet (amul a b) = adet a * adet b) by (unfold adet, amul; cbn; ring).
  unfold rotation. rewrite D. unfold amul. cbn [a11 a12 a13 a21 a22 a23 a31 a32 a33]. rewrite !rotation_rows by done. destruct Ha as (?&?&?&?&?&?&->). destruct Hb as (_&_&_&_&_&_&->).
  repeat split; try done. 
Qed.
Section align_proof.
  Context (near : option Qc -> vec -> option (vec * Qc)) sort (eig : four * four * four * four -> four) (pts : list vec) (n_po : nat) (min_mse min_diff : Qc) (Hs : sorts sort) (He : forall m, dot4 (eig m) (eig m) <> 0).
  Notation hist := (list (aff * Qc * list (vec * vec * Qc))).
  Definition diff_of (h : hist) (k : nat) : option Qc := match k with O => None | S j => match h !! j, h !! k with Some a, Some b => Some (a.1.2 - b.1.2) | _, _ => None end end.
  Definition goes_on (h : hist) (k : nat) : Prop :=
    match h !! k with None => False | Some r => min_mse < r.1.2 /\ match diff_of h k with None => True | Some d => min_diff < d end end.
  Record inv (h : hist) (r : result) : Prop := {
    i_tf : r_tf r = compose h;
    i_iter : r_iter r = length h;
    i_mse : r_mse r = (fun x => x.1.2) <$> last h;
    i_diff : r_diff r = diff_of h (length h - 1);
    i_box : box_ok (snd <$> last h) (r_box r);
    i_rounds : forall k t mse kept, h !! k = Some (t, mse, kept) -> exists box, box_ok (snd <$> last (take k h)) box /\ round_ok near pts n_po (compose (take k h)) box t mse kept;
    i_on : forall k, (S k < length h)%nat -> goes_on h k }.
  Lemma last_take_app (h : hist) x k : (k <= length h)%nat -> last (take k (h ++ [x])) = last (take k h).
  Proof. intros H. by rewrite take_app_le. Qed.
  Lemma diff_app h x k : (k < length h)%nat -> diff_of (h ++ [x]) k = diff_of h k.
  Proof. intros H. destruct k as [|k]; [done|]. cbn [diff_of]. by rewrite !lookup_app_l by lia. Qed.
  Lemma loop_inv n : forall h r, inv h r -> exists h' r', align_loop near sort eig pts n_po min_mse min_diff n r = Ok r' /\
    (exists box pairs, inv h' (Res (r_tf r') (r_iter r') pairs (r_mse r') (r_diff r') box)) /\ (length h <= length h' <= length h + n)%nat /\
    (length h' = (length h + n)%nat \/ (r_pairs r' < 3)%nat \/ exists v, (r_mse r' = Some v /\ v <= min_mse) \/ (r_diff r' = Some v /\ v <= min_diff)).
  Proof.
    induction n as [|n IH]; intros h r Hi; cbn [align_loop].
    { exists h, r. split; [done|]. split; [exists (r_box r), (r_pairs r); by destruct r|]. split; [lia|]. left. lia. }
    destruct (above (r_mse r) min_mse && above (r_diff r) min_diff) eqn:A.
    - apply andb_true_iff in A as [A1 A2]. rewrite above_true in A1, A2. set (ms := matches near (r_box r) (map (aapp (r_tf r)) pts)).
      destruct (C96_pairs sort n_po ms Hs) as (kept&dropped&K1&K2&K3&K4). destruct (trim sort n_po (added ms)) as [d s] eqn:Et. cbn [snd] in K1.
      destruct (C96_trim sort n_po (added ms) d s Hs Et) as (_&_&_&_&Hd). destruct (collect_dist _ _ _ K1) as [Kd Kl].
      case_decide as L3.
      + exists h. eexists. split; [reflexivity|]. cbn [r_tf r_iter r_pairs r_mse r_diff]. split; [exists (r_box r), (r_pairs r); by destruct r|]. split; [lia|]. right. left. done.
      + assert (T := C97_translation eig s kept K1 He). rewrite decide_False in T by lia. destruct T as (t&mse&T1&T2&T3&T4). rewrite T1. cbn -[align_loop].
        set (r1 := Res _ _ _ _ _ _). set (h1 := h ++ [(t, mse, kept)]).
        assert (I1 : inv h1 r1).
        { destruct Hi as [Itf Iit Imse Idiff Ibox Ir Ion]. split.
          - cbn. unfold compose, h1. rewrite foldl_app. cbn. by rewrite Itf.
          - cbn. unfold h1. rewrite app_length, Iit. cbn. lia.
          - unfold h1. rewrite last_snoc. done.
          - cbn [r_diff r1]. unfold h1. rewrite app_length. cbn [length]. replace (length h + 1 - 1)%nat with (length h) by lia. rewrite Imse.
            destruct h as [|x h0 _] using rev_ind; [done|]. rewrite last_snoc. rewrite app_length. cbn [length]. replace (length h0 + 1)%nat with (S (length h0)) by lia. cbn [diff_of].
            rewrite <- app_assoc. cbn. rewrite !lookup_app_r by lia. rewrite Nat.sub_diag. replace (S (length h0) - length h0)%nat with 1%nat by lia. done.
          - unfold h1. rewrite last_snoc. cbn. destruct d as [m|].
            + destruct Hd as [(k&Hk&Hm) Hmax]. exists m. split; [done|]. split.
              * assert (X : m ∈ map snd kept). { rewrite Kd. apply elem_of_list_fmap. exists k. by rewrite Hm. }
                apply elem_of_list_fmap in X as (p&->&Hp). by exists p.
              * intros p Hp. assert (X : p.2 ∈ map snd (p_l s)). { rewrite <- Kd. apply elem_of_list_fmap. by exists p. }
                apply elem_of_list_fmap in X as (k'&->&Hk'). by apply Hmax.
            + rewrite Hd in L3. cbn in L3. lia.
          - intros k t' mse' kept' Hk. unfold h1 in *. apply lookup_app_Some in Hk as [Hk|[Hge Hk]].
            + assert (Hlt := lookup_lt_Some _ _ _ Hk). rewrite take_app_le by lia. by apply Ir.
            + apply list_lookup_singleton_Some in Hk as [E0 Hk]. injection Hk as <- <- <-. replace k with (length h) by lia. rewrite take_app. exists (r_box r). split; [done|].
              rewrite <- Itf. unfold round_ok. rewrite <-matches_pairs. split; [by exists dropped|]. split; [done|]. split; [lia|]. done.
          - intros k Hk. unfold h1 in *. rewrite app_length in Hk. cbn in Hk. destruct (decide (S k < length h)%nat) as [L|L].
            + specialize (Ion k L). unfold goes_on in *. rewrite lookup_app_l by lia. by rewrite diff_app by lia.
            + assert (Ek : k = (length h - 1)%nat) by lia. unfold goes_on. rewrite lookup_app_l by lia. rewrite diff_app by lia. rewrite Imse, last_lookup in A1. rewrite Idiff in A2.
              rewrite Ek. replace (Init.Nat.pred (length h)) with (length h - 1)%nat in A1 by lia. destruct (h !! (length h - 1)%nat) as [x|] eqn:Hx; [by cbn in A1|].
              apply lookup_ge_None_1 in Hx. lia. }
        destruct (IH h1 r1 I1) as (h'&r'&H1&H2&H3&H4). exists h', r'. split; [done|]. split; [done|]. unfold h1 in H3, H4. rewrite app_length in H3, H4. cbn in H3, H4. split; [lia|].
        destruct H4 as [H4|H4]; [left; lia|by right].
    - exists h, r. split; [done|]. split; [exists (r_box r), (r_pairs r); by destruct r|]. split; [lia|]. right. right. apply andb_false_iff in A as [A|A]; unfold above in A.
      + destruct (r_mse r) as [v|]; [|done]. destruct (Qclt_le_dec min_mse v) as [L|L]; [done|]. exists v. by left.
      + destruct (r_diff r) as [v|]; [|done]. destruct (Qclt_le_dec min_diff v) as [L|L]; [done|]. exists v. by right.
  Qed.

  (** The alignment performs at most [max_iter] rounds. Each is as described above; the result is the composition of their transforms, and again a rigid motion. The reported error is the one
      of the last round; another round follows only while the error is above [min_mse] and has decreased by more than [min_diff]; and it stops only for one of these reasons, after
      [max_iter] rounds, or because less than three pairs were found. *)
  Theorem C99_align max_iter : exists (h : hist) r, align near sort eig pts n_po min_mse min_diff max_iter = Ok r /\
    r_iter r = length h /\ (length h <= max_iter)%nat /\ r_tf r = compose h /\ rotation (r_tf r) /\ r_mse r = (fun x => x.1.2) <$> last h /\ r_diff r = diff_of h (length h - 1) /\
    (forall k t mse kept, h !! k = Some (t, mse, kept) -> exists box, box_ok (snd <$> last (take k h)) box /\ round_ok near pts n_po (compose (take k h)) box t mse kept) /\
    (forall k a, (S k < length h)%nat -> h !! k = Some a -> min_mse < a.1.2) /\
    (forall k a b, (S (S k) < length h)%nat -> h !! k = Some a -> h !! S k = Some b -> min_diff < a.1.2 - b.1.2) /\
    (length h = max_iter \/ (r_pairs r < 3)%nat \/ exists v, (r_mse r = Some v /\ v <= min_mse) \/ (r_diff r = Some v /\ v <= min_diff)).
  Proof.
    destruct (loop_inv max_iter [] (Res aone 0 0 None None None)) as (h&r&H1&(box&pairs&H2)&H3&H4).
    { split; cbn; try done; intros; lia. }
    exists h, r. destruct H2 as [I1 I2 I3 I4 _ I6 I7]. cbn [r_tf r_iter r_mse r_diff] in *. cbn [length Nat.add] in H3, H4. split; [done|]. split; [done|]. split; [lia|]. split; [done|]. split.
    { rewrite I1. clear -I6. induction h as [|[[t mse] kept] h IH] using rev_ind; [apply rotation_one|].
      unfold compose. rewrite foldl_app. cbn. apply rotation_mul.
      - destruct (I6 (length h) t mse kept) as (b&_&_&_&_&Ht&_); [by apply list_lookup_middle|done].
      - apply IH. intros k t' mse' kept' Hk. destruct (I6 k t' mse' kept') as (b&Hb&Hr); [by apply lookup_app_l_Some|]. apply lookup_lt_Some in Hk. rewrite take_app_le in Hb, Hr by lia. by exists b. }
    split; [done|]. split; [done|]. split; [done|]. split; [|split; [|done]].
    - intros k a Hk Ha. specialize (I7 k Hk). unfold goes_on in I7. rewrite Ha in I7. by destruct I7.
    - intros k a b Hk Ha Hb. specialize (I7 (S k) ltac:(lia)). unfold goes_on in I7. rewrite Hb in I7. cbn [diff_of] in I7. rewrite Ha, Hb in I7. by destruct I7.
  Qed.
End align_proof.
(** Applying the result moves every point, seen from the root, by the transform that was found. *)
Theorem C99_apply parent fn c : adet parent <> 0 -> adet fn <> 0 ->
  forall v, aapp (amul parent (apply_transform fn (amul parent fn) c)) v = aapp c (aapp (amul parent fn) v).
Proof.
  intros Hp Hf v. assert (Hd : adet (amul parent fn) <> 0) by (by apply adet_mul_ne). unfold apply_transform. rewrite <- aapp_mul. f_equal.
  rewrite !amul_assoc, ainv_r by done. by rewrite amul_1_l.
Qed.
Definition by_distance : list (nat * Qc) -> list (nat * Qc) := merge_sort (fun a b : nat * Qc => a.2 <= b.2) (H := fun a b => match Qclt_le_dec b.2 a.2 with left l => right (Qclt_not_le _ _ l) | right l => left l end).
Lemma by_distance_sorts : sorts by_distance.
Proof.
  assert (T : Total (fun a b : nat * Qc => a.2 <= b.2)) by (intros a b; destruct (Qclt_le_dec b.2 a.2); [right; by apply Qclt_le_weak|by left]).
  assert (R : Transitive (fun a b : nat * Qc => a.2 <= b.2)) by (intros a b c; apply Qcle_trans).
  intros l. split; [apply merge_sort_Permutation|]. apply sorted_ordered. by apply StronglySorted_merge_sort.
Qed.
(** Three points that lie one unit beside their partners: aligned by the first round, recognised as such by the second. *)
Example C99_nonvacuous : let corner := [Vec 0 0 0; Vec (Q2Qc 10) 0 0; Vec 0 (Q2Qc 10) 0] in
  let near := fun (_ : option Qc) p => if Qc_eq_dec (vx p) 0 then Some (Vec 1 (vy p) (vz p), 1) else if Qc_eq_dec (vx p) (Q2Qc 10) then Some (Vec (Q2Qc 11) (vy p) (vz p), 1) else Some (p, 0) in
  exists r, align near by_distance (fun _ => Four 1 0 0 0) corner 3 0 0 10 = Ok r /\ r_iter r = 2%nat /\ r_mse r = Some 0 /\ map (aapp (r_tf r)) corner = map (fun v => Vec (vx v + 1) (vy v) (vz v)) corner.
Proof.
  cbn zeta. eexists. split; [vm_compute; reflexivity|]. split; [reflexivity|]. split; [cbn; f_equal; apply Qc_is_canon; vm_compute; reflexivity|].
  cbn. repeat f_equal; apply Qc_is_canon; vm_compute; reflexivity.
Qed.

(** ** Model: the transform of a few samples (ransac.hpp:31-71) *)
(** ransac.hpp:42-46 *)
Definition sample_pair (x p : list vec) (i : nat) : option (vec * vec * Qc) := match x !! i, p !! i with Some a, Some b => Some (a, b, 0) | _, _ => None end.
(** ransac.hpp:31-61. The distance of the added pairs, which only matters for the mean error, is left out; [thr] is the square of the threshold. *)
Definition fit_model (eig : four * four * four * four -> four) (thr : Qc) (x p : list vec) (ind : list nat) : out unit (option aff) :=
  if decide (length ind < 3)%nat then Ok None else
  match mapM (sample_pair x p) ind with
  | None => Bad UB
  | Some l =>
      t <~ get_transform eig (added l) ;;
      Ok (if forallb (fun e : vec * vec * Qc => if Qclt_le_dec thr (vsq (vsub (aapp t.1 e.1.2) e.1.1)) then false else true) l then Some t.1 else None)
  end.
Lemma collect_added l : collect (added l) (p_l (added l)) = Some l.
Proof.
  destruct (added_spec l) as (Hx&Hp&Hl). destruct (collect_some (added l) (p_l (added l)) l) as (r&Hr&Hk&_).
  { intros i d H. rewrite Hl in H. apply elem_of_list_lookup in H as [j Hj]. rewrite list_lookup_imap in Hj. destruct (l !! j) as [t|] eqn:Ht; [|done].
    cbn in Hj. injection Hj as <- <-. exists t. rewrite Hx, Hp, !list_lookup_fmap, Ht. done. }
  rewrite Hr, Hk, Hl. f_equal. clear. assert (H : forall k, omap (fun e : nat * Qc => (k ++ l) !! e.1) (imap (fun i t => ((length k + i)%nat, t.2)) l) = l).
  { induction l as [|t l IH]; intros k; [done|]. cbn. rewrite Nat.add_0_r, list_lookup_middle by done. f_equal.
    specialize (IH (k ++ [t])). rewrite <- app_assoc in IH. cbn in IH. etransitivity; [|exact IH]. f_equal. apply imap_ext. intros i x _. cbn. f_equal. rewrite app_length. cbn. lia. }
  specialize (H []). cbn in H. by rewrite H.
Qed.
(** A transform is only reported for at least three samples; it is rigid and brings each of them within the threshold. *)
Theorem C101_fit eig thr x p ind : (forall m, dot4 (eig m) (eig m) <> 0) -> length x = length p -> (forall i, i ∈ ind -> (i < length x)%nat) ->
  exists r, fit_model eig thr x p ind = Ok r /\
    forall m, r = Some m -> (3 <= length ind)%nat /\ rotation m /\ forall i a b, i ∈ ind -> x !! i = Some a -> p !! i = Some b -> vsq (vsub (aapp m b) a) <= thr.
Proof.
  intros He Hl Hi. unfold fit_model. case_decide as L; [by exists None|].
  assert (M : exists l, mapM (sample_pair x p) ind = Some l).
  { apply mapM_is_Some. apply Forall_forall. intros i H. specialize (Hi i H). change (is_Some (sample_pair x p i)). unfold sample_pair. destruct (lookup_lt_is_Some_2 x i) as [a ->]; [lia|]. destruct (lookup_lt_is_Some_2 p i) as [b ->]; [lia|]. done. }
  destruct M as [l M]. rewrite M. apply mapM_Some in M. assert (Len := Forall2_length _ _ _ M).
  assert (T := C97_translation eig (added l) l (collect_added l) He). rewrite decide_False in T by lia. destruct T as (t&mse&->&Hr&_). cbn -[forallb].
  eexists. split; [reflexivity|]. intros m. destruct forallb eqn:F; [|done]. intros [= <-]. split; [lia|]. split; [done|]. intros i a b H Ha Hb.
  apply elem_of_list_lookup in H as [j Hj]. destruct (Forall2_lookup_l _ _ _ _ _ M Hj) as (e&He'&E). unfold sample_pair in E. rewrite Ha, Hb in E. injection E as <-.
  rewrite forallb_forall in F. specialize (F (a, b, 0)). cbn in F. destruct (Qclt_le_dec thr (vsq (vsub (aapp t b) a))) as [L2|L2]; [|done].
  exfalso. discriminate F. apply elem_of_list_In, elem_of_list_lookup. eauto.
Qed.
