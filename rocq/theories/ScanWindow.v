(** Collecting laser scans into point clouds.  C126.
    icp/icpLocalization.hpp, icp/icpLocalization.cpp

    Simplifications: numbers are rational. A scan is the list of its points in the frame of the laser (base::samples::LaserScan::convertScanToPointCloud applies a transform to each of
    them); times are left out. The thresholds for norms and angles are parameters. The counter of scans does not overflow. *)
From stdpp Require Import prelude.
From Coq Require Import ZArith QArith Qcanon.
From Verif Require Import Base Transform.
Local Open Scope Z_scope.

(** * Model *)
(** icpLocalization.hpp:56-63 *)
Record scan := Scan { body2odo : aff; body2world : aff; laser2body : aff; readings : list vec }.
Definition vsub (a b : vec) : vec := (Vec (vx a - vx b) (vy a - vy b) (vz a - vz b))%Qc.
Definition translation (a : aff) : vec := Vec (t1 a) (t2 a) (t3 a).
Definition unit_y : vec := Vec 0 1 0.
(** icpLocalization.hpp:69-92; icpConfigurationTypes.hpp:35-46 *)
Record state := State { lines : Z; advance : Z; window : list scan; count : Z; last_index : Z }.
Section window.
  (** icpLocalization.cpp:73-76: the movement of the body exceeds one of its two thresholds; the angle between two directions exceeds its threshold *)
  Context (moved : aff -> bool) (turned : vec -> vec -> bool).
  (** icpLocalization.cpp:12-19 *)
  Definition initialize (l a : Z) : state := State l a [] 0 0.
  (** icpLocalization.cpp:41: an unsigned long of 64 bits *)
  Definition capacity (s : state) : Z := lines s mod 2 ^ 64.
  (** icpLocalization.cpp:33-46, addLaserScan: scans are removed from the front until there are few enough *)
  Definition add_laser_scan (x : scan) (s : state) : state :=
    let w := window s ++ [x] in
    State (lines s) (advance s) (drop (Z.to_nat (Z.of_nat (length w) - capacity s)) w) (count s + 1) (last_index s).
  (** icpLocalization.cpp:65-76; the direction of the old scan is made of two scans *)
  Definition differs (x back y : scan) : bool :=
    moved (amul (ainv (body2odo x)) (body2odo y)) ||
    turned (vsub (aapp (laser2body x) unit_y) (translation (laser2body x))) (vsub (aapp (laser2body back) unit_y) (translation (laser2body y))).
  (** icpLocalization.cpp:48-102, addScanLineToPointCloud *)
  Definition add_scan (x : scan) (s : state) : state :=
    match last (window s) with
    | None => add_laser_scan x s
    | Some back => if forallb (differs x back) (window s) then add_laser_scan x s else s
    end.
  (** icpLocalization.cpp:104-112 *)
  Definition has_new (s : state) : bool := (lines s <? count s) && (advance s <? count s - last_index s).
  (** icpLocalization.cpp:132-169, generatePointcloud: the vertices and their transform to the world; [back] of an empty window is undefined *)
  Definition generate (s : state) : out unit ((list vec * aff) * state) :=
    match last (window s) with
    | None => Bad UB
    | Some l =>
      let odo2world := amul (body2world l) (ainv (body2odo l)) in
      Ok ((concat ((fun y => aapp (amul (ainv (body2world l)) (amul (amul odo2world (body2odo y)) (laser2body y))) <$> readings y) <$> window s), body2world l),
        State (lines s) (advance s) (window s) (count s) (count s))
    end.
  (** icpLocalization.cpp:171-181, the transform of the copy *)
  Definition sample_transform (offset t : aff) : aff :=
    let p := amul offset t in Aff (a11 p) (a12 p) (a13 p) (a21 p) (a22 p) (a23 p) (a31 p) (a32 p) (a33 p) (t1 offset + t1 t)%Qc (t2 offset + t2 t)%Qc (t3 offset + t3 t)%Qc.
  Inductive op := Add (x : scan) | Generate.
  Definition step (s : state) (o : op) : out unit state :=
    match o with Add x => Ok (add_scan x s) | Generate => r <~ generate s ;; Ok (snd r) end.
  Fixpoint run (s : state) (os : list op) : out unit state := match os with [] => Ok s | o :: os => s <~ step s o ;; run s os end.

  (** * Specification *)
  (** the newest [n] of a list *)
  Definition newest {A} (n : nat) (l : list A) : list A := drop (length l - n) l.
  (** a scan is taken if it is the first one or differs from each of the newest that were taken *)
  Definition take_scan (n : nat) (taken : list scan) (x : scan) : list scan :=
    match last taken with
    | None => [x]
    | Some back => if forallb (differs x back) (newest n taken) then taken ++ [x] else taken
    end.
  Definition scans_of (os : list op) : list scan := omap (fun o => match o with Add x => Some x | Generate => None end) os.
  Definition taken (n : nat) (os : list op) : list scan := foldl (take_scan n) [] (scans_of os).
  (** the operations up to the last point cloud *)
  Fixpoint up_to_cloud (os : list op) : list op :=
    match os with [] => [] | o :: os' => match up_to_cloud os' with [] => match o with Generate => [o] | _ => [] end | l => o :: l end end.
  Definition invertible (x : scan) : Prop := (adet (body2odo x) <> 0 /\ adet (body2world x) <> 0)%Qc.

  (** * Proof *)
  Lemma newest_length {A} n (l : list A) : length (newest n l) = Nat.min n (length l).
  Proof using Type. unfold newest. rewrite drop_length. lia. Qed.
  Lemma newest_snoc {A} n (l : list A) x : (0 < n)%nat -> newest n (l ++ [x]) = drop (length (newest n l ++ [x]) - n) (newest n l ++ [x]).
  Proof using Type.
    intros Hn. rewrite app_length, newest_length. cbn [length]. unfold newest. rewrite app_length. cbn [length].
    destruct (decide (n <= length l)%nat) as [H|H].
    - replace (Nat.min n (length l) + 1 - n)%nat with 1%nat by lia. rewrite !drop_app_le by (try rewrite drop_length; lia). rewrite drop_drop. do 2 f_equal. lia.
    - replace (length l - n)%nat with 0%nat by lia. replace (Nat.min n (length l) + 1 - n)%nat with 0%nat by lia. replace (length l + 1 - n)%nat with 0%nat by lia. done. Qed.
  Lemma newest_last {A} n (l : list A) : (0 < n)%nat -> last (newest n l) = last l.
  Proof using Type.
    intros Hn. destruct (decide (l = [])) as [->|Hne]; [unfold newest; by rewrite drop_nil|]. rewrite !last_lookup. unfold newest. rewrite lookup_drop, drop_length. f_equal. destruct l; [done|]. cbn [length]. lia. Qed.
  Definition good (n : nat) (a : Z) (k : list scan) (g : nat) (s : state) : Prop := lines s = Z.of_nat n /\ advance s = a /\ window s = newest n k /\ count s = Z.of_nat (length k) /\ last_index s = Z.of_nat g.
  Lemma add_good n a k g s x : (0 < n)%nat -> Z.of_nat n < 2 ^ 31 -> good n a k g s -> good n a (take_scan n k x) g (add_scan x s).
  Proof using Type.
    intros Hn Hb (H1 & H2 & H3 & H4 & H5).
    assert (K : good n a (k ++ [x]) g (add_laser_scan x s)).
    { unfold add_laser_scan, good, capacity. cbn [lines advance window count last_index]. rewrite H1, H3, H4. split; [done|]. split; [done|]. split; [|split; [rewrite app_length; cbn; lia|done]].
      rewrite newest_snoc by done. f_equal. rewrite Z.mod_small by lia. lia. }
    unfold add_scan, take_scan. rewrite H3, newest_last by done. destruct (last k) as [back|] eqn:E.
    - destruct (forallb (differs x back) (newest n k)); [done|]. unfold good. rewrite <- H3. done.
    - apply last_None in E as ->. done. Qed.

  (** * Theorems *)
  Lemma up_to_snoc os o : up_to_cloud (os ++ [o]) = match o with Generate => os ++ [o] | _ => up_to_cloud os end.
  Proof using Type.
    induction os as [|p os IH]; [by destruct o|]. cbn [app up_to_cloud]. rewrite IH. destruct o; [done|]. destruct (os ++ [Generate]) eqn:E; [by destruct os|done]. Qed.
  Lemma scans_app os os' : scans_of (os ++ os') = scans_of os ++ scans_of os'.
  Proof using Type. unfold scans_of. apply omap_app. Qed.
  Lemma run_app s os os' : run s (os ++ os') = (s <~ run s os ;; run s os').
  Proof using Type. revert s. induction os as [|o os IH]; intros s; [done|]. cbn [app run]. destruct (step s o); cbn [obind]; [apply IH|done..]. Qed.
  (** After any sequence of scans and point clouds, the first of them a scan, the window has the newest of the scans that were taken, and there is a new point cloud
      if more were taken than it has, and since the last point cloud more than the minimum. *)
  Theorem C126_window n a os : (0 < n)%nat -> Z.of_nat n < 2 ^ 31 -> head os <> Some Generate ->
    exists s, run (initialize (Z.of_nat n) a) os = Ok s /\ window s = newest n (taken n os) /\
      (has_new s = true <-> (n < length (taken n os))%nat /\ a < Z.of_nat (length (taken n os)) - Z.of_nat (length (taken n (up_to_cloud os)))).
  Proof using Type.
    intros Hn Hb Hh.
    assert (K : exists s, run (initialize (Z.of_nat n) a) os = Ok s /\ good n a (taken n os) (length (taken n (up_to_cloud os))) s /\ (os <> [] -> taken n os <> [])).
    { induction os as [|o os IH] using rev_ind. { eexists. split; [done|]. split; [|done]. unfold good, newest. done. }
      destruct IH as (s & E & Hg & Hne). { intros E. apply Hh. destruct os; done. }
      rewrite run_app, E. cbn [obind run]. rewrite up_to_snoc. unfold taken. rewrite scans_app, foldl_app. fold (taken n os).
      destruct o as [x|].
      - cbn [step obind]. eexists. split; [done|]. split; [apply add_good; done|]. intros _. cbn [scans_of omap list_omap foldl]. unfold take_scan. destruct (last (taken n os)) eqn:El; [|done]. case_match; [by destruct (taken n os)|]. intros E'. rewrite E' in El. done.
      - assert (Hos : os <> []). { intros ->. by apply Hh. } specialize (Hne Hos). destruct Hg as (H1 & H2 & H3 & H4 & H5). cbn [step obind]. unfold generate. rewrite H3, newest_last by done.
        destruct (last (taken n os)) as [l|] eqn:El; [|by apply last_None in El]. cbn [obind snd]. eexists. split; [done|]. rewrite scans_app, foldl_app. cbn [scans_of omap list_omap foldl]. fold (taken n os). split; [|done]. unfold good. cbn. done. }
    destruct K as (s & E & (H1 & H2 & H3 & H4 & H5) & _). exists s. split; [done|]. split; [done|]. unfold has_new. rewrite H1, H2, H4, H5. rewrite andb_true_iff, !Z.ltb_lt. lia.
  Qed.
  (** The vertices of a point cloud are the points of the scans in the window, in their order, such that the transform of the last body to odometry takes each to where
      the odometry of its own scan puts it. *)
  Theorem C126_cloud s r s' : generate s = Ok (r, s') -> Forall invertible (window s) ->
    exists l, last (window s) = Some l /\ snd r = body2world l /\ window s' = window s /\
      (aapp (body2odo l) <$> fst r) = concat ((fun y => (fun p => aapp (body2odo y) (aapp (laser2body y) p)) <$> readings y) <$> window s).
  Proof using Type.
    unfold generate. destruct (last (window s)) as [l|] eqn:E; [|done]. intros [= <- <-] HF. exists l. split; [done|]. split; [done|]. split; [done|]. cbn [fst].
    assert (invertible l) as [D1 D2]. { rewrite Forall_forall in HF. apply HF. rewrite last_lookup in E. by apply elem_of_list_lookup_2 in E. }
    assert (H : forall v y, aapp (body2odo l) (aapp (amul (ainv (body2world l)) (amul (amul (amul (body2world l) (ainv (body2odo l))) (body2odo y)) (laser2body y))) v) = aapp (body2odo y) (aapp (laser2body y) v)).
    { intros v y. rewrite <- !aapp_mul. f_equal. rewrite <- !amul_assoc. rewrite (amul_assoc (ainv (body2world l))), ainv_l, amul_1_l by done. by rewrite (amul_assoc (body2odo l)), ainv_r, amul_1_l. }
    clear E HF. induction (window s) as [|y w IH]; [done|]. rewrite !fmap_cons. cbn [concat]. rewrite fmap_app, IH. f_equal. rewrite <- list_fmap_compose. apply list_fmap_ext. intros k v _. cbn. apply H.
  Qed.
  (** A scan differs from another one if the body moved far enough between them, or if the directions of the y axes differ far enough, except that the direction for the other
      scan is that of the last one moved by the difference of their positions. *)
  Theorem C126_differs x back y m : adet (body2odo x) <> 0%Qc -> amul (body2odo x) m = body2odo y ->
    differs x back y = moved m || turned (Vec (a12 (laser2body x)) (a22 (laser2body x)) (a32 (laser2body x)))
      (Vec (a12 (laser2body back) + (t1 (laser2body back) - t1 (laser2body y))) (a22 (laser2body back) + (t2 (laser2body back) - t2 (laser2body y))) (a32 (laser2body back) + (t3 (laser2body back) - t3 (laser2body y))))%Qc.
  Proof using Type.
    intros D E. unfold differs. rewrite <- E, amul_assoc, ainv_l, amul_1_l by done. f_equal. f_equal; unfold vsub, aapp, unit_y, translation; cbn [vx vy vz]; f_equal; ring.
  Qed.
  (** The offset of a sample turns the cloud about its own origin, and moves it. *)
  Theorem C126_sample offset t v : let w := sample_transform offset t in
    aapp w (Vec 0 0 0) = Vec (t1 offset + t1 t) (t2 offset + t2 t) (t3 offset + t3 t) /\
    vsub (aapp w v) (aapp w (Vec 0 0 0)) = vsub (aapp offset (vsub (aapp t v) (aapp t (Vec 0 0 0)))) (aapp offset (Vec 0 0 0)).
  Proof using Type. cbv zeta. unfold sample_transform, vsub, aapp, amul. cbn. split; f_equal; ring. Qed.

  (** * What does not hold *)
  (** With no lines the window is always empty, and a point cloud is undefined; *)
  Theorem C126_none_refuted a xs : exists s, run (initialize 0 a) (Add <$> xs) = Ok s /\ window s = [] /\ generate s = Bad UB.
  Proof using Type.
    assert (K : forall s, lines s = 0 -> window s = [] -> exists s', run s (Add <$> xs) = Ok s' /\ lines s' = 0 /\ window s' = []).
    { induction xs as [|x xs IH]; intros s H1 H2; [by exists s|]. rewrite fmap_cons. cbn [run step obind]. apply IH; unfold add_scan; rewrite H2; cbn [last]; unfold add_laser_scan, capacity; cbn [lines window]; [done|]. rewrite H1, H2. done. }
    destruct (K (initialize 0 a)) as (s & E & H1 & H2); [done..|]. exists s. split; [done|]. split; [done|]. unfold generate. by rewrite H2.
  Qed.
  (** with a negative number nothing is ever removed; *)
  Theorem C126_negative_refuted l a s x : - 2 ^ 31 <= l < 0 -> lines s = l -> advance s = a -> Z.of_nat (length (window s)) < 2 ^ 63 -> window (add_laser_scan x s) = window s ++ [x].
  Proof using Type.
    intros Hl H1 _ Hw. unfold add_laser_scan, capacity. cbn [window]. rewrite H1, app_length. cbn [length]. assert (l mod 2 ^ 64 = l + 2 ^ 64) as ->.
    { rewrite <- (Z.mod_unique l (2 ^ 64) (-1) (l + 2 ^ 64)); [done| |]; lia. }
    replace (Z.to_nat _) with 0%nat by lia. done.
  Qed.
  (** and a point cloud without any scan is undefined. *)
  Theorem C126_first_refuted l a os : run (initialize l a) (Generate :: os) = Bad UB.
  Proof using Type. done. Qed.
End window.

(** A case: scans at the positions 1 to 5 along a line, with two lines, a minimum of one and a threshold that lets all pass but those at the same position. *)
Definition at_x (x y : Z) : aff := Aff 1 0 0 0 1 0 0 0 1 (Q2Qc (inject_Z x)) (Q2Qc (inject_Z y)) 0.
Definition ex_moved (m : aff) : bool := negb (bool_decide (t1 m = 0%Qc)).
Definition ex_turned (a b : vec) : bool := negb (bool_decide (vx a = vx b) && bool_decide (vy a = vy b) && bool_decide (vz a = vz b)).
Definition ex_scan (x : Z) : scan := Scan (at_x x 0) (at_x (x + 10) 0) aone [Vec 0 1 0].
Definition ex_ops : list op := [Add (ex_scan 1); Add (ex_scan 2); Add (ex_scan 2); Generate; Add (ex_scan 3); Add (ex_scan 5)].
Definition show_vec (v : vec) : Q * Q * Q := (this (vx v), this (vy v), this (vz v)).
Example C126_nonvacuous : match run ex_moved ex_turned (initialize 2 1) ex_ops with
  | Ok s => (length (window s), count s, last_index s, has_new s, match generate s with Ok (r, _) => show_vec <$> fst r | _ => [] end) = (2%nat, 4, 2, true, [(-(2), 1, 0); (0, 1, 0)]%Q)
  | _ => False end /\ length (taken ex_moved ex_turned 2 ex_ops) = 4%nat /\ Forall invertible [ex_scan 3; ex_scan 5].
Proof.
  split; [vm_compute; reflexivity|]. split; [vm_compute; reflexivity|].
  assert (K : forall q, this q = 1%Q -> q <> 0%Qc). { intros q H E. rewrite E in H. discriminate. }
  do 2 (constructor; [split; apply K; vm_compute; reflexivity|]). constructor.
Qed.
(** A scan that is in the window is added again, if the laser of the last one has another position. *)
Definition head_scan (z : Z) : scan := Scan aone aone (Aff 1 0 0 0 1 0 0 (Q2Qc (inject_Z z)) 1 0 0 (Q2Qc (inject_Z z))) [].
Theorem C126_again_refuted : ~ forall (moved : aff -> bool) (turned : vec -> vec -> bool) n a os s x, moved aone = false -> (forall v, turned v v = false) -> (0 < n)%nat ->
  run moved turned (initialize (Z.of_nat n) a) os = Ok s -> x ∈ window s -> add_scan moved turned x s = s.
Proof.
  intros H. 
  assert (E : match run ex_moved ex_turned (initialize 3 1) [Add (head_scan 0); Add (head_scan 1)] with Ok s => (length (window s), length (window (add_scan ex_moved ex_turned (head_scan 0) s))) | _ => (0, 0)%nat end = (2, 3)%nat) by (vm_compute; reflexivity).
  destruct (run ex_moved ex_turned (initialize 3 1) [Add (head_scan 0); Add (head_scan 1)]) as [s| | |] eqn:Er; try discriminate.
  assert (Hw : window s = [head_scan 0; head_scan 1]). { vm_compute in Er. injection Er as <-. vm_compute. reflexivity. }
  rewrite (H ex_moved ex_turned 3%nat 1 [Add (head_scan 0); Add (head_scan 1)] s (head_scan 0)) in E; [injection E; lia|vm_compute; reflexivity| |lia|exact Er|rewrite Hw; by left].
  intros v. unfold ex_turned. by rewrite !bool_decide_true.
Qed.
