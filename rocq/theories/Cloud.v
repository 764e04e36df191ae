(** Point clouds: cutting and merging (C70, C71), bounding boxes (C72, C73).
    src/operators/CutPointcloud.cpp, src/operators/MergePointcloud.cpp, src/maps/Pointcloud.hpp, src/maps/Pointcloud.cpp, src/Core.hpp:116-144.

    Simplifications: coordinates are rational numbers (exact arithmetic instead of [double]). The transform between the frames is a parameter (what
    [relativeTransform] returns is the subject of C24). [Eigen::Quaterniond(trans.linear()) * n] is modelled by the linear part of the transform, which
    is the same for a rotation. A cloud holds the four kinds of vertex data that the operators know; other metadata is the subject of C35. *)
From stdpp Require Import prelude.
From Coq Require Import Sorting.Sorted QArith Qcanon.
From Coq Require Import Lqa.
From Verif Require Import Base Transform.

(** ** Model *)
(** Pointcloud.hpp:13-39. [None] means that [hasData] is false. *)
Record cloud := Cloud { verts : list vec; normals : option (list vec); colors : option (list vec); attrs : option (list Z); vars : option (list Qc) }.
(** Pointcloud.hpp:55-62, [clear] *)
Definition clear (c : cloud) : cloud :=
  Cloud [] ((fun _ => []) <$> normals c) ((fun _ => []) <$> colors c) ((fun _ => []) <$> attrs c) ((fun _ => []) <$> vars c).
(** [getVertexData( key )] creates the vector if there is none (Pointcloud.hpp:46-53, Layer.hpp:139-161) *)
Definition create {A B} (o : option A) (t : option (list B)) : option (list B) :=
  match o with Some _ => Some (default [] t) | None => t end.
Definition push {A} (x : A) (t : option (list A)) : option (list A) := Some (default [] t ++ [x]).
Definition set_verts (l : list vec) (c : cloud) : cloud := Cloud l (normals c) (colors c) (attrs c) (vars c).
Definition set_normals l (c : cloud) : cloud := Cloud (verts c) l (colors c) (attrs c) (vars c).
Definition set_colors l (c : cloud) : cloud := Cloud (verts c) (normals c) l (attrs c) (vars c).
Definition set_attrs l (c : cloud) : cloud := Cloud (verts c) (normals c) (colors c) l (vars c).
Definition set_vars l (c : cloud) : cloud := Cloud (verts c) (normals c) (colors c) (attrs c) l.
Definition lin (a : aff) (v : vec) : vec := aapp (Aff (a11 a) (a12 a) (a13 a) (a21 a) (a22 a) (a23 a) (a31 a) (a32 a) (a33 a) 0 0 0) v.

(** *** Boxes, [Eigen::AlignedBox<double,3>] *)
Record box := Box { bmin : vec; bmax : vec }.
Definition qleb (x y : Qc) : bool := if Qclt_le_dec y x then false else true.
Definition contains (b : box) (v : vec) : bool :=
  qleb (vx (bmin b)) (vx v) && qleb (vy (bmin b)) (vy v) && qleb (vz (bmin b)) (vz v) &&
  qleb (vx v) (vx (bmax b)) && qleb (vy v) (vy (bmax b)) && qleb (vz v) (vz (bmax b)).
(** CutPointcloud.hpp:10-17; the bool is [exclude] *)
Notation exbox := (box * bool)%type (only parsing).
(** CutPointcloud.cpp:53-69, [isIncluded] *)
Fixpoint is_included (bs : list (box * bool)) (v : vec) : bool :=
  match bs with
  | [] => true
  | b :: r => if contains b.1 v then (if b.2 then false else is_included r v) else (if b.2 then is_included r v else false)
  end.
(** CutPointcloud.cpp:39-51, [addBox] and [removeBox]; the operator stores pointers *)
Definition add_box (p : positive) (l : list positive) : list positive := if decide (p ∈ l) then l else l ++ [p].
Fixpoint remove_box (p : positive) (l : list positive) : list positive :=
  match l with [] => [] | q :: r => if decide (q = p) then r else q :: remove_box p r end.

(** CutPointcloud.cpp:115-130: vertex number [i] is [v]. Line 125 tests the size of the variances before it reads the attributes. *)
Definition cut_one (T : aff) (src : cloud) (i : nat) (v : vec) (t : cloud) : out cloud cloud :=
  let t1 := set_verts (verts t ++ [aapp T v]) t in
  let t2 := match normals src ≫= (.!! i) with Some n => set_normals (push (lin T n) (normals t1)) t1 | None => t1 end in
  let t3 := match colors src ≫= (.!! i) with Some c => set_colors (push c (colors t2)) t2 | None => t2 end in
  t4 <~ match attrs src with
        | None => Ok t3
        | Some la => match vars src with
                     | None => Bad UB
                     | Some lv => if decide (i < length lv)%nat
                                  then match la !! i with Some a => Ok (set_attrs (push a (attrs t3)) t3) | None => Throw t3 end
                                  else Ok t3
                     end
        end ;;
  Ok (match vars src ≫= (.!! i) with Some x => set_vars (push x (vars t4)) t4 | None => t4 end).
Fixpoint cut_loop (T : aff) (bs : list (box * bool)) (src : cloud) (i : nat) (vs : list vec) (t : cloud) : out cloud cloud :=
  match vs with
  | [] => Ok t
  | v :: r => t' <~ (if is_included bs v then cut_one T src i v t else Ok t) ;; cut_loop T bs src (S i) r t'
  end.
(** CutPointcloud.cpp:71-134, [updateAll], for an input and an output that are different clouds (line 78) *)
Definition cut (T : aff) (bs : list (box * bool)) (src tgt : cloud) : out cloud cloud :=
  let t := clear tgt in
  let t := Cloud (verts t) (create (normals src) (normals t)) (create (colors src) (colors t)) (create (attrs src) (attrs t)) (create (vars src) (vars t)) in
  cut_loop T bs src 0 (verts src) t.

(** MergePointcloud.cpp:71-113: one input cloud with its transform *)
Definition merge_one (has_normal has_color : bool) (T : aff) (c t : cloud) : out cloud cloud :=
  let t1 := set_verts (verts t ++ (aapp T <$> verts c)) t in
  t2 <~ (if has_normal then
           match normals c with
           | None => Throw t1
           | Some l => Ok (set_normals (Some (default [] (normals t1) ++ (lin T <$> l))) t1)
           end
         else Ok t1) ;;
  if has_color then
    match colors c with
    | None => Throw t2
    | Some l => Ok (set_colors (Some (default [] (colors t2) ++ l)) t2)
    end
  else Ok t2.
Fixpoint merge_all (hn hc : bool) (ins : list (aff * cloud)) (t : cloud) : out cloud cloud :=
  match ins with
  | [] => Ok t
  | (T, c) :: r => t' <~ merge_one hn hc T c t ;; merge_all hn hc r t'
  end.
(** MergePointcloud.cpp:51-118, [updateAll], for inputs that are different from the output (line 67) *)
Definition merge (do_clear : bool) (ins : list (aff * cloud)) (tgt : cloud) : out cloud cloud :=
  merge_all (existsb (fun i => bool_decide (is_Some (normals i.2))) ins) (existsb (fun i => bool_decide (is_Some (colors i.2))) ins) ins
    (if do_clear then clear tgt else tgt).

(** *** Bounding boxes *)
Definition qcmin (x y : Qc) : Qc := if Qclt_le_dec y x then y else x.
Definition qcmax (x y : Qc) : Qc := if Qclt_le_dec x y then y else x.
(** [std::numeric_limits<double>::max()]; an empty [AlignedBox] goes from it to its negative *)
Definition dbl_max : Qc := Q2Qc (inject_Z (2 ^ 1024 - 2 ^ 971)).
Definition empty_box : box := Box (Vec dbl_max dbl_max dbl_max) (Vec (- dbl_max) (- dbl_max) (- dbl_max)).
(** [AlignedBox::extend] *)
Definition extend (b : box) (v : vec) : box :=
  Box (Vec (qcmin (vx (bmin b)) (vx v)) (qcmin (vy (bmin b)) (vy v)) (qcmin (vz (bmin b)) (vz v)))
      (Vec (qcmax (vx (bmax b)) (vx v)) (qcmax (vy (bmax b)) (vy v)) (qcmax (vz (bmax b)) (vz v))).
(** Pointcloud.cpp:164-173, [getExtents] *)
Definition extents (c : cloud) : box := foldl extend empty_box (verts c).
(** Core.hpp:126-135: bit j of [i] selects the lower bound of coordinate j *)
Definition corner (b : box) (i : nat) : vec :=
  Vec (vx (if Nat.testbit i 0 then bmin b else bmax b)) (vy (if Nat.testbit i 1 then bmin b else bmax b)) (vz (if Nat.testbit i 2 then bmin b else bmax b)).
(** Core.hpp:116-144, [getExtentsTransformed] of a three dimensional map *)
Definition extents_transformed (T : aff) (b : box) : box := foldl extend empty_box (aapp T <$> (corner b <$> seq 0 8)).
(** ... and of a two dimensional one: the third coordinate of [corner] is not initialised (line 130), it is [z i] here. The third coordinate of the
    boxes has no meaning ([head<2>]). *)
Definition flat (v : vec) : vec := Vec (vx v) (vy v) 0.
Definition corner2 (z : nat -> Qc) (b : box) (i : nat) : vec :=
  Vec (vx (if Nat.testbit i 0 then bmin b else bmax b)) (vy (if Nat.testbit i 1 then bmin b else bmax b)) (z i).
Definition extents_transformed2 (z : nat -> Qc) (T : aff) (b : box) : box := foldl extend empty_box ((fun i => flat (aapp T (corner2 z b i))) <$> seq 0 4).

(** ** Specification *)
(** every kind of vertex data that is there has one entry for each vertex *)
Definition complete (c : cloud) : Prop :=
  (forall l, normals c = Some l -> length l = length (verts c)) /\ (forall l, colors c = Some l -> length l = length (verts c)) /\
  (forall l, attrs c = Some l -> length l = length (verts c)) /\ (forall l, vars c = Some l -> length l = length (verts c)).
(** in the box, including its faces *)
Definition within (b : box) (v : vec) : Prop :=
  (vx (bmin b) <= vx v /\ vx v <= vx (bmax b) /\ vy (bmin b) <= vy v /\ vy v <= vy (bmax b) /\ vz (bmin b) <= vz v /\ vz v <= vz (bmax b))%Qc.
(** outside all boxes that exclude and inside all others *)
Definition wanted (bs : list (box * bool)) (v : vec) : Prop :=
  forall b exclude, (b, exclude) ∈ bs -> if exclude : bool then ~ within b v else within b v.
(** the elements of [l] with the numbers [keep] *)
Definition pick {A} (keep : list nat) (l : list A) : list A := omap (fun i => l !! i) keep.

(** ** C70: cutting *)
Lemma qleb_spec x y : qleb x y = true <-> (x <= y)%Qc.
Proof.
  unfold qleb. destruct (Qclt_le_dec y x) as [H|H]; split; try done. intros H2. exfalso. apply (Qclt_not_le _ _ H H2).
Qed.
Lemma contains_spec b v : contains b v = true <-> within b v.
Proof. unfold contains, within. rewrite !andb_true_iff, !qleb_spec. tauto. Qed.
Lemma is_included_spec bs v : is_included bs v = true <-> wanted bs v.
Proof.
  induction bs as [|[b x] bs IH]; cbn [is_included fst snd].
  - split; [|done]. intros _ b x H. by apply elem_of_nil in H.
  - assert (HW : wanted ((b, x) :: bs) v <-> (if x then ~ within b v else within b v) /\ wanted bs v).
    { unfold wanted. split.
      - intros H. split; [apply H; by left|]. intros b' x' Hb. apply H. by right.
      - intros [H1 H2] b' x' [Hb|Hb]%elem_of_cons; [by injection Hb as -> ->|by apply H2]. }
    rewrite HW. destruct (contains b v) eqn:Hc.
    + apply contains_spec in Hc. destruct x; [split; [done|tauto]|]. rewrite IH. tauto.
    + assert (~ within b v) by (intros Hw; apply contains_spec in Hw; congruence). destruct x; [rewrite IH; tauto|]. split; [done|tauto].
Qed.

Lemma pick_snoc {A} keep i (l : list A) x : l !! i = Some x -> pick (keep ++ [i]) l = pick keep l ++ [x].
Proof. intros H. unfold pick. rewrite omap_app. f_equal. cbn [omap list_omap]. by rewrite H. Qed.

(** what the target looks like after the vertices [keep] have been copied *)
Definition copied (T : aff) (keep : list nat) (src old t : cloud) : Prop :=
  verts t = aapp T <$> pick keep (verts src) /\
  normals t = match normals src with Some l => Some (lin T <$> pick keep l) | None => (fun _ => []) <$> normals old end /\
  colors t = match colors src with Some l => Some (pick keep l) | None => (fun _ => []) <$> colors old end /\
  attrs t = match attrs src with Some l => Some (pick keep l) | None => (fun _ => []) <$> attrs old end /\
  vars t = match vars src with Some l => Some (pick keep l) | None => (fun _ => []) <$> vars old end.
Lemma cut_one_ok T src old keep i v t : complete src -> (is_Some (attrs src) -> is_Some (vars src)) -> verts src !! i = Some v -> copied T keep src old t ->
  exists t', cut_one T src i v t = Ok t' /\ copied T (keep ++ [i]) src old t'.
Proof.
  intros (Cn&Cc&Ca&Cv) Hav Hv (Ev&En&Ec&Ea&Er). unfold cut_one.
  assert (Hi : (i < length (verts src))%nat) by (by apply lookup_lt_Some in Hv).
  assert (Hl : forall A (l : list A), length l = length (verts src) -> exists x, l !! i = Some x).
  { intros A l Hl. apply lookup_lt_is_Some. lia. }
  destruct (normals src) as [ln|] eqn:Sn; [destruct (Hl _ ln (Cn _ eq_refl)) as [n Hn]|];
  (destruct (colors src) as [lc|] eqn:Sc; [destruct (Hl _ lc (Cc _ eq_refl)) as [c Hc]|]);
  (destruct (attrs src) as [la|] eqn:Sa; [destruct (Hl _ la (Ca _ eq_refl)) as [a Ha]; destruct (Hav ltac:(eauto)) as [lr Sr]; pose proof (Cv _ Sr) as Hlen; destruct (Hl _ lr Hlen) as [r Hr]; rewrite Sr in *; rewrite decide_True by lia
     |destruct (vars src) as [lr|] eqn:Sr; [destruct (Hl _ lr (Cv _ eq_refl)) as [r Hr]|]]);
  cbn [mbind option_bind]; rewrite ?Hn, ?Hc, ?Ha, ?Hr; cbn [obind]; eexists; (split; [reflexivity|]);
  unfold copied; rewrite ?Sn, ?Sc, ?Sa, ?Sr; cbn [verts normals colors attrs vars set_verts set_normals set_colors set_attrs set_vars];
  rewrite ?(pick_snoc keep i _ _ Hv), ?(pick_snoc keep i _ _ Hn), ?(pick_snoc keep i _ _ Hc), ?(pick_snoc keep i _ _ Ha), ?(pick_snoc keep i _ _ Hr);
  rewrite ?fmap_app, ?Ev, ?En, ?Ec, ?Ea, ?Er; auto.
Qed.
Fixpoint kept (bs : list (box * bool)) (i : nat) (vs : list vec) : list nat :=
  match vs with [] => [] | v :: r => (if is_included bs v then [i] else []) ++ kept bs (S i) r end.
Lemma kept_ge bs vs i j : j ∈ kept bs i vs -> (i <= j)%nat.
Proof.
  revert i. induction vs as [|v vs IH]; intros i; cbn [kept]; [by intros ?%elem_of_nil|].
  intros [H|H]%elem_of_app; [|apply IH in H; lia]. destruct (is_included bs v); [apply elem_of_list_singleton in H; lia|by apply elem_of_nil in H].
Qed.
Lemma kept_sorted bs vs i : StronglySorted lt (kept bs i vs).
Proof.
  revert i. induction vs as [|v vs IH]; intros i; cbn [kept]; [constructor|].
  destruct (is_included bs v); [|apply IH]. cbn [app]. constructor; [apply IH|].
  apply Forall_forall. intros j Hj%kept_ge. lia.
Qed.
Lemma kept_spec bs vs i j : j ∈ kept bs i vs <-> (i <= j)%nat /\ exists v, vs !! (j - i)%nat = Some v /\ wanted bs v.
Proof.
  revert i. induction vs as [|v vs IH]; intros i; cbn [kept].
  - split; [by intros ?%elem_of_nil|]. intros (_&v&H&_). by rewrite lookup_nil in H.
  - rewrite elem_of_app, IH. split.
    + intros [H|(Hle&w&Hw&Hin)].
      * destruct (is_included bs v) eqn:E; [|by apply elem_of_nil in H]. apply elem_of_list_singleton in H as ->. split; [lia|].
        exists v. rewrite Nat.sub_diag. split; [done|]. by apply is_included_spec.
      * split; [lia|]. exists w. replace (j - i)%nat with (S (j - S i)) by lia. done.
    + intros (Hle&w&Hw&Hin). destruct (decide (j = i)) as [->|Hne].
      * left. rewrite Nat.sub_diag in Hw. injection Hw as ->. apply is_included_spec in Hin as ->. by left.
      * right. split; [lia|]. exists w. replace (j - i)%nat with (S (j - S i)) in Hw by lia. done.
Qed.
Lemma cut_loop_ok T bs src old : complete src -> (is_Some (attrs src) -> is_Some (vars src)) -> forall vs pre keep t,
  verts src = pre ++ vs -> copied T keep src old t ->
  exists t', cut_loop T bs src (length pre) vs t = Ok t' /\ copied T (keep ++ kept bs (length pre) vs) src old t'.
Proof.
  intros HC Hav vs. induction vs as [|v vs IH]; intros pre keep t Hs Ht; cbn [cut_loop kept].
  - rewrite app_nil_r. eauto.
  - specialize (IH (pre ++ [v])). rewrite app_length, Nat.add_1_r in IH. destruct (is_included bs v).
    + destruct (cut_one_ok T src old keep (length pre) v t HC Hav) as (t1&H1&H2); [|done|].
      { rewrite Hs. by apply list_lookup_middle. }
      rewrite H1. cbn [obind]. destruct (IH (keep ++ [length pre]) t1) as (t'&H3&H4); [by rewrite Hs, <-app_assoc|done|].
      rewrite <-app_assoc in H4. eauto.
    + cbn [obind app]. apply IH; [|done]. by rewrite Hs, <-app_assoc.
Qed.

(** The output holds exactly the transformed vertices of the input that are outside all excluding boxes and inside all others, in their order and once
    each, together with the data of these vertices, and nothing else, whatever it held before. *)
Theorem C70_cut T bs src old : complete src -> (is_Some (attrs src) -> is_Some (vars src)) ->
  exists keep t, cut T bs src old = Ok t /\
    StronglySorted lt keep /\ (forall i, i ∈ keep <-> exists v, verts src !! i = Some v /\ wanted bs v) /\
    verts t = aapp T <$> pick keep (verts src) /\
    (forall l, normals src = Some l -> normals t = Some (lin T <$> pick keep l)) /\
    (forall l, colors src = Some l -> colors t = Some (pick keep l)) /\
    (forall l, attrs src = Some l -> attrs t = Some (pick keep l)) /\
    (forall l, vars src = Some l -> vars t = Some (pick keep l)).
Proof.
  intros HC Hav. destruct (cut_loop_ok T bs src old HC Hav (verts src) [] []
    (Cloud (verts (clear old)) (create (normals src) (normals (clear old))) (create (colors src) (colors (clear old))) (create (attrs src) (attrs (clear old)))
           (create (vars src) (vars (clear old))))) as (t&Ht&HT); [done| |].
  - unfold copied, create, clear. cbn [verts normals colors attrs vars].
    repeat split; repeat (match goal with |- match ?x with _ => _ end = _ => destruct x end); try done;
      try (by destruct (normals old)); try (by destruct (colors old)); try (by destruct (attrs old)); try (by destruct (vars old)).
  - exists (kept bs 0 (verts src)), t. split; [exact Ht|]. split; [apply kept_sorted|]. split.
    { intros i. rewrite kept_spec. replace (i - 0)%nat with i by lia. split; [by intros [_ ?]|]. intros ?. split; [lia|done]. }
    destruct HT as (H1&H2&H3&H4&H5). cbn [app] in *. split; [done|].
    split; [|split; [|split]]; intros l Hl; rewrite Hl in *; done.
Qed.
Lemma pick_length {A} keep (l : list A) : (forall i, i ∈ keep -> (i < length l)%nat) -> length (pick keep l) = length keep.
Proof.
  intros H. induction keep as [|i keep IH]; [done|]. unfold pick. cbn [omap list_omap].
  destruct (lookup_lt_is_Some_2 l i) as [x Hx]; [apply H; by left|]. rewrite Hx. cbn [length]. f_equal. apply IH. intros j Hj. apply H. by right.
Qed.
(** in particular every kind of data of the input is again complete *)
Theorem C70_aligned T bs src old t : complete src -> cut T bs src old = Ok t -> (is_Some (attrs src) -> is_Some (vars src)) ->
  (is_Some (normals src) -> exists l, normals t = Some l /\ length l = length (verts t)) /\ (is_Some (colors src) -> exists l, colors t = Some l /\ length l = length (verts t)) /\
  (is_Some (attrs src) -> exists l, attrs t = Some l /\ length l = length (verts t)) /\ (is_Some (vars src) -> exists l, vars t = Some l /\ length l = length (verts t)).
Proof.
  intros HC Ht Hav. destruct (C70_cut T bs src old HC Hav) as (keep&t'&Ht'&_&Hk&Hv&Hn&Hc&Ha&Hr). rewrite Ht in Ht'. injection Ht' as <-.
  assert (HL : forall A (l : list A), length l = length (verts src) -> length (pick keep l) = length (verts t)).
  { intros A l Hl. rewrite Hv, fmap_length, !pick_length; [done| |].
    - intros i (v&Hi&_)%Hk. by apply lookup_lt_Some in Hi.
    - intros i (v&Hi&_)%Hk. rewrite Hl. by apply lookup_lt_Some in Hi. }
  destruct HC as (Cn&Cc&Ca&Cr). split; [|split; [|split]]; intros [l Hl]; eexists; (split; [by eauto|]); rewrite ?fmap_length; by apply HL; eauto.
Qed.
(** For a cloud with attributes but without variances the null pointer of the variances is used (CutPointcloud.cpp:125) as soon as one vertex is kept. *)
Theorem C70_no_variance_refuted T src old v vs la : verts src = v :: vs -> attrs src = Some la -> vars src = None -> cut T [] src old = Bad UB.
Proof.
  intros Hv Ha Hr. unfold cut. rewrite Hv. cbn [cut_loop is_included]. unfold cut_one. rewrite Ha, Hr. done.
Qed.
(** The boxes of an operator form a set, in the order of their first addition. *)
Theorem C70_boxes p q l : NoDup l ->
  (NoDup (add_box p l) /\ (q ∈ add_box p l <-> q = p \/ q ∈ l)) /\ (NoDup (remove_box p l) /\ (q ∈ remove_box p l <-> q <> p /\ q ∈ l)).
Proof.
  intros HN. split.
  - unfold add_box. destruct (decide (p ∈ l)) as [Hp|Hp].
    + split; [done|]. split; [by right|]. by intros [->|?].
    + split.
      * apply NoDup_app. split; [done|]. split; [|apply NoDup_singleton]. intros x Hx Hx2. apply elem_of_list_singleton in Hx2 as ->. done.
      * rewrite elem_of_app, elem_of_list_singleton. tauto.
  - induction l as [|x l IH]; cbn [remove_box].
    + split; [constructor|]. split; [by intros ?%elem_of_nil|by intros [_ ?]].
    + apply NoDup_cons in HN as [Hx HN]. destruct (decide (x = p)) as [->|Hne].
      * split; [done|]. rewrite elem_of_cons. split; [|naive_solver]. intros Hq. split; [by intros ->|by right].
      * destruct (IH HN) as [IH1 IH2]. split.
        { apply NoDup_cons. split; [|done]. clear IH. intros Hin. clear IH2. apply Hx. clear -Hin. induction l as [|y l IH]; cbn [remove_box] in Hin; [done|].
          destruct (decide (y = p)); [by right|]. apply elem_of_cons in Hin as [->|Hin]; [by left|right; by apply IH]. }
        { rewrite !elem_of_cons, IH2. naive_solver. }
Qed.
Definition pt (x y z : Q) : vec := Vec (Q2Qc x) (Q2Qc y) (Q2Qc z).
Definition show (v : vec) : Q * Q * Q := (this (vx v), this (vy v), this (vz v)).
Local Open Scope Q_scope.
Definition demo_box : box := Box (pt 0 0 0) (pt 2 2 2).
Definition demo_cloud : cloud := Cloud [pt 1 1 1; pt 3 0 0; pt 0 2 1; pt 1 1 (1 # 2)] None (Some [pt 1 0 0; pt 0 1 0; pt 0 0 1; pt 1 1 1])
  (Some [1; 2; 3; 4]%Z) (Some [Q2Qc 1; Q2Qc 1; Q2Qc 1; Q2Qc 1]).
Definition demo_trans : aff := Aff 1 0 0 0 1 0 0 0 1 (Q2Qc 5) 0 0.
(** three of the four vertices are in the first box, and one of these is in the second one, which excludes *)
Definition demo_boxes : list (box * bool) := [(demo_box, false); (Box (pt 0 2 0) (pt 1 3 1), true)].
Example C70_nonvacuous :
  complete demo_cloud /\ (is_Some (attrs demo_cloud) -> is_Some (vars demo_cloud)) /\
  exists t, cut demo_trans demo_boxes demo_cloud (Cloud [pt 0 0 0] None None None None) = Ok t /\ show <$> verts t = [(6, 1, 1); (6, 1, 1 # 2)] /\ attrs t = Some [1; 4]%Z.
Proof.
  split; [|split].
  - unfold complete. repeat split; intros l H; try discriminate H; cbn in H; injection H as <-; reflexivity.
  - intros _. eexists. reflexivity.
  - assert (H : match cut demo_trans demo_boxes demo_cloud (Cloud [pt 0 0 0] None None None None) with
        Ok t => show <$> verts t = [(6, 1, 1); (6, 1, 1 # 2)] /\ attrs t = Some [1; 4]%Z | _ => False end) by (vm_compute; split; reflexivity).
    destruct (cut demo_trans demo_boxes demo_cloud (Cloud [pt 0 0 0] None None None None)) as [t| | |] eqn:E; try done. exists t. split; [reflexivity|exact H].
Qed.

(** ** C71: merging *)
Lemma merge_all_ok hn hc ins : forall t,
  (hn = true -> Forall (fun i => is_Some (normals i.2)) ins) -> (hc = true -> Forall (fun i => is_Some (colors i.2)) ins) -> exists t', merge_all hn hc ins t = Ok t' /\
    verts t' = verts t ++ mjoin ((fun i => aapp i.1 <$> verts i.2) <$> ins) /\
    normals t' = (if hn && negb (bool_decide (ins = [])) then Some (default [] (normals t) ++ mjoin ((fun i => lin i.1 <$> default [] (normals i.2)) <$> ins)) else normals t) /\
    colors t' = (if hc && negb (bool_decide (ins = [])) then Some (default [] (colors t) ++ mjoin ((fun i => default [] (colors i.2)) <$> ins)) else colors t) /\
    attrs t' = attrs t /\ vars t' = vars t.
Proof.
  induction ins as [|[T c] ins IH]; intros t HN HC.
  - cbn [merge_all]. exists t. split; [done|]. rewrite (bool_decide_true ([] = [])) by done. rewrite !andb_false_r. cbn [fmap list_fmap mjoin list_join]. rewrite app_nil_r. auto.
  - rewrite (bool_decide_false (_ :: _ = [])) by done. rewrite !andb_true_r. cbn [merge_all].
    assert (HN' : hn = true -> exists l, normals c = Some l) by (intros H; specialize (HN H); by apply Forall_cons in HN as [? _]).
    assert (HC' : hc = true -> exists l, colors c = Some l) by (intros H; specialize (HC H); by apply Forall_cons in HC as [? _]).
    assert (HN2 : hn = true -> Forall (fun i : aff * cloud => is_Some (normals i.2)) ins) by (intros H; specialize (HN H); by apply Forall_cons in HN as [_ ?]).
    assert (HC2 : hc = true -> Forall (fun i : aff * cloud => is_Some (colors i.2)) ins) by (intros H; specialize (HC H); by apply Forall_cons in HC as [_ ?]).
    set (t1 := Cloud (verts t ++ (aapp T <$> verts c)) (if hn then Some (default [] (normals t) ++ (lin T <$> default [] (normals c))) else normals t)
      (if hc then Some (default [] (colors t) ++ default [] (colors c)) else colors t) (attrs t) (vars t)).
    assert (H1 : merge_one hn hc T c t = Ok t1).
    { unfold merge_one, t1. destruct t as [tv tn tc ta tr]. unfold set_verts, set_normals, set_colors. cbn [verts normals colors attrs vars].
      destruct hn; [destruct (HN' eq_refl) as [ln ->]|]; cbn [obind]; (destruct hc; [destruct (HC' eq_refl) as [lc ->]|]); done. }
    rewrite H1. cbn [obind]. destruct (IH t1 HN2 HC2) as (t'&Ht'&Hv&Hn&Hc&Ha&Hr). exists t'. split; [done|].
    unfold t1 in Hv, Hn, Hc, Ha, Hr. cbn [verts normals colors attrs vars] in *. rewrite !fmap_cons. cbn [mjoin list_join fst snd].
    assert (Hnil : forall B (f : aff * cloud -> list B), ins = [] -> mjoin (f <$> ins) = []) by (intros B f ->; done).
    split; [by rewrite Hv, <-app_assoc|]. split; [|split; [|done]].
    + rewrite Hn. destruct hn; cbn [andb]; [|done]. destruct (bool_decide (ins = [])) eqn:E; cbn [negb].
      * apply bool_decide_eq_true in E as ->. cbn [fmap list_fmap mjoin list_join]. by rewrite app_nil_r.
      * cbn [default id]. by rewrite <-app_assoc.
    + rewrite Hc. destruct hc; cbn [andb]; [|done]. destruct (bool_decide (ins = [])) eqn:E; cbn [negb].
      * apply bool_decide_eq_true in E as ->. cbn [fmap list_fmap mjoin list_join]. by rewrite app_nil_r.
      * cbn [default id]. by rewrite <-app_assoc.
Qed.
(** all inputs have normals, or none has; and the same for the colours *)
Definition uniform (ins : list (aff * cloud)) : Prop :=
  (forall i j, i ∈ ins -> j ∈ ins -> is_Some (normals i.2) -> is_Some (normals j.2)) /\ (forall i j, i ∈ ins -> j ∈ ins -> is_Some (colors i.2) -> is_Some (colors j.2)).
Lemma exists_all (f : cloud -> option (list vec)) (ins : list (aff * cloud)) : (forall i j, i ∈ ins -> j ∈ ins -> is_Some (f i.2) -> is_Some (f j.2)) ->
  existsb (fun i => bool_decide (is_Some (f i.2))) ins = true -> Forall (fun i => is_Some (f i.2)) ins.
Proof.
  intros H (i&Hi&Hs)%existsb_exists. apply bool_decide_eq_true in Hs. apply Forall_forall. intros j Hj. apply (H i j); [by apply elem_of_list_In|done|done].
Qed.
(** The vertices of all inputs, each transformed into the frame of the output, follow each other in the order of the inputs; normals and colours do too.
    What the output held is kept only if the operator was told so. *)
Theorem C71_merge do_clear ins old : uniform ins -> exists t, merge do_clear ins old = Ok t /\
  verts t = (if do_clear then [] else verts old) ++ mjoin ((fun i => aapp i.1 <$> verts i.2) <$> ins) /\
  (forall i, i ∈ ins -> is_Some (normals i.2) ->
     normals t = Some ((if do_clear then [] else default [] (normals old)) ++ mjoin ((fun i => lin i.1 <$> default [] (normals i.2)) <$> ins))) /\
  (forall i, i ∈ ins -> is_Some (colors i.2) ->
     colors t = Some ((if do_clear then [] else default [] (colors old)) ++ mjoin ((fun i => default [] (colors i.2)) <$> ins))).
Proof.
  intros [HN HC]. unfold merge.
  destruct (merge_all_ok _ _ ins (if do_clear then clear old else old) (exists_all normals ins HN) (exists_all colors ins HC)) as (t&Ht&Hv&Hn&Hc&_).
  exists t. split; [exact Ht|].
  assert (HE : forall (f : cloud -> option (list vec)) i, i ∈ ins -> is_Some (f i.2) -> existsb (fun i => bool_decide (is_Some (f i.2))) ins && negb (bool_decide (ins = [])) = true).
  { intros f i Hi Hs. apply andb_true_iff. split.
    - apply existsb_exists. exists i. split; [by apply elem_of_list_In|]. by apply bool_decide_eq_true.
    - rewrite bool_decide_false; [done|]. intros ->. by apply elem_of_nil in Hi. }
  split; [by rewrite Hv; destruct do_clear|]. split; intros i Hi Hs.
  - rewrite (HE normals i Hi Hs) in Hn. rewrite Hn. destruct do_clear; [|done]. unfold clear. cbn [normals]. by destruct (normals old).
  - rewrite (HE colors i Hi Hs) in Hc. rewrite Hc. destruct do_clear; [|done]. unfold clear. cbn [colors]. by destruct (colors old).
Qed.
Lemma join_length {A B} (f : A -> list B) (g : A -> list B) (l : list A) : (forall x, x ∈ l -> length (f x) = length (g x)) -> length (mjoin (f <$> l)) = length (mjoin (g <$> l)).
Proof.
  intros H. induction l as [|x l IH]; [done|]. rewrite !fmap_cons. cbn [mjoin list_join]. rewrite !app_length, (H x) by (by left).
  f_equal. apply IH. intros y Hy. apply H. by right.
Qed.
(** one normal and one colour for each vertex, if that was so for the inputs *)
Theorem C71_aligned ins old t : uniform ins -> (forall i, i ∈ ins -> complete i.2) -> merge true ins old = Ok t ->
  (forall i, i ∈ ins -> is_Some (normals i.2) -> exists l, normals t = Some l /\ length l = length (verts t)) /\
  (forall i, i ∈ ins -> is_Some (colors i.2) -> exists l, colors t = Some l /\ length l = length (verts t)).
Proof.
  intros HU HC Ht. destruct (C71_merge true ins old HU) as (t'&Ht'&Hv&Hn&Hc). rewrite Ht in Ht'. injection Ht' as <-. destruct HU as [UN UC].
  split; intros i Hi Hs.
  - eexists. split; [by apply (Hn i)|]. rewrite Hv. cbn [app]. apply join_length. intros j Hj. rewrite !fmap_length.
    destruct (UN i j Hi Hj Hs) as [l Hl]. rewrite Hl. cbn [default id]. destruct (HC j Hj) as (Hcc&_). by apply Hcc.
  - eexists. split; [by apply (Hc i)|]. rewrite Hv. cbn [app]. apply join_length. intros j Hj. rewrite !fmap_length.
    destruct (UC i j Hi Hj Hs) as [l Hl]. rewrite Hl. cbn [default id]. destruct (HC j Hj) as (_&Hcc&_). by apply Hcc.
Qed.
(** If only some of the inputs have normals, the merge is refused with an exception. *)
Theorem C71_mixed do_clear ins old i j : i ∈ ins -> j ∈ ins -> is_Some (normals i.2) -> normals j.2 = None -> exists t, merge do_clear ins old = Throw t.
Proof.
  intros Hi Hj Hs Hn. unfold merge.
  assert (existsb (fun i => bool_decide (is_Some (normals i.2))) ins = true) as ->.
  { apply existsb_exists. exists i. split; [by apply elem_of_list_In|]. by apply bool_decide_eq_true. }
  generalize (existsb (fun i => bool_decide (is_Some (colors i.2))) ins) (if do_clear then clear old else old). intros hc t. clear Hi Hs i.
  revert t. induction ins as [|[T c] ins IH]; intros t; [by apply elem_of_nil in Hj|]. cbn [merge_all].
  apply elem_of_cons in Hj as [->|Hj].
  - cbn [snd] in Hn. unfold merge_one. rewrite Hn. cbn [obind]. eauto.
  - unfold merge_one. destruct (normals c); cbn [obind]; [|eauto]. destruct hc; [destruct (colors c)|]; cbn [obind]; eauto.
Qed.
(** Variances and attributes are not merged: an output that had them has none for the new vertices. *)
Theorem C71_variances_refuted : exists ins old t, uniform ins /\ (forall i, i ∈ ins -> complete i.2) /\ complete old /\ merge true ins old = Ok t /\
  verts t <> [] /\ vars t = Some [].
Proof.
  exists [(aone, demo_cloud)], (Cloud [] None None None (Some [])).
  assert (H : match merge true [(aone, demo_cloud)] (Cloud [] None None None (Some [])) with Ok t => length (verts t) = 4%nat /\ vars t = Some [] | _ => False end)
    by (vm_compute; split; reflexivity).
  destruct (merge true [(aone, demo_cloud)] (Cloud [] None None None (Some []))) as [t| | |] eqn:E; try done. exists t. destruct H as [H1 H2].
  split; [split; intros i j Hi Hj; apply elem_of_list_singleton in Hi as ->; apply elem_of_list_singleton in Hj as ->; done|].
  split; [intros i Hi; apply elem_of_list_singleton in Hi as ->; apply C70_nonvacuous|].
  split; [unfold complete; repeat split; intros l Hl; cbn in Hl; try discriminate Hl; injection Hl as <-; done|].
  split; [reflexivity|]. split; [|exact H2]. intros Hv. rewrite Hv in H1. discriminate H1.
Qed.
Example C71_nonvacuous : exists t, uniform [(aone, demo_cloud); (demo_trans, demo_cloud)] /\ merge true [(aone, demo_cloud); (demo_trans, demo_cloud)] demo_cloud = Ok t /\
  length (verts t) = 8%nat /\ show <$> verts t !! 5%nat = Some (8, 0, 0).
Proof.
  assert (H : match merge true [(aone, demo_cloud); (demo_trans, demo_cloud)] demo_cloud with
    Ok t => length (verts t) = 8%nat /\ show <$> verts t !! 5%nat = Some (8, 0, 0) | _ => False end) by (vm_compute; split; reflexivity).
  destruct (merge true [(aone, demo_cloud); (demo_trans, demo_cloud)] demo_cloud) as [t| | |] eqn:E; try done. exists t. split; [|split; [reflexivity|exact H]].
  split; intros i j Hi Hj; repeat (apply elem_of_cons in Hi as [->|Hi]); try (by apply elem_of_nil in Hi); repeat (apply elem_of_cons in Hj as [->|Hj]);
    try (by apply elem_of_nil in Hj); done.
Qed.

(** ** C72, C73: bounding boxes *)
Lemma this_add (x y : Qc) : this (x + y)%Qc == this x + this y.
Proof. apply Qred_correct. Qed.
Lemma this_mul (x y : Qc) : this (x * y)%Qc == this x * this y.
Proof. apply Qred_correct. Qed.
Lemma this_0 : this 0%Qc == 0.
Proof. reflexivity. Qed.
Lemma qcmin_l x y : (qcmin x y <= x)%Qc.
Proof. unfold qcmin. destruct (Qclt_le_dec y x); [by apply Qclt_le_weak|apply Qcle_refl]. Qed.
Lemma qcmin_r x y : (qcmin x y <= y)%Qc.
Proof. unfold qcmin. destruct (Qclt_le_dec y x); [apply Qcle_refl|done]. Qed.
Lemma qcmax_l x y : (x <= qcmax x y)%Qc.
Proof. unfold qcmax. destruct (Qclt_le_dec x y); [by apply Qclt_le_weak|apply Qcle_refl]. Qed.
Lemma qcmax_r x y : (y <= qcmax x y)%Qc.
Proof. unfold qcmax. destruct (Qclt_le_dec x y); [apply Qcle_refl|done]. Qed.
Lemma qcmin_or x y : qcmin x y = x \/ qcmin x y = y.
Proof. unfold qcmin. destruct (Qclt_le_dec y x); auto. Qed.
Lemma qcmax_or x y : qcmax x y = x \/ qcmax x y = y.
Proof. unfold qcmax. destruct (Qclt_le_dec x y); auto. Qed.
(** the numbers a [double] can hold *)
Definition bounded (v : vec) : Prop := within (Box (Vec (- dbl_max) (- dbl_max) (- dbl_max)) (Vec dbl_max dbl_max dbl_max)) v.

Definition covers (b c : box) : Prop :=
  (vx (bmin b) <= vx (bmin c) /\ vy (bmin b) <= vy (bmin c) /\ vz (bmin b) <= vz (bmin c) /\ vx (bmax c) <= vx (bmax b) /\ vy (bmax c) <= vy (bmax b) /\ vz (bmax c) <= vz (bmax b))%Qc.
Lemma covers_refl b : covers b b.
Proof. unfold covers. repeat split; apply Qcle_refl. Qed.
Lemma covers_trans a b c : covers a b -> covers b c -> covers a c.
Proof. unfold covers. intros (?&?&?&?&?&?) (?&?&?&?&?&?). repeat split; eapply Qcle_trans; eassumption. Qed.
Lemma covers_within a b v : covers a b -> within b v -> within a v.
Proof. unfold covers, within. intros (?&?&?&?&?&?) (?&?&?&?&?&?). repeat split; eapply Qcle_trans; eassumption. Qed.
Lemma extend_covers b v : covers (extend b v) b.
Proof. unfold covers, extend. cbn [bmin bmax vx vy vz]. repeat split; first [apply qcmin_l|apply qcmax_l]. Qed.
Lemma extend_within b v : within (extend b v) v.
Proof. unfold within, extend. cbn [bmin bmax vx vy vz]. repeat split; first [apply qcmin_r|apply qcmax_r]. Qed.
Lemma foldl_covers vs b : covers (foldl extend b vs) b.
Proof.
  revert b. induction vs as [|v vs IH]; intros b; cbn [foldl]; [apply covers_refl|]. eapply covers_trans; [apply IH|apply extend_covers].
Qed.
Lemma foldl_within vs b v : v ∈ vs -> within (foldl extend b vs) v.
Proof.
  revert b. induction vs as [|w vs IH]; intros b Hv; [by apply elem_of_nil in Hv|]. cbn [foldl].
  apply elem_of_cons in Hv as [->|Hv]; [|by apply IH]. eapply covers_within; [apply foldl_covers|apply extend_within].
Qed.
(** each face of the box contains one of the points *)
Definition touched (b : box) (vs : list vec) : Prop :=
  (exists v, v ∈ vs /\ vx v = vx (bmin b)) /\ (exists v, v ∈ vs /\ vy v = vy (bmin b)) /\ (exists v, v ∈ vs /\ vz v = vz (bmin b)) /\
  (exists v, v ∈ vs /\ vx v = vx (bmax b)) /\ (exists v, v ∈ vs /\ vy v = vy (bmax b)) /\ (exists v, v ∈ vs /\ vz v = vz (bmax b)).
Lemma foldl_touched vs b us : touched b us -> (forall v, v ∈ vs -> v ∈ us) -> touched (foldl extend b vs) us.
Proof.
  revert b. induction vs as [|w vs IH]; intros b HT HS; cbn [foldl]; [done|]. apply IH; [|intros; apply HS; by right].
  assert (Hw : w ∈ us) by (apply HS; by left). destruct HT as (H1&H2&H3&H4&H5&H6). unfold touched, extend. cbn [bmin bmax vx vy vz].
  split; [|split; [|split; [|split; [|split]]]]; (match goal with |- exists v, _ /\ _ = qcmin ?x ?y => destruct (qcmin_or x y) as [->| ->] | |- exists v, _ /\ _ = qcmax ?x ?y => destruct (qcmax_or x y) as [->| ->] end);
    first [assumption|by exists w].
Qed.
Lemma qcmin_eq x y : (y <= x)%Qc -> qcmin x y = y.
Proof. intros H. unfold qcmin. destruct (Qclt_le_dec y x) as [|H2]; [done|]. by apply Qcle_antisym. Qed.
Lemma qcmax_eq x y : (x <= y)%Qc -> qcmax x y = y.
Proof. intros H. unfold qcmax. destruct (Qclt_le_dec x y) as [|H2]; [done|]. by apply Qcle_antisym. Qed.
Lemma extend_empty v : bounded v -> extend empty_box v = Box v v.
Proof.
  unfold bounded, within. cbn [bmin bmax vx vy vz]. intros (?&?&?&?&?&?). unfold extend, empty_box. cbn [bmin bmax vx vy vz].
  rewrite !qcmin_eq, !qcmax_eq by done. by destruct v.
Qed.
Lemma box_of_points vs : (forall v, v ∈ vs -> bounded v) -> vs <> [] -> touched (foldl extend empty_box vs) vs.
Proof.
  intros HB Hne. destruct vs as [|v vs]; [done|]. cbn [foldl]. rewrite extend_empty by (apply HB; by left).
  apply foldl_touched; [|intros; by right]. unfold touched. cbn [bmin bmax]. repeat split; exists v; (split; [by left|done]).
Qed.
(** The extents of a cloud contain all its vertices, and are as small as possible: a vertex lies on each of the six faces. The box of an empty cloud
    contains nothing. *)
Theorem C72_extents c : (forall v, v ∈ verts c -> bounded v) ->
  (forall v, v ∈ verts c -> within (extents c) v) /\ (verts c <> [] -> touched (extents c) (verts c)) /\ (verts c = [] -> forall v, ~ within (extents c) v).
Proof.
  intros HB. unfold extents. split; [intros v Hv; by apply foldl_within|]. split; [by apply box_of_points|].
  intros -> v. cbn [foldl]. unfold within, empty_box. cbn [bmin bmax vx]. intros (H1&H2&_).
  assert (H : (dbl_max <= - dbl_max)%Qc) by (by eapply Qcle_trans). revert H. unfold Qcle, Qle. vm_compute. done.
Qed.
Example C72_nonvacuous : (forall v, v ∈ verts demo_cloud -> bounded v) /\ show (bmin (extents demo_cloud)) = (0, 0, 0) /\ show (bmax (extents demo_cloud)) = (3, 2, 1).
Proof.
  split; [|split; vm_compute; reflexivity]. intros v Hv. apply contains_spec.
  repeat (apply elem_of_cons in Hv as [->|Hv]; [vm_compute; reflexivity|]). by apply elem_of_nil in Hv.
Qed.
Lemma pick_upper (a lo hi p : Qc) : (lo <= p -> p <= hi -> exists c : bool, a * p <= a * (if c then lo else hi))%Qc.
Proof.
  intros H1 H2. destruct (Qclt_le_dec a 0) as [Ha|Ha].
  - exists true. unfold Qcle, Qclt in *. rewrite !this_mul. rewrite this_0 in Ha. nra.
  - exists false. unfold Qcle, Qclt in *. rewrite !this_mul. rewrite this_0 in Ha. nra.
Qed.
Lemma pick_lower (a lo hi p : Qc) : (lo <= p -> p <= hi -> exists c : bool, a * (if c then lo else hi) <= a * p)%Qc.
Proof.
  intros H1 H2. destruct (Qclt_le_dec a 0) as [Ha|Ha].
  - exists false. unfold Qcle, Qclt in *. rewrite !this_mul. rewrite this_0 in Ha. nra.
  - exists true. unfold Qcle, Qclt in *. rewrite !this_mul. rewrite this_0 in Ha. nra.
Qed.
Lemma sum_le (a b c d a' b' c' : Qc) : (a <= a' -> b <= b' -> c <= c' -> a + b + c + d <= a' + b' + c' + d)%Qc.
Proof. intros. apply Qcplus_le_compat; [|apply Qcle_refl]. by apply Qcplus_le_compat; [apply Qcplus_le_compat|]. Qed.
Lemma corner_bits b (c0 c1 c2 : bool) : exists i, i ∈ seq 0 8 /\
  corner b i = Vec (if c0 then vx (bmin b) else vx (bmax b)) (if c1 then vy (bmin b) else vy (bmax b)) (if c2 then vz (bmin b) else vz (bmax b)).
Proof.
  exists ((if c0 then 1 else 0) + (if c1 then 2 else 0) + (if c2 then 4 else 0))%nat. split; [apply elem_of_seq; destruct c0, c1, c2; lia|].
  by destruct c0, c1, c2.
Qed.
(** a linear function takes its largest and smallest values in a box at corners *)
Lemma corner_upper b v (a1 a2 a3 d : Qc) : within b v -> exists i, i ∈ seq 0 8 /\
  (a1 * vx v + a2 * vy v + a3 * vz v + d <= a1 * vx (corner b i) + a2 * vy (corner b i) + a3 * vz (corner b i) + d)%Qc.
Proof.
  intros (B1&B2&B3&B4&B5&B6). destruct (pick_upper a1 (vx (bmin b)) (vx (bmax b)) (vx v)) as [c0 H0]; [done..|].
  destruct (pick_upper a2 (vy (bmin b)) (vy (bmax b)) (vy v)) as [c1 H1]; [done..|]. destruct (pick_upper a3 (vz (bmin b)) (vz (bmax b)) (vz v)) as [c2 H2]; [done..|].
  destruct (corner_bits b c0 c1 c2) as (i&Hi&Hc). exists i. split; [done|]. rewrite Hc. cbn [vx vy vz]. by apply sum_le.
Qed.
Lemma corner_lower b v (a1 a2 a3 d : Qc) : within b v -> exists i, i ∈ seq 0 8 /\
  (a1 * vx (corner b i) + a2 * vy (corner b i) + a3 * vz (corner b i) + d <= a1 * vx v + a2 * vy v + a3 * vz v + d)%Qc.
Proof.
  intros (B1&B2&B3&B4&B5&B6). destruct (pick_lower a1 (vx (bmin b)) (vx (bmax b)) (vx v)) as [c0 H0]; [done..|].
  destruct (pick_lower a2 (vy (bmin b)) (vy (bmax b)) (vy v)) as [c1 H1]; [done..|]. destruct (pick_lower a3 (vz (bmin b)) (vz (bmax b)) (vz v)) as [c2 H2]; [done..|].
  destruct (corner_bits b c0 c1 c2) as (i&Hi&Hc). exists i. split; [done|]. rewrite Hc. cbn [vx vy vz]. by apply sum_le.
Qed.
Lemma corner_image T b i : i ∈ seq 0 8 -> within (extents_transformed T b) (aapp T (corner b i)).
Proof. intros Hi. apply foldl_within. apply elem_of_list_fmap. eexists. split; [reflexivity|]. apply elem_of_list_fmap. eauto. Qed.
Lemma corner_within b v i : within b v -> within b (corner b i).
Proof.
  intros (?&?&?&?&?&?). unfold within, corner. cbn [vx vy vz].
  destruct (Nat.testbit i 0), (Nat.testbit i 1), (Nat.testbit i 2); repeat split; first [apply Qcle_refl|eapply Qcle_trans; eassumption].
Qed.
(** The extents of a three dimensional map in another frame contain the image of every point in the extents of the map, and are as small as possible. *)
Theorem C73_transformed T b : (forall v, within b v -> within (extents_transformed T b) (aapp T v)) /\
  ((exists v, within b v) -> (forall v, within b v -> bounded (aapp T v)) -> exists vs, (forall v, v ∈ vs -> within b v) /\ touched (extents_transformed T b) (aapp T <$> vs)).
Proof.
  split.
  - intros v Hv. unfold within. unfold aapp. cbn [vx vy vz].
    destruct (corner_lower b v (a11 T) (a12 T) (a13 T) (t1 T) Hv) as (i1&I1&H1). destruct (corner_upper b v (a11 T) (a12 T) (a13 T) (t1 T) Hv) as (i2&I2&H2).
    destruct (corner_lower b v (a21 T) (a22 T) (a23 T) (t2 T) Hv) as (i3&I3&H3). destruct (corner_upper b v (a21 T) (a22 T) (a23 T) (t2 T) Hv) as (i4&I4&H4).
    destruct (corner_lower b v (a31 T) (a32 T) (a33 T) (t3 T) Hv) as (i5&I5&H5). destruct (corner_upper b v (a31 T) (a32 T) (a33 T) (t3 T) Hv) as (i6&I6&H6).
    pose proof (corner_image T b i1 I1) as (K1&_). pose proof (corner_image T b i2 I2) as (_&K2&_). pose proof (corner_image T b i3 I3) as (_&_&K3&_).
    pose proof (corner_image T b i4 I4) as (_&_&_&K4&_). pose proof (corner_image T b i5 I5) as (_&_&_&_&K5&_). pose proof (corner_image T b i6 I6) as (_&_&_&_&_&K6).
    unfold aapp in K1, K2, K3, K4, K5, K6. cbn [vx vy vz] in K1, K2, K3, K4, K5, K6.
    split; [exact (Qcle_trans _ _ _ K1 H1)|]. split; [exact (Qcle_trans _ _ _ H2 K2)|]. split; [exact (Qcle_trans _ _ _ K3 H3)|].
    split; [exact (Qcle_trans _ _ _ H4 K4)|]. split; [exact (Qcle_trans _ _ _ K5 H5)|]. exact (Qcle_trans _ _ _ H6 K6).
  - intros [v Hv] HB. exists (corner b <$> seq 0 8).
    assert (HC : forall w, w ∈ corner b <$> seq 0 8 -> within b w) by (intros w (i&->&_)%elem_of_list_fmap; by eapply corner_within).
    split; [exact HC|]. apply box_of_points; [|done]. intros w (u&->&Hu)%elem_of_list_fmap. apply HB, HC, Hu.
Qed.
(** For a two dimensional map this is so if the transform does not mix the height into the plane, whatever the uninitialised height is ... *)
Theorem C73_plane z T b : a13 T = 0%Qc -> a23 T = 0%Qc -> forall v, within b v -> within (extents_transformed2 z T b) (flat (aapp T (flat v))).
Proof.
  intros Hx Hy v (B1&B2&B3&B4&_&_).
  assert (HI : forall c0 c1 : bool, within (extents_transformed2 z T b) (flat (aapp T (Vec (if c0 then vx (bmin b) else vx (bmax b)) (if c1 then vy (bmin b) else vy (bmax b)) 0)))).
  { intros c0 c1. apply foldl_within. apply elem_of_list_fmap. exists ((if c0 then 1 else 0) + (if c1 then 2 else 0))%nat.
    split; [|apply elem_of_seq; destruct c0, c1; lia]. unfold flat, aapp, corner2. rewrite Hx, Hy. cbn [vx vy vz].
    destruct c0, c1; cbn -[Qcplus Qcmult]; f_equal; ring. }
  unfold within. unfold flat, aapp. cbn [vx vy vz]. unfold flat, aapp in HI. cbn [vx vy vz] in HI.
  destruct (pick_lower (a11 T) _ _ _ B1 B2) as [c0 H0]. destruct (pick_lower (a12 T) _ _ _ B3 B4) as [c1 H1]. destruct (HI c0 c1) as (K1&_).
  destruct (pick_upper (a11 T) _ _ _ B1 B2) as [c2 H2]. destruct (pick_upper (a12 T) _ _ _ B3 B4) as [c3 H3]. destruct (HI c2 c3) as (_&K2&_).
  destruct (pick_lower (a21 T) _ _ _ B1 B2) as [c4 H4]. destruct (pick_lower (a22 T) _ _ _ B3 B4) as [c5 H5]. destruct (HI c4 c5) as (_&_&K3&_).
  destruct (pick_upper (a21 T) _ _ _ B1 B2) as [c6 H6]. destruct (pick_upper (a22 T) _ _ _ B3 B4) as [c7 H7]. destruct (HI c6 c7) as (_&_&_&K4&K5&K6).
  cbn [vx vy vz] in *. split; [eapply Qcle_trans; [exact K1|]; apply sum_le; [done|done|apply Qcle_refl]|].
  split; [eapply Qcle_trans; [|exact K2]; apply sum_le; [done|done|apply Qcle_refl]|].
  split; [eapply Qcle_trans; [exact K3|]; apply sum_le; [done|done|apply Qcle_refl]|].
  split; [eapply Qcle_trans; [|exact K4]; apply sum_le; [done|done|apply Qcle_refl]|]. by split.
Qed.
(** ... and fails for a map in a frame that is turned about the y axis: the result depends on what the memory of the corners held. *)
Theorem C73_plane_refuted : exists T b z v, within b v /\ ~ within (extents_transformed2 z T b) (flat (aapp T (flat v))).
Proof.
  exists (Aff 0 0 1 0 1 0 (- 1) 0 0 0 0 0)%Qc, (Box (pt 0 0 0) (pt 1 1 0)), (fun _ => Q2Qc 7), (pt 1 1 0).
  split; [apply contains_spec; vm_compute; reflexivity|]. intros H. apply contains_spec in H. vm_compute in H. discriminate H.
Qed.
(** a rotation by 90 degrees about the z axis and a translation *)
Example C73_nonvacuous :
  let T := Aff 0 (Q2Qc (- (1))) 0 1 0 0 0 0 1 (Q2Qc 10) 0 0 in
  within demo_box (pt 1 2 0) /\ show (bmin (extents_transformed T demo_box)) = (8, 0, 0) /\ show (bmax (extents_transformed T demo_box)) = (10, 2, 2) /\
  a13 T = 0%Qc /\ a23 T = 0%Qc /\ bounded (aapp T (pt 1 2 0)).
Proof.
  cbn zeta. split; [apply contains_spec; vm_compute; reflexivity|]. split; [vm_compute; reflexivity|]. split; [vm_compute; reflexivity|].
  split; [done|]. split; [done|]. apply contains_spec. vm_compute. reflexivity.
Qed.
