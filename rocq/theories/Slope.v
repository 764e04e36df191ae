(** Model of the operator that computes slopes and steps of a surface map (src/operators/MLSSlope.cpp, MLSSlope.hpp).  C112, C113.

    Heights are exact rational numbers with infinities; the plane fit (:162, :192, :200-202) comes from outside of the model, as a function
    of the points given to it.  The scales of the grids, which are only compared (:78) and scale the points, are left out. *)
From Coq Require Import ZArith QArith Qcanon.
From stdpp Require Import prelude list.
From Verif Require Import Base.
Local Open Scope Z_scope.

(** MLSPatch.hpp: the fields that are used; hits: the number of measurements *)
Record patch : Type := Patch { mean : Qc; stdev : Qc; hits : nat }.
(** std::max_element with SurfacePatch::operator<, MLSPatch.hpp:124-127: the first of the highest means *)
Fixpoint max_element (best : patch) (l : list patch) : patch :=
  match l with [] => best | p :: r => max_element (if Qclt_le_dec (mean best) (mean p) then p else best) r end.
Definition top (l : list patch) : option patch := match l with [] => None | p :: r => Some (max_element p r) end.

(** ** Numbers with infinities *)
Inductive ext : Type := Low | Fin (q : Qc) | High | Nan.
Definition xlt (a b : ext) : bool :=
  match a, b with
  | Fin x, Fin y => if Qclt_le_dec x y then true else false
  | Low, Fin _ | Low, High | Fin _, High => true
  | _, _ => false
  end.
(** std::max *)
Definition xmax (a b : ext) : ext := if xlt a b then b else a.
Definition xopp (a : ext) : ext := match a with Low => High | High => Low | Fin x => Fin (- x) | Nan => Nan end.
Definition xadd (a b : ext) : ext :=
  match a, b with
  | Fin x, Fin y => Fin (x + y)
  | Nan, _ | _, Nan | Low, High | High, Low => Nan
  | Low, _ | _, Low => Low
  | High, _ | _, High => High
  end.
Definition xsub (a b : ext) : ext := xadd a (xopp b).
(** times a positive number *)
Definition xscale (q : Qc) (a : ext) : ext := match a with Fin x => Fin (q * x) | _ => a end.

Definition cell : Type := Z * Z.
Definition quarter : Qc := Q2Qc (1 # 4).

(** MLSSlope.hpp:21-38; a member that the constructor does not set is [None] *)
Record conf : Type := Conf { threshold : Qc; use_stddev : bool; required : option nat; window : option nat }.
Definition default_conf : conf := Conf quarter false (Some 0%nat) (Some 1%nat).
Definition conf2 (t : Qc) (u : bool) : conf := Conf t u None None.
Definition conf3 (t : Qc) (u : bool) (r : nat) : conf := Conf t u (Some r) None.

Section Slope.
  (** A: angles *)
  Context {A : Type} (fit : list (Z * Z * Qc) -> A).
  (** the arrays; [None] in the angles: UNKNOWN, -infinity *)
  Record st : Type := St { diffs : cell -> nat -> ext; counts : cell -> Z; angles : cell -> option A; max_steps : cell -> ext; corrected : cell -> ext }.
  Definition inside (w h : Z) (c : cell) : bool := (0 <=? c.1) && (c.1 <? w) && (0 <=? c.2) && (c.2 <? h).
  Definition set_diff (c : cell) (k : nat) (v : ext) (d : cell -> nat -> ext) : cell -> nat -> ext := fun c' k' => if decide (c' = c /\ k' = k) then v else d c' k'.
  Definition upd {B} (c : cell) (v : B) (a : cell -> B) : cell -> B := fun c' => if decide (c' = c) then v else a c'.

  (** :42-51 *)
  Definition step (sd : bool) (p q : patch) : Qc :=
    let s0 := if sd then stdev p else 0%Qc in
    let s1 := if sd then stdev q else 0%Qc in
    if Qclt_le_dec (mean q) (mean p) then ((mean p + s0) - (mean q - s1))%Qc else ((mean q + s1) - (mean p - s0))%Qc.

  Section Grid.
  Context (w h : Z) (mls : cell -> list patch).
  (** :14-64; the cell this_cell is given by its patch *)
  Definition update_gradient (sd : bool) (req : nat) (p : patch) (k : nat) (this : cell) (k' : nat) (other : cell) (s : st) : out () st :=
    if inside w h other && inside w h this then
      match top (mls other) with
      | Some q =>
        if decide (req <= hits q)%nat then
          let v := Fin (step sd p q) in
          let n1 := upd this (counts s this + 1) (counts s) in
          Ok (St (set_diff other k' v (set_diff this k v (diffs s))) (upd other (n1 other + 1) n1) (angles s) (max_steps s) (corrected s))
        else Ok (St (set_diff other k' Low (set_diff other k Low (diffs s))) (counts s) (angles s) (max_steps s) (corrected s))
      | None => Ok (St (set_diff other k' Low (set_diff other k Low (diffs s))) (counts s) (angles s) (max_steps s) (corrected s))
      end
    else Bad UB.
  (** the size of the output; an access outside fails an assertion of boost, or is undefined without assertions *)
  Context (tw th : Z).
  Definition put_angle (c : cell) (v : option A) (s : st) : out () st :=
    if inside tw th c then Ok (St (diffs s) (counts s) (upd c v (angles s)) (max_steps s) (corrected s)) else Bad UB.
  Definition put_max (c : cell) (v : ext) (s : st) : out () st :=
    if inside tw th c then Ok (St (diffs s) (counts s) (angles s) (upd c v (max_steps s)) (corrected s)) else Bad UB.
  Definition put_corrected (c : cell) (v : ext) (s : st) : out () st :=
    if inside tw th c then Ok (St (diffs s) (counts s) (angles s) (max_steps s) (upd c v (corrected s))) else Bad UB.

  (** :165-189: the points for the plane fit *)
  Definition span (ws : nat) : list Z := seqZ (- Z.of_nat ws) (2 * Z.of_nat ws + 1).
  Definition window_points (ws : nat) (c : cell) (p : patch) : list (Z * Z * Qc) :=
    span ws ≫= fun xi => span ws ≫= fun yi =>
      if decide (xi = 0 /\ yi = 0) then [] else
      let r := (c.1 + xi, c.2 + yi) in
      if inside w h r then match top (mls r) with Some q => [(xi, yi, (mean p - mean q)%Qc)] | None => [] end else [].

  (** the body of the first loops, :134-204; the numbers of the neighbours: :120-128 *)
  Definition visit (cf : conf) (c : cell) (s : st) : out () st :=
    match top (mls c) with
    | None => put_angle c None s
    | Some p =>
      match required cf with
      | None => Bad UB
      | Some req =>
        if bool_decide (0 < req)%nat && negb (bool_decide (req <= hits p)%nat) then put_angle c None s
        else
          let sd := use_stddev cf in
          let '(x, y) := c in
          s <~ update_gradient sd req p 0 c 1 (x, y + 1) s ;;
          s <~ update_gradient sd req p 2 c 3 (x - 1, y - 1) s ;;
          s <~ update_gradient sd req p 4 c 5 (x - 1, y) s ;;
          s <~ update_gradient sd req p 6 c 7 (x - 1, y + 1) s ;;
          match window cf with
          | None => Bad UB
          | Some ws =>
            let pts := window_points ws c p in
            if decide (length pts < 5)%nat then put_angle c None s else put_angle c (Some (fit pts)) s
          end
      end
    end.
  (** :213-238 *)
  Definition max_of (d : nat -> ext) : ext := foldl (fun m i => xmax (xmax m (d (2 * i)%nat)) (d (2 * i + 1)%nat)) Low (seq 0 4).
  Definition corrected_of (d : nat -> ext) : ext :=
    foldl (fun m i => let s0 := d (2 * i)%nat in let s1 := d (2 * i + 1)%nat in
      xmax (xmax m (xsub s0 (xscale quarter (xadd s0 s1)))) (xsub s0 (xscale quarter (xscale (Q2Qc 3) (xadd s0 s1))))) Low (seq 0 4).
  Definition evaluate (cf : conf) (c : cell) (s : st) : out () st :=
    if decide (counts s c < 5) then s <~ put_max c Low s ;; put_corrected c Low s
    else
      let m := max_of (diffs s c) in
      s <~ put_max c m s ;;
      put_corrected c (if xlt m (Fin (threshold cf)) then corrected_of (diffs s c) else m) s.
  (** :241-258 *)
  Definition clear (c : cell) (s : st) : out () st := s <~ put_angle c None s ;; s <~ put_max c Low s ;; put_corrected c Low s.
  Definition borders : list cell := (seqZ 0 w ≫= fun x => [(x, 0); (x, h - 1)]) ++ (seqZ 0 h ≫= fun y => [(0, y); (w - 1, y)]).
  Definition first_cells : list cell := seqZ 1 (w - 1) ≫= fun x => pair x <$> seqZ 1 (h - 2).
  Definition second_cells : list cell := seqZ 1 (w - 2) ≫= fun x => pair x <$> seqZ 1 (h - 2).
  Fixpoint each (f : cell -> st -> out () st) (l : list cell) (s : st) : out () st := match l with [] => Ok s | c :: l => s <~ f c s ;; each f l s end.
  (** :67-261; the argument: the bands of the output before *)
  Definition update_all (cf : conf) (ang : cell -> option A) (cor : cell -> ext) : out () st :=
    if negb (bool_decide (w = tw)) && negb (bool_decide (h = th)) then Throw ()
    else if decide (w = 0 \/ h = 0) then Throw ()
    else
      s <~ each (visit cf) first_cells (St (fun _ _ => Fin 0) (fun _ => 0) ang (fun _ => Low) cor) ;;
      s <~ each (evaluate cf) second_cells s ;;
      each clear borders s.
  End Grid.
End Slope.

(** * Specification *)
(** the eight neighbours of a cell *)
Definition around (c : cell) : list cell :=
  let '(x, y) := c in [(x, y + 1); (x, y - 1); (x - 1, y - 1); (x + 1, y + 1); (x - 1, y); (x + 1, y); (x - 1, y + 1); (x + 1, y - 1)].
(** in the second row and in the last row but one some neighbours are not looked at *)
Definition overlooked (h : Z) (c o : cell) : Prop := (c.2 = 1 /\ o.2 = 0 /\ c.1 <= o.1) \/ (c.2 = h - 2 /\ o.2 = h - 1 /\ o.1 = c.1 + 1).
Global Instance overlooked_dec h c o : Decision (overlooked h c o).
Proof. unfold overlooked. apply _. Defined.
Definition compared (h : Z) (c : cell) : list cell := filter (fun o => ~ overlooked h c o) (around c).
(** the highest patch of a cell, if it has one with enough measurements *)
Definition known (mls : cell -> list patch) (req : nat) (c : cell) : option patch :=
  match top (mls c) with Some p => if decide (req <= hits p)%nat then Some p else None | None => None end.
(** the height of the step between two patches: from the lower end of the lower one to the upper end of the upper one *)
Definition rise (sd : bool) (p q : patch) : Qc :=
  let far a b := ((mean a + (if sd then stdev a else 0)) - (mean b - (if sd then stdev b else 0)))%Qc in
  if Qclt_le_dec (mean q) (mean p) then far p q else far q p.
Definition rises (h : Z) (mls : cell -> list patch) (req : nat) (sd : bool) (c : cell) (p : patch) : list Qc :=
  omap (fun o => rise sd p <$> known mls req o) (compared h c).
Definition greatest (m : Qc) (l : list Qc) : Prop := m ∈ l /\ forall x, x ∈ l -> (x <= m)%Qc.
(** the step to a neighbour, 0 if it is not known *)
Definition rise_to (h : Z) (mls : cell -> list patch) (req : nat) (sd : bool) (c : cell) (p : patch) (o : cell) : Qc :=
  if decide (overlooked h c o) then 0 else match known mls req o with Some q => rise sd p q | None => 0 end.
(** for four pairs of opposite neighbours: the two values that are used for the corrected step *)
Definition corrections (h : Z) (mls : cell -> list patch) (req : nat) (sd : bool) (c : cell) (p : patch) : list Qc :=
  let '(x, y) := c in
  [(0, 1); (-1, -1); (-1, 0); (-1, 1)] ≫= fun '(dx, dy) =>
    let s0 := rise_to h mls req sd c p (x + dx, y + dy) in let s1 := rise_to h mls req sd c p (x - dx, y - dy) in
    [(s0 - quarter * (s0 + s1))%Qc; (s0 - quarter * (Q2Qc 3 * (s0 + s1)))%Qc].
Definition border (w h : Z) (c : cell) : Prop := c.1 = 0 \/ c.1 = w - 1 \/ c.2 = 0 \/ c.2 = h - 1.
Global Instance border_dec w h c : Decision (border w h c).
Proof. unfold border. apply _. Defined.
Definition sane (mls : cell -> list patch) (sd : bool) : Prop := forall c p, p ∈ mls c -> sd = true -> (0 <= stdev p)%Qc.

(** * Proofs *)
Lemma filter_same {T} (l : list T) (P Q : T -> bool) : (forall j, j ∈ l -> Q j = P j) -> filter (fun j => Q j = true) l = filter (fun j => P j = true) l.
Proof.
  induction l as [|x l IH]; [done|]. intros H. rewrite !filter_cons, (H x) by left. rewrite IH; [done|]. intros j Hj. apply H. by right.
Qed.
Lemma filter_one {T} (l : list T) (P Q : T -> bool) (i : T) : NoDup l -> i ∈ l -> P i = false -> Q i = true -> (forall j, j <> i -> Q j = P j) ->
  length (filter (fun j => Q j = true) l) = S (length (filter (fun j => P j = true) l)).
Proof.
  intros Hn Hi Hp Hq Hj. induction Hn as [|x l Hx Hn IH]; [by apply elem_of_nil in Hi|]. rewrite !filter_cons.
  apply elem_of_cons in Hi as [<-|Hi].
  - rewrite Hp, Hq. rewrite decide_True, decide_False by done. cbn [length]. f_equal. f_equal. apply filter_same. intros j Hjl. apply Hj. by intros ->.
  - assert (x <> i) by (intros ->; done). rewrite (Hj x) by done. destruct (decide (P x = true)); cbn [length]; rewrite IH by done; done.
Qed.
Lemma max_element_in best l : max_element best l = best \/ max_element best l ∈ l.
Proof.
  induction l as [|p l IH] in best |- *; [by left|]. cbn [max_element]. destruct (IH (if Qclt_le_dec (mean best) (mean p) then p else best)) as [->|H].
  - destruct (Qclt_le_dec (mean best) (mean p)); [right; left|by left].
  - right. by right.
Qed.
Lemma top_in l p : top l = Some p -> p ∈ l.
Proof. destruct l as [|q l]; [done|]. cbn [top]. intros [= <-]. destruct (max_element_in q l) as [->|H]; [left|by right]. Qed.
Lemma step_sym sd p q : step sd p q = step sd q p.
Proof.
  unfold step. destruct (Qclt_le_dec (mean q) (mean p)) as [H|H], (Qclt_le_dec (mean p) (mean q)) as [H'|H']; try done.
  - exfalso. apply (Qclt_not_le _ _ H). by apply Qclt_le_weak.
  - assert (mean p = mean q) as E by (by apply Qcle_antisym). rewrite E. destruct sd; ring.
Qed.
Lemma step_rise sd p q : step sd p q = rise sd p q.
Proof. done. Qed.
Lemma qc_le_sub a b : (a <= b)%Qc -> (0 <= b - a)%Qc.
Proof. intros H. apply Qcle_minus_iff in H. done. Qed.
Lemma rise_nonneg sd p q : (sd = true -> (0 <= stdev p)%Qc /\ (0 <= stdev q)%Qc) -> (0 <= rise sd p q)%Qc.
Proof.
  intros Hs. assert (Hf : forall a b, (mean b <= mean a)%Qc -> (sd = true -> (0 <= stdev a)%Qc /\ (0 <= stdev b)%Qc) ->
    (0 <= (mean a + (if sd then stdev a else 0)) - (mean b - (if sd then stdev b else 0)))%Qc).
  { intros a b H Hab. apply qc_le_sub in H. destruct sd.
    - destruct Hab as [Ha Hb]; [done|]. replace (mean a + stdev a - (mean b - stdev b))%Qc with ((mean a - mean b) + (stdev a + stdev b))%Qc by ring.
      rewrite <- (Qcplus_0_l 0). apply Qcplus_le_compat; [done|]. rewrite <- (Qcplus_0_l 0). by apply Qcplus_le_compat.
    - replace (mean a + 0 - (mean b - 0))%Qc with (mean a - mean b)%Qc by ring. done. }
  unfold rise. destruct (Qclt_le_dec (mean q) (mean p)) as [H|H].
  - apply Hf; [by apply Qclt_le_weak|tauto].
  - apply Hf; [done|tauto].
Qed.
Lemma fold_max (l : list Qc) (a : ext) : match a with Low => l <> [] | Fin _ => True | _ => False end ->
  exists m, foldl xmax a (Fin <$> l) = Fin m /\ greatest m (match a with Fin x => x :: l | _ => l end).
Proof.
  induction l as [|x l IH] in a |- *; intros Ha.
  - destruct a; try done. exists q. split; [done|]. split; [left|]. intros y ->%elem_of_list_singleton. apply Qcle_refl.
  - cbn [fmap list_fmap foldl]. destruct a as [|q| |]; try done.
    + destruct (IH (Fin x)) as (m & Hm & Hg); [done|]. exists m. by split.
    + unfold xmax at 2. cbn [xlt]. destruct (Qclt_le_dec q x) as [Hlt|Hle].
      * destruct (IH (Fin x)) as (m & Hm & Hg1 & Hg2); [done|]. exists m. split; [done|]. split; [by right|].
        intros y [->|Hy]%elem_of_cons; [|by apply Hg2]. apply Qcle_trans with x; [by apply Qclt_le_weak|]. apply Hg2. left.
      * destruct (IH (Fin q)) as (m & Hm & Hg1 & Hg2); [done|]. exists m. split; [done|]. split.
        -- apply elem_of_cons in Hg1 as [->|Hg1]; [left|]. right. by right.
        -- intros y [->|[->|Hy]%elem_of_cons]%elem_of_cons; [apply Hg2; left| |apply Hg2; by right].
           apply Qcle_trans with q; [done|]. apply Hg2. left.
Qed.

Section Proofs.
  Context {A : Type} (fit : list (Z * Z * Qc) -> A) (w h : Z) (mls : cell -> list patch).
  Context (sd : bool) (req : nat).
  Notation update_gradient := (@update_gradient A w h mls sd req).
  Definition partner (c : cell) (k : nat) : cell := default c (around c !! k).
  Definition ok (c : cell) : bool := match known mls req c with Some _ => true | None => false end.
  Definition edge : Type := cell * nat.
  Definition cmp (es : list edge) (c : cell) (k : nat) : bool :=
    ok c && ok (partner c k) && (if Nat.even k then bool_decide ((c, k) ∈ es) else bool_decide ((partner c k, (k - 1)%nat) ∈ es)).
  Definition between (c o : cell) : Qc := match known mls req c, known mls req o with Some p, Some q => step sd p q | _, _ => 0%Qc end.
  Record inv (es : list edge) (s : @st A) : Prop := {
    inv_diffs : forall c k, ok c = true -> (k < 8)%nat -> diffs s c k = Fin (if cmp es c k then between c (partner c k) else 0%Qc);
    inv_counts : forall c, counts s c = if ok c then Z.of_nat (length (filter (fun k => cmp es c k = true) (seq 0 8))) else 0 }.
  Definition out_edges : list nat := [0%nat; 2%nat; 4%nat; 6%nat].
  Lemma partner_back v k : k ∈ out_edges -> partner (partner v k) (k + 1)%nat = v /\ partner v k <> v.
  Proof using Type.
    intros Hk. destruct v as [x y]. unfold out_edges in Hk. rewrite !elem_of_cons in Hk.
    assert (Hc : forall a b c d : Z, a = c -> b = d -> (a, b) = (c, d)) by (intros; by subst).
    destruct Hk as [->|[->|[->|[->|Hk]]]]; [| | | |by apply elem_of_nil in Hk];
      (split; [unfold partner; cbn; apply Hc; lia|unfold partner; cbn; intros [=]; lia]).
  Qed.
  Lemma partner_inj c v k : k ∈ out_edges -> partner c (k + 1)%nat = v -> c = partner v k.
  Proof using Type.
    intros Hk <-. destruct c as [x y]. unfold out_edges in Hk. rewrite !elem_of_cons in Hk.
    assert (Hc : forall a b c d : Z, a = c -> b = d -> (a, b) = (c, d)) by (intros; by subst).
    destruct Hk as [->|[->|[->|[->|Hk]]]]; [| | | |by apply elem_of_nil in Hk]; unfold partner; cbn; apply Hc; lia.
  Qed.
  Lemma out_even k : k ∈ out_edges -> Nat.even k = true /\ Nat.even (k + 1) = false /\ (k + 1 < 8)%nat.
  Proof using Type.
    unfold out_edges. rewrite !elem_of_cons. intros [->|[->|[->|[->|Hk]]]]; [| | | |by apply elem_of_nil in Hk]; (split; [done|split; [done|lia]]).
  Qed.
  Lemma cmp_other es v k c j : k ∈ out_edges -> (c, j) <> (v, k) -> (c, j) <> (partner v k, (k + 1)%nat) -> cmp (es ++ [(v, k)]) c j = cmp es c j.
  Proof using Type.
    intros Hk H1 H2. unfold cmp. f_equal. destruct (Nat.even j) eqn:Ej.
    - apply bool_decide_ext. rewrite elem_of_app, elem_of_list_singleton. tauto.
    - apply bool_decide_ext. rewrite elem_of_app, elem_of_list_singleton. split; [|tauto]. intros [H|H]; [done|]. exfalso. injection H as Hp Hj.
      destruct j as [|j]; [discriminate Ej|]. replace (S j - 1)%nat with j in Hj by lia. subst j. apply H2. replace (S k) with (k + 1)%nat in * by lia.
      f_equal. by apply partner_inj.
  Qed.
  Lemma cmp_invalid es v k c j : k ∈ out_edges -> ok v = false \/ ok (partner v k) = false -> cmp (es ++ [(v, k)]) c j = cmp es c j.
  Proof using Type.
    intros Hk Ho. destruct (decide ((c, j) = (v, k))) as [E|N1].
    - injection E as -> ->. unfold cmp. destruct Ho as [->| ->]; rewrite ?andb_false_r; done.
    - destruct (decide ((c, j) = (partner v k, (k + 1)%nat))) as [E|N2]; [|by apply cmp_other].
      injection E as -> ->. unfold cmp. destruct (partner_back v k Hk) as [-> _]. destruct Ho as [->| ->]; rewrite ?andb_false_r; done.
  Qed.
  Lemma inv_invalid es v k s : k ∈ out_edges -> ok v = false \/ ok (partner v k) = false -> inv es s -> inv (es ++ [(v, k)]) s.
  Proof using Type.
    intros Hk Ho [Hd Hc]. split.
    - intros c j Hok Hj. rewrite cmp_invalid by done. by apply Hd.
    - intros c. rewrite Hc. destruct (ok c); [|done]. do 2 f_equal. apply filter_same. intros j _. symmetry. by apply cmp_invalid.
  Qed.
  Lemma known_ok c p : known mls req c = Some p -> ok c = true.
  Proof using Type. unfold ok. by intros ->. Qed.
  Lemma gradient_ok es v k p s : k ∈ out_edges -> known mls req v = Some p -> (v, k) ∉ es -> inside w h v = true -> inside w h (partner v k) = true -> inv es s ->
    exists s', update_gradient p k v (k + 1) (partner v k) s = Ok s' /\ inv (es ++ [(v, k)]) s' /\
      angles s' = angles s /\ max_steps s' = max_steps s /\ corrected s' = corrected s.
  Proof using Type.
    intros Hk Hv Hin I1 I2 HI. unfold Slope.update_gradient. rewrite I1, I2. cbn [andb]. set (o := partner v k) in *.
    destruct (partner_back v k Hk) as [Hback Hne]. fold o in Hback, Hne. destruct (out_even k Hk) as (Ev & Od & Hlt).
    destruct (known mls req o) as [q|] eqn:Ho.
    - assert (top (mls o) = Some q /\ (req <= hits q)%nat) as [-> Hq].
      { unfold known in Ho. destruct (top (mls o)) as [q'|]; [|done]. destruct (decide (req <= hits q')%nat); [|done]. by injection Ho as ->. }
      rewrite decide_True by done. eexists. split; [reflexivity|]. split; [|done]. destruct HI as [Hd Hc].
      assert (Hbv : between v o = step sd p q) by (unfold between; by rewrite Hv, Ho).
      assert (Hbo : between o v = step sd p q) by (unfold between; rewrite Hv, Ho; apply step_sym).
      assert (Cv : cmp (es ++ [(v, k)]) v k = true). { unfold cmp. rewrite (known_ok _ _ Hv), Ev. fold o. rewrite (known_ok _ _ Ho). cbn [andb]. apply bool_decide_eq_true_2, elem_of_app. right. left. }
      assert (Co : cmp (es ++ [(v, k)]) o (k + 1) = true).
      { unfold cmp. rewrite (known_ok _ _ Ho), Od, Hback, (known_ok _ _ Hv). cbn [andb]. apply bool_decide_eq_true_2, elem_of_app. right. replace (k + 1 - 1)%nat with k by lia. left. }
      assert (Cv' : cmp es v k = false). { unfold cmp. rewrite Ev, bool_decide_eq_false_2 by done. apply andb_false_r. }
      assert (Co' : cmp es o (k + 1) = false). { unfold cmp. rewrite Od, Hback. replace (k + 1 - 1)%nat with k by lia. rewrite bool_decide_eq_false_2 by done. apply andb_false_r. }
      split; cbn [diffs counts].
      + intros c j Hok Hj. unfold set_diff. destruct (decide (c = o /\ j = (k + 1)%nat)) as [[-> ->]|N1].
        { rewrite Co, Hback, Hbo. done. }
        destruct (decide (c = v /\ j = k)) as [[-> ->]|N2].
        { rewrite Cv. fold o. by rewrite Hbv. }
        rewrite cmp_other; [by apply Hd|done|intros [=]; tauto|intros [=]; tauto].
      + intros c. unfold upd. destruct (decide (c = o)) as [->|N1].
        * rewrite decide_False by done. rewrite Hc, (known_ok _ _ Ho).
          rewrite (filter_one (seq 0 8) (cmp es o) (cmp (es ++ [(v, k)]) o) (k + 1)%nat); [lia|apply NoDup_seq|apply elem_of_seq; lia|done|done|].
          intros j Hj. apply cmp_other; [done|intros [=]; done|intros [=]; done].
        * destruct (decide (c = v)) as [->|N2].
          -- rewrite Hc, (known_ok _ _ Hv).
             rewrite (filter_one (seq 0 8) (cmp es v) (cmp (es ++ [(v, k)]) v) k); [lia|apply NoDup_seq|apply elem_of_seq; lia|done|done|].
             intros j Hj. apply cmp_other; [done|intros [=]; done|intros [=]; done].
          -- rewrite Hc. destruct (ok c); [|done]. do 2 f_equal. apply filter_same. intros j _. symmetry. apply cmp_other; [done|intros [=]; done|intros [=]; done].
    - assert (Hok : ok o = false) by (unfold ok; by rewrite Ho).
      assert (Hlow : exists s', (match top (mls o) with
        | Some q => if decide (req <= hits q)%nat then
            Ok (St (set_diff o (k + 1) (Fin (step sd p q)) (set_diff v k (Fin (step sd p q)) (diffs s))) (upd o (upd v (counts s v + 1) (counts s) o + 1) (upd v (counts s v + 1) (counts s))) (angles s) (max_steps s) (corrected s))
          else Ok (St (set_diff o (k + 1) Low (set_diff o k Low (diffs s))) (counts s) (angles s) (max_steps s) (corrected s))
        | None => Ok (St (set_diff o (k + 1) Low (set_diff o k Low (diffs s))) (counts s) (angles s) (max_steps s) (corrected s)) end : out () (@st A)) = Ok s' /\
          s' = St (set_diff o (k + 1) Low (set_diff o k Low (diffs s))) (counts s) (angles s) (max_steps s) (corrected s)).
      { unfold known in Ho. destruct (top (mls o)) as [q|]; [|eexists; split; reflexivity]. destruct (decide (req <= hits q)%nat); [done|]. eexists; split; reflexivity. }
      destruct Hlow as (s' & -> & ->). eexists. split; [reflexivity|]. split; [|done]. apply inv_invalid; [done|by right|].
      destruct HI as [Hd Hc]. split; cbn [diffs counts]; [|done]. intros c j Hokc Hj. unfold set_diff.
      rewrite decide_False by (intros [-> _]; congruence). rewrite decide_False by (intros [-> _]; congruence). by apply Hd.
  Qed.

  Context (cf : conf) (ws : nat) (Hsd : use_stddev cf = sd) (Hreq : required cf = Some req) (Hws : window cf = Some ws).
  Notation visit := (visit fit w h mls w h cf).
  Definition slope (c : cell) : option A :=
    match known mls req c with
    | Some p => let pts := window_points w h mls ws c p in if decide (length pts < 5)%nat then None else Some (fit pts)
    | None => None
    end.
  Definition cell_edges (c : cell) : list edge := pair c <$> out_edges.
  Lemma inside_iff0 c : inside w h c = true <-> 0 <= c.1 < w /\ 0 <= c.2 < h.
  Proof using Type. unfold inside. rewrite !andb_true_iff, !Z.leb_le, !Z.ltb_lt. lia. Qed.
  Lemma visit_ok es c s : 1 <= c.1 < w -> 1 <= c.2 < h - 1 -> (forall k, (c, k) ∉ es) -> inv es s ->
    exists s', visit c s = Ok s' /\ inv (es ++ cell_edges c) s' /\ angles s' = upd c (slope c) (angles s) /\ max_steps s' = max_steps s /\ corrected s' = corrected s.
  Proof using Hsd Hreq Hws.
    intros Hx Hy Hes HI. assert (Hin : inside w h c = true) by (apply inside_iff0; lia).
    destruct (known mls req c) as [p|] eqn:Hk.
    - assert (top (mls c) = Some p /\ (req <= hits p)%nat) as [Ht Hq].
      { unfold known in Hk. destruct (top (mls c)) as [q'|]; [|done]. destruct (decide (req <= hits q')%nat); [|done]. by injection Hk as ->. }
      unfold Slope.visit. rewrite Ht, Hreq. rewrite (bool_decide_eq_true_2 (req <= hits p)%nat) by done. cbn [negb]. rewrite andb_false_r, Hsd.
      destruct c as [x y]. cbn [fst snd] in Hx, Hy.
      destruct (gradient_ok es (x, y) 0 p s) as (s1 & E1 & I1 & A1 & M1 & C1); try done; [left|apply inside_iff0; cbn; lia|]. change (update_gradient p 0 (x, y) 1 (x, y + 1) s = Ok s1) in E1. rewrite E1. cbn [obind].
      destruct (gradient_ok (es ++ [((x, y), 0%nat)]) (x, y) 2 p s1) as (s2 & E2 & I2 & A2 & M2 & C2); try done.
      { right; left. } { rewrite elem_of_app, elem_of_list_singleton. intros [H|H]; [by eapply Hes|done]. } { apply inside_iff0; cbn; lia. } change (update_gradient p 2 (x, y) 3 (x - 1, y - 1) s1 = Ok s2) in E2. rewrite E2. cbn [obind].
      destruct (gradient_ok ((es ++ [((x, y), 0%nat)]) ++ [((x, y), 2%nat)]) (x, y) 4 p s2) as (s3 & E3 & I3 & A3 & M3 & C3); try done.
      { right; right; left. } { rewrite !elem_of_app, !elem_of_list_singleton. intros [[H|H]|H]; [by eapply Hes|done|done]. } { apply inside_iff0; cbn; lia. } change (update_gradient p 4 (x, y) 5 (x - 1, y) s2 = Ok s3) in E3. rewrite E3. cbn [obind].
      destruct (gradient_ok (((es ++ [((x, y), 0%nat)]) ++ [((x, y), 2%nat)]) ++ [((x, y), 4%nat)]) (x, y) 6 p s3) as (s4 & E4 & I4 & A4 & M4 & C4); try done.
      { right; right; right; left. } { rewrite !elem_of_app, !elem_of_list_singleton. intros [[[H|H]|H]|H]; [by eapply Hes|done|done|done]. } { apply inside_iff0; cbn; lia. } change (update_gradient p 6 (x, y) 7 (x - 1, y + 1) s3 = Ok s4) in E4. rewrite E4. cbn [obind].
      rewrite Hws. unfold slope. rewrite Hk. unfold put_angle. rewrite Hin.
      rewrite <- !(assoc_L (++)) in I4. cbn [app] in I4.
      assert (HI4 : forall a, inv (es ++ cell_edges (x, y)) (St (diffs s4) (counts s4) a (max_steps s4) (corrected s4))). { intros a. destruct I4 as [D1 D2]. by split. }
      destruct (decide (length (window_points w h mls ws (x, y) p) < 5)%nat); (eexists; split; [reflexivity|]; split; [apply HI4|]; cbn [angles max_steps corrected]; split; [congruence|split; congruence]).
    - assert (Hok : ok c = false) by (unfold ok; by rewrite Hk).
      assert (Hv : visit c s = put_angle w h c None s).
      { unfold Slope.visit. unfold known in Hk. destruct (top (mls c)) as [p|]; [|done]. rewrite Hreq.
        destruct (decide (req <= hits p)%nat); [done|]. rewrite bool_decide_eq_true_2 by lia. rewrite bool_decide_eq_false_2 by done. done. }
      rewrite Hv. unfold put_angle. rewrite Hin. eexists. split; [reflexivity|]. unfold slope. rewrite Hk. split; [|done].
      assert (HI' : inv es (St (diffs s) (counts s) (upd c None (angles s)) (max_steps s) (corrected s))). { destruct HI as [D1 D2]. by split. }
      change (es ++ cell_edges c) with (es ++ [(c, 0%nat)] ++ [(c, 2%nat)] ++ [(c, 4%nat)] ++ [(c, 6%nat)]). rewrite !(assoc_L (++)).
      apply inv_invalid; [do 3 right; left|by left|]. apply inv_invalid; [do 2 right; left|by left|]. apply inv_invalid; [do 1 right; left|by left|]. apply inv_invalid; [left|by left|]. done.
  Qed.
  Lemma edges_in cs c k : (c, k) ∈ (cs ≫= cell_edges) -> c ∈ cs.
  Proof using Type.
    intros H. apply elem_of_list_bind in H as (d & Hd & Hc). unfold cell_edges in Hd. apply elem_of_list_fmap in Hd as (j & Hj & _). by injection Hj as -> ->.
  Qed.
  Lemma each_visit done_ cs s : Forall (fun c => 1 <= c.1 < w /\ 1 <= c.2 < h - 1) cs -> NoDup (done_ ++ cs) -> inv (done_ ≫= cell_edges) s ->
    exists s', each visit cs s = Ok s' /\ inv ((done_ ++ cs) ≫= cell_edges) s' /\ max_steps s' = max_steps s /\ corrected s' = corrected s /\
      forall c, angles s' c = if decide (c ∈ cs) then slope c else angles s c.
  Proof using Hsd Hreq Hws.
    intros Hf. induction Hf as [|c cs [Hx Hy] Hf IH] in done_, s |- *; intros Hn HI; cbn [each].
    - exists s. rewrite app_nil_r in *. split; [done|]. split; [done|]. split; [done|]. split; [done|]. intros c. by rewrite decide_False by apply not_elem_of_nil.
    - assert (Hc : c ∉ done_). { intros H. apply NoDup_app in Hn as (_ & Hn & _). apply (Hn c H). left. }
      destruct (visit_ok (done_ ≫= cell_edges) c s Hx Hy) as (s1 & E1 & I1 & A1 & M1 & C1); [intros k H; by apply edges_in in H|done|].
      rewrite E1. cbn [obind]. destruct (IH (done_ ++ [c]) s1) as (s2 & E2 & I2 & M2 & C2 & A2).
      { by rewrite <- (assoc_L (++)). }
      { rewrite bind_app. cbn [mbind list_bind]. by rewrite app_nil_r. }
      exists s2. split; [done|]. rewrite <- (assoc_L (++)) in I2. split; [done|]. split; [congruence|]. split; [congruence|].
      intros d. rewrite A2, A1. unfold upd. destruct (decide (d ∈ cs)) as [Hd|Hd].
      + rewrite decide_True by (by right). done.
      + destruct (decide (d = c)) as [->|Hdc]; [by rewrite decide_True by left|]. rewrite decide_False; [done|]. rewrite elem_of_cons. by intros [?|?].
  Qed.
  Definition max_value (s : @st A) (c : cell) : ext := if decide (counts s c < 5) then Low else max_of (diffs s c).
  Definition corrected_value (s : @st A) (c : cell) : ext :=
    if decide (counts s c < 5) then Low else if xlt (max_of (diffs s c)) (Fin (threshold cf)) then corrected_of (diffs s c) else max_of (diffs s c).
  Lemma each_evaluate cs s : Forall (fun c => inside w h c = true) cs ->
    exists s', each (evaluate w h cf) cs s = Ok s' /\ diffs s' = diffs s /\ counts s' = counts s /\ angles s' = angles s /\
      (forall c, max_steps s' c = if decide (c ∈ cs) then max_value s c else max_steps s c) /\
      (forall c, corrected s' c = if decide (c ∈ cs) then corrected_value s c else corrected s c).
  Proof using Type.
    intros Hf. induction Hf as [|c cs Hc Hf IH] in s |- *; cbn [each].
    - exists s. do 4 (split; [done|]). split; intros c; by rewrite decide_False by apply not_elem_of_nil.
    - assert (exists s1, evaluate w h cf c s = Ok s1 /\ diffs s1 = diffs s /\ counts s1 = counts s /\ angles s1 = angles s /\
        max_steps s1 = upd c (max_value s c) (max_steps s) /\ corrected s1 = upd c (corrected_value s c) (corrected s)) as (s1 & E1 & D1 & N1 & A1 & M1 & C1).
      { unfold evaluate, put_max, put_corrected, max_value, corrected_value. rewrite Hc. destruct (decide (counts s c < 5)); cbn [obind]; eexists; (split; [reflexivity|]); done. }
      rewrite E1. cbn [obind]. destruct (IH s1) as (s2 & E2 & D2 & N2 & A2 & M2 & C2). exists s2. split; [done|]. split; [congruence|]. split; [congruence|]. split; [congruence|].
      assert (Hm : forall d, max_value s1 d = max_value s d) by (intros d; unfold max_value; by rewrite D1, N1).
      assert (Hcv : forall d, corrected_value s1 d = corrected_value s d) by (intros d; unfold corrected_value; by rewrite D1, N1).
      split; intros d.
      + rewrite M2, M1, Hm. unfold upd. destruct (decide (d ∈ cs)) as [Hd|Hd]; [by rewrite decide_True by (by right)|].
        destruct (decide (d = c)) as [->|Hdc]; [by rewrite decide_True by left|]. rewrite decide_False; [done|]. rewrite elem_of_cons. by intros [?|?].
      + rewrite C2, C1, Hcv. unfold upd. destruct (decide (d ∈ cs)) as [Hd|Hd]; [by rewrite decide_True by (by right)|].
        destruct (decide (d = c)) as [->|Hdc]; [by rewrite decide_True by left|]. rewrite decide_False; [done|]. rewrite elem_of_cons. by intros [?|?].
  Qed.
  Lemma each_clear cs (s : @st A) : Forall (fun c => inside w h c = true) cs ->
    exists s', each (clear w h) cs s = Ok s' /\
      (forall c, angles s' c = if decide (c ∈ cs) then None else angles s c) /\ (forall c, max_steps s' c = if decide (c ∈ cs) then Low else max_steps s c) /\
      (forall c, corrected s' c = if decide (c ∈ cs) then Low else corrected s c).
  Proof using Type.
    intros Hf. induction Hf as [|c cs Hc Hf IH] in s |- *; cbn [each].
    - exists s. split; [done|]. repeat split; intros c; by rewrite decide_False by apply not_elem_of_nil.
    - unfold clear at 1, put_angle, put_max, put_corrected. rewrite Hc. cbn [obind angles max_steps corrected diffs counts].
      destruct (IH (St (diffs s) (counts s) (upd c None (angles s)) (upd c Low (max_steps s)) (upd c Low (corrected s)))) as (s2 & E2 & A2 & M2 & C2).
      exists s2. split; [done|]. cbn [angles max_steps corrected] in *. split; [|split]; intros d; rewrite ?A2, ?M2, ?C2; unfold upd;
        (destruct (decide (d ∈ cs)) as [Hd|Hd]; [by rewrite decide_True by (by right)|];
         destruct (decide (d = c)) as [->|Hdc]; [by rewrite decide_True by left|]; rewrite decide_False; [done|]; rewrite elem_of_cons; by intros [?|?]).
  Qed.
End Proofs.

Lemma inside_iff w h c : inside w h c = true <-> 0 <= c.1 < w /\ 0 <= c.2 < h.
Proof. unfold inside. rewrite !andb_true_iff, !Z.leb_le, !Z.ltb_lt. lia. Qed.

Lemma first_in w h c : c ∈ first_cells w h <-> 1 <= c.1 < w /\ 1 <= c.2 < h - 1.
Proof.
  destruct c as [x y]. unfold first_cells. rewrite elem_of_list_bind. cbn. split.
  - intros (i & Hi & Hs). apply elem_of_list_fmap in Hi as (j & Hj & Hjs). injection Hj as -> ->. apply elem_of_seqZ in Hs, Hjs. lia.
  - intros [Hx Hy]. exists x. split; [|apply elem_of_seqZ; lia]. apply elem_of_list_fmap. exists y. split; [done|apply elem_of_seqZ; lia].
Qed.
Lemma second_in w h c : c ∈ second_cells w h <-> 1 <= c.1 < w - 1 /\ 1 <= c.2 < h - 1.
Proof.
  destruct c as [x y]. unfold second_cells. rewrite elem_of_list_bind. cbn. split.
  - intros (i & Hi & Hs). apply elem_of_list_fmap in Hi as (j & Hj & Hjs). injection Hj as -> ->. apply elem_of_seqZ in Hs, Hjs. lia.
  - intros [Hx Hy]. exists x. split; [|apply elem_of_seqZ; lia]. apply elem_of_list_fmap. exists y. split; [done|apply elem_of_seqZ; lia].
Qed.
Lemma first_NoDup w h : NoDup (first_cells w h).
Proof.
  unfold first_cells. generalize (NoDup_seqZ 1 (w - 1)). induction (seqZ 1 (w - 1)) as [|x xs IH]; intros Hn; [constructor|]. cbn [mbind list_bind].
  apply NoDup_cons in Hn as [Hx Hn]. apply NoDup_app. split; [|split; [|by apply IH]].
  - apply NoDup_fmap_2; [intros a b; congruence|apply NoDup_seqZ].
  - intros [a b] Ha Hb. apply elem_of_list_fmap in Ha as (j & Hj & _). injection Hj as -> ->.
    apply elem_of_list_bind in Hb as (i & Hi & His). apply elem_of_list_fmap in Hi as (k & Hk & _). injection Hk as -> ->. done.
Qed.
Lemma borders_in w h c : 0 < w -> 0 < h -> (c ∈ borders w h <-> inside w h c = true /\ border w h c).
Proof.
  intros Hw Hh. rewrite inside_iff. destruct c as [x y]. unfold borders, border. rewrite elem_of_app, !elem_of_list_bind. cbn. split.
  - intros [(i & Hi & Hs)|(i & Hi & Hs)]; apply elem_of_seqZ in Hs; rewrite !elem_of_cons in Hi; destruct Hi as [Hi|[Hi|Hi]]; try (by apply elem_of_nil in Hi); injection Hi as -> ->; lia.
  - intros [Hin [-> |[-> |[-> | ->]]]].
    + right. exists y. split; [left|apply elem_of_seqZ; lia].
    + right. exists y. split; [right; left|apply elem_of_seqZ; lia].
    + left. exists x. split; [left|apply elem_of_seqZ; lia].
    + left. exists x. split; [right; left|apply elem_of_seqZ; lia].
Qed.
Lemma max_of_fold (d : nat -> ext) : max_of d = foldl xmax Low (d <$> seq 0 8).
Proof. done. Qed.

Section Final.
  Context (w h : Z) (mls : cell -> list patch) (sd : bool) (req : nat).
  Notation es := (first_cells w h ≫= cell_edges).
  Lemma in_edges c k : (c, k) ∈ es <-> c ∈ first_cells w h /\ k ∈ out_edges.
  Proof using Type.
    rewrite elem_of_list_bind. split.
    - intros (d & Hd & Hin). unfold cell_edges in Hd. apply elem_of_list_fmap in Hd as (j & Hj & Hjs). by injection Hj as -> ->.
    - intros [Hc Hk]. exists c. split; [|done]. unfold cell_edges. apply elem_of_list_fmap. by exists k.
  Qed.
  Lemma inner_cmp c k : 1 <= c.1 < w - 1 -> 1 <= c.2 < h - 1 -> (k < 8)%nat ->
    cmp mls req es c k = ok mls req c && ok mls req (partner c k) && bool_decide (~ overlooked h c (partner c k)).
  Proof using Type.
    intros Hx Hy Hk. unfold cmp. f_equal. destruct c as [x y]. cbn [fst snd] in *.
    assert (Hfirst : (x, y) ∈ first_cells w h) by (apply first_in; cbn; lia).
    destruct k as [|[|[|[|[|[|[|[|k]]]]]]]]; [..|lia]; cbn [Nat.even Nat.sub]; apply bool_decide_ext; rewrite in_edges; unfold overlooked, partner; cbn [default around lookup list_lookup];
      unfold id; rewrite ?first_in; cbn [fst snd].
    all: match goal with |- _ /\ ?K <-> _ => assert K by (by apply (bool_decide_unpack _)) end; (split; [intros [? _]; lia|intros ?; split; [lia|done]]).
  Qed.
  Lemma value_eq c p k : 1 <= c.1 < w - 1 -> 1 <= c.2 < h - 1 -> (k < 8)%nat -> known mls req c = Some p ->
    (if cmp mls req es c k then between mls sd req c (partner c k) else 0%Qc) = rise_to h mls req sd c p (partner c k).
  Proof using Type.
    intros Hx Hy Hk Hp. rewrite inner_cmp by done. rewrite (known_ok _ _ _ _ Hp). cbn [andb]. unfold rise_to, between, ok. rewrite Hp.
    destruct (known mls req (partner c k)) as [q|].
    - cbn [andb]. destruct (decide (overlooked h c (partner c k))) as [Ho|Ho]; [rewrite bool_decide_eq_false_2 by tauto|rewrite bool_decide_eq_true_2 by tauto]; done.
    - cbn [andb]. by destruct (decide (overlooked h c (partner c k))).
  Qed.
  Lemma count_eq c p : 1 <= c.1 < w - 1 -> 1 <= c.2 < h - 1 -> known mls req c = Some p ->
    length (filter (fun k => cmp mls req es c k = true) (seq 0 8)) = length (rises h mls req sd c p).
  Proof using Type.
    intros Hx Hy Hp. unfold rises, compared.
    assert (Har : around c = partner c <$> seq 0 8) by (by destruct c). rewrite Har. clear Har.
    assert (Hks : Forall (fun k => (k < 8)%nat) (seq 0 8)). { apply Forall_seq. intros. lia. }
    induction Hks as [|k ks Hk Hks IH]; [done|]. cbn [fmap list_fmap]. rewrite !filter_cons. rewrite inner_cmp by done. rewrite (known_ok _ _ _ _ Hp). cbn [andb].
    destruct (decide (~ overlooked h c (partner c k))) as [Ho|Ho].
    - cbn [omap list_omap]. destruct (known mls req (partner c k)) as [q|] eqn:Hq.
      + rewrite (known_ok _ _ _ _ Hq). rewrite bool_decide_eq_true_2 by done. cbn [andb]. rewrite decide_True by done. change (rise sd p <$> Some q) with (Some (rise sd p q)). cbn [length]. f_equal. exact IH.
      + assert (ok mls req (partner c k) = false) as -> by (unfold ok; by rewrite Hq). cbn [andb]. rewrite decide_False by done. exact IH.
    - rewrite bool_decide_eq_false_2 by tauto. rewrite andb_false_r. rewrite decide_False by done. exact IH.
  Qed.
  Lemma rises_in c p x : x ∈ rises h mls req sd c p <-> exists k q, (k < 8)%nat /\ ~ overlooked h c (partner c k) /\ known mls req (partner c k) = Some q /\ x = rise sd p q.
  Proof using Type.
    unfold rises, compared. assert (Har : around c = partner c <$> seq 0 8) by (by destruct c). rewrite Har, elem_of_list_omap. split.
    - intros (o & Ho & Hx). apply elem_of_list_filter in Ho as [Hn Ho]. apply elem_of_list_fmap in Ho as (k & -> & Hk). apply elem_of_seq in Hk.
      destruct (known mls req (partner c k)) as [q|] eqn:Hq; [|done]. cbn in Hx. injection Hx as <-. exists k, q. split; [lia|]. done.
    - intros (k & q & Hk & Hn & Hq & ->). exists (partner c k). rewrite Hq. split; [|done]. apply elem_of_list_filter. split; [done|].
      apply elem_of_list_fmap. exists k. split; [done|]. apply elem_of_seq. lia.
  Qed.
  Lemma rises_nonneg c p x : sane mls sd -> known mls req c = Some p -> x ∈ rises h mls req sd c p -> (0 <= x)%Qc.
  Proof using Type.
    intros Hs Hp Hx. apply rises_in in Hx as (k & q & _ & _ & Hq & ->). apply rise_nonneg. intros Hsd.
    assert (Hkn : forall d r, known mls req d = Some r -> r ∈ mls d).
    { intros d r Hr. unfold known in Hr. destruct (top (mls d)) as [r'|] eqn:Ht; [|done]. destruct (decide (req <= hits r')%nat); [|done]. injection Hr as <-. by apply top_in. }
    split; eapply Hs; eauto.
  Qed.
  Lemma greatest_rise c p : sane mls sd -> known mls req c = Some p -> rises h mls req sd c p <> [] ->
    exists m, foldl xmax Low (Fin <$> ((fun k => rise_to h mls req sd c p (partner c k)) <$> seq 0 8)) = Fin m /\ greatest m (rises h mls req sd c p).
  Proof using Type.
    intros Hs Hp Hne. destruct (fold_max ((fun k => rise_to h mls req sd c p (partner c k)) <$> seq 0 8) Low) as (m & Hm & Hin & Hg); [done|].
    exists m. split; [exact Hm|].
    assert (Hle : forall x, x ∈ rises h mls req sd c p -> (x <= m)%Qc).
    { intros x Hx. apply rises_in in Hx as (k & q & Hk & Hn & Hq & ->). apply Hg. apply elem_of_list_fmap. exists k. split; [|apply elem_of_seq; lia].
      unfold rise_to. rewrite decide_False by done. by rewrite Hq. }
    split; [|done]. apply elem_of_list_fmap in Hin as (k & Hk & Hks). apply elem_of_seq in Hks.
    unfold rise_to in Hk. destruct (decide (overlooked h c (partner c k))) as [Ho|Ho]; [|destruct (known mls req (partner c k)) as [q|] eqn:Hq].
    2:{ apply rises_in. exists k, q. split; [lia|]. done. }
    all: destruct (rises h mls req sd c p) as [|x l] eqn:Hl; [done|];
      assert (x = m) as ->; [|left]; apply Qcle_antisym; [apply Hle; left|rewrite Hk; apply (rises_nonneg c p x Hs Hp); rewrite Hl; left].
  Qed.
  Lemma corrected_fold c p (d : nat -> ext) : (forall k, (k < 8)%nat -> d k = Fin (rise_to h mls req sd c p (partner c k))) ->
    corrected_of d = foldl xmax Low (Fin <$> corrections h mls req sd c p).
  Proof using Type.
    intros Hd. unfold corrected_of. cbn [seq foldl Nat.mul Nat.add]. rewrite !Hd by lia. cbn [xsub xadd xopp xscale]. unfold corrections. destruct c as [x y].
    unfold partner, id. cbn [default around lookup list_lookup mbind list_bind app fmap list_fmap foldl].
    rewrite ?Z.add_0_r, ?Z.sub_0_r. unfold Qcminus. replace (x + -1) with (x - 1) by lia. replace (x - -1) with (x + 1) by lia. replace (y + -1) with (y - 1) by lia. replace (y - -1) with (y + 1) by lia.
    reflexivity.
  Qed.
End Final.

(** the patch that stands for a cell is one of the highest of it, and the first of these; only empty cells have none *)
Theorem C112_highest l : match top l with
  | Some p => exists a b, l = a ++ p :: b /\ (forall q, q ∈ a -> (mean q < mean p)%Qc) /\ forall q, q ∈ b -> (mean q <= mean p)%Qc
  | None => l = [] end.
Proof.
  destruct l as [|p l]; [done|]. cbn [top].
  assert (H : forall l best,
    (max_element best l = best /\ forall q, q ∈ l -> (mean q <= mean best)%Qc) \/
    exists a b, l = a ++ max_element best l :: b /\ (mean best < mean (max_element best l))%Qc /\
      (forall q, q ∈ a -> (mean q < mean (max_element best l))%Qc) /\ forall q, q ∈ b -> (mean q <= mean (max_element best l))%Qc).
  { clear p l. induction l as [|p l IH]; intros best; cbn [max_element].
    - left. split; [done|]. intros q Hq. by apply elem_of_nil in Hq.
    - destruct (Qclt_le_dec (mean best) (mean p)) as [Hlt|Hle].
      + destruct (IH p) as [[E Hr]|(a & b & E & H1 & H2 & H3)].
        * right. rewrite E. exists [], l. split; [done|]. split; [done|]. split; [|done]. intros q Hq. by apply elem_of_nil in Hq.
        * right. exists (p :: a), b. split; [by rewrite E at 1|]. split; [by eapply Qclt_trans|]. split; [|done].
          intros q [->|Hq]%elem_of_cons; [done|by apply H2].
      + destruct (IH best) as [[E Hr]|(a & b & E & H1 & H2 & H3)].
        * left. split; [done|]. intros q [->|Hq]%elem_of_cons; [done|by apply Hr].
        * right. exists (p :: a), b. split; [by rewrite E at 1|]. split; [done|]. split; [|done].
          intros q [->|Hq]%elem_of_cons; [by eapply Qcle_lt_trans|by apply H2]. }
  destruct (H l p) as [[E Hr]|(a & b & E & H1 & H2 & H3)].
  - rewrite E. exists [], l. split; [done|]. split; [|done]. intros q Hq. by apply elem_of_nil in Hq.
  - exists (p :: a), b. split; [by rewrite E at 1|]. split; [|done]. intros q [->|Hq]%elem_of_cons; [done|by apply H2].
Qed.

Section Theorems.
  Context {A : Type} (fit : list (Z * Z * Qc) -> A).
  Lemma update_ok w h mls cf req ws ang cor : 0 < w -> 0 < h -> required cf = Some req -> window cf = Some ws ->
    exists s s1 : @st A, update_all fit w h mls w h cf ang cor = Ok s /\ inv mls (use_stddev cf) req (first_cells w h ≫= cell_edges) s1 /\
      forall c, inside w h c = true ->
        angles s c = (if decide (border w h c) then None else slope fit w h mls req ws c) /\
        max_steps s c = (if decide (border w h c) then Low else max_value s1 c) /\
        corrected s c = (if decide (border w h c) then Low else corrected_value cf s1 c).
  Proof using Type.
    intros Hw Hh Hreq Hws. unfold update_all. rewrite (bool_decide_eq_true_2 (w = w)) by done. cbn [negb andb]. rewrite decide_False by lia.
    destruct (each_visit fit w h mls (use_stddev cf) req cf ws eq_refl Hreq Hws [] (first_cells w h) (St (fun _ _ => Fin 0) (fun _ => 0) ang (fun _ => Low) cor)) as (s1 & E1 & I1 & M1 & C1 & A1).
    { apply Forall_forall. intros c Hc. by apply first_in in Hc. }
    { apply first_NoDup. }
    { assert (Hn : forall c k, cmp mls req [] c k = false). { intros c k. unfold cmp. destruct (Nat.even k); rewrite bool_decide_eq_false_2 by apply not_elem_of_nil; apply andb_false_r. }
      split; cbn [diffs counts].
      - intros c k _ _. by rewrite Hn.
      - intros c. destruct (ok mls req c); [|done]. rewrite (filter_same _ (fun _ => false) (cmp mls req [] c)); [done|]. intros j _. apply Hn. }
    rewrite E1. cbn [obind].
    destruct (each_evaluate w h cf (second_cells w h) s1) as (s2 & E2 & D2 & N2 & A2 & M2 & C2).
    { apply Forall_forall. intros c Hc. apply second_in in Hc. apply inside_iff. lia. }
    rewrite E2. cbn [obind].
    destruct (each_clear w h (borders w h) s2) as (s3 & E3 & A3 & M3 & C3).
    { apply Forall_forall. intros c Hc. by apply borders_in in Hc as [Hc _]. }
    exists s3, s1. split; [exact E3|]. split; [exact I1|]. intros c Hc.
    rewrite A3, M3, C3. destruct (decide (border w h c)) as [Hb|Hb].
    - rewrite !decide_True by (by apply borders_in). done.
    - assert (Hnb : c ∉ borders w h). { intros H. apply borders_in in H as [_ H]; done. } rewrite !decide_False by done.
      apply inside_iff in Hc. unfold border in Hb.
      assert (Hf : c ∈ first_cells w h) by (apply first_in; lia). assert (Hs : c ∈ second_cells w h) by (apply second_in; lia).
      rewrite A2, A1, M2, C2. rewrite !decide_True by done. done.
  Qed.

  (** C112: the greatest step of a cell inside of the grid is the greatest one to the neighbours it is compared with, if it and at least five of these are known;
      it is marked as unknown otherwise, and on the border *)
  Theorem C112_steps w h mls cf req ws ang cor : 0 < w -> 0 < h -> required cf = Some req -> window cf = Some ws -> sane mls (use_stddev cf) ->
    exists s, update_all fit w h mls w h cf ang cor = Ok s /\ forall c, inside w h c = true ->
      match known mls req c with
      | Some p =>
        if decide (border w h c \/ length (rises h mls req (use_stddev cf) c p) < 5)%nat then max_steps s c = Low /\ corrected s c = Low
        else exists m, max_steps s c = Fin m /\ greatest m (rises h mls req (use_stddev cf) c p) /\
          if Qclt_le_dec m (threshold cf)
          then exists m', corrected s c = Fin m' /\ greatest m' (corrections h mls req (use_stddev cf) c p)
          else corrected s c = Fin m
      | None => max_steps s c = Low /\ corrected s c = Low
      end.
  Proof using Type.
    intros Hw Hh Hreq Hws Hsane. destruct (update_ok w h mls cf req ws ang cor Hw Hh Hreq Hws) as (s & s1 & E & [Hd Hn] & Hall).
    exists s. split; [done|]. intros c Hin. destruct (Hall c Hin) as (_ & -> & ->).
    destruct (known mls req c) as [p|] eqn:Hp.
    - destruct (decide (border w h c)) as [Hb|Hb]; [by rewrite decide_True by (by left)|].
      apply inside_iff in Hin. unfold border in Hb. assert (Hx : 1 <= c.1 < w - 1) by lia. assert (Hy : 1 <= c.2 < h - 1) by lia.
      assert (Hc : counts s1 c = Z.of_nat (length (rises h mls req (use_stddev cf) c p))).
      { rewrite Hn, (known_ok _ _ _ _ Hp). f_equal. by apply count_eq. }
      unfold max_value, corrected_value. destruct (decide (counts s1 c < 5)) as [Hlt|Hge].
      + rewrite decide_True by (right; lia). done.
      + rewrite decide_False by (intros [H|H]; [by apply Hb|lia]).
        assert (Hv : forall k, (k < 8)%nat -> diffs s1 c k = Fin (rise_to h mls req (use_stddev cf) c p (partner c k))).
        { intros k Hk. rewrite Hd by (done || by eapply known_ok). f_equal. by apply (value_eq w). }
        destruct (greatest_rise h mls (use_stddev cf) req c p Hsane Hp) as (m & Hm & Hg). { intros H0. rewrite H0 in Hc. cbn in Hc. lia. }
        assert (Hmax : max_of (diffs s1 c) = Fin m).
        { rewrite max_of_fold, <- Hm. f_equal. cbn [seq fmap list_fmap]. by rewrite !Hv by lia. }
        exists m. rewrite Hmax. split; [done|]. split; [done|]. cbn [xlt]. destruct (Qclt_le_dec m (threshold cf)); [|done].
        rewrite (corrected_fold h mls (use_stddev cf) req c p) by done.
        destruct (fold_max (corrections h mls req (use_stddev cf) c p) Low) as (m' & Hm' & Hg'); [by destruct c|]. exists m'. by split.
    - assert (Hc : counts s1 c = 0). { rewrite Hn. unfold ok. by rewrite Hp. }
      unfold max_value, corrected_value. rewrite Hc. by destruct (decide (border w h c)).
  Qed.
  (** all neighbours are looked at except for two rows *)
  Theorem C112_neighbours h c : 2 <= c.2 <= h - 3 -> compared h c = around c /\ forall o, o ∈ around c <-> o <> c /\ Z.abs (o.1 - c.1) <= 1 /\ Z.abs (o.2 - c.2) <= 1.
  Proof using Type.
    intros Hc. split.
    - unfold compared. assert (Hf : forall l : list cell, filter (fun o => ~ overlooked h c o) l = l); [|apply Hf].
      induction l as [|o l IH]; [done|]. rewrite filter_cons_True; [by rewrite IH|]. unfold overlooked. lia.
    - intros [a b]. destruct c as [x y]. unfold around. rewrite !elem_of_cons. cbn [fst snd]. split.
      + intros [H|[H|[H|[H|[H|[H|[H|[H|H]]]]]]]]; try (by apply elem_of_nil in H); injection H as -> ->; (split; [intros Heq; injection Heq; lia|lia]).
      + intros (Hne & Ha & Hb). assert (a = x - 1 \/ a = x \/ a = x + 1) as Hx by lia. assert (b = y - 1 \/ b = y \/ b = y + 1) as Hy by lia.
        destruct Hx as [-> |[-> | ->]], Hy as [-> |[-> | ->]]; tauto.
  Qed.
  (** steps are symmetric and, as the corrected step, not greater than the step itself; the step is the difference of the heights plus the deviations *)
  Theorem C112_symmetric sd p q : rise sd p q = rise sd q p /\
    rise sd p q = ((if Qclt_le_dec (mean q) (mean p) then mean p - mean q else mean q - mean p) + (if sd then stdev p + stdev q else 0))%Qc.
  Proof using Type.
    split; [rewrite <- !step_rise; apply step_sym|]. unfold rise. destruct (Qclt_le_dec (mean q) (mean p)), sd; ring.
  Qed.
  (** C113: the slope of a cell inside of the grid is that of the plane through the highest patches in the window around it if there are at least five others *)
  Theorem C113_slope w h mls cf req ws ang cor : 0 < w -> 0 < h -> required cf = Some req -> window cf = Some ws ->
    exists s, update_all fit w h mls w h cf ang cor = Ok s /\ forall c, inside w h c = true ->
      match known mls req c with
      | Some p => exists pts, angles s c = (if decide (border w h c \/ length pts < 5)%nat then None else Some (fit pts)) /\ NoDup pts.*1 /\
          forall dx dy d, (dx, dy, d) ∈ pts <-> (dx, dy) <> (0, 0) /\ Z.abs dx <= Z.of_nat ws /\ Z.abs dy <= Z.of_nat ws /\ inside w h (c.1 + dx, c.2 + dy) = true /\
            exists q, top (mls (c.1 + dx, c.2 + dy)) = Some q /\ d = (mean p - mean q)%Qc
      | None => angles s c = None
      end.
  Proof using Type.
    intros Hw Hh Hreq Hws. destruct (update_ok w h mls cf req ws ang cor Hw Hh Hreq Hws) as (s & s1 & E & _ & Hall).
    exists s. split; [done|]. intros c Hin. destruct (Hall c Hin) as (-> & _ & _). unfold slope.
    destruct (known mls req c) as [p|]; [|by destruct (decide (border w h c))].
    exists (window_points w h mls ws c p). split.
    { destruct (decide (border w h c)) as [Hb|Hb]; [by rewrite decide_True by (by left)|].
      destruct (decide (length (window_points w h mls ws c p) < 5)%nat) as [Hl|Hl]; [by rewrite decide_True by (by right)|].
      rewrite decide_False; [done|]. by intros [?|?]. }
    assert (Hspan : forall z, z ∈ span ws <-> Z.abs z <= Z.of_nat ws). { intros z. unfold span. rewrite elem_of_seqZ. lia. }
    assert (Hrow : forall xi ys dx dy d, (dx, dy, d) ∈ (ys ≫= fun yi => if decide (xi = 0 /\ yi = 0) then [] else let r := (c.1 + xi, c.2 + yi) in
        if inside w h r then match top (mls r) with Some q => [(xi, yi, (mean p - mean q)%Qc)] | None => [] end else []) <->
      dx = xi /\ dy ∈ ys /\ (dx, dy) <> (0, 0) /\ inside w h (c.1 + dx, c.2 + dy) = true /\ exists q, top (mls (c.1 + dx, c.2 + dy)) = Some q /\ d = (mean p - mean q)%Qc).
    { intros xi ys dx dy d. rewrite elem_of_list_bind. split.
      - intros (yi & Hy & Hys). destruct (decide (xi = 0 /\ yi = 0)) as [|Hne]; [by apply elem_of_nil in Hy|]. cbv zeta in Hy.
        destruct (inside w h (c.1 + xi, c.2 + yi)) eqn:Hi; [|by apply elem_of_nil in Hy]. destruct (top (mls (c.1 + xi, c.2 + yi))) as [q|] eqn:Hq; [|by apply elem_of_nil in Hy].
        apply elem_of_list_singleton in Hy. injection Hy as -> -> ->. split; [done|]. split; [done|]. split; [intros Heq; injection Heq; tauto|]. split; [done|]. by exists q.
      - intros (-> & Hys & Hne & Hi & q & Hq & ->). exists dy. split; [|done]. rewrite decide_False by (intros [-> ->]; done). cbv zeta. rewrite Hi, Hq. left. }
    split.
    - unfold window_points. assert (Hsn : NoDup (span ws)) by apply NoDup_seqZ. revert Hsn. generalize (span ws) at 1 3. intros xs Hxs.
      induction Hxs as [|x xs Hx Hxs IH]; [constructor|]. cbn [mbind list_bind]. rewrite fmap_app. apply NoDup_app. split; [|split; [|exact IH]].
      + assert (Hsn : NoDup (span ws)) by apply NoDup_seqZ. revert Hsn. generalize (span ws). intros ys Hys. induction Hys as [|y ys Hy Hys IHy]; [constructor|].
        cbn [mbind list_bind]. rewrite fmap_app. apply NoDup_app. split; [|split; [|exact IHy]].
        * destruct (decide (x = 0 /\ y = 0)); [constructor|]. cbv zeta. destruct (inside w h (c.1 + x, c.2 + y)); [|constructor].
          destruct (top (mls (c.1 + x, c.2 + y))); [|constructor]. apply NoDup_singleton.
        * intros z Hz Hz'. assert (z = (x, y)) as ->.
          { destruct (decide (x = 0 /\ y = 0)); [by apply elem_of_nil in Hz|]. cbv zeta in Hz. destruct (inside w h (c.1 + x, c.2 + y)); [|by apply elem_of_nil in Hz].
            destruct (top (mls (c.1 + x, c.2 + y))); [|by apply elem_of_nil in Hz]. by apply elem_of_list_singleton in Hz. }
          apply elem_of_list_fmap in Hz' as ([[dx dy] d] & Heq & Hz'). cbn in Heq. injection Heq as <- <-. apply Hrow in Hz' as (_ & Hz' & _). done.
      + intros z Hz Hz'. apply elem_of_list_fmap in Hz as ([[dx dy] d] & -> & Hz). apply Hrow in Hz as (-> & _). cbn [fst] in Hz'.
        apply elem_of_list_fmap in Hz' as ([[dx' dy'] d'] & Heq & Hz'). cbn in Heq. injection Heq as -> ->. apply elem_of_list_bind in Hz' as (x' & Hz' & Hin').
        apply Hrow in Hz' as (-> & _). done.
    - intros dx dy d. unfold window_points. rewrite elem_of_list_bind. split.
      + intros (xi & Hr & Hxi). apply Hrow in Hr as (-> & Hdy & Hne & Hi & Hq). apply Hspan in Hdy, Hxi. done.
      + intros (Hne & Hdx & Hdy & Hi & Hq). exists dx. split; [|by apply Hspan]. apply Hrow. split; [done|]. split; [by apply Hspan|]. done.
  Qed.
End Theorems.

(** the corrected step is not greater than the step *)
Theorem C112_bound h mls req sd c p m m' : sane mls sd -> known mls req c = Some p -> greatest m (rises h mls req sd c p) -> greatest m' (corrections h mls req sd c p) -> (m' <= m)%Qc.
Proof.
  intros Hs Hp [Hm Hmax] [Hm' _].
  assert (H0 : (0 <= m)%Qc) by exact (rises_nonneg h mls sd req c p m Hs Hp Hm).
  assert (Hr : forall k, (k < 8)%nat -> (0 <= rise_to h mls req sd c p (partner c k))%Qc /\ (rise_to h mls req sd c p (partner c k) <= m)%Qc).
  { intros k Hk. unfold rise_to. destruct (decide (overlooked h c (partner c k))); [split; [apply Qcle_refl|exact H0]|].
    destruct (known mls req (partner c k)) as [q|] eqn:Hq; [|split; [apply Qcle_refl|exact H0]].
    assert (Hin : rise sd p q ∈ rises h mls req sd c p) by (apply rises_in; by exists k, q). split; [exact (rises_nonneg h mls sd req c p _ Hs Hp Hin)|by apply Hmax]. }
  assert (Hpair : forall s0 s1 f, (0 <= s0)%Qc -> (s0 <= m)%Qc -> (0 <= s1)%Qc -> (0 <= f)%Qc -> (s0 - f * (s0 + s1) <= m)%Qc).
  { intros s0 s1 f A B C F. apply Qcle_trans with s0; [|done]. apply Qcle_minus_iff. replace (s0 + - (s0 - f * (s0 + s1)))%Qc with (f * (s0 + s1))%Qc by ring.
    apply Qcle_trans with (0 * (s0 + s1))%Qc; [rewrite Qcmult_0_l; apply Qcle_refl|]. apply Qcmult_le_compat_r; [done|].
    rewrite <- (Qcplus_0_l 0). by apply Qcplus_le_compat. }
  assert (Hq : forall s0 s1, (0 <= s0)%Qc -> (s0 <= m)%Qc -> (0 <= s1)%Qc -> (s0 - quarter * (s0 + s1) <= m)%Qc /\ (s0 - quarter * (Q2Qc 3 * (s0 + s1)) <= m)%Qc).
  { intros s0 s1 A B C. split; [by apply Hpair|]. replace (quarter * (Q2Qc 3 * (s0 + s1)))%Qc with ((quarter * Q2Qc 3) * (s0 + s1))%Qc by ring. by apply Hpair. }
  destruct c as [x y]. unfold corrections in Hm'. cbn [mbind list_bind app] in Hm'.
  assert (Hk : forall o k, (k < 8)%nat -> partner (x, y) k = o -> (0 <= rise_to h mls req sd (x, y) p o)%Qc /\ (rise_to h mls req sd (x, y) p o <= m)%Qc) by (intros o k Hk <-; by apply Hr).
  assert (Hc : forall a b c d : Z, a = c -> b = d -> (a, b) = (c, d)) by (intros; by subst).
  rewrite !elem_of_cons in Hm'.
  assert (G : forall o0 o1 k, (k < 4)%nat -> partner (x, y) (2 * k) = o0 -> partner (x, y) (2 * k + 1) = o1 ->
    let s0 := rise_to h mls req sd (x, y) p o0 in let s1 := rise_to h mls req sd (x, y) p o1 in (s0 - quarter * (s0 + s1) <= m)%Qc /\ (s0 - quarter * (Q2Qc 3 * (s0 + s1)) <= m)%Qc).
  { intros o0 o1 k Hlt E0 E1. destruct (Hk o0 (2 * k)%nat) as [A B]; [lia|done|]. destruct (Hk o1 (2 * k + 1)%nat) as [C _]; [lia|done|]. by apply Hq. }
  destruct (G (x + 0, y + 1) (x - 0, y - 1) 0%nat) as [G1 G2]; [lia|apply Hc; lia|apply Hc; lia|].
  destruct (G (x + -1, y + -1) (x - -1, y - -1) 1%nat) as [G3 G4]; [lia|apply Hc; lia|apply Hc; lia|].
  destruct (G (x + -1, y + 0) (x - -1, y - 0) 2%nat) as [G5 G6]; [lia|apply Hc; lia|apply Hc; lia|].
  destruct (G (x + -1, y + 1) (x - -1, y - 1) 3%nat) as [G7 G8]; [lia|apply Hc; lia|apply Hc; lia|].
  destruct Hm' as [-> |[-> |[-> |[-> |[-> |[-> |[-> |[-> |Hm']]]]]]]]; try done. by apply elem_of_nil in Hm'.
Qed.

(** ** Cases *)
(** a flat surface with one cell that is higher by one *)
Definition bump (b : cell) (c : cell) : list patch := [Patch (if decide (c = b) then 1 else 0) 0 3].
Definition high_conf : conf := Conf (Q2Qc 2) false (Some 0%nat) (Some 1%nat).
Definition points (l : list (Z * Z * Qc)) : list (Z * Z * Qc) := l.
Definition run_bump (b : cell) : out () (@st (list (Z * Z * Qc))) := update_all points 5 5 (bump b) 5 5 high_conf (fun _ => None) (fun _ => Low).
Definition max_at (r : out () (@st (list (Z * Z * Qc)))) (c : cell) : ext := match r with Ok s => max_steps s c | _ => Nan end.
Definition corrected_at (r : out () (@st (list (Z * Z * Qc)))) (c : cell) : ext := match r with Ok s => corrected s c | _ => Nan end.
Definition angle_at (r : out () (@st (list (Z * Z * Qc)))) (c : cell) : option (list (Z * Z * Qc)) := match r with Ok s => angles s c | _ => None end.
Lemma bump_sane b sd : sane (bump b) sd.
Proof. intros c p Hp _. apply elem_of_list_singleton in Hp as ->. apply Qcle_refl. Qed.
Lemma run_bump_ok b : exists s, run_bump b = Ok s.
Proof. destruct (C112_steps points 5 5 (bump b) high_conf 0 1 (fun _ => None) (fun _ => Low)) as (s & Hs & _); [done|done|done|done|apply bump_sane|]. exists s. exact Hs. Qed.

(** not every step counts: cells in the second row ignore two neighbours in the first, and cells in the last row but one a neighbour in the last *)
Theorem C112_overlooked_refuted :
  exists c b p q s, run_bump b = Ok s /\ ~ border 5 5 c /\ b ∈ around c /\ known (bump b) 0 c = Some p /\ known (bump b) 0 b = Some q /\ rise false p q = 1%Qc /\ max_steps s c = Fin 0.
Proof.
  destruct (run_bump_ok (2, 0)) as [s Hs]. exists (2, 1), (2, 0), (Patch 0 0 3), (Patch 1 0 3), s. split; [exact Hs|]. split; [unfold border; cbn; lia|].
  split; [by apply (bool_decide_unpack _)|]. split; [done|]. split; [done|]. split; [by apply Qc_is_canon|].
  assert (H : max_at (run_bump (2, 0)) (2, 1) = Fin 0) by (vm_compute; reflexivity). rewrite Hs in H. exact H.
Qed.
Theorem C112_overlooked_end_refuted :
  exists c b p q s, run_bump b = Ok s /\ ~ border 5 5 c /\ b ∈ around c /\ known (bump b) 0 c = Some p /\ known (bump b) 0 b = Some q /\ rise false p q = 1%Qc /\ max_steps s c = Fin 0.
Proof.
  destruct (run_bump_ok (3, 4)) as [s Hs]. exists (2, 3), (3, 4), (Patch 0 0 3), (Patch 1 0 3), s. split; [exact Hs|]. split; [unfold border; cbn; lia|].
  split; [by apply (bool_decide_unpack _)|]. split; [done|]. split; [done|]. split; [by apply Qc_is_canon|].
  assert (H : max_at (run_bump (3, 4)) (2, 3) = Fin 0) by (vm_compute; reflexivity). rewrite Hs in H. exact H.
Qed.
(** the corrected step depends on the direction: the same step to opposite neighbours gives 3/4 and 0 *)
Theorem C112_direction_refuted :
  exists s s', run_bump (2, 3) = Ok s /\ run_bump (2, 1) = Ok s' /\ max_steps s (2, 2) = Fin 1 /\ max_steps s' (2, 2) = Fin 1 /\
    corrected s (2, 2) = Fin (Q2Qc (3 # 4)) /\ corrected s' (2, 2) = Fin 0.
Proof.
  destruct (run_bump_ok (2, 3)) as [s Hs]. destruct (run_bump_ok (2, 1)) as [s' Hs']. exists s, s'. split; [exact Hs|]. split; [exact Hs'|].
  assert (H1 : max_at (run_bump (2, 3)) (2, 2) = Fin 1) by (vm_compute; reflexivity). rewrite Hs in H1.
  assert (H2 : max_at (run_bump (2, 1)) (2, 2) = Fin 1) by (vm_compute; reflexivity). rewrite Hs' in H2.
  assert (H3 : corrected_at (run_bump (2, 3)) (2, 2) = Fin (Q2Qc (3 # 4))) by (vm_compute; reflexivity). rewrite Hs in H3.
  assert (H4 : corrected_at (run_bump (2, 1)) (2, 2) = Fin 0) by (vm_compute; reflexivity). rewrite Hs' in H4.
  split; [exact H1|]. split; [exact H2|]. split; [exact H3|exact H4].
Qed.
(** grids of different sizes are rejected only if both dimensions differ *)
Theorem C112_size_refuted : exists w h tw th mls cf, w <> tw /\ required cf = Some 0%nat /\ window cf = Some 1%nat /\
  update_all points w h mls tw th cf (fun _ => None) (fun _ => Low) = Bad UB.
Proof. exists 5, 5, 3, 5, (bump (1, 1)), default_conf. split; [lia|]. split; [done|]. split; [done|]. vm_compute. reflexivity. Qed.
(** the constructors with two and three arguments leave members unset, which are read *)
Theorem C112_members_refuted : exists mls, update_all points 5 5 mls 5 5 (conf2 quarter false) (fun _ => None) (fun _ => Low) = Bad UB /\
  update_all points 5 5 mls 5 5 (conf3 quarter false 0) (fun _ => None) (fun _ => Low) = Bad UB.
Proof. exists (bump (1, 1)). split; vm_compute; reflexivity. Qed.
(** a negative deviation: unknown neighbours count as a step of height 0 *)
Definition odd_map (c : cell) : list patch := if decide (c.1 = 3) then [] else [Patch 0 (Q2Qc (-1 # 1)) 3].
Theorem C112_deviation_refuted : exists s p, update_all points 5 5 odd_map 5 5 (Conf quarter true (Some 0%nat) (Some 1%nat)) (fun _ => None) (fun _ => Low) = Ok s /\
  known odd_map 0 (2, 2) = Some p /\ length (rises 5 odd_map 0 true (2, 2) p) = 5%nat /\ (forall x, x ∈ rises 5 odd_map 0 true (2, 2) p -> (x < 0)%Qc) /\ max_steps s (2, 2) = Fin 0.
Proof.
  destruct (update_ok points 5 5 odd_map (Conf quarter true (Some 0%nat) (Some 1%nat)) 0 1 (fun _ => None) (fun _ => Low)) as (s & _ & Hs & _); [done|done|done|done|].
  exists s, (Patch 0 (Q2Qc (-1 # 1)) 3). split; [exact Hs|]. split; [done|]. split; [done|]. split.
  - intros x Hx. apply elem_of_list_omap in Hx as (o & _ & Hx). unfold known, odd_map in Hx. destruct (decide (o.1 = 3)); [done|]. cbn in Hx. injection Hx as <-. done.
  - assert (H : max_at (update_all points 5 5 odd_map 5 5 (Conf quarter true (Some 0%nat) (Some 1%nat)) (fun _ => None) (fun _ => Low)) (2, 2) = Fin 0) by (vm_compute; reflexivity).
    rewrite Hs in H. exact H.
Qed.
(** the plane is fitted to patches with too few measurements as well *)
Definition thin_map (c : cell) : list patch := [Patch 0 0 (if decide (c = (2, 2)) then 9 else 1)].
Theorem C113_required_refuted : exists s pts, update_all points 5 5 thin_map 5 5 (Conf quarter false (Some 5%nat) (Some 1%nat)) (fun _ => None) (fun _ => Low) = Ok s /\
  (forall o, o ∈ around (2, 2) -> known thin_map 5 o = None) /\ angles s (2, 2) = Some pts /\ length pts = 8%nat.
Proof.
  destruct (update_ok points 5 5 thin_map (Conf quarter false (Some 5%nat) (Some 1%nat)) 5 1 (fun _ => None) (fun _ => Low)) as (s & _ & Hs & _); [done|done|done|done|].
  exists s, (window_points 5 5 thin_map 1 (2, 2) (Patch 0 0 9)). split; [exact Hs|]. split.
  - clear Hs. intros o Ho. unfold around in Ho. rewrite !elem_of_cons in Ho. destruct Ho as [-> |[-> |[-> |[-> |[-> |[-> |[-> |[-> |Ho]]]]]]]]; try done. by apply elem_of_nil in Ho.
  - assert (H : angle_at (update_all points 5 5 thin_map 5 5 (Conf quarter false (Some 5%nat) (Some 1%nat)) (fun _ => None) (fun _ => Low)) (2, 2) = Some (window_points 5 5 thin_map 1 (2, 2) (Patch 0 0 9))) by (vm_compute; reflexivity).
    rewrite Hs in H. split; [exact H|]. vm_compute. reflexivity.
Qed.

Lemma max_at_ok r s c : r = Ok s -> max_at r c = max_steps s c.
Proof. by intros ->. Qed.
Example C112_nonvacuous : exists s m, run_bump (3, 3) = Ok s /\ sane (bump (3, 3)) (use_stddev high_conf) /\ max_steps s (2, 2) = Fin m /\
  greatest m (rises 5 (bump (3, 3)) 0 (use_stddev high_conf) (2, 2) (Patch 0 0 3)).
Proof.
  assert (Hk : known (bump (3, 3)) 0 (2, 2) = Some (Patch 0 0 3)) by (vm_compute; reflexivity).
  assert (Hl : length (rises 5 (bump (3, 3)) 0 (use_stddev high_conf) (2, 2) (Patch 0 0 3)) = 8%nat) by (vm_compute; reflexivity).
  unfold run_bump. destruct (C112_steps points 5 5 (bump (3, 3)) high_conf 0 1 (fun _ => None) (fun _ => Low)) as (s & Hs & Hall); [lia|lia|reflexivity|reflexivity|apply bump_sane|].
  specialize (Hall (2, 2) eq_refl). rewrite Hk in Hall. destruct (decide _) as [Hb|Hb] in Hall.
  { exfalso. rewrite Hl in Hb. unfold border in Hb. destruct Hb as [H|H]; [cbn in H; lia|lia]. }
  destruct Hall as (m & Hm & Hg & _). exists s, m. split; [exact Hs|]. split; [apply bump_sane|]. split; [exact Hm|exact Hg].
Qed.
Example C112_values_nonvacuous : max_at (run_bump (3, 3)) (2, 2) = Fin 1 /\ corrected_at (run_bump (3, 3)) (2, 2) = Fin 0 /\ max_at (run_bump (3, 3)) (1, 1) = Fin 0.
Proof. split; [vm_compute; reflexivity|]. split; vm_compute; reflexivity. Qed.
Example C113_nonvacuous : exists s pts, run_bump (3, 3) = Ok s /\ angles s (2, 2) = Some pts /\ length pts = 8%nat /\ (1, 1, (0 - 1)%Qc) ∈ pts.
Proof.
  destruct (run_bump_ok (3, 3)) as [s Hs]. exists s, (window_points 5 5 (bump (3, 3)) 1 (2, 2) (Patch 0 0 3)). split; [exact Hs|]. split.
  - assert (H : angle_at (run_bump (3, 3)) (2, 2) = Some (window_points 5 5 (bump (3, 3)) 1 (2, 2) (Patch 0 0 3))) by (vm_compute; reflexivity). rewrite Hs in H. exact H.
  - split; [vm_compute; reflexivity|]. do 7 right. left.
Qed.
