(** Model of TraversabilityGrassfire (src/operators/TraversabilityGrassfire.cpp).  C39, C40, C60, C61.

    Heights are rational numbers (the rounding of double is not modelled); a pointer to a patch is represented by the patch.  The slope
    of the plane that is fitted to the neighbours of a cell comes from outside of the model.  Debug output and the counters
    (slopeTooHigh etc.), which are only used by it, are left out. *)
From Coq Require Import ZArith QArith Qround Qabs Lqa.
From stdpp Require Import prelude.
From Verif Require Import Base Bresenham Growing.
Local Open Scope Z_scope.

(** the parts of SurfacePatch that are used (src/maps/MLSPatch.hpp: getMean, getStdev, getMeasurementCount) *)
Record patch : Type := Patch { p_mean : Q; p_stdev : Q; p_count : Z }.
(** TraversabilityGrassfire.hpp:18-34 *)
Record config : Type := Config { max_step : Q; max_slope : Q; robot_height : Q; n_classes : Z; n_nominal : Z; min_measurements : Z; max_stdev : Q }.
Definition qlt (a b : Q) : bool := if Qlt_le_dec a b then true else false.
Definition top (p : patch) : Q := p_mean p + p_stdev p.
Definition bottom (p : patch) : Q := p_mean p - p_stdev p.

Section Search.
  Context (cfg : config).
  (** :312, 376 *)
  Definition filtered (p : patch) : bool := bool_decide (p_count p < min_measurements cfg) && qlt (max_stdev cfg) (p_stdev p).
  (** :309-352: the first loop; [inl p] if a blocking patch was found *)
  Fixpoint nearest (height : Q) (l : list patch) (best : option patch) (dist : option Q) : patch + option patch :=
    match l with
    | [] => inr best
    | p :: l =>
      if filtered p then nearest height l best dist
      else if qlt (height + robot_height cfg + max_step cfg) (bottom p) then nearest height l best dist
      else if qlt (bottom p) (height + robot_height cfg) && qlt (height + robot_height cfg) (top p) then inl p
      else if qlt (bottom p) (height + max_step cfg) && qlt (height + max_step cfg) (top p) then inl p
      else let d := Qabs (top p - height) in
           if match dist with None => true | Some m => qlt d m end then nearest height l (Some p) (Some d) else nearest height l best dist
    end.
  (** :373-389: the first patch that is too close above *)
  Fixpoint too_close (fl : Q) (l : list patch) : option patch :=
    match l with
    | [] => None
    | p :: l => if filtered p then too_close fl l
                else if qlt fl (bottom p) && qlt (bottom p - fl) (robot_height cfg) then Some p else too_close fl l
    end.
  (** :360-393 *)
  Fixpoint climb (fuel : nat) (height : Q) (l : list patch) (p : patch) : out () (option (patch * bool)) :=
    match fuel with
    | O => NoFuel
    | S fuel =>
      if qlt (max_step cfg) (top p - height) then Ok (Some (p, true))
      else match too_close (top p) l with
           | Some q => climb fuel height l q
           | None => Ok (Some (p, false))
           end
    end.
  (** :300-394: the patch, if any, and isObstacle.  std::numeric_limits<double>::max() as the first distance is [None]. *)
  Definition find_patch (fuel : nat) (l : list patch) (height : Q) : out () (option (patch * bool)) :=
    match nearest height l None None with
    | inl p => Ok (Some (p, true))
    | inr None => Ok None
    | inr (Some p) => climb fuel height l p
    end.

  (** * C40 *)
  (** a patch that the search has to care about *)
  Definition solid (l : list patch) (p : patch) : Prop := p ∈ l /\ ~ (p_count p < min_measurements cfg /\ (max_stdev cfg < p_stdev p)%Q).
  (** the top is above and the bottom below a height *)
  Definition spans (p : patch) (z : Q) : Prop := (bottom p < z)%Q /\ (z < top p)%Q.
  Definition out_of_reach (height : Q) (p : patch) : Prop := (height + robot_height cfg + max_step cfg < bottom p)%Q.
  Definition blocks (height : Q) (p : patch) : Prop := spans p (height + robot_height cfg) \/ spans p (height + max_step cfg).
  (** the meaning of an answer *)
  Definition answer_ok (l : list patch) (height : Q) (a : option (patch * bool)) : Prop :=
    match a with
    | None => forall p, solid l p -> out_of_reach height p
    | Some (p, false) => solid l p /\ (top p - height <= max_step cfg)%Q /\
        (forall q, solid l q -> ~ ((top p < bottom q)%Q /\ (bottom q < top p + robot_height cfg)%Q)) /\
        (forall q, solid l q -> out_of_reach height q \/ ~ blocks height q)
    | Some (p, true) => solid l p /\ (blocks height p \/ (max_step cfg < top p - height)%Q)
    end.

  Lemma qlt_iff a b : qlt a b = true <-> (a < b)%Q.
  Proof. unfold qlt. destruct (Qlt_le_dec a b) as [|H]; [done|]. split; [done|]. intros H'. by apply Qlt_not_le in H'. Qed.
  Lemma qlt_not a b : qlt a b = false <-> (b <= a)%Q.
  Proof. unfold qlt. destruct (Qlt_le_dec a b) as [H|]; [|done]. split; [done|]. intros H'. by apply Qlt_not_le in H. Qed.
  Lemma filtered_iff p : filtered p = true <-> p_count p < min_measurements cfg /\ (max_stdev cfg < p_stdev p)%Q.
  Proof. unfold filtered. rewrite andb_true_iff, bool_decide_eq_true, qlt_iff. done. Qed.
  Lemma filtered_not p l : p ∈ l -> filtered p = false -> solid l p.
  Proof. intros Hin Hf. split; [done|]. rewrite <- filtered_iff. by rewrite Hf. Qed.
  Lemma solid_cons p q l : solid (p :: l) q -> (q = p /\ filtered p = false) \/ solid l q.
  Proof.
    intros [Hin Hn]. apply elem_of_cons in Hin as [->|Hin]; [|by right]. left. split; [done|]. destruct (filtered p) eqn:E; [|done].
    by apply filtered_iff in E.
  Qed.
  Lemma solid_mono p q l : solid l q -> solid (p :: l) q.
  Proof. intros [Hin Hn]. split; [by right|done]. Qed.

  Lemma nearest_spec height : forall l best dist, (best = None <-> dist = None) ->
    match nearest height l best dist with
    | inl p => solid l p /\ blocks height p
    | inr None => best = None /\ forall p, solid l p -> out_of_reach height p
    | inr (Some p) => (solid l p \/ best = Some p) /\ forall q, solid l q -> out_of_reach height q \/ ~ blocks height q
    end.
  Proof.
    induction l as [|p l IH]; intros best dist Hbd; cbn [nearest].
    { destruct best as [b|].
      - split; [by right|]. intros q [Hq _]. by apply elem_of_nil in Hq.
      - split; [done|]. intros q [Hq _]. by apply elem_of_nil in Hq. }
    destruct (filtered p) eqn:Ef.
    { specialize (IH best dist Hbd). destruct (nearest height l best dist) as [q|[q|]].
      - destruct IH as [H1 H2]. split; [by apply solid_mono|done].
      - destruct IH as [H1 H2]. split; [destruct H1; [left; by apply solid_mono|by right]|].
        intros q' Hq'. apply solid_cons in Hq' as [[_ Hq']|Hq']; [congruence|by apply H2].
      - destruct IH as [H1 H2]. split; [done|]. intros q' Hq'. apply solid_cons in Hq' as [[_ Hq']|Hq']; [congruence|by apply H2]. }
    assert (Hsol : solid (p :: l) p) by (apply filtered_not; [by left|done]).
    destruct (qlt (height + robot_height cfg + max_step cfg) (bottom p)) eqn:Er.
    { apply qlt_iff in Er. specialize (IH best dist Hbd). destruct (nearest height l best dist) as [q|[q|]].
      - destruct IH as [H1 H2]. split; [by apply solid_mono|done].
      - destruct IH as [H1 H2]. split; [destruct H1; [left; by apply solid_mono|by right]|].
        intros q' Hq'. apply solid_cons in Hq' as [[-> _]|Hq']; [by left|by apply H2].
      - destruct IH as [H1 H2]. split; [done|]. intros q' Hq'. apply solid_cons in Hq' as [[-> _]|Hq']; [done|by apply H2]. }
    destruct (qlt (bottom p) (height + robot_height cfg) && qlt (height + robot_height cfg) (top p)) eqn:E1.
    { apply andb_true_iff in E1 as [E1 E1']. rewrite qlt_iff in E1, E1'. split; [done|]. left. by split. }
    destruct (qlt (bottom p) (height + max_step cfg) && qlt (height + max_step cfg) (top p)) eqn:E2.
    { apply andb_true_iff in E2 as [E2 E2']. rewrite qlt_iff in E2, E2'. split; [done|]. right. by split. }
    assert (Hnb : ~ blocks height p).
    { intros [[H1 H2]|[H1 H2]]; apply qlt_iff in H1, H2; rewrite H1, H2 in *; done. }
    cbn zeta. destruct (match dist with None => true | Some m => qlt (Qabs (top p - height)) m end) eqn:Ed.
    - specialize (IH (Some p) (Some (Qabs (top p - height))) ltac:(done)). destruct (nearest height l (Some p) _) as [q|[q|]].
      + destruct IH as [H1 H2]. split; [by apply solid_mono|done].
      + destruct IH as [H1 H2]. split; [left; destruct H1 as [|[= <-]]; [by apply solid_mono|done]|].
        intros q' Hq'. apply solid_cons in Hq' as [[-> _]|Hq']; [by right|by apply H2].
      + by destruct IH as [H1 _].
    - specialize (IH best dist Hbd). destruct best as [b|]; [|destruct dist; [by destruct Hbd as [Hbd _]; specialize (Hbd eq_refl)|done]].
      destruct (nearest height l (Some b) dist) as [q|[q|]].
      + destruct IH as [H1 H2]. split; [by apply solid_mono|done].
      + destruct IH as [H1 H2]. split; [destruct H1; [left; by apply solid_mono|by right]|].
        intros q' Hq'. apply solid_cons in Hq' as [[-> _]|Hq']; [by right|by apply H2].
      + by destruct IH as [H1 _].
  Qed.
  Lemma too_close_spec fl l : match too_close fl l with
    | Some q => solid l q /\ (fl < bottom q)%Q
    | None => forall q, solid l q -> ~ ((fl < bottom q)%Q /\ (bottom q < fl + robot_height cfg)%Q)
    end.
  Proof.
    induction l as [|p l IH]; cbn [too_close]; [intros q [Hq _]; by apply elem_of_nil in Hq|].
    destruct (filtered p) eqn:Ef.
    - destruct (too_close fl l); [destruct IH; split; [by apply solid_mono|done]|]. intros q Hq. apply solid_cons in Hq as [[_ Hq]|Hq]; [congruence|by apply IH].
    - destruct (qlt fl (bottom p) && qlt (bottom p - fl) (robot_height cfg)) eqn:E.
      + apply andb_true_iff in E as [E1 _]. rewrite qlt_iff in E1. split; [apply filtered_not; [by left|done]|done].
      + destruct (too_close fl l); [destruct IH; split; [by apply solid_mono|done]|]. intros q Hq. apply solid_cons in Hq as [[-> _]|Hq]; [|by apply IH].
        intros [H1 H2]. apply qlt_iff in H1. rewrite H1 in E. cbn in E. apply qlt_not in E. lra.
  Qed.
  (** patches strictly above a height *)
  Definition above (l : list patch) (z : Q) : nat := length (filter (fun p => qlt z (top p) = true) l).
  Lemma above_decr l z q : q ∈ l -> (z < top q)%Q -> (above l (top q) < above l z)%nat.
  Proof.
    intros Hin Hz. unfold above. induction l as [|p l IH]; [by apply elem_of_nil in Hin|].
    assert (Hle : forall l, (length (filter (fun p => qlt (top q) (top p) = true) l) <= length (filter (fun p => qlt z (top p) = true) l))%nat).
    { clear -Hz. induction l as [|p l IH]; [done|]. rewrite !filter_cons.
      destruct (decide (qlt (top q) (top p) = true)) as [Ha|Ha], (decide (qlt z (top p) = true)) as [Hb|Hb]; cbn [length]; try lia.
      exfalso. apply Hb. apply qlt_iff in Ha. apply qlt_iff. lra. }
    apply elem_of_cons in Hin as [->|Hin].
    - rewrite filter_cons_False by (rewrite qlt_iff; lra). rewrite filter_cons_True by (by rewrite qlt_iff). cbn. specialize (Hle l). lia.
    - specialize (IH Hin). rewrite !filter_cons.
      destruct (decide (qlt (top q) (top p) = true)) as [Ha|Ha], (decide (qlt z (top p) = true)) as [Hb|Hb]; cbn [length]; try lia.
      exfalso. apply Hb. apply qlt_iff in Ha. apply qlt_iff. lra.
  Qed.
  Lemma climb_spec height l : (forall p, p ∈ l -> 0 <= p_stdev p)%Q -> (forall q, solid l q -> out_of_reach height q \/ ~ blocks height q) ->
    forall fuel p, solid l p -> (above l (top p) < fuel)%nat -> exists a, climb fuel height l p = Ok (Some a) /\ answer_ok l height (Some a).
  Proof.
    intros Hsd Hnb. induction fuel as [|fuel IH]; intros p Hp Hf; [lia|]. cbn [climb].
    destruct (qlt (max_step cfg) (top p - height)) eqn:Es.
    - apply qlt_iff in Es. eexists. split; [reflexivity|]. cbn. split; [done|by right].
    - apply qlt_not in Es. pose proof (too_close_spec (top p) l) as Htc. destruct (too_close (top p) l) as [q|].
      + destruct Htc as [Hq Hlt]. apply IH; [done|]. assert (top p < top q)%Q.
        { unfold top, bottom in *. pose proof (Hsd q (proj1 Hq)). lra. }
        pose proof (above_decr l (top p) q (proj1 Hq) H). lia.
      + eexists. split; [reflexivity|]. cbn. done.
  Qed.
  (** The search terminates with a justified answer. *)
  Theorem C40_search l height : (forall p, p ∈ l -> 0 <= p_stdev p)%Q ->
    forall fuel, (length l < fuel)%nat -> exists a, find_patch fuel l height = Ok a /\ answer_ok l height a.
  Proof.
    intros Hsd fuel Hf. unfold find_patch. pose proof (nearest_spec height l None None ltac:(done)) as Hn.
    destruct (nearest height l None None) as [p|[p|]].
    - eexists. split; [reflexivity|]. destruct Hn as [H1 H2]. cbn. split; [done|by left].
    - destruct Hn as [[H1|H1] H2]; [|done]. destruct (climb_spec height l Hsd H2 fuel p H1) as (a & Ha & Hok).
      { eapply Nat.le_lt_trans; [apply filter_length|done]. }
      by exists (Some a).
    - eexists. split; [reflexivity|]. by destruct Hn.
  Qed.
End Search.
Definition demo_cfg : config := Config (1#4) (1#2) 1 4 10 2 1.
Definition demo_patches : list patch := [Patch 0 (1#10) 5; Patch (1#2) (1#20) 5; Patch 3 (1#10) 20; Patch 1 2 1].
Example C40_nonvacuous : (forall p, p ∈ demo_patches -> 0 <= p_stdev p)%Q /\
  find_patch demo_cfg 5 demo_patches (4#10) = Ok (Some (Patch (1#2) (1#20) 5, false)) /\ (* the step up to the patch at 0.5 *)
  find_patch demo_cfg 5 demo_patches 0 = Ok (Some (Patch (1#2) (1#20) 5, true)) /\ (* the patch at 0.5 is too close above the one at 0 *)
  find_patch demo_cfg 5 demo_patches 2 = Ok (Some (Patch 3 (1#10) 20, true)) /\ (* a patch that blocks the top of the robot *)
  find_patch demo_cfg 5 demo_patches (-3) = Ok None.
Proof.
  split. { intros p Hp. repeat (apply elem_of_cons in Hp as [->|Hp]; [by vm_compute|]). by apply elem_of_nil in Hp. }
  repeat split; vm_compute; reflexivity.
Qed.
(** With a negative standard deviation the loop need not end. *)
Theorem C40_negative_refuted : exists l height, forall fuel, find_patch demo_cfg fuel l height = NoFuel.
Proof.
  exists [Patch 0 (-1#4) 5], 0%Q. intros fuel. unfold find_patch.
  assert (Hn : nearest demo_cfg 0 [Patch 0 (-1 # 4) 5] None None = inr (Some (Patch 0 (-1 # 4) 5))) by (vm_compute; reflexivity). rewrite Hn.
  induction fuel as [|fuel IH]; [done|]. cbn [climb].
  assert (H1 : qlt (max_step demo_cfg) (top (Patch 0 (-1 # 4) 5) - 0) = false) by (vm_compute; reflexivity). rewrite H1.
  assert (H2 : too_close demo_cfg (top (Patch 0 (-1 # 4) 5)) [Patch 0 (-1 # 4) 5] = Some (Patch 0 (-1 # 4) 5)) by (vm_compute; reflexivity).
  rewrite H2. exact IH.
Qed.
