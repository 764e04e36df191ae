(** Model of SurfacePatch::merge, src/maps/MLSPatch.hpp, and C49.

    Numbers are real numbers: the rounding of float and double is not modelled, NaN and infinities do not occur.  The colours are not
    modelled (MLSPatch.hpp:387-388), nor the plane fit of the update model SLOPE (90-102, 245-264). *)
From stdpp Require Import prelude gmap.
From Coq Require Import Reals Lra.
From Verif Require Import Base MlsModel MlsProps MlsUpdate.
Local Open Scope R_scope.

Definition ltb (a b : R) : bool := if Rlt_dec a b then true else false.
Lemma ltb_true a b : ltb a b = true <-> a < b.
Proof. unfold ltb. destruct (Rlt_dec a b); split; done. Qed.
Lemma ltb_false a b : ltb a b = false <-> b <= a.
Proof. unfold ltb. destruct (Rlt_dec a b); split; intros; try done; lra. Qed.
Definition eqb (a b : R) : bool := if Req_EM_T a b then true else false.

(** MLSPatch.hpp:443-462; [sz], [szz] and [sn] are the members z, zz and n of [plane] *)
Record patch := Patch {
  mean : R; stdev : R; height : R; pmin : R; pmax : R; cnt : R; normsq : R; sz : R; szz : R; sn : R; idx : nat; typ : ptype }.
Definition horizontal (p : patch) : bool := match typ p with HORIZONTAL => true | _ => false end.
Definition vertical (p : patch) : bool := match typ p with VERTICAL => true | _ => false end.
Definition negative (p : patch) : bool := match typ p with NEGATIVE => true | _ => false end.
Definition set_typ (t : ptype) (p : patch) : patch :=
  Patch (mean p) (stdev p) (height p) (pmin p) (pmax p) (cnt p) (normsq p) (sz p) (szz p) (sn p) (idx p) t.
Definition set_mean_stdev (m s : R) (p : patch) : patch :=
  Patch m s (height p) (pmin p) (pmax p) (cnt p) (normsq p) (sz p) (szz p) (sn p) (idx p) (typ p).
Definition set_block (m s h : R) (p : patch) : patch :=
  Patch m s h (pmin p) (pmax p) (cnt p) (normsq p) (sz p) (szz p) (sn p) (idx p) (typ p).
Definition set_cnt (c : R) (p : patch) : patch :=
  Patch (mean p) (stdev p) (height p) (pmin p) (pmax p) c (normsq p) (sz p) (szz p) (sn p) (idx p) (typ p).
Definition set_idx (i : nat) (p : patch) : patch :=
  Patch (mean p) (stdev p) (height p) (pmin p) (pmax p) (cnt p) (normsq p) (sz p) (szz p) (sn p) i (typ p).

(** Numeric.hpp:8-17; the test for NaN is the test for 0/0 *)
Definition kalman_gain (sd msd : R) : R :=
  if eqb (sd * sd + msd * msd) 0 then 1 / 2 else (sd * sd) / (sd * sd + msd * msd).
Definition kalman_update (p : patch) (m msd : R) : patch :=
  let g := kalman_gain (stdev p) msd in
  set_mean_stdev (mean p + g * (m - mean p)) (sqrt ((1 - g) * (stdev p * stdev p))) p.

(** MLSPatch.hpp:327-334: cut the older patch [rp] at the newer one *)
Definition cut (rp ro : patch) : patch :=
  if ltb (mean ro) (mean rp) then set_block (mean rp) (stdev rp) (mean rp - mean ro) rp
  else if ltb (mean ro - height ro) (mean rp) then
    let m := mean ro - height ro in set_block m (stdev rp) (height rp - (mean rp - m)) rp
  else rp.
(** MLSPatch.hpp:319 *)
Definition encloses (ro rp : patch) : bool := ltb (mean rp) (mean ro) && ltb (mean ro - height ro) (mean rp - height rp).
(** MLSPatch.hpp:341-353 and 355 *)
Definition extend_to (p o : patch) : patch :=
  let p1 := if ltb (mean p) (mean o) then set_block (mean o) (stdev o) (height p + (mean o - mean p)) p else p in
  let p2 := if ltb (mean o - height o) (mean p1 - height p1) then set_block (mean p1) (stdev p1) (mean p1 - (mean o - height o)) p1 else p1 in
  set_cnt (cnt p2 + cnt o) p2.

Section Merge.
  Context (thickness gap : R).
  Definition delta_dev (p o : patch) : R := sqrt (stdev p * stdev p + stdev o * stdev o).
  (** MLSPatch.hpp:272-273 *)
  Definition near (p o : patch) : bool :=
    ltb (mean p - height p - gap - delta_dev p o) (mean o) && ltb (mean o - height o) (mean p + gap + delta_dev p o).
  (** MLSPatch.hpp:278-279 *)
  Definition close (p o : patch) : bool :=
    ltb (mean p - height p - thickness - delta_dev p o) (mean o) && ltb (mean o) (mean p + thickness + delta_dev p o).
  (** MLSPatch.hpp:276-290 *)
  Definition merge_horizontal (p o : patch) : patch :=
    if horizontal p && horizontal o then
      if close p o then kalman_update p (mean o) (stdev o) else set_typ VERTICAL p
    else p.
  (** MLSPatch.hpp:266-360: the result, and both patches afterwards *)
  Definition merge_mls (p o : patch) : bool * patch * patch :=
    if near p o then
      let p := merge_horizontal p o in
      if horizontal p && horizontal o then (true, set_cnt (cnt p + cnt o) p, o)
      else if horizontal p && vertical o then (true, extend_to (set_typ VERTICAL p) o, o)
      else if negative p && negative o then (true, extend_to (set_typ NEGATIVE p) o, o)
      else if negative p || negative o then
        if decide (idx p = idx o) then (false, p, o)
        else if decide (idx p < idx o)%nat then
          if encloses o p then (true, o, o) else (false, cut p o, o)
        else
          if encloses p o then (true, p, o) else (false, p, cut o p)
      else (true, extend_to p o, o)
    else (false, p, o).

  (** MLSPatch.hpp:11-17 *)
  Definition overlap (a1 a2 b1 b2 : R) : bool := (ltb a1 b2 && ltb b2 a2) || (ltb a1 b1 && ltb b1 a2).
  (** MLSPatch.hpp:76-88 *)
  Definition update_sum (p : patch) : patch :=
    let m := sz p / sn p in
    let norm := sn p / (sn p * sn p - normsq p) in
    let var := Rmax (1 / 1000000) ((szz p - m * m * (sn p - 2)) * norm - cnt p / sn p) in
    set_mean_stdev m (if ltb 1 (cnt p) then sqrt var else sqrt (1 / sn p)) p.
  (** MLSPatch.hpp:219-243 *)
  Definition merge_sum (p o : patch) : bool * patch * patch :=
    if overlap (pmin p - gap) (pmax p + gap) (pmin o) (pmax o) then
      (true, update_sum (Patch (mean p) (stdev p) (height p) (Rmin (pmin p) (pmin o)) (Rmax (pmax p) (pmax o)) (cnt p + cnt o)
                               (normsq p + normsq o) (sz p + sz o) (szz p + szz o) (sn p + sn o) (idx p) (typ p)), o)
    else (false, p, o).

  Inductive model := KALMAN | SUM.
  (** MLSPatch.hpp:362-394 *)
  Definition merge_patch (m : model) (p o : patch) : bool * patch * patch :=
    let '(b, p1, o1) := match m with KALMAN => merge_mls p o | SUM => merge_sum p o end in
    if b then (true, set_idx (idx p1 `max` idx o1)%nat p1, o1) else (false, p1, o1).
End Merge.

(** * Specification *)
Definition top (p : patch) : R := mean p.
Definition bottom (p : patch) : R := mean p - height p.
(** a horizontal patch does not have a height (MLSPatch.hpp:39) *)
Definition wf (p : patch) : Prop := 0 <= stdev p /\ 0 <= height p /\ (typ p = HORIZONTAL -> height p = 0).

Lemma gain_range a b : 0 <= a -> 0 <= b -> 0 <= kalman_gain a b <= 1.
Proof.
  intros Ha Hb. unfold kalman_gain, eqb. destruct (Req_EM_T _ _) as [H|H]; [lra|].
  assert (0 <= a * a) by nra. assert (0 <= b * b) by nra. assert (0 < a * a + b * b) by lra.
  split.
  - apply Rmult_le_pos; [done|]. left. by apply Rinv_0_lt_compat.
  - apply Rmult_le_reg_r with (a * a + b * b); [done|]. unfold Rdiv. rewrite Rmult_assoc, Rinv_l by lra. lra.
Qed.
Lemma gain_var a b : 0 <= a -> 0 <= b -> 0 <= (1 - kalman_gain a b) * (a * a) /\
  (1 - kalman_gain a b) * (a * a) <= a * a /\ (1 - kalman_gain a b) * (a * a) <= b * b.
Proof.
  intros Ha Hb. pose proof (gain_range a b Ha Hb) as Hg. assert (Haa : 0 <= a * a) by nra.
  split; [apply Rmult_le_pos; lra|]. split; [nra|].
  unfold kalman_gain, eqb in *. destruct (Req_EM_T _ _) as [H|H]; [nra|].
  assert (0 <= b * b) as Hbb by nra. assert (Hs : 0 < a * a + b * b) by lra.
  assert ((1 - a * a / (a * a + b * b)) * (a * a) = (b * b) * (a * a / (a * a + b * b))) as -> by (field; lra).
  nra.
Qed.
Lemma kalman_stdev p m s : 0 <= stdev p -> 0 <= s -> stdev (kalman_update p m s) <= stdev p /\ stdev (kalman_update p m s) <= s.
Proof.
  intros Hp Hs. cbn. destruct (gain_var (stdev p) s Hp Hs) as (H0 & H1 & H2). split.
  - eapply Rle_trans; [apply sqrt_le_1_alt, H1|]. rewrite sqrt_square by done. lra.
  - eapply Rle_trans; [apply sqrt_le_1_alt, H2|]. rewrite sqrt_square by done. lra.
Qed.
Lemma kalman_mean p m s : 0 <= stdev p -> 0 <= s -> Rmin (mean p) m <= mean (kalman_update p m s) <= Rmax (mean p) m.
Proof.
  intros Hp Hs. cbn. pose proof (gain_range (stdev p) s Hp Hs) as [H0 H1].
  unfold Rmin, Rmax. destruct (Rle_dec (mean p) m); nra.
Qed.
Lemma extend_spec p o : 0 <= height p -> 0 <= height o ->
  top (extend_to p o) = Rmax (top p) (top o) /\ bottom (extend_to p o) = Rmin (bottom p) (bottom o) /\
  0 <= height (extend_to p o) /\ typ (extend_to p o) = typ p /\ cnt (extend_to p o) = cnt p + cnt o /\
  (stdev (extend_to p o) = stdev p \/ stdev (extend_to p o) = stdev o).
Proof.
  intros Hp Ho. unfold extend_to, top, bottom, Rmax, Rmin, ltb.
  destruct (Rlt_dec (mean p) (mean o)); cbn;
    (destruct (Rlt_dec _ _); cbn); repeat (destruct (Rle_dec _ _)); (repeat split; try lra; try done); auto.
Qed.

Section C49.
  Context (thickness gap : R).
  (** the patches merge, one of them stands for free and the other for occupied space *)
  Definition mixed (p o : patch) : Prop := negative p <> negative o.

  Lemma merge_horizontal_cases p o :
    (horizontal p && horizontal o = false /\ merge_horizontal thickness p o = p) \/
    (horizontal p = true /\ horizontal o = true /\ close thickness p o = true /\ merge_horizontal thickness p o = kalman_update p (mean o) (stdev o)) \/
    (horizontal p = true /\ horizontal o = true /\ close thickness p o = false /\ merge_horizontal thickness p o = set_typ VERTICAL p).
  Proof.
    unfold merge_horizontal. destruct (horizontal p), (horizontal o), (close thickness p o); cbn; tauto.
  Qed.

  (** The merged patch lies between the lower of the two bottoms and the higher of the two tops, it is well-formed again, and its
      deviation is at most the larger one. *)
  Theorem C49_hull p o p1 o1 : wf p -> wf o -> merge_mls thickness gap p o = (true, p1, o1) ->
    Rmin (bottom p) (bottom o) <= bottom p1 /\ bottom p1 <= top p1 /\ top p1 <= Rmax (top p) (top o) /\ wf p1 /\
    stdev p1 <= Rmax (stdev p) (stdev o).
  Proof.
    intros (Hsp & Hhp & Hzp) (Hso & Hho & Hzo). unfold merge_mls. destruct (near gap p o); [|done].
    assert (Hext : forall q, (forall P : Prop, (mean q = mean p -> stdev q = stdev p -> height q = height p -> typ q <> HORIZONTAL -> P) -> P) ->
      Rmin (bottom p) (bottom o) <= bottom (extend_to q o) /\ bottom (extend_to q o) <= top (extend_to q o) /\ top (extend_to q o) <= Rmax (top p) (top o) /\
      wf (extend_to q o) /\ stdev (extend_to q o) <= Rmax (stdev p) (stdev o)).
    { intros q HQ. apply HQ. clear HQ. intros Hm Hs Hh Ht. destruct (extend_spec q o) as (H1 & H2 & H3 & H4 & H5 & H6); [lra|done|].
      unfold wf. rewrite H4. unfold top, bottom in *. rewrite Hm, Hh in *. split; [lra|]. split; [lra|]. split; [lra|].
      pose proof (Rmax_l (stdev p) (stdev o)). pose proof (Rmax_r (stdev p) (stdev o)).
      split; [|destruct H6 as [->| ->]; lra]. split; [destruct H6 as [->| ->]; lra|]. split; [done|]. done. }
    destruct (merge_horizontal_cases p o) as [[Hhh ->]|[(Hp & Ho & _ & ->)|(Hp & Ho & _ & ->)]].
    - rewrite Hhh. destruct (horizontal p && vertical o) eqn:Hpv.
      { intros [= <- <-]. apply Hext. intros P HP. by apply HP. }
      destruct (negative p && negative o) eqn:Hnn.
      { intros [= <- <-]. apply Hext. intros P HP. by apply HP. }
      destruct (negative p || negative o) eqn:Hno.
      { destruct (decide _); [done|]. destruct (decide _).
        - destruct (encloses o p) eqn:He; [|done]. intros [= <- <-]. unfold encloses in He. apply andb_true_iff in He as [He1 He2].
          apply ltb_true in He1, He2. unfold top, bottom, wf, Rmin, Rmax. repeat (destruct (Rle_dec _ _)); repeat split; (lra || done).
        - destruct (encloses p o) eqn:He; [|done]. intros [= <- <-]. unfold encloses in He. apply andb_true_iff in He as [He1 He2].
          apply ltb_true in He1, He2. unfold top, bottom, wf, Rmin, Rmax. repeat (destruct (Rle_dec _ _)); repeat split; (lra || done). }
      intros [= <- <-]. apply Hext. intros P HP. apply HP; try done.
      intros Ht. unfold horizontal, vertical, negative in *. rewrite Ht in *. destruct (typ o); done.
    - assert (horizontal (kalman_update p (mean o) (stdev o)) = true) as -> by done. rewrite Ho. cbn [andb]. intros [= <- <-].
      destruct (kalman_stdev p (mean o) (stdev o) Hsp Hso) as [H1 H2]. pose proof (kalman_mean p (mean o) (stdev o) Hsp Hso) as H3.
      assert (height p = 0) as Hp0. { apply Hzp. unfold horizontal in Hp. by destruct (typ p). }
      assert (height o = 0) as Ho0. { apply Hzo. unfold horizontal in Ho. by destruct (typ o). }
      unfold top, bottom, wf. cbn [mean height stdev typ set_cnt] in *.
      assert (height (kalman_update p (mean o) (stdev o)) = height p) as -> by done.
      rewrite Hp0, Ho0, !Rminus_0_r. split; [lra|]. split; [lra|]. split; [lra|].
      pose proof (Rmax_l (stdev p) (stdev o)). split; [|lra]. split; [apply sqrt_pos|]. split; [lra|done].
    - assert (horizontal (set_typ VERTICAL p) = false) as -> by done. cbn [andb]. assert (negative (set_typ VERTICAL p) = false) as -> by done.
      assert (negative o = false) as -> by (unfold horizontal, negative in *; by destruct (typ o)). cbn.
      intros [= <- <-]. apply Hext. intros P HP. by apply HP.
  Qed.
  (** merging two occupied (or two free) patches into a block covers both exactly *)
  Theorem C49_cover p o p1 o1 : wf p -> wf o -> negative p = negative o -> merge_mls thickness gap p o = (true, p1, o1) -> horizontal p1 = false ->
    top p1 = Rmax (top p) (top o) /\ bottom p1 = Rmin (bottom p) (bottom o).
  Proof.
    intros (Hsp & Hhp & Hzp) (Hso & Hho & Hzo) Hneg. unfold merge_mls. destruct (near gap p o); [|done].
    destruct (merge_horizontal_cases p o) as [[Hhh ->]|[(Hp & Ho & _ & ->)|(Hp & Ho & _ & ->)]].
    - rewrite Hhh. destruct (horizontal p && vertical o) eqn:Hpv.
      { intros [= <- <-] _. by destruct (extend_spec (set_typ VERTICAL p) o) as (H1 & H2 & _). }
      destruct (negative p && negative o) eqn:Hnn.
      { intros [= <- <-] _. by destruct (extend_spec (set_typ NEGATIVE p) o) as (H1 & H2 & _). }
      destruct (negative p || negative o) eqn:Hno.
      { exfalso. rewrite Hneg in *. by destruct (negative o). }
      intros [= <- <-] _. by destruct (extend_spec p o) as (H1 & H2 & _).
    - assert (horizontal (kalman_update p (mean o) (stdev o)) = true) as Hk by done. rewrite Hk, Ho. cbn [andb]. intros [= <- <-] Hh.
      change (horizontal (kalman_update p (mean o) (stdev o)) = false) in Hh. congruence.
    - assert (horizontal (set_typ VERTICAL p) = false) as -> by done. cbn [andb]. assert (negative (set_typ VERTICAL p) = false) as -> by done.
      assert (negative o = false) as -> by (unfold horizontal, negative in *; by destruct (typ o)). cbn.
      intros [= <- <-] _. by destruct (extend_spec (set_typ VERTICAL p) o) as (H1 & H2 & _).
  Qed.
  (** the measurement counts are added, unless free space meets occupied space *)
  Theorem C49_count p o p1 o1 : negative p = negative o -> merge_mls thickness gap p o = (true, p1, o1) -> cnt p1 = cnt p + cnt o.
  Proof.
    intros Hneg. unfold merge_mls. destruct (near gap p o); [|done].
    assert (Hc : forall q, cnt q = cnt p -> cnt (extend_to q o) = cnt p + cnt o).
    { intros q Hq. unfold extend_to. rewrite <- Hq. repeat (destruct (ltb _ _)); done. }
    destruct (merge_horizontal_cases p o) as [[Hhh ->]|[(Hp & Ho & _ & ->)|(Hp & Ho & _ & ->)]].
    - rewrite Hhh. destruct (horizontal p && vertical o) eqn:Hpv; [intros [= <- <-]; by apply Hc|].
      destruct (negative p && negative o) eqn:Hnn; [intros [= <- <-]; by apply Hc|].
      destruct (negative p || negative o) eqn:Hno.
      { exfalso. rewrite Hneg in *. by destruct (negative o). }
      intros [= <- <-]. by apply Hc.
    - assert (horizontal (kalman_update p (mean o) (stdev o)) = true) as -> by done. rewrite Ho. by intros [= <- <-].
    - assert (horizontal (set_typ VERTICAL p) = false) as -> by done. cbn [andb]. assert (negative (set_typ VERTICAL p) = false) as -> by done.
      assert (negative o = false) as -> by (unfold horizontal, negative in *; by destruct (typ o)). cbn.
      intros [= <- <-]. by apply Hc.
  Qed.
  (** two surfaces that merge into a surface: the deviation does not exceed either of the two *)
  Theorem C49_variance p o p1 o1 : wf p -> wf o -> merge_mls thickness gap p o = (true, p1, o1) -> horizontal p1 = true ->
    stdev p1 <= stdev p /\ stdev p1 <= stdev o.
  Proof.
    intros (Hsp & Hhp & Hzp) (Hso & Hho & Hzo). unfold merge_mls. destruct (near gap p o); [|done].
    assert (Ht : forall q, typ (extend_to q o) = typ q). { intros q. unfold extend_to. repeat (destruct (ltb _ _)); done. }
    destruct (merge_horizontal_cases p o) as [[Hhh ->]|[(Hp & Ho & _ & ->)|(Hp & Ho & _ & ->)]].
    - rewrite Hhh. destruct (horizontal p && vertical o) eqn:Hpv.
      { intros [= <- <-]. unfold horizontal. by rewrite Ht. }
      destruct (negative p && negative o) eqn:Hnn.
      { intros [= <- <-]. unfold horizontal. by rewrite Ht. }
      destruct (negative p || negative o) eqn:Hno.
      { destruct (decide _); [done|]. destruct (decide _).
        - destruct (encloses o p) eqn:He; [|done]. intros [= <- <-] Hho1. exfalso. unfold encloses in He. apply andb_true_iff in He as [He1 He2].
          apply ltb_true in He1, He2. unfold horizontal in Hho1. destruct (typ o) eqn:Hto; try done. rewrite Hzo in He2 by done. lra.
        - destruct (encloses p o) eqn:He; [|done]. intros [= <- <-] Hho1. exfalso. unfold encloses in He. apply andb_true_iff in He as [He1 He2].
          apply ltb_true in He1, He2. unfold horizontal in Hho1. destruct (typ p) eqn:Hto; try done. rewrite Hzp in He2 by done. lra. }
      intros [= <- <-]. unfold horizontal. rewrite Ht. unfold horizontal, vertical, negative in *. destruct (typ p), (typ o); done.
    - assert (horizontal (kalman_update p (mean o) (stdev o)) = true) as -> by done. rewrite Ho. cbn [andb]. intros [= <- <-] _.
      by apply kalman_stdev.
    - assert (horizontal (set_typ VERTICAL p) = false) as -> by done. cbn [andb]. assert (negative (set_typ VERTICAL p) = false) as -> by done.
      assert (negative o = false) as -> by (unfold horizontal, negative in *; by destruct (typ o)). cbn.
      intros [= <- <-]. unfold horizontal. by rewrite Ht.
  Qed.
  Lemma near_sym p o : near gap p o = near gap o p.
  Proof.
    unfold near, delta_dev. rewrite (Rplus_comm (stdev o * stdev o)). set (d := sqrt _).
    apply eq_iff_eq_true. rewrite !andb_true_iff, !ltb_true. split; intros [H1 H2]; split; lra.
  Qed.
  (** whether two patches merge does not depend on the order (update model KALMAN) *)
  Theorem C49_symmetric p o : (merge_mls thickness gap p o).1.1 = (merge_mls thickness gap o p).1.1.
  Proof.
    unfold merge_mls. rewrite near_sym. destruct (near gap o p); [|done].
    assert (H : forall p o, (if horizontal p && horizontal o then true
       else if negative p && negative o then true
       else if negative p || negative o then
         if decide (idx p = idx o) then false
         else if decide (idx p < idx o)%nat then encloses o p else encloses p o else true) =
      (let q := merge_horizontal thickness p o in
       if horizontal q && horizontal o then (true, set_cnt (cnt q + cnt o) q, o)
      else if horizontal q && vertical o then (true, extend_to (set_typ VERTICAL q) o, o)
      else if negative q && negative o then (true, extend_to (set_typ NEGATIVE q) o, o)
      else if negative q || negative o then
        if decide (idx q = idx o) then (false, q, o)
        else if decide (idx q < idx o)%nat then
          if encloses o q then (true, o, o) else (false, cut q o, o)
        else
          if encloses q o then (true, q, o) else (false, q, cut o q)
      else (true, extend_to q o, o)).1.1).
    { clear. intros p o. destruct (merge_horizontal_cases p o) as [[Hhh ->]|[(Hp & Ho & _ & ->)|(Hp & Ho & _ & ->)]]; cbn zeta.
      - rewrite Hhh. destruct (horizontal p && vertical o) eqn:Hpv.
        { unfold horizontal, vertical, negative in *. destruct (typ p), (typ o); done. }
        destruct (negative p && negative o); [done|]. destruct (negative p || negative o); [|done].
        destruct (decide _); [done|]. destruct (decide _); [by destruct (encloses o p)|by destruct (encloses p o)].
      - rewrite Hp, Ho. change (horizontal (kalman_update p (mean o) (stdev o))) with (horizontal p). rewrite Hp. done.
      - rewrite Hp, Ho. cbn. assert (negative o = false) as -> by (unfold horizontal, negative in *; by destruct (typ o)). done. }
    rewrite <- !H. rewrite (andb_comm (horizontal o)), (andb_comm (negative o)), (orb_comm (negative o)).
    destruct (horizontal p && horizontal o); [done|]. destruct (negative p && negative o); [done|]. destruct (negative p || negative o); [|done].
    destruct (decide (idx p = idx o)) as [He|He].
    - rewrite decide_True by done. done.
    - rewrite (decide_False (P := idx o = idx p)) by done. destruct (decide (idx p < idx o)%nat), (decide (idx o < idx p)%nat); (done || lia).
  Qed.
End C49.

(** ** update model SUM *)
Section Sum.
  Context (gap : R).
  Theorem C49_sum p o p1 o1 : merge_sum gap p o = (true, p1, o1) ->
    pmin p1 = Rmin (pmin p) (pmin o) /\ pmax p1 = Rmax (pmax p) (pmax o) /\ cnt p1 = cnt p + cnt o /\ 0 <= stdev p1.
  Proof.
    unfold merge_sum. destruct (overlap _ _ _ _); [|done]. intros [= <- <-]. cbn. do 3 (split; [done|]).
    destruct (ltb _ _); apply sqrt_pos.
  Qed.
  (** the mean is the average of the two means, weighted with the weights (inverse variances) of the measurements *)
  Theorem C49_sum_mean p o p1 o1 : 0 < sn p -> 0 < sn o -> sz p = sn p * mean p -> sz o = sn o * mean o ->
    merge_sum gap p o = (true, p1, o1) ->
    Rmin (mean p) (mean o) <= mean p1 <= Rmax (mean p) (mean o) /\ 0 < sn p1 /\ sz p1 = sn p1 * mean p1.
  Proof.
    intros Hp Ho Hzp Hzo. unfold merge_sum. destruct (overlap _ _ _ _); [|done]. intros [= <- <-]. cbn. rewrite Hzp, Hzo.
    split; [|split; [lra|field; lra]].
    assert (Hs : 0 < sn p + sn o) by lra. unfold Rmin, Rmax. destruct (Rle_dec (mean p) (mean o)).
    - split; apply Rmult_le_reg_r with (sn p + sn o); try done; unfold Rdiv; rewrite ?Rmult_assoc, ?Rinv_l by lra; nra.
    - split; apply Rmult_le_reg_r with (sn p + sn o); try done; unfold Rdiv; rewrite ?Rmult_assoc, ?Rinv_l by lra; nra.
  Qed.
  (** the interval of [p], widened by the gap on both sides, lies inside the interval of [o] *)
  Definition inside (p o : patch) : Prop := pmin o <= pmin p - gap /\ pmax p + gap <= pmax o.
  Lemma overlap_iff p o : pmin p <= pmax p -> pmin o <= pmax o -> ~ inside p o ->
    overlap (pmin p - gap) (pmax p + gap) (pmin o) (pmax o) = true <-> pmin p - gap < pmax o /\ pmin o < pmax p + gap.
  Proof.
    intros Hp Ho Hi. unfold overlap. rewrite orb_true_iff, !andb_true_iff, !ltb_true. split; [lra|]. intros [H1 H2].
    destruct (Rlt_dec (pmax o) (pmax p + gap)); [by left|]. destruct (Rlt_dec (pmin p - gap) (pmin o)); [by right|].
    exfalso. apply Hi. split; lra.
  Qed.
  (** the decision does not depend on the order, unless the interval of one patch is inside that of the other *)
  Theorem C49_sum_symmetric p o : pmin p <= pmax p -> pmin o <= pmax o -> ~ inside p o -> ~ inside o p ->
    (merge_sum gap p o).1.1 = (merge_sum gap o p).1.1.
  Proof.
    intros Hp Ho H1 H2. pose proof (overlap_iff p o Hp Ho H1) as H3. pose proof (overlap_iff o p Ho Hp H2) as H4.
    unfold merge_sum. destruct (overlap (pmin p - gap) _ _ _), (overlap (pmin o - gap) _ _ _); try done.
    - destruct H3 as [H3 _]. specialize (H3 eq_refl). destruct H4 as [_ H4]. discriminate H4. lra.
    - destruct H4 as [H4 _]. specialize (H4 eq_refl). destruct H3 as [_ H3]. discriminate H3. lra.
  Qed.
End Sum.

(** ** the public merge *)
Theorem C49_index thickness gap m p o p1 o1 : merge_patch thickness gap m p o = (true, p1, o1) -> idx p1 = (idx p `max` idx o)%nat /\ o1 = o.
Proof.
  unfold merge_patch. destruct m.
  - destruct (merge_mls thickness gap p o) as [[[] p2] o2] eqn:E; [|done]. intros [= <- <-]. cbn.
    revert E. unfold merge_mls. destruct (near gap p o); [|done].
    assert (Hi : forall q, idx (extend_to q o) = idx q). { intros q. unfold extend_to. repeat (destruct (ltb _ _)); done. }
    assert (Hq : idx (merge_horizontal thickness p o) = idx p).
    { unfold merge_horizontal. destruct (_ && _); [|done]. by destruct (close _ _ _). }
    set (q := merge_horizontal thickness p o) in *. cbn zeta.
    destruct (_ && _); [intros [= <- <-]; cbn; by rewrite Hq|].
    destruct (_ && _); [intros [= <- <-]; rewrite Hi; cbn; by rewrite Hq|].
    destruct (_ && _); [intros [= <- <-]; rewrite Hi; cbn; by rewrite Hq|].
    destruct (_ || _).
    + destruct (decide _); [done|]. destruct (decide _).
      * destruct (encloses o q); [|done]. intros [= <- <-]. split; [lia|done].
      * destruct (encloses q o); [|done]. intros [= <- <-]. split; [lia|done].
    + intros [= <- <-]. rewrite Hi, Hq. done.
  - destruct (merge_sum gap p o) as [[[] p2] o2] eqn:E; [|done]. intros [= <- <-]. revert E. unfold merge_sum.
    destruct (overlap _ _ _ _); [|done]. intros [= <- <-]. done.
Qed.

(** * Examples *)
Definition surface (m s : R) (i : nat) : patch := Patch m s 0 m m 1 0 0 0 0 i HORIZONTAL.
Definition block (m h s c : R) (i : nat) (t : ptype) : patch := Patch m s h (m - h) m c 0 0 0 0 i t.
Definition sums (a b m c : R) : patch := Patch m 1 0 a b c c (m * c) (m * m * c) c 0 HORIZONTAL.

Lemma near_iff gap p o : near gap p o = true <-> mean p - height p - gap - delta_dev p o < mean o /\ mean o - height o < mean p + gap + delta_dev p o.
Proof. unfold near. by rewrite andb_true_iff, !ltb_true. Qed.
Lemma close_iff th p o : close th p o = true <-> mean p - height p - th - delta_dev p o < mean o /\ mean o < mean p + th + delta_dev p o.
Proof. unfold close. by rewrite andb_true_iff, !ltb_true. Qed.
Lemma delta_pos p o : 0 <= delta_dev p o.
Proof. apply sqrt_pos. Qed.

(** two surfaces that merge into a surface, two blocks that merge into a block *)
Example C49_nonvacuous :
  (let p := surface 0 1 0 in let o := surface 1 1 1 in
   wf p /\ wf o /\ exists p1, merge_mls (1/20) 1 p o = (true, p1, o) /\ horizontal p1 = true /\ mean p1 = 1 / 2 /\ cnt p1 = 2) /\
  (let p := block 3 2 1 4 0 VERTICAL in let o := block 5 (3/2) 1 6 1 VERTICAL in
   wf p /\ wf o /\ exists p1, merge_mls (1/20) 1 p o = (true, p1, o) /\ horizontal p1 = false /\ top p1 = 5 /\ bottom p1 = 1 /\ cnt p1 = 10).
Proof.
  split.
  - split; [unfold wf; cbn; repeat split; lra|]. split; [unfold wf; cbn; repeat split; lra|].
    unfold merge_mls. assert (near 1 (surface 0 1 0) (surface 1 1 1) = true) as ->.
    { apply near_iff. assert (1 <= delta_dev (surface 0 1 0) (surface 1 1 1)).
      { unfold delta_dev. cbn. rewrite <- sqrt_1 at 1. apply sqrt_le_1_alt. lra. }
      cbn in *. lra. }
    unfold merge_horizontal. cbn [horizontal surface typ andb].
    assert (close (1/20) (surface 0 1 0) (surface 1 1 1) = true) as ->.
    { apply close_iff. assert (1 <= delta_dev (surface 0 1 0) (surface 1 1 1)).
      { unfold delta_dev. cbn. rewrite <- sqrt_1 at 1. apply sqrt_le_1_alt. lra. }
      cbn in *. lra. }
    cbn. eexists. split; [reflexivity|]. split; [done|]. cbn. split; [|lra].
    unfold kalman_gain, eqb. destruct (Req_EM_T _ _); lra.
  - split; [unfold wf; cbn; repeat split; (lra || done)|]. split; [unfold wf; cbn; repeat split; (lra || done)|].
    unfold merge_mls. assert (near 1 (block 3 2 1 4 0 VERTICAL) (block 5 (3/2) 1 6 1 VERTICAL) = true) as ->.
    { apply near_iff. pose proof (delta_pos (block 3 2 1 4 0 VERTICAL) (block 5 (3/2) 1 6 1 VERTICAL)). cbn in *. lra. }
    cbn. eexists. split; [reflexivity|]. destruct (extend_spec (block 3 2 1 4 0 VERTICAL) (block 5 (3/2) 1 6 1 VERTICAL)) as (H1 & H2 & _ & H4 & H5 & _);
      [cbn; lra|cbn; lra|].
    split; [unfold horizontal; by rewrite H4|]. rewrite H1, H2, H5. unfold Rmax, Rmin, top, bottom. cbn.
    repeat (destruct (Rle_dec _ _)); repeat split; lra.
Qed.
Example C49_sum_nonvacuous : let p := sums 0 2 1 4 in let o := sums 1 3 2 4 in
  pmin p <= pmax p /\ pmin o <= pmax o /\ ~ inside 0 p o /\ ~ inside 0 o p /\ 0 < sn p /\ 0 < sn o /\ sz p = sn p * mean p /\ sz o = sn o * mean o /\
  (merge_sum 0 p o).1.1 = true.
Proof.
  cbn zeta. unfold inside. cbn [pmin pmax sn sz mean sums]. do 8 (split; [lra|]).
  unfold merge_sum. cbn [pmin pmax sums]. assert (overlap (0 - 0) (2 + 0) 1 3 = true) as ->; [|done].
  unfold overlap. rewrite orb_true_iff, !andb_true_iff, !ltb_true. lra.
Qed.
(** SUM: the interval [1,2] does not merge with [0,3], but [0,3] merges with [1,2] *)
Theorem C49_sum_symmetric_refuted :
  (merge_sum 0 (sums 1 2 1 1) (sums 0 3 1 1)).1.1 = false /\ (merge_sum 0 (sums 0 3 1 1) (sums 1 2 1 1)).1.1 = true.
Proof.
  unfold merge_sum. cbn [pmin pmax sums]. split.
  - assert (overlap (1 - 0) (2 + 0) 0 3 = false) as ->; [|done].
    apply not_true_iff_false. unfold overlap. rewrite orb_true_iff, !andb_true_iff, !ltb_true. lra.
  - assert (overlap (0 - 0) (3 + 0) 1 2 = true) as ->; [|done].
    unfold overlap. rewrite orb_true_iff, !andb_true_iff, !ltb_true. lra.
Qed.
(** a newer occupied patch replaces an older free patch: the measurements of the latter are not counted *)
Theorem C49_count_refuted : exists p1, let p := block 1 1 1 5 0 NEGATIVE in let o := block 2 3 1 7 1 VERTICAL in
  wf p /\ wf o /\ merge_mls (1/20) 1 p o = (true, p1, o) /\ cnt p1 = 7.
Proof.
  eexists. cbn zeta. do 2 (split; [unfold wf; cbn; repeat split; (lra || done)|]).
  unfold merge_mls. assert (near 1 (block 1 1 1 5 0 NEGATIVE) (block 2 3 1 7 1 VERTICAL) = true) as ->.
  { apply near_iff. pose proof (delta_pos (block 1 1 1 5 0 NEGATIVE) (block 2 3 1 7 1 VERTICAL)). cbn in *. lra. }
  cbn. assert (encloses (block 2 3 1 7 1 VERTICAL) (block 1 1 1 5 0 NEGATIVE) = true) as ->; [|done].
  unfold encloses. rewrite andb_true_iff, !ltb_true. cbn. lra.
Qed.
(** Refused merges change the older patch as well, and may break it: the patch [5,10] that is cut at a newer free patch [0,10] ends up
    with top 0 and height -5; and the free patch [5,6] grows to [9/2,6] when a newer patch [4,9/2] below it is seen. *)
Theorem C49_refused_refuted :
  (exists p1, let p := block 10 5 1 5 0 VERTICAL in let o := block 10 10 1 7 1 NEGATIVE in
    wf p /\ wf o /\ merge_mls (1/20) 1 p o = (false, p1, o) /\ top p1 = 0 /\ height p1 = -5) /\
  (exists p1, let p := block 6 1 1 5 0 NEGATIVE in let o := block (9/2) (1/2) 1 7 1 VERTICAL in
    wf p /\ wf o /\ merge_mls (1/20) 1 p o = (false, p1, o) /\ bottom p = 5 /\ bottom p1 = 9 / 2).
Proof.
  split.
  - eexists. cbn zeta. do 2 (split; [unfold wf; cbn; repeat split; (lra || done)|]).
    unfold merge_mls. assert (near 1 (block 10 5 1 5 0 VERTICAL) (block 10 10 1 7 1 NEGATIVE) = true) as ->.
    { apply near_iff. pose proof (delta_pos (block 10 5 1 5 0 VERTICAL) (block 10 10 1 7 1 NEGATIVE)). cbn in *. lra. }
    cbn. assert (encloses (block 10 10 1 7 1 NEGATIVE) (block 10 5 1 5 0 VERTICAL) = false) as ->.
    { apply not_true_iff_false. unfold encloses. rewrite andb_true_iff, !ltb_true. cbn. lra. }
    split; [reflexivity|]. unfold cut. cbn.
    assert (ltb 10 10 = false) as -> by (apply ltb_false; lra). assert (ltb (10 - 10) 10 = true) as -> by (apply ltb_true; lra).
    unfold top. cbn. split; lra.
  - eexists. cbn zeta. do 2 (split; [unfold wf; cbn; repeat split; (lra || done)|]).
    unfold merge_mls. assert (near 1 (block 6 1 1 5 0 NEGATIVE) (block (9/2) (1/2) 1 7 1 VERTICAL) = true) as ->.
    { apply near_iff. assert (1 <= delta_dev (block 6 1 1 5 0 NEGATIVE) (block (9/2) (1/2) 1 7 1 VERTICAL)).
      { unfold delta_dev. cbn. rewrite <- sqrt_1 at 1. apply sqrt_le_1_alt. lra. }
      cbn in *. lra. }
    cbn. assert (encloses (block (9/2) (1/2) 1 7 1 VERTICAL) (block 6 1 1 5 0 NEGATIVE) = false) as ->.
    { apply not_true_iff_false. unfold encloses. rewrite andb_true_iff, !ltb_true. cbn. lra. }
    split; [reflexivity|]. unfold cut. cbn.
    assert (ltb (9/2) 6 = true) as -> by (apply ltb_true; lra). unfold bottom. cbn. split; lra.
Qed.

(** * C50 for these patches *)
Section Cell.
  Context (thickness gap : R).
  Notation merge := (merge_patch thickness gap KALMAN).

  Lemma merge_mls_false_quiet p o p1 o1 : negative p = false -> negative o = false -> merge_mls thickness gap p o = (false, p1, o1) -> p1 = p /\ o1 = o.
  Proof.
    intros Hp Ho. unfold merge_mls. destruct (near gap p o); [|by intros [= <- <-]].
    assert (negative (merge_horizontal thickness p o) = false) as Hq.
    { unfold merge_horizontal. destruct (_ && _); [|done]. by destruct (close _ _ _). }
    cbn zeta. rewrite Hq, Ho. cbn. destruct (_ && _); [done|]. by destruct (_ && _).
  Qed.
  (** without free space, merging is quiet *)
  Lemma merge_quiet l o : Forall (fun p => negative p = false) l -> negative o = false -> quiet merge l o.
  Proof.
    intros Hl Ho p b p1 o1 Hin Hm. rewrite Forall_forall in Hl. specialize (Hl p Hin). destruct b.
    - apply C49_index in Hm as [_ ->]. done.
    - unfold merge_patch in Hm. destruct (merge_mls thickness gap p o) as [[[] p2] o2] eqn:E; [done|]. injection Hm as <- <-.
      apply merge_mls_false_quiet in E as [-> ->]; done.
  Qed.

  (** A vertical patch is put into a cell without free space, [gap] being positive: afterwards its information is in exactly one
      patch, and that patch covers it; the patches that did not match are unchanged, in order; no information is lost. *)
  Theorem C50_block (l : list (patch * gset nat)) o t l' b :
    0 < gap -> Forall (fun e => wf e.1 /\ negative e.1 = false) l -> wf o -> typ o = VERTICAL ->
    t ∉ labels l -> update_list (lmerge merge) l (o, {[t]}) = Some (l', b) ->
    length (filter (fun e => t ∈ e.2) l') = 1%nat /\
    (forall e, e ∈ l' -> t ∈ e.2 -> bottom e.1 <= bottom o /\ top o <= top e.1) /\
    filter (fun e => t ∉ e.2) l' = filter (fun e => matches merge e.1 o = false) l /\
    labels l' = labels l ∪ {[t]}.
  Proof.
    intros Hg Hl Hwo Hto Ht Hup.
    assert (Hno : negative o = false) by (unfold negative; by rewrite Hto).
    assert (Hq : quiet merge l.*1 o). { apply merge_quiet; [|done]. apply Forall_fmap. eapply Forall_impl; [done|]. intros e [_ He]. exact He. }
    set (Q := fun r => typ r = VERTICAL /\ 0 <= height r /\ bottom r <= bottom o /\ top o <= top r).
    assert (HQ1 : forall p r, p ∈ l.*1 -> merge p o = (true, r, o) -> Q r).
    { intros p r Hin Hm. apply elem_of_list_fmap in Hin as (e & -> & He). rewrite Forall_forall in Hl. destruct (Hl e He) as [Hwe Hne].
      unfold merge_patch in Hm. destruct (merge_mls thickness gap e.1 o) as [[[] r1] o1] eqn:E; [|done]. injection Hm as <- ->.
      destruct Hwe as (Hse & Hhe & Hze). destruct Hwo as (Hso & Hho & _).
      revert E. unfold merge_mls. destruct (near gap e.1 o); [|done]. assert (horizontal o = false) as Hhor by (unfold horizontal; by rewrite Hto).
      unfold merge_horizontal. rewrite Hhor, andb_false_r. assert (vertical o = true) as Hv by (unfold vertical; by rewrite Hto).
      cbn zeta. rewrite ?Hhor, ?andb_false_r, Hv, andb_true_r, Hno, Hne. cbn.
      destruct (horizontal e.1) eqn:Hh.
      - intros [= <-]. destruct (extend_spec (set_typ VERTICAL e.1) o) as (H1 & H2 & H3 & H4 & _); [done|done|].
        unfold Q. change (typ (set_idx _ ?r)) with (typ r). change (height (set_idx _ ?r)) with (height r).
        change (bottom (set_idx _ ?r)) with (bottom r). change (top (set_idx _ ?r)) with (top r).
        rewrite H4, H1, H2. split; [done|]. split; [done|]. split; [apply Rmin_r|apply Rmax_r].
      - intros [= <-]. destruct (extend_spec e.1 o) as (H1 & H2 & H3 & H4 & _); [done|done|].
        unfold Q. change (typ (set_idx _ ?r)) with (typ r). change (height (set_idx _ ?r)) with (height r).
        change (bottom (set_idx _ ?r)) with (bottom r). change (top (set_idx _ ?r)) with (top r).
        rewrite H4, H1, H2. split; [unfold horizontal, negative in *; destruct (typ e.1); done|]. split; [done|]. split; [apply Rmin_r|apply Rmax_r]. }
    assert (HQ2 : forall p q, Q p -> Q q -> exists r q1, merge p q = (true, r, q1) /\ Q r).
    { intros p q (Htp & Hhp & Hbp & Htp') (Htq & Hhq & Hbq & Htq'). unfold merge_patch, merge_mls.
      assert (near gap p q = true) as ->.
      { apply near_iff. pose proof (delta_pos p q). unfold bottom, top in *. destruct Hwo as (_ & ? & _). lra. }
      unfold merge_horizontal. unfold horizontal, vertical, negative. rewrite Htp, Htq. cbn [andb orb]. rewrite Htp. cbn [andb orb].
      eexists _, _. split; [reflexivity|]. destruct (extend_spec p q) as (H1 & H2 & H3 & H4 & _); [done|done|].
      unfold Q. change (typ (set_idx _ ?r)) with (typ r). change (height (set_idx _ ?r)) with (height r).
      change (bottom (set_idx _ ?r)) with (bottom r). change (top (set_idx _ ?r)) with (top r). rewrite H4, H1, H2. split; [done|]. split; [done|].
      pose proof (Rmin_l (bottom p) (bottom q)). pose proof (Rmax_l (top p) (top q)). split; lra. }
    split; [by eapply (C50_single merge Q)|]. split.
    { assert (Q o) as HQo. { destruct Hwo as (_ & ? & _). unfold Q. split; [done|]. split; [done|]. lra. }
      intros e He Hin. apply (C50_where merge Q _ _ _ _ _ Hq Ht Hup HQo HQ1 HQ2 e He Hin). }
    split; [by eapply (C50_unmatched merge)|]. by eapply C50_no_loss.
  Qed.
End Cell.

Lemma lmerge_eq M (p o p1 o1 : patch) (S T : gset nat) b : M p o = (b, p1, o1) -> lmerge M (p, S) (o, T) = (b, (p1, if b then S ∪ T else S), (o1, T)).
Proof. intros H. unfold lmerge. cbn [fst snd]. by rewrite H. Qed.
(** a cell with two blocks that the new block bridges, and a block far away *)
Example C50_nonvacuous :
  let a := block 1 1 0 1 0 VERTICAL in let b := block 4 1 0 1 0 VERTICAL in let c := block 20 1 0 1 0 VERTICAL in let o := block (7/2) (3/2) 0 1 1 VERTICAL in
  let l := [(a, {[0%nat]}); (c, {[2%nat]}); (b, {[1%nat]})] : list (patch * gset nat) in
  Forall (fun e => wf e.1 /\ negative e.1 = false) l /\ wf o /\ 3%nat ∉ labels l /\
  matches (merge_patch (1/20) (3/2) KALMAN) a o = true /\ matches (merge_patch (1/20) (3/2) KALMAN) b o = true /\
  matches (merge_patch (1/20) (3/2) KALMAN) c o = false /\ matches (merge_patch (1/20) (3/2) KALMAN) a b = false /\
  exists l', update_list (lmerge (merge_patch (1/20) (3/2) KALMAN)) l (o, {[3%nat]}) = Some (l', false) /\ length l' = 2%nat.
Proof.
  intros a b c o l.
  assert (Hd : forall p q, stdev p = 0 -> stdev q = 0 -> delta_dev p q = 0).
  { intros p q Hp Hq. unfold delta_dev. rewrite Hp, Hq. replace (0 * 0 + 0 * 0) with 0 by lra. apply sqrt_0. }
  assert (Hnear : forall p q, stdev p = 0 -> stdev q = 0 -> mean p - height p - 3/2 < mean q -> mean q - height q < mean p + 3/2 -> near (3/2) p q = true).
  { intros p q Hp Hq H1 H2. apply near_iff. rewrite Hd by done. lra. }
  assert (Hfar : forall p q, stdev p = 0 -> stdev q = 0 -> mean q <= mean p - height p - 3/2 \/ mean p + 3/2 <= mean q - height q -> near (3/2) p q = false).
  { intros p q Hp Hq H1. apply not_true_iff_false. rewrite near_iff. rewrite Hd by done. lra. }
  assert (Hm : forall p q, typ p = VERTICAL -> typ q = VERTICAL -> near (3/2) p q = true ->
    merge_patch (1/20) (3/2) KALMAN p q = (true, set_idx (idx (extend_to p q) `max` idx q)%nat (extend_to p q), q)).
  { intros p q Hp Hq Hn. unfold merge_patch, merge_mls. rewrite Hn. unfold merge_horizontal, horizontal, vertical, negative. rewrite Hp, Hq. cbn [andb orb]. by rewrite Hp. }
  assert (Hm' : forall p q, near (3/2) p q = false -> merge_patch (1/20) (3/2) KALMAN p q = (false, p, q)).
  { intros p q Hn. unfold merge_patch, merge_mls. by rewrite Hn. }
  assert (Hao : near (3/2) a o = true) by (apply Hnear; cbn; lra). assert (Hbo : near (3/2) b o = true) by (apply Hnear; cbn; lra).
  assert (Hco : near (3/2) c o = false) by (apply Hfar; cbn; lra). assert (Hab : near (3/2) a b = false) by (apply Hfar; cbn; lra).
  split. { repeat constructor; cbn; (lra || done). }
  split. { unfold wf; cbn; repeat split; (lra || done). }
  split. { unfold labels. cbn. set_solver by lia. }
  unfold matches. rewrite (Hm a o), (Hm b o), (Hm' c o), (Hm' a b) by done. do 4 (split; [done|]).
  unfold update_list, l. cbn [phase1].
  erewrite (lmerge_eq _ a o) by (apply Hm; done). erewrite (lmerge_eq _ c o) by (apply Hm'; done). erewrite (lmerge_eq _ b o) by (apply Hm; done).
  unfold any_merged. cbn [existsb snd orb length phase2 absorb].
  set (ao := set_idx _ (extend_to a o)). set (bo := set_idx _ (extend_to b o)).
  destruct (extend_spec a o) as (H1 & H2 & H3 & H4 & _ & H6); [cbn; lra|cbn; lra|].
  destruct (extend_spec b o) as (H1' & H2' & H3' & H4' & _ & H6'); [cbn; lra|cbn; lra|].
  erewrite (lmerge_eq _ ao bo); [|apply Hm].
  - cbn. eexists. split; [reflexivity|done].
  - exact H4.
  - exact H4'.
  - apply Hnear; [by destruct H6|by destruct H6'| |].
    + unfold top, bottom in H1, H2, H1', H2'. change (mean ao) with (mean (extend_to a o)). change (height ao) with (height (extend_to a o)).
      change (mean bo) with (mean (extend_to b o)). rewrite H2, H1'. cbn. unfold Rmin, Rmax. repeat (destruct (Rle_dec _ _)); lra.
    + unfold top, bottom in H1, H2, H1', H2'. change (mean ao) with (mean (extend_to a o)). change (height bo) with (height (extend_to b o)).
      change (mean bo) with (mean (extend_to b o)). rewrite H2', H1. cbn. unfold Rmin, Rmax. repeat (destruct (Rle_dec _ _)); lra.
Qed.

(** An uncertain surface at height 10 is merged into the exact surfaces at 0 and at 20, which are too far apart to be merged: both
    contain it afterwards, and it is counted twice. *)
Theorem C50_two_refuted :
  let a := surface 0 0 0 in let b := surface 20 0 0 in let o := surface 10 10 1 in
  let l := [(a, {[0%nat]}); (b, {[1%nat]})] : list (patch * gset nat) in
  Forall (fun e => wf e.1 /\ negative e.1 = false) l /\ wf o /\
  exists l', update_list (lmerge (merge_patch (1/20) 1 KALMAN)) l (o, {[2%nat]}) = Some (l', false) /\
    length (filter (fun e => 2%nat ∈ e.2) l') = 2%nat /\ (fun e => cnt e.1) <$> l' = [2; 2].
Proof.
  intros a b o l.
  split. { repeat constructor; cbn; lra. }
  split. { unfold wf; cbn; repeat split; lra. }
  assert (Hk : forall m, (m = 0 \/ m = 20) -> exists r, merge_patch (1/20) 1 KALMAN (surface m 0 0) o = (true, r, o) /\ mean r = m /\ stdev r = 0 /\ height r = 0 /\ cnt r = 2).
  { intros m Hmm. unfold merge_patch, merge_mls.
    assert (delta_dev (surface m 0 0) o = 10) as Hd. { unfold delta_dev. cbn. replace (0 * 0 + 10 * 10) with (10 * 10) by lra. apply sqrt_square. lra. }
    assert (near 1 (surface m 0 0) o = true) as ->. { apply near_iff. rewrite Hd. cbn. lra. }
    unfold merge_horizontal. cbn [horizontal typ surface o andb].
    assert (close (1/20) (surface m 0 0) o = true) as ->. { apply close_iff. rewrite Hd. cbn. lra. }
    unfold kalman_update. cbn -[kalman_gain]. eexists. split; [reflexivity|]. cbn -[kalman_gain].
    assert (kalman_gain 0 10 = 0) as ->. { unfold kalman_gain, eqb. destruct (Req_EM_T _ _) as [H|H]; [lra|]. field. }
    replace ((1 - 0) * (0 * 0)) with 0 by lra. rewrite sqrt_0. repeat split; lra. }
  destruct (Hk 0) as (ra & Ha & Hma & Hsa & Hha & Hna); [by left|]. destruct (Hk 20) as (rb & Hb & Hmb & Hsb & Hhb & Hnb); [by right|].
  unfold update_list, l. cbn [phase1]. fold a in Ha. fold b in Hb.
  rewrite (lmerge_eq _ _ _ _ _ _ _ _ Ha), (lmerge_eq _ _ _ _ _ _ _ _ Hb).
  unfold any_merged. cbn [existsb snd orb length phase2 absorb].
  assert (merge_patch (1/20) 1 KALMAN ra rb = (false, ra, rb)) as Hab.
  { unfold merge_patch, merge_mls. assert (near 1 ra rb = false) as ->; [|done]. apply not_true_iff_false. rewrite near_iff. unfold delta_dev.
    rewrite Hma, Hmb, Hsa, Hsb, Hha, Hhb. replace (0 * 0 + 0 * 0) with 0 by lra. rewrite sqrt_0. lra. }
  rewrite (lmerge_eq _ _ _ _ _ _ _ _ Hab).
  cbn [phase2 absorb mbind option_bind]. eexists. split; [reflexivity|]. split.
  - rewrite !filter_cons_True by (cbn; set_solver). done.
  - cbn. by rewrite Hna, Hnb.
Qed.

(** With free space in the cell, a patch that does not match may be changed (see C49_refused_refuted). *)
Theorem C50_unmatched_refuted : exists l', let p := block 6 1 1 5 0 NEGATIVE in let o := block (9/2) (1/2) 1 7 1 VERTICAL in
  update_list (merge_patch (1/20) 1 KALMAN) [p] o = Some (l', true) /\ p ∉ l'.
Proof.
  destruct C49_refused_refuted as [_ (p1 & _ & _ & Hm & Hb & Hb1)]. exists [block (9/2) (1/2) 1 7 1 VERTICAL; p1]. cbn zeta. split.
  - unfold update_list. cbn [phase1]. unfold merge_patch. rewrite Hm. done.
  - intros Hin. apply elem_of_cons in Hin as [H|H]; [apply (f_equal mean) in H; cbn in H; lra|].
    apply elem_of_list_singleton in H. rewrite <- H in Hb1. lra.
Qed.
