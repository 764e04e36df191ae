(** C134: iterating over a rectangle and the border around it: src/maps/GridBase.cpp:116-290, [forEachInRectangles]. *)
From stdpp Require Import prelude.
From Coq Require Import ZArith QArith Qround Qabs Lqa.
From Verif Require Import Base Bresenham GridModel GridProps RectProps.
Local Open Scope Z_scope.

(** ** Model *)
(** a call of the inner ([true]) or of the outer callback *)
Definition call : Type := bool * pos.
Section model.
  Context (conv : Z -> Z).
  (** GridBase.cpp:145-176: the direction of both outlines is chosen by the inner rectangle *)
  Definition outline_as (inner p : corners pos) (fuel : nat) : out unit (list pos * list pos) :=
    if snd (c_ur inner) >? snd (c_dr inner) then
      l1 <~ line_bresenham fuel (c_ur p) (c_ul p) [] ;; l <~ line_bresenham fuel (c_ul p) (c_dl p) l1 ;;
      r1 <~ line_bresenham fuel (c_ur p) (c_dr p) [] ;; r <~ line_bresenham fuel (c_dr p) (c_dl p) r1 ;; Ok (l, r)
    else
      l1 <~ line_bresenham fuel (c_dr p) (c_ur p) [] ;; l <~ line_bresenham fuel (c_ur p) (c_ul p) l1 ;;
      r1 <~ line_bresenham fuel (c_dr p) (c_dl p) [] ;; r <~ line_bresenham fuel (c_dl p) (c_ul p) r1 ;; Ok (l, r).
  (** GridBase.cpp:259-285, the calls of one row; [i], [o]: least and largest column of the inner and the outer outline *)
  Definition pair_calls (g : geo) (cy : Z) (has_inner : bool) (i o : Z * Z) : list call :=
    if has_inner then
      (pair false <$> row_calls g cy o.1 (i.1 - 1)) ++ (pair true <$> row_calls g cy i.1 i.2) ++ (pair false <$> row_calls g cy (i.2 + 1) o.2)
    else pair false <$> row_calls g cy o.1 o.2.
  (** GridBase.cpp:195-287, the loop over the rows; [iny] is [inY], which is not initialised. [y / multiplier] is a double division, truncated: exact for the
      coordinates that occur. *)
  Fixpoint pair_rows (g : geo) (m : Z) (fuel : nat) (li ri lo ro : list pos) (iny : option Z) (calls : list call) : out unit (list call) :=
    match lo, ro with
    | l0 :: _, _ :: _ =>
      match fuel with
      | O => NoFuel
      | S f =>
        let iny' := match li with i0 :: _ => Some (snd i0 / m) | [] => iny end in
        let cy := snd l0 / m in
        let '(li', i1) := eat_row m cy li (size_end - 1, 0) in
        let '(ri', i2) := eat_row m cy ri i1 in
        let '(lo', o1) := eat_row m cy lo (size_end - 1, 0) in
        let '(ro', o2) := eat_row m cy ro o1 in
        if cy >=? g_ny g then pair_rows g m f li' ri' lo' ro' iny' calls
        else match iny' with
             | None => Bad UB
             | Some y => pair_rows g m f li' ri' lo' ro' iny' (calls ++ pair_calls g cy (y =? cy) (i2.1 / m, i2.2 / m) (o2.1 / m, o2.2 / m))
             end
      end
    | _, _ => Ok calls
    end.
  (** GridBase.cpp:116-290, [forEachInRectangles]; [None]: returns false without any call *)
  Definition for_each_in_rectangles (fuel : nat) (g : geo) (pose : Q * Q) (c s ix iy ox oy : Q) : out unit (option (list call)) :=
    match get_rect_points conv g pose c s ix iy 10 with
    | None => Ok None
    | Some i =>
      match get_rect_points conv g pose c s ox oy 10 with
      | None => Ok None
      | Some o =>
        li <~ outline_as i i fuel ;; lo <~ outline_as i o fuel ;;
        calls <~ pair_rows g 10 fuel li.1 li.2 lo.1 lo.2 None [] ;;
        Ok (Some calls)
      end
    end.
End model.

(** ** One row *)
(** the two sides of an outline, from the same height down to the same height [e] *)
Record sides (l r : list pos) (y e : Z) : Prop := Sides {
  sd_l : desc l; sd_r : desc r; sd_hl : exists a, head l = Some a /\ snd a = y; sd_hr : exists a, head r = Some a /\ snd a = y;
  sd_ll : exists a, last l = Some a /\ snd a = e; sd_lr : exists a, last r = Some a /\ snd a = e; sd_small : Forall small (l ++ r) }.
Lemma sides_low l r y e a : sides l r y e -> a ∈ l ++ r -> e <= snd a <= y.
Proof.
  intros [DL DR (hl&Hl&Yl) (hr&Hr&Yr) (el&El&Ye) (er&Er&Yf) _] [Ha|Ha]%elem_of_app.
  - destruct l as [|z l]; [done|]. injection Hl as ->. pose proof (desc_head_max _ _ DL a Ha). pose proof (desc_last_min _ _ DL El a Ha). lia.
  - destruct r as [|z r]; [done|]. injection Hr as ->. pose proof (desc_head_max _ _ DR a Ha). pose proof (desc_last_min _ _ DR Er a Ha). lia.
Qed.
(** the extreme columns [mm] of the points [b] *)
Definition columns (b : list pos) (mm : Z * Z) : Prop :=
  (exists a, a ∈ b /\ fst mm = fst a) /\ (exists a, a ∈ b /\ snd mm = fst a) /\ forall a, a ∈ b -> fst mm <= fst a <= snd mm.
Lemma row_step m l r y e : 0 < m -> sides l r y e -> let cy := y / m in
  exists l' r' mm1 mm, eat_row m cy l (size_end - 1, 0) = (l', mm1) /\ eat_row m cy r mm1 = (r', mm) /\ (length l' < length l)%nat /\
    exists b, l ++ r ≡ₚ b ++ (l' ++ r') /\ (forall a, a ∈ b -> snd a / m = cy) /\ columns b mm /\
      ((l' = [] /\ r' = [] /\ e / m = cy) \/ sides l' r' (m * cy - 1) e).
Proof.
  intros Hm HS cy. pose proof HS as [DL DR (l0&Hl&Yl) (r0&Hr&Yr) (le&Ll&Ye) (re&Lr&Yf) SM]. apply Forall_app in SM as [SL SR].
  destruct (eat_row_spec m cy l (size_end - 1, 0)) as (preL&postL&EqL&FL&HhL&PL&A1&A2&A3&A4&A5&A6).
  destruct (eat_row m cy l (size_end - 1, 0)) as [lp mm] eqn:HeL. cbn [fst snd] in *. subst lp.
  destruct (eat_row_spec m cy r mm) as (preR&postR&EqR&FR&HhR&PR&B1&B2&B3&B4&B5&B6).
  destruct (eat_row m cy r mm) as [rp mm'] eqn:HeR. cbn [fst snd] in *. subst rp.
  assert (NL : preL <> []). { intros ->. cbn in EqL. subst postL. apply (HhL l0); [done|]. unfold cy. by rewrite Yl. }
  assert (NR : preR <> []). { intros ->. cbn in EqR. subst postR. apply (HhR r0); [done|]. unfold cy. by rewrite Yr. }
  assert (ML : exists z, z ∈ preL). { destruct preL as [|z ?]; [done|]. exists z. left. } destruct ML as (z0&ML).
  assert (SPL : Forall small preL) by (rewrite EqL in SL; by apply Forall_app in SL as [??]).
  exists postL, postR, mm, mm'. split; [done|]. split; [done|]. split; [rewrite EqL; assert (0 < length preL)%nat as Hp0 by (destruct preL; [done|cbn; lia]); pose proof (app_length preL postL) as Hal; clear - Hp0 Hal; unfold pos in *; lia|].
  exists (preL ++ preR). split; [rewrite EqL, EqR, <-!app_assoc; apply Permutation_app_head; rewrite !app_assoc; apply Permutation_app_tail, Permutation_app_comm|].
  split; [intros a [Ha|Ha]%elem_of_app; rewrite Forall_forall in FL, FR; [by apply FL|by apply FR]|]. split.
  { split; [|split].
    - destruct B1 as [B1|(a&Ha&B1)]; [|exists a; split; [mem|done]]. rewrite B1. destruct A1 as [A1|(a&Ha&A1)]; [|exists a; split; [mem|done]].
      exfalso. specialize (A3 z0 ML). rewrite Forall_forall in SPL. destruct (SPL z0 ML). lia.
    - destruct B4 as [B4|(a&Ha&B4)]; [|exists a; split; [mem|done]]. rewrite B4. destruct A4 as [A4|(a&Ha&A4)]; [|exists a; split; [mem|done]].
      exists z0. split; [mem|]. specialize (A6 z0 ML). rewrite Forall_forall in SPL. destruct (SPL z0 ML). lia.
    - intros a [Ha|Ha]%elem_of_app; [specialize (A3 a Ha); specialize (A6 a Ha)|specialize (B3 a Ha); specialize (B6 a Ha)]; lia. }
  assert (Hdiv : (m * cy - 1) / m = cy - 1) by (symmetry; apply (Z.div_unique_pos _ _ _ (m - 1)); lia).
  (* a side is used up exactly if the end lies in this row *)
  assert (Hside : forall pre post (q : list pos), q = pre ++ post -> desc q -> (exists a, last q = Some a /\ snd a = e) -> pre <> [] -> Forall (fun p => snd p / m = cy) pre ->
    (forall h, head post = Some h -> snd h / m <> cy) -> (post = [] /\ e / m = cy) \/ (e / m < cy /\ desc post /\ (exists a, head post = Some a /\ snd a = m * cy - 1) /\ exists a, last post = Some a /\ snd a = e)).
  { intros pre post q Eq DQ (a&La&Ya) Np FP HP. destruct post as [|h post].
    - left. split; [done|]. rewrite app_nil_r in Eq. subst q. rewrite Forall_forall in FP. rewrite <-Ya. apply FP. by apply last_Some_elem_of.
    - right. assert (Hh : snd h = m * cy - 1). { rewrite Eq in DQ. apply (desc_exit m cy pre h post); [done|done|done|done|by apply HP]. }
      assert (Hle : snd a <= snd h). { apply (desc_last_min _ _ DQ La). rewrite Eq. mem. }
      rewrite Eq in DQ, La. rewrite last_app_cons in La. split; [|split; [by eapply desc_app_r|split; [by exists h|by exists a]]].
      assert (Hle' : e <= m * cy - 1) by lia. apply (Z.div_le_mono _ _ m Hm) in Hle'. lia. }
  destruct (Hside preL postL l EqL DL ltac:(by exists le) NL FL HhL) as [[-> E1]|(E1&D1&H1&L1)];
    destruct (Hside preR postR r EqR DR ltac:(by exists re) NR FR HhR) as [[-> E2]|(E2&D2&H2&L2)]; try lia.
  - left. done.
  - right. split; try done. rewrite EqL in SL. rewrite EqR in SR. apply Forall_app in SL as [_ SL]. apply Forall_app in SR as [_ SR]. apply Forall_app. done.
Qed.
(** an outline whose head is below the row is not touched *)
Lemma eat_row_skip m cy l mm : (forall h, head l = Some h -> snd h / m <> cy) -> eat_row m cy l mm = (l, mm).
Proof. destruct l as [|h l]; [done|]. intros H. cbn [eat_row]. destruct (Z.eqb_spec (snd h / m) cy) as [E|]; [|done]. exfalso. by apply (H h). Qed.

(** ** Specification *)
Definition in_row (m : Z) (y : Z) (a : pos) : Prop := snd a / m = y.
(** the cell [p] is in the border: between the outlines [bo] and [bi] in a row that both have, and anywhere between points of [bo] in a row without [bi] *)
Definition bordered (m : Z) (bi bo : list pos) (p : pos) : Prop :=
  ((exists e, e ∈ bi /\ in_row m (snd p) e) /\
   ((exists a, a ∈ bo /\ in_row m (snd p) a /\ fst a / m <= fst p) /\ (forall e, e ∈ bi -> in_row m (snd p) e -> fst p < fst e / m) \/
    (exists a, a ∈ bo /\ in_row m (snd p) a /\ fst p <= fst a / m) /\ (forall e, e ∈ bi -> in_row m (snd p) e -> fst e / m < fst p))) \/
  ((forall e, e ∈ bi -> ~ in_row m (snd p) e) /\ spanned m bo p).
Lemma pair_calls_spec g cy (b : bool) (i o : Z * Z) (k : bool) (p : pos) : (k, p) ∈ pair_calls g cy b i o <->
  snd p = cy /\ fst p < g_nx g /\ if b then (if k then i.1 <= fst p <= i.2 else o.1 <= fst p < i.1 \/ i.2 < fst p <= o.2) else k = false /\ o.1 <= fst p <= o.2.
Proof.
  assert (Hf : forall (k' : bool) (l : list pos), (k, p) ∈ pair k' <$> l <-> k = k' /\ p ∈ l).
  { intros k' l. rewrite elem_of_list_fmap. split; [intros (q&Heq&Hq); injection Heq as -> ->; done|]. intros [-> Hp]. by exists p. }
  unfold pair_calls. destruct b.
  - rewrite !elem_of_app, !Hf, !row_calls_spec. destruct k; naive_solver lia.
  - rewrite Hf, row_calls_spec. naive_solver.
Qed.
Lemma pair_calls_nodup g cy b (i o : Z * Z) : i.1 <= i.2 -> NoDup (pair_calls g cy b i o).*2.
Proof.
  intros Hi. assert (Hf : forall (k : bool) (l : list pos), (pair k <$> l).*2 = (l : list pos)) by (intros k l; rewrite <-list_fmap_compose; apply list_fmap_id).
  unfold pair_calls. destruct b; [|rewrite Hf; apply row_calls_nodup]. rewrite !fmap_app, !Hf. apply NoDup_app. split; [apply row_calls_nodup|]. split.
  - intros p Hp Hq. apply row_calls_spec in Hp as (_&Hp&_). apply elem_of_app in Hq as [Hq|Hq]; apply row_calls_spec in Hq as (_&Hq&_); lia.
  - apply NoDup_app. split; [apply row_calls_nodup|]. split; [|apply row_calls_nodup]. intros p Hp Hq. apply row_calls_spec in Hp as (_&Hp&_). apply row_calls_spec in Hq as (_&Hq&_). lia.
Qed.

(** ** The loop *)
Lemma spanned_row m (b b' : list pos) (p : pos) : (forall a, in_row m (snd p) a -> a ∈ b <-> a ∈ b') -> spanned m b p <-> spanned m b' p.
Proof.
  assert (HH : forall (b b' : list pos), (forall a, in_row m (snd p) a -> a ∈ b <-> a ∈ b') -> spanned m b p -> spanned m b' p).
  { intros c c' H (a&e&Ha&He&Ra&Re&Hc). exists a, e. split; [by apply H|]. split; [by apply H|]. done. }
  intros H. split; apply HH; [done|]. intros a Ha. symmetry. by apply H.
Qed.
Lemma bordered_row m (bi bi' bo bo' : list pos) (p : pos) : (forall a, in_row m (snd p) a -> a ∈ bi <-> a ∈ bi') -> (forall a, in_row m (snd p) a -> a ∈ bo <-> a ∈ bo') ->
  bordered m bi bo p <-> bordered m bi' bo' p.
Proof.
  assert (HH : forall (bi bi' bo bo' : list pos), (forall a, in_row m (snd p) a -> a ∈ bi <-> a ∈ bi') -> (forall a, in_row m (snd p) a -> a ∈ bo <-> a ∈ bo') -> bordered m bi bo p -> bordered m bi' bo' p).
  { intros ci ci' co co' Hi Ho [[(e&He&Re) HB]|[HN HB]].
    - left. split; [exists e; split; [by apply Hi|done]|]. destruct HB as [[(a&Ha&Ra&La) HA]|[(a&Ha&Ra&La) HA]]; [left|right].
      + split; [exists a; split; [by apply Ho|done]|]. intros x Hx Rx. apply HA; [by apply Hi|done].
      + split; [exists a; split; [by apply Ho|done]|]. intros x Hx Rx. apply HA; [by apply Hi|done].
    - right. split; [intros x Hx Rx; apply (HN x); [by apply Hi|done]|]. apply (spanned_row m co' co); [|done]. intros a Ha. symmetry. by apply Ho. }
  intros Hi Ho. split; apply HH; try done; intros a Ha; symmetry; [by apply Hi|by apply Ho].
Qed.
Lemma columns_span m (b : list pos) (mm : Z * Z) cy (p : pos) : 0 < m -> columns b mm -> (forall a, a ∈ b -> snd a / m = cy) -> snd p = cy -> spanned m b p <-> fst mm / m <= fst p <= snd mm / m.
Proof.
  intros Hm ((a&Ha&Ea)&(e&He&Ee)&Hall) Hr Hp. split.
  - intros (x&z&Hx&Hz&_&_&H1&H2). destruct (Hall x Hx) as [Q1 _]. destruct (Hall z Hz) as [_ Q2]. pose proof (Z.div_le_mono _ _ m Hm Q1). pose proof (Z.div_le_mono _ _ m Hm Q2). lia.
  - intros H. exists a, e. rewrite (Hr a Ha), (Hr e He), <-Ea, <-Ee. done.
Qed.
Definition inner_state (m : Z) (li ri : list pos) (iny : option Z) (y e : Z) : Prop :=
  (li = [] /\ ri = [] /\ exists v, iny = Some v /\ y / m < v) \/ exists yi ei, sides li ri yi ei /\ yi <= y /\ e <= ei.
Lemma sides_head l r y e : sides l r y e -> exists a l' b r', l = a :: l' /\ r = b :: r' /\ snd a = y /\ snd b = y.
Proof. intros [_ _ (a&Ha&Ya) (b&Hb&Yb) _ _ _]. destruct l as [|? l]; [done|]. destruct r as [|? r]; [done|]. injection Ha as ->. injection Hb as ->. by exists a, l, b, r. Qed.
Lemma sides_end l r y e : sides l r y e -> e <= y.
Proof. intros HS. destruct (sides_head _ _ _ _ HS) as (a&l'&b&r'&->&->&Ha&_). pose proof (sides_low _ _ _ _ a HS ltac:(left)). lia. Qed.
(** what a row does to the inner outline *)
Lemma inner_step m li ri iny y e : 0 < m -> inner_state m li ri iny y e -> let cy := y / m in
  exists li' ri' i1 i2 bi v (has : bool), eat_row m cy li (size_end - 1, 0) = (li', i1) /\ eat_row m cy ri i1 = (ri', i2) /\
    match li with i0 :: _ => Some (snd i0 / m) | [] => iny end = Some v /\ (v =? cy) = has /\
    li ++ ri ≡ₚ bi ++ (li' ++ ri') /\ (forall a, a ∈ bi -> snd a / m = cy /\ 0 <= fst a) /\ (forall a, a ∈ li' ++ ri' -> snd a / m < cy) /\
    (has = true /\ columns bi i2 \/ has = false /\ bi = []) /\
    (e / m = cy -> li' = [] /\ ri' = []) /\ inner_state m li' ri' (Some v) (m * cy - 1) e.
Proof.
  intros Hm HI cy. assert (Hdiv : (m * cy - 1) / m = cy - 1) by (symmetry; apply (Z.div_unique_pos _ _ _ (m - 1)); lia).
  destruct HI as [(->&->&v&->&Hv)|(yi&ei&HS&Hy&He)].
  - exists [], [], (size_end - 1, 0), (size_end - 1, 0), [], v, false. split; [done|]. split; [done|]. split; [done|]. split; [apply Z.eqb_neq; unfold cy; lia|]. split; [done|].
    split; [intros a Ha; by apply elem_of_nil in Ha|]. split; [intros a Ha; by apply elem_of_nil in Ha|]. split; [by right|]. split; [done|]. left. split; [done|]. split; [done|]. exists v. split; [done|]. unfold cy in *. lia.
  - pose proof (Z.div_le_mono _ _ m Hm Hy) as Hyc. fold cy in Hyc. pose proof (sides_end _ _ _ _ HS) as Hse. destruct (sides_head _ _ _ _ HS) as (a0&l0&b0&r0&El&Er&Ya&Yb).
    destruct (decide (yi / m = cy)) as [Hc|Hc].
    + destruct (row_step m li ri yi ei Hm HS) as (li'&ri'&i1&i2&E1&E2&_&bi&Hperm&Hbi&Hcol&Hnext). rewrite Hc in E1, E2, Hbi, Hnext.
      exists li', ri', i1, i2, bi, cy, true. split; [done|]. split; [done|]. split; [rewrite El; by rewrite Ya, Hc|]. split; [apply Z.eqb_refl|]. split; [done|]. split.
      { intros a Ha. split; [by apply Hbi|]. assert (Ha' : a ∈ li ++ ri) by (rewrite Hperm; apply elem_of_app; by left). destruct HS as [_ _ _ _ _ _ SM]. rewrite Forall_forall in SM. destruct (SM a Ha'). lia. }
      split; [|split; [by left|]].
      { destruct Hnext as [(->&->&_)|HS']; [intros a Ha; by apply elem_of_nil in Ha|]. intros a Ha. pose proof (sides_low _ _ _ _ a HS' Ha) as [_ Hl]. apply (Z.div_le_mono _ _ m Hm) in Hl. lia. }
      destruct Hnext as [(->&->&Hec)|HS'].
      * split; [done|]. left. split; [done|]. split; [done|]. exists cy. split; [done|]. lia.
      * pose proof (sides_end _ _ _ _ HS') as Hse'. split.
        -- intros Hec. exfalso. assert (H : e <= m * cy - 1) by lia. apply (Z.div_le_mono _ _ m Hm) in H. lia.
        -- right. exists (m * cy - 1), ei. split; [done|]. lia.
    + assert (Hlt : yi / m < cy) by lia. assert (Hskip : forall (q : list pos) mm, (exists a q', q = a :: q' /\ snd a = yi) -> eat_row m cy q mm = (q, mm)).
      { intros q mm (a&q'&->&Ha). apply eat_row_skip. intros h [= <-]. rewrite Ha. done. }
      exists li, ri, (size_end - 1, 0), (size_end - 1, 0), [], (yi / m), false. split; [apply Hskip; by exists a0, l0|]. split; [apply Hskip; by exists b0, r0|].
      split; [rewrite El; by rewrite Ya|]. split; [by apply Z.eqb_neq|]. split; [done|]. split; [intros a Ha; by apply elem_of_nil in Ha|]. split.
      { intros a Ha. pose proof (sides_low _ _ _ _ a HS Ha) as [_ Hl]. apply (Z.div_le_mono _ _ m Hm) in Hl. lia. }
      split; [by right|]. split.
      { intros Hec. exfalso. assert (H : e <= yi) by lia. apply (Z.div_le_mono _ _ m Hm) in H. lia. }
      right. exists yi, ei. split; [done|]. split; [|done]. pose proof (Z.div_mod yi m ltac:(lia)). pose proof (Z.mod_pos_bound yi m Hm). nia.
Qed.
Lemma pair_rows_spec g m (Hm : 0 < m) fuel : forall li ri lo ro iny calls y e, (length lo <= fuel)%nat -> sides lo ro y e -> inner_state m li ri iny y e ->
  exists new, pair_rows g m fuel li ri lo ro iny calls = Ok (calls ++ new) /\ NoDup new.*2 /\ (forall k p, (k, p) ∈ new -> a_cell g (fst p) (snd p) /\ snd p <= y / m) /\
    (forall p, (true, p) ∈ new <-> a_cell g (fst p) (snd p) /\ spanned m (li ++ ri) p) /\
    (forall p, (false, p) ∈ new <-> a_cell g (fst p) (snd p) /\ bordered m (li ++ ri) (lo ++ ro) p).
Proof.
  induction fuel as [|fuel IH]; intros li ri lo ro iny calls y e Hlen HO HI.
  { destruct (sides_head _ _ _ _ HO) as (?&?&?&?&->&_). cbn in Hlen. lia. }
  destruct (inner_step m li ri iny y e Hm HI) as (li'&ri'&i1&i2&bi&v&has&E1&E2&Ev&Eh&HPi&Hbi&Hri&Hhas&Hfin&HI').
  destruct (row_step m lo ro y e Hm HO) as (lo'&ro'&o1&o2&E3&E4&Hlen'&bo&HPo&Hbo&Hco&Hnext).
  destruct (sides_head _ _ _ _ HO) as (a0&l0&b0&r0&El&Er&Ya&Yb). set (cy := y / m) in *. assert (Hdiv : (m * cy - 1) / m = cy - 1) by (symmetry; apply (Z.div_unique_pos _ _ _ (m - 1)); lia).
  assert (Hcy : 0 <= cy). { destruct HO as [_ _ _ _ _ _ SM]. rewrite Forall_forall in SM. assert (small a0) as [_ ?] by (apply SM; rewrite El; left). apply Z.div_pos; lia. }
  assert (Hbo0 : forall a, a ∈ bo -> 0 <= fst a).
  { intros a Ha. assert (Ha' : a ∈ lo ++ ro) by (rewrite HPo; apply elem_of_app; by left). destruct HO as [_ _ _ _ _ _ SM]. rewrite Forall_forall in SM. destruct (SM a Ha'). lia. }
  assert (Hro : forall a, a ∈ lo' ++ ro' -> snd a / m < cy).
  { destruct Hnext as [(->&->&_)|HS']; [intros a Ha; by apply elem_of_nil in Ha|]. intros a Ha. pose proof (sides_low _ _ _ _ a HS' Ha) as [_ Hl]. apply (Z.div_le_mono _ _ m Hm) in Hl. lia. }
  set (row := if cy >=? g_ny g then [] else pair_calls g cy has (i2.1 / m, i2.2 / m) (o2.1 / m, o2.2 / m)).
  assert (Hgo : pair_rows g m (S fuel) li ri lo ro iny calls = pair_rows g m fuel li' ri' lo' ro' (Some v) (calls ++ row)).
  { rewrite El at 1. rewrite Er at 1. cbn [pair_rows]. rewrite <-El, <-Er, Ya. fold cy. rewrite E1, E2, E3, E4, Ev, Eh. subst row. destruct (cy >=? g_ny g); [by rewrite app_nil_r|done]. }
  rewrite Hgo. clear Hgo.
  assert (Hcols : forall b mm, columns b mm -> (forall a, a ∈ b -> 0 <= fst a) -> 0 <= mm.1 / m /\ mm.1 / m <= mm.2 / m).
  { intros b mm ((a&Ha&Ea)&_&Hall) Hpos. specialize (Hpos a Ha). specialize (Hall a Ha). split; [apply Z.div_pos; lia|apply Z.div_le_mono; lia]. }
  pose proof (Hcols _ _ Hco Hbo0) as [Ho0 Ho1].
  assert (Hi0 : has = true -> 0 <= i2.1 / m /\ i2.1 / m <= i2.2 / m). { intros ->. destruct Hhas as [[_ Hc]|[? _]]; [|done]. apply (Hcols _ _ Hc). intros a Ha. by apply Hbi. }
  assert (Hmem : forall (k : bool) (p : pos), (k, p) ∈ row <-> a_cell g (fst p) (snd p) /\ snd p = cy /\
    if has then (if k then i2.1 / m <= fst p <= i2.2 / m else o2.1 / m <= fst p < i2.1 / m \/ i2.2 / m < fst p <= o2.2 / m) else k = false /\ o2.1 / m <= fst p <= o2.2 / m).
  { intros k p. subst row. unfold a_cell. destruct (cy >=? g_ny g) eqn:Hc; rewrite Z.geb_leb in Hc.
    - apply Z.leb_le in Hc. split; [by intros ?%elem_of_nil|]. intros ((_&H)&Hq&_). lia.
    - apply Z.leb_gt in Hc. rewrite pair_calls_spec. cbn [fst snd]. destruct has.
      + specialize (Hi0 eq_refl). destruct k; lia.
      + split; [intros (->&H1&Hq&H2); split; [lia|]; split; [done|]; split; [done|lia]|]. intros (H&Hq&->&H2). split; [done|]. lia. }
  assert (Hnd : NoDup row.*2).
  { subst row. destruct (cy >=? g_ny g); [constructor|]. destruct has; [apply pair_calls_nodup; cbn [fst snd]; by apply Hi0|]. unfold pair_calls.
    assert (Hf : forall (k : bool) (l : list pos), (pair k <$> l).*2 = l) by (intros k l; rewrite <-list_fmap_compose; apply list_fmap_id). rewrite Hf. apply row_calls_nodup. }
  (* the row in terms of the outlines *)
  assert (Hin : forall a, in_row m cy a -> a ∈ li ++ ri <-> a ∈ bi). { intros a Ra. rewrite HPi, elem_of_app. split; [intros [H|H]; [done|specialize (Hri a H); unfold in_row in Ra; lia]|by left]. }
  assert (Hon : forall a, in_row m cy a -> a ∈ lo ++ ro <-> a ∈ bo). { intros a Ra. rewrite HPo, elem_of_app. split; [intros [H|H]; [done|specialize (Hro a H); unfold in_row in Ra; lia]|by left]. }
  assert (Hil : forall y' a, y' <> cy -> in_row m y' a -> a ∈ li ++ ri <-> a ∈ li' ++ ri'). { intros y' a Hy' Ra. rewrite HPi, elem_of_app. split; [intros [H|H]; [destruct (Hbi a H); unfold in_row in Ra; lia|done]|by right]. }
  assert (Hol : forall y' a, y' <> cy -> in_row m y' a -> a ∈ lo ++ ro <-> a ∈ lo' ++ ro'). { intros y' a Hy' Ra. rewrite HPo, elem_of_app. split; [intros [H|H]; [specialize (Hbo a H); unfold in_row in Ra; lia|done]|by right]. }
  assert (Htrue : forall p, (true, p) ∈ row <-> (a_cell g (fst p) (snd p) /\ spanned m (li ++ ri) p) /\ snd p = cy).
  { intros p. rewrite Hmem. split.
    - intros (Ha&Hp&H). split; [|done]. split; [done|]. destruct has; [|by destruct H]. destruct Hhas as [[_ Hc]|[? _]]; [|done].
      rewrite (spanned_row m _ bi) by (rewrite Hp; exact Hin). apply (columns_span m bi i2 cy p Hm Hc); [intros a Ha'; by apply Hbi|done|done].
    - intros [[Ha Hs] Hp]. split; [done|]. split; [done|]. rewrite (spanned_row m _ bi) in Hs by (rewrite Hp; exact Hin). destruct Hhas as [[-> Hc]|[-> ->]].
      + apply (columns_span m bi i2 cy p Hm Hc) in Hs; [done|intros a Ha'; by apply Hbi|done].
      + destruct Hs as (a&_&Ha'&_). by apply elem_of_nil in Ha'. }
  assert (Hfalse : forall p, (false, p) ∈ row <-> (a_cell g (fst p) (snd p) /\ bordered m (li ++ ri) (lo ++ ro) p) /\ snd p = cy).
  { intros p. rewrite Hmem. assert (Heq : snd p = cy -> bordered m (li ++ ri) (lo ++ ro) p <-> bordered m bi bo p) by (intros Hp; apply bordered_row; rewrite Hp; done).
    destruct Hco as ((x1&Hx1&Ex1)&(x2&Hx2&Ex2)&Hall). assert (Hall' : forall a, a ∈ bo -> o2.1 / m <= fst a / m <= o2.2 / m) by (intros a Ha; destruct (Hall a Ha); split; apply Z.div_le_mono; lia).
    destruct Hhas as [[-> ((z1&Hz1&Ez1)&(z2&Hz2&Ez2)&Hzall)]|[-> Hbn]].
    - assert (Hzall' : forall a, a ∈ bi -> i2.1 / m <= fst a / m <= i2.2 / m) by (intros a Ha; destruct (Hzall a Ha); split; apply Z.div_le_mono; lia). split.
      + intros (Ha&Hp&H). split; [|done]. split; [done|]. apply (Heq Hp). left. rewrite Hp. split; [exists z1; split; [done|by apply Hbi]|]. destruct H as [[H1 H2]|[H1 H2]]; [left|right].
        * split; [exists x1; split; [done|]; split; [by apply Hbo|]; rewrite <-Ex1; done|]. intros x Hx _. specialize (Hzall' x Hx). lia.
        * split; [exists x2; split; [done|]; split; [by apply Hbo|]; rewrite <-Ex2; done|]. intros x Hx _. specialize (Hzall' x Hx). lia.
      + intros [[Ha Hs] Hp]. split; [done|]. split; [done|]. apply (Heq Hp) in Hs as [[_ [[(a&Ha'&_&La) H]|[(a&Ha'&_&La) H]]]|[H _]].
        * left. specialize (Hall' a Ha'). specialize (H z1 Hz1). rewrite Hp in H. specialize (H (proj1 (Hbi z1 Hz1))). rewrite <-Ez1 in H. lia.
        * right. specialize (Hall' a Ha'). specialize (H z2 Hz2). rewrite Hp in H. specialize (H (proj1 (Hbi z2 Hz2))). rewrite <-Ez2 in H. lia.
        * exfalso. apply (H z1 Hz1). rewrite Hp. exact (proj1 (Hbi z1 Hz1)).
    - subst bi. assert (Hcs : forall p, snd p = cy -> spanned m bo p <-> o2.1 / m <= fst p <= o2.2 / m).
      { intros q Hq. apply (columns_span m bo o2 cy q Hm); [|done|done]. split; [by exists x1|]. split; [by exists x2|done]. }
      split.
      + intros (Ha&Hp&_&H). split; [|done]. split; [done|]. apply (Heq Hp). right. split; [intros x Hx; by apply elem_of_nil in Hx|]. by apply Hcs.
      + intros [[Ha Hs] Hp]. split; [done|]. split; [done|]. split; [done|]. apply (Heq Hp) in Hs as [[(x&Hx&_) _]|[_ Hs]]; [by apply elem_of_nil in Hx|]. by apply Hcs. }
  assert (Hrest : exists new', pair_rows g m fuel li' ri' lo' ro' (Some v) (calls ++ row) = Ok ((calls ++ row) ++ new') /\ NoDup new'.*2 /\
    (forall k p, (k, p) ∈ new' -> a_cell g (fst p) (snd p) /\ snd p <= cy - 1) /\
    (forall p, (true, p) ∈ new' <-> a_cell g (fst p) (snd p) /\ spanned m (li' ++ ri') p) /\
    (forall p, (false, p) ∈ new' <-> a_cell g (fst p) (snd p) /\ bordered m (li' ++ ri') (lo' ++ ro') p)).
  { destruct Hnext as [(->&->&Hec)|HS'].
    - destruct (Hfin Hec) as [-> ->]. exists []. split; [destruct fuel; by rewrite app_nil_r|]. split; [constructor|]. split; [intros k p H; by apply elem_of_nil in H|].
      split; intros p; (split; [intros H; by apply elem_of_nil in H|]).
      + intros (_&a&_&Ha&_). by apply elem_of_nil in Ha.
      + intros (_&[[(x&Hx&_) _]|[_ (a&_&Ha&_)]]); [by apply elem_of_nil in Hx|by apply elem_of_nil in Ha].
    - destruct (IH li' ri' lo' ro' (Some v) (calls ++ row) (m * cy - 1) e) as (new'&H1&H2&H3&H4&H5); [lia|done|done|]. rewrite Hdiv in H3. by exists new'. }
  destruct Hrest as (new'&Hrun&Hnd'&Hle'&Ht'&Hf'). exists (row ++ new'). rewrite Hrun, app_assoc. split; [done|]. split; [|split; [|split]].
  - rewrite fmap_app. apply NoDup_app. split; [done|]. split; [|done]. intros p Hp Hq. apply elem_of_list_fmap in Hp as ([k p1]&->&Hp). apply elem_of_list_fmap in Hq as ([k' p2]&Heq&Hq).
    cbn in Heq. subst p2. apply Hmem in Hp as (_&Hp&_). apply Hle' in Hq as [_ Hq]. lia.
  - intros k p [Hp|Hp]%elem_of_app; [apply Hmem in Hp as (Ha&Hp&_); split; [done|lia]|]. apply Hle' in Hp as [Ha Hp]. split; [done|lia].
  - intros p. rewrite elem_of_app, Htrue, Ht'. destruct (decide (snd p = cy)) as [Hp|Hp].
    + split; [|intros H; left; done]. intros [[H _]|[Ha (a&_&H&_&Ra&_)]]; [done|]. specialize (Hri a H). lia.
    + rewrite (spanned_row m (li ++ ri) (li' ++ ri') p) by (intros a; by apply Hil). tauto.
  - intros p. rewrite elem_of_app, Hfalse, Hf'. destruct (decide (snd p = cy)) as [Hp|Hp].
    + split; [|intros H; left; done]. intros [[H _]|[Ha [[(x&Hx&Rx) _]|[_ (a&_&H&_&Ra&_)]]]]; [done| |].
      * specialize (Hri x Hx). unfold in_row in Rx. lia.
      * specialize (Hro a H). lia.
    + rewrite (bordered_row m (li ++ ri) (li' ++ ri') (lo ++ ro) (lo' ++ ro') p) by (intros a; (by apply Hil) || (by apply Hol)). tauto.
Qed.

(** ** Geometry *)
(** the heights of the corners, for a rectangle turned by 180 degrees if the cosine is negative *)
Lemma rect_heights pose c s : exists C S : Q, (0 <= C)%Q /\ forall sx sy, (0 < sx)%Q -> (0 < sy)%Q -> let w := rect_corners pose c s sx sy in
  (snd (c_ul w) == snd pose + (S * (sx / 2) - C * (sy / 2)) /\ snd (c_ur w) == snd pose + (S * (sx / 2) + C * (sy / 2)) /\
   snd (c_dl w) == snd pose + (- S * (sx / 2) - C * (sy / 2)) /\ snd (c_dr w) == snd pose + (- S * (sx / 2) + C * (sy / 2)))%Q.
Proof.
  destruct (Qlt_le_dec c 0) as [Hc|Hc].
  - exists (- c)%Q, (- s)%Q. split; [lra|]. intros sx sy Hx Hy w. subst w. unfold rect_corners. cbv zeta. set (hx := (sx / 2)%Q). set (hy := (sy / 2)%Q).
    assert (0 < hx)%Q by (unfold hx; apply Qlt_shift_div_l; lra). assert (0 < hy)%Q by (unfold hy; apply Qlt_shift_div_l; lra).
    assert (c * hx < 0)%Q by (setoid_replace 0%Q with (0 * hx)%Q by ring; apply Qmult_lt_compat_r; done). assert (c * hy < 0)%Q by (setoid_replace 0%Q with (0 * hy)%Q by ring; apply Qmult_lt_compat_r; done).
    match goal with |- context [Qlt_le_dec (fst ?a) (fst ?b)] => destruct (Qlt_le_dec (fst a) (fst b)) as [B1|B1] end; cbn [c_ul c_ur c_dl c_dr fst snd] in *; [|exfalso; lra].
    destruct (Qlt_le_dec _ _) as [B2|B2]; cbn [c_ul c_ur c_dl c_dr fst snd] in *; [|exfalso; lra]. repeat split; ring.
  - exists c, s. split; [done|]. intros sx sy Hx Hy w. subst w. unfold rect_corners. cbv zeta. set (hx := (sx / 2)%Q). set (hy := (sy / 2)%Q).
    assert (0 < hx)%Q by (unfold hx; apply Qlt_shift_div_l; lra). assert (0 < hy)%Q by (unfold hy; apply Qlt_shift_div_l; lra).
    assert (0 <= c * hx)%Q by (apply Qmult_le_0_compat; lra). assert (0 <= c * hy)%Q by (apply Qmult_le_0_compat; lra).
    match goal with |- context [Qlt_le_dec (fst ?a) (fst ?b)] => destruct (Qlt_le_dec (fst a) (fst b)) as [B1|B1] end; cbn [c_ul c_ur c_dl c_dr fst snd] in *; [exfalso; lra|].
    destruct (Qlt_le_dec _ _) as [B2|B2]; cbn [c_ul c_ur c_dl c_dr fst snd] in *; [exfalso; lra|]. repeat split; ring.
Qed.
(** the larger rectangle is tilted the same way and reaches further up and down *)
Lemma rect_nested pose c s ix iy ox oy : (0 < ix)%Q -> (ix <= ox)%Q -> (0 < iy)%Q -> (iy <= oy)%Q -> let wi := rect_corners pose c s ix iy in let wo := rect_corners pose c s ox oy in
  (snd (c_dr wi) < snd (c_ur wi) -> snd (c_dr wo) <= snd (c_ur wo) /\ snd (c_dl wo) <= snd (c_ul wo) /\ snd (c_ur wi) <= snd (c_ur wo) /\ snd (c_dl wo) <= snd (c_dl wi))%Q /\
  (snd (c_ur wi) <= snd (c_dr wi) -> snd (c_ur wo) <= snd (c_dr wo) /\ snd (c_ul wo) <= snd (c_dl wo) /\ snd (c_ul wi) <= snd (c_dl wi) /\ snd (c_dr wi) <= snd (c_dr wo) /\ snd (c_ul wo) <= snd (c_ul wi))%Q.
Proof.
  intros H1 H2 H3 H4. destruct (rect_heights pose c s) as (C&S&HC&HF). cbv zeta. destruct (HF ix iy ltac:(lra) ltac:(lra)) as (A1&A2&A3&A4). destruct (HF ox oy ltac:(lra) ltac:(lra)) as (B1&B2&B3&B4).
  cbv zeta in *. rewrite A1, A2, A3, A4, B1, B2, B3, B4. clear A1 A2 A3 A4 B1 B2 B3 B4.
  assert (Q1 : (0 < ix / 2)%Q) by (apply Qlt_shift_div_l; lra). assert (Q2 : (ix / 2 <= ox / 2)%Q) by (apply Qmult_le_compat_r; [done|by apply Qlt_le_weak]).
  assert (Q3 : (0 < iy / 2)%Q) by (apply Qlt_shift_div_l; lra). assert (Q4 : (iy / 2 <= oy / 2)%Q) by (apply Qmult_le_compat_r; [done|by apply Qlt_le_weak]).
  generalize dependent (ix / 2)%Q. generalize dependent (ox / 2)%Q. generalize dependent (iy / 2)%Q. generalize dependent (oy / 2)%Q. clear - HC. intros v u Hu Hv y x Hx Hy.
  assert (HCu : (C * u <= C * v)%Q) by (rewrite !(Qmult_comm C); by apply Qmult_le_compat_r).
  split; intros Hs.
  - assert (HS : (0 <= S)%Q). { destruct (Qlt_le_dec S 0) as [Hn|]; [|done]. exfalso. assert (S * x < 0 * x)%Q by (by apply Qmult_lt_compat_r). lra. }
    assert (S * x <= S * y)%Q by (rewrite !(Qmult_comm S); by apply Qmult_le_compat_r). assert (0 <= S * x)%Q by (apply Qmult_le_0_compat; lra). repeat split; lra.
  - assert (HS : (S <= 0)%Q). { destruct (Qlt_le_dec 0 S) as [Hn|]; [|done]. exfalso. assert (0 * x < S * x)%Q by (by apply Qmult_lt_compat_r). lra. }
    assert (- S * x <= - S * y)%Q by (rewrite !(Qmult_comm (- S)); apply Qmult_le_compat_r; [done|lra]). assert (0 <= - S * x)%Q by (apply Qmult_le_0_compat; lra). repeat split; lra.
Qed.

(** ** The run *)
Lemma eat_row_len m cy (l : list pos) mm : (length (fst (eat_row m cy l mm)) <= length l)%nat.
Proof. revert mm. induction l as [|a l IH]; intros mm; [done|]. cbn [eat_row]. destruct (_ =? _); [|done]. etrans; [apply IH|]. cbn. lia. Qed.
Lemma pair_rows_ok g m fuel : forall li ri lo ro iny calls, (length lo <= fuel)%nat -> (li <> [] \/ iny <> None) -> exists r, pair_rows g m fuel li ri lo ro iny calls = Ok r.
Proof.
  induction fuel as [|fuel IH]; intros li ri lo ro iny calls Hl Hi; destruct lo as [|l0 lo]; [by eexists|cbn in Hl; lia|by eexists|]. destruct ro as [|r0 ro]; [by eexists|].
  cbn [pair_rows]. set (cy := snd l0 / m). destruct (eat_row m cy li _) as [li' i1]. destruct (eat_row m cy ri i1) as [ri' i2].
  destruct (eat_row m cy (l0 :: lo) (size_end - 1, 0)) as [lo' o1] eqn:E. destruct (eat_row m cy (r0 :: ro) o1) as [ro' o2].
  assert (Hlo : (length lo' <= fuel)%nat). { cbn [eat_row] in E. fold cy in E. rewrite Z.eqb_refl in E. match type of E with eat_row _ _ _ ?mm = _ => pose proof (eat_row_len m cy lo mm) as Q; rewrite E in Q end. cbn in Q, Hl. lia. }
  assert (Hn : exists v, match li with i0 :: _ => Some (snd i0 / m) | [] => iny end = Some v) by (destruct li; [destruct iny; [by eexists|by destruct Hi]|by eexists]). destruct Hn as (v&->).
  destruct (cy >=? g_ny g); apply IH; try done; by right.
Qed.
Lemma pair_rows_more g m f1 : forall f2 li ri lo ro iny calls r, pair_rows g m f1 li ri lo ro iny calls = Ok r -> (f1 <= f2)%nat -> pair_rows g m f2 li ri lo ro iny calls = Ok r.
Proof.
  induction f1 as [|f1 IH]; intros f2 li ri lo ro iny calls r H Hle.
  - destruct lo as [|? ?], ro as [|? ?]; cbn in H; try discriminate; by destruct f2.
  - destruct f2 as [|f2]; [lia|]. destruct lo as [|l0 lo], ro as [|r0 ro]; try done. cbn [pair_rows] in *. destruct (eat_row _ _ li _) as [? ?]. destruct (eat_row _ _ ri _) as [? ?].
    destruct (eat_row _ _ (l0 :: lo) _) as [? ?]. destruct (eat_row _ _ (r0 :: ro) _) as [? ?]. destruct (_ >=? _); [apply IH; [done|lia]|]. destruct (match li with [] => iny | _ => _ end); [apply IH; [done|lia]|done].
Qed.
Definition tiny (p : pos) : Prop := 0 <= fst p <= 715827882 /\ 0 <= snd p <= 715827882.
Lemma line_runs p q : tiny p -> tiny q -> exists l, straight p q l /\ forall acc fuel, (length l < fuel)%nat -> line_bresenham fuel p q acc = Ok (acc ++ l).
Proof.
  intros [??] [??]. destruct (C33_positions p q [] ltac:(lia) ltac:(lia) ltac:(lia) ltac:(lia) ltac:(lia)) as (l&Hl&HS). exists l. split; [done|].
  intros acc fuel Hf. specialize (Hl fuel Hf). unfold line_bresenham in *. destruct (b_init _ _ _ _); cbn [obind] in *; try discriminate.
  destruct (b_line _ _ _); cbn [obind] in *; try discriminate. cbn [app] in Hl. injection Hl as ->. done.
Qed.
Lemma tiny_small p : tiny p -> small p.
Proof. intros [? ?]. unfold small, size_end. lia. Qed.
(** an outline: its two sides, their corners, and whether they run down *)
Lemma outline_runs (inner p : corners pos) : each tiny p -> exists l r n, (forall fuel, (n <= fuel)%nat -> outline_as inner p fuel = Ok (l, r)) /\ outlined p (l ++ r) /\ l <> [] /\
  (snd (c_ur inner) > snd (c_dr inner) -> snd (c_dl p) <= snd (c_dr p) -> snd (c_ul p) <= snd (c_ur p) -> snd (c_dr p) <= snd (c_ur p) -> snd (c_dl p) <= snd (c_ul p) -> sides l r (snd (c_ur p)) (snd (c_dl p))) /\
  (snd (c_ur inner) <= snd (c_dr inner) -> snd (c_dl p) <= snd (c_dr p) -> snd (c_ul p) <= snd (c_ur p) -> snd (c_ur p) <= snd (c_dr p) -> snd (c_ul p) <= snd (c_dl p) -> sides l r (snd (c_dr p)) (snd (c_ul p))).
Proof.
  destruct p as [ul ur dl dr]. intros (T1&T2&T3&T4). cbn [c_ul c_ur c_dl c_dr] in *. unfold outline_as. cbn [c_ul c_ur c_dl c_dr].
  assert (HSides : forall p q q' r l1 l2 l3 l4, straight p q l1 -> straight q r l2 -> straight p q' l3 -> straight q' r l4 -> tiny p -> tiny q -> tiny q' -> tiny r ->
    snd q <= snd p -> snd r <= snd q -> snd q' <= snd p -> snd r <= snd q' -> sides (l1 ++ l2) (l3 ++ l4) (snd p) (snd r)).
  { intros p q q' r l1 l2 l3 l4 S1 S2 S3 S4 Tp%tiny_small Tq%tiny_small Tq'%tiny_small Tr%tiny_small H1 H2 H3 H4.
    destruct (two_lines _ _ _ _ _ S1 S2 H1 H2) as (DL&HL&LL). destruct (two_lines _ _ _ _ _ S3 S4 H3 H4) as (DR&HR&LR).
    split; [done|done|by exists p|by exists p|by exists r|by exists r|]. rewrite !Forall_app. split; split; eapply straight_small; done. }
  assert (Hne : forall p q (l1 l2 : list pos), straight p q l1 -> l1 ++ l2 <> []). { intros p q l1 l2 HS. pose proof (st_first _ _ _ HS). by destruct l1. }
  destruct (Z.gtb_spec (snd (c_ur inner)) (snd (c_dr inner))) as [Hc|Hc].
  - destruct (line_runs ur ul) as (l1&S1&L1); try done. destruct (line_runs ul dl) as (l2&S2&L2); try done. destruct (line_runs ur dr) as (l3&S3&L3); try done. destruct (line_runs dr dl) as (l4&S4&L4); try done.
    exists (l1 ++ l2), (l3 ++ l4), (S (length l1 + length l2 + length l3 + length l4)). split; [|split; [|split; [by eapply Hne|split; [|lia]]]].
    + intros fuel Hf. rewrite (L1 [] fuel) by lia. cbn [obind app]. rewrite (L2 _ fuel) by lia. cbn [obind]. rewrite (L3 [] fuel) by lia. cbn [obind app]. rewrite (L4 _ fuel) by lia. done.
    + exists l1, l2, l3, l4. cbn [c_ul c_ur c_dl c_dr]. split; [done|]. split; [done|]. split; [by left|]. split; [by left|done].
    + intros _ ????. by apply (HSides ur ul dr dl).
  - destruct (line_runs dr ur) as (l1&S1&L1); try done. destruct (line_runs ur ul) as (l2&S2&L2); try done. destruct (line_runs dr dl) as (l3&S3&L3); try done. destruct (line_runs dl ul) as (l4&S4&L4); try done.
    exists (l1 ++ l2), (l3 ++ l4), (S (length l1 + length l2 + length l3 + length l4)). split; [|split; [|split; [by eapply Hne|split; [lia|]]]].
    + intros fuel Hf. rewrite (L1 [] fuel) by lia. cbn [obind app]. rewrite (L2 _ fuel) by lia. cbn [obind]. rewrite (L3 [] fuel) by lia. cbn [obind app]. rewrite (L4 _ fuel) by lia. done.
    + exists l2, l4, l1, l3. cbn [c_ul c_ur c_dl c_dr]. split; [|split; [done|]; split; [by right|]; split; [by right|done]].
      rewrite <-!app_assoc. rewrite (Permutation_app_comm l1 (l2 ++ l3 ++ l4)). rewrite <-!app_assoc. apply Permutation_app_head. rewrite (Permutation_app_comm l3 (l4 ++ l1)). by rewrite <-!app_assoc.
    + intros _ ????. by apply (HSides dr ur dl ul).
Qed.
Lemma rect_points_spec conv g pose c s sx sy : conv_wraps conv -> good_geo g -> g_nx g * 10 <= 715827882 -> g_ny g * 10 <= 715827882 ->
  let w := rect_corners pose c s sx sy in each (fun xy => near (sub g 10) (fst xy) (snd xy)) w ->
  match get_rect_points conv g pose c s sx sy 10 with
  | None => ~ each (fun xy => in_rect g (fst xy) (snd xy)) w
  | Some p => each (fun xy => in_rect g (fst xy) (snd xy)) w /\ each tiny p /\ both (fun xy p => in_cell (sub g 10) (fst p) (snd p) (fst xy) (snd xy)) w p
  end.
Proof.
  intros HW Hg HX HY w (N1&N2&N3&N4). unfold get_rect_points. fold w. assert (Hx' : g_nx g * 10 <= half) by (unfold half; lia). assert (Hy' : g_ny g * 10 <= half) by (unfold half; lia).
  assert (Hbd : forall p, a_cell (sub g 10) (fst p) (snd p) -> tiny p) by (intros p [P1 P2]; unfold sub in P1, P2; cbn in P1, P2; unfold tiny; lia).
  destruct (times_spec conv g (fst (c_ul w)) (snd (c_ul w)) 10 HW Hg ltac:(lia) Hx' Hy' N1) as [(R1&ul&->&A1&I1)|[R1 ->]]; [|by intros (?&_)].
  destruct (times_spec conv g (fst (c_ur w)) (snd (c_ur w)) 10 HW Hg ltac:(lia) Hx' Hy' N2) as [(R2&ur&->&A2&I2)|[R2 ->]]; [|by intros (_&?&_)].
  destruct (times_spec conv g (fst (c_dl w)) (snd (c_dl w)) 10 HW Hg ltac:(lia) Hx' Hy' N3) as [(R3&dl&->&A3&I3)|[R3 ->]]; [|by intros (_&_&?&_)].
  destruct (times_spec conv g (fst (c_dr w)) (snd (c_dr w)) 10 HW Hg ltac:(lia) Hx' Hy' N4) as [(R4&dr&->&A4&I4)|[R4 ->]]; [|by intros (_&_&_&?)].
  split; [done|]. split; [|done]. repeat split; cbn [c_ul c_ur c_dl c_dr]; apply Hbd; done.
Qed.

(** ** C134 *)
(** The inner rectangle and the outer one have the same centre and the same orientation. The guard: in sub-cells, the tenths of a cell in which the outlines
    are drawn, the upper right corner of the inner rectangle is above its lower right one, or it is not above it at all in world coordinates. What it leaves
    out are inner rectangles whose upper side stays within one row of sub-cells while it rises (see [C134_tilt_refuted]). *)
Definition clear_tilt (w : corners (Q * Q)) (p : corners pos) : Prop := snd (c_ur p) > snd (c_dr p) \/ (snd (c_ur w) <= snd (c_dr w))%Q.
Theorem C134_rectangles conv g pose c s ix iy ox oy :
  conv_wraps conv -> good_geo g -> g_nx g * 10 <= 715827882 -> g_ny g * 10 <= 715827882 ->
  (0 < ix)%Q -> (ix <= ox)%Q -> (0 < iy)%Q -> (iy <= oy)%Q ->
  let wi := rect_corners pose c s ix iy in let wo := rect_corners pose c s ox oy in
  each (fun xy => near (sub g 10) (fst xy) (snd xy)) wi -> each (fun xy => near (sub g 10) (fst xy) (snd xy)) wo ->
  exists r, (exists n, forall fuel, (n <= fuel)%nat -> for_each_in_rectangles conv fuel g pose c s ix iy ox oy = Ok r) /\
    match r with
    | None => ~ (each (fun xy => in_rect g (fst xy) (snd xy)) wi /\ each (fun xy => in_rect g (fst xy) (snd xy)) wo)
    | Some calls =>
      each (fun xy => in_rect g (fst xy) (snd xy)) wi /\ each (fun xy => in_rect g (fst xy) (snd xy)) wo /\
      exists pi po bi bo, both (fun xy p => in_cell (sub g 10) (fst p) (snd p) (fst xy) (snd xy)) wi pi /\ both (fun xy p => in_cell (sub g 10) (fst p) (snd p) (fst xy) (snd xy)) wo po /\
        outlined pi bi /\ outlined po bo /\
        (clear_tilt wi pi -> NoDup calls.*2 /\ (forall p, (true, p) ∈ calls <-> a_cell g (fst p) (snd p) /\ spanned 10 bi p) /\
           forall p, (false, p) ∈ calls <-> a_cell g (fst p) (snd p) /\ bordered 10 bi bo p)
    end.
Proof.
  intros HW Hg HX HY Hi1 Hi2 Hi3 Hi4 wi wo HNi HNo. unfold for_each_in_rectangles.
  assert (Hsg : good_geo (sub g 10)) by (assert (g_nx g * 10 <= half) by (unfold half; lia); assert (g_ny g * 10 <= half) by (unfold half; lia); apply sub_good; [lia|done..]).
  pose proof (rect_points_spec conv g pose c s ix iy HW Hg HX HY HNi) as Hpi. pose proof (rect_points_spec conv g pose c s ox oy HW Hg HX HY HNo) as Hpo. cbv zeta in Hpi, Hpo. fold wi in Hpi. fold wo in Hpo.
  destruct (get_rect_points conv g pose c s ix iy 10) as [pi|]; [|exists None; split; [by exists 0%nat|tauto]].
  destruct (get_rect_points conv g pose c s ox oy 10) as [po|]; [|exists None; split; [by exists 0%nat|tauto]].
  destruct Hpi as (Ri&Ti&Bi). destruct Hpo as (Ro&To&Bo).
  destruct (outline_runs pi pi Ti) as (li&ri&n1&L1&O1&Ne1&U1&D1). destruct (outline_runs pi po To) as (lo&ro&n2&L2&O2&Ne2&U2&D2).
  destruct (pair_rows_ok g 10 (length lo) li ri lo ro None [] ltac:(done) ltac:(by left)) as (calls&Hrun).
  exists (Some calls). split.
  { exists (n1 + n2 + length lo)%nat. intros fuel Hf. rewrite L1 by lia. cbn [obind]. rewrite L2 by lia. cbn [obind fst snd]. rewrite (pair_rows_more _ _ _ fuel _ _ _ _ _ _ _ Hrun) by lia. done. }
  split; [done|]. split; [done|]. exists pi, po, (li ++ ri), (lo ++ ro). split; [done|]. split; [done|]. split; [done|]. split; [done|]. intros HG.
  destruct Bi as (I1&I2&I3&I4). destruct Bo as (J1&J2&J3&J4). cbv beta in I1, I2, I3, I4, J1, J2, J3, J4. pose proof (corners_facts pose c s ix iy) as [Fi1 Fi2]. pose proof (corners_facts pose c s ox oy) as [Fo1 Fo2].
  destruct (rect_nested pose c s ix iy ox oy Hi1 Hi2 Hi3 Hi4) as [G1 G2]. cbv zeta in Fi1, Fi2, Fo1, Fo2, G1, G2. fold wi in Fi1, Fi2, G1, G2. fold wo in Fo1, Fo2, G1, G2.
  assert (MO : forall a b a' b' x y x' y', in_cell (sub g 10) a b x y -> in_cell (sub g 10) a' b' x' y' -> (y <= y')%Q -> b <= b') by (intros; by eapply in_cell_mono).
  assert (Hsides : exists y e yi ei, sides lo ro y e /\ sides li ri yi ei /\ yi <= y /\ e <= ei).
  { destruct (decide (snd (c_ur pi) > snd (c_dr pi))) as [Hc|Hc].
    - assert (Hw : (snd (c_dr wi) < snd (c_ur wi))%Q). { destruct (Qlt_le_dec (snd (c_dr wi)) (snd (c_ur wi))) as [|Hn]; [done|]. exfalso. exact (Zle_not_gt _ _ (MO _ _ _ _ _ _ _ _ I2 I4 Hn) Hc). }
      destruct (G1 Hw) as (K1&K2&K3&K4). exists (snd (c_ur po)), (snd (c_dl po)), (snd (c_ur pi)), (snd (c_dl pi)).
      split; [|split; [|split; [by apply (MO _ _ _ _ _ _ _ _ I2 J2)|by apply (MO _ _ _ _ _ _ _ _ J3 I3)]]].
      + apply U2; [done|apply (MO _ _ _ _ _ _ _ _ J3 J4); lra|apply (MO _ _ _ _ _ _ _ _ J1 J2); lra|apply (MO _ _ _ _ _ _ _ _ J4 J2); lra|apply (MO _ _ _ _ _ _ _ _ J3 J1); lra].
      + apply U1; [done|apply (MO _ _ _ _ _ _ _ _ I3 I4); lra|apply (MO _ _ _ _ _ _ _ _ I1 I2); lra|lia|apply (MO _ _ _ _ _ _ _ _ I3 I1); lra].
    - destruct HG as [?|Hw]; [done|]. destruct (G2 Hw) as (K1&K2&K3&K4&K5). exists (snd (c_dr po)), (snd (c_ul po)), (snd (c_dr pi)), (snd (c_ul pi)).
      split; [|split; [|split; [by apply (MO _ _ _ _ _ _ _ _ I4 J4)|by apply (MO _ _ _ _ _ _ _ _ J1 I1)]]].
      + apply D2; [lia|apply (MO _ _ _ _ _ _ _ _ J3 J4); lra|apply (MO _ _ _ _ _ _ _ _ J1 J2); lra|apply (MO _ _ _ _ _ _ _ _ J2 J4); lra|apply (MO _ _ _ _ _ _ _ _ J1 J3); lra].
      + apply D1; [lia|apply (MO _ _ _ _ _ _ _ _ I3 I4); lra|apply (MO _ _ _ _ _ _ _ _ I1 I2); lra|lia|apply (MO _ _ _ _ _ _ _ _ I1 I3); lra]. }
  destruct Hsides as (y&e&yi&ei&SO&SI&Hy&He).
  destruct (pair_rows_spec g 10 ltac:(lia) (length lo) li ri lo ro None [] y e ltac:(done) SO) as (new&Hrun'&Hnd&_&Ht&Hf); [right; by exists yi, ei|].
  rewrite Hrun in Hrun'. injection Hrun' as ->. cbn [app]. done.
Qed.
(** every cell inside the outer outline gets a call: either of the one callback or of the other *)
Theorem C134_all m (bi bo : list pos) (p : pos) : spanned m bo p -> spanned m bi p \/ bordered m bi bo p.
Proof.
  intros HS. destruct (decide (Exists (fun e => snd e / m = snd p) bi)) as [HE|HE].
  2:{ right. right. split; [|done]. intros e He Hr. apply HE, Exists_exists. by exists e. }
  apply Exists_exists in HE as (e0&He0&R0). destruct HS as (a&z&Ha&Hz&Ra&Rz&H1&H2).
  destruct (decide (Exists (fun e => snd e / m = snd p /\ fst e / m <= fst p) bi)) as [(e1&He1&R1&L1)%Exists_exists|HL].
  2:{ right. left. split; [by exists e0|]. left. split; [by exists a|]. intros e He Hr. destruct (decide (fst p < fst e / m)) as [|Hn]; [done|]. exfalso. apply HL, Exists_exists. exists e. split; [done|]. split; [done|lia]. }
  destruct (decide (Exists (fun e => snd e / m = snd p /\ fst p <= fst e / m) bi)) as [(e2&He2&R2&L2)%Exists_exists|HL].
  2:{ right. left. split; [by exists e0|]. right. split; [by exists z|]. intros e He Hr. destruct (decide (fst e / m < fst p)) as [|Hn]; [done|]. exfalso. apply HL, Exists_exists. exists e. split; [done|]. split; [done|lia]. }
  left. by exists e1, e2.
Qed.
(** A rectangle tilted so little that the upper side of the inner one stays within a row of sub-cells: the outer outline is followed from the wrong corner.
    Cells in the middle of the outer rectangle get no call: here (10, 11), the cell of a point at least half a metre from all its sides (finding). *)
Theorem C134_tilt_refuted : exists g pose c s ix iy ox oy u v, (c * c + s * s == 1)%Q /\ good_geo g /\ (0 < ix /\ ix <= ox /\ 0 < iy /\ iy <= oy)%Q /\
  each (fun xy => in_rect g (fst xy) (snd xy)) (rect_corners pose c s ox oy) /\
  (Qabs u + (1 # 2) <= ox / 2 /\ Qabs v + (1 # 2) <= oy / 2)%Q /\ in_cell g 10 11 (fst pose + (c * u - s * v)) (snd pose + (s * u + c * v)) /\
  exists calls, for_each_in_rectangles c34_conv 2000 g pose c s ix iy ox oy = Ok (Some calls) /\ forall k, (k, (10, 11)) ∉ calls.
Proof.
  exists c34_grid, (10%Q, (1005 # 100)%Q), (9999 # 10001)%Q, (200 # 10001)%Q, 1%Q, 1%Q, 14%Q, 4%Q, (1 # 2)%Q, (3 # 2)%Q. split; [reflexivity|].
  split; [unfold good_geo, size_end; cbn; repeat split; lia || lra|]. split; [repeat split; lra|]. split; [vm_compute; repeat split; congruence|].
  split; [split; vm_compute; congruence|]. split; [vm_compute; repeat split; congruence|].
  eexists. split; [vm_compute; reflexivity|]. intros k H. assert (HD : forall l : list call, (k, (10, 11)) ∈ l -> existsb (fun c => (c.2.1 =? 10) && (c.2.2 =? 11)) l = true).
  { intros l Hl. apply existsb_exists. exists (k, (10, 11)). split; [by apply elem_of_list_In|done]. } apply HD in H. vm_compute in H. discriminate H.
Qed.
(** An inner rectangle that is larger than the outer one is never reported (finding; the sizes are not checked). *)
Theorem C134_larger_refuted : exists g pose c s ix iy ox oy, (c * c + s * s == 1)%Q /\ good_geo g /\ (0 < ox /\ ox < ix /\ 0 < oy /\ oy < iy)%Q /\
  each (fun xy => in_rect g (fst xy) (snd xy)) (rect_corners pose c s ix iy) /\
  exists calls, for_each_in_rectangles c34_conv 2000 g pose c s ix iy ox oy = Ok (Some calls) /\ calls <> [] /\ forall p, (true, p) ∉ calls.
Proof.
  exists c34_grid, (10%Q, 10%Q), (4 # 5)%Q, (3 # 5)%Q, 6%Q, 6%Q, 4%Q, 2%Q. split; [reflexivity|].
  split; [unfold good_geo, size_end; cbn; repeat split; lia || lra|]. split; [repeat split; lra|]. split; [vm_compute; repeat split; congruence|].
  eexists. split; [vm_compute; reflexivity|]. split; [done|]. intros p H. assert (HD : forall l : list call, (true, p) ∈ l -> existsb fst l = true).
  { intros l Hl. apply existsb_exists. exists (true, p). split; [by apply elem_of_list_In|done]. } apply HD in H. vm_compute in H. discriminate H.
Qed.
Example C134_nonvacuous : good_geo c34_grid /\ (let wi := rect_corners (10%Q, 10%Q) (4 # 5) (3 # 5) 2 2 in let wo := rect_corners (10%Q, 10%Q) (4 # 5) (3 # 5) 6 4 in
  each (fun xy => near (sub c34_grid 10) (fst xy) (snd xy)) wi /\ each (fun xy => near (sub c34_grid 10) (fst xy) (snd xy)) wo /\
  exists p, get_rect_points c34_conv c34_grid (10%Q, 10%Q) (4 # 5) (3 # 5) 2 2 10 = Some p /\ clear_tilt wi p) /\
  exists calls, for_each_in_rectangles c34_conv 500 c34_grid (10%Q, 10%Q) (4 # 5) (3 # 5) 2 2 6 4 = Ok (Some calls) /\ length calls = 39%nat /\ (true, (9, 10)) ∈ calls /\ (false, (12, 10)) ∈ calls.
Proof.
  split; [unfold good_geo, size_end; cbn; repeat split; lia || lra|]. split.
  { cbv zeta. split; [vm_compute; repeat split; congruence|]. split; [vm_compute; repeat split; congruence|]. eexists. split; [vm_compute; reflexivity|]. left. vm_compute. done. }
  eexists. split; [vm_compute; reflexivity|]. split; [done|]. set_unfold. auto 80.
Qed.
