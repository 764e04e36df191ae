(** C34: iterating over an oriented rectangle. *)
From stdpp Require Import prelude.
From Coq Require Import ZArith QArith Qround Lqa.
From Verif Require Import Base Bresenham GridModel GridProps.
Local Open Scope Z_scope.

(** ** Specification *)
(** the grid whose cells are [1/m] of the cells of [g] in each direction *)
Definition sub (g : geo) (m : Z) : geo := Geo (g_nx g * m) (g_ny g * m) (g_sx g / inject_Z m) (g_sy g / inject_Z m) (g_ox g) (g_oy g).
Definition each {A} (P : A -> Prop) (c : corners A) : Prop := P (c_ul c) /\ P (c_ur c) /\ P (c_dl c) /\ P (c_dr c).
(** [P] holds of corresponding corners *)
Definition both {A B} (P : A -> B -> Prop) (c : corners A) (d : corners B) : Prop :=
  P (c_ul c) (c_ul d) /\ P (c_ur c) (c_ur d) /\ P (c_dl c) (c_dl d) /\ P (c_dr c) (c_dr d).
(** the four sides of the outline, as lists of sub-cells *)
Definition outlined (p : corners pos) (b : list pos) : Prop :=
  exists l1 l2 l3 l4, b ≡ₚ (l1 ++ l2) ++ (l3 ++ l4) /\ (straight (c_ur p) (c_ul p) l1) /\
    (straight (c_ul p) (c_dl p) l2 \/ straight (c_dl p) (c_ul p) l2) /\
    (straight (c_ur p) (c_dr p) l3 \/ straight (c_dr p) (c_ur p) l3) /\ straight (c_dr p) (c_dl p) l4.
(** cell (x, y) is between two outline points of the same row of cells *)
Definition spanned (m : Z) (b : list pos) (p : pos) : Prop :=
  exists a e, a ∈ b /\ e ∈ b /\ snd a / m = snd p /\ snd e / m = snd p /\ fst a / m <= fst p <= fst e / m.

(** ** Rows *)
Fixpoint desc (l : list pos) : Prop :=
  match l with
  | a :: r => match r with b :: _ => (snd b = snd a \/ snd b = snd a - 1) /\ desc r | [] => True end
  | [] => True
  end.
Lemma desc_cons a b r : desc (a :: b :: r) <-> (snd b = snd a \/ snd b = snd a - 1) /\ desc (b :: r).
Proof. done. Qed.
Lemma desc_tail a r : desc (a :: r) -> desc r.
Proof. destruct r; [done|]. by intros [_ ?]. Qed.
Lemma desc_lookup l : (forall k a b, l !! k = Some a -> l !! S k = Some b -> snd b = snd a \/ snd b = snd a - 1) -> desc l.
Proof.
  induction l as [|a [|b r] IH]; intros H; [done..|]. apply desc_cons. split; [by apply (H 0%nat)|]. apply IH. intros k. apply (H (S k)).
Qed.
Lemma desc_app l1 l2 a : desc l1 -> desc l2 -> last l1 = Some a -> head l2 = Some a -> desc (l1 ++ l2).
Proof.
  intros H1 H2 Hl Hh. destruct l2 as [|h l2]; [done|]. injection Hh as ->. revert H1 Hl. induction l1 as [|b [|c r] IH]; intros H1 Hl; [done| |].
  - injection Hl as ->. split; [lia|done].
  - destruct H1 as [Hb H1]. split; [done|]. apply IH; [done|]. by rewrite last_cons_cons in Hl.
Qed.
Lemma desc_app_r l1 l2 : desc (l1 ++ l2) -> desc l2.
Proof. induction l1 as [|a l1 IH]; [done|]. intros H. apply IH. by eapply desc_tail. Qed.
Lemma desc_head_max l a : desc (a :: l) -> forall p, p ∈ a :: l -> snd p <= snd a.
Proof.
  revert a. induction l as [|b r IH]; intros a H p [->|Hp]%elem_of_cons; [lia|by apply elem_of_nil in Hp|lia|].
  destruct H as [Hb H]. specialize (IH b H p Hp). lia.
Qed.
Lemma desc_last_min l a : desc l -> last l = Some a -> forall p, p ∈ l -> snd a <= snd p.
Proof.
  induction l as [|b [|c r] IH]; intros H Hl p Hp.
  - by apply elem_of_nil in Hp.
  - apply elem_of_list_singleton in Hp as ->. injection Hl as ->. lia.
  - rewrite last_cons_cons in Hl. pose proof (desc_head_max _ _ H) as Hm. apply elem_of_cons in Hp as [->|Hp].
    + apply Hm. right. by apply last_Some_elem_of.
    + apply IH; [by destruct H|done|done].
Qed.
(** leaving a row downwards *)
Lemma desc_exit m cy pre h post : 0 < m -> desc (pre ++ h :: post) -> pre <> [] -> Forall (fun p => snd p / m = cy) pre -> snd h / m <> cy -> snd h = m * cy - 1.
Proof.
  intros Hm HD Hne HF Hh. destruct (last pre) as [z|] eqn:Hz; [|by apply last_None in Hz].
  apply last_Some in Hz as [pre' ->]. rewrite <-app_assoc in HD. apply desc_app_r in HD. destruct HD as [HD _].
  apply Forall_app in HF as [_ HF]. rewrite Forall_singleton in HF.
  pose proof (Z.div_mod (snd z) m ltac:(lia)) as Hdm. pose proof (Z.mod_pos_bound (snd z) m Hm). cbn beta in HF. rewrite HF in Hdm.
  destruct HD as [HD|HD]; [congruence|].
  destruct (decide (snd h = m * cy - 1)) as [|Hn]; [done|]. exfalso. apply Hh. symmetry. apply (Z.div_unique_pos _ _ _ (snd h - m * cy)); lia.
Qed.

Lemma eat_row_spec m cy l : forall mm, exists pre post, l = pre ++ post /\ Forall (fun p => snd p / m = cy) pre /\ (forall h, head post = Some h -> snd h / m <> cy) /\
  fst (eat_row m cy l mm) = post /\
  (let mm' := snd (eat_row m cy l mm) in
   (fst mm' = fst mm \/ exists p, p ∈ pre /\ fst mm' = fst p) /\ fst mm' <= fst mm /\ (forall p, p ∈ pre -> fst mm' <= fst p) /\
   (snd mm' = snd mm \/ exists p, p ∈ pre /\ snd mm' = fst p) /\ snd mm <= snd mm' /\ (forall p, p ∈ pre -> fst p <= snd mm')).
Proof.
  induction l as [|p l IH]; intros mm.
  - exists [], []. cbn. split; [done|]. split; [constructor|]. split; [done|]. split; [done|]. repeat split; try lia; try (by left); intros ? H%elem_of_nil; done.
  - cbn [eat_row]. destruct (Z.eqb_spec (snd p / m) cy) as [He|He].
    + set (mm1 := (_, _)). destruct (IH mm1) as (pre&post&->&HF&HH&Hp&H1&H2&H3&H4&H5&H6). exists (p :: pre), post. split; [done|]. split; [by constructor|]. split; [done|]. split; [done|].
      cbv zeta in *. set (mm' := snd (eat_row _ _ _ _)) in *. subst mm1. cbn [fst snd] in *.
      assert (A1 : (if fst mm >? fst p then fst p else fst mm) <= fst mm /\ (if fst mm >? fst p then fst p else fst mm) <= fst p) by (destruct (Z.gtb_spec (fst mm) (fst p)); lia).
      assert (A2 : snd mm <= (if snd mm <? fst p then fst p else snd mm) /\ fst p <= (if snd mm <? fst p then fst p else snd mm)) by (destruct (Z.ltb_spec (snd mm) (fst p)); lia).
      split; [|split; [lia|split; [|split; [|split; [lia|]]]]].
      * destruct H1 as [H1|(q&Hq&H1)]; [|right; exists q; split; [by right|done]]. destruct (fst mm >? fst p); [right; exists p; split; [left|done]|by left].
      * intros q [->|Hq]%elem_of_cons; [lia|by apply H3].
      * destruct H4 as [H4|(q&Hq&H4)]; [|right; exists q; split; [by right|done]]. destruct (snd mm <? fst p); [right; exists p; split; [left|done]|by left].
      * intros q [->|Hq]%elem_of_cons; [lia|by apply H6].
    + exists [], (p :: l). cbn. split; [done|]. split; [constructor|]. split; [intros h [= <-]; done|]. split; [done|].
      repeat split; try lia; try (by left); intros ? H%elem_of_nil; done.
Qed.

Lemma row_calls_spec g cy mn mx p : p ∈ row_calls g cy mn mx <-> snd p = cy /\ mn <= fst p <= mx /\ fst p < g_nx g.
Proof.
  unfold row_calls. rewrite elem_of_list_fmap. split.
  - intros (x&->&Hx). apply elem_of_list_filter in Hx as [H1 H2]. apply elem_of_seqZ in H2. cbn. lia.
  - destruct p as [x y]. cbn. intros (->&H1&H2). exists x. split; [done|]. apply elem_of_list_filter. split; [done|]. apply elem_of_seqZ. lia.
Qed.
Lemma row_calls_nodup g cy mn mx : NoDup (row_calls g cy mn mx).
Proof. unfold row_calls. apply NoDup_fmap_2; [intros ?? [= ->]; done|]. apply NoDup_filter, NoDup_seqZ. Qed.

Definition small (p : pos) : Prop := 0 <= fst p < size_end - 1 /\ 0 <= snd p.

(** The loop over the rows: [r1] is the part of the right side that is known to descend below the end of the left side. *)
Ltac mem := rewrite ?elem_of_app, ?elem_of_cons; auto 8.
Lemma rows_spec g m (Hm : 0 < m) fuel : forall left r1 r2 calls l0 r0 le re,
  (length left <= fuel)%nat -> desc left -> desc r1 -> head left = Some l0 -> head r1 = Some r0 -> snd r0 = snd l0 ->
  last left = Some le -> last r1 = Some re -> snd re <= snd le -> Forall small left -> Forall small (r1 ++ r2) ->
  exists new, rect_rows g m fuel left (r1 ++ r2) calls = Ok (calls ++ new) /\ NoDup new /\ (forall p, p ∈ new -> a_cell g (fst p) (snd p) /\ snd p <= snd l0 / m) /\
    (r2 = [] -> snd re = snd le -> forall p, p ∈ new <-> a_cell g (fst p) (snd p) /\ spanned m (left ++ r1) p).
Proof.
  induction fuel as [|fuel IH]; intros left r1 r2 calls l0 r0 le re Hlen DL DR HL HR Hy0 Ll Lr Hend SL SR.
  { destruct left; [done|cbn in Hlen; lia]. }
  destruct left as [|l0' left]; [done|]. injection HL as ->. destruct r1 as [|r0' r1]; [done|]. injection HR as ->.
  cbn [rect_rows app]. rewrite Hy0, Z.eqb_refl. cbn [negb]. set (cy := snd l0 / m). change (r0 :: r1 ++ r2) with ((r0 :: r1) ++ r2).
  destruct (eat_row_spec m cy (l0 :: left) (size_end - 1, 0)) as (preL&postL&EqL&FL&HhL&PL&A1&A2&A3&A4&A5&A6).
  destruct (eat_row m cy (l0 :: left) (size_end - 1, 0)) as [lp mm] eqn:HeL. cbn [fst snd] in *. subst lp.
  destruct (eat_row_spec m cy ((r0 :: r1) ++ r2) mm) as (preR&postR&EqR&FR&HhR&PR&B1&B2&B3&B4&B5&B6).
  destruct (eat_row m cy ((r0 :: r1) ++ r2) mm) as [rp mm'] eqn:HeR. cbn [fst snd] in *. subst rp.
  assert (NL : preL <> []). { intros ->. cbn in EqL. subst postL. by apply (HhL l0). }
  assert (ML : l0 ∈ preL). { destruct preL as [|z ?]; [done|]. cbn in EqL. injection EqL as -> _. left. }
  assert (NR : preR <> []). { intros ->. cbn in EqR. subst postR. apply (HhR r0); [done|]. unfold cy. by rewrite Hy0. }
  assert (SPL : Forall small preL) by (rewrite EqL in SL; by apply Forall_app in SL as [??]). assert (SPR : Forall small preR) by (rewrite EqR in SR; by apply Forall_app in SR as [??]).
  (** the extreme columns of the row are columns of outline points *)
  assert (Hmn : exists a, a ∈ preL ++ preR /\ fst mm' = fst a).
  { destruct B1 as [B1|(a&Ha&B1)]; [|exists a; split; [mem|done]]. rewrite B1. destruct A1 as [A1|(a&Ha&A1)]; [|exists a; split; [mem|done]].
    exfalso. specialize (A3 l0 ML). rewrite Forall_forall in SPL. destruct (SPL l0 ML). lia. }
  assert (Hmx : exists a, a ∈ preL ++ preR /\ snd mm' = fst a).
  { destruct B4 as [B4|(a&Ha&B4)]; [|exists a; split; [mem|done]]. rewrite B4. destruct A4 as [A4|(a&Ha&A4)]; [|exists a; split; [mem|done]].
    exists l0. split; [mem|]. specialize (A6 l0 ML). rewrite Forall_forall in SPL. destruct (SPL l0 ML). lia. }
  assert (Hall : forall a, a ∈ preL ++ preR -> fst mm' <= fst a <= snd mm').
  { intros a [Ha|Ha]%elem_of_app; [specialize (A3 a Ha); specialize (A6 a Ha)|specialize (B3 a Ha); specialize (B6 a Ha)]; lia. }
  assert (Hmm0 : 0 <= fst mm'). { destruct Hmn as (a&Ha&->). assert (Hs : Forall small (preL ++ preR)) by (by apply Forall_app). rewrite Forall_forall in Hs. apply Hs in Ha. destruct Ha. lia. }
  set (row := if cy >=? g_ny g then [] else row_calls g cy (fst mm' / m) (snd mm' / m)).
  assert (Hrow : forall p, p ∈ row <-> a_cell g (fst p) (snd p) /\ snd p = cy /\ fst mm' / m <= fst p <= snd mm' / m).
  { intros p. subst row. assert (0 <= cy). { rewrite Forall_forall in SL. assert (small l0) as [_ ?] by (apply SL; left). apply Z.div_pos; lia. } unfold a_cell.
    assert (0 <= fst mm' / m) by (apply Z.div_pos; lia).
    destruct (cy >=? g_ny g) eqn:Hc; rewrite Z.geb_leb in Hc.
    - apply Z.leb_le in Hc. split; [by intros ?%elem_of_nil|lia].
    - apply Z.leb_gt in Hc. rewrite row_calls_spec. lia. }
  assert (Hnd : NoDup row) by (subst row; destruct (_ >=? _); [constructor|apply row_calls_nodup]).
  assert (Hgo : (if cy >=? g_ny g then rect_rows g m fuel postL postR calls else rect_rows g m fuel postL postR (calls ++ row_calls g cy (fst mm' / m) (snd mm' / m))) =
    rect_rows g m fuel postL postR (calls ++ row)) by (subst row; destruct (cy >=? g_ny g); [by rewrite app_nil_r|done]).
  rewrite Hgo. clear Hgo.
  (** a point of the outline in this row has been consumed, if the right side ends with the left one *)
  assert (Hrowspan : (forall a, a ∈ (l0 :: left) ++ (r0 :: r1) -> snd a / m = cy -> a ∈ preL ++ preR) -> preR ⊆ r0 :: r1 -> forall p, p ∈ row <-> (a_cell g (fst p) (snd p) /\ spanned m ((l0 :: left) ++ (r0 :: r1)) p) /\ snd p = cy).
  { intros Hin Hsub p. rewrite Hrow. split.
    - intros (Hc&Hp&Hb). split; [split; [done|]|done]. destruct Hmn as (a&Ha&Ea), Hmx as (e&He&Ee). exists a, e. rewrite Ea, Ee in Hb.
      assert (Hrow2 : forall z, z ∈ preL ++ preR -> z ∈ (l0 :: left) ++ (r0 :: r1) /\ snd z / m = snd p).
      { intros z Hz. rewrite Hp. apply elem_of_app in Hz as [Hz|Hz].
        - split; [apply elem_of_app; left; rewrite EqL; mem|]. rewrite Forall_forall in FL. by apply FL.
        - split; [apply elem_of_app; right; by apply Hsub|]. rewrite Forall_forall in FR. by apply FR. }
      destruct (Hrow2 a Ha), (Hrow2 e He). done.
    - intros [[Hc (a&e&Ha&He&Hya&Hye&Hb)] Hp]. split; [done|]. split; [done|].
      pose proof (Hall a (Hin a Ha ltac:(congruence))) as [Q1 _]. pose proof (Hall e (Hin e He ltac:(congruence))) as [_ Q2].
      pose proof (Z.div_le_mono _ _ m Hm Q1). pose proof (Z.div_le_mono _ _ m Hm Q2). lia. }
  destruct postL as [|h postL].
  - (* the left side is finished *)
    exists row. split; [by destruct fuel|]. split; [done|]. split; [intros p (Hc&Hp&_)%Hrow; split; [done|lia]|].
    intros -> Heq p. rewrite app_nil_r in EqL. rewrite app_nil_r in EqR, SR. assert (HcL : snd le / m = cy).
    { rewrite Forall_forall in FL. apply FL. rewrite <-EqL. by apply last_Some_elem_of. }
    assert (HcR : forall a, a ∈ r0 :: r1 -> snd a / m = cy).
    { intros a Ha. pose proof (desc_head_max _ _ DR a Ha). pose proof (desc_last_min _ _ DR Lr a Ha).
      pose proof (Z.div_le_mono (snd a) (snd r0) m Hm ltac:(lia)). pose proof (Z.div_le_mono (snd re) (snd a) m Hm ltac:(lia)). rewrite Hy0 in *. unfold cy in *. rewrite Heq in *. lia. }
    assert (postR = []) as ->. { destruct postR as [|z ?]; [done|]. exfalso. apply (HhR z); [done|]. apply HcR. rewrite EqR. mem. }
    rewrite app_nil_r in EqR. rewrite Hrowspan.
    + split; [tauto|]. intros H. split; [done|]. destruct H as [_ (a&e&Ha&_&Hya&_)]. rewrite <-Hya. change (a ∈ (l0 :: left) ++ (r0 :: r1)) in Ha. apply elem_of_app in Ha as [Ha|Ha]; [|by apply HcR].
      rewrite Forall_forall in FL. apply FL. by rewrite <-EqL.
    + intros a [Ha|Ha]%elem_of_app _; apply elem_of_app; [left; by rewrite <-EqL|right; by rewrite <-EqR].
    + by rewrite EqR.
  - (* there are more rows *)
    assert (Hh : snd h = m * cy - 1). { rewrite EqL in DL. apply (desc_exit m cy preL h postL); [done|done|done|done|by apply HhL]. }
    assert (Hle : snd le <= snd h). { apply (desc_last_min _ _ DL Ll). rewrite EqL. mem. }
    (* the right side leaves the row within [r1] *)
    assert (HrR : exists h' post', postR = (h' :: post') ++ r2 /\ r0 :: r1 = preR ++ h' :: post').
    { assert (Hlast : snd re / m < cy). { assert (snd re <= m * cy - 1) as Hre by lia. apply (Z.div_le_mono _ _ m Hm) in Hre.
        assert ((m * cy - 1) / m = cy - 1) as Hq. { symmetry. apply (Z.div_unique_pos _ _ _ (m - 1)); lia. } lia. }
      assert (Hnp : exists k, r0 :: r1 = preR ++ k /\ postR = k ++ r2).
      { destruct (app_eq_inv _ _ _ _ EqR) as [(k&E1&E2)|(k&E1&E2)]; [by exists k|]. exists []. rewrite app_nil_r. destruct k as [|z k]; [rewrite app_nil_r in E1; split; [congruence|by cbn in E2]|].
        exfalso. rewrite E1, Forall_app in FR. destruct FR as [FR _]. rewrite Forall_forall in FR. assert (re ∈ r0 :: r1) as Hre by (by apply last_Some_elem_of). apply FR in Hre. lia. }
      destruct Hnp as (k&E1&E2). destruct k as [|h' k]; [|by exists h', k]. exfalso. rewrite app_nil_r in E1. rewrite Forall_forall in FR.
      assert (re ∈ preR) as Hre by (rewrite <-E1; by apply last_Some_elem_of). apply FR in Hre. lia. }
    destruct HrR as (h'&post'&E1&E2). subst postR.
    assert (Hh' : snd h' = m * cy - 1). { rewrite E2 in DR. apply (desc_exit m cy preR h' post'); [done|done|done|done|by apply HhR]. }
    rewrite EqL in DL, SL, Ll. rewrite E2 in DR, Lr. assert (SR' := SR). rewrite EqR in SR'. apply Forall_app in SR' as [_ SR']. apply Forall_app in SL as [_ SL'].
    rewrite last_app_cons in Ll, Lr.
    destruct (IH (h :: postL) (h' :: post') r2 (calls ++ row) h h' le re) as (new&Hrun&Hnd2&Hin&Hiff); try done.
    + assert (length (l0 :: left) = length preL + length (h :: postL))%nat as Hl by (rewrite EqL, app_length; done). assert (0 < length preL)%nat as Hp0 by (destruct preL; [done|cbn; lia]). clear - Hl Hlen Hp0. unfold pos in *. cbn [length] in *. lia.
    + by eapply desc_app_r.
    + by eapply desc_app_r.
    + lia.
    + exists (row ++ new). rewrite Hrun, app_assoc. split; [done|]. assert (Hdiv : snd h / m = cy - 1). { rewrite Hh. symmetry. apply (Z.div_unique_pos _ _ _ (m - 1)); lia. }
      rewrite Hdiv in Hin. split; [|split].
      * apply NoDup_app. split; [done|]. split; [|done]. intros p Hp Hq. apply Hrow in Hp as (_&Hp&_). apply Hin in Hq as [_ Hq]. lia.
      * intros p [(Hc&Hp&_)%Hrow|[Hc Hp]%Hin]%elem_of_app; split; try done; lia.
      * intros Hr2 Heq p. rewrite elem_of_app, Hrowspan, (Hiff Hr2 Heq).
        -- assert (Hlow : forall a, a ∈ (h :: postL) ++ h' :: post' -> snd a / m <> cy).
           { intros a Ha. assert (snd a <= m * cy - 1) as Hs.
             { apply elem_of_app in Ha as [Ha|Ha].
               - apply desc_app_r in DL. pose proof (desc_head_max _ _ DL a Ha). lia.
               - apply desc_app_r in DR. pose proof (desc_head_max _ _ DR a Ha). lia. }
             apply (Z.div_le_mono _ _ m Hm) in Hs. assert ((m * cy - 1) / m = cy - 1) as Hq. { symmetry. apply (Z.div_unique_pos _ _ _ (m - 1)); lia. } lia. }
           assert (Hmono : forall a, a ∈ (h :: postL) ++ h' :: post' -> a ∈ (l0 :: left) ++ r0 :: r1).
           { intros a Ha. rewrite EqL, E2, !elem_of_app. apply elem_of_app in Ha as [Ha|Ha]; auto. }
           assert (Hcase : forall a, a ∈ (l0 :: left) ++ r0 :: r1 -> snd a / m = cy \/ a ∈ (h :: postL) ++ h' :: post').
           { intros a Ha. rewrite EqL, E2 in Ha. rewrite Forall_forall in FL, FR. apply elem_of_app in Ha as [[Ha|Ha]%elem_of_app|[Ha|Ha]%elem_of_app]; [left; by apply FL|right; apply elem_of_app; by left|left; by apply FR|right; apply elem_of_app; by right]. }
           split.
           ++ intros [[[Hc Hs] _]|[Hc (a&e&Ha&He&H)]]; [done|]. split; [done|]. exists a, e. split; [by apply Hmono|]. split; [by apply Hmono|done].
           ++ intros [Hc (a&e&Ha&He&Hya&Hye&Hb)]. destruct (decide (snd p = cy)) as [Hp|Hp].
              ** left. split; [split; [done|]|done]. exists a, e. done.
              ** right. split; [done|]. exists a, e. destruct (Hcase a Ha) as [?|Ha']; [congruence|]. destruct (Hcase e He) as [?|He']; [congruence|]. done.
        -- intros a Ha Hr. rewrite EqL, E2 in Ha. assert (Hlow : forall a, a ∈ (h :: postL) ++ h' :: post' -> snd a / m <> cy).
           { intros z Hz. assert (snd z <= m * cy - 1) as Hs.
             { apply elem_of_app in Hz as [Hz|Hz].
               - apply desc_app_r in DL. pose proof (desc_head_max _ _ DL z Hz). lia.
               - apply desc_app_r in DR. pose proof (desc_head_max _ _ DR z Hz). lia. }
             apply (Z.div_le_mono _ _ m Hm) in Hs. assert ((m * cy - 1) / m = cy - 1) as Hq. { symmetry. apply (Z.div_unique_pos _ _ _ (m - 1)); lia. } lia. }
           apply elem_of_app. apply elem_of_app in Ha as [[Ha|Ha]%elem_of_app|[Ha|Ha]%elem_of_app]; [by left| |by right|]; exfalso; apply (Hlow a); try done; apply elem_of_app; [by left|by right].
        -- rewrite E2. intros z Hz. mem.
Qed.

(** ** The corners *)
Lemma sub_rect g m x y : 0 < m -> in_rect (sub g m) x y <-> in_rect g x y.
Proof.
  intros Hm. assert (Hmq : (0 < inject_Z m)%Q) by (change 0%Q with (inject_Z 0); by rewrite <-Zlt_Qlt). unfold in_rect, sub. cbn.
  rewrite !inject_Z_mult. setoid_replace (inject_Z (g_nx g) * inject_Z m * (g_sx g / inject_Z m))%Q with (inject_Z (g_nx g) * g_sx g)%Q by (field; lra).
  setoid_replace (inject_Z (g_ny g) * inject_Z m * (g_sy g / inject_Z m))%Q with (inject_Z (g_ny g) * g_sy g)%Q by (field; lra). done.
Qed.
Lemma sub_good g m : 0 < m -> good_geo g -> g_nx g * m <= half -> g_ny g * m <= half -> good_geo (sub g m).
Proof.
  intros Hm (Hsx&Hsy&Hnx&Hny) HX HY. assert (Hmq : (0 < inject_Z m)%Q) by (change 0%Q with (inject_Z 0); by rewrite <-Zlt_Qlt). unfold good_geo, sub. cbn.
  split; [apply Qlt_shift_div_l; lra|]. split; [apply Qlt_shift_div_l; lra|]. unfold half, size_end in *. split; split; try lia; nia.
Qed.
Lemma times_spec conv g x y m : conv_wraps conv -> good_geo g -> 0 < m -> g_nx g * m <= half -> g_ny g * m <= half -> near (sub g m) x y ->
  (in_rect g x y /\ exists p, to_grid_times conv g x y m = Some p /\ a_cell (sub g m) (fst p) (snd p) /\ in_cell (sub g m) (fst p) (snd p) x y) \/
  (~ in_rect g x y /\ to_grid_times conv g x y m = None).
Proof.
  intros HW Hg Hm HX HY HN. pose proof (sub_good g m Hm Hg HX HY) as Hs. pose proof HW as [HC HW'].
  assert (Hmq : (0 < inject_Z m)%Q) by (change 0%Q with (inject_Z 0); by rewrite <-Zlt_Qlt). pose proof Hg as (Hsx&Hsy&Hnx&Hny).
  assert (Heq : to_grid_times conv g x y m = match to_grid conv (sub g m) x y with Some (a, b, _, _) => Some (a, b) | None => None end).
  { unfold to_grid_times, to_grid.
    assert (E1 : Qfloor ((x - g_ox (sub g m)) / g_sx (sub g m)) = Qfloor ((x - g_ox g) / g_sx g * inject_Z m)) by (apply Qfloor_comp; unfold sub; cbn; field; split; lra).
    assert (E2 : Qfloor ((y - g_oy (sub g m)) / g_sy (sub g m)) = Qfloor ((y - g_oy g) / g_sy g * inject_Z m)) by (apply Qfloor_comp; unfold sub; cbn; field; split; lra).
    assert (P : forall f, - half <= f < half -> 0 <= conv f).
    { intros f Hf. unfold half in Hf. destruct (decide (0 <= f)); [rewrite HC by (unfold size_end; lia); lia|rewrite HW' by lia; unfold size_end; lia]. }
    destruct HN as (N1&N2&N3&N4). destruct Hs as (Hsx'&Hsy'&_).
    assert (Fx : - half <= Qfloor ((x - g_ox (sub g m)) / g_sx (sub g m)) < half) by (apply floor_range; [done|]; change (inject_Z (- half)) with (- inject_Z half)%Q; split; lra).
    assert (Fy : - half <= Qfloor ((y - g_oy (sub g m)) / g_sy (sub g m)) < half) by (apply floor_range; [done|]; change (inject_Z (- half)) with (- inject_Z half)%Q; split; lra).
    rewrite E1 in Fx |- *. rewrite E2 in Fy |- *. rewrite !(proj2 (Z.leb_le 0 _)) by (by apply P). unfold to_size. rewrite !Z.mod_small by (unfold half in *; nia).
    cbn [andb]. rewrite andb_true_r. cbn [g_nx g_ny sub]. by destruct (_ && _). }
  pose proof (C31_outside conv (sub g m) x y HW Hs HX HY HN) as Hiff. rewrite sub_rect in Hiff by done.
  destruct (to_grid conv (sub g m) x y) as [[[[a b] xm] ym]|] eqn:HT.
  - left. assert (HR : in_rect g x y) by (by apply Hiff). split; [done|]. exists (a, b). split; [done|].
    destruct (C31_inside conv (sub g m) x y HC Hs) as (a'&b'&?&?&HT'&HA&HI&_); [by apply sub_rect|]. rewrite HT in HT'. injection HT' as <- <- _ _. done.
  - right. split; [|done]. intros HR. by apply Hiff in HR.
Qed.
Lemma in_cell_mono g a b x y a' b' x' y' : good_geo g -> in_cell g a b x y -> in_cell g a' b' x' y' -> (y <= y')%Q -> b <= b'.
Proof.
  intros (_&Hs&_) (_&_&H3&_) (_&_&_&H4) Hy. destruct (decide (b <= b')) as [|Hn]; [done|]. exfalso.
  pose proof (inject_le (b' + 1) b (g_sy g) Hs ltac:(lia)) as H. rewrite inject_Z_plus in H. change (inject_Z 1) with 1%Q in H. lra.
Qed.
Lemma corners_facts pose c s a b : let w := rect_corners pose c s a b in
  (snd (c_ul w) <= snd (c_ur w))%Q /\ (snd (c_ul w) - snd (c_dl w) == snd (c_ur w) - snd (c_dr w))%Q.
Proof.
  unfold rect_corners. cbv zeta. destruct (Qlt_le_dec _ _) as [H1|H1]; cbn [c_ul c_ur c_dl c_dr fst snd] in *;
    (destruct (Qlt_le_dec _ _) as [H2|H2]; cbn [c_ul c_ur c_dl c_dr fst snd] in *; split; lra).
Qed.
Lemma straight_desc p q l : straight p q l -> snd q <= snd p -> desc l.
Proof.
  intros HS Hy. apply desc_lookup. intros k a b Ha Hb. destruct (st_step _ _ _ HS k a b Ha Hb) as (_&_&_&[H|H]); [lia|]. lia.
Qed.
Lemma straight_small p q l : straight p q l -> small p -> small q -> Forall small l.
Proof. intros HS [? ?] [? ?]. apply Forall_forall. intros a Ha. destruct (st_box _ _ _ HS a Ha). unfold small. lia. Qed.

(** two sides, one after the other *)
Lemma two_lines p q r l1 l2 : straight p q l1 -> straight q r l2 -> snd q <= snd p -> snd r <= snd q ->
  desc (l1 ++ l2) /\ head (l1 ++ l2) = Some p /\ last (l1 ++ l2) = Some r.
Proof.
  intros H1 H2 Hy1 Hy2. split; [apply (desc_app _ _ q); [by eapply straight_desc|by eapply straight_desc|apply H1|apply H2]|].
  pose proof (st_first _ _ _ H1). pose proof (st_last _ _ _ H2) as HL. destruct l1 as [|z l1]; [done|]. split; [done|]. by rewrite last_app, HL.
Qed.

(** ** C34 *)
(** For every rectangle and every grid of up to 71 million cells per axis: no assertion fails, no arithmetic overflows, the loops end; the call returns
    false exactly if a corner is outside the grid; otherwise the callback is called with cells of the grid only, with none of them twice. If the rectangle is
    not degenerate (see [C34_missed_row_refuted]), the cells are exactly those between outline points of the same row of cells, where the outline consists of
    the straight lines between the sub-cells of the corners. *)
Theorem C34_rectangle conv g pose c s sx sy :
  conv_wraps conv -> good_geo g -> g_nx g * 10 <= 715827882 -> g_ny g * 10 <= 715827882 ->
  each (fun xy => near (sub g 10) (fst xy) (snd xy)) (rect_corners pose c s sx sy) ->
  exists r, (exists n, forall fuel, (n <= fuel)%nat -> for_each_in_rectangle conv fuel g pose c s sx sy = Ok r) /\
    match r with
    | None => ~ each (fun xy => in_rect g (fst xy) (snd xy)) (rect_corners pose c s sx sy)
    | Some calls =>
      each (fun xy => in_rect g (fst xy) (snd xy)) (rect_corners pose c s sx sy) /\
      NoDup calls /\ (forall p, p ∈ calls -> a_cell g (fst p) (snd p)) /\
      exists P b, both (fun xy p => in_cell (sub g 10) (fst p) (snd p) (fst xy) (snd xy)) (rect_corners pose c s sx sy) P /\ outlined P b /\
        (snd (c_ur P) > snd (c_dr P) \/ snd (c_ul P) <= snd (c_dl P) ->
         forall p, p ∈ calls <-> a_cell g (fst p) (snd p) /\ spanned 10 b p)
    end.
Proof.
  intros HW Hg HX HY (N1&N2&N3&N4). pose proof (corners_facts pose c s sx sy) as [Hud Hpar]. unfold for_each_in_rectangle, get_rect_points.
  set (w := rect_corners pose c s sx sy) in *. cbv zeta in Hud, Hpar.
  assert (Hx' : g_nx g * 10 <= half) by (unfold half; lia). assert (Hy' : g_ny g * 10 <= half) by (unfold half; lia).
  assert (Hsg : good_geo (sub g 10)) by (apply sub_good; [lia|done..]).
  assert (Hfail : forall q : Prop, ~ q -> (each (fun xy => in_rect g (fst xy) (snd xy)) w -> q) -> exists r, (exists n, forall fuel, (n <= fuel)%nat -> Ok (S:=unit) (None (A:=list pos)) = Ok r) /\
    match r with None => ~ each (fun xy => in_rect g (fst xy) (snd xy)) w | Some _ => False end).
  { intros q Hq H. exists None. split; [by exists 0%nat|]. auto. }
  destruct (times_spec conv g (fst (c_ul w)) (snd (c_ul w)) 10 HW Hg ltac:(lia) Hx' Hy' N1) as [(R1&ul&->&A1&I1)|[R1 ->]].
  2:{ exists None. split; [by exists 0%nat|]. intros (?&_). done. }
  destruct (times_spec conv g (fst (c_ur w)) (snd (c_ur w)) 10 HW Hg ltac:(lia) Hx' Hy' N2) as [(R2&ur&->&A2&I2)|[R2 ->]].
  2:{ exists None. split; [by exists 0%nat|]. intros (_&?&_). done. }
  destruct (times_spec conv g (fst (c_dl w)) (snd (c_dl w)) 10 HW Hg ltac:(lia) Hx' Hy' N3) as [(R3&dl&->&A3&I3)|[R3 ->]].
  2:{ exists None. split; [by exists 0%nat|]. intros (_&_&?&_). done. }
  destruct (times_spec conv g (fst (c_dr w)) (snd (c_dr w)) 10 HW Hg ltac:(lia) Hx' Hy' N4) as [(R4&dr&->&A4&I4)|[R4 ->]].
  2:{ exists None. split; [by exists 0%nat|]. intros (_&_&_&?). done. }
  clear Hfail. assert (HR : each (fun xy => in_rect g (fst xy) (snd xy)) w) by done.
  assert (HB : both (fun xy p => in_cell (sub g 10) (fst p) (snd p) (fst xy) (snd xy)) w (Corners ul ur dl dr)) by done.
  assert (Hbd : forall p, a_cell (sub g 10) (fst p) (snd p) -> 0 <= fst p <= 715827882 /\ 0 <= snd p <= 715827882 /\ small p).
  { intros p [P1 P2]. unfold sub in P1, P2. cbn in P1, P2. unfold small, size_end. lia. }
  pose proof (Hbd ul A1) as (U1&U2&U3). pose proof (Hbd ur A2) as (V1&V2&V3). pose proof (Hbd dl A3) as (X1&X2&X3). pose proof (Hbd dr A4) as (Y1&Y2&Y3).
  assert (Hline : forall p q, 0 <= fst p <= 715827882 -> 0 <= snd p <= 715827882 -> 0 <= fst q <= 715827882 -> 0 <= snd q <= 715827882 ->
    exists l, straight p q l /\ forall acc fuel, (length l < fuel)%nat -> line_bresenham fuel p q acc = Ok (acc ++ l)).
  { intros p q ????. destruct (C33_positions p q [] ltac:(lia) ltac:(lia) ltac:(lia) ltac:(lia) ltac:(lia)) as (l&Hl&HS). exists l. split; [done|].
    intros acc fuel Hf. specialize (Hl fuel Hf). unfold line_bresenham in *. destruct (b_init _ _ _ _); cbn [obind] in *; try discriminate.
    destruct (b_line _ _ _); cbn [obind] in *; try discriminate. cbn [app] in Hl. injection Hl as ->. done. }
  assert (M1 : snd ul <= snd ur) by (by apply (in_cell_mono _ _ _ _ _ _ _ _ _ Hsg I1 I2)).
  assert (M2 : snd dl <= snd dr) by (apply (in_cell_mono _ _ _ _ _ _ _ _ _ Hsg I3 I4); lra).
  unfold outline. cbn [c_ul c_ur c_dl c_dr]. destruct (Z.gtb_spec (snd ur) (snd dr)) as [Hc|Hc].
  - (* left: ur, ul, dl; right: ur, dr, dl *)
    assert (M3 : snd dl <= snd ul).
    { apply (in_cell_mono _ _ _ _ _ _ _ _ _ Hsg I3 I1). destruct (Qlt_le_dec (snd (c_ul w)) (snd (c_dl w))) as [Hn|]; [|done]. exfalso.
      assert (snd ur <= snd dr); [|lia]. apply (in_cell_mono _ _ _ _ _ _ _ _ _ Hsg I2 I4). lra. }
    destruct (Hline ur ul) as (l1&S1&L1); try lia. destruct (Hline ul dl) as (l2&S2&L2); try lia.
    destruct (Hline ur dr) as (l3&S3&L3); try lia. destruct (Hline dr dl) as (l4&S4&L4); try lia.
    destruct (two_lines _ _ _ _ _ S1 S2 ltac:(lia) ltac:(lia)) as (DL&HL&LL). destruct (two_lines _ _ _ _ _ S3 S4 ltac:(lia) ltac:(lia)) as (DR&HR'&LR).
    set (n := S (length l1 + length l2 + length l3 + length l4)).
    assert (Hrows : forall fuel, (n <= fuel)%nat -> exists new, rect_rows g 10 fuel (l1 ++ l2) (l3 ++ l4) [] = Ok new /\ NoDup new /\ (forall p, p ∈ new -> a_cell g (fst p) (snd p)) /\
       forall p, p ∈ new <-> a_cell g (fst p) (snd p) /\ spanned 10 ((l1 ++ l2) ++ (l3 ++ l4)) p).
    { intros fuel Hf. destruct (rows_spec g 10 ltac:(lia) fuel (l1 ++ l2) (l3 ++ l4) [] [] ur ur dl dl) as (new&Hrun&Hnd&Hin&Hiff); try done.
      - rewrite app_length. lia.
      - apply Forall_app. split; [by apply (straight_small _ _ _ S1)|by apply (straight_small _ _ _ S2)].
      - rewrite app_nil_r. apply Forall_app. split; [by apply (straight_small _ _ _ S3)|by apply (straight_small _ _ _ S4)].
      - exists new. rewrite app_nil_r in Hrun. split; [done|]. split; [done|]. split; [intros p Hp; by apply Hin|]. by apply Hiff. }
    destruct (Hrows n ltac:(lia)) as (new&Hrun&Hnd&Hin&Hiff).
    exists (Some new). split.
    + exists n. intros fuel Hf. rewrite (L1 [] fuel) by lia. cbn [obind app]. rewrite (L2 _ fuel) by lia. cbn [obind]. rewrite (L3 [] fuel) by lia. cbn [obind app]. rewrite (L4 _ fuel) by lia. cbn [obind fst snd].
      assert (Hmore : forall f1 f2 a b acc r, rect_rows g 10 f1 a b acc = Ok r -> (f1 <= f2)%nat -> rect_rows g 10 f2 a b acc = Ok r).
      { clear. induction f1 as [|f1 IH]; intros f2 a b acc r H Hle.
        - destruct a as [|? ?], b as [|? ?]; cbn in H; try discriminate; by destruct f2.
        - destruct f2 as [|f2]; [lia|]. destruct a as [|a0 a], b as [|b0 b]; try done. cbn [rect_rows] in *. destruct (negb _); [done|].
          destruct (eat_row _ _ _ _) as [? ?]. destruct (eat_row _ _ _ _) as [? ?]. destruct (_ >=? _); (apply IH; [done|lia]). }
      rewrite (Hmore _ _ _ _ _ _ Hrun Hf). done.
    + split; [done|]. split; [done|]. split; [done|]. exists (Corners ul ur dl dr), ((l1 ++ l2) ++ (l3 ++ l4)). split; [done|]. split; [|done].
      exists l1, l2, l3, l4. cbn [c_ul c_ur c_dl c_dr]. split; [done|]. split; [done|]. split; [by left|]. split; [by left|done].
  - (* left: dr, ur, ul; right: dr, dl, ul *)
    destruct (Hline dr ur) as (l1&S1&L1); try lia. destruct (Hline ur ul) as (l2&S2&L2); try lia.
    destruct (Hline dr dl) as (l3&S3&L3); try lia. destruct (Hline dl ul) as (l4&S4&L4); try lia.
    destruct (two_lines _ _ _ _ _ S1 S2 ltac:(lia) ltac:(lia)) as (DL&HL&LL).
    set (n := S (length l1 + length l2 + length l3 + length l4)).
    assert (Hrows : forall fuel, (n <= fuel)%nat -> exists new, rect_rows g 10 fuel (l1 ++ l2) (l3 ++ l4) [] = Ok new /\ NoDup new /\ (forall p, p ∈ new -> a_cell g (fst p) (snd p)) /\
       (snd ul <= snd dl -> forall p, p ∈ new <-> a_cell g (fst p) (snd p) /\ spanned 10 ((l1 ++ l2) ++ (l3 ++ l4)) p)).
    { intros fuel Hf.
      assert (Hs12 : Forall small (l1 ++ l2)) by (apply Forall_app; split; [by apply (straight_small _ _ _ S1)|by apply (straight_small _ _ _ S2)]).
      assert (Hs34 : Forall small (l3 ++ l4)) by (apply Forall_app; split; [by apply (straight_small _ _ _ S3)|by apply (straight_small _ _ _ S4)]).
      destruct (decide (snd ul <= snd dl)) as [Hd|Hd].
      - destruct (two_lines _ _ _ _ _ S3 S4 ltac:(lia) ltac:(lia)) as (DR&HR'&LR).
        destruct (rows_spec g 10 ltac:(lia) fuel (l1 ++ l2) (l3 ++ l4) [] [] dr dr ul ul) as (new&Hrun&Hnd&Hin&Hiff); try done.
        + rewrite app_length. lia.
        + by rewrite app_nil_r.
        + exists new. rewrite app_nil_r in Hrun. split; [done|]. split; [done|]. split; [intros p Hp; by apply Hin|]. intros _. by apply Hiff.
      - destruct (rows_spec g 10 ltac:(lia) fuel (l1 ++ l2) l3 l4 [] dr dr ul dl) as (new&Hrun&Hnd&Hin&_); try done.
        + rewrite app_length. lia.
        + by apply (straight_desc _ _ _ S3).
        + apply S3.
        + apply S3.
        + lia.
        + exists new. split; [done|]. split; [done|]. split; [intros p Hp; by apply Hin|]. done. }
    destruct (Hrows n ltac:(lia)) as (new&Hrun&Hnd&Hin&Hiff).
    exists (Some new). split.
    + exists n. intros fuel Hf. rewrite (L1 [] fuel) by lia. cbn [obind app]. rewrite (L2 _ fuel) by lia. cbn [obind]. rewrite (L3 [] fuel) by lia. cbn [obind app]. rewrite (L4 _ fuel) by lia. cbn [obind fst snd].
      assert (Hmore : forall f1 f2 a b acc r, rect_rows g 10 f1 a b acc = Ok r -> (f1 <= f2)%nat -> rect_rows g 10 f2 a b acc = Ok r).
      { clear. induction f1 as [|f1 IH]; intros f2 a b acc r H Hle.
        - destruct a as [|? ?], b as [|? ?]; cbn in H; try discriminate; by destruct f2.
        - destruct f2 as [|f2]; [lia|]. destruct a as [|a0 a], b as [|b0 b]; try done. cbn [rect_rows] in *. destruct (negb _); [done|].
          destruct (eat_row _ _ _ _) as [? ?]. destruct (eat_row _ _ _ _) as [? ?]. destruct (_ >=? _); (apply IH; [done|lia]). }
      rewrite (Hmore _ _ _ _ _ _ Hrun Hf). done.
    + split; [done|]. split; [done|]. split; [done|]. exists (Corners ul ur dl dr), ((l1 ++ l2) ++ (l3 ++ l4)). split; [done|]. cbn [c_ul c_ur c_dl c_dr]. split.
      * exists l2, l4, l1, l3. cbn [c_ul c_ur c_dl c_dr]. split; [|split; [done|]; split; [by right|]; split; [by right|done]].
        rewrite <-!app_assoc. rewrite (Permutation_app_comm l1 (l2 ++ l3 ++ l4)). rewrite <-!app_assoc. apply Permutation_app_head.
        rewrite (Permutation_app_comm l3 (l4 ++ l1)). by rewrite <-!app_assoc.
      * intros [?|Hd]; [lia|by apply Hiff].
Qed.
Definition c34_conv (z : Z) : Z := z mod size_end.
Lemma c34_conv_wraps : conv_wraps c34_conv.
Proof. split; intros z Hz; unfold c34_conv, size_end in *; [by apply Z.mod_small|]. rewrite <-(Z.mod_add _ 1) by done. apply Z.mod_small. lia. Qed.
Definition c34_grid : geo := Geo 20 20 1 1 0 0.
(** The corners in that statement are those of a rectangle of the given size around the given position, turned by the angle with the given cosine and
    sine; [c_ul] and [c_dr] are opposite, and so are [c_ur] and [c_dl]. *)
Definition rect_point (pose : Q * Q) (c s sx sy : Q) (a b : Q) (p : Q * Q) : Prop :=
  let u := (a * (sx / 2))%Q in let v := (b * (sy / 2))%Q in
  (fst p == fst pose + (c * u - s * v) /\ snd p == snd pose + (s * u + c * v))%Q.
Theorem C34_corners pose c s sx sy : let w := rect_corners pose c s sx sy in
  exists a b : Q, (a = 1 \/ a = -1)%Q /\ (b = 1 \/ b = -1)%Q /\
    rect_point pose c s sx sy a b (c_ul w) /\ rect_point pose c s sx sy a (- b) (c_ur w) /\
    rect_point pose c s sx sy (- a) b (c_dl w) /\ rect_point pose c s sx sy (- a) (- b) (c_dr w).
Proof.
  cbn zeta. unfold rect_corners. set (hx := (sx / 2)%Q). set (hy := (sy / 2)%Q).
  repeat match goal with |- context [Qlt_le_dec ?x ?y] => destruct (Qlt_le_dec x y) end; cbn [c_ul c_ur c_dl c_dr fst snd] in *.
  1: exists (-1)%Q, 1%Q. 2: exists 1%Q, 1%Q. 3: exists (-1)%Q, (-1)%Q. 4: exists 1%Q, (-1)%Q.
  all: unfold rect_point; fold hx hy; cbn [fst snd]; repeat split; auto; ring.
Qed.
(** a rotated rectangle (cosine 4/5, sine 3/5) *)
Example C34_nonvacuous : good_geo c34_grid /\ each (fun xy => near (sub c34_grid 10) (fst xy) (snd xy)) (rect_corners (10%Q, 10%Q) (4 # 5) (3 # 5) 4 2) /\
  exists calls, for_each_in_rectangle c34_conv 200 c34_grid (10%Q, 10%Q) (4 # 5) (3 # 5) 4 2 = Ok (Some calls) /\ length calls = 17%nat /\ (9, 10) ∈ calls.
Proof.
  split; [unfold good_geo, size_end; cbn; repeat split; lia || lra|]. split; [vm_compute; repeat split; congruence|].
  eexists. split; [vm_compute; reflexivity|]. split; [done|]. set_unfold. auto 20.
Qed.
(** A nearly upright rectangle whose upper side lies within one row of sub-cells: the row of the lowest corner is not visited (finding). *)
Theorem C34_missed_row_refuted : exists g pose c s sx sy, (c * c + s * s == 1)%Q /\ good_geo g /\ each (fun xy => in_rect g (fst xy) (snd xy)) (rect_corners pose c s sx sy) /\ exists calls, for_each_in_rectangle c34_conv 200 g pose c s sx sy = Ok (Some calls) /\ let dl := c_dl (rect_corners pose c s sx sy) in in_cell g 9 7 (fst dl) (snd dl) /\ (9, 7) ∉ calls.
Proof.
  exists c34_grid, (10%Q, (1002 # 100)%Q), (9999 # 10001)%Q, (200 # 10001)%Q, 1%Q, ((404 # 100) * (10001 # 9999))%Q. split; [reflexivity|].
  split; [unfold good_geo, size_end; cbn; repeat split; lia || lra|]. split; [vm_compute; repeat split; congruence|].
  eexists. split; [vm_compute; reflexivity|]. split; [vm_compute; repeat split; congruence|]. set_unfold. intros H. destruct_or! H; congruence.
Qed.
