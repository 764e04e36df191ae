(** Theorems about bands and raster files (C105-C107); the model is Raster.v. *)
From Coq Require Import ZArith QArith Qcanon String Lia.
From stdpp Require Import prelude strings gmap.
From Verif Require Import Base Ids Raster.

(** ** Specification *)
Section Spec.
  Context {A : Type} (zero : A).

  Inductive op :=
  | OCreate (band : string)
  | OSet (band : string) (x y : nat) (v : A)
  | ONoData (band : string) (v : A)
  | ONoDataAll (v : A)
  | OCopy (source : grid A) (source_band target : string).
  Definition exec (g : grid A) (o : op) : out (grid A) (grid A) :=
    match o with
    | OCreate k => Ok (create_band zero g k)
    | OSet k x y v => set_raster zero g k x y v
    | ONoData k v => Ok (set_nodata g k v)
    | ONoDataAll v => Ok (set_nodata_all g v)
    | OCopy s sb tb => copy_band zero g s sb tb
    end.
  (** exceptions are caught; [None]: undefined behaviour or an assertion *)
  Definition run_step (og : option (grid A)) (o : op) : option (grid A) :=
    match og with
    | Some g => match exec g o with Ok g' | Throw g' => Some g' | _ => None end
    | None => None
    end.
  Definition run (g : grid A) (ops : list op) : option (grid A) := foldl run_step (Some g) ops.

  (** What a user expects of a band after operations, given with the latest first. *)
  Definition target_of (sb tb : string) : string := if String.eqb tb "" then sb else tb.
  (** the operation copies to band [b] *)
  Definition copies (ty : nat) (s : grid A) (sb tb b : string) : bool :=
    bool_decide (target_of sb tb = b) && bool_decide (g_type s = ty) && has_band s sb.
  Fixpoint known (ty : nat) (past : list op) (b : string) : bool :=
    match past with
    | [] => false
    | OCreate k :: past | OSet k _ _ _ :: past => bool_decide (k = b) || known ty past b
    | OCopy s sb tb :: past => copies ty s sb tb b || known ty past b
    | _ :: past => known ty past b
    end.
  Fixpoint told (ty : nat) (past : list op) (b : string) (x y : nat) : A :=
    match past with
    | [] => zero
    | OSet k x' y' v :: past => if bool_decide (k = b /\ x' = x /\ y' = y) then v else told ty past b x y
    | OCopy s sb tb :: past => if copies ty s sb tb b
                               then match get_raster s sb x y with Ok v => v | _ => zero end
                               else told ty past b x y
    | _ :: past => told ty past b x y
    end.
  Fixpoint told_nodata (ty : nat) (past : list op) (b : string) : option A :=
    match past with
    | [] => None
    | ONoData k v :: past => if bool_decide (k = b) then Some v else told_nodata ty past b
    | ONoDataAll v :: past => if known ty past b then Some v else told_nodata ty past b
    | OCopy s sb tb :: past => match copies ty s sb tb b, get_nodata s sb with
                               | true, Some v => Some v
                               | _, _ => told_nodata ty past b
                               end
    | _ :: past => told_nodata ty past b
    end.
  (** operations inside of the grid: sources are grids whose bands have their size *)
  Definition sources_ok (o : op) : Prop := match o with OCopy s _ _ => wf s | _ => True end.
  Definition proper (w h ty : nat) (o : op) : Prop :=
    match o with
    | OSet _ x y _ => x < w /\ y < h
    | OCopy s sb _ => g_type s = ty -> has_band s sb = true -> g_w s = w /\ g_h s = h
    | _ => True
    end.

  (** World positions: of a pixel after the geotransform of the file, and of the centre of a cell (GridBase::fromGrid, GridBase.cpp:451-455, with the translation of the frame) *)
  Definition mid (n : nat) : Qc := (Q2Qc (inject_Z (Z.of_nat n)) + Q2Qc (1 # 2))%Qc.
  Definition pixel (t : geotransform) (i j : nat) : Qc * Qc :=
    ((gt0 t + mid i * gt1 t + mid j * gt2 t)%Qc, (gt3 t + mid i * gt4 t + mid j * gt5 t)%Qc).
  Definition centre (g : grid A) (o : Qc * Qc) (x y : nat) : Qc * Qc :=
    ((o.1 + (g_ox g + mid x * g_sx g))%Qc, (o.2 + (g_oy g + mid y * g_sy g))%Qc).
  Definition world (f : plane) (p : Qc * Qc) : Qc * Qc :=
    ((fa f * p.1 + fb f * p.2 + ftx f)%Qc, (fc f * p.1 + fd f * p.2 + fty f)%Qc).
End Spec.
Arguments op : clear implicits.

(** ** Bands (C105) *)
Section Bands.
  Context {A : Type} (zero : A).

  Definition expects (w h ty : nat) (past : list (op A)) (g : grid A) : Prop :=
    wf g /\ g_w g = w /\ g_h g = h /\ g_type g = ty /\
    forall b, has_band g b = known ty past b /\ get_nodata g b = told_nodata ty past b /\
      forall x y, x < w -> y < h -> known ty past b = true -> get_raster g b x y = Ok (told zero ty past b x y).

  Lemma has_grid_data (g : grid A) (k b : string) : has_band (grid_data zero g k) b = bool_decide (k = b) || has_band g b.
  Proof using Type.
    unfold has_band, grid_data. cbn. destruct (decide (k = b)) as [->|Hne].
    - rewrite (bool_decide_eq_true_2 (b = b)) by done. cbn. apply bool_decide_eq_true_2. rewrite lookup_insert. by eexists.
    - rewrite lookup_insert_ne by done. by rewrite (bool_decide_eq_false_2 (k = b)).
  Qed.
  Lemma get_grid_data (g : grid A) (k b : string) (x y : nat) : wf g -> x < g_w g -> y < g_h g ->
    get_raster (grid_data zero g k) b x y = if bool_decide (k = b) && negb (has_band g b) then Ok zero else get_raster g b x y.
  Proof using Type.
    intros H Hx Hy. unfold get_raster, grid_data, has_band. cbn. destruct (decide (k = b)) as [->|Hne].
    - rewrite lookup_insert, (bool_decide_eq_true_2 (b = b)) by done. cbn. destruct (g_bands g !! b) as [a|] eqn:E.
      + rewrite (the_band_wf zero g b a) by done. rewrite bool_decide_eq_true_2 by (by eexists). done.
      + rewrite bool_decide_eq_false_2 by (by intros [? ?]). cbn. unfold the_band. rewrite E. rewrite cell_resize by done. done.
    - rewrite lookup_insert_ne by done. by rewrite (bool_decide_eq_false_2 (k = b)).
  Qed.
  Lemma known_told (ty : nat) (past : list (op A)) (b : string) (x y : nat) : known ty past b = false -> told zero ty past b x y = zero.
  Proof using Type.
    induction past as [|o past IH]; [done|]. destruct o as [k|k x' y' v|k v|v|s sb tb]; cbn; intros H; try (by apply IH).
    - apply orb_false_iff in H. destruct H as [_ H]. by apply IH.
    - apply orb_false_iff in H. destruct H as [H1 H2]. apply bool_decide_eq_false in H1. rewrite bool_decide_eq_false_2 by tauto. by apply IH.
    - apply orb_false_iff in H. destruct H as [-> H]. by apply IH.
  Qed.
  Lemma expects_create (w h ty : nat) (past : list (op A)) (g : grid A) (k : string) : expects w h ty past g -> expects w h ty (OCreate k :: past) (grid_data zero g k).
  Proof using Type.
    intros (Hwf & <- & <- & <- & H). split; [by apply wf_grid_data|]. do 3 (split; [done|]). intros b. destruct (H b) as (H1 & H2 & H3).
    split; [rewrite has_grid_data; cbn; by rewrite H1|]. split; [done|]. cbn [known told]. intros x y Hx Hy Hk. rewrite get_grid_data by done.
    rewrite H1. destruct (known (g_type g) past b) eqn:E.
    - rewrite andb_false_r. by apply H3.
    - rewrite orb_false_r in Hk. rewrite Hk. cbn. by rewrite known_told.
  Qed.
  Lemma get_set_same (g : grid A) (k b : string) (x y x' y' : nat) (v : A) : wf g -> is_Some (g_bands g !! k) -> x < g_w g -> y < g_h g -> x' < g_w g -> y' < g_h g ->
    get_raster (with_bands g (<[k := Arr (g_h g) (g_w g) (<[y' * g_w g + x' := v]> (a_data (the_band zero g k)))]> (g_bands g))) b x y
    = if bool_decide (k = b /\ x' = x /\ y' = y) then Ok v else get_raster g b x y.
  Proof using Type.
    intros Hwf [a Ha] Hx Hy Hx' Hy'. rewrite (the_band_wf zero g k a) by done. unfold get_raster. cbn [g_bands with_bands]. destruct (decide (k = b)) as [<-|Hne].
    - rewrite lookup_insert, Ha. pose proof (Hwf k a Ha) as Hs.
      rewrite (cell_sized (g_h g) (g_w g)); [|destruct Hs as (S1 & S2 & S3); split; [done|]; split; [done|]; cbn; by rewrite insert_length|done|done].
      rewrite (cell_sized (g_h g) (g_w g) a) by done. cbn [a_data].
      case_bool_decide as E.
      + destruct E as (_ & -> & ->). rewrite list_lookup_insert; [done|]. destruct Hs as (_ & _ & ->). by apply lin_lt.
      + rewrite list_lookup_insert_ne; [done|]. intros Heq. destruct (lin_inj (g_w g) x' y' x y) as [-> ->]; [done|done|done|]. by apply E.
    - rewrite lookup_insert_ne by done. rewrite bool_decide_eq_false_2 by tauto. done.
  Qed.
  Lemma target_nil (sb tb : string) : (match tb with EmptyString => sb | _ => tb end) = target_of sb tb.
  Proof using Type. by destruct tb. Qed.

  Lemma run_expects (w h : nat) (sx sy ox oy : Qc) (ty : nat) (ops : list (op A)) : forall g,
    Forall sources_ok ops -> run zero (new_grid w h sx sy ox oy ty) ops = Some g -> expects w h ty (rev ops) g.
  Proof using Type.
    induction ops as [|o ops IH] using rev_ind; intros g Hs Hr.
    - cbn in Hr. injection Hr as <-. split; [apply wf_new|]. do 3 (split; [done|]). intros b. split; [|split; [|done]].
      + apply bool_decide_eq_false_2. cbn. rewrite lookup_empty. by intros [? ?].
      + cbn. apply lookup_empty.
    - apply Forall_app in Hs. destruct Hs as [Hs Ho]. rewrite Forall_singleton in Ho. rewrite rev_app_distr. cbn [rev app].
      unfold run in Hr. rewrite foldl_app in Hr. cbn [foldl] in Hr. unfold run_step in Hr at 1.
      destruct (foldl _ _ _) as [g0|] eqn:E0; [|done]. specialize (IH g0 Hs E0). clear E0 Hs.
      pose proof IH as (Hwf & Hw & Hh & Hty & Hb). destruct o as [k|k x' y' v|k v|v|s sb tb]; cbn [exec] in Hr.
      + injection Hr as <-. by apply expects_create.
      + unfold set_raster in Hr. cbv zeta in Hr. case_decide as Hin; [|done]. injection Hr as <-. destruct Hin as [Hy' Hx'].
        change (g_w (grid_data zero g0 k)) with (g_w g0) in *. change (g_h (grid_data zero g0 k)) with (g_h g0) in *.
        destruct (expects_create w h ty (rev ops) g0 k IH) as (Hwf' & _ & _ & _ & Hb').
        split; [|do 3 (split; [done|])].
        { apply wf_insert; [done|]. destruct (sized_resize zero (g_h g0) (g_w g0) (default (Arr 0 0 []) (g_bands (grid_data zero g0 k) !! k))) as (_ & _ & L).
          split; [done|]. split; [done|]. cbn [a_data]. rewrite insert_length. exact L. }
        intros b. destruct (Hb' b) as (H1 & H2 & H3). split; [|split; [exact H2|]].
        * cbn [known] in H1 |- *. rewrite <- H1. unfold has_band. cbn. destruct (decide (k = b)) as [->|Hne].
          -- rewrite !lookup_insert. by rewrite !bool_decide_eq_true_2 by (by eexists).
          -- by rewrite !lookup_insert_ne by done.
        * intros x y Hx Hy Hk. subst w h.
          etransitivity; [apply (get_set_same (grid_data zero g0 k) k b x y x' y' v); [done|cbn; rewrite lookup_insert; by eexists|done|done|done|done]|].
          cbn [told]. case_bool_decide; [done|]. by apply H3.
      + injection Hr as <-. split; [done|]. do 3 (split; [done|]). intros b. destruct (Hb b) as (H1 & H2 & H3). split; [done|]. split; [|done].
        cbn [told_nodata]. unfold get_nodata, set_nodata. cbn. case_bool_decide as E; [subst; by rewrite lookup_insert|]. rewrite lookup_insert_ne by done. done.
      + injection Hr as <-. split; [done|]. do 3 (split; [done|]). intros b. destruct (Hb b) as (H1 & H2 & H3). split; [done|]. split; [|done].
        cbn [told_nodata]. rewrite <- H1, <- H2. unfold get_nodata, set_nodata_all, has_band. cbn [g_nodata with_nodata]. rewrite lookup_union, lookup_fmap.
        destruct (g_bands g0 !! b) as [a|]; cbn [fmap option_fmap option_map].
        * rewrite bool_decide_eq_true_2 by (by eexists). by destruct (g_nodata g0 !! b).
        * rewrite bool_decide_eq_false_2 by (by intros [? ?]). by destruct (g_nodata g0 !! b).
      + cbn [sources_ok] in Ho. unfold copy_band in Hr. rewrite target_nil in Hr. unfold copies.
        case_decide as Et; [|injection Hr as <-; split; [done|]; do 3 (split; [done|]); intros b; destruct (Hb b) as (H1 & H2 & H3)].
        2: { cbn [known told told_nodata]. unfold copies. rewrite (bool_decide_eq_false_2 (g_type s = ty)) by congruence. rewrite andb_false_r. done. }
        destruct (g_bands s !! sb) as [a|] eqn:Ea.
        2: { injection Hr as <-. split; [done|]. do 3 (split; [done|]). intros b; destruct (Hb b) as (H1 & H2 & H3).
             cbn [known told told_nodata]. unfold copies. replace (has_band s sb) with false; [rewrite andb_false_r; done|].
             symmetry. apply bool_decide_eq_false_2. rewrite Ea. by intros [? ?]. }
        cbv zeta in Hr. case_decide as Ed; [|done]. injection Hr as <-. destruct Ed as [Ed1 Ed2]. set (key := target_of sb tb).
        assert (Hhas : has_band s sb = true) by (apply bool_decide_eq_true_2; rewrite Ea; by eexists).
        assert (Hcp : forall b, copies ty s sb tb b = bool_decide (key = b)).
        { intros b. unfold copies. rewrite Hhas, (bool_decide_eq_true_2 (g_type s = ty)) by congruence. by rewrite !andb_true_r. }
        change (g_h (grid_data zero g0 key)) with (g_h g0) in *. change (g_w (grid_data zero g0 key)) with (g_w g0) in *.
        set (g1 := with_bands (grid_data zero g0 key) (<[key := a]> (g_bands (grid_data zero g0 key)))).
        assert (Hsa : sized (g_h g0) (g_w g0) a).
        { destruct (Ho sb a Ea) as (S1 & S2 & S3). split; [done|]. split; [done|]. by rewrite S3, <- S1, <- S2, Ed1, Ed2. }
        assert (Hbands : g_bands g1 = <[key := a]> (g_bands g0)) by (unfold g1, grid_data; cbn; by rewrite insert_insert).
        assert (Hwf1 : wf g1).
        { intros k' a' E. rewrite Hbands in E. change (sized (g_h g0) (g_w g0) a'). destruct (decide (key = k')) as [<-|Hne].
          - rewrite lookup_insert in E. by injection E as <-.
          - rewrite lookup_insert_ne in E by done. by apply (Hwf k'). }
        assert (Hres : expects w h ty (OCopy s sb tb :: rev ops) (match get_nodata s sb with Some v => set_nodata g1 key v | None => g1 end)); [|exact Hres].
        assert (Hband : forall b, g_bands (match get_nodata s sb with Some v => set_nodata g1 key v | None => g1 end) !! b = if bool_decide (key = b) then Some a else g_bands g0 !! b).
        { intros b. replace (g_bands _) with (g_bands g1) by (by destruct (get_nodata s sb)). rewrite Hbands.
          case_bool_decide as E; [subst; by rewrite lookup_insert|by rewrite lookup_insert_ne]. }
        split; [destruct (get_nodata s sb); exact Hwf1|]. do 3 (split; [by destruct (get_nodata s sb)|]). intros b. destruct (Hb b) as (H1 & H2 & H3).
        cbn [known told told_nodata]. rewrite Hcp. split; [|split].
        * unfold has_band at 1. rewrite Hband. destruct (decide (key = b)) as [E|E].
          -- rewrite (bool_decide_eq_true_2 (key = b)) by done. by apply bool_decide_eq_true_2.
          -- rewrite (bool_decide_eq_false_2 (key = b)) by done. exact H1.
        * unfold get_nodata at 1. destruct (get_nodata s sb) as [v|]; cbn.
          -- case_bool_decide as E; [subst b; by rewrite lookup_insert|]. rewrite lookup_insert_ne by done. exact H2.
          -- rewrite <- H2. by case_bool_decide.
        * intros x y Hx Hy Hk. unfold get_raster at 1. rewrite Hband. case_bool_decide as E.
          -- unfold get_raster. rewrite Ea. destruct (cell_some (g_h g0) (g_w g0) a x y Hsa) as [v ->]; [lia|lia|]. done.
          -- cbn in Hk. by apply H3.
  Qed.

  (** C105: bands are independent of each other, and each cell holds what was last stored there *)
  Theorem C105_bands (w h : nat) (sx sy ox oy : Qc) (ty : nat) (ops : list (op A)) (g : grid A) :
    Forall sources_ok ops -> run zero (new_grid w h sx sy ox oy ty) ops = Some g ->
    g_w g = w /\ g_h g = h /\
    forall b, has_band g b = known ty (rev ops) b /\ get_nodata g b = told_nodata ty (rev ops) b /\
      forall x y, x < w -> y < h ->
        get_raster g b x y = if known ty (rev ops) b then Ok (told zero ty (rev ops) b x y) else Throw tt.
  Proof using Type.
    intros Hs Hr. destruct (run_expects w h sx sy ox oy ty ops g Hs Hr) as (Hwf & Hw & Hh & Hty & Hb). split; [done|]. split; [done|].
    intros b. destruct (Hb b) as (H1 & H2 & H3). split; [done|]. split; [done|]. intros x y Hx Hy. destruct (known ty (rev ops) b) eqn:E; [by apply H3|].
    unfold get_raster. unfold has_band in H1. destruct (g_bands g !! b); [|done]. rewrite bool_decide_eq_true_2 in H1 by (by eexists). done.
  Qed.
  (** operations inside of the grid never fail *)
  Theorem C105_defined (w h : nat) (sx sy ox oy : Qc) (ty : nat) (ops : list (op A)) :
    Forall sources_ok ops -> Forall (proper w h ty) ops -> is_Some (run zero (new_grid w h sx sy ox oy ty) ops).
  Proof using Type.
    induction ops as [|o ops IH] using rev_ind; intros Hs Hp; [by eexists|]. apply Forall_app in Hs, Hp. destruct Hs as [Hs Ho], Hp as [Hp Hpo].
    rewrite Forall_singleton in Ho, Hpo. destruct (IH Hs Hp) as [g0 E0]. destruct (run_expects w h sx sy ox oy ty ops g0 Hs E0) as (Hwf & Hw & Hh & Hty & _).
    unfold run. rewrite foldl_app. cbn [foldl]. unfold run in E0. rewrite E0. cbn [run_step].
    destruct o as [k|k x' y' v|k v|v|s sb tb]; cbn [exec proper sources_ok] in *; try (by eexists).
    - unfold set_raster. cbv zeta. rewrite decide_True; [by eexists|]. cbn. lia.
    - unfold copy_band. case_decide as Et; [|by eexists]. destruct (g_bands s !! sb) as [a|] eqn:Ea; [|by eexists]. cbv zeta.
      destruct Hpo as [P1 P2]; [congruence|apply bool_decide_eq_true_2; rewrite Ea; by eexists|]. destruct (Ho sb a Ea) as (S1 & S2 & _).
      rewrite decide_True; [by eexists|]. cbn. rewrite S1, S2. lia.
  Qed.
End Bands.

(** ** Import of raster files (C106) *)
Section Import.
  Context {A : Type} (zero : A).

  Lemma zq_sub (a b : Z) : Q2Qc (inject_Z (a - b)) = (Q2Qc (inject_Z a) - Q2Qc (inject_Z b))%Qc.
  Proof using Type.
    unfold Qcminus, Qcplus, Qcopp, Z.sub. rewrite inject_Z_plus, inject_Z_opp. apply Qc_is_canon.
    change (Qred (inject_Z a + - inject_Z b) == Qred (Qred (inject_Z a) + Qred (- Qred (inject_Z b)))). by rewrite !Qred_correct.
  Qed.
  Lemma mid_flip (w i : nat) : i < w -> mid (w - 1 - i) = (Q2Qc (inject_Z (Z.of_nat w)) - mid i)%Qc.
  Proof using Type.
    intros H. unfold mid. replace (Z.of_nat (w - 1 - i)) with (Z.of_nat w - 1 - Z.of_nat i)%Z by lia.
    rewrite !zq_sub. replace (Q2Qc (inject_Z 1)) with (Q2Qc (1 # 2) + Q2Qc (1 # 2))%Qc by (by apply Qc_is_canon). ring.
  Qed.
  Lemma qabs_nonneg (q : Qc) : (0 <= qabs q)%Qc.
  Proof using Type.
    unfold qabs. destruct (Qclt_le_dec q 0) as [H|H]; [|done]. rewrite <- (Qcplus_opp_r q) at 1. rewrite <- (Qcplus_0_l (- q)) at 2.
    apply Qcplus_le_compat; [|apply Qcle_refl]. by apply Qclt_le_weak.
  Qed.
  Lemma qabs_flip (q : Qc) : qabs q = if qneg q then (- q)%Qc else q.
  Proof using Type. unfold qabs, qneg. by destruct (Qclt_le_dec q 0). Qed.
  Lemma qgt_zero (q : Qc) : qgt (qabs 0) (qabs q * Q2Qc (1 # 100)) = false.
  Proof using Type.
    unfold qgt. destruct (Qclt_le_dec _ _) as [H|H]; [|done]. exfalso. apply (Qclt_not_le _ _ H).
    unfold qabs at 1. destruct (Qclt_le_dec 0 0) as [H0|_]; [by apply Qclt_not_eq in H0|].
    rewrite <- (Qcmult_0_l (Q2Qc (1 # 100))). apply Qcmult_le_compat_r; [|done]. apply qabs_nonneg.
  Qed.

  (** C106: the value of every pixel is found in the cell at the place of the pixel in the world, whichever way the axes of the file point *)
  Theorem C106_import (r : raster A) (name : string) (band : Z) (t : geotransform) (b : rband A) :
    r_w r <> 0 -> r_h r <> 0 -> r_gt r = Some t -> gt2 t = 0%Qc -> gt4 t = 0%Qc ->
    (1 <= band)%Z -> r_bands r !! Z.to_nat (band - 1) = Some b -> length (rb_data b) = r_h r * r_w r ->
    exists g o, read_from_gdal zero r name band = Ok (g, o) /\
      g_w g = r_w r /\ g_h g = r_h r /\ g_type g = rb_type b /\ get_nodata g name = rb_nodata b /\ (forall k, has_band g k = bool_decide (k = name)) /\
      forall i j v, i < r_w r -> j < r_h r -> rb_data b !! (j * r_w r + i) = Some v ->
        exists x y, x < g_w g /\ y < g_h g /\ get_raster g name x y = Ok v /\ centre g o x y = pixel t i j.
  Proof using Type.
    intros Hw Hh Ht Hg2 Hg4 Hb Eb Hl. unfold read_from_gdal.
    pose proof (lookup_lt_Some _ _ _ Eb) as Hlen. rewrite decide_False by lia. rewrite decide_False by lia. rewrite Eb.
    unfold read_grid. cbn [g_w g_h new_grid g_sx g_sy g_ox g_oy g_type g_bands g_nodata].
    rewrite decide_False by tauto. rewrite decide_True by (by left). rewrite Ht, Hg2, Hg4, Qcmult_0_l, !qgt_zero. cbn [orb].
    rewrite decide_False by (cbn [length]; lia). cbn [read_bands]. rewrite decide_True by done. rewrite Eb.
    set (g0 := Grid (r_w r) (r_h r) (qabs (gt1 t)) (qabs (gt5 t)) 0 0 (rb_type b) ∅ ∅).
    destruct (read_band_ok zero (qneg (gt1 t)) (qneg (gt5 t)) g0 name b) as (a & E & Hs & Hc); [done|done|done|done|].
    rewrite E. cbn [obind]. cbv zeta.
    assert (Hf : forall k, match rb_nodata b with Some v => set_nodata (with_bands g0 (<[name := a]> (g_bands g0))) name v | None => with_bands g0 (<[name := a]> (g_bands g0)) end = k ->
      g_w k = r_w r /\ g_h k = r_h r /\ g_type k = rb_type b /\ g_sx k = qabs (gt1 t) /\ g_sy k = qabs (gt5 t) /\ g_ox k = 0%Qc /\ g_oy k = 0%Qc /\ g_bands k = {[ name := a ]} /\ g_nodata k !! name = rb_nodata b).
    { intros k <-. destruct (rb_nodata b); cbn; rewrite ?insert_empty, ?lookup_singleton, ?lookup_empty; done. }
    set (k := match rb_nodata b with Some v => _ | None => _ end) in *. destruct (Hf k eq_refl) as (F1 & F2 & F3 & F4 & F5 & F6 & F7 & F8 & F9).
    eexists k, _. split; [reflexivity|]. do 3 (split; [done|]). split; [exact F9|]. split.
    { intros k'. unfold has_band. rewrite F8. case_bool_decide as H1; case_bool_decide as H2; try done.
      - destruct H1 as [? H1]. by apply lookup_singleton_Some in H1 as [-> _].
      - subst. rewrite lookup_singleton in H1. exfalso. apply H1. by eexists. }
    intros i j v Hi Hj Hv. exists (flip (qneg (gt1 t)) (r_w r) i), (flip (qneg (gt5 t)) (r_h r) j).
    split; [rewrite F1; unfold flip; destruct (qneg (gt1 t)); lia|]. split; [rewrite F2; unfold flip; destruct (qneg (gt5 t)); lia|]. split.
    - unfold get_raster. rewrite F8, lookup_singleton. change (r_w r) with (g_w g0). change (r_h r) with (g_h g0). rewrite Hc by done. change (g_w g0) with (r_w r). by rewrite Hv.
    - unfold centre, pixel. rewrite F1, F2, F4, F5, F6, F7, Hg2, Hg4, !qabs_flip. cbn [fst snd]. unfold flip.
      destruct (qneg (gt1 t)), (qneg (gt5 t)); rewrite ?mid_flip by done; f_equal; ring.
  Qed.

  (** files whose axes are turned too much are refused *)
  Theorem C106_rotated (r : raster A) (name : string) (band : Z) (t : geotransform) (b : rband A) :
    r_gt r = Some t -> (1 <= band)%Z -> r_bands r !! Z.to_nat (band - 1) = Some b ->
    (qabs (gt5 t) * Q2Qc (1 # 100) < qabs (gt4 t * Q2Qc (inject_Z (Z.of_nat (r_h r)))))%Qc \/ (qabs (gt1 t) * Q2Qc (1 # 100) < qabs (gt2 t))%Qc ->
    read_from_gdal zero r name band = Throw tt.
  Proof using Type.
    intros Ht Hb Eb Hrot. unfold read_from_gdal. pose proof (lookup_lt_Some _ _ _ Eb) as Hlen. rewrite decide_False by lia. rewrite decide_False by lia. rewrite Eb.
    unfold read_grid. cbn [g_w g_h new_grid g_sx g_sy g_ox g_oy g_type g_bands g_nodata].
    rewrite decide_False by tauto. rewrite decide_True by (by left). rewrite Ht. unfold qgt.
    destruct (Qclt_le_dec _ _) as [H1|H1]; [done|]. destruct (Qclt_le_dec _ _) as [H2|H2]; [done|].
    exfalso. destruct Hrot as [H|H]; [by apply (Qclt_not_le _ _ H)|by apply (Qclt_not_le _ _ H)].
  Qed.

  (** a band written to a file and imported again is found at the same places of the world *)
  Theorem C106_export (g : grid A) (f : plane) (k name : string) (a : array A) :
    wf g -> g_w g <> 0 -> g_h g <> 0 -> fb f = 0%Qc -> fc f = 0%Qc -> g_bands g !! k = Some a ->
    exists r g1 g' o, write_grid zero f [k] g = Ok (r, g1) /\ read_from_gdal zero r name 1 = Ok (g', o) /\
      g_w g' = g_w g /\ g_h g' = g_h g /\ g_type g' = g_type g /\ get_nodata g' name = get_nodata g k /\
      forall x y v, x < g_w g -> y < g_h g -> get_raster g k x y = Ok v ->
        exists x' y', x' < g_w g' /\ y' < g_h g' /\ get_raster g' name x' y' = Ok v /\ centre g' o x' y' = world f (centre g (0%Qc, 0%Qc) x y).
  Proof using Type.
    intros Hwf Hw Hh Hfb Hfc Ha. unfold write_grid. rewrite decide_False by (intros [?|[?|?]]; done).
    destruct (C106_import (Raster (g_w g) (g_h g) (Some (geo_of f g)) (write_band zero g <$> [k])) name 1 (geo_of f g) (write_band zero g k)) as (g' & o & E & F1 & F2 & F3 & F4 & _ & F);
      [done|done|done|cbn; rewrite Hfb; ring|cbn; rewrite Hfc; ring|done|done| |].
    { apply (sized_resize zero (g_h g) (g_w g)). }
    eexists _, _, g', o. split; [reflexivity|]. split; [exact E|]. do 4 (split; [done|]).
    intros x y v Hx Hy Hv. destruct (F x y v) as (x' & y' & Hx' & Hy' & Hg & Hc); [done|done| |].
    { cbn [rb_data write_band r_w]. rewrite (the_band_wf zero g k a) by done. unfold get_raster in Hv. rewrite Ha in Hv.
      rewrite (cell_sized (g_h g) (g_w g)) in Hv by (done || by apply (Hwf k)). destruct (a_data a !! _); [by injection Hv as ->|done]. }
    exists x', y'. do 3 (split; [done|]). rewrite Hc. unfold pixel, world, centre, geo_of. cbn [gt0 gt1 gt2 gt3 gt4 gt5 fst snd]. rewrite Hfb, Hfc. f_equal; ring.
  Qed.
End Import.

(** ** Saving and loading (C107) *)
Lemma length_app (u v : string) : String.length (u +:+ v) = String.length u + String.length v.
Proof. induction u as [|c u IH]; [done|]. change (S (String.length (u +:+ v)) = S (String.length u + String.length v)). by rewrite IH. Qed.
Lemma app_cancel_r (c a b : string) : a +:+ c = b +:+ c -> a = b.
Proof.
  revert b. induction a as [|x a IH]; intros [|y b] E; [done| | |].
  - exfalso. apply (f_equal String.length) in E. rewrite !length_app in E. cbn in E. lia.
  - exfalso. apply (f_equal String.length) in E. rewrite !length_app in E. cbn in E. lia.
  - change (String x (a +:+ c) = String y (b +:+ c)) in E. injection E as -> E. f_equal. by apply IH.
Qed.
Lemma full_path_inj (path a b : string) : full_path path a = full_path path b -> a = b.
Proof. intros E. unfold full_path in E. apply (inj (String.append path)) in E. apply (inj (String.append "_")) in E. by apply app_cancel_r in E. Qed.

Section Saving.
  Context {A : Type} (zero : A).

  Lemma grid_data_id (g : grid A) (k : string) : wf g -> has_band g k = true -> grid_data zero g k = g.
  Proof using Type.
    intros Hwf Hk. apply bool_decide_eq_true in Hk. destruct Hk as [a Ha]. unfold grid_data. rewrite (the_band_wf zero g k a) by done. rewrite insert_id by done. by destruct g.
  Qed.
  Lemma array_ext (h w : nat) (a b : array A) : sized h w a -> sized h w b -> (forall x y, x < w -> y < h -> cell a y x = cell b y x) -> a = b.
  Proof using Type.
    intros Ha Hb H. pose proof Ha as (A1 & A2 & A3). pose proof Hb as (B1 & B2 & B3). destruct a as [ah aw ad], b as [bh bw bd]. cbn in A1, A2, A3, B1, B2, B3. subst ah aw bh bw. f_equal.
    apply list_eq. intros n. destruct (decide (n < h * w)) as [Hn|Hn]; [|by rewrite !lookup_ge_None_2 by lia].
    destruct (lin_split w h n Hn) as (x & y & Hx & Hy & ->). specialize (H x y Hx Hy).
    by rewrite !(cell_sized h w) in H by done.
  Qed.
  Lemma layers_spec (g : grid A) (k : string) : k ∈ layers g <-> has_band g k = true.
  Proof using Type.
    unfold layers, has_band. rewrite bool_decide_eq_true. rewrite elem_of_list_fmap. split.
    - intros ([k' a] & -> & H). apply elem_of_map_to_list in H. by eexists.
    - intros [a H]. exists (k, a). split; [done|]. by apply elem_of_map_to_list.
  Qed.

  (** [g] has the size, the scale and the type of [s] *)
  Definition alike (g s : grid A) : Prop :=
    g_w g = g_w s /\ g_h g = g_h s /\ g_sx g = g_sx s /\ g_sy g = g_sy s /\ g_ox g = g_ox s /\ g_oy g = g_oy s /\ g_type g = g_type s.
  (** [g] after bands [keys] of [s] have been read to [g0] *)
  Definition filled (s g0 : grid A) (keys : list string) (g : grid A) : Prop :=
    alike g s /\
    (forall k, g_bands g !! k = if bool_decide (k ∈ keys) then Some (the_band zero s k) else g_bands g0 !! k) /\
    (forall k, g_nodata g !! k = match (if bool_decide (k ∈ keys) then g_nodata s !! k else None) with Some v => Some v | None => g_nodata g0 !! k end).

  Lemma read_one (s g : grid A) (k : string) : g_w s <> 0 -> g_h s <> 0 -> alike g s ->
    exists g', read_band zero false false g k (write_band zero s k) = Ok g' /\ filled s g [k] g'.
  Proof using Type.
    intros Hw Hh Hal. pose proof Hal as (L1 & L2 & L3 & L4 & L5 & L6 & L7).
    destruct (read_band_ok zero false false g k (write_band zero s k)) as (a & E & Hs & Hc); [by cbn|congruence|congruence| |].
    { cbn [rb_data write_band]. rewrite L1, L2. apply (sized_resize zero (g_h s) (g_w s)). }
    assert (a = the_band zero s k) as ->.
    { apply (array_ext (g_h g) (g_w g)); [done|rewrite L1, L2; apply sized_resize|]. intros x y Hx Hy. specialize (Hc x y Hx Hy). cbn [flip] in Hc. rewrite Hc.
      cbn [rb_data write_band]. rewrite L1, L2 in *. rewrite (cell_sized (g_h s) (g_w s)); [done|apply sized_resize|done|done]. }
    eexists. split; [exact E|]. cbv zeta. cbn [rb_nodata write_band]. unfold get_nodata.
    split; [|split].
    - destruct (g_nodata s !! k); exact Hal.
    - intros k'. replace (g_bands _) with (<[k := the_band zero s k]> (g_bands g)) by (by destruct (g_nodata s !! k)).
      case_bool_decide as Hk; [apply elem_of_list_singleton in Hk as ->; by rewrite lookup_insert|].
      rewrite lookup_insert_ne; [done|]. intros ->. apply Hk. by left.
    - intros k'. destruct (g_nodata s !! k) as [v|] eqn:Ev; cbn [g_nodata set_nodata with_nodata with_bands].
      + case_bool_decide as Hk; [apply elem_of_list_singleton in Hk as ->; by rewrite Ev, lookup_insert|].
        rewrite lookup_insert_ne; [done|]. intros ->. apply Hk. by left.
      + case_bool_decide as Hk; [apply elem_of_list_singleton in Hk as ->; by rewrite Ev|done].
  Qed.
  Lemma filled_nil (s g : grid A) : alike g s -> filled s g [] g.
  Proof using Type. intros H. split; [done|]. split; intros k; rewrite bool_decide_eq_false_2 by (by apply not_elem_of_nil); done. Qed.
  Lemma filled_cons (s g0 g1 g2 : grid A) (k : string) (keys : list string) : filled s g0 [k] g1 -> filled s g1 keys g2 -> filled s g0 (k :: keys) g2.
  Proof using Type.
    intros (_ & B1 & N1) (L2 & B2 & N2). split; [done|].
    assert (D : forall k', bool_decide (k' ∈ k :: keys) = bool_decide (k' ∈ keys) || bool_decide (k' ∈ [k])).
    { intros k'. rewrite <- bool_decide_or. apply bool_decide_ext. rewrite elem_of_cons, elem_of_list_singleton. tauto. }
    split; intros k'; rewrite D.
    - rewrite B2. destruct (bool_decide (k' ∈ keys)); [done|]. apply B1.
    - rewrite N2, N1. destruct (bool_decide (k' ∈ keys)), (bool_decide (k' ∈ [k])); cbn [orb]; try done. by destruct (g_nodata s !! k').
  Qed.
  Lemma read_bands_ok (s : grid A) (r : raster A) (keys : list string) : forall (i : Z) (g : grid A),
    g_w s <> 0 -> g_h s <> 0 -> alike g s -> (1 <= i)%Z ->
    (forall n k, keys !! n = Some k -> r_bands r !! (Z.to_nat (i - 1) + n) = Some (write_band zero s k)) ->
    exists g', read_bands zero false false r keys i g = Ok g' /\ filled s g keys g'.
  Proof using Type.
    induction keys as [|k keys IH]; intros i g Hw Hh Hal Hi Hk; cbn [read_bands].
    - exists g. split; [done|]. by apply filled_nil.
    - rewrite decide_True by done. pose proof (Hk 0 k eq_refl) as H0. rewrite Nat.add_0_r in H0. rewrite H0.
      destruct (read_one s g k) as (g1 & E1 & F1); [done|done|done|]. rewrite E1. cbn [obind].
      destruct (IH (i + 1)%Z g1) as (g2 & E2 & F2); [done|done|apply F1|lia| |].
      { intros n k' Hn. rewrite <- (Hk (S n) k' Hn). f_equal. lia. }
      exists g2. split; [done|]. by apply (filled_cons s g g1).
  Qed.
  Lemma read_grid_ok (s : grid A) (gt : option geotransform) (keys : list string) (g : grid A) :
    g_w s <> 0 -> g_h s <> 0 -> g_sx s <> 0%Qc -> g_sy s <> 0%Qc -> alike g s ->
    exists g', read_grid zero (Raster (g_w s) (g_h s) gt (write_band zero s <$> keys)) keys 1 g = Ok g' /\ filled s g keys g'.
  Proof using Type.
    intros Hw Hh Hsx Hsy Hal. pose proof Hal as (L1 & L2 & L3 & L4 & L5 & L6 & L7). unfold read_grid. cbn [r_w r_h r_gt r_bands].
    rewrite decide_False by lia. cbn [g_sx g_sy]. rewrite decide_False by (rewrite L3, L4; tauto). rewrite fmap_length. rewrite decide_False by lia.
    destruct (read_bands_ok s (Raster (g_w s) (g_h s) gt (write_band zero s <$> keys)) keys 1
      (Grid (g_w s) (g_h s) (g_sx g) (g_sy g) (g_ox g) (g_oy g) (g_type g) (g_bands g) (g_nodata g))) as (g' & E & F); [done|done|repeat split; done|lia| |].
    { intros n k Hn. cbn [r_bands]. rewrite list_lookup_fmap. change (Z.to_nat (1 - 1) + n) with n. by rewrite Hn. }
    exists g'. split; [exact E|]. destruct F as (F1 & F2 & F3). split; [done|]. split; [exact F2|exact F3].
  Qed.

  Lemma write_files_ok (f : plane) (path : string) (g : grid A) (keys : list string) : forall dir,
    wf g -> g_w g <> 0 -> g_h g <> 0 -> (forall k, k ∈ keys -> has_band g k = true) ->
    exists dir', write_files zero f path g keys dir = Ok dir' /\
      (forall k, k ∈ keys -> dir' !! full_path path k = Some (Raster (g_w g) (g_h g) (Some (geo_of f g)) [write_band zero g k])) /\
      (forall p, (forall k, k ∈ keys -> p <> full_path path k) -> dir' !! p = dir !! p).
  Proof using Type.
    induction keys as [|k keys IH]; intros dir Hwf Hw Hh Hk; cbn [write_files].
    - exists dir. split; [done|]. split; [|done]. intros k Hk'. by apply elem_of_nil in Hk'.
    - unfold write_grid. rewrite decide_False by (intros [?|[?|?]]; done). cbn [obind foldl]. rewrite grid_data_id by (done || apply Hk; by left).
      destruct (IH (<[full_path path k := Raster (g_w g) (g_h g) (Some (geo_of f g)) (write_band zero g <$> [k])]> dir)) as (dir' & E & D1 & D2); [done|done|done| |].
      { intros k' Hk'. apply Hk. by right. }
      exists dir'. split; [exact E|]. split.
      + intros k' Hk'. destruct (decide (k' ∈ keys)) as [Hin|Hin]; [by apply D1|]. apply elem_of_cons in Hk'. destruct Hk' as [->|Hk']; [|done].
        rewrite D2; [by rewrite lookup_insert|]. intros k' Hk' Heq. apply full_path_inj in Heq as ->. done.
      + intros p Hp. rewrite D2 by (intros k' Hk'; apply Hp; by right). rewrite lookup_insert_ne; [done|]. intros <-. by apply (Hp k); [left|].
  Qed.
  Lemma load_files_ok (s : grid A) (gt : option geotransform) (path : string) (dir : gmap string (raster A)) (keys : list string) : forall g,
    g_w s <> 0 -> g_h s <> 0 -> g_sx s <> 0%Qc -> g_sy s <> 0%Qc -> alike g s ->
    (forall k, k ∈ keys -> dir !! full_path path k = Some (Raster (g_w s) (g_h s) gt [write_band zero s k])) ->
    exists g', load_files zero path keys dir g = Ok g' /\ filled s g keys g'.
  Proof using Type.
    induction keys as [|k keys IH]; intros g Hw Hh Hsx Hsy Hal Hk; cbn [load_files].
    - exists g. split; [done|]. by apply filled_nil.
    - rewrite Hk by (by left). destruct (read_grid_ok s gt [k] g) as (g1 & E1 & F1); [done|done|done|done|done|].
      change ([write_band zero s k]) with (write_band zero s <$> [k]). rewrite E1. cbn [obind].
      destruct (IH g1) as (g2 & E2 & F2); [done|done|done|done|apply F1| |]; [intros k' Hk'; apply Hk; by right|].
      exists g2. split; [done|]. by apply (filled_cons s g g1).
  Qed.
  Lemma filled_same (s g : grid A) : wf s -> filled s (of_header (header_of s) (g_type s)) (layers s) g ->
    alike g s /\ g_bands g = g_bands s /\ forall k, has_band s k = true -> get_nodata g k = get_nodata s k.
  Proof using Type.
    intros Hwf (F1 & F2 & F3). split; [done|]. split.
    - apply map_eq. intros k. rewrite F2. case_bool_decide as Hk.
      + apply layers_spec in Hk. apply bool_decide_eq_true in Hk. destruct Hk as [a Ha]. by rewrite (the_band_wf zero s k a), Ha.
      + cbn. rewrite lookup_empty. symmetry. destruct (g_bands s !! k) as [a|] eqn:E; [|done]. exfalso. apply Hk. apply layers_spec.
        apply bool_decide_eq_true_2. rewrite E. by eexists.
    - intros k Hk. unfold get_nodata. rewrite F3. rewrite bool_decide_eq_true_2 by (by apply layers_spec). destruct (g_nodata s !! k); [done|]. cbn. apply lookup_empty.
  Qed.

  (** C107: files *)
  Theorem C107_files (single : bool) (f : plane) (path : string) (g : grid A) (dir : gmap string (raster A)) :
    wf g -> g_w g <> 0 -> g_h g <> 0 -> g_sx g <> 0%Qc -> g_sy g <> 0%Qc -> (single = true -> g_bands g <> ∅) ->
    exists hd dir' g', save zero single f path g dir = Ok (hd, dir') /\ load zero single path hd (g_type g) dir' = Ok g' /\
      g_w g' = g_w g /\ g_h g' = g_h g /\ g_sx g' = g_sx g /\ g_sy g' = g_sy g /\ g_ox g' = g_ox g /\ g_oy g' = g_oy g /\
      (forall k, has_band g' k = has_band g k) /\ (forall k x y, get_raster g' k x y = get_raster g k x y) /\
      (forall k, has_band g k = true -> get_nodata g' k = get_nodata g k) /\
      (forall p, (forall k, k = "" \/ has_band g k = true -> p <> full_path path k) -> dir' !! p = dir !! p).
  Proof using Type.
    intros Hwf Hw Hh Hsx Hsy Hne.
    assert (Hend : forall g', filled g (of_header (header_of g) (g_type g)) (layers g) g' ->
      g_w g' = g_w g /\ g_h g' = g_h g /\ g_sx g' = g_sx g /\ g_sy g' = g_sy g /\ g_ox g' = g_ox g /\ g_oy g' = g_oy g /\
      (forall k, has_band g' k = has_band g k) /\ (forall k x y, get_raster g' k x y = get_raster g k x y) /\
      (forall k, has_band g k = true -> get_nodata g' k = get_nodata g k)).
    { intros g' Hf. apply filled_same in Hf; [|done]. destruct Hf as ((L1 & L2 & L3 & L4 & L5 & L6 & L7) & E & N). do 6 (split; [done|]).
      split; [intros k; unfold has_band; by rewrite E|]. split; [|done]. intros k x y. unfold get_raster. by rewrite E. }
    assert (Hal : alike (of_header (header_of g) (g_type g)) g) by (repeat split; done).
    destruct single.
    - assert (Hl : layers g <> []).
      { intros E. apply (Hne eq_refl). unfold layers in E. apply fmap_nil_inv in E. by apply map_to_list_empty_iff in E. }
      unfold save, write_grid. rewrite decide_False by (intros [?|[?|?]]; done). cbn [obind].
      destruct (read_grid_ok g (Some (geo_of f g)) (layers g) (of_header (header_of g) (g_type g))) as (g' & E & F); [done|done|done|done|done|].
      eexists _, _, g'. split; [reflexivity|]. split; [unfold load; rewrite lookup_insert; exact E|]. destruct (Hend g' F) as (E1 & E2 & E3 & E4 & E5 & E6 & E7 & E8 & E9).
      do 9 (split; [done|]). intros p Hp. rewrite lookup_insert_ne; [done|]. intros <-. by apply (Hp ""); [left|].
    - unfold save. destruct (write_files_ok f path g (layers g) dir) as (dir' & E & D1 & D2); [done|done|done|intros k; apply layers_spec|]. rewrite E. cbn [obind].
      destruct (load_files_ok g (Some (geo_of f g)) path dir' (layers g) (of_header (header_of g) (g_type g))) as (g' & E' & F); [done|done|done|done|done|done|].
      eexists _, _, g'. split; [reflexivity|]. split; [exact E'|]. destruct (Hend g' F) as (E1 & E2 & E3 & E4 & E5 & E6 & E7 & E8 & E9).
      do 9 (split; [done|]). intros p Hp. apply D2. intros k Hk. apply Hp. right. by apply layers_spec.
  Qed.

  Lemma save_streams_ok (path : string) (g : grid A) (keys : list string) : forall (st : gmap string (list A)),
    (forall k, k ∈ keys -> foldl (fun st k => <[full_path path k := write_stream zero g k]> st) st keys !! full_path path k = Some (write_stream zero g k)) /\
    (forall p, (forall k, k ∈ keys -> p <> full_path path k) -> foldl (fun st k => <[full_path path k := write_stream zero g k]> st) st keys !! p = st !! p).
  Proof using Type.
    induction keys as [|k keys IH]; intros st.
    - split; [|done]. intros k Hk. by apply elem_of_nil in Hk.
    - cbn [foldl]. destruct (IH (<[full_path path k := write_stream zero g k]> st)) as [H1 H2]. split.
      + intros k' Hk'. destruct (decide (k' ∈ keys)) as [Hin|Hin]; [by apply H1|]. apply elem_of_cons in Hk'. destruct Hk' as [->|Hk']; [|done].
        rewrite H2; [by rewrite lookup_insert|]. intros k' Hk' Heq. apply full_path_inj in Heq as ->. done.
      + intros p Hp. rewrite H2 by (intros k' Hk'; apply Hp; by right). rewrite lookup_insert_ne; [done|]. intros <-. by apply (Hp k); [left|].
  Qed.
  Lemma load_streams_ok (s : grid A) (path : string) (st : gmap string (list A)) (keys : list string) : forall g,
    alike g s -> (forall k, k ∈ keys -> st !! full_path path k = Some (write_stream zero s k)) ->
    exists g', load_streams zero path keys st g = Ok g' /\ alike g' s /\ g_nodata g' = g_nodata g /\
      (forall k, g_bands g' !! k = if bool_decide (k ∈ keys) then Some (the_band zero s k) else g_bands g !! k).
  Proof using Type.
    induction keys as [|k keys IH]; intros g Hal Hk; cbn [load_streams].
    - exists g. do 3 (split; [done|]). intros k. by rewrite bool_decide_eq_false_2 by (by apply not_elem_of_nil).
    - rewrite Hk by (by left). pose proof Hal as (L1 & L2 & _).
      assert (Hr : read_stream zero g k (write_stream zero s k) = with_bands g (<[k := the_band zero s k]> (g_bands g))).
      { unfold read_stream. cbv zeta. unfold write_stream.
        destruct (sized_resize zero (g_h s) (g_w s) (default (Arr 0 0 []) (g_bands s !! k))) as (_ & _ & Ls).
        destruct (sized_resize zero (g_h g) (g_w g) (default (Arr 0 0 []) (g_bands g !! k))) as (_ & _ & Lg).
        fold (the_band zero s k) in Ls. fold (the_band zero g k) in Lg.
        rewrite take_ge by (rewrite Ls, Lg, L1, L2; done). rewrite drop_ge by (rewrite Ls, Lg, L1, L2; done). rewrite app_nil_r, L1, L2. by destruct (the_band zero s k) eqn:E; injection E as <- <- <-. }
      rewrite Hr. destruct (IH (with_bands g (<[k := the_band zero s k]> (g_bands g)))) as (g' & E & F1 & F2 & F3); [done|intros k' Hk'; apply Hk; by right|].
      exists g'. split; [done|]. split; [done|]. split; [done|]. intros k'. rewrite F3. cbn [g_bands with_bands].
      destruct (decide (k' ∈ keys)) as [Hin|Hin].
      + rewrite !bool_decide_eq_true_2; [done|by right|done].
      + rewrite (bool_decide_eq_false_2 (k' ∈ keys)) by done. destruct (decide (k = k')) as [->|Hne].
        * rewrite lookup_insert, bool_decide_eq_true_2; [done|by left].
        * rewrite lookup_insert_ne by done. rewrite bool_decide_eq_false_2; [done|]. rewrite elem_of_cons. intros [?|?]; congruence.
  Qed.
  (** C107: streams of a message *)
  Theorem C107_streams (path : string) (g : grid A) (st : gmap string (list A)) (hd : header) (st' : gmap string (list A)) :
    wf g -> save_streams zero path g st = (hd, st') ->
    exists g', load_streams zero path (hd_layers hd) st' (of_header hd (g_type g)) = Ok g' /\
      g_w g' = g_w g /\ g_h g' = g_h g /\ g_sx g' = g_sx g /\ g_sy g' = g_sy g /\ g_ox g' = g_ox g /\ g_oy g' = g_oy g /\
      (forall k, has_band g' k = has_band g k) /\ (forall k x y, get_raster g' k x y = get_raster g k x y) /\
      (forall p, (forall k, has_band g k = true -> p <> full_path path k) -> st' !! p = st !! p).
  Proof using Type.
    intros Hwf E. unfold save_streams in E. injection E as <- <-. destruct (save_streams_ok path g (layers g) st) as [H1 H2].
    destruct (load_streams_ok g path (foldl (fun st k => <[full_path path k := write_stream zero g k]> st) st (layers g)) (layers g) (of_header (header_of g) (g_type g))) as (g' & E & L & _ & B); [repeat split; done|done|].
    assert (g_bands g' = g_bands g) as Eb.
    { apply map_eq. intros k. rewrite B. case_bool_decide as Hk.
      - apply layers_spec in Hk. apply bool_decide_eq_true in Hk. destruct Hk as [a Ha]. by rewrite (the_band_wf zero g k a), Ha.
      - cbn. rewrite lookup_empty. symmetry. destruct (g_bands g !! k) as [a|] eqn:Ek; [|done]. exfalso. apply Hk. apply layers_spec.
        apply bool_decide_eq_true_2. rewrite Ek. by eexists. }
    exists g'. split; [exact E|]. destruct L as (L1 & L2 & L3 & L4 & L5 & L6 & L7). do 6 (split; [done|]).
    split; [intros k; unfold has_band; by rewrite Eb|]. split; [intros k x y; unfold get_raster; by rewrite Eb|].
    intros p Hp. apply H2. intros k Hk. apply Hp. by apply layers_spec.
  Qed.
End Saving.

(** ** Examples and limits *)
Section Demo.
  Local Open Scope string_scope.
  Definition q (n : Z) : Qc := Q2Qc (inject_Z n).

  (** C105 *)
  Definition source : grid nat := Grid 2 1 1 1 0 0 0 {[ "a" := Arr 1 2 [7; 8] ]} {[ "a" := 8 ]}.
  Definition ops : list (op nat) := [OSet "e" 1 0 5; OCopy source "a" ""; OCreate "f"; ONoDataAll 9; OCopy source "b" "e"; OSet "a" 0 0 3].
  Example C105_nonvacuous : exists g, run 0 (new_grid 2 1 1 1 0 0 0) ops = Some g /\ Forall sources_ok ops /\ Forall (proper 2 1 0) ops /\
    get_raster g "a" 0 0 = Ok 3 /\ get_raster g "a" 1 0 = Ok 8 /\ get_raster g "e" 1 0 = Ok 5 /\ get_raster g "f" 1 0 = Ok 0 /\ get_nodata g "f" = Some 9.
  Proof.
    assert (H : match run 0 (new_grid 2 1 1 1 0 0 0) ops with
      | Some g => get_raster g "a" 0 0 = Ok 3 /\ get_raster g "a" 1 0 = Ok 8 /\ get_raster g "e" 1 0 = Ok 5 /\ get_raster g "f" 1 0 = Ok 0 /\ get_nodata g "f" = Some 9
      | None => False end) by (vm_compute; done).
    destruct (run 0 (new_grid 2 1 1 1 0 0 0) ops) as [g|]; [|done]. exists g. split; [done|]. assert (wf source) as Hs.
    { intros k a E. unfold source in E. cbn [g_bands] in E. apply lookup_singleton_Some in E. destruct E as [_ <-]. done. }
    split; [|split; [|exact H]]; clear H; unfold ops; (repeat (apply Forall_cons; split; [cbn; try done; try lia|])); by apply Forall_nil.
  Qed.
  (** a band without nodata value copied to a band with one: cells with this value count as missing *)
  Theorem C105_nodata_refuted : exists (g s g' : grid nat), copy_band 0 g s "a" "" = Ok g' /\ get_nodata s "a" = None /\
    get_raster s "a" 0 0 = Ok 9 /\ get_raster g' "a" 0 0 = Ok 9 /\ get_nodata g' "a" = Some 9.
  Proof.
    exists (set_nodata (create_band 0 (new_grid 1 1 1 1 0 0 0) "a") "a" 9), (Grid 1 1 1 1 0 0 0 {[ "a" := Arr 1 1 [9] ]} ∅).
    eexists. split; [vm_compute; reflexivity|]. done.
  Qed.
  (** a band of another size, or a cell outside of the grid *)
  Theorem C105_size_refuted : exists (g s : grid nat), wf g /\ wf s /\ g_type g = g_type s /\ copy_band 0 g s "a" "" = Bad Abort /\ set_raster 0 g "a" 1 0 5 = Bad UB.
  Proof.
    exists (new_grid 1 1 1 1 0 0 0), source. split; [apply wf_new|]. split; [|done].
    intros k a E. unfold source in E. cbn [g_bands] in E. apply lookup_singleton_Some in E. destruct E as [_ <-]. done.
  Qed.

  (** C106: a file with its lines from north to south *)
  Definition north_up : raster nat := Raster 2 2 (Some (GT (q 10) (q 1) 0 (q 20) 0 (- q 1)%Qc)) [RBand 3 [1; 2; 3; 4] (Some 4)].
  Example C106_nonvacuous : exists g o, read_from_gdal 0 north_up "e" 1 = Ok (g, o) /\ o = (q 10, q 18) /\
    get_raster g "e" 0 0 = Ok 3 /\ get_raster g "e" 1 0 = Ok 4 /\ get_raster g "e" 0 1 = Ok 1 /\ get_raster g "e" 1 1 = Ok 2 /\ get_nodata g "e" = Some 4.
  Proof.
    assert (H : match read_from_gdal 0 north_up "e" 1 with
      | Ok (g, o) => (this o.1 = inject_Z 10 /\ this o.2 = inject_Z 18) /\
        get_raster g "e" 0 0 = Ok 3 /\ get_raster g "e" 1 0 = Ok 4 /\ get_raster g "e" 0 1 = Ok 1 /\ get_raster g "e" 1 1 = Ok 2 /\ get_nodata g "e" = Some 4
      | _ => False end) by (vm_compute; done).
    destruct (read_from_gdal 0 north_up "e" 1) as [[g [o1 o2]]| | |]; [|done ..]. destruct H as ((H1 & H2) & H). cbn in H1, H2.
    exists g, (o1, o2). split; [done|]. split; [|exact H]. f_equal; apply Qc_is_canon; by rewrite ?H1, ?H2.
  Qed.
  (** the tolerance for turned axes is per line: the last line of a long file is far away *)
  Definition lines : list nat := seq 0 1000.
  Definition sheared : raster nat := Raster 1 1000 (Some (GT 0 (q 1) (Q2Qc (1 # 100)) 0 0 (q 1))) [RBand 3 lines None].
  Theorem C106_sheared_refuted : exists g o, read_from_gdal 0 sheared "e" 1 = Ok (g, o) /\ get_raster g "e" 0 999 = Ok 999 /\ lines !! 999 = Some 999 /\
    (q 9 * g_sx g < (pixel (GT 0 (q 1) (Q2Qc (1 # 100)) 0 0 (q 1)) 0 999).1 - (centre g o 0 999).1)%Qc.
  Proof.
    assert (H : match read_from_gdal 0 sheared "e" 1 with
      | Ok (g, o) => get_raster g "e" 0 999 = Ok 999 /\ lines !! 999 = Some 999 /\
        (q 9 * g_sx g < (pixel (GT 0 (q 1) (Q2Qc (1 # 100)) 0 0 (q 1)) 0 999).1 - (centre g o 0 999).1)%Qc
      | _ => False end) by (vm_compute; done).
    destruct (read_from_gdal 0 sheared "e" 1) as [[g o]| | |]; [|done ..]. exists g, o. split; [done|exact H].
  Qed.
  (** the direction of the axes is ignored for a grid which knows its scale *)
  Theorem C106_scale_refuted : exists (g1 g2 : grid nat) o, read_from_gdal 0 north_up "e" 1 = Ok (g1, o) /\
    read_grid 0 north_up ["e"] 1 (new_grid 2 2 (g_sx g1) (g_sy g1) 0 0 3) = Ok g2 /\ get_raster g1 "e" 0 0 = Ok 3 /\ get_raster g2 "e" 0 0 = Ok 1.
  Proof.
    assert (H : match read_from_gdal 0 north_up "e" 1 with
      | Ok (g1, o) => match read_grid 0 north_up ["e"] 1 (new_grid 2 2 (g_sx g1) (g_sy g1) 0 0 3) with
                      | Ok g2 => get_raster g1 "e" 0 0 = Ok 3 /\ get_raster g2 "e" 0 0 = Ok 1 | _ => False end
      | _ => False end) by (vm_compute; done).
    destruct (read_from_gdal 0 north_up "e" 1) as [[g1 o]| | |]; [|done ..].
    destruct (read_grid 0 north_up ["e"] 1 (new_grid 2 2 (g_sx g1) (g_sy g1) 0 0 3)) as [g2| | |] eqn:E; [|done ..]. exists g1, g2, o. split; [done|]. split; [done|]. exact H.
  Qed.

  (** C107 *)
  Definition saved : grid nat := Grid 2 1 (q 1) (q 1) 0 0 3 {[ "b_c" := Arr 1 2 [1; 2]; "r" := Arr 1 2 [5; 6] ]} {[ "r" := 6 ]}.
  Lemma saved_wf : wf saved.
  Proof.
    intros k a E. unfold saved in E. cbn [g_bands] in E. apply lookup_insert_Some in E. destruct E as [[_ <-]|[_ E]]; [done|].
    apply lookup_singleton_Some in E. destruct E as [_ <-]. done.
  Qed.
  Lemma q1 : q 1 <> 0%Qc. Proof. done. Qed.
  Example C107_nonvacuous : wf saved /\ g_w saved <> 0 /\ g_h saved <> 0 /\ g_sx saved <> 0%Qc /\ g_sy saved <> 0%Qc /\ g_bands saved <> ∅ /\
    match save 0 true no_frame "/m/G_a" saved ∅ with
    | Ok (hd, dir) => match load 0 true "/m/G_a" hd 3 dir with Ok g => get_raster g "r" 1 0 = Ok 6 /\ get_nodata g "r" = Some 6 | _ => False end
    | _ => False end.
  Proof. split; [apply saved_wf|]. do 2 (split; [done|]). do 2 (split; [exact q1|]). split; [done|]. vm_compute. done. Qed.
  (** nodata values do not survive a message *)
  Theorem C107_nodata_refuted : exists (g : grid nat) hd st g', wf g /\ save_streams 0 "G_a" g ∅ = (hd, st) /\
    load_streams 0 "G_a" (hd_layers hd) st (of_header hd (g_type g)) = Ok g' /\ has_band g' "r" = true /\ get_nodata g "r" = Some 6 /\ get_nodata g' "r" = None.
  Proof. exists saved. eexists _, _, _. split; [apply saved_wf|]. split; [reflexivity|]. split; [vm_compute; reflexivity|]. done. Qed.
  (** the files of two grids can have the same name *)
  Definition other : grid nat := Grid 2 1 (q 1) (q 1) 0 0 3 {[ "c" := Arr 1 2 [8; 9] ]} ∅.
  Theorem C107_clash_refuted : exists id id' hd hd' dir dir' (g : grid nat), id <> id' /\ wf saved /\ wf other /\
    save 0 false no_frame (map_file_name "envire::Grid_d" id) saved ∅ = Ok (hd, dir) /\
    save 0 false no_frame (map_file_name "envire::Grid_d" id') other dir = Ok (hd', dir') /\
    load 0 false (map_file_name "envire::Grid_d" id) hd 3 dir' = Ok g /\
    get_raster saved "b_c" 0 0 = Ok 1 /\ get_raster g "b_c" 0 0 = Ok 8.
  Proof.
    exists "/a", "/a_b". eexists _, _, _, _, _. split; [done|]. split; [apply saved_wf|]. split.
    { intros k a E. unfold other in E. cbn [g_bands] in E. apply lookup_singleton_Some in E. destruct E as [_ <-]. done. }
    split; [vm_compute; reflexivity|]. split; [vm_compute; reflexivity|]. split; [vm_compute; reflexivity|]. done.
  Qed.
  (** a grid without cells cannot be saved *)
  Theorem C107_empty_refuted : exists g : grid nat, wf g /\ save 0 false no_frame "/m/G_a" g ∅ = Throw tt.
  Proof. exists (create_band 0 (new_grid 0 0 (q 1) (q 1) 0 0 3) "r"). split; [apply wf_grid_data, wf_new|]. vm_compute. done. Qed.
End Demo.
