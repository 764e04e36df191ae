(** Importing scans and point clouds from files (C146): LaserScan::importScanFile, src/maps/LaserScan.cpp:73-109, and Pointcloud::importCsv, src/maps/Pointcloud.cpp:113-130.

    Reading the text is in Scan.v and CloudText.v; here only its outcome matters. The new objects are created at the addresses that are given. *)
From stdpp Require Import prelude strings gmap pretty relations.
From Verif Require Import Base AssocLemmas EnvModel EnvSpec EnvLib EnvGood EnvAttach EnvLinks EnvLinks2 EnvDetach EnvDeep EnvHandlers EnvWorld EnvStep EnvStep2 EnvStep3 EnvDemo EnvProps EnvProps2 EnvProps3 EnvEffects.

(** ** Model *)
(** a file: it cannot be opened, reading it throws, or it holds the content [v] of a map and a transform [t] *)
Inductive file := Unreadable | Unparsable | Content (v t : Z).
(** LaserScan.cpp:73-109 *)
Definition import_scan (f : file) (node scan fm : ptr) (w : world) : W :=
  match w_heap w !! node with
  | None => Bad UB
  | Some it =>
    match it_env it with
    | None => Throw w (* 75-76 *)
    | Some e =>
      match f with
      | Unreadable => w1 <~ step w (ONew scan KMap "" 0) ;; Throw w1 (* 79-87 *)
      | Unparsable => Throw w (* 92-96: the new scan is deleted again *)
      | Content v t =>
        w1 <~ step w (ONew scan KMap "" v) ;; (* 79, 90 *)
        w2 <~ step w1 (OAttach e scan) ;; (* 100 *)
        w3 <~ step w2 (ONew fm KFrame "" 0) ;; (* 102 *)
        w4 <~ step w3 (OAddChildF e node fm) ;; (* 103 *)
        w5 <~ step w4 (OSetFrame e scan fm) ;; (* 104 *)
        step w5 (OSetVal fm t) (* 106 *)
      end
    end
  end.
(** Pointcloud.cpp:113-130; readText does not throw *)
Definition import_cloud (f : file) (node pc : ptr) (w : world) : W :=
  match f with
  | Unreadable | Unparsable => Throw w (* 116-119 *)
  | Content v _ =>
    w1 <~ step w (ONew pc KMap "" v) ;; (* 120-121 *)
    match w_heap w !! node with
    | Some it => match it_env it with
                 | Some e => w2 <~ step w1 (OAttach e pc) ;; step w2 (OSetFrame e pc node) (* 124-126 *)
                 | None => Bad UB
                 end
    | None => Bad UB
    end
  end.

(** ** Proofs *)
Lemma attach_links w e p it w' : reachable w -> w_heap w !! p = Some it -> it_env it = None -> step w (OAttach e p) = Ok w' ->
  exists x x' id, w_envs w !! e = Some x /\ w_envs w' = <[e := x']> (w_envs w) /\ w_heap w' = <[p := attached_as it e id]> (w_heap w) /\
    e_tree x' = e_tree x /\ e_layers x' = e_layers x /\ e_in x' = e_in x /\ e_out x' = e_out x /\ e_maps x' = e_maps x.
Proof.
  intros HW Hp He Hs. cbn [step] in Hs. unfold attach_item, wderef in Hs. rewrite Hp, He in Hs. apply on_env_ok in Hs as (x&s'&Hx&Hs&->).
  destruct (reach_parts _ _ _ HW Hx) as (I&_&_). pose proof (attach_core_wp True 0 e p _ it I Hp (or_introl He) (or_introl Logic.I)) as Hwp. rewrite Hs in Hwp.
  destruct Hwp as (_&(_&id'&l'&_&_&Hh&Hen&_)&_). cbn [hp en] in Hh, Hen. exists x, (en s'), id'. cbn [unfocus w_envs w_heap]. rewrite Hen. by repeat split.
Qed.
Lemma fresh_not_root w p : reachable w -> unattached w p -> ~ is_root w p.
Proof.
  intros HW (it&Hp&He) (e&x&Hx&Hr). destruct (reach_parts _ _ _ HW Hx) as (_&((ir&Hi&Hei&_)&_)&_). cbn [hp en] in Hi. rewrite Hr, Hp in Hi. injection Hi as <-. congruence.
Qed.
Lemma new_ok w p k id v w' : step w (ONew p k id v) = Ok w' -> w_heap w !! p = None /\ w_heap w' = <[p := Item k id None v 0 0]> (w_heap w) /\ w_envs w' = w_envs w.
Proof. cbn [step]. unfold new_item. destruct (w_heap w !! p); [done|]. by intros [= <-]. Qed.
Lemma bind_ok {A B} (m : out A A) (k : A -> out A B) b : obind m k = Ok b -> exists a, m = Ok a /\ k a = Ok b.
Proof. destruct m; [|done..]. intros H. by eexists. Qed.
(** the items of [e] are still there, with class, id and content *)
Definition kept (e : eid) (w w' : world) : Prop := forall q it, w_heap w !! q = Some it -> it_env it = Some e ->
  exists it', w_heap w' !! q = Some it' /\ it_env it' = Some e /\ it_id it' = it_id it /\ it_kind it' = it_kind it /\ it_val it' = it_val it.
Lemma kept_trans e w1 w2 w3 : kept e w1 w2 -> kept e w2 w3 -> kept e w1 w3.
Proof. intros H1 H2 q it Hq He. destruct (H1 q it Hq He) as (i2&Hi2&He2&?&?&?). destruct (H2 q i2 Hi2 He2) as (i3&Hi3&He3&?&?&?). exists i3. by repeat split; try congruence. Qed.
Lemma kept_fresh e w w' p it : unattached w p \/ w_heap w !! p = None -> w_heap w' = <[p := it]> (w_heap w) -> kept e w w'.
Proof.
  intros Hp Hh q i Hq He. rewrite Hh. destruct (decide (q = p)) as [->|Hne]; [|exists i; by rewrite lookup_insert_ne].
  destruct Hp as [(i'&Hi'&He')|Hp]; [|congruence]. rewrite Hq in Hi'. injection Hi' as <-. congruence.
Qed.
Lemma good_kept e w x s' : Good false e (St (w_heap w) x (w_tr w)) s' -> kept e w (unfocus e w s').
Proof.
  intros HG q it Hq He. destruct (g_ids _ _ _ _ HG q it Hq He) as (it'&Hq'&He'&Hid). exists it'. cbn [unfocus w_heap]. destruct (g_old _ _ _ _ HG q it' Hq') as (i&Hi&?&?&_). cbn [hp] in Hi.
  rewrite Hq in Hi. injection Hi as <-. done.
Qed.
(** the new values of an item that was not attached before *)
Lemma add_child_kept w e p c w' : reachable w -> legal w (OAddChildF e p c) -> step w (OAddChildF e p c) = Ok w' -> kept e w w' /\ forall it, w_heap w !! c = Some it -> exists it', w_heap w' !! c = Some it' /\ it_kind it' = it_kind it.
Proof.
  intros HW (La&Lb&Lr&Lc) Hs. cbn [step] in Hs.
  apply typed_ok in Hs as (ip&Hp&Kp&Hs). apply typed_ok in Hs as (ic&Hc&Kc&Hs). apply on_env_ok in Hs as (x&s'&Hx&Hs&->).
  destruct (reach_parts _ _ _ HW Hx) as (I&R&A).
  assert (Hpc : p <> c). { intros ->. apply (Lc x Hx). constructor. }
  pose proof (add_child_f_wp True 0 e p c _ ic I (in_env_has _ _ _ _ _ La Hp Kp) Hc Kc (free_or_at _ _ _ _ Lb Hc) Hpc (or_introl Logic.I)) as Hwp.
  rewrite Hs in Hwp. destruct Hwp as (HG&(i&Hi&Hie&_)&_). split; [by eapply good_kept|]. intros it Hit. exists i. cbn [unfocus w_heap]. split; [done|].
  destruct (g_old _ _ _ _ HG c i Hi) as (i0&Hi0&Hk&_). cbn [hp] in Hi0. congruence.
Qed.
Lemma set_frame_kept w e m n w' : reachable w -> legal w (OSetFrame e m n) -> step w (OSetFrame e m n) = Ok w' -> kept e w w'.
Proof.
  intros HW (La&Lb) Hs. cbn [step] in Hs.
  apply typed_ok in Hs as (ip&Hp&Kp&Hs). apply typed_ok in Hs as (ic&Hc&Kc&Hs). apply on_env_ok in Hs as (x&s'&Hx&Hs&->).
  destruct (reach_parts _ _ _ HW Hx) as (I&R&A).
  pose proof (set_frame_wp True 0 e m n _ ip ic I Hp Kp Hc Kc (free_or_at _ _ _ _ La Hp) (free_or_at _ _ _ _ Lb Hc) (proj1 R) (or_introl Logic.I)) as Hwp.
  rewrite Hs in Hwp. destruct Hwp as (HG&_).
  { intros Hn. eapply no_frame_free; [by apply reachable_inv|done..]. } by eapply good_kept.
Qed.
(** An imported scan is a new map with the content of the file, on a new frame with the transform of the file below the given one. All other items and links stay as they were. *)
Theorem C146_scan w w' e node scan fm v t : reachable w -> in_env w e node -> import_scan (Content v t) node scan fm w = Ok w' ->
  reachable w' /\ w_heap w !! scan = None /\ w_heap w !! fm = None /\ scan <> fm /\
  (exists i, w_heap w' !! scan = Some i /\ it_env i = Some e /\ it_kind i = KMap /\ it_val i = v) /\ (exists i, w_heap w' !! fm = Some i /\ it_env i = Some e /\ it_kind i = KFrame /\ it_val i = t) /\
  kept e w w' /\
  exists x x', w_envs w !! e = Some x /\ w_envs w' = <[e := x']> (w_envs w) /\
    get_frame x' scan = Some fm /\ get_parent x' fm = Some node /\
    (forall k, k <> scan -> get_frame x' k = get_frame x k) /\ (forall k, k <> fm -> get_parent x' k = get_parent x k) /\
    e_layers x' = e_layers x /\ e_in x' = e_in x /\ e_out x' = e_out x.
Proof.
  intros HW (inode&Hnode&Hne) H. unfold import_scan in H. rewrite Hnode, Hne in H.
  apply bind_ok in H as (w1&S1&H). apply bind_ok in H as (w2&S2&H). apply bind_ok in H as (w3&S3&H). apply bind_ok in H as (w4&S4&H). apply bind_ok in H as (w5&S5&S6).
  pose proof (new_ok _ _ _ _ _ _ S1) as (F1&H1&E1). assert (R1 : reachable w1) by (eapply reachable_step; [exact HW| |left; exact S1]; done).
  assert (P1 : w_heap w1 !! scan = Some (Item KMap "" None v 0 0)) by (by rewrite H1, lookup_insert).
  assert (R2 : reachable w2). { eapply reachable_step; [exact R1| |left; exact S2]. right. apply fresh_not_root; [done|]. by eexists. }
  destruct (attach_links _ _ _ _ _ R1 P1 eq_refl S2) as (x&x2&id&Hx&E2&H2&T2&L2&I2&O2&M2). rewrite E1 in Hx, E2.
  assert (K1 : kept e w w1) by (eapply kept_fresh; [by right|exact H1]). assert (K2 : kept e w1 w2) by (eapply kept_fresh; [left; by eexists|exact H2]).
  pose proof (new_ok _ _ _ _ _ _ S3) as (F3&H3&E3). assert (R3 : reachable w3) by (eapply reachable_step; [exact R2| |left; exact S3]; done).
  assert (K3 : kept e w2 w3) by (eapply kept_fresh; [by right|exact H3]).
  assert (Hsf : scan <> fm). { intros <-. rewrite H2, lookup_insert in F3. done. }
  assert (Ff : w_heap w !! fm = None). { rewrite H2, lookup_insert_ne, H1, lookup_insert_ne in F3 by done. done. }
  assert (P3 : w_heap w3 !! fm = Some (Item KFrame "" None 0 0 0)) by (by rewrite H3, lookup_insert).
  assert (Q3 : in_env w3 e node). { destruct (kept_trans _ _ _ _ K1 (kept_trans _ _ _ _ K2 K3) node inode Hnode Hne) as (i&Hi&He&_). by exists i. }
  assert (U3 : unattached w3 fm) by (by eexists).
  assert (X3 : w_envs w3 !! e = Some x2) by (by rewrite E3, E2, lookup_insert).
  assert (G4 : legal w3 (OAddChildF e node fm)).
  { split; [done|]. split; [by right|]. split; [by apply fresh_not_root|]. intros y Hy Hr. rewrite X3 in Hy. injection Hy as <-. destruct (reach_parts _ _ _ R3 X3) as (I&_&_).
    apply rtc_inv_r in Hr as [<-|(z&_&Hz)]; [destruct Q3 as (i&Hi&He); rewrite P3 in Hi; injection Hi as <-; done|].
    apply (inv_tree _ _ I) in Hz as (_&(i&Hi&He&_)&_). cbn [hp] in Hi. rewrite P3 in Hi. injection Hi as <-. done. }
  assert (R4 : reachable w4) by (eapply reachable_step; [exact R3|exact G4|by left]).
  destruct (C08_add_child _ _ _ _ _ R3 G4 S4) as (y&x4&Hy&E4&A1&A2&A3&A4&A5&A6&A7). rewrite X3 in Hy. injection Hy as <-.
  destruct (add_child_kept _ _ _ _ _ R3 G4 S4) as (K4&KK4).
  assert (Q4 : exists i, w_heap w4 !! scan = Some i /\ it_env i = Some e /\ it_id i = id /\ it_kind i = KMap /\ it_val i = v).
  { apply (kept_trans _ _ _ _ K3 K4 scan (attached_as (Item KMap "" None v 0 0) e id)); [by rewrite H2, lookup_insert|done]. }
  destruct Q4 as (i4&Hi4&He4&_&Hk4&Hv4).
  assert (G5 : legal w4 (OSetFrame e scan fm)) by (split; left; [by exists i4|done]).
  assert (R5 : reachable w5) by (eapply reachable_step; [exact R4|exact G5|by left]).
  destruct (C08_set_frame _ _ _ _ _ R4 G5 S5) as (y&x5&Hy&E5&B1&B2&B3&B4&B5&B6&B7&B8). rewrite E4, lookup_insert in Hy. injection Hy as <-.
  pose proof (set_frame_kept _ _ _ _ _ R4 G5 S5) as K5.
  destruct (KK4 _ P3) as (i4f&Hi4f&Hk4f). destruct A7 as (i4f'&Hi4f'&He4f). rewrite Hi4f in Hi4f'. injection Hi4f' as <-.
  destruct (K5 fm i4f Hi4f He4f) as (i5f&Hi5f&He5f&Hid5f&Hk5f&_). destruct (K5 scan i4 Hi4 He4) as (i5&Hi5&He5&_&Hk5&Hv5).
  destruct (C67_set_content w5 fm i5f t R5 Hi5f) as (w6&S6'&E6&H6). rewrite S6 in S6'. injection S6' as <-.
  assert (R6 : reachable w') by (eapply reachable_step; [exact R5| |left; exact S6]; done).
  split; [done|]. split; [done|]. split; [done|]. split; [done|].
  split; [exists i5; rewrite H6, lookup_insert_ne by done; repeat split; congruence|]. split; [eexists; rewrite H6, lookup_insert; split; [reflexivity|]; cbn [it_env it_kind it_val]; repeat split; try done; rewrite Hk5f, Hk4f; done|]. split.
  { intros q it Hq Hqe. destruct (kept_trans _ _ _ _ K1 (kept_trans _ _ _ _ K2 (kept_trans _ _ _ _ K3 (kept_trans _ _ _ _ K4 K5))) q it Hq Hqe) as (i&Hi&Hrest). exists i. rewrite H6, lookup_insert_ne; [done|congruence]. }
  exists x, x5. split; [done|]. split; [by rewrite E6, E5, E4, E3, E2, !insert_insert|]. split; [done|]. unfold get_parent, get_frame in *. rewrite B6. split; [done|].
  split; [intros k Hk; by rewrite B2, A6, M2|]. split; [intros k Hk; by rewrite A2, T2|]. split; [by rewrite B3, A3, L2|]. split; [by rewrite B4, A4, I2|by rewrite B5, A5, O2].
Qed.
(** An imported point cloud is a new map with the content of the file on the given frame. *)
Theorem C146_cloud w w' e node pc v t : reachable w -> in_env w e node -> import_cloud (Content v t) node pc w = Ok w' ->
  reachable w' /\ w_heap w !! pc = None /\ (exists i, w_heap w' !! pc = Some i /\ it_env i = Some e /\ it_kind i = KMap /\ it_val i = v) /\ kept e w w' /\
  exists x x', w_envs w !! e = Some x /\ w_envs w' = <[e := x']> (w_envs w) /\ get_frame x' pc = Some node /\
    (forall k, k <> pc -> get_frame x' k = get_frame x k) /\ e_tree x' = e_tree x /\ e_layers x' = e_layers x /\ e_in x' = e_in x /\ e_out x' = e_out x.
Proof.
  intros HW (inode&Hnode&Hne) H. unfold import_cloud in H. rewrite Hnode, Hne in H.
  apply bind_ok in H as (w1&S1&H). apply bind_ok in H as (w2&S2&S3).
  pose proof (new_ok _ _ _ _ _ _ S1) as (F1&H1&E1). assert (R1 : reachable w1) by (eapply reachable_step; [exact HW| |left; exact S1]; done).
  assert (P1 : w_heap w1 !! pc = Some (Item KMap "" None v 0 0)) by (by rewrite H1, lookup_insert).
  assert (R2 : reachable w2). { eapply reachable_step; [exact R1| |left; exact S2]. right. apply fresh_not_root; [done|]. by eexists. }
  destruct (attach_links _ _ _ _ _ R1 P1 eq_refl S2) as (x&x2&id&Hx&E2&H2&T2&L2&I2&O2&M2). rewrite E1 in Hx, E2.
  assert (K1 : kept e w w1) by (eapply kept_fresh; [by right|exact H1]). assert (K2 : kept e w1 w2) by (eapply kept_fresh; [left; by eexists|exact H2]).
  assert (P2 : w_heap w2 !! pc = Some (attached_as (Item KMap "" None v 0 0) e id)) by (by rewrite H2, lookup_insert).
  destruct (kept_trans _ _ _ _ K1 K2 node inode Hnode Hne) as (i2&Hi2&He2&_).
  assert (G3 : legal w2 (OSetFrame e pc node)) by (split; left; [by eexists|by exists i2]).
  assert (R3 : reachable w') by (eapply reachable_step; [exact R2|exact G3|by left]).
  destruct (C08_set_frame _ _ _ _ _ R2 G3 S3) as (y&x5&Hy&E5&B1&B2&B3&B4&B5&B6&B7&B8). rewrite E2, lookup_insert in Hy. injection Hy as <-.
  pose proof (set_frame_kept _ _ _ _ _ R2 G3 S3) as K3. destruct (K3 pc _ P2 eq_refl) as (i&Hi&He&_&Hk&Hv).
  split; [done|]. split; [done|]. split; [by exists i|]. split; [by eapply kept_trans; [|eapply kept_trans]|].
  exists x, x5. split; [done|]. split; [by rewrite E5, E2, insert_insert|]. split; [done|]. split; [intros k Hk'; unfold get_frame in *; by rewrite B2, M2|]. split; [by rewrite B6, T2|]. split; [by rewrite B3, L2|]. split; [by rewrite B4, I2|by rewrite B5, O2].
Qed.
(** A failed import changes nothing: a scan that cannot be parsed or goes to a frame without environment, and a point cloud that cannot be read. *)
Theorem C146_failed w node scan fm pc f : (forall e, in_env w e node -> import_scan Unparsable node scan fm w = Throw w) /\ (unattached w node -> import_scan f node scan fm w = Throw w) /\ import_cloud Unreadable node pc w = Throw w.
Proof.
  split; [|split; [|done]].
  - intros e (it&Hit&He). unfold import_scan. by rewrite Hit, He.
  - intros (it&Hit&He). unfold import_scan. by rewrite Hit, He.
Qed.
(** A scan file that cannot be opened leaves an item behind that nobody holds (finding), and importing a point cloud to a frame without environment is undefined (finding). *)
Theorem C146_leak_refuted w e node scan fm : in_env w e node -> w_heap w !! scan = None -> exists w' it, import_scan Unreadable node scan fm w = Throw w' /\ w_heap w' !! scan = Some it /\ it_env it = None /\ it_refs it = 0.
Proof. intros (it&Hit&He) Hs. unfold import_scan. rewrite Hit, He. cbn [step]. unfold new_item. rewrite Hs. cbn [obind]. eexists _, _. split; [reflexivity|]. cbn [w_heap]. by rewrite lookup_insert. Qed.
Theorem C146_free_refuted w node pc v t : unattached w node -> w_heap w !! pc = None -> import_cloud (Content v t) node pc w = Bad UB.
Proof. intros (it&Hit&He) Hs. unfold import_cloud. cbn [step]. unfold new_item. rewrite Hs. cbn [obind]. by rewrite Hit, He. Qed.
Example C146_nonvacuous : reachable demo_world /\ in_env demo_world 1 12 /\
  match import_scan (Content 5 6) 12 40 41 demo_world with Ok w' => bool_decide (in_env w' 1 40 /\ in_env w' 1 41 /\ it_val <$> w_heap w' !! 41%positive = Some 6%Z /\ (fun x => get_frame x 40) <$> w_envs w' !! 1%positive = Some (Some 41%positive)) | _ => false end = true /\
  match import_cloud (Content 5 6) 12 40 demo_world with Ok w' => bool_decide (in_env w' 1 40 /\ (fun x => get_frame x 40) <$> w_envs w' !! 1%positive = Some (Some 12%positive)) | _ => false end = true.
Proof. split; [apply demo_reachable|]. split; [vmdec|]. split; vmtrue. Qed.
