(** Assessment of scan matching: histograms of distances.  C123.
    icp/stability.hpp, icp/stability.cpp

    Numbers are rational. *)
From stdpp Require Import prelude.
From Coq Require Import Sorting.Sorted QArith Qround Qabs.
From Coq Require Import Lqa.
From Verif Require Import Base.
Local Open Scope nat_scope.

(** ** Model *)
Definition qlt (x y : Q) : bool := if Qlt_le_dec x y then true else false.
Section histogram.
  (** icpConfigurationTypes.hpp:121-136; the number of bins is a floating point number *)
  Context (number_bins area mean sigma : Q).
  (** stability.cpp:324 *)
  Definition bin_size : Q := (area / number_bins)%Q.
  (** stability.cpp:346, the lower limit of a bin *)
  Definition lower_limit (k : nat) : Q := ((- number_bins / 2 + inject_Z (Z.of_nat k)) * bin_size)%Q.
  (** stability.cpp:335-355; there are no distances: [front] is undefined *)
  Definition limits (xs : list Q) : option (list Q) :=
    match head xs, last xs with
    | Some front, Some back =>
      let n := Z.to_nat (Qfloor number_bins) in
      let outlier := ((- number_bins / 2) * bin_size)%Q in
      Some ((if qlt front outlier then (outlier + front)%Q else (outlier - bin_size)%Q) :: (lower_limit <$> seq 0 (S n)) ++
        [if qlt (lower_limit n) back then (lower_limit n + back)%Q else (lower_limit n + bin_size)%Q])
    | _, _ => None
    end.
  (** stability.cpp:380, 389 *)
  Definition width_at (ls : list Q) (bin : nat) : option Q := match ls !! (bin - 1), ls !! bin with Some a, Some b => Some (Qabs (a - b)) | _, _ => None end.
  (** stability.cpp:389-401: the bin that was being filled, and zeros for the rest; [bin] is at most the number of bins plus one, so that the zeros are as many as is written here *)
  Definition finish (ls : list Q) (total bin number : nat) (h : list Q) : out unit (list Q) :=
    match width_at ls bin with
    | Some w => Ok (h ++ [(inject_Z (Z.of_nat number) / (inject_Z (Z.of_nat total) * w))%Q] ++ replicate (Z.to_nat (Qfloor number_bins + 2 - Z.of_nat bin)) 0%Q)
    | None => Bad UB
    end.
  (** stability.cpp:361-387 *)
  Fixpoint fill (fuel : nat) (ls : list Q) (total : nat) (xs : list Q) (bin number : nat) (h : list Q) : out unit (list Q) :=
    match fuel with
    | O => NoFuel
    | S fuel =>
      match xs with
      | [] => finish ls total bin number h
      | x :: xs' =>
        match ls !! bin with
        | None => Bad UB
        | Some l =>
          if qlt x l then fill fuel ls total xs' bin (S number) h
          else
            let h := h ++ [(inject_Z (Z.of_nat number) / (inject_Z (Z.of_nat total) * area))%Q] in
            if Qeq_bool (inject_Z (Z.of_nat (S bin))) (number_bins + 2) then
              match width_at ls (S bin) with
              | Some w => Ok (h ++ [(inject_Z (Z.of_nat (length xs)) / (inject_Z (Z.of_nat total) * w))%Q])
              | None => Bad UB
              end
            else fill fuel ls total xs (S bin) 0 h
        end
      end
    end.
  (** stability.cpp:308-403, calculateNormalizedHistogram *)
  Definition histogram (distances : list Q) : out unit (list Q) :=
    let xs := (fun d => ((d - mean) / sigma)%Q) <$> distances in
    match limits xs with
    | None => Bad UB
    | Some ls => fill (length xs + length ls + 1) ls (length xs) xs 1 0 []
    end.
  (** stability.cpp:277-294, calcSVMValue; [at] throws *)
  Definition svm (h : list Q) : out unit Q :=
    match h !! 2, h !! 3, h !! 4, h !! 5, h !! 6, h !! 7, h !! 8 with
    | Some h2, Some h3, Some h4, Some h5, Some h6, Some h7, Some h8 =>
      Ok ((825721077416 # 100000000000) * h2 + (727432450174 # 100000000000) * h3 + (901085498402 # 1000000000000) * h4 + (17194718866 # 10000000000) * h5 +
          (-512025789975 # 100000000000) * h6 + (-557942365201 # 100000000000) * h7 + (-369004685039 # 100000000000) * h8 + (-261875927499 # 100000000000) * (13068 # 100000) + (-633104159879 # 100000000000))%Q
    | _, _, _, _, _, _, _ => Throw tt
    end.
  (** stability.cpp:296-306: without normalization nothing is computed *)
  Definition assess (normalization : bool) (distances : list Q) (old : list Q) : out unit (list Q * Q) :=
    h <~ (if normalization then histogram distances else Ok old) ;; v <~ svm h ;; Ok (h, v).

  (** ** Specification *)
  (** the bins: [m] of them divide the interval of length [area] around the mean, in units of sigma; below and above there is one for the rest *)
  Definition in_bin (m k : nat) (d : Q) : Prop :=
    let x := ((d - mean) / sigma)%Q in
    let edge (i : nat) := (- (area / 2) + inject_Z (Z.of_nat i) * (area / inject_Z (Z.of_nat m)))%Q in
    (k = 0 \/ (edge (k - 1)%nat <= x)%Q) /\ (k = S m \/ (x < edge k)%Q).
  Global Instance in_bin_dec m k d : Decision (in_bin m k d).
  Proof using Type.
    unfold in_bin. cbv zeta. apply and_dec; apply or_dec; try apply _.
    - destruct (Qlt_le_dec ((d - mean) / sigma) (- (area / 2) + inject_Z (Z.of_nat (k - 1)) * (area / inject_Z (Z.of_nat m)))) as [H|H]; [right; intros H'; lra|by left].
    - destruct (Qlt_le_dec ((d - mean) / sigma) (- (area / 2) + inject_Z (Z.of_nat k) * (area / inject_Z (Z.of_nat m)))) as [H|H]; [by left|right; intros H'; lra].
  Defined.
  Definition many (m k : nat) (ds : list Q) : Q := inject_Z (Z.of_nat (length (filter (in_bin m k) ds))).
  (** the divisor: for the highest bin with a distance its width, where the bins of the rest are as wide as the extreme value is far from the mean; for bins below the whole interval *)
  Definition divisor (m k : nat) (ds : list Q) (w : Q) : Prop :=
    ((exists d k', d ∈ ds /\ in_bin m k' d /\ k < k' <= S m) /\ (w == area)%Q) \/
    (~ (exists d k', d ∈ ds /\ in_bin m k' d /\ k < k' <= S m) /\
      ((w == area / inject_Z (Z.of_nat m))%Q \/ (k = 0 \/ k = S m) /\ exists d, d ∈ ds /\ (w == Qabs ((d - mean) / sigma))%Q /\ (0 < w)%Q)).
  (** the classifier: weights for the third to ninth height, and a bias *)
  Definition weights : list Q := [8.25721077416; 7.27432450174; 0.901085498402; 1.7194718866; -5.12025789975; -5.57942365201; -3.69004685039]%Q.
  Definition bias : Q := (-2.61875927499 * 0.13068 - 6.33104159879)%Q.
  Definition classification (h : list Q) : Q := (fold_right Qplus bias (zip_with Qmult weights (drop 2 h)))%Q.
End histogram.

(** ** Proofs *)
Lemma qlt_true x y : qlt x y = true <-> (x < y)%Q.
Proof. unfold qlt. destruct (Qlt_le_dec x y); split; intros; try done; lra. Qed.
Lemma qlt_false x y : qlt x y = false <-> (y <= x)%Q.
Proof. unfold qlt. destruct (Qlt_le_dec x y); split; intros; try done; lra. Qed.
Lemma inj_pos m : 0 < m -> (0 < inject_Z (Z.of_nat m))%Q.
Proof. intros H. change 0%Q with (inject_Z 0). rewrite <- Zlt_Qlt. lia. Qed.
Lemma inj_le a b : a <= b -> (inject_Z (Z.of_nat a) <= inject_Z (Z.of_nat b))%Q.
Proof. intros H. rewrite <- Zle_Qle. lia. Qed.
Lemma inj_lt a b : a < b -> (inject_Z (Z.of_nat a) < inject_Z (Z.of_nat b))%Q.
Proof. intros H. rewrite <- Zlt_Qlt. lia. Qed.
Section histogram_proofs.
  Context (m : nat) (area : Q) (Hm : 0 < m) (Ha : (0 < area)%Q).
  Notation nb := (inject_Z (Z.of_nat m)).
  Notation bs := (bin_size nb area).
  Notation L := (lower_limit nb area).
  Lemma half_pos : (0 < area / 2)%Q.
  Proof using Ha. apply Qlt_shift_div_l; lra. Qed.
  Lemma bs_pos : (0 < bs)%Q.
  Proof using Hm Ha. unfold bin_size. apply Qlt_shift_div_l; [by apply inj_pos|lra]. Qed.
  Lemma L_edge i : (L i == - (area / 2) + inject_Z (Z.of_nat i) * (area / nb))%Q.
  Proof using Hm. unfold lower_limit, bin_size. pose proof (inj_pos m Hm). field. lra. Qed.
  Lemma L_step i j : i <= j -> (L i <= L j)%Q.
  Proof using Hm Ha. intros H. rewrite !L_edge. pose proof bs_pos as Hb. unfold bin_size in Hb. pose proof (inj_le i j H). assert (inject_Z (Z.of_nat i) * (area / nb) <= inject_Z (Z.of_nat j) * (area / nb))%Q; [|lra]. apply Qmult_le_compat_r; lra. Qed.
  Lemma L_lt i j : i < j -> (L i + bs <= L j)%Q.
  Proof using Hm Ha.
    intros H. pose proof (L_step (S i) j H) as H1. assert (L (S i) == L i + bs)%Q as H2; [|lra]. unfold lower_limit. rewrite Nat2Z.inj_succ. unfold Z.succ. rewrite inject_Z_plus.
    change (inject_Z 1) with 1%Q. ring. Qed.
  Lemma L_0 : (L 0 == - (area / 2))%Q.
  Proof using Hm. rewrite L_edge. change (inject_Z (Z.of_nat 0)) with 0%Q. lra. Qed.
  Lemma L_m : (L m == area / 2)%Q.
  Proof using Hm. rewrite L_edge. pose proof (inj_pos m Hm). field. lra. Qed.

  Definition inb (k : nat) (x : Q) : Prop := (k = 0 \/ (L (k - 1) <= x)%Q) /\ (k = S m \/ (x < L k)%Q).
  Instance inb_dec k x : Decision (inb k x).
  Proof using Type. unfold inb. apply and_dec; apply or_dec; try apply _.
    - destruct (Qlt_le_dec x (L (k - 1))); [right; lra|by left].
    - destruct (Qlt_le_dec x (L k)); [by left|right; lra]. Defined.
  Definition cnt (k : nat) (xs : list Q) : nat := length (filter (inb k) xs).
  Lemma cnt_app k a b : cnt k (a ++ b) = cnt k a + cnt k b.
  Proof using Type. unfold cnt. by rewrite filter_app, app_length. Qed.
  Lemma cnt_none k xs : (forall x, x ∈ xs -> ~ inb k x) -> cnt k xs = 0.
  Proof using Type. intros H. unfold cnt. induction xs as [|x xs IH]; [done|]. rewrite filter_cons_False; [apply IH; intros y Hy; apply H; by right|apply H; by left]. Qed.
  Lemma cnt_all k xs : (forall x, x ∈ xs -> inb k x) -> cnt k xs = length xs.
  Proof using Type. intros H. unfold cnt. induction xs as [|x xs IH]; [done|]. rewrite filter_cons_True; [cbn [length]; f_equal; apply IH; intros y Hy; apply H; by right|apply H; by left]. Qed.
  (** every value is in a bin *)
  Lemma some_bin x k : k <= S m -> (k = 0 \/ (L (k - 1) <= x)%Q) -> exists k', k <= k' <= S m /\ inb k' x.
  Proof using Hm Ha.
    intros Hk H. remember (S m - k) as d eqn:E. revert k Hk H E. induction d as [|d IH]; intros k Hk H E.
    { exists k. split; [lia|]. split; [done|]. left. lia. }
    destruct (Qlt_le_dec x (L k)) as [H'|H'].
    { exists k. split; [lia|]. split; [done|]. by right. }
    destruct (IH (S k)) as (k' & H1 & H2); [lia| |lia|].
    { right. replace (S k - 1) with k by lia. done. }
    exists k'. split; [lia|done]. Qed.
  Context (xs : list Q) (front back : Q) (Hf : head xs = Some front) (Hb : last xs = Some back).
  Definition ls : list Q := default [] (limits nb area xs).
  Lemma floor_nb : Z.to_nat (Qfloor nb) = m.
  Proof using Type. rewrite Qfloor_Z. apply Nat2Z.id. Qed.
  Lemma limits_ls : limits nb area xs = Some ls.
  Proof using Hf Hb Hm. unfold ls. unfold limits. by rewrite Hf, Hb. Qed.
  Lemma ls_eq : ls = (if qlt front ((- nb / 2) * bs) then ((- nb / 2) * bs + front)%Q else ((- nb / 2) * bs - bs)%Q) :: (L <$> seq 0 (S m)) ++ [if qlt (L m) back then (L m + back)%Q else (L m + bs)%Q].
  Proof using Hf Hb Hm. unfold ls, limits. rewrite Hf, Hb. cbv zeta. rewrite floor_nb. done. Qed.
  Lemma ls_length : length ls = m + 3.
  Proof using Hf Hb Hm. rewrite ls_eq. cbn [length]. rewrite app_length, fmap_length, seq_length. cbn [length]. lia. Qed.
  Lemma ls_mid k : k <= m -> ls !! S k = Some (L k).
  Proof using Hf Hb Hm. intros H. rewrite ls_eq. rewrite lookup_cons. rewrite lookup_app_l by (rewrite fmap_length, seq_length; lia). rewrite list_lookup_fmap, lookup_seq_lt by lia. done. Qed.
  Lemma ls_0 : ls !! 0 = Some (if qlt front ((- nb / 2) * bs) then ((- nb / 2) * bs + front)%Q else ((- nb / 2) * bs - bs)%Q).
  Proof using Hf Hb Hm. by rewrite ls_eq. Qed.
  Lemma ls_end : ls !! S (S m) = Some (if qlt (L m) back then (L m + back)%Q else (L m + bs)%Q).
  Proof using Hf Hb Hm. rewrite ls_eq. rewrite lookup_cons. rewrite lookup_app_r by (rewrite fmap_length, seq_length; lia). rewrite fmap_length, seq_length, Nat.sub_diag. done. Qed.

  (** the width of a bin *)
  Definition wide (k : nat) (w : Q) : Prop := (w == area / nb)%Q \/ (k = 0 \/ k = S m) /\ exists x, x ∈ xs /\ (w == Qabs x)%Q /\ (0 < w)%Q.
  Lemma width_ok k : k <= S m -> exists w, width_at ls (S k) = Some w /\ wide k w.
  Proof using Hf Hb Hm Ha.
    intros Hk. unfold width_at. replace (S k - 1) with k by lia. pose proof bs_pos as Hp. pose proof half_pos as Hh.
    assert ((- nb / 2) * bs == L 0)%Q as E0. { unfold lower_limit. change (inject_Z (Z.of_nat 0)) with 0%Q. ring. }
    destruct k as [|k].
    { rewrite ls_0, ls_mid by lia. eexists; split; [done|]. destruct (qlt front _) eqn:Eq.
      - right. split; [by left|]. exists front. apply qlt_true in Eq. split. { destruct xs; [done|]. injection Hf as ->. by left. }
        assert (Qabs ((- nb / 2) * bs + front - L 0) == Qabs front)%Q as Ew. { apply Qabs_wd. lra. }
        split; [done|]. rewrite Ew. pose proof L_0 as H0. assert (front < 0)%Q by lra. rewrite Qabs_neg; lra.
      - left. rewrite Qabs_neg; [|lra]. rewrite E0. unfold bin_size in *. lra. }
    destruct (decide (S k = S m)) as [->|Hne].
    { rewrite ls_mid by lia. rewrite ls_end. eexists; split; [done|]. destruct (qlt (L m) back) eqn:Eq.
      - right. split; [by right|]. exists back. apply qlt_true in Eq. split. { apply elem_of_list_lookup_2 with (pred (length xs)). rewrite <- last_lookup. done. }
        assert (Qabs (L m - (L m + back)) == Qabs back)%Q as Ew. { rewrite <- Qabs_opp. apply Qabs_wd. lra. }
        split; [done|]. rewrite Ew. rewrite L_m in Eq. rewrite Qabs_pos; lra.
      - left. rewrite Qabs_neg; [|lra]. unfold bin_size in *. lra. }
    rewrite !ls_mid by lia. eexists; split; [done|]. left. assert (L (S k) == L k + bs)%Q as H2.
    { unfold lower_limit. rewrite Nat2Z.inj_succ. unfold Z.succ. rewrite inject_Z_plus. change (inject_Z 1) with 1%Q. ring. }
    rewrite Qabs_neg; [|lra]. unfold bin_size in *. lra. Qed.

  Definition higher (k : nat) : Prop := exists x k', x ∈ xs /\ inb k' x /\ k < k' <= S m.
  Definition div (k : nat) (w : Q) : Prop := higher k /\ (w == area)%Q \/ ~ higher k /\ wide k w.
  Definition height (k : nat) (v : Q) : Prop := exists w, div k w /\ (v == inject_Z (Z.of_nat (cnt k xs)) / (inject_Z (Z.of_nat (length xs)) * w))%Q.
  Definition done_upto (k : nat) (h : list Q) : Prop := length h = k /\ forall j v, h !! j = Some v -> height j v.
  Lemma done_snoc k h v : done_upto k h -> height k v -> done_upto (S k) (h ++ [v]).
  Proof using Hm.
    intros (H1 & H2) Hv. split; [rewrite app_length; cbn [length]; lia|]. intros j u Hj. apply lookup_app_Some in Hj as [Hj|(H3 & Hj)]; [by apply H2|].
    apply list_lookup_singleton_Some in Hj as (Hj & <-). replace j with k by lia. done. Qed.

  Lemma fill_ok fuel pre l k number h :
    xs = pre ++ l -> Sorted Qle xs -> k <= m ->
    (forall x, x ∈ pre -> (x < L k)%Q) -> (forall x, x ∈ l -> k = 0 \/ (L (k - 1) <= x)%Q) ->
    number = cnt k pre -> done_upto k h -> length l + (m - k) < fuel ->
    exists h', fill nb area fuel ls (length xs) l (S k) number h = Ok h' /\ done_upto (S (S m)) h'.
  Proof using Hf Hb Hm Ha.
    revert pre l k number h. induction fuel as [|fuel IH]; intros pre l k number h Exs Hs Hk Hpre Hl Hn Hh Hfu; [lia|].
    cbn [fill]. destruct l as [|x l].
    { unfold finish. destruct (width_ok k) as (w & Ew & Hw); [lia|]. rewrite Ew. eexists; split; [done|].
      rewrite app_nil_r in Exs.
      assert (forall j x, k < j -> x ∈ xs -> ~ inb j x) as Hno.
      { intros j x Hj Hx ([Hi|Hi] & _); [lia|]. rewrite Exs in Hx. specialize (Hpre x Hx). assert (L k <= L (j - 1))%Q by (apply L_step; lia). lra. }
      rewrite app_assoc.
      assert (done_upto (S k) (h ++ [(inject_Z (Z.of_nat number) / (inject_Z (Z.of_nat (length xs)) * w))%Q])) as Hd.
      { apply done_snoc; [done|]. exists w. split; [|rewrite Hn, Exs; done]. right. split; [|done]. intros (y & k' & H1 & H2 & H3). apply (Hno k' y); [lia|done|done]. }
      destruct Hd as (D1 & D2). split.
      { rewrite app_length, D1, replicate_length, Qfloor_Z. lia. }
      intros j v Hj. apply lookup_app_Some in Hj as [Hj|(H3 & Hj)]; [by apply D2|]. rewrite D1 in *. apply lookup_replicate in Hj as (-> & Hj). rewrite Qfloor_Z in Hj.
      destruct (width_ok j) as (w' & _ & Hw'); [lia|]. exists w'. split.
      { right. split; [|done]. intros (y & k' & H1 & H2 & H4). apply (Hno k' y); [lia|done|done]. }
      rewrite cnt_none by (intros y Hy; apply Hno; [lia|done]). change (inject_Z (Z.of_nat 0)) with 0%Q. unfold Qdiv. ring. }
    rewrite ls_mid by lia. destruct (qlt x (L k)) eqn:Eq.
    { apply qlt_true in Eq. apply (IH (pre ++ [x])); try done.
      - by rewrite Exs, <- app_assoc.
      - intros y [Hy|Hy]%elem_of_app; [by apply Hpre|]. apply elem_of_list_singleton in Hy as ->. done.
      - intros y Hy. apply Hl. by right.
      - rewrite cnt_app. rewrite Hn. rewrite (cnt_all k [x]); [cbn [length]; lia|]. intros y Hy. apply elem_of_list_singleton in Hy as ->. split; [apply Hl; by left|by right].
      - cbn [length] in Hfu. lia. }
    apply qlt_false in Eq.
    assert (forall y, y ∈ x :: l -> (L k <= y)%Q) as Hge.
    { intros y Hy. apply elem_of_cons in Hy as [->|Hy]; [done|]. assert (StronglySorted Qle xs) as SS by (apply Sorted_StronglySorted; [intros ? ? ?; apply Qle_trans|done]).
      assert (x <= y)%Q; [|lra]. rewrite Exs in SS. clear -SS Hy. induction pre as [|p pre IHp]; cbn [app] in SS; apply StronglySorted_inv in SS as (S1 & S2); [|by apply IHp].
      rewrite Forall_forall in S2. by apply S2. }
    assert (done_upto (S k) (h ++ [(inject_Z (Z.of_nat number) / (inject_Z (Z.of_nat (length xs)) * area))%Q])) as Hd.
    { apply done_snoc; [done|]. exists area. split.
      - left. split; [|done]. destruct (some_bin x (S k)) as (k' & H1 & H2); [lia|right; replace (S k - 1) with k by lia; done|]. exists x, k'. split; [rewrite Exs; apply elem_of_app; right; by left|]. split; [done|lia].
      - rewrite Exs at 2. rewrite cnt_app, Hn. rewrite (cnt_none k (x :: l)); [rewrite Nat.add_0_r; done|]. intros y Hy (_ & [Hi|Hi]); [lia|]. specialize (Hge y Hy). lra. }
    destruct (Qeq_bool _ _) eqn:Ee.
    { apply Qeq_bool_iff in Ee. assert (k = m) as ->.
      { assert (inject_Z (Z.of_nat (S (S k))) == inject_Z (Z.of_nat m + 2))%Q as E2. { rewrite inject_Z_plus. done. } apply (proj1 (inject_Z_injective _ _)) in E2. lia. }
      destruct (width_ok (S m)) as (w & Ew & Hw); [lia|]. rewrite Ew. eexists; split; [done|]. apply done_snoc; [done|]. exists w. split.
      - right. split; [|done]. intros (y & k' & _ & _ & H). lia.
      - rewrite Exs at 2. rewrite cnt_app. rewrite (cnt_none (S m) pre), (cnt_all (S m) (x :: l)); [done| |].
        + intros y Hy. split; [right; replace (S m - 1) with m by lia; by apply Hge|by left].
        + intros y Hy ([Hi|Hi] & _); [lia|]. replace (S m - 1) with m in Hi by lia. specialize (Hpre y Hy). lra. }
    assert (k <> m). { intros ->. apply Qeq_bool_neq in Ee. apply Ee. replace (Z.of_nat (S (S m))) with (Z.of_nat m + 2)%Z by lia. rewrite inject_Z_plus. done. }
    apply (IH pre); try done.
    - lia.
    - intros y Hy. specialize (Hpre y Hy). assert (L k <= L (S k))%Q by (apply L_step; lia). lra.
    - intros y Hy. right. replace (S k - 1) with k by lia. by apply Hge.
    - rewrite cnt_none; [done|]. intros y Hy ([Hi|Hi] & _); [lia|]. replace (S k - 1) with k in Hi by lia. specialize (Hpre y Hy). lra.
    - cbn [length] in *. lia. Qed.
End histogram_proofs.

Lemma filter_fmap_length {A B} (f : A -> B) (P : B -> Prop) (R : A -> Prop) `{forall x, Decision (P x)} `{forall x, Decision (R x)} (l : list A) :
  (forall x, P (f x) <-> R x) -> length (filter P (f <$> l)) = length (filter R l).
Proof.
  intros HPR. induction l as [|x l IH]; [done|]. rewrite fmap_cons. destruct (decide (R x)) as [Hx|Hx].
  - rewrite !filter_cons_True; [|done|by apply HPR]. cbn [length]. by rewrite IH.
  - rewrite !filter_cons_False; [done|done|by rewrite HPR]. Qed.

(** ** C123 *)
(** Of a non-empty sorted list of distances, for any number of bins, there is a height for each bin: the share of the distances in it over the divisor. *)
Theorem C123_heights (m : nat) (area mean sigma : Q) (ds : list Q) : 0 < m -> (0 < area)%Q -> (0 < sigma)%Q -> Sorted Qle ds -> ds <> [] ->
  exists h, histogram (inject_Z (Z.of_nat m)) area mean sigma ds = Ok h /\ length h = m + 2 /\
    forall k v, h !! k = Some v -> exists w, divisor area mean sigma m k ds w /\ (v == many area mean sigma m k ds / (inject_Z (Z.of_nat (length ds)) * w))%Q.
Proof.
  intros Hm Ha Hs Hso Hne. unfold histogram. cbv zeta. set (f := fun d => ((d - mean) / sigma)%Q). set (xs := f <$> ds).
  assert (exists front, head xs = Some front) as (front & Hf). { destruct ds; [done|]. by eexists. }
  assert (exists back, last xs = Some back) as (back & Hb). { apply last_is_Some. destruct ds; [done|]. done. }
  assert (Hmono : forall a b, (a <= b)%Q -> (f a <= f b)%Q). { intros a b Hab. unfold f. apply Qmult_le_compat_r; [lra|]. apply Qlt_le_weak. by apply Qinv_lt_0_compat. }
  assert (Hxs : Sorted Qle xs). { unfold xs. clear -Hso Hmono. induction Hso as [|a l H1 IH H2]; [constructor|]. rewrite fmap_cons. constructor; [done|]. destruct H2; constructor. by apply Hmono. }
  rewrite (limits_ls m area Hm xs front back Hf Hb).
  destruct (fill_ok m area Hm Ha xs front back Hf Hb (length xs + length (ls m area xs) + 1) [] xs 0 0 []) as (h & E & H1 & H2).
  - done.
  - done.
  - lia.
  - intros x Hx. by apply elem_of_nil in Hx.
  - intros x Hx. by left.
  - done.
  - split; [done|]. intros j v Hj. by rewrite lookup_nil in Hj.
  - rewrite (ls_length m area Hm xs front back Hf Hb). lia.
  - exists h. split; [exact E|]. split; [lia|]. intros k v Hv. destruct (H2 k v Hv) as (w & Hw & Ev). exists w.
    assert (Hin : forall j d, inb m area j (f d) <-> in_bin area mean sigma m j d).
    { intros j d. unfold inb, in_bin. cbv zeta. fold (f d). pose proof (L_edge m area Hm (j - 1)) as E1. pose proof (L_edge m area Hm j) as E2.
      rewrite E1, E2. done. }
    assert (Hhi : higher m area xs k <-> exists d k', d ∈ ds /\ in_bin area mean sigma m k' d /\ k < k' <= S m).
    { unfold higher. split.
      - intros (x & k' & Hx & Hi & Hk). apply elem_of_list_fmap in Hx as (d & -> & Hd). exists d, k'. by rewrite <- Hin.
      - intros (d & k' & Hd & Hi & Hk). exists (f d), k'. rewrite Hin. split; [|done]. by apply elem_of_list_fmap_1. }
    split.
    + destruct Hw as [[Hh Hw]|[Hh Hw]]; [left; by rewrite <- Hhi|right; rewrite <- Hhi]. split; [done|]. destruct Hw as [Hw|(Hk & x & Hx & Hw)]; [by left|right]. split; [done|].
      apply elem_of_list_fmap in Hx as (d & -> & Hd). by exists d.
    + rewrite Ev. unfold many. unfold cnt. unfold xs at 1. rewrite (filter_fmap_length f (inb m area k) (in_bin area mean sigma m k)) by apply Hin. unfold xs. rewrite fmap_length. done.
Qed.
(** The bins share no distances and cover all. *)
Theorem C123_bins (m : nat) (area mean sigma d : Q) : 0 < m -> (0 < area)%Q -> exists k, (k <= S m /\ in_bin area mean sigma m k d) /\ forall k', k' <= S m -> in_bin area mean sigma m k' d -> k' = k.
Proof.
  intros Hm Ha. set (x := ((d - mean) / sigma)%Q).
  assert (Hin : forall j, inb m area j x <-> in_bin area mean sigma m j d).
  { intros j. unfold inb, in_bin. cbv zeta. fold x. rewrite (L_edge m area Hm (j - 1)), (L_edge m area Hm j). done. }
  destruct (some_bin m area Hm Ha x 0) as (k & Hk & Hi); [lia|by left|]. exists k. rewrite <- Hin. split; [split; [lia|done]|].
  intros k' Hk' Hi'%Hin. destruct Hi as [A1 A2], Hi' as [B1 B2].
  destruct (lt_eq_lt_dec k' k) as [[Hlt| ->]|Hlt]; [|done|]; exfalso.
  - destruct A1 as [A1|A1]; [lia|]. destruct B2 as [B2|B2]; [lia|]. pose proof (L_step m area Hm Ha k' (k - 1) ltac:(lia)). lra.
  - destruct B1 as [B1|B1]; [lia|]. destruct A2 as [A2|A2]; [lia|]. pose proof (L_step m area Hm Ha k (k' - 1) ltac:(lia)). lra.
Qed.
(** The classifier needs seven bins. With normalization it is computed from the new histogram, without from the old one. *)
Theorem C123_classifier (m : nat) (area mean sigma : Q) (ds old : list Q) : 0 < m -> (0 < area)%Q -> (0 < sigma)%Q -> Sorted Qle ds -> ds <> [] ->
  exists h, histogram (inject_Z (Z.of_nat m)) area mean sigma ds = Ok h /\
    (7 <= m -> exists v, (v == classification h)%Q /\ assess (inject_Z (Z.of_nat m)) area mean sigma true ds old = Ok (h, v)) /\
    (m < 7 -> assess (inject_Z (Z.of_nat m)) area mean sigma true ds old = Throw tt).
Proof.
  intros Hm Ha Hs Hso Hne. destruct (C123_heights m area mean sigma ds Hm Ha Hs Hso Hne) as (h & E & Hl & _). exists h. split; [done|]. unfold assess. rewrite E. cbn [obind]. unfold svm. split; intros H7.
  - destruct h as [|v0 [|v1 [|v2 [|v3 [|v4 [|v5 [|v6 [|v7 [|v8 h]]]]]]]]]; try (cbn in Hl; lia). cbn [lookup list_lookup obind].
    eexists. split; [|reflexivity]. unfold classification, weights, bias. cbn [drop zip_with fold_right]. ring.
  - assert (h !! 8 = None) as -> by (apply lookup_ge_None; lia). repeat case_match; done.
Qed.

(** ** C123: a case, and what does not hold *)
Definition ex_ds : list Q := [-(5 # 2); -(1 # 2); -(1 # 4); 1 # 2; 3; 4]%Q.
Example C123_nonvacuous : Sorted Qle ex_ds /\ (List.map Qred <$> match histogram 2 2 0 1 ex_ds with Ok h => Some h | _ => None end) = Some [1 # 12; 1 # 6; 1 # 12; 1 # 12]%Q /\
  many 2 0 1 2 1 ex_ds = 2%Q /\ many 2 0 1 2 3 ex_ds = 2%Q.
Proof.
  split; [|vm_compute; repeat split; reflexivity]. unfold ex_ds. repeat (constructor; try (unfold Qle; cbn; lia)).
Qed.
(** Without distances the behaviour is undefined, *)
Theorem C123_empty_refuted nb area mean sigma : histogram nb area mean sigma [] = Bad UB.
Proof. done. Qed.
(** if they are not sorted they are counted in wrong bins, *)
Theorem C123_unsorted_refuted : ~ forall (m : nat) (area mean sigma : Q) (ds h : list Q), 0 < m -> (0 < area)%Q -> (0 < sigma)%Q -> ds <> [] -> histogram (inject_Z (Z.of_nat m)) area mean sigma ds = Ok h ->
  forall k v, h !! k = Some v -> (v == 0)%Q -> (many area mean sigma m k ds == 0)%Q.
Proof.
  intros H. specialize (H 2 2%Q 0%Q 1%Q [1 # 2; -(1 # 2)]%Q). 
  assert (exists h, histogram (inject_Z (Z.of_nat 2)) 2 0 1 [1 # 2; -(1 # 2)] = Ok h /\ exists v, h !! 1 = Some v /\ (v == 0)%Q) as (h & E & v & Ev & E0).
  { eexists. split; [vm_compute; reflexivity|]. eexists. split; [vm_compute; reflexivity|]. vm_compute. reflexivity. }
  specialize (H h ltac:(lia) ltac:(lra) ltac:(lra) ltac:(done) E 1 v Ev E0). vm_compute in H. discriminate.
Qed.
(** and bins of one width with as many distances differ in height. *)
Theorem C123_equal_refuted : ~ forall (m : nat) (area mean sigma : Q) (ds h : list Q), 0 < m -> (0 < area)%Q -> (0 < sigma)%Q -> ds <> [] -> Sorted Qle ds -> histogram (inject_Z (Z.of_nat m)) area mean sigma ds = Ok h ->
  forall k k' v v', 1 <= k <= m -> 1 <= k' <= m -> h !! k = Some v -> h !! k' = Some v' -> (many area mean sigma m k ds == many area mean sigma m k' ds)%Q -> (v == v')%Q.
Proof.
  intros H. specialize (H 2 2%Q 0%Q 1%Q [-(1 # 2); 1 # 2]%Q).
  assert (exists h, histogram (inject_Z (Z.of_nat 2)) 2 0 1 [-(1 # 2); 1 # 2] = Ok h /\ exists v v', h !! 1 = Some v /\ h !! 2 = Some v' /\ ~ (v == v')%Q) as (h & E & v & v' & Ev & Ev' & E0).
  { eexists. split; [vm_compute; reflexivity|]. eexists _, _. split; [vm_compute; reflexivity|]. split; [vm_compute; reflexivity|]. vm_compute. discriminate. }
  apply E0. apply (H h ltac:(lia) ltac:(lra) ltac:(lra) ltac:(done)) with 1 2; try done; try lia. repeat (constructor; try (unfold Qle; cbn; lia)).
Qed.
(** A histogram that has never been normalized has no classification. *)
Theorem C123_plain_refuted nb area mean sigma ds : assess nb area mean sigma false ds [] = Throw tt.
Proof. done. Qed.
