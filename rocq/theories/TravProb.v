(** C38: probabilities in a traversability grid are stored in a byte (src/maps/TraversabilityGrid.cpp:233-247).

    The arithmetic is that of IEEE double precision, as formalised by Flocq. *)
From Coq Require Import ZArith Reals Lra Lia List Bool.
From Flocq Require Import Core BinarySingleNaN.
From Verif Require Import Base.
Local Open Scope R_scope.

Global Instance prec_pos53 : Prec_gt_0 53 := eq_refl.
Global Instance prec_lt53 : Prec_lt_emax 53 1024 := eq_refl.
Definition double : Type := binary_float 53 1024.
Definition of_int (k : Z) : double := binary_normalize 53 1024 _ _ mode_NE k 0 false.
Definition value (x : double) : R := B2R x.

(** TraversabilityGrid.cpp:233-240: the byte that is written.  The conversion of the product to uint32_t discards the fraction and is
    undefined if the result does not fit. *)
Definition set_probability (p : double) : out unit Z :=
  let x := Bmult mode_NE p (of_int 255) in
  if is_finite x && (0 <=? Btrunc x)%Z && (Btrunc x <? 4294967296)%Z then Ok (Z.min 255 (Btrunc x)) else Bad UB.
(** TraversabilityGrid.cpp:242-247 *)
Definition get_probability (b : Z) : double := Bdiv mode_NE (of_int b) (of_int 255).

(** ** facts about the 256 bytes, by computation *)
Definition bytes : list Z := map Z.of_nat (seq 0 256).
Lemma in_bytes b : (0 <= b <= 255)%Z -> In b bytes.
Proof. intros H. unfold bytes. apply in_map_iff. exists (Z.to_nat b). split; [lia|]. apply in_seq. lia. Qed.
Definition check (b : Z) : bool :=
  is_finite (get_probability b) && is_finite (of_int b) &&
  is_finite (Bmult mode_NE (get_probability b) (of_int 255)) && (Btrunc (Bmult mode_NE (get_probability b) (of_int 255)) =? b)%Z &&
  ((b =? 0)%Z || is_finite (Bpred (get_probability b)) && is_finite (Bmult mode_NE (Bpred (get_probability b)) (of_int 255)) &&
    Bltb (Bmult mode_NE (Bpred (get_probability b)) (of_int 255)) (of_int b)) &&
  ((b =? 0)%Z || Bltb (get_probability (b - 1)) (get_probability b)).
Lemma check_all : forallb check bytes = true.
Proof. vm_compute. reflexivity. Qed.
Lemma check_byte b : (0 <= b <= 255)%Z -> check b = true.
Proof. intros H. pose proof check_all as Hc. rewrite forallb_forall in Hc. apply Hc, in_bytes, H. Qed.

Definition rnd (x : R) : R := round radix2 (SpecFloat.fexp 53 1024) (round_mode mode_NE) x.
Global Instance valid_fexp : Valid_exp (SpecFloat.fexp 53 1024) := fexp_correct 53 1024 _.
Lemma rnd_le x y : x <= y -> rnd x <= rnd y.
Proof. apply round_le; [apply valid_fexp|apply valid_rnd_round_mode]. Qed.
Lemma of_int_small k : (0 <= k <= 255)%Z -> value (of_int k) = IZR k.
Proof.
  intros Hk. unfold of_int, value. pose proof (binary_normalize_correct 53 1024 _ _ mode_NE k 0 false) as H. cbv zeta in H.
  assert (Hf : F2R (Float radix2 k 0) = IZR k). { unfold F2R. cbn. lra. }
  rewrite Hf in H. assert (Hr : round radix2 (SpecFloat.fexp 53 1024) (round_mode mode_NE) (IZR k) = IZR k).
  { apply round_generic; [apply valid_rnd_round_mode|]. rewrite <- Hf. apply generic_format_FLT. 
    apply FLT_spec with (Float radix2 k 0); [reflexivity|change (Z.abs k < 2 ^ 53)%Z; lia|vm_compute; discriminate]. }
  rewrite Hr in H. rewrite Rlt_bool_true in H; [apply H|].
  rewrite Rabs_pos_eq by (apply IZR_le; lia). apply Rle_lt_trans with (IZR 255); [apply IZR_le; lia|].
  apply Rlt_trans with (bpow radix2 8); [change (bpow radix2 8) with (IZR 256); lra|]. apply bpow_lt. lia.
Qed.

(** the product with 255, for an argument in [0,1] *)
Lemma product p : is_finite p = true -> 0 <= value p <= 1 ->
  is_finite (Bmult mode_NE p (of_int 255)) = true /\ value (Bmult mode_NE p (of_int 255)) = rnd (value p * 255) /\ 0 <= rnd (value p * 255) <= 255.
Proof.
  intros Hf Hp. pose proof (Bmult_correct 53 1024 _ _ mode_NE p (of_int 255)) as H.
  fold (value p) (value (of_int 255)) in H. rewrite of_int_small in H by lia. fold (rnd (value p * 255)) in H.
  assert (Hr : 0 <= rnd (value p * 255) <= 255).
  { split.
    - replace 0 with (rnd 0) by (apply round_0, valid_rnd_round_mode). apply rnd_le. lra.
    - replace 255 with (rnd 255) at 2; [apply rnd_le; lra|]. rewrite <- (of_int_small 255) by lia.
      apply round_generic; [apply valid_rnd_round_mode|]. apply generic_format_B2R. }
  rewrite Rlt_bool_true in H.
  - destruct H as (H1 & H2 & _). split; [|split; [exact H1|exact Hr]]. rewrite H2, Hf. reflexivity.
  - rewrite Rabs_pos_eq by apply Hr. apply Rle_lt_trans with 255; [apply Hr|].
    apply Rlt_trans with (bpow radix2 8); [change (bpow radix2 8) with (IZR 256); lra|]. apply bpow_lt. lia.
Qed.
Lemma btrunc_value x : Btrunc x = Ztrunc (value x).
Proof.
  apply eq_IZR. rewrite Btrunc_correct; [|reflexivity]. unfold round, F2R, scaled_mantissa, cexp, FIX_exp. cbn. fold (value x). rewrite !Rmult_1_r. reflexivity.
Qed.
Lemma ztrunc_le_value x : 0 <= x -> IZR (Ztrunc x) <= x.
Proof. intros H. rewrite Ztrunc_floor by exact H. apply Zfloor_lb. Qed.
Lemma product_mono p q : is_finite p = true -> is_finite q = true -> 0 <= value p <= 1 -> 0 <= value q <= 1 -> value p <= value q ->
  (Btrunc (Bmult mode_NE p (of_int 255)) <= Btrunc (Bmult mode_NE q (of_int 255)))%Z.
Proof.
  intros Hfp Hfq Hp Hq Hle. destruct (product p Hfp Hp) as (_ & H1 & _). destruct (product q Hfq Hq) as (_ & H2 & _).
  rewrite !btrunc_value, H1, H2. apply Ztrunc_le, rnd_le. lra.
Qed.

Record byte_facts (b : Z) : Prop := {
  bf_finite : is_finite (get_probability b) = true;
  bf_back : Btrunc (Bmult mode_NE (get_probability b) (of_int 255)) = b;
  bf_pred : (b <> 0)%Z -> is_finite (Bpred (get_probability b)) = true /\ is_finite (Bmult mode_NE (Bpred (get_probability b)) (of_int 255)) = true /\
    value (Bmult mode_NE (Bpred (get_probability b)) (of_int 255)) < IZR b;
  bf_mono : (b <> 0)%Z -> value (get_probability (b - 1)) < value (get_probability b) }.
Lemma byte_facts_all b : (0 <= b <= 255)%Z -> byte_facts b.
Proof.
  intros Hb. pose proof (check_byte b Hb) as H. unfold check in H. rewrite !andb_true_iff in H. destruct H as (((((H1 & H2) & H3) & H4) & H5) & H6).
  apply Z.eqb_eq in H4. split; [exact H1|exact H4| |].
  - intros Hne. apply orb_true_iff in H5 as [H5|H5]; [apply Z.eqb_eq in H5; lia|]. rewrite !andb_true_iff in H5. destruct H5 as ((H5 & H5') & H5'').
    split; [exact H5|]. split; [exact H5'|]. rewrite Bltb_correct in H5'' by assumption. rewrite <- (of_int_small b Hb).
    destruct (Rlt_bool_spec (B2R (Bmult mode_NE (Bpred (get_probability b)) (of_int 255))) (B2R (of_int b))); [assumption|discriminate].
  - intros Hne. apply orb_true_iff in H6 as [H6|H6]; [apply Z.eqb_eq in H6; lia|].
    assert (Hb1 : check (b - 1) = true) by (apply check_byte; lia). unfold check in Hb1. rewrite !andb_true_iff in Hb1. destruct Hb1 as (((((Hb1 & _) & _) & _) & _) & _).
    rewrite Bltb_correct in H6 by assumption.
    destruct (Rlt_bool_spec (B2R (get_probability (b - 1))) (B2R (get_probability b))); [assumption|discriminate].
Qed.
Lemma get_mono a b : (0 <= a)%Z -> (a <= b)%Z -> (b <= 255)%Z -> value (get_probability a) <= value (get_probability b).
Proof.
  intros Ha Hab. pattern b. apply Zlt_lower_bound_ind with a; [|exact Hab]. clear b Hab. intros b IH Hab Hb.
  destruct (Z.eq_dec a b) as [->|Hne]; [lra|]. apply Rle_trans with (value (get_probability (b - 1))); [apply IH; lia|].
  left. apply (bf_mono b); [apply byte_facts_all; lia|lia].
Qed.
Lemma get_0 : value (get_probability 0) = 0.
Proof. reflexivity. Qed.
Lemma get_255 : value (get_probability 255) = 1.
Proof.
  rewrite <- (of_int_small 1) by lia. unfold value. rewrite <- !SF2R_B2SF. f_equal.
Qed.
Lemma get_range b : (0 <= b <= 255)%Z -> 0 <= value (get_probability b) <= 1.
Proof.
  intros Hb. split; [rewrite <- get_0; apply get_mono; lia|]. rewrite <- get_255. apply get_mono; lia.
Qed.

Lemma Rle_bool_true_iff a b : Rle_bool a b = true -> a <= b.
Proof. destruct (Rle_bool_spec a b); [intros _; assumption|discriminate]. Qed.

(** * C38 *)
(** A probability in [0,1] is stored as the byte that stands for the largest storable value that is not above it. *)
Theorem C38_floor p : is_finite p = true -> 0 <= value p <= 1 -> exists b, set_probability p = Ok b /\ (0 <= b <= 255)%Z /\
  value (get_probability b) <= value p /\
  forall b', (0 <= b' <= 255)%Z -> value (get_probability b') <= value p -> value (get_probability b') <= value (get_probability b).
Proof.
  intros Hf Hp. destruct (product p Hf Hp) as (H1 & H2 & H3 & H4). unfold set_probability. cbv zeta. rewrite H1.
  set (b := Btrunc (Bmult mode_NE p (of_int 255))).
  assert (Hb : (0 <= b <= 255)%Z).
  { unfold b. rewrite btrunc_value, H2. split; [apply le_IZR; rewrite Ztrunc_floor by exact H3; apply IZR_le, Zfloor_lub, H3|].
    apply le_IZR. apply Rle_trans with (rnd (value p * 255)); [apply ztrunc_le_value; exact H3|exact H4]. }
  replace (0 <=? b)%Z with true by lia. replace (b <? 4294967296)%Z with true by lia. cbn [andb]. rewrite Z.min_r by lia.
  exists b. split; [reflexivity|]. split; [exact Hb|]. split.
  - destruct (Z.eq_dec b 0) as [Hz|Hz]; [rewrite Hz, get_0; apply Hp|].
    destruct (byte_facts_all b Hb) as [Hfb _ Hpred _]. destruct (Hpred Hz) as (Hq1 & Hq2 & Hq3).
    destruct (Rle_lt_dec (value (get_probability b)) (value p)) as [|Hlt]; [assumption|exfalso].
    assert (Hpq : value p <= value (Bpred (get_probability b))).
    { pose proof (Bpred_correct 53 1024 _ _ (get_probability b) Hfb) as Hpc.
      match type of Hpc with if ?c then _ else _ => destruct c end.
      - destruct Hpc as [Hpc _]. unfold value at 2. rewrite Hpc. apply pred_ge_gt; [apply valid_fexp|apply generic_format_B2R|apply generic_format_B2R|exact Hlt].
      - exfalso. rewrite <- is_finite_SF_B2SF in Hq1. rewrite Hpc in Hq1. discriminate. }
    assert (Hv : value (Bpred (get_probability b)) <= 1).
    { apply Rle_trans with (value (get_probability b)); [|apply get_range, Hb].
      pose proof (Bpred_correct 53 1024 _ _ (get_probability b) Hfb) as Hpc.
      match type of Hpc with if ?c then _ else _ => destruct c end.
      - destruct Hpc as [Hpc _]. unfold value at 1. rewrite Hpc. apply pred_le_id.
      - exfalso. rewrite <- is_finite_SF_B2SF in Hq1. rewrite Hpc in Hq1. discriminate. }
    assert (Hm : (b <= Btrunc (Bmult mode_NE (Bpred (get_probability b)) (of_int 255)))%Z).
    { unfold b at 1. apply product_mono; [exact Hf|exact Hq1|exact Hp|lra|exact Hpq]. }
    rewrite btrunc_value in Hm. apply IZR_le in Hm.
    destruct (product (Bpred (get_probability b)) Hq1) as (_ & Hr & Hr0 & _); [lra|].
    assert (IZR (Ztrunc (value (Bmult mode_NE (Bpred (get_probability b)) (of_int 255)))) <= value (Bmult mode_NE (Bpred (get_probability b)) (of_int 255))).
    { apply ztrunc_le_value. rewrite Hr. exact Hr0. }
    lra.
  - intros b' Hb' Hle. destruct (byte_facts_all b' Hb') as [Hfb Hback _ _].
    apply get_mono; [lia| |lia]. rewrite <- Hback. unfold b. apply product_mono; [exact Hfb|exact Hf|apply get_range, Hb'|exact Hp|exact Hle].
Qed.
(** every storable value survives *)
Theorem C38_exact b : (0 <= b <= 255)%Z -> set_probability (get_probability b) = Ok b.
Proof.
  intros Hb. destruct (byte_facts_all b Hb) as [Hf Hback _ _]. destruct (product (get_probability b) Hf (get_range b Hb)) as (H1 & _).
  unfold set_probability. cbv zeta. rewrite H1, Hback. replace (0 <=? b)%Z with true by lia. replace (b <? 4294967296)%Z with true by lia.
  cbn [andb]. rewrite Z.min_r by lia. reflexivity.
Qed.
(** the storable values are the multiples of 1/255, up to the rounding of double *)
Theorem C38_values b : (0 <= b <= 255)%Z -> Rabs (value (get_probability b) - IZR b / 255) <= bpow radix2 (-53).
Proof.
  intros Hb. pose proof (Bdiv_correct 53 1024 _ _ mode_NE (of_int b) (of_int 255)) as H.
  fold (value (of_int b)) (value (of_int 255)) in H. rewrite !of_int_small in H by lia. fold (rnd (IZR b / 255)) in H.
  assert (Hq : 0 <= IZR b / 255 <= 1).
  { assert (0 <= IZR b <= 255) by (split; apply IZR_le; lia). lra. }
  assert (Hr : 0 <= rnd (IZR b / 255) <= 1).
  { split.
    - replace 0 with (rnd 0) by (apply round_0, valid_rnd_round_mode). apply rnd_le. lra.
    - apply Rle_trans with (rnd 1); [apply rnd_le; lra|]. right. rewrite <- (of_int_small 1) by lia.
      apply round_generic; [apply valid_rnd_round_mode|]. apply generic_format_B2R. }
  specialize (H ltac:(lra)). rewrite Rlt_bool_true in H.
  - destruct H as [H _]. unfold value, get_probability. rewrite H. unfold rnd.
    apply Rle_trans with (/ 2 * ulp radix2 (SpecFloat.fexp 53 1024) (IZR b / 255)).
    + apply error_le_half_ulp. apply valid_fexp.
    + apply Rle_trans with (/ 2 * ulp radix2 (SpecFloat.fexp 53 1024) 1).
      * apply Rmult_le_compat_l; [lra|]. apply ulp_le; [apply valid_fexp|apply fexp_monotone|]. rewrite !Rabs_pos_eq by lra. apply Hq.
      * change 1 with (bpow radix2 0). rewrite ulp_bpow. unfold SpecFloat.fexp, SpecFloat.emin.
        change (Z.max (0 + 1 - 53) (3 - 1024 - 53)) with (-52)%Z. change (-53)%Z with (-52 + -1)%Z. rewrite bpow_plus. change (bpow radix2 (-1)) with (/ 2). lra.
  - rewrite Rabs_pos_eq by apply Hr. apply Rle_lt_trans with 1; [apply Hr|]. change 1 with (bpow radix2 0). apply bpow_lt. lia.
Qed.
(** so the stored value is at most 1/255 (and the rounding) below the probability *)
Theorem C38_within p b : is_finite p = true -> 0 <= value p <= 1 -> set_probability p = Ok b ->
  0 <= value p - value (get_probability b) < 1 / 255 + bpow radix2 (-52).
Proof.
  intros Hf Hp Hs. destruct (C38_floor p Hf Hp) as (b' & Hs' & Hb & H1 & H2). rewrite Hs in Hs'. injection Hs' as <-.
  split; [lra|]. assert (Hpow : bpow radix2 (-52) = 2 * bpow radix2 (-53)). { change (-52)%Z with (1 + -53)%Z. rewrite bpow_plus. change (bpow radix2 1) with 2. lra. }
  assert (0 < bpow radix2 (-53)) by apply bpow_gt_0. destruct (Z.eq_dec b 255) as [->|Hne].
  - rewrite get_255. lra.
  - pose proof (C38_values b Hb) as Hv. pose proof (C38_values (b + 1) ltac:(lia)) as Hv1. rewrite plus_IZR in Hv1.
    assert (value p < value (get_probability (b + 1))).
    { destruct (Rlt_le_dec (value p) (value (get_probability (b + 1)))) as [|Hle]; [assumption|exfalso].
      specialize (H2 (b + 1)%Z ltac:(lia) Hle). pose proof (bf_mono (b + 1) (byte_facts_all (b + 1) ltac:(lia)) ltac:(lia)) as Hm.
      replace (b + 1 - 1)%Z with b in Hm by lia. lra. }
    apply Rabs_le_inv in Hv, Hv1. lra.
Qed.
Definition one_third : double := Bdiv mode_NE (of_int 1) (of_int 3).
Example C38_nonvacuous : is_finite one_third = true /\ 0 <= value one_third <= 1 /\ set_probability one_third = Ok 85%Z /\ set_probability (of_int 1) = Ok 255%Z.
Proof.
  split; [reflexivity|]. split; [|split; vm_compute; reflexivity].
  rewrite <- (of_int_small 0), <- (of_int_small 1) by lia. split; apply Rle_bool_true_iff.
  - rewrite <- (Bleb_correct 53 1024) by reflexivity. vm_compute. reflexivity.
  - rewrite <- (Bleb_correct 53 1024) by reflexivity. vm_compute. reflexivity.
Qed.
(** outside of [0,1]: the conversion of a value that does not fit is undefined *)
Theorem C38_range_refuted : set_probability (of_int (-1)) = Bad UB /\ set_probability B754_nan = Bad UB /\ set_probability (of_int 16843010) = Bad UB /\
  set_probability (of_int 2) = Ok 255%Z.
Proof. vm_compute. repeat split. Qed.
