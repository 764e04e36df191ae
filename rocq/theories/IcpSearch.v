(** (C98, C100, C101) Parts of the point cloud registration that do not concern transforms: reading a cloud with reduced density (icp.hpp), the search for the best overlap (icp.hpp),
    and the random sample consensus (ransac.hpp). Numbers are rational: rounding is not modelled. *)
From stdpp Require Import base list list_numbers sorting.
From Coq Require Import QArith Qround Qabs Qminmax Lqa Lia.
From Verif Require Import Base.
Local Open Scope Z_scope.

(** ** Model: reading a cloud with reduced density (icp.hpp:98-160) *)
Section sample.
  Context {A : Type}.
  (** icp.hpp:122-135, [next] and [hasNext] until the end; [d] is the density, [i] the index *)
  Fixpoint sample (fuel : nat) (d i : Q) (l : list A) : out unit (list A) :=
    match fuel with
    | O => NoFuel
    | S f => match l !! Z.to_nat (Qfloor i) with
             | None => Ok []
             | Some x => r <~ sample f d (i + 1 / d)%Q l ;; Ok (x :: r)
             end
    end.
  (** icp.hpp:140-143 *)
  Definition size (d : Q) (l : list A) : nat := Z.to_nat (Qfloor (inject_Z (Z.of_nat (length l)) * d)).

  (** ** C98: the vertices at multiples of the inverse density are read, and nothing else; with density one each vertex once, with smaller densities none twice. The
      number is the product of the number of vertices and the density, rounded up; [size] is the product rounded down. *)
  Lemma floor_lt (q : Q) (z : Z) : (Qfloor q < z)%Z <-> (q < inject_Z z)%Q.
  Proof.
    split; intros H.
    - apply (Qlt_le_trans _ (inject_Z (Qfloor q + 1))); [apply Qlt_floor|]. rewrite <- Zle_Qle. lia.
    - rewrite Zlt_Qlt. eapply Qle_lt_trans; [apply Qfloor_le|done].
  Qed.
  Lemma ceil_lt (q : Q) (z : Z) : (z < Qceiling q)%Z <-> (inject_Z z < q)%Q.
  Proof.
    unfold Qceiling. assert (H := floor_lt (- q) (- z)). rewrite inject_Z_opp in H. split; intros H1.
    - assert (H2 : (- q < - inject_Z z)%Q) by (apply H; lia). lra.
    - assert (H2 : (Qfloor (- q) < - z)%Z) by (apply H; lra). lia.
  Qed.
  Lemma sample_from (l : list A) d : (0 < d)%Q -> let c := Qceiling (inject_Z (Z.of_nat (length l)) * d) in
    forall m k i fuel, (i == inject_Z (Z.of_nat k) / d)%Q -> Z.of_nat k + Z.of_nat m = c -> (m < fuel)%nat ->
    exists r, sample fuel d i l = Ok r /\ length r = m /\ forall j, (j < m)%nat -> r !! j = l !! Z.to_nat (Qfloor (inject_Z (Z.of_nat (k + j)) / d)).
  Proof.
    intros Hd c m. induction m as [|m IH]; intros k i fuel Hi Hm Hf; (destruct fuel as [|fuel]; [lia|]); cbn [sample].
    all: assert (E : Qfloor i = Qfloor (inject_Z (Z.of_nat k) / d)) by (by apply Qfloor_comp).
    all: assert (P : (0 <= Qfloor i)%Z) by (rewrite E; change 0%Z with (Qfloor 0); apply Qfloor_resp_le; apply Qle_shift_div_l; [done|];
           rewrite Qmult_0_l; change 0%Q with (inject_Z 0); rewrite <- Zle_Qle; lia).
    all: assert (L : (Qfloor i < Z.of_nat (length l))%Z <-> (Z.of_nat k < c)%Z) by
      (rewrite E, floor_lt; unfold c; rewrite ceil_lt; split; intros H;
       [apply (Qmult_lt_compat_r _ _ d Hd) in H; unfold Qdiv in H; rewrite <- Qmult_assoc, (Qmult_comm (/ d)), Qmult_inv_r, Qmult_1_r in H; [done|lra]
       |apply Qlt_shift_div_r; done]).
    - rewrite lookup_ge_None_2; [|lia]. exists []. split; [done|]. split; [done|]. intros j Hj. lia.
    - destruct (lookup_lt_is_Some_2 l (Z.to_nat (Qfloor i))) as [x Hx]; [lia|]. rewrite Hx.
      destruct (IH (S k) (i + 1 / d)%Q fuel) as (r&Hr&Hl&Hj); [|lia|lia|].
      { rewrite Hi, Nat2Z.inj_succ. unfold Z.succ. rewrite inject_Z_plus. change (inject_Z 1) with 1%Q. field. lra. }
      exists (x :: r). split; [by rewrite Hr|]. split; [cbn; by rewrite Hl|]. intros [|j] Hj'.
      + change ((x :: r) !! 0%nat) with (Some x). rewrite Nat.add_0_r, <- E. done.
      + change ((x :: r) !! S j) with (r !! j). rewrite Hj by lia. replace (k + S j)%nat with (S k + j)%nat by lia. done.
  Qed.
  Lemma floor_nat (j : nat) (d : Q) : (0 < d)%Q -> (0 <= Qfloor (inject_Z (Z.of_nat j) / d))%Z.
  Proof.
    intros Hd. change 0%Z with (Qfloor 0). apply Qfloor_resp_le. apply Qle_shift_div_l; [done|]. rewrite Qmult_0_l. change 0%Q with (inject_Z 0). rewrite <- Zle_Qle. lia.
  Qed.
  Theorem C98_sample (l : list A) d : (0 < d)%Q -> let at_ j := Z.to_nat (Qfloor (inject_Z (Z.of_nat j) / d)) in
    exists n r, (forall fuel, (n <= fuel)%nat -> sample fuel d 0 l = Ok r) /\
    Z.of_nat (length r) = Qceiling (inject_Z (Z.of_nat (length l)) * d) /\
    (forall j, (j < length r)%nat -> exists x, r !! j = Some x /\ l !! at_ j = Some x) /\
    (size d l <= length r <= S (size d l))%nat /\
    ((d <= 1)%Q -> forall j j', (j < j')%nat -> (at_ j < at_ j')%nat) /\ ((d == 1)%Q -> r = l).
  Proof.
    intros Hd at_. set (c := Qceiling (inject_Z (Z.of_nat (length l)) * d)).
    assert (Hn : (0 <= inject_Z (Z.of_nat (length l)) * d)%Q).
    { apply Qmult_le_0_compat; [|lra]. change 0%Q with (inject_Z 0). rewrite <- Zle_Qle. lia. }
    assert (Hc : (0 <= c)%Z). { change 0%Z with (Qceiling 0). by apply Qceiling_resp_le. }
    destruct (sample_from l d Hd (Z.to_nat c) 0 0 (S (Z.to_nat c))) as (r&_&Hl&Hj); [|fold c; lia|lia|].
    { change (inject_Z (Z.of_nat 0)) with 0%Q. unfold Qdiv. by rewrite Qmult_0_l. }
    assert (R : forall fuel, (S (Z.to_nat c) <= fuel)%nat -> sample fuel d 0 l = Ok r).
    { intros fuel Hf. destruct (sample_from l d Hd (Z.to_nat c) 0 0 fuel) as (r'&Hr'&Hl'&Hj'); [|fold c; lia|lia|].
      { change (inject_Z (Z.of_nat 0)) with 0%Q. unfold Qdiv. by rewrite Qmult_0_l. }
      rewrite Hr'. f_equal. apply list_eq. intros j. destruct (decide (j < Z.to_nat c)%nat) as [L|L].
      - by rewrite Hj, Hj' by done.
      - by rewrite !lookup_ge_None_2 by lia. }
    exists (S (Z.to_nat c)), r. split; [done|]. split; [fold c; lia|]. cbn [Nat.add] in Hj.
    split; [|split; [|split]].
    - intros j L. destruct (lookup_lt_is_Some_2 r j L) as [x Hx]. exists x. split; [done|]. unfold at_. rewrite <- Hj by lia. done.
    - unfold size. assert (F1 := Qfloor_le (inject_Z (Z.of_nat (length l)) * d)). assert (F2 := Qlt_floor (inject_Z (Z.of_nat (length l)) * d)).
      assert (G1 := Qle_ceiling (inject_Z (Z.of_nat (length l)) * d)). assert (G2 := Qceiling_lt (inject_Z (Z.of_nat (length l)) * d)). fold c in G1, G2.
      rewrite Hl. set (f := Qfloor (inject_Z (Z.of_nat (length l)) * d)) in *.
      assert (A1 : (f <= c)%Z) by (rewrite Zle_Qle; lra). assert (A2 : (c - 1 < f + 1)%Z) by (rewrite Zlt_Qlt; lra). lia.
    - intros H1 j j' Hjj. unfold at_. assert (P1 := floor_nat j d Hd). assert (P2 := floor_nat j' d Hd).
      cut (Qfloor (inject_Z (Z.of_nat j) / d) + 1 <= Qfloor (inject_Z (Z.of_nat j') / d))%Z; [lia|].
      change 1%Z with (Qfloor 1) at 1. rewrite <- (Qfloor_Z (Qfloor _ + _)). apply Qfloor_resp_le. rewrite inject_Z_plus. change (inject_Z (Qfloor 1)) with 1%Q.
      assert (F := Qfloor_le (inject_Z (Z.of_nat j) / d)). 
      assert (D : (inject_Z (Z.of_nat j) / d + 1 <= inject_Z (Z.of_nat j') / d)%Q); [|lra].
      apply Qle_shift_div_l; [done|]. rewrite Qmult_plus_distr_l. unfold Qdiv. rewrite <- Qmult_assoc, (Qmult_comm (/ d)), Qmult_inv_r by lra.
      assert (J : (inject_Z (Z.of_nat j) + 1 <= inject_Z (Z.of_nat j'))%Q); [|lra]. change 1%Q with (inject_Z 1). rewrite <- inject_Z_plus, <- Zle_Qle. lia.
    - intros E. assert (Hcl : c = Z.of_nat (length l)).
      { unfold c. transitivity (Qceiling (inject_Z (Z.of_nat (length l)))); [|apply Qceiling_Z]. apply Qceiling_comp. rewrite E. ring. }
      apply list_eq. intros j. destruct (decide (j < length l)%nat) as [L|L].
      + rewrite Hj by lia. f_equal. transitivity (Z.to_nat (Qfloor (inject_Z (Z.of_nat j)))); [|rewrite Qfloor_Z; lia]. f_equal. apply Qfloor_comp. rewrite E. field.
      + by rewrite !lookup_ge_None_2 by lia.
  Qed.
  (** A density of zero divides by zero (the index becomes infinite, whose conversion to an integer is undefined); the model, where 1/0 is 0, never stops. With a
      negative density the model reads the first vertex again and again; in the program the conversion of a negative index is undefined. *)
  Theorem C98_zero_refuted (x : A) (l : list A) : forall fuel, sample fuel 0 0 (x :: l) = NoFuel.
  Proof.
    assert (G : forall fuel i, (i == 0)%Q -> sample fuel 0 i (x :: l) = NoFuel); [|intros fuel; by apply G].
    induction fuel as [|f IH]; intros i Hi; [done|]. cbn [sample]. rewrite (Qfloor_comp _ _ Hi). cbn -[sample]. rewrite IH; [done|]. rewrite Hi. done.
  Qed.
End sample.
(** Seven points read with density 2/5: three of them, though [size] promises two. *)
Example C98_nonvacuous : sample 9 (2 # 5) 0 [0; 1; 2; 3; 4; 5; 6]%nat = Ok [0; 2; 5]%nat /\ size (2 # 5) [0; 1; 2; 3; 4; 5; 6]%nat = 2%nat.
Proof. vm_compute. done. Qed.

(** ** Model: search for the best overlap (icp.hpp:264-325) *)
(** icp.hpp:286-287 *)
Definition gR : Q := 6180339 # 10000000.
Definition gC : Q := 3819661 # 10000000.
(** the four points x0 .. x3 *)
Record points := Pts { x0 : Q; x1 : Q; x2 : Q; x3 : Q }.
(** icp.hpp:292-301 *)
Definition start (ax bx cx : Q) : points :=
  if Qlt_le_dec (Qabs (bx - ax)) (Qabs (cx - bx)) then Pts ax bx (bx + gC * (cx - bx)) cx else Pts ax (bx - gC * (bx - ax)) bx cx.
(** icp.hpp:307-308 and 312-313. The fourth argument of SHIFT3 is evaluated before the points are moved. *)
Definition move (right : bool) (p : points) : points :=
  if right then Pts (x1 p) (x2 p) (gR * x1 p + gC * x3 p) (x3 p) else Pts (x0 p) (gR * x2 p + gC * x0 p) (x1 p) (x2 p).
(** icp.hpp:304 *)
Definition far (eps : Q) (p : points) : bool := if Qlt_le_dec (eps * (Qabs (x1 p) + Qabs (x2 p))) (Qabs (x3 p - x0 p)) then true else false.
Section golden.
  (** [f] is the function to be minimised, with results in T, compared by [g] (icp.hpp:361-362) *)
  Context {T : Type} (f : Q -> T) (g : T -> Q).
  Definition less (a b : T) : bool := if Qlt_le_dec (g a) (g b) then true else false.
  (** icp.hpp:304-324; the second component of the result lists the points at which [f] was called, last first *)
  Fixpoint search (fuel : nat) (eps : Q) (p : points) (f1 f2 : T) (log : list Q) : out unit (T * list Q) :=
    match fuel with
    | O => NoFuel
    | S n =>
        if far eps p then
          let q := move (less f2 f1) p in
          if less f2 f1 then search n eps q f2 (f (x2 q)) (x2 q :: log) else search n eps q (f (x1 q)) f1 (x1 q :: log)
        else Ok (if less f1 f2 then f1 else f2, log)
    end.
  (** icp.hpp:284-325 *)
  Definition find_min (fuel : nat) (ax bx cx eps : Q) : out unit (T * list Q) :=
    let p := start ax bx cx in search fuel eps p (f (x1 p)) (f (x2 p)) [x2 p; x1 p].

  Definition inside (lo hi : Q) (p : points) : Prop := (lo <= x0 p <= hi)%Q /\ (lo <= x1 p <= hi)%Q /\ (lo <= x2 p <= hi)%Q /\ (lo <= x3 p <= hi)%Q.
  Definition within (d : Q) (p : points) : Prop :=
    (- d <= x0 p - x1 p <= d)%Q /\ (- d <= x0 p - x2 p <= d)%Q /\ (- d <= x0 p - x3 p <= d)%Q /\
    (- d <= x1 p - x2 p <= d)%Q /\ (- d <= x1 p - x3 p <= d)%Q /\ (- d <= x2 p - x3 p <= d)%Q.
  Lemma move_inside w lo hi p : inside lo hi p -> inside lo hi (move w p).
  Proof. unfold inside, move, gR, gC. destruct w; cbn [x0 x1 x2 x3]; intros (?&?&?&?); repeat match goal with |- _ /\ _ => apply conj end; lra. Qed.
  (** moving twice to the same side *)
  Lemma move_contract w w3 w4 w5 lo hi p : inside lo hi p -> within ((77 # 100) * (hi - lo)) (move w5 (move w4 (move w3 (move w (move w p))))).
  Proof.
    destruct p as [a b c e]. unfold inside. cbn [x0 x1 x2 x3]. intros ((?&?)&(?&?)&(?&?)&(?&?)). destruct w, w3, w4, w5.
    all: cbv [move x0 x1 x2 x3 within gR gC].
    all: repeat match goal with |- _ /\ _ => apply conj end; lra.
  Qed.
  (** moving to alternating sides *)
  Lemma move_alternate w p : let q := move w p in (x3 (move (negb w) q) - x0 (move (negb w) q) == gC * (x3 q - x0 q))%Q.
  Proof. unfold move, gR, gC. destruct w; cbn [negb x0 x1 x2 x3]; ring. Qed.
  Lemma within_inside d p : within d p -> exists lo hi, inside lo hi p /\ (hi - lo <= d)%Q.
  Proof.
    destruct p as [a b c e]. unfold within, inside. cbn [x0 x1 x2 x3]. intros (?&?&?&?&?&?).
    exists (Qmin (Qmin a b) (Qmin c e)), (Qmax (Qmax a b) (Qmax c e)).
    destruct (Q.min_spec a b) as [[? ?]|[? ?]], (Q.min_spec c e) as [[? ?]|[? ?]], (Q.max_spec a b) as [[? ?]|[? ?]], (Q.max_spec c e) as [[? ?]|[? ?]];
      destruct (Q.min_spec (Qmin a b) (Qmin c e)) as [[? ?]|[? ?]], (Q.max_spec (Qmax a b) (Qmax c e)) as [[? ?]|[? ?]];
      (repeat match goal with |- _ /\ _ => apply conj end); lra.
  Qed.

  (** one round of the loop *)
  Definition state : Type := points * T * T.
  Definition side (s : state) : bool := less s.2 s.1.2.
  Definition nx (s : state) : state :=
    let q := move (side s) s.1.1 in if side s then (q, s.2, f (x2 q)) else (q, f (x1 q), s.1.2).
  Definition stops (eps : Q) (s : state) : Prop := exists n, forall fuel log, (n <= fuel)%nat -> exists r, search fuel eps s.1.1 s.1.2 s.2 log = Ok r.
  Lemma nx_points s : (nx s).1.1 = move (side s) s.1.1.
  Proof. unfold nx. by destruct (side s). Qed.
  Lemma stops_near eps s : far eps s.1.1 = false -> stops eps s.
  Proof. intros H. exists 1%nat. intros [|fuel] log Hf; [lia|]. cbn [search]. rewrite H. eauto. Qed.
  Lemma stops_nx eps s : stops eps (nx s) -> stops eps s.
  Proof.
    intros [n Hn]. destruct (far eps s.1.1) eqn:F; [|by apply stops_near]. exists (S n). intros [|fuel] log Hf; [lia|]. cbn [search]. rewrite F.
    destruct s as [[p f1] f2]. unfold nx, side in Hn. cbn [fst snd] in *. destruct (less f2 f1); cbn [fst snd] in Hn; apply Hn; lia.
  Qed.
  Lemma stops_iter eps k s : stops eps (Nat.iter k nx s) -> stops eps s.
  Proof. revert s. induction k as [|k IH]; intros s H; [done|]. apply stops_nx, IH. rewrite <- Nat.iter_succ_r. done. Qed.
  Lemma iter_inside lo hi k s : inside lo hi s.1.1 -> inside lo hi (Nat.iter k nx s).1.1.
  Proof. intros H. induction k as [|k IH]; [done|]. cbn [Nat.iter nat_rect]. rewrite nx_points. by apply move_inside. Qed.
  Lemma far_spec eps lo hi p : (0 < eps)%Q -> (0 <= lo)%Q -> inside lo hi p -> far eps p = true -> (2 * eps * lo < Qabs (x3 p - x0 p))%Q.
  Proof.
    intros He Hl (H0&H1&H2&H3). unfold far. destruct Qlt_le_dec as [L|L]; [intros _|done]. eapply Qle_lt_trans; [|apply L].
    rewrite !Qabs_pos by lra. setoid_replace (2 * eps * lo)%Q with (eps * (lo + lo))%Q by ring. rewrite !(Qmult_comm eps). apply Qmult_le_compat_r; lra.
  Qed.
  Lemma search_double eps lo hi n s : (0 < eps)%Q -> (0 < lo)%Q -> inside lo hi s.1.1 ->
    (Qabs (x3 (nx s).1.1 - x0 (nx s).1.1) <= inject_Z (Z.of_nat n) * (eps * lo))%Q ->
    stops eps s \/ exists k, side (Nat.iter k nx s) = side (Nat.iter (S k) nx s).
  Proof.
    intros He Hl. revert s. assert (P : (0 < eps * lo)%Q) by (by apply Qmult_lt_0_compat). set (d := (eps * lo)%Q) in *.
    induction n as [|n IH]; intros s Hi HL; (destruct (far eps (nx s).1.1) eqn:F; [|left; by apply stops_nx, stops_near]);
      (apply (far_spec eps lo hi) in F; [|done|lra|by apply (iter_inside lo hi 1)]); setoid_replace (2 * eps * lo)%Q with (2 * d)%Q in F by (unfold d; ring).
    - change (inject_Z (Z.of_nat 0)) with 0%Q in HL. exfalso. lra.
    - destruct (decide (side s = side (nx s))) as [E|E]; [right; by exists 0%nat|].
      destruct (IH (nx s)) as [H|[k Hk]].
      + by apply (iter_inside lo hi 1).
      + assert (A := move_alternate (side s) s.1.1). cbn zeta in A. rewrite <- nx_points in A. replace (negb (side s)) with (side (nx s)) in A by (by destruct (side s), (side (nx s))).
        rewrite <- nx_points in A. rewrite A, Qabs_Qmult. change (Qabs gC) with gC. set (y := Qabs (x3 (nx s).1.1 - x0 (nx s).1.1)) in *. clearbody y d.
        rewrite Nat2Z.inj_succ in HL. unfold Z.succ in HL. rewrite inject_Z_plus in HL. change (inject_Z 1) with 1%Q in HL.
        set (m := inject_Z (Z.of_nat n)) in *. clearbody m. unfold gC. assert (E2 : ((m + 1) * d == m * d + d)%Q) by ring. rewrite E2 in HL. set (md := (m * d)%Q) in *. clearbody md. lra.
      + left. by apply stops_nx.
      + right. exists (S k). rewrite (Nat.iter_succ_r k), (Nat.iter_succ_r (S k)). done.
  Qed.
  Lemma search_stops eps ax cx m : (0 < eps)%Q -> (0 < ax)%Q -> forall s lo hi, inside ax cx s.1.1 -> inside lo hi s.1.1 ->
    (hi - lo <= inject_Z (Z.of_nat m) * ((23 # 100) * (eps * ax)))%Q -> stops eps s.
  Proof.
    intros He Ha. assert (P : (0 < eps * ax)%Q) by (by apply Qmult_lt_0_compat).
    induction m as [|m IH]; intros s lo hi Hi Hh HD; (destruct (far eps s.1.1) eqn:F; [|by apply stops_near]);
      (apply (far_spec eps ax cx) in F; [|done|lra|done]); setoid_replace (2 * eps * ax)%Q with (2 * (eps * ax))%Q in F by ring; set (d := (eps * ax)%Q) in *.
    - change (inject_Z (Z.of_nat 0)) with 0%Q in HD. rewrite Qmult_0_l in HD. exfalso. destruct Hh as (?&_&_&?). 
      assert (E : (x3 s.1.1 - x0 s.1.1 == 0)%Q) by lra. rewrite E in F. change (Qabs 0) with 0%Q in F. clearbody d. lra.
    - assert (D : (2 * d < hi - lo)%Q).
      { eapply Qlt_le_trans; [apply F|]. destruct Hh as (?&_&_&?). apply Qabs_Qle_condition. lra. }
      destruct (search_double eps ax cx (Z.to_nat (Qceiling (cx / d))) s) as [H|[k Hk]]; [done..| |done|].
      + assert (Hn := iter_inside ax cx 1 s Hi). change (Nat.iter 1 nx s) with (nx s) in Hn. destruct Hn as (?&_&_&?).
        apply (Qle_trans _ cx). { apply Qabs_Qle_condition. lra. }
        fold d. assert (C := Qle_ceiling (cx / d)). assert (Z0 : (0 <= Qceiling (cx / d))%Z).
        { change 0%Z with (Qceiling 0). apply Qceiling_resp_le. apply Qle_shift_div_l; [done|]. rewrite Qmult_0_l. lra. }
        rewrite Z2Nat.id by done. apply (Qmult_le_compat_r _ _ d) in C; [|lra].
        unfold Qdiv in C at 1. rewrite <- Qmult_assoc, (Qmult_comm (/ d)), Qmult_inv_r, Qmult_1_r in C; [done|lra].
      + set (s' := Nat.iter k nx s) in *. assert (Hi' := iter_inside ax cx k s Hi). assert (Hh' := iter_inside lo hi k s Hh). fold s' in Hi', Hh'.
        apply (stops_iter eps k). fold s'. apply (stops_iter eps 5).
        assert (W : within ((77 # 100) * (hi - lo)) (Nat.iter 5 nx s').1.1).
        { cbn [Nat.iter nat_rect]. rewrite !nx_points. change (side (Nat.iter (S k) nx s)) with (side (nx s')) in Hk. rewrite <- Hk. by apply move_contract. }
        apply within_inside in W. destruct W as (lo'&hi'&HI&HW). apply (IH _ lo' hi'); [by apply iter_inside|done|].
        rewrite Nat2Z.inj_succ in HD. unfold Z.succ in HD. rewrite inject_Z_plus in HD. change (inject_Z 1) with 1%Q in HD.
        set (mq := inject_Z (Z.of_nat m)) in *. clearbody mq d. assert (E2 : ((mq + 1) * ((23 # 100) * d) == mq * ((23 # 100) * d) + (23 # 100) * d)%Q) by ring. rewrite E2 in HD.
        set (md := (mq * ((23 # 100) * d))%Q) in *. clearbody md. lra.
  Qed.
  Lemma start_inside ax bx cx : (ax < bx)%Q -> (bx < cx)%Q -> inside ax cx (start ax bx cx).
  Proof.
    intros H1 H2. unfold start, gC. destruct Qlt_le_dec; unfold inside; cbn [x0 x1 x2 x3]; (repeat match goal with |- _ /\ _ => apply conj end); lra.
  Qed.

  (** ** C100 *)
  Lemma search_best eps lo hi fuel : forall p f1 f2 log y log', inside lo hi p -> f1 = f (x1 p) -> f2 = f (x2 p) -> x1 p ∈ log -> x2 p ∈ log ->
    (forall x, x ∈ log -> (lo <= x <= hi)%Q /\ ((g f1 <= g (f x))%Q \/ (g f2 <= g (f x))%Q)) -> search fuel eps p f1 f2 log = Ok (y, log') ->
    (forall x, x ∈ log -> x ∈ log') /\ (exists x, x ∈ log' /\ y = f x) /\ forall x, x ∈ log' -> (lo <= x <= hi)%Q /\ (g y <= g (f x))%Q.
  Proof.
    induction fuel as [|fuel IH]; intros p f1 f2 log y log' Hi E1 E2 L1 L2 HB; [done|]. cbn [search]. destruct (far eps p).
    - destruct (less f2 f1) eqn:Lf; (intros H; apply IH in H; [|by apply move_inside|..]);
        try (destruct H as (A&B&C); split; [intros x Hx; apply A; right; done|done]).
      + cbn [move x1]. done.
      + done.
      + cbn [move x1]. by right.
      + left.
      + unfold less in Lf. destruct Qlt_le_dec as [L|L]; [|done]. intros x Hx. apply elem_of_cons in Hx as [->|Hx].
        * split; [apply (move_inside true) in Hi; by destruct Hi as (_&_&?&_)|]. right. apply Qle_refl.
        * destruct (HB x Hx) as [? [?|?]]; (split; [done|]); left; lra.
      + done.
      + cbn [move x2]. done.
      + left.
      + cbn [move x2]. by right.
      + unfold less in Lf. destruct Qlt_le_dec as [L|L]; [done|]. intros x Hx. apply elem_of_cons in Hx as [->|Hx].
        * split; [apply (move_inside false) in Hi; by destruct Hi as (_&?&_&_)|]. left. apply Qle_refl.
        * destruct (HB x Hx) as [? [?|?]]; (split; [done|]); right; lra.
    - intros H. assert (EL := f_equal (fun o => match o with Ok (_, l) => l | _ => [] end) H). assert (EY := f_equal (fun o => match o with Ok (a, _) => a | _ => f1 end) H).
      cbn in EL, EY. subst log'. rewrite <- EY. clear EY H. split; [done|]. unfold less. destruct (Qlt_le_dec (g f1) (g f2)) as [L|L].
      + split; [by exists (x1 p)|]. intros x Hx. destruct (HB x Hx) as [? [?|?]]; (split; [done|]); lra.
      + split; [by exists (x2 p)|]. intros x Hx. destruct (HB x Hx) as [? [?|?]]; (split; [done|]); lra.
  Qed.
  (** For an interval of positive numbers and a positive accuracy the search comes to an end. It only asks for values inside the interval, the middle among them, and returns the best
      of all the values it asked for. *)
  Theorem C100_search ax bx cx eps : (0 < ax)%Q -> (ax < bx)%Q -> (bx < cx)%Q -> (0 < eps)%Q ->
    exists n, forall fuel, (n <= fuel)%nat -> exists y log, find_min fuel ax bx cx eps = Ok (y, log) /\
      bx ∈ log /\ (exists x, x ∈ log /\ y = f x) /\ forall x, x ∈ log -> (ax <= x <= cx)%Q /\ (g y <= g (f x))%Q.
  Proof.
    intros Ha H1 H2 He. assert (I := start_inside ax bx cx H1 H2). set (p := start ax bx cx) in *.
    assert (P : (0 < eps * ax)%Q) by (by apply Qmult_lt_0_compat). set (d := ((23 # 100) * (eps * ax))%Q). assert (Pd : (0 < d)%Q) by (unfold d; lra).
    destruct (search_stops eps ax cx (Z.to_nat (Qceiling ((cx - ax) / d))) He Ha (p, f (x1 p), f (x2 p)) ax cx I I) as [n Hn].
    { fold d. assert (C := Qle_ceiling ((cx - ax) / d)). rewrite Z2Nat.id.
      - apply (Qmult_le_compat_r _ _ d) in C; [|lra]. unfold Qdiv in C at 1. rewrite <- Qmult_assoc, (Qmult_comm (/ d)), Qmult_inv_r, Qmult_1_r in C; [done|lra].
      - change 0%Z with (Qceiling 0). apply Qceiling_resp_le. apply Qle_shift_div_l; [done|]. rewrite Qmult_0_l. lra. }
    cbn [fst snd] in Hn. exists n. intros fuel Hf. destruct (Hn fuel [x2 p; x1 p] Hf) as [[y log] Hr]. exists y, log. unfold find_min. fold p. split; [done|].
    destruct (search_best eps ax cx fuel p (f (x1 p)) (f (x2 p)) [x2 p; x1 p] y log I eq_refl eq_refl) as (A&B&C); [right; left|left| |done|].
    - intros x Hx. apply elem_of_cons in Hx as [->|Hx]; [|apply elem_of_list_singleton in Hx as ->].
      + split; [by destruct I as (_&_&?&_)|]. right. apply Qle_refl.
      + split; [by destruct I as (_&?&_&_)|]. left. apply Qle_refl.
    - split; [|done]. apply A. unfold p, start. destruct Qlt_le_dec; cbn [x1 x2]; [right; left|left].
  Qed.
End golden.

(** The search may miss the minimum of a function that first falls and then rises, however small the accuracy: it is 7/4 here, and the search between 1 and 3 does not come closer
    than 0.13. (The new point is computed from the old inner point, so after the first step both inner points coincide, and the comparison tells nothing.) *)
Definition valley (x : Q) : Q := Qabs (x - (7 # 4)).
Lemma valley_left x : (x <= 16180339 # 10000000)%Q -> (13 # 100 <= valley x)%Q.
Proof. intros H. unfold valley. rewrite Qabs_neg by lra. lra. Qed.
Lemma valley_search eps fuel : forall p f1 f2 log y log', inside 1 (16180339 # 10000000) p -> (13 # 100 <= f1)%Q -> (13 # 100 <= f2)%Q ->
  search valley id fuel eps p f1 f2 log = Ok (y, log') -> (13 # 100 <= y)%Q.
Proof.
  induction fuel as [|fuel IH]; intros p f1 f2 log y log' Hi H1 H2; [done|]. cbn [search]. destruct (far eps p).
  - destruct (less id f2 f1); intros H; (apply IH in H; [done|by apply move_inside|..]); try done.
    + apply valley_left. apply (move_inside true) in Hi. by destruct Hi as (_&_&[_ ?]&_).
    + apply valley_left. apply (move_inside false) in Hi. by destruct Hi as (_&[_ ?]&_&_).
  - intros H. assert (EY := f_equal (fun o => match o with Ok (a, _) => a | _ => f1 end) H). cbn in EY. rewrite <- EY. by destruct less.
Qed.
Theorem C100_minimum_refuted : (valley (7 # 4) == 0)%Q /\ (forall u v, (u < v)%Q -> ((v <= 7 # 4)%Q -> (valley v < valley u)%Q) /\ ((7 # 4 <= u)%Q -> (valley u < valley v)%Q)) /\
  forall eps fuel y log, find_min valley id fuel 1 2 3 eps = Ok (y, log) -> (13 # 100 <= y)%Q.
Proof.
  split; [done|]. split.
  - intros u v L. unfold valley. split; intros H; [rewrite !Qabs_neg by lra|rewrite !Qabs_pos by lra]; lra.
  - intros eps fuel y log. unfold find_min. destruct fuel as [|fuel]; [done|].
    assert (G : forall a : Q * list Q, (13 # 100 <= a.1)%Q -> Ok (S := unit) a = Ok (y, log) -> (13 # 100 <= y)%Q).
    { intros a Ha H. assert (EY := f_equal (fun o => match o with Ok (b, _) => b | _ => 0%Q end) H). cbn in EY. by rewrite <- EY. }
    cbn [search]. destruct far; [|apply G; vm_compute; done]. change (less id (valley (x2 (start 1 2 3))) (valley (x1 (start 1 2 3)))) with false. cbv iota.
    destruct fuel as [|fuel]; [done|]. cbn [search]. destruct far; [|apply G; vm_compute; done]. 
    match goal with |- context [less id ?a ?b] => change (less id a b) with false end. cbv iota.
    apply valley_search; [|vm_compute; done..]. unfold inside. repeat match goal with |- _ /\ _ => apply conj end; vm_compute; done.
Qed.
(** If the interval begins at zero, the search for the minimum of an increasing function never ends. *)
Theorem C100_zero_refuted eps : (eps <= 1 # 2)%Q -> forall fuel, find_min id id fuel 0 1 2 eps = NoFuel.
Proof.
  intros He. assert (G : forall fuel a b e log, (0 < a)%Q -> (a <= b)%Q -> (b <= e)%Q -> (a < e)%Q -> (gR * b <= a)%Q -> search id id fuel eps (Pts 0 a b e) a b log = NoFuel).
  - induction fuel as [|fuel IH]; intros a b e log Ha Hab Hbe Hae Hr; [done|]. cbn [search]. replace (far eps (Pts 0 a b e)) with true.
    + replace (less id b a) with false; [|unfold less, id; destruct Qlt_le_dec; [lra|done]]. cbn [move x0 x1 x2 x3]. cbv iota. change (id (gR * b + gC * 0))%Q with (gR * b + gC * 0)%Q.
      unfold gR, gC in *. apply IH; lra.
    + unfold far. cbn [x0 x1 x2 x3]. destruct Qlt_le_dec as [L|L]; [done|]. exfalso. rewrite !Qabs_pos in L by lra.
      assert (M : (eps * (a + b) <= (1 # 2) * (a + b))%Q) by (apply Qmult_le_compat_r; lra). lra.
  - intros fuel. unfold find_min. change (start 0 1 2) with (Pts 0 (1 - gC * (1 - 0)) 1 2). cbn [x1 x2]. unfold gC. change (@id Q) with (fun x : Q => x) at 3 4. cbv beta. apply G; unfold gR; lra.
Qed.
Example C100_nonvacuous : match find_min valley id 40 1 2 3 (1 # 100) with Ok (y, log) => (y == 1319661 # 10000000)%Q /\ length log = 8%nat | _ => False end.
Proof. vm_compute. done. Qed.

(** ** Model: random sample consensus (ransac.hpp:102-180) *)
(** ransac.hpp:102-115; the shuffled indices are an argument *)
Definition pick_indices (shuffled : list nat) (n : nat) : list nat := take n shuffled.
Section ransac.
  (** [fit] and [test] are the functions of TModelFit (ransac.hpp:31-61, 63-71); [pick k] is the k-th random choice of samples; [limit n] is the number of rounds estimated from [n] inliers
      (ransac.hpp:165-171: a logarithm in single precision) *)
  Context {M : Type} (fit : list nat -> option M) (test : nat -> M -> Q) (pick : nat -> list nat) (limit : nat -> nat) (samples : nat) (threshold : Q) (hard : nat).
  (** ransac.hpp:136-146: the choices from number [k] on; [None] is the early return *)
  Fixpoint try_fit (fuel : nat) (k : nat) : option M * nat :=
    match fuel with
    | O => (None, k)  (* ransac.hpp:142-143 with i = hardIterLimit + 1; a model found in that very round is dropped *)
    | S n => match fit (pick k) with Some m => (Some m, S k) | None => try_fit n (S k) end
    end.
  (** ransac.hpp:148-154 *)
  Definition inliers (m : M) : list nat := filter (fun i => Qle_bool threshold (test i m) = false) (seq 0 samples).
  (** ransac.hpp:129-178; [rounds] is the number of rounds left before the hard limit. The result: the returned flag, the model and the inliers if they were set, and the models
      that were tried *)
  Fixpoint consensus (rounds iter k : nat) (score soft : nat) (best : option (M * list nat)) (tried : list M) : out unit (bool * option (M * list nat) * list M) :=
    match rounds with
    | O => Ok (true, best, tried)
    | S n =>
        if (iter <? soft)%nat then
          match try_fit hard k with
          | (None, _) => Ok (false, best, tried)
          | (Some m, k') =>
              let sup := inliers m in
              if (length sup =? 0)%nat then Bad Abort  (* ransac.hpp:155, assert *)
              else if (score <? length sup)%nat then consensus n (S iter) k' (length sup) (limit (length sup)) (Some (m, sup)) (m :: tried)
              else consensus n (S iter) k' score soft best (m :: tried)
          end
        else Ok (true, best, tried)
    end.
  Definition ransac : out unit (bool * option (M * list nat) * list M) := consensus hard 0 0 0 1 None [].

  (** ** C101 *)
  (** sample [i] supports model [m] *)
  Definition supports (m : M) (i : nat) : Prop := (i < samples)%nat /\ (test i m < threshold)%Q.
  Lemma inliers_spec m i : i ∈ inliers m <-> supports m i.
  Proof.
    unfold inliers, supports. rewrite elem_of_list_filter, elem_of_seq. rewrite <- not_true_iff_false, Qle_bool_iff. split.
    - intros [H1 H2]. split; [lia|]. by apply Qnot_le_lt.
    - intros [H1 H2]. split; [|lia]. by apply Qlt_not_le.
  Qed.
  Lemma inliers_most m l : NoDup l -> (forall i, i ∈ l -> supports m i) -> (length l <= length (inliers m))%nat.
  Proof. intros Hn Hl. apply submseteq_length. apply NoDup_submseteq; [done|]. intros i Hi. by apply inliers_spec, Hl. Qed.
  Lemma try_fit_some fuel k m k' : try_fit fuel k = (Some m, k') -> exists j, fit (pick j) = Some m.
  Proof. revert k. induction fuel as [|fuel IH]; intros k; cbn [try_fit]; [done|]. destruct (fit (pick k)) eqn:E; [|apply IH]. intros H. exists k. rewrite E. by injection H as -> _. Qed.
  Lemma try_fit_none fuel k k' : try_fit fuel k = (None, k') -> forall j, (j < fuel)%nat -> fit (pick (k + j)) = None.
  Proof.
    revert k. induction fuel as [|fuel IH]; intros k; cbn [try_fit]; [lia|]. destruct (fit (pick k)) eqn:E; [done|]. intros H [|j] Hj.
    - by rewrite Nat.add_0_r.
    - replace (k + S j)%nat with (S k + j)%nat by lia. apply IH; [done|lia].
  Qed.
  Definition good_best (best : option (M * list nat)) (tried : list M) (score : nat) : Prop :=
    match best with
    | None => tried = [] /\ score = 0%nat
    | Some (m, sup) => m ∈ tried /\ sup = inliers m /\ score = length sup /\ (0 < score)%nat /\ forall m', m' ∈ tried -> (length (inliers m') <= score)%nat
    end.
  Lemma consensus_good rounds : forall iter k score soft best tried, good_best best tried score -> (forall m, m ∈ tried -> exists j, fit (pick j) = Some m) ->
    match consensus rounds iter k score soft best tried with
    | Ok (flag, best', tried') =>
        (exists score', good_best best' tried' score') /\ (length tried <= length tried' <= length tried + rounds)%nat /\ (forall m, m ∈ tried' -> exists j, fit (pick j) = Some m) /\
        (flag = false -> exists k', forall j, (j < hard)%nat -> fit (pick (k' + j)) = None) /\ (flag = true -> (iter < soft)%nat -> rounds <> 0%nat -> is_Some best')
    | Bad e => e = Abort /\ exists m j, fit (pick j) = Some m /\ forall i, ~ supports m i
    | _ => False
    end.
  Proof.
    induction rounds as [|n IH]; intros iter k score soft best tried Hb Ht; cbn [consensus].
    { split; [by exists score|]. split; [lia|]. split; [done|]. by split. }
    destruct (Nat.ltb_spec iter soft) as [L|L].
    2:{ split; [by exists score|]. split; [lia|]. split; [done|]. split; [done|]. intros. lia. }
    destruct (try_fit hard k) as [[m|] k'] eqn:F.
    2:{ split; [by exists score|]. split; [lia|]. split; [done|]. split; [|done]. intros _. exists k. by eapply try_fit_none. }
    assert (Fm := try_fit_some _ _ _ _ F). destruct (Nat.eqb_spec (length (inliers m)) 0) as [E|E].
    { split; [done|]. destruct Fm as [j Hj]. exists m, j. split; [done|]. intros i Hi. apply inliers_spec in Hi. apply nil_length_inv in E. rewrite E in Hi. by apply elem_of_nil in Hi. }
    assert (Ht' : forall m', m' ∈ m :: tried -> exists j, fit (pick j) = Some m') by (intros m' Hm; apply elem_of_cons in Hm as [->|Hm]; [done|by apply Ht]).
    destruct (Nat.ltb_spec score (length (inliers m))) as [S1|S1].
    - assert (G : good_best (Some (m, inliers m)) (m :: tried) (length (inliers m))).
      { cbn. split; [left|]. split; [done|]. split; [done|]. split; [lia|]. intros m' Hm. apply elem_of_cons in Hm as [->|Hm]; [done|].
        destruct best as [[b sup]|]; cbn in Hb; [destruct Hb as (_&_&_&_&Hb); specialize (Hb _ Hm); lia|destruct Hb as [-> _]; by apply elem_of_nil in Hm]. }
      specialize (IH (S iter) k' (length (inliers m)) (limit (length (inliers m))) (Some (m, inliers m)) (m :: tried) G Ht').
      destruct consensus as [[[flag best'] tried']| | |]; [|done..]. destruct IH as ([sc Hsc]&I2&I3&I4&I5). split; [by exists sc|]. split; [cbn in I2; lia|]. split; [done|]. split; [done|].
      intros _ _ _. destruct best' as [b'|]; [done|]. exfalso. cbn in Hsc. destruct Hsc as [-> _]. cbn in I2. lia.
    - assert (B : exists b sup, best = Some (b, sup)). { destruct best as [[b sup]|]; [by exists b, sup|]. cbn in Hb. destruct Hb as [_ ->]. lia. }
      destruct B as (b&sup&->). cbn in Hb. destruct Hb as (B1&B2&B3&B4&B5).
      assert (G : good_best (Some (b, sup)) (m :: tried) score).
      { cbn. split; [by right|]. split; [done|]. split; [done|]. split; [done|]. intros m' Hm. apply elem_of_cons in Hm as [->|Hm]; [done|by apply B5]. }
      specialize (IH (S iter) k' score soft (Some (b, sup)) (m :: tried) G Ht').
      destruct consensus as [[[flag best'] tried']| | |]; [|done..]. destruct IH as ([sc Hsc]&I2&I3&I4&I5). split; [by exists sc|]. split; [cbn in I2; lia|]. split; [done|]. split; [done|].
      intros _ _ _. destruct best' as [b'|]; [done|]. exfalso. cbn in Hsc. destruct Hsc as [-> _]. cbn in I2. lia.
  Qed.
  (** The search ends after at most [hard] rounds. Every model that was tried fits one of the random choices. The reported model is one of them; exactly the samples closer than the
      threshold are its inliers, in increasing order, and no model that was tried is supported by more samples. With a positive limit, success means that there is a model, and
      failure that [hard] choices in a row had no model. The only abnormal end is the assertion that a model supports some sample. *)
  Theorem C101_consensus :
    match ransac with
    | Ok (flag, best, tried) =>
        (length tried <= hard)%nat /\ (forall m, m ∈ tried -> exists j, fit (pick j) = Some m) /\
        (forall m sup, best = Some (m, sup) -> m ∈ tried /\ StronglySorted lt sup /\ (forall i, i ∈ sup <-> supports m i) /\ sup <> [] /\
           forall m' l, m' ∈ tried -> NoDup l -> (forall i, i ∈ l -> supports m' i) -> (length l <= length sup)%nat) /\
        (best = None -> tried = []) /\ (flag = true -> (0 < hard)%nat -> is_Some best) /\
        (flag = false -> exists k, forall j, (j < hard)%nat -> fit (pick (k + j)) = None)
    | Bad e => e = Abort /\ exists m j, fit (pick j) = Some m /\ forall i, ~ supports m i
    | _ => False
    end.
  Proof.
    assert (H := consensus_good hard 0 0 0 1 None []). unfold ransac. destruct (consensus hard 0 0 0 1 None []) as [[[flag best] tried]| | |];
      [|apply H; [done|intros m Hm; by apply elem_of_nil in Hm]..].
    destruct H as ([sc Hsc]&I2&I3&I4&I5); [done|intros m Hm; by apply elem_of_nil in Hm|]. split; [cbn in I2; lia|]. split; [done|]. split; [|split; [|split]].
    - intros m sup ->. cbn in Hsc. destruct Hsc as (A1&A2&A3&A4&A5). split; [done|]. split; [|split; [|split]].
      + subst sup. unfold inliers. generalize 0%nat. clear. induction samples as [|n IH]; intros a; [constructor|]. cbn [seq]. rewrite filter_cons. case_decide; [|apply IH].
        constructor; [apply IH|]. apply Forall_forall. intros x Hx. apply elem_of_list_filter in Hx as [_ Hx]. apply elem_of_seq in Hx. lia.
      + intros i. subst sup. apply inliers_spec.
      + intros ->. cbn in A3. lia.
      + intros m' l Hm Hn Hl. rewrite <- A3. etransitivity; [by apply (inliers_most m')|]. by apply A5.
    - intros ->. by destruct Hsc.
    - intros Hf Hh. apply I5; [done|lia|lia].
    - done.
  Qed.
End ransac.
Theorem C101_pick (size n : nat) shuffled : Permutation shuffled (seq 0 size) -> (n <= size)%nat ->
  length (pick_indices shuffled n) = n /\ NoDup (pick_indices shuffled n) /\ forall i, i ∈ pick_indices shuffled n -> (i < size)%nat.
Proof.
  intros H Hn. unfold pick_indices. split; [|split].
  - rewrite take_length, H, seq_length. lia.
  - assert (N : NoDup shuffled) by (rewrite H; apply NoDup_seq). rewrite <- (take_drop n shuffled) in N. by apply NoDup_app in N as (?&_&_).
  - intros i Hi. apply elem_of_take in Hi as (j&Hj&_). assert (E : i ∈ shuffled) by (by eapply elem_of_list_lookup_2). rewrite H in E. apply elem_of_seq in E. lia.
Qed.
(** With the limit zero the search reports success although it has not set any model. *)
Theorem C101_success_refuted : exists (fit : list nat -> option nat) test pick limit, ransac fit test pick limit 5 1 0 = Ok (true, None, []).
Proof. by exists (fun _ => None), (fun _ _ => 0%Q), (fun _ => []), (fun _ => 0%nat). Qed.
(** It may also have replaced the caller's model although it reports failure. *)
Theorem C101_failure_refuted : exists (fit : list nat -> option nat) test pick limit m sup, ransac fit test pick limit 5 1 3 = Ok (false, Some (m, sup), [m]).
Proof.
  by exists (fun l => match l with [0%nat] => Some 7%nat | _ => None end), (fun i _ => if (i <? 2)%nat then 0%Q else 2%Q), (fun k => [k]), (fun _ => 9%nat), 7%nat, [0; 1]%nat.
Qed.
(** Five samples on a line; a model is the value of one sample. *)
Example C101_nonvacuous : ransac (fun l => match l with [i] => [3; 8; 4; 5; 9]%nat !! i | _ => None end) (fun i m => Qabs (inject_Z (Z.of_nat (default 0%nat ([3; 8; 4; 5; 9]%nat !! i))) - inject_Z (Z.of_nat m)))
  (fun k => [k]) (fun n => if (n <? 3)%nat then 9%nat else 1%nat) 5 2 100 = Ok (true, Some (4%nat, [0; 2; 3]%nat), [4; 8; 3]%nat).
Proof. vm_compute. done. Qed.
