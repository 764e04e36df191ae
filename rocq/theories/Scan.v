(** Model of the text format of laser scans (src/maps/LaserScan.cpp:116-230).  C54.

    A stream is modelled by the characters that are left and its eofbit and failbit.  How an iostream prints and reads floating point
    numbers comes from outside of the model (see [float_io]); how it reads and writes integers is modelled.  The lines "orientation" and
    "origin", which do not change the scan but the transformation that importScanFile uses, are left out (:125-135). *)
From Coq Require Import ZArith Reals Lra Ascii.
From stdpp Require Import prelude strings pretty.
From Flocq Require Import Core BinarySingleNaN.
From Verif Require Import Base Ids PersistProps.
Local Open Scope Z_scope.

Global Instance prec_pos24 : Prec_gt_0 24 := eq_refl.
Global Instance prec_lt24 : Prec_lt_emax 24 128 := eq_refl.
(** C++ float *)
Definition single : Type := binary_float 24 128.
Definition single_of (k : Z) : single := binary_normalize 24 128 _ _ mode_NE k 0 false.
Definition single_zero : single := B754_zero false.

Definition text : Type := list ascii.
Definition str (s : string) : text := list_ascii_of_string s.
Definition space : ascii := " "%char.
Definition newline : ascii := "010"%char.
(** std::isspace in the C locale *)
Definition is_space (c : ascii) : bool := bool_decide (c ∈ [" "%char; "009"%char; "010"%char; "011"%char; "012"%char; "013"%char]).
(** [os << n] for an unsigned int *)
Definition show (n : Z) : text := str (pretty n).

(** LaserScan.hpp:20-25 *)
Record scanline : Type := Line { l_phi : single; l_ranges : list Z; l_remissions : list Z }.
(** LaserScan.hpp:27-51; points_per_line is [None] if it was never set.  D: the type double *)
Record scan (D : Type) : Type := Scan { delta_psi : single; origin_psi : single; origin_phi : single; offset : D * D * D; per_line : option Z; lines : list scanline }.
Arguments Scan {D}. Arguments delta_psi {D}. Arguments origin_psi {D}. Arguments origin_phi {D}. Arguments offset {D}. Arguments per_line {D}. Arguments lines {D}.

(** ** Streams *)
Record stream : Type := Stream { rest : text; eof : bool; fail : bool }.
Fixpoint drop_spaces (t : text) : text := match t with c :: t' => if is_space c then drop_spaces t' else t | [] => [] end.
(** the sentry of an extraction: skips white space; [None] if the stream is not good or there is nothing left *)
Definition sentry (s : stream) : option text := if eof s || fail s then None else match drop_spaces (rest s) with [] => None | t => Some t end.
(** the state after the sentry has refused *)
Definition refused (s : stream) : stream := if eof s || fail s then Stream (rest s) (eof s) true else Stream [] true true.
Definition at_end (t : text) : bool := match t with [] => true | _ => false end.
Fixpoint span (p : ascii -> bool) (t : text) : text * text :=
  match t with c :: t' => if p c then (c :: (span p t').1, (span p t').2) else ([], t) | [] => ([], []) end.
(** [s >> key] *)
Definition read_word (s : stream) : text * stream :=
  match sentry s with
  | None => ([], refused s)
  | Some t => let w := span (fun c => negb (is_space c)) t in (w.1, Stream w.2 (at_end w.2) false)
  end.
(** [s >> dist] for an int: the value that is stored, [None] if the variable is not written *)
Fixpoint take_digits (acc : Z) (t : text) : Z * text :=
  match t with c :: t' => match digit c with Some d => take_digits (10 * acc + d) t' | None => (acc, t) end | [] => (acc, []) end.
Definition read_int (s : stream) : option Z * stream :=
  match sentry s with
  | None => (None, refused s)
  | Some t =>
    let '(neg, t) := match t with c :: t' => if decide (c = "-"%char) then (true, t') else if decide (c = "+"%char) then (false, t') else (false, t) | [] => (false, []) end in
    match t with
    | c :: _ => match digit c with
                | Some _ => let '(v, r) := take_digits 0 t in let v := if neg : bool then - v else v in
                            if decide (v < - 2 ^ 31) then (Some (- 2 ^ 31), Stream r (at_end r) true)
                            else if decide (2 ^ 31 <= v) then (Some (2 ^ 31 - 1), Stream r (at_end r) true)
                            else (Some v, Stream r (at_end r) false)
                | None => (Some 0, Stream t false true)
                end
    | [] => (Some 0, Stream [] true true)
    end
  end.
Section Io.
  Context {D : Type} (d_zero : D).
  (** [os << x], and [is >> x] after white space was skipped: the value ([None]: not a number) and the text left *)
  Context (print_f : single -> text) (scan_f : text -> option single * text) (print_d : D -> text) (scan_d : text -> option D * text).
  Definition read_num {A} (zero : A) (sc : text -> option A * text) (s : stream) : option A * stream :=
    match sentry s with
    | None => (None, refused s)
    | Some t => let r := sc t in
                match r.1 with Some v => (Some v, Stream r.2 (at_end r.2) false) | None => (Some zero, Stream r.2 (at_end r.2) true) end
    end.
  Definition read_float : stream -> option single * stream := read_num single_zero scan_f.
  Definition read_double : stream -> option D * stream := read_num d_zero scan_d.

  (** ** Writing, :199-230 *)
  Definition write_numbers (l : list Z) : text := l ≫= fun n => space :: show n.
  Definition write_line (l : scanline) : text :=
    str "line " ++ print_f (l_phi l) ++ write_numbers (l_ranges l) ++ [newline] ++
    (if decide (length (l_ranges l) = length (l_remissions l)) then str "remission " ++ print_f (l_phi l) ++ write_numbers (l_remissions l) ++ [newline] else []).
  Definition write_scan (s : scan D) : text :=
    str "delta_psi " ++ print_f (delta_psi s) ++ [newline] ++ str "origin_psi " ++ print_f (origin_psi s) ++ [newline] ++
    str "origin_phi " ++ print_f (origin_phi s) ++ [newline] ++
    str "center_offset " ++ print_d (offset s).1.1 ++ [space] ++ print_d (offset s).1.2 ++ [space] ++ print_d (offset s).2 ++ [newline] ++
    (lines s ≫= write_line).

  (** ** Reading, :116-196 *)
  (** the lines that the loop of getline sees; the text after the last newline is one of them *)
  Fixpoint split_lines (t : text) : list text :=
    match t with
    | [] => [[]]
    | c :: t => if decide (c = newline) then [] :: split_lines t else match split_lines t with l :: r => (c :: l) :: r | [] => [[c]] end
    end.
  Definition to_unsigned (z : Z) : Z := z mod 2 ^ 32.
  (** :157-161; storing a variable that was not written is undefined *)
  Fixpoint read_ranges (fuel : nat) (s : stream) (acc : list Z) : out () (list Z) :=
    if eof s then Ok acc else
    match fuel with
    | O => NoFuel
    | S fuel => let '(v, s) := read_int s in match v with Some v => read_ranges fuel s (acc ++ [to_unsigned v]) | None => Bad UB end
    end.
  (** :179-183; the conversion of a float that does not fit is undefined *)
  Fixpoint read_remissions (fuel : nat) (s : stream) (acc : list Z) : out () (list Z) :=
    if eof s then Ok acc else
    match fuel with
    | O => NoFuel
    | S fuel => let '(v, s) := read_float s in
                match v with
                | Some v => if is_finite v && (0 <=? Btrunc v) && (Btrunc v <? 2 ^ 32) then read_remissions fuel s (acc ++ [Btrunc v]) else Bad UB
                | None => Bad UB
                end
    end.
  (** variables that are not written keep their value *)
  Definition keep {A} (old : A) (v : option A) : A := default old v.
  Definition append_line (l : scanline) (s : scan D) : scan D :=
    Scan (delta_psi s) (origin_psi s) (origin_phi s) (offset s) (Some (Z.of_nat (length (l_ranges l)))) (lines s ++ [l]).
  Definition parse_line (ln : text) (s : scan D) : out (scan D) (scan D) :=
    let fuel := S (S (length ln)) in
    let '(key, st) := read_word (Stream ln false false) in
    if decide (key = str "delta_psi") then Ok (Scan (keep (delta_psi s) (read_float st).1) (origin_psi s) (origin_phi s) (offset s) (per_line s) (lines s))
    else if decide (key = str "origin_psi") then Ok (Scan (delta_psi s) (keep (origin_psi s) (read_float st).1) (origin_phi s) (offset s) (per_line s) (lines s))
    else if decide (key = str "origin_phi") then Ok (Scan (delta_psi s) (origin_psi s) (keep (origin_phi s) (read_float st).1) (offset s) (per_line s) (lines s))
    else if decide (key = str "center_offset") then
      let '(x, st) := read_double st in let '(y, st) := read_double st in let '(z, st) := read_double st in
      Ok (Scan (delta_psi s) (origin_psi s) (origin_phi s) (keep (offset s).1.1 x, keep (offset s).1.2 y, keep (offset s).2 z) (per_line s) (lines s))
    else if decide (key = str "line") then
      let '(phi, st) := read_float st in
      match phi with
      | None => Bad UB
      | Some phi => match read_ranges fuel st [] with
                    | Ok rs => Ok (append_line (Line phi rs []) s)
                    | Bad e => Bad e
                    | _ => NoFuel
                    end
      end
    else if decide (key = str "remission") then
      match reverse (lines s) with
      | [] => Throw s
      | l :: ls =>
        let '(phi, st) := read_float st in
        match phi with
        | None => Bad UB
        | Some phi =>
          if negb (Beqb phi (l_phi l)) then Throw s
          else match read_remissions fuel st (l_remissions l) with
               | Ok rs => Ok (Scan (delta_psi s) (origin_psi s) (origin_phi s) (offset s) (Some (Z.of_nat (length rs))) (reverse ls ++ [Line (l_phi l) (l_ranges l) rs]))
               | Bad e => Bad e
               | _ => NoFuel
               end
        end
      end
    else Ok s.
  Definition read_scan (t : text) (s : scan D) : out (scan D) (scan D) := iter_out parse_line (split_lines t) s.

  (** * Specification *)
  (** What is assumed about the printing and reading of floating point numbers in [ok]: a printed number has no white space in it and is
      read, up to the next space or the end, as a value [rd x] (only six digits are printed). *)
  Definition float_io {A} (ok : A -> Prop) (rd : A -> A) (pr : A -> text) (sc : text -> option A * text) : Prop :=
    forall x, ok x -> pr x <> [] /\ Forall (fun c => is_space c = false) (pr x) /\
      forall r, (r = [] \/ exists r', r = space :: r') -> sc (pr x ++ r) = (Some (rd x), r).
  (** an integer is read as the closest float *)
  Definition int_io (sc : text -> option single * text) : Prop :=
    forall n r, 0 <= n < 2 ^ 32 -> (r = [] \/ exists r', r = space :: r') -> sc (show n ++ r) = (Some (single_of n), r).
  (** what the format can represent *)
  Definition line_ok (ok : single -> Prop) (l : scanline) : Prop := ok (l_phi l) /\ Forall (fun n => 0 <= n < 2 ^ 31) (l_ranges l) /\
    (length (l_ranges l) = length (l_remissions l) -> Forall (fun n => 0 <= n <= 2 ^ 24) (l_remissions l)).
  Definition scan_ok (okf : single -> Prop) (okd : D -> Prop) (s : scan D) : Prop :=
    okf (delta_psi s) /\ okf (origin_psi s) /\ okf (origin_phi s) /\ okd (offset s).1.1 /\ okd (offset s).1.2 /\ okd (offset s).2 /\ Forall (line_ok okf) (lines s).
  (** remissions are only stored if there is one for each range *)
  Definition stored (rd : single -> single) (l : scanline) : scanline :=
    Line (rd (l_phi l)) (l_ranges l) (if decide (length (l_ranges l) = length (l_remissions l)) then l_remissions l else []).
End Io.

(** ** Numbers *)
Lemma single_exact n : 0 <= n <= 2 ^ 24 -> is_finite (single_of n) = true /\ Btrunc (single_of n) = n.
Proof.
  intros Hn. unfold single_of. pose proof (binary_normalize_correct 24 128 _ _ mode_NE n 0 false) as H. cbv zeta in H.
  assert (Hf : F2R (Float radix2 n 0) = IZR n). { unfold F2R. cbn. lra. }
  rewrite Hf in H. assert (Hr : round radix2 (SpecFloat.fexp 24 128) (round_mode mode_NE) (IZR n) = IZR n).
  { apply round_generic; [apply valid_rnd_round_mode|]. destruct (decide (n = 2 ^ 24)) as [->|Hne].
    - change (IZR (2 ^ 24)) with (bpow radix2 24). apply generic_format_bpow. vm_compute. discriminate.
    - rewrite <- Hf. apply generic_format_FLT. apply FLT_spec with (Float radix2 n 0); [reflexivity|change (Z.abs n < 2 ^ 24)%Z; lia|vm_compute; discriminate]. }
  rewrite Hr in H. rewrite Rlt_bool_true in H.
  - destruct H as (H1 & H2 & _). split; [exact H2|]. apply eq_IZR. rewrite Btrunc_correct; [|reflexivity].
    unfold round, F2R, scaled_mantissa, cexp, FIX_exp. cbn [Fnum Fexp]. rewrite H1. cbn. rewrite !Rmult_1_r. by rewrite Ztrunc_IZR.
  - rewrite Rabs_pos_eq by (apply IZR_le; lia). apply Rle_lt_trans with (IZR (2 ^ 24)); [apply IZR_le; lia|].
    change (IZR (2 ^ 24)) with (bpow radix2 24). apply bpow_lt. lia.
Qed.
Definition is_digit (c : ascii) : bool := match digit c with Some _ => true | None => false end.
Lemma take_go : forall x s r, take_digits 0 (str (pretty_N_go x s) ++ r) = take_digits (Z.of_N x) (str s ++ r).
Proof.
  intros x. induction (N.lt_wf_0 x) as [x _ IH]; intros s r. destruct (decide (x = 0)%N) as [->|Hx]; [done|].
  rewrite pretty_N_go_step by lia. rewrite IH by (apply N.div_lt; lia). cbn [str list_ascii_of_string app take_digits].
  rewrite digit_char by (apply N.mod_lt; lia). f_equal.
  pose proof (N.div_mod x 10 ltac:(lia)) as Hdm. lia.
Qed.
Lemma go_chars : forall x s, Forall (fun c => is_digit c = true) (str s) -> Forall (fun c => is_digit c = true) (str (pretty_N_go x s)) /\ (x <> 0%N \/ str s <> [] -> str (pretty_N_go x s) <> []).
Proof.
  intros x. induction (N.lt_wf_0 x) as [x _ IH]; intros s Hs. destruct (decide (x = 0)%N) as [->|Hx].
  { rewrite pretty_N_go_0. split; [done|]. by intros [|]. }
  rewrite pretty_N_go_step by lia. destruct (IH (x / 10)%N (N.div_lt x 10 ltac:(lia) ltac:(lia)) (String (pretty_N_char (x `mod` 10)) s)) as [H1 H2].
  - cbn [str list_ascii_of_string]. constructor; [|exact Hs]. unfold is_digit. by rewrite digit_char by (apply N.mod_lt; lia).
  - split; [done|]. intros _. apply H2. by right.
Qed.
Lemma show_N n : 0 <= n -> show n = str (pretty (Z.to_N n)).
Proof. intros Hn. unfold show. destruct n as [|p|p]; [done|done|lia]. Qed.
Lemma show_digits n : 0 <= n -> show n <> [] /\ Forall (fun c => is_digit c = true) (show n).
Proof.
  intros Hn. rewrite show_N by done. unfold pretty, pretty_N. case_decide as H0; [split; [done|by repeat constructor]|].
  destruct (go_chars (Z.to_N n) "" ltac:(constructor)) as [H1 H2]. split; [|done]. apply H2. by left.
Qed.
Lemma take_show n r : 0 <= n -> (r = [] \/ exists r', r = space :: r') -> take_digits 0 (show n ++ r) = (n, r).
Proof.
  intros Hn Hr. assert (Hend : take_digits n r = (n, r)). { destruct Hr as [->|(r' & ->)]; done. }
  rewrite show_N by done. unfold pretty, pretty_N. case_decide as H0.
  - assert (n = 0) as -> by lia. cbn. exact Hend.
  - rewrite take_go. cbn [str list_ascii_of_string app]. rewrite Z2N.id by done. exact Hend.
Qed.

(** ** Streams *)
Definition word (t : text) : Prop := t <> [] /\ Forall (fun c => is_space c = false) t.
Definition ends (r : text) : Prop := r = [] \/ exists r', r = space :: r'.
Lemma digit_not_space c : is_digit c = true -> is_space c = false /\ c <> "-"%char /\ c <> "+"%char.
Proof.
  intros H. split; [|split; intros ->; discriminate H].
  unfold is_space. apply bool_decide_eq_false. rewrite !elem_of_cons, elem_of_nil. intros Hc. repeat destruct Hc as [->|Hc]; done || discriminate H.
Qed.
Lemma show_word n : 0 <= n -> word (show n).
Proof. intros Hn. destruct (show_digits n Hn) as [H1 H2]. split; [done|]. eapply Forall_impl; [exact H2|]. intros c Hc. by apply digit_not_space. Qed.
Lemma sentry_word t r : word t -> sentry (Stream (space :: t ++ r) false false) = Some (t ++ r).
Proof.
  intros [Hn Hw]. unfold sentry. cbn [eof fail orb rest drop_spaces]. change (is_space space) with true. cbn iota. destruct t as [|c t]; [done|].
  cbn [app drop_spaces]. inversion Hw as [|? ? Hc _]; subst. by rewrite Hc.
Qed.
Lemma span_word t r : word t -> ends r -> span (fun c => negb (is_space c)) (t ++ r) = (t, r).
Proof.
  intros [_ Hw] Hr. induction Hw as [|c t Hc Hw IH]; cbn [app span].
  - destruct Hr as [->|(r' & ->)]; done.
  - by rewrite Hc, IH.
Qed.
Lemma read_word_at t r : word t -> ends r -> read_word (Stream (t ++ r) false false) = (t, Stream r (at_end r) false).
Proof.
  intros Hw Hr. unfold read_word. assert (Hs : sentry (Stream (t ++ r) false false) = Some (t ++ r)).
  { destruct Hw as [Hn Hw]. unfold sentry. cbn [eof fail orb rest]. destruct t as [|c t]; [done|]. cbn [app drop_spaces]. inversion Hw as [|? ? Hc _]; subst. by rewrite Hc. }
  rewrite Hs. cbn zeta. by rewrite span_word.
Qed.
Lemma read_int_at n r : 0 <= n < 2 ^ 31 -> ends r -> read_int (Stream (space :: show n ++ r) false false) = (Some n, Stream r (at_end r) false).
Proof.
  intros Hn Hr. unfold read_int. rewrite sentry_word by (apply show_word; lia). pose proof (take_show n r ltac:(lia) Hr) as Ht.
  destruct (show_digits n ltac:(lia)) as [Hne Hd]. destruct (show n) as [|c t] eqn:E; [done|]. inversion Hd as [|? ? Hc _]; subst.
  destruct (digit_not_space c Hc) as (_ & H1 & H2). cbn [app] in *. rewrite !decide_False by done. cbn iota.
  destruct (digit c) as [d|] eqn:Ed; [|by unfold is_digit in Hc; rewrite Ed in Hc]. rewrite Ht. cbn zeta. rewrite !decide_False by lia. done.
Qed.
Lemma at_end_numbers l : at_end (write_numbers l) = match l with [] => true | _ => false end.
Proof. by destruct l. Qed.
Lemma numbers_ends l : ends (write_numbers l).
Proof. destruct l as [|n l]; [by left|]. right. unfold write_numbers. rewrite bind_cons. cbn [app]. by eexists. Qed.
Lemma read_ranges_at l : Forall (fun n => 0 <= n < 2 ^ 31) l -> forall fuel acc, (length l <= fuel)%nat ->
  read_ranges fuel (Stream (write_numbers l) (at_end (write_numbers l)) false) acc = Ok (acc ++ l).
Proof.
  induction 1 as [|n l Hn Hl IH]; intros fuel acc Hf.
  - destruct fuel; cbn; by rewrite app_nil_r.
  - destruct fuel as [|fuel]; [cbn in Hf; lia|]. cbn [read_ranges]. rewrite at_end_numbers. cbn [eof].
    assert (E : write_numbers (n :: l) = space :: show n ++ write_numbers l) by (unfold write_numbers; by rewrite bind_cons).
    rewrite E, read_int_at; [|done|apply numbers_ends]. rewrite IH by (cbn in Hf; lia). unfold to_unsigned. rewrite Z.mod_small by lia. by rewrite <- app_assoc.
Qed.
Lemma length_numbers l : (length l <= length (write_numbers l))%nat.
Proof. induction l as [|n l IH]; [done|]. unfold write_numbers in *. rewrite bind_cons, app_length. cbn [length]. lia. Qed.

Definition flat (t : text) : Prop := newline ∉ t.
Lemma split_flat t r : flat t -> split_lines (t ++ newline :: r) = t :: split_lines r.
Proof.
  unfold flat. induction t as [|c t IH]; intros Hn; cbn [app split_lines]; [by rewrite decide_True|]. rewrite not_elem_of_cons in Hn. destruct Hn as [Hc Hn].
  rewrite decide_False by done. by rewrite IH.
Qed.
Lemma flat_app a b : flat a -> flat b -> flat (a ++ b).
Proof. unfold flat. rewrite elem_of_app. tauto. Qed.
Lemma word_flat t : word t -> flat t.
Proof. intros [_ Hw] Hin. rewrite Forall_forall in Hw. by specialize (Hw _ Hin). Qed.
Lemma numbers_flat l : Forall (fun n => 0 <= n) l -> flat (write_numbers l).
Proof.
  induction 1 as [|n l Hn Hl IH]; [intros Hin; by apply elem_of_nil in Hin|]. unfold write_numbers. rewrite bind_cons. apply flat_app; [|exact IH].
  apply (flat_app [space]); [intros Hin; by apply elem_of_list_singleton in Hin|]. by apply word_flat, show_word.
Qed.

(** ** C54 *)
Section RoundTrip.
  Context {D : Type} (d_zero : D) (okf : single -> Prop) (rdf : single -> single) (print_f : single -> text) (scan_f : text -> option single * text).
  Context (okd : D -> Prop) (rdd : D -> D) (print_d : D -> text) (scan_d : text -> option D * text).
  Local Notation parse_line := (parse_line d_zero scan_f scan_d).
  Local Notation read_scan := (read_scan d_zero scan_f scan_d).
  Local Notation write_scan := (write_scan print_f print_d).
  Local Notation write_line := (write_line print_f).

  Lemma read_num_at {A} (zero : A) ok rd pr sc x r : float_io ok rd pr sc -> ok x -> ends r ->
    read_num zero sc (Stream (space :: pr x ++ r) false false) = (Some (rd x), Stream r (at_end r) false).
  Proof.
    intros Hio Hx Hr. destruct (Hio x Hx) as (Hn & Hw & Hs). unfold read_num. rewrite sentry_word by (by split). cbn zeta. rewrite Hs by done. done.
  Qed.
  Lemma read_remissions_at l : int_io scan_f -> Forall (fun n => 0 <= n <= 2 ^ 24) l -> forall fuel acc, (length l <= fuel)%nat ->
    read_remissions scan_f fuel (Stream (write_numbers l) (at_end (write_numbers l)) false) acc = Ok (acc ++ l).
  Proof.
    intros Hio. induction 1 as [|n l Hn Hl IH]; intros fuel acc Hf.
    - destruct fuel; cbn; by rewrite app_nil_r.
    - destruct fuel as [|fuel]; [cbn in Hf; lia|]. cbn [read_remissions]. rewrite at_end_numbers. cbn [eof].
      assert (E : write_numbers (n :: l) = space :: show n ++ write_numbers l) by (unfold write_numbers; by rewrite bind_cons).
      rewrite E. unfold read_float, read_num. rewrite sentry_word by (apply show_word; lia). cbn zeta. rewrite Hio; [|lia|apply numbers_ends]. cbn [fst snd].
      destruct (single_exact n Hn) as [-> ->]. rewrite (proj2 (Z.leb_le 0 n)) by lia. rewrite (proj2 (Z.ltb_lt n (2 ^ 32))) by lia. cbn [andb].
      rewrite IH by (cbn in Hf; lia). by rewrite <- app_assoc.
  Qed.

  Context (Hf : float_io okf rdf print_f scan_f) (Hint : int_io scan_f) (Hnan : forall x, okf x -> is_nan (rdf x) = false) (Hd : float_io okd rdd print_d scan_d).

  Lemma printed_f x : okf x -> word (print_f x).
  Proof. intros Hx. destruct (Hf x Hx) as (H1 & H2 & _). by split. Qed.
  Lemma printed_d x : okd x -> word (print_d x).
  Proof. intros Hx. destruct (Hd x Hx) as (H1 & H2 & _). by split. Qed.
  Lemma read_key (key : string) r : word (str key) -> ends r -> read_word (Stream (str key ++ r) false false) = (str key, Stream r (at_end r) false).
  Proof. apply read_word_at. Qed.
  Lemma key_word (key : string) : forallb (fun c => negb (is_space c)) (str key) = true -> key <> ""%string -> word (str key).
  Proof.
    intros H Hne. split; [by destruct key|]. apply Forall_forall. intros c Hc. rewrite forallb_forall in H. apply elem_of_list_In in Hc. specialize (H c Hc).
    by apply negb_true_iff in H.
  Qed.
  (** the lines of the text of a scan line *)
  Definition range_text (l : scanline) : text := str "line" ++ space :: print_f (l_phi l) ++ write_numbers (l_ranges l).
  Definition remission_text (l : scanline) : text := str "remission" ++ space :: print_f (l_phi l) ++ write_numbers (l_remissions l).
  Lemma parse_ranges l s : line_ok okf l -> parse_line (range_text l) s = Ok (append_line (Line (rdf (l_phi l)) (l_ranges l) []) s).
  Proof.
    intros (Hphi & Hr & _). unfold parse_line, range_text. rewrite read_key; [|by apply key_word|right; by eexists].
    do 4 (rewrite decide_False by done). rewrite decide_True by done. unfold read_float. cbn [at_end].
    rewrite (read_num_at _ okf rdf print_f) by (done || apply numbers_ends). cbn zeta iota. rewrite read_ranges_at; [done|done|].
    pose proof (length_numbers (l_ranges l)). rewrite app_length. cbn [length]. rewrite app_length. lia.
  Qed.
  Lemma parse_remissions l s : line_ok okf l -> length (l_ranges l) = length (l_remissions l) ->
    parse_line (remission_text l) (append_line (Line (rdf (l_phi l)) (l_ranges l) []) s) = Ok (append_line (Line (rdf (l_phi l)) (l_ranges l) (l_remissions l)) s).
  Proof.
    intros (Hphi & _ & Hm) Hlen. specialize (Hm Hlen). unfold parse_line, remission_text. rewrite read_key; [|by apply key_word|right; by eexists].
    do 5 (rewrite decide_False by done). rewrite decide_True by done. unfold append_line at 1. cbn [lines]. rewrite reverse_snoc.
    unfold read_float. cbn [at_end]. rewrite (read_num_at _ okf rdf print_f) by (done || apply numbers_ends). cbn zeta iota. cbn [l_phi l_remissions l_ranges].
    rewrite Beqb_refl, Hnan by done. cbn [negb]. rewrite read_remissions_at; [|done|done|].
    - unfold append_line. cbn [delta_psi origin_psi origin_phi offset lines l_ranges]. rewrite reverse_involutive. do 3 f_equal. cbn. lia.
    - pose proof (length_numbers (l_remissions l)). rewrite app_length. cbn [length]. rewrite app_length. lia.
  Qed.
  Lemma parse_lines ls : Forall (line_ok okf) ls -> forall s r,
    iter_out parse_line (split_lines ((ls ≫= write_line) ++ r)) s = iter_out parse_line (split_lines r) (foldl (fun s l => append_line (stored rdf l) s) s ls).
  Proof.
    induction 1 as [|l ls Hl Hls IH]; intros s r; [done|]. rewrite bind_cons. cbn [foldl]. rewrite <- IH. rewrite <- app_assoc. set (t := (ls ≫= write_line) ++ r).
    unfold Scan.write_line. pose proof Hl as (Hphi & Hr & Hm).
    assert (Hflat : forall key ns, word (str key) -> Forall (fun n => 0 <= n) ns -> flat (str key ++ space :: print_f (l_phi l) ++ write_numbers ns)).
    { intros key ns Hk Hns. apply flat_app; [by apply word_flat|]. apply (flat_app [space]); [intros Hin; by apply elem_of_list_singleton in Hin|].
      apply flat_app; [by apply word_flat, printed_f|by apply numbers_flat]. }
    assert (E1 : forall u, str "line " ++ print_f (l_phi l) ++ write_numbers (l_ranges l) ++ [newline] ++ u = range_text l ++ newline :: u).
    { intros u. unfold range_text. change (str "line ") with (str "line" ++ [space]). rewrite <- !app_assoc. cbn [app]. by rewrite <- !app_assoc. }
    assert (F1 : flat (range_text l)). { apply Hflat; [by apply key_word|]. eapply Forall_impl; [exact Hr|]. cbn. lia. }
    destruct (decide (length (l_ranges l) = length (l_remissions l))) as [He|He].
    - assert (E2 : str "remission " ++ print_f (l_phi l) ++ write_numbers (l_remissions l) ++ [newline] = remission_text l ++ [newline]).
      { unfold remission_text. change (str "remission ") with (str "remission" ++ [space]). rewrite <- !app_assoc. cbn [app]. by rewrite <- !app_assoc. }
      assert (F2 : flat (remission_text l)). { apply Hflat; [by apply key_word|]. eapply Forall_impl; [exact (Hm He)|]. cbn. lia. }
      rewrite E1. rewrite <- app_assoc. cbn [app]. rewrite split_flat by done. cbn [iter_out]. rewrite parse_ranges by done. cbn [obind].
      rewrite E2. rewrite <- app_assoc. cbn [app]. rewrite split_flat by done. cbn [iter_out]. rewrite parse_remissions by done. cbn [obind].
      unfold stored. by rewrite decide_True.
    - rewrite E1. rewrite <- app_assoc. cbn [app]. rewrite split_flat by done. cbn [iter_out]. rewrite parse_ranges by done. cbn [obind].
      unfold stored. by rewrite decide_False.
  Qed.
  Lemma append_lines ls : forall s : scan D, foldl (fun s l => append_line (stored rdf l) s) s ls =
    Scan (delta_psi s) (origin_psi s) (origin_phi s) (offset s) (match last ls with Some l => Some (Z.of_nat (length (l_ranges l))) | None => per_line s end) (lines s ++ (stored rdf <$> ls)).
  Proof.
    induction ls as [|l ls IH]; intros s; cbn [foldl]; [by destruct s as [? ? ? ? ? ls]; cbn; rewrite app_nil_r|].
    rewrite IH. unfold append_line. cbn [delta_psi origin_psi origin_phi offset per_line lines]. rewrite <- app_assoc. f_equal.
    rewrite last_cons. by destruct (last ls).
  Qed.
  Lemma parse_psi s x : okf x ->
    parse_line (str "delta_psi" ++ space :: print_f x) s = Ok (Scan (rdf x) (origin_psi s) (origin_phi s) (offset s) (per_line s) (lines s)) /\
    parse_line (str "origin_psi" ++ space :: print_f x) s = Ok (Scan (delta_psi s) (rdf x) (origin_phi s) (offset s) (per_line s) (lines s)) /\
    parse_line (str "origin_phi" ++ space :: print_f x) s = Ok (Scan (delta_psi s) (origin_psi s) (rdf x) (offset s) (per_line s) (lines s)).
  Proof.
    intros Hx. pose proof (read_num_at single_zero okf rdf print_f scan_f x [] Hf Hx ltac:(by left)) as Hrd. rewrite app_nil_r in Hrd.
    unfold parse_line. rewrite !read_key; try (by apply key_word); try (right; by eexists). unfold read_float. cbn [at_end]. rewrite Hrd. cbn [fst snd keep default].
    split; [by rewrite decide_True|]. split; [rewrite decide_False by done; by rewrite decide_True|]. rewrite !decide_False by done. by rewrite decide_True.
  Qed.
  Lemma parse_offset s x y z : okd x -> okd y -> okd z ->
    parse_line (str "center_offset" ++ space :: print_d x ++ space :: print_d y ++ space :: print_d z) s =
      Ok (Scan (delta_psi s) (origin_psi s) (origin_phi s) (rdd x, rdd y, rdd z) (per_line s) (lines s)).
  Proof.
    intros Hx Hy Hz. unfold parse_line. rewrite read_key; [|by apply key_word|right; by eexists]. do 3 (rewrite decide_False by done). rewrite decide_True by done.
    unfold read_double. cbn [at_end]. rewrite (read_num_at _ okd rdd print_d) by (done || (right; by eexists)). cbn [at_end].
    rewrite (read_num_at _ okd rdd print_d) by (done || (right; by eexists)). cbn [at_end].
    pose proof (read_num_at d_zero okd rdd print_d scan_d z [] Hd Hz ltac:(by left)) as Hrd. rewrite app_nil_r in Hrd. rewrite Hrd. done.
  Qed.
  (** Reading what was written appends the lines, with the angles rounded to six digits, and the remissions of those lines that have
      one for each range. *)
  Theorem C54_read_write s t : scan_ok okf okd s -> exists s', read_scan (write_scan s) t = Ok s' /\
    lines s' = lines t ++ (stored rdf <$> lines s) /\ delta_psi s' = rdf (delta_psi s) /\ origin_psi s' = rdf (origin_psi s) /\ origin_phi s' = rdf (origin_phi s) /\
    offset s' = (rdd (offset s).1.1, rdd (offset s).1.2, rdd (offset s).2) /\
    per_line s' = match last (lines s) with Some l => Some (Z.of_nat (length (l_ranges l))) | None => per_line t end.
  Proof.
    intros (H1 & H2 & H3 & H4 & H5 & H6 & H7).
    assert (Hflat : forall key x, word (str key) -> okf x -> flat (str key ++ space :: print_f x)).
    { intros key x Hk Hx. apply flat_app; [by apply word_flat|]. apply (flat_app [space]); [intros Hin; by apply elem_of_list_singleton in Hin|]. by apply word_flat, printed_f. }
    assert (Hsp : flat [space]) by (intros Hin; by apply elem_of_list_singleton in Hin).
    assert (Hflat4 : flat (str "center_offset" ++ space :: print_d (offset s).1.1 ++ space :: print_d (offset s).1.2 ++ space :: print_d (offset s).2)).
    { apply flat_app; [by apply word_flat, key_word|]. apply (flat_app [space]); [done|]. apply flat_app; [by apply word_flat, printed_d|].
      apply (flat_app [space]); [done|]. apply flat_app; [by apply word_flat, printed_d|]. apply (flat_app [space]); [done|]. by apply word_flat, printed_d. }
    assert (E : write_scan s = (str "delta_psi" ++ space :: print_f (delta_psi s)) ++ newline :: (str "origin_psi" ++ space :: print_f (origin_psi s)) ++ newline ::
      (str "origin_phi" ++ space :: print_f (origin_phi s)) ++ newline ::
      (str "center_offset" ++ space :: print_d (offset s).1.1 ++ space :: print_d (offset s).1.2 ++ space :: print_d (offset s).2) ++ newline :: ((lines s ≫= write_line) ++ [])).
    { unfold Scan.write_scan. change (str "delta_psi ") with (str "delta_psi" ++ [space]). change (str "origin_psi ") with (str "origin_psi" ++ [space]).
      change (str "origin_phi ") with (str "origin_phi" ++ [space]). change (str "center_offset ") with (str "center_offset" ++ [space]).
      rewrite app_nil_r. rewrite <- !app_assoc. cbn [app]. rewrite <- !app_assoc. cbn [app]. rewrite <- !app_assoc. done. }
    unfold Scan.read_scan. rewrite E.
    rewrite split_flat by (apply Hflat; [by apply key_word|done]). cbn [iter_out]. rewrite (proj1 (parse_psi _ _ H1)). cbn [obind].
    rewrite split_flat by (apply Hflat; [by apply key_word|done]). cbn [iter_out]. rewrite (proj1 (proj2 (parse_psi _ _ H2))). cbn [obind].
    rewrite split_flat by (apply Hflat; [by apply key_word|done]). cbn [iter_out]. rewrite (proj2 (proj2 (parse_psi _ _ H3))). cbn [obind].
    rewrite split_flat by done. cbn [iter_out]. rewrite parse_offset by done. cbn [obind].
    rewrite parse_lines by done. rewrite append_lines. cbn [delta_psi origin_psi origin_phi offset per_line lines].
    eexists. split; [vm_compute (split_lines []); cbn [iter_out]; unfold Scan.parse_line; cbn; reflexivity|]. cbn [delta_psi origin_psi origin_phi offset per_line lines]. done.
  Qed.
  (** With angles of at most six digits and as many remissions as ranges, or none, the lines are restored. *)
  Corollary C54_exact s t : scan_ok okf okd s -> lines t = [] ->
    (forall l, l ∈ lines s -> rdf (l_phi l) = l_phi l /\ (l_remissions l = [] \/ length (l_remissions l) = length (l_ranges l))) ->
    exists s', read_scan (write_scan s) t = Ok s' /\ lines s' = lines s.
  Proof.
    intros Hok Ht Hl. destruct (C54_read_write s t Hok) as (s' & Hs' & Hls & _). exists s'. split; [done|]. rewrite Hls, Ht. cbn [app].
    clear -Hl. induction (lines s) as [|l ls IH]; [done|]. rewrite fmap_cons. f_equal; [|apply IH; intros; apply Hl; by right].
    destruct (Hl l ltac:(by left)) as [Hphi Hrem]. unfold stored. rewrite Hphi. destruct l as [phi rs ms]. cbn [l_phi l_ranges l_remissions] in *.
    f_equal. destruct (decide (length rs = length ms)); [done|]. destruct Hrem as [->|Hrem]; [done|]. by rewrite Hrem in n.
  Qed.
End RoundTrip.

(** ** Concrete cases *)
Lemma remissions_of {D} (o : out (scan D) (scan D)) r : match o with Ok s' => Some (l_remissions <$> lines s') | _ => None end = Some r -> exists s', o = Ok s' /\ l_remissions <$> lines s' = r.
Proof. destruct o as [s'| | |]; intros H; [|discriminate H|discriminate H|discriminate H]. exists s'. split; [done|]. by injection H as H. Qed.
(** a printer of floats for natural numbers up to 2^24 *)
Definition nat_print (x : single) : text := show (Btrunc x).
Definition nat_scan (t : text) : option single * text :=
  match t with c :: _ => if is_digit c then let r := take_digits 0 t in (Some (single_of r.1), r.2) else (None, t) | [] => (None, []) end.
Definition nat_ok (x : single) : Prop := exists n, 0 <= n <= 2 ^ 24 /\ x = single_of n.
Lemma nat_scan_show n r : 0 <= n -> ends r -> nat_scan (show n ++ r) = (Some (single_of n), r).
Proof.
  intros Hn Hr. pose proof (take_show n r Hn Hr) as Ht. destruct (show_digits n Hn) as [Hne Hds]. destruct (show n) as [|c t]; [done|]. inversion Hds as [|? ? Hc _]; subst.
  unfold nat_scan. cbn [app] in *. rewrite Hc, Ht. done.
Qed.
Lemma nat_float_io : float_io nat_ok (fun x => x) nat_print nat_scan.
Proof.
  intros x (n & Hn & ->). unfold nat_print. destruct (single_exact n Hn) as [_ ->]. destruct (show_word n ltac:(lia)) as [H1 H2]. split; [done|]. split; [done|].
  intros r Hr. apply nat_scan_show; [lia|done].
Qed.
Lemma nat_int_io : int_io nat_scan.
Proof. intros n r Hn Hr. apply nat_scan_show; [lia|done]. Qed.
Lemma nat_not_nan x : nat_ok x -> is_nan x = false.
Proof. intros (n & Hn & ->). destruct (single_exact n Hn) as [H _]. by destruct (single_of n). Qed.
Definition demo_scan : scan single := Scan (single_of 1) (single_of 2) (single_of 0) (single_of 3, single_of 4, single_of 5) None
  [Line (single_of 10) [1000; 0; 2147483647] [16777216; 7; 0]; Line (single_of 20) [5; 6] []; Line (single_of 30) [] []].
Definition empty_scan : scan single := Scan (single_of 0) (single_of 0) (single_of 0) (single_of 0, single_of 0, single_of 0) None [].
Example C54_nonvacuous : float_io nat_ok (fun x => x) nat_print nat_scan /\ int_io nat_scan /\ (forall x, nat_ok x -> is_nan x = false) /\
  scan_ok nat_ok nat_ok demo_scan /\ (forall l, l ∈ lines demo_scan -> l_remissions l = [] \/ length (l_remissions l) = length (l_ranges l)) /\
  exists s', read_scan single_zero nat_scan nat_scan (write_scan nat_print nat_print demo_scan) empty_scan = Ok s' /\ lines s' = lines demo_scan.
Proof.
  split; [apply nat_float_io|]. split; [apply nat_int_io|]. split; [apply nat_not_nan|].
  assert (Hok : forall n, 0 <= n <= 2 ^ 24 -> nat_ok (single_of n)) by (intros n Hn; by exists n).
  assert (Hs : scan_ok nat_ok nat_ok demo_scan).
  { unfold scan_ok, demo_scan. cbn [delta_psi origin_psi origin_phi offset lines fst snd]. do 6 (split; [apply Hok; lia|]).
    repeat (constructor; [unfold line_ok; cbn [l_phi l_ranges l_remissions length]; split; [apply Hok; lia|]; split; [repeat (constructor; [lia|]); constructor|]; intros He; try discriminate He; repeat (constructor; [lia|]); constructor|]).
    constructor. }
  split; [done|].
  assert (Hl : forall l, l ∈ lines demo_scan -> l_remissions l = [] \/ length (l_remissions l) = length (l_ranges l)).
  { intros l Hin. cbn [demo_scan lines] in Hin. rewrite !elem_of_cons, elem_of_nil in Hin. destruct Hin as [->|[->|[->|[]]]]; cbn; auto. }
  split; [done|].
  destruct (C54_exact single_zero nat_ok (fun x => x) nat_print nat_scan nat_ok (fun x => x) nat_print nat_scan nat_float_io nat_int_io nat_not_nan nat_float_io demo_scan empty_scan Hs eq_refl) as (s' & H1 & H2).
  - intros l Hin. split; [done|by apply Hl].
  - by exists s'.
Qed.
(** A range above 2^31 - 1 that is not the last one of its line makes the loop read a variable that was not written. *)
Theorem C54_range_refuted : read_scan single_zero nat_scan nat_scan (write_scan nat_print nat_print
  (Scan (single_of 1) (single_of 2) (single_of 0) (single_of 3, single_of 4, single_of 5) None [Line (single_of 10) [2147483648; 1] []])) empty_scan = Bad UB.
Proof. vm_compute. reflexivity. Qed.
(** Remissions above 2^24 are rounded: they are read as float. *)
Theorem C54_remission_refuted : exists s', read_scan single_zero nat_scan nat_scan (write_scan nat_print nat_print
  (Scan (single_of 1) (single_of 2) (single_of 0) (single_of 3, single_of 4, single_of 5) None [Line (single_of 10) [1] [16777217]])) empty_scan = Ok s' /\
  l_remissions <$> lines s' = [[16777216]].
Proof. apply remissions_of. vm_compute. reflexivity. Qed.
(** Remissions of a line with another number of ranges are lost. *)
Theorem C54_lost_refuted : exists s', read_scan single_zero nat_scan nat_scan (write_scan nat_print nat_print
  (Scan (single_of 1) (single_of 2) (single_of 0) (single_of 3, single_of 4, single_of 5) None [Line (single_of 10) [1; 2] [3]])) empty_scan = Ok s' /\
  l_remissions <$> lines s' = [[]].
Proof. apply remissions_of. vm_compute. reflexivity. Qed.
(** A line of a file that ends with a space makes it read a variable that was not written. *)
Theorem C54_trailing_space_refuted : read_scan single_zero nat_scan nat_scan (str "line 10 1 2 ") empty_scan = Bad UB.
Proof. vm_compute. reflexivity. Qed.
