(** Surface maps in files of any version (C141): src/maps/MLSGrid.cpp:201-287 and 319-377.

    A file is a list of bytes. The layout of the records in memory is not modelled: [of_image v] reads a record of version [v] from its bytes. [round] is the conversion of a double to a float,
    [channel] that of a double colour to a byte (MLSPatch.hpp:195-200). A member that is not initialised has a value that [junk] chooses for each record. *)
From stdpp Require Import prelude strings pretty.
From Coq Require Import ZArith Lia Strings.Byte.
From Verif Require Import Base Ids MlsModel MlsProps.

Notation color := (byte * byte * byte)%type.
Notation newline := x0a.
Local Instance byte_eqdec : EqDecision byte := Byte.byte_eq_dec.

(** ** Model *)
Inductive status := Good | AtEnd | Failed.
Local Instance status_eqdec : EqDecision status.
Proof. solve_decision. Defined.
(** std::istream::getline( c, n + 1 ): the characters up to a newline, which is removed; the end of the file sets eofbit, a line of more than [n] characters failbit *)
Fixpoint scan (n : nat) (l : list byte) {struct l} : list byte * list byte * status :=
  match l with
  | [] => ([], [], AtEnd)
  | b :: l' =>
    if decide (b = newline) then ([], l', Good)
    else match n with O => ([], l, Failed) | S n => let '(c, r, st) := scan n l' in (b :: c, r, st) end
  end.
(** failbit also if nothing was extracted; a stream that is not good is left alone, and the text is empty *)
Definition getline (s : list byte * status) : list byte * (list byte * status) :=
  match s.2 with
  | Good => let '(c, r, st) := scan 19 s.1 in (c, (r, match st, c with AtEnd, [] => Failed | _, _ => st end))
  | _ => ([], (s.1, Failed))
  end.
(** std::string( c ): up to the first NUL *)
Fixpoint cstr (l : list byte) : string := match l with [] => "" | b :: l => if decide (b = x00) then "" else String (Ascii.ascii_of_byte b) (cstr l) end.

Inductive version := V10 | V11 | V12 | V13.
(** MLSGrid.cpp:327-329 *)
Definition version_of (t : string) : option version :=
  if decide (t = "1.0") then Some V10 else if decide (t = "1.1") then Some V11 else if decide (t = "1.2") then Some V12 else if decide (t = "1.3") then Some V13 else None.

Section model.
  Context {D F Pl : Type} (one : F) (inv_pow4 : F -> F) (plane_of : F -> F -> Pl) (round : D -> F) (channel : D -> byte).
  Notation patch := (@spatch F Pl).
  (** MLSGrid.cpp:202-208, 221-230, 241-250, 261-273 *)
  Inductive record :=
  | R10 (mean stdev height : D) (horizontal : bool) (idx x y : nat)
  | R11 (mean stdev height : D) (horizontal : bool) (idx : nat) (r g b : D) (x y : nat)
  | R12 (mean stdev height : F) (horizontal : bool) (idx : nat) (c : color) (x y : nat)
  | R13 (d : @store13 F Pl).
  Definition kind (horizontal : bool) : ptype := if horizontal then HORIZONTAL else VERTICAL.
  Definition with_idx (i : nat) (p : patch) : patch := SPatch (sp_mean p) (sp_stdev p) (sp_height p) (sp_plane p) (sp_min p) (sp_max p) (sp_n p) (sp_normsq p) i (sp_color p) (sp_type p).
  Definition with_color (c : color) (p : patch) : patch := SPatch (sp_mean p) (sp_stdev p) (sp_height p) (sp_plane p) (sp_min p) (sp_max p) (sp_n p) (sp_normsq p) (sp_idx p) c (sp_type p).
  (** [toSurfacePatch] of each of them, with the position: MLSGrid.cpp:212-217, 232-238, 252-258, 275-286 *)
  Definition load (rj : record * color) : patch * nat * nat :=
    let junk := rj.2 in
    match rj.1 with
    | R10 m s h hz i x y => (with_idx i (make_patch one inv_pow4 plane_of junk (round m) (round s) (round h) (kind hz)), x, y)
    | R11 m s h hz i r g b x y => (with_color (channel r, channel g, channel b) (with_idx i (make_patch one inv_pow4 plane_of junk (round m) (round s) (round h) (kind hz))), x, y)
    | R12 m s h hz i c x y => (with_color c (with_idx i (make_patch one inv_pow4 plane_of junk m s h (kind hz))), x, y)
    | R13 d => (to_patch one inv_pow4 plane_of junk d, st_x d, st_y d)
    end.
  Context (size : version -> nat) (of_image : version -> list byte -> record) (junk : list byte -> color).
  (** MLSGrid.cpp:319-377; a number that is no int is not the size either *)
  Definition read_file (file : list byte) (s : mls patch) : out (mls patch) (mls patch) :=
    let '(c1, s1) := getline (file, Good) in
    if decide (cstr c1 <> "mls") then Throw s else
    let '(c2, s2) := getline s1 in
    match version_of (cstr c2) with
    | None => Throw s
    | Some v =>
      let '(c3, s3) := getline s2 in
      match to_long (cstr c3) with
      | None => Throw s
      | Some n =>
        let '(c4, s4) := getline s3 in
        if decide (cstr c4 <> "bin") then Throw s
        else if decide (n <> Z.of_nat (size v)) then Throw s
        else match s4.2 with
             | Good => read_records (record * color) (size v) (fun bs => (of_image v bs, junk bs)) load (length s4.1) s4.1 s
             | _ => Ok s
             end
      end
    end.
End model.

(** ** Specification *)
Definition name (v : version) : string := match v with V10 => "1.0" | V11 => "1.1" | V12 => "1.2" | V13 => "1.3" end.
(** a line of at most 19 characters, whose text up to the first NUL is [t] *)
Definition line (l : list byte) (t : string) : Prop :=
  newline ∉ l /\ (length l <= 19)%nat /\ let text := String.list_byte_of_string t in x00 ∉ text /\ (l = text \/ exists more, l = text ++ x00 :: more).
(** a file of version [v] with the content [body]: four lines, of which the last one may be unfinished if there is no content; if the fourth line is
    longer than 19 characters (which must be "bin" and a NUL then), the content is taken to be empty *)
Definition of_version (size : version -> nat) (v : version) (file body : list byte) : Prop :=
  exists l1 l2 l3 l4 t, line l1 "mls" /\ line l2 (name v) /\ line l3 t /\ to_long t = Some (Z.of_nat (size v)) /\ line l4 "bin" /\
    let head := l1 ++ newline :: l2 ++ newline :: l3 ++ newline :: l4 in (file = head ++ newline :: body \/ (file = head /\ body = []) \/ exists b more, length l4 = 19%nat /\ b <> newline /\ file = head ++ b :: more /\ body = []).
Section spec.
  Context {D F Pl : Type} (one : F) (inv_pow4 : F -> F) (plane_of : F -> F -> Pl) (round : D -> F) (channel : D -> byte).
  Notation patch := (@spatch F Pl).
  (** a single measurement: what a patch of an old version becomes *)
  Definition single (p : patch) (mean stdev height : F) (horizontal : bool) (i : nat) : Prop :=
    sp_mean p = mean /\ sp_stdev p = stdev /\ sp_height p = height /\ sp_type p = (if horizontal then HORIZONTAL else VERTICAL) /\ sp_idx p = i /\
    sp_min p = mean /\ sp_max p = mean /\ sp_n p = one /\ sp_normsq p = inv_pow4 stdev /\ sp_plane p = plane_of mean stdev.
  (** the patch [p] of the cell (x, y) is the one of the record *)
  Definition stored (r : @record D F Pl) (p : patch) (x y : nat) : Prop :=
    match r with
    | R10 m s h hz i x' y' => single p (round m) (round s) (round h) hz i /\ x = x' /\ y = y'
    | R11 m s h hz i cr cg cb x' y' => single p (round m) (round s) (round h) hz i /\ sp_color p = (channel cr, channel cg, channel cb) /\ x = x' /\ y = y'
    | R12 m s h hz i c x' y' => single p m s h hz i /\ sp_color p = c /\ x = x' /\ y = y'
    | R13 d => store_patch p x y = d
    end.
End spec.

(** ** Proofs *)
Lemma scan_line n l rest : newline ∉ l -> (length l <= n)%nat -> scan n (l ++ newline :: rest) = (l, rest, Good).
Proof.
  revert n. induction l as [|b l IH]; intros n Hn Hl; cbn [app scan]; [by rewrite decide_True|]. rewrite decide_False by set_solver. destruct n as [|n]; [cbn in Hl; lia|]. rewrite IH; [done|set_solver|cbn in Hl; lia].
Qed.
Lemma scan_end n l : newline ∉ l -> (length l <= n)%nat -> scan n l = (l, [], AtEnd).
Proof.
  revert n. induction l as [|b l IH]; intros n Hn Hl; [done|]. cbn [scan]. rewrite decide_False by set_solver. destruct n as [|n]; [cbn in Hl; lia|]. rewrite IH; [done|set_solver|cbn in Hl; lia].
Qed.
Lemma scan_inv n f : let '(c, r, st) := scan n f in newline ∉ c /\ (length c <= n)%nat /\
  match st with Good => f = c ++ newline :: r | AtEnd => f = c /\ r = [] | Failed => length c = n /\ exists b more, b <> newline /\ f = c ++ b :: more end.
Proof.
  revert n. induction f as [|b f IH]; intros n; [cbn; repeat split; [set_solver|lia]|]. cbn [scan]. destruct (decide (b = newline)) as [->|Hb]; [repeat split; [set_solver|cbn; lia]|].
  destruct n as [|n]; [repeat split; [set_solver|done|by exists b, f]|]. specialize (IH n). destruct (scan n f) as [[c r] st]. destruct IH as (I1&I2&I3). split; [set_solver|]. split; [cbn; lia|].
  destruct st; [by rewrite I3|by destruct I3 as [-> ->]|]. destruct I3 as (I3&b'&more&Hb'&->). split; [cbn; lia|]. by exists b', more.
Qed.
Lemma scan_long n l b more : newline ∉ l -> length l = n -> b <> newline -> (scan n (l ++ b :: more)).1.1 = l /\ (scan n (l ++ b :: more)).2 = Failed.
Proof.
  revert n. induction l as [|a l IH]; intros n Hn Hl Hb; cbn in Hl; subst n; cbn [app scan]; [by rewrite decide_False|]. rewrite decide_False by set_solver.
  destruct (IH (length l)) as [I1 I2]; [set_solver|done|done|]. destruct (scan (length l) (l ++ b :: more)) as [[c r] st]. cbn in *. by subst.
Qed.
Lemma cstr_text l t : cstr l = t <-> x00 ∉ String.list_byte_of_string t /\ (l = String.list_byte_of_string t \/ exists more, l = String.list_byte_of_string t ++ x00 :: more).
Proof.
  revert t. induction l as [|b l IH]; intros t; cbn [cstr].
  - split; [intros <-; split; [cbn; set_solver|by left]|]. intros [_ [H|[more H]]]; [by destruct t|]. destruct t; discriminate.
  - destruct (decide (b = x00)) as [->|Hb].
    + split; [intros <-; split; [cbn; set_solver|right; by exists l]|]. intros [H1 [H2|[more H2]]]; (destruct t as [|a t]; [done|]); exfalso; apply H1; cbn in H2 |- *; injection H2 as <- _; by left.
    + split.
      * intros <-. destruct (proj1 (IH (cstr l)) eq_refl) as [I1 I2]. change (String.list_byte_of_string (String (Ascii.ascii_of_byte b) (cstr l))) with (Ascii.byte_of_ascii (Ascii.ascii_of_byte b) :: String.list_byte_of_string (cstr l)).
        rewrite Ascii.byte_of_ascii_of_byte. split; [by apply not_elem_of_cons|]. destruct I2 as [I2|[more I2]]; [left; by rewrite <-I2|right; exists more; by rewrite I2 at 1].
      * intros [H1 H2]. destruct t as [|a t]; [destruct H2 as [H2|[more H2]]; [done|by injection H2 as ->]|].
        change (String.list_byte_of_string (String a t)) with (Ascii.byte_of_ascii a :: String.list_byte_of_string t) in H1, H2. apply not_elem_of_cons in H1 as [_ H1].
        assert (b = Ascii.byte_of_ascii a /\ cstr l = t) as [-> ->]; [|by rewrite Ascii.ascii_of_byte_of_ascii].
        destruct H2 as [H2|[more H2]]; cbn [app] in H2; injection H2 as -> H2; (split; [done|]); apply IH; split; try done; [by left|right; by exists more].
Qed.
Lemma line_cstr l t : line l t <-> newline ∉ l /\ (length l <= 19)%nat /\ cstr l = t.
Proof. unfold line. cbn zeta. by rewrite <-cstr_text. Qed.
Lemma version_name t v : version_of t = Some v <-> t = name v.
Proof.
  unfold version_of. split.
  - intros H. repeat (destruct (decide _) as [->|]; [by injection H as <-|]). done.
  - intros ->. by destruct v.
Qed.
Section proofs.
  Context {D F Pl : Type} (one : F) (inv_pow4 : F -> F) (plane_of : F -> F -> Pl) (round : D -> F) (channel : D -> byte).
  Notation patch := (@spatch F Pl).
  Notation record := (@record D F Pl).
  Context (size : version -> nat) (of_image : version -> list byte -> record) (junk : list byte -> color).
  Notation read_file := (read_file one inv_pow4 plane_of round channel size of_image junk).
  Notation load := (load one inv_pow4 plane_of round channel).
  Notation records_of v := (read_records (record * color) (size v) (fun bs => (of_image v bs, junk bs)) load).
  Notation stored := (stored one inv_pow4 plane_of round channel).

  Lemma getline_line l rest : newline ∉ l -> (length l <= 19)%nat -> getline (l ++ newline :: rest, Good) = (l, (rest, Good)).
  Proof using Type. intros H1 H2. unfold getline. cbn [fst snd]. by rewrite scan_line. Qed.
  Lemma read_version v file body s : (0 < size v)%nat -> of_version size v file body -> read_file file s = records_of v (length body) body s.
  Proof using Type.
    intros Hv (l1&l2&l3&l4&t&(N1&L1&T1)%line_cstr&(N2&L2&T2)%line_cstr&(N3&L3&T3)%line_cstr&Ht&(N4&L4&T4)%line_cstr&H). cbn zeta in H. unfold OldMaps.read_file.
    assert (HE : forall tl, getline ((l1 ++ newline :: l2 ++ newline :: l3 ++ newline :: tl), Good) = (l1, (l2 ++ newline :: l3 ++ newline :: tl, Good))) by (intros tl; by apply getline_line).
    destruct H as [->|[[-> ->]|(b&more&L19&Hb&->&->)]].
    - rewrite <-!app_assoc. cbn [app]. rewrite <-!app_assoc. cbn [app]. rewrite <-!app_assoc. cbn [app]. rewrite HE. rewrite T1, decide_False by (intros X; by apply X).
      rewrite getline_line by done. rewrite (proj2 (version_name _ v)) by done. rewrite getline_line by done. rewrite T3, Ht. rewrite getline_line by done.
      rewrite T4, decide_False by (intros X; by apply X). rewrite decide_False by (intros X; by apply X). done.
    - rewrite HE. rewrite T1, decide_False by (intros X; by apply X).
      rewrite getline_line by done. rewrite (proj2 (version_name _ v)) by done. rewrite getline_line by done. rewrite T3, Ht. unfold getline at 1. cbn [fst snd]. rewrite scan_end by done.
      rewrite T4, decide_False by (intros X; by apply X). rewrite decide_False by (intros X; by apply X). cbn [fst snd].
      destruct l4; cbn [snd length read_records]; by rewrite decide_True.
    - rewrite <-!app_assoc. cbn [app]. rewrite <-!app_assoc. cbn [app]. rewrite <-!app_assoc. cbn [app]. rewrite HE. rewrite T1, decide_False by (intros X; by apply X).
      rewrite getline_line by done. rewrite (proj2 (version_name _ v)) by done. rewrite getline_line by done. rewrite T3, Ht. unfold getline at 1. cbn [fst snd].
      destruct (scan_long 19 l4 b more N4 L19 Hb) as [S1 S2]. destruct (scan 19 (l4 ++ b :: more)) as [[c r] st]. cbn in S1, S2. subst c st.
      rewrite T4, decide_False by (intros X; by apply X). rewrite decide_False by (intros X; by apply X). cbn [fst snd length read_records]. by rewrite decide_True.
  Qed.
  (** A file that is not one of the four versions is refused, and the grid is as before. *)
  Theorem C141_refused file s : (forall v body, ~ of_version size v file body) -> read_file file s = Throw s.
  Proof using Type.
    intros HN. unfold OldMaps.read_file. unfold getline at 1. cbn [fst snd]. pose proof (scan_inv 19 file) as H1. destruct (scan 19 file) as [[c1 r1] st1]. destruct H1 as (N1&L1&E1).
    destruct (decide (cstr c1 <> "mls")) as [|T1%dec_stable]; [done|]. assert (HB : forall l : list byte, cstr l <> "" -> l <> []) by (intros l Hl ->; by apply Hl).
    assert (HF : forall (r : list byte) st, st <> Good -> getline (r, st) = ([], (r, Failed))) by (intros r st Hst; by destruct st).
    destruct (decide (match st1, c1 with AtEnd, [] => Failed | _, _ => st1 end = Good)) as [G1|G1]; [|rewrite HF by done; done].
    assert (st1 = Good) as -> by (destruct st1, c1; done). clear G1. unfold getline at 1. cbn [fst snd].
    pose proof (scan_inv 19 r1) as H2. destruct (scan 19 r1) as [[c2 r2] st2]. destruct H2 as (N2&L2&E2).
    destruct (version_of (cstr c2)) as [v|] eqn:Ev; [|done]. apply version_name in Ev.
    destruct (decide (match st2, c2 with AtEnd, [] => Failed | _, _ => st2 end = Good)) as [G2|G2]; [|rewrite HF by done; done].
    assert (st2 = Good) as -> by (destruct st2, c2; done). clear G2. unfold getline at 1. cbn [fst snd].
    pose proof (scan_inv 19 r2) as H3. destruct (scan 19 r2) as [[c3 r3] st3]. destruct H3 as (N3&L3&E3).
    destruct (to_long (cstr c3)) as [n|] eqn:En; [|done].
    destruct (decide (match st3, c3 with AtEnd, [] => Failed | _, _ => st3 end = Good)) as [G3|G3]; [|rewrite HF by done; done].
    assert (st3 = Good) as -> by (destruct st3, c3; done). clear G3. unfold getline at 1. cbn [fst snd].
    pose proof (scan_inv 19 r3) as H4. destruct (scan 19 r3) as [[c4 r4] st4]. destruct H4 as (N4&L4&E4).
    destruct (decide (cstr c4 <> "bin")) as [|T4%dec_stable]; [done|]. destruct (decide (n <> Z.of_nat (size v))) as [|Hn%dec_stable]; [done|]. cbn [snd fst].
    destruct st4.
    - exfalso. apply (HN v r4). exists c1, c2, c3, c4, (cstr c3). rewrite !line_cstr, En, Hn. repeat (split; [done|]). left. rewrite E1, E2, E3, E4. rewrite <-!app_assoc. cbn [app]. rewrite <-!app_assoc. cbn [app]. by rewrite <-!app_assoc.
    - destruct E4 as [E4 ->]. exfalso. apply (HN v []). exists c1, c2, c3, c4, (cstr c3). rewrite !line_cstr, En, Hn. repeat (split; [done|]). right; left. split; [|done]. by rewrite E1, E2, E3, E4.
    - destruct E4 as (E4&b&more&Hb&E4'). exfalso. apply (HN v []). exists c1, c2, c3, c4, (cstr c3). rewrite !line_cstr, En, Hn. repeat (split; [done|]). right; right. exists b, more. split; [done|]. split; [done|]. split; [|done].
      rewrite E1, E2, E3, E4'. rewrite <-!app_assoc. cbn [app]. rewrite <-!app_assoc. cbn [app]. by rewrite <-!app_assoc.
  Qed.
  Lemma load_stored r j p x y : load (r, j) = (p, x, y) -> stored r p x y.
  Proof using Type.
    destruct r as [? ? ? ? ? ? ?|? ? ? ? ? ? ? ? ? ?|? ? ? ? ? ? ? ?|d]; cbn; intros [= <- <- <-]; cbn; try by unfold single.
    by destruct d.
  Qed.
  Lemma records_ok v recs (image : record -> list byte) rest : (0 < size v)%nat -> (length rest < size v)%nat -> (forall r, r ∈ recs -> length (image r) = size v /\ of_image v (image r) = r) ->
    forall f s, (length recs <= f)%nat -> (forall r p x y, r ∈ recs -> stored r p x y -> (x < m_w s)%nat /\ (y < m_h s)%nat) ->
    exists new s', records_of v f (mjoin (image <$> recs) ++ rest) s = Ok s' /\ m_w s' = m_w s /\ m_h s' = m_h s /\
      Forall2 (fun r n => stored r n.1 n.2.1 n.2.2) recs new /\
      forall x y, m_cell s' x y = m_cell s x y ++ (fst <$> filter (fun n => n.2 = (x, y)) new).
  Proof using Type.
    intros Hv Hrest. induction recs as [|r recs IH]; intros Hi f s Hf Hp.
    - exists [], s. cbn. split; [destruct f; cbn [read_records]; by rewrite decide_True|]. do 2 (split; [done|]). split; [done|]. intros x y. by rewrite app_nil_r.
    - destruct f as [|f]; [cbn in Hf; lia|]. destruct (Hi r) as [Hl Ho]; [by left|]. change (mjoin (image <$> (r :: recs))) with (image r ++ mjoin (image <$> recs)). rewrite <-app_assoc. cbn [read_records].
      rewrite decide_False by (rewrite app_length; lia). rewrite take_app_alt, drop_app_alt by done. rewrite Ho. destruct (load (r, junk (image r))) as [[p x] y] eqn:E. pose proof (load_stored _ _ _ _ _ E) as HS.
      rewrite decide_True by (by apply (Hp r p x y); [left|]).
      destruct (IH ltac:(intros r' Hr'; apply Hi; by right) f (insert_tail x y p s)) as (new&s'&R1&R2&R3&R4&R5); [cbn in Hf; lia|intros r' p' x' y' Hr'; apply Hp; by right|].
      exists ((p, (x, y)) :: new), s'. split; [exact R1|]. split; [done|]. split; [done|]. split; [by constructor|]. intros x' y'. rewrite R5. cbn [m_cell insert_tail add_cell with_cell]. unfold set_cell. rewrite filter_cons. cbn [snd].
      destruct (decide (x' = x /\ y' = y)) as [[-> ->]|Hne]; [rewrite decide_True by done; rewrite <-app_assoc; done|]. rewrite decide_False; [done|]. intros [= <- <-]. by apply Hne.
  Qed.
  (** Of a file of any version, with records that are positioned in the grid, and bytes behind them that are too few for another one, each record becomes a patch, which is added at the end of its cell. *)
  Theorem C141_content v file recs image rest s : (0 < size v)%nat -> of_version size v file (mjoin (image <$> recs) ++ rest) -> (length rest < size v)%nat ->
    (forall r, r ∈ recs -> length (image r) = size v /\ of_image v (image r) = r) -> (forall r p x y, r ∈ recs -> stored r p x y -> (x < m_w s)%nat /\ (y < m_h s)%nat) ->
    exists new s', read_file file s = Ok s' /\ m_w s' = m_w s /\ m_h s' = m_h s /\ Forall2 (fun r n => stored r n.1 n.2.1 n.2.2) recs new /\
      forall x y, m_cell s' x y = m_cell s x y ++ (fst <$> filter (fun n => n.2 = (x, y)) new).
  Proof using Type.
    intros Hv HF Hrest Hi Hp. rewrite (read_version v file _ s Hv HF). apply records_ok; try done.
    assert (H : (length recs <= length (mjoin (image <$> recs)))%nat); [|rewrite app_length; lia].
    clear HF Hp. induction recs as [|r recs IH]; [done|]. change (mjoin (image <$> (r :: recs))) with (image r ++ mjoin (image <$> recs)). rewrite app_length. destruct (Hi r) as [-> _]; [by left|]. assert (length recs <= length (mjoin (image <$> recs)))%nat by (apply IH; intros; apply Hi; by right). cbn [length]. lia.
  Qed.
  (** A record with a position outside of the grid is undefined behaviour, in every version. *)
  Theorem C141_outside v file recs image r rest s : (0 < size v)%nat -> of_version size v file (mjoin (image <$> recs) ++ image r ++ rest) ->
    (forall r', r' ∈ recs ++ [r] -> length (image r') = size v /\ of_image v (image r') = r') -> (forall r' p x y, r' ∈ recs -> stored r' p x y -> (x < m_w s)%nat /\ (y < m_h s)%nat) ->
    (forall p x y, stored r p x y -> ~ ((x < m_w s)%nat /\ (y < m_h s)%nat)) -> read_file file s = Bad UB.
  Proof using Type.
    intros Hv HF Hi Hp Hr. rewrite (read_version v file _ s Hv HF). clear HF.
    assert (H : forall f, (length recs < f)%nat -> records_of v f (mjoin (image <$> recs) ++ image r ++ rest) s = Bad UB).
    { revert s Hp Hr. induction recs as [|r' recs IH]; intros s Hp Hr f Hf; (destruct f as [|f]; [cbn in Hf; lia|]).
      - cbn [fmap list_fmap mjoin list_join app read_records]. destruct (Hi r) as [Hl Ho]; [by left|]. rewrite decide_False by (rewrite app_length; lia). rewrite take_app_alt by done. rewrite Ho.
        destruct (load (r, junk (image r))) as [[p x] y] eqn:E. rewrite decide_False; [done|]. by apply (Hr p), (load_stored _ _ _ _ _ E).
      - destruct (Hi r') as [Hl Ho]; [by left|]. change (mjoin (image <$> (r' :: recs))) with (image r' ++ mjoin (image <$> recs)). rewrite <-app_assoc. cbn [read_records].
        rewrite decide_False by (rewrite app_length; lia). rewrite take_app_alt, drop_app_alt by done. rewrite Ho. destruct (load (r', junk (image r'))) as [[p x] y] eqn:E. pose proof (load_stored _ _ _ _ _ E) as HS.
        rewrite decide_True by (by apply (Hp r' p x y); [left|]). apply IH; [intros r1 Hr1; apply Hi; by right|intros r1 p' x' y' Hr1; apply Hp; by right|done|cbn in Hf; lia]. }
    apply H. rewrite !app_length. destruct (Hi r) as [-> _]; [apply elem_of_app; right; by left|].
    assert (HL : (length recs <= length (mjoin (image <$> recs)))%nat); [|lia].
    clear H Hp Hr. induction recs as [|r' recs IH]; [done|]. change (mjoin (image <$> (r' :: recs))) with (image r' ++ mjoin (image <$> recs)). rewrite app_length. destruct (Hi r') as [-> _]; [by left|]. assert (length recs <= length (mjoin (image <$> recs)))%nat by (apply IH; intros; apply Hi; by right). cbn [length]. lia.
  Qed.
  (** A file of one of the versions is never refused. *)
  Theorem C141_taken v file body s : (0 < size v)%nat -> of_version size v file body -> (exists s', read_file file s = Ok s') \/ read_file file s = Bad UB.
  Proof using Type.
    intros Hv HF. rewrite (read_version v file _ s Hv HF). clear HF. assert (H : forall f bs s, (length bs <= f)%nat -> (exists s', records_of v f bs s = Ok s') \/ records_of v f bs s = Bad UB); [|by apply H].
    clear body s. induction f as [|f IH]; intros bs s Hf; cbn [read_records].
    - rewrite decide_True by lia. left. by eexists.
    - destruct (decide (length bs < size v)%nat); [left; by eexists|]. destruct (load _) as [[p x] y]. destruct (decide _); [|by right]. apply IH. rewrite drop_length. lia.
  Qed.
End proofs.
(** records of 7 to 13 bytes, all numbers are bytes *)
Definition n_of (b : byte) : nat := Byte.to_nat b.
Definition demo_record (v : version) (l : list byte) : @record byte byte byte :=
  match v, l with
  | V10, m :: s :: h :: z :: i :: x :: y :: _ => R10 m s h (bool_decide (z <> x00)) (n_of i) (n_of x) (n_of y)
  | V11, m :: s :: h :: z :: i :: r :: g :: b :: x :: y :: _ => R11 m s h (bool_decide (z <> x00)) (n_of i) r g b (n_of x) (n_of y)
  | V12, m :: s :: h :: z :: i :: r :: g :: b :: x :: y :: _ => R12 m s h (bool_decide (z <> x00)) (n_of i) (r, g, b) (n_of x) (n_of y)
  | V13, m :: s :: h :: p :: a :: b :: n :: q :: i :: c :: t :: x :: y :: _ => R13 (Store13 m s h p a b n q (n_of i) (c, c, c) (if decide (t = x00) then VERTICAL else if decide (t = x01) then HORIZONTAL else NEGATIVE) (n_of x) (n_of y))
  | _, _ => R10 x00 x00 x00 false 0 0 0
  end.
Definition demo_size (v : version) : nat := match v with V10 => 7 | V11 => 10 | V12 => 10 | V13 => 13 end.
Definition demo_read (junk : color) := read_file x01 (fun b => b) (fun m _ => m) (fun b => b) (fun b => b) demo_size demo_record (fun _ => junk).
Definition line_of (t : string) : list byte := String.list_byte_of_string t ++ [newline].
(** a map of version 1.0 with two patches in a cell and one byte too many *)
Definition demo_old : list byte := line_of "mls" ++ line_of "1.0" ++ line_of "7" ++ line_of "bin" ++ [x05; x02; x00; x01; x03; x01; x00] ++ [x09; x02; x04; x00; x06; x01; x00] ++ [xff].
(** The colour of a patch from a map of version 1.0 is not determined. *)
Theorem C141_colour_refuted : ~ forall file s j1 j2, demo_read j1 file s = demo_read j2 file s.
Proof.
  intros H. specialize (H demo_old (new_mls 2 1) (x00, x00, x00) (x01, x00, x00)).
  assert (HC : forall j, match demo_read j demo_old (new_mls 2 1) with Ok s => sp_color <$> head (m_cell s 1 0) | _ => None end = Some j) by (intros j; vm_compute; reflexivity).
  pose proof (HC (x00, x00, x00)) as H1. pose proof (HC (x01, x00, x00)) as H2. rewrite H in H1. rewrite H1 in H2. discriminate.
Qed.
Example C141_nonvacuous : of_version demo_size V10 demo_old ([x05; x02; x00; x01; x03; x01; x00] ++ [x09; x02; x04; x00; x06; x01; x00] ++ [xff]) /\
  (forall v body, ~ of_version demo_size v (line_of "mls" ++ line_of "1.4" ++ line_of "7" ++ line_of "bin") body) /\
  match demo_read (x00, x00, x00) demo_old (new_mls 2 1) with
  | Ok s => m_cell s 0 0 = [] /\ sp_mean <$> m_cell s 1 0 = [x05; x09] /\ sp_type <$> m_cell s 1 0 = [HORIZONTAL; VERTICAL] /\ sp_idx <$> m_cell s 1 0 = [3; 6]
  | _ => False
  end /\ demo_read (x00, x00, x00) demo_old (new_mls 1 1) = Bad UB.
Proof.
  split.
  { exists (String.list_byte_of_string "mls"), (String.list_byte_of_string "1.0"), (String.list_byte_of_string "7"), (String.list_byte_of_string "bin"), "7".
    rewrite !line_cstr. repeat split; try (by apply (bool_decide_unpack _); vm_compute); try (cbn; lia); try reflexivity. by left. }
  split; [|split; [vm_compute; done|vm_compute; done]].
  intros v body H. assert (HT : demo_read (x00, x00, x00) (line_of "mls" ++ line_of "1.4" ++ line_of "7" ++ line_of "bin") (new_mls 1 1) = Throw (new_mls 1 1)) by (vm_compute; reflexivity).
  destruct (C141_taken x01 (fun b => b) (fun m _ => m) (fun b => b) (fun b => b) demo_size demo_record (fun _ => (x00, x00, x00)) v _ body (new_mls 1 1) ltac:(destruct v; cbn; lia) H) as [[s' Hs]|Hs]; unfold demo_read in HT; rewrite HT in Hs; discriminate.
Qed.
