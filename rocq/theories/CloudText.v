(** Point clouds as text.  C122.
    src/maps/Pointcloud.cpp:73-111

    The conversion of numbers is a parameter (the default precision of a stream is six digits, so reading what was written gives a rounded number); the rest of a stream, with its
    two error states, is modelled as in the C++ standard. Numbers are rational numbers. *)
From stdpp Require Import prelude.
From Coq Require Import ZArith QArith Qround Qcanon Ascii.
From Verif Require Import Base Transform Cloud.
Local Open Scope Z_scope.

(** * Model *)
(** isspace *)
Definition is_space (c : ascii) : bool := let n := N_of_ascii c in ((9 <=? n) && (n <=? 13) || (n =? 32))%N.
Definition newline : ascii := "010"%char.
Definition blank : ascii := " "%char.
(** a stream: the characters to be read, eofbit and failbit *)
Record stream := Stream { chars : list ascii; eof : bool; failed : bool }.
Definition good (s : stream) : bool := negb (eof s) && negb (failed s).
Definition fail (s : stream) : stream := Stream (chars s) (eof s) true.
Fixpoint skip_space (l : list ascii) : list ascii := match l with c :: l' => if is_space c then skip_space l' else l | [] => [] end.
(** [ignore( n, '\n' )] *)
Fixpoint ignore_line (n : nat) (l : list ascii) : list ascii * bool :=
  match n with
  | O => (l, false)
  | S n => match l with [] => ([], true) | c :: l => if decide (c = newline) then (l, false) else ignore_line n l end
  end.
Definition ignore (n : nat) (s : stream) : stream := if good s then let r := ignore_line n (chars s) in Stream r.1 r.2 false else fail s.
(** [peek] *)
Definition peek (s : stream) : stream := if good s then Stream (chars s) (bool_decide (chars s = [])) false else fail s.
Inductive format := XYZ | XYZR.
Section text.
  (** conversion of a number to text, and of text to a number: the value if there is one, and the characters that are left *)
  Context (print : Qc -> list ascii) (scan : list ascii -> option Qc * list ascii).
  (** [is >> x]: the value, if [x] is assigned; a failed conversion assigns zero, and a stream that is not good or has nothing but white space nothing *)
  Definition get_number (s : stream) : option Qc * stream :=
    if good s then
      match skip_space (chars s) with
      | [] => (None, Stream [] true true)
      | l => match scan l with
             | (Some v, rest) => (Some v, Stream rest (bool_decide (rest = [])) false)
             | (None, rest) => (Some 0%Qc, Stream rest (bool_decide (rest = [])) true)
             end
      end
    else (None, fail s).
  (** Pointcloud.cpp:73-81 *)
  Definition write_text (c : cloud) : list ascii := concat ((fun v => print (vx v) ++ [blank] ++ print (vy v) ++ [blank] ++ print (vz v) ++ [newline]) <$> verts c).
  (** Pointcloud.cpp:93-102; the use of a variable that has not been assigned is undefined. [Vector3d::Identity()] is the first unit vector. *)
  Definition read_line (f : format) (s : stream) (c : cloud) : out unit (stream * cloud) :=
    let x := get_number s in let y := get_number x.2 in let z := get_number y.2 in
    let g := match f with XYZ => (Some 0%Qc, z.2) | XYZR => get_number z.2 end in
    match x.1, y.1, z.1, g.1 with
    | Some x, Some y, Some z, Some r =>
      let c := match f with XYZ => c | XYZR => set_colors (push (Vec (r / Q2Qc 255) 0 0)%Qc (colors c)) c end in
      Ok (ignore 255 g.2, set_verts (verts c ++ [Vec x y z]) c)
    | _, _, _, _ => Bad UB
    end.
  (** Pointcloud.cpp:89-108, the loop; [rand n] is the result of the [n]-th call *)
  Fixpoint read_lines (fuel : nat) (f : format) (sample : Z) (rand : nat -> Z) (n : nat) (s : stream) (c : cloud) : out unit cloud :=
    match fuel with
    | O => NoFuel
    | S fuel =>
      if eof s then Ok c
      else if decide (sample = 0) then Bad UB
      else
        r <~ (if (sample =? 1) || (Z.rem (rand n) sample =? 0) then read_line f s c else Ok (ignore 255 s, c)) ;;
        read_lines fuel f sample rand (S n) (peek r.1) r.2
    end.
  (** Pointcloud.cpp:83-111 *)
  Definition read_text (fuel : nat) (f : format) (sample : Z) (rand : nat -> Z) (text : list ascii) (c : cloud) : out unit cloud :=
    let c := match f with XYZ => c | XYZR => set_colors (Some (default [] (colors c))) c end in
    read_lines fuel f sample rand 0 (Stream text false false) c.

  (** * Specification *)
  (** numbers are written without white space, and are read back rounded, up to the next white space *)
  Definition converts (round : Qc -> Qc) : Prop :=
    forall x, (exists a l, print x = a :: l /\ is_space a = false) /\ newline ∉ print x /\ forall rest, match rest with [] => True | a :: _ => is_space a = true end -> scan (print x ++ rest) = (Some (round x), rest).
  (** a line of a file: a point, a remission value (if the format has one), and more text that is ignored *)
  Record row := Row { r_point : vec; r_remission : Qc; r_more : list ascii }.
  Definition row_text (f : format) (r : row) : list ascii :=
    print (vx (r_point r)) ++ blank :: print (vy (r_point r)) ++ blank :: print (vz (r_point r)) ++ match f with XYZ => [] | XYZR => blank :: print (r_remission r) end ++ r_more r.
  (** the additional text begins with white space, and a line has at most 254 characters *)
  Definition good_row (f : format) (r : row) : Prop := match r_more r with [] => True | a :: _ => is_space a = true end /\ newline ∉ r_more r /\ (length (row_text f r) <= 254)%nat.
  (** a file with these lines; the last one may end without a newline *)
  Fixpoint file (f : format) (last_newline : bool) (rows : list row) : list ascii :=
    match rows with
    | [] => []
    | [r] => row_text f r ++ (if last_newline then [newline] else [])
    | r :: rows => row_text f r ++ newline :: file f last_newline rows
    end.
  (** the rows with the chosen numbers *)
  Fixpoint picked (choose : nat -> bool) (n : nat) (rows : list row) : list row :=
    match rows with [] => [] | r :: rows => if choose n then r :: picked choose (S n) rows else picked choose (S n) rows end.
  Definition chosen (sample : Z) (rand : nat -> Z) (n : nat) : bool := (sample =? 1) || (Z.rem (rand n) sample =? 0).
  Definition rounded (round : Qc -> Qc) (v : vec) : vec := Vec (round (vx v)) (round (vy v)) (round (vz v)).

  (** * Proof *)
  Lemma get_number_ok round pre x rest : converts round -> Forall (fun c => is_space c = true) pre -> match rest with [] => True | a :: _ => is_space a = true end ->
    get_number (Stream (pre ++ print x ++ rest) false false) = (Some (round x), Stream rest (bool_decide (rest = [])) false).
  Proof using Type.
    intros Hc Hp Hr. destruct (Hc x) as ((a&l&E&Ha)&_&Hs). specialize (Hs rest Hr). unfold get_number, good. cbn [eof failed chars negb andb].
    assert (K : skip_space (pre ++ print x ++ rest) = print x ++ rest).
    { rewrite E. clear -Hp Ha. induction Hp as [|c pre Hc _ IH]; cbn; [by rewrite Ha|]. by rewrite Hc. }
    rewrite K. rewrite E in Hs |- *. cbn [app] in *. rewrite Hs. done.
  Qed.
  Lemma get_number_blank round x rest : converts round -> match rest with [] => True | a :: _ => is_space a = true end ->
    get_number (Stream (blank :: print x ++ rest) false false) = (Some (round x), Stream rest (bool_decide (rest = [])) false).
  Proof using Type. intros Hc Hr. apply (get_number_ok round [blank] x rest Hc); [by repeat constructor|done]. Qed.
  Lemma ignore_line_newline n l rest : newline ∉ l -> (length l < n)%nat -> ignore_line n (l ++ newline :: rest) = (rest, false).
  Proof using Type.
    revert n. induction l as [|a l IH]; intros n Hn Hl; (destruct n as [|n]; [cbn in Hl; lia|]); cbn [app ignore_line]; [by rewrite decide_True|].
    rewrite decide_False by (intros ->; apply Hn; by left). apply IH; [intros H; apply Hn; by right|cbn in Hl; lia].
  Qed.
  Lemma ignore_line_end n l : newline ∉ l -> (length l < n)%nat -> ignore_line n l = ([], true).
  Proof using Type.
    revert n. induction l as [|a l IH]; intros n Hn Hl; (destruct n as [|n]; [cbn in Hl; lia|]); cbn [ignore_line]; [done|].
    rewrite decide_False by (intros ->; apply Hn; by left). apply IH; [intros H; apply Hn; by right|cbn in Hl; lia].
  Qed.
  (** what follows a row *)
  Definition follows (tail : list ascii) : Prop := tail = [] \/ exists l, tail = newline :: l.
  Definition after (tail : list ascii) (s : stream) : Prop :=
    match tail with [] => eof s = true | _ :: l => peek s = Stream l (bool_decide (l = [])) false end.
  Lemma peek_eof s : eof s = true -> eof (peek s) = true.
  Proof using Type. intros H. unfold peek, good. rewrite H. done. Qed.
  Lemma ignore_after l tail : newline ∉ l -> (length l <= 254)%nat -> follows tail -> after tail (ignore 255 (Stream (l ++ tail) (bool_decide (l ++ tail = [])) false)).
  Proof using Type.
    intros Hn Hl Ht. unfold ignore, good. cbn [eof failed chars negb andb]. destruct Ht as [->|(more&->)].
    - rewrite app_nil_r. case_bool_decide as E; cbn [negb andb]; [done|]. rewrite (ignore_line_end 255 l) by (done || lia). done.
    - rewrite bool_decide_false by (by destruct l). cbn [negb andb]. rewrite (ignore_line_newline 255 l more) by (done || lia). done.
  Qed.
  Definition add_row (round : Qc -> Qc) (f : format) (c : cloud) (r : row) : cloud :=
    let c := match f with XYZ => c | XYZR => set_colors (push (Vec (round (r_remission r) / Q2Qc 255) 0 0)%Qc (colors c)) c end in
    set_verts (verts c ++ [rounded round (r_point r)]) c.
  Lemma row_newline round f r : converts round -> good_row f r -> newline ∉ row_text f r.
  Proof using Type.
    intros Hc (_&Hn&_). unfold row_text. assert (K : forall x, newline ∉ print x) by (intros x; apply Hc). assert (newline <> blank) by done.
    assert (A : forall (l1 l2 : list ascii), newline ∉ l1 -> newline ∉ l2 -> newline ∉ l1 ++ l2) by (intros l1 l2 H1 H2 H3; apply elem_of_app in H3 as [?|?]; auto).
    assert (B : forall l, newline ∉ l -> newline ∉ blank :: l) by (intros l H1 H2; apply elem_of_cons in H2 as [?|?]; auto).
    destruct f; cbn [app]; repeat (apply A || apply B || apply K || exact Hn || apply not_elem_of_nil).
  Qed.
  Lemma read_line_ok round f r tail c : converts round -> good_row f r -> follows tail -> exists s, read_line f (Stream (row_text f r ++ tail) false false) c = Ok (s, add_row round f c r) /\ after tail s.
  Proof using Type.
    intros Hc (Hm&Hn&Hl) Ht. set (rest := r_more r ++ tail).
    assert (Hrest : match rest with [] => True | a :: _ => is_space a = true end). { unfold rest. destruct (r_more r); [|done]. by destruct Ht as [->|(l&->)]. }
    assert (Hsp : forall (l : list ascii), match blank :: l with [] => True | a :: _ => is_space a = true end) by done.
    assert (Hlen : (length (r_more r) <= 254)%nat). { unfold row_text in Hl. rewrite !app_length in Hl. cbn in Hl. rewrite !app_length in Hl. cbn in Hl. rewrite !app_length in Hl. lia. }
    unfold read_line. destruct f.
    - assert (E1 : row_text XYZ r ++ tail = [] ++ print (vx (r_point r)) ++ blank :: print (vy (r_point r)) ++ blank :: print (vz (r_point r)) ++ rest).
      { unfold row_text, rest. cbn. rewrite <-!app_assoc. cbn. rewrite <-!app_assoc. cbn. by rewrite <-!app_assoc. }
      rewrite E1, (get_number_ok round [] (vx (r_point r)) (blank :: print (vy (r_point r)) ++ blank :: print (vz (r_point r)) ++ rest) Hc ltac:(constructor) (Hsp [])). cbn [fst snd]. rewrite bool_decide_false by done.
      rewrite (get_number_blank round (vy (r_point r)) (blank :: print (vz (r_point r)) ++ rest) Hc (Hsp [])). cbn [fst snd]. rewrite bool_decide_false by done.
      rewrite (get_number_blank round (vz (r_point r)) rest Hc Hrest). cbn [fst snd].
      eexists. split; [reflexivity|]. apply ignore_after; done.
    - assert (E1 : row_text XYZR r ++ tail = [] ++ print (vx (r_point r)) ++ blank :: print (vy (r_point r)) ++ blank :: print (vz (r_point r)) ++ blank :: print (r_remission r) ++ rest).
      { unfold row_text, rest. cbn. rewrite <-!app_assoc. cbn. rewrite <-!app_assoc. cbn. rewrite <-!app_assoc. cbn. by rewrite <-!app_assoc. }
      rewrite E1, (get_number_ok round [] (vx (r_point r)) (blank :: print (vy (r_point r)) ++ blank :: print (vz (r_point r)) ++ blank :: print (r_remission r) ++ rest) Hc ltac:(constructor) (Hsp [])). cbn [fst snd]. rewrite bool_decide_false by done.
      rewrite (get_number_blank round (vy (r_point r)) (blank :: print (vz (r_point r)) ++ blank :: print (r_remission r) ++ rest) Hc (Hsp [])). cbn [fst snd]. rewrite bool_decide_false by done.
      rewrite (get_number_blank round (vz (r_point r)) (blank :: print (r_remission r) ++ rest) Hc (Hsp [])). cbn [fst snd]. rewrite bool_decide_false by done.
      rewrite (get_number_blank round (r_remission r) rest Hc Hrest). cbn [fst snd].
      eexists. split; [reflexivity|]. apply ignore_after; done.
  Qed.
  Lemma skip_line_ok round f r tail : converts round -> good_row f r -> follows tail -> after tail (ignore 255 (Stream (row_text f r ++ tail) false false)).
  Proof using Type.
    intros Hc Hg Ht. pose proof (row_newline round f r Hc Hg) as Hn. destruct Hg as (_&_&Hl). assert (Hne : row_text f r ++ tail <> []). { destruct (Hc (vx (r_point r))) as ((a&l&E&_)&_). unfold row_text. by rewrite E. }
    pose proof (ignore_after (row_text f r) tail Hn Hl Ht) as K. by rewrite bool_decide_false in K.
  Qed.
  Lemma file_nonempty round f b r rows : converts round -> file f b (r :: rows) <> [].
  Proof using Type. intros Hc. destruct (Hc (vx (r_point r))) as ((a&l&E&_)&_). cbn. unfold row_text. rewrite E. by destruct rows. Qed.
  Lemma read_lines_ok round f b sample rand rows : converts round -> sample <> 0 -> Forall (good_row f) rows -> rows <> [] ->
    forall fuel n c, (length rows < fuel)%nat -> read_lines fuel f sample rand n (Stream (file f b rows) false false) c = Ok (foldl (add_row round f) c (picked (chosen sample rand) n rows)).
  Proof using Type.
    intros Hc Hs HF. induction HF as [|r rows Hr HF IH]; intros Hne fuel n c Hfuel; [done|]. destruct fuel as [|fuel]; [cbn in Hfuel; lia|].
    cbn [read_lines eof]. rewrite decide_False by done. fold (chosen sample rand n). cbn [picked].
    assert (Hf : exists tail, file f b (r :: rows) = row_text f r ++ tail /\ follows tail /\ ((rows = [] /\ (tail = [] \/ tail = [newline])) \/ (rows <> [] /\ tail = newline :: file f b rows))).
    { destruct rows as [|r2 rows].
      - cbn [file]. exists (if b then [newline] else []). split; [done|]. split; [destruct b; [right; by exists []|by left]|]. left. split; [done|]. destruct b; auto.
      - exists (newline :: file f b (r2 :: rows)). split; [done|]. split; [right; by eexists|]. by right. }
    destruct Hf as (tail&Ef&Ht&Hcase). rewrite Ef.
    assert (K : exists s, (if chosen sample rand n then read_line f (Stream (row_text f r ++ tail) false false) c else Ok (ignore 255 (Stream (row_text f r ++ tail) false false), c))
      = Ok (s, if chosen sample rand n then add_row round f c r else c) /\ after tail s).
    { destruct (chosen sample rand n); [by apply read_line_ok|]. eexists. split; [reflexivity|]. by eapply skip_line_ok. }
    destruct K as (s&E&Ha). rewrite E. cbn [obind fst snd].
    assert (G : forall (c' : cloud), read_lines fuel f sample rand (S n) (peek s) c' = Ok (foldl (add_row round f) c' (picked (chosen sample rand) (S n) rows))).
    { intros c'. destruct Hcase as [[-> Htl]|[Hne' ->]].
      - destruct fuel as [|fuel]; [cbn in Hfuel; lia|]. cbn [read_lines picked foldl].
        destruct Htl as [->| ->]; cbn [after] in Ha; [by rewrite peek_eof|]. rewrite Ha. done.
      - cbn [after] in Ha. rewrite Ha. destruct rows as [|r2 rows]; [done|]. rewrite bool_decide_false by by eapply file_nonempty. apply IH; [done|]. cbn in Hfuel |- *. lia. }
    rewrite G. by destruct (chosen sample rand n).
  Qed.
  Lemma add_rows round f rows c : foldl (add_row round f) c rows =
    Cloud (verts c ++ ((fun r => rounded round (r_point r)) <$> rows)) (normals c)
      (match f, rows with XYZR, _ :: _ => Some (default [] (colors c) ++ ((fun r => Vec (round (r_remission r) / Q2Qc 255) 0 0)%Qc <$> rows)) | _, _ => colors c end) (attrs c) (vars c).
  Proof using Type.
    revert c. induction rows as [|r rows IH]; intros c; cbn [foldl fmap list_fmap]. { rewrite app_nil_r. destruct c, f; done. }
    rewrite IH. destruct c as [cv cn cc ca cx], f; cbn.
    - by rewrite <-app_assoc.
    - rewrite <-app_assoc. cbn. f_equal. destruct rows as [|r2 rows]; [done|]. cbn. by rewrite <-app_assoc.
  Qed.

  (** * Theorems *)
  (** Reading a file of good lines (not none) appends the points of the chosen lines, in their order, and with remission values one colour for each. Without sampling all lines
      are chosen. *)
  Theorem C122_read round f b sample rand rows c fuel : converts round -> sample <> 0 -> Forall (good_row f) rows -> rows <> [] -> (length rows < fuel)%nat ->
    let ch := picked (chosen sample rand) 0 rows in
    read_text fuel f sample rand (file f b rows) c = Ok (Cloud (verts c ++ ((fun r => rounded round (r_point r)) <$> ch)) (normals c)
      (match f with XYZ => colors c | XYZR => Some (default [] (colors c) ++ ((fun r => Vec (round (r_remission r) / Q2Qc 255) 0 0)%Qc <$> ch)) end) (attrs c) (vars c)).
  Proof using Type.
    intros Hc Hs HF Hne Hfuel ch. unfold read_text. rewrite (read_lines_ok round) by done. fold ch. rewrite add_rows. destruct c as [cv cn cc ca cx], f; cbn; [done|].
    destruct ch as [|r ch]; [cbn; by rewrite !app_nil_r|done].
  Qed.
  Theorem C122_all rows rand : picked (chosen 1 rand) 0 rows = rows /\ forall sample n, chosen sample rand n = true <-> sample = 1 \/ Z.rem (rand n) sample = 0.
  Proof using Type.
    split; [generalize 0%nat as n; induction rows as [|r rows IH]; intros n; [done|]; cbn; by rewrite IH|]. intros sample n. unfold chosen. rewrite orb_true_iff, !Z.eqb_eq. done.
  Qed.
  (** A cloud with points that is written and read again has its points, rounded as numbers are written. Its other data is lost. *)
  Theorem C122_again round c fuel rand : converts round -> verts c <> [] -> (length (verts c) < fuel)%nat -> Forall (fun v => length (print (vx v)) + length (print (vy v)) + length (print (vz v)) <= 250)%nat (verts c) ->
    read_text fuel XYZ 1 rand (write_text c) (Cloud [] None None None None) = Ok (Cloud (rounded round <$> verts c) None None None None).
  Proof using Type.
    intros Hc Hne Hfuel HL. set (rows := (fun v => Row v 0%Qc []) <$> verts c).
    assert (E : write_text c = file XYZ true rows).
    { unfold write_text, rows. clear. induction (verts c) as [|v l IH]; [done|]. cbn [fmap list_fmap concat]. rewrite IH. cbn [file]. destruct l as [|v2 l].
      - cbn. unfold row_text. cbn. rewrite !app_nil_r. rewrite <-!app_assoc. cbn. rewrite <-!app_assoc. cbn. done.
      - cbn [fmap list_fmap]. unfold row_text at 1. cbn [r_point r_more]. rewrite !app_nil_r. repeat (rewrite <-!app_assoc; cbn [app]). done. }
    rewrite E. rewrite (C122_read round XYZ true 1 rand rows); [|done|done| | |by unfold rows; rewrite fmap_length].
    - rewrite (proj1 (C122_all rows rand)). unfold rows. rewrite <-list_fmap_compose. done.
    - unfold rows. apply Forall_fmap. eapply Forall_impl; [exact HL|]. intros v Hv. split; [done|]. split; [apply not_elem_of_nil|]. unfold row_text. cbn [r_point r_more]. do 4 (rewrite ?app_length; cbn [length app]). cbv beta in Hv. lia.
    - unfold rows. by destruct (verts c).
  Qed.
  (** An empty file (which is what is written for an empty cloud) gives a point made of variables that were never assigned. *)
  Theorem C122_empty_refuted c c' fuel rand : verts c = [] -> read_text (S fuel) XYZ 1 rand (write_text c) c' = Bad UB.
  Proof using Type. intros E. unfold write_text. rewrite E. done. Qed.
  (** The sample parameter zero divides by zero. *)
  Theorem C122_zero_refuted f c fuel rand text : read_text (S fuel) f 0 rand text c = Bad UB.
  Proof using Type. reflexivity. Qed.
  (** An empty line at the end also gives a point of variables that were never assigned. *)
  Theorem C122_blank_refuted round f rows c fuel rand : converts round -> Forall (good_row f) rows -> rows <> [] -> (S (length rows) < fuel)%nat -> read_text fuel f 1 rand (file f true rows ++ [newline]) c = Bad UB.
  Proof using Type.
    intros Hc HF Hne Hfuel. unfold read_text. generalize (match f with XYZ => c | XYZR => set_colors (Some (default [] (colors c))) c end) as c'. clear c. generalize 0%nat as n. revert fuel Hfuel. induction HF as [|r rows Hr HF IH]; intros fuel Hfuel n c; [done|].
    destruct fuel as [|fuel]; [lia|]. cbn [read_lines eof]. rewrite decide_False by done. cbn [Z.eqb Pos.eqb orb].
    assert (E : file f true (r :: rows) ++ [newline] = row_text f r ++ newline :: (file f true rows ++ [newline])).
    { destruct rows; cbn [file]; rewrite <-app_assoc; done. }
    rewrite E. destruct (read_line_ok round f r (newline :: (file f true rows ++ [newline])) c Hc Hr ltac:(right; by eexists)) as (s&Es&Ha). rewrite Es. cbn [obind fst snd]. cbn [after] in Ha. rewrite Ha.
    rewrite bool_decide_false by (by destruct (file f true rows)). destruct rows as [|r2 rows]; [|apply IH; [done|cbn in *; lia]].
    destruct fuel as [|fuel]; [cbn in Hfuel; lia|]. destruct f; done.
  Qed.
End text.

(** * Numbers in strokes, for the examples *)
Definition strokes (n : nat) : list ascii := repeat "1"%char n.
Definition ex_print (x : Qc) : list ascii := let n := Qfloor (this x) in (if n <? 0 then "-"%char else "+"%char) :: strokes (Z.abs_nat n).
Fixpoint count (l : list ascii) : nat * list ascii := match l with c :: l' => if decide (c = "1"%char) then let r := count l' in (S r.1, r.2) else (0%nat, l) | [] => (0%nat, []) end.
Definition ex_scan (l : list ascii) : option Qc * list ascii :=
  match l with
  | c :: l' => if decide (c = "+"%char) then (Some (Q2Qc (inject_Z (Z.of_nat (count l').1))), (count l').2)
              else if decide (c = "-"%char) then (Some (Q2Qc (inject_Z (- Z.of_nat (count l').1))), (count l').2) else (None, l)
  | [] => (None, [])
  end.
Definition ex_round (x : Qc) : Qc := Q2Qc (inject_Z (Qfloor (this x))).
Lemma count_strokes n rest : match rest with [] => True | a :: _ => is_space a = true end -> count (strokes n ++ rest) = (n, rest).
Proof.
  intros Hr. induction n as [|n IH]; cbn [strokes repeat app count].
  - destruct rest as [|a rest]; [done|]. cbn [count]. rewrite decide_False; [done|]. intros ->. done.
  - rewrite decide_True by done. fold (strokes n). rewrite IH. done.
Qed.
Lemma ex_converts : converts ex_print ex_scan ex_round.
Proof.
  intros x. unfold ex_print, ex_round. set (n := Qfloor (this x)). split; [|split].
  - eexists _, _. split; [reflexivity|]. by destruct (n <? 0).
  - intros H. apply elem_of_cons in H as [H|H]; [by destruct (n <? 0)|]. unfold strokes in H. apply elem_of_list_In, repeat_spec in H. done.
  - intros rest Hr. cbn [app ex_scan]. rewrite count_strokes by done. destruct (n <? 0) eqn:E.
    + apply Z.ltb_lt in E. rewrite decide_False by done. rewrite decide_True by done. cbn [fst snd]. repeat f_equal. lia.
    + apply Z.ltb_ge in E. rewrite decide_True by done. cbn [fst snd]. repeat f_equal. lia.
Qed.
Definition nothing : cloud := Cloud [] None None None None.
Definition ex_rows : list row := [Row (pt 1 2 3) (Q2Qc 85) []; Row (pt 4 (-(5 # 2)) 0) (Q2Qc 51) [blank; "#"%char]; Row (pt 2 2 2) 0%Qc ["013"%char]].
Lemma ex_good f : Forall (good_row ex_print f) ex_rows.
Proof.
  assert (K : forall r, match r_more r with [] => True | a :: _ => is_space a = true end -> bool_decide (newline ∉ r_more r) = true -> (length (row_text ex_print f r) <= 254)%nat -> good_row ex_print f r).
    { intros r H1 H2 H3. split; [done|]. split; [by apply bool_decide_eq_true in H2|done]. }
    unfold ex_rows. constructor; [|constructor; [|constructor; [|constructor]]]; apply K; try (vm_compute; reflexivity); try exact I; destruct f; vm_compute; lia.
Qed.
Example C122_nonvacuous : converts ex_print ex_scan ex_round /\ Forall (good_row ex_print XYZR) ex_rows /\ Forall (good_row ex_print XYZ) ex_rows /\
  match read_text ex_scan 9 XYZR 2 (fun n => Z.of_nat n) (file ex_print XYZR false ex_rows) nothing with
  | Ok c => (List.map show (verts c), (fun l : list vec => List.map show l) <$> colors c) = ([(1, 2, 3); (2, 2, 2)]%Q, Some [(1 # 3, 0, 0); (0, 0, 0)]%Q) | _ => False end /\
  match read_text ex_scan 9 XYZ 1 (fun n => 0) (file ex_print XYZ true ex_rows) nothing with
  | Ok c => (List.map show (verts c), colors c) = ([(1, 2, 3); (4, -(3), 0); (2, 2, 2)]%Q, None) | _ => False end.
Proof.
  split; [exact ex_converts|]. split; [exact (ex_good XYZR)|]. split; [exact (ex_good XYZ)|]. split; vm_compute; reflexivity.
Qed.
(** The colour of a remission value is a shade of red. *)
Theorem C122_grey_refuted : ~ forall rows c, Forall (good_row ex_print XYZR) rows -> rows <> [] -> read_text ex_scan (S (length rows)) XYZR 1 (fun _ => 0) (file ex_print XYZR true rows) nothing = Ok c ->
  forall l, colors c = Some l -> Forall (fun v => vx v = vy v /\ vy v = vz v) l.
Proof.
  intros H. set (rows := take 1 ex_rows).
  assert (HF : Forall (good_row ex_print XYZR) rows). { apply Forall_take. exact (ex_good XYZR). }
  assert (Hne : rows <> []). { discriminate. }
  assert (Hl : (length rows < S (length rows))%nat) by lia.
  pose proof (C122_read ex_print ex_scan ex_round XYZR true 1 (fun _ => 0) rows nothing (S (length rows)) ex_converts ltac:(lia) HF Hne Hl) as R. cbv zeta in R.
  specialize (H rows _ HF Hne R _ eq_refl). clear R.
  assert (K : match picked (chosen 1 (fun _ => 0)) 0 rows with r :: _ => Qeq_bool (this (ex_round (r_remission r) / Q2Qc 255)%Qc) 0 | [] => true end = false) by (vm_compute; reflexivity).
  destruct (picked (chosen 1 (fun _ => 0)) 0 rows) as [|r l]; [discriminate|]. apply Forall_inv in H as [H _]. cbn [vx vy] in H. rewrite H in K. discriminate.
Qed.
(** Of a long line the part after 255 ignored characters is taken as another line. *)
Theorem C122_long_refuted : ~ forall more, newline ∉ more -> forall c, read_text ex_scan 9 XYZ 1 (fun _ => 0) (row_text ex_print XYZ (Row (pt 0 0 0) 0 (blank :: more)) ++ [newline]) nothing = Ok c -> length (verts c) = 1%nat.
Proof.
  intros H. set (more := repeat blank 254 ++ row_text ex_print XYZ (Row (pt 1 1 1) 0 [])). assert (Hn : newline ∉ more) by (apply (bool_decide_eq_true (newline ∉ more)); vm_compute; reflexivity).
  specialize (H more Hn). destruct (read_text ex_scan 9 XYZ 1 (fun _ => 0) (row_text ex_print XYZ (Row (pt 0 0 0) 0 (blank :: more)) ++ [newline]) nothing) as [c| | |] eqn:E.
  - specialize (H c eq_refl). assert (K : match read_text ex_scan 9 XYZ 1 (fun _ => 0) (row_text ex_print XYZ (Row (pt 0 0 0) 0 (blank :: more)) ++ [newline]) nothing with Ok c => length (verts c) | _ => 0%nat end = 2%nat) by (vm_compute; reflexivity).
    rewrite E in K. congruence.
  - vm_compute in E. discriminate.
  - vm_compute in E. discriminate.
  - vm_compute in E. discriminate.
Qed.
(** A file that begins with a line of column names gives undefined values, *)
Theorem C122_names_refuted fuel : read_text ex_scan (S fuel) XYZ 1 (fun _ => 0) (["x"; " "; "y"; " "; "z"]%char ++ newline :: file ex_print XYZ true ex_rows) nothing = Bad UB.
Proof. vm_compute. reflexivity. Qed.
(** and one with a letter in the place of the last number may be read forever. *)
Theorem C122_forever_refuted : exists rand, forall fuel, read_text ex_scan fuel XYZ 2 rand (["+"; " "; "+"; " "; "z"]%char ++ newline :: file ex_print XYZ true ex_rows) nothing = NoFuel.
Proof.
  exists (fun n => if (n =? 0)%nat then 0 else 1). intros [|fuel]; [done|]. unfold read_text. cbn [read_lines eof]. rewrite decide_False by done. cbn [Nat.eqb].
  match goal with |- context [read_line ex_scan XYZ ?s ?c] => set (r := read_line ex_scan XYZ s c) end.
  assert (K : exists s c, r = Ok (s, c) /\ eof s = false /\ failed s = true). { eexists _, _. split; [vm_compute; reflexivity|]. done. }
  destruct K as (s&c&E&He&Hf). clearbody r. change (Z.rem 0 2 =? 0) with true. cbn [orb]. rewrite orb_true_r. rewrite E. cbn [obind fst snd].
  assert (L : forall fuel n s, eof s = false -> failed s = true -> read_lines ex_scan fuel XYZ 2 (fun n => if (n =? 0)%nat then 0 else 1) (S n) s c = NoFuel).
  { clear. induction fuel as [|fuel IH]; intros n s He Hf; [done|]. cbn [read_lines]. rewrite He. rewrite decide_False by done. change ((2 =? 1) || (Z.rem (if (S n =? 0)%nat then 0 else 1) 2 =? 0)) with false. cbn [obind fst snd].
    apply IH; unfold peek, ignore, fail, good; rewrite He, Hf; cbn; rewrite ?He; done. }
  apply L; unfold peek, fail, good; rewrite He, Hf; cbn; done.
Qed.
