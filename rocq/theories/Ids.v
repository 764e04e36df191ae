(** Names: the parts of a unique id (C53), file names of maps (C26), class lookup (C27) and the number
    at the end of an id.
    Models parts of src/core/Environment.cpp, Layer.cpp and SerializationFactory.cpp. *)
From Coq Require Import ZArith Ascii String.
From stdpp Require Import prelude strings pretty.
From Verif Require Import Base AssocLemmas.
Local Arguments String.append !_ _ /.

(** ** Library functions *)

(** a string starts with [pat] *)
Fixpoint starts (pat s : string) : bool :=
  match pat, s with
  | EmptyString, _ => true
  | String c p, String d r => if decide (c = d) then starts p r else false
  | _, _ => false
  end.

(** [std::string::rfind]: the greatest position where [pat] starts; [None] is [npos]. *)
Fixpoint rfind (pat s : string) : option nat :=
  match s with
  | EmptyString => if decide (pat = "") then Some 0 else None
  | String _ r =>
    match rfind pat r with
    | Some n => Some (S n)
    | None => if starts pat s then Some 0 else None
    end
  end.

(** [s.substr(pos)]: throws std::out_of_range ([None]) if [pos > s.size()]. *)
Fixpoint drop_str (n : nat) (s : string) : option string :=
  match n, s with
  | O, _ => Some s
  | S n, String _ r => drop_str n r
  | S _, EmptyString => None
  end.

(** [s.substr(0, n)] *)
Fixpoint take_str (n : nat) (s : string) : string :=
  match n, s with
  | S n, String c r => String c (take_str n r)
  | _, _ => EmptyString
  end.

(** ** Parts of a unique id *)

(** EnvironmentItem::getUniqueIdPrefix, Environment.cpp:71-80 *)
Definition id_prefix (id : string) : string :=
  match rfind "/" id with
  | Some (S n) => take_str (S n) id
  | _ => ""
  end.

(** EnvironmentItem::getUniqueIdSuffix, Environment.cpp:82-96 *)
Definition id_suffix (id : string) : option string :=
  match rfind "/" id with
  | Some n => drop_str (S n) id
  | None => Some id
  end.

(** boost::lexical_cast<long>: an optional sign and at least one digit, nothing else; [None] is
    boost::bad_lexical_cast, also thrown if the number does not fit. *)
Definition long_max : Z := 9223372036854775807.
Definition long_min : Z := -9223372036854775808.
Definition digit (c : ascii) : option Z :=
  let n := Z.of_nat (nat_of_ascii c) in
  if decide (48 <= n <= 57)%Z then Some (n - 48)%Z else None.
Fixpoint digits (acc : Z) (s : string) : option Z :=
  match s with
  | EmptyString => Some acc
  | String c r => match digit c with Some d => digits (10 * acc + d) r | None => None end
  end.
Definition to_long (s : string) : option Z :=
  let unsigned t := match t with EmptyString => None | _ => digits 0 t end in
  match match s with
        | String "-"%char t => Z.opp <$> unsigned t
        | String "+"%char t => unsigned t
        | _ => unsigned s
        end with
  | Some z => if decide (long_min <= z <= long_max)%Z then Some z else None
  | None => None
  end.

(** EnvironmentItem::getUniqueIdNumericalSuffix, Environment.cpp:98-101 *)
Definition id_number (id : string) : option Z :=
  match id_suffix id with Some s => to_long s | None => None end.

(** ** File names of maps *)
(** [std::replace(s.begin(), s.end(), '/', '_')] *)
Fixpoint unslash (s : string) : string :=
  match s with
  | EmptyString => EmptyString
  | String c r => String (if decide (c = slash) then "_"%char else c) (unslash r)
  end.
(** Layer::getMapFileName(className), Layer.cpp:131-136 *)
Definition map_file_name (cls id : string) : string := cls +:+ unslash id.

(** ** Class lookup *)
Section Factory.
  Context {F : Type} `{!EqDecision F}.
  (** SerializationFactory::addClass, SerializationFactory.cpp:50-53 *)
  Definition add_class (name : string) (f : F) (m : list (string * F)) : list (string * F) :=
    map_set str_ltb name f m.
  (** SerializationFactory::createObject, SerializationFactory.cpp:23-48: the factory that is called, or [None]
      if std::runtime_error or (from [substr]) std::out_of_range is thrown. [npos + 2] is 1. *)
  Definition find_class (m : list (string * F)) (name : string) : option F :=
    match assoc name m with
    | Some f => Some f
    | None =>
      match drop_str (match rfind "::" name with Some n => n + 2 | None => 1 end) name with
      | Some short => assoc short m
      | None => None
      end
    end.
  (** registrations of a program, in order *)
  Definition register (cs : list (string * F)) : list (string * F) :=
    foldl (fun m cf => add_class cf.1 cf.2 m) [] cs.
End Factory.

(** * Specification and proofs *)
(** a character or a text occurs in a string *)
Definition occurs (pat s : string) : Prop := exists a b, s = a +:+ pat +:+ b.
Definition has_char (c : ascii) (s : string) : Prop := c ∈ list_ascii_of_string s.

Global Instance has_char_dec c s : Decision (has_char c s).
Proof. unfold has_char. apply _. Defined.
Lemma app_assoc_s (a b c : string) : a +:+ (b +:+ c) = (a +:+ b) +:+ c.
Proof. induction a as [|x a IH]; simpl; [done|by rewrite IH]. Qed.
Lemma app_nil_s (a : string) : a +:+ "" = a.
Proof. induction a as [|x a IH]; simpl; [done|by rewrite IH]. Qed.
Lemma length_app_s (a b : string) : String.length (a +:+ b) = String.length a + String.length b.
Proof. induction a as [|x a IH]; simpl; [done|by rewrite IH]. Qed.
Lemma chars_app (a b : string) : list_ascii_of_string (a +:+ b) = list_ascii_of_string a ++ list_ascii_of_string b.
Proof. induction a as [|x a IH]; simpl; [done|by rewrite IH]. Qed.
Lemma prefix_iff pat s : starts pat s = true <-> exists b, s = pat +:+ b.
Proof.
  revert s. induction pat as [|c pat IH]; intros s; simpl; [destruct s; split; eauto|].
  destruct s as [|d s]; [split; [done|by intros (b&?)]|]. destruct (decide (c = d)) as [->|Hne].
  - rewrite IH. split; intros (b&Hb); exists b; by simplify_eq/=.
  - split; [done|]. intros (b&Hb). simplify_eq/=.
Qed.
Lemma prefix_iff_false pat s : starts pat s = false -> forall b, s <> pat +:+ b.
Proof. intros H b Hb. assert (starts pat s = true) by (apply prefix_iff; eauto). congruence. Qed.

Lemma rfind_none pat s : rfind pat s = None -> ~ occurs pat s.
Proof.
  induction s as [|c s IH]; simpl.
  - case_decide; [done|]. intros _ (a&b&Hab). destruct a; [|done]. destruct pat; [done|done].
  - destruct (rfind pat s) eqn:Hr; [done|]. destruct (starts pat (String c s)) eqn:Hp; [done|]. intros _ (a&b&Hab).
    destruct a as [|x a]; simpl in Hab.
    + by eapply prefix_iff_false.
    + injection Hab as -> ->. apply IH; [done|]. by exists a, b.
Qed.
Lemma rfind_some pat s n : rfind pat s = Some n ->
  (exists a b, s = a +:+ pat +:+ b /\ String.length a = n) /\ forall a b, s = a +:+ pat +:+ b -> String.length a <= n.
Proof.
  revert n. induction s as [|c s IH]; intros n; simpl.
  - case_decide as Hp; [|done]. intros [= <-]. subst pat. split; [by exists "", ""|]. intros a b Hab. by destruct a.
  - destruct (rfind pat s) as [m|] eqn:Hr.
    + intros [= <-]. destruct (IH m eq_refl) as [(a&b&->&Hl) Hmax]. split; [exists (String c a), b; simpl; by rewrite Hl|].
      intros [|x a'] b' Hab; simpl in *; [lia|]. injection Hab as -> Hab. specialize (Hmax _ _ Hab). lia.
    + destruct (starts pat (String c s)) eqn:Hp; [|done]. intros [= <-]. apply prefix_iff in Hp as (b&Hb).
      split; [by exists "", b|]. intros [|x a'] b' Hab; simpl in *; [done|]. injection Hab as -> Hab.
      destruct (rfind_none _ _ Hr). by exists a', b'.
Qed.
Lemma drop_app a b : drop_str (String.length a) (a +:+ b) = Some b.
Proof. by induction a. Qed.
Lemma take_app a b : take_str (String.length a) (a +:+ b) = a.
Proof. induction a as [|c a IH]; simpl; [by destruct b|by rewrite IH]. Qed.
Lemma occurs_char c s : occurs (String c "") s <-> has_char c s.
Proof.
  unfold has_char. split.
  - intros (a&b&->). rewrite !chars_app. simpl. set_solver.
  - induction s as [|d s IH]; simpl; [by intros ?%elem_of_nil|]. intros [->|H]%elem_of_cons; [by exists "", s|].
    destruct (IH H) as (a&b&->). by exists (String d a), b.
Qed.

(** the last slash splits an id into its parts *)
Lemma split_slash id : has_char slash id ->
  exists a b, id = a +:+ "/" +:+ b /\ rfind "/" id = Some (String.length a) /\ ~ has_char slash b.
Proof.
  intros H. destruct (rfind "/" id) as [n|] eqn:Hr.
  - destruct (rfind_some _ _ _ Hr) as [(a&b&->&<-) Hmax]. exists a, b. split; [done|]. split; [done|]. intros Hb.
    apply occurs_char in Hb as (a'&b'&->). specialize (Hmax (a +:+ "/" +:+ a') b'). rewrite !length_app_s in Hmax. simpl in Hmax.
    rewrite <- !app_assoc_s in Hmax. specialize (Hmax eq_refl). lia.
  - apply rfind_none in Hr. destruct Hr. by apply occurs_char.
Qed.
Lemma suffix_of a b : ~ has_char slash b -> rfind "/" (a +:+ "/" +:+ b) = Some (String.length a) ->
  id_suffix (a +:+ "/" +:+ b) = Some b /\ id_prefix (a +:+ "/" +:+ b) = a.
Proof.
  intros Hb Hr. unfold id_suffix, id_prefix. rewrite Hr. split.
  - rewrite (app_assoc_s a "/" b). replace (S (String.length a)) with (String.length (a +:+ "/")) by (rewrite length_app_s; simpl; lia).
    apply drop_app.
  - destruct a as [|c a]; [done|]. exact (take_app (String c a) ("/" +:+ b)).
Qed.

(** ** C53 *)
Theorem C53_parts id : has_char slash id ->
  exists sfx, id_suffix id = Some sfx /\ id = id_prefix id +:+ "/" +:+ sfx /\ ~ has_char slash sfx.
Proof.
  intros H. destruct (split_slash id H) as (a&b&->&Hr&Hb). destruct (suffix_of a b Hb Hr) as [Hs Hp]. exists b. by rewrite Hp.
Qed.
(** An id without slash (old files) is its own suffix and has no prefix; the functions never fail. *)
Theorem C53_plain id : ~ has_char slash id -> id_suffix id = Some id /\ id_prefix id = "".
Proof.
  intros H. unfold id_suffix, id_prefix. destruct (rfind "/" id) eqn:Hr; [|done]. destruct H. apply occurs_char.
  destruct (rfind_some _ _ _ Hr) as [(a&b&->&_) _]. by exists a, b.
Qed.
Example C53_nonvacuous : has_char slash "/a/map/12" /\ id_prefix "/a/map/12" = "/a/map" /\ id_suffix "/a/map/12" = Some "12" /\
  has_char slash "/0" /\ id_prefix "/0" = "" /\ id_number "/0" = Some 0%Z /\ ~ has_char slash "17" /\ id_number "17" = Some 17%Z.
Proof. repeat split; vm_compute; try done; set_solver. Qed.

(** ** C26 *)
(** ids that differ only in '/' and '_' *)
Definition separator (c : ascii) : Prop := c = "/"%char \/ c = "_"%char.
Fixpoint alike (a b : string) : Prop :=
  match a, b with
  | EmptyString, EmptyString => True
  | String x a, String y b => (x = y \/ (separator x /\ separator y)) /\ alike a b
  | _, _ => False
  end.
Lemma unslash_alike a b : unslash a = unslash b <-> alike a b.
Proof.
  unfold slash. revert b. induction a as [|x a IH]; intros [|y b]; simpl; [done..|]. rewrite <- IH. unfold separator, slash. split.
  - intros [= Hx Ha]. split; [|done]. repeat case_decide; subst; auto.
  - intros [Hx Ha]. f_equal; [|done]. destruct Hx as [->|[[->| ->] [->| ->]]]; done.
Qed.
Lemma app_inj_char c a a' b b' : ~ has_char c a -> ~ has_char c a' -> a +:+ String c b = a' +:+ String c b' -> a = a' /\ b = b'.
Proof.
  revert a'. induction a as [|x a IH]; intros [|y a'] Ha Ha'; simpl; intros H.
  - by injection H.
  - injection H as -> _. destruct Ha'. left.
  - injection H as -> _. destruct Ha. left.
  - injection H as -> H. destruct (IH a') as [-> ->]; [..|done|done]; intros Hc; [apply Ha|apply Ha']; by right.
Qed.
Theorem C26_collision cls cls' id id' : ~ has_char "_" cls -> ~ has_char "_" cls' ->
  first_char id = Some slash -> first_char id' = Some slash ->
  (map_file_name cls id = map_file_name cls' id' <-> cls = cls' /\ alike id id').
Proof.
  intros Hc Hc' Hi Hi'. unfold map_file_name. destruct id as [|x id], id' as [|y id']; try done. simpl in Hi, Hi'.
  injection Hi as ->. injection Hi' as ->. rewrite <- unslash_alike. simpl. split.
  - intros H. apply app_inj_char in H as [-> ->]; done.
  - intros [-> H]. by injection H as ->.
Qed.
Lemma alike_same a b : ~ has_char "_" a -> ~ has_char "_" b -> alike a b -> a = b.
Proof.
  revert b. induction a as [|x a IH]; intros [|y b] Ha Hb; simpl; [done..|]. intros [Hx Hab].
  rewrite (IH b); [|intros H; apply Ha; by right|intros H; apply Hb; by right|done]. f_equal. destruct Hx as [?|Hx]; [done|].
  assert (x <> "_"%char) by (intros ->; apply Ha; left). assert (y <> "_"%char) by (intros ->; apply Hb; left).
  destruct Hx as [[->| ->] [->| ->]]; done.
Qed.
(** Without '_' in ids and class names no two maps of an environment share a file. *)
Theorem C26_distinct cls cls' id id' : ~ has_char "_" cls -> ~ has_char "_" cls' -> ~ has_char "_" id -> ~ has_char "_" id' ->
  first_char id = Some slash -> first_char id' = Some slash -> id <> id' -> map_file_name cls id <> map_file_name cls' id'.
Proof. intros ? ? ? ? ? ? Hne H. apply C26_collision in H as [_ H]; [|done..]. by apply alike_same in H. Qed.
(** With '_' they may: the maps "/a/b" and "/a_b" of one class overwrite each other. *)
Theorem C26_refuted : exists id id', id <> id' /\ first_char id = Some slash /\ first_char id' = Some slash /\
  forall cls, map_file_name cls id = map_file_name cls id'.
Proof. exists "/a/b", "/a_b". done. Qed.
Example C26_nonvacuous : ~ has_char "_" "envire::ElevationGrid" /\ ~ has_char "_" "/world/12" /\ ~ has_char "_" "/world/13" /\
  map_file_name "envire::ElevationGrid" "/world/12" = "envire::ElevationGrid_world_12" /\
  map_file_name "envire::ElevationGrid" "/world/13" <> map_file_name "envire::ElevationGrid" "/world/12" /\
  alike "/a/b" "/a_b" /\ ~ alike "/a/b" "/a-b".
Proof.
  rewrite <- !unslash_alike. repeat split; refine (bool_decide_unpack _ _); vm_compute; exact Logic.I.
Qed.

(** ** C27 *)
Section FactoryProps.
  Context {F : Type} `{!EqDecision F}.
  Implicit Types (cs : list (string * F)) (m : list (string * F)).

  (** the class a name stands for: the last registration counts *)
  Definition registered cs (name : string) (f : F) : Prop :=
    exists a b, cs = a ++ (name, f) :: b /\ name ∉ b.*1.
  Lemma register_snoc cs name f : register (cs ++ [(name, f)]) = add_class name f (register cs).
  Proof. unfold register. by rewrite foldl_app. Qed.
  Lemma register_spec cs name f : assoc name (register cs) = Some f <-> registered cs name f.
  Proof.
    revert name f. induction cs as [|[n g] cs IH] using rev_ind; intros name f.
    - split; [done|]. intros (a&b&H&_). by destruct a.
    - rewrite register_snoc. unfold add_class, map_set. rewrite assoc_ins, assoc_del_key by (rewrite assoc_del_key; by rewrite decide_True).
      case_decide as Hn.
      + subst n. split.
        * intros [= ->]. exists cs, []. split; [done|]. by apply not_elem_of_nil.
        * intros (a&b&H&Hb). destruct b as [|x b _] using rev_ind.
          -- apply app_inj_tail in H as [_ H]. by injection H as ->.
          -- rewrite app_comm_cons, app_assoc in H. apply app_inj_tail in H as [_ <-]. destruct Hb.
             rewrite fmap_app. apply elem_of_app. right. left.
      + rewrite IH. split.
        * intros (a&b&->&Hb). exists a, (b ++ [(n, g)]). split; [by rewrite <- app_assoc|]. rewrite fmap_app. simpl.
          rewrite elem_of_app, elem_of_list_singleton. tauto.
        * intros (a&b&H&Hb). destruct b as [|x b _] using rev_ind.
          -- apply app_inj_tail in H as [_ H]. congruence.
          -- rewrite app_comm_cons, app_assoc in H. apply app_inj_tail in H as [-> <-]. exists a, b. split; [done|].
             rewrite fmap_app, elem_of_app in Hb. tauto.
  Qed.
  Lemma unregistered cs name : (forall f, ~ registered cs name f) -> assoc name (register cs) = None.
  Proof. intros H. destruct (assoc name (register cs)) as [f|] eqn:Ha; [|done]. by apply register_spec, H in Ha. Qed.

  (** A registered name creates an object of its class. *)
  Theorem C27_registered cs name f : registered cs name f -> find_class (register cs) name = Some f.
  Proof. intros H. apply register_spec in H. unfold find_class. by rewrite H. Qed.
  (** A name with a namespace that is not registered itself stands for the class without the namespace, and is rejected if
      there is none. ("::" occurs neither in the class name nor across its start.) *)
  Theorem C27_namespace cs ns name f : (forall g, ~ registered cs (ns +:+ "::" +:+ name) g) -> ~ occurs "::" (":" +:+ name) ->
    (find_class (register cs) (ns +:+ "::" +:+ name) = Some f <-> registered cs name f).
  Proof.
    intros Hun Hoc. unfold find_class. rewrite (unregistered _ _ Hun).
    assert (Hr : rfind "::" (ns +:+ "::" +:+ name) = Some (String.length ns)).
    { destruct (rfind "::" (ns +:+ "::" +:+ name)) as [n|] eqn:Hr.
      - destruct (rfind_some _ _ _ Hr) as [(a&b&Hab&<-) Hmax]. f_equal. specialize (Hmax ns name eq_refl).
        destruct (decide (String.length a = String.length ns)) as [|Hne]; [done|]. destruct Hoc.
        assert (Hgt : String.length ns < String.length a) by lia. clear - Hab Hgt. revert a Hab Hgt.
        induction ns as [|c ns IH]; intros a Hab Hgt.
        + destruct a as [|x a]; simpl in *; [lia|]. injection Hab as <- Hab. by exists a, b.
        + destruct a as [|x a]; simpl in *; [lia|]. injection Hab as <- Hab. apply (IH a); [done|lia].
      - apply rfind_none in Hr. destruct Hr. by exists ns, name. }
    rewrite Hr. assert (Hd : drop_str (String.length ns + 2) (ns +:+ "::" +:+ name) = Some name).
    { rewrite app_assoc_s. replace (String.length ns + 2) with (String.length (ns +:+ "::")) by (rewrite length_app_s; simpl; lia).
      apply drop_app. }
    rewrite Hd. apply register_spec.
  Qed.
  (** Without a namespace in the name, an unregistered name is accepted only if it is a registered name with one
      character in front. *)
  Theorem C27_plain cs name f : (forall g, ~ registered cs name g) -> ~ occurs "::" name ->
    (find_class (register cs) name = Some f <-> exists c short, name = String c short /\ registered cs short f).
  Proof.
    intros Hun Hoc. unfold find_class. rewrite (unregistered _ _ Hun). destruct (rfind "::" name) as [n|] eqn:Hr.
    - destruct Hoc. destruct (rfind_some _ _ _ Hr) as [(a&b&->&_) _]. by exists a, b.
    - destruct name as [|c short]; simpl.
      + split; [done|]. by intros (?&?&?&?).
      + rewrite register_spec. split; [by eauto|]. intros (c'&s'&[= <- <-]&H). done.
  Qed.
End FactoryProps.
(** The second half of the claim fails: an unregistered name is not always rejected. *)
Theorem C27_refuted : exists (cs : list (string * nat)) name f, (forall g, ~ registered cs name g) /\ ~ occurs "::" name /\
  find_class (register cs) name = Some f.
Proof.
  exists [("Grid", 1)], "xGrid", 1. split; [|split; [|done]].
  - intros g (a&b&H&_). destruct a as [|? [|]]; simplify_eq/=.
  - intros (a&b&H). repeat (destruct a as [|? a]; simplify_eq/=).
Qed.
Definition demo_classes : list (string * nat) := [("envire::Grid", 1); ("MLSGrid", 2); ("envire::Grid", 3)].
Example C27_nonvacuous : registered demo_classes "envire::Grid" 3 /\ find_class (register demo_classes) "envire::Grid" = Some 3 /\
  (forall g, ~ registered demo_classes "envire::MLSGrid" g) /\ ~ occurs "::" ":MLSGrid" /\
  find_class (register demo_classes) "envire::MLSGrid" = Some 2 /\ find_class (register demo_classes) "envire::TriMesh" = None /\
  find_class (register demo_classes) "TriMesh" = None /\ find_class (register demo_classes) "" = None.
Proof.
  assert (Hu : forall g, ~ registered demo_classes "envire::MLSGrid" g).
  { intros g H%register_spec. vm_compute in H. done. }
  assert (Ho : ~ occurs "::" ":MLSGrid") by (apply rfind_none; vm_compute; done).
  split; [apply register_spec; vm_compute; done|]. repeat split; try done; vm_compute; done.
Qed.
