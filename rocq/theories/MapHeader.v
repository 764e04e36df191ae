(** Transforms of frames and descriptions of grids in files.  C135, C136.
    src/core/Serialization.cpp:176-287, FrameNode.cpp:33-55, src/maps/GridBase.cpp:27-56 and 572-594, MLSGrid.cpp:144-199.

    Simplifications: as in Persist.v, the YAML library hands back the tree that was written; [boost::lexical_cast] is a pair of functions for each type of
    numbers, of which the theorems assume that a written number is read back. An item that is loaded is a new one (the factories make one). *)
From Coq Require Import ZArith String.
From stdpp Require Import prelude strings gmap.
From Verif Require Import Base EnvModel Ids Persist MlsModel MlsProps.
Local Open Scope string_scope.
Local Open Scope nat_scope.

(** ** Model *)
(** a value in the file; mappings do not occur as values *)
Inductive yaml := YScalar (s : string) | YSeq (l : list yaml).
Notation ymap := (list (string * yaml)) (only parsing).
(** findNodeInMap, Serialization.cpp:117-144: the last entry with the key counts *)
Definition find (n : ymap) (key : string) : option yaml := assoc key (reverse n).
(** Serialization.cpp:219-223 *)
Definition has_key (n : ymap) (key : string) : bool := match find n key with Some _ => true | None => false end.
(** Serialization.cpp:225-237; [None]: returns false *)
Definition read_text (n : ymap) (key : string) : option string := match find n key with Some (YScalar t) => Some t | _ => None end.
(** Serialization.hpp:124-133: the value, and whether there is one; [None]: bad_lexical_cast *)
Definition read {A} (parse : string -> option A) (n : ymap) (key : string) (old : A) : option (A * bool) :=
  match read_text n key with Some t => v ← parse t; Some (v, true) | None => Some (old, false) end.
(** lexical_cast of bool *)
Definition bool_text (b : bool) : string := if b then "1" else "0".
Definition bool_of (t : string) : option bool := if decide (t = "1") then Some true else if decide (t = "0") then Some false else None.

Section Files.
  (** double, size_t and long, and their texts *)
  Context {num : Type} (text : num -> string) (number : string -> option num).
  Context (size_text : nat -> string) (size_of : string -> option nat).
  Context (long_text : Z -> string) (long_of : string -> option Z).

  (** a matrix of [k] rows and columns: the entries *)
  Definition matrix : Type := nat -> nat -> num.
  Definition set_entry (i j : nat) (v : num) (m : matrix) : matrix := fun i' j' => if decide (i' = i /\ j' = j) then v else m i' j'.
  (** Serialization.cpp:176-204, for a transform ([k] = 4) and a covariance ([k] = 6) *)
  Definition write_matrix (k : nat) (m : matrix) : yaml := YSeq (i ← seq 0 k; (fun j => YScalar (text (m i j))) <$> seq 0 k).
  (** the loop of Serialization.cpp:247-256 and 272-281; [i]: the items so far. The access outside of the matrix is an assertion of Eigen, without assertions
      undefined behaviour. *)
  Fixpoint read_items (k i : nat) (items : list yaml) (m : matrix) : out unit (nat * matrix) :=
    match items with
    | [] => Ok (i, m)
    | YSeq _ :: _ => Throw tt
    | YScalar t :: r =>
      match number t with
      | None => Throw tt
      | Some v => if decide (Nat.div i k < k /\ Nat.modulo i k < k) then read_items k (S i) r (set_entry (Nat.div i k) (Nat.modulo i k) v m) else Bad UB
      end
    end.
  (** Serialization.cpp:239-262 and 264-287: without the key, the node is a null pointer that is followed *)
  Definition read_matrix (k : nat) (n : ymap) (key : string) (m : matrix) : out unit matrix :=
    match find n key with
    | None => Bad UB
    | Some (YScalar _) => Throw tt
    | Some (YSeq items) => r <~ read_items k 0 items m ;; if decide (r.1 = k * k) then Ok r.2 else Throw tt
    end.

  (** Transform.hpp:60-110: the covariance is there if the transform is uncertain *)
  Record frame := Frame { f_trans : matrix; f_cov : option matrix }.
  (** Serialization.cpp:379-388 and Environment.cpp:108-112 *)
  Definition item_node (class id label : string) : ymap := [("class", YScalar class); ("id", YScalar id); ("label", YScalar label)].
  (** FrameNode.cpp:33-40 *)
  Definition save_frame (id label : string) (f : frame) : ymap :=
    item_node "envire::FrameNode" id label ++ ("transform", write_matrix 4 (f_trans f)) :: match f_cov f with Some c => [("covariance", write_matrix 6 c)] | None => [] end.
  (** FrameNode.cpp:42-55; [junk]: the content of the new matrices *)
  Definition load_frame (junk : matrix) (n : ymap) (f : frame) : out unit frame :=
    t <~ read_matrix 4 n "transform" junk ;;
    if has_key n "covariance" then c <~ read_matrix 6 n "covariance" junk ;; Ok (Frame t (Some c)) else Ok (Frame t (f_cov f)).

  (** GridBase.hpp: the description of a grid *)
  Record header := Header { h_nx : nat; h_ny : nat; h_sx : num; h_sy : num; h_ox : num; h_oy : num }.
  (** GridBase.cpp:27-41, with Layer.cpp:45-50 *)
  Definition save_header (class id label : string) (immutable : bool) (h : header) : ymap :=
    item_node class id label ++
    [("immutable", YScalar (bool_text immutable)); ("cellSizeX", YScalar (size_text (h_nx h))); ("cellSizeY", YScalar (size_text (h_ny h)));
     ("scalex", YScalar (text (h_sx h))); ("scaley", YScalar (text (h_sy h))); ("offsetx", YScalar (text (h_ox h))); ("offsety", YScalar (text (h_oy h)));
     ("width", YScalar (size_text (h_nx h))); ("height", YScalar (size_text (h_ny h)))].
  (** GridBase.cpp:47-50: the key of older versions if the present one is missing *)
  Definition read_size (n : ymap) (key old_key : string) (old : nat) : option nat :=
    r ← read size_of n key old; if (r.2 : bool) then Some r.1 else fst <$> read size_of n old_key r.1.
  (** GridBase.cpp:43-56 *)
  Definition load_header (n : ymap) (h : header) : option header :=
    x ← read_size n "cellSizeX" "width" (h_nx h); y ← read_size n "cellSizeY" "height" (h_ny h);
    sx ← read number n "scalex" (h_sx h); sy ← read number n "scaley" (h_sy h); ox ← read number n "offsetx" (h_ox h); oy ← read number n "offsety" (h_oy h);
    Some (Header x y sx.1 sy.1 ox.1 oy.1).
  (** Environment.cpp:114-123 and Layer.cpp:52-57: id, label and the flag of a new item; [None]: bad_lexical_cast, or an empty id *)
  Record item := Item { i_id : string; i_label : string; i_immutable : bool }.
  Definition load_item (n : ymap) (old : item) : option item :=
    id ← old_id (default (i_id old) (read_text n "id")); im ← read bool_of n "immutable" (i_immutable old);
    Some (Item id (default (i_label old) (read_text n "label")) im.1).

  Section Mls.
    Context {P rec : Type} (sz : nat) (image : rec -> list Byte.byte) (of_image : list Byte.byte -> rec) (store : P -> nat -> nat -> rec) (load : rec -> P * nat * nat).
    (** a surface grid: its description, the settings that are saved, and the cells *)
    Record mls_grid := MlsGrid { g_item : item; g_head : header; g_color : bool; g_model : Z; g_cells : mls P }.
    Definition stream : Type := list string * list Byte.byte.
    Definition mls_class : string := "envire::MLSGrid".
    Definition mls_old_class : string := "envire::MultiLevelSurfaceGrid".
    (** MLSGrid.cpp:144-152: the scalars, and the name and content of the stream *)
    Definition save_mls (g : mls_grid) : ymap * (string * stream) :=
      ((save_header mls_class (i_id (g_item g)) (i_label (g_item g)) (i_immutable (g_item g)) (g_head g) ++
         [("hasCellColor", YScalar (bool_text (g_color g))); ("updateModel", YScalar (long_text (g_model g)))])%list,
       (map_file_name mls_class (i_id (g_item g)) +:+ ".mls", write_map rec sz image store (g_cells g))).
    (** MLSGrid.cpp:154-199; [streams]: the content of a stream, if there is one with the name. Resizing clears the cells (ListGrid.hpp:170). *)
    Definition load_mls (n : ymap) (streams : string -> option stream) (g : mls_grid) : out unit mls_grid :=
      match load_item n (g_item g), load_header n (g_head g), read long_of n "updateModel" (g_model g), read bool_of n "hasCellColor" false, read long_of n "map_count" 1%Z with
      | Some it, Some h, Some (model, _), Some (color, _), Some (count, _) =>
        let g' := MlsGrid it h color model (new_mls (h_nx h) (h_ny h)) in
        if decide (count = 0%Z) then Ok g' else
        match (match streams (map_file_name mls_class (i_id it) +:+ ".mls") with Some s => Some s | None => streams (map_file_name mls_old_class (i_id it) +:+ ".mls") end) with
        | None => Throw tt
        | Some s => match read_map rec sz of_image load s (g_cells g') with
                    | Ok c => Ok (MlsGrid it h color model c)
                    | Throw _ => Throw tt
                    | Bad e => Bad e
                    | NoFuel => NoFuel
                    end
        end
      | _, _, _, _, _ => Throw tt
      end.
    (** MLSGrid.cpp:14-36, MLSConfiguration.hpp:16: a new surface grid; [model] is the update model a new grid has, [zero] the numbers of a new GridBase *)
    Definition fresh_mls (model : Z) (zero : num) : mls_grid := MlsGrid (Item "" "" false) (Header 0 0 zero zero zero zero) false model (new_mls 0 0).
    (** GridBase.cpp:577-590: what [create] writes *)
    Definition create_node (class : string) (h : header) : ymap :=
      item_node class (long_text (-1)%Z) "" ++
      [("immutable", YScalar (bool_text false)); ("cellSizeX", YScalar (size_text (h_nx h))); ("cellSizeY", YScalar (size_text (h_ny h)));
       ("scalex", YScalar (text (h_sx h))); ("scaley", YScalar (text (h_sy h))); ("offsetx", YScalar (text (h_ox h))); ("offsety", YScalar (text (h_oy h)));
       ("map_count", YScalar (long_text 0%Z))].
    (** GridBase.cpp:572-594 for a surface grid; there are no streams (Serialization.cpp:289-292) *)
    Definition create_mls (model : Z) (zero : num) (h : header) : out unit mls_grid :=
      g <~ load_mls (create_node mls_class h) (fun _ => None) (fresh_mls model zero) ;;
      Ok (MlsGrid (Item "" (i_label (g_item g)) (i_immutable (g_item g))) (g_head g) (g_color g) (g_model g) (g_cells g)).
  End Mls.

  (** ** Matrices *)
  Definition exact {A} (t : A -> string) (o : string -> option A) : Prop := forall x, o (t x) = Some x.
  Lemma read_items_spec k vs : forall i ts m, 0 < k -> Forall2 (fun t v => number t = Some v) ts vs -> i + length vs <= k * k ->
    exists m', read_items k i (YScalar <$> ts) m = Ok (i + length vs, m') /\
      forall a b, b < k -> m' a b = if decide (i <= a * k + b < i + length vs) then default (m a b) (vs !! (a * k + b - i)) else m a b.
  Proof.
    induction vs as [|v vs IH]; intros i ts m Hk HF Hi.
    - apply Forall2_nil_inv_r in HF as ->. exists m. cbn. split; [by rewrite Nat.add_0_r|]. intros a b _. by destruct (decide _).
    - apply Forall2_cons_inv_r in HF as (t&ts'&Ht&HF&->). cbn [fmap list_fmap read_items]. rewrite Ht. cbn [length] in Hi |- *.
      pose proof (Nat.div_mod i k ltac:(lia)) as Hdm. pose proof (Nat.mod_upper_bound i k ltac:(lia)) as Hmb.
      assert (Hd : Nat.div i k < k) by (apply Nat.div_lt_upper_bound; lia). rewrite decide_True by done.
      destruct (IH (S i) ts' (set_entry (Nat.div i k) (Nat.modulo i k) v m) Hk HF ltac:(lia)) as (m'&Hr&Hm). exists m'. rewrite Hr. split; [f_equal; f_equal; lia|].
      intros a b Hb. rewrite (Hm a b Hb). unfold set_entry. assert (Heq : (a = Nat.div i k /\ b = Nat.modulo i k) <-> a * k + b = i).
      { split; [intros [-> ->]; lia|]. intros <-. split; [|symmetry; rewrite Nat.add_comm; rewrite Nat.mod_add by lia; by apply Nat.mod_small].
        rewrite Nat.add_comm, Nat.div_add by lia. rewrite Nat.div_small by done. done. }
      destruct (decide (a = Nat.div i k /\ b = Nat.modulo i k)) as [He|He].
      + assert (Hi' : a * k + b = i) by (by apply Heq). rewrite Hi'. rewrite decide_False by lia. rewrite decide_True by lia. by rewrite Nat.sub_diag.
      + assert (Hne : a * k + b <> i) by (intros Hx; by apply He, Heq). destruct (decide (S i <= a * k + b < S i + length vs)) as [H|H].
        * rewrite decide_True by lia. replace (a * k + b - i) with (S (a * k + b - S i)) by lia. done.
        * by rewrite decide_False by lia.
  Qed.
  Lemma read_items_long k ts vs : forall i m, 0 < k -> Forall2 (fun t v => number t = Some v) ts vs -> i <= k * k < i + length vs -> read_items k i (YScalar <$> ts) m = Bad UB.
  Proof.
    revert ts. induction vs as [|v vs IH]; intros ts i m Hk HF Hi; [cbn in Hi; lia|]. apply Forall2_cons_inv_r in HF as (t&ts'&Ht&HF&->). cbn [fmap list_fmap read_items]. rewrite Ht.
    destruct (decide (i = k * k)) as [->|Hne].
    - rewrite decide_False; [done|]. rewrite Nat.div_mul by lia. lia.
    - destruct (decide _); [|done]. apply IH; [done|done|]. cbn [length] in Hi. lia.
  Qed.
  Lemma rows_lookup (k : nat) (f : nat -> nat -> num) i j : i < k -> j < k -> (a ← seq 0 k; f a <$> seq 0 k) !! (i * k + j) = Some (f i j).
  Proof.
    intros Hi Hj. assert (H : forall n s, i < n -> (a ← seq s n; f a <$> seq 0 k) !! (i * k + j) = Some (f (s + i) j)); [|by apply (H k 0)].
    clear Hi. induction i as [|i IH]; intros n s Hn; (destruct n as [|n]; [lia|]); cbn [seq mbind list_bind].
    - rewrite lookup_app_l by (rewrite fmap_length, seq_length; lia). rewrite list_lookup_fmap, lookup_seq_lt by lia. cbn. by rewrite Nat.add_0_r.
    - rewrite lookup_app_r by (rewrite fmap_length, seq_length; lia). rewrite fmap_length, seq_length. replace (S i * k + j - k) with (i * k + j) by lia.
      rewrite (IH n (S s)) by lia. do 2 f_equal. lia.
  Qed.
  Lemma rows_length {A} (k : nat) (f : nat -> nat -> A) : forall n s, length (a ← seq s n; f a <$> seq 0 k) = n * k.
  Proof. induction n as [|n IH]; intros s; [done|]. cbn [seq mbind list_bind]. rewrite app_length, fmap_length, seq_length. unfold mbind in IH. rewrite IH. lia. Qed.

  (** ** C135 *)
  (** Reading a sequence of texts of numbers as a matrix of [k] rows and columns: with as many as that takes, they are the entries row by row; with fewer, an
      exception; with more, the entry after the last one is written outside of the matrix (finding). Without the key, a null pointer is followed (finding). *)
  Theorem C135_read k n key ts vs m : 0 < k -> find n key = Some (YSeq (YScalar <$> ts)) -> Forall2 (fun t v => number t = Some v) ts vs ->
    (length vs = k * k -> exists m', read_matrix k n key m = Ok m' /\ forall i j, i < k -> j < k -> vs !! (i * k + j) = Some (m' i j)) /\
    (length vs < k * k -> read_matrix k n key m = Throw tt) /\
    (k * k < length vs -> read_matrix k n key m = Bad UB).
  Proof using Type.
    intros Hk Hf HF. unfold read_matrix. rewrite Hf. split; [|split]; intros Hl.
    - destruct (read_items_spec k vs 0 ts m Hk HF ltac:(lia)) as (m'&->&Hm). cbn [obind fst snd]. rewrite decide_True by done. exists m'. split; [done|].
      intros i j Hi Hj. rewrite (Hm i j Hj). assert (i * k + j < length vs) by nia. rewrite decide_True by lia. rewrite Nat.sub_0_r.
      destruct (lookup_lt_is_Some_2 vs (i * k + j) ltac:(done)) as (v&->). done.
    - destruct (read_items_spec k vs 0 ts m Hk HF ltac:(lia)) as (m'&->&Hm). cbn [obind fst snd]. by rewrite decide_False by lia.
    - by rewrite (read_items_long k ts vs 0 m Hk HF ltac:(lia)).
  Qed.
  Theorem C135_matrix k n key m m0 : exact text number -> 0 < k -> find n key = Some (write_matrix k m) ->
    exists m', read_matrix k n key m0 = Ok m' /\ forall i j, i < k -> j < k -> m' i j = m i j.
  Proof using Type.
    intros Ht Hk Hf. set (vs := a ← seq 0 k; m a <$> seq 0 k). assert (Hw : write_matrix k m = YSeq (YScalar <$> (text <$> vs))).
    { unfold write_matrix, vs. f_equal. assert (HG : forall l : list nat, (i ← l; (fun j => YScalar (text (m i j))) <$> seq 0 k) = YScalar <$> (text <$> (a ← l; m a <$> seq 0 k))); [|apply HG].
      induction l as [|a l IH]; [done|]. rewrite !bind_cons, !fmap_app. f_equal; [|exact IH]. by rewrite <-!list_fmap_compose. }
    rewrite Hw in Hf. destruct (C135_read k n key (text <$> vs) vs m0 Hk Hf) as [HR _].
    { clear - Ht. induction vs; [constructor|]. constructor; [apply Ht|done]. }
    destruct HR as (m'&Hr&Hm); [apply rows_length|]. exists m'. split; [done|]. intros i j Hi Hj. specialize (Hm i j Hi Hj). unfold vs in Hm. rewrite rows_lookup in Hm by done. by injection Hm.
  Qed.
  (** Saving a frame and loading it gives its transform, and its covariance if it has one; otherwise the covariance is that of the frame that loads. *)
  Theorem C135_frame junk id label f f0 : exact text number -> exists f', load_frame junk (save_frame id label f) f0 = Ok f' /\
    (forall i j, i < 4 -> j < 4 -> f_trans f' i j = f_trans f i j) /\
    match f_cov f with Some c => exists c', f_cov f' = Some c' /\ forall i j, i < 6 -> j < 6 -> c' i j = c i j | None => f_cov f' = f_cov f0 end.
  Proof using Type.
    intros Ht. unfold load_frame. destruct f as [t [c|]]; unfold save_frame; cbn [f_trans f_cov item_node app].
    - match goal with |- context [read_matrix 4 ?l] => set (n := l) end.
      destruct (C135_matrix 4 n "transform" t junk Ht ltac:(lia) ltac:(reflexivity)) as (t'&->&HT). destruct (C135_matrix 6 n "covariance" c junk Ht ltac:(lia) ltac:(reflexivity)) as (c'&->&HC).
      assert (HK : has_key n "covariance" = true) by reflexivity. rewrite HK. cbn [obind]. eexists. split; [reflexivity|]. cbn [f_trans f_cov]. split; [done|]. by exists c'.
    - match goal with |- context [read_matrix 4 ?l] => set (n := l) end.
      destruct (C135_matrix 4 n "transform" t junk Ht ltac:(lia) ltac:(reflexivity)) as (t'&->&HT).
      assert (HK : has_key n "covariance" = false) by reflexivity. rewrite HK. cbn [obind]. eexists. split; [reflexivity|]. done.
  Qed.
  (** A frame without its transform in the file (finding). *)
  Theorem C135_missing_refuted junk id label f0 : load_frame junk (item_node "envire::FrameNode" id label) f0 = Bad UB.
  Proof using Type. reflexivity. Qed.

  (** ** C136 *)
  (** The description of a grid is read back, also by older versions, which look for width and height; and files of those versions are read. *)
  Theorem C136_header class id label im h h0 more : exact text number -> exact size_text size_of ->
    (forall key v, (key, v) ∈ more -> key ∉ ["id"; "label"; "immutable"; "cellSizeX"; "cellSizeY"; "scalex"; "scaley"; "offsetx"; "offsety"; "width"; "height"]) ->
    let n := (save_header class id label im h ++ more)%list in
    load_header n h0 = Some h /\ read_text n "width" = Some (size_text (h_nx h)) /\ read_text n "height" = Some (size_text (h_ny h)) /\
    forall ch, first_char id = Some ch -> load_item n (Item "" "" false) = Some (Item (if decide (ch = slash) then id else "/" +:+ id) label im).
  Proof using Type.
    intros Ht Hs Hmore n.
    assert (Hfind : forall key, key ∈ ["id"; "label"; "immutable"; "cellSizeX"; "cellSizeY"; "scalex"; "scaley"; "offsetx"; "offsety"; "width"; "height"] -> find n key = find (save_header class id label im h) key).
    { intros key Hkey. unfold find, n. rewrite reverse_app. assert (HN : forall v, (key, v) ∉ reverse more) by (intros v Hv; rewrite elem_of_reverse in Hv; exact (Hmore key v Hv Hkey)).
      induction (reverse more) as [|[k' v'] l IH]; [done|]. cbn [app assoc]. destruct (decide (key = k')) as [->|Hne]; [exfalso; apply (HN v'); left|].
      apply IH. intros v Hv. apply (HN v). by right. }
    unfold load_header, load_item, read_size, read, read_text. rewrite !Hfind by (repeat constructor).
    assert (E1 : find (save_header class id label im h) "cellSizeX" = Some (YScalar (size_text (h_nx h)))) by reflexivity. assert (E2 : find (save_header class id label im h) "cellSizeY" = Some (YScalar (size_text (h_ny h)))) by reflexivity.
    assert (E3 : find (save_header class id label im h) "scalex" = Some (YScalar (text (h_sx h)))) by reflexivity. assert (E4 : find (save_header class id label im h) "scaley" = Some (YScalar (text (h_sy h)))) by reflexivity.
    assert (E5 : find (save_header class id label im h) "offsetx" = Some (YScalar (text (h_ox h)))) by reflexivity. assert (E6 : find (save_header class id label im h) "offsety" = Some (YScalar (text (h_oy h)))) by reflexivity.
    assert (E7 : find (save_header class id label im h) "width" = Some (YScalar (size_text (h_nx h)))) by reflexivity. assert (E8 : find (save_header class id label im h) "height" = Some (YScalar (size_text (h_ny h)))) by reflexivity.
    assert (E9 : find (save_header class id label im h) "id" = Some (YScalar id)) by reflexivity. assert (E10 : find (save_header class id label im h) "label" = Some (YScalar label)) by reflexivity.
    assert (E11 : find (save_header class id label im h) "immutable" = Some (YScalar (bool_text im))) by reflexivity.
    rewrite E1, E2, E3, E4, E5, E6, E7, E8, E9, E10, E11, !Ht, !Hs. cbn [mbind option_bind fst snd default]. split; [by destruct h|]. split; [done|]. split; [done|].
    intros ch Hch. cbn [from_option]. unfold Datatypes.id, old_id. rewrite Hch. cbn [mbind option_bind]. destruct im; reflexivity.
  Qed.
  (** Files of older versions: width and height instead of the numbers of cells, which are used if they are there. *)
  Theorem C136_old n w h h0 sx sy ox oy : exact text number -> exact size_text size_of -> find n "cellSizeX" = None -> find n "cellSizeY" = None ->
    find n "width" = Some (YScalar (size_text w)) -> find n "height" = Some (YScalar (size_text h)) ->
    find n "scalex" = Some (YScalar (text sx)) -> find n "scaley" = Some (YScalar (text sy)) -> find n "offsetx" = Some (YScalar (text ox)) -> find n "offsety" = Some (YScalar (text oy)) ->
    load_header n h0 = Some (Header w h sx sy ox oy).
  Proof using Type. intros Ht Hs E1 E2 E3 E4 E5 E6 E7 E8. unfold load_header, read_size, read, read_text. rewrite E1, E2, E3, E4, E5, E6, E7, E8, !Ht, !Hs. reflexivity. Qed.

  Section MlsFiles.
    Context {P rec : Type} (sz : nat) (image : rec -> list Byte.byte) (of_image : list Byte.byte -> rec) (store : P -> nat -> nat -> rec) (load : rec -> P * nat * nat).
    (** Saving a surface grid and loading it as a new one, when the stream is found under the name it was written to, or, if there is none of that name, under the
        name of the old class: id, label, flag, description, colour, update model and the patches of every cell are the same. *)
    Theorem C136_mls merge ops asg max (g : mls_grid (P := P)) (streams : string -> option stream) model zero :
      exact text number -> exact size_text size_of -> exact long_text long_of ->
      0 < sz -> (Z.of_nat sz <= long_max)%Z -> (forall r, length (image r) = sz) -> (forall r, of_image (image r) = r) ->
      (forall p x y, x < max -> y < max -> load (store p x y) = (p, x, y)) ->
      mrun merge ops asg (g_cells g) -> m_w (g_cells g) <= max -> m_h (g_cells g) <= max -> m_w (g_cells g) = h_nx (g_head g) -> m_h (g_cells g) = h_ny (g_head g) ->
      first_char (i_id (g_item g)) = Some slash ->
      let n := (save_mls sz image store g).1 in let s := (save_mls sz image store g).2 in
      streams s.1 = Some s.2 \/ streams s.1 = None /\ streams (map_file_name "envire::MultiLevelSurfaceGrid" (i_id (g_item g)) +:+ ".mls") = Some s.2 ->
      exists g', load_mls sz of_image load n streams (fresh_mls model zero) = Ok g' /\
        g_item g' = g_item g /\ g_head g' = g_head g /\ g_color g' = g_color g /\ g_model g' = g_model g /\
        m_w (g_cells g') = m_w (g_cells g) /\ m_h (g_cells g') = m_h (g_cells g) /\ forall x y, m_cell (g_cells g') x y = m_cell (g_cells g) x y.
    Proof using Type.
      intros Ht Hs Hl H1 H2 H3 H4 H5 Hrun Hw Hh Ew Eh Hid n s Hst. destruct g as [[id label im] h color model' cells]. cbn [g_item g_head g_color g_model g_cells i_id i_label i_immutable] in *.
      set (more := [("hasCellColor", YScalar (bool_text color)); ("updateModel", YScalar (long_text model'))]).
      destruct (C136_header mls_class id label im h (Header 0 0 zero zero zero zero) more Ht Hs) as (EH&_&_&EI).
      { intros key v Hin Hk. subst more. repeat (apply elem_of_cons in Hin as [Hin|Hin]; [injection Hin as -> ->; set_unfold; naive_solver|]). by apply elem_of_nil in Hin. }
      specialize (EI slash Hid). rewrite decide_True in EI by done.
      assert (En : n = (save_header mls_class id label im h ++ more)%list) by reflexivity. rewrite <-En in EH, EI.
      unfold load_mls, fresh_mls. cbn [g_item g_head g_color g_model g_cells]. rewrite EH, EI.
      assert (E1 : read long_of n "updateModel" model = Some (model', true)).
      { unfold read, read_text. replace (find n "updateModel") with (Some (YScalar (long_text model'))) by reflexivity. by rewrite Hl. }
      assert (E2 : read bool_of n "hasCellColor" false = Some (color, true)) by (destruct color; reflexivity).
      assert (E3 : read long_of n "map_count" 1%Z = Some (1%Z, false)) by reflexivity.
      rewrite E1, E2, E3. rewrite decide_False by done. cbn [i_id].
      assert (ES : match streams (map_file_name mls_class id +:+ ".mls") with Some s => Some s | None => streams (map_file_name mls_old_class id +:+ ".mls") end = Some s.2).
      { destruct Hst as [Hst|[Hst Hst']]; [change s.1 with (map_file_name mls_class id +:+ ".mls") in Hst; by rewrite Hst|]. change s.1 with (map_file_name mls_class id +:+ ".mls") in Hst. rewrite Hst. exact Hst'. }
      rewrite ES. change s.2 with (write_map rec sz image store cells). rewrite <-Ew, <-Eh.
      destruct (C48_roundtrip sz image of_image store load H1 H2 H3 H4 max H5 merge ops asg cells Hrun Hw Hh) as (c'&->&Q1&Q2&Q3).
      eexists. split; [reflexivity|]. done.
    Qed.
    (** Without a stream of either name, loading ends with an exception, whatever the description says. *)
    Theorem C136_no_stream (n : list (string * yaml)) (g0 : mls_grid (P := P)) : find n "map_count" = None ->
      load_mls sz of_image load n (fun _ => None) g0 = Throw tt.
    Proof using Type.
      intros Hc. unfold load_mls. destruct (load_item n _); [|done]. destruct (load_header n _); [|done]. destruct (read long_of n "updateModel" _) as [[? ?]|]; [|done].
      destruct (read bool_of n "hasCellColor" _) as [[? ?]|]; [|done]. unfold read at 1, read_text. rewrite Hc. done.
    Qed.
    (** [create]: a surface grid of the given description without any patch, without id and label, with the default update model and no colours. *)
    Theorem C136_create model zero h ch : exact text number -> exact size_text size_of -> exact long_text long_of -> first_char (long_text (-1)%Z) = Some ch ->
      create_mls (P := P) sz of_image load model zero h = Ok (MlsGrid (Item "" "" false) h false model (new_mls (h_nx h) (h_ny h))).
    Proof using Type.
      intros Ht Hs Hl Hch. unfold create_mls, load_mls, fresh_mls, load_item, load_header, read_size, read, read_text, create_node. cbn [g_item g_head g_color g_model g_cells i_id i_label i_immutable app item_node].
      match goal with |- context [find ?l "id"] => set (n := l) end.
      assert (E1 : find n "id" = Some (YScalar (long_text (-1)))) by reflexivity. assert (E2 : find n "immutable" = Some (YScalar "0")) by reflexivity. assert (E3 : find n "label" = Some (YScalar "")) by reflexivity.
      assert (E4 : find n "cellSizeX" = Some (YScalar (size_text (h_nx h)))) by reflexivity. assert (E5 : find n "cellSizeY" = Some (YScalar (size_text (h_ny h)))) by reflexivity.
      assert (E6 : find n "scalex" = Some (YScalar (text (h_sx h)))) by reflexivity. assert (E7 : find n "scaley" = Some (YScalar (text (h_sy h)))) by reflexivity.
      assert (E8 : find n "offsetx" = Some (YScalar (text (h_ox h)))) by reflexivity. assert (E9 : find n "offsety" = Some (YScalar (text (h_oy h)))) by reflexivity.
      assert (E10 : find n "updateModel" = None) by reflexivity. assert (E11 : find n "hasCellColor" = None) by reflexivity. assert (E12 : find n "map_count" = Some (YScalar (long_text 0))) by reflexivity.
      rewrite E1, E2, E3, E4, E5, E6, E7, E8, E9, E10, E11, E12, !Ht, !Hs, !Hl. cbn [from_option]. unfold Datatypes.id, old_id. rewrite Hch. cbn [mbind option_bind fst snd]. destruct (decide (ch = slash)); cbn; by destruct h.
    Qed.
  End MlsFiles.
  (** Asked for a frame, [create] follows a null pointer, because there is no transform to be read (finding). *)
  Theorem C136_create_frame_refuted junk h f0 : load_frame junk (create_node "envire::FrameNode" h) f0 = Bad UB.
  Proof using Type. reflexivity. Qed.
End Files.

(** ** Examples *)
From Coq Require Import Ascii.
(** numbers as runs of letters; a sign in front of negative ones *)
Fixpoint n_text (n : nat) : string := match n with O => "" | S n => "I" +:+ n_text n end.
Definition n_of (s : string) : option nat := Some (String.length s).
Lemma n_exact : exact n_text n_of.
Proof. intros n. unfold n_of. f_equal. induction n as [|n IH]; [done|]. cbn [n_text]. change (S (String.length (n_text n)) = S n). by rewrite IH. Qed.
Definition z_text (z : Z) : string := if decide (0 <= z)%Z then "+" +:+ n_text (Z.to_nat z) else "-" +:+ n_text (Z.to_nat (- z)).
Definition z_of (s : string) : option Z := match s with String "+"%char r => Some (Z.of_nat (String.length r)) | String "-"%char r => Some (- Z.of_nat (String.length r))%Z | _ => None end.
Lemma z_exact : exact z_text z_of.
Proof.
  intros z. assert (Hlen : forall n, String.length (n_text n) = n) by (intros n; pose proof (n_exact n) as H; unfold n_of in H; by injection H).
  unfold z_text. destruct (decide _).
  - change (Some (Z.of_nat (String.length (n_text (Z.to_nat z)))) = Some z). rewrite Hlen. f_equal. lia.
  - change (Some (- Z.of_nat (String.length (n_text (Z.to_nat (- z)))))%Z = Some z). rewrite Hlen. f_equal. lia.
Qed.
(** a frame with a covariance, and one whose file has 17 numbers for the transform *)
Example C135_nonvacuous : exact n_text n_of /\
  (exists f, load_frame n_of (fun _ _ => 0) (save_frame n_text "/2" "" (Frame (fun i j => i * 4 + j) (Some (fun i j => i + j)))) (Frame (fun _ _ => 0) None) = Ok f /\ f_trans f 2 1 = 9 /\ exists c, f_cov f = Some c /\ c 5 4 = 9) /\
  load_frame n_of (fun _ _ => 0) [("transform", YSeq (YScalar <$> (n_text <$> seq 0 17)))] (Frame (fun _ _ => 0) None) = Bad UB /\
  load_frame n_of (fun _ _ => 0) [("transform", YSeq (YScalar <$> (n_text <$> seq 0 15)))] (Frame (fun _ _ => 0) None) = Throw tt.
Proof.
  split; [exact n_exact|]. split; [|split; reflexivity]. eexists. split; [vm_compute; reflexivity|]. split; [reflexivity|]. eexists. split; reflexivity.
Qed.
(** a surface grid with two patches in a cell, patches and positions as bytes *)
Example C136_nonvacuous : exact z_text z_of /\ first_char (z_text (-1)) = Some "-"%char /\
  exists c, mrun (fun p o => (false, p, o)) (fun _ => True) True c /\ m_w c = 2 /\ m_h c = 1 /\ m_cell c 1 0 = [Byte.x07; Byte.x09] /\
    let g := MlsGrid (Item "/5" "ground" false) (Header 2 1 3 4 0 0) true 1%Z c in let f := save_mls n_text n_text z_text 3 byte_image byte_store g in
    exists g', load_mls n_of n_of z_of 3 byte_of_image byte_load f.1 (fun name => if decide (name = "envire::MLSGrid_5.mls") then Some f.2.2 else None) (fresh_mls 0%Z 0) = Ok g' /\
      g_head g' = Header 2 1 3 4 0 0 /\ m_cell (g_cells g') 1 0 = [Byte.x07; Byte.x09].
Proof.
  split; [exact z_exact|]. split; [reflexivity|].
  pose proof (m_new (fun p o : Byte.byte => (false, p, o)) (fun _ => True) True 2 1) as H.
  eapply (m_step _ _ _ (MInsTail 1 0 Byte.x09)) in H; [|done|cbn; lia|reflexivity].
  eapply (m_step _ _ _ (MInsHead 1 0 Byte.x07)) in H; [|done|cbn; lia|reflexivity].
  eexists. split; [exact H|]. split; [reflexivity|]. split; [reflexivity|]. split; [reflexivity|]. cbv zeta. eexists. split; [vm_compute; reflexivity|]. split; reflexivity.
Qed.
