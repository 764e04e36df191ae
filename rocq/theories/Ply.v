(** Model of PLY files of point clouds and meshes (src/tools/PlyFile.cpp, and its use in src/maps/Pointcloud.cpp and src/maps/TriMesh.cpp).  C117.

    Numbers are IEEE numbers as formalised by Flocq; all NaN are one. The header is modelled by its elements and properties, not by its text, and the body by its bytes.
    The parser of the ply library is not part of the code: it is taken to do what the format says, calling the callbacks in the order of the file, and to report an error if the file ends early.
    The byte order is little endian (the other one is the same up to the order of bytes). Of the types of properties those that the code writes are modelled (uchar, int, float, double). *)
From Coq Require Import ZArith Reals Lra.
From stdpp Require Import prelude strings.
From Flocq Require Import Core BinarySingleNaN Binary Bits.
From Flocq Require Import BinarySingleNaN.
From Verif Require Import Base TravProb Scan.
Local Open Scope Z_scope.

(** * Model *)
Definition vec : Type := double * double * double.
Definition tri : Type := Z * Z * Z.
(** Pointcloud.hpp; [others] are the other data of vertices, as variances. [None]: there is no such data. *)
Record cloud := Cloud { vertices : list vec; normals : option (list vec); colors : option (list vec); others : list (string * list double) }.
(** an object that is written or read: [faces] is [None] for a Pointcloud that is not a TriMesh (TriMesh.hpp:19-27) *)
Record item := Item { body : cloud; faces : option (list tri) }.

(** ** Numbers in files *)
Definition byte : Type := Z.
Fixpoint le (n : nat) (z : Z) : list byte := match n with O => [] | S n => z mod 256 :: le n (z / 256) end.
Fixpoint of_le (l : list byte) : Z := match l with [] => 0 | b :: l => b + 256 * of_le l end.
Definition bits64 (x : double) : Z := bits_of_b64 (BSN2B 53 1024 default_nan_pl64 x).
Definition of64 (z : Z) : double := B2BSN 53 1024 (b64_of_bits z).
Definition bits32 (x : single) : Z := bits_of_b32 (BSN2B 24 128 default_nan_pl32 x).
Definition of32 (z : Z) : single := B2BSN 24 128 (b32_of_bits z).
(** static_cast<float> and the conversion back; a number that is too large for float gives an infinity *)
Definition narrow (x : double) : single :=
  match x with
  | BinarySingleNaN.B754_zero s => BinarySingleNaN.B754_zero s | BinarySingleNaN.B754_infinity s => BinarySingleNaN.B754_infinity s | BinarySingleNaN.B754_nan => BinarySingleNaN.B754_nan
  | BinarySingleNaN.B754_finite s m e _ => BinarySingleNaN.binary_normalize 24 128 _ _ mode_NE (cond_Zopp s (Zpos m)) e s
  end.
Definition widen (x : single) : double :=
  match x with
  | BinarySingleNaN.B754_zero s => BinarySingleNaN.B754_zero s | BinarySingleNaN.B754_infinity s => BinarySingleNaN.B754_infinity s | BinarySingleNaN.B754_nan => BinarySingleNaN.B754_nan
  | BinarySingleNaN.B754_finite s m e _ => BinarySingleNaN.binary_normalize 53 1024 _ _ mode_NE (cond_Zopp s (Zpos m)) e s
  end.
(** PlyFile.cpp:282-284, the conversion of a colour to unsigned char; undefined if the truncated value is not one *)
Definition byte_of (c : double) : out () Z :=
  let x := BinarySingleNaN.Bmult mode_NE c (of_int 255) in
  if BinarySingleNaN.is_finite x && (0 <=? BinarySingleNaN.Btrunc x) && (BinarySingleNaN.Btrunc x <=? 255) then Ok (BinarySingleNaN.Btrunc x) else Bad UB.

(** ** The header *)
Inductive ty := UChar | Int | Float | Double.
Global Instance ty_eq : EqDecision ty. Proof. solve_decision. Defined.
Inductive prop := PScalar (t : ty) (name : string) | PList (size t : ty) (name : string).
Record element := Elem { e_name : string; e_count : Z; e_props : list prop }.

(** ** Writing *)
Definition put (double_precision : bool) (x : double) : list byte := if double_precision then le 8 (bits64 x) else le 4 (bits32 (narrow x)).
Definition put_vec (double_precision : bool) (v : vec) : list byte := let '(x, y, z) := v in put double_precision x ++ put double_precision y ++ put double_precision z.
Definition put_color (v : vec) : out () (list byte) := let '(x, y, z) := v in r <~ byte_of x ;; g <~ byte_of y ;; b <~ byte_of z ;; Ok [r; g; b].
Fixpoint put_colors (l : list vec) : out () (list byte) := match l with [] => Ok [] | v :: l => b <~ put_color v ;; bs <~ put_colors l ;; Ok (b ++ bs) end.
(** :300-310; int32_t from int *)
Definition put_face (t : tri) : list byte := let '(a, b, c) := t in 3 :: le 4 (a mod 4294967296) ++ le 4 (b mod 4294967296) ++ le 4 (c mod 4294967296).
Definition len {A} (l : list A) : Z := Z.of_nat (length l).
Definition xyz (t : ty) : list prop := [PScalar t "x"; PScalar t "y"; PScalar t "z"].
(** :176-224 *)
Definition header (m : item) (double_precision : bool) : list element :=
  let t := if double_precision then Double else Float in
  let n := len (vertices (body m)) in
  [Elem "vertex" n (xyz t)] ++
  (match normals (body m) with Some _ => [Elem "normal" n (xyz t)] | None => [] end) ++
  (match colors (body m) with Some _ => [Elem "color" n [PScalar UChar "red"; PScalar UChar "green"; PScalar UChar "blue"]] | None => [] end) ++
  (match faces m with Some (f :: fs) => [Elem "face" (len (f :: fs)) [PList UChar Int "vertex_index"]] | _ => [] end).
(** :174-314, PlyFile::serialize *)
Definition write (m : item) (double_precision : bool) : out () (list element * list byte) :=
  let c := body m in
  ns <~ match normals c with
        | Some l => if decide (length l = length (vertices c)) then Ok (concat (put_vec double_precision <$> l)) else Throw tt
        | None => Ok []
        end ;;
  cs <~ match colors c with
        | Some l => if decide (length l = length (vertices c)) then put_colors l else Throw tt
        | None => Ok []
        end ;;
  Ok (header m double_precision, concat (put_vec double_precision <$> vertices c) ++ ns ++ cs ++ concat (put_face <$> default [] (faces m))).

(** ** Reading *)
Inductive target := TVertex | TNormal | TColor.
(** what a callback for a property does *)
Inductive action := Store (t : target) (idx : nat) (scale : bool) | Ignore | Face.
Definition is_face (a : action) : bool := match a with Face => true | _ => false end.
(** what a scalar in the file is: an integer or a floating point number *)
Inductive scalar := SInt (z : Z) | SDbl (d : double).
Definition to_double (s : scalar) : double := match s with SInt z => of_int z | SDbl d => d end.
(** the state of a reader: the object, the static vectors (:16; one for each type), and the global variables of :68-69 *)
Record reader := Reader { r_item : item; r_static : ty -> vec; r_idx : Z; r_tri : tri }.
Definition with_body (m : item) (c : cloud) : item := Item c (faces m).
(** Pointcloud::getVertexData: creates the data if there is none *)
Definition make_normals (c : cloud) : cloud := Cloud (vertices c) (Some (default [] (normals c))) (colors c) (others c).
Definition make_colors (c : cloud) : cloud := Cloud (vertices c) (normals c) (Some (default [] (colors c))) (others c).
Definition push (t : target) (v : vec) (c : cloud) : cloud :=
  match t with
  | TVertex => Cloud (vertices c ++ [v]) (normals c) (colors c) (others c)
  | TNormal => Cloud (vertices c) (Some (default [] (normals c) ++ [v])) (colors c) (others c)
  | TColor => Cloud (vertices c) (normals c) (Some (default [] (colors c) ++ [v])) (others c)
  end.
(** :27-66 *)
Definition define_scalar (element_name property : string) (m : item) : item * action :=
  if decide (element_name = "vertex") then
    (m, if decide (property = "x") then Store TVertex 0 false else if decide (property = "y") then Store TVertex 1 false else if decide (property = "z") then Store TVertex 2 false else Ignore)
  else if decide (element_name = "normal") then
    (with_body m (make_normals (body m)),
     if decide (property = "x") then Store TNormal 0 false else if decide (property = "y") then Store TNormal 1 false else if decide (property = "z") then Store TNormal 2 false else Ignore)
  else if decide (element_name = "color") then
    (with_body m (make_colors (body m)),
     if decide (property = "red") then Store TColor 0 true else if decide (property = "green") then Store TColor 1 true else if decide (property = "blue") then Store TColor 2 true else Ignore)
  else (m, Ignore).
(** :107-131 *)
Definition define_list (element_name property : string) (m : item) : item * action :=
  (m, if decide (element_name = "face" /\ property = "vertex_index" /\ is_Some (faces m)) then Face else Ignore).
Definition define (element_name : string) (p : prop) (m : item) : item * action :=
  match p with PScalar _ name => define_scalar element_name name m | PList _ _ name => define_list element_name name m end.
(** the definition callbacks of a header, in order *)
Fixpoint define_props (element_name : string) (ps : list prop) (m : item) : item * list (prop * action) :=
  match ps with [] => (m, []) | p :: ps => let '(m, a) := define element_name p m in let '(m, l) := define_props element_name ps m in (m, (p, a) :: l) end.
Fixpoint define_all (h : list element) (m : item) : item * list (Z * list (prop * action)) :=
  match h with [] => (m, []) | e :: h => let '(m, l) := define_props (e_name e) (e_props e) m in let '(m, r) := define_all h m in (m, (e_count e, l) :: r) end.

(** reading [n] bytes; the parser reports an error if there are not as many, and PlyFile throws (:147-151) *)
Definition take_bytes (n : nat) (bs : list byte) : out () (list byte * list byte) := if decide (n <= length bs)%nat then Ok (take n bs, drop n bs) else Throw tt.
Definition ty_size (t : ty) : nat := match t with UChar => 1 | Int | Float => 4 | Double => 8 end.
Definition signed32 (z : Z) : Z := if decide (z < 2147483648) then z else z - 4294967296.
Definition read_scalar (t : ty) (bs : list byte) : out () (scalar * list byte) :=
  r <~ take_bytes (ty_size t) bs ;;
  let z := of_le r.1 in
  Ok (match t with UChar => SInt z | Int => SInt (signed32 z) | Float => SDbl (widen (of32 z)) | Double => SDbl (of64 z) end, r.2).
Definition set_at (idx : nat) (v : vec) (d : double) : vec := let '(x, y, z) := v in match idx with 0%nat => (d, y, z) | 1%nat => (x, d, z) | _ => (x, y, d) end.
(** :13-25 *)
Definition store (r : reader) (t : ty) (s : scalar) (tg : target) (idx : nat) (scale : bool) : reader :=
  let d := if scale then BinarySingleNaN.Bdiv mode_NE (to_double s) (of_int 255) else to_double s in
  let v := set_at idx (r_static r t) d in
  let m := if decide (idx = 2%nat) then with_body (r_item r) (push tg v (body (r_item r))) else r_item r in
  Reader m (fun t' => if decide (t' = t) then v else r_static r t') (r_idx r) (r_tri r).
(** :82-97; a floating point number as an index is not modelled *)
Definition face_element (r : reader) (s : scalar) : out () reader :=
  match s with
  | SInt z =>
    let '(a, b, c) := r_tri r in
    Ok (Reader (r_item r) (r_static r) (r_idx r + 1) (if decide (r_idx r = 0) then (z, b, c) else if decide (r_idx r = 1) then (a, z, c) else if decide (r_idx r = 2) then (a, b, z) else (a, b, c)))
  | SDbl _ => Bad IllTyped
  end.
Fixpoint read_list (n : nat) (t : ty) (a : action) (r : reader) (bs : list byte) : out () (reader * list byte) :=
  match n with
  | O => Ok (r, bs)
  | S n => s <~ read_scalar t bs ;; r <~ (if is_face a then face_element r s.1 else Ok r) ;; read_list n t a r s.2
  end.
Definition read_prop (pa : prop * action) (r : reader) (bs : list byte) : out () (reader * list byte) :=
  match pa.1 with
  | PScalar t _ => s <~ read_scalar t bs ;; Ok (match pa.2 with Store tg idx scale => store r t s.1 tg idx scale | _ => r end, s.2)
  | PList st t _ =>
    s <~ read_scalar st bs ;;
    match s.1 with
    | SInt n =>
      (* :71-79 *)
      let r := if is_face pa.2 then Reader (r_item r) (r_static r) 0 (r_tri r) else r in
      q <~ read_list (Z.to_nat n) t pa.2 r s.2 ;;
      (* :99-103 *)
      Ok (if is_face pa.2 then Reader (Item (body (r_item q.1)) ((fun l => l ++ [r_tri q.1]) <$> faces (r_item q.1))) (r_static q.1) (r_idx q.1) (r_tri q.1) else q.1, q.2)
    | SDbl _ => Bad IllTyped
    end
  end.
Fixpoint read_props (l : list (prop * action)) (r : reader) (bs : list byte) : out () (reader * list byte) :=
  match l with [] => Ok (r, bs) | p :: l => q <~ read_prop p r bs ;; read_props l q.1 q.2 end.
Fixpoint read_element (n : nat) (l : list (prop * action)) (r : reader) (bs : list byte) : out () (reader * list byte) :=
  match n with O => Ok (r, bs) | S n => q <~ read_props l r bs ;; read_element n l q.1 q.2 end.
Fixpoint read_body (es : list (Z * list (prop * action))) (r : reader) (bs : list byte) : out () (reader * list byte) :=
  match es with [] => Ok (r, bs) | e :: es => q <~ read_element (Z.to_nat e.1) e.2 r bs ;; read_body es q.1 q.2 end.
(** :316-384, PlyFile::unserialize into [m]; the static and global variables have any values [st], [i], [t]. It never returns false. *)
Definition read (st : ty -> vec) (i : Z) (t : tri) (m : item) (h : list element) (bs : list byte) : out () item :=
  let '(m, es) := define_all h m in
  q <~ read_body es (Reader m st i t) bs ;; Ok (r_item q.1).

(** ** Copies *)
(** Pointcloud.hpp:60-67, clear; attributes and variances are among [others] *)
Definition clear (c : cloud) : cloud := Cloud [] ((fun _ => []) <$> normals c) ((fun _ => []) <$> colors c) ((fun p => (p.1, [])) <$> others c).
(** Pointcloud.cpp:128-149, copyFrom another point cloud; [f] is the transformation of points, the identity if there is none *)
Definition copy_cloud (f : vec -> vec) (source c : cloud) : cloud := let c := clear c in Cloud (f <$> vertices source) (normals c) (colors c) (others c).
(** Pointcloud.cpp:151-163, copyFrom a sample with [points] and [cols] (the fourth part of colours is not read) *)
Definition copy_sample (points cols : list vec) (c : cloud) : cloud := let c := make_colors (clear c) in Cloud points (normals c) (Some (default [] (colors c) ++ cols)) (others c).

(** * Specification *)
(** an object of the same kind as [m] that has just been created *)
Definition fresh (m : item) : item := Item (Cloud [] None None []) ((fun _ => []) <$> faces m).
(** a coordinate after it has been through a file *)
Definition through (double_precision : bool) (x : double) : double := if double_precision then x else widen (narrow x).
Definition through_vec (double_precision : bool) (v : vec) : vec := let '(x, y, z) := v in (through double_precision x, through double_precision y, through double_precision z).
(** a part of a colour: a number from 0 to 1 *)
Definition unit_interval (x : double) : Prop := BinarySingleNaN.is_finite x = true /\ (0 <= value x <= 1)%R.
Definition good_color (v : vec) : Prop := let '(x, y, z) := v in unit_interval x /\ unit_interval y /\ unit_interval z.
(** the colour [c'] stands for [c]: a multiple of 1/255 (up to rounding) that is not above it and less than 1/255 (and the rounding) below it *)
Definition near_part (c c' : double) : Prop :=
  exists b, 0 <= b <= 255 /\ c' = get_probability b /\ (Rabs (value c' - IZR b / 255) <= bpow radix2 (-53))%R /\ (0 <= value c - value c' < 1 / 255 + bpow radix2 (-52))%R.
Definition near_color (c c' : vec) : Prop := let '(x, y, z) := c in let '(x', y', z') := c' in near_part x x' /\ near_part y y' /\ near_part z z'.
Definition int32 (z : Z) : Prop := -2147483648 <= z < 2147483648.
Definition good_face (t : tri) : Prop := let '(a, b, c) := t in int32 a /\ int32 b /\ int32 c.
(** what can be written: as many normals and colours as vertices, colours from 0 to 1 *)
Definition good_item (m : item) : Prop :=
  (forall l, normals (body m) = Some l -> length l = length (vertices (body m))) /\
  (forall l, colors (body m) = Some l -> length l = length (vertices (body m)) /\ Forall good_color l) /\
  (forall l, faces m = Some l -> Forall good_face l).
Definition each (f : vec -> vec) (o : option (list vec)) : option (list vec) := match o with Some l => Some (f <$> l) | None => None end.
(** [b] appended to the data [a], if there is any *)
Definition appended (a b : option (list vec)) : option (list vec) := match b with Some l => Some (default [] a ++ l) | None => a end.

(** * Proof *)
Lemma le_length n z : length (le n z) = n.
Proof. revert z. induction n as [|n IH]; intros z; [done|]. cbn. by rewrite IH. Qed.
Lemma of_le_le n z : 0 <= z < 256 ^ Z.of_nat n -> of_le (le n z) = z.
Proof.
  revert z. induction n as [|n IH]; intros z Hz. { cbn in *. lia. }
  cbn [le of_le]. rewrite IH. { pose proof (Z.div_mod z 256 ltac:(lia)). lia. }
  rewrite Nat2Z.inj_succ, Z.pow_succ_r in Hz by lia. split; [apply Z.div_pos; lia|apply Z.div_lt_upper_bound; lia].
Qed.
Lemma of64_bits x : of64 (bits64 x) = x.
Proof. unfold of64, bits64, b64_of_bits, bits_of_b64. rewrite binary_float_of_bits_of_binary_float. apply B2BSN_BSN2B. Qed.
Lemma bits64_range x : 0 <= bits64 x < 256 ^ Z.of_nat 8.
Proof. unfold bits64, bits_of_b64. pose proof (bits_of_binary_float_range 52 11 eq_refl eq_refl (BSN2B 53 1024 default_nan_pl64 x)) as H. exact H. Qed.
Lemma of32_bits x : of32 (bits32 x) = x.
Proof. unfold of32, bits32, b32_of_bits, bits_of_b32. rewrite binary_float_of_bits_of_binary_float. apply B2BSN_BSN2B. Qed.
Lemma bits32_range x : 0 <= bits32 x < 256 ^ Z.of_nat 4.
Proof. unfold bits32, bits_of_b32. pose proof (bits_of_binary_float_range 23 8 eq_refl eq_refl (BSN2B 24 128 default_nan_pl32 x)) as H. exact H. Qed.
Lemma take_bytes_app a b n : length a = n -> take_bytes n (a ++ b) = Ok (a, b).
Proof. intros <-. unfold take_bytes. rewrite app_length. case_decide; [|lia]. by rewrite take_app, drop_app. Qed.
Definition prec_ty (dp : bool) : ty := if dp then Double else Float.
Lemma read_put dp x rest : read_scalar (prec_ty dp) (put dp x ++ rest) = Ok (SDbl (through dp x), rest).
Proof.
  unfold read_scalar, put, prec_ty, through. destruct dp; rewrite take_bytes_app by (by rewrite le_length); cbn [obind fst snd].
  - by rewrite of_le_le, of64_bits by apply bits64_range.
  - by rewrite of_le_le, of32_bits by apply bits32_range.
Qed.
Lemma read_byte b rest : read_scalar UChar (b :: rest) = Ok (SInt b, rest).
Proof. unfold read_scalar, take_bytes. cbn [ty_size length]. case_decide; [|cbn in *; lia]. cbn [obind fst snd take drop]. rewrite take_0, drop_0. replace (of_le [b]) with b by (cbn; lia). done. Qed.
Lemma read_int z rest : int32 z -> read_scalar Int (le 4 (z mod 4294967296) ++ rest) = Ok (SInt z, rest).
Proof.
  intros Hz. unfold read_scalar. rewrite take_bytes_app by apply le_length. cbn [obind fst snd]. rewrite of_le_le.
  - repeat f_equal. unfold signed32, int32 in *. destruct (decide (0 <= z)).
    + rewrite Z.mod_small by lia. case_decide; lia.
    + rewrite <-(Z.mod_add _ 1), Z.mod_small by lia. case_decide; lia.
  - change (256 ^ Z.of_nat 4) with 4294967296. apply Z.mod_pos_bound. lia.
Qed.

Definition pushes (tg : target) (vs : list vec) (m : item) : item := with_body m (foldl (fun c v => push tg v c) (body m) vs).
Lemma set_three v a b c : set_at 2 (set_at 1 (set_at 0 v a) b) c = (a, b, c).
Proof. by destruct v as [[]]. Qed.
(** reading one vector *)
Lemma read_vec t nx ny nz tg (scale : bool) (x y z : scalar) r bs bs1 bs2 bs3 :
  read_scalar t bs = Ok (x, bs1) -> read_scalar t bs1 = Ok (y, bs2) -> read_scalar t bs2 = Ok (z, bs3) ->
  let conv (s : scalar) := if scale then BinarySingleNaN.Bdiv mode_NE (to_double s) (of_int 255) else to_double s in
  exists st, read_props [(PScalar t nx, Store tg 0 scale); (PScalar t ny, Store tg 1 scale); (PScalar t nz, Store tg 2 scale)] r bs =
    Ok (Reader (pushes tg [(conv x, conv y, conv z)] (r_item r)) st (r_idx r) (r_tri r), bs3).
Proof.
  intros E1 E2 E3 conv. cbn [read_props]. unfold read_prop. cbn [fst snd]. rewrite E1. cbn [obind fst snd]. rewrite E2. cbn [obind fst snd]. rewrite E3. cbn [obind fst snd].
  unfold store. cbn [r_item r_static r_idx r_tri]. fold (conv x) (conv y) (conv z).
  destruct (decide (t = t)) as [_|Hn]; [|by destruct Hn]. cbn [decide]. rewrite set_three.
  eexists. f_equal.
Qed.
Lemma read_vecs t nx ny nz tg scale (enc : vec -> list byte) (dec : vec -> vec) vs r rest :
  (forall v r rest, v ∈ vs -> exists st, read_props [(PScalar t nx, Store tg 0 scale); (PScalar t ny, Store tg 1 scale); (PScalar t nz, Store tg 2 scale)] r (enc v ++ rest) =
    Ok (Reader (pushes tg [dec v] (r_item r)) st (r_idx r) (r_tri r), rest)) ->
  exists st, read_element (length vs) [(PScalar t nx, Store tg 0 scale); (PScalar t ny, Store tg 1 scale); (PScalar t nz, Store tg 2 scale)] r (concat (enc <$> vs) ++ rest) =
    Ok (Reader (pushes tg (dec <$> vs) (r_item r)) st (r_idx r) (r_tri r), rest).
Proof.
  intros H. revert r. induction vs as [|v vs IH]; intros r. { exists (r_static r). destruct r as [[c f] st i t']. done. }
  cbn [fmap list_fmap concat length read_element]. rewrite <-app_assoc. destruct (H v r (concat (enc <$> vs) ++ rest)) as (st&->); [by left|]. cbn [obind fst snd].
  destruct (IH (fun v r rest Hv => H v r rest (elem_of_list_further _ _ _ Hv)) (Reader (pushes tg [dec v] (r_item r)) st (r_idx r) (r_tri r))) as (st'&E). cbn [r_item r_idx r_tri] in E.
  exists st'. etransitivity; [exact E|]. done.
Qed.

Lemma read_dp dp nx ny nz tg v r rest : exists st,
  read_props [(PScalar (prec_ty dp) nx, Store tg 0 false); (PScalar (prec_ty dp) ny, Store tg 1 false); (PScalar (prec_ty dp) nz, Store tg 2 false)] r (put_vec dp v ++ rest) =
    Ok (Reader (pushes tg [through_vec dp v] (r_item r)) st (r_idx r) (r_tri r), rest).
Proof.
  destruct v as [[x y] z]. unfold put_vec. rewrite <-!app_assoc.
  destruct (read_vec (prec_ty dp) nx ny nz tg false (SDbl (through dp x)) (SDbl (through dp y)) (SDbl (through dp z)) r (put dp x ++ put dp y ++ put dp z ++ rest) (put dp y ++ put dp z ++ rest) (put dp z ++ rest) rest) as (st&E); [apply read_put..|].
  exists st. exact E.
Qed.
(** a part of a colour after it has been through a file *)
Definition quant (c : double) : double := match byte_of c with Ok b => get_probability b | _ => c end.
Definition quant_vec (v : vec) : vec := let '(x, y, z) := v in (quant x, quant y, quant z).
Definition enc_color (v : vec) : list byte := match put_color v with Ok b => b | _ => [] end.
Lemma byte_of_unit x : unit_interval x -> exists b, byte_of x = Ok b /\ 0 <= b <= 255 /\ set_probability x = Ok b.
Proof.
  intros [Hf Hv]. destruct (C38_floor x Hf Hv) as (b&Hs&Hb&_). destruct (product x Hf Hv) as (Hf2&Hval&Hr). exists b. split; [|split; [done|done]].
  unfold byte_of. unfold set_probability in Hs. cbv zeta in *. set (p := BinarySingleNaN.Bmult mode_NE x (of_int 255)) in *. change (BinarySingleNaN.is_finite p = true) in Hf2. rewrite Hf2 in *. cbn [andb] in *.
  assert (Ht : BinarySingleNaN.Btrunc p <= 255). { rewrite btrunc_value. change (value p = rnd (value x * 255)) in Hval. rewrite Hval. apply le_IZR. eapply Rle_trans; [apply ztrunc_le_value; apply Hr|apply Hr]. }
  destruct (Z.leb_spec 0 (BinarySingleNaN.Btrunc p)) as [H0|]; [|discriminate Hs]. cbn [andb] in *. rewrite (proj2 (Z.leb_le _ _) Ht).
  destruct (BinarySingleNaN.Btrunc p <? 4294967296); [|discriminate Hs]. rewrite Z.min_r in Hs by lia. injection Hs as ->. done.
Qed.
Lemma put_color_good v : good_color v -> exists r g b, put_color v = Ok [r; g; b] /\ 0 <= r <= 255 /\ 0 <= g <= 255 /\ 0 <= b <= 255 /\
  quant_vec v = (get_probability r, get_probability g, get_probability b).
Proof.
  destruct v as [[x y] z]. intros (Hx&Hy&Hz). destruct (byte_of_unit x Hx) as (r&Er&?&_). destruct (byte_of_unit y Hy) as (g&Eg&?&_). destruct (byte_of_unit z Hz) as (b&Eb&?&_).
  exists r, g, b. unfold put_color, quant_vec, quant. rewrite Er, Eg, Eb. cbn [obind]. done.
Qed.
Lemma put_colors_good l : Forall good_color l -> put_colors l = Ok (concat (enc_color <$> l)).
Proof.
  induction 1 as [|v l Hv _ IH]; [done|]. cbn [put_colors fmap list_fmap concat]. destruct (put_color_good v Hv) as (r&g&b&E&_). unfold enc_color at 1. rewrite E, IH. done.
Qed.
Lemma read_color nx ny nz tg v r rest : good_color v -> exists st,
  read_props [(PScalar UChar nx, Store tg 0 true); (PScalar UChar ny, Store tg 1 true); (PScalar UChar nz, Store tg 2 true)] r (enc_color v ++ rest) =
    Ok (Reader (pushes tg [quant_vec v] (r_item r)) st (r_idx r) (r_tri r), rest).
Proof.
  intros Hv. destruct (put_color_good v Hv) as (cr&cg&cb&E&_&_&_&->). unfold enc_color. rewrite E. cbn [app].
  destruct (read_vec UChar nx ny nz tg true (SInt cr) (SInt cg) (SInt cb) r (cr :: cg :: cb :: rest) (cg :: cb :: rest) (cb :: rest) rest) as (st&E'); [apply read_byte..|].
  exists st. exact E'.
Qed.
(** faces *)
Definition add_face (m : item) (f : tri) : item := Item (body m) ((fun l => l ++ [f]) <$> faces m).
Lemma read_face a f r rest : good_face f -> a = Face \/ a = Ignore ->
  read_props [(PList UChar Int "vertex_index", a)] r (put_face f ++ rest) =
    Ok (if is_face a then Reader (add_face (r_item r) f) (r_static r) 3 f else r, rest).
Proof.
  destruct f as [[x y] z]. intros (Hx&Hy&Hz) Ha. cbn [read_props]. unfold put_face, read_prop. cbn [fst snd app]. rewrite read_byte. cbn [obind fst snd].
  change (Z.to_nat 3) with 3%nat. rewrite <-!app_assoc. cbn [read_list]. rewrite read_int by done. cbn [obind fst snd]. destruct Ha as [->| ->]; cbn [is_face obind fst snd].
  - unfold face_element at 1. cbn [r_tri r_idx r_item r_static]. destruct (r_tri r) as [[a b] c]. cbn [obind]. rewrite read_int by done. cbn [obind fst snd face_element r_tri r_idx r_item r_static].
    rewrite read_int by done. cbn [obind fst snd face_element r_tri r_idx r_item r_static]. done.
  - rewrite read_int by done. cbn [obind fst snd]. rewrite read_int by done. cbn [obind fst snd]. done.
Qed.
Lemma read_faces a fs r rest : Forall good_face fs -> a = Face \/ a = Ignore -> exists i t,
  read_element (length fs) [(PList UChar Int "vertex_index", a)] r (concat (put_face <$> fs) ++ rest) =
    Ok (Reader (if is_face a then foldl add_face (r_item r) fs else r_item r) (r_static r) i t, rest).
Proof.
  intros Hf Ha. revert r. induction Hf as [|f fs Hf _ IH]; intros r. { exists (r_idx r), (r_tri r). destruct r. by destruct (is_face a). }
  cbn [fmap list_fmap concat length read_element]. rewrite <-app_assoc, read_face by done. cbn [obind fst snd].
  destruct (is_face a).
  - destruct (IH (Reader (add_face (r_item r) f) (r_static r) 3 f)) as (i&t&E). exists i, t. exact E.
  - apply IH.
Qed.
Lemma add_faces fs m : foldl add_face m fs = Item (body m) ((fun l => l ++ fs) <$> faces m).
Proof.
  revert m. induction fs as [|f fs IH]; intros m. { destruct m as [c [l|]]; cbn; [by rewrite app_nil_r|done]. }
  cbn [foldl]. rewrite IH. unfold add_face. cbn [body faces]. destruct (faces m) as [l|]; [|done]. cbn. by rewrite <-app_assoc.
Qed.
Lemma pushes_vertices vs m : pushes TVertex vs m = Item (Cloud (vertices (body m) ++ vs) (normals (body m)) (colors (body m)) (others (body m))) (faces m).
Proof.
  unfold pushes, with_body. f_equal. generalize (body m). induction vs as [|v vs IH]; intros c. { destruct c. cbn. by rewrite app_nil_r. }
  cbn [foldl]. rewrite IH. cbn. by rewrite <-app_assoc.
Qed.
Lemma pushes_normals vs m l : normals (body m) = Some l -> pushes TNormal vs m = Item (Cloud (vertices (body m)) (Some (l ++ vs)) (colors (body m)) (others (body m))) (faces m).
Proof.
  intros E. unfold pushes, with_body. f_equal. revert E. generalize (body m). revert l. induction vs as [|v vs IH]; intros l c E. { destruct c. cbn in *. rewrite E. by rewrite app_nil_r. }
  cbn [foldl]. rewrite (IH (l ++ [v])); [cbn; by rewrite <-app_assoc|]. cbn. by rewrite E.
Qed.
Lemma pushes_colors vs m l : colors (body m) = Some l -> pushes TColor vs m = Item (Cloud (vertices (body m)) (normals (body m)) (Some (l ++ vs)) (others (body m))) (faces m).
Proof.
  intros E. unfold pushes, with_body. f_equal. revert E. generalize (body m). revert l. induction vs as [|v vs IH]; intros l c E. { destruct c. cbn in *. rewrite E. by rewrite app_nil_r. }
  cbn [foldl]. rewrite (IH (l ++ [v])); [cbn; by rewrite <-app_assoc|]. cbn. by rewrite E.
Qed.
(** the header *)
Definition acts (dp : bool) (tg : target) : list (prop * action) := [(PScalar (prec_ty dp) "x", Store tg 0 false); (PScalar (prec_ty dp) "y", Store tg 1 false); (PScalar (prec_ty dp) "z", Store tg 2 false)].
Definition color_acts : list (prop * action) := [(PScalar UChar "red", Store TColor 0 true); (PScalar UChar "green", Store TColor 1 true); (PScalar UChar "blue", Store TColor 2 true)].
Definition face_act (m0 : item) : action := match faces m0 with Some _ => Face | None => Ignore end.
Definition prepared (m m0 : item) : item :=
  Item (Cloud (vertices (body m0)) (match normals (body m) with Some _ => Some (default [] (normals (body m0))) | None => normals (body m0) end)
    (match colors (body m) with Some _ => Some (default [] (colors (body m0))) | None => colors (body m0) end) (others (body m0))) (faces m0).
Lemma define_header m dp m0 : define_all (header m dp) m0 = (prepared m m0,
  [(len (vertices (body m)), acts dp TVertex)] ++
  (match normals (body m) with Some _ => [(len (vertices (body m)), acts dp TNormal)] | None => [] end) ++
  (match colors (body m) with Some _ => [(len (vertices (body m)), color_acts)] | None => [] end) ++
  (match faces m with Some (f :: fs) => [(len (f :: fs), [(PList UChar Int "vertex_index", face_act m0)])] | _ => [] end)).
Proof.
  unfold header, prepared, face_act, acts, color_acts. destruct m0 as [[v0 n0 c0 o0] f0].
  destruct (normals (body m)), (colors (body m)), (faces m) as [[|]|], f0, dp; reflexivity.
Qed.
Lemma read_body_app es es' r bs : read_body (es ++ es') r bs = (q <~ read_body es r bs ;; read_body es' q.1 q.2).
Proof. revert r bs. induction es as [|e es IH]; intros r bs; [done|]. cbn [app read_body]. destruct (read_element _ _ r bs) as [q| | |]; cbn [obind]; [apply IH|done..]. Qed.

(** what reading the file of [m] into [m0] gives *)
Definition loaded (dp : bool) (m m0 : item) : item :=
  Item (Cloud (vertices (body m0) ++ (through_vec dp <$> vertices (body m))) (appended (normals (body m0)) (each (through_vec dp) (normals (body m))))
     (appended (colors (body m0)) (each quant_vec (colors (body m)))) (others (body m0)))
    (match faces m0, faces m with Some f0, Some f => Some (f0 ++ f) | f0, _ => f0 end).
Definition file_bytes (m : item) (dp : bool) : list byte :=
  concat (put_vec dp <$> vertices (body m)) ++ concat (put_vec dp <$> default [] (normals (body m))) ++ concat (enc_color <$> default [] (colors (body m))) ++ concat (put_face <$> default [] (faces m)).
Lemma write_good m dp : good_item m -> write m dp = Ok (header m dp, file_bytes m dp).
Proof.
  intros (Hn&Hc&Hf). unfold write, file_bytes. destruct (normals (body m)) as [n|] eqn:En; destruct (colors (body m)) as [c|] eqn:Ec; cbn [default].
  all: try (rewrite (decide_True _ _ (Hn n eq_refl)); cbn [obind]).
  all: try (destruct (Hc c eq_refl) as [HL HG]; rewrite (decide_True _ _ HL), (put_colors_good c HG); cbn [obind]).
  all: reflexivity.
Qed.
Lemma to_nat_len {A} (l : list A) : Z.to_nat (len l) = length l.
Proof. unfold len. lia. Qed.
Lemma read_good st i t m dp m0 rest : good_item m ->
  exists st' i' t', read_body (define_all (header m dp) m0).2 (Reader (define_all (header m dp) m0).1 st i t) (file_bytes m dp ++ rest) = Ok (Reader (loaded dp m m0) st' i' t', rest).
Proof.
  intros (Hn&Hc&Hf). rewrite define_header. cbn [fst snd]. unfold file_bytes. rewrite <-!app_assoc.
  set (rest3 := concat (put_face <$> default [] (faces m)) ++ rest). set (rest2 := concat (enc_color <$> default [] (colors (body m))) ++ rest3). set (rest1 := concat (put_vec dp <$> default [] (normals (body m))) ++ rest2).
  rewrite read_body_app. cbn [read_body fst snd]. rewrite to_nat_len.
  destruct (read_vecs (prec_ty dp) "x" "y" "z" TVertex false (put_vec dp) (through_vec dp) (vertices (body m)) (Reader (prepared m m0) st i t) rest1) as (st1&E1). { intros. apply read_dp. }
  unfold acts. rewrite E1. cbn [obind fst snd r_item r_idx r_tri]. clear E1. rewrite pushes_vertices. unfold prepared. cbn [body faces vertices normals colors others].
  (* normals *)
  set (v1 := vertices (body m0) ++ (through_vec dp <$> vertices (body m))).
  set (c1 := match colors (body m) with Some _ => Some (default [] (colors (body m0))) | None => colors (body m0) end).
  rewrite read_body_app.
  assert (exists st2, read_body (match normals (body m) with Some _ => [(len (vertices (body m)), [(PScalar (prec_ty dp) "x", Store TNormal 0 false); (PScalar (prec_ty dp) "y", Store TNormal 1 false); (PScalar (prec_ty dp) "z", Store TNormal 2 false)])] | None => [] end)
     (Reader (Item (Cloud v1 (match normals (body m) with Some _ => Some (default [] (normals (body m0))) | None => normals (body m0) end) c1 (others (body m0))) (faces m0)) st1 i t) rest1 =
     Ok (Reader (Item (Cloud v1 (appended (normals (body m0)) (each (through_vec dp) (normals (body m)))) c1 (others (body m0))) (faces m0)) st2 i t, rest2)) as (st2&E2).
  { destruct (normals (body m)) as [n|] eqn:En; [|by eexists]. cbn [read_body fst snd]. rewrite to_nat_len, <-(Hn n eq_refl).
    destruct (read_vecs (prec_ty dp) "x" "y" "z" TNormal false (put_vec dp) (through_vec dp) n (Reader (Item (Cloud v1 (Some (default [] (normals (body m0)))) c1 (others (body m0))) (faces m0)) st1 i t) rest2) as (st2&E2). { intros. apply read_dp. }
    exists st2. unfold rest1. change (default [] (Some n)) with n. rewrite E2. cbn [obind fst snd r_item r_idx r_tri]. rewrite (pushes_normals _ _ (default [] (normals (body m0)))) by done. cbn [body faces vertices colors others]. done. }
  rewrite E2. cbn [obind fst snd]. clear E2. set (n1 := appended (normals (body m0)) (each (through_vec dp) (normals (body m)))).
  (* colours *)
  rewrite read_body_app.
  assert (exists st3, read_body (match colors (body m) with Some _ => [(len (vertices (body m)), color_acts)] | None => [] end)
     (Reader (Item (Cloud v1 n1 c1 (others (body m0))) (faces m0)) st2 i t) rest2 =
     Ok (Reader (Item (Cloud v1 n1 (appended (colors (body m0)) (each quant_vec (colors (body m)))) (others (body m0))) (faces m0)) st3 i t, rest3)) as (st3&E3).
  { unfold c1. destruct (colors (body m)) as [c|] eqn:Ec; [|by eexists]. destruct (Hc c eq_refl) as [HL HG]. cbn [read_body fst snd]. rewrite to_nat_len, <-HL.
    destruct (read_vecs UChar "red" "green" "blue" TColor true enc_color quant_vec c (Reader (Item (Cloud v1 n1 (Some (default [] (colors (body m0)))) (others (body m0))) (faces m0)) st2 i t) rest3) as (st3&E3).
    { intros v r rs Hv. apply read_color. by apply (proj1 (Forall_forall _ c) HG). }
    exists st3. unfold color_acts, rest2. change (default [] (Some c)) with c. rewrite E3. cbn [obind fst snd r_item r_idx r_tri]. rewrite (pushes_colors _ _ (default [] (colors (body m0)))) by done. cbn [body faces vertices normals others]. done. }
  rewrite E3. cbn [obind fst snd]. clear E3. unfold loaded. fold v1 n1. set (c2 := appended (colors (body m0)) (each quant_vec (colors (body m)))).
  (* faces *)
  unfold rest3. destruct (faces m) as [[|f fs]|] eqn:Ef; cbn [default].
  - exists st3, i, t. cbn. repeat f_equal. destruct (faces m0); [by rewrite app_nil_r|done].
  - cbn [read_body fst snd]. rewrite to_nat_len. destruct (read_faces (face_act m0) (f :: fs) (Reader (Item (Cloud v1 n1 c2 (others (body m0))) (faces m0)) st3 i t) rest) as (i'&t'&E4).
    { by apply Hf. } { unfold face_act. destruct (faces m0); auto. }
    exists st3, i', t'. change (Datatypes.id (f :: fs)) with (f :: fs). rewrite E4. cbn [obind fst snd r_item r_static]. f_equal. f_equal. f_equal. unfold face_act. destruct (faces m0) as [f0|] eqn:Ef0; cbn [is_face]; [|done]. by rewrite add_faces.
  - exists st3, i, t. cbn. by destruct (faces m0).
Qed.
Lemma near_color_quant v : good_color v -> near_color v (quant_vec v).
Proof.
  assert (K : forall x, unit_interval x -> near_part x (quant x)).
  { intros x Hx. destruct (byte_of_unit x Hx) as (b&Eb&Hb&Hs). exists b. unfold quant. rewrite Eb. split; [done|]. split; [done|]. split; [by apply C38_values|]. destruct Hx as [Hf Hv]. by apply C38_within. }
  destruct v as [[x y] z]. intros (Hx&Hy&Hz). cbn. auto.
Qed.

(** ** Theorems *)
(** Every good object can be written, and reading the file into any object appends what was written to its data: vertices and normals (exactly with double precision), colours rounded down to a multiple of 1/255, and the faces if both are meshes.
    Other data is not read. What earlier reads have left in the static and global variables does not matter. *)
Theorem C117_load m dp : good_item m -> exists h bs, write m dp = Ok (h, bs) /\ forall st i t m0, exists m' cs,
  read st i t m0 h bs = Ok m' /\
  vertices (body m') = vertices (body m0) ++ (through_vec dp <$> vertices (body m)) /\
  normals (body m') = appended (normals (body m0)) (each (through_vec dp) (normals (body m))) /\
  colors (body m') = appended (colors (body m0)) cs /\ match colors (body m), cs with Some l, Some l' => Forall2 near_color l l' | None, None => True | _, _ => False end /\
  others (body m') = others (body m0) /\
  faces m' = match faces m0, faces m with Some f0, Some f => Some (f0 ++ f) | f0, _ => f0 end.
Proof.
  intros Hg. exists (header m dp), (file_bytes m dp). split; [by apply write_good|]. intros st i t m0. exists (loaded dp m m0), (each quant_vec (colors (body m))).
  split. { unfold read. destruct (read_good st i t m dp m0 [] Hg) as (st'&i'&t'&E). rewrite app_nil_r in E. destruct (define_all (header m dp) m0) as [m1 es]. cbn [fst snd] in E. by rewrite E. }
  split; [done|]. split; [done|]. split; [done|]. split; [|done]. destruct (colors (body m)) as [l|] eqn:Ec; [|done]. cbn.
  destruct Hg as (_&Hc&_). destruct (Hc l Ec) as [_ HG]. clear -HG. induction HG as [|v l Hv _ IH]; [constructor|]. constructor; [by apply near_color_quant|exact IH].
Qed.

(** Without colours, and with double precision, what is read into a new object is what was written. *)
Theorem C117_exact m : good_item m -> colors (body m) = None -> others (body m) = [] -> exists h bs, write m true = Ok (h, bs) /\ forall st i t, read st i t (fresh m) h bs = Ok m.
Proof.
  intros Hg Hc Ho. exists (header m true), (file_bytes m true). split; [by apply write_good|]. intros st i t.
  unfold read. destruct (read_good st i t m true (fresh m) [] Hg) as (st'&i'&t'&E). rewrite app_nil_r in E. destruct (define_all (header m true) (fresh m)) as [m1 es]. cbn [fst snd] in E. rewrite E. cbn [obind fst snd r_item]. clear E.
  f_equal. unfold loaded, fresh. destruct m as [[v n c o] f]. cbn [body faces vertices normals colors others] in *. subst c o.
  assert (Et : forall (l : list vec), through_vec true <$> l = l). { intros l. induction l as [|[[x y] z] l IH]; [done|]. cbn. by f_equal. }
  rewrite Et. f_equal; [|by destruct f]. f_equal. destruct n as [n|]; [|done]. cbn. by rewrite Et.
Qed.

(** ** single precision *)
Lemma widen_value s : BinarySingleNaN.is_finite s = true -> value (widen s) = BinarySingleNaN.B2R s /\ BinarySingleNaN.is_finite (widen s) = true /\ BinarySingleNaN.Bsign (widen s) = BinarySingleNaN.Bsign s.
Proof.
  destruct s as [s| | |s m e Hb]; try done. intros _. unfold widen.
  pose proof (BinarySingleNaN.binary_normalize_correct 53 1024 eq_refl eq_refl mode_NE (cond_Zopp s (Zpos m)) e s) as H.
  set (x := F2R (Defs.Float radix2 (cond_Zopp s (Zpos m)) e)) in *.
  assert (Hx : x = BinarySingleNaN.B2R (BinarySingleNaN.B754_finite s m e Hb : single)) by done.
  assert (Hfmt : generic_format radix2 (FLT_exp (-149) 24) x). { rewrite Hx. apply (BinarySingleNaN.generic_format_B2R 24 128). }
  assert (Hfmt2 : generic_format radix2 (SpecFloat.fexp 53 1024) x).
  { apply FLT_format_generic in Hfmt; [|done]. destruct Hfmt as [f Hf1 Hf2 Hf3]. apply (generic_format_FLT radix2 (-1074) 53). exists f; [done| |lia]. eapply Z.lt_le_trans; [exact Hf2|]. by apply Zpower_le. }
  cbv zeta in H. assert (Er : round radix2 (SpecFloat.fexp 53 1024) (BinarySingleNaN.round_mode mode_NE) x = x) by (apply round_generic; [apply BinarySingleNaN.valid_rnd_round_mode|done]). rewrite Er in H.
  rewrite Rlt_bool_true in H.
  - destruct H as (H1&H2&H3). split; [exact (eq_trans H1 Hx)|]. split; [exact H2|]. etransitivity; [exact H3|]. unfold x. cbn [BinarySingleNaN.Bsign].
    destruct s; cbn [cond_Zopp]; [rewrite Rcompare_Lt; [done|by apply F2R_lt_0]|rewrite Rcompare_Gt; [done|by apply F2R_gt_0]].
  - rewrite Hx. eapply Rlt_trans; [apply BinarySingleNaN.abs_B2R_lt_emax|]. by apply bpow_lt.
Qed.
Lemma narrow_value x : BinarySingleNaN.is_finite x = true -> (Rabs (value x) <= bpow radix2 128 - bpow radix2 104)%R ->
  BinarySingleNaN.B2R (narrow x) = round radix2 (FLT_exp (-149) 24) ZnearestE (value x) /\ BinarySingleNaN.is_finite (narrow x) = true /\ (value x <> 0%R -> BinarySingleNaN.Bsign (narrow x) = BinarySingleNaN.Bsign x).
Proof.
  destruct x as [s| | |s m e Hb]; try done. { intros _ _. cbn. by rewrite round_0 by apply valid_rnd_N. } intros _ Hle. unfold narrow.
  pose proof (BinarySingleNaN.binary_normalize_correct 24 128 eq_refl eq_refl mode_NE (cond_Zopp s (Zpos m)) e s) as H.
  cbv zeta in H. set (x := F2R (Defs.Float radix2 (cond_Zopp s (Zpos m)) e)) in *. change (value _) with x in Hle. change (value _) with x.
  rewrite Rlt_bool_true in H.
  - destruct H as (H1&H2&H3). split; [exact H1|]. split; [exact H2|]. intros _. etransitivity; [exact H3|]. unfold x. cbn [BinarySingleNaN.Bsign].
    destruct s; cbn [cond_Zopp]; [rewrite Rcompare_Lt; [done|by apply F2R_lt_0]|rewrite Rcompare_Gt; [done|by apply F2R_gt_0]].
  - eapply Rle_lt_trans; [apply abs_round_le_generic; [apply BinarySingleNaN.fexp_correct; done|apply BinarySingleNaN.valid_rnd_round_mode| |exact Hle]|].
    + apply (generic_format_FLT radix2 (-149) 24). exists (Defs.Float radix2 (2 ^ 24 - 1) 104); [|cbn; lia|cbn; lia].
      unfold F2R. cbn [Fnum Fexp]. rewrite minus_IZR. change (IZR (2 ^ 24)) with (bpow radix2 24). change 128 with (24 + 104). rewrite bpow_plus. ring.
    + pose proof (bpow_gt_0 radix2 104). lra.
Qed.
Lemma narrow_widen s0 : narrow (widen s0) = s0.
Proof.
  destruct s0 as [s| | |s m e Hb] eqn:Es; try done. rewrite <-Es.
  assert (Hf : BinarySingleNaN.is_finite s0 = true) by (by rewrite Es). destruct (widen_value s0 Hf) as (H1&H2&H3).
  assert (Hle : (Rabs (value (widen s0)) <= bpow radix2 128 - bpow radix2 104)%R). { rewrite H1. apply (BinarySingleNaN.abs_B2R_le_emax_minus_prec 24 128). done. }
  destruct (narrow_value (widen s0) H2 Hle) as (H4&H5&H6).
  apply BinarySingleNaN.B2R_Bsign_inj; [exact H5|exact Hf| |].
  - rewrite H4, H1. apply round_generic; [apply valid_rnd_N|]. apply (BinarySingleNaN.generic_format_B2R 24 128).
  - rewrite <-H3. apply H6. rewrite H1, Es. cbn. apply F2R_neq_0. by destruct s.
Qed.
(** A finite coordinate within the range of float becomes a float, and no float is nearer to it. *)
Theorem C117_float x : BinarySingleNaN.is_finite x = true -> (Rabs (value x) <= bpow radix2 128 - bpow radix2 104)%R ->
  BinarySingleNaN.is_finite (through false x) = true /\
  (exists s : single, BinarySingleNaN.is_finite s = true /\ value (through false x) = BinarySingleNaN.B2R s) /\
  forall s : single, BinarySingleNaN.is_finite s = true -> (Rabs (value (through false x) - value x) <= Rabs (BinarySingleNaN.B2R s - value x))%R.
Proof.
  intros Hf Hle. destruct (narrow_value x Hf Hle) as (H1&H2&_). destruct (widen_value _ H2) as (H3&H4&_). cbn [through]. split; [exact H4|]. split; [by exists (narrow x)|].
  intros s Hs. rewrite H3, H1. destruct (round_N_pt radix2 (FLT_exp (-149) 24) (fun z => negb (Z.even z)) (value x)) as [_ HN].
  apply HN. apply (BinarySingleNaN.generic_format_B2R 24 128).
Qed.

(** ** again *)
Lemma through_through dp x : through dp (through dp x) = through dp x.
Proof. destruct dp; [done|]. cbn. by rewrite narrow_widen. Qed.
Lemma put_through dp x : put dp (through dp x) = put dp x.
Proof. destruct dp; [done|]. cbn [put through]. by rewrite narrow_widen. Qed.
Lemma put_vec_through dp v : put_vec dp (through_vec dp v) = put_vec dp v.
Proof. destruct v as [[x y] z]. cbn. by rewrite !put_through. Qed.
Lemma put_vecs_through dp (l : list vec) : concat (put_vec dp <$> (through_vec dp <$> l)) = concat (put_vec dp <$> l).
Proof. induction l as [|v l IH]; [done|]. cbn. by rewrite put_vec_through, IH. Qed.
Lemma quant_unit x : unit_interval x -> exists b, byte_of x = Ok b /\ 0 <= b <= 255 /\ quant x = get_probability b /\ unit_interval (quant x) /\ byte_of (quant x) = Ok b.
Proof.
  intros Hx. destruct (byte_of_unit x Hx) as (b&Eb&Hb&_). exists b. assert (Eq : quant x = get_probability b). { unfold quant. by rewrite Eb. }
  assert (Hu : unit_interval (get_probability b)). { destruct (byte_facts_all b Hb) as [Hf _ _ _]. split; [exact Hf|]. by apply get_range. }
  rewrite Eq. split; [done|]. split; [done|]. split; [done|]. split; [done|]. destruct (byte_of_unit _ Hu) as (b'&Eb'&_&Hs). rewrite (C38_exact b Hb) in Hs. injection Hs as ->. done.
Qed.
Lemma quant_color v : good_color v -> good_color (quant_vec v) /\ enc_color (quant_vec v) = enc_color v.
Proof.
  destruct v as [[x y] z]. intros (Hx&Hy&Hz). destruct (quant_unit x Hx) as (r&Er&_&_&Ur&Er'). destruct (quant_unit y Hy) as (g&Eg&_&_&Ug&Eg'). destruct (quant_unit z Hz) as (b&Eb&_&_&Ub&Eb').
  split; [done|]. unfold enc_color, put_color, quant_vec. by rewrite Er, Eg, Eb, Er', Eg', Eb'.
Qed.
Lemma quant_colors (l : list vec) : Forall good_color l -> Forall good_color (quant_vec <$> l) /\ concat (enc_color <$> (quant_vec <$> l)) = concat (enc_color <$> l).
Proof. induction 1 as [|v l Hv _ [IH1 IH2]]; [by split; [constructor|]|]. destruct (quant_color v Hv) as [H1 H2]. split; [by constructor|]. cbn. by rewrite H2, IH2. Qed.
(** Saving what has been loaded gives the same file again, so nothing more is lost however often this is done. *)
Theorem C117_again m dp : good_item m -> exists h bs, write m dp = Ok (h, bs) /\ forall st i t, exists m', read st i t (fresh m) h bs = Ok m' /\ good_item m' /\ write m' dp = Ok (h, bs).
Proof.
  intros Hg. exists (header m dp), (file_bytes m dp). split; [by apply write_good|]. intros st i t. exists (loaded dp m (fresh m)).
  split. { unfold read. destruct (read_good st i t m dp (fresh m) [] Hg) as (st'&i'&t'&E). rewrite app_nil_r in E. destruct (define_all (header m dp) (fresh m)) as [m1 es]. cbn [fst snd] in E. by rewrite E. }
  destruct Hg as (Hn&Hc&Hf). destruct m as [[v n c o] f]. unfold loaded, fresh, appended, each in *. cbn [body faces vertices normals colors others app] in *.
  assert (HG : good_item (Item (Cloud (through_vec dp <$> v) (match match n with Some l => Some (through_vec dp <$> l) | None => None end with Some l => Some (default [] None ++ l) | None => None end)
      (match match c with Some l => Some (quant_vec <$> l) | None => None end with Some l => Some (default [] None ++ l) | None => None end) [])
      (match (fun _ => []) <$> f, f with Some f0, Some f1 => Some (f0 ++ f1) | f0, _ => f0 end))).
  { split; [|split]; cbn [body faces vertices normals colors others].
    - intros l E. destruct n as [n|]; [|done]. injection E as <-. cbn. rewrite !fmap_length. by apply Hn.
    - intros l E. destruct c as [c|]; [|done]. injection E as <-. destruct (Hc c eq_refl) as [HL HG]. cbn. rewrite !fmap_length. split; [done|]. by apply quant_colors.
    - intros l E. destruct f as [f|]; [|done]. injection E as <-. by apply Hf. }
  split; [exact HG|]. rewrite (write_good _ _ HG). unfold header, file_bytes, len. cbn [body faces vertices normals colors others]. f_equal. f_equal.
  - rewrite fmap_length. destruct n as [n|], c as [c|], f as [f|]; done.
  - f_equal; [apply put_vecs_through|]. f_equal; [destruct n as [n|]; [|done]; cbn; apply put_vecs_through|]. f_equal; [destruct c as [c|]; [|done]; cbn; by apply quant_colors, (Hc c eq_refl)|].
    by destruct f.
Qed.

(** ** Incomplete files *)
(** a reader that reads from the front of its input *)
Definition local {A} (f : list byte -> out () (A * list byte)) : Prop :=
  forall bs x a rest, f (bs ++ x) = Ok (a, rest) -> f bs = Throw tt \/ exists rest', f bs = Ok (a, rest') /\ rest = rest' ++ x.
Lemma local_ok {A} (a : A) : local (fun bs => Ok (a, bs)).
Proof. intros bs x a' rest E. injection E as <- <-. right. eauto. Qed.
Lemma local_bind {A B} (f : list byte -> out () (A * list byte)) (g : A -> list byte -> out () (B * list byte)) :
  local f -> (forall a, local (g a)) -> local (fun bs => q <~ f bs ;; g q.1 q.2).
Proof.
  intros Hf Hg bs x b rest E. destruct (f (bs ++ x)) as [[a r]| | |] eqn:Ef; try discriminate E. cbn [obind fst snd] in E.
  destruct (Hf _ _ _ _ Ef) as [->|(r'&->&->)]; [by left|]. cbn [obind fst snd]. exact (Hg a _ _ _ _ E).
Qed.
Lemma local_take n : local (take_bytes n).
Proof.
  intros bs x a rest E. unfold take_bytes in *. rewrite app_length in E. case_decide; [|done]. injection E as <- <-. case_decide; [|by left]. right.
  rewrite take_app_le, drop_app_le by done. eauto.
Qed.
Lemma local_scalar t : local (read_scalar t).
Proof. apply (local_bind (take_bytes (ty_size t)) (fun b rest => Ok (match t with UChar => SInt (of_le b) | Int => SInt (signed32 (of_le b)) | Float => SDbl (widen (of32 (of_le b))) | Double => SDbl (of64 (of_le b)) end, rest))); [apply local_take|intros; apply local_ok]. Qed.
Lemma local_list n t a r : local (read_list n t a r).
Proof.
  revert r. induction n as [|n IH]; intros r; [apply local_ok|]. cbn [read_list].
  apply (local_bind (read_scalar t) (fun s rest => r <~ (if is_face a then face_element r s else Ok r) ;; read_list n t a r rest)); [apply local_scalar|]. intros s bs x q rest E.
  destruct (if is_face a then face_element r s else Ok r) as [r'| | |]; try discriminate E. cbn [obind] in *. by eapply IH.
Qed.
Lemma local_prop pa r : local (read_prop pa r).
Proof.
  destruct pa as [[t nm|st t nm] a]; unfold read_prop; cbn [fst snd].
  - apply (local_bind (read_scalar t) (fun s rest => Ok (match a with Store tg idx scale => store r t s tg idx scale | _ => r end, rest))); [apply local_scalar|intros; apply local_ok].
  - apply (local_bind (read_scalar st) (fun s rest => match s with SInt n => let r := if is_face a then Reader (r_item r) (r_static r) 0 (r_tri r) else r in
      q <~ read_list (Z.to_nat n) t a r rest ;; Ok (if is_face a then Reader (Item (body (r_item q.1)) ((fun l => l ++ [r_tri q.1]) <$> faces (r_item q.1))) (r_static q.1) (r_idx q.1) (r_tri q.1) else q.1, q.2) | SDbl _ => Bad IllTyped end)); [apply local_scalar|].
    intros [n|d]; [|intros bs x b rest E; discriminate E]. cbv zeta.
    apply (local_bind (read_list (Z.to_nat n) t a (if is_face a then Reader (r_item r) (r_static r) 0 (r_tri r) else r))
      (fun q rest => Ok (if is_face a then Reader (Item (body (r_item q)) ((fun l => l ++ [r_tri q]) <$> faces (r_item q))) (r_static q) (r_idx q) (r_tri q) else q, rest))); [apply local_list|intros; apply local_ok].
Qed.
Lemma local_props l r : local (read_props l r).
Proof. revert r. induction l as [|p l IH]; intros r; [apply local_ok|]. apply (local_bind (read_prop p r) (read_props l)); [apply local_prop|exact IH]. Qed.
Lemma local_element n l r : local (read_element n l r).
Proof. revert r. induction n as [|n IH]; intros r; [apply local_ok|]. apply (local_bind (read_props l r) (read_element n l)); [apply local_props|exact IH]. Qed.
Lemma local_body es r : local (read_body es r).
Proof. revert r. induction es as [|e es IH]; intros r; [apply local_ok|]. apply (local_bind (read_element (Z.to_nat e.1) e.2 r) (read_body es)); [apply local_element|exact IH]. Qed.
(** A file of which bytes at the end are missing is never taken for a complete one: reading it throws. *)
Theorem C117_truncated m dp h bs bs' x : good_item m -> write m dp = Ok (h, bs) -> bs = bs' ++ x -> x <> [] -> forall st i t m0, read st i t m0 h bs' = Throw tt.
Proof.
  intros Hg Hw Hb Hx st i t m0. rewrite (write_good m dp Hg) in Hw. injection Hw as <- Hbs. subst bs.
  unfold read. destruct (read_good st i t m dp m0 [] Hg) as (st'&i'&t'&E). rewrite app_nil_r in E. destruct (define_all (header m dp) m0) as [m1 es]. cbn [fst snd] in E. rewrite Hb in E.
  destruct (local_body _ _ _ _ _ _ E) as [->|(r'&_&Hr)]; [done|]. symmetry in Hr. by apply app_eq_nil in Hr as [_ ?].
Qed.
(** An object with a different number of normals or colours than vertices is not written: saving throws. *)
Theorem C117_counts m dp : (exists l, normals (body m) = Some l /\ length l <> length (vertices (body m))) \/
    ((forall l, normals (body m) = Some l -> length l = length (vertices (body m))) /\ exists l, colors (body m) = Some l /\ length l <> length (vertices (body m))) ->
  write m dp = Throw tt.
Proof.
  unfold write. intros [(l&->&Hl)|(Hn&l&->&Hl)]. { by rewrite decide_False. }
  destruct (normals (body m)) as [n|]; [rewrite (decide_True _ _ (Hn n eq_refl))|]; cbn [obind]; by rewrite decide_False.
Qed.

(** ** What does not hold *)
Definition num (k : Z) : double := of_int k.
Definition point (a b c : Z) : vec := (num a, num b, num c).
Definition triangle : item := Item (Cloud [point 0 0 0; point 1 0 0; point 0 (-7) 2] (Some [point 0 0 1; point 0 0 1; point 0 0 1]) (Some [point 1 0 0; point 0 1 0; (get_probability 85, num 0, num 1)]) [("vertex_variance", [num 1; num 2; num 3])]) (Some [(0, 1, 2)]).
Lemma unit_0 : unit_interval (num 0).
Proof. split; [done|]. unfold num. rewrite of_int_small by lia. lra. Qed.
Lemma unit_1 : unit_interval (num 1).
Proof. split; [done|]. unfold num. rewrite of_int_small by lia. lra. Qed.
Lemma unit_85 : unit_interval (get_probability 85).
Proof. destruct (byte_facts_all 85 ltac:(lia)) as [Hf _ _ _]. split; [exact Hf|]. apply get_range. lia. Qed.
Lemma triangle_good : good_item triangle.
Proof.
  pose proof unit_0 as U0. pose proof unit_1 as U1. pose proof unit_85 as U85. split; [|split]; intros l E; injection E as <-; [done| |constructor; [cbn; unfold int32; lia|constructor]].
  split; [done|]. apply Forall_cons_2; [exact (conj U1 (conj U0 U0))|]. apply Forall_cons_2; [exact (conj U0 (conj U1 U0))|]. apply Forall_cons_2; [exact (conj U85 (conj U0 U1))|]. apply Forall_nil_2.
Qed.
Definition bits (v : vec) : Z * Z * Z := let '(x, y, z) := v in (bits64 x, bits64 y, bits64 z).
(** The hypotheses are met: a triangle with normals, colours and variances is written in 94 bytes (float) or 166 bytes (double), and comes back. *)
Example C117_nonvacuous : good_item triangle /\ (exists h bs, write triangle false = Ok (h, bs) /\ length bs = 94%nat) /\
  (exists h bs m', write triangle true = Ok (h, bs) /\ length bs = 166%nat /\ read (fun _ => point 5 5 5) 7 (7, 7, 7) (fresh triangle) h bs = Ok m' /\
    (bits <$> vertices (body m') = bits <$> vertices (body triangle)) /\ faces m' = Some [(0, 1, 2)]).
Proof.
  split; [apply triangle_good|]. split.
  - exists (header triangle false), (file_bytes triangle false). split; [apply write_good, triangle_good|vm_compute; reflexivity].
  - destruct (C117_load triangle true triangle_good) as (h&bs&Hw&Hr). pose proof (write_good triangle true triangle_good) as Hw'. rewrite Hw in Hw'. injection Hw' as -> ->.
    destruct (Hr (fun _ => point 5 5 5) 7 (7, 7, 7) (fresh triangle)) as (m'&cs&E&Hv&_&Hc&_&_&Hf). exists (header triangle true), (file_bytes triangle true), m'.
    split; [exact Hw|]. split; [vm_compute; reflexivity|]. split; [exact E|]. split; [rewrite Hv; done|]. rewrite Hf. done.
Qed.
(** Data of vertices other than normals and colours, as variances, is lost without an error. *)
Theorem C117_others_refuted : exists m, good_item m /\ others (body m) <> [] /\ forall dp, exists h bs, write m dp = Ok (h, bs) /\ forall st i t, exists m', read st i t (fresh m) h bs = Ok m' /\ others (body m') = [].
Proof.
  exists triangle. split; [apply triangle_good|]. split; [done|]. intros dp. destruct (C117_load triangle dp triangle_good) as (h&bs&Hw&Hr). exists h, bs. split; [exact Hw|]. intros st i t.
  destruct (Hr st i t (fresh triangle)) as (m'&cs&E&_&_&_&_&Ho&_). exists m'. split; [exact E|]. by rewrite Ho.
Qed.
(** A colour above 1 (or below 0, or not a number) is converted out of the range of unsigned char, which is undefined. *)
Theorem C117_color_refuted : forall dp, write (Item (Cloud [point 0 0 0] None (Some [point 2 0 0]) []) None) dp = Bad UB /\
  write (Item (Cloud [point 0 0 0] None (Some [point (-1) 0 0]) []) None) dp = Bad UB /\ write (Item (Cloud [point 0 0 0] None (Some [(BinarySingleNaN.B754_nan, num 0, num 0)]) []) None) dp = Bad UB.
Proof. intros dp. repeat split. Qed.
(** A mesh that is not empty keeps its vertices when a file is loaded, and the faces from the file then refer to them. *)
Theorem C117_nonempty_refuted : exists m m0, good_item m /\ good_item m0 /\ faces m = Some [(0, 1, 2)] /\ forall dp, exists h bs, write m dp = Ok (h, bs) /\ forall st i t, exists m', read st i t m0 h bs = Ok m' /\
  faces m' = Some [(0, 1, 2)] /\ vertices (body m) !! 0%nat = Some (point 0 0 0) /\ vertices (body m') !! 0%nat = Some (point 9 9 9).
Proof.
  set (m0 := Item (Cloud [point 9 9 9] (Some [point 0 0 1]) (Some [point 0 0 0]) []) (Some [])).
  exists triangle, m0. split; [apply triangle_good|]. split.
  { pose proof unit_0 as U0. split; [|split]; intros l E; injection E as <-; [done| |constructor]. split; [done|]. apply Forall_cons_2; [exact (conj U0 (conj U0 U0))|apply Forall_nil_2]. }
  split; [done|]. intros dp. destruct (C117_load triangle dp triangle_good) as (h&bs&Hw&Hr). exists h, bs. split; [exact Hw|]. intros st i t.
  destruct (Hr st i t m0) as (m'&cs&E&Hv&_&_&_&_&Hf). exists m'. split; [exact E|]. split; [by rewrite Hf|]. split; [done|]. by rewrite Hv.
Qed.
(** In files of other programs: vertices whose properties do not end with z are read wrongly. A file with the order z, y, x gives a vertex whose x and y are left from earlier vertices. *)
Theorem C117_order_refuted x y z : forall st i t m0, exists m',
  read st i t m0 [Elem "vertex" 1 [PScalar Double "z"; PScalar Double "y"; PScalar Double "x"]] (put true z ++ put true y ++ put true x) = Ok m' /\
  vertices (body m') = vertices (body m0) ++ [((st Double).1.1, (st Double).1.2, z)].
Proof.
  intros st i t m0. unfold read. change (define_all _ m0) with (m0, [(1, [(PScalar Double "z", Store TVertex 2 false); (PScalar Double "y", Store TVertex 1 false); (PScalar Double "x", Store TVertex 0 false)])]).
  cbn [read_body fst snd]. change (Z.to_nat 1) with 1%nat. cbn [read_element read_props]. unfold read_prop. cbn [fst snd].
  change Double with (prec_ty true). rewrite read_put. cbn [obind fst snd]. rewrite read_put. cbn [obind fst snd]. rewrite <-(app_nil_r (put true x)), read_put. cbn [obind fst snd]. eexists. split; [reflexivity|].
  cbn. by destruct (st Double) as [[a b] c].
Qed.
(** A face with four corners becomes the triangle of the first three, and one with two corners gets a third one from whatever face was read before. Both are only reported on the error output. *)
Theorem C117_corners_refuted a b c d : int32 a -> int32 b -> int32 c -> int32 d -> forall st i x y z m0 fs, faces m0 = Some fs ->
  let word k := le 4 (k mod 4294967296) in
  (exists m', read st i (x, y, z) m0 [Elem "face" 1 [PList UChar Int "vertex_index"]] (4 :: word a ++ word b ++ word c ++ word d) = Ok m' /\ faces m' = Some (fs ++ [(a, b, c)])) /\
  (exists m', read st i (x, y, z) m0 [Elem "face" 1 [PList UChar Int "vertex_index"]] (2 :: word a ++ word b) = Ok m' /\ faces m' = Some (fs ++ [(a, b, z)])).
Proof.
  intros Ha Hb Hc Hd st i x y z m0 fs Hf word. unfold read. assert (Ed : define_all [Elem "face" 1 [PList UChar Int "vertex_index"]] m0 = (m0, [(1, [(PList UChar Int "vertex_index", Face)])])).
  { cbn. unfold define_list. rewrite decide_True by (by rewrite Hf). done. }
  rewrite Ed. cbn [read_body fst snd]. change (Z.to_nat 1) with 1%nat. cbn [read_element read_props]. unfold read_prop. cbn [fst snd]. rewrite !read_byte. cbn [obind fst snd is_face r_item r_static r_tri].
  split.
  - change (Z.to_nat 4) with 4%nat. rewrite <-(app_nil_r (word d)). cbn [read_list is_face]. unfold word. rewrite read_int by done. cbn [obind fst snd face_element r_tri r_idx r_item r_static decide].
    rewrite read_int by done. cbn [obind fst snd face_element r_tri r_idx r_item r_static]. rewrite read_int by done. cbn [obind fst snd face_element r_tri r_idx r_item r_static]. rewrite read_int by done. cbn [obind fst snd face_element r_tri r_idx r_item r_static].
    eexists. split; [reflexivity|]. cbn. by rewrite Hf.
  - change (Z.to_nat 2) with 2%nat. rewrite <-(app_nil_r (word b)). cbn [read_list is_face]. unfold word. rewrite read_int by done. cbn [obind fst snd face_element r_tri r_idx r_item r_static decide].
    rewrite read_int by done. cbn [obind fst snd face_element r_tri r_idx r_item r_static].
    eexists. split; [reflexivity|]. cbn. by rewrite Hf.
Qed.
(** A cloud that was copied from a sample without colours has an empty list of colours and cannot be saved; neither can a cloud with colours or normals after the points of another cloud have been copied to it. *)
Theorem C117_copy_refuted : (forall points c f dp, points <> [] -> (forall l, normals c = Some l -> False) -> write (Item (copy_sample points [] c) f) dp = Throw tt) /\
  (forall g source c f dp, vertices source <> [] -> is_Some (normals c) -> write (Item (copy_cloud g source c) f) dp = Throw tt).
Proof.
  split.
  - intros points c f dp Hp Hn. apply C117_counts. right. cbn. split. { intros l E. destruct (normals c) as [l'|]; [by destruct (Hn l')|done]. }
    exists []. split; [by destruct (colors c)|]. by destruct points.
  - intros g source c f dp Hp [l Hl]. apply C117_counts. left. exists []. cbn. rewrite Hl. split; [done|]. rewrite fmap_length. by destruct (vertices source).
Qed.
