(** Shared basic definitions: outcomes of C++ calls and association lists that
    stand for [std::map] / [std::multimap]. *)
From Coq Require Import ZArith Ascii String.
From stdpp Require Import prelude strings pretty.


(** ** Outcomes

    [Ok]    : the call returned.
    [Throw] : a C++ exception left the call; the state at that moment is kept.
    [Bad]   : undefined behaviour ([UB]), a failed [assert] ([Abort]) or a call that the
              C++ type checker would reject ([IllTyped], only used for operations of the
              modelled user programs).
    [NoFuel]: the step budget of a loop or recursion was exhausted (models divergence when
              the budget is provably sufficient for every terminating run). *)
Inductive bad := UB | Abort | IllTyped.

Inductive out (S A : Type) :=
| Ok (a : A)
| Throw (s : S)
| Bad (b : bad)
| NoFuel.
Arguments Ok {S A} a.
Arguments Throw {S A} s.
Arguments Bad {S A} b.
Arguments NoFuel {S A}.

Definition obind {S A B} (m : out S A) (f : A -> out S B) : out S B :=
  match m with
  | Ok a => f a
  | Throw s => Throw s
  | Bad b => Bad b
  | NoFuel => NoFuel
  end.
Notation "x <~ m ;; k" := (obind m (fun x => k))
  (at level 100, m at next level, right associativity).

(** Run an action for each element of a list, left to right (a C++ [for] loop over a container
    that is not modified meanwhile). *)
Fixpoint iter_out {S A} (f : A -> S -> out S S) (l : list A) (s : S) : out S S :=
  match l with
  | [] => Ok s
  | x :: r => s1 <~ f x s ;; iter_out f r s1
  end.

(** ** Association lists *)
Section Assoc.
  Context {K V : Type} `{!EqDecision K} `{!EqDecision V}.

  (** [map::find], [multimap::find] (libstdc++ returns the first of several equal keys). *)
  Fixpoint assoc (k : K) (l : list (K * V)) : option V :=
    match l with
    | [] => None
    | (k', v) :: r => if decide (k = k') then Some v else assoc k r
    end.

  (** [multimap::insert]: at the end of the range of keys not greater than [k]. *)
  Fixpoint ins (ltb : K -> K -> bool) (k : K) (v : V) (l : list (K * V)) : list (K * V) :=
    match l with
    | [] => [(k, v)]
    | (k', v') :: r => if ltb k k' then (k, v) :: l else (k', v') :: ins ltb k v r
    end.

  (** [map::insert]: does nothing if the key is present. *)
  Definition map_ins (ltb : K -> K -> bool) (k : K) (v : V) (l : list (K * V)) :=
    match assoc k l with Some _ => l | None => ins ltb k v l end.

  (** [map::erase(key)], [multimap::erase(key)]. *)
  Definition del_key (k : K) (l : list (K * V)) : list (K * V) :=
    filter (fun kv => kv.1 <> k) l.

  (** [map[key] = value]. *)
  Definition map_set (ltb : K -> K -> bool) (k : K) (v : V) (l : list (K * V)) :=
    ins ltb k v (del_key k l).

  (** erase the first entry equal to [(k,v)] (erase by iterator of the first match). *)
  Fixpoint del_one (k : K) (v : V) (l : list (K * V)) : list (K * V) :=
    match l with
    | [] => []
    | kv :: r => if decide (kv = (k, v)) then r else kv :: del_one k v r
    end.

  (** erase every entry equal to [(k,v)]. *)
  Definition del_all (k : K) (v : V) (l : list (K * V)) : list (K * V) :=
    filter (fun kv => kv <> (k, v)) l.

  (** values stored under a key, in iteration order. *)
  Definition values_of (k : K) (l : list (K * V)) : list V :=
    (filter (fun kv => kv.1 = k) l).*2.

  (** keys mapped to a value, in iteration order. *)
  Definition keys_of (v : V) (l : list (K * V)) : list K :=
    (filter (fun kv => kv.2 = v) l).*1.
End Assoc.

(** ** Strings *)
(** first and last character of a non-empty string *)
Definition first_char (s : string) : option ascii :=
  match s with EmptyString => None | String c _ => Some c end.

Fixpoint last_char (s : string) : option ascii :=
  match s with
  | EmptyString => None
  | String c EmptyString => Some c
  | String _ r => last_char r
  end.

Definition slash : ascii := "/"%char.

(** [std::string::operator<]: lexicographic on bytes. *)
Definition str_ltb (a b : string) : bool :=
  match String.compare a b with Lt => true | _ => false end.
