(** Common vocabulary of all models: exceptions as values, Python dicts as
    association lists in insertion order, Python strings and [str.split(".")]. *)
From Coq Require Import String Ascii List Bool Arith Lia ZArith.
Import ListNotations.
Open Scope string_scope.
Open Scope list_scope.

(** Python exceptions that the modelled code raises. *)
Inductive err :=
| ValueError | KeyError | IndexError | TypeError | AttributeError
| NotImplementedError | RuntimeError | RecursionError | ZeroDivisionError | NameError.

Inductive result (A : Type) :=
| Ok (a : A)
| Err (e : err).
Arguments Ok {A} a.
Arguments Err {A} e.

Definition bind {A B} (r : result A) (f : A -> result B) : result B :=
  match r with Ok a => f a | Err e => Err e end.

Definition is_ok {A} (r : result A) : bool :=
  match r with Ok _ => true | Err _ => false end.

(** A Python [for x in l: st = body(st, x)] whose body may raise. *)
Fixpoint fold_res {A S} (f : S -> A -> result S) (s : S) (l : list A) : result S :=
  match l with
  | [] => Ok s
  | x :: l' => match f s x with Ok s' => fold_res f s' l' | Err e => Err e end
  end.

(** ** Python dicts with string keys (insertion ordered). *)
Definition dict (V : Type) := list (string * V).

Fixpoint dget {V} (k : string) (d : dict V) : option V :=
  match d with
  | [] => None
  | (k', v) :: d' => if String.eqb k k' then Some v else dget k d'
  end.

Definition dmem {V} (k : string) (d : dict V) : bool :=
  match dget k d with Some _ => true | None => false end.

(** [d[k] = v]: overwrite in place, or append a new key at the end. *)
Fixpoint dset {V} (k : string) (v : V) (d : dict V) : dict V :=
  match d with
  | [] => [(k, v)]
  | (k', v') :: d' => if String.eqb k k' then (k', v) :: d' else (k', v') :: dset k v d'
  end.

(** [del d[k]]. *)
Fixpoint ddel {V} (k : string) (d : dict V) : dict V :=
  match d with
  | [] => []
  | (k', v') :: d' => if String.eqb k k' then d' else (k', v') :: ddel k d'
  end.

Definition dkeys {V} (d : dict V) : list string := map fst d.

(** Python sets of strings, as duplicate free lists. *)
Definition smem (k : string) (l : list string) : bool := existsb (String.eqb k) l.
Definition sadd (k : string) (l : list string) : list string :=
  if smem k l then l else l ++ [k].

(** ** Strings. *)
Definition dot : ascii := "."%char.

(** ["." in s] *)
Fixpoint has_dot (s : string) : bool :=
  match s with
  | EmptyString => false
  | String c s' => if Ascii.eqb c dot then true else has_dot s'
  end.

(** [s.split(".")]: always a non-empty list of pieces. *)
Fixpoint split_dot (s : string) : list string :=
  match s with
  | EmptyString => [EmptyString]
  | String c s' =>
      if Ascii.eqb c dot then EmptyString :: split_dot s'
      else match split_dot s' with
           | [] => [String c EmptyString]
           | t :: ts => String c t :: ts
           end
  end.
