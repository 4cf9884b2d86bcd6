(** Fragments of the Python runtime: outcomes of calls and dictionaries. *)
From Coq Require Import List String ZArith Bool.
Import ListNotations.

(** Exceptions that the modelled code can raise. *)
Inductive exn :=
  | TypeError | ValueError | KeyError | IndexError | ZeroDivisionError
  | AttributeError | NotImplementedError | UnboundLocalError | RuntimeError
  | RecursionError | OverflowError.

(** Outcome of a Python call: it returns a value, it returns the floating-point value nan
    (the numpy/scipy convention for invalid parameters, no exception), or it raises. *)
Inductive out (A : Type) :=
  | Ok (a : A)
  | NaN
  | Raise (e : exn).
Arguments Ok {A} a.
Arguments NaN {A}.
Arguments Raise {A} e.

Definition bind {A B} (x : out A) (f : A -> out B) : out B :=
  match x with Ok a => f a | NaN => NaN | Raise e => Raise e end.

Declare Scope py_scope.
Delimit Scope py_scope with py.
Notation "'let!' x ':=' e 'in' k" := (bind e (fun x => k))
  (at level 200, x pattern, e at level 200, k at level 200) : py_scope.
Open Scope py_scope.

Definition omap {A B} (f : A -> B) (x : out A) : out B :=
  bind x (fun a => Ok (f a)).

(** Evaluate a list of calls from left to right, stop at the first one that does not return. *)
Fixpoint sequence {A} (l : list (out A)) : out (list A) :=
  match l with
  | [] => Ok []
  | x :: r => let! a := x in let! b := sequence r in Ok (a :: b)
  end.

(** [sequence] of a mapped list: the list comprehension [[f(x) for x in l]]. *)
Definition traverse {A B} (f : A -> out B) (l : list A) : out (list B) :=
  sequence (map f l).

(** Python dictionaries with string keys, in insertion order. *)
Definition dict (V : Type) := list (string * V).

(** [d[k]], [None] stands for KeyError. *)
Fixpoint dget {V} (d : dict V) (k : string) : option V :=
  match d with
  | [] => None
  | (k', v) :: r => if String.eqb k k' then Some v else dget r k
  end.

(** [d[k] = v]: replaces the value in place or appends the key. *)
Fixpoint dset {V} (d : dict V) (k : string) (v : V) : dict V :=
  match d with
  | [] => [(k, v)]
  | (k', v') :: r => if String.eqb k k' then (k', v) :: r else (k', v') :: dset r k v
  end.

Definition dkeys {V} (d : dict V) : list string := map fst d.
Definition dvalues {V} (d : dict V) : list V := map snd d.

(** Every dictionary that Python code can build has distinct keys. *)
Definition dict_ok {V} (d : dict V) : Prop := NoDup (dkeys d).

(** [d[k]] as an outcome. *)
Definition dgetE {V} (d : dict V) (k : string) : out V :=
  match dget d k with Some v => Ok v | None => Raise KeyError end.
