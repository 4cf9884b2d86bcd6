(** ries/integration/quad_partition.py. *)
From Coq Require Import Reals List ZArith.
From Coquelicot Require Import Rbar.
From Verif Require Import Py Spec M_Num.
Import ListNotations.
Open Scope R_scope.

(** Kinds of the optional argument [x1_to_xn_minus_1]: omitted, a list of pairs, or a 2d array. *)
Inductive limits_arg :=
  | LNone
  | LList (l : list (R * R))
  | LArray (l : list (R * R)).

(** quad_partition.py:70 [x1_to_xn_minus_1 or []]: the truth value of a numpy array with more than
    one element raises ValueError; an empty array is false (with a deprecation warning).  A
    (k, 2) array has 2k elements. *)
Definition or_empty (a : limits_arg) : out (list (R * R)) :=
  match a with
  | LNone => Ok []
  | LList l => Ok l
  | LArray [] => Ok []
  | LArray _ => Raise ValueError
  end.

(** quad_partition.py:54-77.  [nquad f ranges] is scipy's routine: it returns a value and an error
    estimate, or raises; it is a parameter.  [f] takes the list of coordinates. *)
Definition quad_partition (nquad : (list R -> R) -> list (R * R) -> out (R * R))
    (f : list R -> R) (x0 : list R) (rest : limits_arg) : out (R * R) :=
  let! ranges := or_empty rest in
  let! parts := traverse (fun i => nquad f ((nth i x0 0, nth (S i) x0 0) :: ranges))
                         (seq 0 (length x0 - 1)) in
  let integral := fold_left (fun acc p => acc + fst p) parts 0 in
  let uncertainty := fold_left (fun acc p => acc + snd p * snd p) parts 0 in
  Ok (integral, sqrt uncertainty).
