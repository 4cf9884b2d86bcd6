(** Vocabulary for C15-C17: iterated integrals in the order of scipy.integrate.nquad. *)
From Coq Require Import Reals List.
From Coquelicot Require Import Coquelicot.
From Verif Require Import Py.
Import ListNotations.
Open Scope R_scope.

(** [iterated rs f args]: [rs] lists the ranges from the outermost to the innermost coordinate (the
    outermost is the last one, the innermost the first one), [args] the coordinates already fixed. *)
Fixpoint iterated (rs : list (R * R)) (f : list R -> R) (args : list R) : R :=
  match rs with
  | [] => f args
  | (a, b) :: rest => RInt (fun t => iterated rest f (t :: args)) a b
  end.

(** All the integrals involved exist. *)
Fixpoint integrable (rs : list (R * R)) (f : list R -> R) (args : list R) : Prop :=
  match rs with
  | [] => True
  | (a, b) :: rest => ex_RInt (fun t => iterated rest f (t :: args)) a b /\
      forall t, Rmin a b <= t <= Rmax a b -> integrable rest f (t :: args)
  end.

(** The integral of f over the box given by the ranges of coordinate 0, 1, 2, ... *)
Definition box_integral (f : list R -> R) (ranges : list (R * R)) : R := iterated (rev ranges) f [].
Definition box_integrable (f : list R -> R) (ranges : list (R * R)) : Prop := integrable (rev ranges) f [].

(** An integration routine that is exact on the functions and boxes it is used with. *)
Definition exact_on (nquad : (list R -> R) -> list (R * R) -> out (R * R)) f ranges : Prop :=
  exists err, nquad f ranges = Ok (box_integral f ranges, err).

(** An integration routine whose reported error bounds the true one. *)
Definition honest_on (nquad : (list R -> R) -> list (R * R) -> out (R * R)) f ranges : Prop :=
  exists v err, nquad f ranges = Ok (v, err) /\ Rabs (v - box_integral f ranges) <= err.
