(** Vocabulary for rounding in the functions of the notebooks (C111). *)
From Coq Require Import Reals.
From Verif Require Import Py M_Notebook M_Float S_Float.
Open Scope R_scope.

(** Exponential functions with an error of two units. *)
Definition exp_accurate (ex : R -> R) : Prop := forall x, double x -> -200 <= x <= 0 -> double (ex x) /\ Rabs (ex x - exp x) <= 2 * unit_roundoff * exp x.
(** Ones that increase, never negative, and are 1 at 0. *)
Definition exp_rising (ex : R -> R) : Prop :=
  ex 0 = 1 /\ (forall x, double x -> 0 <= ex x) /\ forall x y, double x -> double y -> x <= y -> ex x <= ex y.
(** A computed cross section with the relative error [delta] at one energy. *)
Definition close_value (delta : R) (f : cross_section) (E : R) (g : cross_section) (E' : R) : Prop :=
  exists v s, f E = Ok v /\ g E' = Ok s /\ double v /\ 0 <= v /\ 0 <= s /\ Rabs (v - s) <= delta * s.
(** Error of an optical depth [tau] from cross sections with that error, for the areal density [rho]: the last term is underflow. *)
Definition depth_error (delta rho tau : R) : R := (delta + 4 * unit_roundoff) * tau + 2 * half_smallest * (rho + 1).
