(** Vocabulary for Darboux integrals of lines over their probability grids, with rounding. *)
From Coq Require Import Reals List ZArith.
From Verif Require Import Py M_Num M_Float S_Float S_Float6.
Import ListNotations.
Open Scope R_scope.

(** Relative and absolute rounding error of a sum of [n] products with depth [h], all of one sign, whose values have
    a relative error of up to [delta]; see [S_Float.rounding_bound]. *)
Definition relative_loss (h : nat) (delta : R) : R := (1 + unit_roundoff) ^ (h + 2) * (1 + delta) - 1.
Definition absolute_loss (h n : nat) : R := INR n * ((1 + unit_roundoff) ^ h * half_smallest).
(** How far the point next to the maximum of a line can be from it, in terms of probability: a grid with an odd number
    of points has one at the maximum, up to rounding [e]. *)
Definition offset (c : R) (n : Z) (e : R) : R := e + if Z.odd n then 0 else c / (2 * IZR (n - 1)).
(** The integral [I] of a line with the coverage [c], up to [e], between the rounded lower sum [L] and the rounded
    upper sum [L + d]; the grid misses the maximum by [o]. *)
Definition integral_between (h n : nat) (delta c e o I L d : R) : Prop :=
  L <= (1 + relative_loss h delta) * ((c + e) * I) + absolute_loss h n /\
  (1 - relative_loss h delta) * ((c - e) * I) <= (1 + 49 * o ^ 2) * (L + (1 + 2 * unit_roundoff) * d + absolute_loss h n).
