(** Vocabulary for rounding in grids of pseudo-Voigt lines. *)
From Coq Require Import Reals List ZArith.
From Verif Require Import Py M_Num M_Resonance M_PseudoVoigt M_Float S_Float S_Float12.
Import ListNotations.
Open Scope R_scope.

(** How far the probability at a computed quantile [x] can be from the one that was asked for: rounding, the tolerance
    of the root finder in MeV and the spacing of the floats, both compared to the width of the line. *)
Definition pv_blur (p : pv) (x : R) : R := / 2 ^ 43 + (5 / 10 ^ 8 + Rabs x / 2 ^ 50) / pv_Gamma p.
(** Points whose exact probabilities are equidistant from [P] to [Q], up to that. *)
Definition pv_equidistant (p : pv) (P Q : R) (n : Z) (xs : list R) : Prop :=
  length xs = Z.to_nat n /\
  forall i, (i < Z.to_nat n)%nat -> exists F, pv_cdf p (nth i xs 0) = Ok F /\
    Rabs (F - (P + INR i * ((Q - P) / IZR (n - 1)))) <= pv_blur p (nth i xs 0).
(** [S_Float12.integral_between] for a pseudo-Voigt line. *)
Definition pv_integral_between (h n : nat) (delta c e o I L d : R) : Prop :=
  L <= (1 + relative_loss h delta) * ((c + e) * I) + absolute_loss h n /\
  (1 - relative_loss h delta) * ((c - e) * I) <= (1 + 196 * o ^ 2) * (L + (1 + 2 * unit_roundoff) * d + absolute_loss h n).
(** Conditions under which all quantiles with probability [2 s] on both sides are found: energies and widths in MeV. *)
Definition easy_line (p : pv) (E s : R) : Prop :=
  / 300 <= s <= 1 / 4 /\ pv_Gamma p <= 7 * 10 ^ 3 * s ^ 6 /\ E <= 2 * 10 ^ 7 * s ^ 4 /\ E <= 10 ^ 14 * (s ^ 2 * pv_Gamma p).
(** Then the points are known well enough to bound [pv_blur] in terms of the line alone. *)
Definition line_blur (p : pv) (E : R) : R := / 2 ^ 33 + (6 / 10 ^ 8 + E / 2 ^ 50) / pv_Gamma p.
