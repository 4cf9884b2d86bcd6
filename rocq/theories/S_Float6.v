(** Vocabulary for rounding in coverage intervals and probability grids. *)
From Coq Require Import Reals List ZArith.
From Coquelicot Require Import Rbar.
From Verif Require Import Py M_Num M_Dist M_Float S_Float M_Float6.
Import ListNotations.
Open Scope R_scope.

(** The two line shapes: exact cumulative distribution functions. *)
Inductive family := Cauchy | Normal.
Definition line_cdf (f : family) : R -> R -> R -> R := match f with Cauchy => cauchy_cdf | Normal => norm_cdf end.
(** Library functions with errors of a few units in the last place of 1, in terms of probability. *)
Definition fdist_ok (f : family) (d : fdist) : Prop :=
  (forall t, double t -> double (f_cdf0 d t) /\ 0 <= f_cdf0 d t <= 1 /\ Rabs (f_cdf0 d t - line_cdf f 0 1 t) <= 4 * unit_roundoff) /\
  (forall q, double q -> 0 < q < 1 -> double (f_ppf0 d q) /\ Rabs (line_cdf f 0 1 (f_ppf0 d q) - q) <= 8 * unit_roundoff).
(** A line with moderate numbers. *)
Definition fline (l s : R) : Prop := double l /\ double s /\ / 2 ^ 200 <= s.
(** What rounding contributes to a probability: the location of a narrow line has few digits left for it. *)
Definition blur (l s : R) : R := (32 + Rabs l / s) * unit_roundoff.

(** Finite points. *)
Definition finite_points (g : list Rbar) (xs : list R) : Prop := g = map Finite xs.
(** Cumulative probabilities of the points, equidistant from [p] to [q] up to [e]. *)
Definition equidistant_to (F : R -> R) (p q : R) (n : Z) (e : R) (xs : list R) : Prop :=
  length xs = Z.to_nat n /\
  forall i, (i < Z.to_nat n)%nat -> Rabs (F (nth i xs 0) - (p + INR i * ((q - p) / IZR (n - 1)))) <= e.
(** Library functions that round correctly. *)
Definition correct_fdist (f : family) : fdist :=
  {| f_cdf0 := fun t => rnd (line_cdf f 0 1 t); f_ppf0 := fun q => rnd (real (quantile (line_cdf f 0 1) q)) |}.
