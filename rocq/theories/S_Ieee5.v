(** Vocabulary for coverage intervals and grids with infinities and nan. *)
From Coq Require Import Reals List ZArith.
From Coquelicot Require Import Rbar.
From Flocq Require Import Core BinarySingleNaN.
From Verif Require Import Py M_Num M_Dist M_Grid M_Float S_Float M_Float6 S_Float6 M_Ieee M_Ieee5 S_Ieee.
Import ListNotations.
Open Scope R_scope.

(** An infinity for a number of [2 ^ n] or more with its sign. *)
Definition beyond (n : nat) (b : b64) (x : R) : Prop := exists s, b = B754_infinity s /\ 2 ^ n <= (if s then - x else x).
(** The same numbers in both arithmetics, with overflow of quantiles. *)
Definition same_dist (B : bdist) (d : fdist) : Prop :=
  (forall b x, rep b x -> rep (b_cdf0 B b) (f_cdf0 d x)) /\
  (forall b x, rep b x -> 0 < x < 1 -> rep (b_ppf0 B b) (f_ppf0 d x) \/ beyond 1023 (b_ppf0 B b) (f_ppf0 d x)).
(** The same point: the number, or an infinity for itself or for a number of [2 ^ 900] or more with its sign. *)
Definition same_point (b : b64) (x : Rbar) : Prop :=
  match x with
  | Finite r => rep b r \/ beyond 900 b r
  | p_infty => b = B754_infinity false
  | m_infty => b = B754_infinity true
  end.
(** Location and scale of a line, an energy. *)
Definition same_line (bl bs : b64) (l s : R) : Prop := rep bl l /\ rep bs s /\ Rabs l <= 2 ^ 900 /\ / 2 ^ 100 <= s.
Definition same_energy (b : b64) (x : R) : Prop := rep b x /\ Rabs x <= 2 ^ 900.
Definition same_arg (b : bgrid_arg) (a : grid_arg) : Prop :=
  match b, a with
  | BCoverage c, Coverage c' => rep c c' /\ Rabs c' <= 2 ^ 900
  | BLimits a b, Limits a' b' => same_energy a a' /\ same_energy b b'
  | _, _ => False
  end.
(** The ends of an interval. *)
Definition same_pair (p : b64 * b64) (q : Rbar * Rbar) : Prop := same_point (fst p) (fst q) /\ same_point (snd p) (snd q).
(** A line with a location and a positive scale, and one without. *)
Definition whole (l s : b64) : Prop := (finite l /\ finite s) /\ Bltb (of_Z 0) s = true.
Definition broken (l s : b64) : Prop := Bltb (of_Z 0) s = false \/ l = B754_nan.
(** Library functions that round correctly. *)
Definition correct_bdist (f : family) : bdist :=
  {| b_cdf0 := fun b => of_R (line_cdf f 0 1 (B2R b)); b_ppf0 := fun b => of_R (real (quantile (line_cdf f 0 1) (B2R b))) |}.
