(** Vocabulary for the properties with rounding. *)
From Coq Require Import Reals List ZArith Permutation.
From Flocq Require Import Core.
From Verif Require Import Py Spec M_Num M_CrossSection M_Float.
Import ListNotations.
Open Scope R_scope.

(** Unit roundoff, and half of the smallest positive number. *)
Definition unit_roundoff : R := / 2 ^ 53.
Definition half_smallest : R := / 2 ^ 1075.

(** The float that an operand gives at an energy: a number counts as a constant cross section. *)
Definition float_at (v : value) (E : R) : out R :=
  match v with VNum r => Ok r | _ => fcall v E end.
Definition double_result (x : out R) : Prop := match x with Ok r => double r | _ => True end.
Definition is_sum (v : value) : Prop := match v with VSum _ _ => True | _ => False end.
(** Cross sections other than sums. *)
Definition is_plain (v : value) : Prop := match v with VLeaf _ | VConst _ => True | _ => False end.

(** Sum of the magnitudes. *)
Definition total_magnitude (l : list R) : R := Rsum (map Rabs l).

(** The order of summation [t] takes each of [n] elements once. *)
Definition order_of (n : nat) (t : option order) : Prop :=
  match t with None => n = 0%nat | Some t => Permutation (indices t) (seq 0 n) end.
(** Largest number of additions that an element takes part in. *)
Definition depth_of (t : option order) : nat := match t with None => 0 | Some t => height t end.

(** What the rounded sum of [n] products of a value and a difference, added with depth [h], can be off by:
    [W] is the sum of the exact magnitudes, the values have a relative error of up to [delta]. *)
Definition rounding_bound (h n : nat) (delta W : R) : R :=
  ((1 + unit_roundoff) ^ (h + 2) * (1 + delta) - 1) * W + INR n * ((1 + unit_roundoff) ^ h * half_smallest).
(** Riemann sum with the larger of the magnitudes at both ends of each cell. *)
Definition magnitude_sum (fx x : list R) : R :=
  Rsum (map2 (fun p q => Rmax (Rabs (fst p)) (Rabs (snd p)) * (snd q - fst q)) (cells fx) (cells x)).

(** Grids of floats. *)
Definition grid (x : list R) : Prop := ascending x /\ Forall double x.
(** The distance of the points is not subnormal. *)
Definition no_underflow (a b : R) (n : Z) : Prop := a = b \/ bpow radix2 (-1022) * IZR (n - 1) <= b - a.

Definition oneg (x : out R) : out R := match x with Ok r => Ok (- r) | NaN => NaN | Raise e => Raise e end.
Definition factors_double (v : value) : Prop := match v with VSum _ ss => Forall double ss | _ => True end.
