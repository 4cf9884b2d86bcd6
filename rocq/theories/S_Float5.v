(** Vocabulary for rounding in differential Klein-Nishina cross sections. *)
From Coq Require Import Reals List ZArith.
From Flocq Require Import Core.
From Verif Require Import Py M_Num M_KleinNishina M_Float S_Float M_Float2 M_Float5.
Import ListNotations.
Open Scope R_scope.

(** Absolute errors of a few units in the last place of 1; sines, cosines and their squares do not leave [-1, 1]. *)
Definition alib_ok (m : alib) : Prop :=
  (forall x, double x -> double (a_cos m x) /\ Rabs (a_cos m x) <= 1 /\ Rabs (a_cos m x - cos x) <= 2 * unit_roundoff) /\
  (forall x, double x -> double (a_sin m x) /\ Rabs (a_sin m x) <= 1 /\ Rabs (a_sin m x - sin x) <= 2 * unit_roundoff) /\
  (forall x, double x -> Rabs x <= 1 -> double (a_square m x) /\ 0 <= a_square m x <= 1 /\ Rabs (a_square m x - x ^ 2) <= 2 * unit_roundoff).
Definition correct_alib : alib :=
  {| a_cos := fun x => rnd (cos x); a_sin := fun x => rnd (sin x); a_square := fun x => rnd (x ^ 2); a_acos := fun x => rnd (acos x) |}.

(** A mass and a scale factor in a range of 200 binary orders of magnitude. *)
Definition kn_floats (k : constants) (c : kn) : Prop :=
  / 2 ^ 100 <= k_me k <= 2 ^ 100 /\ / 2 ^ 100 <= kn_scale_factor c <= 2 ^ 100.
(** Errors of the arc cosine up to a unit in the last place of a number between 2 and 4. *)
Definition acos_ok (m : alib) : Prop :=
  forall x, double x -> -1 <= x <= 1 -> double (a_acos m x) /\ Rabs (a_acos m x - acos x) <= 4 * unit_roundoff.
