(** Vocabulary for rounding in the total Klein-Nishina cross section. *)
From Coq Require Import Reals List ZArith.
From Flocq Require Import Core.
From Verif Require Import Py M_Num M_KleinNishina M_Float S_Float M_Float2.
Open Scope R_scope.

(** Numbers far away from underflow and overflow. *)
Definition moderate (x : R) : Prop := / 2 ^ 100 <= x <= 2 ^ 100.
(** Relative errors of a few units in the last place, and floats as results; [log] gives 0 at 1. *)
Definition libm_ok (m : libm) : Prop :=
  m_log m 1 = 0 /\
  (forall y, double y -> 1 <= y -> double (m_log m y) /\ Rabs (m_log m y - ln y) <= 2 * unit_roundoff * ln y) /\
  (forall y, double y -> 1 <= y -> double (m_square m y) /\ Rabs (m_square m y - y ^ 2) <= 2 * unit_roundoff * y ^ 2) /\
  (forall x, double x -> moderate x -> double (m_pow_m3 m x) /\ Rabs (m_pow_m3 m x - / x ^ 3) <= 4 * unit_roundoff * / x ^ 3).
(** Cross section in the limit of low energies. *)
Definition thomson_limit (c : kn) : R := 8 * PI / 3 * kn_scale_factor c.
