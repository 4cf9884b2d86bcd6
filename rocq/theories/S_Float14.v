(** Vocabulary for rounding in Darboux integrals of Voigt profiles. *)
From Coq Require Import Reals List.
From Verif Require Import Py M_Num M_PseudoVoigt M_Float S_Float S_Float12.
Open Scope R_scope.

(** The relative error of a call at [x] is at most [delta]: [x] is not too many natural widths, or not too many Doppler widths, away from
    the resonance energy [E]. *)
Definition voigt_error (p : pv) (eps E delta x : R) : Prop :=
  Rabs (x - E) <= 2 ^ 40 * pv_gamma p /\ 2 * eps + (42 + 10 * (Rabs (x - E) / pv_gamma p)) * unit_roundoff <= delta \/
  0 < pv_sigma p /\ Rabs (x - E) <= 2 ^ 20 * pv_sigma p /\ 2 * eps + (42 + 10 * ((x - E) / pv_sigma p) ^ 2) * unit_roundoff <= delta.
(** [y] is so close to the resonance energy, compared to one of the widths, that the maximum is at most [1 + k] times the value at [y]. *)
Definition near_centre (p : pv) (E k y : R) : Prop :=
  (exists z, 0 <= z /\ Rabs (y - E) <= z * pv_gamma p /\ z + z ^ 2 <= k) \/
  0 < pv_sigma p /\ (y - E) ^ 2 <= k * pv_sigma p ^ 2 /\ k <= 1.
(** The lower sum [S] and the difference [D] of a partition with [n] cells enclose the integral [J] up to rounding. *)
Definition encloses (h n : nat) (delta k J S D : R) : Prop :=
  S <= (1 + relative_loss h delta) * J + absolute_loss h n /\
  (1 - relative_loss h delta) * J <= (1 + k) * (S + (1 + 2 * unit_roundoff) * D + absolute_loss h n).
