(** Vocabulary for rounding in the layered target of a notebook (C113). *)
From Coq Require Import Reals.
From Verif Require Import Py M_Notebook M_Float S_Float S_Float15 M_Float14.
Open Scope R_scope.

(** A target with cross sections [n], [p] and [q] at the energy [E]; nothing is negative. *)
Definition target_at (t : ftarget) (E n p q : R) : Prop :=
  f_nr t E = Ok n /\ f_116 t E = Ok p /\ f_112 t E = Ok q /\ 0 <= n /\ 0 <= p /\ 0 <= q /\ 0 <= f_enrichment_116 t /\ 0 <= f_enrichment_112 t /\
  double (f_I t) /\ double (f_II t) /\ double (f_III t) /\ double (f_IV t) /\ 0 <= f_I t /\ 0 <= f_II t /\ 0 <= f_III t /\ 0 <= f_IV t.
(** Both values exist, and the second one is not larger; they are from 0 to [b]. *)
Definition falls_below (b : R) (x y : out R) : Prop := exists v w, x = Ok v /\ y = Ok w /\ 0 <= w <= v /\ v <= b.
(** [x] is [y] up to [k] units of the magnitude [m]. *)
Definition within_units (k x y m : R) : Prop := Rabs (x - y) <= k * unit_roundoff * m.
(** The same target in both arithmetics, with computed cross sections of the relative error [delta] at one energy. *)
Definition same_target (delta : R) (f : ftarget) (t : target) (E : R) : Prop :=
  close_value delta (f_nr f) E (t_nr t) E /\ close_value delta (f_116 f) E (sigma_116 t) E /\ close_value delta (f_112 f) E (sigma_112 t) E /\
  f_enrichment_116 f = t_enrichment_116 t /\ f_enrichment_112 f = t_enrichment_112 t /\ f_I f = t_I t /\ f_II f = t_II t /\ f_III f = t_III t /\ f_IV f = t_IV t /\
  double (f_enrichment_116 f) /\ double (f_enrichment_112 f) /\ 0 <= f_enrichment_116 f /\ 0 <= f_enrichment_112 f /\
  double (f_I f) /\ double (f_II f) /\ double (f_III f) /\ double (f_IV f) /\ 0 <= f_I f /\ 0 <= f_II f /\ 0 <= f_III f /\ 0 <= f_IV f.
(** Error of an optical depth in a target of the areal density [rho] with the attenuation [s]: layers are differences of sums. *)
Definition target_error (delta rho s : R) : R := (delta + 9 * unit_roundoff) * (s * rho) + 3 * half_smallest * (rho + 1).
(** Both values exist and differ by at most a relative error [r] and [a] times half of the smallest positive number. *)
Definition computes (r a : R) (x y : out R) : Prop := exists v w, x = Ok v /\ y = Ok w /\ Rabs (v - w) <= r * w + a * half_smallest.
