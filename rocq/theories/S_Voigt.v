(** Vocabulary for the properties of the Voigt profile (C60-C62). *)
From Coq Require Import Reals.
From Coquelicot Require Import Coquelicot.
From Verif Require Import Py Spec.
Open Scope R_scope.

(** Distribution of the Doppler shifts of nuclei in thermal motion (voigt.py, module documentation). *)
Definition doppler_shifts (Delta shift : R) : R := 1 / (sqrt PI * Delta) * exp (- (shift / Delta) ^ 2).

(** Strictly increasing up to [m], strictly decreasing from there on. *)
Definition strictly_unimodal (m : R) (f : R -> R) : Prop :=
  (forall a b, a < b -> b <= m -> f a < f b) /\ (forall a b, m <= a -> a < b -> f b < f a).
