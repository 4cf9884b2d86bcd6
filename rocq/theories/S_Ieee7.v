(** Vocabulary for quantiles of pseudo-Voigt lines with infinities and nan. *)
From Coq Require Import Reals List ZArith.
From Coquelicot Require Import Rbar.
From Flocq Require Import Core BinarySingleNaN.
From Verif Require Import Py M_Num M_Dist M_Grid M_Constituents M_Thermal M_Resonance M_PseudoVoigt S_PseudoVoigt M_Float S_Float M_Float4 S_Float4 S_Float6 M_Float8 S_Float8 M_Ieee M_Ieee2 M_Ieee5 S_Ieee S_Ieee5 M_Ieee7.
Import ListNotations.
Open Scope R_scope.

(** Library functions of both arithmetics give the same numbers. *)
Definition same_library (B : bpvlib) (L : pvlib) : Prop :=
  same_pvlib (bv_b B) L /\ same_dist (bv_norm B) (v_norm L) /\ same_dist (bv_cauchy B) (v_cauchy L).
Definition correct_library : bpvlib := {| bv_b := correct_blib; bv_norm := correct_bdist Normal; bv_cauchy := correct_bdist Cauchy |}.
(** The same warnings, numbers in them included. *)
Definition same_warning (b : bwarning) (w : warning) : Prop :=
  match b, w with
  | BInversionFailed, InversionFailed => True
  | BNegativeLowerLimit x, NegativeLowerLimit y => rep x y
  | BInfiniteUpperLimit, InfiniteUpperLimit => True
  | _, _ => False
  end.
(** A number that is an energy. *)
Definition rep_point (b : b64) (x : Rbar) : Prop := match x with Finite r => rep b r | _ => False end.
(** Energies, up to [2 ^ 400]. *)
Definition moderate (x : b64) : Prop := finite x /\ Rabs (B2R x) <= 2 ^ 400.
(** A distribution with a resonance energy that is nan or with a scale that is not positive. *)
Definition broken_pv (b : bpv) : Prop :=
  broken (bp_energy b) (bquo (bp_gamma_G b) (bsqrt (of_Z 2))) \/ broken (bp_energy b) (bmul (literal 1 2) (bp_gamma_L b)).
(** The same pseudo-Voigt resonance in both arithmetics, with moderate parameters: library functions, constants, states and their masses and temperatures. *)
Definition same_resonance (L : bpvlib) (V : pvlib) (B : bconstants) (k : constants) (bi : bstate) (i : state) (bm : bstate) (m : state)
    (bfin : option bstate) (fin : option state) (bamu : b64) (amu : R) (bT : b64) (T w : R) : Prop :=
  pvlib_ok V /\ same_library L V /\ same_constants B k /\ floats k i m fin /\ width m = Ok w /\
  pv_params k (fsub (st_excitation_energy m) (st_excitation_energy i)) w amu T /\ pv_floats k (fsub (st_excitation_energy m) (st_excitation_energy i)) w amu T /\
  rep bamu amu /\ rep bT T /\ same_state bi i /\ same_state bm m /\ same_final bfin fin.
