(** Voigt profiles with binary64 numbers, infinities and nan, see [M_Ieee2] and [M_Float11]. *)
From Coq Require Import Reals List ZArith.
From Flocq Require Import Core BinarySingleNaN.
From Verif Require Import Py M_Num M_Ieee M_Ieee2.
Open Scope py_scope.

(** pseudo_voigt.py:133-136, 148: the attributes [sigma] and [gamma] of a distribution. *)
Definition bvoigt_sigma (doppler_width : b64) : b64 := bquo doppler_width (bsqrt (of_Z 2)).
Definition bvoigt_gamma (width : b64) : b64 := bmul (literal 1 2) width.
(** voigt.py:115-128, see [M_Float11.fvoigt_pdf]; [scipy.special.voigt_profile] is a parameter of the model. *)
Definition bvoigt_pdf (vp : b64 -> b64 -> b64 -> b64) (resonance_energy sigma gamma E : b64) : b64 := vp (bsub E resonance_energy) sigma gamma.
(** voigt.py:137-168 with resonance.py:241-260, see [M_Float11.fVoigt_call]. *)
Definition bVoigt_call (L : blib) (vp : b64 -> b64 -> b64 -> b64) (k : bconstants) (initial intermediate : bstate) (amu effective_temperature : b64)
    (final : option bstate) (E : b64) (input_is_absolute_energy : bool) : out b64 :=
  let! (E_r, Ir) := bResonance L k initial intermediate final in
  let! w := bwidth intermediate in
  let! p := bPseudoVoigtDistribution L k E_r w amu effective_temperature in
  let! d := bget_doppler_width k amu effective_temperature (bp_energy p) in
  Ok (bres_call (bvoigt_pdf vp (bp_energy p) (bvoigt_sigma d) (bvoigt_gamma w)) E_r Ir E input_is_absolute_energy).
