(** Voigt profiles with binary64 arithmetic, see [M_Float8] and [M_PseudoVoigt]. *)
From Coq Require Import Reals List ZArith.
From Verif Require Import Py M_Num M_Constituents M_Thermal M_Resonance M_PseudoVoigt M_Float M_Float4 M_Float8.
Open Scope R_scope.
Open Scope py_scope.

(** voigt.py:115-128; [scipy.special.voigt_profile] is a parameter of the model. *)
Definition fvoigt_pdf (vp : R -> R -> R -> R) (p : pv) (E : R) : out R :=
  Ok (vp (fsub E (pv_energy p)) (pv_sigma p) (pv_gamma p)).
(** voigt.py:137-168 with resonance.py:241-260: a call of the object.  The distribution is built twice with the same arguments
    (pseudo_voigt.py:293-305, voigt.py:161-166), which gives the same object. *)
Definition fVoigt_call (L : pvlib) (vp : R -> R -> R -> R) (k : constants) (initial intermediate : state) (amu effective_temperature : R)
    (final : option state) (E : R) (input_is_absolute_energy : bool) : out R :=
  let! (E_r, Ir) := fResonance (v_c L) k initial intermediate final NoRecoil in
  let! w := width intermediate in
  let! p := fPseudoVoigtDistribution L k E_r w amu effective_temperature in
  fres_call (fvoigt_pdf vp p) E_r Ir E input_is_absolute_energy.
