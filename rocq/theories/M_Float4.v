(** Resonances with binary64 arithmetic, see [M_Float]. *)
From Coq Require Import Reals List ZArith String.
From Flocq Require Import Core.
From Verif Require Import Py M_Num M_Constituents M_Thermal M_Resonance M_Float M_Float2.
Import ListNotations.
Open Scope R_scope.
Open Scope py_scope.

(** Functions of the C library, which are not correctly rounded in general: [x ** 2] of Python floats and
    [np.exp].  Square roots are correctly rounded, and so is the square [x ** 2] of an array. *)
Record clib := { c_square : R -> R; c_exp : R -> R }.
Definition fsqrt (x : R) : R := rnd (sqrt x).

(** recoil.py:104-127, see [M_Thermal.FreeNucleusRecoil]. *)
Definition fFreeNucleusRecoil (k : constants) (amu : R) : recoil := fun D =>
  let d := fmul (fmul 2 amu) (k_u_MeV k) in
  if Req_EM_T d 0 then Raise ZeroDivisionError else Ok (fmul D (fadd 1 (fquo D d))).

(** maxwell_boltzmann.py:61-85, see [M_Thermal.get_doppler_width]; [1e-6] is the nearest float. *)
Definition fget_doppler_width (k : constants) (mb : MaxwellBoltzmann) (E : R) : out R :=
  let d := fmul (mb_amu mb) (k_u_MeV k) in
  if Req_EM_T d 0 then Raise ZeroDivisionError else
  let q := fquo (fmul (fmul (fmul 2 (k_kB_eV k)) (rnd (/ 10 ^ 6))) (mb_effective_temperature mb)) d in
  if Rlt_dec q 0 then NaN else Ok (fmul E (fsqrt q)).

(** maxwell_boltzmann.py:87-116, see [M_Thermal.get_effective_temperature]. *)
Definition fget_effective_temperature (k : constants) (doppler_width amu E : R) : out R :=
  let d := fmul (fmul (fmul (fmul E E) 2) (k_kB_eV k)) (rnd (/ 10 ^ 6)) in
  if Req_EM_T d 0 then Raise ZeroDivisionError else
  Ok (fquo (fmul (fmul (fmul doppler_width doppler_width) amu) (k_u_MeV k)) d).

(** resonance.py:389-393; the integers are exact floats. *)
Definition fget_statistical_factor (initial intermediate : state) : out R :=
  let d := fadd (IZR (st_two_J initial)) 1 in
  if Req_EM_T d 0 then Raise ZeroDivisionError else Ok (fquo (fadd (IZR (st_two_J intermediate)) 1) d).

(** resonance.py:368-375 *)
Definition fget_energy_integrated_cross_section (c : clib) (constant E_r g br : R) (initial intermediate : state) : out R :=
  let s := c_square c E_r in
  if Req_EM_T s 0 then Raise ZeroDivisionError else
  let! d := partial_widths intermediate in
  let! w := dgetE d (st_J_pi initial) in
  Ok (fmul (fmul (fmul (fquo constant s) g) w) br).

(** resonance.py:205-239: resonance energy and energy-integrated cross section. *)
Definition fResonance (c : clib) (k : constants) (initial intermediate : state) (final : option state)
    (recoil_correction : recoil) : out (R * R) :=
  let! E_r := recoil_correction (fsub (st_excitation_energy intermediate) (st_excitation_energy initial)) in
  let constant := c_square c (fmul np_pi (k_hbarc k)) in
  let! g := fget_statistical_factor initial intermediate in
  let! br := fget_final_state_branching_ratio intermediate final in
  let! Ir := fget_energy_integrated_cross_section c constant E_r g br initial intermediate in
  Ok (E_r, Ir).

(** [scipy.stats.cauchy.pdf] and [scipy.stats.norm.pdf]: [y = (x - loc) / scale], then
    [1.0 / np.pi / (1.0 + y * y) / scale] and [np.exp(-y**2 / 2.0) / np.sqrt(2 * np.pi) / scale]. *)
Definition fcauchy_pdf (l s x : R) : out R :=
  if Rlt_dec 0 s then
    let y := fquo (fsub x l) s in
    Ok (fquo (fquo (fquo 1 np_pi) (fadd 1 (fmul y y))) s)
  else NaN.
Definition fnorm_pdf (c : clib) (l s x : R) : out R :=
  if Rlt_dec 0 s then
    let y := fquo (fsub x l) s in
    Ok (fquo (fquo (c_exp c (fquo (- fmul y y) 2)) (fsqrt (fmul 2 np_pi))) s)
  else NaN.

(** resonance.py:241-260 *)
Definition fres_call (pdf : R -> out R) (E_r Ir E : R) (input_is_absolute_energy : bool) : out R :=
  let E := if input_is_absolute_energy then E else fadd E E_r in
  let! p := pdf E in Ok (fmul Ir p).

(** breit_wigner.py:85-96 with resonance.py:241-260: a call of the object. *)
Definition fBreitWigner_call (c : clib) (k : constants) (initial intermediate : state) (final : option state)
    (E : R) (input_is_absolute_energy : bool) : out R :=
  let! (E_r, Ir) := fResonance c k initial intermediate final NoRecoil in
  let! w := width intermediate in
  fres_call (fcauchy_pdf E_r (fmul (1 / 2) w)) E_r Ir E input_is_absolute_energy.

(** gauss.py:48-74 with resonance.py:241-260 *)
Definition fGauss_call (c : clib) (k : constants) (initial intermediate : state) (amu effective_temperature : R)
    (final : option state) (E : R) (input_is_absolute_energy : bool) : out R :=
  let! (E_r, Ir) := fResonance c k initial intermediate final NoRecoil in
  let! d := fget_doppler_width k {| mb_amu := amu; mb_effective_temperature := effective_temperature |} E_r in
  fres_call (fnorm_pdf c E_r (fquo d (fsqrt 2))) E_r Ir E input_is_absolute_energy.
