(** Resonances with binary64 numbers, infinities and nan, see [M_Ieee], [M_Float4] and [M_Float8]. *)
From Coq Require Import Reals List ZArith String Bool.
From Flocq Require Import Core BinarySingleNaN.
From Verif Require Import Py M_Num M_Constituents M_Ieee.
Import ListNotations.
Open Scope py_scope.

(** state.py:64-76, 95-113, see [M_Constituents.state]; the parity is left out. *)
Record bstate := {
  b_J_pi : string;
  b_two_J : Z;
  b_excitation_energy : b64;
  b_decays : option (dict b64 * b64)
}.
Definition bpartial_widths (s : bstate) : out (dict b64) :=
  match b_decays s with Some (d, _) => Ok d | None => Raise AttributeError end.
Definition bwidth (s : bstate) : out b64 :=
  match b_decays s with Some (_, w) => Ok w | None => Raise AttributeError end.

(** Constants of scipy, see [M_Num.constants]: only those needed here. *)
Record bconstants := { b_hbarc : b64; b_u_MeV : b64; b_kB_eV : b64 }.
(** Library functions, see [M_Float4.clib] and [M_Float8.pvlib]: [x ** 2] of Python floats, [np.exp], [np.log] and
    [x ** y] of numpy floats. *)
Record blib := { b_square : b64 -> b64; b_exp : b64 -> b64; b_log : b64 -> b64; b_pow : b64 -> b64 -> b64 }.
(** [np.pi] *)
Definition bpi : b64 := literal 884279719003555 281474976710656.

(** recoil.py:104-127, see [M_Float4.fFreeNucleusRecoil]. *)
Definition bFreeNucleusRecoil (k : bconstants) (amu D : b64) : out b64 :=
  let d := bmul (bmul (of_Z 2) amu) (b_u_MeV k) in
  if bzero d then Raise ZeroDivisionError else Ok (bmul D (badd (of_Z 1) (bquo D d))).

(** maxwell_boltzmann.py:61-85, see [M_Float4.fget_doppler_width]; [np.sqrt] of a negative number is nan. *)
Definition bget_doppler_width (k : bconstants) (amu effective_temperature E : b64) : out b64 :=
  let d := bmul amu (b_u_MeV k) in
  if bzero d then Raise ZeroDivisionError else
  let q := bquo (bmul (bmul (bmul (of_Z 2) (b_kB_eV k)) (literal 1 1000000)) effective_temperature) d in
  Ok (bmul E (bsqrt q)).

(** resonance.py:377-387, see [M_Float.fget_final_state_branching_ratio]. *)
Definition bget_final_state_branching_ratio (intermediate : bstate) (final : option bstate) : out b64 :=
  match final with
  | None => Ok (of_Z 1)
  | Some f =>
      let! d := bpartial_widths intermediate in
      let! g := dgetE d (b_J_pi f) in
      let! w := bwidth intermediate in
      if bzero w then Raise ZeroDivisionError else Ok (bquo g w)
  end.

(** resonance.py:389-393, see [M_Float4.fget_statistical_factor]. *)
Definition bget_statistical_factor (initial intermediate : bstate) : out b64 :=
  let d := badd (of_Z (b_two_J initial)) (of_Z 1) in
  if bzero d then Raise ZeroDivisionError else Ok (bquo (badd (of_Z (b_two_J intermediate)) (of_Z 1)) d).

(** resonance.py:368-375, see [M_Float4.fget_energy_integrated_cross_section]. *)
Definition bget_energy_integrated_cross_section (L : blib) (constant E_r g br : b64) (initial intermediate : bstate) : out b64 :=
  let s := b_square L E_r in
  if bzero s then Raise ZeroDivisionError else
  let! d := bpartial_widths intermediate in
  let! w := dgetE d (b_J_pi initial) in
  Ok (bmul (bmul (bmul (bquo constant s) g) w) br).

(** resonance.py:205-239, see [M_Float4.fResonance]; without a recoil correction. *)
Definition bResonance (L : blib) (k : bconstants) (initial intermediate : bstate) (final : option bstate) : out (b64 * b64) :=
  let E_r := bsub (b_excitation_energy intermediate) (b_excitation_energy initial) in
  let constant := b_square L (bmul bpi (b_hbarc k)) in
  let! g := bget_statistical_factor initial intermediate in
  let! br := bget_final_state_branching_ratio intermediate final in
  let! Ir := bget_energy_integrated_cross_section L constant E_r g br initial intermediate in
  Ok (E_r, Ir).

(** [scipy.stats.cauchy.pdf] and [scipy.stats.norm.pdf], see [M_Float4.fcauchy_pdf] and [M_Float4.fnorm_pdf]; nan
    if the scale is not positive. *)
Definition bcauchy_pdf (l s x : b64) : b64 :=
  if Bltb (of_Z 0) s then
    let y := bquo (bsub x l) s in
    bquo (bquo (bquo (of_Z 1) bpi) (badd (of_Z 1) (bmul y y))) s
  else bnan.
Definition bnorm_pdf (L : blib) (l s x : b64) : b64 :=
  if Bltb (of_Z 0) s then
    let y := bquo (bsub x l) s in
    bquo (bquo (b_exp L (bquo (bopp (bmul y y)) (of_Z 2))) (bsqrt (bmul (of_Z 2) bpi))) s
  else bnan.

(** resonance.py:241-260, see [M_Float4.fres_call]. *)
Definition bres_call (pdf : b64 -> b64) (E_r Ir E : b64) (input_is_absolute_energy : bool) : b64 :=
  let E := if input_is_absolute_energy then E else badd E E_r in
  bmul Ir (pdf E).

(** breit_wigner.py:85-96 with resonance.py:241-260, see [M_Float4.fBreitWigner_call]. *)
Definition bBreitWigner_call (L : blib) (k : bconstants) (initial intermediate : bstate) (final : option bstate)
    (E : b64) (input_is_absolute_energy : bool) : out b64 :=
  let! (E_r, Ir) := bResonance L k initial intermediate final in
  let! w := bwidth intermediate in
  Ok (bres_call (bcauchy_pdf E_r (bmul (literal 1 2) w)) E_r Ir E input_is_absolute_energy).

(** gauss.py:48-74 with resonance.py:241-260, see [M_Float4.fGauss_call]. *)
Definition bGauss_call (L : blib) (k : bconstants) (initial intermediate : bstate) (amu effective_temperature : b64)
    (final : option bstate) (E : b64) (input_is_absolute_energy : bool) : out b64 :=
  let! (E_r, Ir) := bResonance L k initial intermediate final in
  let! d := bget_doppler_width k amu effective_temperature E_r in
  Ok (bres_call (bnorm_pdf L E_r (bquo d (bsqrt (of_Z 2)))) E_r Ir E input_is_absolute_energy).

(** pseudo_voigt.py:249-261, see [M_Float8.fget_Gamma]. *)
Definition bget_Gamma (L : blib) (Gamma_G Gamma_L : b64) : b64 :=
  let Gamma_G_squared := bmul Gamma_G Gamma_G in
  let Gamma_G_squared_squared := bmul Gamma_G_squared Gamma_G_squared in
  let Gamma_L_squared := bmul Gamma_L Gamma_L in
  let Gamma_L_cubed := bmul Gamma_L_squared Gamma_L in
  let Gamma_L_squared_squared := bmul Gamma_L_squared Gamma_L_squared in
  b_pow L
    (badd (badd (badd (badd (badd (bmul Gamma_G_squared_squared Gamma_G)
      (bmul (bmul (literal 269269 100000) Gamma_G_squared_squared) Gamma_L))
      (bmul (bmul (bmul (literal 242843 100000) Gamma_G_squared) Gamma_G) Gamma_L_squared))
      (bmul (bmul (literal 447163 100000) Gamma_G_squared) Gamma_L_cubed))
      (bmul (bmul (literal 7842 100000) Gamma_G) Gamma_L_squared_squared))
      (bmul Gamma_L_squared_squared Gamma_L))
    (literal 1 5).

(** pseudo_voigt.py:263-271, see [M_Float8.fget_eta]. *)
Definition bget_eta (Gamma Gamma_L : b64) : b64 :=
  let inverse_Gamma := bquo (of_Z 1) Gamma in
  let inverse_Gamma_squared := bmul inverse_Gamma inverse_Gamma in
  let Gamma_L_squared := bmul Gamma_L Gamma_L in
  let Gamma_L_cubed := bmul Gamma_L_squared Gamma_L in
  badd (bsub (bmul (bmul (literal 136603 100000) Gamma_L) inverse_Gamma)
             (bmul (bmul (literal 47719 100000) Gamma_L_squared) inverse_Gamma_squared))
       (bmul (bmul (bmul (literal 11116 100000) Gamma_L_cubed) inverse_Gamma_squared) inverse_Gamma).

(** pseudo_voigt.py:118-148, see [M_Float8.fPseudoVoigtDistribution]: the attributes used below. *)
Record bpv := { bp_energy : b64; bp_Gamma : b64; bp_eta : b64; bp_gamma_G : b64; bp_gamma_L : b64 }.
Definition bPseudoVoigtDistribution (L : blib) (k : bconstants) (resonance_energy width amu effective_temperature : b64) : out bpv :=
  let! d := bget_doppler_width k amu effective_temperature resonance_energy in
  let two_sqrt_log := bmul (of_Z 2) (bsqrt (b_log L (of_Z 2))) in
  let Gamma_G := bmul two_sqrt_log d in
  let Gamma := bget_Gamma L Gamma_G width in
  Ok {| bp_energy := resonance_energy; bp_Gamma := Gamma; bp_eta := bget_eta Gamma width;
        bp_gamma_G := bquo Gamma two_sqrt_log; bp_gamma_L := bmul (literal 1 2) Gamma |}.

(** pseudo_voigt.py:150-162, see [M_Float8.fpv_pdf]. *)
Definition bmix (eta a b : b64) : b64 := badd (bmul (bsub (of_Z 1) eta) a) (bmul eta b).
Definition bpv_pdf (L : blib) (p : bpv) (x : b64) : b64 :=
  bmix (bp_eta p)
    (bnorm_pdf L (bp_energy p) (bquo (bp_gamma_G p) (bsqrt (of_Z 2))) x)
    (bcauchy_pdf (bp_energy p) (bmul (literal 1 2) (bp_gamma_L p)) x).

(** pseudo_voigt.py:280-305 with resonance.py:241-260, see [M_Float8.fPseudoVoigt_call]. *)
Definition bPseudoVoigt_call (L : blib) (k : bconstants) (initial intermediate : bstate) (amu effective_temperature : b64)
    (final : option bstate) (E : b64) (input_is_absolute_energy : bool) : out b64 :=
  let! (E_r, Ir) := bResonance L k initial intermediate final in
  let! w := bwidth intermediate in
  let! p := bPseudoVoigtDistribution L k E_r w amu effective_temperature in
  Ok (bres_call (bpv_pdf L p) E_r Ir E input_is_absolute_energy).
