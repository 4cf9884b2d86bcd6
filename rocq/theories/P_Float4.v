(** C79, C80: rounding errors of resonances. *)
From Coq Require Import Reals List ZArith String Lra Lia.
From Flocq Require Import Core.
From Verif Require Import Py M_Num M_Constituents M_Thermal M_Dist M_Resonance M_Float S_Float M_Float4 S_Float4
  L_Float L_Float9 L_Float10 L_Float11 L_Float12.
Import ListNotations.
Open Scope R_scope.

(** ** C79: Breit-Wigner resonances *)

(** The resonance energy is rounded once. *)
Theorem C79_resonance_energy k i m fin : floats k i m fin ->
  let D := st_excitation_energy m - st_excitation_energy i in
  let E_r := fsub (st_excitation_energy m) (st_excitation_energy i) in
  double E_r /\ Rabs (E_r - D) <= unit_roundoff * D.
Proof. intros H. split; apply (Er_props k i m fin H). Qed.

(** Every value is the exact value of a resonance at the rounded resonance energy, up to 32 units. *)
Theorem C79_breit_wigner c k i m fin : clib_ok c -> floats k i m fin ->
  forall E (absolute : bool), double E -> Rabs E <= 2 ^ 60 ->
  let E_r := fsub (st_excitation_energy m) (st_excitation_energy i) in
  exists r s v, BreitWigner k i (with_energy m (st_excitation_energy i + E_r)) fin = Ok r /\ r_energy r = E_r /\
    res_call r (if absolute then E else fadd E E_r) true = Ok s /\
    fBreitWigner_call c k i m fin E absolute = Ok v /\
    0 < s /\ Rabs (v - s) <= 32 * unit_roundoff * s.
Proof. exact (fBreitWigner_good c k i m fin). Qed.

(** Farther from the resonance energy, a value is never larger; so the values are symmetric, too. *)
Theorem C79_falls c k i m fin E E' v v' : clib_ok c -> floats k i m fin ->
  let E_r := fsub (st_excitation_energy m) (st_excitation_energy i) in
  Rabs (E - E_r) <= Rabs (E' - E_r) ->
  fBreitWigner_call c k i m fin E true = Ok v -> fBreitWigner_call c k i m fin E' true = Ok v' -> 0 <= v' <= v.
Proof. exact (fBreitWigner_falls c k i m fin E E' v v'). Qed.

(** Energies given relative to the resonance: the sum is rounded before the profile is evaluated, and an
    offset of 64 half widths gives the maximum, more than 4000 times the value of this offset. *)
Theorem C79_relative_refuted c : clib_ok c ->
  exists k i m E r s v, floats k i m None /\ double E /\ BreitWigner k i m None = Ok r /\ r_energy r = fsub (st_excitation_energy m) (st_excitation_energy i) /\
    res_call r E false = Ok s /\ fBreitWigner_call c k i m None E false = Ok v /\ 0 < s /\ 4000 * s <= v.
Proof. exact (lost_refuted c). Qed.

(** The hypotheses can be met. *)
Example C79_ex_clib : clib_ok correct_clib. Proof. exact correct_ok. Qed.
Example C79_ex_floats : floats lost_k lost_i lost_m None. Proof. exact lost_floats. Qed.

(** ** C80: Doppler widths, recoil, Gaussian resonances *)

Theorem C80_doppler_width k amu T E : thermal k amu T -> / 2 ^ 61 <= E <= 2 ^ 61 ->
  exists d v, get_doppler_width k {| mb_amu := amu; mb_effective_temperature := T |} E = Ok d /\
    fget_doppler_width k {| mb_amu := amu; mb_effective_temperature := T |} E = Ok v /\
    0 < d /\ Rabs (v - d) <= 6 * unit_roundoff * d.
Proof. exact (fdoppler_err k amu T E). Qed.

(** The effective temperature of a Doppler width is the temperature it has been calculated from. *)
Theorem C80_effective_temperature k amu T E d : thermal k amu T -> / 2 ^ 61 <= E <= 2 ^ 61 ->
  fget_doppler_width k {| mb_amu := amu; mb_effective_temperature := T |} E = Ok d ->
  exists T', fget_effective_temperature k d amu E = Ok T' /\ Rabs (T' - T) <= 32 * unit_roundoff * T.
Proof. exact (fdoppler_back k amu T E d). Qed.

(** The recoil-corrected energy is accurate and never below the energy difference. *)
Theorem C80_recoil k amu D : double D -> plausible D -> plausible amu -> plausible (k_u_MeV k) ->
  exists e v, FreeNucleusRecoil k amu D = Ok e /\ fFreeNucleusRecoil k amu D = Ok v /\
    0 < e /\ Rabs (v - e) <= 8 * unit_roundoff * e /\ D <= v.
Proof. exact (frecoil_good k amu D). Qed.

(** Within 16 standard deviations, the relative error grows with the square of the deviation. *)
Theorem C80_gauss c k i m fin amu T E (absolute : bool) : clib_ok c -> floats k i m fin -> thermal k amu T -> double E ->
  let E_r := fsub (st_excitation_energy m) (st_excitation_energy i) in
  let x := if absolute then E else fadd E E_r in
  exists r sigma, Gauss k i (with_energy m (st_excitation_energy i + E_r)) amu T fin = Ok r /\
    r_params r = [E_r; sigma] /\ 0 < sigma /\
    (Rabs (x - E_r) <= 16 * sigma ->
     exists s v, res_call r x true = Ok s /\ fGauss_call c k i m amu T fin E absolute = Ok v /\
       0 < s /\ Rabs (v - s) <= (34 + 11 * ((x - E_r) / sigma) ^ 2) * unit_roundoff * s).
Proof. exact (fGauss_good c k i m fin amu T E absolute). Qed.

Theorem C80_falls c k i m fin amu T E E' v v' : clib_ok c -> falling_exp c -> floats k i m fin ->
  let E_r := fsub (st_excitation_energy m) (st_excitation_energy i) in
  Rabs (E - E_r) <= Rabs (E' - E_r) ->
  fGauss_call c k i m amu T fin E true = Ok v -> fGauss_call c k i m amu T fin E' true = Ok v' -> 0 <= v' <= v.
Proof. exact (fGauss_falls c k i m fin amu T E E' v v'). Qed.

(** Not at all energies: the exponential function underflows, and the cross section is zero although the
    exact one is positive. *)
Theorem C80_tails_refuted :
  exists c k i m amu T E r s v, clib_ok c /\ falling_exp c /\ floats k i m None /\ thermal k amu T /\ double E /\
    Gauss k i m amu T None = Ok r /\ res_call r E true = Ok s /\ fGauss_call c k i m amu T None E true = Ok v /\ 0 < s /\ v = 0.
Proof. exact tails_refuted. Qed.

Example C80_ex : thermal lost_k 1000 1 /\ falling_exp correct_clib.
Proof. exact (conj thermal_lost correct_falls). Qed.
Print Assumptions C79_resonance_energy.
Print Assumptions C79_breit_wigner.
Print Assumptions C79_falls.
Print Assumptions C79_relative_refuted.
Print Assumptions C80_doppler_width.
Print Assumptions C80_effective_temperature.
Print Assumptions C80_recoil.
Print Assumptions C80_gauss.
Print Assumptions C80_falls.
Print Assumptions C80_tails_refuted.
