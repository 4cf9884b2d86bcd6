(** C109: Voigt profiles with infinities and nan. *)
From Coq Require Import Reals List ZArith.
From Flocq Require Import Core BinarySingleNaN.
From Verif Require Import Py M_Num M_Constituents M_Thermal M_Dist M_CrossSection M_Resonance M_PseudoVoigt S_PseudoVoigt M_Float S_Float M_Float4 S_Float4 M_Float8 S_Float8 M_Float11 S_Float11
  M_Ieee M_Ieee2 S_Ieee M_Ieee8 S_Ieee8 L_Float10 L_Float32 L_Float46 L_Ieee9 L_Ieee34.
Open Scope R_scope.

(** For energies up to 2^60 a call gives the number that the arithmetic without an upper limit of numbers gives, ... *)
Theorem C109_call : forall L V B k bi i bm m bfin fin bamu amu bT T w, pvlib_ok V -> same_pvlib L V -> same_constants B k -> floats k i m fin -> width m = Ok w ->
  let E_r := fsub (st_excitation_energy m) (st_excitation_energy i) in pv_params k E_r w amu T -> pv_floats k E_r w amu T ->
  rep bamu amu -> rep bT T -> same_state bi i -> same_state bm m -> same_final bfin fin ->
  forall vp bvp eps E x absolute, profile_ok eps vp -> 0 <= eps <= / 4 -> same_profile bvp vp -> rep E x -> Rabs x <= 2 ^ 60 ->
  reads_number (bVoigt_call L bvp B bi bm bamu bT bfin E absolute) (fVoigt_call V vp k i m amu T fin x absolute).
Proof. exact voigt_agree. Qed.
(** ... and is accurate, both within many natural widths and within many Doppler widths. *)
Theorem C109_accurate : forall L V B k bi i bm m bfin fin bamu amu bT T w, pvlib_ok V -> same_pvlib L V -> same_constants B k -> floats k i m fin -> width m = Ok w ->
  let E_r := fsub (st_excitation_energy m) (st_excitation_energy i) in pv_params k E_r w amu T -> pv_floats k E_r w amu T ->
  rep bamu amu -> rep bT T -> same_state bi i -> same_state bm m -> same_final bfin fin ->
  forall vp bvp eps modern E x (absolute : bool), profile_ok eps vp -> 0 <= eps <= / 4 -> same_profile bvp vp -> rep E x -> Rabs x <= 2 ^ 60 ->
  let y := if absolute then x else fadd x E_r in
  exists p r s v, PseudoVoigtDistribution k E_r w amu T = Ok p /\ Voigt modern k i (with_energy m (st_excitation_energy i + E_r)) amu T fin = Ok r /\
    res_call r y true = Ok s /\ bVoigt_call L bvp B bi bm bamu bT bfin E absolute = Ok v /\ finite v /\ 0 < s /\ 0 < pv_gamma p /\
    (Rabs (y - E_r) <= 2 ^ 40 * pv_gamma p -> Rabs (B2R v - s) <= (2 * eps + (42 + 10 * (Rabs (y - E_r) / pv_gamma p)) * unit_roundoff) * s) /\
    (0 < pv_sigma p -> Rabs (y - E_r) <= 2 ^ 20 * pv_sigma p -> Rabs (B2R v - s) <= (2 * eps + (42 + 10 * ((y - E_r) / pv_sigma p) ^ 2) * unit_roundoff) * s).
Proof. exact voigt_accurate. Qed.
(** At infinite energies the cross section is zero, at nan it is nan. *)
Theorem C109_infinite : forall L V B k bi i bm m bfin fin bamu amu bT T w, pvlib_ok V -> same_pvlib L V -> same_constants B k -> floats k i m fin -> width m = Ok w ->
  let E_r := fsub (st_excitation_energy m) (st_excitation_energy i) in pv_params k E_r w amu T -> pv_floats k E_r w amu T ->
  rep bamu amu -> rep bT T -> same_state bi i -> same_state bm m -> same_final bfin fin ->
  forall bvp z absolute, profile_special bvp -> exists v, bVoigt_call L bvp B bi bm bamu bT bfin (B754_infinity z) absolute = Ok v /\ rep v 0.
Proof. exact voigt_infinite. Qed.
Theorem C109_nan : forall L V B k bi i bm m bfin fin bamu amu bT T w, pvlib_ok V -> same_pvlib L V -> same_constants B k -> floats k i m fin -> width m = Ok w ->
  let E_r := fsub (st_excitation_energy m) (st_excitation_energy i) in pv_params k E_r w amu T -> pv_floats k E_r w amu T ->
  rep bamu amu -> rep bT T -> same_state bi i -> same_state bm m -> same_final bfin fin ->
  forall bvp absolute, profile_special bvp -> bVoigt_call L bvp B bi bm bamu bT bfin B754_nan absolute = Ok B754_nan.
Proof. exact voigt_nan. Qed.
(** Whatever the other arguments are, a temperature, mass or width that is nan never gives a number. *)
Theorem C109_parameters : forall L vp k bi bm bamu bT bfin E absolute v, profile_special vp -> bT = B754_nan \/ bamu = B754_nan \/ bwidth bm = Ok B754_nan ->
  bVoigt_call L vp k bi bm bamu bT bfin E absolute = Ok v -> v = B754_nan.
Proof. exact nan_parameters. Qed.
(** An exception is raised exactly when the pseudo-Voigt object with the same arguments raises it. *)
Theorem C109_exceptions : forall L vp k bi bm bamu bT bfin E absolute e,
  bVoigt_call L vp k bi bm bamu bT bfin E absolute = Raise e <-> bPseudoVoigt_call L k bi bm bamu bT bfin E absolute = Raise e.
Proof. exact same_exceptions. Qed.

Theorem C109_exists : forall L vp k bi bm bamu bT bfin E absolute,
  (exists v, bVoigt_call L vp k bi bm bamu bT bfin E absolute = Ok v) <-> (exists v, bPseudoVoigt_call L k bi bm bamu bT bfin E absolute = Ok v).
Proof. exact same_values. Qed.

(** The hypotheses can be met. *)
Example C109_library : pvlib_ok correct_pvlib /\ same_pvlib correct_blib correct_pvlib /\ profile_ok unit_roundoff correct_profile /\ 0 <= unit_roundoff <= / 4 /\
  same_profile correct_bprofile correct_profile /\ profile_special correct_bprofile.
Proof. exact (conj correct_pvlib_ok (conj correct_pv_same (conj correct_profile_ok (conj unit_quarter (conj correct_bprofile_same correct_bprofile_special))))). Qed.
(** A narrow resonance at an energy of 1, at zero temperature, called at the resonance. *)
Example C109_case : same_constants (of_constants ieee_k) ieee_k /\ floats ieee_k lost_i lost_m None /\ width lost_m = Ok (/ 2 ^ 60) /\
  (let E_r := fsub (st_excitation_energy lost_m) (st_excitation_energy lost_i) in pv_params ieee_k E_r (/ 2 ^ 60) 1000 0 /\ pv_floats ieee_k E_r (/ 2 ^ 60) 1000 0) /\
  rep (of_Z 1000) 1000 /\ rep (of_Z 0) 0 /\ same_state (of_state lost_i) lost_i /\ same_state (of_state lost_m) lost_m /\ same_final None None /\ rep (of_Z 1) 1 /\ Rabs 1 <= 2 ^ 60.
Proof. exact voigt_example. Qed.
(** At a temperature that is nan, that object can be called as well. *)
Example C109_broken : exists v, bVoigt_call correct_blib correct_bprofile (of_constants ieee_k) (of_state lost_i) (of_state lost_m) (of_Z 1000) B754_nan None (of_Z 1) true = Ok v.
Proof. exact broken_example. Qed.
Print Assumptions C109_call.
Print Assumptions C109_accurate.
Print Assumptions C109_infinite.
Print Assumptions C109_nan.
Print Assumptions C109_parameters.
Print Assumptions C109_exceptions.
Print Assumptions C109_exists.
