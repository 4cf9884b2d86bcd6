(** C112: attenuation in the example notebooks with infinities and nan. *)
From Coq Require Import Reals List ZArith.
From Flocq Require Import Core BinarySingleNaN.
From Verif Require Import Py M_Num M_Constituents M_Thermal M_Dist M_CrossSection M_Resonance M_PseudoVoigt S_PseudoVoigt M_Float S_Float M_Float4 S_Float4 M_Float8 S_Float8 M_Float11 S_Float11 S_Float14 M_Float13
  M_Ieee M_Ieee2 S_Ieee S_Ieee6 S_Ieee7 M_Ieee8 S_Ieee8 M_Ieee9 S_Ieee9 L_Float10 L_Float49 L_Ieee9 L_Ieee36 L_Ieee37.
Open Scope R_scope.

(** Whatever the cross sections, the abundance and the areal density are, as long as they are not negative, the transmission is nan or from 0 to 1; ... *)
Theorem C112_range : forall ex nr sr E rho c a b, exp_special ex -> nr E = Ok a -> sr E = Ok b -> not_negative a -> not_negative b -> not_negative c -> not_negative rho ->
  exists p, bPhi ex E rho nr sr c = Ok p /\ (p = B754_nan \/ fraction p).
Proof. exact phi_range. Qed.
(** ... it is a number for finite resonant cross sections, abundances and positive densities, even if products overflow, ... *)
Theorem C112_number : forall ex nr sr E rho c a b, exp_special ex -> nr E = Ok a -> sr E = Ok b ->
  not_negative a -> finite b -> 0 <= B2R b -> finite c -> 0 <= B2R c -> finite rho -> 0 < B2R rho -> exists p, bPhi ex E rho nr sr c = Ok p /\ fraction p.
Proof. exact phi_number. Qed.
(** ... and for abundances up to 1, so is the absorption. *)
Theorem C112_absorption : forall ex nr sr E rho c a b, exp_special ex -> nr E = Ok a -> sr E = Ok b ->
  not_negative a -> finite b -> 0 <= B2R b -> finite c -> 0 <= B2R c <= 1 -> finite rho -> 0 < B2R rho ->
  exists q, balpha ex E rho nr sr c = Ok q /\ finite q /\ 0 <= B2R q <= B2R b.
Proof. exact alpha_number. Qed.
(** Nothing is transmitted through infinite cross sections and areal densities. *)
Theorem C112_opaque : forall ex nr sr E rho c a b, exp_special ex -> nr E = Ok a -> sr E = Ok b -> positive rho -> not_negative a -> not_negative b -> not_negative c ->
  (a = B754_infinity false /\ finite b /\ finite c) \/ (b = B754_infinity false /\ positive c) \/ (rho = B754_infinity false /\ positive a /\ finite b /\ finite c) ->
  exists p, bPhi ex E rho nr sr c = Ok p /\ rep p 0.
Proof. exact phi_opaque. Qed.
(** The absorption by an infinite resonant cross section is nan, ... *)
Theorem C112_infinite_line : forall ex nr sr E rho c a, exp_special ex -> nr E = Ok a -> sr E = Ok (B754_infinity false) -> not_negative a -> positive c -> positive rho ->
  balpha ex E rho nr sr c = Ok B754_nan.
Proof. exact alpha_infinite. Qed.
(** ... and nan anywhere gives nan. *)
Theorem C112_nan : forall ex nr sr E rho c a b, exp_special ex -> nr E = Ok a -> sr E = Ok b -> a = B754_nan \/ b = B754_nan \/ c = B754_nan \/ rho = B754_nan ->
  bPhi ex E rho nr sr c = Ok B754_nan /\ balpha ex E rho nr sr c = Ok B754_nan.
Proof. exact phi_nan. Qed.
(** The functions of 6Li.ipynb. *)
Theorem C112_flux : forall ex sigma E rho s, exp_special ex -> sigma E = Ok s -> finite s -> 0 <= B2R s -> finite rho -> 0 <= B2R rho ->
  exists p q, bphoton_flux_density ex sigma E rho = Ok p /\ bresonance_absorption_density ex sigma E rho = Ok q /\ fraction p /\ finite q /\ 0 <= B2R q <= B2R s.
Proof. exact flux_number. Qed.
Theorem C112_flux_special : forall ex sigma E rho s, exp_special ex -> sigma E = Ok s ->
  (s = B754_infinity false -> positive rho -> exists p, bphoton_flux_density ex sigma E rho = Ok p /\ rep p 0 /\ bresonance_absorption_density ex sigma E rho = Ok B754_nan) /\
  (s = B754_nan \/ rho = B754_nan -> bphoton_flux_density ex sigma E rho = Ok B754_nan /\ bresonance_absorption_density ex sigma E rho = Ok B754_nan).
Proof. exact flux_special. Qed.
(** For cross sections, abundances and densities up to 2^300 the results are those without any limit of numbers (C111). *)
Theorem C112_agree : forall be ex nr sr fnr fsr E e a b a' b' c c' rho rho', exp_special be -> same_exp be ex -> nr E = Ok a -> sr E = Ok b -> fnr e = Ok a' -> fsr e = Ok b' ->
  rep a a' -> rep b b' -> rep c c' -> rep rho rho' -> 0 <= a' <= 2 ^ 300 -> 0 <= b' <= 2 ^ 300 -> 0 <= c' <= 2 ^ 300 -> 0 <= rho' <= 2 ^ 300 ->
  (exists p p', bPhi be E rho nr sr c = Ok p /\ fPhi ex e rho' fnr fsr c' = Ok p' /\ rep p p') /\
  (exists q q', balpha be E rho nr sr c = Ok q /\ falpha ex e rho' fnr fsr c' = Ok q' /\ rep q q') /\
  (exists p p', bphoton_flux_density be sr E rho = Ok p /\ fphoton_flux_density ex fsr e rho' = Ok p' /\ rep p p') /\
  (exists q q', bresonance_absorption_density be sr E rho = Ok q /\ fresonance_absorption_density ex fsr e rho' = Ok q' /\ rep q q').
Proof. exact flux_agree. Qed.
(** A Voigt profile, from the states to the transmission. *)
Theorem C112_voigt : forall L V B k bi i bm m bfin fin bamu amu bT T w, pvlib_ok V -> same_pvlib L V -> same_constants B k -> floats k i m fin -> width m = Ok w ->
  let E_r := fsub (st_excitation_energy m) (st_excitation_energy i) in pv_params k E_r w amu T -> pv_floats k E_r w amu T ->
  rep bamu amu -> rep bT T -> same_state bi i -> same_state bm m -> same_final bfin fin ->
  forall vp bvp eps E x be ex p delta rho rho', profile_ok eps vp -> 0 <= eps <= / 4 -> same_profile bvp vp -> rep E x -> Rabs x <= 2 ^ 60 ->
  exp_special be -> same_exp be ex -> PseudoVoigtDistribution k E_r w amu T = Ok p -> voigt_error p eps E_r delta (fadd x E_r) -> delta <= 1 -> rep rho rho' -> 0 <= rho' <= 2 ^ 300 ->
  let bs := fun E => bVoigt_call L bvp B bi bm bamu bT bfin E false in let fs := fun E => fVoigt_call V vp k i m amu T fin E false in
  exists s f q f' q', bs E = Ok s /\ bphoton_flux_density be bs E rho = Ok f /\ bresonance_absorption_density be bs E rho = Ok q /\
    fphoton_flux_density ex fs x rho' = Ok f' /\ fresonance_absorption_density ex fs x rho' = Ok q' /\
    rep f f' /\ rep q q' /\ fraction f /\ finite q /\ 0 <= B2R q <= B2R s.
Proof. exact bvoigt_flux. Qed.

(** *** Non-vacuity *)
Example C112_library : exp_special correct_bexp /\ same_exp correct_bexp (fun x => rnd (exp x)). Proof. exact correct_bexp_ok. Qed.
(** Finite numbers for the abundance and the cross sections; infinities and nan need no example. *)
Example C112_case : finite (of_Z 3) /\ B2R (of_Z 3) = 3 /\ finite (of_Z 1) /\ B2R (of_Z 1) = 1 /\ finite (of_Z 0) /\ B2R (of_Z 0) = 0. Proof. exact plain_case. Qed.
(** The transmission can be nan: no layer at all of an infinite cross section. *)
Example C112_thin : bPhi correct_bexp (of_Z 1) (of_Z 0) (fun _ => Ok (B754_infinity false)) (fun _ => Ok (of_Z 1)) (of_Z 1) = Ok B754_nan. Proof. exact thin_case. Qed.
(** A line at an energy of 1 with a width of 1/1024, at the resonance. *)
Example C112_line : let E_r := fsub (st_excitation_energy wide_m) (st_excitation_energy lost_i) in
  same_resonance correct_library correct_pvlib (of_constants ieee_k) ieee_k (of_state lost_i) lost_i (of_state wide_m) wide_m None None (of_Z 1000) 1000 (of_Z 0) 0 (/ 2 ^ 10) /\
  exists p, PseudoVoigtDistribution ieee_k E_r (/ 2 ^ 10) 1000 0 = Ok p /\ voigt_error p unit_roundoff E_r (/ 2 ^ 30) (fadd 0 E_r) /\
    rep (of_Z 0) 0 /\ Rabs 0 <= 2 ^ 60 /\ / 2 ^ 30 <= 1 /\ rep (of_Z 3) 3 /\ 0 <= 3 <= 2 ^ 300.
Proof. exact line_case. Qed.
Print Assumptions C112_range.
Print Assumptions C112_number.
Print Assumptions C112_absorption.
Print Assumptions C112_opaque.
Print Assumptions C112_infinite_line.
Print Assumptions C112_nan.
Print Assumptions C112_flux.
Print Assumptions C112_flux_special.
Print Assumptions C112_agree.
Print Assumptions C112_voigt.
