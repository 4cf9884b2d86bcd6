(** C107: coverage intervals and probability grids of pseudo-Voigt lines in floating-point arithmetic. *)
From Coq Require Import Reals List ZArith.
From Coquelicot Require Import Rbar.
From Verif Require Import Py Spec M_Num M_Grid M_Constituents M_Thermal M_Dist M_CrossSection S_CrossSection M_Resonance M_PseudoVoigt S_PseudoVoigt M_Float S_Float S_Float3
  M_Float4 S_Float4 S_Float6 M_Float8 S_Float8 S_Float12 M_Float12 S_Float13 L_Float10 L_Float32 L_Float49 L_Float50 L_Float51 L_Float52 L_Float53.
Import ListNotations.
Open Scope R_scope.

(** The methods of the objects are those of the rounded distribution that [C84_parameters] is about. *)
Theorem C107_objects : forall L modern k i m fin amu T w, pvlib_ok L -> floats k i m fin -> width m = Ok w ->
  let E_r := fsub (st_excitation_energy m) (st_excitation_energy i) in pv_params k E_r w amu T -> pv_floats k E_r w amu T ->
  exists p p', PseudoVoigtDistribution k E_r w amu T = Ok p /\ fPseudoVoigtDistribution L k E_r w amu T = Ok p' /\
  (forall c, fPseudoVoigt_coverage_interval modern L k i m amu T fin c = fpv_coverage_interval modern L p' c) /\
  forall a n, fPseudoVoigt_grid modern L k i m amu T fin a n = fpv_probability_grid modern L p' a n.
Proof. exact spec_objects. Qed.

(** A coverage interval that is returned without the warning of the root finder: its limits are finite and have the probabilities
    (1 - c) / 2 and (1 + c) / 2; there is a warning if and only if the lower one is negative, and it says which percentage
    of the distribution is at positive energies. *)
Theorem C107_interval : forall L k E w amu T p p', pvlib_ok L -> pv_params k E w amu T -> pv_floats k E w amu T ->
  PseudoVoigtDistribution k E w amu T = Ok p -> fPseudoVoigtDistribution L k E w amu T = Ok p' ->
  forall modern c ws lo hi, double c -> 0 <= c <= 1 -> fpv_coverage_interval modern L p' c = (ws, Ok (lo, hi)) -> inverted ws ->
  exists a b Fa Fb F0, lo = Finite a /\ hi = Finite b /\ double a /\ double b /\
    pv_cdf p a = Ok Fa /\ pv_cdf p b = Ok Fb /\ pv_cdf p 0 = Ok F0 /\
    Rabs (Fa - (1 - c) / 2) <= pv_blur p a /\ Rabs (Fb - (1 + c) / 2) <= pv_blur p b /\
    (0 <= a -> ws = []) /\ (a < 0 -> exists v, ws = [NegativeLowerLimit v] /\ Rabs (v - 100 * (1 - F0)) <= / 10 ^ 10).
Proof. exact spec_interval. Qed.
(** For a line that is not too wide and a coverage that is not too close to 1 there is no such warning. *)
Theorem C107_interval_found : forall modern L k E w amu T p p', pvlib_ok L -> pv_params k E w amu T -> pv_floats k E w amu T ->
  PseudoVoigtDistribution k E w amu T = Ok p -> fPseudoVoigtDistribution L k E w amu T = Ok p' ->
  forall c s, double c -> 0 <= c <= 1 -> easy_line p E s -> 4 * s + / 2 ^ 40 <= 1 - c ->
  exists ws lo hi, fpv_coverage_interval modern L p' c = (ws, Ok (lo, hi)) /\ inverted ws.
Proof. exact interval_found. Qed.

(** Grids for a coverage: as many points as asked for, whose probabilities are equidistant. *)
Theorem C107_coverage : forall modern L k E w amu T p p', pvlib_ok L -> pv_params k E w amu T -> pv_floats k E w amu T ->
  PseudoVoigtDistribution k E w amu T = Ok p -> fPseudoVoigtDistribution L k E w amu T = Ok p' ->
  forall c n ws g, double c -> 0 <= c <= 1 -> (2 <= n <= 2 ^ 50)%Z ->
  fpv_probability_grid modern L p' (Coverage c) n = (ws, Ok (Some g)) -> inverted ws ->
  exists xs, g = map Finite xs /\ List.Forall double xs /\ pv_equidistant p ((1 - c) / 2) ((1 + c) / 2) n xs.
Proof. exact coverage_points. Qed.
Theorem C107_coverage_found : forall modern L k E w amu T p p', pvlib_ok L -> pv_params k E w amu T -> pv_floats k E w amu T ->
  PseudoVoigtDistribution k E w amu T = Ok p -> fPseudoVoigtDistribution L k E w amu T = Ok p' ->
  forall c n s, double c -> 0 <= c <= 1 -> (2 <= n <= 2 ^ 50)%Z -> easy_line p E s -> 4 * s + / 2 ^ 40 <= 1 - c ->
  exists xs, fpv_probability_grid modern L p' (Coverage c) n = ([], Ok (Some (map Finite xs))) /\
    forall x, In x xs -> pv_blur p x <= line_blur p E /\ Rabs x <= 2 ^ 60.
Proof. exact grid_located. Qed.
(** Grids for an interval start and end with its limits. *)
Theorem C107_limits : forall L k E w amu T p p', pvlib_ok L -> pv_params k E w amu T -> pv_floats k E w amu T ->
  PseudoVoigtDistribution k E w amu T = Ok p -> fPseudoVoigtDistribution L k E w amu T = Ok p' ->
  forall modern a b Fa Fb n ws g, double a -> double b -> (2 <= n <= 2 ^ 50)%Z ->
  pv_cdf p a = Ok Fa -> pv_cdf p b = Ok Fb -> / 2 ^ 40 <= Fb - Fa ->
  fpv_probability_grid modern L p' (Limits a b) n = (ws, Ok (Some g)) -> inverted ws ->
  exists xs, g = map Finite xs /\ List.Forall double xs /\ first xs = a /\ final xs = b /\ pv_equidistant p Fa Fb n xs.
Proof. exact spec_limits. Qed.
Theorem C107_limits_found : forall L k E w amu T p p', pvlib_ok L -> pv_params k E w amu T -> pv_floats k E w amu T ->
  PseudoVoigtDistribution k E w amu T = Ok p -> fPseudoVoigtDistribution L k E w amu T = Ok p' ->
  forall modern a b Fa Fb n s, double a -> double b -> (2 <= n <= 2 ^ 50)%Z ->
  pv_cdf p a = Ok Fa -> pv_cdf p b = Ok Fb -> easy_line p E s ->
  / 2 ^ 40 <= Fb - Fa -> 2 * s + / 2 ^ 40 <= Fa -> Fb <= 1 - 2 * s - / 2 ^ 40 ->
  exists xs, fpv_probability_grid modern L p' (Limits a b) n = ([], Ok (Some (map Finite xs))).
Proof. exact spec_limits_found. Qed.
(** If the steps in probability are larger than twice the error, the points are ascending. *)
Theorem C107_ascending : forall L k E w amu T p p', pvlib_ok L -> pv_params k E w amu T -> pv_floats k E w amu T ->
  PseudoVoigtDistribution k E w amu T = Ok p -> fPseudoVoigtDistribution L k E w amu T = Ok p' ->
  forall P Q n e xs, (2 <= n)%Z -> pv_equidistant p P Q n xs -> (forall x, In x xs -> pv_blur p x <= e) ->
  2 * e < (Q - P) / IZR (n - 1) -> strictly_ascending xs.
Proof. exact equidistant_ascending. Qed.

(** The notebooks' way to integrate a resonance, all of it rounded: a probability grid for a coverage, the cross section at its points, Darboux
    sums.  The result encloses the coverage times the exact integrated cross section; and there are such grids for easy lines. *)
Theorem C107_integral : forall L modern k i m fin amu T w, pvlib_ok L -> floats k i m fin -> width m = Ok w ->
  let E_r := fsub (st_excitation_energy m) (st_excitation_energy i) in pv_params k E_r w amu T -> pv_floats k E_r w amu T ->
  exists p r, PseudoVoigtDistribution k E_r w amu T = Ok p /\
    PseudoVoigt modern k i (with_energy m (st_excitation_energy i + E_r)) amu T fin = Ok r /\ 0 < r_integrated r /\
  (forall c n ws g e, double c -> 0 <= c <= 1 -> (3 <= n <= 2 ^ 50)%Z ->
    fPseudoVoigt_grid modern L k i m amu T fin (Coverage c) n = (ws, Ok (Some g)) -> inverted ws ->
    exists xs, g = map Finite xs /\ pv_equidistant p ((1 - c) / 2) ((1 + c) / 2) n xs /\
     ((forall x, In x xs -> pv_blur p x <= e /\ Rabs x <= 2 ^ 60) -> 2 * e < c / IZR (n - 1) -> 14 * offset c n e < 1 ->
      strictly_ascending xs /\ exists vs, Forall2 (fun x v => fPseudoVoigt_call L k i m amu T fin x true = Ok v) xs vs /\
      forall t S D, order_of (Z.to_nat n - 1) t -> fdarboux t vs xs = (S, D) ->
        pv_integral_between (depth_of t) (Z.to_nat n - 1) (/ 2 ^ 38) c (2 * e) (offset c n e) (r_integrated r) S D)) /\
  (forall c n s, double c -> 0 <= c <= 1 -> (2 <= n <= 2 ^ 50)%Z -> easy_line p E_r s -> 4 * s + / 2 ^ 40 <= 1 - c ->
    exists xs, fPseudoVoigt_grid modern L k i m amu T fin (Coverage c) n = ([], Ok (Some (map Finite xs))) /\
      forall x, In x xs -> pv_blur p x <= line_blur p E_r /\ Rabs x <= 2 ^ 60).
Proof. exact pv_integral. Qed.

(** *** Non-vacuity *)
Example C107_library : pvlib_ok correct_pvlib. Proof. exact correct_pvlib_ok. Qed.
(** A resonance at an energy of 1 with a width of 1/1024 is an easy line, for grids with 3 to 100 points and a coverage of 1/4. *)
Example C107_line : floats lost_k lost_i wide_m None /\ width wide_m = Ok (/ 2 ^ 10) /\ fsub (st_excitation_energy wide_m) (st_excitation_energy lost_i) = 1 /\
  pv_params lost_k 1 (/ 2 ^ 10) 1000 0 /\ pv_floats lost_k 1 (/ 2 ^ 10) 1000 0 /\
  forall p, PseudoVoigtDistribution lost_k 1 (/ 2 ^ 10) 1000 0 = Ok p -> easy_line p 1 (1 / 8) /\
  forall n, (3 <= n <= 100)%Z -> double (1 / 4) /\ 4 * (1 / 8) + / 2 ^ 40 <= 1 - 1 / 4 /\
    2 * line_blur p 1 < (1 / 4) / IZR (n - 1) /\ 14 * offset (1 / 4) n (line_blur p 1) < 1.
Proof. exact easy_example. Qed.
Print Assumptions C107_objects.
Print Assumptions C107_interval.
Print Assumptions C107_interval_found.
Print Assumptions C107_coverage.
Print Assumptions C107_coverage_found.
Print Assumptions C107_limits.
Print Assumptions C107_limits_found.
Print Assumptions C107_ascending.
Print Assumptions C107_integral.
