(** C110: Darboux integrals of Voigt profiles with rounding. *)
From Coq Require Import Reals List ZArith.
From Coquelicot Require Import Coquelicot.
From Flocq Require Import Core BinarySingleNaN.
From Verif Require Import Py Spec M_Num M_Grid M_Dist M_Constituents M_Thermal M_CrossSection S_CrossSection M_Resonance M_PseudoVoigt S_Resonance S_PseudoVoigt M_Float S_Float M_Float4 S_Float4 M_Float8 S_Float8 M_Float11 S_Float11 S_Float12 S_Float14
  M_Ieee M_Ieee2 S_Ieee M_Ieee7 S_Ieee7 M_Ieee8 S_Ieee8 L_Float10 L_Float49 L_Float54 L_Ieee9 L_Ieee35.
Import ListNotations.
Open Scope R_scope.

(** The cross section of a Voigt profile at the points of any grid and its Darboux sums, all of it rounded: they enclose the exact integral of the
    cross section from the first to the last point, up to rounding, and up to the curvature of the line at the grid point [y] next to its maximum. *)
Theorem C110_integral : forall L eps vp, pvlib_ok L -> profile_ok eps vp -> 0 <= eps <= / 4 ->
  forall modern k i m fin amu T w, floats k i m fin -> width m = Ok w ->
  let E_r := fsub (st_excitation_energy m) (st_excitation_energy i) in pv_params k E_r w amu T -> pv_floats k E_r w amu T ->
  exists p r f, PseudoVoigtDistribution k E_r w amu T = Ok p /\
    Voigt modern k i (with_energy m (st_excitation_energy i + E_r)) amu T fin = Ok r /\ 0 < r_integrated r /\ cross_section_is r f /\
  forall xs delta c y, grid xs -> delta <= 1 -> (forall x, In x xs -> Rabs x <= 2 ^ 60 /\ voigt_error p eps E_r delta x) ->
    In y xs -> 0 <= c -> near_centre p E_r c y ->
    exists vs J, Forall2 (fun x v => fVoigt_call L vp k i m amu T fin x true = Ok v) xs vs /\ is_RInt f (first xs) (final xs) J /\
    forall t S D, order_of (List.length xs - 1) t -> fdarboux t vs xs = (S, D) -> encloses (depth_of t) (List.length xs - 1) delta c J S D.
Proof. exact (fun L eps vp HL HV He => voigt_integral L HL eps vp HV He). Qed.
(** The same with infinities and nan: neither occurs, for sums with up to 400 additions one after the other. *)
Theorem C110_finite : forall L V B k bi i bm m bfin fin bamu amu bT T w, pvlib_ok V -> same_pvlib L V -> same_constants B k -> floats k i m fin -> width m = Ok w ->
  pv_params k (fsub (st_excitation_energy m) (st_excitation_energy i)) w amu T -> pv_floats k (fsub (st_excitation_energy m) (st_excitation_energy i)) w amu T ->
  rep bamu amu -> rep bT T -> same_state bi i -> same_state bm m -> same_final bfin fin ->
  forall vp bvp eps, profile_ok eps vp -> 0 <= eps <= / 4 -> same_profile bvp vp -> forall modern,
  let E_r := fsub (st_excitation_energy m) (st_excitation_energy i) in
  exists p r f, PseudoVoigtDistribution k E_r w amu T = Ok p /\
    Voigt modern k i (with_energy m (st_excitation_energy i + E_r)) amu T fin = Ok r /\ 0 < r_integrated r /\ cross_section_is r f /\
  forall bxs delta c y, List.Forall finite bxs -> let xs := map B2R bxs in ascending xs -> delta <= 1 ->
    (forall x, In x xs -> Rabs x <= 2 ^ 60 /\ voigt_error p eps E_r delta x) -> In y xs -> 0 <= c -> near_centre p E_r c y ->
    exists vs J, Forall2 (fun x v => bVoigt_call L bvp B bi bm bamu bT bfin x true = Ok v) bxs vs /\ is_RInt f (first xs) (final xs) J /\
    forall t S D, order_of (List.length xs - 1) t -> (depth_of t <= 400)%nat -> bdarboux t vs bxs = (S, D) ->
      finite S /\ finite D /\ encloses (depth_of t) (List.length xs - 1) delta c J (B2R S) (B2R D).
Proof. exact bvoigt_integral. Qed.

(** *** Non-vacuity *)
(** A line at an energy of 1 with a width of 1/1024 and the points 0, 1 and 3.  (For the functions of the library, see [C109_library].) *)
Example C110_case : let E_r := fsub (st_excitation_energy wide_m) (st_excitation_energy lost_i) in
  same_resonance correct_library correct_pvlib (of_constants ieee_k) ieee_k (of_state lost_i) lost_i (of_state wide_m) wide_m None None (of_Z 1000) 1000 (of_Z 0) 0 (/ 2 ^ 10) /\
  exists p, PseudoVoigtDistribution ieee_k E_r (/ 2 ^ 10) 1000 0 = Ok p /\
  let bxs := [of_Z 0; of_Z 1; of_Z 3] in let xs := map B2R bxs in List.Forall finite bxs /\ ascending xs /\
    (forall x, In x xs -> Rabs x <= 2 ^ 60 /\ voigt_error p unit_roundoff E_r (/ 2 ^ 30) x) /\ In 1 xs /\ near_centre p E_r 0 1 /\
    order_of (List.length xs - 1) (Some (Plus (Index 0) (Index 1))) /\ (depth_of (Some (Plus (Index 0) (Index 1))) <= 400)%nat.
Proof. exact integral_example. Qed.
Print Assumptions C110_integral.
Print Assumptions C110_finite.
