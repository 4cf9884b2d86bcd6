(** The functions of the example notebooks: notebooks/layer_target.ipynb (transmission through a target of four layers)
    and notebooks/6Li.ipynb (self absorption).  Numbers are real numbers; plots, the Monte-Carlo loop and the minimisation
    at the end of 6Li.ipynb are not modelled. *)
From Coq Require Import Reals List ZArith String.
From Coquelicot Require Import Coquelicot.
From Verif Require Import Py M_Num M_Grid M_Constituents M_Dist M_Resonance M_PseudoVoigt.
Import ListNotations.
Open Scope R_scope.
Open Scope py_scope.

(** Cross sections as the notebooks use them: callable objects. *)
Definition cross_section := R -> out R.

(** ** layer_target.ipynb *)
(** layer_target.ipynb:74-75, 91-92 (cell 1): number of nuclei per area of a cylindrical sample; the radius is 0.005e15 fm there. *)
Definition sample_areal_density (k : constants) (mass amu radius : R) : out R :=
  let! n := fdiv mass (amu * k_u_kg k) in fdiv n (PI * radius ^ 2).

(** layer_target.ipynb:331-350 (cell 13): [Phi] *)
Definition Phi (E rho : R) (sigma_nr sigma_r : cross_section) (abundance : R) : out R :=
  let! a := sigma_nr E in let! b := sigma_r E in Ok (exp (- (a + abundance * b) * rho)).
(** layer_target.ipynb:425-434 (cell 18): [alpha] *)
Definition alpha (E rho : R) (sigma_nr sigma_r : cross_section) (abundance : R) : out R :=
  let! b := sigma_r E in let! p := Phi E rho sigma_nr sigma_r abundance in Ok (abundance * b * p).

(** [scipy.integrate.nquad(f, [[a, b], [c, d]])[0]]: a parameter of the model. *)
Definition nquad_fn := (R -> R -> out R) -> R * R -> R * R -> out R.

(** layer_target.ipynb:481-504 (cell 21): the rates in an extended and in a thin target. *)
Definition count_rate (nquad : nquad_fn) (sigma_nr sigma_r : cross_section) (abundance : R) (energies : R * R) (r : R) : out R :=
  nquad (fun E rho => alpha E rho sigma_nr sigma_r abundance) energies (0, r).
Definition count_rate_thin_target (nquad : nquad_fn) (sigma_nr sigma_r : cross_section) (abundance : R) (energies : R * R) (r : R) : out R :=
  nquad (fun E rho => alpha E 0 sigma_nr sigma_r abundance) energies (0, r).

(** The module-level variables of layer_target.ipynb:57-92, 125-138, 214 (cells 1, 3 and 7). *)
Record target := {
  t_nr : cross_section; t_116 : resonance; t_112 : resonance;
  t_enrichment_116 : R; t_enrichment_112 : R;
  t_I : R; t_II : R; t_III : R; t_IV : R     (* areal densities of the layers *)
}.
Definition sigma_116 (t : target) : cross_section := fun E => res_call (t_116 t) E true.
Definition sigma_112 (t : target) : cross_section := fun E => res_call (t_112 t) E true.
(** layer_target.ipynb:284-288 (cell 11) *)
Definition rho_0 : R := 0.
Definition rho_I (t : target) : R := rho_0 + t_I t.
Definition rho_II (t : target) : R := rho_I t + t_II t.
Definition rho_III (t : target) : R := rho_II t + t_III t.
Definition rho_IV (t : target) : R := rho_III t + t_IV t.
(** layer_target.ipynb:575-620 (cell 25) *)
Definition dN_dE_drho_I (t : target) (E rho : R) : out R :=
  alpha E (rho - rho_0) (t_nr t) (sigma_116 t) (t_enrichment_116 t).
Definition dN_dE_drho_II (t : target) (E rho : R) : out R :=
  let! p := Phi E (rho_I t - rho_0) (t_nr t) (sigma_116 t) (t_enrichment_116 t) in
  let! a := alpha E (rho - rho_I t) (t_nr t) (sigma_112 t) (t_enrichment_112 t) in Ok (p * a).
Definition dN_dE_drho_III (t : target) (E rho : R) : out R :=
  let! p := Phi E (rho_I t - rho_0) (t_nr t) (sigma_116 t) (t_enrichment_116 t) in
  let! q := Phi E (rho_II t - rho_I t) (t_nr t) (sigma_112 t) (t_enrichment_112 t) in
  let! a := alpha E (rho - rho_II t) (t_nr t) (sigma_116 t) (t_enrichment_116 t) in Ok (p * q * a).
Definition dN_dE_drho_IV (t : target) (E rho : R) : out R :=
  let! p := Phi E (rho_I t - rho_0) (t_nr t) (sigma_116 t) (t_enrichment_116 t) in
  let! q := Phi E (rho_II t - rho_I t) (t_nr t) (sigma_112 t) (t_enrichment_112 t) in
  let! u := Phi E (rho_III t - rho_II t) (t_nr t) (sigma_116 t) (t_enrichment_116 t) in
  let! a := alpha E (rho - rho_III t) (t_nr t) (sigma_112 t) (t_enrichment_112 t) in Ok (p * q * u * a).
(** layer_target.ipynb:635-641 (cell 27): [equidistant_probability_grid(0.999, 2)] as a range of integration.  Simplified: anything that is not a pair of
    numbers raises TypeError (this is so for [None]; infinite limits do not occur for Voigt profiles). *)
Definition energy_range (r : resonance) : out (R * R) :=
  let! g := snd (res_probability_grid r (Coverage (999 / 1000)) 2) in
  match g with Some [Finite a; Finite b] => Ok (a, b) | _ => Raise TypeError end.
Definition N_116Sn_I (nquad : nquad_fn) (t : target) : out R :=
  let! range := energy_range (t_116 t) in nquad (dN_dE_drho_I t) range (rho_0, rho_I t).
Definition N_112Sn_II (nquad : nquad_fn) (t : target) : out R :=
  let! range := energy_range (t_112 t) in nquad (dN_dE_drho_II t) range (rho_I t, rho_II t).
Definition N_116Sn_III (nquad : nquad_fn) (t : target) : out R :=
  let! range := energy_range (t_116 t) in nquad (dN_dE_drho_III t) range (rho_II t, rho_III t).
Definition N_112Sn_IV (nquad : nquad_fn) (t : target) : out R :=
  let! range := energy_range (t_112 t) in nquad (dN_dE_drho_IV t) range (rho_III t, rho_IV t).

(** ** 6Li.ipynb *)
(** Masses from [natural_elements], and [li6_enrichment.mean()] (6Li.ipynb:108, cell 5: 0.95). *)
Record lithium := { li_6 : R; li_7 : R; li_C : R; li_O : R; li_mean : R }.
(** 6Li.ipynb:148-169 (cell 9): [molar_mass]; the argument is not used. *)
Definition molar_mass (l : lithium) (enrichment : R) : R :=
  2 * (li_mean l * li_6 l + (1 - li_mean l) * li_7 l) + li_C l + 3 * li_O l.
(** 6Li.ipynb:171-194 (cell 9): [areal_density] *)
Definition areal_density (k : constants) (l : lithium) (mass diameter enrichment : R) : out R :=
  fdiv (2 * enrichment * mass) (molar_mass l enrichment * k_u_kg k * PI * (1 / 2 * diameter * 10 ^ 15) ^ 2).
(** 6Li.ipynb:196-232 (cell 9): [photon_flux_density], [resonance_absorption_density] *)
Definition photon_flux_density (sigma : resonance) (energy rho : R) : out R :=
  let! s := res_call sigma energy false in Ok (exp (- s * rho)).
Definition resonance_absorption_density (sigma : resonance) (energy rho : R) : out R :=
  let! s := res_call sigma energy false in let! p := photon_flux_density sigma energy rho in Ok (s * p).

(** [scipy.integrate.quad(f, a, b)[0]] of a function that may raise: a parameter of the model. *)
Definition quad_out_fn := (R -> out R) -> R -> R -> out R.

(** 6Li.ipynb:442-520 (cell 17): [R], named [self_absorption] here.  Isotope objects that are not used are left out.  The quotient is one of
    Python floats. *)
Definition self_absorption (quad : quad_out_fn) (modern : bool) (k : constants) (l : lithium)
    (Gamma absorber_mass scatterer_mass diameter enrichment effective_temperature energy_coverage_interval : R) : out R :=
  let! excited := State "0^+_1" 0 1 (356288 / 10 ^ 5) [("1^+_1", Gamma)]%string in
  let! sigma := Voigt modern k (GroundState "1^+_1" 2 1) excited (li_6 l) effective_temperature None in
  let! absorber_areal_density := areal_density k l absorber_mass diameter enrichment in
  let! scatterer_areal_density := areal_density k l scatterer_mass diameter enrichment in
  let! limits := snd (coverage_interval sigma energy_coverage_interval) in
  match limits with
  | (Finite lo, Finite hi) =>
      let a := lo - st_excitation_energy (r_intermediate sigma) in
      let b := hi - st_excitation_energy (r_intermediate sigma) in
      let! numerator := quad (fun energy =>
        let! p := photon_flux_density sigma energy absorber_areal_density in
        let! s := res_call sigma energy false in Ok (p * (1 - exp (- s * scatterer_areal_density)))) a b in
      let! denominator := quad (fun energy =>
        let! s := res_call sigma energy false in Ok (1 - exp (- s * scatterer_areal_density))) a b in
      let! q := fdiv numerator denominator in Ok (1 - q)
  | _ => NaN              (* infinite limits: not needed below *)
  end.
