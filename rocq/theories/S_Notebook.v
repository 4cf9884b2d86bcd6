(** Vocabulary for the properties of the notebooks (C93, C94). *)
From Coq Require Import String Reals List.
From Coquelicot Require Import Coquelicot.
From Verif Require Import Py Spec M_Num M_Constituents M_Resonance M_PseudoVoigt M_Notebook S_PseudoVoigt.
Import ListNotations.
Open Scope R_scope.

(** *** Attenuation in a stack of homogeneous layers *)
(** Areal density, cross section of the reaction of interest, cross section of all reactions. *)
Record slab := { sl_depth : R; sl_part : R -> R; sl_total : R -> R }.
(** The fraction of the photons of the energy [E] that gets through all layers. *)
Fixpoint transmission (ls : list slab) (E : R) : R :=
  match ls with [] => 1 | l :: ls => exp (- (sl_total l E * sl_depth l)) * transmission ls E end.
(** The fraction that undergoes the reaction of interest in [l], if it has to pass [before]. *)
Definition reacted (before : list slab) (l : slab) (E : R) : R :=
  transmission before E * (sl_part l E / sl_total l E) * (1 - exp (- (sl_total l E * sl_depth l))).

(** *** Numerical integration *)
(** Iterated integral over the first, then over the second argument, up to [eps]. *)
Definition iterated_integral (g : R -> R -> R) (a b c d I : R) : Prop :=
  (forall y, c <= y <= d -> ex_RInt (fun x => g x y) a b) /\ is_RInt (fun y => RInt (fun x => g x y) a b) c d I.
Definition nquad_accurate (eps : R) (nquad : (R -> R -> out R) -> R * R -> R * R -> out R) : Prop :=
  forall f g a b c d I, a <= b -> c <= d -> (forall x y, a <= x <= b -> c <= y <= d -> f x y = Ok (g x y)) ->
    iterated_integral g a b c d I -> exists v, nquad f (a, b) (c, d) = Ok v /\ Rabs (v - I) <= eps.
Definition quad_exact (quad : (R -> out R) -> R -> R -> out R) : Prop :=
  forall f g a b I, a <= b -> (forall x, a <= x <= b -> f x = Ok (g x)) -> is_RInt g a b I -> quad f a b = Ok I.
(** Such integrators. *)
Definition ideal_nquad (f : R -> R -> out R) (x y : R * R) : out R :=
  Ok (RInt (fun v => RInt (fun u => match f u v with Ok w => w | _ => 0 end) (fst x) (snd x)) (fst y) (snd y)).
Definition ideal_quad (f : R -> out R) (a b : R) : out R := Ok (RInt (fun u => match f u with Ok w => w | _ => 0 end) a b).

(** *** Lithium carbonate *)
(** Mass of Li2CO3 per mole, [x] the fraction of 6Li. *)
Definition carbonate (m6 m7 mC mO x : R) : R := 2 * (x * m6 + (1 - x) * m7) + mC + 3 * mO.
(** 6Li nuclei per area: two lithium nuclei per formula unit. *)
Definition li6_per_area (u m6 m7 mC mO mass diameter x : R) : R :=
  2 * x * (mass / (carbonate m6 m7 mC mO x * u)) / (PI * (diameter * 10 ^ 15 / 2) ^ 2).

(** A layer with the areal density [d]: nonresonant cross section [n], resonant cross section [r] of an isotope with the abundance [x]. *)
Definition slab_of (d : R) (n : R -> R) (x : R) (r : R -> R) : slab := {| sl_depth := d; sl_part := fun E => x * r E; sl_total := fun E => n E + x * r E |}.
(** Reactions per areal density at the depth [y] in the layer [l]. *)
Definition rate (before : list slab) (l : slab) (y E : R) : R := transmission before E * sl_part l E * exp (- (sl_total l E * y)).

(** [r] is a Voigt profile with physically meaningful parameters whose quantiles are those of [p]. *)
Definition voigt_line (r : resonance) (p : pv) : Prop := exists modern k i m amu T fin w, Voigt modern k i m amu T fin = Ok r /\ width m = Ok w /\
  pv_params k (r_energy r) w amu T /\ PseudoVoigtDistribution k (r_energy r) w amu T = Ok p /\ 0 < r_integrated r.
(** A cross section that is continuous and positive between [a] and [b]. *)
Definition positive_between (a b : R) (sigma : R -> out R) (f : R -> R) : Prop := forall E, a <= E <= b -> sigma E = Ok (f E) /\ continuity_pt f E /\ 0 < f E.
(** The rate [o] is, up to [eps], the integral over the energies from [a] to [b] of the fraction of the photons that react in layer [l] after having passed the layers [before]; that integral is not negative, and
    self absorption makes it at most the rate of an infinitely thin layer with the same number of nuclei. *)
Definition is_rate (eps : R) (o : out R) (before : list slab) (l : slab) (a b : R) : Prop :=
  exists v, o = Ok v /\ Rabs (v - RInt (reacted before l) a b) <= eps /\ 0 <= RInt (reacted before l) a b <= sl_depth l * RInt (sl_part l) a b.

(** Self absorption: the loss of reactions in the scatterer [l] that the absorber [before] causes. *)
Definition loss (before l : slab) (a b : R) : R := 1 - RInt (reacted [before] l) a b / RInt (reacted [] l) a b.
(** A layer of nuclei with the cross section [f]; no other processes. *)
Definition pure_slab (d : R) (f : R -> R) : slab := {| sl_depth := d; sl_part := f; sl_total := f |}.
(** The masses are positive and the mean enrichment is a fraction. *)
Definition lithium_ok (m6 m7 mC mO mean : R) : Prop := 0 < m6 /\ 0 < m7 /\ 0 < mC /\ 0 < mO /\ 0 <= mean <= 1.
Definition li_ok (l : lithium) : Prop := lithium_ok (li_6 l) (li_7 l) (li_C l) (li_O l) (li_mean l).
(** Energy of the excited state of 6Li in MeV. *)
Definition E_Li : R := 356288 / 10 ^ 5.
(** What [R] needs: a positive width, a temperature, a coverage that the root finder can reach. *)
Definition experiment (k : constants) (l : lithium) (Gamma T c : R) (p : pv) : Prop :=
  constants_ok k /\ li_ok l /\ 0 < Gamma /\ 0 <= T /\ 0 < c < 1 /\
  PseudoVoigtDistribution k E_Li Gamma (li_6 l) T = Ok p /\ pv_Gamma p <= 2 ^ 70 * (1 - c) ^ 4.
(** The excited state with the width [Gamma] MeV for the decay to the ground state. *)
Definition Li_excited (Gamma : R) : state := {| st_J_pi := "0^+_1"; st_two_J := 0; st_parity := 1; st_excitation_energy := E_Li; st_decays := Some ([("1^+_1"%string, Gamma)], 0 + Gamma) |}.
