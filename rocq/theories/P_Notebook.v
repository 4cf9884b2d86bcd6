(** C93, C94: the calculations of the example notebooks. *)
From Coq Require Import Reals List ZArith Lra String.
From Coquelicot Require Import Coquelicot.
From Verif Require Import Py Spec M_Num M_Grid M_Constituents M_Thermal M_Dist M_Resonance M_PseudoVoigt M_Notebook S_Resonance S_PseudoVoigt S_Voigt S_Notebook
  L_Resonance6 L_Notebook L_Notebook2 L_Notebook3 L_Notebook4 L_Notebook5 L_Notebook6 L_Notebook7.
Import ListNotations.
Open Scope R_scope.

(** ** C93: layer_target.ipynb *)
(** The flux obeys the equation of attenuation; there is no other solution. *)
Theorem C93_flux : forall E nr sr x n r, nr E = Ok n -> sr E = Ok r -> 0 <= n -> 0 <= r -> 0 <= x -> exists phi : R -> R,
  (forall rho, Phi E rho nr sr x = Ok (phi rho)) /\ (forall rho, alpha E rho nr sr x = Ok (x * r * phi rho)) /\
  phi 0 = 1 /\ (forall rho, is_derive phi rho (- (n + x * r) * phi rho)) /\ (forall rho, 0 <= rho -> 0 < phi rho <= 1) /\
  (forall u v, phi (u + v) = phi u * phi v) /\ (forall u v, u <= v -> phi v <= phi u).
Proof. exact flux. Qed.
Theorem C93_flux_unique : forall (psi : R -> R) s, psi 0 = 1 -> (forall rho, is_derive psi rho (- s * psi rho)) -> forall rho, psi rho = exp (- (s * rho)).
Proof. exact flux_unique. Qed.
(** Photons of one energy: what reacts in the layers and what gets through. *)
Theorem C93_balance : forall t n p q E, t_nr t E = Ok (n E) -> res_call (t_116 t) E true = Ok (p E) -> res_call (t_112 t) E true = Ok (q E) ->
  0 < n E -> 0 <= p E -> 0 <= q E -> 0 <= t_enrichment_116 t /\ 0 <= t_enrichment_112 t -> 0 <= t_I t /\ 0 <= t_II t /\ 0 <= t_III t /\ 0 <= t_IV t ->
  let I := slab_of (t_I t) n (t_enrichment_116 t) p in
  let II := slab_of (t_II t) n (t_enrichment_112 t) q in
  let III := slab_of (t_III t) n (t_enrichment_116 t) p in
  let IV := slab_of (t_IV t) n (t_enrichment_112 t) q in
  exists f1 f2 f3 f4 x1 x2 x3 x4,
    (forall rho, dN_dE_drho_I t E rho = Ok (f1 rho)) /\ is_RInt f1 rho_0 (rho_I t) x1 /\ x1 = reacted [] I E /\
    (forall rho, dN_dE_drho_II t E rho = Ok (f2 rho)) /\ is_RInt f2 (rho_I t) (rho_II t) x2 /\ x2 = reacted [I] II E /\
    (forall rho, dN_dE_drho_III t E rho = Ok (f3 rho)) /\ is_RInt f3 (rho_II t) (rho_III t) x3 /\ x3 = reacted [I; II] III E /\
    (forall rho, dN_dE_drho_IV t E rho = Ok (f4 rho)) /\ is_RInt f4 (rho_III t) (rho_IV t) x4 /\ x4 = reacted [I; II; III] IV E /\
    0 <= x1 /\ 0 <= x2 /\ 0 <= x3 /\ 0 <= x4 /\ x1 + x2 + x3 + x4 + transmission [I; II; III; IV] E <= 1.
Proof. exact balance. Qed.
(** The limits of the integration over the energy: finite, around the resonance. *)
Theorem C93_energy_range : forall r p, voigt_line r p -> pv_Gamma p <= 10 ^ 9 -> exists a b, energy_range r = Ok (a, b) /\ a < b /\ a <= r_energy r <= b.
Proof. exact line_range. Qed.
(** The four rates. *)
Theorem C93_rates : forall nquad eps t n pp qq, nquad_accurate eps nquad -> voigt_line (t_116 t) pp -> voigt_line (t_112 t) qq -> pv_Gamma pp <= 10 ^ 9 -> pv_Gamma qq <= 10 ^ 9 ->
  0 <= t_enrichment_116 t /\ 0 <= t_enrichment_112 t -> 0 <= t_I t /\ 0 <= t_II t /\ 0 <= t_III t /\ 0 <= t_IV t ->
  exists a b c d p q, energy_range (t_116 t) = Ok (a, b) /\ energy_range (t_112 t) = Ok (c, d) /\ a < b /\ c < d /\ cross_section_is (t_116 t) p /\ cross_section_is (t_112 t) q /\
  (positive_between a b (t_nr t) n -> positive_between c d (t_nr t) n ->
    let I := slab_of (t_I t) n (t_enrichment_116 t) p in
    let II := slab_of (t_II t) n (t_enrichment_112 t) q in
    let III := slab_of (t_III t) n (t_enrichment_116 t) p in
    let IV := slab_of (t_IV t) n (t_enrichment_112 t) q in
    is_rate eps (N_116Sn_I nquad t) [] I a b /\ is_rate eps (N_112Sn_II nquad t) [I] II c d /\
    is_rate eps (N_116Sn_III nquad t) [I; II] III a b /\ is_rate eps (N_112Sn_IV nquad t) [I; II; III] IV c d).
Proof. exact four_rates. Qed.
(** One layer: the approximation of a thin target is too large, by a known amount at most. *)
Theorem C93_thin_target : forall nquad eps nr sr n r x a b d, nquad_accurate eps nquad -> a <= b -> 0 <= d -> 0 <= x ->
  (forall E, a <= E <= b -> nr E = Ok (n E) /\ continuity_pt n E /\ 0 <= n E) ->
  (forall E, a <= E <= b -> sr E = Ok (r E) /\ continuity_pt r E /\ 0 <= r E) -> (forall E, a <= E <= b -> 0 < n E + x * r E) ->
  exists v w, count_rate nquad nr sr x (a, b) d = Ok v /\ count_rate_thin_target nquad nr sr x (a, b) d = Ok w /\
    Rabs (v - RInt (reacted [] (slab_of d n x r)) a b) <= eps /\ Rabs (w - x * d * RInt r a b) <= eps /\
    0 <= w - v + 2 * eps /\ w - v <= d ^ 2 / 2 * RInt (fun E => x * r E * (n E + x * r E)) a b + 2 * eps.
Proof. exact one_layer. Qed.
(** Two lines at 1 MeV, four layers, a smooth background. *)
Example target_ex : exists t n p q, voigt_line (t_116 t) p /\ voigt_line (t_112 t) q /\ pv_Gamma p <= 10 ^ 9 /\ pv_Gamma q <= 10 ^ 9 /\
  (0 <= t_enrichment_116 t /\ 0 <= t_enrichment_112 t) /\ (0 <= t_I t /\ 0 <= t_II t /\ 0 <= t_III t /\ 0 <= t_IV t) /\ forall a b, positive_between a b (t_nr t) n.
Proof. exact target_example. Qed.
(** An integrator that meets the premise. *)
Example nquad_ex : forall eps, 0 <= eps -> nquad_accurate eps ideal_nquad.
Proof. exact ideal_nquad_accurate. Qed.

(** ** C94: 6Li.ipynb *)
(** [R] is the loss of reactions in the scatterer, integrated over the interval of the requested coverage. *)
Theorem C94_value : forall quad modern k l Gamma T c p, quad_exact quad -> experiment k l Gamma T c p ->
  exists r f lo hi, Voigt modern k (GroundState "1^+_1" 2 1) (Li_excited Gamma) (li_6 l) T None = Ok r /\ snd (coverage_interval r c) = Ok (Finite lo, Finite hi) /\
    cross_section_is r f /\ (forall E, continuity_pt f E) /\ (forall E, 0 < f E) /\ strictly_unimodal E_Li f /\ lo < hi /\ lo <= E_Li <= hi /\
    forall ma ms d x ra rs, areal_density k l ma d x = Ok ra -> areal_density k l ms d x = Ok rs -> 0 < rs ->
      self_absorption quad modern k l Gamma ma ms d x T c = Ok (loss (pure_slab ra f) (pure_slab rs f) lo hi).
Proof. exact R_value. Qed.
(** At least 0, less than 1, and 0 without an absorber only. *)
Theorem C94_range : forall quad modern k l Gamma T c p, quad_exact quad -> experiment k l Gamma T c p -> forall d x, 0 < d -> 0 < x ->
  forall ma ms, 0 <= ma -> 0 < ms -> exists v, self_absorption quad modern k l Gamma ma ms d x T c = Ok v /\ 0 <= v < 1 /\ (v = 0 <-> ma = 0).
Proof. exact R_range. Qed.
(** The heavier the absorber the larger. *)
Theorem C94_absorber : forall quad modern k l Gamma T c p, quad_exact quad -> experiment k l Gamma T c p -> forall d x, 0 < d -> 0 < x ->
  forall ma ma' ms v v', 0 < ms -> ma < ma' ->
  self_absorption quad modern k l Gamma ma ms d x T c = Ok v -> self_absorption quad modern k l Gamma ma' ms d x T c = Ok v' -> v < v'.
Proof. exact R_absorber. Qed.
(** The heavier the scatterer the smaller. *)
Theorem C94_scatterer : forall quad modern k l Gamma T c p, quad_exact quad -> experiment k l Gamma T c p -> forall d x, 0 < d -> 0 < x ->
  forall ma ms ms' v v', 0 <= ma -> 0 < ms <= ms' ->
  self_absorption quad modern k l Gamma ma ms d x T c = Ok v -> self_absorption quad modern k l Gamma ma ms' d x T c = Ok v' -> v' <= v.
Proof. exact R_scatterer. Qed.
(** Between the absorption at the ends of the interval and that at the resonance. *)
Theorem C94_bounds : forall quad modern k l Gamma T c p, quad_exact quad -> experiment k l Gamma T c p -> forall d x, 0 < d -> 0 < x ->
  forall ma ms, 0 <= ma -> 0 < ms -> exists v r lo hi s0 s1 s ra, self_absorption quad modern k l Gamma ma ms d x T c = Ok v /\
    Voigt modern k (GroundState "1^+_1" 2 1) (Li_excited Gamma) (li_6 l) T None = Ok r /\ snd (coverage_interval r c) = Ok (Finite lo, Finite hi) /\
    res_call r lo true = Ok s0 /\ res_call r hi true = Ok s1 /\ res_call r E_Li true = Ok s /\ areal_density k l ma d x = Ok ra /\
    1 - exp (- (Rmin s0 s1 * ra)) <= v <= 1 - exp (- (s * ra)) /\ v <= s * ra.
Proof. exact R_bounds. Qed.
(** Only masses of 6Li per area matter. *)
Theorem C94_scaling : forall quad modern k l Gamma T c p d x ma ms q y, experiment k l Gamma T c p -> 0 < d -> 0 < x -> 0 < q -> 0 < y ->
  self_absorption quad modern k l Gamma (q ^ 2 / y * ma) (q ^ 2 / y * ms) (q * d) (y * x) T c = self_absorption quad modern k l Gamma ma ms d x T c.
Proof. exact R_scaling. Qed.
(** [areal_density]: right for the mean enrichment; in general off by the quotient of two molar masses, since [molar_mass] ignores its argument. *)
Theorem C94_areal_density : forall k l m d x, constants_ok k -> li_ok l -> 0 < d -> 0 <= x <= 1 ->
  areal_density k l m d x = Ok (li6_per_area (k_u_kg k) (li_6 l) (li_7 l) (li_C l) (li_O l) m d x *
    (carbonate (li_6 l) (li_7 l) (li_C l) (li_O l) x / carbonate (li_6 l) (li_7 l) (li_C l) (li_O l) (li_mean l))).
Proof. exact areal_density_ratio. Qed.
Theorem C94_areal_density_mean : forall k l m d, constants_ok k -> li_ok l -> 0 < d ->
  areal_density k l m d (li_mean l) = Ok (li6_per_area (k_u_kg k) (li_6 l) (li_7 l) (li_C l) (li_O l) m d (li_mean l)).
Proof. exact areal_density_right. Qed.
Theorem C94_areal_density_wrong : forall k l m d x, constants_ok k -> li_ok l -> 0 < d -> 0 < x <= 1 -> 0 < m -> li_6 l < li_7 l ->
  exists v, areal_density k l m d x = Ok v /\
    (x < li_mean l -> li6_per_area (k_u_kg k) (li_6 l) (li_7 l) (li_C l) (li_O l) m d x < v) /\
    (li_mean l < x -> v < li6_per_area (k_u_kg k) (li_6 l) (li_7 l) (li_C l) (li_O l) m d x).
Proof. exact areal_density_wrong. Qed.
Theorem C94_areal_density_refuted : exists k l m d x, constants_ok k /\ li_ok l /\ 0 < d /\ 0 < x < 1 /\ 0 < m /\
  areal_density k l m d x <> Ok (li6_per_area (k_u_kg k) (li_6 l) (li_7 l) (li_C l) (li_O l) m d x).
Proof. exact areal_density_refuted. Qed.
(** The numbers of the notebook. *)
Example experiment_ex : exists p, experiment codata lithium_carbonate (8.17 / 10 ^ 6) 411 (999 / 1000) p.
Proof. exact experiment_example. Qed.
Example quad_ex : quad_exact ideal_quad.
Proof. exact ideal_quad_exact. Qed.

Print Assumptions C93_flux.
Print Assumptions C93_flux_unique.
Print Assumptions C93_balance.
Print Assumptions C93_energy_range.
Print Assumptions C93_rates.
Print Assumptions C93_thin_target.
Print Assumptions C94_value.
Print Assumptions C94_range.
Print Assumptions C94_absorber.
Print Assumptions C94_scatterer.
Print Assumptions C94_bounds.
Print Assumptions C94_scaling.
Print Assumptions C94_areal_density.
Print Assumptions C94_areal_density_mean.
Print Assumptions C94_areal_density_wrong.
Print Assumptions C94_areal_density_refuted.
