(** C82: probability grids and coverage intervals with rounding. *)
From Coq Require Import Reals List ZArith Lra Lia.
From Coquelicot Require Import Rbar.
From Verif Require Import Py Spec M_Num M_Constituents M_Thermal M_Dist M_Grid M_CrossSection M_Resonance M_Float S_Float M_Float4 S_Float4 M_Float6 S_Float6
  L_Float L_Float2 L_Float20 L_Float21 L_Float22 L_Float23.
Import ListNotations.
Open Scope R_scope.

(** Between two energies: as long as the probability of a cell exceeds what rounding contributes, the grid has [n]
    finite points in strictly ascending order, begins and ends at the limits, and all cells are equally probable up to rounding. *)
Theorem C82_grid : forall f d l s, fdist_ok f d -> fline l s -> forall a b n, double a -> double b -> (2 <= n <= 2 ^ 50)%Z ->
  2 * blur l s < (line_cdf f l s b - line_cdf f l s a) / IZR (n - 1) ->
  exists xs, fprobability_grid d l s (Limits a b) n = Ok (map Finite xs) /\ first xs = a /\ final xs = b /\ strictly_ascending xs /\
    equidistant_to (line_cdf f l s) (line_cdf f l s a) (line_cdf f l s b) n (blur l s) xs.
Proof. exact (fun f d l s K L a b n => limits_grid f d l s a b n K L). Qed.

(** With a coverage: the same, and the grid spans the coverage interval. *)
Theorem C82_coverage_grid : forall f d l s, fdist_ok f d -> fline l s -> forall c n, double c -> 0 <= c <= 1 - 4 * unit_roundoff -> (2 <= n <= 2 ^ 50)%Z ->
  2 * blur l s < c / IZR (n - 1) ->
  exists lo hi xs, fcoverage_interval d l s c = Ok (Finite lo, Finite hi) /\ fprobability_grid d l s (Coverage c) n = Ok (map Finite xs) /\
    first xs = lo /\ final xs = hi /\ strictly_ascending xs /\
    equidistant_to (line_cdf f l s) ((1 - c) / 2) ((1 + c) / 2) n (blur l s) xs.
Proof. exact (fun f d l s K L c n => coverage_grid_ok f d l s c n K L). Qed.

(** The coverage interval leaves out the same probability on both sides, up to rounding. *)
Theorem C82_coverage : forall f d l s, fdist_ok f d -> fline l s -> forall c, double c -> 0 <= c <= 1 - 4 * unit_roundoff ->
  exists lo hi, fcoverage_interval d l s c = Ok (Finite lo, Finite hi) /\ double lo /\ double hi /\
    Rabs (line_cdf f l s lo - (1 - c) / 2) <= blur l s /\ Rabs (line_cdf f l s hi - (1 + c) / 2) <= blur l s.
Proof. exact (fun f d l s K L c => coverage_ok f d l s c K L). Qed.

(** The objects: location and scale are those of the exact object, the scale up to a few units. *)
Theorem C82_breit_wigner : forall d c k i m fin, clib_ok c -> floats k i m fin ->
  let E_r := fsub (st_excitation_energy m) (st_excitation_energy i) in
  exists r s s', BreitWigner k i (with_energy m (st_excitation_energy i + E_r)) fin = Ok r /\ r_params r = [E_r; s] /\ 0 < s /\
    fline E_r s' /\ Rabs (s' - s) <= 2 * unit_roundoff * s /\
    forall arg n, fBreitWigner_grid d c k i m fin arg n = fprobability_grid d E_r s' arg n.
Proof. exact bw_object. Qed.
Theorem C82_gauss : forall d c k i m amu T fin, clib_ok c -> floats k i m fin -> thermal k amu T ->
  let E_r := fsub (st_excitation_energy m) (st_excitation_energy i) in
  exists r s s', Gauss k i (with_energy m (st_excitation_energy i + E_r)) amu T fin = Ok r /\ r_params r = [E_r; s] /\ 0 < s /\
    fline E_r s' /\ Rabs (s' - s) <= 8 * unit_roundoff * s /\
    forall arg n, fGauss_grid d c k i m amu T fin arg n = fprobability_grid d E_r s' arg n.
Proof. exact gauss_object. Qed.

(** A coverage below 1 whose interval is infinite. *)
Theorem C82_coverage_refuted : exists d c, fdist_ok Cauchy d /\ fline 0 1 /\ double c /\ 0 <= c < 1 /\
  exists lo, fcoverage_interval d 0 1 c = Ok (lo, p_infty).
Proof. exact coverage_refuted. Qed.

(** Limits far above a Gaussian line: only the end points are repaired, all others are infinite. *)
Theorem C82_far : forall d l s, fline l s -> (forall t, double t -> 9 <= t -> f_cdf0 d t = 1) -> forall a b n, double a -> double b ->
  l + 10 * s <= a -> l + 10 * s <= b -> (2 <= n)%Z ->
  fprobability_grid d l s (Limits a b) n = Ok (Finite a :: repeat p_infty (Z.to_nat (n - 2)) ++ [Finite b]).
Proof. exact (fun d l s L H a b n => far_grid d l s a b n L H). Qed.
(** So a grid between two energies may have infinite points, *)
Theorem C82_far_refuted : exists d a b n g, fdist_ok Normal d /\ fline 0 1 /\ double a /\ double b /\ a < b /\ (2 <= n <= 2 ^ 50)%Z /\
  fprobability_grid d 0 1 (Limits a b) n = Ok g /\ In p_infty g.
Proof. exact far_refuted. Qed.
(** and so has the grid of a sum in which such a line takes part. *)
Theorem C82_sum_refuted : exists d a b n ss g, fdist_ok Normal d /\ fline 0 1 /\ double a /\ double b /\ a < b /\ (2 <= n <= 2 ^ 50)%Z /\
  pgrid (VSum [VConst 1; VLeaf (float_leaf d 0 1)] ss) (Limits a b) n = Ok (Some g) /\ In p_infty g.
Proof. exact sum_refuted. Qed.

(** *** Non-vacuity *)
(** Correctly rounded functions meet the hypotheses; a line from -1 to 1 with three points. *)
Example C82_library : forall f, fdist_ok f (correct_fdist f).
Proof. exact correct_fdist_ok. Qed.
Example C82_saturated : forall t, double t -> 9 <= t -> f_cdf0 (correct_fdist Normal) t = 1.
Proof. exact (fun t _ H => saturation t H). Qed.
Example C82_line : fline 0 1 /\ 2 * blur 0 1 < (line_cdf Cauchy 0 1 1 - line_cdf Cauchy 0 1 (-1)) / IZR (3 - 1).
Proof. exact (conj unit_line example_cells). Qed.
Print Assumptions C82_grid.
Print Assumptions C82_coverage_grid.
Print Assumptions C82_coverage.
Print Assumptions C82_breit_wigner.
Print Assumptions C82_gauss.
Print Assumptions C82_coverage_refuted.
Print Assumptions C82_far.
Print Assumptions C82_far_refuted.
Print Assumptions C82_sum_refuted.
