(** C25-C35 and C41: resonances (default box shape, Breit-Wigner, Gauss). *)
From Coq Require Import Reals List ZArith String Lra Lia Permutation Sorted.
From Coquelicot Require Import Coquelicot.
From Verif Require Import Py Spec M_Num M_Grid M_Constituents M_Thermal M_Dist M_Resonance M_CrossSection M_Darboux
  S_CrossSection S_Resonance L_Constituents L_Resonance2 L_Resonance3 L_Resonance4 L_Resonance5 L_Resonance6.
Import ListNotations.
Open Scope R_scope.

(** [ground] and [excited] are the states of a concrete transition at 1 MeV with a width of 2 MeV. *)
Example resonance_ex : exists r, Resonance codata ground excited None NoRecoil = Ok r /\ r_energy r = 1 /\ 0 < r_integrated r.
Proof. exact res_example. Qed.
Example breit_wigner_ex : exists r, BreitWigner codata ground excited None = Ok r /\ width excited = Ok 2 /\
  r_energy r = 1 /\ 0 < r_integrated r.
Proof. exact bw_example. Qed.
Example gauss_ex : constants_ok codata /\
  exists r, Gauss codata ground excited 12 300 None = Ok r /\ r_energy r = 1 /\ 0 < r_integrated r.
Proof. exact (conj codata_ok gauss_example). Qed.

(** ** C25 *)
Theorem C25_raises_iff_incomplete : forall k i m fin rec E_r, (0 <= st_two_J i)%Z ->
  rec (st_excitation_energy m - st_excitation_energy i) = Ok E_r ->
  ((exists e, Resonance k i m fin rec = Raise e) <-> incomplete E_r i m fin) /\
  (forall r, Resonance k i m fin rec = Ok r -> ~ incomplete E_r i m fin) /\
  Resonance k i m fin rec <> NaN.
Proof. exact resonance_raises_iff. Qed.

Theorem C25_exceptions : forall k i m fin rec E_r e, (0 <= st_two_J i)%Z ->
  rec (st_excitation_energy m - st_excitation_energy i) = Ok E_r ->
  Resonance k i m fin rec = Raise e ->
  match e with
  | ZeroDivisionError => E_r = 0 \/ (fin <> None /\ width m = Ok 0)
  | AttributeError => st_decays m = None
  | KeyError => exists pw, partial_widths m = Ok pw /\
      (~ In (st_J_pi i) (dkeys pw) \/ exists f, fin = Some f /\ ~ In (st_J_pi f) (dkeys pw))
  | _ => False
  end.
Proof. exact resonance_exceptions. Qed.

Theorem C25_attributes : forall k i m fin rec r, Resonance k i m fin rec = Ok r ->
  exists E_r pw w g0 br,
    rec (st_excitation_energy m - st_excitation_energy i) = Ok E_r /\ E_r <> 0 /\
    IZR (st_two_J i) + 1 <> 0 /\
    st_decays m = Some (pw, w) /\ dget pw (st_J_pi i) = Some g0 /\
    get_final_state_branching_ratio m fin = Ok br /\
    r_initial r = i /\ r_intermediate r = m /\ r_final r = fin /\
    r_energy r = E_r /\ r_constant r = (PI * k_hbarc k) ^ 2 /\
    r_statistical_factor r = (IZR (st_two_J m) + 1) / (IZR (st_two_J i) + 1) /\
    r_branching r = br /\
    r_integrated r = (PI * k_hbarc k) ^ 2 / E_r ^ 2 * ((IZR (st_two_J m) + 1) / (IZR (st_two_J i) + 1)) * g0 * br /\
    r_dist r = uniform /\ r_params r = [E_r - 1 / 2; 1].
Proof. exact resonance_inv. Qed.

Theorem C25_recoil_errors : forall k i m fin rec,
  (forall e, rec (st_excitation_energy m - st_excitation_energy i) = Raise e -> Resonance k i m fin rec = Raise e) /\
  (rec (st_excitation_energy m - st_excitation_energy i) = NaN -> Resonance k i m fin rec = NaN).
Proof. exact recoil_outcome. Qed.

Theorem C25_subclasses : forall k i m fin,
  (forall e, BreitWigner k i m fin = Raise e <-> Resonance k i m fin NoRecoil = Raise e) /\
  BreitWigner k i m fin <> NaN /\
  (forall amu T, constants_ok k -> 0 < amu -> 0 <= T ->
     (forall e, Gauss k i m amu T fin = Raise e <-> Resonance k i m fin NoRecoil = Raise e) /\
     Gauss k i m amu T fin <> NaN).
Proof. exact subclass_errors. Qed.

(** ** C26 *)
(** The value itself is part of [C25_attributes]; here the dependence on the final state. *)
Theorem C26_sum_over_final_states : forall k i J tJ p E (pw : dict R) m w rec r0 fs, dict_ok pw ->
  State J tJ p E pw = Ok m -> width m = Ok w -> w <> 0 -> Resonance k i m None rec = Ok r0 ->
  Permutation (map st_J_pi fs) (dkeys pw) ->
  exists rs, traverse (fun f => Resonance k i m (Some f) rec) fs = Ok rs /\
             Rsum (map r_integrated rs) = r_integrated r0.
Proof. exact integrated_sum. Qed.

Theorem C26_formula : forall k i m fin rec r E_r pw w g0 br, Resonance k i m fin rec = Ok r ->
  rec (st_excitation_energy m - st_excitation_energy i) = Ok E_r -> st_decays m = Some (pw, w) ->
  dget pw (st_J_pi i) = Some g0 ->
  br = match fin with None => 1 | Some f => match dget pw (st_J_pi f) with Some g => g / w | None => 0 end end ->
  r_integrated r = PI ^ 2 * (k_hbarc k / E_r) ^ 2 *
    ((IZR (st_two_J m) + 1) / (IZR (st_two_J i) + 1)) * g0 * br.
Proof. exact integrated_formula. Qed.

Theorem C26_nonneg : forall k i m fin rec r, (0 <= st_two_J i)%Z -> (0 <= st_two_J m)%Z ->
  (forall pw w, st_decays m = Some (pw, w) -> 0 <= w /\ List.Forall (fun g => 0 <= g) (dvalues pw)) ->
  Resonance k i m fin rec = Ok r -> 0 <= r_integrated r.
Proof. exact integrated_nonneg. Qed.

(** ** C27 *)
Theorem C27_relative_energy : forall r E, res_call r E false = res_call r (E + r_energy r) true.
Proof. exact relative_energy. Qed.

Theorem C27_symmetric : forall k i m fin,
  (forall rec r, Resonance k i m fin rec = Ok r ->
     exists f, cross_section_is r f /\ symmetric_about (r_energy r) f) /\
  (forall r w, BreitWigner k i m fin = Ok r -> width m = Ok w -> 0 < w ->
     exists f, cross_section_is r f /\ symmetric_about (r_energy r) f) /\
  (forall amu T r, constants_ok k -> 0 < amu -> 0 < T -> Gauss k i m amu T fin = Ok r -> 0 < r_energy r ->
     exists f, cross_section_is r f /\ symmetric_about (r_energy r) f).
Proof. exact models_symmetric. Qed.

(** ** C28 *)
Theorem C28_box : forall k i m fin rec r c, Resonance k i m fin rec = Ok r -> 0 <= c <= 1 -> covers r c.
Proof. exact box_covers'. Qed.
Theorem C28_breit_wigner : forall k i m fin r w c,
  BreitWigner k i m fin = Ok r -> width m = Ok w -> 0 < w -> 0 <= c < 1 -> covers r c.
Proof. exact bw_covers. Qed.
Theorem C28_gauss : forall k i m amu T fin r c, constants_ok k -> 0 < amu -> 0 < T ->
  Gauss k i m amu T fin = Ok r -> 0 < r_energy r -> 0 <= c < 1 -> covers r c.
Proof. exact gauss_covers. Qed.
Theorem C28_total : forall r c, covers r c -> exists ws lo hi f,
  coverage_interval r c = (ws, Ok (Finite lo, Finite hi)) /\ cross_section_is r f /\
  is_RInt f lo hi (c * r_integrated r).
Proof. exact covers_total. Qed.

(** ** C29 *)
(** The warnings are issued exactly when they should be; [cauchy_cdf E_r (Gamma/2)] is the CDF of the
    Breit-Wigner cross section (C34), and a limit is negative iff the CDF at 0 exceeds the quantile. *)
Theorem C29_breit_wigner_warnings : forall k i m fin r w c,
  BreitWigner k i m fin = Ok r -> width m = Ok w -> 0 < w -> 0 <= c <= 1 ->
  exists ws lo hi, coverage_interval r c = (ws, Ok (lo, hi)) /\
    is_quantile (cauchy_cdf (r_energy r) (w / 2)) (1 / 2 * (1 - c)) lo /\
    is_quantile (cauchy_cdf (r_energy r) (w / 2)) (1 / 2 * (1 + c)) hi /\
    (Rbar_lt lo 0 <-> 1 / 2 * (1 - c) < cauchy_cdf (r_energy r) (w / 2) 0) /\
    (forall p, In (NegativeLowerLimit p) ws <-> 1 / 2 * (1 - c) < cauchy_cdf (r_energy r) (w / 2) 0 /\ p = 50) /\
    (In InfiniteUpperLimit ws <-> c = 1) /\ ~ In InversionFailed ws /\ NoDup ws.
Proof. exact bw_warnings. Qed.
Theorem C29_gauss_warnings : forall k i m amu T fin r c, constants_ok k -> 0 < amu -> 0 < T ->
  Gauss k i m amu T fin = Ok r -> 0 < r_energy r -> 0 <= c <= 1 ->
  exists d ws lo hi, get_doppler_width k {| mb_amu := amu; mb_effective_temperature := T |} (r_energy r) = Ok d /\
    coverage_interval r c = (ws, Ok (lo, hi)) /\
    is_quantile (norm_cdf (r_energy r) (d / sqrt 2)) (1 / 2 * (1 - c)) lo /\
    is_quantile (norm_cdf (r_energy r) (d / sqrt 2)) (1 / 2 * (1 + c)) hi /\
    (Rbar_lt lo 0 <-> 1 / 2 * (1 - c) < norm_cdf (r_energy r) (d / sqrt 2) 0) /\
    (forall p, In (NegativeLowerLimit p) ws <-> 1 / 2 * (1 - c) < norm_cdf (r_energy r) (d / sqrt 2) 0 /\ p = 50) /\
    (In InfiniteUpperLimit ws <-> c = 1) /\ ~ In InversionFailed ws /\ NoDup ws.
Proof. exact gauss_warnings. Qed.
Theorem C29_box_warnings : forall k i m fin rec r c, Resonance k i m fin rec = Ok r -> 0 <= c <= 1 ->
  exists ws, coverage_interval r c = (ws, Ok (Finite (r_energy r - c / 2), Finite (r_energy r + c / 2))) /\
    (forall p, In (NegativeLowerLimit p) ws <-> r_energy r - c / 2 < 0 /\ p = 100) /\
    ~ In InfiniteUpperLimit ws /\ ~ In InversionFailed ws /\ NoDup ws.
Proof. exact box_warnings. Qed.
(** But the limit is never set to zero: whenever it would be negative, a negative limit is returned. *)
Theorem C29_clamp_refuted : exists k i m fin r w c, constants_ok k /\ BreitWigner k i m fin = Ok r /\
  width m = Ok w /\ 0 < w /\ 0 < r_energy r /\ 0 <= c < 1 /\
  exists ws lo hi, coverage_interval r c = (ws, Ok (Finite lo, Finite hi)) /\ lo < 0.
Proof. exact clamp_refuted. Qed.
Theorem C29_never_clamped : forall k i m fin r w c,
  BreitWigner k i m fin = Ok r -> width m = Ok w -> 0 < w -> 0 <= c < 1 ->
  1 / 2 * (1 - c) < cauchy_cdf (r_energy r) (w / 2) 0 ->
  exists ws lo hi, coverage_interval r c = (ws, Ok (Finite lo, Finite hi)) /\ lo < 0.
Proof. exact not_clamped. Qed.

(** ** C30 *)
(** 50 % is quoted although 75 % can be reached. *)
Theorem C30_quoted_refuted : exists k i m fin r w c ws x, constants_ok k /\ BreitWigner k i m fin = Ok r /\
  width m = Ok w /\ 0 < w /\ 0 < r_energy r /\ coverage_interval r c = (ws, Ok x) /\
  In (NegativeLowerLimit 50) ws /\ 100 * (1 - cauchy_cdf (r_energy r) (w / 2) 0) = 75.
Proof. exact quoted_refuted. Qed.
(** The quoted number is too small in every such case. *)
Theorem C30_always_too_small : forall k i m fin r w c,
  BreitWigner k i m fin = Ok r -> width m = Ok w -> 0 < w -> 0 < r_energy r ->
  0 <= c <= 1 -> 1 / 2 * (1 - c) < cauchy_cdf (r_energy r) (w / 2) 0 ->
  exists ws x p, coverage_interval r c = (ws, Ok x) /\ In (NegativeLowerLimit p) ws /\
    p < 100 * (1 - cauchy_cdf (r_energy r) (w / 2) 0).
Proof. exact quoted_wrong. Qed.

(** ** C31 *)
Theorem C31_exact_quantiles_limits : forall r f F a b n, has_density (r_dist r) (r_params r) f F ->
  exact_quantiles (r_dist r) (r_params r) F -> a < b -> (2 <= n)%Z ->
  exists ws g f, cross_section_is r f /\
    res_probability_grid r (Limits a b) n = (ws, Ok (Some (map Finite g))) /\ equal_integral_grid f a b n g.
Proof. exact density_grid_limits. Qed.
Theorem C31_exact_quantiles_coverage : forall r f F c n, has_density (r_dist r) (r_params r) f F ->
  exact_quantiles (r_dist r) (r_params r) F -> (exists x, d_cdf (r_dist r) [] 0 = Ok x) -> 0 < c < 1 -> (2 <= n)%Z ->
  exists ws ws' g f lo hi, cross_section_is r f /\
    coverage_interval r c = (ws', Ok (Finite lo, Finite hi)) /\
    res_probability_grid r (Coverage c) n = (ws, Ok (Some (map Finite g))) /\ equal_integral_grid f lo hi n g /\
    is_RInt f lo hi (c * r_integrated r).
Proof. exact grid_within_coverage. Qed.
Theorem C31_breit_wigner : forall k i m fin r w, BreitWigner k i m fin = Ok r -> width m = Ok w -> 0 < w ->
  (forall a b n, a < b -> (2 <= n)%Z -> exists ws g f, cross_section_is r f /\
     res_probability_grid r (Limits a b) n = (ws, Ok (Some (map Finite g))) /\ equal_integral_grid f a b n g) /\
  (forall c n, 0 < c < 1 -> (2 <= n)%Z -> exists ws ws' g f lo hi, cross_section_is r f /\
     coverage_interval r c = (ws', Ok (Finite lo, Finite hi)) /\
     res_probability_grid r (Coverage c) n = (ws, Ok (Some (map Finite g))) /\ equal_integral_grid f lo hi n g /\
     is_RInt f lo hi (c * r_integrated r)).
Proof. exact bw_grids. Qed.
Theorem C31_gauss : forall k i m amu T fin r, constants_ok k -> 0 < amu -> 0 < T ->
  Gauss k i m amu T fin = Ok r -> 0 < r_energy r ->
  (forall a b n, a < b -> (2 <= n)%Z -> exists ws g f, cross_section_is r f /\
     res_probability_grid r (Limits a b) n = (ws, Ok (Some (map Finite g))) /\ equal_integral_grid f a b n g) /\
  (forall c n, 0 < c < 1 -> (2 <= n)%Z -> exists ws ws' g f lo hi, cross_section_is r f /\
     coverage_interval r c = (ws', Ok (Finite lo, Finite hi)) /\
     res_probability_grid r (Coverage c) n = (ws, Ok (Some (map Finite g))) /\ equal_integral_grid f lo hi n g /\
     is_RInt f lo hi (c * r_integrated r)).
Proof. exact gauss_grids. Qed.

(** ** C32 *)
Theorem C32_box_limits : forall k i m fin rec r a b n, Resonance k i m fin rec = Ok r -> a < b ->
  a < r_energy r + 1 / 2 -> r_energy r - 1 / 2 < b -> (2 <= n)%Z ->
  exists g f, cross_section_is r f /\
    res_probability_grid r (Limits a b) n = ([], Ok (Some (map Finite g))) /\ equal_integral_grid f a b n g.
Proof. exact box_grid. Qed.
Theorem C32_box_coverage : forall k i m fin rec r c n, Resonance k i m fin rec = Ok r -> 0 < c <= 1 -> (2 <= n)%Z ->
  exists g f, cross_section_is r f /\
    res_probability_grid r (Coverage c) n = ([], Ok (Some (map Finite g))) /\
    equal_integral_grid f (r_energy r - c / 2) (r_energy r + c / 2) n g /\
    is_RInt f (r_energy r - c / 2) (r_energy r + c / 2) (c * r_integrated r).
Proof. exact box_coverage. Qed.
(** Limits that do not overlap with the box: what is returned, and that it is not a grid of [a, b]. *)
Theorem C32_outside : forall k i m fin rec r a b n, Resonance k i m fin rec = Ok r -> a < b -> (2 <= n)%Z ->
  (b <= r_energy r - 1 / 2 -> res_probability_grid r (Limits a b) n =
    ([], Ok (Some (map Finite (a :: repeat (r_energy r - 1 / 2) (Z.to_nat n - 2) ++ [b]))))) /\
  (r_energy r + 1 / 2 <= a -> res_probability_grid r (Limits a b) n =
    ([], Ok (Some (map Finite (a :: repeat (r_energy r + 1 / 2) (Z.to_nat n - 2) ++ [b]))))).
Proof. exact box_outside. Qed.
Theorem C32_outside_refuted : forall k i m fin rec r a b n, Resonance k i m fin rec = Ok r -> a < b -> (3 <= n)%Z ->
  b < r_energy r - 1 / 2 \/ r_energy r + 1 / 2 < a ->
  exists g, res_probability_grid r (Limits a b) n = ([], Ok (Some (map Finite g))) /\
    ~ strictly_ascending g /\ exists x, In x g /\ ~ a <= x <= b.
Proof. exact box_unsorted. Qed.

(** ** C33 *)
Example C33_ex : exists r, scipy_model r 1 (1 / 2 * 2).
Proof. exact scipy_example. Qed.
Theorem C33_no_points : forall r l s a b, scipy_model r l s ->
  res_probability_grid r (Limits a b) 0 = ([], Raise IndexError).
Proof. exact grid_none. Qed.
Theorem C33_negative_points : forall r l s a b n, scipy_model r l s -> (n < 0)%Z ->
  res_probability_grid r (Limits a b) n = ([], Raise ValueError).
Proof. exact grid_negative. Qed.
(** A single point: the upper limit is returned (an energy grid returns the lower one, C07). *)
Theorem C33_single_point_refuted : forall r l s a b, scipy_model r l s -> a < b ->
  res_probability_grid r (Limits a b) 1 = ([], Ok (Some [Finite b])) /\ Finite b <> Finite a /\
  res_energy_grid r (Limits a b) 1 = ([], Ok [a]).
Proof. exact grid_single. Qed.

(** ** C34 *)
Theorem C34_breit_wigner_formula : forall k i m fin r w g0, BreitWigner k i m fin = Ok r -> width m = Ok w -> 0 < w ->
  (exists pw, partial_widths m = Ok pw /\ dget pw (st_J_pi i) = Some g0) ->
  forall E, res_call r E true =
    Ok (PI * (k_hbarc k / r_energy r) ^ 2 * ((IZR (st_two_J m) + 1) / (2 * (IZR (st_two_J i) + 1))) *
        (g0 * w / ((E - r_energy r) ^ 2 + w ^ 2 / 4)) * r_branching r).
Proof. exact breit_wigner_value. Qed.
Theorem C34_breit_wigner_shape : forall k i m fin r w, BreitWigner k i m fin = Ok r -> width m = Ok w -> 0 < w ->
  exists f, cross_section_is r f /\
    (forall a b, is_RInt f a b (r_integrated r * ((atan (2 * (b - r_energy r) / w) - atan (2 * (a - r_energy r) / w)) / PI))) /\
    integral_over_axis f (r_integrated r) /\
    (0 < r_integrated r -> forall E, E <> r_energy r -> 0 < f E < f (r_energy r)) /\
    f (r_energy r - w / 2) = f (r_energy r) / 2 /\ f (r_energy r + w / 2) = f (r_energy r) / 2.
Proof. exact breit_wigner_shape. Qed.

(** ** C35 *)
Theorem C35_gauss_shape : forall k i m amu T fin r, constants_ok k -> 0 < amu -> 0 < T ->
  Gauss k i m amu T fin = Ok r -> 0 < r_energy r -> exists d f,
  get_doppler_width k {| mb_amu := amu; mb_effective_temperature := T |} (r_energy r) = Ok d /\
    cross_section_is r f /\
    (forall E, f E = r_integrated r / (sqrt PI * d) * exp (- ((E - r_energy r) / d) ^ 2)) /\
    integral_over_axis f (r_integrated r) /\
    f (r_energy r - d) = f (r_energy r) * exp (-1) /\ f (r_energy r + d) = f (r_energy r) * exp (-1).
Proof. exact gauss_shape. Qed.

(** ** C41 *)
Theorem C41_breit_wigner : forall k i m fin r w c n, BreitWigner k i m fin = Ok r -> width m = Ok w -> 0 < w ->
  0 <= r_integrated r -> 0 < c < 1 -> (2 <= n)%Z -> exists ws g L d,
    res_probability_grid r (Coverage c) n = (ws, Ok (Some (map Finite g))) /\
    darboux (of_value (VLeaf (leaf_of r))) g = Ok (L, d) /\
    L <= c * r_integrated r /\ (Z.odd n = true -> c * r_integrated r <= L + d).
Proof. exact bw_darboux. Qed.
Theorem C41_gauss : forall k i m amu T fin r c n, constants_ok k -> 0 < amu -> 0 < T ->
  Gauss k i m amu T fin = Ok r -> 0 < r_energy r ->
  0 <= r_integrated r -> 0 < c < 1 -> (2 <= n)%Z -> exists ws g L d,
    res_probability_grid r (Coverage c) n = (ws, Ok (Some (map Finite g))) /\
    darboux (of_value (VLeaf (leaf_of r))) g = Ok (L, d) /\
    L <= c * r_integrated r /\ (Z.odd n = true -> c * r_integrated r <= L + d).
Proof. exact gauss_darboux. Qed.

Print Assumptions C25_raises_iff_incomplete.
Print Assumptions C25_exceptions.
Print Assumptions C25_attributes.
Print Assumptions C25_recoil_errors.
Print Assumptions C25_subclasses.
Print Assumptions C26_sum_over_final_states.
Print Assumptions C26_formula.
Print Assumptions C26_nonneg.
Print Assumptions C27_relative_energy.
Print Assumptions C27_symmetric.
Print Assumptions C28_box.
Print Assumptions C28_breit_wigner.
Print Assumptions C28_gauss.
Print Assumptions C28_total.
Print Assumptions C29_breit_wigner_warnings.
Print Assumptions C29_gauss_warnings.
Print Assumptions C29_box_warnings.
Print Assumptions C29_clamp_refuted.
Print Assumptions C29_never_clamped.
Print Assumptions C30_quoted_refuted.
Print Assumptions C30_always_too_small.
Print Assumptions C31_exact_quantiles_limits.
Print Assumptions C31_exact_quantiles_coverage.
Print Assumptions C31_breit_wigner.
Print Assumptions C31_gauss.
Print Assumptions C32_box_limits.
Print Assumptions C32_outside.
Print Assumptions C32_box_coverage.
Print Assumptions C32_outside_refuted.
Print Assumptions C33_no_points.
Print Assumptions C33_negative_points.
Print Assumptions C33_single_point_refuted.
Print Assumptions C34_breit_wigner_formula.
Print Assumptions C34_breit_wigner_shape.
Print Assumptions C35_gauss_shape.
Print Assumptions C41_breit_wigner.
Print Assumptions C41_gauss.
