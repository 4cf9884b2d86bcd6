(** C63-C66: refinement and convergence of Darboux sums, integrals of sums of resonances. *)
From Coq Require Import Reals List ZArith Lra Lia Sorted.
From Coquelicot Require Import Coquelicot.
From Verif Require Import Py Spec M_Num M_Grid M_Constituents M_Thermal M_Dist M_Resonance M_CrossSection M_Darboux
  S_CrossSection S_Resonance S_Sums L_Darboux2 L_Resonance6 L_Sums L_Sums2 L_Sums3 L_Sums4.
Import ListNotations.
Open Scope R_scope.

(** ** C63 *)
Theorem C63_refinement : forall f x y, x <> [] -> ascending x -> ascending y -> incl x y ->
  first y = first x -> final y = final x ->
  (forall a b, In (a, b) (cells x) -> monotone_on f a b) ->
  exists L d L' d', darboux (vectorized f) x = Ok (L, d) /\ darboux (vectorized f) y = Ok (L', d') /\
    L <= L' /\ L' + d' <= L + d /\ d' <= d.
Proof. exact darboux_refine. Qed.
(** Monotonicity is needed: one more point can increase the reported uncertainty. *)
Theorem C63_needs_monotone : exists f x y L d L' d', ascending x /\ ascending y /\ incl x y /\
  first y = first x /\ final y = final x /\
  darboux (vectorized f) x = Ok (L, d) /\ darboux (vectorized f) y = Ok (L', d') /\ d < d'.
Proof. exact refinement_worse. Qed.
Example C63_ex : ascending [-1; 0; 2] /\ ascending [-1; -1/2; 0; 1; 2] /\ incl [-1; 0; 2] [-1; -1/2; 0; 1; 2] /\
  first [-1; -1/2; 0; 1; 2] = first [-1; 0; 2] /\ final [-1; -1/2; 0; 1; 2] = final [-1; 0; 2] /\
  (forall a b, In (a, b) (cells [-1; 0; 2]) -> monotone_on (fun t => t * t) a b).
Proof. exact refinement_example. Qed.

(** ** C64 *)
Theorem C64_convergence : forall f a b eps, a <= b -> (forall t, a <= t <= b -> continuity_pt f t) -> 0 < eps ->
  exists h, 0 < h /\ forall x, x <> [] -> ascending x -> first x = a -> final x = b ->
    (forall u v, In (u, v) (cells x) -> v - u < h) ->
    exists L d, darboux (vectorized f) x = Ok (L, d) /\ Rabs (L - RInt f a b) <= eps /\ d <= eps.
Proof. exact darboux_converges. Qed.
Theorem C64_energy_grid : forall v f a b eps, constants_only v = false ->
  (forall E, a <= E <= b -> call v E = Ok (f E)) -> a < b -> (forall t, a <= t <= b -> continuity_pt f t) -> 0 < eps ->
  exists N, forall n, (N <= n)%Z -> exists g L d, equidistant_energy_grid (Limits a b) n = Ok g /\
    darboux (of_value v) g = Ok (L, d) /\ Rabs (L - RInt f a b) <= eps /\ d <= eps.
Proof. exact cross_section_converges. Qed.
Theorem C64_lipschitz : forall f x K h, x <> [] -> ascending x -> 0 <= K ->
  (forall s t, first x <= s <= final x -> first x <= t <= final x -> Rabs (f s - f t) <= K * Rabs (s - t)) ->
  (forall a b, In (a, b) (cells x) -> b - a <= h) ->
  ex_RInt f (first x) (final x) /\
  exists L d, darboux (vectorized f) x = Ok (L, d) /\
    Rabs (L - RInt f (first x) (final x)) <= K * h * (final x - first x) /\ d <= K * h * (final x - first x).
Proof. exact darboux_lipschitz. Qed.
(** A grid that is too coarse: the reported uncertainty is 0, the result is wrong. *)
Theorem C64_coarse_grid : exists f x, ascending x /\ (forall t, continuity_pt f t) /\
  darboux (vectorized f) x = Ok (0, 0) /\ RInt f (first x) (final x) <> 0.
Proof. exact coarse_wrong. Qed.
Example C64_ex : constants_only (VLeaf {| l_call := fun E => Ok (E ^ 3 - E); l_pgrid := fun _ _ => Ok None |}) = false /\
  forall t, -2 <= t <= 2 -> continuity_pt (fun E => E ^ 3 - E) t.
Proof. exact cubic_example. Qed.

(** ** C65 *)
Theorem C65_expression : forall e a b fs Is, well_formed e = true ->
  List.Forall2 (fun t f => forall E, snd t E = Ok (f E)) (combination e) fs ->
  List.Forall2 (fun f I => is_RInt f a b I) fs Is ->
  exists v f, run e = Ok v /\ (forall E, at_energy v E = Ok (f E)) /\
    is_RInt f a b (Rsum (map2 (fun t I => fst t * I) (combination e) Is)).
Proof. exact expression_integral. Qed.
Theorem C65_expression_axis : forall e fs Is, well_formed e = true ->
  List.Forall2 (fun t f => forall E, snd t E = Ok (f E)) (combination e) fs ->
  List.Forall2 (fun f I => integral_over_axis f I) fs Is ->
  exists v f, run e = Ok v /\ (forall E, at_energy v E = Ok (f E)) /\
    integral_over_axis f (Rsum (map2 (fun t I => fst t * I) (combination e) Is)).
Proof. exact expression_axis. Qed.
Theorem C65_spectrum : forall ps, (forall p, In p ps -> line (snd p)) ->
  exists f, (forall E, call (spectrum ps) E = Ok (f E)) /\
    integral_over_axis f (Rsum (map (fun p => fst p * r_integrated (snd p)) ps)).
Proof. exact spectrum_axis. Qed.
Example C65_ex : exists r1 r2, line r1 /\ line r2 /\ r_energy r1 = 1 /\ r_energy r2 = 2 /\
  0 < r_integrated r2 < r_integrated r1.
Proof. exact lines_example. Qed.
Example C65_ex2 : exists r1 r2 I1 I2 fs, 
  let e := EMul (EAdd (EAtom (leaf_of r1)) (EMul (EAtom (leaf_of r2)) 3)) (-2) in
  well_formed e = true /\
  List.Forall2 (fun t f => forall E, snd t E = Ok (f E)) (combination e) fs /\
  List.Forall2 (fun f I => integral_over_axis f I) fs [I1; I2] /\ 0 < I1 /\ 0 < I2.
Proof. exact expression_example. Qed.

(** ** C66 *)
Theorem C66_each_line : forall ps c n, ps <> [] -> (forall p, In p ps -> line (snd p)) -> 0 < c < 1 -> (2 <= n)%Z -> Z.odd n = true ->
  exists g f parts, pgrid (spectrum ps) (Coverage c) n = Ok (Some (map Finite g)) /\
    (forall E, call (spectrum ps) E = Ok (f E)) /\ ex_RInt f (first g) (final g) /\
    List.Forall2 (fun p Ld => darboux (of_value (VLeaf (leaf_of (snd p)))) g = Ok Ld) ps parts /\
    Rabs (RInt f (first g) (final g) - Rsum (map2 (fun p Ld => fst p * fst Ld) ps parts))
      <= Rsum (map2 (fun p Ld => Rabs (fst p) * snd Ld) ps parts) /\
    ((forall p, In p ps -> 0 <= fst p) ->
      Rsum (map2 (fun p Ld => fst p * fst Ld) ps parts) <= RInt f (first g) (final g)
        <= Rsum (map2 (fun p Ld => fst p * (fst Ld + snd Ld)) ps parts)) /\
    ((forall p, In p ps -> 0 <= fst p /\ 0 <= r_integrated (snd p)) ->
      let total := Rsum (map (fun p => fst p * r_integrated (snd p)) ps) in
      c * total <= RInt f (first g) (final g) <= total).
Proof. exact spectrum_enclosed. Qed.
(** The sum as a whole is not monotone between the points of the common grid. *)
Theorem C66_sum_refuted : exists r1 r2, line r1 /\ line r2 /\
  exists g L d f, pgrid (spectrum [(1, r1); (1, r2)]) (Coverage (1 / 2)) 3 = Ok (Some (map Finite g)) /\
    darboux (of_value (spectrum [(1, r1); (1, r2)])) g = Ok (L, d) /\
    (forall E, call (spectrum [(1, r1); (1, r2)]) E = Ok (f E)) /\
    integral_over_axis f (r_integrated r1 + r_integrated r2) /\ RInt f (first g) (final g) < L.
Proof. exact two_lines_example. Qed.
Theorem C66_distant_lines : forall k i m1 m2 fin r1 r2 w, BreitWigner k i m1 fin = Ok r1 -> BreitWigner k i m2 fin = Ok r2 ->
  width m1 = Ok w -> width m2 = Ok w -> 0 < w -> 0 < r_integrated r1 -> 0 < r_integrated r2 ->
  Rmin (r_integrated r1) (r_integrated r2) * (r_energy r2 - r_energy r1 - w) > PI * w * (r_integrated r1 + r_integrated r2) ->
  exists g L d f, pgrid (spectrum [(1, r1); (1, r2)]) (Coverage (1 / 2)) 3 = Ok (Some (map Finite g)) /\
    darboux (of_value (spectrum [(1, r1); (1, r2)])) g = Ok (L, d) /\
    (forall E, call (spectrum [(1, r1); (1, r2)]) E = Ok (f E)) /\
    integral_over_axis f (r_integrated r1 + r_integrated r2) /\ RInt f (first g) (final g) < L.
Proof. exact two_lines_overestimate. Qed.
Print Assumptions C63_refinement.
Print Assumptions C63_needs_monotone.
Print Assumptions C64_convergence.
Print Assumptions C64_energy_grid.
Print Assumptions C64_lipschitz.
Print Assumptions C64_coarse_grid.
Print Assumptions C65_expression.
Print Assumptions C65_expression_axis.
Print Assumptions C65_spectrum.
Print Assumptions C66_each_line.
Print Assumptions C66_sum_refuted.
Print Assumptions C66_distant_lines.
