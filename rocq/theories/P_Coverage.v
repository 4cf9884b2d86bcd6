(** C67: the grids of a line for a given coverage, and the Darboux integral on them. *)
From Coq Require Import Reals List ZArith Lra Lia Sorted.
From Coquelicot Require Import Coquelicot.
From Verif Require Import Py Spec M_Num M_Grid M_Constituents M_Thermal M_Dist M_Resonance M_CrossSection M_Darboux
  S_CrossSection S_Resonance S_Sums L_Sums4 L_Coverage.
Import ListNotations.
Open Scope R_scope.

(** ** C67 *)
Theorem C67_energy_grid : forall r c n, line r -> 0 < c < 1 -> (2 <= n)%Z ->
  exists ws g f d, 0 < d /\ cross_section_is r f /\
    res_energy_grid r (Coverage c) n = (ws, Ok g) /\
    coverage_interval r c = (ws, Ok (Finite (r_energy r - d), Finite (r_energy r + d))) /\
    Z.of_nat (length g) = n /\ (forall i, (i < length g)%nat -> nth i g 0 = r_energy r - d + INR i * (2 * d / IZR (n - 1))) /\
    is_RInt f (first g) (final g) (c * r_integrated r) /\
    (Z.odd n = true -> In (r_energy r) g) /\
    (0 <= r_integrated r -> exists L e, darboux (of_value (VLeaf (leaf_of r))) g = Ok (L, e) /\ L <= c * r_integrated r /\
      (Z.odd n = true -> c * r_integrated r <= L + e /\ e = 4 * d / IZR (n - 1) * (f (r_energy r) - f (r_energy r + d)))).
Proof. exact line_energy_grid. Qed.
Theorem C67_energy_grid_limit : forall r c eps, line r -> 0 < c < 1 -> 0 < eps -> exists N, forall n, (N <= n)%Z ->
  exists ws g L d, res_energy_grid r (Coverage c) n = (ws, Ok g) /\
    darboux (of_value (VLeaf (leaf_of r))) g = Ok (L, d) /\ Rabs (L - c * r_integrated r) <= eps /\ d <= eps.
Proof. exact energy_grid_limit. Qed.
Theorem C67_probability_grid_limit : forall r c eps, line r -> 0 < c < 1 -> 0 < eps -> exists N, forall n, (N <= n)%Z ->
  exists g L d, snd (res_probability_grid r (Coverage c) n) = Ok (Some (map Finite g)) /\
    darboux (of_value (VLeaf (leaf_of r))) g = Ok (L, d) /\ Rabs (L - c * r_integrated r) <= eps /\ d <= eps.
Proof. exact probability_grid_limit. Qed.
(** Why an odd number of points is asked for: with two points the reported uncertainty is 0 although the sum is too small. *)
Theorem C67_two_points : forall r c, line r -> 0 < r_integrated r -> 0 < c < 1 -> exists ws g L,
  res_energy_grid r (Coverage c) 2 = (ws, Ok g) /\ darboux (of_value (VLeaf (leaf_of r))) g = Ok (L, 0) /\
  L < c * r_integrated r.
Proof. exact two_points. Qed.
Example C67_ex : exists r1 r2, line r1 /\ line r2 /\ r_energy r1 = 1 /\ r_energy r2 = 2 /\
  0 < r_integrated r2 < r_integrated r1.
Proof. exact lines_example. Qed.
Print Assumptions C67_energy_grid.
Print Assumptions C67_energy_grid_limit.
Print Assumptions C67_probability_grid_limit.
Print Assumptions C67_two_points.
