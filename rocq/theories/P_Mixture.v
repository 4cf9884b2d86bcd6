(** C90: sums of resonant and nonresonant cross sections. *)
From Coq Require Import Reals List ZArith.
From Coquelicot Require Import Coquelicot.
From Verif Require Import Py Spec M_Num M_Grid M_Dist M_Resonance M_CrossSection M_Darboux M_KleinNishina M_Xrmac S_CrossSection S_Resonance S_Sums S_Mixture L_Mixture.
Import ListNotations.
Open Scope R_scope.

Example C90_ex : exists r c o Vs, List.Forall2 (fun (p : R * leaf) V => process (snd p) V) [(2, leaf_of r); (3, kn_leaf c); (- 1 / 2, xrmac_leaf o)] Vs /\
  line r /\ nonresonant (kn_leaf c) /\ nonresonant (xrmac_leaf o).
Proof. exact material_example. Qed.

(** At each positive energy the weighted sum of the values. *)
Theorem C90_value : forall ps Vs, List.Forall2 (fun (p : R * leaf) V => process (snd p) V) ps Vs ->
  exists fs, List.Forall2 (fun p f => forall E, 0 < E -> l_call (snd p) E = Ok (f E)) ps fs /\
    forall E, 0 < E -> call (material ps) E = Ok (Rsum (map2 (fun p f => fst p * f E) ps fs)).
Proof. exact material_value. Qed.
(** The Darboux sums on any grid. *)
Theorem C90_integral : forall ps Vs x h, ps <> [] -> List.Forall2 (fun (p : R * leaf) V => process (snd p) V) ps Vs ->
  x <> [] -> ascending x -> 0 < first x -> (forall a b, In (a, b) (cells x) -> b - a <= h) -> 0 <= h ->
  exists f L d, (forall E, 0 < E -> call (material ps) E = Ok (f E)) /\ ex_RInt f (first x) (final x) /\
    darboux (of_value (material ps)) x = Ok (L, d) /\
    Rabs (L - RInt f (first x) (final x)) <= h * Rsum (map2 (fun p V => Rabs (fst p) * V) ps Vs) /\
    d <= h * Rsum (map2 (fun p V => Rabs (fst p) * V) ps Vs).
Proof. exact material_integral. Qed.
(** The probability grid of a nonresonant cross section is the energy grid. *)
Theorem C90_nonresonant_grid : forall l a b n, nonresonant l -> (2 <= n)%Z -> a < b -> exists g,
  equidistant_energy_grid (Limits a b) n = Ok g /\ l_pgrid l (Limits a b) n = Ok (Some (map Finite g)) /\
  List.length g = Z.to_nat n /\ strictly_ascending g /\ first g = a /\ final g = b /\
  (forall x y, In (x, y) (cells g) -> y - x = (b - a) / IZR (n - 1)).
Proof. exact nonresonant_grid. Qed.
(** The grid of the sum. *)
Theorem C90_grid : forall ps Vs a b n, ps <> [] -> List.Forall2 (fun (p : R * leaf) V => process (snd p) V) ps Vs -> a < b -> (2 <= n)%Z ->
  exists g, pgrid (material ps) (Limits a b) n = Ok (Some (map Finite g)) /\ strictly_ascending g /\ first g = a /\ final g = b /\
    (forall E, In E g <-> exists p l, In p ps /\ l_pgrid (snd p) (Limits a b) n = Ok (Some l) /\ In (Finite E) l) /\
    forall p e, In p ps -> nonresonant (snd p) -> equidistant_energy_grid (Limits a b) n = Ok e -> incl e g.
Proof. exact material_grid. Qed.
(** No coverage can be requested if a member is nonresonant. *)
Theorem C90_coverage : forall ps q rest c n, (forall p, In p ps -> exists r, snd p = leaf_of r /\ line r) -> nonresonant (snd q) -> 0 < c < 1 -> (2 <= n)%Z ->
  pgrid (material (ps ++ q :: rest)) (Coverage c) n = Raise TypeError.
Proof. exact material_coverage. Qed.
Theorem C90_coverage_refuted : ~ forall ps Vs c n, ps <> [] -> List.Forall2 (fun (p : R * leaf) V => process (snd p) V) ps Vs -> 0 < c < 1 -> (2 <= n)%Z ->
  exists g, pgrid (material ps) (Coverage c) n = Ok (Some g).
Proof. exact coverage_refuted. Qed.
Print Assumptions C90_value.
Print Assumptions C90_integral.
Print Assumptions C90_nonresonant_grid.
Print Assumptions C90_grid.
Print Assumptions C90_coverage.
Print Assumptions C90_coverage_refuted.
