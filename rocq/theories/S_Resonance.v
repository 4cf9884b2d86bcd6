(** Vocabulary for the properties of resonances (C25-C41). *)
From Coq Require Import Reals List ZArith String.
From Coquelicot Require Import Coquelicot.
From Verif Require Import Py Spec M_Num M_Grid M_Constituents M_Dist M_Resonance.
Import ListNotations.
Open Scope R_scope.

(** [f] is a continuous positive probability density on the whole axis and [F] its CDF. *)
Definition density_of (f F : R -> R) : Prop :=
  (forall x, continuous f x) /\ (forall x, 0 < f x) /\ (forall x, is_derive F x (f x)) /\
  is_lim F m_infty 0 /\ is_lim F p_infty 1.

(** The energy [x] has the cumulative probability [q]. *)
Definition is_quantile (F : R -> R) (q : R) (x : Rbar) : Prop :=
  match x with Finite r => F r = q | m_infty => q = 0 | p_infty => q = 1 end.

Definition symmetric_about (m : R) (f : R -> R) : Prop := forall d, f (m - d) = f (m + d).

(** Evaluating the cross section at any energy gives [f] there. *)
Definition cross_section_is (r : resonance) (f : R -> R) : Prop := forall E, res_call r E true = Ok (f E).

(** [coverage_interval(c)] returns finite limits around the resonance energy, half of the fraction [c]
    of the integrated cross section on each side. *)
Definition covers (r : resonance) (c : R) : Prop :=
  exists ws lo hi f, coverage_interval r c = (ws, Ok (Finite lo, Finite hi)) /\
    lo <= r_energy r <= hi /\ cross_section_is r f /\
    is_RInt f lo (r_energy r) (c / 2 * r_integrated r) /\
    is_RInt f (r_energy r) hi (c / 2 * r_integrated r).

(** [g] is a grid of [n] points from [a] to [b] on which [f] has the same integral over each cell. *)
Definition equal_integral_grid (f : R -> R) (a b : R) (n : Z) (g : list R) : Prop :=
  Z.of_nat (List.length g) = n /\ strictly_ascending g /\ first g = a /\ final g = b /\
  exists p, List.Forall (fun xy => is_RInt f (fst xy) (snd xy) p) (cells g).

(** A distribution object with given parameters: PDF [f], CDF [F] and exact quantiles. *)
Definition has_density (d : distribution) (p : list R) (f F : R -> R) : Prop :=
  density_of f F /\ (forall x, d_pdf d p x = Ok (f x)) /\ (forall x, d_cdf d p x = Ok (F x)).
Definition exact_quantiles (d : distribution) (p : list R) (F : R -> R) : Prop :=
  forall qs, List.Forall (fun q => 0 <= q <= 1) qs ->
    exists ws xs, d_ppf d p qs = (ws, Ok (Some xs)) /\ Forall2 (is_quantile F) qs xs.

(** The situations in which a resonance cannot be built: vanishing resonance energy, an intermediate
    state without widths, a missing partial width, a vanishing total width with a final state. *)
Definition incomplete (E_r : R) (i m : state) (fin : option state) : Prop :=
  E_r = 0 \/ st_decays m = None \/
  exists pw w, st_decays m = Some (pw, w) /\
    (~ In (st_J_pi i) (dkeys pw) \/
     exists f, fin = Some f /\ (~ In (st_J_pi f) (dkeys pw) \/ w = 0)).

(** The resonance uses one of the distributions of scipy.stats with location [l] and scale [s]. *)
Definition scipy_model (r : resonance) (l s : R) : Prop :=
  0 < s /\ r_params r = [l; s] /\ (r_dist r = uniform \/ r_dist r = cauchy \/ r_dist r = norm).

(** Increasing up to [m], decreasing from there on. *)
Definition unimodal (m : R) (f : R -> R) : Prop :=
  (forall a b, a <= b -> b <= m -> f a <= f b) /\ (forall a b, m <= a -> a <= b -> f b <= f a).
