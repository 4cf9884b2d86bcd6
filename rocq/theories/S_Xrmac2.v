(** Interpolated coefficients as functions of the energy (C77): one-sided limits, the total change along a table, and tables with rescaled units. *)
From Coq Require Import Reals List.
Import ListNotations.
Open Scope R_scope.
Definition left_limit (f : R -> R) (E c : R) : Prop := forall eps, 0 < eps -> exists d, 0 < d /\ forall t, E - d < t < E -> Rabs (f t - c) < eps.
Definition right_limit (f : R -> R) (E c : R) : Prop := forall eps, 0 < eps -> exists d, 0 < d /\ forall t, E < t < E + d -> Rabs (f t - c) < eps.
(** No two neighbouring lines for the energy. *)
Definition no_edge (E : R) (data : list (R * R)) : Prop := forall pre c c' post, data <> pre ++ (E, c) :: (E, c') :: post.
(** |c2 - c1| + |c3 - c2| + ... *)
Definition total_change (c : list R) : R := fold_right Rplus 0 (map (fun p => Rabs (snd p - fst p)) (combine c (tl c))).
(** Distances between neighbouring points at most h. *)
Definition spacing_at_most (h : R) (x : list R) : Prop := forall pre a b post, x = pre ++ a :: b :: post -> b - a <= h.
Definition rescale (a b : R) (data : list (R * R)) : list (R * R) := map (fun p => (a * fst p, b * snd p)) data.
