(** Vocabulary for rounding in the Debye model and in [quad_partition] (C99, C100). *)
From Coq Require Import Reals List ZArith.
From Coquelicot Require Import Coquelicot.
From Verif Require Import Py Spec M_Num M_Float M_Float10 S_Float.
Import ListNotations.
Open Scope R_scope.

(** Relative errors of two units; the exponential function is not infinite below 709. *)
Definition dlib_ok (l : dlib) : Prop :=
  (forall t, double t -> / 2 ^ 40 <= t -> match d_exp l t with
     | Finite y => double y /\ Rabs (y - exp t) <= 2 * unit_roundoff * exp t
     | p_infty => 709 <= t
     | m_infty => False
     end) /\
  (forall t, double t -> / 2 ^ 70 <= t <= 2 ^ 70 -> double (d_cube l t) /\ Rabs (d_cube l t - t ^ 3) <= 2 * unit_roundoff * t ^ 3).
(** The value of a quadrature rule with given nodes and weights. *)
Definition rule_value (ns : list (R * R)) (f : R -> R) : R := Rsum (map (fun n => snd n * f (fst n)) ns).
(** A quadrature from 0 to [x] that evaluates [f'], a rounded version of [f], at finitely many positive nodes and returns the sum of
    the values with positive weights, up to a relative error [kappa]; for [f] itself, this sum has the relative error [eps], and for
    the identity it does not exceed the integral by more than a factor of two. *)
Definition quadrature (eps kappa : R) (quad : fquad_fn) (f' : R -> out R) (f : R -> R) (x : R) : Prop :=
  exists ns, List.Forall (fun n => double (fst n) /\ / 2 ^ 40 <= fst n <= x /\ 0 <= snd n) ns /\
    Rabs (rule_value ns f - RInt f 0 x) <= eps * RInt f 0 x /\ rule_value ns (fun t => t) <= x ^ 2 /\
    forall g, (forall n, In n ns -> f' (fst n) = Ok (g (fst n))) ->
      exists q, quad f' 0 x = Ok q /\ Rabs (q - rule_value ns g) <= kappa * rule_value ns (fun t => Rabs (g t)).
(** Library functions that round correctly. *)
Definition correct_dlib : dlib := {| d_exp := fun t => if Rle_dec t 709 then Finite (rnd (exp t)) else p_infty; d_cube := fun t => rnd (t ^ 3) |}.
