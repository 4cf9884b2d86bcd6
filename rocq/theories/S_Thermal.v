(** Specification vocabulary for recoil and thermal motion. *)
From Coq Require Import Reals.
From Coquelicot Require Import Coquelicot.
Open Scope R_scope.

(** Energy and momentum conservation for the absorption of a photon of energy [E] by a nucleus of mass
    energy [m] at rest whose internal energy increases by [D] (recoil.py:79-97): the final nucleus has
    the momentum of the photon. *)
Definition conserves_four_momentum (m D E : R) : Prop :=
  0 <= E /\ E + m = sqrt ((m + D) ^ 2 + E ^ 2).

(** Lamb's effective temperature (debye_model.py:42). *)
Definition lamb_temperature (T T_D : R) : R :=
  3 * T * (T / T_D) ^ 3 * RInt (fun t => t ^ 3 * (1 / (exp t - 1) + 1 / 2)) 0 (T_D / T).

(** The numerical integration routine returns the exact integral / an error bound, for this integrand. *)
Definition quad_error_ok (quad : (R -> R) -> R -> R -> R * R) (f : R -> R) (a b : R) : Prop :=
  Rabs (fst (quad f a b) - RInt f a b) <= snd (quad f a b).
