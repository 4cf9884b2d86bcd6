(** Vocabulary for rounding in Voigt profiles (C101). *)
From Coq Require Import Reals.
From Verif Require Import Py M_PseudoVoigt M_Float S_Float.
Open Scope R_scope.

(** An implementation of the Voigt profile with the relative error [eps]. *)
Definition profile_ok (eps : R) (vp : R -> R -> R -> R) : Prop := forall x s g, double x -> double s -> double g ->
  Rabs x <= 2 ^ 64 -> s = 0 \/ / 2 ^ 62 <= s <= 2 ^ 62 -> / 2 ^ 62 <= g <= 2 ^ 62 ->
  Rabs (vp x s g - voigt_profile x s g) <= eps * voigt_profile x s g.
(** One that rounds correctly. *)
Definition correct_profile (x s g : R) : R := rnd (voigt_profile x s g).
