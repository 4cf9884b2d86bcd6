(** Vocabulary for Voigt profiles with infinities and nan (C109). *)
From Coq Require Import Reals.
From Flocq Require Import Core BinarySingleNaN.
From Verif Require Import Py M_PseudoVoigt M_Float S_Float S_Float11 M_Ieee M_Ieee2 S_Ieee.
Open Scope R_scope.

(** Implementations of the Voigt profile in both arithmetics that give the same numbers. *)
Definition same_profile (b : b64 -> b64 -> b64 -> b64) (vp : R -> R -> R -> R) : Prop := forall X x S s G g, rep X x -> rep S s -> rep G g ->
  Rabs x <= 2 ^ 64 -> s = 0 \/ / 2 ^ 62 <= s <= 2 ^ 62 -> / 2 ^ 62 <= g <= 2 ^ 62 -> rep (b X S G) (vp x s g).
(** Values at infinite energies and for nan. *)
Definition profile_special (b : b64 -> b64 -> b64 -> b64) : Prop :=
  (forall z S G, finite S -> finite G -> 0 <= B2R S -> 0 < B2R G -> rep (b (B754_infinity z) S G) 0) /\
  (forall S G, b B754_nan S G = B754_nan) /\ (forall X G, b X B754_nan G = B754_nan) /\ (forall X S, b X S B754_nan = B754_nan).
(** One that rounds correctly. *)
Definition correct_bprofile (X S G : b64) : b64 :=
  match S, G with
  | B754_nan, _ | _, B754_nan => B754_nan
  | _, _ => match X with
            | B754_nan => B754_nan
            | B754_infinity _ => B754_zero false
            | _ => of_R (correct_profile (B2R X) (B2R S) (B2R G))
            end
  end.
