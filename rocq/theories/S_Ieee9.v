(** Vocabulary for attenuation with infinities and nan (C112). *)
From Coq Require Import Reals.
From Flocq Require Import Core BinarySingleNaN.
From Verif Require Import Py M_Float S_Float M_Ieee S_Ieee S_Ieee6.
Open Scope R_scope.

(** Exponential functions: special values, and values from 0 to 1 for arguments that are not positive. *)
Definition exp_special (ex : b64 -> b64) : Prop :=
  ex B754_nan = B754_nan /\ rep (ex (B754_infinity true)) 0 /\ forall x, finite x -> B2R x <= 0 -> finite (ex x) /\ 0 <= B2R (ex x) <= 1.
(** The same numbers in both arithmetics. *)
Definition same_exp (b : b64 -> b64) (ex : R -> R) : Prop := forall X x, rep X x -> x <= 0 -> rep (b X) (ex x).
(** One that rounds correctly. *)
Definition correct_bexp (X : b64) : b64 :=
  match X with
  | B754_nan => B754_nan
  | B754_infinity true => B754_zero false
  | B754_infinity false => B754_infinity false
  | _ => if Rle_dec (B2R X) 0 then of_R (exp (B2R X)) else B754_infinity false     (* positive arguments do not matter *)
  end.
(** Larger than zero, possibly infinite. *)
Definition positive (b : b64) : Prop := b = B754_infinity false \/ finite b /\ 0 < B2R b.
(** From 0 to 1. *)
Definition fraction (b : b64) : Prop := finite b /\ 0 <= B2R b <= 1.
