(** Vocabulary for XRMAC tables with infinities and nan. *)
From Coq Require Import Reals List ZArith.
From Flocq Require Import Core BinarySingleNaN.
From Verif Require Import Py M_Num M_Xrmac M_Float S_Float M_Float7 S_Float7 M_Ieee M_Ieee4 S_Ieee.
Import ListNotations.
Open Scope R_scope.

(** Library functions outside of the range where they give numbers (C standard, annex F); no logarithm of a positive number is infinite or
    nan, and no power of a number is nan. *)
Definition bllib_special (L : bllib) : Prop :=
  (forall s, bg_log10 L (B754_zero s) = B754_infinity true) /\
  bg_log10 L (B754_infinity false) = B754_infinity false /\
  bg_log10 L (B754_infinity true) = B754_nan /\
  bg_log10 L B754_nan = B754_nan /\
  (forall b, finite b -> B2R b < 0 -> bg_log10 L b = B754_nan) /\
  (forall b, finite b -> 0 < B2R b -> finite (bg_log10 L b)) /\
  bg_pow10 L (B754_infinity true) = of_Z 0 /\
  bg_pow10 L (B754_infinity false) = B754_infinity false /\
  bg_pow10 L B754_nan = B754_nan /\
  (forall b, finite b -> bg_pow10 L b <> B754_nan).
(** The same numbers as without infinities; powers up to 1e300 do not overflow. *)
Definition same_llib (L : bllib) (g : llib) : Prop :=
  (forall b x, rep b x -> 0 < x -> rep (bg_log10 L b) (g_log10 g x)) /\
  (forall b, finite b -> finite (bg_pow10 L b) -> B2R (bg_pow10 L b) = g_pow10 g (B2R b)) /\
  (forall b, finite b -> Rabs (B2R b) <= 300 -> finite (bg_pow10 L b)).
(** The same table. *)
Definition same_rows (d : list (b64 * b64)) (d' : list (R * R)) : Prop := Forall2 (fun p q => rep (fst p) (fst q) /\ rep (snd p) (snd q)) d d'.

(** Energies are positive numbers in ascending order. *)
Definition energies_ok (d : list (b64 * b64)) : Prop :=
  Forall (fun p => finite (fst p) /\ 0 < B2R (fst p)) d /\
  consecutive (fun p q => B2R (fst p) <= B2R (fst q)) d.
Definition not_negative (b : b64) : Prop := finite b /\ 0 <= B2R b.
(** Numbers that have no logarithm. *)
Definition no_number (b : b64) : Prop := b = B754_nan \/ b = B754_infinity true \/ finite b /\ B2R b < 0.
(** [E] is between the energies [e1] and [e2], also after taking logarithms. *)
Definition between (L : bllib) (e1 E e2 : b64) : Prop :=
  finite E /\ 0 < B2R E /\ B2R (bg_log10 L e1) < B2R (bg_log10 L E) < B2R (bg_log10 L e2).

(** Library functions that round correctly. *)
Definition correct_bllib : bllib :=
  {| bg_log10 := fun b => match b with
       | B754_zero _ => B754_infinity true
       | B754_infinity false => B754_infinity false
       | B754_finite false _ _ _ => of_R (log10 (B2R b))
       | _ => B754_nan
       end;
     bg_pow10 := fun b => match b with
       | B754_infinity true => of_Z 0
       | B754_infinity false => B754_infinity false
       | B754_nan => B754_nan
       | _ => if Rlt_dec (rnd (pow10 (B2R b))) (bpow radix2 1024) then of_R (pow10 (B2R b)) else B754_infinity false
       end |}.
