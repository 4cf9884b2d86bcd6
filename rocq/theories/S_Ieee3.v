(** Vocabulary for Klein-Nishina cross sections with infinities and nan. *)
From Coq Require Import Reals List ZArith.
From Flocq Require Import Core BinarySingleNaN.
From Verif Require Import Py M_Num M_KleinNishina M_Float M_Float2 M_Float5 M_Ieee M_Ieee2 M_Ieee3 S_Ieee.
Open Scope R_scope.

(** The same outcome: the same number, nan instead of [NaN], or the same exception. *)
Definition agrees (o : out b64) (o' : out R) : Prop :=
  match o' with
  | Ok x => exists b, o = Ok b /\ rep b x
  | NaN => o = Ok B754_nan
  | Raise e => o = Raise e
  end.
(** An infinity or nan. *)
Definition not_finite (o : out b64) : Prop := exists b, o = Ok b /\ ~ finite b.
(** What a Python float gives against what a numpy float gives: the same value, or an infinity or nan instead of an
    exception. *)
Definition instead_of_raising (python numpy : out b64) : Prop :=
  match python with
  | Ok v => numpy = Ok v
  | NaN => False
  | Raise _ => not_finite numpy
  end.

(** Library functions outside of the range where they give numbers (C99, annex F; limits with a margin). *)
Definition klib_special (L : klib) : Prop :=
  (forall b, finite b -> Rabs (B2R b) <= 2 ^ 500 -> finite (k_square L b)) /\
  (forall b, finite b -> Rabs (B2R b) < / 2 ^ 342 -> ~ finite (k_pow_m3 L b)) /\
  (forall b, finite b -> B2R b <= 0 -> ~ finite (k_log L b)) /\
  k_square L (B754_infinity false) = B754_infinity false /\
  (forall s, k_pow_m3 L (B754_zero s) = B754_infinity s) /\
  k_log L (of_Z 1) = of_Z 0 /\ k_square L (of_Z 1) = of_Z 1 /\
  k_log L B754_nan = B754_nan /\ k_square L B754_nan = B754_nan /\ k_pow_m3 L B754_nan = B754_nan /\
  k_cos L B754_nan = B754_nan /\ k_sin L B754_nan = B754_nan /\ k_acos L B754_nan = B754_nan /\
  (forall b, finite b -> 1 < Rabs (B2R b) -> k_acos L b = B754_nan) /\
  (forall s, k_acos L (B754_infinity s) = B754_nan).
(** The same numbers as without infinities. *)
Definition same_libm (L : klib) (m : libm) : Prop :=
  (forall b, finite b -> finite (k_square L b) -> B2R (k_square L b) = m_square m (B2R b)) /\
  (forall b, finite b -> finite (k_pow_m3 L b) -> B2R (k_pow_m3 L b) = m_pow_m3 m (B2R b)) /\
  (forall b, finite b -> / 2 ^ 100 <= B2R b <= 2 ^ 100 -> finite (k_pow_m3 L b)) /\
  (forall b, finite b -> 0 < B2R b -> rep (k_log L b) (m_log m (B2R b))).
Definition same_alib (L : klib) (a : alib) : Prop :=
  (forall b x, rep b x -> rep (k_cos L b) (a_cos a x)) /\
  (forall b x, rep b x -> rep (k_sin L b) (a_sin a x)) /\
  (forall b x, rep b x -> Rabs x <= 1 -> rep (k_square L b) (a_square a x)) /\
  (forall b x, rep b x -> Rabs x <= 1 -> rep (k_acos L b) (a_acos a x)).
(** The same particle. *)
Definition same_particle (b : bkn) (c : kn) : Prop := rep (bk_mc2 b) (kn_mc2 c) /\ rep (bk_scale_factor b) (kn_scale_factor c).

(** Library functions that round correctly. *)
Definition correct_klib : klib :=
  {| k_log := fun b => match b with
       | B754_zero _ => B754_infinity true
       | B754_infinity false => B754_infinity false
       | B754_finite false _ _ _ => of_R (ln (B2R b))
       | _ => B754_nan
       end;
     k_square := fun b => bmul b b;
     k_pow_m3 := fun b => match b with
       | B754_zero s => B754_infinity s
       | B754_infinity s => B754_zero s
       | B754_nan => B754_nan
       | B754_finite s _ _ _ => if Rlt_dec (Rabs (B2R b)) (/ 2 ^ 341) then B754_infinity s else of_R (/ B2R b ^ 3)
       end;
     k_cos := fun b => if is_finite b then of_R (cos (B2R b)) else B754_nan;
     k_sin := fun b => if is_finite b then of_R (sin (B2R b)) else B754_nan;
     k_acos := fun b => if is_finite b then if Rle_dec (Rabs (B2R b)) 1 then of_R (acos (B2R b)) else B754_nan else B754_nan |}.
