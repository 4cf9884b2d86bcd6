(** Vocabulary for the Debye model and [quad_partition] with infinities and nan (C105, C106). *)
From Coq Require Import Reals List ZArith.
From Coquelicot Require Import Rbar.
From Flocq Require Import Core BinarySingleNaN.
From Verif Require Import Py M_Num M_Float M_Float10 M_Ieee M_Ieee2 M_Ieee3 M_Ieee6 S_Ieee S_Float.
Open Scope R_scope.

(** A number of at least 0 or plus infinity. *)
Definition not_negative (b : b64) : Prop := b = B754_infinity false \/ finite b /\ 0 <= B2R b.
(** The number [x], or an infinity with its sign if its magnitude is 2^1024 or more. *)
Definition overflows_to (b : b64) (x : R) : Prop := rep b x \/ exists s, b = B754_infinity s /\ bpow radix2 1024 <= (if s then - x else x).
(** The same functions in both arithmetics; exponentials are not negative. *)
Definition same_dlib (L : bdlib) (l : dlib) : Prop :=
  (forall b x, rep b x -> match d_exp l x with Finite y => rep (bd_exp L b) y /\ 0 <= y | p_infty => bd_exp L b = B754_infinity false | m_infty => False end) /\
  (forall b x, rep b x -> overflows_to (bd_cube L b) (d_cube l x)).
(** Third powers of special values (C99, annex F). *)
Definition dlib_special (L : bdlib) : Prop :=
  bd_cube L B754_nan = B754_nan /\ (forall s, bd_cube L (B754_infinity s) = B754_infinity s) /\ (forall s, bd_cube L (B754_zero s) = B754_zero s) /\
  bd_exp L B754_nan = B754_nan.
(** Quadratures of the integrands of both arithmetics that give the same numbers. *)
Definition same_quad (f : b64 -> out b64) (f' : R -> out R) (bquad : bquad_fn) (quad : fquad_fn) : Prop :=
  forall x v, finite x -> finite v -> bquad f (of_Z 0) x = Ok v -> quad f' 0 (B2R x) = Ok (B2R v).
(** Library functions that round correctly. *)
Definition correct_bdlib : bdlib :=
  {| bd_exp := fun b => match b with
       | B754_nan => B754_nan
       | B754_infinity false => B754_infinity false
       | B754_infinity true => B754_zero false
       | _ => if Rle_dec (B2R b) 709 then of_R (exp (B2R b)) else B754_infinity false
       end;
     bd_cube := fun b => match b with B754_finite _ _ _ _ => of_R (B2R b ^ 3) | _ => b end |}.
