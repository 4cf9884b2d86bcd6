(** C105, C106: quad_partition and the Debye model with infinities and nan. *)
From Coq Require Import Reals List ZArith.
From Flocq Require Import Core BinarySingleNaN.
From Verif Require Import Py Spec M_Num M_Quad M_Thermal M_Float M_Float10 S_Thermal S_Float S_Float10 M_Ieee M_Ieee2 M_Ieee3 M_Ieee6 S_Ieee S_Ieee3 S_Ieee6 L_Ieee13 L_Ieee20 L_Ieee22 L_Ieee23.
Import ListNotations.
Open Scope R_scope.

(** ** C105: quad_partition *)
(** The integral: nan if a part is nan or if parts are infinite with both signs, never a number if a part is infinite; a number for
    up to 2^53 parts of magnitudes up to 2^900. *)
Theorem C105_integral : forall nquad f x0 rest ranges (parts : list (b64 * b64)), bor_empty rest = Ok ranges ->
  Forall2 (fun c p => nquad f (c :: ranges) = Ok p) (cells x0) parts ->
  exists v err, bquad_partition nquad f x0 rest = Ok (v, err) /\
    ((exists p, In p parts /\ fst p = B754_nan) -> v = B754_nan) /\
    (forall s p, In p parts -> fst p = B754_infinity s -> v = B754_infinity s \/ v = B754_nan) /\
    (forall p q, In p parts -> In q parts -> fst p = B754_infinity false -> fst q = B754_infinity true -> v = B754_nan) /\
    ((Z.of_nat (length parts) <= 2 ^ 53)%Z -> Forall (fun p => finite (fst p) /\ Rabs (B2R (fst p)) <= 2 ^ 900) parts -> finite v).
Proof. exact partition_integral. Qed.
(** The uncertainty: nan exactly if an estimate is nan, otherwise not negative; infinite if an estimate is infinite or has a magnitude
    of 2^512 or more. *)
Theorem C105_uncertainty : forall nquad f x0 rest ranges (parts : list (b64 * b64)), bor_empty rest = Ok ranges ->
  Forall2 (fun c p => nquad f (c :: ranges) = Ok p) (cells x0) parts ->
  exists v err, bquad_partition nquad f x0 rest = Ok (v, err) /\
    (err = B754_nan <-> exists p, In p parts /\ snd p = B754_nan) /\
    (err <> B754_nan -> not_negative err) /\
    (err <> B754_nan -> forall p, In p parts -> ~ finite (snd p) \/ 2 ^ 512 <= Rabs (B2R (snd p)) -> err = B754_infinity false) /\
    ((Z.of_nat (length parts) <= 2 ^ 53)%Z -> Forall (fun p => finite (snd p) /\ Rabs (B2R (snd p)) <= 2 ^ 450) parts -> finite err).
Proof. exact partition_uncertainty. Qed.
(** Finite results are those of the arithmetic without an upper limit of numbers, to which C100 applies. *)
Theorem C105_finite : forall nquad f x0 rest ranges (parts : list (b64 * b64)) nquad' f' x0' rest' ranges',
  bor_empty rest = Ok ranges -> Forall2 (fun c p => nquad f (c :: ranges) = Ok p) (cells x0) parts ->
  or_empty rest' = Ok ranges' -> Forall2 (fun c p => nquad' f' (c :: ranges') = Ok (B2R (fst p), B2R (snd p))) (cells x0') parts ->
  exists v err v' err', bquad_partition nquad f x0 rest = Ok (v, err) /\ fquad_partition nquad' f' x0' rest' = Ok (v', err') /\
    (finite v -> Forall (fun p => finite (fst p)) parts /\ B2R v = v') /\ (finite err -> Forall (fun p => finite (snd p)) parts /\ B2R err = err').
Proof. exact partition_finite. Qed.
Theorem C105_short : forall nquad f x0 rest ranges, bor_empty rest = Ok ranges -> (length x0 <= 1)%nat ->
  exists err, bquad_partition nquad f x0 rest = Ok (of_Z 0, err) /\ rep err 0.
Proof. exact partition_short. Qed.
(** The first part that fails decides about the exception; ranges given as an array are rejected before. *)
Theorem C105_exceptions : forall nquad f x0 rest ranges (before : list (b64 * b64 * (b64 * b64))) c after e, bor_empty rest = Ok ranges -> cells x0 = map fst before ++ c :: after ->
  Forall (fun cp => nquad f (fst cp :: ranges) = Ok (snd cp)) before -> nquad f (c :: ranges) = Raise e -> bquad_partition nquad f x0 rest = Raise e.
Proof. exact partition_raises. Qed.
Theorem C105_array : forall nquad f x0 l, l <> [] -> bquad_partition nquad f x0 (BLArray l) = Raise ValueError.
Proof. exact partition_array. Qed.
(** REFUTED: finite parts with a sum of 2^1023 give an infinite integral, and finite estimates give an infinite uncertainty. *)
Theorem C105_overflow_refuted : exists nquad f x0 (parts : list (b64 * b64)), Forall2 (fun c p => nquad f (c :: []) = Ok p) (cells x0) parts /\
  Forall (fun p => finite (fst p) /\ finite (snd p)) parts /\ Rsum (map (fun p => B2R (fst p)) parts) = 2 ^ 1023 /\
  bquad_partition nquad f x0 BLNone = Ok (B754_infinity false, B754_infinity false).
Proof. exact (ex_intro _ large_nquad (ex_intro _ _ (ex_intro _ _ (ex_intro _ large_parts partition_large)))). Qed.

(** ** C106: effective temperatures of the Debye model *)
(** Exceptions: ZeroDivisionError exactly for a temperature of zero, OverflowError exactly if the third power of T / T_D overflows. *)
Theorem C106_exceptions : forall L quad T T_D, dlib_special L -> (forall f a b, exists v, quad f a b = Ok v) ->
  (bdebye_scalar L quad T T_D = Raise ZeroDivisionError <-> bzero T = true \/ bzero T_D = true) /\
  (bdebye_scalar L quad T T_D = Raise OverflowError <-> bzero T = false /\ bzero T_D = false /\ finite (bquo T T_D) /\ exists s, bd_cube L (bquo T T_D) = B754_infinity s) /\
  (forall e, bdebye_scalar L quad T T_D = Raise e -> e = ZeroDivisionError \/ e = OverflowError) /\ bdebye_scalar L quad T T_D <> NaN.
Proof. exact debye_exceptions. Qed.
Theorem C106_nan : forall L quad T T_D, dlib_special L -> bzero T = false -> bzero T_D = false -> T = B754_nan \/ T_D = B754_nan ->
  (exists v, quad (bdebye_integrand L) (of_Z 0) B754_nan = Ok v) -> bdebye_scalar L quad T T_D = Ok B754_nan.
Proof. exact debye_nan. Qed.
(** An infinite temperature gives nan if the integral over nothing is zero. *)
Theorem C106_infinite : forall L quad s T_D, dlib_special L -> finite T_D -> bzero T_D = false ->
  (forall s, quad (bdebye_integrand L) (of_Z 0) (B754_zero s) = Ok (of_Z 0)) -> bdebye_scalar L quad (B754_infinity s) T_D = Ok B754_nan.
Proof. exact debye_infinite. Qed.
(** Finite values are those of the arithmetic without an upper limit of numbers, to which C99 applies; so are those of the integrand. *)
Theorem C106_finite : forall L l bquad quad T T_D v, dlib_special L -> same_dlib L l -> same_quad (bdebye_integrand L) (fdebye_integrand l) bquad quad ->
  finite T_D -> finite (bquo T_D T) -> bdebye_scalar L bquad T T_D = Ok v -> finite v -> fdebye_scalar l quad (B2R T) (B2R T_D) = Ok (B2R v).
Proof. exact debye_finite. Qed.
Theorem C106_integrand : forall L l t v, same_dlib L l -> finite t -> bdebye_integrand L t = Ok v -> finite v -> fdebye_integrand l (B2R t) = Ok (B2R v).
Proof. exact integrand_finite. Qed.
(** They are finite between 2^-30 and 2^30 K. *)
Theorem C106_range : forall L l bquad quad T T_D t d Q q, dlib_ok l -> same_dlib L l -> rep T t -> rep T_D d -> / 2 ^ 30 <= t <= 2 ^ 30 -> / 2 ^ 30 <= d <= 2 ^ 30 ->
  bquad (bdebye_integrand L) (of_Z 0) (bquo T_D T) = Ok Q -> quad (fdebye_integrand l) 0 (fquo d t) = Ok q -> rep Q q -> Rabs q <= 2 ^ 500 ->
  reads_number (bdebye_scalar L bquad T T_D) (fdebye_scalar l quad t d).
Proof. exact debye_range. Qed.
(** REFUTED for hot matter: the effective temperature is a number close to T, but no quadrature can prevent the exception. *)
Theorem C106_hot_refuted : exists T, finite T /\ forall quad, bdebye_scalar correct_bdlib quad T (of_Z 1) = Raise OverflowError /\
  B2R T < lamb_temperature (B2R T) 1 < B2R T + 1.
Proof.
  exists (mass 400). split; [reflexivity|]. intros quad. destruct (debye_overflow quad) as (A & -> & B). exact (conj A B).
Qed.
(** REFUTED for an infinite Debye temperature: the effective temperature is zero instead of infinite if the quadrature of the
    divergent integral returns a number, nan otherwise. *)
Theorem C106_rigid_refuted : forall L quad T s v, dlib_special L -> finite T -> bzero T = false ->
  (forall s, quad (bdebye_integrand L) (of_Z 0) (B754_infinity s) = Ok v) ->
  exists r, bdebye_scalar L quad T (B754_infinity s) = Ok r /\ if is_finite v then rep r 0 else r = B754_nan.
Proof. exact debye_rigid. Qed.

(** *** Non-vacuity *)
Example C105_ex : Forall2 (fun c p => large_nquad (fun _ => of_Z 0) (c :: []) = Ok p) (cells [of_Z 0; of_Z 1; of_Z 2; of_Z 3]) large_parts.
Proof. exact (proj1 partition_large). Qed.
(** Correctly rounded functions meet the hypotheses; C99_ex_library shows the one on errors. *)
Example C106_ex_library : dlib_special correct_bdlib /\ same_dlib correct_bdlib correct_dlib. Proof. exact (conj correct_d_special correct_d_same). Qed.
Example C106_ex_aluminium : let bquad := (fun _ _ _ => Ok (of_Z 1)) : bquad_fn in let quad := (fun _ _ _ => Ok 1) : fquad_fn in
  same_quad (bdebye_integrand correct_bdlib) (fdebye_integrand correct_dlib) bquad quad /\ rep (of_Z 293) 293 /\ rep (of_Z 428) 428 /\ rep (of_Z 1) 1 /\
  exists v, bdebye_scalar correct_bdlib bquad (of_Z 293) (of_Z 428) = Ok v /\ finite v.
Proof. exact aluminium_ieee. Qed.
Print Assumptions C105_integral.
Print Assumptions C105_uncertainty.
Print Assumptions C105_finite.
Print Assumptions C105_short.
Print Assumptions C105_exceptions.
Print Assumptions C105_array.
Print Assumptions C105_overflow_refuted.
Print Assumptions C106_exceptions.
Print Assumptions C106_nan.
Print Assumptions C106_infinite.
Print Assumptions C106_finite.
Print Assumptions C106_integrand.
Print Assumptions C106_range.
Print Assumptions C106_hot_refuted.
Print Assumptions C106_rigid_refuted.
