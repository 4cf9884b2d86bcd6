(** C99, C100: the Debye model and quad_partition with rounding. *)
From Coq Require Import Reals List ZArith.
From Coquelicot Require Import Coquelicot.
From Verif Require Import Py Spec M_Num M_Thermal M_Quad M_Float M_Float10 S_Thermal S_Quad S_Float S_Float10 L_Debye L_Float41 L_Float42 L_Float43.
Import ListNotations.
Open Scope R_scope.

(** ** C99: effective temperatures of the Debye model *)
(** Rounding adds a relative error of at most 60 + 80 T / T_D units to the error [eps] of the quadrature rule. *)
Theorem C99_accuracy : forall l eps kappa quad T T_D, dlib_ok l -> double T -> double T_D ->
  / 2 ^ 30 <= T <= 2 ^ 30 -> / 2 ^ 30 <= T_D / T <= 2 ^ 30 -> 0 <= eps <= / 4 -> 0 <= kappa <= / 2 ^ 20 ->
  quadrature eps kappa quad (fdebye_integrand l) (fun t => t ^ 3 * (1 / (exp t - 1) + 1 / 2)) (fquo T_D T) ->
  exists Teff, fdebye_scalar l quad T T_D = Ok Teff /\
    Rabs (Teff - lamb_temperature T T_D) <= (eps + 2 * kappa + (60 + 80 * (T / T_D)) * unit_roundoff) * lamb_temperature T T_D.
Proof. intros l eps kappa quad T T_D OK. exact (debye_accuracy l OK eps kappa quad T T_D). Qed.
(** The integrand, for all arguments that the quadrature can use. *)
Theorem C99_integrand : forall l t, dlib_ok l -> double t -> / 2 ^ 40 <= t <= 2 ^ 40 ->
  exists y, fdebye_integrand l t = Ok y /\
    Rabs (y - t ^ 3 * (1 / (exp t - 1) + 1 / 2)) <= 12 * (unit_roundoff * (1 + / t)) * (t ^ 3 * (1 / (exp t - 1) + 1 / 2)).
Proof. intros l t OK. exact (integrand_error l OK t). Qed.
Theorem C99_zero : forall l quad T T_D, T = 0 \/ T_D = 0 -> fdebye_scalar l quad T T_D = Raise ZeroDivisionError.
Proof. exact debye_zero. Qed.
(** REFUTED for extreme temperatures: the integrand is infinite in the whole interval, even with correctly rounded functions. *)
Theorem C99_hot_refuted : exists T T_D, double T /\ double T_D /\ 0 < T_D < T /\
  (forall t, 0 < t <= fquo T_D T -> fdebye_integrand correct_dlib t = NaN) /\ T < lamb_temperature T T_D < T + 1.
Proof.
  exists (2 ^ 55), 1. destruct debye_hot as (A & B & _ & C & D). repeat split; try assumption; try apply D; simpl; Lra.lra.
Qed.

(** ** C100: quad_partition *)
(** The result is within n - 1 roundings of the exact sum of the parts. *)
Theorem C100_integral : forall nquad f x0 rest ranges parts, or_empty rest = Ok ranges ->
  Forall2 (fun c p => nquad f (c :: ranges) = Ok p) (cells x0) parts -> List.Forall (fun p => double (fst p)) parts ->
  exists v err v' err', quad_partition nquad f x0 rest = Ok (v, err) /\ fquad_partition nquad f x0 rest = Ok (v', err') /\
    Rabs (v' - v) <= ((1 + unit_roundoff) ^ (List.length parts - 1) - 1) * Rsum (map (fun p => Rabs (fst p)) parts).
Proof. intros nquad f x0 rest ranges parts A B. exact (fpartition_integral nquad f x0 rest ranges parts A B). Qed.
(** The reported uncertainty is within n + 1 roundings of the root of the sum of squares, if no square underflows. *)
Theorem C100_uncertainty : forall nquad f x0 rest ranges parts, or_empty rest = Ok ranges ->
  Forall2 (fun c p => nquad f (c :: ranges) = Ok p) (cells x0) parts ->
  List.Forall (fun p => double (snd p) /\ (snd p = 0 \/ / 2 ^ 500 <= Rabs (snd p))) parts ->
  exists v err v' err', quad_partition nquad f x0 rest = Ok (v, err) /\ fquad_partition nquad f x0 rest = Ok (v', err') /\
    Rabs (err' - err) <= ((1 + unit_roundoff) ^ (List.length parts + 1) - 1) * err.
Proof. intros nquad f x0 rest ranges parts A B. exact (fpartition_uncertainty nquad f x0 rest ranges parts A B). Qed.
(** The distance to the true integral, if the estimates of all parts are correct. *)
Theorem C100_true_error : forall nquad f x0 rest ranges parts, x0 <> [] -> or_empty rest = Ok ranges ->
  Forall2 (fun c p => nquad f (c :: ranges) = Ok p) (cells x0) parts ->
  (forall c, In c (cells x0) -> box_integrable f (c :: ranges) /\ honest_on nquad f (c :: ranges)) ->
  List.Forall (fun p => double (fst p) /\ double (snd p) /\ (snd p = 0 \/ / 2 ^ 500 <= Rabs (snd p))) parts ->
  exists v err exact, fquad_partition nquad f x0 rest = Ok (v, err) /\ 0 <= exact /\
    Rabs (err - exact) <= ((1 + unit_roundoff) ^ (List.length parts + 1) - 1) * exact /\
    Rabs (v - box_integral f ((first x0, final x0) :: ranges)) <=
      sqrt (INR (List.length parts)) * exact + ((1 + unit_roundoff) ^ (List.length parts - 1) - 1) * Rsum (map (fun p => Rabs (fst p)) parts).
Proof. exact fpartition_honest. Qed.
(** REFUTED for tiny estimates: a correct estimate of 2^-540 is reported as zero, although the result is off by 2^-540. *)
Theorem C100_underflow_refuted : exists nquad f x0 v, honest_on nquad f [(0, 1)] /\ x0 = [0; 1] /\
  fquad_partition nquad f x0 LNone = Ok (v, 0) /\ 0 < Rabs (v - box_integral f [(0, 1)]).
Proof. exact underflow_refuted. Qed.

(** *** Non-vacuity *)
(** Correctly rounded functions meet the hypotheses. *)
Example C99_ex_library : dlib_ok correct_dlib. Proof. exact correct_dlib_ok. Qed.
(** A quadrature exists for all upper limits. *)
Example C99_ex_quadrature : forall f' x, double x -> / 2 ^ 40 <= x -> exists quad, quadrature 0 0 quad f' (fun t => t ^ 3 * (1 / (exp t - 1) + 1 / 2)) x.
Proof. intros f' x D H. exact (ex_intro _ one_node_quad (one_node f' x D H)). Qed.
(** Room temperature and a Debye temperature of 428 K (aluminium). *)
Example C99_ex_aluminium : exists Teff, fdebye_scalar correct_dlib one_node_quad 293 428 = Ok Teff /\
  Rabs (Teff - lamb_temperature 293 428) <= 115 * unit_roundoff * lamb_temperature 293 428.
Proof. exact aluminium. Qed.
Example C100_ex : let nquad := fun (_ : list R -> R) (_ : list (R * R)) => Ok (1, / 2) in
  or_empty LNone = Ok [] /\ Forall2 (fun c p => nquad (fun _ => 1) (c :: []) = Ok p) (cells [0; 1; 2]) [(1, / 2); (1, / 2)] /\
  List.Forall (fun p : R * R => double (fst p) /\ double (snd p) /\ (snd p = 0 \/ / 2 ^ 500 <= Rabs (snd p))) [(1, / 2); (1, / 2)] /\
  (forall c, In c (cells [0; 1; 2]) -> box_integrable (fun _ => 1) (c :: []) /\ honest_on nquad (fun _ => 1) (c :: [])).
Proof. exact partition_case. Qed.
Print Assumptions C99_accuracy.
Print Assumptions C99_integrand.
Print Assumptions C99_zero.
Print Assumptions C99_hot_refuted.
Print Assumptions C100_integral.
Print Assumptions C100_uncertainty.
Print Assumptions C100_true_error.
Print Assumptions C100_underflow_refuted.
