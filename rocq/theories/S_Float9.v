(** Vocabulary for tables of decimal numbers that are read into floats (C98). *)
From Coq Require Import Reals List ZArith.
From Verif Require Import Py PyNum M_Constituents M_Xrmac M_XrmacTables M_Float M_Float7 M_Float9 S_Float S_Float7 S_Decimal.
Import ListNotations.
Open Scope R_scope.

(** A decimal number with at most [n] significant digits. *)
Definition significant (n : nat) (v : num) : Prop := match v with Fin m _ => (Z.abs m < 10 ^ Z.of_nat n)%Z | _ => False end.
(** Zero or a positive number with at most 99 digits before or after the decimal point. *)
Definition ordinary (v : num) : Prop := exists x, worth v x /\ (x = 0 \/ / 10 ^ 99 <= x <= 10 ^ 99).
(** A line of a file. *)
Definition ordinary_row (r : num * num * num) : Prop := ordinary (fst (fst r)) /\ ordinary (snd (fst r)) /\ ordinary (snd r).
(** Two consecutive lines of a table: an absorption edge, or energies that differ by 1e-8 or more and coefficients that change at
    most like the power [S] of the energy. *)
Definition decimal_lines (S : R) (p p' : R * R) : Prop :=
  fst p = fst p' \/
  (fst p * (1 + / 10 ^ 8) <= fst p' /\ Rabs (log10 (snd p') - log10 (snd p)) <= S * (log10 (fst p') - log10 (fst p))).
(** Positive numbers with at most [M] digits before or after the decimal point. *)
Definition decimal_table (M S : R) (data : list (R * R)) : Prop :=
  Forall (fun p => 0 < fst p /\ Rabs (log10 (fst p)) <= M /\ 0 < snd p /\ Rabs (log10 (snd p)) <= M) data /\ consecutive (decimal_lines S) data.
(** An energy that is not just below an absorption edge. *)
Definition not_below_edge (data : list (R * R)) (E : R) : Prop :=
  forall pre e c c' post, data = pre ++ (e, c) :: (e, c') :: post -> E < e -> E * (1 + / 2 ^ 39) <= e.
(** The float [x'] is [x] up to [k] roundings. *)
Definition roundings (k x' x : R) : Prop := double x' /\ Rabs (x' - x) <= k * unit_roundoff * Rabs x.
(** A table of floats for a table of exact numbers: the energies are rounded, the coefficients are also calculated. *)
Definition read_table (k : R) (data' data : list (R * R)) : Prop :=
  Forall2 (fun p' p => fst p' = rnd (fst p) /\ roundings k (snd p') (snd p)) data' data.
(** The same with both coefficients, for objects. *)
Definition read_object (l : llib) (minval : nat) (k : R) (o' : fxrmac_object) (o : xrmac_object) : Prop :=
  Forall2 (fun r' r => fst (fst r') = rnd (fst (fst r)) /\ roundings k (snd (fst r')) (snd (fst r)) /\ roundings k (snd r') (snd r)) (fo_data o') (xo_data o) /\
  fo_interpolation o' = finterpolate_log_log l minval (map fst (fo_data o')) /\ xo_interpolation o = interpolate_log_log minval (map fst (xo_data o)).
(** An element that has been created from ordinary masses and abundances of at most [n] isotopes. *)
Definition ordinary_element (n : nat) (e : natural_element) : Prop :=
  amu_from_isotopic_composition entry_mul entry_sum (el_abundances e) (el_isotopes e) = Ok (el_amu e) /\
  (1 <= List.length (el_isotopes e) <= n)%nat /\ NoDup (dkeys (el_isotopes e)) /\
  Forall (fun ki => exists m a, iso_mass (snd ki) = Some m /\ ordinary m /\ dget (el_abundances e) (fst ki) = Some (Some a) /\ ordinary a) (el_isotopes e).
(** The order in which numpy adds depends on the number of summands only. *)
Definition orders (t : nat -> option order) : Prop := forall n, order_of n (t n).
(** The factors of the unit conversion: the rounded square of 1e13 and an atomic mass constant (in kg). *)
Definition conversion_factors (sq amc : R) : Prop := roundings 2 sq (10 ^ 26) /\ double amc /\ 1 / 10 ^ 27 <= amc <= 2 / 10 ^ 27.
