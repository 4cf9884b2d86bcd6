(** C102: XRMAC tables with infinities and nan. *)
From Coq Require Import Reals List ZArith Lra Lia.
From Flocq Require Import Core BinarySingleNaN.
From Verif Require Import Py M_Num M_Xrmac M_Float S_Float M_Float7 S_Float7 M_Ieee M_Ieee4 S_Ieee S_Ieee4 L_Float26 L_Ieee L_Ieee16 L_Ieee18 L_Ieee19.
Import ListNotations.
Open Scope R_scope.

(** Positive tables and energies: a finite value is the value without any limit of numbers; it is finite if the coefficients are between 1e-90 and 1e90. *)
Theorem C102_agrees : forall L g minval d d', llib_ok g -> same_llib L g -> same_rows d d' ->
  Forall (fun p => 0 < fst p /\ 0 < snd p) d' -> d' <> [] -> (minval <= length d')%nat ->
  exists o o', binterpolate_log_log L minval d = Ok o /\ finterpolate_log_log g minval d' = Ok o' /\ forall E, finite E -> 0 < B2R E ->
    (finite (bxrmac_call L o E) -> fxrmac_call g o' (B2R E) = Ok (B2R (bxrmac_call L o E))) /\
    (Forall (fun p => Rabs (log10 (snd p)) <= 90) d' -> finite (bxrmac_call L o E)).
Proof. exact call_same. Qed.
(** If no coefficient is negative, no energy that is not negative gives nan. *)
Theorem C102_never_nan : forall L g minval d o E, llib_ok g -> same_llib L g -> bllib_special L -> energies_ok d ->
  Forall (fun p => not_negative (snd p)) d -> binterpolate_log_log L minval d = Ok o -> not_negative E \/ E = B754_infinity false ->
  bxrmac_call L o E <> B754_nan.
Proof. exact (fun L g minval d o E G S Sp => never_nan L g G S Sp minval d o E). Qed.
(** Next to a coefficient zero everything is zero. *)
Theorem C102_zero : forall L g minval pre e1 c1 e2 c2 post o E, llib_ok g -> same_llib L g -> bllib_special L ->
  energies_ok (pre ++ (e1, c1) :: (e2, c2) :: post) -> binterpolate_log_log L minval (pre ++ (e1, c1) :: (e2, c2) :: post) = Ok o ->
  between L e1 E e2 -> not_negative c1 -> not_negative c2 -> B2R c1 = 0 \/ B2R c2 = 0 -> bxrmac_call L o E = of_Z 0.
Proof. exact (fun L g minval pre e1 c1 e2 c2 post o E G S Sp => zeros L g minval o G S Sp pre e1 c1 e2 c2 post E). Qed.
(** Next to a negative coefficient or nan everything is nan. *)
Theorem C102_negative : forall L g minval pre e1 c1 e2 c2 post o E, llib_ok g -> same_llib L g -> bllib_special L ->
  energies_ok (pre ++ (e1, c1) :: (e2, c2) :: post) -> binterpolate_log_log L minval (pre ++ (e1, c1) :: (e2, c2) :: post) = Ok o ->
  between L e1 E e2 -> no_number c1 \/ no_number c2 -> bxrmac_call L o E = B754_nan.
Proof. exact (fun L g minval pre e1 c1 e2 c2 post o E G S Sp => negatives L g minval o G S Sp pre e1 c1 e2 c2 post E). Qed.
(** Energies that are negative, nan, zero or infinite, and tables with a single line. *)
Theorem C102_energies : forall L g minval d o, llib_ok g -> same_llib L g -> bllib_special L -> energies_ok d -> binterpolate_log_log L minval d = Ok o ->
  (forall E, no_number E -> (2 <= length d)%nat -> bxrmac_call L o E = B754_nan) /\
  (forall s, bxrmac_call L o (B754_zero s) = bg_pow10 L (bg_log10 L (snd (hd (of_Z 0, of_Z 0) d)))) /\
  bxrmac_call L o (B754_infinity false) = bg_pow10 L (bg_log10 L (snd (last d (of_Z 0, of_Z 0)))) /\
  (forall E, length d = 1%nat -> bxrmac_call L o E = bg_pow10 L (bg_log10 L (snd (hd (of_Z 0, of_Z 0) d)))).
Proof. exact (fun L g minval d o G S Sp => energies L g minval o G S Sp d). Qed.
(** A table that begins at the energy zero: below the second energy the second coefficient is returned, not the first one. *)
Theorem C102_origin : forall L g minval z c1 e2 c2 post o, llib_ok g -> same_llib L g -> bllib_special L ->
  energies_ok ((e2, c2) :: post) -> binterpolate_log_log L minval ((B754_zero z, c1) :: (e2, c2) :: post) = Ok o ->
  (forall s, bxrmac_call L o (B754_zero s) = bg_pow10 L (bg_log10 L c1)) /\
  forall E, finite E -> 0 < B2R E -> B2R (bg_log10 L E) < B2R (bg_log10 L e2) ->
    (finite c1 -> 0 < B2R c1 -> finite c2 -> 0 < B2R c2 -> finite (bxrmac_call L o E) -> B2R (bxrmac_call L o E) = g_pow10 g (g_log10 g (B2R c2))) /\
    (not_negative c1 -> not_negative c2 -> (B2R c1 = 0 /\ 0 < B2R c2) \/ (0 < B2R c1 /\ B2R c2 = 0) -> bxrmac_call L o E = B754_nan) /\
    (not_negative c1 -> not_negative c2 -> B2R c1 = 0 -> B2R c2 = 0 -> bxrmac_call L o E = of_Z 0).
Proof. exact (fun L g minval z c1 e2 c2 post o G S Sp => origin L g minval o G S Sp z c1 e2 c2 post). Qed.

(** The hypotheses are met: library functions that round correctly; a table with an absorption edge, a zero and a negative coefficient. *)
Example C102_ex_library : llib_ok correct_llib /\ same_llib correct_bllib correct_llib /\ bllib_special correct_bllib.
Proof. exact (conj correct_llib_ok (conj correct_bllib_same correct_bllib_special)). Qed.
Example C102_ex_table : energies_ok [(of_Z 1, of_Z 5); (of_Z 2, of_Z 3); (of_Z 2, of_Z 6); (of_Z 8, of_Z 0); (of_Z 9, of_Z 4); (of_Z 16, of_Z (-1))].
Proof. exact edge_ok. Qed.
Example C102_ex_values : exists o,
  binterpolate_log_log correct_bllib 4 [(of_Z 1, of_Z 5); (of_Z 2, of_Z 3); (of_Z 2, of_Z 6); (of_Z 8, of_Z 0); (of_Z 9, of_Z 4); (of_Z 16, of_Z (-1))] = Ok o /\
  bxrmac_call correct_bllib o (of_Z 3) = of_Z 0 /\ bxrmac_call correct_bllib o (of_Z 12) = B754_nan /\ bxrmac_call correct_bllib o (of_Z (-3)) = B754_nan.
Proof. exact edge_values. Qed.
Print Assumptions C102_agrees.
Print Assumptions C102_never_nan.
Print Assumptions C102_zero.
Print Assumptions C102_negative.
Print Assumptions C102_energies.
Print Assumptions C102_origin.
