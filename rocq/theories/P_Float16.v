(** C113: the layered target of layer_target.ipynb, with rounding. *)
From Coq Require Import Reals List ZArith.
From Verif Require Import Py M_Num M_Notebook M_Float S_Float M_Float11 M_Float13 S_Float15 M_Float14 S_Float16 L_Float L_Float55 L_Float56 L_Float57 L_Float58.
Open Scope R_scope.

(** The boundaries of the layers ascend, and both they and the thicknesses of the layers are accurate compared to the total. *)
Theorem C113_boundaries : forall t E n p q, target_at t E n p q ->
  frho_I t = f_I t /\ 0 <= frho_I t <= frho_II t /\ frho_II t <= frho_III t /\ frho_III t <= frho_IV t /\
  within_units 1 (frho_II t) (f_I t + f_II t) (f_I t + f_II t) /\ within_units 3 (frho_III t) (f_I t + f_II t + f_III t) (f_I t + f_II t + f_III t) /\
  within_units 4 (frho_IV t) (f_I t + f_II t + f_III t + f_IV t) (f_I t + f_II t + f_III t + f_IV t) /\
  fsub (frho_I t) frho_0 = f_I t /\ within_units 3 (fsub (frho_II t) (frho_I t)) (f_II t) (f_I t + f_II t) /\ within_units 3 (fsub (frho_III t) (frho_II t)) (f_III t) (f_I t + f_II t + f_III t).
Proof. exact boundaries_close. Qed.
(** Whatever the target is, the computed absorption in every layer is not negative, at most the abundance times the cross section of its isotope, and never
    increases with the depth. *)
Theorem C113_falls : forall ex, exp_rising ex -> forall t E n p q, target_at t E n p q -> forall r r', r <= r' ->
  (frho_0 <= r -> falls_below (fmul (f_enrichment_116 t) p) (fdN_dE_drho_I ex t E r) (fdN_dE_drho_I ex t E r')) /\
  (frho_I t <= r -> falls_below (fmul (f_enrichment_112 t) q) (fdN_dE_drho_II ex t E r) (fdN_dE_drho_II ex t E r')) /\
  (frho_II t <= r -> falls_below (fmul (f_enrichment_116 t) p) (fdN_dE_drho_III ex t E r) (fdN_dE_drho_III ex t E r')) /\
  (frho_III t <= r -> falls_below (fmul (f_enrichment_112 t) q) (fdN_dE_drho_IV ex t E r) (fdN_dE_drho_IV ex t E r')).
Proof. exact layers_fall. Qed.
(** Nowhere in the third layer is the computed absorption larger than anywhere in the first one, which is made of the same isotope. *)
Theorem C113_shadow : forall ex, exp_rising ex -> forall t E n p q, target_at t E n p q -> forall r r', (forall x, double x -> double (ex x)) -> double r ->
  0 <= r <= frho_I t -> frho_II t <= r' -> falls_below (fmul (f_enrichment_116 t) p) (fdN_dE_drho_I ex t E r) (fdN_dE_drho_III ex t E r').
Proof. exact layers_shadow. Qed.
(** The computed absorption is accurate in every layer, for optical depths of the target up to 150. *)
Theorem C113_accurate : forall ex f t E delta n p q e rho, exp_accurate ex -> same_target delta f t E -> 0 <= delta <= / 16 -> t_nr t E = Ok n -> sigma_116 t E = Ok p -> sigma_112 t E = Ok q ->
  (n + t_enrichment_116 t * p) * rho_IV t <= 150 -> (n + t_enrichment_112 t * q) * rho_IV t <= 150 ->
  target_error delta (rho_IV t) (n + t_enrichment_116 t * p) <= e -> target_error delta (rho_IV t) (n + t_enrichment_112 t * q) <= e -> e <= / 16 -> double rho ->
  (rho_0 <= rho <= rho_IV t -> computes (delta + 3 * e + 7 * unit_roundoff) 3 (fdN_dE_drho_I ex f E rho) (dN_dE_drho_I t E rho)) /\
  (frho_I f <= rho -> rho_I t <= rho <= rho_IV t -> computes (delta + 6 * e + 13 * unit_roundoff) 6 (fdN_dE_drho_II ex f E rho) (dN_dE_drho_II t E rho)) /\
  (frho_II f <= rho -> rho_II t <= rho <= rho_IV t -> computes (delta + 10 * e + 20 * unit_roundoff) 6 (fdN_dE_drho_III ex f E rho) (dN_dE_drho_III t E rho)) /\
  (frho_III f <= rho -> rho_III t <= rho <= rho_IV t -> computes (delta + 14 * e + 27 * unit_roundoff) 6 (fdN_dE_drho_IV ex f E rho) (dN_dE_drho_IV t E rho)).
Proof. exact layers_close. Qed.

(** *** Non-vacuity *)
Example C113_library : exp_accurate (fun x => rnd (exp x)) /\ exp_rising (fun x => rnd (exp x)) /\ forall x, double x -> double (rnd (exp x)).
Proof. exact (conj (proj1 rounded_exp) (conj (proj2 rounded_exp) (fun x _ => rnd_double (exp x)))). Qed.
(** Four thin layers with Voigt profiles, all of it rounded, at the resonance. *)
Example C113_case : exists t n p q, 0 < n /\ 0 < p /\ 0 < q /\ (exists n' p' q', target_at thin_f 1 n' p' q') /\ same_target (/ 2 ^ 30) thin_f t 1 /\
  t_nr t 1 = Ok n /\ sigma_116 t 1 = Ok p /\ sigma_112 t 1 = Ok q /\ 0 <= / 2 ^ 30 <= / 16 /\
  (n + t_enrichment_116 t * p) * rho_IV t <= 150 /\ (n + t_enrichment_112 t * q) * rho_IV t <= 150 /\
  target_error (/ 2 ^ 30) (rho_IV t) (n + t_enrichment_116 t * p) <= / 2 ^ 20 /\ target_error (/ 2 ^ 30) (rho_IV t) (n + t_enrichment_112 t * q) <= / 2 ^ 20 /\ / 2 ^ 20 <= / 16.
Proof. exact target_case. Qed.
Print Assumptions C113_boundaries.
Print Assumptions C113_falls.
Print Assumptions C113_shadow.
Print Assumptions C113_accurate.
