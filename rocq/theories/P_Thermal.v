(** Properties C18-C22: recoil, Doppler width, Debye model. *)
From Coq Require Import Reals List ZArith Bool Lia Lra String.
From Coquelicot Require Import Coquelicot.
From Verif Require Import Py M_Num M_Thermal S_Thermal L_Thermal L_Debye.
Import ListNotations.
Open Scope R_scope.

(** The premise on the physical constants is met by the CODATA values. *)
Example constants_ok_ex : constants_ok codata.
Proof. exact codata_ok. Qed.

(** ** C18 *)
Theorem C18_free_recoil_conserves : forall k amu D, constants_ok k -> 0 < amu -> 0 <= D ->
  exists E, FreeNucleusRecoil k amu D = Ok E /\ D <= E /\
    conserves_four_momentum (amu * k_u_MeV k) D E /\
    forall E', conserves_four_momentum (amu * k_u_MeV k) D E' -> E' = E.
Proof. exact free_recoil. Qed.

Theorem C18_free_recoil_monotone : forall k, constants_ok k ->
  (forall amu D D', 0 < amu -> 0 <= D < D' -> exists E E',
     FreeNucleusRecoil k amu D = Ok E /\ FreeNucleusRecoil k amu D' = Ok E' /\ E < E') /\
  (forall amu amu' D, 0 < amu < amu' -> 0 < D -> exists E E',
     FreeNucleusRecoil k amu D = Ok E /\ FreeNucleusRecoil k amu' D = Ok E' /\ E' < E).
Proof. exact free_recoil_mono. Qed.

Theorem C18_no_recoil_and_zero_mass : forall k D,
  NoRecoil D = Ok D /\ FreeNucleusRecoil k 0 D = Raise ZeroDivisionError.
Proof. exact recoil_degenerate. Qed.

Example C18_ex : conserves_four_momentum 4 2 (2 + 1 / 2).
Proof. exact recoil_example. Qed.

(** ** C19 *)
Theorem C19_temperature_of_width : forall k amu T E,
  constants_ok k -> 0 < amu -> 0 <= T -> E <> 0 ->
  exists w, get_doppler_width k {| mb_amu := amu; mb_effective_temperature := T |} E = Ok w /\
    get_effective_temperature k w amu E = Ok T.
Proof. exact temperature_of_width. Qed.

Theorem C19_width_of_temperature : forall k amu w E,
  constants_ok k -> 0 < amu -> 0 <= w -> 0 < E ->
  exists T, get_effective_temperature k w amu E = Ok T /\ 0 <= T /\
    get_doppler_width k {| mb_amu := amu; mb_effective_temperature := T |} E = Ok w.
Proof. exact width_of_temperature. Qed.

Theorem C19_scaling : forall k amu T E c, constants_ok k -> 0 < amu -> 0 <= T -> 0 < c -> exists w,
  get_doppler_width k {| mb_amu := amu; mb_effective_temperature := T |} E = Ok w /\
  get_doppler_width k {| mb_amu := amu; mb_effective_temperature := T |} (c * E) = Ok (c * w) /\
  get_doppler_width k {| mb_amu := amu; mb_effective_temperature := c ^ 2 * T |} E = Ok (c * w) /\
  get_doppler_width k {| mb_amu := c ^ 2 * amu; mb_effective_temperature := T |} E = Ok (w / c).
Proof. exact width_scaling. Qed.

Theorem C19_degenerate : forall k amu T E w, constants_ok k ->
  get_doppler_width k {| mb_amu := 0; mb_effective_temperature := T |} E = Raise ZeroDivisionError /\
  (0 < amu -> T < 0 -> get_doppler_width k {| mb_amu := amu; mb_effective_temperature := T |} E = NaN) /\
  get_effective_temperature k w amu 0 = Raise ZeroDivisionError.
Proof. exact doppler_degenerate. Qed.

(** ** C20 *)
Theorem C20_bounds : forall quad T T_D, 0 < T -> 0 < T_D ->
  quad_error_ok quad (fun t => t ^ 3 * (1 / (exp t - 1) + 1 / 2)) 0 (T_D / T) ->
  exists Teff err, debye_scalar quad T T_D = Ok Teff /\
    err = 3 * T * (T / T_D) ^ 3 * snd (quad (fun t => t ^ 3 * (1 / (exp t - 1) + 1 / 2)) 0 (T_D / T)) /\
    T - err < Teff /\ 3 / 8 * T_D - err < Teff /\ Teff < T + 3 / 8 * T_D + err /\
    Teff < T + 3 / 20 * T_D ^ 2 / T + err.
Proof. exact debye_bounds. Qed.

(** With an exact integration the bounds are strict without any error term. *)
Theorem C20_exact : forall quad T T_D, 0 < T -> 0 < T_D ->
  let f := fun t => t ^ 3 * (1 / (exp t - 1) + 1 / 2) in
  fst (quad f 0 (T_D / T)) = RInt f 0 (T_D / T) ->
  exists Teff, debye_scalar quad T T_D = Ok Teff /\ Teff = lamb_temperature T T_D /\
    T < Teff /\ 3 / 8 * T_D < Teff /\ Teff < T + 3 / 8 * T_D.
Proof. exact debye_exact_bounds. Qed.

Theorem C20_zero_raises : forall quad T T_D,
  T = 0 \/ T_D = 0 <-> debye_scalar quad T T_D = Raise ZeroDivisionError.
Proof. exact debye_raises. Qed.

(** Arrays: element by element, the first exception is raised. *)
Theorem C20_arrays : forall quad T T_D, T <> [] -> List.length T = List.length T_D ->
  (List.Exists (fun t => t = 0) T \/ List.Exists (fun t => t = 0) T_D ->
     effective_temperature_debye_approximation quad T T_D = Raise ZeroDivisionError) /\
  (forall l, effective_temperature_debye_approximation quad T T_D = Ok l ->
     List.length l = List.length T /\
     forall i, (i < List.length T)%nat -> debye_scalar quad (nth i T 0) (nth i T_D 0) = Ok (nth i l 0)).
Proof. exact debye_arrays. Qed.

Example C20_ex : exists quad, forall f a b, ex_RInt f a b -> quad_error_ok quad f a b.
Proof. exact quad_exists. Qed.

(** ** C21 *)
Theorem C21_monotone : forall quad, (forall f a b, ex_RInt f a b -> fst (quad f a b) = RInt f a b) ->
  (forall T T' T_D, 0 < T < T' -> 0 < T_D -> exists x y,
     debye_scalar quad T T_D = Ok x /\ debye_scalar quad T' T_D = Ok y /\ x < y) /\
  (forall T T_D T_D', 0 < T -> 0 < T_D < T_D' -> exists x y,
     debye_scalar quad T T_D = Ok x /\ debye_scalar quad T T_D' = Ok y /\ x < y).
Proof. exact debye_monotone. Qed.

(** Homogeneity holds for any integration routine, exact or not. *)
Theorem C21_homogeneous : forall quad c T T_D, c <> 0 -> T <> 0 -> T_D <> 0 -> exists Teff,
  debye_scalar quad T T_D = Ok Teff /\ debye_scalar quad (c * T) (c * T_D) = Ok (c * Teff).
Proof. exact debye_homogeneous. Qed.

Theorem C21_limits : forall T_D, 0 < T_D ->
  filterlim (fun T => lamb_temperature T T_D) (at_right 0) (locally (3 / 8 * T_D)) /\
  is_lim (fun T => lamb_temperature T T_D - T) p_infty 0.
Proof. exact (fun T_D H => conj (lamb_low_limit T_D H) (lamb_high_limit T_D H)). Qed.
Print Assumptions C18_free_recoil_conserves.
Print Assumptions C18_free_recoil_monotone.
Print Assumptions C18_no_recoil_and_zero_mass.
Print Assumptions C19_temperature_of_width.
Print Assumptions C19_width_of_temperature.
Print Assumptions C19_scaling.
Print Assumptions C19_degenerate.
Print Assumptions C20_bounds.
Print Assumptions C20_exact.
Print Assumptions C20_zero_raises.
Print Assumptions C20_arrays.
Print Assumptions C21_monotone.
Print Assumptions C21_homogeneous.
Print Assumptions C21_limits.
