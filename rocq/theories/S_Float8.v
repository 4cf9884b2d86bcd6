(** Vocabulary for rounding in the pseudo-Voigt distribution. *)
From Coq Require Import Reals List ZArith.
From Verif Require Import Py M_Num M_Constituents M_Thermal M_Resonance M_Float S_Float M_Float4 S_Float4 M_Float6 S_Float6 M_Float8.
Import ListNotations.
Open Scope R_scope.

(** Relative errors of a few units in the last place; [np.exp] may underflow. *)
Definition pvlib_ok (L : pvlib) : Prop :=
  clib_ok (v_c L) /\
  (forall x, double x -> x <= 0 ->
     Rabs (c_exp (v_c L) x - exp x) <= 2 * unit_roundoff * exp x + 2 * half_smallest) /\
  Rabs (v_log L 2 - ln 2) <= 2 * unit_roundoff * ln 2 /\
  (forall x y, double x -> double y -> / 2 ^ 400 <= x <= 2 ^ 400 -> 0 < y < 1 ->
     double (v_pow L x y) /\ Rabs (v_pow L x y - Rpower x y) <= 2 * unit_roundoff * Rpower x y) /\
  fdist_ok Normal (v_norm L) /\ fdist_ok Cauchy (v_cauchy L).

(** Moderate numbers: either the width or the temperature may vanish, otherwise the width of the state, the
    temperature and the Doppler width are plausible. *)
Definition pv_floats (k : constants) (E w amu T : R) : Prop :=
  double E /\ / 2 ^ 61 <= E <= 2 ^ 61 /\ double w /\
  plausible (k_kB_eV k) /\ plausible (k_u_MeV k) /\ plausible amu /\
  (T = 0 \/ plausible T /\
     forall d, get_doppler_width k {| mb_amu := amu; mb_effective_temperature := T |} E = Ok d -> plausible d) /\
  (w = 0 \/ plausible w) /\ (w <> 0 \/ T <> 0).

(** Library functions that round correctly. *)
Definition correct_pvlib : pvlib :=
  {| v_c := correct_clib; v_log := fun x => rnd (ln x); v_pow := fun x y => rnd (Rpower x y);
     v_norm := correct_fdist Normal; v_cauchy := correct_fdist Cauchy |}.
