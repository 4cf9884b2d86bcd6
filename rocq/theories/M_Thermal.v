(** Recoil (ries/resonance/recoil.py), Maxwell-Boltzmann (ries/resonance/maxwell_boltzmann.py) and
    Debye (ries/resonance/debye_model.py).  Arguments are Python floats: a zero divisor raises. *)
From Coq Require Import Reals List.
From Verif Require Import Py M_Num.
Import ListNotations.
Open Scope R_scope.
Open Scope py_scope.

(** ** recoil.py *)
(** A recoil correction: a callable object.  User-defined subclasses of [Recoil] are any function. *)
Definition recoil := R -> out R.

(** recoil.py:44-71: [Recoil.__call__], inherited by [NoRecoil]. *)
Definition NoRecoil : recoil := fun D => Ok D.

(** recoil.py:104-127: [FreeNucleusRecoil(amu)(energy_difference)]. *)
Definition FreeNucleusRecoil (k : constants) (amu : R) : recoil := fun D =>
  let! q := fdiv D (2 * amu * k_u_MeV k) in Ok (D * (1 + q)).

(** ** maxwell_boltzmann.py *)
(** maxwell_boltzmann.py:50-59 *)
Record MaxwellBoltzmann := { mb_amu : R; mb_effective_temperature : R }.

(** maxwell_boltzmann.py:61-85.  1e-6 is 1/10^6. *)
Definition get_doppler_width (k : constants) (mb : MaxwellBoltzmann) (E : R) : out R :=
  let! q := fdiv (2 * k_kB_eV k * / 10 ^ 6 * mb_effective_temperature mb)
                 (mb_amu mb * k_u_MeV k) in
  let! s := np_sqrt q in Ok (E * s).

(** maxwell_boltzmann.py:87-116 *)
Definition get_effective_temperature (k : constants) (doppler_width amu E : R) : out R :=
  fdiv (doppler_width * doppler_width * amu * k_u_MeV k)
       (E * E * 2 * k_kB_eV k * / 10 ^ 6).

(** ** debye_model.py *)
(** [scipy.integrate.quad(f, a, b)]: value and error estimate; a parameter of the model. *)
Definition quad_fn := (R -> R) -> R -> R -> R * R.

(** debye_model.py:85, the integrand. *)
Definition debye_integrand (t : R) : R := t ^ 3 * (1 / (exp t - 1) + 1 / 2).

(** debye_model.py:62-87.  [T / T_D] is evaluated first. *)
Definition debye_scalar (quad : quad_fn) (T T_D : R) : out R :=
  let! r := fdiv T T_D in
  let! x := fdiv T_D T in
  Ok (3 * r ^ 3 * T * fst (quad debye_integrand 0 x)).

(** debye_model.py:90-92: [np.vectorize] of it, for two arrays of the same length (elements are
    handed over as Python floats; broadcasting is not modelled).  Empty arrays raise ValueError. *)
Definition effective_temperature_debye_approximation (quad : quad_fn) (T T_D : list R) : out (list R) :=
  match T with
  | [] => Raise ValueError
  | _ => sequence (map2 (debye_scalar quad) T T_D)
  end.
