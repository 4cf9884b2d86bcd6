(** Vocabulary for rounding in resonances. *)
From Coq Require Import Reals List ZArith String.
From Flocq Require Import Core.
From Verif Require Import Py M_Num M_Constituents M_Thermal M_Resonance M_Float S_Float M_Float4.
Import ListNotations.
Open Scope R_scope.

(** About 9e-19 to 1e18. *)
Definition plausible (x : R) : Prop := / 2 ^ 60 <= x <= 2 ^ 60.
(** Relative errors of a few units in the last place. *)
Definition clib_ok (c : clib) : Prop :=
  (forall x, double x -> / 2 ^ 70 <= x <= 2 ^ 70 -> double (c_square c x) /\ Rabs (c_square c x - x ^ 2) <= 2 * unit_roundoff * x ^ 2) /\
  (forall x, double x -> -200 <= x <= 0 -> double (c_exp c x) /\ Rabs (c_exp c x - exp x) <= 2 * unit_roundoff * exp x).

(** A transition with plausible numbers: spins, the constant, widths, energies of states. *)
Definition floats (k : constants) (i m : state) (fin : option state) : Prop :=
  plausible (k_hbarc k) /\ (0 <= st_two_J i < 2 ^ 10)%Z /\ (0 <= st_two_J m < 2 ^ 10)%Z /\
  double (st_excitation_energy i) /\ double (st_excitation_energy m) /\
  plausible (st_excitation_energy m - st_excitation_energy i) /\
  (exists d w, st_decays m = Some (d, w) /\ plausible w /\
     (forall s, s = i \/ fin = Some s -> exists g, dgetE d (st_J_pi s) = Ok g /\ plausible g)).

(** The same state at another energy. *)
Definition with_energy (m : state) (e : R) : state :=
  {| st_J_pi := st_J_pi m; st_two_J := st_two_J m; st_parity := st_parity m; st_excitation_energy := e; st_decays := st_decays m |}.

(** Plausible numbers for the motion of nuclei: constants, mass, effective temperature. *)
Definition thermal (k : constants) (amu T : R) : Prop := plausible (k_kB_eV k) /\ plausible (k_u_MeV k) /\ plausible amu /\ plausible T.

(** Library functions that round correctly. *)
Definition correct_clib : clib := {| c_square := fun x => rnd (x ^ 2); c_exp := fun x => rnd (exp x) |}.

(** An exponential function without bumps. *)
Definition falling_exp (c : clib) : Prop := forall x y, y <= x <= 0 -> 0 <= c_exp c y <= c_exp c x.
