(** The functions of the example notebooks with binary64 arithmetic, see [M_Notebook].  The exponential function of numpy is a parameter [ex]. *)
From Coq Require Import Reals List ZArith.
From Verif Require Import Py M_Num M_Notebook M_Float.
Open Scope R_scope.
Open Scope py_scope.

(** layer_target.ipynb:331-350 (cell 13): [Phi] *)
Definition fPhi (ex : R -> R) (E rho : R) (sigma_nr sigma_r : cross_section) (abundance : R) : out R :=
  let! a := sigma_nr E in let! b := sigma_r E in Ok (ex (fmul (- fadd a (fmul abundance b)) rho)).
(** layer_target.ipynb:425-434 (cell 18): [alpha] *)
Definition falpha (ex : R -> R) (E rho : R) (sigma_nr sigma_r : cross_section) (abundance : R) : out R :=
  let! b := sigma_r E in let! p := fPhi ex E rho sigma_nr sigma_r abundance in Ok (fmul (fmul abundance b) p).
(** 6Li.ipynb:196-232 (cell 9): [photon_flux_density], [resonance_absorption_density]; [sigma] is the call
    with [input_is_absolute_energy=False]. *)
Definition fphoton_flux_density (ex : R -> R) (sigma : cross_section) (energy rho : R) : out R :=
  let! s := sigma energy in Ok (ex (fmul (- s) rho)).
Definition fresonance_absorption_density (ex : R -> R) (sigma : cross_section) (energy rho : R) : out R :=
  let! s := sigma energy in let! p := fphoton_flux_density ex sigma energy rho in Ok (fmul s p).
