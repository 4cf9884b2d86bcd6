(** The functions of the example notebooks with binary64 numbers, infinities and nan, see [M_Notebook] and [M_Float13]. *)
From Coq Require Import Reals List ZArith.
From Flocq Require Import Core BinarySingleNaN.
From Verif Require Import Py M_Num M_Ieee.
Open Scope py_scope.

(** layer_target.ipynb:331-350 (cell 13): [Phi]; [np.exp] is a parameter of the model. *)
Definition bPhi (ex : b64 -> b64) (E rho : b64) (sigma_nr sigma_r : b64 -> out b64) (abundance : b64) : out b64 :=
  let! a := sigma_nr E in let! b := sigma_r E in Ok (ex (bmul (bopp (badd a (bmul abundance b))) rho)).
(** layer_target.ipynb:425-434 (cell 18): [alpha] *)
Definition balpha (ex : b64 -> b64) (E rho : b64) (sigma_nr sigma_r : b64 -> out b64) (abundance : b64) : out b64 :=
  let! b := sigma_r E in let! p := bPhi ex E rho sigma_nr sigma_r abundance in Ok (bmul (bmul abundance b) p).
(** 6Li.ipynb:196-232 (cell 9): [photon_flux_density], [resonance_absorption_density]; [sigma] is the call
    with [input_is_absolute_energy=False]. *)
Definition bphoton_flux_density (ex : b64 -> b64) (sigma : b64 -> out b64) (energy rho : b64) : out b64 :=
  let! s := sigma energy in Ok (ex (bmul (bopp s) rho)).
Definition bresonance_absorption_density (ex : b64 -> b64) (sigma : b64 -> out b64) (energy rho : b64) : out b64 :=
  let! s := sigma energy in let! p := bphoton_flux_density ex sigma energy rho in Ok (bmul s p).
