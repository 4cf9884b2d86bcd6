(** The target of layer_target.ipynb with binary64 arithmetic, see [M_Notebook] and [M_Float13]. *)
From Coq Require Import Reals List ZArith.
From Verif Require Import Py M_Num M_Notebook M_Float M_Float13.
Open Scope R_scope.
Open Scope py_scope.

(** The module-level variables of layer_target.ipynb:57-92, 125-138, 214 (cells 1, 3 and 7).  Simplified: the cross sections are any functions, and the
    areal densities of the layers are given. *)
Record ftarget := {
  f_nr : cross_section; f_116 : cross_section; f_112 : cross_section;
  f_enrichment_116 : R; f_enrichment_112 : R;
  f_I : R; f_II : R; f_III : R; f_IV : R
}.
(** layer_target.ipynb:284-288 (cell 11) *)
Definition frho_0 : R := 0.
Definition frho_I (t : ftarget) : R := fadd frho_0 (f_I t).
Definition frho_II (t : ftarget) : R := fadd (frho_I t) (f_II t).
Definition frho_III (t : ftarget) : R := fadd (frho_II t) (f_III t).
Definition frho_IV (t : ftarget) : R := fadd (frho_III t) (f_IV t).
(** layer_target.ipynb:575-620 (cell 25) *)
Definition fdN_dE_drho_I (ex : R -> R) (t : ftarget) (E rho : R) : out R :=
  falpha ex E (fsub rho frho_0) (f_nr t) (f_116 t) (f_enrichment_116 t).
Definition fdN_dE_drho_II (ex : R -> R) (t : ftarget) (E rho : R) : out R :=
  let! p := fPhi ex E (fsub (frho_I t) frho_0) (f_nr t) (f_116 t) (f_enrichment_116 t) in
  let! a := falpha ex E (fsub rho (frho_I t)) (f_nr t) (f_112 t) (f_enrichment_112 t) in Ok (fmul p a).
Definition fdN_dE_drho_III (ex : R -> R) (t : ftarget) (E rho : R) : out R :=
  let! p := fPhi ex E (fsub (frho_I t) frho_0) (f_nr t) (f_116 t) (f_enrichment_116 t) in
  let! q := fPhi ex E (fsub (frho_II t) (frho_I t)) (f_nr t) (f_112 t) (f_enrichment_112 t) in
  let! a := falpha ex E (fsub rho (frho_II t)) (f_nr t) (f_116 t) (f_enrichment_116 t) in Ok (fmul (fmul p q) a).
Definition fdN_dE_drho_IV (ex : R -> R) (t : ftarget) (E rho : R) : out R :=
  let! p := fPhi ex E (fsub (frho_I t) frho_0) (f_nr t) (f_116 t) (f_enrichment_116 t) in
  let! q := fPhi ex E (fsub (frho_II t) (frho_I t)) (f_nr t) (f_112 t) (f_enrichment_112 t) in
  let! v := fPhi ex E (fsub (frho_III t) (frho_II t)) (f_nr t) (f_116 t) (f_enrichment_116 t) in
  let! a := falpha ex E (fsub rho (frho_III t)) (f_nr t) (f_112 t) (f_enrichment_112 t) in Ok (fmul (fmul (fmul p q) v) a).
