(** The Debye model and [quad_partition] with binary64 numbers, infinities and nan, see [M_Ieee] and [M_Float10]. *)
From Coq Require Import Reals List ZArith.
From Flocq Require Import Core BinarySingleNaN.
From Verif Require Import Py M_Num M_Ieee M_Ieee2 M_Ieee3.
Import ListNotations.
Open Scope py_scope.

(** ** quad_partition.py *)
(** The optional argument [x1_to_xn_minus_1], see [M_Quad.limits_arg]. *)
Inductive blimits_arg :=
  | BLNone
  | BLList (l : list (b64 * b64))
  | BLArray (l : list (b64 * b64)).
(** quad_partition.py:70, see [M_Quad.or_empty] *)
Definition bor_empty (a : blimits_arg) : out (list (b64 * b64)) :=
  match a with
  | BLNone => Ok []
  | BLList l => Ok l
  | BLArray [] => Ok []
  | BLArray _ => Raise ValueError
  end.
(** quad_partition.py:54-77, see [M_Float10.fquad_partition]; [nquad] is a parameter.  Limits, values and estimates may be infinite
    or nan; none of these operations of Python floats raises an exception. *)
Definition bquad_partition (nquad : (list b64 -> b64) -> list (b64 * b64) -> out (b64 * b64))
    (f : list b64 -> b64) (x0 : list b64) (rest : blimits_arg) : out (b64 * b64) :=
  let! ranges := bor_empty rest in
  let! parts := traverse (fun i => nquad f ((nth i x0 (of_Z 0), nth (S i) x0 (of_Z 0)) :: ranges)) (seq 0 (length x0 - 1)) in
  let integral := fold_left (fun acc p => badd acc (fst p)) parts (of_Z 0) in
  let uncertainty := fold_left (fun acc p => badd acc (bmul (snd p) (snd p))) parts (of_Z 0) in
  Ok (integral, bsqrt uncertainty).

(** ** debye_model.py *)
(** [np.exp] and the third power of the C library. *)
Record bdlib := { bd_exp : b64 -> b64; bd_cube : b64 -> b64 }.
(** debye_model.py:85, the integrand, see [M_Float10.fdebye_integrand]: [t] is a Python float, [np.exp] returns a numpy float, so that
    the division does not raise an exception but [t ** 3] may. *)
Definition bdebye_integrand (l : bdlib) (t : b64) : out b64 :=
  let! c := bpower PythonFloat (bd_cube l) t in
  Ok (bmul c (badd (bquo (of_Z 1) (bsub (bd_exp l t) (of_Z 1))) (literal 1 2))).
(** [scipy.integrate.quad(f, a, b)[0]], a parameter of the model. *)
Definition bquad_fn := (b64 -> out b64) -> b64 -> b64 -> out b64.
(** debye_model.py:62-87 with Python floats, see [M_Float10.fdebye_scalar]. *)
Definition bdebye_scalar (l : bdlib) (quad : bquad_fn) (T T_D : b64) : out b64 :=
  let! r := bdivide PythonFloat T T_D in
  let! c := bpower PythonFloat (bd_cube l) r in
  let p := bmul (bmul (of_Z 3) c) T in
  let! x := bdivide PythonFloat T_D T in
  let! q := quad (bdebye_integrand l) (of_Z 0) x in
  Ok (bmul p q).
