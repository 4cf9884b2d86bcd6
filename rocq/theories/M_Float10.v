(** The Debye model and [quad_partition] with binary64 arithmetic, see [M_Float]. *)
From Coq Require Import Reals List ZArith.
From Coquelicot Require Import Rbar.
From Verif Require Import Py M_Num M_Thermal M_Quad M_Float M_Float4.
Import ListNotations.
Open Scope R_scope.
Open Scope py_scope.

(** [np.exp], which is infinite for large arguments, and [x ** 3] of Python floats. *)
Record dlib := { d_exp : R -> Rbar; d_cube : R -> R }.

(** debye_model.py:85, the integrand, see [M_Thermal.debye_integrand]: the quotient of a numpy float and zero is an infinity ([NaN]),
    the reciprocal of an infinity is zero. *)
Definition fdebye_integrand (l : dlib) (t : R) : out R :=
  match d_exp l t with
  | Finite y => let d := fsub y 1 in
                if Req_EM_T d 0 then NaN else Ok (fmul (d_cube l t) (fadd (fquo 1 d) (1 / 2)))
  | p_infty => Ok (fmul (d_cube l t) (fadd 0 (1 / 2)))
  | m_infty => NaN
  end.
(** [scipy.integrate.quad(f, a, b)[0]], a parameter of the model. *)
Definition fquad_fn := (R -> out R) -> R -> R -> out R.
(** debye_model.py:62-87 with Python floats, see [M_Thermal.debye_scalar]; [x ** 3] does not overflow. *)
Definition fdebye_scalar (l : dlib) (quad : fquad_fn) (T T_D : R) : out R :=
  if Req_EM_T T_D 0 then Raise ZeroDivisionError else
  let p := fmul (fmul 3 (d_cube l (fquo T T_D))) T in
  if Req_EM_T T 0 then Raise ZeroDivisionError else
  let! q := quad (fdebye_integrand l) 0 (fquo T_D T) in Ok (fmul p q).

(** quad_partition.py:54-77, see [M_Quad.quad_partition]; the loop adds from left to right, starting with 0.0. *)
Definition fquad_partition (nquad : (list R -> R) -> list (R * R) -> out (R * R))
    (f : list R -> R) (x0 : list R) (rest : limits_arg) : out (R * R) :=
  let! ranges := or_empty rest in
  let! parts := traverse (fun i => nquad f ((nth i x0 0, nth (S i) x0 0) :: ranges)) (seq 0 (length x0 - 1)) in
  let integral := fold_left (fun acc p => fadd acc (fst p)) parts 0 in
  let uncertainty := fold_left (fun acc p => fadd acc (fmul (snd p) (snd p))) parts 0 in
  Ok (integral, fsqrt uncertainty).
