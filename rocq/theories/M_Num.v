(** Arithmetic on outcomes, numpy scalars and arrays, physical constants. *)
From Coq Require Import Reals List ZArith.
From Coquelicot Require Import Rbar.
From Verif Require Import Py.
Import ListNotations.
Open Scope R_scope.

(** Python float division: a zero divisor raises. *)
Definition fdiv (a b : R) : out R :=
  if Req_EM_T b 0 then Raise ZeroDivisionError else Ok (a / b).

(** [np.sqrt]: nan for negative arguments. *)
Definition np_sqrt (x : R) : out R := if Rlt_dec x 0 then NaN else Ok (sqrt x).

(** [x + y] and [c * x] for results of calls: both operands are evaluated from left to right, an
    exception propagates, nan is absorbing. *)
Definition oadd (x y : out R) : out R :=
  match x, y with
  | Raise e, _ => Raise e
  | _, Raise e => Raise e
  | Ok a, Ok b => Ok (a + b)
  | _, _ => NaN
  end.
Definition oscale (c : R) (x : out R) : out R :=
  match x with Ok a => Ok (c * a) | NaN => NaN | Raise e => Raise e end.

(** Values returned by cross sections: a number or a one-dimensional array. *)
Inductive pyval :=
  | Scalar (r : R)
  | Array (l : list R).

Fixpoint map2 {A B C} (f : A -> B -> C) (l : list A) (m : list B) : list C :=
  match l, m with
  | a :: l', b :: m' => f a b :: map2 f l' m'
  | _, _ => []
  end.

(** Physical constants taken from [scipy.constants.physical_constants]; the two keys for hbar c in
    MeV fm used by the code are kept apart (resonance.py:230, klein_nishina.py:117). *)
Record constants := {
  k_hbarc : R;        (* "reduced Planck constant times c in MeV fm" *)
  k_hbarc_old : R;    (* "Planck constant over 2 pi times c in MeV fm" *)
  k_alpha : R;        (* "fine-structure constant" *)
  k_me : R;           (* "electron mass energy equivalent in MeV" *)
  k_u_MeV : R;        (* "atomic mass constant energy equivalent in MeV" *)
  k_u_kg : R;         (* "atomic mass constant" *)
  k_kB_eV : R         (* "Boltzmann constant in eV/K" *)
}.

(** All of them are positive. *)
Definition constants_ok (k : constants) : Prop :=
  0 < k_hbarc k /\ 0 < k_hbarc_old k /\ 0 < k_alpha k /\ 0 < k_me k /\
  0 < k_u_MeV k /\ 0 < k_u_kg k /\ 0 < k_kB_eV k.

(** CODATA values (rounded), to show that the premise is met. *)
Definition codata : constants :=
  {| k_hbarc := 197.3269804; k_hbarc_old := 197.3269788; k_alpha := 0.0072973525693;
     k_me := 0.51099895; k_u_MeV := 931.49410242; k_u_kg := 1.6605390666 / 10 ^ 27;
     k_kB_eV := 8.617333262 / 10 ^ 5 |}.
