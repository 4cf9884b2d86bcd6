(** The total Klein-Nishina cross section with binary64 arithmetic, see [M_Float]. *)
From Coq Require Import Reals List ZArith.
From Flocq Require Import Core.
From Verif Require Import Py M_Num M_Grid M_CrossSection M_KleinNishina M_Float.
Import ListNotations.
Open Scope R_scope.
Open Scope py_scope.

(** Functions of the C library, which are not correctly rounded in general: [np.log], [y ** 2], [x ** -3]. *)
Record libm := { m_log : R -> R; m_square : R -> R; m_pow_m3 : R -> R }.

(** [np.pi] *)
Definition np_pi : R := rnd PI.

(** klein_nishina.py:301-322 [cs_total], see [M_KleinNishina.kn_cs_total]; [np.log] of a number that is not
    positive is inf or nan. *)
Definition fkn_cs_total (m : libm) (c : kn) (E : R) : out R :=
  if Req_EM_T (kn_mc2 c) 0 then Raise ZeroDivisionError else
  let x := fquo E (kn_mc2 c) in
  if Req_EM_T x 0 then Raise ZeroDivisionError else
  let y := fadd 1 (fmul 2 x) in
  if Req_EM_T (m_square m y) 0 then Raise ZeroDivisionError else
  let a := fquo (fmul (fmul 2 x) (fadd 2 (fmul (fmul x (fadd 1 x)) (fadd 8 x)))) (m_square m y) in
  if Rlt_dec 0 y then
    Ok (fmul (fmul (fmul np_pi (kn_scale_factor c)) (m_pow_m3 m x))
             (fadd a (fmul (fsub (fmul (fsub x 2) x) 2) (m_log m y))))
  else NaN.
