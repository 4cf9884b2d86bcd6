(** Differential Klein-Nishina cross sections with binary64 arithmetic, see [M_Float]. *)
From Coq Require Import Reals List ZArith.
From Flocq Require Import Core.
From Verif Require Import Py M_Num M_Grid M_CrossSection M_KleinNishina M_Float M_Float2.
Import ListNotations.
Open Scope R_scope.
Open Scope py_scope.

(** Functions of the C library, which are not correctly rounded in general: [np.cos], [np.sin], [y ** 2] and
    [np.arccos] of a number in [-1, 1]. *)
Record alib := { a_cos : R -> R; a_sin : R -> R; a_square : R -> R; a_acos : R -> R }.
(** Division of a numpy float. *)
Definition np_fquo (a b : R) : out R := if Req_EM_T b 0 then NaN else Ok (fquo a b).

(** klein_nishina.py:177-195, see [M_KleinNishina.kn_Ep_over_E]. *)
Definition fkn_Ep_over_E (m : alib) (k : constants) (E theta : R) : out R :=
  if Req_EM_T (k_me k) 0 then Raise ZeroDivisionError else
  np_fquo 1 (fadd 1 (fmul (fquo E (k_me k)) (fsub 1 (a_cos m theta)))).

(** klein_nishina.py:136-156 *)
Definition fkn_compton_edge (m : alib) (k : constants) (E : R) : out R :=
  let! r := fkn_Ep_over_E m k E np_pi in Ok (fmul r E).

(** klein_nishina.py:158-175; [np.arccos] is nan outside of [-1, 1]. *)
Definition fkn_theta (m : alib) (k : constants) (E Ep : R) : out R :=
  if Req_EM_T Ep 0 then Raise ZeroDivisionError else
  if Req_EM_T E 0 then Raise ZeroDivisionError else
  let x := fsub 1 (fquo (fmul (fsub (fquo E Ep) 1) (k_me k)) E) in
  if Rlt_dec x (-1) then NaN else if Rlt_dec 1 x then NaN else Ok (a_acos m x).

(** klein_nishina.py:197-221; the factor 0.5 is exact. *)
Definition fkn_cs_diff_dOmega (m : alib) (k : constants) (c : kn) (E theta phi : R) : out R :=
  let! r := fkn_Ep_over_E m k E theta in
  let! i := np_fquo 1 r in
  Ok (fmul (fmul (fmul (fmul (1 / 2) (kn_scale_factor c)) r) r)
           (fsub (fadd r i) (fmul (fmul 2 (a_square m (a_sin m theta))) (a_square m (a_cos m phi))))).

(** klein_nishina.py:223-247 *)
Definition fkn_cs_diff_dOmega_unpolarized (m : alib) (k : constants) (c : kn) (E theta : R) : out R :=
  let! r := fkn_Ep_over_E m k E theta in
  let! i := np_fquo 1 r in
  Ok (fmul (fmul (fmul (fmul np_pi (kn_scale_factor c)) r) r)
           (fsub (fadd r i) (a_square m (a_sin m theta)))).

(** klein_nishina.py:249-266 *)
Definition fkn_cs_diff_dEp_dphi (m : alib) (k : constants) (c : kn) (E Ep phi : R) : out R :=
  let! t := fkn_theta m k E Ep in
  let! s := fkn_cs_diff_dOmega m k c E t phi in
  np_fquo (fmul s (k_me k)) (fmul Ep Ep).

(** klein_nishina.py:268-284 *)
Definition fkn_cs_diff_dEp (m : alib) (k : constants) (c : kn) (E Ep : R) : out R :=
  let! t := fkn_theta m k E Ep in
  let! s := fkn_cs_diff_dOmega_unpolarized m k c E t in
  np_fquo (fmul s (k_me k)) (fmul Ep Ep).

(** klein_nishina.py:286-299 *)
Definition fkn_cs_diff_dtheta (m : alib) (k : constants) (c : kn) (E theta : R) : out R :=
  let! s := fkn_cs_diff_dOmega_unpolarized m k c E theta in Ok (fmul s (a_sin m theta)).
