(** Klein-Nishina cross sections with binary64 numbers, infinities and nan, see [M_Ieee], [M_Float2] and [M_Float5]. *)
From Coq Require Import Reals List ZArith String Bool.
From Flocq Require Import Core BinarySingleNaN.
From Verif Require Import Py M_Num M_Constituents M_Ieee M_Ieee2.
Import ListNotations.
Open Scope py_scope.

(** Floats of Python raise exceptions, numpy floats (the elements of arrays among them) give inf or nan. *)
Inductive kind := PythonFloat | NumpyFloat.
Definition binf (x : b64) : bool := match x with B754_infinity _ => true | _ => false end.
(** [a / b] *)
Definition bdivide (t : kind) (a b : b64) : out b64 :=
  match t with
  | PythonFloat => if bzero b then Raise ZeroDivisionError else Ok (bquo a b)
  | NumpyFloat => Ok (bquo a b)
  end.
(** [x ** 2] and [x ** -3] with the power [p] of the C library: Python raises an exception if the result is infinite
    although the argument is not. *)
Definition bpower (t : kind) (p : b64 -> b64) (x : b64) : out b64 :=
  match t with
  | PythonFloat => if is_finite x && binf (p x) then Raise OverflowError else Ok (p x)
  | NumpyFloat => Ok (p x)
  end.
Definition bpower_m (t : kind) (p : b64 -> b64) (x : b64) : out b64 :=
  match t with
  | PythonFloat => if bzero x then Raise ZeroDivisionError else bpower t p x
  | NumpyFloat => Ok (p x)
  end.

(** Library functions, see [M_Float2.libm] and [M_Float5.alib].  Simplification: those of Python and numpy are the same. *)
Record klib := { k_log : b64 -> b64; k_square : b64 -> b64; k_pow_m3 : b64 -> b64;
                 k_cos : b64 -> b64; k_sin : b64 -> b64; k_acos : b64 -> b64 }.

(** klein_nishina.py:101-120, see [M_KleinNishina.KleinNishina]; [alpha2] and [hbarc2] are the squares of the two constants.
    The arguments are Python floats. *)
Record bkn := { bk_mc2 : b64; bk_scale_factor : b64 }.
Definition bKleinNishina (alpha2 hbarc2 Z mc2 : b64) : out bkn :=
  let! s := bdivide PythonFloat (bmul (bmul Z alpha2) hbarc2) (bmul mc2 mc2) in
  Ok {| bk_mc2 := mc2; bk_scale_factor := s |}.

(** klein_nishina.py:301-322, see [M_Float2.fkn_cs_total]; [t] is the kind of [E]. *)
Definition bkn_cs_total (t : kind) (L : klib) (c : bkn) (E : b64) : out b64 :=
  let! x := bdivide t E (bk_mc2 c) in
  let! p := bpower_m t (k_pow_m3 L) x in
  let y := badd (of_Z 1) (bmul (of_Z 2) x) in
  let! s := bpower t (k_square L) y in
  let! a := bdivide t (bmul (bmul (of_Z 2) x) (badd (of_Z 2) (bmul (bmul x (badd (of_Z 1) x)) (badd (of_Z 8) x)))) s in
  Ok (bmul (bmul (bmul bpi (bk_scale_factor c)) p)
           (badd a (bmul (bsub (bmul (bsub x (of_Z 2)) x) (of_Z 2)) (k_log L y)))).

(** klein_nishina.py:177-195, see [M_Float5.fkn_Ep_over_E]; [me] is the mass of the electron.  The second division is one of
    numpy floats, as [np.cos] returns one. *)
Definition bkn_Ep_over_E (t : kind) (L : klib) (me E theta : b64) : out b64 :=
  let! q := bdivide t E me in
  Ok (bquo (of_Z 1) (badd (of_Z 1) (bmul q (bsub (of_Z 1) (k_cos L theta))))).

(** klein_nishina.py:136-156 *)
Definition bkn_compton_edge (t : kind) (L : klib) (me E : b64) : out b64 :=
  let! r := bkn_Ep_over_E t L me E bpi in Ok (bmul r E).

(** klein_nishina.py:158-175 *)
Definition bkn_theta (t : kind) (L : klib) (me E Ep : b64) : out b64 :=
  let! q := bdivide t E Ep in
  let! d := bdivide t (bmul (bsub q (of_Z 1)) me) E in
  Ok (k_acos L (bsub (of_Z 1) d)).

(** klein_nishina.py:197-221 *)
Definition bkn_cs_diff_dOmega (t : kind) (L : klib) (me : b64) (c : bkn) (E theta phi : b64) : out b64 :=
  let! r := bkn_Ep_over_E t L me E theta in
  Ok (bmul (bmul (bmul (bmul (literal 1 2) (bk_scale_factor c)) r) r)
           (bsub (badd r (bquo (of_Z 1) r))
                 (bmul (bmul (of_Z 2) (k_square L (k_sin L theta))) (k_square L (k_cos L phi))))).

(** klein_nishina.py:223-247 *)
Definition bkn_cs_diff_dOmega_unpolarized (t : kind) (L : klib) (me : b64) (c : bkn) (E theta : b64) : out b64 :=
  let! r := bkn_Ep_over_E t L me E theta in
  Ok (bmul (bmul (bmul (bmul bpi (bk_scale_factor c)) r) r)
           (bsub (badd r (bquo (of_Z 1) r)) (k_square L (k_sin L theta)))).

(** klein_nishina.py:249-266; the division is one of numpy floats. *)
Definition bkn_cs_diff_dEp_dphi (t : kind) (L : klib) (me : b64) (c : bkn) (E Ep phi : b64) : out b64 :=
  let! a := bkn_theta t L me E Ep in
  let! s := bkn_cs_diff_dOmega t L me c E a phi in
  Ok (bquo (bmul s me) (bmul Ep Ep)).

(** klein_nishina.py:268-284 *)
Definition bkn_cs_diff_dEp (t : kind) (L : klib) (me : b64) (c : bkn) (E Ep : b64) : out b64 :=
  let! a := bkn_theta t L me E Ep in
  let! s := bkn_cs_diff_dOmega_unpolarized t L me c E a in
  Ok (bquo (bmul s me) (bmul Ep Ep)).

(** klein_nishina.py:286-299 *)
Definition bkn_cs_diff_dtheta (t : kind) (L : klib) (me : b64) (c : bkn) (E theta : b64) : out b64 :=
  let! s := bkn_cs_diff_dOmega_unpolarized t L me c E theta in Ok (bmul s (k_sin L theta)).
