(** ries/nonresonant/klein_nishina.py. *)
From Coq Require Import Reals List ZArith.
From Verif Require Import Py M_Num M_Grid M_CrossSection.
Import ListNotations.
Open Scope R_scope.

(** Division of numpy floats: a zero divisor does not raise but gives inf or nan; simplification:
    [NaN] stands for both. *)
Definition np_div (a b : R) : out R := if Req_EM_T b 0 then NaN else Ok (a / b).
(** [np.arccos]: nan outside of [-1, 1]. *)
Definition np_arccos (x : R) : out R :=
  if Rlt_dec x (-1) then NaN else if Rlt_dec 1 x then NaN else Ok (acos x).
(** [np.log]: nan for negative arguments, -inf (here [NaN]) at zero. *)
Definition np_log (x : R) : out R := if Rlt_dec 0 x then Ok (ln x) else NaN.
(** [x ** -3] for a Python float: zero raises ZeroDivisionError. *)
Definition pow_m3 (x : R) : out R := if Req_EM_T x 0 then Raise ZeroDivisionError else Ok (/ x ^ 3).

(** Attributes Z, mc2, scale_factor. *)
Record kn := { kn_Z : R; kn_mc2 : R; kn_scale_factor : R }.

(** klein_nishina.py:101-120 [__init__]. *)
Definition KleinNishina (k : constants) (Z mc2 : R) : out kn :=
  let! s := fdiv (Z * k_alpha k ^ 2 * k_hbarc_old k ^ 2) (mc2 * mc2) in
  Ok {| kn_Z := Z; kn_mc2 := mc2; kn_scale_factor := s |}.
(** klein_nishina.py:101-103: the default mass. *)
Definition KleinNishina_electron (k : constants) (Z : R) : out kn := KleinNishina k Z (k_me k).

(** klein_nishina.py:158-175 [theta], a static method: the mass is always the one of the electron.
    Energies are Python floats, so zero divisors raise. *)
Definition kn_theta (k : constants) (E Ep : R) : out R :=
  let! q := fdiv E Ep in
  let! d := fdiv ((q - 1) * k_me k) E in
  np_arccos (1 - d).

(** klein_nishina.py:177-195 [Ep_over_E], static as well. *)
Definition kn_Ep_over_E (k : constants) (E theta : R) : out R :=
  let! x := fdiv E (k_me k) in
  np_div 1 (1 + x * (1 - cos theta)).

(** klein_nishina.py:136-156 [compton_edge]. *)
Definition kn_compton_edge (k : constants) (E : R) : out R :=
  let! r := kn_Ep_over_E k E PI in Ok (r * E).

(** klein_nishina.py:197-221 [cs_diff_dOmega]. *)
Definition kn_cs_diff_dOmega (k : constants) (c : kn) (E theta phi : R) : out R :=
  let! r := kn_Ep_over_E k E theta in
  let! i := np_div 1 r in
  Ok (1 / 2 * kn_scale_factor c * r * r * (r + i - 2 * sin theta ^ 2 * cos phi ^ 2)).

(** klein_nishina.py:223-247 [cs_diff_dOmega_unpolarized]. *)
Definition kn_cs_diff_dOmega_unpolarized (k : constants) (c : kn) (E theta : R) : out R :=
  let! r := kn_Ep_over_E k E theta in
  let! i := np_div 1 r in
  Ok (PI * kn_scale_factor c * r * r * (r + i - sin theta ^ 2)).

(** klein_nishina.py:249-266 [cs_diff_dEp_dphi]. *)
Definition kn_cs_diff_dEp_dphi (k : constants) (c : kn) (E Ep phi : R) : out R :=
  let! t := kn_theta k E Ep in
  let! s := kn_cs_diff_dOmega k c E t phi in
  np_div (s * k_me k) (Ep * Ep).

(** klein_nishina.py:268-284 [cs_diff_dEp]. *)
Definition kn_cs_diff_dEp (k : constants) (c : kn) (E Ep : R) : out R :=
  let! t := kn_theta k E Ep in
  let! s := kn_cs_diff_dOmega_unpolarized k c E t in
  np_div (s * k_me k) (Ep * Ep).

(** klein_nishina.py:286-299 [cs_diff_dtheta]. *)
Definition kn_cs_diff_dtheta (k : constants) (c : kn) (E theta : R) : out R :=
  let! s := kn_cs_diff_dOmega_unpolarized k c E theta in Ok (s * sin theta).

(** klein_nishina.py:301-322 [cs_total]. *)
Definition kn_cs_total (c : kn) (E : R) : out R :=
  let! x := fdiv E (kn_mc2 c) in
  let! p := pow_m3 x in
  let! a := fdiv (2 * x * (2 + x * (1 + x) * (8 + x))) ((1 + 2 * x) ^ 2) in
  let! l := np_log (1 + 2 * x) in
  Ok (PI * kn_scale_factor c * p * (a + ((x - 2) * x - 2) * l)).

(** klein_nishina.py:122-134 [__call__] and nonresonant.py:29-37: the object as a cross section. *)
Definition kn_leaf (c : kn) : leaf :=
  {| l_call := kn_cs_total c; l_pgrid := nonresonant_probability_grid |}.
