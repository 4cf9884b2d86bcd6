(** Coverage intervals and grids of resonances with binary64 numbers, infinities and nan, see [M_Ieee], [M_Float6] and [M_Resonance]. *)
From Coq Require Import Reals List ZArith Bool.
From Flocq Require Import Core BinarySingleNaN.
From Verif Require Import Py M_Grid M_Ieee.
Import ListNotations.
Open Scope py_scope.

(** [_cdf] and [_ppf] of [scipy.stats.cauchy] or [scipy.stats.norm], see [M_Float6.fdist]. *)
Record bdist := { b_cdf0 : b64 -> b64; b_ppf0 : b64 -> b64 }.

(** [rv_continuous.cdf(x, loc, scale)], see [M_Float6.fcdf]: [_cdf] inside of the open support, 1 at its upper end, 0 at its lower end. *)
Definition bcdf (d : bdist) (l s x : b64) : b64 :=
  if Bltb (of_Z 0) s then
    let y := bquo (bsub x l) s in
    match y with
    | B754_nan => bnan
    | B754_infinity true => of_Z 0
    | B754_infinity false => of_Z 1
    | _ => b_cdf0 d y
    end
  else bnan.
(** [rv_continuous.ppf(q, loc, scale)], see [M_Float6.fppf]: at 0 and 1 the ends of the support, times the scale plus the location. *)
Definition bppf (d : bdist) (l s q : b64) : b64 :=
  if Bltb (of_Z 0) s then
    if bnanb l then bnan
    else if Beqb q (of_Z 0) then badd (bmul (B754_infinity true) s) l
    else if Beqb q (of_Z 1) then badd (bmul (B754_infinity false) s) l
    else if Bltb (of_Z 0) q then if Bltb q (of_Z 1) then badd (bmul (b_ppf0 d q) s) l else bnan
    else bnan
  else bnan.

(** resonance.py:290-307, see [M_Float6.fcoverage_interval]: the limits, and whether there are warnings about a negative lower limit
    and about an infinite upper limit. *)
Definition bis_inf (x : b64) : bool := match x with B754_infinity _ => true | _ => false end.
Definition bcoverage_limits (c : b64) : b64 * b64 :=
  (bmul (literal 1 2) (bsub (of_Z 1) c), bmul (literal 1 2) (badd (of_Z 1) c)).
Definition bcoverage_interval (d : bdist) (l s c : b64) : (b64 * b64) * (bool * bool) :=
  let lo := bppf d l s (fst (bcoverage_limits c)) in
  let hi := bppf d l s (snd (bcoverage_limits c)) in
  ((lo, hi), (Bltb lo (of_Z 0), bis_inf hi)).

Inductive bgrid_arg :=
  | BCoverage (c : b64)
  | BLimits (a b : b64).

(** resonance.py:324-327 with cross_section.py:111-132. *)
Definition benergy_grid (d : bdist) (l s : b64) (arg : bgrid_arg) (n : Z) : out (list b64) :=
  match arg with
  | BCoverage c => let lim := fst (bcoverage_interval d l s c) in blinspace (fst lim) (snd lim) n
  | BLimits a b => blinspace a b n
  end.

(** resonance.py:345-366, see [M_Float6.fprobability_grid]. *)
Definition bprobability_grid (d : bdist) (l s : b64) (arg : bgrid_arg) (n : Z) : out (list b64) :=
  let limits := match arg with
                | BCoverage c => bcoverage_limits c
                | BLimits a b => (bcdf d l s a, bcdf d l s b)
                end in
  let! qs := blinspace (fst limits) (snd limits) n in
  let g := map (bppf d l s) qs in
  match arg with
  | BCoverage _ => Ok g
  | BLimits a b => let! g' := set_first g a in set_last g' b
  end.
