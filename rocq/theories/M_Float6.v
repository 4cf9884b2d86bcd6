(** Coverage intervals and probability grids with binary64 arithmetic, see [M_Float]. *)
From Coq Require Import Reals List ZArith.
From Coquelicot Require Import Rbar.
From Verif Require Import Py M_Num M_Constituents M_Thermal M_Grid M_CrossSection M_Resonance M_Float M_Float4.
Import ListNotations.
Open Scope R_scope.
Open Scope py_scope.

(** The functions [_cdf] and [_ppf] of [scipy.stats.cauchy] or [scipy.stats.norm], for the location 0
    and the scale 1; the second one for quantiles between 0 and 1. *)
Record fdist := { f_cdf0 : R -> R; f_ppf0 : R -> R }.

(** [rv_continuous.cdf(x, loc, scale)]: [_cdf((x - loc) / scale)], nan if the scale is not positive. *)
Definition fcdf (d : fdist) (l s x : R) : out R :=
  if Rlt_dec 0 s then Ok (f_cdf0 d (fquo (fsub x l) s)) else NaN.
(** [rv_continuous.ppf(q, loc, scale)]: the ends of the axis for 0 and 1, [_ppf(q) * scale + loc] between
    them, nan outside or if the scale is not positive. *)
Definition fppf (d : fdist) (l s q : R) : out Rbar :=
  if Rlt_dec 0 s then
    if Rlt_dec q 0 then NaN else if Rlt_dec 1 q then NaN
    else if Req_EM_T q 0 then Ok m_infty else if Req_EM_T q 1 then Ok p_infty
    else Ok (Finite (fadd (fmul (f_ppf0 d q) s) l))
  else NaN.

(** resonance.py:290-307, see [M_Resonance.res_coverage_interval]; warnings are left out. *)
Definition fcoverage_interval (d : fdist) (l s c : R) : out (Rbar * Rbar) :=
  let! lo := fppf d l s (fmul (1 / 2) (fsub 1 c)) in
  let! hi := fppf d l s (fmul (1 / 2) (fadd 1 c)) in
  Ok (lo, hi).

(** resonance.py:345-366, see [M_Resonance.res_probability_grid]. *)
Definition fprobability_grid (d : fdist) (l s : R) (arg : grid_arg) (n : Z) : out (list Rbar) :=
  let limits := match arg with
                | Coverage c => Ok (fmul (1 / 2) (fsub 1 c), fmul (1 / 2) (fadd 1 c))
                | Limits a b => let! p := fcdf d l s a in let! q := fcdf d l s b in Ok (p, q)
                end in
  let! (p, q) := limits in
  let! qs := flinspace p q n in
  let! g := traverse (fppf d l s) qs in
  match arg with
  | Coverage _ => Ok g
  | Limits a b => let! g' := set_first g (Finite a) in set_last g' (Finite b)
  end.

(** breit_wigner.py:85-96 and gauss.py:48-74 with the above: location and scale of the objects, see
    [M_Float4.fBreitWigner_call] and [M_Float4.fGauss_call]. *)
Definition fBreitWigner_grid (d : fdist) (c : clib) (k : constants) (initial intermediate : state) (final : option state)
    (arg : grid_arg) (n : Z) : out (list Rbar) :=
  let! (E_r, _) := fResonance c k initial intermediate final NoRecoil in
  let! w := width intermediate in
  fprobability_grid d E_r (fmul (1 / 2) w) arg n.
Definition fGauss_grid (d : fdist) (c : clib) (k : constants) (initial intermediate : state) (amu effective_temperature : R)
    (final : option state) (arg : grid_arg) (n : Z) : out (list Rbar) :=
  let! (E_r, _) := fResonance c k initial intermediate final NoRecoil in
  let! w := fget_doppler_width k {| mb_amu := amu; mb_effective_temperature := effective_temperature |} E_r in
  fprobability_grid d E_r (fquo w (fsqrt 2)) arg n.

(** A resonance as a member of a weighted sum (cross_section.py:343-363): its probability grid; calls are
    left out here, see [M_Float4]. *)
Definition float_leaf (d : fdist) (l s : R) : leaf :=
  {| l_call := fun _ => NaN; l_pgrid := fun arg n => omap Some (fprobability_grid d l s arg n) |}.
