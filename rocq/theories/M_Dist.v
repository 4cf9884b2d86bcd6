(** Probability distributions as used by the resonance classes: the parts of [scipy.stats] that are
    called, modelled by their mathematical definitions. *)
From Coq Require Import Reals List ZArith.
From Coquelicot Require Import Coquelicot.
From Verif Require Import Py M_Num.
Import ListNotations.
Open Scope R_scope.
Open Scope py_scope.

(** Warnings issued by the modelled code. *)
Inductive warning :=
  | NegativeLowerLimit (percent : R)      (* resonance.py:296-301, with the number that is quoted *)
  | InfiniteUpperLimit                    (* resonance.py:302-305 *)
  | InversionFailed.                      (* pseudo_voigt.py:240-243 *)

(** Interface of a distribution object (resonance.py:193-195): [pdf(x, *parameters)],
    [cdf(x, *parameters)], [ppf(array of quantiles, *parameters)].  [ppf] may issue warnings and may
    return Python's [None]; quantiles may be infinite.  An array containing nan is represented by the
    outcome [NaN]. *)
Record distribution := {
  d_pdf : list R -> R -> out R;
  d_cdf : list R -> R -> out R;
  d_ppf : list R -> list R -> list warning * out (option (list Rbar))
}.

(** Location and scale of a [scipy.stats] distribution without shape parameters: positional arguments
    with the defaults loc=0, scale=1; a scale that is not positive makes every method return nan. *)
Definition loc_scale {A} (params : list R) (k : R -> R -> out A) : out A :=
  let go (l s : R) := if Rlt_dec 0 s then k l s else NaN in
  match params with
  | [] => go 0 1
  | [l] => go l 1
  | [l; s] => go l s
  | _ => Raise TypeError
  end.

(** Quantiles of an array: nan outside of [0,1]; an empty array has no nan. *)
Definition ppf_array (ppf : R -> R -> R -> Rbar) (params qs : list R) : list warning * out (option (list Rbar)) :=
  ([], omap Some (traverse (fun q => loc_scale params (fun l s =>
     if Rle_dec 0 q then if Rle_dec q 1 then Ok (ppf l s q) else NaN else NaN)) qs)).

(** [scipy.stats.uniform] on [loc, loc + scale]. *)
Definition uniform_pdf (l s x : R) : R := if Rle_dec l x then if Rle_dec x (l + s) then / s else 0 else 0.
Definition uniform_cdf (l s x : R) : R :=
  if Rle_dec x l then 0 else if Rle_dec (l + s) x then 1 else (x - l) / s.
Definition uniform_ppf (l s q : R) : Rbar := Finite (l + q * s).
Definition uniform : distribution :=
  {| d_pdf := fun p x => loc_scale p (fun l s => Ok (uniform_pdf l s x));
     d_cdf := fun p x => loc_scale p (fun l s => Ok (uniform_cdf l s x));
     d_ppf := ppf_array uniform_ppf |}.

(** [scipy.stats.cauchy]. *)
Definition cauchy_pdf (l s x : R) : R := / (PI * s * (1 + ((x - l) / s) ^ 2)).
Definition cauchy_cdf (l s x : R) : R := 1 / 2 + atan ((x - l) / s) / PI.
Definition cauchy_ppf (l s q : R) : Rbar :=
  if Rle_dec q 0 then m_infty else if Rle_dec 1 q then p_infty
  else Finite (l + s * tan (PI * (q - 1 / 2))).
Definition cauchy : distribution :=
  {| d_pdf := fun p x => loc_scale p (fun l s => Ok (cauchy_pdf l s x));
     d_cdf := fun p x => loc_scale p (fun l s => Ok (cauchy_cdf l s x));
     d_ppf := ppf_array cauchy_ppf |}.

(** [scipy.stats.norm]; the CDF is 1/2 plus the integral of the PDF from the centre, the PPF is the
    least upper bound of the energies whose CDF does not exceed the quantile. *)
Definition gauss0 (t : R) : R := exp (- (t ^ 2) / 2) / sqrt (2 * PI).
Definition norm_pdf (l s x : R) : R := gauss0 ((x - l) / s) / s.
Definition norm_cdf (l s x : R) : R := 1 / 2 + RInt gauss0 0 ((x - l) / s).
Definition quantile (F : R -> R) (q : R) : Rbar := Lub_Rbar (fun x => F x <= q).
Definition norm_ppf (l s q : R) : Rbar := quantile (norm_cdf l s) q.
Definition norm : distribution :=
  {| d_pdf := fun p x => loc_scale p (fun l s => Ok (norm_pdf l s x));
     d_cdf := fun p x => loc_scale p (fun l s => Ok (norm_cdf l s x));
     d_ppf := ppf_array norm_ppf |}.
