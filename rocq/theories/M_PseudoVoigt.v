(** ries/resonance/pseudo_voigt.py and voigt.py, with the part of [scipy.optimize.newton] they use. *)
From Coq Require Import Reals List ZArith.
From Coquelicot Require Import Coquelicot.
From Verif Require Import Py M_Num M_Grid M_Constituents M_Thermal M_Dist M_CrossSection M_Resonance.
Import ListNotations.
Open Scope R_scope.
Open Scope py_scope.

(** ** scipy.optimize.newton with [fprime] and [full_output=True] *)
(** Defaults: [tol=1.48e-8], [maxiter=50], [rtol=0]. *)
Definition tol : R := 148 / 10 ^ 10.
Definition maxiter : nat := 50.

(** Scalar start value; [RuntimeError] after [maxiter] iterations or for a vanishing derivative.  A nan
    value of the function never meets the criterion: also [RuntimeError]; here it is the outcome [NaN],
    which does not occur for the functions used below (L_PseudoVoigt.pv_cdf_ok). *)
Fixpoint newton_scalar (n : nat) (f f' : R -> out R) (p : R) : out R :=
  match n with
  | O => Raise RuntimeError
  | S n =>
      let! fval := f p in
      if Req_EM_T fval 0 then Ok p
      else let! fder := f' p in
           if Req_EM_T fder 0 then Raise RuntimeError
           else let p' := p - fval / fder in
                if Rle_dec (Rabs (p' - p)) tol then Ok p' else newton_scalar n f f' p'
  end.

(** [scipy.optimize.zeros._array_newton]: arrays of roots [p], of the flags [failures] and [nz_der]
    (derivative not zero).  All elements are iterated until none of them fails. *)
Definition is_zero (x : R) : bool := if Req_EM_T x 0 then true else false.
Definition newton_step (nz : bool) (p fval fder : R) : R := if nz then p - fval / fder else p.
Definition step_fails (nz fail : bool) (fval fder : R) : bool :=
  if nz then (if Rle_dec tol (Rabs (fval / fder)) then true else false) else fail.
Fixpoint map4 {A B C D E} (g : A -> B -> C -> D -> E) a b c d : list E :=
  match a, b, c, d with
  | x :: a, y :: b, z :: c, w :: d => g x y z w :: map4 g a b c d
  | _, _, _, _ => []
  end.
Fixpoint array_newton (n : nat) (f f' : list R -> out (list R)) (p : list R) (failures nz_der : list bool)
    : out (list R * list bool * list bool) :=
  match n with
  | O => Ok (p, failures, nz_der)
  | S n =>
      let! fval := f p in
      if forallb is_zero fval then Ok (p, map (fun _ => false) fval, nz_der)
      else let! fder := f' p in
           let nz := map (fun x => negb (is_zero x)) fder in
           if negb (existsb (fun b => b) nz) then Ok (p, failures, nz)
           else let p' := map4 newton_step nz p fval fder in
                let failures' := map4 step_fails nz failures fval fder in
                if negb (existsb (fun b => b) (map2 andb nz failures')) then Ok (p', failures', nz)
                else array_newton n f f' p' failures' nz
  end.
(** The array of roots and the flags [converged]. *)
Definition newton_array (f f' : list R -> out (list R)) (p : list R) : out (list R * list bool) :=
  let! (p, failures, nz) := array_newton maxiter f f' p (map (fun _ => true) p) (map (fun _ => true) p) in
  let zero_der := map2 (fun a b => andb (negb a) b) nz failures in
  if existsb (fun b => b) zero_der then Ok (p, map negb failures)
  else if existsb (fun b => b) failures then
         if forallb (fun b => b) failures then Raise RuntimeError else Ok (p, map negb failures)
       else Ok (p, map negb failures).

(** ** PseudoVoigtDistribution *)
(** Attributes (pseudo_voigt.py:128-148). *)
Record pv := {
  pv_energy : R;
  pv_Gamma_L : R;
  pv_doppler : R;
  pv_sigma : R;
  pv_Gamma_G : R;
  pv_Gamma : R;
  pv_eta : R;
  pv_gamma_G : R;
  pv_gamma_L : R;
  pv_gamma : R
}.

(** [x ** 0.2] of a numpy float: nan for a negative number. *)
Definition fifth_root (x : R) : out R :=
  if Rlt_dec x 0 then NaN else if Req_EM_T x 0 then Ok 0 else Ok (Rpower x (1 / 5)).

(** pseudo_voigt.py:249-261 *)
Definition get_Gamma (Gamma_G Gamma_L : R) : out R :=
  let Gamma_G_squared := Gamma_G * Gamma_G in
  let Gamma_G_squared_squared := Gamma_G_squared * Gamma_G_squared in
  let Gamma_L_squared := Gamma_L * Gamma_L in
  let Gamma_L_cubed := Gamma_L_squared * Gamma_L in
  let Gamma_L_squared_squared := Gamma_L_squared * Gamma_L_squared in
  fifth_root
    (Gamma_G_squared_squared * Gamma_G
     + 2.69269 * Gamma_G_squared_squared * Gamma_L
     + 2.42843 * Gamma_G_squared * Gamma_G * Gamma_L_squared
     + 4.47163 * Gamma_G_squared * Gamma_L_cubed
     + 0.07842 * Gamma_G * Gamma_L_squared_squared
     + Gamma_L_squared_squared * Gamma_L).

(** pseudo_voigt.py:263-271.  [1.0 / self.Gamma] of a numpy float that is zero is inf, and the value
    returned is nan or infinite: outcome [NaN]. *)
Definition get_eta (Gamma Gamma_L : R) : out R :=
  if Req_EM_T Gamma 0 then NaN
  else let inverse_Gamma := 1 / Gamma in
       let inverse_Gamma_squared := inverse_Gamma * inverse_Gamma in
       let Gamma_L_squared := Gamma_L * Gamma_L in
       let Gamma_L_cubed := Gamma_L_squared * Gamma_L in
       Ok (1.36603 * Gamma_L * inverse_Gamma
           - 0.47719 * Gamma_L_squared * inverse_Gamma_squared
           + 0.11116 * Gamma_L_cubed * inverse_Gamma_squared * inverse_Gamma).

(** pseudo_voigt.py:118-148 *)
Definition PseudoVoigtDistribution (k : constants) (resonance_energy width amu effective_temperature : R) : out pv :=
  let! d := get_doppler_width k {| mb_amu := amu; mb_effective_temperature := effective_temperature |}
              resonance_energy in
  let Gamma_G := 2 * sqrt (ln 2) * d in
  let! Gamma := get_Gamma Gamma_G width in
  let! eta := get_eta Gamma width in
  Ok {| pv_energy := resonance_energy; pv_Gamma_L := width; pv_doppler := d; pv_sigma := d / sqrt 2;
        pv_Gamma_G := Gamma_G; pv_Gamma := Gamma; pv_eta := eta;
        pv_gamma_G := Gamma / (2 * sqrt (ln 2)); pv_gamma_L := 1 / 2 * Gamma; pv_gamma := 1 / 2 * width |}.

(** pseudo_voigt.py:150-173 with method "pdf" or "cdf". *)
Definition pseudo_voigt_expression (method : distribution -> list R -> R -> out R) (p : pv) (x : R) : out R :=
  let! a := method norm [pv_energy p; pv_gamma_G p / sqrt 2] x in
  let! b := method cauchy [pv_energy p; 1 / 2 * pv_gamma_L p] x in
  Ok ((1 - pv_eta p) * a + pv_eta p * b).

(** Floating-point multiples and sums of possibly infinite numbers: [0 * inf] and [inf - inf] are nan. *)
Definition scale_inf (w : R) (x : Rbar) : out Rbar :=
  match x with
  | Finite r => Ok (Finite (w * r))
  | _ => if Req_EM_T w 0 then NaN else Ok (Rbar_mult w x)
  end.
Definition add_inf (x y : Rbar) : out Rbar :=
  match Rbar_plus' x y with Some z => Ok z | None => NaN end.

(** The same expression with method "ppf" for an array of quantiles. *)
Definition pseudo_voigt_ppf_expression (p : pv) (qs : list R) : out (option (list Rbar)) :=
  let! a := snd (d_ppf norm [pv_energy p; pv_gamma_G p / sqrt 2] qs) in
  let! b := snd (d_ppf cauchy [pv_energy p; 1 / 2 * pv_gamma_L p] qs) in
  match a, b with
  | Some a, Some b =>
      omap Some (sequence (map2 (fun u v => let! x := scale_inf (1 - pv_eta p) u in
                                            let! y := scale_inf (pv_eta p) v in add_inf x y) a b))
  | _, _ => Raise TypeError
  end.

(** pseudo_voigt.py:175-199 *)
Definition pv_cdf (p : pv) (E : R) : out R := pseudo_voigt_expression d_cdf p E.
Definition pv_pdf (p : pv) (E : R) : out R := pseudo_voigt_expression d_pdf p E.

(** pseudo_voigt.py:201-247 for a number.  Newton's method either converges or raises, so that the flag
    [converged] need not be modelled. *)
Definition pv_ppf_scalar (p : pv) (q : R) : list warning * out (option (list Rbar)) :=
  match newton_scalar maxiter (fun E => let! F := pv_cdf p E in Ok (F - q)) (pv_pdf p) (pv_energy p) with
  | Ok x => ([], Ok (Some [Finite x]))
  | Raise RuntimeError => ([InversionFailed], pseudo_voigt_ppf_expression p [q])
  | NaN => ([], NaN)
  | Raise e => ([], Raise e)
  end.

(** pseudo_voigt.py:201-247 for an array.  [newton] treats an array of one element like a number and
    returns a [RootResults] object, which is searched for [False] in line 239: a TypeError, unless
    [RootResults] is a dictionary as in recent versions of scipy ([modern]).  For an empty array [newton]
    iterates [maxiter] times and raises RuntimeError.  Without RuntimeError and without convergence of all
    elements nothing is returned. *)
Definition pv_ppf (modern : bool) (p : pv) (qs : list R) : list warning * out (option (list Rbar)) :=
  match qs with
  | [] => ([InversionFailed], Ok (Some []))
  | [q] => match pv_ppf_scalar p q with
           | ([], Ok (Some l)) => ([], if modern then Ok (Some l) else Raise TypeError)
           | r => r
           end
  | _ =>
      match newton_array (fun E => let! F := traverse (pv_cdf p) E in Ok (map2 Rminus F qs))
                         (traverse (pv_pdf p)) (map (fun _ => pv_energy p) qs) with
      | Ok (x, converged) => ([], Ok (if forallb (fun b => b) converged then Some (map Finite x) else None))
      | Raise RuntimeError => ([InversionFailed], pseudo_voigt_ppf_expression p qs)
      | NaN => ([], NaN)
      | Raise e => ([], Raise e)
      end
  end.

(** The object as a distribution: its methods take no further parameters. *)
Definition no_params {A} (params : list R) (x : out A) : out A :=
  match params with [] => x | _ => Raise TypeError end.
Definition pv_distribution (modern : bool) (p : pv) : distribution :=
  {| d_pdf := fun params x => no_params params (pv_pdf p x);
     d_cdf := fun params x => no_params params (pv_cdf p x);
     d_ppf := fun params qs => match params with [] => pv_ppf modern p qs | _ => ([], Raise TypeError) end |}.

(** pseudo_voigt.py:280-305 *)
Definition PseudoVoigt (modern : bool) (k : constants) (initial intermediate : state)
    (amu effective_temperature : R) (final : option state) : out resonance :=
  let! r := Resonance k initial intermediate final NoRecoil in
  let! w := width intermediate in
  let! p := PseudoVoigtDistribution k (r_energy r) w amu effective_temperature in
  Ok (with_dist r (pv_distribution modern p) []).

(** ** voigt.py *)
(** [scipy.special.voigt_profile]: convolution of the normal and the Cauchy distribution, with the special
    cases of a vanishing width. *)
Definition voigt_profile (x sigma gamma : R) : R :=
  if Req_EM_T sigma 0 then cauchy_pdf 0 gamma x
  else if Req_EM_T gamma 0 then norm_pdf 0 sigma x
  else RInt_gen (fun t => norm_pdf 0 sigma (t - x) * cauchy_pdf 0 gamma t) (Rbar_locally m_infty) (Rbar_locally p_infty).

(** voigt.py:115-128; for [sigma = gamma = 0] the object cannot be built (eta is nan). *)
Definition voigt_pdf (p : pv) (E : R) : out R := Ok (voigt_profile (E - pv_energy p) (pv_sigma p) (pv_gamma p)).
Definition voigt_distribution (modern : bool) (p : pv) : distribution :=
  {| d_pdf := fun params x => no_params params (voigt_pdf p x);
     d_cdf := fun params x => no_params params (pv_cdf p x);
     d_ppf := fun params qs => match params with [] => pv_ppf modern p qs | _ => ([], Raise TypeError) end |}.

(** voigt.py:137-168 *)
Definition Voigt (modern : bool) (k : constants) (initial intermediate : state)
    (amu effective_temperature : R) (final : option state) : out resonance :=
  let! r := PseudoVoigt modern k initial intermediate amu effective_temperature final in
  let! w := width intermediate in
  let! p := PseudoVoigtDistribution k (r_energy r) w amu effective_temperature in
  Ok (with_dist r (voigt_distribution modern p) []).
