(** The pseudo-Voigt distribution with binary64 arithmetic, see [M_Float] and [M_PseudoVoigt]. *)
From Coq Require Import Reals List ZArith String.
From Flocq Require Import Core.
From Coquelicot Require Import Rbar.
From Verif Require Import Py M_Num M_Constituents M_Thermal M_Grid M_CrossSection M_Dist M_Resonance M_PseudoVoigt
  M_Float M_Float2 M_Float3 M_Float4 M_Float6.
Import ListNotations.
Open Scope R_scope.
Open Scope py_scope.

(** Library functions: those of [M_Float4], [np.log], [x ** y] of numpy floats ([x] positive), and the functions
    of [scipy.stats.norm] and [scipy.stats.cauchy]. *)
Record pvlib := { v_c : clib; v_log : R -> R; v_pow : R -> R -> R; v_norm : fdist; v_cauchy : fdist }.

(** pseudo_voigt.py:249-261 with lines 131-142, see [M_PseudoVoigt.get_Gamma]: the literals are the nearest
    floats, products and sums are evaluated from left to right. *)
Definition fget_Gamma (L : pvlib) (Gamma_G Gamma_L : R) : out R :=
  let Gamma_G_squared := fmul Gamma_G Gamma_G in
  let Gamma_G_squared_squared := fmul Gamma_G_squared Gamma_G_squared in
  let Gamma_L_squared := fmul Gamma_L Gamma_L in
  let Gamma_L_cubed := fmul Gamma_L_squared Gamma_L in
  let Gamma_L_squared_squared := fmul Gamma_L_squared Gamma_L_squared in
  let s :=
    fadd (fadd (fadd (fadd (fadd (fmul Gamma_G_squared_squared Gamma_G)
      (fmul (fmul (rnd 2.69269) Gamma_G_squared_squared) Gamma_L))
      (fmul (fmul (fmul (rnd 2.42843) Gamma_G_squared) Gamma_G) Gamma_L_squared))
      (fmul (fmul (rnd 4.47163) Gamma_G_squared) Gamma_L_cubed))
      (fmul (fmul (rnd 0.07842) Gamma_G) Gamma_L_squared_squared))
      (fmul Gamma_L_squared_squared Gamma_L) in
  if Rlt_dec s 0 then NaN else if Req_EM_T s 0 then Ok 0 else Ok (v_pow L s (rnd (1 / 5))).

(** pseudo_voigt.py:263-271, see [M_PseudoVoigt.get_eta]. *)
Definition fget_eta (Gamma Gamma_L : R) : out R :=
  if Req_EM_T Gamma 0 then NaN
  else let inverse_Gamma := fquo 1 Gamma in
       let inverse_Gamma_squared := fmul inverse_Gamma inverse_Gamma in
       let Gamma_L_squared := fmul Gamma_L Gamma_L in
       let Gamma_L_cubed := fmul Gamma_L_squared Gamma_L in
       Ok (fadd (fsub (fmul (fmul (rnd 1.36603) Gamma_L) inverse_Gamma)
                      (fmul (fmul (rnd 0.47719) Gamma_L_squared) inverse_Gamma_squared))
                (fmul (fmul (fmul (rnd 0.11116) Gamma_L_cubed) inverse_Gamma_squared) inverse_Gamma)).

(** pseudo_voigt.py:118-148, see [M_PseudoVoigt.PseudoVoigtDistribution]. *)
Definition fPseudoVoigtDistribution (L : pvlib) (k : constants) (resonance_energy width amu effective_temperature : R) : out pv :=
  let! d := fget_doppler_width k {| mb_amu := amu; mb_effective_temperature := effective_temperature |}
              resonance_energy in
  let two_sqrt_log := fmul 2 (fsqrt (v_log L 2)) in
  let Gamma_G := fmul two_sqrt_log d in
  let! Gamma := fget_Gamma L Gamma_G width in
  let! eta := fget_eta Gamma width in
  Ok {| pv_energy := resonance_energy; pv_Gamma_L := width; pv_doppler := d; pv_sigma := fquo d (fsqrt 2);
        pv_Gamma_G := Gamma_G; pv_Gamma := Gamma; pv_eta := eta;
        pv_gamma_G := fquo Gamma two_sqrt_log; pv_gamma_L := fmul (1 / 2) Gamma; pv_gamma := fmul (1 / 2) width |}.

(** pseudo_voigt.py:150-199: the expression with method "pdf" and "cdf". *)
Definition fmix (eta a b : R) : R := fadd (fmul (fsub 1 eta) a) (fmul eta b).
Definition fpv_pdf (L : pvlib) (p : pv) (x : R) : out R :=
  let! a := fnorm_pdf (v_c L) (pv_energy p) (fquo (pv_gamma_G p) (fsqrt 2)) x in
  let! b := fcauchy_pdf (pv_energy p) (fmul (1 / 2) (pv_gamma_L p)) x in
  Ok (fmix (pv_eta p) a b).
Definition fpv_cdf (L : pvlib) (p : pv) (x : R) : out R :=
  let! a := fcdf (v_norm L) (pv_energy p) (fquo (pv_gamma_G p) (fsqrt 2)) x in
  let! b := fcdf (v_cauchy L) (pv_energy p) (fmul (1 / 2) (pv_gamma_L p)) x in
  Ok (fmix (pv_eta p) a b).

(** The same expression with method "ppf", see [M_PseudoVoigt.scale_inf] and [add_inf]. *)
Definition fscale_inf (w : R) (x : Rbar) : out Rbar :=
  match x with
  | Finite r => Ok (Finite (fmul w r))
  | _ => if Req_EM_T w 0 then NaN else Ok (Rbar_mult w x)
  end.
Definition fadd_inf (x y : Rbar) : out Rbar :=
  match x, y with
  | Finite a, Finite b => Ok (Finite (fadd a b))
  | _, _ => add_inf x y
  end.
Definition fpv_fallback (L : pvlib) (p : pv) (qs : list R) : out (option (list Rbar)) :=
  omap Some (traverse (fun q =>
    let! a := fppf (v_norm L) (pv_energy p) (fquo (pv_gamma_G p) (fsqrt 2)) q in
    let! b := fppf (v_cauchy L) (pv_energy p) (fmul (1 / 2) (pv_gamma_L p)) q in
    let! x := fscale_inf (fsub 1 (pv_eta p)) a in
    let! y := fscale_inf (pv_eta p) b in
    fadd_inf x y) qs).

(** pseudo_voigt.py:201-247.  Simplification: a nan of one of the methods inside of [newton] would be treated as
    zero; there is none (C84_pdf_bound, C84_cdf). *)
Definition number (o : out R) : R := match o with Ok x => x | _ => 0 end.
Definition fpv_ppf_scalar (L : pvlib) (p : pv) (q : R) : list warning * out (option (list Rbar)) :=
  fppf_scalar maxiter (fun x => number (fpv_cdf L p x)) (fun x => number (fpv_pdf L p x)) (pv_energy p)
    (fun q => fpv_fallback L p [q]) q.
(** At least two quantiles. *)
Definition fpv_ppf_array (L : pvlib) (p : pv) (qs : list R) : list warning * out (option (list Rbar)) :=
  fppf_array maxiter (fun x => number (fpv_cdf L p x)) (fun x => number (fpv_pdf L p x)) (pv_energy p)
    (fpv_fallback L p) qs.

(** pseudo_voigt.py:280-305 with resonance.py:241-260: a call of the object. *)
Definition fPseudoVoigt_call (L : pvlib) (k : constants) (initial intermediate : state) (amu effective_temperature : R)
    (final : option state) (E : R) (input_is_absolute_energy : bool) : out R :=
  let! (E_r, Ir) := fResonance (v_c L) k initial intermediate final NoRecoil in
  let! w := width intermediate in
  let! p := fPseudoVoigtDistribution L k E_r w amu effective_temperature in
  fres_call (fpv_pdf L p) E_r Ir E input_is_absolute_energy.
