(** Coverage intervals and probability grids of pseudo-Voigt and Voigt lines with binary64 arithmetic, see [M_Float8]
    and [M_Resonance]. *)
From Coq Require Import Reals List ZArith.
From Flocq Require Import Core.
From Coquelicot Require Import Rbar.
From Verif Require Import Py M_Num M_Constituents M_Thermal M_Grid M_CrossSection M_Dist M_Resonance M_PseudoVoigt
  M_Float M_Float2 M_Float3 M_Float4 M_Float6 M_Float8.
Import ListNotations.
Open Scope R_scope.
Open Scope py_scope.

(** pseudo_voigt.py:201-247 for an array of any length, see [M_PseudoVoigt.pv_ppf]. *)
Definition fpv_ppf (modern : bool) (L : pvlib) (p : pv) (qs : list R) : list warning * out (option (list Rbar)) :=
  match qs with
  | [] => ([InversionFailed], Ok (Some []))
  | [q] => match fpv_ppf_scalar L p q with
           | ([], Ok (Some l)) => ([], if modern then Ok (Some l) else Raise TypeError)
           | r => r
           end
  | _ => fpv_ppf_array L p qs
  end.

(** resonance.py:290-307, see [M_Resonance.coverage_interval]. *)
Definition fpv_coverage_interval (modern : bool) (L : pvlib) (p : pv) (coverage : R) : list warning * out (Rbar * Rbar) :=
  let (w, res) := fpv_ppf modern L p [fmul (1 / 2) (fsub 1 coverage); fmul (1 / 2) (fadd 1 coverage)] in
  match res with
  | Raise e => (w, Raise e)
  | NaN => (w, NaN)
  | Ok None => (w, Raise TypeError)
  | Ok (Some limits) =>
      match limits with
      | lo :: hi :: _ =>
          let rest := (if Rbar_is_inf hi then [InfiniteUpperLimit] else []) in
          if Rbar_negative lo then
            match fpv_cdf L p 0 with
            | Ok F0 => ((w ++ NegativeLowerLimit (fmul 100 (fsub 1 F0)) :: rest)%list, Ok (lo, hi))
            | NaN => (w, NaN)
            | Raise e => (w, Raise e)
            end
          else ((w ++ rest)%list, Ok (lo, hi))
      | _ => (w, Raise IndexError)
      end
  end.

(** resonance.py:345-366, see [M_Resonance.res_probability_grid]. *)
Definition fpv_probability_grid (modern : bool) (L : pvlib) (p : pv) (arg : grid_arg) (n : Z)
    : list warning * out (option (list Rbar)) :=
  let limits := match arg with
                | Coverage c => Ok (fmul (1 / 2) (fsub 1 c), fmul (1 / 2) (fadd 1 c))
                | Limits a b => let! P := fpv_cdf L p a in let! Q := fpv_cdf L p b in Ok (P, Q)
                end in
  match (let! (P, Q) := limits in flinspace P Q n) with
  | Raise e => ([], Raise e)
  | NaN => ([], nan_grid arg n)
  | Ok qs =>
      let (w, res) := fpv_ppf modern L p qs in
      (w, match arg with
          | Coverage _ => res
          | Limits a b =>
              let! g := res in
              match g with
              | None => Raise TypeError
              | Some l => let! l1 := set_first l (Finite a) in
                          let! l2 := set_last l1 (Finite b) in Ok (Some l2)
              end
          end)
  end.

(** pseudo_voigt.py:280-305 with the above.  voigt.py:106-168: the methods [cdf] and [ppf] are inherited, and the grids of a
    [Voigt] object are those of a [PseudoVoigt] object. *)
Definition fPseudoVoigt_grid (modern : bool) (L : pvlib) (k : constants) (initial intermediate : state)
    (amu effective_temperature : R) (final : option state) (arg : grid_arg) (n : Z) : list warning * out (option (list Rbar)) :=
  match (let! (E_r, _) := fResonance (v_c L) k initial intermediate final NoRecoil in
         let! w := width intermediate in
         fPseudoVoigtDistribution L k E_r w amu effective_temperature) with
  | Ok p => fpv_probability_grid modern L p arg n
  | NaN => ([], NaN)
  | Raise e => ([], Raise e)
  end.
Definition fPseudoVoigt_coverage_interval (modern : bool) (L : pvlib) (k : constants) (initial intermediate : state)
    (amu effective_temperature : R) (final : option state) (c : R) : list warning * out (Rbar * Rbar) :=
  match (let! (E_r, _) := fResonance (v_c L) k initial intermediate final NoRecoil in
         let! w := width intermediate in
         fPseudoVoigtDistribution L k E_r w amu effective_temperature) with
  | Ok p => fpv_coverage_interval modern L p c
  | NaN => ([], NaN)
  | Raise e => ([], Raise e)
  end.
