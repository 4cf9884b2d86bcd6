(** Quantiles, coverage intervals and probability grids of pseudo-Voigt and Voigt lines with binary64 numbers, infinities and nan, see
    [M_Ieee2], [M_Ieee5] and, without infinities, [M_Float3], [M_Float8] and [M_Float12]. *)
From Coq Require Import Reals List ZArith Bool.
From Flocq Require Import Core BinarySingleNaN.
From Verif Require Import Py M_Num M_Grid M_PseudoVoigt M_Ieee M_Ieee2 M_Ieee5.
Import ListNotations.
Open Scope py_scope.

(** ** scipy.optimize.newton *)
(** [tol=1.48e-8] *)
Definition btol : b64 := literal 148 10000000000.
(** [np.isclose(p, p0, rtol=0, atol=tol)]: infinite numbers are close to themselves, nan is close to nothing. *)
Definition bisclose (p p0 : b64) : bool :=
  if is_finite p && is_finite p0 then Bleb (babs (bsub p p0)) btol else Beqb p p0.
(** For a scalar, see [M_Float3.fnewton_scalar]: nan is not equal to 0. *)
Fixpoint bnewton_scalar (n : nat) (f f' : b64 -> b64) (p : b64) : out b64 :=
  match n with
  | O => Raise RuntimeError
  | S n =>
      let fval := f p in
      if bzero fval then Ok p
      else let fder := f' p in
           if bzero fder then Raise RuntimeError
           else let p' := bsub p (bquo fval fder) in
                if bisclose p' p then Ok p' else bnewton_scalar n f f' p'
  end.

(** [scipy.optimize.zeros._array_newton], see [M_Float3.farray_newton]: [np.abs(dp) >= tol] is false for nan. *)
Definition bnewton_step (nz : bool) (p fval fder : b64) : b64 := if nz then bsub p (bquo fval fder) else p.
Definition bstep_fails (nz fail : bool) (fval fder : b64) : bool := if nz then Bleb btol (babs (bquo fval fder)) else fail.
Fixpoint barray_newton (n : nat) (f f' : list b64 -> list b64) (p : list b64) (failures nz_der : list bool)
    : list b64 * list bool * list bool :=
  match n with
  | O => (p, failures, nz_der)
  | S n =>
      let fval := f p in
      if forallb bzero fval then (p, map (fun _ => false) fval, nz_der)
      else let fder := f' p in
           let nz := map (fun x => negb (bzero x)) fder in
           if negb (existsb (fun b => b) nz) then (p, failures, nz)
           else let p' := map4 bnewton_step nz p fval fder in
                let failures' := map4 bstep_fails nz failures fval fder in
                if negb (existsb (fun b => b) (map2 andb nz failures')) then (p', failures', nz)
                else barray_newton n f f' p' failures' nz
  end.
Definition bnewton_array (n : nat) (f f' : list b64 -> list b64) (p : list b64) : out (list b64 * list bool) :=
  let '(p, failures, nz) := barray_newton n f f' p (map (fun _ => true) p) (map (fun _ => true) p) in
  let zero_der := map2 (fun a b => andb (negb a) b) nz failures in
  if existsb (fun b => b) zero_der then Ok (p, map negb failures)
  else if existsb (fun b => b) failures then
         if forallb (fun b => b) failures then Raise RuntimeError else Ok (p, map negb failures)
       else Ok (p, map negb failures).

(** ** pseudo_voigt.py:201-247 *)
Inductive bwarning :=
  | BInversionFailed
  | BNegativeLowerLimit (percentage : b64)
  | BInfiniteUpperLimit.
(** See [M_Float3.fppf_scalar] and [M_Float3.fppf_array]: the methods [cdf] and [pdf], the resonance energy, the largest number of iterations
    and the approximation used after a RuntimeError are parameters. *)
Definition bppf_scalar (n : nat) (cdf pdf : b64 -> b64) (m : b64) (fallback : b64 -> b64) (q : b64)
    : list bwarning * out (option (list b64)) :=
  match bnewton_scalar n (fun E => bsub (cdf E) q) pdf m with
  | Ok x => ([], Ok (Some [x]))
  | Raise RuntimeError => ([BInversionFailed], Ok (Some [fallback q]))
  | NaN => ([], NaN)
  | Raise e => ([], Raise e)
  end.
(** At least two quantiles. *)
Definition bppf_array (n : nat) (cdf pdf : b64 -> b64) (m : b64) (fallback : b64 -> b64) (qs : list b64)
    : list bwarning * out (option (list b64)) :=
  match bnewton_array n (fun E => map2 bsub (map cdf E) qs) (map pdf) (map (fun _ => m) qs) with
  | Ok (x, converged) => ([], Ok (if forallb (fun b => b) converged then Some x else None))
  | Raise RuntimeError => ([BInversionFailed], Ok (Some (map fallback qs)))
  | NaN => ([], NaN)
  | Raise e => ([], Raise e)
  end.

(** Library functions: those of [M_Ieee2] and of [scipy.stats.norm] and [scipy.stats.cauchy]. *)
Record bpvlib := { bv_b : blib; bv_norm : bdist; bv_cauchy : bdist }.
(** pseudo_voigt.py:150-173 with method "cdf" and "ppf", see [M_Float8.fpv_cdf] and [M_Float8.fpv_fallback]; "pdf" is [M_Ieee2.bpv_pdf]. *)
Definition bpv_cdf (L : bpvlib) (p : bpv) (x : b64) : b64 :=
  bmix (bp_eta p)
    (bcdf (bv_norm L) (bp_energy p) (bquo (bp_gamma_G p) (bsqrt (of_Z 2))) x)
    (bcdf (bv_cauchy L) (bp_energy p) (bmul (literal 1 2) (bp_gamma_L p)) x).
Definition bpv_fallback (L : bpvlib) (p : bpv) (q : b64) : b64 :=
  bmix (bp_eta p)
    (bppf (bv_norm L) (bp_energy p) (bquo (bp_gamma_G p) (bsqrt (of_Z 2))) q)
    (bppf (bv_cauchy L) (bp_energy p) (bmul (literal 1 2) (bp_gamma_L p)) q).
(** The method [ppf] for a number and for arrays of any length, see [M_Float12.fpv_ppf]. *)
Definition bpv_ppf_scalar (L : bpvlib) (p : bpv) (q : b64) : list bwarning * out (option (list b64)) :=
  bppf_scalar maxiter (bpv_cdf L p) (bpv_pdf (bv_b L) p) (bp_energy p) (bpv_fallback L p) q.
Definition bpv_ppf_array (L : bpvlib) (p : bpv) (qs : list b64) : list bwarning * out (option (list b64)) :=
  bppf_array maxiter (bpv_cdf L p) (bpv_pdf (bv_b L) p) (bp_energy p) (bpv_fallback L p) qs.
Definition bpv_ppf (modern : bool) (L : bpvlib) (p : bpv) (qs : list b64) : list bwarning * out (option (list b64)) :=
  match qs with
  | [] => ([BInversionFailed], Ok (Some []))
  | [q] => match bpv_ppf_scalar L p q with
           | ([], Ok (Some l)) => ([], if modern then Ok (Some l) else Raise TypeError)
           | r => r
           end
  | _ => bpv_ppf_array L p qs
  end.

(** resonance.py:290-307, see [M_Float12.fpv_coverage_interval]. *)
Definition bpv_coverage_interval (modern : bool) (L : bpvlib) (p : bpv) (coverage : b64) : list bwarning * out (b64 * b64) :=
  let (w, res) := bpv_ppf modern L p [fst (bcoverage_limits coverage); snd (bcoverage_limits coverage)] in
  match res with
  | Raise e => (w, Raise e)
  | NaN => (w, NaN)
  | Ok None => (w, Raise TypeError)
  | Ok (Some limits) =>
      match limits with
      | lo :: hi :: _ =>
          let rest := (if bis_inf hi then [BInfiniteUpperLimit] else []) in
          ((if Bltb lo (of_Z 0)
            then w ++ BNegativeLowerLimit (bmul (of_Z 100) (bsub (of_Z 1) (bpv_cdf L p (of_Z 0)))) :: rest
            else w ++ rest)%list, Ok (lo, hi))
      | _ => (w, Raise IndexError)
      end
  end.

(** resonance.py:345-366, see [M_Float12.fpv_probability_grid]. *)
Definition bpv_probability_grid (modern : bool) (L : bpvlib) (p : bpv) (arg : bgrid_arg) (n : Z)
    : list bwarning * out (option (list b64)) :=
  let limits := match arg with
                | BCoverage c => bcoverage_limits c
                | BLimits a b => (bpv_cdf L p a, bpv_cdf L p b)
                end in
  match blinspace (fst limits) (snd limits) n with
  | Raise e => ([], Raise e)
  | NaN => ([], NaN)
  | Ok qs =>
      let (w, res) := bpv_ppf modern L p qs in
      (w, match arg with
          | BCoverage _ => res
          | BLimits a b =>
              let! g := res in
              match g with
              | None => Raise TypeError
              | Some l => let! l1 := set_first l a in
                          let! l2 := set_last l1 b in Ok (Some l2)
              end
          end)
  end.

(** pseudo_voigt.py:280-305 with the above, see [M_Float12.fPseudoVoigt_grid]; also for objects of class [Voigt] (voigt.py:106-168). *)
Definition bPseudoVoigt_distribution (L : bpvlib) (k : bconstants) (initial intermediate : bstate)
    (amu effective_temperature : b64) (final : option bstate) : out bpv :=
  let! (E_r, _) := bResonance (bv_b L) k initial intermediate final in
  let! w := bwidth intermediate in
  bPseudoVoigtDistribution (bv_b L) k E_r w amu effective_temperature.
Definition bPseudoVoigt_grid (modern : bool) (L : bpvlib) (k : bconstants) (initial intermediate : bstate)
    (amu effective_temperature : b64) (final : option bstate) (arg : bgrid_arg) (n : Z) : list bwarning * out (option (list b64)) :=
  match bPseudoVoigt_distribution L k initial intermediate amu effective_temperature final with
  | Ok p => bpv_probability_grid modern L p arg n
  | NaN => ([], NaN)
  | Raise e => ([], Raise e)
  end.
Definition bPseudoVoigt_coverage_interval (modern : bool) (L : bpvlib) (k : bconstants) (initial intermediate : bstate)
    (amu effective_temperature : b64) (final : option bstate) (c : b64) : list bwarning * out (b64 * b64) :=
  match bPseudoVoigt_distribution L k initial intermediate amu effective_temperature final with
  | Ok p => bpv_coverage_interval modern L p c
  | NaN => ([], NaN)
  | Raise e => ([], Raise e)
  end.
