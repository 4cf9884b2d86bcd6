(** The inversion of the pseudo-Voigt CDF in floating-point arithmetic. *)
From Coq Require Import Reals List ZArith.
From Flocq Require Import Core.
From Coquelicot Require Import Coquelicot.
From Verif Require Import Py M_Num M_Grid M_Dist M_Resonance M_PseudoVoigt M_Float.
Import ListNotations.
Open Scope R_scope.

(** [tol=1.48e-8] as a float. *)
Definition ftol : R := rnd tol.
(** scipy.optimize.newton for a scalar, see [M_PseudoVoigt.newton_scalar]; [f] and [f'] are the functions as
    evaluated in floating-point arithmetic.  [np.isclose(p, p0, rtol=0, atol=tol)] is
    [abs(p - p0) <= tol + 0 * abs(p0)].  Simplification as in M_Float: no overflow. *)
Fixpoint fnewton_scalar (n : nat) (f f' : R -> R) (p : R) : out R :=
  match n with
  | O => Raise RuntimeError
  | S n =>
      let fval := f p in
      if Req_EM_T fval 0 then Ok p
      else let fder := f' p in
           if Req_EM_T fder 0 then Raise RuntimeError
           else let p' := fsub p (fquo fval fder) in
                if Rle_dec (Rabs (fsub p' p)) ftol then Ok p' else fnewton_scalar n f f' p'
  end.

(** [scipy.optimize.zeros._array_newton], see [M_PseudoVoigt.array_newton]. *)
Definition fnewton_step (nz : bool) (p fval fder : R) : R := if nz then fsub p (fquo fval fder) else p.
Definition fstep_fails (nz fail : bool) (fval fder : R) : bool :=
  if nz then (if Rle_dec ftol (Rabs (fquo fval fder)) then true else false) else fail.
Fixpoint farray_newton (n : nat) (f f' : list R -> list R) (p : list R) (failures nz_der : list bool)
    : list R * list bool * list bool :=
  match n with
  | O => (p, failures, nz_der)
  | S n =>
      let fval := f p in
      if forallb is_zero fval then (p, map (fun _ => false) fval, nz_der)
      else let fder := f' p in
           let nz := map (fun x => negb (is_zero x)) fder in
           if negb (existsb (fun b => b) nz) then (p, failures, nz)
           else let p' := map4 fnewton_step nz p fval fder in
                let failures' := map4 fstep_fails nz failures fval fder in
                if negb (existsb (fun b => b) (map2 andb nz failures')) then (p', failures', nz)
                else farray_newton n f f' p' failures' nz
  end.
Definition fnewton_array (n : nat) (f f' : list R -> list R) (p : list R) : out (list R * list bool) :=
  let '(p, failures, nz) := farray_newton n f f' p (map (fun _ => true) p) (map (fun _ => true) p) in
  let zero_der := map2 (fun a b => andb (negb a) b) nz failures in
  if existsb (fun b => b) zero_der then Ok (p, map negb failures)
  else if existsb (fun b => b) failures then
         if forallb (fun b => b) failures then Raise RuntimeError else Ok (p, map negb failures)
       else Ok (p, map negb failures).

(** pseudo_voigt.py:201-247, see [M_PseudoVoigt.pv_ppf_scalar] and [pv_ppf].  The methods [cdf] and [pdf] as
    evaluated in floating-point arithmetic and the resonance energy [m] are parameters, and so are the largest
    number of iterations [n] (by default [maxiter]) and the result [fallback] of the approximation used after
    a RuntimeError. *)
Definition fppf_scalar (n : nat) (cdf pdf : R -> R) (m : R) (fallback : R -> out (option (list Rbar))) (q : R)
    : list warning * out (option (list Rbar)) :=
  match fnewton_scalar n (fun E => fsub (cdf E) q) pdf m with
  | Ok x => ([], Ok (Some [Finite x]))
  | Raise RuntimeError => ([InversionFailed], fallback q)
  | NaN => ([], NaN)
  | Raise e => ([], Raise e)
  end.
(** At least two quantiles. *)
Definition fppf_array (n : nat) (cdf pdf : R -> R) (m : R) (fallback : list R -> out (option (list Rbar))) (qs : list R)
    : list warning * out (option (list Rbar)) :=
  match fnewton_array n (fun E => map2 fsub (map cdf E) qs) (map pdf) (map (fun _ => m) qs) with
  | Ok (x, converged) => ([], Ok (if forallb (fun b => b) converged then Some (map Finite x) else None))
  | Raise RuntimeError => ([InversionFailed], fallback qs)
  | NaN => ([], NaN)
  | Raise e => ([], Raise e)
  end.
