(** Vocabulary for the inversion in floating-point arithmetic (C78). *)
From Coq Require Import Reals List.
From Verif Require Import Py M_Num M_PseudoVoigt M_Float S_Float.
Open Scope R_scope.

(** [cdf] and [pdf] evaluate the methods of [p] for floats: the CDF with an absolute error of at most [eps],
    the PDF with a relative error of at most [delta] (apart from underflow). *)
Definition computes (p : pv) (eps delta : R) (cdf pdf : R -> R) : Prop :=
  forall x F f, double x -> pv_cdf p x = Ok F -> pv_pdf p x = Ok f ->
    double (cdf x) /\ Rabs (cdf x - F) <= eps /\ Rabs (pdf x - f) <= delta * f + 2 * half_smallest.
(** The CDF is obtained by adding something to one half, as in [0.5 + 1.0/np.pi*np.arctan(x)]
    (scipy.stats.cauchy); the results are multiples of 2^-54 unless they are large. *)
Definition half_plus (cdf : R -> R) : Prop := forall x, double x -> exists t, double t /\ cdf x = fadd (1 / 2) t.
Definition off_grid (q delta : R) : Prop := forall z : Z, delta <= Rabs (q - IZR z / 2 ^ 54).
