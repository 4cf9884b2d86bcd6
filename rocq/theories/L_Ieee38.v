(** Single quantiles of pseudo-Voigt lines that are nan. *)
From Coq Require Import Reals List ZArith Bool Lra Lia.
From Flocq Require Import Core BinarySingleNaN.
From Verif Require Import Py M_Num M_Grid M_Dist M_Resonance M_Thermal M_Constituents M_PseudoVoigt M_Float S_Float M_Float4 S_Float4 M_Float8 S_Float8 M_Float12 M_Ieee M_Ieee2 M_Ieee5 S_Ieee S_Ieee5 M_Ieee7 S_Ieee7
  L_Ieee25 L_Ieee26 L_Ieee28 L_Ieee30 L_Ieee31.
From Verif Require L_Ieee21.
Import ListNotations.
Open Scope R_scope.

Section Single.
  Variables (L : bpvlib) (b : bpv).
  Lemma fallback_nan q : broken_pv b \/ q = B754_nan -> bpv_fallback L b q = B754_nan.
  Proof.
    unfold bpv_fallback. intros [[H|H]| ->].
    - rewrite (L_Ieee21.ppf_broken _ _ _ _ H). apply mix_nan_l.
    - rewrite (L_Ieee21.ppf_broken _ _ _ _ H). apply mix_nan_r.
    - rewrite L_Ieee21.ppf_nan. apply mix_nan_l.
  Qed.
  Lemma scalar_nan q : bzero (bpv_pdf (bv_b L) b (bp_energy b)) = false -> bsub (bpv_cdf L b (bp_energy b)) q = B754_nan -> broken_pv b \/ q = B754_nan ->
    bpv_ppf_scalar L b q = ([BInversionFailed], Ok (Some [B754_nan])).
  Proof.
    intros S H N. rewrite bpv_scalar_eq. rewrite (nan_scalar _ _ _ _ S (cdf_nan L b) (pdf_nan L b) maxiter q H). now rewrite fallback_nan.
  Qed.
  Lemma grid_single modern c : bzero (bpv_pdf (bv_b L) b (bp_energy b)) = false -> bsub (bpv_cdf L b (bp_energy b)) (fst (bcoverage_limits c)) = B754_nan -> broken_pv b \/ fst (bcoverage_limits c) = B754_nan ->
    bpv_probability_grid modern L b (BCoverage c) 1 = ([BInversionFailed], Ok (Some [B754_nan])).
  Proof. intros S H N. rewrite grid_one, ppf_one, (scalar_nan _ S H N). reflexivity. Qed.
  Lemma broken_single modern c : broken_pv b -> bpv_probability_grid modern L b (BCoverage c) 1 = ([BInversionFailed], Ok (Some [B754_nan])).
  Proof. intros H. apply grid_single; [rewrite (pdf_broken L b _ H); reflexivity|rewrite (cdf_broken L b _ H); now destruct (fst (bcoverage_limits c))|now left]. Qed.
End Single.
Lemma object_single_nan L V B k bi i bm m bfin fin bamu amu bT T w : same_resonance L V B k bi i bm m bfin fin bamu amu bT T w -> forall modern,
  bPseudoVoigt_grid modern L B bi bm bamu bT bfin (BCoverage B754_nan) 1 = ([BInversionFailed], Ok (Some [B754_nan])).
Proof.
  intros H modern. destruct (objects L V B k bi i bm m bfin fin bamu amu bT T w H) as (b & p & p' & D & P1 & P2 & A & C & O). destruct (O modern) as (_ & _ & O3 & _). rewrite O3.
  pose proof (slope_peak L V b p' p (proj1 H) (proj1 (proj2 H)) C A) as S. apply grid_single; [exact S| |right]; rewrite L_Ieee21.nan_limits_of_nan; [now destruct (bpv_cdf L b (bp_energy b))|reflexivity].
Qed.
