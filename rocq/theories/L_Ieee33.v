(** Pseudo-Voigt resonances with binary64 numbers: single probabilities, full coverage, the fallback and coverages above 1. *)
From Coq Require Import Reals List ZArith Bool Lra Lia Psatz.
From Coquelicot Require Import Coquelicot.
From Flocq Require Import Core BinarySingleNaN.
From Verif Require L_Float21.
From Verif Require Import Py Spec M_Num M_Grid M_Dist M_Resonance M_Thermal M_Constituents M_PseudoVoigt S_Resonance S_PseudoVoigt M_Float S_Float M_Float2 M_Float3 S_Float3 M_Float4 S_Float4 M_Float6 S_Float6 M_Float8 S_Float8 M_Float12 S_Float12 S_Float13 M_Ieee M_Ieee2 M_Ieee5 S_Ieee S_Ieee5 M_Ieee7 S_Ieee7
  L_Dist L_PseudoVoigt L_PseudoVoigt4 L_Float L_Float9 L_Float10 L_Float11 L_Float22 L_Float28 L_Float30 L_Float31 L_Float32 L_Float49 L_Float50 L_Float51 L_Float52 L_Float53
  L_Ieee L_Ieee2 L_Ieee3 L_Ieee4 L_Ieee5 L_Ieee6 L_Ieee7 L_Ieee8 L_Ieee9 L_Ieee13 L_Ieee20 L_Ieee24 L_Ieee25 L_Ieee26 L_Ieee27 L_Ieee28 L_Ieee29 L_Ieee30 L_Ieee31 L_Ieee32.
Import ListNotations.
Open Scope R_scope.

Section Objects.
  Variables (L : bpvlib) (V : pvlib) (B : bconstants) (k : constants) (bi : bstate) (i : state) (bm : bstate) (m : state)
    (bfin : option bstate) (fin : option state) (bamu : b64) (amu : R) (bT : b64) (T w : R).
  Hypothesis H : same_resonance L V B k bi i bm m bfin fin bamu amu bT T w.
  Let E := fsub (st_excitation_energy m) (st_excitation_energy i).
  Let O := objects L V B k bi i bm m bfin fin bamu amu bT T w H.
  Lemma object_single modern bc c ws g : rep bc c -> 0 <= c <= 1 -> bPseudoVoigt_grid modern L B bi bm bamu bT bfin (BCoverage bc) 1 = (ws, Ok (Some g)) -> ~ In BInversionFailed ws -> List.Forall moderate g ->
    modern = true /\ ws = [] /\ exists x y, g = [x] /\ fPseudoVoigt_grid modern V k i m amu T fin (Coverage c) 1 = ([], Ok (Some [Finite y])) /\ rep x y.
  Proof using H.
    destruct O as (b & p & p' & D & P1 & P2 & A & C & Q). destruct (Q modern) as (_ & _ & O3 & O4). rewrite O3, O4. apply (single_grid L V b p' p (proj1 H) (proj1 (proj2 H)) C A).
  Qed.
  Lemma object_full modern b bc ws lo hi : bPseudoVoigt_distribution L B bi bm bamu bT bfin = Ok b -> rep bc 1 -> bPseudoVoigt_coverage_interval modern L B bi bm bamu bT bfin bc = (ws, Ok (lo, hi)) -> In BInversionFailed ws ->
    (0 < B2R (bp_eta b) < 1 -> lo = B754_infinity true /\ hi = B754_infinity false /\ exists v, ws = [BInversionFailed; BNegativeLowerLimit v; BInfiniteUpperLimit] /\ finite v) /\
    (~ 0 < B2R (bp_eta b) < 1 -> lo = B754_nan /\ hi = B754_nan /\ ws = [BInversionFailed]).
  Proof using H.
    intros Db. destruct O as (b0 & p & p' & D & P1 & P2 & A & C & Q). rewrite D in Db. injection Db as <-. destruct (Q modern) as (O1 & _). rewrite O1. apply (full_interval L V b0 p' p (proj1 H) (proj1 (proj2 H)) C A).
  Qed.
  Lemma object_fallback b bq q : bPseudoVoigt_distribution L B bi bm bamu bT bfin = Ok b -> rep bq q -> 0 <= q <= 1 -> finite (bpv_fallback L b bq) ->
    exists p' x, fPseudoVoigtDistribution V k E w amu T = Ok p' /\ fpv_fallback V p' [q] = Ok (Some [Finite x]) /\ rep (bpv_fallback L b bq) x.
  Proof using H.
    intros Db Rq Hq F. destruct O as (b0 & p & p' & D & P1 & P2 & A & C & Q). rewrite D in Db. injection Db as <-. destruct (fallback_back L V b0 p' p (proj1 H) (proj1 (proj2 H)) C A bq q Rq Hq F) as (x & X1 & X2). now exists p', x.
  Qed.
  Lemma object_above modern p bc c : PseudoVoigtDistribution k E w amu T = Ok p -> rep bc c -> 1 + 3 * (/ 2 ^ 40 + 3 / 10 ^ 8 / pv_Gamma p) <= Rabs c <= 2 ^ 90 ->
    bPseudoVoigt_coverage_interval modern L B bi bm bamu bT bfin bc = ([], Raise TypeError) \/ bPseudoVoigt_coverage_interval modern L B bi bm bamu bT bfin bc = ([BInversionFailed], Ok (B754_nan, B754_nan)).
  Proof using H.
    intros Ep. destruct O as (b & p0 & p' & D & P1 & P2 & A & C & Q). fold E in P1. rewrite P1 in Ep. injection Ep as <-. destruct (Q modern) as (O1 & _). rewrite O1. apply (above_interval L V b p' p0 (proj1 H) (proj1 (proj2 H)) C A).
  Qed.
End Objects.
Lemma above_example : forall G, 1 <= G -> rep (of_Z 2) 2 /\ rep (of_Z 1) 1 /\ 1 + 3 * (/ 2 ^ 40 + 3 / 10 ^ 8 / G) <= Rabs 2 <= 2 ^ 90.
Proof.
  intros G HG. split; [now apply (Z_rep 2)|]. split; [apply one_rep|]. rewrite Rabs_pos_eq by lra. assert (/ G <= 1) by (rewrite <- Rinv_1; apply Rinv_le_contravar; lra). unfold Rdiv. simpl. lra.
Qed.
Lemma size_zero L b modern c x y : bpv_probability_grid modern L b (BCoverage c) 0 = ([BInversionFailed], Ok (Some [])) /\ bpv_probability_grid modern L b (BLimits x y) 0 = ([BInversionFailed], Raise IndexError).
Proof. split; reflexivity. Qed.
Lemma size_negative L b modern arg n : (n < 0)%Z -> bpv_probability_grid modern L b arg n = ([], Raise ValueError).
Proof. intros Hn. unfold bpv_probability_grid, blinspace. destruct (Z.ltb_spec n 0); [reflexivity|lia]. Qed.
