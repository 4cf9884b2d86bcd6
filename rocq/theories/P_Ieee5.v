(** C103: coverage intervals and grids of resonances with infinities and nan. *)
From Coq Require Import Reals List ZArith Bool Lra.
From Coquelicot Require Import Rbar.
From Flocq Require Import Core BinarySingleNaN.
From Verif Require Import Py M_Num M_Dist M_Grid M_Float S_Float M_Float6 S_Float6 L_Float22 M_Ieee M_Ieee5 S_Ieee S_Ieee5 L_Ieee20 L_Ieee21.
Import ListNotations.
Open Scope R_scope.

(** Whenever all points of the grid without a limit of numbers exist, the grid with that limit has the same points;
    an infinity stands for itself or for a number of [2 ^ 900] or more, with its sign. *)
Theorem C103_grid : forall f B d bl bs l s bar ar n g, fdist_ok f d -> same_dist B d -> same_line bl bs l s -> same_arg bar ar -> (0 <= n <= 2 ^ 53)%Z ->
  fprobability_grid d l s ar n = Ok g -> exists bg, bprobability_grid B bl bs bar n = Ok bg /\ Forall2 same_point bg g.
Proof. intros f B d bl bs l s bar ar n g K S. exact (grid_same B d bl bs l s bar ar n g S (unit_cdf f d K)). Qed.
Theorem C103_interval : forall B d bl bs l s bc c r, same_dist B d -> same_line bl bs l s -> rep bc c -> Rabs c <= 2 ^ 900 ->
  fcoverage_interval d l s c = Ok r -> same_pair (fst (bcoverage_interval B bl bs bc)) r.
Proof. exact interval_same. Qed.
(** Exactly then there are warnings about a negative lower limit, and about an infinite upper limit if it is infinite or overflows. *)
Theorem C103_warnings : forall B d bl bs l s bc c lo hi, same_dist B d -> same_line bl bs l s -> rep bc c -> Rabs c <= 2 ^ 900 ->
  fcoverage_interval d l s c = Ok (lo, hi) ->
  (fst (snd (bcoverage_interval B bl bs bc)) = true <-> Rbar_lt lo (Finite 0)) /\
  (hi = p_infty \/ hi = m_infty -> snd (snd (bcoverage_interval B bl bs bc)) = true) /\
  (snd (snd (bcoverage_interval B bl bs bc)) = true -> hi = p_infty \/ hi = m_infty \/ exists r, hi = Finite r /\ 2 ^ 900 <= Rabs r).
Proof. exact warnings_same. Qed.
Example C103_grid_case : forall f, fdist_ok f (correct_fdist f) /\ same_dist (correct_bdist f) (correct_fdist f) /\ same_line (of_Z 2) (of_Z 3) 2 3 /\
  same_arg (BLimits (of_Z 1) (of_Z 7)) (Limits 1 7) /\ same_arg (BCoverage (literal 1 2)) (Coverage (1 / 2)).
Proof.
  intros f. exact (conj (correct_fdist_ok f) (conj (correct_same_dist f) (conj line_example (conj (conj (energy_example 1 ltac:(discriminate)) (energy_example 7 ltac:(discriminate))) coverage_example)))).
Qed.

(** From minus infinity to infinity: the grid with coverage 1, which starts and ends there, *)
Theorem C103_whole_line : forall B l s n, whole l s -> (2 <= n <= 2 ^ 53)%Z -> exists xs, length xs = Z.to_nat (n - 2) /\
  bprobability_grid B l s (BLimits (B754_infinity true) (B754_infinity false)) n = Ok (B754_infinity true :: xs ++ [B754_infinity false]) /\
  bprobability_grid B l s (BCoverage (of_Z 1)) n = Ok (B754_infinity true :: xs ++ [B754_infinity false]).
Proof. exact whole_line. Qed.
(** as does the coverage interval, with both warnings, *)
Theorem C103_whole_interval : forall B l s, whole l s -> bcoverage_interval B l s (of_Z 1) = ((B754_infinity true, B754_infinity false), (true, true)).
Proof. exact whole_interval. Qed.
(** while equidistant energies are nan, *)
Theorem C103_whole_energies : forall B l s n, whole l s -> (2 <= n <= 2 ^ 53)%Z ->
  benergy_grid B l s (BCoverage (of_Z 1)) n = Ok (repeat B754_nan (Z.to_nat (n - 1)) ++ [B754_infinity false]) /\
  benergy_grid B l s (BLimits (B754_infinity true) (B754_infinity false)) n = Ok (repeat B754_nan (Z.to_nat (n - 1)) ++ [B754_infinity false]).
Proof. intros B l s n W Hn. exact (conj (whole_energy_grid B l s n W Hn) (whole_energies n Hn)). Qed.
(** and none of these grids can be integrated over, whatever the values of the integrand are. *)
Theorem C103_no_integral : forall B l s n g t fx, whole l s -> (2 <= n <= 2 ^ 53)%Z ->
  bprobability_grid B l s (BCoverage (of_Z 1)) n = Ok g \/ bprobability_grid B l s (BLimits (B754_infinity true) (B754_infinity false)) n = Ok g \/
  benergy_grid B l s (BCoverage (of_Z 1)) n = Ok g \/ benergy_grid B l s (BLimits (B754_infinity true) (B754_infinity false)) n = Ok g ->
  length fx = length g -> order_of (length g - 1) t -> ~ finite (fst (bdarboux t fx g)).
Proof. exact no_integral. Qed.
Example C103_whole_case : whole (of_Z 2) (of_Z 3).
Proof. exact (line_whole _ _ _ _ line_example). Qed.

(** A line without a positive scale or without a location, or a limit that is nan: all points but the limits are nan. *)
Theorem C103_nan_limits : forall B l s a b n, (2 <= n)%Z -> broken l s \/ a = B754_nan \/ b = B754_nan ->
  bprobability_grid B l s (BLimits a b) n = Ok (a :: repeat B754_nan (Z.to_nat (n - 2)) ++ [b]).
Proof. exact nan_limits. Qed.
Theorem C103_nan_coverage : forall B l s c n, (2 <= n)%Z -> broken l s \/ c = B754_nan ->
  bprobability_grid B l s (BCoverage c) n = Ok (repeat B754_nan (Z.to_nat n)) /\ bcoverage_interval B l s c = ((B754_nan, B754_nan), (false, false)).
Proof. intros B l s c n Hn H. exact (conj (nan_coverage B l s c n Hn H) (nan_interval B l s c H)). Qed.
Example C103_nan_case : broken (of_Z 2) (of_Z 0) /\ broken (of_Z 2) B754_nan /\ broken B754_nan (of_Z 3).
Proof. exact (conj (or_introl eq_refl) (conj (or_introl eq_refl) (or_intror eq_refl))). Qed.

(** The lower limit of a coverage above 1 is nan, and there is no warning about it; *)
Theorem C103_above_1 : forall B l s c, finite c -> 1 < B2R c <= 2 ^ 900 ->
  fst (fst (bcoverage_interval B l s c)) = B754_nan /\ fst (snd (bcoverage_interval B l s c)) = false.
Proof. exact above_1. Qed.
(** both limits are nan for coverages of at least 1 + 2^-51 (or at most minus this), without any warning, *)
Theorem C103_far_coverage : forall B l s c, finite c -> 1 + / 2 ^ 51 <= Rabs (B2R c) <= 2 ^ 900 ->
  bcoverage_interval B l s c = ((B754_nan, B754_nan), (false, false)).
Proof. exact far_coverage. Qed.
(** but not for all above 1: the upper limit may be infinite. *)
Theorem C103_above_1_refuted : forall B, exists c, finite c /\ 1 < B2R c /\
  forall l s, whole l s -> bcoverage_interval B l s c = ((B754_nan, B754_infinity false), (false, true)).
Proof. exact just_above. Qed.

(** Fewer than two points, for all numbers. *)
Theorem C103_counts : forall B l s a b c,
  (forall n, (n < 0)%Z -> bprobability_grid B l s (BLimits a b) n = Raise ValueError /\ bprobability_grid B l s (BCoverage c) n = Raise ValueError) /\
  bprobability_grid B l s (BLimits a b) 0 = Raise IndexError /\ bprobability_grid B l s (BCoverage c) 0 = Ok [] /\
  bprobability_grid B l s (BLimits a b) 1 = Ok [b].
Proof. exact counts. Qed.
Print Assumptions C103_grid.
Print Assumptions C103_interval.
Print Assumptions C103_warnings.
Print Assumptions C103_whole_line.
Print Assumptions C103_whole_interval.
Print Assumptions C103_whole_energies.
Print Assumptions C103_no_integral.
Print Assumptions C103_nan_limits.
Print Assumptions C103_nan_coverage.
Print Assumptions C103_above_1.
Print Assumptions C103_above_1_refuted.
Print Assumptions C103_counts.
Print Assumptions C103_far_coverage.
