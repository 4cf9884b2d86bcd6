(** C104: Darboux integrals of lines over their probability grids, with rounding. *)
From Coq Require Import Reals List ZArith Lra Lia.
From Coquelicot Require Import Coquelicot.
From Verif Require Import Py Spec M_Num M_Constituents M_Thermal M_Dist M_Grid M_CrossSection S_CrossSection M_Resonance S_Resonance M_Darboux M_Float S_Float M_Float4 S_Float4 M_Float6 S_Float6 S_Float12
  L_Float L_Float4 L_Float10 L_Float12 L_Float8 L_Float22 L_Float47 L_Float48 L_Float49.
Import ListNotations.
Open Scope R_scope.

(** Any function with a single maximum, not negative, whose values are computed with the relative error [delta]: the rounded lower sum and
    the rounded uncertainty enclose its integral up to errors that are relative to the integral itself.  The maximum need not be a point of
    the grid: it counts how much less the function is at one of its points. *)
Theorem C104_single_maximum : forall t m f g x delta k y L d, grid x -> x <> [] -> order_of (List.length x - 1) t ->
  0 <= delta <= 1 -> (forall z, In z x -> Rabs (g z - f z) <= delta * f z) -> unimodal m f -> (forall z, 0 <= f z) ->
  ex_RInt f (first x) (final x) -> 0 <= k -> In y x -> f m <= (1 + k) * f y -> fdarboux t (map g x) x = (L, d) ->
  let e := relative_loss (depth_of t) delta in let a := absolute_loss (depth_of t) (List.length x - 1) in
  L <= (1 + e) * RInt f (first x) (final x) + a /\
  (1 - e) * RInt f (first x) (final x) <= (1 + k) * (L + (1 + 2 * unit_roundoff) * d + a).
Proof. exact fdarboux_unimodal. Qed.

(** The notebooks' way to integrate a resonance, all of it rounded: a probability grid for a coverage, the cross section at its points, Darboux
    sums.  The result encloses the coverage times the exact integrated cross section. *)
Theorem C104_breit_wigner : forall d c k i m fin, fdist_ok Cauchy d -> clib_ok c -> floats k i m fin ->
  let E_r := fsub (st_excitation_energy m) (st_excitation_energy i) in
  exists r g s, BreitWigner k i (with_energy m (st_excitation_energy i + E_r)) fin = Ok r /\ r_params r = [E_r; g] /\ 0 < g /\
  Rabs (s - g) <= 2 * unit_roundoff * g /\ 0 < r_integrated r /\
  forall cov n, double cov -> 0 <= cov <= 1 - 4 * unit_roundoff -> (3 <= n <= 2 ^ 50)%Z ->
    2 * blur E_r s < cov / IZR (n - 1) -> 7 * offset cov n (2 * blur E_r s) < 1 ->
    exists xs, fBreitWigner_grid d c k i m fin (Coverage cov) n = Ok (map Finite xs) /\
      (cov <= 1 - 4 * blur E_r s -> forall y, In y xs -> Rabs (y - E_r) * (3 * blur E_r s) <= s) /\
      ((forall y, In y xs -> Rabs y <= 2 ^ 60) -> exists vs, Forall2 (fun y v => fBreitWigner_call c k i m fin y true = Ok v) xs vs /\
       forall t L D, order_of (Z.to_nat n - 1) t -> fdarboux t vs xs = (L, D) ->
         integral_between (depth_of t) (Z.to_nat n - 1) (32 * unit_roundoff) cov (4 * blur E_r s) (offset cov n (2 * blur E_r s)) (r_integrated r) L D).
Proof. exact bw_integral. Qed.
Theorem C104_gauss : forall d c k i m amu T fin, fdist_ok Normal d -> clib_ok c -> floats k i m fin -> thermal k amu T ->
  let E_r := fsub (st_excitation_energy m) (st_excitation_energy i) in
  exists r sigma s, Gauss k i (with_energy m (st_excitation_energy i + E_r)) amu T fin = Ok r /\ r_params r = [E_r; sigma] /\ 0 < sigma /\
  Rabs (s - sigma) <= 8 * unit_roundoff * sigma /\ 0 < r_integrated r /\
  forall cov n Y, double cov -> 0 <= cov <= 1 - 4 * unit_roundoff -> (3 <= n <= 2 ^ 50)%Z ->
    2 * blur E_r s < cov / IZR (n - 1) -> 7 * offset cov n (2 * blur E_r s) < 1 -> 0 <= Y <= 16 ->
    exists xs, fGauss_grid d c k i m amu T fin (Coverage cov) n = Ok (map Finite xs) /\
      (cov <= 1 - 4 * blur E_r s -> forall y, In y xs -> Rabs (y - E_r) <= 10 * sigma) /\
      ((forall y, In y xs -> Rabs (y - E_r) <= Y * sigma) -> exists vs, Forall2 (fun y v => fGauss_call c k i m amu T fin y true = Ok v) xs vs /\
       forall t L D, order_of (Z.to_nat n - 1) t -> fdarboux t vs xs = (L, D) ->
         integral_between (depth_of t) (Z.to_nat n - 1) ((34 + 11 * Y ^ 2) * unit_roundoff) cov (4 * blur E_r s) (offset cov n (2 * blur E_r s)) (r_integrated r) L D).
Proof. exact gauss_integral. Qed.

(** *** Non-vacuity *)
(** Library functions, a resonance at an energy of 1 with a width of 1/1024, and one with a Doppler width. *)
Example C104_library : fdist_ok Cauchy (correct_fdist Cauchy) /\ fdist_ok Normal (correct_fdist Normal) /\ clib_ok correct_clib.
Proof. exact (conj (correct_fdist_ok Cauchy) (conj (correct_fdist_ok Normal) correct_ok)). Qed.
Example C104_lines : floats lost_k lost_i wide_m None /\ floats lost_k lost_i lost_m None /\ thermal lost_k 1000 1 /\
  (forall m, st_excitation_energy m = 1 -> fsub (st_excitation_energy m) (st_excitation_energy lost_i) = 1) /\
  (forall r g, BreitWigner lost_k lost_i wide_m None = Ok r -> r_params r = [1; g] -> / 2 ^ 30 <= g) /\
  (forall r g, Gauss lost_k lost_i lost_m 1000 1 None = Ok r -> r_energy r = 1 -> r_params r = [1; g] -> / 2 ^ 30 <= g).
Proof. exact (conj wide_floats (conj lost_floats (conj thermal_lost (conj one_energy (conj wide_scale gauss_scale))))). Qed.
(** They allow a coverage of 1/2 with 100 to 1000 points. *)
Example C104_room : forall g s n, / 2 ^ 30 <= g -> Rabs (s - g) <= 8 * unit_roundoff * g -> (100 <= n <= 1000)%Z ->
  double (1 / 2) /\ 0 <= 1 / 2 <= 1 - 4 * unit_roundoff /\ (3 <= n <= 2 ^ 50)%Z /\ 2 * blur 1 s < (1 / 2) / IZR (n - 1) /\
  7 * offset (1 / 2) n (2 * blur 1 s) < 1 /\ 1 / 2 <= 1 - 4 * blur 1 s.
Proof. exact room. Qed.
Print Assumptions C104_single_maximum.
Print Assumptions C104_breit_wigner.
Print Assumptions C104_gauss.
