(** The Voigt profile with perturbed arguments. *)
From Coq Require Import Reals List ZArith Lra Lia Psatz.
From Coquelicot Require Import Coquelicot.
From Verif Require Import Py Spec M_Num M_Dist M_PseudoVoigt S_Resonance L_Gauss L_Dist L_Axis L_Convolution L_Voigt L_Voigt2 L_Float L_Float7.
Open Scope R_scope.

(** ** Cauchy distributions *)
Lemma cauchy0_val g t : 0 < g -> cauchy_pdf 0 g t = / PI * (g / (g ^ 2 + t ^ 2)).
Proof. intros H. unfold cauchy_pdf. rewrite Rminus_0_r. pose proof PI_RGT_0. field. split; [nra|]. split; [|lra]. pose proof (pow2_ge_0 t). nra. Qed.
Lemma cauchy0_pos g t : 0 < g -> 0 < cauchy_pdf 0 g t.
Proof. intros H. rewrite cauchy0_val by auto. pose proof PI_RGT_0. pose proof (pow2_ge_0 t). apply Rmult_lt_0_compat; [now apply Rinv_0_lt_compat|]. apply Rdiv_lt_0_compat; nra. Qed.
Lemma cauchy0_scale g g' r t : 0 < g -> 0 < g' -> 0 < r <= 1 -> g' * r <= g -> g * r <= g' -> cauchy_pdf 0 g t * r <= cauchy_pdf 0 g' t.
Proof.
  intros P P' H A B. rewrite !cauchy0_val by auto. pose proof PI_RGT_0. pose proof (pow2_ge_0 t). rewrite Rmult_assoc. apply Rmult_le_compat_l; [left; now apply Rinv_0_lt_compat|].
  assert (0 < g ^ 2 + t ^ 2) by nra. assert (0 < g' ^ 2 + t ^ 2) by nra.
  apply Rmult_le_reg_r with ((g ^ 2 + t ^ 2) * (g' ^ 2 + t ^ 2)); [nra|].
  replace (g / (g ^ 2 + t ^ 2) * r * ((g ^ 2 + t ^ 2) * (g' ^ 2 + t ^ 2))) with (r * g * (g' ^ 2 + t ^ 2)) by (field; lra).
  replace (g' / (g' ^ 2 + t ^ 2) * ((g ^ 2 + t ^ 2) * (g' ^ 2 + t ^ 2))) with (g' * (g ^ 2 + t ^ 2)) by (field; lra).
  assert (g * g' * (g' * r) <= g * g' * g) by (apply Rmult_le_compat_l; nra). assert (g * r * t ^ 2 <= g' * t ^ 2) by (apply Rmult_le_compat_r; lra). nra.
Qed.
Lemma cauchy0_shift g z h t : 0 < g -> 0 <= z -> Rabs h <= z * g -> cauchy_pdf 0 g t <= (1 + z + z ^ 2) * cauchy_pdf 0 g (t + h).
Proof.
  intros P Z H. rewrite !cauchy0_val by auto. pose proof PI_RGT_0. pose proof (pow2_ge_0 t). pose proof (pow2_ge_0 (t + h)).
  replace ((1 + z + z ^ 2) * (/ PI * (g / (g ^ 2 + (t + h) ^ 2)))) with (/ PI * ((1 + z + z ^ 2) * (g / (g ^ 2 + (t + h) ^ 2)))) by ring. apply Rmult_le_compat_l; [left; now apply Rinv_0_lt_compat|].
  assert (0 < g ^ 2 + t ^ 2) by nra. assert (0 < g ^ 2 + (t + h) ^ 2) by nra.
  apply Rmult_le_reg_r with ((g ^ 2 + t ^ 2) * (g ^ 2 + (t + h) ^ 2)); [nra|].
  replace (g / (g ^ 2 + t ^ 2) * ((g ^ 2 + t ^ 2) * (g ^ 2 + (t + h) ^ 2))) with (g * (g ^ 2 + (t + h) ^ 2)) by (field; lra).
  replace ((1 + z + z ^ 2) * (g / (g ^ 2 + (t + h) ^ 2)) * ((g ^ 2 + t ^ 2) * (g ^ 2 + (t + h) ^ 2))) with (g * ((1 + z + z ^ 2) * (g ^ 2 + t ^ 2))) by (field; lra).
  apply Rmult_le_compat_l; [lra|]. 
  assert (A : 2 * t * h <= z * (g ^ 2 + t ^ 2)).
  { apply Rle_trans with (2 * (Rabs t * Rabs h)). { rewrite <- Rabs_mult. pose proof (Rle_abs (t * h)). lra. }
    assert (Rabs t * Rabs h <= Rabs t * (z * g)) by (apply Rmult_le_compat_l; [apply Rabs_pos|auto]).
    rewrite <- (pow2_abs t). set (a := Rabs t) in *. assert (0 <= z * (a - g) ^ 2) by (apply Rmult_le_pos; [lra|apply pow2_ge_0]). nra. }
  assert (B : h ^ 2 <= z ^ 2 * g ^ 2). { rewrite <- (pow2_abs h). rewrite <- Rpow_mult_distr. apply pow_incr. split; [apply Rabs_pos|auto]. }
  nra.
Qed.

(** ** Profiles *)
Lemma voigt_0 x g : voigt_profile x 0 g = cauchy_pdf 0 g x.
Proof. unfold voigt_profile. destruct (Req_EM_T 0 0); [reflexivity|lra]. Qed.
Lemma norm0_pos s t : 0 < s -> 0 < norm_pdf 0 s t.
Proof. intros H. exact (dens_pos _ _ (norm_density 0 s H) t). Qed.
(** A mixture of Cauchy distributions that are compared point by point. *)
Lemma voigt_compare x x' s g g' c : 0 <= s -> 0 < g -> 0 < g' -> (forall t, cauchy_pdf 0 g (t + x) <= c * cauchy_pdf 0 g' (t + x')) ->
  voigt_profile x s g <= c * voigt_profile x' s g'.
Proof.
  intros [Hs| <-] Hg Hg' H.
  - pose proof (axis_shift _ x _ (profile_axis s g Hs Hg x)) as A. pose proof (axis_mult _ c _ (axis_shift _ x' _ (profile_axis s g' Hs Hg' x'))) as B. cbv beta in A, B.
    apply (axis_le _ _ _ _) with (2 := A) (3 := B). intros t. cbv beta. replace (t + x - x) with t by ring. replace (t + x' - x') with t by ring.
    specialize (H t). pose proof (norm0_pos s t Hs). nra.
  - rewrite !voigt_0. specialize (H 0). now rewrite !Rplus_0_l in H.
Qed.
Lemma voigt_pos x s g : 0 <= s -> 0 < g -> 0 < voigt_profile x s g.
Proof. intros Hs Hg. destruct (profile_facts s g Hs ltac:(lra) ltac:(lra)) as (F & D & _). exact (dens_pos _ _ D x). Qed.
Lemma voigt_gamma k x s g g' : 0 <= s -> near k g' g -> near k (voigt_profile x s g') (voigt_profile x s g).
Proof.
  intros Hs N. pose proof (near_pos _ _ _ N) as P'. destruct N as (P & A & B). destruct (qk_pos k) as [Q0 Q1]. split; [now apply voigt_pos|].
  assert (K : forall a b, 0 < a -> 0 < b -> b * q ^ k <= a -> a * q ^ k <= b -> voigt_profile x s a * q ^ k <= voigt_profile x s b).
  { intros a b Pa Pb X Y. assert (E : voigt_profile x s a <= / q ^ k * voigt_profile x s b).
    { apply voigt_compare; auto. intros t. apply Rmult_le_reg_r with (q ^ k); auto. pose proof (cauchy0_scale a b (q ^ k) (t + x) Pa Pb (conj Q0 Q1) X Y). replace (/ q ^ k * cauchy_pdf 0 b (t + x) * q ^ k) with (cauchy_pdf 0 b (t + x)) by (field; lra). lra. }
    apply Rmult_le_reg_r with (/ q ^ k); [now apply Rinv_0_lt_compat|]. rewrite Rmult_assoc, Rinv_r by lra. lra. }
  split; apply K; auto.
Qed.
Lemma voigt_shift z x h s g : 0 <= s -> 0 < g -> 0 <= z -> Rabs h <= z * g ->
  Rabs (voigt_profile (x + h) s g - voigt_profile x s g) <= (z + z ^ 2) * voigt_profile x s g.
Proof.
  intros Hs Hg Hz H. pose proof (pow2_ge_0 z).
  assert (A : voigt_profile x s g <= (1 + z + z ^ 2) * voigt_profile (x + h) s g).
  { apply voigt_compare; auto. intros t. rewrite <- Rplus_assoc. now apply cauchy0_shift. }
  assert (B : voigt_profile (x + h) s g <= (1 + z + z ^ 2) * voigt_profile x s g).
  { apply voigt_compare; auto. intros t. replace (t + x) with (t + (x + h) + - h) by ring. apply cauchy0_shift; auto. now rewrite Rabs_Ropp. }
  pose proof (voigt_pos x s g Hs Hg). pose proof (voigt_pos (x + h) s g Hs Hg).
  set (a := voigt_profile x s g) in *. set (b := voigt_profile (x + h) s g) in *. apply Rabs_le. split; [|lra].
  set (d := z + z ^ 2) in *. assert (0 <= d) by (unfold d; lra). replace (1 + z + z ^ 2) with (1 + d) in * by (unfold d; ring).
  assert (a - b <= d * b) by lra. destruct (Rle_dec b a); nra.
Qed.
(** Shifts of the normal distribution. *)
Lemma norm0_shift s h t : 0 < s -> norm_pdf 0 s t * (1 - (t * h + h ^ 2 / 2) / s ^ 2) <= norm_pdf 0 s (t + h).
Proof.
  intros Hs. unfold norm_pdf, gauss0. rewrite !Rminus_0_r.
  assert (E : - ((t + h) / s) ^ 2 / 2 = - (t / s) ^ 2 / 2 + - ((t * h + h ^ 2 / 2) / s ^ 2)) by (field; lra).
  rewrite E, exp_plus. set (e := exp (- (t / s) ^ 2 / 2)). set (d := (t * h + h ^ 2 / 2) / s ^ 2). pose proof (exp_ineq1_le (- d)).
  assert (0 < e) by apply exp_pos. assert (P : 0 < / sqrt (2 * PI) * / s). { apply Rmult_lt_0_compat; apply Rinv_0_lt_compat; auto. apply sqrt_lt_R0. pose proof PI_RGT_0. lra. }
  unfold Rdiv. replace (e * / sqrt (2 * PI) * / s * (1 - d)) with (/ sqrt (2 * PI) * / s * (e * (1 - d))) by ring. replace (e * exp (- d) * / sqrt (2 * PI) * / s) with (/ sqrt (2 * PI) * / s * (e * exp (- d))) by ring.
  apply Rmult_le_compat_l; [lra|]. apply Rmult_le_compat_l; lra.
Qed.
Lemma norm0_le s a b : 0 < s -> Rabs a <= Rabs b -> norm_pdf 0 s b <= norm_pdf 0 s a.
Proof.
  intros Hs H. rewrite <- (even_abs (norm_pdf 0 s) (norm0_even s) a), <- (even_abs (norm_pdf 0 s) (norm0_even s) b). destruct H as [H|H]; [|rewrite H; lra]. left. apply norm0_decr; auto. split; auto. apply Rabs_pos.
Qed.
Lemma voigt_gauss_shift x h s g : 0 < s -> 0 < g -> 0 <= x -> 0 <= h -> voigt_profile x s g * (1 - (x * h + h ^ 2 / 2) / s ^ 2) <= voigt_profile (x + h) s g.
Proof.
  intros Hs Hg Hx Hh. set (d := (x * h + h ^ 2 / 2) / s ^ 2).
  pose proof (axis_minus _ _ _ _ (profile_axis s g Hs Hg (x + h)) (axis_mult _ (1 - d) _ (profile_axis s g Hs Hg x))) as I. cbv beta in I.
  pose proof (axis_plus _ _ _ _ I (axis_reflect _ _ I)) as J. cbv beta in J.
  assert (0 <= voigt_profile (x + h) s g - (1 - d) * voigt_profile x s g + (voigt_profile (x + h) s g - (1 - d) * voigt_profile x s g)); [|lra].
  assert (Z : integral_over_axis (fun _ : R => 0) 0).
  { pose proof (axis_mult _ 0 _ I) as Z0. rewrite Rmult_0_l in Z0. refine (axis_ext _ _ _ _ Z0). intros. cbv beta. ring. }
  apply (axis_le _ _ _ _) with (2 := Z) (3 := J). intros t. cbv beta. rewrite (cauchy0_even g t).
  pose proof (cauchy0_pos g t Hg) as C. set (c := cauchy_pdf 0 g t) in *.
  replace (norm_pdf 0 s (t - (x + h))) with (norm_pdf 0 s ((x - t) + h)) by (rewrite <- norm0_even; f_equal; ring).
  replace (norm_pdf 0 s (- t - (x + h))) with (norm_pdf 0 s ((x + t) + h)) by (rewrite <- norm0_even; f_equal; ring).
  replace (norm_pdf 0 s (t - x)) with (norm_pdf 0 s (x - t)) by (rewrite <- norm0_even; f_equal; ring).
  replace (norm_pdf 0 s (- t - x)) with (norm_pdf 0 s (x + t)) by (rewrite <- norm0_even; f_equal; ring).
  pose proof (norm0_shift s h (x - t) Hs) as A. pose proof (norm0_shift s h (x + t) Hs) as B.
  set (n1 := norm_pdf 0 s (x - t)) in *. set (n2 := norm_pdf 0 s (x + t)) in *. set (m1 := norm_pdf 0 s (x - t + h)) in *. set (m2 := norm_pdf 0 s (x + t + h)) in *.
  replace (((x - t) * h + h ^ 2 / 2) / s ^ 2) with (d - t * (h / s ^ 2)) in A by (unfold d; field; lra).
  replace (((x + t) * h + h ^ 2 / 2) / s ^ 2) with (d + t * (h / s ^ 2)) in B by (unfold d; field; lra).
  assert (K : 0 <= h / s ^ 2). { apply Rmult_le_pos; auto. left. apply Rinv_0_lt_compat. now apply pow_lt. }
  assert (M : 0 <= t * (n1 - n2)).
  { destruct (Rle_dec 0 t) as [T|T].
    - assert (n2 <= n1). { apply norm0_le; auto. rewrite (Rabs_pos_eq (x + t)) by lra. apply Rabs_le. lra. } nra.
    - assert (n1 <= n2). { apply norm0_le; auto. rewrite (Rabs_pos_eq (x - t)) by lra. apply Rabs_le. lra. } nra. }
  set (y := h / s ^ 2) in *. assert (0 <= y * (t * (n1 - n2))) by now apply Rmult_le_pos.
  replace (m1 * c - (1 - d) * (n1 * c) + (m2 * c - (1 - d) * (n2 * c))) with (c * (m1 + m2 - (1 - d) * (n1 + n2))) by ring. apply Rmult_le_pos; [lra|]. lra.
Qed.
(** Scale. *)
Lemma voigt_scale c x s g : 0 < c -> 0 <= s -> 0 < g -> voigt_profile (c * x) (c * s) (c * g) = / c * voigt_profile x s g.
Proof.
  intros Hc [Hs| <-] Hg.
  - assert (Hs' : 0 < c * s) by nra. assert (Hg' : 0 < c * g) by nra.
    pose proof (axis_mult _ (/ c) _ (axis_affine _ c _ Hc (profile_axis s g Hs Hg x))) as A. cbv beta in A.
    refine (axis_unique _ _ _ (profile_axis (c * s) (c * g) Hs' Hg' (c * x)) _). refine (axis_ext _ _ _ _ A). intros t. cbv beta.
    unfold norm_pdf. rewrite !Rminus_0_r. replace ((t / c - x) / s) with ((t - c * x) / (c * s)) by (field; lra). rewrite !cauchy0_val by auto. pose proof PI_RGT_0. pose proof (pow2_ge_0 t). pose proof (pow2_ge_0 (t / c)).
    field. assert (0 < c ^ 2 * g ^ 2) by (apply Rmult_lt_0_compat; now apply pow_lt). repeat split; nra.
  - rewrite Rmult_0_r, !voigt_0. assert (Hg' : 0 < c * g) by nra. rewrite !cauchy0_val by auto. pose proof PI_RGT_0. pose proof (pow2_ge_0 x). field. assert (0 < c ^ 2 * g ^ 2) by (apply Rmult_lt_0_compat; now apply pow_lt). repeat split; nra.
Qed.
(** Lower bound. *)
Lemma voigt_lower x s g : 0 <= s -> 0 < g -> / PI * (g / (2 * x ^ 2 + 2 * s ^ 2 + g ^ 2)) <= voigt_profile x s g.
Proof.
  intros Hs Hg. pose proof PI_RGT_0 as PP. pose proof (pow2_ge_0 x) as X2. pose proof (pow2_ge_0 s) as S2. set (a := 2 * x ^ 2 + 2 * s ^ 2 + g ^ 2). assert (Pa : 0 < a) by (unfold a; nra).
  destruct Hs as [Hs| <-].
  - pose proof (axis_shift _ x _ (profile_axis s g Hs Hg x)) as A. cbv beta in A.
    pose proof (axis_mult _ (/ PI * (g / a) * (1 + 2 * s ^ 2 / a)) _ (dens_axis _ _ (norm_density 0 s Hs))) as B1.
    pose proof (axis_mult _ (/ PI * (g / a) * (2 / a)) _ (norm_moment s Hs)) as B2. pose proof (axis_minus _ _ _ _ B1 B2) as B. cbv beta in B.
    replace (/ PI * (g / a) * (1 + 2 * s ^ 2 / a) * 1 - / PI * (g / a) * (2 / a) * s ^ 2) with (/ PI * (g / a)) in B by (field; lra).
    apply (axis_le _ _ _ _) with (2 := B) (3 := A). intros t. cbv beta. replace (t + x - x) with t by ring. pose proof (norm0_pos s t Hs) as N. set (n := norm_pdf 0 s t) in *. rewrite cauchy0_val by auto. pose proof (pow2_ge_0 t) as T2.
    replace (/ PI * (g / a) * (1 + 2 * s ^ 2 / a) * n - / PI * (g / a) * (2 / a) * (t ^ 2 * n)) with (/ PI * n * g * (/ a * (1 - 2 * (t ^ 2 - s ^ 2) / a))) by (field; lra).
    replace (n * (/ PI * (g / (g ^ 2 + (t + x) ^ 2)))) with (/ PI * n * g * / (g ^ 2 + (t + x) ^ 2)) by (unfold Rdiv; ring).
    apply Rmult_le_compat_l. { apply Rmult_le_pos; [|lra]. apply Rmult_le_pos; [|lra]. left; now apply Rinv_0_lt_compat. }
    set (b := 2 * x ^ 2 + 2 * t ^ 2 + g ^ 2). assert (Pb : 0 < b) by (unfold b; nra).
    apply Rle_trans with (/ b).
    + replace (/ a * (1 - 2 * (t ^ 2 - s ^ 2) / a)) with ((2 * a - b) / a ^ 2) by (unfold b; replace a with (2 * x ^ 2 + 2 * s ^ 2 + g ^ 2) at 2 by reflexivity; unfold a; field; fold a; lra).
      apply Rmult_le_reg_r with (a ^ 2 * b); [apply Rmult_lt_0_compat; [now apply pow_lt|auto]|]. replace ((2 * a - b) / a ^ 2 * (a ^ 2 * b)) with ((2 * a - b) * b) by (field; lra). replace (/ b * (a ^ 2 * b)) with (a ^ 2) by (field; lra). pose proof (pow2_ge_0 (a - b)). lra.
    + apply Rinv_le_contravar. pose proof (pow2_ge_0 (t + x)). nra. unfold b. pose proof (pow2_ge_0 (t - x)). nra.
  - rewrite voigt_0, cauchy0_val by auto. apply Rmult_le_compat_l; [left; now apply Rinv_0_lt_compat|]. unfold Rdiv. apply Rmult_le_compat_l; [lra|]. apply Rinv_le_contravar; unfold a; nra.
Qed.
