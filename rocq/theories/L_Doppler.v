(** Doppler broadening: the peak and the content of every symmetric interval decrease with the temperature. *)
From Coq Require Import Reals List Lra Lia.
From Coquelicot Require Import Coquelicot.
From Verif Require Import Py Spec M_Num M_Dist M_PseudoVoigt S_Resonance S_Voigt L_RInt L_Gauss L_Dist L_Axis L_Convolution L_Voigt.
Open Scope R_scope.

Lemma axis_lt f g l l' a b : (forall x, f x <= g x) -> (forall x, continuous f x) -> (forall x, continuous g x) -> a < b ->
  (forall x, a < x < b -> f x < g x) -> integral_over_axis f l -> integral_over_axis g l' -> l < l'.
Proof.
  intros Le Cf Cg Hab Lt I J. pose proof (axis_minus g f l' l J I) as D.
  assert (C : forall x, continuous (fun x => g x - f x) x) by (intros; now apply (continuous_minus (V := R_NormedModule) g f)).
  assert (P : 0 < RInt (fun x => g x - f x) a b).
  { apply RInt_gt_0; [exact Hab| |intros; apply C]. intros x Hx. specialize (Lt x Hx). lra. }
  pose proof (axis_part (fun x => g x - f x) (l' - l) a b) as Q. specialize (Q ltac:(intros x; specialize (Le x); lra) D ltac:(lra)). lra.
Qed.

Lemma gauss_axis c : integral_over_axis (fun t => gauss0 t * c) c.
Proof.
  refine (axis_ext _ _ _ _ (axis_zero _ _ _ (axis_mult gauss0 c 1 (dens_axis _ _ norm0_density)) (Rmult_1_r c))).
  intros. cbn beta. ring.
Qed.
Lemma gauss_scale p s l : 0 < s -> integral_over_axis (fun t => norm_pdf 0 s t * p t) l -> integral_over_axis (fun t => gauss0 t * p (s * t)) l.
Proof.
  intros Hs H. pose proof (axis_affine _ (/ s) _ (Rinv_0_lt_compat _ Hs) H) as A. cbn beta in A.
  refine (axis_ext _ _ _ _ A). intros t. cbn beta. unfold norm_pdf.
  replace ((t / / s - 0) / s) with t by (field; lra). replace (t / / s) with (s * t) by (field; lra). field. lra.
Qed.

(** Averages of a function which falls off on both sides decrease with the width of the distribution. *)
Lemma average_decr p s1 s2 l1 l2 : (forall u, p (- u) = p u) -> (forall a b, 0 <= a < b -> p b < p a) -> (forall u, continuous p u) ->
  0 <= s1 < s2 -> integral_over_axis (fun t => gauss0 t * p (s1 * t)) l1 -> integral_over_axis (fun t => gauss0 t * p (s2 * t)) l2 -> l2 < l1.
Proof.
  intros Ev De Co Hs I1 I2.
  assert (C : forall s x, continuous (fun t => gauss0 t * p (s * t)) x).
  { intros s x. apply (continuous_mult (K := R_AbsRing) gauss0 (fun t => p (s * t))); [apply gauss0_cont|].
    apply (continuous_comp (fun t => s * t) p); [|apply Co]. apply (is_derive_cont (fun t => s * t) x s). auto_derive; [exact Logic.I|ring]. }
  assert (A : forall s t, 0 <= s -> p (s * t) = p (s * Rabs t)).
  { intros s t H. unfold Rabs. destruct (Rcase_abs t); [|reflexivity]. rewrite <- Ev. f_equal. ring. }
  apply (axis_lt _ _ _ _ 1 2) with (6 := I2) (7 := I1); try apply C; try lra.
  - intros t. apply Rmult_le_compat_l; [apply Rlt_le, gauss0_bounds|]. rewrite (A s1 t), (A s2 t) by lra.
    destruct (Req_dec t 0) as [->|N]; [rewrite Rabs_R0, !Rmult_0_r; lra|].
    left. apply De. pose proof (Rabs_pos_lt t N). split; [apply Rmult_le_pos; lra|apply Rmult_lt_compat_r; lra].
  - intros t Ht. apply Rmult_lt_compat_l; [apply gauss0_bounds|]. apply De. split; [apply Rmult_le_pos; lra|apply Rmult_lt_compat_r; lra].
Qed.

Section Window.
  Variables g d : R.
  Hypothesis Hg : 0 < g.
  Hypothesis Hd : 0 < d.
  Let c := cauchy_pdf 0 g.
  Let C := cauchy_cdf 0 g.
  Let DC := cauchy_density 0 g Hg.
  Definition window (u : R) : R := cauchy_cdf 0 g (d - u) - cauchy_cdf 0 g (- d - u).

  Lemma window_derive u : is_derive window u (c (d + u) - c (d - u)).
  Proof.
    replace (c (d + u) - c (d - u)) with (- c (d - u) - - c (- d - u)).
    - apply (is_derive_minus (V := R_NormedModule) (fun u => C (d - u)) (fun u => C (- d - u))).
      + replace (- c (d - u)) with (-1 * c (d - u)) by ring. apply (is_derive_comp C (fun u => d - u)).
        * apply (dens_derive _ _ DC). * auto_derive; [exact Logic.I|ring].
      + replace (- c (- d - u)) with (-1 * c (- d - u)) by ring. apply (is_derive_comp C (fun u => - d - u)).
        * apply (dens_derive _ _ DC). * auto_derive; [exact Logic.I|ring].
    - replace (- d - u) with (- (d + u)) by ring. unfold c. rewrite cauchy0_even. ring.
  Qed.
  Lemma cauchy_cdf_odd x : C (- x) = 1 - C x.
  Proof. unfold C, cauchy_cdf. replace ((- x - 0) / g) with (- ((x - 0) / g)) by (field; lra). rewrite atan_opp. field. apply PI_neq0. Qed.
  Lemma window_even u : window (- u) = window u.
  Proof.
    unfold window. replace (- d - - u) with (- (d - u)) by ring. replace (d - - u) with (- (- d - u)) by ring.
    fold C. rewrite !cauchy_cdf_odd. ring.
  Qed.
  Lemma window_decr a b : 0 <= a < b -> window b < window a.
  Proof.
    intros H. destruct (MVT_gen window a b (fun u => c (d + u) - c (d - u))) as [z [Hz E]].
    - intros; apply window_derive.
    - intros; apply continuity_pt_filterlim. eapply is_derive_cont, window_derive.
    - destruct (MVT_cor2 window (fun u => c (d + u) - c (d - u)) a b) as (z' & E' & Hz').
      + lra.
      + intros u _. apply is_derive_Reals, window_derive.
      + assert (c (d + z') < c (d - z')).
        { apply (even_lt c); [apply cauchy0_even|intros; now apply cauchy0_decr|lra|lra]. }
        nra.
  Qed.
  Lemma window_cont u : continuous window u.
  Proof. eapply is_derive_cont, window_derive. Qed.

  (** Content of the symmetric interval. *)
  Lemma profile_content s : 0 < s -> exists l, is_RInt (fun x => voigt_profile x s g) (- d) d l /\
    integral_over_axis (fun t => gauss0 t * window (s * t)) l.
  Proof.
    intros Hs. pose proof (norm_density 0 s Hs) as DN.
    assert (B : forall x, c x <= c 0) by (intros x; apply even_max; [apply cauchy0_even|intros; now apply cauchy0_decr]).
    assert (L : forall x y, Rabs (c x - c y) <= / (PI * g ^ 2) * Rabs (x - y)) by (intros; now apply cauchy_lip).
    pose proof (conv_density c C (norm_pdf 0 s) (norm_cdf 0 s) _ _ DC DN B L) as DV.
    assert (E : forall x, V c (norm_pdf 0 s) x = voigt_profile x s g).
    { intros x. apply (axis_unique (fun t => c (x - t) * norm_pdf 0 s t)).
      - apply (V_is c C (norm_pdf 0 s) (norm_cdf 0 s) _ DC DN B).
      - pose proof (axis_flip _ x _ (profile_axis s g Hs Hg x)) as F. cbn beta in F. refine (axis_ext _ _ _ _ F).
        intros t. cbn beta. replace (x - t - x) with (- t) by ring. rewrite norm0_even. apply Rmult_comm. }
    exists (W C (norm_pdf 0 s) d - W C (norm_pdf 0 s) (- d)). split.
    - apply (is_RInt_ext (V c (norm_pdf 0 s))); [intros; apply E|]. apply (dens_is_RInt _ _ DV).
    - apply gauss_scale; [exact Hs|].
      pose proof (axis_minus _ _ _ _ (W_is c C (norm_pdf 0 s) (norm_cdf 0 s) DC DN d) (W_is c C (norm_pdf 0 s) (norm_cdf 0 s) DC DN (- d))) as I.
      refine (axis_ext _ _ _ _ I). intros t. cbn beta. unfold window. fold C. ring.
  Qed.
  Lemma cauchy_content s : s = 0 -> exists l, is_RInt c (- d) d l /\ integral_over_axis (fun t => gauss0 t * window (s * t)) l.
  Proof.
    intros ->. exists (window 0). split.
    - unfold window. rewrite !Rminus_0_r. apply (dens_is_RInt _ _ DC).
    - refine (axis_ext _ _ _ _ (gauss_axis (window 0))). intros t. cbn beta. now rewrite Rmult_0_l.
  Qed.
End Window.

(** The profile with a width of the distribution of speeds [s] which may be 0. *)
Lemma profile_cold g x : 0 < g -> voigt_profile x 0 g = cauchy_pdf 0 g x.
Proof. intros Hg. unfold voigt_profile. destruct (Req_EM_T 0 0); [reflexivity|contradiction]. Qed.
Lemma profile_peak s g : 0 <= s -> 0 < g -> integral_over_axis (fun t => gauss0 t * cauchy_pdf 0 g (s * t)) (voigt_profile 0 s g).
Proof.
  intros [Hs| <-] Hg.
  - apply (gauss_scale (cauchy_pdf 0 g)); [exact Hs|]. pose proof (profile_axis s g Hs Hg 0) as H.
    refine (axis_ext _ _ _ _ H). intros t. cbn beta. now rewrite Rminus_0_r.
  - rewrite profile_cold by assumption. refine (axis_ext _ _ _ _ (gauss_axis (cauchy_pdf 0 g 0))). intros t. cbn beta. now rewrite Rmult_0_l.
Qed.
Lemma profile_peak_decr s1 s2 g : 0 < g -> 0 <= s1 < s2 -> voigt_profile 0 s2 g < voigt_profile 0 s1 g.
Proof.
  intros Hg Hs. apply (average_decr (cauchy_pdf 0 g) s1 s2).
  - apply cauchy0_even. - intros; now apply cauchy0_decr. - intros; apply (dens_cont _ _ (cauchy_density 0 g Hg)).
  - exact Hs. - apply profile_peak; lra. - apply profile_peak; lra.
Qed.
Lemma profile_content_decr s1 s2 g d : 0 < g -> 0 < d -> 0 <= s1 < s2 -> exists l1 l2,
  is_RInt (fun x => voigt_profile x s1 g) (- d) d l1 /\ is_RInt (fun x => voigt_profile x s2 g) (- d) d l2 /\ 0 < l2 < l1.
Proof.
  intros Hg Hd Hs. destruct (profile_content g d Hg s2 ltac:(lra)) as (l2 & I2 & A2).
  assert (Q : exists l1, is_RInt (fun x => voigt_profile x s1 g) (- d) d l1 /\ integral_over_axis (fun t => gauss0 t * window g d (s1 * t)) l1).
  { destruct (Req_dec s1 0) as [->|N].
    - destruct (cauchy_content g d Hg 0 eq_refl) as (l & I & A). exists l. split; [|exact A].
      apply (is_RInt_ext (cauchy_pdf 0 g)); [|exact I]. intros; symmetry; now apply profile_cold.
    - apply profile_content; [exact Hg|lra]. }
  destruct Q as (l1 & I1 & A1). exists l1, l2. split; [exact I1|]. split; [exact I2|]. split.
  - pose proof (profile_density s2 g ltac:(lra) Hg) as D. rewrite <- (RInt_val _ _ _ _ I2), (dens_RInt _ _ D).
    pose proof (dens_incr _ _ D (- d) d ltac:(lra)). lra.
  - apply (average_decr (window g d) s1 s2); try assumption.
    + intros; now apply window_even. + intros; now apply window_decr. + intros; now apply window_cont.
Qed.
