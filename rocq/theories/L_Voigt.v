(** The Voigt profile: convolution, normalisation, monotonicity, limiting cases. *)
From Coq Require Import Reals List Lra Lia.
From Coquelicot Require Import Coquelicot.
From Verif Require Import Py Spec M_Num M_Dist M_PseudoVoigt S_Resonance S_Voigt L_RInt L_Gauss L_Dist L_Axis L_Convolution.
Open Scope R_scope.

Lemma axis_flip f x l : integral_over_axis f l -> integral_over_axis (fun t => f (x - t)) l.
Proof.
  intros H. pose proof (axis_shift _ (- x) _ (axis_reflect _ _ H)) as H1. cbn beta in H1.
  refine (axis_ext _ _ _ _ H1). intros t. cbn beta. f_equal. ring.
Qed.
Lemma axis_zero f l l' : integral_over_axis f l -> l = l' -> integral_over_axis f l'.
Proof. now intros H <-. Qed.

(** ** Unimodality *)
Section Unimodal.
  Variables f F g G : R -> R.
  Variables M L : R.
  Hypothesis DF : density_of f F.
  Hypothesis DG : density_of g G.
  Hypothesis HM : forall x, f x <= M.
  Hypothesis HL : forall x y, Rabs (f x - f y) <= L * Rabs (x - y).
  Hypothesis Ef : forall u, f (- u) = f u.
  Hypothesis Eg : forall u, g (- u) = g u.
  Hypothesis If : forall a b, 0 <= a < b -> f b < f a.
  Hypothesis Ig : forall a b, 0 <= a < b -> g b < g a.

  Lemma even_abs (p : R -> R) (E : forall u, p (- u) = p u) u : p (Rabs u) = p u.
  Proof. unfold Rabs. destruct (Rcase_abs u); [apply E|reflexivity]. Qed.
  Lemma even_lt (p : R -> R) (E : forall u, p (- u) = p u) (I : forall a b, 0 <= a < b -> p b < p a) d s : 0 < d -> 0 < s -> p (d + s) < p (d - s).
  Proof.
    intros Hd Hs. rewrite <- (even_abs p E (d - s)). apply I. split; [apply Rabs_pos|].
    apply Rabs_def1; lra.
  Qed.

  Local Notation V := (V f g).
  Lemma V_decr x y : 0 <= x -> x < y -> V y < V x.
  Proof.
    intros Hx Hy. set (m := (x + y) / 2). set (d := (y - x) / 2).
    assert (Hm : 0 < m) by (unfold m; lra). assert (Hd : 0 < d) by (unfold d; lra).
    set (h := fun s => (f (d + s) - f (d - s)) * g (m + s)).
    assert (I1 : integral_over_axis h (V x - V y)).
    { pose proof (axis_minus _ _ _ _ (V_is f F g G M DF DG HM x) (V_is f F g G M DF DG HM y)) as H.
      pose proof (axis_shift _ m _ H) as H1. cbn beta in H1. refine (axis_ext _ _ _ _ H1).
      intros s. cbn beta. unfold h. rewrite (Rplus_comm s m).
      replace (x - (m + s)) with (- (d + s)) by (unfold m, d; field). replace (y - (m + s)) with (d - s) by (unfold m, d; field).
      rewrite Ef. ring. }
    pose proof (axis_reflect _ _ I1) as I2.
    pose proof (axis_plus _ _ _ _ I1 I2) as I3. cbn beta in I3.
    set (q := fun s => h s + h (- s)) in I3.
    assert (Q : forall s, q s = (f (d - s) - f (d + s)) * (g (m - s) - g (m + s))).
    { intros s. unfold q, h. replace (d + - s) with (d - s) by ring. replace (d - - s) with (d + s) by ring.
      replace (m + - s) with (m - s) by ring. ring. }
    assert (P : forall s, 0 < s -> 0 < q s).
    { intros s Hs. rewrite Q. pose proof (even_lt f Ef If d s Hd Hs). pose proof (even_lt g Eg Ig m s Hm Hs). nra. }
    assert (N : forall s, 0 <= q s).
    { intros s. destruct (Rtotal_order s 0) as [H|[->|H]].
      - left. pose proof (P (- s) ltac:(lra)) as H1. rewrite Q in H1 |- *.
        replace (d - - s) with (d + s) in H1 by ring. replace (d + - s) with (d - s) in H1 by ring.
        replace (m - - s) with (m + s) in H1 by ring. replace (m + - s) with (m - s) in H1 by ring. nra.
      - rewrite Q. rewrite !Rminus_0_r, !Rplus_0_r. lra.
      - left; auto. }
    assert (C : forall s, continuous q s).
    { intros s. unfold q, h.
      assert (Cf : forall u v, continuous (fun s => f (u + v * s)) s).
      { intros u v. apply (continuous_comp (fun s => u + v * s) f); [|apply (dens_cont f F DF)].
        apply (is_derive_cont (fun s => u + v * s) s v). auto_derive; [exact Logic.I|ring]. }
      assert (Cg : forall u v, continuous (fun s => g (u + v * s)) s).
      { intros u v. apply (continuous_comp (fun s => u + v * s) g); [|apply (dens_cont g G DG)].
        apply (is_derive_cont (fun s => u + v * s) s v). auto_derive; [exact Logic.I|ring]. }
      assert (Ch : forall v, continuous (fun s => (f (d + v * s) - f (d + - v * s)) * g (m + v * s)) s).
      { intros v. apply (continuous_mult (K := R_AbsRing) (fun s => f (d + v * s) - f (d + - v * s)) (fun s => g (m + v * s))); [|apply Cg].
        apply (continuous_minus (V := R_NormedModule) (fun s => f (d + v * s)) (fun s => f (d + - v * s))); apply Cf. }
      apply (continuous_ext (fun s => (f (d + 1 * s) - f (d + - (1) * s)) * g (m + 1 * s) + (f (d + - (1) * s) - f (d + - - (1) * s)) * g (m + - (1) * s))).
      - intros t. replace (d + 1 * t) with (d + t) by ring. replace (d + - (1) * t) with (d - t) by ring.
        replace (d + - - (1) * t) with (d - - t) by ring. replace (m + 1 * t) with (m + t) by ring. replace (m + - (1) * t) with (m + - t) by ring.
        replace (d + - t) with (d - t) by ring. reflexivity.
      - apply (continuous_plus (V := R_NormedModule) (fun s => (f (d + 1 * s) - f (d + - (1) * s)) * g (m + 1 * s)) (fun s => (f (d + - (1) * s) - f (d + - - (1) * s)) * g (m + - (1) * s))); apply Ch. }
    assert (0 < RInt q 1 2).
    { apply RInt_gt_0; [lra|intros; apply P; lra|intros; apply C]. }
    pose proof (axis_part q _ 1 2 N I3 ltac:(lra)) as H1. change (RInt q 1 2) with (RInt q 1 2) in H1. lra.
  Qed.
End Unimodal.

(** ** Second moment of the normal distribution *)
Lemma gauss0_derive t : is_derive gauss0 t (- t * gauss0 t).
Proof.
  unfold gauss0. auto_derive; [exact Logic.I|].
  replace (- (t * (t * 1)) * / 2) with (- t ^ 2 / 2) by field. field. apply Rgt_not_eq, sqrt_lt_R0. pose proof PI_RGT_0. lra.
Qed.
Lemma t_gauss0_lim : is_lim (fun t => t * gauss0 t) p_infty 0.
Proof.
  apply (is_lim_le_le_loc (fun _ => 0) (fun t => 2 * / t)).
  - exists 1. intros t Ht. pose proof (gauss0_bounds t). split; [nra|].
    unfold gauss0. replace (- t ^ 2 / 2) with (- (t ^ 2 / 2)) by field. rewrite exp_Ropp.
    pose proof (exp_ineq1_le (t ^ 2 / 2)). assert (S : 1 <= sqrt (2 * PI)).
    { rewrite <- sqrt_1. apply sqrt_le_1_alt. pose proof PI2_3_2. lra. }
    assert (E : / exp (t ^ 2 / 2) <= 2 / t ^ 2).
    { replace (2 / t ^ 2) with (/ (t ^ 2 / 2)) by (field; lra). apply Rinv_le_contravar; nra. }
    assert (0 < / exp (t ^ 2 / 2)) by apply Rinv_0_lt_compat, exp_pos.
    assert (/ exp (t ^ 2 / 2) / sqrt (2 * PI) <= / exp (t ^ 2 / 2)).
    { apply Rmult_le_reg_r with (sqrt (2 * PI)); [lra|]. unfold Rdiv. rewrite Rmult_assoc, Rinv_l by lra. nra. }
    apply Rle_trans with (t * (2 / t ^ 2)); [apply Rmult_le_compat_l; lra|]. right. field. lra.
  - apply is_lim_const.
  - evar (z : Rbar). replace (Finite 0) with z; subst z.
    + apply (is_lim_scal_l (fun t => / t) 2 p_infty (Rbar_inv p_infty)). apply (is_lim_inv (fun t => t) p_infty p_infty); [apply is_lim_id|discriminate].
    + cbn. f_equal. ring.
Qed.
Lemma gauss0_moment : integral_over_axis (fun t => t ^ 2 * gauss0 t) 1.
Proof.
  pose proof norm0_density as D. set (Phi := fun t => 1 / 2 + RInt gauss0 0 t) in D.
  assert (L : forall x l, is_lim Phi x (Finite l) -> is_lim (fun t => t * gauss0 t) x 0 -> is_lim (fun t => Phi t - t * gauss0 t) x l).
  { intros x l H1 H2. replace (Finite l) with (Finite (l - 0)) by (f_equal; ring). now apply is_lim_minus'. }
  apply (axis_zero _ (1 - 0)); [|ring].
  apply (axis_primitive _ (fun t => Phi t - t * gauss0 t)).
  - intros a b. apply (RInt_deriv (fun t => Phi t - t * gauss0 t)).
    + intros t _. replace (t ^ 2 * gauss0 t) with (gauss0 t - (1 * gauss0 t + t * (- t * gauss0 t))) by ring.
      apply (is_derive_minus (V := R_NormedModule) Phi (fun t => t * gauss0 t)); [apply D|].
      apply (is_derive_mult (K := R_AbsRing) (fun t => t) gauss0 t 1 (- t * gauss0 t)); [apply (is_derive_id (K := R_AbsRing))|apply gauss0_derive|intros; apply Rmult_comm].
    + intros t _. apply (continuous_mult (K := R_AbsRing) (fun t => t ^ 2) gauss0); [|apply gauss0_cont].
      apply (is_derive_cont (fun t => t ^ 2) t (2 * t)). auto_derive; [exact Logic.I|ring].
  - apply L; [apply D|]. replace (Finite 0) with (Finite (- 0)) by (f_equal; ring). apply odd_lim; [|apply t_gauss0_lim].
    intros t. rewrite gauss0_even. ring.
  - apply L; [apply D|apply t_gauss0_lim].
Qed.
Lemma axis_affine f s l : 0 < s -> integral_over_axis f l -> integral_over_axis (fun x => f (x / s) / s) l.
Proof.
  intros Hs [A E]. assert (Hi : 0 < / s) by now apply Rinv_0_lt_compat.
  assert (S : forall a b, is_RInt (fun x => f (x / s) / s) a b (RInt f (a / s) (b / s))).
  { intros a b. apply (is_RInt_ext (fun y => scal (/ s) (f (/ s * y + 0)))).
    - intros x _. change (/ s * f (/ s * x + 0) = f (x / s) / s). replace (/ s * x + 0) with (x / s) by (unfold Rdiv; ring). unfold Rdiv; ring.
    - apply (is_RInt_comp_lin (V := R_NormedModule) f (/ s) 0 a b).
      replace (/ s * a + 0) with (a / s) by (unfold Rdiv; ring). replace (/ s * b + 0) with (b / s) by (unfold Rdiv; ring).
      apply (RInt_correct (V := R_CompleteNormedModule)), E. }
  split; [|intros a b; eexists; apply S].
  apply (filterlim_ext (fun ab => RInt f (fst ab / s) (snd ab / s))); [intros ab; symmetry; apply RInt_val, S|].
  apply (filterlim_comp _ _ _ (fun ab => (fst ab / s, snd ab / s)) (fun ab => RInt f (fst ab) (snd ab)) _
           (filter_prod (Rbar_locally m_infty) (Rbar_locally p_infty))); [|exact A].
  assert (K : forall u v, u < v / s <-> u * s < v) by (intros u v; symmetry; apply Rlt_div_r; exact Hs).
  assert (K' : forall u v, u / s < v <-> u < v * s) by (intros u v; apply Rlt_div_l; exact Hs).
  apply (filterlim_pair (fun ab : R * R => fst ab / s) (fun ab : R * R => snd ab / s)).
  - apply (filterlim_comp _ _ _ (fun ab : R * R => fst ab) (fun x => x / s) _ (Rbar_locally m_infty)); [apply filterlim_fst|]. intros Q [M HM]. exists (M * s). intros x Hx. apply HM. now apply K'.
  - apply (filterlim_comp _ _ _ (fun ab : R * R => snd ab) (fun x => x / s) _ (Rbar_locally p_infty)); [apply filterlim_snd|]. intros Q [M HM]. exists (M * s). intros x Hx. apply HM. now apply K.
Qed.
Lemma norm_moment s : 0 < s -> integral_over_axis (fun u => u ^ 2 * norm_pdf 0 s u) (s ^ 2).
Proof.
  intros Hs. pose proof (axis_mult _ (s ^ 2) _ (axis_affine _ s _ Hs gauss0_moment)) as H. cbn beta in H. rewrite Rmult_1_r in H.
  refine (axis_ext _ _ _ _ H). intros u. cbn beta. unfold norm_pdf. rewrite Rminus_0_r. field. lra.
Qed.

(** ** The profile *)
Lemma norm0_even s u : norm_pdf 0 s (- u) = norm_pdf 0 s u.
Proof. unfold norm_pdf. rewrite !Rminus_0_r, Ropp_div. now rewrite gauss0_even. Qed.
Lemma cauchy0_even g u : cauchy_pdf 0 g (- u) = cauchy_pdf 0 g u.
Proof. unfold cauchy_pdf. rewrite !Rminus_0_r, Ropp_div. do 3 f_equal. ring. Qed.
Lemma norm0_decr s a b : 0 < s -> 0 <= a < b -> norm_pdf 0 s b < norm_pdf 0 s a.
Proof.
  intros Hs H. unfold norm_pdf. rewrite !Rminus_0_r. apply Rmult_lt_compat_r; [now apply Rinv_0_lt_compat|].
  unfold gauss0. apply Rmult_lt_compat_r; [apply Rinv_0_lt_compat, sqrt_lt_R0; pose proof PI_RGT_0; lra|].
  apply exp_increasing. assert (0 < / s) by now apply Rinv_0_lt_compat.
  assert (0 <= a / s < b / s) by (unfold Rdiv; split; [nra|apply Rmult_lt_compat_r; lra]). nra.
Qed.
Lemma cauchy0_decr s a b : 0 < s -> 0 <= a < b -> cauchy_pdf 0 s b < cauchy_pdf 0 s a.
Proof.
  intros Hs H. unfold cauchy_pdf. rewrite !Rminus_0_r. pose proof PI_RGT_0. assert (0 < / s) by now apply Rinv_0_lt_compat.
  assert (0 <= a / s < b / s) by (unfold Rdiv; split; [nra|apply Rmult_lt_compat_r; lra]).
  assert (0 < PI * s) by nra. apply Rinv_lt_contravar.
  - apply Rmult_lt_0_compat; apply Rmult_lt_0_compat; nra.
  - apply Rmult_lt_compat_l; nra.
Qed.

Section Profile.
  Variables s g : R.
  Hypothesis Hs : 0 < s.
  Hypothesis Hg : 0 < g.
  Let n := norm_pdf 0 s.
  Let c := cauchy_pdf 0 g.
  Let DN := norm_density 0 s Hs.
  Let DC := cauchy_density 0 g Hg.

  Lemma profile_V x : voigt_profile x s g = V n c x.
  Proof.
    unfold voigt_profile. destruct (Req_EM_T s 0); [lra|]. destruct (Req_EM_T g 0); [lra|].
    apply axis_RInt_gen_val. refine (axis_ext _ _ _ _ (V_is n (norm_cdf 0 s) c (cauchy_cdf 0 g) (/ s) DN DC (fun x => norm_le s x Hs) x)).
    intros t. cbn beta. unfold n, c. f_equal. rewrite <- norm0_even. f_equal. ring.
  Qed.
  Lemma profile_axis x : integral_over_axis (fun t => norm_pdf 0 s (t - x) * cauchy_pdf 0 g t) (voigt_profile x s g).
  Proof.
    rewrite profile_V. refine (axis_ext _ _ _ _ (V_is n (norm_cdf 0 s) c (cauchy_cdf 0 g) (/ s) DN DC (fun x => norm_le s x Hs) x)).
    intros t. cbn beta. unfold n, c. f_equal. rewrite <- norm0_even. f_equal. ring.
  Qed.
  Lemma profile_density : density_of (fun x => voigt_profile x s g) (W (norm_cdf 0 s) c).
  Proof.
    apply (density_ext (V n c) (W (norm_cdf 0 s) c)); [intros; symmetry; apply profile_V|reflexivity|].
    apply (conv_density n (norm_cdf 0 s) c (cauchy_cdf 0 g) (/ s) (/ s ^ 2) DN DC).
    - intros; now apply norm_le.
    - intros; now apply norm_lip.
  Qed.
  Lemma profile_even x : voigt_profile (- x) s g = voigt_profile x s g.
  Proof.
    rewrite !profile_V. apply (V_even n (norm_cdf 0 s) c (cauchy_cdf 0 g) (/ s) DN DC).
    - intros; now apply norm_le.
    - apply norm0_even.
    - apply cauchy0_even.
  Qed.
  Lemma profile_decr x y : 0 <= x -> x < y -> voigt_profile y s g < voigt_profile x s g.
  Proof.
    rewrite !profile_V. apply (V_decr n (norm_cdf 0 s) c (cauchy_cdf 0 g) (/ s) DN DC).
    - intros; now apply norm_le.
    - apply norm0_even.
    - apply cauchy0_even.
    - intros; now apply norm0_decr.
    - intros; now apply cauchy0_decr.
  Qed.
  Lemma even_max (p : R -> R) x : (forall u, p (- u) = p u) -> (forall a b, 0 <= a < b -> p b < p a) -> p x <= p 0.
  Proof.
    intros E I. rewrite <- (even_abs p E x). destruct (Req_dec x 0) as [->|N]; [rewrite Rabs_R0; lra|].
    left. apply I. split; [lra|now apply Rabs_pos_lt].
  Qed.
  Lemma profile_le_norm x : voigt_profile x s g <= norm_pdf 0 s 0.
  Proof.
    rewrite profile_V. apply (V_le n (norm_cdf 0 s) c (cauchy_cdf 0 g) (norm_pdf 0 s 0) DN DC).
    intros u. apply even_max; [apply norm0_even|intros; now apply norm0_decr].
  Qed.
  Lemma profile_le_cauchy x : voigt_profile x s g <= cauchy_pdf 0 g 0.
  Proof.
    apply (axis_le _ (fun t => cauchy_pdf 0 g 0 * n (x - t)) _ _) with (2 := profile_axis x).
    - intros t. assert (cauchy_pdf 0 g t <= cauchy_pdf 0 g 0) by (apply even_max; [apply cauchy0_even|intros; now apply cauchy0_decr]).
      assert (E : norm_pdf 0 s (t - x) = n (x - t)) by (unfold n; rewrite <- norm0_even; f_equal; ring).
      rewrite E. pose proof (dens_pos _ _ DN (x - t)) as P. fold n in P. nra.
    - apply (axis_zero _ (cauchy_pdf 0 g 0 * 1)); [|ring]. apply (axis_mult (fun t => n (x - t))).
      apply (axis_flip n), (dens_axis _ _ DN).
  Qed.

  (** *** Nearly at rest *)
  Lemma cauchy_lip a b : Rabs (c a - c b) <= / (PI * g ^ 2) * Rabs (a - b).
  Proof.
    pose proof PI_RGT_0.
    destruct (MVT_gen c b a (fun t => - (2 * (t / g)) / (PI * g ^ 2 * (1 + (t / g) ^ 2) ^ 2))) as [z [_ E]].
    - intros t _. unfold c, cauchy_pdf. auto_derive.
      + apply Rgt_not_eq. apply Rmult_lt_0_compat; [nra|]. pose proof (pow2_ge_0 ((t - 0) / g)). unfold Rdiv in *. lra.
      + field. pose proof (pow2_ge_0 t). split; [lra|split; [nra|lra]].
    - intros t _. apply continuity_pt_filterlim. apply (dens_cont _ _ DC).
    - rewrite E, Rabs_mult. apply Rmult_le_compat_r; [apply Rabs_pos|].
      set (u := z / g). assert (Q : 0 < PI * g ^ 2) by (apply Rmult_lt_0_compat; [lra|nra]). pose proof (pow2_ge_0 u).
      assert (0 < (1 + u ^ 2) ^ 2) by nra.
      assert (Bu : Rabs (2 * u) <= (1 + u ^ 2) ^ 2) by (apply Rabs_le; split; nra).
      unfold Rdiv. rewrite Rabs_mult, Rabs_Ropp, Rabs_inv, (Rabs_pos_eq (PI * g ^ 2 * (1 + u ^ 2) ^ 2)) by (apply Rmult_le_pos; lra).
      rewrite Rinv_mult. apply Rmult_le_reg_r with ((1 + u ^ 2) ^ 2); [assumption|].
      rewrite !Rmult_assoc. rewrite Rinv_l by lra. rewrite Rmult_1_r. rewrite (Rmult_comm (Rabs (2 * u))).
      apply Rmult_le_compat_l; [left; now apply Rinv_0_lt_compat|exact Bu].
  Qed.
  Lemma near_cauchy x : Rabs (voigt_profile x s g - cauchy_pdf 0 g x) <= s / (PI * g ^ 2).
  Proof.
    assert (Q : 0 < PI * g ^ 2) by (pose proof PI_RGT_0; apply Rmult_lt_0_compat; [lra|nra]). assert (Qi : 0 < / (PI * g ^ 2)) by now apply Rinv_0_lt_compat.
    assert (I : integral_over_axis (fun t => n (x - t) * (c t - c x)) (voigt_profile x s g - cauchy_pdf 0 g x)).
    { pose proof (axis_minus _ _ _ _ (profile_axis x) (axis_mult _ (c x) _ (axis_flip _ x _ (dens_axis _ _ DN)))) as H.
      cbn beta in H. rewrite Rmult_1_r in H. refine (axis_ext _ _ _ _ H). intros t. cbn beta.
      replace (t - x) with (- (x - t)) by ring. rewrite norm0_even. unfold n, c. ring. }
    assert (J : integral_over_axis (fun t => / (PI * g ^ 2) * ((s / 2) * n (x - t) + / (2 * s) * ((x - t) ^ 2 * n (x - t)))) (s / (PI * g ^ 2))).
    { pose proof (axis_mult _ (/ (PI * g ^ 2)) _ (axis_plus _ _ _ _ (axis_mult _ (s / 2) _ (axis_flip _ x _ (dens_axis _ _ DN)))
        (axis_mult _ (/ (2 * s)) _ (axis_flip _ x _ (norm_moment s Hs))))) as H. cbn beta in H.
      refine (axis_zero _ _ _ H _). field. pose proof PI_RGT_0. lra. }
    assert (B : forall t, Rabs (n (x - t) * (c t - c x)) <= / (PI * g ^ 2) * ((s / 2) * n (x - t) + / (2 * s) * ((x - t) ^ 2 * n (x - t)))).
    { intros t. pose proof (dens_pos _ _ DN (x - t)) as P. change (0 < n (x - t)) in P. rewrite Rabs_mult, (Rabs_pos_eq (n _)) by lra.
      apply Rle_trans with (n (x - t) * (/ (PI * g ^ 2) * Rabs (t - x))); [apply Rmult_le_compat_l; [lra|apply cauchy_lip]|].
      assert (A : Rabs (t - x) <= s / 2 + / (2 * s) * (x - t) ^ 2).
      { rewrite Rabs_minus_sym. pose proof (pow2_ge_0 (Rabs (x - t) - s)) as H. 
        apply Rmult_le_reg_r with (2 * s); [lra|]. replace ((s / 2 + / (2 * s) * (x - t) ^ 2) * (2 * s)) with (s ^ 2 + (x - t) ^ 2) by (field; lra).
        rewrite <- (pow2_abs (x - t)). nra. }
      replace (/ (PI * g ^ 2) * (s / 2 * n (x - t) + / (2 * s) * ((x - t) ^ 2 * n (x - t)))) with (n (x - t) * (/ (PI * g ^ 2) * (s / 2 + / (2 * s) * (x - t) ^ 2))) by ring.
      apply Rmult_le_compat_l; [lra|]. apply Rmult_le_compat_l; [lra|exact A]. }
    apply Rabs_le. split.
    - pose proof (axis_mult _ (-1) _ J) as J'. cbn beta in J'. replace (-1 * (s / (PI * g ^ 2))) with (- (s / (PI * g ^ 2))) in J' by ring.
      refine (axis_le _ _ _ _ _ J' I). intros t. cbn beta. specialize (B t). apply Rabs_le_between in B. lra.
    - refine (axis_le _ _ _ _ _ I J). intros t. specialize (B t). apply Rabs_le_between in B. lra.
  Qed.

  (** *** Nearly without natural width *)
  Lemma cauchy_mass d : 0 < d -> 1 - g / d <= cauchy_cdf 0 g d - cauchy_cdf 0 g (- d).
  Proof.
    intros Hd. unfold cauchy_cdf. rewrite !Rminus_0_r. rewrite Ropp_div, atan_opp.
    pose proof PI_RGT_0. assert (P : 0 < d / g) by now apply Rdiv_lt_0_compat.
    replace (1 / 2 + atan (d / g) / PI - (1 / 2 + - atan (d / g) / PI)) with (2 * atan (d / g) / PI) by (field; lra).
    replace (d / g) with (/ (g / d)) by (field; lra). rewrite atan_inv by now apply Rdiv_lt_0_compat.
    assert (A : atan (g / d) <= g / d).
    { assert (Q : 0 < g / d) by now apply Rdiv_lt_0_compat.
      destruct (MVT_gen atan 0 (g / d) (fun t => / (1 + t ^ 2))) as [z [_ E]].
      - intros t _. auto_derive; [exact Logic.I|]. field. nra.
      - intros t _. apply derivable_continuous_pt, derivable_pt_atan.
      - rewrite atan_0 in E. rewrite !Rminus_0_r in E. rewrite E.
        assert (/ (1 + z ^ 2) <= 1); [|nra]. rewrite <- Rinv_1 at 2. apply Rinv_le_contravar; nra. }
    apply Rmult_le_reg_r with PI; [lra|]. replace (2 * (PI / 2 - atan (g / d)) / PI * PI) with (PI - 2 * atan (g / d)) by (field; lra).
    pose proof PI2_3_2. assert (0 < g / d) by now apply Rdiv_lt_0_compat. nra.
  Qed.
  Lemma near_norm x : Rabs (voigt_profile x s g - norm_pdf 0 s x) <= 2 * sqrt (g / s) / s.
  Proof.
    set (d := sqrt (g * s)).
    assert (Hd : 0 < d) by (apply sqrt_lt_R0; nra).
    assert (Dsq : d * d = g * s) by (apply sqrt_sqrt; nra).
    assert (Hq : sqrt (g / s) = d / s).
    { apply Rsqr_inj; [apply sqrt_pos|left; now apply Rdiv_lt_0_compat|]. rewrite Rsqr_sqrt by (left; now apply Rdiv_lt_0_compat).
      unfold Rsqr. replace (d / s * (d / s)) with (d * d / (s * s)) by (field; lra). rewrite Dsq. field. lra. }
    assert (Hq2 : g / d = d / s). { apply Rmult_eq_reg_r with (d * s); [|nra]. replace (g / d * (d * s)) with (g * s) by (field; lra). replace (d / s * (d * s)) with (d * d) by (field; lra). lra. }
    assert (Hi : 0 < / s) by now apply Rinv_0_lt_compat.
    (* |n(x-t) - n(x)| <= d/s^2 + (1/s) 1_{|t|>d} *)
    pose proof (cauchy_mass d Hd) as Hm. rewrite Hq2 in Hm.
    set (mass := cauchy_cdf 0 g d - cauchy_cdf 0 g (- d)) in *.
    (* bound of an integral split at +-d *)
    assert (K : forall h l, (forall t, continuous h t) -> (forall t, h t <= / s) -> (forall t, - d < t < d -> h t <= d * / s ^ 2) ->
              integral_over_axis (fun t => h t * c t) l -> l <= 2 * (d / s) / s).
    { intros h l Ch H1 H2 I.
      (* 1/s - h >= 0, >= 1/s - d/s^2 on [-d,d] *)
      assert (I' : integral_over_axis (fun t => (/ s - h t) * c t) (/ s - l)).
      { apply (axis_ext (fun t => / s * c t - h t * c t)); [intros; ring|]. apply axis_minus; [|exact I].
        apply (axis_zero _ (/ s * 1)); [|ring]. apply axis_mult, (dens_axis _ _ DC). }
      assert (LB : (/ s - d * / s ^ 2) * mass <= / s - l).
      { apply (lower c (cauchy_cdf 0 g) DC (fun t => / s - h t)); [lra|intros t; specialize (H1 t); lra|exact I'|].
        intros t Ht. specialize (H2 t Ht). lra. }
      assert (M1 : mass <= 1).
      { unfold mass. pose proof (dens_le_1 _ _ DC d). pose proof (dens_ge_0 _ _ DC (- d)). lra. }
      assert (M0 : 0 <= mass).
      { unfold mass. pose proof (dens_incr _ _ DC (- d) d ltac:(lra)). lra. }
      assert (Q : d * / s ^ 2 = d / s * / s) by (field; lra). rewrite Q in LB.
      set (e := d / s) in *. assert (He : 0 < e) by now apply Rdiv_lt_0_compat.
      assert (l <= / s * (1 - (1 - e) * mass)) by nra.
      apply Rle_trans with (1 := H). unfold Rdiv. rewrite (Rmult_comm (2 * e)). apply Rmult_le_compat_l; [lra|].
      destruct (Rle_dec e 1); nra. }
    rewrite Hq.
    assert (I : integral_over_axis (fun t => (n (x - t) - n x) * c t) (voigt_profile x s g - norm_pdf 0 s x)).
    { pose proof (axis_minus _ _ _ _ (profile_axis x) (axis_mult _ (n x) _ (dens_axis _ _ DC))) as H.
      cbn beta in H. rewrite Rmult_1_r in H. refine (axis_ext _ _ _ _ H). intros t. cbn beta.
      replace (t - x) with (- (x - t)) by ring. rewrite norm0_even. unfold n, c. ring. }
    assert (Cn : forall t, continuous (fun t => n (x - t) - n x) t).
    { intros t. apply (continuous_minus (V := R_NormedModule) (fun t => n (x - t)) (fun _ => n x)); [|apply continuous_const].
      apply (continuous_comp (fun t => x - t) n); [|apply (dens_cont _ _ DN)].
      apply (is_derive_cont (fun t => x - t) t (-1)). auto_derive; [exact Logic.I|ring]. }
    assert (B : forall t, Rabs (n (x - t) - n x) <= / s).
    { intros t. pose proof (norm_le s (x - t) Hs). pose proof (norm_le s x Hs). pose proof (dens_pos _ _ DN (x - t)). pose proof (dens_pos _ _ DN x).
      unfold n. apply Rabs_le. lra. }
    assert (B2 : forall t, - d < t < d -> Rabs (n (x - t) - n x) <= d * / s ^ 2).
    { intros t Ht. apply Rle_trans with (1 := norm_lip s (x - t) x Hs). rewrite Rmult_comm. apply Rmult_le_compat_r.
      - left. apply Rinv_0_lt_compat. nra.
      - replace (x - t - x) with (- t) by ring. rewrite Rabs_Ropp. apply Rabs_le. lra. }
    apply Rabs_le. split.
    - assert (H : - (voigt_profile x s g - norm_pdf 0 s x) <= 2 * (d / s) / s); [|lra].
      apply (K (fun t => - (n (x - t) - n x))).
      + intros t. apply (continuous_opp (V := R_NormedModule) (fun t => n (x - t) - n x)), Cn.
      + intros t. specialize (B t). apply Rabs_le_between in B. lra.
      + intros t Ht. specialize (B2 t Ht). apply Rabs_le_between in B2. lra.
      + pose proof (axis_mult _ (-1) _ I) as H. cbn beta in H.
        apply (axis_zero _ (-1 * (voigt_profile x s g - norm_pdf 0 s x))); [|ring]. refine (axis_ext _ _ _ _ H). intros t. cbn beta. ring.
    - apply (K (fun t => n (x - t) - n x)); [exact Cn| | |exact I].
      + intros t. specialize (B t). apply Rabs_le_between in B. lra.
      + intros t Ht. specialize (B2 t Ht). apply Rabs_le_between in B2. lra.
  Qed.
End Profile.
