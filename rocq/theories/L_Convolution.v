(** The convolution of two densities is a density; the Voigt profile. *)
From Coq Require Import Reals List Lra Lia.
From Coquelicot Require Import Coquelicot.
From Verif Require Import Py Spec M_Num M_Dist S_Resonance L_RInt L_Gauss L_Dist L_Axis.
Open Scope R_scope.

Definition axis_int (f : R -> R) : R := RInt_gen f (Rbar_locally m_infty) (Rbar_locally p_infty).

Lemma quadratic_deriv (W : R -> R) x v L : (forall h, Rabs (W (x + h) - W x - h * v) <= L * h ^ 2) ->
  is_derive W x v.
Proof.
  intros H. apply is_derive_Reals. intros eps He.
  assert (HL : 0 <= L). { specialize (H 1). pose proof (Rabs_pos (W (x + 1) - W x - 1 * v)). lra. }
  assert (Hd : 0 < eps / (L + 1)) by (apply Rdiv_lt_0_compat; lra).
  exists (mkposreal _ Hd). intros h Nh Hh. cbn in Hh.
  replace ((W (x + h) - W x) / h - v) with ((W (x + h) - W x - h * v) / h) by (field; exact Nh).
  unfold Rdiv. rewrite Rabs_mult, Rabs_inv. pose proof (Rabs_pos_lt h Nh) as P.
  apply Rle_lt_trans with (L * Rabs h).
  - replace (L * Rabs h) with (L * h ^ 2 * / Rabs h).
    + apply Rmult_le_compat_r; [left; now apply Rinv_0_lt_compat|apply H].
    + replace (h ^ 2) with (Rabs h * Rabs h) by (rewrite <- Rabs_mult, Rabs_pos_eq; [ring|apply Rle_0_sqr]). field. lra.
  - apply Rle_lt_trans with ((L + 1) * Rabs h); [nra|].
    replace eps with ((L + 1) * (eps / (L + 1))) by (field; lra). apply Rmult_lt_compat_l; lra.
Qed.

Section Conv.
  Variables f F g G : R -> R.
  Variables M L : R.
  Hypothesis DF : density_of f F.
  Hypothesis DG : density_of g G.
  Hypothesis HM : forall x, f x <= M.
  Hypothesis HL : forall x y, Rabs (f x - f y) <= L * Rabs (x - y).

  Lemma conv_ex h B x : (forall u, continuous h u) -> (forall u, 0 <= h u) -> (forall u, h u <= B) ->
    exists l, integral_over_axis (fun t => h (x - t) * g t) l.
  Proof.
    intros C N U. 
    assert (Ch : forall t, continuous (fun t => h (x - t) * g t) t).
    { intros t. apply (continuous_mult (K := R_AbsRing) (fun t => h (x - t)) g); [|apply (dens_cont g G DG)].
      apply (continuous_comp (fun t => x - t) h); [|apply C].
      apply (is_derive_cont (fun t => x - t) t (-1)). auto_derive; [exact Logic.I|ring]. }
    assert (B0 : 0 <= B) by (specialize (N 0); specialize (U 0); lra).
    apply (axis_ex _ B).
    - exact Ch.
    - intros t. pose proof (N (x - t)). pose proof (dens_pos g G DG t). nra.
    - intros a b Hab. apply Rle_trans with (RInt (fun t => B * g t) a b).
      + apply RInt_le; [exact Hab|now apply ex_RInt_cont| |].
        * apply (ex_RInt_scal (V := R_NormedModule)). eexists. apply (dens_is_RInt g G DG).
        * intros t _. pose proof (U (x - t)). pose proof (dens_pos g G DG t). nra.
      + rewrite RInt_scal_R by (eexists; apply (dens_is_RInt g G DG)).
        rewrite (dens_RInt g G DG). pose proof (dens_range g G DG a). pose proof (dens_range g G DG b). nra.
  Qed.

  Definition V (x : R) : R := axis_int (fun t => f (x - t) * g t).
  Definition W (x : R) : R := axis_int (fun t => F (x - t) * g t).

  Lemma V_is x : integral_over_axis (fun t => f (x - t) * g t) (V x).
  Proof.
    destruct (conv_ex f M x) as [l H].
    - apply (dens_cont f F DF).
    - intros; left; apply (dens_pos f F DF).
    - exact HM.
    - unfold V, axis_int. now rewrite (axis_RInt_gen_val _ _ H).
  Qed.
  Lemma W_is x : integral_over_axis (fun t => F (x - t) * g t) (W x).
  Proof.
    destruct (conv_ex F 1 x) as [l H].
    - intros u. eapply is_derive_cont, (dens_derive f F DF).
    - intros; apply (dens_ge_0 f F DF).
    - intros; apply (dens_le_1 f F DF).
    - unfold W, axis_int. now rewrite (axis_RInt_gen_val _ _ H).
  Qed.
  Lemma G_axis c : integral_over_axis (fun t => c * g t) c.
  Proof. pose proof (axis_mult g c 1 (dens_axis g G DG)) as H. now rewrite Rmult_1_r in H. Qed.

  Lemma V_lip x y : Rabs (V x - V y) <= L * Rabs (x - y).
  Proof.
    assert (H : forall x y, V x - V y <= L * Rabs (x - y)).
    { clear x y. intros x y.
      apply (axis_le (fun t => f (x - t) * g t - f (y - t) * g t) (fun t => L * Rabs (x - y) * g t)).
      - intros t. pose proof (HL (x - t) (y - t)) as H. replace (x - t - (y - t)) with (x - y) in H by ring.
        apply Rabs_le_between in H. pose proof (dens_pos g G DG t). nra.
      - apply axis_minus; apply V_is.
      - apply G_axis. }
    apply Rabs_le. pose proof (H x y) as A. pose proof (H y x) as B. rewrite (Rabs_minus_sym y x) in B. lra.
  Qed.
  Lemma V_cont x : continuous V x.
  Proof.
    apply continuity_pt_filterlim. intros eps He.
    assert (L0 : 0 <= L). { pose proof (HL 1 0) as H. rewrite Rminus_0_r, Rabs_R1 in H. pose proof (Rabs_pos (f 1 - f 0)). lra. }
    exists (eps / (L + 1)). split; [apply Rdiv_lt_0_compat; lra|].
    intros y [_ Hy]. cbn in Hy |- *. unfold R_dist in *. apply Rle_lt_trans with (1 := V_lip y x).
    apply Rle_lt_trans with ((L + 1) * Rabs (y - x)); [pose proof (Rabs_pos (y - x)); nra|].
    replace eps with ((L + 1) * (eps / (L + 1))) by (field; lra). apply Rmult_lt_compat_l; lra.
  Qed.

  Lemma F_quad u h : Rabs (F (u + h) - F u - h * f u) <= L * h ^ 2.
  Proof.
    destruct (MVT_gen F u (u + h) f) as [c [Hc E]].
    - intros; apply (dens_derive f F DF).
    - intros; apply (dens_Fcont f F DF).
    - rewrite E. replace (f c * (u + h - u) - h * f u) with (h * (f c - f u)) by ring.
      rewrite Rabs_mult.
      assert (Rabs (c - u) <= Rabs h).
      { unfold Rmin, Rmax in Hc. destruct (Rle_dec u (u + h)); apply Rabs_le; [rewrite Rabs_pos_eq by lra|rewrite Rabs_left by lra]; lra. }
      pose proof (HL c u) as H1. pose proof (Rabs_pos h).
      assert (L0 : 0 <= L). { pose proof (HL 1 0) as H2. rewrite Rminus_0_r, Rabs_R1 in H2. pose proof (Rabs_pos (f 1 - f 0)). lra. }
      replace (h ^ 2) with (Rabs h * Rabs h) by (rewrite <- Rabs_mult, Rabs_pos_eq; [ring|apply Rle_0_sqr]).
      assert (Rabs (f c - f u) <= L * Rabs h) by nra. nra.
  Qed.
  Lemma W_derive x : is_derive W x (V x).
  Proof.
    apply (quadratic_deriv W x (V x) L). intros h.
    assert (I : integral_over_axis (fun t => F (x + h - t) * g t - F (x - t) * g t - h * (f (x - t) * g t)) (W (x + h) - W x - h * V x)).
    { apply axis_minus; [apply axis_minus; apply W_is|apply axis_mult, V_is]. }
    assert (B : forall t, - (L * h ^ 2) * g t <= F (x + h - t) * g t - F (x - t) * g t - h * (f (x - t) * g t) <= L * h ^ 2 * g t).
    { intros t. pose proof (F_quad (x - t) h) as H. replace (x - t + h) with (x + h - t) in H by ring.
      apply Rabs_le_between in H. pose proof (dens_pos g G DG t). nra. }
    apply Rabs_le. split.
    - apply (axis_le _ _ _ _ (fun t => proj1 (B t)) (G_axis _) I).
    - apply (axis_le _ _ _ _ (fun t => proj2 (B t)) I (G_axis _)).
  Qed.
  Lemma fg_cont x t : continuous (fun t => f (x - t) * g t) t.
  Proof.
    apply (continuous_mult (K := R_AbsRing) (fun t => f (x - t)) g); [|apply (dens_cont g G DG)].
    apply (continuous_comp (fun t => x - t) f); [|apply (dens_cont f F DF)].
    apply (is_derive_cont (fun t => x - t) t (-1)). auto_derive; [exact Logic.I|ring].
  Qed.
  Lemma V_pos x : 0 < V x.
  Proof.
    assert (P : forall t, 0 < f (x - t) * g t).
    { intros t. apply Rmult_lt_0_compat; [apply (dens_pos f F DF)|apply (dens_pos g G DG)]. }
    apply Rlt_le_trans with (RInt (fun t => f (x - t) * g t) 0 1).
    - apply RInt_gt_0; [lra|auto|]. intros; apply fg_cont.
    - apply axis_part; [intros; left; apply P|apply V_is|lra].
  Qed.
  Lemma W_bounds x : 0 <= W x <= 1.
  Proof.
    split.
    - replace 0 with (0 * 1) by ring. apply (axis_le (fun t => 0 * g t) (fun t => F (x - t) * g t)); [|apply axis_mult, (dens_axis g G DG)|apply W_is].
      intros t. pose proof (dens_ge_0 f F DF (x - t)). pose proof (dens_pos g G DG t). nra.
    - apply (axis_le (fun t => F (x - t) * g t) (fun t => 1 * g t)); [|apply W_is|apply G_axis].
      intros t. pose proof (dens_le_1 f F DF (x - t)). pose proof (dens_pos g G DG t). nra.
  Qed.

  (** [h >= c] on [-B, B], [h >= 0]: the integral of [h g] is at least [c (G B - G (-B))]. *)
  Lemma lower h l c B : 0 <= B -> (forall t, 0 <= h t) -> integral_over_axis (fun t => h t * g t) l ->
    (forall t, - B < t < B -> c <= h t) -> c * (G B - G (- B)) <= l.
  Proof.
    intros HB Hp I Hc. apply Rle_trans with (RInt (fun t => h t * g t) (- B) B).
    - rewrite <- (dens_RInt g G DG), <- RInt_scal_R by (eexists; apply (dens_is_RInt g G DG)).
      apply RInt_le; [lra| |apply I|].
      + apply (ex_RInt_scal (V := R_NormedModule)). eexists; apply (dens_is_RInt g G DG).
      + intros t Ht. pose proof (Hc t Ht). pose proof (dens_pos g G DG t). nra.
    - apply axis_part; [|exact I|lra]. intros t. pose proof (Hp t). pose proof (dens_pos g G DG t). nra.
  Qed.
  Lemma dens_near p P e : density_of p P -> 0 < e -> exists A, 0 <= A /\ forall x, A <= x -> 1 - e < P x /\ P (- x) < e.
  Proof.
    intros D He. pose proof D as (_ & _ & _ & L0 & L1).
    apply is_lim_spec in L0. apply is_lim_spec in L1.
    destruct (L0 (mkposreal e He)) as [a Ha]. destruct (L1 (mkposreal e He)) as [b Hb].
    exists (Rmax 0 (Rmax (1 - a) (b + 1))). split; [apply Rmax_l|]. intros x Hx.
    pose proof (Rmax_r 0 (Rmax (1 - a) (b + 1))). pose proof (Rmax_l (1 - a) (b + 1)). pose proof (Rmax_r (1 - a) (b + 1)).
    specialize (Ha (- x) ltac:(lra)). specialize (Hb x ltac:(lra)). cbn in Ha, Hb.
    apply Rabs_def2 in Ha. apply Rabs_def2 in Hb. lra.
  Qed.

  Lemma W_lim1 : is_lim W p_infty 1.
  Proof.
    apply is_lim_spec. intros eps. pose proof (cond_pos eps) as He.
    set (e := Rmin (1 / 2) (eps / 4)).
    assert (E : 0 < e <= 1 / 2 /\ e <= eps / 4).
    { unfold e, Rmin. destruct (Rle_dec (1 / 2) (eps / 4)); lra. }
    destruct (dens_near f F e DF) as (A & A0 & HA); [lra|]. destruct (dens_near g G e DG) as (B & B0 & HB); [lra|].
    exists (A + B). intros x Hx. pose proof (W_bounds x).
    destruct (HB B ltac:(lra)) as [H1 H2].
    assert ((1 - e) * (G B - G (- B)) <= W x).
    { apply (lower (fun t => F (x - t))); [exact B0|intros; apply (dens_ge_0 f F DF)|apply W_is|].
      intros t Ht. destruct (HA (x - t)); lra. }
    apply Rabs_def1; [lra|].
    assert ((1 - e) * (1 - 2 * e) <= (1 - e) * (G B - G (- B))) by (apply Rmult_le_compat_l; lra).
    nra.
  Qed.
  Lemma W_lim0 : is_lim W m_infty 0.
  Proof.
    apply is_lim_spec. intros eps. pose proof (cond_pos eps) as He.
    set (e := Rmin (1 / 2) (eps / 4)).
    assert (E : 0 < e <= 1 / 2 /\ e <= eps / 4).
    { unfold e, Rmin. destruct (Rle_dec (1 / 2) (eps / 4)); lra. }
    destruct (dens_near f F e DF) as (A & A0 & HA); [lra|]. destruct (dens_near g G e DG) as (B & B0 & HB); [lra|].
    exists (- (A + B)). intros x Hx. pose proof (W_bounds x).
    destruct (HB B ltac:(lra)) as [H1 H2].
    assert ((1 - e) * (G B - G (- B)) <= 1 - W x).
    { apply (lower (fun t => 1 - F (x - t))); [exact B0|intros u; pose proof (dens_le_1 f F DF (x - u)); lra| |].
      - apply (axis_ext (fun t => 1 * g t - F (x - t) * g t)); [intros; ring|]. apply axis_minus; [apply G_axis|apply W_is].
      - intros t Ht. destruct (HA (- (x - t))) as [_ H3]; [lra|]. rewrite Ropp_involutive in H3. lra. }
    apply Rabs_def1; [|lra].
    assert ((1 - e) * (1 - 2 * e) <= (1 - e) * (G B - G (- B))) by (apply Rmult_le_compat_l; lra).
    nra.
  Qed.

  Lemma conv_density : density_of V W.
  Proof. split; [apply V_cont|split; [apply V_pos|split; [apply W_derive|split; [apply W_lim0|apply W_lim1]]]]. Qed.

  Lemma V_le x : V x <= M.
  Proof.
    apply (axis_le (fun t => f (x - t) * g t) (fun t => M * g t)); [|apply V_is|apply G_axis].
    intros t. pose proof (HM (x - t)). pose proof (dens_pos g G DG t). nra.
  Qed.
  Lemma V_even : (forall u, f (- u) = f u) -> (forall u, g (- u) = g u) -> forall x, V (- x) = V x.
  Proof.
    intros Ef Eg x. apply (axis_unique (fun t => f (- x - t) * g t)); [apply V_is|].
    pose proof (axis_reflect _ _ (V_is x)) as H. cbn beta in H.
    refine (axis_ext _ _ _ _ H). intros t. cbn beta. rewrite Eg. f_equal. rewrite <- Ef. f_equal. ring.
  Qed.
End Conv.

(** ** The normal distribution is bounded and Lipschitz continuous *)
Lemma gauss0_bounds t : 0 < gauss0 t <= 1.
Proof.
  unfold gauss0. assert (S : 1 <= sqrt (2 * PI)).
  { rewrite <- sqrt_1. apply sqrt_le_1_alt. pose proof PI2_3_2. lra. }
  assert (E : 0 < exp (- t ^ 2 / 2) <= 1).
  { split; [apply exp_pos|]. rewrite <- exp_0. pose proof (pow2_ge_0 t).
    destruct (Req_dec (t ^ 2) 0) as [->|]; [right; f_equal; lra|left; apply exp_increasing; lra]. }
  split; [apply Rdiv_lt_0_compat; lra|]. apply Rmult_le_reg_r with (sqrt (2 * PI)); [lra|].
  unfold Rdiv. rewrite Rmult_assoc, Rinv_l by lra. lra.
Qed.
Lemma gauss0_lip x y : Rabs (gauss0 x - gauss0 y) <= 1 * Rabs (x - y).
Proof.
  destruct (MVT_gen gauss0 y x (fun t => - t * gauss0 t)) as [c [_ E]].
  - intros t _. unfold gauss0. auto_derive; [exact Logic.I|]. field_simplify; [|apply Rgt_not_eq, sqrt_lt_R0; pose proof PI_RGT_0; lra|apply Rgt_not_eq, sqrt_lt_R0; pose proof PI_RGT_0; lra].
    replace (- (t * (t * 1)) * / 2) with (- t ^ 2 / 2) by field. field. apply Rgt_not_eq, sqrt_lt_R0. pose proof PI_RGT_0. lra.
  - intros t _. apply continuity_pt_filterlim, gauss0_cont.
  - rewrite E, Rabs_mult. apply Rmult_le_compat_r; [apply Rabs_pos|].
    unfold gauss0. assert (S : 1 <= sqrt (2 * PI)).
    { rewrite <- sqrt_1. apply sqrt_le_1_alt. pose proof PI2_3_2. lra. }
    assert (H : Rabs (- c) * exp (- c ^ 2 / 2) <= 1).
    { rewrite Rabs_Ropp. replace (- c ^ 2 / 2) with (- (c ^ 2 / 2)) by field. rewrite exp_Ropp.
      pose proof (exp_ineq1_le (c ^ 2 / 2)). pose proof (exp_pos (c ^ 2 / 2)).
      apply Rmult_le_reg_r with (exp (c ^ 2 / 2)); [assumption|]. rewrite Rmult_assoc, Rinv_l by lra.
      pose proof (pow2_abs c). pose proof (pow2_ge_0 (Rabs c - 1)). nra. }
    rewrite Rabs_mult, (Rabs_pos_eq (exp _ / _)).
    + apply Rmult_le_reg_r with (sqrt (2 * PI)); [lra|]. unfold Rdiv.
      rewrite <- Rmult_assoc, Rmult_assoc, Rinv_l by lra. lra.
    + left. apply Rdiv_lt_0_compat; [apply exp_pos|lra].
Qed.
Lemma norm_le s x : 0 < s -> norm_pdf 0 s x <= / s.
Proof.
  intros. unfold norm_pdf. pose proof (gauss0_bounds ((x - 0) / s)). assert (0 < / s) by now apply Rinv_0_lt_compat.
  unfold Rdiv at 1. nra.
Qed.
Lemma norm_lip s x y : 0 < s -> Rabs (norm_pdf 0 s x - norm_pdf 0 s y) <= / s ^ 2 * Rabs (x - y).
Proof.
  intros. unfold norm_pdf. replace (gauss0 ((x - 0) / s) / s - gauss0 ((y - 0) / s) / s) with ((gauss0 ((x - 0) / s) - gauss0 ((y - 0) / s)) * / s) by (field; lra).
  rewrite Rabs_mult, (Rabs_pos_eq (/ s)) by (left; now apply Rinv_0_lt_compat).
  pose proof (gauss0_lip ((x - 0) / s) ((y - 0) / s)) as H1.
  replace ((x - 0) / s - (y - 0) / s) with ((x - y) * / s) in H1 by (field; lra).
  rewrite Rabs_mult, (Rabs_pos_eq (/ s)), Rmult_1_l in H1 by (left; now apply Rinv_0_lt_compat).
  assert (0 < / s) by now apply Rinv_0_lt_compat.
  replace (/ s ^ 2) with (/ s * / s) by (field; lra). nra.
Qed.
