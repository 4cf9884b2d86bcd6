(** Lemmas on probability distributions. *)
From Coq Require Import Reals List ZArith Lra Lia.
From Coquelicot Require Import Coquelicot.
From Verif Require Import Py Spec M_Num M_Dist S_Resonance L_RInt L_Gauss.
Import ListNotations.
Open Scope R_scope.

Ltac eqR := match goal with |- ?a = ?b => change (@eq R a b) end.

Section Density.
  Variables f F : R -> R.
  Hypothesis D : density_of f F.

  Lemma dens_cont x : continuous f x. Proof. apply D. Qed.
  Lemma dens_pos x : 0 < f x. Proof. apply D. Qed.
  Lemma dens_derive x : is_derive F x (f x). Proof. apply D. Qed.
  Lemma dens_Fcont x : continuity_pt F x.
  Proof. apply continuity_pt_filterlim. eapply is_derive_cont, dens_derive. Qed.

  Lemma dens_is_RInt a b : is_RInt f a b (F b - F a).
  Proof. apply RInt_deriv; intros; [apply dens_derive|apply dens_cont]. Qed.
  Lemma dens_RInt a b : RInt f a b = F b - F a.
  Proof. apply RInt_val, dens_is_RInt. Qed.

  Lemma dens_incr x y : x < y -> F x < F y.
  Proof.
    intros H. destruct (MVT_gen F x y f) as [c [_ E]].
    - intros; apply dens_derive.
    - intros; apply dens_Fcont.
    - pose proof (dens_pos c). nra.
  Qed.
  Lemma dens_le x y : x <= y -> F x <= F y.
  Proof. intros [H| ->]; [left; now apply dens_incr|lra]. Qed.
  Lemma dens_inj x y : F x = F y -> x = y.
  Proof.
    intros E. destruct (Rtotal_order x y) as [H|[H|H]]; [|assumption|]; apply dens_incr in H; lra.
  Qed.
  Lemma dens_le_inv x y : F x <= F y -> x <= y.
  Proof. intros H. destruct (Rle_dec x y); [assumption|]. assert (F y < F x) by (apply dens_incr; lra). lra. Qed.
  Lemma dens_lt_inv x y : F x < F y -> x < y.
  Proof. intros H. destruct (Rlt_dec x y); [assumption|]. assert (F y <= F x) by (apply dens_le; lra). lra. Qed.

  Lemma dens_le_1 x : F x <= 1.
  Proof.
    assert (Rbar_le (F x) 1) as H; [|exact H].
    apply (is_lim_le_loc (fun _ => F x) F p_infty).
    - exists x. intros y Hy. left. now apply dens_incr.
    - apply is_lim_const.
    - apply D.
  Qed.
  Lemma dens_ge_0 x : 0 <= F x.
  Proof.
    assert (Rbar_le 0 (F x)) as H; [|exact H].
    apply (is_lim_le_loc F (fun _ => F x) m_infty).
    - exists x. intros y Hy. left. now apply dens_incr.
    - apply D.
    - apply is_lim_const.
  Qed.
  Lemma dens_range x : 0 < F x < 1.
  Proof.
    split.
    - pose proof (dens_ge_0 (x - 1)). pose proof (dens_incr (x - 1) x ltac:(lra)). lra.
    - pose proof (dens_le_1 (x + 1)). pose proof (dens_incr x (x + 1) ltac:(lra)). lra.
  Qed.
  Lemma dens_onto q : 0 < q < 1 -> { x | F x = q }.
  Proof.
    intros H. destruct (IVT_Rbar_incr F m_infty p_infty 0 1) with (y := q) as (x & _ & _ & E).
    - apply D.
    - apply D.
    - intros; apply dens_Fcont.
    - exact Logic.I.
    - exact H.
    - now exists x.
  Qed.

  Lemma quantile_is q : 0 <= q <= 1 -> is_quantile F q (quantile F q).
  Proof.
    intros Hq. unfold quantile.
    destruct (Req_dec q 0) as [->|N0].
    - replace (Lub_Rbar _) with m_infty; [reflexivity|]. symmetry. apply is_lub_Rbar_unique. split.
      + intros x Hx. pose proof (dens_range x). lra.
      + intros b _. destruct b; exact Logic.I.
    - destruct (Req_dec q 1) as [->|N1].
      + replace (Lub_Rbar _) with p_infty; [reflexivity|]. symmetry. apply is_lub_Rbar_unique. split.
        * intros x _. exact Logic.I.
        * intros b Hb. destruct b as [r| |]; [|exact Logic.I|].
          -- exfalso. pose proof (Hb (r + 1) (dens_le_1 _)) as H. cbn in H. lra.
          -- exfalso. exact (Hb 0 (dens_le_1 _)).
      + destruct (dens_onto q ltac:(lra)) as [x E].
        replace (Lub_Rbar _) with (Finite x); [exact E|]. symmetry. apply is_lub_Rbar_unique. split.
        * intros y Hy. cbn. apply dens_le_inv. lra.
        * intros b Hb. apply (Hb x). lra.
  Qed.

  Lemma is_quantile_fun q x y : is_quantile F q x -> is_quantile F q y -> x = y.
  Proof.
    destruct x as [x| |], y as [y| |]; cbn; intros A B; try reflexivity; try lra;
      try (pose proof (dens_range x); lra); try (pose proof (dens_range y); lra).
    f_equal. apply dens_inj. lra.
  Qed.
  Lemma is_quantile_finite q x : 0 < q < 1 -> is_quantile F q x -> exists r, x = Finite r /\ F r = q.
  Proof. destruct x; cbn; intros; [eauto|lra|lra]. Qed.

  Lemma dens_axis : integral_over_axis f 1.
  Proof.
    split.
    - replace 1 with (1 - 0) by ring.
      apply (filterlim_ext (fun ab => F (snd ab) - F (fst ab))).
      + intros [a b]. cbn [fst snd]. symmetry. apply dens_RInt.
      + assert (L0 : filterlim F (Rbar_locally m_infty) (locally 0)) by apply D.
        assert (L1 : filterlim F (Rbar_locally p_infty) (locally 1)) by apply D.
        apply (filterlim_comp_2 (F := filter_prod (Rbar_locally m_infty) (Rbar_locally p_infty))
                 (fun ab => F (snd ab)) (fun ab => F (fst ab)) Rminus (G := locally 1) (H := locally 0)).
        * eapply filterlim_comp; [apply filterlim_snd|exact L1].
        * eapply filterlim_comp; [apply filterlim_fst|exact L0].
        * apply (filterlim_comp_2 (fun x => fst x) (fun x => opp (snd x)) Rplus
                   (G := locally (1:R)) (H := locally (- 0))).
          -- apply filterlim_fst.
          -- eapply filterlim_comp; [apply filterlim_snd|]. apply (filterlim_opp (V := R_NormedModule)).
          -- replace (1 - 0) with (plus (1:R) (-0)) by reflexivity.
             apply (filterlim_plus (V := R_NormedModule)).
    - intros a b. eexists; apply dens_is_RInt.
  Qed.
End Density.

(** ** Change of location and scale *)
Lemma density_affine f F l s : 0 < s -> density_of f F ->
  density_of (fun x => f ((x - l) / s) / s) (fun x => F ((x - l) / s)).
Proof.
  intros Hs D. pose proof D as (C & P & De & L0 & L1).
  assert (Der : forall x : R, is_derive (fun x => (x - l) / s) x (/ s)) by (intros; auto_derive; [lra|field; lra]).
  split; [|split; [|split; [|split]]].
  - intros x. apply (continuous_mult (K := R_AbsRing) (fun x => f ((x - l) / s)) (fun _ => / s)).
    + apply (continuous_comp (fun x => (x - l) / s) f); [|apply C]. eapply is_derive_cont, Der.
    + apply continuous_const.
  - intros x. apply Rdiv_lt_0_compat; auto.
  - intros x. assert (E : f ((x - l) / s) / s = scal (/ s) (f ((x - l) / s)))
      by (change (f ((x - l) / s) / s = / s * f ((x - l) / s)); unfold Rdiv; apply Rmult_comm).
    rewrite E. apply (is_derive_comp (V := R_NormedModule) F (fun x => (x - l) / s)); [apply De|apply Der].
  - apply (is_lim_comp F (fun x => (x - l) / s) m_infty 0 m_infty L0).
    + evar (z : Rbar). replace m_infty with z at 2; subst z.
      * unfold Rdiv. apply (is_lim_scal_r (fun x => x - l) (/ s) m_infty).
        apply (is_lim_minus (fun x => x) (fun _ => l) m_infty m_infty l); [apply is_lim_id|apply is_lim_const|reflexivity].
      * cbn. assert (0 < / s) by now apply Rinv_0_lt_compat.
        destruct (Rle_dec 0 (/ s)) as [H1|]; [|lra]. destruct (Rle_lt_or_eq_dec 0 (/ s) H1); [reflexivity|lra].
    + exists 0. intros y _. discriminate.
  - apply (is_lim_comp F (fun x => (x - l) / s) p_infty 1 p_infty L1).
    + evar (z : Rbar). replace p_infty with z at 2; subst z.
      * unfold Rdiv. apply (is_lim_scal_r (fun x => x - l) (/ s) p_infty).
        apply (is_lim_minus (fun x => x) (fun _ => l) p_infty p_infty l); [apply is_lim_id|apply is_lim_const|reflexivity].
      * cbn. assert (0 < / s) by now apply Rinv_0_lt_compat.
        destruct (Rle_dec 0 (/ s)) as [H1|]; [|lra]. destruct (Rle_lt_or_eq_dec 0 (/ s) H1); [reflexivity|lra].
    + exists 0. intros y _. discriminate.
Qed.

(** ** Cauchy *)
Lemma atan_lim : is_lim atan p_infty (PI / 2).
Proof.
  apply (is_lim_ext_loc (fun x => PI / 2 - atan (/ x))).
  - exists 0. intros y Hy. rewrite atan_inv by assumption. ring.
  - replace (Finite (PI / 2)) with (Finite (PI / 2 - atan 0)) by (f_equal; rewrite atan_0; ring).
    apply (is_lim_minus (fun _ => PI / 2) (fun x => atan (/ x)) p_infty (PI / 2) (atan 0)).
    + apply is_lim_const.
    + apply (is_lim_comp_continuous Rinv atan p_infty 0).
      * replace (Finite 0) with (Rbar_inv p_infty) by reflexivity. apply is_lim_inv; [apply is_lim_id|discriminate].
      * apply (is_derive_cont atan 0 (/ (1 + 0 ^ 2))). apply is_derive_Reals. apply derivable_pt_lim_atan.
    + reflexivity.
Qed.
(** An odd function minus a constant: the limit at minus infinity follows. *)
Lemma odd_lim (g : R -> R) (l : R) : (forall x, g (- x) = - g x) -> is_lim g p_infty l -> is_lim g m_infty (- l).
Proof.
  intros O L. apply (is_lim_ext (fun x => - g (- x))); [intros x; rewrite O; ring|].
  apply (is_lim_opp (fun x => g (- x)) m_infty l).
  apply (is_lim_comp g Ropp m_infty l p_infty L).
  - apply (is_lim_opp (fun x => x) m_infty m_infty). apply is_lim_id.
  - exists 0. intros y _. discriminate.
Qed.
Lemma half_plus_lim (g : R -> R) x (l : R) (m : R) : is_lim g x l -> 1 / 2 + l = m -> is_lim (fun t => 1 / 2 + g t) x m.
Proof.
  intros L <-. apply (is_lim_plus (fun _ => 1 / 2) g x (1 / 2) l); [apply is_lim_const|exact L|reflexivity].
Qed.

Lemma cauchy0_density : density_of (fun t => / (PI * (1 + t ^ 2))) (fun t => 1 / 2 + atan t / PI).
Proof.
  pose proof PI_RGT_0 as HP.
  assert (L : is_lim (fun t => atan t / PI) p_infty (1 / 2)).
  { replace (Finite (1 / 2)) with (Rbar_mult (PI / 2) (/ PI)) by (cbn; f_equal; field; lra).
    unfold Rdiv at 1. apply (is_lim_scal_r atan (/ PI) p_infty (PI / 2)), atan_lim. }
  split; [|split; [|split; [|split]]].
  - intros x. apply (ex_derive_continuous (V := R_NormedModule)). auto_derive. nra.
  - intros x. apply Rinv_0_lt_compat. nra.
  - intros x. auto_derive; [trivial|]. unfold Rsqr. field. split; nra.
  - apply (half_plus_lim _ _ (- (1 / 2))); [|lra]. apply odd_lim; [|exact L].
    intros x. rewrite atan_opp. unfold Rdiv. ring.
  - apply (half_plus_lim _ _ (1 / 2)); [exact L|lra].
Qed.

Lemma density_ext f F g G : (forall x, f x = g x) -> (forall x, F x = G x) -> density_of f F -> density_of g G.
Proof.
  intros Ef EF (C & P & De & L0 & L1).
  split; [|split; [|split; [|split]]].
  - intros x. apply (continuous_ext f); [intros; apply Ef|apply C].
  - intros x. rewrite <- Ef. apply P.
  - intros x. rewrite <- Ef. apply (is_derive_ext F); [intros; apply EF|apply De].
  - apply (is_lim_ext F); [intros; apply EF|exact L0].
  - apply (is_lim_ext F); [intros; apply EF|exact L1].
Qed.

Lemma cauchy_density l s : 0 < s -> density_of (cauchy_pdf l s) (cauchy_cdf l s).
Proof.
  intros Hs. pose proof PI_RGT_0 as HP. eapply density_ext; [| |apply (density_affine _ _ l s Hs cauchy0_density)].
  - intros x. unfold cauchy_pdf. set (u := (x - l) / s). assert (0 < 1 + u ^ 2) by nra. field. repeat split; lra.
  - intros x. reflexivity.
Qed.

Lemma cauchy_ppf_is l s q : 0 < s -> 0 <= q <= 1 -> is_quantile (cauchy_cdf l s) q (cauchy_ppf l s q).
Proof.
  intros Hs Hq. pose proof PI_RGT_0 as HP. unfold cauchy_ppf.
  destruct (Rle_dec q 0); [cbn; lra|]. destruct (Rle_dec 1 q); [cbn; lra|]. cbn.
  unfold cauchy_cdf. replace ((l + s * tan (PI * (q - 1 / 2)) - l) / s) with (tan (PI * (q - 1 / 2))) by (field; lra).
  rewrite atan_tan; [field; lra|]. split; nra.
Qed.

(** ** Normal distribution *)
Lemma gauss0_cont x : continuous gauss0 x.
Proof.
  apply (ex_derive_continuous (V := R_NormedModule)). unfold gauss0. auto_derive. exact Logic.I.
Qed.
Lemma gauss0_even x : gauss0 (- x) = gauss0 x.
Proof. unfold gauss0. f_equal. f_equal. field. Qed.
Lemma gauss0_odd_RInt x : RInt gauss0 0 (- x) = - RInt gauss0 0 x.
Proof.
  assert (E : ex_RInt gauss0 (-1 * 0 + 0) (-1 * x + 0)) by (apply ex_RInt_cont, gauss0_cont).
  pose proof (RInt_comp_lin_R gauss0 (-1) 0 0 x E) as H.
  replace (-1 * 0 + 0) with 0 in H by ring. replace (-1 * x + 0) with (- x) in H by ring. rewrite <- H.
  rewrite (RInt_scal_R (fun y => gauss0 (-1 * y + 0))).
  - replace (RInt (fun y => gauss0 (-1 * y + 0)) 0 x) with (RInt gauss0 0 x); [eqR; ring|].
    apply RInt_ext_R. intros y _. rewrite <- gauss0_even. f_equal. ring.
  - apply ex_RInt_cont. intros y. apply (continuous_ext gauss0); [|apply gauss0_cont].
    intros z. rewrite <- gauss0_even. f_equal. ring.
Qed.
Lemma norm0_density : density_of gauss0 (fun t => 1 / 2 + RInt gauss0 0 t).
Proof.
  pose proof PI_RGT_0 as HP.
  split; [|split; [|split; [|split]]].
  - apply gauss0_cont.
  - intros x. unfold gauss0. apply Rdiv_lt_0_compat; [apply exp_pos|apply sqrt_lt_R0; lra].
  - intros x. replace (gauss0 x) with (0 + gauss0 x) by ring.
    apply (is_derive_plus (V := R_NormedModule) (fun _ => 1 / 2)); [apply (is_derive_const (V := R_NormedModule))|].
    apply (is_derive_RInt gauss0 (fun u => RInt gauss0 0 u) 0 x).
    + exists (mkposreal 1 Rlt_0_1). intros y _. apply (RInt_correct (V := R_CompleteNormedModule)).
      apply ex_RInt_cont, gauss0_cont.
    + apply gauss0_cont.
  - apply (half_plus_lim _ _ (- (1 / 2))); [|lra]. apply odd_lim; [apply gauss0_odd_RInt|apply gauss0_lim].
  - apply (half_plus_lim _ _ (1 / 2)); [apply gauss0_lim|lra].
Qed.
Lemma norm_density l s : 0 < s -> density_of (norm_pdf l s) (norm_cdf l s).
Proof. intros Hs. exact (density_affine _ _ l s Hs norm0_density). Qed.

(** ** Convex combinations *)
Lemma density_mix f F g G e : 0 <= e <= 1 -> density_of f F -> density_of g G ->
  density_of (fun x => (1 - e) * f x + e * g x) (fun x => (1 - e) * F x + e * G x).
Proof.
  intros He (C & P & De & L0 & L1) (C' & P' & De' & L0' & L1').
  split; [|split; [|split; [|split]]].
  - intros x. apply (continuous_plus (V := R_NormedModule) (fun x => (1 - e) * f x)).
    + apply (continuous_scal_r (V := R_NormedModule) (1 - e) f), C.
    + apply (continuous_scal_r (V := R_NormedModule) e g), C'.
  - intros x. pose proof (P x). pose proof (P' x). destruct (Req_dec e 0) as [->|]; [lra|]. nra.
  - intros x. apply (is_derive_plus (V := R_NormedModule) (fun x => (1 - e) * F x)).
    + apply (is_derive_scal F), De.
    + apply (is_derive_scal G), De'.
  - replace (Finite 0) with (Finite ((1 - e) * 0 + e * 0)) by (f_equal; ring).
    apply (is_lim_plus (fun x => (1 - e) * F x) (fun x => e * G x) m_infty ((1 - e) * 0) (e * 0)); [| |reflexivity].
    + apply (is_lim_scal_l F (1 - e) m_infty 0 L0).
    + apply (is_lim_scal_l G e m_infty 0 L0').
  - replace (Finite 1) with (Finite ((1 - e) * 1 + e * 1)) by (f_equal; ring).
    apply (is_lim_plus (fun x => (1 - e) * F x) (fun x => e * G x) p_infty ((1 - e) * 1) (e * 1)); [| |reflexivity].
    + apply (is_lim_scal_l F (1 - e) p_infty 1 L1).
    + apply (is_lim_scal_l G e p_infty 1 L1').
Qed.

(** ** Symmetry *)
Lemma cauchy_symm l s : symmetric_about l (cauchy_pdf l s).
Proof.
  intros d. unfold cauchy_pdf. f_equal. f_equal. f_equal.
  replace ((l - d - l) / s) with (- ((l + d - l) / s)) by (unfold Rdiv; ring). ring.
Qed.
Lemma norm_symm l s : symmetric_about l (norm_pdf l s).
Proof.
  intros d. unfold norm_pdf. f_equal. rewrite <- gauss0_even. f_equal. unfold Rdiv. ring.
Qed.
Lemma cauchy_median l s : cauchy_cdf l s l = 1 / 2.
Proof. unfold cauchy_cdf. replace ((l - l) / s) with 0 by (unfold Rdiv; ring). rewrite atan_0. unfold Rdiv. ring. Qed.
Lemma norm_median l s : norm_cdf l s l = 1 / 2.
Proof.
  unfold norm_cdf. replace ((l - l) / s) with 0 by (unfold Rdiv; ring). rewrite RInt_point_R. ring.
Qed.

(** ** Distribution objects *)
Lemma loc_scale_2 {A} l s (k : R -> R -> out A) : 0 < s -> loc_scale [l; s] k = k l s.
Proof. intros H. cbn. destruct (Rlt_dec 0 s); [reflexivity|contradiction]. Qed.

Lemma ppf_array_ok ppf F l s qs : 0 < s -> (forall q, 0 <= q <= 1 -> is_quantile F q (ppf l s q)) ->
  List.Forall (fun q => 0 <= q <= 1) qs ->
  ppf_array ppf [l; s] qs = ([], Ok (Some (map (ppf l s) qs))) /\
  Forall2 (is_quantile F) qs (map (ppf l s) qs).
Proof.
  intros Hs Hp Hq. unfold ppf_array. split.
  - f_equal. replace (traverse _ qs) with (Ok (map (ppf l s) qs)); [reflexivity|].
    unfold traverse. induction Hq as [|q qs [H1 H2] Hq IH]; [reflexivity|].
    cbn [map sequence]. rewrite loc_scale_2 by assumption. destruct (Rle_dec 0 q); [|contradiction]. destruct (Rle_dec q 1); [|contradiction].
    cbn [bind]. rewrite <- IH. reflexivity.
  - induction Hq; constructor; auto.
Qed.

Lemma cauchy_object l s : 0 < s -> has_density cauchy [l; s] (cauchy_pdf l s) (cauchy_cdf l s).
Proof.
  intros Hs. split; [now apply cauchy_density|].
  split; intros x; cbn [d_pdf d_cdf cauchy]; now rewrite loc_scale_2.
Qed.
Lemma cauchy_exact l s : 0 < s -> exact_quantiles cauchy [l; s] (cauchy_cdf l s).
Proof.
  intros Hs qs Hq. exists [], (map (cauchy_ppf l s) qs).
  apply ppf_array_ok; [assumption| |assumption]. intros; now apply cauchy_ppf_is.
Qed.
Lemma norm_object l s : 0 < s -> has_density norm [l; s] (norm_pdf l s) (norm_cdf l s).
Proof.
  intros Hs. split; [now apply norm_density|].
  split; intros x; cbn [d_pdf d_cdf norm]; now rewrite loc_scale_2.
Qed.
Lemma norm_exact l s : 0 < s -> exact_quantiles norm [l; s] (norm_cdf l s).
Proof.
  intros Hs qs Hq. exists [], (map (norm_ppf l s) qs).
  apply ppf_array_ok; [assumption| |assumption]. intros. unfold norm_ppf.
  eapply quantile_is; [apply norm_density; assumption|assumption].
Qed.
