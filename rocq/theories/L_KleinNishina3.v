(** Final statements about the Compton cross section. *)
From Coq Require Import Reals List ZArith Lra Lia.
From Coquelicot Require Import Coquelicot.
From Verif Require Import Py Spec M_Num M_Grid M_CrossSection M_KleinNishina S_KleinNishina S_Resonance L_Resonance6 L_RInt L_Dist L_KleinNishina L_KleinNishina2.
Import ListNotations.
Open Scope R_scope.

Lemma angle_total k Z c E : constants_ok k -> KleinNishina_electron k Z = Ok c -> 0 < E ->
  exists I, kn_cs_total c E = Ok I /\ integrates (kn_cs_diff_dtheta k c E) 0 PI I.
Proof. intros Hk Hc HE. eexists. split; [now apply (total_electron k Z)|now apply dtheta_int]. Qed.
Lemma energy_total k Z c E : constants_ok k -> KleinNishina_electron k Z = Ok c -> 0 < E ->
  exists I e, kn_cs_total c E = Ok I /\ kn_compton_edge k E = Ok e /\ integrates (kn_cs_diff_dEp k c E) e E I /\
    integrates2 (fun Ep phi => kn_cs_diff_dEp_dphi k c E Ep phi) e E 0 (2 * PI) I /\
    integrates2 (fun phi Ep => kn_cs_diff_dEp_dphi k c E Ep phi) 0 (2 * PI) e E I.
Proof.
  intros Hk Hc HE. do 2 eexists. split; [now apply (total_electron k Z)|]. pose proof (edge_ok k Hk E ltac:(lra)) as Ee. split; [exact Ee|].
  split; [now apply dEp_int|]. now apply dEp_dphi_int.
Qed.
Lemma solid_total k Z c E : constants_ok k -> KleinNishina_electron k Z = Ok c -> 0 < E ->
  exists I, kn_cs_total c E = Ok I /\
    integrates2 (fun theta phi => oscale (sin theta) (kn_cs_diff_dOmega k c E theta phi)) 0 PI 0 (2 * PI) I /\
    integrates2 (fun phi theta => oscale (sin theta) (kn_cs_diff_dOmega k c E theta phi)) 0 (2 * PI) 0 PI I.
Proof. intros Hk Hc HE. eexists. split; [now apply (total_electron k Z)|]. now apply dOmega_int. Qed.
Lemma solid_nonneg k Z mc2 c E t p : constants_ok k -> KleinNishina k Z mc2 = Ok c -> 0 <= Z -> 0 <= E ->
  exists v, kn_cs_diff_dOmega k c E t p = Ok v /\ 0 <= v.
Proof.
  intros Hk Hc HZ HE. rewrite (dOmega_ok k c Hk) by exact HE. eexists. split; [reflexivity|].
  pose proof (scale_nonneg _ _ _ _ Hk Hc HZ) as S0. pose proof (me_pos k Hk). pose proof (COS_bound t) as Bt. pose proof (COS_bound p) as Bp.
  assert (X : 0 <= E / k_me k) by (apply Rmult_le_pos; [lra|left; now apply Rinv_0_lt_compat]).
  pose proof (rr_bound (E / k_me k) (1 - cos t) X ltac:(lra)) as B. pose proof (v_range (1 - cos t) ltac:(lra)) as U.
  unfold K1, K2. set (r := rr _ _) in *. set (u := (1 - cos t) * (2 - (1 - cos t))) in *. assert (C : 0 <= cos p ^ 2 <= 1) by nra.
  apply Rmult_le_pos; [lra|]. set (q := cos p ^ 2) in *. assert (Q : 0 <= u * q <= 1) by nra.
  replace (r ^ 3 + r - 2 * (r ^ 2 * u) * q) with (r * (r * r + 1 - 2 * r * (u * q))) by ring. apply Rmult_le_pos; [lra|].
  assert (r * (u * q) <= r) by nra. pose proof (pow2_ge_0 (r - 1)). nra.
Qed.
(** [KK] at rest is the Thomson curve. *)
Lemma unpol_integral k c E t : constants_ok k -> 0 <= E ->
  exists v, kn_cs_diff_dOmega_unpolarized k c E t = Ok v /\ integrates (fun phi => kn_cs_diff_dOmega k c E t phi) 0 (2 * PI) v.
Proof.
  intros Hk HE. exists (PI * kn_scale_factor c * KK (E / k_me k) (1 - cos t)). split; [now apply unpol_ok|].
  assert (P := PI_RGT_0). split; [lra|]. eexists. split; [intros p _; now apply dOmega_ok|]. apply phi_int.
Qed.
Lemma unpol_positive k Z mc2 c E t : constants_ok k -> KleinNishina k Z mc2 = Ok c -> 0 < Z -> 0 <= E ->
  exists v, kn_cs_diff_dOmega_unpolarized k c E t = Ok v /\ 0 < v.
Proof.
  intros Hk Hc HZ HE. exists (PI * kn_scale_factor c * KK (E / k_me k) (1 - cos t)). split; [now apply unpol_ok|].
  pose proof (scale_pos _ _ _ _ Hk Hc HZ). pose proof PI_RGT_0. pose proof (COS_bound t). pose proof (me_pos k Hk).
  assert (X : 0 <= E / k_me k) by (apply Rmult_le_pos; [lra|left; now apply Rinv_0_lt_compat]).
  apply Rmult_lt_0_compat; [now apply Rmult_lt_0_compat|]. apply KK_pos; lra.
Qed.
Lemma integrates_unique f a b I J : integrates f a b I -> integrates f a b J -> I = J.
Proof.
  intros (L & g & Hg & Ig) (_ & g' & Hg' & Ig'). rewrite <- (RInt_val _ _ _ _ Ig), <- (RInt_val _ _ _ _ Ig'). apply RInt_ext_R.
  intros x. rewrite Rmin_left, Rmax_right by exact L. intros Hx. specialize (Hg x ltac:(lra)). rewrite Hg' in Hg by lra. now injection Hg.
Qed.
(** The average over the azimuth is never the returned value. *)
Lemma unpol_wrong k Z mc2 c E t v I : constants_ok k -> KleinNishina k Z mc2 = Ok c -> 0 < Z -> 0 <= E ->
  kn_cs_diff_dOmega_unpolarized k c E t = Ok v -> integrates (fun phi => kn_cs_diff_dOmega k c E t phi) 0 (2 * PI) I ->
  v = 2 * PI * (I / (2 * PI)) /\ v <> I / (2 * PI).
Proof.
  intros Hk Hc HZ HE Hv HI. destruct (unpol_integral k c E t Hk HE) as (v' & E' & I'). rewrite Hv in E'. injection E' as <-.
  destruct (unpol_positive _ _ _ _ _ t Hk Hc HZ HE) as (v' & E' & P). rewrite Hv in E'. injection E' as <-.
  rewrite (integrates_unique _ _ _ _ _ HI I'). pose proof PI_RGT_0 as HP. pose proof PI_ineq 0 as Q. 
  assert (P1 : 1 < 2 * PI) by (pose proof PI2_1; lra).
  split; [field; lra|]. intros K. assert (v * (2 * PI) = v) by (rewrite K at 1; field; lra). nra.
Qed.
Lemma unpol_refuted : exists k c E t v I, constants_ok k /\ KleinNishina_electron k 1 = Ok c /\ 0 < E /\
  kn_cs_diff_dOmega_unpolarized k c E t = Ok v /\ integrates (fun phi => kn_cs_diff_dOmega k c E t phi) 0 (2 * PI) I /\
  v <> I / (2 * PI).
Proof.
  pose proof codata_ok as Hk. pose proof (me_pos _ Hk) as Hm. destruct (kn_ok codata 1 (k_me codata) ltac:(lra)) as [c Hc].
  destruct (unpol_integral codata c 1 0 Hk ltac:(lra)) as (v & E1 & I1). exists codata, c, 1, 0, v, v.
  do 2 (split; [assumption|]). split; [lra|]. do 2 (split; [assumption|]). apply (unpol_wrong codata 1 (k_me codata) c 1 0 v v Hk Hc); try lra; assumption.
Qed.

(** Other masses. *)
Lemma edge_only k E mc2 : constants_ok k -> 0 < E -> 0 < mc2 -> (kn_compton_edge k E = Ok (E / (1 + 2 * (E / mc2))) <-> mc2 = k_me k).
Proof.
  intros Hk HE Hm. rewrite (edge_ok k Hk) by lra. pose proof (me_pos k Hk) as Hk'. split; [|now intros ->]. intros Q. injection Q as Q.
  assert (X1 : 0 < E / mc2) by (now apply Rdiv_lt_0_compat). assert (X2 : 0 < E / k_me k) by (now apply Rdiv_lt_0_compat).
  unfold Rdiv at 1 3 in Q. apply Rmult_eq_reg_l in Q; [|lra]. apply (f_equal Rinv) in Q. rewrite !Rinv_inv in Q.
  assert (Q' : E * / mc2 = E * / k_me k) by (unfold Rdiv in *; lra). apply Rmult_eq_reg_l in Q'; [|lra]. apply (f_equal Rinv) in Q'. now rewrite !Rinv_inv in Q'.
Qed.
Lemma hh_inj x y : 0 < x -> 0 < y -> hh x = hh y -> x = y.
Proof.
  intros Hx Hy Q. destruct (Rtotal_order x y) as [L|[L|L]]; [|assumption|].
  - pose proof (hh_decr x y Hx L). lra.
  - pose proof (hh_decr y x Hy L). lra.
Qed.
Lemma dtheta_any k Z mc2 c E : constants_ok k -> KleinNishina k Z mc2 = Ok c -> 0 < E ->
  integrates (kn_cs_diff_dtheta k c E) 0 PI (PI * kn_scale_factor c * hh (E / k_me k)).
Proof.
  intros Hk Hc HE. pose proof PI_RGT_0. pose proof (me_pos k Hk) as Hm. assert (X : 0 < E / k_me k) by (now apply Rdiv_lt_0_compat).
  split; [lra|]. exists (fun t => PI * kn_scale_factor c * (sin t * KK (E / k_me k) (1 - cos t))). split.
  - intros t _. unfold kn_cs_diff_dtheta. rewrite (unpol_ok k c Hk) by lra. cbn [bind]. f_equal. ring.
  - apply is_RInt_scal_R. rewrite <- (RInt_val _ _ _ _ (KK_int _ X)). apply subst_theta. intros v Hv. apply KK_cont; lra.
Qed.
Lemma integral_only k Z mc2 c E I : constants_ok k -> KleinNishina k Z mc2 = Ok c -> 0 < Z -> 0 < mc2 -> 0 < E ->
  integrates (kn_cs_diff_dtheta k c E) 0 PI I -> (kn_cs_total c E = Ok I <-> mc2 = k_me k).
Proof.
  intros Hk Hc HZ Hm HE HI. rewrite (integrates_unique _ _ _ _ _ HI (dtheta_any k Z mc2 c E Hk Hc HE)).
  destruct (kn_inv _ _ _ _ Hc) as (_ & _ & Em & _). pose proof (scale_pos _ _ _ _ Hk Hc HZ) as S0. pose proof PI_RGT_0. pose proof (me_pos k Hk) as Hk'.
  rewrite total_ok by (rewrite ?Em; assumption). rewrite Em. split; [|now intros ->].
  intros Q. injection Q as Q. apply Rmult_eq_reg_l in Q; [|nra].
  apply hh_inj in Q; [|now apply Rdiv_lt_0_compat|now apply Rdiv_lt_0_compat]. unfold Rdiv in Q. apply Rmult_eq_reg_l in Q; [|lra].
  apply (f_equal Rinv) in Q. now rewrite !Rinv_inv in Q.
Qed.
Lemma masses_refuted : exists k mc2 c E e I, constants_ok k /\ 0 < mc2 /\ 0 < E /\ KleinNishina k 1 mc2 = Ok c /\
  kn_compton_edge k E = Ok e /\ e <> E / (1 + 2 * (E / mc2)) /\
  integrates (kn_cs_diff_dtheta k c E) 0 PI I /\ kn_cs_total c E <> Ok I.
Proof.
  pose proof codata_ok as Hk. pose proof (me_pos _ Hk) as Hm. destruct (kn_ok codata 1 938 ltac:(lra)) as [c Hc].
  assert (N : 938 <> k_me codata) by (cbn; lra).
  pose proof (dtheta_any codata 1 938 c 1 Hk Hc ltac:(lra)) as HI. pose proof (edge_ok codata Hk 1 ltac:(lra)) as He.
  exists codata, 938, c, 1. do 2 eexists. split; [exact Hk|]. split; [lra|]. split; [lra|]. split; [exact Hc|]. split; [exact He|].
  split; [|split; [exact HI|]].
  - intros Q. apply N. apply (proj1 (edge_only codata 1 938 Hk ltac:(lra) ltac:(lra))). rewrite He. now f_equal.
  - intros Q. apply N. now apply (proj1 (integral_only codata 1 938 c 1 _ Hk Hc ltac:(lra) ltac:(lra) ltac:(lra) HI)).
Qed.
Lemma total_scaling k Z mc2 c e E : constants_ok k -> KleinNishina k Z mc2 = Ok c -> KleinNishina_electron k Z = Ok e -> 0 < mc2 -> 0 < E ->
  exists v w, kn_cs_total c E = Ok v /\ kn_cs_total e (E * k_me k / mc2) = Ok w /\ v * mc2 ^ 2 = w * k_me k ^ 2.
Proof.
  intros Hk Hc He Hm HE. pose proof (me_pos k Hk) as Hk'. destruct (kn_inv _ _ _ _ Hc) as (_ & _ & Em & Es). destruct (kn_inv _ _ _ _ He) as (_ & _ & Em' & Es').
  assert (0 < E * k_me k / mc2) by (apply Rdiv_lt_0_compat; nra).
  rewrite !total_ok by (rewrite ?Em, ?Em'; assumption). do 2 eexists. split; [reflexivity|]. split; [reflexivity|].
  rewrite Em, Em', Es, Es'. replace (E * k_me k / mc2 / k_me k) with (E / mc2) by (field; lra). field. lra.
Qed.

(** C49 *)
Lemma total_facts k Z mc2 c : constants_ok k -> KleinNishina k Z mc2 = Ok c -> 0 < Z -> 0 < mc2 ->
  0 < kn_scale_factor c /\
  exists g, (forall E, 0 < E -> kn_cs_total c E = Ok (g E) /\ 0 < g E < 8 * PI / 3 * kn_scale_factor c) /\
    (forall E E', 0 < E -> E < E' -> g E' < g E) /\
    filterlim g (at_right 0) (locally (8 * PI / 3 * kn_scale_factor c)) /\ is_lim g p_infty 0.
Proof.
  intros Hk Hc HZ Hm. destruct (kn_inv _ _ _ _ Hc) as (_ & _ & Em & _). pose proof (scale_pos _ _ _ _ Hk Hc HZ) as S0. pose proof PI_RGT_0 as HP.
  assert (SP : 0 < PI * kn_scale_factor c) by (now apply Rmult_lt_0_compat).
  split; [exact S0|]. exists (fun E => PI * kn_scale_factor c * hh (E / mc2)). split; [|split; [|split]].
  - intros E HE. assert (X : 0 < E / mc2) by (now apply Rdiv_lt_0_compat). split; [rewrite total_ok by (rewrite ?Em; assumption); now rewrite Em|].
    pose proof (hh_pos _ X). pose proof (hh_lt _ X). split; nra.
  - intros E E' HE HE'. apply Rmult_lt_compat_l; [exact SP|]. apply hh_decr; [now apply Rdiv_lt_0_compat|].
    apply Rmult_lt_compat_r; [now apply Rinv_0_lt_compat|exact HE'].
  - replace (8 * PI / 3 * kn_scale_factor c) with (PI * kn_scale_factor c * (8 / 3)) by field.
    assert (F : filterlim (fun E => E / mc2) (at_right 0) (at_right 0)).
    { intros P [d Hd]. assert (D : 0 < d * mc2) by (apply Rmult_lt_0_compat; [apply d|exact Hm]). exists (mkposreal _ D). intros E HE PE. cbn in *.
      apply Hd; [|now apply Rdiv_lt_0_compat]. unfold ball in *; cbn in *. unfold AbsRing_ball, abs, minus, plus, opp in *; cbn in *.
      rewrite Ropp_0, Rplus_0_r in *. rewrite Rabs_pos_eq in HE by lra. rewrite Rabs_pos_eq by (left; now apply Rdiv_lt_0_compat).
      apply (Rmult_lt_reg_r mc2); [exact Hm|]. replace (E / mc2 * mc2) with E by (field; lra). exact HE. }
    eapply filterlim_comp; [exact (filterlim_comp _ _ _ _ _ _ _ _ F hh_lim0)|]. apply (filterlim_scal_r (V := R_NormedModule)).
  - replace (Finite 0) with (Rbar_mult (PI * kn_scale_factor c) 0) by (cbn; f_equal; ring). apply is_lim_scal_l.
    apply (is_lim_comp hh (fun E => E / mc2) p_infty 0 p_infty hh_lim_inf).
    + apply is_lim_spec. intros M. exists (M * mc2). intros E HE. apply (Rmult_lt_reg_r mc2); [exact Hm|]. replace (E / mc2 * mc2) with E by (field; lra). exact HE.
    + exists 0. intros E _. discriminate.
Qed.
Lemma total_zero k Z mc2 c : KleinNishina k Z mc2 = Ok c -> kn_cs_total c 0 = Raise ZeroDivisionError.
Proof.
  intros Hc. destruct (kn_inv _ _ _ _ Hc) as (M & _ & Em & _). unfold kn_cs_total, fdiv, pow_m3. rewrite Em. destruct (Req_EM_T mc2 0); [lra|]. cbn [bind].
  destruct (Req_EM_T (0 / mc2) 0) as [|N]; [reflexivity|]. exfalso. apply N. unfold Rdiv. ring.
Qed.
Lemma total_linear k Z Z' mc2 c c' E : KleinNishina k Z mc2 = Ok c -> KleinNishina k Z' mc2 = Ok c' -> 0 < mc2 -> 0 < E ->
  exists v w, kn_cs_total c E = Ok v /\ kn_cs_total c' E = Ok w /\ Z' * v = Z * w.
Proof.
  intros Hc Hc' Hm HE. destruct (kn_inv _ _ _ _ Hc) as (_ & _ & Em & Es). destruct (kn_inv _ _ _ _ Hc') as (_ & _ & Em' & Es').
  rewrite !total_ok by (rewrite ?Em, ?Em'; assumption). do 2 eexists. split; [reflexivity|]. split; [reflexivity|].
  rewrite Em, Em', Es, Es'. field. lra.
Qed.

Definition thomson (k : constants) (Z mc2 : R) : R := 8 * PI / 3 * (Z * (k_alpha k * k_hbarc_old k / mc2) ^ 2).
Lemma thomson_scale k Z mc2 c : KleinNishina k Z mc2 = Ok c -> 8 * PI / 3 * kn_scale_factor c = thomson k Z mc2.
Proof. intros Hc. destruct (kn_inv _ _ _ _ Hc) as (M & _ & _ & ->). unfold thomson. field. exact M. Qed.
Lemma total_limits k Z mc2 c : constants_ok k -> KleinNishina k Z mc2 = Ok c -> 0 < Z -> 0 < mc2 ->
  exists g, (forall E, 0 < E -> kn_cs_total c E = Ok (g E) /\ 0 < g E < 8 * PI / 3 * (Z * (k_alpha k * k_hbarc_old k / mc2) ^ 2)) /\
    (forall E E', 0 < E -> E < E' -> g E' < g E) /\
    filterlim g (at_right 0) (locally (8 * PI / 3 * (Z * (k_alpha k * k_hbarc_old k / mc2) ^ 2))) /\ is_lim g p_infty 0.
Proof. intros Hk Hc HZ Hm. fold (thomson k Z mc2). rewrite <- (thomson_scale _ _ _ _ Hc). now apply (total_facts k Z mc2). Qed.
(** The curve at zero energy and in forward direction. *)
Lemma solid_limits k Z mc2 c : constants_ok k -> KleinNishina k Z mc2 = Ok c ->
  (forall E phi, 0 <= E -> kn_cs_diff_dOmega k c E 0 phi = Ok (Z * (k_alpha k * k_hbarc_old k / mc2) ^ 2)) /\
  (forall theta phi, kn_cs_diff_dOmega k c 0 theta phi = Ok (Z * (k_alpha k * k_hbarc_old k / mc2) ^ 2 * (1 - (sin theta * cos phi) ^ 2))).
Proof.
  intros Hk Hc. destruct (kn_inv _ _ _ _ Hc) as (M & _ & _ & Es). pose proof (me_pos k Hk). split.
  - intros E phi HE. rewrite (dOmega_ok k c Hk) by exact HE. f_equal. rewrite Es, cos_0. unfold K1, K2, rr. replace (1 + E / k_me k * (1 - 1)) with 1 by ring.
    field. exact M.
  - intros t p. rewrite (dOmega_ok k c Hk) by lra. f_equal. rewrite Es. unfold K1, K2, rr. replace (1 + 0 / k_me k * (1 - cos t)) with 1 by (field; lra).
    rewrite Rpow_mult_distr, sin2. field. exact M.
Qed.
Lemma solid_formula k Z mc2 c E theta phi : constants_ok k -> KleinNishina k Z mc2 = Ok c -> 0 < E ->
  exists Ep, 0 < Ep /\ / Ep = / E + (1 - cos theta) / k_me k /\
    kn_cs_diff_dOmega k c E theta phi = Ok (1 / 2 * (Z * (k_alpha k * k_hbarc_old k / mc2) ^ 2) * (Ep / E) ^ 2 * (Ep / E + E / Ep - 2 * (sin theta * cos phi) ^ 2)).
Proof.
  intros Hk Hc HE. destruct (kn_inv _ _ _ _ Hc) as (M & _ & _ & Es). pose proof (me_pos k Hk) as Hm. pose proof (COS_bound theta).
  assert (X : 0 < E / k_me k) by (now apply Rdiv_lt_0_compat).
  pose proof (den_pos (E / k_me k) (1 - cos theta) ltac:(lra) ltac:(lra)) as D. pose proof (rr_bound (E / k_me k) (1 - cos theta) ltac:(lra) ltac:(lra)) as B.
  exists (E * rr (E / k_me k) (1 - cos theta)). split; [nra|]. split.
  - unfold rr. rewrite Rinv_mult, Rinv_inv. field. lra.
  - rewrite (dOmega_ok k c Hk) by lra. f_equal. rewrite Es. unfold K1, K2. set (r := rr _ _) in *. rewrite Rpow_mult_distr, sin2. field. lra.
Qed.
