(** Properties of the Compton cross section. *)
From Coq Require Import Reals List ZArith Lra Lia.
From Coquelicot Require Import Coquelicot.
From Verif Require Import Py Spec M_Num M_Grid M_CrossSection M_KleinNishina S_KleinNishina L_RInt L_Dist L_KleinNishina.
Import ListNotations.
Open Scope R_scope.

Lemma kn_inv k Z mc2 c : KleinNishina k Z mc2 = Ok c -> mc2 <> 0 /\ kn_Z c = Z /\ kn_mc2 c = mc2 /\
  kn_scale_factor c = Z * k_alpha k ^ 2 * k_hbarc_old k ^ 2 / (mc2 * mc2).
Proof.
  unfold KleinNishina, fdiv. destruct (Req_EM_T (mc2 * mc2) 0) as [H|H]; cbn [bind]; intros K; [discriminate|]. injection K as <-. cbn.
  repeat split. intros ->. apply H. ring.
Qed.
Lemma kn_ok k Z mc2 : mc2 <> 0 -> exists c, KleinNishina k Z mc2 = Ok c.
Proof. intros H. unfold KleinNishina, fdiv. destruct (Req_EM_T (mc2 * mc2) 0) as [K|K]; [exfalso; apply Rmult_integral in K; tauto|]. cbn. eauto. Qed.
Lemma scale_pos k Z mc2 c : constants_ok k -> KleinNishina k Z mc2 = Ok c -> 0 < Z -> 0 < kn_scale_factor c.
Proof.
  intros (H1 & H2 & H3 & _) H HZ. destruct (kn_inv _ _ _ _ H) as (M & _ & _ & ->).
  assert (0 < mc2 * mc2) by (apply Rlt_0_sqr in M; exact M). apply Rdiv_lt_0_compat; [|assumption].
  pose proof (pow_lt _ 2 H3). pose proof (pow_lt _ 2 H2). apply Rmult_lt_0_compat; [|assumption]. apply Rmult_lt_0_compat; assumption.
Qed.
Lemma scale_nonneg k Z mc2 c : constants_ok k -> KleinNishina k Z mc2 = Ok c -> 0 <= Z -> 0 <= kn_scale_factor c.
Proof.
  intros K H [HZ| <-]; [left; eapply scale_pos; eauto|]. destruct (kn_inv _ _ _ _ H) as (M & _ & _ & ->).
  unfold Rdiv. rewrite !Rmult_0_l. lra.
Qed.

(** ** C42, C43 *)
Section Kinematics.
  Variable k : constants.
  Hypothesis Hk : constants_ok k.
  Notation m := (k_me k).

  Lemma inverse_energy E Ep e : 0 < E -> kn_compton_edge k E = Ok e -> e <= Ep <= E ->
    exists t r, kn_theta k E Ep = Ok t /\ 0 <= t <= PI /\ kn_Ep_over_E k E t = Ok r /\ E * r = Ep.
  Proof.
    intros HE He HEp. rewrite (edge_ok k Hk E ltac:(lra)) in He. injection He as <-.
    destruct (theta_ok k Hk E Ep HE HEp) as (t & Et & Bt & Ct). destruct (edge_bounds k Hk E Ep HE HEp) as [Py _].
    exists t, (Ep / E). split; [exact Et|]. split; [exact Bt|]. rewrite (ratio_ok k Hk E t ltac:(lra)), Ct, (rr_energy k Hk) by lra.
    split; [reflexivity|field; lra].
  Qed.
  Lemma edge_le E t : 0 < E -> E / (1 + 2 * (E / m)) <= E * rr (E / m) (1 - cos t) <= E.
  Proof.
    intros HE. pose proof (me_pos k Hk). assert (X : 0 < E / m) by (now apply Rdiv_lt_0_compat). pose proof (COS_bound t).
    split.
    - unfold Rdiv at 1. apply Rmult_le_compat_l; [lra|]. apply Rinv_le_contravar; [apply den_pos; lra|]. nra.
    - pose proof (rr_bound (E / m) (1 - cos t) ltac:(lra) ltac:(lra)). nra.
  Qed.
  Lemma inverse_angle E t : 0 < E -> 0 <= t <= PI -> exists r, kn_Ep_over_E k E t = Ok r /\ kn_theta k E (E * r) = Ok t.
  Proof.
    intros HE Ht. pose proof (me_pos k Hk) as Hm. rewrite (ratio_ok k Hk E t ltac:(lra)). eexists. split; [reflexivity|].
    pose proof (edge_le E t HE) as B. destruct (edge_bounds k Hk E _ HE B) as [Py B'].
    destruct (theta_ok k Hk E _ HE B) as (s & Es & Bs & Cs). rewrite Es. f_equal.
    assert (X : 0 < E / m) by (now apply Rdiv_lt_0_compat). pose proof (COS_bound t).
    assert (D : 0 < 1 + E / m * (1 - cos t)) by (apply den_pos; lra).
    assert (F : (E / (E * rr (E / m) (1 - cos t)) - 1) * m / E = 1 - cos t).
    { unfold rr. set (d := 1 + E / m * (1 - cos t)) in *. replace (E / (E * / d)) with d by (field; lra). unfold d. field. lra. }
    rewrite F in Cs. assert (Ecos : cos s = cos t) by lra. rewrite <- (acos_cos s), <- (acos_cos t) by lra. now rewrite Ecos.
  Qed.
  Lemma theta_defined E Ep e : 0 < E -> kn_compton_edge k E = Ok e ->
    (e <= Ep <= E -> exists t, kn_theta k E Ep = Ok t) /\
    (Ep = 0 -> kn_theta k E Ep = Raise ZeroDivisionError) /\
    (Ep <> 0 -> ~ e <= Ep <= E -> kn_theta k E Ep = NaN).
  Proof.
    intros HE He. pose proof (me_pos k Hk) as Hm. split; [|split].
    - intros HEp. destruct (inverse_energy E Ep e HE He HEp) as (t & _ & Et & _). eauto.
    - intros ->. unfold kn_theta, fdiv. destruct (Req_EM_T 0 0); [reflexivity|lra].
    - rewrite (edge_ok k Hk E ltac:(lra)) in He. injection He as <-. intros H0 HN. rewrite theta_cases by lra.
      destruct (Rlt_dec _ _) as [|L1]; [reflexivity|]. destruct (Rlt_dec _ _) as [|L2]; [reflexivity|]. exfalso. apply HN.
      assert (X : 0 < E / m) by (now apply Rdiv_lt_0_compat).
      assert (M : 0 < m / E) by (now apply Rdiv_lt_0_compat).
      assert (Q : 0 <= (E / Ep - 1) * (m / E) <= 2) by (replace ((E / Ep - 1) * (m / E)) with ((E / Ep - 1) * m / E) by (field; lra); lra).
      assert (Q1 : 1 <= E / Ep) by nra.
      assert (Q2 : E / Ep <= 1 + 2 * (E / m)).
      { assert (E0 : E / m * (m / E) = 1) by (field; lra). apply (Rmult_le_reg_r (m / E)); [exact M|]. nra. }
      assert (Py : 0 < Ep). { destruct (Rlt_le_dec 0 Ep) as [|N]; [assumption|]. assert (E / Ep <= 0); [|lra]. unfold Rdiv. assert (/ Ep < 0) by (apply Rinv_lt_0_compat; lra). nra. }
      assert (EE : E / Ep * Ep = E) by (field; lra). split; [|nra].
      apply (Rmult_le_reg_r (1 + 2 * (E / m))); [lra|]. replace (E / (1 + 2 * (E / m)) * (1 + 2 * (E / m))) with E by (field; lra). nra.
  Qed.
  Lemma edge_smallest E e t : 0 < E -> kn_compton_edge k E = Ok e ->
    exists r, kn_Ep_over_E k E t = Ok r /\ e <= E * r <= E /\ (E * r = e <-> cos t = -1).
  Proof.
    intros HE He. rewrite (edge_ok k Hk E ltac:(lra)) in He. injection He as <-. rewrite (ratio_ok k Hk E t ltac:(lra)).
    eexists. split; [reflexivity|]. split; [now apply edge_le|]. pose proof (me_pos k Hk) as Hm.
    assert (X : 0 < E / m) by (now apply Rdiv_lt_0_compat). pose proof (COS_bound t). unfold rr.
    pose proof (den_pos (E / m) (1 - cos t) ltac:(lra) ltac:(lra)) as D. split.
    - intros Q. unfold Rdiv at 2 in Q. apply Rmult_eq_reg_l in Q; [|lra]. 
      apply (f_equal Rinv) in Q. rewrite !Rinv_inv in Q. nra.
    - intros ->. unfold Rdiv at 2. do 2 f_equal. ring.
  Qed.
  Lemma cos_pi_only t : 0 <= t <= PI -> (cos t = -1 <-> t = PI).
  Proof.
    intros Ht. split; [|intros ->; apply cos_PI]. intros Q. rewrite <- (acos_cos t) by exact Ht. rewrite Q, <- cos_PI. apply acos_cos. pose proof PI_RGT_0. lra.
  Qed.
  Lemma ratio_decreasing E t t' : 0 < E -> 0 <= t -> t < t' -> t' <= PI ->
    exists r r', kn_Ep_over_E k E t = Ok r /\ kn_Ep_over_E k E t' = Ok r' /\ r' < r.
  Proof.
    intros HE H0 H1 H2. rewrite !(ratio_ok k Hk) by lra. do 2 eexists. split; [reflexivity|]. split; [reflexivity|].
    pose proof (me_pos k Hk) as Hm. assert (X : 0 < E / m) by (now apply Rdiv_lt_0_compat). pose proof (COS_bound t). pose proof (COS_bound t').
    assert (C : cos t' < cos t) by (apply cos_decreasing_1; lra). unfold rr.
    apply Rinv_lt_contravar; [apply Rmult_lt_0_compat; apply den_pos; lra|]. nra.
  Qed.
End Kinematics.

(** ** Integrals: C44-C47 *)
Lemma is_RInt_scal_R (f : R -> R) a b I s : is_RInt f a b I -> is_RInt (fun x => s * f x) a b (s * I).
Proof. intros H. now apply (is_RInt_scal (V := R_NormedModule)). Qed.
Lemma is_RInt_lin (f g : R -> R) a b I J s u : is_RInt f a b I -> is_RInt g a b J -> is_RInt (fun x => s * f x + u * g x) a b (s * I + u * J).
Proof. intros. apply (is_RInt_plus (V := R_NormedModule)); now apply is_RInt_scal_R. Qed.
Lemma is_RInt_change (f g : R -> R) a b I J : is_RInt f a b I -> (forall x, f x = g x) -> I = J -> is_RInt g a b J.
Proof. intros H E <-. eapply (is_RInt_ext (V := R_NormedModule)); [|exact H]. auto. Qed.
Lemma cos2_int : is_RInt (fun p => cos p ^ 2) 0 (2 * PI) PI.
Proof.
  replace PI with (((2 * PI + sin (2 * PI) * cos (2 * PI)) / 2) - ((0 + sin 0 * cos 0) / 2)).
  2: { rewrite sin_2PI, cos_2PI, sin_0. field. }
  replace (is_RInt (fun p => cos p ^ 2) 0 (2 * ((2 * PI + sin (2 * PI) * cos (2 * PI)) / 2 - (0 + sin 0 * cos 0) / 2))) with (is_RInt (fun p => cos p ^ 2) 0 (2 * PI)).
  2: { f_equal. rewrite sin_2PI, sin_0. field. }
  apply (RInt_deriv (fun p => (p + sin p * cos p) / 2)); intros p _.
  - auto_derive; [trivial|]. pose proof (sin2_cos2 p) as Q. unfold Rsqr in Q. nra.
  - apply (ex_derive_continuous (V := R_NormedModule)). auto_derive. trivial.
Qed.
Lemma one_int a b : is_RInt (fun _ => 1) a b (b - a).
Proof. replace (b - a) with (scal (b - a) 1) by (unfold scal; cbn; unfold mult; cbn; ring). apply (is_RInt_const (V := R_NormedModule)). Qed.

Section Integrals.
  Variables (k : constants) (Z : R) (c : kn).
  Hypothesis Hk : constants_ok k.
  Hypothesis Hc : KleinNishina_electron k Z = Ok c.
  Notation m := (k_me k).
  Notation s := (kn_scale_factor c).

  Lemma total_electron E : 0 < E -> kn_cs_total c E = Ok (PI * s * hh (E / m)).
  Proof.
    intros HE. destruct (kn_inv _ _ _ _ Hc) as (_ & _ & Em & _). pose proof (me_pos k Hk).
    rewrite total_ok by (rewrite ?Em; assumption). now rewrite Em.
  Qed.
  Lemma dtheta_int E : 0 < E -> integrates (kn_cs_diff_dtheta k c E) 0 PI (PI * s * hh (E / m)).
  Proof.
    intros HE. pose proof PI_RGT_0. pose proof (me_pos k Hk) as Hm. assert (X : 0 < E / m) by (now apply Rdiv_lt_0_compat).
    split; [lra|]. exists (fun t => PI * s * (sin t * KK (E / m) (1 - cos t))). split.
    - intros t _. unfold kn_cs_diff_dtheta. rewrite (unpol_ok k c Hk) by lra. cbn [bind]. f_equal. ring.
    - apply is_RInt_scal_R. rewrite <- (RInt_val _ _ _ _ (KK_int _ X)). apply subst_theta. intros v Hv. apply KK_cont; lra.
  Qed.
  Lemma dEp_int E e : 0 < E -> kn_compton_edge k E = Ok e -> integrates (kn_cs_diff_dEp k c E) e E (PI * s * hh (E / m)).
  Proof.
    intros HE He. rewrite (edge_ok k Hk) in He by lra. injection He as <-.
    pose proof (me_pos k Hk) as Hm. assert (X : 0 < E / m) by (now apply Rdiv_lt_0_compat).
    pose proof (edge_le k Hk E 0 HE) as B. split; [lra|].
    exists (fun y => PI * s * (KK (E / m) ((E / y - 1) * m / E) * (m / (y * y)))). split.
    - intros y Hy. now apply dEp_ok.
    - apply is_RInt_scal_R. rewrite <- (RInt_val _ _ _ _ (KK_int _ X)). apply subst_energy; try assumption. intros v Hv. apply KK_cont; lra.
  Qed.
  (** Integration over phi. *)
  Lemma phi_int (A B : R) : is_RInt (fun p => 1 / 2 * s * (A - 2 * B * cos p ^ 2)) 0 (2 * PI) (PI * s * (A - B)).
  Proof.
    eapply is_RInt_change; [apply (is_RInt_lin _ _ _ _ _ _ (1 / 2 * s * A) (- s * B) (one_int 0 (2 * PI)) cos2_int)|intros; eqR; lra|eqR; lra].
  Qed.
  Lemma dOmega_phi E t : 0 <= E -> integrates (kn_cs_diff_dOmega k c E t) 0 (2 * PI) (PI * s * KK (E / m) (1 - cos t)).
  Proof.
    intros HE. pose proof PI_RGT_0. split; [lra|]. eexists. split; [intros p _; apply (dOmega_ok k c Hk); exact HE|]. apply phi_int.
  Qed.
  Lemma dEp_dphi_int E e : 0 < E -> kn_compton_edge k E = Ok e ->
    integrates2 (kn_cs_diff_dEp_dphi k c E) e E 0 (2 * PI) (PI * s * hh (E / m)) /\
    integrates2 (fun p y => kn_cs_diff_dEp_dphi k c E y p) 0 (2 * PI) e E (PI * s * hh (E / m)).
  Proof.
    intros HE He. pose proof PI_RGT_0. pose proof (dEp_int E e HE He) as (L & g & Hg & Ig).
    pose proof (me_pos k Hk) as Hm. assert (X : 0 < E / m) by (now apply Rdiv_lt_0_compat).
    rewrite (edge_ok k Hk) in He by lra. injection He as <-. split.
    - split; [exact L|]. exists g. split; [|exact Ig]. intros y Hy. split; [lra|].
      eexists. split; [intros p _; apply (dEp_dphi_ok k c Hk); assumption|].
      specialize (Hg y Hy). rewrite (dEp_ok k c Hk) in Hg by assumption. injection Hg as Hg.
      set (a := K1 (E / m) ((E / y - 1) * m / E) * (m / (y * y))). set (b := K2 (E / m) ((E / y - 1) * m / E) * (m / (y * y))).
      replace (g y) with (PI * s * (a - b)); [apply phi_int|]. rewrite <- Hg. unfold KK, a, b. ring.
    - split; [lra|]. exists (fun p => 1 / 2 * s * (RInt (K1 (E / m)) 0 2 - 2 * RInt (K2 (E / m)) 0 2 * cos p ^ 2)). split.
      + intros p _. split; [exact L|]. eexists. split; [intros y Hy; apply (dEp_dphi_ok k c Hk); assumption|].
        eapply is_RInt_change; [apply (is_RInt_lin _ _ _ _ _ _ (1 / 2 * s) (- (s * cos p ^ 2))
          (subst_energy (K1 (E / m)) E m HE Hm (fun v Hv => K1_cont (E / m) v (Rlt_le _ _ X) (proj1 Hv)))
          (subst_energy (K2 (E / m)) E m HE Hm (fun v Hv => K2_cont (E / m) v (Rlt_le _ _ X) (proj1 Hv))))|intros y; cbv beta; lra|lra].
      + rewrite hh_split by exact X. apply phi_int.
  Qed.
  Lemma dOmega_int E : 0 < E ->
    integrates2 (fun t p => oscale (sin t) (kn_cs_diff_dOmega k c E t p)) 0 PI 0 (2 * PI) (PI * s * hh (E / m)) /\
    integrates2 (fun p t => oscale (sin t) (kn_cs_diff_dOmega k c E t p)) 0 (2 * PI) 0 PI (PI * s * hh (E / m)).
  Proof.
    intros HE. pose proof PI_RGT_0. pose proof (me_pos k Hk) as Hm. assert (X : 0 < E / m) by (now apply Rdiv_lt_0_compat). split.
    - split; [lra|]. exists (fun t => sin t * (PI * s * KK (E / m) (1 - cos t))). split.
      + intros t _. split; [lra|]. exists (fun p => sin t * (1 / 2 * s * (K1 (E / m) (1 - cos t) - 2 * K2 (E / m) (1 - cos t) * cos p ^ 2))). split.
        * intros p _. rewrite (dOmega_ok k c Hk) by lra. reflexivity.
        * apply is_RInt_scal_R. apply phi_int.
      + assert (C : forall v, 0 <= v <= 2 -> continuous (KK (E / m)) v) by (intros; apply KK_cont; lra).
        pose proof (is_RInt_scal_R _ _ _ _ (PI * s) (subst_theta (KK (E / m)) C)) as I.
        eapply is_RInt_change; [exact I| |].
        * intros t. cbv beta. lra.
        * f_equal. apply RInt_val. now apply KK_int.
    - split; [lra|]. exists (fun p => 1 / 2 * s * (RInt (K1 (E / m)) 0 2 - 2 * RInt (K2 (E / m)) 0 2 * cos p ^ 2)). split.
      + intros p _. split; [lra|]. exists (fun t => sin t * (1 / 2 * s * (K1 (E / m) (1 - cos t) - 2 * K2 (E / m) (1 - cos t) * cos p ^ 2))). split.
        * intros t _. rewrite (dOmega_ok k c Hk) by lra. reflexivity.
        * eapply is_RInt_change; [apply (is_RInt_lin _ _ _ _ _ _ (1 / 2 * s) (- (s * cos p ^ 2))
            (subst_theta (K1 (E / m)) (fun v Hv => K1_cont (E / m) v (Rlt_le _ _ X) (proj1 Hv)))
            (subst_theta (K2 (E / m)) (fun v Hv => K2_cont (E / m) v (Rlt_le _ _ X) (proj1 Hv))))|intros t; cbv beta; lra|lra].
      + rewrite hh_split by exact X. apply phi_int.
  Qed.
End Integrals.

Lemma KK_poly x v : KK x v = rr x v ^ 3 + rr x v - rr x v ^ 2 * (v * (2 - v)).
Proof. reflexivity. Qed.
Lemma v_range v : 0 <= v <= 2 -> 0 <= v * (2 - v) <= 1.
Proof. intros. pose proof (pow2_ge_0 (1 - v)). split; nra. Qed.
Lemma KK_pos x v : 0 <= x -> 0 <= v <= 2 -> 0 < KK x v.
Proof.
  intros Hx Hv. rewrite KK_poly. pose proof (rr_bound x v Hx ltac:(lra)) as B. pose proof (v_range v Hv). set (r := rr x v) in *. set (u := v * (2 - v)) in *.
  replace (r ^ 3 + r - r ^ 2 * u) with (r * (r * r + 1 - r * u)) by ring. apply Rmult_lt_0_compat; nra.
Qed.
Lemma poly_incr u r r' : 0 <= u <= 1 -> 0 < r -> r < r' -> r ^ 3 + r - r ^ 2 * u < r' ^ 3 + r' - r' ^ 2 * u.
Proof.
  intros Hu Hr H. assert (D : 0 < (r' - r) * (r' * r' + r * r' + r * r + 1 - u * (r + r'))); [|nra].
  apply Rmult_lt_0_compat; [lra|]. assert (u * (r + r') <= r + r') by nra. pose proof (pow2_ge_0 (r - 1 / 2)). pose proof (pow2_ge_0 (r' - 1 / 2)). nra.
Qed.
Lemma KK_decr x y v : 0 <= x -> x < y -> 0 < v <= 2 -> KK y v < KK x v.
Proof.
  intros Hx Hy Hv. rewrite !KK_poly. apply poly_incr; [apply v_range; lra|apply rr_bound; lra|].
  unfold rr. apply Rinv_lt_contravar; [apply Rmult_lt_0_compat; apply den_pos; lra|]. nra.
Qed.
Lemma KK0_int : RInt (KK 0) 0 2 = 8 / 3.
Proof.
  apply RInt_val. replace (8 / 3) with ((2 * 2 - 2 ^ 2 + 2 ^ 3 / 3) - (2 * 0 - 0 ^ 2 + 0 ^ 3 / 3)) by field.
  apply (RInt_deriv (fun v => 2 * v - v ^ 2 + v ^ 3 / 3)); intros v _.
  - unfold KK, K1, K2, rr. auto_derive; [trivial|]. replace (1 + 0 * v) with 1 by ring. field.
  - apply (ex_derive_continuous (V := R_NormedModule)). unfold KK, K1, K2, rr. auto_derive. repeat split; lra.
Qed.
Lemma int_decr x y : 0 <= x -> x < y -> RInt (KK y) 0 2 < RInt (KK x) 0 2.
Proof.
  intros Hx Hy. apply RInt_lt; [lra| | |].
  - intros v Hv. apply KK_cont; lra.
  - intros v Hv. apply KK_cont; lra.
  - intros v Hv. apply KK_decr; lra.
Qed.
Lemma hh_int x : 0 < x -> hh x = RInt (KK x) 0 2.
Proof. intros. symmetry. apply RInt_val. now apply KK_int. Qed.
Lemma hh_decr x y : 0 < x -> x < y -> hh y < hh x.
Proof. intros. rewrite !hh_int by lra. apply int_decr; lra. Qed.
Lemma hh_lt x : 0 < x -> hh x < 8 / 3.
Proof. intros. rewrite hh_int, <- KK0_int by lra. apply int_decr; lra. Qed.
Lemma hh_pos x : 0 < x -> 0 < hh x.
Proof. intros. rewrite hh_int by lra. apply RInt_gt_0; [lra| |]; intros v Hv; [apply KK_pos; lra|apply KK_cont; lra]. Qed.
Lemma hh_near x : 0 < x -> 8 / 3 - 16 * x <= hh x.
Proof.
  intros Hx. rewrite hh_int, <- KK0_int by lra.
  assert (D : RInt (KK 0) 0 2 - RInt (KK x) 0 2 <= 8 * x * (2 - 0)).
  { rewrite <- RInt_minus_R by (apply ex_KK; lra). rewrite <- RInt_const_R. apply RInt_le; [lra| | |].
    - apply (ex_RInt_minus (V := R_NormedModule)); apply ex_KK; lra.
    - apply (ex_RInt_const (V := R_NormedModule)).
    - intros v Hv. rewrite !KK_poly. pose proof (rr_bound x v ltac:(lra) ltac:(lra)) as B. pose proof (v_range v ltac:(lra)) as U.
      assert (R0 : rr 0 v = 1) by (unfold rr; field_simplify; lra). rewrite R0.
      assert (R1 : 1 - rr x v <= 2 * x).
      { pose proof (den_pos x v ltac:(lra) ltac:(lra)). assert (RR : rr x v * (1 + x * v) = 1) by (unfold rr; field; lra). nra. }
      set (r := rr x v) in *. set (u := v * (2 - v)) in *.
      replace (1 ^ 3 + 1 - 1 ^ 2 * u - (r ^ 3 + r - r ^ 2 * u)) with ((1 - r) * (2 + r + r * r - u * (1 + r))) by ring.
      assert (0 <= 2 + r + r * r - u * (1 + r) <= 4) by nra. nra. }
  lra.
Qed.
Lemma hh_far x : 1 <= x -> hh x <= 6 * (ln (1 + 2 * x) / (1 + 2 * x)).
Proof.
  intros Hx. assert (I : is_RInt (fun v => 2 * rr x v) 0 2 (2 / x * ln (1 + 2 * x))).
  { replace (2 / x * ln (1 + 2 * x)) with (2 / x * ln (1 + x * 2) - 2 / x * ln (1 + x * 0)).
    2: { replace (1 + x * 0) with 1 by ring. rewrite ln_1. replace (1 + x * 2) with (1 + 2 * x) by ring. ring. }
    apply (RInt_deriv (fun v => 2 / x * ln (1 + x * v))); intros v; rewrite Rmin_left, Rmax_right by lra; intros Hv;
      pose proof (den_pos x v ltac:(lra) ltac:(lra)).
    - unfold rr. auto_derive; [lra|]. field. lra.
    - apply (ex_derive_continuous (V := R_NormedModule)). unfold rr. auto_derive. lra. }
  rewrite hh_int by lra. apply Rle_trans with (2 / x * ln (1 + 2 * x)).
  - rewrite <- (RInt_val _ _ _ _ I). apply RInt_le; [lra|apply ex_KK; lra|eexists; exact I|].
    intros v Hv. rewrite KK_poly. pose proof (rr_bound x v ltac:(lra) ltac:(lra)) as B. pose proof (v_range v ltac:(lra)) as U. set (r := rr x v) in *.
    assert (r ^ 3 <= r) by nra. assert (0 <= r ^ 2 * (v * (2 - v))) by (apply Rmult_le_pos; [apply pow2_ge_0|lra]). lra.
  - assert (L : 0 <= ln (1 + 2 * x)) by (rewrite <- ln_1; apply ln_le; lra).
    replace (6 * (ln (1 + 2 * x) / (1 + 2 * x))) with (6 / (1 + 2 * x) * ln (1 + 2 * x)) by (field; lra). apply Rmult_le_compat_r; [exact L|].
    apply (Rmult_le_reg_r (x * (1 + 2 * x))); [nra|]. replace (2 / x * (x * (1 + 2 * x))) with (2 * (1 + 2 * x)) by (field; lra).
    replace (6 / (1 + 2 * x) * (x * (1 + 2 * x))) with (6 * x) by (field; lra). lra.
Qed.
Lemma hh_lim0 : filterlim hh (at_right 0) (locally (8 / 3)).
Proof.
  apply filterlim_locally. intros eps. assert (P : 0 < eps / 16) by (destruct eps; cbn; lra). exists (mkposreal _ P). intros x Hx Px. cbn in Px.
  unfold ball in *; cbn in *. unfold AbsRing_ball, abs, minus, plus, opp in *; cbn in *.
  rewrite Rplus_comm in Hx. rewrite Ropp_0, Rplus_0_l, Rabs_pos_eq in Hx by lra. pose proof (hh_near x Px). pose proof (hh_lt x Px). apply Rabs_def1; lra.
Qed.
Lemma hh_lim_inf : is_lim hh p_infty 0.
Proof.
  assert (L : is_lim (fun x => 6 * (ln (1 + 2 * x) / (1 + 2 * x))) p_infty 0).
  { replace (Finite 0) with (Rbar_mult 6 0) by (cbn; f_equal; ring). apply is_lim_scal_l.
    apply (is_lim_comp (fun y => ln y / y) (fun x => 1 + 2 * x) p_infty 0 p_infty is_lim_div_ln_p).
    - apply is_lim_spec. intros M. exists (Rmax 0 M). intros x Hx. pose proof (Rmax_l 0 M). pose proof (Rmax_r 0 M). lra.
    - exists 0. intros x Hx. discriminate. }
  apply (is_lim_le_le_loc (fun _ => 0) (fun x => 6 * (ln (1 + 2 * x) / (1 + 2 * x)))); [|apply is_lim_const|exact L].
  exists 1. intros x Hx. split; [left; apply hh_pos; lra|apply hh_far; lra].
Qed.
