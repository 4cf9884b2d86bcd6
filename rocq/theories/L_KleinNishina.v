(** Proofs for the Compton cross section. *)
From Coq Require Import Reals List ZArith Lra Lia.
From Coquelicot Require Import Coquelicot.
From Verif Require Import Py Spec M_Num M_Grid M_CrossSection M_KleinNishina S_KleinNishina L_RInt L_Dist.
Import ListNotations.
Open Scope R_scope.

(** ** The integral over v = 1 - cos(theta) *)
Definition rr (x v : R) : R := / (1 + x * v).
Definition K1 (x v : R) : R := rr x v ^ 3 + rr x v.
Definition K2 (x v : R) : R := rr x v ^ 2 * (v * (2 - v)).
Definition KK (x v : R) : R := K1 x v - K2 x v.
Definition hh (x : R) : R :=
  / x ^ 3 * ((2 * x * (2 + x * (1 + x) * (8 + x))) / ((1 + 2 * x) ^ 2) + ((x - 2) * x - 2) * ln (1 + 2 * x)).

Definition AA (x u : R) : R :=
  (- / (2 * u ^ 2) + ln u - 2 / x * (ln u + / u) + / x ^ 2 * (u - 2 * ln u - / u)) / x.

Lemma den_pos x v : 0 <= x -> 0 <= v -> 0 < 1 + x * v.
Proof. intros. assert (0 <= x * v) by nra. lra. Qed.
Lemma rr_bound x v : 0 <= x -> 0 <= v -> 0 < rr x v <= 1.
Proof.
  intros Hx Hv. pose proof (den_pos x v Hx Hv). unfold rr. split; [now apply Rinv_0_lt_compat|].
  rewrite <- Rinv_1. apply Rinv_le_contravar; nra.
Qed.
Lemma rr_cont x v : 0 <= x -> 0 <= v -> continuous (rr x) v.
Proof.
  intros Hx Hv. pose proof (den_pos x v Hx Hv). apply (ex_derive_continuous (V := R_NormedModule)). unfold rr. auto_derive. lra.
Qed.
Lemma K1_cont x v : 0 <= x -> 0 <= v -> continuous (K1 x) v.
Proof.
  intros Hx Hv. pose proof (den_pos x v Hx Hv). apply (ex_derive_continuous (V := R_NormedModule)). unfold K1, rr. auto_derive. repeat split; lra.
Qed.
Lemma K2_cont x v : 0 <= x -> 0 <= v -> continuous (K2 x) v.
Proof.
  intros Hx Hv. pose proof (den_pos x v Hx Hv). apply (ex_derive_continuous (V := R_NormedModule)). unfold K2, rr. auto_derive. repeat split; lra.
Qed.
Lemma KK_cont x v : 0 <= x -> 0 <= v -> continuous (KK x) v.
Proof. intros. apply (continuous_minus (V := R_NormedModule)); [now apply K1_cont|now apply K2_cont]. Qed.

Lemma KK_derive x v : 0 < x -> 0 <= v -> is_derive (fun v => AA x (1 + x * v)) v (KK x v).
Proof.
  intros Hx Hv. pose proof (den_pos x v ltac:(lra) Hv) as D. unfold AA, KK, K1, K2, rr. auto_derive.
  - repeat split; try lra. nra.
  - field. lra.
Qed.
Lemma KK_int x : 0 < x -> is_RInt (KK x) 0 2 (hh x).
Proof.
  intros Hx. replace (hh x) with (AA x (1 + x * 2) - AA x (1 + x * 0)).
  - apply (RInt_deriv (fun v => AA x (1 + x * v))); intros v; rewrite Rmin_left, Rmax_right by lra; intros Hv.
    + apply KK_derive; lra.
    + apply KK_cont; lra.
  - unfold AA, hh. replace (1 + x * 0) with 1 by ring. rewrite ln_1. replace (1 + x * 2) with (1 + 2 * x) by ring. field. lra.
Qed.
Lemma ex_K1 x : 0 <= x -> ex_RInt (K1 x) 0 2.
Proof. intros. apply (ex_RInt_continuous (V := R_CompleteNormedModule)). intros v. rewrite Rmin_left, Rmax_right by lra. intros. apply K1_cont; lra. Qed.
Lemma ex_K2 x : 0 <= x -> ex_RInt (K2 x) 0 2.
Proof. intros. apply (ex_RInt_continuous (V := R_CompleteNormedModule)). intros v. rewrite Rmin_left, Rmax_right by lra. intros. apply K2_cont; lra. Qed.
Lemma ex_KK x : 0 <= x -> ex_RInt (KK x) 0 2.
Proof. intros. apply (ex_RInt_continuous (V := R_CompleteNormedModule)). intros v. rewrite Rmin_left, Rmax_right by lra. intros. apply KK_cont; lra. Qed.
Lemma hh_split x : 0 < x -> hh x = RInt (K1 x) 0 2 - RInt (K2 x) 0 2.
Proof.
  intros Hx. rewrite <- (RInt_val _ _ _ _ (KK_int x Hx)). unfold KK. apply RInt_minus_R; [apply ex_K1|apply ex_K2]; lra.
Qed.

(** Substitutions v = 1 - cos(theta) and v = (E/Ep - 1)/x. *)
Lemma subst_theta (f : R -> R) : (forall v, 0 <= v <= 2 -> continuous f v) ->
  is_RInt (fun t => sin t * f (1 - cos t)) 0 PI (RInt f 0 2).
Proof.
  intros C. pose proof PI_RGT_0.
  assert (E0 : 1 - cos 0 = 0) by (rewrite cos_0; ring). assert (E1 : 1 - cos PI = 2) by (rewrite cos_PI; ring).
  replace (RInt f 0 2) with (RInt f (1 - cos 0) (1 - cos PI)) by now rewrite E0, E1.
  apply (is_RInt_comp (V := R_CompleteNormedModule) f (fun t => 1 - cos t) sin).
  - intros t _. apply C. pose proof (COS_bound t). lra.
  - intros t _. split; [auto_derive; [trivial|ring]|]. apply (ex_derive_continuous (V := R_NormedModule)). auto_derive. trivial.
Qed.
Lemma subst_energy (f : R -> R) E m : 0 < E -> 0 < m -> (forall v, 0 <= v <= 2 -> continuous f v) ->
  is_RInt (fun y => f ((E / y - 1) * m / E) * (m / (y * y))) (E / (1 + 2 * (E / m))) E (RInt f 0 2).
Proof.
  intros HE Hm C. set (e := E / (1 + 2 * (E / m))).
  assert (X : 0 < E / m) by (now apply Rdiv_lt_0_compat).
  assert (He : 0 < e) by (apply Rdiv_lt_0_compat; lra).
  assert (Hee : e <= E). { unfold e. apply (Rmult_le_reg_r (1 + 2 * (E / m))); [lra|]. replace (E / (1 + 2 * (E / m)) * (1 + 2 * (E / m))) with E by (field; lra). nra. }
  assert (Ve : (E / e - 1) * m / E = 2). { unfold e. field. lra. }
  assert (VE : (E / E - 1) * m / E = 0) by (field; lra).
  assert (B : forall y, e <= y <= E -> 0 <= (E / y - 1) * m / E <= 2).
  { intros y Hy. assert (1 <= E / y) by (apply (Rmult_le_reg_r y); [lra|]; replace (E / y * y) with E by (field; lra); lra).
    assert (M : 0 < m / E) by (now apply Rdiv_lt_0_compat).
    split.
    - replace ((E / y - 1) * m / E) with ((E / y - 1) * (m / E)) by (field; lra). nra.
    - rewrite <- Ve. replace ((E / y - 1) * m / E) with ((E / y - 1) * (m / E)) by (field; lra). 
      replace ((E / e - 1) * m / E) with ((E / e - 1) * (m / E)) by (field; lra). apply Rmult_le_compat_r; [lra|].
      assert (E / y <= E / e) by (apply Rmult_le_compat_l; [lra|]; apply Rinv_le_contravar; lra). lra. }
  assert (I : is_RInt (fun y => - (m / (y * y)) * f ((E / y - 1) * m / E)) e E (RInt f 2 0)).
  { replace (RInt f 2 0) with (RInt f ((E / e - 1) * m / E) ((E / E - 1) * m / E)) by now rewrite Ve, VE.
    apply (is_RInt_comp (V := R_CompleteNormedModule) f (fun y => (E / y - 1) * m / E) (fun y => - (m / (y * y)))).
    - intros y. rewrite Rmin_left, Rmax_right by lra. intros Hy. apply C. now apply B.
    - intros y. rewrite Rmin_left, Rmax_right by lra. intros Hy. split.
      + auto_derive; [lra|]. field. lra.
      + apply (ex_derive_continuous (V := R_NormedModule)). auto_derive. nra. }
  apply (is_RInt_opp (V := R_NormedModule)) in I.
  assert (S1 : opp (RInt f 2 0) = RInt f 0 2) by (apply (opp_RInt_swap (V := R_CompleteNormedModule)); apply (ex_RInt_continuous (V := R_CompleteNormedModule)); intros v; rewrite Rmin_right, Rmax_left by lra; apply C).
  rewrite <- S1. eapply (is_RInt_ext (V := R_NormedModule)); [|exact I]. intros y _. unfold opp; cbn. ring.
Qed.

(** ** The methods in terms of these functions *)
Section Methods.
  Variables (k : constants) (c : kn).
  Hypothesis Hk : constants_ok k.
  Notation m := (k_me k).
  Lemma me_pos : 0 < m. Proof. apply Hk. Qed.
  Lemma ratio_ok E t : 0 <= E -> kn_Ep_over_E k E t = Ok (rr (E / m) (1 - cos t)).
  Proof.
    intros HE. pose proof me_pos. unfold kn_Ep_over_E, fdiv, np_div. destruct (Req_EM_T m 0); [lra|]. cbn [bind].
    assert (0 <= E / m) by (apply Rmult_le_pos; [lra|left; now apply Rinv_0_lt_compat]). pose proof (COS_bound t).
    pose proof (den_pos (E / m) (1 - cos t) ltac:(lra) ltac:(lra)). destruct (Req_EM_T _ 0); [lra|]. unfold rr. f_equal. unfold Rdiv at 1. ring.
  Qed.
  Lemma edge_ok E : 0 <= E -> kn_compton_edge k E = Ok (E / (1 + 2 * (E / m))).
  Proof.
    intros HE. unfold kn_compton_edge. rewrite ratio_ok by exact HE. cbn [bind]. unfold rr. rewrite cos_PI. f_equal. unfold Rdiv.
    rewrite Rmult_comm. do 2 f_equal. ring.
  Qed.
  Lemma sin2 t : sin t ^ 2 = (1 - cos t) * (2 - (1 - cos t)).
  Proof. pose proof (sin2_cos2 t) as H. unfold Rsqr in H. nra. Qed.
  Lemma dOmega_ok E t p : 0 <= E -> kn_cs_diff_dOmega k c E t p =
    Ok (1 / 2 * kn_scale_factor c * (K1 (E / m) (1 - cos t) - 2 * K2 (E / m) (1 - cos t) * cos p ^ 2)).
  Proof.
    intros HE. unfold kn_cs_diff_dOmega. rewrite ratio_ok by exact HE. cbn [bind]. pose proof me_pos. pose proof (COS_bound t).
    assert (X : 0 <= E / m) by (apply Rmult_le_pos; [lra|left; now apply Rinv_0_lt_compat]).
    pose proof (rr_bound (E / m) (1 - cos t) X ltac:(lra)) as B. unfold np_div. destruct (Req_EM_T _ 0); [lra|]. cbn [bind]. f_equal.
    unfold K1, K2. rewrite sin2. field. lra.
  Qed.
  Lemma unpol_ok E t : 0 <= E -> kn_cs_diff_dOmega_unpolarized k c E t = Ok (PI * kn_scale_factor c * KK (E / m) (1 - cos t)).
  Proof.
    intros HE. unfold kn_cs_diff_dOmega_unpolarized. rewrite ratio_ok by exact HE. cbn [bind]. pose proof me_pos. pose proof (COS_bound t).
    assert (X : 0 <= E / m) by (apply Rmult_le_pos; [lra|left; now apply Rinv_0_lt_compat]).
    pose proof (rr_bound (E / m) (1 - cos t) X ltac:(lra)) as B. unfold np_div. destruct (Req_EM_T _ 0); [lra|]. cbn [bind]. f_equal.
    unfold KK, K1, K2. rewrite sin2. field. lra.
  Qed.
  Lemma theta_cases E y : 0 < E -> y <> 0 -> 
    kn_theta k E y = if Rlt_dec (1 - (E / y - 1) * m / E) (-1) then NaN else if Rlt_dec 1 (1 - (E / y - 1) * m / E) then NaN else Ok (acos (1 - (E / y - 1) * m / E)).
  Proof.
    intros HE Hy. unfold kn_theta, fdiv. destruct (Req_EM_T y 0); [lra|]. cbn [bind]. destruct (Req_EM_T E 0); [lra|]. reflexivity.
  Qed.
  Lemma edge_bounds E y : 0 < E -> E / (1 + 2 * (E / m)) <= y <= E -> 0 < y /\ 0 <= (E / y - 1) * m / E <= 2.
  Proof.
    intros HE Hy. pose proof me_pos as Hm. assert (X : 0 < E / m) by (now apply Rdiv_lt_0_compat).
    assert (He : 0 < E / (1 + 2 * (E / m))) by (apply Rdiv_lt_0_compat; lra).
    assert (Py : 0 < y) by lra. split; [exact Py|].
    assert (M : 0 < m / E) by (now apply Rdiv_lt_0_compat).
    assert (H1 : 1 <= E / y) by (apply (Rmult_le_reg_r y); [lra|]; replace (E / y * y) with E by (field; lra); lra).
    assert (H2 : E / y <= 1 + 2 * (E / m)).
    { apply (Rmult_le_reg_r y); [lra|]. replace (E / y * y) with E by (field; lra).
      replace E with ((1 + 2 * (E / m)) * (E / (1 + 2 * (E / m)))) at 1 by (field; lra). nra. }
    replace ((E / y - 1) * m / E) with ((E / y - 1) * (m / E)) by (field; lra).
    assert (E0 : E / m * (m / E) = 1) by (field; lra). split; nra.
  Qed.
  Lemma theta_ok E y : 0 < E -> E / (1 + 2 * (E / m)) <= y <= E ->
    exists t, kn_theta k E y = Ok t /\ 0 <= t <= PI /\ 1 - cos t = (E / y - 1) * m / E.
  Proof.
    intros HE Hy. destruct (edge_bounds E y HE Hy) as [Py B]. rewrite theta_cases by lra.
    destruct (Rlt_dec _ _); [lra|]. destruct (Rlt_dec _ _); [lra|]. eexists. split; [reflexivity|]. split; [apply acos_bound|].
    rewrite cos_acos by lra. ring.
  Qed.
  Lemma rr_energy E y : 0 < E -> 0 < y -> rr (E / m) ((E / y - 1) * m / E) = y / E.
  Proof. intros. pose proof me_pos. unfold rr. replace (1 + E / m * ((E / y - 1) * m / E)) with (E / y) by (field; lra). field. lra. Qed.

  Lemma dEp_ok E y : 0 < E -> E / (1 + 2 * (E / m)) <= y <= E ->
    kn_cs_diff_dEp k c E y = Ok (PI * kn_scale_factor c * (KK (E / m) ((E / y - 1) * m / E) * (m / (y * y)))).
  Proof.
    intros HE Hy. destruct (theta_ok E y HE Hy) as (t & Et & Bt & Ct). destruct (edge_bounds E y HE Hy) as [Py B].
    unfold kn_cs_diff_dEp. rewrite Et. cbn [bind]. rewrite unpol_ok by lra. cbn [bind]. rewrite Ct. unfold np_div. destruct (Req_EM_T (y * y) 0); [nra|].
    f_equal. field. lra.
  Qed.
  Lemma dEp_dphi_ok E y p : 0 < E -> E / (1 + 2 * (E / m)) <= y <= E ->
    kn_cs_diff_dEp_dphi k c E y p = Ok (1 / 2 * kn_scale_factor c * (K1 (E / m) ((E / y - 1) * m / E) * (m / (y * y)) - 2 * (K2 (E / m) ((E / y - 1) * m / E) * (m / (y * y))) * cos p ^ 2)).
  Proof.
    intros HE Hy. destruct (theta_ok E y HE Hy) as (t & Et & Bt & Ct). destruct (edge_bounds E y HE Hy) as [Py B].
    unfold kn_cs_diff_dEp_dphi. rewrite Et. cbn [bind]. rewrite dOmega_ok by lra. cbn [bind]. rewrite Ct. unfold np_div. destruct (Req_EM_T (y * y) 0); [nra|].
    f_equal. field. lra.
  Qed.
  Lemma total_ok E : 0 < kn_mc2 c -> 0 < E -> kn_cs_total c E = Ok (PI * kn_scale_factor c * hh (E / kn_mc2 c)).
  Proof.
    intros Hm HE. assert (X : 0 < E / kn_mc2 c) by (now apply Rdiv_lt_0_compat). unfold kn_cs_total, fdiv at 1. destruct (Req_EM_T (kn_mc2 c) 0); [lra|]. cbn [bind].
    set (x := E / kn_mc2 c) in *. unfold pow_m3, fdiv, np_log. destruct (Req_EM_T x 0); [lra|]. cbn [bind].
    destruct (Req_EM_T ((1 + 2 * x) ^ 2) 0) as [Z|]; [exfalso; assert (0 < (1 + 2 * x) ^ 2) by (apply pow_lt; lra); lra|]. cbn [bind].
    destruct (Rlt_dec 0 (1 + 2 * x)); [|lra]. cbn [bind]. f_equal. unfold hh. ring.
  Qed.
End Methods.
