(** The inversion of the pseudo-Voigt CDF in floating-point arithmetic: accuracy and convergence. *)
From Coq Require Import Reals List ZArith Lra Lia Psatz.
From Flocq Require Import Core.
From Coquelicot Require Import Coquelicot.
From Verif Require Import Py Spec M_Num M_Grid M_Dist M_Resonance M_PseudoVoigt M_Float M_Float3 S_Resonance S_PseudoVoigt S_Float S_Float3
  L_RInt L_Dist L_Newton L_Newton2 L_Newton3 L_PseudoVoigt L_PseudoVoigt2 L_PseudoVoigt4 L_PseudoVoigt5 L_PseudoVoigt6 L_PseudoVoigt8 L_Float L_Float3 L_FNewton L_FNewton2.
Import ListNotations.
Open Scope R_scope.

Lemma peak_43 p : pv_valid p -> pvf p (pv_energy p) * pv_Gamma p <= 4 / 3.
Proof.
  intros V. pose proof V as (HG & _). pose proof (pv_peak p V) as K. pose proof PI_lower as P1.
  apply Rle_trans with (4 / (PI * pv_Gamma p) * pv_Gamma p); [apply Rmult_le_compat_r; lra|].
  replace (4 / (PI * pv_Gamma p) * pv_Gamma p) with (4 / PI) by (field; lra).
  apply Rmult_le_compat_l; [lra|]. apply Rinv_le_contravar; lra.
Qed.
Lemma pv_lip p : pv_valid p -> forall a b, Rabs (pvF p a - pvF p b) <= 3 / 2 / pv_Gamma p * Rabs (a - b).
Proof.
  intros V. pose proof V as (HG & _). pose proof (peak_43 p V) as PK. pose proof (pv_density p V) as D.
  assert (B : pvf p (pv_energy p) <= 3 / 2 / pv_Gamma p).
  { apply (Rmult_le_reg_r (pv_Gamma p)); [exact HG|]. replace (3 / 2 / pv_Gamma p * pv_Gamma p) with (3 / 2) by (field; lra). lra. }
  assert (G : forall a b, a <= b -> 0 <= pvF p b - pvF p a <= 3 / 2 / pv_Gamma p * (b - a)).
  { intros a b Hab. pose proof (dens_le _ _ D a b Hab). split; [lra|].
    pose proof (is_RInt_unique (V := R_CompleteNormedModule) _ _ _ _ (dens_is_RInt _ _ D a b)) as E.
    rewrite <- E, <- RInt_const_R. apply RInt_le; [assumption|eexists; apply (dens_is_RInt _ _ D)|apply ex_RInt_const|].
    intros x _. eapply Rle_trans; [apply (peak _ _ (pv_unimodal p V))|exact B]. }
  intros a b. destruct (Rle_dec a b) as [C|C].
  - pose proof (G a b C). rewrite !Rabs_left1 by lra. lra.
  - pose proof (G b a ltac:(lra)). rewrite !Rabs_pos_eq by lra. lra.
Qed.

Section Evaluated.
  Variables (p : pv) (cdf pdf : R -> R) (eps delta : R).
  Hypothesis V : pv_valid p.
  Hypothesis HC : computes p eps delta cdf pdf.

  Lemma ev_cdf x : double x -> double (cdf x) /\ Rabs (cdf x - pvF p x) <= eps.
  Proof. intros Dx. destruct (HC x _ _ Dx (pv_cdf_ok p x V) (pv_pdf_ok p x V)) as (A & B & _). auto. Qed.
  Lemma ev_pdf x : double x -> Rabs (pdf x - pvf p x) <= delta * pvf p x + 2 * half_smallest.
  Proof. intros Dx. destruct (HC x _ _ Dx (pv_cdf_ok p x V) (pv_pdf_ok p x V)) as (A & B & C). auto. Qed.
  Lemma ev_bound : 0 <= delta <= 1 / 100 -> pv_Gamma p <= 10 ^ 20 -> forall x, double x -> Rabs (pdf x) <= 3 / 2 / pv_Gamma p.
  Proof.
    intros Hd HG x Dx. pose proof (ev_pdf x Dx) as E. pose proof V as (PG & _). pose proof (dens_pos _ _ (pv_density p V) x) as P.
    pose proof (peak _ _ (pv_unimodal p V) x) as PK. pose proof (peak_43 p V) as P43.
    apply (Rmult_le_reg_r (pv_Gamma p)); [exact PG|]. replace (3 / 2 / pv_Gamma p * pv_Gamma p) with (3 / 2) by (field; lra).
    assert (A : Rabs (pdf x) <= 101 / 100 * pvf p (pv_energy p) + 2 * half_smallest).
    { replace (pdf x) with ((pdf x - pvf p x) + pvf p x) by ring. eapply Rle_trans; [apply Rabs_triang|]. rewrite (Rabs_pos_eq (pvf p x)) by lra.
      assert (delta * pvf p x <= 1 / 100 * pvf p x) by (apply Rmult_le_compat_r; lra). lra. }
    rewrite <- eta_half in A. pose proof eta_tiny as ET. assert (/ 2 ^ 100 <= / 10 ^ 25) by (apply Rinv_le_contravar; lra).
    apply Rle_trans with ((101 / 100 * pvf p (pv_energy p) + 2 * eta) * pv_Gamma p); [apply Rmult_le_compat_r; lra|].
    assert (eta * pv_Gamma p <= / 10 ^ 25 * 10 ^ 20) by (apply Rmult_le_compat; lra). lra.
  Qed.

  Lemma good_of q x : good (pvF p) (3 / 2 / pv_Gamma p) eps q x -> exists F, pv_cdf p x = Ok F /\ Rabs (F - q) <= eps + (5 / 10 ^ 8 + Rabs x / 2 ^ 50) / pv_Gamma p.
  Proof.
    intros G. exists (pvF p x). split; [now apply pv_cdf_ok|]. eapply Rle_trans; [exact G|]. apply Rplus_le_compat_l. pose proof V as (PG & _).
    replace (3 / 2 / pv_Gamma p * (3 / 10 ^ 8 + Rabs x / 2 ^ 51 * (1 + / 2 ^ 10))) with ((3 / 2 * (3 / 10 ^ 8 + Rabs x / 2 ^ 51 * (1 + / 2 ^ 10))) * / pv_Gamma p) by (unfold Rdiv; ring).
    apply Rmult_le_compat_r; [left; now apply Rinv_0_lt_compat|]. pose proof (Rabs_pos x).
    replace (Rabs x / 2 ^ 51) with (Rabs x / 2 ^ 50 / 2) by field. assert (0 <= Rabs x / 2 ^ 50) by (apply Rmult_le_pos; lra). lra.
  Qed.
End Evaluated.

Lemma fscalar_accuracy k E w amu T p cdf pdf eps delta n fb q ws x : pv_params k E w amu T -> PseudoVoigtDistribution k E w amu T = Ok p ->
  double E -> double q -> computes p eps delta cdf pdf -> 0 <= delta <= 1 / 100 -> pv_Gamma p <= 10 ^ 20 ->
  fppf_scalar n cdf pdf E fb q = (ws, Ok (Some [Finite x])) -> inverted ws ->
  exists F, pv_cdf p x = Ok F /\ Rabs (F - q) <= eps + (5 / 10 ^ 8 + Rabs x / 2 ^ 50) / pv_Gamma p.
Proof.
  intros P EP DE Dq HC Hd HG H I. destruct (valid_of _ _ _ _ _ _ P EP) as [V HE]. pose proof V as (PG & _).
  unfold fppf_scalar in H. destruct (fnewton_scalar n _ _ E) as [y| |e] eqn:EN.
  - injection H as <- <-. apply (good_of p eps V). 
    refine (scalar_good (pvF p) cdf pdf _ eps q _ (pv_lip p V) Dq (ev_cdf p cdf pdf eps delta V HC) (ev_bound p cdf pdf eps delta V HC Hd HG) n E y DE EN).
    apply Rdiv_lt_0_compat; lra.
  - discriminate.
  - destruct e; try discriminate. injection H as <- _. exfalso. apply I. now left.
Qed.
Lemma farray_accuracy k E w amu T p cdf pdf eps delta n fb qs ws xs : pv_params k E w amu T -> PseudoVoigtDistribution k E w amu T = Ok p ->
  double E -> List.Forall double qs -> computes p eps delta cdf pdf -> 0 <= delta <= 1 / 100 -> pv_Gamma p <= 10 ^ 20 ->
  fppf_array n cdf pdf E fb qs = (ws, Ok (Some xs)) -> inverted ws ->
  Forall2 (fun q x => exists e F, x = Finite e /\ pv_cdf p e = Ok F /\ Rabs (F - q) <= eps + (5 / 10 ^ 8 + Rabs e / 2 ^ 50) / pv_Gamma p) qs xs.
Proof.
  intros P EP DE Dq HC Hd HG H I. destruct (valid_of _ _ _ _ _ _ P EP) as [V HE]. pose proof V as (PG & _).
  unfold fppf_array in H. destruct (fnewton_array n _ _ _) as [[y conv]| |e] eqn:EN.
  - destruct (forallb _ conv) eqn:C; [|discriminate]. injection H as <- <-.
    assert (B0 : 0 < 3 / 2 / pv_Gamma p) by (apply Rdiv_lt_0_compat; lra).
    pose proof (array_good (pvF p) cdf pdf _ eps B0 (pv_lip p V) (ev_cdf p cdf pdf eps delta V HC) (ev_bound p cdf pdf eps delta V HC Hd HG) n qs E y conv Dq DE EN C) as G.
    clear - G V. induction G as [|q x qs' xs' Gq _ IH]; cbn; constructor; [|exact IH].
    destruct (good_of p eps V q x Gq) as (F & E1 & E2). exists x, F. auto.
  - discriminate.
  - destruct e; try discriminate. injection H as <- _. exfalso. apply I. now left.
Qed.

(** ** Convergence *)
Section Central.
  Variables (p : pv) (cdf pdf : R -> R) (eps kappa s q : R).
  Hypothesis V : pv_valid p.
  Let G := pv_Gamma p.
  Let lo := 16 / 7 * s ^ 2 / G.
  Let X := pv_energy p + G / (2 * s ^ 2).
  Let rho := deviation kappa eps lo X.
  Hypothesis Hcdf : forall x, double x -> double (cdf x) /\ Rabs (cdf x - pvF p x) <= eps.
  Hypothesis Hpdf : forall x, double x -> lo <= pvf p x -> Rabs (pdf x - pvf p x) <= kappa * pvf p x.
  Hypothesis Hkappa : / 2 ^ 46 <= kappa <= / 2 ^ 30.
  Hypothesis Heps : 0 <= eps.
  Hypothesis DE : double (pv_energy p).
  Hypothesis PE : 0 <= pv_energy p.
  Hypothesis Dq : double q.
  Hypothesis Hs : / 10 ^ 4 <= s.
  Hypothesis Hq : 2 * s <= q <= 1 - 2 * s.
  Hypothesis HG : pv_Gamma p <= 10 ^ 5 * s ^ 6.
  Hypothesis rho_4 : rho <= 79 / 10 ^ 10 * s ^ 4.
  Hypothesis rho_G : rho <= 3 / 10 * (s * G).
  Lemma s_small : 0 < s <= 1 / 4.
  Proof. lra. Qed.
  Lemma G_pos : 0 < G.
  Proof. unfold G. apply V. Qed.
  Lemma lo_pos : 0 < lo.
  Proof. pose proof s_small. pose proof G_pos. unfold lo. apply Rdiv_lt_0_compat; [|assumption]. assert (0 < s ^ 2) by (apply pow_lt; lra). lra. Qed.
  Lemma near_density y : s <= pvF p y <= 1 - s -> lo <= pvf p y.
  Proof.
    intros H. pose proof s_small as S. destruct (quantile_density p (pvF p y) s V ltac:(lra) ltac:(lra)) as (z & Ez & B).
    assert (z = y) by (apply (dens_inj _ _ (pv_density p V)); exact Ez). subst z. exact B.
  Qed.
  Lemma EX : X = pv_energy p + G / s ^ 2 / 2.
  Proof. pose proof s_small. unfold X. assert (0 < s ^ 2) by (apply pow_lt; lra). field; lra. Qed.
  Lemma rho_gs : rho <= G / s ^ 2 / 16.
  Proof.
    pose proof s_small as S. pose proof G_pos as GP. assert (S2 : 0 < s ^ 2) by (apply pow_lt; lra).
    assert (GS : G <= G / s ^ 2 / 16).
    { apply (Rmult_le_reg_r (s ^ 2)); [exact S2|]. replace (G / s ^ 2 / 16 * s ^ 2) with (G / 16) by (field; lra). assert (s ^ 2 <= / 16) by nra. nra. }
    nra.
  Qed.
  Lemma distance_xq xq : pvF p xq = q -> Rabs (xq - pv_energy p) <= 7 / 32 * (G / s ^ 2).
  Proof.
    intros Hxq. pose proof s_small as S. pose proof G_pos as GP. pose proof lo_pos as LP. assert (S2 : 0 < s ^ 2) by (apply pow_lt; lra).
    pose proof (pv_density p V) as D. pose proof (pv_unimodal p V) as U. pose proof (pv_median p) as M.
    pose proof (near_density xq ltac:(lra)) as L.
    assert (K : Rabs (xq - pv_energy p) * lo <= 1 / 2).
    { destruct (Rle_dec (pv_energy p) xq) as [C|C].
      - pose proof (convex_right _ _ _ D U (pv_energy p) xq ltac:(lra) C). rewrite Rabs_pos_eq by lra. nra.
      - pose proof (convex_left _ _ _ D U xq (pv_energy p) ltac:(lra) ltac:(lra)). rewrite Rabs_left1 by lra. nra. }
    apply (Rmult_le_reg_r lo); [exact LP|]. unfold lo at 2. replace (7 / 32 * (G / s ^ 2) * (16 / 7 * s ^ 2 / G)) with (1 / 2) by (field; lra). exact K.
  Qed.
  Lemma margin_c c xq : pvF p xq = q -> c * rho <= 6 / 10 * (s * G) -> forall y, Rabs (y - xq) <= c * rho -> lo <= pvf p y.
  Proof.
    intros Hxq Hc y Hy. apply near_density. pose proof (pv_lip p V y xq) as L. fold G in L. pose proof s_small as S. pose proof G_pos as GP.
    assert (Rabs (pvF p y - pvF p xq) <= s).
    { eapply Rle_trans; [exact L|]. apply Rle_trans with (3 / 2 / G * (6 / 10 * (s * G))); [apply Rmult_le_compat_l; [left; apply Rdiv_lt_0_compat; lra|lra]|].
      replace (3 / 2 / G * (6 / 10 * (s * G))) with (9 / 10 * s) by (field; lra). lra. }
    apply Rabs_le_inv in H. lra.
  Qed.
  Lemma rho_0 : 0 < rho.
  Proof.
    pose proof s_small as S. pose proof G_pos as GP. pose proof lo_pos as LP. assert (S2 : 0 < s ^ 2) by (apply pow_lt; lra). pose proof eta_pos.
    unfold rho, deviation. assert (0 < (4 * kappa + 2 * eps) / lo) by (apply Rdiv_lt_0_compat; lra).
    assert (0 <= X / 2 ^ 52). { apply Rmult_le_pos; [|lra]. rewrite EX. assert (0 < G / s ^ 2) by (apply Rdiv_lt_0_compat; lra). lra. } lra.
  Qed.
  Lemma tol_rho : 4 * (rho * pvf p (pv_energy p) ^ 2) <= lo ^ 2 * (tol - rho).
  Proof.
    pose proof s_small as S. pose proof G_pos as GP. pose proof rho_0 as RP. assert (S4 : 0 < s ^ 4) by (apply pow_lt; lra).
    pose proof (pv_density p V) as D. pose proof (peak_43 p V) as PK. fold G in PK.
    unfold lo. assert (PK2 : pvf p (pv_energy p) ^ 2 * G ^ 2 <= 16 / 9).
    { rewrite <- Rpow_mult_distr. replace (16 / 9) with ((4 / 3) ^ 2) by field. apply pow_incr. split; [|exact PK]. apply Rmult_le_pos; [left; apply (dens_pos _ _ D)|lra]. }
    apply (Rmult_le_reg_r (G ^ 2)); [apply pow_lt; lra|].
    replace ((16 / 7 * s ^ 2 / G) ^ 2 * (tol - rho) * G ^ 2) with (256 / 49 * s ^ 4 * (tol - rho)) by (field; lra).
    apply Rle_trans with (4 * rho * (16 / 9)).
    { replace (4 * (rho * pvf p (pv_energy p) ^ 2) * G ^ 2) with (4 * rho * (pvf p (pv_energy p) ^ 2 * G ^ 2)) by ring.
      apply Rmult_le_compat_l; [lra|exact PK2]. }
    assert (SM : s ^ 4 <= / 256). { replace (/ 256) with ((/ 4) ^ 4) by lra. apply pow_incr. lra. }
    unfold tol. nra.
  Qed.
  Lemma start_w0 : pvf p (pv_energy p) <= 4 ^ 48 * (lo ^ 2 * (tol - rho)).
  Proof.
    pose proof s_small as S. pose proof G_pos as GP. pose proof rho_0 as RP. assert (S4 : 0 < s ^ 4) by (apply pow_lt; lra). assert (S2 : 0 < s ^ 2) by (apply pow_lt; lra).
    pose proof (peak_43 p V) as PK. fold G in PK.
    unfold lo. apply (Rmult_le_reg_r (G ^ 2)); [apply pow_lt; lra|].
    replace (4 ^ 48 * ((16 / 7 * s ^ 2 / G) ^ 2 * (tol - rho)) * G ^ 2) with (4 ^ 48 * (256 / 49 * s ^ 4 * (tol - rho))) by (field; lra).
    replace (pvf p (pv_energy p) * G ^ 2) with (pvf p (pv_energy p) * G * G) by ring.
    assert (SM : s ^ 4 <= / 256). { replace (/ 256) with ((/ 4) ^ 4) by lra. apply pow_incr. lra. }
    assert (SG : G <= 10 ^ 5 * s ^ 4).
    { eapply Rle_trans; [apply HG|]. replace (10 ^ 5 * s ^ 6) with (10 ^ 5 * (s ^ 4 * s ^ 2)) by ring. apply Rmult_le_compat_l; [lra|]. nra. }
    apply Rle_trans with (4 / 3 * G); [apply Rmult_le_compat_r; lra|].
    apply Rle_trans with (4 / 3 * (10 ^ 5 * s ^ 4)); [lra|].
    assert (1 / 10 ^ 8 <= tol - rho) by (unfold tol; lra).
    apply Rle_trans with (4 ^ 48 * (256 / 49 * s ^ 4 * (1 / 10 ^ 8))); [lra|].
    apply Rmult_le_compat_l; [lra|]. apply Rmult_le_compat_l; lra.
  Qed.
  Lemma central_ffound : exists x, fnewton_scalar maxiter (fun E => fsub (cdf E) q) pdf (pv_energy p) = Ok x.
  Proof.
    pose proof s_small as S. pose proof G_pos as GP. pose proof lo_pos as LP.
    pose proof (pv_density p V) as D. pose proof (pv_unimodal p V) as U. pose proof (pv_median p) as M.
    destruct (dens_onto _ _ D q ltac:(lra)) as [xq Hxq]. pose proof rho_gs as RX. pose proof EX as E0. pose proof rho_0 as R0.
    pose proof (distance_xq xq Hxq) as DX.
    apply (found (pvf p) (pvF p) (pv_energy p) D U M cdf pdf kappa eps lo X q xq); try assumption.
    - fold rho. rewrite E0, Rabs_pos_eq by lra. lra.
    - fold rho. rewrite E0. replace xq with (pv_energy p + (xq - pv_energy p)) by ring. pose proof (Rabs_triang (pv_energy p) (xq - pv_energy p)) as T.
      rewrite (Rabs_pos_eq (pv_energy p)) in T by lra. lra.
    - fold rho. intros y Hy. apply (margin_c 1 xq Hxq); lra.
    - exact tol_rho.
    - exact start_w0.
  Qed.
End Central.

(** The deviation for given errors of the CDF and PDF. *)
Section Deviation.
  Variables (p : pv) (eps kappa s c : R).
  Hypothesis V : pv_valid p.
  Hypothesis PE : 0 <= pv_energy p.
  Hypothesis Hs : / 10 ^ 4 <= s <= 1 / 4.
  Hypothesis Hc : (4 * kappa + 2 * eps) * (7 / 16) + / 2 ^ 53 <= c.
  Let G := pv_Gamma p.
  Let rho := deviation kappa eps (16 / 7 * s ^ 2 / G) (pv_energy p + G / (2 * s ^ 2)).
  Lemma rho_le : rho <= c * (G / s ^ 2) + 23 / 10 ^ 17 * pv_energy p + / 10 ^ 29.
  Proof.
    pose proof V as (GP & _). fold G in GP.
    assert (0 < s ^ 2) by (apply pow_lt; lra). assert (0 < G / s ^ 2) by (apply Rdiv_lt_0_compat; assumption).
    unfold rho, deviation. pose proof eta_tiny as [_ ET]. assert (/ 2 ^ 100 <= / 10 ^ 30) by (apply Rinv_le_contravar; lra).
    replace ((4 * kappa + 2 * eps) / (16 / 7 * s ^ 2 / G)) with ((4 * kappa + 2 * eps) * (7 / 16) * (G / s ^ 2)) by (field; lra).
    replace (G / (2 * s ^ 2)) with (G / s ^ 2 / 2) by (field; lra). set (g := G / s ^ 2) in *.
    assert (A : ((4 * kappa + 2 * eps) * (7 / 16) + / 2 ^ 53) * g <= c * g) by (apply Rmult_le_compat_r; lra).
    assert (B : (pv_energy p + g / 2) / 2 ^ 52 <= 23 / 10 ^ 17 * pv_energy p + / 2 ^ 53 * g).
    { assert (/ 2 ^ 52 <= 23 / 10 ^ 17) by lra. nra. }
    lra.
  Qed.
  Hypothesis c0 : 0 <= c.
  Hypothesis HG : / 10 ^ 20 <= G.
  Lemma rho_4 K : G <= K * s ^ 6 -> c * K <= 32 / 10 ^ 10 -> pv_energy p <= 2 * 10 ^ 7 * s ^ 4 -> rho <= 79 / 10 ^ 10 * s ^ 4.
  Proof.
    intros HK CK HE. pose proof rho_le as R1. assert (S2 : 0 < s ^ 2) by (apply pow_lt; lra). assert (S4 : 0 < s ^ 4) by (apply pow_lt; lra).
    assert (A : G / s ^ 2 <= K * s ^ 4).
    { apply (Rmult_le_reg_r (s ^ 2)); [exact S2|]. replace (G / s ^ 2 * s ^ 2) with G by (field; lra). replace (K * s ^ 4 * s ^ 2) with (K * s ^ 6) by ring. exact HK. }
    assert (B : / 10 ^ 16 <= s ^ 4).
    { replace (/ 10 ^ 16) with ((/ 10 ^ 4) ^ 4) by lra. apply pow_incr. lra. }
    assert (C : c * (G / s ^ 2) <= c * (K * s ^ 4)) by (apply Rmult_le_compat_l; assumption).
    assert (C' : c * K * s ^ 4 <= 32 / 10 ^ 10 * s ^ 4) by (apply Rmult_le_compat_r; lra).
    lra.
  Qed.
  Lemma small_G : / 10 ^ 24 <= s * G.
  Proof.
    replace (/ 10 ^ 24) with (/ 10 ^ 4 * / 10 ^ 20) by lra. apply Rmult_le_compat; lra.
  Qed.
  Lemma rho_G : c <= 6 / 100 * s ^ 3 -> pv_energy p <= 10 ^ 15 * (s * G) -> rho <= 3 / 10 * (s * G).
  Proof.
    intros Hc3 HEG. pose proof V as (GP & _). fold G in GP. pose proof rho_le as R1. assert (S2 : 0 < s ^ 2) by (apply pow_lt; lra).
    assert (A : c * (G / s ^ 2) <= 6 / 100 * (s * G)).
    { apply (Rmult_le_reg_r (s ^ 2)); [exact S2|]. replace (c * (G / s ^ 2) * s ^ 2) with (c * G) by (field; lra).
      replace (6 / 100 * (s * G) * s ^ 2) with (6 / 100 * s ^ 3 * G) by ring. apply Rmult_le_compat_r; lra. }
    pose proof small_G as B. lra.
  Qed.
  Lemma rho_s2G : / 1000 <= s -> c <= / 100 * s ^ 4 -> pv_energy p <= 10 ^ 14 * (s ^ 2 * G) -> rho <= / 28 * (s ^ 2 * G).
  Proof.
    intros Hs3 Hc3 HEG. pose proof V as (GP & _). fold G in GP. pose proof rho_le as R1. assert (S2 : 0 < s ^ 2) by (apply pow_lt; lra).
    assert (A : c * (G / s ^ 2) <= / 100 * (s ^ 2 * G)).
    { apply (Rmult_le_reg_r (s ^ 2)); [exact S2|]. replace (c * (G / s ^ 2) * s ^ 2) with (c * G) by (field; lra).
      replace (/ 100 * (s ^ 2 * G) * s ^ 2) with (/ 100 * s ^ 4 * G) by ring. apply Rmult_le_compat_r; lra. }
    assert (B : / 10 ^ 26 <= s ^ 2 * G).
    { replace (/ 10 ^ 26) with ((/ 1000) ^ 2 * / 10 ^ 20) by lra. apply Rmult_le_compat; try lra. apply pow_incr. lra. }
    assert (D : pv_energy p * (23 / 10 ^ 17) <= 10 ^ 14 * (s ^ 2 * G) * (23 / 10 ^ 17)) by (apply Rmult_le_compat_r; lra).
    set (a := c * (G / s ^ 2)) in *. set (g := s ^ 2 * G) in *. clear - R1 A B D. lra.
  Qed.
End Deviation.
Lemma computes_pdf p cdf pdf s : pv_valid p -> computes p (/ 2 ^ 47) (/ 2 ^ 47) cdf pdf -> / 10 ^ 4 <= s <= 1 / 4 -> pv_Gamma p <= 10 ^ 5 * s ^ 6 ->
  forall x, double x -> 16 / 7 * s ^ 2 / pv_Gamma p <= pvf p x -> Rabs (pdf x - pvf p x) <= / 2 ^ 46 * pvf p x.
Proof.
  intros V HC Hs HG x Dx L. pose proof V as (GP & _). set (G := pv_Gamma p) in *.
  pose proof (ev_pdf p cdf pdf _ _ V HC x Dx) as E. eapply Rle_trans; [exact E|]. rewrite <- eta_half. pose proof eta_tiny as [_ ET].
  assert (S2 : 0 < s ^ 2) by (apply pow_lt; lra). assert (S4 : 0 < s ^ 4) by (apply pow_lt; lra).
  assert (L1 : 1 / 10 ^ 5 <= 16 / 7 * s ^ 2 / G).
  { apply (Rmult_le_reg_r G); [exact GP|]. replace (16 / 7 * s ^ 2 / G * G) with (16 / 7 * s ^ 2) by (field; lra).
    apply Rle_trans with (1 / 10 ^ 5 * (10 ^ 5 * s ^ 6)); [apply Rmult_le_compat_l; [lra|apply HG]|].
    replace (1 / 10 ^ 5 * (10 ^ 5 * s ^ 6)) with (s ^ 2 * s ^ 4) by (field). assert (s ^ 4 <= 1); [|nra]. apply Rle_trans with (1 ^ 4); [apply pow_incr; lra|lra]. }
  lra.
Qed.
Lemma cube_s s : / 10 ^ 4 <= s -> / 10 ^ 12 <= s ^ 3.
Proof. intros H. replace (/ 10 ^ 12) with ((/ 10 ^ 4) ^ 3) by lra. apply pow_incr. lra. Qed.
Lemma fscalar_found k E w amu T p cdf pdf fb s q : pv_params k E w amu T -> PseudoVoigtDistribution k E w amu T = Ok p ->
  double E -> double q -> computes p (/ 2 ^ 47) (/ 2 ^ 47) cdf pdf -> / 10 ^ 4 <= s -> 2 * s <= q <= 1 - 2 * s ->
  / 10 ^ 20 <= pv_Gamma p <= 10 ^ 5 * s ^ 6 -> E <= 2 * 10 ^ 7 * s ^ 4 -> E <= 10 ^ 15 * (s * pv_Gamma p) ->
  exists x, fppf_scalar maxiter cdf pdf E fb q = ([], Ok (Some [Finite x])).
Proof.
  intros P EP DE Dq HC Hs Hq HG HE HEG. destruct (valid_of _ _ _ _ _ _ P EP) as [V EE]. destruct P as (_ & _ & _ & PE & _). rewrite <- EE in *.
  assert (Hs' : / 10 ^ 4 <= s <= 1 / 4) by lra. pose proof (cube_s s Hs) as S3.
  destruct (central_ffound p cdf pdf (/ 2 ^ 47) (/ 2 ^ 46) s q V) as (x & Ex); try assumption; try lra.
  - exact (ev_cdf p cdf pdf _ _ V HC).
  - apply (computes_pdf p cdf pdf s V HC Hs'); apply HG.
  - apply (rho_4 p (/ 2 ^ 47) (/ 2 ^ 46) s (32 / 10 ^ 15) V ltac:(lra) Hs' ltac:(lra) ltac:(lra) (10 ^ 5)); lra.
  - apply (rho_G p (/ 2 ^ 47) (/ 2 ^ 46) s (32 / 10 ^ 15) V ltac:(lra) Hs' ltac:(lra) ltac:(lra)); lra.
  - exists x. unfold fppf_scalar. rewrite Ex. reflexivity.
Qed.
