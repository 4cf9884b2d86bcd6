(** Arrays of quantiles of the pseudo-Voigt distribution in floating-point arithmetic: convergence. *)
From Coq Require Import Reals List ZArith Bool Lra Lia Psatz.
From Flocq Require Import Core.
From Coquelicot Require Import Coquelicot.
From Verif Require Import Py Spec M_Num M_Grid M_Dist M_Resonance M_PseudoVoigt M_Float M_Float3 S_Resonance S_PseudoVoigt S_Float S_Float3
  L_RInt L_Dist L_Newton L_Newton2 L_Newton3 L_PseudoVoigt L_PseudoVoigt2 L_PseudoVoigt4 L_PseudoVoigt5 L_PseudoVoigt6 L_PseudoVoigt8 L_Float L_Float3
  L_FNewton L_FNewton2 L_FNewton3 L_FNewton5.
Import ListNotations.
Open Scope R_scope.

Lemma lorentz_lip a b : Rabs (/ (1 + a ^ 2) - / (1 + b ^ 2)) <= Rabs (a - b).
Proof.
  assert (A : 0 < 1 + a ^ 2) by nra. assert (B : 0 < 1 + b ^ 2) by nra.
  replace (/ (1 + a ^ 2) - / (1 + b ^ 2)) with (- ((a - b) * ((a + b) / ((1 + a ^ 2) * (1 + b ^ 2))))) by (field; lra).
  rewrite Rabs_Ropp, Rabs_mult. rewrite <- (Rmult_1_r (Rabs (a - b))) at 2. apply Rmult_le_compat_l; [apply Rabs_pos|].
  assert (P : 0 < (1 + a ^ 2) * (1 + b ^ 2)) by (apply Rmult_lt_0_compat; assumption).
  unfold Rdiv. rewrite Rabs_mult, (Rabs_pos_eq (/ _)) by (left; now apply Rinv_0_lt_compat).
  apply (Rmult_le_reg_r _ _ _ P). rewrite Rmult_assoc, Rinv_l, Rmult_1_r, Rmult_1_l by lra.
  pose proof (Rle_0_sqr (a - 1)). pose proof (Rle_0_sqr (b - 1)). pose proof (Rle_0_sqr (a + 1)). pose proof (Rle_0_sqr (b + 1)). pose proof (Rle_0_sqr (a * b)). unfold Rsqr in *.
  apply Rabs_le. split; nra.
Qed.
Lemma gauss_lip a b : Rabs (exp (- (a ^ 2 / 2)) - exp (- (b ^ 2 / 2))) <= Rabs (a - b).
Proof.
  assert (G : forall a b, a < b -> Rabs (exp (- (b ^ 2 / 2)) - exp (- (a ^ 2 / 2))) <= Rabs (b - a)).
  { clear. intros a b H.
    destruct (MVT_cor2 (fun x => exp (- (x ^ 2 / 2))) (fun x => - x * exp (- (x ^ 2 / 2))) a b H) as (c & E & _).
    { intros c _. apply is_derive_Reals. auto_derive; [exact I|]. replace (c * (c * 1) * / 2) with (c ^ 2 / 2) by (cbn; field). field. }
    rewrite E, Rabs_mult. rewrite <- (Rmult_1_l (Rabs (b - a))) at 2. apply Rmult_le_compat_r; [apply Rabs_pos|].
    rewrite Rabs_mult, Rabs_Ropp, (Rabs_pos_eq (exp _)) by (left; apply exp_pos). rewrite exp_Ropp.
    pose proof (exp_ineq1_le (c ^ 2 / 2)) as K. pose proof (exp_pos (c ^ 2 / 2)) as P. apply (Rmult_le_reg_r _ _ _ P). rewrite Rmult_assoc, Rinv_l, Rmult_1_r, Rmult_1_l by lra.
    apply Rle_trans with (1 + c ^ 2 / 2); [|exact K]. apply Rabs_le. nra. }
  destruct (Rtotal_order a b) as [H|[->|H]].
  - rewrite Rabs_minus_sym, (Rabs_minus_sym a b). now apply G.
  - rewrite !Rminus_eq_0. lra.
  - now apply G.
Qed.
Lemma cauchy_pdf_lip l s x y : 0 < s -> Rabs (cauchy_pdf l s x - cauchy_pdf l s y) <= / (3 * s ^ 2) * Rabs (x - y).
Proof.
  intros Hs. pose proof PI_lower as P. unfold cauchy_pdf.
  replace (/ (PI * s * (1 + ((x - l) / s) ^ 2)) - / (PI * s * (1 + ((y - l) / s) ^ 2))) with (/ (PI * s) * (/ (1 + ((x - l) / s) ^ 2) - / (1 + ((y - l) / s) ^ 2))).
  2:{ assert (0 <= ((x - l) / s) ^ 2) by apply pow2_ge_0. assert (0 <= ((y - l) / s) ^ 2) by apply pow2_ge_0. set (a := ((x - l) / s) ^ 2) in *. set (b := ((y - l) / s) ^ 2) in *. field. repeat split; lra. }
  assert (0 < PI * s) by (apply Rmult_lt_0_compat; lra).
  rewrite Rabs_mult, (Rabs_pos_eq (/ (PI * s))) by (left; now apply Rinv_0_lt_compat).
  apply Rle_trans with (/ (PI * s) * Rabs ((x - l) / s - (y - l) / s)); [apply Rmult_le_compat_l; [left; now apply Rinv_0_lt_compat|apply lorentz_lip]|].
  replace ((x - l) / s - (y - l) / s) with ((x - y) * / s) by (field; lra). rewrite Rabs_mult, (Rabs_pos_eq (/ s)) by (left; now apply Rinv_0_lt_compat).
  replace (/ (PI * s) * (Rabs (x - y) * / s)) with (/ (PI * s ^ 2) * Rabs (x - y)) by (field; lra).
  apply Rmult_le_compat_r; [apply Rabs_pos|]. assert (0 < s ^ 2) by (apply pow_lt; lra). apply Rinv_le_contravar; [lra|]. apply Rmult_le_compat_r; lra.
Qed.
Lemma norm_pdf_lip l s x y : 0 < s -> Rabs (norm_pdf l s x - norm_pdf l s y) <= / (2 * s ^ 2) * Rabs (x - y).
Proof.
  intros Hs. pose proof PI_lower as P. unfold norm_pdf, gauss0.
  assert (S2 : 2 <= sqrt (2 * PI)). { replace 2 with (sqrt (2 ^ 2)) at 1 by (rewrite sqrt_pow2; lra). apply sqrt_le_1_alt. lra. }
  set (k := sqrt (2 * PI)) in *.
  replace (exp (- ((x - l) / s) ^ 2 / 2) / k / s - exp (- ((y - l) / s) ^ 2 / 2) / k / s)
    with (/ (k * s) * (exp (- (((x - l) / s) ^ 2 / 2)) - exp (- (((y - l) / s) ^ 2 / 2)))).
  2:{ replace (- ((x - l) / s) ^ 2 / 2) with (- (((x - l) / s) ^ 2 / 2)) by (unfold Rdiv; ring). replace (- ((y - l) / s) ^ 2 / 2) with (- (((y - l) / s) ^ 2 / 2)) by (unfold Rdiv; ring). field. lra. }
  assert (0 < k * s) by (apply Rmult_lt_0_compat; lra).
  rewrite Rabs_mult, (Rabs_pos_eq (/ (k * s))) by (left; now apply Rinv_0_lt_compat).
  apply Rle_trans with (/ (k * s) * Rabs ((x - l) / s - (y - l) / s)); [apply Rmult_le_compat_l; [left; now apply Rinv_0_lt_compat|apply gauss_lip]|].
  replace ((x - l) / s - (y - l) / s) with ((x - y) * / s) by (field; lra). rewrite Rabs_mult, (Rabs_pos_eq (/ s)) by (left; now apply Rinv_0_lt_compat).
  replace (/ (k * s) * (Rabs (x - y) * / s)) with (/ (k * s ^ 2) * Rabs (x - y)) by (field; lra).
  apply Rmult_le_compat_r; [apply Rabs_pos|]. assert (0 < s ^ 2) by (apply pow_lt; lra). apply Rinv_le_contravar; [lra|]. apply Rmult_le_compat_r; lra.
Qed.
Lemma pvf_lip p a b : pv_valid p -> Rabs (pvf p a - pvf p b) <= 16 / 3 / pv_Gamma p ^ 2 * Rabs (a - b).
Proof.
  intros V. pose proof (pv_scales p V) as [SG SL]. pose proof V as (HG & He & EG & EL). pose proof (norm_pdf_lip (pv_energy p) _ a b SG) as N.
  pose proof (cauchy_pdf_lip (pv_energy p) _ a b SL) as C. set (G := pv_Gamma p) in *. set (e := pv_eta p) in *.
  assert (C' : / (3 * (1 / 2 * pv_gamma_L p) ^ 2) = 16 / 3 / G ^ 2) by (rewrite EL; fold G; field; lra).
  assert (N' : / (2 * (pv_gamma_G p / sqrt 2) ^ 2) <= 16 / 3 / G ^ 2).
  { rewrite EG. fold G. pose proof sqrt_ln2_pos as Q. assert (Q2 : 0 < sqrt 2) by (apply sqrt_lt_R0; lra). pose proof ln2_pos. pose proof ln2_lt.
    replace ((G / (2 * sqrt (ln 2)) / sqrt 2) ^ 2) with (G ^ 2 / (4 * (sqrt (ln 2) * sqrt (ln 2)) * (sqrt 2 * sqrt 2))) by (field; lra).
    rewrite !sqrt_sqrt by lra. replace (/ (2 * (G ^ 2 / (4 * ln 2 * 2)))) with (4 * ln 2 / G ^ 2) by (field; lra).
    apply Rmult_le_compat_r; [left; apply Rinv_0_lt_compat, pow_lt; lra|lra]. }
  unfold pvf. fold e.
  replace (_ - _) with ((1 - e) * (norm_pdf (pv_energy p) (pv_gamma_G p / sqrt 2) a - norm_pdf (pv_energy p) (pv_gamma_G p / sqrt 2) b)
     + e * (cauchy_pdf (pv_energy p) (1 / 2 * pv_gamma_L p) a - cauchy_pdf (pv_energy p) (1 / 2 * pv_gamma_L p) b)) by ring.
  eapply Rle_trans; [apply Rabs_triang|]. rewrite !Rabs_mult, (Rabs_pos_eq e), (Rabs_pos_eq (1 - e)) by lra. rewrite C' in C.
  pose proof (Rabs_pos (a - b)) as AB. assert (N2 := Rmult_le_compat_r _ _ _ AB N').
  set (n := Rabs (norm_pdf _ _ a - _)) in *. set (c := Rabs (cauchy_pdf _ _ a - _)) in *. set (B := 16 / 3 / G ^ 2 * Rabs (a - b)) in *.
  assert ((1 - e) * n <= (1 - e) * B) by (apply Rmult_le_compat_l; lra). assert (e * c <= e * B) by (apply Rmult_le_compat_l; lra). lra.
Qed.

Section Central.
  Variables (p : pv) (cdf pdf : R -> R) (eps kappa s : R).
  Hypothesis V : pv_valid p.
  Let G := pv_Gamma p.
  Let lo := 16 / 7 * s ^ 2 / G.
  Let X := pv_energy p + G / (2 * s ^ 2).
  Let rho := deviation kappa eps lo X.
  Hypothesis Hcdf : forall x, double x -> double (cdf x) /\ Rabs (cdf x - pvF p x) <= eps.
  Hypothesis Hpdf : forall x, double x -> lo <= pvf p x -> Rabs (pdf x - pvf p x) <= kappa * pvf p x.
  Hypothesis Hkappa : / 2 ^ 46 <= kappa <= / 2 ^ 30.
  Hypothesis Heps : 0 <= eps.
  Hypothesis DE : double (pv_energy p).
  Hypothesis PE : 0 <= pv_energy p.
  Hypothesis Hs : / 10 ^ 4 <= s <= 1 / 4.
  Hypothesis HG : pv_Gamma p <= 10 ^ 5 * s ^ 6.
  Hypothesis rho_4 : rho <= 79 / 10 ^ 10 * s ^ 4.
  Hypothesis rho_2 : rho <= / 28 * (s ^ 2 * G).
  Let St (k : nat) (q p0 : R) : Prop := double q /\ 2 * s <= q <= 1 - 2 * s /\
    exists xq, pvF p xq = q /\ state (pvf p) (pvF p) (pv_energy p) kappa eps lo X q xq k p0.
  Lemma HLo : 0 < lo.
  Proof. pose proof V as (GP & _). unfold lo. assert (0 < s ^ 2) by (apply pow_lt; lra). fold G in GP. apply Rdiv_lt_0_compat; lra. Qed.
  Lemma RGs : rho <= / 112 * (s * G).
  Proof.
    pose proof V as (GP & _). fold G in GP. eapply Rle_trans; [exact rho_2|]. assert (0 < s * G) by (apply Rmult_lt_0_compat; lra).
    replace (s ^ 2 * G) with (s * (s * G)) by ring. assert (s * (s * G) <= 1 / 4 * (s * G)) by (apply Rmult_le_compat_r; lra). lra.
  Qed.
  Section One.
    Variables q xq : R.
    Hypothesis Dq : double q.
    Hypothesis Hq : 2 * s <= q <= 1 - 2 * s.
    Hypothesis Hxq : pvF p xq = q.
    Lemma sides : Rabs (pv_energy p) + rho <= X /\ Rabs xq + 3 * rho <= X /\ (forall y, Rabs (y - xq) <= 3 * rho -> lo <= pvf p y) /\
      8 * (16 / 3 / G ^ 2 * rho) <= lo /\ 4 * (rho * pvf p (pv_energy p) ^ 2) <= lo ^ 2 * (tol - rho) /\ pvf p (pv_energy p) <= 4 ^ 48 * (lo ^ 2 * (tol - rho)).
    Proof.
      pose proof V as (GP & _). fold G in GP. pose proof RGs as RG. assert (SG : 0 < s * G) by (apply Rmult_lt_0_compat; lra).
      assert (S2 : 0 < s ^ 2) by (apply pow_lt; lra).
      assert (RG3 : rho <= 3 / 10 * (s * G)) by lra. assert (R0 : 0 < rho).
      { exact (rho_0 p eps kappa s q V Hkappa Heps PE (proj1 Hs) Hq). }
      pose proof (EX p s q (proj1 Hs) Hq) as EX0. fold G in EX0. fold X in EX0.
      pose proof (distance_xq p s q V (proj1 Hs) Hq xq Hxq) as DX. fold G in DX.
      assert (GS : rho <= / 400 * (G / s ^ 2)).
      { eapply Rle_trans; [exact RG|]. apply (Rmult_le_reg_r (s ^ 2)); [exact S2|]. replace (/ 400 * (G / s ^ 2) * s ^ 2) with (/ 400 * G) by (field; lra).
        assert (s ^ 3 <= (1 / 4) ^ 3) by (apply pow_incr; lra). replace (/ 112 * (s * G) * s ^ 2) with (/ 112 * s ^ 3 * G) by ring. apply Rmult_le_compat_r; lra. }
      repeat split.
      - apply Rle_trans with (pv_energy p + G / s ^ 2 / 2); [|lra]; rewrite Rabs_pos_eq by lra. lra.
      - apply Rle_trans with (pv_energy p + G / s ^ 2 / 2); [|lra]. replace xq with (pv_energy p + (xq - pv_energy p)) by ring. pose proof (Rabs_triang (pv_energy p) (xq - pv_energy p)) as T.
        rewrite (Rabs_pos_eq (pv_energy p)) in T by lra. lra.
      - intros y Hy. apply (margin_c p eps kappa s q V (proj1 Hs) Hq 3 xq Hxq); [fold G lo X rho; lra|exact Hy].
      - unfold lo. apply (Rmult_le_reg_r (G ^ 2)); [apply pow_lt; lra|]. replace (8 * (16 / 3 / G ^ 2 * rho) * G ^ 2) with (128 / 3 * rho) by (field; lra).
        replace (16 / 7 * s ^ 2 / G * G ^ 2) with (16 / 7 * (s ^ 2 * G)) by (field; lra). lra.
      - exact (tol_rho p eps kappa s q V Hkappa Heps PE (proj1 Hs) Hq rho_4).
      - exact (start_w0 p eps kappa s q V Hkappa Heps PE (proj1 Hs) Hq HG rho_4).
    Qed.
  End One.
  Lemma central_array qs : List.Forall double qs -> List.Forall (fun q => 2 * s <= q <= 1 - 2 * s) qs ->
    exists xs, List.length xs = List.length qs /\
      fnewton_array maxiter (fun E => map2 fsub (map cdf E) qs) (map pdf) (map (fun _ => pv_energy p) qs) = Ok (xs, map (fun _ => true) qs).
  Proof.
    intros HD HQ. pose proof (pv_density p V) as D. pose proof (pv_unimodal p V) as U. pose proof (pv_median p) as M.
    assert (LP := fun a b => pvf_lip p a b V). fold G in LP. pose proof HLo as H0.
    apply (array_ends cdf pdf St).
    - intros k q x (Dq & Hq & xq & Hxq & S0). destruct (sides q xq Hq Hxq) as (A1 & A2 & A3 & A4 & A5 & A6).
      refine (state_pdf (pvf p) (pvF p) (pv_energy p) D U pdf kappa eps lo X q xq Hkappa Heps H0 Hxq A1 A2 A3 Hpdf k x S0).
    - intros k q x (Dq & Hq & xq & Hxq & S0). destruct (sides q xq Hq Hxq) as (A1 & A2 & A3 & A4 & A5 & A6). split; [exact Dq|]. split; [exact Hq|]. exists xq. split; [exact Hxq|].
      refine (sweep (pvf p) (pvF p) (pv_energy p) D U cdf pdf kappa eps lo X (16 / 3 / G ^ 2) q xq Hkappa Dq Heps H0 Hxq A1 A2 A3 LP A4 Hcdf Hpdf A5 k x S0).
    - intros q x (Dq & Hq & xq & Hxq & S0). destruct (sides q xq Hq Hxq) as (A1 & A2 & A3 & A4 & A5 & A6).
      refine (state_stops (pvf p) (pvF p) (pv_energy p) D U cdf pdf kappa eps lo X q xq Hkappa Dq Heps H0 Hxq A1 A2 A3 Hcdf Hpdf A5 x S0).
    - induction qs as [|q qs IH]; cbn [map]; constructor; inversion HD; inversion HQ; subst.
      + destruct (dens_onto _ _ D q ltac:(lra)) as [xq Hxq]. destruct (sides q xq H6 Hxq) as (A1 & A2 & A3 & A4 & A5 & A6).
        split; [assumption|]. split; [assumption|]. exists xq. split; [exact Hxq|].
        refine (state_start (pvf p) (pvF p) (pv_energy p) D U M kappa eps lo X q xq Hkappa DE Heps H0 Hxq A1 A3 A5 A6).
      + apply IH; assumption.
  Qed.
End Central.
Lemma all_true (qs : list R) : forallb (fun b => b) (map (fun _ => true) qs) = true.
Proof. induction qs as [|q qs IH]; cbn; auto. Qed.
Lemma farray_found k E w amu T p cdf pdf fb s qs : pv_params k E w amu T -> PseudoVoigtDistribution k E w amu T = Ok p ->
  double E -> List.Forall double qs -> computes p (/ 2 ^ 47) (/ 2 ^ 47) cdf pdf -> / 700 <= s <= 1 / 4 -> List.Forall (fun q => 2 * s <= q <= 1 - 2 * s) qs ->
  / 10 ^ 20 <= pv_Gamma p <= 10 ^ 5 * s ^ 6 -> E <= 2 * 10 ^ 7 * s ^ 4 -> E <= 10 ^ 14 * (s ^ 2 * pv_Gamma p) ->
  exists xs, List.length xs = List.length qs /\ fppf_array maxiter cdf pdf E fb qs = ([], Ok (Some (map Finite xs))).
Proof.
  intros P EP DE Dq HC Hs Hq HG HE HEG. destruct (valid_of _ _ _ _ _ _ P EP) as [V EE]. destruct P as (_ & _ & _ & PE & _). rewrite <- EE in *.
  assert (Hs' : / 10 ^ 4 <= s <= 1 / 4) by lra.
  assert (S4 : (/ 700) ^ 4 <= s ^ 4) by (apply pow_incr; lra).
  destruct (central_array p cdf pdf (/ 2 ^ 47) (/ 2 ^ 46) s V) with (qs := qs) as (xs & Lx & Ex); try assumption; try lra.
  - exact (ev_cdf p cdf pdf _ _ V HC).
  - apply (computes_pdf p cdf pdf s V HC Hs'); apply HG.
  - apply (rho_4 p (/ 2 ^ 47) (/ 2 ^ 46) s (32 / 10 ^ 15) V ltac:(lra) Hs' ltac:(lra) ltac:(lra) (10 ^ 5)); lra.
  - apply (rho_s2G p (/ 2 ^ 47) (/ 2 ^ 46) s (32 / 10 ^ 15) V ltac:(lra) Hs' ltac:(lra)); lra.
  - exists xs. split; [exact Lx|]. unfold fppf_array. rewrite Ex, all_true. reflexivity.
Qed.
