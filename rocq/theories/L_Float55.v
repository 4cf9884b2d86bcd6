(** Attenuation with rounding. *)
From Coq Require Import Reals List ZArith Lra Lia Psatz.
From Coquelicot Require Import Coquelicot.
From Flocq Require Import Core.
From Verif Require Import Py Spec M_Num M_Constituents M_Thermal M_Dist M_Resonance M_PseudoVoigt S_Resonance S_PseudoVoigt M_Notebook M_Float S_Float M_Float4 S_Float4 M_Float8 S_Float8 M_Float11 S_Float11 M_Float13 S_Float12 S_Float14 S_Float15
  L_Float L_Float2 L_Float3 L_Float7 L_Float9 L_Float10 L_PseudoVoigt4 L_Float46 L_Float47 L_Float49 L_Float53.
Open Scope R_scope.

Lemma u_unit : unit_roundoff = u. Proof. reflexivity. Qed.
Lemma sum_close a b c a' b' delta : double a' -> double b' -> double c -> 0 <= a -> 0 <= b -> 0 <= c -> 0 <= a' -> 0 <= b' -> 0 <= delta <= / 16 ->
  Rabs (a' - a) <= delta * a -> Rabs (b' - b) <= delta * b ->
  Rabs (fmul c b' - c * b) <= (delta + 11 / 10 * u) * (c * b) + eta /\
  Rabs (fadd a' (fmul c b') - (a + c * b)) <= (delta + 22 / 10 * u) * (a + c * b) + 11 / 10 * eta.
Proof.
  intros Da Db Dc Ha Hb Hc Ha' Hb' Hd A B. pose proof u_pos as U. pose proof u_tiny as U1. pose proof eta_pos as E0.
  assert (CB : 0 <= c * b) by now apply Rmult_le_pos. assert (CB' : 0 <= c * b') by now apply Rmult_le_pos.
  assert (Hm : 0 <= fmul c b') by (apply rnd_nonneg; exact CB'). assert (Dm : double (fmul c b')) by apply rnd_double.
  assert (X : Rabs (c * b' - c * b) <= delta * (c * b)). { replace (c * b' - c * b) with (c * (b' - b)) by ring. rewrite Rabs_mult, (Rabs_pos_eq c) by lra. replace (delta * (c * b)) with (c * (delta * b)) by ring. now apply Rmult_le_compat_l. }
  pose proof (fmul_error c b') as M. rewrite (Rabs_pos_eq (c * b')) in M by lra. set (m := fmul c b') in *.
  set (p := c * b) in *. set (p' := c * b') in *. clearbody p p'. apply Rabs_le_inv in X, M, A.
  assert (P1 : p' <= (1 + / 16) * p) by nra. assert (UP : u * p' <= u * ((1 + / 16) * p)) by (apply Rmult_le_compat_l; lra).
  assert (M1 : Rabs (m - p) <= (delta + 11 / 10 * u) * p + eta). { apply Rabs_le. assert (0 <= u * p) by (apply Rmult_le_pos; lra). split; nra. }
  split; [exact M1|]. apply Rabs_le_inv in M1.
  destruct (fadd_error a' m Da Dm) as (e & He & ->). apply Rabs_le_inv in He.
  clearbody m. set (S := a + p) in *. assert (S0 : 0 <= S) by (unfold S; lra).
  assert (Q : Rabs (a' + m - S) <= (delta + 11 / 10 * u) * S + eta). { assert (0 <= u * a) by (apply Rmult_le_pos; lra). unfold S. apply Rabs_le. lra. }
  assert (US : 0 <= u * S) by (apply Rmult_le_pos; lra). assert (DS : 0 <= delta * S <= / 16 * S) by (split; [apply Rmult_le_pos; lra|apply Rmult_le_compat_r; lra]).
  apply Rabs_le_inv in Q. assert (T : a' + m <= 107 / 100 * S + eta) by nra.
  assert (T2 : Rabs ((a' + m) * e) <= u * (107 / 100 * S + eta)). { rewrite Rabs_mult, Rmult_comm. apply Rmult_le_compat; try apply Rabs_pos; [now apply Rabs_le|]. rewrite Rabs_pos_eq; lra. }
  apply Rabs_le_inv in T2. assert (UE : u * eta <= / 1024 * eta) by (apply Rmult_le_compat_r; lra). apply Rabs_le. lra.
Qed.
(** The exponent, and its exponential. *)
Lemma depth_close s s' rho delta : double rho -> 0 <= s -> 0 <= rho -> 0 <= s' -> 0 <= delta <= / 16 ->
  Rabs (s' - s) <= (delta + 22 / 10 * u) * s + 11 / 10 * eta -> Rabs (fmul s' rho - s * rho) <= depth_error delta rho (s * rho).
Proof.
  intros Dr Hs Hr Hs' Hd A. pose proof u_pos as U. pose proof u_tiny as U1. pose proof eta_pos as E0. unfold depth_error. rewrite u_unit, <- eta_half.
  assert (SR : 0 <= s * rho) by now apply Rmult_le_pos. assert (SR' : 0 <= s' * rho) by now apply Rmult_le_pos.
  assert (X : Rabs (s' * rho - s * rho) <= (delta + 22 / 10 * u) * (s * rho) + 11 / 10 * (eta * rho)).
  { replace (s' * rho - s * rho) with ((s' - s) * rho) by ring. rewrite Rabs_mult, (Rabs_pos_eq rho) by lra. apply (Rmult_le_compat_r rho) in A; [|lra]. lra. }
  pose proof (fmul_error s' rho) as M. rewrite (Rabs_pos_eq (s' * rho)) in M by lra. set (y := fmul s' rho) in *.
  set (t := s * rho) in *. set (t' := s' * rho) in *. clearbody t t'. assert (ER : 0 <= eta * rho) by (apply Rmult_le_pos; lra). set (h := eta * rho) in *.
  replace (2 * eta * (rho + 1)) with (2 * h + 2 * eta) by (unfold h; ring). clearbody h. apply Rabs_le_inv in X, M.
  assert (UT : 0 <= u * t <= / 1024 * t) by (split; [apply Rmult_le_pos; lra|apply Rmult_le_compat_r; lra]). assert (DT : 0 <= delta * t <= / 16 * t) by (split; [apply Rmult_le_pos; lra|apply Rmult_le_compat_r; lra]).
  assert (T : t' <= 11 / 10 * t + 11 / 10 * h) by lra. assert (T2 : u * t' <= u * (11 / 10 * t + 11 / 10 * h)) by (apply Rmult_le_compat_l; lra).
  assert (UH : u * h <= / 1024 * h) by (apply Rmult_le_compat_r; lra). apply Rabs_le. lra.
Qed.
Lemma exp_close ex y tau e : exp_accurate ex -> double y -> 0 <= y -> 0 <= tau <= 150 -> Rabs (y - tau) <= e -> e <= / 4 ->
  Rabs (ex (- y) - exp (- tau)) <= (2 * e + 3 * unit_roundoff) * exp (- tau).
Proof.
  intros EX Dy Hy Ht A He. pose proof (Rabs_pos (y - tau)) as E0. rewrite u_unit. pose proof u_pos as U. apply Rabs_le_inv in A.
  destruct (EX (- y)) as [_ B]; [now apply generic_format_opp|lra|]. rewrite u_unit in B.
  pose proof (exp_pos (- tau)) as P. pose proof (exp_pos (- y)) as P'.
  assert (H1 : exp (- y) <= (1 + 2 * e) * exp (- tau)).
  { replace (- y) with ((tau - y) + - tau) by ring. rewrite exp_plus. apply Rmult_le_compat_r; [lra|]. apply Rle_trans with (exp e); [|apply exp_double; lra]. destruct (Req_dec (tau - y) e) as [->|N]; [lra|]. left. apply Rpower.exp_increasing. lra. }
  assert (H2 : (1 - 2 * e) * exp (- tau) <= exp (- y)).
  { replace (- y) with ((tau - y) + - tau) by ring. rewrite exp_plus. apply Rmult_le_compat_r; [lra|]. pose proof (exp_ineq1_le (tau - y)). lra. }
  assert (H3 : u * exp (- y) <= u * (3 / 2 * exp (- tau))) by (apply Rmult_le_compat_l; [lra|]; nra).
  apply Rabs_le_inv in B. apply Rabs_le. lra.
Qed.

Lemma opp_mul a b : fmul (- a) b = - fmul a b.
Proof. apply fmul_opp_l. Qed.
Lemma exp_below t : 0 <= t -> exp (- t) <= 1.
Proof. intros [T0| <-]; [rewrite <- exp_0; left; apply Rpower.exp_increasing; lra|rewrite Ropp_0, exp_0; lra]. Qed.
Lemma product_close m w p p' delta e : 0 <= m -> 0 <= w -> 0 <= delta <= / 16 -> 0 <= e <= / 4 -> 0 < p <= 1 ->
  Rabs (m - w) <= (delta + 11 / 10 * u) * w + eta -> Rabs (p' - p) <= (2 * e + 3 * u) * p -> Rabs (fmul m p' - w * p) <= (delta + 3 * e + 7 * u) * (w * p) + 3 * eta.
Proof.
  intros Hm CB Hd [e0 He] [P0 P1] M P. pose proof u_pos as U. pose proof u_tiny as U1. pose proof eta_pos as E0. pose proof (fmul_error m p') as F. set (q' := fmul m p') in *. clearbody q'.
  apply Rabs_le_inv in P, M.
  assert (K0 : 0 <= (2 * e + 3 * u) * p <= 6 / 10 * p) by (split; [apply Rmult_le_pos; lra|apply Rmult_le_compat_r; lra]).
  assert (p0' : 0 <= p') by lra. assert (p1' : p' <= 16 / 10) by lra. rewrite (Rabs_pos_eq (m * p')) in F by now apply Rmult_le_pos.
  assert (WP : 0 <= w * p) by (apply Rmult_le_pos; lra).
  assert (D0 : 0 <= delta + 11 / 10 * u <= 7 / 100) by lra. assert (K1 : 0 <= 2 * e + 3 * u) by lra.
  assert (Z1 : Rabs (m * p' - w * p) <= (delta + 11 / 10 * u + 107 / 100 * (2 * e + 3 * u)) * (w * p) + 16 / 10 * eta).
  { replace (m * p' - w * p) with ((m - w) * p' + w * (p' - p)) by ring. eapply Rle_trans; [apply Rabs_triang|].
    assert (A1 : Rabs (m - w) <= (delta + 11 / 10 * u) * w + eta) by (apply Rabs_le; lra). assert (A2 : Rabs (p' - p) <= (2 * e + 3 * u) * p) by (apply Rabs_le; lra).
    rewrite !Rabs_mult, (Rabs_pos_eq p'), (Rabs_pos_eq w) by lra.
    assert (A3 : Rabs (m - w) * p' <= (delta + 11 / 10 * u) * w * (p + (2 * e + 3 * u) * p) + eta * (16 / 10)).
    { apply Rle_trans with (((delta + 11 / 10 * u) * w + eta) * p'); [apply Rmult_le_compat_r; lra|]. assert (0 <= (delta + 11 / 10 * u) * w) by (apply Rmult_le_pos; lra).
      rewrite Rmult_plus_distr_r. apply Rplus_le_compat; apply Rmult_le_compat_l; lra. }
    assert (A4 : w * Rabs (p' - p) <= w * ((2 * e + 3 * u) * p)) by (apply Rmult_le_compat_l; lra).
    assert (A5 : (delta + 11 / 10 * u) * ((2 * e + 3 * u) * (w * p)) <= 7 / 100 * ((2 * e + 3 * u) * (w * p))) by (apply Rmult_le_compat_r; [now apply Rmult_le_pos|lra]). lra. }
  set (x := m * p') in *. clearbody x. set (y := w * p) in *. clearbody y. apply Rabs_le_inv in Z1, F.
  assert (G : (delta + 11 / 10 * u + 107 / 100 * (2 * e + 3 * u)) * y <= 7 / 10 * y) by (apply Rmult_le_compat_r; lra).
  assert (H : x <= 17 / 10 * y + 16 / 10 * eta) by lra. assert (H' : u * x <= u * (17 / 10 * y + 16 / 10 * eta)) by (apply Rmult_le_compat_l; lra).
  assert (UE : u * eta <= / 1024 * eta) by (apply Rmult_le_compat_r; lra). assert (0 <= u * y) by (apply Rmult_le_pos; lra). assert (0 <= e * y) by (apply Rmult_le_pos; lra).
  apply Rabs_le. lra.
Qed.
Section Layer.
  Variables (ex : R -> R) (nr' sr' nr sr : cross_section) (E delta c rho : R).
  Hypotheses (EX : exp_accurate ex) (Hn : close_value delta nr' E nr E) (Hr : close_value delta sr' E sr E) (Hd : 0 <= delta <= / 16)
    (Dc : double c) (Dr : double rho) (Hc : 0 <= c) (H0 : 0 <= rho).
  Lemma flux_close : exists a b, nr E = Ok a /\ sr E = Ok b /\ let tau := (a + c * b) * rho in let e := depth_error delta rho tau in
    0 <= tau /\ (tau <= 150 -> e <= / 4 -> exists p p' q q', Phi E rho nr sr c = Ok p /\ fPhi ex E rho nr' sr' c = Ok p' /\ alpha E rho nr sr c = Ok q /\ falpha ex E rho nr' sr' c = Ok q' /\
      Rabs (p' - p) <= (2 * e + 3 * unit_roundoff) * p /\ Rabs (q' - q) <= (delta + 3 * e + 7 * unit_roundoff) * q + 3 * half_smallest).
  Proof using All.
    destruct Hn as (a' & a & N1 & N2 & Da & Ha' & Ha & A). destruct Hr as (b' & b & R1 & R2 & Db & Hb' & Hb & B).
    exists a, b. split; [exact N2|]. split; [exact R2|]. intros tau e.
    assert (CB : 0 <= c * b) by now apply Rmult_le_pos. assert (CB' : 0 <= c * b') by now apply Rmult_le_pos.
    assert (T0 : 0 <= tau) by (apply Rmult_le_pos; lra). split; [exact T0|]. intros Ht He.
    destruct (sum_close a b c a' b' delta Da Db Dc Ha Hb Hc Ha' Hb' Hd A B) as [M S]. set (m := fmul c b') in *. assert (Hm : 0 <= m) by (apply rnd_nonneg; exact CB').
    set (s := fadd a' m) in *. assert (Hs : 0 <= s) by (apply rnd_nonneg; lra).
    assert (D : Rabs (fmul s rho - tau) <= e) by (apply depth_close; auto; lra).
    pose proof (exp_close ex (fmul s rho) tau e EX (rnd_double _) (rnd_nonneg _ (Rmult_le_pos _ _ Hs H0)) (conj T0 Ht) D He) as P.
    exists (exp (- tau)), (ex (- fmul s rho)), (c * b * exp (- tau)), (fmul m (ex (- fmul s rho))).
    unfold Phi, fPhi, alpha, falpha, Phi, fPhi. rewrite N1, N2, R1, R2. cbn [bind]. fold m s. rewrite opp_mul. replace (- (a + c * b) * rho) with (- tau) by (unfold tau; ring).
    repeat (split; [reflexivity|]). split; [exact P|].
    assert (e0 : 0 <= e) by (eapply Rle_trans; [apply Rabs_pos|exact D]).
    pose proof (exp_pos (- tau)) as P0. assert (P1 : exp (- tau) <= 1) by now apply exp_below.
    rewrite u_unit, <- eta_half in *. now apply product_close.
  Qed.
End Layer.

(** ** Without any bound *)
Lemma fmul_le a b c d : 0 <= a -> 0 <= b -> a <= c -> b <= d -> fmul a b <= fmul c d.
Proof. intros. apply rnd_le. now apply Rmult_le_compat. Qed.
Lemma flux_rising ex E rho rho' nr sr nr' sr' c c' a b a' b' : exp_rising ex -> nr E = Ok a -> sr E = Ok b -> nr' E = Ok a' -> sr' E = Ok b' ->
  0 <= a <= a' -> 0 <= b <= b' -> 0 <= c <= c' -> 0 <= rho <= rho' ->
  exists p p', fPhi ex E rho nr sr c = Ok p /\ fPhi ex E rho' nr' sr' c' = Ok p' /\ 0 <= p' <= p /\ p <= 1 /\ (rho = 0 -> p = 1).
Proof.
  intros (X0 & X1 & X2) N R N' R' A B C D. unfold fPhi. rewrite N, R, N', R'. cbn [bind]. do 2 eexists. split; [reflexivity|]. split; [reflexivity|]. rewrite !opp_mul.
  assert (M0 : 0 <= fmul c b) by (apply rnd_nonneg, Rmult_le_pos; lra). assert (M1 : fmul c b <= fmul c' b') by (apply fmul_le; lra).
  assert (S0 : 0 <= fadd a (fmul c b)) by (apply rnd_nonneg; lra). assert (S1 : fadd a (fmul c b) <= fadd a' (fmul c' b')) by (apply rnd_le; lra).
  set (s := fadd a _) in *. set (s' := fadd a' _) in *. assert (Y0 : 0 <= fmul s rho) by (apply rnd_nonneg, Rmult_le_pos; lra). assert (Y1 : fmul s rho <= fmul s' rho') by (apply fmul_le; lra).
  assert (DD : forall x y, double (- fmul x y)) by (intros; apply generic_format_opp, rnd_double).
  split; [split; [now apply X1|apply X2; auto; lra]|]. split; [rewrite <- X0; apply X2; auto; [exact double_0|lra]|].
  intros ->. rewrite <- X0. f_equal. unfold fmul. rewrite Rmult_0_r, rnd_id by exact double_0. lra.
Qed.
Lemma absorption_nonneg ex E rho nr sr c a b : exp_rising ex -> nr E = Ok a -> sr E = Ok b -> 0 <= b -> 0 <= c ->
  exists q, falpha ex E rho nr sr c = Ok q /\ 0 <= q.
Proof.
  intros (X0 & X1 & X2) N R B C. unfold falpha, fPhi. rewrite N, R. cbn [bind]. eexists. split; [reflexivity|]. apply rnd_nonneg, Rmult_le_pos; [apply rnd_nonneg, Rmult_le_pos; lra|]. apply X1, rnd_double.
Qed.

(** ** 6Li.ipynb *)
Lemma photon_close ex f E g E' delta rho : exp_accurate ex -> close_value delta f E g E' -> 0 <= delta <= / 16 -> double rho -> 0 <= rho ->
  exists s, g E' = Ok s /\ let tau := s * rho in let e := depth_error delta rho tau in 0 <= tau /\ (tau <= 150 -> e <= / 4 ->
    exists p' q', fphoton_flux_density ex f E rho = Ok p' /\ fresonance_absorption_density ex f E rho = Ok q' /\
      Rabs (p' - exp (- tau)) <= (2 * e + 3 * unit_roundoff) * exp (- tau) /\ Rabs (q' - s * exp (- tau)) <= (delta + 3 * e + 7 * unit_roundoff) * (s * exp (- tau)) + 3 * half_smallest).
Proof.
  intros EX (s' & s & F1 & F2 & Ds & Hs' & Hs & A) Hd Dr H0. exists s. split; [exact F2|]. intros tau e. pose proof u_pos as U. pose proof eta_pos as E0.
  assert (T0 : 0 <= tau) by now apply Rmult_le_pos. split; [exact T0|]. intros Ht He. assert (US : 0 <= u * s) by (apply Rmult_le_pos; lra).
  assert (D : Rabs (fmul s' rho - tau) <= e) by (apply depth_close; auto; lra).
  pose proof (exp_close ex (fmul s' rho) tau e EX (rnd_double _) (rnd_nonneg _ (Rmult_le_pos _ _ Hs' H0)) (conj T0 Ht) D He) as P.
  exists (ex (- fmul s' rho)), (fmul s' (ex (- fmul s' rho))). unfold fresonance_absorption_density, fphoton_flux_density. rewrite F1. cbn [bind]. rewrite !opp_mul.
  split; [reflexivity|]. split; [reflexivity|]. split; [exact P|]. assert (e0 : 0 <= e) by (eapply Rle_trans; [apply Rabs_pos|exact D]).
  rewrite u_unit, <- eta_half in *. apply product_close; auto; [split; [apply exp_pos|now apply exp_below]|lra].
Qed.
Lemma voigt_double L vp k i m amu T fin E a v : fVoigt_call L vp k i m amu T fin E a = Ok v -> double v.
Proof.
  unfold fVoigt_call. destruct (fResonance _ _ _ _ _ _) as [[e r]| |]; [|discriminate|discriminate]. cbn [bind]. destruct (width m) as [w| |]; [|discriminate|discriminate]. cbn [bind].
  destruct (fPseudoVoigtDistribution _ _ _ _ _ _) as [p| |]; [|discriminate|discriminate]. cbn [bind]. unfold fres_call, fvoigt_pdf. cbn [bind]. intros [= <-]. apply rnd_double.
Qed.
Lemma voigt_flux L eps vp ex modern k i m fin amu T w E : pvlib_ok L -> profile_ok eps vp -> 0 <= eps <= / 4 -> exp_accurate ex -> floats k i m fin -> width m = Ok w ->
  let E_r := fsub (st_excitation_energy m) (st_excitation_energy i) in let x := fadd E E_r in
  pv_params k E_r w amu T -> pv_floats k E_r w amu T -> double E -> Rabs E <= 2 ^ 60 ->
  exists p r s, PseudoVoigtDistribution k E_r w amu T = Ok p /\ Voigt modern k i (with_energy m (st_excitation_energy i + E_r)) amu T fin = Ok r /\
    res_call r (x - E_r) false = Ok s /\ 0 < s /\
  forall delta rho, voigt_error p eps E_r delta x -> delta <= / 16 -> double rho -> 0 <= rho -> let e := depth_error delta rho (s * rho) in s * rho <= 150 -> e <= / 4 ->
    exists f f' q q', photon_flux_density r (x - E_r) rho = Ok f /\ resonance_absorption_density r (x - E_r) rho = Ok q /\
      fphoton_flux_density ex (fun E => fVoigt_call L vp k i m amu T fin E false) E rho = Ok f' /\
      fresonance_absorption_density ex (fun E => fVoigt_call L vp k i m amu T fin E false) E rho = Ok q' /\
      Rabs (f' - f) <= (2 * e + 3 * unit_roundoff) * f /\ Rabs (q' - q) <= (delta + 3 * e + 7 * unit_roundoff) * q + 3 * half_smallest.
Proof.
  intros HL HV He EX HF HW Er x HP HQ DE BE.
  destruct (fvoigt_good L HL eps vp HV He modern k i m fin amu T w E false HF HW HP HQ DE BE) as (p & r & s & v & P1 & P2 & PE & P3 & P4 & P5 & Pg & P6 & P7). fold Er in P1, P2, PE, P6, P7. cbv iota zeta in P3, P6, P7. fold Er x in P3, P6, P7.
  assert (RC : res_call r (x - Er) false = Ok s). { rewrite <- P3. unfold res_call. rewrite PE. f_equal. f_equal. ring. }
  exists p, r, s. split; [exact P1|]. split; [exact P2|]. split; [exact RC|]. split; [exact P5|]. intros delta rho VE Hd Dr H0 e Ht Hee.
  assert (B : Rabs (v - s) <= delta * s). { destruct VE as [[E1 E2]|(E0 & E1 & E2)]; [specialize (P6 E1); eapply Rle_trans; [exact P6|]|specialize (P7 E0 E1); eapply Rle_trans; [exact P7|]]; (apply Rmult_le_compat_r; [left; exact P5|exact E2]). }
  assert (Hd0 : 0 <= delta) by (pose proof (Rabs_pos (v - s)); apply (Rmult_le_reg_r s); lra).
  assert (V0 : 0 <= v). { apply Rabs_le_inv in B. assert (delta * s <= / 16 * s) by (apply Rmult_le_compat_r; lra). lra. }
  destruct (photon_close ex (fun E => fVoigt_call L vp k i m amu T fin E false) E (fun E => res_call r E false) (x - Er) delta rho EX) as (s0 & S1 & _ & K); auto.
  { exists v, s. split; [exact P4|]. split; [exact RC|]. split; [exact (voigt_double _ _ _ _ _ _ _ _ _ _ _ P4)|]. split; [exact V0|]. split; [lra|exact B]. }
  cbv beta in S1. rewrite RC in S1. injection S1 as <-. destruct (K Ht Hee) as (f' & q' & F1 & F2 & F3 & F4).
  exists (exp (- (s * rho))), f', (s * exp (- (s * rho))), q'. unfold resonance_absorption_density, photon_flux_density. rewrite RC. cbn [bind]. replace (- s * rho) with (- (s * rho)) by ring. auto 10.
Qed.

(** ** The hypotheses can be met *)
Lemma rounded_exp : exp_accurate (fun x => rnd (exp x)) /\ exp_rising (fun x => rnd (exp x)).
Proof.
  split.
  - intros x _ Hx. split; [apply rnd_double|]. rewrite u_unit. pose proof (exp_pos x) as P. pose proof u_pos as U. pose proof (rnd_error_normal (exp x)) as N. destruct N as (e & He & ->).
    + rewrite Rabs_pos_eq by lra. apply Rle_trans with (exp (-200)).
      * assert (E200 : exp (-200) = (/ exp 1) ^ 200). { rewrite <- exp_Ropp, <- (Rpower_pow 200) by apply exp_pos. unfold Rpower. rewrite ln_exp. f_equal. rewrite INR_IZR_INZ. simpl. ring. }
        rewrite E200. apply Rle_trans with ((/ 2 ^ 2) ^ 200).
        { rewrite pow_inv, <- pow_mult. simpl Nat.mul. rewrite <- bpow_neg. apply bpow_le. lia. }
        apply pow_incr. split; [left; apply Rinv_0_lt_compat, pow_lt; lra|]. apply Rinv_le_contravar; [apply exp_pos|]. pose proof exp_le_3. simpl. lra.
      * destruct (Req_dec (-200) x) as [->|Nx]; [lra|]. left. apply Rpower.exp_increasing. lra.
    + replace (exp x * (1 + e) - exp x) with (e * exp x) by ring. rewrite Rabs_mult, (Rabs_pos_eq (exp x)) by lra. apply Rmult_le_compat_r; lra.
  - split; [rewrite exp_0; apply rnd_id, (double_IZR 1); simpl; lia|]. split; [intros x _; apply rnd_nonneg; left; apply exp_pos|].
    intros x y _ _ H. apply rnd_le. destruct H as [H| ->]; [left; now apply Rpower.exp_increasing|lra].
Qed.
Lemma layer_case : close_value (/ 16) (fun _ => Ok 1) 3 (fun _ => Ok 1) 3 /\ double 1 /\ (1 + 1 * 1) * 1 <= 150 /\ depth_error (/ 16) 1 ((1 + 1 * 1) * 1) <= / 4.
Proof.
  assert (D1 : double 1) by (apply (double_IZR 1); simpl; lia). split; [exists 1, 1; repeat split; auto; try lra; rewrite Rminus_eq_0, Rabs_R0; lra|]. split; [exact D1|]. split; [lra|].
  unfold depth_error. rewrite u_unit, <- eta_half. pose proof u_tiny. pose proof eta_u. pose proof u_pos. lra.
Qed.
Lemma voigt_layer_case : floats lost_k lost_i wide_m None /\ width wide_m = Ok (/ 2 ^ 10) /\ (let E_r := fsub (st_excitation_energy wide_m) (st_excitation_energy lost_i) in
    pv_params lost_k E_r (/ 2 ^ 10) 1000 0 /\ pv_floats lost_k E_r (/ 2 ^ 10) 1000 0 /\
    forall p, PseudoVoigtDistribution lost_k E_r (/ 2 ^ 10) 1000 0 = Ok p -> voigt_error p unit_roundoff E_r (/ 2 ^ 30) (fadd 0 E_r)) /\
  double 0 /\ Rabs 0 <= 2 ^ 60 /\ forall s rho, 0 <= rho <= 1 -> 0 <= s * rho <= 1 -> depth_error (/ 2 ^ 30) rho (s * rho) <= / 4.
Proof.
  destruct easy_example as (A & B & C & D & F & _). split; [exact A|]. split; [exact B|]. split.
  { cbv zeta. rewrite C. split; [exact D|]. split; [exact F|]. intros p P. destruct (cold _ _ _ _ _ D P) as (_ & _ & _ & _ & HG & _). assert (X : fadd 0 1 = 1) by (unfold fadd; rewrite Rplus_0_l; apply rnd_id, (double_IZR 1); simpl; lia).
    rewrite X. left. replace (1 - 1) with 0 by ring. rewrite Rabs_R0, HG. unfold unit_roundoff. split; [simpl; lra|]. replace (0 / (/ 2 ^ 10 / 2)) with 0 by (simpl; field). simpl. lra. }
  split; [exact double_0|]. split; [rewrite Rabs_R0; apply pow_le; lra|]. intros s rho H1 H2. unfold depth_error. rewrite u_unit, <- eta_half. pose proof u_tiny. pose proof eta_u. pose proof u_pos. set (t := s * rho) in *. clearbody t.
  assert (U4 : (/ 2 ^ 30 + 4 * u) * t <= / 100) by (simpl; nra). assert (2 * eta * (rho + 1) <= 2 * eta * 2) by (apply Rmult_le_compat_l; pose proof eta_pos; lra). lra.
Qed.
