(** Quantiles in the tail of a cold line are not found in floating-point arithmetic. *)
From Coq Require Import Reals List ZArith Lra Lia Psatz.
From Flocq Require Import Core.
From Coquelicot Require Import Coquelicot.
From Verif Require Import Py Spec M_Num M_Grid M_Constituents M_Dist M_Resonance M_PseudoVoigt M_Float M_Float3 S_Resonance S_PseudoVoigt S_Float S_Float3
  L_RInt L_Dist L_Newton L_Newton2 L_Newton3 L_PseudoVoigt L_PseudoVoigt2 L_PseudoVoigt4 L_PseudoVoigt5 L_PseudoVoigt6 L_PseudoVoigt8 L_Float L_Float2 L_Float3 L_FNewton L_FNewton2 L_FNewton3.
Import ListNotations.
Open Scope R_scope.

(** ** The Cauchy distribution in the lower tail *)
Section Cauchy.
  Variables (l g x : R).
  Hypothesis Hg : 0 < g.
  Let y := (x - l) / g.
  Let F := cauchy_cdf l g x.
  Let f := cauchy_pdf l g x.
  Lemma F_range : 0 < F < 1.
  Proof. apply (dens_range _ _ (cauchy_density l g Hg)). Qed.
  Lemma f_range : 0 < f.
  Proof. apply (dens_pos _ _ (cauchy_density l g Hg)). Qed.
  Lemma pdf_sin : f = sin (PI * F) ^ 2 / (PI * g).
  Proof.
    pose proof PI_RGT_0. unfold f, F, cauchy_pdf, cauchy_cdf. fold y. replace (PI * (1 / 2 + atan y / PI)) with (PI / 2 + atan y) by (field; lra).
    rewrite <- cos_sin, cos_atan. pose proof (pow2_ge_0 y) as Y2. unfold Rsqr.
    assert (SQ : sqrt (1 + y * y) ^ 2 = 1 + y * y) by (rewrite <- Rsqr_pow2; apply Rsqr_sqrt; nra).
    assert (0 < sqrt (1 + y * y)) by (apply sqrt_lt_R0; nra).
    unfold Rdiv. rewrite Rpow_mult_distr, pow_inv, SQ. field. repeat split; nra.
  Qed.
  Lemma sin_F : 0 <= sin (PI * F) <= PI * F /\ sin (PI * F) <= 1.
  Proof.
    pose proof F_range as FR. pose proof PI_RGT_0. assert (0 < PI * F) by (apply Rmult_lt_0_compat; lra). assert (PI * F < PI) by nra.
    split; [split|]; [left; apply sin_gt_0; lra|left; now apply sin_lt_x|apply SIN_bound].
  Qed.
  Lemma f_le_F : f <= F / g.
  Proof.
    rewrite pdf_sin. pose proof sin_F as [S1 S2]. pose proof PI_RGT_0. pose proof F_range. set (s := sin (PI * F)) in *.
    apply Rle_trans with (PI * F / (PI * g)); [|right; field; lra]. apply Rmult_le_compat_r; [left; apply Rinv_0_lt_compat; nra|]. nra.
  Qed.
  Lemma f_le_F2 : f <= 7 / 2 * F ^ 2 / g.
  Proof.
    rewrite pdf_sin. pose proof sin_F as [S1 S2]. pose proof PI_RGT_0. pose proof F_range. pose proof PI_upper. set (s := sin (PI * F)) in *.
    apply Rle_trans with ((PI * F) ^ 2 / (PI * g)).
    - apply Rmult_le_compat_r; [left; apply Rinv_0_lt_compat; nra|]. apply pow_incr. lra.
    - replace ((PI * F) ^ 2 / (PI * g)) with (PI * (F ^ 2 / g)) by (field; lra). replace (7 / 2 * F ^ 2 / g) with (7 / 2 * (F ^ 2 / g)) by (field; lra).
      apply Rmult_le_compat_r; [|lra]. apply Rmult_le_pos; [apply pow2_ge_0|left; now apply Rinv_0_lt_compat].
  Qed.
  Lemma f_distance : Rabs (x - l) * f <= / 6.
  Proof.
    pose proof PI_lower. set (d := Rabs (x - l)). assert (0 <= d) by apply Rabs_pos.
    assert (E : f = g / (PI * (g ^ 2 + d ^ 2))).
    { unfold f, cauchy_pdf, d. rewrite pow2_abs. pose proof (pow2_ge_0 (x - l)). assert (0 < g ^ 2) by (apply pow_lt; lra). field. repeat split; nra. }
    rewrite E. assert (0 < g ^ 2) by (apply pow_lt; lra). pose proof (pow2_ge_0 d).
    apply (Rmult_le_reg_r (PI * (g ^ 2 + d ^ 2))); [nra|]. replace (d * (g / (PI * (g ^ 2 + d ^ 2))) * (PI * (g ^ 2 + d ^ 2))) with (d * g) by (field; nra).
    assert (0 <= (g - d) ^ 2) by apply pow2_ge_0. nra.
  Qed.
  Lemma distance_F : F < 1 / 2 -> Rabs (x - l) <= g / (3 * F).
  Proof.
    intros H. pose proof PI_lower as P. pose proof F_range as FR. assert (Y : y < 0).
    { destruct (Rlt_le_dec y 0) as [|Y]; [assumption|exfalso]. unfold F, cauchy_cdf in H. fold y in H.
      assert (0 <= atan y / PI). { apply Rmult_le_pos; [|left; apply Rinv_0_lt_compat; lra]. destruct Y as [Y| <-]; [|rewrite atan_0; lra]. left. rewrite <- atan_0. now apply atan_increasing. }
      lra. }
    set (z := - y). assert (Z : 0 < z) by (unfold z; lra).
    assert (E : F = atan (/ z) / PI). { rewrite atan_inv by assumption. unfold z. rewrite atan_opp. unfold F, cauchy_cdf. fold y. field. lra. }
    pose proof (atan_le_id (/ z) ltac:(now apply Rinv_0_lt_compat)) as A.
    assert (B : F * (PI * z) <= 1).
    { rewrite E. replace (atan (/ z) / PI * (PI * z)) with (atan (/ z) * z) by (field; lra). apply Rle_trans with (/ z * z); [apply Rmult_le_compat_r; lra|right; field; lra]. }
    assert (D : Rabs (x - l) = g * z). { unfold z, y. rewrite Rabs_left1; [field; lra|]. unfold y in Y. apply (Rmult_le_reg_r (/ g)); [now apply Rinv_0_lt_compat|]. unfold Rdiv in Y. lra. }
    rewrite D. apply (Rmult_le_reg_r (3 * F)); [lra|]. replace (g / (3 * F) * (3 * F)) with g by (field; lra).
    assert (z * (3 * F) <= 1) by nra. nra.
  Qed.
End Cauchy.

(** ** Sums with one half *)
Lemma half_grid t v : double t -> v = fadd (1 / 2) t -> Rabs v <= 1 / 5 -> exists z : Z, v = IZR z / 2 ^ 54.
Proof.
  intros Dt Ev Hv. 
  assert (D4 : double (/ 4)) by (replace (/ 4) with (bpow radix2 (-2)) by (cbn; lra); apply double_bpow; lia).
  assert (D2 : double (1 / 2)) by (replace (1 / 2) with (bpow radix2 (-1)) by (cbn; lra); apply double_bpow; lia).
  apply Rabs_le_inv in Hv.
  assert (T1 : t <= - / 4).
  { destruct (Rle_dec t (- / 4)) as [|N]; [assumption|exfalso]. pose proof (rnd_ge (/ 4) (1 / 2 + t) D4 ltac:(lra)) as K. unfold fadd in Ev. lra. }
  assert (T2 : -1 < t).
  { destruct (Rlt_dec (-1) t) as [|N]; [assumption|exfalso]. pose proof (rnd_le_d (1 / 2 + t) (- (1 / 2)) (double_opp _ D2) ltac:(lra)) as K. unfold fadd in Ev. lra. }
  assert (ZT : exists z : Z, t = IZR z * bpow radix2 (-54)).
  { assert (N0 : t <> 0) by lra. unfold double, generic_format in Dt. unfold F2R in Dt. cbn [Fnum Fexp] in Dt.
    set (mm := Ztrunc (scaled_mantissa radix2 fexp64 t)) in *. set (c := cexp radix2 fexp64 t) in *.
    assert (Hc : (-54 <= c)%Z).
    { unfold c, cexp, fexp64, FLT_exp. assert (-1 <= mag radix2 t)%Z; [|lia]. apply mag_ge_bpow. cbn. rewrite Rabs_left by lra. lra. }
    exists (mm * 2 ^ (c + 54))%Z. rewrite Dt at 1. rewrite mult_IZR, Rmult_assoc. f_equal.
    replace c with ((c + 54) + (-54))%Z at 1 by lia. rewrite bpow_plus. f_equal. rewrite <- IZR_Zpower by lia. reflexivity. }
  destruct ZT as (z & Ez).
  assert (B54 : bpow radix2 (-54) = / 2 ^ 54) by (cbn; lra).
  exists (2 ^ 53 + z)%Z. assert (E : 1 / 2 + t = IZR (2 ^ 53 + z) / 2 ^ 54).
  { rewrite plus_IZR, Ez, B54. replace (IZR (2 ^ 53)) with (2 ^ 53) by lra. field. }
  rewrite Ev. unfold fadd. rewrite E. apply rnd_id. apply (double_scaled (2 ^ 53 + z) (-54) (/ 2 ^ 54)); [exact B54|lia|].
  assert (A : Rabs (IZR (2 ^ 53 + z)) < 2 ^ 53).
  { assert (IZR (2 ^ 53 + z) = (1 / 2 + t) * 2 ^ 54) by (rewrite E; field). rewrite H. rewrite Rabs_mult, (Rabs_pos_eq (2 ^ 54)) by lra.
    assert (Rabs (1 / 2 + t) < 1 / 2) by (apply Rabs_def1; lra). lra. }
  rewrite <- abs_IZR in A. apply lt_IZR. replace (IZR (2 ^ 53)) with (2 ^ 53) by lra. exact A.
Qed.

(** ** No convergence *)
Lemma fnewton_fails n f f' p : double p -> (forall x, double x -> f x <> 0 /\ (f' x <> 0 -> ftol < Rabs (fsub (fsub x (fquo (f x) (f' x))) x))) ->
  fnewton_scalar n f f' p = Raise RuntimeError.
Proof.
  intros Dp H. revert p Dp. induction n as [|n IH]; intros p Dp; [reflexivity|]. cbn [fnewton_scalar]. destruct (H p Dp) as [H1 H2].
  destruct (Req_EM_T (f p) 0); [contradiction|]. destruct (Req_EM_T (f' p) 0) as [|N]; [reflexivity|]. specialize (H2 N).
  destruct (Rle_dec _ ftol); [lra|]. apply IH. apply rnd_double.
Qed.

Section Cold.
  Variables (E g q delta : R) (cdf pdf : R -> R).
  Hypothesis HE : 0 < E <= 10 ^ 6.
  Hypothesis Hg : / 10 ^ 5 <= g.
  Hypothesis Hq : / 10 ^ 8 <= q <= / 10 ^ 5.
  Hypothesis Hgq : g <= 2 * 10 ^ 7 * q.
  Hypothesis Dq : double q.
  Hypothesis Hdelta : 0 < delta.
  Hypothesis off : forall z : Z, delta <= Rabs (q - IZR z / 2 ^ 54).
  Hypothesis Hw : 7 / 10 ^ 8 * q ^ 2 <= g * delta.
  Let F := cauchy_cdf E g.
  Let f := cauchy_pdf E g.
  Hypothesis Hcdf : forall x, double x -> (exists t, double t /\ cdf x = fadd (1 / 2) t) /\ Rabs (cdf x - F x) <= / 2 ^ 50.
  Hypothesis Hpdf : forall x, double x -> 0 <= pdf x <= (1 + / 2 ^ 20) * f x.

  Lemma g_pos : 0 < g. Proof. lra. Qed.
  (** The exact quotient of residual and slope. *)
  Lemma quotient x : double x -> let s := Rabs (cdf x - q) / f x in
    0 < Rabs (cdf x - q) /\ 19 / 10 ^ 9 <= s /\ Rabs x <= 10 ^ 6 + 10 ^ 7 + 2 * 10 ^ 9 * s.
  Proof.
    intros Dx s. destruct (Hcdf x Dx) as [(t & Dt & Et) Ec]. pose proof (F_range E g x g_pos) as FR. fold (F x) in FR.
    pose proof (f_range E g x g_pos) as fP. fold (f x) in fP.
    pose proof (f_le_F E g x g_pos) as B1. fold (F x) (f x) in B1. pose proof (f_le_F2 E g x g_pos) as B2. fold (F x) (f x) in B2.
    pose proof (f_distance E g x g_pos) as B3. fold (f x) in B3. pose proof (distance_F E g x g_pos) as B4. fold (F x) in B4.
    assert (E50 : / 2 ^ 50 <= / 10 ^ 15) by (apply Rinv_le_contravar; lra). apply Rabs_le_inv in Ec.
    assert (XE : Rabs x <= 10 ^ 6 + Rabs (x - E)). { replace x with (E + (x - E)) at 1 by ring. eapply Rle_trans; [apply Rabs_triang|]. rewrite (Rabs_pos_eq E) by lra. lra. }
    set (d := Rabs (x - E)) in *. assert (D0 : 0 <= d) by apply Rabs_pos.
    assert (FAR : 9 / 1000 * F x <= Rabs (cdf x - q) -> 9 / 1000 * q <= Rabs (cdf x - q) ->
              0 < Rabs (cdf x - q) /\ 19 / 10 ^ 9 <= s /\ Rabs x <= 10 ^ 6 + 10 ^ 7 + 2 * 10 ^ 9 * s).
    { intros K1 K2. split; [lra|]. split.
      - apply Rle_trans with (9 / 1000 * g); [lra|]. unfold s. apply (Rmult_le_reg_r (f x)); [exact fP|].
        replace (Rabs (cdf x - q) / f x * f x) with (Rabs (cdf x - q)) by (field; lra). apply Rle_trans with (9 / 1000 * g * (F x / g)); [apply Rmult_le_compat_l; lra|].
        replace (9 / 1000 * g * (F x / g)) with (9 / 1000 * F x) by (field; lra). exact K1.
      - assert (d <= 2 * 10 ^ 9 * s); [|lra]. unfold s. apply (Rmult_le_reg_r (f x)); [exact fP|].
        replace (2 * 10 ^ 9 * (Rabs (cdf x - q) / f x) * f x) with (2 * 10 ^ 9 * Rabs (cdf x - q)) by (field; lra). lra. }
    destruct (Rle_dec (99 / 100 * q) (F x)) as [M1|M1]; [destruct (Rle_dec (F x) (101 / 100 * q)) as [M2|M2]|].
    - clear FAR. destruct (half_grid t (cdf x) Dt Et) as (z & Ez); [apply Rabs_le; lra|].
      pose proof (off z) as O. rewrite <- Ez, Rabs_minus_sym in O. split; [lra|].
      assert (S1 : 19 / 10 ^ 9 <= s).
      { unfold s. apply (Rmult_le_reg_r (f x)); [exact fP|]. replace (Rabs (cdf x - q) / f x * f x) with (Rabs (cdf x - q)) by (field; lra).
        apply Rle_trans with delta; [|exact O]. apply Rle_trans with (19 / 10 ^ 9 * (7 / 2 * F x ^ 2 / g)); [apply Rmult_le_compat_l; lra|].
        apply (Rmult_le_reg_r g); [lra|]. replace (19 / 10 ^ 9 * (7 / 2 * F x ^ 2 / g) * g) with (19 / 10 ^ 9 * (7 / 2) * F x ^ 2) by (field; lra).
        assert (F x ^ 2 <= (101 / 100 * q) ^ 2) by (apply pow_incr; lra). 
        replace ((101 / 100 * q) ^ 2) with (10201 / 10000 * q ^ 2) in H by field. assert (0 <= q ^ 2) by apply pow2_ge_0. lra. }
      split; [exact S1|]. assert (d <= 10 ^ 7); [|lra]. eapply Rle_trans; [apply B4; lra|].
      apply (Rmult_le_reg_r (3 * F x)); [lra|]. replace (g / (3 * F x) * (3 * F x)) with g by (field; lra). lra.
    - apply FAR; rewrite Rabs_pos_eq by lra; lra.
    - apply FAR; rewrite Rabs_left1 by lra; lra.
  Qed.
  Lemma cold_fails n : double E -> fnewton_scalar n (fun x => fsub (cdf x) q) pdf E = Raise RuntimeError.
  Proof.
    intros DE. apply fnewton_fails; [exact DE|]. intros x Dx. destruct (quotient x Dx) as (Q1 & Q2 & Q3). cbv zeta in Q2, Q3.
    destruct (Hcdf x Dx) as [(t & Dt & Et) _]. assert (Dc : double (cdf x)) by (rewrite Et; apply rnd_double).
    destruct (fsub_error (cdf x) q Dc Dq) as (e1 & He1 & E1). pose proof u_val as UV. pose proof u_pos as U0.
    assert (U1 : u <= / 10 ^ 15) by (rewrite UV; apply Rinv_le_contravar; lra). assert (U2 : u <= 12 / 10 ^ 17) by (rewrite UV; lra). pose proof eta_tiny as [ET0 ET].
    pose proof (f_range E g x g_pos) as fP. fold (f x) in fP. set (s := Rabs (cdf x - q) / f x) in *.
    apply Rabs_le_inv in He1. assert (NZ : cdf x - q <> 0) by (intros Z; rewrite Z, Rabs_R0 in Q1; lra).
    assert (V1 : Rabs (fsub (cdf x) q) >= Rabs (cdf x - q) * (1 - u)).
    { rewrite E1, Rabs_mult. apply Rle_ge. apply Rmult_le_compat_l; [apply Rabs_pos|]. rewrite Rabs_pos_eq; lra. }
    split.
    { intros Z. rewrite Z, Rabs_R0 in V1. nra. }
    intros NP. pose proof (Hpdf x Dx) as [P0 P1]. assert (PP : 0 < pdf x) by lra.
    destruct (rnd_error (fsub (cdf x) q / pdf x)) as (e2 & h & He2 & Hh & E2). fold (fquo (fsub (cdf x) q) (pdf x)) in E2.
    set (st := fquo (fsub (cdf x) q) (pdf x)) in *. set (v := fsub (cdf x) q) in *. apply Rabs_le_inv in He2.
    assert (A1 : s * (1 - / 2 ^ 19) <= Rabs (v / pdf x)).
    { unfold Rdiv. rewrite Rabs_mult, (Rabs_pos_eq (/ pdf x)) by (left; now apply Rinv_0_lt_compat).
      apply (Rmult_le_reg_r (pdf x)); [exact PP|]. rewrite (Rmult_assoc (Rabs v)), Rinv_l, Rmult_1_r by lra.
      apply Rle_trans with (s * (1 - / 2 ^ 19) * ((1 + / 2 ^ 20) * f x)); [apply Rmult_le_compat_l; [apply Rmult_le_pos; lra|exact P1]|].
      replace (s * (1 - / 2 ^ 19) * ((1 + / 2 ^ 20) * f x)) with (s * f x * ((1 - / 2 ^ 19) * (1 + / 2 ^ 20))) by ring.
      replace (s * f x) with (Rabs (cdf x - q)) by (unfold s; field; lra). apply Rle_trans with (Rabs (cdf x - q) * (1 - u)); [|lra].
      apply Rmult_le_compat_l; lra. }
    assert (A2 : s * (1 - / 2 ^ 18) <= Rabs st).
    { assert (B : Rabs (v / pdf x) * (1 - u) <= Rabs st + eta).
      { apply Rle_trans with (Rabs (v / pdf x * (1 + e2))); [rewrite Rabs_mult; apply Rmult_le_compat_l; [apply Rabs_pos|rewrite Rabs_pos_eq; lra]|].
        replace (v / pdf x * (1 + e2)) with (st + - h) by lra. eapply Rle_trans; [apply Rabs_triang|]. rewrite Rabs_Ropp. lra. }
      assert (ET2 : / 2 ^ 100 <= / 10 ^ 25) by (apply Rinv_le_contravar; lra). nra. }
    assert (Ds : double st) by apply rnd_double. set (x' := fsub x st). assert (Dx' : double x') by apply rnd_double.
    destruct (fsub_error x st Dx Ds) as (e3 & He3 & E3). fold x' in E3.
    assert (A3 : Rabs st * (1 - u) - u * Rabs x <= Rabs (x' - x)).
    { replace (x' - x) with (- st - - ((x - st) * e3)) by (rewrite E3; ring).
      pose proof (Rabs_triang_inv (- st) (- ((x - st) * e3))) as T. rewrite (Rabs_Ropp st), (Rabs_Ropp ((x - st) * e3)) in T.
      assert (Rabs ((x - st) * e3) <= (Rabs x + Rabs st) * u); [|lra]. rewrite Rabs_mult. apply Rmult_le_compat; [apply Rabs_pos|apply Rabs_pos| |exact He3].
      unfold Rminus. eapply Rle_trans; [apply Rabs_triang|]. rewrite Rabs_Ropp. lra. }
    destruct (fsub_error x' x Dx' Dx) as (e4 & He4 & E4). rewrite E4, Rabs_mult. apply Rabs_le_inv in He4. rewrite (Rabs_pos_eq (1 + e4)) by lra.
    pose proof ftol_bounds as [_ FT]. apply Rle_lt_trans with (1480001 / 10 ^ 14); [exact FT|].
    assert (A4 : 15 / 10 ^ 9 <= Rabs (x' - x)).
    { eapply Rle_trans; [|exact A3]. pose proof (Rabs_pos x). assert (u * Rabs x <= 12 / 10 ^ 17 * (10 ^ 6 + 10 ^ 7 + 2 * 10 ^ 9 * s)) by (apply Rmult_le_compat; lra). nra. }
    nra.
  Qed.
End Cold.

Lemma cold_fallback k E w amu p q delta cdf pdf n fb : pv_params k E w amu 0 -> PseudoVoigtDistribution k E w amu 0 = Ok p ->
  double E -> double q -> E <= 10 ^ 6 -> 4 / 10 ^ 5 <= w -> / 10 ^ 8 <= q <= / 10 ^ 5 -> w <= 8 * 10 ^ 7 * q ->
  0 < delta -> off_grid q delta -> 28 / 10 ^ 8 * q ^ 2 <= w * delta ->
  half_plus cdf -> (forall x F f, double x -> pv_cdf p x = Ok F -> pv_pdf p x = Ok f -> Rabs (cdf x - F) <= / 2 ^ 50 /\ 0 <= pdf x <= (1 + / 2 ^ 20) * f) ->
  fppf_scalar n cdf pdf E fb q = ([InversionFailed], fb q).
Proof.
  intros P EP DE Dq HE Hw Hq Hwq Hd Off HW HH HC. pose proof P as (_ & _ & _ & PE & _).
  destruct (cold _ _ _ _ _ P EP) as (_ & HG & _ & _ & _ & V & EE & Ef & EF).
  unfold fppf_scalar. rewrite (cold_fails E (w / 4) q delta cdf pdf); try assumption; try lra; [reflexivity| |].
  - intros x Dx. split; [now apply HH|]. destruct (HC x _ _ Dx (pv_cdf_ok p x V) (pv_pdf_ok p x V)) as [A _]. now rewrite EF in A.
  - intros x Dx. destruct (HC x _ _ Dx (pv_cdf_ok p x V) (pv_pdf_ok p x V)) as [_ A]. now rewrite Ef in A.
Qed.

(** ** The quantile 1e-6 *)
Definition q6 : R := 4722366482869645 * / 2 ^ 72.
Lemma bpow_m72 : bpow radix2 (-72) = / 2 ^ 72.
Proof. cbn. lra. Qed.
Lemma q6_rnd : rnd (1 / 10 ^ 6) = q6.
Proof. apply (rnd_lit _ 4722366482869645 (-72)); [lia|lia|lia|exact bpow_m72|lra..]. Qed.
Lemma q6_off : off_grid q6 (26 / 10 ^ 18).
Proof.
  intros z. unfold q6. replace (4722366482869645 * / 2 ^ 72 - IZR z / 2 ^ 54) with ((4722366482869645 - IZR z * 262144) * / 2 ^ 72) by field.
  rewrite <- (mult_IZR z 262144), <- minus_IZR, Rabs_mult, <- abs_IZR, (Rabs_pos_eq (/ 2 ^ 72)) by lra.
  assert (126349 <= Z.abs (4722366482869645 - z * 262144))%Z by lia. apply IZR_le in H.
  apply Rle_trans with (126349 * / 2 ^ 72); [lra|]. apply Rmult_le_compat_r; lra.
Qed.
Lemma q6_bounds : 99999 / 10 ^ 11 <= q6 <= 100001 / 10 ^ 11.
Proof. unfold q6. lra. Qed.

(** ** An evaluation with small errors *)
Definition cdf_ex (p : pv) (x : R) : R := fadd (1 / 2) (rnd (pvF p x - 1 / 2)).
Lemma cdf_ex_ok p : pv_valid p -> half_plus (cdf_ex p) /\ computes p (/ 2 ^ 50) 0 (cdf_ex p) (pvf p).
Proof.
  intros V. split.
  - intros x _. eexists. split; [apply rnd_double|reflexivity].
  - intros x F f Dx EF Ef. rewrite pv_cdf_ok in EF by exact V. rewrite pv_pdf_ok in Ef by exact V. injection EF as <-. injection Ef as <-.
    split; [apply rnd_double|]. split.
    + unfold cdf_ex, fadd. pose proof (dens_range _ _ (pv_density p V) x) as FR. set (F := pvF p x) in *.
      destruct (rnd_error (F - 1 / 2)) as (e & h & He & Hh & E1). destruct (rnd_error (1 / 2 + rnd (F - 1 / 2))) as (e' & h' & He' & Hh' & E2).
      rewrite E2, E1. apply Rabs_le_inv in He, Hh, He', Hh'. pose proof eta_tiny as [E0 ET]. pose proof u_val as UV. rewrite UV in *.
      assert (K : / 2 ^ 100 <= / 2 ^ 60) by (apply Rinv_le_contravar; lra).
      set (a := (F - 1 / 2) * e). assert (A : - / 2 ^ 53 <= a <= / 2 ^ 53) by (unfold a; nra).
      replace ((1 / 2 + ((F - 1 / 2) * (1 + e) + h)) * (1 + e') + h' - F) with (a + h + (F + a + h) * e' + h') by (unfold a; ring).
      set (b := (F + a + h) * e'). assert (B : - (2 * / 2 ^ 53) <= b <= 2 * / 2 ^ 53) by (unfold b; nra). apply Rabs_le. lra.
    + rewrite Rminus_eq_0, Rabs_R0. rewrite <- eta_half. pose proof eta_pos. lra.
Qed.

Lemma finds_refuted : exists k E w amu p q cdf pdf e, pv_params k E w amu 0 /\ PseudoVoigtDistribution k E w amu 0 = Ok p /\
  double E /\ q = rnd (1 / 10 ^ 6) /\ computes p (/ 2 ^ 50) 0 cdf pdf /\
  pv_ppf_scalar p q = ([], Ok (Some [Finite e])) /\ forall n fb, fppf_scalar n cdf pdf E fb q = ([InversionFailed], fb q).
Proof.
  pose proof (params_with (1 / 50) 0 ltac:(lra) ltac:(lra)) as P. destruct (pv_build _ _ _ _ _ P) as (p & EP & V & _).
  destruct (cold _ _ _ _ _ P EP) as (_ & HG & _). destruct (cdf_ex_ok p V) as [C1 C2]. pose proof q6_bounds as QB.
  assert (DN : dense (pvf p) (pvF p) (16 / 7 * q6 ^ 2 / pv_Gamma p) q6) by (apply quantile_density; [exact V|lra|lra]).
  rewrite HG in DN.
  destruct (dense_converges_scalar p (16 / 7 * q6 ^ 2 / (1 / 50)) q6 V) as (e & Ee); [|rewrite HG| exact DN|].
  - assert (0 < q6 ^ 2) by (apply pow_lt; lra). lra.
  - assert (Q : (99999 / 10 ^ 11) ^ 4 <= q6 ^ 4) by (apply pow_incr; lra).
    replace (1 / 50 * (16 / 7 * q6 ^ 2 / (1 / 50)) ^ 2) with (12800 / 49 * q6 ^ 4) by field. lra.
  - exists codata, 1, (1 / 50), 12, p, q6, (cdf_ex p), (pvf p), e. split; [exact P|]. split; [exact EP|]. split; [exact double_1|]. split; [symmetry; exact q6_rnd|].
    split; [exact C2|]. split; [exact Ee|]. intros n fb.
    apply (cold_fallback codata 1 (1 / 50) 12 p q6 (26 / 10 ^ 18)); try assumption; try lra.
    + exact double_1.
    + rewrite <- q6_rnd. apply rnd_double.
    + exact q6_off.
    + assert (q6 ^ 2 <= (100001 / 10 ^ 11) ^ 2) by (apply pow_incr; lra). lra.
    + intros x F f Dx EF Ef. destruct (C2 x F f Dx EF Ef) as (_ & A & _). split; [exact A|].
      rewrite pv_pdf_ok in Ef by exact V. injection Ef as <-. pose proof (dens_pos _ _ (pv_density p V) x). lra.
Qed.

Lemma computes_weaken p eps delta eps' delta' cdf pdf : pv_valid p -> computes p eps delta cdf pdf -> eps <= eps' -> delta <= delta' -> computes p eps' delta' cdf pdf.
Proof.
  intros V H He Hd x F f Dx EF Ef. destruct (H x F f Dx EF Ef) as (A & B & C). split; [exact A|]. split; [lra|]. eapply Rle_trans; [exact C|].
  rewrite pv_pdf_ok in Ef by exact V. injection Ef as <-. pose proof (dens_pos _ _ (pv_density p V) x). nra.
Qed.
Lemma example_found : exists p cdf pdf, PseudoVoigtDistribution codata 1 (/ 10 ^ 6) 12 0 = Ok p /\ pv_params codata 1 (/ 10 ^ 6) 12 0 /\ double 1 /\ double (1 / 4) /\
  computes p (/ 2 ^ 47) (/ 2 ^ 47) cdf pdf /\ / 10 ^ 4 <= 1 / 8 /\ 2 * (1 / 8) <= 1 / 4 <= 1 - 2 * (1 / 8) /\
  / 10 ^ 20 <= pv_Gamma p <= 10 ^ 5 * (1 / 8) ^ 6 /\ 1 <= 2 * 10 ^ 7 * (1 / 8) ^ 4 /\ 1 <= 10 ^ 15 * (1 / 8 * pv_Gamma p) /\ 1 <= 10 ^ 14 * ((1 / 8) ^ 2 * pv_Gamma p).
Proof.
  pose proof (params_with (/ 10 ^ 6) 0 ltac:(lra) ltac:(lra)) as P. destruct (pv_build _ _ _ _ _ P) as (p & EP & V & _).
  destruct (cold _ _ _ _ _ P EP) as (_ & HG & _). destruct (cdf_ex_ok p V) as [C1 C2]. exists p, (cdf_ex p), (pvf p). rewrite HG.
  split; [exact EP|]. split; [exact P|]. split; [exact double_1|]. split.
  - replace (1 / 4) with (bpow radix2 (-2)) by (cbn; lra). apply double_bpow. lia.
  - split; [apply (computes_weaken p _ _ _ _ _ _ V C2); lra|]. lra.
Qed.
