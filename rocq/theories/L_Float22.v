(** Coverage with rounding, exact libraries, and lines that are too far away. *)
From Coq Require Import Reals List ZArith Lra Lia Psatz Sorted.
From Coquelicot Require Import Coquelicot.
From Flocq Require Import Core.
From Verif Require Import Py Spec M_Num M_Dist M_Grid M_CrossSection M_Resonance S_Resonance M_Float S_Float M_Float4 M_Float6 S_Float6
  L_RInt L_Gauss L_Dist L_Constituents L_Float L_Float2 L_Float3 L_Float5 L_Float7 L_Float11 L_Float12 L_Float13 L_Float16 L_Float17 L_Float18 L_Float20 L_Float21.
Import ListNotations.
Open Scope R_scope.
Open Scope py_scope.

(** ** Quantiles of a coverage *)
Lemma u_num : u = / 9007199254740992.
Proof. unfold u. simpl. lra. Qed.
Lemma top_double : double (2 - 2 * u) /\ double (1 - u).
Proof.
  split.
  - replace (2 - 2 * u) with (IZR (2 ^ 53 - 1) * bpow radix2 (-52)); [|change (IZR (2 ^ 53 - 1)) with 9007199254740991; change (bpow radix2 (-52)) with (/ 4503599627370496); rewrite u_num; lra].
    apply (double_scaled (2 ^ 53 - 1) (-52)); [reflexivity|lia|reflexivity].
  - replace (1 - u) with (IZR (2 ^ 53 - 1) * bpow radix2 (-53)); [|change (IZR (2 ^ 53 - 1)) with 9007199254740991; change (bpow radix2 (-53)) with (/ 9007199254740992); rewrite u_num; lra].
    apply (double_scaled (2 ^ 53 - 1) (-53)); [reflexivity|lia|reflexivity].
Qed.

Definition q_lo (c : R) : R := fmul (1 / 2) (fsub 1 c).
Definition q_hi (c : R) : R := fmul (1 / 2) (fadd 1 c).
Lemma double_nu k e : (-1074 <= e)%Z -> (Z.abs k < 2 ^ 53)%Z -> double (IZR k * bpow radix2 e).
Proof. intros. now apply (double_scaled k e). Qed.
Lemma double_4u : double (4 * u) /\ double (2 * u) /\ double (1 / 2).
Proof.
  split; [|split].
  - replace (4 * u) with (IZR 1 * bpow radix2 (-51)); [now apply double_nu|]. change (bpow radix2 (-51)) with (/ 2251799813685248). rewrite u_num. lra.
  - replace (2 * u) with (IZR 1 * bpow radix2 (-52)); [now apply double_nu|]. change (bpow radix2 (-52)) with (/ 4503599627370496). rewrite u_num. lra.
  - replace (1 / 2) with (IZR 1 * bpow radix2 (-1)); [now apply double_nu|]. change (bpow radix2 (-1)) with (/ 2). lra.
Qed.
Lemma half_err x : 0 <= x <= 2 -> Rabs (fmul (1 / 2) x - x / 2) <= u + eta.
Proof.
  intros H. destruct (rnd_error (1 / 2 * x)) as (e & h & He & Hh & E). unfold fmul. rewrite E. replace (1 / 2 * x * (1 + e) + h - x / 2) with (x / 2 * e + h) by field.
  eapply Rle_trans; [apply Rabs_triang|]. apply Rplus_le_compat; [|exact Hh]. rewrite Rabs_mult, (Rabs_pos_eq (x / 2)) by lra. pose proof (Rabs_pos e). nra.
Qed.
Lemma coverage_quantiles c : double c -> 0 <= c <= 1 - 4 * unit_roundoff ->
  double (q_lo c) /\ double (q_hi c) /\ 0 < q_lo c < 1 /\ 0 < q_hi c < 1 /\
  Rabs (q_lo c - (1 - c) / 2) <= 3 * u /\ Rabs (q_hi c - (1 + c) / 2) <= 3 * u.
Proof.
  change unit_roundoff with u. intros Dc Hc. pose proof u_pos. pose proof u_tiny. pose proof eta_u. destruct double_4u as (D4 & D2 & Dh). destruct top_double as (T2 & T1).
  assert (L1 : 4 * u <= fsub 1 c) by (apply rnd_ge; [exact D4|lra]).
  assert (L2 : fsub 1 c <= 1) by (apply rnd_le_d; [apply double_1|lra]).
  assert (L3 : 1 <= fadd 1 c) by (apply rnd_ge; [apply double_1|lra]).
  assert (L4 : fadd 1 c <= 2 - 2 * u) by (apply rnd_le_d; [exact T2|lra]).
  split; [apply rnd_double|]. split; [apply rnd_double|]. split; [|split; [|split]].
  - split; [apply Rlt_le_trans with (2 * u); [lra|]; apply rnd_ge; [exact D2|lra]|]. apply Rle_lt_trans with (1 / 2); [|lra]. apply rnd_le_d; [exact Dh|lra].
  - split; [apply Rlt_le_trans with (1 / 2); [lra|]; apply rnd_ge; [exact Dh|lra]|]. apply Rle_lt_trans with (1 - u); [|lra]. apply rnd_le_d; [exact T1|lra].
  - pose proof (half_err (fsub 1 c) ltac:(lra)) as E. destruct (fsub_error 1 c double_1 Dc) as (e & He & Ee).
    assert (X : Rabs (fsub 1 c / 2 - (1 - c) / 2) <= u).
    { rewrite Ee. replace ((1 - c) * (1 + e) / 2 - (1 - c) / 2) with ((1 - c) / 2 * e) by field. rewrite Rabs_mult, Rabs_pos_eq by lra. pose proof (Rabs_pos e). nra. }
    fold (q_lo c) in E. apply Rabs_le_inv in E, X. apply Rabs_le. lra.
  - pose proof (half_err (fadd 1 c) ltac:(lra)) as E. destruct (fadd_error 1 c double_1 Dc) as (e & He & Ee).
    assert (X : Rabs (fadd 1 c / 2 - (1 + c) / 2) <= u).
    { rewrite Ee. replace ((1 + c) * (1 + e) / 2 - (1 + c) / 2) with ((1 + c) / 2 * e) by field. rewrite Rabs_mult, Rabs_pos_eq by lra. pose proof (Rabs_pos e). nra. }
    fold (q_hi c) in E. apply Rabs_le_inv in E, X. apply Rabs_le. lra.
Qed.
Lemma blur_room l s : fline l s -> (11 + Rabs l / s) * u + 3 * u <= blur l s.
Proof. intros L. unfold blur. change unit_roundoff with u. pose proof u_pos. nra. Qed.

Lemma coverage_ok f d l s c : fdist_ok f d -> fline l s -> double c -> 0 <= c <= 1 - 4 * unit_roundoff ->
  exists lo hi, fcoverage_interval d l s c = Ok (Finite lo, Finite hi) /\ double lo /\ double hi /\
    Rabs (line_cdf f l s lo - (1 - c) / 2) <= blur l s /\ Rabs (line_cdf f l s hi - (1 + c) / 2) <= blur l s.
Proof.
  intros K L Dc Hc. destruct (coverage_quantiles c Dc Hc) as (D1 & D2 & R1 & R2 & E1 & E2). destruct (fppf_ok f d l s K L _ D1 R1) as (lo & El & Dl & Bl). destruct (fppf_ok f d l s K L _ D2 R2) as (hi & Eh & Dh & Bh).
  exists lo, hi. unfold fcoverage_interval. fold (q_lo c) (q_hi c). rewrite El. cbn [bind]. rewrite Eh. cbn [bind]. split; [reflexivity|]. split; [exact Dl|]. split; [exact Dh|].
  pose proof (blur_room l s L). split; apply Rabs_le_inv in E1, E2, Bl, Bh; apply Rabs_le; lra.
Qed.
Lemma coverage_grid_ok f d l s c n : fdist_ok f d -> fline l s -> double c -> 0 <= c <= 1 - 4 * unit_roundoff -> (2 <= n <= 2 ^ 50)%Z ->
  2 * blur l s < c / IZR (n - 1) ->
  exists lo hi xs, fcoverage_interval d l s c = Ok (Finite lo, Finite hi) /\ fprobability_grid d l s (Coverage c) n = Ok (map Finite xs) /\ first xs = lo /\ final xs = hi /\
    strictly_ascending xs /\ equidistant_to (line_cdf f l s) ((1 - c) / 2) ((1 + c) / 2) n (blur l s) xs.
Proof.
  intros K L Dc Hc Hn H. destruct (split_n n (proj1 Hn)) as (m & ->). pose proof u_pos as Pu. change unit_roundoff with u in Hc.
  destruct (coverage_quantiles c Dc Hc) as (D1 & D2 & R1 & R2 & E1 & E2). destruct (fppf_ok f d l s K L _ D1 R1) as (lo & El & Dl & Bl). destruct (fppf_ok f d l s K L _ D2 R2) as (hi & Eh & Dh & Bh).
  pose proof (blur_room l s L) as G.
  assert (RP : 0 <= (1 - c) / 2 <= 1) by lra. assert (RQ : 0 <= (1 + c) / 2 <= 1) by lra.
  assert (R1' : 0 <= q_lo c <= 1) by lra. assert (R2' : 0 <= q_hi c <= 1) by lra.
  assert (Bp : Rabs (q_lo c - (1 - c) / 2) <= 7 * u) by lra. assert (Bq : Rabs (q_hi c - (1 + c) / 2) <= 7 * u) by lra.
  rewrite (n1 m) in H. replace (c / INR (S m)) with (((1 + c) / 2 - (1 - c) / 2) / INR (S m)) in H by (pose proof (Sm_pos m); field; lra).
  unfold fcoverage_interval, fprobability_grid. fold (q_lo c) (q_hi c). rewrite El. cbn [bind]. rewrite Eh. cbn [bind]. rewrite (qs_ok (q_lo c) (q_hi c) m). cbn [bind].
  rewrite (ppf_ok d l s L _ _ _ _ m D1 D2 R1' R2' RP RQ Bp Bq (proj2 Hn) H). cbn [bind].
  change (seq 0 (S m)) with (0%nat :: seq 1 m). cbn [map app]. rewrite map_app. cbn [map]. rewrite point_0 by exact D1.
  assert (V1 : val d l s (q_lo c) = Finite lo) by (unfold val; now rewrite El). assert (V2 : val d l s (q_hi c) = Finite hi) by (unfold val; now rewrite Eh). rewrite V1, V2.
  exists lo, hi. eexists. split; [reflexivity|]. split; [rewrite <- (finite_list f d l s K L _ _ _ _ m D1 D2 R1' R2' RP RQ Bp Bq (proj2 Hn) H lo hi); reflexivity|].
  apply (points_ok f d l s K L _ _ _ _ m D1 D2 R1' R2' RP RQ Bp Bq (proj2 Hn) H); [reflexivity| |]; apply Rabs_le_inv in E1, E2, Bl, Bh; apply Rabs_le; lra.
Qed.

(** Halfway between two neighbours, the even one counts. *)
Lemma tie_2 : rnd (2 - u) = 2.
Proof.
  rewrite u_num. assert (M : mag radix2 (2 - / 9007199254740992) = 1%Z :> Z) by (apply mag_unique; rewrite Rabs_pos_eq by lra; simpl; lra).
  unfold rnd, round, scaled_mantissa, cexp. rewrite M. change (fexp64 1) with (-52)%Z. change (bpow radix2 (- -52)) with 4503599627370496.
  replace ((2 - / 9007199254740992) * 4503599627370496) with (9007199254740991 + / 2) by lra.
  assert (Fl : Zfloor (9007199254740991 + / 2) = 9007199254740991%Z) by (apply Zfloor_imp; rewrite plus_IZR; lra).
  unfold Znearest. rewrite Fl. replace (9007199254740991 + / 2 - 9007199254740991) with (/ 2) by lra. rewrite Rcompare_Eq by lra.
  cbn [negb Z.even]. rewrite (Zceil_imp 9007199254740992) by (cbn; lra). unfold F2R. cbn [Fnum Fexp]. change (bpow radix2 (-52)) with (/ 4503599627370496). lra.
Qed.
(** ** Coverage below 1 with an infinite interval *)
Lemma infinite_interval d l s : 0 < s -> double (1 - u) /\ 1 - u < 1 /\ exists lo, fcoverage_interval d l s (1 - u) = Ok (lo, p_infty).
Proof.
  intros Ps. split; [apply top_double|]. pose proof u_pos as Pu. split; [lra|].
  assert (E : fadd 1 (1 - u) = 2).
  { unfold fadd. replace (1 + (1 - u)) with (2 - u) by ring. apply Rle_antisym; [apply rnd_le_d; [apply double_2|lra]|].
    rewrite tie_2. lra. }
  assert (Q1 : fmul (1 / 2) (fadd 1 (1 - u)) = 1) by (rewrite E; unfold fmul; replace (1 / 2 * 2) with 1 by field; apply rnd_id, double_1).
  assert (Q0 : 0 <= fmul (1 / 2) (fsub 1 (1 - u)) <= 1).
  { split; [apply rnd_nonneg; apply Rmult_le_pos; [lra|apply rnd_nonneg; lra]|]. pose proof u_tiny. assert (fsub 1 (1 - u) <= 1) by (apply rnd_le_d; [apply double_1|lra]). apply rnd_le_d; [apply double_1|lra]. }
  unfold fcoverage_interval. rewrite Q1. unfold fppf. destruct (Rlt_dec 0 s); [|lra]. destruct (Rlt_dec _ 0); [lra|]. destruct (Rlt_dec 1 (fmul _ _)); [lra|].
  destruct (Rlt_dec 1 0); [lra|]. destruct (Rlt_dec 1 1); [lra|]. destruct (Req_EM_T 1 0); [lra|]. destruct (Req_EM_T 1 1); [|lra].
  destruct (Req_EM_T _ 0); [eexists; reflexivity|]. destruct (Req_EM_T _ 1); eexists; reflexivity.
Qed.

(** ** Correctly rounded functions *)
Lemma quantile_real f q : 0 < q < 1 -> F0 f (real (quantile (F0 f) q)) = q.
Proof.
  intros H. pose proof (quantile_is _ _ (F0_density f) q ltac:(lra)) as I1. destruct (is_quantile_finite _ q _ H I1) as (r & -> & E). exact E.
Qed.
Lemma correct_fdist_ok f : fdist_ok f (correct_fdist f).
Proof.
  pose proof u_pos as Pu. pose proof u_tiny. pose proof L_Float7.eta_u as Et. pose proof eta_pos. split; cbn [correct_fdist f_cdf0 f_ppf0]; change unit_roundoff with u.
  - intros t _. change (line_cdf f 0 1 t) with (F0 f t). pose proof (F0_range f t) as R1. destruct (rnd_unit (F0 f t)) as (D & B & E); [rewrite Rabs_pos_eq; lra|]. split; [exact D|]. split; [|lra].
    split; [apply rnd_nonneg; lra|]. apply Rabs_le_inv in B. lra.
  - intros q _ Hq. split; [apply rnd_double|]. pose proof (quantile_real f q Hq) as E. change (line_cdf f 0 1) with (F0 f). set (x := real _) in *.
    destruct (rnd_error x) as (e & h & He & Hh & ->). pose proof (F0_rel f x e ltac:(lra)) as E1. pose proof (F0_lip f (x * (1 + e)) (x * (1 + e) + h)) as E2.
    replace (x * (1 + e) + h - x * (1 + e)) with h in E2 by ring. rewrite E in E1. apply Rabs_le_inv in E1, E2. apply Rabs_le. lra.
Qed.

(** ** Far above a line *)
Lemma normal_tail t : 0 <= t -> 1 - e2 t / 2 <= F0 Normal t.
Proof.
  intros Ht. unfold F0, line_cdf, norm_cdf. rewrite unit_arg, gauss0_A, (A_eq t Ht). pose proof PI_3 as P3. pose proof (B_bounds t) as (B0 & B1).
  assert (E1 : e2 t <= 1). { unfold e2. rewrite <- exp_0. destruct (Req_dec t 0) as [->|N]; [right; f_equal; field|]. left. apply exp_increasing. nra. }
  assert (E0 : 0 < e2 t) by apply exp_pos.
  assert (X : sqrt (2 * PI) * (1 / 2 * (1 - e2 t)) <= sqrt (PI / 2 - 2 * B t)).
  { replace (sqrt (2 * PI) * (1 / 2 * (1 - e2 t))) with (sqrt ((2 * PI) * (1 / 2 * (1 - e2 t))²)) by (rewrite sqrt_mult, sqrt_Rsqr; [reflexivity|lra|lra|apply Rle_0_sqr]).
    apply sqrt_le_1_alt. unfold Rsqr. apply Rle_trans with (PI / 2 - PI / 2 * e2 t); [|lra].
    replace (2 * PI * (1 / 2 * (1 - e2 t) * (1 / 2 * (1 - e2 t)))) with (PI / 2 * ((1 - e2 t) * (1 - e2 t))) by field.
    replace (PI / 2 - PI / 2 * e2 t) with (PI / 2 * (1 - e2 t)) by field. apply Rmult_le_compat_l; [lra|]. nra. }
  assert (S0 : 0 < sqrt (2 * PI)) by (apply sqrt_lt_R0; lra).
  apply (Rmult_le_compat_l (/ sqrt (2 * PI))) in X; [|left; now apply Rinv_0_lt_compat]. rewrite <- Rmult_assoc, Rinv_l, Rmult_1_l in X by lra. lra.
Qed.
Lemma exp_nat x k : exp x ^ k = exp (INR k * x).
Proof. induction k as [|k IH]; [cbn [pow INR]; now rewrite Rmult_0_l, exp_0|]. rewrite <- tech_pow_Rmult, IH, <- exp_plus, S_INR. f_equal. ring. Qed.
Lemma exp_40 : 36028797018963968 < exp 40.
Proof.
  assert (E : 13 / 5 <= exp 1).
  { assert (X : exp 1 = exp (/ 16) ^ 16). { rewrite exp_nat. f_equal. simpl. lra. } rewrite X. apply Rle_trans with ((17 / 16) ^ 16); [lra|]. apply pow_incr. pose proof (exp_ineq1_le (/ 16)). lra. }
  assert (X : exp 40 = exp 1 ^ 40). { rewrite exp_nat. f_equal. simpl. lra. } rewrite X. apply Rlt_le_trans with ((13 / 5) ^ 40); [lra|]. apply pow_incr. lra.
Qed.
Lemma saturation t : 9 <= t -> rnd (F0 Normal t) = 1.
Proof.
  intros H. pose proof (F0_range Normal t) as R1. apply rnd_below_one. split; [|lra]. pose proof (normal_tail t ltac:(lra)) as T. pose proof exp_40 as E.
  assert (X : e2 t <= / exp 40). { unfold e2. rewrite <- exp_Ropp. left. apply exp_increasing. nra. }
  assert (Y : / exp 40 <= / 36028797018963968) by (apply Rinv_le_contravar; lra). lra.
Qed.
Lemma constant_quantiles m : flinspace 1 1 (Z.of_nat (S (S m))) = Ok (repeat 1 (S (S m))).
Proof.
  rewrite flinspace_ok by lia. f_equal. set (n := Z.of_nat (S (S m))).
  assert (E : forall i, flinspace_point 1 1 n i = 1).
  { intros i. unfold flinspace_point. assert (D0 : fsub 1 1 = 0) by (unfold fsub; rewrite Rminus_diag_eq by reflexivity; apply rnd_0). cbv zeta. rewrite D0.
    assert (Q0 : fquo 0 (IZR (n - 1)) = 0) by (unfold fquo, Rdiv; rewrite Rmult_0_l; apply rnd_0). rewrite Q0. destruct (Req_EM_T 0 0); [|lra].
    unfold fmul. rewrite Rmult_0_r, rnd_0. unfold fadd. rewrite Rplus_0_l. apply rnd_id, double_1. }
  replace (Z.to_nat (n - 1)) with (S m) by (unfold n; lia).
  transitivity (repeat 1 (S m) ++ [1]); [|symmetry; exact (repeat_cons (S m) 1)].
  f_equal. transitivity (map (fun _ : nat => 1) (seq 0 (S m))); [apply map_ext; exact E|]. generalize 0%nat. generalize (S m). induction n0 as [|k IH]; intros j; cbn; [reflexivity|]. now rewrite IH.
Qed.
Lemma far_grid d l s a b n : fline l s -> (forall t, double t -> 9 <= t -> f_cdf0 d t = 1) -> double a -> double b ->
  l + 10 * s <= a -> l + 10 * s <= b -> (2 <= n)%Z ->
  fprobability_grid d l s (Limits a b) n = Ok (Finite a :: repeat p_infty (Z.to_nat (n - 2)) ++ [Finite b]).
Proof.
  intros L Hd Da Db Ha Hb Hn. pose proof (s_pos l s L) as Ps. destruct L as (Dl & Ds & _). pose proof u_tiny. pose proof u_pos.
  assert (C : forall x, double x -> l + 10 * s <= x -> fcdf d l s x = Ok 1).
  { intros x Dx Hx. unfold fcdf. destruct (Rlt_dec 0 s); [|lra]. f_equal. apply Hd; [apply rnd_double|]. apply rnd_ge; [apply double_int; lia|].
    destruct (fsub_error x l Dx Dl) as (e & He & ->). apply Rabs_le_inv in He. apply (Rmult_le_reg_r s); [exact Ps|]. unfold Rdiv. rewrite Rmult_assoc, Rinv_l by lra. nra. }
  unfold fprobability_grid. rewrite !C by assumption. cbn [bind]. destruct (split_n n Hn) as (m & ->). rewrite constant_quantiles. cbn [bind].
  rewrite (traverse_ok _ (fun _ => p_infty)).
  - cbn [bind]. assert (R1 : forall k, map (fun _ : R => p_infty) (repeat 1 k) = repeat p_infty k) by (induction k; cbn; congruence). rewrite R1.
    replace (Z.to_nat (Z.of_nat (S (S m)) - 2)) with m by lia. replace (S (S m)) with (S (m + 1)) by lia. cbn [repeat map]. rewrite repeat_app. cbn [repeat]. now rewrite set_ends.
  - intros q I1. apply repeat_spec in I1. subst q. unfold fppf. destruct (Rlt_dec 0 s); [|lra]. destruct (Rlt_dec 1 0); [lra|]. destruct (Rlt_dec 1 1); [lra|]. destruct (Req_EM_T 1 0); [lra|]. destruct (Req_EM_T 1 1); [reflexivity|lra].
Qed.
