(** Rounding in Doppler widths, recoil, and resonances with a Gaussian profile. *)
From Coq Require Import Reals List ZArith Lra Lia Psatz String.
From Flocq Require Import Core.
From Verif Require Import Py Spec M_Num M_Constituents M_Thermal M_Dist M_Resonance M_Float S_Float M_Float2 S_Float2 M_Float4 S_Float4
  L_Float L_Float2 L_Float3 L_Float7 L_Float9 L_Float10.
Import ListNotations.
Open Scope R_scope.

(** ** Larger counts of roundings *)
Lemma u_30 : u <= / 1073741824.
Proof. unfold u. replace 1073741824 with (2 ^ 30) by ring. apply ipow2_le. lia. Qed.
Lemma half_le_qb k : (k <= 20 * 1000)%nat -> / 2 <= q ^ k.
Proof.
  intros H. pose proof (bernoulli k) as B. apply le_INR in H. rewrite mult_INR in H; replace (INR 20) with 20 in H by (rewrite INR_IZR_INZ; reflexivity); replace (INR 1000) with 1000 in H by (rewrite INR_IZR_INZ; reflexivity). pose proof u_30. pose proof u_pos. nra.
Qed.
Lemma near_rndb k v V : (k <= 20 * 1000)%nat -> tiny <= V -> near k v V -> near (S k) (rnd v) V.
Proof.
  intros Hk HV N. pose proof (near_pos _ _ _ N) as Pv. pose proof (half_le_qb k Hk).
  destruct (rnd_error_normal v) as (e & He & ->); [|now apply near_err].
  destruct N as (H1 & H2 & H3). rewrite Rabs_pos_eq by lra. apply Rle_trans with (tiny * / 2); [|nra].
  unfold tiny. change (/ 2) with (bpow radix2 (-1)). rewrite <- bpow_plus. apply bpow_le. lia.
Qed.
Lemma goodb_fmul k n j m v V w W : (k + j <= 20 * 1000)%nat -> (n + m <= 900)%nat -> good k n v V -> good j m w W -> good (S (k + j)) (n + m) (fmul v w) (V * W).
Proof. intros A B [N G] [N' G']. pose proof (rng_mult _ _ _ _ G G') as T. split; [apply near_rndb; [lia|eapply rng_tiny; eassumption|now apply near_mult]|assumption]. Qed.
Lemma goodb_fquo k n j m v V w W : (k + j <= 20 * 1000)%nat -> (n + m <= 900)%nat -> good k n v V -> good j m w W -> good (S (k + j)) (n + m) (fquo v w) (V / W).
Proof. intros A B [N G] [N' G']. pose proof (rng_div _ _ _ _ G G') as T. split; [apply near_rndb; [lia|eapply rng_tiny; eassumption|now apply near_div]|assumption]. Qed.
Lemma near_boundb k v V : (k <= 20 * 1000)%nat -> near k v V -> Rabs (v - V) <= (INR k + 1) * u * V.
Proof.
  intros Hk N. pose proof (near_pos _ _ _ N) as Pv. destruct N as (H1 & H2 & H3). pose proof (bernoulli k) as B. pose proof u_pos as U. pose proof u_30 as U3. pose proof (pos_INR k) as K0.
  apply le_INR in Hk. rewrite mult_INR in Hk; replace (INR 20) with 20 in Hk by (rewrite INR_IZR_INZ; reflexivity); replace (INR 1000) with 1000 in Hk by (rewrite INR_IZR_INZ; reflexivity). set (n := INR k) in *. pose proof (qk_pos k) as Q.
  assert (n * (n + 1) <= 400020000) by nra. assert (n * (n + 1) * u <= 1) by nra.
  assert (u * (n * (n + 1) * u) <= u) by nra.
  apply Rabs_le. split; [nra|].
  assert (v * (1 - n * u) <= V) by nra. assert (1 <= (1 + (n + 1) * u) * (1 - n * u)) by nra.
  assert (v <= v * ((1 + (n + 1) * u) * (1 - n * u))) by nra. assert (0 <= 1 + (n + 1) * u) by nra. nra.
Qed.

(** ** Square roots and exponentials *)
Lemma near_sqrt k v V : near (k + k) v V -> near k (sqrt v) (sqrt V).
Proof.
  intros N. pose proof (near_pos _ _ _ N) as Pv. destruct N as (H1 & H2 & H3). pose proof (qk_pos k) as Q. rewrite pow_add in H2, H3.
  assert (Sq : sqrt (q ^ k * q ^ k) = q ^ k) by (apply sqrt_square; lra).
  split; [now apply sqrt_lt_R0|]. split.
  - rewrite <- Sq, <- sqrt_mult by nra. now apply sqrt_le_1_alt.
  - rewrite <- Sq, <- sqrt_mult by nra. now apply sqrt_le_1_alt.
Qed.
Lemma rng_sqrt n x : rng (n + n) x -> rng n (sqrt x).
Proof.
  intros [A B]. unfold rng. rewrite pow_add in A, B. pose proof (pow2_pos n). pose proof (ipow2_pos n).
  replace (/ 2 ^ n) with (sqrt (/ (2 ^ n * 2 ^ n))) by (rewrite Rinv_mult; apply sqrt_square; lra).
  replace (2 ^ n) with (sqrt (2 ^ n * 2 ^ n)) at 3 by (apply sqrt_square; lra).
  split; now apply sqrt_le_1_alt.
Qed.
Lemma good_fsqrt k n v V : (k <= 20 * 1000)%nat -> (n <= 900)%nat -> good (k + k) (n + n) v V -> good (S k) n (fsqrt v) (sqrt V).
Proof.
  intros A B [N G]. pose proof (rng_sqrt _ _ G) as T. split; [|exact T]. apply near_rndb; [exact A|eapply rng_tiny; eassumption|now apply near_sqrt].
Qed.
Lemma q_exp n : q ^ n <= exp (- (INR n * u)).
Proof.
  induction n as [|n IH]; [rewrite Rmult_0_l, Ropp_0, exp_0; simpl; lra|].
  cbn [pow]. rewrite S_INR. replace (- ((INR n + 1) * u)) with (- u + - (INR n * u)) by ring. rewrite exp_plus.
  pose proof (exp_ineq1_le (- u)). pose proof q_pos. pose proof (qk_pos n). apply Rmult_le_compat; try lra. unfold q. lra.
Qed.
Lemma near_exp n a b : Rabs (a - b) <= INR n * u -> near n (exp a) (exp b).
Proof.
  intros H. apply Rabs_le_inv in H. pose proof (q_exp n) as Q. pose proof (exp_pos a). pose proof (exp_pos b). split; [apply exp_pos|]. split.
  - apply Rle_trans with (exp b * exp (- (INR n * u))); [apply Rmult_le_compat_l; lra|]. rewrite <- exp_plus. apply exp_le. lra.
  - apply Rle_trans with (exp a * exp (- (INR n * u))); [apply Rmult_le_compat_l; lra|]. rewrite <- exp_plus. apply exp_le. lra.
Qed.
Lemma exp_4 n : exp (INR n) <= 4 ^ n.
Proof.
  induction n as [|n IH]; [simpl; rewrite exp_0; lra|]. rewrite S_INR, exp_plus. cbn [pow]. pose proof (exp_pos (INR n)). pose proof (exp_pos 1). pose proof exp_le_3. nra.
Qed.
Lemma rng_exp_n n z : 0 <= z <= INR n -> rng (2 * n) (exp (- z)).
Proof.
  intros [A B]. pose proof (exp_le_3) as E3. split.
  - apply Rle_trans with (exp (- INR n)); [|apply exp_le; lra].
    assert (E : exp (INR n) <= 2 ^ (2 * n)). { rewrite pow_mult. replace (2 ^ 2) with 4 by ring. apply exp_4. }
    rewrite exp_Ropp. apply Rinv_le_contravar; [apply exp_pos|exact E].
  - apply Rle_trans with (exp 0); [apply exp_le; lra|]. rewrite exp_0. apply pow_R1_Rle. lra.
Qed.
Lemma rng_exp z : 0 <= z <= 128 -> rng 256 (exp (- z)).
Proof. intros H. apply (rng_exp_n 128). replace (INR 128) with 128 by (rewrite INR_IZR_INZ; reflexivity). exact H. Qed.

(** ** Doppler width *)
Lemma good_million : good 1 20 (rnd (/ 10 ^ 6)) (/ 10 ^ 6).
Proof. apply good_rnd; [lia|lia|]. apply good_exact. split; [apply Rinv_le_contravar; [apply pow_lt; lra|simpl; lra]|]. apply Rle_trans with 1; [|apply pow_R1_Rle; lra]. rewrite <- Rinv_1. apply Rinv_le_contravar; [lra|]. apply pow_R1_Rle. lra. Qed.
Lemma good_two : good 0 1 2 2.
Proof. apply good_exact. split; simpl; lra. Qed.
Lemma fdoppler_good k amu T E : thermal k amu T -> rng 61 E ->
  exists d d', get_doppler_width k {| mb_amu := amu; mb_effective_temperature := T |} E = Ok d /\
    fget_doppler_width k {| mb_amu := amu; mb_effective_temperature := T |} E = Ok d' /\ good 5 192 d' d.
Proof.
  intros (Pk & Pu & Pa & PT) RE. unfold get_doppler_width, fget_doppler_width. cbn [mb_amu mb_effective_temperature].
  assert (GD : good 1 120 (fmul amu (k_u_MeV k)) (amu * k_u_MeV k)) by (apply (good_fmul 0 60 0 60); [lia|lia|now apply good_exact|now apply good_exact]).
  assert (GN : good 4 141 (fmul (fmul (fmul 2 (k_kB_eV k)) (rnd (/ 10 ^ 6))) T) (2 * k_kB_eV k * / 10 ^ 6 * T)).
  { eapply good_weaken; [| |apply (good_fmul 3 81 0 60); [lia|lia| |now apply good_exact]]; [lia|lia|].
    apply (good_fmul 1 61 1 20); [lia|lia| |apply good_million]. apply (good_fmul 0 1 0 60); [lia|lia|apply good_two|now apply good_exact]. }
  assert (GQ : good (3 + 3) (131 + 131) (fquo (fmul (fmul (fmul 2 (k_kB_eV k)) (rnd (/ 10 ^ 6))) T) (fmul amu (k_u_MeV k))) (2 * k_kB_eV k * / 10 ^ 6 * T / (amu * k_u_MeV k))).
  { eapply good_weaken; [| |apply (good_fquo 4 141 1 120); [lia|lia|exact GN|exact GD]]; lia. }
  unfold fdiv, np_sqrt. 
  destruct (Req_EM_T (amu * k_u_MeV k) 0) as [Z|_]; [elim (Rgt_not_eq _ _ (rng_pos _ _ (proj2 GD)) Z)|].
  destruct (Req_EM_T (fmul amu (k_u_MeV k)) 0) as [Z|_]; [elim (Rgt_not_eq _ _ (near_pos _ _ _ (proj1 GD)) Z)|]. cbn [bind].
  pose proof (rng_pos _ _ (proj2 GQ)) as P1. pose proof (near_pos _ _ _ (proj1 GQ)) as P2.
  destruct (Rlt_dec _ 0) as [L|_]; [lra|]. destruct (Rlt_dec _ 0) as [L|_]; [lra|]. cbn [bind].
  eexists. eexists. split; [reflexivity|]. split; [reflexivity|].
  eapply good_weaken; [| |apply (goodb_fmul 0 61 4 131); [lia|lia|now apply good_exact|apply good_fsqrt; [lia|lia|exact GQ]]]; lia.
Qed.

Lemma fdoppler_back k amu T E d : thermal k amu T -> rng 61 E -> fget_doppler_width k {| mb_amu := amu; mb_effective_temperature := T |} E = Ok d ->
  exists T', fget_effective_temperature k d amu E = Ok T' /\ Rabs (T' - T) <= 32 * u * T.
Proof.
  intros H RE D. pose proof H as (Pk & Pu & Pa & PT). destruct (fdoppler_good k amu T E H RE) as (d0 & d1 & H1 & H2 & GD). rewrite D in H2. injection H2 as <-.
  unfold fget_effective_temperature.
  assert (GE : good 6 203 (fmul (fmul (fmul (fmul E E) 2) (k_kB_eV k)) (rnd (/ 10 ^ 6))) (E * E * 2 * k_kB_eV k * / 10 ^ 6)).
  { eapply good_weaken; [| |apply (good_fmul 3 183 1 20); [lia|lia| |apply good_million]]; [lia|lia|].
    apply (good_fmul 2 123 0 60); [lia|lia| |now apply good_exact]. apply (good_fmul 1 122 0 1); [lia|lia| |apply good_two]. apply (good_fmul 0 61 0 61); [lia|lia|now apply good_exact|now apply good_exact]. }
  destruct (Req_EM_T _ 0) as [Z|_]; [elim (Rgt_not_eq _ _ (near_pos _ _ _ (proj1 GE)) Z)|].
  eexists. split; [reflexivity|].
  assert (G : good 21 900 (fquo (fmul (fmul (fmul d d) amu) (k_u_MeV k)) (fmul (fmul (fmul (fmul E E) 2) (k_kB_eV k)) (rnd (/ 10 ^ 6)))) (d0 * d0 * amu * k_u_MeV k / (E * E * 2 * k_kB_eV k * / 10 ^ 6))).
  { eapply good_weaken; [| |apply (good_fquo 13 504 6 203); [lia|lia| |exact GE]]; [lia|lia|].
    apply (good_fmul 12 444 0 60); [lia|lia| |now apply good_exact]. apply (good_fmul 11 384 0 60); [lia|lia| |now apply good_exact]. apply (good_fmul 5 192 5 192); [lia|lia|exact GD|exact GD]. }
  assert (P : 0 < T /\ 0 < k_kB_eV k /\ 0 < k_u_MeV k /\ 0 < amu) by (split; [|split; [|split]]; eapply (rng_pos 60); eassumption). destruct P as (P1 & P2 & P3 & P4). pose proof (rng_pos _ _ RE) as PE.
  replace (d0 * d0 * amu * k_u_MeV k / (E * E * 2 * k_kB_eV k * / 10 ^ 6)) with T in G.
  - destruct G as [N _]. apply near_bound in N; [|lia]. replace (INR 21 + 1) with 22 in N by (simpl; ring). pose proof u_pos. nra.
  - unfold get_doppler_width, fdiv, np_sqrt in H1. cbn [mb_amu mb_effective_temperature] in H1. destruct (Req_EM_T _ 0) as [Z|_]; [nra|]. cbn [bind] in H1.
    assert (Q : 0 <= 2 * k_kB_eV k * / 10 ^ 6 * T / (amu * k_u_MeV k)).
    { apply Rmult_le_pos; [|left; apply Rinv_0_lt_compat; nra]. assert (0 < / 10 ^ 6) by (apply Rinv_0_lt_compat, pow_lt; lra). assert (0 < k_kB_eV k * / 10 ^ 6) by nra. nra. }
    destruct (Rlt_dec _ 0) as [L|_]; [lra|]. cbn [bind] in H1. set (t := 2 * k_kB_eV k * / 10 ^ 6 * T / (amu * k_u_MeV k)) in *. assert (Ed : d0 = E * sqrt t) by congruence. rewrite Ed.
    replace (E * sqrt t * (E * sqrt t) * amu * k_u_MeV k) with (E * E * (sqrt t * sqrt t) * amu * k_u_MeV k) by ring. rewrite sqrt_sqrt by exact Q. unfold t.
    assert (0 < 10 ^ 6) by (apply pow_lt; lra). field. repeat split; lra.
Qed.

(** ** Recoil *)
Lemma frecoil_good k amu D : double D -> plausible D -> plausible amu -> plausible (k_u_MeV k) ->
  exists e e', FreeNucleusRecoil k amu D = Ok e /\ fFreeNucleusRecoil k amu D = Ok e' /\ 0 < e /\ Rabs (e' - e) <= 8 * u * e /\ D <= e'.
Proof.
  intros DD PD Pa Pu. unfold FreeNucleusRecoil, fFreeNucleusRecoil.
  assert (GD : good 2 121 (fmul (fmul 2 amu) (k_u_MeV k)) (2 * amu * k_u_MeV k)).
  { apply (good_fmul 1 61 0 60); [lia|lia| |now apply good_exact]. apply (good_fmul 0 1 0 60); [lia|lia|apply good_two|now apply good_exact]. }
  unfold fdiv. destruct (Req_EM_T _ 0) as [Z|_]; [elim (Rgt_not_eq _ _ (rng_pos _ _ (proj2 GD)) Z)|].
  destruct (Req_EM_T _ 0) as [Z|_]; [elim (Rgt_not_eq _ _ (near_pos _ _ _ (proj1 GD)) Z)|]. cbn [bind].
  eexists. eexists. split; [reflexivity|]. split; [reflexivity|].
  assert (GQ : good 3 181 (fquo D (fmul (fmul 2 amu) (k_u_MeV k))) (D / (2 * amu * k_u_MeV k))) by (apply (good_fquo 0 60 2 121); [lia|lia|now apply good_exact|exact GD]).
  assert (NA : near 4 (fadd 1 (fquo D (fmul (fmul 2 amu) (k_u_MeV k)))) (1 + D / (2 * amu * k_u_MeV k))).
  { apply near_fadd; [apply double_1|apply rnd_double| |apply GQ]. eapply near_weaken; [|apply near_exact; lra]. lia. }
  set (z := D / (2 * amu * k_u_MeV k)) in *. pose proof (rng_pos _ _ (proj2 GQ)) as Pz. pose proof (rng_pos 60 _ PD) as PD'.
  assert (N : near 5 (fmul D (fadd 1 (fquo D (fmul (fmul 2 amu) (k_u_MeV k))))) (D * (1 + z))).
  { apply (near_fmul 0 4); [lia| |now apply near_exact|exact NA]. apply Rle_trans with D; [eapply rng_tiny; [|exact PD]; lia|nra]. }
  split; [apply N|]. split; [apply near_bound in N; [|lia]; replace (INR 5 + 1) with 6 in N by (simpl; ring); pose proof u_pos; assert (0 < D * (1 + z)) by nra; nra|].
  assert (1 <= fadd 1 (fquo D (fmul (fmul 2 amu) (k_u_MeV k)))). { apply rnd_ge; [apply double_1|]. pose proof (near_pos _ _ _ (proj1 GQ)). lra. }
  unfold fmul at 1. apply rnd_ge; [exact DD|]. nra.
Qed.

(** ** The Gaussian profile *)
Lemma eta_lt : 0 < eta <= / 2 ^ 480.
Proof.
  split; [apply eta_pos|]. unfold eta. change (-1074)%Z with (- Z.of_nat 1074)%Z. rewrite bpow_neg. pose proof (ipow2_le 480 1074 ltac:(lia)). pose proof (ipow2_pos 1074). lra.
Qed.
Lemma exponent_k k l s W x : (k <= 45)%nat -> double x -> double l -> near k s W -> Rabs (x - l) <= 17 * W ->
  let y := fquo (fsub x l) s in let Y := ((x - l) / W) ^ 2 in
  0 <= Y <= 289 /\ 0 <= fquo (fmul y y) 2 <= 200 /\ Rabs (fquo (fmul y y) 2 - Y / 2) <= ((INR k + 4) * Y + 1) * u.
Proof.
  intros Hk Dx Dl N B y Y. assert (PW : 0 < W) by apply N.
  assert (Y0 : 0 <= Y) by apply pow2_ge_0.
  assert (Y1 : Y <= 289).
  { unfold Y. rewrite <- (Rabs_pos_eq (_ ^ 2)) by apply pow2_ge_0. rewrite <- RPow_abs. unfold Rdiv. rewrite Rabs_mult, Rabs_inv, (Rabs_pos_eq W) by lra.
    assert (H : Rabs (x - l) * / W <= 17). { apply (Rmult_le_reg_r W); [exact PW|]. rewrite Rmult_assoc, Rinv_l by lra. lra. }
    assert (0 <= Rabs (x - l) * / W) by (apply Rmult_le_pos; [apply Rabs_pos|left; now apply Rinv_0_lt_compat]). nra. }
  pose proof (near_dev l s W x k Hk Dx Dl N) as DV. fold y Y in DV. cbv zeta in DV.
  set (a := fmul y y) in *. assert (A0 : 0 <= a) by (apply rnd_nonneg, Rle_0_sqr).
  pose proof u_pos as U. pose proof u_30 as U3. pose proof eta_lt as E. pose proof t_u as T. set (t := / 2 ^ 480) in *.
  assert (Z0 : 0 <= fquo a 2) by (apply rnd_nonneg; lra).
  assert (Zr : Rabs (fquo a 2 - a / 2) <= u * (a / 2) + eta).
  { unfold fquo. destruct (rnd_error (a / 2)) as (e & h & He & Hh & ->). replace (a / 2 * (1 + e) + h - a / 2) with (e * (a / 2) + h) by ring.
    eapply Rle_trans; [apply Rabs_triang|]. rewrite Rabs_mult, (Rabs_pos_eq (a / 2)) by lra. apply Rplus_le_compat; [|exact Hh]. apply Rmult_le_compat_r; [lra|exact He]. }
  apply Rabs_le_inv in Zr.
  pose proof (pos_INR k) as K0. assert (K1 : INR k <= 45) by (apply le_INR in Hk; replace (INR 45) with 45 in Hk by (rewrite INR_IZR_INZ; reflexivity); exact Hk).
  assert (M : Rabs (fquo a 2 - Y / 2) <= ((INR k + 4) * Y + 1) * u).
  { apply Rabs_le. destruct DV as [DV|(D1 & D2 & D3)].
    - apply near_bound in DV; [|lia]. rewrite !plus_INR in DV; replace (INR 5) with 5 in DV by (simpl; ring). set (c := INR k) in *. apply Rabs_le_inv in DV.
      assert (UY : 0 <= u * Y) by nra. assert (cUY : c * (u * Y) <= 45 * (u * Y)) by nra. assert (c * u * Y <= 45 * (u * Y)) by nra. assert (a <= Y * (1 + 100 * u)) by nra. assert (u * a <= u * Y * (1 + 100 * u)) by nra. assert (100 * u * (u * Y) <= / 1024 * (u * Y)) by nra. split; nra.
    - assert (0 <= u * Y) by nra. assert (0 <= INR k * (u * Y)) by nra. split; nra. }
  split; [lra|]. split; [|exact M]. split; [exact Z0|]. apply Rabs_le_inv in M. assert ((INR k + 4) * Y <= 49 * 289) by (apply Rmult_le_compat; lra). nra.
Qed.
Lemma fnorm_good_k k e c l s W x n : (k <= 45)%nat -> clib_ok c -> double x -> double l -> near k s W -> rng 193 W -> Rabs (x - l) <= 17 * W ->
  (INR k + 4) * ((x - l) / W) ^ 2 + 1 <= INR n -> (n <= 15 * 1000)%nat -> (128 <= e <= 150)%nat -> ((x - l) / W) ^ 2 / 2 <= INR e ->
  exists p, fnorm_pdf c l s x = Ok p /\ good (n + 7 + k) (2 * e + 195) p (norm_pdf l W x).
Proof.
  intros Hk [_ HE] Dx Dl N RW B Hn Hn' He Be. destruct (exponent_k k l s W x Hk Dx Dl N B) as (Y & Z & X). cbv zeta in *.
  unfold fnorm_pdf. destruct (Rlt_dec 0 s) as [_|F]; [|elim F; apply (near_pos _ _ _ N)].
  eexists. split; [reflexivity|]. set (y := fquo (fsub x l) s) in *. set (V := ((x - l) / W) ^ 2) in *.
  assert (Eo : fquo (- fmul y y) 2 = - fquo (fmul y y) 2) by (unfold fquo, Rdiv; rewrite <- rnd_opp; f_equal; ring).
  assert (Dz : double (fquo (- fmul y y) 2)) by apply rnd_double.
  destruct (HE _ Dz) as [_ H]; [rewrite Eo; lra|].
  assert (GX : good (n + 3) (2 * e) (c_exp c (fquo (- fmul y y) 2)) (exp (- V / 2))).
  { split; [|replace (- V / 2) with (- (V / 2)) by (unfold Rdiv; ring); apply rng_exp_n; lra].
    rewrite Nat.add_comm. apply (near_trans 3 n) with (exp (fquo (- fmul y y) 2)).
    - apply (near_rel 2); [exact pow_3|apply exp_pos|exact H].
    - apply near_exp. rewrite Eo. replace (- fquo (fmul y y) 2 - - V / 2) with (- (fquo (fmul y y) 2 - V / 2)) by (unfold Rdiv; ring). rewrite Rabs_Ropp. eapply Rle_trans; [exact X|].
      apply Rmult_le_compat_r; [left; apply u_pos|exact Hn]. }
  assert (GS : good 2 2 (fsqrt (fmul 2 np_pi)) (sqrt (2 * PI))).
  { apply good_fsqrt; [lia|lia|]. eapply good_weaken; [| |apply (good_fmul 0 1 1 2); [lia|lia|apply good_two|apply good_pi]]; lia. }
  unfold norm_pdf, gauss0. fold V. 
  eapply good_weaken; [| |apply (goodb_fquo (n + 6) (2 * e + 2) k 193); [lia|lia| |split; [exact N|exact RW]]]; [lia|lia|].
  eapply good_weaken; [| |apply (goodb_fquo (n + 3) (2 * e) 2 2); [lia|lia|exact GX|exact GS]]; lia.
Qed.
Lemma exponent l s W x : double x -> double l -> near 7 s W -> Rabs (x - l) <= 16 * W ->
  let y := fquo (fsub x l) s in let Y := ((x - l) / W) ^ 2 in
  0 <= Y <= 256 /\ 0 <= fquo (fmul y y) 2 <= 200 /\ Rabs (fquo (fmul y y) 2 - Y / 2) <= (11 * Y + 1) * u.
Proof.
  intros Dx Dl N B. assert (PW : 0 < W) by apply N. pose proof (exponent_k 7 l s W x ltac:(lia) Dx Dl N ltac:(lra)) as H. cbv zeta in *. replace (INR 7 + 4) with 11 in H by (simpl; ring).
  destruct H as (H1 & H2 & H3). split; [|auto]. split; [apply H1|].
  rewrite <- (Rabs_pos_eq (_ ^ 2)) by apply pow2_ge_0. rewrite <- RPow_abs. unfold Rdiv. rewrite Rabs_mult, Rabs_inv, (Rabs_pos_eq W) by lra.
  assert (H : Rabs (x - l) * / W <= 16). { apply (Rmult_le_reg_r W); [exact PW|]. rewrite Rmult_assoc, Rinv_l by lra. lra. }
  assert (0 <= Rabs (x - l) * / W) by (apply Rmult_le_pos; [apply Rabs_pos|left; now apply Rinv_0_lt_compat]). nra.
Qed.
Lemma fnorm_good c l s W x n : clib_ok c -> double x -> double l -> near 7 s W -> rng 193 W -> Rabs (x - l) <= 16 * W ->
  11 * ((x - l) / W) ^ 2 + 1 <= INR n -> (n <= 3000)%nat ->
  exists p, fnorm_pdf c l s x = Ok p /\ good (n + 14) 451 p (norm_pdf l W x).
Proof.
  intros HC Dx Dl N RW B Hn Hn'. assert (PW : 0 < W) by apply N. destruct (exponent l s W x Dx Dl N B) as (Y & _).
  destruct (fnorm_good_k 7 128 c l s W x n) as (p & P & G); auto; [lia|lra|replace (INR 7 + 4) with 11 by (simpl; ring); exact Hn|lia|lia|replace (INR 128) with 128 by (rewrite INR_IZR_INZ; reflexivity); lra|].
  exists p. split; [exact P|]. replace (n + 14)%nat with (n + 7 + 7)%nat by lia. exact G.
Qed.
Lemma ceil_nat x : 0 <= x -> exists n, x <= INR n < x + 1.
Proof.
  intros H. pose proof (archimed x) as [A B]. set (z := (up x - 1)%Z). 
  destruct (Req_dec (IZR z) x) as [E|E].
  - assert (0 <= z)%Z by (apply le_IZR; lra). exists (Z.to_nat z). rewrite INR_IZR_INZ, Z2Nat.id by assumption. lra.
  - assert (0 <= up x)%Z by (apply le_IZR; lra). exists (Z.to_nat (up x)). rewrite INR_IZR_INZ, Z2Nat.id by assumption. unfold z in E. rewrite minus_IZR in E. lra.
Qed.

Lemma fGauss_good c k i m fin amu T E (a : bool) : clib_ok c -> floats k i m fin -> thermal k amu T -> double E -> 
  let E_r := fsub (st_excitation_energy m) (st_excitation_energy i) in let x := if a then E else fadd E E_r in
  exists r sigma, Gauss k i (with_energy m (st_excitation_energy i + E_r)) amu T fin = Ok r /\ r_params r = [E_r; sigma] /\ 0 < sigma /\
  (Rabs (x - E_r) <= 16 * sigma -> exists s v, res_call r x true = Ok s /\ fGauss_call c k i m amu T fin E a = Ok v /\ 0 < s /\
    Rabs (v - s) <= (34 + 11 * ((x - E_r) / sigma) ^ 2) * u * s).
Proof.
  intros HC HF HT DE Er x. destruct (fResonance_good c k i m fin HC HF) as (r & Ir & w & H1 & H2 & H3 & H4 & H5 & H6). destruct (Er_props k i m fin HF) as (DEr & _ & RE).
  fold Er in H1, H2, H3, DEr, RE. destruct (fdoppler_good k amu T Er HT RE) as (d & d' & D1 & D2 & D3).
  assert (Dx : double x) by (unfold x; destruct a; [exact DE|apply rnd_double]).
  assert (GS : good 7 193 (fquo d' (fsqrt 2)) (d / sqrt 2)).
  { apply (goodb_fquo 5 192 1 1); [lia|lia|exact D3|]. apply (good_fsqrt 0 1); [lia|lia|]. apply good_exact. split; simpl; lra. }
  pose proof (rng_pos _ _ (proj2 GS)) as PS. set (W := d / sqrt 2) in *.
  exists (with_dist r norm [Er; W]), W. split. { unfold Gauss. rewrite H1. cbn [bind]. rewrite H3, D1. reflexivity. } split; [reflexivity|]. split; [exact PS|]. intros B.
  pose proof (exponent Er (fquo d' (fsqrt 2)) W x Dx DEr (proj1 GS) B) as ((Y0 & Y1) & _).
  destruct (ceil_nat (11 * ((x - Er) / W) ^ 2 + 1)) as (n & N1 & N2); [lra|].
  assert (Hn : (n <= 3000)%nat). { apply INR_le. replace (INR 3000) with 3000 by (rewrite INR_IZR_INZ; reflexivity). lra. }
  destruct (fnorm_good c Er (fquo d' (fsqrt 2)) W x n HC Dx DEr (proj1 GS) (proj2 GS) B N1 Hn) as (p & P1 & P2).
  exists (r_integrated r * norm_pdf Er W x), (fmul Ir p).
  split. { unfold res_call. cbn. destruct (Rlt_dec 0 W); [reflexivity|contradiction]. }
  split. { unfold fGauss_call. rewrite H2. cbn [bind]. fold Er in D2 |- *. rewrite D2. cbn [bind]. unfold fres_call. fold x. cbv zeta. rewrite P1. reflexivity. }
  pose proof (goodb_fmul 16 446 (n + 14) 451 Ir _ p _ ltac:(lia) ltac:(lia) H6 P2) as G. pose proof (rng_pos _ _ (proj2 G)) as PG.
  split; [exact PG|]. destruct G as [NN _]. apply near_boundb in NN; [|lia]. eapply Rle_trans; [exact NN|]. pose proof u_pos.
  apply Rmult_le_compat_r; [lra|]. apply Rmult_le_compat_r; [lra|]. rewrite S_INR, !plus_INR. replace (INR 16) with 16 by (simpl; ring). replace (INR 14) with 14 by (simpl; ring). lra.
Qed.
