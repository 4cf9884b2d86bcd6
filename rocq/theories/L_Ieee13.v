(** Klein-Nishina cross sections: scale factors, examples. *)
From Coq Require Import Reals List ZArith Lia Lra Bool.
From Flocq Require Import Core BinarySingleNaN.
From Verif Require Import Py M_Num M_KleinNishina M_Float S_Float L_Float M_Float2 S_Float2 L_Float8 M_Float5 S_Float5 L_Float18 L_Float7 L_Float9 M_Ieee M_Ieee2 M_Ieee3 S_Ieee S_Ieee3
  L_Ieee L_Ieee2 L_Ieee4 L_Ieee5 L_Ieee6 L_Ieee7 L_Ieee8 L_Ieee9 L_Ieee10 L_Ieee11 L_Ieee12.
Import ListNotations.
Open Scope R_scope.

Lemma of_R_0 : of_R 0 = of_Z 0.
Proof.
  unfold of_R. assert (Z : Ztrunc (scaled_mantissa radix2 fexp64 (rnd 0)) = 0%Z).
  { rewrite rnd_0. unfold scaled_mantissa. rewrite Rmult_0_l. apply (Ztrunc_IZR 0). }
  rewrite Z. reflexivity.
Qed.
Lemma bounded_rep x e : (-1074 <= e < 1024)%Z -> Rabs x <= bpow radix2 e -> rep (of_R x) (rnd x).
Proof. intros He H. apply of_R_rep. eapply Rle_lt_trans; [apply rnd_bpow; [|exact H]; lia|apply bpow_big; lia]. Qed.
Lemma finite_pos (b : b64) : is_finite b = true -> 0 < B2R b -> exists m e W, b = B754_finite false m e W.
Proof.
  intros F H. destruct b as [s|s| |s m e W]; try discriminate.
  - cbn in H. lra.
  - destruct s; [|eauto]. exfalso. assert (F2R (Float radix2 (Z.neg m) e) < 0) by (apply F2R_lt_0; reflexivity). unfold B2R, SpecFloat.cond_Zopp in H. cbn in H. lra.
Qed.
Lemma finite_neg (b : b64) : is_finite b = true -> B2R b <= 0 -> (exists s, b = B754_zero s) \/ exists m e W, b = B754_finite true m e W.
Proof.
  intros F H. destruct b as [s|s| |s m e W]; try discriminate.
  - left. eauto.
  - destruct s; [right; eauto|]. exfalso. assert (0 < F2R (Float radix2 (Z.pos m) e)) by (apply F2R_gt_0; reflexivity). unfold B2R, SpecFloat.cond_Zopp in H. cbn in H. lra.
Qed.
Lemma two_341 : / 2 ^ 342 < / 2 ^ 341.
Proof. rewrite <- !bpow_inv. apply bpow_lt. lia. Qed.

Lemma correct_special : klib_special correct_klib.
Proof.
  unfold klib_special. cbn [correct_klib k_log k_square k_pow_m3 k_cos k_sin k_acos].
  split. { intros b F H. assert (B : bnd b (B2R b) 500) by (split; [now apply rep_refl|change 500%Z with (Z.of_nat 500); rewrite bpow_pow; exact H]).
           destruct (bnd_mul _ _ _ _ _ _ B B ltac:(lia)) as [[G _] _]. exact G. }
  split. { intros b F H. destruct b as [s|s| |s m e W]; try discriminate. destruct (Rlt_dec _ _) as [_|N]; [discriminate|]. exfalso. apply N. pose proof two_341. lra. }
  split. { intros b F H. destruct (finite_neg b F H) as [(s & ->)|(m & e & W & ->)]; discriminate. }
  split; [reflexivity|]. split; [reflexivity|].
  split. { assert (V : B2R (of_Z 1) = 1) by (apply (of_Z_val 1); cbn; lia). destruct (finite_pos (of_Z 1) eq_refl) as (m & e & W & E); [lra|].
           rewrite E. rewrite <- E, V, ln_1. apply of_R_0. }
  split. { apply B2SF_inj. vm_compute. reflexivity. }
  do 6 (split; [reflexivity|]). split.
  - intros b F H. unfold finite in F. rewrite F. destruct (Rle_dec _ _); [lra|reflexivity].
  - reflexivity.
Qed.
Lemma correct_libm : same_libm correct_klib round_libm.
Proof.
  unfold same_libm. cbn [correct_klib k_log k_square k_pow_m3 round_libm m_log m_square m_pow_m3].
  split. { intros b F G. apply mul_finite in G. destruct G as (_ & _ & ->). unfold fmul. f_equal. ring. }
  assert (P : forall b, finite b -> / 2 ^ 341 <= Rabs (B2R b) -> rep (of_R (/ B2R b ^ 3)) (rnd (/ B2R b ^ 3))).
  { intros b F H. apply (bounded_rep _ 1023); [lia|]. assert (0 < Rabs (B2R b)) by (pose proof (Rinv_0_lt_compat (2 ^ 341) ltac:(apply pow_lt; lra)); lra).
    assert (B2R b <> 0) by (intros Z; rewrite Z, Rabs_R0 in *; lra).
    rewrite Rabs_inv, <- RPow_abs. change 1023%Z with (- (- Z.of_nat 341 + (- Z.of_nat 341 + - Z.of_nat 341)))%Z. rewrite bpow_opp.
    rewrite <- bpow_inv in H. apply Rinv_le; [apply bpow_gt_0|]. rewrite !bpow_plus. replace (Rabs (B2R b) ^ 3) with (Rabs (B2R b) * (Rabs (B2R b) * Rabs (B2R b))) by ring.
    pose proof (bpow_gt_0 radix2 (- Z.of_nat 341)). apply Rmult_le_compat; try lra; [apply Rmult_le_pos; lra|]. apply Rmult_le_compat; lra. }
  split. { intros b F G. destruct b as [s|s| |s m e W]; try discriminate. destruct (Rlt_dec _ _) as [C|C]; [discriminate|]. apply P; [exact F|lra]. }
  split. { intros b F [H _]. destruct b as [s|s| |s m e W]; try discriminate.
           - exfalso. cbn in H. pose proof (Rinv_0_lt_compat (2 ^ 100) ltac:(apply pow_lt; lra)). lra.
           - destruct (Rlt_dec _ _) as [C|C]; [|apply P; [exact F|lra]]. exfalso.
             assert (/ 2 ^ 341 < / 2 ^ 100) by (rewrite <- !bpow_inv; apply bpow_lt; lia). pose proof (Rle_abs (B2R (B754_finite s m e W : b64))). lra. }
  intros b F H. destruct (finite_pos b F H) as (m & e & W & E). rewrite E at 1.
  apply (bounded_rep _ 1023); [lia|]. pose proof (abs_B2R_lt_emax 53 1024 b) as B. rewrite Rabs_pos_eq in B by lra.
  assert (Lo : bpow radix2 (-1074) <= B2R b).
  { assert (G : generic_format radix2 (FLT_exp (-1074) 53) (B2R b)) by apply (generic_format_B2R 53 1024 b).
    pose proof (generic_format_ge_bpow radix2 (FLT_exp (-1074) 53) (-1074)) as GE. apply GE; auto. intros z. unfold FLT_exp. lia. }
  assert (Ln : forall z, ln (bpow radix2 z) = IZR z * ln 2).
  { assert (Lp : forall n, ln (bpow radix2 (Z.of_nat n)) = IZR (Z.of_nat n) * ln 2). { intros n. rewrite bpow_pow, ln_pow by lra. now rewrite INR_IZR_INZ. }
    intros z. destruct (Z.leb_spec 0 z) as [C|C]; [rewrite <- (Z2Nat.id z C); apply Lp|].
    rewrite <- (Z.opp_involutive z), bpow_opp, ln_Rinv by apply bpow_gt_0. rewrite <- (Z2Nat.id (- z)) by lia. rewrite Lp, opp_IZR. ring. }
  assert (L2 : 0 < ln 2 < 1). { split; [rewrite <- ln_1; apply ln_increasing; lra|]. pose proof (exp_ineq1 1 ltac:(lra)) as E1. rewrite <- (ln_exp 1). apply ln_increasing; lra. }
  assert (A : IZR (-1074) * ln 2 <= ln (B2R b)). { rewrite <- Ln. destruct Lo as [Lo| <-]; [left; apply ln_increasing; [apply bpow_gt_0|exact Lo]|lra]. }
  assert (A' : ln (B2R b) <= IZR 1024 * ln 2). { rewrite <- Ln. left. apply ln_increasing; lra. }
  apply Rle_trans with (bpow radix2 11); [|apply bpow_le; lia]. change (bpow radix2 11) with 2048. apply Rabs_le. lra.
Qed.
Lemma correct_alib_same : same_alib correct_klib correct_alib.
Proof.
  unfold same_alib. cbn [correct_klib k_cos k_sin k_square k_acos correct_alib a_cos a_sin a_square a_acos].
  split. { intros b x [F <-]. rewrite F. apply (bounded_rep _ 0); [lia|]. cbn. apply Rabs_le, COS_bound. }
  split. { intros b x [F <-]. rewrite F. apply (bounded_rep _ 0); [lia|]. cbn. apply Rabs_le, SIN_bound. }
  split. { intros b x R H. assert (B : bnd b x 0) by (split; auto). destruct (bnd_mul _ _ _ _ _ _ B B ltac:(lia)) as [G _].
           unfold fmul in G. replace (x ^ 2) with (x * x) by ring. exact G. }
  intros b x [F <-] H. rewrite F. destruct (Rle_dec _ _); [|contradiction]. apply (bounded_rep _ 2); [lia|]. cbn.
  pose proof (acos_bound (B2R b)). pose proof PI_4. rewrite Rabs_pos_eq; lra.
Qed.

(** *** The scale factor *)
Lemma scale_factor a2 x h2 y Z z M m : rep a2 x -> rep h2 y -> rep Z z -> rep M m ->
  / 2 ^ 60 <= x <= 2 ^ 60 -> / 2 ^ 60 <= y <= 2 ^ 60 -> / 2 ^ 60 <= z <= 2 ^ 60 -> / 2 ^ 200 <= m <= 2 ^ 200 ->
  exists b, bKleinNishina a2 h2 Z M = Ok b /\ bk_mc2 b = M /\ finite (bk_scale_factor b) /\
    Rabs (B2R (bk_scale_factor b) - z * x * y / (m * m)) <= 5 * unit_roundoff * (z * x * y / (m * m)).
Proof.
  intros R1 R2 R3 R4 H1 H2 H3 H4.
  assert (W1 : win a2 x (-60) 60) by (split; auto; apply (window x 60), H1).
  assert (W2 : win h2 y (-60) 60) by (split; auto; apply (window y 60), H2).
  assert (W3 : win Z z (-60) 60) by (split; auto; apply (window z 60), H3).
  assert (W4 : win M m (-200) 200) by (split; auto; apply (window m 200), H4).
  pose proof (win_mul _ _ _ _ _ _ _ _ W3 W1 ltac:(lia) ltac:(lia)) as V1.
  pose proof (win_mul _ _ _ _ _ _ _ _ V1 W2 ltac:(lia) ltac:(lia)) as V2.
  pose proof (win_mul _ _ _ _ _ _ _ _ W4 W4 ltac:(lia) ltac:(lia)) as V3.
  pose proof (win_quo _ _ _ _ _ _ _ _ V2 V3 ltac:(lia) ltac:(lia)) as V4.
  unfold bKleinNishina, bdivide. rewrite (win_not_zero _ _ _ _ V3). cbn [bind].
  eexists. split; [reflexivity|]. split; [reflexivity|]. cbn [bk_scale_factor]. destruct V4 as [[F4 Q4] B4]. split; [exact F4|]. rewrite Q4.
  pose proof (good_fmul 0 60 0 60 _ _ _ _ ltac:(lia) ltac:(lia) (good_exact 60 z H3) (good_exact 60 x H1)) as G1.
  pose proof (good_fmul 1 120 0 60 _ _ _ _ ltac:(lia) ltac:(lia) G1 (good_exact 60 y H2)) as G2.
  pose proof (good_fmul 0 200 0 200 _ _ _ _ ltac:(lia) ltac:(lia) (good_exact 200 m H4) (good_exact 200 m H4)) as G3.
  pose proof (good_fquo 2 180 1 400 _ _ _ _ ltac:(lia) ltac:(lia) G2 G3) as [G4 _].
  apply near_bound in G4; [|cbn; lia]. replace (INR (S (2 + 1)) + 1) with 5 in G4 by (cbn; lra). exact G4.
Qed.
(** Not for all masses. *)
Definition mass (e : Z) : b64 := binary_normalize 53 1024 prec_53 emax_1024 mode_NE 1 e false.
Lemma mass_rep e : (-1074 <= e < 1024)%Z -> rep (mass e) (bpow radix2 e).
Proof.
  intros H. pose proof (binary_normalize_correct 53 1024 prec_53 emax_1024 mode_NE 1 e false) as C. cbv zeta in C.
  replace (F2R (Float radix2 1 e)) with (bpow radix2 e) in C by (unfold F2R; cbn; lra).
  rewrite (round_generic radix2 _ _ (bpow radix2 e)) in C by (apply (bpow_double e); lia).
  rewrite Rlt_bool_true in C; [split; apply C|]. rewrite Rabs_pos_eq by apply bpow_ge_0. apply bpow_lt. lia.
Qed.
Lemma scale_factor_light a2 h2 Z : exists M, finite M /\ 0 < B2R M /\ bKleinNishina a2 h2 Z M = Raise ZeroDivisionError.
Proof.
  exists (mass (-540)). destruct (mass_rep (-540) ltac:(lia)) as [F E]. split; [exact F|]. rewrite E. split; [apply bpow_gt_0|].
  unfold bKleinNishina, bdivide. replace (bzero (bmul (mass (-540)) (mass (-540)))) with true by (vm_compute; reflexivity). reflexivity.
Qed.
Lemma scale_factor_heavy a2 h2 Z : finite (bmul (bmul Z a2) h2) -> exists M b, finite M /\ 0 < B2R M /\ bKleinNishina a2 h2 Z M = Ok b /\ rep (bk_scale_factor b) 0.
Proof.
  intros Fn. destruct (mass_rep 512 ltac:(lia)) as [F E]. exists (mass 512). eexists. split; [exact F|]. rewrite E. split; [apply bpow_gt_0|].
  unfold bKleinNishina, bdivide. replace (bmul (mass 512) (mass 512)) with (B754_infinity false : b64) by (vm_compute; reflexivity).
  cbn [bzero bind]. split; [reflexivity|]. cbn [bk_scale_factor]. unfold finite in Fn. destruct (bmul (bmul Z a2) h2); try discriminate; split; reflexivity.
Qed.

(** *** Summaries *)
Lemma angles_agree t L a k b c ME E e T x P p : klib_special L -> same_alib L a -> alib_ok a ->
  rep (bk_scale_factor b) (kn_scale_factor c) -> rep ME (k_me k) -> kn_floats k c ->
  rep E e -> 0 <= e / k_me k <= 2 ^ 900 -> rep T x -> rep P p ->
  reads_number (bkn_Ep_over_E t L ME E T) (fkn_Ep_over_E a k e x) /\
  reads_number (bkn_compton_edge t L ME E) (fkn_compton_edge a k e) /\
  reads_number (bkn_cs_diff_dOmega t L ME b E T P) (fkn_cs_diff_dOmega a k c e x p) /\
  reads_number (bkn_cs_diff_dOmega_unpolarized t L ME b E T) (fkn_cs_diff_dOmega_unpolarized a k c e x) /\
  reads_number (bkn_cs_diff_dtheta t L ME b E T) (fkn_cs_diff_dtheta a k c e x).
Proof.
  intros HS HA OA HP HM HK RE He RT RP. rewrite <- bpow_pow in He. change (Z.of_nat 900) with 900%Z in He.
  assert (I : (0 <= 900 <= 900)%Z) by lia.
  split. { destruct (ratio_agree t L a k c ME HA OA HM HK 900 E e T x I RE He RT) as (r & v & H1 & H2 & W). exists r, v. split; [|split]; auto. apply W. }
  split. { destruct (edge_agree t L a k c ME HA OA HM HK 900 E e I RE He) as (r & v & H1 & H2 & W). exists r, v. split; [|split]; auto. apply W. }
  split. { destruct (polarized_agree t L a k b c ME HA OA HP HM HK 900 E e T x P p I RE He RT RP) as (r & v & H1 & H2 & W). exists r, v. split; [|split]; auto. apply W. }
  split. { destruct (unpolarized_agree t L a k b c ME HA OA HP HM HK 900 E e T x I RE He RT) as (r & v & H1 & H2 & W). exists r, v. split; [|split]; auto. apply W. }
  destruct (dtheta_agree t L a k b c ME HA OA HP HM HK 900 E e T x I RE He RT) as (r & v & H1 & H2 & W). exists r, v. split; [|split]; auto. apply W.
Qed.
Lemma energies_agree t L a k b c ME E e Ep ep P p : klib_special L -> same_alib L a -> alib_ok a ->
  rep (bk_scale_factor b) (kn_scale_factor c) -> rep ME (k_me k) -> kn_floats k c ->
  rep E e -> rep Ep ep -> rep P p -> / 2 ^ 100 <= e / k_me k <= 2 ^ 100 -> 0 < ep <= e -> k_me k * (1 / ep - 1 / e) <= 2 ->
  agrees (bkn_theta t L ME E Ep) (fkn_theta a k e ep) /\
  agrees (bkn_cs_diff_dEp t L ME b E Ep) (fkn_cs_diff_dEp a k c e ep) /\
  agrees (bkn_cs_diff_dEp_dphi t L ME b E Ep P) (fkn_cs_diff_dEp_dphi a k c e ep p).
Proof.
  intros HS HA OA HP HM HK RE REp RP H1 H2 H3. assert (PH : physical k e ep) by (split; auto).
  split; [eapply theta_agree; eauto|]. split; [eapply dEp_agree; eauto|]. eapply dEp_dphi_agree; eauto.
Qed.
Lemma differential_kinds L ME b E Ep T P : klib_special L -> bzero ME = false ->
  bkn_Ep_over_E PythonFloat L ME E T = bkn_Ep_over_E NumpyFloat L ME E T /\
  bkn_compton_edge PythonFloat L ME E = bkn_compton_edge NumpyFloat L ME E /\
  bkn_cs_diff_dOmega PythonFloat L ME b E T P = bkn_cs_diff_dOmega NumpyFloat L ME b E T P /\
  bkn_cs_diff_dOmega_unpolarized PythonFloat L ME b E T = bkn_cs_diff_dOmega_unpolarized NumpyFloat L ME b E T /\
  bkn_cs_diff_dtheta PythonFloat L ME b E T = bkn_cs_diff_dtheta NumpyFloat L ME b E T /\
  instead_of_raising (bkn_theta PythonFloat L ME E Ep) (bkn_theta NumpyFloat L ME E Ep) /\
  instead_of_raising (bkn_cs_diff_dEp PythonFloat L ME b E Ep) (bkn_cs_diff_dEp NumpyFloat L ME b E Ep) /\
  instead_of_raising (bkn_cs_diff_dEp_dphi PythonFloat L ME b E Ep P) (bkn_cs_diff_dEp_dphi NumpyFloat L ME b E Ep P).
Proof.
  intros S Z. split; [now apply ratio_kinds|]. split; [now apply edge_kinds|]. split; [now apply polarized_kinds|]. split; [now apply unpolarized_kinds|].
  split; [now apply dtheta_kinds|]. split; [|split; [now apply dEp_kinds|now apply dEp_dphi_kinds]].
  pose proof (theta_kinds L ME E Ep S) as T'. unfold instead_of_raising. destruct (bkn_theta PythonFloat L ME E Ep) as [v| |e]; auto.
  destruct T' as [_ ->]. exists B754_nan. split; [reflexivity|discriminate].
Qed.
Definition kn_example_k : constants :=
  {| k_hbarc := 1; k_hbarc_old := 1; k_alpha := 1; k_me := 1; k_u_MeV := 1; k_u_kg := 1; k_kB_eV := 1 |}.
Lemma half_rep : rep (literal 1 2) (1 / 2).
Proof.
  pose proof (win_rep _ _ _ _ (win_literal 1 2 ltac:(lia) ltac:(lia))) as R.
  replace (rnd (1 / 2)) with (1 / 2) in R; [exact R|]. symmetry. apply round_generic; try typeclasses eauto. replace (1 / 2) with (bpow radix2 (-1)) by (cbn; lra). apply bpow_double. lia.
Qed.
Lemma kn_example : exists b c k, same_particle b c /\ rep (of_Z 1) (k_me k) /\ kn_floats k c /\ rep (of_Z 1) 1 /\ rep (literal 1 2) (1 / 2) /\
  moderate (1 / kn_mc2 c) /\ moderate (kn_scale_factor c) /\ / 2 ^ 100 <= 1 / k_me k <= 2 ^ 100 /\ 0 < 1 / 2 <= 1 /\ k_me k * (1 / (1 / 2) - 1 / 1) <= 2.
Proof.
  exists {| bk_mc2 := of_Z 1; bk_scale_factor := of_Z 1 |}, {| kn_Z := 1; kn_mc2 := 1; kn_scale_factor := 1 |}, kn_example_k.
  assert (O : rep (of_Z 1) 1) by (apply (Z_rep 1); cbn; lia). pose proof (rng_one 100) as M. unfold rng in M.
  unfold same_particle, kn_floats, moderate. cbn [bk_mc2 bk_scale_factor kn_mc2 kn_scale_factor k_me kn_example_k].
  replace (1 / 1) with 1 by field. repeat (split; try assumption); try apply O; try apply half_rep; try apply M; lra.
Qed.
Lemma kn_extremes : rep (mass 500) (2 ^ 500) /\ rep (mass (-400)) (/ 2 ^ 400) /\ 2 ^ 400 <= 2 ^ 500 / 1 /\ Rabs (/ 2 ^ 400 / 1) <= / 2 ^ 343.
Proof.
  rewrite <- !bpow_inv, <- !bpow_pow. split; [apply mass_rep; lia|]. split; [apply mass_rep; lia|]. unfold Rdiv. rewrite Rinv_1, !Rmult_1_r.
  split; [apply bpow_le; lia|]. rewrite Rabs_pos_eq by apply bpow_ge_0. apply bpow_le. lia.
Qed.
