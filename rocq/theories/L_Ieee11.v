(** Total Klein-Nishina cross sections: ranges. *)
From Coq Require Import Reals List ZArith Lia Lra Bool.
From Flocq Require Import Core BinarySingleNaN.
From Verif Require Import Py M_Num M_KleinNishina M_Float S_Float L_Float M_Float2 S_Float2 M_Float5 M_Ieee M_Ieee2 M_Ieee3 S_Ieee S_Ieee3
  L_Ieee L_Ieee2 L_Ieee4 L_Ieee5 L_Ieee6 L_Ieee7 L_Ieee9 L_Ieee10.
Import ListNotations.
Open Scope R_scope.

Ltac zl := repeat rewrite ?Z.max_l, ?Z.max_r by lia; lia.

Lemma ratio_win E M e m l h : rep E e -> rep M m -> 0 < m -> (-1074 <= l)%Z -> (-1074 <= h < 1024)%Z -> bpow radix2 l <= e / m <= bpow radix2 h ->
  win (bquo E M) (fquo e m) l h.
Proof.
  intros RE RM Hm Hl Hh H. assert (B : bpow radix2 l <= fquo e m <= bpow radix2 h) by (apply rnd_win; auto; lia).
  split; auto. apply quo_rep; auto; [lra|]. eapply win_big; [|exact B]. lia.
Qed.
Lemma unit_small : 0 < unit_roundoff <= / 16. Proof. unfold unit_roundoff. lra. Qed.
Lemma int_win z l h : (0 < z <= 2 ^ 53)%Z -> bpow radix2 l <= IZR z <= bpow radix2 h -> win (of_Z z) (IZR z) l h.
Proof. intros Hz H. split; auto. apply Z_rep. lia. Qed.
Lemma one_win : win (of_Z 1) 1 0 0. Proof. apply (int_win 1); [lia|cbn; lra]. Qed.
Lemma eight_win : win (of_Z 8) 8 3 3. Proof. apply (int_win 8); [lia|cbn; lra]. Qed.

Ltac wk H z := apply (bnd_weaken _ _ _ z) in H; [|zl].
Lemma total_agree t L m b c E e : klib_special L -> same_libm L m -> libm_ok m -> same_particle b c -> rep E e ->
  0 < kn_mc2 c -> moderate (e / kn_mc2 c) -> moderate (kn_scale_factor c) ->
  exists v x, bkn_cs_total t L b E = Ok v /\ fkn_cs_total m c e = Ok x /\ rep v x.
Proof.
  intros S (M1 & M2 & M3 & M4) (_ & O1 & O2 & O3) [RM RS] RE Hm He Hs.
  pose proof S as (S1 & _).
  apply (window _ 100) in He. apply (window _ 100) in Hs.
  change (- Z.of_nat 100)%Z with (-100)%Z in *. change (Z.of_nat 100) with 100%Z in *.
  pose proof (ratio_win _ _ _ _ (-100) 100 RE RM Hm ltac:(lia) ltac:(lia) He) as WX.
  set (X := bquo E (bk_mc2 b)) in *. set (x := fquo e (kn_mc2 c)) in *.
  assert (WS : win (bk_scale_factor b) (kn_scale_factor c) (-100) 100) by (split; auto).
  pose proof (win_mul _ _ _ _ _ _ _ _ two_win WX ltac:(lia) ltac:(lia)) as W2.
  pose proof (win_add _ _ _ _ _ _ _ _ one_win W2 ltac:(zl) ltac:(zl)) as WY.
  apply (win_weaken _ _ _ _ 0 102) in WY; [|zl|zl].
  pose proof (win_bnd _ _ _ _ WX) as BX. pose proof (win_bnd _ _ _ _ W2) as B2. pose proof (win_bnd _ _ _ _ two_win) as BT.
  set (Y := badd (of_Z 1) (bmul (of_Z 2) X)) in *. set (y := fadd 1 (fmul 2 x)) in *.
  assert (FX : finite X /\ B2R X = x) by apply WX. assert (FY : finite Y /\ B2R Y = y) by apply WY.
  destruct FX as [FX EX], FY as [FY EY].
  assert (Yl : 1 <= y <= bpow radix2 102) by apply WY.
  pose proof unit_small as US.
  (* the power *)
  assert (Mx : moderate x) by (unfold moderate; rewrite <- bpow_inv, <- bpow_pow; apply WX).
  assert (Px : 0 < x) by (apply (win_pos _ _ _ _ WX)).
  destruct (O3 x (rep_double _ _ (win_rep _ _ _ _ WX)) Mx) as [_ P3].
  assert (FP : finite (k_pow_m3 L X)) by (apply M3; [exact FX|rewrite EX; exact Mx]).
  assert (BP : bnd (k_pow_m3 L X) (m_pow_m3 m x) 301).
  { split; [split; [exact FP|rewrite <- EX; now apply M2]|].
    assert (I : 0 < / x ^ 3 <= bpow radix2 300).
    { split; [apply Rinv_0_lt_compat, pow_lt, Px|]. change 300%Z with (- (-300))%Z. rewrite (bpow_opp _ (-300)).
      apply Rinv_le; [apply bpow_gt_0|]. change (-300)%Z with (-100 + (-100 + -100))%Z. rewrite !bpow_plus.
      replace (x ^ 3) with (x * (x * x)) by ring. destruct WX as [_ [Lx _]]. pose proof (bpow_gt_0 radix2 (-100)).
      apply Rmult_le_compat; try lra. { apply Rmult_le_pos; lra. } apply Rmult_le_compat; lra. }
    change 301%Z with (300 + 1)%Z. rewrite bpow_plus. change (bpow radix2 1) with 2.
    apply Rabs_le_inv in P3. apply Rabs_le. assert (4 * unit_roundoff * / x ^ 3 <= / x ^ 3) by nra. lra. }
  (* the square *)
  assert (FQ : finite (k_square L Y)).
  { apply S1; [exact FY|]. rewrite EY, Rabs_pos_eq by lra. change 500%nat with (Z.to_nat 500). rewrite <- bpow_pow.
    eapply Rle_trans; [apply Yl|apply bpow_le; cbn; lia]. }
  destruct (O2 y (rep_double _ _ (win_rep _ _ _ _ WY)) (proj1 Yl)) as [_ P2].
  assert (WQ : win (k_square L Y) (m_square m y) (-1) 205).
  { split; [split; [exact FQ|rewrite <- EY; now apply M1]|].
    assert (Y2 : 1 <= y ^ 2 <= bpow radix2 204).
    { change 204%Z with (102 + 102)%Z. rewrite bpow_plus. replace (y ^ 2) with (y * y) by ring. split; [nra|]. apply Rmult_le_compat; lra. }
    change 205%Z with (204 + 1)%Z. rewrite bpow_plus. change (bpow radix2 1) with 2. change (bpow radix2 (-1)) with (/ 2).
    apply Rabs_le_inv in P2. assert (2 * unit_roundoff * y ^ 2 <= / 2 * y ^ 2) by nra. lra. }
  (* the logarithm *)
  destruct (O1 y (rep_double _ _ (win_rep _ _ _ _ WY)) (proj1 Yl)) as [_ P1].
  assert (BL : bnd (k_log L Y) (m_log m y) 103).
  { split; [rewrite <- EY; apply M4; [exact FY|rewrite EY; lra]|].
    assert (Ln : 0 <= ln y <= bpow radix2 102).
    { split; [destruct (proj1 Yl) as [Y1|Y1]; [rewrite <- ln_1; left; apply ln_increasing; lra|rewrite <- Y1, ln_1; lra]|]. pose proof (exp_ineq1_le (ln y)) as X1. rewrite exp_ln in X1 by lra. lra. }
    change 103%Z with (102 + 1)%Z. rewrite bpow_plus. change (bpow radix2 1) with 2.
    apply Rabs_le_inv in P1. apply Rabs_le. assert (2 * unit_roundoff * ln y <= ln y) by nra. lra. }
  (* the numerator *)
  pose proof (bnd_add _ _ _ _ _ _ (win_bnd _ _ _ _ one_win) BX ltac:(zl)) as N1. wk N1 101%Z.
  pose proof (bnd_mul _ _ _ _ _ _ BX N1 ltac:(zl)) as N2. wk N2 201%Z.
  pose proof (bnd_add _ _ _ _ _ _ (win_bnd _ _ _ _ eight_win) BX ltac:(zl)) as N3. wk N3 101%Z.
  pose proof (bnd_mul _ _ _ _ _ _ N2 N3 ltac:(zl)) as N4. wk N4 302%Z.
  pose proof (bnd_add _ _ _ _ _ _ BT N4 ltac:(zl)) as N5. wk N5 303%Z.
  pose proof (bnd_mul _ _ _ _ _ _ B2 N5 ltac:(zl)) as N6. wk N6 404%Z.
  pose proof (bnd_quo _ _ _ _ _ _ _ N6 WQ ltac:(zl)) as N7. wk N7 405%Z.
  pose proof (bnd_sub _ _ _ _ _ _ BX BT ltac:(zl)) as D1. wk D1 101%Z.
  pose proof (bnd_mul _ _ _ _ _ _ D1 BX ltac:(zl)) as D2. wk D2 201%Z.
  pose proof (bnd_sub _ _ _ _ _ _ D2 BT ltac:(zl)) as D3. wk D3 202%Z.
  pose proof (bnd_mul _ _ _ _ _ _ D3 BL ltac:(zl)) as D4. wk D4 305%Z.
  pose proof (bnd_add _ _ _ _ _ _ N7 D4 ltac:(zl)) as D5. wk D5 406%Z.
  pose proof (bnd_mul _ _ _ _ _ _ (win_bnd _ _ _ _ win_pi) (win_bnd _ _ _ _ WS) ltac:(zl)) as R1. wk R1 102%Z.
  pose proof (bnd_mul _ _ _ _ _ _ R1 BP ltac:(zl)) as R2. wk R2 403%Z.
  pose proof (bnd_mul _ _ _ _ _ _ R2 D5 ltac:(zl)) as R3.
  assert (ZM : bzero (bk_mc2 b) = false).
  { destruct (bzero (bk_mc2 b)) eqn:Z; auto. apply (rep_zero _ _ RM) in Z. lra. }
  eexists _, _. split; [|split; [|exact (bnd_rep _ _ _ R3)]].
  - destruct t; [|reflexivity]. unfold bkn_cs_total, bdivide, bpower_m, bpower. rewrite ZM. fold X. cbn [bind]. cbv zeta. fold Y.
    assert (IP : binf (k_pow_m3 L X) = false) by (unfold finite in FP; destruct (k_pow_m3 L X); try discriminate; reflexivity).
    assert (IQ : binf (k_square L Y) = false) by (unfold finite in FQ; destruct (k_square L Y); try discriminate; reflexivity).
    rewrite (win_not_zero _ _ _ _ WX), IP, andb_false_r. cbn [bind]. rewrite IQ, andb_false_r. cbn [bind].
    rewrite (win_not_zero _ _ _ _ WQ). reflexivity.
  - unfold fkn_cs_total. destruct (Req_EM_T (kn_mc2 c) 0); [lra|]. fold x. cbv zeta. fold y.
    destruct (Req_EM_T x 0); [lra|]. destruct (Req_EM_T (m_square m y) 0) as [Z|_]; [pose proof (win_pos _ _ _ _ WQ); lra|].
    destruct (Rlt_dec 0 y); [reflexivity|lra].
Qed.

(** Outside of the range. *)
Lemma total_high L b c E e : same_particle b c -> rep E e -> 0 < kn_mc2 c -> 2 ^ 400 <= e / kn_mc2 c -> not_finite (bkn_cs_total NumpyFloat L b E).
Proof.
  intros [RM _] RE Hm H. rewrite numpy_value. eexists. split; [reflexivity|]. apply nf_not, value_num.
  unfold nf. destruct (is_finite (bnum (bquo E (bk_mc2 b)))) eqn:F; auto. exfalso. apply num_finite in F. destruct F as [F B].
  destruct RM as [Fm Em]. apply quo_finite in F; [|exact Fm]. destruct F as (_ & _ & Q). rewrite Q, Em in B. destruct RE as [_ EE]. rewrite EE in B.
  apply (Rlt_irrefl (2 ^ 400)). eapply Rle_lt_trans; [|exact B]. rewrite <- bpow_pow. apply rnd_large; [lia|]. rewrite bpow_pow.
  eapply Rle_trans; [exact H|apply Rle_abs].
Qed.
Lemma total_low L b c E e : klib_special L -> same_particle b c -> rep E e -> 0 < kn_mc2 c -> Rabs (e / kn_mc2 c) <= / 2 ^ 343 -> not_finite (bkn_cs_total NumpyFloat L b E).
Proof.
  intros (_ & S2 & _) [RM _] RE Hm H. rewrite numpy_value. eexists. split; [reflexivity|]. apply nf_not, value_pow, nf_not.
  assert (B : Rabs (fquo e (kn_mc2 c)) <= bpow radix2 (-343)).
  { apply rnd_bpow; [lia|]. change (-343)%Z with (- Z.of_nat 343)%Z. rewrite bpow_inv. exact H. }
  assert (R : rep (bquo E (bk_mc2 b)) (fquo e (kn_mc2 c))) by (apply quo_rep; auto; [lra|eapply Rle_lt_trans; [exact B|apply bpow_big; lia]]).
  destruct R as [F Q]. apply S2; [exact F|]. rewrite Q. eapply Rle_lt_trans; [exact B|]. rewrite <- bpow_inv. apply bpow_lt. lia.
Qed.
Lemma positive_cases b c : same_particle b c -> 0 < kn_mc2 c -> exists m e W, bk_mc2 b = B754_finite false m e W.
Proof.
  intros [[F Q] _] H. destruct (bk_mc2 b) as [s|s| |s m e W]; try discriminate.
  - cbn in Q. lra.
  - destruct s; [|eauto]. cbn in Q. exfalso. assert (F2R (Float radix2 (Z.neg m) e) < 0) by (apply F2R_lt_0; reflexivity). unfold SpecFloat.cond_Zopp in Q. cbn in Q. lra.
Qed.
Lemma total_zero L b c s : klib_special L -> same_particle b c -> 0 < kn_mc2 c ->
  bkn_cs_total NumpyFloat L b (B754_zero s) = Ok B754_nan /\ bkn_cs_total PythonFloat L b (B754_zero s) = Raise ZeroDivisionError.
Proof.
  intros (_ & _ & _ & _ & S0 & Sl & Sq & _) P H. destruct (positive_cases _ _ P H) as (m & e & W & EM). split.
  - rewrite numpy_value. unfold bkn_value. cbv zeta. rewrite EM. replace (bquo (B754_zero s) (B754_finite false m e W)) with (B754_zero s : b64) by (destruct s; reflexivity).
    replace (badd (of_Z 1) (bmul (of_Z 2) (B754_zero s))) with (of_Z 1) by (destruct s; reflexivity). rewrite S0, Sl, Sq.
    replace (badd (bquo (bnum (B754_zero s)) (of_Z 1)) (bmul (bsub (bmul (bsub (B754_zero s) (of_Z 2)) (B754_zero s)) (of_Z 2)) (of_Z 0)))
      with (B754_zero s : b64) by (destruct s; vm_compute; reflexivity).
    destruct (bmul bpi (bk_scale_factor b)); reflexivity.
  - unfold bkn_cs_total, bdivide. rewrite EM. reflexivity.
Qed.
Lemma not_raising L b E x : bzero (bk_mc2 b) = false -> bquo E (bk_mc2 b) = x -> is_finite x = false -> is_finite (badd (of_Z 1) (bmul (of_Z 2) x)) = false ->
  bzero (k_square L (badd (of_Z 1) (bmul (of_Z 2) x))) = false -> forall t, bkn_cs_total t L b E = Ok (bkn_value L b x).
Proof.
  intros Z <- Fx Fy Q [|]; [|reflexivity]. unfold bkn_cs_total, bdivide, bpower_m, bpower. rewrite Z. cbn [bind].
  assert (X : bzero (bquo E (bk_mc2 b)) = false) by (destruct (bquo E (bk_mc2 b)); try discriminate; reflexivity).
  rewrite X, Fx. cbn [andb bind]. rewrite Fy. cbn [andb bind]. rewrite Q. reflexivity.
Qed.
Lemma total_inf t L b c : klib_special L -> same_particle b c -> 0 < kn_mc2 c -> bkn_cs_total t L b (B754_infinity false) = Ok B754_nan.
Proof.
  intros (_ & _ & _ & Si & _) P H. destruct (positive_cases _ _ P H) as (m & e & W & EM).
  assert (EY : badd (of_Z 1) (bmul (of_Z 2) (B754_infinity false)) = B754_infinity false) by reflexivity.
  rewrite (not_raising L b _ (B754_infinity false)); try (rewrite ?EM, ?EY, ?Si; reflexivity).
  unfold bkn_value. cbv zeta. rewrite EY, Si. replace (bquo (bnum (B754_infinity false)) (B754_infinity false)) with (B754_nan : b64) by reflexivity.
  rewrite nan_add, mul_nan. reflexivity.
Qed.
Lemma total_nan t L b c : klib_special L -> same_particle b c -> 0 < kn_mc2 c -> bkn_cs_total t L b B754_nan = Ok B754_nan.
Proof.
  intros (_ & _ & _ & _ & _ & _ & _ & Nl & Nq & Np & _) P H. destruct (positive_cases _ _ P H) as (m & e & W & EM).
  assert (EY : badd (of_Z 1) (bmul (of_Z 2) B754_nan) = B754_nan) by reflexivity.
  rewrite (not_raising L b _ B754_nan); try (rewrite ?EM, ?EY, ?Nq; reflexivity).
  unfold bkn_value. cbv zeta. rewrite EY, Nq, quo_nan, nan_add, mul_nan. reflexivity.
Qed.
