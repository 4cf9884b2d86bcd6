(** Differential Klein-Nishina cross sections with binary64 numbers. *)
From Coq Require Import Reals List ZArith Lia Lra Bool.
From Flocq Require Import Core BinarySingleNaN.
From Verif Require Import Py M_Num M_KleinNishina M_Float S_Float L_Float M_Float2 S_Float2 M_Float5 S_Float5 M_Ieee M_Ieee2 M_Ieee3 S_Ieee S_Ieee3
  L_Ieee L_Ieee2 L_Ieee4 L_Ieee5 L_Ieee6 L_Ieee7 L_Ieee8 L_Ieee9 L_Ieee10 L_Ieee11.
Import ListNotations.
Open Scope R_scope.

Ltac wk H z ::= apply (bnd_weaken _ _ _ z) in H; [|zl].
Lemma nan_mul (x : b64) : bmul B754_nan x = B754_nan. Proof. destruct x; reflexivity. Qed.
Lemma ratio_nan t L ME E : klib_special L -> bzero ME = false -> bkn_Ep_over_E t L ME E B754_nan = Ok B754_nan.
Proof.
  intros (_ & _ & _ & _ & _ & _ & _ & _ & _ & _ & SC & _) Z. unfold bkn_Ep_over_E, bdivide. rewrite Z, SC.
  replace (bsub (of_Z 1) B754_nan) with (B754_nan : b64) by reflexivity. destruct t; cbn [bind]; rewrite mul_nan, add_nan, quo_nan; reflexivity.
Qed.
Lemma unpolarized_nan t L ME b E : klib_special L -> bzero ME = false -> bkn_cs_diff_dOmega_unpolarized t L ME b E B754_nan = Ok B754_nan.
Proof. intros S Z. unfold bkn_cs_diff_dOmega_unpolarized. rewrite ratio_nan by auto. cbn [bind]. rewrite mul_nan. reflexivity. Qed.
Lemma polarized_nan t L ME b E P : klib_special L -> bzero ME = false -> bkn_cs_diff_dOmega t L ME b E B754_nan P = Ok B754_nan.
Proof. intros S Z. unfold bkn_cs_diff_dOmega. rewrite ratio_nan by auto. cbn [bind]. rewrite mul_nan. reflexivity. Qed.

Section Diff.
Context (t : kind) (L : klib) (a : alib) (k : constants) (b : bkn) (c : kn) (ME : b64).
Hypothesis (HS : klib_special L) (HA : same_alib L a) (OA : alib_ok a) (HP : rep (bk_scale_factor b) (kn_scale_factor c)) (HM : rep ME (k_me k)) (HK : kn_floats k c).

Lemma me_win : win ME (k_me k) (-100) 100. Proof. split; [exact HM|]. apply (window _ 100), HK. Qed.
Lemma scale_win : win (bk_scale_factor b) (kn_scale_factor c) (-100) 100. Proof. split; [apply HP|]. apply (window _ 100), HK. Qed.
Lemma me_nonzero : bzero ME = false. Proof. exact (win_not_zero _ _ _ _ me_win). Qed.
Lemma cos_bnd T x : rep T x -> bnd (k_cos L T) (a_cos a x) 0.
Proof. intros R. split; [now apply HA|]. cbn. apply OA. eapply rep_double; eauto. Qed.
Lemma sin_bnd T x : rep T x -> bnd (k_sin L T) (a_sin a x) 0.
Proof. intros R. split; [now apply HA|]. cbn. apply OA. eapply rep_double; eauto. Qed.
Lemma square_bnd T x : bnd T x 0 -> bnd (k_square L T) (a_square a x) 0.
Proof.
  intros [R B]. destruct HA as (_ & _ & H3 & _). split; [now apply H3|]. cbn in *. destruct OA as (_ & _ & O3).
  destruct (O3 x (rep_double _ _ R) B) as (_ & O & _). rewrite Rabs_pos_eq; lra.
Qed.

Lemma ratio_agree h E e T x : (0 <= h <= 900)%Z -> rep E e -> 0 <= e / k_me k <= bpow radix2 h -> rep T x ->
  exists r v, bkn_Ep_over_E t L ME E T = Ok r /\ fkn_Ep_over_E a k e x = Ok v /\ win r v (- (h + 2)) 0.
Proof.
  intros Hh RE He RT. pose proof me_win as WM. pose proof (win_pos _ _ _ _ WM) as PM.
  assert (Q : bnd (bquo E ME) (fquo e (k_me k)) h /\ 0 <= fquo e (k_me k)).
  { assert (B : Rabs (fquo e (k_me k)) <= bpow radix2 h) by (apply rnd_bpow; [lia|rewrite Rabs_pos_eq; lra]). split; [|apply rnd_nonneg; lra].
    split; auto. apply quo_rep; auto; [lra|]. eapply Rle_lt_trans; [exact B|apply bpow_big; lia]. }
  destruct Q as [BQ PQ]. pose proof (cos_bnd T x RT) as BC.
  pose proof (bnd_sub _ _ _ _ _ _ (win_bnd _ _ _ _ one_win) BC ltac:(zl)) as B1. wk B1 1%Z.
  assert (P1 : 0 <= fsub 1 (a_cos a x)). { apply rnd_nonneg. destruct BC as [_ BC]. cbn in BC. apply Rabs_le_inv in BC. lra. }
  pose proof (bnd_mul _ _ _ _ _ _ BQ B1 ltac:(zl)) as B2. 
  assert (P2 : 0 <= fmul (fquo e (k_me k)) (fsub 1 (a_cos a x))) by (apply rnd_nonneg, Rmult_le_pos; auto).
  pose proof (win_add_nonneg _ _ _ _ _ _ _ one_win B2 P2 ltac:(lia) ltac:(zl)) as W3.
  apply (win_weaken _ _ _ _ 0 (h + 2)) in W3; [|lia|zl].
  pose proof (win_quo _ _ _ _ _ _ _ _ one_win W3 ltac:(lia) ltac:(lia)) as W4.
  eexists _, _. split; [|split; [|apply (win_weaken _ _ _ _ _ _ W4); lia]].
  - unfold bkn_Ep_over_E, bdivide. rewrite me_nonzero. destruct t; reflexivity.
  - unfold fkn_Ep_over_E, np_fquo. destruct (Req_EM_T (k_me k) 0); [lra|].
    destruct (Req_EM_T (fadd 1 (fmul (fquo e (k_me k)) (fsub 1 (a_cos a x)))) 0) as [Z|_]; [pose proof (win_pos _ _ _ _ W3); lra|reflexivity].
Qed.

Lemma bracket h r v S s : (0 <= h <= 900)%Z -> win r v (- (h + 2)) 0 -> bnd S s 1 ->
  v <> 0 /\ bnd (bsub (badd r (bquo (of_Z 1) r)) S) (fsub (fadd v (fquo 1 v)) s) (h + 4).
Proof.
  intros Hh W B. split; [pose proof (win_pos _ _ _ _ W); lra|].
  pose proof (win_quo _ _ _ _ _ _ _ _ one_win W ltac:(lia) ltac:(lia)) as W1.
  pose proof (bnd_add _ _ _ _ _ _ (win_bnd _ _ _ _ W) (win_bnd _ _ _ _ W1) ltac:(zl)) as B1. wk B1 (h + 3)%Z.
  pose proof (bnd_sub _ _ _ _ _ _ B1 B ltac:(zl)) as B2. wk B2 (h + 4)%Z. exact B2.
Qed.
Lemma unpolarized_agree h E e T x : (0 <= h <= 900)%Z -> rep E e -> 0 <= e / k_me k <= bpow radix2 h -> rep T x ->
  exists r v, bkn_cs_diff_dOmega_unpolarized t L ME b E T = Ok r /\ fkn_cs_diff_dOmega_unpolarized a k c e x = Ok v /\ bnd r v (h + 106).
Proof.
  intros Hh RE He RT. destruct (ratio_agree h E e T x Hh RE He RT) as (r & v & E1 & E2 & W).
  pose proof (bnd_weaken _ _ _ 1 (square_bnd _ _ (sin_bnd _ _ RT)) ltac:(lia)) as BS.
  destruct (bracket h r v _ _ Hh W BS) as [NZ BB].
  pose proof (bnd_mul _ _ _ _ _ _ (win_bnd _ _ _ _ win_pi) (win_bnd _ _ _ _ scale_win) ltac:(lia)) as B1.
  pose proof (bnd_mul _ _ _ _ _ _ B1 (win_bnd _ _ _ _ W) ltac:(lia)) as B2.
  pose proof (bnd_mul _ _ _ _ _ _ B2 (win_bnd _ _ _ _ W) ltac:(lia)) as B3.
  pose proof (bnd_mul _ _ _ _ _ _ B3 BB ltac:(lia)) as B4. wk B4 (h + 106)%Z.
  eexists _, _. split; [|split; [|exact B4]].
  - unfold bkn_cs_diff_dOmega_unpolarized. rewrite E1. reflexivity.
  - unfold fkn_cs_diff_dOmega_unpolarized, np_fquo. rewrite E2. cbn [bind]. destruct (Req_EM_T v 0); [contradiction|reflexivity].
Qed.
Lemma polarized_agree h E e T x P p : (0 <= h <= 900)%Z -> rep E e -> 0 <= e / k_me k <= bpow radix2 h -> rep T x -> rep P p ->
  exists r v, bkn_cs_diff_dOmega t L ME b E T P = Ok r /\ fkn_cs_diff_dOmega a k c e x p = Ok v /\ bnd r v (h + 106).
Proof.
  intros Hh RE He RT RP. destruct (ratio_agree h E e T x Hh RE He RT) as (r & v & E1 & E2 & W).
  pose proof (square_bnd _ _ (sin_bnd _ _ RT)) as BS. pose proof (square_bnd _ _ (cos_bnd _ _ RP)) as BC.
  pose proof (bnd_mul _ _ _ _ _ _ (win_bnd _ _ _ _ two_win) BS ltac:(lia)) as BS2.
  pose proof (bnd_mul _ _ _ _ _ _ BS2 BC ltac:(lia)) as BS3. wk BS3 1%Z.
  destruct (bracket h r v _ _ Hh W BS3) as [NZ BB].
  pose proof (half_win _ _ _ _ scale_win ltac:(lia) ltac:(lia)) as B1.
  pose proof (bnd_mul _ _ _ _ _ _ (win_bnd _ _ _ _ B1) (win_bnd _ _ _ _ W) ltac:(lia)) as B2.
  pose proof (bnd_mul _ _ _ _ _ _ B2 (win_bnd _ _ _ _ W) ltac:(lia)) as B3.
  pose proof (bnd_mul _ _ _ _ _ _ B3 BB ltac:(lia)) as B4. wk B4 (h + 106)%Z.
  eexists _, _. split; [|split; [|exact B4]].
  - unfold bkn_cs_diff_dOmega. rewrite E1. reflexivity.
  - unfold fkn_cs_diff_dOmega, np_fquo. rewrite E2. cbn [bind]. destruct (Req_EM_T v 0); [contradiction|reflexivity].
Qed.
Lemma dtheta_agree h E e T x : (0 <= h <= 900)%Z -> rep E e -> 0 <= e / k_me k <= bpow radix2 h -> rep T x ->
  exists r v, bkn_cs_diff_dtheta t L ME b E T = Ok r /\ fkn_cs_diff_dtheta a k c e x = Ok v /\ bnd r v (h + 106).
Proof.
  intros Hh RE He RT. destruct (unpolarized_agree h E e T x Hh RE He RT) as (r & v & E1 & E2 & W).
  pose proof (bnd_mul _ _ _ _ _ _ W (sin_bnd _ _ RT) ltac:(lia)) as B. wk B (h + 106)%Z.
  eexists _, _. split; [|split; [|exact B]].
  - unfold bkn_cs_diff_dtheta. rewrite E1. reflexivity.
  - unfold fkn_cs_diff_dtheta. rewrite E2. reflexivity.
Qed.
Lemma edge_agree h E e : (0 <= h <= 900)%Z -> rep E e -> 0 <= e / k_me k <= bpow radix2 h ->
  exists r v, bkn_compton_edge t L ME E = Ok r /\ fkn_compton_edge a k e = Ok v /\ bnd r v (h + 100).
Proof.
  intros Hh RE He. destruct (ratio_agree h E e bpi np_pi Hh RE He (win_rep _ _ _ _ win_pi)) as (r & v & E1 & E2 & W).
  assert (BE : bnd E e (h + 100)).
  { split; auto. pose proof (win_pos _ _ _ _ me_win). assert (EQ : e = e / k_me k * k_me k) by (field; lra). destruct me_win as [_ [_ U]].
    rewrite EQ, bpow_plus, Rabs_mult, !Rabs_pos_eq by lra. apply Rmult_le_compat; lra. }
  pose proof (bnd_mul _ _ _ _ _ _ (win_bnd _ _ _ _ W) BE ltac:(lia)) as B. wk B (h + 100)%Z.
  eexists _, _. split; [|split; [|exact B]].
  - unfold bkn_compton_edge. rewrite E1. reflexivity.
  - unfold fkn_compton_edge. rewrite E2. reflexivity.
Qed.

(** *** Energies of scattered photons *)
Definition physical (e ep : R) : Prop := / 2 ^ 100 <= e / k_me k <= 2 ^ 100 /\ 0 < ep <= e /\ k_me k * (1 / ep - 1 / e) <= 2.
Lemma energy_wins E e EP ep : rep E e -> rep EP ep -> physical e ep ->
  win E e (-200) 200 /\ win EP ep (-302) 200 /\ win (bquo E EP) (fquo e ep) 0 102.
Proof.
  intros RE RP ((He1 & He2) & (Hp1 & Hp2) & Hq). pose proof (win_pos _ _ _ _ me_win) as PM. destruct me_win as [_ [Ml Mu]].
  rewrite <- bpow_inv in He1. rewrite <- bpow_pow in He2. change (- Z.of_nat 100)%Z with (-100)%Z in He1. change (Z.of_nat 100) with 100%Z in He2.
  assert (Pe : 0 < e) by lra.
  assert (We : bpow radix2 (-200) <= e <= bpow radix2 200).
  { assert (EQ : e = e / k_me k * k_me k) by (field; lra). pose proof (bpow_gt_0 radix2 (-100)). rewrite EQ.
    change (-200)%Z with (-100 + -100)%Z. change 200%Z with (100 + 100)%Z. rewrite !bpow_plus. split; apply Rmult_le_compat; lra. }
  assert (Wq : 1 <= e / ep <= bpow radix2 102).
  { split. { apply Rmult_le_reg_r with ep; [lra|]. replace (e / ep * ep) with e by (field; lra). lra. }
    replace (e / ep) with (1 + e / k_me k * (k_me k * (1 / ep - 1 / e))) by (field; lra).
    assert (e / k_me k * (k_me k * (1 / ep - 1 / e)) <= bpow radix2 100 * 2).
    { assert (0 <= k_me k * (1 / ep - 1 / e)).
      { apply Rmult_le_pos; [lra|]. assert (1 / e <= 1 / ep); [|lra]. unfold Rdiv. rewrite !Rmult_1_l. apply Rinv_le; lra. }
      apply Rmult_le_compat; try lra. apply Rlt_le, Rdiv_lt_0_compat; lra. }
    change 102%Z with (100 + 2)%Z. rewrite bpow_plus. change (bpow radix2 2) with 4. assert (1 <= bpow radix2 100) by (change 1 with (bpow radix2 0); apply bpow_le; lia). lra. }
  assert (Wp : bpow radix2 (-302) <= ep <= bpow radix2 200).
  { split; [|lra]. replace ep with (e * / (e / ep)) by (field; lra). change (-302)%Z with (-200 + - (102))%Z. rewrite bpow_plus, (bpow_opp _ 102).
    apply Rmult_le_compat; try lra. { apply bpow_ge_0. } { apply Rlt_le, Rinv_0_lt_compat, bpow_gt_0. } apply Rinv_le; lra. }
  split; [split; auto|]. split; [split; auto|]. apply (ratio_win _ _ _ _ 0 102 RE RP); try lia; [lra|]. cbn [bpow]. exact Wq.
Qed.
Lemma theta_agree E e EP ep : rep E e -> rep EP ep -> physical e ep -> agrees (bkn_theta t L ME E EP) (fkn_theta a k e ep).
Proof.
  intros RE RP PH. destruct (energy_wins _ _ _ _ RE RP PH) as (WE & WP & WQ).
  pose proof (bnd_sub _ _ _ _ _ _ (win_bnd _ _ _ _ WQ) (win_bnd _ _ _ _ one_win) ltac:(zl)) as B1. wk B1 103%Z.
  pose proof (bnd_mul _ _ _ _ _ _ B1 (win_bnd _ _ _ _ me_win) ltac:(lia)) as B2.
  pose proof (bnd_quo _ _ _ _ _ _ _ B2 WE ltac:(lia)) as B3.
  pose proof (bnd_sub _ _ _ _ _ _ (win_bnd _ _ _ _ one_win) B3 ltac:(zl)) as B4.
  assert (EB : bkn_theta t L ME E EP = Ok (k_acos L (bsub (of_Z 1) (bquo (bmul (bsub (bquo E EP) (of_Z 1)) ME) E)))).
  { unfold bkn_theta, bdivide. rewrite (win_not_zero _ _ _ _ WP), (win_not_zero _ _ _ _ WE). destruct t; reflexivity. }
  rewrite EB. unfold fkn_theta. pose proof (win_pos _ _ _ _ WE). pose proof (win_pos _ _ _ _ WP).
  destruct (Req_EM_T ep 0); [lra|]. destruct (Req_EM_T e 0); [lra|]. cbv zeta.
  destruct HS as (_ & _ & _ & _ & _ & _ & _ & _ & _ & _ & _ & _ & _ & SA & _). destruct HA as (_ & _ & _ & A4).
  destruct B4 as [[F Q] _]. set (X := bsub (of_Z 1) (bquo (bmul (bsub (bquo E EP) (of_Z 1)) ME) E)) in *.
  set (x := fsub 1 (fquo (fmul (fsub (fquo e ep) 1) (k_me k)) e)) in *. clearbody X x.
  destruct (Rlt_dec x (-1)) as [C|C]; [cbn; f_equal; apply SA; [exact F|rewrite Q, Rabs_left; lra]|].
  destruct (Rlt_dec 1 x) as [D|D]; [cbn; f_equal; apply SA; [exact F|rewrite Q, Rabs_pos_eq; lra]|].
  cbn. eexists. split; [reflexivity|]. apply A4; [split; auto|]. apply Rabs_le. lra.
Qed.

Lemma physical_bound e ep : physical e ep -> 0 <= e / k_me k <= bpow radix2 100.
Proof.
  intros ((He1 & He2) & _). rewrite <- bpow_inv in He1. rewrite <- bpow_pow in He2. pose proof (bpow_gt_0 radix2 (- Z.of_nat 100)). split; [lra|exact He2].
Qed.
Lemma last_step E e EP ep r v : rep E e -> rep EP ep -> physical e ep -> bnd r v (100 + 106) ->
  exists q, np_fquo (fmul v (k_me k)) (fmul ep ep) = Ok q /\ rep (bquo (bmul r ME) (bmul EP EP)) q.
Proof.
  intros RE RP PH B. destruct (energy_wins _ _ _ _ RE RP PH) as (WE & WP & WQ).
  pose proof (bnd_mul _ _ _ _ _ _ B (win_bnd _ _ _ _ me_win) ltac:(lia)) as B1.
  pose proof (win_mul _ _ _ _ _ _ _ _ WP WP ltac:(lia) ltac:(lia)) as W2.
  pose proof (bnd_quo _ _ _ _ _ _ _ B1 W2 ltac:(lia)) as B3.
  exists (fquo (fmul v (k_me k)) (fmul ep ep)). split; [|apply B3].
  unfold np_fquo. destruct (Req_EM_T (fmul ep ep) 0) as [Z|_]; [pose proof (win_pos _ _ _ _ W2); lra|reflexivity].
Qed.
Lemma dEp_agree E e EP ep : rep E e -> rep EP ep -> physical e ep -> agrees (bkn_cs_diff_dEp t L ME b E EP) (fkn_cs_diff_dEp a k c e ep).
Proof.
  intros RE RP PH. unfold bkn_cs_diff_dEp, fkn_cs_diff_dEp. pose proof (theta_agree _ _ _ _ RE RP PH) as T.
  destruct (fkn_theta a k e ep) as [x| |ex]; cbn [agrees bind] in *.
  - destruct T as (T & -> & RT). cbn [bind].
    destruct (unpolarized_agree 100 E e T x ltac:(lia) RE (physical_bound _ _ PH) RT) as (r & v & -> & -> & B). cbn [bind].
    destruct (last_step _ _ _ _ _ _ RE RP PH B) as (q & -> & R). cbn. eauto.
  - rewrite T. cbn [bind]. rewrite unpolarized_nan by (auto using me_nonzero). cbn [bind]. rewrite nan_mul, nan_quo. reflexivity.
  - rewrite T. reflexivity.
Qed.
Lemma dEp_dphi_agree E e EP ep P p : rep E e -> rep EP ep -> rep P p -> physical e ep ->
  agrees (bkn_cs_diff_dEp_dphi t L ME b E EP P) (fkn_cs_diff_dEp_dphi a k c e ep p).
Proof.
  intros RE RP Rp PH. unfold bkn_cs_diff_dEp_dphi, fkn_cs_diff_dEp_dphi. pose proof (theta_agree _ _ _ _ RE RP PH) as T.
  destruct (fkn_theta a k e ep) as [x| |ex]; cbn [agrees bind] in *.
  - destruct T as (T & -> & RT). cbn [bind].
    destruct (polarized_agree 100 E e T x P p ltac:(lia) RE (physical_bound _ _ PH) RT Rp) as (r & v & -> & -> & B). cbn [bind].
    destruct (last_step _ _ _ _ _ _ RE RP PH B) as (q & -> & R). cbn. eauto.
  - rewrite T. cbn [bind]. rewrite polarized_nan by (auto using me_nonzero). cbn [bind]. rewrite nan_mul, nan_quo. reflexivity.
  - rewrite T. reflexivity.
Qed.
End Diff.

(** *** Python floats and numpy floats *)
Lemma acos_nf L b : klib_special L -> nf b -> k_acos L b = B754_nan.
Proof.
  intros (_ & _ & _ & _ & _ & _ & _ & _ & _ & _ & _ & _ & SN & _ & SI) H. destruct b; try discriminate; auto.
Qed.
Lemma theta_kinds L ME E EP : klib_special L ->
  match bkn_theta PythonFloat L ME E EP with
  | Ok v => bkn_theta NumpyFloat L ME E EP = Ok v
  | NaN => False
  | Raise e => e = ZeroDivisionError /\ bkn_theta NumpyFloat L ME E EP = Ok B754_nan
  end.
Proof.
  intros S. unfold bkn_theta, bdivide. destruct (bzero EP) eqn:Z; cbn [bind].
  { split; [reflexivity|]. f_equal. apply acos_nf; auto. apply nf_sub_r, nf_quo_l, nf_mul_l, nf_sub_l, nf_quo_0, Z. }
  destruct (bzero E) eqn:Z2; cbn [bind]; [|reflexivity].
  split; [reflexivity|]. f_equal. apply acos_nf; auto. apply nf_sub_r, nf_quo_0, Z2.
Qed.
Lemma ratio_kinds L ME E T : bzero ME = false -> bkn_Ep_over_E PythonFloat L ME E T = bkn_Ep_over_E NumpyFloat L ME E T.
Proof. intros Z. unfold bkn_Ep_over_E, bdivide. rewrite Z. reflexivity. Qed.
Lemma unpolarized_kinds L ME b E T : bzero ME = false -> bkn_cs_diff_dOmega_unpolarized PythonFloat L ME b E T = bkn_cs_diff_dOmega_unpolarized NumpyFloat L ME b E T.
Proof. intros Z. unfold bkn_cs_diff_dOmega_unpolarized. now rewrite ratio_kinds. Qed.
Lemma polarized_kinds L ME b E T P : bzero ME = false -> bkn_cs_diff_dOmega PythonFloat L ME b E T P = bkn_cs_diff_dOmega NumpyFloat L ME b E T P.
Proof. intros Z. unfold bkn_cs_diff_dOmega. now rewrite ratio_kinds. Qed.
Lemma dEp_kinds L ME b E EP : klib_special L -> bzero ME = false ->
  instead_of_raising (bkn_cs_diff_dEp PythonFloat L ME b E EP) (bkn_cs_diff_dEp NumpyFloat L ME b E EP).
Proof.
  intros S Z. unfold bkn_cs_diff_dEp. pose proof (theta_kinds L ME E EP S) as T.
  destruct (bkn_theta PythonFloat L ME E EP) as [v| |e]; cbn [bind].
  - rewrite T. cbn [bind]. rewrite unpolarized_kinds by exact Z. unfold bkn_cs_diff_dOmega_unpolarized, bkn_Ep_over_E. reflexivity.
  - contradiction.
  - destruct T as [_ ->]. cbn [bind]. rewrite unpolarized_nan by auto. cbn [bind]. rewrite nan_mul, nan_quo. exists B754_nan. split; [reflexivity|discriminate].
Qed.
Lemma dEp_dphi_kinds L ME b E EP P : klib_special L -> bzero ME = false ->
  instead_of_raising (bkn_cs_diff_dEp_dphi PythonFloat L ME b E EP P) (bkn_cs_diff_dEp_dphi NumpyFloat L ME b E EP P).
Proof.
  intros S Z. unfold bkn_cs_diff_dEp_dphi. pose proof (theta_kinds L ME E EP S) as T.
  destruct (bkn_theta PythonFloat L ME E EP) as [v| |e]; cbn [bind].
  - rewrite T. cbn [bind]. rewrite polarized_kinds by exact Z. unfold bkn_cs_diff_dOmega, bkn_Ep_over_E. reflexivity.
  - contradiction.
  - destruct T as [_ ->]. cbn [bind]. rewrite polarized_nan by auto. cbn [bind]. rewrite nan_mul, nan_quo. exists B754_nan. split; [reflexivity|discriminate].
Qed.
Lemma dtheta_kinds L ME b E T : bzero ME = false -> bkn_cs_diff_dtheta PythonFloat L ME b E T = bkn_cs_diff_dtheta NumpyFloat L ME b E T.
Proof. intros Z. unfold bkn_cs_diff_dtheta. now rewrite unpolarized_kinds. Qed.
Lemma edge_kinds L ME E : bzero ME = false -> bkn_compton_edge PythonFloat L ME E = bkn_compton_edge NumpyFloat L ME E.
Proof. intros Z. unfold bkn_compton_edge. now rewrite ratio_kinds. Qed.
