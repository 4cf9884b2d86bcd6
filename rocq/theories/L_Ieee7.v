(** Doppler broadening with binary64 numbers, and resonances at arbitrary energies. *)
From Coq Require Import Reals List ZArith Lia Lra Bool String.
From Flocq Require Import Core BinarySingleNaN.
From Verif Require Import Py M_Num M_Constituents M_Thermal M_Float S_Float M_Float2 M_Float4 S_Float4 M_Ieee M_Ieee2 S_Ieee L_Ieee L_Ieee2 L_Ieee4 L_Ieee5 L_Ieee6.
Import ListNotations.
Open Scope R_scope.

Lemma two_win : win (of_Z 2) 2 1 1.
Proof. destruct (win_Z 2 ltac:(lia)) as [R _]. split; [exact R|]. cbn. lra. Qed.
Lemma sqrt2_win : win (bsqrt (of_Z 2)) (fsqrt 2) 0 1.
Proof. apply win_sqrt; [|lia]. eapply win_weaken; [exact two_win|lia|lia]. Qed.
Lemma million_win : win (literal 1 1000000) (rnd (/ 10 ^ 6)) (-20) (-18).
Proof.
  pose proof (win_literal 1 1000000 ltac:(lia) ltac:(lia)) as W. replace (/ 10 ^ 6) with (1 / 1000000) by lra.
  eapply win_weaken; [exact W|cbn; lia|cbn; lia].
Qed.

Lemma doppler_agree B k bamu amu bT T E x l h : same_constants B k -> thermal k amu T -> rep bamu amu -> rep bT T ->
  win E x l h -> (-100 <= l)%Z -> (h <= 100)%Z ->
  exists b d, bget_doppler_width B bamu bT E = Ok b /\ fget_doppler_width k {| mb_amu := amu; mb_effective_temperature := T |} x = Ok d /\
    win b d (l - 130) (h + 112).
Proof.
  intros (_ & Ru & Rk) (Pk & Pu & Pa & Pt) Ra Rt WE Hl Hh. unfold bget_doppler_width, fget_doppler_width. cbn [mb_amu mb_effective_temperature].
  pose proof (win_mul _ _ _ _ _ _ _ _ (plausible_win _ _ Ra Pa) (plausible_win _ _ Ru Pu) ltac:(lia) ltac:(lia)) as Wd.
  pose proof (win_mul _ _ _ _ _ _ _ _ two_win (plausible_win _ _ Rk Pk) ltac:(lia) ltac:(lia)) as W1.
  pose proof (win_mul _ _ _ _ _ _ _ _ W1 million_win ltac:(lia) ltac:(lia)) as W2.
  pose proof (win_mul _ _ _ _ _ _ _ _ W2 (plausible_win _ _ Rt Pt) ltac:(lia) ltac:(lia)) as W3.
  pose proof (win_quo _ _ _ _ _ _ _ _ W3 Wd ltac:(lia) ltac:(lia)) as W4.
  rewrite (win_not_zero _ _ _ _ Wd). pose proof (win_pos _ _ _ _ Wd). pose proof (win_pos _ _ _ _ W4).
  destruct (Req_EM_T (fmul amu (k_u_MeV k)) 0); [lra|]. destruct (Rlt_dec _ 0); [lra|].
  eexists. eexists. split; [reflexivity|]. split; [reflexivity|].
  assert (W5 : win (bsqrt (bquo (bmul (bmul (bmul (of_Z 2) (b_kB_eV B)) (literal 1 1000000)) bT) (bmul bamu (b_u_MeV B))))
    (fsqrt (fquo (fmul (fmul (fmul 2 (k_kB_eV k)) (rnd (/ 10 ^ 6))) T) (fmul amu (k_u_MeV k)))) (-130) 112).
  { apply win_sqrt; [|lia]. eapply win_weaken; [exact W4|lia|lia]. }
  pose proof (win_mul _ _ _ _ _ _ _ _ WE W5 ltac:(lia) ltac:(lia)) as W6. eapply win_weaken; [exact W6|lia|lia].
Qed.

Lemma recoil_agree B k bamu amu D x : rep (b_u_MeV B) (k_u_MeV k) -> plausible (k_u_MeV k) -> plausible amu -> plausible x -> rep bamu amu -> rep D x ->
  reads_number (bFreeNucleusRecoil B bamu D) (fFreeNucleusRecoil k amu x).
Proof.
  intros Ru Pu Pa Px Ra Rx. unfold bFreeNucleusRecoil, fFreeNucleusRecoil.
  pose proof (win_mul _ _ _ _ _ _ _ _ two_win (plausible_win _ _ Ra Pa) ltac:(lia) ltac:(lia)) as W1.
  pose proof (win_mul _ _ _ _ _ _ _ _ W1 (plausible_win _ _ Ru Pu) ltac:(lia) ltac:(lia)) as W2.
  pose proof (win_quo _ _ _ _ _ _ _ _ (plausible_win _ _ Rx Px) W2 ltac:(lia) ltac:(lia)) as W3.
  pose proof (win_Z 1 ltac:(lia)) as Wo. cbn [Z.log2 Z.add] in Wo.
  pose proof (win_add _ _ _ _ _ _ _ _ Wo W3 ltac:(lia) ltac:(lia)) as W4.
  pose proof (win_mul _ _ _ _ _ _ _ _ (plausible_win _ _ Rx Px) W4 ltac:(lia) ltac:(lia)) as W5.
  rewrite (win_not_zero _ _ _ _ W2). pose proof (win_pos _ _ _ _ W2). destruct (Req_EM_T (fmul (fmul 2 amu) (k_u_MeV k)) 0); [lra|].
  do 2 eexists. split; [reflexivity|]. split; [reflexivity|]. apply W5.
Qed.

(** The exponential function. *)
Lemma exp_bound c x : clib_ok c -> falling_exp c -> x <= 0 -> 0 <= c_exp c x <= 2.
Proof.
  intros [_ K] F Hx. destruct (F 0 x ltac:(lra)) as [F1 F2]. split; [exact F1|].
  assert (D0 : double 0) by apply generic_format_0.
  destruct (K 0 D0 ltac:(lra)) as [_ K0]. rewrite exp_0 in K0. apply Rabs_le_inv in K0. unfold unit_roundoff in K0. lra.
Qed.
Lemma exp_abs c : clib_ok c -> falling_exp c -> forall y, double y -> y <= 0 -> Rabs (c_exp c y) <= 2.
Proof. intros K F y _ Hy. destruct (exp_bound c y K F Hy). rewrite Rabs_pos_eq; lra. Qed.
Lemma fquo2_neg x : 0 <= x -> fquo (- x) 2 <= 0.
Proof. intros H. apply round_le_generic; try typeclasses eauto; [apply generic_format_0|]. lra. Qed.
Lemma root_win : win (bsqrt (bmul (of_Z 2) bpi)) (fsqrt (fmul 2 np_pi)) 1 2.
Proof.
  pose proof (win_mul _ _ _ _ _ _ _ _ two_win win_pi ltac:(lia) ltac:(lia)) as W. apply win_sqrt; [|lia].
  eapply win_weaken; [exact W|lia|lia].
Qed.

Lemma norm_agree L c E_r e s t E x hx ls hs : same_clib L c -> (forall y, double y -> y <= 0 -> Rabs (c_exp c y) <= 2) ->
  bnd E_r e hx -> win s t ls hs -> bnd E x hx ->
  (0 <= hx)%Z -> (-300 <= ls)%Z -> (ls <= 100)%Z -> (2 * (hx + 1 - ls) < 1022)%Z ->
  exists p, fnorm_pdf c e t x = Ok p /\ bnd (bnorm_pdf L E_r s E) p (0 - ls).
Proof.
  intros SL Ke WE Ws Bx H0 H1 H2 H3. unfold fnorm_pdf, bnorm_pdf. rewrite (lt_zero _ _ _ _ Ws). pose proof (win_pos _ _ _ _ Ws) as Pt.
  destruct (Rlt_dec 0 t); [|lra]. eexists. split; [reflexivity|].
  pose proof (bnd_sub _ _ _ _ _ _ Bx WE ltac:(lia)) as B1. rewrite Z.max_id in B1.
  pose proof (bnd_quo _ _ _ _ _ _ _ B1 Ws ltac:(lia)) as B2.
  pose proof (bnd_opp _ _ _ (bnd_mul _ _ _ _ _ _ B2 B2 ltac:(lia))) as B3.
  pose proof (bnd_quo _ _ _ _ _ _ _ B3 two_win ltac:(lia)) as B4.
  set (z := fquo (- fmul (fquo (fsub x e) t) (fquo (fsub x e) t)) 2) in *.
  assert (Hz : z <= 0) by (apply fquo2_neg, square_nonneg).
  assert (Dz : double z) by (apply generic_format_round; typeclasses eauto).
  pose proof (Ke z Dz Hz) as K2. destruct SL as (_ & SE & _).
  assert (B5 : bnd (b_exp L (bquo (bopp (bmul (bquo (bsub E E_r) s) (bquo (bsub E E_r) s))) (of_Z 2))) (c_exp c z) 1).
  { split; [apply SE; [apply B4|exact Hz]|]. exact K2. }
  pose proof (bnd_quo _ _ _ _ _ _ _ B5 root_win ltac:(lia)) as B6.
  pose proof (bnd_quo _ _ _ _ _ _ _ B6 Ws ltac:(lia)) as B7.
  eapply bnd_weaken; [exact B7|lia].
Qed.

Lemma gauss_agree L c B k bi i bm m bfin fin bamu amu bT T E x absolute : same_clib L c -> clib_ok c -> falling_exp c ->
  same_constants B k -> floats k i m fin -> thermal k amu T -> rep bamu amu -> rep bT T ->
  same_state bi i -> same_state bm m -> same_final bfin fin -> bnd E x 300 ->
  reads_number (bGauss_call L B bi bm bamu bT bfin E absolute) (fGauss_call c k i m amu T fin x absolute).
Proof.
  intros SL KL KF Sc Fl Th Ra Rt Si Sm Sf Bx.
  destruct (resonance_agree _ _ _ _ _ _ _ _ _ _ SL KL Sc Fl Si Sm Sf) as (E_r & Ir & e & r & Eb & Ef & WE & WI & _).
  unfold bGauss_call, fGauss_call. rewrite Eb, Ef. cbn [bind fst snd].
  destruct (doppler_agree B k bamu amu bT T E_r e _ _ Sc Th Ra Rt WE ltac:(lia) ltac:(lia)) as (bd & d & Ebd & Ed & Wd).
  rewrite Ebd, Ed. cbn [bind].
  pose proof (win_quo _ _ _ _ _ _ _ _ Wd sqrt2_win ltac:(lia) ltac:(lia)) as Ws.
  pose proof (bnd_weaken _ _ _ 301 (win_bnd _ _ _ _ WE) ltac:(lia)) as BE.
  unfold bres_call, fres_call.
  assert (Bx' : bnd (if absolute then E else badd E E_r) (if absolute then x else fadd x e) 301).
  { destruct absolute; [eapply bnd_weaken; [exact Bx|lia]|].
    pose proof (bnd_add _ _ _ _ _ _ Bx (win_bnd _ _ _ _ WE) ltac:(lia)) as B1. eapply bnd_weaken; [exact B1|lia]. }
  destruct (norm_agree L c _ _ _ _ _ _ _ _ _ SL (exp_abs c KL KF) BE Ws Bx' ltac:(lia) ltac:(lia) ltac:(lia) ltac:(lia)) as (p & Ep & Bp).
  rewrite Ep. cbn [bind]. pose proof (bnd_mul _ _ _ _ _ _ (win_bnd _ _ _ _ WI) Bp ltac:(lia)) as Bv.
  do 2 eexists. split; [reflexivity|]. split; [reflexivity|]. apply Bv.
Qed.

(** ** Infinite energies and intermediate results *)
Lemma overflow_inf (b : b64) s : B2SF b = binary_overflow 53 1024 mode_NE s -> b = B754_infinity s.
Proof. destruct b; cbn; intros H; try discriminate. injection H as ->. reflexivity. Qed.
Lemma finite_not_nan (b : b64) : is_finite b = true -> bnanb b = false. Proof. destruct b; cbn; auto; discriminate. Qed.

Lemma sub_not_nan a b : bnanb a = false -> finite b -> bnanb (bsub a b) = false.
Proof.
  intros Na Fb. destruct (is_finite a) eqn:Fa.
  - pose proof (Bminus_correct 53 1024 prec_53 emax_1024 mode_NE a b Fa Fb) as C. destruct (Rlt_bool _ _).
    + apply finite_not_nan. exact (proj1 (proj2 C)).
    + destruct C as [C _]. apply overflow_inf in C. unfold bsub. rewrite C. reflexivity.
  - destruct a as [ | | | ]; try discriminate. destruct b as [ | | | ]; try discriminate; reflexivity.
Qed.
Lemma add_not_nan a b : bnanb a = false -> finite b -> bnanb (badd a b) = false.
Proof.
  intros Na Fb. destruct (is_finite a) eqn:Fa.
  - pose proof (Bplus_correct 53 1024 prec_53 emax_1024 mode_NE a b Fa Fb) as C. destruct (Rlt_bool _ _).
    + apply finite_not_nan. exact (proj1 (proj2 C)).
    + destruct C as [C _]. apply overflow_inf in C. unfold badd. rewrite C. reflexivity.
  - destruct a as [ | | | ]; try discriminate. destruct b as [ | | | ]; try discriminate; reflexivity.
Qed.
Lemma quo_not_nan a b x l h : bnanb a = false -> win b x l h -> bnanb (bquo a b) = false.
Proof.
  intros Na W. pose proof (win_pos _ _ _ _ W) as P. destruct W as [[Fb Eb] _]. assert (N : B2R b <> 0) by lra.
  destruct (is_finite a) eqn:Fa.
  - pose proof (Bdiv_correct 53 1024 prec_53 emax_1024 mode_NE a b N) as C. destruct (Rlt_bool _ _).
    + apply finite_not_nan. unfold bquo. destruct C as (_ & -> & _). exact Fa.
    + apply overflow_inf in C. unfold bquo. rewrite C. reflexivity.
  - destruct a as [ | | | ]; try discriminate. destruct b as [ | | | ]; try discriminate; reflexivity.
Qed.
Definition nonneg_or_inf (lo : R) (b : b64) : Prop := (exists x, rep b x /\ lo <= x) \/ b = B754_infinity false.
Lemma square_total y : bnanb y = false -> nonneg_or_inf 0 (bmul y y).
Proof.
  intros N. destruct (is_finite y) eqn:F.
  - pose proof (Bmult_correct 53 1024 prec_53 emax_1024 mode_NE y y) as C. destruct (Rlt_bool _ _).
    + destruct C as (C1 & C2 & _). rewrite rnd_eq in C1. left. exists (fmul (B2R y) (B2R y)). split; [|apply square_nonneg].
      split; [|exact C1]. unfold bmul. rewrite C2, F. reflexivity.
    + right. apply overflow_inf in C. rewrite xorb_nilpotent in C. exact C.
  - right. destruct y as [ |s| | ]; try discriminate. destruct s; reflexivity.
Qed.
Lemma one_plus_total z : nonneg_or_inf 0 z -> nonneg_or_inf 1 (badd (of_Z 1) z).
Proof.
  intros [(x & R & H)| -> ]; [|right; reflexivity]. pose proof (Z_rep 1 ltac:(lia)) as R1. destruct R as [F E], R1 as [F1 E1].
  pose proof (Bplus_correct 53 1024 prec_53 emax_1024 mode_NE (of_Z 1) z F1 F) as C. destruct (Rlt_bool _ _).
  - destruct C as (C1 & C2 & _). rewrite rnd_eq, E1, E in C1. left. exists (fadd 1 x). split; [split; assumption|].
    apply round_ge_generic; try typeclasses eauto; [apply (bpow_double 0); lia|lra].
  - right. destruct C as [C _]. apply overflow_inf in C. exact C.
Qed.
Lemma quo_total c x h z : bnd c x h -> 0 <= x -> (0 <= h < 1024)%Z -> nonneg_or_inf 1 z -> exists p, bnd (bquo c z) p h /\ 0 <= p.
Proof.
  intros B Hx Hh [(y & R & H)| -> ].
  - assert (W : win z y 0 1024). { split; auto. change (bpow radix2 0) with 1. split; [exact H|]. pose proof (rep_big _ _ R). rewrite Rabs_pos_eq in H0; lra. }
    exists (fquo x y). pose proof (bnd_quo _ _ _ _ _ _ _ B W ltac:(lia)) as Q. rewrite Z.sub_0_r in Q. split; [exact Q|].
    apply round_ge_generic; try typeclasses eauto; [apply generic_format_0|]. apply Rmult_le_pos; [lra|]. apply Rlt_le, Rinv_0_lt_compat. lra.
  - destruct B as [[F _] _]. exists 0. split; [|lra]. split; [|rewrite Rabs_R0; apply bpow_ge_0].
    destruct c; try discriminate; split; reflexivity.
Qed.

Lemma cauchy_total E_r s t ls hs E : finite E_r -> win s t ls hs -> (-900 <= ls <= 900)%Z -> bnanb E = false ->
  exists p, bnd (bcauchy_pdf E_r s E) p (0 - ls) /\ 0 <= p.
Proof.
  intros FE Ws Hl NE. unfold bcauchy_pdf. rewrite (lt_zero _ _ _ _ Ws).
  pose proof (quo_not_nan _ _ _ _ _ (sub_not_nan _ _ NE FE) Ws) as Ny.
  pose proof (one_plus_total _ (square_total _ Ny)) as T.
  pose proof (win_Z 1 ltac:(lia)) as W1. cbn [Z.log2 Z.add] in W1.
  pose proof (win_quo _ _ _ _ _ _ _ _ W1 win_pi ltac:(lia) ltac:(lia)) as W5.
  destruct (quo_total _ _ 0 _ (bnd_weaken _ _ _ 0 (win_bnd _ _ _ _ W5) ltac:(lia)) (Rlt_le _ _ (win_pos _ _ _ _ W5)) ltac:(lia) T) as (p & Bp & Hp).
  exists (fquo p t). split; [apply (bnd_quo _ _ _ _ _ _ _ Bp Ws); lia|].
  apply round_ge_generic; try typeclasses eauto; [apply generic_format_0|]. apply Rmult_le_pos; [exact Hp|apply Rlt_le, Rinv_0_lt_compat, (win_pos _ _ _ _ Ws)].
Qed.

Lemma norm_total L c E_r s t ls hs E : same_clib L c -> (forall y, double y -> y <= 0 -> Rabs (c_exp c y) <= 2) ->
  finite E_r -> win s t ls hs -> (-900 <= ls <= 900)%Z -> bnanb E = false ->
  exists p, bnd (bnorm_pdf L E_r s E) p (0 - ls) /\ ((forall y, y <= 0 -> 0 <= c_exp c y) -> 0 <= p).
Proof.
  intros (_ & SE & SI) Ke FE Ws Hl NE. unfold bnorm_pdf. rewrite (lt_zero _ _ _ _ Ws).
  pose proof (quo_not_nan _ _ _ _ _ (sub_not_nan _ _ NE FE) Ws) as Ny.
  set (y := bquo (bsub E E_r) s) in *.
  assert (X : exists v, bnd (b_exp L (bquo (bopp (bmul y y)) (of_Z 2))) v 1 /\ ((forall y, y <= 0 -> 0 <= c_exp c y) -> 0 <= v)).
  { destruct (square_total y Ny) as [(x & R & Hx)|I].
    - assert (B : bnd (bopp (bmul y y)) (- x) 1024).
      { apply bnd_opp. split; auto. apply Rlt_le. exact (rep_big _ _ R). }
      pose proof (bnd_quo _ _ _ _ _ _ _ B two_win ltac:(lia)) as B2. pose proof (fquo2_neg x Hx) as Hz.
      exists (c_exp c (fquo (- x) 2)). split; [|intros Kp; apply Kp; exact Hz]. split; [apply SE; [apply B2|exact Hz]|].
      apply Ke; [|exact Hz]. apply generic_format_round; typeclasses eauto.
    - rewrite I. change (bquo (bopp (B754_infinity false)) (of_Z 2)) with (B754_infinity true : b64). rewrite SI.
      exists 0. split; [|intros _; lra]. split; [apply (Z_rep 0); lia|]. rewrite Rabs_R0. apply bpow_ge_0. }
  destruct X as (v & Bv & Hv).
  pose proof (bnd_quo _ _ _ _ _ _ _ Bv root_win ltac:(lia)) as B6. pose proof (bnd_quo _ _ _ _ _ _ _ B6 Ws ltac:(lia)) as B7.
  eexists. split; [exact B7|]. intros Kp.
  apply round_ge_generic; try typeclasses eauto; [apply generic_format_0|]. apply Rmult_le_pos; [|apply Rlt_le, Rinv_0_lt_compat, (win_pos _ _ _ _ Ws)].
  apply round_ge_generic; try typeclasses eauto; [apply generic_format_0|]. apply Rmult_le_pos; [exact (Hv Kp)|apply Rlt_le, Rinv_0_lt_compat, (win_pos _ _ _ _ root_win)].
Qed.

Definition good (o : out b64) : Prop := exists v, o = Ok v /\ finite v /\ 0 <= B2R v.
Lemma good_mul Ir r l h p v q : win Ir r l h -> bnd p v q -> 0 <= v -> (-1074 <= h + q < 1024)%Z -> good (Ok (bmul Ir p)).
Proof.
  intros WI Bp Hv Hh. pose proof (bnd_mul _ _ _ _ _ _ (win_bnd _ _ _ _ WI) Bp ltac:(lia)) as [[F E] _].
  exists (bmul Ir p). split; [reflexivity|]. split; [exact F|]. rewrite E.
  apply round_ge_generic; try typeclasses eauto; [apply generic_format_0|]. apply Rmult_le_pos; [|exact Hv]. apply Rlt_le, (win_pos _ _ _ _ WI).
Qed.

Lemma breit_wigner_total L c B k bi i bm m bfin fin E absolute : same_clib L c -> clib_ok c -> same_constants B k -> floats k i m fin ->
  same_state bi i -> same_state bm m -> same_final bfin fin -> bnanb E = false ->
  good (bBreitWigner_call L B bi bm bfin E absolute).
Proof.
  intros SL KL Sc Fl Si Sm Sf NE.
  destruct (resonance_agree _ _ _ _ _ _ _ _ _ _ SL KL Sc Fl Si Sm Sf) as (E_r & Ir & e & r & Eb & Ef & WE & WI & _).
  unfold bBreitWigner_call. rewrite Eb. cbn [bind fst snd].
  pose proof Fl as (_ & _ & _ & _ & _ & _ & d & w & Ed & Pw & _).
  destruct Sm as (_ & _ & _ & Sd). rewrite Ed in Sd. unfold bwidth.
  destruct (b_decays bm) as [[bd bw]|] eqn:Ebd; [|contradiction]. destruct Sd as [_ Rw]. cbn [bind].
  pose proof (half_win _ _ _ _ (plausible_win _ _ Rw Pw) ltac:(lia) ltac:(lia)) as Ws.
  assert (NE' : bnanb (if absolute then E else badd E E_r) = false) by (destruct absolute; [exact NE|apply add_not_nan; [exact NE|apply WE]]).
  destruct (cauchy_total E_r _ _ _ _ _ (proj1 (win_rep _ _ _ _ WE)) Ws ltac:(lia) NE') as (p & Bp & Hp).
  unfold bres_call. eapply good_mul; eauto. lia.
Qed.

Lemma gauss_total L c B k bi i bm m bfin fin bamu amu bT T E absolute : same_clib L c -> clib_ok c -> falling_exp c ->
  same_constants B k -> floats k i m fin -> thermal k amu T -> rep bamu amu -> rep bT T ->
  same_state bi i -> same_state bm m -> same_final bfin fin -> bnanb E = false ->
  good (bGauss_call L B bi bm bamu bT bfin E absolute).
Proof.
  intros SL KL KF Sc Fl Th Ra Rt Si Sm Sf NE.
  destruct (resonance_agree _ _ _ _ _ _ _ _ _ _ SL KL Sc Fl Si Sm Sf) as (E_r & Ir & e & r & Eb & Ef & WE & WI & _).
  unfold bGauss_call. rewrite Eb. cbn [bind fst snd].
  destruct (doppler_agree B k bamu amu bT T E_r e _ _ Sc Th Ra Rt WE ltac:(lia) ltac:(lia)) as (bd & d & Ebd & Ed & Wd).
  rewrite Ebd. cbn [bind].
  pose proof (win_quo _ _ _ _ _ _ _ _ Wd sqrt2_win ltac:(lia) ltac:(lia)) as Ws.
  assert (NE' : bnanb (if absolute then E else badd E E_r) = false) by (destruct absolute; [exact NE|apply add_not_nan; [exact NE|apply WE]]).
  destruct (norm_total L c E_r _ _ _ _ _ SL (exp_abs c KL KF) (proj1 (win_rep _ _ _ _ WE)) Ws ltac:(lia) NE') as (p & Bp & Hp).
  unfold bres_call. eapply good_mul; eauto; [|lia]. apply Hp. intros y Hy. apply (exp_bound c y KL KF Hy).
Qed.
