(** The pseudo-Voigt distribution with binary64 numbers. *)
From Coq Require Import Reals List ZArith Lia Lra Bool String.
From Flocq Require Import Core BinarySingleNaN.
From Verif Require Import Py M_Num M_Constituents M_Thermal M_PseudoVoigt M_Float S_Float M_Float2 M_Float4 S_Float4 M_Float6 M_Float8 S_Float8 L_Float12 M_Ieee M_Ieee2 S_Ieee L_Ieee L_Ieee2 L_Ieee4 L_Ieee5 L_Ieee6 L_Ieee7.
Import ListNotations.
Open Scope R_scope.

Lemma rnd_0 : rnd 0 = 0. Proof. apply round_0. typeclasses eauto. Qed.
Lemma rnd_nonneg x : 0 <= x -> 0 <= rnd x.
Proof. intros H. apply round_ge_generic; try typeclasses eauto; [apply generic_format_0|exact H]. Qed.

(** Numbers that are not negative. *)
Definition nn (b : b64) (x : R) (h : Z) : Prop := bnd b x h /\ 0 <= x.
Lemma nn_mul a b x y h h' : nn a x h -> nn b y h' -> (-1074 <= h + h' < 1024)%Z -> nn (bmul a b) (fmul x y) (h + h').
Proof. intros [Ba Ha] [Bb Hb] H. split; [now apply bnd_mul|]. apply rnd_nonneg. now apply Rmult_le_pos. Qed.
Lemma nn_add a b x y h h' : nn a x h -> nn b y h' -> (-1074 <= Z.max h h' + 1 < 1024)%Z -> nn (badd a b) (fadd x y) (Z.max h h' + 1).
Proof. intros [Ba Ha] [Bb Hb] H. split; [now apply bnd_add|]. apply rnd_nonneg. lra. Qed.
Lemma nn_win b x l h : win b x l h -> nn b x h.
Proof. intros W. split; [exact (win_bnd _ _ _ _ W)|]. apply Rlt_le, (win_pos _ _ _ _ W). Qed.
Lemma nn_weaken b x h h' : nn b x h -> (h <= h')%Z -> nn b x h'.
Proof. intros [B H] Hh. split; auto. eapply bnd_weaken; eauto. Qed.

Lemma fmul_0_r' x : fmul x 0 = 0. Proof. unfold fmul. rewrite Rmult_0_r. apply rnd_0. Qed.
Lemma fquo_0_l' x : fquo 0 x = 0. Proof. unfold fquo, Rdiv. rewrite Rmult_0_l. apply rnd_0. Qed.
Lemma fsqrt_0' : fsqrt 0 = 0. Proof. unfold fsqrt. rewrite sqrt_0. apply rnd_0. Qed.
Lemma zero_big : Rabs 0 < big. Proof. rewrite Rabs_R0. apply bpow_gt_0. Qed.

(** Doppler widths of moderate size, or zero. *)
Lemma doppler_moderate B k bamu amu bT T E x w : same_constants B k -> pv_floats k x w amu T -> rep bamu amu -> rep bT T ->
  win E x (-60) 60 ->
  exists b d, bget_doppler_width B bamu bT E = Ok b /\ fget_doppler_width k {| mb_amu := amu; mb_effective_temperature := T |} x = Ok d /\ nn b d 61.
Proof.
  intros Sc (DE & RE & Dw & Pk & Pu & Pa & PT & Pw & _) Ra Rt WE. destruct PT as [->|[Pt Pd]].
  - pose proof Sc as (_ & Ru & Rk). unfold bget_doppler_width, fget_doppler_width. cbn [mb_amu mb_effective_temperature].
    pose proof (win_mul _ _ _ _ _ _ _ _ (plausible_win _ _ Ra Pa) (plausible_win _ _ Ru Pu) ltac:(lia) ltac:(lia)) as Wd.
    pose proof (win_mul _ _ _ _ _ _ _ _ two_win (plausible_win _ _ Rk Pk) ltac:(lia) ltac:(lia)) as W1.
    pose proof (win_mul _ _ _ _ _ _ _ _ W1 million_win ltac:(lia) ltac:(lia)) as W2.
    rewrite (win_not_zero _ _ _ _ Wd). pose proof (win_pos _ _ _ _ Wd) as Pd. destruct (Req_EM_T (fmul amu (k_u_MeV k)) 0); [lra|].
    rewrite fmul_0_r', fquo_0_l', fsqrt_0', fmul_0_r'. destruct (Rlt_dec 0 0); [lra|].
    eexists. eexists. split; [reflexivity|]. split; [reflexivity|]. split; [|lra]. split; [|rewrite Rabs_R0; apply bpow_ge_0].
    assert (N : rep (bmul (bmul (bmul (of_Z 2) (b_kB_eV B)) (literal 1 1000000)) bT) 0).
    { rewrite <- (fmul_0_r' (fmul (fmul 2 (k_kB_eV k)) (rnd (/ 10 ^ 6)))) at 1. apply mul_rep; [apply W2|exact Rt|]. rewrite fmul_0_r'. exact zero_big. }
    assert (Q : rep (bquo (bmul (bmul (bmul (of_Z 2) (b_kB_eV B)) (literal 1 1000000)) bT) (bmul bamu (b_u_MeV B))) 0).
    { rewrite <- (fquo_0_l' (fmul amu (k_u_MeV k))). apply quo_rep; [exact N|apply Wd|exact n|]. rewrite fquo_0_l'. exact zero_big. }
    pose proof (sqrt_rep _ _ Q (Rle_refl 0)) as Sq. rewrite fsqrt_0' in Sq.
    rewrite <- (fmul_0_r' x). apply mul_rep; [apply WE|exact Sq|]. rewrite fmul_0_r'. exact zero_big.
  - assert (Th : thermal k amu T) by (repeat split; first [apply Pk|apply Pu|apply Pa|apply Pt]).
    destruct (doppler_agree B k bamu amu bT T E x _ _ Sc Th Ra Rt WE ltac:(lia) ltac:(lia)) as (b & d & Eb & Ed & W).
    destruct (fdoppler_err k amu T x Th RE) as (d0 & v & E0 & Ev & H0 & Hv). rewrite Ed in Ev. injection Ev as <-.
    exists b, d. split; [exact Eb|]. split; [exact Ed|]. split; [|apply Rlt_le, (win_pos _ _ _ _ W)]. split; [apply W|].
    pose proof (win_pos _ _ _ _ W) as Pos. rewrite Rabs_pos_eq by lra. destruct (Pd d0 E0) as [_ P2].
    rewrite (bpow_pow 61 : bpow radix2 61 = 2 ^ 61). apply Rabs_le_inv in Hv. unfold unit_roundoff in Hv. 
    assert (6 * / 2 ^ 53 <= / 4) by lra. assert (d <= 2 * d0) by nra. lra.
Qed.

Lemma log_win L V : pvlib_ok V -> same_pvlib L V -> win (bmul (of_Z 2) (bsqrt (b_log L (of_Z 2)))) (fmul 2 (fsqrt (v_log V 2))) 0 1.
Proof.
  intros (_ & _ & K & _) (_ & Rl & _).
  assert (W : win (b_log L (of_Z 2)) (v_log V 2) (-2) 0).
  { split; auto. change (bpow radix2 (-2)) with (/ 4). change (bpow radix2 0) with 1.
    pose proof ln_lt_2 as L1. assert (L2 : ln 2 < 1 * 0.9).
    { rewrite Rmult_1_l. rewrite <- (ln_exp 0.9). apply ln_increasing; [lra|].
      pose proof (exp_ineq1 0.45 ltac:(lra)) as X. replace 0.9 with (0.45 + 0.45) by lra. rewrite exp_plus. nra. }
    apply Rabs_le_inv in K. unfold unit_roundoff in K. nra. }
  pose proof (win_sqrt _ _ (-1) 0 W ltac:(lia)) as W2. exact (win_mul _ _ _ _ _ _ _ _ two_win W2 ltac:(lia) ltac:(lia)).
Qed.

Lemma Rpower_window s y : bpow radix2 (-320) <= s <= bpow radix2 320 -> 0 < y <= / 4 -> bpow radix2 (-80) <= Rpower s y <= bpow radix2 80.
Proof.
  intros [S1 S2] Hy. pose proof (bpow_gt_0 radix2 (-320)) as P. assert (Ps : 0 < s) by lra.
  assert (Lp : forall n, bpow radix2 n = exp (IZR n * ln 2)).
  { intros n. rewrite bpow_powerRZ. change (IZR radix2) with 2. rewrite powerRZ_Rpower by lra. reflexivity. }
  assert (L1 : -320 * ln 2 <= ln s). { rewrite <- (ln_exp (-320 * ln 2)). rewrite <- Lp. apply Rcomplements.ln_le; auto. }
  assert (L2 : ln s <= 320 * ln 2). { rewrite <- (ln_exp (320 * ln 2)). rewrite <- Lp. apply Rcomplements.ln_le; auto. }
  pose proof ln_lt_2. unfold Rpower. rewrite !Lp.
  assert (E1 : -80 * ln 2 <= y * ln s <= 80 * ln 2) by (split; nra).
  split; [destruct (Req_dec (-80 * ln 2) (y * ln s)) as [-> |N]; [lra|]|destruct (Req_dec (y * ln s) (80 * ln 2)) as [-> |N]; [lra|]]; apply Rlt_le, exp_increasing; lra.
Qed.

Lemma lit_win n d l h : (0 < n < 2 ^ 53)%Z -> (0 < d < 2 ^ 53)%Z -> (l <= Z.log2 n - (Z.log2 d + 1))%Z -> (Z.log2 n + 1 - Z.log2 d <= h)%Z ->
  win (literal n d) (rnd (IZR n / IZR d)) l h.
Proof. intros Hn Hd Hl Hh. eapply win_weaken; [apply win_literal; assumption|exact Hl|exact Hh]. Qed.

Lemma fifth : 0 < rnd (1 / 5) <= / 4.
Proof.
  assert (bpow radix2 (-3) <= rnd (1 / 5) <= bpow radix2 (-2)).
  { apply rnd_win; try lia. change (bpow radix2 (-3)) with (/ 8). change (bpow radix2 (-2)) with (/ 4). lra. }
  change (bpow radix2 (-3)) with (/ 8) in H. change (bpow radix2 (-2)) with (/ 4) in H. lra.
Qed.

Lemma Gamma_agree L V G g W w : pvlib_ok V -> same_pvlib L V -> nn G g 62 -> win W w (-60) 60 ->
  exists x, fget_Gamma V g w = Ok x /\ win (bget_Gamma L G W) x (-81) 81.
Proof.
  intros KV SV NG WW. pose proof (nn_win _ _ _ _ WW) as NW. unfold fget_Gamma, bget_Gamma. cbv zeta.
  pose proof (nn_mul _ _ _ _ _ _ NG NG ltac:(lia)) as G2. pose proof (nn_mul _ _ _ _ _ _ G2 G2 ltac:(lia)) as G4.
  pose proof (nn_mul _ _ _ _ _ _ NW NW ltac:(lia)) as L2. pose proof (nn_mul _ _ _ _ _ _ L2 NW ltac:(lia)) as L3.
  pose proof (nn_mul _ _ _ _ _ _ L2 L2 ltac:(lia)) as L4.
  pose proof (win_mul _ _ _ _ _ _ _ _ WW WW ltac:(lia) ltac:(lia)) as L2w. pose proof (win_mul _ _ _ _ _ _ _ _ L2w L2w ltac:(lia) ltac:(lia)) as L4w.
  pose proof (win_mul _ _ _ _ _ _ _ _ L4w WW ltac:(lia) ltac:(lia)) as T6.
  pose proof (nn_mul _ _ _ _ _ _ G4 NG ltac:(lia)) as T1.
  assert (c1 : nn (literal 269269 100000) (rnd 2.69269) 3) by (apply (nn_win _ _ 0), (lit_win 269269 100000); cbn; lia).
  assert (c2 : nn (literal 242843 100000) (rnd 2.42843) 3) by (apply (nn_win _ _ 0), (lit_win 242843 100000); cbn; lia).
  assert (c3 : nn (literal 447163 100000) (rnd 4.47163) 3) by (apply (nn_win _ _ 0), (lit_win 447163 100000); cbn; lia).
  assert (c4 : nn (literal 7842 100000) (rnd 0.07842) 3) by (apply (nn_win _ _ (-8)), (lit_win 7842 100000); cbn; lia).
  pose proof (nn_mul _ _ _ _ _ _ (nn_mul _ _ _ _ _ _ c1 G4 ltac:(lia)) NW ltac:(lia)) as T2.
  pose proof (nn_mul _ _ _ _ _ _ (nn_mul _ _ _ _ _ _ (nn_mul _ _ _ _ _ _ c2 G2 ltac:(lia)) NG ltac:(lia)) L2 ltac:(lia)) as T3.
  pose proof (nn_mul _ _ _ _ _ _ (nn_mul _ _ _ _ _ _ c3 G2 ltac:(lia)) L3 ltac:(lia)) as T4.
  pose proof (nn_mul _ _ _ _ _ _ (nn_mul _ _ _ _ _ _ c4 NG ltac:(lia)) L4 ltac:(lia)) as T5.
  pose proof (nn_add _ _ _ _ _ _ T1 T2 ltac:(lia)) as S2. pose proof (nn_add _ _ _ _ _ _ S2 T3 ltac:(lia)) as S3.
  pose proof (nn_add _ _ _ _ _ _ S3 T4 ltac:(lia)) as S4. pose proof (nn_add _ _ _ _ _ _ S4 T5 ltac:(lia)) as S5.
  assert (S6 : forall a b x y l h h', nn a x h -> win b y l h' -> (-1074 <= l)%Z -> (Z.max h h' + 1 < 1024)%Z -> win (badd a b) (fadd x y) l (Z.max h h' + 1)).
  { clear. intros a b x y l h h' [[Ra Ha] Hx] [Rb Hb] Hl Hh. rewrite Rabs_pos_eq in Ha by exact Hx.
    assert (B : bpow radix2 l <= fadd x y <= bpow radix2 (Z.max h h' + 1)).
    { pose proof (bpow_gt_0 radix2 l).
      assert (P : bpow radix2 l <= x + y <= bpow radix2 (Z.max h h' + 1)).
      { rewrite bpow_plus. change (bpow radix2 1) with 2. split; [lra|].
        assert (bpow radix2 h <= bpow radix2 (Z.max h h')) by (apply bpow_le; lia).
        assert (bpow radix2 h' <= bpow radix2 (Z.max h h')) by (apply bpow_le; lia). lra. }
      apply rnd_win; auto. assert (l <= Z.max h h' + 1)%Z by (apply (le_bpow radix2); lra). lia. }
    split; auto. apply add_rep; auto. eapply win_big; eauto. }
  pose proof (S6 _ _ _ _ _ _ _ S5 T6 ltac:(lia) ltac:(lia)) as Ws0.
  pose proof (win_weaken _ _ _ _ (-320) 320 Ws0 ltac:(lia) ltac:(lia)) as Ws. clear Ws0 S6.
  match type of Ws with win ?B ?X _ _ => set (bs := B) in *; set (s := X) in * end.
  pose proof (win_pos _ _ _ _ Ws) as Ps. destruct (Rlt_dec s 0); [lra|]. destruct (Req_EM_T s 0); [lra|].
  eexists. split; [reflexivity|]. destruct Ws as [Rs Hs]. pose proof fifth as H5.
  destruct KV as (_ & _ & _ & KP & _), SV as (_ & _ & SP).
  assert (D5 : double (rnd (1 / 5))) by (apply generic_format_round; typeclasses eauto).
  assert (Hs4 : / 2 ^ 400 <= s <= 2 ^ 400).
  { rewrite <- bpow_inv, <- bpow_pow. split; [eapply Rle_trans; [|apply Hs]|eapply Rle_trans; [apply Hs|]]; apply bpow_le; lia. }
  destruct (KP s (rnd (1 / 5)) (rep_double _ _ Rs) D5 Hs4 ltac:(lra)) as [_ KP2].
  assert (R5 : rep (literal 1 5) (rnd (1 / 5))) by apply (win_literal 1 5 ltac:(lia) ltac:(lia)).
  split; [apply SP; auto; lra|].
  destruct (Rpower_window s _ Hs H5) as [P1 P2]. apply Rabs_le_inv in KP2. unfold unit_roundoff in KP2.
  pose proof (bpow_gt_0 radix2 (-80)). change (-81)%Z with (-80 + -1)%Z. change 81%Z with (80 + 1)%Z.
  rewrite (bpow_plus _ (-80)), (bpow_plus _ 80). change (bpow radix2 (-1)) with (/ 2). change (bpow radix2 1) with 2. nra.
Qed.

Lemma eta_agree G g W w : win G g (-81) 81 -> win W w (-60) 60 -> exists x, fget_eta g w = Ok x /\ bnd (bget_eta G W) x 430.
Proof.
  intros WG WW. unfold fget_eta, bget_eta. cbv zeta. pose proof (win_pos _ _ _ _ WG). destruct (Req_EM_T g 0); [lra|].
  eexists. split; [reflexivity|]. pose proof (win_bnd _ _ _ _ WW) as BW.
  pose proof (win_Z 1 ltac:(lia)) as W1. cbn [Z.log2 Z.add] in W1.
  pose proof (win_bnd _ _ _ _ (win_quo _ _ _ _ _ _ _ _ W1 WG ltac:(lia) ltac:(lia))) as I.
  pose proof (bnd_mul _ _ _ _ _ _ I I ltac:(lia)) as I2. pose proof (bnd_mul _ _ _ _ _ _ BW BW ltac:(lia)) as L2.
  pose proof (bnd_mul _ _ _ _ _ _ L2 BW ltac:(lia)) as L3.
  assert (c1 : bnd (literal 136603 100000) (rnd 1.36603) 2) by (apply (win_bnd _ _ 0), (lit_win 136603 100000); cbn; lia).
  assert (c2 : bnd (literal 47719 100000) (rnd 0.47719) 2) by (apply (win_bnd _ _ (-8)), (lit_win 47719 100000); cbn; lia).
  assert (c3 : bnd (literal 11116 100000) (rnd 0.11116) 2) by (apply (win_bnd _ _ (-8)), (lit_win 11116 100000); cbn; lia).
  pose proof (bnd_mul _ _ _ _ _ _ (bnd_mul _ _ _ _ _ _ c1 BW ltac:(lia)) I ltac:(lia)) as T1.
  pose proof (bnd_mul _ _ _ _ _ _ (bnd_mul _ _ _ _ _ _ c2 L2 ltac:(lia)) I2 ltac:(lia)) as T2.
  pose proof (bnd_mul _ _ _ _ _ _ (bnd_mul _ _ _ _ _ _ (bnd_mul _ _ _ _ _ _ c3 L3 ltac:(lia)) I2 ltac:(lia)) I ltac:(lia)) as T3.
  pose proof (bnd_add _ _ _ _ _ _ (bnd_sub _ _ _ _ _ _ T1 T2 ltac:(lia)) T3 ltac:(lia)) as T4.
  eapply bnd_weaken; [exact T4|lia].
Qed.

(** Everything that the profile needs. *)
Record pv_agree (b : bpv) (p : pv) : Prop := {
  pa_energy : win (bp_energy b) (pv_energy p) (-60) 60;
  pa_eta : bnd (bp_eta b) (pv_eta p) 430;
  pa_gamma_G : win (bquo (bp_gamma_G b) (bsqrt (of_Z 2))) (fquo (pv_gamma_G p) (fsqrt 2)) (-83) 81;
  pa_gamma_L : win (bmul (literal 1 2) (bp_gamma_L b)) (fmul (1 / 2) (pv_gamma_L p)) (-83) 79 }.

Lemma distribution_agree L V B k E x W w bamu amu bT T : pvlib_ok V -> same_pvlib L V -> same_constants B k -> pv_floats k x w amu T ->
  win E x (-60) 60 -> win W w (-60) 60 -> rep bamu amu -> rep bT T ->
  exists b p, bPseudoVoigtDistribution L B E W bamu bT = Ok b /\ fPseudoVoigtDistribution V k x w amu T = Ok p /\ pv_agree b p.
Proof.
  intros KV SV Sc Pf WE WW Ra Rt.
  destruct (doppler_moderate B k bamu amu bT T E x w Sc Pf Ra Rt WE) as (bd & d & Ebd & Ed & Nd).
  unfold bPseudoVoigtDistribution, fPseudoVoigtDistribution. rewrite Ebd, Ed. cbn [bind]. cbv zeta.
  pose proof (log_win L V KV SV) as Wl. pose proof (nn_mul _ _ _ _ _ _ (nn_win _ _ _ _ Wl) Nd ltac:(lia)) as NG.
  destruct (Gamma_agree L V _ _ _ _ KV SV NG WW) as (g & Eg & WG). rewrite Eg. cbn [bind].
  destruct (eta_agree _ _ _ _ WG WW) as (t & Et & Bt). rewrite Et. cbn [bind].
  eexists. eexists. split; [reflexivity|]. split; [reflexivity|].
  split; cbn [bp_energy bp_eta bp_gamma_G bp_gamma_L pv_energy pv_eta pv_gamma_G pv_gamma_L].
  - exact WE.
  - exact Bt.
  - pose proof (win_quo _ _ _ _ _ _ _ _ (win_quo _ _ _ _ _ _ _ _ WG Wl ltac:(lia) ltac:(lia)) sqrt2_win ltac:(lia) ltac:(lia)) as X.
    eapply win_weaken; [exact X|lia|lia].
  - pose proof (half_win _ _ _ _ (half_win _ _ _ _ WG ltac:(lia) ltac:(lia)) ltac:(lia) ltac:(lia)) as X. eapply win_weaken; [exact X|lia|lia].
Qed.

Lemma exp_bound2 V : pvlib_ok V -> forall y, double y -> y <= 0 -> Rabs (c_exp (v_c V) y) <= 2.
Proof.
  intros (_ & K & _) y Dy Hy. specialize (K y Dy Hy). apply Rabs_le_inv in K. unfold unit_roundoff, half_smallest in K.
  assert (exp y <= 1). { rewrite <- exp_0. destruct Hy as [Hy| ->]; [apply Rlt_le, exp_increasing; exact Hy|lra]. }
  assert (/ 2 ^ 1075 <= / 4).
  { apply Rinv_le; [lra|]. replace 4 with (2 ^ 2) by lra. apply Rle_pow; [lra|]. apply (Nat.leb_le 2 1075). reflexivity. }
  pose proof (exp_pos y). apply Rabs_le. nra.
Qed.

Lemma mix_agree t e a p b q : bnd t e 430 -> bnd a p (0 - -83) -> bnd b q (0 - -83) -> bnd (bmix t a b) (fmix e p q) 520.
Proof.
  intros Bt Ba Bb. unfold bmix, fmix. pose proof (win_Z 1 ltac:(lia)) as W1. cbn [Z.log2 Z.add] in W1.
  pose proof (bnd_sub _ _ _ _ _ _ (win_bnd _ _ _ _ W1) Bt ltac:(lia)) as B1.
  pose proof (bnd_add _ _ _ _ _ _ (bnd_mul _ _ _ _ _ _ B1 Ba ltac:(lia)) (bnd_mul _ _ _ _ _ _ Bt Bb ltac:(lia)) ltac:(lia)) as B2.
  eapply bnd_weaken; [exact B2|lia].
Qed.

Section Call.
  Variables (L : blib) (V : pvlib) (B : bconstants) (k : constants) (bi : bstate) (i : state) (bm : bstate) (m : state)
    (bfin : option bstate) (fin : option state) (bamu : b64) (amu : R) (bT : b64) (T : R) (w : R).
  Hypotheses (KV : pvlib_ok V) (SV : same_pvlib L V) (Sc : same_constants B k) (Fl : floats k i m fin)
    (Ew : width m = Ok w) (Pf : pv_floats k (fsub (st_excitation_energy m) (st_excitation_energy i)) w amu T)
    (Ra : rep bamu amu) (Rt : rep bT T) (Si : same_state bi i) (Sm : same_state bm m) (Sf : same_final bfin fin).

  Lemma pv_pieces : exists E_r Ir e r W b p, bResonance L B bi bm bfin = Ok (E_r, Ir) /\ fResonance (v_c V) k i m fin NoRecoil = Ok (e, r) /\
    win E_r e (-60) 60 /\ win Ir r (-440) 440 /\ bwidth bm = Ok W /\
    bPseudoVoigtDistribution L B E_r W bamu bT = Ok b /\ fPseudoVoigtDistribution V k e w amu T = Ok p /\ pv_agree b p.
  Proof using All.
    destruct (resonance_agree L (v_c V) B k bi i bm m bfin fin (proj1 SV) (proj1 KV) Sc Fl Si Sm Sf) as (E_r & Ir & e & r & Eb & Ef & WE & WI & Ee).
    pose proof Fl as (_ & _ & _ & _ & _ & _ & d & w' & Ed & Pw & _). unfold width in Ew. rewrite Ed in Ew. injection Ew as ->.
    destruct Sm as (_ & _ & _ & Sd). rewrite Ed in Sd. destruct (b_decays bm) as [[bd W]|] eqn:Ebd; [|contradiction]. destruct Sd as [_ RW].
    rewrite <- Ee in Pf.
    destruct (distribution_agree L V B k E_r e W w bamu amu bT T KV SV Sc Pf WE (plausible_win _ _ RW Pw) Ra Rt) as (b & p & H1 & H2 & H3).
    exists E_r, Ir, e, r, W, b, p. repeat (split; [assumption|]). split; [|repeat split; assumption || apply H3].
    unfold bwidth. rewrite Ebd. reflexivity.
  Qed.

  Lemma pseudo_voigt_agree E x absolute : bnd E x 400 ->
    reads_number (bPseudoVoigt_call L B bi bm bamu bT bfin E absolute) (fPseudoVoigt_call V k i m amu T fin x absolute).
  Proof using All.
    intros Bx. destruct pv_pieces as (E_r & Ir & e & r & W & b & p & Eb & Ef & WE & WI & EW & Ed & Ed' & A).
    unfold bPseudoVoigt_call, fPseudoVoigt_call. rewrite Eb, Ef. cbn [bind fst snd]. rewrite EW, Ew. cbn [bind]. rewrite Ed, Ed'. cbn [bind].
    unfold bres_call, fres_call.
    assert (Bx' : bnd (if absolute then E else badd E E_r) (if absolute then x else fadd x e) 402).
    { destruct absolute; [eapply bnd_weaken; [exact Bx|lia]|].
      pose proof (bnd_add _ _ _ _ _ _ Bx (win_bnd _ _ _ _ WE) ltac:(lia)) as B1. eapply bnd_weaken; [exact B1|lia]. }
    pose proof (bnd_weaken _ _ _ 402 (win_bnd _ _ _ _ (pa_energy _ _ A)) ltac:(lia)) as BE. unfold bpv_pdf, fpv_pdf.
    destruct (norm_agree L (v_c V) _ _ _ _ _ _ _ _ _ (proj1 SV) (exp_bound2 V KV) BE (pa_gamma_G _ _ A) Bx' ltac:(lia) ltac:(lia) ltac:(lia) ltac:(lia)) as (u & Eu & Bu).
    destruct (cauchy_agree _ _ _ _ _ _ _ _ _ BE (pa_gamma_L _ _ A) Bx' ltac:(lia) ltac:(lia) ltac:(lia) ltac:(lia)) as (v & Ev & Bv & _).
    rewrite Eu. cbn [bind]. rewrite Ev. cbn [bind].
    pose proof (mix_agree _ _ _ _ _ _ (pa_eta _ _ A) Bu Bv) as Bm.
    pose proof (bnd_mul _ _ _ _ _ _ (win_bnd _ _ _ _ WI) Bm ltac:(lia)) as Br.
    do 2 eexists. split; [reflexivity|]. split; [reflexivity|]. apply Br.
  Qed.

  Lemma pseudo_voigt_total E absolute : bnanb E = false -> exists v, bPseudoVoigt_call L B bi bm bamu bT bfin E absolute = Ok v /\ finite v.
  Proof using All.
    intros NE. destruct pv_pieces as (E_r & Ir & e & r & W & b & p & Eb & Ef & WE & WI & EW & Ed & Ed' & A).
    unfold bPseudoVoigt_call. rewrite Eb. cbn [bind fst snd]. rewrite EW. cbn [bind]. rewrite Ed. cbn [bind]. unfold bres_call.
    assert (NE' : bnanb (if absolute then E else badd E E_r) = false) by (destruct absolute; [exact NE|apply add_not_nan; [exact NE|apply WE]]).
    pose proof (proj1 (win_rep _ _ _ _ (pa_energy _ _ A))) as FE. unfold bpv_pdf.
    destruct (norm_total L (v_c V) _ _ _ _ _ _ (proj1 SV) (exp_bound2 V KV) FE (pa_gamma_G _ _ A) ltac:(lia) NE') as (u & Bu & _).
    destruct (cauchy_total _ _ _ _ _ _ FE (pa_gamma_L _ _ A) ltac:(lia) NE') as (v & Bv & _).
    pose proof (mix_agree _ _ _ _ _ _ (pa_eta _ _ A) Bu Bv) as Bm.
    pose proof (bnd_mul _ _ _ _ _ _ (win_bnd _ _ _ _ WI) Bm ltac:(lia)) as Br.
    eexists. split; [reflexivity|]. apply Br.
  Qed.
End Call.
