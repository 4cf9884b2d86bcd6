(** Quantiles of pseudo-Voigt lines with binary64 numbers: single quantiles, the approximation after a failure, coverages above 1. *)
From Coq Require Import Reals List ZArith Bool Lra Lia Psatz.
From Coquelicot Require Import Rbar.
From Flocq Require Import Core BinarySingleNaN.
From Verif Require Import Py M_Num M_Grid M_Dist M_Resonance M_Thermal M_Constituents M_PseudoVoigt M_Float S_Float M_Float2 M_Float3 M_Float4 S_Float4 M_Float6 S_Float6 M_Float8 S_Float8 M_Float12 M_Ieee M_Ieee2 M_Ieee5 S_Ieee S_Ieee5 M_Ieee7 S_Ieee7
  L_PseudoVoigt L_Float L_Float22 L_Float28 L_Float30 L_Float31 L_Float50 L_Ieee L_Ieee2 L_Ieee3 L_Ieee4 L_Ieee5 L_Ieee6 L_Ieee7 L_Ieee8 L_Ieee9 L_Ieee13 L_Ieee20 L_Ieee24 L_Ieee25 L_Ieee26 L_Ieee27 L_Ieee28.
From Verif Require L_Float33.
Import ListNotations.
Open Scope R_scope.

(** ** Single quantiles *)
Lemma sub_overflow a b x y : rep a x -> rep b y -> big <= Rabs (fsub x y) -> exists s, bsub a b = B754_infinity s.
Proof.
  intros [Fa Ea] [Fb Eb] H. pose proof (Bminus_correct 53 1024 prec_53 emax_1024 mode_NE a b Fa Fb) as C.
  rewrite rnd_eq, Ea, Eb in C. fold (fsub x y) in C. rewrite Rlt_bool_false in C by exact H. destruct C as [C _]. eexists. apply L_Ieee20.overflow_inf. exact C.
Qed.
Lemma close_same b b' x x' : rep b x -> rep b' x' -> bisclose b' b = if Rle_dec (Rabs (fsub x' x)) ftol then true else false.
Proof.
  intros R R'. unfold bisclose. rewrite (proj1 R), (proj1 R'). cbn [andb]. destruct (Rlt_le_dec (Rabs (fsub x' x)) big) as [H|H].
  - apply le_same; [|exact btol_rep]. apply abs_rep, sub_rep; assumption.
  - destruct (sub_overflow _ _ _ _ R' R H) as (s & ->). pose proof (rep_big _ _ btol_rep) as T. destruct btol_win as [_ P]. assert (0 < ftol) by (eapply Rlt_le_trans; [apply bpow_gt_0|apply P]). rewrite Rabs_pos_eq in T by lra.
    destruct (Rle_dec (Rabs (fsub x' x)) ftol); [lra|]. destruct btol_rep as [F _]. destruct btol as [z|z| |z m e W]; try discriminate; destruct s; reflexivity.
Qed.
Section Generic.
  Variables (bc bp : b64 -> b64) (c p : R -> R) (within : b64 -> Prop).
  Hypothesis stays : forall b bq, within (bnext bc bp b bq) -> within b.
  Hypothesis weak : forall b x bq q, within b -> rep b x -> rep bq q -> Rabs q <= 2 -> rep (bsub (bc b) bq) (fsub (c x) q) /\ rep (bp b) (p x).
  Hypothesis fin : forall b, within b -> is_finite b = true.
  Lemma scalar_within n : forall b bq r, bnewton_scalar n (fun E => bsub (bc E) bq) bp b = Ok r -> within r -> within b.
  Proof using stays.
    induction n as [|n IH]; intros b bq r H W; [discriminate|]. cbn [bnewton_scalar] in H. destruct (bzero (bsub (bc b) bq)); [injection H as <-; exact W|]. destruct (bzero (bp b)) eqn:Z; [discriminate|].
    apply (stays b bq). unfold bnext, bnewton_step. rewrite Z. cbn [negb]. destruct (bisclose _ _); [injection H as <-; exact W|exact (IH _ _ _ H W)].
  Qed.
  Lemma scalar_back n : forall b x bq q r, rep b x -> rep bq q -> Rabs q <= 2 -> bnewton_scalar n (fun E => bsub (bc E) bq) bp b = Ok r -> within r ->
    exists y, fnewton_scalar n (fun E => fsub (c E) q) p x = Ok y /\ rep r y.
  Proof using All.
    induction n as [|n IH]; intros b x bq q r Rb Rq Bq H W; [discriminate|]. pose proof (scalar_within _ _ _ _ H W) as Wb. destruct (weak _ _ _ _ Wb Rb Rq Bq) as [V S]. cbn [bnewton_scalar fnewton_scalar] in *.
    pose proof (zero_same _ _ V) as Z1. pose proof (zero_same _ _ S) as Z2. unfold is_zero in Z1, Z2. destruct (Req_EM_T (fsub (c x) q) 0) as [E1|E1]; rewrite Z1 in H; [injection H as <-; eauto|]. destruct (Req_EM_T (p x) 0) as [E2|E2]; rewrite Z2 in H; [discriminate|].
    assert (Wn : within (bsub b (bquo (bsub (bc b) bq) (bp b)))) by (destruct (bisclose _ _); [injection H as <-; exact W|exact (scalar_within _ _ _ _ H W)]).
    destruct (full bc bp c p within weak fin b x bq q Wb) as (_ & _ & _ & K); [unfold bnext, bnewton_step; rewrite Z2; exact Wn|exact Rb|exact Rq|exact Bq|]. destruct (K E2) as [_ R'].
    rewrite (close_same _ _ _ _ Rb R') in H. destruct (Rle_dec _ ftol); [injection H as <-; eauto|]. exact (IH _ _ _ _ _ R' Rq Bq H W).
  Qed.
End Generic.

(** ** The mixture of infinities *)
Lemma mul_inf (a : b64) s : is_finite a = true -> (0 < B2R a -> bmul a (B754_infinity s) = B754_infinity s) /\ (B2R a < 0 -> bmul a (B754_infinity s) = B754_infinity (negb s)) /\ (B2R a = 0 -> bmul a (B754_infinity s) = B754_nan).
Proof.
  destruct a as [z|z| |z m e W]; try discriminate; intros _.
  - cbn [B2R]. repeat split; intros; try lra.
  - assert (P : if z then B2R (B754_finite z m e W : b64) < 0 else 0 < B2R (B754_finite z m e W : b64)) by (destruct z; [apply F2R_lt_0; reflexivity|apply F2R_gt_0; reflexivity]).
    destruct z; repeat split; intros; try lra; destruct s; reflexivity.
Qed.
Lemma mix_inf e x s : bnd e x 430 -> (0 < x < 1 -> bmix e (B754_infinity s) (B754_infinity s) = B754_infinity s) /\ (~ 0 < x < 1 -> bmix e (B754_infinity s) (B754_infinity s) = B754_nan).
Proof.
  intros Be. pose proof (win_Z 1 ltac:(lia)) as W1. cbn [Z.log2 Z.add] in W1. pose proof (bnd_rep _ _ _ (bnd_sub _ _ _ _ _ _ (win_bnd _ _ _ _ W1) Be ltac:(lia))) as Rd. destruct Be as [Re _]. pose proof (rep_double _ _ Re) as De.
  destruct (mul_inf (bsub (of_Z 1) e) s (proj1 Rd)) as (D1 & D2 & D3). destruct (mul_inf e s (proj1 Re)) as (E1 & E2 & E3). rewrite (proj2 Rd) in D1, D2, D3. rewrite (proj2 Re) in E1, E2, E3. unfold bmix.
  destruct (L_Float33.sign_sub 1 x double_1 De) as (S1 & _ & S2). split.
  - intros H. rewrite D1, E1 by (try apply S2; lra). destruct s; reflexivity.
  - intros H. destruct (Rtotal_order x 0) as [X|[X|X]].
    + rewrite E2 by exact X. rewrite D1 by (apply S2; lra). destruct s; reflexivity.
    + rewrite E3 by exact X. apply add_nan.
    + destruct (Rtotal_order x 1) as [Y|[Y|Y]]; [lra| |].
      * rewrite D3; [apply nan_add|]. rewrite Y. unfold fsub. rewrite Rminus_eq_0. apply rnd_0.
      * rewrite E1 by exact X. rewrite D2 by (apply S1; exact Y). destruct s; reflexivity.
Qed.

Lemma warned n bc bp m fb qs ws r : bppf_array n bc bp m fb qs = (ws, r) -> In BInversionFailed ws -> ws = [BInversionFailed] /\ r = Ok (Some (map fb qs)).
Proof. unfold bppf_array. destruct (bnewton_array _ _ _ _) as [[y conv]| |e]; [| |destruct e]; intros H N; inversion H; subst; try contradiction N; auto. Qed.

Section Line.
  Variables (L : bpvlib) (V : pvlib) (b : bpv) (p' p : pv).
  Hypotheses (KV : pvlib_ok V) (SV : same_library L V) (C : close p' p) (A : pv_agree b p').
  Lemma bpv_scalar_eq q : bpv_ppf_scalar L b q = bppf_scalar maxiter (bpv_cdf L b) (bpv_pdf (bv_b L) b) (bp_energy b) (bpv_fallback L b) q.
  Proof using. unfold bpv_ppf_scalar. reflexivity. Qed.
  Lemma fpv_scalar_eq q : fpv_ppf_scalar V p' q = fppf_scalar maxiter (fun x => number (fpv_cdf V p' x)) (fun x => number (fpv_pdf V p' x)) (pv_energy p') (fun q => fpv_fallback V p' [q]) q.
  Proof using. unfold fpv_ppf_scalar. reflexivity. Qed.
  Lemma bppf_scalar_of n bc bp m fb q x : bppf_scalar n bc bp m fb q = ([], Ok (Some [x])) -> bnewton_scalar n (fun E => bsub (bc E) q) bp m = Ok x.
  Proof using. unfold bppf_scalar. destruct (bnewton_scalar _ _ _ _) as [y| |e]; [|discriminate|destruct e; discriminate]. intros H. now inversion H. Qed.
  Lemma fppf_scalar_of n c d m fb q x : fnewton_scalar n (fun E => fsub (c E) q) d m = Ok x -> fppf_scalar n c d m fb q = ([], Ok (Some [Finite x])).
  Proof using. intros H. unfold fppf_scalar. now rewrite H. Qed.
  Lemma single_back bq q x : rep bq q -> Rabs q <= 2 -> bpv_ppf_scalar L b bq = ([], Ok (Some [x])) -> moderate x ->
    exists y, fpv_ppf_scalar V p' q = ([], Ok (Some [Finite y])) /\ rep x y.
  Proof using All.
    intros Rq Bq H [F M]. rewrite bpv_scalar_eq in H. apply bppf_scalar_of in H.
    destruct (scalar_back _ _ _ _ _ (stays L V b p' p KV SV C A) (weak L V b p' p KV SV C A) (within_finite b p' A) _ _ _ _ _ _ (energy_rep b p' A) Rq Bq H (moderate_within b p' A x F M)) as (y & E & R).
    exists y. split; [|exact R]. rewrite fpv_scalar_eq. now apply fppf_scalar_of.
  Qed.
  Definition picked (modern : bool) (y : list bwarning * out (option (list b64))) : list bwarning * out (option (list b64)) :=
    match y with ([], Ok (Some l)) => ([], if modern then Ok (Some l) else Raise TypeError) | (w, r) => (w, r) end.
  Lemma ppf_one modern q : bpv_ppf modern L b [q] = picked modern (bpv_ppf_scalar L b q).
  Proof using. unfold bpv_ppf. generalize (bpv_ppf_scalar L b q). intros [[|w ws] [[l|]| |]]; reflexivity. Qed.
  Lemma fppf_one modern q : fpv_ppf modern V p' [q] = match fpv_ppf_scalar V p' q with ([], Ok (Some l)) => ([], if modern then Ok (Some l) else Raise TypeError) | r => r end.
  Proof using. unfold fpv_ppf. reflexivity. Qed.
  (** A grid with one point. *)
  Lemma blin_one x y : blinspace x y 1 = Ok [x]. Proof using. reflexivity. Qed.
  Lemma flin_one x y : flinspace x y 1 = Ok [x]. Proof using. reflexivity. Qed.
  Lemma grid_one modern bc : bpv_probability_grid modern L b (BCoverage bc) 1 = bpv_ppf modern L b [fst (bcoverage_limits bc)].
  Proof using. unfold bpv_probability_grid. rewrite blin_one. destruct (bpv_ppf modern L b _). reflexivity. Qed.
  Lemma fgrid_one modern c : fpv_probability_grid modern V p' (Coverage c) 1 = fpv_ppf modern V p' [fmul (1 / 2) (fsub 1 c)].
  Proof using. unfold fpv_probability_grid. cbn [bind]. rewrite flin_one. destruct (fpv_ppf modern V p' _). reflexivity. Qed.
  Lemma scalar_cases n bc bp m fb q : (exists x, bppf_scalar n bc bp m fb q = ([], Ok (Some [x]))) \/ (exists l, bppf_scalar n bc bp m fb q = ([BInversionFailed], l)) \/ exists r, bppf_scalar n bc bp m fb q = ([], r) /\ forall l, r <> Ok l.
  Proof using. unfold bppf_scalar. destruct (bnewton_scalar _ _ _ _) as [y| |e]; [eauto|right; right; eexists; split; [reflexivity|discriminate]|destruct e; eauto; right; right; eexists; (split; [reflexivity|discriminate])]. Qed.
  Lemma pick (modern : bool) (y : list bwarning * out (option (list b64))) ws g : picked modern y = (ws, Ok (Some g)) -> ~ In BInversionFailed ws ->
    ((exists x, y = ([], Ok (Some [x]))) \/ (exists l, y = ([BInversionFailed], l)) \/ exists r, y = ([], r) /\ forall l, r <> Ok l) -> modern = true /\ ws = [] /\ y = ([], Ok (Some g)) /\ exists x, g = [x].
  Proof using.
    intros H N [(x & ->)|[(l & ->)|(r & -> & Nr)]].
    - destruct modern; [|discriminate H]. injection H as <- <-. eauto.
    - exfalso. apply N. injection H as <- _. now left.
    - exfalso. destruct r as [l| |e]; [now apply (Nr l)|discriminate H|discriminate H].
  Qed.
  Lemma single_ppf modern bq q ws g : rep bq q -> Rabs q <= 2 -> bpv_ppf modern L b [bq] = (ws, Ok (Some g)) -> ~ In BInversionFailed ws -> List.Forall moderate g ->
    modern = true /\ ws = [] /\ exists x y, g = [x] /\ fpv_ppf modern V p' [q] = ([], Ok (Some [Finite y])) /\ rep x y.
  Proof using All.
    intros Rq Bq H N M. rewrite ppf_one in H. pose proof (scalar_cases maxiter (bpv_cdf L b) (bpv_pdf (bv_b L) b) (bp_energy b) (bpv_fallback L b) bq) as S. rewrite <- bpv_scalar_eq in S.
    destruct (pick _ _ _ _ H N S) as (-> & -> & E & (x & ->)). inversion M; subst. destruct (single_back _ _ x Rq Bq E) as (y & F & R); [assumption|]. split; [reflexivity|]. split; [reflexivity|]. exists x, y. split; [reflexivity|]. rewrite fppf_one, F. auto.
  Qed.
  Lemma single_grid modern bc c ws g : rep bc c -> 0 <= c <= 1 -> bpv_probability_grid modern L b (BCoverage bc) 1 = (ws, Ok (Some g)) -> ~ In BInversionFailed ws -> List.Forall moderate g ->
    modern = true /\ ws = [] /\ exists x y, g = [x] /\ fpv_probability_grid modern V p' (Coverage c) 1 = ([], Ok (Some [Finite y])) /\ rep x y.
  Proof using All.
    intros Rc Hc. assert (Bc : Rabs c <= 2 ^ 900) by (assert (2 ^ 0 <= 2 ^ 900) by (apply Rle_pow; [lra|lia]); apply Rabs_le; lra). destruct (coverage_rep bc c Rc Bc) as (R1 & R2 & B1 & B2). destruct (limits_small c ltac:(apply Rabs_le; lra)) as [L1 L2].
    rewrite grid_one, fgrid_one. now apply single_ppf.
  Qed.

  (** *** The approximation *)
  Lemma line_N : same_line (bp_energy b) (bquo (bp_gamma_G b) (bsqrt (of_Z 2))) (pv_energy p') (fquo (pv_gamma_G p') (fsqrt 2)).
  Proof using A.
    pose proof (pa_energy _ _ A) as We. pose proof (pa_gamma_G _ _ A) as Ws. split; [exact (win_rep _ _ _ _ We)|]. split; [exact (win_rep _ _ _ _ Ws)|]. split.
    - eapply Rle_trans; [apply (proj2 (win_bnd _ _ _ _ We))|]. rewrite pow_bp. apply bpow_le. cbn; lia.
    - apply Rle_trans with (bpow radix2 (-83)); [|apply Ws]. rewrite pow_bp, <- bpow_opp. apply bpow_le. cbn; lia.
  Qed.
  Lemma line_C : same_line (bp_energy b) (bmul (literal 1 2) (bp_gamma_L b)) (pv_energy p') (fmul (1 / 2) (pv_gamma_L p')).
  Proof using A.
    pose proof (pa_energy _ _ A) as We. pose proof (pa_gamma_L _ _ A) as Ws. split; [exact (win_rep _ _ _ _ We)|]. split; [exact (win_rep _ _ _ _ Ws)|]. split.
    - eapply Rle_trans; [apply (proj2 (win_bnd _ _ _ _ We))|]. rewrite pow_bp. apply bpow_le. cbn; lia.
    - apply Rle_trans with (bpow radix2 (-83)); [|apply Ws]. rewrite pow_bp, <- bpow_opp. apply bpow_le. cbn; lia.
  Qed.
  Lemma ppf_end d bl bs l s bq (z : bool) : same_line bl bs l s -> rep bq (if z then 0 else 1) -> bppf d bl bs bq = B754_infinity z.
  Proof using.
    intros SL Rq. pose proof (line_scale _ _ _ _ SL) as P. pose proof SL as (Rl & Rs & _). unfold bppf. rewrite (rep_lt _ _ _ _ zero_rep Rs), Rlt_bool_true by exact P. rewrite (rep_nan _ _ Rl).
    rewrite (eq_rep _ _ _ _ Rq zero_rep), (eq_rep _ _ _ _ Rq one_rep). destruct z.
    - rewrite Req_bool_true by reflexivity. exact (inf_scaled true _ _ _ _ SL).
    - rewrite Req_bool_false by lra. rewrite Req_bool_true by reflexivity. exact (inf_scaled false _ _ _ _ SL).
  Qed.
  Lemma fallback_end bq (z : bool) : rep bq (if z then 0 else 1) ->
    (0 < B2R (bp_eta b) < 1 -> bpv_fallback L b bq = B754_infinity z) /\ (~ 0 < B2R (bp_eta b) < 1 -> bpv_fallback L b bq = B754_nan).
  Proof using A.
    intros Rq. unfold bpv_fallback. rewrite (ppf_end _ _ _ _ _ bq z line_N Rq), (ppf_end _ _ _ _ _ bq z line_C Rq). pose proof (pa_eta _ _ A) as Be. rewrite (proj2 (proj1 Be)). exact (mix_inf _ _ z Be).
  Qed.
  Lemma full_interval modern bc ws lo hi : rep bc 1 -> bpv_coverage_interval modern L b bc = (ws, Ok (lo, hi)) -> In BInversionFailed ws ->
    (0 < B2R (bp_eta b) < 1 -> lo = B754_infinity true /\ hi = B754_infinity false /\ exists v, ws = [BInversionFailed; BNegativeLowerLimit v; BInfiniteUpperLimit] /\ finite v) /\
    (~ 0 < B2R (bp_eta b) < 1 -> lo = B754_nan /\ hi = B754_nan /\ ws = [BInversionFailed]).
  Proof using All.
    intros Rc H I. assert (P900 : 2 ^ 0 <= 2 ^ 900) by (apply Rle_pow; [lra|lia]). destruct (coverage_rep bc 1 Rc) as (R1 & R2 & _); [rewrite Rabs_R1; lra|].
    assert (Q1 : fmul (1 / 2) (fsub 1 1) = 0). { unfold fsub. rewrite Rminus_eq_0, rnd_0. unfold fmul. rewrite Rmult_0_r. apply rnd_0. }
    assert (Q2 : fmul (1 / 2) (fadd 1 1) = 1). { unfold fadd. replace (1 + 1) with 2 by ring. rewrite (rnd_id 2) by (apply (double_IZR 2); simpl; lia). unfold fmul. replace (1 / 2 * 2) with 1 by field. apply rnd_id, double_1. }
    rewrite Q1 in R1. rewrite Q2 in R2. rewrite interval_eq in H. remember (bpv_ppf_array L b [fst (bcoverage_limits bc); snd (bcoverage_limits bc)]) as y eqn:E. symmetry in E. destruct y as [w r]. rewrite bpv_ppf_array_eq in E.
    assert (Iw : In BInversionFailed w).
    { unfold frame in H. destruct r as [[l|]| |]; try discriminate H. destruct l as [|x1 [|x2 r]]; try discriminate H. destruct (Bltb x1 (of_Z 0)); inversion H; subst; apply in_app_or in I; destruct I as [I|I]; auto; exfalso; destruct (bis_inf _); cbn [In] in I; intuition discriminate. }
    destruct (warned _ _ _ _ _ _ _ _ E Iw) as [-> ->]. cbn [map] in H. destruct (fallback_end _ true R1) as [A1 A2]. destruct (fallback_end _ false R2) as [B1 B2]. split; intros G.
    - rewrite (A1 G), (B1 G) in H. cbn [frame bis_inf app] in H. change (Bltb (B754_infinity true) (of_Z 0)) with true in H. cbv iota in H. inversion H; subst. split; [reflexivity|]. split; [reflexivity|]. eexists. split; [reflexivity|].
      destruct (cdf_same L V b p' p KV SV C A (of_Z 0) 0) as (v & Ev & Bv); [apply (Z_rep 0); lia|rewrite Rabs_R0; apply pow_le; lra|]. pose proof (win_Z 1 ltac:(lia)) as W1. pose proof (win_Z 100 ltac:(lia)) as W2.
      exact (proj1 (bnd_rep _ _ _ (bnd_mul _ _ _ _ _ _ (win_bnd _ _ _ _ W2) (bnd_sub _ _ _ _ _ _ (win_bnd _ _ _ _ W1) Bv ltac:(cbn; lia)) ltac:(cbn; lia)))).
    - rewrite (A2 G), (B2 G) in H. cbn [frame bis_inf app] in H. change (Bltb B754_nan (of_Z 0)) with false in H. cbv iota in H. inversion H; subst. auto.
  Qed.
  Lemma fallback_back bq q : rep bq q -> 0 <= q <= 1 -> finite (bpv_fallback L b bq) -> exists x, fpv_fallback V p' [q] = Ok (Some [Finite x]) /\ rep (bpv_fallback L b bq) x.
  Proof using All.
    intros Rq Hq F. unfold bpv_fallback, bmix in *. destruct SV as (_ & SN & SC). destruct (add_finite _ _ F) as (F1 & F2 & E0). destruct (mul_finite _ _ F1) as (F3 & F4 & E1). destruct (mul_finite _ _ F2) as (F5 & F6 & E2).
    assert (K : forall B d bl bs l s, same_dist B d -> same_line bl bs l s -> is_finite (bppf B bl bs bq) = true -> exists v, fppf d l s q = Ok (Finite v) /\ rep (bppf B bl bs bq) v).
    { intros B d bl bs l s SD SL Fi. assert (T : exists x, fppf d l s q = Ok x). { unfold fppf. pose proof (line_scale _ _ _ _ SL). destruct (Rlt_dec 0 s); [|lra]. destruct (Rlt_dec q 0); [lra|]. destruct (Rlt_dec 1 q); [lra|]. destruct (Req_EM_T q 0); eauto. destruct (Req_EM_T q 1); eauto. }
      destruct T as (x & T). pose proof (ppf_same _ _ _ _ _ _ _ _ _ SD SL Rq T) as SP. destruct x as [v| |]; cbn [same_point] in SP; [|rewrite SP in Fi; discriminate|rewrite SP in Fi; discriminate]. exists v. split; [exact T|]. destruct SP as [SP|(z & SP & _)]; [exact SP|]. rewrite SP in Fi. discriminate. }
    destruct (K _ _ _ _ _ _ SN line_N F4) as (v & T1 & R1). destruct (K _ _ _ _ _ _ SC line_C F6) as (w & T2 & R2).
    pose proof (win_Z 1 ltac:(lia)) as W1. cbn [Z.log2 Z.add] in W1. pose proof (bnd_rep _ _ _ (bnd_sub _ _ _ _ _ _ (win_bnd _ _ _ _ W1) (pa_eta _ _ A) ltac:(lia))) as Rd. pose proof (proj2 (proj1 (pa_eta _ _ A))) as Re.
    eexists. unfold fpv_fallback, traverse. cbn [map sequence]. rewrite T1. cbn [bind]. rewrite T2. cbn [bind fscale_inf fadd_inf omap]. split; [reflexivity|]. split; [exact F|]. rewrite E0, E1, E2, (proj2 R1), (proj2 R2), (proj2 Rd), Re. reflexivity.
  Qed.
End Line.
