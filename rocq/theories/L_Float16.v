(** Angles and cross sections per energy of the scattered photon, with rounding. *)
From Coq Require Import Reals List ZArith Lra Lia Psatz.
From Flocq Require Import Core.
From Verif Require Import Py Spec M_Num M_KleinNishina M_Float S_Float M_Float2 M_Float5 S_Float5
  L_Float L_Float2 L_Float3 L_Float7 L_Float9 L_Float10 L_Float11 L_Float13 L_Float14 L_Float15.
Import ListNotations.
Open Scope R_scope.

(** ** The argument of the arc cosine *)
Lemma arg_step w a b c y Y e h : 0 < w -> 0 <= a <= 2 -> 0 <= b <= 10 -> Rabs y <= c -> c <= 2 -> Rabs (Y - y) <= (a * w + b) * u -> Rabs e <= u -> Rabs h <= u * / 1024 ->
  Rabs (Y * (1 + e) + h - y) <= ((a + / 1000) * w + (b + c + / 500)) * u.
Proof.
  intros W A B C C2 D E Hh. pose proof u_40 as U. replace (Y * (1 + e) + h - y) with ((Y - y) * (1 + e) + y * e + h) by ring.
  assert (AW : 0 <= a * w) by (apply Rmult_le_pos; lra).
  apply Rle_trans with ((a * w + b) * u * (1 + u) + c * u + u * / 1024).
  { apply abs_add; [|exact Hh]. apply abs_add; [|now apply abs_mul]. apply abs_mul; [exact D|]. apply Rabs_le_inv in E. apply Rabs_le. lra. }
  replace ((a * w + b) * u * (1 + u) + c * u + u * / 1024) with ((a * w + b + (a * w + b) * u + c + / 1024) * u) by ring. apply Rmult_le_compat_r; [lra|].
  assert (a * w * u <= 2 * w * / 1099511627776) by (apply Rmult_le_compat; try lra; apply Rmult_le_compat_r; lra). assert (b * u <= 10 * / 1099511627776) by (apply Rmult_le_compat; lra). lra.
Qed.
Lemma cos_lipschitz a b : Rabs (cos a - cos b) <= Rabs (a - b).
Proof.
  destruct (Req_dec a b) as [->|N]; [rewrite !Rminus_eq_0, Rabs_R0; lra|].
  destruct (MVT_abs cos (fun x => - sin x) b a) as (c & Ec & _); [intros; apply derivable_pt_lim_cos|].
  rewrite Ec, Rabs_Ropp. pose proof (SIN_bound c). pose proof (Rabs_pos (a - b)). assert (Rabs (sin c) <= 1) by (apply Rabs_le; lra). nra.
Qed.

Section KN.
Context (m : alib) (k : constants).
Hypothesis Hm : alib_ok m.
Hypothesis Ha : acos_ok m.
Hypothesis Hk : rng 100 (k_me k).
Let me := k_me k.
Definition theta_arg (E Ep : R) : R := fsub 1 (fquo (fmul (fsub (fquo E Ep) 1) me) E).
Lemma theta_arg_err E Ep : / 2 ^ 100 <= E / me <= 2 ^ 20 -> 0 < Ep <= E -> let a := 1 - (E / Ep - 1) * me / E in -1 <= a ->
  double (theta_arg E Ep) /\ theta_arg E Ep <= 1 /\ Rabs (theta_arg E Ep - a) <= (51 / 50 * (me / E) + 10) * u.
Proof.
  intros H HE a HA. pose proof (me_pos k Hk) as M0. fold me in M0. pose proof u_40 as U. destruct eta_lt as [E1 E2]. destruct eta_u as [_ E3].
  set (g := E / Ep). set (w := me / E). assert (E0 : 0 < E) by lra.
  assert (G1 : 1 <= g). { unfold g. apply (Rmult_le_reg_r Ep); [lra|]. unfold Rdiv. rewrite Rmult_assoc, Rinv_l by lra. lra. }
  assert (W0 : 0 < w) by (apply Rdiv_lt_0_compat; lra). set (y := (g - 1) * w). assert (Ea : a = 1 - y) by (unfold a, y, w, g; field; lra).
  assert (Y : 0 <= y <= 2). { split; [unfold y; apply Rmult_le_pos; lra|lra]. }
  assert (G : exists e, Rabs e <= u /\ fquo E Ep = g * (1 + e)). { destruct (rnd_error_normal g) as (e & He & Ee); [|now exists e]. rewrite Rabs_pos_eq by lra. apply Rle_trans with 1; [|lra]. replace 1 with (bpow radix2 0) by reflexivity. apply bpow_le. lia. }
  destruct G as (e1 & He1 & EG). assert (GG : 1 <= fquo E Ep) by (apply rnd_ge; [apply double_1|exact G1]).
  assert (Qn : 0 <= fquo (fmul (fsub (fquo E Ep) 1) me) E).
  { apply rnd_nonneg. apply Rmult_le_pos; [|left; now apply Rinv_0_lt_compat]. apply rnd_nonneg. apply Rmult_le_pos; [|lra]. apply rnd_nonneg. lra. }
  split; [apply rnd_double|]. split; [apply rnd_le_d; [apply double_1|lra]|].
  destruct (fsub_error (fquo E Ep) 1 (rnd_double _) double_1) as (e2 & He2 & ED). destruct (rnd_error (fsub (fquo E Ep) 1 * me)) as (e3 & h3 & He3 & Hh3 & EM). fold (fmul (fsub (fquo E Ep) 1) me) in EM.
  destruct (rnd_error (fmul (fsub (fquo E Ep) 1) me / E)) as (e4 & h4 & He4 & Hh4 & EQ). fold (fquo (fmul (fsub (fquo E Ep) 1) me) E) in EQ.
  destruct (fsub_error 1 (fquo (fmul (fsub (fquo E Ep) 1) me) E) double_1 (rnd_double _)) as (e5 & He5 & EX). fold (theta_arg E Ep) in EX.
  assert (HhE : Rabs (h3 / E) <= u * / 1024).
  { assert (EE : / 2 ^ 200 <= E). { replace E with (E / me * me) by (field; lra). replace (/ 2 ^ 200) with (/ 2 ^ 100 * / 2 ^ 100) by (rewrite <- Rinv_mult, <- pow_add; reflexivity). apply Rmult_le_compat; [apply Rlt_le, ipow2_pos|apply Rlt_le, ipow2_pos|apply H|apply Hk]. }
    unfold Rdiv. rewrite Rabs_mult. apply Rle_trans with (/ 2 ^ 480 * 2 ^ 200).
    - apply Rmult_le_compat; [apply Rabs_pos|apply Rabs_pos|lra|]. rewrite Rabs_inv, (Rabs_pos_eq E) by lra. rewrite <- (Rinv_inv (2 ^ 200)). apply Rinv_le_contravar; [apply ipow2_pos|exact EE].
    - replace 480%nat with (280 + 200)%nat by lia. rewrite pow_add, Rinv_mult, Rmult_assoc, Rinv_l, Rmult_1_r by (apply pow_nonzero; lra). unfold u. replace (/ 1024) with (/ 2 ^ 10) by (f_equal; ring). rewrite <- Rinv_mult, <- pow_add. apply ipow2_le. lia. }
  assert (Ay : Rabs y <= 2) by (rewrite Rabs_pos_eq; lra).
  assert (S0 : Rabs ((fquo E Ep - 1) * w - y) <= (1 * w + 2) * u).
  { rewrite EG. replace ((g * (1 + e1) - 1) * w - y) with ((y + w) * e1) by (unfold y; ring). apply abs_mul; [rewrite Rabs_pos_eq; lra|exact He1]. }
  assert (S1 := arg_step w 1 2 2 y _ e2 0 W0 ltac:(lra) ltac:(lra) Ay ltac:(lra) S0 He2 ltac:(rewrite Rabs_R0; lra)).
  replace ((fquo E Ep - 1) * w * (1 + e2) + 0 - y) with (fsub (fquo E Ep) 1 * w - y) in S1 by (rewrite ED; ring).
  assert (S2 := arg_step w (1 + / 1000) (2 + 2 + / 500) 2 y _ e3 (h3 / E) W0 ltac:(lra) ltac:(lra) Ay ltac:(lra) S1 He3 HhE).
  replace (fsub (fquo E Ep) 1 * w * (1 + e3) + h3 / E - y) with (fmul (fsub (fquo E Ep) 1) me / E - y) in S2 by (rewrite EM; unfold w; field; lra).
  assert (S3 := arg_step w (1 + / 1000 + / 1000) (2 + 2 + / 500 + 2 + / 500) 2 y _ e4 h4 W0 ltac:(lra) ltac:(lra) Ay ltac:(lra) S2 He4 ltac:(lra)). rewrite <- EQ in S3.
  set (Q := fquo (fmul (fsub (fquo E Ep) 1) me) E) in *.
  assert (S4 : Rabs (1 - Q - (1 - y)) <= ((1 + / 1000 + / 1000 + / 1000) * w + (2 + 2 + / 500 + 2 + / 500 + 2 + / 500)) * u) by (replace (1 - Q - (1 - y)) with (- (Q - y)) by ring; rewrite Rabs_Ropp; exact S3).
  assert (A1 : Rabs (1 - y) <= 1) by (apply Rabs_le; lra).
  assert (S5 := arg_step w (1 + / 1000 + / 1000 + / 1000) (2 + 2 + / 500 + 2 + / 500 + 2 + / 500) 1 (1 - y) _ e5 0 W0 ltac:(lra) ltac:(lra) A1 ltac:(lra) S4 He5 ltac:(rewrite Rabs_R0; lra)). rewrite Rplus_0_r, <- EX in S5. rewrite Ea.
  eapply Rle_trans; [exact S5|]. apply Rmult_le_compat_r; lra.
Qed.
(** The angle, unless the argument is less than -1. *)
Lemma theta_cases E Ep : / 2 ^ 100 <= E / me <= 2 ^ 20 -> 0 < Ep <= E -> let a := 1 - (E / Ep - 1) * me / E in -1 <= a ->
  fkn_theta m k E Ep = NaN /\ a < -1 + (51 / 50 * (me / E) + 10) * u \/
  exists t, fkn_theta m k E Ep = Ok t /\ double t /\ Rabs (cos t - a) <= (51 / 50 * (me / E) + 14) * u.
Proof.
  intros H HE a HA. destruct (theta_arg_err E Ep H HE HA) as (D & L & B). fold a in B. unfold fkn_theta.
  destruct (Req_EM_T Ep 0); [lra|]. destruct (Req_EM_T E 0); [lra|]. cbv zeta. fold me. fold (theta_arg E Ep).
  destruct (Rlt_dec (theta_arg E Ep) (-1)) as [C|C].
  - left. split; [reflexivity|]. apply Rabs_le_inv in B. lra.
  - right. apply Rnot_lt_le in C. destruct (Rlt_dec 1 (theta_arg E Ep)); [lra|]. destruct (Ha _ D (conj C L)) as [D2 B2]. change unit_roundoff with u in B2. eexists. split; [reflexivity|]. split; [exact D2|].
    set (X := theta_arg E Ep) in *. replace (cos (a_acos m X) - a) with ((cos (a_acos m X) - cos (acos X)) + (X - a)) by (rewrite (cos_acos X) by lra; ring).
    replace ((51 / 50 * (me / E) + 14) * u) with (4 * u + (51 / 50 * (me / E) + 10) * u) by ring. apply abs_add; [|exact B]. eapply Rle_trans; [apply cos_lipschitz|exact B2].
Qed.
End KN.
