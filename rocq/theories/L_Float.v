(** Rounding: basic facts. *)
From Coq Require Import Reals List ZArith Lra Lia Psatz Permutation.
From Flocq Require Import Core Plus_error Relative.
From Verif Require Import Py Spec M_Num M_Grid M_CrossSection M_Constituents M_Darboux M_Float.
Import ListNotations.
Open Scope R_scope.

Global Instance prec53 : Prec_gt_0 53. Proof. reflexivity. Qed.
Global Instance valid64 : Valid_exp fexp64. Proof. apply FLT_exp_valid. reflexivity. Qed.

(** Unit roundoff and half of the smallest positive number. *)
Definition u : R := / 2 ^ 53.
Definition eta : R := / 2 * bpow radix2 (-1074).
Lemma u_bpow : u = / 2 * bpow radix2 (-53 + 1).
Proof. unfold u. change (bpow radix2 (-53 + 1)) with (/ IZR (Z.pow_pos 2 52)). replace (IZR (Z.pow_pos 2 52)) with (2 ^ 52); [simpl; field|]. rewrite pow_IZR. reflexivity. Qed.
Lemma u_ro_u : u_ro radix2 53 = u.
Proof. unfold u_ro. now rewrite u_bpow. Qed.
Lemma u_pos : 0 < u.
Proof. unfold u. apply Rinv_0_lt_compat, pow_lt. lra. Qed.
Lemma u_small : u <= / 2 ^ 10.
Proof. unfold u. apply Rinv_le_contravar; [apply pow_lt; lra|]. apply Rle_pow; [lra|lia]. Qed.
Lemma eta_pos : 0 < eta.
Proof. unfold eta. pose proof (bpow_gt_0 radix2 (-1074)). lra. Qed.

Lemma rnd_le x y : x <= y -> rnd x <= rnd y.
Proof. apply round_le; [apply valid64|apply valid_rnd_N]. Qed.
Lemma rnd_id x : double x -> rnd x = x.
Proof. apply round_generic. apply valid_rnd_N. Qed.
Lemma rnd_double x : double (rnd x).
Proof. apply generic_format_round; [apply valid64|apply valid_rnd_N]. Qed.
Lemma rnd_opp x : rnd (- x) = - rnd x.
Proof. apply round_NE_opp. Qed.
Lemma double_0 : double 0.
Proof. apply generic_format_0. Qed.
Lemma rnd_0 : rnd 0 = 0.
Proof. apply rnd_id, double_0. Qed.
Lemma double_opp x : double x -> double (- x).
Proof. apply generic_format_opp. Qed.
Lemma rnd_nonneg x : 0 <= x -> 0 <= rnd x.
Proof. intros H. rewrite <- rnd_0. now apply rnd_le. Qed.
Lemma rnd_ge x y : double x -> x <= y -> x <= rnd y.
Proof. intros D H. rewrite <- (rnd_id x D). now apply rnd_le. Qed.
Lemma rnd_le_d x y : double y -> x <= y -> rnd x <= y.
Proof. intros D H. rewrite <- (rnd_id y D). now apply rnd_le. Qed.

(** Integers up to 2^53 are doubles. *)
Lemma double_IZR z : (Z.abs z <= 2 ^ 53)%Z -> double (IZR z).
Proof.
  intros H. destruct (Z.eq_dec (Z.abs z) (2 ^ 53)) as [E|N].
  - assert (P : double (bpow radix2 53)) by (apply generic_format_bpow; cbv; discriminate).
    replace (bpow radix2 53) with (IZR (2 ^ 53)) in P by reflexivity.
    destruct (Z.abs_eq_or_opp z) as [Q|Q]; rewrite Q in E.
    + now rewrite E.
    + replace z with (- 2 ^ 53)%Z by lia. rewrite opp_IZR. now apply double_opp.
  - unfold double, fexp64. apply generic_format_FLT. exists (Float radix2 z 0).
    + unfold F2R; cbn [Fnum Fexp]. change (bpow radix2 0) with 1. ring.
    + cbn [Fnum]. change (radix_val radix2 ^ 53)%Z with (2 ^ 53)%Z. lia.
    + cbn [Fexp]. lia.
Qed.
Lemma double_1 : double 1.
Proof. apply (double_IZR 1). cbv. discriminate. Qed.
Lemma double_bpow e : (-1074 <= e)%Z -> double (bpow radix2 e).
Proof. intros H. unfold double, fexp64. apply generic_format_FLT_bpow; [reflexivity|exact H]. Qed.

(** ** Errors *)
Lemma u_red : u / (1 + u) <= u.
Proof.
  pose proof u_pos. apply (Rmult_le_reg_r (1 + u)); [lra|]. unfold Rdiv. rewrite Rmult_assoc, Rinv_l by lra. nra.
Qed.
Lemma fadd_error x y : double x -> double y -> exists e, Rabs e <= u /\ fadd x y = (x + y) * (1 + e).
Proof.
  intros Dx Dy. destruct (FLT_plus_error_N_ex radix2 (-1074) 53 (fun z => negb (Z.even z)) x y Dx Dy) as (e & He & E).
  exists e. split; [|exact E]. rewrite u_ro_u in He. pose proof u_red. lra.
Qed.
Lemma fsub_error x y : double x -> double y -> exists e, Rabs e <= u /\ fsub x y = (x - y) * (1 + e).
Proof. intros Dx Dy. apply (fadd_error x (- y) Dx (double_opp _ Dy)). Qed.
Lemma rnd_error x : exists e h, Rabs e <= u /\ Rabs h <= eta /\ rnd x = x * (1 + e) + h.
Proof.
  destruct (error_N_FLT radix2 (-1074) 53 eq_refl (fun z => negb (Z.even z)) x) as (e & h & He & Hh & _ & E).
  exists e, h. rewrite u_bpow. auto.
Qed.
(** Without underflow. *)
Lemma rnd_error_normal x : bpow radix2 (-1022) <= Rabs x -> exists e, Rabs e <= u /\ rnd x = x * (1 + e).
Proof.
  intros H. destruct (relative_error_N_FLT_ex radix2 (-1074) 53 eq_refl (fun z => negb (Z.even z)) x) as (e & He & E); [exact H|].
  exists e. rewrite u_bpow. auto.
Qed.
Lemma rnd_abs_le x : Rabs (rnd x) <= Rabs x * (1 + u) + eta.
Proof.
  destruct (rnd_error x) as (e & h & He & Hh & ->). eapply Rle_trans; [apply Rabs_triang|]. rewrite Rabs_mult.
  apply Rplus_le_compat; [|exact Hh]. apply Rmult_le_compat_l; [apply Rabs_pos|]. eapply Rle_trans; [apply Rabs_triang|]. rewrite Rabs_R1. lra.
Qed.

(** Exact values of roundings: [m * 2^e] is the nearest double if the distance is less than half a unit. *)
Lemma rnd_val x m e : (-1074 <= e)%Z -> (2 ^ 52 <= m)%Z -> (m < 2 ^ 53)%Z ->
  IZR (2 ^ 52) * bpow radix2 e <= x -> (IZR m - / 2) * bpow radix2 e < x -> x < (IZR m + / 2) * bpow radix2 e -> rnd x = IZR m * bpow radix2 e.
Proof.
  intros He H1 H2 H0 Hl Hh. pose proof (bpow_gt_0 radix2 e) as Pe.
  assert (Px : 0 < x). { eapply Rlt_le_trans; [|exact H0]. apply Rmult_lt_0_compat; [apply IZR_lt; reflexivity|exact Pe]. }
  assert (M : mag radix2 x = (e + 53)%Z :> Z).
  { apply mag_unique. rewrite Rabs_pos_eq by lra. replace (e + 53 - 1)%Z with (52 + e)%Z by lia. rewrite (Z.add_comm e 53), !bpow_plus.
    change (bpow radix2 52) with (IZR (2 ^ 52)). change (bpow radix2 53) with (IZR (2 ^ 53)). split; [exact H0|].
    eapply Rlt_le_trans; [exact Hh|]. apply Rmult_le_compat_r; [lra|]. assert (IZR (m + 1) <= IZR (2 ^ 53)) by (apply IZR_le; lia).
      rewrite plus_IZR in H. lra. }
  unfold rnd, round, scaled_mantissa, cexp. rewrite M. replace (fexp64 (e + 53)) with e by (unfold fexp64, FLT_exp; lia).
  rewrite (Znearest_imp _ _ m); [reflexivity|]. rewrite bpow_opp.
  replace (x * / bpow radix2 e - IZR m) with ((x - IZR m * bpow radix2 e) * / bpow radix2 e) by (field; lra).
  rewrite Rabs_mult, (Rabs_pos_eq (/ _)) by (left; now apply Rinv_0_lt_compat).
  apply (Rmult_lt_reg_r (bpow radix2 e)); [exact Pe|]. rewrite Rmult_assoc, Rinv_l by lra. rewrite Rmult_1_r. apply Rabs_def1; lra.
Qed.
