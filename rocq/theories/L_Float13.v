(** Rounding in differential Klein-Nishina cross sections. *)
From Coq Require Import Reals List ZArith Lra Lia Psatz.
From Flocq Require Import Core.
From Verif Require Import Py Spec M_Num M_KleinNishina M_Float S_Float M_Float2 M_Float5 S_Float5
  L_Float L_Float2 L_Float3 L_Float7 L_Float9 L_Float10 L_Float11.
Import ListNotations.
Open Scope R_scope.

(** ** r + 1 / r is not less than 2 *)
Lemma quo_ge r : double r -> 0 < r <= 1 -> 2 <= r + fquo 1 r.
Proof.
  intros D [P L]. destruct (Rle_dec r (/ 2)) as [S|S].
  - assert (2 <= fquo 1 r); [|lra]. apply rnd_ge; [apply double_2|]. unfold Rdiv. rewrite Rmult_1_l, <- (Rinv_inv 2). apply Rinv_le_contravar; lra.
  - apply Rnot_le_lt in S. destruct (Req_dec r 1) as [->|N]; [unfold fquo; replace (1 / 1) with 1 by field; rewrite rnd_id by apply double_1; lra|].
    set (p := / 9007199254740992). assert (J : exists j, (4503599627370496 <= j < 9007199254740992)%Z /\ r = IZR j * p).
    { unfold double in D. assert (M : mag radix2 r = 0%Z :> Z) by (apply mag_unique; rewrite Rabs_pos_eq by lra; simpl; lra).
      unfold generic_format, scaled_mantissa, cexp in D. rewrite M in D. change (fexp64 0) with (-53)%Z in D.
      set (j := Ztrunc (r * bpow radix2 (- -53))) in D. unfold F2R in D; cbn [Fnum Fexp] in D. change (bpow radix2 (-53)) with p in D. exists j. split; [|exact D].
      split; [apply le_IZR|apply lt_IZR]; unfold p in D; lra. }
    destruct J as (j & Hj & ->). assert (G : 2 - IZR j * p < 1 / (IZR j * p)).
    { apply (Rmult_lt_reg_r (IZR j * p)); [exact P|]. unfold Rdiv. rewrite Rmult_1_l, Rinv_l by lra. assert (0 < (1 - IZR j * p) * (1 - IZR j * p)) by nra. lra. }
    set (x := 1 / (IZR j * p)) in *. destruct (Z.Even_or_Odd j) as [(i & ->)|(i & ->)].
    + assert (DD : double (2 - IZR (2 * i) * p)). { replace (2 - IZR (2 * i) * p) with (IZR (9007199254740992 - i) * / 4503599627370496) by (unfold p; rewrite minus_IZR, mult_IZR; field).
        apply (double_scaled _ (-52)); [reflexivity|lia|lia]. }
      assert (2 - IZR (2 * i) * p <= fquo 1 (IZR (2 * i) * p)) by (apply rnd_ge; [exact DD|fold x; lra]). lra.
    + set (g := (9007199254740992 - i)%Z). 
      assert (Eg : 2 - IZR (2 * i + 1) * p = (IZR g - / 2) * / 4503599627370496) by (unfold g, p; rewrite minus_IZR, plus_IZR, mult_IZR; field).
      assert (DD : double (IZR g * / 4503599627370496)) by (apply (double_scaled _ (-52)); [reflexivity|unfold g; lia|unfold g; lia]).
      assert (K : IZR g * / 4503599627370496 <= fquo 1 (IZR (2 * i + 1) * p)); [|lra].
      destruct (Rle_dec (IZR g * / 4503599627370496) x) as [B|B]; [apply rnd_ge; [exact DD|exact B]|]. apply Rnot_le_lt in B.
      unfold fquo. fold x. rewrite (rnd_lit _ g (-52) (/ 4503599627370496)); [lra|lia|unfold g; lia|unfold g; lia|reflexivity| |lra|].
      * assert (4503599627370496 <= IZR g - 1) by (unfold g; rewrite minus_IZR; assert (IZR i <= 4503599627370495) by (apply IZR_le; lia); lra). lra.
      * lra.
Qed.
Lemma fadd_inv_ge r : double r -> 0 < r <= 1 -> 2 <= fadd r (fquo 1 r).
Proof. intros D H. apply rnd_ge; [apply double_2|]. now apply quo_ge. Qed.

(** ** Counts of roundings up to a fraction of the inverse of the unit *)
Lemma near_many k c : INR k * u <= / 8 -> c <= 7 / 8 * INR k -> c * u <= 1 - q ^ k.
Proof.
  intros H C. pose proof (q_exp k) as Q. pose proof u_pos as U. pose proof (pos_INR k) as K. set (y := INR k * u) in *. assert (Y : 0 <= y) by (unfold y; nra).
  assert (E : exp (- y) <= 1 - 7 / 8 * y).
  { rewrite exp_Ropp. pose proof (exp_ineq1_le y) as I. apply Rle_trans with (/ (1 + y)); [apply Rinv_le_contravar; lra|].
    apply (Rmult_le_reg_r (1 + y)); [lra|]. rewrite Rinv_l by lra. nra. }
  assert (c * u <= 7 / 8 * y) by (unfold y; nra). lra.
Qed.
Lemma half_le_qx k : INR k * u <= / 8 -> / 2 <= q ^ k.
Proof. intros H. pose proof (bernoulli k). lra. Qed.
Lemma near_rndx k v V : INR k * u <= / 8 -> tiny <= V -> near k v V -> near (S k) (rnd v) V.
Proof.
  intros Hk HV N. pose proof (near_pos _ _ _ N) as Pv. pose proof (half_le_qx k Hk).
  destruct (rnd_error_normal v) as (e & He & ->); [|now apply near_err].
  destruct N as (H1 & H2 & H3). rewrite Rabs_pos_eq by lra. apply Rle_trans with (tiny * / 2); [|nra].
  unfold tiny. change (/ 2) with (bpow radix2 (-1)). rewrite <- bpow_plus. apply bpow_le. lia.
Qed.
Lemma near_boundx k v V : INR k * u <= / 8 -> INR k * (INR k + 1) * u <= 1 -> near k v V -> Rabs (v - V) <= (INR k + 1) * u * V.
Proof.
  intros Hk H N. pose proof (near_pos _ _ _ N) as Pv. destruct N as (H1 & H2 & H3). pose proof (bernoulli k) as B. pose proof u_pos as U. pose proof (pos_INR k) as K0.
  set (n := INR k) in *. pose proof (qk_pos k) as Q.
  assert (u * (n * (n + 1) * u) <= u) by nra.
  apply Rabs_le. split; [nra|].
  assert (v * (1 - n * u) <= V) by nra. assert (1 <= (1 + (n + 1) * u) * (1 - n * u)) by nra.
  assert (v <= v * ((1 + (n + 1) * u) * (1 - n * u))) by nra. assert (0 <= 1 + (n + 1) * u) by nra. nra.
Qed.

Section KN.
Context (m : alib) (k : constants).
Hypothesis Hm : alib_ok m.
Hypothesis Hk : rng 100 (k_me k).
Let me := k_me k.
Lemma me_pos : 0 < me. Proof. exact (rng_pos _ _ Hk). Qed.

(** ** The ratio of energies *)
Definition den (E t : R) : R := fadd 1 (fmul (fquo E me) (fsub 1 (a_cos m t))).
Lemma w_range t : double t -> 0 <= fsub 1 (a_cos m t) <= 2.
Proof.
  intros D. destruct Hm as (C & _). destruct (C t D) as (_ & B & _). apply Rabs_le_inv in B.
  split; [apply rnd_nonneg; lra|apply rnd_le_d; [apply double_2|lra]].
Qed.
Lemma x_nonneg E : 0 <= E -> 0 <= fquo E me.
Proof. intros H. apply rnd_nonneg. apply Rmult_le_pos; [exact H|]. left. apply Rinv_0_lt_compat, me_pos. Qed.
Lemma den_ge E t : double t -> 0 <= E -> 1 <= den E t.
Proof.
  intros D H. apply rnd_ge; [apply double_1|]. pose proof (w_range t D). pose proof (x_nonneg E H).
  assert (0 <= fmul (fquo E me) (fsub 1 (a_cos m t))) by (apply rnd_nonneg; nra). lra.
Qed.
Lemma ratio_ok E t : double t -> 0 <= E -> fkn_Ep_over_E m k E t = Ok (fquo 1 (den E t)).
Proof.
  intros D H. pose proof (den_ge E t D H) as G. unfold fkn_Ep_over_E, np_fquo. destruct (Req_EM_T (k_me k) 0) as [Z|_]; [pose proof me_pos; unfold me in *; lra|].
  fold me. fold (den E t). destruct (Req_EM_T (den E t) 0); [lra|reflexivity].
Qed.
Lemma rnd_le_2 n x : (n <= 900)%nat -> x <= 2 ^ n -> rnd x <= 2 ^ n.
Proof. intros Hn H. apply rnd_le_d; [|exact H]. replace (2 ^ n) with (bpow radix2 (Z.of_nat n)); [apply double_bpow; lia|]. rewrite bpow_powerRZ. rewrite <- pow_powerRZ. reflexivity. Qed.
Lemma rnd_ge_2 n x : (n <= 900)%nat -> / 2 ^ n <= x -> / 2 ^ n <= rnd x.
Proof. intros Hn H. apply rnd_ge; [|exact H]. rewrite <- bpow_neg. apply double_bpow. lia. Qed.
Lemma den_le E t : double t -> 0 <= E <= 2 ^ 100 * me -> den E t <= 2 ^ 102.
Proof.
  intros D [H1 H2]. pose proof (w_range t D) as W. pose proof (x_nonneg E H1) as X. pose proof me_pos as M.
  assert (X2 : fquo E me <= 2 ^ 100). { apply rnd_le_2; [lia|]. apply (Rmult_le_reg_r me); [exact M|]. unfold Rdiv. rewrite Rmult_assoc, Rinv_l by lra. lra. }
  assert (P : 0 < 2 ^ 100) by apply pow2_pos. replace (2 ^ 102) with (4 * 2 ^ 100) by (change 102%nat with (2 + 100)%nat; rewrite pow_add; ring).
  assert (Y : fmul (fquo E me) (fsub 1 (a_cos m t)) <= 2 ^ 101). { apply rnd_le_2; [lia|]. replace (2 ^ 101) with (2 * 2 ^ 100) by (change 101%nat with (1 + 100)%nat; rewrite pow_add; ring). nra. }
  replace (4 * 2 ^ 100) with (2 ^ 102) by (change 102%nat with (2 + 100)%nat; rewrite pow_add; ring). apply rnd_le_2; [lia|].
  replace (2 ^ 102) with (2 ^ 101 + 2 ^ 101) by (change 102%nat with (1 + 101)%nat; rewrite pow_add; ring). assert (1 <= 2 ^ 101) by (apply pow_R1_Rle; lra). lra.
Qed.
Lemma ratio_range E t : double t -> 0 <= E <= 2 ^ 100 * me -> / 2 ^ 102 <= fquo 1 (den E t) <= 1.
Proof.
  intros D H. pose proof (den_ge E t D (proj1 H)) as G. pose proof (den_le E t D H) as L. unfold fquo, Rdiv. rewrite Rmult_1_l. split.
  - apply rnd_ge_2; [lia|]. apply Rinv_le_contravar; lra.
  - apply rnd_le_d; [apply double_1|]. rewrite <- Rinv_1. apply Rinv_le_contravar; lra.
Qed.
Lemma ratio_falls E E' t : double t -> 0 <= E <= E' -> fquo 1 (den E' t) <= fquo 1 (den E t).
Proof.
  intros D H. pose proof (den_ge E t D (proj1 H)) as G. pose proof (w_range t D) as W. pose proof me_pos.
  assert (L : den E t <= den E' t).
  { apply rnd_le. apply Rplus_le_compat_l. apply rnd_le. apply Rmult_le_compat_r; [lra|]. apply rnd_le. apply Rmult_le_compat_r; [left; now apply Rinv_0_lt_compat|lra]. }
  apply rnd_le. unfold Rdiv. apply Rmult_le_compat_l; [lra|]. apply Rinv_le_contravar; lra.
Qed.
Lemma edge_lowest E t : a_cos m np_pi = -1 -> double t -> 0 <= E ->
  exists e r, fkn_compton_edge m k E = Ok e /\ fkn_Ep_over_E m k E t = Ok r /\ e <= fmul r E.
Proof.
  intros C D H. exists (fmul (fquo 1 (den E np_pi)) E), (fquo 1 (den E t)). 
  split; [unfold fkn_compton_edge; rewrite ratio_ok by (assumption || apply rnd_double); reflexivity|]. split; [now apply ratio_ok|].
  apply rnd_le. apply Rmult_le_compat_r; [exact H|]. pose proof (den_ge E t D H) as G. 
  apply rnd_le. unfold Rdiv. apply Rmult_le_compat_l; [lra|]. apply Rinv_le_contravar; [lra|].
  unfold den. rewrite C. apply rnd_le. apply Rplus_le_compat_l. apply rnd_le. apply Rmult_le_compat_l; [now apply x_nonneg|]. apply rnd_le.
  destruct Hm as (HC & _). destruct (HC t D) as (_ & B & _). apply Rabs_le_inv in B. lra.
Qed.

(** ** Signs *)
Lemma square_range t : double t -> 0 <= a_square m (a_sin m t) <= 1 /\ 0 <= a_square m (a_cos m t) <= 1.
Proof.
  intros D. destruct Hm as (C & S & Q). destruct (C t D) as (D1 & B1 & _). destruct (S t D) as (D2 & B2 & _).
  split; [apply (Q _ D2 B2)|apply (Q _ D1 B1)].
Qed.
Lemma omega_nonneg c E t phi : double t -> double phi -> 0 <= E <= 2 ^ 100 * me -> 0 <= kn_scale_factor c ->
  exists v, fkn_cs_diff_dOmega m k c E t phi = Ok v /\ 0 <= v.
Proof.
  intros D D' H Hs. pose proof (ratio_range E t D H) as R0. pose proof (ipow2_pos 102) as I2. unfold fkn_cs_diff_dOmega. rewrite ratio_ok by tauto. cbn [bind].
  set (r := fquo 1 (den E t)) in *. unfold np_fquo. destruct (Req_EM_T r 0); [lra|]. cbn [bind]. eexists. split; [reflexivity|].
  assert (Dr : double r) by apply rnd_double. pose proof (fadd_inv_ge r Dr ltac:(lra)) as B. destruct (square_range t D) as [S1 _]. destruct (square_range phi D') as [_ C1].
  assert (F1 : 0 <= fmul 2 (a_square m (a_sin m t)) <= 2) by (split; [apply rnd_nonneg; lra|apply rnd_le_d; [apply double_2|lra]]).
  assert (F2 : fmul (fmul 2 (a_square m (a_sin m t))) (a_square m (a_cos m phi)) <= 2) by (apply rnd_le_d; [apply double_2|nra]).
  set (z := fmul (fmul 2 _) _) in *. assert (0 <= fsub (fadd r (fquo 1 r)) z) by (apply rnd_nonneg; lra).
  assert (A1 : 0 <= fmul (1 / 2) (kn_scale_factor c)) by (apply rnd_nonneg; lra). assert (A2 : 0 <= fmul (fmul (1 / 2) (kn_scale_factor c)) r) by (apply rnd_nonneg; nra).
  assert (A3 : 0 <= fmul (fmul (fmul (1 / 2) (kn_scale_factor c)) r) r) by (apply rnd_nonneg; nra). apply rnd_nonneg. now apply Rmult_le_pos.
Qed.

End KN.
