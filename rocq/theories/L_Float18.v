(** Positive cross sections, low energies, and an angle that is not a number, with rounding. *)
From Coq Require Import Reals List ZArith Lra Lia Psatz.
From Flocq Require Import Core.
From Verif Require Import Py Spec M_Num M_KleinNishina M_Float S_Float M_Float2 M_Float5 S_Float5
  L_Float L_Float2 L_Float3 L_Float7 L_Float9 L_Float10 L_Float11 L_Float12 L_Float13 L_Float14 L_Float15 L_Float16 L_Float17.
Import ListNotations.
Open Scope R_scope.

Lemma rnd_quo A B m e p : 0 < B -> (-1074 <= e)%Z -> (2 ^ 52 <= m)%Z -> (m < 2 ^ 53)%Z -> bpow radix2 e = p ->
  4503599627370496 * p * B <= A -> (IZR m - / 2) * p * B < A -> A < (IZR m + / 2) * p * B -> rnd (A / B) = IZR m * p.
Proof.
  intros HB H1 H2 H3 H4 A1 A2 A3. assert (Q : A / B * B = A) by (field; lra). apply (rnd_lit _ m e p); try assumption.
  - apply (Rmult_le_reg_r B); lra.
  - apply (Rmult_lt_reg_r B); lra.
  - apply (Rmult_lt_reg_r B); lra.
Qed.
(** ** The angle at the Compton edge *)
Definition edge_me : R := 4602669361613429 * / 9007199254740992.
Definition edge_E : R := 4602678819172647 * / 9007199254740992.
Definition nq : R := 4503608881361349 * / 4503599627370496.
Lemma nq_eq : fquo edge_E edge_me = nq.
Proof.
  unfold edge_me, edge_E, nq. unfold fadd, fsub, fmul, fquo. apply (rnd_quo _ _ 4503608881361349 (-52)); [lra|lia|lia|lia|reflexivity|lra..].
Qed.
Definition np : R := 4503608881361349 * / 2251799813685248.
Lemma np_eq : fmul nq 2 = np.
Proof.
  unfold edge_me, edge_E, nq, np. unfold fadd, fsub, fmul, fquo. apply (rnd_lit _ 4503608881361349 (-51)); [lia|lia|lia|reflexivity|lra..].
Qed.
Definition nd : R := 6755408695046597 * / 2251799813685248.
Lemma nd_eq : fadd 1 np = nd.
Proof.
  unfold edge_me, edge_E, nq, np, nd. unfold fadd, fsub, fmul, fquo. apply (rnd_lit _ 6755408695046597 (-51)); [lia|lia|lia|reflexivity|lra..].
Qed.
Definition nr : R := 6004791277402282 * / 18014398509481984.
Lemma nr_eq : fquo 1 nd = nr.
Proof.
  unfold edge_me, edge_E, nq, np, nd, nr. unfold fadd, fsub, fmul, fquo. apply (rnd_quo _ _ 6004791277402282 (-54)); [lra|lia|lia|lia|reflexivity|lra..].
Qed.
Definition ne : R := 6136896685505132 * / 36028797018963968.
Lemma ne_eq : fmul nr edge_E = ne.
Proof.
  unfold edge_me, edge_E, nq, np, nd, nr, ne. unfold fadd, fsub, fmul, fquo. apply (rnd_lit _ 6136896685505132 (-55)); [lia|lia|lia|reflexivity|lra..].
Qed.
Definition ng : R := 6755408695046598 * / 2251799813685248.
Lemma ng_eq : fquo edge_E ne = ng.
Proof.
  unfold edge_me, edge_E, nq, np, nd, nr, ne, ng. unfold fadd, fsub, fmul, fquo. apply (rnd_quo _ _ 6755408695046598 (-51)); [lra|lia|lia|lia|reflexivity|lra..].
Qed.
Definition nD : R := 4503608881361350 * / 2251799813685248.
Lemma nD_eq : fsub ng 1 = nD.
Proof.
  unfold edge_me, edge_E, nq, np, nd, nr, ne, ng, nD. unfold fadd, fsub, fmul, fquo. apply (rnd_lit _ 4503608881361350 (-51)); [lia|lia|lia|reflexivity|lra..].
Qed.
Definition nM : R := 4602678819172648 * / 4503599627370496.
Lemma nM_eq : fmul nD edge_me = nM.
Proof.
  unfold edge_me, edge_E, nq, np, nd, nr, ne, ng, nD, nM. unfold fadd, fsub, fmul, fquo. apply (rnd_lit _ 4602678819172648 (-52)); [lia|lia|lia|reflexivity|lra..].
Qed.
Definition nQ : R := 4503599627370497 * / 2251799813685248.
Lemma nQ_eq : fquo nM edge_E = nQ.
Proof.
  unfold edge_me, edge_E, nq, np, nd, nr, ne, ng, nD, nM, nQ. unfold fadd, fsub, fmul, fquo. apply (rnd_quo _ _ 4503599627370497 (-51)); [lra|lia|lia|lia|reflexivity|lra..].
Qed.
Lemma edge_nan m k : a_cos m np_pi = -1 -> k_me k = edge_me -> exists e, fkn_compton_edge m k edge_E = Ok e /\ fkn_theta m k edge_E e = NaN.
Proof.
  intros C K. exists ne. assert (P1 : 0 < edge_me) by (unfold edge_me; lra). assert (P2 : 0 < edge_E) by (unfold edge_E; lra). assert (P3 : 0 < ne) by (unfold ne; lra). assert (P4 : 0 < nd) by (unfold nd; lra).
  split.
  - unfold fkn_compton_edge, fkn_Ep_over_E, np_fquo. rewrite K, C, nq_eq. replace (fsub 1 (-1)) with 2 by (unfold fsub; replace (1 - -1) with 2 by ring; now rewrite (rnd_id 2) by apply double_2).
    rewrite np_eq, nd_eq. destruct (Req_EM_T edge_me 0); [lra|]. destruct (Req_EM_T nd 0); [lra|]. cbn [bind]. now rewrite nr_eq, ne_eq.
  - unfold fkn_theta. destruct (Req_EM_T ne 0); [lra|]. destruct (Req_EM_T edge_E 0); [lra|]. cbv zeta. rewrite K, ng_eq, nD_eq, nM_eq, nQ_eq.
    assert (X : fsub 1 nQ < -1).
    { unfold fsub. replace (1 - nQ) with (- (4503599627370498 * / 4503599627370496)) by (unfold nQ; lra). rewrite rnd_id; [lra|]. apply double_opp. apply (double_scaled _ (-52)); [reflexivity|lia|lia]. }
    destruct (Rlt_dec (fsub 1 nQ) (-1)); [reflexivity|contradiction].
Qed.

Lemma rnd_below_one x : 1 - / 18014398509481984 < x < 1 -> rnd x = 1.
Proof.
  intros H. assert (M : mag radix2 x = 0%Z :> Z) by (apply mag_unique; rewrite Rabs_pos_eq by lra; simpl; lra).
  unfold rnd, round, scaled_mantissa, cexp. rewrite M. change (fexp64 0) with (-53)%Z. rewrite (Znearest_imp _ _ 9007199254740992); [unfold F2R; cbn [Fnum Fexp]; change (bpow radix2 (-53)) with (/ 9007199254740992); lra|].
  change (bpow radix2 (- -53)) with 9007199254740992. apply Rabs_def1; lra.
Qed.
Lemma rnd_above_one x : 1 <= x < 1 + / 9007199254740992 -> rnd x = 1.
Proof. intros H. rewrite (rnd_lit x 4503599627370496 (-52) (/ 4503599627370496)); [lra|lia|lia|lia|reflexivity|lra..]. Qed.
Lemma sin_abs_le x : Rabs (sin x) <= Rabs x.
Proof.
  replace (Rabs (sin x)) with (Rabs (cos (PI / 2 - x) - cos (PI / 2))) by (rewrite cos_shift, cos_PI2; f_equal; ring). eapply Rle_trans; [apply cos_lipschitz|]. replace (PI / 2 - x - PI / 2) with (- x) by ring. rewrite Rabs_Ropp. lra.
Qed.

(** ** Correctly rounded functions *)
Lemma rnd_unit x : Rabs x <= 1 -> double (rnd x) /\ Rabs (rnd x) <= 1 /\ Rabs (rnd x - x) <= 2 * u.
Proof.
  intros H. split; [apply rnd_double|]. split; [rewrite rnd_abs; apply rnd_le_d; [apply double_1|exact H]|]. pose proof u_40. eapply Rle_trans; [apply (rnd_near x 1); lra|]. lra.
Qed.
Lemma correct_alib_ok : alib_ok correct_alib /\ acos_ok correct_alib.
Proof.
  split; [split; [|split]|]; cbn [correct_alib a_cos a_sin a_square a_acos]; change unit_roundoff with u.
  - intros x _. apply rnd_unit. pose proof (COS_bound x). apply Rabs_le. lra.
  - intros x _. apply rnd_unit. pose proof (SIN_bound x). apply Rabs_le. lra.
  - intros x _ H. assert (S : 0 <= x ^ 2 <= 1) by (apply Rabs_le_inv in H; nra). destruct (rnd_unit (x ^ 2)) as (D & B & E); [rewrite Rabs_pos_eq; lra|]. split; [exact D|]. split; [|exact E].
    apply Rabs_le_inv in B. split; [apply rnd_nonneg; lra|lra].
  - intros x _ H. cbn [correct_alib a_acos]. split; [apply rnd_double|]. pose proof (acos_bound x) as A. pose proof PI_4. pose proof u_40. change unit_roundoff with u.
    destruct (rnd_error (acos x)) as (e & h & He & Hh & ->). destruct eta_u as [E0 E1]. replace (acos x * (1 + e) + h - acos x) with (acos x * e + h) by ring.
    assert (P : PI <= 39 / 10). { pose proof PI_ineq as Q. specialize (Q 2%nat). destruct Q as [_ Q]. unfold tg_alt, PI_tg in Q. cbn in Q. lra. }
    apply Rle_trans with (39 / 10 * u + u * / 1024); [|lra]. apply abs_add; [|lra]. apply abs_mul; [rewrite Rabs_pos_eq; lra|exact He].
Qed.
Lemma correct_cos_pi : a_cos correct_alib np_pi = -1.
Proof.
  cbn [correct_alib a_cos]. set (d := np_pi - PI). assert (D : Rabs d <= 8 * u).
  { unfold d, np_pi. pose proof PI_4. pose proof PI_RGT_0. pose proof u_40. eapply Rle_trans; [apply (rnd_near PI 4); [rewrite Rabs_pos_eq; lra|lra]|]. lra. }
  assert (C : - cos np_pi = cos d) by (unfold d; rewrite cos_minus, cos_PI, sin_PI; ring).
  assert (L : 1 - 32 * (u * u) * 2 <= cos d). { replace d with (2 * (d / 2)) by field. rewrite cos_2a_sin. assert (S : Rabs (sin (d / 2)) <= 4 * u).
    { apply Rle_trans with (Rabs (d / 2)); [apply sin_abs_le|]. unfold Rdiv. rewrite Rabs_mult, (Rabs_pos_eq (/ 2)) by lra. lra. } 
    apply Rabs_le_inv in S. pose proof u_40. nra. }
  pose proof (COS_bound d) as B. replace (cos np_pi) with (- cos d) by lra. rewrite rnd_opp. apply Ropp_eq_compat. pose proof u_40 as U.
  destruct (Req_dec (cos d) 1) as [->|N]; [apply rnd_id, double_1|]. 
  assert (U53 : u = / 9007199254740992) by (unfold u; f_equal; ring).
  apply rnd_below_one. rewrite U53 in L. lra.
Qed.

Section KN.
Context (m : alib) (k : constants).
Hypothesis Hm : alib_ok m.
Hypothesis Hk : rng 100 (k_me k).
Let me := k_me k.
(** ** Low energies *)
Lemma ratio_static E t : double t -> 0 <= E <= / 2 ^ 55 * me -> fkn_Ep_over_E m k E t = Ok 1.
Proof.
  intros D H. rewrite (ratio_ok m k Hm Hk) by tauto. f_equal. pose proof (w_range m Hm t D) as W. pose proof (x_nonneg k Hk E (proj1 H)) as X. pose proof (me_pos k Hk) as M0. fold me in M0, X.
  assert (X2 : fquo E me <= / 2 ^ 55). { apply rnd_le_d; [rewrite <- bpow_neg; apply double_bpow; lia|]. apply (Rmult_le_reg_r me); [exact M0|]. unfold Rdiv. rewrite Rmult_assoc, Rinv_l by lra. lra. }
  assert (E55 : / 2 ^ 54 = 2 * / 2 ^ 55). { change 55%nat with (1 + 54)%nat. rewrite pow_add, Rinv_mult. field. }
  assert (Y : 0 <= fmul (fquo E me) (fsub 1 (a_cos m t)) <= / 2 ^ 54).
  { split; [apply rnd_nonneg; apply Rmult_le_pos; lra|]. apply rnd_le_d; [rewrite <- bpow_neg; apply double_bpow; lia|]. rewrite E55. rewrite Rmult_comm. apply Rmult_le_compat; lra. }
  assert (Dn : den m k E t = 1). { unfold den. fold me. apply rnd_above_one. assert (/ 2 ^ 54 <= / 18014398509481984) by (replace (2 ^ 54) with 18014398509481984 by ring; lra). lra. }
  rewrite Dn. unfold fquo. replace (1 / 1) with 1 by field. apply rnd_id, double_1.
Qed.
(** ** The Compton edge *)
Lemma edge_err E : double E -> a_cos m np_pi = -1 -> / 2 ^ 100 <= E / me <= 2 ^ 100 ->
  exists e, fkn_compton_edge m k E = Ok e /\ Rabs (e - E / (1 + 2 * (E / me))) <= 6 * u * (E / (1 + 2 * (E / me))).
Proof.
  intros DE C H. pose proof (me_pos k Hk) as M0. fold me in M0. set (x := E / me) in *. assert (X0 : 0 < x) by (pose proof (ipow2_pos 100); lra). assert (EE : E = x * me) by (unfold x; field; lra).
  assert (E0 : 0 <= E) by (rewrite EE; apply Rmult_le_pos; lra).
  unfold fkn_compton_edge. rewrite (ratio_ok m k Hm Hk) by (assumption || apply rnd_double). cbn [bind]. eexists. split; [reflexivity|].
  assert (W : fsub 1 (-1) = 2) by (unfold fsub; replace (1 - -1) with 2 by ring; now rewrite (rnd_id 2) by apply double_2).
  assert (Gx : good 1 100 (fquo E me) x) by (apply good_rnd; [lia|lia|apply good_exact; exact H]).
  assert (G2 : good 2 101 (fmul (fquo E me) 2) (x * 2)) by (apply (good_fmul 1 100 0 1); [lia|lia|exact Gx|apply good_exact; split; simpl; lra]).
  assert (N3 : near 3 (den m k E np_pi) (1 + x * 2)). { unfold den. fold me. rewrite C, W. apply near_fadd; [apply double_1|apply rnd_double|apply (near_weaken 0); [lia|apply near_exact; lra]|apply G2]. }
  assert (P100 : x <= 2 ^ 100) by apply H.
  assert (R3 : rng 102 (1 + x * 2)). { split; [apply Rle_trans with 1; [apply (rng_one 102)|lra]|]. replace (2 ^ 102) with (4 * 2 ^ 100) by (change 102%nat with (2 + 100)%nat; rewrite pow_add; ring). assert (1 <= 2 ^ 100) by (apply pow_R1_Rle; lra). lra. }
  assert (G4 : good 4 102 (fquo 1 (den m k E np_pi)) (1 / (1 + x * 2))) by (apply (good_fquo 0 0 3 102); [lia|lia|apply good_exact, rng_one|split; assumption]).
  assert (RE : rng 200 E) by (rewrite EE; apply (rng_mult 100 100); [exact H|exact Hk]).
  assert (G5 : good 5 302 (fmul (fquo 1 (den m k E np_pi)) E) (1 / (1 + x * 2) * E)) by (apply (good_fmul 4 102 0 200); [lia|lia|exact G4|now apply good_exact]).
  destruct G5 as [N5 _]. apply near_bound in N5; [|lia]. replace (1 / (1 + x * 2) * E) with (E / (1 + 2 * x)) in N5 by (field; lra). replace (INR 5 + 1) with 6 in N5 by (simpl; ring). exact N5.
Qed.
(** ** Signs *)
Lemma dEp_dphi_nonneg c E Ep phi t : acos_ok m -> double phi -> 0 < Ep -> 0 <= E <= 2 ^ 100 * me -> 0 <= kn_scale_factor c -> fkn_theta m k E Ep = Ok t -> double t ->
  (exists v, fkn_cs_diff_dEp_dphi m k c E Ep phi = Ok v /\ 0 <= v) \/ fkn_cs_diff_dEp_dphi m k c E Ep phi = NaN /\ fmul Ep Ep = 0.
Proof.
  intros Ha D P H Hs T Dt. unfold fkn_cs_diff_dEp_dphi. rewrite T. cbn [bind]. destruct (omega_nonneg m k Hm Hk c E t phi Dt D H Hs) as (s & -> & Ps). cbn [bind]. unfold np_fquo.
  destruct (Req_EM_T (fmul Ep Ep) 0) as [Z|Z]; [right; split; [reflexivity|exact Z]|left]. eexists. split; [reflexivity|]. pose proof (me_pos k Hk). assert (0 <= fmul Ep Ep) by (apply rnd_nonneg; nra).
  apply rnd_nonneg. apply Rmult_le_pos; [apply rnd_nonneg; apply Rmult_le_pos; [exact Ps|unfold me in *; lra]|left; apply Rinv_0_lt_compat; lra].
Qed.
End KN.
