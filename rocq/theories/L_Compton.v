(** Compton cross sections outside of the physical domain. *)
From Coq Require Import Reals List ZArith Lra Psatz.
From Coquelicot Require Import Coquelicot.
From Verif Require Import Py Spec M_Num M_KleinNishina S_KleinNishina L_KleinNishina L_KleinNishina2 L_KleinNishina3.
Open Scope R_scope.

Lemma np_div_0 a b : b = 0 -> np_div a b = NaN. Proof. intros ->. unfold np_div. destruct Req_EM_T; [reflexivity|lra]. Qed.
Lemma np_div_ok a b : b <> 0 -> np_div a b = Ok (a / b). Proof. intros H. unfold np_div. destruct Req_EM_T; [contradiction|reflexivity]. Qed.
Lemma fdiv_ok a b : b <> 0 -> fdiv a b = Ok (a / b). Proof. intros H. unfold fdiv. destruct Req_EM_T; [contradiction|reflexivity]. Qed.
Lemma fdiv_0 a : fdiv a 0 = Raise ZeroDivisionError. Proof. unfold fdiv. destruct Req_EM_T; [reflexivity|lra]. Qed.

Lemma ratio_any k E t : constants_ok k ->
  (1 + E / k_me k * (1 - cos t) <> 0 -> kn_Ep_over_E k E t = Ok (1 / (1 + E / k_me k * (1 - cos t)))) /\
  (1 + E / k_me k * (1 - cos t) = 0 -> kn_Ep_over_E k E t = NaN).
Proof.
  intros K. pose proof (me_pos k K). unfold kn_Ep_over_E. rewrite fdiv_ok by lra. cbn [bind].
  split; intros H0; [now apply np_div_ok|now apply np_div_0].
Qed.
Lemma solid_any k c E t p : constants_ok k ->
  (1 + E / k_me k * (1 - cos t) <> 0 -> exists v w, kn_cs_diff_dOmega k c E t p = Ok v /\ kn_cs_diff_dOmega_unpolarized k c E t = Ok w) /\
  (1 + E / k_me k * (1 - cos t) = 0 -> kn_cs_diff_dOmega k c E t p = NaN /\ kn_cs_diff_dOmega_unpolarized k c E t = NaN /\ kn_cs_diff_dtheta k c E t = NaN).
Proof.
  intros K. destruct (ratio_any k E t K) as [A B]. split; intros H.
  - unfold kn_cs_diff_dOmega, kn_cs_diff_dOmega_unpolarized. rewrite (A H). cbn [bind]. rewrite np_div_ok by (unfold Rdiv; rewrite Rmult_1_l; now apply Rinv_neq_0_compat).
    cbn [bind]. eauto.
  - unfold kn_cs_diff_dtheta, kn_cs_diff_dOmega, kn_cs_diff_dOmega_unpolarized. rewrite (B H). auto.
Qed.
(** The singular energies. *)
Lemma singular k E : constants_ok k -> (exists t, 1 + E / k_me k * (1 - cos t) = 0) <-> E <= - k_me k / 2.
Proof.
  intros K. pose proof (me_pos k K) as M. split.
  - intros (t & H). pose proof (COS_bound t). apply Rnot_lt_le. intros L.
    assert (E / k_me k > - (1 / 2)). { apply Rlt_gt, Rmult_lt_reg_r with (k_me k); [exact M|]. unfold Rdiv. rewrite Rmult_assoc, Rinv_l by lra. lra. }
    set (x := E / k_me k) in *. assert (- 1 < x * (1 - cos t)) by (destruct (Rle_dec 0 x); nra). lra.
  - intros H. assert (X : E / k_me k <= - (1 / 2)). { apply Rmult_le_reg_r with (k_me k); [exact M|]. unfold Rdiv. rewrite Rmult_assoc, Rinv_l by lra. lra. }
    set (x := E / k_me k) in *. exists (acos (1 + / x)).
    assert (I : -2 <= / x < 0).
    { split; [|now apply Rinv_lt_0_compat; lra]. replace (-2) with (/ - (1 / 2)) by field. 
      assert (/ - x <= 2). { replace 2 with (/ (1 / 2)) by field. apply Rinv_le_contravar; lra. } rewrite <- Ropp_inv_permute in H0 by lra. replace (/ - (1 / 2)) with (-2) by field. lra. }
    rewrite cos_acos by lra. field. lra.
Qed.
Lemma total_any k Z mc2 c E : KleinNishina k Z mc2 = Ok c -> 0 < mc2 ->
  (E < - mc2 / 2 -> kn_cs_total c E = NaN) /\ (E = - mc2 / 2 \/ E = 0 -> kn_cs_total c E = Raise ZeroDivisionError) /\
  (- mc2 / 2 < E -> E <> 0 -> exists v, kn_cs_total c E = Ok v).
Proof.
  intros Hc Hm. destruct (kn_inv _ _ _ _ Hc) as (_ & _ & Em & _). unfold kn_cs_total. rewrite Em, fdiv_ok by lra. cbn [bind].
  assert (X : E / mc2 * mc2 = E) by (field; lra). set (x := E / mc2) in *.
  split; [|split].
  - intros H. assert (x < - (1 / 2)) by nra. unfold pow_m3. destruct Req_EM_T as [?|_]; [lra|]. cbn [bind]. rewrite fdiv_ok by (apply pow_nonzero; lra). cbn [bind].
    unfold np_log. destruct Rlt_dec; [lra|reflexivity].
  - intros [H|H].
    + assert (x = - (1 / 2)) as -> by nra. unfold pow_m3. destruct Req_EM_T as [?|_]; [lra|]. cbn [bind]. replace ((1 + 2 * - (1 / 2)) ^ 2) with 0 by field. now rewrite fdiv_0.
    + assert (x = 0) as -> by nra. unfold pow_m3. destruct Req_EM_T; [reflexivity|lra].
  - intros H1 H2. assert (- (1 / 2) < x) by nra. assert (x <> 0) by nra. unfold pow_m3. destruct Req_EM_T as [?|_]; [contradiction|]. cbn [bind].
    rewrite fdiv_ok by (apply pow_nonzero; lra). cbn [bind]. unfold np_log. destruct Rlt_dec; [|lra]. cbn [bind]. eauto.
Qed.
Lemma energy_any k c E Ep p e : constants_ok k -> 0 < E -> kn_compton_edge k E = Ok e ->
  (e <= Ep <= E -> exists v w, kn_cs_diff_dEp k c E Ep = Ok v /\ kn_cs_diff_dEp_dphi k c E Ep p = Ok w) /\
  (Ep = 0 -> kn_cs_diff_dEp k c E Ep = Raise ZeroDivisionError /\ kn_cs_diff_dEp_dphi k c E Ep p = Raise ZeroDivisionError) /\
  (Ep <> 0 -> ~ e <= Ep <= E -> kn_cs_diff_dEp k c E Ep = NaN /\ kn_cs_diff_dEp_dphi k c E Ep p = NaN).
Proof.
  intros K HE He. destruct (theta_defined k K E Ep e HE He) as (A & B & C). unfold kn_cs_diff_dEp, kn_cs_diff_dEp_dphi. split; [|split].
  - intros H. destruct (A H) as (t & ->). cbn [bind]. destruct (solid_any k c E t p K) as [S _].
    assert (D : 1 + E / k_me k * (1 - cos t) <> 0). { pose proof (me_pos k K). pose proof (COS_bound t). apply Rgt_not_eq. apply den_pos; [left; now apply Rdiv_lt_0_compat|lra]. }
    destruct (S D) as (v & w & -> & ->). cbn [bind].
    assert (0 < e). { rewrite (edge_ok k K E) in He by lra. injection He as <-. pose proof (me_pos k K). assert (0 < E / k_me k) by (now apply Rdiv_lt_0_compat). apply Rdiv_lt_0_compat; lra. }
    assert (Ep * Ep <> 0) by nra. rewrite !np_div_ok by assumption. eauto.
  - intros H. rewrite (B H). auto.
  - intros H1 H2. rewrite (C H1 H2). auto.
Qed.
Lemma massless k Z : KleinNishina k Z 0 = Raise ZeroDivisionError.
Proof. unfold KleinNishina. rewrite Rmult_0_l. now rewrite fdiv_0. Qed.
