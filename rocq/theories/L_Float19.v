(** Rounding in differential Klein-Nishina cross sections: comparison with [M_KleinNishina]. *)
From Coq Require Import Reals List ZArith Lra Lia Psatz.
From Flocq Require Import Core.
From Verif Require Import Py Spec M_Num M_KleinNishina M_Float S_Float M_Float2 M_Float5 S_Float5
  L_Float L_Float2 L_Float3 L_Float7 L_Float9 L_Float10 L_Float11 L_Float13 L_Float14 L_Float15 L_Float16 L_Float17 L_Float18.
Import ListNotations.
Open Scope R_scope.

Section KN.
Context (m : alib) (k : constants) (c : kn).
Hypothesis Hm : alib_ok m.
Hypothesis F : kn_floats k c.
Let me := k_me k.
Lemma Hk : rng 100 (k_me k). Proof. exact (proj1 F). Qed.
Lemma me_nz : k_me k <> 0. Proof. pose proof (me_pos k Hk). lra. Qed.
Lemma exact_ratio E t : 0 < E / me -> kn_Ep_over_E k E t = Ok (1 / (1 + E / me * (1 - cos t))) /\ 0 < 1 / (1 + E / me * (1 - cos t)).
Proof.
  intros H. pose proof (COS_bound t). assert (1 <= 1 + E / me * (1 - cos t)) by nra. unfold kn_Ep_over_E, fdiv, np_div. destruct (Req_EM_T (k_me k) 0) as [Z|_]; [now destruct me_nz|]. cbn [bind]. fold me.
  destruct (Req_EM_T _ 0); [lra|]. split; [reflexivity|]. apply Rdiv_lt_0_compat; lra.
Qed.
Lemma low x n : / 2 ^ n <= x -> 0 < x. Proof. pose proof (ipow2_pos n). lra. Qed.
Lemma f_ratio E t : double t -> / 2 ^ 100 <= E / me <= 2 ^ 20 ->
  exists r R, fkn_Ep_over_E m k E t = Ok r /\ kn_Ep_over_E k E t = Ok R /\ 0 < r <= 1 /\ Rabs (r - R) <= (5 * (E / me) + 7) * unit_roundoff * R.
Proof.
  intros D H. pose proof (low _ _ (proj1 H)) as X0. destruct (exact_ratio E t X0) as [ER PR]. pose proof (me_pos k Hk) as M0. fold me in M0.
  assert (E0 : 0 <= E <= 2 ^ 100 * me). { assert (EE : E = E / me * me) by (field; lra). split; [rewrite EE; apply Rmult_le_pos; lra|]. rewrite EE at 1. apply Rmult_le_compat_r; [lra|]. apply Rle_trans with (2 ^ 20); [apply H|apply pow2_le; lia]. }
  exists (fquo 1 (den m k E t)), (1 / (1 + E / me * (1 - cos t))). split; [apply (ratio_ok m k Hm Hk); tauto|]. split; [exact ER|]. pose proof (ratio_range m k Hm Hk E t D E0) as RR. pose proof (ipow2_pos 102). split; [lra|].
  destruct (ceil_nat (5 * (E / me) + 4)) as (n & N1 & N2); [lra|]. assert (X1 : E / me <= 1048576) by (replace 1048576 with (2 ^ 20) by ring; apply H).
  pose proof (ratio_near m k Hm E t n D H N1 ltac:(apply count_8; lra)) as N. apply near_boundy in N; [|cnt]. change unit_roundoff with u. eapply Rle_trans; [exact N|]. pose proof u_pos. fold me. apply Rmult_le_compat_r; [lra|]. apply Rmult_le_compat_r; [lra|]. cnt.
Qed.
Lemma f_ratio_falls E E' t : double t -> 0 <= E <= E' -> exists r r', fkn_Ep_over_E m k E t = Ok r /\ fkn_Ep_over_E m k E' t = Ok r' /\ r' <= r.
Proof. intros D H. do 2 eexists. split; [apply (ratio_ok m k Hm Hk); [exact D|lra]|]. split; [apply (ratio_ok m k Hm Hk); [exact D|lra]|]. now apply (ratio_falls m k Hm Hk). Qed.
Lemma f_edge E : double E -> a_cos m np_pi = -1 -> / 2 ^ 100 <= E / me <= 2 ^ 100 ->
  exists e V, fkn_compton_edge m k E = Ok e /\ kn_compton_edge k E = Ok V /\ Rabs (e - V) <= 6 * unit_roundoff * V /\
    forall t, double t -> exists r, fkn_Ep_over_E m k E t = Ok r /\ e <= fmul r E.
Proof.
  intros DE C H. pose proof (low _ _ (proj1 H)) as X0. pose proof (me_pos k Hk) as M0. fold me in M0. destruct (edge_err m k Hm Hk E DE C H) as (e & Ee & Er). fold me in Er. exists e, (E / (1 + 2 * (E / me))). split; [exact Ee|].
  split. { unfold kn_compton_edge. destruct (exact_ratio E PI X0) as [-> _]. cbn [bind]. rewrite cos_PI. f_equal. assert (EE : E = E / me * me) by (field; lra). assert (0 < E) by (rewrite EE; apply Rmult_lt_0_compat; lra). field. repeat split; lra. }
  split; [exact Er|]. intros t D. assert (E0 : 0 <= E). { assert (EE : E = E / me * me) by (field; lra). rewrite EE. apply Rmult_le_pos; lra. }
  destruct (edge_lowest m k Hm Hk E t C D E0) as (e' & r & E1 & E2 & E3). exists r. split; [exact E2|]. assert (e = e') by congruence. now subst.
Qed.
Lemma f_static E t : double t -> 0 <= E <= / 2 ^ 55 * me -> fkn_Ep_over_E m k E t = Ok 1.
Proof. intros. now apply (ratio_static m k Hm Hk). Qed.
Lemma f_unpolarized E t : double t -> / 2 ^ 100 <= E / me <= 2 ^ 20 ->
  exists v V, fkn_cs_diff_dOmega_unpolarized m k c E t = Ok v /\ kn_cs_diff_dOmega_unpolarized k c E t = Ok V /\ 0 < V /\ 0 < v /\
    Rabs (v - V) <= (25 * (E / me) + 60) * unit_roundoff * V.
Proof.
  intros D H. pose proof (low _ _ (proj1 H)) as X0. destruct (exact_ratio E t X0) as [ER PR]. destruct (unpol_err m k Hm Hk c E t F D H) as (v & Ev & PV & _ & EV). fold me in PV, EV.
  set (r := 1 / (1 + E / me * (1 - cos t))) in *. exists v, (PI * kn_scale_factor c * r * r * (r + 1 / r - sin t ^ 2)). split; [exact Ev|].
  split. { unfold kn_cs_diff_dOmega_unpolarized. rewrite ER. cbn [bind]. unfold np_div. destruct (Req_EM_T r 0); [lra|]. reflexivity. }
  split; [exact PV|]. split; [|exact EV]. apply Rabs_le_inv in EV. assert (X1 : E / me <= 1048576) by (replace 1048576 with (2 ^ 20) by ring; apply H). pose proof u_40.
  set (V := PI * kn_scale_factor c * r * r * (r + 1 / r - sin t ^ 2)) in *. assert ((25 * (E / me) + 60) * u <= / 2) by nra. nra.
Qed.
Lemma f_polarized E t phi : double t -> double phi -> / 2 ^ 100 <= E / me <= 2 ^ 20 ->
  exists v V r, fkn_cs_diff_dOmega m k c E t phi = Ok v /\ kn_cs_diff_dOmega k c E t phi = Ok V /\ kn_Ep_over_E k E t = Ok r /\ 0 <= v /\
    Rabs (v - V) <= (15 * (E / me) + 50) * unit_roundoff * (1 / 2 * kn_scale_factor c * r * r * (r + 1 / r)).
Proof.
  intros D D' H. pose proof (low _ _ (proj1 H)) as X0. destruct (exact_ratio E t X0) as [ER PR]. pose proof (me_pos k Hk) as M0. fold me in M0. destruct (pol_err m k Hm Hk c E t phi F D D' H) as (v & Ev & PV & EV). fold me in PV, EV.
  assert (E0 : 0 <= E <= 2 ^ 100 * me). { assert (EE : E = E / me * me) by (field; lra). split; [rewrite EE; apply Rmult_le_pos; lra|]. rewrite EE at 1. apply Rmult_le_compat_r; [lra|]. apply Rle_trans with (2 ^ 20); [apply H|apply pow2_le; lia]. }
  set (r := 1 / (1 + E / me * (1 - cos t))) in *. exists v, (1 / 2 * kn_scale_factor c * r * r * (r + 1 / r - 2 * sin t ^ 2 * cos phi ^ 2)), r. split; [exact Ev|].
  split. { unfold kn_cs_diff_dOmega. rewrite ER. cbn [bind]. unfold np_div. destruct (Req_EM_T r 0); [lra|]. reflexivity. }
  split; [exact ER|]. split; [|exact EV]. destruct (omega_nonneg m k Hm Hk c E t phi D D' E0) as (v' & Ev' & P'); [left; exact (rng_pos _ _ (proj2 F))|]. assert (v = v') by congruence. now subst.
Qed.
Lemma f_dtheta E t : double t -> / 2 ^ 100 <= E / me <= 2 ^ 20 ->
  exists v V U, fkn_cs_diff_dtheta m k c E t = Ok v /\ kn_cs_diff_dtheta k c E t = Ok V /\ kn_cs_diff_dOmega_unpolarized k c E t = Ok U /\
    Rabs (v - V) <= (25 * (E / me) + 70) * unit_roundoff * U.
Proof.
  intros D H. destruct (f_unpolarized E t D H) as (v & U & _ & EU & _ & _ & _). pose proof (low _ _ (proj1 H)) as X0. destruct (exact_ratio E t X0) as [ER PR]. destruct (dtheta_err m k Hm Hk c E t F D H) as (w & Ew & Err). fold me in Err.
  set (r := 1 / (1 + E / me * (1 - cos t))) in *.
  assert (EU' : U = PI * kn_scale_factor c * r * r * (r + 1 / r - sin t ^ 2)). { unfold kn_cs_diff_dOmega_unpolarized in EU. rewrite ER in EU. cbn [bind] in EU. unfold np_div in EU. destruct (Req_EM_T r 0); [lra|]. cbn [bind] in EU. congruence. }
  exists w, (U * sin t), U. split; [exact Ew|]. split; [unfold kn_cs_diff_dtheta; rewrite EU; reflexivity|]. split; [exact EU|]. rewrite EU'. exact Err.
Qed.
(** The exact angle of a photon that was scattered with an energy between the Compton edge and the initial energy. *)
Lemma exact_theta E Ep : 0 < E / me -> 0 < Ep <= E -> me * (1 / Ep - 1 / E) <= 2 ->
  let a := 1 - (E / Ep - 1) * me / E in -1 <= a <= 1 /\ kn_theta k E Ep = Ok (acos a) /\ cos (acos a) = a.
Proof.
  intros X0 HE L a. pose proof (me_pos k Hk) as M0. fold me in M0. assert (Ea : a = 1 - me * (1 / Ep - 1 / E)) by (unfold a; field; lra).
  assert (0 <= 1 / Ep - 1 / E). { unfold Rdiv. rewrite !Rmult_1_l. assert (/ E <= / Ep) by (apply Rinv_le_contravar; lra). lra. }
  assert (A : -1 <= a <= 1) by (rewrite Ea; nra). split; [exact A|]. split; [|now apply cos_acos].
  unfold kn_theta, fdiv. destruct (Req_EM_T Ep 0); [lra|]. cbn [bind]. destruct (Req_EM_T E 0); [lra|]. cbn [bind]. fold me. fold a. unfold np_arccos. destruct (Rlt_dec a (-1)); [lra|]. destruct (Rlt_dec 1 a); [lra|]. reflexivity.
Qed.
Lemma f_theta E Ep : acos_ok m -> / 2 ^ 100 <= E / me <= 2 ^ 20 -> 0 < Ep <= E -> me * (1 / Ep - 1 / E) <= 2 ->
  exists T, kn_theta k E Ep = Ok T /\
  ((exists t, fkn_theta m k E Ep = Ok t /\ Rabs (cos t - cos T) <= (2 * (me / E) + 14) * unit_roundoff) \/
   fkn_theta m k E Ep = NaN /\ cos T < -1 + (2 * (me / E) + 10) * unit_roundoff).
Proof.
  intros Ha H HE L. pose proof (low _ _ (proj1 H)) as X0. pose proof (me_pos k Hk) as M0. fold me in M0. destruct (exact_theta E Ep X0 HE L) as (A & ET & EC). set (a := 1 - (E / Ep - 1) * me / E) in *. exists (acos a). split; [exact ET|]. rewrite EC.
  assert (W : 0 < me / E) by (apply Rdiv_lt_0_compat; lra). pose proof u_40. change unit_roundoff with u. destruct (theta_cases m k Ha Hk E Ep H HE (proj1 A)) as [[T B]|(t & T & _ & B)]; fold me in B; fold a in B.
  - right. split; [exact T|]. eapply Rlt_le_trans; [exact B|]. apply Rplus_le_compat_l. apply Rmult_le_compat_r; lra.
  - left. exists t. split; [exact T|]. eapply Rle_trans; [exact B|]. apply Rmult_le_compat_r; lra.
Qed.
Lemma f_dEp E Ep : acos_ok m -> / 2 ^ 20 <= E / me <= 2 ^ 18 -> 0 < Ep <= E -> me * (1 / Ep - 1 / E) <= 2 ->
  exists V, kn_cs_diff_dEp k c E Ep = Ok V /\ 0 < V /\
  ((exists v, fkn_cs_diff_dEp m k c E Ep = Ok v /\ Rabs (v - V) <= (105 * (E / me) + 3 * (me / E) + 120) * unit_roundoff * V) \/
   fkn_cs_diff_dEp m k c E Ep = NaN /\ fkn_theta m k E Ep = NaN).
Proof.
  intros Ha H HE L. pose proof (low _ _ (proj1 H)) as X0. pose proof (me_pos k Hk) as M0. fold me in M0. destruct (exact_theta E Ep X0 HE L) as (A & ET & EC). set (a := 1 - (E / Ep - 1) * me / E) in *.
  assert (X20 : 0 < E / me <= 2 ^ 20) by (split; [exact X0|apply Rle_trans with (2 ^ 18); [apply H|apply pow2_le; lia]]).
  pose proof (sig_rng (kn_scale_factor c) (E / me) a (proj2 F) X20 A) as SR. pose proof (rng_pos _ _ SR) as SP.
  exists (sig (kn_scale_factor c) (E / me) a * me / (Ep * Ep)). split; [|split].
  - unfold kn_cs_diff_dEp. rewrite ET. cbn [bind]. destruct (exact_ratio E (acos a) X0) as [ER PR]. unfold kn_cs_diff_dOmega_unpolarized. rewrite ER. cbn [bind]. set (r := 1 / (1 + E / me * (1 - cos (acos a)))) in *.
    unfold np_div at 1. destruct (Req_EM_T r 0); [lra|]. cbn [bind]. unfold np_div. destruct (Req_EM_T (Ep * Ep) 0) as [Z|_]; [nra|]. f_equal. fold me. f_equal. f_equal.
    pose proof (unpol_sig k c E (acos a)) as US. cbv zeta in US. fold me in US. rewrite EC in US at 1. rewrite US. reflexivity.
  - apply Rdiv_lt_0_compat; [apply Rmult_lt_0_compat; lra|nra].
  - destruct (dEp_err m k Hm Ha Hk c E Ep F H HE (proj1 A)) as [[N1 N2]|(v & Ev & _ & B)]; [right; now split|left]. exists v. split; [exact Ev|exact B].
Qed.
Lemma f_dEp_dphi E Ep phi : acos_ok m -> double phi -> / 2 ^ 100 <= E / me <= 2 ^ 20 -> 0 < Ep <= E -> me * (1 / Ep - 1 / E) <= 2 -> / 2 ^ 400 <= Ep ->
  (exists v, fkn_cs_diff_dEp_dphi m k c E Ep phi = Ok v /\ 0 <= v) \/ fkn_cs_diff_dEp_dphi m k c E Ep phi = NaN /\ fkn_theta m k E Ep = NaN.
Proof.
  intros Ha D H HE L LE. pose proof (low _ _ (proj1 H)) as X0. pose proof (me_pos k Hk) as M0. fold me in M0. destruct (exact_theta E Ep X0 HE L) as (A & _ & _).
  destruct (theta_cases m k Ha Hk E Ep H HE (proj1 A)) as [[T _]|(t & T & Dt & _)]; [right; split; [unfold fkn_cs_diff_dEp_dphi; rewrite T; reflexivity|exact T]|left].
  assert (E0 : 0 <= E <= 2 ^ 100 * me). { assert (EE : E = E / me * me) by (field; lra). split; [lra|]. rewrite EE at 1. apply Rmult_le_compat_r; [lra|]. apply Rle_trans with (2 ^ 20); [apply H|apply pow2_le; lia]. }
  destruct (dEp_dphi_nonneg m k Hm Hk c E Ep phi t Ha D (proj1 HE) E0) as [K|[_ Z]]; [left; exact (rng_pos _ _ (proj2 F))|exact T|exact Dt|exact K|].
  assert (/ 2 ^ 800 <= fmul Ep Ep); [|pose proof (ipow2_pos 800); lra]. apply rnd_ge_2; [lia|]. change 800%nat with (400 + 400)%nat. rewrite pow_add, Rinv_mult. pose proof (ipow2_pos 400). apply Rmult_le_compat; lra.
Qed.
End KN.
(** The energy of the scattered photon at 0.511 MeV. *)
Lemma f_edge_nan m k c : a_cos m np_pi = -1 -> k_me k = rnd (51099895 / 100000000) ->
  exists e, fkn_compton_edge m k (rnd (511 / 1000)) = Ok e /\ fkn_theta m k (rnd (511 / 1000)) e = NaN /\ fkn_cs_diff_dEp m k c (rnd (511 / 1000)) e = NaN /\
    forall phi, fkn_cs_diff_dEp_dphi m k c (rnd (511 / 1000)) e phi = NaN.
Proof.
  intros C K. assert (E1 : rnd (511 / 1000) = edge_E) by (unfold edge_E; apply (rnd_lit _ 4602678819172647 (-53)); [lia|lia|lia|reflexivity|lra..]).
  assert (E2 : rnd (51099895 / 100000000) = edge_me) by (unfold edge_me; apply (rnd_lit _ 4602669361613429 (-53)); [lia|lia|lia|reflexivity|lra..]).
  rewrite E1. rewrite E2 in K. destruct (edge_nan m k C K) as (e & H1 & H2). exists e. split; [exact H1|]. split; [exact H2|]. unfold fkn_cs_diff_dEp, fkn_cs_diff_dEp_dphi. rewrite H2. split; reflexivity.
Qed.
