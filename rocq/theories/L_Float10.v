(** Shape of rounded Breit-Wigner resonances, and offsets lost by the addition of the resonance energy. *)
From Coq Require Import Reals List ZArith Lra Lia Psatz String.
From Flocq Require Import Core.
From Verif Require Import Py Spec M_Num M_Constituents M_Thermal M_Dist M_Resonance M_Float S_Float M_Float2 S_Float2 M_Float4 S_Float4
  L_Float L_Float2 L_Float3 L_Float7 L_Float9.
Import ListNotations.
Open Scope R_scope.
Open Scope string_scope.

Lemma rnd_abs x : Rabs (rnd x) = rnd (Rabs x).
Proof. unfold rnd. symmetry. apply round_NE_abs. apply valid64. Qed.
Lemma fsub_abs x l x' : Rabs (x - l) <= Rabs (x' - l) -> Rabs (fsub x l) <= Rabs (fsub x' l).
Proof. intros H. unfold fsub. rewrite !rnd_abs. now apply rnd_le. Qed.
Lemma fquo_abs a b s : 0 < s -> Rabs a <= Rabs b -> Rabs (fquo a s) <= Rabs (fquo b s).
Proof.
  intros P H. unfold fquo. rewrite !rnd_abs. apply rnd_le. unfold Rdiv. rewrite !Rabs_mult. apply Rmult_le_compat_r; [apply Rabs_pos|exact H].
Qed.
Lemma fmul_abs a b : Rabs a <= Rabs b -> fmul a a <= fmul b b.
Proof. intros H. apply rnd_le. apply Rsqr_le_abs_1 in H. exact H. Qed.
Lemma pi_nonneg : 0 < np_pi.
Proof. eapply near_pos. apply near_pi. Qed.
Lemma fcauchy_falls l s x x' p p' : Rabs (x - l) <= Rabs (x' - l) -> fcauchy_pdf l s x = Ok p -> fcauchy_pdf l s x' = Ok p' -> 0 <= p' <= p.
Proof.
  unfold fcauchy_pdf. destruct (Rlt_dec 0 s) as [P|]; [|discriminate]. intros H E E'. injection E as <-. injection E' as <-.
  apply fsub_abs in H. apply (fquo_abs _ _ s P) in H. apply fmul_abs in H.
  set (a := fmul _ _) in *. set (b := fmul (fquo (fsub x' l) s) (fquo (fsub x' l) s)) in *.
  assert (A0 : 0 <= a). { apply rnd_nonneg. apply Rle_0_sqr. }
  assert (A1 : 1 <= fadd 1 a) by (apply rnd_ge; [apply double_1|lra]).
  assert (A2 : fadd 1 a <= fadd 1 b) by (apply rnd_le; lra).
  assert (Q : 0 <= fquo 1 np_pi). { apply rnd_nonneg. apply Rmult_le_pos; [lra|]. left. apply Rinv_0_lt_compat, pi_nonneg. }
  assert (Is : 0 < / s) by now apply Rinv_0_lt_compat.
  assert (I : / fadd 1 b <= / fadd 1 a) by (apply Rinv_le_contravar; lra).
  assert (I0 : 0 < / fadd 1 b) by (apply Rinv_0_lt_compat; lra).
  assert (B0 : 0 <= fquo (fquo 1 np_pi) (fadd 1 b)) by (apply rnd_nonneg; apply Rmult_le_pos; lra).
  split; [apply rnd_nonneg; apply Rmult_le_pos; lra|].
  apply rnd_le. apply Rmult_le_compat_r; [lra|]. apply rnd_le. now apply Rmult_le_compat_l.
Qed.

(** Farther from the resonance, the cross section is not larger. *)
Lemma fBreitWigner_falls c k i m fin E E' v v' : clib_ok c -> floats k i m fin ->
  let E_r := fsub (st_excitation_energy m) (st_excitation_energy i) in
  Rabs (E - E_r) <= Rabs (E' - E_r) ->
  fBreitWigner_call c k i m fin E true = Ok v -> fBreitWigner_call c k i m fin E' true = Ok v' -> 0 <= v' <= v.
Proof.
  intros HC HF E_r H. destruct (fResonance_good c k i m fin HC HF) as (r & Ir & w & _ & H2 & _ & H4 & _ & GI). unfold fBreitWigner_call. rewrite H2. cbn [bind]. rewrite H4. cbn [bind].
  unfold fres_call. cbv zeta. fold E_r. intros H5 H6.
  destruct (fcauchy_pdf E_r (fmul (1 / 2) w) E) as [p| |e] eqn:P; cbn [bind] in H5; try discriminate.
  destruct (fcauchy_pdf E_r (fmul (1 / 2) w) E') as [p'| |e] eqn:P'; cbn [bind] in H6; try discriminate.
  injection H5 as <-. injection H6 as <-. destruct (fcauchy_falls _ _ _ _ _ _ H P P') as [Q1 Q2].
  assert (I0 : 0 < Ir) by (eapply near_pos; apply GI). split; [apply rnd_nonneg; nra|]. apply rnd_le. nra.
Qed.

(** A line whose offsets are lost. *)
Definition lost_i : state := {| st_J_pi := "0_1+"; st_two_J := 0; st_parity := 1; st_excitation_energy := 0; st_decays := None |}.
Definition lost_m : state := {| st_J_pi := "1_1+"; st_two_J := 2; st_parity := 1; st_excitation_energy := 1; st_decays := Some ([("0_1+", / 2 ^ 60)], / 2 ^ 60) |}.
Definition lost_k : constants :=
  {| k_hbarc := 200; k_hbarc_old := 200; k_alpha := / 137; k_me := / 2; k_u_MeV := 931; k_u_kg := / 10 ^ 27; k_kB_eV := / 11604 |}.
Lemma lost_floats : floats lost_k lost_i lost_m None.
Proof.
  unfold floats. cbn [lost_k lost_i lost_m k_hbarc st_two_J st_excitation_energy st_decays st_J_pi].
  assert (P : plausible 200). { split; [|simpl; lra]. pose proof (ipow2_le 0 60 ltac:(lia)) as K. rewrite pow_O, Rinv_1 in K. lra. }
  assert (P1 : plausible (/ 2 ^ 60)). { split; [lra|]. pose proof (ipow2_le 0 60 ltac:(lia)) as K. pose proof (pow2_le 0 60 ltac:(lia)) as K'. rewrite pow_O in K, K'. rewrite Rinv_1 in K. lra. }
  split; [exact P|]. split; [lia|]. split; [lia|]. split; [apply double_0|]. split; [apply double_1|]. split; [replace (1 - 0) with 1 by ring; apply rng_one|].
  exists [("0_1+", / 2 ^ 60)], (/ 2 ^ 60). split; [reflexivity|]. split; [exact P1|].
  intros s [->|N]; [|discriminate]. exists (/ 2 ^ 60). split; [reflexivity|exact P1].
Qed.
Lemma lost_sum : fadd (/ 2 ^ 55) (fsub 1 0) = 1 /\ fsub 1 0 = 1.
Proof.
  assert (A : fsub 1 0 = 1) by (unfold fsub; rewrite Rminus_0_r; apply rnd_id, double_1). split; [|exact A]. rewrite A.
  unfold fadd. replace (2 ^ 55) with 36028797018963968 by ring. rewrite (rnd_lit _ 4503599627370496 (-52) (/ 4503599627370496)); [lra|lia|lia|lia|reflexivity|lra..].
Qed.
Lemma lost_offset c : clib_ok c -> exists r s v, BreitWigner lost_k lost_i lost_m None = Ok r /\ res_call r (/ 2 ^ 55) false = Ok s /\
  fBreitWigner_call c lost_k lost_i lost_m None (/ 2 ^ 55) false = Ok v /\ 0 < s /\ 4000 * s <= v.
Proof.
  intros HC. destruct lost_sum as [S1 S2].
  assert (DE : double (/ 2 ^ 55)). { change 55%nat with (Pos.to_nat 55). replace (/ 2 ^ Pos.to_nat 55) with (bpow radix2 (-55)); [apply double_bpow; lia|]. change (-55)%Z with (- Z.of_nat 55)%Z. apply bpow_neg. }
  assert (BE : Rabs (/ 2 ^ 55) <= 2 ^ 60).
  { pose proof (ipow2_pos 55). rewrite Rabs_pos_eq by lra. pose proof (ipow2_le 0 55 ltac:(lia)) as K. pose proof (pow2_le 0 60 ltac:(lia)) as K'. rewrite pow_O in K, K'. rewrite Rinv_1 in K. lra. }
  destruct (fBreitWigner_good c lost_k lost_i lost_m None HC lost_floats (/ 2 ^ 55) false DE BE) as (r & s & v & H1 & H2 & H3 & H4 & H5 & H6).
  cbn [st_excitation_energy lost_i lost_m] in H1, H2, H3. cbv iota in H3. rewrite S1 in H3. rewrite S2 in H1, H2.
  replace (with_energy lost_m (0 + 1)) with lost_m in H1 by (unfold with_energy, lost_m; cbn; f_equal; ring).
  pose proof H1 as H1'. unfold BreitWigner in H1. destruct (Resonance _ _ _ _ _) as [r0| |]; try discriminate. cbn [bind] in H1. change (width lost_m) with (Ok (/ 2 ^ 60) : out R) in H1. cbn [bind] in H1. assert (Er : r = with_dist r0 cauchy [r_energy r0; 1 / 2 * / 2 ^ 60]) by congruence. clear H1. subst r. cbn [with_dist r_energy] in H2.
  unfold res_call in H3 |- *. cbn [with_dist r_integrated r_dist r_params r_energy] in H3. cbv iota in H3. rewrite H2 in H3. cbn [d_pdf cauchy loc_scale] in H3.
  exists (with_dist r0 cauchy [r_energy r0; 1 / 2 * / 2 ^ 60]). cbn [with_dist r_integrated r_dist r_params r_energy]. cbv iota. rewrite H2.
  cbn [d_pdf cauchy loc_scale]. destruct (Rlt_dec 0 (1 / 2 * / 2 ^ 60)) as [P|N]; [|elim N; pose proof (ipow2_pos 60); lra].
  revert H3. destruct (Rlt_dec 0 (1 / 2 * / 2 ^ 60)) as [_|N]; [|contradiction]. intros H3. cbn [oscale] in H3 |- *. assert (Es : s = r_integrated r0 * cauchy_pdf 1 (1 / 2 * / 2 ^ 60) 1) by congruence. clear H3.
  assert (Q : cauchy_pdf 1 (1 / 2 * / 2 ^ 60) (/ 2 ^ 55 + 1) = cauchy_pdf 1 (1 / 2 * / 2 ^ 60) 1 * / 4097).
  { unfold cauchy_pdf. replace ((/ 2 ^ 55 + 1 - 1) / (1 / 2 * / 2 ^ 60)) with 64.
    2: { change 60%nat with (55 + 5)%nat. rewrite pow_add. pose proof (pow2_pos 55). replace (2 ^ 5) with 32 by ring. field. }
    replace ((1 - 1) / (1 / 2 * / 2 ^ 60)) with 0 by (field; apply Rgt_not_eq, pow2_pos). pose proof PI_RGT_0. set (z := / 2 ^ 60) in *. field. split; lra. }
  exists (r_integrated r0 * cauchy_pdf 1 (1 / 2 * / 2 ^ 60) (/ 2 ^ 55 + 1)), v. split; [rewrite <- H2 at 1; exact H1'|]. split; [reflexivity|]. split; [exact H4|].
  rewrite Q, <- Rmult_assoc, <- Es. split; [lra|].
  apply Rabs_le_inv in H6. assert (U : u <= / 1048576) by (unfold u; replace 1048576 with (2 ^ 20) by ring; apply ipow2_le; lia). nra.
Qed.
