(** Voigt profiles with rounding: calls. *)
From Coq Require Import Reals List ZArith Lra Lia Psatz.
From Flocq Require Import Core.
From Verif Require Import Py Spec M_Num M_Grid M_Constituents M_Thermal M_Dist M_CrossSection M_Resonance M_PseudoVoigt M_Float S_Float M_Float4 S_Float4 M_Float8 S_Float8 M_Float11 S_Float11
  S_Resonance S_PseudoVoigt L_Debye L_PseudoVoigt L_Voigt2 L_Float L_Float3 L_Float7 L_Float9 L_Float10 L_Float11 L_Float12 L_Float20 L_Float22 L_Float27 L_Float28 L_Float29 L_Float30 L_Float31 L_Float32 L_Float36 L_Float42 L_Float44 L_Float45.
Import ListNotations.
Open Scope R_scope.
Open Scope py_scope.

Lemma pv_doubles L k E w amu T p : fPseudoVoigtDistribution L k E w amu T = Ok p -> double (pv_sigma p) /\ double (pv_gamma p).
Proof.
  unfold fPseudoVoigtDistribution. destruct (fget_doppler_width _ _ _) as [d| |]; [|discriminate|discriminate]. cbn [bind]. destruct (fget_Gamma _ _ _) as [G| |]; [|discriminate|discriminate]. cbn [bind].
  destruct (fget_eta _ _) as [e| |]; [|discriminate|discriminate]. cbn [bind]. intros [= <-]. cbn [pv_sigma pv_gamma]. split; apply rnd_double.
Qed.
Lemma near_range k n v V : (k <= 100)%nat -> near k v V -> rng n V -> rng (S n) v.
Proof.
  intros K (P & A & B) [R1 R2]. pose proof (half_le_q k K) as H. pose proof (qk_pos k) as Q. pose proof (ipow2_pos n). pose proof (pow2_pos n). split.
  - change (2 ^ S n) with (2 * 2 ^ n). rewrite Rinv_mult. nra.
  - change (2 ^ S n) with (2 * 2 ^ n). nra.
Qed.
Lemma voigt_not_tiny x s g : Rabs x <= 2 ^ 64 -> s = 0 \/ rng 62 s -> rng 62 g -> / 2 ^ 200 <= voigt_profile x s g.
Proof.
  intros X S G. pose proof (rng_pos _ _ G) as Pg. assert (Hs : 0 <= s <= 2 ^ 62). { destruct S as [->|S]; [split; [lra|left; apply pow2_pos]|]. pose proof (rng_pos _ _ S). split; [lra|apply S]. }
  eapply Rle_trans; [|apply voigt_lower; [lra|auto]]. 
  assert (X2 : x ^ 2 <= 2 ^ 128). { rewrite <- pow2_abs. change 128%nat with (64 * 2)%nat. rewrite pow_mult. apply pow_incr. split; [apply Rabs_pos|auto]. }
  assert (S2 : s ^ 2 <= 2 ^ 124). { change 124%nat with (62 * 2)%nat. rewrite pow_mult. apply pow_incr. lra. }
  assert (G2 : g ^ 2 <= 2 ^ 124). { change 124%nat with (62 * 2)%nat. rewrite pow_mult. apply pow_incr. destruct G. lra. }
  assert (L1 : 2 ^ 124 <= 2 ^ 128) by (apply pow2_le; lia). pose proof (pow2_ge_0 x). pose proof (pow2_ge_0 s). assert (0 < g ^ 2) by now apply pow_lt.
  assert (D : 2 * x ^ 2 + 2 * s ^ 2 + g ^ 2 <= 2 ^ 131). { change 131%nat with (3 + 128)%nat. rewrite pow_add. replace (2 ^ 3) with 8 by (simpl; ring). lra. }
  assert (A1 : / 2 ^ 2 <= / PI). { pose proof PI_RGT_0. pose proof PI_4. apply Rinv_le_contravar; [lra|simpl; lra]. }
  assert (A2 : / 2 ^ 62 * / 2 ^ 131 <= g / (2 * x ^ 2 + 2 * s ^ 2 + g ^ 2)). { unfold Rdiv. apply Rmult_le_compat; try (left; apply ipow2_pos). apply G. apply Rinv_le_contravar; [lra|auto]. }
  apply Rle_trans with (/ 2 ^ 2 * (/ 2 ^ 62 * / 2 ^ 131)).
  - rewrite <- !Rinv_mult, <- !pow_add. apply ipow2_le. lia.
  - apply Rmult_le_compat; auto; [left; apply ipow2_pos|]. apply Rmult_le_pos; left; apply ipow2_pos.
Qed.
Lemma correct_profile_ok : profile_ok unit_roundoff correct_profile.
Proof.
  intros x s g _ _ _ X S G. pose proof (voigt_not_tiny x s g X S G) as N. pose proof (ipow2_pos 200). change unit_roundoff with u. unfold correct_profile.
  rewrite <- (Rabs_pos_eq (voigt_profile x s g)) at 3 by lra. apply rnd_rel_any. rewrite Rabs_pos_eq by lra. eapply Rle_trans; [|exact N]. rewrite <- (bpow_neg 200). apply bpow_le. lia.
Qed.
Section Call.
Context (L : pvlib) (HL : pvlib_ok L) (eps : R) (vp : R -> R -> R -> R) (VP : profile_ok eps vp) (He : 0 <= eps <= / 4).
Lemma voigt_value p p' x M : close p' p -> double (pv_sigma p') -> double (pv_gamma p') -> 0 < pv_gamma p -> double x -> Rabs (x - pv_energy p) <= 2 ^ 63 -> 0 <= M -> M * u <= / 100 ->
  (forall y, 0 <= y -> Rabs (y - Rabs (x - pv_energy p)) <= 9 * u * Rabs (x - pv_energy p) ->
     Rabs (voigt_profile y (pv_sigma p) (pv_gamma p) - voigt_profile (Rabs (x - pv_energy p)) (pv_sigma p) (pv_gamma p)) <= M * u * voigt_profile (Rabs (x - pv_energy p)) (pv_sigma p) (pv_gamma p)) ->
  rel (eps * (102 / 100) + (17 + 102 / 100 * M) * u) (vp (fsub x (pv_energy p')) (pv_sigma p') (pv_gamma p')) (voigt_profile (x - pv_energy p) (pv_sigma p) (pv_gamma p)).
Proof.
  intros C D1 D2 Pg Dx BX HM HM' H. pose proof u_pos as U. rewrite (cl_energy _ _ C).
  assert (G : good 1 61 (pv_gamma p') (pv_gamma p)). { destruct (cl_gamma _ _ C) as [G|[_ G]]; auto. lra. }
  destruct (fsub_error x (pv_energy p) Dx (cl_double _ _ C)) as (e & Ee & EQ).
  pose proof (voigt_perturbed (x - pv_energy p) e _ _ _ _ M Pg (cl_sigma _ _ C) (proj1 G) Ee HM HM' H) as R. rewrite <- EQ in R.
  assert (B : Rabs (vp (fsub x (pv_energy p)) (pv_sigma p') (pv_gamma p') - voigt_profile (fsub x (pv_energy p)) (pv_sigma p') (pv_gamma p')) <= eps * voigt_profile (fsub x (pv_energy p)) (pv_sigma p') (pv_gamma p')).
  { apply VP; auto. apply rnd_double.
    - rewrite EQ. rewrite Rabs_mult. change (2 ^ 64) with (2 * 2 ^ 63). rewrite Rmult_comm. apply Rmult_le_compat; auto; try apply Rabs_pos. apply Rabs_le_inv in Ee. pose proof u_tiny. apply Rabs_le. lra.
    - destruct (cl_sigma _ _ C) as [[N R']|[-> _]]; [right|now left]. apply (near_range 7 61 _ (pv_sigma p)); auto. lia.
    - apply (near_range 1 61 _ (pv_gamma p)). lia. apply G. apply G. }
  set (V := voigt_profile (x - pv_energy p) (pv_sigma p) (pv_gamma p)) in *. set (V' := voigt_profile (fsub x (pv_energy p)) (pv_sigma p') (pv_gamma p')) in *. set (v := vp _ _ _) in *.
  assert (UU : u <= / 10000) by (unfold u; simpl pow; lra).
  assert (R2 : (17 + 102 / 100 * M) * u <= 2 / 100). { replace ((17 + 102 / 100 * M) * u) with (17 * u + 102 / 100 * (M * u)) by ring. lra. }
  pose proof (rel_bounds _ _ _ R) as [B1 B2]. destruct R as [P E]. split; auto.
  replace (v - V) with ((v - V') + (V' - V)) by ring. eapply Rle_trans; [apply Rabs_triang|]. assert (eps * V' <= eps * (V * (102 / 100))). { apply Rmult_le_compat_l; [lra|]. eapply Rle_trans; [exact B2|]. apply Rmult_le_compat_l; lra. } lra.
Qed.
Lemma fvoigt_good modern k i m fin amu T w E (a : bool) : floats k i m fin -> width m = Ok w ->
  let E_r := fsub (st_excitation_energy m) (st_excitation_energy i) in let x := if a then E else fadd E E_r in
  pv_params k E_r w amu T -> pv_floats k E_r w amu T -> double E -> Rabs E <= 2 ^ 60 ->
  exists p r s v, PseudoVoigtDistribution k E_r w amu T = Ok p /\ Voigt modern k i (with_energy m (st_excitation_energy i + E_r)) amu T fin = Ok r /\ r_energy r = E_r /\
    res_call r x true = Ok s /\ fVoigt_call L vp k i m amu T fin E a = Ok v /\ 0 < s /\ 0 < pv_gamma p /\
    (Rabs (x - E_r) <= 2 ^ 40 * pv_gamma p -> Rabs (v - s) <= (2 * eps + (42 + 10 * (Rabs (x - E_r) / pv_gamma p)) * u) * s) /\
    (0 < pv_sigma p -> Rabs (x - E_r) <= 2 ^ 20 * pv_sigma p -> Rabs (v - s) <= (2 * eps + (42 + 10 * ((x - E_r) / pv_sigma p) ^ 2) * u) * s).
Proof.
  intros HF HW Er x HP HQ DE BE. destruct (fResonance_good (v_c L) k i m fin (proj1 HL) HF) as (r & Ir & w' & H1 & H2 & H3 & H4 & H5 & H6). destruct (Er_props k i m fin HF) as (DEr & _ & RE).
  fold Er in H1, H2, H3, DEr, RE. rewrite HW in H4. injection H4 as <-.
  assert (Dx : double x) by (unfold x; destruct a; [exact DE|apply rnd_double]).
  assert (Bx : Rabs (x - Er) <= 2 ^ 63).
  { pose proof u_pos. pose proof u_tiny. destruct RE as [R1 R2]. pose proof (ipow2_pos 61). assert (0 < 2 ^ 60) by (apply pow_lt; lra).
    replace (2 ^ 61) with (2 * 2 ^ 60) in R2 by (rewrite <- tech_pow_Rmult; reflexivity). replace (2 ^ 63) with (8 * 2 ^ 60) by (change 63%nat with (3 + 60)%nat; rewrite pow_add; ring).
    apply Rabs_le_inv in BE. unfold x. destruct a.
    - apply Rabs_le. lra.
    - destruct (fadd_error E Er DE DEr) as (e & Hee & ->). apply Rabs_le_inv in Hee. apply Rabs_le. split; nra. }
  destruct (fpv_close L k Er w amu T HL HQ HP) as (p & p' & P1 & P2 & C & Pw & PE). destruct (pv_doubles _ _ _ _ _ _ _ P2) as [D1 D2].
  assert (PG : 0 < pv_gamma p). { destruct (cl_gamma _ _ C) as [[_ R]|[_ Z]]; [now apply rng_pos in R|]. exfalso.
    unfold PseudoVoigtDistribution in P1. destruct (get_doppler_width _ _ _) as [d| |]; try discriminate. cbn [bind] in P1. destruct (get_Gamma _ _) as [G| |]; try discriminate. cbn [bind] in P1. destruct (get_eta _ _) as [e| |]; try discriminate. cbn [bind] in P1. injection P1 as <-. cbn [pv_gamma] in Z. pose proof (rng_pos 60 w H5). lra. }
  assert (SG : 0 <= pv_sigma p) by (destruct (cl_sigma _ _ C) as [[_ R]|[_ ->]]; [apply rng_pos in R; lra|lra]).
  exists p, (with_dist (with_dist r (pv_distribution modern p) []) (voigt_distribution modern p) []), (r_integrated r * voigt_profile (x - Er) (pv_sigma p) (pv_gamma p)), (fmul Ir (vp (fsub x (pv_energy p')) (pv_sigma p') (pv_gamma p'))).
  split; [exact P1|]. split. { unfold Voigt, PseudoVoigt. rewrite H1. cbn [bind]. change (width (with_energy _ _)) with (width m). rewrite HW. cbn [bind]. rewrite H3, P1. cbn [bind with_dist r_energy]. rewrite H3, P1. reflexivity. }
  split; [exact H3|]. split. { unfold res_call. cbn [with_dist r_dist r_params r_integrated voigt_distribution d_pdf no_params]. unfold voigt_pdf. rewrite PE. reflexivity. }
  split. { unfold fVoigt_call. rewrite H2. cbn [bind]. rewrite HW. cbn [bind]. rewrite P2. cbn [bind]. unfold fres_call. fold x. cbv zeta. reflexivity. }
  pose proof (voigt_pos (x - Er) (pv_sigma p) (pv_gamma p) SG PG) as VPos. destruct H6 as [NI RI]. pose proof (rng_pos _ _ RI) as PI'. 
  split; [now apply Rmult_lt_0_compat|]. split; [exact PG|].
  assert (FIN : forall mm, 0 <= mm -> mm * u <= / 8192 -> (forall y, 0 <= y -> Rabs (y - Rabs (x - pv_energy p)) <= 9 * u * Rabs (x - pv_energy p) ->
     Rabs (voigt_profile y (pv_sigma p) (pv_gamma p) - voigt_profile (Rabs (x - pv_energy p)) (pv_sigma p) (pv_gamma p)) <= 91 / 10 * mm * u * voigt_profile (Rabs (x - pv_energy p)) (pv_sigma p) (pv_gamma p)) ->
     Rabs (fmul Ir (vp (fsub x (pv_energy p')) (pv_sigma p') (pv_gamma p')) - r_integrated r * voigt_profile (x - Er) (pv_sigma p) (pv_gamma p)) <= (2 * eps + (42 + 10 * mm) * u) * (r_integrated r * voigt_profile (x - Er) (pv_sigma p) (pv_gamma p))).
  { intros mm M0 M1 HM. assert (BX' : Rabs (x - pv_energy p) <= 2 ^ 63) by (rewrite PE; exact Bx).
    pose proof u_pos as U. assert (UU : u <= / 1000000) by (unfold u; simpl pow; lra). assert (M2 : 91 / 10 * mm * u <= / 100) by lra.
    pose proof (voigt_value p p' x (91 / 10 * mm) C D1 D2 PG Dx BX' ltac:(lra) M2 HM) as R. rewrite PE in R.
    apply near_rel_abs in NI; [|lia]. replace (INR 16 + 1) with 17 in NI by (simpl; ring).
    set (b := eps * (102 / 100) + (17 + 102 / 100 * (91 / 10 * mm)) * u) in *.
    assert (b0 : 0 <= b). { unfold b. assert (0 <= mm * u) by nra. nra. }
    assert (b1 : b <= 3 / 10). { unfold b. replace ((17 + 102 / 100 * (91 / 10 * mm)) * u) with (17 * u + 9282 / 1000 * (mm * u)) by field. lra. }
    assert (Q : rel (17 * u + b + 17 * u * b) (Ir * vp (fsub x (pv_energy p')) (pv_sigma p') (pv_gamma p')) (r_integrated r * voigt_profile (x - Er) (pv_sigma p) (pv_gamma p))) by (apply rel_mult; auto; lra).
    assert (Q' : rel (b + 23 * u) (Ir * vp (fsub x (pv_energy p')) (pv_sigma p') (pv_gamma p')) (r_integrated r * voigt_profile (x - Er) (pv_sigma p) (pv_gamma p))) by (eapply rel_weaken; [|exact Q]; nra).
    apply rel_rnd in Q'; [| |split; lra].
    - destruct Q' as [_ Q']. unfold fmul. eapply Rle_trans; [exact Q'|]. apply Rmult_le_compat_r; [left; now apply Rmult_lt_0_compat|]. unfold b. unfold b in b1.
      assert (0 <= mm * u) by nra. replace ((17 + 102 / 100 * (91 / 10 * mm)) * u) with (17 * u + 9282 / 1000 * (mm * u)) in * by field. replace ((42 + 10 * mm) * u) with (42 * u + 10 * (mm * u)) by ring.
      assert (Y : eps * (102 / 100) + (17 * u + 9282 / 1000 * (mm * u)) + 23 * u <= 1 / 2) by (clear - He M1 UU U; lra). apply (Rmult_le_compat_l u _ _ (Rlt_le _ _ U)) in Y. lra.
    - apply Rle_trans with (/ 2 ^ 446 * / 2 ^ 200).
      + rewrite <- Rinv_mult, <- pow_add, <- bpow_neg. apply bpow_le. lia.
      + apply Rmult_le_compat; try (left; apply ipow2_pos). apply RI. apply voigt_not_tiny. change (2 ^ 64) with (2 * 2 ^ 63). pose proof (pow2_pos 63). lra.
        destruct (cl_sigma _ _ C) as [[_ R']|[_ ->]]; [right|now left]. apply (rng_weaken 61); [lia|auto]. destruct (cl_gamma _ _ C) as [[_ R']|[_ Z]]; [apply (rng_weaken 61); [lia|auto]|lra]. }
  pose proof (Rabs_pos (x - Er)) as A0. pose proof u_pos as U. split.
  - intros B. apply FIN.
    + apply Rmult_le_pos; auto. left; now apply Rinv_0_lt_compat.
    + apply Rle_trans with (2 ^ 40 * u). 2:{ unfold u. simpl pow. lra. } apply Rmult_le_compat_r; [lra|]. apply Rmult_le_reg_r with (pv_gamma p); auto. unfold Rdiv. rewrite Rmult_assoc, Rinv_l by lra. lra.
    + rewrite PE. intros y Y0 Y1. now apply shift_lorentz.
  - intros S0 B. replace (((x - Er) / pv_sigma p) ^ 2) with ((Rabs (x - Er) / pv_sigma p) ^ 2) by (unfold Rdiv; rewrite !Rpow_mult_distr, pow2_abs; reflexivity). apply FIN.
    + apply pow2_ge_0.
    + apply Rle_trans with (2 ^ 40 * u). 2:{ unfold u. simpl pow. lra. } apply Rmult_le_compat_r; [lra|]. change 40%nat with (20 * 2)%nat. rewrite pow_mult. apply pow_incr. split.
      apply Rmult_le_pos; auto. left; now apply Rinv_0_lt_compat. apply Rmult_le_reg_r with (pv_sigma p); auto. unfold Rdiv. rewrite Rmult_assoc, Rinv_l by lra. lra.
    + rewrite PE. intros y Y0 Y1. now apply shift_gauss.
Qed.
End Call.

Lemma profile_sensitivity s g : 0 <= s -> 0 < g ->
  (forall x h z, 0 <= z -> Rabs h <= z * g -> Rabs (voigt_profile (x + h) s g - voigt_profile x s g) <= (z + z ^ 2) * voigt_profile x s g) /\
  (forall x, g / (2 * x ^ 2 + 2 * s ^ 2 + g ^ 2) / PI <= voigt_profile x s g) /\
  (forall x c, 0 < c -> voigt_profile (c * x) (c * s) (c * g) = voigt_profile x s g / c).
Proof.
  intros Hs Hg. split; [|split].
  - intros x h z Hz H. now apply voigt_shift.
  - intros x. eapply Rle_trans; [|now apply voigt_lower]. unfold Rdiv. rewrite (Rmult_comm _ (/ PI)). lra.
  - intros x c Hc. rewrite voigt_scale by auto. unfold Rdiv. ring.
Qed.
Lemma unit_quarter : 0 <= unit_roundoff <= / 4.
Proof. change unit_roundoff with u. pose proof u_pos. pose proof u_tiny. split; [lra|]. unfold u. simpl pow. lra. Qed.
Lemma voigt_case : floats lost_k lost_i lost_m None /\ width lost_m = Ok (/ 2 ^ 60) /\
  (let E_r := fsub (st_excitation_energy lost_m) (st_excitation_energy lost_i) in pv_params lost_k E_r (/ 2 ^ 60) 1000 0 /\ pv_floats lost_k E_r (/ 2 ^ 60) 1000 0) /\
  double 1 /\ Rabs 1 <= 2 ^ 60.
Proof.
  destruct call_example as (A & B & C). split; [exact A|]. split; [exact B|]. split; [exact C|]. split; [apply double_IZR; simpl; lia|]. rewrite Rabs_R1. simpl pow. lra.
Qed.
