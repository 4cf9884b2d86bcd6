(** A target that meets the hypotheses of C113. *)
From Coq Require Import Reals List ZArith Lra Lia Psatz.
From Flocq Require Import Core BinarySingleNaN.
From Verif Require Import Py M_Num M_Constituents M_Thermal M_Dist M_Resonance M_PseudoVoigt S_PseudoVoigt M_Notebook M_Float S_Float M_Float4 S_Float4 M_Float8 S_Float8 M_Float11 S_Float11 S_Float14 M_Float13 S_Float15 M_Float14 S_Float16
  M_Ieee M_Ieee2 S_Ieee S_Ieee7 M_Ieee8 S_Ieee8 L_Float2 L_Float3 L_Float7 L_Float10 L_Float32 L_Float46 L_Float49 L_Float53 L_Float55 L_Float56 L_Float57 L_Ieee L_Ieee5 L_Ieee9 L_Ieee34 L_Ieee35 L_Float.
Open Scope R_scope.

Definition tin : cross_section := fun E => fVoigt_call correct_pvlib correct_profile ieee_k lost_i wide_m 1000 0 None E true.
Lemma tin_value : exists r s v, res_call r 1 true = Ok s /\ tin 1 = Ok v /\ double v /\ 0 < s <= bpow radix2 504 /\ 0 <= v /\ Rabs (v - s) <= / 2 ^ 30 * s.
Proof.
  destruct integral_example as (SR & p & P & _ & _ & VE & _). destruct SR as (KV & _ & Sc & Fl & Ew & Pp & Pf & Ra & Rt & Si & Sm & Sf).
  destruct easy_example as (_ & _ & ER & _). destruct (Z_rep 1 ltac:(lia)) as [F1 E1]. assert (R1 : rep (of_Z 1) 1) by (split; assumption). assert (I1 : Rabs 1 <= 2 ^ 60) by (rewrite Rabs_R1; apply pow_R1_Rle; lra).
  destruct (voigt_bounded correct_blib correct_pvlib (of_constants ieee_k) ieee_k (of_state lost_i) lost_i (of_state wide_m) wide_m None None (of_Z 1000) 1000 (of_Z 0) 0 (/ 2 ^ 10) KV correct_pv_same Sc Fl Ew Pp Pf Ra Rt Si Sm Sf correct_profile correct_bprofile unit_roundoff (of_Z 1) 1 true correct_profile_ok unit_quarter correct_bprofile_same R1 I1) as (b & v & _ & Hv & [_ Bv]).
  destruct (fvoigt_good correct_pvlib KV unit_roundoff correct_profile correct_profile_ok unit_quarter true ieee_k lost_i wide_m None 1000 0 (/ 2 ^ 10) 1 true Fl Ew Pp Pf (rep_double _ _ R1) I1) as (p0 & r & s & v0 & P1 & P2 & PE & P3 & P4 & P5 & Pg & P6 & P7). cbv iota zeta in P3, P6, P7. rewrite P in P1. injection P1 as <-. rewrite Hv in P4. injection P4 as <-.
  specialize (VE (B2R (of_Z 1)) ltac:(simpl; auto)). destruct VE as [_ VE]. rewrite E1 in VE.
  assert (B : Rabs (v - s) <= / 2 ^ 30 * s). { destruct VE as [[X1 X2]|(X0 & X1 & X2)]; [specialize (P6 X1); eapply Rle_trans; [exact P6|]|specialize (P7 X0 X1); eapply Rle_trans; [exact P7|]]; (apply Rmult_le_compat_r; [left; exact P5|exact X2]). }
  assert (S16 : / 2 ^ 30 * s <= / 16 * s) by (apply Rmult_le_compat_r; [lra|simpl; lra]). pose proof (Rabs_le_inv _ _ B) as B'. assert (V0 : 0 <= v) by lra. rewrite Rabs_pos_eq in Bv by exact V0.
  exists r, s, v. split; [exact P3|]. split; [exact Hv|]. split; [exact (voigt_double _ _ _ _ _ _ _ _ _ _ _ Hv)|]. split; [|split; [exact V0|exact B]]. split; [exact P5|]. change 504%Z with (503 + 1)%Z. rewrite bpow_plus. change (bpow radix2 1) with 2. lra.
Qed.
Definition thin_f : ftarget := {| f_nr := fun _ => Ok 1; f_116 := tin; f_112 := tin; f_enrichment_116 := 1; f_enrichment_112 := 1;
  f_I := bpow radix2 (-510); f_II := bpow radix2 (-510); f_III := bpow radix2 (-510); f_IV := bpow radix2 (-510) |}.
Lemma target_case : exists t n p q, 0 < n /\ 0 < p /\ 0 < q /\ (exists n' p' q', target_at thin_f 1 n' p' q') /\ same_target (/ 2 ^ 30) thin_f t 1 /\
  t_nr t 1 = Ok n /\ sigma_116 t 1 = Ok p /\ sigma_112 t 1 = Ok q /\ 0 <= / 2 ^ 30 <= / 16 /\
  (n + t_enrichment_116 t * p) * rho_IV t <= 150 /\ (n + t_enrichment_112 t * q) * rho_IV t <= 150 /\
  target_error (/ 2 ^ 30) (rho_IV t) (n + t_enrichment_116 t * p) <= / 2 ^ 20 /\ target_error (/ 2 ^ 30) (rho_IV t) (n + t_enrichment_112 t * q) <= / 2 ^ 20 /\ / 2 ^ 20 <= / 16.
Proof.
  destruct tin_value as (r & s & v & P3 & Hv & Dv & [S0 S1] & V0 & B). assert (D1 : double 1) by (apply (double_IZR 1); simpl; lia).
  set (d := bpow radix2 (-510)). assert (Dd : double d) by (apply bpow_double; lia). assert (d0 : 0 < d) by apply bpow_gt_0.
  assert (SD : s * d <= / 64). { apply Rle_trans with (bpow radix2 504 * d); [apply Rmult_le_compat_r; lra|]. unfold d. rewrite <- bpow_plus. change (bpow radix2 (504 + -510)) with (/ 64). lra. }
  assert (d1 : d <= / 64) by (change (/ 64) with (bpow radix2 (-6)); apply bpow_le; lia).
  exists {| t_nr := fun _ => Ok 1; t_116 := r; t_112 := r; t_enrichment_116 := 1; t_enrichment_112 := 1; t_I := d; t_II := d; t_III := d; t_IV := d |}, 1, s, s.
  unfold target_at, same_target, sigma_116, sigma_112, rho_IV, rho_III, rho_II, rho_I, rho_0. cbn [thin_f f_nr f_116 f_112 f_enrichment_116 f_enrichment_112 f_I f_II f_III f_IV t_nr t_116 t_112 t_enrichment_116 t_enrichment_112 t_I t_II t_III t_IV]. fold d.
  assert (C1 : close_value (/ 2 ^ 30) (fun _ => Ok 1) 1 (fun _ => Ok 1) 1). { exists 1, 1. repeat split; auto; try lra. replace (1 - 1) with 0 by ring. rewrite Rabs_R0. simpl. lra. }
  assert (C2 : close_value (/ 2 ^ 30) tin 1 (fun E => res_call r E true) 1) by (exists v, s; repeat split; auto; lra).
  assert (L : (1 + 1 * s) * (0 + d + d + d + d) <= 1) by (replace ((1 + 1 * s) * (0 + d + d + d + d)) with (4 * d + 4 * (s * d)) by ring; lra). assert (L0 : 0 <= (1 + 1 * s) * (0 + d + d + d + d)) by (apply Rmult_le_pos; lra).
  assert (TE : target_error (/ 2 ^ 30) (0 + d + d + d + d) (1 + 1 * s) <= / 2 ^ 20).
  { unfold target_error. rewrite u_unit, <- eta_half. set (T := (1 + 1 * s) * _) in *. clearbody T. pose proof u_pos as U. pose proof eta_u as EU. pose proof eta_pos as E0. assert (U2 : u <= / 2 ^ 40) by (rewrite <- u_unit; unfold unit_roundoff; simpl; lra).
    assert (A : (/ 2 ^ 30 + 9 * u) * T <= (/ 2 ^ 30 + 9 * u) * 1) by (apply Rmult_le_compat_l; [simpl; lra|lra]). assert (3 * eta * (0 + d + d + d + d + 1) <= 3 * eta * 2) by (apply Rmult_le_compat_l; lra). simpl in *. lra. }
  split; [lra|]. split; [exact S0|]. split; [exact S0|]. split; [exists 1, v, v; repeat split; auto; lra|]. split; [repeat (split; [assumption || reflexivity || lra|]); lra|]. split; [reflexivity|]. split; [exact P3|]. split; [exact P3|].
  split; [simpl; lra|]. split; [lra|]. split; [lra|]. split; [exact TE|]. split; [exact TE|]. simpl; lra.
Qed.
