(** Attenuation by a Voigt profile with infinities and nan. *)
From Coq Require Import Reals List ZArith Bool Lra Lia Psatz.
From Flocq Require Import Core BinarySingleNaN.
From Verif Require Import Py M_Num M_Constituents M_Thermal M_Dist M_CrossSection M_Resonance M_PseudoVoigt S_PseudoVoigt M_Notebook M_Float S_Float M_Float4 S_Float4 M_Float8 S_Float8 M_Float11 S_Float11 S_Float14 M_Float13
  M_Ieee M_Ieee2 S_Ieee S_Ieee6 M_Ieee8 S_Ieee8 M_Ieee9 S_Ieee9 S_Ieee7 L_Float L_Float10 L_Float46 L_Float49 L_Float53 L_Float54 L_Float55 L_Ieee L_Ieee5 L_Ieee9 L_Ieee34 L_Ieee35 L_Ieee36.
Open Scope R_scope.

Lemma bvoigt_flux L V B k bi i bm m bfin fin bamu amu bT T w : pvlib_ok V -> same_pvlib L V -> same_constants B k -> floats k i m fin -> width m = Ok w ->
  let E_r := fsub (st_excitation_energy m) (st_excitation_energy i) in pv_params k E_r w amu T -> pv_floats k E_r w amu T ->
  rep bamu amu -> rep bT T -> same_state bi i -> same_state bm m -> same_final bfin fin ->
  forall vp bvp eps E x be ex p delta rho rho', profile_ok eps vp -> 0 <= eps <= / 4 -> same_profile bvp vp -> rep E x -> Rabs x <= 2 ^ 60 ->
  exp_special be -> same_exp be ex -> PseudoVoigtDistribution k E_r w amu T = Ok p -> voigt_error p eps E_r delta (fadd x E_r) -> delta <= 1 -> rep rho rho' -> 0 <= rho' <= 2 ^ 300 ->
  let bs := fun E => bVoigt_call L bvp B bi bm bamu bT bfin E false in let fs := fun E => fVoigt_call V vp k i m amu T fin E false in
  exists s f q f' q', bs E = Ok s /\ bphoton_flux_density be bs E rho = Ok f /\ bresonance_absorption_density be bs E rho = Ok q /\
    fphoton_flux_density ex fs x rho' = Ok f' /\ fresonance_absorption_density ex fs x rho' = Ok q' /\
    rep f f' /\ rep q q' /\ fraction f /\ finite q /\ 0 <= B2R q <= B2R s.
Proof.
  intros KV SV Sc Fl Ew E_r Pp Pf Ra Rt Si Sm Sf vp bvp eps E x be ex p delta rho rho' KP He SP RE Hx EX SE Ep VE Hd Rr Br bs fs.
  destruct (voigt_bounded L V B k bi i bm m bfin fin bamu amu bT T w KV SV Sc Fl Ew Pp Pf Ra Rt Si Sm Sf vp bvp eps E x false KP He SP RE Hx) as (v & v' & H1 & H2 & W).
  destruct (fvoigt_good V KV eps vp KP He false k i m fin amu T w x false Fl Ew Pp Pf (rep_double _ _ RE) Hx) as (p0 & r & s & v0 & P1 & P2 & PE & P3 & P4 & P5 & Pg & P6 & P7). fold E_r in P1, P6, P7. cbv iota zeta in P3, P6, P7. rewrite Ep in P1. injection P1 as <-. rewrite H2 in P4. injection P4 as <-. fold E_r in P6, P7.
  assert (BB : Rabs (v' - s) <= delta * s). { destruct VE as [[E1 E2]|(E0 & E1 & E2)]; [specialize (P6 E1); eapply Rle_trans; [exact P6|]|specialize (P7 E0 E1); eapply Rle_trans; [exact P7|]]; (apply Rmult_le_compat_r; [left; exact P5|exact E2]). }
  assert (V0 : 0 <= v'). { apply Rabs_le_inv in BB. assert (delta * s <= 1 * s) by (apply Rmult_le_compat_r; lra). lra. }
  pose proof W as [[Fv Ev] Bv]. pose proof Rr as [Fr Er].
  destruct (flux_number be bs E rho v EX H1 Fv ltac:(lra) Fr ltac:(lra)) as (f & q & Q1 & Q2 & Q3 & Q4 & Q5).
  assert (P2' : 2 ^ 300 = bpow radix2 300). { change 300%nat with (Z.to_nat 300). rewrite <- (IZR_Zpower radix2 300) by lia. rewrite pow_IZR. f_equal. } rewrite P2' in Br.
  assert (Wr : bnd rho rho' 300) by (split; [exact Rr|rewrite Rabs_pos_eq; lra]). pose proof (bnd_mul _ _ _ _ _ _ (bnd_opp _ _ _ W) Wr ltac:(lia)) as W4.
  assert (N : fmul (- v') rho' <= 0). { unfold fmul. replace (- v' * rho') with (- (v' * rho')) by ring. rewrite rnd_opp. pose proof (rnd_nonneg (v' * rho') (Rmult_le_pos _ _ V0 (proj1 Br))). lra. }
  pose proof (SE _ _ (bnd_rep _ _ _ W4) N) as R5.
  assert (W5 : bnd (be (bmul (bopp v) rho)) (ex (fmul (- v') rho')) 0). { split; [exact R5|]. destruct EX as (_ & _ & K). destruct (bnd_rep _ _ _ W4) as [F4 E4]. destruct (K _ F4 ltac:(lra)) as [_ I]. destruct R5 as [_ <-]. rewrite Rabs_pos_eq by lra. simpl. lra. }
  exists v, f, q, (ex (fmul (- v') rho')), (fmul v' (ex (fmul (- v') rho'))). split; [exact H1|]. split; [exact Q1|]. split; [exact Q2|].
  unfold fphoton_flux_density, fresonance_absorption_density, fphoton_flux_density. unfold fs at 1 2 3. rewrite H2. cbn [bind]. split; [reflexivity|]. split; [reflexivity|].
  unfold bresonance_absorption_density, bphoton_flux_density in Q1, Q2. unfold bs in Q1, Q2. rewrite H1 in Q1, Q2. cbn [bind] in Q1, Q2. 
  assert (f = be (bmul (bopp v) rho)) as -> by congruence. assert (q = bmul v (be (bmul (bopp v) rho))) as -> by congruence.
  split; [exact R5|]. split; [exact (bnd_rep _ _ _ (bnd_mul _ _ _ _ _ _ W W5 ltac:(lia)))|]. auto.
Qed.

Lemma line_case : let E_r := fsub (st_excitation_energy wide_m) (st_excitation_energy lost_i) in
  same_resonance correct_library correct_pvlib (of_constants ieee_k) ieee_k (of_state lost_i) lost_i (of_state wide_m) wide_m None None (of_Z 1000) 1000 (of_Z 0) 0 (/ 2 ^ 10) /\
  exists p, PseudoVoigtDistribution ieee_k E_r (/ 2 ^ 10) 1000 0 = Ok p /\ voigt_error p unit_roundoff E_r (/ 2 ^ 30) (fadd 0 E_r) /\
    rep (of_Z 0) 0 /\ Rabs 0 <= 2 ^ 60 /\ / 2 ^ 30 <= 1 /\ rep (of_Z 3) 3 /\ 0 <= 3 <= 2 ^ 300.
Proof.
  intros E_r. destruct integral_example as (SR & p & P & _ & _ & VE & _). split; [exact SR|]. exists p. split; [exact P|].
  assert (X : fadd 0 E_r = B2R (of_Z 1)). { destruct easy_example as (_ & _ & C & _). unfold E_r. rewrite C. destruct (Z_rep 1 ltac:(lia)) as [_ ->]. unfold fadd. rewrite Rplus_0_l. apply rnd_id, (double_IZR 1); simpl; lia. }
  rewrite X. split; [apply VE; simpl; auto|]. split; [apply (Z_rep 0); lia|]. split; [rewrite Rabs_R0; apply pow_le; lra|]. split; [simpl; lra|]. split; [apply (Z_rep 3); lia|]. split; [lra|].
  apply Rle_trans with (2 ^ 2); [simpl; lra|]. apply Rle_pow; [lra|lia].
Qed.
