(** Two separate lines: the sums on the common grid do not enclose the integral. *)
From Coq Require Import Reals List ZArith String Lra Lia Sorted.
From Coquelicot Require Import Coquelicot.
From Verif Require Import Py Spec M_Num M_Grid M_Constituents M_Thermal M_Dist M_Resonance M_CrossSection M_Darboux
  S_CrossSection S_Resonance S_Sums L_RInt L_Grid L_CrossSection L_CrossSection2 L_Darboux L_Darboux2 L_Integration
  L_Dist L_Resonance L_Resonance2 L_Resonance3 L_Resonance4 L_Resonance5 L_Resonance6 L_Axis L_Sums L_Sums2.
Import ListNotations.
Open Scope R_scope.

Lemma bw_quartiles k i m fin r w : BreitWigner k i m fin = Ok r -> width m = Ok w -> 0 < w ->
  snd (res_probability_grid r (Coverage (1 / 2)) 3) = Ok (Some (map Finite [r_energy r - w / 2; r_energy r; r_energy r + w / 2])).
Proof.
  intros H W Hw. destruct (breit_wigner_density _ _ _ _ _ _ H W Hw) as (HD & HQ & HM). pose proof (proj1 HD) as D.
  unfold res_probability_grid. cbn [bind]. rewrite (linspace_ok _ _ 3 ltac:(lia)).
  destruct (HQ _ (linspace_in (1 / 2 * (1 - 1 / 2)) (1 / 2 * (1 + 1 / 2)) 3 ltac:(lia) ltac:(lra) ltac:(lra) ltac:(lra)))
    as (ws & xs & E & F2). rewrite E. cbn [snd].
  destruct (quantiles_of _ _ D (1 / 2 * (1 - 1 / 2)) (1 / 2 * (1 + 1 / 2)) 3 xs ltac:(lia) ltac:(lra) ltac:(lra) ltac:(lra) F2) as (x & -> & HF & H0 & H1).
  change (Z.to_nat 3) with 3%nat in *. cbn [seq map]. pose proof PI_RGT_0. change (3 - 1)%Z with 2%Z in *.
  assert (A1 : x 0%nat = r_energy r - w / 2).
  { apply (dens_inj _ _ D). rewrite HF by lia. unfold cauchy_cdf. 
    replace ((r_energy r - w / 2 - r_energy r) / (1 / 2 * w)) with (- (1)) by (field; lra). rewrite atan_opp, atan_1. cbn [INR]. field. lra. }
  assert (A2 : x 1%nat = r_energy r).
  { apply (dens_inj _ _ D). rewrite HM, HF by lia. cbn [INR]. lra. }
  assert (A3 : x 2%nat = r_energy r + w / 2).
  { apply (dens_inj _ _ D). rewrite HF by lia. unfold cauchy_cdf. 
    replace ((r_energy r + w / 2 - r_energy r) / (1 / 2 * w)) with 1 by (field; lra). rewrite atan_1. cbn [INR]. field. lra. }
  rewrite A1, A2, A3. reflexivity.
Qed.

Lemma two_lines_grid k i m1 m2 fin r1 r2 w : BreitWigner k i m1 fin = Ok r1 -> BreitWigner k i m2 fin = Ok r2 ->
  width m1 = Ok w -> width m2 = Ok w -> 0 < w -> r_energy r1 + w < r_energy r2 ->
  pgrid (spectrum [(1, r1); (1, r2)]) (Coverage (1 / 2)) 3 = Ok (Some (map Finite
    [r_energy r1 - w / 2; r_energy r1; r_energy r1 + w / 2; r_energy r2 - w / 2; r_energy r2; r_energy r2 + w / 2])).
Proof.
  intros H1 H2 W1 W2 Hw Hr.
  destruct (spectrum_grid [(1, r1); (1, r2)] (1 / 2) 3) as (g & E & S & N & M); [discriminate| |lra|lia|].
  { intros p [<-|[<-|[]]]; left; eauto 10. }
  rewrite E. do 2 f_equal. pose proof (pgrid_sorted _ _ _ _ _ E) as S'.
  apply ssorted_ext; [exact S'|repeat constructor; cbn; lra|].
  intros x. split.
  - intros X. apply in_map_iff in X. destruct X as (t & <- & X). apply in_map. apply M in X. destruct X as (p & l & Hp & El & X).
    destruct Hp as [<-|[<-|[]]]; cbn [snd] in El.
    + rewrite (bw_quartiles _ _ _ _ _ _ H1 W1 Hw) in El. injection El as El. 
      assert (In (Finite t) (map Finite l)) as K by now apply in_map. rewrite <- El in K.
      destruct K as [K|[K|[K|[]]]]; injection K as <-; cbn; tauto.
    + rewrite (bw_quartiles _ _ _ _ _ _ H2 W2 Hw) in El. injection El as El. 
      assert (In (Finite t) (map Finite l)) as K by now apply in_map. rewrite <- El in K.
      destruct K as [K|[K|[K|[]]]]; injection K as <-; cbn; tauto.
  - intros X. apply in_map_iff in X. destruct X as (t & <- & X). apply in_map. apply M.
    assert (In t [r_energy r1 - w / 2; r_energy r1; r_energy r1 + w / 2] \/ In t [r_energy r2 - w / 2; r_energy r2; r_energy r2 + w / 2]) as [K|K] by (cbn in *; tauto).
    + exists (1, r1), [r_energy r1 - w / 2; r_energy r1; r_energy r1 + w / 2]. split; [now left|]. split; [|exact K]. eapply bw_quartiles; eassumption.
    + exists (1, r2), [r_energy r2 - w / 2; r_energy r2; r_energy r2 + w / 2]. split; [right; now left|]. split; [|exact K]. eapply bw_quartiles; eassumption.
Qed.

(** Lines of equal width at a large distance. *)
Lemma two_lines_overestimate k i m1 m2 fin r1 r2 w : BreitWigner k i m1 fin = Ok r1 -> BreitWigner k i m2 fin = Ok r2 ->
  width m1 = Ok w -> width m2 = Ok w -> 0 < w -> 0 < r_integrated r1 -> 0 < r_integrated r2 ->
  Rmin (r_integrated r1) (r_integrated r2) * (r_energy r2 - r_energy r1 - w) > PI * w * (r_integrated r1 + r_integrated r2) ->
  exists g L d f, pgrid (spectrum [(1, r1); (1, r2)]) (Coverage (1 / 2)) 3 = Ok (Some (map Finite g)) /\
    darboux (of_value (spectrum [(1, r1); (1, r2)])) g = Ok (L, d) /\
    (forall E, call (spectrum [(1, r1); (1, r2)]) E = Ok (f E)) /\
    integral_over_axis f (r_integrated r1 + r_integrated r2) /\ RInt f (first g) (final g) < L.
Proof.
  intros H1 H2 W1 W2 Hw P1 P2 K. pose proof PI_RGT_0 as HP.
  assert (Hd : r_energy r1 + w < r_energy r2).
  { assert (0 < Rmin (r_integrated r1) (r_integrated r2)) by (apply Rmin_glb_lt; assumption).
    assert (0 < PI * w * (r_integrated r1 + r_integrated r2)) by (apply Rmult_lt_0_compat; [apply Rmult_lt_0_compat; assumption|lra]).
    nra. }
  pose proof (two_lines_grid _ _ _ _ _ _ _ _ H1 H2 W1 W2 Hw Hd) as G.
  set (g := [r_energy r1 - w / 2; r_energy r1; r_energy r1 + w / 2; r_energy r2 - w / 2; r_energy r2; r_energy r2 + w / 2]) in *.
  destruct (breit_wigner_density _ _ _ _ _ _ H1 W1 Hw) as (HD1 & _ & _). destruct (breit_wigner_density _ _ _ _ _ _ H2 W2 Hw) as (HD2 & _ & _).
  set (f1 := cauchy_pdf (r_energy r1) (1 / 2 * w)) in *. set (f2 := cauchy_pdf (r_energy r2) (1 / 2 * w)) in *.
  set (f := fun E => r_integrated r1 * f1 E + r_integrated r2 * f2 E).
  assert (C : forall E, call (spectrum [(1, r1); (1, r2)]) E = Ok (f E)).
  { intros E. rewrite (spectrum_call _ [(fun E => r_integrated r1 * f1 E); (fun E => r_integrated r2 * f2 E)]).
    - f_equal. unfold wsum, f. cbn. ring.
    - constructor; [apply (res_value _ _ _ HD1)|]. constructor; [apply (res_value _ _ _ HD2)|constructor]. }
  assert (Ax : integral_over_axis f (r_integrated r1 + r_integrated r2)).
  { apply axis_plus; eapply dens_axis_scal; [apply HD1|apply HD2]. }
  assert (Sa : ascending g). { apply strict_ascending. unfold g. repeat constructor; lra. }
  assert (Pos1 : forall E, 0 < f1 E) by (intros; apply (dens_pos _ _ (proj1 HD1))).
  assert (Pos2 : forall E, 0 < f2 E) by (intros; apply (dens_pos _ _ (proj1 HD2))).
  assert (Pos : forall E, 0 < f E).
  { intros E. unfold f. specialize (Pos1 E). specialize (Pos2 E). nra. }
  assert (Da : darboux (of_value (spectrum [(1, r1); (1, r2)])) g = Ok (lower f g, upper f g - lower f g)).
  { destruct (darboux_value (spectrum [(1, r1); (1, r2)]) g) as [_ Q]; [discriminate|intros E _; eexists; apply C|].
    destruct (Q eq_refl) as (f' & Hf & ->). 
    replace (darboux (vectorized f') g) with (darboux (vectorized f) g); [apply darboux_ascending; [discriminate|exact Sa]|].
    unfold darboux, vectorized. cbn [bind]. replace (map f' g) with (map f g); [reflexivity|].
    apply map_ext_in. intros E HE. specialize (Hf E HE). rewrite C in Hf. now injection Hf. }
  exists g, (lower f g), (upper f g - lower f g), f. split; [exact G|]. split; [exact Da|]. split; [exact C|]. split; [exact Ax|].
  assert (T : RInt f (first g) (final g) <= r_integrated r1 + r_integrated r2).
  { apply axis_part; [intros; now apply Rlt_le|exact Ax|]. unfold g, first, final; cbn. lra. }
  eapply Rle_lt_trans; [exact T|].
  assert (V1 : f1 (r_energy r1 + w / 2) = / (PI * w)).
  { unfold f1, cauchy_pdf. f_equal. replace ((r_energy r1 + w / 2 - r_energy r1) / (1 / 2 * w)) with 1 by (field; lra). field. }
  assert (V2 : f2 (r_energy r2 - w / 2) = / (PI * w)).
  { unfold f2, cauchy_pdf. f_equal. replace ((r_energy r2 - w / 2 - r_energy r2) / (1 / 2 * w)) with (-1) by (field; lra). field. }
  set (mn := Rmin (r_integrated r1) (r_integrated r2)) in *.
  assert (Hpw : 0 < PI * w) by (apply Rmult_lt_0_compat; assumption).
  assert (Hiw : 0 < / (PI * w)) by (apply Rinv_0_lt_compat; assumption).
  assert (M1 : mn * / (PI * w) <= f (r_energy r1 + w / 2)).
  { unfold f. rewrite V1. pose proof (Pos2 (r_energy r1 + w / 2)). assert (mn <= r_integrated r1) by apply Rmin_l. nra. }
  assert (M2 : mn * / (PI * w) <= f (r_energy r2 - w / 2)).
  { unfold f. rewrite V2. pose proof (Pos1 (r_energy r2 - w / 2)). assert (mn <= r_integrated r2) by apply Rmin_r. nra. }
  assert (Q : forall a b, 0 < Rmin (f a) (f b)) by (intros; apply Rmin_glb_lt; apply Pos).
  assert (MM : mn * / (PI * w) <= Rmin (f (r_energy r1 + w / 2)) (f (r_energy r2 - w / 2))) by now apply Rmin_glb.
  unfold g. rewrite !lower_cons. 
  assert (Z : lower f [r_energy r2 + w / 2] = 0) by reflexivity. rewrite Z.
  pose proof (Q (r_energy r1 - w / 2) (r_energy r1)). pose proof (Q (r_energy r1) (r_energy r1 + w / 2)).
  pose proof (Q (r_energy r2 - w / 2) (r_energy r2)). pose proof (Q (r_energy r2) (r_energy r2 + w / 2)).
  assert (B : r_integrated r1 + r_integrated r2 < mn * / (PI * w) * (r_energy r2 - r_energy r1 - w)).
  { apply (Rmult_lt_reg_l (PI * w)); [exact Hpw|]. 
    replace (PI * w * (mn * / (PI * w) * (r_energy r2 - r_energy r1 - w))) with (mn * (r_energy r2 - r_energy r1 - w)) by (field; lra). lra. }
  assert (B' : mn * / (PI * w) * (r_energy r2 - r_energy r1 - w) <= Rmin (f (r_energy r1 + w / 2)) (f (r_energy r2 - w / 2)) * (r_energy r2 - w / 2 - (r_energy r1 + w / 2))).
  { replace (r_energy r2 - w / 2 - (r_energy r1 + w / 2)) with (r_energy r2 - r_energy r1 - w) by field. apply Rmult_le_compat_r; lra. }
  generalize dependent (Rmin (f (r_energy r1 + w / 2)) (f (r_energy r2 - w / 2))). intros. nra.
Qed.

Open Scope string_scope.
Definition narrow (E : R) : state :=
  {| st_J_pi := "1^-"; st_two_J := 2; st_parity := -1; st_excitation_energy := E;
     st_decays := Some ([("0^+", 1 / 100)], 1 / 100) |}.
Lemma narrow_ok E : State "1^-" 2 (-1) E [("0^+", 1 / 100)] = Ok (narrow E).
Proof.
  unfold State. cbn. unfold narrow, py_sum_R. cbn. replace (0 + 1 / 100) with (1 / 100) by ring. reflexivity.
Qed.
Lemma narrow_line E : 0 < E -> exists r, BreitWigner codata ground (narrow E) None = Ok r /\ r_energy r = E /\
  r_integrated r = (PI * k_hbarc codata) ^ 2 * (3 / 100) / E ^ 2.
Proof.
  intros HE. destruct (BreitWigner codata ground (narrow E) None) as [r| |e] eqn:H.
  - exists r. split; [reflexivity|]. destruct (breit_wigner_inv _ _ _ _ _ H) as (r0 & w & H0 & W & ->). cbn [with_dist r_energy r_integrated].
    destruct (resonance_inv _ _ _ _ _ _ H0) as (E_r & pw & w' & g0 & br & He & NE & NJ & Dm & G0 & B0 & HR).
    unfold NoRecoil in He. cbn in He. injection He as <-. injection Dm as <- <-. injection G0 as <-. injection B0 as <-.
    destruct HR as (_ & _ & _ & -> & _ & _ & _ & -> & _). replace (E - 0) with E by ring. split; [reflexivity|].
    unfold ground, narrow; cbn [st_two_J GroundState]. field. lra.
  - exfalso. revert H. unfold BreitWigner, Resonance, NoRecoil, get_statistical_factor, get_energy_integrated_cross_section, fdiv. cbn.
    destruct (Req_EM_T _ 0); cbn; [discriminate|]. destruct (Req_EM_T _ 0); cbn; discriminate.
  - exfalso. revert H. unfold BreitWigner, Resonance, NoRecoil, get_statistical_factor, get_energy_integrated_cross_section, fdiv. cbn.
    destruct (Req_EM_T _ 0) as [K|K]; cbn; [exfalso; lra|]. destruct (Req_EM_T _ 0) as [K'|K']; cbn; [|discriminate].
    exfalso. assert (0 < (E - 0) * (E - 0)) by nra. lra.
Qed.
Lemma two_lines_example : exists r1 r2, line r1 /\ line r2 /\
  exists g L d f, pgrid (spectrum [(1, r1); (1, r2)]) (Coverage (1 / 2)) 3 = Ok (Some (map Finite g)) /\
    darboux (of_value (spectrum [(1, r1); (1, r2)])) g = Ok (L, d) /\
    (forall E, call (spectrum [(1, r1); (1, r2)]) E = Ok (f E)) /\
    integral_over_axis f (r_integrated r1 + r_integrated r2) /\ RInt f (first g) (final g) < L.
Proof.
  destruct (narrow_line 1 ltac:(lra)) as (r1 & H1 & E1 & I1). destruct (narrow_line 2 ltac:(lra)) as (r2 & H2 & E2 & I2).
  assert (W : forall E, width (narrow E) = Ok (1 / 100)) by reflexivity.
  exists r1, r2. split; [left; exists codata, ground, (narrow 1), None, (1 / 100); repeat split; [exact H1|lra]|].
  split; [left; exists codata, ground, (narrow 2), None, (1 / 100); repeat split; [exact H2|lra]|].
  pose proof PI_RGT_0 as HP. pose proof PI_4 as HP4.
  assert (Hh : 0 < k_hbarc codata) by (cbn; lra).
  assert (Hc : 0 < (PI * k_hbarc codata) ^ 2) by (apply pow_lt; apply Rmult_lt_0_compat; assumption).
  set (c := (PI * k_hbarc codata) ^ 2) in *. clearbody c.
  apply (two_lines_overestimate codata ground (narrow 1) (narrow 2) None r1 r2 (1 / 100) H1 H2 (W _) (W _)); [lra|rewrite I1; lra|rewrite I2; lra|].
  rewrite E1, E2, I1, I2. rewrite Rmin_right by lra. nra.
Qed.
