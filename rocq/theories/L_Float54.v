(** Darboux integrals of Voigt profiles, with rounding. *)
From Coq Require Import Reals List ZArith Lra Lia Psatz Sorted.
From Coquelicot Require Import Coquelicot.
From Flocq Require Import Core.
From Verif Require Import Py Spec M_Num M_Grid M_CrossSection S_CrossSection M_Constituents M_Thermal M_Dist M_Darboux M_Resonance S_Resonance M_PseudoVoigt S_PseudoVoigt M_Float S_Float M_Float2 M_Float4 S_Float4 M_Float8 S_Float8 M_Float11 S_Float11 S_Float12 S_Float14
  L_CrossSection L_Grid L_RInt L_Darboux L_Dist L_Resonance L_Resonance5 L_PseudoVoigt L_Voigt2 L_Float L_Float2 L_Float3 L_Float4 L_Float7 L_Float9 L_Float10 L_Float11 L_Float12 L_Float20 L_Float22 L_Float27 L_Float28 L_Float29 L_Float30 L_Float31 L_Float32 L_Float44 L_Float45 L_Float46 L_Float47 L_Float48.
Import ListNotations.
Open Scope R_scope.
Open Scope list_scope.

Section Profile.
  Variables (s g E : R).
  Hypothesis (Hs : 0 <= s) (Hg : 0 < g).
  Lemma voigt_unimodal : unimodal E (fun x => voigt_profile (x - E) s g).
  Proof using All.
    split; intros a b H1 H2; rewrite (voigt_abs (a - E)), (voigt_abs (b - E)) by auto; apply voigt_decr; auto; split; try apply Rabs_pos.
    - rewrite !Rabs_left1; lra.
    - rewrite !Rabs_pos_eq; lra.
  Qed.
  Lemma voigt_integrable a b : ex_RInt (fun x => voigt_profile (x - E) s g) a b.
  Proof using All.
    destruct (profile_facts s g Hs ltac:(lra) ltac:(lra)) as (F & D & _). pose proof (dens_is_RInt _ _ D (a + - E) (b + - E)) as I.
    eexists.
    replace (a + - E) with (1 * a + - E) in I by ring. replace (b + - E) with (1 * b + - E) in I by ring.
    apply (is_RInt_comp_lin (V := R_NormedModule) (fun x => voigt_profile x s g) 1 (- E) a b) in I. eapply is_RInt_ext; [|exact I].
    intros x _. unfold scal. cbn. unfold mult. cbn. rewrite Rmult_1_l. f_equal. ring.
  Qed.
End Profile.
Lemma near_centre_max p E k y : 0 <= pv_sigma p -> 0 < pv_gamma p -> 0 <= k -> near_centre p E k y ->
  voigt_profile (E - E) (pv_sigma p) (pv_gamma p) <= (1 + k) * voigt_profile (y - E) (pv_sigma p) (pv_gamma p).
Proof.
  intros Hs Hg Hk [(z & Hz & Hy & HK)|(S0 & Hy & K1)]; pose proof (voigt_pos (y - E) _ _ Hs Hg) as P.
  - pose proof (voigt_shift z (y - E) (E - y) _ _ Hs Hg Hz ltac:(rewrite Rabs_minus_sym; exact Hy)) as B.
    replace (y - E + (E - y)) with (E - E) in B by ring. apply Rabs_le_inv in B. destruct B as [_ B]. nra.
  - rewrite (voigt_abs (y - E)) in * by auto. set (h := Rabs (y - E)) in *. assert (H0 : 0 <= h) by apply Rabs_pos.
    pose proof (voigt_gauss_shift 0 h _ _ S0 Hg (Rle_refl 0) H0) as B. rewrite Rplus_0_l in B. replace (E - E) with 0 by ring.
    assert (Q : (0 * h + h ^ 2 / 2) / pv_sigma p ^ 2 <= k / 2).
    { assert (S2 : 0 < pv_sigma p ^ 2) by now apply pow_lt. apply (Rmult_le_reg_r (pv_sigma p ^ 2)); [exact S2|]. unfold Rdiv at 1. rewrite Rmult_assoc, Rinv_l by lra.
      unfold h. rewrite pow2_abs. lra. }
    pose proof (voigt_pos 0 _ _ Hs Hg) as P0. set (V := voigt_profile 0 _ _) in *. set (v := voigt_profile h _ _) in *.
    assert (B' : V * (1 - k / 2) <= v). { eapply Rle_trans; [|exact B]. apply Rmult_le_compat_l; lra. }
    apply Rle_trans with ((1 + k) * (V * (1 - k / 2))); [|apply Rmult_le_compat_l; lra].
    replace ((1 + k) * (V * (1 - k / 2))) with (V + V * (k / 2 * (1 - k))) by field. assert (0 <= V * (k / 2 * (1 - k))); [|lra]. apply Rmult_le_pos; [lra|]. apply Rmult_le_pos; lra.
Qed.

Section Line.
Context (L : pvlib) (HL : pvlib_ok L) (eps : R) (vp : R -> R -> R -> R) (VP : profile_ok eps vp) (He : 0 <= eps <= / 4).
Lemma voigt_integral modern k i m fin amu T w : floats k i m fin -> width m = Ok w ->
  let E_r := fsub (st_excitation_energy m) (st_excitation_energy i) in pv_params k E_r w amu T -> pv_floats k E_r w amu T ->
  exists p r f, PseudoVoigtDistribution k E_r w amu T = Ok p /\ Voigt modern k i (with_energy m (st_excitation_energy i + E_r)) amu T fin = Ok r /\
    0 < r_integrated r /\ cross_section_is r f /\
  forall xs delta kk y, grid xs -> delta <= 1 -> (forall x, In x xs -> Rabs x <= 2 ^ 60 /\ voigt_error p eps E_r delta x) -> In y xs -> 0 <= kk -> near_centre p E_r kk y ->
    exists vs J, Forall2 (fun x v => fVoigt_call L vp k i m amu T fin x true = Ok v) xs vs /\ is_RInt f (first xs) (final xs) J /\
    forall t S D, order_of (List.length xs - 1) t -> fdarboux t vs xs = (S, D) -> encloses (depth_of t) (List.length xs - 1) delta kk J S D.
Proof using All.
  intros HF HW Er HP HQ. destruct (fvoigt_good L HL eps vp VP He modern k i m fin amu T w 0 true HF HW HP HQ double_0 ltac:(rewrite Rabs_R0; apply pow_le; lra)) as (p & r & s0 & v0 & P1 & P2 & PE & P3 & P4 & P5 & Pg & _).
  fold Er in P1, P2, PE.
  destruct (fpv_close L k Er w amu T HL HQ HP) as (p0 & p' & P1' & P2' & C & Pw & PE'). rewrite P1 in P1'. injection P1' as <-.
  assert (SG : 0 <= pv_sigma p) by (destruct (cl_sigma _ _ C) as [[_ R]|[_ ->]]; [apply rng_pos in R; lra|lra]).
  assert (RV : forall x, res_call r x true = Ok (r_integrated r * voigt_profile (x - Er) (pv_sigma p) (pv_gamma p))).
  { intros x. revert P2. unfold Voigt, PseudoVoigt. destruct (fResonance_good (v_c L) k i m fin (proj1 HL) HF) as (r0 & Ir & w' & H1 & H2 & H3 & _). fold Er in H1, H2, H3.
    rewrite H1. cbn [bind]. change (width (with_energy _ _)) with (width m). rewrite HW. cbn [bind]. rewrite H3, P1. cbn [bind with_dist r_energy]. rewrite H3, P1. cbn [bind]. intros [= <-].
    unfold res_call. cbn [with_dist r_dist r_params r_integrated voigt_distribution d_pdf no_params]. unfold voigt_pdf. rewrite PE'. reflexivity. }
  pose proof (voigt_pos (0 - Er) _ _ SG Pg) as V0. rewrite RV in P3. injection P3 as P3. rewrite <- P3 in P5.
  assert (PI0 : 0 < r_integrated r) by (apply (Rmult_lt_reg_r (voigt_profile (0 - Er) (pv_sigma p) (pv_gamma p))); [exact V0|]; rewrite Rmult_0_l; exact P5). clear s0 v0 P3 P4 P5 V0.
  set (f := fun x => r_integrated r * voigt_profile (x - Er) (pv_sigma p) (pv_gamma p)).
  exists p, r, f. split; [exact P1|]. split; [exact P2|]. split; [exact PI0|]. split; [exact RV|].
  intros xs delta kk y G Hd Hx Iy Hk HC.
  assert (Val : forall x, In x xs -> exists v, fVoigt_call L vp k i m amu T fin x true = Ok v /\ Rabs (v - f x) <= delta * f x).
  { intros x Ix. destruct (Hx x Ix) as [Bx Ex]. pose proof (proj1 (List.Forall_forall _ _) (proj2 G) x Ix) as Dx.
    destruct (fvoigt_good L HL eps vp VP He modern k i m fin amu T w x true HF HW HP HQ Dx Bx) as (q & r1 & s & v & Q1 & Q2 & _ & Q3 & Q4 & Q5 & _ & Q7 & Q8). fold Er in Q1, Q2, Q7, Q8.
    rewrite P1 in Q1. injection Q1 as <-. rewrite P2 in Q2. injection Q2 as <-. rewrite RV in Q3. injection Q3 as Q3. change (f x = s) in Q3. exists v. split; [exact Q4|]. rewrite Q3.
    destruct Ex as [[E1 E2]|(E0 & E1 & E2)]; [specialize (Q7 E1); eapply Rle_trans; [exact Q7|]|specialize (Q8 E0 E1); eapply Rle_trans; [exact Q8|]]; (apply Rmult_le_compat_r; [left; exact Q5|exact E2]). }
  assert (Hd0 : 0 <= delta).
  { destruct (Val y Iy) as (v & _ & B). assert (0 < f y) by (apply Rmult_lt_0_compat; [exact PI0|now apply voigt_pos]). pose proof (Rabs_pos (v - f y)). apply (Rmult_le_reg_r (f y)); lra. }
  assert (NE : xs <> []) by (intros ->; destruct Iy).
  assert (EX : ex_RInt f (first xs) (final xs)) by (apply (ex_RInt_scal (V := R_NormedModule)), voigt_integrable; auto).
  eexists. exists (RInt f (first xs) (final xs)). split; [apply (lookup_values (fun y => fVoigt_call L vp k i m amu T fin y true) 0); intros x Ix; destruct (Val x Ix) as (v & Ev & _); now exists v|].
  split; [now apply (RInt_correct (V := R_CompleteNormedModule))|].
  intros t S D Ot HS.
  refine (fdarboux_unimodal t Er f _ xs delta kk y S D G NE Ot (conj Hd0 Hd) _ _ _ EX Hk Iy _ HS).
  - intros z Iz. cbv beta. destruct (Val z Iz) as (v & Ev & B). rewrite Ev. exact B.
  - apply unimodal_scal; [lra|]. now apply voigt_unimodal.
  - intros z. left. apply Rmult_lt_0_compat; [exact PI0|now apply voigt_pos].
  - unfold f. rewrite (Rmult_comm (1 + kk)), Rmult_assoc. apply Rmult_le_compat_l; [lra|]. rewrite (Rmult_comm _ (1 + kk)). now apply near_centre_max.
Qed.
End Line.
