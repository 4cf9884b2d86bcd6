(** Voigt profiles with binary64 numbers. *)
From Coq Require Import Reals List ZArith Bool Lra Lia Psatz.
From Flocq Require Import Core BinarySingleNaN.
From Verif Require Import Py M_Num M_Grid M_Dist M_Constituents M_Thermal M_Resonance M_PseudoVoigt S_Resonance S_PseudoVoigt M_Float S_Float M_Float4 S_Float4 M_Float8 S_Float8 M_Float11 S_Float11 M_Ieee M_Ieee2 S_Ieee M_Ieee8 S_Ieee8
  L_PseudoVoigt L_Voigt L_Voigt2 L_Float L_Float9 L_Float10 L_Float11 L_Float22 L_Float28 L_Float30 L_Float31 L_Float32 L_Float44 L_Float46 L_Ieee L_Ieee2 L_Ieee3 L_Ieee4 L_Ieee5 L_Ieee6 L_Ieee7 L_Ieee8 L_Ieee9.
Import ListNotations.
Open Scope R_scope.
Open Scope py_scope.

Lemma dist_fields L k E w amu T p : fPseudoVoigtDistribution L k E w amu T = Ok p ->
  exists d, fget_doppler_width k {| mb_amu := amu; mb_effective_temperature := T |} E = Ok d /\ pv_energy p = E /\ pv_sigma p = fquo d (fsqrt 2) /\ pv_gamma p = fmul (1 / 2) w.
Proof.
  unfold fPseudoVoigtDistribution. destruct (fget_doppler_width _ _ _) as [d| |]; [|discriminate|discriminate]. cbn [bind]. destruct (fget_Gamma _ _ _) as [G| |]; [|discriminate|discriminate]. cbn [bind].
  destruct (fget_eta _ _) as [e| |]; [|discriminate|discriminate]. cbn [bind]. intros [= <-]. exists d. auto.
Qed.
Lemma bdist_fields L k E w amu T p : bPseudoVoigtDistribution L k E w amu T = Ok p -> exists d, bget_doppler_width k amu T E = Ok d /\ bp_energy p = E.
Proof. unfold bPseudoVoigtDistribution. destruct (bget_doppler_width _ _ _ _) as [d| |]; [|discriminate|discriminate]. cbn [bind]. intros H. exists d. split; [reflexivity|]. apply (f_equal (fun o => match o with Ok q => bp_energy q | _ => E end)) in H. symmetry. exact H. Qed.

(** Voigt objects exist whenever pseudo-Voigt objects do. *)
Lemma same_outcome L vp k bi bm bamu bT bfin E a :
  match bPseudoVoigt_call L k bi bm bamu bT bfin E a with
  | Ok _ => exists v, bVoigt_call L vp k bi bm bamu bT bfin E a = Ok v
  | NaN => bVoigt_call L vp k bi bm bamu bT bfin E a = NaN
  | Raise e => bVoigt_call L vp k bi bm bamu bT bfin E a = Raise e
  end.
Proof.
  unfold bPseudoVoigt_call, bVoigt_call. destruct (bResonance _ _ _ _ _) as [[E_r Ir]| |]; cbn [bind]; [|reflexivity|reflexivity]. destruct (bwidth bm) as [w| |]; cbn [bind]; [|reflexivity|reflexivity].
  destruct (bPseudoVoigtDistribution _ _ _ _ _ _) as [p| |] eqn:Ep; cbn [bind]; [|reflexivity|reflexivity]. destruct (bdist_fields _ _ _ _ _ _ _ Ep) as (d & Ed & ->). rewrite Ed. cbn [bind]. eauto.
Qed.
Lemma same_exceptions L vp k bi bm bamu bT bfin E a e : bVoigt_call L vp k bi bm bamu bT bfin E a = Raise e <-> bPseudoVoigt_call L k bi bm bamu bT bfin E a = Raise e.
Proof.
  pose proof (same_outcome L vp k bi bm bamu bT bfin E a) as H. destruct (bPseudoVoigt_call _ _ _ _ _ _ _ _ _) as [x| |e'].
  - destruct H as (v & ->). split; discriminate.
  - rewrite H. split; discriminate.
  - rewrite H. reflexivity.
Qed.

Lemma same_values L vp k bi bm bamu bT bfin E a : (exists v, bVoigt_call L vp k bi bm bamu bT bfin E a = Ok v) <-> (exists v, bPseudoVoigt_call L k bi bm bamu bT bfin E a = Ok v).
Proof.
  pose proof (same_outcome L vp k bi bm bamu bT bfin E a) as H. destruct (bPseudoVoigt_call _ _ _ _ _ _ _ _ _) as [x| |e'].
  - split; [eauto|]. intros _. exact H.
  - rewrite H. split; intros (v & X); discriminate X.
  - rewrite H. split; intros (v & X); discriminate X.
Qed.

(** nan parameters. *)
Lemma nan_parameters L vp k bi bm bamu bT bfin E a v : profile_special vp -> bT = B754_nan \/ bamu = B754_nan \/ bwidth bm = Ok B754_nan ->
  bVoigt_call L vp k bi bm bamu bT bfin E a = Ok v -> v = B754_nan.
Proof.
  intros (_ & _ & NS & NG) H. unfold bVoigt_call. destruct (bResonance _ _ _ _ _) as [[E_r Ir]| |]; cbn [bind]; [|discriminate|discriminate]. destruct (bwidth bm) as [w| |]; cbn [bind]; [|discriminate|discriminate].
  destruct (bPseudoVoigtDistribution _ _ _ _ _ _) as [p| |]; cbn [bind]; [|discriminate|discriminate]. destruct (bget_doppler_width _ _ _ _) as [d| |] eqn:Ed; cbn [bind]; [|discriminate|discriminate].
  intros K. apply (f_equal (fun o => match o with Ok q => q | _ => v end)) in K. rewrite <- K. clear K. unfold bres_call, bvoigt_pdf.
  assert (X : bvoigt_sigma d = B754_nan \/ bvoigt_gamma w = B754_nan).
  { assert (D : bT = B754_nan \/ bamu = B754_nan -> d = B754_nan).
    { intros Y. unfold bget_doppler_width in Ed. cbv zeta in Ed. destruct (bzero _); [discriminate|]. apply (f_equal (fun o => match o with Ok q => q | _ => d end)) in Ed. rewrite <- Ed. clear Ed.
      assert (Q : bquo (bmul (bmul (bmul (of_Z 2) (b_kB_eV k)) (literal 1 1000000)) bT) (bmul bamu (b_u_MeV k)) = B754_nan).
      { destruct Y as [-> | ->]; [rewrite mul_nan; reflexivity|]. change (bmul B754_nan (b_u_MeV k)) with (B754_nan : b64). generalize (bmul (bmul (bmul (of_Z 2) (b_kB_eV k)) (literal 1 1000000)) bT). intros x. now destruct x. }
      rewrite Q. change (bsqrt B754_nan) with (B754_nan : b64). apply mul_nan. }
    destruct H as [H|[H|H]]; [left|left|right].
    - rewrite (D (or_introl H)). reflexivity.
    - rewrite (D (or_intror H)). reflexivity.
    - injection H as ->. apply mul_nan. }
  destruct X as [-> | ->]; [rewrite NS|rewrite NG]; apply mul_nan.
Qed.

Lemma profile_upper x s g : s = 0 \/ / 2 ^ 62 <= s <= 2 ^ 62 -> / 2 ^ 62 <= g <= 2 ^ 62 -> 0 <= voigt_profile x s g <= bpow radix2 62.
Proof.
  intros Hs Hg. assert (P62 : 0 < / 2 ^ 62) by (apply Rinv_0_lt_compat, pow_lt; lra). assert (Pg : 0 < g) by lra. pose proof PI_RGT_0 as PP. pose proof PI2_1 as P2.
  assert (S0 : 0 <= s) by (destruct Hs as [->|Hs]; lra). split; [left; now apply voigt_pos|].
  assert (C0 : forall y, cauchy_pdf 0 g y <= bpow radix2 62).
  { intros y. unfold cauchy_pdf. change 62%Z with (Z.of_nat 62). rewrite bpow_pow. rewrite <- (Rinv_inv (2 ^ 62)). apply Rinv_le_contravar; [exact P62|]. pose proof (pow2_ge_0 ((y - 0) / g)) as Q. set (z := ((y - 0) / g) ^ 2) in *. clearbody z. assert (g <= PI * g) by nra. nra. }
  destruct Hs as [->|Hs]; [rewrite voigt_0; apply C0|]. eapply Rle_trans; [apply profile_le_cauchy; lra|apply C0].
Qed.
Lemma correct_bprofile_same : same_profile correct_bprofile correct_profile.
Proof.
  intros X x S s G g [FX EX] [FS ES] [FG EG] Hx Hs Hg. unfold correct_bprofile. assert (K : rep (of_R (correct_profile (B2R X) (B2R S) (B2R G))) (correct_profile x s g)).
  { rewrite EX, ES, EG. unfold correct_profile. destruct (profile_upper x s g Hs Hg) as [V0 V1]. apply of_R_double; [apply rnd_double|]. eapply Rle_lt_trans; [apply (rnd_bpow _ 62); [lia|rewrite Rabs_pos_eq; assumption]|]. apply (bpow_lt radix2 62 1024). lia. }
  destruct S; try discriminate FS; destruct G; try discriminate FG; destruct X; try discriminate FX; exact K.
Qed.
Lemma correct_bprofile_special : profile_special correct_bprofile.
Proof.
  split; [intros z S G FS FG _ _; destruct S; try discriminate FS; destruct G; try discriminate FG; split; reflexivity|].
  split; [intros S G; destruct S, G; reflexivity|]. split; [reflexivity|]. intros X S. now destruct S.
Qed.

Section Call.
  Variables (L : blib) (V : pvlib) (B : bconstants) (k : constants) (bi : bstate) (i : state) (bm : bstate) (m : state)
    (bfin : option bstate) (fin : option state) (bamu : b64) (amu : R) (bT : b64) (T : R) (w : R).
  Hypotheses (KV : pvlib_ok V) (SV : same_pvlib L V) (Sc : same_constants B k) (Fl : floats k i m fin)
    (Ew : width m = Ok w) (Pp : pv_params k (fsub (st_excitation_energy m) (st_excitation_energy i)) w amu T) (Pf : pv_floats k (fsub (st_excitation_energy m) (st_excitation_energy i)) w amu T)
    (Ra : rep bamu amu) (Rt : rep bT T) (Si : same_state bi i) (Sm : same_state bm m) (Sf : same_final bfin fin).
  Variables (vp : R -> R -> R -> R) (bvp : b64 -> b64 -> b64 -> b64).

  Lemma voigt_pieces : exists E_r Ir e r W b p d, bResonance L B bi bm bfin = Ok (E_r, Ir) /\ fResonance (v_c V) k i m fin NoRecoil = Ok (e, r) /\
    win E_r e (-60) 60 /\ win Ir r (-440) 440 /\ bwidth bm = Ok W /\ bPseudoVoigtDistribution L B E_r W bamu bT = Ok b /\ bp_energy b = E_r /\ bget_doppler_width B bamu bT E_r = Ok d /\
    fPseudoVoigtDistribution V k e w amu T = Ok p /\ pv_energy p = e /\ rep (bvoigt_sigma d) (pv_sigma p) /\ rep (bvoigt_gamma W) (pv_gamma p) /\
    (pv_sigma p = 0 \/ / 2 ^ 62 <= pv_sigma p <= 2 ^ 62) /\ / 2 ^ 62 <= pv_gamma p <= 2 ^ 62.
  Proof using KV SV Sc Fl Ew Pp Pf Ra Rt Si Sm Sf.
    destruct (pv_pieces L V B k bi i bm m bfin fin bamu amu bT T w KV SV Sc Fl Ew Pf Ra Rt Si Sm Sf) as (E_r & Ir & e & r & W & b & p & Eb & Ef & WE & WI & EW & Ed & Ed' & A).
    assert (Q : e = fsub (st_excitation_energy m) (st_excitation_energy i)). { destruct (fResonance_good (v_c V) k i m fin (proj1 KV) Fl) as (r0 & Ir0 & w' & H1 & H2 & _). rewrite Ef in H2. injection H2 as -> _. reflexivity. }
    rewrite <- Q in Pp, Pf. destruct (fpv_close V k e w amu T KV Pf Pp) as (p0 & p1 & P1 & P2 & C & _). rewrite Ed' in P2. injection P2 as <-.
    destruct (bdist_fields _ _ _ _ _ _ _ Ed) as (bd & Ebd & EE). destruct (dist_fields _ _ _ _ _ _ _ Ed') as (d & Efd & E1 & E2 & E3).
    destruct (doppler_moderate B k bamu amu bT T E_r e w Sc Pf Ra Rt WE) as (b' & d' & X1 & X2 & Nd). rewrite Ebd in X1. injection X1 as <-. rewrite Efd in X2. injection X2 as <-.
    pose proof Fl as (_ & _ & _ & _ & _ & _ & dd & w' & Edd & Pw & _). unfold width in Ew. rewrite Edd in Ew. injection Ew as ->.
    assert (RW : rep W w). { destruct Sm as (_ & _ & _ & Sd). rewrite Edd in Sd. unfold bwidth in EW. destruct (b_decays bm) as [[? W']|]; [|contradiction]. destruct Sd as [_ RW]. injection EW as <-. exact RW. }
    exists E_r, Ir, e, r, W, b, p, bd. repeat (split; [assumption|]).
    split. { rewrite E2. unfold bvoigt_sigma. destruct Nd as [Bd _]. apply (bnd_quo _ _ _ _ _ _ _ Bd sqrt2_win); lia. }
    split. { rewrite E3. unfold bvoigt_gamma. apply (half_win _ _ _ _ (plausible_win _ _ RW Pw)); lia. }
    split. { destruct (cl_sigma _ _ C) as [[N R']|[-> _]]; [right|now left]. apply (near_range 7 61 _ (pv_sigma p0)); auto. lia. }
    destruct (cl_gamma _ _ C) as [[N R']|[G _]]; [apply (near_range 1 61 _ (pv_gamma p0)); auto; lia|].
    exfalso. pose proof (win_pos _ _ _ _ (half_win _ _ _ _ (plausible_win _ _ RW Pw) ltac:(lia) ltac:(lia))). lra.
  Qed.

  Lemma voigt_bounded eps E x absolute : profile_ok eps vp -> 0 <= eps <= / 4 -> same_profile bvp vp -> rep E x -> Rabs x <= 2 ^ 60 ->
    exists v v', bVoigt_call L bvp B bi bm bamu bT bfin E absolute = Ok v /\ fVoigt_call V vp k i m amu T fin x absolute = Ok v' /\ bnd v v' 503.
  Proof using All.
    intros KP He SP RE Hx. destruct voigt_pieces as (E_r & Ir & e & r & W & b & p & d & Eb & Ef & WE & WI & EW & Ep & EE & Ed & Ep' & EE' & Rs & Rg & Hs & Hg).
    unfold bVoigt_call, fVoigt_call. rewrite Eb, Ef. cbn [bind fst snd]. rewrite EW, Ew. cbn [bind]. rewrite Ep, Ep'. cbn [bind]. rewrite EE, Ed. cbn [bind].
    unfold bres_call, fres_call, bvoigt_pdf, fvoigt_pdf. rewrite EE'.
    assert (Bx : bnd (if absolute then E else badd E E_r) (if absolute then x else fadd x e) 61).
    { destruct absolute; [eapply bnd_weaken; [exact (pow_bnd _ _ 60 RE Hx)|lia]|]. pose proof (bnd_add _ _ _ _ _ _ (pow_bnd _ _ 60 RE Hx) (win_bnd _ _ _ _ WE) ltac:(lia)) as B1. eapply bnd_weaken; [exact B1|lia]. }
    pose proof (bnd_sub _ _ _ _ _ _ Bx (win_bnd _ _ _ _ WE) ltac:(lia)) as [R1 B1]. set (y := fsub (if absolute then x else fadd x e) e) in *.
    assert (H64 : Rabs y <= 2 ^ 64). { eapply Rle_trans; [exact B1|]. rewrite <- (bpow_pow 64). apply bpow_le. lia. }
    pose proof (SP _ _ _ _ _ _ R1 Rs Rg H64 Hs Hg) as RV. pose proof (KP y (pv_sigma p) (pv_gamma p) (rep_double _ _ R1) (rep_double _ _ Rs) (rep_double _ _ Rg) H64 Hs Hg) as KV'.
    destruct (profile_upper y _ _ Hs Hg) as [V0 V1].
    assert (BV : bnd (bvp (bsub (if absolute then E else badd E E_r) E_r) (bvoigt_sigma d) (bvoigt_gamma W)) (vp y (pv_sigma p) (pv_gamma p)) 63).
    { split; [exact RV|]. apply Rabs_le_inv in KV'. assert (B63 : bpow radix2 63 = 2 * bpow radix2 62) by (change 63%Z with (1 + 62)%Z; rewrite bpow_plus; reflexivity). rewrite B63. apply Rabs_le. nra. }
    pose proof (bnd_mul _ _ _ _ _ _ (win_bnd _ _ _ _ WI) BV ltac:(lia)) as Br. cbv zeta. cbn [bind]. do 2 eexists. split; [reflexivity|]. split; [reflexivity|]. exact Br.
  Qed.
  Lemma voigt_agree eps E x absolute : profile_ok eps vp -> 0 <= eps <= / 4 -> same_profile bvp vp -> rep E x -> Rabs x <= 2 ^ 60 ->
    reads_number (bVoigt_call L bvp B bi bm bamu bT bfin E absolute) (fVoigt_call V vp k i m amu T fin x absolute).
  Proof using All.
    intros KP He SP RE Hx. destruct (voigt_bounded eps E x absolute KP He SP RE Hx) as (v & v' & H1 & H2 & [H3 _]). now exists v, v'.
  Qed.
  Lemma voigt_infinite z absolute : profile_special bvp -> exists v, bVoigt_call L bvp B bi bm bamu bT bfin (B754_infinity z) absolute = Ok v /\ rep v 0.
  Proof using KV SV Sc Fl Ew Pp Pf Ra Rt Si Sm Sf.
    intros (SI & _). destruct voigt_pieces as (E_r & Ir & e & r & W & b & p & d & Eb & Ef & WE & WI & EW & Ep & EE & Ed & Ep' & EE' & Rs & Rg & Hs & Hg).
    unfold bVoigt_call. rewrite Eb. cbn [bind fst snd]. rewrite EW. cbn [bind]. rewrite Ep. cbn [bind]. rewrite EE, Ed. cbn [bind]. eexists. split; [reflexivity|]. unfold bres_call, bvoigt_pdf.
    assert (X : bsub (if absolute then B754_infinity z else badd (B754_infinity z) E_r) E_r = B754_infinity z). { destruct WE as [[FE _] _]. destruct E_r; try discriminate FE; destruct absolute; reflexivity. }
    rewrite X. assert (P62 : 0 < / 2 ^ 62) by (apply Rinv_0_lt_compat, pow_lt; lra). pose proof (SI z (bvoigt_sigma d) (bvoigt_gamma W) (proj1 Rs) (proj1 Rg) ltac:(rewrite (proj2 Rs); destruct Hs as [->|Hs]; lra) ltac:(rewrite (proj2 Rg); lra)) as R0.
    rewrite <- (fmul_0_r' r). apply mul_rep; [apply WI|exact R0|]. rewrite fmul_0_r'. exact zero_big.
  Qed.
  Lemma voigt_nan absolute : profile_special bvp -> bVoigt_call L bvp B bi bm bamu bT bfin B754_nan absolute = Ok B754_nan.
  Proof using KV SV Sc Fl Ew Pp Pf Ra Rt Si Sm Sf.
    intros (_ & SN & _). destruct voigt_pieces as (E_r & Ir & e & r & W & b & p & d & Eb & Ef & WE & WI & EW & Ep & EE & Ed & Ep' & EE' & Rs & Rg & Hs & Hg).
    unfold bVoigt_call. rewrite Eb. cbn [bind fst snd]. rewrite EW. cbn [bind]. rewrite Ep. cbn [bind]. rewrite EE, Ed. cbn [bind]. f_equal. unfold bres_call, bvoigt_pdf.
    assert (X : bsub (if absolute then B754_nan else badd B754_nan E_r) E_r = B754_nan) by (destruct absolute; reflexivity). rewrite X, SN. apply mul_nan.
  Qed.
  Lemma voigt_accurate eps modern E x (absolute : bool) : profile_ok eps vp -> 0 <= eps <= / 4 -> same_profile bvp vp -> rep E x -> Rabs x <= 2 ^ 60 ->
    let E_r := fsub (st_excitation_energy m) (st_excitation_energy i) in let y := if absolute then x else fadd x E_r in
    exists p r s v, PseudoVoigtDistribution k E_r w amu T = Ok p /\ Voigt modern k i (with_energy m (st_excitation_energy i + E_r)) amu T fin = Ok r /\
      res_call r y true = Ok s /\ bVoigt_call L bvp B bi bm bamu bT bfin E absolute = Ok v /\ finite v /\ 0 < s /\ 0 < pv_gamma p /\
      (Rabs (y - E_r) <= 2 ^ 40 * pv_gamma p -> Rabs (B2R v - s) <= (2 * eps + (42 + 10 * (Rabs (y - E_r) / pv_gamma p)) * unit_roundoff) * s) /\
      (0 < pv_sigma p -> Rabs (y - E_r) <= 2 ^ 20 * pv_sigma p -> Rabs (B2R v - s) <= (2 * eps + (42 + 10 * ((y - E_r) / pv_sigma p) ^ 2) * unit_roundoff) * s).
  Proof using All.
    intros KP He SP RE Hx E_r y. destruct (voigt_agree eps E x absolute KP He SP RE Hx) as (v & v' & H1 & H2 & [F R]).
    destruct (fvoigt_good V KV eps vp KP He modern k i m fin amu T w x absolute Fl Ew Pp Pf (rep_double _ _ RE) Hx) as (p & r & s & v0 & P1 & P2 & _ & P3 & P4 & P5 & P6 & P7 & P8). rewrite H2 in P4. injection P4 as <-.
    exists p, r, s, v. rewrite R. repeat (split; [assumption|]). exact P8.
  Qed.
End Call.

Lemma voigt_example : same_constants (of_constants ieee_k) ieee_k /\ floats ieee_k lost_i lost_m None /\ width lost_m = Ok (/ 2 ^ 60) /\
  (let E_r := fsub (st_excitation_energy lost_m) (st_excitation_energy lost_i) in pv_params ieee_k E_r (/ 2 ^ 60) 1000 0 /\ pv_floats ieee_k E_r (/ 2 ^ 60) 1000 0) /\
  rep (of_Z 1000) 1000 /\ rep (of_Z 0) 0 /\ same_state (of_state lost_i) lost_i /\ same_state (of_state lost_m) lost_m /\ same_final None None /\ rep (of_Z 1) 1 /\ Rabs 1 <= 2 ^ 60.
Proof.
  destruct ieee_pv as [H1 H2]. split; [exact ieee_constants|]. split; [exact ieee_floats|]. split; [exact H1|]. split.
  { split; [|exact H2]. cbn [lost_m lost_i st_excitation_energy]. assert (E1 : fsub 1 0 = 1) by (unfold fsub; rewrite Rminus_0_r; apply rnd_id, (double_IZR 1); lia). rewrite E1. assert (0 < / 2 ^ 60) by (apply Rinv_0_lt_compat, pow_lt; lra).
    split; [unfold constants_ok, ieee_k; cbn; repeat split; lra|]. repeat split; lra. }
  split; [apply Z_rep; lia|]. split; [apply Z_rep; lia|]. split; [exact ieee_i|]. split; [exact ieee_m|]. split; [exact I|]. split; [apply Z_rep; lia|]. rewrite Rabs_R1. apply pow_R1_Rle. lra.
Qed.
Lemma broken_example : exists v, bVoigt_call correct_blib correct_bprofile (of_constants ieee_k) (of_state lost_i) (of_state lost_m) (of_Z 1000) B754_nan None (of_Z 1) true = Ok v.
Proof.
  destruct voigt_example as (H1 & H2 & H3 & (H4 & H5) & H6 & H7 & H8 & H9 & H10 & _).
  destruct (voigt_pieces correct_blib correct_pvlib (of_constants ieee_k) ieee_k (of_state lost_i) lost_i (of_state lost_m) lost_m None None (of_Z 1000) 1000 (of_Z 0) 0 (/ 2 ^ 60) correct_pvlib_ok correct_pv_same H1 H2 H3 H4 H5 H6 H7 H8 H9 H10)
    as (E_r & Ir & e & r & W & b & p & d & Eb & Ef & WE & WI & EW & Ep & EE & Ed & _).
  unfold bVoigt_call. rewrite Eb. cbn [bind]. rewrite EW. cbn [bind]. revert Ed. unfold bPseudoVoigtDistribution, bget_doppler_width. cbv zeta. destruct (bzero _); [discriminate|]. intros _. cbn [bind]. eexists. reflexivity.
Qed.
