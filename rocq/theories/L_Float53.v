(** Statements about grids of pseudo-Voigt lines with rounding, and examples. *)
From Coq Require Import Reals List ZArith Lra Lia Psatz.
From Coquelicot Require Import Coquelicot.
From Flocq Require Import Core.
From Verif Require Import Py Spec M_Num M_Grid M_CrossSection S_CrossSection M_Constituents M_Thermal M_Dist M_Resonance S_Resonance M_PseudoVoigt S_PseudoVoigt M_Float S_Float M_Float2 M_Float3 S_Float3 M_Float4 S_Float4 M_Float6 S_Float6 M_Float8 S_Float8 S_Float12 M_Float12 S_Float13
  L_Dist L_PseudoVoigt L_PseudoVoigt4 L_Float L_Float7 L_Float9 L_Float10 L_Float11 L_Float28 L_Float31 L_Float32 L_Float49 L_Float50 L_Float51 L_Float52.
Import ListNotations.
Open Scope R_scope.

Section Both.
  Variables (L : pvlib) (k : constants) (E w amu T : R) (p p' : pv).
  Hypothesis HL : pvlib_ok L.
  Hypothesis HP : pv_params k E w amu T.
  Hypothesis HF : pv_floats k E w amu T.
  Hypothesis EP : PseudoVoigtDistribution k E w amu T = Ok p.
  Hypothesis EP' : fPseudoVoigtDistribution L k E w amu T = Ok p'.
  Let V : pv_valid p := cl_valid _ _ (proj1 (both L k E w amu T p p' HL HP HF EP EP')).
  Let cdf x : pv_cdf p x = Ok (pvF p x) := pv_cdf_ok p x V.
  Lemma spec_interval modern c ws lo hi : double c -> 0 <= c <= 1 -> fpv_coverage_interval modern L p' c = (ws, Ok (lo, hi)) -> inverted ws ->
    exists a b Fa Fb F0, lo = Finite a /\ hi = Finite b /\ double a /\ double b /\ pv_cdf p a = Ok Fa /\ pv_cdf p b = Ok Fb /\ pv_cdf p 0 = Ok F0 /\
      Rabs (Fa - (1 - c) / 2) <= pv_blur p a /\ Rabs (Fb - (1 + c) / 2) <= pv_blur p b /\
      (0 <= a -> ws = []) /\ (a < 0 -> exists v, ws = [NegativeLowerLimit v] /\ Rabs (v - 100 * (1 - F0)) <= / 10 ^ 10).
  Proof.
    intros Dc Hc H I. destruct (interval_ok modern L k E w amu T p p' HL HP HF EP EP' c ws lo hi Dc Hc H I) as (a & b & X). exists a, b, (pvF p a), (pvF p b), (pvF p 0). rewrite !cdf. tauto.
  Qed.
  Lemma spec_limits modern a b Fa Fb n ws g : double a -> double b -> (2 <= n <= 2 ^ 50)%Z -> pv_cdf p a = Ok Fa -> pv_cdf p b = Ok Fb -> / 2 ^ 40 <= Fb - Fa ->
    fpv_probability_grid modern L p' (Limits a b) n = (ws, Ok (Some g)) -> inverted ws ->
    exists xs, g = map Finite xs /\ List.Forall double xs /\ first xs = a /\ final xs = b /\ pv_equidistant p Fa Fb n xs.
  Proof. intros Da Db Hn. rewrite !cdf. intros X Y. injection X as <-. injection Y as <-. now apply (ends_points modern L k E w amu T p p' HL HP HF EP EP'). Qed.
  Lemma spec_limits_found modern a b Fa Fb n s : double a -> double b -> (2 <= n <= 2 ^ 50)%Z -> pv_cdf p a = Ok Fa -> pv_cdf p b = Ok Fb -> easy_line p E s ->
    / 2 ^ 40 <= Fb - Fa -> 2 * s + / 2 ^ 40 <= Fa -> Fb <= 1 - 2 * s - / 2 ^ 40 ->
    exists xs, fpv_probability_grid modern L p' (Limits a b) n = ([], Ok (Some (map Finite xs))).
  Proof. intros Da Db Hn. rewrite !cdf. intros X Y. injection X as <-. injection Y as <-. now apply (ends_found modern L k E w amu T p p' HL HP HF EP EP'). Qed.
End Both.

Lemma spec_objects L modern k i m fin amu T w : pvlib_ok L -> floats k i m fin -> width m = Ok w ->
  let E_r := fsub (st_excitation_energy m) (st_excitation_energy i) in pv_params k E_r w amu T -> pv_floats k E_r w amu T ->
  exists p p', PseudoVoigtDistribution k E_r w amu T = Ok p /\ fPseudoVoigtDistribution L k E_r w amu T = Ok p' /\
  (forall c, fPseudoVoigt_coverage_interval modern L k i m amu T fin c = fpv_coverage_interval modern L p' c) /\
  forall a n, fPseudoVoigt_grid modern L k i m amu T fin a n = fpv_probability_grid modern L p' a n.
Proof.
  intros HL HF HW Er HP HQ. destruct (fResonance_good (v_c L) k i m fin (proj1 HL) HF) as (r & Ir & w' & H1 & H2 & H3 & H4 & H5 & H6). fold Er in H1, H2, H3.
  destruct (fpv_close L k Er w amu T HL HQ HP) as (p & p' & P1 & P2 & _). exists p, p'. split; [exact P1|]. split; [exact P2|].
  split; intros; [unfold fPseudoVoigt_coverage_interval|unfold fPseudoVoigt_grid]; rewrite H2; cbn [bind]; rewrite HW; cbn [bind]; now rewrite P2.
Qed.

(** ** The hypotheses can be met *)
Lemma easy_example : floats lost_k lost_i wide_m None /\ width wide_m = Ok (/ 2 ^ 10) /\ fsub (st_excitation_energy wide_m) (st_excitation_energy lost_i) = 1 /\
  pv_params lost_k 1 (/ 2 ^ 10) 1000 0 /\ pv_floats lost_k 1 (/ 2 ^ 10) 1000 0 /\
  forall p, PseudoVoigtDistribution lost_k 1 (/ 2 ^ 10) 1000 0 = Ok p -> easy_line p 1 (1 / 8) /\ 
  forall n, (3 <= n <= 100)%Z -> double (1 / 4) /\ 4 * (1 / 8) + / 2 ^ 40 <= 1 - 1 / 4 /\ 2 * line_blur p 1 < (1 / 4) / IZR (n - 1) /\ 14 * offset (1 / 4) n (line_blur p 1) < 1.
Proof.
  assert (D1 : double 1) by (apply double_IZR; simpl; lia). assert (E1 : fsub 1 0 = 1) by (unfold fsub; rewrite Rminus_0_r; now apply rnd_id).
  assert (PP : pv_params lost_k 1 (/ 2 ^ 10) 1000 0). { split; [unfold constants_ok, lost_k; cbn; repeat split; lra|]. simpl; lra. }
  split; [exact wide_floats|]. split; [reflexivity|]. split; [exact E1|]. split; [exact PP|]. split.
  { assert (D2 : double (/ 2 ^ 10)) by (rewrite <- bpow_neg; apply double_bpow; lia).
    unfold pv_floats, plausible. cbn [k_kB_eV k_u_MeV lost_k]. repeat split; try assumption; try (simpl; lra). }
  intros p Hp. destruct (cold _ _ _ _ _ PP Hp) as (_ & HG & _). split; [unfold easy_line; rewrite HG; simpl; lra|].
  intros n Hn. assert (N : 2 <= IZR (n - 1) <= 99) by (split; apply IZR_le; lia). assert (B : line_blur p 1 <= / 10000 /\ 0 <= line_blur p 1) by (unfold line_blur; rewrite HG; simpl; lra).
  split. { replace (1 / 4) with (bpow radix2 (-2)) by (change (bpow radix2 (-2)) with (/ 4); lra). apply double_bpow. lia. } split; [simpl; lra|].
  split. { apply (Rmult_lt_reg_r (IZR (n - 1))); [lra|]. replace (1 / 4 / IZR (n - 1) * IZR (n - 1)) with (1 / 4) by (field; lra). nra. }
  unfold offset. destruct (Z.odd n) eqn:O; [lra|]. assert (N3 : 3 <= IZR (n - 1)). { apply IZR_le. assert (n <> 3%Z) by (intros ->; discriminate). lia. }
  assert (1 / 4 / (2 * IZR (n - 1)) <= 1 / 24); [|lra]. apply (Rmult_le_reg_r (2 * IZR (n - 1))); [lra|]. replace (1 / 4 / (2 * IZR (n - 1)) * (2 * IZR (n - 1))) with (1 / 4) by (field; lra). lra.
Qed.
