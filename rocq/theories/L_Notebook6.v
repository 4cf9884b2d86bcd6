(** Self absorption: the function of the notebook. *)
From Coq Require Import Reals List ZArith Lra Lia Psatz String.
From Coquelicot Require Import Coquelicot.
From Verif Require Import Py Spec M_Num M_Grid M_Constituents M_Thermal M_Dist M_Resonance M_PseudoVoigt M_Notebook S_Resonance S_PseudoVoigt S_Voigt S_Notebook
  L_Resonance2 L_RInt L_Grid L_Resonance L_Resonance5 L_Resonance6 L_PseudoVoigt L_PseudoVoigt2 L_PseudoVoigt4 L_PseudoVoigt6 L_PseudoVoigt8 L_Voigt2 L_Notebook L_Notebook2 L_Notebook3 L_Notebook4 L_Notebook5.
Import ListNotations.
Open Scope R_scope.
Open Scope py_scope.

Lemma molar_mass_carbonate l x : molar_mass l x = carbonate (li_6 l) (li_7 l) (li_C l) (li_O l) (li_mean l).
Proof. reflexivity. Qed.
Lemma carbonate_pos m6 m7 mC mO x : 0 < m6 -> 0 < m7 -> 0 < mC -> 0 < mO -> 0 <= x <= 1 -> 0 < carbonate m6 m7 mC mO x.
Proof. intros. unfold carbonate. assert (0 <= x * m6) by (apply Rmult_le_pos; lra). assert (0 <= (1 - x) * m7) by (apply Rmult_le_pos; lra). lra. Qed.
Lemma areal_denominator k l d : constants_ok k -> li_ok l -> 0 < d ->
  0 < carbonate (li_6 l) (li_7 l) (li_C l) (li_O l) (li_mean l) * k_u_kg k * PI * (1 / 2 * d * 10 ^ 15) ^ 2.
Proof.
  intros K (P6 & P7 & PC & PO & M) Hd. pose proof (carbonate_pos _ _ _ _ _ P6 P7 PC PO M). pose proof PI_RGT_0.
  assert (0 < k_u_kg k) by apply K. apply Rmult_lt_0_compat; [apply Rmult_lt_0_compat; [now apply Rmult_lt_0_compat|lra]|]. apply pow_lt. lra.
Qed.
Lemma areal_density_value k l m d x : constants_ok k -> li_ok l -> 0 < d ->
  areal_density k l m d x = Ok (2 * x * m / (carbonate (li_6 l) (li_7 l) (li_C l) (li_O l) (li_mean l) * k_u_kg k * PI * (1 / 2 * d * 10 ^ 15) ^ 2)).
Proof. intros K L Hd. pose proof (areal_denominator k l d K L Hd). unfold areal_density. rewrite molar_mass_carbonate. apply fdiv_nz. lra. Qed.
Lemma areal_density_linear k l d x : constants_ok k -> li_ok l -> 0 < d -> 0 < x -> exists a, 0 < a /\ forall m, areal_density k l m d x = Ok (a * m).
Proof.
  intros K L Hd Hx. pose proof (areal_denominator k l d K L Hd) as P.
  exists (2 * x / (carbonate (li_6 l) (li_7 l) (li_C l) (li_O l) (li_mean l) * k_u_kg k * PI * (1 / 2 * d * 10 ^ 15) ^ 2)).
  split; [apply Rdiv_lt_0_compat; lra|]. intros m. rewrite areal_density_value by assumption. f_equal. unfold Rdiv. ring.
Qed.
(** The right number of nuclei, and what the notebook computes. *)
Lemma areal_density_ratio k l m d x : constants_ok k -> li_ok l -> 0 < d -> 0 <= x <= 1 ->
  areal_density k l m d x = Ok (li6_per_area (k_u_kg k) (li_6 l) (li_7 l) (li_C l) (li_O l) m d x *
    (carbonate (li_6 l) (li_7 l) (li_C l) (li_O l) x / carbonate (li_6 l) (li_7 l) (li_C l) (li_O l) (li_mean l))).
Proof.
  intros K L Hd Hx. rewrite areal_density_value by assumption. f_equal. destruct L as (P6 & P7 & PC & PO & M). unfold li6_per_area.
  pose proof (carbonate_pos _ _ _ _ _ P6 P7 PC PO M). pose proof (carbonate_pos _ _ _ _ _ P6 P7 PC PO Hx). pose proof PI_RGT_0. assert (0 < k_u_kg k) by apply K.
  assert (10 ^ 15 <> 0) by (apply pow_nonzero; lra). field. repeat split; lra.
Qed.
Lemma areal_density_right k l m d : constants_ok k -> li_ok l -> 0 < d ->
  areal_density k l m d (li_mean l) = Ok (li6_per_area (k_u_kg k) (li_6 l) (li_7 l) (li_C l) (li_O l) m d (li_mean l)).
Proof.
  intros K L Hd. rewrite areal_density_ratio by (auto; apply L). f_equal. destruct L as (P6 & P7 & PC & PO & M). pose proof (carbonate_pos _ _ _ _ _ P6 P7 PC PO M).
  unfold Rdiv. rewrite Rinv_r by lra. ring.
Qed.
Lemma areal_density_wrong k l m d x : constants_ok k -> li_ok l -> 0 < d -> 0 < x <= 1 -> 0 < m -> li_6 l < li_7 l ->
  exists v, areal_density k l m d x = Ok v /\
    (x < li_mean l -> li6_per_area (k_u_kg k) (li_6 l) (li_7 l) (li_C l) (li_O l) m d x < v) /\
    (li_mean l < x -> v < li6_per_area (k_u_kg k) (li_6 l) (li_7 l) (li_C l) (li_O l) m d x).
Proof.
  intros K L Hd Hx Hm Hl. eexists. split; [apply areal_density_ratio; auto; lra|].
  destruct L as (P6 & P7 & PC & PO & M). pose proof (carbonate_pos _ _ _ _ _ P6 P7 PC PO M) as Q1. assert (Hx' : 0 <= x <= 1) by lra. pose proof (carbonate_pos _ _ _ _ _ P6 P7 PC PO Hx') as Q2.
  assert (Pl : 0 < li6_per_area (k_u_kg k) (li_6 l) (li_7 l) (li_C l) (li_O l) m d x).
  { unfold li6_per_area. pose proof PI_RGT_0. assert (0 < k_u_kg k) by apply K. apply Rdiv_lt_0_compat.
    - apply Rmult_lt_0_compat; [lra|]. apply Rdiv_lt_0_compat; [lra|]. now apply Rmult_lt_0_compat.
    - apply Rmult_lt_0_compat; [lra|]. apply pow_lt. lra. }
  set (v := li6_per_area _ _ _ _ _ _ _ _) in *. set (a := carbonate _ _ _ _ x) in *. set (b := carbonate _ _ _ _ (li_mean l)) in *.
  assert (D : a - b = 2 * (li_mean l - x) * (li_7 l - li_6 l)) by (unfold a, b, carbonate; ring).
  split; intros C.
  - assert (1 < a / b). { apply (Rmult_lt_reg_r b); [lra|]. unfold Rdiv. rewrite Rmult_assoc, Rinv_l by lra. assert (0 < (li_mean l - x) * (li_7 l - li_6 l)) by (apply Rmult_lt_0_compat; lra). lra. }
    nra.
  - assert (a / b < 1). { apply (Rmult_lt_reg_r b); [lra|]. unfold Rdiv. rewrite Rmult_assoc, Rinv_l by lra. assert (0 < (x - li_mean l) * (li_7 l - li_6 l)) by (apply Rmult_lt_0_compat; lra). lra. }
    nra.
Qed.
Lemma areal_density_refuted : exists k l m d x, constants_ok k /\ li_ok l /\ 0 < d /\ 0 < x < 1 /\ 0 < m /\
  areal_density k l m d x <> Ok (li6_per_area (k_u_kg k) (li_6 l) (li_7 l) (li_C l) (li_O l) m d x).
Proof.
  set (l := {| li_6 := 6; li_7 := 7; li_C := 12; li_O := 16; li_mean := 95 / 100 |}).
  exists codata, l, (1 / 100), (19 / 1000), (1 / 2).
  assert (L : li_ok l) by (unfold li_ok, lithium_ok; cbn; lra). split; [apply codata_ok|]. split; [exact L|]. repeat (split; [lra|]).
  destruct (areal_density_wrong codata l (1 / 100) (19 / 1000) (1 / 2) codata_ok L) as (v & E & H & _); try (cbn; lra).
  rewrite E. assert (Y : 1 / 2 < li_mean l) by (cbn; lra). specialize (H Y). intros X. assert (Z : forall a b : R, Ok a = Ok b -> a = b) by (intros a b J; now injection J). apply Z in X. rewrite <- X in H. exact (Rlt_irrefl _ H).
Qed.

(** The line of the notebook. *)
Section Line.
  Variables (quad : quad_out_fn) (modern : bool) (k : constants) (l : lithium) (Gamma T c : R) (p : pv).
  Hypothesis Q : quad_exact quad.
  Hypothesis X : experiment k l Gamma T c p.
  Lemma Li_state : State "0^+_1" 0 1 (356288 / 10 ^ 5) [("1^+_1", Gamma)]%string = Ok (Li_excited Gamma).
  Proof. reflexivity. Qed.
  Lemma Li_resonance : exists r0, Resonance k (GroundState "1^+_1" 2 1) (Li_excited Gamma) None NoRecoil = Ok r0 /\ r_energy r0 = E_Li /\ 0 < r_integrated r0 /\ r_intermediate r0 = Li_excited Gamma.
  Proof.
    destruct X as (K & _ & HG & _). unfold Resonance, NoRecoil. cbn [bind]. unfold get_statistical_factor. rewrite fdiv_nz by (cbn; lra). cbn [bind].
    cbn [get_final_state_branching_ratio bind]. unfold get_energy_integrated_cross_section. cbn [st_excitation_energy Li_excited GroundState].
    assert (PE : 0 < E_Li - 0) by (unfold E_Li; lra). assert (0 < (E_Li - 0) ^ 2) by now apply pow_lt.
    rewrite fdiv_nz by lra. cbn [bind partial_widths Li_excited st_decays GroundState st_J_pi dgetE String.eqb Ascii.eqb Bool.eqb].
    cbn. eexists. split; [reflexivity|]. cbn [r_energy r_integrated r_intermediate]. split; [ring|]. split; [|reflexivity].
    pose proof PI_RGT_0. assert (0 < k_hbarc k) by apply K. assert (0 < PI * k_hbarc k) by now apply Rmult_lt_0_compat.
    apply Rmult_lt_0_compat; [|lra]. apply Rmult_lt_0_compat; [|exact HG]. apply Rmult_lt_0_compat; [|lra].
    apply Rdiv_lt_0_compat; [|cbn in *; lra]. nra.
  Qed.
  Lemma Li_voigt : exists r, Voigt modern k (GroundState "1^+_1" 2 1) (Li_excited Gamma) (li_6 l) T None = Ok r /\ r_energy r = E_Li /\ 0 < r_integrated r /\
    r_intermediate r = Li_excited Gamma /\ width (Li_excited Gamma) = Ok Gamma /\ pv_params k (r_energy r) Gamma (li_6 l) T.
  Proof.
    destruct Li_resonance as (r0 & ER & HE & HI & HM). destruct X as (K & L & HG & HT & _).
    assert (W : width (Li_excited Gamma) = Ok Gamma) by (cbn; f_equal; ring).
    assert (P : pv_params k (r_energy r0) Gamma (li_6 l) T).
    { rewrite HE. unfold pv_params. split; [exact K|]. split; [apply L|]. split; [exact HT|]. split; [unfold E_Li; lra|]. split; [lra|]. now left. }
    destruct (voigt_ok modern k _ _ (li_6 l) T None r0 Gamma ER W P) as (r & E & E1 & E2). exists r. split; [exact E|]. rewrite E1, E2, HE. split; [reflexivity|]. split; [exact HI|].
    rewrite HE in P. split; [|split; [exact W|exact P]].
    rewrite <- E1 in HE. assert (P' : pv_params k (r_energy r) Gamma (li_6 l) T) by now rewrite HE.
    destruct (voigt_inv _ _ _ _ _ _ _ _ _ E W P') as (r1 & p' & ER' & _ & -> & _). rewrite ER in ER'. injection ER' as <-. exact HM.
  Qed.
  Lemma relative_integral (g : R -> R) a b s : a <= b -> (forall E, a <= E <= b -> continuity_pt g E) -> is_RInt (fun x => g (x + s)) (a - s) (b - s) (RInt g a b).
  Proof.
    intros Hab C. assert (J : is_RInt g a b (RInt g a b)) by (apply (RInt_correct (V := R_CompleteNormedModule)); now apply continuous_int).
    replace a with (1 * (a - s) + s) in J at 1 by ring. replace b with (1 * (b - s) + s) in J at 1 by ring. apply (is_RInt_comp_lin (V := R_NormedModule)) in J.
    eapply is_RInt_ext; [|exact J]. intros x _. change (1 * g (1 * x + s) = g (x + s)). now rewrite !Rmult_1_l.
  Qed.
  Lemma R_value : exists r f lo hi, Voigt modern k (GroundState "1^+_1" 2 1) (Li_excited Gamma) (li_6 l) T None = Ok r /\ snd (coverage_interval r c) = Ok (Finite lo, Finite hi) /\
    cross_section_is r f /\ (forall E, continuity_pt f E) /\ (forall E, 0 < f E) /\ strictly_unimodal E_Li f /\ lo < hi /\ lo <= E_Li <= hi /\
    forall ma ms d x ra rs, areal_density k l ma d x = Ok ra -> areal_density k l ms d x = Ok rs -> 0 < rs ->
      self_absorption quad modern k l Gamma ma ms d x T c = Ok (loss (pure_slab ra f) (pure_slab rs f) lo hi).
  Proof.
    destruct Li_voigt as (r & E & HE & HI & HM & WI & P). destruct X as (K & L & HG & HT & Hc & EP & HP).
    destruct (voigt_shape _ _ _ _ _ _ _ _ _ E WI P) as (f & C & _ & _ & D & S). destruct (S HI) as [Pf U]. rewrite <- HE in EP.
    destruct (voigt_range _ _ _ _ _ _ _ _ _ _ c E WI P EP Hc HP) as (ws & lo & hi & CI & AB & HL & _).
    assert (Cf : forall e, continuity_pt f e) by (intros e; apply continuity_pt_filterlim, D).
    exists r, f, lo, hi. rewrite HE in U, HL. split; [exact E|]. split; [now rewrite CI|]. split; [exact C|]. split; [exact Cf|]. split; [exact Pf|]. split; [exact U|]. split; [exact AB|]. split; [exact HL|].
    intros ma ms d x ra rs Ea Es Hrs. unfold self_absorption. rewrite Li_state. cbn [bind]. rewrite E. cbn [bind]. rewrite Ea. cbn [bind]. rewrite Es. cbn [bind]. rewrite CI. cbn [snd bind].
    rewrite HM. cbn [st_excitation_energy Li_excited].
    assert (V : forall e, res_call r e false = Ok (f (e + E_Li))) by (intros e; rewrite relative_energy, HE; apply C).
    pose proof (relative_integral (fun e => A f ra e * W f rs e) lo hi E_Li (Rlt_le _ _ AB) (fun e He => AW_cont f lo hi (fun e _ => Cf e) ra rs e He)) as J1.
    pose proof (relative_integral (W f rs) lo hi E_Li (Rlt_le _ _ AB) (fun e He => W_cont f lo hi (fun e _ => Cf e) rs e He)) as J2.
    assert (AB' : lo - E_Li <= hi - E_Li) by lra.
    pose proof (D_pos f lo hi AB (fun e _ => Cf e) (fun e _ => Pf e) rs Hrs) as PD.
    match goal with |- context [quad ?g _ _] => assert (V1 : quad g (lo - E_Li) (hi - E_Li) = Ok (N f lo hi ra rs)) end.
    { eapply Q; [exact AB'| |exact J1]. intros e _. unfold photon_flux_density. rewrite V. cbn [bind]. f_equal. unfold A, W. now rewrite <- !Ropp_mult_distr_l. }
    rewrite V1. cbn [bind].
    match goal with |- context [quad ?g _ _] => assert (V2 : quad g (lo - E_Li) (hi - E_Li) = Ok (L_Notebook5.D f lo hi rs)) end.
    { eapply Q; [exact AB'| |exact J2]. intros e _. rewrite V. cbn [bind]. f_equal. unfold W. now rewrite <- Ropp_mult_distr_l. }
    rewrite V2. cbn [bind]. rewrite fdiv_nz by lra. cbn [bind]. f_equal. symmetry. apply loss_NA; [exact AB|intros; apply Pf].
  Qed.
End Line.

Section Facts.
  Variables (quad : quad_out_fn) (modern : bool) (k : constants) (l : lithium) (Gamma T c : R) (p : pv).
  Hypothesis Q : quad_exact quad.
  Hypothesis X : experiment k l Gamma T c p.
  Variables (d x : R).
  Hypothesis Hd : 0 < d.
  Hypothesis Hx : 0 < x.
  Notation SA ma ms := (self_absorption quad modern k l Gamma ma ms d x T c).
  Lemma R_common : exists r f lo hi a, Voigt modern k (GroundState "1^+_1" 2 1) (Li_excited Gamma) (li_6 l) T None = Ok r /\ snd (coverage_interval r c) = Ok (Finite lo, Finite hi) /\
    cross_section_is r f /\ (forall E, continuity_pt f E) /\ (forall E, 0 < f E) /\ strictly_unimodal E_Li f /\ lo < hi /\ lo <= E_Li <= hi /\ 0 < a /\
    (forall m, areal_density k l m d x = Ok (a * m)) /\
    forall ma ms, 0 < ms -> SA ma ms = Ok (Loss f lo hi (a * ma) (a * ms)).
  Proof.
    destruct (R_value quad modern k l Gamma T c p Q X) as (r & f & lo & hi & V & CI & C & Cf & Pf & U & LH & HE & S).
    assert (K : constants_ok k) by apply X. assert (L : li_ok l) by apply X.
    destruct (areal_density_linear k l d x K L Hd Hx) as (a & Pa & HA). exists r, f, lo, hi, a. repeat (split; [assumption|]).
    intros ma ms Hm. apply S; auto. now apply Rmult_lt_0_compat.
  Qed.
  Lemma R_range ma ms : 0 <= ma -> 0 < ms -> exists v, SA ma ms = Ok v /\ 0 <= v < 1 /\ (v = 0 <-> ma = 0).
  Proof.
    intros Ha Hs. destruct R_common as (r & f & lo & hi & a & _ & _ & _ & Cf & Pf & _ & LH & _ & Pa & _ & S). eexists. split; [now apply S|].
    assert (0 < a * ms) by now apply Rmult_lt_0_compat. assert (0 <= a * ma) by (apply Rmult_le_pos; lra).
    split; [apply Loss_range; auto|]. split.
    - intros Z. destruct (Req_dec ma 0) as [|N]; [assumption|]. exfalso. assert (Y : 0 < a * ma) by (apply Rmult_lt_0_compat; lra).
      pose proof (Loss_absorber f lo hi LH (fun E _ => Cf E) (fun E _ => Pf E) 0 (a * ma) (a * ms) ltac:(assumption) Y) as B. rewrite Loss_zero in B by auto. lra.
    - intros ->. rewrite Rmult_0_r. apply Loss_zero; auto.
  Qed.
  Lemma R_absorber ma ma' ms v v' : 0 < ms -> ma < ma' -> SA ma ms = Ok v -> SA ma' ms = Ok v' -> v < v'.
  Proof.
    intros Hs Hm E E'. destruct R_common as (r & f & lo & hi & a & _ & _ & _ & Cf & Pf & _ & LH & _ & Pa & _ & S). rewrite S in E, E' by assumption. injection E as <-. injection E' as <-.
    apply Loss_absorber; auto; [now apply Rmult_lt_0_compat|now apply Rmult_lt_compat_l].
  Qed.
  Lemma R_scatterer ma ms ms' v v' : 0 <= ma -> 0 < ms <= ms' -> SA ma ms = Ok v -> SA ma ms' = Ok v' -> v' <= v.
  Proof.
    intros Ha [Hs Hm] E E'. destruct R_common as (r & f & lo & hi & a & _ & _ & _ & Cf & Pf & _ & LH & _ & Pa & _ & S). rewrite S in E, E' by lra. injection E as <-. injection E' as <-.
    apply Loss_scatterer; auto; [apply Rmult_le_pos; lra|]. split; [now apply Rmult_lt_0_compat|apply Rmult_le_compat_l; lra].
  Qed.
  Lemma R_bounds ma ms : 0 <= ma -> 0 < ms -> exists v r lo hi s0 s1 s ra, SA ma ms = Ok v /\
    Voigt modern k (GroundState "1^+_1" 2 1) (Li_excited Gamma) (li_6 l) T None = Ok r /\ snd (coverage_interval r c) = Ok (Finite lo, Finite hi) /\
    res_call r lo true = Ok s0 /\ res_call r hi true = Ok s1 /\ res_call r E_Li true = Ok s /\ areal_density k l ma d x = Ok ra /\
    1 - exp (- (Rmin s0 s1 * ra)) <= v <= 1 - exp (- (s * ra)) /\ v <= s * ra.
  Proof.
    intros Ha Hs. destruct R_common as (r & f & lo & hi & a & V & CI & C & Cf & Pf & [U1 U2] & LH & HE & Pa & HA & S).
    assert (0 < a * ms) by now apply Rmult_lt_0_compat. assert (0 <= a * ma) by (apply Rmult_le_pos; lra).
    assert (B : forall E, lo <= E <= hi -> Rmin (f lo) (f hi) <= f E <= f E_Li).
    { intros E HEE. pose proof (Rmin_l (f lo) (f hi)). pose proof (Rmin_r (f lo) (f hi)). destruct (Rtotal_order E E_Li) as [L|[->|G]].
      - pose proof (U1 E E_Li L (Rle_refl _)). destruct (proj1 HEE) as [Y|Y]; [pose proof (U1 lo E Y (Rlt_le _ _ L)); lra|rewrite <- Y in *; lra].
      - split; [|lra]. destruct (proj1 HE) as [Y|Y]; [pose proof (U1 lo E_Li Y (Rle_refl _)); lra|rewrite Y in *; lra].
      - pose proof (U2 E_Li E (Rle_refl _) G). destruct (proj2 HEE) as [Y|Y]; [pose proof (U2 E hi (Rlt_le _ _ G) Y); lra|rewrite Y in *; lra]. }
    pose proof (Loss_between f lo hi LH (fun E _ => Cf E) (fun E _ => Pf E) (a * ma) (a * ms) (Rmin (f lo) (f hi)) (f E_Li) ltac:(assumption) ltac:(assumption) B) as Z.
    exists (Loss f lo hi (a * ma) (a * ms)), r, lo, hi, (f lo), (f hi), (f E_Li), (a * ma).
    split; [now apply S|]. split; [exact V|]. split; [exact CI|]. split; [apply C|]. split; [apply C|]. split; [apply C|]. split; [apply HA|]. split; [exact Z|].
    pose proof (exp_ineq1_le (- (f E_Li * (a * ma)))). lra.
  Qed.
End Facts.
(** Only the masses per area matter. *)
Lemma R_scaling quad modern k l Gamma T c p d x ma ms q y : experiment k l Gamma T c p -> 0 < d -> 0 < x -> 0 < q -> 0 < y ->
  self_absorption quad modern k l Gamma (q ^ 2 / y * ma) (q ^ 2 / y * ms) (q * d) (y * x) T c = self_absorption quad modern k l Gamma ma ms d x T c.
Proof.
  intros X Hd Hx Hq Hy. unfold self_absorption. assert (K : constants_ok k) by apply X. assert (L : li_ok l) by apply X.
  assert (S : forall m, areal_density k l (q ^ 2 / y * m) (q * d) (y * x) = areal_density k l m d x).
  { intros m. rewrite !areal_density_value by (auto; now apply Rmult_lt_0_compat). f_equal. pose proof (areal_denominator k l d K L Hd) as P.
    destruct L as (P6 & P7 & PC & PO & M). pose proof (carbonate_pos _ _ _ _ _ P6 P7 PC PO M). pose proof PI_RGT_0. assert (0 < k_u_kg k) by apply K. field. repeat split; try lra. }
  now rewrite !S.
Qed.
