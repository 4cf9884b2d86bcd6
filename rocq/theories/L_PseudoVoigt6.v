(** Pseudo-Voigt and Voigt resonances: assembly. *)
From Coq Require Import Reals List ZArith Lra Lia Sorted String.
From Coquelicot Require Import Coquelicot.
From Verif Require Import Py Spec M_Num M_Grid M_Constituents M_Thermal M_Dist M_Resonance M_PseudoVoigt
  S_Resonance S_PseudoVoigt L_RInt L_Grid L_Darboux L_Dist L_Resonance L_Resonance2 L_Resonance3 L_Resonance4 L_Resonance5 L_Resonance6 L_Newton
  L_PseudoVoigt L_PseudoVoigt2 L_PseudoVoigt3 L_PseudoVoigt4 L_PseudoVoigt5.
Import ListNotations.
Open Scope R_scope.

(** ** Inversion, stated for the distribution *)
Lemma unique_quantile k E w amu T p : pv_params k E w amu T -> PseudoVoigtDistribution k E w amu T = Ok p ->
  forall q, 0 < q < 1 -> exists x, pv_cdf p x = Ok q /\ forall y, pv_cdf p y = Ok q -> y = x.
Proof.
  intros P EP q Hq. destruct (pv_build _ _ _ _ _ P) as (p' & EP' & V & _). rewrite EP in EP'. injection EP' as <-.
  destruct (dens_onto _ _ (pv_density p V) q Hq) as [x Hx]. exists x. split; [rewrite pv_cdf_ok by assumption; now rewrite Hx|].
  intros y Hy. rewrite pv_cdf_ok in Hy by assumption. injection Hy as Hy. apply (dens_inj _ _ (pv_density p V)). congruence.
Qed.
Lemma valid_of k E w amu T p : pv_params k E w amu T -> PseudoVoigtDistribution k E w amu T = Ok p -> pv_valid p /\ pv_energy p = E.
Proof. intros P EP. destruct (pv_build _ _ _ _ _ P) as (p' & EP' & V & HE & _). rewrite EP in EP'. injection EP' as <-. auto. Qed.

Lemma accurate k E w amu T p modern qs ws xs : pv_params k E w amu T -> PseudoVoigtDistribution k E w amu T = Ok p ->
  pv_ppf modern p qs = (ws, Ok (Some xs)) -> inverted ws ->
  Forall2 (fun q x => exists e F, x = Finite e /\ pv_cdf p e = Ok F /\ Rabs (F - q) <= accuracy p /\
     (1 / 2 <= q -> E <= e /\ F <= q) /\ (q <= 1 / 2 -> e <= E /\ q <= F)) qs xs /\
  (strictly_ascending qs -> exists es, xs = map Finite es /\ strictly_ascending es).
Proof.
  intros P EP H I. destruct (valid_of _ _ _ _ _ _ P EP) as [V HE].
  destruct (ppf_inverted p V _ _ _ _ H I) as (rs & -> & _ & N & S). split; [|intros K; exists rs; auto].
  clear -N V HE. induction N as [|q x qs rs Nx N IH]; cbn; constructor; [|assumption].
  exists x, (pvF p x). split; [reflexivity|]. split; [now apply pv_cdf_ok|]. split; [now apply near_abs|].
  destruct Nx as [A B]. rewrite HE in A, B. split; intros K; [destruct (A K)|destruct (B K)]; split; lra.
Qed.
Lemma accurate_scalar k E w amu T p q : pv_params k E w amu T -> PseudoVoigtDistribution k E w amu T = Ok p -> 0 < q < 1 ->
  exists ws x F, pv_ppf_scalar p q = (ws, Ok (Some [Finite x])) /\ pv_cdf p x = Ok F /\
    (inverted ws -> Rabs (F - q) <= accuracy p).
Proof.
  intros P EP Hq. destruct (valid_of _ _ _ _ _ _ P EP) as [V HE].
  destruct (scalar_outcomes p q V Hq) as (ws & x & E1 & N). exists ws, x, (pvF p x).
  split; [exact E1|]. split; [now apply pv_cdf_ok|]. intros I. now apply near_abs, N.
Qed.

(** ** Narrow lines *)
Lemma atan_half_pi : atan (PI / 2) < PI / 3.
Proof.
  apply Rlt_le_trans with (atan (sqrt 3)).
  - apply atan_increasing. pose proof PI_upper. assert (1.74 * 1.74 > 3) by lra.
    assert (PI < 3.4).
    { pose proof (PI_ineq 2) as [_ K]. unfold tg_alt, PI_tg in K. cbn in K. lra. }
    apply Rlt_le_trans with 1.7; [lra|]. rewrite <- (sqrt_Rsqr 1.7) by lra. apply sqrt_le_1_alt. unfold Rsqr. lra.
  - right. rewrite <- (tan_PI3). apply atan_tan. pose proof PI_RGT_0. lra.
Qed.
Definition cold_pv (p : pv) (k : constants) (E w amu : R) : Prop := pv_params k E w amu 0 /\ PseudoVoigtDistribution k E w amu 0 = Ok p.
Lemma inaccurate k E w amu p q : pv_params k E w amu 0 -> PseudoVoigtDistribution k E w amu 0 = Ok p -> w <= 1 / 10 ^ 8 ->
  1 / 2 < q <= 1 -> exists x F, pv_ppf_scalar p q = ([], Ok (Some [Finite x])) /\ pv_cdf p x = Ok F /\ F < 5 / 6.
Proof.
  intros P EP Hw Hq. destruct (cold _ _ _ _ _ P EP) as (Pw & _ & _ & _ & _ & V & HE & Hf & HF).
  exists (E + (q - 1 / 2) * (PI * (w / 4))), (pvF p (E + (q - 1 / 2) * (PI * (w / 4)))).
  pose proof PI_upper. pose proof PI_lower.
  split; [|split; [now apply pv_cdf_ok|]].
  - apply (narrow_scalar p E (w / 4)); try assumption; try lra.
    replace ((1 / 2 - q) * (PI * (w / 4))) with (- ((q - 1 / 2) * (PI * (w / 4)))) by ring. rewrite Rabs_Ropp, Rabs_pos_eq.
    + apply Rle_trans with (1 / 2 * (3.5 * (1 / 10 ^ 8 / 4))); [|unfold tol; lra].
      apply Rmult_le_compat; [lra|nra|lra|]. apply Rmult_le_compat; lra.
    + apply Rmult_le_pos; nra.
  - rewrite (narrow_cdf p E (w / 4)) by (assumption || lra).
    assert (atan (PI * (q - 1 / 2)) <= atan (PI / 2)).
    { destruct (Req_dec (PI * (q - 1 / 2)) (PI / 2)) as [->|N]; [lra|]. left. apply atan_increasing. nra. }
    pose proof atan_half_pi. assert (atan (PI * (q - 1 / 2)) / PI < 1 / 3); [|lra].
    apply (Rmult_lt_reg_r PI); [lra|]. unfold Rdiv at 1. rewrite Rmult_assoc, Rinv_l by lra. lra.
Qed.

(** ** Nothing is returned *)
Lemma grid_none_cold modern k i m amu fin r w : PseudoVoigt modern k i m amu 0 fin = Ok r -> width m = Ok w ->
  pv_params k (r_energy r) w amu 0 -> 3 / 10 ^ 7 <= w -> res_probability_grid r (Coverage 1) 3 = ([], Ok None).
Proof.
  intros H W P Hw. destruct (pv_res_density _ _ _ _ _ _ _ _ _ H W P) as (p & EP & V & HE & HP & HDi & _ & HC).
  destruct (cold _ _ _ _ _ P EP) as (Pw & _ & _ & _ & _ & _ & _ & Hf & HF).
  unfold res_probability_grid. cbn [bind]. rewrite linspace_ok by lia. rewrite HP, HDi. cbn [pv_distribution d_ppf].
  replace (map _ (seq 0 (Z.to_nat 3))) with [0; 1 / 2; 1].
  - rewrite (three_none p (r_energy r) (w / 4)) by (assumption || (unfold tol; lra)). reflexivity.
  - change (Z.to_nat 3) with 3%nat. cbn [seq map INR]. change (IZR (3 - 1)) with 2.
    f_equal; [field|]. f_equal; [field|]. f_equal. field.
Qed.
Lemma single_type_error modern k i m amu T fin r w : PseudoVoigt modern k i m amu T fin = Ok r -> width m = Ok w ->
  pv_params k (r_energy r) w amu T ->
  res_probability_grid r (Coverage 0) 1 = ([], if modern then Ok (Some [Finite (r_energy r)]) else Raise TypeError).
Proof.
  intros H W P. destruct (pv_res_density _ _ _ _ _ _ _ _ _ H W P) as (p & EP & V & HE & HP & HDi & _ & HC).
  unfold res_probability_grid. cbn [bind]. rewrite linspace_1, HP, HDi. cbn [pv_distribution d_ppf].
  replace (1 / 2 * (1 - 0)) with (1 / 2) by ring. destruct (median_single p V) as (E1 & E2 & _). rewrite <- HE.
  destruct modern; [rewrite E2|rewrite E1]; reflexivity.
Qed.

(** ** C27, C28, C30, C31 for the pseudo-Voigt profile *)
Lemma pv_symmetric modern k i m amu T fin r w : PseudoVoigt modern k i m amu T fin = Ok r -> width m = Ok w ->
  pv_params k (r_energy r) w amu T -> exists f, cross_section_is r f /\ symmetric_about (r_energy r) f /\
    integral_over_axis f (r_integrated r).
Proof.
  intros H W P. destruct (pv_res_density _ _ _ _ _ _ _ _ _ H W P) as (p & EP & V & HE & HP & HDi & HC & _).
  eexists. split; [exact HC|]. split; [|apply (dens_axis_scal _ _ _ (pv_density p V))].
  intros d. cbn. rewrite <- HE. f_equal. apply pv_symm.
Qed.

Lemma pv_covers modern k i m amu T fin r w c ws lo hi : PseudoVoigt modern k i m amu T fin = Ok r -> width m = Ok w ->
  pv_params k (r_energy r) w amu T -> 0 <= c <= 1 -> coverage_interval r c = (ws, Ok (lo, hi)) -> inverted ws ->
  exists p a b f F e1 e2, PseudoVoigtDistribution k (r_energy r) w amu T = Ok p /\
    lo = Finite a /\ hi = Finite b /\ a <= r_energy r <= b /\ cross_section_is r f /\
    is_RInt f a (r_energy r) ((c / 2 - e1) * r_integrated r) /\ 0 <= e1 <= accuracy p /\
    is_RInt f (r_energy r) b ((c / 2 - e2) * r_integrated r) /\ 0 <= e2 <= accuracy p /\
    (forall x y, is_RInt f x y ((F y - F x) * r_integrated r)) /\ is_lim F m_infty 0 /\ is_lim F p_infty 1 /\
    (forall x, In (NegativeLowerLimit x) ws <-> a < 0 /\ x = 100 * (1 - F 0)) /\
    ~ In InfiniteUpperLimit ws.
Proof.
  intros H W P Hc EC I. destruct (pv_res_density _ _ _ _ _ _ _ _ _ H W P) as (p & EP & V & HE & HP & HDi & HV & HC).
  destruct (pv_coverage r p modern V HP ltac:(intros; rewrite HDi; reflexivity) HC c ws lo hi Hc EC I)
    as (a & b & -> & -> & Na & Nb & HW & HI).
  destruct (near_left r p HE _ _ Na ltac:(lra)) as [La Fa]. destruct (near_right r p HE _ _ Nb ltac:(lra)) as [Lb Fb].
  assert (Int : forall x y, is_RInt (fun E => r_integrated r * pvf p E) x y ((pvF p y - pvF p x) * r_integrated r)).
  { intros x y. rewrite Rmult_comm. apply (is_RInt_scal (V := R_NormedModule) (pvf p) x y (r_integrated r)). apply (dens_is_RInt _ _ (pv_density p V)). }
  assert (M : pvF p (r_energy r) = 1 / 2) by (rewrite <- HE; apply pv_median).
  exists p, a, b, (fun E => r_integrated r * pvf p E), (pvF p), (pvF p a - 1 / 2 * (1 - c)), (1 / 2 * (1 + c) - pvF p b).
  split; [exact EP|]. split; [reflexivity|]. split; [reflexivity|]. split; [lra|]. split; [exact HV|].
  split. { replace (c / 2 - (pvF p a - 1 / 2 * (1 - c))) with (pvF p (r_energy r) - pvF p a) by (rewrite M; field). apply Int. }
  split; [lra|].
  split. { replace (c / 2 - (1 / 2 * (1 + c) - pvF p b)) with (pvF p b - pvF p (r_energy r)) by (rewrite M; field). apply Int. }
  split; [lra|]. split; [exact Int|]. split; [apply (pv_density p V)|]. split; [apply (pv_density p V)|]. auto.
Qed.

Lemma pv_grids modern k i m amu T fin r w : PseudoVoigt modern k i m amu T fin = Ok r -> width m = Ok w ->
  pv_params k (r_energy r) w amu T -> exists p f, PseudoVoigtDistribution k (r_energy r) w amu T = Ok p /\ cross_section_is r f /\
  (forall a b n ws g, a < b -> a <= r_energy r <= b -> (2 <= n)%Z ->
    res_probability_grid r (Limits a b) n = (ws, Ok (Some g)) -> inverted ws ->
    exists xs T, g = map Finite xs /\ Z.of_nat (List.length xs) = n /\ first xs = a /\ final xs = b /\
      is_RInt f a b (r_integrated r * T) /\
      almost_equal_grid (r_integrated r) f (T / IZR (n - 1)) (2 * accuracy p) xs) /\
  (forall c n ws g, 0 < c <= 1 -> (2 <= n)%Z ->
    res_probability_grid r (Coverage c) n = (ws, Ok (Some g)) -> inverted ws ->
    exists xs, g = map Finite xs /\ Z.of_nat (List.length xs) = n /\ first xs <= r_energy r <= final xs /\
      almost_equal_grid (r_integrated r) f (c / IZR (n - 1)) (2 * accuracy p) xs).
Proof.
  intros H W P. destruct (pv_res_density _ _ _ _ _ _ _ _ _ H W P) as (p & EP & V & HE & HP & HDi & HV & HC).
  exists p, (fun E => r_integrated r * pvf p E). split; [exact EP|]. split; [exact HV|].
  assert (Hppf : forall qs, d_ppf (r_dist r) [] qs = pv_ppf modern p qs) by (intros; rewrite HDi; reflexivity).
  split.
  - intros a b n ws g Hab HEr Hn EG I.
    destruct (pv_grid_limits r p modern V HE HP Hppf HC a b n ws g Hab HEr Hn EG I) as (xs & -> & L & Fi & La & A).
    exists xs, (pvF p b - pvF p a). repeat (split; [first [reflexivity|assumption]|]). split; [|exact A].
    apply (is_RInt_scal (V := R_NormedModule) (pvf p) a b (r_integrated r)). apply (dens_is_RInt _ _ (pv_density p V)).
  - intros c n ws g Hc Hn EG I.
    destruct (pv_grid_coverage r p modern V HP Hppf c n ws g Hc Hn EG I) as (xs & -> & L & A & N1 & N2).
    exists xs. split; [reflexivity|]. split; [exact L|]. split; [|exact A].
    split; [apply (near_left r p HE _ _ N1)|apply (near_right r p HE _ _ N2)]; lra.
Qed.

(** ** Voigt at vanishing temperature *)
Lemma voigt_cold_cases modern k i m amu fin r w c ws lo hi : Voigt modern k i m amu 0 fin = Ok r -> width m = Ok w ->
  pv_params k (r_energy r) w amu 0 -> 0 < c < 1 -> coverage_interval r c = (ws, Ok (lo, hi)) ->
  exists a b f y, lo = Finite a /\ hi = Finite b /\ cross_section_is r f /\
    integral_over_axis f (r_integrated r) /\
    is_RInt f a b (r_integrated r * y) /\ y <= 2 / PI * atan (tan (PI * c / 2) / 2).
Proof.
  intros H W P Hc EC. destruct (voigt_inv _ _ _ _ _ _ _ _ _ H W P) as (r0 & p & ER & EP & E & V & HE).
  destruct (cold _ _ _ _ _ P EP) as (Pw & HG & He1 & Hsg & Hgm & _ & _ & Hf & HF).
  assert (HP : r_params r = []) by (rewrite E; reflexivity).
  assert (HDi : r_dist r = voigt_distribution modern p) by (rewrite E; reflexivity).
  assert (Sc : 1 / 2 * pv_gamma_L p = w / 4) by (destruct V as (_ & _ & _ & ->); rewrite HG; field). clear E HG.
  set (t := tan (PI * c / 2)). pose proof PI_RGT_0 as HPI.
  assert (Ht : 0 < t) by (apply tan_gt_0; [apply Rdiv_lt_0_compat; [apply Rmult_lt_0_compat|]; lra|nra]).
  assert (At : atan t = PI * c / 2) by (unfold t; apply atan_tan; split; nra).
  assert (Lim : exists a b, lo = Finite a /\ hi = Finite b /\ r_energy r - w / 4 * t <= a /\ b <= r_energy r + w / 4 * t).
  { assert (KL : forall x, 1 / 2 * (1 - c) <= cauchy_cdf (r_energy r) (w / 4) x -> r_energy r - w / 4 * t <= x).
    { intros x Hx. unfold cauchy_cdf in Hx.
      assert (A : atan (- t) <= atan ((x - r_energy r) / (w / 4))).
      { rewrite atan_opp, At. apply (Rmult_le_reg_r (/ PI)); [now apply Rinv_0_lt_compat|].
        replace (- (PI * c / 2) * / PI) with (- c / 2) by (field; lra). unfold Rdiv in Hx. lra. }
      assert (B : - t <= (x - r_energy r) / (w / 4)).
      { destruct (Rle_dec (- t) ((x - r_energy r) / (w / 4))) as [|N]; [assumption|].
        pose proof (atan_increasing _ _ (Rnot_le_lt _ _ N)). lra. }
      apply (Rmult_le_compat_r (w / 4)) in B; [|lra].
      replace ((x - r_energy r) / (w / 4) * (w / 4)) with (x - r_energy r) in B by (field; lra). lra. }
    assert (KR : forall x, cauchy_cdf (r_energy r) (w / 4) x <= 1 / 2 * (1 + c) -> x <= r_energy r + w / 4 * t).
    { intros x Hx. unfold cauchy_cdf in Hx.
      assert (A : atan ((x - r_energy r) / (w / 4)) <= atan t).
      { rewrite At. apply (Rmult_le_reg_r (/ PI)); [now apply Rinv_0_lt_compat|].
        replace (PI * c / 2 * / PI) with (c / 2) by (field; lra). unfold Rdiv in Hx |- *. lra. }
      assert (B : (x - r_energy r) / (w / 4) <= t).
      { destruct (Rle_dec ((x - r_energy r) / (w / 4)) t) as [|N]; [assumption|].
        pose proof (atan_increasing _ _ (Rnot_le_lt _ _ N)). lra. }
      apply (Rmult_le_compat_r (w / 4)) in B; [|lra].
      replace ((x - r_energy r) / (w / 4) * (w / 4)) with (x - r_energy r) in B by (field; lra). lra. }
    unfold coverage_interval in EC. rewrite HP, HDi in EC. cbn [voigt_distribution d_ppf d_cdf no_params] in EC.
    set (qs := [1 / 2 * (1 - c); 1 / 2 * (1 + c)]) in *.
    destruct (pv_ppf modern p qs) as [w' res] eqn:EPP. destruct res as [[l|]| |]; try discriminate.
    assert (L : exists a b, l = [Finite a; Finite b] /\ 1 / 2 * (1 - c) <= pvF p a /\ pvF p b <= 1 / 2 * (1 + c)).
    { destruct (ppf_cases p V modern qs) as [(rs & E' & N & _)|[[E' _]|[(E' & _)|E']]]; rewrite E' in EPP.
      - injection EPP as <- <-. inversion N as [|? a ? rs1 Na N1]; subst. inversion N1 as [|? b ? rs2 Nb N2]; subst. inversion N2; subst.
        exists a, b. split; [reflexivity|]. destruct Na as [_ Na]. destruct Nb as [Nb _].
        destruct (Na ltac:(lra)) as [_ ?]. destruct (Nb ltac:(lra)) as [_ ?]. lra.
      - discriminate.
      - discriminate.
      - injection EPP as <- EPP. destruct (fallback_finite p qs V) as (rs & E'' & _ & F2).
        { constructor; [lra|constructor; [lra|constructor]]. }
        rewrite E'' in EPP. injection EPP as <-.
        inversion F2 as [|? a ? rs1 (u & v & _ & Fv & Ea) F21]; subst. inversion F21 as [|? b ? rs2 (u' & v' & _ & Fv' & Eb) F22]; subst. inversion F22; subst.
        rewrite He1. exists v, v'. split; [cbn [map]; repeat f_equal; ring|].
        rewrite Sc, HE in Fv, Fv'. rewrite !HF. lra. }
    destruct L as (a & b & -> & La & Lb). rewrite HF in La, Lb. exists a, b.
    destruct (Rbar_negative a); [destruct (pv_cdf p 0)|]; try discriminate; injection EC as _ <- <-; auto. }
  destruct Lim as (a & b & -> & -> & La & Lb).
  assert (HV : cross_section_is r (fun x => r_integrated r * cauchy_pdf (r_energy r) (w / 2) x)).
  { intros x. unfold res_call. rewrite HP, HDi. cbn [voigt_distribution d_pdf no_params voigt_pdf oscale omap]. unfold voigt_profile. rewrite Hsg.
    destruct (Req_EM_T 0 0) as [_|]; [|lra]. rewrite Hgm, HE. unfold cauchy_pdf. rewrite Rminus_0_r. reflexivity. }
  pose proof (cauchy_density (r_energy r) (w / 2) ltac:(lra)) as D2.
  exists a, b, (fun x => r_integrated r * cauchy_pdf (r_energy r) (w / 2) x), (cauchy_cdf (r_energy r) (w / 2) b - cauchy_cdf (r_energy r) (w / 2) a).
  split; [reflexivity|]. split; [reflexivity|]. split; [exact HV|]. split; [apply (dens_axis_scal _ _ _ D2)|]. split.
  { apply (is_RInt_scal (V := R_NormedModule) _ a b (r_integrated r)). apply (dens_is_RInt _ _ D2). }
  pose proof (dens_le _ _ D2 _ _ La) as Fa. pose proof (dens_le _ _ D2 _ _ Lb) as Fb.
  apply Rle_trans with (cauchy_cdf (r_energy r) (w / 2) (r_energy r + w / 4 * t) - cauchy_cdf (r_energy r) (w / 2) (r_energy r - w / 4 * t)); [lra|].
  unfold cauchy_cdf. replace ((r_energy r + w / 4 * t - r_energy r) / (w / 2)) with (t / 2) by (field; lra).
  replace ((r_energy r - w / 4 * t - r_energy r) / (w / 2)) with (- (t / 2)) by (field; lra). rewrite atan_opp. right. field. lra.
Qed.

(** ** A concrete case *)
Open Scope string_scope.
(** As [excited], with a width of [w] MeV. *)
Definition excited_with (w : R) : state :=
  {| st_J_pi := "1^-"; st_two_J := 2; st_parity := -1; st_excitation_energy := 1;
     st_decays := Some ([("0^+", w)], w) |}.
Lemma res_example_with w : 0 < w -> exists r, Resonance codata ground (excited_with w) None NoRecoil = Ok r /\ r_energy r = 1 /\ 0 < r_integrated r.
Proof.
  intros Hw. unfold Resonance, NoRecoil. cbn [bind]. unfold get_statistical_factor. rewrite fdiv_nz by (cbn; lra). cbn [bind].
  cbn [get_final_state_branching_ratio bind]. unfold get_energy_integrated_cross_section.
  rewrite fdiv_nz by (cbn; lra). cbn [bind partial_widths excited_with st_decays ground GroundState st_J_pi dgetE].
  eexists. split; [reflexivity|]. cbn [r_energy r_integrated]. split; [cbn; ring|].
  pose proof PI_RGT_0. apply Rmult_lt_0_compat; [|lra]. apply Rmult_lt_0_compat; [|lra].
  apply Rmult_lt_0_compat; [|cbn; lra]. apply Rdiv_lt_0_compat; [apply pow_lt; cbn; nra|cbn; lra].
Qed.
Lemma params_with w T : 0 < w -> 0 <= T -> pv_params codata 1 w 12 T.
Proof. intros Hw HT. unfold pv_params. split; [apply codata_ok|]. lra. Qed.
Lemma pv_example modern w T : 0 < w -> 0 <= T -> exists r, PseudoVoigt modern codata ground (excited_with w) 12 T None = Ok r /\
  width (excited_with w) = Ok w /\ r_energy r = 1 /\ 0 < r_integrated r /\ pv_params codata (r_energy r) w 12 T.
Proof.
  intros Hw HT. destruct (res_example_with w Hw) as (r0 & ER & HE & HI).
  destruct (pseudo_voigt_ok modern codata ground (excited_with w) 12 T None r0 w ER eq_refl) as (r & E & E1 & E2).
  { rewrite HE. now apply params_with. }
  exists r. split; [exact E|]. split; [reflexivity|]. rewrite E1, E2, HE. repeat (split; [first [reflexivity|assumption]|]). now apply params_with.
Qed.
Lemma voigt_example modern w T : 0 < w -> 0 <= T -> exists r, Voigt modern codata ground (excited_with w) 12 T None = Ok r /\
  width (excited_with w) = Ok w /\ r_energy r = 1 /\ 0 < r_integrated r /\ pv_params codata (r_energy r) w 12 T.
Proof.
  intros Hw HT. destruct (res_example_with w Hw) as (r0 & ER & HE & HI).
  destruct (voigt_ok modern codata ground (excited_with w) 12 T None r0 w ER eq_refl) as (r & E & E1 & E2).
  { rewrite HE. now apply params_with. }
  exists r. split; [exact E|]. split; [reflexivity|]. rewrite E1, E2, HE. repeat (split; [first [reflexivity|assumption]|]). now apply params_with.
Qed.
Lemma lorentz_refuted : exists k i m amu fin w r r' f f', PseudoVoigt true k i m amu 0 fin = Ok r /\ BreitWigner k i m fin = Ok r' /\
  width m = Ok w /\ pv_params k (r_energy r) w amu 0 /\ cross_section_is r f /\ cross_section_is r' f' /\ f (r_energy r) <> f' (r_energy r).
Proof.
  destruct (pv_example true 1 0 ltac:(lra) ltac:(lra)) as (r & E & W & HE & HI & P).
  destruct (res_example_with 1 ltac:(lra)) as (r0 & ER & _).
  assert (exists r', BreitWigner codata ground (excited_with 1) None = Ok r') as [r' E'].
  { unfold BreitWigner. rewrite ER. cbn [bind width excited_with st_decays]. eexists. reflexivity. }
  destruct (lorentz_limit _ _ _ _ _ _ _ _ _ E E' W P) as (f & f' & C & C' & EI & E2 & Ff & Ff').
  exists codata, ground, (excited_with 1), 12, None, 1, r, r', f, f'. repeat (split; [first [reflexivity|assumption]|]).
  rewrite E2. assert (0 < f' (r_energy r)); [|lra]. rewrite Ff'. apply Rmult_lt_0_compat; [assumption|].
  pose proof PI_RGT_0. apply Rdiv_lt_0_compat; [lra|]. apply Rmult_lt_0_compat; [assumption|].
  replace (r_energy r - r_energy r) with 0 by ring. lra.
Qed.
Lemma inaccurate_refuted : exists k E w amu T p q x F, pv_params k E w amu T /\ PseudoVoigtDistribution k E w amu T = Ok p /\ 0 < q < 1 /\
  pv_ppf_scalar p q = ([], Ok (Some [Finite x])) /\ pv_cdf p x = Ok F /\ Rabs (F - q) > 15 / 100.
Proof.
  pose proof (params_with (1 / 10 ^ 9) 0 ltac:(lra) ltac:(lra)) as P. destruct (pv_build _ _ _ _ _ P) as (p & EP & _).
  destruct (inaccurate _ _ _ _ p (99 / 100) P EP ltac:(lra) ltac:(lra)) as (x & F & E1 & E2 & L).
  do 5 eexists. exists p, (99 / 100), x, F. split; [exact P|]. split; [exact EP|]. split; [lra|]. split; [exact E1|]. split; [exact E2|].
  rewrite Rabs_left1 by lra. lra.
Qed.
Lemma none_refuted : exists modern k i m amu T fin w r, PseudoVoigt modern k i m amu T fin = Ok r /\ width m = Ok w /\
  pv_params k (r_energy r) w amu T /\ res_probability_grid r (Coverage 1) 3 = ([], Ok None).
Proof.
  destruct (pv_example true 1 0 ltac:(lra) ltac:(lra)) as (r & E & W & HE & HI & P).
  do 8 eexists. exists r. split; [exact E|]. split; [exact W|]. split; [exact P|].
  eapply grid_none_cold; [exact E|exact W|exact P|lra].
Qed.
Lemma tan_quarter : tan (PI * (1 / 2) / 2) = 1.
Proof. replace (PI * (1 / 2) / 2) with (PI / 4) by field. apply tan_PI4. Qed.
Lemma half_third : 2 / PI * atan (1 / 2) <= 1 / 3.
Proof.
  pose proof PI_lower. assert (atan (1 / 2) <= 1 / 2).
  { destruct (MVT_gen atan 0 (1 / 2) (fun x => / (1 + x ^ 2))) as (c & Hc & E).
    - intros x _. apply is_derive_Reals. apply derivable_pt_lim_atan.
    - intros x _. apply derivable_continuous_pt, derivable_pt_atan.
    - rewrite atan_0 in E. assert (/ (1 + c ^ 2) <= 1); [|lra]. rewrite <- Rinv_1. apply Rinv_le_contravar; [lra|]. pose proof (pow2_ge_0 c). lra. }
  apply (Rmult_le_reg_r PI); [lra|]. replace (2 / PI * atan (1 / 2) * PI) with (2 * atan (1 / 2)) by (field; lra). lra.
Qed.
Lemma voigt_third modern k i m amu fin r w ws lo hi : Voigt modern k i m amu 0 fin = Ok r -> width m = Ok w ->
  pv_params k (r_energy r) w amu 0 -> coverage_interval r (1 / 2) = (ws, Ok (lo, hi)) ->
  exists a b f y, lo = Finite a /\ hi = Finite b /\ cross_section_is r f /\
    integral_over_axis f (r_integrated r) /\ is_RInt f a b (r_integrated r * y) /\ y <= 1 / 3.
Proof.
  intros H W P EC. destruct (voigt_cold_cases _ _ _ _ _ _ _ _ (1 / 2) _ _ _ H W P ltac:(lra) EC) as (a & b & f & y & H1 & H2 & H3 & H4 & H5 & H6).
  exists a, b, f, y. repeat (split; [assumption|]). rewrite tan_quarter in H6. pose proof half_third. lra.
Qed.
Lemma voigt_refuted : exists modern k i m amu T fin w r a b f y, Voigt modern k i m amu T fin = Ok r /\ width m = Ok w /\
  pv_params k (r_energy r) w amu T /\ 0 < r_integrated r /\ coverage_interval r (1 / 2) = ([], Ok (Finite a, Finite b)) /\
  cross_section_is r f /\ integral_over_axis f (r_integrated r) /\ is_RInt f a b (r_integrated r * y) /\ y <= 1 / 3.
Proof.
  destruct (voigt_example true (1 / 10 ^ 9) 0 ltac:(lra) ltac:(lra)) as (r & E & W & HE & HI & P).
  destruct (voigt_inv _ _ _ _ _ _ _ _ _ E W P) as (r0 & p & ER & EP & Er & V & HEp).
  destruct (cold _ _ _ _ _ P EP) as (Pw & HG & He1 & Hsg & Hgm & _ & _ & Hf & HF).
  pose proof PI_lower. pose proof PI_upper.
  assert (EC : exists a b, coverage_interval r (1 / 2) = ([], Ok (Finite a, Finite b))).
  { unfold coverage_interval. rewrite Er. cbn [with_dist r_dist r_params voigt_distribution d_ppf d_cdf no_params].
    rewrite (narrow_array p (r_energy r) (1 / 10 ^ 9 / 4) V HEp ltac:(lra) Hf HF).
    - cbn [Rbar_is_inf Rbar_negative app]. destruct (Rlt_dec _ 0) as [N|_]; [|do 2 eexists; reflexivity].
      exfalso. rewrite HE in N. nra.
    - lra.
    - rewrite Rabs_pos_eq by nra. unfold tol. nra.
    - rewrite Rabs_left1 by nra. unfold tol. nra. }
  destruct EC as (a & b & EC).
  destruct (voigt_third _ _ _ _ _ _ _ _ _ _ _ E W P EC) as (a' & b' & f & y & H1 & H2 & H3 & H4 & H5 & H6).
  injection H1 as <-. injection H2 as <-.
  exists true, codata, ground, (excited_with (1 / 10 ^ 9)), 12, 0, None, (1 / 10 ^ 9), r, a, b, f, y. repeat (split; [assumption|]). assumption.
Qed.
