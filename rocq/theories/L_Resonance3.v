(** Breit-Wigner, Gaussian and box-shaped resonances. *)
From Coq Require Import Reals List ZArith Lra Lia Sorted String Permutation.
From Coquelicot Require Import Coquelicot.
From Verif Require Import Py Spec M_Num M_Grid M_Constituents M_Thermal M_Dist M_Resonance S_Resonance
  L_RInt L_Grid L_Constituents L_Thermal L_Dist L_Resonance L_Resonance2.
Import ListNotations.
Open Scope R_scope.

Lemma with_final k i m rec r0 f br : Resonance k i m None rec = Ok r0 ->
  get_final_state_branching_ratio m (Some f) = Ok br ->
  exists r, Resonance k i m (Some f) rec = Ok r /\ r_integrated r = r_integrated r0 * br.
Proof.
  intros H B. destruct (resonance_inv _ _ _ _ _ _ H) as (E_r & pw & w & g0 & b0 & HE & NE & NJ & Dm & G0 & B0 & HR).
  unfold Resonance. rewrite HE. cbn [bind]. unfold get_statistical_factor. rewrite fdiv_nz by exact NJ. cbn [bind].
  rewrite B. cbn [bind]. unfold get_energy_integrated_cross_section.
  rewrite fdiv_nz by (intros Z; apply NE; nra). cbn [bind]. unfold partial_widths. rewrite Dm. cbn [bind].
  unfold dgetE. rewrite G0. cbn [bind]. eexists; split; [reflexivity|]. cbn [r_integrated].
  destruct HR as (_ & _ & _ & _ & _ & _ & _ & -> & _). cbn in B0. injection B0 as <-. ring.
Qed.

Lemma traverse_ex {A B} (f : A -> out B) (P : A -> B -> Prop) l :
  (forall x, In x l -> exists y, f x = Ok y /\ P x y) -> exists m, traverse f l = Ok m /\ Forall2 P l m.
Proof.
  unfold traverse. induction l as [|a r IH]; intros H; cbn [map sequence].
  - eexists; split; [reflexivity|constructor].
  - destruct (H a (or_introl eq_refl)) as (y & -> & Py). cbn [bind].
    destruct IH as (m & -> & F); [intros; apply H; now right|]. cbn [bind].
    eexists; split; [reflexivity|]. now constructor.
Qed.
Lemma traverse_Forall2 {A B} (f : A -> out B) l m : traverse f l = Ok m -> Forall2 (fun x y => f x = Ok y) l m.
Proof.
  unfold traverse. revert m; induction l as [|a r IH]; cbn [map sequence]; intros m H.
  - injection H as <-. constructor.
  - destruct (f a) as [y| |] eqn:E; cbn [bind] in H; try discriminate.
    destruct (sequence (map f r)) as [s| |] eqn:E2; cbn [bind] in H; try discriminate.
    injection H as <-. constructor; auto.
Qed.

Lemma integrated_sum k i J tJ p E pw m w rec r0 fs : dict_ok pw -> State J tJ p E pw = Ok m ->
  width m = Ok w -> w <> 0 -> Resonance k i m None rec = Ok r0 ->
  Permutation (map st_J_pi fs) (dkeys pw) ->
  exists rs, traverse (fun f => Resonance k i m (Some f) rec) fs = Ok rs /\
             Rsum (map r_integrated rs) = r_integrated r0.
Proof.
  intros OK HS W N H0 P.
  destruct (branching_ratios _ _ _ _ _ _ _ _ OK HS W N P) as (brs & HB & S1).
  pose proof (traverse_Forall2 _ _ _ HB) as F2.
  assert (G : forall fs brs, Forall2 (fun f b => get_final_state_branching_ratio m (Some f) = Ok b) fs brs ->
     exists rs, traverse (fun f => Resonance k i m (Some f) rec) fs = Ok rs /\
       Rsum (map r_integrated rs) = r_integrated r0 * Rsum brs).
  { clear - H0. induction 1 as [|f b fs brs Hb _ IH].
    - exists []. split; [reflexivity|]. cbn. ring.
    - destruct IH as (rs & T & S). destruct (with_final _ _ _ _ _ _ _ H0 Hb) as (r & Hr & Er).
      exists (r :: rs). unfold traverse in *. cbn [map sequence]. rewrite Hr. cbn [bind]. rewrite T. cbn [bind].
      split; [reflexivity|]. rewrite !Rsum_cons, S, Er. ring. }
  destruct (G _ _ F2) as (rs & T & S). exists rs. split; [exact T|]. rewrite S, S1. ring.
Qed.

Lemma integrated_nonneg k i m fin rec r : (0 <= st_two_J i)%Z -> (0 <= st_two_J m)%Z ->
  (forall pw w, st_decays m = Some (pw, w) -> 0 <= w /\ List.Forall (fun g => 0 <= g) (dvalues pw)) ->
  Resonance k i m fin rec = Ok r -> 0 <= r_integrated r.
Proof.
  intros Hi Hm Hw H. destruct (resonance_inv _ _ _ _ _ _ H) as (E_r & pw & w & g0 & b0 & HE & NE & NJ & Dm & G0 & B0 & HR).
  destruct HR as (_ & _ & _ & _ & _ & _ & _ & -> & _).
  destruct (Hw _ _ Dm) as [W0 WF]. rewrite List.Forall_forall in WF.
  assert (V : forall j g, dget pw j = Some g -> 0 <= g).
  { intros j g Hj. apply dget_In in Hj. apply WF. unfold dvalues. change g with (snd (j, g)). now apply in_map. }
  apply IZR_le in Hi, Hm.
  apply Rmult_le_pos; [apply Rmult_le_pos; [apply Rmult_le_pos|]|].
  - apply Rmult_le_pos; [nra|]. left. apply Rinv_0_lt_compat. nra.
  - apply Rmult_le_pos; [lra|]. left. apply Rinv_0_lt_compat. lra.
  - eapply V; eassumption.
  - apply branching_inv in B0. destruct fin as [f|]; [|lra].
    destruct B0 as (pw' & w' & g & Dm' & G & Nw & ->). rewrite Dm in Dm'. injection Dm' as <- <-.
    apply Rmult_le_pos; [eapply V; eassumption|]. left. apply Rinv_0_lt_compat. lra.
Qed.

(** ** Subclasses *)
Lemma breit_wigner_inv k i m fin r : BreitWigner k i m fin = Ok r ->
  exists r0 w, Resonance k i m fin NoRecoil = Ok r0 /\ width m = Ok w /\
    r = with_dist r0 cauchy [r_energy r0; 1 / 2 * w].
Proof.
  unfold BreitWigner. destruct (Resonance k i m fin NoRecoil) as [r0| |]; cbn [bind]; try discriminate.
  destruct (width m) as [w| |]; cbn [bind]; try discriminate. intros [= <-]. eauto.
Qed.
Lemma breit_wigner_raises k i m fin :
  match Resonance k i m fin NoRecoil with
  | Raise e => BreitWigner k i m fin = Raise e
  | NaN => BreitWigner k i m fin = NaN
  | Ok r0 => exists w, width m = Ok w /\ BreitWigner k i m fin = Ok (with_dist r0 cauchy [r_energy r0; 1 / 2 * w])
  end.
Proof.
  unfold BreitWigner. destruct (Resonance k i m fin NoRecoil) as [r0| |] eqn:E; cbn [bind]; try reflexivity.
  destruct (resonance_inv _ _ _ _ _ _ E) as (? & pw & w & ? & ? & ? & ? & ? & Dm & _).
  exists w. unfold width. rewrite Dm. split; reflexivity.
Qed.

Lemma gauss_inv k i m amu T fin r : Gauss k i m amu T fin = Ok r ->
  exists r0 d, Resonance k i m fin NoRecoil = Ok r0 /\
    get_doppler_width k {| mb_amu := amu; mb_effective_temperature := T |} (r_energy r0) = Ok d /\
    r = with_dist r0 norm [r_energy r0; d / sqrt 2].
Proof.
  unfold Gauss. destruct (Resonance k i m fin NoRecoil) as [r0| |]; cbn [bind]; try discriminate.
  destruct (get_doppler_width _ _ _) as [d| |] eqn:E; cbn [bind]; try discriminate. intros [= <-]. eauto.
Qed.

Lemma doppler_value k amu T E : constants_ok k -> 0 < amu -> 0 <= T ->
  get_doppler_width k {| mb_amu := amu; mb_effective_temperature := T |} E =
  Ok (E * sqrt (2 * k_kB_eV k * / 10 ^ 6 * T / (amu * k_u_MeV k))).
Proof.
  intros K Ha HT. unfold constants_ok in K. unfold get_doppler_width; cbn [mb_amu mb_effective_temperature].
  rewrite fdiv_nz by (apply Rgt_not_eq; apply Rmult_lt_0_compat; lra). cbn [bind].
  rewrite np_sqrt_ok; [reflexivity|].
  apply Rmult_le_pos; [|left; apply Rinv_0_lt_compat, Rmult_lt_0_compat; lra].
  apply Rmult_le_pos; [|lra]. apply Rmult_le_pos; [lra|]. left. apply Rinv_0_lt_compat. lra.
Qed.
Lemma doppler_pos k amu T E d : constants_ok k -> 0 < amu -> 0 < T -> 0 < E ->
  get_doppler_width k {| mb_amu := amu; mb_effective_temperature := T |} E = Ok d -> 0 < d.
Proof.
  intros K Ha HT HE H. rewrite doppler_value in H by (assumption || lra). injection H as <-.
  unfold constants_ok in K. apply Rmult_lt_0_compat; [assumption|]. apply sqrt_lt_R0.
  apply Rmult_lt_0_compat; [|apply Rinv_0_lt_compat, Rmult_lt_0_compat; lra].
  apply Rmult_lt_0_compat; [|lra]. apply Rmult_lt_0_compat; [lra|]. apply Rinv_0_lt_compat. lra.
Qed.

Lemma sqrt2_pos : 0 < sqrt 2.
Proof. apply sqrt_lt_R0; lra. Qed.
Lemma scale_pos d : 0 < d -> 0 < d / sqrt 2.
Proof. intros. apply Rdiv_lt_0_compat; [assumption|apply sqrt2_pos]. Qed.

(** The two models with a density; [m] is the energy of the resonance. *)
Lemma breit_wigner_density k i m fin r w : BreitWigner k i m fin = Ok r -> width m = Ok w -> 0 < w ->
  has_density (r_dist r) (r_params r) (cauchy_pdf (r_energy r) (1 / 2 * w)) (cauchy_cdf (r_energy r) (1 / 2 * w)) /\
  exact_quantiles (r_dist r) (r_params r) (cauchy_cdf (r_energy r) (1 / 2 * w)) /\
  cauchy_cdf (r_energy r) (1 / 2 * w) (r_energy r) = 1 / 2.
Proof.
  intros H W Hw. destruct (breit_wigner_inv _ _ _ _ _ H) as (r0 & w' & _ & W' & ->).
  rewrite W in W'. injection W' as <-. cbn [with_dist r_dist r_params r_energy].
  split; [apply cauchy_object; lra|]. split; [apply cauchy_exact; lra|apply cauchy_median].
Qed.
Lemma gauss_density k i m amu T fin r : constants_ok k -> 0 < amu -> 0 < T ->
  Gauss k i m amu T fin = Ok r -> 0 < r_energy r -> exists d,
  get_doppler_width k {| mb_amu := amu; mb_effective_temperature := T |} (r_energy r) = Ok d /\ 0 < d /\
  has_density (r_dist r) (r_params r) (norm_pdf (r_energy r) (d / sqrt 2)) (norm_cdf (r_energy r) (d / sqrt 2)) /\
  exact_quantiles (r_dist r) (r_params r) (norm_cdf (r_energy r) (d / sqrt 2)) /\
  norm_cdf (r_energy r) (d / sqrt 2) (r_energy r) = 1 / 2.
Proof.
  intros K Ha HT H HE. destruct (gauss_inv _ _ _ _ _ _ _ H) as (r0 & d & _ & Hd & ->).
  cbn [with_dist r_dist r_params r_energy] in *. exists d. split; [exact Hd|].
  assert (0 < d) by (eapply doppler_pos; [..|exact Hd]; assumption).
  split; [assumption|]. split; [now apply norm_object, scale_pos|]. split; [now apply norm_exact, scale_pos|apply norm_median].
Qed.

Lemma axis_scal f c I : integral_over_axis f I -> integral_over_axis (fun x => c * f x) (c * I).
Proof.
  intros [L E]. split.
  - apply (filterlim_ext (fun ab => scal c (RInt f (fst ab) (snd ab)))).
    + intros [a b]. cbn [fst snd]. symmetry. apply RInt_scal_R, E.
    + eapply filterlim_comp; [exact L|]. apply (filterlim_scal_r (V := R_NormedModule) c I).
  - intros a b. apply (ex_RInt_scal (V := R_NormedModule)), E.
Qed.

Lemma dens_axis_scal f F c : density_of f F -> integral_over_axis (fun x => c * f x) c.
Proof.
  intros D. pose proof (axis_scal f c 1 (dens_axis f F D)) as A. now rewrite Rmult_1_r in A.
Qed.

(** ** Closed forms *)
Lemma cauchy_pdf_alt l s x : 0 < s -> cauchy_pdf l s x = s / (PI * ((x - l) ^ 2 + s ^ 2)).
Proof.
  intros Hs. unfold cauchy_pdf. pose proof PI_RGT_0. assert (0 < (x - l) ^ 2 + s ^ 2) by (pose proof (pow2_ge_0 (x - l)); assert (0 < s ^ 2) by (apply pow_lt; lra); lra).
  replace (PI * s * (1 + ((x - l) / s) ^ 2)) with (PI * ((x - l) ^ 2 + s ^ 2) / s) by (field; lra).
  field. repeat split; lra.
Qed.
Lemma breit_wigner_value k i m fin r w g0 : BreitWigner k i m fin = Ok r -> width m = Ok w -> 0 < w ->
  (exists pw, partial_widths m = Ok pw /\ dget pw (st_J_pi i) = Some g0) ->
  forall E, res_call r E true =
    Ok (PI * (k_hbarc k / r_energy r) ^ 2 * ((IZR (st_two_J m) + 1) / (2 * (IZR (st_two_J i) + 1))) *
        (g0 * w / ((E - r_energy r) ^ 2 + w ^ 2 / 4)) * r_branching r).
Proof.
  intros H W Hw (pw & HP & HG) E.
  destruct (breit_wigner_density _ _ _ _ _ _ H W Hw) as (HD & _ & _).
  rewrite (res_value r _ _ HD E). f_equal.
  destruct (breit_wigner_inv _ _ _ _ _ H) as (r0 & w' & H0 & W' & ->).
  cbn [with_dist r_integrated r_energy r_branching].
  destruct (resonance_inv _ _ _ _ _ _ H0) as (E_r & pw' & w'' & g0' & b0 & HE & NE & NJ & Dm & G0 & B0 & HR).
  destruct HR as (_ & _ & _ & -> & _ & _ & -> & -> & _).
  unfold partial_widths in HP. rewrite Dm in HP. injection HP as ->. rewrite HG in G0. injection G0 as ->.
  rewrite cauchy_pdf_alt by lra. pose proof PI_RGT_0.
  replace ((1 / 2 * w) ^ 2) with (w ^ 2 / 4) by field.
  assert (0 < (E - E_r) ^ 2 + w ^ 2 / 4) by (pose proof (pow2_ge_0 (E - E_r)); assert (0 < w ^ 2) by (apply pow_lt; lra); lra).
  set (q := (E - E_r) ^ 2 + w ^ 2 / 4) in *. set (j := IZR (st_two_J i) + 1) in *. clearbody q j.
  field. repeat split; lra.
Qed.

Lemma breit_wigner_shape k i m fin r w : BreitWigner k i m fin = Ok r -> width m = Ok w -> 0 < w ->
  exists f, cross_section_is r f /\
    (forall a b, is_RInt f a b (r_integrated r * ((atan (2 * (b - r_energy r) / w) - atan (2 * (a - r_energy r) / w)) / PI))) /\
    integral_over_axis f (r_integrated r) /\
    (0 < r_integrated r -> forall E, E <> r_energy r -> 0 < f E < f (r_energy r)) /\
    f (r_energy r - w / 2) = f (r_energy r) / 2 /\ f (r_energy r + w / 2) = f (r_energy r) / 2.
Proof.
  intros H W Hw. destruct (breit_wigner_density _ _ _ _ _ _ H W Hw) as (HD & _ & _).
  pose proof PI_RGT_0 as HP.
  exists (fun E => r_integrated r * cauchy_pdf (r_energy r) (1 / 2 * w) E).
  split; [exact (res_value r _ _ HD)|]. split; [|split; [|split; [|split]]].
  - intros a b. pose proof (res_integral r _ _ HD a b) as HI.
    replace (cauchy_cdf (r_energy r) (1 / 2 * w) b - cauchy_cdf (r_energy r) (1 / 2 * w) a)
      with ((atan (2 * (b - r_energy r) / w) - atan (2 * (a - r_energy r) / w)) / PI) in HI; [exact HI|].
    unfold cauchy_cdf.
    replace ((b - r_energy r) / (1 / 2 * w)) with (2 * (b - r_energy r) / w) by (field; lra).
    replace ((a - r_energy r) / (1 / 2 * w)) with (2 * (a - r_energy r) / w) by (field; lra).
    field. lra.
  - eapply dens_axis_scal. apply HD.
  - intros HI E NE. split; [apply Rmult_lt_0_compat; [assumption|]; apply (dens_pos _ _ (proj1 HD))|].
    apply Rmult_lt_compat_l; [assumption|]. rewrite !cauchy_pdf_alt by lra.
    assert (0 < (E - r_energy r) ^ 2) by nra.
    replace ((r_energy r - r_energy r) ^ 2) with 0 by ring.
    assert (0 < (1 / 2 * w) ^ 2) by (apply pow_lt; lra).
    apply Rmult_lt_compat_l; [lra|]. apply Rinv_lt_contravar; [|apply Rmult_lt_compat_l; lra].
    apply Rmult_lt_0_compat; apply Rmult_lt_0_compat; lra.
  - rewrite !cauchy_pdf_alt by lra.
    replace ((r_energy r - w / 2 - r_energy r) ^ 2) with (w ^ 2 / 4) by field.
    replace ((r_energy r - r_energy r) ^ 2) with 0 by ring. assert (0 < w ^ 2) by nra. field. lra.
  - rewrite !cauchy_pdf_alt by lra.
    replace ((r_energy r + w / 2 - r_energy r) ^ 2) with (w ^ 2 / 4) by field.
    replace ((r_energy r - r_energy r) ^ 2) with 0 by ring. assert (0 < w ^ 2) by nra. field. lra.
Qed.

Lemma gauss0_0 : gauss0 0 = / sqrt (2 * PI).
Proof. unfold gauss0. replace (- 0 ^ 2 / 2) with 0 by field. rewrite exp_0. unfold Rdiv. ring. Qed.

Lemma gauss_shape k i m amu T fin r : constants_ok k -> 0 < amu -> 0 < T ->
  Gauss k i m amu T fin = Ok r -> 0 < r_energy r -> exists d f,
  get_doppler_width k {| mb_amu := amu; mb_effective_temperature := T |} (r_energy r) = Ok d /\
    cross_section_is r f /\
    (forall E, f E = r_integrated r / (sqrt PI * d) * exp (- ((E - r_energy r) / d) ^ 2)) /\
    integral_over_axis f (r_integrated r) /\
    f (r_energy r - d) = f (r_energy r) * exp (-1) /\ f (r_energy r + d) = f (r_energy r) * exp (-1).
Proof.
  intros K Ha HT H HE. destruct (gauss_density _ _ _ _ _ _ _ K Ha HT H HE) as (d & Hd & Pd & HD & _ & _).
  exists d, (fun E => r_integrated r * norm_pdf (r_energy r) (d / sqrt 2) E).
  split; [exact Hd|]. split; [exact (res_value r _ _ HD)|].
  pose proof PI_RGT_0 as HP. pose proof sqrt2_pos as S2.
  assert (SP : 0 < sqrt PI) by now apply sqrt_lt_R0.
  assert (V : forall E, r_integrated r * norm_pdf (r_energy r) (d / sqrt 2) E =
              r_integrated r / (sqrt PI * d) * exp (- ((E - r_energy r) / d) ^ 2)).
  { intros E. unfold norm_pdf, gauss0.
    replace (- ((E - r_energy r) / (d / sqrt 2)) ^ 2 / 2) with (- ((E - r_energy r) / d) ^ 2).
    - rewrite sqrt_mult by lra. field. repeat split; lra.
    - replace (((E - r_energy r) / (d / sqrt 2)) ^ 2) with (((E - r_energy r) / d) ^ 2 * (sqrt 2 * sqrt 2))
        by (field; repeat split; lra).
      rewrite sqrt_sqrt by lra. field. lra. }
  split; [exact V|]. split; [|split].
  - eapply dens_axis_scal. apply HD.
  - rewrite !V. replace (- ((r_energy r - d - r_energy r) / d) ^ 2) with (-1) by (field; lra).
    replace (- ((r_energy r - r_energy r) / d) ^ 2) with 0 by (field; lra). rewrite exp_0. ring.
  - rewrite !V. replace (- ((r_energy r + d - r_energy r) / d) ^ 2) with (-1) by (field; lra).
    replace (- ((r_energy r - r_energy r) / d) ^ 2) with 0 by (field; lra). rewrite exp_0. ring.
Qed.
