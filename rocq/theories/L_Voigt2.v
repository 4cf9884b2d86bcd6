(** Voigt resonances: Doppler average, shape, limiting cases. *)
From Coq Require Import Reals List ZArith Lra Lia.
From Coquelicot Require Import Coquelicot.
From Verif Require Import Py Spec M_Num M_Constituents M_Thermal M_Dist M_Resonance M_PseudoVoigt
  S_Resonance S_PseudoVoigt S_Voigt L_RInt L_Dist L_Resonance3 L_Resonance6 L_PseudoVoigt L_PseudoVoigt4 L_PseudoVoigt6 L_Axis L_Voigt.
Import ListNotations.
Open Scope R_scope.

Lemma doppler_norm D u : 0 < D -> doppler_shifts D u = norm_pdf 0 (D / sqrt 2) u.
Proof.
  intros HD. unfold doppler_shifts, norm_pdf, gauss0. rewrite Rminus_0_r.
  pose proof PI_RGT_0. assert (S2 : 0 < sqrt 2) by (apply sqrt_lt_R0; lra). assert (SP : 0 < sqrt PI) by (apply sqrt_lt_R0; lra).
  assert (Q : sqrt 2 * sqrt 2 = 2) by (apply sqrt_sqrt; lra).
  replace (- (u / (D / sqrt 2)) ^ 2 / 2) with (- (u / D) ^ 2).
  - rewrite sqrt_mult by lra. field. lra.
  - replace ((u / (D / sqrt 2)) ^ 2) with (u ^ 2 / D ^ 2 * (sqrt 2 * sqrt 2)) by (field; lra). rewrite Q. field. lra.
Qed.
Lemma cauchy_loc l g x : cauchy_pdf l g x = cauchy_pdf 0 g (x - l).
Proof. unfold cauchy_pdf. now rewrite Rminus_0_r. Qed.
Lemma norm_loc l g x : norm_pdf l g x = norm_pdf 0 g (x - l).
Proof. unfold norm_pdf. now rewrite Rminus_0_r. Qed.

(** The cross section in terms of the profile. *)
Lemma voigt_call modern k i m amu T fin r w : Voigt modern k i m amu T fin = Ok r -> width m = Ok w ->
  pv_params k (r_energy r) w amu T -> exists d,
  get_doppler_width k {| mb_amu := amu; mb_effective_temperature := T |} (r_energy r) = Ok d /\
  0 <= d /\ (0 < T -> 0 < d) /\ (T = 0 -> d = 0) /\
  cross_section_is r (fun E => r_integrated r * voigt_profile (E - r_energy r) (d / sqrt 2) (w / 2)).
Proof.
  intros H W P. destruct (voigt_inv _ _ _ _ _ _ _ _ _ H W P) as (r0 & p & ER & EP & E & V & HE).
  destruct (pv_build _ _ _ _ _ P) as (p' & EP' & _ & _ & _ & Hg & HD & Hd & Hsg & _).
  rewrite EP in EP'. injection EP' as <-. exists (pv_doppler p). split; [exact HD|]. split; [exact Hd|]. split; [|split].
  - intros HT. destruct P as (K & Ha & _ & HE' & _). exact (doppler_pos _ _ _ _ _ K Ha HT HE' HD).
  - intros ->. destruct P as (K & Ha & HT & HE' & _). rewrite doppler_value in HD by assumption. injection HD as <-.
    unfold Rdiv. rewrite Rmult_0_r, Rmult_0_l, sqrt_0. ring.
  - intros x. unfold res_call. assert (RD : r_dist r = voigt_distribution modern p) by (rewrite E; reflexivity).
    assert (RP : r_params r = []) by (rewrite E; reflexivity). rewrite RD, RP.
    cbn [voigt_distribution d_pdf no_params voigt_pdf oscale omap]. now rewrite HE, Hsg, Hg.
Qed.
Lemma voigt_same_resonance modern k i m amu T fin r : Voigt modern k i m amu T fin = Ok r ->
  exists r0, Resonance k i m fin NoRecoil = Ok r0 /\ r_energy r = r_energy r0 /\ r_integrated r = r_integrated r0.
Proof.
  unfold Voigt, PseudoVoigt. destruct (Resonance k i m fin NoRecoil) as [r0| |] eqn:ER; cbn [bind]; try discriminate.
  destruct (width m) as [w| |]; cbn [bind]; try discriminate.
  destruct (PseudoVoigtDistribution k (r_energy r0) w amu T) as [p| |] eqn:EP; cbn [bind]; try discriminate.
  cbn [with_dist r_energy]. rewrite EP. cbn [bind]. intros [= <-]. exists r0. auto.
Qed.
Lemma bw_call modern k i m amu T fin r r' w : Voigt modern k i m amu T fin = Ok r -> BreitWigner k i m fin = Ok r' ->
  width m = Ok w -> 0 < w ->
  r_integrated r' = r_integrated r /\ r_energy r' = r_energy r /\
  cross_section_is r' (fun E => r_integrated r * cauchy_pdf 0 (w / 2) (E - r_energy r)).
Proof.
  intros H H' W Hw. destruct (voigt_same_resonance _ _ _ _ _ _ _ _ H) as (r0 & ER & -> & ->).
  destruct (breit_wigner_inv _ _ _ _ _ H') as (r0' & w' & ER' & W' & ->). rewrite ER in ER'. injection ER' as <-.
  rewrite W in W'. injection W' as <-. split; [reflexivity|]. split; [reflexivity|].
  intros x. unfold res_call. cbn [with_dist r_dist r_params r_energy r_integrated cauchy d_pdf].
  rewrite loc_scale_2 by lra. cbn [oscale omap]. rewrite cauchy_loc. now replace (1 / 2 * w) with (w / 2) by field.
Qed.
Lemma gauss_call modern k i m amu T fin r r' d : Voigt modern k i m amu T fin = Ok r -> Gauss k i m amu T fin = Ok r' ->
  get_doppler_width k {| mb_amu := amu; mb_effective_temperature := T |} (r_energy r) = Ok d -> 0 < d ->
  r_integrated r' = r_integrated r /\ r_energy r' = r_energy r /\
  cross_section_is r' (fun E => r_integrated r * norm_pdf 0 (d / sqrt 2) (E - r_energy r)).
Proof.
  intros H H' Ed Hd. destruct (voigt_same_resonance _ _ _ _ _ _ _ _ H) as (r0 & ER & EE & ->).
  destruct (gauss_inv _ _ _ _ _ _ _ H') as (r0' & d' & ER' & Ed' & ->). rewrite ER in ER'. injection ER' as <-.
  rewrite EE in *. rewrite Ed in Ed'. injection Ed' as <-. split; [reflexivity|]. split; [reflexivity|].
  intros x. unfold res_call. cbn [with_dist r_dist r_params r_energy r_integrated norm d_pdf].
  rewrite loc_scale_2 by now apply scale_pos. cbn [oscale omap]. now rewrite norm_loc.
Qed.

Lemma cs_fun r f f' : cross_section_is r f -> cross_section_is r f' -> forall E, f E = f' E.
Proof. intros H H' E. specialize (H E). specialize (H' E). rewrite H in H'. now injection H'. Qed.

(** ** C60 *)
Lemma doppler_average modern k i m amu T fin r r' w d f' : Voigt modern k i m amu T fin = Ok r -> BreitWigner k i m fin = Ok r' ->
  width m = Ok w -> pv_params k (r_energy r) w amu T -> 0 < w -> 0 < T ->
  get_doppler_width k {| mb_amu := amu; mb_effective_temperature := T |} (r_energy r) = Ok d -> cross_section_is r' f' ->
  exists f, cross_section_is r f /\ forall E, integral_over_axis (fun E' => doppler_shifts d (E' - E) * f' E') (f E).
Proof.
  intros H H' W P Hw HT Ed C'. destruct (voigt_call _ _ _ _ _ _ _ _ _ H W P) as (d' & Ed' & _ & Hd & _ & C).
  rewrite Ed in Ed'. injection Ed' as <-. specialize (Hd HT). destruct (bw_call _ _ _ _ _ _ _ _ _ _ H H' W Hw) as (_ & _ & C2).
  eexists. split; [exact C|]. intros E. cbn beta.
  pose proof (axis_mult _ (r_integrated r) _ (axis_shift _ (- r_energy r) _ (profile_axis (d / sqrt 2) (w / 2) (scale_pos d Hd) ltac:(lra) (E - r_energy r)))) as I.
  cbn beta in I. refine (axis_ext _ _ _ _ I). intros t. cbn beta. rewrite (cs_fun _ _ _ C' C2), (doppler_norm d) by exact Hd.
  replace (t + - r_energy r - (E - r_energy r)) with (t - E) by ring. replace (t + - r_energy r) with (t - r_energy r) by ring. ring.
Qed.
Lemma voigt_cold modern k i m amu fin r r' w : Voigt modern k i m amu 0 fin = Ok r -> BreitWigner k i m fin = Ok r' ->
  width m = Ok w -> pv_params k (r_energy r) w amu 0 -> 
  r_energy r' = r_energy r /\ r_integrated r' = r_integrated r /\ forall E b, res_call r E b = res_call r' E b.
Proof.
  intros H H' W P. assert (Hw : 0 < w) by (destruct P as (_ & _ & _ & _ & _ & [?|?]); lra).
  destruct (voigt_call _ _ _ _ _ _ _ _ _ H W P) as (d & _ & _ & _ & Hd & C). rewrite (Hd eq_refl) in C.
  destruct (bw_call _ _ _ _ _ _ _ _ _ _ H H' W Hw) as (E1 & E2 & C2). split; [exact E2|]. split; [exact E1|].
  intros E b. assert (A : forall r E b, res_call r E b = res_call r (if b then E else E + r_energy r) true) by (intros ? ? []; reflexivity).
  rewrite A, (A r'), E2, C, C2. unfold voigt_profile. destruct (Req_EM_T (0 / sqrt 2) 0) as [_|N]; [reflexivity|].
  exfalso. apply N. unfold Rdiv. ring.
Qed.
Lemma voigt_no_width modern k i m amu T fin r r' : Voigt modern k i m amu T fin = Ok r -> Gauss k i m amu T fin = Ok r' ->
  width m = Ok 0 -> pv_params k (r_energy r) 0 amu T ->
  r_energy r' = r_energy r /\ r_integrated r' = r_integrated r /\ forall E b, res_call r E b = res_call r' E b.
Proof.
  intros H H' W P. assert (HT : 0 < T) by (destruct P as (_ & _ & _ & _ & _ & [?|?]); lra).
  destruct (voigt_call _ _ _ _ _ _ _ _ _ H W P) as (d & Ed & _ & Hd & _ & C). specialize (Hd HT).
  destruct (gauss_call _ _ _ _ _ _ _ _ _ _ H H' Ed Hd) as (E1 & E2 & C2). split; [exact E2|]. split; [exact E1|].
  intros E b. assert (A : forall r E b, res_call r E b = res_call r (if b then E else E + r_energy r) true) by (intros ? ? []; reflexivity).
  rewrite A, (A r'), E2, C, C2. unfold voigt_profile. pose proof (scale_pos d Hd).
  destruct (Req_EM_T (d / sqrt 2) 0); [lra|]. destruct (Req_EM_T (0 / 2) 0) as [_|N]; [reflexivity|]. exfalso. apply N. unfold Rdiv. ring.
Qed.

(** ** C61 *)
Lemma profile_facts s g : 0 <= s -> 0 <= g -> 0 < s \/ 0 < g -> exists F, density_of (fun x => voigt_profile x s g) F /\
  (forall x, voigt_profile (- x) s g = voigt_profile x s g) /\
  (forall x y, 0 <= x -> x < y -> voigt_profile y s g < voigt_profile x s g).
Proof.
  intros Hs Hg H. destruct (Req_dec s 0) as [->|Ns].
  - exists (cauchy_cdf 0 g). unfold voigt_profile. destruct (Req_EM_T 0 0); [|lra].
    split; [apply cauchy_density; lra|]. split; [apply cauchy0_even|]. intros; apply cauchy0_decr; lra.
  - destruct (Req_dec g 0) as [->|Ng].
    + exists (norm_cdf 0 s). unfold voigt_profile. destruct (Req_EM_T s 0); [lra|]. destruct (Req_EM_T 0 0); [|lra].
      split; [apply norm_density; lra|]. split; [apply norm0_even|]. intros; apply norm0_decr; lra.
    + eexists. split; [apply profile_density; lra|]. split; [apply profile_even; lra|apply profile_decr; lra].
Qed.
Lemma axis_loc f l I : integral_over_axis f I -> integral_over_axis (fun x => f (x - l)) I.
Proof. exact (axis_shift f (- l) I). Qed.
Lemma voigt_shape modern k i m amu T fin r w : Voigt modern k i m amu T fin = Ok r -> width m = Ok w ->
  pv_params k (r_energy r) w amu T -> exists f, cross_section_is r f /\
  integral_over_axis f (r_integrated r) /\ symmetric_about (r_energy r) f /\ (forall E, continuous f E) /\
  (0 < r_integrated r -> (forall E, 0 < f E) /\ strictly_unimodal (r_energy r) f).
Proof.
  intros H W P. destruct (voigt_call _ _ _ _ _ _ _ _ _ H W P) as (d & _ & Hd & HdT & _ & C). eexists. split; [exact C|].
  assert (S2 : 0 < sqrt 2) by (apply sqrt_lt_R0; lra).
  assert (Hw : 0 <= w) by apply P.
  destruct (profile_facts (d / sqrt 2) (w / 2)) as (F & D & Ev & De).
  - apply Rmult_le_pos; [exact Hd|left; now apply Rinv_0_lt_compat].
  - lra.
  - destruct P as (_ & _ & _ & _ & _ & [?|?]); [right; lra|left; apply scale_pos; auto].
  - set (p := fun x => voigt_profile x (d / sqrt 2) (w / 2)) in *. change (voigt_profile ?x (d / sqrt 2) (w / 2)) with (p x).
    assert (Ev' : forall x, p (- x) = p x) by exact Ev. assert (De' : forall x y, 0 <= x -> x < y -> p y < p x) by exact De.
    split; [|split; [|split]].
    + pose proof (axis_mult _ (r_integrated r) _ (axis_loc _ (r_energy r) _ (dens_axis _ _ D))) as I. now rewrite Rmult_1_r in I.
    + intros x. cbv beta. f_equal. rewrite <- Ev'. f_equal. ring.
    + intros x. apply (continuous_mult (K := R_AbsRing) (fun _ => r_integrated r) (fun x => p (x - r_energy r))); [apply continuous_const|].
      apply (continuous_comp (fun x => x - r_energy r) p); [|apply (dens_cont _ _ D)].
      apply (is_derive_cont (fun x => x - r_energy r) x 1). auto_derive; [exact Logic.I|ring].
    + intros HI. split; [intros E; apply Rmult_lt_0_compat; [exact HI|apply (dens_pos _ _ D)]|]. split; intros a b A B.
      * apply Rmult_lt_compat_l; [exact HI|]. rewrite <- (Ev' (a - _)), <- (Ev' (b - _)). apply De'; lra.
      * apply Rmult_lt_compat_l; [exact HI|]. apply De'; lra.
Qed.
Lemma voigt_peak modern k i m amu T fin r r' r'' w f f' f'' : Voigt modern k i m amu T fin = Ok r ->
  BreitWigner k i m fin = Ok r' -> Gauss k i m amu T fin = Ok r'' ->
  width m = Ok w -> pv_params k (r_energy r) w amu T -> 0 < w -> 0 < T -> 0 <= r_integrated r ->
  cross_section_is r f -> cross_section_is r' f' -> cross_section_is r'' f'' ->
  forall E, f E <= f' (r_energy r) /\ f E <= f'' (r_energy r).
Proof.
  intros H H' H'' W P Hw HT HI C C' C'' E. destruct (voigt_call _ _ _ _ _ _ _ _ _ H W P) as (d & Ed & _ & Hd & _ & D). specialize (Hd HT).
  destruct (bw_call _ _ _ _ _ _ _ _ _ _ H H' W Hw) as (_ & _ & D'). destruct (gauss_call _ _ _ _ _ _ _ _ _ _ H H'' Ed Hd) as (_ & _ & D'').
  rewrite (cs_fun _ _ _ C D), (cs_fun _ _ _ C' D'), (cs_fun _ _ _ C'' D''), Rminus_eq_0. split; apply Rmult_le_compat_l; try assumption.
  - apply profile_le_cauchy; [now apply scale_pos|lra].
  - apply profile_le_norm; [now apply scale_pos|lra].
Qed.

(** ** C62 *)
Lemma voigt_near_bw modern k i m amu T fin r r' w d f f' : Voigt modern k i m amu T fin = Ok r -> BreitWigner k i m fin = Ok r' ->
  width m = Ok w -> pv_params k (r_energy r) w amu T -> 0 < w -> 
  get_doppler_width k {| mb_amu := amu; mb_effective_temperature := T |} (r_energy r) = Ok d -> cross_section_is r f -> cross_section_is r' f' ->
  forall E, Rabs (f E - f' E) <= sqrt 2 * (d / w) * Rabs (f' (r_energy r)).
Proof.
  intros H H' W P Hw Ed C C' E. destruct (voigt_call _ _ _ _ _ _ _ _ _ H W P) as (d' & Ed' & Hd0 & HdT & Hd & D).
  rewrite Ed in Ed'. injection Ed' as <-. destruct (bw_call _ _ _ _ _ _ _ _ _ _ H H' W Hw) as (_ & _ & D').
  rewrite (cs_fun _ _ _ C D), !(cs_fun _ _ _ C' D'), Rminus_eq_0.
  replace (r_integrated r * voigt_profile (E - r_energy r) (d / sqrt 2) (w / 2) - r_integrated r * cauchy_pdf 0 (w / 2) (E - r_energy r))
    with (r_integrated r * (voigt_profile (E - r_energy r) (d / sqrt 2) (w / 2) - cauchy_pdf 0 (w / 2) (E - r_energy r))) by ring.
  pose proof PI_RGT_0.
  assert (S2 : 0 < sqrt 2) by (apply sqrt_lt_R0; lra). assert (Q : sqrt 2 * sqrt 2 = 2) by (apply sqrt_sqrt; lra).
  assert (Cv : cauchy_pdf 0 (w / 2) 0 = 2 / (PI * w)).
  { unfold cauchy_pdf. replace ((0 - 0) / (w / 2)) with 0 by (field; lra). field. lra. }
  rewrite !Rabs_mult, Cv, (Rabs_pos_eq (2 / (PI * w))) by (left; apply Rdiv_lt_0_compat; nra).
  replace (sqrt 2 * (d / w) * (Rabs (r_integrated r) * (2 / (PI * w)))) with (Rabs (r_integrated r) * (sqrt 2 * (d / w) * (2 / (PI * w)))) by ring.
  apply Rmult_le_compat_l; [apply Rabs_pos|].
  destruct (Rle_lt_or_eq_dec 0 T) as [HT| <-]; [apply P| |].
  - apply Rle_trans with (1 := near_cauchy (d / sqrt 2) (w / 2) (scale_pos d (HdT HT)) ltac:(lra) _). right.
    replace (d / sqrt 2) with (d * sqrt 2 / (sqrt 2 * sqrt 2)) by (field; lra). rewrite Q. field. lra.
  - rewrite (Hd eq_refl). unfold voigt_profile. destruct (Req_EM_T (0 / sqrt 2) 0) as [_|N]; [|exfalso; apply N; unfold Rdiv; ring].
    rewrite Rminus_eq_0, Rabs_R0. right. field. lra.
Qed.
Lemma voigt_near_gauss modern k i m amu T fin r r' w d f f' : Voigt modern k i m amu T fin = Ok r -> Gauss k i m amu T fin = Ok r' ->
  width m = Ok w -> pv_params k (r_energy r) w amu T -> 0 < T -> 
  get_doppler_width k {| mb_amu := amu; mb_effective_temperature := T |} (r_energy r) = Ok d -> cross_section_is r f -> cross_section_is r' f' ->
  forall E, Rabs (f E - f' E) <= 6 * sqrt (w / d) * Rabs (f' (r_energy r)).
Proof.
  intros H H' W P HT Ed C C' E. destruct (voigt_call _ _ _ _ _ _ _ _ _ H W P) as (d' & Ed' & _ & Hd & _ & D). specialize (Hd HT).
  rewrite Ed in Ed'. injection Ed' as <-. destruct (gauss_call _ _ _ _ _ _ _ _ _ _ H H' Ed Hd) as (_ & _ & D').
  rewrite (cs_fun _ _ _ C D), !(cs_fun _ _ _ C' D'), Rminus_eq_0.
  replace (r_integrated r * voigt_profile (E - r_energy r) (d / sqrt 2) (w / 2) - r_integrated r * norm_pdf 0 (d / sqrt 2) (E - r_energy r))
    with (r_integrated r * (voigt_profile (E - r_energy r) (d / sqrt 2) (w / 2) - norm_pdf 0 (d / sqrt 2) (E - r_energy r))) by ring.
  pose proof (scale_pos d Hd) as Hs. set (s := d / sqrt 2) in *.
  assert (S2 : 0 < sqrt 2) by (apply sqrt_lt_R0; lra). assert (Q : sqrt 2 * sqrt 2 = 2) by (apply sqrt_sqrt; lra). pose proof PI_RGT_0.
  assert (SP : 0 < sqrt (2 * PI)) by (apply sqrt_lt_R0; lra).
  assert (Nv : norm_pdf 0 s 0 = / sqrt (2 * PI) / s).
  { unfold norm_pdf, gauss0. replace ((0 - 0) / s) with 0 by (field; lra). replace (- 0 ^ 2 / 2) with 0 by field. rewrite exp_0. field. lra. }
  rewrite !Rabs_mult, Nv, (Rabs_pos_eq (/ sqrt (2 * PI) / s)) by (left; apply Rdiv_lt_0_compat; [now apply Rinv_0_lt_compat|lra]).
  replace (6 * sqrt (w / d) * (Rabs (r_integrated r) * (/ sqrt (2 * PI) / s))) with (Rabs (r_integrated r) * (6 * sqrt (w / d) * (/ sqrt (2 * PI) / s))) by ring.
  apply Rmult_le_compat_l; [apply Rabs_pos|].
  assert (B : 2 * sqrt (w / 2 / s) / s <= 6 * sqrt (w / d) * (/ sqrt (2 * PI) / s)).
  { replace (6 * sqrt (w / d) * (/ sqrt (2 * PI) / s)) with (6 * sqrt (w / d) * / sqrt (2 * PI) / s) by (field; lra).
    apply Rmult_le_compat_r; [left; now apply Rinv_0_lt_compat|]. 
    apply Rmult_le_reg_r with (sqrt (2 * PI)); [exact SP|]. rewrite Rmult_assoc, Rmult_assoc, Rinv_l, Rmult_1_r by lra. 
    assert (Hw : 0 <= w) by apply P. assert (0 <= w / d) by (apply Rmult_le_pos; [lra|left; now apply Rinv_0_lt_compat]).
    assert (X : sqrt (w / 2 / s) * sqrt (2 * PI) <= 3 * sqrt (w / d)); [|lra].
    rewrite <- sqrt_mult_alt by (unfold Rdiv; apply Rmult_le_pos; [lra|left; now apply Rinv_0_lt_compat]).
    replace 3 with (sqrt (3 * 3)) by (apply sqrt_square; lra). rewrite <- sqrt_mult_alt by lra. apply sqrt_le_1_alt.
    replace (w / 2 / s * (2 * PI)) with (w / d * (PI * sqrt 2)) by (unfold s; field; lra).
    rewrite (Rmult_comm (3 * 3)). apply Rmult_le_compat_l; [assumption|]. pose proof PI_4.
    assert (sqrt 2 <= 3 / 2) by (apply Rsqr_incr_0_var; [unfold Rsqr; lra|lra]). nra. }
  apply Rle_trans with (2 := B).
  destruct (Rle_lt_or_eq_dec 0 w) as [Hw| <-]; [apply P| |].
  - apply near_norm; [exact Hs|lra].
  - unfold voigt_profile. destruct (Req_EM_T s 0); [lra|]. destruct (Req_EM_T (0 / 2) 0) as [_|N]; [|exfalso; apply N; unfold Rdiv; ring].
    rewrite Rminus_eq_0, Rabs_R0. replace (0 / 2 / s) with 0 by (field; lra). rewrite sqrt_0. right. field. lra.
Qed.

(** An example for all of these. *)
Lemma voigt_all_example w T : 0 < w -> 0 < T -> exists r r' r'' d, Voigt true codata ground (excited_with w) 12 T None = Ok r /\
  BreitWigner codata ground (excited_with w) None = Ok r' /\ Gauss codata ground (excited_with w) 12 T None = Ok r'' /\
  width (excited_with w) = Ok w /\ pv_params codata (r_energy r) w 12 T /\ 0 < r_integrated r /\
  get_doppler_width codata {| mb_amu := 12; mb_effective_temperature := T |} (r_energy r) = Ok d.
Proof.
  intros Hw HT. destruct (voigt_example true w T Hw ltac:(lra)) as (r & E & W & HE & HI & P).
  destruct (voigt_same_resonance _ _ _ _ _ _ _ _ E) as (r0 & ER & EE & EI).
  assert (K : constants_ok codata) by apply P. pose proof (doppler_value codata 12 T (r_energy r) K ltac:(lra) ltac:(lra)) as Ed.
  do 4 eexists. split; [exact E|]. split; [unfold BreitWigner; rewrite ER; cbn [bind width excited_with st_decays]; reflexivity|].
  split; [unfold Gauss; rewrite ER; cbn [bind]; rewrite <- EE, Ed; cbn [bind]; reflexivity|].
  split; [reflexivity|]. split; [exact P|]. split; [exact HI|exact Ed].
Qed.
