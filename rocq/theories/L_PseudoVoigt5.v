(** Failures of the numerical inversion and their consequences. *)
From Coq Require Import Reals List ZArith Lra Lia Sorted.
From Coquelicot Require Import Coquelicot.
From Verif Require Import Py Spec M_Num M_Grid M_Constituents M_Thermal M_Dist M_Resonance M_PseudoVoigt
  S_Resonance S_PseudoVoigt L_RInt L_Grid L_Darboux L_Dist L_Resonance L_Resonance2 L_Resonance3 L_Resonance4 L_Resonance5 L_Resonance6 L_Newton
  L_PseudoVoigt L_PseudoVoigt2 L_PseudoVoigt3 L_PseudoVoigt4.
Import ListNotations.
Open Scope R_scope.

(** ** The fallback *)
Lemma fallback_finite p qs : pv_valid p -> List.Forall (fun q => 0 < q < 1) qs ->
  exists rs, pseudo_voigt_ppf_expression p qs = Ok (Some (map Finite rs)) /\ List.length rs = List.length qs /\
    Forall2 (fun q x => exists u v, norm_cdf (pv_energy p) (pv_gamma_G p / sqrt 2) u = q /\
       cauchy_cdf (pv_energy p) (1 / 2 * pv_gamma_L p) v = q /\ x = (1 - pv_eta p) * u + pv_eta p * v) qs rs.
Proof.
  intros V H. destruct (pv_scales p V) as [H1 H2].
  unfold pseudo_voigt_ppf_expression. cbn [d_ppf norm cauchy].
  assert (H' : List.Forall (fun q => 0 <= q <= 1) qs) by (eapply List.Forall_impl; [|exact H]; cbn; intros; lra).
  rewrite !ppf_array_value by assumption. cbn [snd bind]. clear H'.
  enough (K : exists rs, sequence (map2 (fun u v => bind (scale_inf (1 - pv_eta p) u) (fun x => bind (scale_inf (pv_eta p) v) (fun y => add_inf x y)))
             (map (norm_ppf (pv_energy p) (pv_gamma_G p / sqrt 2)) qs) (map (cauchy_ppf (pv_energy p) (1 / 2 * pv_gamma_L p)) qs)) = Ok (map Finite rs)
           /\ List.length rs = List.length qs /\ Forall2 (fun q x => exists u v, norm_cdf (pv_energy p) (pv_gamma_G p / sqrt 2) u = q /\
       cauchy_cdf (pv_energy p) (1 / 2 * pv_gamma_L p) v = q /\ x = (1 - pv_eta p) * u + pv_eta p * v) qs rs).
  { destruct K as (rs & E & K). exists rs. rewrite E. split; [reflexivity|exact K]. }
  induction H as [|q qs Hq H IH]; [exists []; repeat split; constructor|].
  destruct IH as (rs & E & L & F2).
  destruct (is_quantile_finite (norm_cdf (pv_energy p) (pv_gamma_G p / sqrt 2)) q
              (norm_ppf (pv_energy p) (pv_gamma_G p / sqrt 2) q) Hq) as (u & Eu & Fu).
  { apply (quantile_is _ _ (norm_density (pv_energy p) _ H1)). lra. }
  destruct (is_quantile_finite (cauchy_cdf (pv_energy p) (1 / 2 * pv_gamma_L p)) q
              (cauchy_ppf (pv_energy p) (1 / 2 * pv_gamma_L p) q) Hq) as (v & Ev & Fv).
  { apply cauchy_ppf_is; [exact H2|lra]. }
  exists (((1 - pv_eta p) * u + pv_eta p * v) :: rs). cbn [map map2 sequence]. rewrite Eu, Ev. cbn [scale_inf bind add_inf Rbar_plus'].
  rewrite E. cbn [bind map]. split; [reflexivity|]. split; [cbn; lia|]. constructor; [|exact F2]. exists u, v. auto.
Qed.

(** ** All outcomes for quantiles between 0 and 1 *)
Lemma ppf_outcomes modern p qs : pv_valid p -> List.Forall (fun q => 0 < q < 1) qs ->
  (exists ws rs, pv_ppf modern p qs = (ws, Ok (Some (map Finite rs))) /\ List.length rs = List.length qs) \/
  (pv_ppf modern p qs = ([], Ok None) /\ (2 <= List.length qs)%nat) \/
  (pv_ppf modern p qs = ([], Raise TypeError) /\ modern = false /\ List.length qs = 1%nat).
Proof.
  intros V H. destruct (ppf_cases p V modern qs) as [(rs & E & N & _)|[E|[E|E]]]; auto.
  - left. exists [], rs. split; [exact E|]. symmetry. clear -N. induction N; cbn; lia.
  - left. destruct (fallback_finite p qs V H) as (rs & E' & L & _). exists [InversionFailed], rs. rewrite E, E'. auto.
Qed.
(** A single number always gives a number. *)
Lemma scalar_outcomes p q : pv_valid p -> 0 < q < 1 ->
  exists ws x, pv_ppf_scalar p q = (ws, Ok (Some [Finite x])) /\ (inverted ws -> near p q x).
Proof.
  intros V Hq. unfold pv_ppf_scalar. rewrite (scalar_newton p V).
  pose proof (newton_scalar_spec _ _ _ (pv_density p V) (pv_unimodal p V) q maxiter (pv_energy p) (inside_start _ _ (pv_median p) q)) as S.
  destruct (newton_scalar _ _ _ _) as [x| |e]; [|contradiction|].
  - exists [], x. split; [reflexivity|]. intros _. destruct S. now apply near_of.
  - subst e. destruct (fallback_finite p [q] V ltac:(constructor; [exact Hq|constructor])) as (rs & E' & L & _).
    destruct rs as [|x [|? ?]]; try discriminate. exists [InversionFailed], x. split; [now rewrite E'|].
    intros I. exfalso. apply I. now left.
Qed.
Lemma median_single p : pv_valid p -> pv_ppf false p [1 / 2] = ([], Raise TypeError) /\
  pv_ppf true p [1 / 2] = ([], Ok (Some [Finite (pv_energy p)])) /\ pv_ppf_scalar p (1 / 2) = ([], Ok (Some [Finite (pv_energy p)])).
Proof.
  intros V.
  assert (E : pv_ppf_scalar p (1 / 2) = ([], Ok (Some [Finite (pv_energy p)]))).
  { unfold pv_ppf_scalar. rewrite (scalar_newton p V).
    assert (Emax : exists n, maxiter = S n) by (exists 49%nat; reflexivity). destruct Emax as [n Emax]. rewrite Emax. clear Emax.
    cbn [newton_scalar bind]. rewrite pv_median.
    destruct (Req_EM_T (1 / 2 - 1 / 2) 0); [reflexivity|lra]. }
  unfold pv_ppf. rewrite E. auto.
Qed.

(** ** Cold Lorentzian lines *)
Section Cold.
  Variables (p : pv) (E s : R).
  Hypothesis V : pv_valid p.
  Hypothesis HE : pv_energy p = E.
  Hypothesis Hs : 0 < s.
  Hypothesis Hf : forall x, pvf p x = cauchy_pdf E s x.
  Hypothesis HF : forall x, pvF p x = cauchy_cdf E s x.

  Lemma step_cold q x : step (pvf p) (pvF p) q x = x - (cauchy_cdf E s x - q) / cauchy_pdf E s x.
  Proof. unfold step. now rewrite Hf, HF. Qed.
  Lemma ratio_start q : (pvF p E - q) / pvf p E = (1 / 2 - q) * (PI * s).
  Proof. rewrite HF, Hf, cauchy_median, cauchy_peak. pose proof PI_RGT_0. field. lra. Qed.

  (** If the line is narrow compared to the tolerance, the first step is accepted. *)
  Lemma narrow_scalar q : q <> 1 / 2 -> Rabs ((1 / 2 - q) * (PI * s)) <= tol ->
    pv_ppf_scalar p q = ([], Ok (Some [Finite (E + (q - 1 / 2) * (PI * s))])).
  Proof.
    intros Hq B. unfold pv_ppf_scalar. rewrite (scalar_newton p V). rewrite HE.
    assert (Emax : exists n, maxiter = S n) by (exists 49%nat; reflexivity). destruct Emax as [n Emax]. rewrite Emax. clear Emax. cbn [newton_scalar bind].
    destruct (Req_EM_T (pvF p E - q) 0) as [Z|_]; [rewrite HF, cauchy_median in Z; lra|].
    destruct (Req_EM_T (pvf p E) 0) as [Z|_].
    { pose proof (dens_pos _ _ (pv_density p V) E). lra. }
    rewrite ratio_start. destruct (Rle_dec _ tol) as [_|N].
    - replace (E - (1 / 2 - q) * (PI * s)) with (E + (q - 1 / 2) * (PI * s)) by ring. reflexivity.
    - exfalso. apply N. replace (E - (1 / 2 - q) * (PI * s) - E) with (- ((1 / 2 - q) * (PI * s))) by ring. now rewrite Rabs_Ropp.
  Qed.
  Lemma narrow_array modern q q' : q <> 1 / 2 -> Rabs ((1 / 2 - q) * (PI * s)) < tol -> Rabs ((1 / 2 - q') * (PI * s)) < tol ->
    pv_ppf modern p [q; q'] = ([], Ok (Some [Finite (E + (q - 1 / 2) * (PI * s)); Finite (E + (q' - 1 / 2) * (PI * s))])).
  Proof.
    intros Hq B B'. unfold pv_ppf. rewrite (array_newton_pv p V). rewrite HE. unfold newton_array.
    assert (Emax : exists n, maxiter = S n) by (exists 49%nat; reflexivity). destruct Emax as [n Emax]. rewrite Emax. clear Emax. cbn [array_newton residual slope bind map map2].
    assert (Z : is_zero (pvF p E - q) = false).
    { unfold is_zero. destruct (Req_EM_T _ 0) as [Z|]; [rewrite HF, cauchy_median in Z; lra|reflexivity]. }
    assert (Z' : is_zero (pvf p E) = false).
    { unfold is_zero. destruct (Req_EM_T _ 0) as [Z'|]; [pose proof (dens_pos _ _ (pv_density p V) E); lra|reflexivity]. }
    cbn [forallb]. rewrite Z. cbn [andb map]. rewrite Z'. cbn [map negb existsb orb map4 newton_step step_fails map2 andb].
    rewrite !ratio_start. destruct (Rle_dec tol (Rabs ((1 / 2 - q) * (PI * s)))); [lra|].
    destruct (Rle_dec tol (Rabs ((1 / 2 - q') * (PI * s)))); [lra|]. cbn.
    replace (E - (1 / 2 - q) * (PI * s)) with (E + (q - 1 / 2) * (PI * s)) by ring.
    replace (E - (1 / 2 - q') * (PI * s)) with (E + (q' - 1 / 2) * (PI * s)) by ring. reflexivity.
  Qed.
  Lemma narrow_cdf q : pvF p (E + (q - 1 / 2) * (PI * s)) = 1 / 2 + atan (PI * (q - 1 / 2)) / PI.
  Proof. rewrite HF. unfold cauchy_cdf. replace ((E + (q - 1 / 2) * (PI * s) - E) / s) with (PI * (q - 1 / 2)) by (field; lra). reflexivity. Qed.

  (** For the quantiles 0 and 1 the steps never become small unless the line is narrow. *)
  Lemma far_right x : E <= x -> s / 5 <= (1 - pvF p x) / pvf p x.
  Proof.
    intros Hx. pose proof (pv_density p V) as D. pose proof (dens_pos _ _ D x) as Px.
    assert (A : s * pvf p (x + s) <= pvF p (x + s) - pvF p x).
    { pose proof (is_RInt_unique (V := R_CompleteNormedModule) _ _ _ _ (dens_is_RInt _ _ D x (x + s))) as EI.
      rewrite <- EI. replace (s * pvf p (x + s)) with (RInt (fun _ => pvf p (x + s)) x (x + s)) by (rewrite RInt_const_R; eqR; ring).
      apply RInt_le; [lra|apply ex_RInt_const|eexists; apply (dens_is_RInt _ _ D)|].
      intros y Hy. apply (proj2 (pv_unimodal p V)); rewrite ?HE; lra. }
    pose proof (dens_le_1 _ _ D (x + s)) as L.
    assert (B : pvf p x <= 5 * pvf p (x + s)).
    { rewrite !Hf. unfold cauchy_pdf. pose proof PI_RGT_0 as HP.
      set (t := (x - E) / s). replace ((x + s - E) / s) with (t + 1) by (unfold t; field; lra).
      assert (Ht : 0 <= t) by (apply Rmult_le_pos; [lra|left; now apply Rinv_0_lt_compat]).
      assert (Q : 0 < PI * s) by nra. pose proof (pow2_ge_0 t). pose proof (pow2_ge_0 (t + 1)).
      replace (5 * / (PI * s * (1 + (t + 1) ^ 2))) with (/ (PI * s * ((1 + (t + 1) ^ 2) / 5))) by (field; split; [lra|split; lra]).
      apply Rinv_le_contravar; [apply Rmult_lt_0_compat; [assumption|lra]|]. apply Rmult_le_compat_l; [lra|]. nra. }
    apply (Rmult_le_reg_r (pvf p x)); [assumption|]. unfold Rdiv. rewrite (Rmult_assoc _ (/ pvf p x)), Rinv_l by lra. nra.
  Qed.
  Lemma far_left x : x <= E -> s / 5 <= pvF p x / pvf p x.
  Proof.
    intros Hx. pose proof (far_right (2 * E - x) ltac:(lra)) as H.
    assert (E1 : pvf p (2 * E - x) = pvf p x).
    { pose proof (pv_symm p (E - x)) as Sy. rewrite HE in Sy. replace (E - (E - x)) with x in Sy by ring.
      replace (E + (E - x)) with (2 * E - x) in Sy by ring. auto. }
    assert (E2 : 1 - pvF p (2 * E - x) = pvF p x).
    { rewrite !HF. unfold cauchy_cdf. replace ((2 * E - x - E) / s) with (- ((x - E) / s)) by (field; lra). rewrite atan_opp.
      pose proof PI_RGT_0. field. lra. }
    now rewrite E1, E2 in H.
  Qed.

  Lemma three_newton n a b fl : 5 * tol <= s -> a <= E -> E <= b -> List.length fl = 3%nat ->
    exists a' b', array_newton (S n) (residual (pvF p) [0; 1 / 2; 1]) (slope (pvf p)) [a; E; b] fl [true; true; true] =
      Ok ([a'; E; b'], [true; false; true], [true; true; true]).
  Proof.
    intros Hn. revert a b fl; induction n as [|n IH]; intros a b fl Ha Hb L;
      destruct fl as [|f1 [|f2 [|f3 [|? ?]]]]; try discriminate.
    all: match goal with |- exists a' b', array_newton (S ?k) _ _ _ _ _ = _ => 
      change (array_newton (S k)) with (fun f f' pp (fa nz : list bool) => bind (f pp) (fun fval =>
        if forallb is_zero fval then Ok (pp, map (fun _ => false) fval, nz) else bind (f' pp) (fun fder =>
        let nz := map (fun x => negb (is_zero x)) fder in
        if negb (existsb (fun b => b) nz) then Ok (pp, fa, nz) else
        let p' := map4 newton_step nz pp fval fder in let failures' := map4 step_fails nz fa fval fder in
        if negb (existsb (fun b => b) (map2 andb nz failures')) then Ok (p', failures', nz) else array_newton k f f' p' failures' nz))) end.
    all: cbn beta; cbn [residual slope bind map map2].
    all: pose proof (dens_range _ _ (pv_density p V) a) as Ra; pose proof (dens_range _ _ (pv_density p V) b) as Rb.
    all: assert (NZ : forall x, is_zero (pvf p x) = false) by
      (intros x; unfold is_zero; destruct (Req_EM_T _ 0) as [Z'|]; [pose proof (dens_pos _ _ (pv_density p V) x); lra|reflexivity]).
    all: assert (Z : is_zero (pvF p a - 0) = false) by (unfold is_zero; destruct (Req_EM_T _ 0); [lra|reflexivity]).
    all: cbn [forallb]; rewrite Z; cbn [andb map]; rewrite !NZ; cbn [map negb existsb orb map4 newton_step step_fails map2 andb].
    all: assert (EM : (pvF p E - 1 / 2) / pvf p E = 0) by (rewrite HF, cauchy_median; unfold Rdiv; ring).
    all: rewrite EM, Rabs_R0; destruct (Rle_dec tol 0) as [T|_]; [unfold tol in T; lra|].
    all: pose proof (far_left a Ha) as FA; pose proof (far_right b Hb) as FB.
    all: assert (TP : 0 < tol) by (unfold tol; lra).
    all: destruct (Rle_dec tol (Rabs ((pvF p a - 0) / pvf p a))) as [_|N];
      [|exfalso; apply N; rewrite Rminus_0_r, Rabs_pos_eq by lra; lra].
    all: destruct (Rle_dec tol (Rabs ((pvF p b - 1) / pvf p b))) as [_|N];
      [|exfalso; apply N; replace ((pvF p b - 1) / pvf p b) with (- ((1 - pvF p b) / pvf p b)) by (unfold Rdiv; ring); rewrite Rabs_Ropp, Rabs_pos_eq by lra; lra].
    all: rewrite ?Rminus_0_r; cbn [orb andb negb].
    - do 2 eexists. cbn [array_newton]. rewrite ?Rminus_0_r. reflexivity.
    -  apply IH; try reflexivity.
      + rewrite ?Rminus_0_r. lra.
      + replace ((pvF p b - 1) / pvf p b) with (- ((1 - pvF p b) / pvf p b)) by (unfold Rdiv; ring). lra.
  Qed.
  Lemma three_none modern : 5 * tol <= s -> pv_ppf modern p [0; 1 / 2; 1] = ([], Ok None).
  Proof.
    intros Hn. unfold pv_ppf. rewrite (array_newton_pv p V). rewrite HE. unfold newton_array. cbn [map].
    assert (Emax : exists n, maxiter = S n) by (exists 49%nat; reflexivity). destruct Emax as [n Emax]. rewrite Emax. clear Emax.
    destruct (three_newton n E E [true; true; true] Hn ltac:(lra) ltac:(lra) eq_refl) as (a' & b' & EQ).
    rewrite EQ. reflexivity.
  Qed.
End Cold.
