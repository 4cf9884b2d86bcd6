(** Assembly of the properties C25-C35 and C41. *)
From Coq Require Import Reals List ZArith Lra Lia Sorted String.
From Coquelicot Require Import Coquelicot.
From Verif Require Import Py Spec M_Num M_Grid M_Constituents M_Thermal M_Dist M_Resonance M_CrossSection M_Darboux
  S_CrossSection S_Resonance L_RInt L_Grid L_CrossSection L_Darboux L_Constituents L_Dist L_Resonance L_Resonance2 L_Resonance3
  L_Resonance4 L_Resonance5.
Import ListNotations.
Open Scope R_scope.

(** ** C25 *)
Lemma recoil_outcome k i m fin rec :
  (forall e, rec (st_excitation_energy m - st_excitation_energy i) = Raise e -> Resonance k i m fin rec = Raise e) /\
  (rec (st_excitation_energy m - st_excitation_energy i) = NaN -> Resonance k i m fin rec = NaN).
Proof. unfold Resonance. split; [intros e ->|intros ->]; reflexivity. Qed.

Lemma subclass_errors k i m fin :
  (forall e, BreitWigner k i m fin = Raise e <-> Resonance k i m fin NoRecoil = Raise e) /\
  BreitWigner k i m fin <> NaN /\
  (forall amu T, constants_ok k -> 0 < amu -> 0 <= T ->
     (forall e, Gauss k i m amu T fin = Raise e <-> Resonance k i m fin NoRecoil = Raise e) /\
     Gauss k i m amu T fin <> NaN).
Proof.
  assert (NN : Resonance k i m fin NoRecoil <> NaN).
  { unfold Resonance, NoRecoil, get_statistical_factor, get_final_state_branching_ratio,
      get_energy_integrated_cross_section, partial_widths, width, fdiv, dgetE. cbn [bind].
    destruct (Req_EM_T (IZR (st_two_J i) + 1) 0); cbn [bind]; [discriminate|].
    destruct fin as [f|]; cbn [bind]; destruct (st_decays m) as [[pw w]|]; cbn [bind]; try discriminate.
    - destruct (dget pw (st_J_pi f)); cbn [bind]; [|discriminate].
      destruct (Req_EM_T w 0); cbn [bind]; [discriminate|].
      destruct (Req_EM_T _ 0); cbn [bind]; [discriminate|]. destruct (dget pw (st_J_pi i)); discriminate.
    - destruct (Req_EM_T _ 0); cbn [bind]; [discriminate|]. destruct (dget pw (st_J_pi i)); discriminate.
    - destruct (Req_EM_T _ 0); cbn [bind]; discriminate. }
  split; [|split].
  - pose proof (breit_wigner_raises k i m fin) as B. intros e.
    destruct (Resonance k i m fin NoRecoil) as [r0| |e']; [|congruence|].
    + destruct B as (w & _ & ->). split; discriminate.
    + rewrite B. split; congruence.
  - pose proof (breit_wigner_raises k i m fin) as B.
    destruct (Resonance k i m fin NoRecoil) as [r0| |e']; [|congruence|].
    + destruct B as (w & _ & ->). discriminate.
    + rewrite B. discriminate.
  - intros amu T K Ha HT. unfold Gauss.
    destruct (Resonance k i m fin NoRecoil) as [r0| |e']; [|congruence|]; cbn [bind].
    + rewrite doppler_value by assumption. cbn [bind]. split; [split|]; discriminate.
    + split; [split; congruence|discriminate].
Qed.

(** ** C28 *)
Lemma covers_total r c : covers r c -> exists ws lo hi f,
  coverage_interval r c = (ws, Ok (Finite lo, Finite hi)) /\ cross_section_is r f /\
  is_RInt f lo hi (c * r_integrated r).
Proof.
  intros (ws & lo & hi & f & E & _ & V & I1 & I2). exists ws, lo, hi, f. split; [exact E|]. split; [exact V|].
  replace (c * r_integrated r) with (plus (c / 2 * r_integrated r) (c / 2 * r_integrated r))
    by (unfold plus; cbn; field).
  eapply (is_RInt_Chasles (V := R_NormedModule)); eassumption.
Qed.

Lemma box_covers' k i m fin rec r c : Resonance k i m fin rec = Ok r -> 0 <= c <= 1 -> covers r c.
Proof.
  intros H Hc. destruct (box_scipy _ _ _ _ _ _ H) as ((Hs & Hp & _) & Hd).
  eapply box_covers; try eassumption. lra.
Qed.
Lemma bw_covers k i m fin r w c : BreitWigner k i m fin = Ok r -> width m = Ok w -> 0 < w -> 0 <= c < 1 -> covers r c.
Proof.
  intros H W Hw Hc. destruct (breit_wigner_density _ _ _ _ _ _ H W Hw) as (HD & HQ & HM).
  destruct (bw_scipy _ _ _ _ _ _ H W Hw) as (_ & Hd).
  eapply res_covers; try eassumption. exists (1 / 2). rewrite Hd. apply cauchy_default.
Qed.
Lemma gauss_covers k i m amu T fin r c : constants_ok k -> 0 < amu -> 0 < T ->
  Gauss k i m amu T fin = Ok r -> 0 < r_energy r -> 0 <= c < 1 -> covers r c.
Proof.
  intros K Ha HT H HE Hc. destruct (gauss_density _ _ _ _ _ _ _ K Ha HT H HE) as (d & _ & _ & HD & HQ & HM).
  destruct (gauss_scipy _ _ _ _ _ _ _ K Ha HT H HE) as (_ & _ & _ & Hd).
  eapply res_covers; try eassumption. exists (1 / 2). rewrite Hd. apply norm_default.
Qed.

(** ** C27 *)
Lemma models_symmetric k i m fin :
  (forall rec r, Resonance k i m fin rec = Ok r ->
     exists f, cross_section_is r f /\ symmetric_about (r_energy r) f) /\
  (forall r w, BreitWigner k i m fin = Ok r -> width m = Ok w -> 0 < w ->
     exists f, cross_section_is r f /\ symmetric_about (r_energy r) f) /\
  (forall amu T r, constants_ok k -> 0 < amu -> 0 < T -> Gauss k i m amu T fin = Ok r -> 0 < r_energy r ->
     exists f, cross_section_is r f /\ symmetric_about (r_energy r) f).
Proof.
  split; [|split].
  - intros rec r H. destruct (box_scipy _ _ _ _ _ _ H) as ((Hs & Hp & _) & Hd).
    eexists. split; [eapply box_value; eassumption|]. apply box_symm. lra.
  - intros r w H W Hw. destruct (breit_wigner_density _ _ _ _ _ _ H W Hw) as (HD & HQ & HM).
    eexists. split; [eapply res_value; eassumption|]. intros d. f_equal. apply cauchy_symm.
  - intros amu T r K Ha HT H HE. destruct (gauss_density _ _ _ _ _ _ _ K Ha HT H HE) as (d & _ & _ & HD & HQ & HM).
    eexists. split; [eapply res_value; eassumption|]. intros t. f_equal. apply norm_symm.
Qed.

(** ** C29, C30 *)
Lemma quantile_negative f F q x : density_of f F -> is_quantile F q x -> (Rbar_lt x 0 <-> q < F 0).
Proof.
  intros D Hq. pose proof (dens_range f F D 0). destruct x as [x| |]; cbn in *.
  - subst q. split; [apply (dens_incr f F D)|apply (dens_lt_inv f F D)].
  - subst q. split; [intros []|lra].
  - subst q. split; [lra|auto].
Qed.
Lemma quantile_infinite f F q x : density_of f F -> 0 < q -> is_quantile F q x -> (x = p_infty \/ x = m_infty <-> q = 1).
Proof.
  intros D H0 Hq. destruct x as [x| |]; cbn in *.
  - pose proof (dens_range f F D x). split; [intros [|]; discriminate|lra].
  - subst q. tauto.
  - lra.
Qed.

Lemma density_warnings r f F l s c F0 : has_density (r_dist r) (r_params r) f F ->
  exact_quantiles (r_dist r) (r_params r) F -> scipy_model r l s -> d_cdf (r_dist r) [] 0 = Ok F0 -> 0 <= c <= 1 ->
  exists ws lo hi, coverage_interval r c = (ws, Ok (lo, hi)) /\
    is_quantile F (1 / 2 * (1 - c)) lo /\ is_quantile F (1 / 2 * (1 + c)) hi /\
    (Rbar_lt lo 0 <-> 1 / 2 * (1 - c) < F 0) /\
    (forall p, In (NegativeLowerLimit p) ws <-> 1 / 2 * (1 - c) < F 0 /\ p = 100 * (1 - F0)) /\
    (In InfiniteUpperLimit ws <-> c = 1) /\ ~ In InversionFailed ws /\ NoDup ws.
Proof.
  intros H Q S HF0 Hc. destruct (coverage_warnings r l s c S Hc) as (ws & lo & hi & F0' & E & EC & E0 & N & I & V & ND).
  rewrite HF0 in E0. injection E0 as <-.
  destruct (Q [1 / 2 * (1 - c); 1 / 2 * (1 + c)]) as (ws' & xs & E' & F2).
  { constructor; [lra|]. constructor; [lra|]. constructor. }
  rewrite E in E'. injection E' as <- <-.
  inversion F2 as [|? ? ? ? Q1 F2']; subst. inversion F2' as [|? ? ? ? Q2 F2'']; subst.
  pose proof (proj1 H) as D. pose proof (quantile_negative f F _ lo D Q1) as Neg.
  exists ws, lo, hi. split; [exact EC|]. split; [exact Q1|]. split; [exact Q2|]. split; [exact Neg|].
  split; [intros p; rewrite N, Neg; reflexivity|]. split; [|auto].
  rewrite I. rewrite (quantile_infinite f F (1 / 2 * (1 + c)) hi D ltac:(lra) Q2). lra.
Qed.

Lemma bw_warnings k i m fin r w c : BreitWigner k i m fin = Ok r -> width m = Ok w -> 0 < w -> 0 <= c <= 1 ->
  exists ws lo hi, coverage_interval r c = (ws, Ok (lo, hi)) /\
    is_quantile (cauchy_cdf (r_energy r) (w / 2)) (1 / 2 * (1 - c)) lo /\
    is_quantile (cauchy_cdf (r_energy r) (w / 2)) (1 / 2 * (1 + c)) hi /\
    (Rbar_lt lo 0 <-> 1 / 2 * (1 - c) < cauchy_cdf (r_energy r) (w / 2) 0) /\
    (forall p, In (NegativeLowerLimit p) ws <-> 1 / 2 * (1 - c) < cauchy_cdf (r_energy r) (w / 2) 0 /\ p = 50) /\
    (In InfiniteUpperLimit ws <-> c = 1) /\ ~ In InversionFailed ws /\ NoDup ws.
Proof.
  intros H W Hw Hc. destruct (breit_wigner_density _ _ _ _ _ _ H W Hw) as (HD & HQ & HM).
  destruct (bw_scipy _ _ _ _ _ _ H W Hw) as (HS & Hd).
  replace (1 / 2 * w) with (w / 2) in * by field.
  assert (HF0 : d_cdf (r_dist r) [] 0 = Ok (1 / 2)) by (rewrite Hd; apply cauchy_default).
  pose proof (density_warnings r _ _ _ _ c _ HD HQ HS HF0 Hc) as R.
  replace (100 * (1 - 1 / 2)) with 50 in R by field. exact R.
Qed.
Lemma gauss_warnings k i m amu T fin r c : constants_ok k -> 0 < amu -> 0 < T ->
  Gauss k i m amu T fin = Ok r -> 0 < r_energy r -> 0 <= c <= 1 ->
  exists d ws lo hi, get_doppler_width k {| mb_amu := amu; mb_effective_temperature := T |} (r_energy r) = Ok d /\
    coverage_interval r c = (ws, Ok (lo, hi)) /\
    is_quantile (norm_cdf (r_energy r) (d / sqrt 2)) (1 / 2 * (1 - c)) lo /\
    is_quantile (norm_cdf (r_energy r) (d / sqrt 2)) (1 / 2 * (1 + c)) hi /\
    (Rbar_lt lo 0 <-> 1 / 2 * (1 - c) < norm_cdf (r_energy r) (d / sqrt 2) 0) /\
    (forall p, In (NegativeLowerLimit p) ws <-> 1 / 2 * (1 - c) < norm_cdf (r_energy r) (d / sqrt 2) 0 /\ p = 50) /\
    (In InfiniteUpperLimit ws <-> c = 1) /\ ~ In InversionFailed ws /\ NoDup ws.
Proof.
  intros K Ha HT H HE Hc. destruct (gauss_density _ _ _ _ _ _ _ K Ha HT H HE) as (d & Hdw & _ & HD & HQ & HM).
  destruct (gauss_scipy _ _ _ _ _ _ _ K Ha HT H HE) as (d' & Hdw' & HS & Hd).
  rewrite Hdw in Hdw'. injection Hdw' as <-. exists d.
  assert (HF0 : d_cdf (r_dist r) [] 0 = Ok (1 / 2)) by (rewrite Hd; apply norm_default).
  pose proof (density_warnings r _ _ _ _ c _ HD HQ HS HF0 Hc) as (ws & lo & hi & R).
  replace (100 * (1 - 1 / 2)) with 50 in R by field. exists ws, lo, hi. split; [exact Hdw|exact R].
Qed.
Lemma box_warnings k i m fin rec r c : Resonance k i m fin rec = Ok r -> 0 <= c <= 1 ->
  exists ws, coverage_interval r c = (ws, Ok (Finite (r_energy r - c / 2), Finite (r_energy r + c / 2))) /\
    (forall p, In (NegativeLowerLimit p) ws <-> r_energy r - c / 2 < 0 /\ p = 100) /\
    ~ In InfiniteUpperLimit ws /\ ~ In InversionFailed ws /\ NoDup ws.
Proof.
  intros H Hc. destruct (box_scipy _ _ _ _ _ _ H) as (HS & Hd). pose proof HS as (Hs & Hp & _).
  destruct (coverage_warnings r _ _ c HS Hc) as (ws & lo & hi & F0' & E & EC & E0 & N & I & V & ND).
  rewrite Hd, uniform_default in E0. injection E0 as <-.
  rewrite (box_ppf r _ _ Hd Hp Hs) in E by (constructor; [lra|constructor; [lra|constructor]]).
  cbn [map] in E. injection E as <- <-.
  replace (r_energy r - 1 / 2 + 1 / 2 * (1 - c) * 1) with (r_energy r - c / 2) in * by field.
  replace (r_energy r - 1 / 2 + 1 / 2 * (1 + c) * 1) with (r_energy r + c / 2) in * by field.
  exists ws. split; [exact EC|].
  split; [intros p; rewrite N; cbn; replace (100 * (1 - 0)) with 100 by ring; reflexivity|].
  split; [|auto]. rewrite I. intros [|]; discriminate.
Qed.

Lemma cauchy_at_zero l s : 0 < l -> 0 < s -> cauchy_cdf l s 0 < 1 / 2.
Proof. intros Hl Hs. rewrite <- (cauchy_median l s). now apply (dens_incr _ _ (cauchy_density l s Hs)). Qed.
Lemma norm_at_zero l s : 0 < l -> 0 < s -> norm_cdf l s 0 < 1 / 2.
Proof. intros Hl Hs. rewrite <- (norm_median l s). now apply (dens_incr _ _ (norm_density l s Hs)). Qed.

(** ** C31 *)
Lemma density_grid_limits r f F a b n : has_density (r_dist r) (r_params r) f F ->
  exact_quantiles (r_dist r) (r_params r) F -> a < b -> (2 <= n)%Z ->
  exists ws g f, cross_section_is r f /\
    res_probability_grid r (Limits a b) n = (ws, Ok (Some (map Finite g))) /\ equal_integral_grid f a b n g.
Proof.
  intros H Q Hab Hn. destruct (res_grid_limits r f F H Q a b n Hab Hn) as (ws & g & E & G).
  exists ws, g. eexists. split; [eapply res_value; eassumption|]. auto.
Qed.
Lemma density_grid_coverage r f F c n : has_density (r_dist r) (r_params r) f F ->
  exact_quantiles (r_dist r) (r_params r) F -> 0 < c < 1 -> (2 <= n)%Z ->
  exists ws g f lo hi, cross_section_is r f /\
    res_probability_grid r (Coverage c) n = (ws, Ok (Some (map Finite g))) /\ equal_integral_grid f lo hi n g /\
    is_RInt f lo hi (c * r_integrated r) /\
    F lo = 1 / 2 * (1 - c) /\ F hi = 1 / 2 * (1 + c).
Proof.
  intros H Q Hc Hn. destruct (res_grid_coverage r f F H Q c n Hc Hn) as (ws & g & lo & hi & E & G & L & U).
  exists ws, g, (fun E => r_integrated r * f E), lo, hi. split; [eapply res_value; eassumption|].
  split; [exact E|]. split; [exact G|]. split; [|auto].
  replace (c * r_integrated r) with (r_integrated r * (F hi - F lo)) by (rewrite L, U; field).
  apply (res_integral r f F H).
Qed.

(** The nodes start and end at the limits of the coverage interval. *)
Lemma grid_within_coverage r f F c n : has_density (r_dist r) (r_params r) f F ->
  exact_quantiles (r_dist r) (r_params r) F -> (exists x, d_cdf (r_dist r) [] 0 = Ok x) -> 0 < c < 1 -> (2 <= n)%Z ->
  exists ws ws' g f lo hi, cross_section_is r f /\
    coverage_interval r c = (ws', Ok (Finite lo, Finite hi)) /\
    res_probability_grid r (Coverage c) n = (ws, Ok (Some (map Finite g))) /\ equal_integral_grid f lo hi n g /\
    is_RInt f lo hi (c * r_integrated r).
Proof.
  intros H Q [F0 HF0] Hc Hn. destruct (density_grid_coverage r f F c n H Q Hc Hn) as (ws & g & v & lo & hi & V & E & G & I & L & U).
  destruct (coverage_quantiles r F Q c ltac:(lra)) as (ws' & lo' & hi' & E' & L' & U').
  assert (lo' = lo) as -> by (apply (dens_inj f F (proj1 H)); lra).
  assert (hi' = hi) as -> by (apply (dens_inj f F (proj1 H)); lra).
  unfold coverage_interval. rewrite E', HF0. cbn [Rbar_is_inf Rbar_negative].
  destruct (Rlt_dec lo 0); do 6 eexists; (split; [exact V|]; split; [reflexivity|]; split; [exact E|]; split; [exact G|exact I]).
Qed.

(** ** C32 *)
Lemma box_grid k i m fin rec r a b n : Resonance k i m fin rec = Ok r -> a < b ->
  a < r_energy r + 1 / 2 -> r_energy r - 1 / 2 < b -> (2 <= n)%Z ->
  exists g f, cross_section_is r f /\
    res_probability_grid r (Limits a b) n = ([], Ok (Some (map Finite g))) /\ equal_integral_grid f a b n g.
Proof.
  intros H Hab Ha Hb Hn. destruct (box_scipy _ _ _ _ _ _ H) as ((Hs & Hp & _) & Hd).
  destruct (box_grid_limits r _ _ Hd Hp Hs a b n) as (g & E & G); [|exact Hn|].
  { unfold uniform_cdf.
    repeat match goal with |- context [Rle_dec ?x ?y] => destruct (Rle_dec x y) end; lra. }
  exists g. eexists. split; [eapply box_value; eassumption|]. auto.
Qed.
Lemma box_coverage k i m fin rec r c n : Resonance k i m fin rec = Ok r -> 0 < c <= 1 -> (2 <= n)%Z ->
  exists g f, cross_section_is r f /\
    res_probability_grid r (Coverage c) n = ([], Ok (Some (map Finite g))) /\
    equal_integral_grid f (r_energy r - c / 2) (r_energy r + c / 2) n g /\
    is_RInt f (r_energy r - c / 2) (r_energy r + c / 2) (c * r_integrated r).
Proof.
  intros H Hc Hn. destruct (box_scipy _ _ _ _ _ _ H) as ((Hs & Hp & _) & Hd).
  destruct (box_grid_coverage r _ _ Hd Hp Hs c n Hc Hn) as (g & E & G).
  replace (r_energy r - 1 / 2 + 1 / 2 * (1 - c) * 1) with (r_energy r - c / 2) in * by field.
  replace (r_energy r - 1 / 2 + 1 / 2 * (1 + c) * 1) with (r_energy r + c / 2) in * by field.
  exists g. eexists. split; [eapply box_value; eassumption|]. split; [exact E|]. split; [exact G|].
  replace (c * r_integrated r) with (r_integrated r *
    (uniform_cdf (r_energy r - 1 / 2) 1 (r_energy r + c / 2) - uniform_cdf (r_energy r - 1 / 2) 1 (r_energy r - c / 2))).
  - apply (is_RInt_scal (V := R_NormedModule) (uniform_pdf (r_energy r - 1 / 2) 1)). apply uniform_is_RInt; lra.
  - unfold uniform_cdf.
    repeat match goal with |- context [Rle_dec ?x ?y] => destruct (Rle_dec x y) end; try lra;
    match goal with |- _ * ?x = _ => replace x with c by lra; ring end.
Qed.
(** Limits outside of the box: the interior points are all on the edge of the box. *)
Lemma seq_ends {A} (u v w : A) n : (2 <= n)%nat ->
  map (fun i => if Nat.eqb i 0 then u else if Nat.eqb i (n - 1) then v else w) (seq 0 n) = u :: repeat w (n - 2) ++ [v].
Proof.
  intros H. destruct n as [|[|n]]; try lia. change (seq 0 (S (S n))) with (0 :: seq 1 (S n))%nat.
  rewrite seq_S. cbn [map]. rewrite map_app. cbn [Nat.eqb]. f_equal.
  replace (S (S n) - 2)%nat with n by lia. f_equal.
  - transitivity (map (fun _ => w) (seq 1 n)).
    + apply map_ext_in. intros i Hi. apply in_seq in Hi.
      destruct (Nat.eqb_spec i 0); [lia|]. destruct (Nat.eqb_spec i (S (S n) - 1)); [lia|reflexivity].
    + generalize 1%nat. induction n as [|n IH]; intros k; [reflexivity|]. cbn [seq map repeat]. f_equal. apply IH. lia.
  - cbn [map Nat.add Nat.eqb]. replace (S (S n) - 1)%nat with (S n) by lia. now rewrite Nat.eqb_refl.
Qed.
Lemma box_flat r l s a b n : r_dist r = uniform -> r_params r = [l; s] -> 0 < s -> uniform_cdf l s a = uniform_cdf l s b -> (2 <= n)%Z ->
  res_probability_grid r (Limits a b) n =
    ([], Ok (Some (map Finite (a :: repeat (l + uniform_cdf l s a * s) (Z.to_nat n - 2) ++ [b])))).
Proof.
  intros Hd Hp Hs E Hn. pose proof (uniform_range l s b Hs).
  unfold res_probability_grid. rewrite !(box_cdf r _ _ Hd Hp Hs). cbn [bind]. rewrite E, (linspace_ok _ _ n Hn).
  rewrite (box_ppf r _ _ Hd Hp Hs) by (apply linspace_in; lra || lia).
  rewrite map_map. cbn [bind]. rewrite set_ends by lia. do 3 f_equal.
  rewrite <- seq_ends, map_map by lia. apply map_ext. intros i.
  destruct (Nat.eqb i 0); [reflexivity|]. destruct (Nat.eqb i (Z.to_nat n - 1)); [reflexivity|]. f_equal. unfold Rdiv. ring.
Qed.
Lemma box_outside k i m fin rec r a b n : Resonance k i m fin rec = Ok r -> a < b -> (2 <= n)%Z ->
  (b <= r_energy r - 1 / 2 -> res_probability_grid r (Limits a b) n =
    ([], Ok (Some (map Finite (a :: repeat (r_energy r - 1 / 2) (Z.to_nat n - 2) ++ [b]))))) /\
  (r_energy r + 1 / 2 <= a -> res_probability_grid r (Limits a b) n =
    ([], Ok (Some (map Finite (a :: repeat (r_energy r + 1 / 2) (Z.to_nat n - 2) ++ [b]))))).
Proof.
  intros H Hab Hn. destruct (box_scipy _ _ _ _ _ _ H) as ((Hs & Hp & _) & Hd).
  split; intros Ho; rewrite (box_flat r _ _ a b n Hd Hp Hs); try assumption.
  - replace (uniform_cdf (r_energy r - 1 / 2) 1 a) with 0; [now replace (r_energy r - 1 / 2 + 0 * 1) with (r_energy r - 1 / 2) by ring|].
    unfold uniform_cdf. destruct (Rle_dec a _); [reflexivity|lra].
  - unfold uniform_cdf. repeat match goal with |- context [Rle_dec ?x ?y] => destruct (Rle_dec x y) end; lra.
  - replace (uniform_cdf (r_energy r - 1 / 2) 1 a) with 1; [now replace (r_energy r - 1 / 2 + 1 * 1) with (r_energy r + 1 / 2) by field|].
    unfold uniform_cdf. repeat match goal with |- context [Rle_dec ?x ?y] => destruct (Rle_dec x y) end; lra.
  - unfold uniform_cdf. repeat match goal with |- context [Rle_dec ?x ?y] => destruct (Rle_dec x y) end; lra.
Qed.
Lemma box_unsorted k i m fin rec r a b n : Resonance k i m fin rec = Ok r -> a < b -> (3 <= n)%Z ->
  b < r_energy r - 1 / 2 \/ r_energy r + 1 / 2 < a ->
  exists g, res_probability_grid r (Limits a b) n = ([], Ok (Some (map Finite g))) /\
    ~ strictly_ascending g /\ exists x, In x g /\ ~ a <= x <= b.
Proof.
  intros H Hab Hn Ho. destruct (box_outside _ _ _ _ _ _ _ _ n H Hab ltac:(lia)) as [P Q].
  destruct (Z.to_nat n - 2)%nat as [|q] eqn:Eq; [lia|]. destruct Ho as [Ho|Ho].
  - eexists. split; [apply P; lra|]. split.
    + cbn [repeat app]. intros S. inversion S as [|? ? S' _]; subst. inversion S' as [|? ? _ F]; subst.
      rewrite Forall_app in F. destruct F as [_ F]. inversion F; subst. lra.
    + exists (r_energy r - 1 / 2). split; [right; left; reflexivity|lra].
  - eexists. split; [apply Q; lra|]. split.
    + cbn [repeat app]. intros S. inversion S as [|? ? _ F]; subst. inversion F; subst. lra.
    + exists (r_energy r + 1 / 2). split; [right; left; reflexivity|lra].
Qed.

(** ** C41 *)
Lemma bw_darboux k i m fin r w c n : BreitWigner k i m fin = Ok r -> width m = Ok w -> 0 < w ->
  0 <= r_integrated r -> 0 < c < 1 -> (2 <= n)%Z -> exists ws g L d,
    res_probability_grid r (Coverage c) n = (ws, Ok (Some (map Finite g))) /\
    darboux (of_value (VLeaf (leaf_of r))) g = Ok (L, d) /\
    L <= c * r_integrated r /\ (Z.odd n = true -> c * r_integrated r <= L + d).
Proof.
  intros H W Hw HI Hc Hn. destruct (breit_wigner_density _ _ _ _ _ _ H W Hw) as (HD & HQ & HM).
  apply (grid_darboux r _ _ HD HQ HM); try assumption. apply cauchy_unimodal. lra.
Qed.
Lemma gauss_darboux k i m amu T fin r c n : constants_ok k -> 0 < amu -> 0 < T ->
  Gauss k i m amu T fin = Ok r -> 0 < r_energy r ->
  0 <= r_integrated r -> 0 < c < 1 -> (2 <= n)%Z -> exists ws g L d,
    res_probability_grid r (Coverage c) n = (ws, Ok (Some (map Finite g))) /\
    darboux (of_value (VLeaf (leaf_of r))) g = Ok (L, d) /\
    L <= c * r_integrated r /\ (Z.odd n = true -> c * r_integrated r <= L + d).
Proof.
  intros K Ha HT H HE HI Hc Hn. destruct (gauss_density _ _ _ _ _ _ _ K Ha HT H HE) as (d & _ & Hd & HD & HQ & HM).
  apply (grid_darboux r _ _ HD HQ HM); try assumption. apply norm_unimodal. now apply scale_pos.
Qed.

(** ** A concrete case *)
Open Scope string_scope.
Definition ground : state := GroundState "0^+" 0 1.
Definition excited : state :=
  {| st_J_pi := "1^-"; st_two_J := 2; st_parity := -1; st_excitation_energy := 1;
     st_decays := Some ([("0^+", 2)], 2) |}.
Lemma excited_ok : State "1^-" 2 (-1) 1 [("0^+", 2)] = Ok excited.
Proof.
  unfold State. cbn. unfold excited. repeat f_equal. unfold py_sum_R. cbn. ring.
Qed.
Lemma codata_ok : constants_ok codata.
Proof. unfold constants_ok, codata; cbn; repeat split; lra. Qed.
Lemma res_example : exists r, Resonance codata ground excited None NoRecoil = Ok r /\ r_energy r = 1 /\ 0 < r_integrated r.
Proof.
  destruct (Resonance codata ground excited None NoRecoil) as [r| |e] eqn:E.
  - exists r. split; [reflexivity|]. destruct (resonance_inv _ _ _ _ _ _ E) as (E_r & pw & w & g0 & br & HE & NE & NJ & Dm & G0 & B0 & HR).
    unfold NoRecoil in HE. cbn in HE. injection HE as <-. injection Dm as <- <-. injection G0 as <-. injection B0 as <-.
    destruct HR as (_ & _ & _ & -> & _ & _ & _ & -> & _). split; [field|].
    pose proof PI_RGT_0. assert (0 < k_hbarc codata) by (cbn; lra).
    apply Rmult_lt_0_compat; [|lra]. apply Rmult_lt_0_compat; [|lra].
    apply Rmult_lt_0_compat; [|unfold ground, excited; cbn; lra].
    apply Rdiv_lt_0_compat; [apply pow_lt; nra|]. replace (1 - 0) with 1 by ring. lra.
  - destruct (resonance_raises_iff codata ground excited None NoRecoil (1 - 0)) as (_ & _ & N); [cbn; lia|reflexivity|congruence].
  - destruct (resonance_raises_iff codata ground excited None NoRecoil (1 - 0)) as ([R _] & _ & N); [cbn; lia|reflexivity|].
    rewrite E in R. destruct (R (ex_intro _ e eq_refl)) as [Z|[Z|(pw & w & Z & [K|(f & K & _)])]].
    + lra.
    + discriminate.
    + injection Z as <- <-. destruct K. cbn. auto.
    + discriminate.
Qed.
Lemma bw_example : exists r, BreitWigner codata ground excited None = Ok r /\ width excited = Ok 2 /\
  r_energy r = 1 /\ 0 < r_integrated r.
Proof.
  destruct res_example as (r & E & HE & HI). unfold BreitWigner. rewrite E. cbn [bind width excited st_decays].
  eexists. split; [reflexivity|]. auto.
Qed.
Lemma gauss_example : exists r, Gauss codata ground excited 12 300 None = Ok r /\ r_energy r = 1 /\ 0 < r_integrated r.
Proof.
  destruct res_example as (r & E & HE & HI). unfold Gauss. rewrite E. cbn [bind].
  rewrite doppler_value by (apply codata_ok || lra). cbn [bind]. eexists. split; [reflexivity|]. auto.
Qed.

(** ** Refutations with this case: E_r = 1, Gamma = 2, so that F(0) = 1/4 *)
Lemma example_F0 : cauchy_cdf 1 (2 / 2) 0 = 1 / 4.
Proof.
  unfold cauchy_cdf. replace ((0 - 1) / (2 / 2)) with (- (1)) by field. rewrite atan_opp, atan_1.
  pose proof PI_RGT_0. field. lra.
Qed.
Lemma not_clamped k i m fin r w c : BreitWigner k i m fin = Ok r -> width m = Ok w -> 0 < w -> 0 <= c < 1 ->
  1 / 2 * (1 - c) < cauchy_cdf (r_energy r) (w / 2) 0 ->
  exists ws lo hi, coverage_interval r c = (ws, Ok (Finite lo, Finite hi)) /\ lo < 0.
Proof.
  intros H W Hw Hc HF. destruct (bw_warnings _ _ _ _ _ _ c H W Hw ltac:(lra)) as (ws & lo & hi & E & Q1 & Q2 & N & _).
  destruct (is_quantile_finite (cauchy_cdf (r_energy r) (w / 2)) (1 / 2 * (1 - c)) lo ltac:(lra) Q1) as (x & -> & _).
  destruct (is_quantile_finite (cauchy_cdf (r_energy r) (w / 2)) (1 / 2 * (1 + c)) hi ltac:(lra) Q2) as (y & -> & _).
  exists ws, x, y. split; [exact E|]. now apply N.
Qed.
Lemma clamp_refuted : exists k i m fin r w c, constants_ok k /\ BreitWigner k i m fin = Ok r /\ width m = Ok w /\ 0 < w /\
  0 < r_energy r /\ 0 <= c < 1 /\
  exists ws lo hi, coverage_interval r c = (ws, Ok (Finite lo, Finite hi)) /\ lo < 0.
Proof.
  destruct bw_example as (r & H & W & HE & _).
  exists codata, ground, excited, None, r, 2, (2 / 3). split; [apply codata_ok|]. split; [exact H|]. split; [exact W|].
  split; [lra|]. split; [lra|]. split; [lra|].
  eapply not_clamped; [exact H|exact W|lra|lra|]. rewrite HE, example_F0. lra.
Qed.
Lemma quoted_wrong k i m fin r w c : BreitWigner k i m fin = Ok r -> width m = Ok w -> 0 < w -> 0 < r_energy r ->
  0 <= c <= 1 -> 1 / 2 * (1 - c) < cauchy_cdf (r_energy r) (w / 2) 0 ->
  exists ws x p, coverage_interval r c = (ws, Ok x) /\ In (NegativeLowerLimit p) ws /\
    p < 100 * (1 - cauchy_cdf (r_energy r) (w / 2) 0).
Proof.
  intros H W Hw HE Hc HF. destruct (bw_warnings _ _ _ _ _ _ c H W Hw ltac:(lra)) as (ws & lo & hi & E & Q1 & Q2 & N & P & _).
  exists ws, (lo, hi), 50. split; [exact E|]. split; [apply P; auto|].
  pose proof (cauchy_at_zero (r_energy r) (w / 2) HE ltac:(lra)). lra.
Qed.
Lemma quoted_refuted : exists k i m fin r w c ws x, constants_ok k /\ BreitWigner k i m fin = Ok r /\ width m = Ok w /\ 0 < w /\
  0 < r_energy r /\ coverage_interval r c = (ws, Ok x) /\ In (NegativeLowerLimit 50) ws /\
  100 * (1 - cauchy_cdf (r_energy r) (w / 2) 0) = 75.
Proof.
  destruct bw_example as (r & H & W & HE & _).
  destruct (bw_warnings _ _ _ _ _ _ (2 / 3) H W ltac:(lra) ltac:(lra)) as (ws & lo & hi & E & Q1 & Q2 & N & P & _).
  exists codata, ground, excited, None, r, 2, (2 / 3), ws, (lo, hi).
  split; [apply codata_ok|]. split; [exact H|]. split; [exact W|]. split; [lra|]. split; [lra|]. split; [exact E|].
  rewrite HE, example_F0 in *. split; [apply P; split; [lra|reflexivity]|]. field.
Qed.

(** ** Remaining assembly *)
Lemma integrated_formula k i m fin rec r E_r pw w g0 br : Resonance k i m fin rec = Ok r ->
  rec (st_excitation_energy m - st_excitation_energy i) = Ok E_r -> st_decays m = Some (pw, w) ->
  dget pw (st_J_pi i) = Some g0 ->
  br = match fin with None => 1 | Some f => match dget pw (st_J_pi f) with Some g => g / w | None => 0 end end ->
  r_integrated r = PI ^ 2 * (k_hbarc k / E_r) ^ 2 *
    ((IZR (st_two_J m) + 1) / (IZR (st_two_J i) + 1)) * g0 * br.
Proof.
  intros H HE Dm G ->. destruct (resonance_inv _ _ _ _ _ _ H) as (E_r' & pw' & w' & g0' & br & HE' & NE & NJ & Dm' & G0 & B0 & HR).
  rewrite HE in HE'. injection HE' as <-. rewrite Dm in Dm'. injection Dm' as <- <-. rewrite G in G0. injection G0 as <-.
  destruct HR as (_ & _ & _ & _ & _ & _ & _ & -> & _).
  assert (br = match fin with None => 1 | Some f => match dget pw (st_J_pi f) with Some g => g / w | None => 0 end end) as <-.
  { apply branching_inv in B0. destruct fin as [f|]; [|exact B0].
    destruct B0 as (pw' & w' & g & Dm' & Gf & _ & ->). rewrite Dm in Dm'. injection Dm' as <- <-. now rewrite Gf. }
  field. split; assumption.
Qed.

Lemma bw_grids k i m fin r w : BreitWigner k i m fin = Ok r -> width m = Ok w -> 0 < w ->
  (forall a b n, a < b -> (2 <= n)%Z -> exists ws g f, cross_section_is r f /\
     res_probability_grid r (Limits a b) n = (ws, Ok (Some (map Finite g))) /\ equal_integral_grid f a b n g) /\
  (forall c n, 0 < c < 1 -> (2 <= n)%Z -> exists ws ws' g f lo hi, cross_section_is r f /\
     coverage_interval r c = (ws', Ok (Finite lo, Finite hi)) /\
     res_probability_grid r (Coverage c) n = (ws, Ok (Some (map Finite g))) /\ equal_integral_grid f lo hi n g /\
     is_RInt f lo hi (c * r_integrated r)).
Proof.
  intros H W Hw. destruct (breit_wigner_density _ _ _ _ _ _ H W Hw) as (HD & HQ & HM).
  destruct (bw_scipy _ _ _ _ _ _ H W Hw) as (_ & Hd). split.
  - intros. eapply density_grid_limits; eassumption.
  - intros. eapply grid_within_coverage; try eassumption. rewrite Hd. exists (1 / 2). apply cauchy_default.
Qed.
Lemma gauss_grids k i m amu T fin r : constants_ok k -> 0 < amu -> 0 < T ->
  Gauss k i m amu T fin = Ok r -> 0 < r_energy r ->
  (forall a b n, a < b -> (2 <= n)%Z -> exists ws g f, cross_section_is r f /\
     res_probability_grid r (Limits a b) n = (ws, Ok (Some (map Finite g))) /\ equal_integral_grid f a b n g) /\
  (forall c n, 0 < c < 1 -> (2 <= n)%Z -> exists ws ws' g f lo hi, cross_section_is r f /\
     coverage_interval r c = (ws', Ok (Finite lo, Finite hi)) /\
     res_probability_grid r (Coverage c) n = (ws, Ok (Some (map Finite g))) /\ equal_integral_grid f lo hi n g /\
     is_RInt f lo hi (c * r_integrated r)).
Proof.
  intros K Ha HT H HE. destruct (gauss_density _ _ _ _ _ _ _ K Ha HT H HE) as (d & _ & _ & HD & HQ & HM).
  destruct (gauss_scipy _ _ _ _ _ _ _ K Ha HT H HE) as (_ & _ & _ & Hd). split.
  - intros. eapply density_grid_limits; eassumption.
  - intros. eapply grid_within_coverage; try eassumption. rewrite Hd. exists (1 / 2). apply norm_default.
Qed.
Lemma grid_single r l s a b : scipy_model r l s -> a < b ->
  res_probability_grid r (Limits a b) 1 = ([], Ok (Some [Finite b])) /\ Finite b <> Finite a /\
  res_energy_grid r (Limits a b) 1 = ([], Ok [a]).
Proof.
  intros H Hab. split; [eapply grid_one; eassumption|]. split; [intros [=]; lra|].
  unfold res_energy_grid. now rewrite linspace_1.
Qed.
Lemma scipy_example : exists r, scipy_model r 1 (1 / 2 * 2).
Proof.
  destruct bw_example as (r & H & W & HE & _). exists r. rewrite <- HE at 1.
  apply (bw_scipy _ _ _ _ _ _ H W). lra.
Qed.
