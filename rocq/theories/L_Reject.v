(** Lemmas for C85-C87. *)
From Coq Require Import Reals List ZArith String Lra Lia.
From Coquelicot Require Import Rbar Coquelicot.
From Verif Require Import Py Spec M_Num M_Grid M_Constituents M_Thermal M_Dist M_CrossSection M_Resonance M_PseudoVoigt S_Reject
  S_Resonance S_PseudoVoigt L_Dist L_Grid L_CrossSection L_CrossSection2 L_Resonance L_Resonance4 L_Resonance5 L_Resonance6 L_Resonance3 L_PseudoVoigt L_PseudoVoigt4.
Import ListNotations.
Open Scope R_scope.
Open Scope py_scope.

(** ** Ground states *)
Lemma ground_attributes J tJ p : let g := GroundState J tJ p in
  st_J_pi g = J /\ st_two_J g = tJ /\ st_parity g = p /\ st_excitation_energy g = 0 /\
  partial_widths g = Raise AttributeError /\ width g = Raise AttributeError.
Proof. cbn. repeat split. Qed.

Lemma from_ground k J tJ p m fin r : Resonance k (GroundState J tJ p) m fin NoRecoil = Ok r ->
  r_energy r = st_excitation_energy m.
Proof.
  unfold Resonance, NoRecoil. cbn [bind GroundState st_excitation_energy].
  destruct (get_statistical_factor _ _); cbn [bind]; try discriminate. destruct (get_final_state_branching_ratio _ _); cbn [bind]; try discriminate.
  destruct (get_energy_integrated_cross_section _ _ _ _ _ _); cbn [bind]; try discriminate. intros [= <-]. cbn. lra.
Qed.

Lemma fdiv_Ok a b x : fdiv a b = Ok x -> b <> 0.
Proof. unfold fdiv. destruct (Req_EM_T b 0); [discriminate|intros _; assumption]. Qed.

Lemma into_ground k i J tJ p fin rec : (0 <= st_two_J i)%Z ->
  let m := GroundState J tJ p in
  (forall r, Resonance k i m fin rec <> Ok r) /\
  (rec (0 - st_excitation_energy i) = Ok (0 - st_excitation_energy i) -> st_excitation_energy i <> 0 ->
   Resonance k i m fin rec = Raise AttributeError).
Proof.
  intros HJ m. unfold Resonance. cbn [m GroundState st_excitation_energy].
  assert (G : exists g, get_statistical_factor i m = Ok g).
  { unfold get_statistical_factor, fdiv. destruct (Req_EM_T _ 0) as [Z|]; [|eauto]. exfalso. apply (IZR_le 0) in HJ. lra. }
  destruct G as [g G]. fold m. split.
  - intros r. destruct (rec _); cbn [bind]; try discriminate. rewrite G. cbn [bind].
    destruct (get_final_state_branching_ratio m fin); cbn [bind]; try discriminate.
    unfold get_energy_integrated_cross_section. destruct (fdiv _ _); cbn; discriminate.
  - intros -> N. cbn [bind]. rewrite G. cbn [bind]. destruct fin as [f|]; [reflexivity|]. cbn [get_final_state_branching_ratio bind].
    unfold get_energy_integrated_cross_section, fdiv. destruct (Req_EM_T _ 0) as [Z|]; [|reflexivity].
    exfalso. apply N. cbn in Z. nra.
Qed.
Lemma into_ground_classes k i J tJ p fin : (0 <= st_two_J i)%Z -> st_excitation_energy i <> 0 ->
  let m := GroundState J tJ p in
  Resonance k i m fin NoRecoil = Raise AttributeError /\ BreitWigner k i m fin = Raise AttributeError /\
  forall amu T modern, Gauss k i m amu T fin = Raise AttributeError /\
    PseudoVoigt modern k i m amu T fin = Raise AttributeError /\ Voigt modern k i m amu T fin = Raise AttributeError.
Proof.
  intros HJ N m. pose proof (proj2 (into_ground k i J tJ p fin NoRecoil HJ) eq_refl N) as E. fold m in E.
  split; [exact E|]. split; [unfold BreitWigner; now rewrite E|]. intros amu T modern.
  assert (P : PseudoVoigt modern k i m amu T fin = Raise AttributeError) by (unfold PseudoVoigt; now rewrite E).
  split; [unfold Gauss; now rewrite E|]. split; [exact P|]. unfold Voigt. now rewrite P.
Qed.

Lemma isotope_attributes (A : Type) AX (amu : A) g l :
  (let i := Isotope AX amu g (Some l) in iso_name i = AX /\ iso_mass i = amu /\ iso_ground_state i = g /\ iso_excited_states i = l) /\
  (let i := Isotope AX amu g None in iso_name i = AX /\ iso_mass i = amu /\ iso_ground_state i = g /\ iso_excited_states i = []).
Proof. repeat split. Qed.

(** ** Parity *)
Section Parity.
  Variables (k : constants) (i m i' m' : state) (fin fin' : option state).
  Hypotheses (Hi : same_but_parity i i') (Hm : same_but_parity m m') (Hf : same_final fin fin').

  Definition similar (r r' : resonance) : Prop :=
    r_energy r' = r_energy r /\ r_integrated r' = r_integrated r /\ r_dist r' = r_dist r /\ r_params r' = r_params r.
  Definition similar_out (x y : out resonance) : Prop :=
    match x, y with Ok r, Ok r' => similar r r' | NaN, NaN => True | Raise e, Raise e' => e = e' | _, _ => False end.
  Lemma similar_alike r r' : similar r r' -> alike r r'.
  Proof.
    intros (E1 & E2 & E3 & E4). assert (C : forall c, coverage_interval r' c = coverage_interval r c) by (intros c; unfold coverage_interval; now rewrite E3, E4).
    split; [|split; [exact C|split]].
    - intros E a. unfold res_call. now rewrite E1, E2, E3, E4.
    - intros arg n. unfold res_energy_grid. destruct arg; [now rewrite C|reflexivity].
    - intros arg n. unfold res_probability_grid. now rewrite E3, E4.
  Qed.
  Lemma similar_out_alike x y : similar_out x y -> alike_out x y.
  Proof. destruct x, y; cbn; try easy. apply similar_alike. Qed.
  Lemma similar_with r r' d p : similar r r' -> similar (with_dist r d p) (with_dist r' d p).
  Proof. intros (E1 & E2 & E3 & E4). repeat split; assumption. Qed.

  Lemma parity_width : width m' = width m.
  Proof. unfold width. destruct Hm as (_ & _ & _ & ->). reflexivity. Qed.
  Lemma parity_partial : partial_widths m' = partial_widths m.
  Proof. unfold partial_widths. destruct Hm as (_ & _ & _ & ->). reflexivity. Qed.
  Lemma parity_Resonance rec : similar_out (Resonance k i m fin rec) (Resonance k i' m' fin' rec).
  Proof.
    pose proof parity_width as W. pose proof parity_partial as P. destruct Hi as (I1 & I2 & I3 & I4), Hm as (M1 & M2 & M3 & M4).
    unfold Resonance. rewrite M3, I3. destruct (rec _) as [E_r| |e]; cbn [bind similar_out]; [|exact I|reflexivity].
    assert (G : get_statistical_factor i' m' = get_statistical_factor i m) by (unfold get_statistical_factor; now rewrite I2, M2). rewrite G.
    destruct (get_statistical_factor i m) as [g| |e]; cbn [bind similar_out]; [|exact I|reflexivity].
    assert (B : get_final_state_branching_ratio m' fin' = get_final_state_branching_ratio m fin).
    { unfold get_final_state_branching_ratio. destruct fin as [f|], fin' as [f'|]; cbn in Hf; try easy. destruct Hf as (F1 & _). now rewrite P, W, F1. } rewrite B.
    destruct (get_final_state_branching_ratio m fin) as [b| |e]; cbn [bind similar_out]; [|exact I|reflexivity].
    assert (X : forall c, get_energy_integrated_cross_section c E_r g b i' m' = get_energy_integrated_cross_section c E_r g b i m)
      by (intros c; unfold get_energy_integrated_cross_section; now rewrite P, I1). rewrite X.
    destruct (get_energy_integrated_cross_section _ _ _ _ i m) as [y| |e]; cbn [bind similar_out]; [|exact I|reflexivity].
    repeat split.
  Qed.
  Lemma parity_BreitWigner : similar_out (BreitWigner k i m fin) (BreitWigner k i' m' fin').
  Proof.
    pose proof (parity_Resonance NoRecoil) as P. unfold BreitWigner. rewrite parity_width.
    destruct (Resonance k i m fin NoRecoil) as [r| |e], (Resonance k i' m' fin' NoRecoil) as [r'| |e']; cbn [similar_out bind] in P |- *; try easy.
    destruct (width m); cbn [bind similar_out]; [|exact I|reflexivity]. rewrite (proj1 P). now apply similar_with.
  Qed.
  Lemma parity_Gauss amu T : similar_out (Gauss k i m amu T fin) (Gauss k i' m' amu T fin').
  Proof.
    pose proof (parity_Resonance NoRecoil) as P. unfold Gauss.
    destruct (Resonance k i m fin NoRecoil) as [r| |e], (Resonance k i' m' fin' NoRecoil) as [r'| |e']; cbn [similar_out bind] in P |- *; try easy.
    rewrite (proj1 P). destruct (get_doppler_width _ _ _); cbn [bind similar_out]; [|exact I|reflexivity]. now apply similar_with.
  Qed.
  Lemma parity_PseudoVoigt modern amu T : similar_out (PseudoVoigt modern k i m amu T fin) (PseudoVoigt modern k i' m' amu T fin').
  Proof.
    pose proof (parity_Resonance NoRecoil) as P. unfold PseudoVoigt. rewrite parity_width.
    destruct (Resonance k i m fin NoRecoil) as [r| |e], (Resonance k i' m' fin' NoRecoil) as [r'| |e']; cbn [similar_out bind] in P |- *; try easy.
    destruct (width m); cbn [bind similar_out]; [|exact I|reflexivity]. rewrite (proj1 P).
    destruct (PseudoVoigtDistribution _ _ _ _ _); cbn [bind similar_out]; [|exact I|reflexivity]. now apply similar_with.
  Qed.
  Lemma parity_Voigt modern amu T : similar_out (Voigt modern k i m amu T fin) (Voigt modern k i' m' amu T fin').
  Proof.
    pose proof (parity_PseudoVoigt modern amu T) as P. unfold Voigt. rewrite parity_width.
    destruct (PseudoVoigt modern k i m amu T fin) as [r| |e], (PseudoVoigt modern k i' m' amu T fin') as [r'| |e']; cbn [similar_out bind] in P |- *; try easy.
    destruct (width m); cbn [bind similar_out]; [|exact I|reflexivity]. rewrite (proj1 P).
    destruct (PseudoVoigtDistribution _ _ _ _ _); cbn [bind similar_out]; [|exact I|reflexivity]. now apply similar_with.
  Qed.
  Lemma parity_irrelevant : (forall rec, alike_out (Resonance k i m fin rec) (Resonance k i' m' fin' rec)) /\
    alike_out (BreitWigner k i m fin) (BreitWigner k i' m' fin') /\
    forall amu T, alike_out (Gauss k i m amu T fin) (Gauss k i' m' amu T fin') /\
      forall modern, alike_out (PseudoVoigt modern k i m amu T fin) (PseudoVoigt modern k i' m' amu T fin') /\
                     alike_out (Voigt modern k i m amu T fin) (Voigt modern k i' m' amu T fin').
  Proof.
    split; [intros; apply similar_out_alike, parity_Resonance|]. split; [apply similar_out_alike, parity_BreitWigner|].
    intros amu T. split; [apply similar_out_alike, parity_Gauss|]. intros modern.
    split; apply similar_out_alike; [apply parity_PseudoVoigt|apply parity_Voigt].
  Qed.
End Parity.

(** ** Lines without width *)
Definition dists : list distribution := [uniform; cauchy; norm].
Lemma no_scale r l s : s <= 0 -> r_params r = [l; s] -> In (r_dist r) dists ->
  (forall x, d_pdf (r_dist r) (r_params r) x = NaN) /\ (forall x, d_cdf (r_dist r) (r_params r) x = NaN) /\
  (forall q qs, d_ppf (r_dist r) (r_params r) (q :: qs) = ([], NaN)).
Proof.
  intros Hs -> Hd. assert (NS : ~ 0 < s) by lra.
  destruct Hd as [<- | [<- | [<- | []]]]; cbn [d_pdf d_cdf d_ppf uniform cauchy norm]; unfold ppf_array, loc_scale, traverse; cbn [map sequence];
    (destruct (Rlt_dec 0 s) as [P|_]; [contradiction|]); repeat split.
Qed.
Lemma linspace_cons a b n : (1 <= n)%Z -> exists l, linspace a b n = Ok (a :: l).
Proof.
  intros H. destruct (Z.eq_dec n 1) as [->|N]; [exists []; apply linspace_1|].
  rewrite linspace_ok by lia. destruct (Z.to_nat n) as [|[|m]] eqn:E; [lia|lia|]. cbn [seq map]. eexists. f_equal. f_equal.
  cbn. destruct (Nat.eqb_spec 0 (S (S m) - 1)); [lia|]. try (unfold Rdiv; ring).
Qed.
Lemma degenerate r l s : s <= 0 -> r_params r = [l; s] -> In (r_dist r) dists -> never_a_number r.
Proof.
  intros Hs Hp Hd. destruct (no_scale r l s Hs Hp Hd) as (P1 & P2 & P3).
  assert (C : forall c, coverage_interval r c = ([], NaN)) by (intros c; unfold coverage_interval; now rewrite P3).
  split; [|split; [exact C|split; [|split]]].
  - intros E a. unfold res_call. now rewrite P1.
  - intros c n. unfold res_energy_grid. now rewrite C.
  - intros c n Hn. unfold res_probability_grid. cbn [bind]. destruct (linspace_cons (1 / 2 * (1 - c)) (1 / 2 * (1 + c)) n Hn) as [t ->]. now rewrite P3.
  - intros a b n Hn. unfold res_probability_grid. rewrite P2. cbn [bind nan_grid].
    destruct (Z.ltb_spec n 0); [lia|]. destruct (Z.eqb_spec n 0); [lia|]. destruct (Z.eqb_spec n 1); [lia|]. destruct (Z.eqb_spec n 2); [lia|]. reflexivity.
Qed.
Lemma BreitWigner_shape k i m fin r w : BreitWigner k i m fin = Ok r -> width m = Ok w -> r_dist r = cauchy /\ r_params r = [r_energy r; 1 / 2 * w].
Proof.
  unfold BreitWigner. intros H W. rewrite W in H. destruct (Resonance k i m fin NoRecoil) as [r0| |e]; cbn [bind] in H; try discriminate.
  injection H as <-. split; reflexivity.
Qed.
Lemma no_width k i m fin r w : BreitWigner k i m fin = Ok r -> width m = Ok w -> w <= 0 -> never_a_number r.
Proof.
  intros H W L. destruct (BreitWigner_shape _ _ _ _ _ _ H W) as [E1 E2]. apply (degenerate r (r_energy r) (1 / 2 * w)); [lra|exact E2|].
  rewrite E1. right. now left.
Qed.
Lemma doppler_cold k amu E d : get_doppler_width k {| mb_amu := amu; mb_effective_temperature := 0 |} E = Ok d -> d = 0.
Proof.
  unfold get_doppler_width. cbn [mb_amu mb_effective_temperature]. unfold fdiv. destruct (Req_EM_T _ 0); cbn [bind]; [discriminate|].
  replace (2 * k_kB_eV k * / 10 ^ 6 * 0 / (amu * k_u_MeV k)) with 0 by (unfold Rdiv; ring).
  unfold np_sqrt. destruct (Rlt_dec 0 0); [lra|]. destruct (Rle_dec 0 0); cbn [bind]; rewrite ?sqrt_0; intros [= <-]; ring.
Qed.
Lemma no_motion k i m amu fin r : Gauss k i m amu 0 fin = Ok r -> never_a_number r.
Proof.
  unfold Gauss. destruct (Resonance k i m fin NoRecoil) as [r0| |e]; cbn [bind]; try discriminate.
  destruct (get_doppler_width _ _ _) as [d| |e] eqn:D; cbn [bind]; try discriminate. apply doppler_cold in D. subst d. intros [= <-].
  eapply (degenerate _ _ (0 / sqrt 2)); [unfold Rdiv; lra|reflexivity|]. cbn. tauto.
Qed.
Lemma no_broadening modern k i m amu fin w : width m = Ok w -> w = 0 ->
  (forall r, PseudoVoigt modern k i m amu 0 fin <> Ok r) /\ (forall r, Voigt modern k i m amu 0 fin <> Ok r).
Proof.
  intros W ->. assert (P : forall r, PseudoVoigt modern k i m amu 0 fin <> Ok r).
  { intros r. unfold PseudoVoigt. destruct (Resonance k i m fin NoRecoil) as [r0| |e]; cbn [bind]; try discriminate. rewrite W. cbn [bind].
    unfold PseudoVoigtDistribution. destruct (get_doppler_width _ _ _) as [d| |e] eqn:D; cbn [bind]; try discriminate. apply doppler_cold in D. subst d.
    unfold get_Gamma. match goal with |- context[fifth_root ?x] => replace x with 0 by ring end.
    unfold fifth_root. destruct (Rlt_dec 0 0); [lra|]. destruct (Req_EM_T 0 0); [|lra]. cbn [bind]. unfold get_eta. destruct (Req_EM_T 0 0); [|lra]. discriminate. }
  split; [exact P|]. intros r. unfold Voigt. destruct (PseudoVoigt modern k i m amu 0 fin) as [r0| |e] eqn:Q; cbn [bind]; try discriminate. now destruct (P r0).
Qed.

(** ** Coverages outside of [0, 1] *)
Lemma bad_quantile r l s q qs : scipy_model r l s -> q < 0 \/ 1 < q -> d_ppf (r_dist r) (r_params r) (q :: qs) = ([], NaN).
Proof.
  intros (Hs & -> & Hd) Hq.
  assert (B : forall A (x y z : A), (if Rle_dec 0 q then if Rle_dec q 1 then x else z else z) = z).
  { intros A x y z. destruct (Rle_dec 0 q); [|reflexivity]. destruct (Rle_dec q 1); [lra|reflexivity]. }
  destruct Hd as [-> | [-> | ->]]; cbn [d_ppf uniform cauchy norm]; unfold ppf_array, traverse; cbn [map sequence]; rewrite loc_scale_2 by exact Hs;
    (destruct (Rle_dec 0 q); [destruct (Rle_dec q 1); [lra|]|]; reflexivity).
Qed.
Lemma too_much r l s c : scipy_model r l s -> 1 < Rabs c ->
  coverage_interval r c = ([], NaN) /\ (forall n, res_energy_grid r (Coverage c) n = ([], NaN)) /\
  (forall n, (1 <= n)%Z -> res_probability_grid r (Coverage c) n = ([], NaN)).
Proof.
  intros M Hc. assert (Q : 1 / 2 * (1 - c) < 0 \/ 1 < 1 / 2 * (1 - c)) by (unfold Rabs in Hc; destruct (Rcase_abs c); lra).
  assert (C : coverage_interval r c = ([], NaN)) by (unfold coverage_interval; now rewrite (bad_quantile r l s _ _ M Q)).
  split; [exact C|]. split; [intros n; unfold res_energy_grid; now rewrite C|].
  intros n Hn. unfold res_probability_grid. cbn [bind]. destruct (linspace_cons (1 / 2 * (1 - c)) (1 / 2 * (1 + c)) n Hn) as [t ->].
  now rewrite (bad_quantile r l s _ _ M Q).
Qed.
Lemma two_quantiles r l s p q : scipy_model r l s -> 0 <= p <= 1 -> 0 <= q <= 1 -> exists x y,
  d_ppf (r_dist r) (r_params r) [p; q] = ([], Ok (Some [x; y])) /\ d_ppf (r_dist r) (r_params r) [q; p] = ([], Ok (Some [y; x])).
Proof.
  intros (Hs & -> & Hd) Hp Hq.
  assert (F1 : List.Forall (fun q => 0 <= q <= 1) [p; q]) by (constructor; [lra|]; constructor; [lra|constructor]).
  assert (F2 : List.Forall (fun q => 0 <= q <= 1) [q; p]) by (constructor; [lra|]; constructor; [lra|constructor]).
  destruct Hd as [-> | [-> | ->]]; cbn [d_ppf uniform cauchy norm]; rewrite !ppf_array_value by assumption; cbn [map]; eexists; eexists; split; reflexivity.
Qed.
Lemma reversed r l s c ws lo hi : scipy_model r l s -> 0 <= c <= 1 -> coverage_interval r c = (ws, Ok (lo, hi)) ->
  exists ws', coverage_interval r (- c) = (ws', Ok (hi, lo)).
Proof.
  intros M Hc H. unfold coverage_interval in *.
  replace (1 / 2 * (1 - - c)) with (1 / 2 * (1 + c)) by ring. replace (1 / 2 * (1 + - c)) with (1 / 2 * (1 - c)) by ring.
  destruct (two_quantiles r l s (1 / 2 * (1 - c)) (1 / 2 * (1 + c)) M ltac:(lra) ltac:(lra)) as (x & y & E1 & E2). rewrite E1 in H. rewrite E2.
  assert (K : exists F, d_cdf (r_dist r) [] 0 = Ok F).
  { destruct M as (_ & _ & [-> | [-> | ->]]); cbn [d_cdf uniform cauchy norm loc_scale]; (destruct (Rlt_dec 0 1); [eauto|lra]). }
  destruct K as [F K]. rewrite K in H |- *. destruct (Rbar_negative x), (Rbar_negative y); injection H as <- <- <-; eexists; reflexivity.
Qed.

(** ** The approximation of quantiles without one of the widths *)
Lemma ends_norm l s q : 0 < s -> q = 0 \/ q = 1 -> match norm_ppf l s q with Finite _ => False | _ => True end.
Proof.
  intros Hs Hq. pose proof (quantile_is _ _ (norm_density l s Hs) q ltac:(destruct Hq; lra)) as Q. unfold norm_ppf.
  destruct (quantile (norm_cdf l s) q) as [x| |]; cbn in Q |- *; try exact I. pose proof (dens_range _ _ (norm_density l s Hs) x). lra.
Qed.
Lemma ends_cauchy l s q : q = 0 \/ q = 1 -> match cauchy_ppf l s q with Finite _ => False | _ => True end.
Proof. intros Hq. unfold cauchy_ppf. destruct (Rle_dec q 0); [exact I|]. destruct (Rle_dec 1 q); [exact I|]. lra. Qed.
Lemma fallback_nan k E w amu T p qs : pv_params k E w amu T -> PseudoVoigtDistribution k E w amu T = Ok p -> w = 0 \/ T = 0 ->
  List.Forall (fun q => 0 <= q <= 1) qs -> In 0 qs \/ In 1 qs -> pseudo_voigt_ppf_expression p qs = NaN.
Proof.
  intros P EP Z Fq I. assert (V : pv_valid p). { destruct (pv_build _ _ _ _ _ P) as (p' & EP' & V & _). rewrite EP in EP'. now injection EP' as <-. }
  destruct (pv_scales p V) as [H1 H2]. unfold pseudo_voigt_ppf_expression. cbn [d_ppf norm cauchy]. rewrite !ppf_array_value by assumption. cbn [snd bind].
  assert (Eta : pv_eta p = 0 \/ pv_eta p = 1).
  { destruct Z as [->| ->].
    - left. destruct (gauss_limit_attributes _ _ _ _ _ P EP) as (d & _ & _ & H & _). exact H.
    - right. destruct (cold _ _ _ _ _ P EP) as (_ & _ & H & _). exact H. }
  match goal with |- omap Some ?x = NaN => enough (K : x = NaN) by now rewrite K end.
  assert (I' : exists q, In q qs /\ (q = 0 \/ q = 1)) by (destruct I; eauto). clear I Fq.
  induction qs as [|q qs IH]; [destruct I' as (q & [] & _)|]. cbn [map map2 sequence].
  set (f := norm_ppf (pv_energy p) (pv_gamma_G p / sqrt 2)) in *. set (g := cauchy_ppf (pv_energy p) (1 / 2 * pv_gamma_L p)) in *.
  destruct (Req_EM_T q 0) as [Q|Q0]; [|destruct (Req_EM_T q 1) as [Q|Q1]].
  3: { destruct I' as (q' & [<-|I'] & E'); [tauto|]. rewrite IH by eauto.
       destruct (scale_inf (1 - pv_eta p) (f q)) as [x| |e] eqn:X; cbn [bind].
       - destruct (scale_inf (pv_eta p) (g q)) as [y| |e] eqn:Y; cbn [bind].
         + unfold add_inf. destruct (Rbar_plus' x y); reflexivity.
         + reflexivity.
         + unfold scale_inf in Y. destruct (g q); try discriminate; destruct (Req_EM_T _ 0); discriminate.
       - reflexivity.
       - unfold scale_inf in X. destruct (f q); try discriminate; destruct (Req_EM_T _ 0); discriminate. }
  all: pose proof (ends_norm (pv_energy p) _ q H1 ltac:(lra)) as N; pose proof (ends_cauchy (pv_energy p) (1 / 2 * pv_gamma_L p) q ltac:(lra)) as C; fold f in N; fold g in C;
    destruct Eta as [Et|Et]; rewrite Et.
  1,3: assert (S0 : scale_inf 0 (g q) = NaN) by (unfold scale_inf; destruct (g q); [contradiction| |]; destruct (Req_EM_T 0 0); [reflexivity|lra|reflexivity|lra]);
    rewrite S0; replace (1 - 0) with 1 by ring; destruct (scale_inf 1 (f q)) as [x| |e] eqn:X; cbn [bind]; try reflexivity;
    unfold scale_inf in X; destruct (f q); try discriminate; destruct (Req_EM_T _ 0); discriminate.
  all: replace (1 - 1) with 0 by ring; assert (S0 : scale_inf 0 (f q) = NaN) by (unfold scale_inf; destruct (f q); [contradiction| |]; destruct (Req_EM_T 0 0); [reflexivity|lra|reflexivity|lra]);
    rewrite S0; reflexivity.
Qed.

(** ** Abstract cross sections *)
Lemma abstract_raises v E : uses_abstract v -> exists e, call v E = Raise e.
Proof.
  induction 1 as [|rs ss r I U (e & IH)]; [exists NotImplementedError; reflexivity|]. rewrite call_loop.
  generalize 0%nat as i. generalize (Ok 0) as acc. induction rs as [|x rs IHr]; [destruct I|]. intros acc i. cbn [loop].
  destruct acc as [a| |e']; [| |exists e'; apply loop_raise].
  all: destruct (get ss i) as [s| |e'] eqn:G; [|unfold get in G; destruct (nth_error ss i); discriminate|exists e'; apply loop_raise].
  all: destruct I as [->|I]; [rewrite IH; exists e; apply loop_raise|now apply IHr].
Qed.
Lemma answers E g n v : others_answer E g n v -> (exists y, call v E = Ok y) \/ call v E = Raise NotImplementedError.
Proof.
  induction 1 as [|c y l H _|r a b _ _|rs ss L _ IH].
  - now right.
  - left. now exists y.
  - left. now exists r.
  - rewrite call_loop. assert (K : forall i a, (List.length rs + i <= List.length ss)%nat -> (exists y, loop ss E rs i (Ok a) = Ok y) \/ loop ss E rs i (Ok a) = Raise NotImplementedError).
    { clear L. induction rs as [|x rs IHr]; intros i a L; [left; now exists a|]. cbn [loop]. cbn [List.length] in L. unfold get. destruct (nth_error ss i) as [s|] eqn:G; [|apply nth_error_None in G; lia].
      destruct (IH x ltac:(now left)) as [(y & ->)| ->].
      - cbn [oscale oadd]. apply IHr; [intros r Hr; apply IH; now right|lia].
      - right. apply loop_raise. }
    apply K. lia.
Qed.
Lemma abstract_exact E g n v : uses_abstract v -> others_answer E g n v -> call v E = Raise NotImplementedError.
Proof. intros U O. destruct (abstract_raises v E U) as (e & H). destruct (answers E g n v O) as [(y & K)|K]; [congruence|exact K]. Qed.
Lemma grid_answers E g n v : others_answer E g n v -> (exists l, pgrid v g n = Ok (Some l)) \/ pgrid v g n = Raise NotImplementedError.
Proof.
  induction 1 as [|c y l _ H|r a b -> Hn|rs ss L _ IH].
  - now right.
  - left. now exists l.
  - left. cbn [pgrid]. unfold constant_probability_grid, finite_grid. destruct (linspace_nonneg a b n Hn) as (l & -> & _). now exists (map Finite l).
  - rewrite pgrid_sum. assert (K : (exists ls, traverse (fun r => pgrid r g n) rs = Ok (map Some ls)) \/ traverse (fun r => pgrid r g n) rs = Raise NotImplementedError).
    { clear L. unfold traverse. induction rs as [|x rs IHr]; [left; exists []; reflexivity|]. cbn [map sequence].
      destruct (IH x ltac:(now left)) as [(l & ->)| ->]; [|right; reflexivity]. cbn [bind].
      destruct IHr as [(ls & ->)| ->]; [intros r Hr; apply IH; now right| |]; cbn [bind]; [left; now exists (l :: ls)|right; reflexivity]. }
    destruct K as [(ls & ->)| ->]; [|right; reflexivity]. cbn [bind]. left.
    assert (M : traverse (fun o : option (list Rbar) => match o with Some l => Ok l | None => Raise TypeError end) (map Some ls) = Ok ls).
    { clear. unfold traverse. induction ls as [|l ls IH]; [reflexivity|]. cbn [map sequence bind]. rewrite IH. reflexivity. }
    rewrite M. cbn [bind]. now eexists.
Qed.
Lemma grid_abstract E g n v : uses_abstract v -> others_answer E g n v -> pgrid v g n = Raise NotImplementedError.
Proof.
  intros U. induction U as [|rs ss r I U IH]; intros O; [reflexivity|]. inversion O as [| | |? ? L F]; subst. specialize (IH (F r I)).
  rewrite pgrid_sum. assert (K : traverse (fun r => pgrid r g n) rs = Raise NotImplementedError).
  { clear O L. unfold traverse. induction rs as [|x rs IHr]; [destruct I|]. cbn [map sequence].
    destruct (grid_answers E g n x (F x ltac:(now left))) as [(l & Ex)|Ex]; rewrite Ex; [|reflexivity]. cbn [bind].
    destruct I as [->|I]; [congruence|]. rewrite IHr; [reflexivity|exact I|]. intros r' Hr'. apply F. now right. }
  now rewrite K.
Qed.

(** ** Examples *)
Definition narrow : state :=
  {| st_J_pi := "1^-"; st_two_J := 2; st_parity := -1; st_excitation_energy := 1; st_decays := Some ([("0^+"%string, 0)], 0) |}.
Lemma narrow_example : State "1^-" 2 (-1) 1 [("0^+"%string, 0)] = Ok narrow /\ width narrow = Ok 0 /\
  (exists r, BreitWigner codata ground narrow None = Ok r) /\ exists r, Gauss codata ground excited 12 0 None = Ok r.
Proof.
  split; [unfold State; cbn; unfold narrow; repeat f_equal; unfold py_sum_R; cbn; ring|]. split; [reflexivity|]. split.
  - unfold BreitWigner, Resonance, NoRecoil, get_statistical_factor, get_final_state_branching_ratio, get_energy_integrated_cross_section, fdiv.
    cbn [bind ground GroundState narrow st_excitation_energy st_two_J st_J_pi partial_widths width st_decays].
    destruct (Req_EM_T (0 + 1) 0); [lra|]. cbn [bind]. destruct (Req_EM_T ((1 - 0) ^ 2) 0); [lra|]. cbn. eauto.
  - destruct res_example as (r & E & _). unfold Gauss. rewrite E. cbn [bind].
    rewrite doppler_value by (apply codata_ok || lra). cbn [bind]. eauto.
Qed.
