(** Warnings, degenerate grids, symmetry, Darboux sums on probability grids. *)
From Coq Require Import Reals List ZArith Lra Lia Sorted String.
From Coquelicot Require Import Coquelicot.
From Verif Require Import Py Spec M_Num M_Grid M_Constituents M_Thermal M_Dist M_Resonance M_CrossSection M_Darboux
  S_CrossSection S_Resonance L_RInt L_Grid L_CrossSection L_Darboux L_Dist L_Resonance L_Resonance2 L_Resonance3 L_Resonance4.
Import ListNotations.
Open Scope R_scope.

(** ** The three scipy distributions *)
Lemma scipy_ppf r l s qs : scipy_model r l s -> List.Forall (fun q => 0 <= q <= 1) qs ->
  exists xs, d_ppf (r_dist r) (r_params r) qs = ([], Ok (Some xs)) /\ List.length xs = List.length qs.
Proof.
  intros (Hs & Hp & Hd) Hq. rewrite Hp.
  destruct Hd as [-> | [-> | ->]]; cbn [d_ppf uniform cauchy norm]; rewrite ppf_array_value by assumption;
    eexists; (split; [reflexivity|apply map_length]).
Qed.
Lemma scipy_cdf r l s x : scipy_model r l s -> exists F, d_cdf (r_dist r) (r_params r) x = Ok F /\ 0 <= F <= 1.
Proof.
  intros (Hs & Hp & Hd). rewrite Hp.
  destruct Hd as [-> | [-> | ->]]; cbn [d_cdf uniform cauchy norm]; rewrite loc_scale_2 by assumption;
    eexists; (split; [reflexivity|]).
  - now apply uniform_range.
  - pose proof (dens_range _ _ (cauchy_density l s Hs) x). lra.
  - pose proof (dens_range _ _ (norm_density l s Hs) x). lra.
Qed.
Lemma linspace_0 a b : linspace a b 0 = Ok [].
Proof. reflexivity. Qed.
Lemma linspace_1 a b : linspace a b 1 = Ok [a].
Proof. unfold linspace. cbn. repeat f_equal; ring. Qed.
Lemma linspace_neg a b n : (n < 0)%Z -> linspace a b n = Raise ValueError.
Proof. intros H. unfold linspace. destruct (Z.ltb_spec n 0); [reflexivity|lia]. Qed.

Lemma grid_none r l s a b : scipy_model r l s -> res_probability_grid r (Limits a b) 0 = ([], Raise IndexError).
Proof.
  intros H. unfold res_probability_grid.
  destruct (scipy_cdf r l s a H) as (Fa & -> & _). destruct (scipy_cdf r l s b H) as (Fb & -> & _).
  cbn [bind]. rewrite linspace_0.
  destruct (scipy_ppf r l s [] H ltac:(constructor)) as (xs & -> & L). destruct xs; [reflexivity|discriminate].
Qed.
Lemma grid_one r l s a b : scipy_model r l s ->
  res_probability_grid r (Limits a b) 1 = ([], Ok (Some [Finite b])).
Proof.
  intros H. unfold res_probability_grid.
  destruct (scipy_cdf r l s a H) as (Fa & -> & Ra). destruct (scipy_cdf r l s b H) as (Fb & -> & _).
  cbn [bind]. rewrite linspace_1.
  destruct (scipy_ppf r l s [Fa] H ltac:(constructor; [assumption|constructor])) as (xs & -> & L).
  destruct xs as [|x [|]]; try discriminate. reflexivity.
Qed.
Lemma grid_negative r l s a b n : scipy_model r l s -> (n < 0)%Z ->
  res_probability_grid r (Limits a b) n = ([], Raise ValueError).
Proof.
  intros H Hn. unfold res_probability_grid.
  destruct (scipy_cdf r l s a H) as (Fa & -> & Ra). destruct (scipy_cdf r l s b H) as (Fb & -> & _).
  cbn [bind]. now rewrite linspace_neg.
Qed.

(** ** Warnings of [coverage_interval] *)
Lemma coverage_warnings r l s c : scipy_model r l s -> 0 <= c <= 1 -> exists ws lo hi F0,
  d_ppf (r_dist r) (r_params r) [1 / 2 * (1 - c); 1 / 2 * (1 + c)] = ([], Ok (Some [lo; hi])) /\
  coverage_interval r c = (ws, Ok (lo, hi)) /\
  d_cdf (r_dist r) [] 0 = Ok F0 /\
  (forall p, In (NegativeLowerLimit p) ws <-> Rbar_lt lo 0 /\ p = 100 * (1 - F0)) /\
  (In InfiniteUpperLimit ws <-> hi = p_infty \/ hi = m_infty) /\ ~ In InversionFailed ws /\ NoDup ws.
Proof.
  intros H Hc.
  destruct (scipy_ppf r l s [1 / 2 * (1 - c); 1 / 2 * (1 + c)] H) as (xs & E & L).
  { constructor; [lra|]. constructor; [lra|]. constructor. }
  destruct xs as [|lo [|hi [|]]]; try discriminate.
  assert (G : exists F0, d_cdf (r_dist r) [] 0 = Ok F0).
  { destruct H as (_ & _ & [-> | [-> | ->]]); cbn [d_cdf uniform cauchy norm loc_scale];
      destruct (Rlt_dec 0 1); try lra; eauto. }
  destruct G as (F0 & HF0).
  set (w1 := if Rbar_negative lo then [NegativeLowerLimit (100 * (1 - F0))] else []).
  set (w2 := if Rbar_is_inf hi then [InfiniteUpperLimit] else []).
  exists (w1 ++ w2)%list, lo, hi, F0. split; [exact E|]. split.
  { unfold coverage_interval. rewrite E, HF0. unfold w1, w2. destruct (Rbar_negative lo); reflexivity. }
  split; [exact HF0|].
  assert (N : Rbar_negative lo = true <-> Rbar_lt lo 0).
  { destruct lo as [x| |]; cbn; [destruct (Rlt_dec x 0)|..]; split; intros; try easy; congruence. }
  split; [|split; [|split]].
  - intros p. rewrite in_app_iff. unfold w1, w2. rewrite <- N.
    split.
    + intros [K|K].
      * destruct (Rbar_negative lo); [|destruct K]. destruct K as [K|[]]. injection K as <-. auto.
      * destruct (Rbar_is_inf hi); [|destruct K]. destruct K as [K|[]]. discriminate.
    + intros [-> ->]. left. now left.
  - rewrite in_app_iff. unfold w1, w2. split.
    + intros [K|K].
      * destruct (Rbar_negative lo); [|destruct K]. destruct K as [K|[]]. discriminate.
      * destruct hi; cbn in K; try destruct K; auto.
    + intros [-> | ->]; right; now left.
  - rewrite in_app_iff. unfold w1, w2. intros [K|K].
    + destruct (Rbar_negative lo); [|destruct K]. destruct K as [K|[]]. discriminate.
    + destruct (Rbar_is_inf hi); [|destruct K]. destruct K as [K|[]]. discriminate.
  - unfold w1, w2. destruct (Rbar_negative lo), (Rbar_is_inf hi); repeat constructor; cbn; intuition discriminate.
Qed.

Lemma bw_scipy k i m fin r w : BreitWigner k i m fin = Ok r -> width m = Ok w -> 0 < w ->
  scipy_model r (r_energy r) (1 / 2 * w) /\ r_dist r = cauchy.
Proof.
  intros H W Hw. destruct (breit_wigner_inv _ _ _ _ _ H) as (r0 & w' & _ & W' & ->).
  rewrite W in W'. injection W' as <-. cbn. split; [|reflexivity].
  split; [lra|]. cbn. auto.
Qed.
Lemma gauss_scipy k i m amu T fin r : constants_ok k -> 0 < amu -> 0 < T ->
  Gauss k i m amu T fin = Ok r -> 0 < r_energy r -> exists d,
  get_doppler_width k {| mb_amu := amu; mb_effective_temperature := T |} (r_energy r) = Ok d /\
  scipy_model r (r_energy r) (d / sqrt 2) /\ r_dist r = norm.
Proof.
  intros K Ha HT H HE. destruct (gauss_inv _ _ _ _ _ _ _ H) as (r0 & d & _ & Hd & ->). cbn in *.
  exists d. split; [exact Hd|]. split; [|reflexivity].
  split; [apply scale_pos; eapply (doppler_pos k amu T); eassumption|]. cbn. auto.
Qed.
Lemma box_scipy k i m fin rec r : Resonance k i m fin rec = Ok r ->
  scipy_model r (r_energy r - 1 / 2) 1 /\ r_dist r = uniform.
Proof.
  intros H. destruct (resonance_inv _ _ _ _ _ _ H) as (E_r & pw & w & g0 & b0 & HE & NE & NJ & Dm & G0 & B0 & HR).
  destruct HR as (_ & _ & _ & -> & _ & _ & _ & _ & D1 & D2). split; [|exact D1]. split; [lra|]. auto.
Qed.

(** Default CDF at zero, as used in the warning. *)
Lemma cauchy_default : d_cdf cauchy [] 0 = Ok (1 / 2).
Proof.
  cbn [d_cdf cauchy loc_scale]. destruct (Rlt_dec 0 1); [|lra]. f_equal. unfold cauchy_cdf.
  replace ((0 - 0) / 1) with 0 by field. rewrite atan_0. unfold Rdiv. ring.
Qed.
Lemma norm_default : d_cdf norm [] 0 = Ok (1 / 2).
Proof.
  cbn [d_cdf norm loc_scale]. destruct (Rlt_dec 0 1); [|lra]. f_equal. apply norm_median.
Qed.
Lemma uniform_default : d_cdf uniform [] 0 = Ok 0.
Proof.
  cbn [d_cdf uniform loc_scale]. destruct (Rlt_dec 0 1); [|lra]. f_equal. unfold uniform_cdf.
  destruct (Rle_dec 0 0); [reflexivity|lra].
Qed.

(** ** Relative and absolute energies *)
Lemma relative_energy r E : res_call r E false = res_call r (E + r_energy r) true.
Proof. reflexivity. Qed.

(** ** Unimodal densities and Darboux sums *)
Lemma cauchy_unimodal l s : 0 < s -> unimodal l (cauchy_pdf l s).
Proof.
  intros Hs.
  assert (K : forall a b, (a - l) ^ 2 <= (b - l) ^ 2 -> cauchy_pdf l s b <= cauchy_pdf l s a).
  { intros a b H. unfold cauchy_pdf. pose proof PI_RGT_0.
    assert (0 < PI * s) by now apply Rmult_lt_0_compat.
    assert (S : forall t, ((t - l) / s) ^ 2 = (t - l) ^ 2 * / (s ^ 2)) by (intros; field; lra).
    assert (0 < / s ^ 2) by (apply Rinv_0_lt_compat, pow_lt; lra).
    rewrite !S. apply Rinv_le_contravar.
    - apply Rmult_lt_0_compat; [assumption|]. pose proof (pow2_ge_0 (a - l)). nra.
    - apply Rmult_le_compat_l; [lra|]. apply Rplus_le_compat_l, Rmult_le_compat_r; lra. }
  split; intros a b H1 H2; apply K; nra.
Qed.
Lemma norm_unimodal l s : 0 < s -> unimodal l (norm_pdf l s).
Proof.
  intros Hs.
  assert (K : forall a b, (a - l) ^ 2 <= (b - l) ^ 2 -> norm_pdf l s b <= norm_pdf l s a).
  { intros a b H. unfold norm_pdf, gauss0. pose proof PI_RGT_0.
    assert (0 < / sqrt (2 * PI)) by (apply Rinv_0_lt_compat, sqrt_lt_R0; lra).
    assert (0 < / s) by now apply Rinv_0_lt_compat.
    assert (S : forall t, ((t - l) / s) ^ 2 = (t - l) ^ 2 * / (s ^ 2)) by (intros; field; lra).
    assert (0 < / s ^ 2) by (apply Rinv_0_lt_compat, pow_lt; lra).
    rewrite !S. apply Rmult_le_compat_r; [lra|]. apply Rmult_le_compat_r; [lra|].
    destruct (Rle_lt_or_eq_dec _ _ H) as [L|E]; [|rewrite E; lra].
    left. apply exp_increasing. nra. }
  split; intros a b H1 H2; apply K; nra.
Qed.
Lemma unimodal_scal l f c : 0 <= c -> unimodal l f -> unimodal l (fun x => c * f x).
Proof. intros Hc [U V]; split; intros a b H1 H2; apply Rmult_le_compat_l; auto. Qed.
Lemma unimodal_mono_left m f a b : unimodal m f -> b <= m -> monotone_on f a b.
Proof. intros [U _] H. left. intros s t ? ? ?. apply U; lra. Qed.
Lemma unimodal_mono_right m f a b : unimodal m f -> m <= a -> monotone_on f a b.
Proof. intros [_ V] H. right. intros s t ? ? ?. apply V; lra. Qed.

Lemma unimodal_lower m f x : unimodal m f -> x <> [] -> ascending x -> ex_RInt f (first x) (final x) ->
  lower f x <= RInt f (first x) (final x).
Proof.
  intros U. induction x as [|a x IH]; intros N A E; [congruence|].
  destruct x as [|b x].
  - unfold lower, first, final; simpl. rewrite RInt_point_R. lra.
  - assert (A' : ascending (b :: x)) by (inversion A; auto).
    assert (Hab : a <= b) by (apply (ascending_cells _ a b A); left; auto).
    pose proof (ascending_first_final _ _ A') as Hbf.
    unfold first in *. simpl hd in *. change (final (a :: b :: x)) with (final (b :: x)) in *.
    assert (E1 : ex_RInt f a b) by (apply ex_RInt_left with (final (b :: x)); auto).
    assert (E2 : ex_RInt f b (final (b :: x))) by (apply ex_RInt_right with a; auto).
    rewrite <- (RInt_join f a b (final (b :: x))) by auto.
    assert (K : Rmin (f a) (f b) * (b - a) <= RInt f a b).
    { rewrite <- RInt_const_R. apply RInt_le; [assumption|apply ex_RInt_const|assumption|].
      intros t Ht. destruct U as [U V]. destruct (Rle_dec t m).
      - eapply Rle_trans; [apply Rmin_l|]. apply U; lra.
      - eapply Rle_trans; [apply Rmin_r|]. apply V; lra. }
    specialize (IH ltac:(discriminate) A' E2).
    unfold lower in *. rewrite cells_cons. simpl map. unfold Rsum in *. simpl. lra.
Qed.

Lemma strictly_ascending_ascending x : strictly_ascending x -> ascending x.
Proof.
  induction 1; constructor; [assumption|]. eapply List.Forall_impl; [|eassumption]. cbn; intros; lra.
Qed.

Lemma darboux_leaf r f x : x <> [] -> cross_section_is r f ->
  darboux (of_value (VLeaf (leaf_of r))) x = darboux (vectorized f) x.
Proof.
  intros N H. destruct (darboux_value (VLeaf (leaf_of r)) x N) as [_ K].
  { intros E _. exists (f E). apply H. }
  destruct (K eq_refl) as (g & Hg & ->). unfold darboux, vectorized. cbn [bind].
  replace (map g x) with (map f x); [reflexivity|]. apply map_ext_in. intros E HE.
  specialize (Hg E HE). cbn [call leaf_of l_call] in Hg. rewrite H in Hg. now injection Hg.
Qed.

Section Sums.
  Variable r : resonance.
  Variables f F : R -> R.
  Hypothesis H : has_density (r_dist r) (r_params r) f F.
  Hypothesis Q : exact_quantiles (r_dist r) (r_params r) F.
  Hypothesis M : F (r_energy r) = 1 / 2.
  Hypothesis U : unimodal (r_energy r) f.
  Hypothesis P : 0 <= r_integrated r.

  Lemma grid_darboux c n : 0 < c < 1 -> (2 <= n)%Z -> exists ws g L d,
    res_probability_grid r (Coverage c) n = (ws, Ok (Some (map Finite g))) /\
    darboux (of_value (VLeaf (leaf_of r))) g = Ok (L, d) /\
    L <= c * r_integrated r /\
    (Z.odd n = true -> c * r_integrated r <= L + d).
  Proof.
    intros Hc Hn. pose proof (proj1 H) as D.
    unfold res_probability_grid. cbn [bind]. rewrite (linspace_ok _ _ n Hn).
    destruct (Q _ (linspace_in (1 / 2 * (1 - c)) (1 / 2 * (1 + c)) n Hn ltac:(lra) ltac:(lra) ltac:(lra)))
      as (ws & xs & E & F2).
    rewrite E. destruct (quantiles_of f F D (1 / 2 * (1 - c)) (1 / 2 * (1 + c)) n xs Hn ltac:(lra) ltac:(lra) ltac:(lra) F2) as (x & -> & HF & H0 & H1).
    set (h := (1 / 2 * (1 + c) - 1 / 2 * (1 - c)) / IZR (n - 1)) in *.
    assert (Hn1 : 1 <= IZR (n - 1)) by (apply IZR_le; lia).
    assert (Hh : 0 < h) by (apply Rdiv_lt_0_compat; lra).
    assert (Hh1 : h * IZR (n - 1) = c) by (unfold h; field; lra).
    destruct (grid_spec f F D (r_integrated r) x _ h n Hn Hh HF) as (Len & Asc & Fi & La & _).
    set (g := map x (seq 0 (Z.to_nat n))) in *.
    apply strictly_ascending_ascending in Asc.
    assert (Ng : g <> []) by (intros K; rewrite K in Len; cbn in Len; lia).
    set (v := fun E => r_integrated r * f E).
    assert (EX : ex_RInt v (first g) (final g)) by (eexists; apply (res_integral r f F H)).
    assert (IV : RInt v (first g) (final g) = c * r_integrated r).
    { pose proof (is_RInt_unique (V := R_CompleteNormedModule) _ _ _ _ (res_integral r f F H (first g) (final g))) as K.
      unfold v. etransitivity; [exact K|]. rewrite Fi, La, H0, H1. eqR. field. }
    exists ws, g, (lower v g), (upper v g - lower v g). split; [unfold g; now rewrite map_map|]. split.
    { rewrite (darboux_leaf r v g Ng); [now apply darboux_ascending|]. apply (res_value r f F H). }
    split.
    { rewrite <- IV. apply (unimodal_lower (r_energy r)); try assumption. now apply unimodal_scal. }
    intros Hodd. rewrite <- IV. replace (lower v g + (upper v g - lower v g)) with (upper v g) by ring.
    apply enclosure; try assumption.
    intros a b Hin. unfold g in Hin. destruct (Z.to_nat n) as [|k] eqn:Ek; [lia|].
    rewrite cells_seq in Hin. apply in_map_iff in Hin. destruct Hin as (j & Ej & Hj). injection Ej as <- <-.
    apply in_seq in Hj.
    assert (exists i, n = 2 * Z.of_nat i + 1)%Z as (i & Hi).
    { exists (Z.to_nat (Z.div2 n)). rewrite Z2Nat.id by (apply Z.div2_nonneg; lia).
      rewrite (Z.div2_odd n) at 1. now rewrite Hodd. }
    assert (Hm : 1 / 2 * (1 - c) + INR i * h = 1 / 2).
    { rewrite INR_IZR_INZ. replace (IZR (n - 1)) with (2 * IZR (Z.of_nat i)) in Hh1.
      - lra.
      - rewrite <- mult_IZR. f_equal. lia. }
    destruct (le_lt_dec (S j) i) as [Hji|Hji].
    - apply (unimodal_mono_left (r_energy r)); [now apply unimodal_scal|].
      apply (dens_le_inv f F D). rewrite M, HF by lia. apply le_INR in Hji. nra.
    - apply (unimodal_mono_right (r_energy r)); [now apply unimodal_scal|].
      apply (dens_le_inv f F D). rewrite M, HF by lia.
      assert (INR i <= INR j) by (apply le_INR; lia). nra.
  Qed.
End Sums.
