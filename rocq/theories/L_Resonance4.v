(** Box-shaped default resonance, warnings, degenerate grids, Darboux sums on probability grids. *)
From Coq Require Import Reals List ZArith Lra Lia Sorted String.
From Coquelicot Require Import Coquelicot.
From Verif Require Import Py Spec M_Num M_Grid M_Constituents M_Thermal M_Dist M_Resonance M_CrossSection M_Darboux
  S_CrossSection S_Resonance L_RInt L_Grid L_Darboux L_Dist L_Resonance L_Resonance2 L_Resonance3.
Import ListNotations.
Open Scope R_scope.

(** ** Uniform distribution *)
Lemma is_RInt_zero a b : is_RInt (fun _ => 0) a b (0 : R).
Proof.
  assert (E : scal (b - a) (0 : R) = (0 : R)) by (unfold scal; cbn; unfold mult; cbn; ring).
  exact (eq_ind _ (fun v : R => is_RInt (fun _ => 0) a b v) (is_RInt_const (V := R_NormedModule) a b (0 : R)) _ E).
Qed.
Lemma uniform_from_left l s x : 0 < s -> is_RInt (uniform_pdf l s) l x (uniform_cdf l s x).
Proof.
  intros Hs. unfold uniform_cdf.
  assert (Low : forall x, x <= l -> is_RInt (uniform_pdf l s) l x 0).
  { intros y Hy.
    replace 0 with (opp (0 : R)) by (unfold opp; cbn; ring).
    apply (is_RInt_swap (V := R_NormedModule)).
    apply (is_RInt_ext (V := R_NormedModule) (fun _ => 0)).
    - intros t Ht. rewrite Rmin_left, Rmax_right in Ht by lra. unfold uniform_pdf. destruct (Rle_dec l t); lra.
    - apply (is_RInt_zero y l). }
  assert (Mid : forall x, l <= x <= l + s -> is_RInt (uniform_pdf l s) l x ((x - l) / s)).
  { intros y Hy. apply (is_RInt_ext (V := R_NormedModule) (fun _ => / s)).
    - intros t Ht. rewrite Rmin_left, Rmax_right in Ht by lra. unfold uniform_pdf.
      destruct (Rle_dec l t); [|lra]. destruct (Rle_dec t (l + s)); [reflexivity|lra].
    - apply (is_RInt_const (V := R_NormedModule) l y (/ s)). }
  destruct (Rle_dec x l) as [H|H]; [now apply Low|].
  destruct (Rle_dec (l + s) x) as [H2|H2]; [|apply Mid; lra].
  replace 1 with (plus (1 : R) 0) by (unfold plus; cbn; ring).
  apply (is_RInt_Chasles (V := R_NormedModule) (uniform_pdf l s) l (l + s) x).
  - replace 1 with ((l + s - l) / s) by (field; lra). apply Mid; lra.
  - apply (is_RInt_ext (V := R_NormedModule) (fun _ => 0)).
    + intros t Ht. rewrite Rmin_left, Rmax_right in Ht by lra. unfold uniform_pdf.
      destruct (Rle_dec l t); [|lra]. destruct (Rle_dec t (l + s)); lra.
    + apply (is_RInt_zero (l + s) x).
Qed.
Lemma uniform_is_RInt l s a b : 0 < s -> is_RInt (uniform_pdf l s) a b (uniform_cdf l s b - uniform_cdf l s a).
Proof.
  intros Hs. replace (uniform_cdf l s b - uniform_cdf l s a) with (plus (opp (uniform_cdf l s a)) (uniform_cdf l s b))
    by (unfold plus, opp; cbn; ring).
  apply (is_RInt_Chasles (V := R_NormedModule) _ a l b).
  - apply (is_RInt_swap (V := R_NormedModule)). now apply uniform_from_left.
  - now apply uniform_from_left.
Qed.
Lemma uniform_mono l s x y : 0 < s -> x <= y -> uniform_cdf l s x <= uniform_cdf l s y.
Proof.
  intros Hs H. unfold uniform_cdf. assert (0 < / s) by now apply Rinv_0_lt_compat.
  assert (B : forall z, l <= z <= l + s -> 0 <= (z - l) / s <= 1).
  { intros z Hz. split; [apply Rmult_le_pos; lra|].
    apply (Rmult_le_reg_r s); [assumption|]. unfold Rdiv. rewrite Rmult_assoc, Rinv_l by lra. lra. }
  destruct (Rle_dec x l), (Rle_dec y l), (Rle_dec (l + s) x), (Rle_dec (l + s) y); try lra;
    try (pose proof (B x ltac:(lra))); try (pose proof (B y ltac:(lra))); try lra.
  apply Rmult_le_compat_r; lra.
Qed.
Lemma uniform_lt_inv l s x y : 0 < s -> uniform_cdf l s x < uniform_cdf l s y -> x < y.
Proof.
  intros Hs H. destruct (Rlt_dec x y); [assumption|]. pose proof (uniform_mono l s y x Hs ltac:(lra)). lra.
Qed.
Lemma uniform_range l s x : 0 < s -> 0 <= uniform_cdf l s x <= 1.
Proof.
  intros Hs. split.
  - pose proof (uniform_mono l s (Rmin x l) x Hs (Rmin_l _ _)) as H. unfold uniform_cdf in H at 1.
    destruct (Rle_dec (Rmin x l) l); [exact H|]. pose proof (Rmin_r x l). lra.
  - pose proof (uniform_mono l s x (Rmax x (l + s)) Hs (Rmax_l _ _)) as H. unfold uniform_cdf in H at 2.
    pose proof (Rmax_r x (l + s)).
    destruct (Rle_dec (Rmax x (l + s)) l); [lra|]. destruct (Rle_dec (l + s) (Rmax x (l + s))); lra.
Qed.
Lemma uniform_cdf_ppf l s q : 0 < s -> 0 <= q <= 1 -> uniform_cdf l s (l + q * s) = q.
Proof.
  intros Hs Hq. unfold uniform_cdf. destruct (Rle_dec (l + q * s) l); [nra|].
  destruct (Rle_dec (l + s) (l + q * s)); [nra|]. field. lra.
Qed.

(** ** Grids from an integral that need not be strictly increasing *)
Lemma grid_spec_weak (f F : R -> R) c (x : nat -> R) p h n :
  (forall x y, F x < F y -> x < y) -> (forall a b, is_RInt f a b (F b - F a)) ->
  (2 <= n)%Z -> 0 < h -> (forall i, (i < Z.to_nat n)%nat -> F (x i) = p + INR i * h) ->
  equal_integral_grid (fun E => c * f E) (x 0%nat) (x (Z.to_nat n - 1)%nat) n (map x (seq 0 (Z.to_nat n))).
Proof.
  intros Inv Int Hn Hh HF. destruct (Z.to_nat n) as [|m] eqn:En; [lia|].
  split; [rewrite map_length, seq_length; lia|].
  split; [|split; [|split]].
  - apply ssorted_map_seq_lt. intros j k Hjk Hk. apply Inv.
    rewrite !HF by lia. apply Rplus_lt_compat_l, Rmult_lt_compat_r; [assumption|]. apply lt_INR; lia.
  - reflexivity.
  - unfold final. rewrite last_map_seq. f_equal. lia.
  - exists (c * h). rewrite cells_seq. apply List.Forall_forall. intros [a b] Hin.
    apply in_map_iff in Hin. destruct Hin as (j & E & Hj). injection E as <- <-. apply in_seq in Hj. cbn [fst snd].
    replace h with (F (x (S j)) - F (x j)) by (rewrite !HF by lia; rewrite S_INR; ring).
    apply (is_RInt_scal (V := R_NormedModule) f (x j) (x (S j)) c). apply Int.
Qed.

Lemma set_ends {A B} (y : nat -> A) n u v (k : list A -> out B) : (2 <= n)%nat ->
  bind (set_first (map y (seq 0 n)) u) (fun l => bind (set_last l v) k) =
  k (map (fun i => if Nat.eqb i 0 then u else if Nat.eqb i (n - 1) then v else y i) (seq 0 n)).
Proof.
  intros H. destruct n as [|[|n]]; try lia.
  set (x := fun i => if Nat.eqb i 0 then u else if Nat.eqb i (S (S n) - 1) then v else y i).
  change (seq 0 (S (S n))) with (0 :: seq 1 (S n))%nat. cbn [map set_first bind]. unfold set_last. cbn [bind]. f_equal.
  rewrite seq_S, !map_app. cbn [map].
  rewrite app_comm_cons, removelast_last.
  unfold x at 1. cbn [Nat.eqb]. cbn [app]. f_equal.
  f_equal.
  - apply map_ext_in. intros i Hi. apply in_seq in Hi. unfold x.
    destruct (Nat.eqb_spec i 0); [lia|]. destruct (Nat.eqb_spec i (S (S n) - 1)); [lia|reflexivity].
  - f_equal. unfold x. destruct (Nat.eqb_spec (1 + n) 0); [lia|].
    destruct (Nat.eqb_spec (1 + n) (S (S n) - 1)); [reflexivity|lia].
Qed.

(** Quantiles of a scipy distribution for an array of valid quantiles. *)
Lemma ppf_array_value ppf l s qs : 0 < s -> List.Forall (fun q => 0 <= q <= 1) qs ->
  ppf_array ppf [l; s] qs = ([], Ok (Some (map (ppf l s) qs))).
Proof.
  intros Hs Hq. unfold ppf_array. f_equal.
  replace (traverse _ qs) with (Ok (map (ppf l s) qs)); [reflexivity|].
  unfold traverse. induction Hq as [|q qs [H1 H2] Hq IH]; [reflexivity|].
  cbn [map sequence]. rewrite loc_scale_2 by assumption. destruct (Rle_dec 0 q); [|contradiction]. destruct (Rle_dec q 1); [|contradiction].
  cbn [bind]. rewrite <- IH. reflexivity.
Qed.

Section Box.
  Variable r : resonance.
  Variables l s : R.
  Hypothesis Hd : r_dist r = uniform.
  Hypothesis Hp : r_params r = [l; s].
  Hypothesis Hs : 0 < s.

  Lemma box_value : cross_section_is r (fun E => r_integrated r * uniform_pdf l s E).
  Proof. intros E. unfold res_call. rewrite Hd, Hp. cbn [d_pdf uniform]. now rewrite loc_scale_2. Qed.
  Lemma box_cdf x : d_cdf (r_dist r) (r_params r) x = Ok (uniform_cdf l s x).
  Proof. rewrite Hd, Hp. cbn [d_cdf uniform]. now rewrite loc_scale_2. Qed.
  Lemma box_ppf qs : List.Forall (fun q => 0 <= q <= 1) qs ->
    d_ppf (r_dist r) (r_params r) qs = ([], Ok (Some (map (fun q => Finite (l + q * s)) qs))).
  Proof. intros H. rewrite Hd, Hp. cbn [d_ppf uniform]. now apply (ppf_array_value uniform_ppf). Qed.

  Lemma box_grid_limits a b n : uniform_cdf l s a < uniform_cdf l s b -> (2 <= n)%Z -> exists g,
    res_probability_grid r (Limits a b) n = ([], Ok (Some (map Finite g))) /\
    equal_integral_grid (fun E => r_integrated r * uniform_pdf l s E) a b n g.
  Proof.
    intros Lt Hn. pose proof (uniform_range l s a Hs) as Ra. pose proof (uniform_range l s b Hs) as Rb.
    unfold res_probability_grid. rewrite !box_cdf. cbn [bind]. rewrite (linspace_ok _ _ n Hn).
    rewrite box_ppf by (apply linspace_in; lra || assumption). cbn [bind].
    rewrite map_map. rewrite set_ends by lia.
    set (h := (uniform_cdf l s b - uniform_cdf l s a) / IZR (n - 1)).
    assert (Hn1 : 1 <= IZR (n - 1)) by (apply IZR_le; lia).
    assert (Hh : 0 < h) by (apply Rdiv_lt_0_compat; lra).
    assert (Hh1 : h * IZR (n - 1) = uniform_cdf l s b - uniform_cdf l s a) by (unfold h; field; lra).
    set (x := fun i => if Nat.eqb i 0 then a else if Nat.eqb i (Z.to_nat n - 1) then b
                       else l + (uniform_cdf l s a + INR i * h) * s).
    exists (map x (seq 0 (Z.to_nat n))). split.
    - f_equal. f_equal. f_equal. rewrite map_map. apply map_ext. intros i. unfold x.
      destruct (Nat.eqb i 0); [reflexivity|]. destruct (Nat.eqb i (Z.to_nat n - 1)); reflexivity.
    - assert (G : equal_integral_grid (fun E => r_integrated r * uniform_pdf l s E)
                (x 0%nat) (x (Z.to_nat n - 1)%nat) n (map x (seq 0 (Z.to_nat n)))).
      { apply (grid_spec_weak (uniform_pdf l s) (uniform_cdf l s) (r_integrated r) x (uniform_cdf l s a) h n).
        - intros; now apply (uniform_lt_inv l s).
        - intros; now apply uniform_is_RInt.
        - assumption.
        - assumption.
        - intros i Hi. unfold x. destruct (Nat.eqb_spec i 0) as [->|N0]; [cbn; ring|].
          destruct (Nat.eqb_spec i (Z.to_nat n - 1)) as [->|N1].
          + rewrite INR_IZR_INZ. replace (Z.of_nat (Z.to_nat n - 1)) with (n - 1)%Z by lia. lra.
          + apply uniform_cdf_ppf; [assumption|]. pose proof (pos_INR i).
            assert (INR i <= IZR (n - 1)) by (rewrite INR_IZR_INZ; apply IZR_le; lia). nra. }
      unfold x in G at 1 2. cbn [Nat.eqb] in G. destruct (Nat.eqb_spec (Z.to_nat n - 1) 0); [lia|].
      rewrite Nat.eqb_refl in G. exact G.
  Qed.

  Lemma box_grid_coverage c n : 0 < c <= 1 -> (2 <= n)%Z -> exists g,
    res_probability_grid r (Coverage c) n = ([], Ok (Some (map Finite g))) /\
    equal_integral_grid (fun E => r_integrated r * uniform_pdf l s E)
      (l + 1 / 2 * (1 - c) * s) (l + 1 / 2 * (1 + c) * s) n g.
  Proof.
    intros Hc Hn. unfold res_probability_grid. cbn [bind]. rewrite (linspace_ok _ _ n Hn).
    rewrite box_ppf by (apply linspace_in; lra || assumption). rewrite map_map.
    set (p := 1 / 2 * (1 - c)). set (q := 1 / 2 * (1 + c)). set (h := (q - p) / IZR (n - 1)).
    assert (Hn1 : 1 <= IZR (n - 1)) by (apply IZR_le; lia).
    assert (Hpq : q - p = c) by (unfold p, q; field).
    assert (Hh : 0 < h) by (apply Rdiv_lt_0_compat; lra).
    assert (Hh1 : h * IZR (n - 1) = q - p) by (unfold h; field; lra).
    set (x := fun i => l + (p + INR i * h) * s).
    exists (map x (seq 0 (Z.to_nat n))). split; [now rewrite map_map|].
    replace (l + p * s) with (x 0%nat) by (unfold x; cbn; ring).
    replace (l + q * s) with (x (Z.to_nat n - 1)%nat).
    - apply (grid_spec_weak (uniform_pdf l s) (uniform_cdf l s) (r_integrated r) x p h n).
      + intros; now apply (uniform_lt_inv l s).
      + intros; now apply uniform_is_RInt.
      + assumption.
      + assumption.
      + intros i Hi. unfold x. apply uniform_cdf_ppf; [assumption|]. pose proof (pos_INR i).
        assert (INR i <= IZR (n - 1)) by (rewrite INR_IZR_INZ; apply IZR_le; lia).
        unfold p, q in *. nra.
    - unfold x. rewrite INR_IZR_INZ. replace (Z.of_nat (Z.to_nat n - 1)) with (n - 1)%Z by lia.
      replace (IZR (n - 1) * h) with (q - p) by lra. ring.
  Qed.

  Lemma box_covers c : r_energy r = l + s / 2 -> 0 <= c <= 1 -> covers r c.
  Proof.
    intros HE Hc. unfold covers, coverage_interval.
    rewrite box_ppf by (constructor; [lra|constructor; [lra|constructor]]). cbn [map].
    set (lo := l + 1 / 2 * (1 - c) * s). set (hi := l + 1 / 2 * (1 + c) * s).
    assert (B : lo <= r_energy r <= hi) by (unfold lo, hi; rewrite HE; nra).
    assert (HM : uniform_cdf l s (r_energy r) = 1 / 2).
    { rewrite HE. replace (l + s / 2) with (l + 1 / 2 * s) by field. apply uniform_cdf_ppf; lra. }
    assert (I1 : is_RInt (fun E => r_integrated r * uniform_pdf l s E) lo (r_energy r) (c / 2 * r_integrated r)).
    { replace (c / 2 * r_integrated r) with (r_integrated r * (uniform_cdf l s (r_energy r) - uniform_cdf l s lo)).
      - apply (is_RInt_scal (V := R_NormedModule) (uniform_pdf l s)). now apply uniform_is_RInt.
      - rewrite HM. unfold lo. rewrite uniform_cdf_ppf by lra. field. }
    assert (I2 : is_RInt (fun E => r_integrated r * uniform_pdf l s E) (r_energy r) hi (c / 2 * r_integrated r)).
    { replace (c / 2 * r_integrated r) with (r_integrated r * (uniform_cdf l s hi - uniform_cdf l s (r_energy r))).
      - apply (is_RInt_scal (V := R_NormedModule) (uniform_pdf l s)). now apply uniform_is_RInt.
      - rewrite HM. unfold hi. rewrite uniform_cdf_ppf by lra. field. }
    cbn [Rbar_is_inf Rbar_negative].
    rewrite Hd. cbn [d_cdf uniform]. cbn [loc_scale]. destruct (Rlt_dec 0 1); [|lra].
    destruct (Rlt_dec lo 0).
    - do 4 eexists. split; [reflexivity|]. split; [exact B|]. split; [apply box_value|]. split; eassumption.
    - do 4 eexists. split; [reflexivity|]. split; [exact B|]. split; [apply box_value|]. split; eassumption.
  Qed.

  Lemma box_symm : r_energy r = l + s / 2 -> symmetric_about (r_energy r) (fun E => r_integrated r * uniform_pdf l s E).
  Proof.
    intros HE d. f_equal. rewrite HE. unfold uniform_pdf.
    destruct (Rle_dec l (l + s / 2 - d)), (Rle_dec (l + s / 2 - d) (l + s)),
      (Rle_dec l (l + s / 2 + d)), (Rle_dec (l + s / 2 + d) (l + s)); lra.
  Qed.
End Box.
