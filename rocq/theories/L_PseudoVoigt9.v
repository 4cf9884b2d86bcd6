(** Grids of narrow lines. *)
From Coq Require Import Reals List ZArith Lra Lia Sorted String.
From Coquelicot Require Import Coquelicot.
From Verif Require Import Py Spec M_Num M_Grid M_Constituents M_Thermal M_Dist M_Resonance M_PseudoVoigt
  S_Resonance S_PseudoVoigt L_RInt L_Grid L_Darboux L_Dist L_Resonance L_Resonance2 L_Resonance3 L_Resonance4 L_Resonance5 L_Resonance6 L_Newton
  L_PseudoVoigt L_PseudoVoigt2 L_PseudoVoigt3 L_PseudoVoigt4 L_PseudoVoigt5 L_PseudoVoigt6 L_PseudoVoigt8.
Import ListNotations.
Open Scope R_scope.

Section Res.
  Variables (r : resonance) (p : pv) (modern : bool).
  Hypothesis V : pv_valid p.
  Hypothesis HE : pv_energy p = r_energy r.
  Hypothesis HP : r_params r = [].
  Hypothesis Hppf : forall qs, d_ppf (r_dist r) [] qs = pv_ppf modern p qs.
  Hypothesis Hcdf : forall x, d_cdf (r_dist r) [] x = Ok (pvF p x).
  Let F := pvF p.
  Let D := pv_density p V.

  (** Limits anywhere, cells that are not too small. *)
  Lemma pv_grid_limits_any a b n ws g : a < b -> (2 <= n)%Z -> accuracy p < (F b - F a) / IZR (n - 1) ->
    res_probability_grid r (Limits a b) n = (ws, Ok (Some g)) -> inverted ws ->
    exists xs, g = map Finite xs /\ Z.of_nat (List.length xs) = n /\ first xs = a /\ final xs = b /\
      almost_equal_grid (r_integrated r) (fun E => r_integrated r * pvf p E) ((F b - F a) / IZR (n - 1)) (2 * accuracy p) xs.
  Proof.
    intros Hab Hn HA E I. unfold res_probability_grid in E. rewrite HP, !Hcdf in E. cbn [bind] in E.
    fold (F a) in E. fold (F b) in E. rewrite (linspace_ok _ _ n Hn) in E.
    pose proof (dens_incr _ _ D a b Hab) as Lt. fold F in Lt.
    rewrite Hppf in E. set (h := (F b - F a) / IZR (n - 1)) in *.
    destruct (pv_ppf modern p _) as [w res] eqn:EP. injection E as <- E.
    destruct res as [[l|]| |]; cbn [bind] in E; try discriminate.
    destruct (ppf_inverted p V _ _ _ _ EP I) as (rs & -> & -> & N & Sx).
    specialize (Sx (quantile_sorted (F a) h (Z.to_nat n) (step_pos (F a) (F b) n Hn Lt))).
    destruct (Forall2_seq _ _ _ _ _ N) as [Er K]. set (x := fun j => nth j rs 0) in *. cbn [Nat.add] in K.
    assert (n1 : 1 <= IZR (n - 1)) by (apply IZR_le; lia).
    rewrite Er, map_map in E. rewrite Er in Sx.
    rewrite (set_ends (fun i => Finite (x i)) (Z.to_nat n) (Finite a) (Finite b) (fun l => Ok (Some l))) in E by lia.
    injection E as <-.
    set (y := fun i => if Nat.eqb i 0 then a else if Nat.eqb i (Z.to_nat n - 1) then b else x i).
    assert (Elast : F a + INR (Z.to_nat n - 1) * h = F b).
    { unfold h. rewrite INR_IZR_INZ. replace (Z.of_nat (Z.to_nat n - 1)) with (n - 1)%Z by lia. field. lra. }
    pose proof (accuracy_pos p V) as AP.
    assert (X : forall j, (0 < j)%nat -> (j < Z.to_nat n - 1)%nat -> a < x j < b).
    { intros j J1 J2. assert (B : Rabs (F (x j) - (F a + INR j * h)) <= accuracy p) by exact (near_abs p V _ _ (K j ltac:(lia))).
      apply Rabs_le_between in B.
      assert (1 <= INR j) by (apply (le_INR 1); lia). assert (INR j + 1 <= INR (Z.to_nat n - 1)).
      { rewrite <- S_INR. apply le_INR. lia. }
      assert (h <= INR j * h) by nra. assert (INR j * h + h <= INR (Z.to_nat n - 1) * h) by nra.
      split; apply (dens_lt_inv _ _ D); fold F; lra. }
    pose proof (sa_nth x _ Sx) as S1.
    exists (map y (seq 0 (Z.to_nat n))). split.
    { rewrite map_map. apply map_ext. intros i. unfold y. destruct (Nat.eqb i 0); [reflexivity|]. destruct (Nat.eqb i _); reflexivity. }
    split; [rewrite map_length, seq_length; lia|].
    split; [destruct (Z.to_nat n) eqn:En; [lia|]; reflexivity|].
    split.
    { unfold final. destruct (Z.to_nat n) as [|k] eqn:En; [lia|]. rewrite last_map_seq. unfold y. cbn [Nat.add].
      destruct (Nat.eqb_spec k 0); [lia|]. destruct (Nat.eqb_spec k (S k - 1)); [reflexivity|lia]. }
    eapply (almost_cells r p V); [lia| |].
    - apply ssorted_map_seq_lt. intros j k Hjk Hk. unfold y.
      destruct (Nat.eqb_spec k 0); [lia|]. destruct (Nat.eqb_spec j 0) as [->|].
      + destruct (Nat.eqb_spec k (Z.to_nat n - 1)); [exact Hab|]. apply X; lia.
      + destruct (Nat.eqb_spec j (Z.to_nat n - 1)); [lia|].
        destruct (Nat.eqb_spec k (Z.to_nat n - 1)) as [->|]; [apply X; lia|apply S1; lia].
    - intros j Hj. unfold y.
      destruct (Nat.eqb_spec j 0) as [->|].
      { fold F. cbn [INR]. replace (F a - (F a + 0 * h)) with 0 by ring. rewrite Rabs_R0. lra. }
      destruct (Nat.eqb_spec j (Z.to_nat n - 1)) as [->|].
      { fold F. rewrite Elast, Rminus_eq_0, Rabs_R0. lra. }
      apply near_abs; [exact V|]. apply (K j Hj).
  Qed.
End Res.

Lemma pv_grids_any modern k i m amu T fin r w : PseudoVoigt modern k i m amu T fin = Ok r -> width m = Ok w ->
  pv_params k (r_energy r) w amu T -> exists p f F, PseudoVoigtDistribution k (r_energy r) w amu T = Ok p /\ cross_section_is r f /\
  (forall x y, is_RInt f x y (r_integrated r * (F y - F x))) /\
  (forall a b n ws g, a < b -> (2 <= n)%Z -> a <= r_energy r <= b \/ accuracy p < (F b - F a) / IZR (n - 1) ->
    res_probability_grid r (Limits a b) n = (ws, Ok (Some g)) -> inverted ws ->
    exists xs, g = map Finite xs /\ Z.of_nat (List.length xs) = n /\ first xs = a /\ final xs = b /\
      almost_equal_grid (r_integrated r) f ((F b - F a) / IZR (n - 1)) (2 * accuracy p) xs) /\
  (forall c n ws g, 0 < c <= 1 -> (2 <= n)%Z ->
    res_probability_grid r (Coverage c) n = (ws, Ok (Some g)) -> inverted ws ->
    exists xs, g = map Finite xs /\ Z.of_nat (List.length xs) = n /\ first xs <= r_energy r <= final xs /\
      almost_equal_grid (r_integrated r) f (c / IZR (n - 1)) (2 * accuracy p) xs).
Proof.
  intros H W P. destruct (pv_res_density _ _ _ _ _ _ _ _ _ H W P) as (p & EP & V & HE & HP & HDi & HV & HC).
  exists p, (fun E => r_integrated r * pvf p E), (pvF p). split; [exact EP|]. split; [exact HV|].
  assert (Hppf : forall qs, d_ppf (r_dist r) [] qs = pv_ppf modern p qs) by (intros; rewrite HDi; reflexivity).
  split.
  { intros x y. apply (is_RInt_scal (V := R_NormedModule) (pvf p) x y (r_integrated r)). apply (dens_is_RInt _ _ (pv_density p V)). }
  split.
  - intros a b n ws g Hab Hn [HEr|HA] EG I.
    + exact (pv_grid_limits r p modern V HE HP Hppf HC a b n ws g Hab HEr Hn EG I).
    + exact (pv_grid_limits_any r p modern V HP Hppf HC a b n ws g Hab Hn HA EG I).
  - intros c n ws g Hc Hn EG I.
    destruct (pv_grid_coverage r p modern V HP Hppf c n ws g Hc Hn EG I) as (xs & -> & L & A & N1 & N2).
    exists xs. split; [reflexivity|]. split; [exact L|]. split; [|exact A].
    split; [apply (near_left r p HE _ _ N1)|apply (near_right r p HE _ _ N2)]; lra.
Qed.

Lemma atan_lt_id x : 0 < x -> atan x < x.
Proof.
  intros H. pose proof (atan_le_id (x / 2) ltac:(lra)) as A.
  destruct (MVT_gen atan (x / 2) x (fun x => / (1 + x ^ 2))) as (t & Ht & Et).
  - intros y _. apply is_derive_Reals. apply derivable_pt_lim_atan.
  - intros y _. apply derivable_continuous_pt, derivable_pt_atan.
  - rewrite Rmin_left, Rmax_right in Ht by lra. assert (/ (1 + t ^ 2) < 1); [|nra]. rewrite <- Rinv_1. apply Rinv_lt_contravar; nra.
Qed.
(** ** Lines that are narrow compared to the tolerance *)
Section Cold.
  Variables (p : pv) (E s : R).
  Hypothesis V : pv_valid p.
  Hypothesis HE : pv_energy p = E.
  Hypothesis Hs : 0 < s.
  Hypothesis Hf : forall x, pvf p x = cauchy_pdf E s x.
  Hypothesis HF : forall x, pvF p x = cauchy_cdf E s x.
  Let one_step (q : R) : R := E + (q - 1 / 2) * (PI * s).

  Lemma one_step_lists qs : List.Forall (fun q => Rabs ((1 / 2 - q) * (PI * s)) < tol) qs ->
    let x := map (fun _ => E) qs in
    let fval := map2 Rminus (map (pvF p) x) qs in
    let fder := map (pvf p) x in
    let nz := map (fun x => negb (is_zero x)) fder in
    nz = map (fun _ => true) qs /\ map4 newton_step nz x fval fder = map one_step qs /\
    map4 step_fails nz (map (fun _ => true) x) fval fder = map (fun _ => false) qs.
  Proof.
    assert (Z' : is_zero (pvf p E) = false).
    { unfold is_zero. destruct (Req_EM_T _ 0) as [Z'|]; [pose proof (dens_pos _ _ (pv_density p V) E); lra|reflexivity]. }
    induction 1 as [|q qs B _ IH]; [repeat split|]. cbn zeta in IH |- *. destruct IH as (I1 & I2 & I3).
    cbn [map map2 map4]. rewrite Z'. cbn [negb newton_step step_fails]. rewrite I1, (ratio_start p E s Hs Hf HF). rewrite I1 in I2, I3. rewrite I2, I3.
    destruct (Rle_dec tol (Rabs ((1 / 2 - q) * (PI * s)))); [lra|]. split; [reflexivity|]. split; [|reflexivity].
    f_equal. unfold one_step. ring.
  Qed.
  Lemma any_map {A} (l : list A) : existsb (fun b => b) (map (fun _ => false) l) = false.
  Proof. induction l; cbn; auto. Qed.
  Lemma any_map2 {A} (l : list A) (g : bool -> bool -> bool) : g true false = false ->
    existsb (fun b => b) (map2 g (map (fun _ => true) l) (map (fun _ => false) l)) = false.
  Proof. intros H. induction l; cbn; [reflexivity|]. now rewrite H. Qed.
  Lemma all_map {A} (l : list A) : forallb (fun b => b) (map negb (map (fun _ => false) l)) = true.
  Proof. induction l; cbn; auto. Qed.
  Lemma narrow_list modern qs : (2 <= List.length qs)%nat -> (exists q, In q qs /\ q <> 1 / 2) ->
    List.Forall (fun q => Rabs ((1 / 2 - q) * (PI * s)) < tol) qs ->
    pv_ppf modern p qs = ([], Ok (Some (map Finite (map one_step qs)))).
  Proof.
    intros L (q0 & Iq & Nq) B. destruct (one_step_lists qs B) as (I1 & I2 & I3). unfold pv_ppf.
    destruct qs as [|q1 [|q2 l]]; cbn [List.length] in L; [lia|lia|]. cbv iota. set (qs := q1 :: q2 :: l) in *. clearbody qs. clear q1 q2 l L.
    rewrite (array_newton_pv p V). rewrite HE. unfold newton_array.
    assert (Emax : exists n, maxiter = S n) by (exists 49%nat; reflexivity). destruct Emax as [n Emax]. rewrite Emax. clear Emax. cbn [array_newton residual slope bind].
    assert (Z : forallb is_zero (map2 Rminus (map (pvF p) (map (fun _ => E) qs)) qs) = false).
    { clear - Iq Nq HF. induction qs as [|q qs IH]; [destruct Iq|]. cbn [map map2 forallb]. destruct Iq as [->|Iq].
      - unfold is_zero at 1. destruct (Req_EM_T _ 0) as [Z|]; [rewrite HF, cauchy_median in Z; lra|reflexivity].
      - rewrite IH by assumption. apply Bool.andb_false_r. }
    rewrite Z, I1. rewrite I1 in I2, I3. rewrite I2, I3.
    assert (T : existsb (fun b : bool => b) (map (fun _ : R => true) qs) = true) by (destruct qs; [destruct Iq|reflexivity]).
    rewrite T. cbn [negb]. rewrite any_map2 by reflexivity. cbn [negb bind]. rewrite any_map2 by reflexivity. rewrite any_map, all_map. reflexivity.
  Qed.
End Cold.

(** Every line at rest of at most 10 meV, limits above the energy by at least half the width: all grid
    points between the first and the last are below the lower limit. *)
Lemma narrow_grid_outside modern k i m amu fin r w a b n : PseudoVoigt modern k i m amu 0 fin = Ok r -> width m = Ok w ->
  pv_params k (r_energy r) w amu 0 -> w <= 1 / 10 ^ 8 -> r_energy r + w / 2 <= a < b -> (2 <= n)%Z ->
  exists xs, res_probability_grid r (Limits a b) n = ([], Ok (Some (map Finite (a :: xs ++ [b])))) /\
    Z.of_nat (List.length xs) = (n - 2)%Z /\ List.Forall (fun x => r_energy r < x < a) xs.
Proof.
  intros H W P Hw Hab Hn. destruct (pv_res_density _ _ _ _ _ _ _ _ _ H W P) as (p & EP & V & HE & HP & HDi & HV & HC).
  destruct (cold _ _ _ _ _ P EP) as (Pw & _ & _ & _ & _ & _ & _ & Hf & HF). pose proof PI_upper as PU. pose proof PI_lower as PL.
  set (E := r_energy r) in *. set (s := w / 4) in *. assert (Hs : 0 < s) by (unfold s; lra).
  pose proof (pv_density p V) as D.
  assert (M : pvF p E = 1 / 2) by (rewrite HF; apply cauchy_median).
  assert (La : 1 / 2 < pvF p a) by (rewrite <- M; apply (dens_incr _ _ D); unfold E in *; lra).
  assert (Lb : pvF p a < pvF p b) by (apply (dens_incr _ _ D); lra). pose proof (dens_le_1 _ _ D b) as L1.
  unfold res_probability_grid. rewrite HP, !HC. cbn [bind]. rewrite (linspace_ok _ _ n Hn).
  set (h := (pvF p b - pvF p a) / IZR (n - 1)). set (q := fun j => pvF p a + INR j * h).
  assert (n1 : 1 <= IZR (n - 1)) by (apply IZR_le; lia).
  assert (h0 : 0 <= h) by (unfold h; apply Rmult_le_pos; [lra|left; apply Rinv_0_lt_compat; lra]).
  assert (Elast : q (Z.to_nat n - 1)%nat = pvF p b).
  { unfold q, h. rewrite INR_IZR_INZ. replace (Z.of_nat (Z.to_nat n - 1)) with (n - 1)%Z by lia. field. lra. }
  assert (Q : forall j, (j < Z.to_nat n)%nat -> 1 / 2 < q j <= 1).
  { intros j Hj. assert (q j <= q (Z.to_nat n - 1)%nat).
    { unfold q. apply Rplus_le_compat_l, Rmult_le_compat_r; [assumption|]. apply le_INR. lia. }
    pose proof (pos_INR j). assert (0 <= INR j * h) by nra. unfold q in *. lra. }
  assert (X : forall j, (j < Z.to_nat n)%nat -> 0 < (q j - 1 / 2) * (PI * s) < w / 2 /\ (q j - 1 / 2) * (PI * s) < tol).
  { intros j Hj. pose proof (Q j Hj) as [Q1 Q2]. assert (B : 0 < PI * s <= 3.5 * s) by nra. assert (C : (q j - 1 / 2) * (PI * s) <= 1 / 2 * (3.5 * s)).
    { apply Rmult_le_compat; lra. }
    split; [split; [nra|unfold s in *; lra]|]. unfold tol, s in *. lra. }
  rewrite HDi. cbn [pv_distribution d_ppf].
  rewrite (narrow_list p E s V HE Hs Hf HF).
  2: rewrite map_length, seq_length; lia.
  2: { exists (q 0%nat). split; [|pose proof (Q 0%nat ltac:(lia)); lra]. apply (in_map q). apply in_seq. lia. }
  2: { apply List.Forall_forall. intros y Hy. apply in_map_iff in Hy. destruct Hy as (j & <- & Hj). apply in_seq in Hj.
       destruct (X j ltac:(lia)) as [X1 X2]. fold (q j). replace ((1 / 2 - q j) * (PI * s)) with (- ((q j - 1 / 2) * (PI * s))) by ring.
       rewrite Rabs_Ropp, Rabs_pos_eq by lra. exact X2. }
  rewrite !map_map. cbn [bind].
  assert (En : exists j, Z.to_nat n = S (S j)) by (exists (Z.to_nat n - 2)%nat; lia). destruct En as [j En]. rewrite En.
  exists (map (fun i => E + (q i - 1 / 2) * (PI * s)) (seq 1 j)). split; [|split].
  - rewrite (set_ends (fun i => Finite (E + (q i - 1 / 2) * (PI * s))) (S (S j)) (Finite a) (Finite b) (fun l => Ok (Some l))) by lia.
    f_equal. f_equal. f_equal. change (seq 0 (S (S j))) with (0 :: seq 1 (S j))%nat. cbn [map Nat.eqb]. f_equal.
    rewrite seq_S, !map_app. cbn [map]. f_equal.
    + rewrite map_map. apply map_ext_in. intros j' Hi. apply in_seq in Hi. destruct (Nat.eqb_spec j' 0); [lia|]. destruct (Nat.eqb_spec j' (S (S j) - 1)); [lia|reflexivity].
    + destruct (Nat.eqb_spec (1 + j) 0); [lia|]. destruct (Nat.eqb_spec (1 + j) (S (S j) - 1)); [reflexivity|lia].
  - rewrite map_length, seq_length. lia.
  - apply List.Forall_forall. intros y Hy. apply in_map_iff in Hy. destruct Hy as (j' & <- & Hi). apply in_seq in Hi.
    destruct (X j' ltac:(lia)) as [X1 X2]. lra.
Qed.

(** All lines at rest of at most 10 meV cover less than two thirds, whatever the coverage. *)
Lemma narrow_coverage modern k i m amu fin r w c : PseudoVoigt modern k i m amu 0 fin = Ok r -> width m = Ok w ->
  pv_params k (r_energy r) w amu 0 -> w <= 1 / 10 ^ 8 -> 0 < c <= 1 ->
  exists ws a b f y, coverage_interval r c = (ws, Ok (Finite a, Finite b)) /\ inverted ws /\ cross_section_is r f /\
    integral_over_axis f (r_integrated r) /\ is_RInt f a b (r_integrated r * y) /\ y < 2 / 3 /\ y < c.
Proof.
  intros H W P Hw Hc. destruct (pv_res_density _ _ _ _ _ _ _ _ _ H W P) as (p & EP & V & HE & HP & HDi & HV & HC).
  destruct (cold _ _ _ _ _ P EP) as (Pw & _ & _ & _ & _ & _ & _ & Hf & HF). pose proof PI_upper as PU. pose proof PI_lower as PL.
  destruct (pv_symmetric _ _ _ _ _ _ _ _ _ H W P) as (f0 & CS & _ & IA).
  set (E := r_energy r) in *. set (s := w / 4) in *. assert (Hs : 0 < s) by (unfold s; lra).
  assert (B : 0 < PI * s <= 3.5 * s) by nra. set (d := c / 2 * (PI * s)).
  assert (Hd : 0 < d < tol).
  { unfold d. split; [apply Rmult_lt_0_compat; lra|]. apply Rle_lt_trans with (1 / 2 * (3.5 * s)); [apply Rmult_le_compat; lra|]. unfold s, tol. lra. }
  assert (EQ : pv_ppf modern p [1 / 2 * (1 - c); 1 / 2 * (1 + c)] = ([], Ok (Some [Finite (E - d); Finite (E + d)]))).
  { rewrite (narrow_array p E s V HE Hs Hf HF).
    - unfold d. do 3 f_equal. f_equal; [f_equal; field|]. f_equal. f_equal. field.
    - lra.
    - replace ((1 / 2 - 1 / 2 * (1 - c)) * (PI * s)) with d by (unfold d; field). rewrite Rabs_pos_eq; lra.
    - replace ((1 / 2 - 1 / 2 * (1 + c)) * (PI * s)) with (- d) by (unfold d; field). rewrite Rabs_Ropp, Rabs_pos_eq; lra. }
  assert (EC : exists ws, coverage_interval r c = (ws, Ok (Finite (E - d), Finite (E + d))) /\ inverted ws).
  { unfold coverage_interval. rewrite HP, HDi. cbn [pv_distribution d_ppf d_cdf no_params]. rewrite EQ. cbn [Rbar_is_inf Rbar_negative app].
    destruct (Rlt_dec (E - d) 0); [rewrite pv_cdf_ok by assumption|]; eexists; (split; [reflexivity|]); intros K; cbn in K; [destruct K as [K|[]]; discriminate|destruct K]. }
  destruct EC as (ws & EC & EI). exists ws, (E - d), (E + d), f0, (2 * (atan (PI * (c / 2)) / PI)).
  split; [exact EC|]. split; [exact EI|]. split; [exact CS|]. split; [exact IA|].
  assert (Ef : forall x, r_integrated r * pvf p x = f0 x).
  { intros x. pose proof (CS x) as C1. pose proof (HV x) as C2. congruence. }
  assert (S1 : pvF p (E + d) = 1 / 2 + atan (PI * (c / 2)) / PI).
  { replace (E + d) with (E + ((1 / 2 + c / 2) - 1 / 2) * (PI * s)) by (unfold d; ring). rewrite (narrow_cdf p E s Hs HF). do 3 f_equal. ring. }
  assert (S2 : pvF p (E - d) = 1 / 2 - atan (PI * (c / 2)) / PI).
  { replace (E - d) with (E + ((1 / 2 - c / 2) - 1 / 2) * (PI * s)) by (unfold d; ring). rewrite (narrow_cdf p E s Hs HF).
    replace (PI * (1 / 2 - c / 2 - 1 / 2)) with (- (PI * (c / 2))) by ring. rewrite atan_opp. unfold Rdiv. ring. }
  split.
  { replace (2 * (atan (PI * (c / 2)) / PI)) with (pvF p (E + d) - pvF p (E - d)) by (rewrite S1, S2; ring).
    eapply is_RInt_ext; [intros x _; apply Ef|]. apply (is_RInt_scal (V := R_NormedModule) (pvf p) (E - d) (E + d) (r_integrated r)). apply (dens_is_RInt _ _ (pv_density p V)). }
  split.
  - assert (atan (PI * (c / 2)) <= atan (PI / 2)).
    { destruct (Req_dec (PI * (c / 2)) (PI / 2)) as [->|N]; [lra|]. left. apply atan_increasing. nra. }
    pose proof atan_half_pi. assert (atan (PI * (c / 2)) / PI < 1 / 3); [|lra].
    apply (Rmult_lt_reg_r PI); [lra|]. unfold Rdiv at 1. rewrite Rmult_assoc, Rinv_l by lra. lra.
  - assert (atan (PI * (c / 2)) < PI * (c / 2)).
    { apply atan_lt_id. nra. }
    apply (Rmult_lt_reg_r PI); [lra|]. replace (2 * (atan (PI * (c / 2)) / PI) * PI) with (2 * atan (PI * (c / 2))) by (field; lra). lra.
Qed.
Lemma coverage_refuted : exists modern k i m amu T fin w r ws a b f y, PseudoVoigt modern k i m amu T fin = Ok r /\ width m = Ok w /\
  pv_params k (r_energy r) w amu T /\ 0 < r_integrated r /\ coverage_interval r (9 / 10) = (ws, Ok (Finite a, Finite b)) /\ inverted ws /\
  cross_section_is r f /\ integral_over_axis f (r_integrated r) /\ is_RInt f a b (r_integrated r * y) /\ y < 2 / 3.
Proof.
  destruct (pv_example true (1 / 10 ^ 9) 0 ltac:(lra) ltac:(lra)) as (r & E & W & HE & HI & P).
  destruct (narrow_coverage _ _ _ _ _ _ _ _ (9 / 10) E W P ltac:(lra) ltac:(lra)) as (ws & a & b & f & y & H1 & H2 & H3 & H4 & H5 & H6 & _).
  do 8 eexists. exists r, ws, a, b, f, y. split; [exact E|]. split; [exact W|]. repeat (split; [assumption|]). assumption.
Qed.
Lemma grid_refuted : exists modern k i m amu T fin w r a b x, PseudoVoigt modern k i m amu T fin = Ok r /\ width m = Ok w /\
  pv_params k (r_energy r) w amu T /\ 0 < r_integrated r /\ a < b /\
  res_probability_grid r (Limits a b) 3 = ([], Ok (Some [Finite a; Finite x; Finite b])) /\ x < a.
Proof.
  destruct (pv_example true (1 / 10 ^ 9) 0 ltac:(lra) ltac:(lra)) as (r & E & W & HE & HI & P).
  destruct (narrow_grid_outside _ _ _ _ _ _ _ _ (r_energy r + 1 / 10 ^ 9) (r_energy r + 2 / 10 ^ 9) 3 E W P ltac:(lra) ltac:(lra) ltac:(lia)) as (xs & EG & L & A).
  destruct xs as [|x [|? ?]]; cbn in L; try lia. inversion A as [|? ? Ax _]; subst.
  do 8 eexists. exists r. do 2 eexists. exists x. split; [exact E|]. split; [exact W|]. split; [exact P|]. split; [exact HI|]. split; [|split; [exact EG|apply Ax]]. lra.
Qed.
