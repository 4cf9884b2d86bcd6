(** Probability grids of the objects, with rounding. *)
From Coq Require Import Reals List ZArith Lra Lia Psatz Sorted.
From Coquelicot Require Import Rbar.
From Flocq Require Import Core.
From Verif Require Import Py Spec M_Num M_Constituents M_Thermal M_Dist M_Grid M_CrossSection M_Resonance S_Resonance M_Float S_Float M_Float4 S_Float4 M_Float6 S_Float6
  L_Dist L_Grid L_CrossSection2 L_Float L_Float2 L_Float3 L_Float5 L_Float7 L_Float9 L_Float11 L_Float20 L_Float21 L_Float22.
Import ListNotations.
Open Scope R_scope.
Open Scope py_scope.

Lemma fline_good k n l v V : double l -> (k <= 100)%nat -> (n <= 199)%nat -> double v -> good k n v V -> fline l v.
Proof.
  intros Dl Hk Hn Dv [(P & N1 & _) G]. split; [exact Dl|]. split; [exact Dv|]. pose proof (half_le_q k Hk) as Q. destruct (rng_weaken _ _ _ Hn G) as [G1 _].
  replace (2 ^ 200) with (2 * 2 ^ 199) by (symmetry; exact (eq_refl (2 * 2 ^ 199))). rewrite Rinv_mult. pose proof (ipow2_pos 199). nra.
Qed.
Lemma bw_object d c k i m fin : clib_ok c -> floats k i m fin ->
  let E_r := fsub (st_excitation_energy m) (st_excitation_energy i) in
  exists r s s', BreitWigner k i (with_energy m (st_excitation_energy i + E_r)) fin = Ok r /\ r_params r = [E_r; s] /\ 0 < s /\
    fline E_r s' /\ Rabs (s' - s) <= 2 * u * s /\
    forall arg n, fBreitWigner_grid d c k i m fin arg n = fprobability_grid d E_r s' arg n.
Proof.
  intros HC HF Er. destruct (fResonance_good c k i m fin HC HF) as (r & Ir & w & H1 & H2 & H3 & H4 & H5 & H6). destruct (Er_props k i m fin HF) as (DEr & _ & RE). fold Er in H1, H2, H3, DEr, RE.
  assert (GS : good 1 61 (fmul (1 / 2) w) (1 / 2 * w)).
  { apply (good_fmul 0 1 0 60); [lia|lia|apply good_exact; split; simpl; lra|]. apply good_exact. exact H5. }
  exists (with_dist r cauchy [Er; 1 / 2 * w]), (1 / 2 * w), (fmul (1 / 2) w).
  split. { unfold BreitWigner. rewrite H1. cbn [bind]. change (width (with_energy _ _)) with (width m). rewrite H4. cbn [bind]. now rewrite H3. }
  split; [reflexivity|]. split; [exact (rng_pos _ _ (proj2 GS))|]. split; [eapply (fline_good 1 61); [exact DEr|lia|lia|apply rnd_double|exact GS]|].
  split. { destruct GS as [N _]. apply near_bound in N; [|lia]. replace (INR 1 + 1) with 2 in N by (simpl; ring). exact N. }
  intros arg n. unfold fBreitWigner_grid. rewrite H2. cbn [bind]. rewrite H4. reflexivity.
Qed.
Lemma gauss_object d c k i m amu T fin : clib_ok c -> floats k i m fin -> thermal k amu T ->
  let E_r := fsub (st_excitation_energy m) (st_excitation_energy i) in
  exists r s s', Gauss k i (with_energy m (st_excitation_energy i + E_r)) amu T fin = Ok r /\ r_params r = [E_r; s] /\ 0 < s /\
    fline E_r s' /\ Rabs (s' - s) <= 8 * u * s /\
    forall arg n, fGauss_grid d c k i m amu T fin arg n = fprobability_grid d E_r s' arg n.
Proof.
  intros HC HF HT Er. destruct (fResonance_good c k i m fin HC HF) as (r & Ir & w & H1 & H2 & H3 & H4 & H5 & H6). destruct (Er_props k i m fin HF) as (DEr & _ & RE). fold Er in H1, H2, H3, DEr, RE.
  destruct (fdoppler_good k amu T Er HT RE) as (dw & dw' & D1 & D2 & D3).
  assert (GS : good 7 193 (fquo dw' (fsqrt 2)) (dw / sqrt 2)).
  { apply (goodb_fquo 5 192 1 1); [lia|lia|exact D3|]. apply (good_fsqrt 0 1); [lia|lia|]. apply good_exact. split; simpl; lra. }
  exists (with_dist r norm [Er; dw / sqrt 2]), (dw / sqrt 2), (fquo dw' (fsqrt 2)).
  split. { unfold Gauss. rewrite H1. cbn [bind]. rewrite H3, D1. reflexivity. }
  split; [reflexivity|]. split; [exact (rng_pos _ _ (proj2 GS))|]. split; [eapply (fline_good 7 193); [exact DEr|lia|lia|apply rnd_double|exact GS]|].
  split. { destruct GS as [N _]. apply near_bound in N; [|lia]. replace (INR 7 + 1) with 8 in N by (simpl; ring). exact N. }
  intros arg n. unfold fGauss_grid. rewrite H2. cbn [bind]. rewrite D2. reflexivity.
Qed.

(** ** A sum of two lines *)
Lemma sum_far d l s a b n v ss r g : fline l s -> (forall t, double t -> 9 <= t -> f_cdf0 d t = 1) -> double a -> double b ->
  l + 10 * s <= a -> l + 10 * s <= b -> (3 <= n)%Z -> pgrid v (Limits a b) n = Ok (Some g) ->
  pgrid (VSum [v; VLeaf (float_leaf d l s)] ss) (Limits a b) n = Ok r -> exists g', r = Some g' /\ In p_infty g'.
Proof.
  intros L Hd Da Db Ha Hb Hn Hv Hr. pose proof (far_grid d l s a b n L Hd Da Db Ha Hb ltac:(lia)) as F.
  rewrite (pgrid_sum_spec _ ss _ n [g; Finite a :: repeat p_infty (Z.to_nat (n - 2)) ++ [Finite b]]) in Hr.
  - eexists. split; [symmetry; apply (f_equal (fun o => match o with Ok x => x | _ => None end) Hr)|]. rewrite np_unique_in, in_concat. eexists. split; [right; left; reflexivity|]. right. apply in_app_iff. left.
    destruct (Z.to_nat (n - 2)) eqn:E; [lia|]. now left.
  - constructor; [exact Hv|]. constructor; [|constructor]. unfold delivers. cbn [pgrid float_leaf l_pgrid]. rewrite F. reflexivity.
Qed.

(** ** Examples *)
Lemma unit_line : fline 0 1.
Proof. split; [apply double_0|]. split; [apply double_1|]. assert (1 <= 2 ^ 200) by (apply pow_R1_Rle; lra). apply Rle_trans with (/ 1); [apply Rinv_le_contravar; lra|lra]. Qed.
Lemma example_cells : 2 * blur 0 1 < (line_cdf Cauchy 0 1 1 - line_cdf Cauchy 0 1 (-1)) / IZR (3 - 1).
Proof.
  unfold line_cdf, cauchy_cdf, blur. rewrite !unit_arg, Rabs_R0, atan_1. replace (-1) with (- (1)) by lra. rewrite atan_opp, atan_1. change unit_roundoff with u. rewrite u_num. pose proof PI_3. change (3 - 1)%Z with 2%Z.
  replace ((1 / 2 + PI / 4 / PI - (1 / 2 + - (PI / 4) / PI)) / 2) with (/ 4) by (field; lra). lra.
Qed.
Lemma far_refuted : exists d a b n g, fdist_ok Normal d /\ fline 0 1 /\ double a /\ double b /\ a < b /\ (2 <= n <= 2 ^ 50)%Z /\
  fprobability_grid d 0 1 (Limits a b) n = Ok g /\ In p_infty g.
Proof.
  exists (correct_fdist Normal), 10, 11, 3%Z. eexists. split; [apply correct_fdist_ok|]. split; [exact unit_line|]. split; [apply double_int; lia|]. split; [apply double_int; lia|]. split; [lra|]. split; [lia|].
  split; [apply far_grid; try lra; try lia; [exact unit_line|intros t _ H; now apply saturation|apply double_int; lia|apply double_int; lia]|]. right. now left.
Qed.
Lemma sum_refuted : exists d a b n ss g, fdist_ok Normal d /\ fline 0 1 /\ double a /\ double b /\ a < b /\ (2 <= n <= 2 ^ 50)%Z /\
  pgrid (VSum [VConst 1; VLeaf (float_leaf d 0 1)] ss) (Limits a b) n = Ok (Some g) /\ In p_infty g.
Proof.
  exists (correct_fdist Normal), 10, 11, 3%Z, [1; 1].
  assert (HV : exists g, pgrid (VConst 1) (Limits 10 11) 3 = Ok (Some g)) by (cbn [pgrid]; unfold constant_probability_grid; cbn; eexists; reflexivity). destruct HV as (g0 & HV).
  assert (D10 : double 10) by (apply double_int; lia). assert (D11 : double 11) by (apply double_int; lia).
  assert (S9 : forall t, double t -> 9 <= t -> f_cdf0 (correct_fdist Normal) t = 1) by (intros t _ H; now apply saturation).
  destruct (pgrid (VSum [VConst 1; VLeaf (float_leaf (correct_fdist Normal) 0 1)] [1; 1]) (Limits 10 11) 3) as [r| |e] eqn:E.
  - destruct (sum_far _ 0 1 10 11 3 (VConst 1) [1; 1] r g0 unit_line S9 D10 D11 ltac:(lra) ltac:(lra) ltac:(lia) HV E) as (g & -> & I1). exists g. split; [apply correct_fdist_ok|]. split; [exact unit_line|]. repeat (split; [first [assumption | lra | lia | reflexivity]|]). exact I1.
  - exfalso. rewrite (pgrid_sum_spec _ _ _ 3 [g0; Finite 10 :: repeat p_infty (Z.to_nat (3 - 2)) ++ [Finite 11]]) in E; [discriminate|]. constructor; [exact HV|]. constructor; [|constructor]. unfold delivers. cbn [pgrid float_leaf l_pgrid].
    rewrite (far_grid (correct_fdist Normal) 0 1 10 11 3 unit_line S9 D10 D11 ltac:(lra) ltac:(lra) ltac:(lia)). reflexivity.
  - exfalso. rewrite (pgrid_sum_spec _ _ _ 3 [g0; Finite 10 :: repeat p_infty (Z.to_nat (3 - 2)) ++ [Finite 11]]) in E; [discriminate|]. constructor; [exact HV|]. constructor; [|constructor]. unfold delivers. cbn [pgrid float_leaf l_pgrid].
    rewrite (far_grid (correct_fdist Normal) 0 1 10 11 3 unit_line S9 D10 D11 ltac:(lra) ltac:(lra) ltac:(lia)). reflexivity.
Qed.
Lemma coverage_refuted : exists d c, fdist_ok Cauchy d /\ fline 0 1 /\ double c /\ 0 <= c < 1 /\ exists lo, fcoverage_interval d 0 1 c = Ok (lo, p_infty).
Proof.
  exists (correct_fdist Cauchy), (1 - u). split; [apply correct_fdist_ok|]. split; [exact unit_line|]. destruct (infinite_interval (correct_fdist Cauchy) 0 1 ltac:(lra)) as (D & H & E). split; [exact D|]. pose proof u_tiny. split; [lra|exact E].
Qed.
