(** Darboux integrals of lines over their probability grids, with rounding. *)
From Coq Require Import Reals List ZArith Lra Lia Psatz Sorted.
From Coquelicot Require Import Coquelicot.
From Flocq Require Import Core.
From Verif Require Import Py Spec M_Num M_Grid M_CrossSection S_CrossSection M_Constituents M_Thermal M_Dist M_Darboux M_Resonance S_Resonance M_Float S_Float M_Float4 S_Float4 M_Float6 S_Float6 S_Float12
  L_CrossSection L_Grid L_CrossSection2 L_RInt L_Darboux L_Dist L_Resonance L_Resonance2 L_Resonance3 L_Resonance5 L_Float L_Float2 L_Float3 L_Float4 L_Float7 L_Float9 L_Float11 L_Float12 L_Float13 L_Float20 L_Float21 L_Float22 L_Float23 L_Float47 L_Coverage L_Gauss.
Import ListNotations.
Open Scope R_scope.
Open Scope list_scope.

Lemma fppf_double d l s q x : fppf d l s q = Ok (Finite x) -> double x.
Proof.
  unfold fppf. repeat match goal with |- context [if ?b then _ else _] => destruct b end; intros H; try discriminate. injection H as <-. apply rnd_double.
Qed.
Lemma traverse_double d l s qs : forall xs, traverse (fppf d l s) qs = Ok (map Finite xs) -> List.Forall double xs.
Proof.
  induction qs as [|q qs IH]; intros xs H; apply traverse_spec in H.
  - inversion H as [E|]. destruct xs; [constructor|discriminate].
  - inversion H as [|a b l1 l2 H1 H2 E1 E2]. destruct xs as [|x xs]; [discriminate|]. cbn [map] in E2. injection E2 as -> ->. constructor; [now apply fppf_double in H1|]. apply IH. now apply traverse_spec.
Qed.
Lemma grid_double d l s c n xs : fprobability_grid d l s (Coverage c) n = Ok (map Finite xs) -> List.Forall double xs.
Proof.
  unfold fprobability_grid. cbn [bind]. destruct (flinspace _ _ n) as [qs| |e]; cbn [bind]; [|discriminate|discriminate].
  destruct (traverse (fppf d l s) qs) as [g| |e] eqn:E; cbn [bind]; [|discriminate|discriminate]. intros H. injection H as ->. now apply traverse_double in E.
Qed.

Definition lpdf (f : family) (l s x : R) : R := match f with Cauchy => cauchy_pdf l s x | Normal => norm_pdf l s x end.
Lemma lpdf_0 f l s x : 0 < s -> lpdf f l s x = pdf0 f ((x - l) / s) / s.
Proof.
  intros Hs. destruct f; cbn [lpdf pdf0]; [|reflexivity]. unfold cauchy_pdf. pose proof PI_RGT_0. field. split; [nra|]. split; [|lra].
  pose proof (pow2_ge_0 (x - l)). pose proof (pow_lt s 2 Hs). nra.
Qed.
Lemma lpdf_unimodal f l s : 0 < s -> unimodal l (lpdf f l s).
Proof. intros Hs. destruct f; [now apply cauchy_unimodal|now apply norm_unimodal]. Qed.
Lemma lpdf_pos f l s x : 0 < s -> 0 < lpdf f l s x.
Proof. intros Hs. rewrite lpdf_0 by assumption. apply Rdiv_lt_0_compat; [apply (dens_pos _ _ (F0_density f))|assumption]. Qed.
Lemma blur_32 l s : 0 < s -> 32 * u <= blur l s.
Proof. intros H. unfold blur. change unit_roundoff with u. pose proof u_pos. assert (0 <= Rabs l / s) by (apply Rmult_le_pos; [apply Rabs_pos|left; now apply Rinv_0_lt_compat]). nra. Qed.
Lemma scale_cdf f l s s' x : 0 < s -> 0 < s' -> Rabs (s' - s) <= 8 * u * s -> Rabs (line_cdf f l s x - line_cdf f l s' x) <= 8 * u.
Proof.
  intros Hs Hs' H. rewrite !line_F0. replace ((x - l) / s) with ((x - l) / s' * (1 + (s' - s) / s)) by (field; lra). pose proof u_pos. pose proof u_tiny.
  assert (E : Rabs ((s' - s) / s) <= 8 * u). { unfold Rdiv. rewrite Rabs_mult, (Rabs_pos_eq (/ s)) by (left; now apply Rinv_0_lt_compat). apply (Rmult_le_reg_r s); [assumption|]. rewrite Rmult_assoc, Rinv_l by lra. lra. }
  eapply Rle_trans; [apply F0_rel; lra|exact E].
Qed.
Lemma middle_point n c : (2 <= n)%Z -> 
  (1 - c) / 2 + INR (Z.to_nat (n / 2)) * (((1 + c) / 2 - (1 - c) / 2) / IZR (n - 1)) = 1 / 2 + (if Z.odd n then 0 else c / (2 * IZR (n - 1))).
Proof.
  intros Hn. rewrite INR_IZR_INZ, Z2Nat.id by (apply Z.div_pos; lia). assert (H1 : 1 <= IZR (n - 1)) by (apply IZR_le; lia).
  pose proof (Z.div2_odd n) as E. rewrite Z.div2_div in E. destruct (Z.odd n); cbn [Z.b2z] in E.
  - assert (X : IZR (n - 1) = 2 * IZR (n / 2)) by (rewrite <- mult_IZR; f_equal; lia). rewrite X in *. field. lra.
  - assert (X : IZR (n / 2) = (IZR (n - 1) + 1) / 2). { replace (n - 1)%Z with (2 * (n / 2) - 1)%Z by lia. rewrite minus_IZR, mult_IZR. field. } rewrite X. field. lra.
Qed.

Lemma line_integral f d l s s' c n I delta : fdist_ok f d -> fline l s' -> 0 < s -> Rabs (s' - s) <= 8 * u * s -> double c -> 0 <= c <= 1 - 4 * u -> (3 <= n <= 2 ^ 50)%Z ->
  2 * blur l s' < c / IZR (n - 1) -> 7 * offset c n (2 * blur l s') < 1 -> 0 <= I -> 0 <= delta <= 1 ->
  exists xs, fprobability_grid d l s' (Coverage c) n = Ok (map Finite xs) /\ strictly_ascending xs /\ List.length xs = Z.to_nat n /\ List.Forall double xs /\
    (c <= 1 - 4 * blur l s' -> forall y, In y xs -> blur l s' <= line_cdf f l s' y <= 1 - blur l s') /\
    forall t g L D, order_of (Z.to_nat n - 1) t -> (forall z, In z xs -> Rabs (g z - I * lpdf f l s z) <= delta * (I * lpdf f l s z)) ->
      fdarboux t (map g xs) xs = (L, D) -> integral_between (depth_of t) (Z.to_nat n - 1) delta c (4 * blur l s') (offset c n (2 * blur l s')) I L D.
Proof.
  intros K Li Hs HS Dc Hc Hn HB HO HI Hd. destruct (coverage_grid_ok f d l s' c n K Li Dc Hc ltac:(lia) HB) as (lo & hi & xs & CI & G & Fi & La & Asc & Len & Eq).
  destruct (coverage_ok f d l s' c K Li Dc Hc) as (lo' & hi' & CI' & _ & _ & B1 & B2). rewrite CI in CI'. injection CI' as <- <-.
  assert (Hs' : 0 < s'). { destruct Li as (_ & _ & Hz). pose proof (Rinv_0_lt_compat (2 ^ 200) ltac:(apply pow_lt; lra)). lra. }
  pose proof (grid_double d l s' c n xs G) as Db. exists xs. split; [exact G|]. split; [exact Asc|]. split; [exact Len|]. split; [exact Db|].
  split.
  { intros C4 y Iy. destruct (In_nth xs y 0 Iy) as (j & Hj & <-). rewrite Len in Hj. pose proof (Eq j Hj) as E. assert (N1 : 0 < IZR (n - 1)) by (apply IZR_lt; lia).
    replace (((1 + c) / 2 - (1 - c) / 2) / IZR (n - 1)) with (c * / IZR (n - 1)) in E by (field; lra).
    assert (J : 0 <= INR j * / IZR (n - 1) <= 1). { split; [apply Rmult_le_pos; [apply pos_INR|left; now apply Rinv_0_lt_compat]|]. apply (Rmult_le_reg_r (IZR (n - 1))); [exact N1|]. rewrite Rmult_assoc, Rinv_l, Rmult_1_r, Rmult_1_l by lra. rewrite INR_IZR_INZ. apply IZR_le. lia. }
    replace (INR j * (c * / IZR (n - 1))) with (c * (INR j * / IZR (n - 1))) in E by ring. apply Rabs_le_inv in E. pose proof (blur_32 l s' Hs'). pose proof u_pos. nra. }
  intros t g L D Ot Hg HL. pose proof (blur_32 l s' Hs') as B32. pose proof u_pos as Pu. set (b := blur l s') in *.
  assert (Sc : forall x, Rabs (line_cdf f l s x - line_cdf f l s' x) <= b) by (intros x; pose proof (scale_cdf f l s s' x Hs Hs' HS); lra).
  pose proof (Sc lo) as S1. pose proof (Sc hi) as S2. apply Rabs_le_inv in S1, S2, B1, B2.
  set (v := fun x => I * lpdf f l s x) in *.
  assert (Ng : xs <> []) by (intros Z; rewrite Z in Len; cbn in Len; lia).
  assert (Gr : grid xs) by (split; [now apply strictly_ascending_ascending|exact Db]).
  assert (Dn : density_of (lpdf f l s) (line_cdf f l s)) by (destruct f; [exact (proj1 (cauchy_object l s Hs))|exact (proj1 (norm_object l s Hs))]).
  assert (Ri : is_RInt v lo hi (I * (line_cdf f l s hi - line_cdf f l s lo))).
  { apply (is_RInt_scal (V := R_NormedModule) (lpdf f l s) lo hi I). apply (dens_is_RInt _ _ Dn). }
  assert (EX : ex_RInt v (first xs) (final xs)) by (rewrite Fi, La; eexists; exact Ri).
  assert (IV : RInt v (first xs) (final xs) = I * (line_cdf f l s hi - line_cdf f l s lo)) by (rewrite Fi, La; exact (is_RInt_unique (V := R_CompleteNormedModule) _ _ _ _ Ri)).
  set (o := offset c n (2 * b)) in *. set (i := Z.to_nat (n / 2)). assert (Hi : (i < Z.to_nat n)%nat). { unfold i. apply Z2Nat.inj_lt; [apply Z.div_pos; lia|lia|apply Z.div_lt; lia]. }
  assert (Yi : In (nth i xs 0) xs) by (apply nth_In; lia). set (y := nth i xs 0) in *.
  assert (HY : Rabs (line_cdf f l s y - 1 / 2) <= o).
  { pose proof (Eq i Hi) as E. fold y in E. unfold i in E. rewrite (middle_point n c) in E by lia. pose proof (Sc y) as S3. unfold o, offset. apply Rabs_le_inv in E, S3. apply Rabs_le.
    assert (0 <= if Z.odd n then 0 else c / (2 * IZR (n - 1))). { destruct (Z.odd n); [lra|]. apply Rmult_le_pos; [lra|]. left. apply Rinv_0_lt_compat. assert (1 <= IZR (n - 1)) by (apply IZR_le; lia). lra. } lra. }
  assert (Hm : v l <= (1 + 49 * o ^ 2) * v y).
  { unfold v. replace ((1 + 49 * o ^ 2) * (I * lpdf f l s y)) with (I * ((1 + 49 * o ^ 2) * lpdf f l s y)) by ring. apply Rmult_le_compat_l; [exact HI|]. rewrite !lpdf_0 by assumption.
    replace ((l - l) / s) with 0 by (field; lra). unfold Rdiv. rewrite <- Rmult_assoc. apply Rmult_le_compat_r; [left; now apply Rinv_0_lt_compat|]. rewrite line_F0 in HY. now apply pdf0_near. }
  destruct (fdarboux_unimodal t l v g xs delta (49 * o ^ 2) y L D Gr Ng ltac:(rewrite Len; exact Ot) Hd Hg) as [R1 R2].
  - apply unimodal_scal; [exact HI|]. now apply lpdf_unimodal.
  - intros z. apply Rmult_le_pos; [exact HI|]. left. now apply lpdf_pos.
  - exact EX.
  - pose proof (pow2_ge_0 o). lra.
  - exact Yi.
  - exact Hm.
  - exact HL.
  - rewrite Len, IV in R1, R2. unfold integral_between. set (e := relative_loss _ _) in *. set (al := absolute_loss _ _) in *.
    assert (Ee : 0 <= e). { unfold e, relative_loss. change unit_roundoff with u. pose proof (pow_ge_1 (depth_of t + 2)). nra. }
    set (J := line_cdf f l s hi - line_cdf f l s lo) in *. assert (J1 : J <= c + 4 * b) by (unfold J; lra). assert (J2 : c - 4 * b <= J) by (unfold J; lra).
    split.
    + eapply Rle_trans; [exact R1|]. apply Rplus_le_compat_r. apply Rmult_le_compat_l; [lra|]. rewrite (Rmult_comm I). now apply Rmult_le_compat_r.
    + destruct (Rle_dec e 1) as [H1|H1].
      * eapply Rle_trans; [|exact R2]. apply Rmult_le_compat_l; [lra|]. rewrite (Rmult_comm I). now apply Rmult_le_compat_r.
      * assert (X0 : 0 <= c - 4 * b). { assert (2 <= IZR (n - 1)) by (apply IZR_le; lia). assert (c / IZR (n - 1) * 2 <= c); [|lra]. apply (Rmult_le_reg_r (IZR (n - 1))); [lra|]. replace (c / IZR (n - 1) * 2 * IZR (n - 1)) with (c * 2) by (field; lra). nra. }
        assert (L0 : 0 <= L). { change L with (fst (L, D)). rewrite <- HL. apply fdarboux_nonneg; [exact Gr|]. apply List.Forall_forall. intros z Iz. apply in_map_iff in Iz. destruct Iz as (z' & <- & Iz). pose proof (Hg z' Iz) as Z. apply Rabs_le_inv in Z.
          assert (0 <= I * lpdf f l s z') by (apply Rmult_le_pos; [exact HI|left; now apply lpdf_pos]). nra. }
        assert (D0 : 0 <= D). { change D with (snd (L, D)). rewrite <- HL. unfold fdarboux. cbn [snd]. apply Rabs_pos. }
        assert (A0 : 0 <= al). { pose proof (rounding_bound_nonneg (depth_of t) (Z.to_nat n - 1) delta 0 (proj1 Hd) (Rle_refl 0)) as Z. rewrite loss_split in Z. fold al in Z. lra. }
        apply Rle_trans with 0; [assert (0 <= (c - 4 * b) * I) by (now apply Rmult_le_pos); nra|]. pose proof (pow2_ge_0 o). change unit_roundoff with u. apply Rmult_le_pos; [lra|]. nra.
Qed.

Lemma lookup_values {B} (call : R -> out B) (z : B) xs : (forall y, In y xs -> exists v, call y = Ok v) ->
  let g := fun y => match call y with Ok v => v | _ => z end in Forall2 (fun y v => call y = Ok v) xs (map g xs).
Proof.
  intros H g. induction xs as [|x xs IH]; [constructor|]. cbn [map]. constructor; [|apply IH; intros; apply H; now right].
  unfold g. destruct (H x ltac:(now left)) as (v & ->). reflexivity.
Qed.
Lemma values_unique {B} (call : R -> out B) xs : forall vs vs', Forall2 (fun y v => call y = Ok v) xs vs -> Forall2 (fun y v => call y = Ok v) xs vs' -> vs = vs'.
Proof.
  intros vs vs' F. revert vs'. induction F as [|y v xs vs E F IH]; intros vs' F'; inversion F' as [|? v' ? l E' F'']; subst; [reflexivity|]. rewrite E in E'. injection E' as <-. now rewrite (IH _ F'').
Qed.

(** ** How far the points can be *)
Lemma F0_sym f t : F0 f (- t) = 1 - F0 f t.
Proof.
  unfold F0. destruct f; cbn [line_cdf]; [pose proof (symm_cdf _ _ 0 t (proj1 (cauchy_object 0 1 Rlt_0_1)) (cauchy_symm 0 1) (cauchy_median 0 1)) as E|pose proof (symm_cdf _ _ 0 t (proj1 (norm_object 0 1 Rlt_0_1)) (norm_symm 0 1) (norm_median 0 1)) as E];
  rewrite Rplus_0_l, Rminus_0_l in E; lra.
Qed.
Lemma F0_abs f t q : q <= F0 f t <= 1 - q -> F0 f (Rabs t) <= 1 - q.
Proof. intros H. unfold Rabs. destruct (Rcase_abs t); [rewrite F0_sym; lra|lra]. Qed.
Lemma atan_le_id z : 0 < z -> atan z <= z.
Proof.
  intros Z. destruct (MVT_gen atan 0 z (fun t => / (1 + t ^ 2))) as (c & B & E).
  - intros x _. auto_derive; [exact I|]. field. pose proof (pow2_ge_0 x). nra.
  - intros x _. apply derivable_continuous_pt, derivable_pt_atan.
  - rewrite atan_0, !Rminus_0_r in E. rewrite E. assert (/ (1 + c ^ 2) <= 1). { rewrite <- Rinv_1 at 2. apply Rinv_le_contravar; [lra|]. pose proof (pow2_ge_0 c). lra. } nra.
Qed.
Lemma cauchy_far t q : 0 < q -> q <= F0 Cauchy t <= 1 - q -> Rabs t * (3 * q) <= 1.
Proof.
  intros Q H. apply F0_abs in H. set (z := Rabs t) in *. assert (Z : 0 <= z) by apply Rabs_pos. destruct (Req_dec z 0) as [->|N]; [lra|].
  unfold F0, line_cdf, cauchy_cdf in H. rewrite unit_arg in H. pose proof PI_3 as P3. assert (A : atan z = PI / 2 - atan (/ z)) by (rewrite atan_inv by lra; lra).
  assert (A2 : atan (/ z) <= / z). { assert (0 < / z) by (apply Rinv_0_lt_compat; lra). now apply atan_le_id. }
  rewrite A in H. replace ((PI / 2 - atan (/ z)) / PI) with (/ 2 - atan (/ z) / PI) in H by (field; lra).
  assert (q * PI <= atan (/ z)). { apply (Rmult_le_reg_r (/ PI)); [apply Rinv_0_lt_compat; lra|]. rewrite Rmult_assoc, Rinv_r by lra. unfold Rdiv in H. lra. }
  assert (3 * q <= / z) by nra. apply (Rmult_le_compat_l z) in H1; [|lra]. rewrite Rinv_r in H1 by lra. lra.
Qed.
Lemma normal_far t : 32 * u <= F0 Normal t <= 1 - 32 * u -> Rabs t <= 9.
Proof.
  intros H. apply F0_abs in H. destruct (Rle_dec (Rabs t) 9) as [|N]; [assumption|exfalso]. pose proof (normal_tail (Rabs t) ltac:(lra)) as T. pose proof exp_40 as E.
  assert (X : e2 (Rabs t) <= / exp 40). { unfold e2. rewrite <- exp_Ropp. left. apply exp_increasing. nra. }
  assert (Y : / exp 40 <= / 36028797018963968) by (apply Rinv_le_contravar; lra). rewrite u_num in H. lra.
Qed.

(** ** Objects *)
Lemma fline_pos l s : fline l s -> 0 < s.
Proof. intros (_ & _ & Hz). pose proof (Rinv_0_lt_compat (2 ^ 200) ltac:(apply pow_lt; lra)). lra. Qed.
Lemma Rabs_quo x s : 0 < s -> Rabs (x / s) * s = Rabs x.
Proof. intros H. unfold Rdiv. rewrite Rabs_mult, (Rabs_pos_eq (/ s)) by (left; now apply Rinv_0_lt_compat). field. lra. Qed.
Lemma bw_far l s y : fline l s -> blur l s <= line_cdf Cauchy l s y <= 1 - blur l s -> Rabs (y - l) * (3 * blur l s) <= s.
Proof.
  intros Fl H. pose proof (fline_pos l s Fl) as Ps. pose proof (blur_32 l s Ps). pose proof u_pos. rewrite line_F0 in H. pose proof (cauchy_far ((y - l) / s) (blur l s) ltac:(lra) H) as C. rewrite <- (Rabs_quo (y - l) s Ps). replace (Rabs ((y - l) / s) * s * (3 * blur l s)) with (Rabs ((y - l) / s) * (3 * blur l s) * s) by ring. apply (Rmult_le_compat_r s) in C; lra.
Qed.
Lemma gauss_far l g s y : fline l s -> 0 < g -> Rabs (s - g) <= 8 * u * g -> blur l s <= line_cdf Normal l s y <= 1 - blur l s -> Rabs (y - l) <= 10 * g.
Proof.
  intros Fl Pg Hg H. pose proof (fline_pos l s Fl) as Ps. pose proof (blur_32 l s Ps). pose proof u_pos. pose proof u_tiny. rewrite line_F0 in H. assert (C : Rabs ((y - l) / s) <= 9) by (apply normal_far; lra). rewrite <- (Rabs_quo (y - l) s Ps).
  apply Rabs_le_inv in Hg. pose proof (Rabs_pos ((y - l) / s)). nra.
Qed.
Lemma bw_integral d c k i m fin : fdist_ok Cauchy d -> clib_ok c -> floats k i m fin ->
  let E_r := fsub (st_excitation_energy m) (st_excitation_energy i) in
  exists r g s, BreitWigner k i (with_energy m (st_excitation_energy i + E_r)) fin = Ok r /\ r_params r = [E_r; g] /\ 0 < g /\ Rabs (s - g) <= 2 * unit_roundoff * g /\ 0 < r_integrated r /\
  forall cov n, double cov -> 0 <= cov <= 1 - 4 * unit_roundoff -> (3 <= n <= 2 ^ 50)%Z ->
    2 * blur E_r s < cov / IZR (n - 1) -> 7 * offset cov n (2 * blur E_r s) < 1 ->
    exists xs, fBreitWigner_grid d c k i m fin (Coverage cov) n = Ok (map Finite xs) /\
      (cov <= 1 - 4 * blur E_r s -> forall y, In y xs -> Rabs (y - E_r) * (3 * blur E_r s) <= s) /\
      ((forall y, In y xs -> Rabs y <= 2 ^ 60) -> exists vs, Forall2 (fun y v => fBreitWigner_call c k i m fin y true = Ok v) xs vs /\
       forall t L D, order_of (Z.to_nat n - 1) t -> fdarboux t vs xs = (L, D) ->
         integral_between (depth_of t) (Z.to_nat n - 1) (32 * unit_roundoff) cov (4 * blur E_r s) (offset cov n (2 * blur E_r s)) (r_integrated r) L D).
Proof.
  intros HD HC HF Er. destruct (bw_object d c k i m fin HC HF) as (r & s & s' & Hr & Pr & Ps & Fl & Bs & Gd). fold Er in Hr, Pr, Fl, Gd. exists r, s, s'.
  destruct (fBreitWigner_good c k i m fin HC HF 0 true double_0 ltac:(rewrite Rabs_R0; apply pow_le; lra)) as (r0 & s0 & v0 & Hr0 & _ & C0 & _ & P0 & _).
  fold Er in Hr0. rewrite Hr in Hr0. injection Hr0 as <-.
  assert (X : exists w, width m = Ok w /\ r_dist r = cauchy).
  { unfold BreitWigner in Hr. destruct (Resonance _ _ _ _ _) as [q| |] in Hr; cbn [bind] in Hr; try discriminate. change (width (with_energy _ _)) with (width m) in Hr. destruct (width m) as [w| |]; cbn [bind] in Hr; try discriminate. injection Hr as <-. exists w. now split. }
  destruct X as (w & Hw & Hdist). pose proof (cauchy_object Er s Ps) as HO. rewrite <- Hdist, <- Pr in HO. pose proof (res_value r _ _ HO) as RV.
  assert (PI0 : 0 < r_integrated r). { rewrite (RV 0) in C0. injection C0 as <-. pose proof (lpdf_pos Cauchy Er s 0 Ps) as Z. cbn [lpdf] in Z. nra. }
  split; [exact Hr|]. split; [exact Pr|]. split; [exact Ps|]. split; [exact Bs|]. split; [exact PI0|]. intros cov n Dc Hc Hn HB HO'. change unit_roundoff with u in *. pose proof u_pos. pose proof u_tiny.
  destruct (line_integral Cauchy d Er s s' cov n (r_integrated r) (32 * u) HD Fl Ps ltac:(eapply Rle_trans; [exact Bs|nra]) Dc Hc Hn HB HO' ltac:(lra) ltac:(lra)) as (xs & G & _ & _ & Db & Far & Z).
  exists xs. split; [rewrite Gd; exact G|]. split; [intros C4 y Iy; now apply (bw_far _ _ _ Fl), Far|]. intros Hy. rewrite List.Forall_forall in Db.
  assert (Val : forall y, In y xs -> exists v, fBreitWigner_call c k i m fin y true = Ok v /\ Rabs (v - r_integrated r * lpdf Cauchy Er s y) <= 32 * u * (r_integrated r * lpdf Cauchy Er s y)).
  { intros y Iy. destruct (fBreitWigner_good c k i m fin HC HF y true (Db y Iy) (Hy y Iy)) as (r1 & s1 & v1 & Hr1 & _ & C1 & V1 & _ & B1). fold Er in Hr1, C1. rewrite Hr in Hr1. injection Hr1 as <-.
    rewrite RV in C1. injection C1 as <-. exists v1. split; [exact V1|exact B1]. }
  eexists. split; [apply (lookup_values (fun y => fBreitWigner_call c k i m fin y true) 0); intros y Iy; destruct (Val y Iy) as (v & E & _); now exists v|].
  intros t L D Ot HL. refine (Z t _ L D Ot _ HL). intros z Iz. cbv beta. destruct (Val z Iz) as (v & E & B). rewrite E. exact B.
Qed.
Lemma gauss_integral d c k i m amu T fin : fdist_ok Normal d -> clib_ok c -> floats k i m fin -> thermal k amu T ->
  let E_r := fsub (st_excitation_energy m) (st_excitation_energy i) in
  exists r sigma s, Gauss k i (with_energy m (st_excitation_energy i + E_r)) amu T fin = Ok r /\ r_params r = [E_r; sigma] /\ 0 < sigma /\ Rabs (s - sigma) <= 8 * unit_roundoff * sigma /\ 0 < r_integrated r /\
  forall cov n Y, double cov -> 0 <= cov <= 1 - 4 * unit_roundoff -> (3 <= n <= 2 ^ 50)%Z ->
    2 * blur E_r s < cov / IZR (n - 1) -> 7 * offset cov n (2 * blur E_r s) < 1 -> 0 <= Y <= 16 ->
    exists xs, fGauss_grid d c k i m amu T fin (Coverage cov) n = Ok (map Finite xs) /\
      (cov <= 1 - 4 * blur E_r s -> forall y, In y xs -> Rabs (y - E_r) <= 10 * sigma) /\
      ((forall y, In y xs -> Rabs (y - E_r) <= Y * sigma) -> exists vs, Forall2 (fun y v => fGauss_call c k i m amu T fin y true = Ok v) xs vs /\
       forall t L D, order_of (Z.to_nat n - 1) t -> fdarboux t vs xs = (L, D) ->
         integral_between (depth_of t) (Z.to_nat n - 1) ((34 + 11 * Y ^ 2) * unit_roundoff) cov (4 * blur E_r s) (offset cov n (2 * blur E_r s)) (r_integrated r) L D).
Proof.
  intros HD HC HF HT Er. destruct (gauss_object d c k i m amu T fin HC HF HT) as (r & s & s' & Hr & Pr & Ps & Fl & Bs & Gd). fold Er in Hr, Pr, Fl, Gd. exists r, s, s'.
  assert (DEr : double Er) by apply rnd_double.
  assert (Good : forall y, double y -> Rabs (y - Er) <= 16 * s -> exists s1 v, res_call r y true = Ok s1 /\ fGauss_call c k i m amu T fin y true = Ok v /\ 0 < s1 /\ Rabs (v - s1) <= (34 + 11 * ((y - Er) / s) ^ 2) * u * s1).
  { intros y Dy Hy. destruct (fGauss_good c k i m fin amu T y true HC HF HT Dy) as (r1 & s1 & Hr1 & Pr1 & _ & X). fold Er in Hr1, Pr1, X. rewrite Hr in Hr1. injection Hr1 as <-. rewrite Pr in Pr1. injection Pr1 as <-. apply X, Hy. }
  destruct (Good Er DEr) as (s0 & v0 & C0 & _ & P0 & _). { replace (Er - Er) with 0 by ring. rewrite Rabs_R0. lra. }
  assert (Hdist : r_dist r = norm).
  { unfold Gauss in Hr. destruct (Resonance _ _ _ _ _) as [q| |] in Hr; cbn [bind] in Hr; try discriminate. destruct (get_doppler_width _ _ _) in Hr; cbn [bind] in Hr; try discriminate. now injection Hr as <-. }
  pose proof (norm_object Er s Ps) as HO. rewrite <- Hdist, <- Pr in HO. pose proof (res_value r _ _ HO) as RV.
  assert (PI0 : 0 < r_integrated r). { rewrite (RV Er) in C0. injection C0 as <-. pose proof (lpdf_pos Normal Er s Er Ps) as Z. cbn [lpdf] in Z. nra. }
  split; [exact Hr|]. split; [exact Pr|]. split; [exact Ps|]. split; [exact Bs|]. split; [exact PI0|]. intros cov n Y Dc Hc Hn HB HO' HY. change unit_roundoff with u in *. pose proof u_pos. pose proof u_tiny.
  assert (Hdel : 0 <= (34 + 11 * Y ^ 2) * u <= 1). { assert (0 <= Y ^ 2 <= 256) by nra. rewrite u_num. nra. }
  destruct (line_integral Normal d Er s s' cov n (r_integrated r) ((34 + 11 * Y ^ 2) * u) HD Fl Ps Bs Dc Hc Hn HB HO' ltac:(lra) Hdel) as (xs & G & _ & _ & Db & Far & Z).
  exists xs. split; [rewrite Gd; exact G|]. split; [intros C4 y Iy; now apply (gauss_far _ _ _ _ Fl Ps Bs), Far|]. intros Hy. rewrite List.Forall_forall in Db.
  assert (Val : forall y, In y xs -> exists v, fGauss_call c k i m amu T fin y true = Ok v /\ Rabs (v - r_integrated r * lpdf Normal Er s y) <= (34 + 11 * Y ^ 2) * u * (r_integrated r * lpdf Normal Er s y)).
  { intros y Iy. destruct (Good y (Db y Iy)) as (s1 & v1 & C1 & V1 & P1 & B1). { eapply Rle_trans; [exact (Hy y Iy)|nra]. }
    rewrite RV in C1. injection C1 as <-. exists v1. split; [exact V1|]. cbn [lpdf]. eapply Rle_trans; [exact B1|]. apply Rmult_le_compat_r; [lra|]. apply Rmult_le_compat_r; [lra|].
    assert (W : Rabs ((y - Er) / s) <= Y). { unfold Rdiv. rewrite Rabs_mult, (Rabs_pos_eq (/ s)) by (left; now apply Rinv_0_lt_compat). apply (Rmult_le_reg_r s); [exact Ps|]. rewrite Rmult_assoc, Rinv_l by lra. rewrite Rmult_1_r. exact (Hy y Iy). }
    apply Rabs_le_inv in W. nra. }
  eexists. split; [apply (lookup_values (fun y => fGauss_call c k i m amu T fin y true) 0); intros y Iy; destruct (Val y Iy) as (v & E & _); now exists v|].
  intros t L D Ot HL. refine (Z t _ L D Ot _ HL). intros z Iz. cbv beta. destruct (Val z Iz) as (v & E & B). rewrite E. exact B.
Qed.
