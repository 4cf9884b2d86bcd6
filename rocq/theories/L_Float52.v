(** Darboux integrals of pseudo-Voigt lines over their probability grids, with rounding. *)
From Coq Require Import Reals List ZArith Lra Lia Psatz Sorted.
From Coquelicot Require Import Coquelicot.
From Flocq Require Import Core.
From Verif Require Import Py Spec M_Num M_Grid M_CrossSection S_CrossSection M_Constituents M_Thermal M_Dist M_Darboux M_Resonance S_Resonance M_PseudoVoigt S_PseudoVoigt M_Float S_Float M_Float2 M_Float3 S_Float3 M_Float4 S_Float4 M_Float6 S_Float6 M_Float8 S_Float8 S_Float12 M_Float12 S_Float13
  L_CrossSection L_Grid L_CrossSection2 L_RInt L_Darboux L_Dist L_Resonance L_Resonance2 L_Resonance3 L_Resonance5 L_PseudoVoigt L_PseudoVoigt4 L_Float L_Float2 L_Float3 L_Float4 L_Float7 L_Float9 L_Float10 L_Float11 L_Float12 L_Float13 L_Float20 L_Float21 L_Float22 L_Float23 L_Float27 L_Float28 L_Float30 L_Float31 L_Float32 L_Float47 L_Float48 L_Float49 L_Float50 L_Float51.
Import ListNotations.
Open Scope R_scope.
Open Scope list_scope.

Lemma pdf0_square f t : Rabs t <= 1 -> pdf0 f 0 <= (1 + t ^ 2) * pdf0 f t.
Proof.
  intros H. assert (T2 : 0 <= t ^ 2 <= 1) by (apply Rabs_le_inv in H; nra). pose proof PI_3. destruct f; cbn [pdf0].
  - right. field. split; [|lra]. nra.
  - unfold gauss0. unfold Rdiv at 1 3. rewrite <- Rmult_assoc. apply Rmult_le_compat_r; [left; apply Rinv_0_lt_compat, sqrt_lt_R0; lra|].
    replace (- 0 ^ 2 / 2) with 0 by field. rewrite exp_0. assert (Z : exp (t ^ 2 / 2) <= 1 + 2 * (t ^ 2 / 2)) by (apply exp_double; lra).
    replace (- t ^ 2 / 2) with (- (t ^ 2 / 2)) by field. rewrite exp_Ropp. pose proof (exp_pos (t ^ 2 / 2)). apply (Rmult_le_reg_r (exp (t ^ 2 / 2))); [assumption|]. rewrite Rmult_assoc, Rinv_l by lra. lra.
Qed.
Lemma F0_side f t : (0 <= t -> 1 / 2 <= F0 f t) /\ (t <= 0 -> F0 f t <= 1 / 2).
Proof. rewrite <- (F0_half f). split; intros H; apply (dens_le _ _ (F0_density f)); exact H. Qed.

Lemma scale_ratio p : pv_valid p -> 1 / 2 * pv_gamma_L p <= pv_gamma_G p / sqrt 2 <= 2 * (1 / 2 * pv_gamma_L p).
Proof.
  intros (HG & _ & EG & EL). rewrite EG, EL. set (G := pv_Gamma p) in *. pose proof sqrt_ln2_pos as P1. pose proof sqrt2_pos as P2.
  assert (E1 : sqrt (ln 2) * sqrt (ln 2) = ln 2) by (apply sqrt_sqrt; pose proof ln_lt_2; lra). assert (E2 : sqrt 2 * sqrt 2 = 2) by (apply sqrt_sqrt; lra).
  set (a := sqrt (ln 2)) in *. set (b := sqrt 2) in *. assert (L1 : / 2 <= a * a) by (rewrite E1; left; apply ln_lt_2).
  assert (L2 : a * a <= 2) by (rewrite E1; pose proof ln2_lt; lra).
  assert (AB : 1 <= a * b <= 2). { assert (Q : (a * b) * (a * b) = 2 * (a * a)) by (rewrite <- E2; ring). assert (0 < a * b) by (now apply Rmult_lt_0_compat). split; nra. } replace (G / (2 * a) / b) with (G / (2 * (a * b))) by (field; lra).
  split.
  - replace (1 / 2 * (G / 2)) with (G / 4) by field. unfold Rdiv. apply Rmult_le_compat_l; [lra|]. apply Rinv_le_contravar; lra.
  - replace (2 * (1 / 2 * (G / 2))) with (G / 2) by field. unfold Rdiv. apply Rmult_le_compat_l; [lra|]. apply Rinv_le_contravar; lra.
Qed.

Lemma mix_near p x e : pv_valid p -> Rabs (pvF p x - 1 / 2) <= e -> 14 * e < 1 -> pvf p (pv_energy p) <= (1 + 196 * e ^ 2) * pvf p x.
Proof.
  intros V H He. destruct (pv_scales p V) as [P1 P2]. pose proof (scale_ratio p V) as [R1 R2]. destruct V as (_ & [E0 E1] & _). unfold pvF in H. unfold pvf.
  set (m := pv_energy p) in *. set (sN := pv_gamma_G p / sqrt 2) in *. set (sC := 1 / 2 * pv_gamma_L p) in *. set (h := pv_eta p) in *.
  change (norm_cdf m sN x) with (line_cdf Normal m sN x) in H. change (cauchy_cdf m sC x) with (line_cdf Cauchy m sC x) in H. rewrite !line_F0 in H.
  change (norm_pdf m sN) with (lpdf Normal m sN). change (cauchy_pdf m sC) with (lpdf Cauchy m sC). rewrite !lpdf_0 by assumption.
  replace ((m - m) / sN) with 0 by (field; lra). replace ((m - m) / sC) with 0 by (field; lra).
  set (a := (x - m) / sN) in *. set (b := (x - m) / sC) in *.
  assert (Xa : x - m = a * sN) by (unfold a; field; lra). assert (Xb : x - m = b * sC) by (unfold b; field; lra).
  assert (AB : Rabs a <= Rabs b /\ Rabs b <= 2 * Rabs a).
  { assert (X1 : Rabs (x - m) = Rabs a * sN) by (rewrite Xa, Rabs_mult, (Rabs_pos_eq sN); lra). assert (X2 : Rabs (x - m) = Rabs b * sC) by (rewrite Xb, Rabs_mult, (Rabs_pos_eq sC); lra).
    pose proof (Rabs_pos a). pose proof (Rabs_pos b). split; apply (Rmult_le_reg_r sC); try assumption; rewrite <- ?X2, ?X1; nra. }
  assert (Either : Rabs (F0 Normal a - 1 / 2) <= e \/ Rabs (F0 Cauchy b - 1 / 2) <= e).
  { destruct (F0_side Normal a) as [N1 N2]. destruct (F0_side Cauchy b) as [C1 C2]. apply Rabs_le_inv in H. destruct (Rle_dec m x) as [Hx|Hx].
    - assert (0 <= a) by (apply Rmult_le_pos; [lra|left; now apply Rinv_0_lt_compat]). assert (0 <= b) by (apply Rmult_le_pos; [lra|left; now apply Rinv_0_lt_compat]). specialize (N1 ltac:(assumption)). specialize (C1 ltac:(assumption)).
      destruct (Rle_dec (F0 Normal a) (F0 Cauchy b)); [left|right]; apply Rabs_le; nra.
    - assert (a <= 0) by (unfold a, Rdiv; pose proof (Rinv_0_lt_compat sN P1); nra). assert (b <= 0) by (unfold b, Rdiv; pose proof (Rinv_0_lt_compat sC P2); nra). specialize (N2 ltac:(assumption)). specialize (C2 ltac:(assumption)).
      destruct (Rle_dec (F0 Normal a) (F0 Cauchy b)); [right|left]; apply Rabs_le; nra. }
  assert (E2 : 0 <= e) by (eapply Rle_trans; [apply Rabs_pos|exact H]).
  assert (B14 : Rabs a <= 14 * e /\ Rabs b <= 14 * e).
  { destruct Either as [Z|Z]; apply F0_near in Z; try lra; pose proof (Rabs_pos a); pose proof (Rabs_pos b); lra. }
  destruct B14 as [Ba Bb]. pose proof (pdf0_square Normal a ltac:(lra)) as SN. pose proof (pdf0_square Cauchy b ltac:(lra)) as SC.
  assert (PN : 0 < pdf0 Normal a) by apply (dens_pos _ _ (F0_density Normal)). assert (PC : 0 < pdf0 Cauchy b) by apply (dens_pos _ _ (F0_density Cauchy)).
  assert (A2 : a ^ 2 <= 196 * e ^ 2) by (apply Rabs_le_inv in Ba; nra). assert (B2 : b ^ 2 <= 196 * e ^ 2) by (apply Rabs_le_inv in Bb; nra).
  assert (KN : pdf0 Normal 0 <= (1 + 196 * e ^ 2) * pdf0 Normal a) by nra. assert (KC : pdf0 Cauchy 0 <= (1 + 196 * e ^ 2) * pdf0 Cauchy b) by nra.
  set (K := 1 + 196 * e ^ 2) in *. replace (K * ((1 - h) * (pdf0 Normal a / sN) + h * (pdf0 Cauchy b / sC))) with ((1 - h) * (K * pdf0 Normal a / sN) + h * (K * pdf0 Cauchy b / sC)) by (field; lra).
  apply Rplus_le_compat; apply Rmult_le_compat_l; try lra; unfold Rdiv; apply Rmult_le_compat_r; try assumption; left; now apply Rinv_0_lt_compat.
Qed.

Lemma last_nth (l : list R) : last l 0 = nth (List.length l - 1) l 0.
Proof. induction l as [|x [|y l] IH]; try reflexivity. change (last (x :: y :: l) 0) with (last (y :: l) 0). rewrite IH. cbn [List.length]. rewrite !Nat.sub_succ, !Nat.sub_0_r. reflexivity. Qed.
Lemma pv_line_integral p xs c n e I delta : pv_valid p -> List.Forall double xs -> pv_equidistant p ((1 - c) / 2) ((1 + c) / 2) n xs -> strictly_ascending xs -> (3 <= n <= 2 ^ 50)%Z ->
  0 <= c -> (forall x, In x xs -> pv_blur p x <= e) -> 2 * e < c / IZR (n - 1) -> 14 * offset c n e < 1 -> 0 <= I -> 0 <= delta <= 1 ->
  forall t g L D, order_of (Z.to_nat n - 1) t -> (forall z, In z xs -> Rabs (g z - I * pvf p z) <= delta * (I * pvf p z)) ->
    fdarboux t (map g xs) xs = (L, D) -> pv_integral_between (depth_of t) (Z.to_nat n - 1) delta c (2 * e) (offset c n e) I L D.
Proof.
  intros V Db (Len & Eq0) Asc Hn Hc He HB HO HI Hd t g L D Ot Hg HL. pose proof u_pos as Pu.
  assert (Eq : forall i, (i < Z.to_nat n)%nat -> Rabs (pvF p (nth i xs 0) - ((1 - c) / 2 + INR i * (((1 + c) / 2 - (1 - c) / 2) / IZR (n - 1)))) <= e).
  { intros i Hi. destruct (Eq0 i Hi) as (F & EF & B). rewrite (pv_cdf_ok p _ V) in EF. injection EF as <-. eapply Rle_trans; [exact B|]. apply He, nth_In. lia. }
  assert (N2 : 2 <= IZR (n - 1)) by (apply IZR_le; lia).
  assert (Ng : xs <> []) by (intros Z; rewrite Z in Len; cbn in Len; lia).
  set (lo := first xs). set (hi := final xs).
  assert (B1 : Rabs (pvF p lo - (1 - c) / 2) <= e). { pose proof (Eq 0%nat ltac:(lia)) as Z. cbn [INR] in Z. rewrite Rmult_0_l, Rplus_0_r in Z. unfold lo, first. destruct xs; [congruence|exact Z]. }
  assert (B2 : Rabs (pvF p hi - (1 + c) / 2) <= e).
  { pose proof (Eq (Z.to_nat n - 1)%nat ltac:(lia)) as Z. replace (INR (Z.to_nat n - 1)) with (IZR (n - 1)) in Z by (rewrite INR_IZR_INZ; f_equal; lia).
    replace ((1 - c) / 2 + IZR (n - 1) * (((1 + c) / 2 - (1 - c) / 2) / IZR (n - 1))) with ((1 + c) / 2) in Z by (field; lra). replace (nth (Z.to_nat n - 1) xs 0) with hi in Z; [exact Z|]. unfold hi, final. rewrite <- Len. apply last_nth. }
  apply Rabs_le_inv in B1, B2. set (v := fun x => I * pvf p x) in *.
  assert (Gr : grid xs) by (split; [now apply strictly_ascending_ascending|exact Db]).
  pose proof (pv_density p V) as Dn.
  assert (Ri : is_RInt v lo hi (I * (pvF p hi - pvF p lo))).
  { apply (is_RInt_scal (V := R_NormedModule) (pvf p) lo hi I). apply (dens_is_RInt _ _ Dn). }
  assert (EX : ex_RInt v (first xs) (final xs)) by (eexists; exact Ri).
  assert (IV : RInt v (first xs) (final xs) = I * (pvF p hi - pvF p lo)) by (exact (is_RInt_unique (V := R_CompleteNormedModule) _ _ _ _ Ri)).
  set (o := offset c n e) in *. set (i := Z.to_nat (n / 2)). assert (Hi : (i < Z.to_nat n)%nat). { unfold i. apply Z2Nat.inj_lt; [apply Z.div_pos; lia|lia|apply Z.div_lt; lia]. }
  assert (Yi : In (nth i xs 0) xs) by (apply nth_In; lia). set (y := nth i xs 0) in *.
  assert (HY : Rabs (pvF p y - 1 / 2) <= o).
  { pose proof (Eq i Hi) as E. fold y in E. unfold i in E. rewrite (middle_point n c) in E by lia. unfold o, offset. apply Rabs_le_inv in E. apply Rabs_le.
    assert (0 <= if Z.odd n then 0 else c / (2 * IZR (n - 1))). { destruct (Z.odd n); [lra|]. apply Rmult_le_pos; [lra|]. left. apply Rinv_0_lt_compat. lra. } lra. }
  assert (Hm : v (pv_energy p) <= (1 + 196 * o ^ 2) * v y).
  { unfold v. replace ((1 + 196 * o ^ 2) * (I * pvf p y)) with (I * ((1 + 196 * o ^ 2) * pvf p y)) by ring. apply Rmult_le_compat_l; [exact HI|]. now apply mix_near. }
  destruct (fdarboux_unimodal t (pv_energy p) v g xs delta (196 * o ^ 2) y L D Gr Ng ltac:(rewrite Len; exact Ot) Hd Hg) as [R1 R2].
  - apply unimodal_scal; [exact HI|]. now apply pv_unimodal.
  - intros z. apply Rmult_le_pos; [exact HI|]. left. apply (dens_pos _ _ Dn).
  - exact EX.
  - pose proof (pow2_ge_0 o). lra.
  - exact Yi.
  - exact Hm.
  - exact HL.
  - rewrite Len, IV in R1, R2. unfold pv_integral_between. set (re := relative_loss _ _) in *. set (al := absolute_loss _ _) in *.
    assert (Ee : 0 <= re). { unfold re, relative_loss. change unit_roundoff with u. pose proof (pow_ge_1 (depth_of t + 2)). nra. }
    set (J := pvF p hi - pvF p lo) in *. assert (J1 : J <= c + 2 * e) by (unfold J; lra). assert (J2 : c - 2 * e <= J) by (unfold J; lra).
    split.
    + eapply Rle_trans; [exact R1|]. apply Rplus_le_compat_r. apply Rmult_le_compat_l; [lra|]. rewrite (Rmult_comm I). now apply Rmult_le_compat_r.
    + destruct (Rle_dec re 1) as [H1|H1].
      * eapply Rle_trans; [|exact R2]. apply Rmult_le_compat_l; [lra|]. rewrite (Rmult_comm I). now apply Rmult_le_compat_r.
      * assert (X0 : 0 <= c - 2 * e). { assert (c / IZR (n - 1) * 2 <= c); [|lra]. apply (Rmult_le_reg_r (IZR (n - 1))); [lra|]. replace (c / IZR (n - 1) * 2 * IZR (n - 1)) with (c * 2) by (field; lra). nra. }
        assert (L0 : 0 <= L). { change L with (fst (L, D)). rewrite <- HL. apply fdarboux_nonneg; [exact Gr|]. apply List.Forall_forall. intros z Iz. apply in_map_iff in Iz. destruct Iz as (z' & <- & Iz). pose proof (Hg z' Iz) as Z. apply Rabs_le_inv in Z.
          assert (0 <= I * pvf p z') by (apply Rmult_le_pos; [exact HI|left; apply (dens_pos _ _ Dn)]). nra. }
        assert (D0 : 0 <= D). { change D with (snd (L, D)). rewrite <- HL. unfold fdarboux. cbn [snd]. apply Rabs_pos. }
        assert (A0 : 0 <= al). { pose proof (rounding_bound_nonneg (depth_of t) (Z.to_nat n - 1) delta 0 (proj1 Hd) (Rle_refl 0)) as Z. rewrite loss_split in Z. fold al in Z. lra. }
        apply Rle_trans with 0; [assert (0 <= (c - 2 * e) * I) by (now apply Rmult_le_pos); nra|]. pose proof (pow2_ge_0 o). change unit_roundoff with u. apply Rmult_le_pos; [lra|]. nra.
Qed.

(** ** Points that are found *)
Section Both.
  Variables (modern : bool) (L : pvlib) (k : constants) (E w amu T : R) (p p' : pv).
  Hypothesis HL : pvlib_ok L.
  Hypothesis HP : pv_params k E w amu T.
  Hypothesis HF : pv_floats k E w amu T.
  Hypothesis EP : PseudoVoigtDistribution k E w amu T = Ok p.
  Hypothesis EP' : fPseudoVoigtDistribution L k E w amu T = Ok p'.
  Lemma found_blur s x : 0 < pv_Gamma p -> 0 <= E -> easy_line p E s -> Rabs x <= (E + pv_Gamma p / (2 * s ^ 2) + 2 / 10 ^ 8) * (1 + u) -> pv_blur p x <= line_blur p E /\ Rabs x <= 2 ^ 60.
  Proof.
    intros PG E0 (Hs & HG & HE & HEG) H. set (G := pv_Gamma p) in *. assert (S2 : 0 < s ^ 2) by (apply pow_lt; lra). assert (S2' : (/ 300) ^ 2 <= s ^ 2) by (apply pow_incr; lra).
    assert (S3 : s ^ 2 <= (1 / 4) ^ 2) by (apply pow_incr; lra). assert (S4 : s ^ 4 <= (1 / 4) ^ 4) by (apply pow_incr; lra). assert (S6 : s ^ 6 <= (1 / 4) ^ 6) by (apply pow_incr; lra).
    assert (Uu : 0 < u <= / 2 ^ 52) by (pose proof u_pos; split; [assumption|unfold u; simpl pow; lra]).
    assert (Q : G / (2 * s ^ 2) <= 45000 * G). { unfold Rdiv. rewrite Rmult_comm. apply Rmult_le_compat_r; [lra|]. replace 45000 with (/ (2 * (/ 300) ^ 2)) by (simpl; field). apply Rinv_le_contravar; simpl pow in *; lra. }
    assert (Q0 : 0 <= G / (2 * s ^ 2)) by (apply Rmult_le_pos; [lra|left; apply Rinv_0_lt_compat; lra]).
    assert (H2 : Rabs x <= E + E * u + 45001 * G + 3 / 10 ^ 8). { eapply Rle_trans; [exact H|]. simpl pow in *. nra. }
    assert (H3 : E * u <= G). { apply Rle_trans with (10 ^ 14 * ((1 / 4) ^ 2 * G) * u); [apply Rmult_le_compat_r; [lra|]; eapply Rle_trans; [exact HEG|]; apply Rmult_le_compat_l; [lra|]; apply Rmult_le_compat_r; lra|]. assert (Z : 10 ^ 14 * (1 / 4) ^ 2 * u <= 1) by (simpl pow in *; lra). replace (10 ^ 14 * ((1 / 4) ^ 2 * G) * u) with (10 ^ 14 * (1 / 4) ^ 2 * u * G) by ring. apply (Rmult_le_compat_r G) in Z; lra. }
    assert (H4 : Rabs x <= E + 45002 * G + 3 / 10 ^ 8) by lra. clear H H2 Q Q0.
    split; [|simpl pow in *; nra]. unfold pv_blur, line_blur. fold G. apply (Rmult_le_reg_r G); [exact PG|]. replace ((/ 2 ^ 43 + (5 / 10 ^ 8 + Rabs x / 2 ^ 50) / G) * G) with (/ 2 ^ 43 * G + (5 / 10 ^ 8 + Rabs x / 2 ^ 50)) by (field; repeat split; try lra; apply pow_nonzero; lra). replace ((/ 2 ^ 33 + (6 / 10 ^ 8 + E / 2 ^ 50) / G) * G) with (/ 2 ^ 33 * G + (6 / 10 ^ 8 + E / 2 ^ 50)) by (field; repeat split; try lra; apply pow_nonzero; lra). simpl pow in *. lra.
  Qed.
  Lemma grid_located c n s : double c -> 0 <= c <= 1 -> (2 <= n <= 2 ^ 50)%Z -> easy_line p E s -> 4 * s + / 2 ^ 40 <= 1 - c ->
    exists xs, fpv_probability_grid modern L p' (Coverage c) n = ([], Ok (Some (map Finite xs))) /\ forall x, In x xs -> pv_blur p x <= line_blur p E /\ Rabs x <= 2 ^ 60.
  Proof.
    intros Dc Hc Hn HE Hcs. pose proof HE as (Hs & S1 & S2 & S3). destruct (quantiles01 c Dc Hc) as (D1 & D2 & R1 & R2 & E1 & E2). pose proof u_pos.
    destruct (both L k E w amu T p p' HL HP HF EP EP') as (C & _ & EE).
    destruct (grid_found modern L k E w amu T p p' HL HP HF EP EP' c n s Dc Hc Hn HE Hcs) as (xs & X). exists xs. split; [exact X|].
    assert (U : 6 * u <= / 2 ^ 40) by (unfold u; simpl pow; lra). apply Rabs_le_inv in E1, E2.
    destruct (lin_error (q_lo c) (q_hi c) ((1 - c) / 2) ((1 + c) / 2) n (3 * u) D1 D2 ltac:(lra) Hn) as (qs & Eq & Dq & Lq & Rq & _); try (apply Rabs_le; lra).
    { apply nu_gap; [exact Hn|]. apply half_gap; auto; lra. }
    unfold fpv_probability_grid in X. fold (q_lo c) (q_hi c) in X. cbn [bind] in X. rewrite Eq in X. cbn [bind] in X. rewrite ppf_two in X by lia.
    destruct (fpv_ppf_array L p' qs) as [ws r] eqn:EA. injection X as -> ->.
    assert (Hq : List.Forall (fun q => 2 * s <= q <= 1 - 2 * s) qs) by (eapply List.Forall_impl; [|exact Rq]; cbv beta; intros z Z; lra).
    pose proof (where_found L k E w amu T p p' HL HP HF EP EP' s qs xs Dq Hq HE EA) as W. rewrite List.Forall_forall in W. intros x Ix.
    pose proof (E_pos p' p C) as E0. rewrite EE in E0. exact (found_blur s x (proj1 (cl_valid _ _ C)) E0 HE (W x Ix)).
  Qed.
End Both.

(** ** Objects *)
Lemma pv_integral L modern k i m fin amu T w : pvlib_ok L -> floats k i m fin -> width m = Ok w ->
  let E_r := fsub (st_excitation_energy m) (st_excitation_energy i) in pv_params k E_r w amu T -> pv_floats k E_r w amu T ->
  exists p r, PseudoVoigtDistribution k E_r w amu T = Ok p /\ PseudoVoigt modern k i (with_energy m (st_excitation_energy i + E_r)) amu T fin = Ok r /\ 0 < r_integrated r /\
  (forall c n ws g e, double c -> 0 <= c <= 1 -> (3 <= n <= 2 ^ 50)%Z -> fPseudoVoigt_grid modern L k i m amu T fin (Coverage c) n = (ws, Ok (Some g)) -> inverted ws ->
    exists xs, g = map Finite xs /\ pv_equidistant p ((1 - c) / 2) ((1 + c) / 2) n xs /\
     ((forall x, In x xs -> pv_blur p x <= e /\ Rabs x <= 2 ^ 60) -> 2 * e < c / IZR (n - 1) -> 14 * offset c n e < 1 ->
      strictly_ascending xs /\ exists vs, Forall2 (fun x v => fPseudoVoigt_call L k i m amu T fin x true = Ok v) xs vs /\
      forall t S D, order_of (Z.to_nat n - 1) t -> fdarboux t vs xs = (S, D) ->
        pv_integral_between (depth_of t) (Z.to_nat n - 1) (/ 2 ^ 38) c (2 * e) (offset c n e) (r_integrated r) S D)) /\
  (forall c n s, double c -> 0 <= c <= 1 -> (2 <= n <= 2 ^ 50)%Z -> easy_line p E_r s -> 4 * s + / 2 ^ 40 <= 1 - c ->
    exists xs, fPseudoVoigt_grid modern L k i m amu T fin (Coverage c) n = ([], Ok (Some (map Finite xs))) /\ forall x, In x xs -> pv_blur p x <= line_blur p E_r /\ Rabs x <= 2 ^ 60).
Proof.
  intros HL HF HW Er HP HQ. destruct (fResonance_good (v_c L) k i m fin (proj1 HL) HF) as (r & Ir & w' & H1 & H2 & H3 & H4 & H5 & H6). fold Er in H1, H2, H3. rewrite HW in H4. injection H4 as <-.
  destruct (fpv_close L k Er w amu T HL HQ HP) as (p & p' & P1 & P2 & C & Pw & PE). pose proof (cl_valid _ _ C) as V.
  assert (PV : PseudoVoigt modern k i (with_energy m (st_excitation_energy i + Er)) amu T fin = Ok (with_dist r (pv_distribution modern p) [])).
  { unfold PseudoVoigt. rewrite H1. cbn [bind]. change (width (with_energy _ _)) with (width m). rewrite HW. cbn [bind]. rewrite H3, P1. reflexivity. }
  assert (GE : forall a n, fPseudoVoigt_grid modern L k i m amu T fin a n = fpv_probability_grid modern L p' a n).
  { intros a n. unfold fPseudoVoigt_grid. rewrite H2. cbn [bind]. rewrite HW. cbn [bind]. now rewrite P2. }
  exists p, (with_dist r (pv_distribution modern p) []). split; [exact P1|]. split; [exact PV|].
  assert (RV : forall x, res_call (with_dist r (pv_distribution modern p) []) x true = Ok (r_integrated r * pvf p x)).
  { intros x. unfold res_call. cbn [with_dist r_dist r_params r_integrated pv_distribution d_pdf]. now rewrite (pv_pdf_ok p x V). }
  cbn [with_dist r_integrated].
  assert (Val : forall x, double x -> Rabs x <= 2 ^ 60 -> exists v, fPseudoVoigt_call L k i m amu T fin x true = Ok v /\ 0 < r_integrated r * pvf p x /\ Rabs (v - r_integrated r * pvf p x) <= / 2 ^ 38 * (r_integrated r * pvf p x)).
  { intros x Dx Bx. destruct (fcall_good L modern k i m fin amu T w x true HL HF HW HP HQ Dx Bx) as (q & r1 & s & v & Q1 & Q2 & _ & Q3 & Q4 & Q5 & Q6 & _). fold Er in Q1, Q2. rewrite PV in Q2. injection Q2 as <-. rewrite RV in Q3. injection Q3 as <-. exists v. auto. }
  assert (PI0 : 0 < r_integrated r). { destruct (Val 0 double_0 ltac:(rewrite Rabs_R0; apply pow_le; lra)) as (v & _ & Z & _). pose proof (dens_pos _ _ (pv_density p V) 0). nra. }
  split; [exact PI0|]. split.
  - intros c n ws g e Dc Hc Hn G I. rewrite GE in G. destruct (coverage_points modern L k Er w amu T p p' HL HP HQ P1 P2 c n ws g Dc Hc ltac:(lia) G I) as (xs & -> & Db & Eq). exists xs. split; [reflexivity|]. split; [exact Eq|]. intros Hx HB HO.
    assert (Asc : strictly_ascending xs). { apply (equidistant_ascending L k Er w amu T p p' HL HP HQ P1 P2 ((1 - c) / 2) ((1 + c) / 2) n e); [lia|exact Eq|intros; now apply Hx|]. replace ((1 + c) / 2 - (1 - c) / 2) with c by field. exact HB. }
    split; [exact Asc|]. pose proof Db as Db'. rewrite List.Forall_forall in Db'.
    eexists. split; [apply (lookup_values (fun y => fPseudoVoigt_call L k i m amu T fin y true) 0); intros y Iy; destruct (Val y (Db' y Iy) (proj2 (Hx y Iy))) as (v & Ev & _); now exists v|].
    intros t S D Ot HS. refine (pv_line_integral p xs c n e (r_integrated r) (/ 2 ^ 38) V Db Eq Asc Hn (proj1 Hc) (fun x Ix => proj1 (Hx x Ix)) HB HO _ _ t _ S D Ot _ HS); [lra|simpl pow; lra|].
    intros z Iz. cbv beta. destruct (Val z (Db' z Iz) (proj2 (Hx z Iz))) as (v & Ev & _ & B). rewrite Ev. exact B.
  - intros c n s Dc Hc Hn HE Hcs. rewrite GE. exact (grid_located modern L k Er w amu T p p' HL HP HQ P1 P2 c n s Dc Hc Hn HE Hcs).
Qed.
