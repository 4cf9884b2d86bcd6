(** Coverages above 1 of pseudo-Voigt lines with binary64 numbers. *)
From Coq Require Import Reals List ZArith Bool Lra Lia Psatz.
From Coquelicot Require Import Rbar.
From Flocq Require Import Core BinarySingleNaN.
From Verif Require Import Py M_Num M_Grid M_Dist M_Resonance M_Thermal M_Constituents M_PseudoVoigt M_Float S_Float M_Float2 M_Float3 M_Float4 S_Float4 M_Float6 S_Float6 M_Float8 S_Float8 M_Float12 M_Ieee M_Ieee2 M_Ieee5 S_Ieee S_Ieee5 M_Ieee7 S_Ieee7
  L_PseudoVoigt L_FNewton L_Float L_Float11 L_Float22 L_Float28 L_Float30 L_Float31 L_Float33 L_Float50 L_Ieee L_Ieee2 L_Ieee3 L_Ieee4 L_Ieee5 L_Ieee6 L_Ieee7 L_Ieee8 L_Ieee9 L_Ieee13 L_Ieee20 L_Ieee24 L_Ieee25 L_Ieee26 L_Ieee27 L_Ieee28 L_Ieee31.
Import ListNotations.
Open Scope R_scope.

Section Line.
  Variables (L : bpvlib) (V : pvlib) (b : bpv) (p' p : pv).
  Hypotheses (KV : pvlib_ok V) (SV : same_library L V) (C : close p' p) (A : pv_agree b p').
  Let delta : R := / 2 ^ 40 + 3 / 10 ^ 8 / pv_Gamma p.
  Lemma delta_pos : / 2 ^ 40 <= delta /\ 3 / 10 ^ 8 / pv_Gamma p <= delta /\ 0 < pv_Gamma p.
  Proof using C.
    pose proof (cl_valid _ _ C) as (PG & _). assert (0 < 3 / 10 ^ 8 / pv_Gamma p) by (apply Rdiv_lt_0_compat; [simpl; lra|exact PG]). assert (0 < / 2 ^ 40) by (simpl; lra). unfold delta. lra.
  Qed.
  Lemma part_unit d f D bs s l h x : fdist_ok f D -> same_dist d D -> win bs s l h -> bnanb x = false -> exists v, rep (bcdf d (bp_energy b) bs x) v /\ 0 <= v <= 1.
  Proof using A.
    intros OK SD Ws Nx. unfold bcdf. rewrite (lt_zero _ _ _ _ Ws). assert (N : bnanb (bquo (bsub x (bp_energy b)) bs) = false) by (apply (quo_not_nan _ _ _ _ _ (sub_not_nan _ _ Nx (proj1 (win_rep _ _ _ _ (pa_energy _ _ A)))) Ws)).
    assert (K : forall y : b64, is_finite y = true -> exists v, rep (b_cdf0 d y) v /\ 0 <= v <= 1).
    { intros y F. pose proof (rep_refl _ F) as R. exists (f_cdf0 D (B2R y)). split; [exact (proj1 SD _ _ R)|]. apply (proj1 OK), (rep_double _ _ R). }
    destruct (bquo (bsub x (bp_energy b)) bs) as [z|z| |z m e W]; try discriminate; [now apply K| |now apply K]. destruct z; [exists 0; split; [exact zero_rep|lra]|exists 1; split; [exact one_rep|lra]].
  Qed.
  Lemma cdf_unit x : bnanb x = false -> exists v, bnd (bpv_cdf L b x) v 520 /\ - / 2 ^ 44 <= v <= 1 + / 2 ^ 44.
  Proof using All.
    intros Nx. destruct KV as (_ & _ & _ & _ & KN & KC). destruct SV as (_ & SN & SC).
    destruct (part_unit _ _ _ _ _ _ _ x KN SN (pa_gamma_G _ _ A) Nx) as (a & Ra & Ba). destruct (part_unit _ _ _ _ _ _ _ x KC SC (pa_gamma_L _ _ A) Nx) as (c & Rc & Bc).
    exists (fmix (pv_eta p') a c). split; [apply (mix_agree _ _ _ _ _ _ (pa_eta _ _ A)); apply bnd_unit; assumption|].
    destruct (cl_valid _ _ C) as (_ & He & _). destruct (fmix_error (pv_eta p') (pv_eta p) a c (cl_eta_double _ _ C) He (cl_eta _ _ C)) as (d1 & d2 & h & D1 & D2 & D3 & ->).
    pose proof u_pos as U. pose proof eta_tiny as [T0 T1]. assert (UV : 500 * u <= / 2 ^ 44 /\ 3 * L_Float.eta <= u) by (unfold u; split; [simpl pow; lra|]; eapply Rle_trans; [apply Rmult_le_compat_l; [lra|exact T1]|]; simpl; lra). destruct UV as [U1 U2].
    set (e := pv_eta p) in *. clearbody e. assert (0 <= u * e <= u) by nra. assert (0 <= u * (1 - e) <= u) by nra. apply Rabs_le_inv in D1, D2, D3. assert (- (121 * u) <= d1 * a <= 121 * u) by nra. assert (- (119 * u) <= d2 * c <= 119 * u) by nra.
    assert (0 <= (1 - e) * a + e * c <= 1) by nra. replace ((1 - e + d1) * a + (e + d2) * c + h) with (((1 - e) * a + e * c) + d1 * a + d2 * c + h) by ring. lra.
  Qed.
  Definition outside (bq : b64) : Prop := exists q, bnd bq q 100 /\ (q <= - delta \/ 1 + delta <= q).
  (** The difference is a number and at least as large as the tolerance times the largest density. *)
  Lemma outside_far bq x : outside bq -> bnanb x = false -> exists d, bnd (bsub (bpv_cdf L b x) bq) d 521 /\ double d /\ 29 / 10 ^ 9 / pv_Gamma p <= Rabs d /\ d <> 0.
  Proof using All.
    intros (q & Bq & Hq) Nx. destruct (cdf_unit x Nx) as (v & Bv & Hv). pose proof (bnd_sub _ _ _ _ _ _ Bv Bq ltac:(lia)) as Bd. exists (fsub v q). split; [exact Bd|]. split; [apply rnd_double|].
    destruct delta_pos as (P1 & P2 & PG). assert (Q : / 2 ^ 44 + / 2 ^ 44 <= / 2 ^ 40) by (simpl; lra).
    assert (D : / 2 ^ 44 <= Rabs (v - q) /\ 3 / 10 ^ 8 / pv_Gamma p <= Rabs (v - q)). { assert (PP : 0 < / 2 ^ 44) by (simpl; lra). unfold delta in *. destruct Hq; [rewrite Rabs_pos_eq by lra|rewrite Rabs_left1 by lra]; lra. }
    destruct (fsub_error v q (rep_double _ _ (bnd_rep _ _ _ Bv)) (rep_double _ _ (bnd_rep _ _ _ Bq))) as (e & He & ->). pose proof u_30 as U. apply Rabs_le_inv in He.
    assert (PP : 0 < / 2 ^ 44) by (simpl; lra). rewrite Rabs_mult, (Rabs_pos_eq (1 + e)) by lra. set (w := Rabs (v - q)) in *. split.
    - replace (29 / 10 ^ 9 / pv_Gamma p) with (29 / 30 * (3 / 10 ^ 8 / pv_Gamma p)) by (simpl; field; lra). set (z := 3 / 10 ^ 8 / pv_Gamma p) in *. assert (0 < z) by (apply Rdiv_lt_0_compat; [simpl; lra|exact PG]). nra.
    - intros Z. apply Rmult_integral in Z. destruct Z as [Z|Z]; [|lra]. unfold w in D. rewrite Z, Rabs_R0 in D. lra.
  Qed.
  Lemma outside_nonzero bq x : outside bq -> bnanb x = false -> bzero (bsub (bpv_cdf L b x) bq) = false.
  Proof using All.
    intros O N. destruct (outside_far bq x O N) as (d & Bd & _ & _ & Nz). rewrite (zero_same _ _ (bnd_rep _ _ _ Bd)). unfold is_zero. destruct (Req_EM_T d 0); [contradiction|reflexivity].
  Qed.
  Lemma outside_fails bq x : outside bq -> bnanb x = false -> bzero (bpv_pdf (bv_b L) b x) = false ->
    Bleb btol (babs (bquo (bsub (bpv_cdf L b x) bq) (bpv_pdf (bv_b L) b x))) = true /\ bnanb (bsub x (bquo (bsub (bpv_cdf L b x) bq) (bpv_pdf (bv_b L) b x))) = false.
  Proof using All.
    intros O N Z. destruct (outside_far bq x O N) as (d & Bd & Dd & Hd & Nz). destruct (within_dec b x) as [W|W]; [|rewrite (pdf_far L V b p' p KV SV C A x N W) in Z; discriminate].
    pose proof (within_finite b p' A x W) as F. pose proof (rep_refl _ F) as Rx. pose proof (pdf_in L V b p' p KV SV C A x (B2R x) Rx W) as RP. cbv beta in RP.
    destruct (pdf_bound V p' p KV C (B2R x)) as (f & Ef & Df & Bf). rewrite Ef in RP. cbn [number] in RP.
    assert (Nf : f <> 0). { rewrite (zero_same _ _ RP) in Z. unfold is_zero in Z. destruct (Req_EM_T f 0); [discriminate|assumption]. }
    pose proof (bnd_rep _ _ _ Bd) as Rd. destruct (Rlt_le_dec (Rabs (fquo d f)) big) as [H|H].
    - pose proof (quo_rep _ _ _ _ Rd RP Nf H) as Rq. split; [|apply sub_not_nan; [exact N|exact (proj1 Rq)]]. rewrite (le_same _ _ _ _ btol_rep (abs_rep _ _ Rq)). destruct (Rle_dec ftol (Rabs (fquo d f))) as [|Q]; [reflexivity|exfalso; apply Q].
      pose proof ftol_bounds as [_ FT]. destruct delta_pos as (_ & _ & PG). unfold fquo. rewrite rnd_abs. apply rnd_ge; [apply rnd_double|]. unfold Rdiv at 1. rewrite Rabs_mult, Rabs_inv. assert (Pf : 0 < Rabs f) by now apply Rabs_pos_lt.
      apply (Rmult_le_reg_r (Rabs f)); [exact Pf|]. replace (Rabs d * / Rabs f * Rabs f) with (Rabs d) by (field; lra). apply Rle_trans with (ftol * (3 / 2 / pv_Gamma p)); [apply Rmult_le_compat_l; [|exact Bf]; pose proof ftol_bounds as [FL _]; eapply Rle_trans; [|exact FL]; simpl; lra|].
      eapply Rle_trans; [|exact Hd]. apply (Rmult_le_reg_r (pv_Gamma p)); [exact PG|]. replace (29 / 10 ^ 9 / pv_Gamma p * pv_Gamma p) with (29 / 10 ^ 9) by (field; lra). replace (ftol * (3 / 2 / pv_Gamma p) * pv_Gamma p) with (ftol * (3 / 2)) by (field; lra). simpl in *. lra.
    - destruct (quo_over _ _ _ _ Rd RP Nf H) as (s & ->). split; [pose proof btol_rep as [Fb _]; destruct btol as [z|z| |z m e K]; try discriminate; destruct s; reflexivity|]. destruct x as [z|z| |z m e K]; try discriminate; destruct s; reflexivity.
  Qed.
  Lemma outside_ppf qs : (exists q, In q qs /\ outside q) -> bpv_ppf_array L b qs = ([], Ok None) \/ bpv_ppf_array L b qs = ([BInversionFailed], Ok (Some (map (bpv_fallback L b) qs))).
  Proof using All.
    intros H. rewrite bpv_ppf_array_eq. apply (outside_array _ _ _ outside outside_nonzero outside_fails); [|exact H]. apply finite_not_nan, (win_rep _ _ _ _ (pa_energy _ _ A)).
  Qed.
  Lemma fallback_outside bq q : rep bq q -> q < 0 \/ 1 < q -> bpv_fallback L b bq = B754_nan.
  Proof using A.
    intros Rq Hq. unfold bpv_fallback. assert (K : forall d bl bs, bppf d bl bs bq = B754_nan).
    { intros d bl bs. unfold bppf. destruct (Bltb (of_Z 0) bs); [|reflexivity]. destruct (bnanb bl); [reflexivity|]. rewrite (eq_rep _ _ _ _ Rq zero_rep), (eq_rep _ _ _ _ Rq one_rep). rewrite !Req_bool_false by lra. rewrite (rep_lt _ _ _ _ zero_rep Rq), (rep_lt _ _ _ _ Rq one_rep).
      destruct Hq as [Hq|Hq]; [rewrite Rlt_bool_false by lra; reflexivity|rewrite Rlt_bool_true by lra; rewrite Rlt_bool_false by lra; reflexivity]. }
    rewrite !K. apply mix_nan_l.
  Qed.
  Lemma parts a : double a -> 1 + 3 * delta <= a -> fmul (1 / 2) (fsub 1 a) <= - delta /\ 1 < fmul (1 / 2) (fadd 1 a).
  Proof using C.
    intros Da Ha. destruct delta_pos as (P1 & _ & _). assert (P0 : 0 < / 2 ^ 40) by (simpl; lra). pose proof u_30 as U. pose proof u_pos as U0. pose proof eta_tiny as [_ T]. assert (T40 : / 2 ^ 100 <= / 2 ^ 40 / 1000) by (simpl; lra). assert (U40 : u * 1000 <= / 2 ^ 40) by (unfold u; simpl pow; lra).
    destruct (fsub_error 1 a double_1 Da) as (e1 & H1 & E1). destruct (fadd_error 1 a double_1 Da) as (e2 & H2 & E2). rewrite E1, E2. unfold fmul. clear E1 E2.
    destruct (rnd_error (1 / 2 * ((1 - a) * (1 + e1)))) as (e3 & h3 & H3 & K3 & ->). destruct (rnd_error (1 / 2 * ((1 + a) * (1 + e2)))) as (e4 & h4 & H4 & K4 & ->). apply Rabs_le_inv in H1, H2, H3, H4, K3, K4.
    split.
    - assert (M : 99 / 100 <= (1 + e1) * (1 + e3)) by nra. replace (1 / 2 * ((1 - a) * (1 + e1)) * (1 + e3)) with (- (1 / 2 * (a - 1) * ((1 + e1) * (1 + e3)))) by ring. set (m := (1 + e1) * (1 + e3)) in *. assert (3 * delta * (99 / 100) <= (a - 1) * m) by nra. lra.
    - assert (M : 1 - 3 * u <= (1 + e2) * (1 + e4)) by nra. replace (1 / 2 * ((1 + a) * (1 + e2)) * (1 + e4)) with (1 / 2 * (1 + a) * ((1 + e2) * (1 + e4))) by ring. set (m := (1 + e2) * (1 + e4)) in *. assert ((1 + a) * (1 - 3 * u) <= (1 + a) * m) by nra. assert ((2 + 3 * delta) * (1 - 3 * u) <= (1 + a) * (1 - 3 * u)) by nra. nra.
  Qed.
  Lemma above_interval modern bc c : rep bc c -> 1 + 3 * delta <= Rabs c <= 2 ^ 90 ->
    bpv_coverage_interval modern L b bc = ([], Raise TypeError) \/ bpv_coverage_interval modern L b bc = ([BInversionFailed], Ok (B754_nan, B754_nan)).
  Proof using All.
    intros Rc Hc. destruct (coverage_rep bc c Rc) as (R1 & R2 & _). { eapply Rle_trans; [apply Hc|]. apply Rle_pow; [lra|lia]. }
    destruct delta_pos as (P1 & _ & _). assert (P0 : 0 < / 2 ^ 40) by (simpl; lra). pose proof (rep_double _ _ Rc) as Dc. rewrite pow_bp in Hc. change (Z.of_nat 90) with 90%Z in Hc.
    assert (H91 : forall x, Rabs x <= bpow radix2 91 -> Rabs (fmul (1 / 2) (rnd x)) <= bpow radix2 100).
    { intros x Hx. assert (K : Rabs (rnd x) <= bpow radix2 91) by (apply rnd_bpow; [lia|exact Hx]). unfold fmul. apply rnd_bpow; [lia|]. set (y := rnd x) in *. clearbody y. rewrite Rabs_mult, (Rabs_pos_eq (1 / 2)) by lra. assert (bpow radix2 91 <= bpow radix2 100) by (apply bpow_le; lia). pose proof (bpow_gt_0 radix2 91). lra. }
    assert (B91 : bpow radix2 91 = 2 * bpow radix2 90) by (change 91%Z with (1 + 90)%Z; rewrite bpow_plus; reflexivity). assert (G90 : 1 <= bpow radix2 90) by (change 1 with (bpow radix2 0); apply bpow_le; lia).
    assert (B1 : bnd (fst (bcoverage_limits bc)) (fmul (1 / 2) (fsub 1 c)) 100). { split; [exact R1|]. apply H91. pose proof (Rabs_triang 1 (- c)) as T. rewrite Rabs_R1, Rabs_Ropp in T. unfold Rminus. lra. }
    assert (B2 : bnd (snd (bcoverage_limits bc)) (fmul (1 / 2) (fadd 1 c)) 100). { split; [exact R2|]. apply H91. pose proof (Rabs_triang 1 c) as T. rewrite Rabs_R1 in T. lra. }
    destruct (parts (Rabs c) (generic_format_abs radix2 fexp64 c Dc) (proj1 Hc)) as [Q1 Q2].
    assert (Q : (fmul (1 / 2) (fsub 1 c) <= - delta /\ 1 < fmul (1 / 2) (fadd 1 c)) \/ (1 < fmul (1 / 2) (fsub 1 c) /\ fmul (1 / 2) (fadd 1 c) <= - delta)).
    { destruct (Rle_dec 0 c) as [S|S]; [left|right].
      - rewrite (Rabs_pos_eq c S) in Q1, Q2. auto.
      - rewrite (Rabs_left1 c) in Q1, Q2 by lra. assert (S1 : fsub 1 (- c) = fadd 1 c) by (unfold fsub, fadd; f_equal; ring). assert (S2 : fadd 1 (- c) = fsub 1 c) by (unfold fsub, fadd; f_equal; ring). rewrite S1 in Q1. rewrite S2 in Q2. auto. }
    assert (X : exists q, In q [fst (bcoverage_limits bc); snd (bcoverage_limits bc)] /\ outside q).
    { destruct Q as [[Q _]|[_ Q]]; [exists (fst (bcoverage_limits bc))|exists (snd (bcoverage_limits bc))]; (split; [cbn [In]; auto|]); eexists; (split; [eassumption|]); left; exact Q. }
    rewrite interval_eq. destruct (outside_ppf _ X) as [-> | ->]; [left; reflexivity|right]. cbn [map]. rewrite (fallback_outside _ _ R1), (fallback_outside _ _ R2) by lra. reflexivity.
  Qed.
End Line.
