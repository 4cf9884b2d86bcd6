(** Pseudo-Voigt resonances with binary64 numbers: grids between two energies, objects. *)
From Coq Require Import Reals List ZArith Bool Lra Lia Psatz.
From Coquelicot Require Import Coquelicot.
From Flocq Require Import Core BinarySingleNaN.
From Verif Require L_Float21.
From Verif Require Import Py Spec M_Num M_Grid M_Dist M_Resonance M_Thermal M_Constituents M_PseudoVoigt S_Resonance S_PseudoVoigt M_Float S_Float M_Float2 M_Float3 S_Float3 M_Float4 S_Float4 M_Float6 S_Float6 M_Float8 S_Float8 M_Float12 S_Float12 S_Float13 M_Ieee M_Ieee2 M_Ieee5 S_Ieee S_Ieee5 M_Ieee7 S_Ieee7
  L_Dist L_PseudoVoigt L_PseudoVoigt4 L_Float L_Float9 L_Float10 L_Float11 L_Float22 L_Float28 L_Float30 L_Float31 L_Float32 L_Float49 L_Float50 L_Float51 L_Float52 L_Float53
  L_Ieee L_Ieee2 L_Ieee3 L_Ieee4 L_Ieee5 L_Ieee6 L_Ieee7 L_Ieee8 L_Ieee9 L_Ieee13 L_Ieee20 L_Ieee24 L_Ieee25 L_Ieee26 L_Ieee27 L_Ieee28 L_Ieee29.
Import ListNotations.
Open Scope R_scope.

Section Line.
  Variables (L : bpvlib) (V : pvlib) (b : bpv) (k : constants) (E w amu T : R) (p p' : pv).
  Hypotheses (KV : pvlib_ok V) (SV : same_library L V) (A : pv_agree b p').
  Hypothesis HP : pv_params k E w amu T.
  Hypothesis HF : pv_floats k E w amu T.
  Hypothesis EP : PseudoVoigtDistribution k E w amu T = Ok p.
  Hypothesis EP' : fPseudoVoigtDistribution V k E w amu T = Ok p'.
  Let C : close p' p := proj1 (both V k E w amu T p p' KV HP HF EP EP').
  Lemma limits_forward modern ba a bz z Fa Fz n s : rep ba a -> rep bz z -> Rabs a <= 2 ^ 400 -> Rabs z <= 2 ^ 400 -> (2 <= n <= 2 ^ 50)%Z ->
    pv_cdf p a = Ok Fa -> pv_cdf p z = Ok Fz -> easy_line p E s -> / 2 ^ 40 <= Fz - Fa -> 2 * s + / 2 ^ 40 <= Fa -> Fz <= 1 - 2 * s - / 2 ^ 40 ->
    exists g xs, bpv_probability_grid modern L b (BLimits ba bz) n = ([], Ok (Some g)) /\ fpv_probability_grid modern V p' (Limits a z) n = ([], Ok (Some (map Finite xs))) /\ Forall2 rep g xs.
  Proof using All.
    intros Ra Rz Ba Bz Hn EFa EFz EL Hg Ha Hz. pose proof (rep_double _ _ Ra) as Da. pose proof (rep_double _ _ Rz) as Dz. pose proof (cl_valid _ _ C) as Va.
    rewrite pv_cdf_ok in EFa by exact Va. rewrite pv_cdf_ok in EFz by exact Va. injection EFa as <-. injection EFz as <-.
    destruct (cdf_same L V b p' p KV SV C A ba a Ra Ba) as (q1 & V1 & B1). destruct (cdf_same L V b p' p KV SV C A bz z Rz Bz) as (q2 & V2 & B2).
    destruct (cdf_error V p' p KV C a Da) as (q1' & V1' & D1 & E1). rewrite V1 in V1'. injection V1' as <-. destruct (cdf_error V p' p KV C z Dz) as (q2' & V2' & D2 & E2). rewrite V2 in V2'. injection V2' as <-.
    pose proof u_pos. pose proof E1 as E1'. pose proof E2 as E2'. apply Rabs_le_inv in E1', E2'. assert (U : 600 * u <= / 2 ^ 41 /\ / 2 ^ 60 <= / 2 ^ 41 /\ / 2 ^ 41 + / 2 ^ 41 = / 2 ^ 40) by (unfold u; simpl pow; repeat split; lra). destruct U as (U1 & U2 & U3).
    pose proof (dens_range _ _ (pv_density p Va) a) as Pa. pose proof (dens_range _ _ (pv_density p Va) z) as Pz. pose proof EL as ((Hs & _) & _).
    destruct (lin_error q1 q2 (pvF p a) (pvF p z) n (300 * u) D1 D2 ltac:(lra) Hn ltac:(apply nu_gap; [exact Hn|]; right; lra) ltac:(apply Rabs_le; lra) ltac:(apply Rabs_le; lra) E1 E2) as (qs & Eq & Dq & Lq & Rq & _).
    assert (Am : forall x y, bnd x y 520 -> at_most 1020 x). { intros x y [[F <-] B]. split; [exact F|]. eapply Rle_trans; [exact B|]. apply bpow_le. lia. }
    destruct (linspace_moderate _ _ n ltac:(lia) (Am _ _ B1) (Am _ _ B2)) as (bqs & qs' & Eb & Eq' & F). pose proof (proj2 (bnd_rep _ _ _ B1)) as W1. pose proof (proj2 (bnd_rep _ _ _ B2)) as W2. rewrite W1, W2, Eq in Eq'. injection Eq' as <-.
    destruct (array_forward L V b k E w amu T p p' KV SV A HP HF EP EP' s bqs qs F) as (g & xs & EB & EF & R & Lx); [eapply List.Forall_impl; [|exact Rq]; cbv beta; intros y Hy; lra|exact EL|].
    assert (Lb : length bqs = Z.to_nat n) by (rewrite <- Lq; clear - F; induction F; cbn; congruence).
    assert (exists r, (let! h := set_first xs a in set_last h z) = Ok r /\ (let! h := set_first (map Finite xs) (Finite a) in set_last h (Finite z)) = Ok (map Finite r)) as (r & S1 & S2).
    { destruct xs as [|x xs]; [cbn in Lx; lia|]. destruct (exists_last (l := xs)) as (t & y & ->). { intros ->. cbn in Lx. lia. } exists (a :: t ++ [z]).
      split; [apply (L_Float21.set_ends x y a z t)|]. cbn [map]. rewrite !map_app. apply (L_Float21.set_ends (Finite x) (Finite y) (Finite a) (Finite z) (map Finite t)). }
    destruct (set_same rep g xs ba a bz z r R Ra Rz S1) as (h & S3 & R'). exists h, r. split; [|split; [|exact R']].
    - unfold bpv_probability_grid. cbn [fst snd]. rewrite Eb, bpv_ppf_two, EB by lia. cbn [bind]. destruct (set_first g ba) as [h1| |]; cbn [bind] in S3 |- *; try discriminate. now rewrite S3.
    - unfold fpv_probability_grid. rewrite V1. cbn [bind]. rewrite V2. cbn [bind]. rewrite Eq, ppf_two, EF by lia. cbn [bind]. destruct (set_first _ (Finite a)) as [h1| |]; cbn [bind] in S2 |- *; try discriminate. now rewrite S2.
  Qed.
End Line.

Section Objects.
  Variables (L : bpvlib) (V : pvlib) (B : bconstants) (k : constants) (bi : bstate) (i : state) (bm : bstate) (m : state)
    (bfin : option bstate) (fin : option state) (bamu : b64) (amu : R) (bT : b64) (T w : R).
  Hypothesis H : same_resonance L V B k bi i bm m bfin fin bamu amu bT T w.
  Let E := fsub (st_excitation_energy m) (st_excitation_energy i).
  Lemma objects : exists b p p', bPseudoVoigt_distribution L B bi bm bamu bT bfin = Ok b /\ PseudoVoigtDistribution k E w amu T = Ok p /\ fPseudoVoigtDistribution V k E w amu T = Ok p' /\ pv_agree b p' /\ close p' p /\
    forall modern,
    (forall c, bPseudoVoigt_coverage_interval modern L B bi bm bamu bT bfin c = bpv_coverage_interval modern L b c) /\
    (forall c, fPseudoVoigt_coverage_interval modern V k i m amu T fin c = fpv_coverage_interval modern V p' c) /\
    (forall a n, bPseudoVoigt_grid modern L B bi bm bamu bT bfin a n = bpv_probability_grid modern L b a n) /\
    (forall a n, fPseudoVoigt_grid modern V k i m amu T fin a n = fpv_probability_grid modern V p' a n).
  Proof using H.
    destruct H as (KV & SV & Sc & Fl & Ew & Pp & Pf & Ra & Rt & Si & Sm & Sf).
    destruct (pv_pieces (bv_b L) V B k bi i bm m bfin fin bamu amu bT T w KV (proj1 SV) Sc Fl Ew Pf Ra Rt Si Sm Sf) as (E_r & Ir & e & r & W & b & q & Eb & Ef & WE & WI & EW & Ed & Ed' & A).
    destruct (spec_objects V true k i m fin amu T w KV Fl Ew Pp Pf) as (p & p' & P1 & P2 & _). fold E in P1, P2.
    assert (Q : e = E). { destruct (fResonance_good (v_c V) k i m fin (proj1 KV) Fl) as (r0 & Ir0 & w' & H1 & H2 & _). fold E in H2. rewrite Ef in H2. injection H2 as -> _. reflexivity. }
    subst e. rewrite P2 in Ed'. injection Ed' as <-. assert (D : bPseudoVoigt_distribution L B bi bm bamu bT bfin = Ok b) by (unfold bPseudoVoigt_distribution; rewrite Eb; cbn [bind]; rewrite EW; exact Ed).
    exists b, p, p'. split; [exact D|]. split; [exact P1|]. split; [exact P2|]. split; [exact A|]. split; [exact (proj1 (both V k E w amu T p p' KV Pp Pf P1 P2))|]. intros modern.
    destruct (spec_objects V modern k i m fin amu T w KV Fl Ew Pp Pf) as (p1 & p1' & P1' & P2' & O1 & O2). fold E in P1', P2'. rewrite P2 in P2'. injection P2' as <-.
    split; [intros c; unfold bPseudoVoigt_coverage_interval; now rewrite D|]. split; [exact O1|]. split; [intros a n; unfold bPseudoVoigt_grid; now rewrite D|exact O2].
  Qed.
  Lemma object_interval modern bc c ws lo hi : rep bc c -> 0 <= c <= 1 -> bPseudoVoigt_coverage_interval modern L B bi bm bamu bT bfin bc = (ws, Ok (lo, hi)) -> ~ In BInversionFailed ws ->
    moderate lo -> moderate hi ->
    exists wsf x y, fPseudoVoigt_coverage_interval modern V k i m amu T fin c = (wsf, Ok (Finite x, Finite y)) /\ rep lo x /\ rep hi y /\ Forall2 same_warning ws wsf.
  Proof using H.
    intros Rc Hc. destruct objects as (b & p & p' & D & P1 & P2 & A & C & O). destruct (O modern) as (O1 & O2 & _). rewrite O1, O2. apply (interval_back L V b p' p (proj1 H) (proj1 (proj2 H)) C A modern bc c ws lo hi Rc). apply Rabs_le. lra.
  Qed.
  Lemma object_grid modern bc c n g : rep bc c -> 0 <= c <= 1 -> (2 <= n <= 2 ^ 50)%Z -> bPseudoVoigt_grid modern L B bi bm bamu bT bfin (BCoverage bc) n = ([], Ok (Some g)) -> List.Forall moderate g ->
    exists xs, fPseudoVoigt_grid modern V k i m amu T fin (Coverage c) n = ([], Ok (Some (map Finite xs))) /\ Forall2 rep g xs.
  Proof using H.
    destruct objects as (b & p & p' & D & P1 & P2 & A & C & O). destruct (O modern) as (_ & _ & O1 & O2). rewrite O1, O2. exact (grid_back L V b p' p (proj1 H) (proj1 (proj2 H)) C A modern bc c n g).
  Qed.
  Lemma object_quantiles modern b bqs qs g : bPseudoVoigt_distribution L B bi bm bamu bT bfin = Ok b -> (2 <= length bqs)%nat -> Forall2 rep bqs qs -> List.Forall (fun q => Rabs q <= 2) qs ->
    bpv_ppf modern L b bqs = ([], Ok (Some g)) -> List.Forall moderate g ->
    exists p' xs, fPseudoVoigtDistribution V k E w amu T = Ok p' /\ fpv_ppf modern V p' qs = ([], Ok (Some (map Finite xs))) /\ Forall2 rep g xs.
  Proof using H.
    destruct objects as (b' & p & p' & D & P1 & P2 & A & C & O). rewrite D. intros X. injection X as <-. intros Lq Rq Bq Q M. rewrite bpv_ppf_two in Q by exact Lq. assert (Lq' : length bqs = length qs) by (clear - Rq; induction Rq; cbn; congruence).
    destruct (array_back L V b' p' p (proj1 H) (proj1 (proj2 H)) C A bqs qs g Rq Bq Q M) as (xs & F & R). exists p', xs. split; [exact P2|]. rewrite ppf_two by lia. auto.
  Qed.
  Lemma object_found_interval modern p bc c s : PseudoVoigtDistribution k E w amu T = Ok p -> rep bc c -> 0 <= c <= 1 -> easy_line p E s -> 4 * s + / 2 ^ 40 <= 1 - c ->
    exists ws lo hi wsf x y, bPseudoVoigt_coverage_interval modern L B bi bm bamu bT bfin bc = (ws, Ok (lo, hi)) /\ fPseudoVoigt_coverage_interval modern V k i m amu T fin c = (wsf, Ok (Finite x, Finite y)) /\ rep lo x /\ rep hi y /\ Forall2 same_warning ws wsf /\ ~ In BInversionFailed ws.
  Proof using H.
    destruct objects as (b & p0 & p' & D & P1 & P2 & A & C & O). rewrite P1. intros X. injection X as <-. destruct (O modern) as (O1 & O2 & _). rewrite O1, O2. destruct H as (KV & SV & _ & _ & _ & Pp & Pf & _). exact (interval_forward L V b k E w amu T p0 p' KV SV A Pp Pf P1 P2 modern bc c s).
  Qed.
  Lemma object_found_grid modern p bc c n s : PseudoVoigtDistribution k E w amu T = Ok p -> rep bc c -> 0 <= c <= 1 -> (2 <= n <= 2 ^ 50)%Z -> easy_line p E s -> 4 * s + / 2 ^ 40 <= 1 - c ->
    exists g xs, bPseudoVoigt_grid modern L B bi bm bamu bT bfin (BCoverage bc) n = ([], Ok (Some g)) /\ fPseudoVoigt_grid modern V k i m amu T fin (Coverage c) n = ([], Ok (Some (map Finite xs))) /\ Forall2 rep g xs.
  Proof using H.
    destruct objects as (b & p0 & p' & D & P1 & P2 & A & C & O). rewrite P1. intros X. injection X as <-. destruct (O modern) as (_ & _ & O1 & O2). rewrite O1, O2. destruct H as (KV & SV & _ & _ & _ & Pp & Pf & _). exact (grid_forward L V b k E w amu T p0 p' KV SV A Pp Pf P1 P2 modern bc c n s).
  Qed.
  Lemma object_found_limits modern p ba a bz z Fa Fz n s : PseudoVoigtDistribution k E w amu T = Ok p -> rep ba a -> rep bz z -> Rabs a <= 2 ^ 400 -> Rabs z <= 2 ^ 400 -> (2 <= n <= 2 ^ 50)%Z ->
    pv_cdf p a = Ok Fa -> pv_cdf p z = Ok Fz -> easy_line p E s -> / 2 ^ 40 <= Fz - Fa -> 2 * s + / 2 ^ 40 <= Fa -> Fz <= 1 - 2 * s - / 2 ^ 40 ->
    exists g xs, bPseudoVoigt_grid modern L B bi bm bamu bT bfin (BLimits ba bz) n = ([], Ok (Some g)) /\ fPseudoVoigt_grid modern V k i m amu T fin (Limits a z) n = ([], Ok (Some (map Finite xs))) /\ Forall2 rep g xs.
  Proof using H.
    destruct objects as (b & p0 & p' & D & P1 & P2 & A & C & O). rewrite P1. intros X. injection X as <-. destruct (O modern) as (_ & _ & O1 & O2). rewrite O1, O2. destruct H as (KV & SV & _ & _ & _ & Pp & Pf & _). exact (limits_forward L V b k E w amu T p0 p' KV SV A Pp Pf P1 P2 modern ba a bz z Fa Fz n s).
  Qed.
  Lemma object_nan modern n : (2 <= n)%Z -> bPseudoVoigt_coverage_interval modern L B bi bm bamu bT bfin B754_nan = ([], Ok (B754_nan, B754_nan)) /\
    bPseudoVoigt_grid modern L B bi bm bamu bT bfin (BCoverage B754_nan) n = ([], Ok (Some (repeat B754_nan (Z.to_nat n)))) /\
    bPseudoVoigt_grid modern L B bi bm bamu bT bfin (BLimits B754_nan B754_nan) n = ([], Ok (Some (repeat B754_nan (Z.to_nat n)))).
  Proof using H.
    intros Hn. destruct objects as (b & p & p' & D & P1 & P2 & A & C & O). destruct (O modern) as (O1 & _ & O3 & _). rewrite O1, !O3. pose proof (slope_peak L V b p' p (proj1 H) (proj1 (proj2 H)) C A) as S.
    split; [exact (nan_interval L b S modern)|]. split; [exact (nan_grid L b S modern n Hn)|exact (nan_limits L b S modern n Hn)].
  Qed.
End Objects.

(** ** Accuracy, other values *)
Section Accuracy.
  Variables (L : bpvlib) (V : pvlib) (B : bconstants) (k : constants) (bi : bstate) (i : state) (bm : bstate) (m : state)
    (bfin : option bstate) (fin : option state) (bamu : b64) (amu : R) (bT : b64) (T w : R).
  Hypothesis H : same_resonance L V B k bi i bm m bfin fin bamu amu bT T w.
  Let E := fsub (st_excitation_energy m) (st_excitation_energy i).
  Lemma same_inverted ws wsf : Forall2 same_warning ws wsf -> ~ In BInversionFailed ws -> inverted wsf.
  Proof.
    intros F N. induction F as [|x y l l' S F IH]; [intros []|]. intros [I|I]; [|apply IH; [|exact I]; intros J; apply N; now right].
    subst y. destruct x; try contradiction. apply N. now left.
  Qed.
  Lemma points_interval modern p bc c ws lo hi : PseudoVoigtDistribution k E w amu T = Ok p -> rep bc c -> 0 <= c <= 1 ->
    bPseudoVoigt_coverage_interval modern L B bi bm bamu bT bfin bc = (ws, Ok (lo, hi)) -> ~ In BInversionFailed ws -> moderate lo -> moderate hi ->
    exists Fa Fb F0, pv_cdf p (B2R lo) = Ok Fa /\ pv_cdf p (B2R hi) = Ok Fb /\ pv_cdf p 0 = Ok F0 /\
      Rabs (Fa - (1 - c) / 2) <= pv_blur p (B2R lo) /\ Rabs (Fb - (1 + c) / 2) <= pv_blur p (B2R hi) /\
      (0 <= B2R lo -> ws = []) /\ (B2R lo < 0 -> exists v, ws = [BNegativeLowerLimit v] /\ finite v /\ Rabs (B2R v - 100 * (1 - F0)) <= / 10 ^ 10).
  Proof using H.
    intros P Rc Hc Q N M1 M2. destruct (object_interval L V B k bi i bm m bfin fin bamu amu bT T w H modern bc c ws lo hi Rc Hc Q N M1 M2) as (wsf & x & y & F & R1 & R2 & S).
    destruct (objects L V B k bi i bm m bfin fin bamu amu bT T w H) as (b & p0 & p' & D & P1 & P2 & A & C & O). fold E in P1, P2. rewrite P in P1. injection P1 as <-. destruct (O modern) as (_ & O2 & _). rewrite O2 in F.
    destruct H as (KV & SV & _ & _ & _ & Pp & Pf & _). destruct (spec_interval V k E w amu T p p' KV Pp Pf P P2 modern c wsf (Finite x) (Finite y) (rep_double _ _ Rc) Hc F (same_inverted _ _ S N)) as (a & z & Fa & Fb & F0 & E1 & E2 & _ & _ & C1 & C2 & C3 & B1 & B2 & W1 & W2).
    injection E1 as <-. injection E2 as <-. rewrite (proj2 R1), (proj2 R2). exists Fa, Fb, F0. repeat (split; [assumption|]). split.
    - intros G. rewrite (W1 G) in S. inversion S. reflexivity.
    - intros G. destruct (W2 G) as (v & -> & Hv). inversion S as [|b1 ? l1 ? S1 S2]; subst. inversion S2; subst. destruct b1; cbn in S1; try contradiction. destruct S1 as [Fi <-]. eexists. split; [reflexivity|]. split; [exact Fi|exact Hv].
  Qed.
  Lemma points_grid modern p bc c n g : PseudoVoigtDistribution k E w amu T = Ok p -> rep bc c -> 0 <= c <= 1 -> (2 <= n <= 2 ^ 50)%Z ->
    bPseudoVoigt_grid modern L B bi bm bamu bT bfin (BCoverage bc) n = ([], Ok (Some g)) -> List.Forall moderate g ->
    pv_equidistant p ((1 - c) / 2) ((1 + c) / 2) n (map B2R g).
  Proof using H.
    intros P Rc Hc Hn Q M. destruct (object_grid L V B k bi i bm m bfin fin bamu amu bT T w H modern bc c n g Rc Hc Hn Q M) as (xs & F & R).
    destruct (objects L V B k bi i bm m bfin fin bamu amu bT T w H) as (b & p0 & p' & D & P1 & P2 & A & C & O). fold E in P1, P2. rewrite P in P1. injection P1 as <-. destruct (O modern) as (_ & _ & _ & O2). rewrite O2 in F.
    destruct H as (KV & SV & _ & _ & _ & Pp & Pf & _). destruct (coverage_points modern V k E w amu T p p' KV Pp Pf P P2 c n [] _ (rep_double _ _ Rc) Hc Hn F ltac:(intros [])) as (ys & Ey & _ & PE).
    assert (xs = ys). { clear - Ey. revert ys Ey. induction xs as [|x xs IH]; intros [|y ys] Ey; try discriminate; [reflexivity|]. injection Ey as -> Ey. f_equal. now apply IH. }
    subst ys. replace (map B2R g) with xs; [exact PE|]. clear - R. induction R as [|x y g xs [_ R] _ IH]; cbn; congruence.
  Qed.
End Accuracy.
Lemma gamma_nan L g : (forall y, b_pow L B754_nan y = B754_nan) -> bget_Gamma L B754_nan g = B754_nan.
Proof.
  intros N. unfold bget_Gamma. cbv zeta. change (bmul B754_nan B754_nan) with (B754_nan : b64).
  match goal with |- b_pow L ?a _ = _ => replace a with (B754_nan : b64); [apply N|] end. rewrite !nan_add. reflexivity.
Qed.
Lemma doppler_nan k amu E d : bget_doppler_width k amu B754_nan E = Ok d -> d = B754_nan.
Proof.
  unfold bget_doppler_width. cbv zeta. destruct (bzero _); try discriminate. rewrite mul_nan. intros H. assert (D : d = bmul E (bsqrt (bquo B754_nan (bmul amu (b_u_MeV k))))) by congruence. clear H. subst d. rewrite (nan_quo (bmul amu (b_u_MeV k))). change (bsqrt B754_nan) with (B754_nan : b64). apply mul_nan.
Qed.
Lemma temperature_nan L B bi bm bamu bfin b : bPseudoVoigt_distribution L B bi bm bamu B754_nan bfin = Ok b -> (forall y, b_pow (bv_b L) B754_nan y = B754_nan) -> broken_pv b.
Proof.
  unfold bPseudoVoigt_distribution. destruct (bResonance _ _ _ _ _) as [[e r]| |]; try discriminate. cbn [bind]. destruct (bwidth bm) as [W| |]; try discriminate. cbn [bind]. unfold bPseudoVoigtDistribution. destruct (bget_doppler_width _ _ _ _) as [d| |] eqn:D; try discriminate. cbn [bind].
  apply doppler_nan in D. subst d. rewrite mul_nan. intros H N. rewrite gamma_nan in H by exact N. right. left. assert (Q : bp_gamma_L b = bmul (literal 1 2) B754_nan) by (apply (f_equal (fun o => match o with Ok x => bp_gamma_L x | _ => B754_nan end)) in H; symmetry; exact H).
  rewrite Q, !mul_nan. reflexivity.
Qed.

(** ** The hypotheses can be met *)
Lemma library_same : same_library correct_library correct_pvlib.
Proof. split; [exact correct_pv_same|]. split; [exact (correct_same_dist Normal)|exact (correct_same_dist Cauchy)]. Qed.
Lemma wide_same : same_state (of_state wide_m) wide_m.
Proof.
  split; [reflexivity|]. split; [reflexivity|]. split; [apply (Z_of_R 1); lia|].
  cbn [of_state wide_m b_decays st_decays option_map fst snd map]. split; [|apply inv2_rep; lia].
  constructor; [|constructor]. split; [reflexivity|]. apply inv2_rep. lia.
Qed.
Lemma resonance_example : same_resonance correct_library correct_pvlib (of_constants ieee_k) ieee_k (of_state lost_i) lost_i (of_state wide_m) wide_m None None (of_Z 1000) 1000 (of_Z 0) 0 (/ 2 ^ 10) /\
  exists p, PseudoVoigtDistribution ieee_k (fsub (st_excitation_energy wide_m) (st_excitation_energy lost_i)) (/ 2 ^ 10) 1000 0 = Ok p /\ easy_line p (fsub (st_excitation_energy wide_m) (st_excitation_energy lost_i)) (1 / 8).
Proof.
  assert (D1 : double 1) by (apply double_IZR; simpl; lia). assert (E1 : fsub 1 0 = 1) by (unfold fsub; rewrite Rminus_0_r; now apply rnd_id).
  assert (PP : pv_params ieee_k 1 (/ 2 ^ 10) 1000 0). { split; [unfold constants_ok, ieee_k; cbn; repeat split; lra|]. simpl; lra. }
  assert (PF : pv_floats ieee_k 1 (/ 2 ^ 10) 1000 0).
  { assert (D2 : double (/ 2 ^ 10)) by (apply double_inv2; lia).
    unfold pv_floats, plausible. cbn [k_kB_eV k_u_MeV ieee_k]. repeat split; try assumption; try (simpl; lra). }
  cbn [wide_m lost_i st_excitation_energy]. rewrite E1. split.
  - unfold same_resonance. cbn [wide_m lost_i st_excitation_energy]. rewrite E1. fold wide_m lost_i.
    split; [exact correct_pvlib_ok|]. split; [exact library_same|]. split; [exact ieee_constants|]. split; [exact wide_floats|]. split; [reflexivity|]. split; [exact PP|]. split; [exact PF|].
    split; [apply Z_rep; lia|]. split; [apply Z_rep; lia|]. split; [exact ieee_i|]. split; [exact wide_same|exact I].
  - destruct (spec_objects correct_pvlib true ieee_k lost_i wide_m None 1000 0 (/ 2 ^ 10) correct_pvlib_ok wide_floats eq_refl) as (p & p' & P1 & _); [change (pv_params ieee_k (fsub 1 0) (/ 2 ^ 10) 1000 0); now rewrite E1|change (pv_floats ieee_k (fsub 1 0) (/ 2 ^ 10) 1000 0); now rewrite E1|].
    change (PseudoVoigtDistribution ieee_k (fsub 1 0) (/ 2 ^ 10) 1000 0 = Ok p) in P1. rewrite E1 in P1. exists p. split; [exact P1|]. destruct (cold _ _ _ _ _ PP P1) as (_ & HG & _). unfold easy_line. rewrite HG. simpl. lra.
Qed.
(** A library with [nan ** y = nan]. *)
Definition nan_library : bpvlib :=
  {| bv_b := {| b_square := b_square correct_blib; b_exp := b_exp correct_blib; b_log := b_log correct_blib; b_pow := fun x y => match x with B754_nan => B754_nan | _ => b_pow correct_blib x y end |};
     bv_norm := bv_norm correct_library; bv_cauchy := bv_cauchy correct_library |}.
Lemma nan_example : (forall y, b_pow (bv_b nan_library) B754_nan y = B754_nan) /\ exists b, bPseudoVoigt_distribution nan_library (of_constants ieee_k) (of_state lost_i) (of_state wide_m) (of_Z 1000) B754_nan None = Ok b.
Proof.
  split; [reflexivity|]. destruct resonance_example as [S _]. destruct (objects _ _ _ _ _ _ _ _ _ _ _ _ _ _ _ S) as (b & _ & _ & D & _). revert D. unfold bPseudoVoigt_distribution.
  change (bResonance (bv_b nan_library)) with (bResonance (bv_b correct_library)). destruct (bResonance _ _ _ _ _) as [[e r]| |]; try discriminate. cbn [bind]. destruct (bwidth _) as [W| |]; try discriminate. cbn [bind]. unfold bPseudoVoigtDistribution, bget_doppler_width. cbv zeta. destruct (bzero _); try discriminate. cbn [bind]. intros _. eexists. reflexivity.
Qed.
Lemma found_example : exists ws lo hi g, bPseudoVoigt_coverage_interval true correct_library (of_constants ieee_k) (of_state lost_i) (of_state wide_m) (of_Z 1000) (of_Z 0) None (of_R (/ 2 ^ 2)) = (ws, Ok (lo, hi)) /\ ~ In BInversionFailed ws /\
  bPseudoVoigt_grid true correct_library (of_constants ieee_k) (of_state lost_i) (of_state wide_m) (of_Z 1000) (of_Z 0) None (BCoverage (of_R (/ 2 ^ 2))) 7 = ([], Ok (Some g)) /\ length g = 7%nat.
Proof.
  destruct resonance_example as (S & p & P & Ey). pose proof (inv2_rep 2 ltac:(lia)) as Rc. assert (Hc : 0 <= / 2 ^ 2 <= 1) by (simpl; lra). assert (Hs : 4 * (1 / 8) + / 2 ^ 40 <= 1 - / 2 ^ 2) by (simpl; lra).
  destruct (object_found_interval _ _ _ _ _ _ _ _ _ _ _ _ _ _ _ S true p _ _ (1 / 8) P Rc Hc Ey Hs) as (ws & lo & hi & wsf & x & y & H1 & _ & _ & _ & _ & H2).
  destruct (object_found_grid _ _ _ _ _ _ _ _ _ _ _ _ _ _ _ S true p _ _ 7 (1 / 8) P Rc Hc ltac:(lia) Ey Hs) as (g & xs & H3 & H4 & R).
  exists ws, lo, hi, g. split; [exact H1|]. split; [exact H2|]. split; [exact H3|].
  destruct (objects _ _ _ _ _ _ _ _ _ _ _ _ _ _ _ S) as (b & p0 & p' & D & P1 & P2 & A & C & O). rewrite P in P1. injection P1 as <-. destruct (O true) as (_ & _ & _ & O2). rewrite O2 in H4. destruct S as (KV & SV & _ & _ & _ & Pp & Pf & _).
  destruct (coverage_points true _ _ _ _ _ _ _ _ KV Pp Pf P P2 _ 7 [] _ (rep_double _ _ Rc) Hc ltac:(lia) H4 ltac:(intros [])) as (ys & Ey' & _ & (Ly & _)).
  assert (K : length xs = length ys) by (rewrite <- (map_length Finite xs), Ey'; apply map_length). assert (G : length g = length xs) by (clear - R; induction R; cbn; congruence). rewrite G, K, Ly. reflexivity.
Qed.
