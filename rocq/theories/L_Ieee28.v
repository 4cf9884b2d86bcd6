(** Coverage intervals and grids of pseudo-Voigt lines with binary64 numbers. *)
From Coq Require Import Reals List ZArith Bool Lra Lia Psatz.
From Coquelicot Require Import Rbar.
From Flocq Require Import Core BinarySingleNaN.
From Verif Require Import Py M_Num M_Grid M_Dist M_Resonance M_Thermal M_Constituents M_PseudoVoigt M_Float S_Float M_Float2 M_Float3 M_Float4 S_Float4 M_Float6 S_Float6 M_Float8 S_Float8 M_Float12 M_Ieee M_Ieee2 M_Ieee5 S_Ieee S_Ieee5 M_Ieee7 S_Ieee7
  L_PseudoVoigt L_Float L_Float22 L_Float28 L_Float30 L_Float31 L_Float50 L_Ieee L_Ieee2 L_Ieee3 L_Ieee4 L_Ieee5 L_Ieee6 L_Ieee7 L_Ieee8 L_Ieee9 L_Ieee13 L_Ieee20 L_Ieee24 L_Ieee25 L_Ieee26 L_Ieee27.
From Verif Require L_Ieee21 L_Dist.
Import ListNotations.
Open Scope R_scope.

(** ** Lengths *)
Lemma barray_length bc bp n : forall bs bqs fl nz bs' fl' nz', length bs = length bqs ->
  barray_newton n (fun E => map2 bsub (map bc E) bqs) (map bp) bs fl nz = (bs', fl', nz') -> length bs' = length bqs.
Proof.
  induction n as [|n IH]; intros bs bqs fl nz bs' fl' nz' EL H; [cbn in H; inversion H; subst; exact EL|]. remember (fun E => map2 bsub (map bc E) bqs) as g eqn:Eg. rewrite barray_step in H. assert (Gv : g bs = map2 bsub (map bc bs) bqs) by now subst. rewrite Gv in H. fold (nexts bc bp bs bqs) in H.
  destruct (forallb _ _); [inversion H; subst; exact EL|]. destruct (negb _); [inversion H; subst; exact EL|].
  pose proof (nexts_length bc bp bs bqs EL) as N. destruct (negb _); [inversion H; subst; exact N|]. subst g. eapply IH; [|exact H]. exact N.
Qed.
Lemma bppf_length n bc bp m fb qs ws g : bppf_array n bc bp m fb qs = (ws, Ok (Some g)) -> length g = length qs.
Proof.
  unfold bppf_array. destruct (bnewton_array _ _ _ _) as [[y conv]| |e] eqn:E; [|discriminate|destruct e; try discriminate; intros H; inversion H; apply map_length].
  destruct (forallb _ conv); [|discriminate]. intros H. inversion H; subst. destruct (newton_inner _ _ _ _ _ _ E) as (fl & nz & E'). apply barray_length in E'; [exact E'|apply map_length].
Qed.
Lemma bppf_warns n bc bp m fb qs ws r : bppf_array n bc bp m fb qs = (ws, r) -> ~ In BInversionFailed ws -> ws = [].
Proof. unfold bppf_array. destruct (bnewton_array _ _ _ _) as [[y conv]| |e]; [| |destruct e]; intros H N; inversion H; subst; auto. exfalso. apply N. now left. Qed.

Lemma limits_small c : Rabs c <= 2 -> Rabs (fmul (1 / 2) (fsub 1 c)) <= 2 /\ Rabs (fmul (1 / 2) (fadd 1 c)) <= 2.
Proof.
  intros H. assert (G : forall x, Rabs x <= 4 -> Rabs (fmul (1 / 2) (rnd x)) <= 2).
  { intros x Hx. assert (K : Rabs (rnd x) <= 4) by (change 4 with (bpow radix2 2); apply rnd_bpow; [lia|exact Hx]). change 2 with (bpow radix2 1) at 2. unfold fmul. apply rnd_bpow; [lia|]. change (bpow radix2 1) with 2. set (y := rnd x) in *. clearbody y. rewrite Rabs_mult, (Rabs_pos_eq (1 / 2)) by lra. lra. }
  apply Rabs_le_inv in H. split; apply G, Rabs_le; lra.
Qed.
Lemma rep_neg b x : rep b x -> Bltb b (of_Z 0) = Rbar_negative (Finite x).
Proof. intros R. rewrite (rep_lt _ _ _ _ R (Z_rep 0 ltac:(lia))). cbn [Rbar_negative]. destruct (Rlt_dec x 0); [now apply Rlt_bool_true|apply Rlt_bool_false; lra]. Qed.
Lemma rep_not_inf b x : rep b x -> bis_inf b = false.
Proof. intros [F _]. destruct b; try reflexivity. discriminate. Qed.

Section Line.
  Variables (L : bpvlib) (V : pvlib) (b : bpv) (p' p : pv).
  Hypotheses (KV : pvlib_ok V) (SV : same_library L V) (C : close p' p) (A : pv_agree b p').
  Lemma cdf_ok x : exists v, fpv_cdf V p' x = Ok v.
  Proof using A. unfold fpv_cdf, fcdf. pose proof (tN_pos _ _ A). pose proof (tC_pos _ _ A). destruct (Rlt_dec 0 (fquo _ _)); [|contradiction]. destruct (Rlt_dec 0 (fmul _ _)); [|contradiction]. eexists. reflexivity. Qed.
  Lemma cdf_same x X : rep x X -> Rabs X <= 2 ^ 400 -> exists v, fpv_cdf V p' X = Ok v /\ bnd (bpv_cdf L b x) v 520.
  Proof using All.
    intros R B. destruct (cdf_ok X) as (v & E). exists v. split; [exact E|]. pose proof (cdf_in L V b p' p KV SV C A x X R) as H. cbv beta in H. rewrite E in H. apply H. apply (moderate_within b p' A); [apply R|]. destruct R as [_ ->]. exact B.
  Qed.
  (** The warnings are the same. *)
  Lemma interval_same modern bc c bx by' x y r : rep bc c -> Rabs c <= 2 ->
    bpv_ppf_array L b [fst (bcoverage_limits bc); snd (bcoverage_limits bc)] = ([], Ok (Some [bx; by'])) ->
    fpv_ppf_array V p' [fmul (1 / 2) (fsub 1 c); fmul (1 / 2) (fadd 1 c)] = ([], Ok (Some [Finite x; Finite y])) -> rep bx x -> rep by' y ->
    bpv_coverage_interval modern L b bc = r ->
    exists ws wsf, r = (ws, Ok (bx, by')) /\ fpv_coverage_interval modern V p' c = (wsf, Ok (Finite x, Finite y)) /\ Forall2 same_warning ws wsf.
  Proof using All.
    intros Rc Bc EB EF Rx Ry <-. unfold bpv_coverage_interval, fpv_coverage_interval. rewrite bpv_ppf_two, EB by (cbn; lia). rewrite ppf_two, EF by (cbn; lia).
    rewrite (rep_not_inf _ _ Ry), (rep_neg _ _ Rx). cbn [Rbar_is_inf app]. destruct (Rbar_negative (Finite x)); [|do 2 eexists; split; [reflexivity|]; split; [reflexivity|constructor]].
    destruct (cdf_same (of_Z 0) 0) as (v & Ev & Bv); [apply (Z_rep 0); lia|rewrite Rabs_R0; apply pow_le; lra|]. rewrite Ev. do 2 eexists. split; [reflexivity|]. split; [reflexivity|]. constructor; [|constructor].
    cbn [same_warning]. pose proof (win_Z 1 ltac:(lia)) as W1. pose proof (win_Z 100 ltac:(lia)) as W2.
    exact (bnd_rep _ _ _ (bnd_mul _ _ _ _ _ _ (win_bnd _ _ _ _ W2) (bnd_sub _ _ _ _ _ _ (win_bnd _ _ _ _ W1) Bv ltac:(cbn; lia)) ltac:(cbn; lia))).
  Qed.
  Definition frame (r : list bwarning * out (option (list b64))) : list bwarning * out (b64 * b64) :=
    let (w, res) := r in
    match res with
    | Raise e => (w, Raise e)
    | NaN => (w, NaN)
    | Ok None => (w, Raise TypeError)
    | Ok (Some limits) =>
        match limits with
        | lo :: hi :: _ =>
            let rest := (if bis_inf hi then [BInfiniteUpperLimit] else []) in
            ((if Bltb lo (of_Z 0)
              then w ++ BNegativeLowerLimit (bmul (of_Z 100) (bsub (of_Z 1) (bpv_cdf L b (of_Z 0)))) :: rest
              else w ++ rest)%list, Ok (lo, hi))
        | _ => (w, Raise IndexError)
        end
    end.
  Lemma interval_eq modern bc : bpv_coverage_interval modern L b bc = frame (bpv_ppf_array L b [fst (bcoverage_limits bc); snd (bcoverage_limits bc)]).
  Proof using. unfold bpv_coverage_interval. rewrite bpv_ppf_two by (cbn; lia). unfold frame. reflexivity. Qed.
  Lemma frame_of w r ws lo hi : frame (w, r) = (ws, Ok (lo, hi)) -> (forall l, r = Ok (Some l) -> length l = 2%nat) -> r = Ok (Some [lo; hi]) /\ (In BInversionFailed w -> In BInversionFailed ws).
  Proof using.
    unfold frame. destruct r as [[l|]| |]; try discriminate. intros H Len. specialize (Len l eq_refl). destruct l as [|x1 [|x2 [|x3 r]]]; try discriminate Len.
    destruct (Bltb x1 (of_Z 0)); inversion H; subst; (split; [reflexivity|]; intros I; apply in_or_app; now left).
  Qed.
  Lemma interval_back modern bc c ws lo hi : rep bc c -> Rabs c <= 2 -> bpv_coverage_interval modern L b bc = (ws, Ok (lo, hi)) -> ~ In BInversionFailed ws ->
    moderate lo -> moderate hi ->
    exists wsf x y, fpv_coverage_interval modern V p' c = (wsf, Ok (Finite x, Finite y)) /\ rep lo x /\ rep hi y /\ Forall2 same_warning ws wsf.
  Proof using All.
    intros Rc Bc H N Mlo Mhi. pose proof H as H'. rewrite interval_eq in H'. remember (bpv_ppf_array L b [fst (bcoverage_limits bc); snd (bcoverage_limits bc)]) as y eqn:E. symmetry in E. destruct y as [w r].
    pose proof E as E0. rewrite bpv_ppf_array_eq in E0.
    destruct (frame_of w r ws lo hi H') as [-> IW]. { intros l ->. exact (bppf_length _ _ _ _ _ _ _ _ E0). }
    assert (W0 : w = []) by (apply (bppf_warns _ _ _ _ _ _ _ _ E0); intros I; apply N, IW, I). subst w.
    destruct (coverage_rep bc c Rc) as (R1 & R2 & _ & _). { eapply Rle_trans; [exact Bc|]. assert (2 ^ 1 <= 2 ^ 900) by (apply Rle_pow; [lra|lia]). lra. }
    destruct (limits_small c Bc) as [B1 B2].
    destruct (array_back L V b p' p KV SV C A [fst (bcoverage_limits bc); snd (bcoverage_limits bc)] [fmul (1 / 2) (fsub 1 c); fmul (1 / 2) (fadd 1 c)] [lo; hi]) as (xs & EF & R); [constructor; [exact R1|constructor; [exact R2|constructor]]|constructor; [exact B1|constructor; [exact B2|constructor]]|exact E|constructor; [exact Mlo|constructor; [exact Mhi|constructor]]|].
    inversion R as [|? x ? xs1 Rx R' ]; subst. inversion R' as [|? y ? xs2 Ry R'']; subst. inversion R''; subst. cbn [map] in EF.
    destruct (interval_same modern bc c lo hi x y _ Rc Bc E EF Rx Ry H) as (ws' & wsf & Q & F & W). inversion Q; subst ws'. exists wsf, x, y. auto.
  Qed.
  (** Quantiles for a coverage. *)
  Lemma quantiles_same bc c n : rep bc c -> 0 <= c <= 1 -> (2 <= n <= 2 ^ 50)%Z ->
    exists bqs qs, blinspace (fst (bcoverage_limits bc)) (snd (bcoverage_limits bc)) n = Ok bqs /\ flinspace (fmul (1 / 2) (fsub 1 c)) (fmul (1 / 2) (fadd 1 c)) n = Ok qs /\
      Forall2 rep bqs qs /\ List.Forall (fun q => Rabs q <= 2) qs /\ length qs = Z.to_nat n /\ length bqs = Z.to_nat n.
  Proof using.
    intros Rc Hc Hn. assert (Bc : Rabs c <= 2 ^ 900) by (assert (2 ^ 0 <= 2 ^ 900) by (apply Rle_pow; [lra|lia]); apply Rabs_le; lra). destruct (coverage_rep bc c Rc Bc) as (R1 & R2 & B1 & B2).
    destruct (quantiles01 c (rep_double _ _ Rc) Hc) as (D1 & D2 & H1 & H2 & E1 & E2). pose proof u_pos. unfold q_lo, q_hi in *.
    destruct (lin_error _ _ ((1 - c) / 2) ((1 + c) / 2) n (3 * u) D1 D2 ltac:(lra) Hn ltac:(apply nu_gap; [exact Hn|]; apply half_gap; auto; lra) ltac:(apply Rabs_le; lra) ltac:(apply Rabs_le; lra) E1 E2) as (qs & Eq & _ & Lq & Rq & _).
    assert (Am : forall x y, rep x y -> Rabs y <= bpow radix2 902 -> at_most 1020 x). { intros x y [F <-] B. split; [exact F|]. eapply Rle_trans; [exact B|]. apply bpow_le. lia. }
    destruct (linspace_moderate _ _ n ltac:(lia) (Am _ _ R1 B1) (Am _ _ R2 B2)) as (bqs & qs' & Eb & Eq' & F). destruct R1 as [_ R1], R2 as [_ R2]. rewrite R1, R2, Eq in Eq'. injection Eq' as <-.
    exists bqs, qs. split; [exact Eb|]. split; [exact Eq|]. split; [exact F|]. split; [eapply List.Forall_impl; [|exact Rq]; cbv beta; intros z Hz; apply Rabs_le; lra|]. split; [exact Lq|]. rewrite <- Lq. clear - F. induction F; cbn; congruence.
  Qed.
  Lemma grid_back modern bc c n g : rep bc c -> 0 <= c <= 1 -> (2 <= n <= 2 ^ 50)%Z ->
    bpv_probability_grid modern L b (BCoverage bc) n = ([], Ok (Some g)) -> List.Forall moderate g ->
    exists xs, fpv_probability_grid modern V p' (Coverage c) n = ([], Ok (Some (map Finite xs))) /\ Forall2 rep g xs.
  Proof using All.
    intros Rc Hc Hn H M. destruct (quantiles_same bc c n Rc Hc Hn) as (bqs & qs & Eb & Ef & F & B & L1 & L2). unfold bpv_probability_grid in H. rewrite Eb in H. rewrite bpv_ppf_two in H by lia. destruct (bpv_ppf_array L b bqs) as [w r] eqn:E. inversion H; subst w r.
    destruct (array_back L V b p' p KV SV C A bqs qs g F B E M) as (xs & EF & R). exists xs. split; [|exact R]. unfold fpv_probability_grid. cbn [bind]. rewrite Ef, ppf_two, EF by lia. reflexivity.
  Qed.
  (** *** nan *)
  Lemma slope_peak : bzero (bpv_pdf (bv_b L) b (bp_energy b)) = false.
  Proof using All.
    pose proof (energy_rep b p' A) as Re. pose proof (win_bnd _ _ _ _ (pa_energy _ _ A)) as Be. assert (W : within b (bp_energy b)). { apply (moderate_within b p' A); [apply Re|]. destruct Re as [_ ->]. eapply Rle_trans; [apply (proj2 Be)|]. rewrite pow_bp. apply bpow_le. cbn; lia. }
    pose proof (pdf_in L V b p' p KV SV C A _ _ Re W) as R. cbv beta in R. rewrite (zero_same _ _ R). unfold is_zero. destruct (Req_EM_T _ 0) as [Z|]; [exfalso|reflexivity].
    destruct (central_pdf V p' p KV C (pv_energy p) (cl_double _ _ C)) as (v & V1 & V2). { pose proof (cl_valid _ _ C) as (PG & _). rewrite Rminus_eq_0, Rabs_R0. lra. }
    rewrite (cl_energy _ _ C), V1 in Z. cbn [number] in Z. subst v. pose proof (L_Dist.dens_pos _ _ (pv_density p (cl_valid _ _ C)) (pv_energy p)) as P. rewrite Rminus_eq_0 in V2. unfold Rdiv in V2. rewrite Rmult_0_l, pow_i, Rmult_0_r, Rplus_0_r in V2 by lia.
    rewrite Rminus_0_l, Rabs_Ropp, Rabs_pos_eq in V2 by lra. assert (u <= / 1000000) by (unfold u; simpl pow; lra). nra.
  Qed.
End Line.

(** ** nan *)
Section Nan.
  Variables (L : bpvlib) (b : bpv).
  Notation nans n := (repeat (B754_nan : b64) n).
  Lemma mix_nan_l e x : bmix e B754_nan x = B754_nan.
  Proof. unfold bmix. now rewrite mul_nan, ?add_nan, ?nan_add. Qed.
  Lemma mix_nan_r e x : bmix e x B754_nan = B754_nan.
  Proof. unfold bmix. now rewrite mul_nan, ?add_nan, ?nan_add. Qed.
  Lemma cdf_broken x : broken_pv b -> bpv_cdf L b x = B754_nan.
  Proof. unfold bpv_cdf. intros [H|H]; rewrite (L_Ieee21.cdf_broken _ _ _ _ H); [apply mix_nan_l|apply mix_nan_r]. Qed.
  Lemma cauchy_broken l s x : broken l s -> bcauchy_pdf l s x = B754_nan.
  Proof. unfold bcauchy_pdf. intros [-> | ->]; [reflexivity|]. destruct (Bltb _ s); [|reflexivity]. cbv zeta. rewrite sub_nan, (nan_quo s). now rewrite mul_nan, add_nan, quo_nan, nan_quo. Qed.
  Lemma pdf_broken x : broken_pv b -> bpv_pdf (bv_b L) b x = B754_nan.
  Proof.
    unfold bpv_pdf. intros [[H|H]|H].
    - unfold bnorm_pdf. rewrite H. apply mix_nan_l.
    - rewrite (cauchy_broken (bp_energy b)) by now right. apply mix_nan_r.
    - rewrite (cauchy_broken _ _ _ H). apply mix_nan_r.
  Qed.
  Lemma nans_map (qs : list b64) : map (fun _ => B754_nan) qs = nans (length qs).
  Proof. induction qs as [|q qs IH]; [reflexivity|]. exact (f_equal (cons (B754_nan : b64)) IH). Qed.
  Definition silent (qs : list b64) : Prop := bpv_ppf_array L b qs = ([], Ok (Some (nans (length qs)))).
  Lemma silent_of qs : bzero (bpv_pdf (bv_b L) b (bp_energy b)) = false -> (forall q, In q qs -> bsub (bpv_cdf L b (bp_energy b)) q = B754_nan) -> qs <> [] -> silent qs.
  Proof. intros S H N. unfold silent. rewrite bpv_ppf_array_eq, <- nans_map. exact (nan_array _ _ _ _ S 49 qs H N). Qed.
  Lemma silent_broken qs : broken_pv b -> qs <> [] -> silent qs.
  Proof. intros H N. apply silent_of; [rewrite (pdf_broken _ H); reflexivity| |exact N]. intros q _. now rewrite (cdf_broken _ H), nan_sub. Qed.
  Lemma silent_nans n : bzero (bpv_pdf (bv_b L) b (bp_energy b)) = false -> silent (nans (S n)).
  Proof. intros S. apply silent_of; [exact S| |discriminate]. intros q I. apply repeat_spec in I. subst q. apply sub_nan. Qed.
  Lemma linspace_nans n : (2 <= n)%Z -> blinspace B754_nan B754_nan n = Ok (nans (Z.to_nat n)).
  Proof.
    intros Hn. destruct (L_Ieee21.nat_of n Hn) as [m ->]. rewrite L_Ieee21.linspace_eq. f_equal. replace (Z.to_nat (Z.of_nat (S (S m)))) with (S m + 1)%nat by lia. rewrite repeat_app. f_equal.
    transitivity (nans (length (seq 0 (S m)))); [|now rewrite seq_length]. apply L_Ieee21.map_const. intros. apply L_Ieee21.point_nan_l.
  Qed.
  Lemma linspace_length a z n : (2 <= n)%Z -> exists qs, blinspace a z n = Ok qs /\ length qs = Z.to_nat n.
  Proof. intros Hn. destruct (L_Ieee21.nat_of n Hn) as [m ->]. rewrite L_Ieee21.linspace_eq. eexists. split; [reflexivity|]. rewrite app_length, map_length, seq_length. cbn [length]. lia. Qed.
  Lemma interval_silent modern c : silent [fst (bcoverage_limits c); snd (bcoverage_limits c)] -> bpv_coverage_interval modern L b c = ([], Ok (B754_nan, B754_nan)).
  Proof. intros H. rewrite interval_eq, H. reflexivity. Qed.
  Lemma coverage_silent modern c n qs : blinspace (fst (bcoverage_limits c)) (snd (bcoverage_limits c)) n = Ok qs -> length qs = Z.to_nat n -> (2 <= n)%Z -> silent qs ->
    bpv_probability_grid modern L b (BCoverage c) n = ([], Ok (Some (nans (Z.to_nat n)))).
  Proof. intros E Lq Hn H. unfold bpv_probability_grid. rewrite E, bpv_ppf_two by lia. rewrite H, Lq. reflexivity. Qed.
  Lemma set_ends_nan a z n : (2 <= n)%Z -> (let! h := set_first (nans (Z.to_nat n)) a in set_last h z) = Ok (a :: nans (Z.to_nat (n - 2)) ++ [z]).
  Proof.
    intros Hn. destruct (L_Ieee21.nat_of n Hn) as [m ->]. rewrite Nat2Z.id. replace (Z.to_nat (Z.of_nat (S (S m)) - 2)) with m by lia.
    assert (K : forall i k, nans k = map (fun _ : nat => (B754_nan : b64)) (seq i k)). { intros i k. symmetry. transitivity (nans (length (seq i k))); [apply L_Ieee21.map_const; reflexivity|now rewrite seq_length]. }
    rewrite (K 0%nat (S (S m))), (K 1%nat m). apply (L_Ieee21.set_ends (fun _ => (B754_nan : b64))).
  Qed.
  Lemma limits_silent modern a z n qs : blinspace (bpv_cdf L b a) (bpv_cdf L b z) n = Ok qs -> length qs = Z.to_nat n -> (2 <= n)%Z -> silent qs ->
    bpv_probability_grid modern L b (BLimits a z) n = ([], Ok (Some (a :: nans (Z.to_nat (n - 2)) ++ [z]))).
  Proof.
    intros E Lq Hn H. unfold bpv_probability_grid. cbn [fst snd]. rewrite E, bpv_ppf_two by lia. rewrite H, Lq. cbn [bind]. pose proof (set_ends_nan a z n Hn) as S. destruct (set_first _ a) as [h| |]; cbn [bind] in *; try discriminate. now rewrite S.
  Qed.
  (** A broken distribution. *)
  Lemma broken_interval modern c : broken_pv b -> bpv_coverage_interval modern L b c = ([], Ok (B754_nan, B754_nan)).
  Proof. intros H. apply interval_silent. apply silent_broken; [exact H|discriminate]. Qed.
  Lemma broken_coverage modern c n : broken_pv b -> (2 <= n)%Z -> bpv_probability_grid modern L b (BCoverage c) n = ([], Ok (Some (nans (Z.to_nat n)))).
  Proof.
    intros H Hn. destruct (linspace_length (fst (bcoverage_limits c)) (snd (bcoverage_limits c)) n Hn) as (qs & E & Lq). apply (coverage_silent modern c n qs E Lq Hn). apply silent_broken; [exact H|]. destruct qs; [cbn in Lq; lia|discriminate].
  Qed.
  Lemma broken_limits modern a z n : broken_pv b -> (2 <= n)%Z -> bpv_probability_grid modern L b (BLimits a z) n = ([], Ok (Some (a :: nans (Z.to_nat (n - 2)) ++ [z]))).
  Proof.
    intros H Hn. destruct (linspace_length (bpv_cdf L b a) (bpv_cdf L b z) n Hn) as (qs & E & Lq). apply (limits_silent modern a z n qs E Lq Hn). apply silent_broken; [exact H|]. destruct qs; [cbn in Lq; lia|discriminate].
  Qed.
  (** A coverage that is nan, or limits that are. *)
  Hypothesis peak : bzero (bpv_pdf (bv_b L) b (bp_energy b)) = false.
  Lemma nan_interval modern : bpv_coverage_interval modern L b B754_nan = ([], Ok (B754_nan, B754_nan)).
  Proof. apply interval_silent. exact (silent_nans 1 peak). Qed.
  Lemma nan_grid modern n : (2 <= n)%Z -> bpv_probability_grid modern L b (BCoverage B754_nan) n = ([], Ok (Some (nans (Z.to_nat n)))).
  Proof. intros Hn. apply (coverage_silent modern B754_nan n (nans (Z.to_nat n))); [rewrite L_Ieee21.nan_limits_of_nan; exact (linspace_nans n Hn)|apply repeat_length|exact Hn|]. replace (Z.to_nat n) with (S (Z.to_nat (n - 1))) by lia. exact (silent_nans _ peak). Qed.
  Lemma nan_limits modern n : (2 <= n)%Z -> bpv_probability_grid modern L b (BLimits B754_nan B754_nan) n = ([], Ok (Some (nans (Z.to_nat n)))).
  Proof.
    intros Hn. assert (Q : silent (nans (Z.to_nat n))) by (replace (Z.to_nat n) with (S (Z.to_nat (n - 1))) by lia; exact (silent_nans _ peak)).
    rewrite (limits_silent modern _ _ n (nans (Z.to_nat n))); [|rewrite (cdf_nan L b); exact (linspace_nans n Hn)|apply repeat_length|exact Hn|exact Q].
    do 3 f_equal. replace (Z.to_nat n) with (1 + (Z.to_nat (n - 2) + 1))%nat by lia. rewrite !repeat_app. reflexivity.
  Qed.
End Nan.
