(** Quantiles, coverage intervals and grids of pseudo-Voigt lines with rounding. *)
From Coq Require Import Reals List ZArith Lra Lia Psatz Sorted.
From Flocq Require Import Core.
From Coquelicot Require Import Coquelicot.
From Verif Require Import Py Spec M_Num M_Grid M_Constituents M_Thermal M_Dist M_CrossSection M_Resonance M_PseudoVoigt M_Float S_Float M_Float2 M_Float3 S_Float3 M_Float4 S_Float4 M_Float6 S_Float6 M_Float8 S_Float8 M_Float12 S_Float12 S_Float13
  S_Resonance S_PseudoVoigt L_RInt L_Dist L_Constituents L_PseudoVoigt L_FNewton L_Float L_Float2 L_Float3 L_Float5 L_Float7 L_Float9 L_Float11 L_Float12 L_Float20 L_Float21 L_Float22 L_Float27 L_Float28 L_Float30 L_Float31 L_Float32.
Import ListNotations.
Open Scope R_scope.
Open Scope list_scope.
Open Scope py_scope.

(** ** Probabilities *)
Lemma quantiles01 c : double c -> 0 <= c <= 1 -> double (q_lo c) /\ double (q_hi c) /\ 0 <= q_lo c <= 1 / 2 /\ 1 / 2 <= q_hi c <= 1 /\
  Rabs (q_lo c - (1 - c) / 2) <= 3 * u /\ Rabs (q_hi c - (1 + c) / 2) <= 3 * u.
Proof.
  intros Dc Hc. pose proof u_pos. pose proof u_tiny. pose proof eta_u. destruct double_4u as (D4 & D2 & Dh).
  assert (Dtwo : double 2) by (replace 2 with (IZR 1 * bpow radix2 1) by (simpl; lra); now apply double_nu).
  assert (L1 : 0 <= fsub 1 c) by (apply rnd_nonneg; lra).
  assert (L2 : fsub 1 c <= 1) by (apply rnd_le_d; [apply double_1|lra]).
  assert (L3 : 1 <= fadd 1 c) by (apply rnd_ge; [apply double_1|lra]).
  assert (L4 : fadd 1 c <= 2) by (apply rnd_le_d; [exact Dtwo|lra]).
  split; [apply rnd_double|]. split; [apply rnd_double|]. split; [|split; [|split]].
  - split; [apply rnd_nonneg; lra|]. apply rnd_le_d; [exact Dh|lra].
  - split; [apply rnd_ge; [exact Dh|lra]|]. apply rnd_le_d; [apply double_1|lra].
  - pose proof (half_err (fsub 1 c) ltac:(lra)) as E. destruct (fsub_error 1 c double_1 Dc) as (e & He & Ee).
    assert (X : Rabs (fsub 1 c / 2 - (1 - c) / 2) <= u).
    { rewrite Ee. replace ((1 - c) * (1 + e) / 2 - (1 - c) / 2) with ((1 - c) / 2 * e) by field. rewrite Rabs_mult, Rabs_pos_eq by lra. pose proof (Rabs_pos e). nra. }
    fold (q_lo c) in E. apply Rabs_le_inv in E, X. apply Rabs_le. lra.
  - pose proof (half_err (fadd 1 c) ltac:(lra)) as E. destruct (fadd_error 1 c double_1 Dc) as (e & He & Ee).
    assert (X : Rabs (fadd 1 c / 2 - (1 + c) / 2) <= u).
    { rewrite Ee. replace ((1 + c) * (1 + e) / 2 - (1 + c) / 2) with ((1 + c) / 2 * e) by field. rewrite Rabs_mult, Rabs_pos_eq by lra. pose proof (Rabs_pos e). nra. }
    fold (q_hi c) in E. apply Rabs_le_inv in E, X. apply Rabs_le. lra.
Qed.
Lemma n_pos n : (2 <= n)%Z -> 1 <= IZR (n - 1).
Proof. intros H. apply IZR_le. lia. Qed.
Lemma nu_gap p q n : (2 <= n <= 2 ^ 50)%Z -> p = q \/ / 2 ^ 60 <= q - p -> no_underflow p q n.
Proof.
  intros Hn [H|H]; [now left|right]. apply Rle_trans with (/ 2 ^ 60); [|exact H]. apply Rle_trans with (bpow radix2 (-1022) * bpow radix2 50).
  - apply Rmult_le_compat_l; [apply bpow_ge_0|]. change (bpow radix2 50) with (IZR (2 ^ 50)). apply IZR_le. lia.
  - rewrite <- bpow_plus. replace (/ 2 ^ 60) with (bpow radix2 (-60)); [apply bpow_le; lia|]. change (bpow radix2 (-60)) with (/ 1152921504606846976). simpl. lra.
Qed.
(** [p <= 1/2 <= q] *)
Lemma half_gap p q : double p -> double q -> p <= 1 / 2 <= q -> p = q \/ / 2 ^ 60 <= q - p.
Proof.
  intros Dp Dq [H1 H2]. destruct (Rle_dec p q) as [Hle|]; [|lra]. destruct (Req_dec p q) as [->|N]; [now left|right].
  destruct (Rle_dec (q - 1 / 2) 0) as [Z|Z].
  - assert (q = 1 / 2) by lra. subst q. assert (p <= 1 / 2 - / 2 ^ 60); [|lra]. assert (Hp : p < 1 / 2) by lra. clear N Z H1 H2.
    pose proof (pred_ge_gt radix2 fexp64 p (1 / 2) Dp ltac:(apply double_4u) Hp) as Y.
    eapply Rle_trans; [exact Y|]. replace (1 / 2) with (bpow radix2 (-1)) by (simpl; lra). rewrite pred_bpow. simpl. lra.
  - assert (Hq : 1 / 2 < q) by lra. pose proof (succ_le_lt radix2 fexp64 (1 / 2) q ltac:(apply double_4u) Dq Hq) as Y.
    rewrite succ_eq_pos in Y by lra. assert (ulp radix2 fexp64 (1 / 2) = / 2 ^ 53). { replace (1 / 2) with (bpow radix2 (-1)) by (simpl; lra). rewrite ulp_bpow. simpl. lra. }
    assert (/ 2 ^ 60 <= / 2 ^ 53) by (apply Rinv_le_contravar; [apply pow_lt; lra|apply Rle_pow; [lra|lia]]). lra.
Qed.
Lemma lin_error p q P Q n e : double p -> double q -> p <= q -> (2 <= n <= 2 ^ 50)%Z -> no_underflow p q n -> Rabs p <= 2 -> Rabs q <= 2 ->
  Rabs (p - P) <= e -> Rabs (q - Q) <= e -> exists qs, flinspace p q n = Ok qs /\ List.Forall double qs /\ List.length qs = Z.to_nat n /\
  List.Forall (fun z => p <= z <= q) qs /\
  forall i, (i < Z.to_nat n)%nat -> Rabs (nth i qs 0 - (P + INR i * ((Q - P) / IZR (n - 1)))) <= e + 16 * u.
Proof.
  intros Dp Dq Hpq Hn NU Ap Aq EP EQ. rewrite flinspace_ok by lia. eexists. split; [reflexivity|]. pose proof u_pos as Pu. pose proof (n_pos n (proj1 Hn)) as N1.
  split; [|split; [|split]].
  - apply List.Forall_app. split; [|constructor; [exact Dq|constructor]]. apply List.Forall_forall. intros z I. apply in_map_iff in I. destruct I as (j & <- & _). apply rnd_double.
  - rewrite app_length, map_length, seq_length. cbn. lia.
  - apply List.Forall_app. split; [|constructor; [lra|constructor]]. apply List.Forall_forall. intros z I. apply in_map_iff in I. destruct I as (j & <- & I). apply in_seq in I. apply (point_range p q n Dp Dq Hpq Hn NU). lia.
  - intros i Hi. assert (T : 0 <= INR i * / IZR (n - 1) <= 1).
    { split; [apply Rmult_le_pos; [apply pos_INR|left; apply Rinv_0_lt_compat; lra]|]. apply (Rmult_le_reg_r (IZR (n - 1))); [lra|]. rewrite Rmult_assoc, Rinv_l, Rmult_1_r, Rmult_1_l by lra. rewrite INR_IZR_INZ. apply IZR_le. lia. }
    replace (INR i * ((Q - P) / IZR (n - 1))) with (INR i * / IZR (n - 1) * (Q - P)) by (field; lra). set (t := INR i * / IZR (n - 1)) in *.
    assert (C : Rabs (p + t * (q - p) - (P + t * (Q - P))) <= e) by (apply Rabs_le_inv in EP, EQ; apply Rabs_le; nra).
    destruct (Nat.eq_dec i (Z.to_nat (n - 1))) as [Ei|Ni].
    + assert (t = 1). { unfold t. rewrite Ei, INR_IZR_INZ, Z2Nat.id by lia. apply Rinv_r. lra. } rewrite H in *. subst i.
      rewrite app_nth2 by (rewrite map_length, seq_length; lia). rewrite map_length, seq_length, Nat.sub_diag. cbn [nth]. apply Rabs_le_inv in C. apply Rabs_le. lra.
    + rewrite app_nth1 by (rewrite map_length, seq_length; lia). rewrite nth_seq by lia.
      pose proof (point_error p q n Dp Dq Hpq Hn NU i ltac:(lia)) as E. replace (INR i * ((q - p) / IZR (n - 1))) with (t * (q - p)) in E by (unfold t; field; lra).
      assert (M : Rmax (Rabs p) (Rabs q) <= 2) by now apply Rmax_lub. assert (8 * u * Rmax (Rabs p) (Rabs q) <= 16 * u) by nra. apply Rabs_le_inv in C, E. apply Rabs_le. lra.
Qed.

(** ** The points are floats *)
Lemma zip_doubles cdf (pdf : R -> R) qs : forall ps nz fder, List.Forall double ps -> List.Forall double (map4 fnewton_step nz ps (map2 fsub (map cdf ps) qs) fder).
Proof.
  intros ps. generalize (map2 fsub (map cdf ps) qs). induction ps as [|x ps IH]; intros fv nz fder H; destruct nz, fv, fder; cbn; try constructor.
  - unfold fnewton_step. destruct b; [apply rnd_double|now inversion H].
  - apply IH. now inversion H.
Qed.
Lemma newton_doubles n cdf pdf qs : forall ps bs nz x fl nz', List.Forall double ps -> farray_newton n (fun E => map2 fsub (map cdf E) qs) (map pdf) ps bs nz = (x, fl, nz') -> List.Forall double x.
Proof.
  induction n as [|n IH]; intros ps bs nz x fl nz' S E; cbn [farray_newton] in E; [injection E as <- _ _; exact S|].
  destruct (forallb is_zero _); [injection E as <- _ _; exact S|].
  destruct (negb (existsb _ (map _ (map pdf ps)))); [injection E as <- _ _; exact S|].
  destruct (negb (existsb _ (map2 andb _ _))); [injection E as <- _ _; now apply zip_doubles|].
  eapply IH; [|exact E]. now apply zip_doubles.
Qed.
Lemma array_doubles n cdf pdf m fb qs ws xs : List.Forall double qs -> double m -> fppf_array n cdf pdf m fb qs = (ws, Ok (Some xs)) -> inverted ws -> exists es, xs = map Finite es /\ List.Forall double es.
Proof.
  intros Dq Dm H I. unfold fppf_array in H. destruct (fnewton_array _ _ _ _) as [[y conv]| |e] eqn:EN; [|discriminate|destruct e; try discriminate; injection H as <- _; exfalso; apply I; now left].
  destruct (forallb _ conv) eqn:Cv; [|discriminate]. injection H as <- <-. exists y. split; [reflexivity|]. unfold fnewton_array in EN. destruct (farray_newton _ _ _ _ _ _) as [[x' fl] nz] eqn:EN'.
  assert (S : List.Forall double x'). { eapply newton_doubles; [|exact EN']. clear - Dm. induction qs; cbn; constructor; auto. }
  destruct (existsb _ _); [injection EN as <- <-; exact S|]. destruct (existsb _ fl); [destruct (forallb _ fl); [discriminate|]|]; injection EN as <- <-; exact S.
Qed.
Lemma array_quiet n cdf pdf m fb qs ws r : fppf_array n cdf pdf m fb qs = (ws, r) -> inverted ws -> ws = [].
Proof.
  unfold fppf_array. intros H I. destruct (fnewton_array _ _ _ _) as [[y conv]| |e]; [now injection H as <- _|now injection H as <- _|]. destruct e; injection H as <- _; try reflexivity. exfalso. apply I. now left.
Qed.
Lemma Forall2_length' {A B} (P : A -> B -> Prop) l m : Forall2 P l m -> List.length l = List.length m.
Proof. induction 1; cbn; auto. Qed.
Lemma Forall2_nth {A B} (P : A -> B -> Prop) l m a b : Forall2 P l m -> forall i, (i < List.length l)%nat -> P (nth i l a) (nth i m b).
Proof. induction 1; cbn; intros i Hi; [lia|]. destruct i; [assumption|]. apply IHForall2. lia. Qed.

Section Both.
  Variables (modern : bool) (L : pvlib) (k : constants) (E w amu T : R) (p p' : pv).
  Hypothesis HL : pvlib_ok L.
  Hypothesis HP : pv_params k E w amu T.
  Hypothesis HF : pv_floats k E w amu T.
  Hypothesis EP : PseudoVoigtDistribution k E w amu T = Ok p.
  Hypothesis EP' : fPseudoVoigtDistribution L k E w amu T = Ok p'.
  Lemma C : close p' p. Proof. exact (proj1 (both L k E w amu T p p' HL HP HF EP EP')). Qed.
  Lemma V : pv_valid p. Proof. exact (cl_valid _ _ C). Qed.
  Lemma PG : 0 < pv_Gamma p. Proof. exact (proj1 V). Qed.

  Lemma ppf_doubles qs ws xs : List.Forall double qs -> fpv_ppf_array L p' qs = (ws, Ok (Some xs)) -> inverted ws ->
    exists es, xs = map Finite es /\ List.Forall double es /\ Forall2 (fun q e => Rabs (pvF p e - q) <= / 2 ^ 44 + (5 / 10 ^ 8 + Rabs e / 2 ^ 50) / pv_Gamma p) qs es.
  Proof.
    intros Dq H I. pose proof (both_ppf_array L k E w amu T p p' HL HP HF EP EP' qs ws xs Dq H I) as A.
    assert (D : exists es, xs = map Finite es /\ List.Forall double es).
    { rewrite ppf_array_eq, (cl_energy _ _ C) in H. exact (array_doubles maxiter _ _ _ _ _ _ _ Dq (cl_double _ _ C) H I). }
    destruct D as (es & -> & De). exists es. split; [reflexivity|]. split; [exact De|]. clear - A HL HP HF EP EP'. revert es A. induction qs as [|q qs IH]; intros es A; inversion A as [|a b l m H1 H2 H3 H4].
    - destruct es; [constructor|discriminate].
    - destruct es as [|e es]; [discriminate|]. cbn [map] in H4. injection H4 as -> ->. constructor; [|now apply IH].
      destruct H1 as (e' & F & X & Y & Z). injection X as <-. rewrite (pv_cdf_ok p e V) in Y. injection Y as <-. exact Z.
  Qed.

  Lemma ppf_two qs : (2 <= List.length qs)%nat -> fpv_ppf modern L p' qs = fpv_ppf_array L p' qs.
  Proof. destruct qs as [|a [|b r]]; cbn [List.length]; try lia. reflexivity. Qed.
  Lemma blur_pos x : 0 < pv_blur p x.
  Proof. unfold pv_blur. pose proof PG as G. pose proof (Rabs_pos x). assert (0 < / 2 ^ 43) by (apply Rinv_0_lt_compat, pow_lt; lra). assert (0 < / 2 ^ 50) by (apply Rinv_0_lt_compat, pow_lt; lra).
    assert (0 <= (5 / 10 ^ 8 + Rabs x / 2 ^ 50) / pv_Gamma p); [|lra]. apply Rmult_le_pos; [|left; now apply Rinv_0_lt_compat]. unfold Rdiv at 2. nra. Qed.
  Lemma points_core P Q q1 q2 n e ws g : double q1 -> double q2 -> q1 <= q2 -> (2 <= n <= 2 ^ 50)%Z -> no_underflow q1 q2 n -> Rabs q1 <= 2 -> Rabs q2 <= 2 ->
    Rabs (q1 - P) <= e -> Rabs (q2 - Q) <= e -> e <= 300 * u -> (let! qs := flinspace q1 q2 n in Ok (fpv_ppf modern L p' qs)) = Ok (ws, Ok (Some g)) -> inverted ws ->
    exists xs, g = map Finite xs /\ List.Forall double xs /\ pv_equidistant p P Q n xs.
  Proof.
    intros D1 D2 H12 Hn NU A1 A2 E1 E2 He H I. destruct (lin_error q1 q2 P Q n e D1 D2 H12 Hn NU A1 A2 E1 E2) as (qs & Eq & Dq & Lq & _ & Err). rewrite Eq in H. cbn [bind] in H. injection H as H.
    rewrite ppf_two in H by lia. destruct (ppf_doubles qs ws g Dq H I) as (xs & -> & Dx & Fx). exists xs. split; [reflexivity|]. split; [exact Dx|]. split; [rewrite <- (Forall2_length' _ _ _ Fx); exact Lq|].
    intros i Hi. exists (pvF p (nth i xs 0)). split; [apply pv_cdf_ok, V|]. pose proof (Forall2_nth _ qs xs 0 0 Fx i ltac:(lia)) as B. cbv beta in B. pose proof (Err i Hi) as B2.
    unfold pv_blur. assert (e + 16 * u + / 2 ^ 44 <= / 2 ^ 43). { unfold u in *. simpl pow in *. lra. } apply Rabs_le_inv in B, B2. apply Rabs_le. lra.
  Qed.
  Lemma coverage_points c n ws g : double c -> 0 <= c <= 1 -> (2 <= n <= 2 ^ 50)%Z -> fpv_probability_grid modern L p' (Coverage c) n = (ws, Ok (Some g)) -> inverted ws ->
    exists xs, g = map Finite xs /\ List.Forall double xs /\ pv_equidistant p ((1 - c) / 2) ((1 + c) / 2) n xs.
  Proof.
    intros Dc Hc Hn H I. destruct (quantiles01 c Dc Hc) as (D1 & D2 & R1 & R2 & E1 & E2). pose proof u_pos.
    unfold fpv_probability_grid in H. fold (q_lo c) (q_hi c) in H. cbn [bind] in H.
    apply (points_core ((1 - c) / 2) ((1 + c) / 2) (q_lo c) (q_hi c) n (3 * u) ws g); auto; try lra.
    - apply nu_gap; [exact Hn|]. apply half_gap; auto. lra.
    - rewrite Rabs_pos_eq; lra.
    - rewrite Rabs_pos_eq; lra.
    - destruct (flinspace _ _ n) as [qs| |e]; cbn [bind]; [|discriminate|discriminate]. destruct (fpv_ppf modern L p' qs) as [w' res]. injection H as -> ->. reflexivity.
  Qed.
  Lemma cdf_val x : double x -> exists v, fpv_cdf L p' x = Ok v /\ double v /\ Rabs (v - pvF p x) <= 300 * u.
  Proof. exact (cdf_error L p' p HL C x). Qed.
  Lemma pvF_range x : 0 <= pvF p x <= 1.
  Proof. destruct (pv_density p V) as (_ & _ & _ & _). pose proof V as (_ & He & _). unfold pvF. destruct (pv_scales p V) as [S1 S2]. pose proof (F0_range Normal ((x - pv_energy p) / (pv_gamma_G p / sqrt 2))) as N1. pose proof (F0_range Cauchy ((x - pv_energy p) / (1 / 2 * pv_gamma_L p))) as N2.
    rewrite <- line_F0 in N1, N2. cbn [line_cdf] in N1, N2. nra. Qed.
  Lemma ends_points a b n g ws : double a -> double b -> (2 <= n <= 2 ^ 50)%Z -> / 2 ^ 40 <= pvF p b - pvF p a -> fpv_probability_grid modern L p' (Limits a b) n = (ws, Ok (Some g)) -> inverted ws ->
    exists xs, g = map Finite xs /\ List.Forall double xs /\ first xs = a /\ final xs = b /\ pv_equidistant p (pvF p a) (pvF p b) n xs.
  Proof.
    intros Da Db Hn Hg H I. destruct (cdf_val a Da) as (q1 & V1 & D1 & E1). destruct (cdf_val b Db) as (q2 & V2 & D2 & E2). pose proof u_pos.
    unfold fpv_probability_grid in H. rewrite V1 in H. cbn [bind] in H. rewrite V2 in H. cbn [bind] in H.
    pose proof (pvF_range a) as Ra. pose proof (pvF_range b) as Rb. pose proof E1 as E1'. pose proof E2 as E2'. apply Rabs_le_inv in E1', E2'. assert (U : 600 * u <= / 2 ^ 41 /\ 300 * u <= 1 /\ / 2 ^ 60 <= / 2 ^ 41 /\ / 2 ^ 41 + / 2 ^ 41 = / 2 ^ 40) by (unfold u; simpl pow; repeat split; lra).
    destruct (flinspace q1 q2 n) as [qs| |e] eqn:LS; [|destruct U as (U1 & U2 & U3); exfalso|discriminate].
    2: { rewrite flinspace_ok in LS by lia. discriminate. }
    destruct (fpv_ppf modern L p' qs) as [w' res] eqn:PF. injection H as -> H. destruct res as [[l|]| |e]; cbn [bind] in H; try discriminate.
    destruct (points_core (pvF p a) (pvF p b) q1 q2 n (300 * u) ws l) as (xs & -> & Dx & Len & Eqd); auto; try lra.
    - apply nu_gap; [exact Hn|]. right. lra.
    - apply Rabs_le. lra.
    - apply Rabs_le. lra.
    - rewrite LS. cbn [bind]. now rewrite PF.
    - destruct (split_n n (proj1 Hn)) as (m & Em). destruct xs as [|x xs]; [cbn in Len; lia|]. destruct (exists_last (l := xs)) as (r & y & ->). { intros ->. cbn in Len. lia. }
      cbn [map] in H. rewrite map_app in H. cbn [map] in H. pose proof (set_ends (Finite x) (Finite y) (Finite a) (Finite b) (map Finite r)) as SE.
      destruct (set_first _ (Finite a)) as [l1| |]; cbn [bind] in H, SE; try discriminate. rewrite SE in H. cbn [bind] in H. injection H as <-.
      assert (Lr : List.length r = m) by (cbn in Len; rewrite app_length in Len; cbn in Len; lia).
      exists (a :: r ++ [b]). split; [cbn; now rewrite map_app|]. inversion Dx as [|? ? D0 Dr]. apply List.Forall_app in Dr. destruct Dr as [Dr _].
      split; [constructor; [exact Da|apply List.Forall_app; split; [exact Dr|constructor; [exact Db|constructor]]]|]. split; [reflexivity|]. split; [unfold final; rewrite app_comm_cons; apply last_last|].
      split; [cbn in Len |- *; rewrite app_length in Len |- *; cbn in Len |- *; lia|]. intros i Hi.
      destruct (Nat.eq_dec i 0) as [->|N0]; [|destruct (Nat.eq_dec i (S m)) as [->|N1']].
      + cbn [nth]. exists (pvF p a). split; [apply pv_cdf_ok, V|]. change (INR 0) with 0. rewrite Rmult_0_l, Rplus_0_r, Rminus_diag_eq, Rabs_R0 by reflexivity. left. apply blur_pos.
      + rewrite app_comm_cons, app_nth2 by (cbn; lia). replace (S m - List.length (a :: r))%nat with 0%nat by (cbn; lia). cbn [nth]. exists (pvF p b). split; [apply pv_cdf_ok, V|].
        assert (X : INR (S m) = IZR (n - 1)) by (rewrite INR_IZR_INZ; f_equal; lia). pose proof (n_pos n (proj1 Hn)). rewrite X. replace (pvF p b - _) with 0 by (field; lra). rewrite Rabs_R0. left. apply blur_pos.
      + pose proof (Eqd i Hi) as Z. assert (Y : forall z t, nth i (z :: r ++ [t]) 0 = nth (i - 1) r 0). { intros z t. destruct i; [lia|]. cbn [nth]. rewrite app_nth1 by lia. f_equal. lia. }
        rewrite Y in Z |- *. exact Z.
  Qed.
  Lemma equidistant_ascending P Q n e xs : (2 <= n)%Z -> pv_equidistant p P Q n xs -> (forall x, In x xs -> pv_blur p x <= e) -> 2 * e < (Q - P) / IZR (n - 1) -> strictly_ascending xs.
  Proof.
    intros Hn (Len & Eq) He H. assert (X : xs = map (fun i => nth i xs 0) (seq 0 (Z.to_nat n))).
    { apply (nth_ext _ _ 0 0); [now rewrite map_length, seq_length|]. intros i Hi. rewrite nth_seq by lia. reflexivity. }
    rewrite X. destruct (Z.to_nat n) as [|m] eqn:En; [constructor|]. assert (Er : forall i, (i < S m)%nat -> Rabs (pvF p (nth i xs 0) - (P + INR i * ((Q - P) / IZR (n - 1)))) <= e).
    { intros i Hi. destruct (Eq i Hi) as (F & EF & B). rewrite (pv_cdf_ok p _ V) in EF. injection EF as <-. eapply Rle_trans; [exact B|]. apply He, nth_In. lia. }
    apply sorted_map_seq. intros i j [I1 I2]. pose proof (Er i ltac:(lia)) as E1. pose proof (Er j ltac:(lia)) as E2. apply Rabs_le_inv in E1, E2.
    assert (INR i + 1 <= INR j) by (rewrite <- S_INR; apply le_INR; lia).
    apply (dens_lt_inv _ _ (pv_density p V)). set (h := (Q - P) / IZR (n - 1)) in *. assert (0 <= e) by (pose proof (Rabs_pos (pvF p (nth i xs 0) - (P + INR i * h))); pose proof (Er i ltac:(lia)); lra). nra.
  Qed.

  (** ** Coverage intervals *)
  Lemma fpv_quiet qs ws r : fpv_ppf_array L p' qs = (ws, r) -> inverted ws -> ws = [].
  Proof. unfold fpv_ppf_array. apply array_quiet. Qed.
  Lemma interval_unfold c ws lo hi : fpv_coverage_interval modern L p' c = (ws, Ok (lo, hi)) -> exists w' r, fpv_ppf_array L p' [q_lo c; q_hi c] = (w', Ok (Some (lo :: hi :: r))) /\
    (Rbar_negative lo = true -> forall v, fpv_cdf L p' 0 = Ok v -> ws = w' ++ NegativeLowerLimit (fmul 100 (fsub 1 v)) :: if Rbar_is_inf hi then [InfiniteUpperLimit] else []) /\
    (Rbar_negative lo = false -> ws = w' ++ if Rbar_is_inf hi then [InfiniteUpperLimit] else []) /\ (forall z, In z w' -> In z ws).
  Proof.
    unfold fpv_coverage_interval. fold (q_lo c) (q_hi c). rewrite ppf_two by (cbn; lia). destruct (fpv_ppf_array L p' [q_lo c; q_hi c]) as [w' [[l|]| |e]]; try discriminate.
    destruct l as [|x [|y r]]; try discriminate. destruct (Rbar_negative x) eqn:N.
    - destruct (fpv_cdf L p' 0) as [F0| |]; try discriminate. intros H. injection H as <- <- <-. exists w', r. split; [reflexivity|]. split; [intros _ v Ev; injection Ev as <-; reflexivity|]. split; [congruence|]. intros z I. apply in_app_iff. now left.
    - intros H. injection H as <- <- <-. exists w', r. split; [reflexivity|]. split; [congruence|]. split; [reflexivity|]. intros z I. apply in_app_iff. now left.
  Qed.
  Lemma percent_error v : double v -> Rabs (v - pvF p 0) <= 300 * u -> Rabs (fmul 100 (fsub 1 v) - 100 * (1 - pvF p 0)) <= / 10 ^ 10.
  Proof.
    intros Dv Bv. pose proof u_pos. pose proof (pvF_range 0) as Rg. assert (Uu : u <= / 10 ^ 15) by (unfold u; simpl pow; lra). pose proof eta_u as EU.
    destruct (fsub_error 1 v double_1 Dv) as (e1 & He1 & Ee1). destruct (rnd_error (100 * fsub 1 v)) as (e2 & h2 & He2 & Hh2 & Ee2). unfold fmul. rewrite Ee2, Ee1. apply Rabs_le_inv in Bv, He1, He2, Hh2.
    assert (Uv : 300 * u <= 3 / 10 ^ 13 /\ u <= 1 / 100) by (simpl pow in *; lra).
    set (z := 1 - v) in *. assert (Z : - 2 <= z <= 2) by (unfold z; simpl pow in *; lra). assert (Zv : Rabs (z - (1 - pvF p 0)) <= 300 * u) by (unfold z; apply Rabs_le; lra). apply Rabs_le_inv in Zv.
    assert (K1 : Rabs (z * e1) <= 2 * u) by (rewrite Rabs_mult; apply Rmult_le_compat; [apply Rabs_pos|apply Rabs_pos|apply Rabs_le; lra|apply Rabs_le; lra]). apply Rabs_le_inv in K1.
    assert (K2 : Rabs (100 * (z * (1 + e1)) * e2) <= 300 * u). { rewrite Rabs_mult. apply Rmult_le_compat; [apply Rabs_pos|apply Rabs_pos|apply Rabs_le; lra|apply Rabs_le; lra]. } apply Rabs_le_inv in K2.
    apply Rabs_le. replace (100 * (z * (1 + e1)) * (1 + e2) + h2) with (100 * z + 100 * (z * e1) + 100 * (z * (1 + e1)) * e2 + h2) by ring. simpl pow in *. lra.
  Qed.
  Lemma interval_ok c ws lo hi : double c -> 0 <= c <= 1 -> fpv_coverage_interval modern L p' c = (ws, Ok (lo, hi)) -> inverted ws ->
    exists a b, lo = Finite a /\ hi = Finite b /\ double a /\ double b /\ Rabs (pvF p a - (1 - c) / 2) <= pv_blur p a /\ Rabs (pvF p b - (1 + c) / 2) <= pv_blur p b /\
      (0 <= a -> ws = []) /\ (a < 0 -> exists v, ws = [NegativeLowerLimit v] /\ Rabs (v - 100 * (1 - pvF p 0)) <= / 10 ^ 10).
  Proof.
    intros Dc Hc H I. destruct (quantiles01 c Dc Hc) as (D1 & D2 & R1 & R2 & E1 & E2). pose proof u_pos.
    destruct (interval_unfold c ws lo hi H) as (w' & r & PF & N1 & N2 & N3). clear H. assert (I' : inverted w') by (intros J; apply I, N3, J).
    destruct (ppf_doubles [q_lo c; q_hi c] w' _ ltac:(repeat constructor; assumption) PF I') as (es & Ees & De & Fe). pose proof (fpv_quiet _ _ _ PF I') as W'. clear PF. subst w'.
    inversion Fe as [|? a ? l1 B1 Fe1 X1 Y1]; subst. inversion Fe1 as [|? b ? l2 B2 Fe2 X2 Y2]; subst. inversion Fe2; subst. cbn [map] in Ees. injection Ees as -> -> ->. clear Fe Fe1 Fe2.
    exists a, b. inversion De as [|? ? Da De1]; subst. inversion De1 as [|? ? Db De2]; subst.
    assert (S : / 2 ^ 44 + 3 * u <= / 2 ^ 43) by (unfold u; simpl pow; lra).
    assert (G1 : Rabs (pvF p a - (1 - c) / 2) <= pv_blur p a) by (unfold pv_blur; apply Rabs_le_inv in B1, E1; apply Rabs_le; lra).
    assert (G2 : Rabs (pvF p b - (1 + c) / 2) <= pv_blur p b) by (unfold pv_blur; apply Rabs_le_inv in B2, E2; apply Rabs_le; lra).
    do 6 (split; [first [reflexivity|assumption]|]). cbn [Rbar_is_inf Rbar_negative app] in N1, N2. destruct (Rlt_dec a 0) as [N|N].
    - destruct (cdf_val 0 double_0) as (v & V1 & Dv & Bv). split; [lra|]. intros _. eexists. split; [exact (N1 eq_refl v V1)|]. now apply percent_error.
    - split; [intros _; exact (N2 eq_refl)|]. intros; lra.
  Qed.

  (** ** Existence *)
  Lemma grid_found c n s : double c -> 0 <= c <= 1 -> (2 <= n <= 2 ^ 50)%Z -> easy_line p E s -> 4 * s + / 2 ^ 40 <= 1 - c ->
    exists xs, fpv_probability_grid modern L p' (Coverage c) n = ([], Ok (Some (map Finite xs))).
  Proof.
    intros Dc Hc Hn (Hs & S1 & S2 & S3) Hcs. destruct (quantiles01 c Dc Hc) as (D1 & D2 & R1 & R2 & E1 & E2). pose proof u_pos.
    assert (U : 6 * u <= / 2 ^ 40) by (unfold u; simpl pow; lra). pose proof E1 as E1'. pose proof E2 as E2'. apply Rabs_le_inv in E1', E2'.
    destruct (lin_error (q_lo c) (q_hi c) ((1 - c) / 2) ((1 + c) / 2) n (3 * u) D1 D2 ltac:(lra) Hn) as (qs & Eq & Dq & Lq & Rq & _); auto.
    - apply nu_gap; [exact Hn|]. apply half_gap; auto. lra.
    - rewrite Rabs_pos_eq; lra.
    - rewrite Rabs_pos_eq; lra.
    - destruct (both_found_array L k E w amu T p p' HL HP HF EP EP' s qs Dq Hs) as (xs & _ & X); auto.
      { eapply List.Forall_impl; [|exact Rq]. cbv beta. intros z Z. lra. }
      exists xs. unfold fpv_probability_grid. fold (q_lo c) (q_hi c). cbn [bind]. rewrite Eq, ppf_two, X by lia. reflexivity.
  Qed.
  Lemma ends_found a b n s : double a -> double b -> (2 <= n <= 2 ^ 50)%Z -> easy_line p E s -> / 2 ^ 40 <= pvF p b - pvF p a -> 2 * s + / 2 ^ 40 <= pvF p a -> pvF p b <= 1 - 2 * s - / 2 ^ 40 ->
    exists xs, fpv_probability_grid modern L p' (Limits a b) n = ([], Ok (Some (map Finite xs))).
  Proof.
    intros Da Db Hn (Hs & S1 & S2 & S3) Hg Ha Hb. destruct (cdf_val a Da) as (q1 & V1 & D1 & E1). destruct (cdf_val b Db) as (q2 & V2 & D2 & E2). pose proof u_pos.
    pose proof E1 as E1'. pose proof E2 as E2'. apply Rabs_le_inv in E1', E2'. assert (U : 600 * u <= / 2 ^ 41 /\ / 2 ^ 60 <= / 2 ^ 41 /\ / 2 ^ 41 + / 2 ^ 41 = / 2 ^ 40) by (unfold u; simpl pow; repeat split; lra). pose proof (pvF_range a). pose proof (pvF_range b).
    destruct (lin_error q1 q2 (pvF p a) (pvF p b) n (300 * u) D1 D2 ltac:(lra) Hn) as (qs & Eq & Dq & Lq & Rq & _); auto.
    - apply nu_gap; [exact Hn|]. right. lra.
    - rewrite Rabs_pos_eq; lra.
    - rewrite Rabs_pos_eq; lra.
    - destruct (both_found_array L k E w amu T p p' HL HP HF EP EP' s qs Dq Hs) as (xs & Lx & X); auto.
      { eapply List.Forall_impl; [|exact Rq]. cbv beta. intros z Z. lra. }
      destruct xs as [|x xs]; [cbn in Lx; lia|]. destruct (exists_last (l := xs)) as (r & y & ->). { intros ->. cbn in Lx. lia. }
      exists (a :: r ++ [b]). unfold fpv_probability_grid. rewrite V1. cbn [bind]. rewrite V2. cbn [bind]. rewrite Eq, ppf_two, X by lia. cbn [bind map]. rewrite !map_app. cbn [map].
      pose proof (set_ends (Finite x) (Finite y) (Finite a) (Finite b) (map Finite r)) as SE. destruct (set_first _ (Finite a)) as [l1| |]; cbn [bind] in SE |- *; try discriminate. rewrite SE. reflexivity.
  Qed.
  Lemma interval_found c s : double c -> 0 <= c <= 1 -> easy_line p E s -> 4 * s + / 2 ^ 40 <= 1 - c ->
    exists ws lo hi, fpv_coverage_interval modern L p' c = (ws, Ok (lo, hi)) /\ inverted ws.
  Proof.
    intros Dc Hc (Hs & S1 & S2 & S3) Hcs. destruct (quantiles01 c Dc Hc) as (D1 & D2 & R1 & R2 & E1 & E2). pose proof u_pos.
    assert (U : 6 * u <= / 2 ^ 40) by (unfold u; simpl pow; lra). pose proof E1 as E1'. pose proof E2 as E2'. apply Rabs_le_inv in E1', E2'.
    destruct (both_found_array L k E w amu T p p' HL HP HF EP EP' s [q_lo c; q_hi c]) as (xs & Lx & X); auto.
    - constructor; [lra|]. constructor; [lra|constructor].
    - destruct xs as [|a [|b [|z r]]]; try discriminate Lx. unfold fpv_coverage_interval. fold (q_lo c) (q_hi c). rewrite ppf_two, X by (cbn; lia). cbn [map Rbar_is_inf Rbar_negative app].
      destruct (Rlt_dec a 0); [destruct (cdf_val 0 double_0) as (v & -> & _)|]; do 3 eexists; (split; [reflexivity|]); intros I; cbn in I; intuition discriminate.
  Qed.
End Both.
