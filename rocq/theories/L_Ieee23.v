(** The Debye model with infinities and nan. *)
From Coq Require Import Reals List ZArith Bool Lra Lia.
From Coquelicot Require Import Rbar.
From Flocq Require Import Core BinarySingleNaN.
From Verif Require Import Py Spec M_Num M_Thermal M_Float M_Float4 M_Float10 S_Thermal S_Float S_Float10 M_Ieee M_Ieee2 M_Ieee3 M_Ieee6 S_Ieee S_Ieee5 S_Ieee6
  L_Debye L_Float L_Float42 L_Float43 L_Ieee L_Ieee2 L_Ieee5 L_Ieee9 L_Ieee13 L_Ieee20 L_Ieee22.
Import ListNotations.
Open Scope R_scope.

(** ** The integrand *)
Lemma ok_eq {A} (a b : A) : Ok a = Ok b -> b = a. Proof. congruence. Qed.
Lemma half_num : B2R (literal 1 2) = 1 / 2. Proof. exact (proj2 half_rep). Qed.
Lemma power_ok L x c : bpower PythonFloat (bd_cube L) x = Ok c -> c = bd_cube L x /\ (finite x -> binf c = false).
Proof. cbn. destruct (is_finite x && binf (bd_cube L x)) eqn:E; [discriminate|]. intros H. inversion H; subst. split; [reflexivity|]. intros F. unfold finite in F. rewrite F in E. exact E. Qed.
Lemma cube_finite L l b : same_dlib L l -> finite b -> finite (bd_cube L b) -> B2R (bd_cube L b) = d_cube l (B2R b).
Proof. intros [_ S] F G. destruct (S b _ (rep_refl b F)) as [[_ H]|(s & H & _)]; [exact H|]. rewrite H in G. discriminate. Qed.
Lemma integrand_finite L l t v : same_dlib L l -> finite t -> bdebye_integrand L t = Ok v -> finite v -> fdebye_integrand l (B2R t) = Ok (B2R v).
Proof.
  intros S F H G. unfold bdebye_integrand in H. destruct (bpower PythonFloat (bd_cube L) t) as [c| |] eqn:P; try discriminate. cbn [bind] in H. apply ok_eq in H. subst v.
  apply power_ok in P as [-> _]. unfold finite in G. apply mul_finite in G as (G1 & G2 & G3). apply add_finite in G2 as (G2 & _ & G4). unfold fdebye_integrand. pose proof (proj1 S t _ (rep_refl t F)) as X.
  destruct (d_exp l (B2R t)) as [y| |]; [| |contradiction].
  - destruct X as [X Hp]. destruct (is_finite (bsub (bd_exp L t) (of_Z 1))) eqn:D.
    + destruct (quo_finite _ _ D G2) as (_ & N & G5). apply sub_finite in D as (_ & _ & D). rewrite (proj2 X), (proj2 one_rep) in D. rewrite D in N, G5. destruct (Req_EM_T _ 0) as [E|_]; [elim N; exact E|]. f_equal.
      refine (eq_sym (eq_trans G3 _)). rewrite (cube_finite L l t S F G1). f_equal. refine (eq_trans G4 _). rewrite half_num. f_equal. refine (eq_trans G5 _). now rewrite (proj2 one_rep).
    + exfalso. assert (O : Rabs (fsub y 1) < big).
      { destruct X as [Fy Ey]. pose proof (rep_big _ _ (conj Fy Ey)) as By. pose proof (rep_double _ _ (conj Fy Ey)) as Dy. destruct (Rle_lt_dec 1 y) as [Hy|Hy].
        - unfold fsub. rewrite Rabs_pos_eq by (apply rnd_nonneg; lra). eapply Rle_lt_trans; [apply (rnd_le_d _ y); [exact Dy|lra]|]. rewrite Rabs_pos_eq in By by lra. exact By.
        - unfold fsub. eapply Rle_lt_trans; [apply (abs_round_le_generic radix2 fexp64 ZnearestE _ 1); [change (generic_format radix2 fexp64 (bpow radix2 0)); apply fmt_bp; lia|rewrite Rabs_left1; lra]|]. apply (bpow_lt radix2 0 1024). lia. }
      pose proof (proj1 (sub_rep _ _ _ _ X one_rep O)) as E. unfold bsub in *. congruence.
  - f_equal. refine (eq_sym (eq_trans G3 _)). rewrite (cube_finite L l t S F G1). f_equal. refine (eq_trans G4 _). rewrite X, half_num. f_equal.
Qed.

(** ** The effective temperature *)
Lemma debye_zero L quad T T_D : dlib_special L -> bzero T = true \/ bzero T_D = true -> bdebye_scalar L quad T T_D = Raise ZeroDivisionError.
Proof.
  intros (Sn & Si & S0 & _) H. unfold bdebye_scalar. cbn [bdivide]. destruct (bzero T_D) eqn:Z; [reflexivity|]. destruct H as [H|H]; [|discriminate]. cbn [bind].
  assert (Q : (exists s, bquo T T_D = B754_zero s) \/ bquo T T_D = B754_nan). { destruct T; try discriminate. destruct T_D; try discriminate; cbn; eauto. }
  assert (P : exists c, bpower PythonFloat (bd_cube L) (bquo T T_D) = Ok c). { destruct Q as [[s ->]| ->]; cbn; [rewrite S0|rewrite Sn]; cbn; eauto. }
  destruct P as [c ->]. cbn [bind]. rewrite H. reflexivity.
Qed.
Lemma debye_otherwise L quad T T_D : bzero T = false -> bzero T_D = false -> bdebye_scalar L quad T T_D =
  if is_finite (bquo T T_D) && binf (bd_cube L (bquo T T_D)) then Raise OverflowError else
  bind (quad (bdebye_integrand L) (of_Z 0) (bquo T_D T)) (fun q => Ok (bmul (bmul (bmul (of_Z 3) (bd_cube L (bquo T T_D))) T) q)).
Proof. intros H1 H2. unfold bdebye_scalar. cbn [bdivide]. rewrite H2. cbn [bind bpower]. destruct (_ && _); [reflexivity|]. cbn [bind]. rewrite H1. reflexivity. Qed.
Lemma debye_exceptions L quad T T_D : dlib_special L -> (forall f a b, exists v, quad f a b = Ok v) ->
  (bdebye_scalar L quad T T_D = Raise ZeroDivisionError <-> bzero T = true \/ bzero T_D = true) /\
  (bdebye_scalar L quad T T_D = Raise OverflowError <-> bzero T = false /\ bzero T_D = false /\ finite (bquo T T_D) /\ exists s, bd_cube L (bquo T T_D) = B754_infinity s) /\
  (forall e, bdebye_scalar L quad T T_D = Raise e -> e = ZeroDivisionError \/ e = OverflowError) /\ bdebye_scalar L quad T T_D <> NaN.
Proof.
  intros S Q. destruct (bzero T) eqn:ZT; [rewrite (debye_zero L quad T T_D S (or_introl ZT)); repeat split; intros; try discriminate; auto; try (inversion H; auto); destruct H as (? & _); discriminate|].
  destruct (bzero T_D) eqn:ZD; [rewrite (debye_zero L quad T T_D S (or_intror ZD)); repeat split; intros; try discriminate; auto; try (inversion H; auto); destruct H as (? & ? & _); discriminate|].
  rewrite (debye_otherwise _ _ _ _ ZT ZD). destruct (Q (bdebye_integrand L) (of_Z 0) (bquo T_D T)) as [v ->]. cbn [bind].
  destruct (is_finite (bquo T T_D) && binf (bd_cube L (bquo T T_D))) eqn:E.
  - apply andb_prop in E as [E1 E2]. split; [split; [discriminate|intros [|]; discriminate]|]. split; [split; [intros _|reflexivity]|split; [intros e H; inversion H; auto|discriminate]]. repeat split; auto. destruct (bd_cube L (bquo T T_D)); try discriminate. eauto.
  - split; [split; [discriminate|intros [|]; discriminate]|]. split; [split; [discriminate|]|split; discriminate]. intros (_ & _ & F & s & I). unfold finite in F. rewrite F, I in E. discriminate.
Qed.
Lemma debye_nan L quad T T_D : dlib_special L -> bzero T = false -> bzero T_D = false -> T = B754_nan \/ T_D = B754_nan ->
  (exists v, quad (bdebye_integrand L) (of_Z 0) B754_nan = Ok v) -> bdebye_scalar L quad T T_D = Ok B754_nan.
Proof.
  intros (Sn & _) Z1 Z2 H [v Q]. rewrite (debye_otherwise _ _ _ _ Z1 Z2). assert (N : bquo T T_D = B754_nan /\ bquo T_D T = B754_nan) by (destruct H as [-> | ->]; rewrite ?quo_nan, ?nan_quo; auto).
  destruct N as [-> ->]. rewrite Sn, Q. cbn [is_finite andb bind]. rewrite mul_nan. reflexivity.
Qed.
(** Infinite temperatures: an infinity times an integral over nothing. *)
Lemma debye_infinite L quad s T_D : dlib_special L -> finite T_D -> bzero T_D = false -> (forall s, quad (bdebye_integrand L) (of_Z 0) (B754_zero s) = Ok (of_Z 0)) ->
  bdebye_scalar L quad (B754_infinity s) T_D = Ok B754_nan.
Proof.
  intros (_ & Si & _) F Z Q. rewrite debye_otherwise by (auto; reflexivity). destruct T_D as [|?| |z m e W]; try discriminate.
  change (bquo (B754_infinity s) (B754_finite z m e W)) with (B754_infinity (xorb s z) : b64). change (bquo (B754_finite z m e W) (B754_infinity s)) with (B754_zero (xorb z s) : b64). rewrite Si, Q. cbn [is_finite andb bind]. destruct s, z; reflexivity.
Qed.
(** Infinite Debye temperatures: the result is zero or nan, although effective temperatures increase without limit. *)
Lemma debye_rigid L quad T s v : dlib_special L -> finite T -> bzero T = false -> (forall s, quad (bdebye_integrand L) (of_Z 0) (B754_infinity s) = Ok v) ->
  exists r, bdebye_scalar L quad T (B754_infinity s) = Ok r /\ if is_finite v then rep r 0 else r = B754_nan.
Proof.
  intros (_ & _ & S0 & _) F Z Q. rewrite debye_otherwise by (auto; reflexivity). destruct T as [|?| |z m e W]; try discriminate.
  change (bquo (B754_finite z m e W) (B754_infinity s)) with (B754_zero (xorb z s) : b64). change (bquo (B754_infinity s) (B754_finite z m e W)) with (B754_infinity (xorb s z) : b64). rewrite S0, Q. cbn [is_finite binf andb bind]. eexists. split; [reflexivity|].
  assert (E : exists o, bmul (bmul (of_Z 3) (B754_zero (xorb z s))) (B754_finite z m e W) = B754_zero o) by (destruct z, s; cbn; eauto). destruct E as [o ->]. destruct v as [|?| |?]; cbn; try reflexivity; split; reflexivity.
Qed.
(** Finite values are those without a limit of numbers. *)
Lemma debye_finite L l bquad quad T T_D v : dlib_special L -> same_dlib L l -> same_quad (bdebye_integrand L) (fdebye_integrand l) bquad quad ->
  finite T_D -> finite (bquo T_D T) -> bdebye_scalar L bquad T T_D = Ok v -> finite v -> fdebye_scalar l quad (B2R T) (B2R T_D) = Ok (B2R v).
Proof.
  intros Sp S Q FD FX H G. destruct (bzero T) eqn:Z1; [rewrite debye_zero in H by auto; discriminate|]. destruct (bzero T_D) eqn:Z2; [rewrite debye_zero in H by auto; discriminate|].
  rewrite (debye_otherwise _ _ _ _ Z1 Z2) in H. destruct (_ && _) eqn:E; [discriminate|]. destruct (bquad _ _ _) as [q| |] eqn:B; try discriminate. cbn [bind] in H. apply ok_eq in H. subst v.
  unfold finite in G. apply mul_finite in G as (G1 & Gq & G2). apply mul_finite in G1 as (G3 & FT & G4). apply mul_finite in G3 as (_ & G5 & G6).
  assert (FR : is_finite (bquo T T_D) = true). { destruct (bquo T T_D) as [|s| |] eqn:X; try reflexivity; destruct Sp as (Sn & Si & _); [rewrite Si in G5|rewrite Sn in G5]; discriminate. }
  destruct (quo_finite T T_D FD FR) as (_ & N & ER). destruct (quo_finite T_D T FT FX) as (_ & N' & EX). unfold fdebye_scalar. destruct (Req_EM_T (B2R T_D) 0) as [|_]; [contradiction|]. destruct (Req_EM_T (B2R T) 0) as [|_]; [contradiction|].
  pose proof (Q _ _ FX Gq B) as V. pose proof (EX : B2R (bquo T_D T) = _) as EX'. rewrite EX' in V. rewrite V. cbn [bind]. f_equal. refine (eq_sym (eq_trans G2 _)). f_equal. refine (eq_trans G4 _). f_equal. refine (eq_trans G6 _). rewrite (proj2 (Z_rep 3 ltac:(lia))). f_equal. rewrite (cube_finite L l _ S FR G5). now f_equal.
Qed.
(** Moderate temperatures. *)
Lemma rep_win b x l h : rep b x -> / 2 ^ l <= x <= 2 ^ h -> win b x (- Z.of_nat l) (Z.of_nat h).
Proof. intros R H. split; [exact R|]. rewrite bpow_opp, <- !pow_bp. exact H. Qed.
Lemma debye_range L l bquad quad T T_D t d Q q : dlib_ok l -> same_dlib L l -> rep T t -> rep T_D d -> / 2 ^ 30 <= t <= 2 ^ 30 -> / 2 ^ 30 <= d <= 2 ^ 30 ->
  bquad (bdebye_integrand L) (of_Z 0) (bquo T_D T) = Ok Q -> quad (fdebye_integrand l) 0 (fquo d t) = Ok q -> rep Q q -> Rabs q <= 2 ^ 500 ->
  reads_number (bdebye_scalar L bquad T T_D) (fdebye_scalar l quad t d).
Proof.
  intros [_ O] [_ S] Ht Hd Wt Wd B C Hq Bq. apply (rep_win _ _ 30 30 Ht) in Wt. apply (rep_win _ _ 30 30 Hd) in Wd. change (- Z.of_nat 30)%Z with (-30)%Z in *. change (Z.of_nat 30) with 30%Z in *.
  pose proof (win_quo _ _ _ _ _ _ _ _ Wt Wd ltac:(lia) ltac:(lia)) as Wr. cbn [Z.sub Z.add Z.opp Z.pos_sub Pos.add] in Wr. pose proof (win_rep _ _ _ _ Wr) as Rr. pose proof (win_pos _ _ _ _ Wr) as Pr. destruct Wr as [_ Hr].
  set (x := fquo t d) in *. assert (B60 : bpow radix2 (-60) = / 2 ^ 60) by (change (-60)%Z with (- Z.of_nat 60)%Z; rewrite bpow_opp, <- pow_bp; reflexivity). assert (B60' : bpow radix2 60 = 2 ^ 60) by (change 60%Z with (Z.of_nat 60); rewrite <- pow_bp; reflexivity).
  assert (L60 : / 2 ^ 70 <= x <= 2 ^ 70). { change (bpow radix2 (-30 - 30) <= x <= bpow radix2 (30 - -30)) in Hr. change (-30 - 30)%Z with (-60)%Z in Hr. change (30 - -30)%Z with 60%Z in Hr. rewrite B60, B60' in Hr. assert (2 ^ 60 <= 2 ^ 70) by (apply Rle_pow; lra || lia). assert (/ 2 ^ 70 <= / 2 ^ 60) by (apply Rinv_le_contravar; [apply pow_lt; lra|assumption]). lra. }
  destruct (O x (rep_double _ _ Rr) L60) as [_ A]. apply Rabs_le_inv in A. assert (Hu : unit_roundoff <= / 4). { unfold unit_roundoff. simpl pow. lra. }
  assert (Px : 0 < x ^ 3) by (apply pow_lt; exact Pr). assert (H1 : / 2 * x ^ 3 <= d_cube l x <= 2 * x ^ 3) by nra.
  assert (H2 : bpow radix2 (-210) <= x ^ 3 <= bpow radix2 210).
  { change (-210)%Z with (- Z.of_nat 210)%Z. change (bpow radix2 210) with (bpow radix2 (Z.of_nat 210)). rewrite bpow_opp, <- pow_bp. change 210%nat with (70 * 3)%nat. rewrite pow_mult, <- pow_inv. destruct L60. assert (0 < / 2 ^ 70) by (apply Rinv_0_lt_compat, pow_lt; lra). split; apply pow_incr; lra. }
  assert (H3 : bpow radix2 (-211) <= d_cube l x <= bpow radix2 211).
  { change (-211)%Z with (-1 + -210)%Z. change 211%Z with (1 + 210)%Z. rewrite !bpow_plus. change (bpow radix2 (-1)) with (/ 2). change (bpow radix2 1) with 2. lra. }
  assert (Wc : win (bd_cube L (bquo T T_D)) (d_cube l x) (-211) 211).
  { split; [|exact H3]. destruct (S _ _ Rr) as [R|(s & _ & G)]; [exact R|]. exfalso. assert (bpow radix2 211 < bpow radix2 1024) by (apply bpow_lt; lia). pose proof (bpow_gt_0 radix2 (-211)). destruct s; lra. }
  pose proof (win_mul _ _ _ _ _ _ _ _ (win_Z 3 ltac:(lia)) Wc ltac:(cbn; lia) ltac:(cbn; lia)) as W1. pose proof (win_mul _ _ _ _ _ _ _ _ W1 Wt ltac:(cbn; lia) ltac:(cbn; lia)) as W2.
  assert (Bq' : bnd Q q 500) by (split; [exact Hq|rewrite pow_bp in Bq; exact Bq]).
  pose proof (bnd_mul _ _ _ _ _ _ (win_bnd _ _ _ _ W2) Bq' ltac:(cbn; lia)) as W3. apply bnd_rep in W3.
  pose proof (win_not_zero _ _ _ _ Wt) as Z1. pose proof (win_not_zero _ _ _ _ Wd) as Z2. pose proof (win_pos _ _ _ _ Wt) as P1. pose proof (win_pos _ _ _ _ Wd) as P2.
  eexists _, _. split; [|split; [|exact W3]].
  - rewrite (debye_otherwise _ _ _ _ Z1 Z2). destruct (win_rep _ _ _ _ Wc) as [Fc _]. replace (binf (bd_cube L (bquo T T_D))) with false by (destruct (bd_cube L (bquo T T_D)); auto; discriminate). rewrite andb_false_r, B. reflexivity.
  - unfold fdebye_scalar. destruct (Req_EM_T d 0); [lra|]. destruct (Req_EM_T t 0); [lra|]. rewrite C. reflexivity.
Qed.

(** ** Correctly rounded functions *)
Lemma exp_double y a b : a <= exp y -> 0 <= a -> b <= a * a -> b <= exp (2 * y).
Proof. intros A P B. replace (2 * y) with (y + y) by ring. rewrite exp_plus. eapply Rle_trans; [exact B|]. apply Rmult_le_compat; assumption. Qed.
Lemma exp_709 : exp 709 <= bpow radix2 1023.
Proof.
  assert (E0 : 1 - 709 / 1023 / 4096 <= exp (- (709 / 1023 / 4096))) by (pose proof (exp_ineq1_le (- (709 / 1023 / 4096))); lra).
  pose proof (exp_double _ _ (999661620608 / 10 ^ 12) E0 ltac:(lra) ltac:(lra)) as E1.
  pose proof (exp_double _ _ (999323355716 / 10 ^ 12) E1 ltac:(lra) ltac:(lra)) as E2.
  pose proof (exp_double _ _ (998647169279 / 10 ^ 12) E2 ltac:(lra) ltac:(lra)) as E3.
  pose proof (exp_double _ _ (997296168708 / 10 ^ 12) E3 ltac:(lra) ltac:(lra)) as E4.
  pose proof (exp_double _ _ (994599648119 / 10 ^ 12) E4 ltac:(lra) ltac:(lra)) as E5.
  pose proof (exp_double _ _ (989228460038 / 10 ^ 12) E5 ltac:(lra) ltac:(lra)) as E6.
  pose proof (exp_double _ _ (978572946149 / 10 ^ 12) E6 ltac:(lra) ltac:(lra)) as E7.
  pose proof (exp_double _ _ (957605010934 / 10 ^ 12) E7 ltac:(lra) ltac:(lra)) as E8.
  pose proof (exp_double _ _ (917007356965 / 10 ^ 12) E8 ltac:(lra) ltac:(lra)) as E9.
  pose proof (exp_double _ _ (840902492727 / 10 ^ 12) E9 ltac:(lra) ltac:(lra)) as E10.
  pose proof (exp_double _ _ (707117002274 / 10 ^ 12) E10 ltac:(lra) ltac:(lra)) as E11.
  pose proof (exp_double _ _ (500014454904 / 10 ^ 12) E11 ltac:(lra) ltac:(lra)) as E12.
  set (y := 2 * _) in E12. assert (Y : y = - (709 / 1023)) by (unfold y; field). rewrite Y in E12. clear - E12.
  assert (E : exp (709 / 1023) <= 2). { rewrite exp_Ropp in E12. pose proof (exp_pos (709 / 1023)) as P. apply Rmult_le_reg_r with (/ exp (709 / 1023)); [now apply Rinv_0_lt_compat|]. rewrite Rinv_r by lra. lra. }
  change 1023%Z with (Z.of_nat 1023). rewrite <- pow_bp. replace 709 with (INR 1023 * (709 / 1023)) by (rewrite INR_IZR_INZ; change (Z.of_nat 1023) with 1023%Z; field).
  assert (X : forall n y, exp (INR n * y) = exp y ^ n). { intros n z. induction n as [|n IH]; [cbn [INR pow]; rewrite Rmult_0_l; apply exp_0|]. rewrite S_INR. cbn [pow]. rewrite <- IH, <- exp_plus. f_equal. ring. }
  rewrite X. apply pow_incr. split; [apply Rlt_le, exp_pos|exact E].
Qed.
Lemma correct_d_same : same_dlib correct_bdlib correct_dlib.
Proof.
  assert (E : forall b x, rep b x -> bd_exp correct_bdlib b = if Rle_dec x 709 then of_R (exp x) else B754_infinity false).
  { intros b x [F <-]. destruct b; try discriminate; reflexivity. }
  assert (Z0 : forall s, of_R (B2R (B754_zero s : b64) ^ 3) = of_Z 0). { intros s. cbn [B2R]. replace (0 ^ 3) with 0 by ring. apply of_R_0. }
  split.
  - intros b x R. rewrite (E b x R). unfold correct_dlib. cbn [d_exp]. destruct (Rle_dec x 709) as [H|H]; [|reflexivity]. split; [|apply rnd_nonneg, Rlt_le, exp_pos]. apply (bounded_rep _ 1023); [lia|].
    rewrite Rabs_pos_eq by (apply Rlt_le, exp_pos). eapply Rle_trans; [|apply exp_709]. destruct H as [H| ->]; [apply Rlt_le, exp_increasing, H|apply Rle_refl].
  - intros b x [F <-]. unfold correct_dlib. cbn [d_cube]. destruct b as [s|s| |s m e W]; try discriminate.
    + left. cbn [B2R]. replace (0 ^ 3) with 0 by ring. unfold rnd. rewrite round_0 by typeclasses eauto. split; reflexivity.
    + cbn [bd_cube correct_bdlib]. set (y := B2R (B754_finite s m e W) ^ 3). destruct (Rlt_dec (Rabs (rnd y)) big) as [H|H]; [left; now apply of_R_rep|right]. apply of_R_over. lra.
Qed.
Lemma correct_d_special : dlib_special correct_bdlib. Proof. repeat split. Qed.
(** A finite effective temperature that raises an exception. *)
Lemma debye_overflow quad : bdebye_scalar correct_bdlib quad (mass 400) (of_Z 1) = Raise OverflowError /\ B2R (mass 400) = 2 ^ 400 /\ 2 ^ 400 < lamb_temperature (2 ^ 400) 1 < 2 ^ 400 + 1.
Proof.
  destruct (mass_rep 400 ltac:(lia)) as [M1 M2]. change 400%Z with (Z.of_nat 400) in M2 at 2. rewrite <- pow_bp in M2. pose proof (pow_lt 2 400 ltac:(lra)) as P. split; [|split; [exact M2|destruct (lamb_bounds (2 ^ 400) 1 ltac:(lra) ltac:(lra)) as (A & _ & B & _); lra]].
  rewrite debye_otherwise by reflexivity. assert (D : double (2 ^ 400)) by (rewrite <- M2; apply (rep_double (mass 400)); now apply rep_refl).
  assert (Q : rep (bquo (mass 400) (of_Z 1)) (2 ^ 400)).
  { pose proof (quo_rep _ _ _ _ (conj M1 M2) one_rep ltac:(lra)) as H. unfold fquo in H. replace (2 ^ 400 / 1) with (2 ^ 400) in H by field. rewrite rnd_id in H by exact D. apply H. apply (rep_big (mass 400)). now split. }
  assert (X : over (bd_cube correct_bdlib (bquo (mass 400) (of_Z 1))) (rnd ((2 ^ 400) ^ 3))).
  { destruct (bquo (mass 400) (of_Z 1)) as [z|z| |z m e W] eqn:EQ; destruct Q as [Q1 Q2]; try discriminate. cbn [bd_cube correct_bdlib]. rewrite Q2. apply of_R_over. rewrite <- pow_mult. change (400 * 3)%nat with 1200%nat. rewrite pow_bp. assert (G : bpow radix2 1024 <= bpow radix2 1200) by (apply bpow_le; lia).
    change (Z.of_nat 1200) with 1200%Z. rewrite (rnd_id (bpow radix2 1200)) by (apply fmt_bp; lia). rewrite Rabs_pos_eq by apply bpow_ge_0. exact G. }
  destruct X as (s & X & _). rewrite X. destruct Q as [-> _]. reflexivity.
Qed.
Lemma aluminium_ieee : let bquad := (fun _ _ _ => Ok (of_Z 1)) : bquad_fn in let quad := (fun _ _ _ => Ok 1) : fquad_fn in
  same_quad (bdebye_integrand correct_bdlib) (fdebye_integrand correct_dlib) bquad quad /\ rep (of_Z 293) 293 /\ rep (of_Z 428) 428 /\ rep (of_Z 1) 1 /\
  exists v, bdebye_scalar correct_bdlib bquad (of_Z 293) (of_Z 428) = Ok v /\ finite v.
Proof.
  intros bquad quad. pose proof (Z_rep 293 ltac:(lia)) as A. pose proof (Z_rep 428 ltac:(lia)) as B. pose proof one_rep as C. split; [|split; [exact A|split; [exact B|split; [exact C|]]]].
  - intros x v _ _ E. apply ok_eq in E. subst v. unfold quad. now rewrite (proj2 one_rep).
  - destruct (debye_range correct_bdlib correct_dlib bquad quad _ _ _ _ (of_Z 1) 1 correct_dlib_ok correct_d_same A B) as (b & x & E & _ & F); try reflexivity; try exact C; try (simpl pow; lra).
    + rewrite Rabs_R1. apply pow_R1_Rle. lra.
    + exists b. split; [exact E|exact (proj1 F)].
Qed.
